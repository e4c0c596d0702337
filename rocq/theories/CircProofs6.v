(** Circular regions: horizontal flips (proofs). *)
From Coq Require Import ZArith List Bool Lia.
From Verif Require Import PyBase PyFacts Spec Bmp BmpFacts PixelProofs PlotList Buffers Region Raster VertProofs RectProofs HorizProofs
  Geometry GeomProofs Draw DrawProofs DrawProofs4 Filters FilterProofs FilterProofs2 Circle
  CircProofs CircProofs2 CircProofs3 CircProofs4 CircProofs5.
Import ListNotations.
Open Scope Z_scope.
Open Scope py_scope.
Ltac Zify.zify_post_hook ::= Z.to_euclidean_division_equations.

Definition hhgt (l : list (Z * Z)) (v : Z) : Z :=
  match find (fun p => fst p =? v) l with Some p => snd p | None => -1 end.
Lemma hhgt_in l a v : NoDup (map fst l) -> In (v, a) l -> hhgt l v = a.
Proof.
  intros ND Hin. unfold hhgt. induction l as [|[v' a'] l IH]; [destruct Hin|].
  cbn [find fst]. cbn [map fst] in ND. inversion ND as [|? ? NI ND']; subst.
  destruct Hin as [E|Hin].
  - inversion E; subst. rewrite Z.eqb_refl. reflexivity.
  - destruct (Z.eqb_spec v' v) as [->|]; [|now apply IH]. exfalso. apply NI. apply (in_map fst) in Hin. exact Hin.
Qed.

Lemma ring_circle r a c : 0 <= a -> 0 <= c -> on_ring r a c = true <-> on_circle r (a, c).
Proof.
  intros Ha Hc. unfold on_ring, on_circle, cerr. cbv zeta. cbn [fst snd]. rewrite !Z.abs_eq by auto.
  rewrite andb_true_iff, !Z.leb_le. lia.
Qed.
Lemma ring_abs r dx c : on_ring r dx c = on_ring r (Z.abs dx) c.
Proof. unfold on_ring. rewrite Z.abs_involutive. now rewrite <- (Z.abs_square dx). Qed.

Lemma disc_mono v d e : 0 <= d <= e -> d * d - Z.max 0 (Z.max v d - 1) <= e * e - Z.max 0 (Z.max v e - 1).
Proof.
  intros H. assert (A : Z.max 0 (Z.max v e - 1) - Z.max 0 (Z.max v d - 1) <= e - d) by lia.
  assert (d = e \/ e - d <= e * e - d * d) as [-> | B] by nia; lia.
Qed.
(** minimal heights and the disc *)
Lemma min_height r v hh d : 0 <= r -> 0 <= v -> 0 <= d -> on_circle r (v, hh) -> (forall c, on_circle r (v, c) -> hh <= c) ->
  d <= hh <-> in_disc r v d && ((d =? 0) || negb (on_ring r v (d - 1))) = true.
Proof.
  intros Hr Hv Hd HC Hm.
  pose proof (proj1 (proj2 HC)) as Hh. cbn [snd] in Hh.
  rewrite andb_true_iff, orb_true_iff, negb_true_iff, Z.eqb_eq. split.
  - intros L. split.
    + unfold on_circle, cerr in HC. cbn [fst snd] in HC. unfold in_disc. cbv zeta. rewrite !Z.abs_eq by auto.
      apply Z.leb_le. destruct HC as (_ & _ & _ & HC). pose proof (disc_mono v d hh ltac:(lia)) as M. clear - HC M. lia.
    + destruct (Z.eq_dec d 0) as [|N]; [now left|right]. destruct (on_ring r v (d - 1)) eqn:E; auto. exfalso.
      apply ring_circle in E; [|lia|lia]. apply Hm in E. lia.
  - intros [HD [->|HN]]; [lia|]. destruct (Z.le_gt_cases d hh) as [|G]; auto. exfalso.
    assert (E : on_ring r v (d - 1) = true); [|congruence]. apply ring_circle; [lia|lia|].
    unfold in_disc in HD. cbv zeta in HD. rewrite !Z.abs_eq in HD by auto. apply Z.leb_le in HD.
    unfold on_circle, cerr in *. cbn [fst snd] in *. destruct HC as (_ & _ & HC). split; [lia|]. split; [lia|].
    clear Hm HN. split.
    + assert (M : Z.max v hh <= Z.max v (d - 1)) by lia. destruct HC as [HC _]. clear HD.
      assert (hh * hh <= (d - 1) * (d - 1)) by nia. lia.
    + clear HC. pose proof (disc_mono v (d - 1) d ltac:(lia)) as M. clear - HD M. lia.
Qed.

Section Cols.
  Variables (r : Z) (l : list (Z * Z)).
  Hypothesis Hr : 0 <= r.
  Hypothesis El : itercirclepartvertlineedge r = Ok l.
  Lemma col_facts : NoDup (map fst l) /\ (forall v, In v (map fst l) <-> 0 <= v <= r) /\
    (forall v hh, In (v, hh) l -> on_circle r (v, hh) /\ forall c, on_circle r (v, c) -> hh <= c).
  Proof.
    destruct (itercirclepartvertlineedge_run r Hr) as (l' & E & A). rewrite El in E. inversion E; subst. exact A.
  Qed.
  Lemma col_part_hgt dx dy : Z.abs dx <= r -> (Z.abs dy <= hhgt l (Z.abs dx)) <-> col_part r dx dy = true.
  Proof.
    intros Hx. destruct col_facts as (ND & Hv & Hl).
    pose proof (proj2 (Hv (Z.abs dx)) ltac:(lia)) as I. apply in_map_iff in I. destruct I as ([v hh] & E & I).
    cbn [fst] in E. subst v. rewrite (hhgt_in l hh) by auto. destruct (Hl _ _ I) as [H1 H2].
    rewrite (min_height r (Z.abs dx) hh (Z.abs dy)) by (auto; lia).
    unfold col_part. rewrite <- ring_abs, <- in_disc_abs.
    replace (Z.abs dy =? 0) with (dy =? 0) by (clear; lia). reflexivity.
  Qed.
  Lemma col_part_far dx dy : r < Z.abs dx -> col_part r dx dy = false.
  Proof. intros H. unfold col_part. rewrite disc_swap, disc_far by auto. reflexivity. Qed.
End Cols.

Definition hsrc (op : hop) (x px : Z) : Z :=
  match op with HF => 2 * x - px | HL => Z.min px (2 * x - px) | HR => Z.max px (2 * x - px) end.

Section Hori.
  Variables (b : list Z) (w h bits r x y p : Z) (o : list msg) (op : hop).
  Variable sw : Z -> Z -> Z -> Z -> Z -> M unit.
  Hypothesis W : wf b w h bits.
  Hypothesis Hr : 0 <= r.
  Hypothesis X1 : 0 <= x - r.
  Hypothesis X2 : x + r < w.
  Hypothesis Y1 : 0 <= y - r.
  Hypothesis Y2 : y + r < h.
  Hypothesis Hp : 0 < p.
  Hypothesis Ep : forall c, c * bits / 8 = p * c.
  Hypothesis Hst : p * w <= stride w bits.
  Hypothesis Hsw : forall ya yb, 0 <= ya -> ya <= yb -> yb < h -> step_ok w h bits ya yb op idf p sw.

  Definition horF (k y' : Z) : Z :=
    if col_part r (k / p - x) (y' - y) then raster b w h bits (p * hsrc op x (k / p) + k mod p) y' else raster b w h bits k y'.

  Lemma hori_loop l : itercirclepartvertlineedge r = Ok l ->
    exists b', forM l (fun v =>
      let (x1, x2) := mirror x (fst v) in
      let (y1, y2) := mirror y (snd v) in
      k <- rd xchrcnt ;;
      s1 <- rd (bmoffsethd x1 y2) ;;
      e1 <- rd (bmoffsethd x1 y1) ;;
      s2 <- rd (bmoffsethd x2 y2) ;;
      e2 <- rd (bmoffsethd x2 y1) ;;
      sw s1 (e1 + k) s2 (e2 + k) k) (mkst b o) = (Ok tt, mkst b' o) /\ rastered b b' w h bits horF.
  Proof.
    intros El. destruct (col_facts r l Hr El) as (ND & Hv & Hl).
    match goal with |- exists b', forM l ?body _ = _ /\ _ =>
      destruct (keyed_loop b w h bits o fst (fun k _ => Z.abs (k / p - x)) horF body l) as (b' & E & R) end.
    - exact ND.
    - intros [v hh] b1 Hin W1 H1. pose proof (proj1 (Hl _ _ Hin)) as HC.
      pose proof (on_circle_bound r _ Hr HC) as HB. cbn [fst snd] in HB. destruct HB as [Bv Bh].
      cbn [fst snd mirror]. unfold mirror.
      rewrite (bind_ok _ _ _ _ _ (run_rd _ _ _ _ (wf_rxchr _ _ _ _ W1))). offs W1. rewrite !Ep.
      destruct (Hsw (y - hh) (y + hh) ltac:(lia) ltac:(lia) ltac:(lia) b1 o (p * (x - v)) (p * (x + v)) W1) as (b2 & E2 & R2);
        [clear - Hp X1 Bv; nia|clear - Hp X1 X2 Bv Hst; nia|clear - Hp X1 Bv; nia|clear - Hp X2 Bv Hst; nia|
         clear - Hp Bv; destruct (Z.eq_dec v 0) as [->|]; [right; f_equal; lia|left; nia]|].
      exists b2. split; [exact E2|]. eapply rastered_ext; [|exact R2]. intros k y' Hk Hy. unfold hstepG, idf.
      assert (Dm : k = p * (k / p) + k mod p /\ 0 <= k mod p < p) by (clear - Hp; split; [apply Z.div_mod|apply Z.mod_pos_bound]; lia).
      assert (I1 : incols (p * (x - v)) p k = (k / p =? x - v)).
      { unfold incols. clear - Dm Hp. set (q := k / p) in *. set (m := k mod p) in *. clearbody q m.
        apply eq_true_iff_eq. rewrite andb_true_iff, Z.leb_le, Z.ltb_lt, Z.eqb_eq. nia. }
      assert (I2 : incols (p * (x + v)) p k = (k / p =? x + v)).
      { unfold incols. clear - Dm Hp. set (q := k / p) in *. set (m := k mod p) in *. clearbody q m.
        apply eq_true_iff_eq. rewrite andb_true_iff, Z.leb_le, Z.ltb_lt, Z.eqb_eq. nia. }
      rewrite I1, I2. cbn [fst]. destruct (Z.eqb_spec (Z.abs (k / p - x)) v) as [E|N].
      + unfold horF.
        assert (CP : col_part r (k / p - x) (y' - y) = (y - hh <=? y') && (y' <=? y + hh)).
        { apply eq_true_iff_eq. rewrite <- (col_part_hgt r l Hr El) by (clear - E Bv; lia). rewrite E, (hhgt_in l hh) by auto.
          rewrite andb_true_iff, !Z.leb_le. clear. lia. }
        rewrite CP. destruct ((y - hh <=? y') && (y' <=? y + hh)); [|now apply H1].
        assert (E' : k / p = x + v \/ k / p = x - v) by (clear - E; lia).
        assert (SRC : forall c, c = x - v \/ c = x + v ->
          raster b1 w h bits (p * c + k mod p) y' = raster b w h bits (p * c + k mod p) y').
        { intros c Hc. apply H1; auto.
          - clear - Hc Dm Hp X1 X2 Bv Hst. destruct Hc as [-> | ->]; nia.
          - cbn [fst]. replace ((p * c + k mod p) / p) with c; [clear - Hc Bv; lia|].
            apply (Z.div_unique _ _ _ (k mod p)); [left; apply Dm|reflexivity]. }
        assert (S1 : p * (x - v) + (k - p * (x + v)) = p * (x - v) + k mod p + p * (k / p - (x + v))) by (clear - Dm; lia).
        assert (S2 : p * (x + v) + (k - p * (x - v)) = p * (x + v) + k mod p + p * (k / p - (x - v))) by (clear - Dm; lia).
        assert (SK : raster b1 w h bits k y' = raster b w h bits (p * (k / p) + k mod p) y').
        { rewrite <- (proj1 Dm). apply H1; auto. }
        destruct (Z.eqb_spec (k / p) (x + v)) as [Ea|Na].
        * rewrite S1. replace (k / p - (x + v)) with 0 by (clear - Ea; lia). rewrite Z.mul_0_r, Z.add_0_r.
          destruct op; cbn [wr1 wr2 andb hsrc].
          -- rewrite SRC by auto. f_equal. rewrite Ea. f_equal. f_equal. clear; lia.
          -- rewrite SRC by auto. f_equal. rewrite Ea. f_equal. f_equal. clear - Bv; lia.
          -- destruct (Z.eqb_spec (k / p) (x - v)) as [Eb|Nb].
             ++ rewrite S2. replace (k / p - (x - v)) with 0 by (clear - Eb; lia). rewrite Z.mul_0_r, Z.add_0_r.
                rewrite SRC by auto. f_equal. rewrite Ea. f_equal. f_equal. clear - Ea Eb Bv; lia.
             ++ rewrite SK. f_equal. rewrite Ea. f_equal. f_equal. clear - Bv; lia.
        * destruct E' as [E'|E']; [contradiction|]. rewrite andb_false_r. cbv iota.
          replace (k / p =? x - v) with true by (clear - E'; lia). rewrite andb_true_r.
          rewrite S2. replace (k / p - (x - v)) with 0 by (clear - E'; lia). rewrite Z.mul_0_r, Z.add_0_r.
          destruct op; cbn [wr1 hsrc].
          -- rewrite SRC by auto. f_equal. rewrite E'. f_equal. f_equal. clear; lia.
          -- rewrite SK. f_equal. rewrite E'. f_equal. f_equal. clear - Bv; lia.
          -- rewrite SRC by auto. f_equal. rewrite E'. f_equal. f_equal. clear - Bv; lia.
      + replace (k / p =? x + v) with false by (clear - N Bv; lia). replace (k / p =? x - v) with false by (clear - N Bv; lia).
        rewrite !andb_false_r. now destruct (_ && _).
    - exact W.
    - exists b'. split; [exact E|]. eapply rastered_ext; [|exact R]. intros k y' Hk Hy. cbn beta.
      destruct (memz (Z.abs (k / p - x)) (map fst l)) eqn:M; auto. apply memz_not in M. rewrite Hv in M.
      unfold horF. rewrite (col_part_far r Hr) by (clear - M; lia). reflexivity.
  Qed.

  Lemma hori_repaint b' : bits = 8 /\ p = 1 \/ bits = 24 /\ p = 3 -> rastered b b' w h bits horF ->
    repainted b b' w h bits (fun px py => if col_part r (px - x) (py - y) then pixel b w h bits (hsrc op x px) py
      else pixel b w h bits px py).
  Proof.
    intros D R. eapply rastered_repainted; [exact R|]. intros px py [Hx Hy]. unfold horF.
    rewrite !pixel_raster. clear - D. destruct D as [[-> ->]|[-> ->]]; unfold rowpix; cbn [Z.eqb Pos.eqb].
    - rewrite !Z.div_mul by lia. rewrite !Z.div_1_r, !Z.mod_1_r, !Z.add_0_r, !Z.mul_1_l.
      replace ((px * 8) mod 8) with 0 by (clear; lia). replace ((hsrc op x px * 8) mod 8) with 0 by (clear; lia).
      now destruct (col_part r (px - x) (py - y)).
    - replace (3 * px / 3) with px by (clear; lia). replace ((3 * px + 1) / 3) with px by (clear; lia).
      replace ((3 * px + 2) / 3) with px by (clear; lia).
      replace ((3 * px) mod 3) with 0 by (clear; lia). replace ((3 * px + 1) mod 3) with 1 by (clear; lia).
      replace ((3 * px + 2) mod 3) with 2 by (clear; lia). rewrite Z.add_0_r.
      now destruct (col_part r (px - x) (py - y)).
  Qed.
End Hori.

Definition hop_of (t : htrans) : hop := match t with XF => HF | XR => HR | XL => HL end.

Lemma hori_run b w h bits o x y r t : wf b w h bits -> bits = 8 \/ bits = 24 -> 0 <= r ->
  0 <= x - r -> x + r < w -> 0 <= y - r -> y + r < h ->
  exists b', horitransformincircregion x y r t (mkst b o) = (Ok (Some tt), mkst b' o) /\
    repainted b b' w h bits (fun px py => if col_part r (px - x) (py - y) then pixel b w h bits (hsrc (hop_of t) x px) py
      else pixel b w h bits px py).
Proof.
  intros W Hb Hr X1 X2 Y1 Y2. unfold horitransformincircregion. rewrite (cguard8_run b w h bits) by auto.
  replace ((bits =? 24) || (bits =? 8)) with true by (clear - Hb; lia).
  replace (((0 <=? x - r) && (x + r <? w)) && ((0 <=? y - r) && (y + r <? h))) with true by (clear - X1 X2 Y1 Y2; lia).
  unfold withSome. rewrite bind_assoc, (bind_ok _ _ _ _ _ (wf_geti_bits _ _ _ _ W _)).
  destruct (itercirclepartvertlineedge_run r Hr) as (l & El & _).
  rewrite bind_assoc, (bind_ok _ _ _ _ _ (run_lift _ _ _ _ El)).
  destruct Hb as [-> | ->].
  - change (8 =? 8) with true. cbv iota.
    destruct (hori_loop b w h 8 r x y 1 o (hop_of t) (circhswap8 t) W Hr X1 X2 Y1 Y2 ltac:(lia)) with (l := l) as (b' & E & R); auto.
    + intros c. clear. lia.
    + destruct (row_fit w 8 (w - 1) (wf_depth _ _ _ _ W) ltac:(lia)) as [_ K]. unfold pbytes in K. change (8 =? 24) with false in K. cbv iota in K. lia.
    + intros ya yb A1 A2 A3. pose proof (step8 w h 8 ya yb (conj (conj A1 A2) A3) (hop_of t) eq_refl) as S. destruct t; exact S.
    + exists b'. split; [now rewrite (bind_ok _ _ _ _ _ E)|]. apply (hori_repaint b w h 8 r x y 1); auto.
  - change (24 =? 8) with false. cbv iota.
    destruct (hori_loop b w h 24 r x y 3 o (hop_of t) (circhswap24 t) W Hr X1 X2 Y1 Y2 ltac:(lia)) with (l := l) as (b' & E & R); auto.
    + intros c. clear. lia.
    + destruct (row_fit w 24 (w - 1) (wf_depth _ _ _ _ W) ltac:(lia)) as [_ K]. unfold pbytes in K. change (24 =? 24) with true in K. cbv iota in K. lia.
    + intros ya yb A1 A2 A3. pose proof (step24 w h 24 ya yb (conj (conj A1 A2) A3) (hop_of t) eq_refl) as S. destruct t; exact S.
    + exists b'. split; [now rewrite (bind_ok _ _ _ _ _ E)|]. apply (hori_repaint b w h 24 r x y 3); auto.
Qed.
