(** flipXYcircregion (proofs). *)
From Coq Require Import ZArith List Bool Lia.
From Verif Require Import PyBase PyFacts Spec Bmp BmpFacts PixelProofs PlotList Buffers Region Raster VertProofs RectProofs HorizProofs
  RectProofs2 UpProofs ResizeProofs TransProofs Geometry GeomProofs Draw DrawProofs DrawProofs4 Filters FilterProofs FilterProofs2 Circle
  CircProofs CircProofs2 CircProofs3 CircProofs4 CircProofs5.
Import ListNotations.
Open Scope Z_scope.
Open Scope py_scope.
Ltac Zify.zify_post_hook ::= Z.to_euclidean_division_equations.

Lemma forM_map {A B} (g : A -> B) (f : B -> M unit) l s : forM (map g l) f s = forM l (fun a => f (g a)) s.
Proof.
  revert s. induction l as [|a l IH]; intros s; [reflexivity|]. cbn [map]. rewrite !forM_cons. unfold bind.
  destruct (f (g a) s) as [[[]|e] s']; auto.
Qed.

(** ** a column between two rows, bottom row first *)
Section VertGet.
  Variables (b : list Z) (w h bits p x ya yb : Z).
  Hypothesis W : wf b w h bits.
  Hypothesis Hb : bits = 8 /\ p = 1 \/ bits = 24 /\ p = 3.
  Hypothesis Hx : 0 <= x < w.
  Hypothesis Hy : 0 <= ya <= yb.
  Hypothesis Hy2 : yb < h.
  Lemma vertget_gen o : exists buf, vertBMPbitBLTget x ya yb (mkst b o) = (Ok (Some buf), mkst b o) /\
    bytes buf /\ zlen buf = p * (yb - ya + 1) /\
    forall j, 0 <= j < p * (yb - ya + 1) -> getz buf j = raster b w h bits (p * x + j mod p) (yb - j / p).
  Proof.
    unfold vertBMPbitBLTget. rewrite (bind_ok _ _ _ _ _ (wf_geti_bits _ _ _ _ W _)).
    rewrite (bind_ok _ _ _ _ _ (run_rd _ _ _ _ (wf_rxchr _ _ _ _ W))).
    rewrite (bind_ok _ _ _ _ _ (run_rd _ _ _ _ (getmaxxy_ok _ _ _ _ W))). cbn [fst snd].
    unfold isinrange. replace ((x >? -1) && (x <? w)) with true by (clear - Hx; lia).
    unfold swapif. replace (ya >? yb) with false by (clear - Hy; lia).
    unfold setmin, setmax. replace (ya <? 0) with false by (clear - Hy; lia). replace (yb >? h - 1) with false by (clear - Hy2; lia).
    rewrite (bind_ok _ _ _ _ _ (run_rd _ _ _ _ (wf_offsethd _ _ _ _ W _ _))).
    rewrite (bind_ok _ _ _ _ _ (run_rd _ _ _ _ (wf_offsethd _ _ _ _ W _ _))).
    rewrite !baddr_rowaddr.
    destruct (row_fit w bits x (wf_depth _ _ _ _ W) Hx) as [R1 R2].
    assert (Ek : x * bits / 8 = p * x) by (clear - Hb; lia). rewrite Ek in *. remember (p * x) as k eqn:Ek'.
    assert (CG : forall t e, 0 <= t < p -> rowaddr w h bits ya + (k + t) < e <= rowaddr w h bits ya + (k + t) + stride w bits ->
       let v := py_xslice b (rowaddr w h bits yb + k + t) e (stride w bits) in
       zlen v = yb - ya + 1 /\ bytes v /\ forall i, 0 <= i < yb - ya + 1 -> getz v i = raster b w h bits (k + t) (yb - i)).
    { intros t e Ht He v.
      assert (K : 0 <= k + t < stride w bits) by (unfold pbytes in R2; destruct Hb as [[-> ->]|[-> ->]]; cbn in R2; lia).
      destruct (col_get b w h bits ya yb (k + t) e W ltac:(lia) K He) as (C1 & C2 & C3).
      replace (rowaddr w h bits yb + (k + t)) with (rowaddr w h bits yb + k + t) in C1, C2, C3 by ring.
      fold v in C1, C2, C3. auto. }
    assert (S4 : 4 <= stride w bits) by (apply stride_ge4; unfold pbytes in R2; destruct (bits =? 24); lia).
    destruct Hb as [[E8 Ep]|[E24 Ep]].
    - replace (bits =? 24) with false by (clear - E8; lia). rewrite Ep in CG.
      rewrite (bind_ok _ _ _ _ _ (run_xslice _ _ _ _ _)).
      destruct (CG 0 (rowaddr w h bits ya + k + stride w bits)) as (A1 & A2 & A3); [lia|lia|].
      rewrite Z.add_0_r in A1, A2, A3.
      eexists. split; [reflexivity|]. split; [exact A2|]. split; [rewrite A1, Ep; lia|].
      intros j Hj. rewrite Ep in *. rewrite A3 by lia. rewrite Z.mod_1_r, Z.div_1_r. reflexivity.
    - replace (bits =? 24) with true by (clear - E24; lia). rewrite Ep in CG.
      destruct (CG 0 (rowaddr w h bits ya + k + stride w bits - 2)) as (A1 & A2 & A3); [lia|lia|].
      destruct (CG 1 (rowaddr w h bits ya + k + stride w bits - 1)) as (B1 & B2 & B3); [lia|lia|].
      destruct (CG 2 (rowaddr w h bits ya + k + stride w bits)) as (C1 & C2 & C3); [lia|lia|].
      rewrite Z.add_0_r in A1, A2, A3.
      rewrite (bind_ok _ _ _ _ _ (run_xslice _ _ _ _ _)).
      rewrite (bind_ok _ _ _ _ _ (run_xslice _ _ _ _ _)).
      rewrite (bind_ok _ _ _ _ _ (run_xslice _ _ _ _ _)).
      set (ca := py_xslice b (rowaddr w h bits yb + k) _ _) in *.
      set (cb := py_xslice b (rowaddr w h bits yb + k + 1) _ _) in *.
      set (cc := py_xslice b (rowaddr w h bits yb + k + 2) _ _) in *.
      assert (BI : bytes (interleave3 ca cb cc)) by (apply interleave_bytes; auto).
      rewrite (bind_ok _ _ _ (interleave3 ca cb cc) (mkst b o)) by (apply run_lift, py_array_ok, BI).
      destruct (interleave_spec (Z.to_nat (yb - ya + 1)) ca cb cc) as (L & G); try (rewrite Z2Nat.id; lia).
      rewrite Z2Nat.id in L, G by lia.
      eexists. split; [reflexivity|]. split; [exact BI|]. split; [rewrite L, Ep; lia|].
      intros j Hj. rewrite Ep in *. destruct (G (j / 3) ltac:(clear - Hj; lia)) as (G0 & G1 & G2).
      assert (J : 0 <= j / 3 < yb - ya + 1) by (clear - Hj; lia).
      assert (j mod 3 = 0 \/ j mod 3 = 1 \/ j mod 3 = 2) as [M | [M | M]] by (clear; lia); rewrite M.
      + replace j with (3 * (j / 3)) at 1 by (clear - M; lia). rewrite G0, A3 by exact J. now rewrite Z.add_0_r.
      + replace j with (3 * (j / 3) + 1) at 1 by (clear - M; lia). rewrite G1, B3 by exact J. reflexivity.
      + replace j with (3 * (j / 3) + 2) at 1 by (clear - M; lia). rewrite G2, C3 by exact J. reflexivity.
  Qed.
End VertGet.

Section Rot.
  Variables (b : list Z) (w h bits p r x y : Z) (o : list msg).
  Hypothesis W : wf b w h bits.
  Hypothesis Hb : bits = 8 /\ p = 1 \/ bits = 24 /\ p = 3.
  Hypothesis Hr : 0 <= r.
  Hypothesis X1 : 0 <= x - r.
  Hypothesis X2 : x + r < w.
  Hypothesis Y1 : 0 <= y - r.
  Hypothesis Y2 : y + r < h.
  Hypothesis Y3 : y + r < w.
  Notation ra := (rowaddr w h bits).
  Definition rotV (k y' : Z) : Z := raster b w h bits (p * (x + (y' - y)) + k mod p) (y - (k / p - x)).

  Lemma rot_two b1 k1 k2 v u1 u2 : wf b1 w h bits -> 0 <= v <= r -> 0 <= k1 <= k2 -> k2 <= stride w bits ->
    zlen u1 = k2 - k1 -> bytes u1 -> zlen u2 = k2 - k1 -> bytes u2 ->
    (forall i, 0 <= i < k2 - k1 -> getz u1 i = rotV (k1 + i) (y - v)) ->
    (forall i, 0 <= i < k2 - k1 -> getz u2 i = rotV (k1 + i) (y + v)) ->
    exists b2 b3, slice_set (ra (y - v) + k1) (ra (y - v) + k2) u1 (mkst b1 o) = (Ok tt, mkst b2 o) /\
      wf b2 w h bits /\ slice_set (ra (y + v) + k1) (ra (y + v) + k2) u2 (mkst b2 o) = (Ok tt, mkst b3 o) /\
      rastered b1 b3 w h bits (fun k y' => if (Z.abs (y' - y) =? v) && ((k1 <=? k) && (k <? k2))
          then rotV k y' else raster b1 w h bits k y').
  Proof.
    intros W1 Hv Hk Hk2 L1 B1 L2 B2 G1 G2. pose proof (data_off_ge bits (wf_depth _ _ _ _ W)) as D.
    destruct (rowaddr_bounds _ _ _ _ (y - v) W1 ltac:(lia)) as [A1 _]. destruct (rowaddr_bounds _ _ _ _ (y + v) W1 ltac:(lia)) as [A2 _].
    destruct (put_part b1 w h bits o (y - v) k1 k2 u1 W1) as (b2 & E2 & R2); [lia|lia|lia|lia|lia|auto|].
    pose proof (rastered_wf _ _ _ _ _ _ R2) as W2.
    destruct (put_part b2 w h bits o (y + v) k1 k2 u2 W2) as (b3 & E3 & R3); [lia|lia|lia|lia|lia|auto|].
    exists b2, b3. split; [exact E2|]. split; [exact W2|]. split; [exact E3|].
    eapply rastered_trans; [exact R2|]. eapply rastered_ext; [|exact R3]. intros k y' Hk' Hy. cbn beta.
    rewrite (proj2 (proj2 R2)) by auto. cbn beta.
    destruct ((k1 <=? k) && (k <? k2)) eqn:C; rewrite ?andb_true_r, ?andb_false_r; auto.
    destruct (Z.eqb_spec y' (y + v)) as [->|N2].
    - replace (Z.abs (y + v - y) =? v) with true by (clear - Hv; lia).
      rewrite G2 by (clear - C; lia). f_equal. clear. lia.
    - destruct (Z.eqb_spec y' (y - v)) as [->|N1].
      + replace (Z.abs (y - v - y) =? v) with true by (clear - Hv; lia).
        rewrite G1 by (clear - C; lia). f_equal. clear. lia.
      + replace (Z.abs (y' - y) =? v) with false by (clear - N1 N2; lia). reflexivity.
  Qed.

  Definition colof (x' y1' y2' : Z) : option (list Z) :=
    match fst (vertBMPbitBLTget x' y1' y2' (mkst b o)) with Ok v => v | Err _ => None end.
  Definition rotrow (v : Z * Z) : Z * Z * Z * Z * option (list Z) * option (list Z) :=
    (x - fst v, y - snd v, x + fst v + 1, y + snd v, colof (x - snd v) (y - fst v) (y + fst v), colof (x + snd v) (y - fst v) (y + fst v)).

  Lemma rot_run : exists b', flipXYcircregion x y r (mkst b o) = (Ok (Some tt), mkst b' o) /\
    repainted b b' w h bits (fun px py => if in_disc r (px - x) (py - y) then pixel b w h bits (x + (py - y)) (y - (px - x))
      else pixel b w h bits px py).
  Proof.
    unfold flipXYcircregion. rewrite (cguard_run b w h bits) by auto.
    replace (((0 <=? x - r) && (x + r <? w)) && ((0 <=? y - r) && (y + r <? w))) with true by (clear - X1 X2 Y1 Y3; lia).
    unfold withSome. rewrite bind_assoc, (bind_ok _ _ _ _ _ (wf_geti_bits _ _ _ _ W _)).
    destruct (itercirclepartlineedge_run r Hr) as (l & El & _).
    rewrite bind_assoc, (bind_ok _ _ _ _ _ (run_lift _ _ _ _ El)).
    replace (negb ((bits =? 24) || (bits =? 8))) with false by (clear - Hb; lia).
    pose proof (wf_depth _ _ _ _ W) as Hd.
    assert (COL : forall x' a, 0 <= x' < w -> 0 <= a <= r -> exists buf, vertBMPbitBLTget x' (y - a) (y + a) (mkst b o) = (Ok (Some buf), mkst b o) /\
       colof x' (y - a) (y + a) = Some buf /\ bytes buf /\ zlen buf = p * (2 * a + 1) /\
       forall j, 0 <= j < p * (2 * a + 1) -> getz buf j = raster b w h bits (p * x' + j mod p) (y + a - j / p)).
    { intros x' a Hx' Ha. destruct (vertget_gen b w h bits p x' (y - a) (y + a) W Hb Hx' ltac:(lia) ltac:(lia) o) as (buf & E & B & L & G).
      exists buf. split; [exact E|]. split; [unfold colof; now rewrite E|]. split; [exact B|].
      replace (y + a - (y - a) + 1) with (2 * a + 1) in L, G by ring. auto. }
    rewrite bind_assoc.
    match goal with |- exists b', bind (foldM ?f _ _) _ _ = _ /\ _ =>
      destruct (foldM_list_inv (fun done acc s => acc = map rotrow done /\ s = mkst b o) f l [] (mkst b o)) as (rows & s & E & -> & ->) end.
    { auto. }
    { intros done [a v] todo acc s Hl [-> ->]. cbn [fst snd mirror]. unfold mirror.
      assert (Hin : In (a, v) l) by (rewrite Hl, in_app_iff; cbn; auto).
      destruct (in_hw r l Hr El _ Hin) as (Ha & Hv & _). cbn [fst snd] in Ha, Hv.
      destruct (COL (x - v) a ltac:(clear - X1 X2 Hv; lia) Ha) as (ba & Ea & Ca & _).
      destruct (COL (x + v) a ltac:(clear - X1 X2 Hv; lia) Ha) as (bb & Eb & Cb & _).
      rewrite (bind_ok _ _ _ _ _ Ea), (bind_ok _ _ _ _ _ Eb). eexists _, _. split; [reflexivity|]. split; auto.
      rewrite map_app. cbn [map]. unfold rotrow at 3. cbn [fst snd]. rewrite Ca, Cb. reflexivity. }
    rewrite (bind_ok _ _ _ _ _ E). clear E.
    destruct (keyed_loop b w h bits o snd (fun _ y' => Z.abs (y' - y))
      (fun k y' => if Z.abs (k / p - x) <=? hwid l (Z.abs (y' - y)) then rotV k y' else raster b w h bits k y')
      (fun v => (fun q => let '(x1, y1, x2, y2, p, q) := q in
        s <- rd (bmoffsethd x1 y1) ;; e <- rd (bmoffsethd x2 y1) ;;
        match p with None => raise TypeError | Some p => slice_set s e p end ;;;
        s <- rd (bmoffsethd x1 y2) ;; e <- rd (bmoffsethd x2 y2) ;;
        match q with None => raise TypeError | Some q => slice_set s e q end) (rotrow v)) l) as (b' & E & R).
    - apply (disc_facts r l Hr El).
    - intros [a v] b1 Hin W1 H1. destruct (in_hw r l Hr El _ Hin) as (Ha & Hv & Eh). cbn [fst snd] in Ha, Hv, Eh.
      destruct (COL (x - v) a ltac:(clear - X1 X2 Hv; lia) Ha) as (ba & _ & Ca & Ba & La & Ga).
      destruct (COL (x + v) a ltac:(clear - X1 X2 Hv; lia) Ha) as (bb & _ & Cb & Bb & Lb & Gb).
      unfold rotrow. cbn [fst snd]. rewrite Ca, Cb. offs W1.
      assert (EB : forall c, c * bits / 8 = p * c) by (intros c; clear - Hb; lia). rewrite !EB.
      assert (Pp : p = 1 \/ p = 3) by (clear - Hb; lia).
      assert (ST : p * w <= stride w bits).
      { destruct (row_fit w bits (w - 1) Hd ltac:(lia)) as [_ K]. rewrite EB in K. clear - K Hb. unfold pbytes in K.
        destruct Hb as [[-> ->]|[-> ->]]; [change (8 =? 24) with false in K|change (24 =? 24) with true in K]; cbv iota in K; set (S := stride _ _) in *; clearbody S; lia. }
      assert (DM : forall i, (p * (x - a) + i) mod p = i mod p /\ (p * (x - a) + i) / p = x - a + i / p).
      { intros i. clear - Pp. destruct Pp as [-> | ->]; lia. }
      destruct (rot_two b1 (p * (x - a)) (p * (x + a + 1)) v ba bb W1 Hv) as (b2 & b3 & E2 & W2 & E3 & R3);
        [clear - Pp X1 Ha; destruct Pp as [-> | ->]; lia|clear - Pp X2 Ha ST; destruct Pp as [-> | ->]; lia|rewrite La; ring|exact Ba|rewrite Lb; ring|exact Bb| | |].
      + intros i Hi. rewrite Ga by (clear - Hi Pp; destruct Pp as [-> | ->]; lia). unfold rotV. destruct (DM i) as [-> ->].
        f_equal; clear; lia.
      + intros i Hi. rewrite Gb by (clear - Hi Pp; destruct Pp as [-> | ->]; lia). unfold rotV. destruct (DM i) as [-> ->].
        f_equal; clear; lia.
      + exists b3. rewrite (bind_ok _ _ _ _ _ E2). offs W2. rewrite !EB. split; [exact E3|].
        eapply rastered_ext; [|exact R3]. intros k y' Hk Hy. cbn beta. cbn [snd].
        destruct (Z.eqb_spec (Z.abs (y' - y)) v) as [Ev|N]; cbn [andb]; auto. rewrite Ev, Eh.
        assert (C : (p * (x - a) <=? k) && (k <? p * (x + a + 1)) = (Z.abs (k / p - x) <=? a)).
        { clear - Pp. apply eq_true_iff_eq. rewrite andb_true_iff, !Z.leb_le, Z.ltb_lt. destruct Pp as [-> | ->]; lia. }
        rewrite C. destruct (_ <=? a); auto.
    - exact W.
    - exists b'. split; [erewrite bind_ok; [reflexivity|rewrite forM_map; exact E]|].
      eapply rastered_repainted; [exact R|]. intros px py [Hx Hy]. cbn beta.
      assert (EB : forall c, c * bits / 8 = p * c) by (intros c; clear - Hb; lia).
      rewrite !pixel_raster.
      assert (MEM : forall c, 0 <= c < p -> (if memz (Z.abs (py - y)) (map snd l) then
          if Z.abs ((p * px + c) / p - x) <=? hwid l (Z.abs (py - y)) then rotV (p * px + c) py else raster b w h bits (p * px + c) py
          else raster b w h bits (p * px + c) py) =
        (if in_disc r (px - x) (py - y) then raster b w h bits (p * (x + (py - y)) + c) (y - (px - x)) else raster b w h bits (p * px + c) py)).
      { intros c Hc. assert (Q : (p * px + c) / p = px /\ (p * px + c) mod p = c).
        { clear - Hc Hb. assert (p = 1 \/ p = 3) as [-> | ->] by lia; lia. }
        rewrite (mem_rows r l Hr El). unfold rotV. destruct Q as [-> ->].
        destruct (in_disc r (px - x) (py - y)) eqn:D.
        - replace ((0 <=? Z.abs (py - y)) && (Z.abs (py - y) <=? r)) with true.
          + apply (hwid_disc r l Hr El) in D. replace (_ <=? _) with true by (clear - D; lia). reflexivity.
          + symmetry. destruct (Z.le_gt_cases (Z.abs (py - y)) r); [clear - H; lia|]. rewrite disc_far in D by lia. discriminate.
        - destruct (_ && _); auto. destruct (Z.leb_spec (Z.abs (px - x)) (hwid l (Z.abs (py - y)))) as [L|L]; auto.
          apply (hwid_disc r l Hr El) in L. congruence. }
      clear - MEM Hb. destruct Hb as [[-> ->]|[-> ->]]; unfold rowpix; cbn [Z.eqb Pos.eqb].
      + specialize (MEM 0 ltac:(lia)). rewrite !Z.add_0_r, !Z.mul_1_l in MEM.
        rewrite !Z.div_mul by lia. rewrite MEM.
        replace ((px * 8) mod 8) with 0 by (clear; lia). replace (((x + (py - y)) * 8) mod 8) with 0 by (clear; lia).
        now destruct (in_disc r (px - x) (py - y)).
      + pose proof (MEM 0 ltac:(lia)) as M0. rewrite !Z.add_0_r in M0. rewrite M0, (MEM 1 ltac:(lia)), (MEM 2 ltac:(lia)).
        now destruct (in_disc r (px - x) (py - y)).
  Qed.
End Rot.

(** 1 and 4 bits per pixel *)
Section Small.
  Variables (b : list Z) (w h bits r x y : Z) (o : list msg).
  Hypothesis W : wf b w h bits.
  Hypothesis Hb : bits < 8.
  Hypothesis Hr : 0 <= r.
  Hypothesis X1 : 0 <= x - r.
  Hypothesis X2 : x + r < w.
  Hypothesis Y1 : 0 <= y - r.
  Hypothesis Y2 : y + r < h.
  Hypothesis Y3 : y + r < w.
  Hypothesis AL : ((x - y) * bits) mod 8 = 0.
  Lemma transp_run : exists b', flipXYcircregion x y r (mkst b o) = (Ok (Some tt), mkst b' o) /\
    repainted b b' w h bits (fun px py => if disc_part w bits r x y px py then pixel b w h bits (x + (py - y)) (y + (px - x))
      else pixel b w h bits px py).
  Proof.
    unfold flipXYcircregion. rewrite (cguard_run b w h bits) by auto.
    replace (((0 <=? x - r) && (x + r <? w)) && ((0 <=? y - r) && (y + r <? w))) with true by (clear - X1 X2 Y1 Y3; lia).
    unfold withSome. rewrite bind_assoc, (bind_ok _ _ _ _ _ (wf_geti_bits _ _ _ _ W _)).
    destruct (itercirclepartlineedge_run r Hr) as (l & El & _).
    rewrite bind_assoc, (bind_ok _ _ _ _ _ (run_lift _ _ _ _ El)).
    replace (negb ((bits =? 24) || (bits =? 8))) with true by (clear - Hb; lia).
    pose proof (wf_depth _ _ _ _ W) as Hd.
    destruct (flipXY_run b w h bits W ltac:(lia) ltac:(lia) o) as (nb & En & Wn & Pn & _).
    rewrite bind_assoc, (bind_ok _ _ _ _ _ En).
    pose (V := fun k y' => raster nb h w bits (k - (x - y) * bits / 8) (y' - y + x)).
    match goal with |- exists b', bind (forM l ?bd) _ _ = _ /\ _ =>
      destruct (in_loop b w h bits r x y o l W Hr El X1 X2 V bd) as (b' & E & R) end.
    - intros a v b1 Ha Hv Hin W1 H1. cbn [fst snd mirror]. unfold mirror.
      repeat rewrite (bind_ok _ _ _ _ _ (run_lift _ _ _ _ (wf_offsethd _ _ _ _ Wn _ _))). rewrite ?baddr_rowaddr. offs W1. kbfold bits.
      destruct (part_get nb h w bits r y Wn Hr Y1 Y2 nb a (x - v) Wn Ha ltac:(clear - X1 X2 Hv; lia)) as (La & Ba & Ga).
      destruct (part_get nb h w bits r y Wn Hr Y1 Y2 nb a (x + v) Wn Ha ltac:(clear - X1 X2 Hv; lia)) as (Lb & Bb & Gb).
      set (ua := py_slice nb (rowaddr h w bits (x - v) + _) _) in *.
      assert (KS : forall c, kb bits (c + (x - y)) = kb bits c + (x - y) * bits / 8).
      { intros c. unfold kb. rewrite Z.mul_add_distr_r. clear - AL. lia. }
      assert (K1 : kb bits (x - a) = kb bits (y - a) + (x - y) * bits / 8) by (rewrite <- KS; f_equal; ring).
      assert (K2 : kb bits (x + a) = kb bits (y + a) + (x - y) * bits / 8) by (rewrite <- KS; f_equal; ring).
      destruct (two_put b w h bits r x y o W Hr X1 X2 Y1 Y2 b1 V a v ua
         (py_slice nb (rowaddr h w bits (x + v) + kb bits (y - a)) (rowaddr h w bits (x + v) + kb bits (y + a))) W1 Ha Hv)
        as (b3 & b4 & E3 & W3 & E4 & R4);
        [rewrite La; clear - K1 K2; lia|exact Ba|rewrite Lb; clear - K1 K2; lia|exact Bb|..].
      + intros i Hi. unfold V. rewrite Ga by (clear - Hi K1 K2; lia). f_equal; [clear - K1; lia|ring].
      + intros i Hi. unfold V. rewrite Gb by (clear - Hi K1 K2; lia). f_equal; [clear - K1; lia|ring].
      + exists b4. split; [|exact R4]. rewrite (bind_ok _ _ _ _ _ E3).
        repeat rewrite (bind_ok _ _ _ _ _ (run_lift _ _ _ _ (wf_offsethd _ _ _ _ Wn _ _))). rewrite ?baddr_rowaddr. offs W3. kbfold bits. exact E4.
    - exists b'. split; [now rewrite (bind_ok _ _ _ _ _ E)|].
      apply (disc_repaint b w h bits r x y l W Hr El b' V _ R). intros px py [Hx Hy] D. unfold V.
      rewrite (rowpix_move bits x y (fun k => raster nb h w bits k (py - y + x)) px Hd AL).
      rewrite <- pixel_raster.
      assert (I : inside w h (py - y + x) (px - x + y)).
      { unfold disc_part in D. cbv zeta in D. apply andb_true_iff in D. destruct D as [D _]. apply andb_true_iff in D. destruct D as [D1 D2].
        replace (bits <? 8) with true in D1, D2 by (clear - Hb; lia).
        assert (A1 : Z.abs (py - y) <= r).
        { destruct (Z.le_gt_cases (Z.abs (py - y)) r) as [L|L]; auto. exfalso. rewrite disc_far in D1; [discriminate|lia|lia]. }
        assert (A2 : Z.abs ((px / (8 / bits) + 1) * (8 / bits) - 1 - x) <= r).
        { destruct (Z.le_gt_cases (Z.abs ((px / (8 / bits) + 1) * (8 / bits) - 1 - x)) r) as [L|L]; auto. exfalso. rewrite disc_swap in D1. rewrite disc_far in D1; [discriminate|lia|lia]. }
        unfold inside. split; [clear - A1 X1 X2; lia|].
        clear - A2 AL Y1 Y2 Hd Hb Hx. destruct Hd as [-> | [-> | [-> | ->]]]; try lia.
        - change (8 / 1) with 8 in A2. lia.
        - change (8 / 4) with 2 in A2. lia. }
      specialize (Pn _ _ I). unfold fx, fy in Pn. replace (bits <? 8) with true in Pn by (clear - Hb; lia).
      rewrite Pn. f_equal; ring.
  Qed.
End Small.
