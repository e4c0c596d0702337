(** Brightness gradients in circles (proofs). *)
From Coq Require Import ZArith List Bool Lia.
From Verif Require Import PyBase PyFacts Spec Bmp BmpFacts PixelProofs PlotList Buffers Region Raster VertProofs RectProofs HorizProofs
  Geometry GeomProofs Draw DrawProofs DrawProofs4 Filters FilterProofs FilterProofs2 Circle CircProofs CircProofs2 CircProofs3 CircProofs6 Shapes.
Import ListNotations.
Open Scope Z_scope.
Open Scope py_scope.
Ltac Zify.zify_post_hook ::= Z.to_euclidean_division_equations.

Lemma rowpix_bright w h (b : list Z) f px py : wf b w h 24 ->
  rowpix 24 (fun k => clampb (f (raster b w h 24 k py))) px = Tpix (Tbright f) false (pixel b w h 24 px py).
Proof.
  intros W. rewrite pixel_raster. unfold Tpix, rowpix, Tbright, clampb. cbn [Z.eqb Pos.eqb].
  pose proof (raster_byte b w h 24 (3 * px) py W) as B0. pose proof (raster_byte b w h 24 (3 * px + 1) py W) as B1.
  pose proof (raster_byte b w h 24 (3 * px + 2) py W) as B2.
  set (v0 := raster b w h 24 (3 * px) py) in *. set (v1 := raster b w h 24 (3 * px + 1) py) in *. set (v2 := raster b w h 24 (3 * px + 2) py) in *.
  clearbody v0 v1 v2. unfold byte in *. cbv zeta.
  replace ((v0 + 256 * v1 + 65536 * v2) mod 256) with v0 by (clear - B0 B1 B2; lia).
  replace ((v0 + 256 * v1 + 65536 * v2) / 256 mod 256) with v1 by (clear - B0 B1 B2; lia).
  replace ((v0 + 256 * v1 + 65536 * v2) / 65536) with v2 by (clear - B0 B1 B2; lia). reflexivity.
Qed.

Section VGrad.
  Variables (b : list Z) (w h r x y : Z) (o : list msg) (g : Z -> Z -> Z).
  Hypothesis W : wf b w h 24.
  Hypothesis Hr : 0 < r.
  Hypothesis X1 : 0 <= x - r.
  Hypothesis X2 : x + r < w.
  Hypothesis Y1 : 0 <= y - r.
  Hypothesis Y2 : y + r < h.
  Notation ra := (rowaddr w h 24).
  Let Hr0 : 0 <= r := Z.lt_le_incl _ _ Hr.

  Lemma vgradcirc_run : exists b', vertbrightnessgrad2circregion g x y r (mkst b o) = (Ok (Some tt), mkst b' o) /\
    repainted b b' w h 24 (fun px py => if disc_part w 24 r x y px py
      then Tpix (Tbright (g (py - (y - r)))) false (pixel b w h 24 px py) else pixel b w h 24 px py).
  Proof.
    unfold vertbrightnessgrad2circregion. rewrite (cguard24_run b w h 24) by auto. change (24 =? 24) with true.
    replace (((0 <=? x - r) && (x + r <? w)) && ((0 <=? y - r) && (y + r <? h))) with true by (clear - X1 X2 Y1 Y2; lia).
    unfold withSome. replace (r =? 0) with false by (clear - Hr; lia).
    rewrite bind_assoc, (bind_ok (ret tt) _ _ tt (mkst b o)) by reflexivity. cbv zeta.
    destruct (itercirclepartlineedge_run r Hr0) as (l & El & _).
    rewrite bind_assoc, (bind_ok _ _ _ _ _ (run_lift _ _ _ _ El)).
    pose proof (wf_depth _ _ _ _ W) as Hd.
    set (F := fun k y' => if cp l w 24 x y k y' then clampb (g (y' - (y - r)) (raster b w h 24 k y')) else raster b w h 24 k y').
    match goal with |- context [forM l ?body] =>
      destruct (keyed_loop b w h 24 o snd (fun _ y' => Z.abs (y' - y)) F body l) as (b' & E & R) end.
    - apply (disc_facts r l Hr0 El).
    - intros [a v] b1 Hin W1 H1. destruct (in_hw r l Hr0 El _ Hin) as (Ha & Hv & Eh). cbn [fst snd] in Ha, Hv, Eh.
      cbn [fst snd mirror]. unfold mirror.
      do 4 rewrite (bind_ok _ _ _ _ _ (run_rd _ _ _ _ (wf_offsethd _ _ _ _ W1 _ _))). rewrite !baddr_rowaddr.
      replace ((x - a) * 24 / 8) with (3 * (x - a)) by (clear; lia). replace ((x + a) * 24 / 8) with (3 * (x + a)) by (clear; lia).
      assert (ST : 3 * w <= stride w 24) by (unfold stride; clear; lia).
      assert (Ks : 0 <= 3 * (x - a) /\ 3 * (x - a) <= 3 * (x + a) /\ 3 * (x + a) <= stride w 24) by (clear - X1 X2 Ha ST; lia).
      assert (RP : forall yy, 0 <= yy < h -> 0 <= ra yy + 3 * (x + a)).
      { intros yy Hy. destruct (rowaddr_bounds b w h 24 yy W Hy) as [B _]. change (data_off 24) with 54 in B. clear - B Ks. lia. }
      assert (Ya : 0 <= y - v < h) by (clear - Y1 Y2 Hv; lia). assert (Yb : 0 <= y + v < h) by (clear - Y1 Y2 Hv; lia).
      destruct (get_part b1 w h 24 o (y - v) (3 * (x - a)) (3 * (x + a)) W1 Ya ltac:(lia) ltac:(lia) (RP _ Ya)) as (u1 & E1 & L1 & _ & G1).
      destruct (get_part b1 w h 24 o (y + v) (3 * (x - a)) (3 * (x + a)) W1 Yb ltac:(lia) ltac:(lia) (RP _ Yb)) as (u2 & E2 & L2 & _ & G2).
      destruct (bright_map (g (y - v - (y - r))) u1) as (c1 & D1 & B1 & M1 & C1).
      destruct (bright_map (g (y + v - (y - r))) u2) as (c2 & D2 & B2 & M2 & C2).
      rewrite (bind_ok _ _ _ _ _ E1), (bind_ok _ _ _ _ _ (run_lift _ _ _ _ D1)).
      rewrite (bind_ok _ _ _ _ _ E2), (bind_ok _ _ _ _ _ (run_lift _ _ _ _ D2)).
      destruct (put_part b1 w h 24 o (y - v) (3 * (x - a)) (3 * (x + a)) c1 W1 Ya ltac:(lia) ltac:(lia) (RP _ Ya) ltac:(lia) B1) as (b2 & S2 & R2).
      rewrite (bind_ok _ _ _ _ _ S2).
      destruct (put_part b2 w h 24 o (y + v) (3 * (x - a)) (3 * (x + a)) c2 ltac:(apply R2) Yb ltac:(lia) ltac:(lia) (RP _ Yb) ltac:(lia) B2) as (b3 & S3 & R3).
      exists b3. split; [exact S3|]. eapply rastered_trans; [exact R2|]. eapply rastered_ext; [|exact R3].
      intros k y' Hk Hy. cbn beta. rewrite (proj2 (proj2 R2)) by auto. cbn [fst snd].
      destruct (Z.eqb_spec (Z.abs (y' - y)) v) as [E|N].
      + unfold F, cp, klo, khi. rewrite E, Eh. unfold kb. rewrite Z.max_r, Z.min_r by (clear - X1 X2 Ha; lia).
        replace ((x - a) * 24 / 8) with (3 * (x - a)) by (clear; lia). replace ((x + a) * 24 / 8) with (3 * (x + a)) by (clear; lia).
        destruct ((3 * (x - a) <=? k) && (k <? 3 * (x + a))) eqn:C; rewrite ?andb_false_r, ?andb_true_r; [|now apply H1].
        assert (Ck : 0 <= k - 3 * (x - a) < 3 * (x + a) - 3 * (x - a)) by (clear - C; lia).
        assert (Ek : 3 * (x - a) + (k - 3 * (x - a)) = k) by ring.
        destruct (Z.eqb_spec y' (y + v)) as [Eb|Nb].
        * rewrite C2 by lia. rewrite G2 by lia. rewrite Ek, <- Eb, H1 by (auto; cbn [snd]; clear - E Eb; lia). reflexivity.
        * replace (y' =? y - v) with true by (clear - E Nb; lia).
          assert (Ey : y' = y - v) by (clear - E Nb; lia).
          rewrite C1 by lia. rewrite G1 by lia. rewrite Ek, <- Ey, H1 by (auto; cbn [snd]; clear - E Ey; lia). reflexivity.
      + replace (y' =? y + v) with false by (clear - N Hv; lia). replace (y' =? y - v) with false by (clear - N Hv; lia). reflexivity.
    - exact W.
    - exists b'. rewrite (bind_ok _ _ _ _ _ E). split; [reflexivity|].
      apply (rows_all b w h 24 r x y l W Hr0 El) in R.
      apply (disc_repaint b w h 24 r x y l W Hr0 El b' _ _ R).
      intros px py [Hx Hy] _. now apply rowpix_bright.
  Qed.
End VGrad.

Section HGrad.
  Variables (b : list Z) (w h r x y : Z) (o : list msg) (g : Z -> Z -> Z).
  Hypothesis W : wf b w h 24.
  Hypothesis Hr : 0 < r.
  Hypothesis X1 : 0 <= x - r.
  Hypothesis X2 : x + r < w.
  Hypothesis Y1 : 0 <= y - r.
  Hypothesis Y2 : y + r < h.
  Notation ra := (rowaddr w h 24).
  Let Hr0 : 0 <= r := Z.lt_le_incl _ _ Hr.

  (** one column *)
  Lemma vslice_run f xx ya yb b1 : wf b1 w h 24 -> 0 <= xx < w -> 0 <= ya -> ya <= yb -> yb < h ->
    exists b2, fnwithpar2vertslice (applybrightnessadjtoBGRbuf f) xx ya yb (mkst b1 o) = (Ok tt, mkst b2 o) /\
      rastered b1 b2 w h 24 (fun k y' => if (k / 3 =? xx) && ((ya <=? y') && (y' <=? yb))
        then clampb (f (raster b1 w h 24 k y')) else raster b1 w h 24 k y').
  Proof.
    intros W1 Hx A1 A2 A3. unfold fnwithpar2vertslice.
    rewrite (bind_ok _ _ _ _ _ (wf_geti_bits _ _ _ _ W1 _)).
    rewrite (bind_ok _ _ _ _ _ (run_rd _ _ _ _ (wf_rxchr _ _ _ _ W1))).
    rewrite (bind_ok _ _ _ _ _ (run_rd _ _ _ _ (getmaxxy_ok _ _ _ _ W1))). cbn [fst snd].
    unfold isinrange. replace ((xx >? -1) && (xx <? w)) with true by (clear - Hx; lia).
    replace (swapif ya yb (ya >? yb)) with (ya, yb) by (unfold swapif; replace (ya >? yb) with false by (clear - A2; lia); reflexivity).
    replace (setmin ya 0) with ya by (unfold setmin; replace (ya <? 0) with false by (clear - A1; lia); reflexivity).
    replace (setmax yb (h - 1)) with yb by (unfold setmax; replace (yb >? h - 1) with false by (clear - A3; lia); reflexivity).
    do 2 rewrite (bind_ok _ _ _ _ _ (run_rd _ _ _ _ (wf_offsethd _ _ _ _ W1 _ _))). rewrite !baddr_rowaddr. cbv zeta.
    change (24 =? 24) with true. cbv iota.
    replace (xx * 24 / 8) with (3 * xx) by (clear; lia).
    assert (ST : 3 * w <= stride w 24) by (unfold stride; clear; lia).
    assert (HY : 0 <= ya <= yb /\ yb < h) by (clear - A1 A2 A3; lia).
    assert (STEP : forall b2 c e, wf b2 w h 24 -> 0 <= c < 3 -> ra ya + (3 * xx + c) < e <= ra ya + (3 * xx + c) + stride w 24 ->
      exists b3, (a <- xslice (ra yb + 3 * xx + c) e (stride w 24) ;; a <- lift (applybrightnessadjtoBGRbuf f a) ;;
         xslice_set (ra yb + 3 * xx + c) e (stride w 24) a) (mkst b2 o) = (Ok tt, mkst b3 o) /\
        rastered b2 b3 w h 24 (fun k y' => if (k =? 3 * xx + c) && ((ya <=? y') && (y' <=? yb))
          then clampb (f (raster b2 w h 24 k y')) else raster b2 w h 24 k y')).
    { intros b2 c e W2 Hc He.
      destruct (run_col_get b2 w h 24 o ya yb (3 * xx + c) (ra yb + 3 * xx + c) e W2 HY ltac:(lia) ltac:(lia) He) as (u & E & V1 & V2 & V3).
      rewrite (bind_ok _ _ _ _ _ E). destruct (bright_map f u) as (u' & E' & B & L & G).
      rewrite (bind_ok _ _ _ _ _ (run_lift _ _ _ _ E')).
      destruct (run_col_set b2 w h 24 o ya yb (3 * xx + c) (ra yb + 3 * xx + c) e b2 (3 * xx + c) (fun v => clampb (f v)) u' W2 HY
        ltac:(lia) ltac:(lia) He ltac:(lia) B) as (b3 & E3 & R3).
      { intros i Hi. rewrite G by lia. now rewrite V3 by lia. }
      exists b3. split; [exact E3|]. eapply rastered_ext; [|exact R3]. intros k y' _ _. unfold incol. cbn beta.
      destruct (Z.eqb_spec k (3 * xx + c)) as [-> |]; reflexivity. }
    destruct (STEP b1 0 (ra ya + 3 * xx + stride w 24 - 2) W1 ltac:(lia) ltac:(lia)) as (b2 & E2 & R2).
    destruct (STEP b2 1 (ra ya + 3 * xx + stride w 24 - 1) ltac:(apply R2) ltac:(lia) ltac:(lia)) as (b3 & E3 & R3).
    destruct (STEP b3 2 (ra ya + 3 * xx + stride w 24) ltac:(apply R3) ltac:(lia) ltac:(lia)) as (b4 & E4 & R4).
    rewrite Z.add_0_r in E2. exists b4. split.
    - assert (JOIN : forall {A B} (m : M A) (k1 : A -> M B) (k2 : B -> M unit) (rest : M unit) s,
        (a <- m ;; bb <- k1 a ;; k2 bb ;;; rest) s = ((a <- m ;; bb <- k1 a ;; k2 bb) ;;; rest) s).
      { intros. rewrite bind_assoc. unfold bind at 1 4. destruct (m s) as [[q|q] s']; auto. rewrite bind_assoc. reflexivity. }
      rewrite JOIN, (bind_ok _ _ _ _ _ E2), JOIN, (bind_ok _ _ _ _ _ E3). exact E4.
    - eapply rastered_ext; [|exact (rastered_trans _ _ _ _ _ _ _ _ R2 (rastered_trans _ _ _ _ _ _ _ _ R3 R4))].
      intros k y' Hk Hy. cbn beta. rewrite (proj2 (proj2 R3)), (proj2 (proj2 R2)) by auto.
      destruct ((ya <=? y') && (y' <=? yb)); rewrite ?andb_false_r, ?andb_true_r; auto.
      clear. destruct (Z.eqb_spec k (3 * xx + 2)) as [-> |N2].
      + replace ((3 * xx + 2) / 3 =? xx) with true by lia. replace (3 * xx + 2 =? 3 * xx + 1) with false by lia.
        replace (3 * xx + 2 =? 3 * xx + 0) with false by lia. reflexivity.
      + destruct (Z.eqb_spec k (3 * xx + 1)) as [-> |N1].
        * replace ((3 * xx + 1) / 3 =? xx) with true by lia. replace (3 * xx + 1 =? 3 * xx + 0) with false by lia. reflexivity.
        * destruct (Z.eqb_spec k (3 * xx + 0)) as [-> |N0]; [replace ((3 * xx + 0) / 3 =? xx) with true by lia; reflexivity|].
          replace (k / 3 =? xx) with false by lia. reflexivity.
  Qed.

  Lemma hgradcirc_run : exists b', horibrightnessgrad2circregion g x y r (mkst b o) = (Ok (Some tt), mkst b' o) /\
    repainted b b' w h 24 (fun px py => if col_part r (px - x) (py - y)
      then Tpix (Tbright (g (px - (x - r)))) false (pixel b w h 24 px py) else pixel b w h 24 px py).
  Proof.
    unfold horibrightnessgrad2circregion. rewrite (cguard24_run b w h 24) by auto. change (24 =? 24) with true.
    replace (((0 <=? x - r) && (x + r <? w)) && ((0 <=? y - r) && (y + r <? h))) with true by (clear - X1 X2 Y1 Y2; lia).
    unfold withSome. replace (r =? 0) with false by (clear - Hr; lia).
    rewrite bind_assoc, (bind_ok (ret tt) _ _ tt (mkst b o)) by reflexivity. cbv zeta.
    destruct (itercirclepartvertlineedge_run r Hr0) as (l & El & _).
    rewrite bind_assoc, (bind_ok _ _ _ _ _ (run_lift _ _ _ _ El)).
    destruct (col_facts r l Hr0 El) as (ND & HV & Hl).
    set (F := fun k y' => if col_part r (k / 3 - x) (y' - y) then clampb (g (k / 3 - (x - r)) (raster b w h 24 k y')) else raster b w h 24 k y').
    match goal with |- context [forM l ?body] =>
      destruct (keyed_loop b w h 24 o fst (fun k _ => Z.abs (k / 3 - x)) F body l) as (b' & E & R) end.
    - exact ND.
    - intros [v hh] b1 Hin W1 H1. pose proof (proj1 (Hl _ _ Hin)) as HC.
      pose proof (on_circle_bound r _ Hr0 HC) as HB. cbn [fst snd] in HB. destruct HB as [Bv Bh].
      cbn [fst snd mirror]. unfold mirror.
      destruct (vslice_run (g (x - v - (x - r))) (x - v) (y - hh) (y + hh) b1 W1 ltac:(lia) ltac:(lia) ltac:(lia) ltac:(lia)) as (b2 & E2 & R2).
      rewrite (bind_ok _ _ _ _ _ E2).
      assert (CP : forall k y', Z.abs (k / 3 - x) = v -> col_part r (k / 3 - x) (y' - y) = (y - hh <=? y') && (y' <=? y + hh)).
      { intros k y' E. apply eq_true_iff_eq. rewrite <- (col_part_hgt r l Hr0 El) by (clear - E Bv; lia). rewrite E, (hhgt_in l hh) by auto.
          rewrite andb_true_iff, !Z.leb_le. clear. lia. }
      destruct (Z.eqb_spec (x - v) (x + v)) as [Ev|Nv]; cbn [negb].
      + exists b2. split; [reflexivity|]. eapply rastered_ext; [|exact R2]. intros k y' Hk Hy. cbn beta.
        replace (Z.abs (k / 3 - x) =? v) with (k / 3 =? x - v) by (clear - Ev; lia).
        destruct (Z.eqb_spec (k / 3) (x - v)) as [E|N]; cbn [andb]; auto.
        unfold F. rewrite CP by (clear - E Ev; lia). destruct (_ && _); [|apply H1; auto; cbn [fst]; clear - E Ev; lia].
        rewrite H1 by (auto; cbn [fst]; clear - E Ev; lia). now rewrite E.
      + destruct (vslice_run (g (x + v - (x - r))) (x + v) (y - hh) (y + hh) b2 ltac:(apply R2) ltac:(lia) ltac:(lia) ltac:(lia) ltac:(lia)) as (b3 & E3 & R3).
        exists b3. split; [exact E3|]. eapply rastered_trans; [exact R2|]. eapply rastered_ext; [|exact R3]. intros k y' Hk Hy. cbn beta.
        rewrite (proj2 (proj2 R2)) by auto.
        destruct (Z.eqb_spec (Z.abs (k / 3 - x)) v) as [E|N].
        * unfold F. rewrite CP by exact E. rewrite !H1 by (auto; cbn [fst]; exact E).
          destruct (Z.eqb_spec (k / 3) (x + v)) as [Ea|Na].
          -- replace (k / 3 =? x - v) with false by (clear - Ea Nv; lia). cbn [andb]. rewrite Ea. reflexivity.
          -- assert (Eb : k / 3 = x - v) by (clear - E Na; lia). rewrite Eb, Z.eqb_refl. cbn [andb]. reflexivity.
        * replace (k / 3 =? x - v) with false by (clear - N Bv; lia). replace (k / 3 =? x + v) with false by (clear - N Bv; lia). reflexivity.
    - exact W.
    - exists b'. rewrite (bind_ok _ _ _ _ _ E). split; [reflexivity|].
      eapply rastered_repainted; [exact R|]. intros px py [Hx Hy].
      assert (M : forall k, 3 * px <= k < 3 * px + 3 -> (if memz (Z.abs (k / 3 - x)) (map fst l) then F k py else raster b w h 24 k py) =
        if col_part r (px - x) (py - y) then clampb (g (px - (x - r)) (raster b w h 24 k py)) else raster b w h 24 k py).
      { intros k Hk. assert (Ek : k / 3 = px) by (clear - Hk; lia). unfold F. rewrite Ek.
        destruct (memz (Z.abs (px - x)) (map fst l)) eqn:Mz; auto. apply memz_not in Mz. rewrite HV in Mz.
        rewrite (col_part_far r Hr0) by (clear - Mz; lia). reflexivity. }
      unfold rowpix. cbn [Z.eqb Pos.eqb]. rewrite !M by (clear; lia).
      destruct (col_part r (px - x) (py - y)); [|now rewrite pixel_raster].
      rewrite <- (rowpix_bright w h b (g (px - (x - r))) px py W). reflexivity.
  Qed.
End HGrad.

(** the limits in either order, applied to one pixel *)
Lemma thresh_pixel g l0 l1 last p : 0 <= p < 2 ^ 24 ->
  Tpix (fun _ => Tthresh g l0 l1) last p =
  (let '(r, gr, bl) := rgb_of p in
   let lum := Z.max r (Z.max gr bl) in
   let lo := Z.min (l0 mod 256) (l1 mod 256) in
   let hi := Z.max (l0 mod 256) (l1 mod 256) in
   let t := Z.max lo (Z.min hi lum) in
   if (lum =? 0) || (t =? lum) then p else rgb24 (g t lum r, g t lum gr, g t lum bl)).
Proof.
  intros P. unfold Tpix, Tthresh, target, rgb_of, rgb24 in *. cbv zeta.
  replace (max3 (p mod 256) (p / 256 mod 256) (p / 65536)) with (Z.max (p / 65536) (Z.max (p / 256 mod 256) (p mod 256))) by (unfold max3; clear; lia).
  assert (L : 0 <= Z.max (p / 65536) (Z.max (p / 256 mod 256) (p mod 256))) by (clear - P; lia).
  set (lum := Z.max (p / 65536) _) in *. set (lo := Z.min (l0 mod 256) (l1 mod 256)).
  set (hi := Z.max (l0 mod 256) (l1 mod 256)). assert (LH : lo <= hi) by (unfold lo, hi; clear; lia). unfold sel. cbn [Z.eqb Pos.eqb].
  assert (EP : p mod 256 + 256 * (p / 256 mod 256) + 65536 * (p / 65536) = p) by (clear; lia).
  clearbody lum lo hi. clear P.
  destruct (Z.leb_spec lum 0).
  - replace (lum =? 0) with true by lia. exact EP.
  - replace (lum =? 0) with false by lia. cbn [orb]. destruct (Z.ltb_spec hi lum).
    + replace (Z.max lo (Z.min hi lum)) with hi by lia. replace (hi =? lum) with false by lia. reflexivity.
    + destruct (Z.ltb_spec lum lo).
      * replace (Z.max lo (Z.min hi lum)) with lo by lia. replace (lo =? lum) with false by lia. reflexivity.
      * replace (Z.max lo (Z.min hi lum)) with lum by lia. rewrite Z.eqb_refl. exact EP.
Qed.
