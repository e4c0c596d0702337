(** Properties C53-C61, C69, C70: operations on circular regions. *)
From Coq Require Import ZArith List Bool Lia.
From Verif Require Import PyBase PyFacts Spec Bmp BmpFacts PixelProofs Buffers Region Raster VertProofs HorizProofs ResizeProofs
  Geometry GeomProofs Draw DrawProofs4 Filters FilterProofs FilterProofs2 Circle
  CircProofs CircProofs2 CircProofs3 CircProofs4 CircProofs5 CircProofs6 CircProofs7 Shapes CircProofs8 Concrete.
Import ListNotations.
Open Scope Z_scope.
Open Scope py_scope.

(** the disc of radius r around (x, y) lies in the image *)
Definition disc_inside (w h x y r : Z) : Prop := 0 <= r /\ 0 <= x - r /\ x + r < w /\ 0 <= y - r /\ y + r < h.

Lemma disc_sym r dx dy : in_disc r dx (- dy) = in_disc r dx dy.
Proof. unfold in_disc. rewrite Z.abs_opp. replace (- dy * - dy) with (dy * dy) by ring. reflexivity. Qed.
Lemma disc_symx r dx dy : in_disc r (- dx) dy = in_disc r dx dy.
Proof. unfold in_disc. rewrite Z.abs_opp. replace (- dx * - dx) with (dx * dx) by ring. reflexivity. Qed.
Lemma part_sym w bits r x y px py : disc_part w bits r x y px (2 * y - py) = disc_part w bits r x y px py.
Proof.
  unfold disc_part. cbv zeta. replace (2 * y - py - y) with (- (py - y)) by ring. now rewrite !disc_sym.
Qed.
Lemma part_row w bits r x y px py : 0 <= r -> disc_part w bits r x y px py = true -> Z.abs (py - y) <= r.
Proof.
  intros Hr D. unfold disc_part in D. cbv zeta in D. apply andb_true_iff in D. destruct D as [D _].
  apply andb_true_iff in D. destruct D as [D _]. destruct (Z.le_gt_cases (Z.abs (py - y)) r); auto.
  rewrite disc_far in D by lia. discriminate.
Qed.
Lemma disc_bounds r dx dy : 0 <= r -> in_disc r dx dy = true -> Z.abs dx <= r /\ Z.abs dy <= r.
Proof.
  intros Hr D. split.
  - destruct (Z.le_gt_cases (Z.abs dx) r); auto. rewrite disc_swap in D. rewrite disc_far in D by lia. discriminate.
  - destruct (Z.le_gt_cases (Z.abs dy) r); auto. rewrite disc_far in D by lia. discriminate.
Qed.

(** * C53 *)
(** the correct guards: 24-bit and 8/24-bit operations *)
Theorem C53_refused : forall b w h bits o x y r, wf b w h bits -> 0 <= r -> ~ disc_inside w h x y r ->
  (bits = 24 -> forall n, magnifyNtimescircregion x y r n (mkst b o) = (Ok None, mkst b (o ++ [Mregionoutofbounds]))) /\
  (bits = 8 \/ bits = 24 ->
    fliphoricircregion x y r (mkst b o) = (Ok None, mkst b (o ++ [Mregionoutofbounds])) /\
    mirrorleftincircregion x y r (mkst b o) = (Ok None, mkst b (o ++ [Mregionoutofbounds])) /\
    mirrorrightincircregion x y r (mkst b o) = (Ok None, mkst b (o ++ [Mregionoutofbounds]))).
Proof.
  intros b w h bits o x y r W Hr N.
  assert (F : ((0 <=? x - r) && (x + r <? w)) && ((0 <=? y - r) && (y + r <? h)) = false).
  { destruct (_ && _) eqn:E; auto. exfalso. apply N. unfold disc_inside. lia. }
  split.
  - intros -> n. unfold magnifyNtimescircregion. rewrite (cguard24_run b w h 24) by auto. cbn [Z.eqb Pos.eqb]. now rewrite F.
  - intros HB. assert (E : (bits =? 24) || (bits =? 8) = true) by lia.
    unfold fliphoricircregion, mirrorleftincircregion, mirrorrightincircregion, horitransformincircregion.
    rewrite !(cguard8_run b w h bits) by auto. now rewrite E, F.
Qed.
(** the guard of the other operations compares the rows with the width *)
Theorem C53_width_guard : forall b w h bits o x y r, wf b w h bits -> 0 <= r ->
  ~ (0 <= x - r /\ x + r < w /\ 0 <= y - r /\ y + r < w) ->
  flipvertcircregion x y r (mkst b o) = (Ok None, mkst b (o ++ [Mregionoutofbounds])) /\
  mirrortopincircregion x y r (mkst b o) = (Ok None, mkst b (o ++ [Mregionoutofbounds])) /\
  mirrorbottomincircregion x y r (mkst b o) = (Ok None, mkst b (o ++ [Mregionoutofbounds])) /\
  flipXYcircregion x y r (mkst b o) = (Ok None, mkst b (o ++ [Mregionoutofbounds])) /\
  copycircregion2buf x y r (mkst b o) = (Ok None, mkst b (o ++ [Mregionoutofbounds])) /\
  (forall n k pat, erasealternatehorizontallinesincircregion x y r n k pat (mkst b o) = (Ok None, mkst b (o ++ [Mregionoutofbounds]))).
Proof.
  intros b w h bits o x y r W Hr N.
  assert (F : ((0 <=? x - r) && (x + r <? w)) && ((0 <=? y - r) && (y + r <? w)) = false).
  { destruct (_ && _) eqn:E; auto. exfalso. apply N. lia. }
  unfold flipvertcircregion, mirrortopincircregion, mirrorbottomincircregion, verttransformincircregion, flipXYcircregion,
    copycircregion2buf, erasealternatehorizontallinesincircregion.
  repeat split; intros; rewrite (cguard_run b w h bits) by auto; now rewrite F.
Qed.
(** a circle in the image refused *)
Theorem C53_tall_image_refuted : exists b w h x y r, wf b w h 24 /\ disc_inside w h x y r /\
  flipvertcircregion x y r (mkst b []) = (Ok None, mkst b [Mregionoutofbounds]).
Proof.
  exists (blank 3 6 24), 3, 6, 1, 4, 1. split; [concrete_wf|]. split; [unfold disc_inside; lia|]. vm_compute. reflexivity.
Qed.
(** a circle below the image accepted: header bytes are overwritten *)
Theorem C53_wide_image_refuted : exists b w h x y r i, wf b w h 24 /\ h <= y - r /\ 0 <= i < 54 /\
  outcome (eraseeverynthhorizontallineinccircregion x y r 1) b = Ok (Some tt) /\
  getz (after (eraseeverynthhorizontallineinccircregion x y r 1) b) i <> getz b i.
Proof.
  exists (sample24 9 3), 9, 3, 3, 5, 2, 1. split; [concrete_wf|]. split; [lia|]. split; [lia|].
  split; [vm_compute; reflexivity|]. vm_compute. discriminate.
Qed.
Example C53_ex : disc_inside 5 4 2 2 1 /\ ~ disc_inside 5 4 2 3 1 /\ wf (sample 5 4 8) 5 4 8 /\
  outcome (fliphoricircregion 2 3 1) (sample 5 4 8) = Ok None.
Proof. split; [unfold disc_inside; lia|]. split; [unfold disc_inside; lia|]. split; [concrete_wf|vm_compute; reflexivity]. Qed.
Print Assumptions C53_refused.
Print Assumptions C53_width_guard.
Print Assumptions C53_tall_image_refuted.
Print Assumptions C53_wide_image_refuted.

(** * C54 *)
Theorem C54_flipvert : forall b w h bits o x y r, wf b w h bits -> disc_inside w h x y r -> y + r < w ->
  exists b', flipvertcircregion x y r (mkst b o) = (Ok (Some tt), mkst b' o) /\
    repainted b b' w h bits (fun px py =>
      if disc_part w bits r x y px py then pixel b w h bits px (2 * y - py) else pixel b w h bits px py).
Proof.
  intros b w h bits o x y r W (Hr & X1 & X2 & Y1 & Y2) Y3.
  destruct (vertcirc_run b w h bits r x y o TF W Hr X1 X2 Y1 Y2 Y3) as (b' & E & R). exists b'. split; [exact E|].
  eapply repainted_ext; [|exact R]. intros px py Hin. cbn [vsource].
  destruct (disc_part w bits r x y px py); auto. f_equal. lia.
Qed.
Theorem C54_flipvert_twice : forall b w h bits o x y r, wf b w h bits -> disc_inside w h x y r -> y + r < w ->
  exists b1 b2, flipvertcircregion x y r (mkst b o) = (Ok (Some tt), mkst b1 o) /\
    flipvertcircregion x y r (mkst b1 o) = (Ok (Some tt), mkst b2 o) /\
    repainted b b2 w h bits (pixel b w h bits).
Proof.
  intros b w h bits o x y r W D Y3. destruct (C54_flipvert b w h bits o x y r W D Y3) as (b1 & E1 & R1).
  destruct (C54_flipvert b1 w h bits o x y r ltac:(apply R1) D Y3) as (b2 & E2 & R2). exists b1, b2.
  split; [exact E1|]. split; [exact E2|]. eapply repainted_trans; [exact R1|].
  eapply repainted_ext; [|exact R2]. intros px py Hin. cbn beta.
  destruct (disc_part w bits r x y px py) eqn:P.
  - destruct D as (Hr & X1 & X2 & Y1 & Y2). pose proof (part_row _ _ _ _ _ _ _ Hr P) as Q.
    rewrite (proj2 (proj2 R1)) by (unfold inside in *; lia). cbn beta. rewrite part_sym, P. f_equal. ring.
  - rewrite (proj2 (proj2 R1)) by auto. cbn beta. now rewrite P.
Qed.
Theorem C54_mirrortop : forall b w h bits o x y r, wf b w h bits -> disc_inside w h x y r -> y + r < w ->
  exists b', mirrortopincircregion x y r (mkst b o) = (Ok (Some tt), mkst b' o) /\
    repainted b b' w h bits (fun px py =>
      if disc_part w bits r x y px py then pixel b w h bits px (Z.min py (2 * y - py)) else pixel b w h bits px py).
Proof.
  intros b w h bits o x y r W (Hr & X1 & X2 & Y1 & Y2) Y3.
  destruct (vertcirc_run b w h bits r x y o TT W Hr X1 X2 Y1 Y2 Y3) as (b' & E & R). exists b'. split; [exact E|].
  eapply repainted_ext; [|exact R]. intros px py Hin. cbn [vsource].
  destruct (disc_part w bits r x y px py); auto. f_equal. lia.
Qed.
Theorem C54_mirrorbottom : forall b w h bits o x y r, wf b w h bits -> disc_inside w h x y r -> y + r < w ->
  exists b', mirrorbottomincircregion x y r (mkst b o) = (Ok (Some tt), mkst b' o) /\
    repainted b b' w h bits (fun px py =>
      if disc_part w bits r x y px py then pixel b w h bits px (Z.max py (2 * y - py)) else pixel b w h bits px py).
Proof.
  intros b w h bits o x y r W (Hr & X1 & X2 & Y1 & Y2) Y3.
  destruct (vertcirc_run b w h bits r x y o TB W Hr X1 X2 Y1 Y2 Y3) as (b' & E & R). exists b'. split; [exact E|].
  eapply repainted_ext; [|exact R]. intros px py Hin. cbn [vsource].
  destruct (disc_part w bits r x y px py); auto. f_equal. lia.
Qed.
(** for 8 and 24 bits the part is the disc without the last pixel of each row *)
Theorem C54_part : forall w bits r x y px py, bits = 8 \/ bits = 24 -> 0 <= r -> x + r < w ->
  disc_part w bits r x y px py = in_disc r (px - x) (py - y) && in_disc r (px + 1 - x) (py - y).
Proof.
  intros w bits r x y px py HB Hr X2. unfold disc_part. replace (bits <? 8) with false by lia. cbv zeta.
  rewrite Z.div_1_r, !Z.mul_1_r. replace (px + 1 - 1 - x) with (px - x) by ring.
  destruct (in_disc r (px + 1 - x) (py - y)) eqn:D; [|now rewrite !andb_false_r].
  apply disc_bounds in D; auto. replace (px + 1 <? w) with true by lia. now rewrite andb_true_r.
Qed.
Theorem C54_last_pixel_refuted : exists b w h x y r px py, wf b w h 24 /\ disc_inside w h x y r /\ y + r < w /\
  in_disc r (px - x) (py - y) = true /\
  pixel (after (flipvertcircregion x y r) b) w h 24 px py <> pixel b w h 24 px (2 * y - py).
Proof.
  exists (sample24 5 5), 5, 5, 2, 2, 2, 3, 0. split; [concrete_wf|]. split; [unfold disc_inside; lia|]. split; [lia|].
  split; [reflexivity|]. vm_compute. discriminate.
Qed.
Example C54_ex : rows (sample 7 5 8) 7 5 8 =
    [[1;8;15;22;29;36;43]; [14;21;28;35;42;49;56]; [27;34;41;48;55;62;69]; [40;47;54;61;68;75;82]; [53;60;67;74;81;88;95]] /\
  rows (after (flipvertcircregion 3 2 2) (sample 7 5 8)) 7 5 8 =
    [[1;8;67;74;29;36;43]; [14;47;54;61;68;49;56]; [27;34;41;48;55;62;69]; [40;21;28;35;42;75;82]; [53;60;15;22;81;88;95]] /\
  disc_inside 7 5 3 2 2.
Proof. split; [vm_compute; reflexivity|]. split; [vm_compute; reflexivity|]. unfold disc_inside; lia. Qed.
Print Assumptions C54_flipvert.
Print Assumptions C54_flipvert_twice.
Print Assumptions C54_mirrortop.
Print Assumptions C54_mirrorbottom.
Print Assumptions C54_part.
Print Assumptions C54_last_pixel_refuted.

(** * C55 *)
Theorem C55_fliphori : forall b w h bits o x y r, wf b w h bits -> bits = 8 \/ bits = 24 -> disc_inside w h x y r ->
  exists b', fliphoricircregion x y r (mkst b o) = (Ok (Some tt), mkst b' o) /\
    repainted b b' w h bits (fun px py =>
      if col_part r (px - x) (py - y) then pixel b w h bits (2 * x - px) py else pixel b w h bits px py).
Proof.
  intros b w h bits o x y r W HB (Hr & X1 & X2 & Y1 & Y2).
  exact (hori_run b w h bits o x y r XF W HB Hr X1 X2 Y1 Y2).
Qed.
Lemma col_symx r dx dy : col_part r (- dx) dy = col_part r dx dy.
Proof. unfold col_part, on_ring. rewrite disc_symx, Z.abs_opp. replace (- dx * - dx) with (dx * dx) by ring. reflexivity. Qed.
Theorem C55_fliphori_twice : forall b w h bits o x y r, wf b w h bits -> bits = 8 \/ bits = 24 -> disc_inside w h x y r ->
  exists b1 b2, fliphoricircregion x y r (mkst b o) = (Ok (Some tt), mkst b1 o) /\
    fliphoricircregion x y r (mkst b1 o) = (Ok (Some tt), mkst b2 o) /\
    repainted b b2 w h bits (pixel b w h bits).
Proof.
  intros b w h bits o x y r W HB D. destruct (C55_fliphori b w h bits o x y r W HB D) as (b1 & E1 & R1).
  destruct (C55_fliphori b1 w h bits o x y r ltac:(apply R1) HB D) as (b2 & E2 & R2). exists b1, b2.
  split; [exact E1|]. split; [exact E2|]. eapply repainted_trans; [exact R1|].
  eapply repainted_ext; [|exact R2]. intros px py Hin. cbn beta.
  destruct (col_part r (px - x) (py - y)) eqn:P.
  - assert (Q : Z.abs (px - x) <= r).
    { unfold col_part in P. apply andb_true_iff in P. destruct P as [P _]. apply disc_bounds in P; [tauto|apply D]. }
    destruct D as (Hr & X1 & X2 & Y1 & Y2).
    rewrite (proj2 (proj2 R1)) by (unfold inside in *; lia). cbn beta.
    replace (2 * x - px - x) with (- (px - x)) by ring. rewrite col_symx, P. f_equal. ring.
  - rewrite (proj2 (proj2 R1)) by auto. cbn beta. now rewrite P.
Qed.
Theorem C55_mirrorleft : forall b w h bits o x y r, wf b w h bits -> bits = 8 \/ bits = 24 -> disc_inside w h x y r ->
  exists b', mirrorleftincircregion x y r (mkst b o) = (Ok (Some tt), mkst b' o) /\
    repainted b b' w h bits (fun px py =>
      if col_part r (px - x) (py - y) then pixel b w h bits (Z.min px (2 * x - px)) py else pixel b w h bits px py).
Proof.
  intros b w h bits o x y r W HB (Hr & X1 & X2 & Y1 & Y2).
  exact (hori_run b w h bits o x y r XL W HB Hr X1 X2 Y1 Y2).
Qed.
Theorem C55_mirrorright : forall b w h bits o x y r, wf b w h bits -> bits = 8 \/ bits = 24 -> disc_inside w h x y r ->
  exists b', mirrorrightincircregion x y r (mkst b o) = (Ok (Some tt), mkst b' o) /\
    repainted b b' w h bits (fun px py =>
      if col_part r (px - x) (py - y) then pixel b w h bits (Z.max px (2 * x - px)) py else pixel b w h bits px py).
Proof.
  intros b w h bits o x y r W HB (Hr & X1 & X2 & Y1 & Y2).
  exact (hori_run b w h bits o x y r XR W HB Hr X1 X2 Y1 Y2).
Qed.
Theorem C55_other_depth : forall b w h bits o x y r, wf b w h bits -> bits < 8 -> 0 <= r ->
  fliphoricircregion x y r (mkst b o) = (Ok None, mkst b (o ++ [Mnot24or8bit])).
Proof.
  intros b w h bits o x y r W HB Hr. unfold fliphoricircregion, horitransformincircregion.
  rewrite (cguard8_run b w h bits) by auto. now replace ((bits =? 24) || (bits =? 8)) with false by lia.
Qed.
(** not the whole disc *)
Theorem C55_disc_refuted : exists b w h x y r px py, wf b w h 24 /\ disc_inside w h x y r /\
  in_disc r (px - x) (py - y) = true /\
  pixel (after (fliphoricircregion x y r) b) w h 24 px py <> pixel b w h 24 (2 * x - px) py.
Proof.
  exists (sample24 5 5), 5, 5, 2, 2, 2, 0, 1. split; [concrete_wf|]. split; [unfold disc_inside; lia|].
  split; [reflexivity|]. vm_compute. discriminate.
Qed.
Example C55_ex : rows (after (fliphoricircregion 3 2 2) (sample 7 5 8)) 7 5 8 =
    [[1;8;29;22;15;36;43]; [14;21;42;35;28;49;56]; [27;62;55;48;41;34;69]; [40;47;68;61;54;75;82]; [53;60;81;74;67;88;95]] /\
  disc_inside 7 5 3 2 2.
Proof. split; [vm_compute; reflexivity|]. unfold disc_inside; lia. Qed.
Print Assumptions C55_fliphori.
Print Assumptions C55_fliphori_twice.
Print Assumptions C55_mirrorleft.
Print Assumptions C55_mirrorright.
Print Assumptions C55_other_depth.
Print Assumptions C55_disc_refuted.

(** * C56 *)
(** the image is not empty and the centre is not too far to the left of it *)
Theorem C56_invert : forall b w h bits o x y r, wf b w h bits -> 0 <= r -> 0 < w ->
  0 <= 8 * data_off bits + x * bits ->
  exists b', invertbitsincircregion x y r (mkst b o) = (Ok tt, mkst b' o) /\
    repainted b b' w h bits (fun px py =>
      if disc_part w bits r x y px py then 2 ^ bits - 1 - pixel b w h bits px py else pixel b w h bits px py).
Proof. intros b w h bits o x y r. apply invertcirc_run. Qed.
Theorem C56_invert_twice : forall b w h bits o x y r, wf b w h bits -> 0 <= r -> 0 < w ->
  0 <= 8 * data_off bits + x * bits ->
  exists b1 b2, invertbitsincircregion x y r (mkst b o) = (Ok tt, mkst b1 o) /\
    invertbitsincircregion x y r (mkst b1 o) = (Ok tt, mkst b2 o) /\ repainted b b2 w h bits (pixel b w h bits).
Proof.
  intros b w h bits o x y r W Hr Hw Hx. destruct (C56_invert b w h bits o x y r W Hr Hw Hx) as (b1 & E1 & R1).
  destruct (C56_invert b1 w h bits o x y r ltac:(apply R1) Hr Hw Hx) as (b2 & E2 & R2). exists b1, b2.
  split; [exact E1|]. split; [exact E2|]. eapply repainted_trans; [exact R1|].
  eapply repainted_ext; [|exact R2]. intros px py Hin. cbn beta. rewrite (proj2 (proj2 R1)) by auto. cbn beta.
  destruct (disc_part w bits r x y px py); lia.
Qed.
(** a circle that does not meet the image: a row of pixels changes *)
Theorem C56_far_left_refuted : exists b w h x y r px py, wf b w h 24 /\ 0 <= r /\ x + r < 0 /\ inside w h px py /\
  outcome (invertbitsincircregion x y r) b = Ok tt /\
  pixel (after (invertbitsincircregion x y r) b) w h 24 px py <> pixel b w h 24 px py.
Proof.
  exists (sample24 5 3), 5, 3, (-30), 1, 1, 2, 2. split; [apply sample24_wf|]. split; [lia|]. split; [lia|].
  split; [unfold inside; lia|]. split; [vm_compute; reflexivity|]. vm_compute. discriminate.
Qed.
Theorem C56_mono : forall b w h o x y r, wf b w h 24 -> disc_inside w h x y r ->
  exists b', monocircle x y r (mkst b o) = (Ok (Some tt), mkst b' o) /\
    repainted b b' w h 24 (fun px py =>
      if disc_part w 24 r x y px py
      then let '(rd, g, bl) := rgb_of (pixel b w h 24 px py) in let m := (rd + g + bl) / 3 in rgb24 (m, m, m)
      else pixel b w h 24 px py).
Proof.
  intros b w h o x y r W (Hr & X1 & X2 & Y1 & Y2).
  destruct (use24circ_run b w h o _ _ true x y r W Hr mono_onbuf ltac:(left; auto)) as (b' & E & R). exists b'. split; [exact E|].
  eapply repainted_ext; [|exact R]. intros px py Hin. cbn beta. destruct (disc_part w 24 r x y px py); auto.
  unfold Tpix, Tmono, rgb_of, rgb24. set (p := pixel b w h 24 px py).
  replace (p mod 256 + p / 256 mod 256 + p / 65536) with (p / 65536 + p / 256 mod 256 + p mod 256) by ring. reflexivity.
Qed.
(** partly outside: raises although the other filters clip *)
Theorem C56_mono_offscreen_refuted : exists b w h x y r, wf b w h 24 /\ inside w h x y /\ ~ disc_inside w h x y r /\
  outcome (monocircle x y r) b = Err TypeError.
Proof.
  exists (sample24 5 3), 5, 3, 2, 1, 2. split; [apply sample24_wf|]. split; [unfold inside; lia|].
  split; [unfold disc_inside; lia|]. vm_compute. reflexivity.
Qed.
(** the other filters clip the circle to the image *)
Theorem C56_brightness : forall g b w h o x y r, wf b w h 24 -> 0 <= r -> 0 < w -> -18 <= x ->
  exists b', brightnessadjcircregion g x y r (mkst b o) = (Ok (Some tt), mkst b' o) /\
    repainted b b' w h 24 (fun px py =>
      if disc_part w 24 r x y px py
      then let '(rd, gr, bl) := rgb_of (pixel b w h 24 px py) in
           rgb24 (Z.max 0 (Z.min 255 (g rd)), Z.max 0 (Z.min 255 (g gr)), Z.max 0 (Z.min 255 (g bl)))
      else pixel b w h 24 px py).
Proof.
  intros g b w h o x y r W Hr Hw Hx.
  destruct (use24circ_run b w h o _ _ false x y r W Hr (bright_onbuf g) ltac:(right; auto)) as (b' & E & R). exists b'. split; [exact E|].
  eapply repainted_ext; [|exact R]. intros px py Hin. cbn beta. destruct (disc_part w 24 r x y px py); auto.
Qed.
Theorem C56_gamma : forall g b w h o x y r, wf b w h 24 -> 0 <= r -> 0 < w -> -18 <= x ->
  exists b', gammacorrectcircregion g x y r (mkst b o) = (Ok (Some tt), mkst b' o) /\
    repainted b b' w h 24 (fun px py =>
      if disc_part w 24 r x y px py
      then let '(rd, gr, bl) := rgb_of (pixel b w h 24 px py) in
           let lum := Z.max 1 (Z.max rd (Z.max gr bl)) in
           rgb24 (g lum rd mod 256, g lum gr mod 256, g lum bl mod 256)
      else pixel b w h 24 px py).
Proof.
  intros g b w h o x y r W Hr Hw Hx.
  destruct (use24circ_run b w h o _ _ false x y r W Hr (gamma_onbuf g) ltac:(right; auto)) as (b' & E & R). exists b'. split; [exact E|].
  eapply repainted_ext; [|exact R]. intros px py Hin. cbn beta. destruct (disc_part w 24 r x y px py); auto.
  unfold Tpix, Tgamma, sel, max3, rgb_of, rgb24. cbn [Z.eqb Pos.eqb].
  set (p := pixel b w h 24 px py).
  replace (Z.max (Z.max (p mod 256) (p / 256 mod 256)) (p / 65536)) with (Z.max (p / 65536) (Z.max (p / 256 mod 256) (p mod 256))) by lia.
  reflexivity.
Qed.
(** the colour filter misses one more pixel of each row *)
Theorem C56_color : forall fr fg fb b w h o x y r, wf b w h 24 ->
  (forall v, 0 <= v < 256 -> 0 <= fr v < 256) -> (forall v, 0 <= v < 256 -> 0 <= fg v < 256) ->
  (forall v, 0 <= v < 256 -> 0 <= fb v < 256) -> 0 <= r -> 0 < w -> -18 <= x ->
  exists b', colorfiltercircregion fr fg fb x y r (mkst b o) = (Ok (Some tt), mkst b' o) /\
    repainted b b' w h 24 (fun px py =>
      if disc_part w 24 r x y px py && disc_part w 24 r x y (px + 1) py
      then let '(rd, g, bl) := rgb_of (pixel b w h 24 px py) in rgb24 (fr rd, fg g, fb bl)
      else pixel b w h 24 px py).
Proof.
  intros fr fg fb b w h o x y r W H1 H2 H3 Hr Hw Hx.
  destruct (use24circ_run b w h o _ _ false x y r W Hr (color_onbuf fr fg fb H1 H2 H3) ltac:(right; auto)) as (b' & E & R). exists b'. split; [exact E|].
  eapply repainted_ext; [|exact R]. intros px py Hin. cbn beta. destruct (disc_part w 24 r x y px py); auto. cbn [andb].
  unfold Tpix, Tcolor, rgb_of, rgb24. destruct (disc_part w 24 r x y (px + 1) py); cbn [negb Z.eqb Pos.eqb]; auto.
  pose proof (pixel_range b w h 24 px py W) as P. set (p := pixel b w h 24 px py) in *.
  pose proof (Z.div_mod p 256 ltac:(lia)). pose proof (Z.div_mod (p / 256) 256 ltac:(lia)).
  rewrite Z.div_div in * by lia. change (256 * 256) with 65536 in *. lia.
Qed.
Theorem C56_negative_radius : forall b w h bits o x y r, wf b w h bits -> r < 0 ->
  invertbitsincircregion x y r (mkst b o) = (Ok tt, mkst b o).
Proof. intros. now apply usefn_neg with (w := w) (h := h) (bits := bits). Qed.
Example C56_ex : rows (after (invertbitsincircregion 3 2 2) (sample 7 5 8)) 7 5 8 =
    [[1;8;240;233;29;36;43]; [14;234;227;220;213;49;56]; [27;221;214;207;200;62;69]; [40;208;201;194;187;75;82]; [53;60;188;181;81;88;95]] /\
  rows (after (invertbitsincircregion 0 0 2) (blank 7 5 8)) 7 5 8 =
    [[255;255;0;0;0;0;0]; [255;255;0;0;0;0;0]; [255;0;0;0;0;0;0]; [0;0;0;0;0;0;0]; [0;0;0;0;0;0;0]] /\
  pixel (sample24 5 3) 5 3 24 2 1 = 28 + 256 * 13 + 65536 * 213 /\
  pixel (after (monocircle 2 1 1) (sample24 5 3)) 5 3 24 2 1 = 84 + 256 * 84 + 65536 * 84 /\ disc_inside 5 3 2 1 1.
Proof. do 4 (split; [vm_compute; reflexivity|]). unfold disc_inside; lia. Qed.
Print Assumptions C56_invert.
Print Assumptions C56_invert_twice.
Print Assumptions C56_far_left_refuted.
Print Assumptions C56_mono.
Print Assumptions C56_mono_offscreen_refuted.
Print Assumptions C56_brightness.
Print Assumptions C56_gamma.
Print Assumptions C56_color.
Print Assumptions C56_negative_radius.

(** * C57 *)
(** 8 and 24 bits: a quarter turn *)
Theorem C57_rotate : forall b w h bits o x y r, wf b w h bits -> bits = 8 \/ bits = 24 -> disc_inside w h x y r -> y + r < w ->
  exists b', flipXYcircregion x y r (mkst b o) = (Ok (Some tt), mkst b' o) /\
    repainted b b' w h bits (fun px py =>
      if in_disc r (px - x) (py - y) then pixel b w h bits (x + (py - y)) (y - (px - x)) else pixel b w h bits px py).
Proof.
  intros b w h bits o x y r W HB (Hr & X1 & X2 & Y1 & Y2) Y3.
  apply (rot_run b w h bits (if bits =? 8 then 1 else 3)); auto.
  destruct HB as [-> | ->]; [left|right]; split; reflexivity.
Qed.
Theorem C57_rotate_four_times : forall b w h bits o x y r, wf b w h bits -> bits = 8 \/ bits = 24 -> disc_inside w h x y r -> y + r < w ->
  exists b1 b2 b3 b4, flipXYcircregion x y r (mkst b o) = (Ok (Some tt), mkst b1 o) /\
    flipXYcircregion x y r (mkst b1 o) = (Ok (Some tt), mkst b2 o) /\
    flipXYcircregion x y r (mkst b2 o) = (Ok (Some tt), mkst b3 o) /\
    flipXYcircregion x y r (mkst b3 o) = (Ok (Some tt), mkst b4 o) /\ repainted b b4 w h bits (pixel b w h bits).
Proof.
  intros b w h bits o x y r W HB D Y3.
  destruct (C57_rotate b w h bits o x y r W HB D Y3) as (b1 & E1 & R1).
  destruct (C57_rotate b1 w h bits o x y r ltac:(apply R1) HB D Y3) as (b2 & E2 & R2).
  destruct (C57_rotate b2 w h bits o x y r ltac:(apply R2) HB D Y3) as (b3 & E3 & R3).
  destruct (C57_rotate b3 w h bits o x y r ltac:(apply R3) HB D Y3) as (b4 & E4 & R4).
  exists b1, b2, b3, b4. repeat (split; [assumption|]).
  split; [apply R4|]. split.
  - pose proof (repainted_trans _ _ _ _ _ _ _ _ (repainted_trans _ _ _ _ _ _ _ _ (repainted_trans _ _ _ _ _ _ _ _ R1 R2) R3) R4) as T. apply T.
  - intros px py Hin. destruct R1 as (_ & _ & P1). destruct R2 as (_ & _ & P2). destruct R3 as (_ & _ & P3). destruct R4 as (_ & _ & P4).
    destruct D as (Hr & X1 & X2 & Y1 & Y2).
    assert (S : forall u v, in_disc r v (- u) = in_disc r u v).
    { intros u v. rewrite disc_sym, disc_swap. reflexivity. }
    rewrite P4 by auto. cbn beta. destruct (in_disc r (px - x) (py - y)) eqn:Q.
    + pose proof (disc_bounds r _ _ Hr Q) as [B1 B2].
      rewrite P3 by (unfold inside in *; lia). cbn beta.
      replace (x + (py - y) - x) with (py - y) by ring. replace (y - (px - x) - y) with (- (px - x)) by ring. rewrite S, Q.
      rewrite P2 by (unfold inside in *; lia). cbn beta.
      replace (x + - (px - x) - x) with (- (px - x)) by ring. replace (y - (py - y) - y) with (- (py - y)) by ring.
      rewrite disc_sym, disc_symx, Q.
      rewrite P1 by (unfold inside in *; lia). cbn beta.
      replace (x + - (py - y) - x) with (- (py - y)) by ring. replace (y - - (px - x) - y) with (px - x) by ring.
      rewrite disc_symx, disc_swap, Q. f_equal; ring.
    + rewrite P3 by auto. cbn beta. rewrite Q. rewrite P2 by auto. cbn beta. rewrite Q. rewrite P1 by auto. cbn beta. now rewrite Q.
Qed.
(** 1 and 4 bits: a transposition of the reached part *)
Theorem C57_transpose : forall b w h bits o x y r, wf b w h bits -> bits = 1 \/ bits = 4 -> disc_inside w h x y r -> y + r < w ->
  ((x - y) * bits) mod 8 = 0 ->
  exists b', flipXYcircregion x y r (mkst b o) = (Ok (Some tt), mkst b' o) /\
    repainted b b' w h bits (fun px py =>
      if disc_part w bits r x y px py then pixel b w h bits (x + (py - y)) (y + (px - x)) else pixel b w h bits px py).
Proof.
  intros b w h bits o x y r W HB (Hr & X1 & X2 & Y1 & Y2) Y3 HA. apply transp_run; auto. lia.
Qed.
(** so the function does not transpose 24-bit images *)
Theorem C57_transpose_refuted : exists b w h x y r px py, wf b w h 24 /\ disc_inside w h x y r /\ y + r < w /\
  in_disc r (px - x) (py - y) = true /\
  pixel (after (flipXYcircregion x y r) b) w h 24 px py <> pixel b w h 24 (x + (py - y)) (y + (px - x)).
Proof.
  exists (sample24 5 5), 5, 5, 2, 2, 2, 3, 2. split; [concrete_wf|]. split; [unfold disc_inside; lia|]. split; [lia|].
  split; [reflexivity|]. vm_compute. discriminate.
Qed.
Example C57_ex : rows (sample 5 5 8) 5 5 8 =
    [[1;8;15;22;29]; [14;21;28;35;42]; [27;34;41;48;55]; [40;47;54;61;68]; [53;60;67;74;81]] /\
  rows (after (flipXYcircregion 2 2 2) (sample 5 5 8)) 5 5 8 =
    [[1;40;27;14;29]; [60;47;34;21;8]; [67;54;41;28;15]; [74;61;48;35;22]; [53;68;55;42;81]] /\
  disc_inside 5 5 2 2 2 /\ disc_inside 24 9 8 8 0 /\ ((8 - 8) * 1) mod 8 = 0.
Proof. split; [vm_compute; reflexivity|]. split; [vm_compute; reflexivity|]. unfold disc_inside. split; [lia|]. split; [lia|reflexivity]. Qed.
Example C57_ex4 : wf (sample 12 9 4) 12 9 4 /\ disc_inside 12 9 6 4 4 /\ ((6 - 4) * 4) mod 8 = 0 /\
  pixel (sample 12 9 4) 12 9 4 5 7 <> pixel (sample 12 9 4) 12 9 4 9 3 /\
  pixel (after (flipXYcircregion 6 4 4) (sample 12 9 4)) 12 9 4 5 7 = pixel (sample 12 9 4) 12 9 4 9 3.
Proof.
  split; [concrete_wf|]. split; [unfold disc_inside; lia|]. split; [reflexivity|].
  split; [vm_compute; discriminate|vm_compute; reflexivity].
Qed.
Print Assumptions C57_rotate.
Print Assumptions C57_rotate_four_times.
Print Assumptions C57_transpose.
Print Assumptions C57_transpose_refuted.

(** * C58 *)
(** copied from one bitmap, pasted into another one of the same depth *)
Theorem C58_copy_paste : forall b w h bits b2 w2 h2 o o2 x y nx ny r, wf b w h bits -> wf b2 w2 h2 bits ->
  disc_inside w2 h2 x y r -> y + r < w2 -> disc_inside w h nx ny r -> ((nx - x) * bits) mod 8 = 0 ->
  exists buf b', copycircregion2buf x y r (mkst b2 o2) = (Ok (Some buf), mkst b2 o2) /\
    pastecirularbuf nx ny (Some buf) (mkst b o) = (Ok tt, mkst b' o) /\
    repainted b b' w h bits (fun px py =>
      if disc_part w bits r nx ny px py then pixel b2 w2 h2 bits (x + (px - nx)) (y + (py - ny)) else pixel b w h bits px py).
Proof.
  intros b w h bits b2 w2 h2 o o2 x y nx ny r W W2 (Hr & X1 & X2 & Y1 & Y2) Y3 (_ & N1 & N2 & M1 & M2) HA.
  destruct (itercirclepartlineedge_run r Hr) as (l & El & _).
  destruct (paste_run b w h bits b2 w2 h2 r x y nx ny o l W W2 Hr El X1 X2 Y1 Y2 N1 N2 M1 M2 HA) as (b' & E & R).
  eexists _, b'. split; [apply (copycirc2buf_run b2 w2 h2 bits o2 x y r l W2 Hr El X1 X2 Y1 Y3)|]. split; [exact E|].
  eapply repainted_ext; [|exact R]. intros px py Hin. cbn beta. destruct (disc_part w bits r nx ny px py); auto. f_equal; ring.
Qed.
Theorem C58_copycirc : forall b w h bits o x y nx ny r, wf b w h bits -> disc_inside w h x y r -> y + r < w ->
  disc_inside w h nx ny r -> ((nx - x) * bits) mod 8 = 0 ->
  exists b', copycircregion x y r nx ny (mkst b o) = (Ok tt, mkst b' o) /\
    repainted b b' w h bits (fun px py =>
      if disc_part w bits r nx ny px py then pixel b w h bits (x + (px - nx)) (y + (py - ny)) else pixel b w h bits px py).
Proof.
  intros b w h bits o x y nx ny r W D Y3 D2 HA.
  destruct (C58_copy_paste b w h bits b w h o o x y nx ny r W W D Y3 D2 HA) as (buf & b' & E1 & E2 & R).
  exists b'. split; auto. unfold copycircregion. rewrite (bind_ok _ _ _ _ _ E1). exact E2.
Qed.
Theorem C58_other_depth : forall b w h bits bits2 o r rows nx ny, wf b w h bits -> disc_inside w h nx ny r -> bits2 <> bits ->
  pastecirularbuf nx ny (Some (bits2, r, rows)) (mkst b o) = (Err TypeError, mkst b o).
Proof.
  intros b w h bits bits2 o r rows nx ny W (Hr & X1 & X2 & Y1 & Y2) N. unfold pastecirularbuf.
  rewrite (bind_ok _ _ _ _ _ (run_rd getmaxx b o w (wf_rx _ _ _ _ W))), (bind_ok _ _ _ _ _ (run_rd getmaxy b o h (wf_ry _ _ _ _ W))).
  assert (I : entirecircleisinboundary nx ny (-1) w (-1) h r = true) by (rewrite circ_in_spec by auto; lia).
  rewrite I. rewrite (bind_ok _ _ _ _ _ (clrbits_run _ _ _ _ o W)).
  replace (bits =? bits2) with false by lia. reflexivity.
Qed.
Theorem C58_outside : forall b w h bits bits2 o r rows nx ny, wf b w h bits -> 0 <= r -> ~ disc_inside w h nx ny r ->
  pastecirularbuf nx ny (Some (bits2, r, rows)) (mkst b o) = (Ok tt, mkst b (o ++ [Mregionoutofbounds])).
Proof.
  intros b w h bits bits2 o r rows nx ny W Hr N. unfold pastecirularbuf.
  rewrite (bind_ok _ _ _ _ _ (run_rd getmaxx b o w (wf_rx _ _ _ _ W))), (bind_ok _ _ _ _ _ (run_rd getmaxy b o h (wf_ry _ _ _ _ W))).
  destruct (entirecircleisinboundary nx ny (-1) w (-1) h r) eqn:I; auto.
  exfalso. apply N. rewrite circ_in_spec in I by auto. unfold disc_inside. lia.
Qed.
Example C58_ex : disc_inside 7 5 3 2 2 /\ disc_inside 5 5 2 2 2 /\ ((2 - 3) * 8) mod 8 = 0 /\
  match outcome (copycircregion2buf 3 2 2) (sample 7 5 8) with
  | Ok (Some buf) => rows (after (pastecirularbuf 2 2 (Some buf)) (blank 5 5 8)) 5 5 8 =
      [[0;15;22;0;0]; [21;28;35;42;0]; [34;41;48;55;0]; [47;54;61;68;0]; [0;67;74;0;0]]
  | _ => False end.
Proof.
  split; [unfold disc_inside; lia|]. split; [unfold disc_inside; lia|]. split; [reflexivity|]. vm_compute. reflexivity.
Qed.
Print Assumptions C58_copy_paste.
Print Assumptions C58_copycirc.
Print Assumptions C58_other_depth.
Print Assumptions C58_outside.

(** * C59 *)
(** the bits of the byte pattern at the place of pixel px *)
Theorem C59_erase : forall b w h bits o x y r n k pat, wf b w h bits -> disc_inside w h x y r -> y + r < w -> n <> 0 ->
  exists b', erasealternatehorizontallinesincircregion x y r n k pat (mkst b o) = (Ok (Some tt), mkst b' o) /\
    repainted b b' w h bits (fun px py =>
      if disc_part w bits r x y px py && (py mod n =? k)
      then let p := pat mod 256 in
           if bits =? 1 then p / 2 ^ (7 - px mod 8) mod 2
           else if bits =? 4 then (if px mod 2 =? 0 then p / 16 else p mod 16)
           else if bits =? 8 then p else rgb24 (p, p, p)
      else pixel b w h bits px py).
Proof.
  intros b w h bits o x y r n k pat W (Hr & X1 & X2 & Y1 & Y2) Y3 N.
  destruct (erasecirc_run b w h bits r x y n k pat o W Hr X1 X2 Y1 Y2 Y3 N) as (b' & E & R). exists b'. split; [exact E|].
  eapply repainted_ext; [|exact R]. intros px py Hin. cbn beta. destruct (_ && _); auto.
  unfold patpix, rowpix. cbv zeta. pose proof (Z.mod_pos_bound pat 256 ltac:(lia)) as P. set (p := pat mod 256) in *. clearbody p.
  destruct (wf_depth _ _ _ _ W) as [-> | [-> | [-> | ->]]]; cbn [Z.eqb Pos.eqb].
  - change (2 ^ 1) with 2. rewrite Z.mul_1_r. replace (8 - 1 - px mod 8) with (7 - px mod 8) by ring. reflexivity.
  - change (2 ^ 4) with 16. pose proof (Z.mod_pos_bound px 2 ltac:(lia)) as Q.
    assert (E4 : (px * 4) mod 8 = 4 * (px mod 2)).
    { replace (px * 4) with (4 * px) by ring. change 8 with (4 * 2). now rewrite Z.mul_mod_distr_l by lia. }
    rewrite E4. destruct (Z.eqb_spec (px mod 2) 0) as [->|]; cbn.
    + change (2 ^ 4) with 16. rewrite Z.mod_small; auto. split; [apply Z.div_pos; lia|apply Z.div_lt_upper_bound; lia].
    + replace (px mod 2) with 1 by lia. cbn. now rewrite Z.div_1_r.
  - replace ((px * 8) mod 8) with 0 by (now rewrite Z.mod_mul). cbn. rewrite Z.div_1_r. change (2 ^ 8) with 256. now rewrite Z.mod_small.
  - reflexivity.
Qed.
Theorem C59_zero : forall b w h bits o x y r k pat, wf b w h bits -> disc_inside w h x y r -> y + r < w ->
  erasealternatehorizontallinesincircregion x y r 0 k pat (mkst b o) = (Err ZeroDivisionError, mkst b o).
Proof.
  intros b w h bits o x y r k pat W (Hr & X1 & X2 & Y1 & Y2) Y3.
  apply (erasecirc_zero b w h bits r x y 0 k pat o W Hr X1 X2 Y1 Y3); auto.
Qed.
Example C59_ex : rows (after (erasealternatehorizontallinesincircregion 3 2 2 2 1 9) (sample 7 5 8)) 7 5 8 =
    [[1;8;15;22;29;36;43]; [14;9;9;9;9;49;56]; [27;34;41;48;55;62;69]; [40;9;9;9;9;75;82]; [53;60;67;74;81;88;95]].
Proof. vm_compute; reflexivity. Qed.
Print Assumptions C59_erase.
Print Assumptions C59_zero.

(** * C60 *)
Theorem C60_outlinecirc : forall b w h bits o x y r, wf b w h bits -> 0 <= r -> 0 < w ->
  0 <= 8 * data_off bits + x * bits ->
  exists b', outlinecircregion x y r (mkst b o) = (Ok tt, mkst b' o) /\
    repainted b b' w h bits (fun px py =>
      if disc_part w bits r x y px py
      then Z.lxor (pixel b w h bits px py) (pixel b w h bits (px + (if bits <? 8 then 8 / bits else 1)) py)
      else pixel b w h bits px py).
Proof. intros b w h bits o x y r. apply outlinecirc_run. Qed.
Example C60_ex : rows (after (outlinecircregion 3 2 2) (sample 7 5 8)) 7 5 8 =
    [[1;8;Z.lxor 15 22;Z.lxor 22 29;29;36;43]; [14;Z.lxor 21 28;Z.lxor 28 35;Z.lxor 35 42;Z.lxor 42 49;49;56];
     [27;Z.lxor 34 41;Z.lxor 41 48;Z.lxor 48 55;Z.lxor 55 62;62;69];
     [40;Z.lxor 47 54;Z.lxor 54 61;Z.lxor 61 68;Z.lxor 68 75;75;82]; [53;60;Z.lxor 67 74;Z.lxor 74 81;81;88;95]].
Proof. vm_compute; reflexivity. Qed.
Print Assumptions C60_outlinecirc.

(** * C61 *)
Theorem C61_magnify : forall b w h o x y r n, wf b w h 24 -> w mod 2 = 0 -> 0 < n -> disc_inside w h x y r ->
  w * n < 2 ^ 24 -> h * n < 2 ^ 24 ->
  exists b', magnifyNtimescircregion x y r n (mkst b o) = (Ok (Some tt), mkst b' o) /\
    repainted b b' w h 24 (fun px py =>
      if disc_part w 24 r x y px py
      then pixel b w h 24 ((x * n + (px - x)) / n) ((y * n + (py - y)) / n)
      else pixel b w h 24 px py).
Proof.
  intros b w h o x y r n W He Hn (Hr & X1 & X2 & Y1 & Y2) L1 L2.
  apply (magnify_run b w h o x y r n); auto. right. auto.
Qed.
(** a magnification by 1 changes nothing, and the centre stays *)
Theorem C61_fixed : forall x px n, 0 < n -> (x * n + (px - x)) / n = x + (px - x) / n.
Proof. intros x px n Hn. rewrite Z.add_comm, Z.div_add by lia. lia. Qed.
Theorem C61_other_depth : forall b w h bits o x y r n, wf b w h bits -> bits <> 24 -> 0 <= r ->
  magnifyNtimescircregion x y r n (mkst b o) = (Ok None, mkst b (o ++ [Mnot24bit])).
Proof.
  intros b w h bits o x y r n W N Hr. unfold magnifyNtimescircregion. rewrite (cguard24_run b w h bits) by auto.
  now replace (bits =? 24) with false by lia.
Qed.
Example C61_ex : let b := sample24 8 7 in wf b 8 7 24 /\ disc_inside 8 7 3 3 3 /\
  pixel (after (magnifyNtimescircregion 3 3 3 2) b) 8 7 24 1 4 = pixel b 8 7 24 2 3 /\
  pixel b 8 7 24 1 4 <> pixel b 8 7 24 2 3.
Proof.
  cbv zeta. split; [concrete_wf|]. split; [unfold disc_inside; lia|]. split; [vm_compute; reflexivity|vm_compute; discriminate].
Qed.
Print Assumptions C61_magnify.
Print Assumptions C61_fixed.
Print Assumptions C61_other_depth.

(** * C69 *)
Lemma col_symy r dx dy : col_part r dx (- dy) = col_part r dx dy.
Proof. unfold col_part, on_ring. rewrite disc_sym, Z.abs_opp. replace (- dy =? 0) with (dy =? 0) by lia. reflexivity. Qed.
(** first the columns, then the rows: a pixel whose row is mirrored takes the
    pixel of the other row after the columns were mirrored *)
Theorem C69_corner : forall b w h bits o x y r act fx fy, wf b w h bits -> bits = 8 \/ bits = 24 -> disc_inside w h x y r -> y + r < w ->
  In (act, fx, fy) [(mirrortopleftincircregion x y r, Z.min, Z.min); (mirrortoprightincircregion x y r, Z.max, Z.min);
                    (mirrorbottomleftincircregion x y r, Z.min, Z.max); (mirrorbottomrightincircregion x y r, Z.max, Z.max)] ->
  exists b', act (mkst b o) = (Ok tt, mkst b' o) /\
    repainted b b' w h bits (fun px py =>
      let py' := if disc_part w bits r x y px py then fy py (2 * y - py) else py in
      let px' := if col_part r (px - x) (py - y) then fx px (2 * x - px) else px in
      pixel b w h bits px' py').
Proof.
  intros b w h bits o x y r act fx fy W HB D Y3 Hin.
  assert (G : forall (ha va : M (option unit)) fx fy,
    (exists b1, ha (mkst b o) = (Ok (Some tt), mkst b1 o) /\ repainted b b1 w h bits (fun px py =>
      if col_part r (px - x) (py - y) then pixel b w h bits (fx px (2 * x - px)) py else pixel b w h bits px py)) ->
    (forall b1, wf b1 w h bits -> exists b2, va (mkst b1 o) = (Ok (Some tt), mkst b2 o) /\ repainted b1 b2 w h bits (fun px py =>
      if disc_part w bits r x y px py then pixel b1 w h bits px (fy py (2 * y - py)) else pixel b1 w h bits px py)) ->
    (forall u v, fy u v = u \/ fy u v = v) ->
    exists b', (ha ;;; va ;;; ret tt) (mkst b o) = (Ok tt, mkst b' o) /\
      repainted b b' w h bits (fun px py =>
        let py' := if disc_part w bits r x y px py then fy py (2 * y - py) else py in
        let px' := if col_part r (px - x) (py - y) then fx px (2 * x - px) else px in
        pixel b w h bits px' py')).
  { clear act fx fy Hin. intros ha va fx fy (b1 & E1 & R1) Hv Hfy. destruct (Hv b1 (repainted_wf _ _ _ _ _ _ R1)) as (b2 & E2 & R2).
    exists b2. rewrite (bind_ok _ _ _ _ _ E1), (bind_ok _ _ _ _ _ E2). split; [reflexivity|].
    eapply repainted_ext; [|eapply repainted_trans; [exact R1|exact R2]]. intros px py Hi. cbn beta. cbv zeta.
    destruct (disc_part w bits r x y px py) eqn:P.
    - pose proof (part_row _ _ _ _ _ _ _ (proj1 D) P) as Q. destruct D as (Hr & X1 & X2 & Y1 & Y2).
      assert (Hi' : inside w h px (fy py (2 * y - py))) by (unfold inside in *; destruct (Hfy py (2 * y - py)) as [-> | ->]; lia).
      rewrite (proj2 (proj2 R1)) by exact Hi'. cbn beta.
      replace (col_part r (px - x) (fy py (2 * y - py) - y)) with (col_part r (px - x) (py - y)).
      + now destruct (col_part r (px - x) (py - y)).
      + destruct (Hfy py (2 * y - py)) as [-> | ->]; [reflexivity|]. replace (2 * y - py - y) with (- (py - y)) by ring. now rewrite col_symy.
    - rewrite (proj2 (proj2 R1)) by auto. cbn beta. now destruct (col_part r (px - x) (py - y)). }
  cbn [In] in Hin. destruct Hin as [K|[K|[K|[K|[]]]]]; inversion K; subst act fx fy; clear K.
  - apply G; [now apply C55_mirrorleft|intros b1 W1; now apply C54_mirrortop|intros; lia].
  - apply G; [now apply C55_mirrorright|intros b1 W1; now apply C54_mirrortop|intros; lia].
  - apply G; [now apply C55_mirrorleft|intros b1 W1; now apply C54_mirrorbottom|intros; lia].
  - apply G; [now apply C55_mirrorright|intros b1 W1; now apply C54_mirrorbottom|intros; lia].
Qed.
(** other depths: only the rows are mirrored *)
Theorem C69_other_depth : forall b w h bits o x y r act fy, wf b w h bits -> bits < 8 -> disc_inside w h x y r -> y + r < w ->
  In (act, fy) [(mirrortopleftincircregion x y r, Z.min); (mirrortoprightincircregion x y r, Z.min);
                (mirrorbottomleftincircregion x y r, Z.max); (mirrorbottomrightincircregion x y r, Z.max)] ->
  exists b', act (mkst b o) = (Ok tt, mkst b' (o ++ [Mnot24or8bit])) /\
    repainted b b' w h bits (fun px py =>
      if disc_part w bits r x y px py then pixel b w h bits px (fy py (2 * y - py)) else pixel b w h bits px py).
Proof.
  intros b w h bits o x y r act fy W HB D Y3 Hin.
  assert (L : mirrorleftincircregion x y r (mkst b o) = (Ok None, mkst b (o ++ [Mnot24or8bit])) /\
              mirrorrightincircregion x y r (mkst b o) = (Ok None, mkst b (o ++ [Mnot24or8bit]))).
  { unfold mirrorleftincircregion, mirrorrightincircregion, horitransformincircregion. destruct D as [Hr _].
    rewrite !(cguard8_run b w h bits) by auto. now replace ((bits =? 24) || (bits =? 8)) with false by lia. }
  destruct L as [L R].
  destruct (C54_mirrortop b w h bits (o ++ [Mnot24or8bit]) x y r W D Y3) as (bt & Et & Rt).
  destruct (C54_mirrorbottom b w h bits (o ++ [Mnot24or8bit]) x y r W D Y3) as (bb & Eb & Rb).
  cbn [In] in Hin. destruct Hin as [K|[K|[K|[K|[]]]]]; inversion K; subst act fy; clear K.
  - exists bt. split; [|exact Rt]. unfold mirrortopleftincircregion. now rewrite (bind_ok _ _ _ _ _ L), (bind_ok _ _ _ _ _ Et).
  - exists bt. split; [|exact Rt]. unfold mirrortoprightincircregion. now rewrite (bind_ok _ _ _ _ _ R), (bind_ok _ _ _ _ _ Et).
  - exists bb. split; [|exact Rb]. unfold mirrorbottomleftincircregion. now rewrite (bind_ok _ _ _ _ _ L), (bind_ok _ _ _ _ _ Eb).
  - exists bb. split; [|exact Rb]. unfold mirrorbottomrightincircregion. now rewrite (bind_ok _ _ _ _ _ R), (bind_ok _ _ _ _ _ Eb).
Qed.
(** outside the image on every side: reported twice, nothing changes *)
Theorem C69_outside : forall b w h bits o x y r act, wf b w h bits -> bits = 8 \/ bits = 24 -> 0 <= r -> x - r < 0 \/ w <= x + r \/ y - r < 0 ->
  In act [mirrortopleftincircregion x y r; mirrortoprightincircregion x y r; mirrorbottomleftincircregion x y r; mirrorbottomrightincircregion x y r] ->
  act (mkst b o) = (Ok tt, mkst b (o ++ [Mregionoutofbounds] ++ [Mregionoutofbounds])).
Proof.
  intros b w h bits o x y r act W HB Hr N Hin.
  assert (ND : ~ disc_inside w h x y r) by (unfold disc_inside; lia).
  destruct (C53_refused b w h bits o x y r W Hr ND) as [_ H]. destruct (H HB) as (_ & EL & ER).
  destruct (C53_width_guard b w h bits (o ++ [Mregionoutofbounds]) x y r W Hr ltac:(lia)) as (_ & ET & EB & _).
  rewrite <- app_assoc in ET, EB.
  cbn [In] in Hin. destruct Hin as [<-|[<-|[<-|[<-|[]]]]];
    unfold mirrortopleftincircregion, mirrortoprightincircregion, mirrorbottomleftincircregion, mirrorbottomrightincircregion;
    (rewrite (bind_ok _ _ _ _ _ EL) || rewrite (bind_ok _ _ _ _ _ ER)); (rewrite (bind_ok _ _ _ _ _ ET) || rewrite (bind_ok _ _ _ _ _ EB)); reflexivity.
Qed.
Example C69_ex : rows (after (mirrortopleftincircregion 3 2 2) (sample 7 5 8)) 7 5 8 =
    [[1;8;15;22;15;36;43]; [14;21;28;35;28;49;56]; [27;34;41;48;41;34;69]; [40;21;28;35;28;75;82]; [53;60;15;22;67;88;95]] /\
  disc_inside 7 5 3 2 2 /\ rows (sample 7 5 8) 7 5 8 =
    [[1;8;15;22;29;36;43]; [14;21;28;35;42;49;56]; [27;34;41;48;55;62;69]; [40;47;54;61;68;75;82]; [53;60;67;74;81;88;95]].
Proof. split; [vm_compute; reflexivity|]. split; [unfold disc_inside; lia|vm_compute; reflexivity]. Qed.
Print Assumptions C69_corner.
Print Assumptions C69_other_depth.
Print Assumptions C69_outside.

(** * C70 *)
Theorem C70_vertical : forall g b w h o x y r, wf b w h 24 -> 0 < r -> disc_inside w h x y r ->
  exists b', vertbrightnessgrad2circregion g x y r (mkst b o) = (Ok (Some tt), mkst b' o) /\
    repainted b b' w h 24 (fun px py =>
      if disc_part w 24 r x y px py
      then let '(rd, gr, bl) := rgb_of (pixel b w h 24 px py) in let f := g (py - (y - r)) in
           rgb24 (Z.max 0 (Z.min 255 (f rd)), Z.max 0 (Z.min 255 (f gr)), Z.max 0 (Z.min 255 (f bl)))
      else pixel b w h 24 px py).
Proof.
  intros g b w h o x y r W Hr (_ & X1 & X2 & Y1 & Y2).
  destruct (vgradcirc_run b w h r x y o g W Hr X1 X2 Y1 Y2) as (b' & E & R). exists b'. split; [exact E|].
  eapply repainted_ext; [|exact R]. intros px py _. cbn beta. destruct (disc_part w 24 r x y px py); reflexivity.
Qed.
Theorem C70_horizontal : forall g b w h o x y r, wf b w h 24 -> 0 < r -> disc_inside w h x y r ->
  exists b', horibrightnessgrad2circregion g x y r (mkst b o) = (Ok (Some tt), mkst b' o) /\
    repainted b b' w h 24 (fun px py =>
      if col_part r (px - x) (py - y)
      then let '(rd, gr, bl) := rgb_of (pixel b w h 24 px py) in let f := g (px - (x - r)) in
           rgb24 (Z.max 0 (Z.min 255 (f rd)), Z.max 0 (Z.min 255 (f gr)), Z.max 0 (Z.min 255 (f bl)))
      else pixel b w h 24 px py).
Proof.
  intros g b w h o x y r W Hr (_ & X1 & X2 & Y1 & Y2).
  destruct (hgradcirc_run b w h r x y o g W Hr X1 X2 Y1 Y2) as (b' & E & R). exists b'. split; [exact E|].
  eapply repainted_ext; [|exact R]. intros px py _. cbn beta. destruct (col_part r (px - x) (py - y)); reflexivity.
Qed.
Theorem C70_point : forall g b w h o x y, wf b w h 24 -> inside w h x y ->
  vertbrightnessgrad2circregion g x y 0 (mkst b o) = (Err ZeroDivisionError, mkst b o) /\
  horibrightnessgrad2circregion g x y 0 (mkst b o) = (Err ZeroDivisionError, mkst b o).
Proof.
  intros g b w h o x y W [Hx Hy]. unfold vertbrightnessgrad2circregion, horibrightnessgrad2circregion.
  rewrite !(cguard24_run b w h 24) by (auto; lia). change (24 =? 24) with true.
  replace (((0 <=? x - 0) && (x + 0 <? w)) && ((0 <=? y - 0) && (y + 0 <? h))) with true by lia. split; reflexivity.
Qed.
Theorem C70_refused : forall g b w h bits o x y r, wf b w h bits -> 0 <= r ->
  (bits <> 24 -> vertbrightnessgrad2circregion g x y r (mkst b o) = (Ok None, mkst b (o ++ [Mnot24bit])) /\
                 horibrightnessgrad2circregion g x y r (mkst b o) = (Ok None, mkst b (o ++ [Mnot24bit]))) /\
  (bits = 24 -> ~ disc_inside w h x y r ->
     vertbrightnessgrad2circregion g x y r (mkst b o) = (Ok None, mkst b (o ++ [Mregionoutofbounds])) /\
     horibrightnessgrad2circregion g x y r (mkst b o) = (Ok None, mkst b (o ++ [Mregionoutofbounds]))).
Proof.
  intros g b w h bits o x y r W Hr. unfold vertbrightnessgrad2circregion, horibrightnessgrad2circregion.
  rewrite !(cguard24_run b w h bits) by auto. split.
  - intros N. now replace (bits =? 24) with false by lia.
  - intros E N. replace (bits =? 24) with true by lia.
    destruct (((0 <=? x - r) && (x + r <? w)) && ((0 <=? y - r) && (y + r <? h))) eqn:F; auto.
    exfalso. apply N. unfold disc_inside. lia.
Qed.
Theorem C70_threshold : forall g l0 l1 b w h o x y r, wf b w h 24 ->
  (forall t lum v, 0 <= t < 256 -> 0 <= v <= lum -> 0 < lum < 256 -> 0 <= g t lum v < 256) ->
  0 <= r -> 0 < w -> -18 <= x ->
  exists b', thresholdadjcircregion g l0 l1 x y r (mkst b o) = (Ok (Some tt), mkst b' o) /\
    repainted b b' w h 24 (fun px py =>
      if disc_part w 24 r x y px py
      then let '(rd, gr, bl) := rgb_of (pixel b w h 24 px py) in
           let lum := Z.max rd (Z.max gr bl) in
           let lo := Z.min (l0 mod 256) (l1 mod 256) in
           let hi := Z.max (l0 mod 256) (l1 mod 256) in
           let t := Z.max lo (Z.min hi lum) in
           if (lum =? 0) || (t =? lum) then pixel b w h 24 px py
           else rgb24 (g t lum rd, g t lum gr, g t lum bl)
      else pixel b w h 24 px py).
Proof.
  intros g l0 l1 b w h o x y r W Hg Hr Hw Hx.
  destruct (use24circ_run b w h o _ _ false x y r W Hr (thresh_onbuf g l0 l1 Hg) ltac:(right; auto)) as (b' & E & R). exists b'. split; [exact E|].
  eapply repainted_ext; [|exact R]. intros px py Hin. cbn beta. destruct (disc_part w 24 r x y px py); auto.
  now rewrite thresh_pixel by now apply pixel_range.
Qed.
(** the gradients on whole images *)
Theorem C70_images : forall g b w h o, wf b w h 24 ->
  verticalbrightnessgradto24bitimage g (mkst b o) = verticalbrightnessgradto24bitregion g 0 0 (w - 1) (h - 1) (mkst b o) /\
  horizontalbrightnessgradto24bitimage g (mkst b o) = horizontalbrightnessgradto24bitregion g 0 0 (w - 1) (h - 1) (mkst b o).
Proof.
  intros g b w h o W. unfold verticalbrightnessgradto24bitimage, horizontalbrightnessgradto24bitimage.
  now rewrite !(whole_run b w h 24) by auto.
Qed.
(** for both gradients together the disc has holes: the last pixel of each row, or
    the end of the outermost columns, stays *)
Theorem C70_disc_refuted : exists b w h x y r, wf b w h 24 /\ 0 < r /\ disc_inside w h x y r /\
  (exists px py, in_disc r (px - x) (py - y) = true /\
    pixel (after (vertbrightnessgrad2circregion (fun _ _ => 0) x y r) b) w h 24 px py <> 0) /\
  (exists px py, in_disc r (px - x) (py - y) = true /\
    pixel (after (horibrightnessgrad2circregion (fun _ _ => 0) x y r) b) w h 24 px py <> 0).
Proof.
  exists (sample24 5 5), 5, 5, 2, 2, 2. split; [concrete_wf|]. split; [lia|]. split; [unfold disc_inside; lia|].
  split; [exists 3, 0; split; [reflexivity|vm_compute; discriminate]|exists 0, 1; split; [reflexivity|vm_compute; discriminate]].
Qed.
Example C70_ex : let b := sample24 5 5 in
  pixel b 5 5 24 2 1 = 28 + 256 * 13 + 65536 * 213 /\
  pixel (after (vertbrightnessgrad2circregion (fun i v => v + 20 * i) 2 2 2) b) 5 5 24 2 1 = 48 + 256 * 33 + 65536 * 233 /\
  pixel (after (horibrightnessgrad2circregion (fun i v => v + 20 * i) 2 2 2) b) 5 5 24 2 1 = 68 + 256 * 53 + 65536 * 253 /\
  pixel (after (thresholdadjcircregion (fun t lum v => t * v / lum) 100 50 2 2 2) b) 5 5 24 2 1 = 13 + 256 * 6 + 65536 * 100.
Proof. cbv zeta. do 3 (split; [vm_compute; reflexivity|]). vm_compute. reflexivity. Qed.
Print Assumptions C70_vertical.
Print Assumptions C70_horizontal.
Print Assumptions C70_point.
Print Assumptions C70_refused.
Print Assumptions C70_threshold.
Print Assumptions C70_images.
Print Assumptions C70_disc_refuted.
