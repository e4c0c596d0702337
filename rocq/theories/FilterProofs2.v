(** Horizontal brightness gradient and outlines of rectangles (proofs). *)
From Coq Require Import ZArith List Bool Lia.
From Verif Require Import PyBase PyFacts Spec Bmp BmpFacts PixelProofs Buffers Region Raster VertProofs RectProofs HorizProofs Filters FilterProofs.
Import ListNotations.
Open Scope Z_scope.
Open Scope py_scope.
Ltac Zify.zify_post_hook ::= Z.to_euclidean_division_equations.

(** ** horizontalbrightnessgradto24bitregion *)
Definition clampb (v : Z) : Z := Z.max 0 (Z.min 255 v).
Lemma bright_map g v : exists v', applybrightnessadjtoBGRbuf g v = Ok v' /\ bytes v' /\ zlen v' = zlen v /\
  forall i, 0 <= i < zlen v -> getz v' i = clampb (g (getz v i)).
Proof.
  assert (B : bytes (map (fun v => setminmax (g v) 0 255) v)).
  { apply Forall_forall. intros a Ha. apply in_map_iff in Ha. destruct Ha as (c & <- & _).
    rewrite setminmax_spec. unfold byte. lia. }
  unfold applybrightnessadjtoBGRbuf. rewrite py_array_ok by auto. eexists. split; [reflexivity|]. split; auto.
  split; [apply zlen_map|]. intros i Hi. rewrite getz_map by lia. apply setminmax_spec.
Qed.

Section HStep.
  Variables (b : list Z) (w h y1 y2 x : Z) (g : Z -> Z) (o : list msg).
  Hypothesis W : wf b w h 24.
  Hypothesis Hy : 0 <= y1 <= y2 /\ y2 < h.
  Hypothesis Hx : 0 <= x < w.
  Notation r := (stride w 24).
  Notation ra := (rowaddr w h 24).
  Definition gradstep (f : list Z -> res (list Z)) (s e r : Z) : M unit :=
    vb <- xslice s (e - 2) r ;; vb <- lift (f vb) ;;
    vg <- xslice (s + 1) (e - 1) r ;; vg <- lift (f vg) ;;
    vr <- xslice (s + 2) e r ;; vr <- lift (f vr) ;;
    xslice_set s (e - 2) r vb ;;; xslice_set (s + 1) (e - 1) r vg ;;; xslice_set (s + 2) e r vr.
  Definition gradG (k' y' : Z) : Z :=
    if incols (3 * x) 3 k' && ((y1 <? y') && (y' <=? y2)) then clampb (g (raster b w h 24 k' y')) else raster b w h 24 k' y'.

  Lemma gcol k s e : y1 < y2 -> 0 <= k < r -> s = ra y2 + k -> ra (y1 + 1) + k < e <= ra (y1 + 1) + k + r ->
    forall m, exists v v', xslice s e r (mkst b m) = (Ok v, mkst b m) /\
      lift (applybrightnessadjtoBGRbuf g v) (mkst b m) = (Ok v', mkst b m) /\
      zlen v' = y2 - (y1 + 1) + 1 /\ bytes v' /\
      forall i, 0 <= i < y2 - (y1 + 1) + 1 -> getz v' i = clampb (g (raster b w h 24 k (y2 - i))).
  Proof.
    intros Hlt Hk Es He m.
    destruct (run_col_get b w h 24 m (y1 + 1) y2 k s e W ltac:(lia) Hk Es He) as (v & E & V1 & V2 & V3).
    destruct (bright_map g v) as (v' & E' & B & L & G). exists v, v'.
    split; [exact E|]. split; [now apply run_lift|]. split; [lia|]. split; [exact B|].
    intros i Hi. rewrite G by lia. now rewrite V3 by lia.
  Qed.
  Lemma gradstep_run :
    exists b', gradstep (applybrightnessadjtoBGRbuf g) (ra y2 + 3 * x) (ra y1 + 3 * x) r (mkst b o) = (Ok tt, mkst b' o) /\
      rastered b b' w h 24 gradG.
  Proof.
    destruct (row_fit w 24 x (wf_depth _ _ _ _ W) Hx) as [F1 F2].
    change (pbytes 24) with 3 in *. replace (x * 24 / 8) with (3 * x) in * by (clear; lia).
    pose proof (stride_pos w 24 (wf_depth _ _ _ _ W) ltac:(lia)) as S4.
    assert (RS : ra (y1 + 1) + r = ra y1) by (unfold rowaddr; ring).
    destruct (Z.eq_dec y1 y2) as [Ey|N].
    - exists b. split.
      2:{ eapply rastered_ext; [|apply rastered_refl; auto]. intros k' y' _ _. unfold gradG.
          replace ((y1 <? y') && (y' <=? y2)) with false by (clear - Ey; lia). now rewrite andb_false_r. }
      destruct (rowaddr_bounds b w h 24 y1 W ltac:(lia)) as [B1 B2]. change (data_off 24) with 54 in B1.
      assert (Q : forall c e, 0 <= c < 3 -> e = ra y1 + 3 * x + c - 2 ->
         py_xslice b (ra y2 + 3 * x + c) e r = [] /\ py_xslice_set b (ra y2 + 3 * x + c) e r [] = Ok b).
      { intros c e Hc ->. rewrite <- Ey.
        assert (C1 : clampi (zlen b) (ra y1 + 3 * x + c) = ra y1 + 3 * x + c) by (apply clampi_in; lia).
        assert (C2 : clampi (zlen b) (ra y1 + 3 * x + c - 2) = ra y1 + 3 * x + c - 2) by (apply clampi_in; lia).
        assert (C3 : stepcount (ra y1 + 3 * x + c) (ra y1 + 3 * x + c - 2) r = 0).
        { apply stepcount_exact; [lia|lia|]. split; [|lia]. rewrite Z.mul_sub_distr_r, Z.mul_0_l, Z.mul_1_l. lia. }
        split.
        - unfold py_xslice. rewrite C1, C2. unfold range_step. rewrite C3. reflexivity.
        - unfold py_xslice_set. rewrite C1, C2. destruct (Z.eqb_spec r 1); [lia|]. change (zlen (@nil Z) =? 0) with true. cbv iota.
          f_equal. apply filteri_all. intros i. rewrite in_xslice_none by (auto; lia). reflexivity. }
      destruct (Q 0 _ ltac:(lia) eq_refl) as [Q1 Q2]. destruct (Q 1 _ ltac:(lia) eq_refl) as [Q3 Q4].
      destruct (Q 2 _ ltac:(lia) eq_refl) as [Q5 Q6]. rewrite !Z.add_0_r in Q1, Q2.
      replace (ra y1 + 3 * x + 1 - 2) with (ra y1 + 3 * x - 1) in Q3, Q4 by lia.
      replace (ra y1 + 3 * x + 2 - 2) with (ra y1 + 3 * x) in Q5, Q6 by lia.
      unfold gradstep. assert (E0 : applybrightnessadjtoBGRbuf g [] = Ok []) by reflexivity.
      rewrite (bind_ok _ _ _ _ _ (run_xslice _ _ _ _ _)), Q1. rewrite (bind_ok _ _ _ _ _ (run_lift _ _ _ _ E0)).
      rewrite (bind_ok _ _ _ _ _ (run_xslice _ _ _ _ _)), Q3. rewrite (bind_ok _ _ _ _ _ (run_lift _ _ _ _ E0)).
      rewrite (bind_ok _ _ _ _ _ (run_xslice _ _ _ _ _)), Q5. rewrite (bind_ok _ _ _ _ _ (run_lift _ _ _ _ E0)).
      rewrite (bind_ok _ _ _ _ _ (run_xslice_set _ _ _ _ _ _ _ Q2)).
      rewrite (bind_ok _ _ _ _ _ (run_xslice_set _ _ _ _ _ _ _ Q4)).
      now rewrite (run_xslice_set _ _ _ _ _ _ _ Q6).
    - assert (Hlt : y1 < y2) by lia. unfold gradstep.
      destruct (gcol (3 * x) (ra y2 + 3 * x) (ra y1 + 3 * x - 2) Hlt ltac:(lia) ltac:(lia) ltac:(lia) o) as (v0 & u0 & E0 & D0 & L0 & B0 & G0).
      rewrite (bind_ok _ _ _ _ _ E0), (bind_ok _ _ _ _ _ D0).
      destruct (gcol (3 * x + 1) (ra y2 + 3 * x + 1) (ra y1 + 3 * x - 1) Hlt ltac:(lia) ltac:(lia) ltac:(lia) o) as (v1 & u1 & E1 & D1 & L1 & B1 & G1).
      rewrite (bind_ok _ _ _ _ _ E1), (bind_ok _ _ _ _ _ D1).
      destruct (gcol (3 * x + 2) (ra y2 + 3 * x + 2) (ra y1 + 3 * x) Hlt ltac:(lia) ltac:(lia) ltac:(lia) o) as (v2 & u2 & E2 & D2 & L2 & B2 & G2).
      rewrite (bind_ok _ _ _ _ _ E2), (bind_ok _ _ _ _ _ D2).
      destruct (run_col_set b w h 24 o (y1 + 1) y2 (3 * x) (ra y2 + 3 * x) (ra y1 + 3 * x - 2) b (3 * x) (fun v => clampb (g v)) u0 W
         ltac:(lia) ltac:(lia) ltac:(lia) ltac:(lia) L0 B0 G0) as (b1 & X1 & R1). rewrite (bind_ok _ _ _ _ _ X1).
      destruct (run_col_set b1 w h 24 o (y1 + 1) y2 (3 * x + 1) (ra y2 + 3 * x + 1) (ra y1 + 3 * x - 1) b (3 * x + 1) (fun v => clampb (g v)) u1
         ltac:(apply R1) ltac:(lia) ltac:(lia) ltac:(lia) ltac:(lia) L1 B1 G1) as (b2 & X2 & R2). rewrite (bind_ok _ _ _ _ _ X2).
      destruct (run_col_set b2 w h 24 o (y1 + 1) y2 (3 * x + 2) (ra y2 + 3 * x + 2) (ra y1 + 3 * x) b (3 * x + 2) (fun v => clampb (g v)) u2
         ltac:(apply R2) ltac:(lia) ltac:(lia) ltac:(lia) ltac:(lia) L2 B2 G2) as (b3 & X3 & R3). rewrite X3.
      exists b3. split; [reflexivity|].
      eapply rastered_ext; [|exact (rastered_trans _ _ _ _ _ _ _ _ R1 (rastered_trans _ _ _ _ _ _ _ _ R2 R3))].
      intros k' y' Hk' Hy'. cbn beta. rewrite (proj2 (proj2 R2)), (proj2 (proj2 R1)) by auto.
      unfold gradG, incol, incols. clear - Hy N. 
      destruct (Z.eqb_spec k' (3 * x + 2)) as [->|]; [|destruct (Z.eqb_spec k' (3 * x + 1)) as [->|]; [|destruct (Z.eqb_spec k' (3 * x)) as [->|]]]; cbn [andb].
      + replace (3 * x <=? 3 * x + 2) with true by lia. replace (3 * x + 2 <? 3 * x + 3) with true by lia. cbn [andb].
        replace (y1 + 1 <=? y') with (y1 <? y') by lia. replace (3 * x + 2 =? 3 * x + 1) with false by lia.
        replace (3 * x + 2 =? 3 * x) with false by lia. cbn [andb]. reflexivity.
      + replace (3 * x <=? 3 * x + 1) with true by lia. replace (3 * x + 1 <? 3 * x + 3) with true by lia. cbn [andb].
        replace (y1 + 1 <=? y') with (y1 <? y') by lia. 
        replace (3 * x + 1 =? 3 * x) with false by lia. cbn [andb]. reflexivity.
      + replace (3 * x <=? 3 * x) with true by lia. replace (3 * x <? 3 * x + 3) with true by lia. cbn [andb].
        replace (y1 + 1 <=? y') with (y1 <? y') by lia. reflexivity.
      + replace ((3 * x <=? k') && (k' <? 3 * x + 3)) with false by lia. reflexivity.
  Qed.
End HStep.

Lemma hgrad_run b w h o (g : Z -> Z -> Z) x1 y1 x2 y2 : wf b w h 24 -> inside w h x1 y1 -> inside w h x2 y2 -> x1 <> x2 ->
  exists b', horizontalbrightnessgradto24bitregion g x1 y1 x2 y2 (mkst b o) = (Ok (Some tt), mkst b' o) /\
    repainted b b' w h 24 (fun x y =>
      if in_rect x1 y1 x2 y2 x y && negb (y =? Z.min y1 y2)
      then Tpix (Tbright (g (x - Z.min x1 x2))) false (pixel b w h 24 x y) else pixel b w h 24 x y).
Proof.
  intros W I1 I2 N. unfold horizontalbrightnessgradto24bitregion.
  rewrite guard24_true with (w := w) (h := h) by auto. unfold withSome.
  rewrite bind_assoc, (bind_ok _ _ _ _ _ (run_rd _ _ _ _ (wf_rxchr _ _ _ _ W))).
  rewrite sortrec.
  assert (NZ : hi x1 x2 - lo x1 x2 <> 0) by (unfold lo, hi; clear - N; lia).
  rewrite (proj2 (Z.eqb_neq _ _) NZ).
  rewrite bind_assoc. rewrite (bind_ok (ret tt) _ _ tt (mkst b o)) by reflexivity.
  assert (Hxy : 0 <= lo x1 x2 <= hi x1 x2 /\ hi x1 x2 < w /\ 0 <= lo y1 y2 <= hi y1 y2 /\ hi y1 y2 < h)
    by (unfold inside, lo, hi in *; lia).
  unfold in_rect. change (Z.min x1 x2) with (lo x1 x2). change (Z.min y1 y2) with (lo y1 y2).
  set (xa := lo x1 x2) in *. set (xb := hi x1 x2) in *. set (ya := lo y1 y2) in *. set (yb := hi y1 y2) in *.
  clearbody xa xb ya yb.
  match goal with |- context [forM _ ?f] => set (F := f) end.
  destruct (forM_range_inv (fun x s => exists b', s = mkst b' o /\ rastered b b' w h 24 (fun k' y' =>
      if (((xa <=? k' / 3) && (k' / 3 <? x)) && ((ya <? y') && (y' <=? yb))) then clampb (g (k' / 3 - xa) (raster b w h 24 k' y')) else raster b w h 24 k' y'))
      F xa (xb + 1) (mkst b o)) as (s' & E & b' & -> & R).
  - lia.
  - exists b. split; auto. eapply rastered_ext; [|apply rastered_refl; auto]. intros k' y' _ _. cbn beta.
    replace ((xa <=? k' / 3) && (k' / 3 <? xa)) with false by (clear; lia). reflexivity.
  - intros x s Hx (b1 & -> & R1). unfold F.
    pose proof (rastered_wf _ _ _ _ _ _ R1) as W1.
    rewrite (bind_ok _ _ _ _ _ (run_rd _ _ _ _ (wf_offsethd _ _ _ _ W1 _ _))).
    rewrite (bind_ok _ _ _ _ _ (run_rd _ _ _ _ (wf_offsethd _ _ _ _ W1 _ _))).
    rewrite !baddr_rowaddr. replace (x * 24 / 8) with (3 * x) by (clear; lia).
    destruct (gradstep_run b1 w h ya yb x (g (x - xa)) o W1 ltac:(lia) ltac:(lia)) as (b2 & E2 & R2).
    unfold gradstep in E2. exists (mkst b2 o). split; [exact E2|]. exists b2. split; auto.
    eapply rastered_trans; [exact R1|]. eapply rastered_ext; [|exact R2]. intros k' y' Hk' Hy'. unfold gradG.
    rewrite (proj2 (proj2 R1)) by auto. cbn beta.
    replace (incols (3 * x) 3 k') with (k' / 3 =? x) by (unfold incols; clear; lia).
    destruct (Z.eqb_spec (k' / 3) x) as [Ek|Nk]; cbn [andb].
    + replace ((xa <=? k' / 3) && (k' / 3 <? x)) with false by (clear - Ek; lia). cbn [andb].
      replace ((xa <=? k' / 3) && (k' / 3 <? x + 1)) with true by (clear - Ek Hx; lia). cbn [andb]. now rewrite Ek.
    + replace (k' / 3 <? x + 1) with (k' / 3 <? x) by (clear - Nk; lia). reflexivity.
  - exists b'. split. { rewrite (bind_ok _ _ _ _ _ E). reflexivity. }
    apply (rastered_repainted _ _ _ _ _ _ _ R). intros x y Hin. rewrite (pixel_raster b).
    replace (((xa <=? x) && (x <=? xb)) && ((ya <=? y) && (y <=? yb)) && negb (y =? ya))
      with (((xa <=? x) && (x <? xb + 1)) && ((ya <? y) && (y <=? yb))) by (clear; lia).
    destruct (((xa <=? x) && (x <? xb + 1)) && ((ya <? y) && (y <=? yb))) eqn:C.
    + apply rowpix24_T; [intros; apply (wf_byte _ _ _ _ _ W)|]. intros c Hc.
      replace ((3 * x + c) / 3) with x by (clear - Hc; lia). rewrite C. unfold Tbright, clampb.
      assert (c = 0 \/ c = 1 \/ c = 2) as [-> | [-> | ->]] by lia; cbn [Z.eqb Pos.eqb]; rewrite ?Z.add_0_r; reflexivity.
    + apply filt_row_ext. intros c Hc. replace ((3 * x + c) / 3) with x by (clear - Hc; lia). now rewrite C.
Qed.
Lemma hgrad_flat b w h o (g : Z -> Z -> Z) x y1 y2 : wf b w h 24 -> inside w h x y1 -> inside w h x y2 ->
  horizontalbrightnessgradto24bitregion g x y1 x y2 (mkst b o) = (Err ZeroDivisionError, mkst b o).
Proof.
  intros W I1 I2. unfold horizontalbrightnessgradto24bitregion.
  rewrite guard24_true with (w := w) (h := h) by auto. unfold withSome.
  rewrite bind_assoc, (bind_ok _ _ _ _ _ (run_rd _ _ _ _ (wf_rxchr _ _ _ _ W))).
  rewrite sortrec. assert (NZ : hi x x - lo x x = 0) by (unfold lo, hi; clear; lia). rewrite NZ. reflexivity.
Qed.

(** ** outlines *)
Lemma xorvect_len u : forall v, zlen u = zlen v -> zlen (xorvect u v) = zlen u.
Proof.
  induction u as [|a u IH]; intros [|c v] H; cbn [xorvect]; auto. rewrite !zlen_cons in *. rewrite IH; lia.
Qed.
Lemma xorvect_get u : forall v i, zlen u = zlen v -> 0 <= i < zlen u -> getz (xorvect u v) i = Z.lxor (getz u i) (getz v i).
Proof.
  induction u as [|a u IH]; intros [|c v] i H Hi; rewrite ?zlen_cons in *; try (unfold zlen in *; cbn in *; lia).
  cbn [xorvect]. rewrite !getz_cons. destruct (Z.eqb_spec i 0); auto. apply IH; lia.
Qed.
Lemma lxor_byte a c : byte a -> byte c -> byte (Z.lxor a c).
Proof.
  intros Ha Hc. pose proof (forall_below2 (fun a c => is_byte (Z.lxor a c)) 256 256 ltac:(vm_compute; reflexivity) a c Ha Hc) as H.
  now apply is_byte_iff.
Qed.
Lemma xorvect_bytes u v : zlen u = zlen v -> bytes u -> bytes v -> bytes (xorvect u v).
Proof.
  intros H Hu Hv. apply bytes_getz. intros i. destruct (Z.ltb_spec i 0); [rewrite getz_neg; unfold byte; lia|].
  destruct (Z.ltb_spec i (zlen u)).
  - rewrite xorvect_get by lia. apply lxor_byte; now apply bytes_getz.
  - rewrite getz_big by (rewrite xorvect_len; lia). unfold byte. lia.
Qed.

Lemma lxor_fields p q p' q' : byte p -> byte p' ->
  Z.lxor (p + 256 * q) (p' + 256 * q') = Z.lxor p p' + 256 * Z.lxor q q'.
Proof.
  intros Hp Hp'. pose proof (lxor_byte _ _ Hp Hp') as Hx. unfold byte in *.
  assert (J : forall a c, 0 <= a < 256 -> a + 256 * c = Z.lxor a (Z.shiftl c 8)).
  { intros a c Ha. rewrite <- Z.add_nocarry_lxor; [rewrite Z.shiftl_mul_pow2 by lia; change (2 ^ 8) with 256; ring|].
    apply Z.bits_inj'. intros n Hn. rewrite Z.land_spec, Z.bits_0, Z.shiftl_spec by lia. destruct (Z.ltb_spec n 8).
    - rewrite (Z.testbit_neg_r c) by lia. apply andb_false_r.
    - rewrite <- (Z.mod_small a (2 ^ 8)) by (change (2 ^ 8) with 256; lia). rewrite Z.mod_pow2_bits_high by lia. reflexivity. }
  rewrite !J by lia. rewrite Z.shiftl_lxor. rewrite !Z.lxor_assoc. f_equal.
  rewrite <- !Z.lxor_assoc. f_equal. apply Z.lxor_comm.
Qed.
Lemma lxor_divmod a c s k : 0 <= s -> 0 <= k ->
  (Z.lxor a c / 2 ^ s) mod 2 ^ k = Z.lxor ((a / 2 ^ s) mod 2 ^ k) ((c / 2 ^ s) mod 2 ^ k).
Proof.
  intros Hs Hk. rewrite <- !Z.shiftr_div_pow2 by lia. rewrite <- !Z.land_ones by lia. rewrite Z.shiftr_lxor.
  apply Z.bits_inj'. intros n Hn. rewrite Z.lxor_spec, !Z.land_spec, Z.lxor_spec.
  destruct (Z.testbit (Z.shiftr a s) n), (Z.testbit (Z.shiftr c s) n), (Z.testbit (Z.ones k) n); reflexivity.
Qed.
(** the pixels of the exclusive or of two rows of bytes *)
Lemma rowpix_xor bits A C x : valid_depth bits -> (forall k, byte (A k)) -> (forall k, byte (C k)) -> 
  rowpix bits (fun k => Z.lxor (A k) (C k)) x = Z.lxor (rowpix bits A x) (rowpix bits C x).
Proof.
  intros Hd HA HC. unfold rowpix. destruct (Z.eqb_spec bits 24).
  - assert (H3 : forall p q r : Z, p + 256 * q + 65536 * r = p + 256 * (q + 256 * r)) by (intros; ring).
    rewrite !H3, !lxor_fields by auto. reflexivity.
  - apply lxor_divmod; [|unfold valid_depth in Hd; lia].
    destruct Hd as [-> | [-> | [-> | ->]]]; lia.
Qed.

Section Outline.
  Variables (b : list Z) (w h bits x1 y1 x2 y2 : Z) (o : list msg).
  Hypothesis W : wf b w h bits.
  Hypothesis I1 : inside w h x1 y1.
  Hypothesis I2 : inside w h x2 y2.
  Hypothesis Hxs : x1 <= x2.
  Hypothesis Hys : y1 <= y2.
  Hypothesis HA : byte_aligned bits x1 x2.
  Let k := x1 * bits / 8. Let n := (x2 + 1) * bits / 8 - k.
  Definition outlG (lim k' y' : Z) : Z :=
    if incols k n k' && ((lim <? y') && (y' <=? y2))
    then Z.lxor (raster b w h bits k' y') (if y' =? y1 then raster b w h bits k' y' else raster b w h bits k' (y' - 1))
    else raster b w h bits k' y'.

  Lemma outline_rows : exists b', outlineregion x1 y1 x2 y2 (mkst b o) = (Ok (Some tt), mkst b' o) /\
    rastered b b' w h bits (outlG (y1 - 1)).
  Proof.
    pose proof (wf_depth _ _ _ _ W) as Hd. destruct I1 as [Ix1 Iy1], I2 as [Ix2 Iy2].
    destruct (aligned_fit w bits x1 x2 Hd) as (F1 & F2 & F3); try lia. fold k in F1, F2, F3. fold n in F2, F3.
    unfold outlineregion. rewrite guard_true with (w := w) (h := h) (bits := bits) by auto. unfold withSome.
    rewrite bind_assoc, (bind_ok _ _ _ _ _ (run_rd _ _ _ _ (wf_offset _ _ _ _ W x1 y2))).
    rewrite bind_assoc, (bind_ok _ _ _ _ _ (run_rd _ _ _ _ (wf_rxchr _ _ _ _ W))).
    assert (EO : baddr w h bits x1 y2 - data_off bits = (h - 1 - y2) * stride w bits + k).
    { rewrite baddr_rowaddr. unfold rowaddr. fold k. ring. }
    rewrite EO.
    match goal with |- context [itercopyrect own _ _ _ _ _ ?f] => set (F := f) end.
    destruct (itercopyrect_inv own mem w h bits x1 y1 x2 y2
      (fun i p s => exists b', s = mkst b' o /\
         (fst p = (h - 1 - (y2 - Z.max 0 (i - 1))) * stride w bits + k) /\
         rastered b b' w h bits (outlG (y2 - Z.max 0 (i - 1))) /\
         (if i =? 0 then snd p = None else exists buf, snd p = Some buf /\ zlen buf = n /\ bytes buf /\
            forall j, 0 <= j < n -> getz buf j = raster b w h bits (k + j) (y2 - i + 1)))
      ((h - 1 - y2) * stride w bits + k, None) F (mkst b o)) as ([off old] & s' & E & b' & -> & Eoff & R & Old); cbn [fst snd] in *.
    - apply own_reads.
    - intros i a s (b' & -> & _ & R & _). apply R.
    - split; lia.
    - split; lia.
    - replace (lo x1 x2) with x1 by (unfold lo; lia). replace (hi x1 x2) with x2 by (unfold hi; lia). exact HA.
    - exists b. split; auto. split; [rewrite Z.max_l by lia; f_equal; f_equal; ring|]. split; [|reflexivity].
      eapply rastered_ext; [|apply rastered_refl; auto]. intros k' y' _ _. unfold outlG. rewrite Z.max_l by lia.
      replace ((y2 - 0 <? y') && (y' <=? y2)) with false by (clear; lia). now rewrite andb_false_r.
    - intros i [off old] s buf Hi (b' & -> & Eoff & R & Old) L1 L2 L3. cbn [fst snd mem] in *.
      replace (lo x1 x2) with x1 in * by (unfold lo; lia). replace (hi x1 x2) with x2 in * by (unfold hi; lia).
      replace (lo y1 y2) with y1 in * by (unfold lo; lia). replace (hi y1 y2) with y2 in * by (unfold hi; lia).
      fold k in L1, L3. fold n in L1, L3.
      assert (LB : forall j, 0 <= j < n -> getz buf j = raster b w h bits (k + j) (y2 - i)).
      { intros j Hj. rewrite L3 by auto. rewrite (proj2 (proj2 R)) by (try lia; unfold n in *; lia). unfold outlG.
        replace (y2 - Z.max 0 (i - 1) <? y2 - i) with false by (clear - Hi; lia). cbn [andb]. now rewrite andb_false_r. }
      destruct (Z.eqb_spec i 0) as [->|Ni].
      + cbn [snd] in Old. subst old. unfold F. eexists _, _. split; [reflexivity|]. exists b'. split; auto. cbn [fst snd].
        change (0 + 1 - 1) with 0. change (Z.max 0 0) with 0. change (Z.max 0 (0 - 1)) with 0 in *.
        split; [exact Eoff|]. split; [exact R|].
        change (0 + 1 =? 0) with false. cbv iota. exists buf. split; auto. split; auto. split; auto.
        intros j Hj. rewrite LB by auto. f_equal. lia.
      + destruct Old as (ob & -> & O1 & O2 & O3). unfold F.
        pose proof (xorvect_bytes buf ob ltac:(lia) L2 O2) as XB.
        rewrite (bind_ok _ _ _ _ _ (run_lift _ _ _ _ (py_array_ok _ XB))).
        rewrite Eoff.
        destruct (bltput_row b' w h bits o (y2 - Z.max 0 (i - 1)) k (xorvect buf ob)) as (b2 & E2 & R2);
          [apply R|lia|exact F1|rewrite xorvect_len by lia; lia|exact XB|].
        rewrite (bind_ok _ _ _ _ _ E2). eexists _, _. split; [reflexivity|]. exists b2. split; auto. cbn [fst snd].
        rewrite Z.max_r by lia. replace (i + 1 - 1) with i by lia. rewrite Z.max_r in * by lia.
        split; [ring|]. split.
        * eapply rastered_trans; [exact R|]. eapply rastered_ext; [|exact R2]. intros k' y' Hk' Hy'. cbn beta.
          rewrite xorvect_len by lia. rewrite L1. rewrite (proj2 (proj2 R)) by auto. unfold in_rowpart, outlG, incols.
          destruct (Z.eqb_spec y' (y2 - (i - 1))) as [->|Ny]; cbn [andb].
          -- destruct ((k <=? k') && (k' <? k + n)) eqn:C; cbn [andb]; auto.
             rewrite xorvect_get by lia. rewrite LB, O3 by lia.
             replace ((y2 - i <? y2 - (i - 1)) && (y2 - (i - 1) <=? y2)) with true by (clear - Hi Ni; lia).
             rewrite (proj2 (Z.eqb_neq (y2 - (i - 1)) y1)) by (clear - Hi Ni Hys; lia).
             rewrite Z.lxor_comm. f_equal; f_equal; lia.
          -- replace (y2 - (i - 1) <? y') with (y2 - i <? y') by (clear - Ny; lia). reflexivity.
        * rewrite (proj2 (Z.eqb_neq (i + 1) 0)) by lia. exists buf. split; auto. split; auto. split; auto.
          intros j Hj. rewrite LB by auto. f_equal. lia.
    - replace (lo y1 y2) with y1 in * by (unfold lo; lia). replace (hi y1 y2) with y2 in * by (unfold hi; lia).
      rewrite (proj2 (Z.eqb_neq (y2 - y1 + 1) 0)) in Old by lia. destruct Old as (buf & -> & O1 & O2 & O3).
      rewrite bind_assoc, (bind_ok _ _ _ _ _ E). cbv beta iota.
      pose proof (xorvect_bytes buf buf eq_refl O2 O2) as XB.
      rewrite bind_assoc, (bind_ok _ _ _ _ _ (run_lift _ _ _ _ (py_array_ok _ XB))).
      replace (Z.max 0 (y2 - y1 + 1 - 1)) with (y2 - y1) in * by lia. replace (y2 - (y2 - y1)) with y1 in * by lia.
      rewrite Eoff.
      destruct (bltput_row b' w h bits o y1 k (xorvect buf buf)) as (b2 & E2 & R2);
        [apply R|lia|exact F1|rewrite xorvect_len by lia; lia|exact XB|].
      exists b2. rewrite (bind_ok _ _ _ _ _ E2). split; [reflexivity|].
      eapply rastered_trans; [exact R|]. eapply rastered_ext; [|exact R2]. intros k' y' Hk' Hy'. cbn beta.
      rewrite xorvect_len by lia. rewrite O1. rewrite (proj2 (proj2 R)) by auto. unfold in_rowpart, outlG, incols.
      destruct (Z.eqb_spec y' y1) as [->|Ny]; cbn [andb].
      + destruct ((k <=? k') && (k' <? k + n)) eqn:C; cbn [andb]; auto.
        rewrite xorvect_get by lia. rewrite O3 by lia.
        replace ((y1 - 1 <? y1) && (y1 <=? y2)) with true by (clear - Hys; lia).
        f_equal; f_equal; lia.
      + replace (y1 - 1 <? y') with (y1 <? y') by (clear - Ny; lia). reflexivity.
  Qed.

  Lemma outlineregion_run : exists b', outlineregion x1 y1 x2 y2 (mkst b o) = (Ok (Some tt), mkst b' o) /\
    repainted b b' w h bits (fun x y =>
      if in_rect x1 y1 x2 y2 x y then
        if y =? y1 then 0 else Z.lxor (pixel b w h bits x y) (pixel b w h bits x (y - 1))
      else pixel b w h bits x y).
  Proof.
    pose proof (wf_depth _ _ _ _ W) as Hd. destruct outline_rows as (b' & E & R). exists b'. split; [exact E|].
    apply (rastered_repainted _ _ _ _ _ _ _ R). intros x y [Hx Hy]. rewrite !(pixel_raster b).
    unfold in_rect. replace (lo x1 x2) with x1 by (unfold lo; lia). replace (hi x1 x2) with x2 by (unfold hi; lia).
    replace (lo y1 y2) with y1 by (unfold lo; lia). replace (hi y1 y2) with y2 by (unfold hi; lia).
    assert (HC : forall k', x * bits / 8 <= k' < x * bits / 8 + pbytes bits -> incols k n k' = (x1 <=? x) && (x <=? x2)).
    { intros k' Hk. unfold incols, k, n. destruct I1, I2. replace (x1 * bits / 8 + ((x2 + 1) * bits / 8 - x1 * bits / 8)) with ((x2 + 1) * bits / 8) by ring.
      apply eq_true_iff_eq. rewrite !andb_true_iff, !Z.leb_le, Z.ltb_lt.
      clear - Hk HA Hd Hx. unfold byte_aligned, pbytes in *.
      destruct Hd as [-> | [-> | [-> | ->]]]; cbn [Z.eqb Pos.eqb] in *; lia. }
    assert (HB : forall k' y', byte (raster b w h bits k' y')) by (intros; apply (wf_byte _ _ _ _ _ W)).
    replace ((x1 <=? x) && (x <=? x2) && ((y1 <=? y) && (y <=? y2))) with (((x1 <=? x) && (x <=? x2)) && ((y1 - 1 <? y) && (y <=? y2))) by (clear; lia).
    destruct (((x1 <=? x) && (x <=? x2)) && ((y1 - 1 <? y) && (y <=? y2))) eqn:C.
    - assert (C2 := C). apply andb_true_iff in C2. destruct C2 as [C1 C2].
      destruct (Z.eqb_spec y y1) as [Ey|Ny].
      + transitivity (rowpix bits (fun k' => Z.lxor (raster b w h bits k' y) (raster b w h bits k' y)) x).
        { apply (rowpix_ext bits w); auto. intros k' _ Hk. unfold outlG. rewrite HC by auto. rewrite C1, C2. cbn [andb].
          rewrite (proj2 (Z.eqb_eq _ _) Ey). reflexivity. }
        rewrite (rowpix_xor bits (fun k' => raster b w h bits k' y) (fun k' => raster b w h bits k' y)) by auto. apply Z.lxor_nilpotent.
      + rewrite <- rowpix_xor by auto.
        apply (rowpix_ext bits w); auto. intros k' _ Hk. unfold outlG. rewrite HC by auto. rewrite C1, C2. cbn [andb].
        rewrite (proj2 (Z.eqb_neq _ _) Ny). reflexivity.
    - apply (rowpix_ext bits w); auto. intros k' _ Hk. unfold outlG. rewrite HC by auto. now rewrite C.
  Qed.
End Outline.
