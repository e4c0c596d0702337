(** Properties C48-C52: filters on rectangles of 24-bit bitmaps, outlines. *)
From Coq Require Import ZArith List Bool Lia.
From Verif Require Import PyBase PyFacts Spec Bmp BmpFacts PixelProofs Buffers Region Raster VertProofs HorizProofs
  Filters FilterProofs FilterProofs2 Concrete.
Import ListNotations.
Open Scope Z_scope.
Open Scope py_scope.

Lemma mean_byte r g b : byte r -> byte g -> byte b -> byte ((r + g + b) / 3).
Proof. unfold byte. intros. split; [apply Z.div_pos; lia|apply Z.div_lt_upper_bound; lia]. Qed.
Lemma rgb_of24 r g b : byte r -> byte g -> byte b -> rgb_of (rgb24 (r, g, b)) = (r, g, b).
Proof.
  unfold byte, rgb_of, rgb24. intros Hr Hg Hb.
  assert (E1 : (b + 256 * g + 65536 * r) / 65536 = r).
  { replace (b + 256 * g + 65536 * r) with (b + 256 * g + r * 65536) by ring. rewrite Z.div_add by lia. rewrite Z.div_small by lia. lia. }
  assert (E2 : (b + 256 * g + 65536 * r) / 256 = g + r * 256).
  { replace (b + 256 * g + 65536 * r) with (b + (g + r * 256) * 256) by ring. rewrite Z.div_add by lia. rewrite (Z.div_small b) by lia. lia. }
  assert (E3 : (b + 256 * g + 65536 * r) mod 256 = b).
  { replace (b + 256 * g + 65536 * r) with (b + (g + r * 256) * 256) by ring. rewrite Z.mod_add by lia. apply Z.mod_small; lia. }
  rewrite E1, E2, E3. rewrite Z.mod_add by lia. rewrite Z.mod_small by lia. reflexivity.
Qed.
Lemma rgb_bytes b w h x y : wf b w h 24 -> inside w h x y ->
  let '(r, g, bl) := rgb_of (pixel b w h 24 x y) in byte r /\ byte g /\ byte bl.
Proof.
  intros W I. pose proof (pixel_range b w h 24 x y W) as P. unfold rgb_of, byte.
  change (2 ^ 24) with 16777216 in P.
  assert (0 <= pixel b w h 24 x y / 65536 < 256) by (split; [apply Z.div_pos; lia|apply Z.div_lt_upper_bound; lia]).
  pose proof (Z.mod_pos_bound (pixel b w h 24 x y / 256) 256 ltac:(lia)).
  pose proof (Z.mod_pos_bound (pixel b w h 24 x y) 256 ltac:(lia)). lia.
Qed.

(** a filter refused: other depths, corners outside *)
Lemma use24_depth f x1 y1 x2 y2 b w h bits o : wf b w h bits -> bits <> 24 ->
  use24bitfn2reg f x1 y1 x2 y2 (mkst b o) = (Ok None, mkst b (o ++ [Mnot24bit])).
Proof. intros W N. unfold use24bitfn2reg. now apply (guard24_depth b w h bits). Qed.
Lemma use24_outside f x1 y1 x2 y2 b w h o : wf b w h 24 -> ~ (inside w h x1 y1 /\ inside w h x2 y2) ->
  use24bitfn2reg f x1 y1 x2 y2 (mkst b o) = (Ok None, mkst b (o ++ [Mregionoutofbounds])).
Proof. intros W N. unfold use24bitfn2reg. now apply (guard24_false b w h). Qed.
Lemma in_whole w h x y : inside w h x y -> in_box 0 0 (w - 1) (h - 1) x y = true.
Proof. unfold inside, in_box. intros. lia. Qed.

(** * C48 *)
Theorem C48_monoregion : forall b w h o x1 y1 x2 y2, wf b w h 24 ->
  inside w h x1 y1 -> inside w h x2 y2 ->
  exists b', monofilterto24bitregion x1 y1 x2 y2 (mkst b o) = (Ok (Some tt), mkst b' o) /\
    repainted b b' w h 24 (fun x y =>
      if in_box x1 y1 x2 y2 x y
      then let '(r, g, bl) := rgb_of (pixel b w h 24 x y) in
           let m := (r + g + bl) / 3 in rgb24 (m, m, m)
      else pixel b w h 24 x y).
Proof.
  intros b w h o x1 y1 x2 y2 W I1 I2.
  destruct (use24_run b w h o _ _ x1 y1 x2 y2 W I1 I2 mono_onbuf) as (b' & E & R). exists b'. split; [exact E|].
  eapply repainted_ext; [|exact R]. intros x y Hin. cbn beta.
  change (in_rect x1 y1 x2 y2 x y) with (in_box x1 y1 x2 y2 x y).
  destruct (in_box x1 y1 x2 y2 x y); auto. unfold Tpix, Tmono, rgb_of, rgb24.
  set (p := pixel b w h 24 x y). replace (p mod 256 + p / 256 mod 256 + p / 65536) with (p / 65536 + p / 256 mod 256 + p mod 256) by ring.
  reflexivity.
Qed.
Theorem C48_monoregion_twice : forall b w h o x1 y1 x2 y2, wf b w h 24 ->
  inside w h x1 y1 -> inside w h x2 y2 ->
  exists b1 b2, monofilterto24bitregion x1 y1 x2 y2 (mkst b o) = (Ok (Some tt), mkst b1 o) /\
    monofilterto24bitregion x1 y1 x2 y2 (mkst b1 o) = (Ok (Some tt), mkst b2 o) /\
    repainted b1 b2 w h 24 (pixel b1 w h 24).
Proof.
  intros b w h o x1 y1 x2 y2 W I1 I2. destruct (C48_monoregion b w h o x1 y1 x2 y2 W I1 I2) as (b1 & E1 & R1).
  destruct (C48_monoregion b1 w h o x1 y1 x2 y2 ltac:(apply R1) I1 I2) as (b2 & E2 & R2). exists b1, b2.
  split; [exact E1|]. split; [exact E2|]. eapply repainted_ext; [|exact R2]. intros x y Hin. cbn beta.
  destruct (in_box x1 y1 x2 y2 x y) eqn:B; auto. rewrite (proj2 (proj2 R1)) by auto. cbn beta. rewrite B.
  pose proof (rgb_bytes b w h x y W Hin) as Hb. destruct (rgb_of (pixel b w h 24 x y)) as [[r g] bl]. cbv zeta.
  destruct Hb as (Hr & Hg & Hb). pose proof (mean_byte _ _ _ Hr Hg Hb) as M.
  rewrite rgb_of24 by auto. replace ((r + g + bl) / 3 + (r + g + bl) / 3 + (r + g + bl) / 3) with ((r + g + bl) / 3 * 3) by ring.
  rewrite Z.div_mul by lia. reflexivity.
Qed.
Theorem C48_monoimage : forall b w h o, wf b w h 24 -> 0 < w -> 0 < h ->
  exists b', monofilterto24bitimage (mkst b o) = (Ok (Some tt), mkst b' o) /\
    repainted b b' w h 24 (fun x y =>
      let '(r, g, bl) := rgb_of (pixel b w h 24 x y) in let m := (r + g + bl) / 3 in rgb24 (m, m, m)).
Proof.
  intros b w h o W Hw Hh. unfold monofilterto24bitimage. rewrite (whole_run b w h 24) by auto.
  destruct (C48_monoregion b w h o 0 0 (w - 1) (h - 1) W) as (b' & E & R); [unfold inside; lia|unfold inside; lia|].
  exists b'. split; auto. eapply repainted_ext; [|exact R]. intros x y Hin. cbn beta. now rewrite in_whole.
Qed.
Theorem C48_other_depth : forall b w h bits o x1 y1 x2 y2, wf b w h bits -> bits <> 24 ->
  monofilterto24bitregion x1 y1 x2 y2 (mkst b o) = (Ok None, mkst b (o ++ [Mnot24bit])).
Proof. intros. now apply use24_depth with (w := w) (h := h) (bits := bits). Qed.
Theorem C48_outside : forall b w h o x1 y1 x2 y2, wf b w h 24 -> ~ (inside w h x1 y1 /\ inside w h x2 y2) ->
  monofilterto24bitregion x1 y1 x2 y2 (mkst b o) = (Ok None, mkst b (o ++ [Mregionoutofbounds])).
Proof. intros. now apply use24_outside with (w := w) (h := h). Qed.
Example C48_ex : let b := sample24 5 3 in
  inside 5 3 3 2 /\ inside 5 3 1 1 /\ pixel b 5 3 24 2 1 = 28 + 256 * 13 + 65536 * 213 /\
  pixel (after (monofilterto24bitregion 3 2 1 1) b) 5 3 24 2 1 = 84 + 256 * 84 + 65536 * 84 /\
  pixel (after (monofilterto24bitregion 3 2 1 1) b) 5 3 24 0 0 = pixel b 5 3 24 0 0 /\
  pixel (after monofilterto24bitimage b) 5 3 24 0 0 <> pixel b 5 3 24 0 0.
Proof. unfold inside. repeat split; try lia; vm_compute; (reflexivity || discriminate). Qed.
Print Assumptions C48_monoregion.
Print Assumptions C48_monoregion_twice.
Print Assumptions C48_monoimage.
Print Assumptions C48_other_depth.
Print Assumptions C48_outside.

(** * C49 *)
Theorem C49_colorfilter : forall fr fg fb b w h o x1 y1 x2 y2, wf b w h 24 ->
  (forall v, 0 <= v < 256 -> 0 <= fr v < 256) -> (forall v, 0 <= v < 256 -> 0 <= fg v < 256) ->
  (forall v, 0 <= v < 256 -> 0 <= fb v < 256) ->
  inside w h x1 y1 -> inside w h x2 y2 ->
  exists b', colorfilterto24bitregion fr fg fb x1 y1 x2 y2 (mkst b o) = (Ok (Some tt), mkst b' o) /\
    repainted b b' w h 24 (fun x y =>
      if in_box x1 y1 x2 y2 x y && (x <? Z.max x1 x2)
      then let '(r, g, bl) := rgb_of (pixel b w h 24 x y) in rgb24 (fr r, fg g, fb bl)
      else pixel b w h 24 x y).
Proof.
  intros fr fg fb b w h o x1 y1 x2 y2 W Hr Hg Hb I1 I2.
  destruct (use24_run b w h o _ _ x1 y1 x2 y2 W I1 I2 (color_onbuf fr fg fb Hr Hg Hb)) as (b' & E & R). exists b'. split; [exact E|].
  eapply repainted_ext; [|exact R]. intros x y Hin. cbn beta.
  change (in_rect x1 y1 x2 y2 x y) with (in_box x1 y1 x2 y2 x y).
  destruct (in_box x1 y1 x2 y2 x y) eqn:B; auto. cbn [andb].
  assert (C : (x =? Z.max x1 x2) = negb (x <? Z.max x1 x2)) by (unfold in_box in B; lia). rewrite C.
  unfold Tpix, Tcolor, rgb_of, rgb24. destruct (x <? Z.max x1 x2); cbn [negb Z.eqb Pos.eqb]; auto.
  pose proof (pixel_range b w h 24 x y W) as P. set (p := pixel b w h 24 x y) in *.
  pose proof (Z.div_mod p 256 ltac:(lia)). pose proof (Z.div_mod (p / 256) 256 ltac:(lia)).
  rewrite Z.div_div in * by lia. change (256 * 256) with 65536 in *. lia.
Qed.
Theorem C49_colorfilterimage : forall fr fg fb b w h o, wf b w h 24 ->
  (forall v, 0 <= v < 256 -> 0 <= fr v < 256) -> (forall v, 0 <= v < 256 -> 0 <= fg v < 256) ->
  (forall v, 0 <= v < 256 -> 0 <= fb v < 256) -> 0 < w -> 0 < h ->
  exists b', colorfilterto24bitimage fr fg fb (mkst b o) = (Ok (Some tt), mkst b' o) /\
    repainted b b' w h 24 (fun x y => if x <? w - 1
      then let '(r, g, bl) := rgb_of (pixel b w h 24 x y) in rgb24 (fr r, fg g, fb bl)
      else pixel b w h 24 x y).
Proof.
  intros fr fg fb b w h o W Hr Hg Hb Hw Hh. unfold colorfilterto24bitimage. rewrite (whole_run b w h 24) by auto.
  destruct (C49_colorfilter fr fg fb b w h o 0 0 (w - 1) (h - 1) W Hr Hg Hb) as (b' & E & R); [unfold inside; lia|unfold inside; lia|].
  exists b'. split; auto. eapply repainted_ext; [|exact R]. intros x y Hin. cbn beta. rewrite in_whole by auto.
  replace (Z.max 0 (w - 1)) with (w - 1) by lia. reflexivity.
Qed.
Theorem C49_last_column_refuted : exists b w h x y, wf b w h 24 /\ inside w h x y /\
  pixel (after (colorfilterto24bitimage (fun _ => 0) (fun _ => 0) (fun _ => 0)) b) w h 24 x y <> 0.
Proof. exists (sample24 5 3), 5, 3, 4, 1. split; [apply sample24_wf|]. split; [unfold inside; lia|]. vm_compute. discriminate. Qed.
(** a factor of 2 *)
Theorem C49_overflow_refuted : exists b w h, wf b w h 24 /\
  outcome (colorfilterto24bitimage (fun v => 2 * v) (fun v => 2 * v) (fun v => 2 * v)) b = Err OverflowError.
Proof. exists (sample24 5 3), 5, 3. split; [apply sample24_wf|]. vm_compute. reflexivity. Qed.
Theorem C49_other_depth : forall fr fg fb b w h bits o x1 y1 x2 y2, wf b w h bits -> bits <> 24 ->
  colorfilterto24bitregion fr fg fb x1 y1 x2 y2 (mkst b o) = (Ok None, mkst b (o ++ [Mnot24bit])).
Proof. intros. now apply use24_depth with (w := w) (h := h) (bits := bits). Qed.
Theorem C49_outside : forall fr fg fb b w h o x1 y1 x2 y2, wf b w h 24 -> ~ (inside w h x1 y1 /\ inside w h x2 y2) ->
  colorfilterto24bitregion fr fg fb x1 y1 x2 y2 (mkst b o) = (Ok None, mkst b (o ++ [Mregionoutofbounds])).
Proof. intros. now apply use24_outside with (w := w) (h := h). Qed.
Example C49_ex : let b := sample24 5 3 in let f := fun v => v / 2 in let id := fun v => v in
  (forall v, 0 <= v < 256 -> 0 <= f v < 256) /\
  pixel b 5 3 24 2 1 = 28 + 256 * 13 + 65536 * 213 /\
  pixel (after (colorfilterto24bitregion f id id 3 2 1 1) b) 5 3 24 2 1 = 28 + 256 * 13 + 65536 * 106.
Proof.
  cbv zeta. split; [|split; vm_compute; reflexivity].
  intros v Hv. split; [apply Z.div_pos; lia|apply Z.div_lt_upper_bound; lia].
Qed.
Print Assumptions C49_colorfilter.
Print Assumptions C49_colorfilterimage.
Print Assumptions C49_last_column_refuted.
Print Assumptions C49_overflow_refuted.
Print Assumptions C49_other_depth.
Print Assumptions C49_outside.

(** * C50 *)
Theorem C50_brightness : forall g b w h o x1 y1 x2 y2, wf b w h 24 ->
  inside w h x1 y1 -> inside w h x2 y2 ->
  exists b', brightnesseadjto24bitregion g x1 y1 x2 y2 (mkst b o) = (Ok (Some tt), mkst b' o) /\
    repainted b b' w h 24 (fun x y =>
      if in_box x1 y1 x2 y2 x y
      then let '(r, gr, bl) := rgb_of (pixel b w h 24 x y) in
           rgb24 (Z.max 0 (Z.min 255 (g r)), Z.max 0 (Z.min 255 (g gr)), Z.max 0 (Z.min 255 (g bl)))
      else pixel b w h 24 x y).
Proof.
  intros g b w h o x1 y1 x2 y2 W I1 I2.
  destruct (use24_run b w h o _ _ x1 y1 x2 y2 W I1 I2 (bright_onbuf g)) as (b' & E & R). exists b'. split; [exact E|].
  eapply repainted_ext; [|exact R]. intros x y Hin. cbn beta.
  change (in_rect x1 y1 x2 y2 x y) with (in_box x1 y1 x2 y2 x y).
  destruct (in_box x1 y1 x2 y2 x y); auto.
Qed.
Theorem C50_gamma : forall g b w h o x1 y1 x2 y2, wf b w h 24 ->
  inside w h x1 y1 -> inside w h x2 y2 ->
  exists b', gammaadjto24bitregion g x1 y1 x2 y2 (mkst b o) = (Ok (Some tt), mkst b' o) /\
    repainted b b' w h 24 (fun x y =>
      if in_box x1 y1 x2 y2 x y
      then let '(r, gr, bl) := rgb_of (pixel b w h 24 x y) in
           let lum := Z.max 1 (Z.max r (Z.max gr bl)) in
           rgb24 (g lum r mod 256, g lum gr mod 256, g lum bl mod 256)
      else pixel b w h 24 x y).
Proof.
  intros g b w h o x1 y1 x2 y2 W I1 I2.
  destruct (use24_run b w h o _ _ x1 y1 x2 y2 W I1 I2 (gamma_onbuf g)) as (b' & E & R). exists b'. split; [exact E|].
  eapply repainted_ext; [|exact R]. intros x y Hin. cbn beta.
  change (in_rect x1 y1 x2 y2 x y) with (in_box x1 y1 x2 y2 x y).
  destruct (in_box x1 y1 x2 y2 x y); auto. unfold Tpix, Tgamma, sel, max3, rgb_of, rgb24. cbn [Z.eqb Pos.eqb].
  set (p := pixel b w h 24 x y).
  replace (Z.max (Z.max (p mod 256) (p / 256 mod 256)) (p / 65536)) with (Z.max (p / 65536) (Z.max (p / 256 mod 256) (p mod 256))) by lia.
  reflexivity.
Qed.
(** [lo], [hi]: the limits in either order *)
Theorem C50_threshold : forall g l0 l1 b w h o x1 y1 x2 y2, wf b w h 24 ->
  (forall t lum v, 0 <= t < 256 -> 0 <= v <= lum -> 0 < lum < 256 -> 0 <= g t lum v < 256) ->
  inside w h x1 y1 -> inside w h x2 y2 ->
  exists b', thresholdadjto24bitregion g l0 l1 x1 y1 x2 y2 (mkst b o) = (Ok (Some tt), mkst b' o) /\
    repainted b b' w h 24 (fun x y =>
      if in_box x1 y1 x2 y2 x y
      then let '(r, gr, bl) := rgb_of (pixel b w h 24 x y) in
           let lum := Z.max r (Z.max gr bl) in
           let lo := Z.min (l0 mod 256) (l1 mod 256) in
           let hi := Z.max (l0 mod 256) (l1 mod 256) in
           let t := Z.max lo (Z.min hi lum) in
           if (lum =? 0) || (t =? lum) then pixel b w h 24 x y
           else rgb24 (g t lum r, g t lum gr, g t lum bl)
      else pixel b w h 24 x y).
Proof.
  intros g l0 l1 b w h o x1 y1 x2 y2 W Hg I1 I2.
  destruct (use24_run b w h o _ _ x1 y1 x2 y2 W I1 I2 (thresh_onbuf g l0 l1 Hg)) as (b' & E & R). exists b'. split; [exact E|].
  eapply repainted_ext; [|exact R]. intros x y Hin. cbn beta.
  change (in_rect x1 y1 x2 y2 x y) with (in_box x1 y1 x2 y2 x y).
  destruct (in_box x1 y1 x2 y2 x y); auto. pose proof (rgb_bytes b w h x y W Hin) as HB.
  pose proof (pixel_range b w h 24 x y W) as P. set (p := pixel b w h 24 x y) in *.
  unfold Tpix, Tthresh, target, rgb_of, rgb24 in *. cbv zeta.
  replace (max3 (p mod 256) (p / 256 mod 256) (p / 65536)) with (Z.max (p / 65536) (Z.max (p / 256 mod 256) (p mod 256))) by (unfold max3; lia).
  unfold byte in HB.
  set (lum := Z.max (p / 65536) _). assert (L : 0 <= lum) by lia. set (lo := Z.min (l0 mod 256) (l1 mod 256)).
  set (hi := Z.max (l0 mod 256) (l1 mod 256)). assert (LH : lo <= hi) by lia. unfold sel. cbn [Z.eqb Pos.eqb].
  assert (EP : p mod 256 + 256 * (p / 256 mod 256) + 65536 * (p / 65536) = p).
  { pose proof (Z.div_mod p 256 ltac:(lia)) as A1. pose proof (Z.div_mod (p / 256) 256 ltac:(lia)) as A2.
    rewrite Z.div_div in A2 by lia. change (256 * 256) with 65536 in A2. clear - A1 A2. lia. }
  clearbody lum lo hi.
  destruct (Z.leb_spec lum 0).
  - replace (lum =? 0) with true by lia. exact EP.
  - replace (lum =? 0) with false by lia. cbn [orb]. destruct (Z.ltb_spec hi lum).
    + replace (Z.max lo (Z.min hi lum)) with hi by lia. replace (hi =? lum) with false by lia. reflexivity.
    + destruct (Z.ltb_spec lum lo).
      * replace (Z.max lo (Z.min hi lum)) with lo by lia. replace (lo =? lum) with false by lia. reflexivity.
      * replace (Z.max lo (Z.min hi lum)) with lum by lia. rewrite Z.eqb_refl. exact EP.
Qed.
(** the three functions for whole images are the region functions on the full rectangle *)
Theorem C50_images : forall b w h o, wf b w h 24 ->
  (forall g, brightnesseadjto24bitimage g (mkst b o) = brightnesseadjto24bitregion g 0 0 (w - 1) (h - 1) (mkst b o)) /\
  (forall g, gammaadjto24bitimage g (mkst b o) = gammaadjto24bitregion g 0 0 (w - 1) (h - 1) (mkst b o)) /\
  (forall g l0 l1, thresholdadjto24bitimage g l0 l1 (mkst b o) = thresholdadjto24bitregion g l0 l1 0 0 (w - 1) (h - 1) (mkst b o)).
Proof.
  intros b w h o W. repeat split; intros.
  - unfold brightnesseadjto24bitimage. now rewrite (whole_run b w h 24).
  - unfold gammaadjto24bitimage. now rewrite (whole_run b w h 24).
  - unfold thresholdadjto24bitimage. now rewrite (whole_run b w h 24).
Qed.
Theorem C50_other_depth : forall b w h bits o x1 y1 x2 y2, wf b w h bits -> bits <> 24 ->
  (forall g, brightnesseadjto24bitregion g x1 y1 x2 y2 (mkst b o) = (Ok None, mkst b (o ++ [Mnot24bit]))) /\
  (forall g, gammaadjto24bitregion g x1 y1 x2 y2 (mkst b o) = (Ok None, mkst b (o ++ [Mnot24bit]))) /\
  (forall g l0 l1, thresholdadjto24bitregion g l0 l1 x1 y1 x2 y2 (mkst b o) = (Ok None, mkst b (o ++ [Mnot24bit]))).
Proof. repeat split; intros; now apply use24_depth with (w := w) (h := h) (bits := bits). Qed.
Theorem C50_outside : forall b w h o x1 y1 x2 y2, wf b w h 24 -> ~ (inside w h x1 y1 /\ inside w h x2 y2) ->
  (forall g, brightnesseadjto24bitregion g x1 y1 x2 y2 (mkst b o) = (Ok None, mkst b (o ++ [Mregionoutofbounds]))) /\
  (forall g, gammaadjto24bitregion g x1 y1 x2 y2 (mkst b o) = (Ok None, mkst b (o ++ [Mregionoutofbounds]))) /\
  (forall g l0 l1, thresholdadjto24bitregion g l0 l1 x1 y1 x2 y2 (mkst b o) = (Ok None, mkst b (o ++ [Mregionoutofbounds]))).
Proof. repeat split; intros; now apply use24_outside with (w := w) (h := h). Qed.
Example C50_ex : let b := sample24 5 3 in let g := fun t lum v => t * v / lum in
  (forall t lum v, 0 <= t < 256 -> 0 <= v <= lum -> 0 < lum < 256 -> 0 <= g t lum v < 256) /\
  pixel b 5 3 24 2 1 = 28 + 256 * 13 + 65536 * 213 /\
  pixel (after (brightnesseadjto24bitregion (fun v => 2 * v) 3 2 1 1) b) 5 3 24 2 1 = 56 + 256 * 26 + 65536 * 255 /\
  pixel (after (thresholdadjto24bitregion g 100 50 3 2 1 1) b) 5 3 24 2 1 = 13 + 256 * 6 + 65536 * 100 /\
  pixel (after (gammaadjto24bitregion (fun lum v => lum + v) 3 2 1 1) b) 5 3 24 2 1 = 241 + 256 * 226 + 65536 * 170.
Proof.
  cbv zeta. split; [|repeat split; vm_compute; reflexivity].
  intros t lum v Ht Hv Hl. split; [apply Z.div_pos; nia|apply Z.div_lt_upper_bound; nia].
Qed.
Print Assumptions C50_brightness.
Print Assumptions C50_gamma.
Print Assumptions C50_threshold.
Print Assumptions C50_images.
Print Assumptions C50_other_depth.
Print Assumptions C50_outside.

(** * C51 *)
Theorem C51_vertical : forall g b w h o x1 y1 x2 y2, wf b w h 24 ->
  inside w h x1 y1 -> inside w h x2 y2 -> y1 <> y2 ->
  exists b', verticalbrightnessgradto24bitregion g x1 y1 x2 y2 (mkst b o) = (Ok (Some tt), mkst b' o) /\
    repainted b b' w h 24 (fun x y =>
      if in_box x1 y1 x2 y2 x y
      then let '(r, gr, bl) := rgb_of (pixel b w h 24 x y) in let f := g (Z.max y1 y2 - y) in
           rgb24 (Z.max 0 (Z.min 255 (f r)), Z.max 0 (Z.min 255 (f gr)), Z.max 0 (Z.min 255 (f bl)))
      else pixel b w h 24 x y).
Proof.
  intros g b w h o x1 y1 x2 y2 W I1 I2 N.
  destruct (vgrad_run b w h o g x1 y1 x2 y2 W I1 I2 N) as (b' & E & R). exists b'. split; [exact E|].
  eapply repainted_ext; [|exact R]. intros x y Hin. cbn beta.
  change (in_rect x1 y1 x2 y2 x y) with (in_box x1 y1 x2 y2 x y).
  destruct (in_box x1 y1 x2 y2 x y); auto.
Qed.
Theorem C51_horizontal : forall g b w h o x1 y1 x2 y2, wf b w h 24 ->
  inside w h x1 y1 -> inside w h x2 y2 -> x1 <> x2 ->
  exists b', horizontalbrightnessgradto24bitregion g x1 y1 x2 y2 (mkst b o) = (Ok (Some tt), mkst b' o) /\
    repainted b b' w h 24 (fun x y =>
      if in_box x1 y1 x2 y2 x y && negb (y =? Z.min y1 y2)
      then let '(r, gr, bl) := rgb_of (pixel b w h 24 x y) in let f := g (x - Z.min x1 x2) in
           rgb24 (Z.max 0 (Z.min 255 (f r)), Z.max 0 (Z.min 255 (f gr)), Z.max 0 (Z.min 255 (f bl)))
      else pixel b w h 24 x y).
Proof.
  intros g b w h o x1 y1 x2 y2 W I1 I2 N.
  destruct (hgrad_run b w h o g x1 y1 x2 y2 W I1 I2 N) as (b' & E & R). exists b'. split; [exact E|].
  eapply repainted_ext; [|exact R]. intros x y Hin. cbn beta.
  change (in_rect x1 y1 x2 y2 x y) with (in_box x1 y1 x2 y2 x y).
  destruct (in_box x1 y1 x2 y2 x y && _); auto.
Qed.
Theorem C51_single_row : forall g b w h o x1 x2 y, wf b w h 24 -> inside w h x1 y -> inside w h x2 y ->
  verticalbrightnessgradto24bitregion g x1 y x2 y (mkst b o) = (Err ZeroDivisionError, mkst b o).
Proof. intros. now apply vgrad_flat with (w := w) (h := h). Qed.
Theorem C51_single_column : forall g b w h o x y1 y2, wf b w h 24 -> inside w h x y1 -> inside w h x y2 ->
  horizontalbrightnessgradto24bitregion g x y1 x y2 (mkst b o) = (Err ZeroDivisionError, mkst b o).
Proof. intros. now apply hgrad_flat with (w := w) (h := h). Qed.
Theorem C51_top_row_refuted : exists b w h x y, wf b w h 24 /\ inside w h x y /\
  pixel (after (horizontalbrightnessgradto24bitregion (fun _ _ => 0) 0 0 (w - 1) (h - 1)) b) w h 24 x y <> 0.
Proof. exists (sample24 5 3), 5, 3, 1, 0. split; [apply sample24_wf|]. split; [unfold inside; lia|]. vm_compute. discriminate. Qed.
Example C51_ex : let b := sample24 5 3 in
  pixel b 5 3 24 2 1 = 28 + 256 * 13 + 65536 * 213 /\
  pixel (after (verticalbrightnessgradto24bitregion (fun i v => v + i) 3 2 1 0) b) 5 3 24 2 1 = 29 + 256 * 14 + 65536 * 214 /\
  pixel (after (horizontalbrightnessgradto24bitregion (fun i v => v + 20 * i) 3 2 0 0) b) 5 3 24 2 1 = 68 + 256 * 53 + 65536 * 253.
Proof. repeat split; vm_compute; reflexivity. Qed.
Print Assumptions C51_vertical.
Print Assumptions C51_horizontal.
Print Assumptions C51_single_row.
Print Assumptions C51_single_column.
Print Assumptions C51_top_row_refuted.

(** * C52 *)
(** corners in order, whole bytes *)
Theorem C52_outlineregion : forall b w h bits o x1 y1 x2 y2, wf b w h bits ->
  inside w h x1 y1 -> inside w h x2 y2 -> x1 <= x2 -> y1 <= y2 ->
  (x1 * bits) mod 8 = 0 -> ((x2 + 1) * bits) mod 8 = 0 ->
  exists b', outlineregion x1 y1 x2 y2 (mkst b o) = (Ok (Some tt), mkst b' o) /\
    repainted b b' w h bits (fun x y =>
      if in_box x1 y1 x2 y2 x y
      then if y =? y1 then 0 else Z.lxor (pixel b w h bits x y) (pixel b w h bits x (y - 1))
      else pixel b w h bits x y).
Proof.
  intros b w h bits o x1 y1 x2 y2 W I1 I2 Hx Hy A1 A2.
  apply (outlineregion_run b w h bits x1 y1 x2 y2 o W I1 I2 Hx Hy). now split.
Qed.
Theorem C52_outline : forall b w h bits o, wf b w h bits -> 0 < w -> 0 < h -> (w * bits) mod 8 = 0 ->
  exists b', outline (mkst b o) = (Ok (Some tt), mkst b' o) /\
    repainted b b' w h bits (fun x y =>
      if y =? 0 then 0 else Z.lxor (pixel b w h bits x y) (pixel b w h bits x (y - 1))).
Proof.
  intros b w h bits o W Hw Hh HA. unfold outline. rewrite (whole_run b w h bits) by auto.
  destruct (C52_outlineregion b w h bits o 0 0 (w - 1) (h - 1) W) as (b' & E & R);
    [unfold inside; lia|unfold inside; lia|lia|lia|reflexivity|now replace (w - 1 + 1) with w by ring|].
  exists b'. split; auto. eapply repainted_ext; [|exact R]. intros x y Hin. cbn beta. now rewrite in_whole.
Qed.
Theorem C52_outside : forall b w h bits o x1 y1 x2 y2, wf b w h bits -> ~ (inside w h x1 y1 /\ inside w h x2 y2) ->
  outlineregion x1 y1 x2 y2 (mkst b o) = (Ok None, mkst b (o ++ [Mregionoutofbounds])).
Proof. intros. unfold outlineregion. now apply (guard_false b w h bits). Qed.
(** with the corners in the other order pixels outside the rectangle change *)
Theorem C52_unsorted_refuted : exists b w h x1 y1 x2 y2 x y, wf b w h 8 /\ inside w h x1 y1 /\ inside w h x2 y2 /\
  inside w h x y /\ in_box x1 y1 x2 y2 x y = false /\
  pixel (after (outlineregion x1 y1 x2 y2) b) w h 8 x y <> pixel b w h 8 x y.
Proof.
  exists (sample 5 3 8), 5, 3, 2, 0, 1, 2, 3, 1. split; [apply sample8_wf|].
  repeat (split; [unfold inside; lia|]). split; [reflexivity|]. vm_compute. discriminate.
Qed.
Example C52_ex : rows (sample 5 3 8) 5 3 8 = [[1; 8; 15; 22; 29]; [14; 21; 28; 35; 42]; [27; 34; 41; 48; 55]] /\
  rows (after outline (sample 5 3 8)) 5 3 8 =
    [[0;0;0;0;0]; [Z.lxor 14 1; Z.lxor 21 8; Z.lxor 28 15; Z.lxor 35 22; Z.lxor 42 29];
     [Z.lxor 27 14; Z.lxor 34 21; Z.lxor 41 28; Z.lxor 48 35; Z.lxor 55 42]].
Proof. split; vm_compute; reflexivity. Qed.
Print Assumptions C52_outlineregion.
Print Assumptions C52_outline.
Print Assumptions C52_outside.
Print Assumptions C52_unsorted_refuted.
