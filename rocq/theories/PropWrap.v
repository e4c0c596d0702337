(** Properties C82-C86: functions from file to file. *)
From Coq Require Import ZArith List Bool Lia String.
From Verif Require Import PyBase PyFacts Spec SpecImage SpecShapes Bmp BmpFacts Raster HeaderProofs PalProofs PixelProofs Region Geometry Draw Filters Circle Text Shapes Shrink
  Files FileProofs Wrappers WrapProofs Concrete PropCore PropDraw PropFiles PropRegion PropFilter PropCircle PropShapes PropShrink.
Import ListNotations.
Open Scope Z_scope.
Open Scope py_scope.

Ltac Zify.zify_post_hook ::= Z.to_euclidean_division_equations.

(** The only file that changed is [dst]; it holds a bitmap that differs from [b] in its
    pixels only, which are given by [f]; the console shows the announcement, the
    confirmation and the time. *)
Definition saved_repainted (W W' : world) (dst : string) (b : list Z) (w h bits : Z) (f : Z -> Z -> Z) : Prop :=
  exists c, only_file W W' dst c /\ repainted b c w h bits f /\ con W' = con W ++ [Mtext; Msaved; Mdone].

Lemma by_ref_px {A} src dst W b w h bits (m : M A) a f : files W src = Some b -> wf b w h bits -> 54 < zlen b ->
  (exists b', m (mkst b (con W ++ [Mtext])) = (Ok a, mkst b' (con W ++ [Mtext])) /\ repainted b b' w h bits f) ->
  exists W', functimer (usebyreffnsv src dst m) W = (Ok tt, W') /\ saved_repainted W W' dst b w h bits f.
Proof.
  intros Hf Wb Hl (b' & E & R). destruct (by_ref src dst W b w h bits Hf Wb Hl m _ _ _ E) as (W' & E' & O & C).
  exists W'. split; [exact E'|]. exists b'. split; [exact O|]. split; [exact R|]. rewrite C, <- app_assoc. reflexivity.
Qed.
Lemma by_ref24_px {A} src dst W b w h (m : M A) a f : files W src = Some b -> wf b w h 24 -> 54 < zlen b ->
  (exists b', m (mkst b (con W ++ [Mtext])) = (Ok a, mkst b' (con W ++ [Mtext])) /\ repainted b b' w h 24 f) ->
  exists W', functimer (use24btbyreffnsv src dst m) W = (Ok tt, W') /\ saved_repainted W W' dst b w h 24 f.
Proof.
  intros Hf Wb Hl (b' & E & R). destruct (by_ref24 src dst W b w h 24 Hf Wb Hl m _ _ _ eq_refl E) as (W' & E' & O & C).
  exists W'. split; [exact E'|]. exists b'. split; [exact O|]. split; [exact R|]. rewrite C, <- app_assoc. reflexivity.
Qed.
Lemma saved_ext W W' dst b w h bits f g : (forall x y, inside w h x y -> f x y = g x y) ->
  saved_repainted W W' dst b w h bits f -> saved_repainted W W' dst b w h bits g.
Proof.
  intros H (c & O & R & C). exists c. split; [exact O|]. split; [|exact C]. eapply repainted_ext; [|exact R]. exact H.
Qed.
Ltac pick H := match type of H with
  | _ \/ _ => destruct H as [H|H]; [|pick H]
  | False => destruct H
  | _ => idtac
  end.

(** * C82 *)
(** flips, mirrors and inversion of whole images *)
Theorem C82_images : forall src dst W b w h bits act f, files W src = Some b -> wf b w h bits -> 0 < w -> 0 < h ->
  bits = 8 \/ bits = 24 \/ bits = 4 /\ w mod 4 = 0 ->
  In (act, f) [(invertbits2file, fun p x y => 2 ^ bits - 1 - p x y);
               (flipvertical2file, fun p x y => p x (h - 1 - y));
               (fliphorizontal2file, fun p x y => p (w - 1 - x) y);
               (mirrortop2file, fun p x y => p x (Z.min y (h - 1 - y)));
               (mirrorbottom2file, fun p x y => p x (Z.max y (h - 1 - y)));
               (mirrorleft2file, fun p x y => p (Z.min x (w - 1 - x)) y);
               (mirrorright2file, fun p x y => p (Z.max x (w - 1 - x)) y);
               (mirrortopleft2file, fun p x y => p (Z.min x (w - 1 - x)) (Z.min y (h - 1 - y)));
               (mirrortopright2file, fun p x y => p (Z.max x (w - 1 - x)) (Z.min y (h - 1 - y)));
               (mirrorbottomleft2file, fun p x y => p (Z.min x (w - 1 - x)) (Z.max y (h - 1 - y)));
               (mirrorbottomright2file, fun p x y => p (Z.max x (w - 1 - x)) (Z.max y (h - 1 - y)))] ->
  exists W', act src dst W = (Ok tt, W') /\ saved_repainted W W' dst b w h bits (f (pixel b w h bits)).
Proof.
  intros src dst W b w h bits act f Hf Wb Hw Hh Hb Hin. pose proof (C10_condition b w h bits Wb ltac:(auto)) as Hl.
  set (o := con W ++ [Mtext]).
  assert (H2 : bits = 8 \/ bits = 24 \/ bits = 4 /\ w mod 2 = 0).
  { destruct Hb as [H|[H|[H1 H2]]]; auto. right. right. split; auto. rewrite (Z.div_mod w 4), H2 by lia.
    replace (4 * (w / 4) + 0) with (w / 4 * 2 * 2) by ring. apply Z.mod_mul. lia. }
  destruct (C44_corners b w h bits o Wb Hw Hh Hb) as (b1 & b2 & b3 & b4 & E1 & E2 & E3 & E4 & R1 & R2 & R3 & R4).
  cbn [In] in Hin. pick Hin; inversion Hin; subst act f; eapply by_ref_px; eauto.
  - destruct (C18_invert b w h bits o Wb) as (b' & E & R & _). eauto.
  - destruct (C15_flipvertical b w h bits o Wb) as (b' & E & R). eauto.
  - destruct (C17_fliphorizontal b w h bits o Wb Hw Hh H2) as (b' & E & R & _). eauto.
  - destruct (C16_mirrortop b w h bits o Wb) as (b' & E & R & _). eauto.
  - destruct (C16_mirrorbottom b w h bits o Wb) as (b' & E & R & _). eauto.
  - destruct (C41_mirrorleft b w h bits o Wb Hw Hh Hb) as (b' & E & R). eauto.
  - destruct (C41_mirrorright b w h bits o Wb Hw Hh Hb) as (b' & E & R). eauto.
Qed.
(** the vertical ones at any depth *)
Theorem C82_any_depth : forall src dst W b w h bits act f, files W src = Some b -> wf b w h bits -> 0 < w -> 0 < h ->
  In (act, f) [(invertbits2file, fun p x y => 2 ^ bits - 1 - p x y);
               (flipvertical2file, fun p x y => p x (h - 1 - y));
               (mirrortop2file, fun p x y => p x (Z.min y (h - 1 - y)));
               (mirrorbottom2file, fun p x y => p x (Z.max y (h - 1 - y)))] ->
  exists W', act src dst W = (Ok tt, W') /\ saved_repainted W W' dst b w h bits (f (pixel b w h bits)).
Proof.
  intros src dst W b w h bits act f Hf Wb Hw Hh Hin. pose proof (C10_condition b w h bits Wb ltac:(auto)) as Hl.
  set (o := con W ++ [Mtext]).
  cbn [In] in Hin. pick Hin; inversion Hin; subst act f; eapply by_ref_px; eauto.
  - destruct (C18_invert b w h bits o Wb) as (b' & E & R & _). eauto.
  - destruct (C15_flipvertical b w h bits o Wb) as (b' & E & R). eauto.
  - destruct (C16_mirrortop b w h bits o Wb) as (b' & E & R & _). eauto.
  - destruct (C16_mirrorbottom b w h bits o Wb) as (b' & E & R & _). eauto.
Qed.
Theorem C82_lines : forall src dst W b w h bits n, files W src = Some b -> wf b w h bits -> 0 < w -> 0 < h ->
  (n <> 0 -> exists W', eraseeverynthhoriline2file n src dst W = (Ok tt, W') /\
     saved_repainted W W' dst b w h bits (fun x y =>
       if (y <? h - 1) && ((y + 1) mod n =? 0) then 0 else pixel b w h bits x y)) /\
  ((w * bits) mod 8 = 0 -> exists W', outline2file src dst W = (Ok tt, W') /\
     saved_repainted W W' dst b w h bits (fun x y =>
       if y =? 0 then 0 else Z.lxor (pixel b w h bits x y) (pixel b w h bits x (y - 1)))).
Proof.
  intros src dst W b w h bits n Hf Wb Hw Hh. pose proof (C10_condition b w h bits Wb ltac:(auto)) as Hl. split; intros H.
  - eapply by_ref_px; eauto. destruct (C37_nth b w h bits (con W ++ [Mtext]) n Wb H) as (b' & E & R). eauto.
  - eapply by_ref_px; eauto. destruct (C52_outline b w h bits (con W ++ [Mtext]) Wb Hw Hh H) as (b' & E & R). eauto.
Qed.
(** functions that make a new bitmap *)
Theorem C82_flipXY : forall src dst W b w h bits, files W src = Some b -> wf b w h bits -> 0 < w -> 0 < h ->
  exists c W', flipXY2file src dst W = (Ok tt, W') /\ only_file W W' dst c /\ con W' = con W ++ [Mtext; Msaved; Mdone] /\ wf c h w bits /\
    (bits < 8 -> forall x y, inside w h x y -> pixel c h w bits y x = pixel b w h bits x y) /\
    (8 <= bits -> forall x y, inside w h x y -> pixel c h w bits (h - 1 - y) (w - 1 - x) = pixel b w h bits x y) /\
    (bits <> 24 -> forall i, 0 <= i < 2 ^ bits -> pal_entry c i = pal_entry b i).
Proof.
  intros src dst W b w h bits Hf Wb Hw Hh. pose proof (C10_condition b w h bits Wb ltac:(auto)) as Hl.
  destruct (C21_flipXY b w h bits (con W ++ [Mtext]) Wb Hw Hh) as (c & E & Wc & P1 & P2 & P3).
  destruct (by_fn src dst W b w h bits Hf Wb Hl (withSome flipXY) c b (con W ++ [Mtext])) as (W' & E' & O & C).
  { unfold withSome. now rewrite (bind_ok _ _ _ _ _ E). }
  exists c, W'. split; [exact E'|]. split; [exact O|]. split; [rewrite C, <- app_assoc; reflexivity|]. auto.
Qed.
Theorem C82_upgrade : forall src dst W b w h bits, files W src = Some b -> wf b w h bits -> 0 < w -> 0 < h ->
  (bits <> 24 -> (w * bits) mod 8 = 0 ->
     exists c W', upgradeto24bitimage2file src dst W = (Ok tt, W') /\ only_file W W' dst c /\ wf c w h 24 /\
       forall x y, inside w h x y ->
         let '(red, green, blue) := pal_entry b (pixel b w h bits x y) in
         pixel c w h 24 x y = blue + 256 * green + 65536 * red) /\
  (bits = 24 -> exists W', upgradeto24bitimage2file src dst W = (Ok tt, W') /\ only_file W W' dst b /\
     con W' = con W ++ [Mtext; Mis24bit; Msaved; Mdone]).
Proof.
  intros src dst W b w h bits Hf Wb Hw Hh. pose proof (C10_condition b w h bits Wb ltac:(auto)) as Hl. split.
  - intros Hb Hm. destruct (C29_upgrade b w h bits (con W ++ [Mtext]) Wb Hb Hw Hh Hm) as (c & E & Wc & P).
    destruct (by_fn src dst W b w h bits Hf Wb Hl (withSome upgradeto24bitimage) c b (con W ++ [Mtext])) as (W' & E' & O & C).
    { unfold withSome. now rewrite (bind_ok _ _ _ _ _ E). }
    exists c, W'. auto.
  - intros ->. destruct (by_fn src dst W b w h 24 Hf Wb Hl (withSome upgradeto24bitimage) b b ((con W ++ [Mtext]) ++ [Mis24bit])) as (W' & E' & O & C).
    { unfold withSome. now rewrite (bind_ok _ _ _ _ _ (C29_24bit b w h (con W ++ [Mtext]) Wb)). }
    exists W'. split; [exact E'|]. split; [exact O|]. rewrite C, <- !app_assoc. reflexivity.
Qed.
Theorem C82_resize : forall src dst W b w h n, files W src = Some b -> wf b w h 24 -> 0 < w -> 0 < h -> 0 < n ->
  (w mod 2 = 0 -> w * n < 2 ^ 24 -> h * n < 2 ^ 24 ->
     exists c W', resizeNtimesbigger2file n src dst W = (Ok tt, W') /\ only_file W W' dst c /\ wf c (w * n) (h * n) 24 /\
       forall x y, inside (w * n) (h * n) x y -> pixel c (w * n) (h * n) 24 x y = pixel b w h 24 (x / n) (y / n)) /\
  (forall rnd, (forall s, 0 <= s <= 255 * (n * n) -> 0 <= rnd n s < 256) ->
     (exists c W', resizeNtimessmaller2file rnd n src dst W = (Ok tt, W') /\ only_file W W' dst c /\ wf c (w / n) (h / n) 24 /\
       forall x y, inside (w / n) (h / n) x y -> pixel c (w / n) (h / n) 24 x y =
         if (w mod 2 =? 1) && (x * n + n =? w) then 0 else square_mean (rnd n) b w h n (x * n) (h mod n + y * n)) /\
     (n <= w -> n <= h -> (w / n) mod 2 = 0 ->
      exists c W', pixelizenxntofile rnd n src dst W = (Ok tt, W') /\ only_file W W' dst c /\ wf c (w / n * n) (h / n * n) 24 /\
       forall x y, inside (w / n * n) (h / n * n) x y ->
         pixel c (w / n * n) (h / n * n) 24 x y = square_mean (rnd n) b w h n (x / n * n) (h mod n + y / n * n))).
Proof.
  intros src dst W b w h n Hf Wb Hw Hh Hn. pose proof (C10_condition b w h 24 Wb ltac:(auto)) as Hl. split; [|intros rnd HB; split].
  - intros He Bw Bh. destruct (C45_resize b w h 24 (con W ++ [Mtext]) n Wb Hn Hw Hh Bw Bh ltac:(auto)) as (c & E & Wc & P & _).
    destruct (by_par24 src dst W b w h 24 Hf Wb Hl (withSome (resizeNtimesbigger n)) c b (con W ++ [Mtext]) eq_refl) as (W' & E' & O & C).
    { unfold withSome. now rewrite (bind_ok _ _ _ _ _ E). }
    exists c, W'. auto.
  - destruct (C80_shrink rnd b w h n (con W ++ [Mtext]) Wb Hn Hw Hh HB) as (c & E & Wc & P).
    destruct (by_par24 src dst W b w h 24 Hf Wb Hl (resizeNtimessmaller rnd n) c b _ eq_refl E) as (W' & E' & O & C).
    exists c, W'. auto.
  - intros H1 H2 He. destruct (C81_pixelate rnd b w h n (con W ++ [Mtext]) Wb Hn H1 H2 He HB) as (c & E & Wc & P).
    destruct (by_par24 src dst W b w h 24 Hf Wb Hl (withSome (pixelizenxn rnd n)) c b (con W ++ [Mtext]) eq_refl) as (W' & E' & O & C).
    { unfold withSome. now rewrite (bind_ok _ _ _ _ _ E). }
    exists c, W'. auto.
Qed.
Theorem C82_palshift : forall src dst W b w h bits s, files W src = Some b -> wf b w h bits ->
  (bits = 4 \/ bits = 8 -> exists c W', palshift2file s src dst W = (Ok tt, W') /\ only_file W W' dst c /\ wf c w h bits /\
     con W' = con W ++ [Mtext; Msaved; Mdone] /\
     (forall i, 0 <= i < 2 ^ bits -> pal_entry c i = pal_entry b ((i + Z.abs s) mod 2 ^ bits)) /\
     (forall x y, inside w h x y -> pixel c w h bits x y = pixel b w h bits x y)) /\
  (bits = 1 -> exists W', palshift2file s src dst W = (Ok tt, W') /\ only_file W W' dst b /\
     con W' = con W ++ [Mtext; Mnot4or8bit; Msaved; Mdone]).
Proof.
  intros src dst W b w h bits s Hf Wb. split.
  - intros Hb. pose proof (C10_condition b w h bits Wb ltac:(left; lia)) as Hl.
    destruct (C09_palshift b w h bits (con W ++ [Mtext]) s Wb Hb) as (c & E & Wc & P).
    destruct (by_ref src dst W b w h bits Hf Wb Hl _ _ _ _ E) as (W' & E' & O & C).
    exists c, W'. split; [exact E'|]. split; [exact O|]. split; [exact Wc|]. split; [rewrite C, <- app_assoc; reflexivity|].
    split; [apply P|apply P].
  - intros Hb. pose proof (C10_condition b w h bits Wb ltac:(left; lia)) as Hl.
    destruct (by_ref src dst W b w h bits Hf Wb Hl _ _ _ _ (C09_other_depths b w h bits (con W ++ [Mtext]) s Wb ltac:(lia) ltac:(lia))) as (W' & E' & O & C).
    exists W'. split; [exact E'|]. split; [exact O|]. rewrite C, <- !app_assoc. reflexivity.
Qed.
Example C82_ex : let W := mkw (fput nofiles "a" (sample 4 2 4)) [] in
  (wf (sample 4 2 4) 4 2 4 /\ 4 mod 4 = 0) /\
  match files (snd (fliphorizontal2file "a" "b" W)) "b"%string with
  | Some c => rows c 4 2 4 = map (@rev Z) (rows (sample 4 2 4) 4 2 4) | None => False
  end /\ con (snd (fliphorizontal2file "a" "b" W)) = [Mtext; Msaved; Mdone].
Proof. split; [split; [concrete_wf|reflexivity]|]. split; vm_compute; reflexivity. Qed.
Print Assumptions C82_images.
Print Assumptions C82_any_depth.
Print Assumptions C82_lines.
Print Assumptions C82_flipXY.
Print Assumptions C82_upgrade.
Print Assumptions C82_resize.
Print Assumptions C82_palshift.

(** * C83 *)
Definition bytes_covered (bits x1 x2 : Z) : Prop :=
  (Z.min x1 x2 * bits) mod 8 = 0 /\ ((Z.max x1 x2 + 1) * bits) mod 8 = 0.
Lemma wide_covered bits x1 x2 : bits = 8 \/ bits = 24 -> bytes_covered bits x1 x2.
Proof.
  intros [-> | ->]; split; try apply Z.mod_mul; try lia; rewrite Z.mul_comm; change 24 with (8 * 3);
    rewrite <- Z.mul_assoc, Z.mul_comm; apply Z.mod_mul; lia.
Qed.
Lemma inside_size w h x y : inside w h x y -> 0 < w /\ 0 < h.
Proof. unfold inside. lia. Qed.

(** moving and inverting the pixels of a rectangle *)
Theorem C83_rectangles : forall src dst W b w h bits x1 y1 x2 y2 act f, files W src = Some b -> wf b w h bits ->
  inside w h x1 y1 -> inside w h x2 y2 -> bits = 8 \/ bits = 24 ->
  let mx x := Z.min x1 x2 + Z.max x1 x2 - x in
  let my y := Z.min y1 y2 + Z.max y1 y2 - y in
  In (act, f) [(invertregion2file, fun p x y => 2 ^ bits - 1 - p x y);
               (flipverticalregion2file, fun p x y => p x (my y));
               (fliphorizontalregion2file, fun p x y => p (mx x) y);
               (mirrortopinregion2file, fun p x y => p x (Z.min y (my y)));
               (mirrorbottominregion2file, fun p x y => p x (Z.max y (my y)));
               (mirrorleftinregion2file, fun p x y => p (Z.min x (mx x)) y);
               (mirrorrightinregion2file, fun p x y => p (Z.max x (mx x)) y);
               (mirrortopleftinregion2file, fun p x y => p (Z.min x (mx x)) (Z.min y (my y)));
               (mirrortoprightinregion2file, fun p x y => p (Z.max x (mx x)) (Z.min y (my y)));
               (mirrorbottomleftinregion2file, fun p x y => p (Z.min x (mx x)) (Z.max y (my y)));
               (mirrorbottomrightinregion2file, fun p x y => p (Z.max x (mx x)) (Z.max y (my y)))] ->
  exists W', act x1 y1 x2 y2 src dst W = (Ok tt, W') /\ saved_repainted W W' dst b w h bits (fun x y =>
    if in_box x1 y1 x2 y2 x y then f (pixel b w h bits) x y else pixel b w h bits x y).
Proof.
  intros src dst W b w h bits x1 y1 x2 y2 act f Hf Wb I1 I2 Hb mx my Hin.
  pose proof (C10_condition b w h bits Wb (or_intror (inside_size _ _ _ _ I1))) as Hl.
  set (o := con W ++ [Mtext]). destruct (wide_covered bits x1 x2 Hb) as [A1 A2].
  destruct (C42_vertical b w h bits o x1 y1 x2 y2 Wb I1 I2 A1 A2) as (v1 & v2 & v3 & V1 & V2 & V3 & Q1 & Q2 & Q3).
  destruct (C42_mirror b w h bits o x1 y1 x2 y2 Wb I1 I2 ltac:(tauto)) as (l1 & l2 & L1 & L2 & P1 & P2).
  destruct (C44_region b w h bits o x1 y1 x2 y2 Wb I1 I2 ltac:(tauto)) as (b1 & b2 & b3 & b4 & E1 & E2 & E3 & E4 & R1 & R2 & R3 & R4).
  cbn [In] in Hin. pick Hin; inversion Hin; subst act f; eapply by_ref_px; eauto.
  - destruct (C19_invertregion b w h bits o x1 y1 x2 y2 Wb I1 I2) as (b' & E & R). eauto.
  - destruct (C42_horizontal b w h bits o x1 y1 x2 y2 Wb I1 I2 ltac:(tauto)) as (b' & E & R & _). eauto.
Qed.
(** outlines and deleted lines *)
Theorem C83_lines : forall src dst W b w h bits x1 y1 x2 y2 n, files W src = Some b -> wf b w h bits ->
  inside w h x1 y1 -> inside w h x2 y2 -> bytes_covered bits x1 x2 ->
  (n <> 0 -> exists W', eraseeverynthhorilineinregion2file x1 y1 x2 y2 n src dst W = (Ok tt, W') /\
     saved_repainted W W' dst b w h bits (fun x y =>
       if in_box x1 y1 x2 y2 x y && ((y <? Z.max y1 y2) && ((y - Z.min y1 y2 + 1) mod n =? 0)) then 0 else pixel b w h bits x y)) /\
  (x1 <= x2 -> y1 <= y2 -> exists W', outlineregion2file x1 y1 x2 y2 src dst W = (Ok tt, W') /\
     saved_repainted W W' dst b w h bits (fun x y =>
       if in_box x1 y1 x2 y2 x y then if y =? y1 then 0 else Z.lxor (pixel b w h bits x y) (pixel b w h bits x (y - 1))
       else pixel b w h bits x y)).
Proof.
  intros src dst W b w h bits x1 y1 x2 y2 n Hf Wb I1 I2 [A1 A2].
  pose proof (C10_condition b w h bits Wb (or_intror (inside_size _ _ _ _ I1))) as Hl. split.
  - intros Hn. destruct (C37_region b w h bits (con W ++ [Mtext]) x1 y1 x2 y2 n 0 0 Wb Hn I1 I2 A1 A2) as (b' & E & R).
    eapply by_ref_px; eauto. exists b'. split; [exact E|]. eapply repainted_ext; [|exact R]. intros x y _. cbn beta.
    assert (U : uniform_pixel bits (0 mod 256) x = 0); [|now rewrite U].
    unfold uniform_pixel. change (0 mod 256) with 0. pose proof (wf_depth _ _ _ _ Wb) as Hd.
    assert (0 <= 8 - bits - (x * bits) mod 8 \/ bits = 24).
    { destruct Hd as [-> | [-> | [-> | ->]]]; auto; left; clear; lia. }
    destruct (Z.eqb_spec bits 24); [reflexivity|]. rewrite Z.div_0_l by (apply Z.pow_nonzero; lia). apply Z.mod_0_l. apply Z.pow_nonzero; [lia|].
    destruct Hd as [-> | [-> | [-> | ->]]]; lia.
  - intros S1 S2. rewrite Z.min_l in A1 by auto. rewrite Z.max_r in A2 by auto. destruct (C52_outlineregion b w h bits (con W ++ [Mtext]) x1 y1 x2 y2 Wb I1 I2 S1 S2 A1 A2) as (b' & E & R).
    eapply by_ref_px; eauto.
Qed.
(** drawing *)
Theorem C83_fill : forall src dst W b w h bits x1 y1 x2 y2 c, files W src = Some b -> wf b w h bits ->
  inside w h x1 y1 -> inside w h x2 y2 ->
  (bits = 24 -> 0 <= c < 2 ^ 24 -> exists W', filledrect2file x1 y1 x2 y2 c src dst W = (Ok tt, W') /\
     saved_repainted W W' dst b w h bits (fun x y => if in_box x1 y1 x2 y2 x y then c else pixel b w h bits x y)) /\
  (bits = 8 -> 0 <= c < 2 ^ 24 -> exists W' v, filledrect2file x1 y1 x2 y2 c src dst W = (Ok tt, W') /\
     (forall i, 0 <= i < 256 -> pal_entry b i <> (0, 0, 0) -> rgb_dist2 (rgb_of c) (pal_entry b v) <= rgb_dist2 (rgb_of c) (pal_entry b i)) /\
     saved_repainted W W' dst b w h bits (fun x y => if in_box x1 y1 x2 y2 x y then v else pixel b w h bits x y)) /\
  (bits = 8 \/ bits = 24 -> 0 <= c < 2 ^ bits -> exists W', rectangle2file x1 y1 x2 y2 c src dst W = (Ok tt, W') /\
     saved_repainted W W' dst b w h bits (fun x y =>
       if in_box x1 y1 x2 y2 x y && ((x =? x1) || (x =? x2) || (y =? y1) || (y =? y2)) then c else pixel b w h bits x y)).
Proof.
  intros src dst W b w h bits x1 y1 x2 y2 c Hf Wb I1 I2. destruct (inside_size _ _ _ _ I1) as [Hw Hh].
  pose proof (C10_condition b w h bits Wb (or_intror (conj Hw Hh))) as Hl. split; [|split].
  - intros -> Hc. eapply by_ref_px; eauto. now apply C22_filledrect24.
  - intros -> Hc. destruct (C22_filledrect8 b w h x1 y1 x2 y2 c (con W ++ [Mtext]) Wb I1 I2 Hc) as (b' & v & _ & N & E & R).
    destruct (by_ref_px src dst W b w h 8 (filledrect x1 y1 x2 y2 c) _ _ Hf Wb Hl (ex_intro _ b' (conj E R))) as (W' & E' & S).
    exists W', v. split; [exact E'|]. split; [|exact S]. intros i Hi Ni. now apply (N i Hi Ni).
  - intros Hb Hc. destruct (C72_rectangle b w h bits (con W ++ [Mtext]) x1 y1 x2 y2 c Wb Hw Hh Hc ltac:(lia)) as (b' & o' & E & Ho & R).
    rewrite Ho in E by lia. eapply by_ref_px; eauto. exists b'. split; [exact E|]. eapply repainted_ext; [|exact R]. intros x y _.
    unfold inside in *. cbv zeta. unfold into. replace (Z.max 0 (Z.min x1 (w - 1))) with x1 by lia. replace (Z.max 0 (Z.min x2 (w - 1))) with x2 by lia.
    replace (Z.max 0 (Z.min y1 (h - 1))) with y1 by lia. replace (Z.max 0 (Z.min y2 (h - 1))) with y2 by lia. reflexivity.
Qed.
Lemma rgb_back b w h x y : wf b w h 24 -> inside w h x y -> rgb24 (rgb_of (pixel b w h 24 x y)) = pixel b w h 24 x y.
Proof.
  intros Wb I. pose proof (pixel_range b w h 24 x y Wb) as P. change (2 ^ 24) with 16777216 in P. unfold rgb24, rgb_of. clear - P. lia.
Qed.
Ltac fin R := eapply repainted_ext; [|exact R]; intros x y I; cbn beta iota; rewrite ?andb_true_r; destruct (in_box _ _ _ _ x y); cbn [andb]; try reflexivity.
(** colours of rectangles of 24-bit images *)
Theorem C83_colours : forall src dst W b w h x1 y1 x2 y2 g g2 fr fg fb l0 l1, files W src = Some b -> wf b w h 24 ->
  inside w h x1 y1 -> inside w h x2 y2 ->
  (forall v, 0 <= v < 256 -> 0 <= fr v < 256) -> (forall v, 0 <= v < 256 -> 0 <= fg v < 256) -> (forall v, 0 <= v < 256 -> 0 <= fb v < 256) ->
  (forall t lum v, 0 <= t < 256 -> 0 <= v <= lum -> 0 < lum < 256 -> 0 <= g2 t lum v < 256) ->
  forall (act : string -> string -> F unit) (sel : Z -> Z -> bool) (f : Z * Z * Z -> Z * Z * Z), In (act, sel, f)
    [(monofilterinregion2file x1 y1 x2 y2, fun _ _ => true,
        fun '(r, gr, bl) => let m := (r + gr + bl) / 3 in (m, m, m));
     (colorfilterinregion2file fr fg fb x1 y1 x2 y2, fun x _ => x <? Z.max x1 x2,
        fun '(r, gr, bl) => (fr r, fg gr, fb bl));
     (adjustbrightnessinregion2file (g 0) x1 y1 x2 y2, fun _ _ => true,
        fun '(r, gr, bl) => (Z.max 0 (Z.min 255 (g 0 r)), Z.max 0 (Z.min 255 (g 0 gr)), Z.max 0 (Z.min 255 (g 0 bl))));
     (gammaadjtoregion2file g x1 y1 x2 y2, fun _ _ => true,
        fun '(r, gr, bl) => let lum := Z.max 1 (Z.max r (Z.max gr bl)) in (g lum r mod 256, g lum gr mod 256, g lum bl mod 256));
     (adjustthresholdinregion2file g2 l0 l1 x1 y1 x2 y2, fun _ _ => true,
        fun '(r, gr, bl) =>
          let lum := Z.max r (Z.max gr bl) in
          let t := Z.max (Z.min (l0 mod 256) (l1 mod 256)) (Z.min (Z.max (l0 mod 256) (l1 mod 256)) lum) in
          if (lum =? 0) || (t =? lum) then (r, gr, bl) else (g2 t lum r, g2 t lum gr, g2 t lum bl))] ->
  exists W', act src dst W = (Ok tt, W') /\ saved_repainted W W' dst b w h 24 (fun x y =>
    if in_box x1 y1 x2 y2 x y && sel x y then rgb24 (f (rgb_of (pixel b w h 24 x y))) else pixel b w h 24 x y).
Proof.
  intros src dst W b w h x1 y1 x2 y2 g g2 fr fg fb l0 l1 Hf Wb I1 I2 Br Bg Bb Bt act sel f Hin.
  pose proof (C10_condition b w h 24 Wb (or_intror (inside_size _ _ _ _ I1))) as Hl.
  assert (Rgb : forall x y, inside w h x y -> rgb24 (rgb_of (pixel b w h 24 x y)) = pixel b w h 24 x y) by (intros; eapply rgb_back; eauto).
  set (o := con W ++ [Mtext]).
  cbn [In] in Hin. pick Hin; inversion Hin; subst act sel f; eapply by_ref24_px; eauto.
  - destruct (C48_monoregion b w h o x1 y1 x2 y2 Wb I1 I2) as (b' & E & R). exists b'. split; [exact E|]. fin R.
  - destruct (C49_colorfilter fr fg fb b w h o x1 y1 x2 y2 Wb Br Bg Bb I1 I2) as (b' & E & R). exists b'. split; [exact E|]. fin R.
  - destruct (C50_brightness (g 0) b w h o x1 y1 x2 y2 Wb I1 I2) as (b' & E & R). exists b'. split; [exact E|]. fin R.
  - destruct (C50_gamma g b w h o x1 y1 x2 y2 Wb I1 I2) as (b' & E & R). exists b'. split; [exact E|]. fin R.
  - destruct (C50_threshold g2 l0 l1 b w h o x1 y1 x2 y2 Wb Bt I1 I2) as (b' & E & R). exists b'. split; [exact E|]. fin R.
    specialize (Rgb x y I). destruct (rgb_of (pixel b w h 24 x y)) as [[r gr] bl]. cbv zeta.
    match goal with |- _ = rgb24 (if ?c then _ else _) => destruct c end; [symmetry; exact Rgb|reflexivity].
Qed.
Theorem C83_gradients : forall src dst W b w h x1 y1 x2 y2 g, files W src = Some b -> wf b w h 24 ->
  inside w h x1 y1 -> inside w h x2 y2 ->
  let lit f c := let '(r, gr, bl) := rgb_of c in rgb24 (Z.max 0 (Z.min 255 (f r)), Z.max 0 (Z.min 255 (f gr)), Z.max 0 (Z.min 255 (f bl))) in
  (y1 <> y2 -> exists W', verticalbrightnessgradregion2file g x1 y1 x2 y2 src dst W = (Ok tt, W') /\
     saved_repainted W W' dst b w h 24 (fun x y =>
       if in_box x1 y1 x2 y2 x y then lit (g (Z.max y1 y2 - y)) (pixel b w h 24 x y) else pixel b w h 24 x y)) /\
  (x1 <> x2 -> exists W', horizontalbrightnessgradregion2file g x1 y1 x2 y2 src dst W = (Ok tt, W') /\
     saved_repainted W W' dst b w h 24 (fun x y =>
       if in_box x1 y1 x2 y2 x y && negb (y =? Z.min y1 y2) then lit (g (x - Z.min x1 x2)) (pixel b w h 24 x y) else pixel b w h 24 x y)) /\
  (y1 = y2 -> verticalbrightnessgradregion2file g x1 y1 x2 y2 src dst W = (Err ZeroDivisionError, mkw (files W) (con W ++ [Mtext]))) /\
  (x1 = x2 -> horizontalbrightnessgradregion2file g x1 y1 x2 y2 src dst W = (Err ZeroDivisionError, mkw (files W) (con W ++ [Mtext]))) /\
  (1 < h -> exists W', verticalbrightnessgrad2file g src dst W = (Ok tt, W') /\
     saved_repainted W W' dst b w h 24 (fun x y => lit (g (h - 1 - y)) (pixel b w h 24 x y))) /\
  (1 < w -> exists W', horizontalbrightnessgrad2file g src dst W = (Ok tt, W') /\
     saved_repainted W W' dst b w h 24 (fun x y => if y =? 0 then pixel b w h 24 x y else lit (g x) (pixel b w h 24 x y))).
Proof.
  intros src dst W b w h x1 y1 x2 y2 g Hf Wb I1 I2 lit. destruct (inside_size _ _ _ _ I1) as [Hw Hh].
  pose proof (C10_condition b w h 24 Wb (or_intror (conj Hw Hh))) as Hl.
  set (o := con W ++ [Mtext]). destruct (C70_images g b w h o Wb) as [V H].
  assert (J1 : inside w h 0 0) by (unfold inside; lia). assert (J2 : inside w h (w - 1) (h - 1)) by (unfold inside; lia).
  split; [|split; [|split; [|split; [|split]]]].
  - intros N. eapply by_ref24_px; eauto. now apply C51_vertical.
  - intros N. eapply by_ref24_px; eauto. now apply C51_horizontal.
  - intros <-. exact (by_ref24_err src dst W b w h 24 Hf Wb Hl _ _ _ _ eq_refl (C51_single_row g b w h o x1 x2 y1 Wb I1 I2)).
  - intros <-. exact (by_ref24_err src dst W b w h 24 Hf Wb Hl _ _ _ _ eq_refl (C51_single_column g b w h o x1 y1 y2 Wb I1 I2)).
  - intros N. eapply by_ref24_px; eauto. fold o. rewrite V.
    destruct (C51_vertical g b w h o 0 0 (w - 1) (h - 1) Wb J1 J2 ltac:(lia)) as (b' & E & R). exists b'. split; [exact E|].
    eapply repainted_ext; [|exact R]. intros x y I. cbn beta. replace (in_box 0 0 (w - 1) (h - 1) x y) with true by (unfold in_box, inside in *; lia).
    replace (Z.max 0 (h - 1)) with (h - 1) by lia. reflexivity.
  - intros N. eapply by_ref24_px; eauto. fold o. rewrite H.
    destruct (C51_horizontal g b w h o 0 0 (w - 1) (h - 1) Wb J1 J2 ltac:(lia)) as (b' & E & R). exists b'. split; [exact E|].
    eapply repainted_ext; [|exact R]. intros x y I. cbn beta. replace (in_box 0 0 (w - 1) (h - 1) x y) with true by (unfold in_box, inside in *; lia).
    replace (Z.min 0 (w - 1)) with 0 by lia. replace (Z.min 0 (h - 1)) with 0 by lia. rewrite Z.sub_0_r. cbn [andb].
    now destruct (y =? 0).
Qed.
Theorem C83_gradient_fill : forall src dst W b w h x1 y1 x2 y2 d col, files W src = Some b -> wf b w h 24 ->
  inside w h x1 y1 -> inside w h x2 y2 -> (forall n m, 0 <= n <= m -> 0 <= col n m < 2 ^ 24) ->
  forall act, In act [filledgradrect2file; filleddichromaticgradrect2file] ->
  exists W', act col x1 y1 x2 y2 d src dst W = (Ok tt, W') /\ saved_repainted W W' dst b w h 24 (fun x y =>
    if in_box x1 y1 x2 y2 x y then
      if d =? 0 then let n := Z.abs (x2 - x1) + 1 in col (Z.min x n) n
      else let n := Z.abs (y2 - y1) + 1 in col (Z.min y n) n
    else pixel b w h 24 x y).
Proof.
  intros src dst W b w h x1 y1 x2 y2 d col Hf Wb I1 I2 Hc act Hin.
  pose proof (C10_condition b w h 24 Wb (or_intror (inside_size _ _ _ _ I1))) as Hl.
  cbn [In] in Hin. pick Hin; subst act; eapply by_ref_px; eauto.
  - destruct (C71_gradient col b w h 24 (con W ++ [Mtext]) x1 y1 x2 y2 d Wb ltac:(auto) I1 I2 Hc) as (v & b' & S & E & R).
    exists b'. split; [exact E|]. eapply repainted_ext; [|exact R]. intros x y I. cbn beta. cbv zeta.
    destruct (in_box x1 y1 x2 y2 x y); [|reflexivity]. unfold inside in I.
    destruct (d =? 0); apply (S (Z.min _ _)); lia.
  - now apply C71_dichromatic.
Qed.
(** a rectangle that is not inside the image: the copy is saved unchanged *)
Theorem C83_outside : forall src dst W b w h bits x1 y1 x2 y2 act, files W src = Some b -> wf b w h bits -> 0 < w -> 0 < h ->
  ~ (inside w h x1 y1 /\ inside w h x2 y2) ->
  In act [invertregion2file; flipverticalregion2file; fliphorizontalregion2file; mirrortopinregion2file; mirrorbottominregion2file;
          mirrorleftinregion2file; mirrorrightinregion2file; outlineregion2file] ->
  exists W', act x1 y1 x2 y2 src dst W = (Ok tt, W') /\ only_file W W' dst b /\
    con W' = con W ++ [Mtext; Mregionoutofbounds; Msaved; Mdone].
Proof.
  intros src dst W b w h bits x1 y1 x2 y2 act Hf Wb Hw Hh N Hin. pose proof (C10_condition b w h bits Wb (or_intror (conj Hw Hh))) as Hl.
  pose proof (C42_outside b w h bits (con W ++ [Mtext]) x1 y1 x2 y2 Wb N) as Q.
  assert (G : forall A (m : M (option A)), m (mkst b (con W ++ [Mtext])) = (Ok None, mkst b ((con W ++ [Mtext]) ++ [Mregionoutofbounds])) ->
    exists W', functimer (usebyreffnsv src dst m) W = (Ok tt, W') /\ only_file W W' dst b /\
      con W' = con W ++ [Mtext; Mregionoutofbounds; Msaved; Mdone]).
  { intros A m E. destruct (by_ref src dst W b w h bits Hf Wb Hl m _ _ _ E) as (W' & E' & O & C).
    exists W'. split; [exact E'|]. split; [exact O|]. rewrite C, <- !app_assoc. reflexivity. }
  cbn [In] in Hin. pick Hin; subst act; apply G.
  - now apply C19_outside with (w := w) (h := h) (bits := bits).
  - apply Q. cbn [In]; tauto.
  - apply Q. cbn [In]; tauto.
  - apply Q. cbn [In]; tauto.
  - apply Q. cbn [In]; tauto.
  - apply Q. cbn [In]; tauto.
  - apply Q. cbn [In]; tauto.
  - now apply C52_outside with (w := w) (h := h) (bits := bits).
Qed.
(** the 24-bit functions write nothing for another depth *)
Theorem C83_other_depth : forall src dst W b w h bits x1 y1 x2 y2, files W src = Some b -> wf b w h bits -> 0 < w -> 0 < h -> bits <> 24 ->
  forall g g1 g2 fr fg fb l0 l1 act, In act
    [monofilterinregion2file x1 y1 x2 y2; colorfilterinregion2file fr fg fb x1 y1 x2 y2; adjustbrightnessinregion2file g1 x1 y1 x2 y2;
     adjustthresholdinregion2file g2 l0 l1 x1 y1 x2 y2; gammaadjtoregion2file g x1 y1 x2 y2;
     horizontalbrightnessgradregion2file g x1 y1 x2 y2; verticalbrightnessgradregion2file g x1 y1 x2 y2;
     horizontalbrightnessgrad2file g; verticalbrightnessgrad2file g;
     resizeNtimesbigger2file l0; resizeNtimessmaller2file g l0; pixelizenxntofile g l0] ->
  act src dst W = (Ok tt, mkw (files W) (con W ++ [Mtext; Mnot24bit; Mdone])).
Proof.
  intros src dst W b w h bits x1 y1 x2 y2 Hf Wb Hw Hh N g g1 g2 fr fg fb l0 l1 act Hin.
  pose proof (C10_condition b w h bits Wb (or_intror (conj Hw Hh))) as Hl.
  cbn [In] in Hin. pick Hin; subst act; first [exact (by_ref24_other src dst W b w h bits Hf Wb Hl _ N)|exact (by_par24_other src dst W b w h bits Hf Wb Hl _ N)].
Qed.
Example C83_ex : let W := mkw (fput nofiles "a" (sample 5 3 8)) [] in
  (inside 5 3 3 2 /\ inside 5 3 1 1) /\
  match files (snd (fliphorizontalregion2file 3 2 1 1 "a" "a" W)) "a"%string, rows (sample 5 3 8) 5 3 8 with
  | Some c, [r0; [a0; a1; a2; a3; a4]; [b0; b1; b2; b3; b4]] =>
      rows c 5 3 8 = [r0; [a0; a3; a2; a1; a4]; [b0; b3; b2; b1; b4]] /\ a1 <> a3
  | _, _ => False
  end.
Proof. split; [unfold inside; lia|]. vm_compute. split; [reflexivity|discriminate]. Qed.
Print Assumptions C83_rectangles.
Print Assumptions C83_lines.
Print Assumptions C83_fill.
Print Assumptions C83_colours.
Print Assumptions C83_gradients.
Print Assumptions C83_gradient_fill.
Print Assumptions C83_outside.
Print Assumptions C83_other_depth.

(** * C84 *)
Theorem C84_moves : forall src dst W b w h bits x y r act hit f, files W src = Some b -> wf b w h bits -> bits = 8 \/ bits = 24 ->
  disc_inside w h x y r -> y + r < w ->
  let rows px py := in_disc r (px - x) (py - y) && in_disc r (px + 1 - x) (py - y) in
  let columns px py := col_part r (px - x) (py - y) in
  In (act, hit, f)
    [(invertbitsincircregion2file, rows, fun p px py => 2 ^ bits - 1 - p px py);
     (outlinecircregion2file, rows, fun p px py => Z.lxor (p px py) (p (px + 1) py));
     (flipvertcircregion2file, rows, fun p px py => p px (2 * y - py));
     (mirrortopincircregion2file, rows, fun p px py => p px (Z.min py (2 * y - py)));
     (mirrorbottomincircregion2file, rows, fun p px py => p px (Z.max py (2 * y - py)));
     (fliphoricircregion2file, columns, fun p px py => p (2 * x - px) py);
     (mirrorleftincircregion2file, columns, fun p px py => p (Z.min px (2 * x - px)) py);
     (mirrorrightincircregion2file, columns, fun p px py => p (Z.max px (2 * x - px)) py);
     (flipXYcircregion2file, fun px py => in_disc r (px - x) (py - y), fun p px py => p (x + (py - y)) (y - (px - x)))] ->
  exists W', act x y r src dst W = (Ok tt, W') /\ saved_repainted W W' dst b w h bits (fun px py =>
    if hit px py then f (pixel b w h bits) px py else pixel b w h bits px py).
Proof.
  intros src dst W b w h bits x y r act hit f Hf Wb Hb D Hy rows columns Hin. set (o := con W ++ [Mtext]).
  assert (K : 0 <= r /\ 0 < w /\ 0 < h /\ 0 <= x /\ x + r < w) by (unfold disc_inside in D; lia). destruct K as (Hr & Hw & Hh & Hx & Hxr).
  pose proof (C10_condition b w h bits Wb (or_intror (conj Hw Hh))) as Hl.
  assert (Hd : 0 <= 8 * data_off bits + x * bits).
  { assert (0 <= data_off bits) by (destruct Hb as [-> | ->]; vm_compute; discriminate). assert (0 <= x * bits) by (apply Z.mul_nonneg_nonneg; lia). lia. }
  assert (P : forall px py, rows px py = disc_part w bits r x y px py) by (intros; unfold rows; symmetry; now apply C54_part).
  Ltac fin2 P R := eapply repainted_ext; [|exact R]; intros px py _; cbn beta; rewrite ?P; reflexivity.
  cbn [In] in Hin. pick Hin; inversion Hin; subst act hit f; eapply by_ref_px; eauto.
  - destruct (C56_invert b w h bits o x y r Wb Hr Hw Hd) as (b' & E & R). exists b'. split; [exact E|]. fin2 P R.
  - destruct (C60_outlinecirc b w h bits o x y r Wb Hr Hw Hd) as (b' & E & R). exists b'. split; [exact E|].
    replace (bits <? 8) with false in R by lia. fin2 P R.
  - destruct (C54_flipvert b w h bits o x y r Wb D Hy) as (b' & E & R). exists b'. split; [exact E|]. fin2 P R.
  - destruct (C54_mirrortop b w h bits o x y r Wb D Hy) as (b' & E & R). exists b'. split; [exact E|]. fin2 P R.
  - destruct (C54_mirrorbottom b w h bits o x y r Wb D Hy) as (b' & E & R). exists b'. split; [exact E|]. fin2 P R.
  - destruct (C55_fliphori b w h bits o x y r Wb Hb D) as (b' & E & R). exists b'. split; [exact E|]. fin2 P R.
  - destruct (C55_mirrorleft b w h bits o x y r Wb Hb D) as (b' & E & R). exists b'. split; [exact E|]. fin2 P R.
  - destruct (C55_mirrorright b w h bits o x y r Wb Hb D) as (b' & E & R). exists b'. split; [exact E|]. fin2 P R.
  - destruct (C57_rotate b w h bits o x y r Wb Hb D Hy) as (b' & E & R). exists b'. split; [exact E|]. fin2 P R.
Qed.
Theorem C84_corners : forall src dst W b w h bits x y r act fx fy, files W src = Some b -> wf b w h bits -> bits = 8 \/ bits = 24 ->
  disc_inside w h x y r -> y + r < w ->
  In (act, fx, fy) [(mirrortopleftincircregion2file, Z.min, Z.min); (mirrortoprightincircregion2file, Z.max, Z.min);
                    (mirrorbottomleftincircregion2file, Z.min, Z.max); (mirrorbottomrightincircregion2file, Z.max, Z.max)] ->
  exists W', act x y r src dst W = (Ok tt, W') /\ saved_repainted W W' dst b w h bits (fun px py =>
    let py' := if in_disc r (px - x) (py - y) && in_disc r (px + 1 - x) (py - y) then fy py (2 * y - py) else py in
    let px' := if col_part r (px - x) (py - y) then fx px (2 * x - px) else px in
    pixel b w h bits px' py').
Proof.
  intros src dst W b w h bits x y r act fx fy Hf Wb Hb D Hy Hin.
  assert (K : 0 <= r /\ 0 < w /\ 0 < h /\ x + r < w) by (unfold disc_inside in D; lia). destruct K as (Hr & Hw & Hh & Hxr).
  pose proof (C10_condition b w h bits Wb (or_intror (conj Hw Hh))) as Hl.
  assert (P : forall px py, in_disc r (px - x) (py - y) && in_disc r (px + 1 - x) (py - y) = disc_part w bits r x y px py) by (intros; symmetry; now apply C54_part).
  pose proof (C69_corner b w h bits (con W ++ [Mtext]) x y r) as Q.
  assert (G : forall act fx fy, In (act, fx, fy) [(mirrortopleftincircregion x y r, Z.min, Z.min); (mirrortoprightincircregion x y r, Z.max, Z.min);
                    (mirrorbottomleftincircregion x y r, Z.min, Z.max); (mirrorbottomrightincircregion x y r, Z.max, Z.max)] ->
    exists b', act (mkst b (con W ++ [Mtext])) = (Ok tt, mkst b' (con W ++ [Mtext])) /\ repainted b b' w h bits (fun px py =>
    let py' := if in_disc r (px - x) (py - y) && in_disc r (px + 1 - x) (py - y) then fy py (2 * y - py) else py in
    let px' := if col_part r (px - x) (py - y) then fx px (2 * x - px) else px in
    pixel b w h bits px' py')).
  { intros a f1 f2 Ha. destruct (Q a f1 f2 Wb Hb D Hy Ha) as (b' & E & R). exists b'. split; [exact E|].
    eapply repainted_ext; [|exact R]. intros px py _. cbn beta. now rewrite P. }
  cbn [In] in Hin. pick Hin; inversion Hin; subst act fx fy; eapply by_ref_px; eauto; apply G; cbn [In]; auto 6.
Qed.
Theorem C84_colours : forall src dst W b w h x y r g g2 fr fg fb l0 l1, files W src = Some b -> wf b w h 24 -> disc_inside w h x y r ->
  (forall v, 0 <= v < 256 -> 0 <= fr v < 256) -> (forall v, 0 <= v < 256 -> 0 <= fg v < 256) -> (forall v, 0 <= v < 256 -> 0 <= fb v < 256) ->
  (forall t lum v, 0 <= t < 256 -> 0 <= v <= lum -> 0 < lum < 256 -> 0 <= g2 t lum v < 256) ->
  let rows px py := in_disc r (px - x) (py - y) && in_disc r (px + 1 - x) (py - y) in
  let lit f '(r, gr, bl) := (Z.max 0 (Z.min 255 (f r)), Z.max 0 (Z.min 255 (f gr)), Z.max 0 (Z.min 255 (f bl))) in
  forall (act : string -> string -> F unit) (hit : Z -> Z -> bool) (f : Z -> Z -> Z * Z * Z -> Z * Z * Z), In (act, hit, f)
    [(monochromecircregion2file x y r, rows, fun _ _ '(r, gr, bl) => let m := (r + gr + bl) / 3 in (m, m, m));
     (colorfiltercircregion2file fr fg fb x y r, fun px py => rows px py && rows (px + 1) py, fun _ _ '(r, gr, bl) => (fr r, fg gr, fb bl));
     (brightnessadjcircregion2file (g 0) x y r, rows, fun _ _ => lit (g 0));
     (gammacorrectcircregion2file g x y r, rows,
        fun _ _ '(r, gr, bl) => let lum := Z.max 1 (Z.max r (Z.max gr bl)) in (g lum r mod 256, g lum gr mod 256, g lum bl mod 256));
     (thresholdadjcircregion2file g2 l0 l1 x y r, rows,
        fun _ _ '(r, gr, bl) =>
          let lum := Z.max r (Z.max gr bl) in
          let t := Z.max (Z.min (l0 mod 256) (l1 mod 256)) (Z.min (Z.max (l0 mod 256) (l1 mod 256)) lum) in
          if (lum =? 0) || (t =? lum) then (r, gr, bl) else (g2 t lum r, g2 t lum gr, g2 t lum bl))] \/
  0 < r /\ In (act, hit, f)
    [(vertbrightnessgrad2circregion2file g x y r, rows, fun _ py => lit (g (py - (y - r))));
     (horibrightnessgrad2circregion2file g x y r, fun px py => col_part r (px - x) (py - y), fun px _ => lit (g (px - (x - r))))] ->
  exists W', act src dst W = (Ok tt, W') /\ saved_repainted W W' dst b w h 24 (fun px py =>
    if hit px py then rgb24 (f px py (rgb_of (pixel b w h 24 px py))) else pixel b w h 24 px py).
Proof.
  intros src dst W b w h x y r g g2 fr fg fb l0 l1 Hf Wb D Br Bg Bb Bt rows lit act hit f Hin. set (o := con W ++ [Mtext]).
  assert (K : 0 <= r /\ 0 < w /\ 0 < h /\ -18 <= x /\ x + r < w) by (unfold disc_inside in D; lia). destruct K as (Hr & Hw & Hh & Hx & Hxr).
  pose proof (C10_condition b w h 24 Wb (or_intror (conj Hw Hh))) as Hl.
  assert (P : forall px py, rows px py = disc_part w 24 r x y px py) by (intros; unfold rows; symmetry; now apply C54_part; auto).
  Ltac fin3 P R := eapply repainted_ext; [|exact R]; intros px py I; cbn beta iota; rewrite ?P;
    match goal with |- (if ?c then _ else _) = _ => destruct c end; try reflexivity.
  destruct Hin as [Hin|[Hp Hin]]; cbn [In] in Hin; pick Hin; inversion Hin; subst act hit f; eapply by_ref24_px; eauto.
  - destruct (C56_mono b w h o x y r Wb D) as (b' & E & R). exists b'. split; [exact E|]. fin3 P R.
  - destruct (C56_color fr fg fb b w h o x y r Wb Br Bg Bb Hr Hw Hx) as (b' & E & R). exists b'. split; [exact E|]. fin3 P R.
  - destruct (C56_brightness (g 0) b w h o x y r Wb Hr Hw Hx) as (b' & E & R). exists b'. split; [exact E|]. fin3 P R.
  - destruct (C56_gamma g b w h o x y r Wb Hr Hw Hx) as (b' & E & R). exists b'. split; [exact E|]. fin3 P R.
  - destruct (C70_threshold g2 l0 l1 b w h o x y r Wb Bt Hr Hw Hx) as (b' & E & R). exists b'. split; [exact E|]. fin3 P R.
    pose proof (rgb_back b w h px py Wb I) as Rgb. destruct (rgb_of (pixel b w h 24 px py)) as [[r' gr] bl]. cbv zeta.
    match goal with |- _ = rgb24 (if ?c then _ else _) => destruct c end; [symmetry; exact Rgb|reflexivity].
  - destruct (C70_vertical g b w h o x y r Wb Hp D) as (b' & E & R). exists b'. split; [exact E|]. fin3 P R.
  - destruct (C70_horizontal g b w h o x y r Wb Hp D) as (b' & E & R). exists b'. split; [exact E|]. fin3 P R.
Qed.
Theorem C84_more : forall src dst W b w h bits x y r, files W src = Some b -> wf b w h bits -> bits = 8 \/ bits = 24 -> disc_inside w h x y r ->
  let rows px py := in_disc r (px - x) (py - y) && in_disc r (px + 1 - x) (py - y) in
  (forall c, 0 <= c < 2 ^ bits -> exists W', circle2file x y r c src dst W = (Ok tt, W') /\
     saved_repainted W W' dst b w h bits (fun px py => if on_ring r (px - x) (py - y) then c else pixel b w h bits px py)) /\
  (forall c, 0 <= c < 2 ^ bits -> exists W', filledcircle2file x y r c src dst W = (Ok tt, W') /\
     saved_repainted W W' dst b w h bits (fun px py => if in_disc r (px - x) (py - y) then c else pixel b w h bits px py)) /\
  (forall n, y + r < w -> n <> 0 -> exists W', eraseeverynthhorilineinccircregion2file x y r n src dst W = (Ok tt, W') /\
     saved_repainted W W' dst b w h bits (fun px py => if rows px py && (py mod n =? 0) then 0 else pixel b w h bits px py)) /\
  (forall nx ny, y + r < w -> disc_inside w h nx ny r -> exists W', copycircregion2file x y r nx ny src dst W = (Ok tt, W') /\
     saved_repainted W W' dst b w h bits (fun px py =>
       if in_disc r (px - nx) (py - ny) && in_disc r (px + 1 - nx) (py - ny)
       then pixel b w h bits (x + (px - nx)) (y + (py - ny)) else pixel b w h bits px py)) /\
  (forall n, bits = 24 -> w mod 2 = 0 -> 0 < n -> w * n < 2 ^ 24 -> h * n < 2 ^ 24 ->
     exists W', magnifyNtimescircregion2file x y r n src dst W = (Ok tt, W') /\
     saved_repainted W W' dst b w h bits (fun px py =>
       if rows px py then pixel b w h bits (x + (px - x) / n) (y + (py - y) / n) else pixel b w h bits px py)) /\
  (forall rnd n, bits = 24 -> 0 < n -> w mod n = 0 -> h mod n = 0 -> (w / n) mod 2 = 0 ->
     (forall s, 0 <= s <= 255 * (n * n) -> 0 <= rnd n s < 256) ->
     exists W', pixelizenxncircregion2file rnd x y r n src dst W = (Ok tt, W') /\
     saved_repainted W W' dst b w h bits (fun px py =>
       if rows px py then square_mean (rnd n) b w h n (px / n * n) (py / n * n) else pixel b w h bits px py)).
Proof.
  intros src dst W b w h bits x y r Hf Wb Hb D rows. set (o := con W ++ [Mtext]).
  assert (K : 0 <= r /\ 0 < w /\ 0 < h /\ 0 <= x /\ x + r < w) by (unfold disc_inside in D; lia). destruct K as (Hr & Hw & Hh & Hx & Hxr).
  pose proof (C10_condition b w h bits Wb (or_intror (conj Hw Hh))) as Hl.
  assert (P : forall px py, rows px py = disc_part w bits r x y px py) by (intros; unfold rows; symmetry; now apply C54_part).
  assert (Rd : forall c, 0 <= c < 2 ^ bits -> reduce bits c = c).
  { intros c Hc. destruct Hb as [-> | ->]; unfold reduce; cbn [Z.eqb Pos.eqb]; try reflexivity; try (apply Z.mod_small; exact Hc). }
  split; [|split; [|split; [|split; [|split]]]].
  - intros c Hc. eapply by_ref_px; eauto. fold o. destruct (C27_circle b w h bits x y r c o Wb Hr (fun _ => Hc)) as (b' & E & R).
    rewrite (Rd c Hc) in R. eauto.
  - intros c Hc. eapply by_ref_px; eauto. fold o.
    assert (St : storable bits c) by (destruct Hb as [-> | ->]; unfold storable; try tauto; try lia; intros; exact Hc).
    destruct (C28_filledcircle b w h bits x y r c o Wb Hr St Hb ltac:(lia) ltac:(lia)) as (b' & E & R).
    rewrite (Rd c Hc) in R. eauto.
  - intros n Hy Hn. eapply by_ref_px; eauto. fold o. destruct (C59_erase b w h bits o x y r n 0 0 Wb D Hy Hn) as (b' & E & R).
    exists b'. split; [exact E|]. eapply repainted_ext; [|exact R]. intros px py _. cbn beta. rewrite P.
    destruct (disc_part w bits r x y px py && (py mod n =? 0)); [|reflexivity]. cbv zeta. destruct Hb as [-> | ->]; reflexivity.
  - intros nx ny Hy D2. eapply by_ref_px; eauto. fold o.
    destruct (C58_copycirc b w h bits o x y nx ny r Wb D Hy D2) as (b' & E & R).
    { destruct Hb as [-> | ->]; lia. }
    exists b'. split; [exact E|]. eapply repainted_ext; [|exact R]. intros px py _. cbn beta.
    rewrite <- C54_part with (w := w) (bits := bits) (x := nx) (y := ny); auto. unfold disc_inside in D2. lia.
  - intros n -> Ew Hn B1 B2. eapply by_ref_px; eauto. fold o.
    destruct (C61_magnify b w h o x y r n Wb Ew Hn D B1 B2) as (b' & E & R). exists b'. split; [exact E|].
    eapply repainted_ext; [|exact R]. intros px py _. cbn beta. rewrite P, !C61_fixed by auto. reflexivity.
  - intros rnd n -> Hn Mw Mh He HB. eapply by_ref_px; eauto. fold o.
    destruct (C81_disc rnd b w h o x y r n Wb Hn Mw Mh He HB Hr) as (b' & E & R); [unfold disc_inside, inside in *; lia|unfold disc_inside, inside in *; lia|].
    exists b'. split; [exact E|]. eapply repainted_ext; [|exact R]. intros px py _. cbn beta. now rewrite P.
Qed.
(** refusals: another depth writes nothing, a disc that does not fit saves a plain copy *)
Theorem C84_refused : forall src dst W b w h bits x y r, files W src = Some b -> wf b w h bits -> 0 < w -> 0 < h ->
  (bits <> 24 -> forall g g1 g2 fr fg fb l0 l1 act, In act
     [monochromecircregion2file x y r; colorfiltercircregion2file fr fg fb x y r; thresholdadjcircregion2file g2 l0 l1 x y r;
      gammacorrectcircregion2file g x y r; brightnessadjcircregion2file g1 x y r; vertbrightnessgrad2circregion2file g x y r;
      horibrightnessgrad2circregion2file g x y r; thickencirclearea2file g1 x y r] ->
     act src dst W = (Ok tt, mkw (files W) (con W ++ [Mtext; Mnot24bit; Mdone]))) /\
  (0 <= r -> ~ (0 <= x - r /\ x + r < w /\ 0 <= y - r /\ y + r < w) ->
   forall act, In act [flipvertcircregion2file; mirrortopincircregion2file; mirrorbottomincircregion2file; flipXYcircregion2file] ->
     exists W', act x y r src dst W = (Ok tt, W') /\ only_file W W' dst b /\
       con W' = con W ++ [Mtext; Mregionoutofbounds; Msaved; Mdone]) /\
  (0 <= r -> ~ disc_inside w h x y r -> bits = 8 \/ bits = 24 ->
   forall act, In act [fliphoricircregion2file; mirrorleftincircregion2file; mirrorrightincircregion2file] ->
     exists W', act x y r src dst W = (Ok tt, W') /\ only_file W W' dst b /\
       con W' = con W ++ [Mtext; Mregionoutofbounds; Msaved; Mdone]).
Proof.
  intros src dst W b w h bits x y r Hf Wb Hw Hh. pose proof (C10_condition b w h bits Wb (or_intror (conj Hw Hh))) as Hl.
  assert (G : forall A (m : M (option A)), m (mkst b (con W ++ [Mtext])) = (Ok None, mkst b ((con W ++ [Mtext]) ++ [Mregionoutofbounds])) ->
    exists W', functimer (usebyreffnsv src dst m) W = (Ok tt, W') /\ only_file W W' dst b /\
      con W' = con W ++ [Mtext; Mregionoutofbounds; Msaved; Mdone]).
  { intros A m E. destruct (by_ref src dst W b w h bits Hf Wb Hl m _ _ _ E) as (W' & E' & O & C).
    exists W'. split; [exact E'|]. split; [exact O|]. rewrite C, <- !app_assoc. reflexivity. }
  split; [|split].
  - intros N g g1 g2 fr fg fb l0 l1 act Hin. cbn [In] in Hin. pick Hin; subst act; exact (by_ref24_other src dst W b w h bits Hf Wb Hl _ N).
  - intros Hr N act Hin. destruct (C53_width_guard b w h bits (con W ++ [Mtext]) x y r Wb Hr N) as (E1 & E2 & E3 & E4 & _).
    cbn [In] in Hin. pick Hin; subst act; apply G; auto.
  - intros Hr N Hb act Hin. destruct (C53_refused b w h bits (con W ++ [Mtext]) x y r Wb Hr N) as (_ & Q). destruct (Q Hb) as (E1 & E2 & E3).
    cbn [In] in Hin. pick Hin; subst act; apply G; auto.
Qed.
Example C84_ex : let W := mkw (fput nofiles "a" (sample 5 5 8)) [] in
  (wf (sample 5 5 8) 5 5 8 /\ disc_inside 5 5 2 2 1 /\ 2 + 1 < 5) /\
  match files (snd (fliphoricircregion2file 2 2 1 "a" "c" W)) "c"%string with
  | Some c => pixel c 5 5 8 1 2 = pixel (sample 5 5 8) 5 5 8 3 2 /\ pixel c 5 5 8 1 2 <> pixel (sample 5 5 8) 5 5 8 1 2 | None => False
  end.
Proof. split; [split; [concrete_wf|split; [unfold disc_inside; lia|lia]]|]. vm_compute. split; [reflexivity|discriminate]. Qed.
Print Assumptions C84_moves.
Print Assumptions C84_corners.
Print Assumptions C84_colours.
Print Assumptions C84_more.
Print Assumptions C84_refused.

(** * C85 *)
(** With a palette, every entry is adjusted and no pixel index changes; the pixels of a
    24-bit image are adjusted one by one. *)
Theorem C85_palette : forall src dst W b w h bits pal g1 g2 g fr fg fb l0 l1 act f, files W src = Some b -> wf b w h bits -> bits <> 24 ->
  In (act, f) [(monochrome2file, monochrome); (adjustbrightness2file pal g1, pal); (thresholdadjust2file pal g2 l0 l1, pal);
               (colorfilter2file pal fr fg fb, pal); (gammaadj2file pal g, pal)] ->
  (forall r gr bl, 0 <= r < 256 -> 0 <= gr < 256 -> 0 <= bl < 256 ->
     let '(r', gr', bl') := f (r, gr, bl) in 0 <= r' < 256 /\ 0 <= gr' < 256 /\ 0 <= bl' < 256) ->
  exists c W', act src dst W = (Ok tt, W') /\ only_file W W' dst c /\ con W' = con W ++ [Mtext; Msaved; Mdone] /\ wf c w h bits /\
    (forall i, 0 <= i < 2 ^ bits -> pal_entry c i = f (pal_entry b i)) /\
    (forall x y, inside w h x y -> pixel c w h bits x y = pixel b w h bits x y) /\
    (forall i, i < 54 \/ data_off bits <= i -> getz c i = getz b i).
Proof.
  intros src dst W b w h bits pal g1 g2 g fr fg fb l0 l1 act f Hf Wb N Hin Hb.
  pose proof (C10_condition b w h bits Wb (or_introl N)) as Hl.
  destruct (setpal_run b w h bits (con W ++ [Mtext]) f Wb N) as (c & E & Wc & P1 & P2 & P3).
  { intros [[r gr] bl] (B1 & B2 & B3). pose proof (Hb r gr bl B1 B2 B3) as Q. destruct (f (r, gr, bl)) as [[r' gr'] bl'].
    destruct Q as (Q1 & Q2 & Q3). split; [exact Q1|]. split; [exact Q2|exact Q3]. }
  assert (G : forall img, exists W', functimer (useclradjfn src dst f img) W = (Ok tt, W') /\ only_file W W' dst c /\ con W' = con W ++ [Mtext; Msaved; Mdone]).
  { intros img. unfold useclradjfn.
    assert (E1 : (bits0 <- geti bmpcolorbits ;; if negb (bits0 =? 24) then p <- rd getallRGBpal ;; setbmppal (map f p) else img ;;; ret tt)
      (mkst b (con W ++ [Mtext])) = (Ok tt, mkst c (con W ++ [Mtext]))).
    { rewrite (bind_ok _ _ _ _ _ (wf_geti_bits _ _ _ _ Wb _)). rewrite (proj2 (Z.eqb_neq bits 24)) by auto. cbn [negb]. exact E. }
    destruct (by_ref src dst W b w h bits Hf Wb Hl _ _ _ _ E1) as (W' & E' & O & C). exists W'. split; [exact E'|]. split; [exact O|].
    rewrite C, <- app_assoc. reflexivity. }
  assert (K : exists W', act src dst W = (Ok tt, W') /\ only_file W W' dst c /\ con W' = con W ++ [Mtext; Msaved; Mdone]).
  { cbn [In] in Hin. pick Hin; inversion Hin; subst act; apply G || (subst f; apply G). }
  destruct K as (W' & E' & O & C). exists c, W'. auto 8.
Qed.
Theorem C85_pixels : forall src dst W b w h pal g1 g2 g fr fg fb l0 l1, files W src = Some b -> wf b w h 24 -> 0 < w -> 0 < h ->
  (forall v, 0 <= v < 256 -> 0 <= fr v < 256) -> (forall v, 0 <= v < 256 -> 0 <= fg v < 256) -> (forall v, 0 <= v < 256 -> 0 <= fb v < 256) ->
  (forall t lum v, 0 <= t < 256 -> 0 <= v <= lum -> 0 < lum < 256 -> 0 <= g2 t lum v < 256) ->
  forall (act : string -> string -> F unit) (sel : Z -> bool) (f : Z * Z * Z -> Z * Z * Z), In (act, sel, f)
    [(monochrome2file, fun _ => true, fun '(r, gr, bl) => let m := (r + gr + bl) / 3 in (m, m, m));
     (adjustbrightness2file pal g1, fun _ => true,
        fun '(r, gr, bl) => (Z.max 0 (Z.min 255 (g1 r)), Z.max 0 (Z.min 255 (g1 gr)), Z.max 0 (Z.min 255 (g1 bl))));
     (colorfilter2file pal fr fg fb, fun x => x <? w - 1, fun '(r, gr, bl) => (fr r, fg gr, fb bl));
     (gammaadj2file pal g, fun _ => true,
        fun '(r, gr, bl) => let lum := Z.max 1 (Z.max r (Z.max gr bl)) in (g lum r mod 256, g lum gr mod 256, g lum bl mod 256));
     (thresholdadjust2file pal g2 l0 l1, fun _ => true,
        fun '(r, gr, bl) =>
          let lum := Z.max r (Z.max gr bl) in
          let t := Z.max (Z.min (l0 mod 256) (l1 mod 256)) (Z.min (Z.max (l0 mod 256) (l1 mod 256)) lum) in
          if (lum =? 0) || (t =? lum) then (r, gr, bl) else (g2 t lum r, g2 t lum gr, g2 t lum bl))] ->
  exists W', act src dst W = (Ok tt, W') /\ saved_repainted W W' dst b w h 24 (fun x y =>
    if sel x then rgb24 (f (rgb_of (pixel b w h 24 x y))) else pixel b w h 24 x y).
Proof.
  intros src dst W b w h pal g1 g2 g fr fg fb l0 l1 Hf Wb Hw Hh Br Bg Bb Bt act sel f Hin.
  pose proof (C10_condition b w h 24 Wb (or_intror (conj Hw Hh))) as Hl. set (o := con W ++ [Mtext]).
  assert (G : forall pal img q, (exists b', img (mkst b o) = (Ok (Some tt), mkst b' o) /\ repainted b b' w h 24 q) ->
    exists W', functimer (useclradjfn src dst pal img) W = (Ok tt, W') /\ saved_repainted W W' dst b w h 24 q).
  { intros pl img q (b' & E & R). unfold useclradjfn. eapply by_ref_px; eauto. fold o. exists b'. split; [|exact R].
    rewrite (bind_ok _ _ _ _ _ (wf_geti_bits _ _ _ _ Wb _)). cbn [Z.eqb Pos.eqb negb]. now rewrite (bind_ok _ _ _ _ _ E). }
  destruct (C50_images b w h o Wb) as (I1 & I2 & I3).
  assert (J1 : inside w h 0 0) by (unfold inside; lia). assert (J2 : inside w h (w - 1) (h - 1)) by (unfold inside; lia).
  assert (B : forall x y, inside w h x y -> in_box 0 0 (w - 1) (h - 1) x y = true) by (intros; unfold in_box, inside in *; lia).
  Ltac fin4 B R := eapply repainted_ext; [|exact R]; intros x y I; cbn beta iota; rewrite ?(B x y I); reflexivity.
  cbn [In] in Hin. pick Hin; inversion Hin; subst act sel f; apply G.
  - destruct (C48_monoimage b w h o Wb Hw Hh) as (b' & E & R). exists b'. split; [exact E|]. fin4 B R.
  - rewrite I1. destruct (C50_brightness g1 b w h o 0 0 (w - 1) (h - 1) Wb J1 J2) as (b' & E & R). exists b'. split; [exact E|]. fin4 B R.
  - destruct (C49_colorfilterimage fr fg fb b w h o Wb Br Bg Bb Hw Hh) as (b' & E & R). exists b'. split; [exact E|]. fin4 B R.
  - rewrite I2. destruct (C50_gamma g b w h o 0 0 (w - 1) (h - 1) Wb J1 J2) as (b' & E & R). exists b'. split; [exact E|]. fin4 B R.
  - rewrite I3. destruct (C50_threshold g2 l0 l1 b w h o 0 0 (w - 1) (h - 1) Wb Bt J1 J2) as (b' & E & R). exists b'. split; [exact E|].
    eapply repainted_ext; [|exact R]. intros x y I. cbn beta iota. rewrite (B x y I).
    pose proof (rgb_back b w h x y Wb I) as Rgb. destruct (rgb_of (pixel b w h 24 x y)) as [[r' gr] bl]. cbv zeta.
    match goal with |- _ = rgb24 (if ?c then _ else _) => destruct c end; [symmetry; exact Rgb|reflexivity].
Qed.
(** the grey of a palette is the nearest integer to the mean, the grey of a 24-bit pixel
    the mean rounded down *)
Theorem C85_grey : forall r g b, let '(m, _, _) := monochrome (r, g, b) in
  m = (r + g + b + 1) / 3 /\ (m, m, m) = monochrome (r, g, b) /\ Z.abs (3 * m - (r + g + b)) <= 1.
Proof. intros r g b. unfold monochrome. split; [lia|]. split; [reflexivity|]. lia. Qed.
Theorem C85_grey_refuted : exists b w h i x y c c24, wf b w h 8 /\ wf c24 w h 24 /\ inside w h x y /\ pixel b w h 8 x y = i /\
  rgb_of (pixel c24 w h 24 x y) = pal_entry b i /\
  files (snd (monochrome2file "a" "a" (mkw (fput nofiles "a" b) []))) "a"%string = Some c /\
  match files (snd (monochrome2file "a" "a" (mkw (fput nofiles "a" c24) []))) "a"%string with
  | Some d => rgb_of (pixel d w h 24 x y) <> pal_entry c i | None => False end.
Proof.
  exists (after (setRGBpal 0 1 0 1) (blank 1 1 8)), 1, 1, 0, 0, 0. eexists. exists (after (plotxybit 0 0 65537) (blank 1 1 24)).
  split; [concrete_wf|]. split; [concrete_wf|]. split; [unfold inside; lia|]. split; [vm_compute; reflexivity|].
  split; [vm_compute; reflexivity|]. split; [vm_compute; reflexivity|]. vm_compute. discriminate.
Qed.
Example C85_ex : let W := mkw (fput nofiles "a" (sample 3 2 4)) [] in
  (wf (sample 3 2 4) 3 2 4) /\
  match files (snd (monochrome2file "a" "b" W)) "b"%string with
  | Some c => rows c 3 2 4 = rows (sample 3 2 4) 3 2 4 /\ pal_entry (sample 3 2 4) 9 = (255, 0, 0) /\ pal_entry c 9 = (85, 85, 85)
  | None => False end.
Proof. split; [concrete_wf|]. vm_compute. split; [reflexivity|]. split; reflexivity. Qed.
Print Assumptions C85_palette.
Print Assumptions C85_pixels.
Print Assumptions C85_grey.
Print Assumptions C85_grey_refuted.

(** * C86 *)
(** no source file: a message, and no file is changed *)
Theorem C86_missing : forall src dst W, files W src = None ->
  (forall act, In act [invertbits2file; flipvertical2file; fliphorizontal2file; mirrortop2file; mirrorbottom2file; mirrorleft2file; mirrorright2file;
     mirrortopleft2file; mirrortopright2file; mirrorbottomleft2file; mirrorbottomright2file; outline2file; flipXY2file; upgradeto24bitimage2file;
     monochrome2file] -> act src dst W = (Ok tt, mkw (files W) (con W ++ [Mtext; Mfilenotexist; Mdone]))) /\
  (forall act n, In act [palshift2file; eraseeverynthhoriline2file; resizeNtimesbigger2file] ->
     act n src dst W = (Ok tt, mkw (files W) (con W ++ [Mtext; Mfilenotexist; Mdone]))) /\
  (forall x1 y1 x2 y2 act, In act [flipverticalregion2file; fliphorizontalregion2file; mirrorleftinregion2file; mirrorrightinregion2file;
     mirrortopinregion2file; mirrorbottominregion2file; mirrortopleftinregion2file; mirrortoprightinregion2file; mirrorbottomleftinregion2file;
     mirrorbottomrightinregion2file; invertregion2file; outlineregion2file; monofilterinregion2file] ->
     act x1 y1 x2 y2 src dst W = (Ok tt, mkw (files W) (con W ++ [Mtext; Mfilenotexist; Mdone]))) /\
  (forall x1 y1 x2 y2 n act, In act [eraseeverynthhorilineinregion2file; rectangle2file; filledrect2file] ->
     act x1 y1 x2 y2 n src dst W = (Ok tt, mkw (files W) (con W ++ [Mtext; Mfilenotexist; Mdone]))) /\
  (forall x y r act, In act [invertbitsincircregion2file; flipvertcircregion2file; fliphoricircregion2file; mirrortopincircregion2file;
     mirrorbottomincircregion2file; mirrorleftincircregion2file; mirrorrightincircregion2file; mirrortopleftincircregion2file;
     mirrorbottomleftincircregion2file; mirrortoprightincircregion2file; mirrorbottomrightincircregion2file; outlinecircregion2file;
     flipXYcircregion2file; monochromecircregion2file] ->
     act x y r src dst W = (Ok tt, mkw (files W) (con W ++ [Mtext; Mfilenotexist; Mdone]))) /\
  (forall x y r n act, In act [filledcircle2file; circle2file; eraseeverynthhorilineinccircregion2file; magnifyNtimescircregion2file] ->
     act x y r n src dst W = (Ok tt, mkw (files W) (con W ++ [Mtext; Mfilenotexist; Mdone]))) /\
  (forall x y r nx ny x1 y1 x2 y2 d n l0 l1 g g1 g2 fr fg fb pal act, In act
     [copycircregion2file x y r nx ny; pixelizenxncircregion2file g x y r n; pixelizenxntofile g n; resizeNtimessmaller2file g n;
      horizontalbrightnessgrad2file g; verticalbrightnessgrad2file g; filledgradrect2file g x1 y1 x2 y2 d; filleddichromaticgradrect2file g x1 y1 x2 y2 d;
      adjustbrightnessinregion2file g1 x1 y1 x2 y2; adjustthresholdinregion2file g2 l0 l1 x1 y1 x2 y2; colorfilterinregion2file fr fg fb x1 y1 x2 y2;
      gammaadjtoregion2file g x1 y1 x2 y2; horizontalbrightnessgradregion2file g x1 y1 x2 y2; verticalbrightnessgradregion2file g x1 y1 x2 y2;
      colorfiltercircregion2file fr fg fb x y r; thresholdadjcircregion2file g2 l0 l1 x y r; gammacorrectcircregion2file g x y r;
      brightnessadjcircregion2file g1 x y r; vertbrightnessgrad2circregion2file g x y r; horibrightnessgrad2circregion2file g x y r;
      thickencirclearea2file g1 x y r; adjustbrightness2file pal g1; thresholdadjust2file pal g2 l0 l1; colorfilter2file pal fr fg fb; gammaadj2file pal g] ->
     act src dst W = (Ok tt, mkw (files W) (con W ++ [Mtext; Mfilenotexist; Mdone]))).
Proof.
  intros src dst W H.
  repeat split; intros; match goal with K : In _ _ |- _ => cbn [In] in K; pick K; subst end; apply (wrap_missing src dst W _ H);
    intros V HV; first [now apply usebyref_missing|now apply use24_missing|now apply usefnsv_missing|now apply use24par_missing].
Qed.
Lemma load_wf src W b w h bits : files W src = Some b -> wf b w h bits -> 54 < zlen b ->
  loadBMP src W = (Ok (Some b), mkw (files W) (con W)).
Proof. intros Hf Wb Hl. destruct W as [fs cn]. exact (loadBMP_wf src (mkw fs cn) b w h bits Hf Wb Hl). Qed.
(** saving a crop *)
Theorem C86_crop : forall src dst W b w h bits x1 y1 x2 y2, files W src = Some b -> wf b w h bits ->
  inside w h x1 y1 -> inside w h x2 y2 ->
  exists c W', cropBMPandsave x1 y1 x2 y2 src dst W = (Ok (Some tt), W') /\ only_file W W' dst c /\ con W' = con W ++ [Msaved] /\
    let w' := Z.abs (x2 - x1) + 1 in let h' := Z.abs (y2 - y1) + 1 in
    wf c w' h' bits /\
    forall i j, inside w' h' i j -> pixel c w' h' bits i j = pixel b w h bits (Z.min x1 x2 + i) (Z.min y1 y2 + j).
Proof.
  intros src dst W b w h bits x1 y1 x2 y2 Hf Wb I1 I2. pose proof (C10_condition b w h bits Wb (or_intror (inside_size _ _ _ _ I1))) as Hl.
  destruct (C20_crop b w h bits (con W) x1 y1 x2 y2 Wb I1 I2) as (c & E & Wc & P & _).
  exists c. unfold cropBMPandsave, checklink. rewrite Hf. unfold fbind, fret.
  rewrite (usefn2regsv_run src dst _ W b b (con W) Hf (load_wf src W b w h bits Hf Wb Hl)), E. eexists. split; [reflexivity|].
  split; [exact (only_fput W _ _ _)|]. split; [reflexivity|]. cbv zeta. split; [exact Wc|exact P].
Qed.
Theorem C86_crop_outside : forall src dst W b w h bits x1 y1 x2 y2, files W src = Some b -> wf b w h bits -> 0 < w -> 0 < h ->
  ~ (inside w h x1 y1 /\ inside w h x2 y2) ->
  cropBMPandsave x1 y1 x2 y2 src dst W = (Ok (Some tt), mkw (files W) (con W ++ [Mregionoutofbounds])).
Proof.
  intros src dst W b w h bits x1 y1 x2 y2 Hf Wb Hw Hh N. pose proof (C10_condition b w h bits Wb (or_intror (conj Hw Hh))) as Hl.
  unfold cropBMPandsave, checklink. rewrite Hf. unfold fbind, fret.
  rewrite (usefn2regsv_run src dst _ W b b (con W) Hf (load_wf src W b w h bits Hf Wb Hl)), (C20_outside b w h bits _ _ _ _ _ Wb N). reflexivity.
Qed.
(** the variant that takes the two corners of a rectangle adds one column and one row *)
Theorem C86_crop_bound : forall src dst W b w h bits x1 y1 x2 y2, files W src = Some b -> wf b w h bits ->
  inside w h x1 y1 -> inside w h (x2 + 1) (y2 + 1) ->
  exists c W', cropBMPandsaveusingrectbnd (x1, y1) (x2, y2) src dst W = (Ok (Some tt), W') /\ only_file W W' dst c /\
    let w' := Z.abs (x2 + 1 - x1) + 1 in let h' := Z.abs (y2 + 1 - y1) + 1 in
    wf c w' h' bits /\
    forall i j, inside w' h' i j -> pixel c w' h' bits i j = pixel b w h bits (Z.min x1 (x2 + 1) + i) (Z.min y1 (y2 + 1) + j).
Proof.
  intros src dst W b w h bits x1 y1 x2 y2 Hf Wb I1 I2.
  destruct (C86_crop src dst W b w h bits x1 y1 (x2 + 1) (y2 + 1) Hf Wb I1 I2) as (c & W' & E & O & _ & P). exists c, W'. auto.
Qed.
Theorem C86_crop_bound_refuted : exists b w h, wf b w h 24 /\ inside w h 0 0 /\ inside w h (w - 1) (h - 1) /\
  let W := mkw (fput nofiles "a" b) [] in
  files (snd (cropBMPandsaveusingrectbnd (0, 0) (w - 1, h - 1) "a" "b" W)) "b"%string = None /\
  con (snd (cropBMPandsaveusingrectbnd (0, 0) (w - 1, h - 1) "a" "b" W)) = [Mregionoutofbounds].
Proof.
  exists (sample24 3 2), 3, 2. split; [concrete_wf|]. split; [unfold inside; lia|]. split; [unfold inside; lia|]. cbv zeta.
  split; vm_compute; reflexivity.
Qed.
Theorem C86_crop_missing : forall src dst W x1 y1 x2 y2, files W src = None ->
  cropBMPandsave x1 y1 x2 y2 src dst W = (Ok None, mkw (files W) (con W ++ [Mfilenotexist])) /\
  cropBMPandsaveusingrectbnd (x1, y1) (x2, y2) src dst W = (Ok None, mkw (files W) (con W ++ [Mfilenotexist])).
Proof. intros src dst W x1 y1 x2 y2 H. unfold cropBMPandsave, cropBMPandsaveusingrectbnd, checklink. rewrite H. split; reflexivity. Qed.
Example C86_ex : (files (mkw nofiles []) "a"%string = None) /\
  match files (snd (cropBMPandsave 2 1 1 0 "a" "b" (mkw (fput nofiles "a" (sample24 3 2)) []))) "b"%string with
  | Some c => rows c 2 2 24 = map (fun r => skipn 1 r) (rows (sample24 3 2) 3 2 24) | None => False end.
Proof. split; [reflexivity|vm_compute; reflexivity]. Qed.
Print Assumptions C86_missing.
Print Assumptions C86_crop.
Print Assumptions C86_crop_outside.
Print Assumptions C86_crop_bound.
Print Assumptions C86_crop_bound_refuted.
Print Assumptions C86_crop_missing.
