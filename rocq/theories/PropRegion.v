(** Properties C13-C21, C29, C30, C37, C41-C46: iteration, flips, mirrors,
    inversion, cropping, resizing, copy and paste. *)
From Coq Require Import ZArith List Bool Lia Sorted Permutation.
From Verif Require Import PyBase PyFacts Spec Bmp BmpFacts PixelProofs HeaderProofs PalProofs PlotList Buffers Region
  Raster VertProofs HorizProofs IterProofs RectProofs RectProofs2 UpProofs ResizeProofs PasteProofs TransProofs SwapProofs Concrete.
Import ListNotations.
Open Scope Z_scope.
Open Scope py_scope.

(** * C13 *)
Theorem C13_iterimagecolor : forall b w h bits, wf b w h bits ->
  exists items, iterimagecolor b = Ok items /\ zlen items = w * h /\ NoDup (map fst items) /\
    (forall x y, inside w h x y -> In (x, y, pixel b w h bits x y) items) /\
    (forall x y c, In (x, y, c) items ->
       inside w h x y /\ c = pixel b w h bits x y /\ getxybit x y b = Ok c).
Proof.
  intros b w h bits W. exists (allitems b w h bits). split; [now apply iterimagecolor_spec|].
  split; [apply allitems_len; apply W|]. split; [|split].
  - pose proof (allitems_nodup b w h bits) as N.
    rewrite (map_ext _ fst) in N; auto. intros [[x y] c]. reflexivity.
  - intros x y Hin. apply allitems_in. auto.
  - intros x y c H. apply allitems_in in H. destruct H as (Hin & ->). split; auto. split; auto.
    now apply getxybit_inside.
Qed.
Example C13_ex : match iterimagecolor (sample 11 3 1) with
  | Ok l => zlen l = 33 /\ In (10, 2, 1) l | Err _ => False end.
Proof. vm_compute. split; auto 40. Qed.
Print Assumptions C13_iterimagecolor.

(** * C14 *)
Lemma filter_perm_len {A} (f : A -> bool) l l' : Permutation l l' -> length (filter f l) = length (filter f l').
Proof.
  induction 1; cbn [filter]; auto.
  - destruct (f x); cbn [length]; auto.
  - destruct (f x), (f y); reflexivity.
  - congruence.
Qed.
Lemma cnt_pixels b w h bits c : cnt c (colors_of b w h bits) = pixels_of_color b w h bits c.
Proof.
  unfold cnt, colors_of, pixels_of_color. f_equal.
  transitivity (length (filter (fun p => pixel b w h bits (fst p) (snd p) =? c) (map fst (allitems b w h bits)))).
  - assert (H : forall i, In i (allitems b w h bits) -> snd i = pixel b w h bits (fst (fst i)) (snd (fst i))).
    { intros [[x y] d] Hi. apply allitems_in in Hi. apply Hi. }
    induction (allitems b w h bits) as [|i l IH]; auto. cbn [map count_occ filter].
    rewrite <- H by now left. destruct (Z.eq_dec (snd i) c), (Z.eqb_spec (snd i) c); try contradiction; cbn [length];
    rewrite IH by (intros; apply H; now right); auto.
  - apply filter_perm_len. apply NoDup_Permutation.
    + pose proof (allitems_nodup b w h bits) as N. rewrite (map_ext _ fst) in N; auto. intros [[x y] d]. reflexivity.
    + assert (G : forall l m : list Z, NoDup l -> NoDup m -> NoDup (list_prod l m)).
      { intros l m Nl Nm. induction Nl as [|x l Hx Nl IH]; cbn [list_prod]; [constructor|].
        apply NoDup_app'; auto.
        - apply FinFun.Injective_map_NoDup; auto. intros u v E. now inversion E.
        - intros [p q] Hp Hq. apply in_map_iff in Hp. destruct Hp as (z & E & _). inversion E; subst.
          apply in_prod_iff in Hq. tauto. }
      apply G; apply NoDup_range.
    + intros [x y]. rewrite in_prod_iff, !in_range. split.
      * intros H. apply in_map_iff in H. destruct H as ([[x' y'] d] & E & H). cbn in E. inversion E; subst.
        apply allitems_in in H. apply H.
      * intros H. apply in_map_iff. exists (x, y, pixel b w h bits x y). split; auto. apply allitems_in. auto.
Qed.
Theorem C14_colorhistogram : forall b w h bits, wf b w h bits ->
  exists hist, colorhistogram b = Ok hist /\
    NoDup (map snd hist) /\
    (forall n c, In (n, c) hist <-> n = pixels_of_color b w h bits c /\ 0 < n) /\
    StronglySorted (fun p q => fst q <= fst p) hist /\
    fold_right Z.add 0 (map fst hist) = w * h.
Proof.
  intros b w h bits W. destruct (colorhistogram_spec b w h bits W) as (hist & E & N & H & S & T).
  exists hist. split; auto. split; auto. split; auto. intros n c. now rewrite H, cnt_pixels.
Qed.
Example C14_ex : colorhistogram (after (plotxybit 1 1 3 ;;; plotxybit 2 0 3 ;;; plotxybit 4 2 9) (blank 5 3 4)) = Ok [(12, 0); (2, 3); (1, 9)].
Proof. vm_compute; reflexivity. Qed.
Print Assumptions C14_colorhistogram.

(** * C15 *)
Theorem C15_flipvertical : forall b w h bits o, wf b w h bits ->
  exists b', flipvertical (mkst b o) = (Ok tt, mkst b' o) /\
    repainted b b' w h bits (fun x y => pixel b w h bits x (h - 1 - y)).
Proof.
  intros b w h bits o W. destruct (verttrans_run b w h bits o TF W) as (b1 & E & R). exists b1. split; [exact E|].
  eapply repainted_ext; [|exact R]. intros x y _. cbn. f_equal; lia.
Qed.
Theorem C15_twice : forall b w h bits o b', wf b w h bits ->
  flipvertical (mkst b o) = (Ok tt, mkst b' o) -> flipvertical (mkst b' o) = (Ok tt, mkst b o).
Proof. intros b w h bits o b' W E. apply (verttrans_twice b w h bits o TF b' W E). Qed.
Example C15_ex : rows (after flipvertical (sample 5 3 4)) 5 3 4 = rev (rows (sample 5 3 4) 5 3 4) /\
  rows (sample 5 3 4) 5 3 4 <> rev (rows (sample 5 3 4) 5 3 4).
Proof. split; vm_compute; [reflexivity|discriminate]. Qed.
Print Assumptions C15_flipvertical.
Print Assumptions C15_twice.

(** * C16 *)
Theorem C16_mirrortop : forall b w h bits o, wf b w h bits ->
  exists b', mirrortop (mkst b o) = (Ok tt, mkst b' o) /\
    repainted b b' w h bits (fun x y => pixel b w h bits x (Z.min y (h - 1 - y))) /\
    mirrortop (mkst b' o) = (Ok tt, mkst b' o).
Proof.
  intros b w h bits o W. destruct (verttrans_run b w h bits o TT W) as (b' & E & R). exists b'. split; auto. split.
  - eapply repainted_ext; [|exact R]. intros x y _. cbn. f_equal; lia.
  - apply (verttrans_twice b w h bits o TT b' W E).
Qed.
Theorem C16_mirrorbottom : forall b w h bits o, wf b w h bits ->
  exists b', mirrorbottom (mkst b o) = (Ok tt, mkst b' o) /\
    repainted b b' w h bits (fun x y => pixel b w h bits x (Z.max y (h - 1 - y))) /\
    mirrorbottom (mkst b' o) = (Ok tt, mkst b' o).
Proof.
  intros b w h bits o W. destruct (verttrans_run b w h bits o TB W) as (b' & E & R). exists b'. split; auto. split.
  - eapply repainted_ext; [|exact R]. intros x y _. cbn. f_equal; lia.
  - apply (verttrans_twice b w h bits o TB b' W E).
Qed.
Example C16_ex : let r := rows (sample 5 3 4) 5 3 4 in
  rows (after mirrortop (sample 5 3 4)) 5 3 4 = [nth 0 r []; nth 1 r []; nth 0 r []] /\
  rows (after mirrorbottom (sample 5 3 4)) 5 3 4 = [nth 2 r []; nth 1 r []; nth 2 r []] /\ nth 0 r [] <> nth 2 r [].
Proof. split; [vm_compute; reflexivity|split; vm_compute; [reflexivity|discriminate]]. Qed.
Print Assumptions C16_mirrortop.
Print Assumptions C16_mirrorbottom.

(** * C17 *)
Theorem C17_fliphorizontal : forall b w h bits o, wf b w h bits -> 0 < w -> 0 < h ->
  bits = 8 \/ bits = 24 \/ bits = 4 /\ w mod 2 = 0 ->
  exists b', fliphorizontal (mkst b o) = (Ok (Some tt), mkst b' o) /\
    repainted b b' w h bits (fun x y => pixel b w h bits (w - 1 - x) y) /\
    fliphorizontal (mkst b' o) = (Ok (Some tt), mkst b o).
Proof.
  intros b w h bits o W Hw Hh HB.
  assert (F : flippable HF bits 0 (w - 1)).
  { unfold flippable. destruct HB as [H|[H|(H & H2)]]; auto. right. right. split; auto. split; auto.
    split; [|now left]. pose proof (Z.div_mod w 2 ltac:(lia)). rewrite (Z.mod_eq (w - 1) 2) by lia.
    replace (w - 1) with (1 + (w / 2 - 1) * 2) at 2 by lia. rewrite Z.div_add by lia. change (1 / 2) with 0. lia. }
  destruct (hop_whole b w h bits o HF W Hw Hh F) as (b' & E & R).
  exists b'. unfold fliphorizontal. rewrite (whole_run b w h bits) by auto. split; auto. split.
  - eapply repainted_ext; [|exact R]. intros x y _. cbn. f_equal; lia.
  - rewrite (whole_run b' w h bits) by apply R. cbn [hopfun] in E.
    apply (hflip_twice b w h bits o 0 0 (w - 1) (h - 1)); auto; try (unfold inside; lia).
    replace (lo 0 (w - 1)) with 0 by (unfold lo; lia). replace (hi 0 (w - 1)) with (w - 1) by (unfold hi; lia). auto.
Qed.
Theorem C17_empty : forall b w h bits o, wf b w h bits -> w = 0 \/ h = 0 ->
  fliphorizontal (mkst b o) = (Ok None, mkst b (o ++ [Mregionoutofbounds])).
Proof.
  intros b w h bits o W H. unfold fliphorizontal. rewrite (whole_run b w h bits) by auto.
  apply (hop_out b w h bits o HF); auto. unfold inside. lia.
Qed.
Theorem C17_4bit_odd_refuted : exists b w h, wf b w h 4 /\ exists x y, inside w h x y /\
  pixel (after fliphorizontal b) w h 4 x y <> pixel b w h 4 (w - 1 - x) y.
Proof.
  exists (sample 5 3 4), 5, 3. split; [apply sample4_wf|]. exists 0, 0. split; [unfold inside; lia|].
  vm_compute. discriminate.
Qed.
Theorem C17_1bit_refuted : exists b w h, wf b w h 1 /\ w mod 8 = 0 /\ exists x y, inside w h x y /\
  pixel (after fliphorizontal b) w h 1 x y <> pixel b w h 1 (w - 1 - x) y.
Proof.
  exists (after (plotxybit 7 0 1) (blank 8 1 1)), 8, 1. split; [concrete_wf|]. split; [reflexivity|].
  exists 0, 0. split; [unfold inside; lia|]. vm_compute. discriminate.
Qed.
Example C17_ex : rows (after fliphorizontal (sample24 5 3)) 5 3 24 = map (@rev Z) (rows (sample24 5 3) 5 3 24) /\
  wf (sample 6 3 4) 6 3 4 /\ rows (after fliphorizontal (sample 6 3 4)) 6 3 4 = map (@rev Z) (rows (sample 6 3 4) 6 3 4).
Proof. split; [vm_compute; reflexivity|split; [concrete_wf|vm_compute; reflexivity]]. Qed.
Print Assumptions C17_fliphorizontal.
Print Assumptions C17_empty.
Print Assumptions C17_4bit_odd_refuted.
Print Assumptions C17_1bit_refuted.

(** * C18 *)
Theorem C18_invert : forall b w h bits o, wf b w h bits ->
  exists b', invertimagebits (mkst b o) = (Ok tt, mkst b' o) /\
    repainted b b' w h bits (fun x y => 2 ^ bits - 1 - pixel b w h bits x y) /\
    invertimagebits (mkst b' o) = (Ok tt, mkst b o).
Proof.
  intros b w h bits o W. destruct (invertimagebits_run b w h bits o W) as (b' & E & R).
  exists b'. split; auto. split; auto. eapply invertimagebits_twice; eauto.
Qed.
Example C18_ex : rows (after invertimagebits (sample 5 3 8)) 5 3 8 = map (map (fun v => 255 - v)) (rows (sample 5 3 8) 5 3 8).
Proof. vm_compute; reflexivity. Qed.
Print Assumptions C18_invert.

(** * C19 *)
Theorem C19_invertregion : forall b w h bits o x1 y1 x2 y2, wf b w h bits ->
  inside w h x1 y1 -> inside w h x2 y2 ->
  exists b', invertregion x1 y1 x2 y2 (mkst b o) = (Ok (Some tt), mkst b' o) /\
    repainted b b' w h bits (fun x y =>
      if in_box x1 y1 x2 y2 x y then 2 ^ bits - 1 - pixel b w h bits x y else pixel b w h bits x y).
Proof. exact invertregion_run. Qed.
Theorem C19_twice : forall b w h bits o x1 y1 x2 y2, wf b w h bits ->
  inside w h x1 y1 -> inside w h x2 y2 ->
  exists b1 b2, invertregion x1 y1 x2 y2 (mkst b o) = (Ok (Some tt), mkst b1 o) /\
    invertregion x1 y1 x2 y2 (mkst b1 o) = (Ok (Some tt), mkst b2 o) /\
    repainted b b2 w h bits (pixel b w h bits).
Proof.
  intros b w h bits o x1 y1 x2 y2 W I1 I2.
  destruct (C19_invertregion b w h bits o x1 y1 x2 y2 W I1 I2) as (b1 & E1 & R1).
  destruct (C19_invertregion b1 w h bits o x1 y1 x2 y2 (repainted_wf _ _ _ _ _ _ R1) I1 I2) as (b2 & E2 & R2).
  exists b1, b2. split; auto. split; auto. eapply repainted_trans; [exact R1|].
  eapply repainted_ext; [|exact R2]. intros x y Hin. cbn beta. rewrite (proj2 (proj2 R1)) by auto.
  destruct (in_box x1 y1 x2 y2 x y); lia.
Qed.
Theorem C19_outside : forall b w h bits o x1 y1 x2 y2, wf b w h bits ->
  ~ (inside w h x1 y1 /\ inside w h x2 y2) ->
  invertregion x1 y1 x2 y2 (mkst b o) = (Ok None, mkst b (o ++ [Mregionoutofbounds])).
Proof. exact invertregion_out. Qed.
Example C19_ex : rows (after (invertregion 3 2 1 1) (blank 5 3 4)) 5 3 4 = [[0;0;0;0;0]; [0;15;15;15;0]; [0;15;15;15;0]] /\
  inside 5 3 3 2 /\ ~ (inside 5 3 5 0 /\ inside 5 3 1 1).
Proof. split; [vm_compute; reflexivity|unfold inside; lia]. Qed.
Print Assumptions C19_invertregion.
Print Assumptions C19_twice.
Print Assumptions C19_outside.

(** * C20 *)
Theorem C20_crop : forall b w h bits o x1 y1 x2 y2, wf b w h bits ->
  inside w h x1 y1 -> inside w h x2 y2 ->
  exists nb, crop x1 y1 x2 y2 (mkst b o) = (Ok (Some nb), mkst b o) /\
    let w' := Z.abs (x2 - x1) + 1 in let h' := Z.abs (y2 - y1) + 1 in
    wf nb w' h' bits /\
    (forall i j, inside w' h' i j ->
       pixel nb w' h' bits i j = pixel b w h bits (Z.min x1 x2 + i) (Z.min y1 y2 + j)) /\
    (bits < 8 -> forall i, 0 <= i < 2 ^ bits -> pal_entry nb i = pal_entry b i) /\
    (bits = 8 -> getallRGBpal nb = getdefaultbitpal 8).
Proof.
  intros b w h bits o x1 y1 x2 y2 W I1 I2. cbv zeta.
  destruct (crop_run b w h bits o x1 y1 x2 y2 W I1 I2) as (nb & E & Wn & P & P1 & P8).
  replace (hi x1 x2 - lo x1 x2 + 1) with (Z.abs (x2 - x1) + 1) in * by (unfold hi, lo; lia).
  replace (hi y1 y2 - lo y1 y2 + 1) with (Z.abs (y2 - y1) + 1) in * by (unfold hi, lo; lia).
  exists nb. split; auto. split; auto. split; auto. split; auto.
  intros H. destruct (P8 H) as (pal & E1 & E2). congruence.
Qed.
Theorem C20_outside : forall b w h bits o x1 y1 x2 y2, wf b w h bits ->
  ~ (inside w h x1 y1 /\ inside w h x2 y2) ->
  crop x1 y1 x2 y2 (mkst b o) = (Ok None, mkst b (o ++ [Mregionoutofbounds])).
Proof. exact crop_out. Qed.
Theorem C20_palette_refuted : exists b w h nb i, wf b w h 8 /\ crop 0 0 1 1 (mkst b []) = (Ok (Some nb), mkst b []) /\
  0 <= i < 256 /\ pal_entry nb i <> pal_entry b i.
Proof.
  exists (after (setRGBpal 0 1 2 3) (sample 5 3 8)), 5, 3. eexists. exists 0.
  split; [concrete_wf|]. split; [vm_compute; reflexivity|]. split; [lia|]. vm_compute. discriminate.
Qed.
Example C20_ex : match outcome (crop 3 2 1 1) (sample 5 3 4) with
  | Ok (Some nb) => rows nb 3 2 4 = map (fun r => firstn 3 (skipn 1 r)) (skipn 1 (rows (sample 5 3 4) 5 3 4))
  | _ => False end.
Proof. vm_compute; reflexivity. Qed.
Print Assumptions C20_crop.
Print Assumptions C20_outside.
Print Assumptions C20_palette_refuted.

(** * C21 *)
Theorem C21_flipXY : forall b w h bits o, wf b w h bits -> 0 < w -> 0 < h ->
  exists nb, flipXY (mkst b o) = (Ok nb, mkst b o) /\ wf nb h w bits /\
    (bits < 8 -> forall x y, inside w h x y -> pixel nb h w bits y x = pixel b w h bits x y) /\
    (8 <= bits -> forall x y, inside w h x y -> pixel nb h w bits (h - 1 - y) (w - 1 - x) = pixel b w h bits x y) /\
    (bits <> 24 -> forall i, 0 <= i < 2 ^ bits -> pal_entry nb i = pal_entry b i).
Proof.
  intros b w h bits o W Hw Hh. destruct (flipXY_run b w h bits W Hw Hh o) as (nb & E & Wn & P & Q).
  exists nb. split; auto. split; auto. unfold fx, fy in P. split; [|split; auto].
  - intros Hb x y Hin. specialize (P x y Hin). now replace (bits <? 8) with true in P by lia.
  - intros Hb x y Hin. specialize (P x y Hin). now replace (bits <? 8) with false in P by lia.
Qed.
Theorem C21_twice : forall b w h bits o, wf b w h bits -> 0 < w -> 0 < h ->
  exists nb b2, flipXY (mkst b o) = (Ok nb, mkst b o) /\ flipXY (mkst nb o) = (Ok b2, mkst nb o) /\
    wf b2 w h bits /\ forall x y, inside w h x y -> pixel b2 w h bits x y = pixel b w h bits x y.
Proof.
  intros b w h bits o W Hw Hh. destruct (flipXY_run b w h bits W Hw Hh o) as (nb & E & Wn & P & _).
  destruct (flipXY_run nb h w bits Wn Hh Hw o) as (b2 & E2 & W2 & P2 & _).
  exists nb, b2. split; auto. split; auto. split; auto. intros x y (Hx & Hy).
  rewrite <- P by (split; auto). unfold fx, fy in *. destruct (bits <? 8).
  - rewrite <- P2 by (split; auto). reflexivity.
  - rewrite <- P2 by (split; lia). f_equal; lia.
Qed.
Example C21_ex : match outcome flipXY (sample24 3 2) with
  | Ok nb => rows nb 2 3 24 = (let p := pixel (sample24 3 2) 3 2 24 in [[p 2 1; p 2 0]; [p 1 1; p 1 0]; [p 0 1; p 0 0]])
  | _ => False end.
Proof. vm_compute; reflexivity. Qed.
Print Assumptions C21_flipXY.
Print Assumptions C21_twice.

(** * C29 *)
Theorem C29_upgrade : forall b w h bits o, wf b w h bits -> bits <> 24 -> 0 < w -> 0 < h -> (w * bits) mod 8 = 0 ->
  exists nb, upgradeto24bitimage (mkst b o) = (Ok nb, mkst b o) /\ wf nb w h 24 /\
    forall x y, inside w h x y ->
      let '(red, green, blue) := pal_entry b (pixel b w h bits x y) in
      pixel nb w h 24 x y = blue + 256 * green + 65536 * red.
Proof.
  intros b w h bits o W N Hw Hh HA. destruct (upgrade_run b w h bits W N HA o Hw Hh) as (nb & E & Wn & P).
  exists nb. split; [exact E|]. split; [exact Wn|]. intros x y Hin. specialize (P x y Hin).
  destruct (pal_entry b (pixel b w h bits x y)) as [[r g] bl]. exact P.
Qed.
Theorem C29_24bit : forall b w h o, wf b w h 24 ->
  upgradeto24bitimage (mkst b o) = (Ok b, mkst b (o ++ [Mis24bit])).
Proof. exact upgrade_24. Qed.
Theorem C29_4bit_odd_refuted : exists b w h nb o', wf b w h 4 /\
  upgradeto24bitimage (mkst b []) = (Ok nb, mkst b o') /\
  exists x y, inside w h x y /\
      let '(red, green, blue) := pal_entry b (pixel b w h 4 x y) in
      pixel nb w h 24 x y <> blue + 256 * green + 65536 * red.
Proof.
  exists (sample 5 3 4), 5, 3. do 2 eexists. split; [apply sample4_wf|]. split; [vm_compute; reflexivity|].
  exists 4, 0. split; [unfold inside; lia|]. vm_compute. discriminate.
Qed.
Theorem C29_1bit_refuted : exists b w h nb o', wf b w h 1 /\
  upgradeto24bitimage (mkst b []) = (Ok nb, mkst b o') /\
  exists x y, inside w h x y /\
      let '(red, green, blue) := pal_entry b (pixel b w h 1 x y) in
      pixel nb w h 24 x y <> blue + 256 * green + 65536 * red.
Proof.
  exists (sample 11 3 1), 11, 3. do 2 eexists. split; [apply sample1_wf|]. split; [vm_compute; reflexivity|].
  exists 8, 0. split; [unfold inside; lia|]. vm_compute. discriminate.
Qed.
Example C29_ex : wf (sample 5 3 8) 5 3 8 /\ wf (sample 6 3 4) 6 3 4 /\ wf (sample 8 2 1) 8 2 1 /\
  match outcome upgradeto24bitimage (sample 6 1 4) with
  | Ok nb => pixel nb 6 1 24 1 0 = 12632256 | _ => False end.
Proof. split; [apply sample8_wf|split; [concrete_wf|split; [concrete_wf|vm_compute; reflexivity]]]. Qed.
Print Assumptions C29_upgrade.
Print Assumptions C29_24bit.
Print Assumptions C29_4bit_odd_refuted.
Print Assumptions C29_1bit_refuted.

(** * C30 *)
Theorem C30_copy_paste : forall b w h bits o x1 y1 x2 y2 c w' h' px py,
  wf b w h bits -> wf c w' h' bits -> inside w h x1 y1 -> inside w h x2 y2 ->
  let xa := Z.min x1 x2 in let ya := Z.min y1 y2 in
  let cols := Z.abs (x2 - x1) + 1 in let rws := Z.abs (y2 - y1) + 1 in
  (* the rectangle and the destination column lie on byte boundaries (always so for 8 and 24 bit) *)
  (xa * bits) mod 8 = 0 -> (cols * bits) mod 8 = 0 -> (px * bits) mod 8 = 0 ->
  cols * bits < 8 * 256 -> rws < 256 ->
  0 <= px -> px + cols <= w' -> 0 <= py -> py + rws < h' ->
  exists buf c', copyrect x1 y1 x2 y2 (mkst b o) = (Ok (Some buf), mkst b o) /\
    pasterect buf px py (mkst c o) = (Ok tt, mkst c' o) /\
    repainted c c' w' h' bits (fun x y =>
      if ((px <=? x) && (x <? px + cols)) && ((py + 1 <=? y) && (y <? py + 1 + rws))
      then pixel b w h bits (xa + (x - px)) (ya + (y - (py + 1)))
      else pixel c w' h' bits x y).
Proof.
  intros b w h bits o x1 y1 x2 y2 c w' h' px py W Wc I1 I2 xa ya cols rws A1 A2 A3 Hc Hr P1 P2 P3 P4.
  assert (X : hi x1 x2 = xa + cols - 1) by (unfold hi, xa, cols; lia).
  assert (Y : hi y1 y2 = ya + rws - 1) by (unfold hi, ya, rws; lia).
  assert (HA : byte_aligned bits (lo x1 x2) (hi x1 x2)).
  { unfold byte_aligned. change (lo x1 x2) with xa. rewrite X. split; auto.
    replace ((xa + cols - 1 + 1) * bits) with (xa * bits + cols * bits) by ring.
    apply Z.mod_divide in A1, A2; try lia. apply Z.mod_divide; [lia|]. now apply Z.divide_add_r. }
  destruct (copyrect_run b w h bits o x1 y1 x2 y2 W I1 I2 HA) as (buf & E & C).
  assert (N : (hi x1 x2 + 1) * bits / 8 - lo x1 x2 * bits / 8 < 256).
  { change (lo x1 x2) with xa. rewrite X.
    replace ((xa + cols - 1 + 1) * bits) with (xa * bits + cols * bits) by ring.
    pose proof (Z.div_mod (xa * bits) 8 ltac:(lia)). rewrite A1 in *.
    replace (xa * bits + cols * bits) with (cols * bits + xa * bits / 8 * 8) by lia. rewrite Z.div_add by lia.
    pose proof (Z.div_lt_upper_bound (cols * bits) 8 256 ltac:(lia) ltac:(lia)). lia. }
  destruct (paste_run b w h bits x1 y1 x2 y2 buf W I1 I2 HA C c w' h' px py Wc o N) as (c' & E' & R); auto;
    try (change (lo x1 x2) with xa; change (lo y1 y2) with ya; rewrite ?X, ?Y; lia).
  exists buf, c'. split; auto. split; auto. eapply repainted_ext; [|exact R]. intros x y _. cbn beta.
  change (lo x1 x2) with xa. change (lo y1 y2) with ya. rewrite X, Y.
  replace (px + (xa + cols - 1 - xa + 1)) with (px + cols) by lia.
  replace (py + 1 + (ya + rws - 1 - ya + 1)) with (py + 1 + rws) by lia. reflexivity.
Qed.
Theorem C30_never_ends : forall b w h bits o x1 y1 x2 y2 c w' h' px py fuel,
  wf b w h bits -> wf c w' h' bits -> inside w h x1 y1 -> inside w h x2 y2 ->
  let xa := Z.min x1 x2 in let cols := Z.abs (x2 - x1) + 1 in
  (xa * bits) mod 8 = 0 -> (cols * bits) mod (8 * 256) = 0 ->
  exists buf s', copyrect x1 y1 x2 y2 (mkst b o) = (Ok (Some buf), mkst b o) /\
    pasterect_fuel fuel buf px py (mkst c o) = (Err Diverges, s').
Proof.
  intros b w h bits o x1 y1 x2 y2 c w' h' px py fuel W Wc I1 I2 xa cols A1 A2.
  assert (X : hi x1 x2 = xa + cols - 1) by (unfold hi, xa, cols; lia).
  pose proof (Z.div_mod (cols * bits) (8 * 256) ltac:(lia)) as D. rewrite A2 in D.
  set (q := cols * bits / (8 * 256)) in *. clearbody q.
  assert (HA : byte_aligned bits (lo x1 x2) (hi x1 x2)).
  { unfold byte_aligned. change (lo x1 x2) with xa. rewrite X. split; auto.
    replace ((xa + cols - 1 + 1) * bits) with (xa * bits + q * 256 * 8) by lia.
    rewrite Z.mod_add by lia. auto. }
  destruct (copyrect_run b w h bits o x1 y1 x2 y2 W I1 I2 HA) as (buf & E & C).
  exists buf. destruct (paste_forever b w h bits x1 y1 x2 y2 buf W I1 I2 HA C c w' h' px py Wc fuel o) as (s' & E').
  { change (lo x1 x2) with xa. rewrite X.
    replace ((xa + cols - 1 + 1) * bits) with (xa * bits + q * 256 * 8) by lia.
    rewrite Z.div_add by lia. replace (xa * bits / 8 + q * 256 - xa * bits / 8) with (q * 256) by lia.
    apply Z.mod_mul. lia. }
  exists s'. split; auto.
Qed.
(** Pasting a copy back where it came from does not restore the image *)
Theorem C30_in_place_refuted : exists b w h buf, wf b w h 8 /\
  copyrect 1 0 2 0 (mkst b []) = (Ok (Some buf), mkst b []) /\
  exists x y, inside w h x y /\ pixel (after (pasterect buf 1 0) b) w h 8 x y <> pixel b w h 8 x y.
Proof.
  exists (sample 5 3 8), 5, 3. eexists. split; [apply sample8_wf|]. split; [vm_compute; reflexivity|].
  exists 1, 1. split; [unfold inside; lia|]. vm_compute. discriminate.
Qed.
Example C30_ex : match outcome (copyrect 2 1 1 0) (sample 5 3 8) with
  | Ok (Some buf) => rows (after (pasterect buf 3 0) (blank 5 3 8)) 5 3 8 = [[0;0;0;0;0]; [0;0;0;8;15]; [0;0;0;21;28]]
  | _ => False end.
Proof. vm_compute; reflexivity. Qed.
Example C30_ex2 : let b := blank 256 1 8 in wf b 256 1 8 /\ inside 256 1 0 0 /\ inside 256 1 255 0 /\
  (Z.min 0 255 * 8) mod 8 = 0 /\ ((Z.abs (255 - 0) + 1) * 8) mod (8 * 256) = 0.
Proof. split; [concrete_wf|]. split; [unfold inside; lia|]. split; [unfold inside; lia|]. split; reflexivity. Qed.
Print Assumptions C30_copy_paste.
Print Assumptions C30_never_ends.
Print Assumptions C30_in_place_refuted.

(** * C37 *)
(** the pixel in column x of a row whose bytes all equal v *)
Definition uniform_pixel (bits v x : Z) : Z :=
  if bits =? 24 then v + 256 * v + 65536 * v else (v / 2 ^ (8 - bits - (x * bits) mod 8)) mod 2 ^ bits.
Theorem C37_erase : forall b w h bits o n k pat, wf b w h bits -> n <> 0 ->
  exists b', erasealternatehorizontallines n k pat (mkst b o) = (Ok tt, mkst b' o) /\
    repainted b b' w h bits (fun x y =>
      if (y <? h - 1) && ((y + 1) mod n =? k) then uniform_pixel bits (pat mod 256) x else pixel b w h bits x y).
Proof. exact erase_run. Qed.
Theorem C37_nth : forall b w h bits o n, wf b w h bits -> n <> 0 ->
  exists b', eraseeverynthhorizontalline n (mkst b o) = (Ok tt, mkst b' o) /\
    repainted b b' w h bits (fun x y =>
      if (y <? h - 1) && ((y + 1) mod n =? 0) then 0 else pixel b w h bits x y).
Proof.
  intros b w h bits o n W Hn. destruct (C37_erase b w h bits o n 0 0 W Hn) as (b' & E & R).
  exists b'. split; auto. eapply repainted_ext; [|exact R]. intros x y _. cbn beta.
  destruct (_ && _); auto. unfold uniform_pixel. destruct (bits =? 24); auto.
Qed.
Theorem C37_zero : forall b w h bits o k pat, wf b w h bits -> 1 < h -> 0 < w ->
  erasealternatehorizontallines 0 k pat (mkst b o) = (Err ZeroDivisionError, mkst b o).
Proof. exact erase_zero. Qed.
Theorem C37_region : forall b w h bits o x1 y1 x2 y2 n k pat, wf b w h bits -> n <> 0 ->
  inside w h x1 y1 -> inside w h x2 y2 ->
  (Z.min x1 x2 * bits) mod 8 = 0 -> ((Z.max x1 x2 + 1) * bits) mod 8 = 0 ->
  exists b', erasealternatehorizontallinesinregion x1 y1 x2 y2 n k pat (mkst b o) = (Ok (Some tt), mkst b' o) /\
    repainted b b' w h bits (fun x y =>
      if in_box x1 y1 x2 y2 x y && ((y <? Z.max y1 y2) && ((y - Z.min y1 y2 + 1) mod n =? k))
      then uniform_pixel bits (pat mod 256) x else pixel b w h bits x y).
Proof. intros. apply eraseregion_run; auto. split; auto. Qed.
(** the bottom row is selected (every line, n = 1) and stays *)
Theorem C37_bottom_row_refuted : exists b w h, wf b w h 8 /\ 0 < w /\
  pixel (after (eraseeverynthhorizontalline 1) b) w h 8 0 (h - 1) <> 0.
Proof. exists (sample 5 3 8), 5, 3. split; [apply sample8_wf|]. split; [lia|]. vm_compute. discriminate. Qed.
Example C37_ex : rows (after (erasealternatehorizontallines 2 1 255) (sample 5 4 8)) 5 4 8 =
  [[255;255;255;255;255]; [14;21;28;35;42]; [255;255;255;255;255]; [40;47;54;61;68]].
Proof. vm_compute; reflexivity. Qed.
Print Assumptions C37_erase.
Print Assumptions C37_nth.
Print Assumptions C37_zero.
Print Assumptions C37_region.
Print Assumptions C37_bottom_row_refuted.

(** * C41 *)
(** bitmaps and column ranges for which mirroring works: whole bytes, and an
    even number of them for 4 bit *)
Theorem C41_mirrorleft : forall b w h bits o, wf b w h bits -> 0 < w -> 0 < h ->
  bits = 8 \/ bits = 24 \/ bits = 4 /\ w mod 4 = 0 ->
  exists b', mirrorleft (mkst b o) = (Ok (Some tt), mkst b' o) /\
    repainted b b' w h bits (fun x y => pixel b w h bits (Z.min x (w - 1 - x)) y).
Proof.
  intros b w h bits o W Hw Hh HB.
  assert (F : flippable HL bits 0 (w - 1)).
  { unfold flippable. destruct HB as [H|[H|(H & H2)]]; auto. right. right. split; auto. split; auto.
    pose proof (Z.div_mod w 4 ltac:(lia)). split; [|right; replace (w - 1 - 0 + 1) with w by lia; auto].
    replace (w - 1) with (1 + (2 * (w / 4) - 1) * 2) by lia. rewrite Z.mod_add by lia. reflexivity. }
  destruct (hop_whole b w h bits o HL W Hw Hh F) as (b' & E & R).
  exists b'. unfold mirrorleft. rewrite (whole_run b w h bits) by auto. split; [exact E|].
  eapply repainted_ext; [|exact R]. intros x y _. cbn. f_equal; lia.
Qed.
Theorem C41_mirrorright : forall b w h bits o, wf b w h bits -> 0 < w -> 0 < h ->
  bits = 8 \/ bits = 24 \/ bits = 4 /\ w mod 4 = 0 ->
  exists b', mirrorright (mkst b o) = (Ok (Some tt), mkst b' o) /\
    repainted b b' w h bits (fun x y => pixel b w h bits (Z.max x (w - 1 - x)) y).
Proof.
  intros b w h bits o W Hw Hh HB.
  assert (F : flippable HR bits 0 (w - 1)).
  { unfold flippable. destruct HB as [H|[H|(H & H2)]]; auto. right. right. split; auto. split; auto.
    pose proof (Z.div_mod w 4 ltac:(lia)). split; [|right; replace (w - 1 - 0 + 1) with w by lia; auto].
    replace (w - 1) with (1 + (2 * (w / 4) - 1) * 2) by lia. rewrite Z.mod_add by lia. reflexivity. }
  destruct (hop_whole b w h bits o HR W Hw Hh F) as (b' & E & R).
  exists b'. unfold mirrorright. rewrite (whole_run b w h bits) by auto. split; [exact E|].
  eapply repainted_ext; [|exact R]. intros x y _. cbn. f_equal; lia.
Qed.
Theorem C41_4bit_refuted : exists b w h, wf b w h 4 /\ w mod 2 = 0 /\ exists x y, inside w h x y /\
  pixel (after mirrorleft b) w h 4 x y <> pixel b w h 4 (Z.min x (w - 1 - x)) y.
Proof.
  exists (sample 6 1 4), 6, 1. split; [concrete_wf|]. split; [reflexivity|]. exists 2, 0.
  split; [unfold inside; lia|]. vm_compute. discriminate.
Qed.
Example C41_ex : rows (after mirrorleft (sample 5 1 8)) 5 1 8 = [[1;8;15;8;1]] /\
  rows (after mirrorright (sample 4 1 4)) 4 1 4 = [[6;15;15;6]].
Proof. split; vm_compute; reflexivity. Qed.
Print Assumptions C41_mirrorleft.
Print Assumptions C41_mirrorright.
Print Assumptions C41_4bit_refuted.

(** * C42 *)
Theorem C42_vertical : forall b w h bits o x1 y1 x2 y2, wf b w h bits ->
  inside w h x1 y1 -> inside w h x2 y2 ->
  (Z.min x1 x2 * bits) mod 8 = 0 -> ((Z.max x1 x2 + 1) * bits) mod 8 = 0 ->
  let m y := Z.min y1 y2 + Z.max y1 y2 - y in
  let box := in_box x1 y1 x2 y2 in
  let p := pixel b w h bits in
  exists b1 b2 b3,
    flipverticalregion x1 y1 x2 y2 (mkst b o) = (Ok (Some tt), mkst b1 o) /\
    mirrortopinregion x1 y1 x2 y2 (mkst b o) = (Ok (Some tt), mkst b2 o) /\
    mirrorbottominregion x1 y1 x2 y2 (mkst b o) = (Ok (Some tt), mkst b3 o) /\
    repainted b b1 w h bits (fun x y => if box x y then p x (m y) else p x y) /\
    repainted b b2 w h bits (fun x y => if box x y then p x (Z.min y (m y)) else p x y) /\
    repainted b b3 w h bits (fun x y => if box x y then p x (Z.max y (m y)) else p x y).
Proof.
  intros b w h bits o x1 y1 x2 y2 W I1 I2 A1 A2 m box p.
  destruct (verttransregion_run b w h bits o TF x1 y1 x2 y2 W I1 I2 (conj A1 A2)) as (b1 & E1 & R1).
  destruct (verttransregion_run b w h bits o TT x1 y1 x2 y2 W I1 I2 (conj A1 A2)) as (b2 & E2 & R2).
  destruct (verttransregion_run b w h bits o TB x1 y1 x2 y2 W I1 I2 (conj A1 A2)) as (b3 & E3 & R3).
  exists b1, b2, b3. do 3 (split; [assumption|]). split; [exact R1|]. split; [exact R2|exact R3].
Qed.
Theorem C42_horizontal : forall b w h bits o x1 y1 x2 y2, wf b w h bits ->
  inside w h x1 y1 -> inside w h x2 y2 ->
  bits = 8 \/ bits = 24 \/ bits = 4 /\ (Z.min x1 x2) mod 2 = 0 /\ (Z.max x1 x2) mod 2 = 1 ->
  let m x := Z.min x1 x2 + Z.max x1 x2 - x in
  exists b1, fliphorizontalregion x1 y1 x2 y2 (mkst b o) = (Ok (Some tt), mkst b1 o) /\
    repainted b b1 w h bits (fun x y =>
      if in_box x1 y1 x2 y2 x y then pixel b w h bits (m x) y else pixel b w h bits x y) /\
    fliphorizontalregion x1 y1 x2 y2 (mkst b1 o) = (Ok (Some tt), mkst b o).
Proof.
  intros b w h bits o x1 y1 x2 y2 W I1 I2 HB m.
  assert (F : flippable HF bits (lo x1 x2) (hi x1 x2)) by (unfold flippable, lo, hi; tauto).
  destruct (hop_run b w h bits o HF x1 y1 x2 y2 W I1 I2 F) as (b1 & E1 & R1).
  exists b1. split; [exact E1|]. split; [exact R1|]. apply (hflip_twice b w h bits); auto.
Qed.
Theorem C42_mirror : forall b w h bits o x1 y1 x2 y2, wf b w h bits ->
  inside w h x1 y1 -> inside w h x2 y2 ->
  bits = 8 \/ bits = 24 \/
    bits = 4 /\ (Z.min x1 x2) mod 2 = 0 /\ (Z.max x1 x2) mod 2 = 1 /\ (Z.max x1 x2 - Z.min x1 x2 + 1) mod 4 = 0 ->
  let m x := Z.min x1 x2 + Z.max x1 x2 - x in
  let box := in_box x1 y1 x2 y2 in
  let p := pixel b w h bits in
  exists b1 b2,
    mirrorleftinregion x1 y1 x2 y2 (mkst b o) = (Ok (Some tt), mkst b1 o) /\
    mirrorrightinregion x1 y1 x2 y2 (mkst b o) = (Ok (Some tt), mkst b2 o) /\
    repainted b b1 w h bits (fun x y => if box x y then p (Z.min x (m x)) y else p x y) /\
    repainted b b2 w h bits (fun x y => if box x y then p (Z.max x (m x)) y else p x y).
Proof.
  intros b w h bits o x1 y1 x2 y2 W I1 I2 HB m box p.
  assert (F : forall op, flippable op bits (lo x1 x2) (hi x1 x2)) by (intros op; unfold flippable, lo, hi; tauto).
  destruct (hop_run b w h bits o HL x1 y1 x2 y2 W I1 I2 (F _)) as (b1 & E1 & R1).
  destruct (hop_run b w h bits o HR x1 y1 x2 y2 W I1 I2 (F _)) as (b2 & E2 & R2).
  exists b1, b2. do 2 (split; [assumption|]). split; [exact R1|exact R2].
Qed.
Theorem C42_outside : forall b w h bits o x1 y1 x2 y2, wf b w h bits ->
  ~ (inside w h x1 y1 /\ inside w h x2 y2) ->
  forall f, In f [flipverticalregion; mirrortopinregion; mirrorbottominregion;
                  fliphorizontalregion; mirrorleftinregion; mirrorrightinregion] ->
  f x1 y1 x2 y2 (mkst b o) = (Ok None, mkst b (o ++ [Mregionoutofbounds])).
Proof.
  intros b w h bits o x1 y1 x2 y2 W N f Hf.
  pose proof (fun op => hop_out b w h bits o op x1 y1 x2 y2 W N) as G1.
  pose proof (fun t => verttransregion_out b w h bits o t x1 y1 x2 y2 W N) as G2.
  cbn [In] in Hf. destruct Hf as [<-|[<-|[<-|[<-|[<-|[<-|[]]]]]]].
  - exact (G2 TF). - exact (G2 TT). - exact (G2 TB). - exact (G1 HF). - exact (G1 HL). - exact (G1 HR).
Qed.
(** a 4-bit rectangle that does not start on a byte *)
Theorem C42_unaligned_refuted : exists b w h x1 y1 x2 y2, wf b w h 4 /\ inside w h x1 y1 /\ inside w h x2 y2 /\
  exists x y, inside w h x y /\ in_box x1 y1 x2 y2 x y = false /\
    pixel (after (flipverticalregion x1 y1 x2 y2) b) w h 4 x y <> pixel b w h 4 x y.
Proof.
  exists (sample 5 3 4), 5, 3, 1, 0, 2, 2. split; [apply sample4_wf|]. split; [unfold inside; lia|]. split; [unfold inside; lia|].
  exists 0, 0. split; [unfold inside; lia|]. split; [reflexivity|]. vm_compute. discriminate.
Qed.
Example C42_ex : rows (after (flipverticalregion 3 2 1 0) (sample 5 3 8)) 5 3 8 =
    [[1;34;41;48;29]; [14;21;28;35;42]; [27;8;15;22;55]] /\
  rows (after (fliphorizontalregion 1 0 3 1) (sample 5 3 8)) 5 3 8 =
    [[1;22;15;8;29]; [14;35;28;21;42]; [27;34;41;48;55]] /\
  rows (after (mirrorleftinregion 1 0 3 0) (sample 5 3 8)) 5 3 8 =
    [[1;8;15;8;29]; [14;21;28;35;42]; [27;34;41;48;55]].
Proof. split; [|split]; vm_compute; reflexivity. Qed.
Print Assumptions C42_vertical.
Print Assumptions C42_horizontal.
Print Assumptions C42_mirror.
Print Assumptions C42_outside.
Print Assumptions C42_unaligned_refuted.

(** * C43 *)
Theorem C43_pixel_flips : forall b w h bits o x1 y1 x2 y2, wf b w h bits ->
  inside w h x1 y1 -> inside w h x2 y2 -> x1 <= x2 -> y1 <= y2 ->
  exists b1 b2,
    fliphorzontalpixelbased x1 y1 x2 y2 (mkst b o) = (Ok (Some tt), mkst b1 o) /\
    fliphverticalalpixelbased x1 y1 x2 y2 (mkst b o) = (Ok (Some tt), mkst b2 o) /\
    repainted b b1 w h bits (fun x y =>
      if in_box x1 y1 x2 y2 x y then pixel b w h bits (x1 + x2 - x) y else pixel b w h bits x y) /\
    repainted b b2 w h bits (fun x y =>
      if in_box x1 y1 x2 y2 x y then pixel b w h bits x (y1 + y2 - y) else pixel b w h bits x y).
Proof.
  intros b w h bits o x1 y1 x2 y2 W I1 I2 Hx Hy.
  destruct (pixfliph_run b w h bits x1 y1 x2 y2 W I1 I2 Hx Hy o) as (b1 & E1 & R1).
  destruct (pixflipv_run b w h bits x1 y1 x2 y2 W I1 I2 Hx Hy o) as (b2 & E2 & R2).
  exists b1, b2. do 2 (split; [assumption|]). split; [exact R1|exact R2].
Qed.
Theorem C43_unsorted : forall b w h bits o x1 y1 x2 y2, wf b w h bits ->
  inside w h x1 y1 -> inside w h x2 y2 -> x2 < x1 \/ y2 < y1 ->
  fliphorzontalpixelbased x1 y1 x2 y2 (mkst b o) = (Ok (Some tt), mkst b o) /\
  fliphverticalalpixelbased x1 y1 x2 y2 (mkst b o) = (Ok (Some tt), mkst b o).
Proof. intros. apply (pixflip_none b w h bits); auto. Qed.
Theorem C43_swapcolors : forall b w h bits o x1 y1 x2 y2, wf b w h bits ->
  inside w h x1 y1 -> inside w h x2 y2 ->
  exists b', swapcolors x1 y1 x2 y2 (mkst b o) = (Ok tt, mkst b' o) /\
    repainted b b' w h bits (fun x y =>
      if (x =? x2) && (y =? y2) then pixel b w h bits x1 y1
      else if (x =? x1) && (y =? y1) then pixel b w h bits x2 y2
      else pixel b w h bits x y).
Proof. exact swapcolors_run. Qed.
Example C43_ex : rows (after (fliphorzontalpixelbased 0 0 4 1) (sample 5 2 4)) 5 2 4 =
    map (@rev Z) (rows (sample 5 2 4) 5 2 4) /\
  rows (after (fliphverticalalpixelbased 1 0 2 2) (sample 5 3 8)) 5 3 8 =
    [[1;34;41;22;29]; [14;21;28;35;42]; [27;8;15;48;55]].
Proof. split; vm_compute; reflexivity. Qed.
Print Assumptions C43_pixel_flips.
Print Assumptions C43_unsorted.
Print Assumptions C43_swapcolors.

(** * C44 *)
Lemma mirrorable_whole op bits w : bits = 8 \/ bits = 24 \/ bits = 4 /\ w mod 4 = 0 -> flippable op bits 0 (w - 1).
Proof.
  intros HB. unfold flippable. destruct HB as [H|[H|(H & H2)]]; auto. right. right. split; auto. split; auto.
  pose proof (Z.div_mod w 4 ltac:(lia)). split; [|right; replace (w - 1 - 0 + 1) with w by lia; auto].
  replace (w - 1) with (1 + (2 * (w / 4) - 1) * 2) by lia. rewrite Z.mod_add by lia. reflexivity.
Qed.
Theorem C44_corners : forall b w h bits o, wf b w h bits -> 0 < w -> 0 < h ->
  bits = 8 \/ bits = 24 \/ bits = 4 /\ w mod 4 = 0 ->
  let p := pixel b w h bits in
  let mx x := w - 1 - x in let my y := h - 1 - y in
  exists b1 b2 b3 b4,
    mirrortopleft (mkst b o) = (Ok tt, mkst b1 o) /\
    mirrortopright (mkst b o) = (Ok tt, mkst b2 o) /\
    mirrorbottomleft (mkst b o) = (Ok tt, mkst b3 o) /\
    mirrorbottomright (mkst b o) = (Ok tt, mkst b4 o) /\
    repainted b b1 w h bits (fun x y => p (Z.min x (mx x)) (Z.min y (my y))) /\
    repainted b b2 w h bits (fun x y => p (Z.max x (mx x)) (Z.min y (my y))) /\
    repainted b b3 w h bits (fun x y => p (Z.min x (mx x)) (Z.max y (my y))) /\
    repainted b b4 w h bits (fun x y => p (Z.max x (mx x)) (Z.max y (my y))).
Proof.
  intros b w h bits o W Hw Hh HB p mx my.
  destruct (corner_top_run b w h bits o HL W Hw Hh (mirrorable_whole _ _ _ HB)) as (b1 & E1 & R1).
  destruct (corner_top_run b w h bits o HR W Hw Hh (mirrorable_whole _ _ _ HB)) as (b2 & E2 & R2).
  destruct (corner_bottom_run b w h bits o HL W Hw Hh (mirrorable_whole _ _ _ HB)) as (b3 & E3 & R3).
  destruct (corner_bottom_run b w h bits o HR W Hw Hh (mirrorable_whole _ _ _ HB)) as (b4 & E4 & R4).
  exists b1, b2, b3, b4. unfold mirrortopleft, mirrortopright, mirrorbottomleft, mirrorbottomright.
  rewrite !(bind_ok _ _ _ _ _ (run_rd _ _ _ _ (wf_rx _ _ _ _ W))), !(bind_ok _ _ _ _ _ (run_rd _ _ _ _ (wf_ry _ _ _ _ W))).
  rewrite !(bind_ok _ _ _ _ _ (run_rd _ _ _ _ (wf_rx _ _ _ _ W))).
  do 4 (split; [assumption|]).
  split; [exact R1|]. split; [exact R2|]. split; [exact R3|exact R4].
Qed.
Theorem C44_region : forall b w h bits o x1 y1 x2 y2, wf b w h bits ->
  inside w h x1 y1 -> inside w h x2 y2 ->
  bits = 8 \/ bits = 24 \/
    bits = 4 /\ (Z.min x1 x2) mod 2 = 0 /\ (Z.max x1 x2) mod 2 = 1 /\ (Z.max x1 x2 - Z.min x1 x2 + 1) mod 4 = 0 ->
  let mx x := Z.min x1 x2 + Z.max x1 x2 - x in
  let my y := Z.min y1 y2 + Z.max y1 y2 - y in
  let p := pixel b w h bits in
  let inbox (f : Z -> Z -> Z) x y := if in_box x1 y1 x2 y2 x y then f x y else p x y in
  exists b1 b2 b3 b4,
    mirrortopleftinregion x1 y1 x2 y2 (mkst b o) = (Ok tt, mkst b1 o) /\
    mirrortoprightinregion x1 y1 x2 y2 (mkst b o) = (Ok tt, mkst b2 o) /\
    mirrorbottomleftinregion x1 y1 x2 y2 (mkst b o) = (Ok tt, mkst b3 o) /\
    mirrorbottomrightinregion x1 y1 x2 y2 (mkst b o) = (Ok tt, mkst b4 o) /\
    repainted b b1 w h bits (inbox (fun x y => p (Z.min x (mx x)) (Z.min y (my y)))) /\
    repainted b b2 w h bits (inbox (fun x y => p (Z.max x (mx x)) (Z.min y (my y)))) /\
    repainted b b3 w h bits (inbox (fun x y => p (Z.min x (mx x)) (Z.max y (my y)))) /\
    repainted b b4 w h bits (inbox (fun x y => p (Z.max x (mx x)) (Z.max y (my y)))).
Proof.
  intros b w h bits o x1 y1 x2 y2 W I1 I2 HB mx my p inbox.
  assert (F : forall op, flippable op bits (lo x1 x2) (hi x1 x2)) by (intros op; unfold flippable, lo, hi; tauto).
  destruct (corner_region_run b w h bits o HL TT x1 y1 x2 y2 W I1 I2 (F _)) as (b1 & E1 & R1).
  destruct (corner_region_run b w h bits o HR TT x1 y1 x2 y2 W I1 I2 (F _)) as (b2 & E2 & R2).
  destruct (corner_region_run b w h bits o HL TB x1 y1 x2 y2 W I1 I2 (F _)) as (b3 & E3 & R3).
  destruct (corner_region_run b w h bits o HR TB x1 y1 x2 y2 W I1 I2 (F _)) as (b4 & E4 & R4).
  exists b1, b2, b3, b4. do 4 (split; [assumption|]).
  split; [exact R1|]. split; [exact R2|]. split; [exact R3|exact R4].
Qed.
Example C44_ex : rows (after mirrorbottomright (sample 5 3 8)) 5 3 8 = [[55;48;41;48;55]; [42;35;28;35;42]; [55;48;41;48;55]] /\
  rows (after (mirrortopleftinregion 1 0 3 2) (sample 5 3 8)) 5 3 8 = [[1;8;15;8;29]; [14;21;28;21;42]; [27;8;15;8;55]].
Proof. split; vm_compute; reflexivity. Qed.
Print Assumptions C44_corners.
Print Assumptions C44_region.

(** * C45 *)
Theorem C45_resize : forall b w h bits o n, wf b w h bits -> 0 < n -> 0 < w -> 0 < h ->
  w * n < 2 ^ 24 -> h * n < 2 ^ 24 -> bits = 8 \/ (bits = 4 \/ bits = 24) /\ w mod 2 = 0 ->
  exists nb, resizeNtimesbigger n (mkst b o) = (Ok nb, mkst b o) /\ wf nb (w * n) (h * n) bits /\
    (forall x y, inside (w * n) (h * n) x y -> pixel nb (w * n) (h * n) bits x y = pixel b w h bits (x / n) (y / n)) /\
    (bits <> 24 -> forall i, 0 <= i < 2 ^ bits -> pal_entry nb i = pal_entry b i).
Proof. intros. apply resize_run; auto. Qed.
Theorem C45_odd_width_refuted : exists b w h nb, wf b w h 24 /\ resizeNtimesbigger 2 (mkst b []) = (Ok nb, mkst b []) /\
  exists x y, inside (w * 2) (h * 2) x y /\ pixel nb (w * 2) (h * 2) 24 x y <> pixel b w h 24 (x / 2) (y / 2).
Proof.
  exists (sample24 5 3), 5, 3. eexists. split; [apply sample24_wf|]. split; [vm_compute; reflexivity|].
  exists 8, 0. split; [unfold inside; lia|]. vm_compute. discriminate.
Qed.
Theorem C45_1bit_refuted : exists b w h nb, wf b w h 1 /\ w mod 8 = 0 /\ resizeNtimesbigger 2 (mkst b []) = (Ok nb, mkst b []) /\
  exists x y, inside (w * 2) (h * 2) x y /\ pixel nb (w * 2) (h * 2) 1 x y <> pixel b w h 1 (x / 2) (y / 2).
Proof.
  exists (after (plotxybit 0 0 1) (blank 8 1 1)), 8, 1. eexists. split; [concrete_wf|]. split; [reflexivity|].
  split; [vm_compute; reflexivity|]. exists 0, 0. split; [unfold inside; lia|]. vm_compute. discriminate.
Qed.
Example C45_ex : match outcome (resizeNtimesbigger 2) (sample 3 1 8) with
  | Ok nb => rows nb 6 2 8 = [[1;1;8;8;15;15]; [1;1;8;8;15;15]] | _ => False end.
Proof. vm_compute; reflexivity. Qed.
Print Assumptions C45_resize.
Print Assumptions C45_odd_width_refuted.
Print Assumptions C45_1bit_refuted.

(** * C46 *)
Theorem C46_selection : forall b w h bits o x1 y1 x2 y2,
  wf b w h bits -> inside w h x1 y1 -> inside w h x2 y2 ->
  let xa := Z.min x1 x2 in let ya := Z.min y1 y2 in
  let cols := Z.abs (x2 - x1) + 1 in let rws := Z.abs (y2 - y1) + 1 in
  (xa * bits) mod 8 = 0 -> (cols * bits) mod 8 = 0 ->
  cols + 1 < 256 -> cols * bits < 8 * 256 -> rws < 256 ->
  exists buf nb, copyrect x1 y1 x2 y2 (mkst b o) = (Ok (Some buf), mkst b o) /\
    convertselection2BMP buf (mkst b o) = (Ok (Some nb), mkst b o) /\
    wf nb (cols + 2) (rws + 1) bits /\
    (forall x y, inside (cols + 2) (rws + 1) x y -> pixel nb (cols + 2) (rws + 1) bits x y =
       if (x <? cols) && (1 <=? y) then pixel b w h bits (xa + x) (ya + (y - 1)) else 0).
Proof.
  intros b w h bits o x1 y1 x2 y2 W I1 I2 xa ya cols rws A1 A2 Hc1 Hc Hr.
  assert (X : hi x1 x2 = xa + cols - 1) by (unfold hi, xa, cols; lia).
  assert (Y : hi y1 y2 = ya + rws - 1) by (unfold hi, ya, rws; lia).
  assert (Hcols : 0 < cols) by (unfold cols; lia). assert (Hrws : 0 < rws) by (unfold rws; lia).
  assert (HA : byte_aligned bits (lo x1 x2) (hi x1 x2)).
  { unfold byte_aligned. change (lo x1 x2) with xa. rewrite X. split; auto.
    replace ((xa + cols - 1 + 1) * bits) with (xa * bits + cols * bits) by ring.
    apply Z.mod_divide in A1, A2; try lia. apply Z.mod_divide; [lia|]. now apply Z.divide_add_r. }
  destruct (newBMP_wf (cols + 2) (rws + 1) bits (wf_depth _ _ _ _ W)) as (nb0 & En & Wn & Pn & _); try lia.
  destruct (copyrect_run b w h bits o x1 y1 x2 y2 W I1 I2 HA) as (buf & E & C).
  destruct (C30_copy_paste b w h bits o x1 y1 x2 y2 nb0 (cols + 2) (rws + 1) 0 0 W Wn I1 I2 A1 A2) as (buf' & nb & E2 & E3 & R);
    auto; fold cols rws; try lia.
  rewrite E in E2. inversion E2; subst buf'; clear E2.
  exists buf, nb. split; auto. destruct C as (B & L & G0 & S1 & S2 & _). split; [|split; [apply R|]].
  - unfold convertselection2BMP.
    assert (Hl : 0 < zlen buf). { destruct buf; [|unfold zlen; cbn [length]; lia]. exfalso. clear - S1. discriminate S1. }
    rewrite (bind_ok _ _ _ (getz buf 0) (mkst b o)).
    2:{ apply run_lift, py_get_in. lia. }
    rewrite G0.
    replace ((bits =? 1) || (bits =? 4) || (bits =? 8) || (bits =? 24)) with true.
    2:{ symmetry. destruct (wf_depth _ _ _ _ W) as [-> | [-> | [-> | ->]]]; reflexivity. }
    cbn [negb]. rewrite S1, S2.
    rewrite (bind_ok _ _ _ _ _ (run_lift _ _ _ _ (buf2int_int2buf 2 _ ltac:(lia)))).
    rewrite (bind_ok _ _ _ _ _ (run_lift _ _ _ _ (buf2int_int2buf 2 _ ltac:(lia)))).
    change (256 ^ (2 - 1)) with 256. change (lo x1 x2) with xa. change (lo y1 y2) with ya. rewrite X, Y.
    rewrite !Z.mod_small by lia.
    replace (xa + cols - 1 - xa + 2 + 1) with (cols + 2) by lia. replace (ya + rws - 1 - ya + 1 + 1) with (rws + 1) by lia.
    rewrite (bind_ok _ _ _ _ _ (run_lift _ _ _ _ En)).
    rewrite (bind_ok _ _ _ _ _ (building_run nb0 b o _ nb E3)). reflexivity.
  - intros x y Hin. rewrite (proj2 (proj2 R)) by auto. fold cols rws xa ya. unfold inside in Hin.
    rewrite (Pn x y) by (unfold inside; lia).
    replace (0 <=? x) with true by lia. replace (y <? 0 + 1 + rws) with true by lia.
    rewrite andb_true_r. cbn [andb]. replace (x <? 0 + cols) with (x <? cols) by (f_equal; lia).
    replace (0 + 1 <=? y) with (1 <=? y) by reflexivity.
    destruct (_ && _); auto. f_equal; lia.
Qed.
(** the result is not the selection: two columns and one row too many *)
Theorem C46_size_refuted : exists b buf nb, wf b 5 3 8 /\
  copyrect 1 0 2 1 (mkst b []) = (Ok (Some buf), mkst b []) /\
  convertselection2BMP buf (mkst b []) = (Ok (Some nb), mkst b []) /\ ~ wf nb 2 2 8.
Proof.
  exists (sample 5 3 8). eexists. eexists. split; [apply sample8_wf|]. split; [vm_compute; reflexivity|].
  split; [vm_compute; reflexivity|]. intros W. pose proof (wf_width _ _ _ _ W) as H. vm_compute in H. discriminate H.
Qed.
Example C46_ex : match outcome (copyrect 1 0 2 1) (sample 5 3 8) with
  | Ok (Some buf) => match outcome (convertselection2BMP buf) (sample 5 3 8) with
     | Ok (Some nb) => rows nb 4 3 8 = [[0;0;0;0]; [8;15;0;0]; [21;28;0;0]] | _ => False end
  | _ => False end.
Proof. vm_compute; reflexivity. Qed.
Print Assumptions C46_selection.
Print Assumptions C46_size_refuted.
