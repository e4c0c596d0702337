(** Properties C96-C99: scans of an image by colour, neighbours, colour regions, edges
    and cropping at the edges. *)
From Coq Require Import ZArith String List Bool Lia.
From Verif Require Import PyBase PyFacts Spec SpecShapes SpecEdges Bmp BmpFacts PixelProofs PlotList Region Raster HeaderProofs IterProofs
  Geometry Draw DrawProofs DrawProofs3 ShapeProofs Shapes Files FileProofs Wrappers WrapProofs Edges EdgeProofs EdgeProofs2 EdgeProofs3 EdgeProofs4
  Concrete PropFiles PropCore PropDraw PropShapes PropWrap.
Import ListNotations.
Open Scope string_scope.
Open Scope list_scope.
Open Scope Z_scope.
Open Scope py_scope.

(** * C96 *)
(** A scan yields every pixel once with the colour a viewer shows for it, from the bottom
    row to the top one and from left to right, when rows end at a byte boundary. *)
Theorem C96_scan : forall b w h bits, wf b w h bits -> byte_rows w bits ->
  iterimageRGB b = Ok (flat_map (fun y => map (fun x => (x, y, shown b w h bits x y)) (range 0 w)) (rev (range 0 h))).
Proof.
  intros b w h bits W H. apply rows_step in H; [|apply W|apply W]. exact (scan_good b w h bits W H).
Qed.
(** otherwise it stops after the bottom row *)
Theorem C96_bottom_row : forall b w h bits, wf b w h bits -> ~ byte_rows w bits -> 0 < h ->
  iterimageRGB b = Ok (map (fun x => (x, h - 1, shown b w h bits x (h - 1))) (range 0 w)).
Proof.
  intros b w h bits W H Hh. apply (scan_bad b w h bits W); auto. intros K. apply H. apply rows_step; auto; apply W.
Qed.
Theorem C96_all_pixels_refuted : exists b w h bits items x y, wf b w h bits /\ iterimageRGB b = Ok items /\ inside w h x y /\
  forall c, ~ In (x, y, c) items.
Proof.
  exists (sample 11 3 1), 11, 3, 1, (map (fun x => (x, 2, shown (sample 11 3 1) 11 3 1 x 2)) (range 0 11)), 0, 0.
  assert (W : wf (sample 11 3 1) 11 3 1) by apply sample1_wf. split; [exact W|]. split.
  - apply (C96_bottom_row _ 11 3 1 W); [|lia]. intros K. specialize (K ltac:(lia)). discriminate.
  - split; [unfold inside; lia|]. intros c H. apply in_map_iff in H. destruct H as (x & E & _). discriminate.
Qed.
(** a single pixel; None stands for the empty list returned outside the image *)
Theorem C96_point : forall b w h bits x y, wf b w h bits ->
  (inside w h x y -> getRGBxybit x y b = Ok (Some (shown b w h bits x y)) /\ getRGBxybitvec (x, y) b = Ok (Some (shown b w h bits x y))) /\
  (~ inside w h x y -> getRGBxybit x y b = Ok None /\ getRGBxybitvec (x, y) b = Ok None).
Proof.
  intros b w h bits x y W. split; intros I; split; try (now apply getRGB_in); try (now apply (getRGB_out b w h bits)).
Qed.
Example C96_ex : wf (sample 5 3 8) 5 3 8 /\ byte_rows 5 8 /\ wf (sample24 5 3) 5 3 24 /\ byte_rows 5 24 /\ ~ byte_rows 11 1 /\
  iterimageRGB (sample24 2 2) = Ok [(0, 1, (211, 3, 14)); (1, 1, (212, 8, 21)); (0, 0, (200, 0, 1)); (1, 0, (201, 5, 8))].
Proof.
  split; [apply sample8_wf|]. split; [intros K; lia|]. split; [apply sample24_wf|]. split; [intros K; lia|].
  split; [intros K; specialize (K ltac:(lia)); discriminate|vm_compute; reflexivity].
Qed.
Print Assumptions C96_scan.
Print Assumptions C96_bottom_row.
Print Assumptions C96_all_pixels_refuted.
Print Assumptions C96_point.

(** * C97 *)
(** The neighbours of a point of the image: those at most one step away, but never
    column 0 from column 1 nor row 0 from row 1. *)
Theorem C97_neighbors : forall w h x y u v, inside w h x y ->
  (In (u, v) (itergetneighbors (x, y) w h false) <-> looked_at w h x y u v) /\
  (In (u, v) (itergetneighbors (x, y) w h true) <-> (u, v) = (x, y) \/ looked_at w h x y u v) /\
  NoDup (itergetneighbors (x, y) w h true) /\ NoDup (itergetneighbors (x, y) w h false) /\
  (looked_at w h x y u v -> inside w h u v).
Proof.
  intros w h x y u v I. split; [now apply neighbors_in|]. split; [rewrite (neighbors_center w h x y (u, v) I), neighbors_in by auto; reflexivity|].
  split; [now apply neighbors_nodup|]. split; [rewrite around_spec by auto; apply NoDup_filter, around_nodup|now apply looked_inside].
Qed.
(** away from the first two columns and rows these are all neighbours in the image *)
Theorem C97_complete : forall w h x y u v, inside w h x y -> x <> 1 -> y <> 1 -> inside w h u v ->
  Z.abs (u - x) <= 1 -> Z.abs (v - y) <= 1 -> (u, v) <> (x, y) -> In (u, v) (itergetneighbors (x, y) w h false).
Proof.
  intros w h x y u v I N1 N2 I2 A1 A2 A3. apply neighbors_in; auto. unfold inside in *. unfold looked_at. repeat split; auto; lia.
Qed.
Theorem C97_complete_refuted : exists w h x y u v, inside w h x y /\ inside w h u v /\ Z.abs (u - x) <= 1 /\ Z.abs (v - y) <= 1 /\
  (u, v) <> (x, y) /\ ~ In (u, v) (itergetneighbors (x, y) w h true).
Proof.
  exists 5, 5, 1, 1, 0, 0. unfold inside. repeat split; try lia; [discriminate|]. vm_compute. intros H.
  repeat (destruct H as [H|H]; [discriminate|]). exact H.
Qed.
Theorem C97_negative : forall w h x y c, x < 0 \/ y < 0 -> itergetneighbors (x, y) w h c = [].
Proof.
  intros w h x y c H. unfold itergetneighbors. rewrite !Z.gtb_ltb.
  destruct (Z.ltb_spec (-1) x); destruct (Z.ltb_spec (-1) y); cbn [andb]; auto; lia.
Qed.
(** their colours, in the same order *)
Theorem C97_colors : forall b w h bits x y, wf b w h bits -> inside w h x y ->
  getneighborcolorlist (x, y) b = Ok (map (fun u => Some (shown b w h bits (fst u) (snd u))) (itergetneighbors (x, y) w h true)).
Proof.
  intros b w h bits x y W I. unfold getneighborcolorlist, getmaxx, getmaxy. rewrite (wf_rx _ _ _ _ W), (wf_ry _ _ _ _ W). cbn [rbind].
  apply mapR_ok. intros [u v] Hu. apply getRGB_in; auto. apply neighbors_center in Hu; auto. destruct Hu as [Hu|Hu].
  - injection Hu as -> ->. exact I.
  - apply neighbors_in in Hu; auto. eapply looked_inside; eauto.
Qed.
Example C97_ex : inside 5 3 2 1 /\ looked_at 5 3 2 1 3 2 /\ ~ looked_at 5 3 2 1 2 0 /\
  getneighborcolorlist (4, 2) (sample24 5 3) =
    Ok [Some (215, 23, 42); Some (226, 26, 55); Some (214, 18, 35); Some (225, 21, 48)].
Proof.
  split; [unfold inside; lia|]. split; [unfold looked_at; repeat split; try lia; discriminate|].
  split; [unfold looked_at; lia|vm_compute; reflexivity].
Qed.
Print Assumptions C97_neighbors.
Print Assumptions C97_complete.
Print Assumptions C97_complete_refuted.
Print Assumptions C97_negative.
Print Assumptions C97_colors.

(** * C98 *)
(** The region of a colour: exactly the pixels whose colour is near it, without repetition. *)
Theorem C98_region : forall near rgb b w h bits, wf b w h bits -> byte_rows w bits ->
  exists vs, getimageregionbyRGB near rgb b = Ok vs /\ NoDup vs /\
    forall x y, In (x, y) vs <-> inside w h x y /\ near (rgb_dist2 rgb (shown b w h bits x y)) = true.
Proof.
  intros near rgb b w h bits W H. apply rows_step in H; [|apply W|apply W]. pose proof (scan_good b w h bits W H) as E.
  eexists. split; [unfold getimageregionbyRGB; rewrite E; reflexivity|]. split.
  - pose proof (rgball_nodup b w h bits) as N. revert N. generalize (rgball b w h bits). induction l as [|[[x y] c] l IH]; cbn [map filter fst snd]; intros N; [constructor|].
    inversion N as [|a l0 N1 N2 Eq]; subst. destruct (near _); [|now apply IH]. cbn [map fst]. constructor; [|now apply IH].
    intros K. apply N1. apply in_map_iff in K. destruct K as (i & E1 & E2). apply filter_In in E2. apply in_map_iff. exists i. tauto.
  - intros x y. rewrite in_map_iff. split.
    + intros ([[x' y'] c] & E1 & E2). cbn [fst] in E1. injection E1 as -> ->. apply filter_In in E2. destruct E2 as [E2 E3].
      apply rgball_in in E2. destruct E2 as [I ->]. cbn [snd] in E3. rewrite dist2_rgb in E3. auto.
    + intros [I N]. exists (x, y, shown b w h bits x y). split; [reflexivity|]. apply filter_In. split; [now apply rgball_in|].
      cbn [snd]. now rewrite dist2_rgb.
Qed.
(** the copy of a header is a black image (index 0) of the same size with the same palette *)
Theorem C98_copy_header : forall b w h bits, wf b w h bits ->
  exists nb, copyBMPhdr b = Ok nb /\ repainted b nb w h bits (fun _ _ => 0).
Proof.
  intros b w h bits W. pose proof (wf_len _ _ _ _ W) as L. pose proof (wf_hrange _ _ _ _ W). pose proof (wf_wrange _ _ _ _ W).
  pose proof (stride_nonneg w bits ltac:(lia) (wf_depth _ _ _ _ W)) as Hs. pose proof (data_off_ge bits (wf_depth _ _ _ _ W)) as Ho.
  assert (Hle : 0 <= data_off bits <= zlen b) by nia.
  assert (Lz : zlen (repz 0 (zlen b)) = zlen b) by (rewrite zlen_repz; lia).
  assert (Ls : zlen (py_slice b 0 (data_off bits)) = data_off bits - 0) by (apply zlen_slice; lia).
  assert (Lr : zlen (py_slice_set (repz 0 (zlen b)) 0 (data_off bits) (py_slice b 0 (data_off bits))) = zlen b) by (rewrite zlen_slice_set; lia).
  assert (G : forall i, getz (py_slice_set (repz 0 (zlen b)) 0 (data_off bits) (py_slice b 0 (data_off bits))) i =
            if (0 <=? i) && (i <? data_off bits) then getz b i else 0).
  { intros i. rewrite getz_slice_set by lia. destruct (Z.leb_spec 0 i); cbn [andb].
    - destruct (Z.ltb_spec i (data_off bits)).
      + rewrite getz_slice by lia. f_equal. lia.
      + destruct (Z.lt_ge_cases i (zlen b)); [apply getz_repz; lia|]. unfold getz. rewrite nth_overflow; [destruct (i <? 0); reflexivity|].
        unfold zlen in *. lia.
    - apply getz_neg. lia. }
  eexists. split; [unfold copyBMPhdr; rewrite (wf_rhdsz _ _ _ _ W), (wf_rflsz _ _ _ _ W); reflexivity|].
  assert (S : same_header b (py_slice_set (repz 0 (zlen b)) 0 (data_off bits) (py_slice b 0 (data_off bits))) bits).
  { split; [exact Lr|]. intros i Hi. rewrite G. destruct (Z.leb_spec 0 i); [|lia]. destruct (Z.ltb_spec i (data_off bits)); [reflexivity|lia]. }
  split; [|split; [exact S|]].
  - apply (wf_frame _ _ _ _ W); [exact S|]. apply bytes_slice_set; [apply bytes_repz; unfold byte; lia|apply bytes_slice, W].
  - intros x y [Hx Hy]. assert (Hr : 0 <= (h - 1 - y) * stride w bits) by nia. unfold pixel.
    assert (Z0 : forall k, data_off bits <= k -> (if (0 <=? k) && (k <? data_off bits) then getz b k else 0) = 0).
    { intros k Hk. destruct (Z.ltb_spec k (data_off bits)); [lia|]. now rewrite andb_false_r. }
    destruct (Z.eqb_spec bits 24).
    + rewrite !G, !Z0 by lia. reflexivity.
    + rewrite G, Z0; [now rewrite Zdiv_0_l, Zmod_0_l|].
      assert (0 <= x * bits / 8) by (apply Z.div_pos; [destruct (wf_depth _ _ _ _ W) as [-> | [-> | [-> | ->]]]|]; lia). lia.
Qed.
(** The file function draws the region with a pen, over the image or over a black one. *)
Theorem C98_saved : forall near rgb p c only src dst W b w h bits, files W src = Some b -> wf b w h bits -> 0 < w -> 0 < h -> byte_rows w bits ->
  storable bits c -> (1 < p -> bits <> 4) ->
  exists W' b', imgregionbyRGB2file near p c rgb only src dst W = (Ok (Some tt), W') /\ only_file W W' dst b' /\ wf b' w h bits /\
    same_header b b' bits /\
    forall px py, inside w h px py -> exists hit : bool, (hit = true <-> exists x y, inside w h x y /\ near (rgb_dist2 rgb (shown b w h bits x y)) = true /\
        (if 1 <? p then in_disc p (px - x) (py - y) else (px =? x) && (py =? y)) = true) /\
      pixel b' w h bits px py = if hit then reduce bits c else if only then 0 else pixel b w h bits px py.
Proof.
  intros near rgb p c only src dst W b w h bits Hf Wb Hw Hh Hr Hs Hp. pose proof (C10_condition b w h bits Wb (or_intror (conj Hw Hh))) as Hl.
  destruct (C98_region near rgb b w h bits Wb Hr) as (vs & Ev & _ & Hv).
  assert (K : exists b0, (if only then flift (copyBMPhdr b) else fret b) (mkw (files W) (con W ++ [Mtext])) = (Ok b0, mkw (files W) (con W ++ [Mtext])) /\
     repainted b b0 w h bits (fun x y => if only then 0 else pixel b w h bits x y)).
  { destruct only.
    - destruct (C98_copy_header b w h bits Wb) as (nb & E & R). exists nb. unfold flift. rewrite E. auto.
    - exists b. split; [reflexivity|]. now apply repainted_refl. }
  destruct K as (b0 & E0 & R0).
  destruct (C73_points b0 w h bits (con W ++ [Mtext]) vs p c (proj1 R0) Hs) as (b' & o' & E1 & _ & R1).
  { intros L. apply Forall_forall. intros [x y] Hq. apply Hv in Hq. destruct Hq as [[Hx _] _]. cbn [fst]. unfold pen_at. repeat split; [auto|lia|lia]. }
  set (V := mkw (files W) (con W ++ [Mtext])) in *.
  eexists _, b'. split; [|split; [|split; [|split]]].
  - unfold imgregionbyRGB2file. rewrite (clink_timer _ _ _ _ Hf). fold V.
    rewrite (fbind_ok _ _ _ _ _ (load_text src W b w h bits Hf Wb Hl)). fold V. rewrite (fbind_ok _ _ V b V eq_refl).
    rewrite (fbind_ok _ _ V vs V) by (unfold flift; now rewrite Ev). rewrite (fbind_ok _ _ _ _ _ E0).
    rewrite (fbind_ok _ _ V (tt, b') (mkw (files V) o')) by (apply callM_ok; exact E1). cbn. reflexivity.
  - apply only_fput.
  - apply R1.
  - destruct R0 as (_ & [L0 S0] & _), R1 as (_ & [L1 S1] & _). split; [congruence|]. intros i Hi. rewrite S1, S0; auto.
  - intros px py I. exists (existsb (fun q => if 1 <? p then in_disc p (px - fst q) (py - snd q) else (px =? fst q) && (py =? snd q)) vs). split.
    + rewrite existsb_exists. split.
      * intros ([x y] & Hq & Hd). apply Hv in Hq. exists x, y. tauto.
      * intros (x & y & Ix & Hn & Hd). exists (x, y). split; [now apply Hv|exact Hd].
    + rewrite (proj2 (proj2 R1)) by auto. destruct (existsb _ vs); [reflexivity|]. apply (proj2 (proj2 R0)); auto.
Qed.
Theorem C98_missing : forall near rgb p c only src dst W, files W src = None ->
  imgregionbyRGB2file near p c rgb only src dst W = (Ok None, mkw (files W) (con W ++ [Mfilenotexist])).
Proof. intros near rgb p c only src dst W H. unfold imgregionbyRGB2file, checklink. now rewrite H. Qed.
Example C98_ex : wf (sample24 5 3) 5 3 24 /\ byte_rows 5 24 /\
  getimageregionbyRGB (fun d => d <? 300) (200, 0, 1) (sample24 5 3) = Ok [(0, 1); (0, 0); (1, 0)] /\
  match files (snd (imgregionbyRGB2file (fun d => d <? 300) 1 7 (200, 0, 1) true "a" "b" (mkw (fput nofiles "a" (sample24 3 2)) []))) "b"%string with
  | Some c => rows c 3 2 24 = [[7; 7; 0]; [7; 0; 0]] | None => False end.
Proof.
  split; [apply sample24_wf|]. split; [intros K; lia|]. split; vm_compute; reflexivity.
Qed.
Print Assumptions C98_region.
Print Assumptions C98_copy_header.
Print Assumptions C98_saved.
Print Assumptions C98_missing.

(** * C99 *)
(** Edges: for each pixel in scan order the first of its neighbours (in the order
    [around]) whose colour is far from its own. *)
Theorem C99_edges : forall far b w h bits, wf b w h bits -> byte_rows w bits ->
  getimagedgevert far b =
    Ok (flat_map (fun y => flat_map (fun x => opt_list (edge_seen far b w h bits x y)) (range 0 w)) (rev (range 0 h))).
Proof.
  intros far b w h bits W H. apply rows_step in H; [|apply W|apply W]. pose proof (scan_good b w h bits W H) as E.
  rewrite (edges_items far b w h bits _ W E) by (intros x y c K; now apply rgball_in in K). f_equal. unfold rgball.
  induction (rev (range 0 h)) as [|y l IH]; cbn [flat_map]; auto. rewrite flat_map_app, IH. f_equal. unfold rgbrow.
  clear IH. induction (range 0 w) as [|x r IHr]; cbn [flat_map map fst snd]; auto. f_equal. exact IHr.
Qed.
Lemma flat_map_nil {A B} (f : A -> list B) l : (forall a, In a l -> f a = []) -> flat_map f l = [].
Proof. induction l as [|a l IH]; intros H; cbn [flat_map]; auto. rewrite H, IH; auto; [|now left]. intros; apply H; now right. Qed.
(** so they are pixels of the image next to one of a far colour, and there are none exactly
    when no pixel has a far neighbour among those looked at *)
Theorem C99_sound : forall far b w h bits, wf b w h bits -> byte_rows w bits ->
  exists vs, getimagedgevert far b = Ok vs /\
    (forall u v, In (u, v) vs -> inside w h u v /\ exists x y, inside w h x y /\ looked_at w h x y u v /\
       far (rgb_dist2 (shown b w h bits u v) (shown b w h bits x y)) = true) /\
    (vs = [] <-> forall x y u v, inside w h x y -> looked_at w h x y u v ->
       far (rgb_dist2 (shown b w h bits u v) (shown b w h bits x y)) = false).
Proof.
  intros far b w h bits W H. eexists. split; [now apply (C99_edges far b w h bits)|]. split.
  - intros u v Hin. apply in_flat_map in Hin. destruct Hin as (y & Hy & Hin). apply in_flat_map in Hin. destruct Hin as (x & Hx & Hin).
    apply in_rev in Hy. apply in_range in Hx, Hy. assert (I : inside w h x y) by (split; lia).
    unfold edge_seen in Hin. destruct (find _ _) as [u0|] eqn:F; [|destruct Hin]. destruct Hin as [->|[]].
    apply find_some in F. destruct F as [F1 F2]. apply andb_true_iff in F2. destruct F2 as [F2 F3]. cbn [fst snd] in *.
    apply looks_iff in F2; auto. split; [eapply looked_inside; eauto|]. exists x, y. auto.
  - split.
    + intros E x y u v I L. destruct (far _) eqn:F; [|reflexivity]. exfalso.
      assert (Hu : In (u, v) (around x y)) by (apply around_in; destruct L as (A & B & C & _); auto).
      assert (K : edge_seen far b w h bits x y <> None).
      { unfold edge_seen. intros K. apply (find_none _ _ K) in Hu. cbn [fst snd] in Hu. rewrite F, andb_true_r in Hu.
        apply looks_iff in L; auto; [congruence|]. apply around_in. destruct L as (A & B & C & _). auto. }
      destruct (edge_seen far b w h bits x y) as [q|] eqn:Q; [|contradiction].
      assert (Hq : In q []); [|destruct Hq]. rewrite <- E. apply in_flat_map. exists y. split; [rewrite <- in_rev; apply in_range; apply I|].
      apply in_flat_map. exists x. split; [apply in_range; apply I|]. rewrite Q. now left.
    + intros N. apply flat_map_nil. intros y Hy. apply flat_map_nil. intros x Hx. apply in_rev in Hy. apply in_range in Hx, Hy.
      assert (I : inside w h x y) by (split; lia). unfold edge_seen. destruct (find _ _) as [[u v]|] eqn:F; [|reflexivity]. exfalso.
      apply find_some in F. destruct F as [F1 F2]. apply andb_true_iff in F2. destruct F2 as [F2 F3]. cbn [fst snd] in *.
      apply looks_iff in F2; auto. rewrite (N x y u v I F2) in F3. discriminate.
Qed.
(** drawn into the image with a pen *)
Theorem C99_plot : forall far p c b w h bits o, wf b w h bits -> byte_rows w bits -> storable bits c -> (1 < p -> bits <> 4) ->
  exists vs b' o', getimagedgevert far b = Ok vs /\ plotimgedges far p c (mkst b o) = (Ok tt, mkst b' o') /\ (bits <> 1 -> o' = o) /\
    repainted b b' w h bits (fun px py =>
      if existsb (fun q => if 1 <? p then in_disc p (px - fst q) (py - snd q) else (px =? fst q) && (py =? snd q)) vs
      then reduce bits c else pixel b w h bits px py).
Proof.
  intros far p c b w h bits o W H Hs Hp. destruct (C99_sound far b w h bits W H) as (vs & E & S & _).
  destruct (C73_points b w h bits o vs p c W Hs) as (b' & o' & E1 & Q & R).
  { intros L. apply Forall_forall. intros [u v] Hq. apply S in Hq. destruct Hq as [[Hx _] _]. cbn [fst]. unfold pen_at. repeat split; [auto|lia|lia]. }
  exists vs, b', o'. split; [exact E|]. split; [|auto]. unfold plotimgedges. rewrite (bind_ok _ _ _ _ _ (run_rd _ _ _ _ E)). exact E1.
Qed.
(** Cropping at the edges: the bounding box of the edges, enlarged by one column to the
    right and one row below; refused when that leaves the image; IndexError without edges. *)
Lemma bounds_run vs x y : exists x1 y1 x2 y2, rectboundarycoords ((x, y) :: vs) = Ok ((x1, y1), (x2, y2)) /\
  (forall u v, In (u, v) ((x, y) :: vs) -> x1 <= u <= x2 /\ y1 <= v <= y2) /\
  (exists v, In (x1, v) ((x, y) :: vs)) /\ (exists u, In (u, y1) ((x, y) :: vs)) /\
  (exists v, In (x2, v) ((x, y) :: vs)) /\ (exists u, In (u, y2) ((x, y) :: vs)).
Proof.
  cbn [rectboundarycoords].
  assert (L : forall l a c, let m := fold_left (fun m v => (Z.min (fst m) (fst v), Z.min (snd m) (snd v))) l (a, c) in
     fst m <= a /\ snd m <= c /\ (forall u v, In (u, v) l -> fst m <= u /\ snd m <= v) /\
     (fst m = a \/ exists v, In (fst m, v) l) /\ (snd m = c \/ exists u, In (u, snd m) l)).
  { induction l as [|[u v] l IH]; intros a c; cbn [fold_left fst snd]; cbv zeta.
    - split; [lia|]. split; [lia|]. split; [intros u v []|auto].
    - destruct (IH (Z.min a u) (Z.min c v)) as (H1 & H2 & H3 & H4 & H5). split; [lia|]. split; [lia|]. split.
      + intros u' v' [K|K]; [injection K as -> ->; lia|now apply H3].
      + split.
        * destruct H4 as [H4|[v' H4]]; [|right; exists v'; now right]. rewrite H4. destruct (Z.min_dec a u) as [M|M]; rewrite M; [now left|right; exists v; now left].
        * destruct H5 as [H5|[u' H5]]; [|right; exists u'; now right]. rewrite H5. destruct (Z.min_dec c v) as [M|M]; rewrite M; [now left|right; exists u; now left]. }
  assert (R : forall l a c, let m := fold_left (fun m v => (Z.max (fst m) (fst v), Z.max (snd m) (snd v))) l (a, c) in
     a <= fst m /\ c <= snd m /\ (forall u v, In (u, v) l -> u <= fst m /\ v <= snd m) /\
     (fst m = a \/ exists v, In (fst m, v) l) /\ (snd m = c \/ exists u, In (u, snd m) l)).
  { induction l as [|[u v] l IH]; intros a c; cbn [fold_left fst snd]; cbv zeta.
    - split; [lia|]. split; [lia|]. split; [intros u v []|auto].
    - destruct (IH (Z.max a u) (Z.max c v)) as (H1 & H2 & H3 & H4 & H5). split; [lia|]. split; [lia|]. split.
      + intros u' v' [K|K]; [injection K as -> ->; lia|now apply H3].
      + split.
        * destruct H4 as [H4|[v' H4]]; [|right; exists v'; now right]. rewrite H4. destruct (Z.max_dec a u) as [M|M]; rewrite M; [now left|right; exists v; now left].
        * destruct H5 as [H5|[u' H5]]; [|right; exists u'; now right]. rewrite H5. destruct (Z.max_dec c v) as [M|M]; rewrite M; [now left|right; exists u; now left]. }
  specialize (L vs x y). specialize (R vs x y). cbv zeta in L, R.
  destruct (fold_left (fun m v => (Z.min (fst m) (fst v), Z.min (snd m) (snd v))) vs (x, y)) as [x1 y1].
  destruct (fold_left (fun m v => (Z.max (fst m) (fst v), Z.max (snd m) (snd v))) vs (x, y)) as [x2 y2]. cbn [fst snd] in *.
  destruct L as (L1 & L2 & L3 & L4 & L5), R as (R1 & R2 & R3 & R4 & R5). exists x1, y1, x2, y2. split; [reflexivity|]. split; [|split; [|split; [|split]]].
  - intros u v [K|K]; [injection K as <- <-; lia|]. specialize (L3 u v K). specialize (R3 u v K). lia.
  - destruct L4 as [->|[v K]]; [exists y; now left|exists v; now right].
  - destruct L5 as [->|[u K]]; [exists x; now left|exists u; now right].
  - destruct R4 as [->|[v K]]; [exists y; now left|exists v; now right].
  - destruct R5 as [->|[u K]]; [exists x; now left|exists u; now right].
Qed.
Theorem C99_autocrop : forall far src dst W b w h bits vs, files W src = Some b -> wf b w h bits -> 0 < w -> 0 < h -> byte_rows w bits ->
  getimagedgevert far b = Ok vs -> vs <> [] ->
  exists x1 y1 x2 y2, (forall u v, In (u, v) vs -> x1 <= u <= x2 /\ y1 <= v <= y2) /\
    (exists v, In (x1, v) vs) /\ (exists u, In (u, y1) vs) /\ (exists v, In (x2, v) vs) /\ (exists u, In (u, y2) vs) /\
    (x2 + 1 < w -> y2 + 1 < h -> exists c W', autocropimg2file far src dst W = (Ok tt, W') /\ only_file W W' dst c /\
       let w' := x2 - x1 + 2 in let h' := y2 - y1 + 2 in wf c w' h' bits /\
       forall i j, inside w' h' i j -> pixel c w' h' bits i j = pixel b w h bits (x1 + i) (y1 + j)) /\
    (x2 + 1 = w \/ y2 + 1 = h ->
       autocropimg2file far src dst W = (Ok tt, mkw (files W) (con W ++ [Mtext; Mregionoutofbounds; Mdone]))).
Proof.
  intros far src dst W b w h bits vs Hf Wb Hw Hh Hr Ev Nv. pose proof (C10_condition b w h bits Wb (or_intror (conj Hw Hh))) as Hl.
  destruct (C99_sound far b w h bits Wb Hr) as (vs' & Ev' & Sv & _). rewrite Ev in Ev'. injection Ev' as <-.
  destruct vs as [|[x y] t]; [contradiction|]. destruct (bounds_run t x y) as (x1 & y1 & x2 & y2 & Eb & B & B1 & B2 & B3 & B4).
  exists x1, y1, x2, y2. split; [exact B|]. split; [exact B1|]. split; [exact B2|]. split; [exact B3|]. split; [exact B4|].
  set (V := mkw (files W) (con W ++ [Mtext])).
  assert (T : autocropimg2file far src dst W = match cropBMPandsaveusingrectbnd (x1, y1) (x2, y2) src dst V with
     | (Ok _, U) => (Ok tt, mkw (files U) (con U ++ [Mdone])) | (Err e, U) => (Err e, U) end).
  { unfold autocropimg2file. rewrite (timer_run W). fold V. rewrite (fbind_ok _ _ _ _ _ (load_text src W b w h bits Hf Wb Hl)). fold V.
    rewrite (fbind_ok _ _ V b V eq_refl). rewrite (fbind_ok _ _ V ((x, y) :: t) V) by (unfold flift; now rewrite Ev).
    rewrite (fbind_ok _ _ V ((x1, y1), (x2, y2)) V) by (unfold flift; now rewrite Eb). reflexivity. }
  destruct B1 as [v1 K1]. destruct B2 as [u1 K2]. destruct B3 as [v2 K3]. destruct B4 as [u2 K4].
  pose proof (proj1 (Sv _ _ K1)) as I1. pose proof (proj1 (Sv _ _ K2)) as I2. pose proof (proj1 (Sv _ _ K3)) as I3. pose proof (proj1 (Sv _ _ K4)) as I4.
  pose proof (B _ _ K1) as M1. pose proof (B _ _ K2) as M2. unfold inside in I1, I2, I3, I4. clear K1 K2 K3 K4 Sv B. split.
  - intros L1 L2. destruct (C86_crop_bound src dst V b w h bits x1 y1 x2 y2 Hf Wb ltac:(unfold inside; lia) ltac:(unfold inside; lia)) as (c & W' & E & O & Wc & P).
    rewrite E in T. exists c. eexists. split; [exact T|]. split; [exact O|]. cbv zeta in *.
    replace (Z.abs (x2 + 1 - x1) + 1) with (x2 - x1 + 2) in * by lia. replace (Z.abs (y2 + 1 - y1) + 1) with (y2 - y1 + 2) in * by lia.
    split; [exact Wc|]. intros i j I. rewrite P by auto. f_equal; lia.
  - intros L. rewrite T. unfold cropBMPandsaveusingrectbnd.
    pose proof (C86_crop_outside src dst V b w h bits x1 y1 (x2 + 1) (y2 + 1) Hf Wb Hw Hh) as K. unfold cropBMPandsave in K. cbn [fst snd]. rewrite K.
    + cbn. now rewrite <- !app_assoc.
    + unfold inside. lia.
Qed.
Theorem C99_autocrop_plain : forall far src dst W b w h bits, files W src = Some b -> wf b w h bits -> 0 < w -> 0 < h -> byte_rows w bits ->
  getimagedgevert far b = Ok [] ->
  autocropimg2file far src dst W = (Err IndexError, mkw (files W) (con W ++ [Mtext])).
Proof.
  intros far src dst W b w h bits Hf Wb Hw Hh Hr Ev. pose proof (C10_condition b w h bits Wb (or_intror (conj Hw Hh))) as Hl.
  set (V := mkw (files W) (con W ++ [Mtext])). unfold autocropimg2file. rewrite (timer_run W). fold V.
  rewrite (fbind_ok _ _ _ _ _ (load_text src W b w h bits Hf Wb Hl)). fold V. rewrite (fbind_ok _ _ V b V eq_refl).
  rewrite (fbind_ok _ _ V [] V) by (unfold flift; now rewrite Ev). reflexivity.
Qed.
(** a missing file is not reported but raises TypeError *)
Theorem C99_autocrop_missing : forall far src dst W, files W src = None ->
  autocropimg2file far src dst W = (Err TypeError, mkw (files W) (con W ++ [Mtext; Mfilenotexist])).
Proof.
  intros far src dst W H. unfold autocropimg2file. rewrite (timer_run W). unfold fbind at 1. unfold loadBMP, checklink. cbn [files]. rewrite H.
  cbn. now rewrite <- app_assoc.
Qed.
(** a picture that touches the right border is not cropped but refused *)
Theorem C99_autocrop_refuted : exists b w h vs, wf b w h 24 /\ getimagedgevert (fun d => 0 <? d) b = Ok vs /\ vs <> [] /\
  let W := mkw (fput nofiles "a" b) [] in
  files (snd (autocropimg2file (fun d => 0 <? d) "a" "b" W)) "b"%string = None.
Proof.
  exists (after (plotxybit 2 0 7) (blank 3 1 24)), 3, 1, [(2, 0); (1, 0)]. split; [concrete_wf|].
  split; [vm_compute; reflexivity|]. split; [discriminate|]. cbv zeta. vm_compute. reflexivity.
Qed.
Example C99_ex : wf (sample24 5 3) 5 3 24 /\ byte_rows 5 24 /\
  getimagedgevert (fun d => 0 <? d) (after (plotxybit 3 2 7) (blank 6 5 24)) =
    Ok [(3, 2); (3, 2); (3, 2); (3, 2); (3, 1); (3, 2); (3, 2); (3, 2); (3, 2)] /\
  match files (snd (autocropimg2file (fun d => 0 <? d) "a" "b" (mkw (fput nofiles "a" (after (plotxybit 3 2 7) (blank 6 5 24))) []))) "b"%string with
  | Some c => rows c 2 3 24 = [[0; 0]; [7; 0]; [0; 0]] | None => False end.
Proof.
  split; [apply sample24_wf|]. split; [intros K; lia|]. split; vm_compute; reflexivity.
Qed.
Print Assumptions C99_edges.
Print Assumptions C99_sound.
Print Assumptions C99_plot.
Print Assumptions C99_autocrop.
Print Assumptions C99_autocrop_plain.
Print Assumptions C99_autocrop_missing.
Print Assumptions C99_autocrop_refuted.
