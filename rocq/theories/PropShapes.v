(** Properties C71-C79: composite shapes, gradients, ellipses, grids. *)
From Coq Require Import ZArith List Bool Lia.
From Verif Require Import PyBase PyFacts Spec SpecShapes Bmp BmpFacts PixelProofs PlotList Buffers Region Geometry Draw
  Raster DrawProofs DrawProofs2 VertProofs HorizProofs FilterProofs Text TextProofs Filters Circle Shapes ShapeProofs ShapeProofs2 ShapeProofs3 EllProofs EllProofs2 ShapeProofs4 Concrete.
Import ListNotations.
Open Scope Z_scope.
Open Scope py_scope.

Lemma fills_open R b w h bits act S v o : wf b w h bits -> fills R b w h bits act S v ->
  exists b' o', act (mkst b o) = (Ok tt, mkst b' o') /\ R o o' /\
    repainted b b' w h bits (fun px py => if S px py then v else pixel b w h bits px py).
Proof.
  intros W F. destruct (F b o W) as (b' & o' & E & HR & R'); [split; auto|]. exists b', o'. split; [exact E|]. split; [exact HR|].
  eapply repainted_ext; [|exact R']. intros px py _. cbn beta. now destruct (S px py).
Qed.
Lemma draws_open R b w h bits act f o : wf b w h bits -> draws R b w h bits act f ->
  exists b' o', act (mkst b o) = (Ok tt, mkst b' o') /\ R o o' /\
    repainted b b' w h bits (fun px py => match f px py with Some v => v | None => pixel b w h bits px py end).
Proof. intros W F. apply F; auto. split; auto. Qed.
(** layers, innermost visible *)
Lemma layers_open R b w h bits act hit m n (col : Z -> Z) (P : Z -> Prop) o : wf b w h bits ->
  (forall i, P i -> 0 <= col i < 2 ^ 24) ->
  draws R b w h bits act (fun px py => option_map (fun i => dcol b bits (col i)) (top_layer hit m n px py)) ->
  exists v b' o', (forall i, P i -> shows b bits (col i) (v i)) /\ act (mkst b o) = (Ok tt, mkst b' o') /\ R o o' /\
    repainted b b' w h bits (fun px py => match top_layer hit m n px py with Some i => v i | None => pixel b w h bits px py end).
Proof.
  intros W Hc D. destruct (draws_open _ _ _ _ _ _ _ o W D) as (b' & o' & E & HR & R').
  exists (fun i => dcol b bits (col i)), b', o'. split; [intros i Hi; eapply dcol_shows; eauto|]. split; [exact E|]. split; [exact HR|].
  eapply repainted_ext; [|exact R']. intros px py _. cbn beta. now destruct (top_layer hit m n px py).
Qed.

(** * C71 *)
Theorem C71_gradient : forall col b w h bits o x1 y1 x2 y2 d, wf b w h bits -> bits = 8 \/ bits = 24 ->
  inside w h x1 y1 -> inside w h x2 y2 -> (forall n m, 0 <= n <= m -> 0 <= col n m < 2 ^ 24) ->
  exists v b', (forall i n, 0 <= i <= n -> shows b bits (col i n) (v i n)) /\
    filledgradrect col x1 y1 x2 y2 d (mkst b o) = (Ok (Some tt), mkst b' o) /\
    repainted b b' w h bits (fun x y =>
      if in_box x1 y1 x2 y2 x y then
        if d =? 0 then let n := Z.abs (x2 - x1) + 1 in v (Z.min x n) n
        else let n := Z.abs (y2 - y1) + 1 in v (Z.min y n) n
      else pixel b w h bits x y).
Proof.
  intros col b w h bits o x1 y1 x2 y2 d W HB I1 I2 Hc.
  destruct (gradrect_run b w h bits o x1 y1 x2 y2 d col W HB I1 I2 Hc) as (b' & E & R).
  exists (fun i n => dcol b bits (col i n)), b'. split; [intros i n Hi; eapply dcol_shows; eauto|]. split; [exact E|].
  eapply repainted_ext; [|exact R]. intros x y _. cbn beta. cbv zeta. unfold gfrac. now destruct (d =? 0).
Qed.
Theorem C71_dichromatic : forall col b w h o x1 y1 x2 y2 d, wf b w h 24 ->
  inside w h x1 y1 -> inside w h x2 y2 -> (forall n m, 0 <= n <= m -> 0 <= col n m < 2 ^ 24) ->
  exists b', filleddichromaticgradrect col x1 y1 x2 y2 d (mkst b o) = (Ok (Some tt), mkst b' o) /\
    repainted b b' w h 24 (fun x y =>
      if in_box x1 y1 x2 y2 x y then
        if d =? 0 then let n := Z.abs (x2 - x1) + 1 in col (Z.min x n) n
        else let n := Z.abs (y2 - y1) + 1 in col (Z.min y n) n
      else pixel b w h 24 x y).
Proof. intros. now apply dichrorect_run. Qed.
(** the backgrounds are the rectangles of the whole image *)
Theorem C71_background : forall col b w h bits o d, wf b w h bits ->
  fillbackgroundwithgrad col d (mkst b o) = filledgradrect col 0 0 (w - 1) (h - 1) d (mkst b o) /\
  fillbackgroundwithdichromaticgrad col d (mkst b o) = filleddichromaticgradrect col 0 0 (w - 1) (h - 1) d (mkst b o).
Proof. intros. unfold fillbackgroundwithgrad, fillbackgroundwithdichromaticgrad. now rewrite !(whole_run b w h bits) by auto. Qed.
(** the place in the gradient is the place in the image, not in the rectangle: a
    rectangle whose distance from the border is at least its size has one colour *)
Theorem C71_one_colour : forall col b w h o x1 y1 x2 y2 px py qx qy, wf b w h 24 ->
  inside w h x1 y1 -> inside w h x2 y2 -> (forall n m, 0 <= n <= m -> 0 <= col n m < 2 ^ 24) ->
  Z.abs (x2 - x1) < Z.min x1 x2 -> in_box x1 y1 x2 y2 px py = true -> in_box x1 y1 x2 y2 qx qy = true ->
  exists b', filledgradrect col x1 y1 x2 y2 0 (mkst b o) = (Ok (Some tt), mkst b' o) /\
    pixel b' w h 24 px py = pixel b' w h 24 qx qy.
Proof.
  intros col b w h o x1 y1 x2 y2 px py qx qy W I1 I2 Hc F HP HQ.
  destruct (C71_gradient col b w h 24 o x1 y1 x2 y2 0 W ltac:(auto) I1 I2 Hc) as (v & b' & _ & E & R). exists b'. split; [exact E|].
  assert (G : forall x y, in_box x1 y1 x2 y2 x y = true -> inside w h x y /\ Z.min x (Z.abs (x2 - x1) + 1) = Z.abs (x2 - x1) + 1).
  { intros x y Hb. unfold in_box in Hb. unfold inside in *. lia. }
  destruct (G px py HP) as [A1 A2], (G qx qy HQ) as [B1 B2].
  rewrite !(proj2 (proj2 R)) by auto. cbn beta. rewrite HP, HQ. cbn [Z.eqb]. cbv zeta. now rewrite A2, B2.
Qed.
Theorem C71_refused : forall col b w h bits o x1 y1 x2 y2 d, wf b w h bits ->
  (bits < 8 -> filledgradrect col x1 y1 x2 y2 d (mkst b o) = (Ok None, mkst b (o ++ [Mnot24or8bit]))) /\
  (bits <> 24 -> filleddichromaticgradrect col x1 y1 x2 y2 d (mkst b o) = (Ok None, mkst b (o ++ [Mnot24bit]))) /\
  (bits = 24 -> ~ (inside w h x1 y1 /\ inside w h x2 y2) ->
     filledgradrect col x1 y1 x2 y2 d (mkst b o) = (Ok None, mkst b (o ++ [Mregionoutofbounds])) /\
     filleddichromaticgradrect col x1 y1 x2 y2 d (mkst b o) = (Ok None, mkst b (o ++ [Mregionoutofbounds]))).
Proof.
  intros col b w h bits o x1 y1 x2 y2 d W. unfold filledgradrect, filleddichromaticgradrect. split; [|split].
  - intros HB. unfold func8and24bitonlyandentirerectinboundary. rewrite (bind_ok _ _ _ _ _ (wf_geti_bits _ _ _ _ W o)).
    now replace (negb ((bits =? 24) || (bits =? 8))) with true by lia.
  - intros HB. now apply guard24_depth with (w := w) (h := h) (bits := bits).
  - intros -> N. split; [|now apply guard24_false with (w := w) (h := h)].
    unfold func8and24bitonlyandentirerectinboundary. rewrite (bind_ok _ _ _ _ _ (wf_geti_bits _ _ _ _ W o)). change (negb ((24 =? 24) || (24 =? 8))) with false. cbv iota.
    destruct (inside_dec w h x1 y1) as [I1|I1].
    + rewrite (bind_ok _ _ _ _ _ (run_rd _ _ _ _ (wf_inbnd_true _ _ _ _ W _ _ I1))).
      rewrite (bind_ok _ _ _ _ _ (run_rd _ _ _ _ (wf_inbnd_false _ _ _ _ W x2 y2 ltac:(tauto)))). reflexivity.
    + rewrite (bind_ok _ _ _ _ _ (run_rd _ _ _ _ (wf_inbnd_false _ _ _ _ W _ _ I1))).
      destruct (inside_dec w h x2 y2) as [I2|I2];
        [rewrite (bind_ok _ _ _ _ _ (run_rd _ _ _ _ (wf_inbnd_true _ _ _ _ W _ _ I2)))
        |rewrite (bind_ok _ _ _ _ _ (run_rd _ _ _ _ (wf_inbnd_false _ _ _ _ W _ _ I2)))]; reflexivity.
Qed.
Example C71_ex : let col := fun n d => 255 * n / d in
  rows (after (filledgradrect col 0 2 2 1 0) (blank 5 3 24)) 5 3 24 = [[0; 0; 0; 0; 0]; [0; 85; 170; 0; 0]; [0; 85; 170; 0; 0]] /\
  rows (after (filledgradrect col 3 2 4 1 0) (blank 5 3 24)) 5 3 24 = [[0; 0; 0; 0; 0]; [0; 0; 0; 255; 255]; [0; 0; 0; 255; 255]] /\
  (forall n m, 0 <= n <= m -> 0 <= col n m < 2 ^ 24).
Proof.
  cbv zeta. split; [vm_compute; reflexivity|]. split; [vm_compute; reflexivity|].
  intros n m H. destruct (Z.eq_dec m 0) as [-> |N]; [rewrite Zdiv_0_r; lia|].
  split; [apply Z.div_pos; lia|]. apply Z.div_lt_upper_bound; lia.
Qed.
Print Assumptions C71_gradient.
Print Assumptions C71_dichromatic.
Print Assumptions C71_background.
Print Assumptions C71_one_colour.
Print Assumptions C71_refused.

(** * C72 *)
Theorem C72_polyline : forall b w h bits o vs c p, wf b w h bits -> 0 < w -> 0 < h -> 0 <= c < 2 ^ bits -> p <= 1 ->
  Forall (fun e => seg_fits w h bits (fst e) (snd e)) (edges vs) ->
  exists b' o', plotlines vs c p (mkst b o) = (Ok tt, mkst b' o') /\ (bits <> 1 -> o' = o) /\
    repainted b b' w h bits (fun x y => if any_edge (seg_hit w h) (edges vs) x y then c else pixel b w h bits x y).
Proof. intros. apply fills_open with (R := quiet bits); auto. now apply plotlines_thin. Qed.
Theorem C72_polygon : forall b w h bits o vs c, wf b w h bits -> 0 < w -> 0 < h -> 0 <= c < 2 ^ bits -> vs <> [] ->
  Forall (fun e => seg_fits w h bits (fst e) (snd e)) (closed_edges vs) ->
  exists b' o', plotpoly vs c (mkst b o) = (Ok tt, mkst b' o') /\ (bits <> 1 -> o' = o) /\
    repainted b b' w h bits (fun x y => if any_edge (seg_hit w h) (closed_edges vs) x y then c else pixel b w h bits x y).
Proof. intros. apply fills_open with (R := quiet bits); auto. now apply plotpoly_fill. Qed.
Theorem C72_polygons : forall b w h bits o l c, wf b w h bits -> 0 < w -> 0 < h -> 0 <= c < 2 ^ bits ->
  Forall (fun vs => vs <> [] /\ Forall (fun e => seg_fits w h bits (fst e) (snd e)) (closed_edges vs)) l ->
  exists b' o', plotpolylist l c (mkst b o) = (Ok tt, mkst b' o') /\ (bits <> 1 -> o' = o) /\
    repainted b b' w h bits (fun x y =>
      if existsb (fun vs => any_edge (seg_hit w h) (closed_edges vs) x y) l then c else pixel b w h bits x y).
Proof.
  intros. apply (fills_open (quiet bits) b w h bits _ (fun x y => existsb (fun vs => any_edge (seg_hit w h) (closed_edges vs) x y) l)); auto.
  now apply plotpolylist_fill.
Qed.
Theorem C72_rectangle : forall b w h bits o x1 y1 x2 y2 c, wf b w h bits -> 0 < w -> 0 < h -> 0 <= c < 2 ^ bits -> bits <> 4 ->
  exists b' o', rectangle x1 y1 x2 y2 c (mkst b o) = (Ok tt, mkst b' o') /\ (bits <> 1 -> o' = o) /\
    repainted b b' w h bits (fun x y =>
      let a1 := into w x1 in let a2 := into w x2 in let d1 := into h y1 in let d2 := into h y2 in
      if in_box a1 d1 a2 d2 x y && ((x =? a1) || (x =? a2) || (y =? d1) || (y =? d2)) then c else pixel b w h bits x y).
Proof.
  intros. apply (fills_open (quiet bits) b w h bits _ (fun x y =>
      in_box (into w x1) (into h y1) (into w x2) (into h y2) x y &&
      ((x =? into w x1) || (x =? into w x2) || (y =? into h y1) || (y =? into h y2)))); auto.
  now apply rectangle_fill.
Qed.
Theorem C72_empty : forall b o c p, plotpoly [] c (mkst b o) = (Err IndexError, mkst b o) /\
  thickplotpoly [] p c (mkst b o) = (Err IndexError, mkst b o) /\ plotlines [] c p (mkst b o) = (Ok tt, mkst b o).
Proof. intros. repeat split. unfold plotlines. now destruct (p <=? 1). Qed.
(** a rectangle that lies outside the image leaves a trace at the border *)
Theorem C72_outside_refuted : exists b w h x1 y1 x2 y2 c px py, wf b w h 24 /\ w <= Z.min x1 x2 /\ 0 <= c < 2 ^ 24 /\ inside w h px py /\
  pixel b w h 24 px py <> c /\ pixel (after (rectangle x1 y1 x2 y2 c) b) w h 24 px py = c.
Proof.
  exists (sample24 5 3), 5, 3, 7, 0, 9, 2, 1, 4, 1. split; [apply sample24_wf|]. split; [lia|]. split; [lia|]. split; [unfold inside; lia|].
  split; [vm_compute; discriminate|vm_compute; reflexivity].
Qed.
Example C72_ex : let vs := [(1, 1); (3, 0); (4, 2)] in
  Forall (fun e => seg_fits 5 3 24 (fst e) (snd e)) (closed_edges vs) /\
  rows (after (plotpoly vs 7) (blank 5 3 24)) 5 3 24 = [[0; 0; 7; 7; 0]; [0; 7; 7; 0; 7]; [0; 0; 0; 7; 7]] /\
  rows (after (rectangle 3 2 1 (-4) 7) (blank 5 3 24)) 5 3 24 = [[0; 7; 7; 7; 0]; [0; 7; 0; 7; 0]; [0; 7; 7; 7; 0]].
Proof.
  cbv zeta. split; [|split; vm_compute; reflexivity].
  apply Forall_cons; [|apply Forall_cons; [|apply Forall_cons; [|apply Forall_nil]]];
    (split; [intros E; discriminate E|vm_compute; intros E; discriminate E]).
Qed.
Print Assumptions C72_polyline.
Print Assumptions C72_polygon.
Print Assumptions C72_polygons.
Print Assumptions C72_rectangle.
Print Assumptions C72_empty.
Print Assumptions C72_outside_refuted.

(** * C73 *)
Theorem C73_line : forall b w h bits o u v p c, wf b w h bits -> storable bits c -> pen_at bits (Z.min (fst u) (fst v)) ->
  exists b' o', thickroundline u v p c (mkst b o) = (Ok tt, mkst b' o') /\ (bits <> 1 -> o' = o) /\
    repainted b b' w h bits (fun x y => if thick_seg p u v x y then reduce bits c else pixel b w h bits x y).
Proof. intros. apply fills_open with (R := quiet bits); auto. apply thickline_fills; auto. eapply wf_depth; eauto. Qed.
Theorem C73_polyline : forall b w h bits o vs p c, wf b w h bits -> storable bits c -> 1 < p ->
  Forall (fun e => pen_at bits (Z.min (fst (fst e)) (fst (snd e)))) (edges vs) ->
  exists b' o', plotlines vs c p (mkst b o) = (Ok tt, mkst b' o') /\ (bits <> 1 -> o' = o) /\
    repainted b b' w h bits (fun x y => if any_edge (thick_seg p) (edges vs) x y then reduce bits c else pixel b w h bits x y).
Proof. intros. apply fills_open with (R := quiet bits); auto. now apply plotlines_thick. Qed.
Theorem C73_polygon : forall b w h bits o vs p c, wf b w h bits -> storable bits c -> vs <> [] ->
  Forall (fun e => pen_at bits (Z.min (fst (fst e)) (fst (snd e)))) (closed_edges vs) ->
  exists b' o', thickplotpoly vs p c (mkst b o) = (Ok tt, mkst b' o') /\ (bits <> 1 -> o' = o) /\
    repainted b b' w h bits (fun x y => if any_edge (thick_seg p) (closed_edges vs) x y then reduce bits c else pixel b w h bits x y).
Proof. intros. apply fills_open with (R := quiet bits); auto. now apply thickpoly_fill. Qed.
Theorem C73_circle : forall b w h bits o x y r p c, wf b w h bits -> storable bits c -> pen_at bits (x - r) -> 0 <= r ->
  exists b' o', thickcircle x y r p c (mkst b o) = (Ok tt, mkst b' o') /\ (bits <> 1 -> o' = o) /\
    repainted b b' w h bits (fun px py => if thick_ring p x y r px py then reduce bits c else pixel b w h bits px py).
Proof. intros. apply fills_open with (R := quiet bits); auto. now apply ring_fills. Qed.
(** the points of a curve (any list of points), with a round pen of radius p > 1 or pixel by pixel *)
Theorem C73_points : forall b w h bits o vs p c, wf b w h bits -> storable bits c ->
  (1 < p -> Forall (fun q => pen_at bits (fst q)) vs) ->
  exists b' o', plotxypointlist vs p c (mkst b o) = (Ok tt, mkst b' o') /\ (bits <> 1 -> o' = o) /\
    repainted b b' w h bits (fun px py =>
      if existsb (fun q => if 1 <? p then in_disc p (px - fst q) (py - snd q) else (px =? fst q) && (py =? snd q)) vs
      then reduce bits c else pixel b w h bits px py).
Proof.
  intros b w h bits o vs p c W Hs HP.
  apply (fills_open (quiet bits) b w h bits _ (fun px py => existsb (fun q => if 1 <? p then in_disc p (px - fst q) (py - snd q) else (px =? fst q) && (py =? snd q)) vs)); auto.
  destruct (Z.ltb_spec 1 p); [apply points_thick; auto|apply points_thin; auto].
Qed.
Theorem C73_discs : forall b w h bits o pts p c, wf b w h bits -> storable bits c -> 0 <= p -> Forall (fun q => pen_at bits (fst q)) pts ->
  exists b' o', thickellipserot pts p c (mkst b o) = (Ok tt, mkst b' o') /\ (bits <> 1 -> o' = o) /\
    repainted b b' w h bits (fun px py =>
      if existsb (fun q => in_disc p (px - fst q) (py - snd q)) pts then reduce bits c else pixel b w h bits px py).
Proof.
  intros. apply (fills_open (quiet bits) b w h bits _ (fun px py => existsb (fun q => in_disc p (px - fst q) (py - snd q)) pts)); auto.
  now apply discs_fills.
Qed.
(** a pen of radius 0 paints the bare pixels *)
Theorem C73_pen_0 : forall S x y, dilate 0 S x y = S x y.
Proof.
  intros. unfold dilate. change (range (- 0) (0 + 1)) with [0]. cbn [existsb]. rewrite !Z.sub_0_r, !orb_false_r.
  change (in_disc 0 0 0) with true. apply andb_true_r.
Qed.
Example C73_ex : pen_at 24 1 /\
  rows (after (thickroundline (1, 1) (4, 2) 1 7) (blank 6 4 24)) 6 4 24 =
    [[0; 7; 7; 0; 0; 0]; [7; 7; 7; 7; 7; 0]; [0; 7; 7; 7; 7; 7]; [0; 0; 0; 7; 7; 0]] /\
  rows (after (thickcircle 4 4 2 1 7) (blank 8 8 24)) 8 8 24 =
    [[0; 0; 0; 0; 0; 0; 0; 0]; [0; 0; 0; 7; 7; 7; 0; 0]; [0; 0; 7; 7; 7; 7; 7; 0]; [0; 7; 7; 7; 7; 7; 7; 7];
     [0; 7; 7; 7; 0; 7; 7; 7]; [0; 7; 7; 7; 7; 7; 7; 7]; [0; 0; 7; 7; 7; 7; 7; 0]; [0; 0; 0; 7; 7; 7; 0; 0]].
Proof.
  split; [unfold pen_at; split; [discriminate|split; [discriminate|intros; discriminate]]|].
  split; vm_compute; reflexivity.
Qed.
Print Assumptions C73_line.
Print Assumptions C73_polyline.
Print Assumptions C73_polygon.
Print Assumptions C73_circle.
Print Assumptions C73_points.
Print Assumptions C73_discs.
Print Assumptions C73_pen_0.

(** * C74 *)
Theorem C74_line : forall col b w h bits o u v p, wf b w h bits -> (forall i, 1 <= i <= p -> 0 <= col i < 2 ^ 24) ->
  pen_at bits (Z.min (fst u) (fst v)) ->
  exists k b' o', (forall i, 1 <= i <= p -> shows b bits (col i) (k i)) /\
    gradthickroundline col u v p (mkst b o) = (Ok tt, mkst b' o') /\ (bits <> 1 -> o' = o) /\
    repainted b b' w h bits (fun x y =>
      match top_layer (fun i => thick_seg i u v) 1 p x y with Some i => k i | None => pixel b w h bits x y end).
Proof. intros. apply layers_open with (R := quiet bits); auto. now apply gradline_paint. Qed.
Theorem C74_polygon : forall col b w h bits o vs p, wf b w h bits -> (forall i, 1 <= i <= p -> 0 <= col i < 2 ^ 24) -> vs <> [] ->
  Forall (fun e => pen_at bits (Z.min (fst (fst e)) (fst (snd e)))) (closed_edges vs) ->
  exists k b' o', (forall i, 1 <= i <= p -> shows b bits (col i) (k i)) /\
    gradthickplotpoly col vs p (mkst b o) = (Ok tt, mkst b' o') /\ (bits <> 1 -> o' = o) /\
    repainted b b' w h bits (fun x y =>
      match top_layer (fun i => any_edge (thick_seg i) (closed_edges vs)) 1 p x y with Some i => k i | None => pixel b w h bits x y end).
Proof. intros. apply layers_open with (R := quiet bits); auto. now apply gradpoly_paint. Qed.
(** the innermost layer is a thin polyline *)
Theorem C74_polyline : forall col b w h bits o vs p, wf b w h bits -> 0 < w -> 0 < h -> (forall i, 1 <= i <= p -> 0 <= col i < 2 ^ 24) ->
  Forall (fun e => seg_fits w h bits (fst e) (snd e) /\ pen_at bits (Z.min (fst (fst e)) (fst (snd e)))) (edges vs) ->
  exists k b' o', (forall i, 1 <= i <= p -> shows b bits (col i) (k i)) /\
    gradplotlines col vs p (mkst b o) = (Ok tt, mkst b' o') /\ (bits <> 1 -> o' = o) /\
    repainted b b' w h bits (fun x y =>
      match top_layer (fun i => any_edge (if i =? 1 then seg_hit w h else thick_seg i) (edges vs)) 1 p x y with
      | Some i => k i | None => pixel b w h bits x y end).
Proof. intros. apply layers_open with (R := quiet bits); auto. now apply gradlines_paint. Qed.
Theorem C74_points : forall col b w h bits o vs p, wf b w h bits -> (forall i, 1 <= i <= p -> 0 <= col i < 2 ^ 24) ->
  Forall (fun q => pen_at bits (fst q)) vs ->
  exists k b' o', (forall i, 1 <= i <= p -> shows b bits (col i) (k i)) /\
    gradvert col vs p (mkst b o) = (Ok tt, mkst b' o') /\ (bits <> 1 -> o' = o) /\
    repainted b b' w h bits (fun x y =>
      match top_layer (fun i x y => existsb (fun q => if i =? 1 then (x =? fst q) && (y =? snd q)
                                                     else in_disc i (x - fst q) (y - snd q)) vs) 1 p x y with
      | Some i => k i | None => pixel b w h bits x y end).
Proof.
  intros. apply (layers_open (quiet bits) b w h bits _ (fun i x y => existsb (fun q => if i =? 1 then (x =? fst q) && (y =? snd q)
                                                     else in_disc i (x - fst q) (y - snd q)) vs) 1 p); auto.
  now apply gradvert_paint.
Qed.
Theorem C74_ring : forall col b w h bits o x y r p, wf b w h bits -> (forall i, 1 <= i <= p -> 0 <= col i < 2 ^ 24) ->
  pen_at bits (x - r) -> 0 <= r ->
  exists k b' o', (forall i, 1 <= i <= p -> shows b bits (col i) (k i)) /\
    gradthickcircle col x y r p (mkst b o) = (Ok tt, mkst b' o') /\ (bits <> 1 -> o' = o) /\
    repainted b b' w h bits (fun px py =>
      match top_layer (fun i => thick_ring i x y r) 1 p px py with Some i => k i | None => pixel b w h bits px py end).
Proof. intros. apply layers_open with (R := quiet bits); auto. now apply gradring_paint. Qed.
(** the marker around an area is such a ring of thickness 8 *)
Theorem C74_encircle : forall col x y r s, thickencirclearea col x y r s = gradthickcircle col x y r 8 s.
Proof. reflexivity. Qed.
(** rings of radius 1, ..., r - 1, each drawn with a pen of radius 2 *)
Theorem C74_circle : forall col b w h bits o x y r, wf b w h bits -> (forall i, 1 <= i < r -> 0 <= col i < 2 ^ 24) ->
  pen_at bits (x - r) ->
  exists k b' o', (forall i, 1 <= i < r -> shows b bits (col i) (k i)) /\
    gradcircle col x y r (mkst b o) = (Ok tt, mkst b' o') /\ (bits <> 1 -> o' = o) /\
    repainted b b' w h bits (fun px py =>
      match top_layer (fun i => thick_ring 2 x y i) 1 (r - 1) px py with Some i => k i | None => pixel b w h bits px py end).
Proof. intros. apply layers_open with (R := quiet bits); auto. now apply gradcircle_paint. Qed.
Theorem C74_dichromic : forall col b w h o x y r, wf b w h 24 -> (forall i, 1 <= i < r -> 0 <= col i < 2 ^ 24) -> -19 <= x - r ->
  exists b', graddichromiccircle col x y r (mkst b o) = (Ok (Some tt), mkst b' o) /\
    repainted b b' w h 24 (fun px py =>
      match top_layer (fun i => thick_ring 2 x y i) 1 (r - 1) px py with Some i => col i | None => pixel b w h 24 px py end).
Proof.
  intros col b w h o x y r W Hc Hx. unfold graddichromiccircle, func24bitonly.
  rewrite (bind_ok _ _ _ _ _ (wf_geti_bits _ _ _ _ W o)). cbn [Z.eqb Pos.eqb negb].
  assert (HP : pen_at 24 (x - r)) by (unfold pen_at; repeat split; auto; intros E; discriminate E).
  destruct (draws_open _ _ _ _ _ _ _ o W (dichromic_paint b w h 24 W x y r col eq_refl Hc HP)) as (b' & o' & E & Q & R).
  rewrite (Q ltac:(discriminate)) in E. exists b'. unfold withSome. rewrite (bind_ok _ _ _ _ _ E). split; [reflexivity|].
  eapply repainted_ext; [|exact R]. intros px py _. cbn beta. now destruct (top_layer _ 1 (r - 1) px py).
Qed.
Theorem C74_dichromic_other_depth : forall col b w h bits o x y r, wf b w h bits -> bits <> 24 ->
  graddichromiccircle col x y r (mkst b o) = (Ok None, mkst b (o ++ [Mnot24bit])).
Proof.
  intros col b w h bits o x y r W N. unfold graddichromiccircle, func24bitonly. rewrite (bind_ok _ _ _ _ _ (wf_geti_bits _ _ _ _ W o)).
  now replace (bits =? 24) with false by lia.
Qed.
(** a disc of half the radius below rings drawn with a pen of radius 2 *)
Theorem C74_orb : forall c0 col b w h bits o x y r, wf b w h bits -> 0 <= c0 < 2 ^ 24 -> (forall i, r / 2 < i < r -> 0 <= col i < 2 ^ 24) ->
  pen_at bits (x - r) -> 0 <= r ->
  exists k k0 b' o', (forall i, r / 2 < i < r -> shows b bits (col i) (k i)) /\ shows b bits c0 k0 /\
    orb c0 col x y r (mkst b o) = (Ok tt, mkst b' o') /\ (bits <> 1 -> o' = o) /\
    repainted b b' w h bits (fun px py =>
      match top_layer (fun i => thick_ring 2 x y i) (r / 2 + 1) (r - 1) px py with
      | Some i => k i
      | None => if in_disc (r / 2) (px - x) (py - y) then k0 else pixel b w h bits px py
      end).
Proof.
  intros c0 col b w h bits o x y r W H0 Hc HP Hr.
  destruct (draws_open _ _ _ _ _ _ _ o W (orb_paint b w h bits W c0 x y r col H0 Hc HP Hr)) as (b' & o' & E & Q & R).
  exists (fun i => dcol b bits (col i)), (dcol b bits c0), b', o'.
  split; [intros i Hi; eapply dcol_shows; eauto|]. split; [eapply dcol_shows; eauto|]. split; [exact E|]. split; [exact Q|].
  eapply repainted_ext; [|exact R]. intros px py _. cbn beta.
  destruct (top_layer _ (r / 2 + 1) (r - 1) px py); cbn [option_map]; auto. now destruct (in_disc (r / 2) (px - x) (py - y)).
Qed.
Theorem C74_discs : forall col b w h bits o pts p, wf b w h bits -> (forall i, 1 <= i <= p -> 0 <= col i < 2 ^ 24) ->
  Forall (fun q => pen_at bits (fst q)) pts ->
  exists k b' o', (forall i, 1 <= i <= p -> shows b bits (col i) (k i)) /\
    gradthickellipserot col pts p (mkst b o) = (Ok tt, mkst b' o') /\ (bits <> 1 -> o' = o) /\
    repainted b b' w h bits (fun x y =>
      match top_layer (fun i x y => existsb (fun q => in_disc i (x - fst q) (y - snd q)) pts) 1 p x y with
      | Some i => k i | None => pixel b w h bits x y end).
Proof.
  intros. apply (layers_open (quiet bits) b w h bits _ (fun i x y => existsb (fun q => in_disc i (x - fst q) (y - snd q)) pts) 1 p); auto.
  now apply graddiscs_paint.
Qed.
(** the disc in the middle of an orb of radius 4 is hidden but for one pixel, and
    the orb is larger than its radius *)
Theorem C74_orb_hidden_refuted : exists r c0 col w h x y, let b' := after (orb c0 col x y r) (blank w h 24) in
  wf (blank w h 24) w h 24 /\
  (exists px py, in_disc (r / 2) (px - x) (py - y) = true /\ inside w h px py /\ pixel b' w h 24 px py <> c0) /\
  (exists px py, in_disc r (px - x) (py - y) = false /\ inside w h px py /\ pixel b' w h 24 px py <> 0).
Proof.
  exists 4, 9, (fun i => i), 9, 9, 4, 4. cbv zeta. split; [concrete_wf|]. split.
  - exists 4, 3. split; [reflexivity|]. split; [unfold inside; lia|vm_compute; discriminate].
  - exists 1, 0. split; [reflexivity|]. split; [unfold inside; lia|vm_compute; discriminate].
Qed.
Example C74_ex : rows (after (gradthickroundline (fun i => 10 * i) (1, 1) (4, 2) 2) (blank 7 5 24)) 7 5 24 =
    [[20; 10; 10; 20; 20; 20; 0]; [10; 10; 10; 10; 10; 20; 20]; [20; 10; 10; 10; 10; 10; 20]; [20; 20; 20; 10; 10; 20; 20];
     [0; 0; 20; 20; 20; 20; 0]] /\
  rows (after (gradvert (fun i => i) [(2, 2); (6, 2)] 2) (blank 8 5 24)) 8 5 24 =
    [[0; 2; 2; 2; 0; 2; 2; 2]; [2; 2; 2; 2; 2; 2; 2; 2]; [2; 2; 1; 2; 2; 2; 1; 2]; [2; 2; 2; 2; 2; 2; 2; 2]; [0; 2; 2; 2; 0; 2; 2; 2]] /\
  rows (after (gradcircle (fun i => i) 4 4 3) (blank 9 9 24)) 9 9 24 =
    [[0; 0; 2; 2; 2; 2; 2; 0; 0]; [0; 2; 2; 1; 1; 1; 2; 2; 0]; [2; 2; 1; 1; 1; 1; 1; 2; 2]; [2; 1; 1; 1; 1; 1; 1; 1; 2];
     [2; 1; 1; 1; 1; 1; 1; 1; 2]; [2; 1; 1; 1; 1; 1; 1; 1; 2]; [2; 2; 1; 1; 1; 1; 1; 2; 2]; [0; 2; 2; 1; 1; 1; 2; 2; 0];
     [0; 0; 2; 2; 2; 2; 2; 0; 0]].
Proof. do 2 (split; [vm_compute; reflexivity|]). vm_compute. reflexivity. Qed.
Print Assumptions C74_line.
Print Assumptions C74_polygon.
Print Assumptions C74_polyline.
Print Assumptions C74_points.
Print Assumptions C74_ring.
Print Assumptions C74_encircle.
Print Assumptions C74_circle.
Print Assumptions C74_dichromic.
Print Assumptions C74_dichromic_other_depth.
Print Assumptions C74_orb.
Print Assumptions C74_discs.
Print Assumptions C74_orb_hidden_refuted.

(** * C75 *)
Theorem C75_quadrant : forall a b, 0 < a -> 0 < b ->
  exists l, iterellipsepart b a = Ok l /\
    (exists t, l = (0, b) :: t) /\
    (forall p q, In (p, q) (edges l) -> down_right p q) /\
    (forall x y, In (x, y) l -> 0 <= x /\ 0 <= y <= b) /\
    (forall y, 0 <= y <= b -> exists x, In (x, y) l) /\
    (forall x y, In (x, y) l -> x * (b * b) <= y * (a * a) -> ell_row b a x y).
Proof.
  intros a b Ha Hb. destruct (ellipsepart_run a b Ha Hb) as (l & E & C & H & G & V). exists l. split; [exact E|].
  unfold chain in C. unfold good in G. rewrite Forall_forall in C, G. split; [|split; [|split; [|split]]].
  - destruct l as [|q t]; [destruct (V b ltac:(lia)) as (u & [])|]. cbn [hd] in H. subst q. now exists t.
  - intros p q Hpq. exact (C _ Hpq).
  - intros x y Hi. specialize (G _ Hi). cbn [fst snd] in G. tauto.
  - intros y Hy. apply V. lia.
  - intros x y Hi. specialize (G _ Hi). cbn [fst snd] in G. tauto.
Qed.
(** degenerate half axes *)
Theorem C75_flat : forall a, 0 < a -> iterellipsepart 0 a = Ok [(0, 0)].
Proof. exact ellipse_flat. Qed.
Theorem C75_negative : forall a b, b < 0 -> a <> 0 -> iterellipsepart b a = Ok [].
Proof. intros. now apply ellipse_neg. Qed.
(** whatever the number of turns allowed, the point ellipse does not end *)
Theorem C75_point_never_ends : forall turns, iterellipsepart_fuel turns 0 0 = Err Diverges.
Proof. exact ellipse_loops. Qed.
Theorem C75_no_width_refuted : exists b l, 0 < b /\ iterellipsepart b 0 = Ok l /\ exists x y, In (x, y) l /\ 0 < x.
Proof. exists 3, [(0, 3); (1, 2); (2, 1); (2, 0)]. split; [lia|]. split; [reflexivity|]. exists 2, 1. cbn [In]. split; [auto|lia]. Qed.
(** the outline does not reach its half axis a, or passes it *)
Theorem C75_width_refuted : (exists a b l, 0 < a /\ 0 < b /\ iterellipsepart b a = Ok l /\ forall x y, In (x, y) l -> x < a) /\
  (exists a b l x y, 0 < a /\ 0 < b /\ iterellipsepart b a = Ok l /\ In (x, y) l /\ a < x).
Proof.
  split.
  - exists 4, 1, [(0, 1); (1, 1); (2, 1); (3, 0)]. split; [lia|]. split; [lia|]. split; [reflexivity|].
    intros x y [K|[K|[K|[K|[]]]]]; inversion K; lia.
  - exists 1, 3, [(0, 3); (1, 2); (1, 1); (2, 0)], 2, 0. split; [lia|]. split; [lia|]. split; [reflexivity|]. cbn [In]. split; [auto|lia].
Qed.
(** with equal half axes the outline is not that of the circle *)
Theorem C75_circle_refuted : exists r l, 0 < r /\ iterellipsepart r r = Ok l /\ exists x y, In (x, y) l /\ on_ring r x y = false.
Proof.
  exists 4, [(0, 4); (1, 4); (2, 3); (3, 3); (4, 2); (4, 1); (5, 0)]. split; [lia|]. split; [reflexivity|].
  exists 5, 0. split; [cbn [In]; tauto|reflexivity].
Qed.
Example C75_ex : iterellipsepart 3 5 = Ok [(0, 3); (1, 3); (2, 3); (3, 2); (4, 2); (5, 1); (5, 0)].
Proof. reflexivity. Qed.
Print Assumptions C75_quadrant.
Print Assumptions C75_flat.
Print Assumptions C75_negative.
Print Assumptions C75_point_never_ends.
Print Assumptions C75_no_width_refuted.
Print Assumptions C75_width_refuted.
Print Assumptions C75_circle_refuted.

(** * C76 *)
Theorem C76_outline : forall B w h bits o x y b a c, wf B w h bits -> (bits = 8 -> 0 <= c < 256) -> storable bits c -> 0 < a -> 0 < b ->
  exists l, iterellipsepart b a = Ok l /\
  ((0 <= x - b -> x + b < w -> 0 <= y - a -> y + a < h ->
      forall u v, In (u, v) l -> 0 <= x - u /\ x + u < w /\ 0 <= y - v /\ y + v < h) ->
   exists B', ellipse x y b a c false (mkst B o) = (Ok tt, mkst B' o) /\
     repainted B B' w h bits (fun px py => if mirrored l x y px py then reduce bits c else pixel B w h bits px py)).
Proof.
  intros B w h bits o x y b a c W H8 Hs Ha Hb. destruct (ellipsepart_run a b Ha Hb) as (l & E & _ & _ & G & _).
  exists l. split; [exact E|]. intros Hin. apply (ellipse_run B w h bits x y b a c l); auto. eapply good_quadrant; eauto.
Qed.
Theorem C76_filled : forall B w h bits o x y b a c, wf B w h bits -> storable bits c -> pen_at bits x -> 0 < a -> 0 < b ->
  exists l B' o', iterellipsepart b a = Ok l /\
    ellipse x y b a c true (mkst B o) = (Ok tt, mkst B' o') /\ (bits <> 1 -> o' = o) /\
    repainted B B' w h bits (fun px py => if spanned l x y px py then reduce bits c else pixel B w h bits px py).
Proof.
  intros B w h bits o x y b a c W Hs HP Ha Hb. destruct (ellipsepart_run a b Ha Hb) as (l & E & _ & _ & G & _).
  destruct (fills_open _ _ _ _ _ _ _ _ o W (ellipse_fills B w h bits W x y b a c l Hs HP E (good_quadrant _ _ _ G))) as (B' & o' & E' & Q & R).
  exists l, B', o'. auto.
Qed.
(** a gradient ellipse that is at least as wide as high *)
Theorem C76_gradient : forall col B w h bits o x y b a, wf B w h bits -> (forall i, 1 <= i <= a -> 0 <= col i < 2 ^ 24) ->
  pen_at bits x -> 0 < b <= a ->
  exists L k B' o', (forall i, 1 <= i <= a -> iterellipsepart (b - a + i) i = Ok (L i)) /\
    (forall i, 1 <= i <= a -> shows B bits (col i) (k i)) /\
    gradellipse col x y b a (mkst B o) = (Ok tt, mkst B' o') /\ (bits <> 1 -> o' = o) /\
    repainted B B' w h bits (fun px py =>
      match top_layer (fun i => spanned (L i) x y) 1 a px py with Some i => k i | None => pixel B w h bits px py end).
Proof.
  intros col B w h bits o x y b a W Hc HP Hab.
  assert (EM : Z.max a b = a) by lia.
  set (L := fun i => match iterellipsepart (b - a + i) i with Ok l => l | Err _ => [] end).
  assert (HL : forall i, 1 <= i <= a -> iterellipsepart (b - a + i) i = Ok (L i) /\ quadrant (L i)).
  { intros i Hi. unfold L. destruct (Z.lt_trichotomy (b - a + i) 0) as [K|[K|K]].
    - rewrite ellipse_neg by lia. split; [reflexivity|]. intros u v [].
    - rewrite K, ellipse_flat by lia. split; [reflexivity|]. intros u v [Q|[]]. inversion Q. lia.
    - destruct (ellipsepart_run i (b - a + i) ltac:(lia) K) as (l & E & _ & _ & G & _). rewrite E. split; [reflexivity|].
      eapply good_quadrant; eauto. }
  exists L.
  assert (D : draws (quiet bits) B w h bits (gradellipse col x y b a)
    (fun px py => option_map (fun i => dcol B bits (col i)) (top_layer (fun i => spanned (L i) x y) 1 a px py))).
  { pose proof (gradellipse_paint B w h bits W x y b a col L) as K. rewrite EM in K. apply K; auto.
    intros i Hi. rewrite Z.sub_diag, Z.add_0_l. now apply HL. }
  destruct (layers_open (quiet bits) B w h bits _ (fun i => spanned (L i) x y) 1 a col (fun i => 1 <= i <= a) o W Hc D) as (k & B' & o' & H1 & H2 & H3 & H4).
  exists k, B', o'. split; [intros i Hi; now apply HL|]. auto.
Qed.
(** the box test has the half axes the wrong way round: a wide ellipse that leaves
    the image is taken for one inside and its points are stored unchecked *)
Theorem C76_swapped_refuted : exists w h x y b a c px py, wf (blank w h 24) w h 24 /\ 0 < a /\ 0 < b /\ inside w h px py /\
  Z.abs (py - y) > b /\ outcome (ellipse x y b a c false) (blank w h 24) = Ok tt /\
  pixel (after (ellipse x y b a c false) (blank w h 24)) w h 24 px py <> 0.
Proof.
  exists 3, 13, 1, 6, 1, 6, 7, 1, 4. split; [concrete_wf|]. split; [lia|]. split; [lia|]. split; [unfold inside; lia|].
  split; [lia|]. split; [vm_compute; reflexivity|vm_compute; discriminate].
Qed.
(** the outline passes its box: with equal half axes that fit the image exactly the
    points beyond the border appear elsewhere *)
Theorem C76_overshoot_refuted : exists w h x y r c px py, wf (blank w h 24) w h 24 /\
  0 <= x - r /\ x + r < w /\ 0 <= y - r /\ y + r < h /\ inside w h px py /\
  outcome (ellipse x y r r c false) (blank w h 24) = Ok tt /\
  pixel (after (ellipse x y r r c false) (blank w h 24)) w h 24 px py <> 0 /\
  pixel (after (ellipse x y r r c false) (blank w h 24)) w h 24 px py <> c.
Proof.
  exists 9, 9, 4, 4, 4, 7, 8, 5. split; [concrete_wf|]. do 4 (split; [lia|]). split; [unfold inside; lia|].
  split; [vm_compute; reflexivity|]. split; vm_compute; discriminate.
Qed.
(** a gradient ellipse that is higher than wide spills over its outline *)
Theorem C76_tall_gradient_refuted : exists w h x y b a px py, wf (blank w h 24) w h 24 /\ 0 < a < b /\ inside w h px py /\
  pixel (after (ellipse x y b a 9 true) (blank w h 24)) w h 24 px py = 0 /\
  pixel (after (gradellipse (fun i => i) x y b a) (blank w h 24)) w h 24 px py <> 0.
Proof.
  exists 7, 13, 3, 6, 6, 1, 0, 6. split; [concrete_wf|]. split; [lia|]. split; [unfold inside; lia|].
  split; [vm_compute; reflexivity|vm_compute; discriminate].
Qed.
Example C76_ex : iterellipsepart 2 3 = Ok [(0, 2); (1, 2); (2, 1); (3, 0)] /\
  rows (after (ellipse 3 2 2 3 7 false) (blank 7 5 24)) 7 5 24 =
    [[0; 0; 7; 7; 7; 0; 0]; [0; 7; 0; 0; 0; 7; 0]; [7; 0; 0; 0; 0; 0; 7]; [0; 7; 0; 0; 0; 7; 0]; [0; 0; 7; 7; 7; 0; 0]] /\
  rows (after (ellipse 3 2 2 3 7 true) (blank 7 5 24)) 7 5 24 =
    [[0; 0; 7; 7; 7; 0; 0]; [0; 7; 7; 7; 7; 7; 0]; [7; 7; 7; 7; 7; 7; 7]; [0; 7; 7; 7; 7; 7; 0]; [0; 0; 7; 7; 7; 0; 0]] /\
  rows (after (gradellipse (fun i => i) 5 3 2 4) (blank 11 7 24)) 11 7 24 =
    [[0; 0; 0; 0; 0; 0; 0; 0; 0; 0; 0]; [0; 0; 0; 4; 4; 4; 4; 4; 0; 0; 0]; [0; 0; 4; 3; 3; 3; 3; 3; 4; 0; 0];
     [0; 4; 3; 3; 3; 2; 3; 3; 3; 4; 0]; [0; 0; 4; 3; 3; 3; 3; 3; 4; 0; 0]; [0; 0; 0; 4; 4; 4; 4; 4; 0; 0; 0]; [0; 0; 0; 0; 0; 0; 0; 0; 0; 0; 0]].
Proof. split; [reflexivity|]. do 2 (split; [vm_compute; reflexivity|]). vm_compute. reflexivity. Qed.
Print Assumptions C76_outline.
Print Assumptions C76_filled.
Print Assumptions C76_gradient.
Print Assumptions C76_swapped_refuted.
Print Assumptions C76_overshoot_refuted.
Print Assumptions C76_tall_gradient_refuted.

(** * C77 *)
Theorem C77_parallelogram : forall b w h bits o p1 p2 p3 c, wf b w h bits -> 0 < w -> 0 < h -> 0 <= c < 2 ^ bits ->
  (forall u v, seg_points (fst p1) (snd p1) (fst p3) (snd p3) u v = true ->
     seg_fits w h bits (u, v) (u + (fst p2 - fst p1), v + (snd p2 - snd p1))) ->
  exists b' o', filledparallelogram p1 p2 p3 c (mkst b o) = (Ok tt, mkst b' o') /\ (bits <> 1 -> o' = o) /\
    repainted b b' w h bits (fun x y => if swept w h p1 p2 p3 x y then c else pixel b w h bits x y).
Proof. intros. apply fills_open with (R := quiet bits); auto. now apply parallelogram_fills. Qed.
(** segments keep their shape when both end points are moved *)
Theorem C77_translate : forall x1 y1 x2 y2 a d,
  iterline (x1 + a, y1 + d) (x2 + a, y2 + d) = map (fun p => (fst p + a, snd p + d)) (iterline (x1, y1) (x2, y2)).
Proof. intros. exact (iterline_shift a d (x1, y1) (x2, y2)). Qed.
(** a parallelogram with two diagonal sides has holes *)
Theorem C77_holes_refuted : exists w h p1 p2 p3 c px py, wf (blank w h 24) w h 24 /\ inside w h px py /\
  p1 = (1, 4) /\ p2 = (4, 7) /\ p3 = (4, 1) /\ Z.abs (px - 4) + Z.abs (py - 4) < 3 /\ 0 < c < 2 ^ 24 /\
  outcome (filledparallelogram p1 p2 p3 c) (blank w h 24) = Ok tt /\
  pixel (after (filledparallelogram p1 p2 p3 c) (blank w h 24)) w h 24 px py = 0.
Proof.
  exists 9, 10, (1, 4), (4, 7), (4, 1), 7, 4, 4. split; [concrete_wf|]. split; [unfold inside; lia|].
  do 3 (split; [reflexivity|]). split; [lia|]. split; [lia|]. split; vm_compute; reflexivity.
Qed.
Example C77_ex : rows (after (filledparallelogram (1, 1) (4, 1) (2, 3) 7) (blank 7 5 24)) 7 5 24 =
    [[0; 0; 0; 0; 0; 0; 0]; [0; 7; 7; 7; 7; 0; 0]; [0; 0; 7; 7; 7; 7; 0]; [0; 0; 7; 7; 7; 7; 0]; [0; 0; 0; 0; 0; 0; 0]] /\
  (forall u v, seg_points 1 1 2 3 u v = true -> seg_fits 7 5 24 (u, v) (u + (4 - 1), v + (1 - 1))).
Proof.
  split; [vm_compute; reflexivity|]. intros u v H. split; [intros E; discriminate E|]. cbn [fst snd].
  replace (v + (1 - 1)) with v by ring. intros D. exfalso. unfold is_diagonal in D. rewrite Z.sub_diag in D. unfold into in D. lia.
Qed.
Print Assumptions C77_parallelogram.
Print Assumptions C77_translate.
Print Assumptions C77_holes_refuted.

(** * C78 *)
Theorem C78_grid : forall b w h bits o x1 y1 x2 y2 xs ys c, wf b w h bits -> bits <> 4 -> 0 < h -> storable bits c ->
  0 < xs -> 0 < ys -> -1 <= Z.max x1 x2 -> Z.min y1 y2 <= h ->
  exists b' n, xygrid x1 y1 x2 y2 xs ys c (mkst b o) = (Ok tt, mkst b' (o ++ repeat Mlineoutofbnd n)) /\
    repainted b b' w h bits (fun px py =>
      if in_box x1 y1 x2 y2 px py &&
         ((negb (px =? Z.max x1 x2) && ((px - Z.min x1 x2) mod xs =? 0)) ||
          (negb (py =? Z.max y1 y2) && ((py - Z.min y1 y2) mod ys =? 0)))
      then reduce bits c else pixel b w h bits px py).
Proof.
  intros b w h bits o x1 y1 x2 y2 xs ys c W N4 Hh Hs Hx Hy H1 H2.
  destruct (fills_open _ _ _ _ _ _ _ _ o W (grid_fills b w h bits W N4 Hh x1 y1 x2 y2 xs ys c Hs Hx Hy H1 H2)) as (b' & o' & E & (n & ->) & R).
  exists b', n. auto.
Qed.
Theorem C78_steps : forall b o x1 y1 x2 y2 xs ys c,
  xygrid x1 y1 x2 y2 0 ys c (mkst b o) = (Err ValueError, mkst b o) /\
  (xs < 0 -> ys < 0 -> xygrid x1 y1 x2 y2 xs ys c (mkst b o) = (Ok tt, mkst b o)).
Proof.
  intros. unfold xygrid. rewrite sortrec. split; [reflexivity|]. intros Hx Hy.
  assert (E : forall a d k, k < 0 -> pyrange3 a d k = Ok []).
  { intros a d k Hk. unfold pyrange3. replace (k =? 0) with false by lia. now replace (k <? 0) with true by lia. }
  now rewrite !E by auto.
Qed.
(** the lines at the far sides are missing *)
Theorem C78_frame_refuted : exists w h x2 y2 c, wf (blank w h 24) w h 24 /\ 0 < c < 2 ^ 24 /\ inside w h x2 y2 /\ x2 mod 2 = 0 /\ y2 mod 2 = 0 /\
  pixel (after (xygrid 0 0 x2 y2 2 2 c) (blank w h 24)) w h 24 x2 y2 = 0.
Proof.
  exists 7, 6, 4, 4, 7. split; [concrete_wf|]. split; [lia|]. split; [unfold inside; lia|]. split; [reflexivity|]. split; [reflexivity|]. vm_compute. reflexivity.
Qed.
Theorem C78_vertical_lines : forall b w h bits o vs len adj c, wf b w h bits -> bits <> 4 -> 0 < h -> storable bits c ->
  Forall (fun v => Z.min (snd v) (snd v + len + adj) <= h) vs ->
  exists b' n, vertlinevert vs len adj c (mkst b o) = (Ok tt, mkst b' (o ++ repeat Mlineoutofbnd n)) /\
    repainted b b' w h bits (fun px py =>
      if existsb (fun v => in_box (fst v) (snd v) (fst v) (snd v + len + adj) px py) vs then reduce bits c else pixel b w h bits px py).
Proof.
  intros b w h bits o vs len adj c W N4 Hh Hs HF.
  destruct (fills_open _ _ _ _ _ _ _ _ o W (vlines_fills b w h bits W N4 Hh vs len adj c Hs HF)) as (b' & o' & E & (n & ->) & R).
  exists b', n. auto.
Qed.
Theorem C78_horizontal_lines : forall b w h bits o vs len adj c, wf b w h bits -> bits <> 4 -> storable bits c ->
  Forall (fun v => -1 <= Z.max (fst v) (fst v + len + adj)) vs ->
  exists b' n, horilinevert vs len adj c (mkst b o) = (Ok tt, mkst b' (o ++ repeat Mlineoutofbnd n)) /\
    repainted b b' w h bits (fun px py =>
      if existsb (fun v => in_box (fst v) (snd v) (fst v + len + adj) (snd v) px py) vs then reduce bits c else pixel b w h bits px py).
Proof.
  intros b w h bits o vs len adj c W N4 Hs HF.
  destruct (fills_open _ _ _ _ _ _ _ _ o W (hlines_fills b w h bits W N4 vs len adj c Hs HF)) as (b' & o' & E & (n & ->) & R).
  exists b', n. auto.
Qed.
Example C78_ex : rows (after (xygrid 0 0 5 4 2 2 7) (blank 7 6 24)) 7 6 24 =
    [[7; 7; 7; 7; 7; 7; 0]; [7; 0; 7; 0; 7; 0; 0]; [7; 7; 7; 7; 7; 7; 0]; [7; 0; 7; 0; 7; 0; 0]; [7; 0; 7; 0; 7; 0; 0]; [0; 0; 0; 0; 0; 0; 0]] /\
  rows (after (vertlinevert [(1, 1); (4, 2)] 1 1 7) (blank 6 4 24)) 6 4 24 = [[0; 0; 0; 0; 0; 0]; [0; 7; 0; 0; 0; 0]; [0; 7; 0; 0; 7; 0]; [0; 7; 0; 0; 7; 0]] /\
  rows (after (horilinevert [(1, 1); (4, 2)] 1 1 7) (blank 6 4 24)) 6 4 24 = [[0; 0; 0; 0; 0; 0]; [0; 7; 7; 7; 0; 0]; [0; 0; 0; 0; 7; 7]; [0; 0; 0; 0; 0; 0]].
Proof. do 2 (split; [vm_compute; reflexivity|]). vm_compute. reflexivity. Qed.
Print Assumptions C78_grid.
Print Assumptions C78_steps.
Print Assumptions C78_frame_refuted.
Print Assumptions C78_vertical_lines.
Print Assumptions C78_horizontal_lines.

(** * C79 *)
Theorem C79_swap : forall b w h bits o x1 y1 x2 y2, wf b w h bits -> inside w h x1 y1 -> inside w h x2 y2 ->
  exists b', swapcolors (x1, y1) (x2, y2) (mkst b o) = (Ok tt, mkst b' o) /\
    repainted b b' w h bits (fun x y =>
      if (x =? x2) && (y =? y2) then pixel b w h bits x1 y1
      else if (x =? x1) && (y =? y1) then pixel b w h bits x2 y2 else pixel b w h bits x y).
Proof. intros. now apply swap_run. Qed.
Theorem C79_swap_twice : forall b w h bits o x1 y1 x2 y2, wf b w h bits -> inside w h x1 y1 -> inside w h x2 y2 ->
  exists b1 b2, swapcolors (x1, y1) (x2, y2) (mkst b o) = (Ok tt, mkst b1 o) /\
    swapcolors (x1, y1) (x2, y2) (mkst b1 o) = (Ok tt, mkst b2 o) /\ repainted b b2 w h bits (pixel b w h bits).
Proof.
  intros b w h bits o x1 y1 x2 y2 W I1 I2. destruct (C79_swap b w h bits o x1 y1 x2 y2 W I1 I2) as (b1 & E1 & R1).
  destruct (C79_swap b1 w h bits o x1 y1 x2 y2 (repainted_wf _ _ _ _ _ _ R1) I1 I2) as (b2 & E2 & R2). exists b1, b2.
  split; [exact E1|]. split; [exact E2|]. eapply repainted_trans; [exact R1|]. eapply repainted_ext; [|exact R2].
  intros x y Hi. cbn beta. rewrite !(proj2 (proj2 R1)) by auto. cbn beta. rewrite !Z.eqb_refl. cbn [andb].
  destruct (Z.eqb_spec x x2) as [-> |N2]; destruct (Z.eqb_spec y y2) as [-> |M2]; cbn [andb];
    destruct (Z.eqb_spec x1 x2) as [-> |N3]; try destruct (Z.eqb_spec y1 y2) as [-> |M3]; cbn [andb]; auto;
    repeat match goal with |- context [?p =? ?q] => destruct (Z.eqb_spec p q); cbn [andb] end; auto; try congruence; subst; auto; congruence.
Qed.
(** with a point outside: an exception, or a pixel of the last colour *)
Theorem C79_outside_refuted : exists x1 y1 x2 y2, inside 5 3 x1 y1 /\ ~ inside 5 3 x2 y2 /\
  outcome (swapcolors (x1, y1) (x2, y2)) (sample24 5 3) = Err OverflowError /\
  outcome (swapcolors (x1, y1) (x2, y2)) (sample 5 3 8) = Ok tt /\
  pixel (after (swapcolors (x1, y1) (x2, y2)) (sample 5 3 8)) 5 3 8 x1 y1 = 255.
Proof.
  exists 0, 0, 9, 0. split; [unfold inside; lia|]. split; [unfold inside; lia|]. split; [vm_compute; reflexivity|].
  split; vm_compute; reflexivity.
Qed.
Example C79_ex : rows (after (swapcolors (1, 0) (3, 2)) (sample 5 3 8)) 5 3 8 = [[1; 48; 15; 22; 29]; [14; 21; 28; 35; 42]; [27; 34; 41; 8; 55]] /\
  rows (sample 5 3 8) 5 3 8 = [[1; 8; 15; 22; 29]; [14; 21; 28; 35; 42]; [27; 34; 41; 48; 55]].
Proof. split; vm_compute; reflexivity. Qed.
Print Assumptions C79_swap.
Print Assumptions C79_swap_twice.
Print Assumptions C79_outside_refuted.
