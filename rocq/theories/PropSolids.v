(** Properties C106-C109: filled polygons, arcs, pie charts, painted solids. *)
From Coq Require Import ZArith List Bool Lia.
From Verif Require Import PyBase PyFacts Spec SpecShapes SpecSolids Bmp BmpFacts PixelProofs PlotList HeaderProofs Region
  Geometry GeomProofs Draw DrawProofs DrawProofs2 DrawProofs4 Text TextProofs Circle Shapes ShapeProofs ShapeProofs2 Files Wrappers Fractal
  Edges MathLib Solids PropDraw PropShapes PropEdges SolidProofs SolidProofs2 SolidProofs3 Concrete.
Import ListNotations.
Open Scope Z_scope.
Open Scope py_scope.

(** * C106 *)

(** Every row of the polygon is painted from its first to its last outline pixel. *)
Theorem C106_fill : forall b w h bits o vs c, wf b w h bits -> bits <> 4 -> storable bits c -> vs <> [] ->
  (forall x y, outline vs x y -> inside w h x y) ->
  exists b' S, plotpolyfill vs c (mkst b o) = (Ok tt, mkst b' o) /\
    (forall x y, S x y = true <-> between (outline vs) x y) /\
    repainted b b' w h bits (fun x y => if S x y then reduce bits c else pixel b w h bits x y).
Proof.
  intros b w h bits o vs c W N4 Hs N Hin. destruct (polyboundary_run vs N) as (bnd & E & Nb & Hb).
  destruct (fills_open eq b w h bits (fillpoints bnd c) (hull bnd) (reduce bits c) o W) as (b' & o' & E1 & <- & R).
  { apply fillpoints_fills; auto; [intros; congruence|]. intros x y H. now apply Hin, Hb. }
  exists b', (hull bnd). split; [|split; [|exact R]].
  - unfold plotpolyfill. now rewrite (bind_ok _ _ _ _ _ (run_lift _ _ _ _ E)).
  - intros x y. rewrite hull_between. unfold between. split; intros (x1 & x2 & L & H1 & H2); exists x1, x2; (split; [auto|]);
      split; apply Hb; auto.
Qed.
(** the vertices belong to the outline *)
Theorem C106_vertices : forall vs x y, In (x, y) vs -> outline vs x y.
Proof.
  intros vs x y H. destruct vs as [|u t]; [destruct H|].
  assert (En : forall p q a c, seg_points p q a c a c = true).
  { intros. apply seg_points_in. unfold iterline. apply in_or_app. right. now left. }
  unfold outline, any_edge, ring_edges. rewrite existsb_app, orb_true_iff. destruct H as [->|H].
  - right. cbn [existsb fst snd]. now rewrite En.
  - left. apply existsb_exists. unfold edges. cbn [tl]. revert u. induction t as [|v t IH]; intros u; [destruct H|].
    destruct H as [->|H].
    + exists (u, (x, y)). split; [now left|]. cbn [fst snd]. apply En.
    + destruct (IH H v) as (e & He & Q). exists e. split; [now right|exact Q].
Qed.
(** a rectangle *)
Theorem C106_rectangle : forall b w h bits o x1 y1 x2 y2 c, wf b w h bits -> bits <> 4 -> storable bits c ->
  inside w h x1 y1 -> inside w h x2 y2 ->
  exists b', plotpolyfill [(x1, y1); (x2, y1); (x2, y2); (x1, y2)] c (mkst b o) = (Ok tt, mkst b' o) /\
    repainted b b' w h bits (fun x y => if in_box x1 y1 x2 y2 x y then reduce bits c else pixel b w h bits x y).
Proof.
  intros b w h bits o x1 y1 x2 y2 c W N4 Hs H1 H2. set (vs := [(x1, y1); (x2, y1); (x2, y2); (x1, y2)]).
  assert (ND : forall a p q, is_diagonal a p a q = false).
  { intros. unfold is_diagonal. now rewrite Z.eqb_refl, andb_false_r. }
  assert (NH : forall a p q, is_diagonal p a q a = false).
  { intros. unfold is_diagonal. apply andb_false_iff. destruct (Z.eq_dec p q) as [->|K]; [right; now rewrite Z.eqb_refl|left].
    apply Z.eqb_neq. lia. }
  assert (O : forall x y, outline vs x y <-> in_box x1 y1 x2 y2 x y = true /\ (x = x1 \/ x = x2 \/ y = y1 \/ y = y2)).
  { intros x y. unfold outline, vs, any_edge, ring_edges, edges. cbn [tl combine app last existsb fst snd].
    unfold seg_points. rewrite !ND, !NH, !on_line_vert, !on_line_hori, orb_false_r. unfold in_box.
    rewrite ?Z.min_id, ?Z.max_id, (Z.min_comm x2 x1), (Z.max_comm x2 x1), (Z.min_comm y2 y1), (Z.max_comm y2 y1).
    rewrite !orb_true_iff, !andb_true_iff, !Z.leb_le. clear.
    pose proof (Z.le_min_l x1 x2) as A1. pose proof (Z.le_min_r x1 x2) as A2. pose proof (Z.le_max_l x1 x2) as A3. pose proof (Z.le_max_r x1 x2) as A4.
    pose proof (Z.le_min_l y1 y2) as B1. pose proof (Z.le_min_r y1 y2) as B2. pose proof (Z.le_max_l y1 y2) as B3. pose proof (Z.le_max_r y1 y2) as B4.
    generalize dependent (Z.min x1 x2). intros xa A1 A2. generalize dependent (Z.max x1 x2). intros xb A3 A4.
    generalize dependent (Z.min y1 y2). intros ya B1 B2. generalize dependent (Z.max y1 y2). intros yb B3 B4. split.
    - intros [[[? ?] [? ?]]|[[[? ?] [? ?]]|[[[? ?] [? ?]]|[[? ?] [? ?]]]]]; (split; [lia|]); [right; right; left|right; left|right; right; right|left]; lia.
    - intros [[[? ?] [? ?]] [->|[->|[->| ->]]]]; [right; right; right|right; left|left|right; right; left]; lia. }
  unfold inside in *.
  destruct (C106_fill b w h bits o vs c W N4 Hs) as (b' & S & E & HS & R); [discriminate| |].
  { intros x y H. apply O in H. destruct H as [H _]. unfold in_box in H. rewrite !andb_true_iff, !Z.leb_le in H. unfold inside. lia. }
  exists b'. split; [exact E|]. eapply repainted_ext; [|exact R]. intros x y _. cbn beta.
  enough (Q : S x y = in_box x1 y1 x2 y2 x y) by now rewrite Q.
  apply eq_true_iff_eq. rewrite HS. unfold between. split.
  - intros (a & d & L & Ha & Hd). apply O in Ha, Hd. destruct Ha as [Ha _], Hd as [Hd _]. unfold in_box in *.
    rewrite !andb_true_iff, !Z.leb_le in *. lia.
  - intros H. unfold in_box in H. rewrite !andb_true_iff, !Z.leb_le in H. exists (Z.min x1 x2), (Z.max x1 x2). split; [lia|].
    split; apply O; unfold in_box; rewrite !andb_true_iff, !Z.leb_le; lia.
Qed.
(** a polygon whose outline leaves the image is not painted at all *)
Theorem C106_outside : forall b w h bits o vs c, wf b w h bits -> (exists x y, outline vs x y /\ ~ inside w h x y) ->
  plotpolyfill vs c (mkst b o) = (Ok tt, mkst b (o ++ [Mregionoutofbounds])).
Proof.
  intros b w h bits o vs c W (x & y & H & N).
  assert (Nv : vs <> []) by (intros ->; discriminate H).
  destruct (polyboundary_run vs Nv) as (bnd & E & Nb & Hb).
  unfold plotpolyfill. rewrite (bind_ok _ _ _ _ _ (run_lift _ _ _ _ E)). eapply fillpoints_out; eauto. exists x, y. split; auto. now apply Hb.
Qed.
Theorem C106_empty : forall b o c, plotpolyfill [] c (mkst b o) = (Err IndexError, mkst b o).
Proof. reflexivity. Qed.
(** a notch is filled as well *)
Theorem C106_concave_refuted : exists vs x y,
  vs = [(0, 0); (6, 0); (6, 6); (4, 6); (4, 2); (2, 2); (2, 6); (0, 6)] /\
  (* strictly inside the notch between (2, 2), (4, 2), (4, 6) and (2, 6) *)
  2 < x < 4 /\ 2 < y < 6 /\ pixel (after (plotpolyfill vs 9) (blank 8 8 24)) 8 8 24 x y = 9.
Proof. exists [(0, 0); (6, 0); (6, 6); (4, 6); (4, 2); (2, 2); (2, 6); (0, 6)], 3, 4.
  split; [reflexivity|]. split; [lia|]. split; [lia|]. vm_compute. reflexivity. Qed.
(** a triangle inside the image is refused: its diagonal is drawn one row too far *)
Theorem C106_diagonal_refuted : exists vs, (forall x y, In (x, y) vs -> inside 5 5 x y) /\ (forall x y, inside 5 5 x y ->
    pixel (after (plotpolyfill vs 9) (blank 5 5 24)) 5 5 24 x y = 0).
Proof.
  exists [(0, 0); (4, 4); (0, 4)]. split.
  - intros x y [H|[H|[H|[]]]]; injection H as <- <-; unfold inside; lia.
  - intros x y [Hx Hy].
    assert (E : after (plotpolyfill [(0, 0); (4, 4); (0, 4)] 9) (blank 5 5 24) = blank 5 5 24) by (vm_compute; reflexivity).
    rewrite E. clear E. assert (x = 0 \/ x = 1 \/ x = 2 \/ x = 3 \/ x = 4) as Cx by lia. assert (y = 0 \/ y = 1 \/ y = 2 \/ y = 3 \/ y = 4) as Cy by lia.
    destruct Cx as [-> |[-> |[-> |[-> | ->]]]], Cy as [-> |[-> |[-> |[-> | ->]]]]; vm_compute; reflexivity.
Qed.
(** on 4-bit bitmaps pixels of the rectangle are missing *)
Theorem C106_four_bit_refuted : exists x y, in_box 1 0 2 2 x y = true /\
  pixel (after (plotpolyfill [(1, 0); (2, 0); (2, 2); (1, 2)] 9) (blank 4 4 4)) 4 4 4 x y <> 9.
Proof. exists 2, 1. split; [reflexivity|vm_compute; discriminate]. Qed.
Ltac outline_inside vs :=
  let bnd := fresh in let E := fresh in let H := fresh in let K := fresh in
  destruct (polyboundary_run vs ltac:(discriminate)) as (bnd & E & _ & H);
  let r := eval vm_compute in (polyboundary vs) in
  assert (K : polyboundary vs = r) by (vm_compute; reflexivity); rewrite K in E; injection E as <-; clear K;
  let x := fresh in let y := fresh in let Q := fresh in
  intros x y Q; apply H in Q; clear H; cbn [In] in Q;
  repeat (destruct Q as [Q|Q]; [injection Q as <- <-; split; lia|]); destruct Q.
Example C106_ex : let vs := [(3, 0); (7, 2); (3, 6); (0, 2)] in
  wf (blank 8 8 24) 8 8 24 /\ (forall x y, outline vs x y -> inside 8 8 x y) /\
  rows (after (plotpolyfill vs 7) (blank 8 8 24)) 8 8 24 =
    [[0; 0; 7; 7; 0; 0; 0; 0]; [0; 7; 7; 7; 7; 7; 0; 0]; [7; 7; 7; 7; 7; 7; 7; 7]; [7; 7; 7; 7; 7; 7; 7; 7];
     [0; 7; 7; 7; 7; 7; 7; 0]; [0; 0; 7; 7; 7; 7; 0; 0]; [0; 0; 0; 7; 7; 0; 0; 0]; [0; 0; 0; 7; 0; 0; 0; 0]] /\
  (exists x y, outline [(0, 0); (9, 0)] x y /\ ~ inside 8 8 x y).
Proof.
  cbv zeta. split; [concrete_wf|]. split; [outline_inside [(3, 0); (7, 2); (3, 6); (0, 2)]|]. split; [vm_compute; reflexivity|].
  exists 9, 0. split; [reflexivity|]. unfold inside. lia.
Qed.

(** * C107 *)

(** only the outline: the selected part of the ring and the radii *)
Theorem C107_outline : forall sel ends b w h bits o x y r c s fc, wf b w h bits -> storable bits c -> 0 < r ->
  exists b' S, drawarc sel ends x y r c s fc false (mkst b o) = (Ok tt, mkst b' o) /\
    (forall u v, S u v = true <-> sector sel ends x y r u v) /\
    repainted b b' w h bits (fun u v => if S u v then reduce bits c else pixel b w h bits u v).
Proof.
  intros sel ends b w h bits o x y r c s fc W Hs Hr. destruct (arcvert_run sel ends x y r Hr) as (av & E & Ha).
  destruct (points_run av c b w h bits o W Hs) as (b' & E1 & R). exists b', (pt_in av). split; [|split; [|exact R]].
  - unfold drawarc. rewrite (bind_ok _ _ _ _ _ (run_lift _ _ _ _ E)). now rewrite (bind_ok _ _ _ _ _ E1).
  - intros u v. rewrite pt_in_iff. apply Ha.
Qed.
(** filled: every row of the sector between its ends, all in the fill colour *)
Theorem C107_filled : forall sel ends b w h bits o x y r c s fc, wf b w h bits -> bits <> 4 -> storable bits c -> storable bits fc ->
  0 < r -> (exists u v, sector sel ends x y r u v) -> (forall u v, sector sel ends x y r u v -> inside w h u v) ->
  exists b' S, drawarc sel ends x y r c s fc true (mkst b o) = (Ok tt, mkst b' o) /\
    (forall u v, S u v = true <-> between (sector sel ends x y r) u v) /\
    repainted b b' w h bits (fun u v => if S u v then reduce bits fc else pixel b w h bits u v).
Proof.
  intros sel ends b w h bits o x y r c s fc W N4 Hs Hf Hr N Hin.
  destruct (arc_fills eq b w h bits ltac:(auto) ltac:(intros; congruence) sel ends x y r c fc s Hr N4 Hs Hf N Hin) as (S & HS & F).
  destruct (fills_open eq b w h bits _ _ _ o W F) as (b' & o' & E & <- & R). exists b', S. auto.
Qed.
(** partly outside: the outline, and a message instead of the filling *)
Theorem C107_cut : forall sel ends b w h bits o x y r c s fc, wf b w h bits -> storable bits c -> 0 < r ->
  (exists u v, sector sel ends x y r u v /\ ~ inside w h u v) ->
  exists b', drawarc sel ends x y r c s fc true (mkst b o) = (Ok tt, mkst b' (o ++ [Mregionoutofbounds])) /\
    drawarc sel ends x y r c s fc false (mkst b o) = (Ok tt, mkst b' o).
Proof.
  intros sel ends b w h bits o x y r c s fc W Hs Hr (u & v & H & N). destruct (arcvert_run sel ends x y r Hr) as (av & E & Ha).
  destruct (points_run av c b w h bits o W Hs) as (b' & E1 & R). exists b'. unfold drawarc.
  rewrite !(bind_ok _ _ _ _ _ (run_lift _ _ _ _ E)), !(bind_ok _ _ _ _ _ E1). split; [|reflexivity].
  eapply fillpoints_out; [apply R|]. exists u, v. split; [now apply Ha|exact N].
Qed.
(** an arc so short that no pixel of the ring is selected cannot be filled *)
Theorem C107_none : forall sel ends b w h bits o x y r c s fc, wf b w h bits -> 0 < r ->
  (forall u v, on_ring r (u - x) (v - y) = true -> sel (u, v) = false) ->
  drawarc sel ends x y r c s fc false (mkst b o) = (Ok tt, mkst b o) /\
  drawarc sel ends x y r c s fc true (mkst b o) = (Err IndexError, mkst b o).
Proof.
  intros sel ends b w h bits o x y r c s fc W Hr Hno. destruct (arcvert_run sel ends x y r Hr) as (av & E & Ha).
  assert (av = []) as ->.
  { destruct av as [|[u v] t]; auto. destruct (proj1 (Ha u v) (or_introl eq_refl)) as (p & q & H1 & H2 & _). rewrite Hno in H2 by exact H1. discriminate. }
  unfold drawarc. rewrite !(bind_ok _ _ _ _ _ (run_lift _ _ _ _ E)). split; [reflexivity|].
  rewrite <- (fillpoints_empty b w h bits o fc W). reflexivity.
Qed.
(** radius 0 and negative radii *)
Theorem C107_degenerate : forall sel ends b w h bits o x y r c s fc fill, wf b w h bits ->
  (r = 0 -> drawarc sel ends x y r c s fc fill (mkst b o) = (Err ZeroDivisionError, mkst b o)) /\
  (r < 0 -> drawarc sel ends x y r c s fc fill (mkst b o) = (if fill then Err IndexError else Ok tt, mkst b o)).
Proof.
  intros sel ends b w h bits o x y r c s fc fill W. split; intros Hr.
  - subst. unfold drawarc. unfold bind at 1, lift. now rewrite arcvert_zero.
  - unfold drawarc. rewrite (bind_ok _ _ _ _ _ (run_lift _ _ _ _ (arcvert_neg sel ends x y r Hr))). destruct fill; [|reflexivity].
    rewrite <- (fillpoints_empty b w h bits o fc W). reflexivity.
Qed.
(** the upper right quarter of a ring *)
Definition quarter (p : Z * Z) : bool := (4 <=? fst p) && (snd p <=? 4).
Definition quarter_ends (p : Z * Z) : bool := (fst p =? 4) || (snd p =? 4).
Ltac sector_inside sel ends x y r :=
  let av := fresh in let E := fresh in let H := fresh in let K := fresh in
  destruct (arcvert_run sel ends x y r ltac:(lia)) as (av & E & H);
  let v := eval vm_compute in (arcvert sel ends x y r) in
  assert (K : arcvert sel ends x y r = v) by (vm_compute; reflexivity); rewrite K in E; injection E as <-; clear K;
  let u := fresh in let v := fresh in let Q := fresh in
  intros u v Q; apply H in Q; clear H; cbn [In] in Q;
  repeat (destruct Q as [Q|Q]; [injection Q as <- <-; split; lia|]); destruct Q.
Example C107_ex : wf (blank 8 8 24) 8 8 24 /\
  (exists u v, sector quarter quarter_ends 4 4 3 u v) /\ (forall u v, sector quarter quarter_ends 4 4 3 u v -> inside 8 8 u v) /\
  rows (after (drawarc quarter quarter_ends 4 4 3 5 true 6 false) (blank 8 8 24)) 8 8 24 =
    [[0; 0; 0; 0; 0; 0; 0; 0]; [0; 0; 0; 0; 5; 5; 0; 0]; [0; 0; 0; 0; 5; 0; 5; 0]; [0; 0; 0; 0; 5; 0; 0; 5];
     [0; 0; 0; 0; 5; 5; 5; 5]; [0; 0; 0; 0; 0; 0; 0; 0]; [0; 0; 0; 0; 0; 0; 0; 0]; [0; 0; 0; 0; 0; 0; 0; 0]] /\
  rows (after (drawarc quarter quarter_ends 4 4 3 5 true 6 true) (blank 8 8 24)) 8 8 24 =
    [[0; 0; 0; 0; 0; 0; 0; 0]; [0; 0; 0; 0; 6; 6; 0; 0]; [0; 0; 0; 0; 6; 6; 6; 0]; [0; 0; 0; 0; 6; 6; 6; 6];
     [0; 0; 0; 0; 6; 6; 6; 6]; [0; 0; 0; 0; 0; 0; 0; 0]; [0; 0; 0; 0; 0; 0; 0; 0]; [0; 0; 0; 0; 0; 0; 0; 0]].
Proof.
  split; [concrete_wf|]. split; [exists 4, 1, 4, 1; split; [reflexivity|]; split; [reflexivity|]; now left|].
  split; [sector_inside quarter quarter_ends 4 4 3|].
  split; vm_compute; reflexivity.
Qed.

(** * C108 *)

(** The picture of a pie chart: each slice that is less than a half paints the rows of its
    sector, later ones over earlier ones; below them the disc in the colour of the
    last slice that is at least a half. *)
Theorem C108_pie : forall b w h bits o l x y r, wf b w h bits -> bits <> 4 -> 0 < r -> pen_at bits x ->
  l <> [] -> fold_right Z.add 0 (map amount l) <> 0 -> (forall s, In s l -> storable bits (colour s)) ->
  (forall s, In s l -> half s = false -> (exists u v, sector (within s) (atend s) x y r u v) /\
     (forall u v, sector (within s) (atend s) x y r u v -> inside w h u v)) ->
  exists L b' o', map fst L = l /\
    (forall s S, In (s, S) L -> half s = false -> forall u v, S u v = true <-> between (sector (within s) (atend s) x y r) u v) /\
    piechart l x y r (mkst b o) = (Ok tt, mkst b' o') /\ (bits <> 1 -> o' = o) /\
    repainted b b' w h bits (fun px py =>
      match find (fun p => negb (half (fst p)) && snd p px py) (rev L) with
      | Some p => reduce bits (colour (fst p))
      | None => match find half (rev l) with
                | Some s => if in_disc r (px - x) (py - y) then reduce bits (colour s) else pixel b w h bits px py
                | None => pixel b w h bits px py
                end
      end).
Proof. intros. now apply pie_run. Qed.
(** nothing to divide *)
Theorem C108_empty : forall b o x y r, piechart [] x y r (mkst b o) = (Ok tt, mkst b o).
Proof. reflexivity. Qed.
Theorem C108_total_zero : forall b o l x y r, l <> [] -> fold_right Z.add 0 (map amount l) = 0 ->
  piechart l x y r (mkst b o) = (Err ZeroDivisionError, mkst b o).
Proof.
  intros b o l x y r N E. unfold piechart. rewrite sum_fold, Z.add_0_l, E. destruct l; [contradiction|].
  replace (zlen (p :: l) =? 0) with false; [reflexivity|]. symmetry. apply Z.eqb_neq. unfold zlen. cbn [length]. lia.
Qed.
(** a slice so thin that no pixel of the ring belongs to it stops the chart *)
Theorem C108_thin : forall b w h bits o l1 s l2 x y r, wf b w h bits -> bits <> 4 -> 0 < r -> pen_at bits x ->
  fold_right Z.add 0 (map amount (l1 ++ s :: l2)) <> 0 ->
  (forall s', In s' (l1 ++ s :: l2) -> storable bits (colour s')) ->
  (forall s, In s l1 -> half s = false -> (exists u v, sector (within s) (atend s) x y r u v) /\
     (forall u v, sector (within s) (atend s) x y r u v -> inside w h u v)) ->
  half s = false -> (forall u v, ~ sector (within s) (atend s) x y r u v) ->
  exists st, piechart (l1 ++ s :: l2) x y r (mkst b o) = (Err IndexError, st).
Proof. exact pie_thin. Qed.
(** of two halves only the second is visible *)
Theorem C108_halves_refuted : exists l, map amount l = [1; 1] /\ map colour l = [5; 6] /\ map half l = [true; true] /\
  forall px py, inside 8 8 px py -> pixel (after (piechart l 4 4 3) (blank 8 8 24)) 8 8 24 px py <> 5.
Proof.
  exists [mkslice 1 5 true (fun p => snd p <=? 4) (fun p => snd p =? 4); mkslice 1 6 true (fun p => 4 <=? snd p) (fun p => snd p =? 4)].
  split; [reflexivity|]. split; [reflexivity|]. split; [reflexivity|]. intros px py Hi.
  set (l := [_; _]).
  destruct (C108_pie (blank 8 8 24) 8 8 24 [] l 4 4 3) as (L & b' & o' & EL & _ & E & _ & R).
  { concrete_wf. } { discriminate. } { lia. } { unfold pen_at; repeat split; intros; lia. } { discriminate. } { discriminate. }
  { intros s [<-|[<-|[]]] _; cbn; lia. } { intros s [<-|[<-|[]]]; discriminate. }
  unfold after, run. rewrite E. cbn [snd mem]. rewrite (proj2 (proj2 R)) by exact Hi. cbn beta.
  replace (find _ (rev L)) with (@None (pieslice * (Z -> Z -> bool))).
  - cbn [rev l app find half]. destruct (in_disc 3 (px - 4) (py - 4)); [discriminate|].
    assert (G : forallb (fun y => forallb (fun x => pixel (blank 8 8 24) 8 8 24 x y =? 0) (range 0 8)) (range 0 8) = true) by (vm_compute; reflexivity).
    rewrite forallb_forall in G. destruct Hi as [Hx Hy]. specialize (G py (proj2 (in_range _ _ _) Hy)). rewrite forallb_forall in G.
    specialize (G px (proj2 (in_range _ _ _) Hx)). apply Z.eqb_eq in G. rewrite G. discriminate.
  - destruct L as [|[s1 S1] [|[s2 S2] [|]]]; try discriminate EL. injection EL as E1 E2. cbn [rev app find fst snd].
    subst. reflexivity.
Qed.
Definition upper_right := mkslice 1 5 false quarter quarter_ends.
Definition the_rest := mkslice 3 6 true (fun p => negb (quarter p)) quarter_ends.
Example C108_ex : wf (blank 8 8 24) 8 8 24 /\ pen_at 24 4 /\
  (forall s, In s [upper_right; the_rest] -> half s = false -> (exists u v, sector (within s) (atend s) 4 4 3 u v) /\
     (forall u v, sector (within s) (atend s) 4 4 3 u v -> inside 8 8 u v)) /\
  (forall u v, ~ sector (fun _ => false) quarter_ends 4 4 3 u v) /\
  rows (after (piechart [upper_right; the_rest] 4 4 3) (blank 8 8 24)) 8 8 24 =
    [[0; 0; 0; 0; 0; 0; 0; 0]; [0; 0; 0; 6; 5; 5; 0; 0]; [0; 0; 6; 6; 5; 5; 5; 0]; [0; 6; 6; 6; 5; 5; 5; 5];
     [0; 6; 6; 6; 5; 5; 5; 5]; [0; 6; 6; 6; 6; 6; 6; 6]; [0; 0; 6; 6; 6; 6; 6; 0]; [0; 0; 0; 6; 6; 6; 0; 0]] /\
  outcome (piechart [upper_right; the_rest; mkslice 0 7 false (fun _ => false) quarter_ends] 4 4 3) (blank 8 8 24) = Err IndexError.
Proof.
  destruct C107_ex as (W & H1 & H2 & _). split; [exact W|]. split; [unfold pen_at; repeat split; intros; lia|].
  split; [intros s [<-|[<-|[]]] Hh; [split; assumption|discriminate]|].
  split; [intros u v (p & q & _ & K & _); discriminate|].
  split; vm_compute; reflexivity.
Qed.

(** * C109 *)

(** The faces are painted in order, each wholly inside the image or not at all. *)
Theorem C109_faces : forall (N : Type) (col : N -> Z) b w h bits o polys ns, wf b w h bits -> bits <> 4 ->
  (forall n, In n ns -> 0 <= col n < 2 ^ 24) -> (forall p, In p polys -> p <> []) ->
  exists L v b' o', map fst L = combine polys ns /\
    (forall p n S, In ((p, n), S) L -> forall x y, S x y = true <-> (forall x y, outline p x y -> inside w h x y) /\ between (outline p) x y) /\
    (forall n, In n ns -> shows b bits (col n) (v n)) /\
    plotpolyfillist col polys ns (mkst b o) = (if (length ns <? length polys)%nat then Err IndexError else Ok tt, mkst b' o') /\
    (bits <> 1 -> exists k, o' = o ++ repeat Mregionoutofbounds k) /\
    repainted b b' w h bits (fun x y =>
      match find (fun q => snd q x y) (rev L) with Some q => v (snd (fst q)) | None => pixel b w h bits x y end).
Proof.
  intros N col b w h bits o polys ns W N4 Hc Hp.
  destruct (faces_draw col b w h bits polys ns W N4 Hc Hp) as (L & EL & HL & D).
  destruct (draws_open _ _ _ _ _ _ _ o W D) as (b' & o' & E & Q & R).
  exists L, (fun n => dcol b bits (col n)), b', o'. split; [exact EL|]. split; [exact HL|]. split; [intros n Hn; eapply dcol_shows; eauto|].
  split; [|split; [exact Q|]].
  - rewrite fillist_run. rewrite (bind_ok _ _ _ _ _ E). now destruct (length ns <? length polys)%nat.
  - eapply repainted_ext; [|exact R]. intros x y _. cbn beta. now destruct (find (fun q => snd q x y) (rev L)).
Qed.
(** a drawing with faces and outlines: the outlines on top *)
Theorem C109_plot3d : forall (N : Type) (col : N -> Z) b w h bits o polys ns c solid line, wf b w h bits -> bits <> 4 -> 0 < w -> 0 < h ->
  (forall n, In n ns -> 0 <= col n < 2 ^ 24) -> (length polys <= length ns)%nat -> 0 <= c < 2 ^ bits ->
  Forall (fun p => p <> [] /\ Forall (fun e => seg_fits w h bits (fst e) (snd e)) (closed_edges p)) polys ->
  exists L v b' o', map fst L = combine polys ns /\
    (forall p n S, In ((p, n), S) L -> forall x y, S x y = true <-> (forall x y, outline p x y -> inside w h x y) /\ between (outline p) x y) /\
    (forall n, In n ns -> shows b bits (col n) (v n)) /\
    plot3d col (polys, ns) solid line c (mkst b o) = (Ok tt, mkst b' o') /\
    (bits <> 1 -> exists k, o' = o ++ repeat Mregionoutofbounds k) /\
    repainted b b' w h bits (fun x y =>
      if line && existsb (fun p => any_edge (seg_hit w h) (closed_edges p) x y) polys then c
      else if solid then match find (fun q => snd q x y) (rev L) with Some q => v (snd (fst q)) | None => pixel b w h bits x y end
      else pixel b w h bits x y).
Proof.
  intros N col b w h bits o polys ns c solid line W N4 Hw Hh Hc Hl Hcc HF.
  assert (Hp : forall p, In p polys -> p <> []) by (intros p Hp; rewrite Forall_forall in HF; apply (HF p Hp)).
  destruct (faces_draw col b w h bits polys ns W N4 Hc Hp) as (L & EL & HL & D).
  assert (D1 : draws (noisy bits) b w h bits (if solid then plotpolyfillist col polys ns else ret tt)
    (fun x y => if solid then option_map (fun q => dcol b bits (col (snd (fst q)))) (find (fun q => snd q x y) (rev L)) else None)).
  { destruct solid; [|apply draws_none; apply noisy_refl]. eapply draws_act; [|exact D]. intros s. rewrite fillist_run.
    replace (length ns <? length polys)%nat with false by (symmetry; apply Nat.ltb_ge; exact Hl).
    unfold bind. now destruct (forM _ _ s) as [[[]|e] s1]. }
  assert (D2 : draws (noisy bits) b w h bits (if line then plotpolylist polys c else ret tt)
    (fun x y => if line && existsb (fun p => any_edge (seg_hit w h) (closed_edges p) x y) polys then Some c else None)).
  { destruct line; [|apply draws_none; apply noisy_refl].
    eapply draws_weaken; [apply quiet_noisy|]. eapply draws_ext; [|apply (plotpolylist_fill b w h bits W Hw Hh polys c Hcc HF)].
    reflexivity. }
  pose proof (draws_seq _ _ _ _ _ (noisy_trans bits) _ _ _ _ D1 D2) as D3.
  destruct (draws_open _ _ _ _ _ _ _ o W D3) as (b' & o' & E & Q & R).
  exists L, (fun n => dcol b bits (col n)), b', o'. split; [exact EL|]. split; [exact HL|]. split; [intros n Hn; eapply dcol_shows; eauto|].
  split; [exact E|]. split; [exact Q|]. eapply repainted_ext; [|exact R]. intros x y _. cbn beta.
  destruct (line && existsb _ polys); [reflexivity|]. destruct solid; [|reflexivity]. now destruct (find (fun q => snd q x y) (rev L)).
Qed.
Example C109_ex : let polys := [[(0, 0); (5, 0); (5, 3); (0, 3)]; [(2, 1); (9, 1); (9, 9)]; [(4, 2); (6, 2); (6, 6); (4, 6)]] in
  let ns := [1; 2; 3] in
  wf (blank 8 8 24) 8 8 24 /\ (forall n, In n ns -> 0 <= 100 * n < 2 ^ 24) /\
  Forall (fun p => p <> [] /\ Forall (fun e => seg_fits 8 8 24 (fst e) (snd e)) (closed_edges p)) [[(0, 0); (5, 0); (5, 3); (0, 3)]] /\
  rows (after (plotpolyfillist (fun n => 100 * n) polys ns) (blank 8 8 24)) 8 8 24 =
    [[100; 100; 100; 100; 100; 100; 0; 0]; [100; 100; 100; 100; 100; 100; 0; 0]; [100; 100; 100; 100; 300; 300; 300; 0];
     [100; 100; 100; 100; 300; 300; 300; 0]; [0; 0; 0; 0; 300; 300; 300; 0]; [0; 0; 0; 0; 300; 300; 300; 0];
     [0; 0; 0; 0; 300; 300; 300; 0]; [0; 0; 0; 0; 0; 0; 0; 0]] /\
  rows (after (plot3d (fun n => 100 * n) ([[(0, 0); (5, 0); (5, 3); (0, 3)]], ns) true true 7) (blank 8 8 24)) 8 8 24 =
    [[7; 7; 7; 7; 7; 7; 0; 0]; [7; 100; 100; 100; 100; 7; 0; 0]; [7; 100; 100; 100; 100; 7; 0; 0]; [7; 7; 7; 7; 7; 7; 0; 0];
     [0; 0; 0; 0; 0; 0; 0; 0]; [0; 0; 0; 0; 0; 0; 0; 0]; [0; 0; 0; 0; 0; 0; 0; 0]; [0; 0; 0; 0; 0; 0; 0; 0]].
Proof.
  cbv zeta. split; [concrete_wf|]. split; [intros n [<-|[<-|[<-|[]]]]; lia|]. split; [|split; vm_compute; reflexivity].
  apply Forall_cons; [|apply Forall_nil]. split; [discriminate|].
  repeat (apply Forall_cons; [split; [intros E; discriminate E|vm_compute; intros E; discriminate E]|]). apply Forall_nil.
Qed.

Print Assumptions C106_fill.
Print Assumptions C106_vertices.
Print Assumptions C106_rectangle.
Print Assumptions C106_outside.
Print Assumptions C106_empty.
Print Assumptions C106_concave_refuted.
Print Assumptions C106_diagonal_refuted.
Print Assumptions C106_four_bit_refuted.
Print Assumptions C107_outline.
Print Assumptions C107_filled.
Print Assumptions C107_cut.
Print Assumptions C107_none.
Print Assumptions C107_degenerate.
Print Assumptions C108_pie.
Print Assumptions C108_empty.
Print Assumptions C108_total_zero.
Print Assumptions C108_thin.
Print Assumptions C108_halves_refuted.
Print Assumptions C109_faces.
Print Assumptions C109_plot3d.
