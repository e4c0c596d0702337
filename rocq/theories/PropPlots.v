(** Properties C117 and C118: axes and scatter plots. *)
From Coq Require Import ZArith QArith List Bool Lia Lqa.
From Verif Require Import PyBase PyFacts Spec SpecText SpecShapes SpecExact SpecPlots Bmp BmpFacts Region Geometry Draw
  Text TextProofs TextProofs3 TextProofs6 TextProofs9 TextProofs9 PropText Fonts Shapes ShapeProofs ShapeProofs2 PropShapes MathLib Solids Exact ExactProofs PropExact
  Plots PlotProofs PlotProofs2 Concrete.
Import ListNotations.
Open Scope Z_scope.
Open Scope py_scope.

(** * C117: axes *)

(** the labels are decimal numbers *)
Theorem C117_decimal : forall n, decimal n (strint n).
Proof. exact strint_decimal. Qed.
Example C117_decimal_ex : strint (-120) = [45; 49; 50; 48] /\ strint 0 = [48].
Proof. split; vm_compute; reflexivity. Qed.
(** a number has one decimal representation *)
Theorem C117_decimal_unique : forall n t t', decimal n t -> decimal n t' -> t = t'.
Proof.
  intros n t t' (ds & -> & N & F & Z & V) (ds' & -> & N' & F' & Z' & V'). f_equal. f_equal. rewrite <- V' in V. clear V' n.
  assert (G : forall l, Forall (fun d => 0 <= d < 10) l -> forall a b, 0 <= a -> 0 <= b ->
     (fold_left (fun a d => 10 * a + d) l a <= fold_left (fun a d => 10 * a + d) l b -> a <= b)).
  { induction l as [|d l IH]; intros Fl a b Ha Hb H; [exact H|]. inversion Fl; subst. cbn [fold_left] in H. apply IH in H; auto; lia. }
  (* compare from the last digit *)
  revert ds' N N' F F' Z Z' V. induction ds as [|d ds IH] using rev_ind; intros ds' N N' F F' Z Z' V; [contradiction|].
  destruct ds' as [|e ds' _] using rev_ind; [contradiction|].
  rewrite !fold_left_app in V. cbn [fold_left] in V. apply Forall_app in F. apply Forall_app in F'. destruct F as [F Fd], F' as [F' Fe].
  inversion Fd; inversion Fe; subst. assert (d = e /\ fold_left (fun a d => 10 * a + d) ds 0 = fold_left (fun a d => 10 * a + d) ds' 0) by lia.
  destruct H as [-> E]. f_equal.
  assert (P : forall l, Forall (fun d => 0 <= d < 10) l -> l <> [] -> hd 0 l <> 0 -> 0 < fold_left (fun a d => 10 * a + d) l 0).
  { intros [|x l] Fl Nl Hl; [contradiction|]. cbn [hd] in Hl. inversion Fl; subst. cbn [fold_left].
    assert (Q : forall l a, Forall (fun d => 0 <= d < 10) l -> 0 < a -> 0 < fold_left (fun a d => 10 * a + d) l a).
    { clear. induction l as [|y l IH]; intros a Fl Ha; [exact Ha|]. inversion Fl; subst. cbn [fold_left]. apply IH; auto. lia. }
    apply Q; auto. lia. }
  assert (HZ : forall l x, (hd 0 (l ++ [x]) = 0 -> l ++ [x] = [0]) -> l <> [] -> hd 0 l <> 0).
  { intros [|y l] x Hl Nl; [contradiction|]. cbn [hd app] in *. intros ->. specialize (Hl eq_refl). injection Hl as Hl. destruct l; discriminate. }
  destruct ds as [|x ds], ds' as [|x' ds']; [reflexivity| | |].
  - exfalso. pose proof (P (x' :: ds') F' ltac:(discriminate) (HZ _ _ Z' ltac:(discriminate))). cbn [fold_left] in E, H. lia.
  - exfalso. pose proof (P (x :: ds) F ltac:(discriminate) (HZ _ _ Z ltac:(discriminate))). cbn [fold_left] in E, H. lia.
  - pose proof (HZ _ _ Z ltac:(discriminate)). pose proof (HZ _ _ Z' ltac:(discriminate)).
    apply IH; auto; try discriminate; intros K; contradiction.
Qed.

(** numbers at a list of different points: the i-th point gets the number v0 + i * dv *)
Theorem C117_numbers : forall b w h bits vs xadj yadj scale v0 dv ps sp color font sz sl rj o,
  wf b w h bits -> 1 <= scale -> 0 <= ps -> colour_ok bits color -> Forall byte font -> 0 < zlen font ->
  (forall c, c = 45 \/ 48 <= c < 58 -> in_font font c) -> NoDup vs ->
  bits <> 4 \/ scale - 1 - ps <= 0 ->
  let d := Z.max 0 (scale - 1 - ps) in
  exists b' n val, (forall c, square_value b bits d c (val c)) /\
    numbervert vs xadj yadj scale v0 dv ps sp color font sz sl rj (mkst b o) = (Ok tt, mkst b' (o ++ repeat Mregionoutofbounds n)) /\
    repainted b b' w h bits (fun px py => fold_left (fun old i =>
        let v := nth (Z.to_nat i) vs (0, 0) in
        let t := strint (v0 + i * dv) in
        text_over (upright (square_hit d w h) scale) font
          (fun col _ => fst v + xadj - (if rj then 8 * (zlen t - 1) else 0) + col * SpecText.step_x scale sp)
          (fun _ ln => snd v + yadj + ln * SpecText.step_y font scale sp)
          (fun i => val (colour_of_row color i)) t old px py)
      (filter (fun i => negb ((i =? 0) && sz || (i =? zlen vs - 1) && sl)) (range 0 (zlen vs)))
      (pixel b w h bits px py)).
Proof.
  intros b w h bits vs xadj yadj scale v0 dv ps sp color font sz sl rj o W Hsc Hps Hc F1 F2 F3 ND Hb d.
  assert (Hinj : forall i j, 0 <= i < zlen vs -> 0 <= j < zlen vs -> nth (Z.to_nat i) vs (0, 0) = nth (Z.to_nat j) vs (0, 0) -> i = j).
  { intros i j Hi Hj E. assert (Z.to_nat i = Z.to_nat j); [|lia].
    apply (proj1 (NoDup_nth vs (0, 0)) ND); unfold zlen in *; auto; lia. }
  assert (EV : map (fun i => nth (Z.to_nat i) vs (0, 0)) (range 0 (zlen vs)) = vs).
  { apply nth_ext with (d := (0, 0)) (d' := (0, 0)).
    - unfold range. rewrite !map_length, seq_length. unfold zlen. lia.
    - intros k Hk. unfold range in *. rewrite !map_length, seq_length in Hk.
      rewrite (nth_indep _ (0, 0) (nth (Z.to_nat 0) vs (0, 0))) by now rewrite !map_length, seq_length.
      rewrite (map_nth (fun i => nth (Z.to_nat i) vs (0, 0))). rewrite (nth_indep _ 0 (0 + Z.of_nat 0)) by now rewrite map_length, seq_length.
      rewrite (map_nth (fun i => 0 + Z.of_nat i)). rewrite seq_nth by exact Hk. f_equal. lia. }
  pose proof (numbers_draws complaints b w h bits complaints_refl complaints_trans scale ps Hsc (square_hit d w h) (cellval b bits (scale - 1 - ps))
    (square_box w h scale ps Hsc Hps) (squares b w h bits scale ps Hps Hb) color font sp Hc F1 F2 F3 (zlen vs) _ xadj yadj v0 dv sz sl rj ltac:(unfold zlen; lia) Hinj) as D.
  rewrite EV in D. destruct (draws_open _ _ _ _ _ _ _ o W D) as (b' & o' & E & (n & ->) & R).
  exists b', n, (cellval b bits (scale - 1 - ps)). split; [apply (value_spec b w h bits scale ps W)|]. split; [exact E|].
  eapply repainted_ext; [|exact R]. intros px py _. cbn beta. rewrite labels_over. reflexivity.
Qed.
Example C117_numbers_ex : NoDup [(1, 2); (4, 2)] /\
  (forall c, c = 45 \/ 48 <= c < 58 -> in_font font8x14 c) /\
  numbervert [(1, 2); (4, 2)] 0 0 1 7 1 0 0 (One 1) font8x14 false false false (mkst (blank 5 4 24) []) =
    (plotstring 1 2 [55] 1 0 0 (One 1) font8x14 ;;; plotstring 4 2 [56] 1 0 0 (One 1) font8x14) (mkst (blank 5 4 24) []).
Proof.
  split; [repeat constructor; cbn; intuition discriminate|]. split; [apply font_chars|]. vm_compute. reflexivity.
Qed.
Print Assumptions C117_decimal.
Print Assumptions C117_decimal_unique.
Print Assumptions C117_numbers.

(** arrows: the line and the two lines of the head *)
Theorem C117_arrow : forall head b w h bits o u v hs c, wf b w h bits -> 0 < w -> 0 < h ->
  let p := fst (head u v hs) in let q := snd (head u v hs) in let arms := [(u, v); (v, p); (v, q)] in
  (0 <= c < 2 ^ bits -> Forall (fun e => seg_fits w h bits (fst e) (snd e)) arms ->
   exists b' o', drawvec head u v hs c None (mkst b o) = (Ok tt, mkst b' o') /\ (bits <> 1 -> o' = o) /\
     repainted b b' w h bits (fun x y => if any_edge (seg_hit w h) arms x y then c else pixel b w h bits x y)) /\
  (storable bits c -> Forall (fun e => pen_at bits (Z.min (fst (fst e)) (fst (snd e)))) arms -> forall r,
   exists b' o', drawvec head u v hs c (Some r) (mkst b o) = (Ok tt, mkst b' o') /\ (bits <> 1 -> o' = o) /\
     repainted b b' w h bits (fun x y => if any_edge (thick_seg r) arms x y then reduce bits c else pixel b w h bits x y)).
Proof.
  intros head b w h bits o u v hs c W Hw Hh p q arms.
  assert (EA : iterdrawvec head u v hs = arms) by (unfold iterdrawvec, arms, p, q; destruct (head u v hs); reflexivity).
  split.
  - intros Hc HF. rewrite <- EA in *. destruct (fills_open _ _ _ _ _ _ _ _ o W (arrow_thin b w h bits W Hw Hh head u v hs c Hc HF)) as (b' & o' & E & Q & R).
    exists b', o'. auto.
  - intros Hc HF r. rewrite <- EA in *. destruct (fills_open _ _ _ _ _ _ _ _ o W (arrow_thick b w h bits W head u v hs c r Hc HF)) as (b' & o' & E & Q & R).
    exists b', o'. auto.
Qed.
Example C117_arrow_ex :
  rows (after (drawvec (fun _ v hs => ((fst v - hs, snd v - 1), (fst v - hs, snd v + 1))) (0, 1) (5, 1) 2 7 None) (blank 6 3 24)) 6 3 24 =
    [[0; 0; 0; 7; 7; 0]; [7; 7; 7; 7; 7; 7]; [0; 0; 0; 7; 7; 0]].
Proof. vm_compute. reflexivity. Qed.
Print Assumptions C117_arrow.

Theorem C117_axes : forall head b w h bits o ox oy xs ys xl yl vx vy dx dy c tc grid gc,
  wf b w h bits -> bits <> 4 -> 0 < w -> 0 < h -> 0 < xs -> 0 < ys -> -1 <= ox -> oy <= h ->
  0 <= c < 2 ^ bits -> storable bits tc -> storable bits gc ->
  let top := (ox, yl) in let right := (xl, oy) in
  let arms := [((ox, oy), top); (top, fst (head (ox, oy) top 10)); (top, snd (head (ox, oy) top 10));
               ((ox, oy), right); (right, fst (head (ox, oy) right 10)); (right, snd (head (ox, oy) right 10))] in
  Forall (fun e => seg_fits w h bits (fst e) (snd e)) arms ->
  let nx := marks (xl - ox) xs in let ny := marks (oy - yl) ys in
  exists b' o',
    XYaxis head (ox, oy) (xs, ys) (xl, yl) (vx, vy) (dx, dy) c tc grid gc (mkst b o) =
      (Ok (mkaxes (ox, oy) (xs, ys) (xl, yl) (vx, vy) (dx, dy) (vx + (nx - 1) * dx, vy + (ny - 1) * dy)), mkst b' o') /\
    (bits <> 1 -> exists n, o' = o ++ repeat Mlineoutofbnd n) /\
    repainted b b' w h bits (fun px py =>
      let lines := if any_edge (seg_hit w h) arms px py || on_ticks ox oy xl yl xs ys px py then c
        else if grid && on_grid ox oy xl yl xs ys px py then reduce bits gc else pixel b w h bits px py in
      let with_y := fold_left (fun old i => let t := strint (vy + i * dy) in
        written font8x14 (reduce bits tc) t (ox - 15 - 8 * (zlen t - 1)) (oy - i * ys - 4) old px py) (range 0 ny) lines in
      fold_left (fun old i => written font8x14 (reduce bits tc) (strint (vx + i * dx)) (ox + i * xs - 4) (oy + 7) old px py) (range 0 nx) with_y).
Proof.
  intros head b w h bits o ox oy xs ys xl yl vx vy dx dy c tc grid gc W N4 Hw Hh Hxs Hys Hox Hoy Hc Htc Hgc top right arms HF nx ny.
  assert (EA : axis_edges ox oy xl yl head = arms).
  { unfold axis_edges, iterdrawvec, arms, top, right. destruct (head (ox, oy) (ox, yl) 10), (head (ox, oy) (xl, oy) 10). reflexivity. }
  rewrite <- EA in *.
  exact (axes_run b w h bits W N4 Hw Hh ox oy xl yl xs ys Hxs Hys Hox Hoy c tc gc Hc Htc Hgc head vx vy dx dy grid HF o).
Qed.
(** without steps there are no axes *)
Theorem C117_no_steps : forall head s ox oy xs ys xl yl vs ds c tc grid gc, xs = 0 \/ ys = 0 ->
  XYaxis head (ox, oy) (xs, ys) (xl, yl) vs ds c tc grid gc s = (Err ValueError, s).
Proof.
  intros head [b o] ox oy xs ys xl yl vs ds c tc grid gc H. unfold XYaxis. cbn [fst snd]. unfold horizontalvert, verticalvert, rangeby, bind, lift.
  destruct (Z.eqb_spec xs 0) as [|N]; [reflexivity|]. destruct H as [|H]; [contradiction|]. subst ys. cbn [Z.opp Z.eqb].
  destruct (0 <? xs); reflexivity.
Qed.
(** what a mark is: its number, its tick and its value go together *)
Theorem C117_marks : forall d k i, 0 < k -> 0 <= i < marks d k <-> 0 <= i /\ i * k < d.
Proof. intros d k i Hk. now apply in_marks. Qed.
Definition open_head (_ v : Z * Z) (_ : Z) : (Z * Z) * (Z * Z) := (v, v).
Example C117_axes_ex : Forall (fun e => seg_fits 40 30 24 (fst e) (snd e))
    [((20, 20), (20, 4)); ((20, 4), (20, 4)); ((20, 4), (20, 4)); ((20, 20), (34, 20)); ((34, 20), (34, 20)); ((34, 20), (34, 20))] /\
  marks (34 - 20) 5 = 3 /\ marks (20 - 4) 8 = 2 /\ on_ticks 20 20 34 4 5 8 25 23 = true /\ on_ticks 20 20 34 4 5 8 17 12 = true /\
  written font8x14 1 [48] 5 4 0 7 11 = 1.
Proof.
  split; [|repeat split; vm_compute; reflexivity].
  repeat apply Forall_cons; try apply Forall_nil; (split; [discriminate|vm_compute; discriminate]).
Qed.
(** the rows of the grid are counted from the top, the ticks from the origin: the grid
    has no line at the first tick above the origin *)
Theorem C117_grid_refuted : exists b w h ox oy xs ys xl yl c gc b', wf b w h 24 /\ inside w h ox oy /\ inside w h xl yl /\
  0 < xs /\ 0 < ys /\ yl < oy - ys /\ 0 < gc < 2 ^ 24 /\ c <> gc /\
  (exists r s, XYaxis open_head (ox, oy) (xs, ys) (xl, yl) (0, 0) (1, 1) c c true gc (mkst b []) = (Ok r, s) /\ mem s = b') /\
  pixel b' w h 24 (ox - 1) (oy - ys) = c /\ pixel b' w h 24 (ox + 1) (oy - ys) <> gc /\
  pixel b' w h 24 (ox + 1) yl = gc.
Proof.
  destruct (C117_axes open_head (blank 9 9 24) 9 9 24 [] 3 7 3 4 8 1 0 0 1 1 5 5 true 9) as (b' & o' & E & _ & R);
    [concrete_wf|discriminate|lia|lia|lia|lia|lia|lia|lia|unfold storable; lia|unfold storable; lia| |].
  { repeat apply Forall_cons; try apply Forall_nil; (split; [discriminate|vm_compute; discriminate]). }
  exists (blank 9 9 24), 9, 9, 3, 7, 3, 4, 8, 1, 5, 9, b'. split; [concrete_wf|]. split; [unfold inside; lia|]. split; [unfold inside; lia|].
  repeat (split; [lia|]). split; [eexists; eexists; split; [exact E|reflexivity]|].
  destruct R as (_ & _ & R). rewrite !R by (unfold inside; lia).
  split; [vm_compute; reflexivity|]. split; [vm_compute; discriminate|vm_compute; reflexivity].
Qed.
Print Assumptions C117_axes.
Print Assumptions C117_no_steps.
Print Assumptions C117_marks.
Print Assumptions C117_grid_refuted.

(** * C118: scatter plots *)

(** the scale of an axis: the start value is at the origin, every step is [pixels] further *)
Theorem C118_scale : forall origin pixels start step, step <> 0 ->
  let at_ := place origin pixels start step in
  (forall i, at_ (inject_Z (start + i * step)) == inject_Z (origin + i * pixels))%Q /\
  (forall x y, 0 < pixels * step -> (x < y <-> at_ x < at_ y)%Q) /\
  (forall x y, (x == y -> at_ x == at_ y))%Q.
Proof.
  intros origin pixels start step Hs at_. assert (N : ~ (inject_Z step == 0)%Q) by now apply inject_nz.
  split; [|split].
  - intros i. unfold at_, place. rewrite !inject_Z_plus, !inject_Z_mult. field. exact N.
  - intros x y Hp. unfold at_, place.
    assert (P : (0 < inject_Z pixels / inject_Z step)%Q).
    { assert (E : (inject_Z pixels / inject_Z step == inject_Z (pixels * step) * (/ inject_Z step * / inject_Z step))%Q).
      { rewrite inject_Z_mult. field. exact N. }
      rewrite E. apply Qmult_lt_0_compat; [unfold Qlt; cbn; lia|].
      assert (~ (/ inject_Z step == 0)%Q). { intros K. apply N. rewrite <- (Qinv_involutive (inject_Z step)), K. reflexivity. }
      destruct (Qlt_le_dec 0 (/ inject_Z step)) as [L|L]; [now apply Qmult_lt_0_compat|].
      assert (L' : (/ inject_Z step < 0)%Q) by (apply Qle_lteq in L; destruct L; [assumption|contradiction]).
      assert (F : (/ inject_Z step * / inject_Z step == (- / inject_Z step) * (- / inject_Z step))%Q) by ring. rewrite F.
      apply Qmult_lt_0_compat; lra. }
    set (q := (inject_Z pixels / inject_Z step)%Q) in *. clearbody q. split; intros H.
    + apply Qplus_lt_r. apply Qmult_lt_compat_r; [exact P|lra].
    + apply Qplus_lt_r in H. apply Qmult_lt_r in H; [lra|exact P].
  - intros x y E. unfold at_, place. now rewrite E.
Qed.
Example C118_scale_ex : (place 20 5 100 10 125 == 65 # 2)%Q.
Proof. reflexivity. Qed.

(** values to coordinates: exact, except beyond the right and the upper limit *)
Theorem C118_screen : forall x y a s, fst (ax_vsteps a) <> 0 -> snd (ax_vsteps a) <> 0 ->
  let r := area_of a in
  (in_view r x y = true -> exists p q, userdef2Dcooordsys2screenxy x y a s = (Ok (p, q), s) /\ (p == place_x r x)%Q /\ (q == place_y r y)%Q) /\
  (in_view r x y = false -> userdef2Dcooordsys2screenxy x y a s = (Ok (-1, -1)%Q, mkst (mem s) (out s ++ [Mregionoutofbounds]))).
Proof.
  intros x y a s Hx Hy r. destruct (screen_run a Hx Hy x y s) as ([p q] & E & _ & T & F). unfold report in E. fold r in E, T, F. split; intros V.
  - exists p, q. rewrite V in E. destruct (T V) as [T1 T2]. split; [|split; [exact T1|exact T2]]. rewrite E. destruct s. cbn. now rewrite app_nil_r.
  - rewrite V in E. rewrite E, (F V). reflexivity.
Qed.
Theorem C118_screen_zero : forall x y a s, fst (ax_vsteps a) = 0 \/ snd (ax_vsteps a) = 0 ->
  userdef2Dcooordsys2screenxy x y a s = (Err ZeroDivisionError, s).
Proof.
  intros x y a s H. unfold userdef2Dcooordsys2screenxy, qdiv, bind, lift.
  destruct (Qeq_bool (inject_Z (fst (ax_vsteps a))) 0) eqn:E; [reflexivity|]. destruct H as [H|H].
  - rewrite H in E. discriminate.
  - rewrite H. reflexivity.
Qed.
Definition sample_axes : axes := mkaxes (2, 9) (2, 2) (10, 1) (0, 0) (1, 1) (3, 3).
Example C118_screen_ex : in_view (area_of sample_axes) 3 (5 # 2) = true /\ in_view (area_of sample_axes) 3 (9 # 2) = false /\
  at_pixel (area_of sample_axes) 3 (5 # 2) (8, 4).
Proof. split; [reflexivity|]. split; [reflexivity|]. unfold at_pixel. split; split; vm_compute; discriminate. Qed.

Theorem C118_points : forall a b w h bits data lc o, fst (ax_vsteps a) <> 0 -> snd (ax_vsteps a) <> 0 ->
  wf b w h bits -> bits <> 4 ->
  exists spot, (forall d, at_pixel (area_of a) (inject_Z (d_x d)) (inject_Z (d_y d)) (spot d)) /\
   (Forall (fun d => 0 <= d_c d < 2 ^ bits /\ (1 < d_r d -> d_f d <> 0 -> pen_at bits (fst (spot d)))) data ->
    exists b' o', XYscatterplot (map d_row data) a false lc (mkst b o) = (Ok tt, mkst b' o') /\
      (bits <> 1 -> o' = o ++ repeat Mregionoutofbounds (length (filter (fun d => negb (d_in_view (area_of a) d)) data))) /\
      repainted b b' w h bits (fun px py => marked spot data px py (pixel b w h bits px py))).
Proof.
  intros a b w h bits data lc o Hx Hy W N4. exists (spot a). split; [intros d; apply screen_plotted|]. intros HF.
  rewrite scatter_plain. apply (PlotProofs2.points_run a Hx Hy b w h bits W N4 data b o HF W). split; auto.
Qed.
Example C118_points_ex :
  rows (after (XYscatterplot (map d_row [point 1 1 1 5 0; point 2 2 2 7 1; point 3 3 1 9 0]) sample_axes false 0) (blank 10 10 24)) 10 10 24 =
    [[0; 0; 0; 0; 0; 0; 0; 0; 0; 0]; [0; 0; 0; 0; 0; 0; 0; 0; 0; 0]; [0; 0; 0; 0; 0; 0; 0; 0; 0; 0];
     [0; 0; 0; 0; 0; 7; 7; 7; 9; 0]; [0; 0; 0; 0; 7; 7; 7; 7; 7; 0]; [0; 0; 0; 0; 7; 7; 7; 7; 7; 0];
     [0; 0; 0; 0; 7; 7; 7; 7; 7; 0]; [0; 0; 0; 0; 5; 7; 7; 7; 0; 0]; [0; 0; 0; 0; 0; 0; 0; 0; 0; 0]; [0; 0; 0; 0; 0; 0; 0; 0; 0; 0]].
Proof. vm_compute. reflexivity. Qed.

(** the regression line: from the lowest value of x to the highest one, or to the highest
    value of y if that is beyond a limit; m and k are those of the method of least squares *)
Theorem C118_line : forall a b w h bits data lc o, fst (ax_vsteps a) <> 0 -> snd (ax_vsteps a) <> 0 ->
  wf b w h bits -> bits <> 4 -> 0 < w -> 0 < h -> 0 <= snd (ax_limits a) -> 0 <= lc < 2 ^ bits ->
  let pts := map (fun d => (d_x d, d_y d)) data in
  let r := area_of a in
  let xmin := inject_Z (fst (ax_starts a)) in let xmax := inject_Z (fst (ax_max a)) in let ymax := inject_Z (snd (ax_max a)) in
  (exists p q, In p pts /\ In q pts /\ fst p <> fst q) ->
  exists m k spot p q,
    (forall m' k', (SpecExact.squares m k pts <= SpecExact.squares m' k' pts)%Q) /\
    (forall d, at_pixel r (inject_Z (d_x d)) (inject_Z (d_y d)) (spot d)) /\
    at_pixel r xmin (m * xmin + k)%Q p /\
    (if in_view r xmax (m * xmax + k)%Q then at_pixel r xmax (m * xmax + k)%Q q
     else exists x, (~ m == 0 -> m * x + k == ymax)%Q /\ at_pixel r x ymax q) /\
    (Forall (fun d => 0 <= d_c d < 2 ^ bits /\ (1 < d_r d -> d_f d <> 0 -> pen_at bits (fst (spot d)))) data ->
     (~ (m == 0)%Q \/ in_view r xmax (m * xmax + k)%Q = true -> seg_fits w h bits p q ->
      exists b' o', XYscatterplot (map d_row data) a true lc (mkst b o) = (Ok tt, mkst b' o') /\
        (bits <> 1 -> exists n, o' = o ++ repeat Mregionoutofbounds n) /\
        repainted b b' w h bits (fun px py => if seg_hit w h p q px py then lc else marked spot data px py (pixel b w h bits px py))) /\
     ((m == 0)%Q -> in_view r xmax (m * xmax + k)%Q = false ->
      exists s, XYscatterplot (map d_row data) a true lc (mkst b o) = (Err ZeroDivisionError, s))).
Proof.
  intros a b w h bits data lc o Hx Hy W N4 Hw Hh Hlim Hlc pts r xmin xmax ymax HD.
  assert (NE : pts <> []) by (destruct HD as (p & _ & Hp & _); intros E; rewrite E in Hp; destruct Hp).
  assert (T : table_of pts (map d_row data)).
  { exists 3%nat. unfold pts. clear. induction data as [|d l IH]; [constructor|]. cbn [map]. constructor; [|exact IH].
    exists [d_r d; d_c d; d_f d]. auto. }
  destruct (proj2 (C114_least_squares pts (map d_row data) NE T) HD) as (m & k & Em & Ek & LS).
  exists m, k, (spot a), (line_start a m k), (line_end a m k).
  assert (VE : forall x y y', (y == y')%Q -> in_view r x y = in_view r x y').
  { intros x y y' E. unfold in_view. apply f_equal. apply qle_ext; [reflexivity|]. unfold place_y, place. now rewrite E. }
  assert (AE : forall x y y' p, (y == y')%Q -> at_pixel r x y p -> at_pixel r x y' p).
  { intros x y y' p E. unfold at_pixel. rewrite (VE x y y' E). destruct (in_view r x y'); auto. intros [A B]. split; [exact A|].
    unfold SpecExact.nearest in *. assert (EP : (place_y r y == place_y r y')%Q) by (unfold place_y, place; now rewrite E). rewrite <- EP. exact B. }
  assert (C1 : (xmin * m + k == m * xmin + k)%Q) by ring. assert (C2 : (xmax * m + k == m * xmax + k)%Q) by ring.
  split; [intros m' k'; apply LS|]. split; [intros d; apply screen_plotted|]. split; [|split; [|split]].
  - apply (AE _ _ _ _ C1). apply screen_plotted.
  - rewrite <- (VE xmax _ _ C2). unfold line_end. fold r xmax ymax. destruct (in_view r xmax (xmax * m + k)).
    + apply (AE _ _ _ _ C2). apply screen_plotted.
    + exists ((ymax - k) / m)%Q. split; [intros N; field; exact N|apply screen_plotted].
  - rewrite <- (VE xmax _ _ C2). intros HM HS. exact (scatter_line a Hx Hy b w h bits W N4 Hw Hh Hlim data m k lc Em Ek Hlc H o HM HS).
  - rewrite <- (VE xmax _ _ C2). intros HM HV. apply (scatter_flat a Hx Hy b w h bits W N4 data m k lc Em Ek H b o HM HV W). split; auto.
Qed.
Example C118_line_ex :
  let data := [point 0 0 1 5 0; point 1 2 1 5 0; point 2 1 1 5 0; point 3 3 1 5 0] in
  (exists p q, In p (map (fun d => (d_x d, d_y d)) data) /\ In q (map (fun d => (d_x d, d_y d)) data) /\ fst p <> fst q) /\
  rows (after (XYscatterplot (map d_row data) sample_axes true 7) (blank 9 10 24)) 9 10 24 =
    [[0; 0; 0; 0; 0; 0; 0; 0; 0]; [0; 0; 0; 0; 0; 0; 0; 0; 0]; [0; 0; 0; 0; 0; 0; 0; 0; 0]; [0; 0; 0; 0; 0; 0; 0; 0; 5];
     [0; 0; 0; 0; 0; 0; 0; 7; 7]; [0; 0; 0; 0; 5; 0; 7; 0; 0]; [0; 0; 0; 0; 7; 7; 0; 0; 0]; [0; 0; 0; 7; 0; 0; 5; 0; 0];
     [0; 0; 7; 0; 0; 0; 0; 0; 0]; [0; 0; 5; 0; 0; 0; 0; 0; 0]].
Proof. split; [exists (0, 0), (1, 2); cbn; intuition discriminate|]. vm_compute. reflexivity. Qed.
(** points with the same x have no regression line: the marks are drawn and then the call fails *)
Theorem C118_same_x : forall a b w h bits data lc o, fst (ax_vsteps a) <> 0 -> snd (ax_vsteps a) <> 0 ->
  wf b w h bits -> bits <> 4 -> data <> [] -> (forall d e, In d data -> In e data -> d_x d = d_x e) ->
  (forall d, In d data -> 0 <= d_c d < 2 ^ bits /\ d_r d <= 1) ->
  exists b' o', XYscatterplot (map d_row data) a true lc (mkst b o) = (Err ZeroDivisionError, mkst b' o') /\
    XYscatterplot (map d_row data) a false lc (mkst b o) = (Ok tt, mkst b' o').
Proof.
  intros a b w h bits data lc o Hx Hy W N4 NE HX HD.
  destruct (C118_points a b w h bits data lc o Hx Hy W N4) as (spot & _ & K).
  destruct K as (b' & o' & E & _); [apply Forall_forall; intros d Hd; destruct (HD d Hd); split; auto; lia|].
  exists b', o'. split; [|exact E]. rewrite scatter_plain in E. unfold XYscatterplot. rewrite (bind_ok _ _ _ _ _ E).
  assert (T : table_of (map (fun d => (d_x d, d_y d)) data) (map d_row data)).
  { exists 3%nat. clear. induction data as [|d l IH]; [constructor|]. cbn [map]. constructor; [|exact IH]. exists [d_r d; d_c d; d_f d]. auto. }
  destruct (proj1 (C114_least_squares (map (fun d => (d_x d, d_y d)) data) _ ltac:(intros EM; apply NE; now apply map_eq_nil in EM) T)) as [S _].
  { intros p q Hp Hq. apply in_map_iff in Hp. apply in_map_iff in Hq. destruct Hp as (d & <- & Hd), Hq as (e & <- & He). cbn [fst]. auto. }
  unfold bind at 1, lift at 1. rewrite S. reflexivity.
Qed.
Example C118_same_x_ex : outcome (XYscatterplot (map d_row [point 2 1 1 5 0; point 2 3 0 6 0]) sample_axes true 7) (blank 10 10 24) = Err ZeroDivisionError.
Proof. vm_compute. reflexivity. Qed.

(** a point beyond the limits leaves a mark in the corner of the image *)
Theorem C118_corner_refuted : exists a d b w h, wf b w h 24 /\ d_in_view (area_of a) d = false /\ pixel b w h 24 0 0 <> d_c d /\
  pixel (after (XYscatterplot [d_row d] a false 0) b) w h 24 0 0 = d_c d.
Proof.
  exists sample_axes, (point 9 9 3 5 1), (blank 4 4 24), 4, 4. split; [concrete_wf|]. split; [reflexivity|]. split; [vm_compute; discriminate|].
  vm_compute. reflexivity.
Qed.
(** a point below or to the left of the axes is not noticed: it is drawn outside the plot *)
Theorem C118_below_refuted : exists a d b w h, wf b w h 24 /\ d_x d < fst (ax_starts a) /\ d_y d < snd (ax_starts a) /\
  let s := snd (run (XYscatterplot [d_row d] a false 0) b) in
  out s = [] /\ pixel (mem s) w h 24 0 11 = d_c d /\ pixel b w h 24 0 11 <> d_c d /\ 0 < fst (ax_origin a) /\ snd (ax_origin a) < 11.
Proof.
  exists sample_axes, (point (-1) (-1) 1 5 0), (blank 4 12 24), 4, 12. split; [concrete_wf|]. split; [reflexivity|]. split; [reflexivity|].
  split; [vm_compute; reflexivity|]. split; [vm_compute; reflexivity|]. split; [vm_compute; discriminate|]. split; reflexivity.
Qed.
(** a falling regression line that begins above the plot is drawn from the corner of the image:
    through the points (0, 4) and (3, 1) there is a line, but what is drawn misses its point (2, 2) *)
Theorem C118_regression_refuted : exists a data b w h p, wf b w h 24 /\
  (forall d, In d data -> d_y d = 4 - d_x d) /\ at_pixel (area_of a) 2 2 p /\ inside w h (fst p) (snd p) /\
  let b' := after (XYscatterplot (map d_row data) a true 7) b in
  pixel b' w h 24 0 0 = 7 /\ pixel b w h 24 0 0 <> 7 /\ pixel b' w h 24 (fst p) (snd p) = pixel b w h 24 (fst p) (snd p) /\
  pixel b w h 24 (fst p) (snd p) <> 7.
Proof.
  exists (mkaxes (2, 9) (2, 2) (8, 3) (0, 0) (1, 1) (3, 3)), [point 1 3 1 5 0; point 3 1 1 5 0], (blank 10 10 24), 10, 10, (6, 5).
  split; [concrete_wf|]. split; [intros d [<-|[<-|[]]]; reflexivity|]. split; [split; split; vm_compute; discriminate|]. split; [unfold inside; cbn; lia|].
  split; [vm_compute; reflexivity|]. split; [vm_compute; discriminate|]. split; [vm_compute; reflexivity|vm_compute; discriminate].
Qed.
Print Assumptions C118_scale.
Print Assumptions C118_screen.
Print Assumptions C118_screen_zero.
Print Assumptions C118_points.
Print Assumptions C118_line.
Print Assumptions C118_same_x.
Print Assumptions C118_corner_refuted.
Print Assumptions C118_below_refuted.
Print Assumptions C118_regression_refuted.
