(** Property C156: drawings of squircles. *)
From Coq Require Import ZArith Reals List Bool Lia Lra Psatz.
From Verif Require Import PyBase PyFacts Spec SpecShapes Bmp BmpFacts Geometry Draw Shapes ShapeProofs ShapeProofs4 Concrete PropShapes Coords RealProofs Sweeps PropOutlines Squircle.
Import ListNotations.
Open Scope Z_scope.

(** ** Polygons in a box *)
Lemma into_id n v : 0 <= v < n -> into n v = v.
Proof. unfold into. lia. Qed.
Lemma seg_end x1 y1 x2 y2 : seg_points x1 y1 x2 y2 x2 y2 = true.
Proof.
  unfold seg_points. destruct (is_diagonal x1 y1 x2 y2) eqn:D; [now rewrite !Z.eqb_refl|]. unfold on_line, in_box. cbv zeta. unfold is_diagonal in D.
  rewrite !(proj2 (Z.leb_le _ _)) by lia. cbn [andb]. assert (G : forall a d, Z.abs d < Z.abs a -> (Z.abs a + 1) * Z.abs d / Z.abs a = Z.abs d).
  { intros a d L. replace ((Z.abs a + 1) * Z.abs d) with (Z.abs d + Z.abs d * Z.abs a) by ring. rewrite Z.div_add by lia. rewrite Z.div_small by lia. lia. }
  destruct (Z.leb_spec (Z.abs (y2 - y1)) (Z.abs (x2 - x1))) as [L|L].
  - destruct (Z.eq_dec x1 x2) as [E|E]; [replace y2 with y1 by lia; rewrite Z.sub_diag; cbn [Z.sgn Z.mul]; lia|].
    rewrite G by lia. destruct (sgn_cases (y2 - y1)) as [[-> K]|[[-> K]|[-> K]]]; lia.
  - rewrite G by lia. destruct (sgn_cases (x2 - x1)) as [[-> K]|[[-> K]|[-> K]]]; lia.
Qed.
Lemma edge_ends vs u v : In (u, v) (closed_edges vs) -> In u vs /\ In v vs.
Proof.
  unfold closed_edges. destruct vs as [|p vs]; [intros []|]. intros I. apply in_app_or in I. destruct I as [I|[I|[]]].
  - unfold edges in I. split; [now apply in_combine_l in I|]. apply in_combine_r in I. now right.
  - injection I as <- <-. split; [now left|]. clear. cut (In (last (p :: vs) p) (p :: vs)); [auto|]. generalize p at 1 3. revert p. induction vs as [|q vs IH]; intros p d; [now left|]. right. change (In (last (q :: vs) p) (q :: vs)). apply (IH p q).
Qed.
Lemma edge_nth vs d i : (S i < length vs)%nat -> In (nth i vs d, nth (S i) vs d) (closed_edges vs).
Proof.
  intros L. unfold closed_edges. destruct vs as [|p vs]; [cbn in L; lia|]. apply in_or_app. left. unfold edges. cbn [tl]. cbn [length] in L.
  replace (nth (S i) (p :: vs) d) with (nth i vs d) by reflexivity. assert (E : nth i (combine (p :: vs) vs) (d, d) = (nth i (p :: vs) d, nth i vs d)).
  { revert p i L. induction vs as [|q vs IH]; intros p i L; [cbn in L; lia|]. destruct i as [|i]; [reflexivity|]. cbn [combine nth]. apply IH. cbn [length] in L. lia. }
  rewrite <- E. apply nth_In. rewrite combine_length. cbn [length]. lia.
Qed.
Section Box.
  Variables (w h x0 y0 x1 y1 : Z) (vs : list (Z * Z)).
  Hypothesis (B : 0 <= x0 /\ x1 < w /\ 1 <= y0 /\ y1 < h - 1) (V : forall p, In p vs -> x0 <= fst p <= x1 /\ y0 <= snd p <= y1).
  Lemma hit_in u v px py : In u vs -> In v vs -> seg_hit w h u v px py = seg_points (fst u) (snd u) (fst v) (snd v) px py.
  Proof. intros U U'. apply V in U, U'. unfold seg_hit. now rewrite !into_id by lia. Qed.
  Lemma box_fits bits : bits <> 4 -> Forall (fun e => seg_fits w h bits (fst e) (snd e)) (closed_edges vs).
  Proof.
    intros N. apply Forall_forall. intros (u, v) I. apply edge_ends in I. destruct I as (U & U'). apply V in U, U'. unfold seg_fits. cbn [fst snd]. rewrite !into_id by lia. split; [contradiction|]. intros _. destruct (sgn_cases (snd v - snd u)) as [[-> K]|[[-> K]|[-> K]]]; lia.
  Qed.
  Lemma box_hit px py : any_edge (seg_hit w h) (closed_edges vs) px py = true -> x0 <= px <= x1 /\ y0 - 1 <= py <= y1 + 1.
  Proof.
    unfold any_edge. rewrite existsb_exists. intros ((u, v) & I & H). cbn [fst snd] in H. apply edge_ends in I. destruct I as (U & U'). rewrite hit_in in H by assumption. apply seg_points_box in H. apply V in U, U'. lia.
  Qed.
  Lemma vertex_hit d i : (S i < length vs)%nat -> any_edge (seg_hit w h) (closed_edges vs) (fst (nth (S i) vs d)) (snd (nth (S i) vs d)) = true.
  Proof.
    intros L. unfold any_edge. rewrite existsb_exists. exists (nth i vs d, nth (S i) vs d). split; [now apply edge_nth|]. cbn [fst snd]. rewrite hit_in by (apply nth_In; lia). apply seg_end.
  Qed.
End Box.

(** ** The contract *)
Lemma fourth_le a r : 0 <= r -> a ^ 4 <= r ^ 4 -> - r <= a <= r.
Proof. intros R H. replace (a ^ 4) with ((a * a) * (a * a)) in H by ring. replace (r ^ 4) with ((r * r) * (r * r)) in H by ring. assert (a * a <= r * r) by nia. nia. Qed.
Lemma squircle_box x y r p : 0 < r -> In p (itersquircle x y r) -> x - r <= fst p <= x + r /\ y - r <= snd p <= y + r.
Proof.
  intros R I. destruct (C129_squircle x y r R) as (_ & _ & _ & _ & _ & K). destruct (K p I) as (E & _). assert (0 <= (fst p - x) ^ 4) by (apply Z.pow_even_nonneg; now exists 2). assert (0 <= (snd p - y) ^ 4) by (apply Z.pow_even_nonneg; now exists 2).
  pose proof (fourth_le (fst p - x) r ltac:(lia) ltac:(lia)). pose proof (fourth_le (snd p - y) r ltac:(lia) ltac:(lia)). lia.
Qed.
(** A squircle in the image paints exactly the segments between its 360 vertices.  All of this lies in the square of
    radius r, one row above and below added; each vertex but the first is painted, so are three of the four points on
    the axes. *)
Theorem C156_squircle : forall b w h bits o x y r c, wf b w h bits -> bits <> 4 -> 0 <= c < 2 ^ bits -> 0 < r -> r <= x -> x + r < w -> r < y -> y + r < h - 1 ->
  exists b' o' (S : Z -> Z -> bool), squircle x y r c (mkst b o) = (Ok tt, mkst b' o') /\ (bits <> 1 -> o' = o) /\
    repainted b b' w h bits (fun px py => if S px py then c else pixel b w h bits px py) /\
    (forall px py, S px py = true <-> exists u v, In (u, v) (closed_edges (itersquircle x y r)) /\ In (px, py) (iterline u v)) /\
    (forall px py, S px py = true -> Z.abs (px - x) <= r /\ Z.abs (py - y) <= r + 1) /\
    (forall i, 0 < i < 360 -> S (fst (point (itersquircle x y r) i)) (snd (point (itersquircle x y r) i)) = true) /\
    S x (y + r) = true /\ S (x - r) y = true /\ S x (y - r) = true.
Proof.
  intros b w h bits o x y r c W N C R X1 X2 Y1 Y2. destruct (C129_squircle x y r R) as (L & _ & P9 & P18 & P27 & _).
  assert (B : 0 <= x - r /\ x + r < w /\ 1 <= y - r /\ y + r < h - 1) by lia. assert (V : forall p, In p (itersquircle x y r) -> x - r <= fst p <= x + r /\ y - r <= snd p <= y + r) by (intros p; now apply squircle_box).
  assert (NE : itersquircle x y r <> []) by (intros E; rewrite E in L; discriminate).
  destruct (C72_polygon b w h bits o (itersquircle x y r) c W ltac:(lia) ltac:(lia) C NE (box_fits w h _ _ _ _ _ B V bits N)) as (b' & o' & E & Q & RP).
  exists b', o', (any_edge (seg_hit w h) (closed_edges (itersquircle x y r))). split; [exact E|]. split; [exact Q|]. split; [exact RP|].
  assert (VH : forall i, 0 < i < 360 -> any_edge (seg_hit w h) (closed_edges (itersquircle x y r)) (fst (point (itersquircle x y r) i)) (snd (point (itersquircle x y r) i)) = true).
  { intros i I. unfold point. replace (Z.to_nat i) with (S (Z.to_nat (i - 1))) by lia. apply (vertex_hit w h _ _ _ _ _ B V). rewrite L. lia. }
  split; [|split; [|split; [exact VH|]]].
  - intros px py. unfold any_edge. rewrite existsb_exists. split.
    + intros ((u, v) & I & H). exists u, v. split; [exact I|]. apply edge_ends in I. destruct I as (U & U'). cbn [fst snd] in H. rewrite (hit_in w h _ _ _ _ _ B V u v) in H by assumption. apply seg_points_in in H. now rewrite <- !surjective_pairing in H.
    + intros (u & v & I & H). exists (u, v). split; [exact I|]. apply edge_ends in I. destruct I as (U & U'). cbn [fst snd]. rewrite (hit_in w h _ _ _ _ _ B V u v) by assumption. apply seg_points_in. now rewrite <- !surjective_pairing.
  - intros px py H. apply (box_hit w h _ _ _ _ _ B V) in H. lia.
  - pose proof (VH 90 ltac:(lia)) as A. pose proof (VH 180 ltac:(lia)) as A'. pose proof (VH 270 ltac:(lia)) as A''. rewrite P9 in A. rewrite P18 in A'. rewrite P27 in A''. cbn [fst snd] in A, A', A''. split; [exact A|split; [exact A'|exact A'']].
Qed.
Example C156_ex : wf (blank 9 9 24) 9 9 24 /\ 24 <> 4 /\ 0 <= 7 < 2 ^ 24 /\ 0 < 3 /\ 3 <= 4 /\ 4 + 3 < 9 /\ 3 < 4 /\ 4 + 3 < 9 - 1.
Proof. split; [concrete_wf|lia]. Qed.

(** ** Radii from 8 to 15 *)
Open Scope R_scope.
Lemma pi_close : 3 < PI < 32 / 10.
Proof.
  split; [pose proof PI2_3_2; lra|]. pose proof (proj2 (PI_ineq 9)) as P. cbn [Nat.mul Nat.add sum_f_R0] in P. unfold tg_alt, PI_tg in P. cbn [pow Nat.mul Nat.add] in P. rewrite !S_INR in P. cbn [INR] in P. lra.
Qed.
Lemma trunc_is n u : (0 <= n)%Z -> IZR n <= u < IZR n + 1 -> rtrunc u = n.
Proof. intros N U. apply IZR_le in N. unfold rtrunc. rewrite (proj2 (rlt_no u 0)) by lra. apply int_unique; lra. Qed.
Lemma rpow_half a : 0 < a -> rpow a (2 / 4) = sqrt a.
Proof. intros A. rewrite rpow_power, power_pos by exact A. replace (2 / 4) with (/ 2) by field. now apply Rpower_sqrt. Qed.
Lemma one_degree : (1 / 8 <= sqrt (sin (radians 1)) < 2 / 15 /\ 14 / 15 <= sqrt (cos (radians 1)) < 1) /\ 0 < sin (radians 1) /\ 0 < cos (radians 1).
Proof.
  pose proof pi_close as P. set (t := radians 1). assert (T : 3 / 180 < t < 4 / 225) by (unfold t, radians; lra).
  assert (S2 : sin t < 4 / 225) by (pose proof (sin_lt_x t ltac:(lra)); lra).
  assert (S1 : 1 / 64 <= sin t). { pose proof (proj1 (sin_bound t 0 ltac:(lra) ltac:(lra))) as B. unfold sin_approx, sin_term in B. cbn in B. nra. }
  assert (C1 : 196 / 225 <= cos t). { pose proof (cos_2a_sin (t / 2)) as C. replace (2 * (t / 2)) with t in C by field. pose proof (sin_lt_x (t / 2) ltac:(lra)). pose proof (sin_ge_0 (t / 2) ltac:(lra) ltac:(lra)). nra. }
  assert (C2 : cos t < 1). { pose proof (sin2_cos2 t) as C. unfold Rsqr in C. nra. }
  assert (G : forall a b, 0 <= a -> a * a <= b -> a <= sqrt b) by (intros a b A B; rewrite <- (sqrt_square a A); now apply sqrt_le_1_alt).
  assert (G' : forall a b, 0 <= a -> 0 <= b -> b < a * a -> sqrt b < a) by (intros a b A B0 B; rewrite <- (sqrt_square a A); apply sqrt_lt_1; nra).
  repeat split; try lra; [apply G|apply G'|apply G|apply G']; lra.
Qed.
Lemma point_is x y r i : (0 <= i < 360)%Z -> point (itersquircle x y r) i =
  ((x + rtrunc (rpow (Rabs (cos (radians (IZR i)))) (2 / 4) * IZR r * rsign (cos (radians (IZR i)))))%Z, (y + rtrunc (rpow (Rabs (sin (radians (IZR i)))) (2 / 4) * IZR r * rsign (sin (radians (IZR i)))))%Z).
Proof. intros I. unfold itersquircle, itersuperellipse. now rewrite point_range by exact I. Qed.
Lemma rsign_pos a : 0 < a -> rsign a = 1.
Proof. intros A. unfold rsign. now rewrite (proj2 (rlt_iff 0 a)) by exact A. Qed.
Lemma near_axis r : (8 <= r <= 15)%Z -> rtrunc (sqrt (cos (radians 1)) * IZR r * 1) = (r - 1)%Z /\ rtrunc (sqrt (sin (radians 1)) * IZR r * 1) = 1%Z.
Proof.
  intros [R1 R2]. apply IZR_le in R1, R2. destruct one_degree as ((S & C) & _). split; apply trunc_is; try (apply le_IZR; try rewrite minus_IZR); try rewrite minus_IZR; try (split; nra); lra.
Qed.
Lemma first_points x y r : (8 <= r <= 15)%Z -> point (itersquircle x y r) 1 = ((x + (r - 1))%Z, (y + 1)%Z) /\ point (itersquircle x y r) 359 = ((x + (r - 1))%Z, (y - 1)%Z) /\ point (itersquircle x y r) 89 = ((x + 1)%Z, (y + (r - 1))%Z).
Proof.
  intros R. destruct (near_axis r R) as (A & B). destruct one_degree as (_ & S & C). assert (RR : 0 < IZR r) by (apply IZR_lt; lia).
  assert (P1 : point (itersquircle x y r) 1 = ((x + (r - 1))%Z, (y + 1)%Z)). { rewrite point_is by lia. rewrite !Rabs_pos_eq, !rpow_half, !rsign_pos by lra. now rewrite A, B. }
  split; [exact P1|]. split.
  - destruct (C129_superellipse x y (IZR r) (IZR r) 4 4 RR RR ltac:(lra) ltac:(lra)) as (_ & _ & _ & S2). change 359%Z with (360 - 1)%Z. unfold itersquircle in *. rewrite (S2 1%Z) by lia. rewrite P1. cbn [fst snd]. f_equal; lia.
  - rewrite point_is by lia. replace (radians 89) with (PI / 2 - radians 1) by (unfold radians; field). rewrite cos_shift, sin_shift. rewrite !Rabs_pos_eq, !rpow_half, !rsign_pos by lra. now rewrite A, B.
Qed.
Lemma before_tip x y r i : (0 < r)%Z -> (0 < i < 360)%Z -> (fst (point (itersquircle x y r) i) < x + r)%Z.
Proof.
  intros R I. rewrite point_is by lia. cbn [fst]. assert (RR : 1 <= IZR r) by (apply IZR_le; lia). set (t := radians (IZR i)). destruct I as [I1 I2]. apply IZR_lt in I1, I2. pose proof PI_RGT_0 as PP.
  assert (T : 0 < t < 2 * PI). { unfold t, radians. split; nra. }
  assert (C : cos t < 1). { pose proof (cos_2a_sin (t / 2)) as C. replace (2 * (t / 2)) with t in C by field. pose proof (sin_gt_0 (t / 2) ltac:(lra) ltac:(lra)). nra. }
  set (z := rpow (Rabs (cos t)) (2 / 4) * IZR r * rsign (cos t)). assert (Z : z < IZR r).
  { unfold z. destruct (Rlt_le_dec 0 (cos t)) as [P|P].
    - rewrite Rabs_pos_eq, rpow_half, rsign_pos by lra. assert (sqrt (cos t) < 1) by (rewrite <- sqrt_1; apply sqrt_lt_1; lra). nra.
    - assert (rsign (cos t) <= 0) by (unfold rsign; rewrite (proj2 (rlt_no 0 (cos t))) by lra; destruct (rlt (cos t) 0); lra). assert (0 <= rpow (Rabs (cos t)) (2 / 4)). { unfold rpow. destruct (req (Rabs (cos t)) 0); [lra|]. unfold Rpower. apply Rlt_le, exp_pos. } assert (0 <= rpow (Rabs (cos t)) (2 / 4) * IZR r) by nra. nra. }
  pose proof (rtrunc_near z) as N. pose proof (rtrunc_abs z) as A. destruct (Z_lt_le_dec (rtrunc z) r) as [L|L]; [lia|exfalso]. apply IZR_le in L. apply Rabs_def2 in N. rewrite !Rabs_pos_eq in A by lra. lra.
Qed.
Open Scope Z_scope.
Lemma edge_index vs d e : In e (closed_edges vs) -> (exists i, (S i < length vs)%nat /\ e = (nth i vs d, nth (S i) vs d)) \/ e = (nth 0 vs d, nth (length vs - 1) vs d).
Proof.
  unfold closed_edges. destruct vs as [|p vs]; [intros []|]. intros I. apply in_app_or in I. destruct I as [I|[<-|[]]].
  - left. unfold edges in I. cbn [tl] in I. revert p I. induction vs as [|q vs IH]; intros p I; [destruct I|]. destruct I as [<-|I]; [exists 0%nat; split; [cbn [length]; lia|reflexivity]|]. destruct (IH q I) as (i & L & ->). exists (S i). split; [cbn [length] in *; lia|reflexivity].
  - right. f_equal. cbn [length]. replace (S (length vs) - 1)%nat with (length vs) by lia. generalize p at 2. revert p. induction vs as [|q vs IH]; intros p f; [reflexivity|]. change (last (q :: vs) f = nth (length vs) (q :: vs) d). apply IH.
Qed.
Lemma tip_missed l X Y : length l = 360%nat -> point l 0 = (X, Y) -> point l 1 = (X - 1, Y + 1) -> point l 359 = (X - 1, Y - 1) -> (forall i, 0 < i < 360 -> fst (point l i) < X) ->
  forall u v, In (u, v) (closed_edges l) -> ~ In (X, Y) (iterline u v).
Proof.
  intros L P0 P1 P9 F u v I H. destruct u as [u1 u2], v as [v1 v2]. apply seg_points_in in H.
  assert (G : forall j, (j < 360)%nat -> X <= fst (nth j l (0, 0)) -> j = O). { intros j J K. destruct j as [|j]; [reflexivity|exfalso]. pose proof (F (Z.of_nat (S j)) ltac:(lia)) as T. unfold point in T. rewrite Nat2Z.id in T. lia. }
  assert (D : forall s, s = 1 \/ s = -1 -> seg_points X Y (X - 1) (Y + s) X Y = false). { intros s SS. unfold seg_points, is_diagonal. replace ((Z.abs (X - 1 - X) =? Z.abs (Y + s - Y)) && negb (X =? X - 1)) with true by lia. replace (Y + s - Y) with s by ring. destruct SS as [-> | ->]; cbn [Z.sgn]; lia. }
  pose proof (seg_points_x _ _ _ _ _ _ H) as B. apply (edge_index _ (0, 0)) in I. rewrite L in I. unfold point in *. change (Z.to_nat 0) with O in P0. change (Z.to_nat 1) with 1%nat in P1. change (Z.to_nat 359) with (360 - 1)%nat in P9. destruct I as [(i & IL & EQ)|EQ].
  - assert (U : nth i l (0, 0) = (u1, u2)) by congruence. assert (U' : nth (S i) l (0, 0) = (v1, v2)) by congruence.
    assert (i = O). { destruct (Z_lt_le_dec u1 X) as [LU|LU]; [|apply G; [lia|now rewrite U]]. exfalso. assert (S i = O) by (apply G; [lia|rewrite U'; cbn [fst]; lia]). discriminate. }
    subst i. rewrite P0 in U. rewrite P1 in U'. injection U as <- <-. injection U' as <- <-. rewrite (D 1) in H by auto. discriminate.
  - rewrite P0, P9 in EQ. injection EQ as -> -> -> ->. replace (Y - 1) with (Y + -1) in H by ring. rewrite (D (-1)) in H by auto. discriminate.
Qed.
(** For a radius from 8 to 15 the drawing misses the rightmost point (x + r, y) though that is a vertex, and sticks out
    below the square of radius r. *)
Theorem C156_tip_refuted : forall b w h bits o x y r c, wf b w h bits -> bits <> 4 -> 0 <= c < 2 ^ bits -> 8 <= r <= 15 -> r <= x -> x + r < w -> r < y -> y + r < h - 1 ->
  exists b' o', squircle x y r c (mkst b o) = (Ok tt, mkst b' o') /\ In (x + r, y) (itersquircle x y r) /\
    pixel b' w h bits (x + r) y = pixel b w h bits (x + r) y /\ pixel b' w h bits x (y + r + 1) = c.
Proof.
  intros b w h bits o x y r c W N C R X1 X2 Y1 Y2. destruct (C129_squircle x y r ltac:(lia)) as (L & P0 & P9 & _). destruct (first_points x y r R) as (Q1 & Q359 & Q89).
  destruct (C156_squircle b w h bits o x y r c W N C ltac:(lia) X1 X2 Y1 Y2) as (b' & o' & S & E & _ & (_ & _ & RP) & HS & _). exists b', o'. split; [exact E|].
  split. { rewrite <- P0. unfold point. apply nth_In. rewrite L. cbn. lia. }
  assert (S1 : S (x + r) y = false).
  { destruct (S (x + r) y) eqn:H; [exfalso|reflexivity]. apply HS in H. destruct H as (u & v & I & H). revert H. apply (tip_missed (itersquircle x y r)); try assumption.
    - rewrite Q1. f_equal. lia.
    - rewrite Q359. f_equal. lia.
    - intros i J. apply before_tip; lia. }
  assert (S2 : S x (y + r + 1) = true).
  { apply HS. exists (x + 1, y + (r - 1)), (x, y + r). split.
    - rewrite <- Q89, <- P9. unfold point. change (Z.to_nat 90) with (Datatypes.S (Z.to_nat 89)). apply edge_nth. rewrite L. cbn. lia.
    - apply seg_points_in. unfold seg_points, is_diagonal. replace ((Z.abs (x - (x + 1)) =? Z.abs (y + r - (y + (r - 1)))) && negb (x + 1 =? x)) with true by lia. replace (y + r - (y + (r - 1))) with 1 by ring. cbn [Z.sgn]. lia. }
  split; rewrite RP by (unfold inside; lia); [now rewrite S1|now rewrite S2].
Qed.
Example C156_tip_ex : wf (blank 18 20 24) 18 20 24 /\ 8 <= 9 /\ 9 + 8 < 18 /\ 8 < 9 /\ 9 + 8 < 20 - 1.
Proof. split; [concrete_wf|lia]. Qed.

(** Radius 0 is one pixel. *)
Theorem C156_dot : forall b w h bits o x y c, wf b w h bits -> 0 <= c < 2 ^ bits -> inside w h x y ->
  exists b' o', squircle x y 0 c (mkst b o) = (Ok tt, mkst b' o') /\
    repainted b b' w h bits (fun px py => if (px =? x) && (py =? y) then c else pixel b w h bits px py).
Proof.
  intros b w h bits o x y c W C I. assert (V : forall p, In p (itersquircle x y 0) -> p = (x, y)).
  { intros p P. unfold itersquircle, itersuperellipse in P. apply in_map_iff in P. destruct P as (i & <- & _). unfold superellipsepoint. cbn [fst snd]. rewrite !Rmult_0_r, !Rmult_0_l. rewrite !(rtrunc_Z 0). f_equal; lia. }
  assert (L : length (itersquircle x y 0) = 360%nat) by (unfold itersquircle, itersuperellipse; rewrite map_length; reflexivity). assert (NE : itersquircle x y 0 <> []) by (intros E; rewrite E in L; discriminate).
  unfold inside in I. assert (EE : forall e, In e (closed_edges (itersquircle x y 0)) -> e = ((x, y), (x, y))). { intros (u, v) E. apply edge_ends in E. destruct E as (U & U'). now rewrite (V _ U), (V _ U'). }
  destruct (C72_polygon b w h bits o (itersquircle x y 0) c W ltac:(lia) ltac:(lia) C NE) as (b' & o' & E & _ & RP).
  { apply Forall_forall. intros e E. rewrite (EE e E). unfold seg_fits. cbn [fst snd]. split; [now left|]. unfold is_diagonal. rewrite Z.eqb_refl, andb_false_r. discriminate. }
  exists b', o'. split; [exact E|]. destruct RP as (W' & H & RP). split; [exact W'|]. split; [exact H|]. intros px py IN. rewrite RP by exact IN.
  assert (SP : forall px py, seg_hit w h (x, y) (x, y) px py = (px =? x) && (py =? y)). { intros. unfold seg_hit. cbn [fst snd]. rewrite !into_id by lia. apply Bool.eq_iff_eq_true. unfold seg_points, is_diagonal. rewrite Z.eqb_refl, andb_false_r. unfold on_line, in_box. cbv zeta. rewrite !Z.sub_diag. cbn [Z.sgn Z.abs Z.leb Z.compare Z.mul]. lia. }
  replace (any_edge (seg_hit w h) (closed_edges (itersquircle x y 0)) px py) with ((px =? x) && (py =? y)); [reflexivity|]. apply Bool.eq_iff_eq_true. unfold any_edge. rewrite existsb_exists. split.
  - intros Q. exists ((x, y), (x, y)). split; [|cbn [fst snd]; now rewrite SP]. pose proof (edge_nth (itersquircle x y 0) (0, 0) 0 ltac:(rewrite L; lia)) as G. now rewrite (EE _ G) in G.
  - intros (e & IE & Q). rewrite (EE e IE) in Q. cbn [fst snd] in Q. now rewrite SP in Q.
Qed.
Print Assumptions C156_squircle.
Print Assumptions C156_tip_refuted.
Print Assumptions C156_dot.
