(** Property C150: lengths, directions, angles and arcs with the rounding of floats. *)
From Flocq Require Import Core.
From Coq Require Import ZArith Reals List Lia Lra Bool Psatz.
From Verif Require Import PyBase PyFacts Bmp Geometry MathLib Spec PlotList GeomProofs DrawProofs4 Edges EdgeProofs Solids SolidProofs SolidProofs2 Coords RealProofs PropCoords PropArcs Floats FloatProofs PropFloats Floats3 PropFloats3 FloatCurves PropFloatCurves FloatSweeps PropFloatSweeps FloatTurns PropFloatTurns FloatDirs.
Import ListNotations.
Open Scope R_scope.

(** the sum of the squares *)
Definition sq (v : list Z) : Z := fold_right (fun i s => i * i + s)%Z 0%Z v.
Lemma fold_add l : forall a, fold_left Z.add l a = (a + fold_left Z.add l 0)%Z.
Proof. induction l as [|i l IH]; intros a; cbn [fold_left]; [lia|]. rewrite IH, (IH (0 + i)%Z). lia. Qed.
Lemma fold_sq v : fold_left Z.add (map (fun i => i * i)%Z v) 0%Z = sq v.
Proof. induction v as [|i v IH]; [reflexivity|]. cbn [map fold_left sq fold_right]. rewrite fold_add, IH. unfold sq. lia. Qed.
Lemma sq_nonneg v : (0 <= sq v)%Z.
Proof. induction v as [|i v IH]; cbn [sq fold_right]; [lia|]. unfold sq in IH. nia. Qed.
Lemma sq_in v i : In i v -> (i * i <= sq v)%Z.
Proof. induction v as [|j v IH]; [intros []|]. intros [-> | H]; cbn [sq fold_right]; fold (sq v); [pose proof (sq_nonneg v); lia|]. specialize (IH H). nia. Qed.
Lemma sq_zero v : sq v = 0%Z <-> Forall (fun i => i = 0%Z) v.
Proof.
  split.
  - intros E. apply Forall_forall. intros i I. pose proof (sq_in v i I). nia.
  - induction 1 as [|i v E _ IH]; [reflexivity|]. cbn [sq fold_right]. fold (sq v). rewrite IH, E. reflexivity.
Qed.
Definition size (v : list Z) : R := sqrt (IZR (sq v)).
Lemma fvmag_eq v : (sq v <= 2 ^ 53)%Z -> fvmag v = fl (size v).
Proof. intros L. unfold fvmag, size. rewrite fold_sq, fl_Z; [reflexivity|]. pose proof (sq_nonneg v). lia. Qed.
Lemma size_pos v : sq v <> 0%Z -> 1 <= size v.
Proof. intros N. unfold size. rewrite <- sqrt_1. apply sqrt_le_1_alt, IZR_le. pose proof (sq_nonneg v). lia. Qed.
Lemma size_near v : (sq v <= 2 ^ 53)%Z -> Rabs (fvmag v - size v) <= u * size v.
Proof.
  intros L. rewrite fvmag_eq by exact L. destruct (Z.eq_dec (sq v) 0) as [E|N]; [unfold size; rewrite E, sqrt_0, fl_0; replace (0 - 0) with 0 by ring; rewrite Rabs_R0; lra|].
  pose proof (size_pos v N) as P. rewrite <- (Rabs_pos_eq (size v)) at 3 by lra. apply fl_rel. rewrite Rabs_pos_eq by lra. apply Rle_trans with (/ 1); [|rewrite Rinv_1; exact P]. apply Rinv_le_contravar; [lra|]. apply IZR_le. lia.
Qed.
Lemma size_in v i : In i v -> Rabs (IZR i) <= size v.
Proof. intros I. unfold size. rewrite <- sqrt_Rsqr_abs. apply sqrt_le_1_alt. unfold Rsqr. rewrite <- mult_IZR. apply IZR_le, sq_in, I. Qed.
Lemma mag_in v i : (sq v <= 2 ^ 53)%Z -> In i v -> Rabs (IZR i) <= fvmag v.
Proof.
  intros L I. rewrite fvmag_eq by exact L. pose proof (sq_in v i I) as Q. rewrite <- abs_IZR. rewrite <- (fl_Z (Z.abs i)) by nia. apply fl_le. rewrite abs_IZR. now apply size_in.
Qed.
Lemma mag_pos v : (sq v <= 2 ^ 53)%Z -> sq v <> 0%Z -> 1 <= fvmag v.
Proof. intros L N. rewrite fvmag_eq by exact L. rewrite <- fl_1. apply fl_le. now apply size_pos. Qed.

(** ** Lengths and distances *)
(** the root of the sum of the squares: the nearest double, exact for squares, never below a component, in order *)
Theorem C150_length : forall v, (sq v <= 2 ^ 53)%Z ->
  Rabs (fvmag v - size v) <= size v / IZR (2 ^ 53) /\ (fvmag v = 0 <-> Forall (fun i => i = 0%Z) v) /\
  (forall i, In i v -> Rabs (IZR i) <= fvmag v) /\ (forall t, (0 <= t)%Z -> sq v = (t * t)%Z -> fvmag v = IZR t) /\
  (forall w, (sq v <= sq w <= 2 ^ 53)%Z -> fvmag v <= fvmag w).
Proof.
  intros v L. split; [pose proof (size_near v L) as N; unfold u in N; lra|]. split.
  - rewrite <- sq_zero. split; intros H; [destruct (Z.eq_dec (sq v) 0) as [|N]; [assumption|pose proof (mag_pos v L N); lra]|]. rewrite fvmag_eq by exact L. unfold size. now rewrite H, sqrt_0, fl_0.
  - split; [intros i I; now apply mag_in|]. split; [intros t T E; rewrite fvmag_eq by exact L; unfold size; rewrite E; apply fl_sqrt_square; nia|].
    intros w W. rewrite !fvmag_eq by lia. apply fl_le. unfold size. apply sqrt_le_1_alt, IZR_le. lia.
Qed.
Lemma sq_sym u v : sq (zzip Z.sub u v) = sq (zzip Z.sub v u).
Proof. revert v. induction u as [|i u IH]; intros [|j v]; try reflexivity. cbn [zzip sq fold_right]. fold (sq (zzip Z.sub u v)) (sq (zzip Z.sub v u)). rewrite IH. ring. Qed.
Theorem C150_distance : forall v w, length v = length w -> (sq (zzip Z.sub v w) <= 2 ^ 53)%Z -> fdist v w = fdist w v /\ (fdist v w = 0 <-> v = w).
Proof.
  intros v w L S. unfold fdist. split; [rewrite !fvmag_eq by (assumption || (rewrite sq_sym; assumption)); unfold size; now rewrite sq_sym|]. destruct (C150_length _ S) as (_ & -> & _). clear S. revert w L. induction v as [|i v IH]; intros [|j w] L; try discriminate L; cbn [zzip]; [split; constructor|].
  injection L as L. specialize (IH w L). split.
  - intros H. inversion H as [|? ? H1 H2]; subst. apply IH in H2. f_equal; [lia|exact H2].
  - intros H. injection H as -> H. constructor; [lia|now apply IH].
Qed.

(** ** Directions *)
Lemma ratio_ok i m m' : 1 <= m -> 1 <= m' -> Rabs i <= m' -> Rabs (m' - m) <= u * m -> -1 <= fl (i / m') <= 1 /\ Rabs (fl (i / m') - i / m) <= / 4000000000000000.
Proof.
  intros M M' I D. destruct consts as (U & E & _). assert (Q : Rabs (i / m') <= 1). { unfold Rdiv. rewrite Rabs_mult, (Rabs_pos_eq (/ m')) by (apply Rlt_le, Rinv_0_lt_compat; lra). apply Rmult_le_reg_r with m'; [lra|]. rewrite Rmult_assoc, Rinv_l by lra. lra. }
  split; [assert (F1 := fl_1); apply Rabs_le_inv in Q; split; [apply Rle_trans with (fl (- (1))); [rewrite fl_opp, F1; lra|apply fl_le; lra]|apply Rle_trans with (fl 1); [apply fl_le; lra|lra]]|].
  pose proof (fl_near _ _ Q) as F. assert (G : Rabs (i / m' - i / m) <= u). { replace (i / m' - i / m) with (i / m' * - ((m' - m) / m)) by (field; lra). rewrite Rabs_mult, Rabs_Ropp. assert (H : Rabs ((m' - m) / m) <= u) by (unfold Rdiv; rewrite Rabs_mult, (Rabs_pos_eq (/ m)) by (apply Rlt_le, Rinv_0_lt_compat; lra); apply Rmult_le_reg_r with m; [lra|]; rewrite Rmult_assoc, Rinv_l by lra; lra).
    rewrite <- (Rmult_1_l u). apply Rmult_le_compat; try apply Rabs_pos; assumption. }
  apply Rabs_le_inv in F, G. apply Rabs_le. lra.
Qed.
Lemma fdiv_ok x y : y <> 0 -> fdiv x y = Ok (fl (x / y)).
Proof. intros H. unfold fdiv. now rewrite (proj2 (req_no _ _)). Qed.
Lemma int_ok v i : (sq v <= 2 ^ 53)%Z -> In i v -> fl (IZR i) = IZR i.
Proof. intros L I. pose proof (sq_in v i I). apply fl_Z. nia. Qed.
(** The direction cosines are between -1 and 1, right to 2.5e-16, and so always have angles. *)
Theorem C150_directions : forall v mac, (sq v <= 2 ^ 53)%Z -> sq v <> 0%Z -> exists l, fdircos v = Ok l /\
  Forall2 (fun i c => -1 <= c <= 1 /\ Rabs (c - IZR i / size v) <= / 4000000000000000) v l /\ fdiracos mac l = Ok (map mac l).
Proof.
  intros v mac L N. pose proof (mag_pos v L N) as P. pose proof (size_pos v N) as P'. unfold fdircos.
  assert (G : forall w, (forall i, In i w -> In i v) -> exists l, res_map (fun i => fdiv (fl (IZR i)) (fvmag v)) w = Ok l /\ Forall2 (fun i c => -1 <= c <= 1 /\ Rabs (c - IZR i / size v) <= / 4000000000000000) w l /\ fdiracos mac l = Ok (map mac l)).
  { induction w as [|i w IH]; intros H; [exists []; repeat split; constructor|]. destruct (IH (fun j J => H j (or_intror J))) as (l & E & F & A). specialize (H i (or_introl eq_refl)). cbn [res_map]. rewrite fdiv_ok by lra. rewrite (int_ok v i L H). cbn [rbind]. rewrite E. cbn [rbind]. eexists. split; [reflexivity|].
    assert (Q := ratio_ok (IZR i) _ _ P' P (mag_in v i L H) (size_near v L)). split; [constructor; assumption|]. unfold fdiracos in *. cbn [res_map map]. unfold facos at 1. rewrite (proj2 (rle_iff _ _) (proj1 (proj1 Q))), (proj2 (rle_iff _ _) (proj2 (proj1 Q))). cbn [andb rbind]. rewrite A. reflexivity. }
  now apply G.
Qed.
Theorem C150_directions_zero : forall v, v <> [] -> sq v = 0%Z -> fdircos v = Err ZeroDivisionError.
Proof. intros [|i v] N E; [easy|]. unfold fdircos. cbn [res_map]. unfold fdiv at 1. rewrite fvmag_eq by lia. unfold size. rewrite E, sqrt_0, fl_0, (proj2 (req_iff _ _)) by reflexivity. reflexivity. Qed.
(** Spherical coordinates are a division by zero for points with x = 0, and given for all others. *)
Theorem C150_spherical : forall mat mac x y z, (x * x + y * y + z * z <= 2 ^ 53)%Z ->
  (x = 0%Z -> frect2sphericalcoord3D mat mac (x, y, z) = Err ZeroDivisionError) /\
  (x <> 0%Z -> exists c, -1 <= c <= 1 /\ Rabs (c - IZR z / size [x; y; z]) <= / 4000000000000000 /\
    frect2sphericalcoord3D mat mac (x, y, z) = Ok (fvmag [x; y; z], mat (fl (IZR y / IZR x)), mac c)).
Proof.
  intros mat mac x y z L. unfold frect2sphericalcoord3D. split; intros X; [now subst x|].
  assert (L' : (sq [x; y; z] <= 2 ^ 53)%Z) by (cbn [sq fold_right]; lia). assert (N : sq [x; y; z] <> 0%Z) by (cbn [sq fold_right]; nia).
  pose proof (mag_pos _ L' N) as P. assert (I : In z [x; y; z]) by (right; right; now left). pose proof (ratio_ok (IZR z) _ _ (size_pos _ N) P (mag_in _ z L' I) (size_near _ L')) as (Q1 & Q2).
  exists (fl (IZR z / fvmag [x; y; z])). split; [exact Q1|]. split; [exact Q2|]. rewrite fquot_ok by exact X. cbn [rbind]. rewrite fdiv_ok by lra. rewrite (int_ok _ z L' I). cbn [rbind]. unfold facos. rewrite (proj2 (rle_iff _ _) (proj1 Q1)), (proj2 (rle_iff _ _) (proj2 Q1)). reflexivity.
Qed.

(** ** Angles *)
(** what is assumed of the arccosine of the C library *)
Definition arccosine (mac : R -> R) : Prop := mac 1 = 0 /\ forall c, -1 <= c <= 1 -> 0 <= mac c /\ Rabs (mac c - acos c) <= / IZR (2 ^ 50).
Lemma one_minus_cos d : 0 <= d <= PI -> 11 / 24 * (d * d) <= 1 - cos d \/ 11 / 24 <= 1 - cos d.
Proof.
  intros D. assert (K : forall t, 0 <= t <= 1 -> 11 / 24 * (t * t) <= 1 - cos t).
  { intros t T. destruct (pre_cos_bound t 0 ltac:(lra) ltac:(lra)) as [_ H]. unfold cos_approx, cos_term in H. cbn -[pow INR fact] in H. change (fact (2 * 0)) with 1%nat in H. change (fact (2 * 1)) with 2%nat in H. change (fact (2 * 2)) with 24%nat in H. replace (INR (fact 0)) with 1 in H by (rewrite INR_IZR_INZ; reflexivity). replace (INR (fact 2)) with 2 in H by (rewrite INR_IZR_INZ; reflexivity). replace (INR (fact 4)) with 24 in H by (rewrite INR_IZR_INZ; reflexivity). cbn [pow] in H. assert (T2 : 0 <= t * t <= 1) by (split; nra). assert (0 <= (t * t) * (1 - t * t)) by (apply Rmult_le_pos; lra). match type of H with _ <= ?r => assert (r = 1 - t * t / 2 + t * t * (t * t) / 24) by (field || (cbn [pow]; field)) end. lra. }
  destruct (Rle_dec d 1) as [L|L]; [left; apply K; lra|right]. specialize (K 1 ltac:(lra)). assert (cos d <= cos 1) by (apply Rlt_le, cos_decreasing_1; lra). lra.
Qed.
Lemma angle_gap a b : 0 <= a <= b -> b <= PI -> 1 - cos (b - a) <= cos a - cos b.
Proof.
  intros A B. rewrite (cos_minus b a) || idtac. rewrite (form2 a b). set (s := (a - b) / 2). set (t := (a + b) / 2).
  assert (E : cos b * cos a + sin b * sin a = 1 - 2 * (sin s * sin s)). { rewrite <- cos_minus. replace (b - a) with (- (2 * s)) by (unfold s; field). rewrite cos_neg, cos_2a_sin. ring. }
  rewrite E. set (w := (b - a) / 2). replace s with (- w) by (unfold s, w; field). rewrite sin_neg.
  assert (S : 0 <= sin w) by (apply sin_ge_0; unfold w; lra).
  assert (T : sin w <= sin t). { assert (D : sin t - sin w = 2 * cos ((t + w) / 2) * sin ((t - w) / 2)) by (rewrite form4; ring). assert (0 <= cos ((t + w) / 2)) by (apply cos_ge_0; unfold t, w; lra). assert (0 <= sin ((t - w) / 2)) by (apply sin_ge_0; unfold t, w; lra). nra. }
  nra.
Qed.
Lemma acos_near c c' : -1 <= c <= 1 -> -1 <= c' <= 1 -> Rabs (c' - c) <= / 4000000000000000 -> Rabs (acos c' - acos c) <= / 40000000.
Proof.
  assert (K : forall a b, 0 <= a <= b -> b <= PI -> cos a - cos b <= / 4000000000000000 -> b - a <= / 40000000).
  { intros a b A B C. pose proof (angle_gap a b A B) as G. destruct (one_minus_cos (b - a) ltac:(lra)) as [H|H]; [|lra]. apply Rnot_lt_le. intros N. nra. }
  intros C C' D. pose proof (acos_bound c) as B. pose proof (acos_bound c') as B'. apply Rabs_le_inv in D. apply Rabs_le.
  destruct (Rle_dec (acos c) (acos c')) as [L|L].
  - pose proof (K (acos c) (acos c') ltac:(lra) ltac:(lra) ltac:(rewrite !cos_acos by lra; lra)). lra.
  - pose proof (K (acos c') (acos c) ltac:(lra) ltac:(lra) ltac:(rewrite !cos_acos by lra; lra)). lra.
Qed.
Definition e7 : R := / 30000000.
Lemma cosaffin_up x y : (x * x + y * y <= 2 ^ 53)%Z -> fcosaffin [x; y] [0; -1]%Z = fdiv (IZR (- y)) (fvmag [x; y]).
Proof.
  intros L. unfold fcosaffin. replace (zdotprod [x; y] [0; -1]%Z) with (- y)%Z by (unfold zdotprod; cbn [zzip fold_left]; lia). rewrite fl_Z by nia.
  assert (E : fvmag [0; -1]%Z = 1) by (apply (C150_length [0; -1]%Z ltac:(cbn [sq fold_right]; lia)); [lia|reflexivity]). rewrite E, Rmult_1_r. f_equal. unfold fvmag. apply fl_fl.
Qed.
Lemma two_pi : Rabs (fl (2 * fl PI) - 2 * PI) <= / 100000000000000.
Proof.
  destruct consts as (U & E & _). pose proof PI_4. pose proof PI_RGT_0. assert (A : Rabs (fl PI - PI) <= u * 4 + eta) by (apply fl_near, Rabs_le; lra). apply Rabs_le_inv in A. assert (B : Rabs (fl (2 * fl PI) - 2 * fl PI) <= u * 9 + eta) by (apply fl_near, Rabs_le; lra). apply Rabs_le_inv in B. apply Rabs_le. lra.
Qed.
Lemma polar_near mac x y : arccosine mac -> (x * x + y * y <= 2 ^ 53)%Z -> (x, y) <> (0, 0)%Z ->
  exists a, fpolarcoordangle2D mac (x, y) = Ok a /\ ((x = 0 /\ y < 0)%Z -> a = 0) /\ forall al, 0 <= al < 2 * PI -> IZR x = size [x; y] * sin al -> IZR y = - (size [x; y] * cos al) -> Rabs (a - al) <= e7.
Proof.
  intros (M1 & M) L N. assert (L' : (sq [x; y] <= 2 ^ 53)%Z) by (cbn [sq fold_right]; lia). assert (N' : sq [x; y] <> 0%Z) by (cbn [sq fold_right]; intros E; apply N; f_equal; nia).
  pose proof (mag_pos _ L' N') as P. pose proof (size_pos _ N') as P'. assert (I : In y [x; y]) by (right; now left). pose proof (mag_in _ y L' I) as Y. assert (Y' : Rabs (IZR (- y)) <= fvmag [x; y]) by now rewrite opp_IZR, Rabs_Ropp.
  pose proof (ratio_ok _ _ _ P' P Y' (size_near _ L')) as (Q1 & Q2). unfold fpolarcoordangle2D. rewrite cosaffin_up by exact L. rewrite fdiv_ok by lra. cbn [rbind]. unfold facos. rewrite (proj2 (rle_iff _ _) (proj1 Q1)), (proj2 (rle_iff _ _) (proj2 Q1)). cbn [andb rbind].
  eexists. split; [reflexivity|]. set (c := fl (IZR (- y) / fvmag [x; y])) in *. split.
  - intros (X & Yn). subst x. rewrite Z.ltb_irrefl. assert (E : fvmag [0; y]%Z = IZR (- y)) by (apply (C150_length _ L'); [lia|cbn [sq fold_right]; ring]). unfold c. rewrite E. unfold Rdiv. rewrite Rinv_r, fl_1; [exact M1|]. apply not_0_IZR. lia.
  - intros al A X Yc. assert (PP := PI_RGT_0). assert (C1 : IZR (- y) / size [x; y] = cos al) by (rewrite opp_IZR, Yc; field; lra). rewrite C1 in Q2.
    pose proof (acos_near (cos al) c (COS_bound al) Q1 Q2) as G. destruct (M c Q1) as (_ & Mc). assert (T : / IZR (2 ^ 50) <= / 1000000000000000) by (apply Rinv_le_contravar; [lra|apply IZR_le; lia]). apply Rabs_le_inv in G, Mc.
    destruct (Z.ltb_spec x 0) as [Xn|Xp].
    + apply IZR_lt in Xn. assert (AL : PI < al). { apply Rnot_le_lt. intros H. pose proof (sin_ge_0 al ltac:(lra) H). nra. }
      replace (cos al) with (cos (2 * PI - al)) in G by (rewrite <- (cos_2PI_neg al) || (rewrite cos_minus, cos_2PI, sin_2PI; ring)). rewrite acos_cos in G by lra.
      pose proof two_pi as TP. destruct consts as (U & E & _). apply Rabs_le_inv in TP. pose proof PI_4.
      pose proof (fl_near (fl (2 * fl PI) - mac c) 10) as F. assert (FB : Rabs (fl (2 * fl PI) - mac c) <= 10) by (pose proof (acos_bound c); apply Rabs_le; lra). specialize (F FB). apply Rabs_le_inv in F. unfold e7. apply Rabs_le. lra.
    + apply IZR_le in Xp. assert (AL : al <= PI). { apply Rnot_lt_le. intros H. pose proof (sin_lt_0 al H ltac:(lra)). nra. }
      rewrite acos_cos in G by lra. unfold e7. apply Rabs_le. lra.
Qed.
(** The angle of a point seen from a centre, clockwise from the top, right to 3.4e-8; straight up is exactly 0; the centre itself is a division by zero. *)
Theorem C150_angle : forall mac c p, arccosine mac -> ((fst p - fst c) * (fst p - fst c) + (snd p - snd c) * (snd p - snd c) <= 2 ^ 53)%Z -> p <> c ->
  exists a, frect2polarcoord2Dwithcenter mac c p = Ok (fvmag [(fst p - fst c)%Z; (snd p - snd c)%Z], a) /\
    (forall al, clock c p al -> Rabs (a - al) <= / 30000000) /\ (fst p = fst c -> (snd p < snd c)%Z -> a = 0).
Proof.
  intros mac [x0 y0] [x1 y1] M L N. cbn [fst snd] in *. assert (N' : (x1 - x0, y1 - y0)%Z <> (0, 0)%Z) by (intros E; apply N; injection E as E1 E2; f_equal; lia).
  destruct (polar_near mac _ _ M L N') as (a & E & Z0 & K). exists a. unfold frect2polarcoord2Dwithcenter. cbn [fst snd]. rewrite E. cbn [rbind]. split; [reflexivity|]. split; [|intros; apply Z0; lia].
  intros al (d & D & A & X & Y). cbn [fst snd] in *. apply K; [exact A| |].
  all: assert (S : size [(x1 - x0)%Z; (y1 - y0)%Z] = d) by (unfold size; cbn [sq fold_right]; rewrite <- (sqrt_Rsqr d) by lra; f_equal; rewrite !plus_IZR, !mult_IZR, !minus_IZR, X, Y; pose proof (sin2_cos2 al) as SC; unfold Rsqr in *; replace (d * d) with (d * d * (sin al * sin al + cos al * cos al)) by (rewrite SC; ring); ring).
  all: rewrite S, minus_IZR; rewrite ?X, ?Y; ring.
Qed.
Lemma polar_centre mac c : frect2polarcoord2Dwithcenter mac c c = Err ZeroDivisionError.
Proof.
  unfold frect2polarcoord2Dwithcenter. destruct c as [x y]. cbn [fst snd]. rewrite !Z.sub_diag. unfold fpolarcoordangle2D. rewrite cosaffin_up by lia. unfold fdiv. rewrite fvmag_eq by (cbn [sq fold_right]; lia). unfold size. cbn [sq fold_right Z.mul Z.add]. rewrite sqrt_0, fl_0, (proj2 (req_iff _ _)) by reflexivity. reflexivity.
Qed.
Theorem C150_angle_centre : forall mac c, frect2polarcoord2Dwithcenter mac c c = Err ZeroDivisionError.
Proof. exact polar_centre. Qed.

(** ** Arcs *)
Definition fangle mac c p : R := match frect2polarcoord2Dwithcenter mac c p with Ok v => snd v | Err _ => 0 end.
Lemma fangle_near mac c p al : arccosine mac -> ((fst p - fst c) * (fst p - fst c) + (snd p - snd c) * (snd p - snd c) <= 2 ^ 53)%Z -> p <> c -> clock c p al -> Rabs (fangle mac c p - al) <= / 30000000.
Proof. intros M L N C. destruct (C150_angle mac c p M L N) as (a & E & K & _). unfold fangle. rewrite E. apply K, C. Qed.
Lemma ring_near r dx dy : (0 <= r <= 2 ^ 25)%Z -> on_ring r dx dy = true -> (dx * dx + dy * dy <= 2 ^ 53)%Z.
Proof.
  intros R0 H. unfold on_ring in H. apply andb_true_iff in H. destruct H as (_ & H). apply Z.leb_le in H. set (m := Z.max (Z.abs dx) (Z.abs dy)) in *. assert (HM : (m * m <= dx * dx + dy * dy)%Z) by (unfold m; destruct (Z.max_spec (Z.abs dx) (Z.abs dy)) as [(_ & ->) | (_ & ->)]; nia).
  assert (M : (m <= r)%Z) by (apply Z.nlt_ge; intros G; rewrite Z.max_r in H by lia; nia). assert (0 <= m)%Z by lia. assert (dx * dx + dy * dy <= r * r + r)%Z by lia. nia.
Qed.
Lemma circle_near x y r pts p : (r <= 2 ^ 25)%Z -> itercircle x y r = Ok pts -> In p pts -> ((fst p - x) * (fst p - x) + (snd p - y) * (snd p - y) <= 2 ^ 53)%Z.
Proof.
  intros R0 E I. destruct (Z_lt_le_dec r 0) as [N|N]; [rewrite itercircle_neg in E by exact N; injection E as <-; destruct I|].
  destruct (itercircle_run x y r N) as (l & E' & H). rewrite E in E'. injection E' as <-. apply (ring_near r); [lia|]. rewrite <- H. apply pt_in_iff. now rewrite <- surjective_pairing.
Qed.
Definition fsel mac c (s e : R) (p : Z * Z) : bool := rle (fradians s) (fangle mac c p) && rle (fangle mac c p) (fradians e).
Definition fends mac c (s e : R) (p : Z * Z) : bool := rlt (Rabs (fl (fangle mac c p - fradians s))) (fl (3 / 100)) || rlt (Rabs (fl (fangle mac c p - fradians e))) (fl (3 / 100)).
Lemma farc_eq mac x y r s e : arccosine mac -> (r <= 2 ^ 25)%Z -> farcvertangles mac x y r s e = arcvert (fsel mac (x, y) s e) (fends mac (x, y) s e) x y r.
Proof.
  intros M R0. unfold farcvertangles, arcvert. destruct (itercircle x y r) as [pts|ex] eqn:EC; [|reflexivity]. cbn [rbind]. set (c := (x, y)). assert (NR := fun p => circle_near x y r pts p R0 EC). clear EC.
  set (g := fun p => if fsel mac c s e p then p :: (if fends mac c s e p then iterline c p else []) else []).
  assert (K : res_map (farcpoint mac c (fradians s) (fradians e)) pts = if haspoint pts c then Err ZeroDivisionError else Ok (map g pts)).
  { induction pts as [|p pts IH]; [reflexivity|]. cbn [res_map].
    assert (H : haspoint (p :: pts) c = haspoint [p] c || haspoint pts c) by (unfold haspoint; cbn [existsb]; now rewrite orb_false_r). rewrite H, IH by (intros q I; apply NR; now right). clear H IH.
    destruct (haspoint [p] c) eqn:EP; cbn [orb].
    - apply haspoint_iff in EP. destruct EP as [->|[]]. unfold farcpoint. now rewrite polar_centre.
    - assert (N : p <> c) by (intros ->; assert (T : haspoint [c] c = true) by (apply haspoint_iff; now left); congruence).
      destruct (C150_angle mac c p M (NR p (or_introl eq_refl)) N) as (a & A & _). unfold farcpoint. assert (FA : fangle mac c p = a) by (unfold fangle; now rewrite A). rewrite A. cbn [rbind snd]. destruct (haspoint pts c); [reflexivity|]. cbn [rbind map]. f_equal. f_equal. unfold g, fsel, fends. now rewrite FA. }
  rewrite K. destruct (haspoint pts c); [reflexivity|]. cbn [rbind]. f_equal. symmetry. apply flat_map_concat_map.
Qed.
Lemma clock_other c a : ~ clock c c a.
Proof. intros (d & D0 & _ & X & Y). pose proof (sin2_cos2 a) as SC. unfold Rsqr in SC. assert (sin a = 0) by nra. assert (cos a = 0) by nra. nra. Qed.
Lemma farc_spec mac x y s e : arccosine mac -> Rabs s <= 65536 -> Rabs e <= 65536 ->
  forall p a, clock (x, y) p a -> ((fst p - x) * (fst p - x) + (snd p - y) * (snd p - y) <= 2 ^ 53)%Z ->
    (radians s + / 20000000 <= a <= radians e - / 20000000 -> fsel mac (x, y) s e p = true) /\
    (fsel mac (x, y) s e p = true -> radians s - / 20000000 <= a <= radians e + / 20000000) /\
    (Rabs (a - radians s) < 3 / 100 - / 20000000 \/ Rabs (a - radians e) < 3 / 100 - / 20000000 -> fends mac (x, y) s e p = true) /\
    (fends mac (x, y) s e p = true -> Rabs (a - radians s) < 3 / 100 + / 20000000 \/ Rabs (a - radians e) < 3 / 100 + / 20000000).
Proof.
  intros M S E p a C D. set (c := (x, y)) in *. unfold fsel, fends. set (sa := fradians s). set (ea := fradians e). set (tol := fl (3 / 100)). assert (N : p <> c) by (intros ->; exact (clock_other c a C)).
  pose proof (fangle_near mac c p a M D N C) as FN. pose proof (radians_near s 65536 S ltac:(lra)) as RS. pose proof (radians_near e 65536 E ltac:(lra)) as RE. fold sa in RS. fold ea in RE.
  destruct consts as (U & Et & _). assert (TT : Rabs (tol - 3 / 100) <= u * 1 + eta) by (apply fl_near; rewrite Rabs_pos_eq; lra). set (b := fangle mac c p) in *.
  assert (RB : forall t w, Rabs t <= 65536 -> Rabs (w - radians t) <= / 1000000000000 -> Rabs (Rabs (fl (b - w)) - Rabs (a - radians t)) <= / 29900000).
  { intros t w T W. eapply Rle_trans; [apply Rabs_triang_inv2|]. destruct C as (_ & _ & A & _). pose proof PI_4. pose proof PI_RGT_0. assert (RT : Rabs (radians t) <= 1500) by (unfold radians; apply Rabs_le_inv in T; apply Rabs_le; split; nra).
    apply Rabs_le_inv in RT, W, FN. assert (F : Rabs (fl (b - w) - (b - w)) <= u * 2000 + eta) by (apply fl_near, Rabs_le; lra). apply Rabs_le_inv in F. apply Rabs_le. lra. }
  pose proof (RB s sa S RS) as B1. pose proof (RB e ea E RE) as B2. clear RB. apply Rabs_le_inv in FN, RS, RE, TT, B1, B2. rewrite andb_true_iff, !rle_iff, orb_true_iff, !rlt_iff.
  split; [intros H; split; lra|]. split; [intros H; split; lra|]. split; intros [H|H]; [left|right|left|right]; lra.
Qed.
(** An arc has every point of the circle whose angle is between the two given ones and 5e-8 from both, and only points
    whose angle is between them up to 5e-8; radii are drawn to those less than 0.03 from an end, up to 5e-8. *)
Theorem C150_arc : forall mac x y r s e, arccosine mac -> (r <= 2 ^ 25)%Z -> Rabs s <= 65536 -> Rabs e <= 65536 ->
  exists sel ends, farcvertangles mac x y r s e = arcvert sel ends x y r /\
  forall p a, clock (x, y) p a -> ((fst p - x) * (fst p - x) + (snd p - y) * (snd p - y) <= 2 ^ 53)%Z ->
    (radians s + / 20000000 <= a <= radians e - / 20000000 -> sel p = true) /\
    (sel p = true -> radians s - / 20000000 <= a <= radians e + / 20000000) /\
    (Rabs (a - radians s) < 3 / 100 - / 20000000 \/ Rabs (a - radians e) < 3 / 100 - / 20000000 -> ends p = true) /\
    (ends p = true -> Rabs (a - radians s) < 3 / 100 + / 20000000 \/ Rabs (a - radians e) < 3 / 100 + / 20000000).
Proof. intros mac x y r s e M R0 S E. exists (fsel mac (x, y) s e), (fends mac (x, y) s e). split; [now apply farc_eq|now apply farc_spec]. Qed.

(** ** Cosines beyond 1 *)
(** The cosine of the angle between two vectors can come out above 1, where the arccosine is not defined. *)
Lemma sqrt_ge_of a x : 0 <= a -> a * a <= x -> a <= sqrt x.
Proof. intros A H. rewrite <- (sqrt_square a A). now apply sqrt_le_1_alt. Qed.
Lemma sqrt_le_of a x : 0 <= a -> x <= a * a -> sqrt x <= a.
Proof. intros A H. rewrite <- (sqrt_square a A). now apply sqrt_le_1_alt. Qed.
Theorem C150_cosine_refuted : exists v, fcosaffin v v = Ok (1 + / IZR (2 ^ 52)) /\ forall mac, (let! c := fcosaffin v v in facos mac c) = Err ValueError.
Proof.
  assert (S3 : fl (sqrt 3) = IZR 7800463371553962 / IZR (2 ^ 52)).
  { assert (A : IZR 2044844670072641933001 / IZR 1180591620717411303424 <= sqrt 3 <= IZR 2044844670072641933002 / IZR 1180591620717411303424) by (split; [apply sqrt_ge_of|apply sqrt_le_of]; lra).
    apply Rle_antisym; [rewrite <- (flcheck_ok 2044844670072641933002 1180591620717411303424 7800463371553962 52) by (vm_compute; reflexivity)|rewrite <- (flcheck_ok 2044844670072641933001 1180591620717411303424 7800463371553962 52) by (vm_compute; reflexivity)]; apply fl_le, A. }
  assert (M3 : fvmag [1; 1; 1]%Z = IZR 7800463371553962 / IZR (2 ^ 52)) by (rewrite fvmag_eq by (cbn [sq fold_right]; lia); exact S3).
  assert (P3 : fl (IZR 7800463371553962 / IZR (2 ^ 52) * (IZR 7800463371553962 / IZR (2 ^ 52))) = IZR 6755399441055743 / IZR (2 ^ 51)).
  { rewrite <- (flcheck_ok 60847228810955004221158677897444 20282409603651670423947251286016 6755399441055743 51) by (vm_compute; reflexivity). f_equal. lra. }
  assert (D3 : fl (IZR 3 / (IZR 6755399441055743 / IZR (2 ^ 51))) = 1 + / IZR (2 ^ 52)).
  { transitivity (IZR 4503599627370497 / IZR (2 ^ 52)); [|lra]. rewrite <- (flcheck_ok 6755399441055744 6755399441055743 4503599627370497 52) by (vm_compute; reflexivity). f_equal. lra. }
  assert (E : fcosaffin [1; 1; 1]%Z [1; 1; 1]%Z = Ok (1 + / IZR (2 ^ 52))).
  { unfold fcosaffin. rewrite M3, P3. change (zdotprod [1; 1; 1]%Z [1; 1; 1]%Z) with 3%Z. rewrite (fl_Z 3) by lia. rewrite fdiv_ok by lra. now rewrite D3. }
  exists [1; 1; 1]%Z. split; [exact E|]. intros mac. rewrite E. cbn [rbind]. unfold facos. assert (G : rle (1 + / IZR (2 ^ 52)) 1 = false) by (destruct (rle (1 + / IZR (2 ^ 52)) 1) eqn:G; [apply rle_iff in G; lra|reflexivity]). now rewrite G, andb_false_r.
Qed.

(** ** Cases *)
Example C150_arccosine : arccosine (fun c => fl (acos c)) /\ arccosine acos.
Proof.
  assert (A : acos 1 = 0) by (rewrite <- cos_0, acos_cos; [reflexivity|pose proof PI_RGT_0; lra]). split; (split; [now rewrite ?A, ?fl_0|]); intros c C; pose proof (acos_bound c) as AB; (split; [try apply fl_nonneg; lra|]).
  - destruct consts as (U & E & _). pose proof (acos_bound c). pose proof PI_4. eapply Rle_trans; [apply (fl_near _ 4), Rabs_le; lra|]. unfold u, eta. lra.
  - replace (acos c - acos c) with 0 by ring. rewrite Rabs_R0. lra.
Qed.
Example C150_case_length : fvmag [3; -4]%Z = 5 /\ fdist [1; 2]%Z [4; 6]%Z = 5 /\ exists l, fdircos [3; -4; 12]%Z = Ok l /\ length l = 3%nat.
Proof.
  split; [apply (C150_length [3; -4]%Z ltac:(cbn [sq fold_right]; lia)); [lia|reflexivity]|]. split; [unfold fdist; cbn [zzip]; apply (C150_length [(1 - 4)%Z; (2 - 6)%Z] ltac:(cbn [sq fold_right]; lia)); [lia|reflexivity]|].
  destruct (C150_directions [3; -4; 12]%Z acos ltac:(cbn [sq fold_right]; lia) ltac:(cbn [sq fold_right]; lia)) as (l & E & F & _). exists l. split; [exact E|]. clear E. repeat match goal with H : Forall2 _ _ _ |- _ => inversion H; clear H; subst end. reflexivity.
Qed.
Example C150_case_angle : exists a, frect2polarcoord2Dwithcenter acos (4, 4)%Z (7, 4)%Z = Ok (3, a) /\ Rabs (a - PI / 2) <= / 30000000.
Proof.
  destruct (C150_angle acos (4, 4)%Z (7, 4)%Z (proj2 C150_arccosine) ltac:(cbn [fst snd]; lia) ltac:(discriminate)) as (a & E & K & _). exists a. split.
  - rewrite E. cbn [fst snd]. assert (F : fvmag [(7 - 4)%Z; (4 - 4)%Z] = 3) by (apply (C150_length [(7 - 4)%Z; (4 - 4)%Z] ltac:(cbn [sq fold_right]; lia)); [lia|reflexivity]). now rewrite F.
  - apply K. exists 3. cbn [fst snd]. rewrite sin_PI2, cos_PI2. pose proof PI_RGT_0. lra.
Qed.
Example C150_case_arc : exists sel ends, farcvertangles acos 4 4 3 0 180 = arcvert sel ends 4 4 3 /\ sel (7, 4)%Z = true /\ ends (7, 4)%Z = false /\ sel (1, 4)%Z = false.
Proof.
  destruct (C150_arc acos 4 4 3 0 180 (proj2 C150_arccosine) ltac:(lia) ltac:(rewrite Rabs_R0; lra) ltac:(rewrite Rabs_pos_eq; lra)) as (sel & ends & E & K). exists sel, ends. split; [exact E|]. pose proof PI_RGT_0 as P. pose proof PI2_1 as P1.
  assert (C : clock (4, 4)%Z (7, 4)%Z (PI / 2)) by (exists 3; cbn [fst snd]; rewrite sin_PI2, cos_PI2; lra). destruct (K _ _ C ltac:(cbn [fst snd]; lia)) as (K1 & _ & _ & K4). unfold radians in *. split; [apply K1; lra|]. split.
  - destruct (ends (7, 4)%Z); [|reflexivity]. destruct (K4 eq_refl) as [H|H]; apply Rabs_def2 in H; lra.
  - assert (C' : clock (4, 4)%Z (1, 4)%Z (3 * (PI / 2))) by (exists 3; cbn [fst snd]; rewrite sin_3PI2, cos_3PI2; lra). destruct (K _ _ C' ltac:(cbn [fst snd]; lia)) as (_ & K2 & _). destruct (sel (1, 4)%Z); [|reflexivity]. specialize (K2 eq_refl). lra.
Qed.
Print Assumptions C150_length.
Print Assumptions C150_distance.
Print Assumptions C150_directions.
Print Assumptions C150_directions_zero.
Print Assumptions C150_spherical.
Print Assumptions C150_angle.
Print Assumptions C150_angle_centre.
Print Assumptions C150_arc.
Print Assumptions C150_cosine_refuted.
