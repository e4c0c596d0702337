(** Property C152: shading of faces with the rounding of floats. *)
From Flocq Require Import Core.
From Coq Require Import ZArith Reals List Lia Lra Bool Psatz.
From Verif Require Import PyBase PyFacts Bmp Region Geometry Draw Shapes MathLib Spec PlotList CircProofs7 Edges EdgeProofs Solids SolidProofs Coords RealProofs Floats FloatProofs PropFloats Floats2 PropFloatSweeps PropFloatTurns FloatSweeps PropFloatDirs FloatShade SpecShapes SpecSolids PropSolids Concrete.
Import ListNotations.
Open Scope R_scope.
Open Scope py_scope.

(** What is asked of a sum of three floats. *)
Definition summation (sm : list R -> R) : Prop :=
  (forall z, fl z = z -> sm [0; 0; z] = z) /\
  forall x y z, fl x = x -> fl y = y -> fl z = z -> 0 <= x -> 0 <= y -> 0 <= z -> / 2 <= x + y + z ->
    Rabs (sm [x; y; z] - (x + y + z)) <= 40 * u * (x + y + z).

(** ** Both sums are such sums *)
Lemma eta_u : 64 * eta <= u.
Proof. unfold eta, u. lra. Qed.
Theorem C152_plain : summation plainsum.
Proof.
  split.
  - intros z Z. unfold plainsum. cbn [fold_left]. rewrite !Rplus_0_l, fl_0, Rplus_0_l, fl_0, Rplus_0_l. exact Z.
  - intros x y z X Y Z X0 Y0 Z0 S. unfold plainsum. cbn [fold_left]. rewrite Rplus_0_l, X. destruct consts as ((U0 & U) & (E0 & E) & _). pose proof eta_u as EU.
    pose proof (fl_near (x + y) (x + y + z) ltac:(apply Rabs_le; lra)) as A. apply Rabs_le_inv in A. set (a := fl (x + y)) in *. set (T := x + y + z) in *.
    assert (UT : u * / 2 <= u * T) by (apply Rmult_le_compat_l; lra). assert (UT1 : u * T <= / 9000000000000000 * T) by (apply Rmult_le_compat_r; lra).
    pose proof (fl_near (a + z) (2 * T) ltac:(apply Rabs_le; unfold T in *; lra)) as B. apply Rabs_le_inv in B. apply Rabs_le. unfold T in *. lra.
Qed.
Lemma corr s x T : 0 <= s -> 0 <= x -> s + x <= T -> / 2 <= T -> let t := fl (s + x) in
  Rabs (t - (s + x)) <= 2 * (u * T) /\ Rabs (fl (fl (s - t) + x)) <= 5 * (u * T) /\ Rabs (fl (fl (x - t) + s)) <= 5 * (u * T).
Proof.
  intros S X L H t. destruct consts as ((U0 & U) & (E0 & E) & _). pose proof eta_u as EU. assert (UT : u * / 2 <= u * T) by (apply Rmult_le_compat_l; lra). assert (UT1 : u * T <= / 9000000000000000 * T) by (apply Rmult_le_compat_r; lra).
  assert (D : Rabs (t - (s + x)) <= u * T + eta) by (apply fl_near, Rabs_le; lra). split; [lra|]. apply Rabs_le_inv in D.
  assert (K : forall a b, 0 <= a -> 0 <= b -> a + b = s + x -> Rabs (fl (fl (a - t) + b)) <= 5 * (u * T)).
  { intros a b A B P. pose proof (fl_near (a - t) (2 * T) ltac:(apply Rabs_le; lra)) as F. apply Rabs_le_inv in F. set (f := fl (a - t)) in *.
    assert (FB : Rabs (f + b) <= 4 * (u * T)) by (apply Rabs_le; lra). pose proof (fl_near _ _ FB) as G. apply Rabs_le_inv in FB, G. assert (u * (4 * (u * T)) <= / 9000000000000000 * (4 * (u * T))) by (apply Rmult_le_compat_r; lra). apply Rabs_le. lra. }
  split; apply K; lra.
Qed.
Theorem C152_compensated : summation compsum.
Proof.
  assert (F0 : fl (fl (0 - 0) + 0) = 0) by (rewrite Rminus_0_r, fl_0, Rplus_0_r; apply fl_0).
  assert (S1 : forall x, fl x = x -> compstep (0, 0) x = (x, 0)).
  { intros x X. unfold compstep. rewrite Rplus_0_l, X. f_equal. rewrite Rplus_0_l. destruct (rle (Rabs x) (Rabs 0)) eqn:Q.
    - apply rle_iff in Q. rewrite Rabs_R0 in Q. pose proof (Rabs_pos x). assert (x = 0) by (destruct (Req_dec x 0) as [?|N]; [auto|apply Rabs_pos_lt in N; lra]). subst x. rewrite F0. apply fl_0.
    - replace (x - x) with 0 by ring. rewrite fl_0, Rplus_0_r, fl_0. apply fl_0. }
  split.
  - intros z Z. unfold compsum. cbn [fold_left]. rewrite !S1 by (auto; apply fl_0). now rewrite Rplus_0_r.
  - intros x y z X Y Z X0 Y0 Z0 S. unfold compsum. cbn [fold_left]. rewrite S1 by auto. unfold compstep. set (T := x + y + z) in *.
    destruct consts as ((U0 & U) & (E0 & E) & _). pose proof eta_u as EU. assert (UT : u * / 2 <= u * T) by (apply Rmult_le_compat_l; lra). assert (UT1 : u * T <= / 9000000000000000 * T) by (apply Rmult_le_compat_r; lra).
    destruct (corr x y (2 * T) X0 Y0 ltac:(unfold T; lra) ltac:(lra)) as (A & C1 & C2). pose proof (fl_nonneg (x + y) ltac:(lra)) as P. set (t := fl (x + y)) in *.
    set (e1 := if rle (Rabs y) (Rabs x) then _ else _). assert (E1 : Rabs e1 <= 10 * (u * T)) by (unfold e1; destruct (rle _ _); lra). clearbody e1. clear C1 C2. rewrite Rplus_0_l.
    pose proof (fl_near _ _ E1) as E1'. assert (UU : u * (10 * (u * T)) <= / 9000000000000000 * (10 * (u * T))) by (apply Rmult_le_compat_r; lra). apply Rabs_le_inv in E1, E1', A. set (c1 := fl e1) in *.
    pose proof (fl_near (x + y) T ltac:(apply Rabs_le; unfold T; lra)) as A'. fold t in A'. apply Rabs_le_inv in A'.
    destruct (corr t z (2 * T) P Z0 ltac:(unfold T in *; lra) ltac:(lra)) as (_ & C1 & C2). pose proof (fl_near (t + z) (2 * T) ltac:(apply Rabs_le; unfold T in *; lra)) as B. set (t2 := fl (t + z)) in *.
    set (e2 := if rle (Rabs z) (Rabs t) then _ else _). assert (E2 : Rabs e2 <= 10 * (u * T)) by (unfold e2; destruct (rle _ _); lra). clearbody e2. apply Rabs_le_inv in E2, B.
    assert (S2 : Rabs (c1 + e2) <= 21 * (u * T)) by (apply Rabs_le; lra). pose proof (fl_near _ _ S2) as C3. apply Rabs_le_inv in S2, C3. assert (UV : u * (21 * (u * T)) <= / 9000000000000000 * (21 * (u * T))) by (apply Rmult_le_compat_r; lra). set (c2 := fl (c1 + e2)) in *.
    pose proof (fl_near (t2 + c2) (2 * T) ltac:(apply Rabs_le; unfold T in *; lra)) as F. apply Rabs_le_inv in F. apply Rabs_le. unfold T in *. lra.
Qed.

(** ** The luminosity of a face *)
(** The cosine of the angle between a vector and the axis of view. *)
Definition cosine (x y z : R) : R := z / sqrt (x * x + y * y + z * z).
Lemma fl_sq_fl x : fl (fl (x * x)) = fl (x * x).
Proof. apply fl_fl. Qed.
Lemma cosine_in x y z : 1 <= x * x + y * y + z * z -> -1 <= cosine x y z <= 1.
Proof.
  intros S. unfold cosine. assert (M : 1 <= sqrt (x * x + y * y + z * z)) by (apply sqrt_ge_of; lra). assert (Q := sqrt_sqrt (x * x + y * y + z * z) ltac:(lra)). set (m := sqrt _) in *.
  assert (B : - m <= z <= m). { assert (z * z <= m * m) by nra. split; nra. } split; apply (Rmult_le_reg_r m); try lra; unfold Rdiv; rewrite Rmult_assoc, Rinv_l by lra; lra.
Qed.
Lemma mag_off sm x y z : summation sm -> 1 <= x * x + y * y + z * z -> Rabs (fmag sm [x; y; z] - sqrt (x * x + y * y + z * z)) <= 55 * u * sqrt (x * x + y * y + z * z).
Proof.
  intros (_ & SM) S. unfold fmag. cbn [map]. set (T := x * x + y * y + z * z) in *. destruct consts as ((U0 & U) & (E0 & E) & _). pose proof eta_u as EU.
  pose proof (Rle_0_sqr x) as X0. pose proof (Rle_0_sqr y) as Y0. pose proof (Rle_0_sqr z) as Z0. unfold Rsqr in X0, Y0, Z0.
  pose proof (fl_near _ _ (Req_le _ _ (Rabs_pos_eq _ X0))) as X. pose proof (fl_near _ _ (Req_le _ _ (Rabs_pos_eq _ Y0))) as Y. pose proof (fl_near _ _ (Req_le _ _ (Rabs_pos_eq _ Z0))) as Z.
  apply Rabs_le_inv in X, Y, Z. assert (UT : u * T = u * (x * x) + u * (y * y) + u * (z * z)) by (unfold T; ring). assert (UT1 : u * T <= / 9000000000000000 * T) by (apply Rmult_le_compat_r; lra). assert (UT0 : u * 1 <= u * T) by (apply Rmult_le_compat_l; lra).
  specialize (SM (fl (x * x)) (fl (y * y)) (fl (z * z)) (fl_fl _) (fl_fl _) (fl_fl _) (fl_nonneg _ X0) (fl_nonneg _ Y0) (fl_nonneg _ Z0) ltac:(unfold T in *; lra)).
  set (Q := sm _) in *. apply Rabs_le_inv in SM. set (P := fl (x * x) + fl (y * y) + fl (z * z)) in *. assert (PT : - (2 * (u * T)) <= P - T <= 2 * (u * T)) by (unfold P, T in *; lra).
  assert (UP : u * P <= u * (T + T)) by (apply Rmult_le_compat_l; unfold T in *; lra). assert (UP' : u * P <= 1.1 * (u * T)). { replace (1.1 * (u * T)) with (u * (1.1 * T)) by ring. apply Rmult_le_compat_l; lra. }
  assert (QT : - (50 * (u * T)) <= Q - T <= 50 * (u * T)) by lra. assert (Q0 : 0 <= Q) by lra.
  assert (M1 : 1 <= sqrt T) by (apply sqrt_ge_of; lra). assert (MM := sqrt_sqrt T ltac:(lra)). assert (QQ := sqrt_sqrt Q Q0). assert (SQ := sqrt_pos Q). set (m := sqrt T) in *. set (q := sqrt Q) in *.
  assert (D : - (50 * (u * m)) <= q - m <= 50 * (u * m)).
  { assert (F : (q - m) * (q + m) = Q - T) by (rewrite <- MM, <- QQ; ring). assert (Um : u * T = u * m * m) by (rewrite <- MM; ring). rewrite Um in QT. assert (UM : 0 < u * m) by (apply Rmult_lt_0_compat; lra). split; nra. }
  assert (UM : u * m <= / 9000000000000000 * m) by (apply Rmult_le_compat_r; lra). assert (UM1 : u * 1 <= u * m) by (apply Rmult_le_compat_l; lra). pose proof (fl_near q (2 * m) ltac:(apply Rabs_le; lra)) as F. apply Rabs_le_inv in F. apply Rabs_le. lra.
Qed.
Lemma one_mag sm : summation sm -> fmag sm [0; 0; 1] = 1.
Proof. intros (S & _). unfold fmag. cbn [map]. rewrite Rmult_0_l, Rmult_1_l, fl_0, fl_1, S by apply fl_1. rewrite sqrt_1. apply fl_1. Qed.
Lemma light sm x y z : summation sm -> fl z = z -> 1 <= x * x + y * y + z * z ->
  exists c, flum sm (x, y, z) = Ok (rtrunc c + 127)%Z /\ Rabs (c - 128 * cosine x y z) <= / 1000000000000 /\ (0 <= z -> 0 <= c) /\ (z <= 0 -> c <= 0).
Proof.
  intros SM Z S. destruct consts as ((U0 & U) & (E0 & E) & _). pose proof (mag_off sm x y z SM S) as M. pose proof (cosine_in x y z S) as CI.
  assert (M1 : 1 <= sqrt (x * x + y * y + z * z)) by (apply sqrt_ge_of; lra). unfold flum, fcosine, fdot. cbn [combine map fst snd]. rewrite (one_mag sm SM). rewrite !Rmult_0_r, !fl_0, !Rmult_1_r, Z. rewrite (proj1 SM z Z).
  replace (fl (fmag sm [x; y; z])) with (fmag sm [x; y; z]) by (unfold fmag; now rewrite fl_fl). set (m := sqrt _) in *. unfold cosine in *. fold m in CI |- *. set (g := fmag sm _) in *.
  assert (N : req x 0 && req y 0 && req z 0 = false). { destruct (req x 0) eqn:A; [|reflexivity]. destruct (req y 0) eqn:B; [|reflexivity]. destruct (req z 0) eqn:C; [|reflexivity]. apply req_iff in A, B, C. subst. lra. }
  rewrite N. assert (UM : u * m <= / 9000000000000000 * m) by (apply Rmult_le_compat_r; lra). apply Rabs_le_inv in M. assert (G : 0.9 * m <= g) by lra. rewrite fdiv_ok by lra. cbn [rbind]. eexists. split; [reflexivity|].
  set (k := z / m) in *. assert (ZK : z = k * m) by (unfold k; field; lra).
  assert (D : Rabs (z / g - k) <= 62 * u).
  { replace (z / g - k) with (k * ((m - g) / g)) by (rewrite ZK; field; lra). rewrite Rabs_mult. assert (A1 : Rabs k <= 1) by (apply Rabs_le; lra). assert (A2 : Rabs ((m - g) / g) <= 62 * u).
    { apply Rabs_le. assert (UM0 : u * (0.9 * m) <= u * g) by (apply Rmult_le_compat_l; lra). split; apply (Rmult_le_reg_r g); try lra; unfold Rdiv; rewrite Rmult_assoc, Rinv_l by lra; lra. }
    pose proof (Rabs_pos k). pose proof (Rabs_pos ((m - g) / g)). nra. }
  apply Rabs_le_inv in D. pose proof (fl_near (z / g) 2 ltac:(apply Rabs_le; lra)) as F. apply Rabs_le_inv in F. set (c := fl (z / g)) in *.
  pose proof (fl_near (c * 128) 256 ltac:(apply Rabs_le; lra)) as F2. apply Rabs_le_inv in F2. split; [apply Rabs_le; lra|].
  assert (GI : 0 < / g) by (apply Rinv_0_lt_compat; lra). split; intros H.
  - apply fl_nonneg. assert (0 <= c) by (apply fl_nonneg; unfold Rdiv; apply Rmult_le_pos; lra). lra.
  - rewrite <- fl_0. apply fl_le. assert (c <= 0) by (rewrite <- fl_0; apply fl_le; unfold Rdiv; nra). lra.
Qed.
Lemma trunc_up c : 0 <= c -> c - 1 < IZR (rtrunc c) <= c.
Proof. intros H. unfold rtrunc. rewrite (proj2 (rlt_no _ _)) by lra. destruct (base_Int_part c). lra. Qed.
Lemma trunc_down c : c <= 0 -> c <= IZR (rtrunc c) < c + 1.
Proof.
  intros H. destruct (Req_dec c 0) as [->|N]; [assert (Q : (0 <= rtrunc 0 <= 0)%Z) by (apply trunc_in; lra); replace (rtrunc 0) with 0%Z by lia; lra|].
  unfold rtrunc. rewrite (proj2 (rlt_iff _ _)) by lra. destruct (base_Int_part (- c)). rewrite opp_IZR. lra.
Qed.
Lemma trunc_le a b : a <= b -> (rtrunc a <= rtrunc b)%Z.
Proof.
  intros H. destruct (Rle_or_lt 0 a) as [A|A]; destruct (Rle_or_lt 0 b) as [B|B]; try lra; apply Z.lt_succ_r, lt_IZR; rewrite succ_IZR.
  - pose proof (trunc_up a A). pose proof (trunc_up b B). lra.
  - pose proof (trunc_down a ltac:(lra)) as T. pose proof (trunc_up b B) as T'. destruct T as (T1 & T2).
    assert (rtrunc a <= 0)%Z by (unfold rtrunc; rewrite (proj2 (rlt_iff _ _)) by lra; destruct (base_Int_part (- a)) as (P & Q); assert (IZR (-1) < IZR (Int_part (- a))) by lra; apply lt_IZR in H0; lia).
    apply IZR_le in H0. assert (0 <= rtrunc b)%Z by (apply Z.lt_succ_r, lt_IZR; rewrite succ_IZR; lra). apply IZR_le in H1. lra.
  - pose proof (trunc_down a ltac:(lra)). pose proof (trunc_down b ltac:(lra)). lra.
Qed.

Theorem C152_light : forall sm x y z, summation sm -> fl z = z -> 1 <= x * x + y * y + z * z ->
  exists lum, flum sm (x, y, z) = Ok lum /\ (-1 <= lum <= 255)%Z /\
    (0 <= z -> (127 <= lum)%Z /\ 126 + 128 * cosine x y z - / 1000000000000 <= IZR lum <= 127 + 128 * cosine x y z + / 1000000000000) /\
    (z <= 0 -> (lum <= 127)%Z /\ 127 + 128 * cosine x y z - / 1000000000000 <= IZR lum <= 128 + 128 * cosine x y z + / 1000000000000).
Proof.
  intros sm x y z SM Z S. destruct (light sm x y z SM Z S) as (c & E & D & P & N). pose proof (cosine_in x y z S) as CI. apply Rabs_le_inv in D. exists (rtrunc c + 127)%Z. split; [exact E|]. rewrite plus_IZR. split; [|split; intros H].
  - destruct (Rle_or_lt 0 c) as [C|C].
    + pose proof (trunc_up c C) as (A & B). assert (-1 < rtrunc c < 129)%Z by (split; apply lt_IZR; lra). lia.
    + pose proof (trunc_down c (Rlt_le _ _ C)) as (A & B). assert (-129 < rtrunc c < 1)%Z by (split; apply lt_IZR; lra). lia.
  - pose proof (trunc_up c (P H)) as (A & B). split; [|lra]. assert (-1 < rtrunc c)%Z by (apply lt_IZR; specialize (P H); lra). lia.
  - pose proof (trunc_down c (N H)) as (A & B). split; [|lra]. assert (rtrunc c < 1)%Z by (apply lt_IZR; specialize (N H); lra). lia.
Qed.
(** a face turned further to the viewer is not darker *)
Theorem C152_order : forall sm x y z x' y' z' l l', summation sm -> fl z = z -> fl z' = z' -> 1 <= x * x + y * y + z * z -> 1 <= x' * x' + y' * y' + z' * z' ->
  flum sm (x, y, z) = Ok l -> flum sm (x', y', z') = Ok l' -> cosine x y z + / 10000000000000 <= cosine x' y' z' -> (l <= l')%Z.
Proof.
  intros sm x y z x' y' z' l l' SM Z Z' S S' E E' H. destruct (light sm x y z SM Z S) as (c & F & D & _). destruct (light sm x' y' z' SM Z' S') as (c' & F' & D' & _). apply Rabs_le_inv in D, D'.
  rewrite E in F. rewrite E' in F'. injection F as ->. injection F' as ->. pose proof (trunc_le c c' ltac:(lra)). lia.
Qed.
(** a face seen straight has the full luminosity, one seen edge on and one without a normal have 127, and one that is turned away has -1 *)
Lemma straight sm k : summation sm -> (0 < Z.abs k <= 2 ^ 26)%Z -> fcosine sm [0; 0; IZR k] [0; 0; 1] = Ok (IZR (Z.sgn k)).
Proof.
  intros SM K. unfold fcosine, fdot. rewrite (one_mag sm SM). cbn [combine map fst snd]. rewrite !Rmult_0_r, !fl_0, !Rmult_1_r. assert (FK : fl (IZR k) = IZR k) by (apply fl_Z; lia). rewrite FK, (proj1 SM _ FK).
  assert (M : fmag sm [0; 0; IZR k] = IZR (Z.abs k)).
  { unfold fmag. cbn [map]. rewrite !Rmult_0_l, !fl_0. rewrite <- mult_IZR. assert (FQ : fl (IZR (k * k)) = IZR (k * k)) by (apply fl_Z; nia). rewrite FQ, (proj1 SM _ FQ). replace (k * k)%Z with (Z.abs k * Z.abs k)%Z by nia. rewrite mult_IZR, sqrt_square by (apply IZR_le; lia). apply fl_Z. lia. }
  rewrite M. assert (FA : fl (IZR (Z.abs k)) = IZR (Z.abs k)) by (apply fl_Z; lia). rewrite FA. rewrite fdiv_ok by (apply not_0_IZR; lia). f_equal.
  assert (Q : IZR k / IZR (Z.abs k) = IZR (Z.sgn k)). { rewrite <- (Z.abs_sgn k) at 1. rewrite mult_IZR. field. apply not_0_IZR. lia. }
  rewrite Q. apply fl_Z. lia.
Qed.
Theorem C152_straight : forall sm k, summation sm -> (0 < k <= 2 ^ 26)%Z ->
  flum sm (0, 0, IZR k) = Ok 255%Z /\ flum sm (0, 0, IZR (- k)) = Ok (-1)%Z /\
  (forall x y, 1 <= x * x + y * y -> flum sm (x, y, 0) = Ok 127%Z) /\ flum sm (0, 0, 0) = Ok 127%Z.
Proof.
  intros sm k SM K. assert (R0 : req 0 0 = true) by now apply req_iff. split; [|split; [|split]].
  - unfold flum. rewrite (proj2 (req_no (IZR k) 0)) by (apply not_0_IZR; lia). rewrite !andb_false_r. rewrite straight by (auto; lia). cbn [rbind]. rewrite Z.sgn_pos by lia. rewrite <- mult_IZR, fl_Z by lia. f_equal.
    pose proof (trunc_in (IZR 128) 128 128 ltac:(lra)). change (1 * 128)%Z with 128%Z. lia.
  - unfold flum. rewrite (proj2 (req_no (IZR (- k)) 0)) by (apply not_0_IZR; lia). rewrite !andb_false_r. rewrite straight by (auto; lia). cbn [rbind]. rewrite Z.sgn_neg by lia. rewrite <- mult_IZR, fl_Z by lia. f_equal.
    pose proof (trunc_in (IZR (-128)) (-128) (-128) ltac:(lra)). change (-1 * 128)%Z with (-128)%Z. lia.
  - intros x y H. destruct (C152_light sm x y 0 SM fl_0 ltac:(lra)) as (l & E & _ & A & B). rewrite E. f_equal. destruct (A (Rle_refl 0)). destruct (B (Rle_refl 0)). lia.
  - unfold flum. now rewrite R0.
Qed.
(** ** The colour of a face *)
Theorem C152_colour : forall lum r g b, (0 <= lum <= 255)%Z -> 0 <= r <= 1 -> 0 <= g <= 1 -> 0 <= b <= 1 ->
  exists r' g' b', fmixed lum (r, g, b) = (r' * 65536 + g' * 256 + b')%Z /\ (0 <= fmixed lum (r, g, b) < 2 ^ 24)%Z /\
    Forall (fun p => (0 <= snd p <= lum)%Z /\ fst p * IZR lum - 1 - / 1000000000000 <= IZR (snd p) <= fst p * IZR lum + / 1000000000000) [(r, r'); (g, g'); (b, b')].
Proof.
  intros lum r g b L R G B. assert (L0 : 0 <= IZR lum <= 255) by (split; apply IZR_le; lia). destruct consts as ((U0 & U) & (E0 & E) & _).
  assert (K : forall f, 0 <= f <= 1 -> (0 <= rtrunc (fl (f * IZR lum)) <= lum)%Z /\ f * IZR lum - 1 - / 1000000000000 <= IZR (rtrunc (fl (f * IZR lum))) <= f * IZR lum + / 1000000000000).
  { intros f F. assert (P : 0 <= f * IZR lum <= 255) by nra. assert (A : 0 <= fl (f * IZR lum) <= IZR lum). { split; [apply fl_nonneg; lra|]. assert (Q : fl (f * IZR lum) <= fl (IZR lum)) by (apply fl_le; nra). rewrite (fl_Z lum) in Q by lia. exact Q. }
    pose proof (fl_near (f * IZR lum) 255 ltac:(apply Rabs_le; lra)) as N. apply Rabs_le_inv in N. split; [apply trunc_in; split; [lra|tauto]|]. pose proof (trunc_up _ (proj1 A)). lra. }
  destruct (K r R) as (R1 & R2). destruct (K g G) as (G1 & G2). destruct (K b B) as (B1 & B2). unfold fmixed, fcolormix, RGB2int. rewrite !Z.shiftl_mul_pow2 by lia. exists (rtrunc (fl (r * IZR lum))), (rtrunc (fl (g * IZR lum))), (rtrunc (fl (b * IZR lum))). split; [|split].
  - change (2 ^ 8)%Z with 256%Z. change (2 ^ 16)%Z with 65536%Z. lia.
  - change (2 ^ 8)%Z with 256%Z. change (2 ^ 16)%Z with 65536%Z. change (2 ^ 24)%Z with 16777216%Z. lia.
  - repeat (apply Forall_cons; [cbn [fst snd]; tauto|]). apply Forall_nil.
Qed.
(** ** Drawings *)
(** A normal of a face that is not turned away: none at all or one of length 1 at least. *)
Definition facing (n : R * R * R) : Prop :=
  let '(x, y, z) := n in n = (0, 0, 0) \/ fl z = z /\ 1 <= x * x + y * y + z * z /\ -0.999 <= cosine x y z.
Definition lum_of sm (n : R * R * R) : Z := match flum sm n with Ok l => l | Err _ => 0%Z end.
Lemma facing_lum sm n : summation sm -> facing n -> flum sm n = Ok (lum_of sm n) /\ (0 <= lum_of sm n <= 255)%Z.
Proof.
  intros SM F. unfold lum_of. destruct n as ((x, y), z). destruct F as [F|(Z & S & C)].
  - injection F as -> -> ->. rewrite (proj2 (proj2 (proj2 (C152_straight sm 1 SM ltac:(lia))))). split; [reflexivity|lia].
  - destruct (C152_light sm x y z SM Z S) as (l & -> & B & P & N). split; [reflexivity|]. split; [|lia]. destruct (Rle_or_lt 0 z) as [H|H]; [destruct (P H); lia|]. destruct (N (Rlt_le _ _ H)) as (_ & A & _). apply Z.lt_succ_r, lt_IZR. rewrite succ_IZR. lra.
Qed.
Lemma item_in {A} (l : list A) i a : item l i = Ok a -> In a l.
Proof. unfold item. destruct (Z.ltb (if (i <? 0)%Z then _ else _) 0); [discriminate|]. destruct (nth_error l _) eqn:E; [|discriminate]. intros H. injection H as <-. eapply nth_error_In; eauto. Qed.
Lemma fillist_eq sm f polys ns st : summation sm -> Forall facing ns -> fplotpolyfillist sm f polys ns st = plotpolyfillist (fun n => fmixed (lum_of sm n) f) polys ns st.
Proof.
  intros SM F. unfold fplotpolyfillist, plotpolyfillist. apply forM_ext. intros (i, p) s _. cbn [fst snd]. unfold bind, lift. destruct (item ns i) as [n|e] eqn:E; [|reflexivity]. apply item_in in E. rewrite Forall_forall in F. destruct (facing_lum sm n SM (F n E)) as (-> & _). reflexivity.
Qed.
Theorem C152_faces : forall sm r g k b w h bits o polys ns, summation sm -> wf b w h bits -> bits <> 4%Z ->
  0 <= r <= 1 -> 0 <= g <= 1 -> 0 <= k <= 1 -> Forall facing ns -> (forall p, In p polys -> p <> []) ->
  exists L v b' o', map fst L = combine polys ns /\
    (forall p n S, In ((p, n), S) L -> forall x y, S x y = true <-> (forall x y, outline p x y -> inside w h x y) /\ between (outline p) x y) /\
    (forall n, In n ns -> exists lum, flum sm n = Ok lum /\ (0 <= lum <= 255)%Z /\ shows b bits (fmixed lum (r, g, k)) (v n)) /\
    fplotpolyfillist sm (r, g, k) polys ns (mkst b o) = (if (length ns <? length polys)%nat then Err IndexError else Ok tt, mkst b' o') /\
    (bits <> 1%Z -> exists k, o' = o ++ repeat Mregionoutofbounds k) /\
    repainted b b' w h bits (fun x y =>
      match find (fun q => snd q x y) (rev L) with Some q => v (snd (fst q)) | None => pixel b w h bits x y end).
Proof.
  intros sm r g k b w h bits o polys ns SM W N4 R G K F P. set (col := fun n => fmixed (lum_of sm n) (r, g, k)).
  assert (C : forall n, In n ns -> (0 <= col n < 2 ^ 24)%Z). { intros n I. rewrite Forall_forall in F. destruct (facing_lum sm n SM (F n I)) as (_ & B). destruct (C152_colour (lum_of sm n) r g k B R G K) as (r' & g' & b' & _ & Q & _). exact Q. }
  destruct (C109_faces _ col b w h bits o polys ns W N4 C P) as (L & v & b' & o' & A1 & A2 & A3 & A4 & A5 & A6). exists L, v, b', o'. split; [exact A1|]. split; [exact A2|]. split.
  - intros n I. pose proof F as F'. rewrite Forall_forall in F'. destruct (facing_lum sm n SM (F' n I)) as (E & B). exists (lum_of sm n). split; [exact E|]. split; [exact B|]. exact (A3 n I).
  - split; [rewrite fillist_eq by auto; exact A4|]. split; [exact A5|exact A6].
Qed.
Theorem C152_plot3d : forall sm r g k b w h bits o polys ns c solid line, summation sm -> wf b w h bits -> bits <> 4%Z -> (0 < w)%Z -> (0 < h)%Z ->
  0 <= r <= 1 -> 0 <= g <= 1 -> 0 <= k <= 1 -> Forall facing ns -> (length polys <= length ns)%nat -> (0 <= c < 2 ^ bits)%Z ->
  Forall (fun p => p <> [] /\ Forall (fun e => seg_fits w h bits (fst e) (snd e)) (closed_edges p)) polys ->
  exists L v b' o', map fst L = combine polys ns /\
    (forall p n S, In ((p, n), S) L -> forall x y, S x y = true <-> (forall x y, outline p x y -> inside w h x y) /\ between (outline p) x y) /\
    (forall n, In n ns -> exists lum, flum sm n = Ok lum /\ (0 <= lum <= 255)%Z /\ shows b bits (fmixed lum (r, g, k)) (v n)) /\
    fplot3d sm (r, g, k) (polys, ns) solid line c (mkst b o) = (Ok tt, mkst b' o') /\
    (bits <> 1%Z -> exists k, o' = o ++ repeat Mregionoutofbounds k) /\
    repainted b b' w h bits (fun x y =>
      if line && existsb (fun p => any_edge (seg_hit w h) (closed_edges p) x y) polys then c
      else if solid then match find (fun q => snd q x y) (rev L) with Some q => v (snd (fst q)) | None => pixel b w h bits x y end
      else pixel b w h bits x y).
Proof.
  intros sm r g k b w h bits o polys ns c solid line SM W N4 W0 H0 R G K F Len CC FP. set (col := fun n => fmixed (lum_of sm n) (r, g, k)).
  assert (C : forall n, In n ns -> (0 <= col n < 2 ^ 24)%Z). { intros n I. rewrite Forall_forall in F. destruct (facing_lum sm n SM (F n I)) as (_ & B). destruct (C152_colour (lum_of sm n) r g k B R G K) as (r' & g' & b' & _ & Q & _). exact Q. }
  destruct (C109_plot3d _ col b w h bits o polys ns c solid line W N4 W0 H0 C Len CC FP) as (L & v & b' & o' & A1 & A2 & A3 & A4 & A5 & A6). exists L, v, b', o'. split; [exact A1|]. split; [exact A2|]. split.
  - intros n I. pose proof F as F'. rewrite Forall_forall in F'. destruct (facing_lum sm n SM (F' n I)) as (E & B). exists (lum_of sm n). split; [exact E|]. split; [exact B|]. exact (A3 n I).
  - split; [|split; [exact A5|exact A6]]. rewrite <- A4. unfold fplot3d, plot3d. cbn [fst snd]. unfold bind at 1. unfold bind at 1. destruct solid; [rewrite fillist_eq by auto; reflexivity|reflexivity].
Qed.
Lemma minus_one : rtrunc (fl (1 * -1)) = (-1)%Z /\ rtrunc (fl (0 * -1)) = 0%Z.
Proof.
  split.
  - replace (1 * -1) with (IZR (-1)) by (cbn; ring). rewrite fl_Z by lia. pose proof (trunc_in (IZR (-1)) (-1) (-1) ltac:(lra)). lia.
  - rewrite Rmult_0_l, fl_0. pose proof (trunc_in 0 0 0 ltac:(lra)). lia.
Qed.
Lemma one_face sm f p n lum st : flum sm n = Ok lum ->
  fplotpolyfillist sm f [p] [n] st = bind (c <- depthcolor (fmixed lum f) ;; plotpolyfill p c) (fun a => ret a) st.
Proof.
  intros E. unfold fplotpolyfillist, forM. change (combine (range 0 (zlen [p])) [p]) with [(0%Z, p)]. cbn [foldM fst snd]. unfold bind at 1 2. change (lift (item [n] 0) st) with (Ok n, st). cbv iota beta. unfold bind at 1. unfold lift. rewrite E. reflexivity.
Qed.
(** a face turned straight away has no colour that a picture can hold *)
Theorem C152_away_refuted : forall sm, summation sm ->
  flum sm (0, 0, -5) = Ok (-1)%Z /\ fmixed (-1) (1, 0, 0) = (-65536)%Z /\
  outcome (fplotpolyfillist sm (1, 0, 0) [[(1, 1); (5, 1); (3, 5)]%Z] [(0, 0, -5)]) (blank 8 8 24) = Err OverflowError /\
  outcome (fplotpolyfillist sm (1, 0, 0) [[(1, 1); (5, 1); (3, 5)]%Z] [(0, 0, -5)]) (blank 8 8 8) = Err OverflowError.
Proof.
  intros sm SM. assert (E : flum sm (0, 0, -5) = Ok (-1)%Z) by exact (proj1 (proj2 (C152_straight sm 5 SM ltac:(lia)))).
  assert (M : fmixed (-1) (1, 0, 0) = (-65536)%Z) by (unfold fmixed, fcolormix; rewrite (proj1 minus_one), (proj2 minus_one); reflexivity).
  split; [exact E|]. split; [exact M|]. unfold outcome, run. split; rewrite (one_face sm _ _ _ _ _ E), M; vm_compute; reflexivity.
Qed.
Example C152_case : summation plainsum /\ summation compsum /\ facing (0, 3, 4) /\ facing (0, 0, 0) /\ cosine 0 3 4 = 0.8 /\
  (exists lum, flum compsum (0, 3, 4) = Ok lum /\ (228 <= lum <= 229)%Z) /\ wf (blank 8 8 24) 8 8 24 /\ [(1, 1); (5, 1); (3, 5)]%Z <> [].
Proof.
  assert (C : cosine 0 3 4 = 0.8). { unfold cosine. replace (0 * 0 + 3 * 3 + 4 * 4) with (5 * 5) by ring. rewrite sqrt_square by lra. lra. }
  assert (F4 : fl 4 = 4) by (apply (fl_Z 4); lia).
  split; [exact C152_plain|]. split; [exact C152_compensated|]. split; [right; split; [exact F4|]; split; lra|]. split; [now left|]. split; [exact C|]. split; [|split; [concrete_wf|discriminate]].
  destruct (C152_light compsum 0 3 4 C152_compensated F4 ltac:(lra)) as (l & E & _ & P & _). exists l. split; [exact E|]. destruct (P ltac:(lra)) as (_ & A & B). rewrite C in A, B. split; apply Z.lt_succ_r, lt_IZR; rewrite succ_IZR; lra.
Qed.
Print Assumptions C152_plain.
Print Assumptions C152_compensated.
Print Assumptions C152_light.
Print Assumptions C152_order.
Print Assumptions C152_straight.
Print Assumptions C152_colour.
Print Assumptions C152_faces.
Print Assumptions C152_plot3d.
Print Assumptions C152_away_refuted.
Print Assumptions C152_case.
