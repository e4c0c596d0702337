(** Real numbers: comparisons, rounding, lengths, angles. *)
From Coq Require Import ZArith Reals List Bool Lia Lra Psatz.
From Verif Require Import PyBase Bmp MathLib Coords.
Import ListNotations.
Open Scope R_scope.

Lemma rlt_iff x y : rlt x y = true <-> x < y.
Proof. unfold rlt. destruct (Rlt_dec x y); split; intros; auto; try discriminate; contradiction. Qed.
Lemma rlt_no x y : rlt x y = false <-> y <= x.
Proof. unfold rlt. destruct (Rlt_dec x y); split; intros; auto; try discriminate; lra. Qed.
Lemma rle_iff x y : rle x y = true <-> x <= y.
Proof. unfold rle. destruct (Rle_dec x y); split; intros; auto; try discriminate; contradiction. Qed.
Lemma req_iff x y : req x y = true <-> x = y.
Proof. unfold req. destruct (Req_EM_T x y); split; intros; auto; try discriminate; contradiction. Qed.
Lemma req_no x y : req x y = false <-> x <> y.
Proof. unfold req. destruct (Req_EM_T x y); split; intros; auto; try discriminate; contradiction. Qed.
Lemma rdiv_0 x : rdiv x 0 = Err ZeroDivisionError.
Proof. unfold rdiv. now rewrite (proj2 (req_iff 0 0) eq_refl). Qed.
Lemma rdiv_ok x y : y <> 0 -> rdiv x y = Ok (x / y).
Proof. intros H. unfold rdiv. now rewrite (proj2 (req_no y 0) H). Qed.
Lemma pyacos_ok d : -1 <= d <= 1 -> pyacos d = Ok (acos d).
Proof. intros [H K]. unfold pyacos. now rewrite (proj2 (rle_iff _ _) H), (proj2 (rle_iff _ _) K). Qed.

(** ** rounding *)
Lemma Rabs_le_inv x a : Rabs x <= a -> - a <= x <= a.
Proof. unfold Rabs. destruct (Rcase_abs x); lra. Qed.
Lemma rround_near x : Rabs (x - IZR (rround x)) <= 1 / 2.
Proof.
  unfold rround. destruct (base_Int_part x) as (A & B). set (n := Int_part x) in *.
  destruct (rlt (x - IZR n) (1 / 2)) eqn:E; [apply rlt_iff in E; apply Rabs_le; lra|apply rlt_no in E].
  destruct (rlt (1 / 2) (x - IZR n)) eqn:F; [apply rlt_iff in F; rewrite plus_IZR; apply Rabs_le; lra|apply rlt_no in F].
  destruct (Z.even n); [|rewrite plus_IZR]; apply Rabs_le; lra.
Qed.
Lemma rround_even x : Rabs (x - IZR (rround x)) = 1 / 2 -> Z.even (rround x) = true.
Proof.
  unfold rround. destruct (base_Int_part x) as (A & B). set (n := Int_part x) in *.
  destruct (rlt (x - IZR n) (1 / 2)) eqn:E; [apply rlt_iff in E; rewrite Rabs_pos_eq by lra; lra|apply rlt_no in E].
  destruct (rlt (1 / 2) (x - IZR n)) eqn:F; [apply rlt_iff in F; rewrite plus_IZR, Rabs_left1 by lra; lra|apply rlt_no in F].
  intros _. destruct (Z.even n) eqn:G; [exact G|]. rewrite Z.even_add, G. reflexivity.
Qed.
Lemma int_unique x n : IZR n <= x < IZR n + 1 -> Int_part x = n.
Proof.
  intros [A B]. destruct (base_Int_part x) as (C & D). assert (Int_part x < n + 1)%Z by (apply lt_IZR; rewrite plus_IZR; lra). assert (n < Int_part x + 1)%Z by (apply lt_IZR; rewrite plus_IZR; lra). lia.
Qed.
Lemma rround_Z n : rround (IZR n) = n.
Proof. unfold rround. rewrite (int_unique (IZR n) n) by lra. now rewrite (proj2 (rlt_iff _ _)) by lra. Qed.
Lemma rround_unique x n : Rabs (x - IZR n) < 1 / 2 -> rround x = n.
Proof.
  intros H. pose proof (rround_near x) as K. apply Rabs_def2 in H. apply Rabs_le_inv in K.
  assert (rround x < n + 1)%Z by (apply lt_IZR; rewrite plus_IZR; lra). assert (n < rround x + 1)%Z by (apply lt_IZR; rewrite plus_IZR; lra). lia.
Qed.
Lemma rround_mono x y : x <= y -> (rround x <= rround y)%Z.
Proof.
  intros H. destruct (Z_le_gt_dec (rround x) (rround y)) as [|G]; [assumption|exfalso].
  pose proof (rround_near x) as A. pose proof (rround_near y) as B. apply Rabs_le_inv in A. apply Rabs_le_inv in B.
  assert (IZR (rround y) + 1 <= IZR (rround x)) by (rewrite <- plus_IZR; apply IZR_le; lia).
  assert (XY : x = y) by lra. subst y. lia.
Qed.
Lemma rround_plus_even x n : Z.even n = true -> rround (x + IZR n) = (rround x + n)%Z.
Proof.
  intros E. unfold rround. destruct (base_Int_part x) as (A & B). rewrite (int_unique (x + IZR n) (Int_part x + n)) by (rewrite plus_IZR; lra).
  replace (x + IZR n - IZR (Int_part x + n)) with (x - IZR (Int_part x)) by (rewrite plus_IZR; ring).
  rewrite Z.even_add, E. destruct (rlt _ _); [reflexivity|]. destruct (rlt _ _); [lia|]. destruct (Z.even (Int_part x)); cbn; lia.
Qed.
Lemma rtrunc_near x : Rabs (x - IZR (rtrunc x)) < 1.
Proof.
  unfold rtrunc. destruct (rlt x 0) eqn:E.
  - destruct (base_Int_part (- x)) as (A & B). rewrite opp_IZR. apply Rabs_def1; lra.
  - destruct (base_Int_part x) as (A & B). apply Rabs_def1; lra.
Qed.
(** towards 0 *)
Lemma rtrunc_abs x : Rabs (IZR (rtrunc x)) <= Rabs x.
Proof.
  unfold rtrunc. destruct (rlt x 0) eqn:E.
  - apply rlt_iff in E. destruct (base_Int_part (- x)) as (A & B). rewrite opp_IZR, Rabs_Ropp, (Rabs_left x E).
    assert (0 < Int_part (- x) + 1)%Z by (apply lt_IZR; rewrite plus_IZR; lra). rewrite Rabs_pos_eq; [lra|]. apply IZR_le. lia.
  - apply rlt_no in E. destruct (base_Int_part x) as (A & B). assert (0 < Int_part x + 1)%Z by (apply lt_IZR; rewrite plus_IZR; lra).
    rewrite !Rabs_pos_eq; [lra|lra|]. apply IZR_le. lia.
Qed.
Lemma rtrunc_opp x : rtrunc (- x) = (- rtrunc x)%Z.
Proof.
  unfold rtrunc. destruct (rlt x 0) eqn:E; [apply rlt_iff in E|apply rlt_no in E].
  - rewrite (proj2 (rlt_no (- x) 0)) by lra. lia.
  - destruct (Req_dec x 0) as [->|N]; [|rewrite (proj2 (rlt_iff (- x) 0)) by lra; now rewrite Ropp_involutive].
    rewrite Ropp_0, (proj2 (rlt_no 0 0)) by lra. rewrite (int_unique 0 0) by lra. reflexivity.
Qed.
Lemma rtrunc_Z n : rtrunc (IZR n) = n.
Proof.
  unfold rtrunc. destruct (rlt (IZR n) 0) eqn:E; [rewrite <- opp_IZR, (int_unique _ (- n)) by lra; lia|now apply int_unique; lra].
Qed.

(** ** sums and lengths *)
Lemma rsum_cons a l : rsum (a :: l) = a + rsum l.
Proof.
  unfold rsum. cbn [fold_left]. assert (K : forall l b, fold_left Rplus l b = b + fold_left Rplus l 0).
  { clear. induction l as [|c l IH]; intros b; cbn [fold_left]; [ring|]. rewrite IH, (IH (0 + c)). ring. }
  rewrite K. ring.
Qed.
Lemma rsum_nil : rsum [] = 0.
Proof. reflexivity. Qed.
Lemma squares_nonneg v : 0 <= rsum (map (fun i => i * i) v).
Proof. induction v as [|a v IH]; [cbn [map]; rewrite rsum_nil; lra|]. cbn [map]. rewrite rsum_cons. nra. Qed.
Lemma vmag_nonneg v : 0 <= vmag v.
Proof. apply sqrt_pos. Qed.
Lemma vmag_sqr v : vmag v * vmag v = rsum (map (fun i => i * i) v).
Proof. apply sqrt_sqrt. apply squares_nonneg. Qed.
Lemma vmag_0 v : vmag v = 0 <-> Forall (eq 0) v.
Proof.
  split.
  - intros H. pose proof (vmag_sqr v) as S. rewrite H, Rmult_0_l in S. clear H. induction v as [|a v IH]; [constructor|]. cbn [map] in S. rewrite rsum_cons in S.
    pose proof (squares_nonneg v). constructor; [nra|apply IH; nra].
  - intros H. assert (S : rsum (map (fun i => i * i) v) = 0) by (induction H as [|a v A H IH]; [reflexivity|cbn [map]; rewrite rsum_cons, IH, <- A; ring]). unfold vmag. rewrite S. apply sqrt_0.
Qed.
Lemma vmag2 x y : vmag [x; y] = sqrt (x * x + y * y).
Proof. unfold vmag. cbn [map]. rewrite !rsum_cons, rsum_nil. f_equal. ring. Qed.
Lemma vmag3 x y z : vmag [x; y; z] = sqrt (x * x + y * y + z * z).
Proof. unfold vmag. cbn [map]. rewrite !rsum_cons, rsum_nil. f_equal. ring. Qed.
Lemma cauchy_step a b D U V : 0 <= U -> 0 <= V -> D * D <= U * V -> (a * b + D) * (a * b + D) <= (a * a + U) * (b * b + V).
Proof.
  intros HU HV H.
  assert (K : 2 * (a * b) * D <= a * a * V + b * b * U).
  { set (p := Rabs a * sqrt V). set (q := Rabs b * sqrt U). assert (P : p * p = a * a * V) by (unfold p; replace (Rabs a * sqrt V * (Rabs a * sqrt V)) with ((Rabs a * Rabs a) * (sqrt V * sqrt V)) by ring; rewrite sqrt_sqrt by lra; rewrite <- Rabs_mult, Rabs_pos_eq by nra; ring).
    assert (Q : q * q = b * b * U) by (unfold q; replace (Rabs b * sqrt U * (Rabs b * sqrt U)) with ((Rabs b * Rabs b) * (sqrt U * sqrt U)) by ring; rewrite sqrt_sqrt by lra; rewrite <- Rabs_mult, Rabs_pos_eq by nra; ring).
    assert (L : Rabs D <= sqrt U * sqrt V) by (rewrite <- sqrt_mult by lra; rewrite <- sqrt_Rsqr_abs; apply sqrt_le_1; unfold Rsqr; nra).
    assert (M : (a * b) * D <= p * q).
    { apply Rle_trans with (Rabs (a * b * D)); [apply Rle_abs|]. rewrite !Rabs_mult. unfold p, q. replace (Rabs a * sqrt V * (Rabs b * sqrt U)) with (Rabs a * Rabs b * (sqrt U * sqrt V)) by ring. apply Rmult_le_compat_l; [apply Rmult_le_pos; apply Rabs_pos|exact L]. }
    clearbody p q. pose proof (Rle_0_sqr (p - q)) as SQ. unfold Rsqr in SQ. lra. }
  nra.
Qed.
Lemma cauchy u v : dotprod u v * dotprod u v <= rsum (map (fun i => i * i) u) * rsum (map (fun i => i * i) v).
Proof.
  unfold dotprod, rmulvect. revert v. induction u as [|a u IH]; intros [|b v]; cbn [rzip map]; rewrite ?rsum_cons, ?rsum_nil.
  - lra.
  - lra.
  - lra.
  - apply cauchy_step; [apply squares_nonneg|apply squares_nonneg|apply IH].
Qed.
Lemma cauchy_abs u v : Rabs (dotprod u v) <= vmag u * vmag v.
Proof.
  unfold vmag. rewrite <- sqrt_mult by apply squares_nonneg. rewrite <- sqrt_Rsqr_abs. apply sqrt_le_1; [apply Rle_0_sqr|apply Rmult_le_pos; apply squares_nonneg|apply cauchy].
Qed.

(** ** angles *)
Lemma angle_unique a b : 0 <= a < 2 * PI -> 0 <= b < 2 * PI -> cos a = cos b -> sin a = sin b -> a = b.
Proof.
  intros A B C S. destruct (Rle_dec a PI) as [HA|HA], (Rle_dec b PI) as [HB|HB].
  - rewrite <- (acos_cos a), <- (acos_cos b) by lra. now rewrite C.
  - exfalso. pose proof (sin_ge_0 a). pose proof (sin_lt_0 b). lra.
  - exfalso. pose proof (sin_ge_0 b). pose proof (sin_lt_0 a). lra.
  - assert (2 * PI - a = 2 * PI - b); [|lra]. rewrite <- (acos_cos (2 * PI - a)), <- (acos_cos (2 * PI - b)) by lra. f_equal.
    rewrite !cos_minus, cos_2PI, sin_2PI. lra.
Qed.
(** the direction of the angle of a slope *)
Lemma atan_polar x y : x <> 0 -> let r := sqrt (x * x + y * y) in
  0 < r /\ r * r = x * x + y * y /\ r * cos (atan (y / x)) = Rabs x /\ r * sin (atan (y / x)) = y * (Rabs x / x).
Proof.
  intros N r. assert (P : 0 < x * x + y * y) by nra. assert (R0 : 0 < r) by (apply sqrt_lt_R0; exact P).
  assert (RR : r * r = x * x + y * y) by (apply sqrt_sqrt; lra). split; [exact R0|]. split; [exact RR|].
  set (q := y / x). assert (Q : q * x = y) by (unfold q; field; exact N).
  pose proof (atan_bound q) as B. assert (C : 0 < cos (atan q)) by (apply cos_gt_0; lra).
  assert (S : sin (atan q) = q * cos (atan q)) by (pose proof (tan_atan q) as T; unfold tan in T; rewrite <- T at 2; field; lra).
  pose proof (sin2_cos2 (atan q)) as SC. unfold Rsqr in SC. rewrite S in *. set (c := cos (atan q)) in *. clearbody c. clear S.
  assert (E : (r * c) * (r * c) = x * x).
  { assert (c * c * (1 + q * q) = 1) by nra. replace (r * c * (r * c)) with (r * r * (c * c)) by ring. rewrite RR, <- Q. replace ((x * x + q * x * (q * x)) * (c * c)) with (x * x * (c * c * (1 + q * q))) by ring. rewrite H. ring. }
  assert (E1 : r * c = Rabs x).
  { assert (0 < r * c) by nra. assert (A := Rabs_pos x). assert (AA : Rabs x * Rabs x = x * x) by (rewrite <- Rabs_mult, Rabs_pos_eq by nra; reflexivity). nra. }
  split; [exact E1|]. replace (r * (q * c)) with (q * (r * c)) by ring. rewrite E1, <- Q. field. exact N.
Qed.
Lemma hypot_pos x y : x <> 0 \/ y <> 0 -> 0 < sqrt (x * x + y * y).
Proof. intros H. apply sqrt_lt_R0. destruct H; nra. Qed.
