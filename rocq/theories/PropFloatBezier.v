(** Property C149: Bezier curves with the rounding of floats, and the base and range of brightness. *)
From Flocq Require Import Core.
From Coq Require Import ZArith QArith Reals List Lia Lra Bool Psatz.
From Verif Require Import PyBase PyFacts Bmp Geometry Solids Exact ExactProofs CurveProofs Coords RealProofs Floats FloatProofs PropFloats PropFloats3 FloatCurves PropFloatCurves PropFloatSweeps FloatBezier.
Import ListNotations.
Close Scope Q_scope.
Open Scope R_scope.

(** ** What is claimed *)
(** de Casteljau's construction *)
Fixpoint corner (p : nat -> R) (n : nat) (t : R) : R :=
  match n with O => p O | Datatypes.S m => (1 - t) * corner p m t + t * corner (fun i => p (Datatypes.S i)) m t end.
(** a power function: exact at 0 and 1, and right to 2^-52 of the value *)
Definition powers (pw : R -> nat -> R) : Prop :=
  (forall x, pw x 0%nat = 1) /\ (forall n, pw 0 (Datatypes.S n) = 0) /\ (forall n, pw 1 n = 1) /\
  forall x n, 0 <= x <= 1 -> / IZR (2 ^ 1000) <= x ^ n -> Rabs (pw x n - x ^ n) <= x ^ n / IZR (2 ^ 52).

(** ** Bernstein's form *)
Fixpoint rsum (f : nat -> R) (n : nat) : R := match n with O => 0 | Datatypes.S m => rsum f m + f m end.
Lemma rsum_ext f g n : (forall i, (i < n)%nat -> f i = g i) -> rsum f n = rsum g n.
Proof. induction n as [|n IH]; intros H; cbn [rsum]; [reflexivity|]. rewrite IH by (intros; apply H; lia). now rewrite (H n) by lia. Qed.
Lemma rsum_add f g n : rsum (fun i => f i + g i) n = rsum f n + rsum g n.
Proof. induction n as [|n IH]; cbn [rsum]; [ring|]. rewrite IH. ring. Qed.
Lemma rsum_mul c f n : rsum (fun i => c * f i) n = c * rsum f n.
Proof. induction n as [|n IH]; cbn [rsum]; [ring|]. rewrite IH. ring. Qed.
Lemma rsum_first f n : rsum f (Datatypes.S n) = f O + rsum (fun i => f (Datatypes.S i)) n.
Proof. induction n as [|n IH]; [cbn [rsum]; ring|]. change (rsum f (Datatypes.S (Datatypes.S n))) with (rsum f (Datatypes.S n) + f (Datatypes.S n)). rewrite IH. cbn [rsum]. ring. Qed.
Definition bl (n j : nat) (t : R) : R := IZR (comb n j) * t ^ j * (1 - t) ^ (n - j).
Lemma bern_R p n t : rsum (fun j => p j * bl n j t) (Datatypes.S n) = corner p n t.
Proof.
  revert p. induction n as [|n IH]; intros p.
  - cbn [rsum corner]. unfold bl. cbn. ring.
  - cbn [corner]. rewrite <- !IH. unfold bl.
    assert (A : rsum (fun j => p j * (IZR (comb (S n) j) * t ^ j * (1 - t) ^ (S n - j))) (S (S n)) =
      rsum (fun j => p j * (IZR (comb n j) * t ^ j * (1 - t) ^ (S n - j))) (S (S n)) +
      rsum (fun j => p (S j) * (IZR (comb n j) * t ^ (S j) * (1 - t) ^ (n - j))) (S n)).
    { rewrite (rsum_first _ (S n)). rewrite (rsum_first (fun j => p j * (IZR (comb n j) * t ^ j * (1 - t) ^ (S n - j))) (S n)).
      rewrite !comb_0, Rplus_assoc, <- rsum_add. f_equal. apply rsum_ext. intros i Hi. cbn [comb]. rewrite plus_IZR.
      replace (S n - S i)%nat with (n - i)%nat by lia. ring. }
    rewrite A. f_equal.
    + change (rsum ?f (S (S n))) with (rsum f (S n) + f (S n)). cbv beta. rewrite comb_over by lia.
      rewrite <- rsum_mul. transitivity (rsum (fun j => p j * (IZR (comb n j) * t ^ j * (1 - t) ^ (S n - j))) (S n)); [ring|].
      apply rsum_ext. intros i Hi. replace (S n - i)%nat with (S (n - i)) by lia. cbn [pow]. ring.
    + rewrite <- rsum_mul. apply rsum_ext. intros i Hi. cbn [pow]. ring.
Qed.
Lemma corner_between p n t lo hi : 0 <= t <= 1 -> (forall i, (i <= n)%nat -> lo <= p i <= hi) -> lo <= corner p n t <= hi.
Proof.
  revert p. induction n as [|n IH]; intros p Ht H; cbn [corner]; [apply H; lia|].
  assert (A : lo <= corner p n t <= hi) by (apply IH; auto; intros; apply H; lia).
  assert (B : lo <= corner (fun i => p (S i)) n t <= hi) by (apply IH; auto; intros; apply H; lia). nra.
Qed.
Lemma corner_0 p n : corner p n 0 = p O.
Proof. revert p. induction n as [|n IH]; intros p; cbn [corner]; [reflexivity|]. rewrite !IH. ring. Qed.
Lemma corner_1 n t : corner (fun _ => 1) n t = 1.
Proof. induction n as [|n IH]; cbn [corner]; [reflexivity|]. rewrite !IH. ring. Qed.
Lemma bl_sum n t : rsum (fun j => bl n j t) (S n) = 1.
Proof. rewrite <- (corner_1 n t), <- bern_R. apply rsum_ext. intros. ring. Qed.
Lemma comb_pos n : forall i, (i <= n)%nat -> (1 <= comb n i)%Z.
Proof.
  assert (N : forall n i, (0 <= comb n i)%Z) by (clear; induction n as [|n IH]; intros [|i]; cbn [comb]; try lia; pose proof (IH i); pose proof (IH (S i)); lia).
  induction n as [|n IH]; intros [|i] H; cbn [comb]; try lia. pose proof (IH i ltac:(lia)). pose proof (N n (S i)). lia.
Qed.
Lemma bl_lower n j t : (j <= n)%nat -> / 256 <= t <= 1 - / 256 -> (/ 256) ^ n <= t ^ j * (1 - t) ^ (n - j) <= bl n j t.
Proof.
  intros J T. unfold bl. assert (P : 0 <= t ^ j * (1 - t) ^ (n - j)) by (apply Rmult_le_pos; apply pow_le; lra). split.
  - replace n with (j + (n - j))%nat at 1 by lia. rewrite pow_add. apply Rmult_le_compat; try (apply pow_le; lra); apply pow_incr; lra.
  - rewrite Rmult_assoc. pose proof (IZR_le _ _ (comb_pos n j J)). rewrite <- (Rmult_1_l (t ^ j * _)) at 1. apply Rmult_le_compat_r; lra.
Qed.
Lemma tiny n : (n <= 62)%nat -> / IZR (2 ^ 900) <= (/ 256) ^ n.
Proof.
  intros N. rewrite pow_inv. apply Rinv_le_contravar; [apply pow_lt; lra|]. apply Rle_trans with (256 ^ 62); [apply Rle_pow; [lra|exact N]|]. rewrite pow_IZR. apply IZR_le. vm_compute. discriminate.
Qed.

(** ** Relative errors *)
Definition rel (e x' x : R) : Prop := Rabs (x' - x) <= e * Rabs x.
Lemma rel_le e e' x' x : e <= e' -> rel e x' x -> rel e' x' x.
Proof. unfold rel. intros L H. pose proof (Rabs_pos x). assert (e * Rabs x <= e' * Rabs x) by (apply Rmult_le_compat_r; lra). lra. Qed.
Lemma rel_mul a b x' x y' y : 0 <= a -> 0 <= b -> rel a x' x -> rel b y' y -> rel (a + b + a * b) (x' * y') (x * y).
Proof.
  unfold rel. intros A B X Y. replace (x' * y' - x * y) with ((x' - x) * y + x * (y' - y) + (x' - x) * (y' - y)) by ring. pose proof (Rabs_pos x) as PX. pose proof (Rabs_pos y) as PY.
  eapply Rle_trans; [apply Rabs_triang|]. eapply Rle_trans; [apply Rplus_le_compat_r, Rabs_triang|]. rewrite !Rabs_mult.
  assert (Rabs (x' - x) * Rabs y <= a * Rabs x * Rabs y) by (apply Rmult_le_compat_r; lra). assert (Rabs x * Rabs (y' - y) <= Rabs x * (b * Rabs y)) by (apply Rmult_le_compat_l; lra).
  assert (Rabs (x' - x) * Rabs (y' - y) <= a * Rabs x * (b * Rabs y)) by (apply Rmult_le_compat; try apply Rabs_pos; lra). lra.
Qed.
Lemma rel_trans a b x y z : 0 <= a -> 0 <= b -> rel a x y -> rel b y z -> rel (a + b + a * b) x z.
Proof.
  unfold rel. intros A B X Y. replace (x - z) with ((x - y) + (y - z)) by ring. eapply Rle_trans; [apply Rabs_triang|]. assert (YZ : Rabs y <= (1 + b) * Rabs z) by (replace y with (z + (y - z)) by ring; eapply Rle_trans; [apply Rabs_triang|]; replace (z + (y - z)) with y by ring; lra).
  assert (a * Rabs y <= a * ((1 + b) * Rabs z)) by (apply Rmult_le_compat_l; lra). lra.
Qed.
Lemma rel_fl a x' x : 0 <= a <= / 2 -> / IZR (2 ^ 900) <= Rabs x -> rel a x' x -> rel (u + a + u * a) (fl x') x.
Proof.
  intros A L H. apply rel_trans with x'; try lra; [pose proof u_pos; lra| |exact H]. unfold rel in *. apply fl_rel.
  assert (Rabs x - Rabs x' <= Rabs (x' - x)) by (rewrite Rabs_minus_sym; apply Rabs_triang_inv). assert (a * Rabs x <= / 2 * Rabs x) by (apply Rmult_le_compat_r; [apply Rabs_pos|lra]).
  apply Rle_trans with (/ 2 * / IZR (2 ^ 900)); [|lra]. rewrite <- Rinv_mult. apply Rinv_le_contravar; [rewrite <- mult_IZR; apply IZR_lt; lia|]. rewrite <- mult_IZR. apply IZR_le. lia.
Qed.
Lemma rel_pow a x' x n : 0 <= a -> INR n * a <= / 2 -> rel a x' x -> rel (2 * INR n * a) (x' ^ n) (x ^ n).
Proof.
  intros A N H. induction n as [|n IH]; [unfold rel; cbn; replace (1 - 1) with 0 by ring; rewrite Rabs_R0; lra|]. rewrite S_INR in N |- *. assert (P : 0 <= INR n) by apply pos_INR. assert (NA : 0 <= INR n * a) by (apply Rmult_le_pos; lra).
  cbn [pow]. eapply rel_le; [|apply (rel_mul a (2 * INR n * a)); [exact A|lra|exact H|apply IH; lra]]. assert (a * (2 * INR n * a) <= a * 1) by (apply Rmult_le_compat_l; lra). lra.
Qed.
Lemma rel_low a x' x : 0 <= a <= / 2 -> / IZR (2 ^ 900) <= x -> rel a x' x -> / IZR (2 ^ 1000) <= x'.
Proof.
  unfold rel. intros A L H. assert (P : 0 < / IZR (2 ^ 900)) by (apply Rinv_0_lt_compat, IZR_lt; lia). rewrite (Rabs_pos_eq x) in H by lra. apply Rabs_le_inv in H. assert (a * x <= / 2 * x) by (apply Rmult_le_compat_r; lra).
  apply Rle_trans with (/ 2 * / IZR (2 ^ 900)); [|lra]. rewrite <- Rinv_mult. apply Rinv_le_contravar; [rewrite <- mult_IZR; apply IZR_lt; lia|]. rewrite <- mult_IZR. apply IZR_le. lia.
Qed.
Lemma power_near pw a x' x n : powers pw -> 0 <= a -> INR n * a <= / 10000 -> rel a x' x -> 0 <= x' <= 1 -> / IZR (2 ^ 900) <= x ^ n -> rel (2 * u + 2 * INR n * a + u * / 1000) (pw x' n) (x ^ n).
Proof.
  intros (_ & _ & _ & P) A N H X L. pose proof u_pos as U. pose proof (rel_pow a x' x n A ltac:(lra) H) as R. assert (NA : 0 <= INR n * a) by (apply Rmult_le_pos; [apply pos_INR|lra]). assert (A2 : 0 <= 2 * INR n * a <= / 2) by lra. pose proof (rel_low _ _ _ A2 L R) as L'.
  eapply rel_le; [|apply (rel_trans (2 * u) (2 * INR n * a) _ (x' ^ n)); [lra|lra| |exact R]].
  - assert (u * (2 * (2 * INR n * a)) <= u * / 1000) by (apply Rmult_le_compat_l; lra). lra.
  - unfold rel. rewrite (Rabs_pos_eq (x' ^ n)) by (apply pow_le; lra). eapply Rle_trans; [apply (P x' n X L')|]. replace (2 * u) with (/ IZR (2 ^ 52)) by (unfold u; lra). right. unfold Rdiv. ring.
Qed.
Lemma pow_le1 x n : 0 < x <= 1 -> 0 < x ^ n <= 1.
Proof. intros X. split; [apply pow_lt; lra|]. rewrite <- (pow1 n). apply pow_incr. lra. Qed.
Lemma blend_near pw n j t : powers pw -> (j <= n)%nat -> (n <= 62)%nat -> / 256 <= t <= 1 - / 256 -> rel (/ 100000000000) (fbezierblend pw j n (fl t)) (bl n j t).
Proof.
  intros P J N T. destruct consts as (U & E & M52). assert (LT : / IZR (2 ^ 1000) <= / 256) by (apply Rinv_le_contravar; [lra|apply IZR_le; vm_compute; discriminate]). pose proof (bl_lower n j t J T) as BL. pose proof (tiny n N) as TN. assert (TP : 0 < / IZR (2 ^ 900)) by (apply Rinv_0_lt_compat, IZR_lt; lia).
  assert (R1 : rel u (fl t) t) by (apply fl_rel; rewrite Rabs_pos_eq; lra). assert (D1 : Rabs (fl t - t) <= u) by (eapply Rle_trans; [exact R1|]; rewrite (Rabs_pos_eq t) by lra; rewrite <- (Rmult_1_r u) at 2; apply Rmult_le_compat_l; lra). pose proof (Rabs_le_inv _ _ D1) as D1'. set (t' := fl t) in *.
  assert (D2 : Rabs (fl (1 - t') - (1 - t')) <= u) by (eapply Rle_trans; [apply fl_rel; rewrite Rabs_pos_eq; lra|]; rewrite Rabs_pos_eq by lra; rewrite <- (Rmult_1_r u) at 2; apply Rmult_le_compat_l; lra). apply Rabs_le_inv in D2. unfold fbezierblend. set (s' := fl (1 - t')) in *.
  assert (R2 : rel (512 * u) s' (1 - t)). { unfold rel. rewrite (Rabs_pos_eq (1 - t)) by lra. apply Rabs_le. assert (512 * u * / 256 <= 512 * u * (1 - t)) by (apply Rmult_le_compat_l; lra). lra. }
  assert (PT : 0 < t ^ j <= 1) by (apply pow_le1; lra). assert (PS : 0 < (1 - t) ^ (n - j) <= 1) by (apply pow_le1; lra).
  assert (LJ : INR j <= 62) by (replace 62 with (INR 62) by (cbn; lra); apply le_INR; lia). assert (LN : INR (n - j) <= 62) by (replace 62 with (INR 62) by (cbn; lra); apply le_INR; lia).
  assert (Q1 : t ^ j * (1 - t) ^ (n - j) <= t ^ j) by (rewrite <- (Rmult_1_r (t ^ j)) at 2; apply Rmult_le_compat_l; lra). assert (Q2 : t ^ j * (1 - t) ^ (n - j) <= (1 - t) ^ (n - j)) by (rewrite <- (Rmult_1_l ((1 - t) ^ (n - j))) at 2; apply Rmult_le_compat_r; lra).
  assert (J1 : INR j * u <= 62 * u) by (apply Rmult_le_compat_r; lra). assert (J2 : INR (n - j) * (512 * u) <= 62 * (512 * u)) by (apply Rmult_le_compat_r; lra).
  assert (W1 := power_near pw u t' t j P ltac:(lra) ltac:(lra) R1 ltac:(lra) ltac:(lra)). assert (S1 : 0 <= s' <= 1) by (split; [lra|apply Rle_trans with (fl 1); [apply fl_le; lra|rewrite fl_1; lra]]).
  assert (W2 := power_near pw (512 * u) s' (1 - t) (n - j) P ltac:(lra) ltac:(lra) R2 S1 ltac:(lra)).
  apply (rel_le _ (130 * u)) in W1; [|lra]. apply (rel_le _ (63500 * u)) in W2; [|lra]. pose proof (IZR_le _ _ (comb_pos n j J)) as CP. assert (LC : / IZR (2 ^ 1000) <= Rabs (IZR (comb n j))) by (rewrite Rabs_pos_eq; lra). pose proof (fl_rel _ LC) as RC. fold (rel u (fl (IZR (comb n j))) (IZR (comb n j))) in RC.
  assert (UU : 0 <= u * u <= u * / 1000000000) by (split; [apply Rmult_le_pos; lra|apply Rmult_le_compat_l; lra]).
  assert (R3 : rel (132 * u) (fl (IZR (comb n j)) * pw t' j) (IZR (comb n j) * t ^ j)) by (eapply rel_le; [|apply (rel_mul u (130 * u)); [lra|lra|exact RC|exact W1]]; lra).
  assert (Q3 : bl n j t <= IZR (comb n j) * t ^ j) by (unfold bl; rewrite <- (Rmult_1_r (IZR (comb n j) * t ^ j)) at 2; apply Rmult_le_compat_l; [apply Rmult_le_pos|]; lra).
  assert (R4 : rel (134 * u) (fl (fl (IZR (comb n j)) * pw t' j)) (IZR (comb n j) * t ^ j)) by (eapply rel_le; [|apply (rel_fl (132 * u)); [lra|rewrite Rabs_pos_eq; lra|exact R3]]; lra).
  assert (R5 : rel (63650 * u) (fl (fl (IZR (comb n j)) * pw t' j) * pw s' (n - j)%nat) (bl n j t)) by (eapply rel_le; [|apply (rel_mul (134 * u) (63500 * u)); [lra|lra|exact R4|exact W2]]; lra).
  eapply rel_le; [|apply (rel_fl (63650 * u)); [lra|rewrite Rabs_pos_eq; lra|exact R5]]. lra.
Qed.

(** ** The sums *)
Fixpoint acc (f : nat -> R) (n : nat) : R := match n with O => 0 | S m => fl (acc f m + f m) end.
Lemma acc_fold (f : nat -> R * R) n : fold_left (fun v j => fplus2 v (f j)) (seq 0 n) (0, 0) = (acc (fun j => fst (f j)) n, acc (fun j => snd (f j)) n).
Proof. induction n as [|n IH]; [reflexivity|]. rewrite seq_S, fold_left_app, IH. reflexivity. Qed.
Lemma rsum_nonneg f n : (forall i, (i < n)%nat -> 0 <= f i) -> 0 <= rsum f n.
Proof. induction n as [|n IH]; intros H; cbn [rsum]; [lra|]. pose proof (IH ltac:(intros; apply H; lia)). pose proof (H n ltac:(lia)). lra. Qed.
Lemma acc_near (x : nat -> R) (b b' : nat -> R) N : (N <= 63)%nat -> (forall j, (j < N)%nat -> Rabs (x j) <= 65536 /\ 0 <= b j /\ rel (/ 100000000000) (b' j) (b j)) -> rsum b N <= 1 ->
  Rabs (acc (fun j => fl (x j * b' j)) N - rsum (fun j => x j * b j) N) <= / 10 ^ 6.
Proof.
  intros N63 H S1. destruct consts as (U & E & _).
  assert (G : forall m, (m <= N)%nat -> 0 <= rsum b m <= 1 /\ Rabs (rsum (fun j => x j * b j) m) <= 65536 * rsum b m /\ Rabs (acc (fun j => fl (x j * b' j)) m - rsum (fun j => x j * b j) m) <= 65536 * (101 / 10000000000000) * rsum b m + INR m * / 10000000000).
  { assert (LE : forall m, (m <= N)%nat -> 0 <= rsum b m <= 1). { intros m M. split; [apply rsum_nonneg; intros; apply H; lia|]. assert (D : forall k, (m + k <= N)%nat -> rsum b m <= rsum b (m + k)) by (induction k as [|k IH]; intros K; [rewrite Nat.add_0_r; lra|rewrite Nat.add_succ_r; cbn [rsum]; destruct (H (m + k)%nat ltac:(lia)) as (_ & B & _); pose proof (IH ltac:(lia)); lra]). pose proof (D (N - m)%nat ltac:(lia)) as D1. replace (m + (N - m))%nat with N in D1 by lia. lra. }
    induction m as [|m IH]; intros M; (split; [now apply LE|]); [cbn [rsum acc INR]; replace (0 - 0) with 0 by ring; rewrite Rabs_R0; lra|]. destruct (IH ltac:(lia)) as (B1 & B2 & B3). pose proof (LE (S m) M) as B4. destruct (H m ltac:(lia)) as (X & B & R). unfold rel in R. rewrite (Rabs_pos_eq (b m)) in R by lra. cbn [rsum] in *. cbn [acc].
    assert (XB : Rabs (x m * b m) <= 65536 * b m) by (rewrite Rabs_mult, (Rabs_pos_eq (b m)) by lra; apply Rmult_le_compat_r; lra). split; [eapply Rle_trans; [apply Rabs_triang|]; lra|].
    assert (XB' : Rabs (x m * b' m - x m * b m) <= 65536 * (/ 100000000000 * b m)) by (rewrite <- Rmult_minus_distr_l, Rabs_mult; apply Rmult_le_compat; try apply Rabs_pos; lra).
    assert (XT : Rabs (x m * b' m) <= 70000 * b m) by (replace (x m * b' m) with (x m * b m + (x m * b' m - x m * b m)) by ring; eapply Rle_trans; [apply Rabs_triang|]; lra).
    pose proof (fl_near _ _ XT) as F1. assert (UB : u * (70000 * b m) <= / 9000000000000000 * (70000 * b m)) by (apply Rmult_le_compat_r; lra). set (T := fl (x m * b' m)) in *. set (V := acc _ m) in *. set (Z := rsum (fun j => x j * b j) m) in *.
    assert (MR : 0 <= INR m <= 63) by (split; [apply pos_INR|replace 63 with (INR 63) by (cbn; lra); apply le_INR; lia]). apply Rabs_le_inv in B2, B3, F1, XB, XB', XT. assert (VT : Rabs (V + T) <= 140000) by (apply Rabs_le; lra). pose proof (fl_near _ _ VT) as F2. assert (UV : u * 140000 <= / 9000000000000000 * 140000) by lra. apply Rabs_le_inv in F2. rewrite S_INR. apply Rabs_le. lra. }
  destruct (G N ltac:(lia)) as (B1 & _ & B3). assert (INR N <= 63) by (replace 63 with (INR 63) by (cbn; lra); apply le_INR; lia). cbn [pow]. lra.
Qed.
Lemma fold_same {A B} (f g : A -> B -> A) l a : (forall a b, In b l -> f a b = g a b) -> fold_left f l a = fold_left g l a.
Proof. revert a. induction l as [|b l IH]; intros a H; [reflexivity|]. cbn [fold_left]. rewrite H by (now left). apply IH. intros. apply H. now right. Qed.
Lemma acc_first f x n : fl x = x -> f O = x -> (forall j, f (S j) = 0) -> acc f (S n) = x.
Proof. intros X F Z. induction n as [|n IH]; [cbn [acc]; now rewrite F, Rplus_0_l|]. change (acc f (S (S n))) with (fl (acc f (S n) + f (S n))). now rewrite IH, Z, Rplus_0_r. Qed.
Lemma blend_start pw n : powers pw -> fbezierblend pw 0 n 0 = 1 /\ forall j, fbezierblend pw (S j) n 0 = 0.
Proof.
  intros (P0 & P1 & P2 & _). unfold fbezierblend. rewrite Rminus_0_r, fl_1, P0, comb_0, fl_1. split; [rewrite Rmult_1_l, fl_1, P2, Rmult_1_l; apply fl_1|]. intros j. now rewrite P1, Rmult_0_r, fl_0, Rmult_0_l, fl_0.
Qed.
Definition crd (c : Z * Z -> Z) (pnts : list (Z * Z)) (j : nat) : R := IZR (c (nth j pnts (0, 0)%Z)).
Lemma point_acc pw pnts n t : fbezierpoint pw pnts (S n) t = (acc (fun j => fl (crd fst pnts j * fbezierblend pw j n t)) (S n), acc (fun j => fl (crd snd pnts j * fbezierblend pw j n t)) (S n)).
Proof. unfold fbezierpoint. rewrite (acc_fold (fun j => fscale2 (nth j pnts (0, 0)%Z) (fbezierblend pw j (S n - 1) t)) (S n)). replace (S n - 1)%nat with n by lia. reflexivity. Qed.
Lemma fbezier_run pw pnts n : length pnts = S (S n) ->
  let K := (4 * S (S n))%nat in let V k := fbezierpoint pw pnts (S n) (fl (IZR (Z.of_nat k) / IZR (Z.of_nat K))) in
  fiterbeziercurve pw pnts = Ok (iterline (froundvect (V O)) (nth 0 pnts (0, 0)%Z) ++ flat_map (fun k => iterline (froundvect (V (S k))) (froundvect (V k))) (seq 0 (K - 1))).
Proof.
  intros L K V. assert (HE : exists p t, pnts = p :: t) by (clear - L; destruct pnts; [discriminate|eauto]). destruct HE as (p & t & Ep). unfold fiterbeziercurve. rewrite Ep at 1. f_equal.
  rewrite L. rewrite (seq_S (S n)), fold_left_app. rewrite (fold_skip _ (seq 0 (S n))).
  2:{ intros i s Hi. apply in_seq in Hi. replace (S (S n) <=? i + 1)%nat with false; [reflexivity|]. symmetry. apply Nat.leb_gt. lia. }
  cbn [fold_left]. rewrite Nat.add_0_l. replace (S (S n) <=? S n + 1)%nat with true by (symmetry; apply Nat.leb_le; lia). fold K.
  match goal with |- context [fold_left ?f (seq 0 K) ?s0] =>
    change (fold_left f (seq 0 K) s0) with (fold_left (fun (s : (R * R) * list (Z * Z)) k => (V k, snd s ++ iterline (froundvect (V k)) (froundvect (fst s)))) (seq 0 K) s0) end.
  rewrite (gjoin _ froundvect (fun _ => V) K ltac:(unfold K; lia) V K 0). cbn [snd app]. assert (KK : K = S (K - 1)) by (unfold K; lia). rewrite KK at 1. cbn [seq flat_map]. rewrite Nat.eqb_refl. f_equal.
  - f_equal. unfold froundvect. cbn [fst snd]. rewrite !rround_Z, Ep. now destruct p.
  - rewrite <- seq_shift. rewrite !flat_map_concat_map, map_map. f_equal. apply map_ext. intros k. cbn [Nat.eqb]. now replace (S k - 1)%nat with k by lia.
Qed.
Lemma point_start pw pnts n : powers pw -> (forall p, In p pnts -> Z.abs (fst p) <= 65536 /\ Z.abs (snd p) <= 65536)%Z -> (0 < length pnts)%nat -> fbezierpoint pw pnts (S n) 0 = (crd fst pnts 0, crd snd pnts 0).
Proof.
  intros P B L. rewrite point_acc. destruct (blend_start pw n P) as (E0 & E1). destruct (B (nth 0 pnts (0, 0)%Z) (nth_In _ _ L)) as (B1 & B2).
  f_equal; (apply acc_first; [unfold crd; apply fl_Z; lia|rewrite E0, Rmult_1_r; unfold crd; apply fl_Z; lia|intros j; rewrite E1, Rmult_0_r; apply fl_0]).
Qed.
Lemma point_near pw pnts n k : powers pw -> length pnts = S (S n) -> (n <= 62)%nat -> (forall p, In p pnts -> Z.abs (fst p) <= 65536 /\ Z.abs (snd p) <= 65536)%Z -> (k < 4 * S (S n))%nat ->
  let t := IZR (Z.of_nat k) / IZR (Z.of_nat (4 * S (S n))) in let v := fbezierpoint pw pnts (S n) (fl t) in
  0 <= t <= 1 /\ Rabs (fst v - corner (crd fst pnts) n t) <= / 10 ^ 6 /\ Rabs (snd v - corner (crd snd pnts) n t) <= / 10 ^ 6.
Proof.
  intros P L N B HK t v. set (K := (4 * S (S n))%nat) in *. assert (KP : 0 < IZR (Z.of_nat K) <= 256) by (split; [apply IZR_lt; unfold K; lia|apply IZR_le; unfold K; lia]).
  destruct k as [|k].
  - assert (T0 : t = 0) by (unfold t, Rdiv; cbn [Z.of_nat]; ring). unfold v. rewrite T0, fl_0, (point_start pw pnts n P B) by lia. cbn [fst snd]. rewrite !corner_0. unfold Rminus. rewrite !Rplus_opp_r, Rabs_R0. cbn [pow]. lra.
  - assert (T : / 256 <= t <= 1 - / 256). { assert (K1 : 1 <= IZR (Z.of_nat (S k)) <= IZR (Z.of_nat K) - 1) by (split; [apply IZR_le; lia|rewrite <- minus_IZR; apply IZR_le; lia]). unfold t. assert (I : / 256 <= / IZR (Z.of_nat K)) by (apply Rinv_le_contravar; lra). unfold Rdiv. split.
      - eapply Rle_trans; [exact I|]. rewrite <- (Rmult_1_l (/ IZR (Z.of_nat K))) at 1. apply Rmult_le_compat_r; lra.
      - apply Rle_trans with ((IZR (Z.of_nat K) - 1) * / IZR (Z.of_nat K)); [apply Rmult_le_compat_r; lra|]. rewrite Rmult_minus_distr_r, Rinv_r by lra. lra. }
    split; [lra|]. unfold v. rewrite point_acc. cbn [fst snd]. rewrite <- !bern_R. destruct (tiny n N). 
    1,2: (assert (G : forall j, (j < S n)%nat -> 0 <= bl n j t /\ rel (/ 100000000000) (fbezierblend pw j n (fl t)) (bl n j t)) by (intros j J; split; [pose proof (bl_lower n j t ltac:(lia) T); pose proof (pow_le (/ 256) n ltac:(lra)); lra|apply blend_near; (assumption || lia)]);
      split; apply acc_near; try lia; try (rewrite bl_sum; lra); intros j J; (split; [unfold crd; rewrite <- abs_IZR; apply IZR_le, (B (nth j pnts (0, 0)%Z)), nth_In; lia|now apply G])).
Qed.
Lemma inside_round w v (lo hi : Z) : Rabs (w - v) <= / 10 ^ 6 -> IZR lo <= v <= IZR hi -> (lo <= rround w <= hi)%Z.
Proof.
  intros W V. pose proof (rround_near w) as N. apply Rabs_le_inv in N. apply Rabs_le_inv in W. cbn [pow] in W.
  split; apply Z.lt_succ_r; apply lt_IZR; rewrite succ_IZR; lra.
Qed.

(** ** The theorems *)
(** For n + 2 points the curve joins 4 (n + 2) points by segments, each from one point to the one before, starting in the
    first control point; they are the rounded points of the Bezier curve of the first n + 1 control points, and in every
    rectangle around the control points. *)
Theorem C149_bezier : forall pw pnts n, powers pw -> length pnts = S (S n) -> (n <= 62)%nat -> (forall p, In p pnts -> Z.abs (fst p) <= 65536 /\ Z.abs (snd p) <= 65536)%Z ->
  let K := (4 * S (S n))%nat in
  exists P : nat -> Z * Z,
    fiterbeziercurve pw pnts = Ok (iterline (P O) (P O) ++ flat_map (fun k => iterline (P (S k)) (P k)) (seq 0 (K - 1))) /\
    P O = nth 0 pnts (0, 0)%Z /\
    (forall k, (k < K)%nat -> let t := IZR (Z.of_nat k) / IZR (Z.of_nat K) in
       nearpoint (P k) (corner (fun i => IZR (fst (nth i pnts (0, 0)%Z))) n t, corner (fun i => IZR (snd (nth i pnts (0, 0)%Z))) n t)) /\
    (forall x0 y0 x1 y1 k, (forall p, In p pnts -> x0 <= fst p <= x1 /\ y0 <= snd p <= y1)%Z -> (k < K)%nat ->
       (x0 <= fst (P k) <= x1 /\ y0 <= snd (P k) <= y1)%Z).
Proof.
  intros pw pnts n HP L N B K. set (V := fun k => fbezierpoint pw pnts (S n) (fl (IZR (Z.of_nat k) / IZR (Z.of_nat K)))).
  assert (V0 : froundvect (V O) = nth 0 pnts (0, 0)%Z). { unfold V. replace (IZR (Z.of_nat 0) / IZR (Z.of_nat K)) with 0 by (cbn [Z.of_nat]; unfold Rdiv; ring). rewrite fl_0, (point_start pw pnts n HP B) by lia. unfold froundvect, crd. cbn [fst snd]. rewrite !rround_Z. now destruct (nth 0 pnts (0, 0)%Z). }
  exists (fun k => froundvect (V k)). split; [rewrite (fbezier_run pw pnts n L); fold K; fold V; rewrite <- V0 at 1; reflexivity|]. split; [exact V0|].
  assert (G := fun k HK => point_near pw pnts n k HP L N B HK). fold K in G. split.
  - intros k HK t. destruct (G k HK) as (_ & G1 & G2). pose proof (rround_near (fst (V k))) as R1. pose proof (rround_near (snd (V k))) as R2. unfold nearpoint, froundvect. cbn [fst snd]. cbn [pow] in G1, G2. fold t in G1, G2. change (fl t) with (fl (IZR (Z.of_nat k) / IZR (Z.of_nat K))) in G1, G2. fold (V k) in G1, G2. unfold crd in G1, G2.
    apply Rabs_le_inv in G1, G2, R1, R2. split; apply Rabs_le; lra.
  - intros x0 y0 x1 y1 k HB HK. destruct (G k HK) as (T & G1 & G2). unfold froundvect. cbn [fst snd]. split; (eapply inside_round; [eassumption|]; apply corner_between; [exact T|]; intros i I; unfold crd; split; apply IZR_le, (HB (nth i pnts (0, 0)%Z)), nth_In; lia).
Qed.
(** so the curve stays in any rectangle around the control points, but for one row above and below *)
Theorem C149_bezier_box : forall pw pnts l x0 y0 x1 y1, powers pw -> (2 <= length pnts <= 64)%nat -> (forall p, In p pnts -> Z.abs (fst p) <= 65536 /\ Z.abs (snd p) <= 65536)%Z ->
  fiterbeziercurve pw pnts = Ok l -> (forall p, In p pnts -> x0 <= fst p <= x1 /\ y0 <= snd p <= y1)%Z ->
  forall p, In p l -> (x0 <= fst p <= x1 /\ y0 - 1 <= snd p <= y1 + 1)%Z.
Proof.
  intros pw pnts l x0 y0 x1 y1 HP L A E B p Hp. destruct (length pnts) as [|[|n]] eqn:Ln; [lia|lia|].
  destruct (C149_bezier pw pnts n HP Ln ltac:(lia) A) as (P & R & _ & _ & G). rewrite E in R. match type of R with Ok ?a = Ok ?b => assert (R' : a = b) by congruence end. rewrite R' in Hp. clear R'. clear R.
  assert (Q : exists i j, (i < 4 * S (S n))%nat /\ (j < 4 * S (S n))%nat /\ In p (iterline (P i) (P j))).
  { apply in_app_or in Hp. destruct Hp as [Hp|Hp]; [exists O, O; repeat split; auto; lia|]. apply in_flat_map in Hp. destruct Hp as (k & Hk & Hp). apply in_seq in Hk. exists (S k), k. repeat split; auto; lia. }
  destruct Q as (i & j & Hi & Hj & Hin). pose proof (G x0 y0 x1 y1 i B Hi) as G1. pose proof (G x0 y0 x1 y1 j B Hj) as G2.
  destruct (P i) as [a b], (P j) as [c d], p as [x y]. apply iterline_near in Hin. cbn [fst snd] in *. lia.
Qed.
(** the last control point has no effect, a single point is joined to the origin, and no points raise *)
Theorem C149_bezier_other : forall pw, fiterbeziercurve pw [] = Err IndexError /\
  (forall p, fiterbeziercurve pw [p] = Ok (iterline (0, 0)%Z p ++ iterline (0, 0)%Z (0, 0)%Z ++ iterline (0, 0)%Z (0, 0)%Z ++ iterline (0, 0)%Z (0, 0)%Z)) /\
  (forall pnts q q', pnts <> [] -> fiterbeziercurve pw (pnts ++ [q]) = fiterbeziercurve pw (pnts ++ [q'])).
Proof.
  intros pw. split; [reflexivity|]. split.
  - intros [x y]. unfold fiterbeziercurve. cbn [length seq Nat.mul Nat.add Nat.leb fold_left]. unfold fbezierpoint. cbn [seq fold_left fst snd]. unfold froundvect. cbn [fst snd app]. rewrite !rround_Z. now rewrite <- !app_assoc.
  - intros pnts q q' H. destruct pnts as [|p t]; [easy|]. set (n := length t). assert (L : forall z, length ((p :: t) ++ [z]) = S (S n)) by (intros z; rewrite app_length; cbn [length]; unfold n; lia).
    rewrite (fbezier_run pw _ n (L q)), (fbezier_run pw _ n (L q')). cbv zeta. assert (E : forall x, fbezierpoint pw ((p :: t) ++ [q]) (S n) x = fbezierpoint pw ((p :: t) ++ [q']) (S n) x).
    { intros x. unfold fbezierpoint. apply fold_same. intros v j J. apply in_seq in J. rewrite !(app_nth1 (p :: t)) by (cbn [length]; unfold n in J; lia). reflexivity. }
    rewrite E. f_equal. f_equal. apply flat_map_ext. intros k. now rewrite !E.
Qed.

(** ** The base and range of brightness *)
(** for a factor f: the base is f times the least brightness, rounded; base and range add up to f times the greatest *)
Definition shade (lmin lmax : Z) (f : R) (base : Z) (range : R) : Prop :=
  (0 <= base <= lmin)%Z /\ Rabs (IZR base - f * IZR lmin) <= 1 / 2 + / 10 ^ 12 /\ Rabs (IZR base + range - f * IZR lmax) <= / 10 ^ 12.
Lemma shade_ok lmin lmax f : (0 <= lmin <= 255)%Z -> (0 <= lmax <= 255)%Z -> 0 <= f <= 1 -> shade lmin lmax f (fst (fbaseandrange lmin lmax f)) (snd (fbaseandrange lmin lmax f)).
Proof.
  intros L H F. unfold fbaseandrange, shade. cbn [fst snd]. destruct consts as (U & E & _). assert (LR : 0 <= IZR lmin <= 255) by (split; apply IZR_le; lia). assert (HR : 0 <= IZR lmax <= 255) by (split; apply IZR_le; lia).
  assert (FL : 0 <= f * IZR lmin <= IZR lmin) by (split; [apply Rmult_le_pos; lra|rewrite <- (Rmult_1_l (IZR lmin)) at 2; apply Rmult_le_compat_r; lra]). assert (FH : 0 <= f * IZR lmax <= IZR lmax) by (split; [apply Rmult_le_pos; lra|rewrite <- (Rmult_1_l (IZR lmax)) at 2; apply Rmult_le_compat_r; lra]).
  assert (B : (0 <= rround (fl (f * IZR lmin)) <= lmin)%Z). { split; [rewrite <- (rround_Z 0); apply rround_mono, fl_nonneg; lra|rewrite <- (rround_Z lmin) at 2; apply rround_mono; apply Rle_trans with (fl (IZR lmin)); [apply fl_le; lra|rewrite fl_Z by lia; lra]]. }
  pose proof (fl_near (f * IZR lmin) 255 ltac:(rewrite Rabs_pos_eq; lra)) as N1. pose proof (fl_near (f * IZR lmax) 255 ltac:(rewrite Rabs_pos_eq; lra)) as N2. set (b := rround (fl (f * IZR lmin))) in *. pose proof (rround_near (fl (f * IZR lmin))) as N3. fold b in N3.
  assert (BR : 0 <= IZR b <= 255) by (split; apply IZR_le; lia). apply Rabs_le_inv in N1, N2, N3. assert (D : Rabs (fl (f * IZR lmax) - IZR b) <= 256) by (apply Rabs_le; lra). pose proof (fl_near _ _ D) as N4. apply Rabs_le_inv in N4. cbn [pow].
  split; [exact B|]. split; apply Rabs_le; lra.
Qed.
Theorem C149_brightness : forall lmin lmax r g b, (0 <= lmin <= 255)%Z -> (0 <= lmax <= 255)%Z -> 0 <= r <= 1 -> 0 <= g <= 1 -> 0 <= b <= 1 ->
  let '((br, bg, bb), (rr, rg, rb)) := fRGBfactorstoBaseandRange (lmin, lmax) (r, g, b) in
  shade lmin lmax r br rr /\ shade lmin lmax g bg rg /\ shade lmin lmax b bb rb.
Proof. intros lmin lmax r g b L H R G B. cbn [fRGBfactorstoBaseandRange fst snd]. repeat split; now apply shade_ok. Qed.
(** at the ends of the factors *)
Theorem C149_brightness_ends : forall lmin lmax, (0 <= lmin <= 255)%Z -> (0 <= lmax <= 255)%Z ->
  fRGBfactorstoBaseandRange (lmin, lmax) (0, 1, 1) = ((0, lmin, lmin)%Z, (0, IZR (lmax - lmin), IZR (lmax - lmin))).
Proof.
  intros lmin lmax L H. unfold fRGBfactorstoBaseandRange, fbaseandrange. cbn [fst snd]. rewrite !Rmult_0_l, !Rmult_1_l, fl_0, !fl_Z, (rround_Z 0), rround_Z by lia. replace (0 - 0) with 0 by ring. rewrite fl_0, <- minus_IZR, fl_Z by lia. reflexivity.
Qed.
(** the range can be negative though the greatest brightness is not below the least *)
Theorem C149_brightness_refuted : exists lmin lmax f, (0 <= lmin <= lmax)%Z /\ (lmax <= 255)%Z /\ 0 <= f <= 1 /\ snd (fbaseandrange lmin lmax f) < 0.
Proof.
  exists 1%Z, 1%Z, (3 / 4). split; [lia|]. split; [lia|]. split; [lra|]. unfold fbaseandrange. cbn [snd]. rewrite Rmult_1_r. assert (E : fl (3 / 4) = 3 / 4) by (replace (3 / 4) with (IZR 3 * bpow radix2 (-2)) by (cbn; lra); apply fl_exact; lia). rewrite E.
  rewrite (rround_unique (3 / 4) 1) by (apply Rabs_def1; lra). assert (E2 : fl (3 / 4 - 1) = - / 4) by (replace (3 / 4 - 1) with (IZR (-1) * bpow radix2 (-2)) by (cbn; lra); rewrite fl_exact by lia; cbn; lra). rewrite E2. lra.
Qed.

(** ** Cases that meet the hypotheses *)
(** the nearest doubles to the powers *)
Example C149_powers_ex : powers (fun x n => fl (x ^ n)).
Proof.
  split; [intros x; apply fl_1|]. split; [intros n; cbn [pow]; rewrite Rmult_0_l; apply fl_0|]. split; [intros n; rewrite pow1; apply fl_1|].
  intros x n X L. assert (P : 0 <= x ^ n) by (apply pow_le; lra). eapply Rle_trans; [apply fl_rel; rewrite Rabs_pos_eq; assumption|]. rewrite Rabs_pos_eq by exact P. unfold Rdiv. rewrite Rmult_comm. apply Rmult_le_compat_l; [exact P|]. unfold u. lra.
Qed.
Example C149_ex : let pnts := [(0, 0); (4, 8); (8, 0); (9, 9)]%Z in length pnts = S (S 2) /\ (2 <= 62)%nat /\ (forall p, In p pnts -> Z.abs (fst p) <= 65536 /\ Z.abs (snd p) <= 65536)%Z /\
  corner (fun i => IZR (snd (nth i pnts (0, 0)%Z))) 2 (8 / 16) = 4.
Proof. cbv zeta. split; [reflexivity|]. split; [lia|]. split; [intros p [<- | [<- | [<- | [<- | []]]]]; cbn; lia|]. cbn [corner nth snd]. lra. Qed.

Print Assumptions C149_bezier.
Print Assumptions C149_bezier_box.
Print Assumptions C149_bezier_other.
Print Assumptions C149_brightness.
Print Assumptions C149_brightness_ends.
Print Assumptions C149_brightness_refuted.
