(** Property C146: parametric curves with the rounding of floats. *)
From Coq Require Import ZArith Reals List Lia Lra Bool Psatz.
From Flocq Require Import Core Relative Plus_error.
From Verif Require Import PyBase PyFacts Bmp MathLib Coords RealProofs Sweeps PropSweeps Floats FloatProofs PropFloats FloatEscape PropFloatEscape FloatSweeps.
Import ListNotations.
Open Scope R_scope.

(** ** The growing parameter *)
Lemma fl_fmt x : fl x = x -> generic_format radix2 (FLT_exp (-1074) 53) x.
Proof. intros <-. apply generic_format_round; apply FLT_exp_valid || apply valid_rnd_N. reflexivity. Qed.
(** sums of doubles have a relative error only *)
Lemma sum_err x y : fl x = x -> fl y = y -> Rabs (fl (x + y) - (x + y)) <= u * Rabs (x + y).
Proof.
  intros X Y. destruct (FLT_plus_error_N_ex radix2 (-1074) 53 (fun z => negb (Z.even z)) x y (fl_fmt x X) (fl_fmt y Y)) as (eps & E & R).
  assert (R' : fl (x + y) = (x + y) * (1 + eps)) by exact R. rewrite R'. replace ((x + y) * (1 + eps) - (x + y)) with (eps * (x + y)) by ring. rewrite Rabs_mult. apply Rmult_le_compat_r; [apply Rabs_pos|].
  eapply Rle_trans; [exact E|]. assert (U : u_ro radix2 53 = u) by (unfold u_ro, u; cbn; lra). rewrite U. pose proof u_pos. apply Rmult_le_reg_r with (1 + u); [lra|]. unfold Rdiv. rewrite Rmult_assoc, Rinv_l by lra. nra.
Qed.
Definition fstep (delta t : R) : R := fl (t + delta).
Definition fparam (delta : R) (n : nat) : R := Nat.iter n (fstep delta) 0.
Lemma fparam_S delta n : fparam delta (S n) = fl (fparam delta n + delta).
Proof. reflexivity. Qed.
Lemma fparam_fl delta n : fl (fparam delta n) = fparam delta n.
Proof. destruct n; [apply fl_0|]. rewrite fparam_S. apply fl_fl. Qed.
Lemma INR_bound n : (Z.of_nat n <= 2 ^ 53)%Z -> INR n * u <= 1.
Proof.
  intros H. rewrite INR_IZR_INZ. apply IZR_le in H. unfold u. apply Rmult_le_reg_r with (IZR (2 ^ 53)); [apply IZR_lt; lia|]. rewrite Rmult_assoc, Rinv_l; [lra|]. apply not_0_IZR. lia.
Qed.
Lemma fparam_err delta n : fl delta = delta -> 0 < delta -> (Z.of_nat n <= 2 ^ 53)%Z -> Rabs (fparam delta n - INR n * delta) <= INR n * INR n * (delta * u).
Proof.
  intros F D. induction n as [|n IH]; intros N.
  - cbn. rewrite Rmult_0_l, Rminus_0_r, Rabs_R0. lra.
  - specialize (IH ltac:(lia)). rewrite fparam_S. pose proof (sum_err _ _ (fparam_fl delta n) F) as E. pose proof (INR_bound n ltac:(lia)) as NU. pose proof (pos_INR n) as PN. pose proof u_pos as U.
    assert (T0 : 0 <= fparam delta n).
    { clear - D F. induction n as [|n IH]; [cbn; lra|]. rewrite fparam_S. apply fl_nonneg. lra. }
    set (t := fparam delta n) in *. rewrite (Rabs_pos_eq (t + delta)) in E by lra. rewrite S_INR. apply Rabs_le_inv in IH. apply Rabs_le_inv in E. set (k := INR n) in *.
    assert (DU : 0 < delta * u) by (now apply Rmult_lt_0_compat). assert (K2 : k * k * (delta * u) <= k * delta) by (replace (k * k * (delta * u)) with (k * delta * (k * u)) by ring; rewrite <- (Rmult_1_r (k * delta)) at 2; apply Rmult_le_compat_l; [apply Rmult_le_pos; lra|exact NU]).
    assert (T1 : t <= 2 * (k * delta)) by lra. assert (UT : u * (t + delta) <= u * (2 * (k * delta) + delta)) by (apply Rmult_le_compat_l; lra). apply Rabs_le. nra.
Qed.
Lemma fparam_nonneg delta n : 0 < delta -> 0 <= fparam delta n.
Proof. intros D. induction n as [|n IH]; [cbn; lra|]. rewrite fparam_S. apply fl_nonneg. lra. Qed.

(** ** The loop *)
Lemma fsweep_at {A} (f : R -> A) delta lim n : (forall k, (k < n)%nat -> fparam delta k < lim) -> lim <= fparam delta n -> forall fuel, (n <= fuel)%nat ->
  fsweep fuel f delta lim 0 = Ok (map (fun k => f (fparam delta k)) (seq 0 n)).
Proof.
  intros S2 S1 fuel F.
  assert (K : forall m k fuel, (n = k + m)%nat -> (m <= fuel)%nat -> fsweep fuel f delta lim (fparam delta k) = Ok (map (fun k => f (fparam delta k)) (seq k m))).
  { induction m as [|m IH]; intros k fu E L.
    - rewrite Nat.add_0_r in E. subst k. assert (X : rlt (fparam delta n) lim = false) by (apply rlt_no; exact S1). destruct fu; cbn [fsweep]; rewrite X; reflexivity.
    - destruct fu as [|fu]; [lia|]. cbn [fsweep seq map]. rewrite (proj2 (rlt_iff _ _)) by (apply S2; lia). rewrite <- fparam_S. rewrite (IH (S k) fu) by lia. reflexivity. }
  apply (K n 0%nat fuel eq_refl F).
Qed.
Lemma first_above (x : nat -> R) lim n : lim <= x n -> exists m, (m <= n)%nat /\ lim <= x m /\ forall k, (k < m)%nat -> x k < lim.
Proof.
  intros H. assert (G : forall j, (exists m, (m <= j)%nat /\ lim <= x m /\ forall k, (k < m)%nat -> x k < lim) \/ forall k, (k <= j)%nat -> x k < lim).
  { clear - x. induction j as [|j [J|J]].
    - destruct (Rle_dec lim (x 0%nat)) as [L|L]; [left; exists 0%nat; split; [lia|]; split; [exact L|lia]|]. right. intros k K. replace k with 0%nat by lia. lra.
    - left. destruct J as (m & A & B & C). exists m. split; [lia|auto].
    - destruct (Rle_dec lim (x (S j))) as [L|L]; [left; exists (S j); split; [lia|]; split; [exact L|intros k K; apply J; lia]|]. right. intros k K. destruct (Nat.eq_dec k (S j)) as [-> |]; [lra|apply J; lia]. }
  destruct (G n) as [J|J]; [exact J|]. specialize (J n ltac:(lia)). lra.
Qed.
(** the loop ends after about as many passes as in exact arithmetic, with nearly the same parameters *)
Definition swept {A} (n : nat) (delta lim : R) (r : nat -> (R -> A) -> res (list A)) : Prop :=
  forall f fuel, (n <= fuel)%nat -> exists ts, r fuel f = Ok (map f ts) /\ length ts = n /\
    forall k, (k < n)%nat -> Rabs (nth k ts 0 - INR k * delta) <= INR k * INR k * (delta / IZR (2 ^ 53)) /\ 0 <= nth k ts 0 < lim.
Lemma swept_at {A} delta lim n : fl delta = delta -> 0 < delta -> (Z.of_nat n <= 2 ^ 53)%Z -> (forall k, (k < n)%nat -> fparam delta k < lim) -> lim <= fparam delta n ->
  swept n delta lim (fun fuel (f : R -> A) => fsweep fuel f delta lim 0).
Proof.
  intros F D B S2 S1 f fuel L. exists (map (fparam delta) (seq 0 n)). split; [rewrite map_map; now apply fsweep_at|]. split; [now rewrite map_length, seq_length|].
  intros k K. rewrite (nth_indep _ 0 (fparam delta 0)) by (rewrite map_length, seq_length; exact K). rewrite map_nth, seq_nth by exact K. cbn [plus].
  split; [apply fparam_err; (assumption || lia)|]. split; [now apply fparam_nonneg|now apply S2].
Qed.
Theorem C146_count : forall delta lim N, fl delta = delta -> 0 < delta -> steps_below N delta lim -> (N <= 2 ^ 20)%nat ->
  exists n, (N <= n + 1)%nat /\ (n <= N + 1)%nat /\ (forall A, swept n delta lim (fun fuel (f : R -> A) => fsweep fuel f delta lim 0)) /\
    ((forall j, j = N \/ (j + 1)%nat = N -> INR N * INR N * (delta / IZR (2 ^ 53)) < Rabs (lim - INR j * delta)) -> n = N).
Proof.
  intros delta lim N F D (S1 & S2) B. assert (BZ : (Z.of_nat N <= 2 ^ 20)%Z) by (change (2 ^ 20)%Z with (Z.of_nat (2 ^ 20)); lia).
  assert (SM : forall k, (k <= N + 1)%nat -> INR k * INR k * (delta * u) <= delta / 1000).
  { intros k K. assert (KB : 0 <= INR k <= 2000000) by (split; [apply pos_INR|]; rewrite INR_IZR_INZ; apply IZR_le; lia). assert (k2 : INR k * INR k <= 4000000000000) by nra. assert (U : u <= / 5000000000000000) by (unfold u; lra). pose proof u_pos. assert (DU : delta * u <= delta * / 5000000000000000) by (apply Rmult_le_compat_l; lra). assert (0 < delta * u) by (apply Rmult_lt_0_compat; lra).
    apply Rle_trans with (4000000000000 * (delta * u)); [apply Rmult_le_compat_r; lra|lra]. }
  assert (E : forall k, (k <= N + 1)%nat -> Rabs (fparam delta k - INR k * delta) <= delta / 1000) by (intros k K; eapply Rle_trans; [apply fparam_err; (assumption || lia)|now apply SM]).
  assert (TOP : lim <= fparam delta (N + 1)). { specialize (E (N + 1)%nat ltac:(lia)). apply Rabs_le_inv in E. rewrite plus_INR in E. cbn [INR] in E. lra. }
  destruct (first_above (fparam delta) lim (N + 1)%nat TOP) as (n & N1 & N2 & N3). exists n.
  assert (LOW : (N <= n + 1)%nat).
  { destruct (Nat.le_gt_cases N (n + 1)) as [L|L]; [exact L|]. exfalso. specialize (S2 (n + 1)%nat ltac:(lia)). rewrite plus_INR in S2. cbn [INR] in S2. specialize (E n ltac:(lia)). apply Rabs_le_inv in E. lra. }
  split; [exact LOW|]. split; [exact N1|]. split; [intros A; apply swept_at; (assumption || lia)|].
  intros C. destruct (Nat.eq_dec n N) as [-> |NE]; [reflexivity|]. exfalso. assert (CS : n = (N + 1)%nat \/ (n + 1)%nat = N) by lia. fold u in C. change (delta / IZR (2 ^ 53)) with (delta * u) in C. destruct CS as [-> | CS].
  - specialize (C N (or_introl eq_refl)). specialize (N3 N ltac:(lia)). pose proof (fparam_err delta N F D ltac:(lia)) as EE. apply Rabs_le_inv in EE. rewrite Rabs_left1 in C by lra. lra.
  - specialize (C n (or_intror CS)). specialize (S2 n ltac:(lia)). pose proof (fparam_err delta n F D ltac:(lia)) as EE. apply Rabs_le_inv in EE. rewrite Rabs_pos_eq in C by lra.
    assert (INR n * INR n * (delta * u) <= INR N * INR N * (delta * u)); [|lra]. pose proof (pos_INR n). assert (INR n <= INR N) by (apply le_INR; lia). pose proof u_pos. assert (0 < delta * u) by (apply Rmult_lt_0_compat; lra). apply Rmult_le_compat_r; [lra|]. apply Rmult_le_compat; lra.
Qed.
(** with steps that are sums of a few powers of two nothing is rounded *)
Theorem C146_dyadic : forall A (f : R -> A) fuel a s lim, (0 < a)%Z -> (0 <= s <= 1000)%Z -> let delta := IZR a / IZR (2 ^ s) in lim + delta <= IZR (2 ^ 53) / IZR (2 ^ s) ->
  fsweep fuel f delta lim 0 = sweep fuel f delta lim 0.
Proof.
  intros A f fuel a s lim PA PS delta L. assert (ES : / IZR (2 ^ s) = bpow radix2 (- s)) by (rewrite bpow_opp; f_equal; rewrite <- IZR_Zpower by lia; reflexivity).
  assert (ED : delta = IZR a * bpow radix2 (- s)) by (unfold delta, Rdiv; now rewrite ES). unfold Rdiv in L. rewrite ES in L. assert (PB : 0 < bpow radix2 (- s)) by apply bpow_gt_0.
  assert (K : forall fuel n, (0 <= n)%Z -> fsweep fuel f delta lim (IZR n * bpow radix2 (- s)) = sweep fuel f delta lim (IZR n * bpow radix2 (- s))).
  { clear fuel. induction fuel as [|m IH]; intros n PN; cbn [fsweep sweep]; [reflexivity|]. destruct (rlt (IZR n * bpow radix2 (- s)) lim) eqn:T; [|reflexivity]. apply rlt_iff in T.
    assert (EN : IZR n * bpow radix2 (- s) + delta = IZR (n + a) * bpow radix2 (- s)) by (rewrite ED, plus_IZR; ring).
    rewrite EN. rewrite fl_exact; [|  |lia]. { rewrite IH by lia. reflexivity. }
    assert ((n + a < 2 ^ 53)%Z) by (apply lt_IZR; apply Rmult_lt_reg_r with (bpow radix2 (- s)); [exact PB|]; rewrite <- EN; lra). lia. }
  specialize (K fuel 0%Z ltac:(lia)). now rewrite Rmult_0_l in K.
Qed.
(** The loop ends if lim is at most 2^51 steps away ... *)
Theorem C146_ends : forall delta lim, fl delta = delta -> 0 < delta -> lim <= IZR (2 ^ 51) * delta -> exists n, forall A, swept n delta lim (fun fuel (f : R -> A) => fsweep fuel f delta lim 0).
Proof.
  intros delta lim F D L. assert (X : exists n0, Z.of_nat n0 = (2 ^ 52)%Z) by (exists (Z.to_nat (2 ^ 52)); apply Z2Nat.id; lia). destruct X as (n0 & E0).
  pose proof (fparam_err delta n0 F D ltac:(lia)) as E. rewrite INR_IZR_INZ, E0 in E. apply Rabs_le_inv in E.
  assert (EU : IZR (2 ^ 52) * u = / 2) by (unfold u; change (2 ^ 53)%Z with (2 * 2 ^ 52)%Z; rewrite mult_IZR; field; apply not_0_IZR; lia).
  assert (E1 : IZR (2 ^ 52) * IZR (2 ^ 52) * (delta * u) = IZR (2 ^ 51) * delta) by (replace (IZR (2 ^ 52) * IZR (2 ^ 52) * (delta * u)) with (IZR (2 ^ 52) * delta * (IZR (2 ^ 52) * u)) by ring; rewrite EU; change (2 ^ 52)%Z with (2 * 2 ^ 51)%Z; rewrite mult_IZR; field).
  assert (E2 : IZR (2 ^ 52) * delta = 2 * (IZR (2 ^ 51) * delta)) by (change (2 ^ 52)%Z with (2 * 2 ^ 51)%Z; rewrite mult_IZR; ring).
  destruct (first_above (fparam delta) lim n0 ltac:(lra)) as (n & N1 & N2 & N3). exists n. intros A. apply swept_at; (assumption || lia).
Qed.
(** ... and never if lim is more than 2^55 steps away. *)
Lemma gap x y : fl x = x -> fl y = y -> 0 < x -> x < y -> x + x * u <= y.
Proof.
  intros X Y P L. apply fl_fmt in X. apply fl_fmt in Y. eapply Rle_trans; [|apply (succ_le_lt radix2 (FLT_exp (-1074) 53) x y X Y L)]. rewrite succ_eq_pos by lra. apply Rplus_le_compat_l.
  rewrite ulp_neq_0 by lra. unfold cexp, FLT_exp. set (e := mag radix2 x). apply Rle_trans with (bpow radix2 (e - 53)); [|apply bpow_le; lia].
  pose proof (bpow_mag_gt radix2 x) as G. fold e in G. rewrite Rabs_pos_eq in G by lra. unfold Zminus. rewrite bpow_plus. apply Rmult_le_compat; [lra|pose proof u_pos; lra|lra|]. unfold u. cbn. lra.
Qed.
Lemma fl_nearest x b : fl b = b -> Rabs (fl x - x) <= Rabs (b - x).
Proof. intros B. apply (round_N_pt radix2 (FLT_exp (-1074) 53) (fun z => negb (Z.even z)) x). now apply fl_fmt. Qed.
Lemma fl_scale x k : (0 <= k)%Z -> fl x = x -> fl (IZR (2 ^ k) * x) = IZR (2 ^ k) * x.
Proof.
  intros K. pattern k. apply natlike_ind; [now rewrite Rmult_1_l| |exact K]. intros n N IH X. unfold Z.succ. rewrite Z.pow_add_r by lia. rewrite Z.mul_comm, mult_IZR. change (2 ^ 1)%Z with 2%Z. rewrite Rmult_assoc. apply fl_double, IH, X.
Qed.
Theorem C146_endless : forall A (f : R -> A) delta lim, fl delta = delta -> 0 < delta -> IZR (2 ^ 55) * delta < lim -> forall fuel, fsweep fuel f delta lim 0 = Err Diverges.
Proof.
  intros A f delta lim F D L. set (B := IZR (2 ^ 55) * delta) in *. assert (FB : fl B = B) by (apply fl_scale; [lia|exact F]).
  assert (EB : delta = B * (u / 4)) by (unfold B, u; change (2 ^ 55)%Z with (4 * 2 ^ 53)%Z; rewrite mult_IZR; field; apply not_0_IZR; lia). assert (PB : 0 < B) by (unfold B; apply Rmult_lt_0_compat; [apply IZR_lt; lia|exact D]). pose proof u_pos as U.
  assert (UL : u <= / 1000) by (unfold u; lra). assert (BU : 0 < B * u) by (now apply Rmult_lt_0_compat).
  assert (ST : forall t, fl t = t -> 0 <= t <= B -> 0 <= fl (t + delta) <= B).
  { intros t FT (T0 & T1). split; [apply fl_nonneg; lra|]. destruct (Rle_dec (t + delta) B) as [C|C]; [rewrite <- FB; now apply fl_le|].
    assert (E : t = B). { destruct (Rle_lt_or_eq_dec t B T1) as [LT|EQ]; [exfalso|exact EQ]. pose proof (gap t B FT FB ltac:(nra) LT) as G. assert (B * / 2 <= t) by nra. assert (B * u * / 2 <= t * u) by nra. lra. }
    subst t. destruct (Rle_dec (fl (B + delta)) B) as [|NL]; [assumption|exfalso]. pose proof (gap B (fl (B + delta)) FB (fl_fl _) PB ltac:(lra)) as G. pose proof (fl_nearest (B + delta) B FB) as NR. rewrite (Rabs_left1 (B - (B + delta))) in NR by lra. apply Rabs_le_inv in NR. lra. }
  assert (K : forall fuel t, fl t = t -> 0 <= t <= B -> fsweep fuel f delta lim t = Err Diverges).
  { induction fuel as [|n IH]; intros t FT T; cbn [fsweep]; rewrite (proj2 (rlt_iff _ _)) by lra; [reflexivity|]. rewrite IH; [reflexivity|apply fl_fl|now apply ST]. }
  intros fuel. apply K; [apply fl_0|lra].
Qed.
(** Ten steps of 0.1 up to 1 become eleven. *)
Lemma dval_lt d : (0 <= snd d)%Z -> (fst d < 2 ^ snd d)%Z -> dval d < 1.
Proof.
  intros K L. unfold dval. assert (P : 0 < IZR (2 ^ snd d)) by (apply IZR_lt, Z.pow_pos_nonneg; lia). apply Rmult_lt_reg_r with (IZR (2 ^ snd d)); [exact P|]. unfold Rdiv. rewrite Rmult_assoc, Rinv_l, Rmult_1_r, Rmult_1_l by lra. now apply IZR_lt.
Qed.
Lemma dval_ge d : (0 <= snd d)%Z -> (2 ^ snd d <= fst d)%Z -> 1 <= dval d.
Proof.
  intros K L. unfold dval. assert (P : 0 < IZR (2 ^ snd d)) by (apply IZR_lt, Z.pow_pos_nonneg; lia). apply Rmult_le_reg_r with (IZR (2 ^ snd d)); [exact P|]. unfold Rdiv. rewrite Rmult_assoc, Rinv_l, Rmult_1_r, Rmult_1_l by lra. now apply IZR_le.
Qed.
Definition tenth : Z * Z := flfind 1 10.
Fixpoint tenths (n : nat) : Z * Z := match n with O => tenth | S n => dadd (tenths n) tenth end.
Lemma tenths_ok n : (n <= 10)%nat -> fparam (fl (1 / 10)) (S n) = dval (tenths n) /\ (0 <= snd (tenths n))%Z.
Proof.
  assert (E : fl (1 / 10) = dval tenth) by (apply ddiv_ok; vm_compute; reflexivity). intros N. rewrite E.
  induction n as [|n IH]; [rewrite fparam_S; cbn [fparam]; unfold fparam; cbn [Nat.iter]; rewrite Rplus_0_l, <- E, fl_fl; split; [exact E|vm_compute; discriminate]|].
  destruct (IH ltac:(lia)) as (I1 & I2). rewrite fparam_S, I1. cbn [tenths].
  do 10 (destruct n as [|n]; [split; [apply dadd_ok; vm_compute; (reflexivity || discriminate)|vm_compute; discriminate]|]). lia.
Qed.
Theorem C146_extra_refuted : let delta := fl (1 / 10) in steps_below 10 delta 1 /\
  forall A (f : R -> A) fuel, (11 <= fuel)%nat -> exists l, fsweep fuel f delta 1 0 = Ok l /\ length l = 11%nat.
Proof.
  intros delta. split.
  - assert (E : delta = IZR 7205759403792794 * / IZR (2 ^ 56)) by (unfold delta; rewrite (ddiv_ok 1 10) by (vm_compute; reflexivity); reflexivity).
    assert (E' : delta * 72057594037927936 = 7205759403792794) by (rewrite E; change (2 ^ 56)%Z with 72057594037927936%Z; field). split; [replace (INR 10) with 10 by (rewrite INR_IZR_INZ; reflexivity); lra|].
    intros k K. assert (KB : INR k <= 9) by (rewrite INR_IZR_INZ; apply IZR_le; lia). pose proof (pos_INR k). assert (0 < delta) by lra. nra.
  - intros A f fuel FU. rewrite (fsweep_at f delta 1 11).
    + eexists. split; [reflexivity|]. now rewrite map_length, seq_length.
    + intros k K. destruct k as [|k]; [change (fparam delta 0) with 0; lra|]. destruct (tenths_ok k ltac:(lia)) as (EK & P). unfold delta. rewrite EK. clear EK. apply dval_lt; [exact P|]. clear P. do 10 (destruct k as [|k]; [vm_compute; reflexivity|]). lia.
    + destruct (tenths_ok 10 ltac:(lia)) as (EK & P). unfold delta. rewrite EK. apply dval_ge; [exact P|]. vm_compute. discriminate.
    + exact FU.
Qed.

(** ** Points *)
Lemma cos_lip a b : Rabs (cos a - cos b) <= Rabs (a - b).
Proof.
  assert (K : forall a b, a < b -> Rabs (cos b - cos a) <= Rabs (b - a)).
  { clear. intros a b L. destruct (MVT_cor2 cos (fun x => - sin x) a b L) as (c & E & _); [intros; apply derivable_pt_lim_cos|]. rewrite E, Rabs_mult. rewrite <- (Rmult_1_l (Rabs (b - a))) at 2. apply Rmult_le_compat_r; [apply Rabs_pos|]. pose proof (SIN_bound c). apply Rabs_le. lra. }
  destruct (Rtotal_order a b) as [L|[-> | L]]; [rewrite Rabs_minus_sym, (Rabs_minus_sym a b); now apply K|rewrite !Rminus_diag_eq by reflexivity; lra|now apply K].
Qed.
Lemma sin_lip a b : Rabs (sin a - sin b) <= Rabs (a - b).
Proof. rewrite <- !cos_shift. eapply Rle_trans; [apply cos_lip|]. replace (PI / 2 - a - (PI / 2 - b)) with (- (a - b)) by ring. rewrite Rabs_Ropp. lra. Qed.
(** The library's cosine and sine: errors of at most an ulp of 1, no value beyond 1. *)
Definition libm (mc ms : R -> R) : Prop := forall x,
  Rabs (mc x - cos x) <= / IZR (2 ^ 52) /\ Rabs (ms x - sin x) <= / IZR (2 ^ 52) /\ Rabs (mc x) <= 1 /\ Rabs (ms x) <= 1.
(** within half a pixel and a millionth *)
Definition nearpoint (p : Z * Z) (z : R * R) : Prop := Rabs (IZR (fst p) - fst z) <= 1 / 2 + / 1000000 /\ Rabs (IZR (snd p) - snd z) <= 1 / 2 + / 1000000.
Lemma libm_near mc ms a' a d : libm mc ms -> Rabs (a' - a) <= d -> Rabs (mc a' - cos a) <= d + / IZR (2 ^ 52) /\ Rabs (ms a' - sin a) <= d + / IZR (2 ^ 52).
Proof.
  intros L D. destruct (L a') as (C & S & _). pose proof (cos_lip a' a). pose proof (sin_lip a' a). split.
  - replace (mc a' - cos a) with ((mc a' - cos a') + (cos a' - cos a)) by ring. eapply Rle_trans; [apply Rabs_triang|]. lra.
  - replace (ms a' - sin a) with ((ms a' - sin a') + (sin a' - sin a)) by ring. eapply Rle_trans; [apply Rabs_triang|]. lra.
Qed.
(** products with errors in both factors *)
Lemma near_prod x x' y y' dx dy X Y : Rabs (x' - x) <= dx -> Rabs (y' - y) <= dy -> Rabs x <= X -> Rabs y <= Y -> 
  Rabs (fl (x' * y') - x * y) <= (X + dx) * dy + dx * Y + u * ((X + dx) * (Y + dy)) + eta.
Proof.
  intros DX DY HX HY. pose proof (Rabs_pos (x' - x)). pose proof (Rabs_pos (y' - y)). pose proof (Rabs_pos x). pose proof (Rabs_pos y).
  assert (X' : Rabs x' <= X + dx) by (replace x' with (x + (x' - x)) by ring; eapply Rle_trans; [apply Rabs_triang|]; lra). assert (Y' : Rabs y' <= Y + dy) by (replace y' with (y + (y' - y)) by ring; eapply Rle_trans; [apply Rabs_triang|]; lra).
  assert (P : Rabs (x' * y') <= (X + dx) * (Y + dy)) by (rewrite Rabs_mult; apply Rmult_le_compat; (lra || apply Rabs_pos)). pose proof (fl_near _ _ P) as E.
  assert (A : Rabs (x' * (y' - y)) <= (X + dx) * dy) by (rewrite Rabs_mult; apply Rmult_le_compat; (lra || apply Rabs_pos)). assert (B : Rabs ((x' - x) * y) <= dx * Y) by (rewrite Rabs_mult; apply Rmult_le_compat; (lra || apply Rabs_pos)).
  replace (fl (x' * y') - x * y) with ((fl (x' * y') - x' * y') + (x' * (y' - y) + (x' - x) * y)) by ring. eapply Rle_trans; [apply Rabs_triang|]. pose proof (Rabs_triang (x' * (y' - y)) ((x' - x) * y)). lra.
Qed.
Lemma round_near z z' : Rabs (fst z' - fst z) <= / 1000000 -> Rabs (snd z' - snd z) <= / 1000000 -> nearpoint (cround z') z.
Proof.
  intros A B. split; cbn [cround fst snd]; [pose proof (rround_near (fst z')) as N|pose proof (rround_near (snd z')) as N]; rewrite Rabs_minus_sym in N; apply Rabs_le_inv in N; [apply Rabs_le_inv in A|apply Rabs_le_inv in B]; apply Rabs_le; lra.
Qed.
(** one point for each of about N parameters, near the curve z *)
Definition traced (N : nat) (delta lim : R) (r : nat -> res (list (Z * Z))) (z : R -> R * R) : Prop :=
  exists n, (N <= n + 1)%nat /\ (n <= N + 1)%nat /\ forall fuel, (n <= fuel)%nat -> exists l, r fuel = Ok l /\ length l = n /\
    forall k, (k < n)%nat -> exists t, Rabs (t - INR k * delta) <= INR k * INR k * (delta / IZR (2 ^ 53)) /\ 0 <= t < lim /\ nearpoint (nth k l (0, 0)%Z) (z t).
Lemma trace g delta lim N z : fl delta = delta -> 0 < delta -> steps_below N delta lim -> (N <= 2 ^ 20)%nat -> (forall t, 0 <= t < lim -> nearpoint (g t) (z t)) ->
  traced N delta lim (fun fuel => fsweep fuel g delta lim 0) z.
Proof.
  intros F D S B G. destruct (C146_count delta lim N F D S B) as (n & N1 & N2 & SW & _). exists n. split; [exact N1|]. split; [exact N2|]. intros fuel FU. destruct (SW _ g fuel FU) as (ts & E & L & T). exists (map g ts). split; [exact E|]. split; [now rewrite map_length|].
  intros k K. destruct (T k K) as (T1 & T2). exists (nth k ts 0). split; [exact T1|]. split; [exact T2|]. rewrite (nth_indep _ _ (g 0)) by (rewrite map_length; lia). rewrite map_nth. now apply G.
Qed.
Lemma consts : 0 < u <= / 9000000000000000 /\ 0 < eta <= / 1000000000000000000 /\ 0 < / IZR (2 ^ 52) <= / 4000000000000000.
Proof. pose proof u_pos. pose proof eta_pos. unfold u, eta in *. repeat split; lra. Qed.
Ltac close := destruct consts as ((? & ?) & (? & ?) & (? & ?)); (lra || nra).
Lemma abs0 x : Rabs (x - x) <= 0.
Proof. rewrite Rminus_diag_eq by reflexivity. rewrite Rabs_R0. lra. Qed.

(** ** Lissajous curves *)
Lemma wave (m f : R -> R) a th th' : (forall x y d, Rabs (x - y) <= d -> Rabs (m x - f y) <= d + / IZR (2 ^ 52)) -> (forall y, Rabs (f y) <= 1) -> Rabs a <= 4096 -> Rabs (th' - th) <= / 30000000000 -> Rabs (fl (a * m th') - a * f th) <= / 1000000.
Proof.
  intros M B A T. specialize (M th' th _ T). eapply Rle_trans; [apply (near_prod a a (f th) (m th') 0 _ 4096 1 (abs0 a) M A (B th))|]. close.
Qed.
Lemma angle c t e : Rabs (c * t) <= 65536 -> Rabs e <= 65536 -> Rabs (fl (fl (c * t) + e) - (c * t + e)) <= / 30000000000.
Proof.
  intros C E. pose proof (fl_near _ _ C) as N. eapply Rle_trans; [apply (near_add _ _ e e _ 0 131072 N (abs0 e))|]; [eapply Rle_trans; [apply Rabs_triang|lra]|]. close.
Qed.
Lemma cos1 x : Rabs (cos x) <= 1.
Proof. pose proof (COS_bound x). apply Rabs_le. lra. Qed.
Lemma sin1 x : Rabs (sin x) <= 1.
Proof. pose proof (SIN_bound x). apply Rabs_le. lra. Qed.
Lemma shifted x w z : Rabs (w - z) <= / 1000000 -> Rabs (IZR (x + rround w) - (IZR x + z)) <= 1 / 2 + / 1000000.
Proof. intros D. pose proof (rround_near w) as N. rewrite plus_IZR. apply Rabs_le_inv in D. apply Rabs_le_inv in N. apply Rabs_le. lra. Qed.
Lemma below c lim t B : Rabs c * lim <= B -> 0 <= t < lim -> Rabs (c * t) <= B.
Proof. intros H T. rewrite Rabs_mult, (Rabs_pos_eq t) by lra. pose proof (Rabs_pos c). nra. Qed.
Theorem C146_lissajous : forall mc ms x y a b c d e delta lim N, libm mc ms -> fl delta = delta -> 0 < delta -> steps_below N delta lim -> (N <= 2 ^ 20)%nat ->
  Rabs a <= 4096 -> Rabs b <= 4096 -> Rabs c * lim <= 65536 -> Rabs d * lim <= 65536 -> Rabs e <= 65536 ->
  traced N delta lim (fun fuel => fiterlissajouscurve mc ms fuel x y a b c d e delta lim) (fun t => (IZR x + a * cos (c * t + e), IZR y + b * sin (d * t))).
Proof.
  intros mc ms x y a b c d e delta lim N M F D S B A1 B1 C1 D1 E1. apply trace; try assumption. intros t T. pose proof (below c lim t _ C1 T) as CT. pose proof (below d lim t _ D1 T) as DT.
  split; cbn [fst snd]; apply shifted.
  - apply (wave mc cos); [intros; now apply (libm_near mc ms)|apply cos1|exact A1|now apply angle].
  - apply (wave ms sin); [intros; now apply (libm_near mc ms)|apply sin1|exact B1|]. eapply Rle_trans; [apply (fl_near _ _ DT)|]. close.
Qed.
(** whatever the angles: no point leaves the box, not even by rounding *)
Lemma box m a : Rabs m <= 1 -> fl a = a -> (Z.abs (rround (fl (a * m))) <= rround (Rabs a))%Z.
Proof.
  intros M F. assert (B : - Rabs a <= fl (a * m) <= Rabs a).
  { assert (FA : fl (Rabs a) = Rabs a) by (unfold Rabs; destruct (Rcase_abs a); [now rewrite fl_opp, F|exact F]). assert (AM : Rabs (a * m) <= Rabs a) by (rewrite Rabs_mult; pose proof (Rabs_pos a); nra). apply Rabs_le_inv in AM.
    split; [replace (- Rabs a) with (fl (- Rabs a)) by (now rewrite fl_opp, FA); apply fl_le; lra|rewrite <- FA; apply fl_le; lra]. }
  apply rround_abs. apply Rabs_le. exact B.
Qed.
Theorem C146_box : forall mc ms fuel x y a b c d e delta lim l, libm mc ms -> fl a = a -> fl b = b -> fiterlissajouscurve mc ms fuel x y a b c d e delta lim = Ok l ->
  forall p, In p l -> (Z.abs (fst p - x) <= rround (Rabs a))%Z /\ (Z.abs (snd p - y) <= rround (Rabs b))%Z.
Proof.
  intros mc ms fuel x y a b c d e delta lim l M FA FB. unfold fiterlissajouscurve. generalize 0 at 1. revert l. induction fuel as [|n IH]; intros l t; cbn [fsweep]; (destruct (rlt t lim); [|intros H; injection H as <-; intros p []]); [discriminate|].
  destruct (fsweep n _ delta lim (fl (t + delta))) as [l'|] eqn:E; [|discriminate]. cbn [rbind]. intros H. injection H as <-. intros p [<- |I]; [|now apply (IH _ _ E)]. cbn [fst snd].
  match goal with |- (Z.abs (?X + ?U - ?X) <= _)%Z /\ (Z.abs (?Y + ?V - ?Y) <= _)%Z => replace (X + U - X)%Z with U by ring; replace (Y + V - Y)%Z with V by ring end. split; apply box; try assumption; apply M.
Qed.

(** ** Circles that roll *)
Lemma frect_near mc ms r r' a a' dr da X : libm mc ms -> Rabs (r' - r) <= dr -> Rabs (a' - a) <= da -> Rabs r <= X ->
  let E := (X + dr) * (da + / IZR (2 ^ 52)) + dr + u * ((X + dr) * (1 + (da + / IZR (2 ^ 52)))) + eta in
  Rabs (fst (frect mc ms r' a') - r * cos a) <= E /\ Rabs (snd (frect mc ms r' a') - r * sin a) <= E.
Proof.
  intros M R A HX E. pose proof (Rabs_pos (r' - r)). pose proof (Rabs_pos (a' - a)). pose proof (Rabs_pos r). pose proof u_pos. pose proof eta_pos. assert (M52 : 0 < / IZR (2 ^ 52)) by (apply Rinv_0_lt_compat, IZR_lt; lia).
  unfold frect. destruct (req a' 0) eqn:Z; cbn [fst snd].
  - apply req_iff in Z. subst a'. assert (G : forall f, Rabs (f 0 - f a) <= da -> Rabs (f a) <= 1 -> Rabs (r' * f 0 - r * f a) <= E).
    { intros f F1 F2. replace (r' * f 0 - r * f a) with (r' * (f 0 - f a) + (r' - r) * f a) by ring. eapply Rle_trans; [apply Rabs_triang|]. rewrite !Rabs_mult.
      assert (X' : Rabs r' <= X + dr) by (replace r' with (r + (r' - r)) by ring; eapply Rle_trans; [apply Rabs_triang|]; lra).
      assert (P1 : Rabs r' * Rabs (f 0 - f a) <= (X + dr) * da) by (apply Rmult_le_compat; (apply Rabs_pos || lra)). assert (P2 : Rabs (r' - r) * Rabs (f a) <= dr * 1) by (apply Rmult_le_compat; (apply Rabs_pos || lra)).
      assert (P3 : 0 <= (X + dr) * / IZR (2 ^ 52)) by (apply Rmult_le_pos; lra). assert (P4 : 0 <= u * ((X + dr) * (1 + (da + / IZR (2 ^ 52))))) by (apply Rmult_le_pos; [lra|]; apply Rmult_le_pos; lra). unfold E. lra. }
    split.
    + replace r' with (r' * cos 0) by (rewrite cos_0; ring). apply (G cos); [eapply Rle_trans; [apply cos_lip|exact A]|apply cos1].
    + replace 0 with (r' * sin 0) at 1 by (rewrite sin_0; ring). apply (G sin); [eapply Rle_trans; [apply sin_lip|exact A]|apply sin1].
  - destruct (libm_near mc ms a' a da M A) as (C & S). split.
    + eapply Rle_trans; [apply (near_prod r r' (cos a) (mc a') dr _ X 1 R C HX (cos1 a))|]. unfold E. lra.
    + eapply Rle_trans; [apply (near_prod r r' (sin a) (ms a') dr _ X 1 R S HX (sin1 a))|]. unfold E. lra.
Qed.
(** a coordinate of a point with its centre added *)
Lemma centred w w' x : (Z.abs x <= 2 ^ 20)%Z -> Rabs (w' - w) <= / 1500000 -> Rabs w <= 1000000 -> Rabs (fl (w' + fl (IZR x)) - (IZR x + w)) <= / 1000000.
Proof.
  intros X W B. rewrite (fl_Z x) by lia. assert (XB : Rabs (IZR x) <= 1048576) by (rewrite <- abs_IZR; apply IZR_le; exact X). rewrite (Rplus_comm (IZR x)).
  eapply Rle_trans; [apply (near_add w w' (IZR x) (IZR x) _ 0 2048576 W (abs0 _))|]; [eapply Rle_trans; [apply Rabs_triang|]; lra|]. close.
Qed.
Lemma rolling mc ms x y p p' b c' c t : libm mc ms -> (Z.abs x <= 2 ^ 20)%Z -> (Z.abs y <= 2 ^ 20)%Z -> Rabs (p' - p) <= / 1000000000000 -> Rabs p <= 4096 -> Rabs b <= 4096 -> Rabs (fl (c' * t) - c * t) <= / 16000000000 ->
  nearpoint (cround (fepicycloidpoint mc ms x y p' b c' t)) (IZR x + (p * cos t - b * cos (c * t)), IZR y + (p * sin t - b * sin (c * t))).
Proof.
  intros M X Y P P4 B4 A. destruct (frect_near mc ms p p' t t _ 0 4096 M P (abs0 t) P4) as (R1 & R2). destruct (frect_near mc ms b b (c * t) (fl (c' * t)) 0 _ 4096 M (abs0 b) A B4) as (R3 & R4).
  assert (G : forall f w v x, (Z.abs x <= 2 ^ 20)%Z -> (forall s, Rabs (f s) <= 1) -> Rabs (w - p * f t) <= (4096 + / 1000000000000) * (0 + / IZR (2 ^ 52)) + / 1000000000000 + u * ((4096 + / 1000000000000) * (1 + (0 + / IZR (2 ^ 52)))) + eta ->
     Rabs (v - b * f (c * t)) <= (4096 + 0) * (/ 16000000000 + / IZR (2 ^ 52)) + 0 + u * ((4096 + 0) * (1 + (/ 16000000000 + / IZR (2 ^ 52)))) + eta -> Rabs (fl (fl (w - v) + fl (IZR x)) - (IZR x + (p * f t - b * f (c * t)))) <= / 1000000).
  { clear - P4 B4. intros f w v x X F W V. set (E := (4096 + / 1000000000000) * (0 + / IZR (2 ^ 52)) + / 1000000000000 + u * ((4096 + / 1000000000000) * (1 + (0 + / IZR (2 ^ 52)))) + eta) in *.
    set (E' := (4096 + 0) * (/ 16000000000 + / IZR (2 ^ 52)) + 0 + u * ((4096 + 0) * (1 + (/ 16000000000 + / IZR (2 ^ 52)))) + eta) in *. assert (0 <= E <= / 100000000000) by (unfold E; close). assert (0 <= E' <= / 3500000) by (unfold E'; close).
    assert (S1 : Rabs (p * f t) <= 4096) by (rewrite Rabs_mult; pose proof (F t); pose proof (Rabs_pos p); pose proof (Rabs_pos (f t)); nra). assert (S2 : Rabs (b * f (c * t)) <= 4096) by (rewrite Rabs_mult; pose proof (F (c * t)); pose proof (Rabs_pos b); pose proof (Rabs_pos (f (c * t))); nra).
    assert (S3 : Rabs (p * f t + - (b * f (c * t))) <= 8192) by (eapply Rle_trans; [apply Rabs_triang|]; rewrite Rabs_Ropp; lra).
    assert (V' : Rabs (- v - - (b * f (c * t))) <= E') by (replace (- v - - (b * f (c * t))) with (- (v - b * f (c * t))) by ring; now rewrite Rabs_Ropp).
    apply centred; [exact X| |unfold Rminus; lra]. unfold Rminus. eapply Rle_trans; [apply (near_add _ _ _ _ _ _ _ W V' S3)|]. close. }
  apply round_near; unfold fepicycloidpoint, fcadd, fcsub; cbn [fst snd fpoint].
  - apply (G cos); [exact X|apply cos1|exact R1|exact R3].
  - apply (G sin); [exact Y|apply sin1|exact R2|exact R4].
Qed.
Lemma ratio a b t lim : b <> 0 -> 0 <= t < lim -> lim <= 65536 -> Rabs (a / b) * lim <= 65536 -> Rabs (fl (fl (fl (a / b) + 1) * t) - (a / b + 1) * t) <= / 16000000000.
Proof.
  intros B T L Q. set (q := a / b) in *. pose proof (fl_err q) as E1. set (q' := fl q) in *. pose proof (fl_err (q' + 1)) as E2. set (c' := fl (q' + 1)) in *. pose proof (fl_err (c' * t)) as E3.
  assert (Q0 := Rabs_pos q). destruct consts as ((U0 & U1) & (H0 & H1) & _).
  assert (Q' : Rabs q' <= 2 * Rabs q + 1) by (replace q' with (q + (q' - q)) by ring; eapply Rle_trans; [apply Rabs_triang|]; nra).
  assert (A2 : Rabs (q' + 1) <= 2 * Rabs q + 2) by (eapply Rle_trans; [apply Rabs_triang|]; rewrite Rabs_R1; lra).
  assert (D : Rabs (c' - (q + 1)) <= u * (3 * Rabs q + 2) + 2 * eta) by (replace (c' - (q + 1)) with ((c' - (q' + 1)) + (q' - q)) by ring; eapply Rle_trans; [apply Rabs_triang|]; nra).
  assert (DT : Rabs ((c' - (q + 1)) * t) <= u * (3 * 65536 + 2 * 65536) + 2 * eta * 65536).
  { rewrite Rabs_mult, (Rabs_pos_eq t) by lra. assert (QT : Rabs q * t <= 65536) by nra. apply Rle_trans with ((u * (3 * Rabs q + 2) + 2 * eta) * t); [apply Rmult_le_compat_r; lra|]. replace ((u * (3 * Rabs q + 2) + 2 * eta) * t) with (u * (3 * (Rabs q * t) + 2 * t) + 2 * eta * t) by ring. apply Rplus_le_compat; [apply Rmult_le_compat_l; lra|apply Rmult_le_compat_l; lra]. }
  assert (CT : Rabs (c' * t) <= 140000).
  { replace (c' * t) with ((q + 1) * t + (c' - (q + 1)) * t) by ring. eapply Rle_trans; [apply Rabs_triang|]. assert (Rabs ((q + 1) * t) <= 131072); [|lra]. rewrite Rabs_mult, (Rabs_pos_eq t) by lra. pose proof (Rabs_triang q 1) as TR. rewrite Rabs_R1 in TR. assert (QT : Rabs q * t <= 65536) by nra. apply Rle_trans with ((Rabs q + 1) * t); [apply Rmult_le_compat_r; lra|lra]. }
  replace (fl (c' * t) - (q + 1) * t) with ((fl (c' * t) - c' * t) + (c' - (q + 1)) * t) by ring. eapply Rle_trans; [apply Rabs_triang|]. assert (u * Rabs (c' * t) <= u * 140000) by (apply Rmult_le_compat_l; lra). lra.
Qed.
Lemma summed a b : Rabs (a + b) <= 4096 -> Rabs (fl (a + b) - (a + b)) <= / 1000000000000.
Proof. intros H. eapply Rle_trans; [apply (fl_near _ _ H)|]. close. Qed.
Lemma fdiv_run a b : b <> 0 -> fdiv a b = Ok (fl (a / b)).
Proof. intros H. unfold fdiv. destruct (req b 0) eqn:E; [apply req_iff in E; contradiction|reflexivity]. Qed.
Theorem C146_epicycloid : forall mc ms x y a b delta lim N, libm mc ms -> fl delta = delta -> 0 < delta -> steps_below N delta lim -> (N <= 2 ^ 20)%nat ->
  (Z.abs x <= 2 ^ 20)%Z -> (Z.abs y <= 2 ^ 20)%Z -> Rabs (a + b) <= 4096 -> Rabs b <= 4096 -> b <> 0 -> lim <= 65536 -> Rabs (a / b) * lim <= 65536 ->
  traced N delta lim (fun fuel => fiterepicycloid mc ms fuel x y a b delta lim)
    (fun t => (IZR x + ((a + b) * cos t - b * cos ((a / b + 1) * t)), IZR y + ((a + b) * sin t - b * sin ((a / b + 1) * t)))).
Proof.
  intros mc ms x y a b delta lim N M F D S B X Y P4 B4 B0 L Q. unfold fiterepicycloid. rewrite fdiv_run by exact B0. cbn [rbind]. apply trace; try assumption. intros t T. apply rolling; try assumption; [now apply summed|now apply ratio with lim].
Qed.
Theorem C146_hypotrochoid : forall mc ms x y a b c delta lim N, libm mc ms -> fl delta = delta -> 0 < delta -> steps_below N delta lim -> (N <= 2 ^ 20)%nat ->
  (Z.abs x <= 2 ^ 20)%Z -> (Z.abs y <= 2 ^ 20)%Z -> Rabs (a - b) <= 4096 -> Rabs c <= 4096 -> b <> 0 -> lim <= 65536 -> Rabs (a / b) * lim <= 65536 ->
  traced N delta lim (fun fuel => fiterhypotrochoid mc ms fuel x y a b c delta lim)
    (fun t => (IZR x + ((a - b) * cos t - c * cos ((a / b + 1) * t)), IZR y + ((a - b) * sin t - c * sin ((a / b + 1) * t)))).
Proof.
  intros mc ms x y a b c delta lim N M F D S B X Y P4 C4 B0 L Q. unfold fiterhypotrochoid. rewrite fdiv_run by exact B0. cbn [rbind]. apply trace; try assumption. intros t T. apply rolling; try assumption; [now apply (summed a (- b))|now apply ratio with lim].
Qed.
Theorem C146_zero : forall mc ms fuel x y a c delta lim, fiterepicycloid mc ms fuel x y a 0 delta lim = Err ZeroDivisionError /\ fiterhypotrochoid mc ms fuel x y a 0 c delta lim = Err ZeroDivisionError /\
  forall r l, fiterspirograph mc ms fuel x y r l 0 delta lim = Err ZeroDivisionError.
Proof. intros. unfold fiterepicycloid, fiterhypotrochoid, fiterspirograph, fdiv. rewrite (proj2 (req_iff 0 0) eq_refl). repeat split; reflexivity. Qed.

(** ** Spirographs *)
Lemma scaled r w : fcmul (r, 0) w = (fl (r * fst w), fl (r * snd w)).
Proof. unfold fcmul. cbn [fst snd]. now rewrite !Rmult_0_l, fl_0, Rminus_0_r, Rplus_0_r, !fl_fl. Qed.
Lemma spiroangle k t lim : fl k = k -> k <> 0 -> 0 <= t < lim -> lim <= 65536 -> Rabs ((1 - k) / k) * lim <= 65536 -> Rabs (fl (t * fl (fl (1 - k) / k)) - (1 - k) / k * t) <= / 30000000000.
Proof.
  intros F K T L Q. pose proof (sum_err 1 (- k) fl_1 ltac:(now rewrite fl_opp, F)) as E0. fold (1 - k) in E0. set (d' := fl (1 - k)) in *. set (f := (1 - k) / k) in *. pose proof (fl_err (d' / k)) as E1. set (f' := fl (d' / k)) in *. pose proof (fl_err (t * f')) as E2.
  assert (F0 := Rabs_pos f). destruct consts as ((U0 & U1) & (H0 & H1) & _).
  assert (D : Rabs (d' / k - f) <= u * Rabs f).
  { unfold f. replace (d' / k - (1 - k) / k) with ((d' - (1 - k)) * / k) by (unfold Rdiv; ring). rewrite Rabs_mult. unfold Rdiv. rewrite Rabs_mult, <- Rmult_assoc. apply Rmult_le_compat_r; [apply Rabs_pos|exact E0]. }
  assert (DK : Rabs (d' / k) <= Rabs f + u * Rabs f) by (replace (d' / k) with (f + (d' / k - f)) by ring; eapply Rle_trans; [apply Rabs_triang|]; lra).
  assert (DF : Rabs (f' - f) <= u * (2 * Rabs f + u * Rabs f) + eta) by (replace (f' - f) with ((f' - d' / k) + (d' / k - f)) by ring; eapply Rle_trans; [apply Rabs_triang|]; nra).
  assert (FT : Rabs f * t <= 65536) by nra. assert (UF : u * Rabs f <= Rabs f) by nra.
  assert (DT : Rabs (t * (f' - f)) <= u * 196608 + eta * 65536).
  { rewrite Rabs_mult, (Rabs_pos_eq t) by lra. apply Rle_trans with (t * (u * (3 * Rabs f) + eta)); [apply Rmult_le_compat_l; nra|]. replace (t * (u * (3 * Rabs f) + eta)) with (u * (3 * (Rabs f * t)) + eta * t) by ring. apply Rplus_le_compat; apply Rmult_le_compat_l; lra. }
  assert (CT : Rabs (t * f') <= 66000).
  { replace (t * f') with (f * t + t * (f' - f)) by ring. eapply Rle_trans; [apply Rabs_triang|]. rewrite (Rabs_mult f t), (Rabs_pos_eq t) by lra. lra. }
  replace (fl (t * f') - f * t) with ((fl (t * f') - t * f') + t * (f' - f)) by ring. eapply Rle_trans; [apply Rabs_triang|]. assert (u * Rabs (t * f') <= u * 66000) by (apply Rmult_le_compat_l; lra). lra.
Qed.
Theorem C146_spirograph : forall mc ms x y r l k delta lim N, libm mc ms -> fl delta = delta -> 0 < delta -> steps_below N delta lim -> (N <= 2 ^ 20)%nat ->
  (Z.abs x <= 2 ^ 20)%Z -> (Z.abs y <= 2 ^ 20)%Z -> Rabs r <= 4096 -> fl k = k -> k <> 0 -> Rabs (1 - k) <= 1 -> Rabs (l * k) <= 1 -> lim <= 65536 -> Rabs ((1 - k) / k) * lim <= 65536 ->
  traced N delta lim (fun fuel => fiterspirograph mc ms fuel x y r l k delta lim)
    (fun t => (IZR x + r * ((1 - k) * cos t + l * k * cos ((1 - k) / k * t)), IZR y + r * ((1 - k) * sin t + l * k * sin ((1 - k) / k * t)))).
Proof.
  intros mc ms x y r l k delta lim N M F D S B X Y R4 FK K0 D1 E1 L Q. unfold fiterspirograph. rewrite fdiv_run by exact K0. cbn [rbind]. apply trace; try assumption. intros t T.
  pose proof (spiroangle k t lim FK K0 T L Q) as A. pose proof (fl_near _ _ D1) as DD. pose proof (fl_near _ _ E1) as EE.
  destruct (frect_near mc ms _ _ t t _ 0 1 M DD (abs0 t) D1) as (R1 & R2). destruct (frect_near mc ms _ _ _ _ _ _ 1 M EE A E1) as (R3 & R4').
  set (W1 := (1 + (u * 1 + eta)) * (0 + / IZR (2 ^ 52)) + (u * 1 + eta) + u * ((1 + (u * 1 + eta)) * (1 + (0 + / IZR (2 ^ 52)))) + eta) in *. set (W2 := (1 + (u * 1 + eta)) * (/ 30000000000 + / IZR (2 ^ 52)) + (u * 1 + eta) + u * ((1 + (u * 1 + eta)) * (1 + (/ 30000000000 + / IZR (2 ^ 52)))) + eta) in *.
  assert (UE : 0 <= u * 1 + eta <= / 5000000000000000) by close. set (v := u * 1 + eta) in *. assert (W1B : 0 <= W1 <= / 1000000000000000) by (unfold W1; close). assert (W2B : 0 <= W2 <= / 20000000000) by (unfold W2; close). clearbody W1 W2.
  assert (G : forall f w1 w2 x, (Z.abs x <= 2 ^ 20)%Z -> (forall s, Rabs (f s) <= 1) -> Rabs (w1 - (1 - k) * f t) <= W1 -> Rabs (w2 - l * k * f ((1 - k) / k * t)) <= W2 ->
    Rabs (fl (fl (r * fl (w1 + w2)) + fl (IZR x)) - (IZR x + r * ((1 - k) * f t + l * k * f ((1 - k) / k * t)))) <= / 1000000).
  { clear - R4 D1 E1 W1B W2B. intros f w1 w2 x X F V1 V2. set (a := (1 - k) * f t) in *. set (b := l * k * f ((1 - k) / k * t)) in *.
    assert (S1 : Rabs a <= 1) by (unfold a; rewrite Rabs_mult; pose proof (F t); pose proof (Rabs_pos (1 - k)); pose proof (Rabs_pos (f t)); nra). assert (S2 : Rabs b <= 1) by (unfold b; rewrite Rabs_mult; pose proof (F ((1 - k) / k * t)); pose proof (Rabs_pos (l * k)); pose proof (Rabs_pos (f ((1 - k) / k * t))); nra).
    assert (S3 : Rabs (a + b) <= 2) by (eapply Rle_trans; [apply Rabs_triang|]; lra). pose proof (near_add _ _ _ _ _ _ _ V1 V2 S3) as N1. assert (N2 : Rabs (fl (w1 + w2) - (a + b)) <= / 15000000000) by (eapply Rle_trans; [exact N1|]; close).
    apply centred; [exact X| |].
    - eapply Rle_trans; [apply (near_prod r r (a + b) (fl (w1 + w2)) 0 _ 4096 2 (abs0 r) N2 R4 S3)|]. close.
    - rewrite Rabs_mult. pose proof (Rabs_pos r). pose proof (Rabs_pos (a + b)). nra. }
  apply round_near; unfold fspirographpoint; rewrite scaled; unfold fcadd; cbn [fst snd fpoint].
  - apply (G cos); [exact X|apply cos1|exact R1|exact R3].
  - apply (G sin); [exact Y|apply sin1|exact R2|exact R4'].
Qed.

(** ** The curve that circleinvolute draws *)
Lemma turned w : fcmul w (0, 1) = (- fl (snd w), fl (fst w)).
Proof. unfold fcmul. cbn [fst snd]. rewrite !Rmult_0_r, !Rmult_1_r, fl_0, Rminus_0_l, Rplus_0_r, fl_opp, !fl_fl. reflexivity. Qed.
Lemma scaled' w t : fcmul w (t, 0) = (fl (fst w * t), fl (snd w * t)).
Proof. unfold fcmul. cbn [fst snd]. now rewrite !Rmult_0_r, fl_0, Rminus_0_r, Rplus_0_l, !fl_fl. Qed.
Theorem C146_involute : forall mc ms x y a delta lim N, libm mc ms -> fl delta = delta -> 0 < delta -> steps_below N delta lim -> (N <= 2 ^ 20)%nat ->
  (Z.abs x <= 2 ^ 20)%Z -> (Z.abs y <= 2 ^ 20)%Z -> lim <= 65536 -> Rabs a * lim <= 4096 ->
  traced N delta lim (fun fuel => fitercircleinvolute mc ms fuel x y a delta lim) (fun t => (IZR x - a * t * sin (2 * t), IZR y + a * t * cos (2 * t))).
Proof.
  intros mc ms x y a delta lim N M F D S B X Y L A4. unfold fitercircleinvolute. apply trace; try assumption. intros t T. assert (O1 : Rabs 1 <= 1) by (rewrite Rabs_R1; lra).
  destruct (frect_near mc ms 1 1 t t 0 0 1 M (abs0 1) (abs0 t) O1) as (R1 & R2). rewrite Rmult_1_l in R1, R2. unfold finvolutepoint. set (z := frect mc ms 1 t) in *. destruct z as [zx zy]. cbn [fst snd] in R1, R2.
  set (W := (1 + 0) * (0 + / IZR (2 ^ 52)) + 0 + u * ((1 + 0) * (1 + (0 + / IZR (2 ^ 52)))) + eta) in *. assert (WB : 0 <= W <= / 2500000000000000) by (unfold W; close). clearbody W.
  rewrite scaled, scaled', turned. cbn [fst snd]. unfold fcmul, fcadd. cbn [fst snd fpoint]. rewrite !fl_fl.
  assert (G : forall f w, (forall s, Rabs (f s) <= 1) -> Rabs (w - f t) <= W -> Rabs (fl (fl (a * w) * t) - a * t * f t) <= / 200000000000).
  { intros f w F1 V. specialize (F1 t). destruct consts as ((U0 & U1) & (H0 & H1) & _). assert (A0 := Rabs_pos a).
    assert (W1 : Rabs w <= 2) by (replace w with (f t + (w - f t)) by ring; eapply Rle_trans; [apply Rabs_triang|]; lra).
    pose proof (fl_err (a * w)) as E1. set (p := fl (a * w)) in *. pose proof (fl_err (p * t)) as E2. rewrite (Rabs_mult a w) in E1.
    assert (AW : Rabs a * Rabs w <= Rabs a * 2) by (apply Rmult_le_compat_l; lra). assert (DP : Rabs (p - a * f t) <= Rabs a * (u * 2 + W) + eta).
    { replace (p - a * f t) with ((p - a * w) + a * (w - f t)) by ring. eapply Rle_trans; [apply Rabs_triang|]. rewrite (Rabs_mult a (w - f t)). assert (Rabs a * Rabs (w - f t) <= Rabs a * W) by (apply Rmult_le_compat_l; lra). assert (u * (Rabs a * Rabs w) <= u * (Rabs a * 2)) by (apply Rmult_le_compat_l; lra). lra. }
    assert (AT : Rabs a * t <= 4096) by nra. assert (DT : Rabs ((p - a * f t) * t) <= 4096 * (u * 2 + W) + eta * 65536).
    { rewrite Rabs_mult, (Rabs_pos_eq t) by lra. apply Rle_trans with ((Rabs a * (u * 2 + W) + eta) * t); [apply Rmult_le_compat_r; lra|]. replace ((Rabs a * (u * 2 + W) + eta) * t) with (Rabs a * t * (u * 2 + W) + eta * t) by ring. apply Rplus_le_compat; [apply Rmult_le_compat_r; lra|apply Rmult_le_compat_l; lra]. }
    assert (FT : Rabs (a * t * f t) <= 4096) by (rewrite !Rabs_mult, (Rabs_pos_eq t) by lra; pose proof (Rabs_pos (f t)); nra).
    assert (PT : Rabs (p * t) <= 5000) by (replace (p * t) with (a * t * f t + (p - a * f t) * t) by ring; eapply Rle_trans; [apply Rabs_triang|]; lra).
    replace (fl (p * t) - a * t * f t) with ((fl (p * t) - p * t) + (p - a * f t) * t) by ring. eapply Rle_trans; [apply Rabs_triang|]. assert (u * Rabs (p * t) <= u * 5000) by (apply Rmult_le_compat_l; lra). lra. }
  assert (FT : forall f, (forall s, Rabs (f s) <= 1) -> Rabs (a * t * f t) <= 4096).
  { intros f F1. specialize (F1 t). rewrite !Rabs_mult, (Rabs_pos_eq t) by lra. pose proof (Rabs_pos (f t)). assert (Rabs a * t <= 4096) by (pose proof (Rabs_pos a); nra). pose proof (Rabs_pos a). assert (0 <= Rabs a * t) by (apply Rmult_le_pos; lra). nra. }
  pose proof (G cos zx cos1 R1) as VX. pose proof (G sin zy sin1 R2) as VY. set (vx := fl (fl (a * zx) * t)) in *. set (vy := fl (fl (a * zy) * t)) in *.
  assert (PR : forall f g w v, (forall s, Rabs (f s) <= 1) -> (forall s, Rabs (g s) <= 1) -> Rabs (w - f t) <= W -> Rabs (v - a * t * g t) <= / 200000000000 -> Rabs (fl (w * v) - f t * (a * t * g t)) <= / 100000000000 /\ Rabs (f t * (a * t * g t)) <= 4096).
  { intros f g w v F1 G1 HW HV. split; [eapply Rle_trans; [apply (near_prod _ _ _ _ _ _ 1 4096 HW HV (F1 t) (FT g G1))|]; close|]. rewrite Rabs_mult. pose proof (FT g G1). specialize (F1 t). pose proof (Rabs_pos (f t)). pose proof (Rabs_pos (a * t * g t)). nra. }
  destruct (PR cos sin zx vy cos1 sin1 R1 VY) as (P1 & P1'). destruct (PR sin cos zy vx sin1 cos1 R2 VX) as (P2 & P2'). destruct (PR cos cos zx vx cos1 cos1 R1 VX) as (P3 & P3'). destruct (PR sin sin zy vy sin1 sin1 R2 VY) as (P4 & P4').
  assert (NG : forall p q, Rabs (p - q) <= / 100000000000 -> Rabs (- p - - q) <= / 100000000000) by (intros p q H; replace (- p - - q) with (- (p - q)) by ring; now rewrite Rabs_Ropp).
  assert (SUM : forall p p' q q' x, (Z.abs x <= 2 ^ 20)%Z -> Rabs (p' - p) <= / 100000000000 -> Rabs (q' - q) <= / 100000000000 -> Rabs p <= 4096 -> Rabs q <= 4096 -> Rabs (fl (fl (p' + q') + fl (IZR x)) - (IZR x + (p + q))) <= / 1000000).
  { clear. intros p p' q q' x X P Q HP HQ. assert (S : Rabs (p + q) <= 8192) by (eapply Rle_trans; [apply Rabs_triang|]; lra). apply centred; [exact X| |lra]. eapply Rle_trans; [apply (near_add _ _ _ _ _ _ _ P Q S)|]. close. }
  apply round_near; cbn [fst snd].
  - rewrite Ropp_mult_distr_r_reverse, fl_opp. change (- fl (zx * vy) - fl (zy * vx)) with (- fl (zx * vy) + - fl (zy * vx)). replace (IZR x - a * t * sin (2 * t)) with (IZR x + (- (cos t * (a * t * sin t)) + - (sin t * (a * t * cos t)))) by (rewrite sin_2a; ring).
    apply SUM; [exact X|now apply NG|now apply NG|now rewrite Rabs_Ropp|now rewrite Rabs_Ropp].
  - rewrite Ropp_mult_distr_r_reverse, fl_opp. replace (IZR y + a * t * cos (2 * t)) with (IZR y + (cos t * (a * t * cos t) + - (sin t * (a * t * sin t)))) by (rewrite cos_2a; ring).
    apply SUM; [exact Y|exact P3|now apply NG|exact P3'|now rewrite Rabs_Ropp].
Qed.

(** ** Cases that meet the hypotheses *)
(** the nearest doubles *)
Example C146_libm_ex : libm (fun x => fl (cos x)) (fun x => fl (sin x)).
Proof.
  assert (G : forall v, Rabs v <= 1 -> Rabs (fl v - v) <= / IZR (2 ^ 52) /\ Rabs (fl v) <= 1).
  { intros v V. split; [eapply Rle_trans; [apply (fl_near _ _ V)|]; unfold u, eta; lra|]. apply Rabs_le_inv in V. assert (F1 := fl_1). apply Rabs_le. split.
    - apply Rle_trans with (fl (- (1))); [rewrite fl_opp, F1; lra|apply fl_le; lra].
    - apply Rle_trans with (fl 1); [apply fl_le; lra|lra]. }
  intros x. destruct (G (cos x) (cos1 x)), (G (sin x) (sin1 x)). auto.
Qed.
(** 48 steps of 1/8 *)
Example C146_ex : fl (/ 8) = / 8 /\ steps_below 48 (/ 8) 6 /\ (48 <= 2 ^ 20)%nat /\ Rabs 3 * 6 <= 65536 /\ Rabs (60 / 20) * 6 <= 65536 /\ fl (/ 4) = / 4 /\ Rabs (1 - / 4) <= 1 /\ Rabs ((1 - / 4) / / 4) * 6 <= 65536 /\ Rabs 100 * 6 <= 4096.
Proof.
  assert (E8 : fl (/ 8) = / 8) by (replace (/ 8) with (IZR 1 * bpow radix2 (-3)) by (cbn; lra); apply fl_exact; lia). assert (E4 : fl (/ 4) = / 4) by (replace (/ 4) with (IZR 1 * bpow radix2 (-2)) by (cbn; lra); apply fl_exact; lia).
  split; [exact E8|]. split; [split; [rewrite INR_IZR_INZ; cbn; lra|]; intros k K; assert (INR k <= 47) by (rewrite INR_IZR_INZ; apply IZR_le; lia); lra|]. split; [apply Nat.le_trans with (2 ^ 6)%nat; [cbn; lia|apply Nat.pow_le_mono_r; lia]|].
  split; [rewrite Rabs_pos_eq; lra|]. split; [rewrite Rabs_pos_eq; lra|]. split; [exact E4|]. split; [rewrite Rabs_pos_eq; lra|]. split; rewrite Rabs_pos_eq; lra.
Qed.
Example C146_endless_ex : fl 1 = 1 /\ IZR (2 ^ 55) * 1 < IZR (2 ^ 56).
Proof. split; [apply fl_1|]. rewrite Rmult_1_r. apply IZR_lt. lia. Qed.

Print Assumptions C146_count.
Print Assumptions C146_dyadic.
Print Assumptions C146_ends.
Print Assumptions C146_endless.
Print Assumptions C146_extra_refuted.
Print Assumptions C146_lissajous.
Print Assumptions C146_box.
Print Assumptions C146_epicycloid.
Print Assumptions C146_hypotrochoid.
Print Assumptions C146_zero.
Print Assumptions C146_spirograph.
Print Assumptions C146_involute.
