(** Property C138: Fourier transforms of complex numbers. *)
From Coq Require Import ZArith Reals List PeanoNat Lia Lra Ring.
From Verif Require Import Coords Cplx Fft SpecFft FftProofs PropFft Fourier.
Import ListNotations.
Open Scope R_scope.

(** f 0 + ... + f (n - 1) *)
Fixpoint csum (f : nat -> C) (n : nat) : C := match n with O => (0, 0) | S n => cadd (csum f n) (f n) end.
(** the point of the unit circle at an angle *)
Definition unit (t : R) : C := (cos t, sin t).
(** the angle of x steps of which N make a full turn *)
Definition steps (N : nat) (x : Z) : R := 2 * PI * IZR x / INR N.
Definition at_ (v : list C) (i : nat) : C := nth i v (0, 0).

Lemma unit_add s t : unit (s + t) = cmul (unit s) (unit t).
Proof. apply c_ext; unfold unit, cmul, re, im; cbn [fst snd]; [apply cos_plus|rewrite sin_plus; ring]. Qed.
Lemma unit_opp t : unit (- t) = cconj (unit t).
Proof. apply c_ext; unfold unit, cconj, re, im; cbn [fst snd]; [apply cos_neg|apply sin_neg]. Qed.
Lemma unit_0 : unit 0 = rtoc 1.
Proof. apply c_ext; unfold unit, rtoc, re, im; cbn [fst snd]; [apply cos_0|apply sin_0]. Qed.
Lemma unit_turns x : unit (2 * PI * IZR x) = rtoc 1.
Proof.
  assert (G : forall n : nat, unit (2 * PI * IZR (Z.of_nat n)) = rtoc 1).
  { induction n as [|n IH]; [rewrite Rmult_0_r; apply unit_0|]. rewrite Nat2Z.inj_succ, succ_IZR, Rmult_plus_distr_l, unit_add, IH, Rmult_1_r.
    replace (unit (2 * PI)) with (rtoc 1); [cring|]. apply c_ext; unfold unit, rtoc, re, im; cbn [fst snd]; [now rewrite cos_2PI|now rewrite sin_2PI]. }
  destruct (Z.le_gt_cases 0 x) as [H|H]; [rewrite <- (Z2Nat.id x H); apply G|].
  replace (2 * PI * IZR x) with (- (2 * PI * IZR (Z.of_nat (Z.to_nat (- x))))) by (rewrite Z2Nat.id, opp_IZR by lia; ring). rewrite unit_opp, G. cring.
Qed.
Section Turn.
  Variable N : nat.
  Hypothesis NZ : N <> O.
  Let e (x : Z) := unit (steps N x).
  Lemma N0 : INR N <> 0.
  Proof. now apply not_0_INR. Qed.
  Lemma e_add x y : unit (steps N (x + y)) = cmul (unit (steps N x)) (unit (steps N y)).
  Proof. rewrite <- unit_add. f_equal. unfold steps. rewrite plus_IZR. field. apply N0. Qed.
  Lemma e_opp x : unit (steps N (- x)) = cconj (unit (steps N x)).
  Proof. rewrite <- unit_opp. f_equal. unfold steps. rewrite opp_IZR. field. apply N0. Qed.
  Lemma e_turn x : unit (steps N (x * Z.of_nat N)) = rtoc 1.
  Proof. rewrite <- (unit_turns x). f_equal. unfold steps. rewrite mult_IZR, <- INR_IZR_INZ. field. apply N0. Qed.
  Lemma e_0 : unit (steps N 0) = rtoc 1.
  Proof. rewrite <- unit_0. f_equal. unfold steps. field. apply N0. Qed.
  Lemma e_period x y : unit (steps N (x + y * Z.of_nat N)) = unit (steps N x).
  Proof. rewrite e_add, e_turn. cring. Qed.
  Lemma e_pow x n : rpow (rtoc 1) cmul (unit (steps N x)) n = unit (steps N (Z.of_nat n * x)).
  Proof.
    induction n as [|n IH]; cbn [rpow]; [rewrite Z.mul_0_l; symmetry; apply e_0|]. rewrite IH, <- e_add. do 2 f_equal. lia.
  Qed.
  Lemma e_norm x : norm2 (unit (steps N x)) = 1.
  Proof. unfold norm2, unit, re, im. cbn [fst snd]. pose proof (sin2_cos2 (steps N x)) as H. unfold Rsqr in H. lra. Qed.
End Turn.
Lemma csum_rsum f n : csum f n = rsum (0, 0) cadd f n.
Proof. induction n as [|n IH]; [reflexivity|]. cbn [csum rsum]. now rewrite IH. Qed.
Lemma csum_ext f g n : (forall i, (i < n)%nat -> f i = g i) -> csum f n = csum g n.
Proof. induction n as [|n IH]; intros H; [reflexivity|]. cbn [csum]. rewrite IH, H by (intros; auto; apply H; lia). reflexivity. Qed.
Lemma csum_add f g n : csum (fun i => cadd (f i) (g i)) n = cadd (csum f n) (csum g n).
Proof. induction n as [|n IH]; cbn [csum]; [cring|]. rewrite IH. cring. Qed.
Lemma csum_mul c f n : csum (fun i => cmul c (f i)) n = cmul c (csum f n).
Proof. induction n as [|n IH]; cbn [csum]; [cring|]. rewrite IH. cring. Qed.
Lemma csum_conj f n : csum (fun i => cconj (f i)) n = cconj (csum f n).
Proof. induction n as [|n IH]; cbn [csum]; [cring|]. rewrite IH. cring. Qed.
Lemma csum_swap f n m : csum (fun i => csum (fun j => f i j) m) n = csum (fun j => csum (fun i => f i j) n) m.
Proof.
  induction n as [|n IH]; cbn [csum].
  - induction m as [|m IHm]; cbn [csum]; [reflexivity|]. rewrite <- IHm. cring.
  - rewrite IH, <- csum_add. reflexivity.
Qed.
Lemma csum_first f n : csum f (S n) = cadd (f O) (csum (fun i => f (S i)) n).
Proof. induction n as [|n IH]; [cbn [csum]; cring|]. cbn [csum] in *. rewrite IH. cring. Qed.
Lemma csum_shift g N : (forall n, g (n + N)%nat = g n) -> forall s, csum (fun n => g (n + s)%nat) N = csum g N.
Proof.
  intros P s. induction s as [|s IH]; [apply csum_ext; intros; f_equal; lia|]. rewrite <- IH.
  pose proof (csum_first (fun n => g (n + s)%nat) N) as A. cbn [csum] in A. replace (N + s)%nat with (s + N)%nat in A by lia. rewrite P in A. cbn [Nat.add] in A.
  assert (B : csum (fun i => g (S (i + s))) N = csum (fun n => g (n + S s)%nat) N) by (apply csum_ext; intros; f_equal; lia). rewrite B in A.
  clear B. set (a := csum (fun n => g (n + s)%nat) N) in *. set (b := csum (fun n => g (n + S s)%nat) N) in *. set (c := g s) in *.
  assert (cadd (cadd a c) (copp c) = cadd (cadd c b) (copp c)) as H by now rewrite A. replace (cadd (cadd a c) (copp c)) with a in H by cring. rewrite H. cring.
Qed.
Lemma pow2_0 k : (2 ^ k <> 0)%nat.
Proof. apply Nat.pow_nonzero. lia. Qed.
Lemma fn_steps s m e k : (1 <= e <= k)%nat -> cexp (cmul (rtoc (2 * PI * INR m / INR (2 ^ e))) (0, s)) = unit (s * steps (2 ^ k) (Z.of_nat (m * 2 ^ (k - e)))).
Proof.
  intros H. unfold cexp, cmul, rtoc, re, im. cbn [fst snd]. rewrite !Rmult_0_l, Rmult_0_r, Rminus_0_r, exp_0, !Rmult_1_l, Rplus_0_r. unfold unit.
  assert (E : 2 * PI * INR m / INR (2 ^ e) * s = s * steps (2 ^ k) (Z.of_nat (m * 2 ^ (k - e)))); [|now rewrite E].
  unfold steps. rewrite <- INR_IZR_INZ, mult_INR. replace (2 ^ k)%nat with (2 ^ e * 2 ^ (k - e))%nat by (rewrite <- Nat.pow_add_r; f_equal; lia). rewrite mult_INR.
  field. split; apply not_0_INR, pow2_0.
Qed.
(** [s] is -1 for fft and 1 for ifft *)
Lemma half_turn k s : s = 1%Z \/ s = (-1)%Z -> (0 < k)%nat -> rpow (rtoc 1) cmul (unit (steps (2 ^ k) s)) (2 ^ (k - 1)) = copp (rtoc 1).
Proof.
  intros S K. rewrite e_pow by apply pow2_0. assert (E : steps (2 ^ k) (Z.of_nat (2 ^ (k - 1)) * s) = IZR s * PI).
  { unfold steps. rewrite mult_IZR, <- INR_IZR_INZ. replace (2 ^ k)%nat with (2 * 2 ^ (k - 1))%nat by (rewrite <- Nat.pow_succ_r'; f_equal; lia). rewrite mult_INR. cbn [INR]. field. apply not_0_INR, pow2_0. }
  rewrite E. destruct S as [-> | ->]; apply c_ext; unfold unit, copp, rtoc, re, im; cbn [fst snd].
  - now rewrite Rmult_1_l, cos_PI.
  - rewrite Rmult_1_l, sin_PI. lra.
  - replace (-1 * PI) with (- PI) by ring. now rewrite cos_neg, cos_PI.
  - replace (-1 * PI) with (- PI) by ring. rewrite sin_neg, sin_PI. lra.
Qed.
Lemma fn_pow s k m e : (1 <= e <= k)%nat -> cexp (cmul (rtoc (2 * PI * INR m / INR (2 ^ e))) (0, IZR s)) = rpow (rtoc 1) cmul (unit (steps (2 ^ k) s)) (m * 2 ^ (k - e)).
Proof.
  intros H. rewrite (fn_steps _ _ _ k) by exact H. rewrite e_pow by apply pow2_0. f_equal. unfold steps. rewrite mult_IZR. field. apply not_0_INR, pow2_0.
Qed.
Lemma minus_i : copp cI = (0, IZR (-1)).
Proof. apply c_ext; unfold copp, cI, re, im; cbn [fst snd]; lra. Qed.
Lemma run_fft k v : length v = (2 ^ k)%nat -> length (cfft v) = (2 ^ k)%nat /\
  forall j, (j < 2 ^ k)%nat -> at_ (cfft v) j = csum (fun i => cmul (at_ v i) (unit (steps (2 ^ k) (- (Z.of_nat i * Z.of_nat j))))) (2 ^ k).
Proof.
  intros L. assert (H : k = O \/ rpow (rtoc 1) cmul (unit (steps (2 ^ k) (-1))) (2 ^ (k - 1)) = copp (rtoc 1)).
  { destruct k; [now left|]. right. apply half_turn; [auto|lia]. }
  destruct (C113_transform C (0, 0) (rtoc 1) cadd cmul csub copp C_ring k _ (fun m n => fftfn (2 * PI * INR m / INR n)) v L H) as [L1 T1].
  { intros m e E _. unfold fftfn. rewrite minus_i. now apply fn_pow. }
  split; [exact L1|]. intros j J. refine (eq_trans (T1 j J) _). rewrite <- csum_rsum. apply csum_ext. intros i I. unfold at_. f_equal. rewrite e_pow by apply pow2_0. do 2 f_equal. lia.
Qed.
Lemma run_ifft k v : length v = (2 ^ k)%nat -> length (cifft v) = (2 ^ k)%nat /\
  forall j, (j < 2 ^ k)%nat -> at_ (cifft v) j = csum (fun i => cmul (at_ v i) (unit (steps (2 ^ k) (Z.of_nat i * Z.of_nat j)))) (2 ^ k).
Proof.
  intros L. assert (H : k = O \/ rpow (rtoc 1) cmul (unit (steps (2 ^ k) 1)) (2 ^ (k - 1)) = copp (rtoc 1)).
  { destruct k; [now left|]. right. apply half_turn; [auto|lia]. }
  destruct (C113_transform C (0, 0) (rtoc 1) cadd cmul csub copp C_ring k _ (fun m n => ifftfn (2 * PI * INR m / INR n)) v L H) as [L1 T1].
  { intros m e E _. unfold ifftfn. change cI with (0, IZR 1). now apply fn_pow. }
  split; [exact L1|]. intros j J. refine (eq_trans (T1 j J) _). rewrite <- csum_rsum. apply csum_ext. intros i I. unfold at_. f_equal. rewrite e_pow by apply pow2_0. do 2 f_equal. lia.
Qed.
(** ** The transform *)
Theorem C138_transform : forall k v, length v = (2 ^ k)%nat ->
  length (cfft v) = (2 ^ k)%nat /\ length (cifft v) = (2 ^ k)%nat /\
  forall j, (j < 2 ^ k)%nat ->
    at_ (cfft v) j = csum (fun i => cmul (at_ v i) (cos (2 * PI * INR i * INR j / INR (2 ^ k)), - sin (2 * PI * INR i * INR j / INR (2 ^ k)))) (2 ^ k) /\
    at_ (cifft v) j = csum (fun i => cmul (at_ v i) (cos (2 * PI * INR i * INR j / INR (2 ^ k)), sin (2 * PI * INR i * INR j / INR (2 ^ k)))) (2 ^ k).
Proof.
  intros k v L. destruct (run_fft k v L) as [L1 T1]. destruct (run_ifft k v L) as [L2 T2]. split; [exact L1|]. split; [exact L2|]. intros j J.
  assert (E : forall i, steps (2 ^ k) (Z.of_nat i * Z.of_nat j) = 2 * PI * INR i * INR j / INR (2 ^ k)) by (intros i; unfold steps; rewrite mult_IZR, <- !INR_IZR_INZ; field; apply not_0_INR, pow2_0).
  rewrite (T1 j J), (T2 j J). split; apply csum_ext; intros i I; f_equal; [rewrite e_opp by apply pow2_0|]; rewrite E; reflexivity.
Qed.
Lemma norm_conj u : cmul u (cconj u) = rtoc (norm2 u).
Proof. apply c_ext; unfold cmul, cconj, rtoc, norm2, re, im; cbn [fst snd]; ring. Qed.
Lemma times_c n a : times (0, 0) cadd n a = cmul (rtoc (INR n)) a.
Proof.
  unfold times. induction n as [|n IH]; cbn [rsum]; [cbn [INR]; cring|]. rewrite IH, S_INR. cring.
Qed.
(** ifft after fft, and fft after ifft, multiply by the length. *)
Theorem C138_inverse : forall k v, length v = (2 ^ k)%nat -> cifft (cfft v) = map (cmul (rtoc (INR (2 ^ k)))) v /\ cfft (cifft v) = map (cmul (rtoc (INR (2 ^ k)))) v.
Proof.
  intros k v L. assert (Hf : forall m e, (1 <= e <= k)%nat -> (m < 2 ^ (e - 1))%nat -> fftfn (2 * PI * INR m / INR (2 ^ e)) = rpow (rtoc 1) cmul (unit (steps (2 ^ k) (-1))) (m * 2 ^ (k - e))).
  { intros m e E _. unfold fftfn. rewrite minus_i. now apply fn_pow. }
  assert (Hi : forall m e, (1 <= e <= k)%nat -> (m < 2 ^ (e - 1))%nat -> ifftfn (2 * PI * INR m / INR (2 ^ e)) = rpow (rtoc 1) cmul (unit (steps (2 ^ k) 1)) (m * 2 ^ (k - e))).
  { intros m e E _. unfold ifftfn. change cI with (0, IZR 1). now apply fn_pow. }
  assert (H : forall s, s = 1%Z \/ s = (-1)%Z -> k = O \/ rpow (rtoc 1) cmul (unit (steps (2 ^ k) s)) (2 ^ (k - 1)) = copp (rtoc 1)).
  { intros s S. destruct k; [now left|]. right. apply half_turn; [exact S|lia]. }
  assert (U : cmul (unit (steps (2 ^ k) (-1))) (unit (steps (2 ^ k) 1)) = rtoc 1) by (rewrite <- e_add by apply pow2_0; apply (e_0 (2 ^ k)), pow2_0).
  assert (U' : cmul (unit (steps (2 ^ k) 1)) (unit (steps (2 ^ k) (-1))) = rtoc 1) by (rewrite <- e_add by apply pow2_0; apply (e_0 (2 ^ k)), pow2_0).
  assert (M : map (times (0, 0) cadd (length v)) v = map (cmul (rtoc (INR (2 ^ k)))) v) by (rewrite L; apply map_ext; intros a; apply times_c).
  split; refine (eq_trans _ M).
  - refine (C113_inverse C (0, 0) (rtoc 1) cadd cmul csub copp C_ring k _ _ _ _ v L U (H _ _) Hf Hi). auto.
  - refine (C113_inverse C (0, 0) (rtoc 1) cadd cmul csub copp C_ring k _ _ _ _ v L U' (H _ _) Hi Hf). auto.
Qed.
(** ** Energy: the squares of the absolute values add up to the length times those of the list. *)
Fixpoint total (f : nat -> R) (n : nat) : R := match n with O => 0 | S n => total f n + f n end.
Lemma csum_total f n : csum (fun i => rtoc (f i)) n = rtoc (total f n).
Proof. induction n as [|n IH]; cbn [csum total]; [reflexivity|]. rewrite IH. cring. Qed.
Theorem C138_energy : forall k v, length v = (2 ^ k)%nat -> total (fun j => norm2 (at_ (cfft v) j)) (2 ^ k) = INR (2 ^ k) * total (fun i => norm2 (at_ v i)) (2 ^ k).
Proof.
  intros k v L. destruct (run_fft k v L) as [L1 T1]. set (N := (2 ^ k)%nat) in *. set (V := cfft v) in *.
  assert (INVV : forall i, (i < N)%nat -> csum (fun j => cmul (at_ V j) (unit (steps N (Z.of_nat j * Z.of_nat i)))) N = cmul (rtoc (INR N)) (at_ v i)).
  { intros i I. destruct (run_ifft k V L1) as [L2 T2]. fold N in T2. rewrite <- (T2 i I). unfold at_, V. rewrite (proj1 (C138_inverse k v L)). fold N.
    rewrite (nth_indep _ (0, 0) (cmul (rtoc (INR N)) (0, 0))) by (rewrite map_length; lia). apply (map_nth (cmul (rtoc (INR N)))). }
  enough (E : rtoc (total (fun j => norm2 (at_ V j)) N) = rtoc (INR N * total (fun i => norm2 (at_ v i)) N)) by (injection E; auto).
  rewrite <- csum_total. rewrite (csum_ext _ (fun j => csum (fun i => cmul (at_ v i) (cmul (cconj (at_ V j)) (unit (steps N (- (Z.of_nat i * Z.of_nat j)))))) N)).
  2:{ intros j J. rewrite <- norm_conj. set (c := cconj (at_ V j)). replace (cmul (at_ V j) c) with (cmul c (at_ V j)) by cring. rewrite (T1 j J), <- csum_mul. apply csum_ext. intros i I. cring. }
  rewrite csum_swap. transitivity (csum (fun i => rtoc (INR N * norm2 (at_ v i))) N).
  - apply csum_ext. intros i I. rewrite csum_mul. replace (csum (fun j => cmul (cconj (at_ V j)) (unit (steps N (- (Z.of_nat i * Z.of_nat j))))) N) with (cconj (cmul (rtoc (INR N)) (at_ v i))).
    + apply c_ext; unfold cmul, cconj, rtoc, norm2, re, im; cbn [fst snd]; ring.
    + rewrite <- (INVV i I), <- csum_conj. apply csum_ext. intros j J. rewrite e_opp by (unfold N; apply pow2_0). rewrite Z.mul_comm. cring.
  - rewrite csum_total. f_equal. clear. generalize (INR N). intros c. induction N as [|n IH]; cbn [total]; [ring|]. rewrite IH. ring.
Qed.
(** ** Linearity, reals, shifts and convolution *)
Theorem C138_linear : forall k a u v w, length u = (2 ^ k)%nat -> length v = (2 ^ k)%nat -> length w = (2 ^ k)%nat -> (forall i, (i < 2 ^ k)%nat -> at_ w i = cadd (cmul a (at_ u i)) (at_ v i)) ->
  forall j, (j < 2 ^ k)%nat -> at_ (cfft w) j = cadd (cmul a (at_ (cfft u) j)) (at_ (cfft v) j).
Proof.
  intros k a u v w U V W H j J. rewrite (proj2 (run_fft k u U) j J), (proj2 (run_fft k v V) j J), (proj2 (run_fft k w W) j J). rewrite <- csum_mul, <- csum_add. apply csum_ext. intros i I. rewrite (H i I). cring.
Qed.
(** The transform of real numbers is conjugate symmetric, and its first entry is their sum. *)
Theorem C138_real : forall k v, length v = (2 ^ k)%nat ->
  at_ (cfft v) 0 = csum (at_ v) (2 ^ k) /\
  (Forall (fun z => im z = 0) v -> forall j, (0 < j < 2 ^ k)%nat -> at_ (cfft v) (2 ^ k - j) = cconj (at_ (cfft v) j)).
Proof.
  intros k v L. destruct (run_fft k v L) as [_ T]. pose proof (pow2_0 k) as NZ. split.
  - rewrite (T O) by lia. apply csum_ext. intros i I. rewrite Z.mul_0_r. change (- 0)%Z with 0%Z. rewrite e_0 by exact NZ. cring.
  - intros F j J. rewrite (T j), (T (2 ^ k - j)%nat) by lia. rewrite <- csum_conj. apply csum_ext. intros i I. rewrite cconj_mul.
    assert (R : cconj (at_ v i) = at_ v i). { rewrite Forall_forall in F. assert (Z : im (at_ v i) = 0) by (apply F, nth_In; lia). apply c_ext; unfold cconj; cbn; [reflexivity|]. fold (im (at_ v i)). unfold im in *. cbn [fst snd]. lra. }
    rewrite R. f_equal. rewrite <- e_opp by exact NZ. rewrite <- (e_period (2 ^ k) NZ (- - (Z.of_nat i * Z.of_nat j)) (- Z.of_nat i)). do 2 f_equal. rewrite Nat2Z.inj_sub by lia. ring.
Qed.
(** Moving the list round by s entries turns entry j by s j steps. *)
Theorem C138_shift : forall k v w s, length v = (2 ^ k)%nat -> length w = (2 ^ k)%nat -> (forall i, (i < 2 ^ k)%nat -> at_ w i = at_ v ((i + s) mod 2 ^ k)) ->
  forall j, (j < 2 ^ k)%nat -> at_ (cfft w) j = cmul (unit (2 * PI * INR s * INR j / INR (2 ^ k))) (at_ (cfft v) j).
Proof.
  intros k v w s L W H j J. pose proof (pow2_0 k) as NZ. rewrite (proj2 (run_fft k v L) j J), (proj2 (run_fft k w W) j J). set (N := (2 ^ k)%nat) in *.
  set (g := fun n => cmul (at_ v (n mod N)) (unit (steps N (- (Z.of_nat n * Z.of_nat j))))).
  assert (P : forall n, g (n + N)%nat = g n).
  { intros n. unfold g. replace ((n + N) mod N)%nat with (n mod N)%nat by (rewrite <- (Nat.mod_add n 1 N NZ); f_equal; lia). f_equal.
    rewrite <- (e_period N NZ (- (Z.of_nat n * Z.of_nat j)) (- Z.of_nat j)). do 2 f_equal. rewrite Nat2Z.inj_add. ring. }
  transitivity (cmul (unit (2 * PI * INR s * INR j / INR N)) (csum (fun n => g (n + s)%nat) N)).
  - rewrite <- csum_mul. apply csum_ext. intros i I. rewrite (H i I). unfold g.
    replace (2 * PI * INR s * INR j / INR N) with (steps N (Z.of_nat s * Z.of_nat j)) by (unfold steps; rewrite mult_IZR, <- !INR_IZR_INZ; field; now apply not_0_INR).
    replace (- (Z.of_nat i * Z.of_nat j))%Z with (Z.of_nat s * Z.of_nat j + - (Z.of_nat (i + s) * Z.of_nat j))%Z by (rewrite Nat2Z.inj_add; ring). rewrite e_add by exact NZ. cring.
  - rewrite csum_shift by exact P. f_equal. apply csum_ext. intros i I. unfold g. now rewrite Nat.mod_small by exact I.
Qed.
(** The product of two transforms is the transform of the circular convolution. *)
Theorem C138_convolution : forall k u v w, length u = (2 ^ k)%nat -> length v = (2 ^ k)%nat -> length w = (2 ^ k)%nat ->
  (forall n, (n < 2 ^ k)%nat -> at_ w n = csum (fun i => cmul (at_ u i) (at_ v ((n + (2 ^ k - i)) mod 2 ^ k))) (2 ^ k)) ->
  forall j, (j < 2 ^ k)%nat -> at_ (cfft w) j = cmul (at_ (cfft u) j) (at_ (cfft v) j).
Proof.
  intros k u v w U V W H j J. pose proof (pow2_0 k) as NZ. rewrite (proj2 (run_fft k u U) j J), (proj2 (run_fft k v V) j J), (proj2 (run_fft k w W) j J). set (N := (2 ^ k)%nat) in *.
  set (tv := csum (fun i => cmul (at_ v i) (unit (steps N (- (Z.of_nat i * Z.of_nat j))))) N).
  rewrite (csum_ext _ (fun n => csum (fun i => cmul (at_ u i) (cmul (at_ v ((n + (N - i)) mod N)) (unit (steps N (- (Z.of_nat n * Z.of_nat j)))))) N)).
  2:{ intros n I. rewrite (H n I). set (c := unit _). transitivity (cmul c (csum (fun i => cmul (at_ u i) (at_ v ((n + (N - i)) mod N))) N)); [cring|]. rewrite <- csum_mul. apply csum_ext. intros. cring. }
  rewrite csum_swap. transitivity (csum (fun i => cmul tv (cmul (at_ u i) (unit (steps N (- (Z.of_nat i * Z.of_nat j)))))) N); [|rewrite csum_mul; cring].
  apply csum_ext. intros i I. rewrite csum_mul.
  set (g := fun n => cmul (at_ v ((n + (N - i)) mod N)) (unit (steps N (- (Z.of_nat n * Z.of_nat j))))).
  assert (P : forall n, g (n + N)%nat = g n).
  { intros n. unfold g. replace ((n + N + (N - i)) mod N)%nat with ((n + (N - i)) mod N)%nat by (rewrite <- (Nat.mod_add (n + (N - i)) 1 N NZ); f_equal; lia). f_equal.
    rewrite <- (e_period N NZ (- (Z.of_nat n * Z.of_nat j)) (- Z.of_nat j)). do 2 f_equal. rewrite Nat2Z.inj_add. ring. }
  change (csum _ N) with (csum g N). rewrite <- (csum_shift g N P i).
  assert (E : csum (fun n => g (n + i)%nat) N = cmul (unit (steps N (- (Z.of_nat i * Z.of_nat j)))) tv).
  { unfold tv. rewrite <- csum_mul. apply csum_ext. intros n L. unfold g. replace ((n + i + (N - i)) mod N)%nat with n by (replace (n + i + (N - i))%nat with (n + 1 * N)%nat by lia; rewrite Nat.mod_add, Nat.mod_small by lia; reflexivity).
    replace (- (Z.of_nat (n + i) * Z.of_nat j))%Z with (- (Z.of_nat i * Z.of_nat j) + - (Z.of_nat n * Z.of_nat j))%Z by (rewrite Nat2Z.inj_add; ring). rewrite e_add by exact NZ. cring. }
  rewrite E. cring.
Qed.
(** A list that turns f times round the circle shows up in entry f only. *)
Theorem C138_tone : forall k f v, (f < 2 ^ k)%nat -> length v = (2 ^ k)%nat -> (forall i, (i < 2 ^ k)%nat -> at_ v i = unit (2 * PI * INR f * INR i / INR (2 ^ k))) ->
  forall j, (j < 2 ^ k)%nat -> at_ (cfft v) j = if Nat.eqb j f then rtoc (INR (2 ^ k)) else (0, 0).
Proof.
  intros k f v F L H j J. pose proof (pow2_0 k) as NZ.
  (* v is the inverse transform of a list with one entry *)
  set (d := map (fun i => if Nat.eqb i f then rtoc 1 else (0, 0)) (seq 0 (2 ^ k))). assert (D : length d = (2 ^ k)%nat) by (unfold d; now rewrite map_length, seq_length).
  assert (A : forall i, (i < 2 ^ k)%nat -> at_ d i = if Nat.eqb i f then rtoc 1 else (0, 0)).
  { intros i I. unfold at_, d. set (h := fun i => if Nat.eqb i f then rtoc 1 else (0, 0)). rewrite (nth_indep _ (0, 0) (h O)) by (rewrite map_length, seq_length; lia). rewrite map_nth, seq_nth by lia. reflexivity. }
  assert (E : v = cifft d).
  { destruct (run_ifft k d D) as [L2 T2]. apply (nth_ext _ _ (0, 0) (0, 0)); [exact (eq_trans L (eq_sym L2))|]. intros i I0. assert (I : (i < 2 ^ k)%nat) by (rewrite <- L; exact I0). change (at_ v i = at_ (cifft d) i). rewrite (H i I), (T2 i I).
    rewrite csum_rsum. rewrite (sum_one C (0, 0) (rtoc 1) cadd cmul csub copp C_ring _ _ f F).
    - rewrite (A f F), Nat.eqb_refl. replace (steps (2 ^ k) (Z.of_nat f * Z.of_nat i)) with (2 * PI * INR f * INR i / INR (2 ^ k)) by (unfold steps; rewrite mult_IZR, <- !INR_IZR_INZ; field; now apply not_0_INR). cring.
    - intros n In Nf. rewrite (A n In). apply Nat.eqb_neq in Nf. rewrite Nf. cring. }
  rewrite E. unfold at_. rewrite (proj2 (C138_inverse k d D)). rewrite (nth_indep _ (0, 0) (cmul (rtoc (INR (2 ^ k))) (0, 0))) by (rewrite map_length; lia). rewrite (map_nth (cmul (rtoc (INR (2 ^ k))))).
  change (nth j d (0, 0)) with (at_ d j). rewrite (A j J). destruct (Nat.eqb j f); cring.
Qed.
(** No entry is larger than the sum of the absolute values. *)
Theorem C138_bound : forall k v j, length v = (2 ^ k)%nat -> (j < 2 ^ k)%nat -> cabs (at_ (cfft v) j) <= total (fun i => cabs (at_ v i)) (2 ^ k).
Proof.
  intros k v j L J. rewrite (proj2 (run_fft k v L) j J). pose proof (pow2_0 k) as NZ. generalize (2 ^ k)%nat at 2 3. intros n. induction n as [|n IH]; cbn [csum total].
  - unfold cabs. replace (norm2 (0, 0)) with 0 by (unfold norm2, re, im; cbn [fst snd]; ring). rewrite sqrt_0. lra.
  - eapply Rle_trans; [apply cabs_triangle|]. apply Rplus_le_compat; [exact IH|]. rewrite cabs_mul. unfold cabs at 2. rewrite e_norm, sqrt_1. lra.
Qed.
Lemma four a b c d : at_ (cfft [a; b; c; d]) 1 = (re a + im b - re c - im d, im a - re b - im c + re d).
Proof.
  rewrite (proj1 (proj2 (proj2 (C138_transform 2 [a; b; c; d] eq_refl)) 1%nat ltac:(cbn; lia))). change (2 ^ 2)%nat with 4%nat. cbn [csum]. unfold at_. cbn [nth INR].
  replace (2 * PI * 0 * 1 / (1 + 1 + 1 + 1)) with 0 by field. replace (2 * PI * 1 * 1 / (1 + 1 + 1 + 1)) with (PI / 2) by field.
  replace (2 * PI * (1 + 1) * 1 / (1 + 1 + 1 + 1)) with PI by field. replace (2 * PI * (1 + 1 + 1) * 1 / (1 + 1 + 1 + 1)) with (3 * (PI / 2)) by field.
  rewrite cos_0, sin_0, cos_PI2, sin_PI2, cos_PI, sin_PI, cos_3PI2, sin_3PI2. apply c_ext; unfold cadd, cmul, re, im; cbn [fst snd]; ring.
Qed.
Example C138_ex : length [rtoc 1; rtoc 2; rtoc 4; (0, 3)] = (2 ^ 2)%nat /\ at_ (cfft [rtoc 1; rtoc 2; rtoc 4; (0, 3)]) 1 = (-6, -2) /\ at_ (cfft [rtoc 1; rtoc 2; rtoc 4; rtoc 3]) 3 = (-3, -1).
Proof.
  split; [reflexivity|]. split.
  - rewrite four. apply c_ext; unfold rtoc, re, im; cbn [fst snd]; ring.
  - change 3%nat with (2 ^ 2 - 1)%nat. rewrite (proj2 (C138_real 2 [rtoc 1; rtoc 2; rtoc 4; rtoc 3] eq_refl)); [|repeat (constructor; [reflexivity|]); constructor|cbn; lia].
    rewrite four. apply c_ext; unfold cconj, rtoc, re, im; cbn [fst snd]; ring.
Qed.

Print Assumptions C138_transform.
Print Assumptions C138_inverse.
Print Assumptions C138_energy.
Print Assumptions C138_linear.
Print Assumptions C138_real.
Print Assumptions C138_shift.
Print Assumptions C138_convolution.
Print Assumptions C138_tone.
Print Assumptions C138_bound.
