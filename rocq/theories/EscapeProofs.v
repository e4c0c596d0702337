(** Facts about orbits of complex maps and the loops of fractals.py. *)
From Coq Require Import ZArith Reals List Bool Lia Lra Psatz.
From Verif Require Import PyBase PyFacts Bmp MathLib Fractal Coords RealProofs Sweeps Cplx Escape.
Import ListNotations.
Open Scope R_scope.

(** the value of a loop that stops at the first point with |z| > 2 *)
Definition hits (f : C -> C) (z : C) (m r : Z) : Prop :=
  (0 <= r <= m)%Z /\ (forall n, (1 <= n)%nat -> (Z.of_nat n <= r)%Z -> norm2 (Nat.iter n f z) <= 4) /\
  ((r < m)%Z -> 4 < norm2 (Nat.iter (S (Z.to_nat r)) f z)).
Lemma iter_S {A} (f : A -> A) n z : Nat.iter (S n) f z = f (Nat.iter n f z).
Proof. reflexivity. Qed.
Lemma iter_shift {A} (f : A -> A) n z : Nat.iter n f (f z) = Nat.iter (S n) f z.
Proof. induction n as [|n IH]; [reflexivity|]. now rewrite (iter_S f n (f z)), IH. Qed.
Lemma out2_iff z : out2 z = true <-> 4 < norm2 z.
Proof.
  unfold out2. rewrite rlt_iff, <- cabs_sq. pose proof (cabs_nonneg z). split; intros L; nra.
Qed.
Lemma out4_iff z : rlt 4 (re (cmul z (cconj z))) = true <-> 4 < norm2 z.
Proof.
  rewrite rlt_iff. replace (re (cmul z (cconj z))) with (norm2 z); [tauto|]. unfold norm2, cmul, cconj, re, im. cbn [fst snd]. ring.
Qed.
Lemma escape_hits step out f (z : C) m : (forall z, step z = Ok (f z)) -> (forall z, out z = true <-> 4 < norm2 z) -> (0 <= m)%Z ->
  exists r, escapetime step out z m = Ok r /\ hits f z m r.
Proof.
  intros Hs Ho Hm. unfold escapetime.
  assert (G : forall n i z, (i + Z.of_nat n = m)%Z -> (0 <= i)%Z -> exists r, escape_from step out (fun _ i => Ok i) n i z m = Ok r /\
     (i <= r <= m)%Z /\ (forall k, (1 <= k)%nat -> (i + Z.of_nat k <= r)%Z -> norm2 (Nat.iter k f z) <= 4) /\
     ((r < m)%Z -> 4 < norm2 (Nat.iter (S (Z.to_nat (r - i))) f z))).
  { induction n as [|n IH]; intros i y E I; cbn [escape_from].
    - exists m. split; [reflexivity|]. split; [lia|]. split; [intros; lia|lia].
    - rewrite Hs. cbn [rbind]. destruct (out (f y)) eqn:O.
      + apply Ho in O. exists i. split; [reflexivity|]. split; [lia|]. split; [intros; lia|]. intros _. rewrite Z.sub_diag. exact O.
      + destruct (IH (i + 1)%Z (f y) ltac:(lia) ltac:(lia)) as (r & Er & B & K & L). exists r. split; [exact Er|]. split; [lia|]. split.
        * intros k K1 K2. destruct k as [|[|k]]; [lia| |].
          -- change (Nat.iter 1 f y) with (f y). apply Rnot_lt_le. intros H. apply Ho in H. congruence.
          -- rewrite <- iter_shift. apply K; lia.
        * intros H. specialize (L H). rewrite iter_shift in L. replace (Z.to_nat (r - i)) with (S (Z.to_nat (r - (i + 1)))) by lia. exact L. }
  destruct (G (Z.to_nat m) 0%Z z ltac:(lia) ltac:(lia)) as (r & E & B & K & L). exists r. split; [exact E|]. split; [exact B|]. split.
  - intros n N1 N2. apply K; lia.
  - intros H. rewrite Z.sub_0_r in L. now apply L.
Qed.
Lemma hits_unique f z m r r' : hits f z m r -> hits f z m r' -> r = r'.
Proof.
  intros (A & B & D) (A' & B' & D'). destruct (Z.lt_trichotomy r r') as [L|[E|L]]; [|exact E|].
  - exfalso. specialize (D ltac:(lia)). specialize (B' (S (Z.to_nat r)) ltac:(lia) ltac:(lia)). lra.
  - exfalso. specialize (D' ltac:(lia)). specialize (B (S (Z.to_nat r')) ltac:(lia) ltac:(lia)). lra.
Qed.
(** escaping orbits *)
Lemma growth f z L : 2 < L -> (forall u, L <= cabs u -> cabs u + (L - 2) <= cabs (f u)) -> L <= cabs z ->
  forall n, L + INR n * (L - 2) <= cabs (Nat.iter n f z).
Proof.
  intros HL G Z. induction n as [|n IH].
  - change (Nat.iter 0 f z) with z. cbn [INR]. lra.
  - rewrite S_INR, iter_S. pose proof (pos_INR n) as P.
    assert (L <= cabs (Nat.iter n f z)) by nra.
    specialize (G _ H). lra.
Qed.
Definition bounded (f : C -> C) (z : C) : Prop := exists B, forall n, norm2 (Nat.iter n f z) <= B.
Lemma iter_add {A} (f : A -> A) n k z : Nat.iter (n + k) f z = Nat.iter n f (Nat.iter k f z).
Proof. induction n as [|n IH]; [reflexivity|]. cbn [Nat.add]. now rewrite !iter_S, IH. Qed.
Lemma unbounded f z k L : 2 < L -> (forall u, L <= cabs u -> cabs u + (L - 2) <= cabs (f u)) -> L <= cabs (Nat.iter k f z) -> ~ bounded f z.
Proof.
  intros HL G K (B & HB). pose proof (growth f _ L HL G K) as W.
  destruct (archimed (Rabs B / (L - 2))) as (A & _). set (u := up (Rabs B / (L - 2))) in *.
  assert (Q : Rabs B / (L - 2) * (L - 2) = Rabs B) by (field; lra). pose proof (Rabs_pos B) as PB.
  assert (0 <= Rabs B / (L - 2)) by (apply Rmult_le_pos; [exact PB|]; left; apply Rinv_0_lt_compat; lra).
  assert (U : (0 <= u)%Z) by (apply le_IZR; lra).
  specialize (W (Z.to_nat u)). rewrite <- iter_add in W. specialize (HB (Z.to_nat u + k)%nat). rewrite INR_IZR_INZ, Z2Nat.id in W by exact U.
  rewrite <- cabs_sq in HB. pose proof (RRle_abs B). assert (Rabs B < IZR u * (L - 2)) by nra. nra.
Qed.
Lemma cabs_gt2 z : 4 < norm2 z <-> 2 < cabs z.
Proof. rewrite <- cabs_sq. pose proof (cabs_nonneg z). split; intros; nra. Qed.
Lemma pow_ge2 a n : 1 <= a -> (2 <= n)%nat -> a * a <= a ^ n.
Proof. intros A N. replace (a * a) with (a ^ 2) by ring. now apply Rle_pow. Qed.
(** z ** d + c with |c| <= L *)
Lemma power_growth (g : C -> C) c n L : (2 <= n)%nat -> (forall u, cabs (g u) = cabs u ^ n) -> 2 < L -> cabs c <= L ->
  forall u, L <= cabs u -> cabs u + (L - 2) <= cabs (cadd (g u) c).
Proof.
  intros N G HL HC u HU. pose proof (cabs_sub_ge (g u) c) as T. rewrite G in T. pose proof (pow_ge2 (cabs u) n ltac:(lra) N) as P. nra.
Qed.
(** two loops whose orbits correspond *)
Lemma escape_same (phi : C -> C) step step' out out' n : forall i z m,
  (forall z, step' (phi z) = (let! w := step z in Ok (phi w))%py) -> (forall z, out' (phi z) = out z) ->
  escape_from step' out' (fun _ i => Ok i) n i (phi z) m = escape_from step out (fun _ i => Ok i) n i z m.
Proof.
  induction n as [|n IH]; intros i z m Hs Ho; cbn [escape_from]; [reflexivity|]. rewrite Hs. destruct (step z) as [w|e]; cbn [rbind]; [|reflexivity].
  rewrite Ho. destruct (out w); [reflexivity|]. now apply IH.
Qed.
Lemma escape_start (step : C -> res C) out z z' m : step z = step z' -> escapetime step out z m = escapetime step out z' m.
Proof. intros E. unfold escapetime. destruct (Z.to_nat m) as [|n]; cbn [escape_from]; [reflexivity|]. now rewrite E. Qed.
Lemma cpow_nonneg z d : (0 <= d)%Z -> cpow z d = Ok (cpown z (Z.to_nat d)).
Proof. intros H. unfold cpow. destruct (d <? 0)%Z eqn:E; [apply Z.ltb_lt in E; lia|reflexivity]. Qed.
Lemma cconj_pow z d : cpow (cconj z) d = (let! w := cpow z d in Ok (cconj w))%py.
Proof.
  unfold cpow. replace (ceq (cconj z) (0, 0)) with (ceq z (0, 0)).
  - destruct (d <? 0)%Z; [destruct (ceq z (0, 0)); cbn [rbind]; [reflexivity|]|cbn [rbind]]; now rewrite ?cconj_inv, cconj_pown.
  - destruct (ceq z (0, 0)) eqn:E.
    + symmetry. apply ceq_spec. apply ceq_spec in E. subst. unfold cconj, re, im. cbn [fst snd]. f_equal. ring.
    + symmetry. apply ceq_false. apply ceq_false in E. intros H. apply E. rewrite <- (cconj_conj z), H. unfold cconj, re, im. cbn [fst snd]. f_equal. ring.
Qed.
Lemma norm2_conj z : norm2 (cconj z) = norm2 z.
Proof. unfold norm2, cconj, re, im. cbn [fst snd]. ring. Qed.
Lemma out2_conj z : out2 (cconj z) = out2 z.
Proof. unfold out2. now rewrite cabs_conj. Qed.
Lemma out2_mul w z : cabs w = 1 -> out2 (cmul w z) = out2 z.
Proof. intros W. unfold out2. now rewrite cabs_mul, W, Rmult_1_l. Qed.
Lemma root_abs w n : (1 <= n)%nat -> cpown w n = rtoc 1 -> cabs w = 1.
Proof.
  intros N E. pose proof (f_equal cabs E) as A. rewrite cpown_abs, cabs_1 in A. pose proof (cabs_nonneg w) as P.
  destruct (Rtotal_order (cabs w) 1) as [L|[L|L]]; [|exact L|]; exfalso.
  - assert (cabs w ^ n < 1 ^ n). { destruct n as [|n]; [lia|]. cbn [pow]. rewrite Rmult_1_l, pow1. assert (cabs w ^ n <= 1). { rewrite <- (pow1 n). apply pow_incr. lra. } pose proof (pow_le (cabs w) n P). nra. }
    rewrite pow1 in H. lra.
  - pose proof (Rlt_pow_R1 (cabs w) n L ltac:(lia)). lra.
Qed.
