(** Property C145: escape times of fractals with the rounding of floats. *)
From Coq Require Import ZArith Reals List Lia Lra Bool.
From Flocq Require Import Core.
From Verif Require Import PyBase PyFacts Bmp BmpFacts Region Geometry MathLib Spec PropFractal Fractal PropFractal PropEscape Coords RealProofs Sweeps Floats FloatProofs FloatEscape.
Import ListNotations.
Open Scope R_scope.

(** ** Loops that run alike *)
Lemma escape_sim {S T} (Rl : S -> T -> Prop) step step' out out' found found' :
  (forall z w, Rl z w -> exists z' w', step z = Ok z' /\ step' w = Ok w' /\ Rl z' w' /\ out z' = out' w' /\ forall i, found z' i = found' w' i) ->
  forall n i z w m, Rl z w -> escape_from step out found n i z m = escape_from step' out' found' n i w m.
Proof.
  intros H n. induction n as [|n IH]; intros i z w m R; [reflexivity|]. cbn [escape_from]. destruct (H z w R) as (z' & w' & -> & -> & R' & E & F). cbn [rbind]. rewrite E, F. destruct (out' w'); [reflexivity|]. now apply IH.
Qed.
Lemma escape_sim' {S} (g : S -> S) step step' out out' : (forall z, exists z', step z = Ok z' /\ step' (g z) = Ok (g z') /\ out' (g z') = out z') ->
  forall z m, escapetime step' out' (g z) m = escapetime step out z m.
Proof.
  intros H z m. unfold escapetime. apply (escape_sim (fun a b => a = g b)); [|reflexivity]. intros a b ->. destruct (H b) as (z' & E & E' & O). exists (g z'), z'. repeat split; auto.
Qed.
(** Every value is a number of an iteration or maxiter. *)
Lemma escape_total {S} (step : S -> S) out m : (0 <= m)%Z -> forall z, exists r, escapetime (fun z => Ok (step z)) out z m = Ok r /\ (0 <= r <= m)%Z.
Proof.
  intros M z. unfold escapetime. assert (G : forall n i z, (0 <= i)%Z -> (i + Z.of_nat n <= m)%Z -> exists r, escape_from (fun z => Ok (step z)) out (fun _ i => Ok i) n i z m = Ok r /\ (0 <= r <= m)%Z).
  { induction n as [|n IH]; intros i y I L; cbn [escape_from rbind]; [exists m; split; [reflexivity|lia]|]. destruct (out (step y)); [exists i; split; [reflexivity|lia]|]. apply IH; lia. }
  apply G; lia.
Qed.
Theorem C145_total : forall hyp P Q c d m, (0 <= m)%Z ->
  let ok v := exists r, v = Ok r /\ (0 <= r <= m)%Z in
  ok (fmultibrot hyp P Q d m) /\ ok (fmultijulia P Q c d m) /\ ok (fmulticorn hyp P Q d m) /\ ok (flambdafn hyp P Q c m) /\ ok (fbarnsleytree hyp P Q c m).
Proof. intros hyp P Q c d m M ok. unfold ok, fmultibrot, fmultijulia, fmulticorn, flambdafn, fbarnsleytree. repeat split; now apply escape_total. Qed.

(** ** Symmetries survive rounding *)
Definition fcneg (a : R * R) : R * R := (- fst a, - snd a).
Lemma conj_add a b : fcadd (fcconj a) (fcconj b) = fcconj (fcadd a b).
Proof. unfold fcadd, fcconj. cbn [fst snd]. now rewrite <- Ropp_plus_distr, fl_opp. Qed.
Lemma conj_sub a b : fcsub (fcconj a) (fcconj b) = fcconj (fcsub a b).
Proof. unfold fcsub, fcconj. cbn [fst snd]. f_equal. rewrite <- fl_opp. f_equal. ring. Qed.
Lemma conj_mul a b : fcmul (fcconj a) (fcconj b) = fcconj (fcmul a b).
Proof.
  unfold fcmul, fcconj. cbn [fst snd]. rewrite Rmult_opp_opp. f_equal. rewrite Ropp_mult_distr_r_reverse, Ropp_mult_distr_l_reverse, !fl_opp, <- Ropp_plus_distr. apply fl_opp.
Qed.
Lemma conj_real x : (x, 0) = fcconj (x, 0).
Proof. unfold fcconj. cbn [fst snd]. now rewrite Ropp_0. Qed.
Lemma conj_powu d : forall r p, fcpowu d (fcconj r) (fcconj p) = fcconj (fcpowu d r p).
Proof. induction d as [d IH|d IH|]; intros r p; cbn [fcpowu]; rewrite !conj_mul; [apply IH|apply IH|reflexivity]. Qed.
Lemma conj_pow z d : fcpow (fcconj z) d = fcconj (fcpow z d).
Proof. unfold fcpow. rewrite <- conj_powu. f_equal. apply conj_real. Qed.
Lemma neg_mul2 a : fcmul (fcneg a) (fcneg a) = fcmul a a.
Proof. unfold fcmul, fcneg. cbn [fst snd]. now rewrite !Rmult_opp_opp. Qed.
Lemma neg_mul a b : fcmul a (fcneg b) = fcneg (fcmul a b).
Proof. unfold fcmul, fcneg. cbn [fst snd]. rewrite !Ropp_mult_distr_r_reverse, !fl_opp. f_equal; match goal with |- ?l = - fl ?x => rewrite <- (fl_opp x) end; apply f_equal; ring. Qed.
Lemma neg_sub a b : fcsub (fcneg a) (fcneg b) = fcneg (fcsub a b).
Proof. unfold fcsub, fcneg. cbn [fst snd]. f_equal; rewrite <- fl_opp; f_equal; ring. Qed.
(** the length of a complex number does not depend on signs *)
Definition sign_free (hyp : R * R -> R) : Prop := forall x y, hyp (x, - y) = hyp (x, y) /\ hyp (- x, y) = hyp (x, y).
Lemma rsign_opp x : rsign (- x) = - rsign x.
Proof. unfold rsign, rlt. destruct (Rlt_dec 0 (- x)), (Rlt_dec (- x) 0), (Rlt_dec 0 x), (Rlt_dec x 0); lra. Qed.
Theorem C145_mirror : forall hyp, sign_free hyp -> forall P Q d m,
  fmultibrot hyp P (- Q) d m = fmultibrot hyp P Q d m /\ fmulticorn hyp P (- Q) d m = fmulticorn hyp P Q d m /\
  (forall x, fmultijulia P (- Q) (x, 0) d m = fmultijulia P Q (x, 0) d m) /\ (forall x, flambdafn hyp P (- Q) (x, 0) m = flambdafn hyp P Q (x, 0) m) /\
  (forall x, fbarnsleytree hyp P (- Q) (x, 0) m = fbarnsleytree hyp P Q (x, 0) m) /\ (forall x lim, fmarekdragon P (- Q) x m lim = fmarekdragon P Q x m lim).
Proof.
  intros hyp H P Q d m. assert (Z0 : (0, 0) = fcconj (0, 0)) by apply conj_real. assert (PQ : (P, - Q) = fcconj (P, Q)) by reflexivity.
  assert (O2 : forall z, fout2 hyp (fcconj z) = fout2 hyp z) by (intros [x y]; unfold fout2, fcconj; cbn [fst snd]; now rewrite (proj1 (H x y))).
  split; [|split; [|split; [|split; [|split]]]].
  - unfold fmultibrot. rewrite Z0 at 1. apply escape_sim'. intros z. eexists. split; [reflexivity|]. split; [|apply O2]. now rewrite PQ, conj_pow, conj_add.
  - unfold fmulticorn. rewrite Z0 at 1. apply escape_sim'. intros z. eexists. split; [reflexivity|]. split; [|apply O2]. now rewrite PQ, conj_pow, conj_add.
  - intros x. unfold fmultijulia. rewrite PQ. apply escape_sim'. intros z. eexists. split; [reflexivity|]. split; [rewrite (conj_real x), conj_pow, conj_add, <- (conj_real x); reflexivity|]. now rewrite conj_mul.
  - intros x. unfold flambdafn. rewrite PQ. apply escape_sim'. intros z. eexists. split; [reflexivity|]. split; [|apply O2]. rewrite (conj_real x), conj_mul, (conj_real 1), conj_sub, conj_mul. now rewrite <- !conj_real.
  - intros x. unfold fbarnsleytree. rewrite PQ. apply escape_sim'. intros z. eexists. split; [reflexivity|]. split; [|apply O2]. change (fst (fcconj z)) with (fst z). rewrite (conj_real x), (conj_real (rsign (fst z))), conj_sub, conj_mul. now rewrite <- !conj_real.
  - intros x lim. unfold fmarekdragon, limitedescape. apply (escape_sim (fun a b => fst a = fcconj (fst b) /\ snd a = snd b)); [|split; reflexivity].
    intros [z s] [w t]. cbn [fst snd]. intros (-> & ->). do 2 eexists. split; [reflexivity|]. split; [reflexivity|]. cbn [fst snd].
    assert (E : fcmul (fcconj w) (fcadd (x, 0) (fcconj w)) = fcconj (fcmul w (fcadd (x, 0) w))) by (rewrite (conj_real x), conj_add, conj_mul, <- (conj_real x); reflexivity). rewrite E.
    change (snd (fcconj (fcmul w (fcadd (x, 0) w)))) with (- snd (fcmul w (fcadd (x, 0) w))). rewrite Rabs_Ropp. repeat split; reflexivity.
Qed.
Theorem C145_halfturn : forall P Q c m, (forall d, fmultijulia (- P) (- Q) c (xO d) m = fmultijulia P Q c (xO d) m) /\
  forall hyp, sign_free hyp -> fbarnsleytree hyp (- P) (- Q) c m = fbarnsleytree hyp P Q c m.
Proof.
  intros P Q c m. split.
  - intros d. unfold fmultijulia, escapetime. destruct (Z.to_nat m) as [|n]; [reflexivity|]. cbn [escape_from]. unfold fcpow. cbn [fcpowu]. change (- P, - Q) with (fcneg (P, Q)). now rewrite neg_mul2.
  - intros hyp H. unfold fbarnsleytree. change (- P, - Q) with (fcneg (P, Q)). apply escape_sim'. intros z. eexists. split; [reflexivity|]. split.
    + f_equal. rewrite <- neg_mul, <- neg_sub. f_equal. f_equal. unfold fcneg. cbn [fst snd]. now rewrite rsign_opp, Ropp_0.
    + destruct (fcmul c _) as [x y]. unfold fout2, fcneg. cbn [fst snd]. now rewrite (proj2 (H x (- y))), (proj1 (H x y)).
Qed.

(** ** The real axis *)
Lemma real_step a P : fl P = P -> fcadd (fcpow (a, 0) 2) (P, 0) = (fl (fl (a * a) + P), 0).
Proof.
  intros F. unfold fcpow. cbn [fcpowu]. unfold fcadd, fcmul. cbn [fst snd]. rewrite ?Rmult_0_l, ?Rmult_0_r, ?Rmult_1_l, ?fl_0, ?Rplus_0_r, ?Rminus_0_r, ?fl_fl, ?fl_0, ?Rmult_0_r, ?fl_0, ?Rminus_0_r, ?Rplus_0_r, ?fl_0, ?fl_fl. reflexivity.
Qed.
Lemma escape_never {S} (step : S -> S) out (Inv : S -> Prop) : (forall z, Inv z -> Inv (step z) /\ out (step z) = false) ->
  forall z m, Inv z -> (0 <= m)%Z -> escapetime (fun z => Ok (step z)) out z m = Ok m.
Proof.
  intros H z m I _. unfold escapetime. generalize 0%Z. revert z I. induction (Z.to_nat m) as [|n IH]; intros z I i; [reflexivity|]. cbn [escape_from rbind]. destruct (H z I) as (I' & ->). now apply IH.
Qed.
(** the length of a real number is its absolute value *)
Definition real_length (hyp : R * R -> R) : Prop := forall x, hyp (x, 0) = Rabs x.
Lemma fl_double x : fl x = x -> fl (2 * x) = 2 * x.
Proof.
  intros F. assert (G : generic_format radix2 fexp x) by (rewrite <- F; apply generic_format_round; auto with typeclass_instances).
  apply (FLT_format_generic radix2 (-1074) 53) in G. destruct G as [[m e] -> M E]. cbn [Fnum Fexp] in M, E. unfold F2R. cbn [Fnum Fexp].
  replace (2 * (IZR m * bpow radix2 e)) with (IZR m * bpow radix2 (e + 1)) by (rewrite bpow_plus; change (bpow radix2 1) with 2; ring). apply fl_exact; [change (Zpower radix2 53) with (2 ^ 53)%Z in M; lia|lia].
Qed.
Lemma in2 hyp x : real_length hyp -> -2 <= x <= 2 -> fout2 hyp (x, 0) = false.
Proof. intros H B. unfold fout2. rewrite H. apply rlt_no. apply Rabs_le. lra. Qed.
Theorem C145_segment : forall hyp P m, real_length hyp -> fl P = P -> -2 <= P <= / 4 -> (0 <= m)%Z -> fmultibrot hyp P 0 2 m = Ok m.
Proof.
  intros hyp P m H F B M. unfold fmultibrot. destruct (Rle_dec P 0) as [N|N].
  - apply (escape_never _ _ (fun z => P <= fst z <= - P /\ snd z = 0)); [|cbn [fst snd]; lra|exact M].
    intros [x y]. cbn [fst snd]. intros (X & ->). rewrite real_step by exact F. cbn [fst snd].
    assert (L : P <= fl (fl (x * x) + P) <= - P).
    { assert (S : 0 <= fl (x * x) <= 2 * - P) by (split; [apply fl_nonneg; nra|rewrite <- (fl_double (- P)) by (now rewrite fl_opp, F); apply fl_le; nra]).
      split; [rewrite <- F at 1; apply fl_le; lra|]. replace (- P) with (fl (- P)) by (now rewrite fl_opp, F). apply fl_le. lra. }
    split; [split; [exact L|reflexivity]|]. apply in2; [exact H|lra].
  - apply (escape_never _ _ (fun z => 0 <= fst z <= / 2 /\ snd z = 0)); [|cbn [fst snd]; lra|exact M].
    intros [x y]. cbn [fst snd]. intros (X & ->). rewrite real_step by exact F. cbn [fst snd].
    assert (H4 : fl (/ 4) = / 4) by (replace (/ 4) with (IZR 1 * bpow radix2 (-2)) by (cbn; lra); apply fl_exact; lia).
    assert (H2 : fl (/ 2) = / 2) by (rewrite <- (Rmult_1_l (/ 2)); apply (fl_half 1); lia).
    assert (L : 0 <= fl (fl (x * x) + P) <= / 2).
    { assert (S : 0 <= fl (x * x) <= / 4) by (split; [apply fl_nonneg; nra|rewrite <- H4; apply fl_le; nra]). split; [apply fl_nonneg; lra|]. rewrite <- H2. apply fl_le. lra. }
    split; [split; [exact L|reflexivity]|]. apply in2; [exact H|lra].
Qed.

Lemma first_step hyp P m : fl P = P -> (0 < m)%Z -> fout2 hyp (P, 0) = true -> fmultibrot hyp P 0 2 m = Ok 0%Z.
Proof.
  intros F M O. unfold fmultibrot, escapetime. replace (Z.to_nat m) with (Datatypes.S (Z.to_nat (m - 1))) by lia. cbn [escape_from rbind]. rewrite real_step by exact F. rewrite Rmult_0_l, fl_0, Rplus_0_l, F, O. reflexivity.
Qed.
Theorem C145_far : forall hyp P m, real_length hyp -> fl P = P -> 2 < Rabs P -> (0 < m)%Z -> fmultibrot hyp P 0 2 m = Ok 0%Z.
Proof. intros hyp P m H F B M. apply first_step; [exact F|exact M|]. unfold fout2. rewrite H. now apply rlt_iff. Qed.
(** to the right of 1/4 + 2^-49 all points leave *)
Lemma first_hit (x : nat -> R) : (exists n, 2 < x n) -> (x O <= 2) -> exists k, 2 < x (Datatypes.S k) /\ forall j, (j <= k)%nat -> x j <= 2.
Proof.
  intros (n & N) Z. assert (G : forall n, (exists k, 2 < x (Datatypes.S k) /\ forall j, (j <= k)%nat -> x j <= 2) \/ forall j, (j <= n)%nat -> x j <= 2).
  { clear n N. induction n as [|n [IH|IH]]; [right; intros j J; now replace j with O by lia|now left|]. destruct (Rlt_dec 2 (x (Datatypes.S n))) as [L|L]; [left; exists n; auto|]. right. intros j J. destruct (Nat.eq_dec j (Datatypes.S n)) as [-> |]; [lra|apply IH; lia]. }
  destruct (G n) as [K|K]; [exact K|]. specialize (K n ltac:(lia)). lra.
Qed.
Lemma above (r : R) : exists n, r < INR n.
Proof. destruct (archimed r) as (A & _). exists (Z.to_nat (up r)). rewrite INR_IZR_INZ. apply Rlt_le_trans with (IZR (up r)); [exact A|apply IZR_le; lia]. Qed.
Lemma grows (f : R -> R) delta : 0 < delta -> (forall x, 0 <= x <= 2 -> x + delta <= f x) -> exists n, 2 < Nat.iter n f 0.
Proof.
  intros D H. assert (G : forall n, (exists k, 2 < Nat.iter k f 0) \/ INR n * delta <= Nat.iter n f 0).
  { induction n as [|n [IH|IH]]; [right; cbn; lra|now left|]. destruct (Rlt_dec 2 (Nat.iter n f 0)) as [L|L]; [left; now exists n|]. right. rewrite S_INR. change (Nat.iter (Datatypes.S n) f 0) with (f (Nat.iter n f 0)). specialize (H (Nat.iter n f 0)). pose proof (pos_INR n). nra. }
  destruct (above (2 / delta)) as (n & N). destruct (G n) as [K|K]; [exact K|]. exists n. apply (Rmult_lt_compat_r delta) in N; [|exact D]. unfold Rdiv in N. rewrite Rmult_assoc, Rinv_l in N; lra.
Qed.
Theorem C145_leaves : forall hyp P, real_length hyp -> fl P = P -> / 4 + / IZR (2 ^ 49) <= P <= 2 -> exists r, (0 <= r)%Z /\ forall m, (r < m)%Z -> fmultibrot hyp P 0 2 m = Ok r.
Proof.
  intros hyp P H F B. set (f := fun x => fl (fl (x * x) + P)).
  assert (G : exists n, 2 < Nat.iter n f 0).
  { apply (grows f u); [apply u_pos|]. intros x X. unfold f. pose proof (fl_err (x * x)) as E1. pose proof (fl_err (fl (x * x) + P)) as E2. assert (S : 0 <= fl (x * x)) by (apply fl_nonneg; nra).
    rewrite (Rabs_pos_eq (x * x)) in E1 by nra. rewrite (Rabs_pos_eq (fl (x * x) + P)) in E2 by (assert (0 < / IZR (2 ^ 49)) by (apply Rinv_0_lt_compat, IZR_lt; lia); lra).
    assert (D : / IZR (2 ^ 49) = 16 * u) by (unfold u; change (2 ^ 53)%Z with (16 * 2 ^ 49)%Z; rewrite mult_IZR; field; apply not_0_IZR; lia). rewrite D in B.
    assert (ET : eta <= / 100 * u) by (unfold eta, u; change (2 ^ 60)%Z with (128 * 2 ^ 53)%Z; rewrite mult_IZR, Rinv_mult; assert (0 < / IZR (2 ^ 53)) by (apply Rinv_0_lt_compat, IZR_lt; lia); nra).
    pose proof u_pos as U. pose proof eta_pos as EP. assert (X2 : x * x <= 4) by nra. apply Rabs_le_inv in E1. apply Rabs_le_inv in E2. pose proof (Rle_0_sqr (x - / 2)) as SQ. unfold Rsqr in SQ.
    assert (U4 : u * (x * x) <= u * 4) by (apply Rmult_le_compat_l; lra). assert (S5 : fl (x * x) + P <= 7) by lra. assert (U7 : u * (fl (x * x) + P) <= u * 7) by (apply Rmult_le_compat_l; lra). lra. }
  destruct (first_hit (fun n => Nat.iter n f 0) G ltac:(cbn; lra)) as (k & K1 & K2). exists (Z.of_nat k). split; [lia|]. intros m M.
  assert (NN : forall n, 0 <= Nat.iter n f 0).
  { intros [|n]; [cbn; lra|]. change (Nat.iter (Datatypes.S n) f 0) with (f (Nat.iter n f 0)). unfold f at 1. set (x := Nat.iter n f 0). apply fl_nonneg. assert (0 < / IZR (2 ^ 49)) by (apply Rinv_0_lt_compat, IZR_lt; lia). assert (0 <= fl (x * x)) by (apply fl_nonneg; apply Rle_0_sqr). lra. }
  destruct (C89_first_escape (R * R) (fun z => Ok (fcadd (fcpow z 2) (P, 0))) (fout2 hyp) (fun k => (Nat.iter (Z.to_nat k) f 0, 0)) m) as (A & _).
  { intros j J. rewrite real_step by exact F. replace (Z.to_nat (j + 1)) with (Datatypes.S (Z.to_nat j)) by lia. reflexivity. }
  unfold fmultibrot. apply (A (Z.of_nat k)); [lia| |].
  - intros j J. apply in2; [exact H|]. specialize (K2 (Z.to_nat (j + 1)) ltac:(lia)). pose proof (NN (Z.to_nat (j + 1))); lra.
  - unfold fout2. rewrite H. apply rlt_iff. replace (Z.to_nat (Z.of_nat k + 1)) with (Datatypes.S k) by lia. rewrite Rabs_pos_eq; [exact K1|apply NN].
Qed.
(** between, points outside of the set may stay for ever: 1/4 + 2^-54 *)
Theorem C145_cusp_refuted : exists P, fl P = P /\ ~ bounded_orbit (mandel P 0) (0, 0) /\ forall hyp m, real_length hyp -> (0 <= m)%Z -> fmultibrot hyp P 0 2 m = Ok m.
Proof.
  exists (IZR (2 ^ 52 + 1) * bpow radix2 (-54)). set (P := IZR (2 ^ 52 + 1) * bpow radix2 (-54)). assert (F : fl P = P) by (apply fl_exact; lia).
  assert (EP : P = / 4 + bpow radix2 (-54)) by (unfold P; rewrite plus_IZR, Rmult_plus_distr_r, Rmult_1_l; f_equal; cbn; lra). assert (B0 : 0 < bpow radix2 (-54)) by apply bpow_gt_0.
  split; [exact F|]. split.
  - intros (B & HB). assert (G : forall n, exists x, Nat.iter n (mandel P 0) (0, 0) = (x, 0) /\ INR n * bpow radix2 (-54) <= x).
    { induction n as [|n (x & E & L)]; [exists 0; split; [reflexivity|cbn; lra]|]. exists (x * x + P). split.
      - change (Nat.iter (Datatypes.S n) (mandel P 0) (0, 0)) with (mandel P 0 (Nat.iter n (mandel P 0) (0, 0))). rewrite E. unfold mandel. cbn [fst snd]. f_equal; ring.
      - rewrite S_INR. pose proof (Rle_0_sqr (x - / 2)) as SQ. unfold Rsqr in SQ. lra. }
    destruct (above ((Rabs B + 1) / bpow radix2 (-54))) as (n & N). destruct (G n) as (x & E & L). specialize (HB n). rewrite E in HB. unfold sqnorm in HB. cbn [fst snd] in HB.
    apply (Rmult_lt_compat_r (bpow radix2 (-54))) in N; [|exact B0]. unfold Rdiv in N. rewrite Rmult_assoc, Rinv_l in N by lra. pose proof (Rle_abs B). pose proof (Rabs_pos B). nra.
  - intros hyp m H M. unfold fmultibrot. apply (escape_never _ _ (fun z => 0 <= fst z <= / 2 /\ snd z = 0)); [|cbn [fst snd]; lra|exact M].
    intros [x y]. cbn [fst snd]. intros (X & ->). rewrite real_step by exact F. cbn [fst snd].
    assert (H4 : fl (/ 4) = / 4) by (replace (/ 4) with (IZR 1 * bpow radix2 (-2)) by (cbn; lra); apply fl_exact; lia).
    assert (H2 : fl (/ 4 + P) = / 2).
    { replace (/ 4 + P) with (IZR (2 ^ 53 + 1) / IZR (2 ^ 54)) by (rewrite EP; cbn; lra). rewrite (flcheck_ok (2 ^ 53 + 1) (2 ^ 54) (2 ^ 52) 53) by (vm_compute; reflexivity). lra. }
    assert (L : 0 <= fl (fl (x * x) + P) <= / 2).
    { assert (S : 0 <= fl (x * x) <= / 4) by (split; [apply fl_nonneg; nra|rewrite <- H4; apply fl_le; nra]). split; [apply fl_nonneg; lra|]. rewrite <- H2. apply fl_le. lra. }
    split; [split; [exact L|reflexivity]|]. apply in2; [exact H|lra].
Qed.

(** ** Pictures *)
(** a domain from -q to q, q = a / 2^s, over 2^k rows: coordinates are exact *)
Lemma coord_exact a s k j : (0 <= a)%Z -> (0 <= s)%Z -> (0 <= k)%Z -> (s + k <= 1000)%Z -> (a * 2 ^ k <= 2 ^ 52)%Z -> (0 <= j <= 2 ^ k)%Z ->
  let q := IZR a * bpow radix2 (- s) in fcoord (- q) q (2 ^ k) j = IZR (a * (2 * j - 2 ^ k)) * bpow radix2 (- (s + k)).
Proof.
  intros A S K SK L J q. unfold fcoord. assert (P1 : (1 <= 2 ^ k)%Z) by (pose proof (Z.pow_pos_nonneg 2 k); lia). assert (A1 : (a <= 2 ^ 52)%Z) by nia.
  assert (EK : IZR (2 ^ k) = bpow radix2 k) by (rewrite <- IZR_Zpower by exact K; reflexivity).
  assert (E1 : fl (q - - q) = IZR (2 * a) * bpow radix2 (- s)) by (replace (q - - q) with (IZR (2 * a) * bpow radix2 (- s)) by (unfold q; rewrite mult_IZR; ring); apply fl_exact; lia).
  rewrite E1. assert (E2 : fl (IZR (2 * a) * bpow radix2 (- s) / IZR (2 ^ k)) = IZR (2 * a) * bpow radix2 (- (s + k))).
  { replace (IZR (2 * a) * bpow radix2 (- s) / IZR (2 ^ k)) with (IZR (2 * a) * bpow radix2 (- (s + k))); [apply fl_exact; lia|]. rewrite EK. replace (- (s + k))%Z with (- s + - k)%Z by lia. rewrite bpow_plus, (bpow_opp radix2 k). field. apply Rgt_not_eq, bpow_gt_0. }
  rewrite E2. assert (JA : (0 <= j * (2 * a) <= 2 ^ 53)%Z) by (split; [nia|]; replace (2 ^ 53)%Z with (2 * 2 ^ 52)%Z by reflexivity; nia).
  assert (E3 : fl (IZR j * (IZR (2 * a) * bpow radix2 (- (s + k)))) = IZR (j * (2 * a)) * bpow radix2 (- (s + k))) by (rewrite <- Rmult_assoc, <- mult_IZR; apply fl_exact; lia).
  rewrite E3. assert (E4 : - q = IZR (- (a * 2 ^ k)) * bpow radix2 (- (s + k))).
  { unfold q. rewrite opp_IZR, mult_IZR, EK. replace (- (s + k))%Z with (- s + - k)%Z by lia. rewrite bpow_plus, (bpow_opp radix2 k). field. apply Rgt_not_eq, bpow_gt_0. }
  rewrite E4, <- Rmult_plus_distr_r, <- plus_IZR. replace (- (a * 2 ^ k) + j * (2 * a))%Z with (a * (2 * j - 2 ^ k))%Z by ring. apply fl_exact; [|lia]. assert (- (a * 2 ^ k) <= a * (2 * j - 2 ^ k) <= a * 2 ^ k)%Z by nia. lia.
Qed.
Lemma coord_mirror a s k j : (0 <= a)%Z -> (0 <= s)%Z -> (0 <= k)%Z -> (s + k <= 1000)%Z -> (a * 2 ^ k <= 2 ^ 52)%Z -> (0 <= j <= 2 ^ k)%Z ->
  let q := IZR a * bpow radix2 (- s) in fcoord (- q) q (2 ^ k) (2 ^ k - j) = - fcoord (- q) q (2 ^ k) j.
Proof.
  intros A S K SK L J q. unfold q. rewrite !coord_exact by (assumption || lia). rewrite Ropp_mult_distr_l, <- opp_IZR. f_equal. f_equal. ring.
Qed.
Lemma valueat_run x1 y1 x2 y2 func Pmax Pmin Qmax Qmin x y : x1 <> x2 -> y1 <> y2 ->
  fvalueat x1 y1 x2 y2 func (Pmax, Pmin, Qmax, Qmin) x y = func (fcoord Pmin Pmax (Z.abs (x2 - x1)) (x - Z.min x1 x2)) (fcoord Qmin Qmax (Z.abs (y2 - y1)) (y - Z.min y1 y2)).
Proof.
  intros X Y. unfold fvalueat. rewrite (PropEscape.sorted_pts x1 y1 x2 y2). cbv beta iota.
  rewrite (proj2 (Z.eqb_neq (Z.max x1 x2 - Z.min x1 x2) 0)), (proj2 (Z.eqb_neq (Z.max y1 y2 - Z.min y1 y2) 0)) by lia. cbn [orb].
  replace (Z.max x1 x2 - Z.min x1 x2)%Z with (Z.abs (x2 - x1)) by lia. replace (Z.max y1 y2 - Z.min y1 y2)%Z with (Z.abs (y2 - y1)) by lia. reflexivity.
Qed.
(** A picture of 2^k rows over such a domain is its own mirror image (the first row has no counterpart). *)
Theorem C145_picture : forall hyp b w h bits o f Pmax Pmin a s k x1 y1 x2 y2 m, sign_free hyp -> wf b w h bits -> x1 <> x2 -> Z.abs (y2 - y1) = (2 ^ k)%Z -> (0 <= m)%Z ->
  (0 <= a)%Z -> (0 <= s)%Z -> (0 <= k)%Z -> (s + k <= 1000)%Z -> (a * 2 ^ k <= 2 ^ 52)%Z ->
  (forall v, (0 <= v <= m)%Z -> fractal_fits f bits v) ->
  (bits = 8%Z -> (0 <= Z.min x1 x2 /\ Z.max x1 x2 <= w /\ 0 <= Z.min y1 y2 /\ Z.max y1 y2 <= h)%Z) ->
  let q := IZR a / IZR (2 ^ s) in
  let mirrored (fn : M unit) := exists b', fn (mkst b o) = (Ok tt, mkst b' o) /\ wf b' w h bits /\
    forall x y, (Z.min x1 x2 <= x < Z.max x1 x2)%Z -> (Z.min y1 y2 < y < Z.max y1 y2)%Z -> inside w h x y -> inside w h x (y1 + y2 - y) ->
      pixel b' w h bits x (y1 + y2 - y) = pixel b' w h bits x y in
  mirrored (fmandelbrotbmp hyp x1 y1 x2 y2 (Pmax, Pmin, q, - q) f m) /\ mirrored (ftricornbmp hyp x1 y1 x2 y2 (Pmax, Pmin, q, - q) f m).
Proof.
  intros hyp b w h bits o f Pmax Pmin a s k x1 y1 x2 y2 m HS W X Y M A S K SK L FF H8 q mirrored. pose proof (Z.pow_pos_nonneg 2 k ltac:(lia) K) as P2.
  assert (EQ : q = IZR a * bpow radix2 (- s)) by (unfold q, Rdiv; rewrite bpow_opp; f_equal; f_equal; rewrite <- IZR_Zpower by exact S; reflexivity).
  assert (G : forall func : R -> R -> res Z, (forall P Q, exists r, func P Q = Ok r /\ (0 <= r <= m)%Z) -> (forall P Q, func P (- Q) = func P Q) ->
    mirrored (plotmultifractal (fvalueat x1 y1 x2 y2 func (Pmax, Pmin, q, - q)) f x1 y1 x2 y2)).
  { intros func T C. set (v := fun x y => match fvalueat x1 y1 x2 y2 func (Pmax, Pmin, q, - q) x y with Ok r => r | Err _ => 0%Z end).
    assert (V : forall x y, fvalueat x1 y1 x2 y2 func (Pmax, Pmin, q, - q) x y = Ok (v x y) /\ (0 <= v x y <= m)%Z).
    { intros x y. unfold v. rewrite valueat_run by lia. destruct (T (fcoord Pmin Pmax (Z.abs (x2 - x1)) (x - Z.min x1 x2)) (fcoord (- q) q (Z.abs (y2 - y1)) (y - Z.min y1 y2))) as (r & -> & B). auto. }
    destruct (C88_painted (fvalueat x1 y1 x2 y2 func (Pmax, Pmin, q, - q)) v f b w h bits o x1 y1 x2 y2 W X ltac:(lia)) as (b' & E & W' & _ & RP).
    - intros x y _ _. destruct (V x y) as (E & B). split; [exact E|now apply FF].
    - intros E8 _. now apply H8.
    - exists b'. split; [exact E|]. split; [exact W'|]. intros x y IX IY I1 I2. rewrite !RP by assumption.
      replace ((Z.min y1 y2 <=? y1 + y2 - y) && (y1 + y2 - y <? Z.max y1 y2))%Z with true by (symmetry; apply andb_true_iff; split; [apply Z.leb_le|apply Z.ltb_lt]; lia).
      replace ((Z.min y1 y2 <=? y) && (y <? Z.max y1 y2))%Z with true by (symmetry; apply andb_true_iff; split; [apply Z.leb_le|apply Z.ltb_lt]; lia).
      enough (EV : v x (y1 + y2 - y)%Z = v x y) by (rewrite EV; replace ((Z.min x1 x2 <=? x) && (x <? Z.max x1 x2))%Z with true by (symmetry; apply andb_true_iff; split; [apply Z.leb_le|apply Z.ltb_lt]; lia); reflexivity). unfold v. rewrite !valueat_run by lia. rewrite Y, EQ.
      replace (y1 + y2 - y - Z.min y1 y2)%Z with (2 ^ k - (y - Z.min y1 y2))%Z by lia. rewrite coord_mirror by (assumption || lia). rewrite C. reflexivity. }
  split; apply G; intros P Q.
  - apply (C145_total hyp P Q (0, 0) 2 m M).
  - apply (C145_mirror hyp HS P Q 2 m).
  - apply (C145_total hyp P Q (0, 0) 2 m M).
  - apply (C145_mirror hyp HS P Q 2 m).
Qed.

(** ** Cases that meet the hypotheses *)
(** rounded square roots are such a length *)
Definition sqhyp (z : R * R) : R := fl (sqrt (fst z * fst z + snd z * snd z)).
Example C145_hyp_ex : sign_free sqhyp.
Proof. intros x y. unfold sqhyp. cbn [fst snd]. now rewrite !Rmult_opp_opp. Qed.
Example C145_real_ex : real_length (fun z => if req (snd z) 0 then Rabs (fst z) else sqhyp z).
Proof. intros x. cbn [fst snd]. now rewrite (proj2 (req_iff 0 0) eq_refl). Qed.
Example C145_floats_ex : fl (-1) = -1 /\ -2 <= -1 <= / 4 /\ fl 1 = 1 /\ / 4 + / IZR (2 ^ 49) <= 1 <= 2 /\ fl 3 = 3 /\ 2 < Rabs 3.
Proof.
  assert (/ IZR (2 ^ 49) <= / 2) by (apply Rinv_le; [lra|apply IZR_le; lia]). rewrite (fl_Z (-1)), (fl_Z 1), (fl_Z 3) by lia. rewrite Rabs_pos_eq by lra. repeat split; lra.
Qed.
(** the domain 'middefault', -1.25 to 1.25, over 512 rows of a 4-bit picture *)
Example C145_picture_ex : wf (Concrete.blank 4 512 4) 4 512 4 /\ Z.abs (512 - 0) = (2 ^ 9)%Z /\ IZR 5 / IZR (2 ^ 2) = 1.25 /\ (5 * 2 ^ 9 <= 2 ^ 52)%Z /\ forall v, (0 <= v <= 15)%Z -> fractal_fits (Three (fun c => (c, c, c)) (fun c => c)) 4 v.
Proof. split; [Concrete.concrete_wf|]. split; [reflexivity|]. split; [cbn; lra|]. split; [lia|]. intros v V. split; lia || discriminate. Qed.

Print Assumptions C145_total.
Print Assumptions C145_mirror.
Print Assumptions C145_halfturn.
Print Assumptions C145_segment.
Print Assumptions C145_far.
Print Assumptions C145_leaves.
Print Assumptions C145_cusp_refuted.
Print Assumptions C145_picture.
