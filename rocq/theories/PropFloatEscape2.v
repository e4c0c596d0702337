(** Property C145, continued: points off the real axis. *)
From Flocq Require Import Core.
From Coq Require Import ZArith Reals List Lia Lra Bool Psatz.
From Verif Require Import PyBase PyFacts Bmp BmpFacts Region Geometry MathLib Spec PropFractal Fractal PropFractal PropEscape Coords RealProofs Sweeps Floats FloatProofs FloatEscape PropFloatEscape FloatSweeps PropFloatSweeps.
Open Scope R_scope.

Lemma pow2 z : fcpow z 2 = fcmul z z.
Proof.
  unfold fcpow. cbn [fcpowu]. unfold fcmul at 1. cbn [fst snd]. unfold fcmul. cbn [fst snd]. now rewrite ?Rmult_0_l, ?Rmult_1_l, ?fl_0, ?Rminus_0_r, ?Rplus_0_r, ?fl_fl.
Qed.
Definition disc (r : R) (z : R * R) : Prop := fst z * fst z + snd z * snd z <= r * r.
Lemma sq_abs a r : 0 <= r -> a * a <= r * r -> -r <= a <= r.
Proof. intros. split; nra. Qed.
Lemma disc_step z c : disc (45 / 100) z -> disc (24 / 100) c -> disc (45 / 100) (fcadd (fcmul z z) c).
Proof.
  destruct z as [x y], c as [p q]. unfold disc, fcadd, fcmul. cbn [fst snd]. intros Z C. destruct consts as (U & E & _).
  assert (X : -(45/100) <= x <= 45/100) by (apply sq_abs; nra). assert (Y : -(45/100) <= y <= 45/100) by (apply sq_abs; nra). assert (P : -(24/100) <= p <= 24/100) by (apply sq_abs; nra). assert (Q : -(24/100) <= q <= 24/100) by (apply sq_abs; nra).
  assert (N : forall t, -1 <= t <= 1 -> Rabs (fl t - t) <= / 8000000000000000) by (intros t T; eapply Rle_trans; [apply (fl_near t 1), Rabs_le; lra|lra]).
  assert (XX : 0 <= x * x <= 2025/10000) by nra. assert (YY : 0 <= y * y <= 2025/10000) by nra. assert (XY : -(2025/10000) <= x * y <= 2025/10000) by nra. rewrite (Rmult_comm y x).
  pose proof (N (x * x) ltac:(lra)) as N1. pose proof (N (y * y) ltac:(lra)) as N2. pose proof (N (x * y) ltac:(lra)) as N3. apply Rabs_le_inv in N1, N2, N3.
  pose proof (N (fl (x * x) - fl (y * y)) ltac:(lra)) as N4. pose proof (N (fl (x * y) + fl (x * y)) ltac:(lra)) as N5. apply Rabs_le_inv in N4, N5.
  pose proof (N (fl (fl (x * x) - fl (y * y)) + p) ltac:(lra)) as N6. pose proof (N (fl (fl (x * y) + fl (x * y)) + q) ltac:(lra)) as N7. apply Rabs_le_inv in N6, N7.
  set (a := fl (fl (fl (x * x) - fl (y * y)) + p)) in *. set (b := fl (fl (fl (x * y) + fl (x * y)) + q)) in *.
  set (A := x * x - y * y). set (B := 2 * (x * y)). assert (EA : -(/ 1000000000000000) <= a - (A + p) <= / 1000000000000000) by (unfold A; lra). assert (EB : -(/ 1000000000000000) <= b - (B + q) <= / 1000000000000000) by (unfold B; lra).
  assert (AB : A * A + B * B <= 2025/10000 * (2025/10000)). { replace (A * A + B * B) with ((x * x + y * y) * (x * x + y * y)) by (unfold A, B; ring). apply Rmult_le_compat; nra. }
  assert (AP : 2 * (A * p) <= 12/10 * (A * A) + 10/12 * (p * p)). { pose proof (Rle_0_sqr (12/10 * A - p)) as S. unfold Rsqr in S. lra. }
  assert (BQ : 2 * (B * q) <= 12/10 * (B * B) + 10/12 * (q * q)). { pose proof (Rle_0_sqr (12/10 * B - q)) as S. unfold Rsqr in S. lra. }
  assert (T : (A + p) * (A + p) + (B + q) * (B + q) <= 196/1000) by lra. clearbody a b. set (s := A + p) in *. set (t := B + q) in *. clearbody s t.
  assert (S1 : -1 <= s <= 1) by (apply sq_abs; nra). assert (T1 : -1 <= t <= 1) by (apply sq_abs; nra).
  assert (a * a <= s * s + / 100000) by nra. assert (b * b <= t * t + / 100000) by nra. lra.
Qed.
Lemma disc_conj r z : disc r z -> disc r (fcconj z).
Proof. unfold disc, fcconj. cbn [fst snd]. lra. Qed.
(** what is assumed of lengths: points of the unit disc are no longer than 2 *)
Definition unit_length (hyp : R * R -> R) : Prop := forall z, disc 1 z -> hyp z <= 2.
Lemma disc_in hyp z : unit_length hyp -> disc (45 / 100) z -> fout2 hyp z = false.
Proof. intros H D. unfold fout2. apply rlt_no, H. unfold disc in *. lra. Qed.
(** No point of the disc of radius 0.24 leaves, for the Mandelbrot set as for the tricorn; nor do the points
    of the disc of radius 0.45 for a Julia set with such a constant. *)
Theorem C145_disc : forall hyp P Q m, unit_length hyp -> P * P + Q * Q <= 24 / 100 * (24 / 100) -> (0 <= m)%Z ->
  fmultibrot hyp P Q 2 m = Ok m /\ fmulticorn hyp P Q 2 m = Ok m /\ forall x y, x * x + y * y <= 45 / 100 * (45 / 100) -> fmultijulia x y (P, Q) 2 m = Ok m.
Proof.
  intros hyp P Q m H D M. assert (C : disc (24 / 100) (P, Q)) by exact D. assert (Z0 : disc (45 / 100) (0, 0)) by (unfold disc; cbn [fst snd]; lra). split; [|split].
  - apply (escape_never (fun z => fcadd (fcpow z 2) (P, Q)) _ (disc (45 / 100))); [|exact Z0|exact M]. intros z Z. rewrite pow2. split; [now apply disc_step|apply disc_in; [exact H|now apply disc_step]].
  - apply (escape_never (fun z => fcadd (fcpow (fcconj z) 2) (P, Q)) _ (disc (45 / 100))); [|exact Z0|exact M]. intros z Z. rewrite pow2. apply disc_conj in Z. split; [now apply disc_step|apply disc_in; [exact H|now apply disc_step]].
  - intros x y Z. apply (escape_never (fun z => fcadd (fcpow z 2) (P, Q)) _ (disc (45 / 100))); [|exact Z|exact M]. intros z K. rewrite pow2. assert (G := disc_step z (P, Q) K C). split; [exact G|]. destruct (fcadd (fcmul z z) (P, Q)) as [a b]. unfold disc in G. cbn [fst snd] in G. unfold fcmul, fcconj. cbn [fst snd]. apply rlt_no.
    replace (b * - b) with (- (b * b)) by ring. rewrite fl_opp. assert (A : 0 <= a * a <= 1) by nra. assert (B : 0 <= b * b <= 1) by nra. assert (FA : fl (a * a) <= 1) by (rewrite <- fl_1; apply fl_le; lra). assert (FB : fl (b * b) <= 1) by (rewrite <- fl_1; apply fl_le; lra).
    apply Rle_trans with (fl (IZR 4)); [apply fl_le; lra|]. rewrite fl_Z by lia. lra.
Qed.
(** Points longer than 2 leave at once. *)
Theorem C145_beyond : forall hyp P Q m, fl P = P -> fl Q = Q -> 2 < hyp (P, Q) -> (0 < m)%Z -> fmultibrot hyp P Q 2 m = Ok 0%Z /\ fmulticorn hyp P Q 2 m = Ok 0%Z.
Proof.
  intros hyp P Q m FP FQ L M. assert (S : forall y, y = 0 -> fcadd (fcpow (0, y) 2) (P, Q) = (P, Q)) by (intros y ->; rewrite pow2; unfold fcadd, fcmul; cbn [fst snd]; now rewrite !Rmult_0_l, !fl_0, Rminus_0_r, !Rplus_0_l, fl_0, !Rplus_0_l, FP, FQ).
  unfold fmultibrot, fmulticorn, escapetime. replace (Z.to_nat m) with (Datatypes.S (Z.to_nat (m - 1))) by lia. cbn [escape_from rbind]. assert (O : fout2 hyp (P, Q) = true) by now apply rlt_iff. split; [|unfold fcconj; cbn [fst snd]]; rewrite S by ring; now rewrite O.
Qed.
(** The orbit of i, which goes round from -1 + i to -i, never leaves, though i itself is on the edge of the set. *)
Theorem C145_unit : forall hyp m, (0 <= m)%Z -> hyp (0, 1) <= 2 -> hyp (-1, 1) <= 2 -> hyp (0, -1) <= 2 -> fmultibrot hyp 0 1 2 m = Ok m.
Proof.
  intros hyp m M H1 H2 H3. apply (escape_never (fun z => fcadd (fcpow z 2) (0, 1)) _ (fun z => z = (0, 0) \/ z = (0, 1) \/ z = (-1, 1) \/ z = (0, -1))); [|now left|exact M].
  assert (F : forall z x, x = IZR z -> (Z.abs z <= 2)%Z -> fl x = IZR z) by (intros z x -> A; apply fl_Z; lia).
  assert (O : forall w, hyp w <= 2 -> fout2 hyp w = false) by (intros w W; unfold fout2; now apply rlt_no).
  assert (K : forall a b c d, (Z.abs a <= 1)%Z -> (Z.abs b <= 1)%Z -> c = (a * a - b * b)%Z -> d = (2 * (a * b) + 1)%Z -> (Z.abs d <= 2)%Z -> fcadd (fcpow (IZR a, IZR b) 2) (0, 1) = (IZR c, IZR d)).
  { intros a b c d A B -> -> D. rewrite pow2. unfold fcadd, fcmul. cbn [fst snd]. rewrite <- !mult_IZR. rewrite (F (a * a)%Z _ eq_refl), (F (b * b)%Z _ eq_refl), (F (a * b)%Z _ eq_refl), (F (b * a)%Z _ eq_refl) by nia.
    rewrite <- minus_IZR, <- plus_IZR. rewrite (F (a * a - b * b)%Z _ eq_refl), (F (a * b + b * a)%Z _ eq_refl) by nia. rewrite Rplus_0_r, <- plus_IZR. rewrite (F (a * a - b * b)%Z _ eq_refl), (F (a * b + b * a + 1)%Z _ eq_refl) by nia. f_equal. f_equal. ring. }
  intros z [-> |[-> |[-> | ->]]].
  - rewrite (K 0 0 0 1)%Z by lia. split; [tauto|now apply O].
  - rewrite (K 0 1 (-1) 1)%Z by lia. split; [tauto|now apply O].
  - rewrite (K (-1) 1 0 (-1))%Z by lia. split; [tauto|now apply O].
  - rewrite (K 0 (-1) (-1) 1)%Z by lia. split; [tauto|now apply O].
Qed.
(** The tricorn is another set: it agrees with Mandelbrot's on the real axis, but i, which never leaves the latter,
    leaves it at the third step, by i, -1 + i and 3 i. *)
Theorem C145_tricorn : forall hyp, (forall P m, fmulticorn hyp P 0 2 m = fmultibrot hyp P 0 2 m) /\
  forall m, (3 <= m)%Z -> hyp (0, 1) <= 2 -> hyp (-1, 1) <= 2 -> 2 < hyp (0, 3) -> fmulticorn hyp 0 1 2 m = Ok 2%Z.
Proof.
  intros hyp. split.
  - intros P m. assert (G : forall n i x, escape_from (fun z => Ok (fcadd (fcpow (fcconj z) 2) (P, 0))) (fout2 hyp) (fun _ i => Ok i) n i (x, 0) m = escape_from (fun z => Ok (fcadd (fcpow z 2) (P, 0))) (fout2 hyp) (fun _ i => Ok i) n i (x, 0) m); [|apply G].
    induction n as [|n IH]; intros i x; [reflexivity|]. cbn [escape_from rbind].
    assert (S : fcadd (fcpow (x, 0) 2) (P, 0) = (fl (fl (x * x) + P), 0)) by (rewrite pow2; unfold fcadd, fcmul; cbn [fst snd]; now rewrite !Rmult_0_l, !Rmult_0_r, !fl_0, Rminus_0_r, fl_fl, !Rplus_0_l, fl_0, Rplus_0_l, fl_0).
    assert (C : fcconj (x, 0) = (x, 0)) by (unfold fcconj; cbn [fst snd]; now rewrite Ropp_0). rewrite C, S. destruct (fout2 hyp _); [reflexivity|apply IH].
  - intros m M H1 H2 H3. assert (F : forall z, (Z.abs z <= 4)%Z -> fl (IZR z) = IZR z) by (intros z A; apply fl_Z; lia).
    assert (K : forall a b, (Z.abs a <= 1)%Z -> (Z.abs b <= 1)%Z -> fcadd (fcpow (fcconj (IZR a, IZR b)) 2) (0, 1) = (IZR (a * a - b * b), IZR (1 - 2 * (a * b)))).
    { intros a b A B. rewrite pow2. unfold fcadd, fcmul, fcconj. cbn [fst snd]. rewrite <- opp_IZR, <- !mult_IZR. rewrite !F by nia. rewrite <- minus_IZR, <- plus_IZR. rewrite !F by nia. rewrite Rplus_0_r, <- plus_IZR. rewrite !F by nia. f_equal; f_equal; ring. }
    unfold fmulticorn, escapetime. replace (Z.to_nat m) with (Datatypes.S (Datatypes.S (Datatypes.S (Z.to_nat (m - 3))))) by lia. cbn [escape_from rbind].
    assert (O : forall w, hyp w <= 2 -> fout2 hyp w = false) by (intros w W; unfold fout2; now apply rlt_no).
    rewrite (K 0 0)%Z by lia. cbn [Z.mul Z.sub Z.add Z.opp Pos.mul]. change (IZR (0 - 0)) with (0 : R). change (IZR (1 - 0)) with (1 : R). rewrite (O (0, 1)) by exact H1.
    rewrite (K 0 1)%Z by lia. change (IZR (0 * 0 - 1 * 1)) with (-1). change (IZR (1 - 2 * (0 * 1))) with (1 : R). rewrite (O (-1, 1)) by exact H2.
    rewrite (K (-1) 1)%Z by lia. change (IZR (-1 * -1 - 1 * 1)) with (0 : R). change (IZR (1 - 2 * (-1 * 1))) with (3 : R).
    assert (W : fout2 hyp (0, 3) = true) by now apply rlt_iff. now rewrite W.
Qed.
Example C145_unit_ex : unit_length sqhyp /\ sqhyp (-1, 1) <= 2 /\ 15 / 100 * (15 / 100) + 15 / 100 * (15 / 100) <= 24 / 100 * (24 / 100) /\ 2 < sqhyp (2, 2).
Proof.
  split; [|split; [|split; [lra|]]]; unfold sqhyp; cbn [fst snd].
  - intros [x y] D. unfold disc in D. cbn [fst snd] in *. apply Rle_trans with (fl 1); [apply fl_le; rewrite <- sqrt_1; apply sqrt_le_1_alt; lra|rewrite fl_1; lra].
  - apply Rle_trans with (fl (IZR 2)); [apply fl_le; rewrite <- (sqrt_square 2) by lra; apply sqrt_le_1_alt; lra|rewrite fl_Z by lia; lra].
  - apply Rlt_le_trans with (5 / 2); [lra|]. assert (F : fl (5 / 2) = 5 / 2) by (replace (5 / 2) with (IZR 5 * bpow radix2 (-1)) by (cbn; lra); apply fl_exact; lia). rewrite <- F. apply fl_le. rewrite <- (sqrt_square (5 / 2)) by lra. apply sqrt_le_1_alt. lra.
Qed.
Print Assumptions C145_disc.
Print Assumptions C145_beyond.
Example C145_tricorn_ex : sqhyp (0, 1) <= 2 /\ sqhyp (-1, 1) <= 2 /\ 2 < sqhyp (0, 3) /\ fmulticorn sqhyp 0 1 2 50 = Ok 2%Z.
Proof.
  assert (A : sqhyp (0, 1) <= 2) by (unfold sqhyp; cbn [fst snd]; replace (0 * 0 + 1 * 1) with 1 by ring; rewrite sqrt_1, fl_1; lra).
  assert (C : 2 < sqhyp (0, 3)) by (unfold sqhyp; cbn [fst snd]; replace (0 * 0 + 3 * 3) with (3 * 3) by ring; rewrite sqrt_square, (fl_Z 3) by (lra || lia); lra).
  destruct C145_unit_ex as (_ & B & _). split; [exact A|split; [exact B|split; [exact C|]]]. now apply C145_tricorn.
Qed.
Print Assumptions C145_unit.
Print Assumptions C145_tricorn.
