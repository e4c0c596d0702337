(** Property C131: fractals and the sets they show. *)
From Coq Require Import ZArith Reals List Bool Lia Lra Psatz.
From Verif Require Import PyBase PyFacts Spec SpecShapes Bmp Region Geometry MathLib Fractal Coords RealProofs Sweeps Cplx Escape EscapeProofs PropFractal.
Import ListNotations.
Open Scope R_scope.

(** ** Complex numbers as pairs, powers, orbits *)
Definition sqnorm (z : R * R) : R := fst z * fst z + snd z * snd z.
Definition times (z w : R * R) : R * R := (fst z * fst w - snd z * snd w, fst z * snd w + snd z * fst w).
Definition power (z : R * R) (n : nat) : R * R := Nat.iter n (times z) (1, 0).
Definition plus (z w : R * R) : R * R := (fst z + fst w, snd z + snd w).
Definition mirror (z : R * R) : R * R := (fst z, - snd z).
Definition power_map (n : nat) (c z : R * R) : R * R := plus (power z n) c.
Definition mandel (a b : R) (z : R * R) : R * R := (fst z * fst z - snd z * snd z + a, 2 * fst z * snd z + b).
Definition corn_map (n : nat) (c z : R * R) : R * R := plus (power (mirror z) n) c.
Definition logistic (c z : R * R) : R * R := times (times c z) (1 - fst z, - snd z).
Definition tree_map (d z : R * R) : R * R := times d (fst z - (if Rlt_dec 0 (fst z) then 1 else if Rlt_dec (fst z) 0 then -1 else 0), snd z).
(** r is the number of points z1, z2, ... of the orbit of z before the first one outside the
    circle of radius 2, at most m *)
Definition escape_time (f : R * R -> R * R) (z : R * R) (m r : Z) : Prop :=
  (0 <= r <= m)%Z /\ (forall n, (1 <= n)%nat -> (Z.of_nat n <= r)%Z -> sqnorm (Nat.iter n f z) <= 4) /\
  ((r < m)%Z -> 4 < sqnorm (Nat.iter (S (Z.to_nat r)) f z)).
Definition bounded_orbit (f : R * R -> R * R) (z : R * R) : Prop := exists B, forall n, sqnorm (Nat.iter n f z) <= B.

Lemma power_eq z n : power z n = cpown z n.
Proof. induction n as [|n IH]; [reflexivity|]. unfold power in *. rewrite iter_S, IH. reflexivity. Qed.
Lemma iter_ext {A} (f g : A -> A) n z : (forall x, f x = g x) -> Nat.iter n f z = Nat.iter n g z.
Proof. intros H. induction n as [|n IH]; [reflexivity|]. now rewrite !iter_S, IH, H. Qed.
Lemma mandel_eq a b z : mandel a b z = power_map 2 (a, b) z.
Proof. unfold mandel, power_map, power, plus, times. cbn [Nat.iter nat_rect fst snd]. f_equal; ring. Qed.
Lemma escape_ext f g z m r : (forall x, f x = g x) -> escape_time f z m r -> escape_time g z m r.
Proof. intros H (A & B & D). split; [exact A|]. split; intros; rewrite <- (iter_ext f g) by exact H; auto. Qed.
Lemma bounded_ext f g z : (forall x, f x = g x) -> bounded_orbit f z -> bounded_orbit g z.
Proof. intros H (B & K). exists B. intros n. now rewrite <- (iter_ext f g). Qed.

(** ** C131 *)
(** The values are escape times. *)
Lemma step_power c d z : (0 <= d)%Z -> (let! p := cpow z d in Ok (cadd p c))%py = Ok (power_map (Z.to_nat d) c z).
Proof. intros D. rewrite cpow_nonneg by exact D. cbn [rbind]. unfold power_map. rewrite power_eq. reflexivity. Qed.
Theorem C131_multibrot : forall P Q d m, (0 <= d)%Z -> (0 <= m)%Z ->
  exists r, multibrot P Q d m = Ok r /\ escape_time (power_map (Z.to_nat d) (P, Q)) (0, 0) m r.
Proof. intros P Q d m D M. apply (escape_hits _ out2 (power_map (Z.to_nat d) (P, Q))); [|exact out2_iff|exact M]. intros z. now apply step_power. Qed.
Theorem C131_multijulia : forall P Q c d m, (0 <= d)%Z -> (0 <= m)%Z ->
  exists r, multijulia P Q c d m = Ok r /\ escape_time (power_map (Z.to_nat d) c) (P, Q) m r.
Proof. intros P Q c d m D M. apply (escape_hits _ _ (power_map (Z.to_nat d) c)); [|exact out4_iff|exact M]. intros z. now apply step_power. Qed.
Theorem C131_multicorn : forall P Q d m, (0 <= d)%Z -> (0 <= m)%Z ->
  exists r, multicorn P Q d m = Ok r /\ escape_time (corn_map (Z.to_nat d) (P, Q)) (0, 0) m r.
Proof.
  intros P Q d m D M. apply (escape_hits _ out2 (corn_map (Z.to_nat d) (P, Q))); [|exact out2_iff|exact M]. intros z.
  exact (step_power (P, Q) d (cconj z) D).
Qed.
Theorem C131_lambda : forall P Q c m, (0 <= m)%Z -> exists r, lambdafn P Q c m = Ok r /\ escape_time (logistic c) (P, Q) m r.
Proof.
  intros P Q c m M. apply (escape_hits _ out2 (logistic c)); [|exact out2_iff|exact M]. intros z. f_equal. unfold logistic.
  change (times (times c z)) with (cmul (cmul c z)). f_equal. unfold csub, rtoc, re, im. cbn [fst snd]. f_equal. ring.
Qed.
Lemma rsign_eq x : rsign x = if Rlt_dec 0 x then 1 else if Rlt_dec x 0 then -1 else 0.
Proof. unfold rsign, rlt. destruct (Rlt_dec 0 x), (Rlt_dec x 0); reflexivity. Qed.
Theorem C131_tree : forall P Q d m, (0 <= m)%Z -> exists r, barnsleytree P Q d m = Ok r /\ escape_time (tree_map d) (P, Q) m r.
Proof.
  intros P Q d m M. apply (escape_hits _ out2 (tree_map d)); [|exact out2_iff|exact M]. intros z. f_equal. unfold tree_map.
  change (times d) with (cmul d). f_equal. unfold csub, rtoc, re, im. cbn [fst snd]. rewrite rsign_eq. f_equal. ring.
Qed.
(** A value is the same for every larger number of iterations. *)
Theorem C131_stable : forall f z m m' r r', escape_time f z m r -> escape_time f z m' r' -> (r < m)%Z -> (m <= m')%Z -> r' = r.
Proof.
  intros f z m m' r r' (A & B & D) (A' & B' & D') L M. destruct (Z.lt_trichotomy r r') as [G|[G|G]]; [|now symmetry|]; exfalso.
  - specialize (D L). specialize (B' (S (Z.to_nat r)) ltac:(lia) ltac:(lia)). lra.
  - specialize (D' ltac:(lia)). specialize (B (S (Z.to_nat r')) ltac:(lia) ltac:(lia)). lra.
Qed.
(** A point that escapes is not in the set: its orbit is unbounded. *)
Lemma pm_abs n u : cabs (power u n) = cabs u ^ n.
Proof. rewrite power_eq. apply cpown_abs. Qed.
Lemma power_unbounded (h : C -> C) n c z k : (2 <= n)%nat -> (forall u, cabs (h u) = cabs u) ->
  4 < sqnorm (Nat.iter k (fun u => plus (power (h u) n) c) z) -> cabs c <= 2 \/ z = (0, 0) -> ~ bounded_orbit (fun u => plus (power (h u) n) c) z.
Proof.
  intros N HH K CC. set (f := fun u => plus (power (h u) n) c) in *.
  assert (G : forall L, 2 < L -> cabs c <= L -> forall u, L <= cabs u -> cabs u + (L - 2) <= cabs (f u)).
  { intros L HL HC. apply (power_growth (fun u => power (h u) n) c n L N); [|exact HL|exact HC]. intros u. now rewrite pm_abs, HH. }
  change (4 < norm2 (Nat.iter k f z)) in K. apply cabs_gt2 in K. destruct (Rle_dec (cabs c) 2) as [HC|HC].
  - apply (unbounded f z k (cabs (Nat.iter k f z))); [exact K| |apply Rle_refl]. apply G; lra.
  - destruct CC as [CC| ->]; [contradiction|]. assert (E : f (0, 0) = c).
    { assert (Z0 : h (0, 0) = (0, 0)) by (apply cabs_zero; now rewrite HH, cabs_0). unfold f. rewrite Z0. destruct n as [|n]; [lia|]. rewrite power_eq. cbn [cpown].
      apply c_ext; unfold plus, cmul, re, im; cbn [fst snd]; ring. }
    apply (unbounded f (0, 0) 1 (cabs c)); [lra|apply G; lra|]. change (Nat.iter 1 f (0, 0)) with (f (0, 0)). rewrite E. apply Rle_refl.
Qed.
Theorem C131_multibrot_outside : forall d c m r, (2 <= d)%nat -> escape_time (power_map d c) (0, 0) m r -> (r < m)%Z -> ~ bounded_orbit (power_map d c) (0, 0).
Proof. intros d c m r D (_ & _ & E) L. apply (power_unbounded (fun u => u) d c (0, 0) (S (Z.to_nat r)) D); [reflexivity|exact (E L)|now right]. Qed.
Theorem C131_multicorn_outside : forall d c m r, (2 <= d)%nat -> escape_time (corn_map d c) (0, 0) m r -> (r < m)%Z -> ~ bounded_orbit (corn_map d c) (0, 0).
Proof. intros d c m r D (_ & _ & E) L. apply (power_unbounded mirror d c (0, 0) (S (Z.to_nat r)) D); [exact cabs_conj|exact (E L)|now right]. Qed.
Theorem C131_julia_outside : forall d c z m r, (2 <= d)%nat -> sqnorm c <= 4 -> escape_time (power_map d c) z m r -> (r < m)%Z -> ~ bounded_orbit (power_map d c) z.
Proof.
  intros d c z m r D HC (_ & _ & E) L. apply (power_unbounded (fun u => u) d c z (S (Z.to_nat r)) D); [reflexivity|exact (E L)|left].
  apply Rnot_lt_le. intros H. apply cabs_gt2 in H. change (norm2 c) with (sqnorm c) in H. lra.
Qed.
Theorem C131_lambda_outside : forall c z m r, 1 <= sqnorm c -> escape_time (logistic c) z m r -> (r < m)%Z -> ~ bounded_orbit (logistic c) z.
Proof.
  intros c z m r HC (_ & _ & E) L. specialize (E L). set (w := Nat.iter (S (Z.to_nat r)) (logistic c) z) in *. change (4 < norm2 w) in E. apply cabs_gt2 in E.
  apply (unbounded (logistic c) z (S (Z.to_nat r)) (cabs w)); [exact E| |apply Rle_refl]. intros u U.
  change (logistic c u) with (cmul (cmul c u) (1 - fst u, - snd u)). rewrite !cabs_mul.
  assert (CC : 1 <= cabs c). { pose proof (cabs_nonneg c) as P. change (1 <= norm2 c) in HC. rewrite <- cabs_sq in HC. nra. }
  pose proof (cabs_sub_ge (copp u) (rtoc 1)) as T. rewrite cabs_opp, cabs_1 in T. replace (cadd (copp u) (rtoc 1)) with (1 - fst u, - snd u) in T by (apply c_ext; unfold cadd, copp, rtoc, re, im; cbn [fst snd]; ring).
  pose proof (cabs_nonneg c). assert (cabs u <= cabs c * cabs u) by nra. assert (0 <= cabs (1 - fst u, - snd u)) by apply cabs_nonneg. nra.
Qed.
Theorem C131_tree_outside : forall d z m r, 4 <= sqnorm d -> escape_time (tree_map d) z m r -> (r < m)%Z -> ~ bounded_orbit (tree_map d) z.
Proof.
  intros d z m r HC (_ & _ & E) L. specialize (E L). set (w := Nat.iter (S (Z.to_nat r)) (tree_map d) z) in *. change (4 < norm2 w) in E. apply cabs_gt2 in E.
  apply (unbounded (tree_map d) z (S (Z.to_nat r)) (cabs w)); [exact E| |apply Rle_refl]. intros u U. unfold tree_map. rewrite <- rsign_eq.
  change (times d) with (cmul d). rewrite cabs_mul.
  assert (CC : 2 <= cabs d). { pose proof (cabs_nonneg d) as P. change (4 <= norm2 d) in HC. rewrite <- cabs_sq in HC. nra. }
  pose proof (cabs_sub_ge u (rtoc (- rsign (re u)))) as T. rewrite cabs_real in T. replace (cadd u (rtoc (- rsign (re u)))) with (fst u - rsign (fst u), snd u) in T by (apply c_ext; unfold cadd, rtoc, re, im; cbn [fst snd]; ring).
  assert (S1 : Rabs (- rsign (re u)) <= 1). { rewrite Rabs_Ropp. unfold rsign. destruct (rlt 0 (re u)), (rlt (re u) 0); try rewrite Rabs_R1; try rewrite Rabs_R0; try rewrite Rabs_left; lra. }
  change C with (R * R)%type in *. pose proof (cabs_nonneg (fst u - rsign (fst u), snd u)). nra.
Qed.
(** The radius 2 is too small for other parameters: fixed points outside it count as escaping. *)
Theorem C131_julia_refuted : exists P Q c, multijulia P Q c 2 100 = Ok 0%Z /\ bounded_orbit (power_map 2 c) (P, Q).
Proof.
  exists 3, 0, (-6, 0). split.
  - destruct (C131_multijulia 3 0 (-6, 0) 2 100 ltac:(lia) ltac:(lia)) as (r & E & B & D & _). rewrite E. f_equal. destruct (Z.eq_dec r 0) as [H|H]; [exact H|]. exfalso.
    specialize (D 1%nat ltac:(lia) ltac:(lia)). change (Z.to_nat 2) with 2%nat in D. unfold sqnorm, power_map, power, plus, times in D. cbn [Nat.iter nat_rect fst snd] in D. lra.
  - exists 9. intros n. replace (Nat.iter n (power_map 2 (-6, 0)) (3, 0)) with (3, 0); [unfold sqnorm; cbn [fst snd]; lra|].
    induction n as [|n IH]; [reflexivity|]. rewrite iter_S, <- IH. unfold power_map, power, plus, times. cbn [Nat.iter nat_rect fst snd]. f_equal; ring.
Qed.
Theorem C131_lambda_refuted : exists P Q c, lambdafn P Q c 100 = Ok 0%Z /\ bounded_orbit (logistic c) (P, Q).
Proof.
  exists (-3), 0, (1 / 4, 0). assert (F : logistic (1 / 4, 0) (-3, 0) = (-3, 0)) by (unfold logistic, times; cbn [fst snd]; f_equal; field). split.
  - destruct (C131_lambda (-3) 0 (1 / 4, 0) 100 ltac:(lia)) as (r & E & B & D & _). rewrite E. f_equal. destruct (Z.eq_dec r 0) as [H|H]; [exact H|]. exfalso.
    specialize (D 1%nat ltac:(lia) ltac:(lia)). change (Nat.iter 1 (logistic (1 / 4, 0)) (-3, 0)) with (logistic (1 / 4, 0) (-3, 0)) in D. rewrite F in D. unfold sqnorm in D. cbn [fst snd] in D. lra.
  - exists 9. intros n. replace (Nat.iter n (logistic (1 / 4, 0)) (-3, 0)) with (-3, 0); [unfold sqnorm; cbn [fst snd]; lra|].
    induction n as [|n IH]; [reflexivity|]. now rewrite iter_S, <- IH.
Qed.
Theorem C131_tree_refuted : exists P Q d, barnsleytree P Q d 100 = Ok 0%Z /\ bounded_orbit (tree_map d) (P, Q).
Proof.
  exists 3, 0, (3 / 2, 0). assert (F : tree_map (3 / 2, 0) (3, 0) = (3, 0)) by (unfold tree_map, times; cbn [fst snd]; destruct (Rlt_dec 0 3); [|lra]; f_equal; field). split.
  - destruct (C131_tree 3 0 (3 / 2, 0) 100 ltac:(lia)) as (r & E & B & D & _). rewrite E. f_equal. destruct (Z.eq_dec r 0) as [H|H]; [exact H|]. exfalso.
    specialize (D 1%nat ltac:(lia) ltac:(lia)). change (Nat.iter 1 (tree_map (3 / 2, 0)) (3, 0)) with (tree_map (3 / 2, 0) (3, 0)) in D. rewrite F in D. unfold sqnorm in D. cbn [fst snd] in D. lra.
  - exists 9. intros n. replace (Nat.iter n (tree_map (3 / 2, 0)) (3, 0)) with (3, 0); [unfold sqnorm; cbn [fst snd]; lra|].
    induction n as [|n IH]; [reflexivity|]. now rewrite iter_S, <- IH.
Qed.
(** The Mandelbrot set and its relatives: a point is in the set exactly if its value is the number of
    iterations, however large. *)
Lemma set_iff (f : R * R -> R * R) z (val : Z -> res Z) :
  (forall m, (0 <= m)%Z -> exists r, val m = Ok r /\ escape_time f z m r) ->
  (forall m r, escape_time f z m r -> (r < m)%Z -> ~ bounded_orbit f z) ->
  bounded_orbit f z <-> forall m, (0 <= m)%Z -> val m = Ok m.
Proof.
  intros V U. split.
  - intros B m M. destruct (V m M) as (r & E & T). rewrite E. f_equal. destruct (Z.lt_ge_cases r m) as [L|L]; [now destruct (U m r T L)|]. destruct T as (A & _). lia.
  - intros H. exists (4 + sqnorm z). intros [|n].
    + change (Nat.iter 0 f z) with z. lra.
    + destruct (V (Z.of_nat (S n)) ltac:(lia)) as (r & E & A & B & _). rewrite H in E by lia. injection E as <-.
      specialize (B (S n) ltac:(lia) ltac:(lia)). unfold sqnorm at 2. pose proof (Rle_0_sqr (fst z)). pose proof (Rle_0_sqr (snd z)). unfold Rsqr in *. lra.
Qed.
Theorem C131_mandelbrot_set : forall P Q, bounded_orbit (mandel P Q) (0, 0) <-> forall m, (0 <= m)%Z -> multibrot P Q 2 m = Ok m.
Proof.
  intros P Q. apply set_iff.
  - intros m M. destruct (C131_multibrot P Q 2 m ltac:(lia) M) as (r & E & T). exists r. split; [exact E|]. eapply escape_ext; [|exact T]. intros x. symmetry. apply mandel_eq.
  - intros m r T L B. eapply (C131_multibrot_outside 2 (P, Q) m r); [lia| |exact L|].
    + eapply escape_ext; [|exact T]. apply mandel_eq.
    + eapply bounded_ext; [|exact B]. apply mandel_eq.
Qed.
Theorem C131_multibrot_set : forall P Q d, (2 <= d)%Z ->
  bounded_orbit (power_map (Z.to_nat d) (P, Q)) (0, 0) <-> forall m, (0 <= m)%Z -> multibrot P Q d m = Ok m.
Proof. intros P Q d D. apply set_iff; [intros m M; apply C131_multibrot; lia|]. intros m r. apply C131_multibrot_outside. lia. Qed.
Theorem C131_multicorn_set : forall P Q d, (2 <= d)%Z ->
  bounded_orbit (corn_map (Z.to_nat d) (P, Q)) (0, 0) <-> forall m, (0 <= m)%Z -> multicorn P Q d m = Ok m.
Proof. intros P Q d D. apply set_iff; [intros m M; apply C131_multicorn; lia|]. intros m r. apply C131_multicorn_outside. lia. Qed.
Theorem C131_julia_set : forall P Q c d, (2 <= d)%Z -> sqnorm c <= 4 ->
  bounded_orbit (power_map (Z.to_nat d) c) (P, Q) <-> forall m, (0 <= m)%Z -> multijulia P Q c d m = Ok m.
Proof. intros P Q c d D HC. apply set_iff; [intros m M; apply C131_multijulia; lia|]. intros m r. apply C131_julia_outside; [lia|exact HC]. Qed.
(** Symmetries: the real axis, rotations by roots of unity. *)
Theorem C131_symmetry : forall P Q d m,
  multibrot P (- Q) d m = multibrot P Q d m /\ multicorn P (- Q) d m = multicorn P Q d m /\
  (forall x, multijulia P (- Q) (x, 0) d m = multijulia P Q (x, 0) d m) /\
  (forall c, (0 <= d)%Z -> Z.even d = true -> multijulia (- P) (- Q) c d m = multijulia P Q c d m).
Proof.
  intros P Q d m. assert (Z0 : (0, 0) = cconj (0, 0)) by (unfold cconj, re, im; cbn [fst snd]; f_equal; ring).
  assert (K : forall c z, (let! p := cpow (cconj z) d in Ok (cadd p (cconj c)))%py = (let! w := (let! p := cpow z d in Ok (cadd p c)) in Ok (cconj w))%py).
  { intros c z. rewrite cconj_pow. destruct (cpow z d) as [p|e]; cbn [rbind]; [|reflexivity]. now rewrite cconj_add. }
  split; [|split; [|split]].
  - unfold multibrot, escapetime. change (P, - Q) with (cconj (P, Q)). rewrite Z0 at 1. apply escape_same; [apply K|apply out2_conj].
  - unfold multicorn, escapetime. change (P, - Q) with (cconj (P, Q)). rewrite Z0 at 1. apply escape_same; [intros z; apply K|apply out2_conj].
  - intros x. unfold multijulia, escapetime. change (P, - Q) with (cconj (P, Q)).
    assert (X : (x, 0) = cconj (x, 0)) by (unfold cconj, re, im; cbn [fst snd]; f_equal; ring). apply escape_same.
    + intros z. pose proof (K (x, 0) z) as E. rewrite <- X in E. exact E.
    + intros z. f_equal. unfold cmul, cconj, re, im. cbn [fst snd]. ring.
  - intros c D EV. apply escape_start. rewrite !cpow_nonneg by exact D. change (- P, - Q) with (copp (P, Q)).
    replace (copp (P, Q)) with (cmul (rtoc (-1)) (P, Q)) by cring. rewrite cpown_mul.
    replace (cpown (rtoc (-1)) (Z.to_nat d)) with (rtoc 1); [now replace (cmul (rtoc 1) (cpown (P, Q) (Z.to_nat d))) with (cpown (P, Q) (Z.to_nat d)) by ring|].
    apply Z.even_spec in EV. destruct EV as (k & ->). replace (Z.to_nat (2 * k)) with (Z.to_nat k + Z.to_nat k)%nat by lia. rewrite cpown_add, <- cpown_mul.
    replace (cmul (rtoc (-1)) (rtoc (-1))) with (rtoc 1) by cring. induction (Z.to_nat k) as [|n IH]; [reflexivity|]. cbn [cpown]. rewrite <- IH. ring.
Qed.
Theorem C131_rotation : forall w P Q d m, (2 <= d)%Z -> let '(P', Q') := times w (P, Q) in
  (power w (Z.to_nat (d - 1)) = (1, 0) -> multibrot P' Q' d m = multibrot P Q d m) /\
  (power w (Z.to_nat (d + 1)) = (1, 0) -> multicorn P' Q' d m = multicorn P Q d m) /\
  (forall c, power w (Z.to_nat d) = (1, 0) -> multijulia P' Q' c d m = multijulia P Q c d m).
Proof.
  intros w P Q d m D. destruct (times w (P, Q)) as [P' Q'] eqn:EW. change (cmul w (P, Q) = (P', Q')) in EW. rewrite !power_eq. change (1, 0) with (rtoc 1).
  assert (W0 : (0, 0) = cmul w (0, 0)) by (unfold cmul, re, im; cbn [fst snd]; f_equal; ring). split; [|split].
  - intros H. pose proof (root_abs w (Z.to_nat (d - 1)) ltac:(lia) H) as W1. unfold multibrot, escapetime. rewrite W0 at 1. apply escape_same; [|intros; now apply out2_mul].
    intros z. rewrite !cpow_nonneg by lia. cbn [rbind]. rewrite <- EW, cpown_mul. replace (Z.to_nat d) with (S (Z.to_nat (d - 1))) by lia. cbn [cpown]. rewrite H. f_equal. ring.
  - intros H. pose proof (root_abs w (Z.to_nat (d + 1)) ltac:(lia) H) as W1. unfold multicorn, escapetime. rewrite W0 at 1. apply escape_same; [|intros; now apply out2_mul].
    intros z. rewrite !cpow_nonneg by lia. cbn [rbind]. rewrite <- EW, cconj_mul, cpown_mul, <- cconj_pown.
    assert (cconj (cpown w (Z.to_nat d)) = w) as ->.
    { replace (Z.to_nat (d + 1)) with (S (Z.to_nat d)) in H by lia. cbn [cpown] in H. set (p := cpown w (Z.to_nat d)) in *.
      assert (PN : cmul p (cconj p) = rtoc 1). { assert (N : cabs p = 1) by (unfold p; rewrite cpown_abs, W1; apply pow1). apply c_ext; unfold cmul, cconj, rtoc, re, im; cbn [fst snd]; [|ring].
        pose proof (cabs_sq p) as S. rewrite N in S. unfold norm2, re, im in S. lra. }
      replace (cconj p) with (cmul (cmul w p) (cconj p)); [|rewrite H; ring]. replace (cmul (cmul w p) (cconj p)) with (cmul w (cmul p (cconj p))) by ring. rewrite PN. ring. }
    f_equal. ring.
  - intros c H. unfold multijulia. rewrite <- EW. apply escape_start. rewrite !cpow_nonneg by lia. cbn [rbind]. rewrite cpown_mul, H. do 2 f_equal. ring.
Qed.
(** The picture: every pixel of the rectangle (without its last column and row) shows the escape time of its point. *)
Definition coord (lo hi : R) (a b x : Z) : R := lo + IZR (x - Z.min a b) / IZR (Z.abs (b - a)) * (hi - lo).
Lemma sorted_pts x1 y1 x2 y2 : sortrecpoints x1 y1 x2 y2 = (Z.min x1 x2, Z.min y1 y2, Z.max x1 x2, Z.max y1 y2)%Z.
Proof.
  unfold sortrecpoints, swapif. destruct (x1 >? x2)%Z eqn:A, (y1 >? y2)%Z eqn:B; rewrite ?Z.gtb_ltb, ?Z.ltb_lt, ?Z.ltb_ge in A, B; repeat (f_equal; try lia).
Qed.
Lemma coord_eq lo hi a b x : a <> b -> lo + IZR (x - Z.min a b) * ((hi - lo) / IZR (Z.max a b - Z.min a b)) = coord lo hi a b x.
Proof.
  intros N. unfold coord. replace (Z.max a b - Z.min a b)%Z with (Z.abs (b - a)) by lia. assert (IZR (Z.abs (b - a)) <> 0) by (apply not_0_IZR; lia). field. exact H.
Qed.
Lemma width_ok a b : a <> b -> IZR (Z.max a b - Z.min a b) <> 0.
Proof. intros N. apply not_0_IZR. lia. Qed.
Lemma valueat_ok func Pmax Pmin Qmax Qmin x1 y1 x2 y2 x y : x1 <> x2 -> y1 <> y2 ->
  valueat x1 y1 x2 y2 func (Pmax, Pmin, Qmax, Qmin) x y = func (coord Pmin Pmax x1 x2 x) (coord Qmin Qmax y1 y2 y).
Proof.
  intros X Y. unfold valueat. rewrite sorted_pts. rewrite !rdiv_ok by now apply width_ok. cbn [rbind]. now rewrite !coord_eq.
Qed.
Lemma res_map_all {A B} (f : A -> res B) (g : A -> B) l : (forall a, In a l -> f a = Ok (g a)) -> res_map f l = Ok (map g l).
Proof.
  induction l as [|a l IH]; intros H; [reflexivity|]. cbn [res_map map]. rewrite H by now left. cbn [rbind]. rewrite IH by (intros; apply H; now right). reflexivity.
Qed.
(** The iterators give each pixel once with the value of its point. *)
Theorem C131_iterator : forall func v Pmax Pmin Qmax Qmin x1 y1 x2 y2, x1 <> x2 -> y1 <> y2 -> (forall P Q, func P Q = Ok (v P Q)) ->
  exists l, itermultifractal x1 y1 x2 y2 func (Pmax, Pmin, Qmax, Qmin) = Ok l /\
    map fst l = flat_map (fun y => map (fun x => (x, y)) (range (Z.min x1 x2) (Z.max x1 x2))) (range (Z.min y1 y2) (Z.max y1 y2)) /\
    forall x y r, In (x, y, r) l <-> (Z.min x1 x2 <= x < Z.max x1 x2)%Z /\ (Z.min y1 y2 <= y < Z.max y1 y2)%Z /\
      r = v (coord Pmin Pmax x1 x2 x) (coord Qmin Qmax y1 y2 y).
Proof.
  intros func v Pmax Pmin Qmax Qmin x1 y1 x2 y2 X Y V. unfold itermultifractal, mapfractaldomain. rewrite sorted_pts. rewrite !rdiv_ok by now apply width_ok. cbn [rbind fst snd].
  rewrite (res_map_all _ (fun q : (R * Z) * (R * Z) => (snd (fst q), snd (snd q), v (fst (fst q)) (fst (snd q))))).
  2:{ intros q _. now rewrite V. }
  set (xs := range (Z.min x1 x2) (Z.max x1 x2)). set (ys := range (Z.min y1 y2) (Z.max y1 y2)).
  exists (flat_map (fun y => map (fun x => (x, y, v (coord Pmin Pmax x1 x2 x) (coord Qmin Qmax y1 y2 y))) xs) ys). split; [|split].
  - f_equal. induction ys as [|y ys IH]; [reflexivity|]. cbn [map flat_map]. rewrite map_app, IH, !map_map. f_equal. apply map_ext. intros x. cbn [fst snd]. now rewrite !coord_eq.
  - induction ys as [|y ys IH]; [reflexivity|]. cbn [flat_map]. rewrite map_app, IH, map_map. reflexivity.
  - intros x y r. rewrite in_flat_map. split.
    + intros (y' & HY & H). apply in_map_iff in H. destruct H as (x' & E & HX). injection E as <- <- <-. apply in_range in HX. apply in_range in HY. auto.
    + intros (HX & HY & ->). exists y. split; [now apply in_range|]. apply in_map_iff. exists x. split; [reflexivity|now apply in_range].
Qed.
(** Of a domain that is symmetric about the real axis the rows at the same distance from the middle are the same. *)
Theorem C131_mirror : forall Pmax Pmin Qmax x1 y1 x2 y2 m x y, x1 <> x2 -> y1 <> y2 ->
  let val := valueat x1 y1 x2 y2 (fun P Q => multibrot P Q 2 m) (Pmax, Pmin, Qmax, - Qmax) in val x (y1 + y2 - y)%Z = val x y.
Proof.
  intros Pmax Pmin Qmax x1 y1 x2 y2 m x y X Y val. unfold val. rewrite !valueat_ok by assumption.
  replace (coord (- Qmax) Qmax y1 y2 (y1 + y2 - y)) with (- coord (- Qmax) Qmax y1 y2 y); [apply C131_symmetry|].
  unfold coord. assert (D : IZR (Z.abs (y2 - y1)) <> 0) by (apply not_0_IZR; lia).
  replace (y1 + y2 - y - Z.min y1 y2)%Z with (Z.abs (y2 - y1) - (y - Z.min y1 y2))%Z by lia. rewrite (minus_IZR (Z.abs (y2 - y1))). field. exact D.
Qed.
Lemma picture func (F : R -> R -> R * R -> R * R) (z : R -> R -> R * R) m b w h bits o f Pmax Pmin Qmax Qmin x1 y1 x2 y2 : wf b w h bits -> x1 <> x2 -> y1 <> y2 ->
  (forall P Q, exists r, func P Q = Ok r /\ escape_time (F P Q) (z P Q) m r) ->
  (forall v, (0 <= v <= m)%Z -> fractal_fits f bits v) ->
  (bits = 8%Z -> (0 <= Z.min x1 x2 /\ Z.max x1 x2 <= w /\ 0 <= Z.min y1 y2 /\ Z.max y1 y2 <= h)%Z) ->
  exists b' v, plotmultifractal (valueat x1 y1 x2 y2 func (Pmax, Pmin, Qmax, Qmin)) f x1 y1 x2 y2 (mkst b o) = (Ok tt, mkst b' o) /\
    (forall x y, let P := coord Pmin Pmax x1 x2 x in let Q := coord Qmin Qmax y1 y2 y in escape_time (F P Q) (z P Q) m (v x y)) /\
    repainted b b' w h bits (fun x y =>
      (if ((Z.min x1 x2 <=? x) && (x <? Z.max x1 x2)) && ((Z.min y1 y2 <=? y) && (y <? Z.max y1 y2))
       then fractal_colour f bits (v x y) else pixel b w h bits x y)%Z).
Proof.
  intros W X Y FV FF H8. set (v := fun x y => match func (coord Pmin Pmax x1 x2 x) (coord Qmin Qmax y1 y2 y) with Ok r => r | Err _ => 0%Z end).
  assert (V : forall x y, valueat x1 y1 x2 y2 func (Pmax, Pmin, Qmax, Qmin) x y = Ok (v x y) /\ escape_time (F (coord Pmin Pmax x1 x2 x) (coord Qmin Qmax y1 y2 y)) (z (coord Pmin Pmax x1 x2 x) (coord Qmin Qmax y1 y2 y)) m (v x y)).
  { intros x y. rewrite valueat_ok by assumption. unfold v. destruct (FV (coord Pmin Pmax x1 x2 x) (coord Qmin Qmax y1 y2 y)) as (r & E & T). rewrite E. now split. }
  destruct (C88_painted (valueat x1 y1 x2 y2 func (Pmax, Pmin, Qmax, Qmin)) v f b w h bits o x1 y1 x2 y2 W X Y) as (b' & E & RP).
  - intros x y _ _. destruct (V x y) as (E & T). split; [exact E|]. apply FF. apply T.
  - intros E8 _. now apply H8.
  - exists b', v. split; [exact E|]. split; [intros x y; apply V|exact RP].
Qed.
Theorem C131_picture : forall b w h bits o f Pmax Pmin Qmax Qmin x1 y1 x2 y2 m c, wf b w h bits -> x1 <> x2 -> y1 <> y2 -> (0 <= m)%Z ->
  (forall v, (0 <= v <= m)%Z -> fractal_fits f bits v) ->
  (bits = 8%Z -> (0 <= Z.min x1 x2 /\ Z.max x1 x2 <= w /\ 0 <= Z.min y1 y2 /\ Z.max y1 y2 <= h)%Z) ->
  let shows (fn : M unit) (F : R -> R -> R * R -> R * R) (z : R -> R -> R * R) := exists b' v, fn (mkst b o) = (Ok tt, mkst b' o) /\
    (forall x y, let P := coord Pmin Pmax x1 x2 x in let Q := coord Qmin Qmax y1 y2 y in escape_time (F P Q) (z P Q) m (v x y)) /\
    repainted b b' w h bits (fun x y =>
      (if ((Z.min x1 x2 <=? x) && (x <? Z.max x1 x2)) && ((Z.min y1 y2 <=? y) && (y <? Z.max y1 y2))
       then fractal_colour f bits (v x y) else pixel b w h bits x y)%Z) in
  shows (mandelbrotbmp x1 y1 x2 y2 (Pmax, Pmin, Qmax, Qmin) f m) mandel (fun _ _ => (0, 0)) /\
  shows (juliabmp x1 y1 x2 y2 c (Pmax, Pmin, Qmax, Qmin) f m) (fun _ _ => mandel (fst c) (snd c)) (fun P Q => (P, Q)) /\
  shows (tricornbmp x1 y1 x2 y2 (Pmax, Pmin, Qmax, Qmin) f m) (fun P Q z => mandel P Q (mirror z)) (fun _ _ => (0, 0)).
Proof.
  intros b w h bits o f Pmax Pmin Qmax Qmin x1 y1 x2 y2 m c W X Y M FF H8 shows. split; [|split]; apply picture; try assumption; intros P Q.
  - destruct (C131_multibrot P Q 2 m ltac:(lia) M) as (r & E & T). exists r. split; [exact E|]. eapply escape_ext; [|exact T]. intros z. symmetry. apply mandel_eq.
  - destruct (C131_multijulia P Q c 2 m ltac:(lia) M) as (r & E & T). exists r. split; [exact E|]. eapply escape_ext; [|exact T]. intros z. rewrite mandel_eq. now destruct c.
  - destruct (C131_multicorn P Q 2 m ltac:(lia) M) as (r & E & T). exists r. split; [exact E|]. eapply escape_ext; [|exact T]. intros z. rewrite mandel_eq. reflexivity.
Qed.
Theorem C131_empty : forall b w h bits o f domain x1 y1 x2 y2 m, wf b w h bits -> x1 = x2 \/ y1 = y2 ->
  mandelbrotbmp x1 y1 x2 y2 domain f m (mkst b o) = (Err ZeroDivisionError, mkst b o).
Proof. intros. unfold mandelbrotbmp. eapply C88_empty; eauto. Qed.

(** 1 leaves after 1, 2; -1 is in the Mandelbrot set; -1 turns the multibrot of degree 3 and the Julia sets of degree 2 *)
Example C131_ex :
  multibrot 1 0 2 10 = Ok 2%Z /\ ~ bounded_orbit (mandel 1 0) (0, 0) /\ bounded_orbit (mandel (-1) 0) (0, 0) /\ multibrot (-1) 0 2 1000 = Ok 1000%Z /\
  power (-1, 0) (Z.to_nat (3 - 1)) = (1, 0) /\ sqnorm (1 / 4, 1 / 2) <= 4 /\ 1 <= sqnorm (1, 1) /\ 4 <= sqnorm (2, 1) /\
  (forall v, (0 <= v <= 255)%Z -> fractal_fits (Three (fun c => (c, c, c)) (fun c => c)) 8 v).
Proof.
  assert (A : multibrot 1 0 2 10 = Ok 2%Z).
  { destruct (C131_multibrot 1 0 2 10 ltac:(lia) ltac:(lia)) as (r & E & T). rewrite E. f_equal. refine (hits_unique _ _ 10 r 2 T _). clear. change (Z.to_nat 2) with 2%nat. split; [lia|split].
    - intros [|[|[|n]]] H1 H2; [lia|..|lia]; unfold norm2, power_map, power, plus, times, re, im; cbn [Nat.iter nat_rect fst snd]; lra.
    - intros _. change (Z.to_nat 2) with 2%nat. unfold norm2, power_map, power, plus, times, re, im; cbn [Nat.iter nat_rect fst snd]; lra. }
  assert (B : bounded_orbit (mandel (-1) 0) (0, 0)).
  { exists 1. intros n. assert (H : Nat.iter n (mandel (-1) 0) (0, 0) = (0, 0) \/ Nat.iter n (mandel (-1) 0) (0, 0) = (-1, 0)).
    { induction n as [|n [IH|IH]]; [now left|right|left]; rewrite iter_S, IH; unfold mandel; cbn [fst snd]; f_equal; ring. }
    destruct H as [-> | ->]; unfold sqnorm; cbn [fst snd]; lra. }
  split; [exact A|]. split; [intros H; pose proof (proj1 (C131_mandelbrot_set 1 0) H 10%Z ltac:(lia)) as E; rewrite A in E; discriminate|]. split; [exact B|].
  split; [exact (proj1 (C131_mandelbrot_set (-1) 0) B 1000%Z ltac:(lia))|]. split; [change (Z.to_nat (3 - 1)) with 2%nat; unfold power, times; cbn [Nat.iter nat_rect fst snd]; f_equal; ring|].
  split; [unfold sqnorm; cbn [fst snd]; lra|]. split; [unfold sqnorm; cbn [fst snd]; lra|]. split; [unfold sqnorm; cbn [fst snd]; lra|].
  intros v Hv. split; [discriminate|lia].
Qed.
Print Assumptions C131_multibrot.
Print Assumptions C131_multijulia.
Print Assumptions C131_multicorn.
Print Assumptions C131_lambda.
Print Assumptions C131_tree.
Print Assumptions C131_stable.
Print Assumptions C131_multibrot_outside.
Print Assumptions C131_multicorn_outside.
Print Assumptions C131_julia_outside.
Print Assumptions C131_lambda_outside.
Print Assumptions C131_tree_outside.
Print Assumptions C131_julia_refuted.
Print Assumptions C131_lambda_refuted.
Print Assumptions C131_tree_refuted.
Print Assumptions C131_mandelbrot_set.
Print Assumptions C131_multibrot_set.
Print Assumptions C131_multicorn_set.
Print Assumptions C131_julia_set.
Print Assumptions C131_symmetry.
Print Assumptions C131_rotation.
Print Assumptions C131_iterator.
Print Assumptions C131_mirror.
Print Assumptions C131_picture.
Print Assumptions C131_empty.
