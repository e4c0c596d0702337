(** Property C129: flowers, superellipses, squircles, gears, Cornu spirals, hearts and eggs. *)
From Coq Require Import ZArith Reals List Bool Lia Lra Psatz.
From Verif Require Import PyBase PyFacts Bmp MathLib Coords RealProofs Sweeps.
Import ListNotations.
Open Scope R_scope.

(** the integer part, towards 0 *)
Definition whole (n : Z) (x : R) : Prop := Rabs (IZR n) <= Rabs x /\ Rabs (x - IZR n) < 1.
Definition whole2 (p : Z * Z) (z : R * R) : Prop := whole (fst p) (fst z) /\ whole (snd p) (snd z).
Definition point (l : list (Z * Z)) (i : Z) : Z * Z := nth (Z.to_nat i) l (0, 0)%Z.
Definition deg (d : R) : R := d * (PI / 180).
(** x to the power p, for x >= 0 and p > 0 *)
Definition power (x p : R) : R := if Req_EM_T x 0 then 0 else exp (p * ln x).

Lemma whole_trunc x : whole (rtrunc x) x.
Proof. split; [apply rtrunc_abs|apply rtrunc_near]. Qed.
(** there is only one such integer *)
Theorem C129_whole : forall n m x, whole n x -> whole m x -> n = m.
Proof.
  intros n m x (N1 & N2) (M1 & M2). apply Rabs_def2 in N2, M2. destruct (Rle_dec 0 x) as [X|X].
  - rewrite (Rabs_right x) in N1, M1 by lra. apply Rabs_le_inv in N1, M1. assert (A : (n < m + 1)%Z) by (apply lt_IZR; rewrite plus_IZR; lra). assert (B : (m < n + 1)%Z) by (apply lt_IZR; rewrite plus_IZR; lra). lia.
  - rewrite (Rabs_left x) in N1, M1 by lra. apply Rabs_le_inv in N1, M1. assert (A : (n < m + 1)%Z) by (apply lt_IZR; rewrite plus_IZR; lra). assert (B : (m < n + 1)%Z) by (apply lt_IZR; rewrite plus_IZR; lra). lia.
Qed.
Lemma point_range (f : Z -> Z * Z) n i : (0 <= i < n)%Z -> point (map f (range 0 n)) i = f i.
Proof.
  intros H. unfold point, range. rewrite (nth_indep _ _ (f (0 + Z.of_nat 0)%Z)).
  - rewrite map_map. rewrite (map_nth (fun k => f (0 + Z.of_nat k)%Z)). rewrite seq_nth by lia. f_equal. lia.
  - rewrite !map_length, seq_length. lia.
Qed.
Lemma length_range {A} (f : Z -> A) n : length (map f (range 0 n)) = Z.to_nat n.
Proof. unfold range. rewrite !map_length, seq_length. lia. Qed.
Lemma radians_deg d : radians d = deg d.
Proof. unfold radians, deg. field. Qed.
Lemma sin_sub_PI t : sin (PI - t) = sin t.
Proof. rewrite sin_minus, sin_PI, cos_PI. ring. Qed.
Lemma cos_sub_PI t : cos (PI - t) = - cos t.
Proof. rewrite cos_minus, sin_PI, cos_PI. ring. Qed.
Lemma sin_sub_2PI t : sin (2 * PI - t) = - sin t.
Proof. rewrite sin_minus, sin_2PI, cos_2PI. ring. Qed.
Lemma cos_sub_2PI t : cos (2 * PI - t) = cos t.
Proof. rewrite cos_minus, sin_2PI, cos_2PI. ring. Qed.
Lemma rad180 i : radians (IZR (180 - i)) = PI - radians (IZR i).
Proof. unfold radians. rewrite minus_IZR. field. Qed.
Lemma rad360 i : radians (IZR (360 - i)) = 2 * PI - radians (IZR i).
Proof. unfold radians. rewrite minus_IZR. field. Qed.

(** ** flowers *)
Lemma cos2_half t : cos (t / 2) ^ 2 = (1 + cos t) / 2.
Proof. replace t with (2 * (t / 2)) at 2 by field. rewrite cos_2a_cos. field. Qed.
(** For positive r, 360 points for each petal: the distance from the centre falls from r at the
    tip of a petal to 0 between two petals, and the petals are 360 / petals degrees apart. *)
Theorem C129_flower : forall cx cy r petals angrot, (0 < petals)%Z -> (0 <= r)%Z -> let l := iterflower cx cy r petals angrot in
  length l = Z.to_nat (360 * petals) /\
  (forall a, (0 <= a < 360 * petals)%Z -> exists f, 0 <= f <= IZR r /\ f = IZR r * (1 + cos (deg (IZR a))) / 2 /\
    whole2 (point l a) (IZR cx - f * sin (deg (IZR a / IZR petals + angrot)), IZR cy - f * cos (deg (IZR a / IZR petals + angrot)))) /\
  (forall j, (0 <= j < petals)%Z -> point l (360 * j + 180) = (cx, cy) /\
    whole2 (point l (360 * j)) (IZR cx - IZR r * sin (deg (360 / IZR petals * IZR j + angrot)), IZR cy - IZR r * cos (deg (360 / IZR petals * IZR j + angrot)))).
Proof.
  intros cx cy r petals angrot P R l. assert (PR : 0 < IZR petals) by now apply IZR_lt. assert (RR : 0 <= IZR r) by now apply IZR_le.
  assert (F : forall a, flowerpoint cx cy r petals angrot a = let f := IZR r * (1 + cos (deg (IZR a))) / 2 in
    (IZR cx - f * sin (deg (IZR a / IZR petals + angrot)), IZR cy - f * cos (deg (IZR a / IZR petals + angrot)))).
  { intros a. unfold flowerpoint. cbv zeta. rewrite !radians_deg. replace (IZR petals / 2 * deg (IZR a / IZR petals)) with (deg (IZR a) / 2) by (unfold deg; field; lra). rewrite cos2_half.
    replace (deg (IZR a / IZR petals) + deg angrot) with (deg (IZR a / IZR petals + angrot)) by (unfold deg; ring). f_equal; field. }
  split; [apply length_range|]. split.
  - intros a A. eexists. split; [|split; [reflexivity|]].
    + pose proof (COS_bound (deg (IZR a))). nra.
    + unfold l, iterflower. rewrite point_range by exact A. rewrite F. split; apply whole_trunc.
  - intros j J. assert (C : forall d, cos (deg (IZR (360 * j) + d)) = cos (deg d)).
    { intros d. replace (deg (IZR (360 * j) + d)) with (deg d + 2 * INR (Z.to_nat j) * PI) by (unfold deg; rewrite mult_IZR, (INR_IZR_INZ (Z.to_nat j)), Z2Nat.id by lia; field). apply cos_period. }
    unfold l, iterflower. rewrite !point_range by lia. rewrite !F. split.
    + rewrite plus_IZR, C. replace (deg 180) with PI by (unfold deg; field). rewrite cos_PI. unfold ctrunc. cbn [fst snd].
      replace (IZR r * (1 + -1) / 2) with 0 by field. rewrite !Rmult_0_l, !Rminus_0_r. now rewrite !rtrunc_Z.
    + specialize (C 0). rewrite Rplus_0_r in C. rewrite C. replace (deg 0) with 0 by (unfold deg; ring). rewrite cos_0. replace (IZR r * (1 + 1) / 2) with (IZR r) by field.
      replace (IZR (360 * j) / IZR petals) with (360 / IZR petals * IZR j) by (rewrite mult_IZR; field; lra). split; apply whole_trunc.
Qed.

(** ** superellipses *)
Lemma rpow_power x p : rpow x p = power x p.
Proof. unfold rpow, req, power, Rpower. destruct (Req_EM_T x 0); reflexivity. Qed.
Lemma power_0 p : power 0 p = 0.
Proof. unfold power. destruct (Req_EM_T 0 0); [reflexivity|congruence]. Qed.
Lemma power_pos x p : 0 < x -> power x p = Rpower x p.
Proof. intros H. unfold power. destruct (Req_EM_T x 0); [lra|reflexivity]. Qed.
Lemma power_nonneg x p : 0 <= power x p.
Proof. unfold power. destruct (Req_EM_T x 0); [lra|]. left. apply exp_pos. Qed.
Lemma power_le x y p : 0 < p -> 0 <= x <= y -> power x p <= power y p.
Proof.
  intros P (X & Y). destruct (Req_EM_T x 0) as [->|N]; [rewrite power_0; apply power_nonneg|]. rewrite !power_pos by lra. apply Rle_Rpower_l; lra.
Qed.
Lemma power_nat x n : 0 <= x -> power x (INR (S n)) = x ^ S n.
Proof. intros X. destruct (Req_EM_T x 0) as [->|N]; [rewrite power_0; cbn [pow]; ring|]. rewrite power_pos by lra. apply Rpower_pow. lra. Qed.
Lemma power_half w m : 0 <= w -> 0 < m -> power (power w (2 / m)) m = w * w.
Proof.
  intros W M. destruct (Req_EM_T w 0) as [->|N]; [rewrite !power_0; ring|]. rewrite (power_pos w) by lra. rewrite power_pos by apply exp_pos.
  rewrite Rpower_mult. replace (2 / m * m) with (INR 2) by (cbn [INR]; field; lra). rewrite Rpower_pow by lra. ring.
Qed.
Lemma rsign_opp w : rsign (- w) = - rsign w.
Proof. unfold rsign, rlt. destruct (Rlt_dec 0 w), (Rlt_dec w 0), (Rlt_dec 0 (- w)), (Rlt_dec (- w) 0); lra. Qed.
Lemma rsign_abs w : w <> 0 -> Rabs (rsign w) = 1.
Proof. intros N. unfold rsign, rlt. destruct (Rlt_dec 0 w); [apply Rabs_R1|]. destruct (Rlt_dec w 0); [rewrite Rabs_left by lra; lra|lra]. Qed.
Lemma se_coord w a m : 0 < a -> 0 < m -> Rabs (rpow (Rabs w) (2 / m) * a * rsign w / a) = power (Rabs w) (2 / m).
Proof.
  intros A M. rewrite rpow_power. replace (power (Rabs w) (2 / m) * a * rsign w / a) with (power (Rabs w) (2 / m) * rsign w) by (field; lra). rewrite Rabs_mult.
  rewrite (Rabs_right (power _ _)) by (apply Rle_ge, power_nonneg). destruct (Req_EM_T w 0) as [->|N]; [rewrite Rabs_R0, power_0; ring|]. rewrite rsign_abs by exact N. ring.
Qed.
Lemma se_exact a b m n t : 0 < a -> 0 < b -> 0 < m -> 0 < n -> let z := superellipsepoint a b m n t in power (Rabs (fst z / a)) m + power (Rabs (snd z / b)) n = 1.
Proof.
  intros A B M N. cbv zeta. unfold superellipsepoint. cbn [fst snd]. rewrite !se_coord by assumption. rewrite !power_half by (try assumption; apply Rabs_pos).
  rewrite <- !Rabs_mult. rewrite !Rabs_right by apply Rle_ge, Rle_0_sqr. pose proof (sin2_cos2 t) as P. unfold Rsqr in P. lra.
Qed.
(** The curve |x/a|^m + |y/b|^n = 1: each of the 360 points is the integer part of a point of the
    curve, so it lies inside, and the points are symmetric about both axes. *)
Theorem C129_superellipse : forall cx cy a b m n, 0 < a -> 0 < b -> 0 < m -> 0 < n -> let l := itersuperellipse cx cy a b m n in
  length l = 360%nat /\
  (forall i, (0 <= i < 360)%Z -> let p := ((fst (point l i) - cx)%Z, (snd (point l i) - cy)%Z) in
    (exists x y, power (Rabs (x / a)) m + power (Rabs (y / b)) n = 1 /\ whole2 p (x, y)) /\
    power (Rabs (IZR (fst p) / a)) m + power (Rabs (IZR (snd p) / b)) n <= 1) /\
  (forall i, (0 <= i <= 180)%Z -> point l (180 - i) = ((2 * cx - fst (point l i))%Z, snd (point l i))) /\
  (forall i, (0 < i < 360)%Z -> point l (360 - i) = (fst (point l i), (2 * cy - snd (point l i))%Z)).
Proof.
  intros cx cy a b m n A B M N l. split; [apply length_range|]. split; [|split].
  - intros i I. unfold l, itersuperellipse. rewrite point_range by exact I. cbn [fst snd]. set (z := superellipsepoint a b m n (radians (IZR i))).
    pose proof (se_exact a b m n (radians (IZR i)) A B M N) as E. cbv zeta in E. fold z in E.
    replace (cx + rtrunc (fst z) - cx)%Z with (rtrunc (fst z)) by lia. replace (cy + rtrunc (snd z) - cy)%Z with (rtrunc (snd z)) by lia. split.
    + exists (fst z), (snd z). split; [exact E|]. split; apply whole_trunc.
    + assert (K : forall c p w, 0 < c -> 0 < p -> power (Rabs (IZR (rtrunc w) / c)) p <= power (Rabs (w / c)) p).
      { intros c p w C P. apply power_le; [exact P|]. split; [apply Rabs_pos|]. unfold Rdiv. rewrite !Rabs_mult. apply Rmult_le_compat_r; [apply Rabs_pos|apply rtrunc_abs]. }
      pose proof (K a m (fst z) A M). pose proof (K b n (snd z) B N). lra.
  - intros i I. unfold l, itersuperellipse. rewrite !point_range by lia. cbn [fst snd]. rewrite rad180. unfold superellipsepoint. cbn [fst snd]. rewrite sin_sub_PI, cos_sub_PI, Rabs_Ropp, rsign_opp.
    replace (rpow (Rabs (cos (radians (IZR i)))) (2 / m) * a * - rsign (cos (radians (IZR i)))) with (- (rpow (Rabs (cos (radians (IZR i)))) (2 / m) * a * rsign (cos (radians (IZR i))))) by ring.
    rewrite rtrunc_opp. f_equal. lia.
  - intros i I. unfold l, itersuperellipse. rewrite !point_range by lia. cbn [fst snd]. rewrite rad360. unfold superellipsepoint. cbn [fst snd]. rewrite sin_sub_2PI, cos_sub_2PI, Rabs_Ropp, rsign_opp.
    replace (rpow (Rabs (sin (radians (IZR i)))) (2 / n) * b * - rsign (sin (radians (IZR i)))) with (- (rpow (Rabs (sin (radians (IZR i)))) (2 / n) * b * rsign (sin (radians (IZR i))))) by ring.
    rewrite rtrunc_opp. f_equal. lia.
Qed.
(** Squircles: x^4 + y^4 = r^4. *)
Theorem C129_squircle : forall x y r, (0 < r)%Z -> let l := itersquircle x y r in
  length l = 360%nat /\ point l 0 = ((x + r)%Z, y) /\ point l 90 = (x, (y + r)%Z) /\ point l 180 = ((x - r)%Z, y) /\ point l 270 = (x, (y - r)%Z) /\
  (forall p, In p l -> ((fst p - x) ^ 4 + (snd p - y) ^ 4 <= r ^ 4)%Z /\
     exists u v, u ^ 4 + v ^ 4 = IZR r ^ 4 /\ whole2 ((fst p - x)%Z, (snd p - y)%Z) (u, v)).
Proof.
  intros x y r R l. assert (RR : 0 < IZR r) by now apply IZR_lt. destruct (C129_superellipse x y (IZR r) (IZR r) 4 4 RR RR ltac:(lra) ltac:(lra)) as (L & P & S1 & S2).
  assert (P1 : rpow (Rabs 1) (2 / 4) = 1) by (rewrite rpow_power, Rabs_R1, power_pos by lra; unfold Rpower; rewrite ln_1, Rmult_0_r; apply exp_0).
  assert (G1 : rsign 1 = 1) by (unfold rsign; rewrite (proj2 (rlt_iff 0 1)) by lra; reflexivity).
  assert (G0 : rsign 0 = 0) by (unfold rsign; rewrite (proj2 (rlt_no 0 0)) by lra; reflexivity).
  assert (Q0 : point l 0 = ((x + r)%Z, y)).
  { unfold l, itersquircle, itersuperellipse. rewrite point_range by lia. unfold superellipsepoint. cbn [fst snd]. replace (radians 0) with 0 by (unfold radians; field). rewrite cos_0, sin_0, P1, G1, G0, Rmult_0_r. rewrite (rtrunc_Z 0).
    replace (1 * IZR r * 1) with (IZR r) by ring. rewrite rtrunc_Z. f_equal. lia. }
  assert (Q9 : point l 90 = (x, (y + r)%Z)).
  { unfold l, itersquircle, itersuperellipse. rewrite point_range by lia. unfold superellipsepoint. cbn [fst snd]. replace (radians 90) with (PI / 2) by (unfold radians; field). rewrite cos_PI2, sin_PI2, P1, G1, G0, Rmult_0_r. rewrite (rtrunc_Z 0).
    replace (1 * IZR r * 1) with (IZR r) by ring. rewrite rtrunc_Z. f_equal. lia. }
  split; [exact L|]. split; [exact Q0|]. split; [exact Q9|]. split; [|split].
  - change 180%Z with (180 - 0)%Z. unfold l, itersquircle. rewrite (S1 0%Z) by lia. fold (itersquircle x y r). fold l. rewrite Q0. cbn [fst snd]. f_equal; lia.
  - change 270%Z with (360 - 90)%Z. unfold l, itersquircle. rewrite (S2 90%Z) by lia. fold (itersquircle x y r). fold l. rewrite Q9. cbn [fst snd]. f_equal; lia.
  - intros p I. apply (In_nth _ _ (0, 0)%Z) in I. destruct I as (k & K & E). assert (K' : (0 <= Z.of_nat k < 360)%Z) by (unfold l, itersquircle in K; rewrite L in K; lia).
    destruct (P (Z.of_nat k) K') as ((u & v & E1 & W) & I). assert (E' : point (itersuperellipse x y (IZR r) (IZR r) 4 4) (Z.of_nat k) = p) by (unfold point; rewrite Nat2Z.id; exact E). rewrite E' in W, I. cbn [fst snd] in I.
    assert (F : forall w, power (Rabs (w / IZR r)) 4 = w ^ 4 / IZR r ^ 4).
    { intros w. replace 4 with (INR 4) by (cbn [INR]; ring). rewrite power_nat by apply Rabs_pos. rewrite RPow_abs. rewrite Rabs_right; [field; lra|]. apply Rle_ge. replace ((w / IZR r) ^ 4) with (Rsqr (Rsqr (w / IZR r))) by (unfold Rsqr; ring). apply Rle_0_sqr. }
    rewrite !F in I, E1. assert (R4 : 0 < IZR r ^ 4) by now apply pow_lt. split.
    + apply le_IZR. rewrite plus_IZR. change 4%Z with (Z.of_nat 4). rewrite <- !pow_IZR. apply (Rmult_le_reg_r (/ IZR r ^ 4)); [now apply Rinv_0_lt_compat|]. rewrite Rinv_r by lra. unfold Rdiv in I. lra.
    + exists u, v. split; [|exact W]. apply (Rmult_eq_reg_r (/ IZR r ^ 4)); [|apply Rinv_neq_0_compat; lra]. rewrite Rinv_r by lra. unfold Rdiv in E1. lra.
Qed.

(** ** gears *)
Lemma tanh_abs x : Rabs (tanh x) < 1.
Proof.
  unfold tanh, sinh, cosh. pose proof (exp_pos x). pose proof (exp_pos (- x)). set (u := exp x) in *. set (v := exp (- x)) in *. clearbody u v.
  apply Rabs_def1; apply (Rmult_lt_reg_r ((u + v) / 2)); try lra; replace ((u - v) / 2 / ((u + v) / 2) * ((u + v) / 2)) with ((u - v) / 2) by (field; lra); lra.
Qed.
(** One point at each degree, at a distance between a - |b| and a + |b| from the centre; the
    distances repeat n times. *)
Theorem C129_gear : forall cx cy a b n, let l := itergearcurve cx cy a b n in length l = 360%nat /\
  exists r : Z -> R, (forall i, Rabs (r i - IZR a) <= Rabs (IZR b) /\ (b <> 0%Z -> Rabs (r i - IZR a) < Rabs (IZR b))) /\
    (forall i, r (180 - i)%Z - IZR a = if Z.even n then IZR a - r i else r i - IZR a) /\
    (forall i j k, (n * j = 360 * k)%Z -> r (i + j)%Z = r i) /\
    forall i, (0 <= i < 360)%Z -> whole2 (point l i) (IZR cx + r i * cos (deg (IZR i)), IZR cy + r i * sin (deg (IZR i))).
Proof.
  intros cx cy a b n l. split; [apply length_range|]. exists (fun i => IZR a + IZR b * tanh (IZR b * sin (IZR n * radians (IZR i)))).
  assert (TO : forall x, tanh (- x) = - tanh x) by (intros x; unfold tanh, sinh, cosh; rewrite Ropp_involutive; pose proof (exp_pos x); pose proof (exp_pos (- x)); field; lra).
  split; [|split; [|split]].
  - intros i. set (h := IZR b * sin (IZR n * radians (IZR i))). replace (IZR a + IZR b * tanh h - IZR a) with (IZR b * tanh h) by ring. rewrite Rabs_mult. pose proof (tanh_abs h). pose proof (Rabs_pos (IZR b)). pose proof (Rabs_pos (tanh h)). split; [nra|].
    intros B. assert (0 < Rabs (IZR b)) by (apply Rabs_pos_lt; now apply not_0_IZR). nra.
  - intros i. rewrite rad180. set (t := radians (IZR i)). replace (IZR n * (PI - t)) with (IZR n * PI - IZR n * t) by ring.
    assert (SI : sin (IZR n * PI) = 0) by (apply sin_eq_0_1; now exists n).
    assert (CO : cos (IZR n * PI) = if Z.even n then 1 else -1).
    { assert (E2 : forall q, cos (IZR (2 * q) * PI) = 1).
      { intros q. rewrite mult_IZR. replace (2 * IZR q * PI) with (2 * (IZR q * PI)) by ring. rewrite cos_2a_sin. rewrite (sin_eq_0_1 (IZR q * PI)) by now exists q. ring. }
      destruct (Z.even n) eqn:E.
      - apply Z.even_spec in E. destruct E as (q & ->). apply E2.
      - assert (O : Z.odd n = true) by (rewrite <- Z.negb_even, E; reflexivity). apply Z.odd_spec in O. destruct O as (q & ->). rewrite plus_IZR, Rmult_plus_distr_r, Rmult_1_l, neg_cos. rewrite E2. reflexivity. }
    rewrite sin_minus, SI, CO. destruct (Z.even n).
    + replace (IZR b * (0 * cos (IZR n * t) - 1 * sin (IZR n * t))) with (- (IZR b * sin (IZR n * t))) by ring. rewrite TO. ring.
    + replace (IZR b * (0 * cos (IZR n * t) - -1 * sin (IZR n * t))) with (IZR b * sin (IZR n * t)) by ring. ring.
  - intros i j k E. f_equal. f_equal. f_equal. f_equal. replace (IZR n * radians (IZR (i + j))) with (IZR n * radians (IZR i) + 2 * IZR k * PI).
    + assert (S0 : sin (2 * IZR k * PI) = 0) by (apply sin_eq_0_1; exists (2 * k)%Z; now rewrite mult_IZR).
      assert (C0 : cos (2 * IZR k * PI) = 1) by (replace (2 * IZR k * PI) with (2 * (IZR k * PI)) by ring; rewrite cos_2a_sin; rewrite (sin_eq_0_1 (IZR k * PI)) by (now exists k); ring).
      rewrite sin_plus, S0, C0. ring.
    + apply (f_equal IZR) in E. rewrite !mult_IZR in E. unfold radians. rewrite plus_IZR. replace (IZR n * ((IZR i + IZR j) * PI / 180)) with (IZR n * (IZR i * PI / 180) + (IZR n * IZR j) * PI / 180) by field. rewrite E. field.
  - intros i I. unfold l, itergearcurve. rewrite point_range by exact I. unfold gearpoint, cadd, crect, real. cbn [fst snd]. rewrite <- !radians_deg. rewrite (Rplus_comm (IZR cx)), (Rplus_comm (IZR cy)). split; apply whole_trunc.
Qed.

(** ** Cornu spirals *)
Lemma cornusteps_nth n : forall k i z j, (j < n)%nat ->
  let q := nth j (cornusteps n k i z) (0, 0) in
  length (cornusteps n k i z) = n /\
  (j = 0%nat -> q = cadd z (crect k (radians (IZR i) * radians (IZR i)))) /\
  (forall j', j = S j' -> q = cadd (nth j' (cornusteps n k i z) (0, 0)) (crect k (radians (IZR (i + Z.of_nat j)) * radians (IZR (i + Z.of_nat j))))).
Proof.
  assert (L : forall n k i z, length (cornusteps n k i z) = n) by (clear n; induction n as [|n IH]; intros k i z; cbn [cornusteps length]; [reflexivity|now rewrite IH]).
  induction n as [|n IH]; intros k i z j J; [lia|]. cbv zeta. split; [apply L|]. split.
  - intros ->. reflexivity.
  - intros j' ->. cbn [cornusteps nth]. destruct (IH k (i + 1)%Z (cadd z (crect k (radians (IZR i) * radians (IZR i)))) j' ltac:(lia)) as (_ & H0 & H1).
    destruct j' as [|j'].
    + rewrite H0 by reflexivity. cbn [nth]. reflexivity.
    + rewrite (H1 j' eq_refl). cbn [nth]. now replace (i + 1 + Z.of_nat (S j'))%Z with (i + Z.of_nat (S (S j')))%Z by lia.
Qed.
(** Steps of one degree of arc of a circle of radius r, whose direction is the square of the
    degree (in radians): the curvature grows linearly along the curve. *)
Theorem C129_cornu : forall cx cy r, let l := itercornuspiral cx cy r in length l = 360%nat /\
  exists z : nat -> R * R, z 0%nat = (IZR cx, IZR cy) /\
    (forall i, (i < 360)%nat -> z (S i) = (fst (z i) + deg (IZR r) * cos (deg (INR i) * deg (INR i)), snd (z i) + deg (IZR r) * sin (deg (INR i) * deg (INR i)))) /\
    forall i, (i < 360)%nat -> whole2 (point l (Z.of_nat i)) (z (S i)).
Proof.
  intros cx cy r l. set (s := cornusteps 360 (radians (IZR r)) 0 (real (cx, cy))). assert (L : length s = 360%nat) by exact (proj1 (cornusteps_nth 360 _ _ _ 0 ltac:(lia))).
  split; [unfold l, itercornuspiral; now rewrite map_length|]. exists (fun i => match i with O => (IZR cx, IZR cy) | S j => nth j s (0, 0) end). split; [reflexivity|]. split.
  - intros i I. destruct (cornusteps_nth 360 (radians (IZR r)) 0 (real (cx, cy)) i I) as (_ & H0 & H1). fold s in H0, H1. destruct i as [|i].
    + rewrite H0 by reflexivity. unfold cadd, crect, real. cbn [fst snd]. rewrite !radians_deg. reflexivity.
    + rewrite (H1 i eq_refl). unfold cadd, crect. cbn [fst snd]. rewrite !radians_deg, Z.add_0_l, <- INR_IZR_INZ. reflexivity.
  - intros i I. unfold point. rewrite Nat2Z.id. unfold l, itercornuspiral. fold s. rewrite (nth_indep _ _ (ctrunc (0, 0))) by (rewrite map_length; lia). rewrite map_nth. split; apply whole_trunc.
Qed.

(** ** hearts *)
Lemma whole_between lo hi x : (lo <= 0 <= hi)%Z -> IZR lo <= x <= IZR hi -> (lo <= rtrunc x <= hi)%Z.
Proof.
  intros H (A & B). destruct (whole_trunc x) as (W1 & W2). set (n := rtrunc x) in *. clearbody n. apply Rabs_def2 in W2. destruct (Rle_dec 0 x) as [X|X].
  - rewrite (Rabs_right x) in W1 by lra. apply Rabs_le_inv in W1. split; [|apply le_IZR; lra]. assert ((-1 < n)%Z) by (apply lt_IZR; lra). lia.
  - rewrite (Rabs_left x) in W1 by lra. apply Rabs_le_inv in W1. split; [apply le_IZR; lra|]. assert ((n < 1)%Z) by (apply lt_IZR; lra). lia.
Qed.
Lemma heart_poly t : snd (heartpoint t) = - 8 * cos t ^ 4 - 8 * cos t ^ 3 - 2 * cos t ^ 2 + 19 * cos t + 4.
Proof.
  unfold heartpoint. cbn [snd]. assert (C2 : cos (2 * t) = 2 * cos t ^ 2 - 1) by (rewrite cos_2a_cos; ring).
  assert (C4 : cos (4 * t) = 2 * cos (2 * t) ^ 2 - 1) by (replace (4 * t) with (2 * (2 * t)) by ring; rewrite cos_2a_cos; ring).
  assert (C3 : cos (3 * t) = 4 * cos t ^ 3 - 3 * cos t).
  { replace (3 * t) with (2 * t + t) by ring. rewrite cos_plus, cos_2a_cos, sin_2a. pose proof (sin2_cos2 t) as P. unfold Rsqr in P. replace (2 * sin t * cos t * sin t) with (2 * cos t * (sin t * sin t)) by ring. replace (sin t * sin t) with (1 - cos t * cos t) by lra. ring. }
  rewrite C4, C3, C2. ring.
Qed.
Lemma heart_bounds t : -16 <= fst (heartpoint t) <= 16 /\ -17 <= snd (heartpoint t) <= 12.
Proof.
  split.
  - unfold heartpoint. cbn [fst]. pose proof (SIN_bound t) as B. set (s := sin t) in *. clearbody s. assert (0 <= s * s <= 1) by nra. replace (s ^ 3) with (s * (s * s)) by ring. nra.
  - rewrite heart_poly. pose proof (COS_bound t) as B. set (c := cos t) in *. clearbody c. assert (Q : 0 <= c * c <= 1) by nra. split.
    + assert (K : 0 <= (c + 1) * (- 8 * (c * (c * c)) - 2 * c + 21)) by (apply Rmult_le_pos; [lra|]; assert (c * (c * c) <= 1) by nra; lra). lra.
    + pose proof (Rle_0_sqr (c * c + c / 2 - 7 / 10)) as S1. pose proof (Rle_0_sqr (c - 134 / 224)) as S2. unfold Rsqr in *. lra.
Qed.
(** 360 points within 16 s of the centre sideways, 12 s above and 17 s below; mirrored about the
    vertical line through the centre; the notch 5 s above the centre and the tip 17 s below. *)
Theorem C129_heart : forall cx cy s, (0 <= s)%Z -> let l := iterheartcurve cx cy s in
  length l = 360%nat /\ point l 0 = (cx, (cy - 5 * s)%Z) /\ point l 180 = (cx, (cy + 17 * s)%Z) /\
  (forall i, (0 < i < 360)%Z -> point l (360 - i) = ((2 * cx - fst (point l i))%Z, snd (point l i))) /\
  (forall p, In p l -> (cx - 16 * s <= fst p <= cx + 16 * s)%Z /\ (cy - 12 * s <= snd p <= cy + 17 * s)%Z) /\
  (forall i, (0 <= i < 360)%Z -> let t := deg (IZR i) in
    whole2 ((fst (point l i) - cx)%Z, (cy - snd (point l i))%Z) (IZR s * (16 * sin t ^ 3), IZR s * (13 * cos t - 5 * cos (2 * t) - 2 * cos (3 * t) - cos (4 * t)))).
Proof.
  intros cx cy s S l. assert (SR : 0 <= IZR s) by now apply IZR_le. split; [apply length_range|]. split; [|split; [|split; [|split]]].
  - unfold l, iterheartcurve. rewrite point_range by lia. replace (radians 0) with 0 by (unfold radians; field). cbv zeta. rewrite heart_poly. unfold heartpoint. cbn [fst]. rewrite cos_0, sin_0.
    replace (IZR s * (16 * 0 ^ 3)) with (IZR 0) by ring. replace (IZR s * _) with (IZR (5 * s)) by (rewrite mult_IZR; ring). rewrite !rtrunc_Z. f_equal. lia.
  - unfold l, iterheartcurve. rewrite point_range by lia. replace (radians 180) with PI by (unfold radians; field). cbv zeta. rewrite heart_poly. unfold heartpoint. cbn [fst]. rewrite cos_PI, sin_PI.
    replace (IZR s * (16 * 0 ^ 3)) with (IZR 0) by ring. replace (IZR s * _) with (IZR (- (17 * s))) by (rewrite opp_IZR, mult_IZR; ring). rewrite !rtrunc_Z. f_equal; lia.
  - intros i I. unfold l, iterheartcurve. rewrite !point_range by lia. cbv zeta. rewrite rad360, !heart_poly. unfold heartpoint. cbn [fst snd]. rewrite sin_sub_2PI, cos_sub_2PI.
    replace (IZR s * (16 * (- sin (radians (IZR i))) ^ 3)) with (- (IZR s * (16 * sin (radians (IZR i)) ^ 3))) by ring. rewrite rtrunc_opp. f_equal. lia.
  - intros p I. unfold l, iterheartcurve in I. apply in_map_iff in I. destruct I as (i & <- & _). cbv zeta. cbn [fst snd]. destruct (heart_bounds (radians (IZR i))) as (X & Y).
    pose proof (whole_between (- (16 * s)) (16 * s) (IZR s * fst (heartpoint (radians (IZR i)))) ltac:(lia) ltac:(rewrite opp_IZR, mult_IZR; nra)).
    pose proof (whole_between (- (17 * s)) (12 * s) (IZR s * snd (heartpoint (radians (IZR i)))) ltac:(lia) ltac:(rewrite opp_IZR, !mult_IZR; nra)). lia.
  - intros i I. unfold l, iterheartcurve. rewrite point_range by exact I. cbv zeta. cbn [fst snd]. rewrite <- radians_deg. set (z := heartpoint (radians (IZR i))). change (16 * sin (radians (IZR i)) ^ 3) with (fst z).
    change (13 * cos (radians (IZR i)) - 5 * cos (2 * radians (IZR i)) - 2 * cos (3 * radians (IZR i)) - cos (4 * radians (IZR i))) with (snd z).
    replace (cx + rtrunc (IZR s * fst z) - cx)%Z with (rtrunc (IZR s * fst z)) by lia. replace (cy - (cy - rtrunc (IZR s * snd z)))%Z with (rtrunc (IZR s * snd z)) by lia. split; apply whole_trunc.
Qed.

(** ** eggs *)
(** the egg of length a: y^2 = x / 2 (a - b - 2 x + sqrt (4 b x + (a - b)^2)), 0 <= x <= a *)
Definition in_egg (a b x y : R) : Prop := 0 <= x <= a /\ y * y <= x / 2 * (a - b - 2 * x + sqrt (4 * b * x + (a - b) * (a - b))).
Lemma egg_in cx cy a b p : In p (itereggcurve cx cy a b) <-> 0 < IZR a - b /\
  exists x, (0 <= x < a)%Z /\ (0 < eggheight (IZR a) b x)%Z /\ fst p = (cx + x - Z.shiftr a 1)%Z /\ (snd p = cy - eggheight (IZR a) b x \/ snd p = cy + eggheight (IZR a) b x)%Z.
Proof.
  unfold itereggcurve. destruct (rlt 0 (IZR a - b)) eqn:K.
  - apply rlt_iff in K. rewrite in_concat. split.
    + intros (q & Q & I). split; [exact K|]. apply in_map_iff in Q. destruct Q as (x & <- & X). exists x. apply in_range in X. split; [exact X|]. destruct (Z.ltb_spec 0 (eggheight (IZR a) b x)) as [H|H]; [|destruct I].
      split; [exact H|]. destruct I as [<-|[<-|[]]]; cbn [fst snd]; auto.
    + intros (_ & x & X & H & E1 & E2). eexists. split; [apply in_map_iff; exists x; split; [reflexivity|apply in_range; exact X]|]. cbv zeta. rewrite (proj2 (Z.ltb_lt _ _) H). destruct p as (p1 & p2). cbn [fst snd] in *. subst p1. destruct E2 as [-> | ->]; [left|right; left]; reflexivity.
  - apply rlt_no in K. split; [intros []|]. intros (H & _). lra.
Qed.
Theorem C129_egg : forall cx cy a b p, In p (itereggcurve cx cy a b) ->
  In (fst p, (2 * cy - snd p)%Z) (itereggcurve cx cy a b) /\ snd p <> cy /\
  (b <= IZR a - 1 -> in_egg (IZR a) b (IZR (fst p - cx + Z.shiftr a 1)) (IZR (snd p - cy))).
Proof.
  intros cx cy a b p I. apply egg_in in I. destruct I as (K & x & X & H & E1 & E2). split; [|split; [destruct E2; lia|]].
  - apply egg_in. split; [exact K|]. exists x. cbn [fst snd]. repeat (split; [assumption|]). destruct E2; [right|left]; lia.
  - intros B. replace (fst p - cx + Z.shiftr a 1)%Z with x by lia. set (y := eggheight (IZR a) b x) in *.
    assert (XR : 0 <= IZR x <= IZR a) by (split; apply IZR_le; lia). split; [exact XR|].
    assert (YY : IZR (snd p - cy) * IZR (snd p - cy) = IZR y * IZR y) by (rewrite <- !mult_IZR; f_equal; destruct E2; nia). rewrite YY.
    assert (Y0 : 0 < IZR y) by now apply IZR_lt. set (u := IZR a - b - 2 * IZR x + sqrt (4 * b * IZR x + (IZR a - b))).
    assert (S2 : 0 < sqrt 2) by (apply sqrt_lt_R0; lra). assert (SS : sqrt 2 * sqrt 2 = 2) by (apply sqrt_sqrt; lra).
    assert (YU : IZR y <= sqrt u * sqrt (IZR x) / sqrt 2).
    { pose proof (rtrunc_abs (sqrt u * sqrt (IZR x) / sqrt 2)) as T. change (rtrunc (sqrt u * sqrt (IZR x) / sqrt 2)) with y in T. rewrite !Rabs_right in T; [exact T| |lra].
      apply Rle_ge. apply Rmult_le_pos; [apply Rmult_le_pos; apply sqrt_pos|left; now apply Rinv_0_lt_compat]. }
    assert (U : 0 < u). { destruct (Rlt_dec 0 u) as [U|U]; [exact U|]. rewrite (sqrt_neg_0 u) in YU by lra. unfold Rdiv in YU. rewrite !Rmult_0_l in YU. lra. }
    assert (YZ : IZR y * sqrt 2 <= sqrt u * sqrt (IZR x)) by (apply (Rmult_le_compat_r (sqrt 2)) in YU; [|lra]; replace (sqrt u * sqrt (IZR x) / sqrt 2 * sqrt 2) with (sqrt u * sqrt (IZR x)) in YU by (field; lra); exact YU).
    assert (Y2 : 2 * (IZR y * IZR y) <= u * IZR x).
    { replace (2 * (IZR y * IZR y)) with ((IZR y * sqrt 2) * (IZR y * sqrt 2)) by (replace ((IZR y * sqrt 2) * (IZR y * sqrt 2)) with (IZR y * IZR y * (sqrt 2 * sqrt 2)) by ring; rewrite SS; ring).
      replace (u * IZR x) with ((sqrt u * sqrt (IZR x)) * (sqrt u * sqrt (IZR x))) by (replace ((sqrt u * sqrt (IZR x)) * (sqrt u * sqrt (IZR x))) with ((sqrt u * sqrt u) * (sqrt (IZR x) * sqrt (IZR x))) by ring; rewrite !sqrt_sqrt by lra; reflexivity).
      apply Rmult_le_compat; try exact YZ; nra. }
    assert (UU : u <= IZR a - b - 2 * IZR x + sqrt (4 * b * IZR x + (IZR a - b) * (IZR a - b))) by (unfold u; apply Rplus_le_compat_l; apply sqrt_le_1_alt; nra).
    nra.
Qed.
(** The egg is not complete: every column that meets it in more than a pixel should have points. *)
Theorem C129_egg_refuted : ~ (forall cx cy a b x, (0 <= x < a)%Z -> 0 <= b <= IZR a - 1 -> in_egg (IZR a) b (IZR x) 1 -> exists p, In p (itereggcurve cx cy a b) /\ fst p = (cx + x - Z.shiftr a 1)%Z).
Proof.
  intros F. destruct (F 0%Z 0%Z 100%Z 0 60%Z ltac:(lia) ltac:(lra)) as (p & I & E).
  - split; [lra|]. replace (4 * 0 * 60 + (100 - 0) * (100 - 0)) with (100 * 100) by ring. rewrite sqrt_square by lra. lra.
  - apply egg_in in I. destruct I as (_ & x & X & H & E1 & _). assert (x = 60)%Z by lia. subst x. unfold eggheight in H.
    replace (100 - 0 - 2 * 60 + sqrt (4 * 0 * 60 + (100 - 0))) with (-10) in H.
    + rewrite (sqrt_neg_0 (-10)) in H by lra. unfold Rdiv in H. rewrite !Rmult_0_l, (rtrunc_Z 0) in H. lia.
    + replace (4 * 0 * 60 + (100 - 0)) with (10 * 10) by ring. rewrite sqrt_square by lra. lra.
Qed.

(** a squircle, a heart, a flower of five petals and an egg *)
Example C129_ex :
  point (itersquircle 5 5 3) 180 = (2, 5)%Z /\ point (iterheartcurve 100 100 2) 180 = (100, 134)%Z /\
  point (iterflower 50 60 20 5 45) (360 * 2 + 180) = (50, 60)%Z /\ length (itersuperellipse 0 0 10 20 2.5 2.5) = 360%nat /\
  In (-39, 22)%Z (itereggcurve 0 0 100 0) /\ in_egg 100 0 11 22 /\ itereggcurve 0 0 10 10 = [].
Proof.
  destruct (C129_squircle 5 5 3 ltac:(lia)) as (_ & _ & _ & S & _). destruct (C129_heart 100 100 2 ltac:(lia)) as (_ & _ & H & _).
  destruct (C129_flower 50 60 20 5 45 ltac:(lia) ltac:(lia)) as (_ & _ & F). destruct (C129_superellipse 0 0 10 20 2.5 2.5 ltac:(lra) ltac:(lra) ltac:(lra) ltac:(lra)) as (E & _).
  split; [exact S|]. split; [exact H|]. split; [exact (proj1 (F 2%Z ltac:(lia)))|]. split; [exact E|].
  assert (EH : eggheight 100 0 11 = 22%Z).
  { unfold eggheight. replace (100 - 0 - 2 * 11 + sqrt (4 * 0 * 11 + (100 - 0))) with 88.
    - rewrite <- sqrt_mult_alt by lra. replace (88 * 11) with (22 * 22 * 2) by ring. rewrite sqrt_mult_alt by lra. rewrite sqrt_square by lra. replace (22 * sqrt 2 / sqrt 2) with (IZR 22); [apply rtrunc_Z|].
      field. assert (0 < sqrt 2) by (apply sqrt_lt_R0; lra). lra.
    - replace (4 * 0 * 11 + (100 - 0)) with (10 * 10) by ring. rewrite sqrt_square by lra. lra. }
  assert (I : In (-39, 22)%Z (itereggcurve 0 0 100 0)) by (apply egg_in; split; [lra|]; exists 11%Z; rewrite EH; cbn [fst snd]; repeat split; try lia; right; lia).
  split; [exact I|]. split; [exact (proj2 (proj2 (C129_egg 0 0 100 0 _ I)) ltac:(lra))|]. unfold itereggcurve. now rewrite (proj2 (rlt_no 0 (10 - 10))) by lra.
Qed.
Print Assumptions C129_whole.
Print Assumptions C129_flower.
Print Assumptions C129_superellipse.
Print Assumptions C129_squircle.
Print Assumptions C129_gear.
Print Assumptions C129_cornu.
Print Assumptions C129_heart.
Print Assumptions C129_egg.
Print Assumptions C129_egg_refuted.
