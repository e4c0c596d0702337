(** Property C128: curves swept by an angle. *)
From Coq Require Import ZArith Reals List Bool Lia Lra Psatz.
From Verif Require Import PyBase PyFacts Bmp MathLib Coords RealProofs Sweeps.
Import ListNotations.
Open Scope R_scope.

(** the parameters 0, delta, 2 delta, ... below lim *)
Definition steps_below (n : nat) (delta lim : R) : Prop := lim <= INR n * delta /\ forall k, (k < n)%nat -> INR k * delta < lim.
(** within half a pixel in each direction *)
Definition rounded (p : Z * Z) (z : R * R) : Prop := Rabs (IZR (fst p) - fst z) <= 1 / 2 /\ Rabs (IZR (snd p) - snd z) <= 1 / 2.
(** the result of a generator: one point for each parameter *)
Definition points_at (n : nat) (delta : R) (r : res (list (Z * Z))) (ok : R -> Z * Z -> Prop) : Prop :=
  exists l, r = Ok l /\ length l = n /\ forall k, (k < n)%nat -> ok (INR k * delta) (nth k l (0, 0)%Z).
Definition dist2 (z w : R * R) : R := (fst z - fst w) * (fst z - fst w) + (snd z - snd w) * (snd z - snd w).
Definition on_circle (r t : R) : R * R := (r * cos t, r * sin t).

(** * C128 *)
Lemma steps_exist delta lim : 0 < delta -> exists n, steps_below n delta lim.
Proof.
  intros D. destruct (Rle_dec lim 0) as [L|L].
  - exists 0%nat. split; [cbn [INR]; lra|]. intros k H. lia.
  - destruct (archimed (lim / delta)) as (A & B). set (u := up (lim / delta)) in *.
    assert (Q : 0 < lim / delta) by (apply Rmult_lt_0_compat; [lra|now apply Rinv_0_lt_compat]). assert (QD : lim / delta * delta = lim) by (field; lra).
    assert (U : (0 < u)%Z) by (apply lt_IZR; lra).
    assert (K : forall n, lim <= INR n * delta -> exists m, steps_below m delta lim).
    { induction n as [|n IH]; intros H; [cbn [INR] in H; lra|]. destruct (Rle_dec lim (INR n * delta)) as [H'|H']; [now apply IH|]. exists (S n). split; [exact H|].
      intros k Hk. apply Rle_lt_trans with (INR n * delta); [|lra]. apply Rmult_le_compat_r; [lra|]. apply le_INR. lia. }
    apply (K (Z.to_nat u)). rewrite INR_IZR_INZ, Z2Nat.id by lia. nra.
Qed.
Lemma sweep_steps {A} (f : R -> A) delta lim n : 0 < delta -> steps_below n delta lim -> forall fuel, (n <= fuel)%nat ->
  sweep fuel f delta lim 0 = Ok (map (fun k => f (INR k * delta)) (seq 0 n)).
Proof.
  intros D (S1 & S2) fuel F.
  assert (K : forall m k fuel, (n = k + m)%nat -> (m <= fuel)%nat -> sweep fuel f delta lim (INR k * delta) = Ok (map (fun k => f (INR k * delta)) (seq k m))).
  { induction m as [|m IH]; intros k fu E L.
    - rewrite Nat.add_0_r in E. subst k. assert (X : rlt (INR n * delta) lim = false) by (apply rlt_no; exact S1). destruct fu; cbn [sweep]; rewrite X; reflexivity.
    - destruct fu as [|fu]; [lia|]. cbn [sweep seq map]. rewrite (proj2 (rlt_iff _ _)) by (apply S2; lia). replace (INR k * delta + delta) with (INR (S k) * delta) by (rewrite S_INR; ring).
      rewrite (IH (S k) fu) by lia. reflexivity. }
  specialize (K n 0%nat fuel eq_refl F). cbn [INR] in K. now rewrite Rmult_0_l in K.
Qed.
Lemma sweep_points f delta lim n (ok : R -> Z * Z -> Prop) : 0 < delta -> steps_below n delta lim -> (forall t, ok t (f t)) -> forall fuel, (n <= fuel)%nat -> points_at n delta (sweep fuel f delta lim 0) ok.
Proof.
  intros D S O fuel F. rewrite (sweep_steps f delta lim n D S fuel F). eexists. split; [reflexivity|]. split; [now rewrite map_length, seq_length|].
  intros k Hk. rewrite (nth_indep _ _ (f (INR 0 * delta))) by (rewrite map_length, seq_length; lia). rewrite (map_nth (fun k => f (INR k * delta))), seq_nth by lia. apply O.
Qed.
(** Curves with a step that is not positive never end, unless there is nothing to draw. *)
Theorem C128_endless : forall {A} (f : R -> A) delta lim fuel, 0 < lim -> delta <= 0 -> sweep fuel f delta lim 0 = Err Diverges.
Proof.
  intros A f delta lim fuel L D. assert (K : forall fuel t, t < lim -> sweep fuel f delta lim t = Err Diverges).
  { clear fuel. induction fuel as [|n IH]; intros t T; cbn [sweep]; rewrite (proj2 (rlt_iff _ _) T); [reflexivity|]. rewrite IH by lra. reflexivity. }
  now apply K.
Qed.
Theorem C128_empty : forall {A} (f : R -> A) delta lim fuel, lim <= 0 -> sweep fuel f delta lim 0 = Ok [].
Proof. intros A f delta lim fuel L. destruct fuel; cbn [sweep]; now rewrite (proj2 (rlt_no _ _) L). Qed.

Lemma cround_rounded z : rounded (cround z) z.
Proof. split; cbn [cround fst snd]; rewrite Rabs_minus_sym; apply rround_near. Qed.
Lemma circle_dist r t : fst (on_circle r t) * fst (on_circle r t) + snd (on_circle r t) * snd (on_circle r t) = r * r.
Proof. unfold on_circle. cbn [fst snd]. pose proof (sin2_cos2 t) as P. unfold Rsqr in P. replace (r * cos t * (r * cos t) + r * sin t * (r * sin t)) with (r * r * (sin t * sin t + cos t * cos t)) by ring. rewrite P. ring. Qed.

(** ** Lissajous curves *)
Lemma cos_abs a t : Rabs (a * cos t) <= Rabs a.
Proof. rewrite Rabs_mult. rewrite <- (Rmult_1_r (Rabs a)) at 2. apply Rmult_le_compat_l; [apply Rabs_pos|]. apply Rabs_le. pose proof (COS_bound t). lra. Qed.
Lemma sin_abs a t : Rabs (a * sin t) <= Rabs a.
Proof. rewrite Rabs_mult. rewrite <- (Rmult_1_r (Rabs a)) at 2. apply Rmult_le_compat_l; [apply Rabs_pos|]. apply Rabs_le. pose proof (SIN_bound t). lra. Qed.
Lemma rround_opp x : rround (- x) = (- rround x)%Z.
Proof.
  destruct (Req_dec (Rabs (x - IZR (rround x))) (1 / 2)) as [T|T].
  - pose proof (rround_even x T) as E. set (n := rround x) in *. pose proof (rround_near (- x)) as N.
    destruct (Req_dec (Rabs (- x - IZR (rround (- x)))) (1 / 2)) as [T'|T'].
    + pose proof (rround_even (- x) T') as E'. set (m := rround (- x)) in *. clearbody n m.
      assert (D : Rabs (IZR (m + n)) <= 1) by (rewrite plus_IZR; replace (IZR m + IZR n) with (- (- x - IZR m) - (x - IZR n)) by ring; eapply Rle_trans; [apply Rabs_triang|]; rewrite !Rabs_Ropp; lra).
      rewrite <- abs_IZR in D. apply le_IZR in D. assert (Z.even (m + n) = true) by (rewrite Z.even_add, E, E'; reflexivity). rewrite Zeven.Zeven_bool_iff in *. destruct (Zeven.Zeven_ex _ H) as (q & Q). lia.
    + assert (L : Rabs (- x - IZR (rround (- x))) < 1 / 2) by lra. assert (R1 : Rabs (x - IZR (- rround (- x))) < 1 / 2) by (rewrite opp_IZR; replace (x - - IZR (rround (- x))) with (- (- x - IZR (rround (- x)))) by ring; now rewrite Rabs_Ropp).
      pose proof (rround_unique x _ R1) as U. fold n in U. rewrite U in T. lra.
  - pose proof (rround_near x) as N. apply rround_unique. rewrite opp_IZR. replace (- x - - IZR (rround x)) with (- (x - IZR (rround x))) by ring. rewrite Rabs_Ropp. lra.
Qed.
Lemma rround_abs x y : Rabs x <= y -> (Z.abs (rround x) <= rround y)%Z.
Proof.
  intros H. apply Rabs_le_inv in H. pose proof (rround_mono x y ltac:(lra)). pose proof (rround_mono (- y) x ltac:(lra)) as K. rewrite rround_opp in K. lia.
Qed.
(** The k-th point lies within the box of half width |a| and half height |b|. *)
Theorem C128_lissajous : forall x y a b c d e delta lim, 0 < delta -> exists n, steps_below n delta lim /\ forall fuel, (n <= fuel)%nat ->
  points_at n delta (iterlissajouscurve fuel x y a b c d e delta lim) (fun t p =>
    rounded ((fst p - x)%Z, (snd p - y)%Z) (a * cos (c * t + e), b * sin (d * t)) /\
    (Z.abs (fst p - x) <= rround (Rabs a))%Z /\ (Z.abs (snd p - y) <= rround (Rabs b))%Z).
Proof.
  intros x y a b c d e delta lim D. destruct (steps_exist delta lim D) as (n & S). exists n. split; [exact S|]. apply sweep_points; auto. intros t. cbn [fst snd].
  replace (x + rround (a * cos (c * t + e)) - x)%Z with (rround (a * cos (c * t + e))) by lia. replace (y + rround (b * sin (d * t)) - y)%Z with (rround (b * sin (d * t))) by lia.
  split; [apply (cround_rounded (_, _))|]. split; apply rround_abs; [apply cos_abs|apply sin_abs].
Qed.

(** ** rolling circles *)
(** the pen: at distance [c] from the centre of the rolling circle, moving at right angles to the
    line to the point where the circles touch *)
Definition pen_distance (z : R -> R * R) (centre c : R) : Prop := forall t, dist2 (z t) (on_circle centre t) = c * c.
Definition rolls (z : R -> R * R) (a : R) : Prop := forall t, exists vx vy,
  derivable_pt_lim (fun t => fst (z t)) t vx /\ derivable_pt_lim (fun t => snd (z t)) t vy /\
  (fst (z t) - fst (on_circle a t)) * vx + (snd (z t) - snd (on_circle a t)) * vy = 0.
Lemma deriv_cos p q t : derivable_pt_lim (fun t => p * cos (q * t)) t (- (p * q * sin (q * t))).
Proof.
  replace (- (p * q * sin (q * t))) with (p * (- sin (q * t) * (q * 1))) by ring. apply (derivable_pt_lim_scal (fun t => cos (q * t))).
  apply (derivable_pt_lim_comp (fun t => q * t) cos); [apply (derivable_pt_lim_scal (fun t => t)); apply derivable_pt_lim_id|apply derivable_pt_lim_cos].
Qed.
Lemma deriv_sin p q t : derivable_pt_lim (fun t => p * sin (q * t)) t (p * q * cos (q * t)).
Proof.
  replace (p * q * cos (q * t)) with (p * (cos (q * t) * (q * 1))) by ring. apply (derivable_pt_lim_scal (fun t => sin (q * t))).
  apply (derivable_pt_lim_comp (fun t => q * t) sin); [apply (derivable_pt_lim_scal (fun t => t)); apply derivable_pt_lim_id|apply derivable_pt_lim_sin].
Qed.
Lemma deriv_ext f g t l : (forall t, f t = g t) -> derivable_pt_lim f t l -> derivable_pt_lim g t l.
Proof. intros E H eps P. destruct (H eps P) as (d & Hd). exists d. intros h N L. rewrite <- !E. now apply Hd. Qed.
(** every curve p e^(it) + s e^(iqt) *)
Lemma trochoid_deriv p s q t :
  derivable_pt_lim (fun t => p * cos t + s * cos (q * t)) t (- (p * sin t) - s * q * sin (q * t)) /\
  derivable_pt_lim (fun t => p * sin t + s * sin (q * t)) t (p * cos t + s * q * cos (q * t)).
Proof.
  split.
  - apply deriv_ext with (fun t => p * cos (1 * t) + s * cos (q * t)); [intros u; now rewrite Rmult_1_l|].
    replace (- (p * sin t) - s * q * sin (q * t)) with (- (p * 1 * sin (1 * t)) + - (s * q * sin (q * t))) by (rewrite Rmult_1_l; ring). apply (derivable_pt_lim_plus (fun t => p * cos (1 * t)) (fun t => s * cos (q * t))); apply deriv_cos.
  - apply deriv_ext with (fun t => p * sin (1 * t) + s * sin (q * t)); [intros u; now rewrite Rmult_1_l|].
    replace (p * cos t + s * q * cos (q * t)) with (p * 1 * cos (1 * t) + s * q * cos (q * t)) by (rewrite Rmult_1_l; ring). apply (derivable_pt_lim_plus (fun t => p * sin (1 * t)) (fun t => s * sin (q * t))); apply deriv_sin.
Qed.
Definition from_centre (x y : Z) (z : R * R) : R * R := (fst z - IZR x, snd z - IZR y).
(** Epicycloids: the point of a circle of radius b that rolls round a circle of radius a, from
    (a, 0). *)
Theorem C128_epicycloid : forall x y a b, b <> 0 -> let z t := from_centre x y (epicycloidpoint x y a b t) in
  z 0 = (a, 0) /\ pen_distance z (a + b) b /\ rolls z a /\
  forall delta lim, 0 < delta -> exists n, steps_below n delta lim /\ forall fuel, (n <= fuel)%nat ->
    points_at n delta (iterepicycloid fuel x y a b delta lim) (fun t p => rounded p (epicycloidpoint x y a b t)).
Proof.
  intros x y a b B z. assert (Z : forall t, z t = ((a + b) * cos t + - b * cos ((a / b + 1) * t), (a + b) * sin t + - b * sin ((a / b + 1) * t))).
  { intros t. unfold z, from_centre, epicycloidpoint, cadd, csub, crect, real. cbn [fst snd]. f_equal; ring. }
  split; [rewrite Z, !Rmult_0_r, cos_0, sin_0; f_equal; ring|]. split; [|split].
  - intros t. rewrite Z. unfold dist2, on_circle. cbn [fst snd]. pose proof (sin2_cos2 ((a / b + 1) * t)) as P. unfold Rsqr in P. set (u := (a / b + 1) * t) in *.
    replace (((a + b) * cos t + - b * cos u - (a + b) * cos t) * ((a + b) * cos t + - b * cos u - (a + b) * cos t) + ((a + b) * sin t + - b * sin u - (a + b) * sin t) * ((a + b) * sin t + - b * sin u - (a + b) * sin t)) with (b * b * (sin u * sin u + cos u * cos u)) by ring. rewrite P. ring.
  - intros t. destruct (trochoid_deriv (a + b) (- b) (a / b + 1) t) as (DX & DY). do 2 eexists. split; [eapply deriv_ext; [|exact DX]; intros u; now rewrite Z|]. split; [eapply deriv_ext; [|exact DY]; intros u; now rewrite Z|].
    rewrite Z. unfold on_circle. cbn [fst snd]. set (u := (a / b + 1) * t). assert (Q : - b * (a / b + 1) = - (a + b)) by (field; exact B). rewrite Q. ring.
  - intros delta lim D. destruct (steps_exist delta lim D) as (n & S). exists n. split; [exact S|]. unfold iterepicycloid. rewrite rdiv_ok by exact B. cbn [rbind]. apply sweep_points; auto. intros t. apply cround_rounded.
Qed.
(** Hypotrochoids: the pen has the right distance, but the circle does not roll. *)
Theorem C128_hypotrochoid : forall x y a b c, b <> 0 -> let z t := from_centre x y (hypotrochoidpoint x y a b c t) in
  pen_distance z (a - b) c /\
  (forall t, sqrt (dist2 (z t) (0, 0)) <= Rabs (a - b) + Rabs c) /\
  forall delta lim, 0 < delta -> exists n, steps_below n delta lim /\ forall fuel, (n <= fuel)%nat ->
    points_at n delta (iterhypotrochoid fuel x y a b c delta lim) (fun t p => rounded p (hypotrochoidpoint x y a b c t)).
Proof.
  intros x y a b c B z. assert (Z : forall t, z t = ((a - b) * cos t + - c * cos ((a / b + 1) * t), (a - b) * sin t + - c * sin ((a / b + 1) * t))).
  { intros t. unfold z, from_centre, hypotrochoidpoint, cadd, csub, crect, real. cbn [fst snd]. f_equal; ring. }
  assert (PD : pen_distance z (a - b) c).
  { intros t. rewrite Z. unfold dist2, on_circle. cbn [fst snd]. pose proof (sin2_cos2 ((a / b + 1) * t)) as P. unfold Rsqr in P. set (u := (a / b + 1) * t) in *.
    replace (((a - b) * cos t + - c * cos u - (a - b) * cos t) * ((a - b) * cos t + - c * cos u - (a - b) * cos t) + ((a - b) * sin t + - c * sin u - (a - b) * sin t) * ((a - b) * sin t + - c * sin u - (a - b) * sin t)) with (c * c * (sin u * sin u + cos u * cos u)) by ring. rewrite P. ring. }
  split; [exact PD|]. split.
  - intros t. set (p := on_circle (a - b) t). assert (E1 : sqrt (dist2 (z t) p) = Rabs c) by (unfold p; rewrite PD; apply sqrt_Rsqr_abs).
    assert (E2 : sqrt (dist2 p (0, 0)) = Rabs (a - b)) by (unfold dist2; cbn [fst snd]; rewrite !Rminus_0_r; unfold p; rewrite circle_dist; apply sqrt_Rsqr_abs).
    pose proof (triangle (fst (z t)) (snd (z t)) 0 0 (fst p) (snd p)) as T. unfold dist_euc, Rsqr in T. unfold dist2 in *. cbn [fst snd] in *. lra.
  - intros delta lim D. destruct (steps_exist delta lim D) as (n & S). exists n. split; [exact S|]. unfold iterhypotrochoid. rewrite rdiv_ok by exact B. cbn [rbind]. apply sweep_points; auto. intros t. apply cround_rounded.
Qed.
Lemma trochoid_slip p s q a t : rolls (fun t => (p * cos t + s * cos (q * t), p * sin t + s * sin (q * t))) a ->
  (p * cos t + s * cos (q * t) - a * cos t) * (- (p * sin t) - s * q * sin (q * t)) + (p * sin t + s * sin (q * t) - a * sin t) * (p * cos t + s * q * cos (q * t)) = 0.
Proof.
  intros H. destruct (H t) as (vx & vy & DX & DY & E). cbn [fst snd] in *. destruct (trochoid_deriv p s q t) as (EX & EY).
  pose proof (uniqueness_limite _ _ _ _ DX EX) as ->. pose proof (uniqueness_limite _ _ _ _ DY EY) as ->. exact E.
Qed.
Theorem C128_hypotrochoid_refuted : ~ (forall x y a b c, 0 < b < a -> rolls (fun t => from_centre x y (hypotrochoidpoint x y a b c t)) a).
Proof.
  intros F. specialize (F 0%Z 0%Z 2 1 1 ltac:(lra)).
  assert (G : rolls (fun t => (1 * cos t + - 1 * cos (3 * t), 1 * sin t + - 1 * sin (3 * t))) 2).
  { intros t. destruct (F t) as (vx & vy & DX & DY & E).
    assert (Z : forall t, from_centre 0 0 (hypotrochoidpoint 0 0 2 1 1 t) = (1 * cos t + - 1 * cos (3 * t), 1 * sin t + - 1 * sin (3 * t))).
    { intros u. unfold from_centre, hypotrochoidpoint, cadd, csub, crect, real. cbn [fst snd]. replace ((2 / 1 + 1) * u) with (3 * u) by field. f_equal; ring. }
    exists vx, vy. split; [eapply deriv_ext; [|exact DX]; intros u; cbv beta; now rewrite Z|]. split; [eapply deriv_ext; [|exact DY]; intros u; cbv beta; now rewrite Z|]. cbv beta in E. rewrite Z in E. exact E. }
  pose proof (trochoid_slip 1 (- 1) 3 2 (PI / 4) G) as E. replace (3 * (PI / 4)) with (PI / 2 + PI / 4) in E by field. rewrite cos_plus, sin_plus, cos_PI2, sin_PI2, cos_PI4, sin_PI4 in E.
  assert (Q : 0 < sqrt 2) by (apply sqrt_lt_R0; lra). assert (QQ : sqrt 2 * sqrt 2 = 2) by (apply sqrt_sqrt; lra). set (h := 1 / sqrt 2) in *. assert (H : h * sqrt 2 = 1) by (unfold h; field; lra). assert (H2 : h * h * 2 = 1) by (rewrite <- QQ at 1; replace (h * h * (sqrt 2 * sqrt 2)) with ((h * sqrt 2) * (h * sqrt 2)) by ring; rewrite H; ring). clearbody h. nra.
Qed.
(** Spirographs: the same. *)
Theorem C128_spirograph : forall x y r l k, k <> 0 -> let z t := from_centre x y (spirographpoint x y r l k t) in
  pen_distance z (r * (1 - k)) (r * (l * k)) /\
  (forall t, sqrt (dist2 (z t) (0, 0)) <= Rabs r * (Rabs (1 - k) + Rabs (l * k))) /\
  forall delta lim, 0 < delta -> exists n, steps_below n delta lim /\ forall fuel, (n <= fuel)%nat ->
    points_at n delta (iterspirograph fuel x y r l k delta lim) (fun t p => rounded p (spirographpoint x y r l k t)).
Proof.
  intros x y r l k B z. assert (Z : forall t, z t = (r * (1 - k) * cos t + r * (l * k) * cos (t * ((1 - k) / k)), r * (1 - k) * sin t + r * (l * k) * sin (t * ((1 - k) / k)))).
  { intros t. unfold z, from_centre, spirographpoint, cadd, cscale, crect, real. cbn [fst snd]. f_equal; ring. }
  assert (PD : pen_distance z (r * (1 - k)) (r * (l * k))).
  { intros t. rewrite Z. unfold dist2, on_circle. cbn [fst snd]. set (u := t * ((1 - k) / k)). pose proof (sin2_cos2 u) as P. unfold Rsqr in P. set (p := r * (1 - k)). set (q := r * (l * k)).
    replace ((p * cos t + q * cos u - p * cos t) * (p * cos t + q * cos u - p * cos t) + (p * sin t + q * sin u - p * sin t) * (p * sin t + q * sin u - p * sin t)) with (q * q * (sin u * sin u + cos u * cos u)) by ring. rewrite P. ring. }
  split; [exact PD|]. split.
  - intros t. set (p := on_circle (r * (1 - k)) t). assert (E1 : sqrt (dist2 (z t) p) = Rabs (r * (l * k))) by (unfold p; rewrite PD; apply sqrt_Rsqr_abs).
    assert (E2 : sqrt (dist2 p (0, 0)) = Rabs (r * (1 - k))) by (unfold dist2; cbn [fst snd]; rewrite !Rminus_0_r; unfold p; rewrite circle_dist; apply sqrt_Rsqr_abs).
    pose proof (triangle (fst (z t)) (snd (z t)) 0 0 (fst p) (snd p)) as T. unfold dist_euc, Rsqr in T. unfold dist2 in *. cbn [fst snd] in *. rewrite (Rabs_mult r) in E1, E2. lra.
  - intros delta lim D. destruct (steps_exist delta lim D) as (n & S). exists n. split; [exact S|]. unfold iterspirograph. rewrite rdiv_ok by exact B. cbn [rbind]. apply sweep_points; auto. intros t. apply cround_rounded.
Qed.
Theorem C128_spirograph_refuted : ~ (forall x y r l k, 0 < r -> 0 < k < 1 -> 0 < l -> rolls (fun t => from_centre x y (spirographpoint x y r l k t)) r).
Proof.
  intros F. specialize (F 0%Z 0%Z 1 1 (1 / 3) ltac:(lra) ltac:(lra) ltac:(lra)).
  assert (G : rolls (fun t => (2 / 3 * cos t + 1 / 3 * cos (2 * t), 2 / 3 * sin t + 1 / 3 * sin (2 * t))) 1).
  { intros t. destruct (F t) as (vx & vy & DX & DY & E).
    assert (Z : forall t, from_centre 0 0 (spirographpoint 0 0 1 1 (1 / 3) t) = (2 / 3 * cos t + 1 / 3 * cos (2 * t), 2 / 3 * sin t + 1 / 3 * sin (2 * t))).
    { intros u. unfold from_centre, spirographpoint, cadd, cscale, crect, real. cbn [fst snd]. replace (u * ((1 - 1 / 3) / (1 / 3))) with (2 * u) by field. f_equal; field. }
    exists vx, vy. split; [eapply deriv_ext; [|exact DX]; intros u; cbv beta; now rewrite Z|]. split; [eapply deriv_ext; [|exact DY]; intros u; cbv beta; now rewrite Z|]. cbv beta in E. rewrite Z in E. exact E. }
  pose proof (trochoid_slip (2 / 3) (1 / 3) 2 1 (PI / 2) G) as E. replace (2 * (PI / 2)) with PI in E by field. rewrite cos_PI2, sin_PI2, cos_PI, sin_PI in E. lra.
Qed.
(** "Involutes" are Archimedean spirals: the distance from the centre grows with the angle. *)
Theorem C128_involute : forall x y a, let z t := from_centre x y (involutepoint x y a t) in
  (forall t, z t = on_circle (a * t) (2 * t + PI / 2)) /\
  forall delta lim, 0 < delta -> exists n, steps_below n delta lim /\ forall fuel, (n <= fuel)%nat ->
    points_at n delta (itercircleinvolute fuel x y a delta lim) (fun t p => rounded p (involutepoint x y a t)).
Proof.
  intros x y a z. split.
  - intros t. unfold z, from_centre, involutepoint, cadd, cmul, cscale, crect, real, on_circle. cbn [fst snd]. rewrite cos_plus, sin_plus, cos_PI2, sin_PI2, cos_2a, sin_2a. f_equal; ring.
  - intros delta lim D. destruct (steps_exist delta lim D) as (n & S). exists n. split; [exact S|]. apply sweep_points; auto. intros t. apply cround_rounded.
Qed.
(** An involute of a circle is traced by a taut string, which is tangent to it: none of its points
    is inside the circle. *)
Theorem C128_involute_refuted : ~ (forall x y a t, 0 < a -> 0 <= t -> a * a <= dist2 (from_centre x y (involutepoint x y a t)) (0, 0)).
Proof.
  intros F. specialize (F 0%Z 0%Z 1 0 ltac:(lra) ltac:(lra)). destruct (C128_involute 0 0 1) as (Z & _). cbv zeta in Z. rewrite Z in F. unfold dist2 in F. cbn [fst snd] in F. rewrite !Rminus_0_r, circle_dist in F. lra.
Qed.
Theorem C128_zero_division : forall fuel x y r l a c delta lim,
  iterspirograph fuel x y r l 0 delta lim = Err ZeroDivisionError /\ iterepicycloid fuel x y a 0 delta lim = Err ZeroDivisionError /\
  iterhypotrochoid fuel x y a 0 c delta lim = Err ZeroDivisionError.
Proof. intros. unfold iterspirograph, iterepicycloid, iterhypotrochoid. now rewrite !rdiv_0. Qed.

(** one point drawn three times; a negative step; half a turn of an epicycloid *)
Example C128_ex : steps_below 3 1 3 /\ iterlissajouscurve 3 10 20 5 7 0 0 0 1 3 = Ok [(15, 20); (15, 20); (15, 20)]%Z /\
  iterlissajouscurve 2 10 20 5 7 0 0 0 1 3 = Err Diverges /\ iterepicycloid 1000 0 0 3 1 (-1) 3 = Err Diverges /\
  from_centre 0 0 (epicycloidpoint 0 0 3 1 PI) = (-5, 0).
Proof.
  assert (F : forall t, (10 + rround (5 * cos (0 * t + 0)), 20 + rround (7 * sin (0 * t)))%Z = (15, 20)%Z).
  { intros t. rewrite Rmult_0_l, Rplus_0_r, cos_0, sin_0, Rmult_1_r, Rmult_0_r. now rewrite (rround_Z 5), (rround_Z 0). }
  assert (S : steps_below 3 1 3) by (split; [cbn [INR]; lra|]; intros k K; destruct k as [|[|[|k]]]; [| | |lia]; cbn [INR]; lra).
  split; [exact S|]. split; [|split; [|split]].
  - unfold iterlissajouscurve. rewrite (sweep_steps _ 1 3 3) by (try exact S; try lra; lia). cbn [seq map]. now rewrite !F.
  - unfold iterlissajouscurve. cbn [sweep]. rewrite !(proj2 (rlt_iff _ _)) by lra. reflexivity.
  - unfold iterepicycloid. rewrite rdiv_ok by lra. cbn [rbind]. apply C128_endless; lra.
  - unfold from_centre, epicycloidpoint, cadd, csub, crect, real. cbn [fst snd]. replace ((3 / 1 + 1) * PI) with (2 * (2 * PI)) by field. rewrite (cos_2a (2 * PI)), (sin_2a (2 * PI)), cos_2PI, sin_2PI, cos_PI, sin_PI. f_equal; ring.
Qed.
Print Assumptions C128_endless.
Print Assumptions C128_empty.
Print Assumptions C128_lissajous.
Print Assumptions C128_epicycloid.
Print Assumptions C128_hypotrochoid.
Print Assumptions C128_hypotrochoid_refuted.
Print Assumptions C128_spirograph.
Print Assumptions C128_spirograph_refuted.
Print Assumptions C128_involute.
Print Assumptions C128_involute_refuted.
Print Assumptions C128_zero_division.
