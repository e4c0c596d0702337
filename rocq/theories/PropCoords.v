(** Property C126: coordinates, angles and directions. *)
From Coq Require Import ZArith Reals List Bool Lia Lra Psatz.
From Verif Require Import PyBase PyFacts Bmp MathLib Solids Coords RealProofs.
Import ListNotations.
Open Scope R_scope.

(** * C126 *)
(** ** polar coordinates *)
(** Right of the y axis the conversion can be undone; left of it the point comes back on the
    other side of the origin; on it the conversion raises. *)
Theorem C126_polar : forall x y,
  (x = 0 -> rect2polarcoord2D (x, y) = Err ZeroDivisionError) /\
  (x <> 0 -> exists r a, rect2polarcoord2D (x, y) = Ok (r, a) /\ 0 < r /\ r * r = x * x + y * y /\ - (PI / 2) < a < PI / 2 /\
     polar2rectcoord2D (r, a) = if rlt 0 x then (x, y) else (- x, - y)).
Proof.
  intros x y. split.
  - intros ->. unfold rect2polarcoord2D. now rewrite rdiv_0.
  - intros N. unfold rect2polarcoord2D. rewrite rdiv_ok by exact N. cbn [rbind]. rewrite vmag2. do 2 eexists. split; [reflexivity|].
    destruct (atan_polar x y N) as (P & RR & C & S). split; [exact P|]. split; [exact RR|]. split; [pose proof (atan_bound (y / x)); lra|].
    unfold polar2rectcoord2D. rewrite C, S. destruct (rlt 0 x) eqn:E.
    + apply rlt_iff in E. rewrite Rabs_pos_eq by lra. f_equal. field. lra.
    + apply rlt_no in E. rewrite Rabs_left by lra. f_equal. field. lra.
Qed.
Theorem C126_polar_back : forall r a, 0 < r -> - (PI / 2) < a < PI / 2 -> rect2polarcoord2D (polar2rectcoord2D (r, a)) = Ok (r, a).
Proof.
  intros r a R0 A. unfold polar2rectcoord2D, rect2polarcoord2D. assert (C : 0 < cos a) by (apply cos_gt_0; lra). rewrite rdiv_ok by nra. cbn [rbind]. f_equal. f_equal.
  - rewrite vmag2. replace (r * cos a * (r * cos a) + r * sin a * (r * sin a)) with (r * r * ((sin a)² + (cos a)²)) by (unfold Rsqr; ring). rewrite sin2_cos2, Rmult_1_r. apply sqrt_square. lra.
  - rewrite <- (atan_tan a) at 3 by lra. f_equal. unfold tan. field. split; lra.
Qed.
Theorem C126_polar_refuted : ~ (forall v p, v <> (0, 0) -> rect2polarcoord2D v = Ok p -> polar2rectcoord2D p = v).
Proof.
  intros F. destruct (C126_polar (-1) 0) as (_ & K). destruct (K ltac:(lra)) as (r & a & E & _ & _ & _ & P).
  specialize (F (-1, 0) (r, a) ltac:(intros X; inversion X; lra) E). rewrite P in F. destruct (rlt 0 (-1)) eqn:L; [apply rlt_iff in L; lra|]. injection F as F1 _. lra.
Qed.

(** ** spherical and cylindrical coordinates *)
Lemma unit_ratio z p : 0 < p -> z * z <= p * p -> -1 <= z / p <= 1.
Proof.
  intros P H. assert (- p <= z <= p) by nra. split; [apply Rmult_le_reg_r with p; [exact P|]; unfold Rdiv; rewrite Rmult_assoc, Rinv_l by lra; lra|].
  apply Rmult_le_reg_r with p; [exact P|]. unfold Rdiv. rewrite Rmult_assoc, Rinv_l by lra. lra.
Qed.
Theorem C126_spherical : forall x y z,
  (x = 0 -> rect2sphericalcoord3D (x, y, z) = Err ZeroDivisionError) /\
  (x <> 0 -> exists p theta phi, rect2sphericalcoord3D (x, y, z) = Ok (p, theta, phi) /\
     0 < p /\ p * p = x * x + y * y + z * z /\ - (PI / 2) < theta < PI / 2 /\ 0 <= phi <= PI /\
     spherical2rectcoord3D (p, theta, phi) = if rlt 0 x then (x, y, z) else (- x, - y, z)).
Proof.
  intros x y z. split.
  - intros ->. unfold rect2sphericalcoord3D. now rewrite rdiv_0.
  - intros N. unfold rect2sphericalcoord3D. rewrite rdiv_ok by exact N. cbn [rbind]. rewrite vmag3.
    set (p := sqrt (x * x + y * y + z * z)). assert (P0 : 0 < p) by (apply sqrt_lt_R0; nra). assert (PP : p * p = x * x + y * y + z * z) by (apply sqrt_sqrt; nra).
    rewrite rdiv_ok by lra. cbn [rbind]. pose proof (unit_ratio z p P0 ltac:(nra)) as Z. rewrite pyacos_ok by exact Z. cbn [rbind]. do 3 eexists. split; [reflexivity|].
    split; [exact P0|]. split; [exact PP|]. split; [pose proof (atan_bound (y / x)); lra|]. split; [apply acos_bound|].
    unfold spherical2rectcoord3D. rewrite cos_acos, sin_acos by exact Z.
    assert (E : p * sqrt (1 - (z / p)²) = sqrt (x * x + y * y)).
    { rewrite <- (sqrt_square p) at 1 by lra. rewrite <- sqrt_mult; [|nra|unfold Rsqr; nra]. f_equal. unfold Rsqr. rewrite PP. unfold Rdiv. 
      assert (PI' : p * / p = 1) by (apply Rinv_r; lra). replace ((x * x + y * y + z * z) * (1 - z * / p * (z * / p))) with (x * x + y * y + z * z - (p * / p) * (p * / p) * (z * z)) by (rewrite <- PP; ring). rewrite PI'. ring. }
    rewrite E. destruct (atan_polar x y N) as (_ & _ & C & S). rewrite C, S. replace (p * (z / p)) with z by (field; lra).
    destruct (rlt 0 x) eqn:L; [apply rlt_iff in L; rewrite Rabs_pos_eq by lra|apply rlt_no in L; rewrite Rabs_left by lra]; f_equal; f_equal; field; lra.
Qed.
(** The distance from the axis is computed from all three coordinates: right only in the plane
    z = 0. *)
Theorem C126_cylindrical : forall x y z, 0 < x -> exists r a, rect2cylindricalcoord3D (x, y, z) = Ok (r, a, z) /\
  r * r = x * x + y * y + z * z /\ - (PI / 2) < a < PI / 2 /\ tan a = y / x /\
  (cylindrical2rectcoord3D (r, a, z) = (x, y, z) <-> z = 0).
Proof.
  intros x y z P. unfold rect2cylindricalcoord3D. rewrite rdiv_ok by lra. cbn [rbind]. do 2 eexists. split; [reflexivity|]. rewrite vmag3.
  split; [apply sqrt_sqrt; nra|]. split; [pose proof (atan_bound (y / x)); lra|]. split; [apply tan_atan|]. destruct (atan_polar x y ltac:(lra)) as (R0 & RR & C & S).
  unfold cylindrical2rectcoord3D. split.
  - intros E. injection E as E _. set (r3 := sqrt (x * x + y * y + z * z)) in *. assert (R3 : r3 * r3 = x * x + y * y + z * z) by (apply sqrt_sqrt; nra).
    rewrite Rabs_pos_eq in C by lra. set (r2 := sqrt (x * x + y * y)) in *. set (c := cos (atan (y / x))) in *.
    assert (r3 = r2) by (apply Rmult_eq_reg_r with c; [lra|intros X; rewrite X in C; lra]). nra.
  - intros ->. replace (x * x + y * y + 0 * 0) with (x * x + y * y) by ring. rewrite C, S, Rabs_pos_eq by lra. f_equal. f_equal. field. lra.
Qed.
Theorem C126_cylindrical_refuted : ~ (forall v c, rect2cylindricalcoord3D v = Ok c -> let '(x, _, _) := v in 0 < x -> cylindrical2rectcoord3D c = v).
Proof.
  intros F. destruct (C126_cylindrical 1 0 1 ltac:(lra)) as (r & a & E & _ & _ & _ & K). specialize (F (1, 0, 1) (r, a, 1) E). cbv beta iota in F. specialize (F ltac:(lra)). apply K in F. lra.
Qed.

(** ** the clock angle *)
(** Angles are measured from the top of the screen, clockwise; there is exactly one in
    [0, 2 pi). *)
Theorem C126_clock : forall cx cy x y, (x, y) <> (cx, cy) -> exists r a,
  rect2polarcoord2Dwithcenter (cx, cy) (x, y) = Ok (r, a) /\ 0 < r /\ 0 <= a < 2 * PI /\
  x = cx + r * sin a /\ y = cy - r * cos a /\
  forall s b, 0 < s -> 0 <= b < 2 * PI -> x = cx + s * sin b -> y = cy - s * cos b -> s = r /\ b = a.
Proof.
  intros cx cy x y N. unfold rect2polarcoord2Dwithcenter. cbn [fst snd]. set (dx := x - cx). set (dy := y - cy).
  assert (NZ : dx <> 0 \/ dy <> 0) by (destruct (Req_dec dx 0), (Req_dec dy 0); auto; exfalso; apply N; f_equal; subst dx dy; lra).
  set (r := sqrt (dx * dx + dy * dy)). pose proof (hypot_pos dx dy NZ) as R0. fold r in R0. assert (RR : r * r = dx * dx + dy * dy) by (apply sqrt_sqrt; nra).
  assert (EA : exists a, polarcoordangle2D (dx, dy) = Ok a /\ 0 <= a < 2 * PI /\ dx = r * sin a /\ dy = - (r * cos a)).
  { unfold polarcoordangle2D, cosaffin. rewrite !vmag2. fold r. replace (0 * 0 + -1 * -1) with 1 by ring. rewrite sqrt_1, Rmult_1_r.
    unfold dotprod, rmulvect. cbn [rzip]. rewrite !rsum_cons, rsum_nil. replace (dx * 0 + (dy * -1 + 0)) with (- dy) by ring. rewrite rdiv_ok by lra. cbn [rbind].
    pose proof (unit_ratio (- dy) r R0 ltac:(nra)) as U. rewrite pyacos_ok by exact U. cbn [rbind]. eexists. split; [reflexivity|].
    set (c := - dy / r) in *. assert (CR : c * r = - dy) by (unfold c; field; lra). pose proof (acos_bound c) as B.
    assert (SS : r * sin (acos c) = Rabs dx).
    { rewrite sin_acos by exact U. rewrite <- (sqrt_square r) at 1 by lra. rewrite <- sqrt_mult; [|nra|unfold Rsqr; nra]. rewrite <- sqrt_Rsqr_abs. f_equal. unfold Rsqr. nra. }
    destruct (rlt dx 0) eqn:L.
    - apply rlt_iff in L. rewrite Rabs_left in SS by exact L.
      assert (A0 : acos c <> 0) by (intros X; rewrite X, sin_0 in SS; lra).
      split; [pose proof PI_RGT_0; lra|]. rewrite sin_minus, cos_minus, sin_2PI, cos_2PI, cos_acos by exact U. split; lra.
    - apply rlt_no in L. rewrite Rabs_pos_eq in SS by exact L. split; [pose proof PI_RGT_0; lra|]. rewrite cos_acos by exact U. split; lra. }
  destruct EA as (a & E & A & X & Y). rewrite E. cbn [rbind]. exists r, a. rewrite vmag2. fold r. split; [reflexivity|]. split; [exact R0|]. split; [exact A|].
  assert (X1 : x = cx + r * sin a) by (subst dx; lra). assert (Y1 : y = cy - r * cos a) by (subst dy; lra). split; [exact X1|]. split; [exact Y1|].
  intros s b S0 B XB YB. assert (SX : s * sin b = r * sin a) by lra. assert (SY : s * cos b = r * cos a) by lra.
  assert (SR : s = r).
  { pose proof (sin2_cos2 a) as P. pose proof (sin2_cos2 b) as Q. unfold Rsqr in *. assert (s * s = r * r); [|nra].
    replace (s * s) with ((s * sin b) * (s * sin b) + (s * cos b) * (s * cos b)) by nra. rewrite SX, SY. nra. }
  subst s. split; [reflexivity|]. apply angle_unique; auto; apply Rmult_eq_reg_l with r; lra.
Qed.
Theorem C126_clock_centre : forall c, rect2polarcoord2Dwithcenter c c = Err ZeroDivisionError.
Proof.
  intros [x y]. unfold rect2polarcoord2Dwithcenter, polarcoordangle2D, cosaffin. cbn [fst snd]. rewrite !vmag2. replace ((x - x) * (x - x) + (y - y) * (y - y)) with 0 by ring. now rewrite sqrt_0, Rmult_0_l, rdiv_0.
Qed.

(** ** rotations *)
Theorem C126_rotation : forall v w d e,
  let rot v d := rotvec2D v (computerotvec d) in
  let len2 u := fst u * fst u + snd u * snd u in
  let sub u w := (fst u - fst w, snd u - snd w) in
  len2 (sub (rot v d) (rot w d)) = len2 (sub v w) /\
  rot (rot v d) e = rot v (d + e) /\ rot v 0 = v /\ rot v 90 = (- snd v, fst v) /\ rot v 360 = v.
Proof.
  intros [x y] [x' y'] d e. cbv zeta. unfold rotvec2D, computerotvec, radians. cbn [fst snd].
  split; [|split; [|split; [|split]]].
  - pose proof (sin2_cos2 (d * PI / 180)) as P. unfold Rsqr in P. set (s := sin (d * PI / 180)) in *. set (c := cos (d * PI / 180)) in *.
    replace ((x * c - y * s - (x' * c - y' * s)) * (x * c - y * s - (x' * c - y' * s)) + (x * s + y * c - (x' * s + y' * c)) * (x * s + y * c - (x' * s + y' * c)))
      with ((s * s + c * c) * ((x - x') * (x - x') + (y - y') * (y - y'))) by ring. rewrite P. ring.
  - replace ((d + e) * PI / 180) with (d * PI / 180 + e * PI / 180) by field. rewrite sin_plus, cos_plus. f_equal; ring.
  - replace (0 * PI / 180) with 0 by field. rewrite sin_0, cos_0. f_equal; ring.
  - replace (90 * PI / 180) with (PI / 2) by field. rewrite sin_PI2, cos_PI2. f_equal; ring.
  - replace (360 * PI / 180) with (2 * PI) by field. rewrite sin_2PI, cos_2PI. f_equal; ring.
Qed.

(** ** directions and distances *)
Lemma res_map_div v m : m <> 0 -> res_map (fun i => rdiv i m) v = Ok (map (fun i => i / m) v).
Proof. intros N. induction v as [|a v IH]; [reflexivity|]. cbn [res_map map]. rewrite rdiv_ok by exact N. cbn [rbind]. now rewrite IH. Qed.
(** The direction of a vector has length 1 and gives the vector back when multiplied by its
    length; its angles with the axes are the inverse cosines.  The zero vector has none. *)
Theorem C126_direction : forall v,
  (Forall (eq 0) v -> v <> [] -> dircos v = Err ZeroDivisionError) /\
  (~ Forall (eq 0) v -> exists u, dircos v = Ok u /\ normvec v = Ok u /\ vmag u = 1 /\ map (fun i => i * vmag v) u = v /\
     exists a, diracos u = Ok a /\ map cos a = u /\ Forall (fun t => 0 <= t <= PI) a).
Proof.
  intros v. split.
  - intros Z N. unfold dircos. rewrite (proj2 (vmag_0 v) Z). destruct v as [|a v]; [contradiction|]. cbn [res_map]. now rewrite rdiv_0.
  - intros N. assert (M : vmag v <> 0) by (intros X; apply N; now apply vmag_0). exists (map (fun i => i / vmag v) v). unfold dircos, normvec, scalardivvect. rewrite res_map_div by exact M.
    split; [reflexivity|]. split; [reflexivity|].
    assert (S : forall v m, m <> 0 -> rsum (map (fun i => i * i) (map (fun i => i / m) v)) * (m * m) = rsum (map (fun i => i * i) v)).
    { clear. intros v m H. induction v as [|a v IH]; [cbn [map]; rewrite rsum_nil; ring|]. cbn [map]. rewrite !rsum_cons, <- IH. field. exact H. }
    assert (S1 : rsum (map (fun i => i * i) (map (fun i => i / vmag v) v)) = 1) by (apply Rmult_eq_reg_r with (vmag v * vmag v); [rewrite (S v _ M), vmag_sqr; ring|nra]).
    split; [unfold vmag at 1; rewrite S1; apply sqrt_1|]. split; [rewrite map_map; transitivity (map (fun i => i) v); [apply map_ext; intros a; field; exact M|apply map_id]|].
    set (u := map (fun i => i / vmag v) v) in *. clearbody u. clear - S1. exists (map acos u).
    assert (B : Forall (fun c => -1 <= c <= 1) u).
    { assert (L : rsum (map (fun i => i * i) u) <= 1) by lra. clear S1. induction u as [|c u IH]; constructor; cbn [map] in L; rewrite rsum_cons in L; pose proof (squares_nonneg u); [nra|apply IH; nra]. }
    clear S1. split; [|split].
    + unfold diracos. induction B as [|c u C B IH]; [reflexivity|]. cbn [res_map map]. rewrite pyacos_ok by exact C. cbn [rbind]. now rewrite IH.
    + rewrite map_map. transitivity (map (fun i => i) u); [|apply map_id]. apply map_ext_in. intros c Hc. rewrite Forall_forall in B. now apply cos_acos, B.
    + apply Forall_forall. intros t Ht. apply in_map_iff in Ht. destruct Ht as (c & <- & _). apply acos_bound.
Qed.
(** The cosine of the angle between two vectors. *)
Theorem C126_cosaffin : forall u v, ~ Forall (eq 0) u -> ~ Forall (eq 0) v ->
  exists c, cosaffin u v = Ok c /\ cosaffin v u = Ok c /\ -1 <= c <= 1 /\ (dotprod u v = 0 <-> c = 0).
Proof.
  intros u v U V. assert (MU : 0 < vmag u) by (pose proof (vmag_nonneg u); destruct (Req_dec (vmag u) 0); [exfalso; apply U; now apply vmag_0|lra]).
  assert (MV : 0 < vmag v) by (pose proof (vmag_nonneg v); destruct (Req_dec (vmag v) 0); [exfalso; apply V; now apply vmag_0|lra]).
  assert (D : dotprod u v = dotprod v u).
  { unfold dotprod, rmulvect. f_equal. clear. revert v. induction u as [|a u IH]; intros [|b v]; cbn [rzip]; auto. now rewrite IH, Rmult_comm. }
  unfold cosaffin. rewrite !rdiv_ok by nra. eexists. split; [reflexivity|]. split; [rewrite D, (Rmult_comm (vmag v)); reflexivity|].
  pose proof (cauchy_abs u v) as C. apply Rabs_le_inv in C. set (m := vmag u * vmag v) in *. assert (M : 0 < m) by (unfold m; nra). split.
  - split; [apply Rmult_le_reg_r with m; [exact M|]; unfold Rdiv; rewrite Rmult_assoc, Rinv_l by lra; lra|]. apply Rmult_le_reg_r with m; [exact M|]. unfold Rdiv. rewrite Rmult_assoc, Rinv_l by lra. lra.
  - split; [intros ->; unfold Rdiv; ring|]. intros H. apply Rmult_eq_reg_r with (/ m); [unfold Rdiv in H; lra|apply Rinv_neq_0_compat; lra].
Qed.
(** Distances form a metric. *)
Theorem C126_dist : forall u v w, length u = length v -> length v = length w ->
  0 <= dist u v /\ (dist u v = 0 <-> u = v) /\ dist u v = dist v u /\ dist u w <= dist u v + dist v w.
Proof.
  intros u v w L1 L2. split; [apply vmag_nonneg|]. split; [|split].
  - unfold dist. rewrite vmag_0. unfold rsubvect. clear L2 w. revert v L1. induction u as [|a u IH]; intros [|b v] L; try discriminate L; cbn [rzip]; [split; constructor|].
    injection L as L. split.
    + intros H. inversion H as [|? ? A B]; subst. apply IH in B; [|exact L]. subst. f_equal. lra.
    + intros E. injection E as -> ->. constructor; [lra|now apply IH].
  - unfold dist, vmag. f_equal. unfold rsubvect. clear L2 w. revert v L1. induction u as [|a u IH]; intros [|b v] L; try discriminate L; cbn [rzip map]; [reflexivity|]. injection L as L. rewrite !rsum_cons, (IH v L). ring.
  - unfold dist. set (p := rsubvect u v). set (q := rsubvect v w).
    assert (E : rsum (map (fun i => i * i) (rsubvect u w)) = rsum (map (fun i => i * i) p) + 2 * dotprod p q + rsum (map (fun i => i * i) q)).
    { subst p q. unfold dotprod, rmulvect, rsubvect. revert v w L1 L2. induction u as [|a u IH]; intros [|b v] [|c w] L1 L2; try discriminate; cbn [rzip map]; [rewrite !rsum_nil; ring|].
      injection L1 as L1. injection L2 as L2. rewrite !rsum_cons, (IH v w L1 L2). ring. }
    pose proof (cauchy_abs p q) as C. apply Rabs_le_inv in C. pose proof (vmag_nonneg p). pose proof (vmag_nonneg q). pose proof (vmag_sqr p). pose proof (vmag_sqr q).
    rewrite <- (sqrt_square (vmag p + vmag q)) by lra. unfold vmag at 1. rewrite E. apply sqrt_le_1; [rewrite <- E; apply squares_nonneg|nra|nra].
Qed.

(** ** arrowheads *)
(** The barbs start at the tip, have the length of the head (a fifth of the arrow by default)
    and point back along the arrow, turned by 22.5 degrees to either side. *)
Theorem C126_arrow : forall u v headsize, u <> v ->
  let d := sqrt ((fst u - fst v) * (fst u - fst v) + (snd u - snd v) * (snd u - snd v)) in
  let back := ((fst u - fst v) / d, (snd u - snd v) / d) in
  let hm := if req headsize 0 then d / 5 else headsize in
  let barb t := let w := rotvec2D back (computerotvec t) in (fst v + hm * fst w, snd v + hm * snd w) in
  0 < d /\ arrowends u v headsize = Ok (barb (- 45 / 2), barb (45 / 2)).
Proof.
  intros [u0 u1] [v0 v1] hs N d back hm barb. cbn [fst snd] in *.
  assert (NZ : u0 - v0 <> 0 \/ u1 - v1 <> 0) by (destruct (Req_dec (u0 - v0) 0), (Req_dec (u1 - v1) 0); auto; exfalso; apply N; f_equal; lra).
  assert (D0 : 0 < d) by (apply hypot_pos; exact NZ). split; [exact D0|].
  unfold arrowends. cbn [fst snd]. rewrite vmag2. fold d. fold hm.
  (* the direction of the angle *)
  assert (EA : exists a s, anglebetween2Dlines (u0, u1) (v0, v1) = Ok a /\ (s = 1 \/ s = -1) /\ cos a = s * fst back /\ sin a = s * snd back /\
     (v0 < u0 \/ (v0 = u0 /\ u1 < v1) -> s = 1) /\ (u0 < v0 \/ (v0 = u0 /\ v1 < u1) -> s = -1)).
  { unfold anglebetween2Dlines. cbn [fst snd]. destruct (req u0 v0) eqn:E; cbn [negb].
    - apply req_iff in E. subst v0. rewrite (proj2 (rlt_no u0 u0)) by lra.
      assert (DD : d * d = (u1 - v1) * (u1 - v1)) by (unfold d; rewrite sqrt_sqrt; nra).
      assert (C3 : cos (3 * PI / 2) = 0 /\ sin (3 * PI / 2) = -1).
      { replace (3 * PI / 2) with (PI + PI / 2) by field. rewrite cos_plus, sin_plus, cos_PI, sin_PI, cos_PI2, sin_PI2. split; ring. }
      destruct C3 as (C3 & S3). unfold back. cbn [fst snd]. destruct (Rlt_dec v1 u1) as [L|L].
      + exists (3 * PI / 2), (-1). split; [reflexivity|]. split; [now right|]. rewrite C3, S3. assert (DE : d = u1 - v1) by nra. rewrite DE.
        split; [field; lra|]. split; [field; lra|]. split; [intros [X|[_ X]]; lra|intros; reflexivity].
      + assert (u1 < v1) by (destruct (Req_dec u1 v1); [exfalso; apply N; f_equal; lra|lra]).
        exists (3 * PI / 2), 1. split; [reflexivity|]. split; [now left|]. rewrite C3, S3. assert (DE : d = v1 - u1) by nra. rewrite DE.
        split; [field; lra|]. split; [field; lra|]. split; [intros; reflexivity|intros [X|[_ X]]; lra].
    - apply req_no in E. unfold slope. cbn [fst snd]. rewrite rdiv_ok by lra. cbn [rbind].
      destruct (atan_polar (v0 - u0) (v1 - u1) ltac:(lra)) as (_ & _ & C & S).
      replace (sqrt ((v0 - u0) * (v0 - u0) + (v1 - u1) * (v1 - u1))) with d in C, S by (unfold d; f_equal; ring).
      set (a := atan ((v1 - u1) / (v0 - u0))) in *. unfold back. cbn [fst snd]. destruct (Rlt_dec u0 v0) as [L|L].
      + rewrite Rabs_pos_eq in C, S by lra. exists a, (-1). split; [reflexivity|]. split; [now right|].
        replace ((v1 - u1) * ((v0 - u0) / (v0 - u0))) with (v1 - u1) in S by (field; lra).
        split; [apply Rmult_eq_reg_l with d; [rewrite C; field; lra|lra]|]. split; [apply Rmult_eq_reg_l with d; [rewrite S; field; lra|lra]|]. split; [intros [X|[X _]]; lra|intros; reflexivity].
      + rewrite Rabs_left in C, S by lra. exists a, 1. split; [reflexivity|]. split; [now left|].
        replace ((v1 - u1) * (- (v0 - u0) / (v0 - u0))) with (u1 - v1) in S by (field; lra).
        split; [apply Rmult_eq_reg_l with d; [rewrite C; field; lra|lra]|]. split; [apply Rmult_eq_reg_l with d; [rewrite S; field; lra|lra]|]. split; [intros; reflexivity|intros [X|[X _]]; lra]. }
  destruct EA as (a & s & EA & SV & C & S & P1 & M1). rewrite EA. cbn [rbind]. f_equal.
  assert (BP : s = 1 -> (hadd (v0, v1) hm (a - PI / 8), hadd (v0, v1) hm (a + PI / 8)) = (barb (- 45 / 2), barb (45 / 2))).
  { intros ->. unfold hadd, barb, rotvec2D, computerotvec, radians. cbn [fst snd]. replace (- 45 / 2 * PI / 180) with (- (PI / 8)) by field. replace (45 / 2 * PI / 180) with (PI / 8) by field.
    destruct back as [b0 b1]. cbn [fst snd] in *. rewrite cos_minus, sin_minus, cos_plus, sin_plus, cos_neg, sin_neg, C, S. f_equal; f_equal; ring. }
  assert (BM : s = -1 -> (hsub (v0, v1) hm (a - PI / 8), hsub (v0, v1) hm (a + PI / 8)) = (barb (- 45 / 2), barb (45 / 2))).
  { intros ->. unfold hsub, barb, rotvec2D, computerotvec, radians. cbn [fst snd]. replace (- 45 / 2 * PI / 180) with (- (PI / 8)) by field. replace (45 / 2 * PI / 180) with (PI / 8) by field.
    destruct back as [b0 b1]. cbn [fst snd] in *. rewrite cos_minus, sin_minus, cos_plus, sin_plus, cos_neg, sin_neg, C, S. f_equal; f_equal; ring. }
  destruct (rlt u0 v0) eqn:L0, (rlt v0 u0) eqn:G0, (rlt u1 v1) eqn:L1, (rlt v1 u1) eqn:G1, (req v1 u1) eqn:Q1, (req v0 u0) eqn:Q0; cbn [andb];
    rewrite ?rlt_iff, ?rlt_no, ?req_iff, ?req_no in *; try (exfalso; lra);
    first [apply BP; apply P1; left; lra | apply BM; apply M1; left; lra | apply BP; apply P1; right; split; lra | apply BM; apply M1; right; split; lra | exfalso; apply N; f_equal; lra].
Qed.
(** On the screen the ends are rounded. *)
Theorem C126_arrow_screen : forall u v headsize, u <> v -> exists p q x y,
  arrowends (IZR (fst u), IZR (snd u)) (IZR (fst v), IZR (snd v)) (IZR headsize) = Ok (x, y) /\ arrowhead u v headsize = Ok (p, q) /\
  Rabs (IZR (fst p) - fst x) <= 1 / 2 /\ Rabs (IZR (snd p) - snd x) <= 1 / 2 /\ Rabs (IZR (fst q) - fst y) <= 1 / 2 /\ Rabs (IZR (snd q) - snd y) <= 1 / 2.
Proof.
  intros [u0 u1] [v0 v1] hs N. cbn [fst snd]. assert (N' : (IZR u0, IZR u1) <> (IZR v0, IZR v1)) by (intros E; injection E as A B; apply eq_IZR in A, B; congruence).
  destruct (C126_arrow _ _ (IZR hs) N') as (_ & E). unfold arrowhead, real. cbn [fst snd] in *. rewrite E. cbn [rbind fst snd]. do 4 eexists. split; [reflexivity|]. split; [reflexivity|]. cbn [fst snd].
  repeat split; rewrite Rabs_minus_sym; apply rround_near.
Qed.
(** Both barbs have the length of the head. *)
Theorem C126_barb_length : forall u v headsize p q, u <> v -> headsize <> 0 -> arrowends u v headsize = Ok (p, q) ->
  (fst p - fst v) * (fst p - fst v) + (snd p - snd v) * (snd p - snd v) = headsize * headsize /\
  (fst q - fst v) * (fst q - fst v) + (snd q - snd v) * (snd q - snd v) = headsize * headsize.
Proof.
  intros [u0 u1] [v0 v1] hs p q N H E. destruct (C126_arrow _ _ hs N) as (D & E'). rewrite E in E'. rewrite (proj2 (req_no hs 0) H) in E'. cbv zeta in *. cbn [fst snd] in *. injection E' as -> ->.
  set (d := sqrt _) in *. assert (DD : d * d = (u0 - v0) * (u0 - v0) + (u1 - v1) * (u1 - v1)).
  { apply sqrt_sqrt. pose proof (Rle_0_sqr (u0 - v0)) as A. pose proof (Rle_0_sqr (u1 - v1)) as B. unfold Rsqr in *. lra. }
  clearbody d.
  assert (U : (u0 - v0) / d * ((u0 - v0) / d) + (u1 - v1) / d * ((u1 - v1) / d) = 1).
  { apply Rmult_eq_reg_r with (d * d); [|nra]. replace (((u0 - v0) / d * ((u0 - v0) / d) + (u1 - v1) / d * ((u1 - v1) / d)) * (d * d)) with ((u0 - v0) * (u0 - v0) + (u1 - v1) * (u1 - v1)) by (field; lra). lra. }
  set (a := (u0 - v0) / d) in *. set (b := (u1 - v1) / d) in *. unfold rotvec2D, computerotvec. cbn [fst snd].
  assert (K : forall t, (v0 + hs * (a * cos t - b * sin t) - v0) * (v0 + hs * (a * cos t - b * sin t) - v0) + (v1 + hs * (a * sin t + b * cos t) - v1) * (v1 + hs * (a * sin t + b * cos t) - v1) = hs * hs).
  { intros t. pose proof (sin2_cos2 t) as P. unfold Rsqr in P. replace ((v0 + hs * (a * cos t - b * sin t) - v0) * (v0 + hs * (a * cos t - b * sin t) - v0) + (v1 + hs * (a * sin t + b * cos t) - v1) * (v1 + hs * (a * sin t + b * cos t) - v1)) with (hs * hs * ((a * a + b * b) * (sin t * sin t + cos t * cos t))) by ring. rewrite U, P. ring. }
  split; apply K.
Qed.

(** ** regular polygons *)
Open Scope Z_scope.
Lemma stepcount_bounds k : 0 < k -> k <= 360 -> let n := stepcount 0 360 k in (n - 1) * k < 360 <= n * k.
Proof.
  intros K L. cbv zeta. unfold stepcount. destruct (360 <=? 0) eqn:E; [discriminate E|]. Z.to_euclidean_division_equations. nia.
Qed.
(** The vertices lie on the circle, the first at the given angle from the top, each turned
    from the one before by 360 // sides degrees.  There are [sides] of them, and the last one turned
    again is the first one, exactly if [sides] divides 360; otherwise there are more. *)
Theorem C126_polygon : forall cx cy r sides angle, 1 <= sides <= 360 ->
  let inc := 360 / sides in
  let centred (p : R * R) := (fst p - IZR cx, snd p - IZR cy)%R in
  let turned (p : R * R) := rotvec2D p (computerotvec (- IZR inc)) in
  exists v, floatregpolygonvert cx cy r sides angle = Ok v /\
    nth 0 v (0, 0)%R = (IZR cx - IZR r * sin (radians angle), IZR cy - IZR r * cos (radians angle))%R /\
    (forall k, 0 <= k < zlen v - 1 -> centred (nth (Z.to_nat (k + 1)) v (0, 0)%R) = turned (centred (nth (Z.to_nat k) v (0, 0)%R))) /\
    (forall p, In p v -> (fst (centred p) * fst (centred p) + snd (centred p) * snd (centred p) = IZR r * IZR r)%R) /\
    sides <= zlen v /\ (zlen v = sides <-> 360 mod sides = 0) /\
    (360 mod sides = 0 -> centred (nth 0 v (0, 0)%R) = turned (centred (nth (Z.to_nat (zlen v - 1)) v (0, 0)%R))).
Proof.
  intros cx cy r sides angle S inc centred turned. unfold floatregpolygonvert. destruct (Z.eqb_spec sides 0) as [E0|N0]; [lia|]. cbn [rbind]. fold inc.
  assert (I : 1 <= inc <= 360) by (subst inc; Z.to_euclidean_division_equations; nia). assert (IS : inc * sides <= 360 < (inc + 1) * sides) by (subst inc; Z.to_euclidean_division_equations; nia).
  unfold rangeby. destruct (Z.eqb_spec inc 0) as [E0|N3]; [lia|]. destruct (Z.ltb_spec 0 inc); [|lia]. cbn [rbind].
  set (f := fun t : R => (IZR cx - IZR r * sin t, IZR cy - IZR r * cos t)%R).
  set (v := map _ _). exists v. split; [reflexivity|].
  destruct (stepcount_bounds inc ltac:(lia) ltac:(lia)) as (N1 & N2). set (n := stepcount 0 360 inc) in *.
  assert (L : zlen v = n) by (unfold v; rewrite zlen_map; apply zlen_range_step; lia). assert (NN : sides <= n) by nia.
  assert (V : forall k, 0 <= k < n -> nth (Z.to_nat k) v (0, 0)%R = f (radians angle + radians (IZR (k * inc)))%R).
  { intros k Hk. set (g := fun a => f (radians angle + radians (IZR a))%R). change v with (map g (range_step 0 360 inc)) in *.
    rewrite (nth_indep _ _ (g 0)) by (unfold zlen in L; lia). rewrite map_nth.
    pose proof (getz_range_step 0 360 inc k ltac:(lia) Hk) as G. unfold getz in G. destruct (Z.ltb_spec k 0); [lia|]. rewrite G. unfold g. now rewrite Z.add_0_l. }
  assert (R0 : radians 0 = 0%R) by (unfold radians; lra). assert (RP : forall a b, radians (a + b) = (radians a + radians b)%R) by (intros; unfold radians; lra).
  assert (T : forall t, centred (f (t + radians (IZR inc)))%R = turned (centred (f t))).
  { intros t. unfold centred, turned, f, rotvec2D, computerotvec. cbn [fst snd]. replace (radians (- IZR inc)) with (- radians (IZR inc))%R by (unfold radians; lra). rewrite sin_neg, cos_neg, sin_plus, cos_plus. f_equal; ring. }
  split; [|split; [|split; [|split; [|split]]]].
  - change (nth 0 v (0, 0)%R) with (nth (Z.to_nat 0) v (0, 0)%R). rewrite V by lia. rewrite Z.mul_0_l, R0, Rplus_0_r. reflexivity.
  - rewrite L. intros k Hk. rewrite !V by lia. rewrite <- T. do 2 f_equal. replace ((k + 1) * inc) with (k * inc + inc) by ring. rewrite plus_IZR, RP. ring.
  - intros p Hp. unfold v in Hp. apply in_map_iff in Hp. destruct Hp as (a & <- & _). unfold centred. cbn [fst snd]. set (t := (radians angle + radians (IZR a))%R). pose proof (sin2_cos2 t) as P. unfold Rsqr in P.
    replace ((IZR cx - IZR r * sin t - IZR cx) * (IZR cx - IZR r * sin t - IZR cx) + (IZR cy - IZR r * cos t - IZR cy) * (IZR cy - IZR r * cos t - IZR cy))%R with (IZR r * IZR r * (sin t * sin t + cos t * cos t))%R by ring. rewrite P. ring.
  - lia.
  - rewrite L. split.
    + intros E. rewrite E in *. symmetry; apply Z.mod_unique_pos with inc; lia.
    + intros E. assert (inc * sides = 360) by (subst inc; Z.to_euclidean_division_equations; nia). nia.
  - intros E. assert (EI : inc * sides = 360) by (subst inc; Z.to_euclidean_division_equations; nia). assert (NS : n = sides) by nia. rewrite L, NS.
    change (nth 0 v (0, 0)%R) with (nth (Z.to_nat 0) v (0, 0)%R). rewrite !V by lia. rewrite <- T. rewrite Z.mul_0_l, R0, Rplus_0_r.
    replace (radians angle + radians (IZR ((sides - 1) * inc)) + radians (IZR inc))%R with (radians angle + 2 * PI)%R.
    + unfold f. rewrite <- (sin_period (radians angle) 1), <- (cos_period (radians angle) 1). replace (2 * INR 1 * PI)%R with (2 * PI)%R by (cbn [INR]; ring). reflexivity.
    + rewrite Rplus_assoc, <- (RP (IZR _) (IZR _)), <- plus_IZR. replace ((sides - 1) * inc + inc) with 360 by lia. unfold radians. lra.
Qed.
Theorem C126_polygon_sides_refuted : ~ (forall cx cy r sides angle v, 3 <= sides <= 360 -> floatregpolygonvert cx cy r sides angle = Ok v -> zlen v = sides).
Proof.
  intros F. destruct (C126_polygon 0 0 1 7 0 ltac:(lia)) as (v & E & _ & _ & _ & _ & K & _). specialize (F 0 0 1 7 0%R v ltac:(lia) E). apply K in F. discriminate F.
Qed.
Theorem C126_polygon_errors : forall cx cy r sides angle,
  (sides = 0 -> floatregpolygonvert cx cy r sides angle = Err ZeroDivisionError) /\
  (360 < sides -> floatregpolygonvert cx cy r sides angle = Err ValueError) /\
  (sides < 0 -> floatregpolygonvert cx cy r sides angle = Ok []).
Proof.
  intros. unfold floatregpolygonvert. split; [intros ->; reflexivity|]. split; intros H.
  - destruct (Z.eqb_spec sides 0); [lia|]. cbn [rbind]. rewrite Z.div_small by lia. reflexivity.
  - destruct (Z.eqb_spec sides 0); [lia|]. cbn [rbind]. assert (D : 360 / sides < 0) by (Z.to_euclidean_division_equations; nia). unfold rangeby. destruct (Z.eqb_spec (360 / sides) 0); [lia|]. destruct (Z.ltb_spec 0 (360 / sides)); [lia|]. cbn [rbind].
    reflexivity.
Qed.
(** regpolygonvert rounds each coordinate to the nearest integer. *)
Theorem C126_polygon_rounded : forall cx cy r sides angle v, floatregpolygonvert cx cy r sides angle = Ok v ->
  exists w, regpolygonvert cx cy r sides angle = Ok w /\
    Forall2 (fun p q => Rabs (IZR (fst q) - fst p) <= 1 / 2 /\ Rabs (IZR (snd q) - snd p) <= 1 / 2)%R v w.
Proof.
  intros cx cy r sides angle v E. unfold regpolygonvert. rewrite E. cbn [rbind]. eexists. split; [reflexivity|]. clear. induction v as [|p v IH]; constructor; [|exact IH].
  cbn [fst snd]. split; rewrite Rabs_minus_sym; apply rround_near.
Qed.
Example C126_ex :
  (exists a, rect2polarcoord2D (3, 4) = Ok (5, a))%R /\ rect2polarcoord2Dwithcenter (7, 7)%R (9, 7)%R = Ok (2, PI / 2)%R /\
  (exists u, dircos [0; 2; 0]%R = Ok u /\ u = [0; 1; 0]%R) /\ rotvec2D (2, 1)%R (computerotvec 90) = (-1, 2)%R /\
  arrowhead (0, 0) (0, 100) 0 = Ok ((-8, 82), (8, 82)) /\ zlen (range_step 0 360 (360 / 6)) = 6.
Proof.
  assert (S5 : forall x y z, (0 <= z -> x * x + y * y = z * z -> vmag [x; y] = z)%R) by (intros x y z Hz E; rewrite vmag2, E; now apply sqrt_square).
  split; [|split; [|split; [|split; [|split; [|reflexivity]]]]].
  - unfold rect2polarcoord2D. rewrite rdiv_ok by lra. cbn [rbind]. eexists. f_equal. f_equal. apply S5; lra.
  - destruct (C126_clock 7 7 9 7 ltac:(intros E; injection E; lra)) as (r & a & E & _ & _ & _ & _ & U). rewrite E.
    pose proof PI_RGT_0. destruct (U 2%R (PI / 2)%R) as (<- & <-); try lra; [rewrite sin_PI2; lra|rewrite cos_PI2; lra|reflexivity].
  - unfold dircos. assert (M : vmag [0; 2; 0]%R = 2%R) by (rewrite vmag3; replace (0 * 0 + 2 * 2 + 0 * 0)%R with (2 * 2)%R by ring; apply sqrt_square; lra). rewrite M. cbn [res_map]. rewrite !rdiv_ok by lra. cbn [rbind]. eexists. split; [reflexivity|]. repeat f_equal; lra.
  - unfold rotvec2D, computerotvec. replace (radians 90) with (PI / 2)%R by (unfold radians; lra). rewrite sin_PI2, cos_PI2. f_equal; ring.
  - (* the barbs are 20 long; sin 22.5 = 0.38..., cos 22.5 = 0.92... *)
    assert (N : (0, 0)%R <> (0, 100)%R) by (intros E; injection E; lra). destruct (C126_arrow (0, 0)%R (0, 100)%R 0 N) as (_ & E). unfold arrowhead, real. cbn [fst snd]. rewrite E. cbv zeta. cbn [fst snd rbind].
    rewrite (proj2 (req_iff 0 0) eq_refl). replace ((0 - 0) * (0 - 0) + (0 - 100) * (0 - 100))%R with (100 * 100)%R by ring. rewrite sqrt_square by lra.
    unfold rotvec2D, computerotvec. cbn [fst snd]. replace (radians (- 45 / 2)) with (- (PI / 8))%R by (unfold radians; field). replace (radians (45 / 2)) with (PI / 8)%R by (unfold radians; field). rewrite cos_neg, sin_neg.
    set (s := sin (PI / 8)). set (c := cos (PI / 8)). pose proof PI_RGT_0 as P. assert (S0 : (0 < s)%R) by (apply sin_gt_0; lra). assert (C0 : (0 < c)%R) by (apply cos_gt_0; lra).
    assert (SC : (s * s + c * c = 1)%R) by (pose proof (sin2_cos2 (PI / 8)) as Q; unfold Rsqr in Q; exact Q).
    assert (DB : (c * c - s * s = / sqrt 2)%R) by (unfold s, c; rewrite <- cos_plus; replace (PI / 8 + PI / 8)%R with (PI / 4)%R by field; rewrite cos_PI4; unfold Rdiv; ring).
    assert (SQ : forall a b, (0 < a -> 0 < b -> a * a < b * b -> a < b)%R) by (intros a b A B H; apply Rsqr_incrst_0; unfold Rsqr; lra).
    assert (Q2 : (sqrt 2 * sqrt 2 = 2)%R) by (apply sqrt_sqrt; lra). assert (Q0 : (0 < sqrt 2)%R) by (apply sqrt_lt_R0; lra). assert (QB : (1.41 < sqrt 2 < 1.42)%R) by (split; apply SQ; lra).
    assert (QI : (0.704 < / sqrt 2 < 0.7095)%R) by (assert (QV : (/ sqrt 2 * sqrt 2 = 1)%R) by (apply Rinv_l; lra); split; nra).
    clearbody s c. assert (SB : (0.376 < s < 0.386)%R) by (split; apply SQ; lra). assert (CB : (0.922 < c < 0.9247)%R) by (split; apply SQ; lra).
    f_equal. f_equal; f_equal; apply rround_unique; apply Rabs_def1; lra.
Qed.
Print Assumptions C126_polar.
Print Assumptions C126_polar_back.
Print Assumptions C126_polar_refuted.
Print Assumptions C126_spherical.
Print Assumptions C126_cylindrical.
Print Assumptions C126_cylindrical_refuted.
Print Assumptions C126_clock.
Print Assumptions C126_clock_centre.
Print Assumptions C126_rotation.
Print Assumptions C126_direction.
Print Assumptions C126_cosaffin.
Print Assumptions C126_dist.
Print Assumptions C126_arrow.
Print Assumptions C126_arrow_screen.
Print Assumptions C126_barb_length.
Print Assumptions C126_polygon.
Print Assumptions C126_polygon_sides_refuted.
Print Assumptions C126_polygon_errors.
Print Assumptions C126_polygon_rounded.
