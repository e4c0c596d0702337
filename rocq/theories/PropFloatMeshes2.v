(** Property C155, continued: the faces of spheres with the rounding of floats. *)
From Flocq Require Import Core.
From Coq Require Import ZArith Reals List Lia Lra Bool Psatz.
From Verif Require Import PyBase PyFacts Bmp MathLib Spec SpecSolids Solids SolidProofs SurfProofs PropSolids2 Coords RealProofs Sweeps Vertices PropVertices Meshes PropMeshes Floats FloatProofs PropFloats FloatSweeps PropFloatSweeps FloatTurns PropFloatTurns FloatMeshes PropFloatMeshes.
Import ListNotations.
Open Scope R_scope.

(** ** Lists of points that are equal in pairs *)
Definition coherent (P : vec * vec -> Prop) : Prop := forall a b, P a -> P b -> (fst a = fst b <-> snd a = snd b) /\ (snd (fst a) = snd (fst b) <-> snd (snd a) = snd (snd b)).
Lemma veq_pair P a b : coherent P -> P a -> P b -> veq (fst a) (fst b) = veq (snd a) (snd b).
Proof. intros C A B. destruct (C a b A B) as (E & _). apply Bool.eq_iff_eq_true. now rewrite !veq_iff. Qed.
Lemma addp_pair P a L : coherent P -> P a -> Forall P L -> exists L', Forall P L' /\ addp (map fst L) (fst a) = map fst L' /\ addp (map snd L) (snd a) = map snd L'.
Proof.
  intros C A F. assert (E : existsb (veq (fst a)) (map fst L) = existsb (veq (snd a)) (map snd L)). { clear - C A F. induction F as [|b L B F IH]; [reflexivity|]. cbn [map existsb]. now rewrite IH, (veq_pair P a b). }
  unfold addp. rewrite E. destruct (existsb (veq (snd a)) (map snd L)); [exists L; auto|]. exists (L ++ [a]). split; [apply Forall_app; auto|]. now rewrite !map_app.
Qed.
Lemma fold_pair P l : coherent P -> Forall P l -> forall L, Forall P L -> exists L', Forall P L' /\ fold_left addp (map fst l) (map fst L) = map fst L' /\ fold_left addp (map snd l) (map snd L) = map snd L'.
Proof.
  intros C F. induction F as [|a l A F IH]; intros L H; [exists L; auto|]. destruct (addp_pair P a L C A H) as (L1 & H1 & E1 & E2). cbn [map fold_left]. rewrite E1, E2. apply IH, H1.
Qed.
Lemma index_pair P a L : coherent P -> P a -> Forall P L -> indexof veq (map fst L) (fst a) = indexof veq (map snd L) (snd a).
Proof. intros C A F. induction F as [|b L B F IH]; [reflexivity|]. cbn [map indexof]. now rewrite (veq_pair P b a), IH. Qed.
Lemma level_pair P a i (K : list ((vec * vec) * list Z)) : coherent P -> P a -> Forall (fun k => P (fst k)) K ->
  exists K', Forall (fun k => P (fst k)) K' /\ raddlevel (snd (fst a)) i (map (fun k => (snd (fst (fst k)), snd k)) K) = map (fun k => (snd (fst (fst k)), snd k)) K' /\
    raddlevel (snd (snd a)) i (map (fun k => (snd (snd (fst k)), snd k)) K) = map (fun k => (snd (snd (fst k)), snd k)) K'.
Proof.
  intros C A F. induction F as [|[b m] K B F IH]; [exists [(a, [i])]; auto|]. cbn [map raddlevel fst snd] in *. destruct (C b a B A) as (_ & Z).
  assert (E : req (snd (fst b)) (snd (fst a)) = req (snd (snd b)) (snd (snd a))) by (apply Bool.eq_iff_eq_true; now rewrite !req_iff). 
  lazymatch goal with |- exists _, _ /\ (if ?c then _ else _) = _ /\ (if ?d then _ else _) = _ => replace c with d by (symmetry; exact E); destruct d end.
  - exists ((b, m ++ [i]) :: K). split; [now constructor|]. split; reflexivity.
  - destruct IH as (K' & H & E1 & E2). exists ((b, m) :: K'). split; [now constructor|]. split; [exact (f_equal (cons (snd (fst b), m)) E1)|exact (f_equal (cons (snd (snd b), m)) E2)].
Qed.
Definition zfst (k : (vec * vec) * list Z) : R * list Z := (snd (fst (fst k)), snd k).
Definition zsnd (k : (vec * vec) * list Z) : R * list Z := (snd (snd (fst k)), snd k).
Definition enter (vs : list vec) (zord : list (R * list Z)) (p : vec) : list (R * list Z) := raddlevel (snd p) (indexof veq vs p) zord.
Lemma enter_pair P L M : coherent P -> Forall P L -> Forall P M -> forall K, Forall (fun k : (vec * vec) * list Z => P (fst k)) K ->
  exists K', fold_left (enter (map fst L)) (map fst M) (map zfst K) = map zfst K' /\ fold_left (enter (map snd L)) (map snd M) (map zsnd K) = map zsnd K'.
Proof.
  intros C F H. induction H as [|a M A H IH]; intros K HK; [exists K; auto|]. cbn [map fold_left]. unfold enter at 2 4. rewrite (index_pair P a L C A F).
  destruct (level_pair P a (indexof veq (map snd L) (snd a)) K C A HK) as (K1 & H1 & E1 & E2). destruct (IH K1 H1) as (K' & G1 & G2). exists K'. split.
  - etransitivity; [|exact G1]. apply f_equal. exact E1.
  - etransitivity; [|exact G2]. apply f_equal. exact E2.
Qed.
Lemma levels_pair P L : coherent P -> Forall P L -> map snd (rzlevelcoords (map fst L)) = map snd (rzlevelcoords (map snd L)).
Proof.
  intros C F. destruct (enter_pair P L L C F F [] (Forall_nil _)) as (K & E1 & E2). transitivity (map snd (map zfst K)); [exact (f_equal (map snd) E1)|]. transitivity (map snd (map zsnd K)); [|exact (f_equal (map snd) (eq_sym E2))].
  rewrite !map_map. now apply map_ext.
Qed.

(** ** Points of the grid are apart *)
Lemma sin_many n x : Rabs (sin (INR n * x)) <= INR n * Rabs (sin x).
Proof.
  induction n as [|n IH]; [cbn [INR]; rewrite !Rmult_0_l, sin_0, Rabs_R0; lra|]. rewrite S_INR, !Rmult_plus_distr_r, !Rmult_1_l, sin_plus. eapply Rle_trans; [apply Rabs_triang|]. rewrite !Rabs_mult.
  pose proof (cos1 x). pose proof (cos1 (INR n * x)). pose proof (Rabs_pos (sin x)). pose proof (Rabs_pos (sin (INR n * x))). pose proof (Rabs_pos (cos x)). nra.
Qed.
Lemma sin_steps q m : (1 <= q)%Z -> (1 <= m <= 2 * q - 1)%Z -> / IZR q <= sin (IZR m * (PI / IZR (2 * q))).
Proof.
  intros Q M. set (h := PI / IZR (2 * q)). assert (Q0 : 1 <= IZR q) by now apply IZR_le. pose proof PI_RGT_0 as PP. assert (T : IZR q * h = PI / 2) by (unfold h; rewrite mult_IZR; field; lra).
  assert (H0 : 0 < h) by (unfold h; rewrite mult_IZR; apply Rdiv_lt_0_compat; lra). assert (H1 : h <= PI / 2) by nra.
  assert (S0 : 0 <= sin h) by (apply sin_ge_0; lra). assert (L : / IZR q <= sin h).
  { pose proof (sin_many (Z.to_nat q) h) as N. rewrite INR_IZR_INZ, Z2Nat.id, T, sin_PI2, Rabs_R1, (Rabs_pos_eq _ S0) in N by lia. apply (Rmult_le_reg_l (IZR q)); [lra|]. rewrite Rinv_r by lra. exact N. }
  eapply Rle_trans; [exact L|]. assert (M1 : 1 <= IZR m) by (apply IZR_le; lia). destruct (Z_le_gt_dec m q) as [A|A].
  - assert (B : IZR m <= IZR q) by now apply IZR_le. apply sin_incr_1; nra.
  - assert (B : IZR q <= IZR m) by (apply IZR_le; lia). assert (D : IZR m <= 2 * IZR q - 1) by (rewrite <- mult_IZR, <- minus_IZR; apply IZR_le; lia). rewrite <- (sin_PI_x (IZR m * h)). apply sin_incr_1; nra.
Qed.
Lemma inv_180 q : (1 <= q <= 180)%Z -> / 180 <= / IZR q.
Proof. intros Q. apply Rinv_le_contravar; [apply IZR_lt; lia|apply IZR_le; lia]. Qed.
Lemma cos_apart q k k' : (1 <= q <= 180)%Z -> (0 <= k < k')%Z -> (k' <= q)%Z -> 2 / (180 * 180) <= cos (IZR k * (2 * (PI / IZR (2 * q)))) - cos (IZR k' * (2 * (PI / IZR (2 * q)))).
Proof.
  intros Q K K'. set (h := PI / IZR (2 * q)). rewrite form2. pose proof (sin_steps q (k' - k) ltac:(lia) ltac:(lia)) as A. pose proof (sin_steps q (k' + k) ltac:(lia) ltac:(lia)) as B. fold h in A, B. pose proof (inv_180 q Q).
  replace ((IZR k * (2 * h) - IZR k' * (2 * h)) / 2) with (- (IZR (k' - k) * h)) by (rewrite minus_IZR; field). replace ((IZR k * (2 * h) + IZR k' * (2 * h)) / 2) with (IZR (k' + k) * h) by (rewrite plus_IZR; field). rewrite sin_neg.
  set (a := sin (IZR (k' - k) * h)) in *. set (b := sin (IZR (k' + k) * h)) in *. nra.
Qed.
Lemma level_of r q k k' d : 1 <= r -> (1 <= q <= 180)%Z -> (0 <= k <= q)%Z -> (0 <= k' <= q)%Z -> Rabs (r * cos (IZR k * (2 * (PI / IZR (2 * q)))) - r * cos (IZR k' * (2 * (PI / IZR (2 * q))))) <= d -> d <= / 20000 -> k = k'.
Proof.
  intros R Q K K' D E. assert (G : forall a b, (0 <= a < b)%Z -> (b <= q)%Z -> / 20000 < r * cos (IZR a * (2 * (PI / IZR (2 * q)))) - r * cos (IZR b * (2 * (PI / IZR (2 * q))))).
  { intros a b A B. pose proof (cos_apart q a b Q A B). nra. }
  apply Rabs_le_inv in D. destruct (Z.lt_trichotomy k k') as [L|[L|L]]; [|exact L|]; [pose proof (G k k' ltac:(lia) ltac:(lia))|pose proof (G k' k ltac:(lia) ltac:(lia))]; lra.
Qed.
Lemma chord s a b : (s * cos a - s * cos b) * (s * cos a - s * cos b) + (s * sin a - s * sin b) * (s * sin a - s * sin b) = 4 * (s * s) * (sin ((a - b) / 2) * sin ((a - b) / 2)).
Proof.
  pose proof (cos_2a_sin ((a - b) / 2)) as C. replace (2 * ((a - b) / 2)) with (a - b) in C by field. rewrite cos_minus in C. pose proof (sin2_cos2 a) as A. pose proof (sin2_cos2 b) as B. unfold Rsqr in A, B. set (x := sin ((a - b) / 2)) in *.
  transitivity (s * s * ((sin a * sin a + cos a * cos a) + (sin b * sin b + cos b * cos b) - 2 * (cos a * cos b + sin a * sin b))); [ring|]. rewrite A, B, C. ring.
Qed.
Lemma turn_of r q t t' k : 1 <= r -> (2 <= q <= 180)%Z -> (0 < k < q)%Z -> (0 <= t < 2 * q)%Z -> (0 <= t' < 2 * q)%Z -> let '(x, y, _) := pt r q t k in let '(x', y', _) := pt r q t' k in Rabs (x - x') <= / 400000 -> Rabs (y - y') <= / 400000 -> t = t'.
Proof.
  intros R Q K T T'. unfold pt, sp. set (h := PI / IZR (2 * q)). intros DX DY. destruct (Z.eq_dec t t') as [|N]; [assumption|exfalso].
  pose proof (chord (r * sin (IZR k * (2 * h))) (IZR t * (2 * h)) (IZR t' * (2 * h))) as C. set (s := r * sin (IZR k * (2 * h))) in *. pose proof (inv_180 q ltac:(lia)) as I.
  assert (S : / 180 <= s). { pose proof (sin_steps q (2 * k) ltac:(lia) ltac:(lia)) as A. fold h in A. rewrite mult_IZR in A. replace (2 * IZR k * h) with (IZR k * (2 * h)) in A by ring. unfold s. nra. }
  assert (W : / (180 * 180) <= sin ((IZR t * (2 * h) - IZR t' * (2 * h)) / 2) * sin ((IZR t * (2 * h) - IZR t' * (2 * h)) / 2)).
  { replace ((IZR t * (2 * h) - IZR t' * (2 * h)) / 2) with (IZR (t - t') * h) by (rewrite minus_IZR; field). destruct (Z_lt_le_dec t' t) as [L|L].
    - pose proof (sin_steps q (t - t') ltac:(lia) ltac:(lia)) as A. fold h in A. rewrite Rinv_mult. nra.
    - pose proof (sin_steps q (t' - t) ltac:(lia) ltac:(lia)) as A. fold h in A. replace (IZR (t - t') * h) with (- (IZR (t' - t) * h)) by (rewrite !minus_IZR; ring). rewrite sin_neg, Rmult_opp_opp, Rinv_mult. nra. }
  set (w := sin ((IZR t * (2 * h) - IZR t' * (2 * h)) / 2) * sin ((IZR t * (2 * h) - IZR t' * (2 * h)) / 2)) in *. clearbody w. set (x := s * cos (IZR t * (2 * h)) - s * cos (IZR t' * (2 * h))) in *. set (y := s * sin (IZR t * (2 * h)) - s * sin (IZR t' * (2 * h))) in *. clearbody x y s. clear - C S W DX DY.
  assert (X2 : x * x <= / 400000 * / 400000) by (apply Rabs_le_inv in DX; nra). assert (Y2 : y * y <= / 400000 * / 400000) by (apply Rabs_le_inv in DY; nra).
  assert (SS : / (180 * 180) <= s * s) by (rewrite Rinv_mult; nra). assert (P : / (180 * 180) * / (180 * 180) <= s * s * w) by (apply Rmult_le_compat; lra). lra.
Qed.

(** ** The sphere *)
(** the vertex for the exact vertex pt r q t k *)
Definition fvertex mc ms r step q (t k : Z) : vec := if (k =? q)%Z then (0, 0, - r) else fpoint mc ms (0, 0, 0) r (t * step) (k * step).
Lemma origin : centre (0, 0, 0).
Proof. cbn. rewrite Rabs_R0. lra. Qed.
Lemma vertex_near mc ms r step q t k : libm mc ms -> 0 < r <= 65536 -> (0 < step)%Z -> (step * q = 180)%Z -> (2 <= q)%Z -> (0 <= t < 2 * q)%Z -> (0 <= k <= q)%Z -> close3 (fvertex mc ms r step q t k) (pt r q t k).
Proof.
  intros M R S SQ Q T K. unfold fvertex. destruct (Z.eqb_spec k q) as [-> |N].
  - rewrite pt_south by exact Q. cbn [close3 pow]. repeat split; rewrite Rminus_diag_eq, Rabs_R0 by reflexivity; lra.
  - pose proof (point_near mc ms (0, 0, 0) r (t * step) (k * step) M origin ltac:(apply Rabs_le; lra) ltac:(nia) ltac:(nia)) as P.
    replace (on_sphere (0, 0, 0) r (radians (IZR (t * step))) (radians (IZR (k * step)))) with (pt r q t k) in P; [exact P|]. unfold on_sphere, spherical2rectcoord3D, vadd, pt, sp. rewrite !(sangle step q SQ Q), !Rplus_0_l. reflexivity.
Qed.
Definition paired mc ms r step q (a : vec * vec) : Prop := exists t k, (0 <= t < 2 * q)%Z /\ (0 <= k <= q)%Z /\ a = (pt r q t k, fvertex mc ms r step q t k).
Lemma paired_coherent mc ms r step q : libm mc ms -> ms 0 = 0 -> 1 <= r <= 65536 -> (0 < step)%Z -> (step * q = 180)%Z -> (2 <= q)%Z -> coherent (paired mc ms r step q).
Proof.
  intros M M0 R S SQ Q a b (t & k & T & K & ->) (t' & k' & T' & K' & ->). cbn [fst snd]. assert (Q1 : (q <= 180)%Z) by nia.
  pose proof (vertex_near mc ms r step q t k M ltac:(lra) S SQ Q T K) as N. pose proof (vertex_near mc ms r step q t' k' M ltac:(lra) S SQ Q T' K') as N'.
  assert (ZL : snd (pt r q t k) = r * cos (IZR k * (2 * (PI / IZR (2 * q))))) by reflexivity. assert (ZL' : snd (pt r q t' k') = r * cos (IZR k' * (2 * (PI / IZR (2 * q))))) by reflexivity.
  assert (Z1 : snd (pt r q t k) = snd (pt r q t' k') -> k = k'). { rewrite ZL, ZL'. intros E. apply (level_of r q k k' 0); try lia; try lra. rewrite E, Rminus_diag_eq, Rabs_R0 by reflexivity. lra. }
  assert (Z2 : snd (fvertex mc ms r step q t k) = snd (fvertex mc ms r step q t' k') -> k = k').
  { intros E. assert (D : Rabs (snd (pt r q t k) - snd (pt r q t' k')) <= / 20000). { destruct (pt r q t k) as [[x y] z], (pt r q t' k') as [[x' y'] z'], (fvertex mc ms r step q t k) as [[u v] w], (fvertex mc ms r step q t' k') as [[u' v'] w']. cbn [snd close3 pow] in *. destruct N as (_ & _ & N). destruct N' as (_ & _ & N'). apply Rabs_le_inv in N, N'. apply Rabs_le. lra. }
    rewrite ZL, ZL' in D. apply (level_of r q k k' _ ltac:(lra) ltac:(lia) K K' D). lra. }
  assert (Z3 : k = k' -> snd (fvertex mc ms r step q t k) = snd (fvertex mc ms r step q t' k')). { intros <-. unfold fvertex. destruct (k =? q)%Z; [reflexivity|]. apply C155_slices. }
  assert (Z4 : k = k' -> snd (pt r q t k) = snd (pt r q t' k')) by (intros <-; reflexivity).
  split; [|split; auto]. split; intros E.
  - assert (KK : k = k') by (apply Z1; now rewrite E). subst k'. unfold fvertex. destruct (Z.eqb_spec k q) as [|NK]; [reflexivity|]. destruct (Z.eq_dec k 0) as [-> |K0]; [rewrite Z.mul_0_l; now apply (proj2 (C155_slices mc ms (0, 0, 0) r (t * step) (t' * step) 0))|].
    apply pt_inj in E; try lia; [|lra]. destruct E as (-> & _). reflexivity.
  - assert (KK : k = k') by (apply Z2; now rewrite E). subst k'. destruct (Z.eq_dec k q) as [-> |NK]; [now rewrite !pt_south by exact Q|]. destruct (Z.eq_dec k 0) as [-> |K0]; [now rewrite !pt_north|].
    pose proof (turn_of r q t t' k ltac:(lra) ltac:(lia) ltac:(lia) T T') as TT. rewrite E in N. destruct (pt r q t k) as [[x y] z] eqn:P1, (pt r q t' k) as [[x' y'] z'] eqn:P2, (fvertex mc ms r step q t' k) as [[u v] w]. cbn [close3 pow] in *.
    destruct N as (N1 & N2 & N3). destruct N' as (N1' & N2' & N3'). apply Rabs_le_inv in N1, N2, N1', N2'. rewrite <- P1, <- P2. f_equal. apply TT; apply Rabs_le; lra.
Qed.
(** The mesh of a sphere around the origin has exactly the faces of the exact mesh, which is a closed convex polyhedron,
    and each vertex is within a millionth of its place on the sphere. *)
Theorem C155_ball : forall mc ms r step q, libm mc ms -> ms 0 = 0 -> 1 <= r <= 65536 -> (0 < step)%Z -> (step * q = 180)%Z -> (2 <= q)%Z ->
  exists vs vs' fs, fspherevertandsurface mc ms (0, 0, 0) r step = Ok (vs', fs) /\ spherevertandsurface (0, 0, 0) r step = Ok (vs, fs) /\ Forall2 close3 vs' vs /\
    polyhedron (-1) vs fs /\ closed fs /\ Z.of_nat (length fs) = (2 * q * q)%Z /\ Z.of_nat (length vs') = (2 + 2 * q * (q - 1))%Z.
Proof.
  intros mc ms r step q M M0 R S SQ Q. destruct (C142_sphere r step q ltac:(lra) S SQ Q) as (vs & fs & E & PO & CL & _ & _ & LF & LV).
  pose proof (paired_coherent mc ms r step q M M0 R S SQ Q) as CO.
  set (l := flat_map (fun t => map (fun k => (pt r q t k, fvertex mc ms r step q t k)) (range 0 q)) (range 0 (2 * q))).
  assert (HL : Forall (paired mc ms r step q) l). { apply Forall_forall. intros a A. unfold l in A. apply in_flat_map in A. destruct A as (t & T & A). apply in_map_iff in A. destruct A as (k & <- & K). apply in_range in T, K. exists t, k. repeat split; lia. }
  assert (HS : paired mc ms r step q ((0, 0, - r), (0, 0, - r))). { exists 0%Z, q. split; [lia|split; [lia|]]. unfold fvertex. now rewrite Z.eqb_refl, pt_south by exact Q. }
  destruct (fold_pair _ l CO HL [] (Forall_nil _)) as (L1 & H1 & E1 & E2). destruct (addp_pair _ _ L1 CO HS H1) as (L & H & F1 & F2). cbn [fst snd] in F1, F2.
  assert (ST : forall m, (range_step 0 (m * step) step) = map (fun i => (i * step)%Z) (range 0 m)  \/ (m < 0)%Z). { intros m. destruct (Z_lt_le_dec m 0); [now right|left]. rewrite steps_multiples by (lia || (exists m; reflexivity) || nia). now rewrite Z.div_mul by lia. }
  assert (S1 : range_step 0 180 step = map (fun i => (i * step)%Z) (range 0 q)). { destruct (ST q) as [X|X]; [|lia]. replace (q * step)%Z with 180%Z in X by lia. exact X. }
  assert (S2 : range_step 0 360 step = map (fun i => (i * step)%Z) (range 0 (2 * q))). { destruct (ST (2 * q)%Z) as [X|X]; [|lia]. replace (2 * q * step)%Z with 360%Z in X by lia. exact X. }
  assert (X1 : spherevert (0, 0, 0) r step = Ok (map fst L)).
  { unfold spherevert. rewrite !rangeby_pos by exact S. cbn [rbind]. rewrite S1, S2. f_equal. rewrite <- F1, <- E1. change (fun plist p => if existsb (veq p) plist then plist else plist ++ [p]) with addp.
    rewrite (fold_fold (fun theta phi => vadd (0, 0, 0) (spherical2rectcoord3D (r, radians (IZR theta), radians (IZR phi)))) addp). cbn [map]. change (addp (fold_left addp (flat_map (fun x => map (fun phi => vadd (0, 0, 0) (spherical2rectcoord3D (r, radians (IZR x), radians (IZR phi)))) (map (fun i => (i * step)%Z) (range 0 q))) (map (fun i => (i * step)%Z) (range 0 (2 * q)))) []) (0, 0, - r) = addp (fold_left addp (map fst l) []) (0, 0, - r)). f_equal. f_equal.
    unfold l. rewrite !flat_map_concat_map, concat_map, !map_map. f_equal. apply map_ext. intros t. rewrite !map_map. apply map_ext. intros k. cbn [fst]. unfold spherical2rectcoord3D, vadd, pt, sp. rewrite !(sangle step q SQ Q), !Rplus_0_l. reflexivity. }
  assert (X2 : fspherevert mc ms (0, 0, 0) r step = Ok (map snd L)).
  { unfold fspherevert. rewrite !rangeby_pos by exact S. cbn [rbind]. rewrite S1, S2. f_equal. rewrite <- F2, <- E2. change (fun plist p => if existsb (veq p) plist then plist else plist ++ [p]) with addp.
    rewrite (fold_fold (fun theta phi => fvadd (0, 0, 0) (fspherical2rectcoord3D mc ms (r, fradians (IZR theta), fradians (IZR phi)))) addp). cbn [map]. change (addp (fold_left addp (flat_map (fun x => map (fun phi => fvadd (0, 0, 0) (fspherical2rectcoord3D mc ms (r, fradians (IZR x), fradians (IZR phi)))) (map (fun i => (i * step)%Z) (range 0 q))) (map (fun i => (i * step)%Z) (range 0 (2 * q)))) []) (0, 0, - r) = addp (fold_left addp (map snd l) []) (0, 0, - r)). f_equal. f_equal.
    unfold l. rewrite !flat_map_concat_map, concat_map, !map_map. f_equal. apply map_ext. intros t. rewrite !map_map. apply map_ext_in. intros k K. apply in_range in K. cbn [snd]. unfold fvertex. rewrite (proj2 (Z.eqb_neq k q)) by lia. reflexivity. }
  unfold spherevertandsurface in E. rewrite X1 in E. cbn [rbind] in E. exists (map fst L), (map snd L), fs. unfold fspherevertandsurface, spherevertandsurface. rewrite X1, X2. cbn [rbind]. rewrite <- (levels_pair _ L CO H).
  destruct (genspheresurfaces (map snd (rzlevelcoords (map fst L)))) as [g|]; [|discriminate]. cbn [rbind] in E. apply ok_inj in E. injection E as <- <-. cbn [rbind]. split; [reflexivity|]. split; [reflexivity|]. split; [|split; [exact PO|split; [exact CL|split; [exact LF|now rewrite map_length in LV |- *]]]].
  apply Forall2_map2. intros a A. rewrite Forall_forall in H. destruct (H a A) as (t & k & T & K & ->). cbn [fst snd]. apply vertex_near; (assumption || lra).
Qed.
Example C155_ball_ex : libm (fun x => cos x) (fun x => sin x) /\ sin 0 = 0 /\ 1 <= 100 <= 65536 /\ (10 * 18 = 180)%Z.
Proof. destruct C155_ex as (A & _ & _ & B). repeat split; (assumption || lra || apply A). Qed.
Print Assumptions C155_ball.
