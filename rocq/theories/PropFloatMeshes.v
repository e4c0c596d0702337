(** Property C155: spheres, cylinders and cones with the rounding of floats. *)
From Flocq Require Import Core.
From Coq Require Import ZArith Reals List Lia Lra Bool Psatz.
From Verif Require Import PyBase PyFacts Bmp MathLib Spec SpecSolids Solids SolidProofs SurfProofs PropSolids2 Coords RealProofs Sweeps Vertices PropVertices Meshes PropMeshes Floats FloatProofs PropFloats FloatSweeps PropFloatSweeps FloatTurns PropFloatTurns FloatMeshes.
Import ListNotations.
Open Scope R_scope.

(** sizes: the centre within 2^20, radii and heights within 65536 *)
Definition centre (v : vec) : Prop := let '(x, y, z) := v in Rabs x <= 1048576 /\ Rabs y <= 1048576 /\ Rabs z <= 1048576.
Lemma sum_near c x x' : Rabs c <= 1048576 -> Rabs x <= 65536 -> Rabs (x' - x) <= / 5000000 -> Rabs (fl (c + x') - (c + x)) <= / 10 ^ 6.
Proof.
  intros C X D. apply Rabs_le_inv in C, X, D. assert (B : Rabs (c + x') <= 1200000) by (apply Rabs_le; lra). pose proof (fl_near _ _ B) as N. apply Rabs_le_inv in N. destruct consts as (U & E & _). cbn [pow]. apply Rabs_le. lra.
Qed.
(** one product with a cosine or sine *)
Lemma arm_near r s s' : Rabs r <= 65536 -> Rabs s <= 1 -> Rabs (s' - s) <= e12 -> Rabs (r * s) <= 65536 /\ Rabs (fl (r * s') - r * s) <= / 10000000.
Proof.
  intros R S D. split; [rewrite Rabs_mult, <- (Rmult_1_r 65536); apply Rmult_le_compat; (assumption || apply Rabs_pos)|].
  pose proof (near_prod r r s s' 0 _ 65536 1 (abs0 r) D R S) as N. eapply Rle_trans; [exact N|]. unfold e12. close.
Qed.
Lemma half_near l : Rabs l <= 65536 -> Rabs (l / 2) <= 65536 /\ Rabs (fl (l / 2) - l / 2) <= / 5000000 /\ Rabs (- fl (l / 2) - - (l / 2)) <= / 5000000.
Proof.
  intros L. apply Rabs_le_inv in L. assert (B : Rabs (l / 2) <= 65536) by (apply Rabs_le; lra). pose proof (fl_near _ _ B) as N. destruct consts as (U & E & _). apply Rabs_le_inv in N. repeat split; [exact B|apply Rabs_le; lra|apply Rabs_le; lra].
Qed.
(** A point on a circle about the axis. *)
Lemma ring_near mc ms c r z z' t : libm mc ms -> centre c -> Rabs r <= 65536 -> Rabs z <= 65536 -> Rabs (z' - z) <= / 5000000 -> (0 <= t <= 65536)%Z ->
  close3 (fvadd c (fcylindrical2rectcoord3D mc ms (r, fradians (IZR t), z'))) (vadd c (cylindrical2rectcoord3D (r, radians (IZR t), z))).
Proof.
  intros M C R Z D T. destruct c as [[x y] w]. destruct C as (X & Y & W). assert (TB : Rabs (IZR t) <= 65536) by (rewrite <- abs_IZR; apply IZR_le; lia). destruct (turn mc ms _ M TB) as (S & K). unfold fcomputerotvec in S, K. cbn [fst snd] in S, K.
  destruct (arm_near r _ _ R (cos1 _) K) as (B1 & N1). destruct (arm_near r _ _ R (sin1 _) S) as (B2 & N2). cbn [fvadd fcylindrical2rectcoord3D vadd cylindrical2rectcoord3D close3].
  repeat split; apply sum_near; try assumption; lra.
Qed.
Lemma steps_low step t : (0 < step <= 30000)%Z -> In t (range_step 0 (360 + Z.shiftl step 1) step) -> (0 <= t <= 65536)%Z.
Proof. intros S I. rewrite Z.shiftl_mul_pow2 in I by lia. apply in_steps in I; lia. Qed.
Lemma Forall2_map2 {A B C} (P : B -> C -> Prop) (f : A -> B) (g : A -> C) l : (forall a, In a l -> P (f a) (g a)) -> Forall2 P (map f l) (map g l).
Proof. induction l as [|a l IH]; intros H; constructor; [apply H; now left|apply IH; intros x X; apply H; now right]. Qed.
Lemma Forall2_pairs {A B C} (P : B -> C -> Prop) (f f' : A -> B) (g g' : A -> C) l : (forall a, In a l -> P (f a) (g a) /\ P (f' a) (g' a)) -> Forall2 P (flat_map (fun a => [f a; f' a]) l) (flat_map (fun a => [g a; g' a]) l).
Proof. induction l as [|a l IH]; intros H; cbn [flat_map app]; [constructor|]. destruct (H a (or_introl eq_refl)). repeat constructor; try assumption. apply IH. intros x X. apply H. now right. Qed.
Lemma f2_length {A B} (P : A -> B -> Prop) l l' : Forall2 P l l' -> length l = length l'.
Proof. induction 1; cbn; congruence. Qed.
(** The cylinder has the faces of the exact one, and each vertex is within a millionth of its place. *)
Theorem C155_cylinder : forall mc ms vcen r l step, libm mc ms -> centre vcen -> Rabs r <= 65536 -> Rabs l <= 65536 -> (0 < step <= 30000)%Z ->
  exists vs vs' fs, cylindervertandsurface vcen r l step = Ok (vs, fs) /\ fcylindervertandsurface mc ms vcen r l step = Ok (vs', fs) /\ Forall2 close3 vs' vs.
Proof.
  intros mc ms c r l step M C R L S. unfold cylindervertandsurface, cylindervert, fcylindervertandsurface. rewrite !rangeby_pos by lia. cbn [rbind]. unfold cylindersurface. rewrite rangeby_pos by lia. cbn [rbind].
  eexists. eexists. eexists. split; [reflexivity|]. split; [reflexivity|]. destruct (half_near l L) as (HB & H1 & H2). apply Forall2_pairs. intros t T. apply steps_low in T; [|exact S].
  split; apply ring_near; try assumption. now rewrite Rabs_Ropp.
Qed.
(** So is the cone. *)
Theorem C155_cone : forall mc ms vcen r l step, libm mc ms -> centre vcen -> Rabs r <= 65536 -> Rabs l <= 65536 -> (0 < step <= 30000)%Z ->
  exists vs vs' fs, conevertandsurface vcen r l step = Ok (vs, fs) /\ fconevertandsurface mc ms vcen r l step = Ok (vs', fs) /\ Forall2 close3 vs' vs.
Proof.
  intros mc ms c r l step M C R L S. unfold conevertandsurface, conevert, fconevertandsurface. rewrite !rangeby_pos by lia. cbn [rbind]. unfold conesurface. rewrite rangeby_pos by lia. cbn [rbind].
  eexists. eexists. eexists. split; [reflexivity|]. split; [reflexivity|]. destruct (half_near l L) as (HB & H1 & H2). constructor.
  - destruct c as [[x y] w]. destruct C as (X & Y & W). cbn [fvsub vsub close3]. assert (Z0 : Rabs 0 <= 65536) by (rewrite Rabs_R0; lra). assert (Z1 : Rabs (0 - 0) <= / 5000000) by (rewrite Rminus_0_r, Rabs_R0; lra).
    unfold Rminus. rewrite Ropp_0. repeat split; [apply (sum_near x 0 0)|apply (sum_near y 0 0)|apply (sum_near w (- (l / 2)) (- fl (l / 2)))]; try assumption. now rewrite Rabs_Ropp.
  - apply Forall2_map2. intros t T. apply steps_low in T; [|exact S]. now apply ring_near.
Qed.
(** For a step that divides 360 these vertices and faces are those of a convex solid without border, moved by less than a
    millionth. *)
Theorem C155_solid : forall mc ms vcen r l step n, libm mc ms -> centre vcen -> 0 < r <= 65536 -> 0 < l <= 65536 -> (0 < step)%Z -> (step * n = 360)%Z -> (3 <= n)%Z ->
  (exists vs vs' fs pos, fcylindervertandsurface mc ms vcen r l step = Ok (vs', fs) /\ Forall2 close3 vs' vs /\ polyhedron 1 vs fs /\ closed (map (map pos) fs) /\ Z.of_nat (length fs) = (n + 2)%Z /\ Z.of_nat (length vs') = (2 * n + 4)%Z) /\
  (exists vs vs' fs pos, fconevertandsurface mc ms vcen r l step = Ok (vs', fs) /\ Forall2 close3 vs' vs /\ polyhedron 1 vs fs /\ closed (map (map pos) fs) /\ Z.of_nat (length fs) = (n + 1)%Z /\ Z.of_nat (length vs') = (n + 3)%Z).
Proof.
  intros mc ms c r l step n M C R L S SN N3. assert (RA : Rabs r <= 65536) by (apply Rabs_le; lra). assert (LA : Rabs l <= 65536) by (apply Rabs_le; lra). assert (SB : (0 < step <= 30000)%Z) by nia. split.
  - destruct (C142_cylinder c r l step n ltac:(lra) ltac:(lra) S SN N3) as (vs & fs & pos & E & P & LF & LV & _ & CL). destruct (C155_cylinder mc ms c r l step M C RA LA SB) as (ws & vs' & fs' & E' & F & Q). rewrite E in E'. apply ok_inj in E'. injection E' as <- <-. exists vs, vs', fs, pos. split; [exact F|split; [exact Q|split; [exact P|split; [exact CL|split; [exact LF|]]]]]. rewrite (f2_length _ _ _ Q). exact LV.
  - destruct (C142_cone c r l step n ltac:(lra) ltac:(lra) S SN N3) as (vs & fs & pos & E & P & LF & LV & _ & CL). destruct (C155_cone mc ms c r l step M C RA LA SB) as (ws & vs' & fs' & E' & F & Q). rewrite E in E'. apply ok_inj in E'. injection E' as <- <-. exists vs, vs', fs, pos. split; [exact F|split; [exact Q|split; [exact P|split; [exact CL|split; [exact LF|]]]]]. rewrite (f2_length _ _ _ Q). exact LV.
Qed.

(** ** Spheres *)
Definition fpoint mc ms c r (theta phi : Z) : vec := fvadd c (fspherical2rectcoord3D mc ms (r, fradians (IZR theta), fradians (IZR phi))).
Lemma point_near mc ms c r t p : libm mc ms -> centre c -> Rabs r <= 65536 -> (0 <= t < 360)%Z -> (0 <= p < 180)%Z -> close3 (fpoint mc ms c r t p) (on_sphere c r (radians (IZR t)) (radians (IZR p))).
Proof.
  intros M C R T P. destruct c as [[x y] w]. destruct C as (X & Y & W). assert (TB : Rabs (IZR t) <= 65536) by (rewrite <- abs_IZR; apply IZR_le; lia). assert (PB : Rabs (IZR p) <= 65536) by (rewrite <- abs_IZR; apply IZR_le; lia).
  destruct (turn mc ms _ M TB) as (ST & CT). destruct (turn mc ms _ M PB) as (SP & CP). unfold fcomputerotvec in *. cbn [fst snd] in *. destruct (arm_near r _ _ R (sin1 _) SP) as (B1 & N1). destruct (arm_near r _ _ R (cos1 _) CP) as (B2 & N2).
  set (a := r * sin (radians (IZR p))) in *. set (a' := fl (r * ms (fradians (IZR p)))) in *.
  assert (G : forall f f', Rabs f <= 1 -> Rabs (f' - f) <= e12 -> Rabs (a * f) <= 65536 /\ Rabs (fl (a' * f') - a * f) <= / 5000000).
  { intros f f' F D. split; [rewrite Rabs_mult, <- (Rmult_1_r 65536); apply Rmult_le_compat; (assumption || apply Rabs_pos)|]. eapply Rle_trans; [apply (near_prod a a' f f' _ _ 65536 1 N1 D B1 F)|]. unfold e12. close. }
  destruct (G _ _ (cos1 (radians (IZR t))) CT) as (B3 & N3). destruct (G _ _ (sin1 (radians (IZR t))) ST) as (B4 & N4). unfold fpoint, on_sphere. cbn [fspherical2rectcoord3D fvadd spherical2rectcoord3D vadd close3]. fold a a'.
  repeat split; apply sum_near; try assumption. lra.
Qed.
(** The vertices of a sphere: no two are equal; the south pole is one; each other one is within a millionth of a point of
    the sphere whose angles are multiples of the step, and each such point has its vertex. *)
Theorem C155_sphere : forall mc ms vcen r step, libm mc ms -> centre vcen -> Rabs r <= 65536 -> (0 < step)%Z ->
  exists l, fspherevert mc ms vcen r step = Ok l /\ NoDup l /\ In (0, 0, - r) l /\
  (forall p, In p l -> p = (0, 0, - r) \/ exists theta phi, (0 <= theta < 360)%Z /\ (0 <= phi < 180)%Z /\ (step | theta)%Z /\ (step | phi)%Z /\ close3 p (on_sphere vcen r (radians (IZR theta)) (radians (IZR phi)))) /\
  (forall theta phi, (0 <= theta < 360)%Z -> (0 <= phi < 180)%Z -> (step | theta)%Z -> (step | phi)%Z -> exists p, In p l /\ close3 p (on_sphere vcen r (radians (IZR theta)) (radians (IZR phi)))).
Proof.
  intros mc ms c r step M C R S. unfold fspherevert. rewrite !rangeby_pos by exact S. cbn [rbind]. eexists. split; [reflexivity|]. change (fun plist p => if existsb (veq p) plist then plist else plist ++ [p]) with addp.
  fold (addp (fold_left (fun plist theta => fold_left (fun plist phi => addp plist (fvadd c (fspherical2rectcoord3D mc ms (r, fradians (IZR theta), fradians (IZR phi))))) (range_step 0 180 step) plist) (range_step 0 360 step) []) (0, 0, - r)).
  rewrite (fold_fold (fun theta phi => fvadd c (fspherical2rectcoord3D mc ms (r, fradians (IZR theta), fradians (IZR phi)))) addp). set (F := flat_map _ _). destruct (addp_fold F [] (NoDup_nil _)) as (N & I). split; [now apply addp_nodup|]. split; [apply addp_in; now right|]. split.
  - intros p P. apply addp_in in P. rewrite I in P. destruct P as [[[]|P]|P]; [|now left]. right. unfold F in P. apply in_flat_map in P. destruct P as (t & T & P). apply in_map_iff in P. destruct P as (f & <- & P). apply in_steps in T, P; [|exact S|exact S]. exists t, f. split; [apply T|]. split; [apply P|]. split; [apply T|]. split; [apply P|]. apply point_near; (assumption || apply T || apply P).
  - intros t f T P DT DP. exists (fpoint mc ms c r t f). split; [|now apply point_near]. apply addp_in. left. apply I. right. unfold F. apply in_flat_map. exists t. split; [apply in_steps; auto|]. apply in_map, in_steps; auto.
Qed.
(** All points of an angle phi have exactly the same z, so that they are one slice of the sphere; and there is one north
    pole, if the sine of 0 is 0. *)
Theorem C155_slices : forall mc ms vcen r t t' phi, snd (fpoint mc ms vcen r t phi) = snd (fpoint mc ms vcen r t' phi) /\ (ms 0 = 0 -> fpoint mc ms vcen r t 0 = fpoint mc ms vcen r t' 0).
Proof.
  intros mc ms [[x y] w] r t t' phi. split; [reflexivity|]. intros S. unfold fpoint. destruct C148_radians as (R0 & _). rewrite R0. cbn [fspherical2rectcoord3D fvadd]. rewrite S, !Rmult_0_r, fl_0, !Rmult_0_l, fl_0. reflexivity.
Qed.
Theorem C155_zero : forall mc ms vcen r l, fspherevert mc ms vcen r 0 = Err ValueError /\ fcylindervertandsurface mc ms vcen r l 0 = Err ValueError /\ fconevertandsurface mc ms vcen r l 0 = Err ValueError.
Proof. repeat split; reflexivity. Qed.
Example C155_ex : libm (fun x => cos x) (fun x => sin x) /\ centre (10, -20, 30) /\ (20 * 18 = 360)%Z /\ sin 0 = 0.
Proof.
  split; [|split; [cbn; repeat split; apply Rabs_le; lra|split; [reflexivity|apply sin_0]]]. intros x. destruct consts as (_ & _ & K). rewrite !Rminus_diag_eq, Rabs_R0 by reflexivity. repeat split; try lra; [apply cos1|apply sin1].
Qed.
Print Assumptions C155_cylinder.
Print Assumptions C155_cone.
Print Assumptions C155_solid.
Print Assumptions C155_sphere.
Print Assumptions C155_slices.
Print Assumptions C155_zero.
