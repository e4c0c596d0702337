(** Property C142: the meshes of spheres, cylinders and cones. *)
From Coq Require Import ZArith Reals List Lia Lra Bool.
From Verif Require Import PyBase Bmp PyFacts MathLib Spec SpecSolids Solids SolidProofs SurfProofs PropSolids2 Coords RealProofs Vertices PropVertices Meshes.
Import ListNotations.
Open Scope R_scope.

Notation vec := Vertices.vec.
Definition rdot (u v : vec) : R := let '(a, b, c) := u in let '(d, e, f) := v in a * d + b * e + c * f.
Definition rcross (u v : vec) : vec := let '(a, b, c) := u in let '(d, e, f) := v in (b * f - c * e, c * d - a * f, a * e - b * d).
(** the normal of the plane through u, v, w *)
Definition rnormal (u v w : vec) : vec := rcross (vsub v u) (vsub w u).
(** Each face has at least three corners, all of them vertices; all vertices are on one side of its plane, and those in it are its
    corners: a convex polyhedron.  With [sign] 1 the corners of each face run counterclockwise seen from outside, with -1 clockwise. *)
Definition polyhedron (sign : R) (vs : list vec) (fs : list (list Z)) : Prop :=
  forall f, In f fs -> (forall i, In i f -> (0 <= i < Z.of_nat (length vs))%Z) /\
    exists i j k t u v w, f = i :: j :: k :: t /\
    nth_error vs (Z.to_nat i) = Some u /\ nth_error vs (Z.to_nat j) = Some v /\ nth_error vs (Z.to_nat k) = Some w /\
    forall z, In z vs -> sign * rdot (rnormal u v w) (vsub z u) <= 0 /\
      (rdot (rnormal u v w) (vsub z u) = 0 <-> exists m, In m f /\ nth_error vs (Z.to_nat m) = Some z).

(** ** Angles *)
Lemma cos_max x h : 0 <= h <= PI -> h <= x <= 2 * PI - h -> cos x <= cos h /\ (cos x = cos h -> x = h \/ x = 2 * PI - h).
Proof.
  intros H X. destruct (Rle_lt_dec x PI) as [L|L].
  - split; [apply cos_decr_1; lra|]. intros E. left. apply cos_inj; lra.
  - assert (C : cos x = cos (2 * PI - x)) by (rewrite cos_minus, cos_2PI, sin_2PI; ring). rewrite C. split; [apply cos_decr_1; lra|]. intros E. right. assert (2 * PI - x = h) by (apply cos_inj; lra). lra.
Qed.
Lemma cos_turns x k : cos (x + IZR k * (2 * PI)) = cos x.
Proof.
  destruct (Z_le_gt_dec 0 k) as [K|K].
  - rewrite <- (cos_period x (Z.to_nat k)). f_equal. rewrite INR_IZR_INZ, Z2Nat.id by lia. ring.
  - rewrite <- (cos_period (x + IZR k * (2 * PI)) (Z.to_nat (- k))). f_equal. rewrite INR_IZR_INZ, Z2Nat.id by lia. rewrite opp_IZR. ring.
Qed.
Lemma sin_turns x k : sin (x + IZR k * (2 * PI)) = sin x.
Proof. rewrite <- !cos_shift. replace (PI / 2 - (x + IZR k * (2 * PI))) with (PI / 2 - x + IZR (- k) * (2 * PI)) by (rewrite opp_IZR; ring). apply cos_turns. Qed.
(** n points of a circle, seen from the middle between two of them *)
Lemma circle_side n a : (2 <= n)%Z -> let h := PI / IZR n in cos ((2 * IZR a + 1) * h) <= cos h /\ (cos ((2 * IZR a + 1) * h) = cos h <-> (a mod n = 0 \/ a mod n = n - 1)%Z).
Proof.
  intros N h. pose proof PI_RGT_0 as PP. assert (N2 : 2 <= IZR n) by (apply IZR_le; lia). assert (NH : IZR n * h = PI) by (unfold h; field; lra). assert (H0 : 0 < h) by (unfold h; apply Rdiv_lt_0_compat; lra).
  assert (E : cos ((2 * IZR a + 1) * h) = cos ((2 * IZR (a mod n) + 1) * h)).
  { rewrite <- (cos_turns ((2 * IZR (a mod n) + 1) * h) (a / n)). f_equal. rewrite (Z.div_mod a n) at 1 by lia. rewrite plus_IZR, mult_IZR. rewrite <- NH. ring. }
  rewrite E. assert (B := Z.mod_pos_bound a n ltac:(lia)). set (b := (a mod n)%Z) in *. clearbody b. clear E. assert (B0 : 0 <= IZR b) by (apply IZR_le; lia). assert (B1 : IZR b <= IZR n - 1) by (rewrite <- minus_IZR; apply IZR_le; lia).
  assert (X : h <= (2 * IZR b + 1) * h <= 2 * PI - h) by (rewrite <- NH; split; nra). assert (HP : 0 <= h <= PI) by (rewrite <- NH; split; nra).
  destruct (cos_max _ _ HP X) as (M1 & M2). split; [exact M1|]. split.
  - intros Q. destruct (M2 Q) as [Y|Y]; [left|right]; apply eq_IZR; [|rewrite minus_IZR]; apply (Rmult_eq_reg_r h); try lra; rewrite <- ?NH in Y; nra.
  - intros [-> | ->]; [f_equal; ring|]. rewrite minus_IZR. replace ((2 * (IZR n - 1) + 1) * h) with (- h + IZR 1 * (2 * (IZR n * h))) by ring. rewrite NH, cos_turns. apply cos_neg.
Qed.

(** ** Cylinders and cones *)
Section Round.
  Variables (c : vec) (r l : R) (step n : Z).
  Hypotheses (R0 : 0 < r) (L0 : 0 < l) (S0 : (0 < step)%Z) (SN : (step * n = 360)%Z) (N3 : (3 <= n)%Z).
  Let h := PI / IZR n.
  Lemma h_turn : IZR n * h = PI.
  Proof. unfold h. field. apply not_0_IZR. lia. Qed.
  Lemma h_bounds : 0 < h /\ 3 * h <= PI.
  Proof. pose proof PI_RGT_0. assert (3 <= IZR n) by (apply IZR_le; lia). assert (0 < h) by (unfold h; apply Rdiv_lt_0_compat; lra). split; [assumption|]. rewrite <- h_turn. nra. Qed.
  Lemma angle k : radians (IZR (k * step)) = IZR k * (2 * h).
  Proof. unfold radians. rewrite mult_IZR. assert (E : IZR step * IZR n = 360) by (rewrite <- mult_IZR, SN; reflexivity). assert (IZR n <> 0) by (apply not_0_IZR; lia). unfold h. apply (Rmult_eq_reg_r (IZR n)); [|assumption]. transitivity (IZR k * (IZR step * IZR n) * PI / 180); [field|]. rewrite E. field. assumption. Qed.
  (** the point at the angle k on the lower (false) or upper (true) circle *)
  Definition rim (k : Z) (b : bool) : vec := vadd c (r * cos (IZR k * (2 * h)), r * sin (IZR k * (2 * h)), if b then l / 2 else - (l / 2)).
  Lemma rim_mod k k' b : (k mod n = k' mod n)%Z -> rim k b = rim k' b.
  Proof.
    intros E. assert (D : (k = k' + (k / n - k' / n) * n)%Z) by (rewrite (Z.div_mod k n) at 1 by lia; rewrite (Z.div_mod k' n) at 1 by lia; rewrite E; ring).
    unfold rim. rewrite D at 1 2. replace (IZR (k' + (k / n - k' / n) * n) * (2 * h)) with (IZR k' * (2 * h) + IZR (k / n - k' / n) * (2 * PI)); [now rewrite cos_turns, sin_turns|]. rewrite plus_IZR, (mult_IZR _ n), <- h_turn. ring.
  Qed.
  Lemma rim_same k k' b b' : rim k b = rim k' b' -> b = b' /\ (k mod n = k' mod n)%Z.
  Proof.
    intros E. rewrite (rim_mod k (k mod n) b), (rim_mod k' (k' mod n) b') in E by (now rewrite Z.mod_mod by lia). unfold rim, vadd in E. destruct c as [[cx cy] cz].
    assert (EX : cx + r * cos (IZR (k mod n) * (2 * h)) = cx + r * cos (IZR (k' mod n) * (2 * h))) by congruence. assert (EY : cy + r * sin (IZR (k mod n) * (2 * h)) = cy + r * sin (IZR (k' mod n) * (2 * h))) by congruence.
    assert (EZ : cz + (if b then l / 2 else - (l / 2)) = cz + (if b' then l / 2 else - (l / 2))) by congruence. split; [destruct b, b'; reflexivity || lra|].
    apply Rplus_eq_reg_l in EX, EY. apply Rmult_eq_reg_l in EX, EY; try lra.
    assert (B : forall a, 0 <= IZR (a mod n) * (2 * h) < 2 * PI).
    { intros a. pose proof (Z.mod_pos_bound a n ltac:(lia)) as [B1 B2]. apply IZR_le in B1. apply IZR_lt in B2. pose proof h_bounds. rewrite <- h_turn. split; nra. }
    pose proof (angle_unique _ _ (B k) (B k') EX EY) as U. pose proof h_bounds. apply eq_IZR. apply (Rmult_eq_reg_r (2 * h)); lra.
  Qed.
  Lemma side_dot z A M zz : rdot (rnormal (vadd c (r * cos (A + h), r * sin (A + h), - z)) (vadd c (r * cos (A + h), r * sin (A + h), z)) (vadd c (r * cos (A - h), r * sin (A - h), z)))
      (vsub (vadd c (r * cos M, r * sin M, zz)) (vadd c (r * cos (A + h), r * sin (A + h), - z))) = 4 * z * (r * r) * sin h * (cos (M - A) - cos h).
  Proof.
    destruct c as [[cx cy] cz]. unfold rdot, rnormal, rcross, vsub, vadd. rewrite !cos_plus, !cos_minus, !sin_plus, !sin_minus. pose proof (sin2_cos2 A) as P. unfold Rsqr in P.
    set (sA := sin A) in *. set (cA := cos A) in *. set (sh := sin h). set (ch := cos h). transitivity (4 * z * (r * r) * sh * (cos M * cA + sin M * sA - ch * (sA * sA + cA * cA))); [ring|]. rewrite P. ring.
  Qed.
  Lemma cone_dot z A M : rdot (rnormal (vsub c (0, 0, z)) (vadd c (r * cos (A + h), r * sin (A + h), z)) (vadd c (r * cos (A - h), r * sin (A - h), z)))
      (vsub (vadd c (r * cos M, r * sin M, z)) (vsub c (0, 0, z))) = 4 * z * (r * r) * sin h * (cos (M - A) - cos h).
  Proof.
    destruct c as [[cx cy] cz]. unfold rdot, rnormal, rcross, vsub, vadd. rewrite !cos_plus, !cos_minus, !sin_plus, !sin_minus. pose proof (sin2_cos2 A) as P. unfold Rsqr in P.
    set (sA := sin A) in *. set (cA := cos A) in *. set (sh := sin h). set (ch := cos h). transitivity (4 * z * (r * r) * sh * (cos M * cA + sin M * sA - ch * (sA * sA + cA * cA))); [ring|]. rewrite P. ring.
  Qed.
  Lemma cap_dot A e M z zz : rdot (rnormal (vadd c (r * cos (A - e), r * sin (A - e), z)) (vadd c (r * cos A, r * sin A, z)) (vadd c (r * cos (A + e), r * sin (A + e), z)))
      (vsub (vadd c (r * cos M, r * sin M, zz)) (vadd c (r * cos (A - e), r * sin (A - e), z))) = 2 * (r * r) * sin e * (1 - cos e) * (zz - z).
  Proof.
    destruct c as [[cx cy] cz]. unfold rdot, rnormal, rcross, vsub, vadd. rewrite !cos_plus, !cos_minus, !sin_plus, !sin_minus. pose proof (sin2_cos2 A) as P. unfold Rsqr in P.
    set (sA := sin A) in *. set (cA := cos A) in *. set (se := sin e). set (ce := cos e). transitivity (2 * (r * r) * se * ((sA * sA + cA * cA) - ce * (sA * sA + cA * cA)) * (zz - z)); [ring|]. rewrite P. ring.
  Qed.
  Lemma side_sign k m : let x := 4 * (l / 2) * (r * r) * sin h * (cos (IZR m * (2 * h) - (IZR k * (2 * h) + h)) - cos h) in x <= 0 /\ (x = 0 <-> (m mod n = k mod n \/ m mod n = (k + 1) mod n)%Z).
  Proof.
    cbv zeta. replace (IZR m * (2 * h) - (IZR k * (2 * h) + h)) with ((2 * IZR (m - k - 1) + 1) * h) by (rewrite !minus_IZR; ring). destruct (circle_side n (m - k - 1) ltac:(lia)) as (C1 & C2). fold h in C1, C2.
    pose proof h_bounds as (H0 & H1). pose proof PI_RGT_0. assert (SH : 0 < sin h) by (apply sin_gt_0; lra). assert (K : 0 < 4 * (l / 2) * (r * r) * sin h) by (repeat apply Rmult_lt_0_compat; lra). split; [rewrite <- (Rmult_0_r (4 * (l / 2) * (r * r) * sin h)); apply Rmult_le_compat_l; lra|].
    split.
    - intros X. apply Rmult_integral in X. destruct X as [X|X]; [lra|]. assert (Y : (((m - k - 1) mod n = 0) \/ ((m - k - 1) mod n = n - 1))%Z) by (apply C2; lra).
      assert (D := Z.div_mod (m - k - 1) n ltac:(lia)). set (q := ((m - k - 1) / n)%Z) in *. destruct Y as [Y|Y]; rewrite Y in D; [right|left].
      + replace m with (k + 1 + q * n)%Z by lia. now rewrite Z.mod_add by lia.
      + replace m with (k + (q + 1) * n)%Z by lia. now rewrite Z.mod_add by lia.
    - intros Y. assert (Q : cos ((2 * IZR (m - k - 1) + 1) * h) = cos h); [|rewrite Q; ring]. apply C2.
      assert (Dm := Z.div_mod m n ltac:(lia)). destruct Y as [Y|Y]; rewrite Y in Dm; [right|left].
      + assert (Dk := Z.div_mod k n ltac:(lia)). symmetry. apply (Z.mod_unique_pos _ _ (m / n - k / n - 1)); [lia|]. lia.
      + assert (Dk := Z.div_mod (k + 1) n ltac:(lia)). symmetry. apply (Z.mod_unique_pos _ _ (m / n - (k + 1) / n)); [lia|]. lia.
  Qed.
  Lemma cap_pos : 0 < 2 * (r * r) * sin (2 * h) * (1 - cos (2 * h)).
  Proof.
    pose proof h_bounds as (H0 & H1). pose proof PI_RGT_0. assert (SH : 0 < sin (2 * h)) by (apply sin_gt_0; lra). assert (cos (2 * h) < cos 0) by (apply cos_decreasing_1; lra). rewrite cos_0 in *. repeat apply Rmult_lt_0_compat; lra.
  Qed.
End Round.
Lemma nth_error_of {A} (l : list A) i d x : (i < length l)%nat -> nth i l d = x -> nth_error l i = Some x.
Proof. intros H <-. now apply nth_error_nth'. Qed.
(** A cylinder of a step that divides 360 is a convex prism without border, its faces counterclockwise; vertices that are at the same place have the same
    number [pos]. *)
Theorem C142_cylinder : forall vcen r l step n, 0 < r -> 0 < l -> (0 < step)%Z -> (step * n = 360)%Z -> (3 <= n)%Z ->
  exists vs fs pos, cylindervertandsurface vcen r l step = Ok (vs, fs) /\ polyhedron 1 vs fs /\
    Z.of_nat (length fs) = (n + 2)%Z /\ Z.of_nat (length vs) = (2 * n + 4)%Z /\
    (forall i j, (0 <= i < 2 * n + 4)%Z -> (0 <= j < 2 * n + 4)%Z -> (pos i = pos j <-> nth_error vs (Z.to_nat i) = nth_error vs (Z.to_nat j))) /\
    closed (map (map pos) fs).
Proof.
  intros c r l step n R0 L0 S0 SN N3. destruct (C130_cylinder c r l step S0) as (cnt & vs & E & LV & _ & PV & PQ). destruct (PQ n) as (CN & _); [lia|]. clear PQ.
  destruct (C111_cylinder step n (fun i => i mod (2 * n))%Z S0 SN) as (fs & F & CL & LF & _). { intros i I. replace (i + 2 * n)%Z with (i + 1 * (2 * n))%Z by lia. apply Z.mod_add. lia. }
  pose proof (cylinder_run step n S0 SN) as FR. rewrite F in FR. apply ok_inj in FR.
  set (P := rim c r l n). assert (LZ : Z.of_nat (length vs) = (2 * n + 4)%Z) by (rewrite LV, CN; lia).
  assert (NE : forall k (b : bool), (0 <= k < n + 2)%Z -> nth_error vs (Z.to_nat (2 * k + if b then 1 else 0)) = Some (P k b)).
  { intros k b K. destruct (PV (Z.to_nat k) ltac:(lia)) as (A & B). rewrite !Z2Nat.id in A, B by lia. rewrite (angle step n SN N3) in A, B. unfold P, rim. destruct b.
    - replace (Z.to_nat (2 * k + 1)) with (2 * Z.to_nat k + 1)%nat by lia. apply (@nth_error_of vec _ _ (0, 0, 0)); [lia|exact B].
    - replace (Z.to_nat (2 * k + 0)) with (2 * Z.to_nat k)%nat by lia. apply (@nth_error_of vec _ _ (0, 0, 0)); [lia|exact A]. }
  assert (SPL : forall i, (0 <= i < 2 * n + 4)%Z -> exists k (b : bool), (0 <= k < n + 2)%Z /\ i = (2 * k + if b then 1 else 0)%Z).
  { intros i I. exists (i / 2)%Z, (Z.odd i). pose proof (Zmod_odd i) as O. pose proof (Z.div_mod i 2 ltac:(lia)). rewrite O in *. destruct (Z.odd i); split; lia. }
  assert (INV : forall z, In z vs -> exists k b, (0 <= k < n + 2)%Z /\ z = P k b).
  { intros z Z0. apply In_nth_error in Z0. destruct Z0 as (i & I). assert (IL : (i < length vs)%nat) by (apply nth_error_Some; congruence). destruct (SPL (Z.of_nat i) ltac:(lia)) as (k & b & K & EI). exists k, b. split; [exact K|].
    rewrite <- (Nat2Z.id i), EI, NE in I by exact K. congruence. }
  exists vs, fs, (fun i => i mod (2 * n))%Z. split; [unfold cylindervertandsurface; rewrite E; cbn [rbind]; rewrite F; reflexivity|]. split; [|split; [exact LF|split; [exact LZ|split; [|exact CL]]]].
  - intros f Hf. rewrite FR in Hf. apply in_app_or in Hf. destruct Hf as [[<-|[]]|Hf]; [|apply in_app_or in Hf; destruct Hf as [Hf|[<-|[]]]].
    + split; [intros i I; apply in_rev in I; apply in_map_iff in I; destruct I as (k & <- & K); apply in_range in K; lia|].
      assert (RV : exists t, rev (map (fun k => 2 * k)%Z (range 0 (n + 2))) = (2 * (n + 1) :: 2 * n :: 2 * (n - 1) :: t)%Z).
      { replace (n + 2)%Z with (n - 1 + 1 + 1 + 1)%Z by lia. rewrite !range_snoc by lia. rewrite !map_app, !rev_app_distr. exists (rev (map (fun k => 2 * k)%Z (range 0 (n - 1)))). cbn [map rev app]. now replace (n - 1 + 1 + 1)%Z with (n + 1)%Z by lia; replace (n - 1 + 1)%Z with n by lia. }
      destruct RV as (t & RV). rewrite RV. exists (2 * (n + 1))%Z, (2 * n)%Z, (2 * (n - 1))%Z, t, (P (n + 1)%Z false), (P n false), (P (n - 1)%Z false). split; [reflexivity|].
      pose proof (NE (n + 1)%Z false ltac:(lia)) as N1. pose proof (NE n false ltac:(lia)) as N2. pose proof (NE (n - 1)%Z false ltac:(lia)) as N4. rewrite Z.add_0_r in N1, N2, N4. split; [exact N1|]. split; [exact N2|]. split; [exact N4|].
      intros z Z0. destruct (INV z Z0) as (m & b & M & ->).
      assert (D : rdot (rnormal (P (n + 1)%Z false) (P n false) (P (n - 1)%Z false)) (vsub (P m b) (P (n + 1)%Z false)) = - (2 * (r * r) * sin (2 * (PI / IZR n)) * (1 - cos (2 * (PI / IZR n)))) * ((if b then l / 2 else - (l / 2)) - - (l / 2))).
      { unfold P, rim. set (h := PI / IZR n). pose proof (cap_dot c r (IZR n * (2 * h)) (- (2 * h)) (IZR m * (2 * h)) (- (l / 2)) (if b then l / 2 else - (l / 2))) as CD. rewrite sin_neg, cos_neg in CD.
        replace (IZR n * (2 * h) - - (2 * h)) with (IZR (n + 1) * (2 * h)) in CD by (rewrite plus_IZR; ring). replace (IZR n * (2 * h) + - (2 * h)) with (IZR (n - 1) * (2 * h)) in CD by (rewrite minus_IZR; ring). rewrite CD. ring. }
      rewrite D. pose proof (cap_pos r n R0 N3) as CP. cbv zeta in CP. set (K := 2 * (r * r) * sin (2 * (PI / IZR n)) * (1 - cos (2 * (PI / IZR n)))) in *. clearbody K. split; [destruct b; nra|]. split.
      * intros X. destruct b; [exfalso; nra|]. exists (2 * m + 0)%Z. split; [|exact (NE m false M)]. rewrite <- RV, <- in_rev. apply in_map_iff. exists m. split; [lia|apply in_range; lia].
      * intros (i & I & EI). rewrite <- RV, <- in_rev in I. apply in_map_iff in I. destruct I as (k & <- & K'). apply in_range in K'. pose proof (NE k false ltac:(lia)) as NK. rewrite Z.add_0_r in NK. rewrite NK in EI.
        assert (Q : P k false = P m b) by congruence. apply (rim_same c r l n R0 L0 N3) in Q. destruct Q as (<- & _). ring.
    + apply in_map_iff in Hf. destruct Hf as (k & <- & K). apply in_range in K. split; [intros i I; cbn [In] in I; lia|].
      exists (2 * (k + 1))%Z, (2 * (k + 1) + 1)%Z, (2 * k + 1)%Z, [2 * k]%Z, (P (k + 1)%Z false), (P (k + 1)%Z true), (P k true). split; [reflexivity|].
      pose proof (NE (k + 1)%Z false ltac:(lia)) as N1. rewrite Z.add_0_r in N1. pose proof (NE k false ltac:(lia)) as N4. rewrite Z.add_0_r in N4. pose proof (NE (k + 1)%Z true ltac:(lia)) as N2. pose proof (NE k true ltac:(lia)) as N5. split; [exact N1|]. split; [exact N2|]. split; [exact N5|].
      intros z Z0. destruct (INV z Z0) as (m & b & M & ->).
      assert (D : rdot (rnormal (P (k + 1)%Z false) (P (k + 1)%Z true) (P k true)) (vsub (P m b) (P (k + 1)%Z false)) = 4 * (l / 2) * (r * r) * sin (PI / IZR n) * (cos (IZR m * (2 * (PI / IZR n)) - (IZR k * (2 * (PI / IZR n)) + PI / IZR n)) - cos (PI / IZR n))).
      { unfold P, rim. set (h := PI / IZR n). pose proof (side_dot c r n (l / 2) (IZR k * (2 * h) + h) (IZR m * (2 * h)) (if b then l / 2 else - (l / 2))) as CD. fold h in CD.
        replace (IZR k * (2 * h) + h + h) with (IZR (k + 1) * (2 * h)) in CD by (rewrite plus_IZR; ring). replace (IZR k * (2 * h) + h - h) with (IZR k * (2 * h)) in CD by ring. exact CD. }
      rewrite D. destruct (side_sign r l n R0 L0 N3 k m) as (S1 & S2). split; [rewrite Rmult_1_l; exact S1|]. rewrite S2. split.
      * intros [Q|Q]; rewrite (rim_mod c r l n N3 _ _ b Q : P m b = P _ b); destruct b; eexists; (split; [|eassumption]); cbn [In]; auto.
      * intros (i & I & EI). cbn [In] in I. destruct I as [<-|[<-|[<-|[<-|[]]]]]; cbv beta iota in N2, N5; first [rewrite N1 in EI|rewrite N2 in EI|rewrite N5 in EI|rewrite N4 in EI];
          injection EI as EI; apply (rim_same c r l n R0 L0 N3) in EI; destruct EI as (_ & EI); rewrite <- EI; auto.
    + split; [intros i I; apply in_map_iff in I; destruct I as (k & <- & K); apply in_range in K; lia|].
      assert (RV : exists t, map (fun k => 2 * k + 1)%Z (range 0 (n + 2)) = (2 * 0 + 1 :: 2 * 1 + 1 :: 2 * 2 + 1 :: t)%Z).
      { rewrite (range_cons 0), (range_cons (0 + 1)), (range_cons (0 + 1 + 1)) by lia. eexists. reflexivity. }
      destruct RV as (t & RV). rewrite RV. exists (2 * 0 + 1)%Z, (2 * 1 + 1)%Z, (2 * 2 + 1)%Z, t, (P 0%Z true), (P 1%Z true), (P 2%Z true). split; [reflexivity|].
      split; [exact (NE 0%Z true ltac:(lia))|]. split; [exact (NE 1%Z true ltac:(lia))|]. split; [exact (NE 2%Z true ltac:(lia))|].
      intros z Z0. destruct (INV z Z0) as (m & b & M & ->).
      assert (D : rdot (rnormal (P 0%Z true) (P 1%Z true) (P 2%Z true)) (vsub (P m b) (P 0%Z true)) = 2 * (r * r) * sin (2 * (PI / IZR n)) * (1 - cos (2 * (PI / IZR n))) * ((if b then l / 2 else - (l / 2)) - l / 2)).
      { unfold P, rim. set (h := PI / IZR n). pose proof (cap_dot c r (1 * (2 * h)) (2 * h) (IZR m * (2 * h)) (l / 2) (if b then l / 2 else - (l / 2))) as CD.
        replace (1 * (2 * h) - 2 * h) with (0 * (2 * h)) in CD by ring. replace (1 * (2 * h) + 2 * h) with (2 * (2 * h)) in CD by ring. exact CD. }
      rewrite D. pose proof (cap_pos r n R0 N3) as CP. cbv zeta in CP. set (K := 2 * (r * r) * sin (2 * (PI / IZR n)) * (1 - cos (2 * (PI / IZR n)))) in *. clearbody K. split; [destruct b; nra|]. split.
      * intros X. destruct b; [|exfalso; nra]. exists (2 * m + 1)%Z. split; [|apply (NE m true); exact M]. rewrite <- RV. apply in_map_iff. exists m. split; [lia|apply in_range; lia].
      * intros (i & I & EI). rewrite <- RV in I. apply in_map_iff in I. destruct I as (k & <- & K'). apply in_range in K'. pose proof (NE k true ltac:(lia)) as NK. cbv beta iota in NK. rewrite NK in EI.
        assert (Q : P k true = P m b) by congruence. apply (rim_same c r l n R0 L0 N3) in Q. destruct Q as (<- & _). ring.
  - intros i j I J. destruct (SPL i I) as (k & b & K & EI), (SPL j J) as (k' & b' & K' & EJ). rewrite EI at 2. rewrite EJ at 2. rewrite !NE by assumption.
    assert (MD : forall a (d : bool), ((2 * a + if d then 1 else 0) mod (2 * n) = 2 * (a mod n) + if d then 1 else 0)%Z).
    { intros a d. symmetry. pose proof (Z.mod_pos_bound a n ltac:(lia)). apply (Z.mod_unique_pos _ _ (a / n)); [destruct d; lia|]. pose proof (Z.div_mod a n ltac:(lia)). lia. }
    rewrite EI, EJ, !MD. split.
    + intros Q. assert (B : b = b' /\ (k mod n = k' mod n)%Z) by (destruct b, b'; split; reflexivity || lia). destruct B as (<- & B). f_equal. now apply rim_mod.
    + intros Q. assert (Q' : P k b = P k' b') by congruence. apply (rim_same c r l n R0 L0 N3) in Q'. destruct Q' as (<- & ->). reflexivity.
Qed.
(** ... and a cone a convex pyramid. *)
Theorem C142_cone : forall vcen r l step n, 0 < r -> 0 < l -> (0 < step)%Z -> (step * n = 360)%Z -> (3 <= n)%Z ->
  exists vs fs pos, conevertandsurface vcen r l step = Ok (vs, fs) /\ polyhedron 1 vs fs /\
    Z.of_nat (length fs) = (n + 1)%Z /\ Z.of_nat (length vs) = (n + 3)%Z /\
    (forall i j, (0 <= i < n + 3)%Z -> (0 <= j < n + 3)%Z -> (pos i = pos j <-> nth_error vs (Z.to_nat i) = nth_error vs (Z.to_nat j))) /\
    closed (map (map pos) fs).
Proof.
  intros c r l step n R0 L0 S0 SN N3. destruct (C130_cone c r l step S0) as (cnt & ring & E & LV & CK & PV).
  assert (CN : cnt = Z.to_nat (n + 2)).
  { pose proof (CK (Z.to_nat (n + 1))) as A. pose proof (CK (Z.to_nat (n + 2))) as B. rewrite Z2Nat.id in A, B by lia. destruct A as (_ & A). destruct B as (B & _). specialize (A ltac:(nia)).
    destruct (le_lt_dec cnt (Z.to_nat (n + 2))) as [L|L]; [lia|]. specialize (B L). nia. }
  set (pos := fun i => (if i =? 0 then -1 else (i - 1) mod n)%Z).
  destruct (C111_cone step n pos S0 SN) as (fs & F & CL & LF & _).
  { intros i I. unfold pos. destruct (Z.eqb_spec (i + n) 0); [lia|]. destruct (Z.eqb_spec i 0); [lia|]. replace (i + n - 1)%Z with (i - 1 + 1 * n)%Z by lia. apply Z.mod_add. lia. }
  pose proof (cone_run step n S0 SN) as FR. rewrite F in FR. apply ok_inj in FR.
  set (P := fun k => rim c r l n k true). set (vs := vsub c (0, 0, l / 2) :: ring) in *. assert (LZ : Z.of_nat (length vs) = (n + 3)%Z) by (unfold vs; cbn [length]; lia).
  assert (NE : forall k, (0 <= k < n + 2)%Z -> nth_error vs (Z.to_nat (k + 1)) = Some (P k)).
  { intros k K. pose proof (PV (Z.to_nat k) ltac:(lia)) as A. cbv zeta in A. rewrite Z2Nat.id in A by lia. rewrite (angle step n SN N3) in A. unfold P, rim. replace (Z.to_nat (k + 1)) with (Datatypes.S (Z.to_nat k)) by lia. apply (@nth_error_of vec _ _ (0, 0, 0)); [unfold vs; cbn [length]; lia|exact A]. }
  assert (N0 : nth_error vs (Z.to_nat 0) = Some (vsub c (0, 0, l / 2))) by reflexivity.
  assert (INV : forall z, In z vs -> z = vsub c (0, 0, l / 2) \/ exists k, (0 <= k < n + 2)%Z /\ z = P k).
  { intros z Z0. apply In_nth_error in Z0. destruct Z0 as (i & I). assert (IL : (i < length vs)%nat) by (apply nth_error_Some; congruence). destruct i as [|i]; [left; cbn in I; congruence|]. right. exists (Z.of_nat i). split; [lia|].
    pose proof (NE (Z.of_nat i) ltac:(lia)) as Q. replace (Z.to_nat (Z.of_nat i + 1)) with (Datatypes.S i) in Q by lia. congruence. }
  assert (AP : forall k, P k <> vsub c (0, 0, l / 2)).
  { intros k Q. unfold P, rim in Q. destruct c as [[cx cy] cz]. unfold vadd, vsub in Q. assert (cz + l / 2 = cz - l / 2) by congruence. lra. }
  exists vs, fs, pos. split; [unfold conevertandsurface; rewrite E; cbn [rbind]; rewrite F; reflexivity|]. split; [|split; [exact LF|split; [exact LZ|split; [|exact CL]]]].
  - intros f Hf. rewrite FR in Hf. apply in_app_or in Hf. destruct Hf as [Hf|[<-|[]]].
    + apply in_map_iff in Hf. destruct Hf as (k' & <- & K). apply in_range in K. assert (Ek : exists k, k' = (k + 1)%Z) by (exists (k' - 1)%Z; lia). destruct Ek as (k & ->). split; [intros i I; cbn [In] in I; lia|].
      exists 0%Z, (k + 1 + 1)%Z, (k + 1)%Z, [], (vsub c (0, 0, l / 2)), (P (k + 1)%Z), (P k). split; [reflexivity|]. split; [exact N0|].
      pose proof (NE (k + 1)%Z ltac:(lia)) as N1. pose proof (NE k ltac:(lia)) as N2. split; [exact N1|]. split; [exact N2|]. intros z Z0. destruct (INV z Z0) as [->|(m & M & ->)].
      * assert (D : forall N u, rdot N (vsub u u) = 0) by (intros [[a b] d] [[x y] w]; unfold rdot, vsub; ring). rewrite !D. split; [lra|]. split; [|intros _; reflexivity]. intros _. exists 0%Z. split; [now left|exact N0].
      * assert (D : rdot (rnormal (vsub c (0, 0, l / 2)) (P (k + 1)%Z) (P k)) (vsub (P m) (vsub c (0, 0, l / 2))) = 4 * (l / 2) * (r * r) * sin (PI / IZR n) * (cos (IZR m * (2 * (PI / IZR n)) - (IZR k * (2 * (PI / IZR n)) + PI / IZR n)) - cos (PI / IZR n))).
        { unfold P, rim. set (h := PI / IZR n). pose proof (cone_dot c r n (l / 2) (IZR k * (2 * h) + h) (IZR m * (2 * h))) as CD. fold h in CD.
          replace (IZR k * (2 * h) + h + h) with (IZR (k + 1) * (2 * h)) in CD by (rewrite plus_IZR; ring). replace (IZR k * (2 * h) + h - h) with (IZR k * (2 * h)) in CD by ring. exact CD. }
        rewrite D. destruct (side_sign r l n R0 L0 N3 k m) as (S1 & S2). split; [rewrite Rmult_1_l; exact S1|]. rewrite S2. split.
        -- intros [Q|Q]; rewrite (rim_mod c r l n N3 _ _ true Q : P m = P _); eexists; (split; [|eassumption]); cbn [In]; auto.
        -- intros (i & I & EI). cbn [In] in I. destruct I as [<-|[<-|[<-|[]]]]; [rewrite N0 in EI; exfalso; apply (AP m); congruence| |]; first [rewrite N1 in EI|rewrite N2 in EI]; injection EI as EI; apply (rim_same c r l n R0 L0 N3) in EI; destruct EI as (_ & EI); rewrite <- EI; auto.
    + split; [intros i I; apply in_range in I; lia|].
      assert (RV : exists t, range 1 (n + 3) = (0 + 1 :: 1 + 1 :: 2 + 1 :: t)%Z) by (rewrite (range_cons 1), (range_cons (1 + 1)), (range_cons (1 + 1 + 1)) by lia; eexists; reflexivity).
      destruct RV as (t & RV). rewrite RV. exists (0 + 1)%Z, (1 + 1)%Z, (2 + 1)%Z, t, (P 0%Z), (P 1%Z), (P 2%Z). split; [reflexivity|].
      split; [exact (NE 0%Z ltac:(lia))|]. split; [exact (NE 1%Z ltac:(lia))|]. split; [exact (NE 2%Z ltac:(lia))|].
      pose proof (cap_pos r n R0 N3) as CP. set (K := 2 * (r * r) * sin (2 * (PI / IZR n)) * (1 - cos (2 * (PI / IZR n)))) in *.
      assert (D : forall x y zz, rdot (rnormal (P 0%Z) (P 1%Z) (P 2%Z)) (vsub (vadd c (x, y, zz)) (P 0%Z)) = K * (zz - l / 2)).
      { intros x y zz. unfold P, rim. set (h := PI / IZR n). pose proof (cap_dot c r (1 * (2 * h)) (2 * h) (1 * (2 * h)) (l / 2) zz) as CD. fold h in K. fold K in CD.
        replace (1 * (2 * h) - 2 * h) with (0 * (2 * h)) in CD by ring. replace (1 * (2 * h) + 2 * h) with (2 * (2 * h)) in CD by ring. rewrite <- CD. destruct c as [[cx cy] cz]. unfold rdot, rnormal, rcross, vsub, vadd. ring. }
      intros z Z0. destruct (INV z Z0) as [->|(m & M & ->)].
      * replace (vsub c (0, 0, l / 2)) with (vadd c (0, 0, - (l / 2))) by (destruct c as [[cx cy] cz]; unfold vsub, vadd; apply f_equal2; [apply f_equal2|]; ring). rewrite D. clearbody K. split; [nra|]. split; [intros X; exfalso; nra|].
        intros (i & I & EI). exfalso. rewrite <- RV in I. apply in_range in I. pose proof (NE (i - 1)%Z ltac:(lia)) as Q. replace (i - 1 + 1)%Z with i in Q by lia. rewrite Q in EI. apply (AP (i - 1)%Z). injection EI as ->. destruct c as [[cx cy] cz]; unfold vsub, vadd; apply f_equal2; [apply f_equal2|]; ring.
      * rewrite (eq_refl : P m = vadd c (r * cos (IZR m * (2 * (PI / IZR n))), r * sin (IZR m * (2 * (PI / IZR n))), l / 2)) at 1 2. rewrite D. replace (l / 2 - l / 2) with 0 by ring. rewrite Rmult_0_r. split; [lra|]. split; [|reflexivity]. intros _. exists (m + 1)%Z. split; [rewrite <- RV; apply in_range; lia|exact (NE m M)].
  - intros i j I J. unfold pos. assert (AT : forall a, (0 <= a < n + 3)%Z -> a <> 0%Z -> nth_error vs (Z.to_nat a) = Some (P (a - 1)%Z)) by (intros a A A0; rewrite <- (NE (a - 1)%Z) by lia; do 2 f_equal; lia).
    destruct (Z.eqb_spec i 0) as [->|I0], (Z.eqb_spec j 0) as [->|J0]; [tauto| | |].
    + rewrite N0, (AT j J J0). pose proof (Z.mod_pos_bound (j - 1) n ltac:(lia)). split; [lia|]. intros Q. exfalso. apply (AP (j - 1)%Z). congruence.
    + rewrite N0, (AT i I I0). pose proof (Z.mod_pos_bound (i - 1) n ltac:(lia)). split; [lia|]. intros Q. exfalso. apply (AP (i - 1)%Z). congruence.
    + rewrite (AT i I I0), (AT j J J0). split; [intros Q; f_equal; now apply rim_mod|]. intros Q. injection Q as Q. now apply (rim_same c r l n R0 L0 N3) in Q.
Qed.

(** ** Spheres *)
Lemma addp_new acc p : ~ In p acc -> addp acc p = acc ++ [p].
Proof. intros H. unfold addp. destruct (existsb (veq p) acc) eqn:E; [|reflexivity]. apply existsb_exists in E. destruct E as (w & W & E). apply veq_iff in E. subst w. contradiction. Qed.
Lemma addp_old acc p : In p acc -> addp acc p = acc.
Proof. intros H. unfold addp. replace (existsb (veq p) acc) with true; [reflexivity|]. symmetry. apply existsb_exists. exists p. split; [exact H|now apply veq_iff]. Qed.
Lemma addp_list l : forall acc, NoDup (acc ++ l) -> fold_left addp l acc = acc ++ l.
Proof.
  induction l as [|p l IH]; intros acc N; [now rewrite app_nil_r|]. cbn [fold_left]. rewrite addp_new by (apply NoDup_remove_2 in N; intros H; apply N, in_or_app; now left). rewrite IH; rewrite <- app_assoc; [reflexivity|exact N].
Qed.
Lemma nodup_left {A} (l m : list A) : NoDup (l ++ m) -> NoDup l.
Proof. induction m as [|a m IH] using rev_ind; [now rewrite app_nil_r|]. rewrite app_assoc. intros N. apply IH. apply NoDup_remove_1 in N. now rewrite app_nil_r in N. Qed.
Lemma addp_rows {T} (p : vec) (G : T -> list vec) ts : forall acc, In p acc -> NoDup (acc ++ flat_map G ts) -> fold_left addp (flat_map (fun t => p :: G t) ts) acc = acc ++ flat_map G ts.
Proof.
  induction ts as [|t ts IH]; intros acc I N; [cbn; now rewrite app_nil_r|]. cbn [flat_map] in *. rewrite fold_left_app. cbn [fold_left]. rewrite addp_old by exact I. rewrite app_assoc in N.
  rewrite (addp_list (G t)) by (eapply nodup_left; exact N). rewrite IH; [now rewrite app_assoc|apply in_or_app; now left|exact N].
Qed.
Lemma indexof_nth vs : forall i p, NoDup vs -> nth_error vs i = Some p -> indexof veq vs p = Z.of_nat i.
Proof.
  induction vs as [|v vs IH]; intros i p N E; [destruct i; discriminate|]. cbn [indexof]. inversion N as [|? ? N1 N2]. subst. destruct i as [|i]; cbn [nth_error] in E.
  - injection E as ->. now rewrite (proj2 (veq_iff p p) eq_refl).
  - destruct (veq v p) eqn:Q; [apply veq_iff in Q; subst v; exfalso; apply N1; now apply nth_error_In in E|]. rewrite (IH i p N2 E). lia.
Qed.
Lemma nth_grid {A} (g : Z -> Z -> A) q t k : forall N, (0 <= N)%Z -> (0 <= t < N)%Z -> (1 <= k < q)%Z -> nth_error (flat_map (fun t => map (g t) (range 1 q)) (range 0 N)) (Z.to_nat (t * (q - 1) + (k - 1))) = Some (g t k).
Proof.
  intros N N0. pattern N. apply natlike_ind; [lia| |exact N0]. clear N N0. intros N N0 IH T K. unfold Z.succ. rewrite range_snoc, flat_map_app by lia. cbn [flat_map]. rewrite app_nil_r.
  assert (L : forall M, (0 <= M)%Z -> Z.of_nat (length (flat_map (fun t => map (g t) (range 1 q)) (range 0 M))) = (M * (q - 1))%Z).
  { intros M M0. pattern M. apply natlike_ind; [reflexivity| |exact M0]. intros x X E. unfold Z.succ. rewrite range_snoc, flat_map_app by lia. cbn [flat_map]. rewrite app_nil_r, app_length, map_length, Nat2Z.inj_add, E. pose proof (zlen_range 1 q) as Z1. unfold zlen in Z1. rewrite Z1. nia. }
  specialize (L N N0). destruct (Z.eq_dec t N) as [->|NE].
  - rewrite nth_error_app2 by lia. rewrite nth_error_map. replace (Z.to_nat (N * (q - 1) + (k - 1)) - length (flat_map (fun t => map (g t) (range 1 q)) (range 0 N)))%nat with (Z.to_nat (k - 1)) by nia.
    unfold range. rewrite nth_error_map. rewrite (nth_error_nth' _ 0%nat) by (rewrite seq_length; lia). rewrite seq_nth by lia. cbn [option_map]. do 2 f_equal. lia.
  - rewrite nth_error_app1 by nia. apply IH; lia.
Qed.
Lemma grid_length {A} (g : Z -> Z -> A) q N : (0 <= N)%Z -> (1 <= q)%Z -> Z.of_nat (length (flat_map (fun t => map (g t) (range 1 q)) (range 0 N))) = (N * (q - 1))%Z.
Proof.
  intros M0 Q. pattern N. apply natlike_ind; [reflexivity| |exact M0]. intros x X E. unfold Z.succ. rewrite range_snoc, flat_map_app by lia. cbn [flat_map]. rewrite app_nil_r, app_length, map_length, Nat2Z.inj_add, E. pose proof (zlen_range 1 q) as Z1. unfold zlen in Z1. rewrite Z1. nia.
Qed.
(** *** levels *)
Definition put (o : list (R * list Z)) (zi : R * Z) : list (R * list Z) := raddlevel (fst zi) (snd zi) o.
Lemma put_new z i : forall o, ~ In z (map fst o) -> raddlevel z i o = o ++ [(z, [i])].
Proof.
  induction o as [|[z' l] o IH]; intros H; [reflexivity|]. cbn [raddlevel]. destruct (req z' z) eqn:E; [apply req_iff in E; exfalso; apply H; left; exact E|]. cbn [app]. f_equal. apply IH. intros I. apply H. now right.
Qed.
Lemma put_old z i l b : forall a, ~ In z (map fst a) -> raddlevel z i (a ++ (z, l) :: b) = a ++ (z, l ++ [i]) :: b.
Proof.
  induction a as [|[z' l'] a IH]; intros H; cbn [app raddlevel]; [now rewrite (proj2 (req_iff z z) eq_refl)|]. destruct (req z' z) eqn:E; [apply req_iff in E; exfalso; apply H; left; exact E|]. f_equal. apply IH. intros I. apply H. now right.
Qed.
Lemma row_new (zk : Z -> R) (i : Z -> Z) ks : forall o, NoDup (map fst o ++ map zk ks) -> fold_left put (map (fun k => (zk k, i k)) ks) o = o ++ map (fun k => (zk k, [i k])) ks.
Proof.
  induction ks as [|k ks IH]; intros o N; [cbn; now rewrite app_nil_r|]. cbn [map fold_left]. unfold put at 2. cbn [fst snd map] in *. rewrite put_new by (apply NoDup_remove_2 in N; intros H; apply N, in_or_app; now left).
  rewrite IH; [now rewrite <- app_assoc|]. rewrite map_app, <- app_assoc. exact N.
Qed.
Lemma row_old (zk : Z -> R) (i : Z -> Z) (L : Z -> list Z) ks : forall o, NoDup (map fst o ++ map zk ks) ->
  fold_left put (map (fun k => (zk k, i k)) ks) (o ++ map (fun k => (zk k, L k)) ks) = o ++ map (fun k => (zk k, L k ++ [i k])) ks.
Proof.
  induction ks as [|k ks IH]; intros o N; [reflexivity|]. cbn [map fold_left]. unfold put at 2. cbn [fst snd map] in *. rewrite put_old by (apply NoDup_remove_2 in N; intros H; apply N, in_or_app; now left).
  replace (o ++ (zk k, L k ++ [i k]) :: map (fun k => (zk k, L k)) ks) with ((o ++ [(zk k, L k ++ [i k])]) ++ map (fun k => (zk k, L k)) ks) by (now rewrite <- app_assoc). rewrite IH; [now rewrite <- app_assoc|]. rewrite map_app, <- app_assoc. exact N.
Qed.
Lemma rows (zk : Z -> R) (idx : Z -> Z -> Z) ks o N : (1 <= N)%Z -> NoDup (map fst o ++ map zk ks) ->
  fold_left put (flat_map (fun t => map (fun k => (zk k, idx t k)) ks) (range 0 N)) o = o ++ map (fun k => (zk k, map (fun t => idx t k) (range 0 N))) ks.
Proof.
  intros N1 ND. replace N with (N - 1 + 1)%Z by lia. assert (M0 : (0 <= N - 1)%Z) by lia. generalize dependent (N - 1)%Z. clear N1 N. intros M M0. pattern M. apply natlike_ind; [| |exact M0].
  - rewrite (range_cons 0) by lia. change (range (0 + 1) (0 + 1)) with (@nil Z). cbn [flat_map map]. rewrite app_nil_r. now apply row_new.
  - intros x X E. unfold Z.succ. rewrite (range_snoc 0 (x + 1)) by lia. rewrite flat_map_app, fold_left_app, E. cbn [flat_map]. rewrite app_nil_r, row_old by exact ND. f_equal. apply map_ext. intros k. now rewrite map_app.
Qed.
(** *** geometry *)
Definition vscale (x : R) (v : vec) : vec := let '(a, b, c) := v in (x * a, x * b, x * c).
Definition sp (r theta phi : R) : vec := (r * sin phi * cos theta, r * sin phi * sin theta, r * cos phi).
Definition outer (A m h : R) : vec := (sin m * cos A, sin m * sin A, cos h * cos m).
Lemma normal_turn u v w : rnormal u v w = rnormal v w u.
Proof. destruct u as [[a b] c], v as [[d e] f], w as [[x y] z]. unfold rnormal, rcross, vsub. apply f_equal2; [apply f_equal2|]; ring. Qed.
Lemma normal_low r A m h : rnormal (sp r (A + h) (m + h)) (sp r (A - h) (m + h)) (sp r (A - h) (m - h)) = vscale (- (4 * (r * r) * sin (m + h) * (sin h * sin h))) (outer A m h).
Proof.
  unfold rnormal, rcross, vsub, vscale, outer, sp. rewrite !sin_plus, !cos_plus, !sin_minus, !cos_minus. pose proof (sin2_cos2 A) as P. unfold Rsqr in P.
  set (sA := sin A) in *. set (cA := cos A) in *. set (sh := sin h). set (ch := cos h). set (sm := sin m). set (cm := cos m). apply f_equal2; [apply f_equal2; ring|].
  transitivity (- (4 * (r * r) * (sm * ch + cm * sh) * (sh * sh)) * (ch * cm) * (sA * sA + cA * cA)); [ring|]. rewrite P. ring.
Qed.
Lemma normal_high r A m h : rnormal (sp r (A - h) (m - h)) (sp r (A + h) (m - h)) (sp r (A + h) (m + h)) = vscale (- (4 * (r * r) * sin (m - h) * (sin h * sin h))) (outer A m h).
Proof.
  unfold rnormal, rcross, vsub, vscale, outer, sp. rewrite !sin_plus, !cos_plus, !sin_minus, !cos_minus. pose proof (sin2_cos2 A) as P. unfold Rsqr in P.
  set (sA := sin A) in *. set (cA := cos A) in *. set (sh := sin h). set (ch := cos h). set (sm := sin m). set (cm := cos m). apply f_equal2; [apply f_equal2; ring|].
  transitivity (- (4 * (r * r) * (sm * ch - cm * sh) * (sh * sh)) * (ch * cm) * (sA * sA + cA * cA)); [ring|]. rewrite P. ring.
Qed.
Lemma outer_dot r A m h t p : rdot (outer A m h) (sp r t p) - r * (cos h * cos h) = r * (sin m * sin p * (cos (t - A) - cos h) + cos h * (cos (p - m) - cos h)).
Proof. unfold rdot, outer, sp. rewrite !cos_minus. ring. Qed.
Lemma scale_dot x v z u : rdot (vscale x v) (vsub z u) = x * (rdot v z - rdot v u).
Proof. destruct v as [[a b] c], z as [[d e] f], u as [[p q] s]. unfold rdot, vscale, vsub. ring. Qed.

Section Sphere.
  Variables (r : R) (step q : Z).
  Hypotheses (R0 : 0 < r) (S0 : (0 < step)%Z) (SQ : (step * q = 180)%Z) (Q2 : (2 <= q)%Z).
  Let n := (2 * q)%Z.
  Let h := PI / IZR n.
  Lemma sh_turn : IZR q * (2 * h) = PI.
  Proof. unfold h, n. rewrite mult_IZR. field. apply not_0_IZR. lia. Qed.
  Lemma sh_bounds : 0 < h /\ 4 * h <= PI.
  Proof. pose proof PI_RGT_0. assert (2 <= IZR q) by (apply IZR_le; lia). pose proof sh_turn. assert (0 < h) by nra. split; nra. Qed.
  Lemma sangle k : radians (IZR (k * step)) = IZR k * (2 * h).
  Proof. apply (angle step n); unfold n; lia. Qed.
  Definition pt (t k : Z) : vec := sp r (IZR t * (2 * h)) (IZR k * (2 * h)).
  Lemma pt_mod t t' k : (t mod n = t' mod n)%Z -> pt t k = pt t' k.
  Proof.
    intros E. assert (D : (t = t' + (t / n - t' / n) * n)%Z) by (unfold n in *; rewrite (Z.div_mod t (2 * q)) at 1 by lia; rewrite (Z.div_mod t' (2 * q)) at 1 by lia; rewrite E; ring).
    unfold pt, sp. rewrite D at 1 2. replace (IZR (t' + (t / n - t' / n) * n) * (2 * h)) with (IZR t' * (2 * h) + IZR (t / n - t' / n) * (2 * PI)); [now rewrite cos_turns, sin_turns|].
    rewrite plus_IZR, (mult_IZR _ n). rewrite <- sh_turn. unfold n at 5. rewrite (mult_IZR 2 q). ring.
  Qed.
  Lemma pt_north t : pt t 0 = (0, 0, r).
  Proof. unfold pt, sp. rewrite Rmult_0_l, sin_0, cos_0. apply f_equal2; [apply f_equal2|]; ring. Qed.
  Lemma pt_south t : pt t q = (0, 0, - r).
  Proof. unfold pt, sp. rewrite sh_turn, sin_PI, cos_PI. apply f_equal2; [apply f_equal2|]; ring. Qed.
  Lemma ring_angle k : (0 < k < q)%Z -> 0 < IZR k * (2 * h) < PI.
  Proof. intros [A B]. apply IZR_lt in A, B. pose proof sh_bounds. rewrite <- sh_turn. split; nra. Qed.
  Lemma turn_angle t : (0 <= t < n)%Z -> 0 <= IZR t * (2 * h) < 2 * PI.
  Proof. intros [A B]. apply IZR_le in A. apply IZR_lt in B. unfold n in B. rewrite mult_IZR in B. pose proof sh_bounds. rewrite <- sh_turn. split; nra. Qed.
  Lemma pt_inj t k t' k' : (0 <= t < n)%Z -> (0 < k < q)%Z -> (0 <= t' < n)%Z -> (0 < k' < q)%Z -> pt t k = pt t' k' -> t = t' /\ k = k'.
  Proof.
    intros T K T' K' E. assert (E' : on_sphere (0, 0, 0) r (IZR t * (2 * h)) (IZR k * (2 * h)) = on_sphere (0, 0, 0) r (IZR t' * (2 * h)) (IZR k' * (2 * h))) by (unfold on_sphere, vadd; rewrite !Rplus_0_l; exact E).
    apply sphere_inj in E'; [|lra|now apply turn_angle|now apply turn_angle|now apply ring_angle|now apply ring_angle]. destruct E' as (A & B). pose proof sh_bounds. split; apply eq_IZR; apply (Rmult_eq_reg_r (2 * h)); lra.
  Qed.
  Lemma pt_pole t k z : (0 < k < q)%Z -> pt t k <> (0, 0, z).
  Proof.
    intros K E. assert (S : 0 < sin (IZR k * (2 * h))) by (apply sin_gt_0; apply ring_angle; exact K). unfold pt, sp in E.
    assert (EX : r * sin (IZR k * (2 * h)) * cos (IZR t * (2 * h)) = 0) by congruence. assert (EY : r * sin (IZR k * (2 * h)) * sin (IZR t * (2 * h)) = 0) by congruence.
    assert (NZ : r * sin (IZR k * (2 * h)) <> 0) by (apply Rmult_integral_contrapositive; lra). apply Rmult_integral in EX, EY. destruct EX as [|EX]; [contradiction|]. destruct EY as [|EY]; [contradiction|].
    pose proof (sin2_cos2 (IZR t * (2 * h))) as P. unfold Rsqr in P. rewrite EX, EY in P. lra.
  Qed.
  Definition grid : list vec := flat_map (fun t => map (pt t) (range 1 q)) (range 0 n).
  Definition verts : list vec := (0, 0, r) :: grid ++ [(0, 0, - r)].
  Lemma in_grid p : In p grid -> exists t k, (0 <= t < n)%Z /\ (1 <= k < q)%Z /\ p = pt t k.
  Proof. intros I. unfold grid in I. apply in_flat_map in I. destruct I as (t & T & I). apply in_map_iff in I. destruct I as (k & <- & K). apply in_range in T, K. exists t, k. auto. Qed.
  Lemma grid_nodup : NoDup grid.
  Proof.
    unfold grid. apply nodup_flat.
    - apply IterProofs.NoDup_range.
    - intros t T. apply in_range in T. apply nodup_map_in; [|apply IterProofs.NoDup_range]. intros k k' K K' E. apply in_range in K, K'. apply pt_inj in E; lia.
    - intros t t' p T T' NE A B. apply in_range in T, T'. apply in_map_iff in A, B. destruct A as (k & <- & K). destruct B as (k' & E & K'). apply in_range in K, K'. apply pt_inj in E; lia.
  Qed.
  Lemma verts_nodup : NoDup verts.
  Proof.
    unfold verts. constructor.
    - intros I. apply in_app_or in I. destruct I as [I|[I|[]]]; [apply in_grid in I; destruct I as (t & k & T & K & E); symmetry in E; apply pt_pole in E; [exact E|lia]|]. assert (r = - r) by congruence. lra.
    - apply IterProofs.NoDup_app'; [apply grid_nodup|repeat constructor; intros []|]. intros p I [<-|[]]. apply in_grid in I. destruct I as (t & k & T & K & E). symmetry in E. apply pt_pole in E; [exact E|lia].
  Qed.
  Lemma sphere_verts : spherevert (0, 0, 0) r step = Ok verts.
  Proof.
    unfold spherevert. rewrite !rangeby_pos by exact S0. cbn [rbind]. change (fun plist p => if existsb (veq p) plist then plist else plist ++ [p]) with addp.
    fold (addp (fold_left (fun plist theta => fold_left (fun plist phi => addp plist (vadd (0, 0, 0) (spherical2rectcoord3D (r, radians (IZR theta), radians (IZR phi))))) (range_step 0 180 step) plist) (range_step 0 360 step) []) (0, 0, - r)).
    rewrite (fold_fold (fun theta phi => vadd (0, 0, 0) (spherical2rectcoord3D (r, radians (IZR theta), radians (IZR phi)))) addp).
    rewrite !steps_multiples by (lia || (exists q; lia) || (exists n; unfold n; lia)). replace (180 / step)%Z with q by (rewrite <- SQ, Z.mul_comm, Z.div_mul; lia). replace (360 / step)%Z with n by (replace 360%Z with (n * step)%Z by (unfold n; lia); rewrite Z.div_mul; lia).
    replace (flat_map _ (map (fun i => (i * step)%Z) (range 0 n))) with (flat_map (fun t => (0, 0, r) :: map (pt t) (range 1 q)) (range 0 n)).
    - pose proof verts_nodup as ND. assert (NS : ~ In (0, 0, - r) ((0, 0, r) :: grid)).
      { unfold verts in ND. change ((0, 0, r) :: grid ++ [(0, 0, - r)]) with (((0, 0, r) :: grid) ++ [(0, 0, - r)]) in ND. apply NoDup_remove_2 in ND. now rewrite app_nil_r in ND. }
      assert (F : fold_left addp (flat_map (fun t => (0, 0, r) :: map (pt t) (range 1 q)) (range 0 n)) [] = (0, 0, r) :: grid).
      { assert (NP : (0 < n)%Z) by (unfold n; lia). rewrite (range_cons 0 n) by exact NP. cbn [flat_map fold_left app]. change (addp [] (0, 0, r)) with [((0, 0, r) : vec)]. rewrite fold_left_app.
        assert (G : grid = map (pt 0) (range 1 q) ++ flat_map (fun t => map (pt t) (range 1 q)) (range (0 + 1) n)) by (unfold grid; rewrite (range_cons 0 n) by exact NP; reflexivity).
        assert (ND1 : NoDup ((0, 0, r) :: grid)) by (apply (nodup_left _ [(0, 0, - r)]); exact ND). rewrite G in ND1 |- *.
        rewrite (addp_list (map (pt 0) (range 1 q))) by (apply (nodup_left _ (flat_map (fun t => map (pt t) (range 1 q)) (range (0 + 1) n))); exact ND1).
        rewrite addp_rows; [reflexivity|now left|exact ND1]. }
      rewrite F. f_equal. apply addp_new. exact NS.
    - rewrite (range_cons 0 q) by lia. rewrite !flat_map_concat_map, map_map. f_equal. apply map_ext. intros t. rewrite map_map. cbn [map]. 
      assert (PE : forall k, vadd (0, 0, 0) (spherical2rectcoord3D (r, radians (IZR (t * step)), radians (IZR (k * step)))) = pt t k) by (intros k; unfold spherical2rectcoord3D, vadd, pt, sp; rewrite !sangle, !Rplus_0_l; reflexivity).
      rewrite PE, pt_north. f_equal. apply map_ext. intros k. now rewrite PE.
  Qed.
  Definition idx (t k : Z) : Z := (if k =? 0 then 0 else if k =? q then 1 + n * (q - 1) else 1 + t * (q - 1) + (k - 1))%Z.
  Lemma verts_length : Z.of_nat (length verts) = (2 + n * (q - 1))%Z.
  Proof. unfold verts. cbn [length]. rewrite app_length. cbn [length]. pose proof (grid_length pt q n ltac:(unfold n; lia) ltac:(lia)) as G. change (flat_map (fun t => map (pt t) (range 1 q)) (range 0 n)) with grid in G. unfold Vertices.vec in *. lia. Qed.
  Lemma idx_range t k : (0 <= t < n)%Z -> (0 <= k <= q)%Z -> (0 <= idx t k < 2 + n * (q - 1))%Z.
  Proof. intros T K. assert (0 < n)%Z by (unfold n; lia). unfold idx. destruct (Z.eqb_spec k 0); [nia|]. destruct (Z.eqb_spec k q); nia. Qed.
  Lemma at_idx t k : (0 <= t < n)%Z -> (0 <= k <= q)%Z -> nth_error verts (Z.to_nat (idx t k)) = Some (pt t k).
  Proof.
    intros T K. assert (N0 : (0 < n)%Z) by (unfold n; lia). pose proof (grid_length pt q n ltac:(lia) ltac:(lia)) as G. change (flat_map (fun t => map (pt t) (range 1 q)) (range 0 n)) with grid in G.
    unfold idx. destruct (Z.eqb_spec k 0) as [->|K0]; [rewrite pt_north; reflexivity|]. unfold verts. destruct (Z.eqb_spec k q) as [->|KQ].
    - rewrite pt_south. replace (Z.to_nat (1 + n * (q - 1))) with (Datatypes.S (length grid)) by (unfold Vertices.vec in *; lia). cbn [nth_error]. rewrite nth_error_app2 by lia. now rewrite Nat.sub_diag.
    - replace (Z.to_nat (1 + t * (q - 1) + (k - 1))) with (Datatypes.S (Z.to_nat (t * (q - 1) + (k - 1)))) by nia. cbn [nth_error]. rewrite nth_error_app1 by (unfold Vertices.vec in *; nia). apply nth_grid; lia.
  Qed.
  Lemma in_verts z : In z verts -> exists t k, (0 <= t < n)%Z /\ (0 <= k <= q)%Z /\ z = pt t k.
  Proof.
    assert (0 < n)%Z by (unfold n; lia). intros [<-|I]; [exists 0%Z, 0%Z; split; [lia|split; [lia|symmetry; apply pt_north]]|]. apply in_app_or in I. destruct I as [I|[<-|[]]].
    - apply in_grid in I. destruct I as (t & k & T & K & E). exists t, k. split; [exact T|split; [lia|exact E]].
    - exists 0%Z, q. split; [lia|split; [lia|symmetry; apply pt_south]].
  Qed.
  Definition zk (k : Z) : R := r * cos (IZR k * (2 * h)).
  Lemma zk_nodup : NoDup (map zk (range 0 (q + 1))).
  Proof.
    apply nodup_map_in; [|apply IterProofs.NoDup_range]. intros k k' K K' E. apply in_range in K, K'. unfold zk in E. apply Rmult_eq_reg_l in E; [|lra].
    assert (B : forall x, (0 <= x < q + 1)%Z -> 0 <= IZR x * (2 * h) <= PI).
    { intros x [X Y]. assert (X' := IZR_le _ _ X). assert (Y' : IZR x <= IZR q) by (apply IZR_le; lia). pose proof sh_bounds. rewrite <- sh_turn. split; nra. }
    apply cos_inj in E; [|now apply B|now apply B]. pose proof sh_bounds. apply eq_IZR. apply (Rmult_eq_reg_r (2 * h)); lra.
  Qed.
  Definition ring (k : Z) : list Z := map (fun t => idx t k) (range 0 n).
  Lemma fold_put vs l : forall o, fold_left (fun zord p => raddlevel (snd p) (indexof veq vs p) zord) l o = fold_left put (map (fun p => (snd p, indexof veq vs p)) l) o.
  Proof. induction l as [|p l IH]; intros o; [reflexivity|]. cbn [fold_left map]. now rewrite IH. Qed.
  Lemma levels : map snd (rzlevelcoords verts) = [0%Z] :: map ring (range 1 q) ++ [[(1 + n * (q - 1))%Z]].
  Proof.
    assert (N0 : (0 < n)%Z) by (unfold n; lia).
    assert (IX : forall t k, (0 <= t < n)%Z -> (0 <= k <= q)%Z -> (snd (pt t k), indexof veq verts (pt t k)) = (zk k, idx t k)).
    { intros t k T K. rewrite (indexof_nth verts _ _ verts_nodup (at_idx t k T K)). rewrite Z2Nat.id by (pose proof (idx_range t k T K); lia). reflexivity. }
    unfold rzlevelcoords. rewrite fold_put.
    assert (E : map (fun p => (snd p, indexof veq verts p)) verts = (zk 0, 0%Z) :: flat_map (fun t => map (fun k => (zk k, idx t k)) (range 1 q)) (range 0 n) ++ [(zk q, (1 + n * (q - 1))%Z)]).
    { unfold verts at 2. cbn [map]. rewrite map_app. f_equal; [rewrite <- (pt_north 0), IX by lia; reflexivity|]. f_equal.
      - unfold grid. rewrite !flat_map_concat_map, concat_map, map_map. f_equal. apply map_ext_in. intros t T. apply in_range in T. rewrite map_map. apply map_ext_in. intros k K. apply in_range in K. apply IX; lia.
      - cbn [map]. rewrite <- (pt_south 0), IX by lia. unfold idx. rewrite Z.eqb_refl. destruct (Z.eqb_spec q 0); [lia|reflexivity]. }
    rewrite E. pose proof zk_nodup as ND. rewrite range_snoc, (range_cons 0 q) in ND by lia. rewrite map_app in ND. cbn [map] in ND. change (0 + 1)%Z with 1%Z in ND.
    change (fold_left put ?l []) with (fold_left put (tl l) [(zk 0, [0%Z])]). cbn [tl]. rewrite fold_left_app. rewrite rows; [|lia|apply (nodup_left _ [zk q]); exact ND].
    cbn [fold_left]. unfold put. cbn [fst snd]. rewrite put_new; [rewrite !map_app, map_map; reflexivity|].
    rewrite map_app, map_map. cbn [map fst app]. apply NoDup_remove_2 in ND. rewrite app_nil_r in ND. exact ND.
  Qed.
  Lemma rget_ring k t : (0 <= t < n)%Z -> rget (ring k) t = idx t k.
  Proof. intros T. unfold rget, ring. rewrite (nth_indep _ 0%Z (idx 0 k)) by (rewrite map_length; pose proof (zlen_range 0 n) as Z1; unfold zlen in Z1; lia). rewrite (map_nth (fun t => idx t k)). unfold range. rewrite (nth_indep _ 0%Z (0 + Z.of_nat 0)%Z) by (rewrite map_length, seq_length; lia). rewrite (map_nth (fun i => (0 + Z.of_nat i)%Z)), seq_nth by lia. f_equal. lia. Qed.
  Lemma nth_rings k : (1 <= k < q)%Z -> nth (Z.to_nat (k - 1)) (map ring (range 1 q)) [] = ring k.
  Proof. intros K. rewrite (nth_indep _ [] (ring 0)) by (rewrite map_length; pose proof (zlen_range 1 q) as Z1; unfold zlen in Z1; lia). rewrite (map_nth ring). unfold range. rewrite (nth_indep _ 0%Z (1 + Z.of_nat 0)%Z) by (rewrite map_length, seq_length; lia). rewrite (map_nth (fun i => (1 + Z.of_nat i)%Z)), seq_nth by lia. f_equal. lia. Qed.
  Definition capn i := [idx i 0; idx (nxt n i) 1; idx i 1].
  Definition caps i := [idx i q; idx i (q - 1); idx (nxt n i) (q - 1)].
  Definition band k i := [idx (nxt n i) (k + 1); idx i (k + 1); idx i k; idx (nxt n i) k].
  Definition faces := List.concat (map (fun i => [capn i; caps i]) (range 0 n)) ++ List.concat (map (fun k => map (band k) (range 0 n)) (range 1 (q - 1))).
  Lemma faces_run : genspheresurfaces (map snd (rzlevelcoords verts)) = Ok faces /\ closed faces.
  Proof.
    assert (N0 : (0 < n)%Z) by (unfold n; lia). assert (LR : zlen (map ring (range 1 q)) = (q - 1)%Z) by (unfold zlen; rewrite map_length; pose proof (zlen_range 1 q) as Z1; unfold zlen in Z1; lia).
    assert (NE : map ring (range 1 q) <> []) by (intros E; rewrite E in LR; cbn in LR; lia).
    assert (FE : spherefaces 0 (1 + n * (q - 1)) n (map ring (range 1 q)) = faces).
    { assert (H0 : hd [] (map ring (range 1 q)) = ring 1) by (rewrite (range_cons 1 q) by lia; reflexivity). assert (L0 : last (map ring (range 1 q)) [] = ring (q - 1)) by (replace (range 1 q) with (range 1 (q - 1 + 1)) by (f_equal; lia); rewrite range_snoc by lia; rewrite map_app; apply last_last).
      unfold spherefaces. rewrite LR, H0, L0. unfold faces. apply f_equal2; f_equal; apply map_ext_in; intros x X; apply in_range in X.
      - pose proof (nxt_range n x X). rewrite !rget_ring by assumption. unfold capn, caps. replace (idx x q) with (1 + n * (q - 1))%Z by (unfold idx; rewrite Z.eqb_refl; destruct (Z.eqb_spec q 0); [lia|reflexivity]). reflexivity.
      - apply map_ext_in. intros i I. apply in_range in I. pose proof (nxt_range n i I). rewrite (nth_rings x) by lia. replace (Z.to_nat x) with (Z.to_nat (x + 1 - 1)) by lia. rewrite nth_rings by lia. rewrite !rget_ring by assumption. reflexivity. }
    rewrite levels, <- FE. split; [|apply sphere_closed; [exact NE|lia]]. apply sphere_run; [exact NE|lia|]. intros x X. apply in_map_iff in X. destruct X as (k & <- & _). unfold zlen, ring. rewrite map_length. pose proof (zlen_range 0 n) as Z1. unfold zlen in Z1. lia.
  Qed.
  Lemma nxt_turn i k : (0 <= i < n)%Z -> pt (nxt n i) k = sp r (IZR i * (2 * h) + 2 * h) (IZR k * (2 * h)).
  Proof. intros I. replace (IZR i * (2 * h) + 2 * h) with (IZR (i + 1) * (2 * h)) by (rewrite plus_IZR; ring). apply (pt_mod _ (i + 1)). unfold nxt. destruct (Z.eqb_spec i (n - 1)) as [->|]; [|reflexivity]. replace (n - 1 + 1)%Z with n by lia. rewrite Z.mod_same, Z.mod_0_l by lia. reflexivity. Qed.
  Lemma mod_range a : (- n <= a < n)%Z -> (a mod n = 0 \/ a mod n = n - 1)%Z -> (a = 0 \/ a = - n \/ a = -1 \/ a = n - 1)%Z.
  Proof. intros A B. assert (0 < n)%Z by (unfold n; lia). pose proof (Z.div_mod a n ltac:(lia)) as D. assert (Q : (a / n = 0 \/ a / n = -1)%Z) by (assert (-1 <= a / n)%Z by (apply Z.div_le_lower_bound; lia); assert (a / n < 1)%Z by (apply Z.div_lt_upper_bound; lia); lia). destruct Q as [Q|Q]; rewrite Q in D; lia. Qed.
  Definition mid (i : Z) : R := IZR i * (2 * h) + h.
  Lemma cell i k t k' : (0 <= i < n)%Z -> (0 <= k < q)%Z -> (0 <= t < n)%Z -> (0 <= k' <= q)%Z ->
    rdot (outer (mid i) (mid k) h) (pt t k') <= r * (cos h * cos h) /\
    (rdot (outer (mid i) (mid k) h) (pt t k') = r * (cos h * cos h) <-> ((k' = k \/ k' = k + 1) /\ (k' = 0 \/ k' = q \/ t = i \/ t = nxt n i))%Z).
  Proof.
    intros I K T K'. pose proof sh_bounds as HB. pose proof sh_turn as HT. assert (N2 : (2 <= n)%Z) by (unfold n; lia). pose proof (outer_dot r (mid i) (mid k) h (IZR t * (2 * h)) (IZR k' * (2 * h))) as D. fold (pt t k') in D.
    destruct (circle_side n (t - i - 1) N2) as (A1 & A2). destruct (circle_side n (k' - k - 1) N2) as (B1 & B2). fold h in A1, A2, B1, B2.
    replace ((2 * IZR (t - i - 1) + 1) * h) with (IZR t * (2 * h) - mid i) in A1, A2 by (unfold mid; rewrite !minus_IZR; ring). replace ((2 * IZR (k' - k - 1) + 1) * h) with (IZR k' * (2 * h) - mid k) in B1, B2 by (unfold mid; rewrite !minus_IZR; ring).
    assert (CH : 0 < cos h) by (apply cos_gt_0; lra).
    assert (SM : 0 < sin (mid k)).
    { assert (K0 := IZR_le _ _ (proj1 K)). assert (K1 : IZR k + 1 <= IZR q) by (rewrite <- plus_IZR; apply IZR_le; lia). unfold mid. apply sin_gt_0; [nra|]. rewrite <- HT. nra. }
    assert (SP : 0 <= sin (IZR k' * (2 * h)) /\ (sin (IZR k' * (2 * h)) = 0 <-> (k' = 0 \/ k' = q)%Z)).
    { destruct (Z.eq_dec k' 0) as [->|E0]; [rewrite Rmult_0_l, sin_0; split; [lra|tauto]|]. destruct (Z.eq_dec k' q) as [->|E1]; [rewrite HT, sin_PI; split; [lra|tauto]|]. assert (P : 0 < sin (IZR k' * (2 * h))) by (apply sin_gt_0; apply ring_angle; lia). split; [lra|]. split; [lra|lia]. }
    destruct SP as (SP & SZ). set (x := cos (IZR t * (2 * h) - mid i) - cos h) in *. set (y := cos (IZR k' * (2 * h) - mid k) - cos h) in *. set (s := sin (IZR k' * (2 * h))) in *. set (u := sin (mid k)) in *.
    assert (X : x <= 0) by (unfold x; lra). assert (Y : y <= 0) by (unfold y; lra). assert (US : 0 <= u * s) by nra. assert (P1 : u * s * x <= 0) by nra. assert (P2 : cos h * y <= 0) by nra. split; [nra|].
    assert (XE : x = 0 <-> (t = i \/ t = nxt n i)%Z).
    { replace (x = 0) with (cos (IZR t * (2 * h) - mid i) - cos h = 0) by reflexivity. split; intros Q.
      - assert (M : ((t - i - 1) mod n = 0 \/ (t - i - 1) mod n = n - 1)%Z) by (apply A2; lra). apply mod_range in M; [|lia]. unfold nxt. destruct (Z.eqb_spec i (n - 1)); lia.
      - enough (cos (IZR t * (2 * h) - mid i) = cos h) by lra. apply A2. destruct Q as [-> | ->].
        + right. replace (i - i - 1)%Z with (n - 1 + (-1) * n)%Z by lia. rewrite Z.mod_add by lia. apply Z.mod_small. lia.
        + left. unfold nxt. destruct (Z.eqb_spec i (n - 1)) as [->|]; [replace (0 - (n - 1) - 1)%Z with (0 + (-1) * n)%Z by lia; rewrite Z.mod_add by lia; apply Z.mod_0_l; lia|]. replace (i + 1 - i - 1)%Z with 0%Z by lia. apply Z.mod_0_l. lia. }
    assert (YE : y = 0 <-> (k' = k \/ k' = k + 1)%Z).
    { replace (y = 0) with (cos (IZR k' * (2 * h) - mid k) - cos h = 0) by reflexivity. split; intros Q.
      - assert (M : ((k' - k - 1) mod n = 0 \/ (k' - k - 1) mod n = n - 1)%Z) by (apply B2; lra). unfold n in M. apply mod_range in M; unfold n in *; lia.
      - enough (cos (IZR k' * (2 * h) - mid k) = cos h) by lra. apply B2. destruct Q as [-> | ->].
        + right. replace (k - k - 1)%Z with (n - 1 + (-1) * n)%Z by lia. rewrite Z.mod_add by lia. apply Z.mod_small. lia.
        + left. replace (k + 1 - k - 1)%Z with 0%Z by lia. apply Z.mod_0_l. lia. }
    split.
    - intros E. assert (Z0 : u * s * x + cos h * y = 0) by (apply (Rmult_eq_reg_l r); lra). assert (y = 0) by nra. assert (Q : u * s * x = 0) by nra. split; [now apply YE|]. apply Rmult_integral in Q. destruct Q as [Q|Q]; [apply Rmult_integral in Q; destruct Q as [Q|Q]; [lra|apply SZ in Q; tauto]|apply XE in Q; tauto].
    - intros (E1 & E2). apply YE in E1. assert (Q : s * x = 0) by (destruct E2 as [Q|[Q|Q]]; [assert (s = 0) by (apply SZ; tauto); nra|assert (s = 0) by (apply SZ; tauto); nra|apply XE in Q; nra]). rewrite E1 in D. assert (u * s * x = 0) by (rewrite Rmult_assoc, Q; ring). nra.
  Qed.
  (** a face with its normal along [outer] and its corners those of the cell [i], [k] *)
  Lemma cell_face i k a b c l u v w x : (0 <= i < n)%Z -> (0 <= k < q)%Z -> 0 < x ->
    (forall m, In m (a :: b :: c :: l) -> exists t k', (0 <= t < n)%Z /\ (0 <= k' <= q)%Z /\ m = idx t k' /\ ((k' = k \/ k' = k + 1) /\ (k' = 0 \/ k' = q \/ t = i \/ t = nxt n i))%Z) ->
    (forall t k', (0 <= t < n)%Z -> (0 <= k' <= q)%Z -> ((k' = k \/ k' = k + 1) /\ (k' = 0 \/ k' = q \/ t = i \/ t = nxt n i))%Z -> In (idx t k') (a :: b :: c :: l)) ->
    nth_error verts (Z.to_nat a) = Some u -> nth_error verts (Z.to_nat b) = Some v -> nth_error verts (Z.to_nat c) = Some w ->
    rnormal u v w = vscale (- x) (outer (mid i) (mid k) h) ->
    (forall m, In m (a :: b :: c :: l) -> (0 <= m < Z.of_nat (length verts))%Z) /\
    exists a' b' c' l' u v w, a :: b :: c :: l = a' :: b' :: c' :: l' /\
    nth_error verts (Z.to_nat a') = Some u /\ nth_error verts (Z.to_nat b') = Some v /\ nth_error verts (Z.to_nat c') = Some w /\
    forall z, In z verts -> -1 * rdot (rnormal u v w) (vsub z u) <= 0 /\
      (rdot (rnormal u v w) (vsub z u) = 0 <-> exists m, In m (a :: b :: c :: l) /\ nth_error verts (Z.to_nat m) = Some z).
  Proof.
    intros I K X F1 F2 EA EB EC NV. split.
    - intros m Hm. destruct (F1 m Hm) as (t & k' & T & K' & -> & _). rewrite verts_length. now apply idx_range.
    - exists a, b, c, l, u, v, w. split; [reflexivity|]. do 3 (split; [assumption|]). rewrite NV. intros z Hz. rewrite scale_dot.
      assert (LU : rdot (outer (mid i) (mid k) h) u = r * (cos h * cos h)).
      { destruct (F1 a (or_introl eq_refl)) as (t & k' & T & K' & -> & C). rewrite (at_idx t k' T K') in EA. injection EA as <-. apply (proj2 (cell i k t k' I K T K')). exact C. }
      rewrite LU. destruct (in_verts z Hz) as (t & k' & T & K' & ->). destruct (cell i k t k' I K T K') as (C1 & C2). split; [nra|]. split.
      + intros E. exists (idx t k'). split; [|now apply at_idx]. apply F2; [assumption|assumption|]. apply C2. nra.
      + intros (m & Hm & E). destruct (F1 m Hm) as (t1 & k1 & T1 & K1 & -> & C). rewrite (at_idx t1 k1 T1 K1) in E. assert (E' : pt t1 k1 = pt t k') by congruence. rewrite <- E'. rewrite (proj2 (proj2 (cell i k t1 k1 I K T1 K1)) C). ring.
  Qed.
  Lemma sphere_poly : polyhedron (-1) verts faces.
  Proof.
    intros f Hf. destruct sh_bounds as (HB & HB4). assert (N0 : (2 <= n)%Z) by (unfold n; lia).
    assert (SH : 0 < sin h) by (apply sin_gt_0; lra). assert (RS : 0 < 4 * (r * r) * (sin h * sin h)) by (assert (0 < r * r) by nra; assert (0 < sin h * sin h) by nra; nra).
    assert (LO : forall i, mid i - h = IZR i * (2 * h)) by (intros; unfold mid; ring). assert (HI : forall i, mid i + h = IZR (i + 1) * (2 * h)) by (intros; unfold mid; rewrite plus_IZR; ring).
    assert (HI' : forall i, mid i + h = IZR i * (2 * h) + 2 * h) by (intros; unfold mid; ring).
    unfold faces in Hf. apply in_app_or in Hf. destruct Hf as [Hf|Hf]; apply in_concat in Hf; destruct Hf as (g & Hg & Hf); apply in_map_iff in Hg.
    - destruct Hg as (i & <- & I). apply in_range in I. pose proof (nxt_range n i I) as J. destruct Hf as [<-|[<-|[]]].
      + unfold capn. apply (cell_face i 0 _ _ _ _ (pt i 0) (pt (nxt n i) 1) (pt i 1) (4 * (r * r) * sin (mid 0 + h) * (sin h * sin h))); [exact I|lia| | | |apply at_idx; lia|apply at_idx; lia|apply at_idx; lia|].
        * assert (0 < sin (mid 0 + h)) by (rewrite HI; apply sin_gt_0; apply ring_angle; lia). nra.
        * intros m [<-|[<-|[<-|[]]]]; do 2 eexists; (split; [|split; [|split; [reflexivity|]]]); lia.
        * intros t k' T K' ([-> | ->] & C); [left; reflexivity|]. destruct C as [C|[C|[-> | ->]]]; [lia|lia|right; right; left; reflexivity|right; left; reflexivity].
        * rewrite normal_turn, nxt_turn by exact I. rewrite <- normal_low. rewrite HI', LO. rewrite (HI 0%Z), (LO 0%Z). reflexivity.
      + unfold caps. apply (cell_face i (q - 1) _ _ _ _ (pt i q) (pt i (q - 1)) (pt (nxt n i) (q - 1)) (4 * (r * r) * sin (mid (q - 1) - h) * (sin h * sin h))); [exact I|lia| | | |apply at_idx; lia|apply at_idx; lia|apply at_idx; lia|].
        * assert (0 < sin (mid (q - 1) - h)) by (rewrite LO; apply sin_gt_0; apply ring_angle; lia). nra.
        * intros m [<-|[<-|[<-|[]]]]; do 2 eexists; (split; [|split; [|split; [reflexivity|]]]); lia.
        * intros t k' T K' ([-> | ->] & C); [destruct C as [C|[C|[-> | ->]]]; [lia|lia|right; left; reflexivity|right; right; left; reflexivity]|]. left. replace (q - 1 + 1)%Z with q by lia. unfold idx. rewrite Z.eqb_refl. reflexivity.
        * rewrite normal_turn. rewrite pt_south. rewrite <- (pt_south (nxt n i)). rewrite !nxt_turn by exact I. rewrite <- normal_high. rewrite HI', LO. rewrite (HI (q - 1)%Z), (LO (q - 1)%Z). replace (q - 1 + 1)%Z with q by lia. reflexivity.
    - destruct Hg as (k & <- & K). apply in_range in K. apply in_map_iff in Hf. destruct Hf as (i & <- & I). apply in_range in I. pose proof (nxt_range n i I) as J.
      unfold band. apply (cell_face i k _ _ _ _ (pt (nxt n i) (k + 1)) (pt i (k + 1)) (pt i k) (4 * (r * r) * sin (mid k + h) * (sin h * sin h))); [exact I|lia| | | |apply at_idx; lia|apply at_idx; lia|apply at_idx; lia|].
      + assert (0 < sin (mid k + h)) by (rewrite HI; apply sin_gt_0; apply ring_angle; lia). nra.
      + intros m [<-|[<-|[<-|[<-|[]]]]]; do 2 eexists; (split; [|split; [|split; [reflexivity|]]]); lia.
      + intros t k' T K' ([-> | ->] & C); (destruct C as [C|[C|[-> | ->]]]; [lia|lia| |]); cbn [In]; tauto.
      + rewrite nxt_turn by exact I. rewrite <- normal_low. rewrite HI', LO. rewrite (HI k), (LO k). reflexivity.
  Qed.
  Lemma faces_length : Z.of_nat (length faces) = (n * q)%Z.
  Proof.
    assert (N0 : (0 <= n)%Z) by (unfold n; lia). unfold faces. rewrite app_length.
    assert (L1 : forall (g : Z -> list (list Z)) c l, (forall x, length (g x) = c) -> length (List.concat (map g l)) = (length l * c)%nat) by (intros g c l G; induction l as [|x l IH]; [reflexivity|]; cbn [map List.concat length]; rewrite app_length, IH, G; lia).
    rewrite (L1 _ 2%nat) by reflexivity. rewrite (L1 _ (Z.to_nat n)) by (intros x; rewrite map_length; pose proof (zlen_range 0 n) as Z1; unfold zlen in Z1; lia).
    pose proof (zlen_range 0 n) as Z1. pose proof (zlen_range 1 (q - 1)) as Z2. unfold zlen in Z1, Z2. nia.
  Qed.
End Sphere.

(** The mesh of a sphere around the origin: the vertices are distinct and on the sphere, the surface is closed and the polyhedron convex;
    its faces run clockwise seen from outside, those of cylinders and cones counterclockwise. *)
Theorem C142_sphere : forall r step q, 0 < r -> (0 < step)%Z -> (step * q = 180)%Z -> (2 <= q)%Z ->
  exists vs fs, spherevertandsurface (0, 0, 0) r step = Ok (vs, fs) /\ polyhedron (-1) vs fs /\ closed fs /\ NoDup vs /\
    (forall p, In p vs -> rdot p p = r * r) /\
    Z.of_nat (length fs) = (2 * q * q)%Z /\ Z.of_nat (length vs) = (2 + 2 * q * (q - 1))%Z.
Proof.
  intros r step q R0 S0 SQ Q2. exists (verts r q), (faces q). destruct (faces_run r step q R0 S0 SQ Q2) as (F & CL).
  split; [unfold spherevertandsurface; rewrite (sphere_verts r step q R0 S0 SQ Q2); cbn [rbind]; rewrite F; reflexivity|].
  split; [eapply sphere_poly; eassumption|]. split; [exact CL|]. split; [eapply verts_nodup; eassumption|]. split; [|split; [eapply faces_length; eassumption|eapply verts_length; eassumption]].
  intros p Hp. assert (IV : exists t k, (0 <= t < 2 * q)%Z /\ (0 <= k <= q)%Z /\ p = pt r q t k) by (eapply in_verts; eassumption). destruct IV as (t & k & _ & _ & ->). unfold pt, sp, rdot.
  pose proof (sin2_cos2 (IZR t * (2 * (PI / IZR (2 * q))))) as P. pose proof (sin2_cos2 (IZR k * (2 * (PI / IZR (2 * q))))) as P'. unfold Rsqr in P, P'.
  set (st := sin (IZR t * _)) in *. set (ct := cos (IZR t * _)) in *. set (sk := sin (IZR k * _)) in *. set (ck := cos (IZR k * _)) in *.
  transitivity (r * r * (sk * sk * (st * st + ct * ct) + ck * ck)); [ring|]. rewrite P. transitivity (r * r * (sk * sk + ck * ck)); [ring|]. rewrite P'. ring.
Qed.
(** a step of zero: range raises a ValueError *)
Theorem C142_zero : forall vcen r l, spherevertandsurface vcen r 0 = Err ValueError /\ cylindervertandsurface vcen r l 0 = Err ValueError /\ conevertandsurface vcen r l 0 = Err ValueError.
Proof. intros. repeat split. Qed.

Example C142_sphere_ex : exists vs fs, spherevertandsurface (0, 0, 0) 3 60 = Ok (vs, fs) /\ polyhedron (-1) vs fs /\ length fs = 18%nat /\ length vs = 14%nat.
Proof. destruct (C142_sphere 3 60 3) as (vs & fs & A & B & _ & _ & _ & C & D); [lra|lia|lia|lia|]. exists vs, fs. split; [exact A|]. split; [exact B|]. split; apply Nat2Z.inj; assumption. Qed.
(** the eight faces with a step of 90: an octahedron *)
Example C142_octahedron_ex : exists vs, spherevertandsurface (0, 0, 0) 3 90 = Ok (vs, [[0; 2; 1]; [5; 1; 2]; [0; 3; 2]; [5; 2; 3]; [0; 4; 3]; [5; 3; 4]; [0; 1; 4]; [5; 4; 1]]%Z) /\ nth_error vs 0 = Some (0, 0, 3) /\ nth_error vs 5 = Some (0, 0, -3).
Proof.
  exists (verts 3 2). assert (R0 : 0 < 3) by lra. destruct (faces_run 3 90 2 R0 ltac:(lia) eq_refl ltac:(lia)) as (F & _).
  split; [unfold spherevertandsurface; rewrite (sphere_verts 3 90 2 R0 ltac:(lia) eq_refl ltac:(lia)); cbn [rbind]; rewrite F; reflexivity|]. split; reflexivity.
Qed.
Example C142_cylinder_ex : exists vs fs pos, cylindervertandsurface (1, 2, 3) 5 4 90 = Ok (vs, fs) /\ polyhedron 1 vs fs /\ length fs = 6%nat /\ closed (map (map pos) fs).
Proof. destruct (C142_cylinder (1, 2, 3) 5 4 90 4) as (vs & fs & pos & A & B & C & _ & _ & D); [lra|lra|lia|lia|lia|]. exists vs, fs, pos. split; [exact A|]. split; [exact B|]. split; [apply Nat2Z.inj; assumption|exact D]. Qed.
Example C142_cone_ex : exists vs fs pos, conevertandsurface (1, 2, 3) 5 4 120 = Ok (vs, fs) /\ polyhedron 1 vs fs /\ length fs = 4%nat /\ closed (map (map pos) fs).
Proof. destruct (C142_cone (1, 2, 3) 5 4 120 3) as (vs & fs & pos & A & B & C & _ & _ & D); [lra|lra|lia|lia|lia|]. exists vs, fs, pos. split; [exact A|]. split; [exact B|]. split; [apply Nat2Z.inj; assumption|exact D]. Qed.

Print Assumptions C142_cylinder.
Print Assumptions C142_cone.
Print Assumptions C142_sphere.
Print Assumptions C142_zero.
