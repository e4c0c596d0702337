(** Property C130: vertices of solids and their projection. *)
From Coq Require Import ZArith Reals List Bool Lia Lra Psatz.
From Verif Require Import PyBase PyFacts Bmp MathLib Solids IterProofs Coords RealProofs Vertices.
Import ListNotations.
Open Scope R_scope.

Definition sqdist (u v : vec) : R := let '(a, b, c) := u in let '(x, y, z) := v in (a - x) * (a - x) + (b - y) * (b - y) + (c - z) * (c - z).
Definition det3 (u v w : vec) : R := let '(a, b, c) := u in let '(d, e, f) := v in let '(g, h, i) := w in
  a * (e * i - f * h) - b * (d * i - f * g) + c * (d * h - e * g).
Definition minus (u v : vec) : vec := let '(a, b, c) := u in let '(x, y, z) := v in (a - x, b - y, c - z).
Definition depth (p : vec) : R := snd p.
(** the point where the line from the origin to p meets the plane z = - d *)
Definition on_screen (d : R) (p : vec) (q : R * R) : Prop := exists k, (fst q, snd q, - d) = (k * fst (fst p), k * snd (fst p), k * snd p).

Definition turn (rv : (R * R) * (R * R) * (R * R)) (p : vec) : vec := rotated rv (0, 0, 0) p.
Lemma rotated_turn rv disp p : rotated rv disp p = vadd (turn rv p) disp.
Proof. destruct rv as ((r1 & p1) & y1), r1, p1, y1, disp as ((dx & dy) & dz), p as ((x & y) & z). unfold turn, rotated, vadd. f_equal; [f_equal|]; ring. Qed.
Lemma rotvec_unit a : let '(s, c) := computerotvec a in s * s + c * c = 1.
Proof. unfold computerotvec. pose proof (sin2_cos2 (radians a)) as P. unfold Rsqr in P. exact P. Qed.
Lemma unit_norm s c a b : s * s + c * c = 1 -> (c * a + s * b) * (c * a + s * b) + (c * b - s * a) * (c * b - s * a) = a * a + b * b.
Proof. intros H. replace ((c * a + s * b) * (c * a + s * b) + (c * b - s * a) * (c * b - s * a)) with ((s * s + c * c) * (a * a + b * b)) by ring. rewrite H. ring. Qed.
Lemma turn_dist roll pitch yaw p q : sqdist (turn (rotvec3D roll pitch yaw) p) (turn (rotvec3D roll pitch yaw) q) = sqdist p q.
Proof.
  pose proof (rotvec_unit roll) as R1. pose proof (rotvec_unit pitch) as P1. pose proof (rotvec_unit yaw) as Y1. unfold rotvec3D.
  destruct (computerotvec roll) as (sr, cr), (computerotvec pitch) as (sp, cp), (computerotvec yaw) as (sy, cy), p as ((x & y) & z), q as ((x' & y') & z').
  unfold turn, rotated, sqdist. set (a := x - x'). set (b := y - y'). set (c := z - z').
  set (x1 := - cy * a - sy * c). set (z1 := - sy * a + cy * c). set (y1 := cr * b - sr * x1).
  transitivity ((cr * x1 + sr * b) * (cr * x1 + sr * b) + ((cp * y1 + sp * z1) * (cp * y1 + sp * z1) + (cp * z1 - sp * y1) * (cp * z1 - sp * y1))); [unfold y1, z1, x1, a, b, c; ring|].
  rewrite (unit_norm sp cp y1 z1 P1). replace ((cr * x1 + sr * b) * (cr * x1 + sr * b) + (y1 * y1 + z1 * z1)) with ((cr * x1 + sr * b) * (cr * x1 + sr * b) + (cr * b - sr * x1) * (cr * b - sr * x1) + z1 * z1) by (unfold y1; ring).
  rewrite (unit_norm sr cr x1 b R1). replace (x1 * x1 + b * b + z1 * z1) with ((sy * sy + cy * cy) * (a * a + c * c) + b * b) by (unfold x1, z1; ring). rewrite Y1. ring.
Qed.
Lemma turn_det roll pitch yaw o p q r : let f := turn (rotvec3D roll pitch yaw) in det3 (minus (f p) (f o)) (minus (f q) (f o)) (minus (f r) (f o)) = - det3 (minus p o) (minus q o) (minus r o).
Proof.
  pose proof (rotvec_unit roll) as R1. pose proof (rotvec_unit pitch) as P1. pose proof (rotvec_unit yaw) as Y1. unfold rotvec3D.
  destruct (computerotvec roll) as (sr, cr), (computerotvec pitch) as (sp, cp), (computerotvec yaw) as (sy, cy), o as ((ox & oy) & oz), p as ((a & b) & c), q as ((d & e) & f), r as ((g & h) & i). cbv zeta.
  unfold turn, rotated, minus, det3.
  transitivity (- ((sy * sy + cy * cy) * (sr * sr + cr * cr) * (sp * sp + cp * cp)) * ((a - ox) * ((e - oy) * (i - oz) - (f - oz) * (h - oy)) - (b - oy) * ((d - ox) * (i - oz) - (f - oz) * (g - ox)) + (c - oz) * ((d - ox) * (h - oy) - (e - oy) * (g - ox)))); [ring|].
  rewrite R1, P1, Y1. ring.
Qed.
Lemma minus_vadd p q d : minus (vadd p d) (vadd q d) = minus p q.
Proof. destruct p as ((a & b) & c), q as ((x & y) & z), d as ((u & v) & w). unfold minus, vadd. f_equal; [f_equal|]; ring. Qed.
Lemma sqdist_vadd p q d : sqdist (vadd p d) (vadd q d) = sqdist p q.
Proof. destruct p as ((a & b) & c), q as ((x & y) & z), d as ((u & v) & w). unfold sqdist, vadd. ring. Qed.
(** The vertices are moved by a map that keeps all distances, mirrors (reverses the orientation)
    and takes the origin to [dispvec]; each is projected from the origin onto the plane z = - d.
    A vertex in the plane z = 0 raises ZeroDivisionError. *)
Theorem C130_perspective : forall roll pitch yaw dispvec, exists f : vec -> vec,
  (forall p q, sqdist (f p) (f q) = sqdist p q) /\
  (forall o p q r, det3 (minus (f p) (f o)) (minus (f q) (f o)) (minus (f r) (f o)) = - det3 (minus p o) (minus q o) (minus r o)) /\
  f (0, 0, 0) = dispvec /\
  (roll = 0 -> pitch = 0 -> yaw = 0 -> forall x y z, f (x, y, z) = vadd (- x, y, z) dispvec) /\
  forall vlist d,
    match perspective vlist (rotvec3D roll pitch yaw) dispvec d with
    | Ok (rot, proj) => rot = map f vlist /\ Forall2 (on_screen d) rot proj /\ forall p, In p rot -> depth p <> 0
    | Err e => e = ZeroDivisionError /\ exists p, In p vlist /\ depth (f p) = 0
    end.
Proof.
  intros roll pitch yaw dispvec. exists (rotated (rotvec3D roll pitch yaw) dispvec). split; [|split; [|split; [|split]]].
  - intros p q. rewrite !rotated_turn, sqdist_vadd. apply turn_dist.
  - intros o p q r. rewrite !rotated_turn, !minus_vadd. apply turn_det.
  - destruct dispvec as ((dx & dy) & dz). unfold rotated, rotvec3D. destruct (computerotvec roll), (computerotvec pitch), (computerotvec yaw). f_equal; [f_equal|]; ring.
  - intros -> -> -> x y z. destruct dispvec as ((dx & dy) & dz). unfold rotated, rotvec3D, computerotvec, vadd. replace (radians 0) with 0 by (unfold radians; field). rewrite sin_0, cos_0. f_equal; [f_equal|]; ring.
  - intros vlist d. unfold perspective. set (f := rotated (rotvec3D roll pitch yaw) dispvec). induction vlist as [|p l IH]; cbn [res_map rbind map].
    + split; [reflexivity|]. split; [constructor|intros q []].
    + destruct (f p) as ((x & y) & z) eqn:F. destruct (Req_EM_T z 0) as [->|N].
      * rewrite !rdiv_0. cbn [rbind]. split; [reflexivity|]. exists p. split; [now left|]. rewrite F. reflexivity.
      * rewrite !rdiv_ok by exact N. cbn [rbind]. destruct (res_map _ l) as [m|e]; cbn [rbind map fst snd] in *.
        -- destruct IH as (I1 & I2 & I3). split; [rewrite ?F; f_equal; exact I1|]. split.
           ++ constructor; [|exact I2]. exists (- d / z). cbn [fst snd]. f_equal; [f_equal|]; field; exact N.
           ++ intros q [<-|Q]; [exact N|now apply I3].
        -- destruct IH as (I1 & q & Q1 & Q2). split; [exact I1|]. exists q. split; [now right|exact Q2].
Qed.

(** ** the regular solids *)
(** the sides of the faces, from each corner to the next one *)
Definition edge (faces : list (list Z)) (i j : Z) : Prop :=
  exists f k, In f faces /\ nth_error f k = Some i /\ nth_error f (S k mod length f) = Some j.
Definition vertex (vs : list vec) (i : Z) : vec := nth (Z.to_nat i) vs (0, 0, 0).
Definition all_edges (vs : list vec) (faces : list (list Z)) (s : R) : Prop := forall i j, edge faces i j -> sqdist (vertex vs i) (vertex vs j) = s * s.
Lemma edges_all faces (P : Z -> Z -> Prop) :
  Forall (fun f => Forall (fun k => match nth_error f k, nth_error f (S k mod length f) with Some i, Some j => P i j | _, _ => True end) (seq 0 (length f))) faces ->
  forall i j, edge faces i j -> P i j.
Proof.
  intros H i j (f & k & F & I & J). rewrite Forall_forall in H. specialize (H f F). rewrite Forall_forall in H. assert (K : (k < length f)%nat) by (apply nth_error_Some; congruence).
  specialize (H k (proj2 (in_seq _ _ _) (conj (Nat.le_0_l k) K))). now rewrite I, J in H.
Qed.
Ltac nums := cbn -[IZR Rmult Rplus Rminus Rdiv sqrt]; unfold Pos.to_nat; cbn -[IZR Rmult Rplus Rminus Rdiv sqrt].
Ltac nums_in F := cbn -[IZR Rmult Rplus Rminus Rdiv sqrt] in F; unfold Pos.to_nat in F; cbn -[IZR Rmult Rplus Rminus Rdiv sqrt] in F.
(** All sides of the faces of the cube have the given length. *)
Theorem C130_cube : forall x, all_edges (cubevert x) cube x.
Proof.
  intros x. unfold all_edges. apply edges_all. unfold cube. repeat (apply Forall_cons; [cbn [length seq]; repeat (apply Forall_cons; [unfold vertex, cubevert, sqdist; nums; ring|]); apply Forall_nil|]). apply Forall_nil.
Qed.
(** The other solids are not regular. *)
Theorem C130_tetrahedra_refuted : ~ (forall x, 0 < x -> all_edges (tetrahedravert x) tetrahedra x).
Proof.
  intros F. specialize (F 1 ltac:(lra) 2%Z 1%Z). assert (E : edge tetrahedra 2 1) by (exists [2; 1; 0]%Z, 0%nat; split; [now left|split; reflexivity]). specialize (F E).
  unfold vertex, tetrahedravert, sqdist in F. nums_in F. match type of F with context [sqrt ?e] => pose proof (sqrt_sqrt e ltac:(lra)) as S; set (u := sqrt e) in * end. lra.
Qed.
Theorem C130_hexahedra_refuted : ~ (forall x, 0 < x -> all_edges (hexahedravert x) hexahedra x).
Proof.
  intros F. specialize (F 1 ltac:(lra) 0%Z 3%Z). assert (E : edge hexahedra 0 3) by (exists [0; 3; 2]%Z, 0%nat; split; [right; now left|split; reflexivity]). specialize (F E).
  unfold vertex, hexahedravert, sqdist in F. nums_in F. match type of F with context [sqrt ?e] => pose proof (sqrt_sqrt e ltac:(lra)) as S; set (u := sqrt e) in * end. lra.
Qed.
Theorem C130_octahedra_refuted : ~ (forall x, 0 < x -> all_edges (octahedravert x) octahedra x).
Proof.
  intros F. specialize (F 1 ltac:(lra) 2%Z 0%Z). assert (E : edge octahedra 2 0) by (exists [1; 2; 0]%Z, 1%nat; split; [now left|split; reflexivity]). specialize (F E).
  unfold vertex, octahedravert, sqdist in F. nums_in F. lra.
Qed.
(** What the octahedron is: a square of side x between two tips at height x / 2. *)
Theorem C130_octahedra : forall x, let v := vertex (octahedravert x) in
  (forall i, (1 <= i <= 4)%Z -> sqdist (v i) (v 0%Z) = 3 / 4 * (x * x) /\ sqdist (v i) (v 5%Z) = 3 / 4 * (x * x)) /\
  sqdist (v 1%Z) (v 2%Z) = x * x /\ sqdist (v 2%Z) (v 3%Z) = x * x /\ sqdist (v 3%Z) (v 4%Z) = x * x /\ sqdist (v 4%Z) (v 1%Z) = x * x.
Proof.
  intros x v. split; [|unfold v, vertex, octahedravert, sqdist; nums; repeat split; ring]. intros i I. assert (i = 1 \/ i = 2 \/ i = 3 \/ i = 4)%Z as [->|[->|[->| ->]]] by lia; unfold v, vertex, octahedravert, sqdist; nums; split; field.
Qed.

(** ** pentagons *)
Definition cosd (n : Z) : R := cos (radians (IZR n)).
Lemma cosd_opp n : cosd (- n) = cosd n.
Proof. unfold cosd. replace (radians (IZR (- n))) with (- radians (IZR n)) by (unfold radians; rewrite opp_IZR; field). apply cos_neg. Qed.
Lemma cosd_360 n : cosd (360 - n) = cosd n.
Proof. unfold cosd. replace (radians (IZR (360 - n))) with (- radians (IZR n) + 2 * PI) by (unfold radians; rewrite minus_IZR; field). rewrite cos_plus, cos_2PI, sin_2PI, cos_neg. ring. Qed.
Lemma cosd_double n : cosd (2 * n) = 2 * (cosd n * cosd n) - 1.
Proof. unfold cosd. replace (radians (IZR (2 * n))) with (2 * radians (IZR n)) by (unfold radians; rewrite mult_IZR; field). rewrite cos_2a_cos. ring. Qed.
Lemma cosd_36 : cosd 36 = (1 + sqrt 5) / 4.
Proof.
  set (c := cosd 36). assert (C2 : cosd 72 = 2 * (c * c) - 1) by exact (cosd_double 36).
  assert (C3 : cosd 108 = 4 * (c * c * c) - 3 * c).
  { unfold c, cosd. replace (radians 108) with (2 * radians 36 + radians 36) by (unfold radians; field). rewrite cos_plus, cos_2a_cos, sin_2a. pose proof (sin2_cos2 (radians 36)) as P. unfold Rsqr in P. set (x := cos (radians 36)) in *. set (y := sin (radians 36)) in *.
    replace (2 * y * x * y) with (2 * x * (y * y)) by ring. replace (y * y) with (1 - x * x) by lra. ring. }
  assert (C : cosd 108 = - cosd 72).
  { unfold cosd. replace (radians 108) with (PI - radians 72) by (unfold radians; field). rewrite cos_minus, cos_PI, sin_PI. ring. }
  assert (P : 0 < c). { unfold c, cosd. apply cos_gt_0; pose proof PI_RGT_0; unfold radians; lra. }
  assert (Q : (c + 1) * (4 * (c * c) - 2 * c - 1) = 0) by (rewrite C2, C3 in C; lra). clearbody c. apply Rmult_integral in Q. destruct Q as [Q|Q]; [lra|].
  assert (S5 : sqrt 5 = 4 * c - 1). { replace 5 with ((4 * c - 1) * (4 * c - 1)) by lra. apply sqrt_square. nra. }
  rewrite S5. field.
Qed.
Lemma sqrt5 : sqrt 5 * sqrt 5 = 5 /\ 223 / 100 < sqrt 5 < 224 / 100.
Proof.
  assert (S : sqrt 5 * sqrt 5 = 5) by (apply sqrt_sqrt; lra). split; [exact S|]. pose proof (sqrt_pos 5). set (s := sqrt 5) in *. clearbody s. split; nra.
Qed.
Lemma cosd_72 : cosd 72 = (sqrt 5 - 1) / 4.
Proof. change 72%Z with (2 * 36)%Z. rewrite cosd_double, cosd_36. destruct sqrt5 as (S & _). set (s := sqrt 5) in *. clearbody s. nra. Qed.
(** the point at [a] degrees of the circle of radius x *)
Definition ringpoint (x : R) (a : Z) (h : R) : vec := (0 - x * sin (radians (IZR a)), 0 - x * cos (radians (IZR a)), h).
Lemma ring_dist x a b h k : sqdist (ringpoint x a h) (ringpoint x b k) = x * x * (2 - 2 * cosd (a - b)) + (h - k) * (h - k).
Proof.
  unfold ringpoint, sqdist, cosd. replace (radians (IZR (a - b))) with (radians (IZR a) - radians (IZR b)) by (unfold radians; rewrite minus_IZR; field). rewrite cos_minus.
  set (p := radians (IZR a)). set (q := radians (IZR b)). pose proof (sin2_cos2 p) as P. pose proof (sin2_cos2 q) as Q. unfold Rsqr in *. f_equal.
  transitivity (x * x * ((sin p * sin p + cos p * cos p) + (sin q * sin q + cos q * cos q) - 2 * (cos p * cos q + sin p * sin q))); [ring|]. rewrite P, Q. ring.
Qed.
Lemma ring_tip x a h k : sqdist (ringpoint x a h) (0, 0, k) = x * x + (h - k) * (h - k).
Proof. unfold ringpoint, sqdist. set (p := radians (IZR a)). pose proof (sin2_cos2 p) as P. unfold Rsqr in P. transitivity (x * x * (sin p * sin p + cos p * cos p) + (h - k) * (h - k)); [ring|]. rewrite P. ring. Qed.
Lemma sqdist_sym u v : sqdist u v = sqdist v u.
Proof. destruct u as ((a & b) & c), v as ((x & y) & z). unfold sqdist. ring. Qed.
Lemma ok_inj {A} (a b : A) : Ok a = Ok b -> a = b.
Proof. congruence. Qed.
Lemma pentagon x ang h : forall p, floatregpolygonvert 0 0 x 5 (IZR ang) = Ok p -> adddimz p h = map (fun a => ringpoint (IZR x) (ang + a) h) [0; 72; 144; 216; 288]%Z.
Proof.
  intros p E. unfold floatregpolygonvert in E. cbn [Z.eqb rbind] in E. change (rangeby 0 360 (360 / 5)) with (@Ok (list Z) [0; 72; 144; 216; 288]%Z) in E. cbn [rbind] in E. apply ok_inj in E. rewrite <- E. unfold adddimz. rewrite map_map. apply map_ext. intros a. cbn [fst snd]. unfold ringpoint.
  replace (radians (IZR (ang + a))) with (radians (IZR ang) + radians (IZR a)) by (unfold radians; rewrite plus_IZR; field). reflexivity.
Qed.
Lemma pentagon_ok x ang : exists p, floatregpolygonvert 0 0 x 5 (IZR ang) = Ok p.
Proof. unfold floatregpolygonvert. cbn [Z.eqb rbind]. change (rangeby 0 360 (360 / 5)) with (@Ok (list Z) [0; 72; 144; 216; 288]%Z). cbn [rbind]. eexists. reflexivity. Qed.

Lemma pysqrt_ok x : 0 <= x -> pysqrt x = Ok (sqrt x).
Proof. intros H. unfold pysqrt. now rewrite (proj2 (rlt_no x 0) H). Qed.
Lemma dist2D_sq u v : dist2D u v ^ 2 = (fst u - fst v) * (fst u - fst v) + (snd u - snd v) * (snd u - snd v).
Proof.
  unfold dist2D, dist, rsubvect. cbn [rzip]. replace (vmag _ ^ 2) with (vmag [fst u - fst v; snd u - snd v] * vmag [fst u - fst v; snd u - snd v]) by ring. rewrite vmag_sqr. cbn [map]. rewrite !rsum_cons, rsum_nil. ring.
Qed.
(** The two tips and the vertices next to them: all sides between them have the same length, that
    of a regular icosahedron; the sides from one ring to the other are shorter. *)
Definition cap (i : Z) : bool := (i <=? 5)%Z.
Lemma icosa_eq x : (0 <= x)%Z -> let X := IZR x in let z := X * (sqrt 5 - 1) / 2 in
  icosahedvert x = Ok ([(0, 0, - z)] ++ map (fun a => ringpoint X a 0) [0; 72; 144; 216; 288]%Z ++ map (fun a => ringpoint X a (2 * X - 2 * z)) [36; 108; 180; 252; 324]%Z ++ [(0, 0, 2 * X - z)]).
Proof.
  intros H X z. assert (XP : 0 <= X) by (apply IZR_le; lia). destruct sqrt5 as (S5 & B5). unfold icosahedvert. destruct (pentagon_ok x 0) as (p & P). destruct (pentagon_ok x 36) as (q & Q).
  rewrite P, Q. cbn [rbind]. pose proof (pentagon x 0 0 p P) as P0. pose proof (pentagon x 36 (2 * X - 2 * z) q Q) as Q0. fold X in P0, Q0.
  destruct p as [|p0 [|p1 p']]; try discriminate P0. change (item (p0 :: p1 :: p') 0) with (Ok p0). change (item (p0 :: p1 :: p') 1) with (Ok p1). cbn [rbind].
  assert (D : dist2D p0 p1 ^ 2 - IZR x ^ 2 = z * z).
  { rewrite dist2D_sq. assert (E0 : (fst p0, snd p0, 0) = ringpoint X 0 0) by exact (f_equal (fun l => nth 0 l (0, 0, 0)) P0). assert (E1 : (fst p1, snd p1, 0) = ringpoint X 72 0) by exact (f_equal (fun l => nth 1 l (0, 0, 0)) P0).
    pose proof (ring_dist X 0 72 0 0) as RD. rewrite <- E0, <- E1 in RD. unfold sqdist in RD. change (0 - 72)%Z with (- (72))%Z in RD. rewrite cosd_opp, cosd_72 in RD. fold X. unfold z. set (s := sqrt 5) in *. clearbody s. nra. }
  rewrite D. rewrite pysqrt_ok by nra. cbn [rbind]. rewrite sqrt_square by (unfold z; nra). rewrite P0. replace (2 * IZR x - z - z) with (2 * X - 2 * z) by (unfold X; ring). rewrite Q0. reflexivity.
Qed.
Theorem C130_icosahedra : forall x, (0 <= x)%Z -> exists vs, icosahedvert x = Ok vs /\ length vs = 12%nat /\
  forall i j, edge icosahedra i j -> sqdist (vertex vs i) (vertex vs j) =
    IZR x * IZR x * (if Bool.eqb (cap i) (cap j) then (5 - sqrt 5) / 2 else (31 - 13 * sqrt 5) / 2).
Proof.
  intros x H. rewrite icosa_eq by exact H. eexists. split; [reflexivity|]. split; [reflexivity|]. set (X := IZR x). destruct sqrt5 as (S5 & _).
  assert (C36 : forall n, In n [36; -36; 324; -324]%Z -> cosd n = (1 + sqrt 5) / 4).
  { intros n [<-|[<-|[<-|[<-|[]]]]]; rewrite <- cosd_36; [reflexivity|apply (cosd_opp 36)|apply (cosd_360 36)|]. change (-324)%Z with (- (360 - 36))%Z. rewrite cosd_opp. apply cosd_360. }
  assert (C72 : forall n, In n [72; -72; 288; -288]%Z -> cosd n = (sqrt 5 - 1) / 4).
  { intros n [<-|[<-|[<-|[<-|[]]]]]; rewrite <- cosd_72; [reflexivity|apply (cosd_opp 72)|apply (cosd_360 72)|]. change (-288)%Z with (- (360 - 72))%Z. rewrite cosd_opp. apply cosd_360. }
  set (z := X * (sqrt 5 - 1) / 2). assert (ZZ : z = X * (sqrt 5 - 1) / 2) by reflexivity. clearbody z. set (s := sqrt 5) in *. clearbody s.
  cbn [app map]. apply edges_all. unfold icosahedra.
  repeat (apply Forall_cons; [cbn [length seq]; repeat (apply Forall_cons; [unfold vertex; cbn -[IZR Rmult Rplus Rminus Rdiv sqrt sqdist ringpoint]; unfold Pos.to_nat; cbn -[IZR Rmult Rplus Rminus Rdiv sqrt sqdist ringpoint];
    first [rewrite ring_dist; cbn [Z.sub Z.add Z.opp Z.pos_sub Pos.sub Pos.add]; (first [rewrite C72 by (vm_compute; tauto)|rewrite C36 by (vm_compute; tauto)]); rewrite ?ZZ; nra
          |rewrite ring_tip, ZZ; nra|rewrite sqdist_sym, ring_tip, ZZ; nra]|]); apply Forall_nil|]). apply Forall_nil.
Qed.
Theorem C130_icosahedra_refuted : ~ (forall x vs, (0 < x)%Z -> icosahedvert x = Ok vs -> exists s, all_edges vs icosahedra s).
Proof.
  intros F. destruct (C130_icosahedra 1 ltac:(lia)) as (vs & E & _ & D). destruct (F 1%Z vs ltac:(lia) E) as (s & A).
  assert (E1 : edge icosahedra 1 2) by (exists [1; 2; 0]%Z, 0%nat; split; [now left|split; reflexivity]).
  assert (E2 : edge icosahedra 1 6) by (exists [2; 1; 6]%Z, 1%nat; split; [do 5 right; now left|split; reflexivity]).
  pose proof (A _ _ E1) as A1. pose proof (A _ _ E2) as A2. rewrite (D _ _ E1) in A1. rewrite (D _ _ E2) in A2. cbn -[IZR Rmult Rplus Rminus Rdiv sqrt] in A1, A2. destruct sqrt5 as (_ & B). lra.
Qed.
(** ** decahedra *)
Lemma sin72 : let s := sin (radians 72) in 951 / 1000 < s < 952 / 1000.
Proof.
  intros s. pose proof cosd_72 as C. unfold cosd in C. pose proof (sin2_cos2 (radians 72)) as P. unfold Rsqr in P. fold s in P. rewrite C in P. destruct sqrt5 as (S5 & B).
  assert (B' : 2236 / 1000 < sqrt 5 < 22361 / 10000) by (set (r := sqrt 5) in *; clearbody r; split; nra).
  assert (S0 : 0 < s) by (unfold s; apply sin_gt_0; pose proof PI_RGT_0; unfold radians; lra). set (r := sqrt 5) in *. clearbody r. clearbody s. split; nra.
Qed.
Lemma cos72 : let c := cos (radians 72) in 309 / 1000 < c < 3091 / 10000.
Proof.
  intros c. pose proof cosd_72 as C. unfold cosd in C. fold c in C. destruct sqrt5 as (S5 & B).
  assert (B' : 2236 / 1000 < sqrt 5 < 22361 / 10000) by (set (r := sqrt 5) in *; clearbody r; split; nra). lra.
Qed.
(** Every radius works.  The ring is the regular pentagon to the nearest integers, the tips are
    opposite each other, and the side from a tip to the first vertex of the ring is as long as
    that to the second one. *)
Theorem C130_decahedra : forall x, (0 <= x)%Z -> exists z ring, 0 <= z /\ decahedvert x = Ok ([(0, 0, - z)] ++ ring ++ [(0, 0, z)]) /\
  Forall2 (fun k p => let '(a, b, h) := p in h = 0 /\ Rabs (a - - (IZR x * sin (radians (IZR k)))) <= 1 / 2 /\ Rabs (b - - (IZR x * cos (radians (IZR k)))) <= 1 / 2) [0; 72; 144; 216; 288]%Z ring /\
  sqdist (0, 0, z) (vertex ring 0) = sqdist (vertex ring 0) (vertex ring 1).
Proof.
  intros x H. set (X := IZR x). assert (XP : 0 <= X) by (apply IZR_le; lia).
  set (rp := fun k : Z => (rround (0 - X * sin (radians (IZR k))), rround (0 - X * cos (radians (IZR k))))).
  assert (E : regpolygonvert 0 0 x 5 0 = Ok (map rp [0; 72; 144; 216; 288]%Z)).
  { unfold regpolygonvert. destruct (pentagon_ok x 0) as (p & P). unfold floatregpolygonvert. cbn [Z.eqb rbind]. change (rangeby 0 360 (360 / 5)) with (@Ok (list Z) [0; 72; 144; 216; 288]%Z). cbn [rbind]. apply f_equal. rewrite map_map. apply map_ext. intros a. unfold rp. cbn [fst snd].
    replace (radians 0 + radians (IZR a)) with (radians (IZR a)) by (unfold radians; field). reflexivity. }
  unfold decahedvert. rewrite E. cbn [rbind map]. set (L := [rp 0%Z; rp 72%Z; rp 144%Z; rp 216%Z; rp 288%Z]).
  change (item _ 0) with (Ok (real (rp 0%Z))). change (item _ 1) with (Ok (real (rp 72%Z))). cbn [rbind].
  assert (R0 : real (rp 0%Z) = (0, - X)).
  { unfold rp, real. cbn [fst snd]. replace (radians 0) with 0 by (unfold radians; field). rewrite sin_0, cos_0. replace (0 - X * 0) with (IZR 0) by ring. replace (0 - X * 1) with (IZR (- x)) by (rewrite opp_IZR; unfold X; ring). rewrite !rround_Z. now rewrite opp_IZR. }
  set (a := IZR (rround (0 - X * sin (radians 72)))). set (b := IZR (rround (0 - X * cos (radians 72)))). assert (R1 : real (rp 72%Z) = (a, b)) by reflexivity.
  assert (D : dist2D (real (rp 0%Z)) (real (rp 72%Z)) ^ 2 - IZR x ^ 2 = a * a + b * b + 2 * b * X) by (rewrite dist2D_sq, R0, R1; cbn [fst snd]; fold X; ring).
  assert (POS : 0 <= a * a + b * b + 2 * b * X).
  { pose proof (rround_near (0 - X * sin (radians 72))) as NA. pose proof (rround_near (0 - X * cos (radians 72))) as NB. fold a in NA. fold b in NB. apply Rabs_le_inv in NA, NB. pose proof sin72 as SB. pose proof cos72 as CB. cbv zeta in SB, CB.
    assert (SMALL : (x = 0 \/ x = 1 \/ x = 2 \/ x = 3 \/ 4 <= x)%Z) by lia. unfold a, b, X in *. set (s := sin (radians 72)) in *. set (c := cos (radians 72)) in *. clearbody s c. clear - SB CB SMALL NA NB.
    destruct SMALL as [->|[->|[->|[->|L]]]].
    - rewrite !Rmult_0_r. match goal with |- 0 <= ?u * ?u + ?v * ?v + 0 => pose proof (Rle_0_sqr u); pose proof (Rle_0_sqr v) end. unfold Rsqr in *. lra.
    - rewrite (rround_unique (0 - 1 * s) (-1)) by (apply Rabs_def1; lra). rewrite (rround_unique (0 - 1 * c) 0) by (apply Rabs_def1; lra). lra.
    - rewrite (rround_unique (0 - 2 * s) (-2)) by (apply Rabs_def1; lra). rewrite (rround_unique (0 - 2 * c) (-1)) by (apply Rabs_def1; lra). lra.
    - rewrite (rround_unique (0 - 3 * s) (-3)) by (apply Rabs_def1; lra). rewrite (rround_unique (0 - 3 * c) (-1)) by (apply Rabs_def1; lra). lra.
    - set (a := IZR (rround (0 - IZR x * s))) in *. set (b := IZR (rround (0 - IZR x * c))) in *. clearbody a b. apply IZR_le in L. set (X := IZR x) in *. clearbody X.
      assert (A1 : a <= - (951 / 1000 * X - 1 / 2)) by nra. assert (A2 : 0 <= 951 / 1000 * X - 1 / 2) by lra. assert (AA : (951 / 1000 * X - 1 / 2) * (951 / 1000 * X - 1 / 2) <= a * a) by nra.
      assert (B1 : - (3091 / 10000 * X + 1 / 2) <= b) by nra. assert (BB : (X - (3091 / 10000 * X + 1 / 2)) * (X - (3091 / 10000 * X + 1 / 2)) <= (X + b) * (X + b)) by (apply Rmult_le_compat; lra). nra. }
  rewrite D, pysqrt_ok by exact POS. cbn [rbind]. set (z := sqrt (a * a + b * b + 2 * b * X)). assert (ZZ : z * z = a * a + b * b + 2 * b * X) by (apply sqrt_sqrt; exact POS).
  eexists z, (adddimz [real (rp 0%Z); real (rp 72%Z); real (rp 144%Z); real (rp 216%Z); real (rp 288%Z)] 0). split; [apply sqrt_pos|]. split; [reflexivity|]. split.
  - unfold adddimz. cbn [map fst snd]. assert (N : forall k, Rabs (fst (real (rp k)) - - (X * sin (radians (IZR k)))) <= 1 / 2 /\ Rabs (snd (real (rp k)) - - (X * cos (radians (IZR k)))) <= 1 / 2).
    { intros k. unfold rp, real. cbn [fst snd]. replace (- (X * sin (radians (IZR k)))) with (0 - X * sin (radians (IZR k))) by ring. replace (- (X * cos (radians (IZR k)))) with (0 - X * cos (radians (IZR k))) by ring. split; rewrite Rabs_minus_sym; apply rround_near. }
    repeat (constructor; [split; [reflexivity|apply N]|]). constructor.
  - change (vertex (adddimz [real (rp 0%Z); real (rp 72%Z); real (rp 144%Z); real (rp 216%Z); real (rp 288%Z)] 0) 0) with (fst (real (rp 0%Z)), snd (real (rp 0%Z)), 0).
    change (vertex (adddimz [real (rp 0%Z); real (rp 72%Z); real (rp 144%Z); real (rp 216%Z); real (rp 288%Z)] 0) 1) with (fst (real (rp 72%Z)), snd (real (rp 72%Z)), 0). rewrite R0, R1. cbn [fst snd]. unfold sqdist. clearbody z. lra.
Qed.

(** ** spheres, cylinders and cones *)
Definition on_sphere (c : vec) (r theta phi : R) : vec := vadd c (r * sin phi * cos theta, r * sin phi * sin theta, r * cos phi).
Lemma veq_iff u v : veq u v = true <-> u = v.
Proof.
  destruct u as ((a & b) & c), v as ((x & y) & z). unfold veq. rewrite !andb_true_iff, !req_iff. split; [intros ((-> & ->) & ->); reflexivity|]. intros E. injection E as -> -> ->. auto.
Qed.
Definition addp (l : list vec) (p : vec) : list vec := if existsb (veq p) l then l else l ++ [p].
Lemma addp_in l p q : In q (addp l p) <-> In q l \/ q = p.
Proof.
  unfold addp. destruct (existsb (veq p) l) eqn:E.
  - apply existsb_exists in E. destruct E as (w & W & E). apply veq_iff in E. subst w. split; [auto|]. intros [H| ->]; assumption.
  - rewrite in_app_iff. cbn [In]. split; [intros [H|[H|[]]]; auto|]. intros [H|H]; auto.
Qed.
Lemma addp_nodup l p : NoDup l -> NoDup (addp l p).
Proof.
  intros H. unfold addp. destruct (existsb (veq p) l) eqn:E; [exact H|]. apply NoDup_app'; [exact H|repeat constructor; intros []|]. intros q Q [<-|[]]. rename Q into I. assert (X : existsb (veq p) l = true) by (apply existsb_exists; exists p; split; [exact I|now apply veq_iff]). congruence.
Qed.

Lemma addp_fold l : forall acc, NoDup acc -> NoDup (fold_left addp l acc) /\ forall q, In q (fold_left addp l acc) <-> In q acc \/ In q l.
Proof.
  induction l as [|p l IH]; intros acc N; cbn [fold_left In]; [split; [exact N|tauto]|]. destruct (IH (addp acc p) (addp_nodup _ _ N)) as (I1 & I2). split; [exact I1|]. intros q. rewrite I2, addp_in. split; [intros [[A| ->]|A]; auto|]. intros [A|[<-|A]]; auto.
Qed.
Lemma fold_fold {A B C} (f : A -> B -> C) (g : list C -> C -> list C) bs : forall l acc,
  fold_left (fun acc a => fold_left (fun acc b => g acc (f a b)) bs acc) l acc = fold_left g (flat_map (fun a => map (f a) bs) l) acc.
Proof.
  assert (K : forall a bs acc, fold_left (fun acc b => g acc (f a b)) bs acc = fold_left g (map (f a) bs) acc) by (clear; intros a bs; induction bs as [|b bs IH]; intros acc; cbn [fold_left map]; [reflexivity|apply IH]).
  induction l as [|a l IH]; intros acc; cbn [fold_left flat_map]; [reflexivity|]. rewrite fold_left_app, <- K. apply IH.
Qed.
Lemma rangeby_pos b k : (0 < k)%Z -> rangeby 0 b k = Ok (range_step 0 b k).
Proof. intros K. unfold rangeby. destruct (Z.eqb_spec k 0); [lia|]. now rewrite (proj2 (Z.ltb_lt 0 k) K). Qed.
Lemma in_steps b k x : (0 < k)%Z -> In x (range_step 0 b k) <-> (0 <= x < b /\ (k | x))%Z.
Proof.
  intros K. unfold range_step. rewrite in_map_iff. split.
  - intros (i & <- & I). apply in_range in I. unfold stepcount in I. destruct (Z.leb_spec b 0); [lia|]. split; [|exists i; lia]. split; [nia|]. assert (i <= (b - 0 - 1) / k)%Z by lia. Z.to_euclidean_division_equations; nia.
  - intros (X & (i & ->)). exists i. split; [lia|]. apply in_range. unfold stepcount. destruct (Z.leb_spec b 0); [lia|]. split; [nia|]. apply Z.lt_succ_r. apply Z.div_le_lower_bound; lia.
Qed.
Lemma sphere_sq c r theta phi : sqdist (on_sphere c r theta phi) c = r * r.
Proof.
  destruct c as ((x & y) & z). unfold on_sphere, vadd, sqdist. pose proof (sin2_cos2 theta) as T. pose proof (sin2_cos2 phi) as P. unfold Rsqr in *.
  transitivity (r * r * (sin phi * sin phi * (sin theta * sin theta + cos theta * cos theta) + cos phi * cos phi)); [ring|]. rewrite T, Rmult_1_r, P. ring.
Qed.
(** All points at the multiples of the step on the sphere, each once, and the point (0, 0, -r). *)
Theorem C130_sphere : forall vcen r step, (0 < step)%Z -> exists l, spherevert vcen r step = Ok l /\ NoDup l /\
  (forall p, In p l <-> p = (0, 0, - r) \/ exists theta phi, (0 <= theta < 360)%Z /\ (0 <= phi < 180)%Z /\ (step | theta)%Z /\ (step | phi)%Z /\ p = on_sphere vcen r (radians (IZR theta)) (radians (IZR phi))) /\
  (vcen = (0, 0, 0) -> forall p, In p l -> sqdist p vcen = r * r).
Proof.
  intros vcen r step S. unfold spherevert. rewrite !rangeby_pos by exact S. cbn [rbind]. eexists. split; [reflexivity|]. change (fun plist p => if existsb (veq p) plist then plist else plist ++ [p]) with addp.
  fold (addp (fold_left (fun plist theta => fold_left (fun plist phi => addp plist (vadd vcen (spherical2rectcoord3D (r, radians (IZR theta), radians (IZR phi))))) (range_step 0 180 step) plist) (range_step 0 360 step) []) (0, 0, - r)).
  rewrite (fold_fold (fun theta phi => vadd vcen (spherical2rectcoord3D (r, radians (IZR theta), radians (IZR phi)))) addp). set (F := flat_map _ _).
  destruct (addp_fold F [] (NoDup_nil _)) as (N & I). split; [now apply addp_nodup|].
  assert (M : forall p, In p (addp (fold_left addp F []) (0, 0, - r)) <-> p = (0, 0, - r) \/ exists theta phi, (0 <= theta < 360)%Z /\ (0 <= phi < 180)%Z /\ (step | theta)%Z /\ (step | phi)%Z /\ p = on_sphere vcen r (radians (IZR theta)) (radians (IZR phi))).
  { intros p. rewrite addp_in, I. cbn [In]. unfold F. rewrite in_flat_map. split.
    - intros [[[]|(t & T & P)]|E]; [|now left]. right. apply in_map_iff in P. destruct P as (f & E & P). apply in_steps in T, P; [|exact S|exact S]. exists t, f. split; [apply T|]. split; [apply P|]. split; [apply T|]. split; [apply P|]. now rewrite <- E.
    - intros [E|(t & f & T & P & D1 & D2 & E)]; [now right|]. left. right. exists t. split; [now apply in_steps|]. apply in_map_iff. exists f. split; [now rewrite E|now apply in_steps]. }
  split; [exact M|]. intros -> p P. apply M in P. destruct P as [->|(t & f & _ & _ & _ & _ & ->)]; [unfold sqdist; ring|apply sphere_sq].
Qed.
(** The last point does not move with the centre. *)
Theorem C130_sphere_refuted : ~ (forall vcen r step l p, (0 < step)%Z -> spherevert vcen r step = Ok l -> In p l -> sqdist p vcen = r * r).
Proof.
  intros F. destruct (C130_sphere (1, 0, 0) 1 90 ltac:(lia)) as (l & E & _ & M & _). specialize (F (1, 0, 0) 1 90%Z l (0, 0, - 1) ltac:(lia) E (proj2 (M _) (or_introl eq_refl))). unfold sqdist in F. lra.
Qed.
(** Around the origin: two poles and 180 / step - 1 circles of 360 / step points. *)
Lemma sphere_inj r t1 p1 t2 p2 : r <> 0 -> 0 <= t1 < 2 * PI -> 0 <= t2 < 2 * PI -> 0 < p1 < PI -> 0 < p2 < PI -> on_sphere (0, 0, 0) r t1 p1 = on_sphere (0, 0, 0) r t2 p2 -> t1 = t2 /\ p1 = p2.
Proof.
  intros R T1 T2 P1 P2 E. unfold on_sphere, vadd in E. rewrite !Rplus_0_l in E.
  assert (EX : r * sin p1 * cos t1 = r * sin p2 * cos t2) by congruence. assert (EY : r * sin p1 * sin t1 = r * sin p2 * sin t2) by congruence. assert (EZ : r * cos p1 = r * cos p2) by congruence.
  apply Rmult_eq_reg_l in EZ; [|exact R]. assert (PP : p1 = p2) by (apply cos_inj; lra). subst p2. split; [|reflexivity]. assert (S : 0 < sin p1) by (apply sin_gt_0; lra). assert (N : r * sin p1 <> 0) by (apply Rmult_integral_contrapositive; lra).
  apply Rmult_eq_reg_l in EX, EY; try exact N. now apply angle_unique.
Qed.
Lemma steps_multiples b k : (0 < k)%Z -> (k | b)%Z -> (0 <= b)%Z -> range_step 0 b k = map (fun i => (i * k)%Z) (range 0 (b / k)).
Proof.
  intros K (q & ->) B. unfold range_step, stepcount. rewrite Z.div_mul by lia. destruct (Z.leb_spec (q * k) 0).
  - assert (q = 0)%Z by nia. subst q. reflexivity.
  - replace ((q * k - 0 - 1) / k + 1)%Z with q by (Z.to_euclidean_division_equations; nia). apply map_ext. intros i. lia.
Qed.
Lemma nodup_map_in {A B} (f : A -> B) l : (forall x y, In x l -> In y l -> f x = f y -> x = y) -> NoDup l -> NoDup (map f l).
Proof.
  intros H N. induction N as [|a l I N IH]; cbn [map]; constructor.
  - intros P. apply in_map_iff in P. destruct P as (b & E & P). assert (b = a) by (apply H; [now right|now left|exact E]). subst b. contradiction.
  - apply IH. intros x y X Y. apply H; now right.
Qed.
Lemma nodup_flat {A B} (f : A -> list B) l : NoDup l -> (forall a, In a l -> NoDup (f a)) -> (forall a b p, In a l -> In b l -> a <> b -> In p (f a) -> In p (f b) -> False) -> NoDup (flat_map f l).
Proof.
  intros N. induction N as [|a l I N IH]; intros H1 H2; cbn [flat_map]; [constructor|]. apply NoDup_app'.
  - apply H1. now left.
  - apply IH; [intros b B'; apply H1; now right|]. intros x y p X Y. apply H2; now right.
  - intros p P Q. apply in_flat_map in Q. destruct Q as (b & B' & Q). apply (H2 a b p); try assumption; [now left|now right|]. intros ->. contradiction.
Qed.
Theorem C130_sphere_count : forall r step l, (0 < step)%Z -> (step | 180)%Z -> r <> 0 -> spherevert (0, 0, 0) r step = Ok l -> Z.of_nat (length l) = (2 + 360 / step * (180 / step - 1))%Z.
Proof.
  intros r step l S D R E. destruct (C130_sphere (0, 0, 0) r step S) as (l' & E' & N & M & _). rewrite E in E'. apply ok_inj in E'. subst l'.
  destruct D as (q & Q). assert (Q1 : (1 <= q)%Z) by nia. assert (D180 : (180 / step = q)%Z) by (rewrite Q; apply Z.div_mul; lia). assert (D360 : (360 / step = 2 * q)%Z) by (replace 360%Z with (2 * q * step)%Z by lia; apply Z.div_mul; lia).
  set (pt := fun t f : Z => on_sphere (0, 0, 0) r (radians (IZR (t * step))) (radians (IZR (f * step)))).
  set (grid := flat_map (fun t => map (pt t) (range 1 q)) (range 0 (2 * q))).
  assert (AT : forall t, (0 <= t < 2 * q)%Z -> 0 <= radians (IZR (t * step)) < 2 * PI).
  { intros t T. pose proof PI_RGT_0. assert (0 <= IZR (t * step) < 360) by (split; [apply IZR_le|apply IZR_lt]; nia). unfold radians. split; [nra|]. replace (2 * PI) with (360 * PI / 180) by field. unfold Rdiv. apply Rmult_lt_compat_r; [lra|]. apply Rmult_lt_compat_r; lra. }
  assert (AP : forall f, (1 <= f < q)%Z -> 0 < radians (IZR (f * step)) < PI).
  { intros f T. pose proof PI_RGT_0. assert (0 < IZR (f * step) < 180) by (split; apply IZR_lt; nia). unfold radians. split; [nra|]. replace PI with (180 * PI / 180) at 2 by field. unfold Rdiv. apply Rmult_lt_compat_r; [lra|]. apply Rmult_lt_compat_r; lra. }
  assert (RI : forall a b, radians (IZR (a * step)) = radians (IZR (b * step)) -> a = b).
  { intros a b H. pose proof PI_RGT_0. unfold radians in H. assert (HH : IZR (a * step) = IZR (b * step)) by (apply (Rmult_eq_reg_r (PI / 180)); [lra|lra]). apply eq_IZR in HH. nia. }
  assert (PI1 : forall t f t' f', (0 <= t < 2 * q)%Z -> (1 <= f < q)%Z -> (0 <= t' < 2 * q)%Z -> (1 <= f' < q)%Z -> pt t f = pt t' f' -> t = t' /\ f = f').
  { intros t f t' f' T F T' F' H. apply sphere_inj in H; [|exact R|now apply AT|now apply AT|now apply AP|now apply AP]. destruct H as (H1 & H2). split; now apply RI. }
  assert (NG : NoDup grid).
  { unfold grid. apply nodup_flat.
    - apply NoDup_range.
    - intros t T. apply in_range in T. apply nodup_map_in; [|apply NoDup_range]. intros f f' F F' H. apply in_range in F, F'. now apply PI1 in H.
    - intros t t' p T T' NE A B. apply in_range in T, T'. apply in_map_iff in A, B. destruct A as (f & <- & F). destruct B as (f' & H & F'). apply in_range in F, F'. apply PI1 in H; try assumption. destruct H. congruence. }
  assert (LG : Z.of_nat (length grid) = (2 * q * (q - 1))%Z).
  { unfold grid. assert (K : forall ts, Z.of_nat (length (flat_map (fun t => map (pt t) (range 1 q)) ts)) = (Z.of_nat (length ts) * (q - 1))%Z).
    { induction ts as [|t ts IH]; [reflexivity|]. cbn [flat_map]. rewrite app_length, map_length, Nat2Z.inj_add, IH. cbn [length]. pose proof (zlen_range 1 q) as L. unfold zlen in L. rewrite L. lia. }
    rewrite K. pose proof (zlen_range 0 (2 * q)) as L. unfold zlen in L. rewrite L. lia. }
  assert (PZ : forall t f, pt t f = (r * sin (radians (IZR (f * step))) * cos (radians (IZR (t * step))), r * sin (radians (IZR (f * step))) * sin (radians (IZR (t * step))), r * cos (radians (IZR (f * step))))) by (intros t f; unfold pt, on_sphere, vadd; now rewrite !Rplus_0_l).
  assert (NP : forall h t f, (1 <= f < q)%Z -> pt t f <> (0, 0, h)).
  { intros h t f F H. rewrite PZ in H. assert (HX : r * sin (radians (IZR (f * step))) * cos (radians (IZR (t * step))) = 0) by congruence. assert (HY : r * sin (radians (IZR (f * step))) * sin (radians (IZR (t * step))) = 0) by congruence.
    assert (SP : 0 < sin (radians (IZR (f * step)))) by (apply sin_gt_0; apply AP; exact F). assert (NZ : r * sin (radians (IZR (f * step))) <> 0) by (apply Rmult_integral_contrapositive; lra).
    apply Rmult_integral in HX, HY. destruct HX as [HX|HX]; [contradiction|]. destruct HY as [HY|HY]; [contradiction|]. pose proof (sin2_cos2 (radians (IZR (t * step)))) as P. unfold Rsqr in P. rewrite HX, HY in P. lra. }
  assert (ND : NoDup ((0, 0, r) :: (0, 0, - r) :: grid)).
  { constructor; [|constructor; [|exact NG]].
    - intros [H|H]; [assert (- r = r) by congruence; lra|]. unfold grid in H. apply in_flat_map in H. destruct H as (t & _ & H). apply in_map_iff in H. destruct H as (f & H & F). apply in_range in F. now apply NP in H.
    - intros H. unfold grid in H. apply in_flat_map in H. destruct H as (t & _ & H). apply in_map_iff in H. destruct H as (f & H & F). apply in_range in F. now apply NP in H. }
  assert (EQ : forall p, In p l <-> In p ((0, 0, r) :: (0, 0, - r) :: grid)).
  { intros p. rewrite M. cbn [In]. split.
    - intros [->|(t & f & T & F & (t' & T') & (f' & F') & ->)]; [auto|]. destruct (Z.eq_dec f' 0) as [->|Z0].
      + left. subst f. rewrite Z.mul_0_l. unfold on_sphere, vadd. replace (radians 0) with 0 by (unfold radians; field). rewrite sin_0, cos_0. f_equal; [f_equal|]; ring.
      + right. right. subst t f. unfold grid. apply in_flat_map. exists t'. split; [apply in_range; nia|]. apply in_map_iff. exists f'. split; [reflexivity|apply in_range; nia].
    - intros [<-|[<-|H]]; [|now left|].
      + right. exists 0%Z, 0%Z. split; [lia|]. split; [lia|]. split; [apply Z.divide_0_r|]. split; [apply Z.divide_0_r|]. unfold on_sphere, vadd. replace (radians 0) with 0 by (unfold radians; field). rewrite sin_0, cos_0. f_equal; [f_equal|]; ring.
      + right. unfold grid in H. apply in_flat_map in H. destruct H as (t & T & H). apply in_map_iff in H. destruct H as (f & <- & F). apply in_range in T, F. exists (t * step)%Z, (f * step)%Z. split; [nia|]. split; [nia|]. split; [now exists t|]. split; [now exists f|]. reflexivity. }
  assert (LE : length l = length ((0, 0, r) :: (0, 0, - r) :: grid)) by (apply Nat.le_antisymm; apply NoDup_incl_length; try assumption; intros p P; now apply EQ). rewrite LE, D180, D360. clear - LG. clearbody grid. cbn [length]. unfold vec in *. rewrite !Nat2Z.inj_succ, LG. unfold Z.succ. ring.
Qed.

(** The rings of a cylinder: vertex 2 k at the bottom and 2 k + 1 at the top, at the angle k step,
    at distance r from the axis; if the step divides 360 the last two steps repeat the first two. *)
Theorem C130_cylinder : forall vcen r zlen step, (0 < step)%Z -> exists n l, cylindervert vcen r zlen step = Ok l /\ length l = (2 * n)%nat /\
  (forall k, (k < n)%nat <-> (Z.of_nat k * step < 360 + 2 * step)%Z) /\
  (forall k, (k < n)%nat -> let a := radians (IZR (Z.of_nat k * step)) in
    nth (2 * k) l (0, 0, 0) = vadd vcen (r * cos a, r * sin a, - (zlen / 2)) /\ nth (2 * k + 1) l (0, 0, 0) = vadd vcen (r * cos a, r * sin a, zlen / 2)) /\
  (forall q, (q * step = 360)%Z -> n = Z.to_nat (q + 2) /\ forall i, (i < 4)%nat -> nth (2 * Z.to_nat q + i) l (0, 0, 0) = nth i l (0, 0, 0)).
Proof.
  intros vcen r zlen step S. unfold cylindervert. rewrite rangeby_pos by exact S. cbn [rbind]. rewrite Z.shiftl_mul_pow2 by lia. change (2 ^ 1)%Z with 2%Z. rewrite (Z.mul_comm step 2).
  set (m := stepcount 0 (360 + 2 * step) step). assert (M : m = ((360 + 2 * step - 1) / step + 1)%Z) by (unfold m, stepcount; destruct (Z.leb_spec (360 + 2 * step) 0); [lia|]; now rewrite Z.sub_0_r).
  assert (M0 : (0 < m)%Z) by (rewrite M; Z.to_euclidean_division_equations; nia).
  set (g := fun theta : Z => [vadd vcen (cylindrical2rectcoord3D (r, radians (IZR theta), - (zlen / 2))); vadd vcen (cylindrical2rectcoord3D (r, radians (IZR theta), zlen / 2))]).
  set (l := flat_map g (range_step 0 (360 + 2 * step) step)). exists (Z.to_nat m), l. split; [reflexivity|].
  assert (LG : forall ts, length (flat_map g ts) = (2 * length ts)%nat) by (induction ts as [|t ts IH]; [reflexivity|]; cbn [flat_map]; rewrite app_length, IH; cbn [length g]; lia).
  assert (LR : length (range_step 0 (360 + 2 * step) step) = Z.to_nat m) by (unfold range_step, range; rewrite !map_length, seq_length, Z.sub_0_r; reflexivity).
  assert (NG : forall ts k, (k < length ts)%nat -> nth (2 * k) (flat_map g ts) (0, 0, 0) = nth 0 (g (nth k ts 0%Z)) (0, 0, 0) /\ nth (2 * k + 1) (flat_map g ts) (0, 0, 0) = nth 1 (g (nth k ts 0%Z)) (0, 0, 0)).
  { induction ts as [|t ts IH]; intros k K; [cbn in K; lia|]. destruct k as [|k]; [split; reflexivity|]. cbn [length] in K. destruct (IH k ltac:(lia)) as (I1 & I2). cbn [flat_map]. replace (2 * Datatypes.S k)%nat with (Datatypes.S (Datatypes.S (2 * k))) by lia. split; [exact I1|exact I2]. }
  assert (NR : forall k, (k < Z.to_nat m)%nat -> nth k (range_step 0 (360 + 2 * step) step) 0%Z = (Z.of_nat k * step)%Z).
  { intros k K. unfold range_step, range. rewrite map_map, Z.sub_0_r. fold m. rewrite (nth_indep _ _ (0 + (0 + Z.of_nat 0) * step)%Z) by (rewrite map_length, seq_length; exact K). rewrite (map_nth (fun x => (0 + (0 + Z.of_nat x) * step)%Z)), seq_nth by exact K. lia. }
  assert (PTS : forall k, (k < Z.to_nat m)%nat -> let a := radians (IZR (Z.of_nat k * step)) in
    nth (2 * k) l (0, 0, 0) = vadd vcen (r * cos a, r * sin a, - (zlen / 2)) /\ nth (2 * k + 1) l (0, 0, 0) = vadd vcen (r * cos a, r * sin a, zlen / 2)).
  { intros k K a. unfold l. destruct (NG (range_step 0 (360 + 2 * step) step) k ltac:(lia)) as (I1 & I2). rewrite I1, I2, NR by exact K. split; reflexivity. }
  assert (BND : forall k, (k < Z.to_nat m)%nat <-> (Z.of_nat k * step < 360 + 2 * step)%Z).
  { intros k. split.
    - intros K. assert (Z.of_nat k <= (360 + 2 * step - 1) / step)%Z by lia. Z.to_euclidean_division_equations; nia.
    - intros K. assert (Z.of_nat k <= (360 + 2 * step - 1) / step)%Z by (apply Z.div_le_lower_bound; nia). lia. }
  split; [unfold l; rewrite LG, LR; reflexivity|]. split; [exact BND|]. split; [exact PTS|].
  intros q Q. assert (MQ : m = (q + 2)%Z) by (rewrite M; Z.to_euclidean_division_equations; nia). split; [now rewrite MQ|].
  assert (ROT : forall k, (k < 2)%nat -> radians (IZR (Z.of_nat (Z.to_nat q + k) * step)) = radians (IZR (Z.of_nat k * step)) + 2 * PI).
  { intros k K. rewrite Nat2Z.inj_add, Z2Nat.id by nia. rewrite Z.mul_add_distr_r, Q, plus_IZR. unfold radians. field. }
  assert (TWO : forall a, cos (a + 2 * PI) = cos a /\ sin (a + 2 * PI) = sin a) by (intros a; rewrite cos_plus, sin_plus, cos_2PI, sin_2PI; split; ring).
  assert (K2 : forall k, (k < 2)%nat -> nth (2 * (Z.to_nat q + k)) l (0, 0, 0) = nth (2 * k) l (0, 0, 0) /\ nth (2 * (Z.to_nat q + k) + 1) l (0, 0, 0) = nth (2 * k + 1) l (0, 0, 0)).
  { intros k K. destruct (PTS k ltac:(nia)) as (A1 & A2). destruct (PTS (Z.to_nat q + k)%nat ltac:(lia)) as (B1 & B2). cbv zeta in *. rewrite A1, A2, B1, B2, (ROT k K). destruct (TWO (radians (IZR (Z.of_nat k * step)))) as (C1 & C2). rewrite C1, C2. split; reflexivity. }
  intros i I. destruct (K2 0%nat ltac:(lia)) as (A1 & A2). destruct (K2 1%nat ltac:(lia)) as (B1 & B2). assert (i = 0 \/ i = 1 \/ i = 2 \/ i = 3)%nat as [->|[->|[->| ->]]] by lia.
  - replace (2 * Z.to_nat q + 0)%nat with (2 * (Z.to_nat q + 0))%nat by lia. exact A1.
  - replace (2 * Z.to_nat q + 1)%nat with (2 * (Z.to_nat q + 0) + 1)%nat by lia. exact A2.
  - replace (2 * Z.to_nat q + 2)%nat with (2 * (Z.to_nat q + 1))%nat by lia. exact B1.
  - replace (2 * Z.to_nat q + 3)%nat with (2 * (Z.to_nat q + 1) + 1)%nat by lia. exact B2.
Qed.
(** Cones: the tip below the centre, the ring above it. *)
Theorem C130_cone : forall vcen r zlen step, (0 < step)%Z -> exists n l, conevert vcen r zlen step = Ok (vsub vcen (0, 0, zlen / 2) :: l) /\ length l = n /\
  (forall k, (k < n)%nat <-> (Z.of_nat k * step < 360 + 2 * step)%Z) /\
  (forall k, (k < n)%nat -> let a := radians (IZR (Z.of_nat k * step)) in nth k l (0, 0, 0) = vadd vcen (r * cos a, r * sin a, zlen / 2)).
Proof.
  intros vcen r zlen step S. unfold conevert. rewrite rangeby_pos by exact S. cbn [rbind]. rewrite Z.shiftl_mul_pow2 by lia. change (2 ^ 1)%Z with 2%Z. rewrite (Z.mul_comm step 2).
  set (m := stepcount 0 (360 + 2 * step) step). assert (M : m = ((360 + 2 * step - 1) / step + 1)%Z) by (unfold m, stepcount; destruct (Z.leb_spec (360 + 2 * step) 0); [lia|]; now rewrite Z.sub_0_r).
  exists (Z.to_nat m). eexists. split; [reflexivity|]. split; [unfold range_step, range; rewrite !map_length, seq_length, Z.sub_0_r; reflexivity|]. split.
  - intros k. split; intros K.
    + assert (Z.of_nat k <= (360 + 2 * step - 1) / step)%Z by lia. Z.to_euclidean_division_equations; nia.
    + assert (Z.of_nat k <= (360 + 2 * step - 1) / step)%Z by (apply Z.div_le_lower_bound; nia). lia.
  - intros k K. unfold range_step, range. rewrite !map_map, Z.sub_0_r. fold m. set (F := fun x : nat => vadd vcen (cylindrical2rectcoord3D (r, radians (IZR (0 + (0 + Z.of_nat x) * step)), zlen / 2))).
    rewrite (nth_indep _ _ (F 0%nat)) by (rewrite map_length, seq_length; exact K). rewrite (map_nth F), seq_nth by exact K. unfold F. rewrite !Z.add_0_l. reflexivity.
Qed.
Theorem C130_step_0 : forall vcen r zlen, spherevert vcen r 0 = Err ValueError /\ cylindervert vcen r zlen 0 = Err ValueError /\ conevert vcen r zlen 0 = Err ValueError.
Proof. intros. repeat split. Qed.

(** a cube seen from the origin, a decahedron, an icosahedron, a sphere in steps of 45 degrees *)
Example C130_ex :
  (exists rot proj, perspective (cubevert 2) (rotvec3D 0 0 0) (0, 0, 10) 5 = Ok (rot, proj) /\ vertex rot 7 = (-2, 2, 12)) /\
  perspective [(0, 0, -10)] (rotvec3D 0 0 0) (0, 0, 10) 5 = Err ZeroDivisionError /\
  (exists vs, decahedvert 10 = Ok vs) /\ (exists vs, icosahedvert 10 = Ok vs /\ length vs = 12%nat) /\ edge icosahedra 6 11 /\ cap 6 = cap 11 /\
  exists l, spherevert (0, 0, 0) 3 45 = Ok l /\ length l = 26%nat.
Proof.
  destruct (C130_perspective 0 0 0 (0, 0, 10)) as (f & _ & _ & F0 & FZ & P). specialize (FZ eq_refl eq_refl eq_refl). split; [|split; [|split; [|split; [|split; [|split]]]]].
  - specialize (P (cubevert 2) 5). destruct (perspective _ _ _ _) as [(rot, proj)|e].
    + exists rot, proj. split; [reflexivity|]. destruct P as (-> & _). unfold vertex, cubevert. cbn [map]. change (nth (Z.to_nat 7) _ (0, 0, 0)) with (f (2, 2, 2)). rewrite FZ. unfold vadd. f_equal; [f_equal|]; ring.
    + destruct P as (_ & p & I & D). exfalso. cbn [cubevert In] in I. repeat (destruct I as [<-|I]; [rewrite FZ in D; unfold depth, vadd in D; cbn [snd] in D; lra|]). destruct I.
  - unfold perspective. cbn [res_map]. replace (rotated (rotvec3D 0 0 0) (0, 0, 10) (0, 0, -10)) with (0, 0, 0); [now rewrite rdiv_0|].
    unfold rotated, rotvec3D, computerotvec. replace (radians 0) with 0 by (unfold radians; field). rewrite sin_0, cos_0. f_equal; [f_equal|]; ring.
  - destruct (C130_decahedra 10 ltac:(lia)) as (z & ring & _ & E & _). eexists. exact E.
  - destruct (C130_icosahedra 10 ltac:(lia)) as (vs & E & L & _). now exists vs.
  - exists [7; 6; 11]%Z, 1%nat. split; [do 15 right; now left|split; reflexivity].
  - reflexivity.
  - destruct (C130_sphere (0, 0, 0) 3 45 ltac:(lia)) as (l & E & _). exists l. split; [exact E|]. assert (D : (45 | 180)%Z) by now exists 4%Z. pose proof (C130_sphere_count 3 45 l ltac:(lia) D ltac:(lra) E) as C. change (2 + 360 / 45 * (180 / 45 - 1))%Z with 26%Z in C. lia.
Qed.
Print Assumptions C130_perspective.
Print Assumptions C130_cube.
Print Assumptions C130_tetrahedra_refuted.
Print Assumptions C130_hexahedra_refuted.
Print Assumptions C130_octahedra_refuted.
Print Assumptions C130_octahedra.
Print Assumptions C130_icosahedra.
Print Assumptions C130_icosahedra_refuted.
Print Assumptions C130_decahedra.
Print Assumptions C130_sphere.
Print Assumptions C130_sphere_refuted.
Print Assumptions C130_sphere_count.
Print Assumptions C130_cylinder.
Print Assumptions C130_cone.
Print Assumptions C130_step_0.
