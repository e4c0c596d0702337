(** Property C148: rotations, regular polygons, projections and flowers with the rounding of floats. *)
From Coq Require Import ZArith Reals List Lia Lra Bool Psatz.
From Verif Require Import PyBase PyFacts Bmp Geometry Shapes Solids Exact MathLib Coords RealProofs Sweeps Vertices Floats FloatProofs PropFloats FloatEscape PropFloatEscape PropEscape FractProofs5 FloatSweeps PropFloatSweeps FloatTurns.
Import ListNotations.
Open Scope R_scope.

(** ** Degrees to radians *)
Lemma pi_size : 0 < PI <= 4.
Proof. split; [apply PI_RGT_0|apply PI_4]. Qed.
Lemma deg_err : Rabs (fl (fl PI / 180) - PI / 180) <= u * 6 / 100 /\ Rabs (fl (fl PI / 180)) <= 23 / 1000.
Proof.
  destruct consts as (U & E & _). assert (EU : eta <= u / 100) by (unfold eta, u; lra). pose proof pi_size as P. assert (N := fl_near PI 4 ltac:(rewrite Rabs_pos_eq; lra)). apply Rabs_le_inv in N.
  assert (N2 := fl_near (fl PI / 180) (2.26 / 100) ltac:(apply Rabs_le; lra)). apply Rabs_le_inv in N2. split; apply Rabs_le; lra.
Qed.
Theorem C148_radians : fradians 0 = 0 /\ (forall x, fradians (- x) = - fradians x) /\ (forall x y, x <= y -> fradians x <= fradians y) /\
  (forall x B, Rabs x <= B -> Rabs (fradians x - x * PI / 180) <= B / 10 ^ 17 + / IZR (2 ^ 60)).
Proof.
  destruct deg_err as (DE & DB). unfold fradians. set (g := fl (fl PI / 180)) in *. repeat split.
  - rewrite Rmult_0_l. apply fl_0.
  - intros x. rewrite <- fl_opp. f_equal. ring.
  - intros x y L. apply fl_le, Rmult_le_compat_r; [|exact L]. unfold g. apply fl_nonneg, Rmult_le_pos; [apply fl_nonneg; pose proof pi_size; lra|lra].
  - intros x B X. destruct consts as (U & E & _). pose proof (Rabs_pos x) as X0. pose proof (near_mul g g x 0 B (23 / 1000) (abs0 g) X DB) as N. rewrite (Rmult_comm g x) in N.
    assert (D : Rabs (x * g - x * PI / 180) <= B * (u * 6 / 100)) by (replace (x * g - x * PI / 180) with (x * (g - PI / 180)) by field; rewrite Rabs_mult; apply Rmult_le_compat; (lra || apply Rabs_pos)).
    assert (UB : 0 <= u * B <= B * / 9000000000000000) by (split; [apply Rmult_le_pos; lra|rewrite Rmult_comm; apply Rmult_le_compat_l; lra]). fold eta. replace (B / 10 ^ 17) with (B * / 100000000000000000) by (cbn [pow]; field). apply Rabs_le_inv in N, D. apply Rabs_le. lra.
Qed.
Lemma radians_near x B : Rabs x <= B -> B <= 65536 -> Rabs (fradians x - radians x) <= / 1000000000000.
Proof.
  intros X H. destruct C148_radians as (_ & _ & _ & K). eapply Rle_trans; [apply (K x B X)|]. fold eta. destruct consts as (U & E & _). cbn [pow]. lra.
Qed.
(** ** Rotations *)
Definition e12 : R := / 900000000000.
Lemma turn mc ms deg : libm mc ms -> Rabs deg <= 65536 -> Rabs (fst (fcomputerotvec mc ms deg) - sin (radians deg)) <= e12 /\ Rabs (snd (fcomputerotvec mc ms deg) - cos (radians deg)) <= e12.
Proof.
  intros M D. destruct (libm_near mc ms _ _ _ M (radians_near deg _ D ltac:(lra))) as (C & S). unfold fcomputerotvec, e12. cbn [fst snd]. split; (eapply Rle_trans; [eassumption|]); close.
Qed.
Lemma trig_prod s s' x x' dx X : Rabs (s' - s) <= e12 -> Rabs s <= 1 -> Rabs (x' - x) <= dx -> Rabs x <= X -> X <= 400000 -> dx <= / 1000 ->
  Rabs (fl (s' * x') - s * x) <= dx * 10001 / 10000 + X * (12 / 10 ^ 13) + / 10 ^ 15.
Proof.
  intros S S1 D HX B DB. assert (D0 : 0 <= dx) by (pose proof (Rabs_pos (x' - x)); lra). assert (X0 : 0 <= X) by (pose proof (Rabs_pos x); lra). eapply Rle_trans; [apply (near_prod s s' x x' _ _ 1 X S D S1 HX)|]. unfold e12. destruct consts as (U & E & _). cbn [pow].
  assert (T : u * ((1 + / 900000000000) * (X + dx)) <= / 9000000000000000 * ((1 + / 900000000000) * (X + dx))) by (apply Rmult_le_compat_r; [apply Rmult_le_pos; lra|lra]). lra.
Qed.
Lemma turned_2D mc ms x y deg : libm mc ms -> Rabs x <= 65536 -> Rabs y <= 65536 -> Rabs deg <= 65536 ->
  Rabs (fst (frotvec2D (x, y) (fcomputerotvec mc ms deg)) - (x * cos (radians deg) - y * sin (radians deg))) <= / 10 ^ 6 /\
  Rabs (snd (frotvec2D (x, y) (fcomputerotvec mc ms deg)) - (x * sin (radians deg) + y * cos (radians deg))) <= / 10 ^ 6.
Proof.
  intros M X Y D. destruct (turn mc ms deg M D) as (S & C). destruct (fcomputerotvec mc ms deg) as [s c]. cbn [fst snd] in S, C. cbn [frotvec2D fst snd]. set (s0 := sin (radians deg)) in *. set (c0 := cos (radians deg)) in *. assert (S1 : Rabs s0 <= 1) by apply sin1. assert (C1 : Rabs c0 <= 1) by apply cos1.
  pose proof (fun z (Z : Rabs z <= 65536) => trig_prod s0 s z z 0 65536 S S1 (abs0 z) Z ltac:(lra) ltac:(lra)) as PS. pose proof (fun z (Z : Rabs z <= 65536) => trig_prod c0 c z z 0 65536 C C1 (abs0 z) Z ltac:(lra) ltac:(lra)) as PC.
  assert (SB : forall z, Rabs z <= 65536 -> Rabs (s0 * z) <= 65536) by (intros z Z; rewrite Rabs_mult, <- (Rmult_1_l 65536); apply Rmult_le_compat; (assumption || apply Rabs_pos)). assert (CB : forall z, Rabs z <= 65536 -> Rabs (c0 * z) <= 65536) by (intros z Z; rewrite Rabs_mult, <- (Rmult_1_l 65536); apply Rmult_le_compat; (assumption || apply Rabs_pos)).
  cbn [pow] in *. destruct consts as (U & E & _). rewrite (Rmult_comm x c), (Rmult_comm y s), (Rmult_comm x s), (Rmult_comm y c), (Rmult_comm x c0), (Rmult_comm y s0), (Rmult_comm x s0), (Rmult_comm y c0). split.
  - pose proof (PS y Y) as P. assert (P' : Rabs (- fl (s * y) - - (s0 * y)) <= 0 * 10001 / 10000 + 65536 * (12 / (10 * (10 * (10 * (10 * (10 * (10 * (10 * (10 * (10 * (10 * (10 * (10 * (10 * 1)))))))))))))) + / (10 * (10 * (10 * (10 * (10 * (10 * (10 * (10 * (10 * (10 * (10 * (10 * (10 * (10 * (10 * 1)))))))))))))))) by (replace (- fl (s * y) - - (s0 * y)) with (- (fl (s * y) - s0 * y)) by ring; rewrite Rabs_Ropp; exact P).
    eapply Rle_trans; [apply (near_add _ _ _ _ _ _ 131072 (PC x X) P')|]; [eapply Rle_trans; [apply Rabs_triang|]; rewrite Rabs_Ropp; specialize (CB x X); specialize (SB y Y); lra|]. close.
  - eapply Rle_trans; [apply (near_add _ _ _ _ _ _ 131072 (PS x X) (PC y Y))|]; [eapply Rle_trans; [apply Rabs_triang|]; specialize (SB x X); specialize (CB y Y); lra|]. close.
Qed.
Theorem C148_rotation : forall mc ms x y deg, libm mc ms -> Rabs x <= 65536 -> Rabs y <= 65536 -> Rabs deg <= 65536 ->
  let '(x', y') := frotvec2D (x, y) (fcomputerotvec mc ms deg) in let a := deg * PI / 180 in
  Rabs (x' - (x * cos a - y * sin a)) <= / 10 ^ 6 /\ Rabs (y' - (x * sin a + y * cos a)) <= / 10 ^ 6.
Proof. intros mc ms x y deg M X Y D. pose proof (turned_2D mc ms x y deg M X Y D) as T. destruct (frotvec2D _ _) as [x' y']. exact T. Qed.
Theorem C148_rotation_none : forall mc ms x y, mc 0 = 1 -> ms 0 = 0 -> fl x = x -> fl y = y -> frotvec2D (x, y) (fcomputerotvec mc ms 0) = (x, y).
Proof.
  intros mc ms x y C S X Y. unfold fcomputerotvec. destruct C148_radians as (-> & _). rewrite C, S. cbn [frotvec2D]. rewrite !Rmult_1_r, !Rmult_0_r, fl_0, Rminus_0_r, Rplus_0_l, X, Y. now rewrite X, Y.
Qed.

(** ** Regular polygons *)
Lemma near_round w z : Rabs (w - z) <= / 1000000 -> Rabs (IZR (rround w) - z) <= 1 / 2 + / 1000000.
Proof. intros N. pose proof (rround_near w) as R. apply Rabs_le_inv in N, R. apply Rabs_le. lra. Qed.
Lemma rim (m f : R -> R) c r ang ang' : (Z.abs c <= 2 ^ 20)%Z -> (Z.abs r <= 65536)%Z -> Rabs (f ang) <= 1 -> Rabs (m ang' - f ang) <= / 400000000000 -> Rabs (fl (fl (IZR c) - fl (IZR r * m ang')) - (IZR c - IZR r * f ang)) <= / 1000000.
Proof.
  intros C R F1 N. rewrite (fl_Z c) by lia. apply IZR_le in C, R. rewrite abs_IZR in C, R. change (IZR (2 ^ 20)) with 1048576 in C.
  pose proof (near_prod (IZR r) (IZR r) (f ang) (m ang') 0 _ 65536 1 (abs0 _) N R F1) as P. assert (RB : Rabs (IZR r * f ang) <= 65536) by (rewrite Rabs_mult, <- (Rmult_1_r 65536); apply Rmult_le_compat; (assumption || apply Rabs_pos)).
  set (e := (65536 + 0) * / 400000000000 + 0 * 1 + u * ((65536 + 0) * (1 + / 400000000000)) + eta) in P. assert (E : 0 <= e <= / 5000000) by (unfold e; close). apply Rabs_le_inv in P, RB, C. assert (B : Rabs (IZR c - fl (IZR r * m ang')) <= 1200000) by (apply Rabs_le; lra). pose proof (fl_near _ _ B) as Q. apply Rabs_le_inv in Q. destruct consts as (U & ET & _). apply Rabs_le. lra.
Qed.
(** the angle of vertex k *)
Lemma vertex_angle mc ms angle a : libm mc ms -> Rabs angle <= 65536 -> (0 <= a < 360)%Z -> let ang := fl (fradians angle + fradians (IZR a)) in let t := (angle + IZR a) * PI / 180 in
  Rabs (ms ang - sin t) <= / 400000000000 /\ Rabs (mc ang - cos t) <= / 400000000000.
Proof.
  intros M A B ang t. assert (BR : Rabs (IZR a) <= 360) by (rewrite <- abs_IZR; apply IZR_le; lia). pose proof (radians_near _ _ A ltac:(lra)) as N1. pose proof (radians_near _ _ BR ltac:(lra)) as N2.
  assert (S : Rabs (radians angle + radians (IZR a)) <= 1600). { unfold radians. replace (angle * PI / 180 + IZR a * PI / 180) with ((angle + IZR a) * (PI / 180)) by field. rewrite Rabs_mult. pose proof pi_size. rewrite (Rabs_pos_eq (PI / 180)) by lra. apply Rle_trans with (65896 * (4 / 180)); [|lra]. apply Rmult_le_compat; try lra; [apply Rabs_pos|]. eapply Rle_trans; [apply Rabs_triang|lra]. }
  pose proof (near_add _ _ _ _ _ _ _ N1 N2 S) as N. replace (radians angle + radians (IZR a)) with t in N by (unfold t, radians; field). fold ang in N. destruct (libm_near mc ms _ _ _ M N) as (C & D). split; (eapply Rle_trans; [eassumption|]); close.
Qed.
Lemma polygon_run mc ms cx cy r sides angle : (1 <= sides <= 360)%Z ->
  fregpolygonvert mc ms cx cy r sides angle = Ok (map (fun k => let ang := fl (fradians angle + fradians (IZR (k * (360 / sides)))) in (rround (fl (fl (IZR cx) - fl (IZR r * ms ang))), rround (fl (fl (IZR cy) - fl (IZR r * mc ang))))) (range 0 (359 / (360 / sides) + 1))).
Proof.
  intros S. unfold fregpolygonvert, ffloatregpolygonvert. rewrite (proj2 (Z.eqb_neq sides 0)) by lia. cbn [rbind]. assert (K : (0 < 360 / sides)%Z) by (apply Z.div_str_pos; lia). unfold rangeby. rewrite (proj2 (Z.eqb_neq _ 0)), (proj2 (Z.ltb_lt _ _)) by lia. cbn [rbind]. unfold range_step, stepcount. cbn [Z.leb Z.compare]. rewrite !map_map. reflexivity.
Qed.
Lemma step_below sides k : (1 <= sides <= 360)%Z -> (0 <= k < 359 / (360 / sides) + 1)%Z -> (0 <= k * (360 / sides) < 360)%Z.
Proof. intros S K. assert (P : (0 < 360 / sides)%Z) by (apply Z.div_str_pos; lia). pose proof (Z.mul_div_le 359 (360 / sides) P). split; [lia|nia]. Qed.
(** numbers between integers stay there when rounded *)
Lemma fl_within x lo hi : (Z.abs lo <= 2 ^ 53)%Z -> (Z.abs hi <= 2 ^ 53)%Z -> IZR lo <= x <= IZR hi -> IZR lo <= fl x <= IZR hi.
Proof. intros L H (A & B). split; [rewrite <- (fl_Z lo L)|rewrite <- (fl_Z hi H)]; now apply fl_le. Qed.
Lemma arm c r s : (Z.abs c <= 2 ^ 52)%Z -> (Z.abs r <= 2 ^ 52)%Z -> Rabs s <= 1 -> IZR (c - Z.abs r) <= fl (fl (IZR c) - fl (IZR r * s)) <= IZR (c + Z.abs r).
Proof.
  intros C R S. rewrite (fl_Z c) by lia. assert (P : Rabs (IZR r * s) <= IZR (Z.abs r)). { rewrite Rabs_mult, <- abs_IZR. pose proof (IZR_le 0 (Z.abs r) ltac:(lia)). pose proof (Rabs_pos s). nra. }
  apply Rabs_le_inv in P. rewrite <- opp_IZR in P. pose proof (fl_within _ (- Z.abs r) (Z.abs r) ltac:(lia) ltac:(lia) P) as Q. rewrite opp_IZR in Q. apply fl_within; [lia|lia|]. rewrite minus_IZR, plus_IZR. lra.
Qed.
Lemma round_in x lo hi : IZR lo <= x <= IZR hi -> (lo <= rround x <= hi)%Z.
Proof. intros (A & B). apply rround_mono in A, B. rewrite rround_Z in A, B. lia. Qed.
Lemma trunc_in x lo hi : IZR lo <= x <= IZR hi -> (lo <= rtrunc x <= hi)%Z.
Proof. intros (A & B). pose proof (rtrunc_near x) as N. apply Rabs_def2 in N. split; apply Z.lt_succ_r, lt_IZR; rewrite succ_IZR; lra. Qed.
Theorem C148_polygon : forall mc ms cx cy r sides angle, libm mc ms -> (Z.abs cx <= 2 ^ 20)%Z -> (Z.abs cy <= 2 ^ 20)%Z -> (Z.abs r <= 65536)%Z -> Rabs angle <= 65536 -> (1 <= sides <= 360)%Z ->
  exists w, fregpolygonvert mc ms cx cy r sides angle = Ok w /\ Z.of_nat (length w) = (359 / (360 / sides) + 1)%Z /\
    forall k, (k < length w)%nat -> let a := (angle + IZR (Z.of_nat k * (360 / sides))) * PI / 180 in
      nearpoint (nth k w (0, 0)%Z) (IZR cx - IZR r * sin a, IZR cy - IZR r * cos a) /\
      (Z.abs (fst (nth k w (0, 0)%Z) - cx) <= Z.abs r)%Z /\ (Z.abs (snd (nth k w (0, 0)%Z) - cy) <= Z.abs r)%Z.
Proof.
  intros mc ms cx cy r sides angle M X Y R A S. rewrite polygon_run by exact S. eexists. split; [reflexivity|].
  assert (L : Z.of_nat (length (range 0 (359 / (360 / sides) + 1))) = (359 / (360 / sides) + 1)%Z). { pose proof (zlen_range 0 (359 / (360 / sides) + 1)) as Z. unfold zlen in Z. rewrite Z. pose proof (Z.div_pos 359 (360 / sides) ltac:(lia) ltac:(apply Z.div_str_pos; lia)). lia. }
  rewrite map_length. split; [exact L|]. intros k K a.
  match goal with |- context [map ?f ?l] => set (F := f); set (W := l) in * end. assert (EN : nth k (map F W) (0, 0)%Z = F (Z.of_nat k)) by (rewrite <- (Nat2Z.id k) at 1; unfold W; apply nth_range; lia).
  rewrite EN. unfold F. cbv zeta. cbn [fst snd]. pose proof (step_below sides (Z.of_nat k) S ltac:(lia)) as B. destruct (vertex_angle mc ms angle _ M A B) as (N1 & N2). fold a in N1, N2. set (ang := fl (fradians angle + fradians (IZR (Z.of_nat k * (360 / sides))))) in *. split; [|].
  - split; cbn [fst snd]; apply near_round; [apply (rim ms sin)|apply (rim mc cos)]; try assumption; [apply sin1|apply cos1].
  - destruct (M ang) as (_ & _ & M1 & M2). pose proof (round_in _ _ _ (arm cx r (ms ang) ltac:(lia) ltac:(lia) M2)) as BX. pose proof (round_in _ _ _ (arm cy r (mc ang) ltac:(lia) ltac:(lia) M1)) as BY. split; lia.
Qed.
Theorem C148_polygon_other : forall mc ms cx cy r sides angle,
  (sides = 0%Z -> fregpolygonvert mc ms cx cy r sides angle = Err ZeroDivisionError) /\
  ((360 < sides)%Z -> fregpolygonvert mc ms cx cy r sides angle = Err ValueError) /\
  ((sides < 0)%Z -> fregpolygonvert mc ms cx cy r sides angle = Ok []).
Proof.
  intros mc ms cx cy r sides angle. unfold fregpolygonvert, ffloatregpolygonvert. repeat split; intros H.
  - subst sides. reflexivity.
  - rewrite (proj2 (Z.eqb_neq sides 0)) by lia. cbn [rbind]. rewrite Z.div_small by lia. reflexivity.
  - rewrite (proj2 (Z.eqb_neq sides 0)) by lia. cbn [rbind]. assert (K : (360 / sides < 0)%Z) by (pose proof (Z.div_mod 360 sides ltac:(lia)); pose proof (Z.mod_neg_bound 360 sides H); nia). unfold rangeby. rewrite (proj2 (Z.eqb_neq _ 0)), (proj2 (Z.ltb_ge _ _)) by lia. reflexivity.
Qed.

(** ** Projection of solids *)
Definition small (v : vec) : Prop := let '(x, y, z) := v in Rabs x <= 65536 /\ Rabs y <= 65536 /\ Rabs z <= 65536.
Definition close3 (v w : vec) : Prop := let '(x, y, z) := v in let '(a, b, c) := w in Rabs (x - a) <= / 10 ^ 6 /\ Rabs (y - b) <= / 10 ^ 6 /\ Rabs (z - c) <= / 10 ^ 6.
Lemma opp_near x x' d : Rabs (x' - x) <= d -> Rabs (- x' - - x) <= d.
Proof. intros N. replace (- x' - - x) with (- (x' - x)) by ring. now rewrite Rabs_Ropp. Qed.
Lemma abs_prod1 s x X : Rabs s <= 1 -> Rabs x <= X -> Rabs (s * x) <= X.
Proof. intros S H. rewrite Rabs_mult. rewrite <- (Rmult_1_l X). apply Rmult_le_compat; (assumption || apply Rabs_pos). Qed.
(** s x + t y for two sines or cosines *)
Lemma two_near s s' t t' x x' y y' dx dy X Y : Rabs (s' - s) <= e12 -> Rabs s <= 1 -> Rabs (t' - t) <= e12 -> Rabs t <= 1 -> Rabs (x' - x) <= dx -> Rabs (y' - y) <= dy -> Rabs x <= X -> Rabs y <= Y -> X <= 400000 -> Y <= 400000 -> dx <= / 1000 -> dy <= / 1000 ->
  Rabs (fl (fl (s' * x') + fl (t' * y')) - (s * x + t * y)) <= (dx + dy) * 1001 / 1000 + (X + Y) * (1201 / 10 ^ 15) + 4 / 10 ^ 15 /\ Rabs (s * x + t * y) <= X + Y.
Proof.
  intros S S1 T T1 DX DY HX HY BX BY LX LY. pose proof (trig_prod s s' x x' dx X S S1 DX HX BX LX) as P. pose proof (trig_prod t t' y y' dy Y T T1 DY HY BY LY) as Q. assert (D0 : 0 <= dx) by (pose proof (Rabs_pos (x' - x)); lra). assert (E0 : 0 <= dy) by (pose proof (Rabs_pos (y' - y)); lra).
  assert (X0 : 0 <= X) by (pose proof (Rabs_pos x); lra). assert (Y0 : 0 <= Y) by (pose proof (Rabs_pos y); lra). assert (B : Rabs (s * x + t * y) <= X + Y) by (eapply Rle_trans; [apply Rabs_triang|]; pose proof (abs_prod1 s x X S1 HX); pose proof (abs_prod1 t y Y T1 HY); lra). split; [|exact B].
  eapply Rle_trans; [apply (near_add _ _ _ _ _ _ _ P Q B)|]. cbn [pow]. destruct consts as (U & E & _). set (d := dx * 10001 / 10000 + X * _ + _). set (e := dy * 10001 / 10000 + Y * _ + _). assert (d0 : 0 <= d <= 1) by (unfold d; lra). assert (e0 : 0 <= e <= 1) by (unfold e; lra).
  assert (UB : u * (X + Y + d + e) <= / 9000000000000000 * (X + Y + d + e)) by (apply Rmult_le_compat_r; lra). unfold d, e in *. lra.
Qed.
Lemma rotated_near mc ms roll pitch yaw disp p : libm mc ms -> Rabs roll <= 65536 -> Rabs pitch <= 65536 -> Rabs yaw <= 65536 -> small disp -> small p ->
  close3 (frotated (frotvec3D mc ms roll pitch yaw) disp p) (rotated (rotvec3D roll pitch yaw) disp p) /\ (let '(x, y, z) := rotated (rotvec3D roll pitch yaw) disp p in Rabs x <= 400000 /\ Rabs y <= 400000 /\ Rabs z <= 400000).
Proof.
  intros M HR HP HY. destruct disp as [[dx dy] dz], p as [[px py] pz]. intros (DX & DY & DZ) (PX & PY & PZ).
  unfold frotvec3D, rotvec3D. destruct (turn mc ms roll M HR) as (S1 & C1). destruct (turn mc ms pitch M HP) as (S2 & C2). destruct (turn mc ms yaw M HY) as (S3 & C3).
  unfold computerotvec. destruct (fcomputerotvec mc ms roll) as [sr cr]. destruct (fcomputerotvec mc ms pitch) as [sp cp]. destruct (fcomputerotvec mc ms yaw) as [sy cy]. cbn [fst snd] in *.
  pose proof (sin1 (radians roll)) as s1. pose proof (cos1 (radians roll)) as c1. pose proof (sin1 (radians pitch)) as s2. pose proof (cos1 (radians pitch)) as c2. pose proof (sin1 (radians yaw)) as s3. pose proof (cos1 (radians yaw)) as c3.
  set (Sr := sin (radians roll)) in *. set (Cr := cos (radians roll)) in *. set (Sp := sin (radians pitch)) in *. set (Cp := cos (radians pitch)) in *. set (Sy := sin (radians yaw)) in *. set (Cy := cos (radians yaw)) in *.
  assert (O : forall s s', Rabs (s' - s) <= e12 -> Rabs s <= 1 -> Rabs (- s' - - s) <= e12 /\ Rabs (- s) <= 1) by (intros s s' A B; split; [now apply opp_near|now rewrite Rabs_Ropp]).
  unfold frotated, rotated. assert (SUB : forall a b, fl (fl a - fl b) = fl (fl a + fl (- b))) by (intros a b; rewrite fl_opp; reflexivity). rewrite !SUB. rewrite !(Ropp_mult_distr_l sy), !(Ropp_mult_distr_l sr), !(Ropp_mult_distr_l sp). unfold Rminus. rewrite !(Ropp_mult_distr_l Sy), !(Ropp_mult_distr_l Sr), !(Ropp_mult_distr_l Sp).
  destruct (O Cy cy C3 c3) as (C3' & c3'). destruct (O Sy sy S3 s3) as (S3' & s3'). destruct (O Sr sr S1 s1) as (S1' & s1'). destruct (O Sp sp S2 s2) as (S2' & s2'). clear O SUB.
  destruct (two_near (- Cy) (- cy) (- Sy) (- sy) px px pz pz 0 0 65536 65536 C3' c3' S3' s3' (abs0 _) (abs0 _) PX PZ) as (X1 & BX1); try lra. destruct (two_near (- Sy) (- sy) Cy cy px px pz pz 0 0 65536 65536 S3' s3' C3 c3 (abs0 _) (abs0 _) PX PZ) as (Z1 & BZ1); try lra.
  set (x1 := - Cy * px + - Sy * pz) in *. set (z1 := - Sy * px + Cy * pz) in *. set (fx1 := fl (fl (- cy * px) + fl (- sy * pz))) in *. set (fz1 := fl (fl (- sy * px) + fl (cy * pz))) in *. cbn [pow] in X1, Z1. assert (X1' : Rabs (fx1 - x1) <= / 6000000) by lra. assert (Z1' : Rabs (fz1 - z1) <= / 6000000) by lra. clear X1 Z1.
  destruct (two_near Cr cr (- Sr) (- sr) py py x1 fx1 0 (/ 6000000) 65536 131072 C1 c1 S1' s1' (abs0 _) X1' PY) as (Y1 & BY1); try lra. destruct (two_near Cr cr Sr sr x1 fx1 py py (/ 6000000) 0 131072 65536 C1 c1 S1 s1 X1' (abs0 _)) as (X2 & BX2); try lra.
  set (y1 := Cr * py + - Sr * x1) in *. set (x2 := Cr * x1 + Sr * py) in *. set (fy1 := fl (fl (cr * py) + fl (- sr * fx1))) in *. set (fx2 := fl (fl (cr * fx1) + fl (sr * py))) in *. cbn [pow] in Y1, X2. assert (Y1' : Rabs (fy1 - y1) <= / 2450000) by lra. assert (X2' : Rabs (fx2 - x2) <= / 2450000) by lra. clear Y1 X2.
  destruct (two_near Sp sp Cp cp z1 fz1 y1 fy1 (/ 6000000) (/ 2450000) 131072 196608 S2 s2 C2 c2 Z1' Y1') as (Y2 & BY2); try lra. destruct (two_near Cp cp (- Sp) (- sp) z1 fz1 y1 fy1 (/ 6000000) (/ 2450000) 131072 196608 C2 c2 S2' s2' Z1' Y1') as (Z2 & BZ2); try lra.
  set (y2 := Sp * z1 + Cp * y1) in *. set (z2 := Cp * z1 + - Sp * y1) in *. set (fy2 := fl (fl (sp * fz1) + fl (cp * fy1))) in *. set (fz2 := fl (fl (cp * fz1) + fl (- sp * fy1))) in *. cbn [pow] in Y2, Z2.
  assert (Y2' : Rabs (fy2 - y2) <= 98 / 100000000) by lra. assert (Z2' : Rabs (fz2 - z2) <= 98 / 100000000) by lra. clear Y2 Z2.
  assert (FIN : forall a fa d, Rabs (fa - a) <= 98 / 100000000 -> Rabs a <= 327680 -> Rabs d <= 65536 -> Rabs (fl (fa + d) - (a + d)) <= / 10 ^ 6 /\ Rabs (a + d) <= 400000).
  { clear. intros a fa d N A D. assert (B : Rabs (a + d) <= 393216) by (eapply Rle_trans; [apply Rabs_triang|lra]). split; [|lra]. eapply Rle_trans; [apply (near_add a fa d d _ 0 _ N (abs0 d) B)|]. cbn [pow]. close. }
  destruct (FIN x2 fx2 dx ltac:(lra) ltac:(lra) DX) as (F1 & G1). destruct (FIN y2 fy2 dy Y2' ltac:(lra) DY) as (F2 & G2). destruct (FIN z2 fz2 dz Z2' ltac:(lra) DZ) as (F3 & G3). repeat split; assumption.
Qed.
Lemma proj_near d x x' z z' : Rabs (x' - x) <= / 10 ^ 6 -> Rabs (z' - z) <= / 10 ^ 6 -> 1 <= Rabs z <= 400000 -> Rabs x <= 400000 ->
  exists q, fdiv (fl (- d * x')) z' = Ok q /\ Rabs (q - - d * x / z) <= 2 / 10 ^ 6 * ((Rabs d + Rabs (- d * x / z)) / Rabs z) + 3 / IZR (2 ^ 60).
Proof.
  intros X Z BZ BX. cbn [pow] in *. destruct consts as (U & E & _). assert (Z0 : z <> 0) by (intros H; rewrite H, Rabs_R0 in BZ; lra).
  assert (ZL : Rabs z * (999 / 1000) <= Rabs z'). { replace z with (z' - (z' - z)) by ring. pose proof (Rabs_triang z' (- (z' - z))) as T. rewrite Rabs_Ropp in T. replace (z' - (z' - z)) with z in * by ring. replace (z' + - (z' - z)) with z in T by ring. lra. }
  assert (Z0' : z' <> 0) by (intros H; rewrite H, Rabs_R0 in ZL; lra). unfold fdiv. rewrite (proj2 (req_no _ _)) by exact Z0'. eexists. split; [reflexivity|].
  set (D := Rabs d). assert (D0 : 0 <= D) by apply Rabs_pos. pose proof (near_mul x x' (- d) _ D 400000 X ltac:(rewrite Rabs_Ropp; apply Rle_refl) BX) as N. rewrite (Rmult_comm x' (- d)), (Rmult_comm x (- d)) in N.
  set (A' := fl (- d * x')) in *. set (A := - d * x) in *. set (Q := A / z). assert (DU : 0 <= u * D <= D * / 9000000000000000) by (split; [apply Rmult_le_pos; lra|rewrite Rmult_comm; apply Rmult_le_compat_l; lra]).
  assert (N' : Rabs (A' - A) <= D * (1001 / 1000000000) + eta) by lra.
  set (W := / Rabs z). assert (WP : 0 < W <= 1) by (split; [apply Rinv_0_lt_compat; lra|unfold W; rewrite <- Rinv_1; apply Rinv_le_contravar; lra]). assert (WZ : Rabs z * W = 1) by (apply Rinv_r; lra).
  set (e := A' / z' - Q). assert (EE : e * z' = (A' - A) - Q * (z' - z)) by (unfold e, Q; field; split; assumption).
  set (B := D * (1001 / 1000000000) + eta + Rabs Q * / 1000000). assert (Q0 : 0 <= Rabs Q) by apply Rabs_pos. assert (B0 : 0 <= B) by (unfold B; lra).
  assert (EB : Rabs e * Rabs z' <= B). { rewrite <- Rabs_mult, EE. eapply Rle_trans; [apply Rabs_triang|]. rewrite Rabs_Ropp, Rabs_mult. assert (Rabs Q * Rabs (z' - z) <= Rabs Q * / 1000000) by (apply Rmult_le_compat_l; lra). unfold B. lra. }
  assert (EW : Rabs e <= 1002 / 1000 * (B * W)). { apply Rmult_le_reg_r with (Rabs z); [lra|]. replace (1002 / 1000 * (B * W) * Rabs z) with (1002 / 1000 * B * (Rabs z * W)) by ring. rewrite WZ. pose proof (Rabs_pos e). assert (Rabs e * (Rabs z * (999 / 1000)) <= Rabs e * Rabs z') by (apply Rmult_le_compat_l; lra). lra. }
  assert (QB : Rabs (A' / z') <= Rabs Q + Rabs e) by (replace (A' / z') with (Q + e) by (unfold e; ring); apply Rabs_triang). pose proof (fl_near _ _ QB) as F.
  assert (QW : Rabs Q <= 400000 * (Rabs Q * W)) by (replace (Rabs Q) with (Rabs Q * (Rabs z * W)) at 1 by (rewrite WZ; ring); replace (400000 * (Rabs Q * W)) with (Rabs Q * W * 400000) by ring; replace (Rabs Q * (Rabs z * W)) with (Rabs Q * W * Rabs z) by ring; apply Rmult_le_compat_l; [apply Rmult_le_pos; lra|lra]).
  assert (BW : B * W <= D * W * (1001 / 1000000000) + eta + Rabs Q * W * / 1000000). { unfold B. assert (eta * W <= eta) by (rewrite <- (Rmult_1_r eta) at 2; apply Rmult_le_compat_l; lra). lra. }
  assert (BW0 : 0 <= B * W) by (apply Rmult_le_pos; lra). assert (P1 : 0 <= D * W) by (apply Rmult_le_pos; lra). assert (P2 : 0 <= Rabs Q * W) by (apply Rmult_le_pos; lra).
  assert (UF : u * (Rabs Q + Rabs e) <= / 9000000000000000 * (Rabs Q + Rabs e)) by (apply Rmult_le_compat_r; [pose proof (Rabs_pos e); lra|lra]).
  assert (F' : Rabs (fl (A' / z') - Q) <= u * (Rabs Q + Rabs e) + eta + Rabs e). { replace (fl (A' / z') - Q) with ((fl (A' / z') - A' / z') + e) by (unfold e; ring). eapply Rle_trans; [apply Rabs_triang|]. lra. }
  fold Q. unfold Rdiv at 1. replace ((D + Rabs Q) / Rabs z) with (D * W + Rabs Q * W) by (unfold W; field; lra). eapply Rle_trans; [exact F'|]. unfold Rdiv. fold eta. lra.
Qed.
Lemma perspective_near : forall mc ms roll pitch yaw disp d vl, libm mc ms -> Rabs roll <= 65536 -> Rabs pitch <= 65536 -> Rabs yaw <= 65536 -> small disp -> Forall small vl ->
  (forall p, In p vl -> let '(_, _, z) := rotated (rotvec3D roll pitch yaw) disp p in 1 <= Rabs z) ->
  exists rot proj, fperspective vl (frotvec3D mc ms roll pitch yaw) disp d = Ok (rot, proj) /\
    Forall2 (fun p r => close3 r (rotated (rotvec3D roll pitch yaw) disp p)) vl rot /\
    Forall2 (fun p q => let '(x, y, z) := rotated (rotvec3D roll pitch yaw) disp p in
      let near w c := Rabs (w - - d * c / z) <= 2 / 10 ^ 6 * ((Rabs d + Rabs (- d * c / z)) / Rabs z) + 3 / IZR (2 ^ 60) in
      near (fst q) x /\ near (snd q) y) vl proj.
Proof.
  intros mc ms roll pitch yaw disp d vl M HR HP HY HD HV HZ. unfold fperspective. match goal with |- context [res_map ?f vl] => set (F := f) end.
  assert (K : forall l, Forall small l -> (forall p, In p l -> In p vl) -> exists o, res_map F l = Ok o /\ Forall2 (fun p r => close3 r (rotated (rotvec3D roll pitch yaw) disp p)) l (map fst o) /\
    Forall2 (fun p q => let '(x, y, z) := rotated (rotvec3D roll pitch yaw) disp p in
      let near w c := Rabs (w - - d * c / z) <= 2 / 10 ^ 6 * ((Rabs d + Rabs (- d * c / z)) / Rabs z) + 3 / IZR (2 ^ 60) in
      near (fst q) x /\ near (snd q) y) l (map snd o)).
  { induction l as [|p l IH]; intros S I; [exists []; repeat split; constructor|]. inversion S as [|? ? SP SL]; subst. destruct (IH SL (fun q Q => I q (or_intror Q))) as (o & EO & O1 & O2).
    destruct (rotated_near mc ms roll pitch yaw disp p M HR HP HY HD SP) as (C & B). specialize (HZ p (I p (or_introl eq_refl))). cbn [res_map]. unfold F at 1.
    destruct (frotated (frotvec3D mc ms roll pitch yaw) disp p) as [[x' y'] z'] eqn:EF. destruct (rotated (rotvec3D roll pitch yaw) disp p) as [[x y] z] eqn:ER. destruct C as (C1 & C2 & C3). destruct B as (B1 & B2 & B3).
    destruct (proj_near d x x' z z' C1 C3 (conj HZ B3) B1) as (q1 & E1 & Q1). destruct (proj_near d y y' z z' C2 C3 (conj HZ B3) B2) as (q2 & E2 & Q2). rewrite E1, E2. cbn [rbind]. rewrite EO. cbn [rbind]. eexists. split; [reflexivity|]. cbn [map fst snd]. split; constructor; try assumption; rewrite ER; repeat split; assumption. }
  destruct (K vl HV (fun p H => H)) as (o & EO & O1 & O2). rewrite EO. cbn [rbind]. exists (map fst o), (map snd o). repeat split; assumption.
Qed.

(** Where a vertex is to go, in degrees: by yaw in the plane of x and z and mirrored in x, by roll in the plane of x and y,
    by pitch in the plane of y and z, then along disp. *)
Definition viewed (roll pitch yaw : R) (disp p : R * R * R) : R * R * R :=
  let '(px, py, pz) := p in let '(dx, dy, dz) := disp in let rad a := a * PI / 180 in
  let plane a v := (fst v * cos a - snd v * sin a, fst v * sin a + snd v * cos a) in
  let '(x1, z1) := plane (rad yaw) (- px, pz) in
  let '(y2, x2) := plane (rad roll) (py, x1) in
  let '(z3, y3) := plane (rad pitch) (z1, y2) in
  (x2 + dx, y3 + dy, z3 + dz).
Lemma viewed_eq roll pitch yaw disp p : rotated (rotvec3D roll pitch yaw) disp p = viewed roll pitch yaw disp p.
Proof. destruct p as [[px py] pz], disp as [[dx dy] dz]. unfold rotated, viewed, rotvec3D, computerotvec, radians. cbn [fst snd]. apply f_equal2; [apply f_equal2|]; ring. Qed.
(** Each vertex is turned and moved up to a millionth; its picture is off by at most two millionths of the distance d plus its size, over the depth. *)
Theorem C148_perspective : forall mc ms roll pitch yaw disp d vl, libm mc ms -> Rabs roll <= 65536 -> Rabs pitch <= 65536 -> Rabs yaw <= 65536 -> small disp -> Forall small vl ->
  (forall p, In p vl -> let '(_, _, z) := viewed roll pitch yaw disp p in 1 <= Rabs z) ->
  exists rot proj, fperspective vl (frotvec3D mc ms roll pitch yaw) disp d = Ok (rot, proj) /\
    Forall2 (fun p r => close3 r (viewed roll pitch yaw disp p)) vl rot /\
    Forall2 (fun p q => let '(x, y, z) := viewed roll pitch yaw disp p in
      let near w c := Rabs (w - - d * c / z) <= 2 / 10 ^ 6 * ((Rabs d + Rabs (- d * c / z)) / Rabs z) + 3 / IZR (2 ^ 60) in
      near (fst q) x /\ near (snd q) y) vl proj.
Proof.
  intros mc ms roll pitch yaw disp d vl M HR HP HY HD HV HZ. destruct (perspective_near mc ms roll pitch yaw disp d vl M HR HP HY HD HV) as (rot & proj & E & F1 & F2).
  - intros p I. rewrite viewed_eq. exact (HZ p I).
  - exists rot, proj. split; [exact E|]. split; [clear - F1; induction F1|clear - F2; induction F2]; constructor; trivial; rewrite <- viewed_eq; assumption.
Qed.
(** A vertex at the origin, not moved in depth, cannot be projected. *)
Theorem C148_perspective_zero : forall rot dx dy d l, fperspective ((0, 0, 0) :: l) rot (dx, dy, 0) d = Err ZeroDivisionError.
Proof.
  intros [[[sr cr] [sp cp]] [sy cy]] dx dy d l. unfold fperspective. cbn [res_map frotated]. rewrite ?Rmult_0_r, ?fl_0, ?Rminus_0_r, ?Rplus_0_r, ?fl_0, ?Rmult_0_r, ?fl_0, ?Rminus_0_r, ?Rplus_0_r, ?fl_0, ?Rmult_0_r, ?fl_0, ?Rminus_0_r, ?Rplus_0_r, ?fl_0.
  unfold fdiv at 1. rewrite (proj2 (req_iff 0 0)) by reflexivity. reflexivity.
Qed.

(** ** Flowers *)
(** the library's square *)
Definition squares (sq : R -> R) : Prop := forall x, Rabs x <= 1 -> 0 <= sq x <= 1 /\ Rabs (sq x - x * x) <= / IZR (2 ^ 52).
(** the integer part of a number within a millionth of z, cut off towards 0 *)
Definition cutoff (q : Z) (z : R) : Prop := exists w, Rabs (w - z) <= / 10 ^ 6 /\ Rabs (w - IZR q) < 1 /\ Rabs (IZR q) <= Rabs w.
Lemma cutoff_trunc w z : Rabs (w - z) <= / 10 ^ 6 -> cutoff (rtrunc w) z.
Proof. intros N. exists w. split; [exact N|]. split; [apply rtrunc_near|apply rtrunc_abs]. Qed.
Lemma flower_near mc ms sq cx cy r petals angrot a : libm mc ms -> squares sq -> (Z.abs cx <= 2 ^ 20)%Z -> (Z.abs cy <= 2 ^ 20)%Z -> (Z.abs r <= 4096)%Z -> (1 <= petals <= 1024)%Z -> Rabs angrot <= 65536 -> (0 <= a < 360 * petals)%Z ->
  Rabs (fst (fflowerpoint mc ms sq cx cy r petals angrot a) - fst (flowerpoint cx cy r petals angrot a)) <= / 10 ^ 6 /\ Rabs (snd (fflowerpoint mc ms sq cx cy r petals angrot a) - snd (flowerpoint cx cy r petals angrot a)) <= / 10 ^ 6.
Proof.
  intros M SQ CX CY R P A B. unfold fflowerpoint, flowerpoint. cbn [fst snd]. rewrite (fl_half petals) by lia. destruct consts as (U & E & M52). pose proof pi_size as PI4.
  assert (PR : 1 <= IZR petals <= 1024) by (split; apply IZR_le; lia). assert (AR : 0 <= IZR a <= 360 * IZR petals) by (split; [apply IZR_le; lia|rewrite <- mult_IZR; apply IZR_le; lia]).
  set (t := IZR a / IZR petals). assert (T : 0 <= t <= 360) by (unfold t; split; [apply Rmult_le_pos; [lra|apply Rlt_le, Rinv_0_lt_compat; lra]|apply Rmult_le_reg_r with (IZR petals); [lra|]; unfold Rdiv; rewrite Rmult_assoc, Rinv_l by lra; lra]).
  assert (N1 := fl_near t 360 ltac:(apply Rabs_le; lra)). destruct C148_radians as (_ & _ & _ & RAD). pose proof (RAD (fl t) 361 ltac:(apply Rabs_le_inv in N1; apply Rabs_le; lra)) as N2. fold eta in N2. cbn [pow] in N2.
  assert (N3 : Rabs (fradians (fl t) - radians t) <= / 10 ^ 14). { unfold radians. cbn [pow]. assert (Q : Rabs (fl t * PI / 180 - t * PI / 180) <= (u * 360 + eta) * (4 / 180)). { replace (fl t * PI / 180 - t * PI / 180) with ((fl t - t) * (PI / 180)) by field. rewrite Rabs_mult, (Rabs_pos_eq (PI / 180)) by lra. apply Rmult_le_compat; (lra || apply Rabs_pos). } apply Rabs_le_inv in N2, Q. apply Rabs_le. lra. }
  clear N1 N2. cbn [pow] in N3. set (ang := radians t) in *. set (ang' := fradians (fl t)) in *. assert (AB : Rabs ang <= 8). { unfold ang, radians. rewrite Rabs_pos_eq; [|apply Rmult_le_pos; [apply Rmult_le_pos; lra|lra]]. assert (t * PI <= 360 * 4) by (apply Rmult_le_compat; lra). lra. }
  set (p := IZR petals / 2). assert (PB : Rabs p <= 512) by (unfold p; apply Rabs_le; lra). pose proof (near_prod p p ang ang' 0 _ 512 8 (abs0 p) N3 PB AB) as N4.
  assert (N4' : Rabs (fl (p * ang') - p * ang) <= / 100000000000) by (eapply Rle_trans; [exact N4|]; lra). clear N4. destruct (libm_near mc ms _ _ _ M N4') as (N5 & _). set (m := mc (fl (p * ang'))) in *. set (c := cos (p * ang)) in *. assert (M1 : Rabs m <= 1) by apply M. assert (C1 : Rabs c <= 1) by apply cos1.
  destruct (SQ m M1) as (S1 & S2). assert (N6 : Rabs (sq m - c ^ 2) <= / 20000000000). { apply Rabs_le_inv in S2, N5, M1, C1. assert (Q : Rabs (m * m - c ^ 2) <= 2 * (/ 100000000000 + / IZR (2 ^ 52))). { replace (m * m - c ^ 2) with ((m - c) * (m + c)) by ring. rewrite Rabs_mult, Rmult_comm. apply Rmult_le_compat; try apply Rabs_pos; apply Rabs_le; lra. } apply Rabs_le_inv in Q. apply Rabs_le. lra. }
  assert (RR : Rabs (IZR r) <= 4096) by (rewrite <- abs_IZR; apply IZR_le; exact R). assert (C2 : Rabs (c ^ 2) <= 1) by (cbn [pow]; rewrite Rmult_1_r, Rabs_mult; pose proof (Rabs_pos c); nra).
  pose proof (near_prod (c ^ 2) (sq m) (IZR r) (IZR r) _ 0 1 4096 N6 (abs0 _) C2 RR) as N7. set (f := c ^ 2 * IZR r) in *. set (f' := fl (sq m * IZR r)) in *. assert (N7' : Rabs (f' - f) <= / 4000000) by (eapply Rle_trans; [exact N7|]; lra). clear N7. assert (FB : Rabs f <= 4096) by (unfold f; apply abs_prod1; assumption).
  pose proof (radians_near angrot _ A ltac:(lra)) as N8. assert (RB : Rabs (ang + radians angrot) <= 1600). { eapply Rle_trans; [apply Rabs_triang|]. unfold radians. replace (angrot * PI / 180) with (angrot * (PI / 180)) by field. rewrite (Rabs_mult angrot), (Rabs_pos_eq (PI / 180)) by lra. assert (Rabs angrot * (PI / 180) <= 65536 * (4 / 180)) by (apply Rmult_le_compat; (lra || apply Rabs_pos)). lra. }
  pose proof (near_add _ _ _ _ _ _ _ N3 N8 RB) as N9. assert (N9' : Rabs (fl (ang' + fradians angrot) - (ang + radians angrot)) <= / 500000000000) by (eapply Rle_trans; [exact N9|]; lra). clear N9. destruct (libm_near mc ms _ _ _ M N9') as (NC & NS).
  set (rang := ang + radians angrot) in *. set (rang' := fl (ang' + fradians angrot)) in *.
  assert (FIN : forall g g' k, (Z.abs k <= 2 ^ 20)%Z -> Rabs g <= 1 -> Rabs (g' - g) <= / 500000000000 + / IZR (2 ^ 52) -> Rabs (fl (IZR k - fl (f' * g')) - (IZR k - f * g)) <= / 10 ^ 6).
  { intros g g' k K G1 G. apply IZR_le in K. rewrite abs_IZR in K. change (IZR (2 ^ 20)) with 1048576 in K. pose proof (near_prod f f' g g' _ _ 4096 1 N7' G FB G1) as N. assert (N' : Rabs (fl (f' * g') - f * g) <= / 3000000) by (eapply Rle_trans; [exact N|]; lra).
    assert (SB : Rabs (IZR k + - (f * g)) <= 1100000) by (eapply Rle_trans; [apply Rabs_triang|]; rewrite Rabs_Ropp, (Rmult_comm f g); pose proof (abs_prod1 g f _ G1 FB); lra). eapply Rle_trans; [apply (near_add (IZR k) (IZR k) _ _ 0 _ _ (abs0 _) (opp_near _ _ _ N') SB)|]. cbn [pow]. lra. }
  split; apply FIN; try assumption; [apply sin1|apply cos1].
Qed.
(** Every point is cut off from a place within a millionth of the flower and in the square around its circle. *)
Theorem C148_flower : forall mc ms sq cx cy r petals angrot, libm mc ms -> squares sq -> (Z.abs cx <= 2 ^ 20)%Z -> (Z.abs cy <= 2 ^ 20)%Z -> (Z.abs r <= 4096)%Z -> (1 <= petals <= 1024)%Z -> Rabs angrot <= 65536 ->
  Z.of_nat (length (fiterflower mc ms sq cx cy r petals angrot)) = (360 * petals)%Z /\
  forall k, (k < length (fiterflower mc ms sq cx cy r petals angrot))%nat -> let q := nth k (fiterflower mc ms sq cx cy r petals angrot) (0, 0)%Z in
    let t := IZR (Z.of_nat k) / IZR petals * PI / 180 in let f := cos (IZR petals / 2 * t) ^ 2 * IZR r in let a := t + angrot * PI / 180 in
    cutoff (fst q) (IZR cx - f * sin a) /\ cutoff (snd q) (IZR cy - f * cos a) /\ (Z.abs (fst q - cx) <= Z.abs r)%Z /\ (Z.abs (snd q - cy) <= Z.abs r)%Z.
Proof.
  intros mc ms sq cx cy r petals angrot M SQ CX CY R P A. unfold fiterflower. rewrite map_length. assert (L : Z.of_nat (length (range 0 (360 * petals))) = (360 * petals)%Z) by (pose proof (zlen_range 0 (360 * petals)) as Z; unfold zlen in Z; rewrite Z; lia). split; [exact L|].
  intros k K. match goal with |- context [nth k ?l ?d] => set (q := nth k l d) end. assert (EQ : q = ctrunc (fflowerpoint mc ms sq cx cy r petals angrot (Z.of_nat k))) by (unfold q; rewrite <- (Nat2Z.id k) at 1; apply (nth_range (fun a => ctrunc (fflowerpoint mc ms sq cx cy r petals angrot a))); lia). rewrite EQ. clear q EQ.
  destruct (flower_near mc ms sq cx cy r petals angrot (Z.of_nat k) M SQ CX CY R P A ltac:(lia)) as (N1 & N2). split; [unfold ctrunc; cbn [fst snd]; apply cutoff_trunc; assumption|]. split; [unfold ctrunc; cbn [fst snd]; apply cutoff_trunc; assumption|].
  unfold ctrunc, fflowerpoint. cbn [fst snd]. set (m := mc (fl _)). set (rang := fl (_ + fradians angrot)). destruct (SQ m ltac:(apply M)) as (S & _). destruct (M rang) as (_ & _ & M1 & M2).
  assert (F : Rabs (fl (sq m * IZR r)) <= IZR (Z.abs r)). { assert (Q : Rabs (sq m * IZR r) <= IZR (Z.abs r)) by (apply abs_prod1; [apply Rabs_le; lra|rewrite abs_IZR; lra]). apply Rabs_le_inv in Q. rewrite <- opp_IZR in Q. pose proof (fl_within _ (- Z.abs r) (Z.abs r) ltac:(lia) ltac:(lia) Q) as W. rewrite opp_IZR in W. apply Rabs_le. exact W. }
  assert (FIN : forall s c, (Z.abs c <= 2 ^ 20)%Z -> Rabs s <= 1 -> (Z.abs (rtrunc (fl (IZR c - fl (fl (sq m * IZR r) * s))) - c) <= Z.abs r)%Z).
  { clear - R F. intros s c K S1. assert (Q : Rabs (fl (sq m * IZR r) * s) <= IZR (Z.abs r)) by (rewrite Rmult_comm; now apply abs_prod1). apply Rabs_le_inv in Q. rewrite <- opp_IZR in Q. pose proof (fl_within _ (- Z.abs r) (Z.abs r) ltac:(lia) ltac:(lia) Q) as W. rewrite opp_IZR in W.
    pose proof (fl_within (IZR c - fl (fl (sq m * IZR r) * s)) (c - Z.abs r) (c + Z.abs r) ltac:(lia) ltac:(lia) ltac:(rewrite minus_IZR, plus_IZR; lra)) as V. apply trunc_in in V. lia. }
  split; apply FIN; assumption.
Qed.
(** No petals, no points. *)
Theorem C148_flower_none : forall mc ms sq cx cy r petals angrot, (petals <= 0)%Z -> fiterflower mc ms sq cx cy r petals angrot = [].
Proof. intros. unfold fiterflower, range. replace (Z.to_nat (360 * petals - 0)) with 0%nat by lia. reflexivity. Qed.

(** ** Cases that meet the hypotheses *)
(** the nearest doubles, as in C146_libm_ex *)
Example C148_squares_ex : squares (fun x => fl (x * x)).
Proof.
  intros x X. assert (B : 0 <= x * x <= 1) by (apply Rabs_le_inv in X; split; nra). split; [exact (fl_within (x * x) 0 1 ltac:(lia) ltac:(lia) B)|]. eapply Rle_trans; [apply (fl_near _ 1); apply Rabs_le; lra|]. unfold u, eta. lra.
Qed.
(** a vertex behind the screen *)
Example C148_ex : small (1, 2, 3) /\ small (0, 0, 5) /\ viewed 0 0 0 (0, 0, 5) (1, 2, 3) = (-1, 2, 8) /\ 1 <= Rabs 8 /\ Rabs 0 <= 65536 /\ (1 <= 6 <= 360)%Z.
Proof.
  unfold small, viewed. cbn [fst snd]. replace (0 * PI / 180) with 0 by field. rewrite cos_0, sin_0. repeat split; try lia; try (apply Rabs_le; lra).
  - apply f_equal2; [apply f_equal2|]; ring.
  - rewrite Rabs_pos_eq; lra.
Qed.

Print Assumptions C148_radians.
Print Assumptions C148_rotation.
Print Assumptions C148_rotation_none.
Print Assumptions C148_polygon.
Print Assumptions C148_polygon_other.
Print Assumptions C148_perspective.
Print Assumptions C148_perspective_zero.
Print Assumptions C148_flower.
Print Assumptions C148_flower_none.
