(** Property C153: hidden faces, normals and drawings of solids with the rounding of floats. *)
From Flocq Require Import Core.
From Coq Require Import ZArith Reals List Lia Lra Bool Psatz.
From Verif Require Import PyBase PyFacts Bmp Region Geometry Draw Shapes Fractal MathLib Spec HeaderProofs PlotList Edges EdgeProofs Solids SolidProofs SurfProofs Coords RealProofs Sweeps Vertices Floats FloatProofs PropFloats Floats2 PropFloatSweeps FloatTurns PropFloatTurns FloatSweeps PropFloatDirs FloatShade PropFloatShade FloatSolid PropHelpers SpecShapes SpecSolids PropSolids Concrete.
Import ListNotations.
Open Scope R_scope.
Open Scope py_scope.

Definition rminus (a b : Vertices.vec) : Vertices.vec := let '(x, y, z) := a in let '(x', y', z') := b in (x - x', y - y', z - z').
Definition rdot (a b : Vertices.vec) : R := let '(x, y, z) := a in let '(x', y', z') := b in x * x' + y * y' + z * z'.
Definition rcross (a b : Vertices.vec) : Vertices.vec := let '(x, y, z) := a in let '(x', y', z') := b in (y * z' - z * y', z * x' - x * z', x * y' - y * x').
(** The normal of the plane through p, q and r. *)
Definition rnormal (p q r : Vertices.vec) : Vertices.vec := rcross (rminus q p) (rminus r p).
(** Coordinates up to B. *)
Definition up_to (B : R) (p : Vertices.vec) : Prop := let '(x, y, z) := p in Rabs x <= B /\ Rabs y <= B /\ Rabs z <= B.

Lemma mult_abs a b A B : Rabs a <= A -> Rabs b <= B -> Rabs (a * b) <= A * B.
Proof. intros HA HB. rewrite Rabs_mult. apply Rmult_le_compat; try apply Rabs_pos; assumption. Qed.
Lemma sub_near a a' b b' d e D : Rabs (a' - a) <= d -> Rabs (b' - b) <= e -> Rabs a <= D -> Rabs b <= D -> Rabs (fl (a' - b') - (a - b)) <= d + e + u * (2 * D + d + e) + eta.
Proof.
  intros HD HE HA HB. assert (Q : Rabs (a' - b') <= 2 * D + d + e) by (apply Rabs_le_inv in HD, HE, HA, HB; apply Rabs_le; lra). pose proof (fl_near _ _ Q) as N. apply Rabs_le_inv in HD, HE, N. apply Rabs_le. lra.
Qed.
Lemma minor a b c d B : 1 <= B -> Rabs a <= B -> Rabs b <= B -> Rabs c <= B -> Rabs d <= B ->
  Rabs (fl (fl (a * b) - fl (c * d)) - (a * b - c * d)) <= 5 * (u * (B * B)) /\ Rabs (a * b - c * d) <= 2 * (B * B).
Proof.
  intros H A1 A2 A3 A4. pose proof (mult_abs _ _ _ _ A1 A2) as P. pose proof (mult_abs _ _ _ _ A3 A4) as Q. assert (W : 1 <= B * B) by nra. set (w := B * B) in *. destruct consts as ((U0 & U) & (E0 & E) & _). pose proof eta_u as EU.
  assert (UW : u * 1 <= u * w) by (apply Rmult_le_compat_l; lra). assert (UW1 : u * w <= / 9000000000000000 * w) by (apply Rmult_le_compat_r; lra).
  pose proof (sub_near _ _ _ _ _ _ _ (fl_near _ _ P) (fl_near _ _ Q) P Q) as S. assert (UU : u * (2 * w + (u * w + eta) + (u * w + eta)) <= u * (2.1 * w)) by (apply Rmult_le_compat_l; lra).
  split; [lra|]. apply Rabs_le_inv in P, Q. apply Rabs_le. lra.
Qed.
Lemma term x m m' B : 1 <= B -> Rabs x <= B -> Rabs (m' - m) <= 5 * (u * (B * B)) -> Rabs m <= 2 * (B * B) ->
  Rabs (fl (x * m') - x * m) <= 8 * (u * (B * (B * B))) /\ Rabs (x * m) <= 2 * (B * (B * B)).
Proof.
  intros H X D M. assert (W : 1 <= B * B) by nra. set (w := B * B) in *. assert (T : 1 <= B * w) by nra. destruct consts as ((U0 & U) & (E0 & E) & _). pose proof eta_u as EU.
  assert (UW1 : u * w <= / 9000000000000000 * w) by (apply Rmult_le_compat_r; lra). assert (M' : Rabs m' <= 2.1 * w) by (apply Rabs_le_inv in D, M; apply Rabs_le; lra).
  pose proof (fl_near _ _ (mult_abs _ _ _ _ X M')) as F. pose proof (mult_abs _ _ _ _ X D) as G. replace (x * (m' - m)) with (x * m' - x * m) in G by ring. pose proof (mult_abs _ _ _ _ X M) as K.
  replace (u * (B * (2.1 * w))) with (2.1 * (u * (B * w))) in F by lra. replace (B * (5 * (u * w))) with (5 * (u * (B * w))) in G by ring. replace (B * (2 * w)) with (2 * (B * w)) in K by ring.
  assert (UT : u * 1 <= u * (B * w)) by (apply Rmult_le_compat_l; lra). split; [|exact K]. apply Rabs_le_inv in F, G. apply Rabs_le. lra.
Qed.
(** The test for hidden faces is right up to 40 units of the third power of the size of the solid. *)
Theorem C153_test : forall B p q r, 1 <= B -> up_to B p -> up_to B q -> up_to B r ->
  Rabs (fsurfacetest p q r + rdot (rnormal p q r) p) <= 40 * (u * (B * (B * B))).
Proof.
  intros B [[x1 y1] z1] [[x2 y2] z2] [[x3 y3] z3] H (X1 & Y1 & Z1) (X2 & Y2 & Z2) (X3 & Y3 & Z3). unfold fsurfacetest.
  destruct (minor y3 z2 y2 z3 B H Y3 Z2 Y2 Z3) as (A1 & A2). destruct (minor y3 z1 y1 z3 B H Y3 Z1 Y1 Z3) as (B1 & B2). destruct (minor y1 z2 y2 z1 B H Y1 Z2 Y2 Z1) as (C1 & C2).
  destruct (term x1 _ _ B H X1 A1 A2) as (D1 & D2). destruct (term x2 _ _ B H X2 B1 B2) as (E1 & E2). destruct (term x3 _ _ B H X3 C1 C2) as (F1 & F2).
  set (m1 := fl (x1 * _)) in *. set (m2 := fl (x2 * _)) in *. set (m3 := fl (x3 * _)) in *. clear A1 A2 B1 B2 C1 C2. clearbody m1 m2 m3. set (t1 := x1 * (_ - _)) in *. set (t2 := x2 * (_ - _)) in *. set (t3 := x3 * (_ - _)) in *.
  assert (Q : rdot (rnormal (x1, y1, z1) (x2, y2, z2) (x3, y3, z3)) (x1, y1, z1) = - (t1 - t2 - t3)) by (cbv beta iota zeta delta [rdot rnormal rcross rminus t1 t2 t3]; ring).
  rewrite Q. clear Q. assert (W : 1 <= B * B) by nra. assert (T : 1 <= B * (B * B)) by nra. set (w := B * (B * B)) in *. destruct consts as ((U0 & U) & (ET0 & ET) & _). pose proof eta_u as EU.
  assert (UT : u * 1 <= u * w) by (apply Rmult_le_compat_l; lra). assert (UW1 : u * w <= / 9000000000000000 * w) by (apply Rmult_le_compat_r; lra).
  pose proof (sub_near _ _ _ _ _ _ _ D1 E1 D2 E2) as S1. assert (V1 : u * (2 * (2 * w) + 8 * (u * w) + 8 * (u * w)) <= u * (4.1 * w)) by (apply Rmult_le_compat_l; lra). assert (S1' : Rabs (fl (m1 - m2) - (t1 - t2)) <= 21 * (u * w)) by lra.
  assert (T12 : Rabs (t1 - t2) <= 4 * w) by (apply Rabs_le_inv in D2, E2; apply Rabs_le; lra). assert (F2' : Rabs t3 <= 4 * w) by lra. pose proof (sub_near _ _ _ _ _ _ _ S1' F1 T12 F2') as S2.
  assert (V2 : u * (2 * (4 * w) + 21 * (u * w) + 8 * (u * w)) <= u * (8.1 * w)) by (apply Rmult_le_compat_l; lra). replace (fl (fl (m1 - m2) - m3) + - (t1 - t2 - t3)) with (fl (fl (m1 - m2) - m3) - (t1 - t2 - t3)) by ring. lra.
Qed.
(** Normals are right up to 60 units of the square of the size of the solid. *)
Definition close (e : R) (a b : Vertices.vec) : Prop := let '(x, y, z) := a in let '(x', y', z') := b in Rabs (x - x') <= e /\ Rabs (y - y') <= e /\ Rabs (z - z') <= e.
Lemma diff_near a b B : 1 <= B -> Rabs a <= B -> Rabs b <= B -> Rabs (fl (a - b) - (a - b)) <= 3 * (u * B) /\ Rabs (a - b) <= 2 * B.
Proof.
  intros H HA HB. assert (D : Rabs (a - b) <= 2 * B) by (apply Rabs_le_inv in HA, HB; apply Rabs_le; lra). pose proof (fl_near _ _ D) as F. destruct consts as ((U0 & U) & (E0 & E) & _). pose proof eta_u as EU. assert (u * 1 <= u * B) by (apply Rmult_le_compat_l; lra). split; lra.
Qed.
Lemma part a a' b b' c c' d d' B : 1 <= B -> Rabs (a' - a) <= 3 * (u * B) -> Rabs (b' - b) <= 3 * (u * B) -> Rabs (c' - c) <= 3 * (u * B) -> Rabs (d' - d) <= 3 * (u * B) ->
  Rabs a <= 2 * B -> Rabs b <= 2 * B -> Rabs c <= 2 * B -> Rabs d <= 2 * B -> Rabs (fl (fl (a' * b') - fl (c' * d')) - (a * b - c * d)) <= 60 * (u * (B * B)).
Proof.
  intros H A1 B1 C1 D1 A2 B2 C2 D2. destruct consts as ((U0 & U) & (E0 & E) & _). pose proof eta_u as EU. assert (W : 1 <= B * B) by nra. assert (UB : 0 <= u * B <= / 9000000000000000 * B) by (split; [apply Rmult_le_pos; lra|apply Rmult_le_compat_r; lra]).
  assert (P : forall x x' y y', Rabs (x' - x) <= 3 * (u * B) -> Rabs (y' - y) <= 3 * (u * B) -> Rabs x <= 2 * B -> Rabs y <= 2 * B -> Rabs (fl (x' * y') - x * y) <= 20 * (u * (B * B)) /\ Rabs (x * y) <= 4 * (B * B)).
  { intros x x' y y' X1 Y1 X2 Y2. pose proof (near_prod _ _ _ _ _ _ _ _ X1 Y1 X2 Y2) as N. pose proof (mult_abs _ _ _ _ X2 Y2) as K. split; [|lra].
    assert (N1 : (2 * B + 3 * (u * B)) * (3 * (u * B)) <= 2.1 * B * (3 * (u * B))) by (apply Rmult_le_compat_r; lra). assert (N2 : (2 * B + 3 * (u * B)) * (2 * B + 3 * (u * B)) <= 2.1 * B * (2.1 * B)) by (apply Rmult_le_compat; lra).
    assert (N3 : u * ((2 * B + 3 * (u * B)) * (2 * B + 3 * (u * B))) <= u * (2.1 * B * (2.1 * B))) by (apply Rmult_le_compat_l; lra). assert (UW : u * 1 <= u * (B * B)) by (apply Rmult_le_compat_l; lra).
    replace (2.1 * B * (3 * (u * B))) with (6.3 * (u * (B * B))) in N1 by lra. replace (u * (2.1 * B * (2.1 * B))) with (4.41 * (u * (B * B))) in N3 by lra. replace (3 * (u * B) * (2 * B)) with (6 * (u * (B * B))) in N by ring. lra. }
  destruct (P _ _ _ _ A1 B1 A2 B2) as (P1 & P2). destruct (P _ _ _ _ C1 D1 C2 D2) as (Q1 & Q2). pose proof (sub_near _ _ _ _ _ _ _ P1 Q1 P2 Q2) as S. set (w := B * B) in *.
  assert (UT : u * 1 <= u * w) by (apply Rmult_le_compat_l; lra). assert (UW1 : u * w <= / 9000000000000000 * w) by (apply Rmult_le_compat_r; lra). assert (V : u * (2 * (4 * w) + 20 * (u * w) + 20 * (u * w)) <= u * (8.1 * w)) by (apply Rmult_le_compat_l; lra). lra.
Qed.
Theorem C153_normal : forall B p q r, 1 <= B -> up_to B p -> up_to B q -> up_to B r -> close (60 * (u * (B * B))) (fgetnormvec p q r) (rnormal p q r).
Proof.
  intros B [[x1 y1] z1] [[x2 y2] z2] [[x3 y3] z3] H (X1 & Y1 & Z1) (X2 & Y2 & Z2) (X3 & Y3 & Z3). unfold fgetnormvec, fcrossprod3d, fsubvect, rnormal, rcross, rminus, close.
  destruct (diff_near x2 x1 B H X2 X1), (diff_near y2 y1 B H Y2 Y1), (diff_near z2 z1 B H Z2 Z1), (diff_near x3 x1 B H X3 X1), (diff_near y3 y1 B H Y3 Y1), (diff_near z3 z1 B H Z3 Z1).
  split; [|split]; apply part; assumption.
Qed.

(** ** Which faces are kept *)
Definition at_ (rs : list Vertices.vec) (i : Z) : Vertices.vec := nth (Z.to_nat i) rs (0, 0, 0).
Definition moved (ps : list (R * R)) (t : Z * Z) (i : Z) : R * R :=
  let p := nth (Z.to_nat i) ps (0, 0) in (fl (fst p + IZR (fst t)), fl (snd p + IZR (snd t))).
Definition fkept (rs : list Vertices.vec) (f : list Z) : bool :=
  match f with i :: j :: k :: _ => rle (fsurfacetest (at_ rs i) (at_ rs j) (at_ rs k)) 0 | _ => false end.
Definition fnormal (rs : list Vertices.vec) (f : list Z) : Vertices.vec :=
  match f with i :: j :: k :: _ => fgetnormvec (at_ rs i) (at_ rs j) (at_ rs k) | _ => (0, 0, 0) end.
Definition table (n : nat) (sides : list (list Z)) : Prop :=
  forall f, In f sides -> (3 <= length f)%nat /\ forall i, In i f -> (0 <= i < Z.of_nat n)%Z.
Lemma fgensides_run rs ps t sides : length ps = length rs -> table (length rs) sides ->
  fgensides rs ps t sides = Ok (map (map (moved ps t)) (filter (fkept rs) sides), map (fnormal rs) (filter (fkept rs) sides)).
Proof.
  intros Hp Hs. unfold fgensides.
  assert (G : forall l, (forall f, In f l -> In f sides) -> forall a1 a2,
    fold_left (fun r sidepts => let! acc := r in
      match sidepts with
      | s0 :: s1 :: s2 :: _ =>
          let! a := item rs s0 in let! b := item rs s1 in let! c := item rs s2 in
          if rle (fsurfacetest a b c) 0 then
            let! poly := mapR (fun i => let! p := item ps i in Ok (fl (fst p + IZR (fst t)), fl (snd p + IZR (snd t)))) sidepts in
            Ok (fst acc ++ [poly], snd acc ++ [fgetnormvec a b c])
          else Ok acc
      | _ => Err ValueError
      end) l (Ok (a1, a2)) = Ok (a1 ++ map (map (moved ps t)) (filter (fkept rs) l), a2 ++ map (fnormal rs) (filter (fkept rs) l))).
  { induction l as [|f l IH]; intros Hl a1 a2.
    - cbn [fold_left filter map]. now rewrite !app_nil_r.
    - destruct (Hs f (Hl f (or_introl eq_refl))) as [Lf If].
      destruct f as [|i [|j [|k r]]]; try (cbn [length] in Lf; lia).
      set (f := i :: j :: k :: r) in *. cbn [fold_left]. unfold f at 1. cbn [rbind].
      rewrite !(item_nth _ (0, 0, 0)) by (unfold zlen; apply If; cbn; auto). cbn [rbind]. fold (at_ rs i) (at_ rs j) (at_ rs k).
      assert (Ep : mapR (fun i => let! p := item ps i in Ok (fl (fst p + IZR (fst t)), fl (snd p + IZR (snd t)))) f = Ok (map (moved ps t) f)).
      { apply mapR_ok. intros a Ha. rewrite (item_nth _ (0, 0)) by (unfold zlen; rewrite Hp; apply If; exact Ha). reflexivity. }
      cbn [filter]. assert (Ek : fkept rs f = rle (fsurfacetest (at_ rs i) (at_ rs j) (at_ rs k)) 0) by reflexivity. rewrite Ek. destruct (rle _ 0).
      + rewrite Ep. cbn [rbind fst snd]. rewrite IH by (intros; apply Hl; now right). cbn [map]. rewrite <- !app_assoc. reflexivity.
      + apply IH. intros; apply Hl; now right. }
  now rewrite (G sides ltac:(auto) [] []).
Qed.
(** Faces are kept in their order; a face whose plane the viewer at the origin clearly sees from the front is kept and
    one clearly seen from behind is left out. *)
Theorem C153_sides : forall B rs ps t sides, 1 <= B -> Forall (up_to B) rs -> length ps = length rs -> table (length rs) sides ->
  exists kept, fgensides rs ps t sides = Ok (map (map (moved ps t)) (filter kept sides), map (fnormal rs) (filter kept sides)) /\
    forall i j k f, In (i :: j :: k :: f) sides -> let n := rnormal (at_ rs i) (at_ rs j) (at_ rs k) in
      (40 * (u * (B * (B * B))) <= rdot n (at_ rs i) -> kept (i :: j :: k :: f) = true) /\
      (rdot n (at_ rs i) < - (40 * (u * (B * (B * B)))) -> kept (i :: j :: k :: f) = false) /\
      close (60 * (u * (B * B))) (fnormal rs (i :: j :: k :: f)) n.
Proof.
  intros B rs ps t sides H F Hp Hs. exists (fkept rs). split; [now apply fgensides_run|]. intros i j k f I n. destruct (Hs _ I) as (_ & Q).
  assert (U : forall m, In m (i :: j :: k :: f) -> up_to B (at_ rs m)) by (intros m M; rewrite Forall_forall in F; apply F, nth_In; specialize (Q m M); lia).
  pose proof (C153_test B _ _ _ H (U i ltac:(cbn; auto)) (U j ltac:(cbn; auto)) (U k ltac:(cbn; auto))) as T. fold n in T. apply Rabs_le_inv in T. unfold fkept. split; [|split].
  - intros L. apply rle_iff. lra.
  - intros L. destruct (rle _ 0) eqn:E; [|reflexivity]. apply rle_iff in E. lra.
  - apply C153_normal; auto; apply U; cbn; auto.
Qed.
(** ** Whole coordinates *)
Lemma fl_int n : (Z.abs n <= 2 ^ 53)%Z -> fl (IZR n) = IZR n.
Proof. apply fl_Z. Qed.
Definition zvec (v : SpecSolids.vec) : Vertices.vec := let '(x, y, z) := v in (IZR x, IZR y, IZR z).
Definition small_vec (v : SpecSolids.vec) : Prop := let '(x, y, z) := v in (Z.abs x <= 2 ^ 16 /\ Z.abs y <= 2 ^ 16 /\ Z.abs z <= 2 ^ 16)%Z.
Lemma abs_mult a b A B : (Z.abs a <= A -> Z.abs b <= B -> Z.abs (a * b) <= A * B)%Z.
Proof. intros HA HB. rewrite Z.abs_mul. pose proof (Z.abs_nonneg a). pose proof (Z.abs_nonneg b). apply Z.mul_le_mono_nonneg; assumption. Qed.
Lemma whole_minor a b c d A : (Z.abs a <= A -> Z.abs b <= A -> Z.abs c <= A -> Z.abs d <= A -> A <= 2 ^ 17 ->
    fl (fl (IZR a * IZR b) - fl (IZR c * IZR d))%R = IZR (a * b - c * d) /\ Z.abs (a * b - c * d) <= 2 * (A * A))%Z.
Proof.
  intros HA HB HC HD LA. pose proof (abs_mult a b A A HA HB). pose proof (abs_mult c d A A HC HD). assert (A0 : (0 <= A)%Z) by (pose proof (Z.abs_nonneg a); lia).
  assert (A2 : (A * A <= 2 ^ 17 * 2 ^ 17)%Z) by (apply Z.mul_le_mono_nonneg; assumption). change (2 ^ 17 * 2 ^ 17)%Z with (2 ^ 34)%Z in A2. clear HA HB HC HD. rewrite <- !mult_IZR, (fl_int (a * b)), (fl_int (c * d)) by lia. rewrite <- minus_IZR, fl_int by lia. split; [reflexivity|lia].
Qed.
Theorem C153_whole : forall p q r, small_vec p -> small_vec q -> small_vec r ->
  fsurfacetest (zvec p) (zvec q) (zvec r) = IZR (- SpecSolids.dot3 (SpecSolids.normal p q r) p) /\
  fgetnormvec (zvec p) (zvec q) (zvec r) = zvec (SpecSolids.normal p q r).
Proof.
  intros [[x1 y1] z1] [[x2 y2] z2] [[x3 y3] z3] (X1 & Y1 & Z1) (X2 & Y2 & Z2) (X3 & Y3 & Z3).
  pose proof abs_mult as M. pose proof whole_minor as D.
  split.
  - unfold zvec, fsurfacetest. destruct (D y3 z2 y2 z3 (2 ^ 16)%Z Y3 Z2 Y2 Z3 ltac:(lia)) as (-> & A1). destruct (D y3 z1 y1 z3 (2 ^ 16)%Z Y3 Z1 Y1 Z3 ltac:(lia)) as (-> & A2). destruct (D y1 z2 y2 z1 (2 ^ 16)%Z Y1 Z2 Y2 Z1 ltac:(lia)) as (-> & A3).
    pose proof (M _ _ _ _ X1 A1) as M1. pose proof (M _ _ _ _ X2 A2) as M2. pose proof (M _ _ _ _ X3 A3) as M3. rewrite <- !mult_IZR. change (2 ^ 16 * (2 * (2 ^ 16 * 2 ^ 16)))%Z with (2 ^ 49)%Z in *. clear D M A1 A2 A3.
    set (a1 := (x1 * _)%Z) in *. set (a2 := (x2 * _)%Z) in *. set (a3 := (x3 * _)%Z) in *. transitivity (IZR (a1 - a2 - a3)); [clearbody a1 a2 a3; clear X1 X2 X3 Y1 Y2 Y3 Z1 Z2 Z3|unfold a1, a2, a3; clear].
    + rewrite (fl_int a1), (fl_int a2), (fl_int a3) by lia. rewrite <- (minus_IZR a1 a2), (fl_int (a1 - a2)) by lia. rewrite <- (minus_IZR (a1 - a2) a3). apply fl_int. lia.
    + f_equal. cbv beta iota zeta delta [SpecSolids.dot3 SpecSolids.normal SpecSolids.cross3 SpecSolids.minus3]. ring.
  - unfold zvec, fgetnormvec, fsubvect, fcrossprod3d, SpecSolids.normal, SpecSolids.cross3, SpecSolids.minus3. 
    assert (S : forall a b, (Z.abs a <= 2 ^ 16 -> Z.abs b <= 2 ^ 16 -> fl (IZR a - IZR b)%R = IZR (a - b) /\ Z.abs (a - b) <= 2 ^ 17)%Z) by (clear; intros a b HA HB; rewrite <- minus_IZR; split; [apply fl_int; lia|lia]).
    destruct (S x2 x1 X2 X1) as (-> & S1), (S y2 y1 Y2 Y1) as (-> & S2), (S z2 z1 Z2 Z1) as (-> & S3), (S x3 x1 X3 X1) as (-> & S4), (S y3 y1 Y3 Y1) as (-> & S5), (S z3 z1 Z3 Z1) as (-> & S6).
    rewrite (proj1 (D _ _ _ _ _ S2 S6 S3 S5 (Z.le_refl _))), (proj1 (D _ _ _ _ _ S3 S4 S1 S6 (Z.le_refl _))), (proj1 (D _ _ _ _ _ S1 S5 S2 S4 (Z.le_refl _))). reflexivity.
Qed.
(** ** Shading from the vertices *)
Lemma part_le x y z : Rabs x <= sqrt (x * x + y * y + z * z).
Proof. pose proof (Rle_0_sqr y) as A. pose proof (Rle_0_sqr z) as B. unfold Rsqr in *. apply sqrt_ge_of; [apply Rabs_pos|]. rewrite <- Rabs_mult, Rabs_pos_eq by apply Rle_0_sqr. lra. Qed.
Lemma norm_gap x y z x' y' z' e : Rabs (x' - x) <= e -> Rabs (y' - y) <= e -> Rabs (z' - z) <= e -> 0 < sqrt (x * x + y * y + z * z) ->
  Rabs (sqrt (x' * x' + y' * y' + z' * z') - sqrt (x * x + y * y + z * z)) <= 3 * e.
Proof.
  intros X Y Z P. assert (N : forall a b c, 0 <= a * a + b * b + c * c) by (intros a b c; pose proof (Rle_0_sqr a); pose proof (Rle_0_sqr b); pose proof (Rle_0_sqr c); unfold Rsqr in *; lra).
  pose proof (part_le x y z) as X1. pose proof (part_le y x z) as Y1. pose proof (part_le z x y) as Z1. pose proof (part_le x' y' z') as X2. pose proof (part_le y' x' z') as Y2. pose proof (part_le z' x' y') as Z2.
  replace (y * y + x * x + z * z) with (x * x + y * y + z * z) in Y1 by ring. replace (z * z + x * x + y * y) with (x * x + y * y + z * z) in Z1 by ring. replace (y' * y' + x' * x' + z' * z') with (x' * x' + y' * y' + z' * z') in Y2 by ring. replace (z' * z' + x' * x' + y' * y') with (x' * x' + y' * y' + z' * z') in Z2 by ring.
  pose proof (sqrt_sqrt _ (N x y z)) as M. pose proof (sqrt_sqrt _ (N x' y' z')) as M'. pose proof (sqrt_pos (x' * x' + y' * y' + z' * z')) as P'. set (m := sqrt (x * x + y * y + z * z)) in *. set (m' := sqrt (x' * x' + y' * y' + z' * z')) in *.
  assert (F : (m' - m) * (m' + m) = (x' - x) * (x' + x) + (y' - y) * (y' + y) + (z' - z) * (z' + z)) by (replace ((m' - m) * (m' + m)) with (m' * m' - m * m) by ring; rewrite M, M'; ring).
  assert (G : Rabs ((m' - m) * (m' + m)) <= 3 * e * (m' + m)).
  { rewrite F. assert (T : forall a a', Rabs a <= m -> Rabs a' <= m' -> Rabs (a' - a) <= e -> Rabs ((a' - a) * (a' + a)) <= e * (m' + m)) by (intros a a' A A' D; apply mult_abs; [exact D|]; eapply Rle_trans; [apply Rabs_triang|]; lra).
    pose proof (T _ _ X1 X2 X) as TX. pose proof (T _ _ Y1 Y2 Y) as TY. pose proof (T _ _ Z1 Z2 Z) as TZ. eapply Rle_trans; [apply Rabs_triang|]. eapply Rle_trans; [apply Rplus_le_compat_r, Rabs_triang|]. lra. }
  rewrite Rabs_mult, (Rabs_pos_eq (m' + m)) in G by lra. apply (Rmult_le_reg_r (m' + m)); lra.
Qed.
Lemma cos_gap x y z x' y' z' e : Rabs (x' - x) <= e -> Rabs (y' - y) <= e -> Rabs (z' - z) <= e -> e <= / 10 -> 2 <= sqrt (x * x + y * y + z * z) ->
  Rabs (cosine x' y' z' - cosine x y z) <= 5 * e / sqrt (x * x + y * y + z * z) /\ 1 <= x' * x' + y' * y' + z' * z'.
Proof.
  intros X Y Z E M. pose proof (norm_gap x y z x' y' z' e X Y Z ltac:(lra)) as G. pose proof (part_le z x y) as PZ. replace (z * z + x * x + y * y) with (x * x + y * y + z * z) in PZ by ring. unfold cosine.
  pose proof (sqrt_sqrt (x' * x' + y' * y' + z' * z')) as S'. assert (N : 0 <= x' * x' + y' * y' + z' * z') by (pose proof (Rle_0_sqr x'); pose proof (Rle_0_sqr y'); pose proof (Rle_0_sqr z'); unfold Rsqr in *; lra). specialize (S' N).
  set (m := sqrt (x * x + y * y + z * z)) in *. set (m' := sqrt (x' * x' + y' * y' + z' * z')) in *. apply Rabs_le_inv in G. assert (E0 : 0 <= e) by (pose proof (Rabs_pos (x' - x)); lra). assert (L : 0.85 * m <= m') by lra. split; [|nra].
  replace (z' / m' - z / m) with ((m * (z' - z) + z * (m - m')) / (m * m')) by (field; lra). assert (P : 0 < m * m') by nra. unfold Rdiv. rewrite Rabs_mult, (Rabs_pos_eq (/ _)) by (apply Rlt_le, Rinv_0_lt_compat; exact P).
  apply (Rmult_le_reg_r (m * m')); [exact P|]. rewrite Rmult_assoc, Rinv_l, Rmult_1_r by lra. replace (5 * e * / m * (m * m')) with (5 * e * m') by (field; lra).
  assert (A : Rabs (m * (z' - z)) <= m * e) by (apply mult_abs; [rewrite Rabs_pos_eq; lra|exact Z]). assert (B : Rabs (z * (m - m')) <= m * (3 * e)) by (apply mult_abs; [exact PZ|apply Rabs_le; lra]).
  eapply Rle_trans; [apply Rabs_triang|]. assert (e * (0.85 * m) <= e * m') by (apply Rmult_le_compat_l; lra). assert (0 <= e * m) by (apply Rmult_le_pos; lra). lra.
Qed.
(** The luminosity of a face follows the cosine of its true normal. *)
Theorem C153_shade : forall sm B p q r a b c, summation sm -> 1 <= B <= IZR (2 ^ 20) -> up_to B p -> up_to B q -> up_to B r ->
  rnormal p q r = (a, b, c) -> 4 <= a * a + b * b + c * c ->
  exists lum, flum sm (fgetnormvec p q r) = Ok lum /\ (-1 <= lum <= 255)%Z /\
    Rabs (IZR lum - (127 + 128 * cosine a b c)) <= 1 + 2 / 1000000000000 + 128 * (300 * (u * (B * B)) / sqrt (a * a + b * b + c * c)).
Proof.
  intros sm B p q r a b c SM (B1 & B2) P Q R N S. pose proof (C153_normal B p q r B1 P Q R) as C. rewrite N in C. assert (FZ : let '(x, y, z) := fgetnormvec p q r in fl z = z) by (destruct p as [[x1 y1] z1], q as [[x2 y2] z2], r as [[x3 y3] z3]; apply fl_fl).
  destruct (fgetnormvec p q r) as [[x y] z]. destruct C as (X & Y & Z). assert (M : 2 <= sqrt (a * a + b * b + c * c)) by (apply sqrt_ge_of; lra).
  assert (E : 60 * (u * (B * B)) <= / 10). { assert (BB : B * B <= IZR (2 ^ 20) * IZR (2 ^ 20)) by (apply Rmult_le_compat; lra). assert (UB : u * (B * B) <= u * (IZR (2 ^ 20) * IZR (2 ^ 20))) by (apply Rmult_le_compat_l; [pose proof u_pos; lra|exact BB]). assert (UE : u * (IZR (2 ^ 20) * IZR (2 ^ 20)) <= / 1000) by (unfold u; rewrite <- mult_IZR; cbn; lra). lra. }
  destruct (cos_gap a b c x y z _ X Y Z E M) as (G & S'). destruct (C152_light sm x y z SM FZ S') as (lum & L & LB & LP & LN). exists lum. split; [exact L|]. split; [exact LB|]. set (m := sqrt (a * a + b * b + c * c)) in *.
  replace (5 * (60 * (u * (B * B))) / m) with (300 * (u * (B * B)) / m) in G by (field; lra). apply Rabs_le_inv in G. apply Rabs_le. destruct (Rle_or_lt 0 z) as [H|H]; [destruct (LP H) as (_ & K)|destruct (LN (Rlt_le _ _ H)) as (_ & K)]; lra.
Qed.
(** A hidden face seen almost edge on may be kept. *)
Theorem C153_edge_refuted : let p := (1, 0, 0) in let q := (0, 1, 134217729 / 134217728) in let r := (0, 134217729 / 134217728, 67108865 / 67108864) in
  (forall i, In i [p; q; r] -> let '(x, y, z) := i in fl x = x /\ fl y = y /\ fl z = z) /\
  rdot (rnormal p q r) p < 0 /\ fgensides [p; q; r] [(0, 0); (5, 0); (0, 5)] (0, 0)%Z [[0; 1; 2]%Z] = Ok ([[(0, 0); (5, 0); (0, 5)]], [fgetnormvec p q r]).
Proof.
  intros p q r. pose proof (flcheck_ok 134217729 134217728 4503599660924928 52 eq_refl) as F1. pose proof (flcheck_ok 67108865 67108864 4503599694479360 52 eq_refl) as F2. pose proof (flcheck_ok 18014398777917441 18014398509481984 4503599694479360 52 eq_refl) as F3.
  assert (G1 : fl (134217729 / 134217728) = 134217729 / 134217728) by (rewrite F1; lra). assert (G2 : fl (67108865 / 67108864) = 67108865 / 67108864) by (rewrite F2; lra).
  assert (G3 : fl (134217729 / 134217728 * (134217729 / 134217728)) = 67108865 / 67108864) by (replace (134217729 / 134217728 * (134217729 / 134217728)) with (IZR 18014398777917441 / IZR 18014398509481984) by (cbn; lra); rewrite F3; lra).
  assert (F5 : fl 5 = 5) by (apply (fl_Z 5); lia).
  split; [|split].
  - intros i [<-|[<-|[<-|[]]]]; unfold p, q, r; repeat split; auto using fl_0, fl_1.
  - unfold p, q, r, rdot, rnormal, rcross, rminus. lra.
  - rewrite fgensides_run; [|reflexivity|]. 2:{ intros f [<-|[]]. split; [cbn; lia|]. intros i [<-|[<-|[<-|[]]]]; cbn; lia. }
    assert (K : fkept [p; q; r] [0; 1; 2]%Z = true).
    { unfold fkept. change (at_ [p; q; r] 0) with p. change (at_ [p; q; r] 1) with q. change (at_ [p; q; r] 2) with r. apply rle_iff. unfold p, q, r, fsurfacetest. rewrite G3, ?Rmult_0_l, ?Rmult_0_r, ?Rmult_1_l, G2, ?fl_0. replace (67108865 / 67108864 - 67108865 / 67108864) with 0 by ring. rewrite ?Rminus_0_r, ?fl_0, ?Rminus_0_r, ?fl_0. lra. }
    cbn [filter]. rewrite K. cbn [map]. unfold fnormal. change (at_ [p; q; r] 0) with p. change (at_ [p; q; r] 1) with q. change (at_ [p; q; r] 2) with r. unfold moved. change (nth (Z.to_nat 0) [(0, 0); (5, 0); (0, 5)] (0, 0)) with (0, 0). change (nth (Z.to_nat 1) [(0, 0); (5, 0); (0, 5)] (0, 0)) with (5, 0). change (nth (Z.to_nat 2) [(0, 0); (5, 0); (0, 5)] (0, 0)) with (0, 5). cbn [fst snd]. rewrite !Rplus_0_r, !fl_0, F5. reflexivity.
Qed.
(** Faces are drawn between the whole points nearest to those of the perspective, halves going to even numbers. *)
Theorem C153_points : forall p, let q := roundpoint p in
  Rabs (fst p - IZR (fst q)) <= 1 / 2 /\ (Rabs (fst p - IZR (fst q)) = 1 / 2 -> Z.even (fst q) = true) /\
  Rabs (snd p - IZR (snd q)) <= 1 / 2 /\ (Rabs (snd p - IZR (snd q)) = 1 / 2 -> Z.even (snd q) = true).
Proof. intros p q. unfold q, roundpoint. cbn [fst snd]. repeat split; try apply rround_near; apply rround_even. Qed.
Example C153_points_ex : roundpoint (5 / 2, 31 / 10) = (2, 3)%Z.
Proof.
  unfold roundpoint. cbn [fst snd]. f_equal; [|apply rround_unique; apply Rabs_def1; lra]. pose proof (rround_near (5 / 2)) as N. pose proof (rround_even (5 / 2)) as E. set (n := rround (5 / 2)) in *. apply Rabs_le_inv in N. assert (2 <= n <= 3)%Z by (split; apply le_IZR; lra).
  destruct (Z.eq_dec n 2) as [|K]; [assumption|]. assert (n = 3)%Z as K3 by lia. rewrite K3 in E. discriminate E. rewrite Rabs_left; lra.
Qed.
(** ** Drawings *)
Lemma perspective_length vs rot disp d rs ps : fperspective vs rot disp d = Ok (rs, ps) -> length rs = length vs /\ length ps = length vs.
Proof.
  unfold fperspective. destruct (res_map _ vs) as [l|e] eqn:E; [|discriminate]. cbn [rbind]. intros H. injection H as <- <-. apply res_map_ok in E. rewrite !map_length. induction E as [|a b l1 l2 _ _ (I & _)]; [split; reflexivity|]. cbn [length]. split; now rewrite I.
Qed.
Theorem C153_solid : forall sm B r g k b w h bits o vs surfaces rot disp d t c solid line rs ps, summation sm -> 1 <= B ->
  wf b w h bits -> bits <> 4%Z -> (0 < w)%Z -> (0 < h)%Z -> 0 <= r <= 1 -> 0 <= g <= 1 -> 0 <= k <= 1 -> (0 <= c < 2 ^ bits)%Z ->
  fperspective vs rot disp d = Ok (rs, ps) -> Forall (up_to B) rs -> table (length vs) surfaces ->
  let poly f := map (fun i => roundpoint (moved ps t i)) f in
  (forall i j m f, In (i :: j :: m :: f) surfaces -> - (40 * (u * (B * (B * B)))) <= rdot (rnormal (at_ rs i) (at_ rs j) (at_ rs m)) (at_ rs i) ->
    facing (fnormal rs (i :: j :: m :: f)) /\ Forall (fun e => seg_fits w h bits (fst e) (snd e)) (closed_edges (poly (i :: j :: m :: f)))) ->
  exists kept L v b' o',
    (forall i j m f, In (i :: j :: m :: f) surfaces -> let n := rnormal (at_ rs i) (at_ rs j) (at_ rs m) in
      (40 * (u * (B * (B * B))) <= rdot n (at_ rs i) -> kept (i :: j :: m :: f) = true) /\
      (rdot n (at_ rs i) < - (40 * (u * (B * (B * B)))) -> kept (i :: j :: m :: f) = false)) /\
    map fst L = map (fun f => (poly f, fnormal rs f)) (filter kept surfaces) /\
    (forall p n S, In ((p, n), S) L -> forall x y, S x y = true <-> (forall x y, outline p x y -> inside w h x y) /\ between (outline p) x y) /\
    (forall p n S, In ((p, n), S) L -> exists lum, flum sm n = Ok lum /\ (0 <= lum <= 255)%Z /\ shows b bits (fmixed lum (r, g, k)) (v n)) /\
    fplot3Dsolid sm vs surfaces solid (r, g, k) line c rot disp d t (mkst b o) = (Ok tt, mkst b' o') /\
    (bits <> 1%Z -> exists k, o' = o ++ repeat Mregionoutofbounds k) /\
    repainted b b' w h bits (fun x y =>
      if line && existsb (fun p => any_edge (seg_hit w h) (closed_edges p) x y) (map poly (filter kept surfaces)) then c
      else if solid then match find (fun q => snd q x y) (rev L) with Some q => v (snd (fst q)) | None => pixel b w h bits x y end
      else pixel b w h bits x y).
Proof.
  intros sm B r g k b w h bits o vs surfaces rot disp d t c solid line rs ps SM HB W N4 W0 H0 HR HG HK HC EP HU HT poly HF.
  destruct (perspective_length _ _ _ _ _ _ EP) as (L1 & L2). rewrite <- L1 in HT. assert (L3 : length ps = length rs) by congruence.
  destruct (C153_sides B rs ps t surfaces HB HU L3 HT) as (kept & E & K). set (fs := filter kept surfaces) in *.
  assert (FS : forall f, In f fs -> In f surfaces) by (intros f I; apply filter_In in I; tauto).
  assert (HS : forall f, In f fs -> facing (fnormal rs f) /\ Forall (fun e => seg_fits w h bits (fst e) (snd e)) (closed_edges (poly f))).
  { intros f I. apply filter_In in I. destruct I as (I & KF). destruct (HT f I) as (Len & _). destruct f as [|i [|j [|m f]]]; try (cbn [length] in Len; lia). apply HF; [exact I|]. destruct (K i j m f I) as (_ & K2 & _). apply Rnot_lt_le. intros C. rewrite (K2 C) in KF. discriminate. }
  assert (A1 : Forall facing (map (fnormal rs) fs)). { apply Forall_forall. intros n I. apply in_map_iff in I. destruct I as (f & <- & I). now apply HS. }
  assert (A2 : (length (map poly fs) <= length (map (fnormal rs) fs))%nat) by (rewrite !map_length; lia).
  assert (A3 : Forall (fun p => p <> [] /\ Forall (fun e => seg_fits w h bits (fst e) (snd e)) (closed_edges p)) (map poly fs)).
  { apply Forall_forall. intros p I. apply in_map_iff in I. destruct I as (f & <- & I). split; [|now apply HS]. destruct (HT f (FS f I)) as (Len & _). destruct f; [cbn in Len; lia|discriminate]. }
  destruct (C152_plot3d sm r g k b w h bits o (map poly fs) (map (fnormal rs) fs) c solid line SM W N4 W0 H0 HR HG HK A1 A2 HC A3) as (L & v & b' & o' & P1 & P2 & P3 & P4 & P5 & P6).
  assert (C : combine (map poly fs) (map (fnormal rs) fs) = map (fun f => (poly f, fnormal rs f)) fs) by (clear; induction fs as [|f l IH]; [reflexivity|cbn [map combine]; now rewrite IH]).
  exists kept, L, v, b', o'. split; [intros i j m f I n; destruct (K i j m f I) as (K1 & K2 & _); auto|]. split; [etransitivity; [exact P1|exact C]|]. split; [exact P2|]. split; [|split; [|split; [exact P5|exact P6]]].
  - intros p n S I. apply P3. assert (I' : In (p, n) (map fst L)) by (apply in_map_iff; exists ((p, n), S); auto). apply (f_equal (In (p, n))) in P1; rewrite P1 in I'. apply in_combine_r in I'. exact I'.
  - unfold fplot3Dsolid. unfold bind at 1. unfold lift at 1. rewrite EP. cbn [fst snd]. unfold bind at 1. unfold lift at 1. rewrite E. cbn [fst snd]. rewrite map_map. rewrite <- P4. replace (map (fun x => map roundpoint (map (moved ps t) x)) fs) with (map poly fs) by (apply map_ext; intros f; unfold poly; symmetry; apply map_map). reflexivity.
Qed.

(** ** Cases *)
Lemma frac_int a b q : (a = q * b)%Z -> b <> 0%Z -> (Z.abs q <= 2 ^ 53)%Z -> fl (IZR a / IZR b) = IZR q.
Proof. intros -> B Q. replace (IZR (q * b) / IZR b) with (IZR q) by (rewrite mult_IZR; field; now apply not_0_IZR). now apply fl_int. Qed.
Lemma frotated_upright x y z dz : (Z.abs x <= 1000)%Z -> (Z.abs y <= 1000)%Z -> (Z.abs z <= 1000)%Z -> (Z.abs dz <= 1000)%Z ->
  frotated ((0, 1), (0, 1), (0, 1)) (0, 0, IZR dz) (IZR x, IZR y, IZR z) = (IZR (- x), IZR y, IZR (z + dz)).
Proof.
  intros X Y Z D. unfold frotated. rewrite ?Rmult_0_l, ?fl_0, ?Rmult_1_l, ?Ropp_0, ?Rmult_0_l, ?fl_0. replace (- (1) * IZR x) with (IZR (- x)) by (rewrite opp_IZR; ring). rewrite (fl_int (- x)), (fl_int y), (fl_int z) by lia.
  rewrite ?Rminus_0_r, ?Rplus_0_l, ?Rplus_0_r. rewrite ?(fl_int (- x)), ?(fl_int y), ?(fl_int z) by lia. rewrite ?Rmult_0_l, ?fl_0, ?Rminus_0_r, ?Rplus_0_l, ?Rplus_0_r. rewrite ?(fl_int (- x)), ?(fl_int y), ?(fl_int z) by lia. rewrite ?Rminus_0_r, ?Rplus_0_l, ?Rplus_0_r. rewrite ?(fl_int (- x)), ?(fl_int y), ?(fl_int z) by lia.
  rewrite <- plus_IZR, (fl_int (z + dz)) by lia. reflexivity.
Qed.
Lemma perspective_upright : fperspective [(0, 0, 0); (10, 0, 0); (0, 10, 0)] ((0, 1), (0, 1), (0, 1)) (0, 0, 100) 100 =
  Ok ([(0, 0, 100); (-10, 0, 100); (0, 10, 100)], [(0, 0); (10, 0); (0, -10)]).
Proof.
  unfold fperspective. cbn [res_map]. rewrite (frotated_upright 0 0 0 100), (frotated_upright 10 0 0 100), (frotated_upright 0 10 0 100) by lia. cbn [Z.opp Z.add].
  assert (D : forall a q, (-100 * a = q * 100)%Z -> (Z.abs q <= 10)%Z -> fdiv (fl (- (100) * IZR a)) (IZR 100) = Ok (IZR q)).
  { intros a q E Q. rewrite fdiv_ok by (apply not_0_IZR; lia). replace (- (100) * IZR a) with (IZR (-100 * a)) by (rewrite mult_IZR; lra). rewrite (fl_int (-100 * a)) by lia. f_equal. apply frac_int; lia. }
  change (0 + 100)%Z with 100%Z. rewrite (D 0%Z 0%Z), (D (-10)%Z 10%Z), (D 10%Z (-10)%Z) by lia. reflexivity.
Qed.
Example C153_case : exists rs ps, fperspective [(0, 0, 0); (10, 0, 0); (0, 10, 0)] ((0, 1), (0, 1), (0, 1)) (0, 0, 100) 100 = Ok (rs, ps) /\
  Forall (up_to 128) rs /\ table 3 [[0; 2; 1]%Z] /\ facing (fnormal rs [0; 2; 1]%Z) /\
  40 * (u * (128 * (128 * 128))) <= rdot (rnormal (at_ rs 0) (at_ rs 2) (at_ rs 1)) (at_ rs 0) /\
  rdot (rnormal (at_ rs 0) (at_ rs 1) (at_ rs 2)) (at_ rs 0) < - (40 * (u * (128 * (128 * 128)))) /\
  map (fun i => roundpoint (moved ps (20, 20)%Z i)) [0; 2; 1]%Z = [(20, 20); (20, 10); (30, 20)]%Z /\
  Forall (fun e => seg_fits 64 64 24 (fst e) (snd e)) (closed_edges [(20, 20); (20, 10); (30, 20)]%Z) /\
  flum plainsum (fnormal rs [0; 2; 1]%Z) = Ok 255%Z.
Proof.
  exists [(0, 0, 100); (-10, 0, 100); (0, 10, 100)], [(0, 0); (10, 0); (0, -10)]. split; [exact perspective_upright|].
  set (rs := [(0, 0, 100); (-10, 0, 100); (0, 10, 100)]). set (ps := [(0, 0); (10, 0); (0, -10)]).
  assert (A0 : at_ rs 0 = zvec (0, 0, 100)%Z) by reflexivity. assert (A1 : at_ rs 1 = zvec (-10, 0, 100)%Z) by reflexivity. assert (A2 : at_ rs 2 = zvec (0, 10, 100)%Z) by reflexivity.
  assert (N : fnormal rs [0; 2; 1]%Z = (0, 0, 100)). { unfold fnormal. rewrite A0, A1, A2. rewrite (proj2 (C153_whole (0, 0, 100)%Z (0, 10, 100)%Z (-10, 0, 100)%Z ltac:(cbn; lia) ltac:(cbn; lia) ltac:(cbn; lia))). reflexivity. }
  assert (F100 : fl 100 = 100) by (apply (fl_int 100); lia). destruct consts as ((U0 & U) & _).
  split; [unfold rs; apply Forall_cons; [|apply Forall_cons; [|apply Forall_cons; [|apply Forall_nil]]]; cbn [up_to]; (split; [|split]); apply Rabs_le; lra|]. split; [intros f [<-|[]]; split; [cbn; lia|]; intros i [<-|[<-|[<-|[]]]]; cbn; lia|].
  split. { rewrite N. right. split; [exact F100|]. split; [lra|]. unfold cosine. replace (0 * 0 + 0 * 0 + 100 * 100) with (100 * 100) by ring. rewrite sqrt_square by lra. lra. }
  rewrite A0, A1, A2. split; [unfold zvec, rdot, rnormal, rcross, rminus; lra|]. split; [unfold zvec, rdot, rnormal, rcross, rminus; lra|]. split; [|split].
  - assert (K : forall i a b x y, nth (Z.to_nat i) ps (0, 0) = (IZR a, IZR b) -> (a + 20 = x)%Z -> (b + 20 = y)%Z -> (Z.abs a <= 10)%Z -> (Z.abs b <= 10)%Z -> roundpoint (moved ps (20, 20)%Z i) = (x, y)).
    { intros i a b x y E X Y HA HB. unfold moved. rewrite E. unfold roundpoint. cbn [fst snd]. rewrite <- !plus_IZR, !fl_int by lia. rewrite !rround_Z. now subst. }
    cbn [map]. rewrite (K 0%Z 0%Z 0%Z 20%Z 20%Z), (K 2%Z 0%Z (-10)%Z 20%Z 10%Z), (K 1%Z 10%Z 0%Z 30%Z 20%Z) by (reflexivity || lia). reflexivity.
  - repeat (apply Forall_cons; [split; [intros E; discriminate E|intros _; vm_compute; split; [discriminate|reflexivity]]|]). apply Forall_nil.
  - rewrite N. apply (proj1 (C152_straight plainsum 100 C152_plain ltac:(lia))).
Qed.
Print Assumptions C153_test.
Print Assumptions C153_normal.
Print Assumptions C153_sides.
Print Assumptions C153_whole.
Print Assumptions C153_shade.
Print Assumptions C153_points.
Print Assumptions C153_edge_refuted.
Print Assumptions C153_solid.
Print Assumptions C153_case.
