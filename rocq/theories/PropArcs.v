(** Property C127: the angles of arcs and of the slices of pie charts. *)
From Coq Require Import ZArith Reals List Bool Lia Lra Psatz.
From Verif Require Import PyBase PyFacts Bmp Geometry MathLib Edges EdgeProofs Solids SolidProofs SolidProofs2 Coords RealProofs PropCoords.
Import ListNotations.
Open Scope Z_scope.

(** p is seen from c under the angle a, clockwise from the top of the screen *)
Definition clock (c p : Z * Z) (a : R) : Prop := exists d, (0 < d /\ 0 <= a < 2 * PI /\
  IZR (fst p) = IZR (fst c) + d * sin a /\ IZR (snd p) = IZR (snd c) - d * cos a)%R.

(** * C127 *)
Definition angle_of (c p : Z * Z) : R := match rect2polarcoord2Dwithcenter (real c) (real p) with Ok v => snd v | Err _ => 0%R end.
Lemma angle_clock c p : p <> c -> (exists d, rect2polarcoord2Dwithcenter (real c) (real p) = Ok (d, angle_of c p)) /\ clock c p (angle_of c p) /\ forall a, clock c p a -> a = angle_of c p.
Proof.
  intros N. destruct c as [x y], p as [u v]. assert (N' : (IZR u, IZR v) <> (IZR x, IZR y)) by (intros E; injection E as A B; apply eq_IZR in A, B; congruence).
  destruct (C126_clock _ _ _ _ N') as (r & a & E & R0 & A & X & Y & U). unfold angle_of, real. cbn [fst snd]. rewrite E. cbn [snd]. split; [now exists r|]. split; [exists r; cbn [fst snd]; auto|].
  intros b (d & D & B & XB & YB). cbn [fst snd] in *. now apply (U d b).
Qed.
(** An arc consists of the points of the circle seen from its centre under an angle between
    the two given ones, and of the radii to those within 0.03 (radians) of one of them. *)
Theorem C127_arc : forall x y r s e, exists sel ends, arcvertangles x y r s e = arcvert sel ends x y r /\
  forall p, p <> (x, y) ->
    (sel p = true <-> exists a, clock (x, y) p a /\ (radians s <= a <= radians e)%R) /\
    (ends p = true <-> exists a, clock (x, y) p a /\ (Rabs (a - radians s) < 3 / 100 \/ Rabs (a - radians e) < 3 / 100)%R).
Proof.
  intros x y r s e. set (c := (x, y)). set (sa := radians s). set (ea := radians e).
  exists (fun p => rle sa (angle_of c p) && rle (angle_of c p) ea), (fun p => rlt (Rabs (angle_of c p - sa)) (3 / 100) || rlt (Rabs (angle_of c p - ea)) (3 / 100)).
  split.
  - unfold arcvertangles, arcvert. destruct (itercircle x y r) as [pts|ex]; [|reflexivity]. cbn [rbind]. fold c sa ea.
    set (g := fun p => if rle sa (angle_of c p) && rle (angle_of c p) ea then p :: (if rlt (Rabs (angle_of c p - sa)) (3 / 100) || rlt (Rabs (angle_of c p - ea)) (3 / 100) then iterline c p else []) else []).
    assert (K : res_map (arcpoint c sa ea) pts = if haspoint pts c then Err ZeroDivisionError else Ok (map g pts)).
    { induction pts as [|p pts IH]; [reflexivity|]. cbn [res_map].
      assert (H : haspoint (p :: pts) c = haspoint [p] c || haspoint pts c) by (unfold haspoint; cbn [existsb]; now rewrite orb_false_r). rewrite H, IH. clear H IH.
      destruct (haspoint [p] c) eqn:E; cbn [orb].
      - apply haspoint_iff in E. destruct E as [->|[]]. unfold arcpoint. now rewrite C126_clock_centre.
      - assert (N : p <> c) by (intros ->; assert (T : haspoint [c] c = true) by (apply haspoint_iff; now left); congruence).
        destruct (angle_clock c p N) as ((d & A) & _). unfold arcpoint. rewrite A. cbn [rbind snd]. destruct (haspoint pts c); reflexivity. }
    rewrite K. destruct (haspoint pts c); [reflexivity|]. cbn [rbind]. f_equal. symmetry. apply flat_map_concat_map.
  - intros p N. destruct (angle_clock c p N) as (_ & C & U). rewrite andb_true_iff, !rle_iff, orb_true_iff, !rlt_iff. split; split.
    + intros H. exists (angle_of c p). auto.
    + intros (a & Ca & H). now rewrite (U a Ca) in H.
    + intros H. exists (angle_of c p). auto.
    + intros (a & Ca & H). now rewrite (U a Ca) in H.
Qed.

(** ** slices *)
Definition total (l : list (Z * Z)) : Z := fold_right (fun d t => fst d + t) 0 l.
Lemma total_fold l : fold_left Z.add (map fst l) 0 = total l.
Proof.
  assert (K : forall l a, fold_left Z.add (map fst l) a = a + total l) by (clear; induction l as [|d l IH]; intros a; cbn [map fold_left total fold_right]; [cbn; lia|rewrite IH; unfold total; cbn [fold_right]; lia]). rewrite K. lia.
Qed.
(** The slices follow each other from 0 to 360 degrees, each with its share of them. *)
Theorem C127_slices : forall l, total l <> 0 -> exists v, genpiechartdata l = Ok v /\
  map (fun i => (pi_amount i, pi_colour i)) v = l /\
  (forall i, In i v -> pi_end i - pi_start i = IZR (pi_amount i) / IZR (total l) * 360 /\ pi_percent i = IZR (pi_amount i) / IZR (total l) * 100)%R /\
  (forall k d, (S k < length v)%nat -> pi_start (nth (S k) v d) = pi_end (nth k v d)) /\
  (forall d, pi_start (nth 0 v d) = 0 /\ pi_end (last v d) = 360)%R.
Proof.
  intros l T. unfold genpiechartdata. rewrite total_fold. set (tot := total l) in *. assert (TR : IZR tot <> 0%R) by (intros E; apply eq_IZR in E; contradiction).
  assert (NE : l <> []) by (intros ->; cbn in T; contradiction).
  assert (K : forall l sa, exists v, pieitems tot sa l = Ok v /\ map (fun i => (pi_amount i, pi_colour i)) v = l /\
    (forall i, In i v -> pi_end i - pi_start i = IZR (pi_amount i) / IZR tot * 360 /\ pi_percent i = IZR (pi_amount i) / IZR tot * 100)%R /\
    (forall k d, (S k < length v)%nat -> pi_start (nth (S k) v d) = pi_end (nth k v d)) /\
    (l <> [] -> forall d, pi_start (nth 0 v d) = sa /\ pi_end (last v d) = (sa + IZR (total l) / IZR tot * 360)%R)).
  { clearbody tot. clear - TR. intros l. induction l as [|d l IH]; intros sa.
    - exists []. split; [reflexivity|]. split; [reflexivity|]. split; [intros i []|]. split; [intros k d H; cbn in H; lia|]. intros X. contradiction.
    - cbn [pieitems]. rewrite rdiv_ok by exact TR. cbn [rbind]. destruct (IH (sa + IZR (fst d) / IZR tot * 360)%R) as (v & E & M & A & C & F). rewrite E. cbn [rbind]. eexists. split; [reflexivity|].
      split; [cbn [map pi_amount pi_colour]; rewrite M; now destruct d|]. split; [intros i [<-|Hi]; [cbn [pi_start pi_end pi_amount pi_percent]; split; [ring|reflexivity]|now apply A]|].
      destruct l as [|d' l].
      + destruct v; [|discriminate M]. split; [intros k d0 H; cbn in H; lia|]. intros _ d0. cbn [nth last pi_start pi_end total fold_right]. rewrite Z.add_0_r. split; reflexivity.
      + specialize (F ltac:(discriminate)). destruct v as [|i0 v]; [discriminate M|]. split.
        * intros [|k] d0 H; [cbn [nth]; destruct (F i0) as (F1 & _); cbn [nth] in F1; rewrite F1; reflexivity|]. cbn [nth length] in *. apply (C k d0). cbn [length]. lia.
        * intros _ d0. destruct (F d0) as (_ & F2). split; [reflexivity|]. change (last (mkitem sa (sa + IZR (fst d) / IZR tot * 360) (snd d) (fst d) (IZR (fst d) / IZR tot * 100) :: i0 :: v) d0) with (last (i0 :: v) d0). rewrite F2.
          replace (total (d :: d' :: l)) with (fst d + total (d' :: l)) by reflexivity. rewrite plus_IZR. field. exact TR. }
  destruct (K l 0%R) as (v & E & M & A & C & F). exists v. split; [exact E|]. split; [exact M|]. split; [exact A|]. split; [exact C|]. intros d. destruct (F NE d) as (F1 & F2). split; [exact F1|].
  rewrite F2. fold tot. field. exact TR.
Qed.
(** With amounts that are not negative every point except the centre lies in some slice, and
    in two of them only at their common end. *)
Theorem C127_cover : forall l v c p, total l <> 0 -> (forall d, In d l -> 0 <= fst d) -> genpiechartdata l = Ok v -> p <> c ->
  exists i a, In i v /\ clock c p a /\ (radians (pi_start i) <= a <= radians (pi_end i))%R.
Proof.
  intros l v c p T P E N. destruct (C127_slices l T) as (v' & E' & M & A & C & F). rewrite E in E'. injection E' as <-. clear P.
  destruct (angle_clock c p N) as (_ & Cl & _). set (a := angle_of c p) in *. destruct Cl as (d & D & Ha & X & Y).
  assert (Cl : clock c p a) by (exists d; auto).
  assert (G : exists i, In i v /\ (radians (pi_start i) <= a <= radians (pi_end i))%R).
  { assert (NV : v <> []) by (intros ->; cbn in M; subst l; apply T; reflexivity). destruct v as [|i0 v0]; [contradiction|]. destruct (F i0) as (F1 & F2). cbn [nth] in F1.
    assert (S : (radians (pi_start i0) <= a)%R) by (rewrite F1; unfold radians; lra).
    assert (L : (a <= radians (pi_end (last (i0 :: v0) i0)))%R) by (rewrite F2; unfold radians; lra).
    assert (CC : forall k, (k < length v0)%nat -> pi_start (nth (1 + k) (i0 :: v0) i0) = pi_end (nth k (i0 :: v0) i0)) by (intros k Hk; apply C; cbn [length]; lia).
    clear - S L CC. revert i0 S L CC. induction v0 as [|i1 v0 IH]; intros i0 S L CC; [exists i0; split; [now left|split; [exact S|exact L]]|].
    destruct (Rle_dec a (radians (pi_end i0))) as [H|H]; [exists i0; split; [now left|split; assumption]|].
    destruct (IH i1) as (i & I & Hi).
    - specialize (CC 0%nat ltac:(cbn [length]; lia)). cbn [plus nth] in CC. rewrite CC. lra.
    - change (last (i0 :: i1 :: v0) i0) with (last (i1 :: v0) i0) in L. clear - L. revert i1 L. induction v0 as [|i2 v0 IH]; intros i1 L; [exact L|]. cbn [last] in *. destruct v0; [exact L|]. apply (IH i1). exact L.
    - intros k Hk. specialize (CC (1 + k)%nat ltac:(cbn [length]; lia)). cbn [plus nth] in *. rewrite (nth_indep v0 i1 i0 Hk). rewrite CC. destruct k; [reflexivity|]. f_equal. apply nth_indep. lia.
    - exists i. split; [now right|exact Hi]. }
  destruct G as (i & I & Hi). exists i, a. auto.
Qed.
Theorem C127_disjoint : forall l v j k d a, total l > 0 -> (forall d, In d l -> 0 <= fst d) -> genpiechartdata l = Ok v -> (j < k < length v)%nat ->
  (radians (pi_start (nth j v d)) <= a <= radians (pi_end (nth j v d)))%R -> (radians (pi_start (nth k v d)) <= a <= radians (pi_end (nth k v d)))%R ->
  a = radians (pi_end (nth j v d)) /\ a = radians (pi_start (nth k v d)).
Proof.
  intros l v j k d a T P E H A B. destruct (C127_slices l ltac:(lia)) as (v' & E' & M & I & C & _). rewrite E in E'. injection E' as <-.
  assert (NN : forall i, In i v -> (pi_start i <= pi_end i)%R).
  { intros i Hi. destruct (I i Hi) as (W & _). assert (Am : 0 <= pi_amount i) by (apply (P (pi_amount i, pi_colour i)); rewrite <- M; apply in_map_iff; exists i; auto).
    assert (0 < IZR (total l))%R by (apply IZR_lt; lia). apply IZR_le in Am. assert (0 <= IZR (pi_amount i) / IZR (total l))%R by (apply Rmult_le_pos; [lra|left; now apply Rinv_0_lt_compat]). lra. }
  assert (L : forall n, (j + 1 + n < length v)%nat -> (pi_end (nth j v d) <= pi_start (nth (j + 1 + n) v d))%R).
  { induction n as [|n IH]; intros Hn.
    - replace (j + 1 + 0)%nat with (S j) by lia. rewrite C by lia. lra.
    - replace (j + 1 + S n)%nat with (S (j + 1 + n)) by lia. rewrite C by lia. apply Rle_trans with (pi_start (nth (j + 1 + n) v d)); [apply IH; lia|]. apply NN. apply nth_In. lia. }
  specialize (L (k - j - 1)%nat ltac:(lia)). replace (j + 1 + (k - j - 1))%nat with k in L by lia.
  assert (RL : (radians (pi_end (nth j v d)) <= radians (pi_start (nth k v d)))%R) by (unfold radians; pose proof PI_RGT_0; nra). lra.
Qed.
Theorem C127_total_0 : forall l, l <> [] -> total l = 0 -> genpiechartdata l = Err ZeroDivisionError.
Proof. intros [|d l] N T; [contradiction|]. unfold genpiechartdata. rewrite total_fold, T. cbn [pieitems]. now rewrite rdiv_0. Qed.
Example C127_ex : exists v, genpiechartdata [(1, 5); (3, 6); (0, 7)] = Ok v /\ map (fun i => (pi_start i, pi_end i, pi_percent i)) v = [(0, 90, 25); (90, 360, 75); (360, 360, 0)]%R /\
  clock (4, 4) (7, 4) (PI / 2) /\ clock (4, 4) (4, 1) 0.
Proof.
  assert (D : forall z, rdiv (IZR z) (IZR 4) = Ok (IZR z / 4)%R) by (intros; apply rdiv_ok; lra). unfold genpiechartdata. cbn [map fold_left fst snd Z.add Pos.add Pos.succ].
  cbn [pieitems fst snd]. rewrite !D. cbn [rbind]. eexists. split; [reflexivity|]. split; [cbn [map pi_start pi_end pi_percent]; repeat f_equal; lra|]. pose proof PI_RGT_0.
  split; exists 3%R; cbn [fst snd]; rewrite ?sin_PI2, ?cos_PI2, ?sin_0, ?cos_0; lra.
Qed.
Print Assumptions C127_arc.
Print Assumptions C127_slices.
Print Assumptions C127_cover.
Print Assumptions C127_disjoint.
Print Assumptions C127_total_0.
