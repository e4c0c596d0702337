(** Property C151: pie charts with the rounding of floats. *)
From Flocq Require Import Core.
From Coq Require Import ZArith Reals List Lia Lra Bool Psatz.
From Verif Require Import PyBase PyFacts Bmp Region Geometry Draw Circle Shapes MathLib Spec PlotList DrawProofs4 CircProofs7 Edges EdgeProofs Solids SolidProofs SolidProofs2 Coords RealProofs PropCoords PropArcs Floats FloatProofs PropFloats Floats2 PropFloats2 FloatTurns PropFloatSweeps PropFloatTurns FloatDirs PropFloatDirs FloatPie PropFloats3 SpecShapes SpecSolids ShapeProofs ShapeProofs4 PropSolids Concrete.
Import ListNotations.
Open Scope R_scope.
Open Scope py_scope.

(** ** The chart as a list of slices *)
Definition slice_of mac (c : Z * Z) (i : pieitem) : pieslice :=
  mkslice (pi_amount i) (pi_colour i) (rle 50 (pi_percent i)) (fsel mac c (pi_start i) (pi_end i)) (fends mac c (pi_start i) (pi_end i)).
Lemma items_pct dlist tot : forall l sa big, Forall2 (fun d i => pi_colour i = snd d /\ pi_amount i = fst d /\ pi_percent i = fl (fl (IZR (fst d) / IZR tot) * 100)) l (fst (fpieitems dlist tot sa big l)).
Proof.
  induction l as [|d l IH]; intros sa big; [constructor|]. cbn [fpieitems]. cbv zeta. set (ea := fl (sa + _)). set (big' := if rle 50 _ then _ else _). specialize (IH ea big'). destruct (fpieitems dlist tot ea big' l) as [rest b]. cbn [fst] in *. constructor; [auto|exact IH].
Qed.
Definition colour_at (dlist : list (Z * Z)) (big : Z) : option Z := if (big >? -1)%Z then option_map snd (nth_error dlist (Z.to_nat big)) else None.
Lemma items_big dlist tot : (0 < tot <= 2 ^ 50)%Z -> forall l sa big, (forall d, In d l -> (0 <= fst d <= tot)%Z /\ In d dlist) ->
  colour_at dlist (snd (fpieitems dlist tot sa big l)) = fold_left (fun acc d => if (tot <=? 2 * fst d)%Z then Some (snd d) else acc) l (colour_at dlist big).
Proof.
  intros T. induction l as [|d l IH]; intros sa big H; [reflexivity|]. destruct (H d (or_introl eq_refl)) as (D & I). cbn [fpieitems]. cbv zeta. rewrite (half_share (fst d) tot D T). set (ea := fl (sa + _)). set (big' := if (tot <=? _)%Z then _ else _).
  specialize (IH ea big' (fun e E => H e (or_intror E))). destruct (fpieitems dlist tot ea big' l) as [rest b]. cbn [snd fold_left] in *. rewrite IH. f_equal. unfold big'. destruct (tot <=? 2 * fst d)%Z; [|reflexivity].
  destruct (index_of_spec d dlist I) as (E & P). unfold colour_at. rewrite E. replace (index_of d dlist >? -1)%Z with true by (symmetry; apply Z.gtb_lt; lia). reflexivity.
Qed.
Lemma slices_big mac c tot l v : (0 < tot <= 2 ^ 50)%Z -> (forall d, In d l -> (0 <= fst d <= tot)%Z) ->
  Forall2 (fun d i => pi_colour i = snd d /\ pi_amount i = fst d /\ pi_percent i = fl (fl (IZR (fst d) / IZR tot) * 100)) l v ->
  forall a, fold_left (fun acc s => if half s then Some (colour s) else acc) (map (slice_of mac c) v) a = fold_left (fun acc d => if (tot <=? 2 * fst d)%Z then Some (snd d) else acc) l a.
Proof.
  intros T D F. induction F as [|d i l v (C & A & P) F IH]; intros a; [reflexivity|]. cbn [map fold_left slice_of half colour]. rewrite P, C. rewrite half_share by (auto; apply D; now left). apply IH. intros e E. apply D. now right.
Qed.
Lemma fdrawarc_eq mac x y r s e c o f i st : arccosine mac -> (r <= 2 ^ 25)%Z -> fdrawarc mac x y r s e c o f i st = drawarc (fsel mac (x, y) s e) (fends mac (x, y) s e) x y r c o f i st.
Proof. intros M R0. unfold fdrawarc, drawarc. now rewrite farc_eq. Qed.
Lemma forM_pt {A} (l : list A) (f g : A -> M unit) : (forall a s, In a l -> f a s = g a s) -> forall s, forM l f s = forM l g s.
Proof. induction l as [|a l IH]; intros H s; [reflexivity|]. rewrite !forM_cons. unfold bind. rewrite (H a s (or_introl eq_refl)). destruct (g a s) as [[[]|ex] s']; [|reflexivity]. apply IH. intros. apply H. now right. Qed.
Lemma gen_items l w : l <> [] -> (0 < sumfst l)%Z -> fgenpiechartdata l = Ok w -> fpieitems l (sumfst l) 0 (-1) l = w.
Proof. intros NE T. unfold fgenpiechartdata. rewrite PropFloats2.total_fold. rewrite (proj2 (Z.eqb_neq _ _)) by lia. generalize (fpieitems l (sumfst l) 0 (-1) l). intros q. destruct l; [congruence|]. congruence. Qed.
Lemma chart_eq mac x y r l v big st : arccosine mac -> (r <= 2 ^ 25)%Z -> l <> [] -> (forall d, In d l -> (0 <= fst d)%Z) -> (0 < sumfst l <= 2 ^ 50)%Z -> fgenpiechartdata l = Ok (v, big) ->
  fpiechart mac x y r l st = piechart (map (slice_of mac (x, y)) v) x y r st.
Proof.
  intros M R0 NE NN T E. pose proof E as E'. assert (Q := gen_items l (v, big) NE ltac:(lia) E). clear E.
  pose proof (items_pct l (sumfst l) l 0 (-1)%Z) as F. rewrite Q in F. cbn [fst] in F.
  assert (D : forall d, In d l -> (0 <= fst d <= sumfst l)%Z) by (intros d I; split; [now apply NN|now apply sumfst_in]).
  pose proof (items_big l (sumfst l) T l 0 (-1)%Z (fun d I => conj (D d I) I)) as B. rewrite Q in B. cbn [snd] in B. change (colour_at l (-1)) with (@None Z) in B. rewrite <- (slices_big mac (x, y) _ l v T D F) in B. fold (bigslice (map (slice_of mac (x, y)) v)) in B.
  assert (SM : map amount (map (slice_of mac (x, y)) v) = map fst l) by (clear - F; induction F as [|d i l' v' (_ & A & _) F IH]; [reflexivity|]; cbn [map slice_of amount]; now rewrite A, IH).
  rewrite (pie_split (map (slice_of mac (x, y)) v)).
  2:{ intros H. apply map_eq_nil in H. subst v. inversion F. congruence. }
  2:{ rewrite SM. pose proof (sum_fold (map fst l) 0) as S. rewrite PropFloats2.total_fold in S. lia. }
  unfold fpiechart. destruct st as [b o]. rewrite (bind_ok _ _ _ _ _ (run_lift _ b o _ E')). cbn [fst snd]. rewrite <- B.
  assert (C : (if (big >? -1)%Z then a <- lift (item v big) ;; circle x y r (pi_colour a) true else ret tt) (mkst b o) = (match colour_at l big with Some c => circle x y r c true | None => ret tt end) (mkst b o)).
  { unfold colour_at. destruct (Z.gtb_spec big (-1)) as [G|G]; [|reflexivity].
    assert (N : exists d, nth_error l (Z.to_nat big) = Some d).
    { pose proof (fpieitems_big l (sumfst l) T l 0 (-1)%Z (fun d I => conj (D d I) I)) as K. cbv zeta in K. rewrite Q in K. cbn [snd] in K. destruct K as [(K & _)|(d & I & K & _)]; [lia|]. exists d. rewrite K. apply index_of_spec, I. }
    destruct N as (d & N). rewrite N. cbn [option_map]. assert (V : exists i, nth_error v (Z.to_nat big) = Some i /\ pi_colour i = snd d).
    { clear - F N. revert N. generalize (Z.to_nat big). induction F as [|e i l' v' (A & _) F IH]; intros [|n] N; try discriminate N; cbn [nth_error] in *; [injection N as ->; now exists i|now apply IH]. }
    destruct V as (i & V1 & V2). assert (IT : item v big = Ok i). { unfold item. replace (big <? 0)%Z with false by (symmetry; apply Z.ltb_ge; lia). cbv zeta. replace (big <? 0)%Z with false by (symmetry; apply Z.ltb_ge; lia). now rewrite V1. }
    rewrite (bind_ok _ _ _ _ _ (run_lift _ b o _ IT)). now rewrite V2. }
  unfold bind at 1. rewrite C. unfold bind at 1. destruct ((match colour_at l big with Some c => circle x y r c true | None => ret tt end) (mkst b o)) as [[[]|ex] s']; [|reflexivity].
  rewrite forM_map. apply forM_pt. intros i s _. unfold paintslice. cbn [slice_of half within atend colour]. unfold rlt, rle. destruct (Rlt_dec (pi_percent i) 50), (Rle_dec 50 (pi_percent i)); try lra; [|reflexivity]. now apply fdrawarc_eq.
Qed.

(** ** Where the slices lie *)
Lemma first_above (E : nat -> R) a : forall n, a <= E n -> exists k, (k <= n)%nat /\ a <= E k /\ (k = O \/ exists j, k = Datatypes.S j /\ E j < a).
Proof.
  induction n as [|n IH]; intros H; [exists O; auto|]. destruct (Rle_dec a (E n)) as [L|L]; [destruct (IH L) as (k & K & R); exists k; split; [lia|exact R]|]. exists (Datatypes.S n). split; [lia|]. split; [exact H|]. right. exists n. split; [reflexivity|lra].
Qed.
Lemma fangle_nonneg mac x y : arccosine mac -> (x * x + y * y <= 2 ^ 53)%Z -> (x, y) <> (0, 0)%Z -> forall a, fpolarcoordangle2D mac (x, y) = Ok a -> 0 <= a.
Proof.
  intros (M1 & M) L N a. unfold fpolarcoordangle2D. destruct (fcosaffin [x; y] [0; -1]%Z) as [c|]; [|discriminate]. cbn [rbind]. unfold facos. destruct (rle (-1) c) eqn:A; [|discriminate]. destruct (rle c 1) eqn:B; [|discriminate]. apply rle_iff in A, B. cbn [andb rbind]. destruct (M c (conj A B)) as (P & Q). intros H. injection H as <-.
  destruct (x <? 0)%Z; [|exact P]. apply fl_nonneg. pose proof (acos_bound c). pose proof two_pi as TP. apply Rabs_le_inv in TP, Q. pose proof PI2_1. assert (/ IZR (2 ^ 50) <= / 1000) by (apply Rinv_le_contravar; [lra|apply IZR_le; lia]). lra.
Qed.
(** the angle of a point of the rim is well below a full turn *)
Lemma clock_below c p a r : (0 < r <= 2 ^ 20)%Z -> on_ring r (fst p - fst c) (snd p - snd c) = true -> clock c p a -> a <= 2 * PI - / 1100000.
Proof.
  intros R0 O (d & D & A & X & Y). destruct (Rle_dec a PI) as [L|L]; [pose proof PI2_1; lra|]. set (b := 2 * PI - a). assert (SB : sin a = - sin b) by (unfold b; rewrite sin_minus, sin_2PI, cos_2PI; ring).
  assert (B0 : 0 < b < PI) by (unfold b; lra). pose proof (sin_gt_0 b (proj1 B0) (proj2 B0)) as S0. pose proof (sin_lt_x b (proj1 B0)) as S1.
  set (dx := (fst p - fst c)%Z) in *. set (dy := (snd p - snd c)%Z) in *. assert (DX : IZR dx = - (d * sin b)) by (unfold dx; rewrite minus_IZR, X, SB; ring). assert (DY : IZR dy = - (d * cos a)) by (unfold dy; rewrite minus_IZR, Y; ring).
  assert (DN : (dx <= -1)%Z) by (assert (dx < 0)%Z by (apply lt_IZR; rewrite DX; nra); lia). apply IZR_le in DN.
  assert (DD : d * d = IZR (dx * dx + dy * dy)) by (rewrite plus_IZR, !mult_IZR, DX, DY; pose proof (sin2_cos2 a) as SC; unfold Rsqr in SC; rewrite SB in SC; replace (d * d) with (d * d * (- sin b * - sin b + cos a * cos a)) by (rewrite SC; ring); ring).
  assert (SQ : (dx * dx + dy * dy <= 1048577 * 1048577)%Z).
  { unfold on_ring in O. apply andb_true_iff in O. destruct O as (_ & H). apply Z.leb_le in H. set (m := Z.max (Z.abs dx) (Z.abs dy)) in *. assert (HM : (m * m <= dx * dx + dy * dy)%Z) by (unfold m; destruct (Z.max_spec (Z.abs dx) (Z.abs dy)) as [(_ & ->) | (_ & ->)]; nia).
    assert (MR : (m <= r)%Z) by (apply Z.nlt_ge; intros G; rewrite Z.max_r in H by lia; nia). assert (dx * dx + dy * dy <= r * r + r)%Z by lia. nia. }
  apply IZR_le in SQ. rewrite <- DD, mult_IZR in SQ. assert (DL : d <= 1048577) by nra. assert (/ 1100000 <= b) by (assert (1 <= d * b) by nra; nra). unfold b in *. lra.
Qed.
(** the exact angle at which the k-th slice should begin *)
Definition turn (l : list (Z * Z)) (k : nat) : R := 2 * PI * IZR (sumfst (firstn k l)) / IZR (sumfst l).
(** The chart is that of a list of slices with the amounts, colours and, for at least half of the total, the mark of the
    data; the k-th slice has the points whose angle is between the shares of the first k and k + 1 amounts, up to 1e-7; and
    every point of the rim is in a slice. *)
Theorem C151_chart : forall mac x y r l, arccosine mac -> (0 < r <= 2 ^ 20)%Z -> l <> [] -> (forall d, In d l -> (0 <= fst d)%Z) -> (0 < sumfst l <= 2 ^ 50)%Z -> (Z.of_nat (length l) <= 1000000)%Z ->
  exists sl, (forall st, fpiechart mac x y r l st = piechart sl x y r st) /\ length sl = length l /\
  (forall k d, nth_error l k = Some d -> exists s, nth_error sl k = Some s /\ amount s = fst d /\ colour s = snd d /\ (half s = true <-> (sumfst l <= 2 * fst d)%Z) /\
    forall p a, clock (x, y) p a -> on_ring r (fst p - x) (snd p - y) = true ->
      (turn l k + / 10000000 <= a <= turn l (Datatypes.S k) - / 10000000 -> within s p = true) /\
      (within s p = true -> turn l k - / 10000000 <= a <= turn l (Datatypes.S k) + / 10000000)) /\
  (forall p, on_ring r (fst p - x) (snd p - y) = true -> exists s, In s sl /\ within s p = true).
Proof.
  intros mac x y r l M R0 NE NN T L. destruct (C140_pie l NE NN T L) as (v & big & E & LV & S0 & CH & SP & _). exists (map (slice_of mac (x, y)) v).
  split; [intros st; apply chart_eq with big; auto; lia|]. split; [now rewrite map_length|].
  assert (TP : 0 < IZR (sumfst l)) by (apply IZR_lt; lia). pose proof PI_RGT_0 as P0. pose proof PI_4 as P4.
  assert (IN : forall k, (k < length l)%nat -> INR (k + 1) * / 1000000000000 <= / 1000000). { intros k K. assert (INR (k + 1) <= 1000000) by (rewrite INR_IZR_INZ; apply IZR_le; lia). lra. }
  assert (FS : forall k, 0 <= IZR (sumfst (firstn k l)) / IZR (sumfst l) <= 1).
  { intros k. assert (Q : (0 <= sumfst (firstn k l) <= sumfst l)%Z).
    { clear - NN. revert k. induction l as [|d l IH]; intros [|k]; cbn [firstn sumfst fold_right]; try lia.
      - pose proof (sumfst_nonneg (d :: l) NN) as H. cbn [sumfst fold_right] in H. lia.
      - fold (sumfst (firstn k l)) (sumfst l). specialize (IH (fun e E => NN e (or_intror E)) k). pose proof (NN d (or_introl eq_refl)). lia. }
    destruct Q as (Q1 & Q2). apply IZR_le in Q1, Q2. split; [apply Rmult_le_pos; [exact Q1|apply Rlt_le, Rinv_0_lt_compat, TP]|]. apply Rmult_le_reg_r with (IZR (sumfst l)); [exact TP|]. unfold Rdiv. rewrite Rmult_assoc, Rinv_l by lra. lra. }
  assert (EN : forall k a, nth_error v k = Some a -> Rabs (pi_end a - 360 * (IZR (sumfst (firstn (k + 1) l)) / IZR (sumfst l))) <= / 1000000).
  { intros k a N. assert (K : (k < length l)%nat) by (rewrite <- LV; apply nth_error_Some; congruence). destruct (nth_error l k) as [d|] eqn:D; [|apply nth_error_None in D; lia]. destruct (SP k d D) as (a' & N' & _ & _ & _ & G & _). rewrite N in N'. injection N' as <-. replace (360 * (IZR (sumfst (firstn (k + 1) l)) / IZR (sumfst l))) with (360 * IZR (sumfst (firstn (k + 1) l)) / IZR (sumfst l)) by (field; lra). eapply Rle_trans; [exact G|now apply IN]. }
  assert (ST : forall k a, nth_error v k = Some a -> Rabs (pi_start a - 360 * (IZR (sumfst (firstn k l)) / IZR (sumfst l))) <= / 1000000).
  { intros [|k] a N; [rewrite (S0 a N); cbn [firstn sumfst fold_right]; replace (0 - 360 * (0 / IZR (sumfst l))) with 0 by (field; lra); rewrite Rabs_R0; lra|].
    destruct (nth_error v k) as [b|] eqn:B; [|apply nth_error_None in B; assert (Datatypes.S k < length v)%nat by (apply nth_error_Some; congruence); lia]. rewrite (CH k b a B N). replace (Datatypes.S k) with (k + 1)%nat by lia. now apply EN. }
  pose proof (items_pct l (sumfst l) l 0 (-1)%Z) as F. assert (Q : fst (fpieitems l (sumfst l) 0 (-1) l) = v) by (rewrite (gen_items l (v, big)) by (assumption || lia); reflexivity). rewrite Q in F. clear Q.
  split.
  - intros k d D. assert (K : (k < length l)%nat) by (apply nth_error_Some; congruence). destruct (SP k d D) as (i & N & C & A & _). exists (slice_of mac (x, y) i). split; [now apply map_nth_error|]. cbn [slice_of amount colour half within]. split; [exact A|]. split; [exact C|].
    pose proof (EN k i N) as B2. pose proof (ST k i N) as B1. pose proof (FS k) as F1. pose proof (FS (k + 1)%nat) as F2. split.
    + assert (PC : pi_percent i = fl (fl (IZR (fst d) / IZR (sumfst l)) * 100)). { clear - F D N. revert F k D N. generalize (sumfst l). intros tot F. induction F as [|e j l' v' (_ & _ & G) F IH]; intros [|k] D N; try discriminate D; cbn [nth_error] in D, N; [injection D as ->; injection N as ->; exact G|now apply (IH k)]. }
      rewrite PC, half_share; [apply Z.leb_le| |exact T]. apply nth_error_In in D. split; [now apply NN|now apply sumfst_in].
    + intros p a CL O. apply Rabs_le_inv in B1, B2. assert (NR : ((fst p - x) * (fst p - x) + (snd p - y) * (snd p - y) <= 2 ^ 53)%Z) by (apply (ring_near r); [lia|exact O]).
      destruct (farc_spec mac x y (pi_start i) (pi_end i) M ltac:(apply Rabs_le; lra) ltac:(apply Rabs_le; lra) p a CL NR) as (G1 & G2 & _).
      unfold turn. replace (Datatypes.S k) with (k + 1)%nat by lia. set (t1 := IZR (sumfst (firstn k l)) / IZR (sumfst l)) in *. set (t2 := IZR (sumfst (firstn (k + 1) l)) / IZR (sumfst l)) in *.
      replace (2 * PI * IZR (sumfst (firstn k l)) / IZR (sumfst l)) with (2 * PI * t1) by (unfold t1; field; lra). replace (2 * PI * IZR (sumfst (firstn (k + 1) l)) / IZR (sumfst l)) with (2 * PI * t2) by (unfold t2; field; lra).
      assert (RD : forall s t, - / 1000000 <= s - 360 * t <= / 1000000 -> - / 40000000 <= radians s - 2 * PI * t <= / 40000000). { intros s t H. unfold radians. replace (s * PI / 180 - 2 * PI * t) with ((s - 360 * t) * (PI / 180)) by field. split; nra. }
      apply RD in B1, B2. split; [intros H; apply G1; lra|intros H; specialize (G2 H); lra].
  - intros p O. set (c := (x, y)). assert (N : p <> c) by (intros ->; unfold c in O; cbn [fst snd] in O; rewrite !Z.sub_diag in O; unfold on_ring in O; apply andb_true_iff in O; destruct O as (O & _); apply Z.leb_le in O; cbn in O; nia).
    assert (NR : ((fst p - x) * (fst p - x) + (snd p - y) * (snd p - y) <= 2 ^ 53)%Z) by (apply (ring_near r); [lia|exact O]).
    destruct (angle_clock c p N) as (_ & CL & _). pose proof (clock_below c p _ r R0 O CL) as BE. pose proof (fangle_near mac c p _ M NR N CL) as FN. apply Rabs_le_inv in FN.
    assert (A0 : 0 <= fangle mac c p). { unfold fangle. destruct (C150_angle mac c p M NR N) as (a & EA & _). rewrite EA. cbn [snd]. unfold frect2polarcoord2Dwithcenter in EA. destruct (fpolarcoordangle2D mac (fst p - fst c, snd p - snd c)%Z) as [a'|] eqn:G; [|discriminate EA]. cbn [rbind] in EA. injection EA as ->. apply (fangle_nonneg mac _ _ M NR) in G; [exact G|]. intros H. apply N. rewrite (surjective_pairing p). unfold c in *. cbn [fst snd] in H. injection H as H1 H2. f_equal; lia. }
    set (b := fangle mac c p) in *. set (dflt := mkitem 0 0 0 0 0). set (E' := fun k => fradians (pi_end (nth k v dflt))). set (n := (length v - 1)%nat). assert (NV : (n < length v)%nat) by (unfold n; destruct v; [destruct l; [congruence|discriminate LV]|cbn [length]; lia]).
    assert (LE : b <= E' n).
    { unfold E'. pose proof (nth_error_nth' v dflt NV) as G. pose proof (EN n _ G) as B. replace (n + 1)%nat with (length l) in B by (unfold n in *; lia). rewrite firstn_all in B. replace (IZR (sumfst l) / IZR (sumfst l)) with 1 in B by (field; lra). apply Rabs_le_inv in B.
      assert (RN := radians_near (pi_end (nth n v dflt)) 65536 ltac:(apply Rabs_le; lra) ltac:(lra)). apply Rabs_le_inv in RN. assert (radians (pi_end (nth n v dflt)) >= 2 * PI - / 40000000) by (unfold radians; nra). lra. }
    destruct (first_above E' b n LE) as (k & K & LK & H). assert (KV : (k < length v)%nat) by lia. pose proof (nth_error_nth' v dflt KV) as G. exists (slice_of mac c (nth k v dflt)). split; [apply in_map, nth_In; lia|]. cbn [slice_of within]. unfold fsel. fold b. apply andb_true_iff. split; apply rle_iff; [|exact LK].
    destruct H as [-> |(j & -> & H)].
    + rewrite (S0 _ G). rewrite (proj1 C148_radians). exact A0.
    + pose proof (nth_error_nth' v dflt (n := j) ltac:(lia)) as GJ. rewrite (CH j _ _ GJ G). unfold E' in H. lra.
Qed.
(** Without data nothing is drawn; a total of 0 is a division by zero. *)
Theorem C151_nothing : forall mac x y r st, fpiechart mac x y r [] st = (Ok tt, st).
Proof. reflexivity. Qed.
Theorem C151_total_zero : forall mac x y r l st, l <> [] -> sumfst l = 0%Z -> fpiechart mac x y r l st = (Err ZeroDivisionError, st).
Proof. intros mac x y r l [b o] NE T. unfold fpiechart, bind, lift, fgenpiechartdata. rewrite PropFloats2.total_fold, T. destruct l; [congruence|reflexivity]. Qed.
Lemma ring_box r dx dy : (0 < r)%Z -> on_ring r dx dy = true -> (-r <= dx <= r /\ -r <= dy <= r)%Z.
Proof.
  intros R0 O. unfold on_ring in O. apply andb_true_iff in O. destruct O as (_ & H). apply Z.leb_le in H. set (m := Z.max (Z.abs dx) (Z.abs dy)) in *. assert (HM : (m * m <= dx * dx + dy * dy)%Z) by (unfold m; destruct (Z.max_spec (Z.abs dx) (Z.abs dy)) as [(_ & ->) | (_ & ->)]; nia).
  assert (MR : (m <= r)%Z) by (apply Z.nlt_ge; intros G; rewrite Z.max_r in H by lia; nia). lia.
Qed.
Lemma ring_disc r dx dy : on_ring r dx dy = true -> in_disc r dx dy = true.
Proof. unfold on_ring, in_disc. rewrite andb_true_iff. now intros (_ & H). Qed.
(** A chart that lies in the picture, a pixel away from its top and bottom, and is drawn without an error paints every pixel of its rim in the colour of one of
    the amounts. *)
Theorem C151_rim : forall mac b w h bits o x y r l b' o', arccosine mac -> wf b w h bits -> bits <> 4%Z -> (0 < r <= 2 ^ 20)%Z -> (r <= x < w - r /\ r < y < h - r - 1)%Z ->
  l <> [] -> (forall d, In d l -> (0 <= fst d)%Z /\ storable bits (snd d)) -> (0 < sumfst l <= 2 ^ 50)%Z -> (Z.of_nat (length l) <= 1000000)%Z ->
  fpiechart mac x y r l (mkst b o) = (Ok tt, mkst b' o') ->
  forall px py, on_ring r (px - x) (py - y) = true -> exists d, In d l /\ pixel b' w h bits px py = reduce bits (snd d).
Proof.
  intros mac b w h bits o x y r l b' o' M W N4 R0 BX NE ND T L E px py O.
  destruct (C151_chart mac x y r l M R0 NE (fun d I => proj1 (ND d I)) T L) as (sl & EQ & LS & SP & CV). rewrite EQ in E.
  assert (CO : forall s, In s sl -> exists d, In d l /\ colour s = snd d /\ amount s = fst d).
  { intros s I. apply In_nth_error in I. destruct I as (k & K). destruct (nth_error l k) as [d|] eqn:D; [|apply nth_error_None in D; assert (k < length sl)%nat by (apply nth_error_Some; congruence); lia]. destruct (SP k d D) as (s' & K' & A & C & _). rewrite K in K'. injection K' as <-. exists d. split; [now apply nth_error_In in D|auto]. }
  assert (AM : map amount sl = map fst l).
  { apply nth_ext with 0%Z 0%Z; [now rewrite !map_length|]. intros k K. rewrite map_length in K. destruct (nth_error l k) as [d|] eqn:D; [|apply nth_error_None in D; lia]. destruct (SP k d D) as (s & N & A & _). pose proof (map_nth_error amount _ _ N) as N1. pose proof (map_nth_error fst _ _ D) as N2. rewrite (nth_error_nth _ _ 0%Z N1), (nth_error_nth _ _ 0%Z N2). exact A. }
  assert (NT : fold_right Z.add 0%Z (map amount sl) <> 0%Z) by (rewrite AM; pose proof (sum_fold (map fst l) 0) as S; rewrite PropFloats2.total_fold in S; lia).
  assert (NS : sl <> []) by (intros ->; destruct l; [congruence|discriminate LS]).
  assert (STO : forall s, In s sl -> storable bits (colour s)) by (intros s I; destruct (CO s I) as (d & D & -> & _); now apply ND).
  assert (PEN : pen_at bits x) by (unfold pen_at; repeat split; [exact N4| |]; lia).
  assert (INS : forall s u v, sector (within s) (atend s) x y r u v -> inside w h u v).
  { intros s u v (p & q & OR & _ & H). pose proof (ring_box r _ _ (proj1 R0) OR). destruct H as [H|(_ & H)]; [injection H as -> ->; unfold inside; lia|]. apply seg_points_box in H. unfold inside. lia. }
  assert (NEM : forall s, In s sl -> half s = false -> exists u v, sector (within s) (atend s) x y r u v).
  { apply Classical_Prop.NNPP. intros H. assert (G : exists l1 s l2, sl = l1 ++ s :: l2 /\ (forall s', In s' l1 -> half s' = false -> exists u v, sector (within s') (atend s') x y r u v) /\ half s = false /\ forall u v, ~ sector (within s) (atend s) x y r u v).
    { clear - H. induction sl as [|s t IH]; [exfalso; apply H; intros s []|]. destruct (Classical_Prop.classic (half s = false -> exists u v, sector (within s) (atend s) x y r u v)) as [A|A].
      - destruct IH as (l1 & s' & l2 & -> & B & C); [intros G; apply H; intros s' [<-|I]; [exact A|now apply G]|]. exists (s :: l1), s', l2. split; [reflexivity|]. split; [|exact C]. intros s'' [<-|I]; [exact A|now apply B].
      - apply Classical_Prop.imply_to_and in A. destruct A as (A & B). exists [], s, t. split; [reflexivity|]. split; [intros s' []|]. split; [exact A|]. intros u v S. apply B. now exists u, v. }
    destruct G as (l1 & s & l2 & -> & A & B & C). destruct (C108_thin b w h bits o l1 s l2 x y r W N4 (proj1 R0) PEN NT STO) as (st & F); [|exact B|exact C|congruence]. intros s' I Hf. split; [now apply A|apply INS]. }
  destruct (C108_pie b w h bits o sl x y r W N4 (proj1 R0) PEN NS NT STO (fun s I Hf => conj (NEM s I Hf) (INS s))) as (K & b2 & o2 & EK & SK & E2 & _ & RP). rewrite E in E2. injection E2 as <- <-.
  assert (IN : inside w h px py) by (pose proof (ring_box r _ _ (proj1 R0) O); unfold inside; lia). rewrite (proj2 (proj2 RP) px py IN).
  destruct (find (fun p => negb (half (fst p)) && snd p px py) (rev K)) as [q|] eqn:FK.
  - apply find_some in FK. destruct FK as (I & _). apply in_rev in I. destruct (CO (fst q)) as (d & D & C & _); [rewrite <- EK; now apply in_map|]. exists d. split; [exact D|now rewrite C].
  - destruct (CV (px, py) O) as (s & I & WS). pose proof I as I'. rewrite <- EK in I. apply in_map_iff in I. destruct I as ([s' S'] & Es & IK). cbn [fst] in Es. subst s'.
    destruct (half s) eqn:Hf.
    + assert (FH : exists s', find half (rev sl) = Some s'). { destruct (find half (rev sl)) as [s'|] eqn:Q; [now exists s'|]. exfalso. assert (X := find_none _ _ Q s). rewrite <- in_rev in X. specialize (X I'). congruence. }
      destruct FH as (s' & FH). rewrite FH, (ring_disc _ _ _ O). apply find_some in FH. destruct FH as (J & _). apply in_rev in J. destruct (CO s' J) as (d & D & C & _). exists d. split; [exact D|now rewrite C].
    + exfalso. assert (X := find_none _ _ FK (s, S')). rewrite <- in_rev in X. specialize (X IK). cbn [fst snd] in X. rewrite Hf in X. cbn [negb andb] in X. assert (Y : S' px py = true) by (apply (SK s S' IK Hf); exists px, px; split; [lia|]; split; exists px, py; auto). congruence.
Qed.

(** ** A case: a quarter and three quarters *)
Example C151_case : wf (blank 14 14 24) 14 14 24 /\ exists b' o', fpiechart acos 6 6 3 [(1, 5); (3, 6)]%Z (mkst (blank 14 14 24) []) = (Ok tt, mkst b' o').
Proof.
  assert (W : wf (blank 14 14 24) 14 14 24) by concrete_wf. split; [exact W|].
  assert (ND : forall d, In d [(1, 5); (3, 6)]%Z -> (0 <= fst d)%Z) by (intros d [<-|[<-|[]]]; cbn [fst]; lia).
  destruct (C151_chart acos 6 6 3 [(1, 5); (3, 6)]%Z (proj2 C150_arccosine) ltac:(lia) ltac:(discriminate) ND ltac:(cbn; lia) ltac:(cbn; lia)) as (sl & EQ & LS & SP & _).
  destruct (SP 0%nat (1, 5)%Z eq_refl) as (s0 & N0 & A0 & C0 & H0 & K0). destruct (SP 1%nat (3, 6)%Z eq_refl) as (s1 & N1 & A1 & C1 & H1 & _). destruct sl as [|t0 [|t1 [|]]]; try discriminate LS. cbn [nth_error] in N0, N1. injection N0 as ->. injection N1 as ->. cbn [fst snd sumfst fold_right Z.add] in *.
  assert (E1 : half s1 = true) by (apply H1; lia). assert (CL : clock (6, 6)%Z (8, 4)%Z (PI / 4)).
  { exists (2 * sqrt 2). cbn [fst snd]. rewrite sin_PI4, cos_PI4. pose proof (Rlt_sqrt2_0). pose proof PI_RGT_0. split; [lra|]. split; [lra|]. split; field; lra. }
  assert (WT : within s0 (8, 4)%Z = true). { apply (proj1 (K0 _ _ CL eq_refl)). unfold turn. cbn [firstn sumfst fold_right fst Z.add Pos.add Pos.succ]. pose proof PI2_1. lra. }
  destruct (C108_pie (blank 14 14 24) 14 14 24 [] [s0; s1] 6 6 3 W) as (L & b' & o' & _ & _ & E & _); try lia; try discriminate.
  { unfold pen_at. repeat split; lia. }
  { cbn [map fold_right]. lia. }
  { intros s [<-|[<-|[]]] _; lia. }
  { intros s [<-|[<-|[]]] Hf; [|congruence]. split; [exists 8%Z, 4%Z, 8%Z, 4%Z; auto|]. intros u v (p & q & OR & _ & H). pose proof (ring_box 3 _ _ ltac:(lia) OR). destruct H as [H|(_ & H)]; [injection H as -> ->; unfold inside; lia|]. apply seg_points_box in H. unfold inside. lia. }
  exists b', o'. rewrite EQ. exact E.
Qed.
Print Assumptions C151_chart.
Print Assumptions C151_nothing.
Print Assumptions C151_total_zero.
Print Assumptions C151_rim.
