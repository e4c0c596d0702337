(** Property C116: Bezier curves and B-splines. *)
From Coq Require Import ZArith QArith List Bool Lia Lqa.
From Verif Require Import PyBase Bmp Geometry SpecExact Exact ExactProofs CurveProofs.
Import ListNotations.
Open Scope Q_scope.

Lemma flat_map_same {A B} (f g : A -> list B) l : (forall a, In a l -> f a = g a) -> flat_map f l = flat_map g l.
Proof. intros H. rewrite !flat_map_concat_map. f_equal. now apply map_ext_in. Qed.
Lemma same_ok {A} (a b : A) : Ok a = Ok b -> a = b.
Proof. congruence. Qed.
Definition seen (p : Z * Z) (l : list (Z * Z)) : bool := existsb (fun q => (fst q =? fst p)%Z && (snd q =? snd p)%Z) l.
Lemma seen_in p l : seen p l = true <-> In p l.
Proof.
  unfold seen. rewrite existsb_exists. split.
  - intros (q & H & E). apply andb_true_iff in E. rewrite !Z.eqb_eq in E. destruct p, q. cbn [fst snd] in E. destruct E as [-> ->]. exact H.
  - intros H. exists p. now rewrite !Z.eqb_refl.
Qed.
Ltac is_in := apply seen_in; vm_compute; reflexivity.
Ltac not_in := let H := fresh in intros H; apply seen_in in H; vm_compute in H; discriminate.
Lemma steps_frac k m : (k < m)%nat -> 0 <= inject_Z (Z.of_nat k) / inject_Z (Z.of_nat m) <= 1.
Proof.
  intros H. assert (P : 0 < inject_Z (Z.of_nat m)) by (unfold Qlt, inject_Z; cbn [Qnum Qden]; lia). split.
  - apply Qle_shift_div_l; [exact P|]. rewrite Qmult_0_l. unfold Qle, inject_Z. cbn [Qnum Qden]. lia.
  - apply Qle_shift_div_r; [exact P|]. rewrite Qmult_1_l. unfold Qle, inject_Z. cbn [Qnum Qden]. lia.
Qed.

(** for n + 2 points the curve joins 4 (n + 2) points by segments, each from one point to
    the one before, starting in the first control point; they are nearest to the points
    of the Bezier curve of the first n + 1 control points *)
Theorem C116_bezier : forall pnts n, length pnts = S (S n) ->
  let K := (4 * S (S n))%nat in
  exists P : nat -> Z * Z,
    iterbeziercurve pnts = Ok (iterline (P O) (P O) ++ flat_map (fun k => iterline (P (S k)) (P k)) (seq 0 (K - 1))) /\
    P O = nth 0 pnts (0, 0)%Z /\
    (forall k, (k < K)%nat -> let t := inject_Z (Z.of_nat k) / inject_Z (Z.of_nat K) in exists x y,
       x == casteljau (fun i => inject_Z (fst (nth i pnts (0, 0)%Z))) n t /\ nearest x (fst (P k)) /\
       y == casteljau (fun i => inject_Z (snd (nth i pnts (0, 0)%Z))) n t /\ nearest y (snd (P k))) /\
    (forall x0 y0 x1 y1 k, (forall p, In p pnts -> x0 <= fst p <= x1 /\ y0 <= snd p <= y1)%Z -> (k < K)%nat ->
       (x0 <= fst (P k) <= x1 /\ y0 <= snd (P k) <= y1)%Z).
Proof.
  intros pnts n L K.
  set (V := fun k => bezierpoint pnts (S n) (inject_Z (Z.of_nat k) / inject_Z (Z.of_nat K))).
  assert (R : iterbeziercurve pnts = Ok (iterline (roundvect (V O)) (nth 0 pnts (0, 0)%Z) ++ flat_map (fun k => iterline (roundvect (V (S k))) (roundvect (V k))) (seq 0 (K - 1)))) by exact (bezier_run pnts n L).
  assert (C : forall k, fst (V k) == casteljau (fun i => inject_Z (fst (nth i pnts (0, 0)%Z))) n (inject_Z (Z.of_nat k) / inject_Z (Z.of_nat K)) /\
    snd (V k) == casteljau (fun i => inject_Z (snd (nth i pnts (0, 0)%Z))) n (inject_Z (Z.of_nat k) / inject_Z (Z.of_nat K))) by (intros k; exact (bezierpoint_casteljau pnts n (inject_Z (Z.of_nat k) / inject_Z (Z.of_nat K)))).
  assert (V0 : roundvect (V O) = nth 0 pnts (0, 0)%Z).
  { destruct (C O) as [C1 C2]. assert (Z0 : inject_Z (Z.of_nat 0) / inject_Z (Z.of_nat K) == 0) by (unfold Qdiv; change (inject_Z (Z.of_nat 0)) with 0; ring).
    rewrite (casteljau_proper _ _ _ _ Z0), casteljau_0 in C1. rewrite (casteljau_proper _ _ _ _ Z0), casteljau_0 in C2.
    unfold roundvect. rewrite (nearest_integer _ _ C1), (nearest_integer _ _ C2). now destruct (nth 0 pnts (0, 0)%Z). }
  exists (fun k => roundvect (V k)). split; [rewrite R; cbv beta; rewrite V0; reflexivity|]. split; [exact V0|]. split.
  - intros k Hk t. exists (fst (V k)), (snd (V k)). destruct (C k) as [C1 C2]. split; [exact C1|]. split; [apply qround_nearest|]. split; [exact C2|apply qround_nearest].
  - intros x0 y0 x1 y1 k B Hk. destruct (C k) as [C1 C2]. pose proof (steps_frac k K Hk) as T. split.
    + apply (nearest_between (fst (V k)) _ _ _ (qround_nearest _)). rewrite C1. apply casteljau_between; [exact T|]. intros i Hi.
      rewrite <- !Zle_Qle. apply (B (nth i pnts (0, 0)%Z)). apply nth_In. lia.
    + apply (nearest_between (snd (V k)) _ _ _ (qround_nearest _)). rewrite C2. apply casteljau_between; [exact T|]. intros i Hi.
      rewrite <- !Zle_Qle. apply (B (nth i pnts (0, 0)%Z)). apply nth_In. lia.
Qed.
(** so the curve stays in any rectangle around the control points, but for one row above
    and below *)
Theorem C116_bezier_box : forall pnts l x0 y0 x1 y1, (2 <= length pnts)%nat -> iterbeziercurve pnts = Ok l ->
  (forall p, In p pnts -> x0 <= fst p <= x1 /\ y0 <= snd p <= y1)%Z ->
  forall p, In p l -> (x0 <= fst p <= x1 /\ y0 - 1 <= snd p <= y1 + 1)%Z.
Proof.
  intros pnts l x0 y0 x1 y1 L E B p Hp. destruct (length pnts) as [|[|n]] eqn:Ln; [lia|lia|].
  destruct (C116_bezier pnts n Ln) as (P & R & _ & _ & G). rewrite E in R. apply same_ok in R. rewrite R in Hp. clear R.
  assert (Q : exists i j, (i < 4 * S (S n))%nat /\ (j < 4 * S (S n))%nat /\ In p (iterline (P i) (P j))).
  { apply in_app_or in Hp. destruct Hp as [Hp|Hp]; [exists O, O; repeat split; auto; lia|]. apply in_flat_map in Hp. destruct Hp as (k & Hk & Hp). apply in_seq in Hk. exists (S k), k. repeat split; auto; lia. }
  destruct Q as (i & j & Hi & Hj & Hin). pose proof (G x0 y0 x1 y1 i B Hi) as G1. pose proof (G x0 y0 x1 y1 j B Hj) as G2.
  destruct (P i) as [a b], (P j) as [c d], p as [x y]. apply iterline_near in Hin. cbn [fst snd] in *. lia.
Qed.
Example C116_bezier_ex : exists l, iterbeziercurve [(0, 0); (4, 8); (8, 0); (9, 9)]%Z = Ok l /\ In (4, 4)%Z l /\ hd_error l = Some (0, 0)%Z /\ last l (9, 9)%Z = (7, 2)%Z /\
  casteljau (fun i => inject_Z (snd (nth i [(0, 0); (4, 8); (8, 0)]%Z (0, 0)%Z))) 2 (1 # 2) == 4.
Proof. eexists. split; [vm_compute; reflexivity|]. split; [is_in|]. split; [vm_compute; reflexivity|]. split; [vm_compute; reflexivity|]. vm_compute. reflexivity. Qed.
(** the last control point has no effect, a single point is joined to the origin, and no
    points raise *)
Theorem C116_bezier_last_ignored : forall pnts q q', pnts <> [] -> iterbeziercurve (pnts ++ [q]) = iterbeziercurve (pnts ++ [q']).
Proof.
  intros pnts q q' N. assert (E : exists n, length pnts = S n) by (destruct pnts; [contradiction|cbn; eauto]). destruct E as [n E].
  assert (L : forall r, length (pnts ++ [r]) = S (S n)) by (intros r; rewrite app_length; cbn; lia).
  rewrite (bezier_run _ n (L q)), (bezier_run _ n (L q')). cbv zeta.
  assert (H : forall u, bezierpoint (pnts ++ [q]) (S n) u = bezierpoint (pnts ++ [q']) (S n) u).
  { intros u. unfold bezierpoint. assert (F : forall l s, (forall j, In j l -> (j < S n)%nat) ->
      fold_left (fun v j => plus2 v (scale2 (nth j (pnts ++ [q]) (0, 0)%Z) (bezierblend j (S n - 1) u))) l s = fold_left (fun v j => plus2 v (scale2 (nth j (pnts ++ [q']) (0, 0)%Z) (bezierblend j (S n - 1) u))) l s).
    { induction l as [|j l IH]; intros s Hl; [reflexivity|]. cbn [fold_left]. rewrite !app_nth1 by (rewrite E; apply Hl; now left). apply IH. intros i Hi. apply Hl. now right. }
    apply F. intros j Hj. apply in_seq in Hj. exact (proj2 Hj). }
  rewrite !app_nth1 by lia. do 2 f_equal; [now rewrite H|]. apply flat_map_same. intros k _. now rewrite !H.
Qed.
Theorem C116_bezier_end_refuted : exists l, iterbeziercurve [(0, 0); (4, 0); (9, 9)]%Z = Ok l /\ ~ In (9, 9)%Z l.
Proof. eexists. split; [vm_compute; reflexivity|]. not_in. Qed.
Theorem C116_bezier_single_refuted : exists l, iterbeziercurve [(2, 1)]%Z = Ok l /\ In (0, 0)%Z l.
Proof. eexists. split; [vm_compute; reflexivity|]. is_in. Qed.
Theorem C116_empty : iterbeziercurve [] = Err IndexError /\ forall closed back, iterbspline [] closed back = Err IndexError.
Proof. split; reflexivity. Qed.

(** ** B-splines *)
(** the curve joins its points, 4 for each control point and piece, from the last point of
    the second piece on; they are nearest to the points of the uniform cubic B-spline *)
Theorem C116_bspline : forall pnts (closed back : bool), pnts <> [] ->
  let cnt := length pnts in
  let K := (4 * cnt)%nat in
  let ctrl k := nth (if back then Nat.modulo k cnt else Nat.min k (cnt - 1)) pnts (0, 0)%Z in
  exists P : nat -> Z * Z,
    iterbspline pnts closed back = Ok (flat_map (fun m => iterline (P (S m)) (P m)) (seq (2 * K - 1) ((cnt + (if closed then 2 else 0) - 2) * K))) /\
    (forall i k, (k < K)%nat -> let u := inject_Z (Z.of_nat k) / inject_Z (Z.of_nat K) in exists x y,
       x == qsum (fun j => cox 3 (inject_Z (Z.of_nat j)) (3 + u) * inject_Z (fst (ctrl (i + j)%nat))) 4 /\ nearest x (fst (P (i * K + k)%nat)) /\
       y == qsum (fun j => cox 3 (inject_Z (Z.of_nat j)) (3 + u) * inject_Z (snd (ctrl (i + j)%nat))) 4 /\ nearest y (snd (P (i * K + k)%nat))) /\
    (forall x0 y0 x1 y1 i k, (k < K)%nat -> (forall j, (j < 4)%nat -> x0 <= fst (ctrl (i + j)%nat) <= x1 /\ y0 <= snd (ctrl (i + j)%nat) <= y1)%Z ->
       (x0 <= fst (P (i * K + k)%nat) <= x1 /\ y0 <= snd (P (i * K + k)%nat) <= y1)%Z) /\
    (closed = true -> back = true -> P (2 * K - 1)%nat = P ((cnt + 2) * K - 1)%nat) /\
    (closed = false -> back = false -> (3 <= cnt)%nat -> P (cnt * K - 1)%nat = nth (cnt - 1) pnts (0, 0)%Z).
Proof.
  intros pnts closed back N cnt K ctrl. pose proof (K_pos pnts N) as KP. fold cnt K in KP. exists (knot pnts back). split; [apply (spline_run pnts closed back N)|].
  assert (BX : forall x0 y0 x1 y1 i k, (k < K)%nat -> (forall j, (j < 4)%nat -> x0 <= fst (ctrl (i + j)%nat) <= x1 /\ y0 <= snd (ctrl (i + j)%nat) <= y1)%Z ->
       (x0 <= fst (knot pnts back (i * K + k)%nat) <= x1 /\ y0 <= snd (knot pnts back (i * K + k)%nat) <= y1)%Z).
  { intros x0 y0 x1 y1 i k Hk B. unfold K, cnt. rewrite (knot_at pnts back N i k Hk). unfold roundvect. cbn [fst snd]. split.
    - apply (nearest_between _ _ _ _ (qround_nearest _)). apply (piece_between pnts back N i k fst fst); [left; auto|exact Hk|]. intros j Hj. rewrite <- !Zle_Qle. apply (B j Hj).
    - apply (nearest_between _ _ _ _ (qround_nearest _)). apply (piece_between pnts back N i k snd snd); [right; auto|exact Hk|]. intros j Hj. rewrite <- !Zle_Qle. apply (B j Hj). }
  split; [|split; [exact BX|split]].
  - intros i k Hk u. exists (fst (piece pnts back i k)), (snd (piece pnts back i k)). unfold K, cnt. rewrite (knot_at pnts back N i k Hk).
    split; [apply (piece_cox pnts back N i k fst fst); [left; auto|exact Hk]|]. split; [apply qround_nearest|].
    split; [apply (piece_cox pnts back N i k snd snd); [right; auto|exact Hk]|apply qround_nearest].
  - intros -> ->. replace (2 * K - 1)%nat with (1 * K + (K - 1))%nat by lia. assert (A1 : ((cnt + 2) * K = (cnt + 1) * K + K)%nat) by (replace (cnt + 2)%nat with (S (cnt + 1)) by lia; apply Nat.add_comm).
    replace ((cnt + 2) * K - 1)%nat with ((cnt + 1) * K + (K - 1))%nat by (rewrite A1; clear - KP; clearbody K; generalize ((cnt + 1) * K)%nat; intros; lia).
    unfold K, cnt. rewrite !(knot_at pnts true N) by (fold cnt K; lia). apply f_equal.
    assert (M : forall j, controlpoint pnts true (length pnts + 1 + j) = controlpoint pnts true (1 + j)).
    { intros j. unfold controlpoint. fold cnt. replace (cnt + 1 + j)%nat with (1 + j + 1 * cnt)%nat by lia. rewrite Nat.mod_add by lia. reflexivity. }
    symmetry. apply piece_ext. exact M.
  - intros -> -> H3. assert (A1 : (cnt * K = (cnt - 1) * K + K)%nat).
    { clear - H3. clearbody K cnt. destruct cnt as [|c]; [lia|]. replace (S c - 1)%nat with c by lia. apply Nat.add_comm. }
    replace (cnt * K - 1)%nat with ((cnt - 1) * K + (K - 1))%nat by (rewrite A1; clear - KP; clearbody K; generalize ((cnt - 1) * K)%nat; intros; lia).
    set (z := nth (cnt - 1) pnts (0, 0)%Z). assert (Q : forall j, (j < 4)%nat -> ctrl (cnt - 1 + j)%nat = z) by (intros j Hj; unfold ctrl, z; f_equal; lia).
    pose proof (BX (fst z) (snd z) (fst z) (snd z) (cnt - 1)%nat (K - 1)%nat ltac:(lia)) as G.
    assert (G' : (fst z <= fst (knot pnts false ((cnt - 1) * K + (K - 1))%nat) <= fst z /\ snd z <= snd (knot pnts false ((cnt - 1) * K + (K - 1))%nat) <= snd z)%Z).
    { apply G. intros j Hj. rewrite (Q j Hj). lia. }
    destruct (knot pnts false ((cnt - 1) * K + (K - 1))%nat) as [x y], z as [zx zy]. cbn [fst snd] in G'. f_equal; lia.
Qed.
Theorem C116_bspline_box : forall pnts closed back l x0 y0 x1 y1, pnts <> [] -> iterbspline pnts closed back = Ok l ->
  (forall p, In p pnts -> x0 <= fst p <= x1 /\ y0 <= snd p <= y1)%Z ->
  forall p, In p l -> (x0 <= fst p <= x1 /\ y0 - 1 <= snd p <= y1 + 1)%Z.
Proof.
  intros pnts closed back l x0 y0 x1 y1 N E B p Hp. destruct (C116_bspline pnts closed back N) as (P & R & _ & G & _). rewrite E in R. apply same_ok in R. rewrite R in Hp. clear R.
  assert (LN : (length pnts <> 0)%nat) by (destruct pnts; [contradiction|cbn; lia]).
  assert (G' : forall m, (x0 <= fst (P m) <= x1 /\ y0 <= snd (P m) <= y1)%Z).
  { intros m. set (K := (4 * length pnts)%nat) in *. rewrite (Nat.div_mod m K) by lia. rewrite (Nat.mul_comm K). apply G; [apply Nat.mod_upper_bound; lia|].
    intros j Hj. apply B. apply nth_In. destruct back; [apply Nat.mod_upper_bound; lia|lia]. }
  apply in_flat_map in Hp. destruct Hp as (k & _ & Hin). pose proof (G' k) as G1. pose proof (G' (S k)) as G2.
  destruct (P (S k)) as [a b], (P k) as [c d], p as [x y]. apply iterline_near in Hin. cbn [fst snd] in *. lia.
Qed.
Example C116_bspline_ex : exists l, iterbspline [(0, 0); (6, 0); (6, 6); (0, 6)]%Z true true = Ok l /\ last l (9, 9)%Z <> (9, 9)%Z /\ In (1, 4)%Z l /\ Nat.ltb 64 (length l) = true.
Proof. eexists. split; [vm_compute; reflexivity|]. split; [vm_compute; discriminate|]. split; [is_in|vm_compute; reflexivity]. Qed.
(** the four weights are not negative, add up to 1, and the pieces join *)
Theorem C116_weights : forall u, 0 <= u <= 1 -> let '(a, b, c, d) := bsplineblend u in 0 <= a /\ 0 <= b /\ 0 <= c /\ 0 <= d /\ a + b + c + d == 1.
Proof. exact blend_weights. Qed.
Theorem C116_joins : let '(a1, b1, c1, d1) := bsplineblend 1 in let '(a0, b0, c0, d0) := bsplineblend 0 in
  a1 == 0 /\ b1 == a0 /\ c1 == b0 /\ d1 == c0 /\ d0 == 0.
Proof. repeat split; reflexivity. Qed.
(** unless the curve turns back, its first control point has no effect *)
Theorem C116_bspline_first_ignored : forall p p' t closed, t <> [] -> iterbspline (p :: t) closed false = iterbspline (p' :: t) closed false.
Proof.
  intros p p' t closed N. rewrite !spline_run by discriminate. change (length (p' :: t)) with (length (p :: t)).
  assert (K0 : (1 <= length t)%nat) by (destruct t; [contradiction|cbn; lia]).
  assert (KN : forall m, (2 * (4 * length (p :: t)) - 1 <= m)%nat -> knot (p :: t) false m = knot (p' :: t) false m).
  { intros m Hm. unfold knot, piece. change (length (p' :: t)) with (length (p :: t)). set (K := (4 * length (p :: t))%nat) in *.
    assert (KP : (8 <= K)%nat) by (unfold K; cbn [length]; lia).
    assert (D : (1 <= m / K)%nat) by (apply Nat.div_le_lower_bound; lia).
    assert (C : forall j, controlpoint (p :: t) false (m / K + j) = controlpoint (p' :: t) false (m / K + j)).
    { intros j. unfold controlpoint. cbn [length]. destruct (Nat.min (m / K + j) (S (length t) - 1)) as [|q] eqn:Q; [lia|reflexivity]. }
    destruct (bsplineblend _) as [[[a b] c] d]. now rewrite !C. }
  apply f_equal. apply flat_map_same. intros m Hm. apply in_seq in Hm. rewrite !KN by lia. reflexivity.
Qed.
Theorem C116_bspline_start_refuted : exists l, iterbspline [(0, 0); (8, 0); (8, 8)]%Z false false = Ok l /\ ~ In (0, 0)%Z l /\ In (8, 8)%Z l.
Proof. eexists. split; [vm_compute; reflexivity|]. split; [not_in|is_in]. Qed.

Print Assumptions C116_bezier.
Print Assumptions C116_bezier_box.
Print Assumptions C116_bezier_last_ignored.
Print Assumptions C116_bezier_end_refuted.
Print Assumptions C116_bezier_single_refuted.
Print Assumptions C116_empty.
Print Assumptions C116_bspline.
Print Assumptions C116_bspline_box.
Print Assumptions C116_weights.
Print Assumptions C116_joins.
Print Assumptions C116_bspline_first_ignored.
Print Assumptions C116_bspline_start_refuted.
