From Coq Require Import ZArith QArith Qround List Bool Lia Lqa.
From Verif Require Import PyBase PyFacts Bmp Geometry MathLib Solids Spec GeomProofs DrawProofs2 SpecExact Exact ExactProofs.
Import ListNotations.
Open Scope Q_scope.

(** ** Bernstein's form and de Casteljau's *)
Lemma qsum_ext f g n : (forall i, (i < n)%nat -> f i == g i) -> qsum f n == qsum g n.
Proof. induction n as [|n IH]; intros H; cbn [qsum]; [reflexivity|]. assert (E : qsum f n == qsum g n) by (apply IH; intros; apply H; lia). rewrite E, (H n) by lia. reflexivity. Qed.
Lemma qsum_add f g n : qsum (fun i => f i + g i) n == qsum f n + qsum g n.
Proof. induction n as [|n IH]; cbn [qsum]; [ring|]. rewrite IH. ring. Qed.
Lemma qsum_mul c f n : qsum (fun i => c * f i) n == c * qsum f n.
Proof. induction n as [|n IH]; cbn [qsum]; [ring|]. rewrite IH. ring. Qed.
Lemma qsum_first f n : qsum f (S n) == f O + qsum (fun i => f (S i)) n.
Proof. induction n as [|n IH]; [cbn [qsum]; ring|]. change (qsum f (S (S n))) with (qsum f (S n) + f (S n)). rewrite IH. cbn [qsum]. ring. Qed.
Lemma comb_over n : forall i, (n < i)%nat -> comb n i = 0%Z.
Proof. induction n as [|n IH]; intros [|i] H; try lia; [reflexivity|]. cbn [comb]. rewrite !IH by lia. reflexivity. Qed.
Lemma comb_0 n : comb n 0 = 1%Z.
Proof. destruct n; reflexivity. Qed.
Lemma bern p n u : qsum (fun j => p j * bezierblend j n u) (S n) == casteljau p n u.
Proof.
  revert p. induction n as [|n IH]; intros p.
  - cbn [qsum casteljau]. unfold bezierblend. cbn. ring.
  - cbn [casteljau]. rewrite <- !IH. unfold bezierblend.
    assert (A : qsum (fun j => p j * (inject_Z (comb (S n) j) * qpow u j * qpow (1 - u) (S n - j))) (S (S n)) ==
      qsum (fun j => p j * (inject_Z (comb n j) * qpow u j * qpow (1 - u) (S n - j))) (S (S n)) +
      qsum (fun j => p (S j) * (inject_Z (comb n j) * qpow u (S j) * qpow (1 - u) (n - j))) (S n)).
    { rewrite (qsum_first _ (S n)). rewrite (qsum_first (fun j => p j * (inject_Z (comb n j) * qpow u j * qpow (1 - u) (S n - j))) (S n)).
      rewrite !comb_0, <- Qplus_assoc, <- qsum_add. apply Qplus_comp; [reflexivity|]. apply qsum_ext. intros i Hi. cbn [comb]. rewrite inject_Z_plus.
      replace (S n - S i)%nat with (n - i)%nat by lia. ring. }
    rewrite A. apply Qplus_comp.
    + change (qsum ?f (S (S n))) with (qsum f (S n) + f (S n)). cbv beta. rewrite comb_over by lia.
      rewrite <- qsum_mul. transitivity (qsum (fun j => p j * (inject_Z (comb n j) * qpow u j * qpow (1 - u) (S n - j))) (S n)); [change (inject_Z 0) with 0; ring|].
      apply qsum_ext. intros i Hi. replace (S n - i)%nat with (S (n - i)) by lia. cbn [qpow]. ring.
    + rewrite <- qsum_mul. apply qsum_ext. intros i Hi. cbn [qpow]. ring.
Qed.
Lemma casteljau_between p n t lo hi : 0 <= t <= 1 -> (forall i, (i <= n)%nat -> lo <= p i <= hi) -> lo <= casteljau p n t <= hi.
Proof.
  revert p. induction n as [|n IH]; intros p Ht H; cbn [casteljau]; [apply H; lia|].
  assert (A : lo <= casteljau p n t <= hi) by (apply IH; auto; intros; apply H; lia).
  assert (B : lo <= casteljau (fun i => p (S i)) n t <= hi) by (apply IH; auto; intros; apply H; lia). nra.
Qed.
Lemma casteljau_proper p n t u : t == u -> casteljau p n t == casteljau p n u.
Proof. intros E. revert p. induction n as [|n IH]; intros p; cbn [casteljau]; [reflexivity|]. now rewrite !IH, E. Qed.
Lemma casteljau_0 p n : casteljau p n 0 == p O.
Proof. revert p. induction n as [|n IH]; intros p; cbn [casteljau]; [reflexivity|]. rewrite !IH. ring. Qed.

(** ** rounding *)
Lemma qround_nearest q : nearest q (qround q).
Proof.
  unfold nearest, qround. pose proof (Qfloor_le q) as A. pose proof (Qlt_floor q) as B. set (f := Qfloor q) in *. rewrite inject_Z_plus in B. change (inject_Z 1) with 1 in B.
  destruct (Qcompare (q - inject_Z f) (1 # 2)) eqn:E.
  - apply Qeq_alt in E. destruct (Z.even f); rewrite ?inject_Z_plus; change (inject_Z 1) with 1; lra.
  - apply Qlt_alt in E. lra.
  - apply Qgt_alt in E. rewrite inject_Z_plus. change (inject_Z 1) with 1. lra.
Qed.
Lemma nearest_between q z lo hi : nearest q z -> inject_Z lo <= q <= inject_Z hi -> (lo <= z <= hi)%Z.
Proof.
  unfold nearest. intros H G. split.
  - assert (L : inject_Z lo < inject_Z (z + 1)) by (rewrite inject_Z_plus; change (inject_Z 1) with 1; lra). apply Zlt_Qlt in L || (unfold Qlt in L; cbn in L). lia.
  - assert (L : inject_Z z < inject_Z (hi + 1)) by (rewrite inject_Z_plus; change (inject_Z 1) with 1; lra). apply Zlt_Qlt in L || (unfold Qlt in L; cbn in L). lia.
Qed.
Lemma nearest_integer z : forall q, q == inject_Z z -> qround q = z.
Proof. intros q E. assert (z <= qround q <= z)%Z by (apply (nearest_between q); [apply qround_nearest|lra]). lia. Qed.

(** ** points of a segment *)
Lemma iterline_near x1 y1 x2 y2 x y : In (x, y) (iterline (x1, y1) (x2, y2)) ->
  (Z.min x1 x2 <= x <= Z.max x1 x2 /\ Z.min y1 y2 - 1 <= y <= Z.max y1 y2 + 1)%Z.
Proof.
  intros H. destruct (Z.eq_dec (Z.abs (x2 - x1)) (Z.abs (y2 - y1))) as [E|E].
  - destruct (Z.eq_dec x1 x2) as [Q|Q].
    + apply iterline_on_line in H; [|right; lia]. unfold on_line in H. apply andb_true_iff in H. destruct H as [H _]. unfold in_box in H. rewrite !andb_true_iff, !Z.leb_le in H. lia.
    + apply iterline_diag in H; auto. destruct H as [[-> ->]|[H ->]]; [lia|]. split; [lia|]. destruct (Z.sgn_spec (y2 - y1)) as [[? ->]|[[? ->]|[? ->]]]; lia.
  - apply iterline_on_line in H; [|now left]. unfold on_line in H. apply andb_true_iff in H. destruct H as [H _]. unfold in_box in H. rewrite !andb_true_iff, !Z.leb_le in H. lia.
Qed.
Lemma iterline_first p : In p (iterline p p).
Proof. unfold iterline. apply in_or_app. right. now left. Qed.

(** ** the loops *)
(** a loop that joins each point to the last *)
Lemma join_seq (V : nat -> Q * Q) n : forall a w l,
  fold_left (fun (s : (Q * Q) * list (Z * Z)) k => (V k, snd s ++ iterline (roundvect (V k)) (roundvect (fst s)))) (seq a n) (w, l) =
  (match n with O => w | S m => V (a + m)%nat end,
   l ++ flat_map (fun k => iterline (roundvect (V k)) (roundvect (if (k =? a)%nat then w else V (k - 1)%nat))) (seq a n)).
Proof.
  induction n as [|n IH]; intros a w l; [cbn; now rewrite app_nil_r|]. cbn [seq fold_left fst snd flat_map]. rewrite IH. rewrite Nat.eqb_refl. f_equal.
  - destruct n; [now rewrite Nat.add_0_r|]. f_equal. lia.
  - rewrite <- app_assoc. f_equal. f_equal. rewrite !flat_map_concat_map. f_equal. apply map_ext_in. intros k Hk. apply in_seq in Hk.
    destruct (Nat.eqb_spec k (S a)); destruct (Nat.eqb_spec k a); try lia; try reflexivity. subst. replace (S a - 1)%nat with a by lia. reflexivity.
Qed.
Lemma skip_seq (V : nat -> Q * Q) n : forall a (w : Q * Q) (l : list (Z * Z)),
  fold_left (fun (s : (Q * Q) * list (Z * Z)) k => (V k, snd s)) (seq a n) (w, l) = (match n with O => w | S m => V (a + m)%nat end, l).
Proof.
  induction n as [|n IH]; intros a w l; [reflexivity|]. cbn [seq fold_left snd]. rewrite IH. f_equal. destruct n; [now rewrite Nat.add_0_r|]. f_equal. lia.
Qed.
Lemma fold_skip {A B} (f : A -> B -> A) l s : (forall x a, In x l -> f a x = a) -> fold_left f l s = s.
Proof. revert s. induction l as [|x l IH]; intros s H; [reflexivity|]. cbn [fold_left]. rewrite H by (cbn; auto). apply IH. intros. apply H. now right. Qed.

(** ** Bezier *)
Lemma plus2_fold (f : nat -> Q * Q) n : 
  let r := fold_left (fun v j => plus2 v (f j)) (seq 0 n) (0, 0) in
  fst r == qsum (fun j => fst (f j)) n /\ snd r == qsum (fun j => snd (f j)) n.
Proof.
  induction n as [|n [IH1 IH2]]; [split; reflexivity|]. cbv zeta in *. rewrite seq_S, fold_left_app. cbn [fold_left qsum]. rewrite Nat.add_0_l. unfold plus2 at 1 3. cbn [fst snd]. now rewrite IH1, IH2.
Qed.
Lemma bezierpoint_casteljau pnts n u :
  fst (bezierpoint pnts (S n) u) == casteljau (fun j => inject_Z (fst (nth j pnts (0, 0)%Z))) n u /\
  snd (bezierpoint pnts (S n) u) == casteljau (fun j => inject_Z (snd (nth j pnts (0, 0)%Z))) n u.
Proof.
  unfold bezierpoint. destruct (plus2_fold (fun j => scale2 (nth j pnts (0, 0)%Z) (bezierblend j (S n - 1) u)) (S n)) as [A B]. cbv zeta in A, B.
  replace (S n - 1)%nat with n in * by lia. rewrite A, B. unfold scale2. cbn [fst snd].
  split; [exact (bern (fun j => inject_Z (fst (nth j pnts (0, 0)%Z))) n u)|exact (bern (fun j => inject_Z (snd (nth j pnts (0, 0)%Z))) n u)].
Qed.
Lemma bezier_run pnts n : length pnts = S (S n) ->
  let K := (4 * S (S n))%nat in
  let V k := bezierpoint pnts (S n) (inject_Z (Z.of_nat k) / inject_Z (Z.of_nat K)) in
  let p0 := nth 0 pnts (0, 0)%Z in
  iterbeziercurve pnts = Ok (iterline (roundvect (V O)) p0 ++ flat_map (fun k => iterline (roundvect (V (S k))) (roundvect (V k))) (seq 0 (K - 1))).
Proof.
  intros L K V p0. assert (HE : exists p t, pnts = p :: t) by (clear - L; destruct pnts; [discriminate|eauto]). destruct HE as (p & t & Ep). unfold iterbeziercurve. rewrite Ep at 1. f_equal.
  rewrite L. rewrite (seq_S (S n)), fold_left_app. rewrite (fold_skip _ (seq 0 (S n))).
  2:{ intros i s Hi. apply in_seq in Hi. replace (S (S n) <=? i + 1)%nat with false; [reflexivity|]. symmetry. apply Nat.leb_gt. lia. }
  cbn [fold_left]. rewrite Nat.add_0_l. replace (S (S n) <=? S n + 1)%nat with true by (symmetry; apply Nat.leb_le; lia). fold K.
  match goal with |- context [fold_left ?f (seq 0 K) ?s0] =>
    change (fold_left f (seq 0 K) s0) with (fold_left (fun (s : (Q * Q) * list (Z * Z)) k => (V k, snd s ++ iterline (roundvect (V k)) (roundvect (fst s)))) (seq 0 K) s0) end.
  rewrite (join_seq V K 0). cbn [snd app]. assert (KK : K = S (K - 1)) by (unfold K; lia). rewrite KK at 1. cbn [seq flat_map]. rewrite Nat.eqb_refl. f_equal.
  - f_equal. unfold roundvect. cbn [fst snd]. rewrite !(nearest_integer (fst p)), !(nearest_integer (snd p)) by reflexivity. unfold p0. rewrite Ep. now destruct p.
  - rewrite <- seq_shift. rewrite !flat_map_concat_map, map_map. f_equal. apply map_ext. intros k. cbn [Nat.eqb]. now replace (S k - 1)%nat with k by lia.
Qed.

(** ** B-splines *)
Section Cox.
  Variable u : Q.
  Hypothesis U : 0 <= u < 1.
  Lemma cox_in i : i == 3 -> cox 0 i (3 + u) = 1.
  Proof.
    intros E. cbn [cox]. assert (A : Qle_bool i (3 + u) = true) by (apply Qle_bool_iff; lra). assert (B : Qle_bool (i + 1) (3 + u) = false).
    { destruct (Qle_bool (i + 1) (3 + u)) eqn:F; [apply Qle_bool_iff in F; lra|reflexivity]. }
    now rewrite A, B.
  Qed.
  Lemma cox_out i : i + 1 <= 3 \/ 4 <= i -> cox 0 i (3 + u) = 0.
  Proof.
    intros E. cbn [cox]. destruct (Qle_bool i (3 + u)) eqn:A; [|reflexivity]. apply Qle_bool_iff in A. assert (B : Qle_bool (i + 1) (3 + u) = true) by (apply Qle_bool_iff; lra). now rewrite B.
  Qed.
  Lemma cox_weights : let '(a, b, c, d) := bsplineblend u in
    a == cox 3 0 (3 + u) /\ b == cox 3 1 (3 + u) /\ c == cox 3 2 (3 + u) /\ d == cox 3 3 (3 + u).
  Proof.
    assert (R : forall k i, cox (S k) i (3 + u) = (3 + u - i) / inject_Z (Z.of_nat (S k)) * cox k i (3 + u) + (i + inject_Z (Z.of_nat (S k)) + 1 - (3 + u)) / inject_Z (Z.of_nat (S k)) * cox k (i + 1) (3 + u)) by reflexivity.
    unfold bsplineblend. rewrite !R.
    repeat match goal with |- context [cox 0 ?i (3 + u)] => first [rewrite (cox_in i) by lra | rewrite (cox_out i) by lra] end.
    cbn [Z.of_nat Pos.of_succ_nat Pos.succ]. change (inject_Z 1) with 1. change (inject_Z 2) with 2. change (inject_Z 3) with 3. repeat split; field.
  Qed.
End Cox.
Lemma blend_weights u : 0 <= u <= 1 -> let '(a, b, c, d) := bsplineblend u in 0 <= a /\ 0 <= b /\ 0 <= c /\ 0 <= d /\ a + b + c + d == 1.
Proof.
  intros [H1 H2]. unfold bsplineblend. set (e := 1 - u). assert (E : 0 <= e) by (unfold e; lra).
  assert (A : - (u * u * u / 6) + u * u / 2 - u / 2 + 1 / 6 == (1 # 6) * (e * e * e)) by (unfold e; field).
  assert (B : u * u * u / 2 - u * u + 2 / 3 == (1 # 6) * (u * u * u + 6 * (u * u * e) + 12 * (u * e * e) + 4 * (e * e * e))) by (unfold e; field).
  assert (C : (- (u * u * u) + u * u + u) / 2 + 1 / 6 == (1 # 6) * (e * e * e + 6 * (e * e * u) + 12 * (e * u * u) + 4 * (u * u * u))) by (unfold e; field).
  assert (D : u * u * u / 6 == (1 # 6) * (u * u * u)) by field.
  rewrite A, B, C, D. repeat split; try nn. unfold e. field.
Qed.

Section Spline.
  Variables (pnts : list (Z * Z)) (closed back : bool).
  Hypothesis NE : pnts <> [].
  Let cnt := length pnts.
  Let K := (4 * cnt)%nat.
  Definition piece (i k : nat) : Q * Q :=
    let '(a, b, c, d) := bsplineblend (inject_Z (Z.of_nat k) / inject_Z (Z.of_nat K)) in
    let at_ j := controlpoint pnts back (i + j) in
    plus2 (plus2 (plus2 (plus2 (0, 0) (scale2 (at_ 0%nat) a)) (scale2 (at_ 1%nat) b)) (scale2 (at_ 2%nat) c)) (scale2 (at_ 3%nat) d).
  Lemma piece_ext i i' k : (forall j, controlpoint pnts back (i + j) = controlpoint pnts back (i' + j)) -> piece i k = piece i' k.
  Proof. intros H. unfold piece. destruct (bsplineblend _) as [[[a b] c] d]. rewrite !H. reflexivity. Qed.
  Definition knot (m : nat) : Z * Z := roundvect (piece (Nat.div m K) (Nat.modulo m K)).
  Lemma K_pos : (4 <= K)%nat.
  Proof. unfold K, cnt. destruct pnts; [contradiction|]. cbn [length]. lia. Qed.
  Lemma knot_at i k : (k < K)%nat -> knot (i * K + k) = roundvect (piece i k).
  Proof.
    intros H. pose proof K_pos. unfold knot. rewrite Nat.div_add_l, Nat.div_small, Nat.add_0_r by lia.
    rewrite (Nat.add_comm (i * K) k), Nat.mod_add, Nat.mod_small by lia. reflexivity.
  Qed.
  Definition turn (s : (Q * Q) * list (Z * Z)) (i : nat) : (Q * Q) * list (Z * Z) :=
    fold_left (fun (s : (Q * Q) * list (Z * Z)) k =>
      (piece i k, if (1 <? i)%nat then snd s ++ iterline (roundvect (piece i k)) (roundvect (fst s)) else snd s)) (seq 0 K) s.
  Lemma turns n w : (2 <= n)%nat ->
    fold_left turn (seq 0 n) (w, []) = (piece (n - 1) (K - 1), flat_map (fun m => iterline (knot (S m)) (knot m)) (seq (2 * K - 1) ((n - 2) * K))).
  Proof.
    intros H. pose proof K_pos as KP. assert (KK : K = S (K - 1)) by lia. induction H as [|n H IH].
    - cbn [seq fold_left]. unfold turn. cbn [Nat.ltb Nat.leb]. rewrite (skip_seq (piece 0)), (skip_seq (piece 1)).
      replace (2 - 2)%nat with 0%nat by lia. cbn [Nat.mul seq flat_map]. destruct K as [|k]; [lia|]. replace (2 - 1)%nat with 1%nat by lia. do 2 f_equal; lia.
    - rewrite seq_S, fold_left_app, IH. cbn [fold_left]. rewrite Nat.add_0_l. unfold turn. replace (1 <? n)%nat with true by (symmetry; apply Nat.ltb_lt; lia).
      rewrite (join_seq (piece n)). f_equal.
      + destruct K as [|k]; [lia|]. rewrite Nat.add_0_l. f_equal; lia.
      + replace ((S n - 2) * K)%nat with ((n - 2) * K + K)%nat by (replace (S n - 2)%nat with (S (n - 2)) by lia; cbn [Nat.mul]; lia).
        rewrite seq_app, flat_map_app. f_equal. replace (2 * K - 1 + (n - 2) * K)%nat with (n * K - 1)%nat by nia.
        assert (G : forall q, (q <= K)%nat -> flat_map (fun k => iterline (roundvect (piece n k)) (roundvect (if (k =? 0)%nat then piece (n - 1) (K - 1) else piece n (k - 1)))) (seq 0 q) =
          flat_map (fun m => iterline (knot (S m)) (knot m)) (seq (n * K - 1) q)).
        { induction q as [|q IHq]; intros Hq; [reflexivity|]. rewrite !seq_S, !flat_map_app, IHq by lia. f_equal. cbn [flat_map]. rewrite !app_nil_r, Nat.add_0_l.
          replace (S (n * K - 1 + q))%nat with (n * K + q)%nat by nia. rewrite knot_at by lia. f_equal.
          destruct q as [|q]; cbn [Nat.eqb].
          - replace (n * K - 1 + 0)%nat with ((n - 1) * K + (K - 1))%nat by nia. now rewrite knot_at by lia.
          - replace (n * K - 1 + S q)%nat with (n * K + q)%nat by nia. rewrite knot_at by lia. now replace (S q - 1)%nat with q by lia. }
        apply G. lia.
  Qed.
  Lemma turns_few n w : (n <= 2)%nat -> snd (fold_left turn (seq 0 n) (w, [])) = [].
  Proof.
    intros H. assert (D : (n = 0 \/ n = 1 \/ n = 2)%nat) by lia. destruct D as [D|[D|D]]; subst n; [reflexivity| |]; cbn [seq fold_left]; unfold turn; cbn [Nat.ltb Nat.leb].
    - now rewrite (skip_seq (piece 0)).
    - now rewrite (skip_seq (piece 0)), (skip_seq (piece 1)).
  Qed.
  Lemma spline_run : iterbspline pnts closed back =
    Ok (flat_map (fun m => iterline (knot (S m)) (knot m)) (seq (2 * K - 1) ((cnt + (if closed then 2 else 0) - 2) * K))).
  Proof.
    assert (HE : exists p t, pnts = p :: t) by (clear - NE; destruct pnts; [contradiction|eauto]). destruct HE as (p & t & Ep).
    unfold iterbspline. rewrite Ep at 1. f_equal. fold cnt K.
    match goal with |- snd (fold_left ?f ?l ?s0) = _ => change (fold_left f l s0) with (fold_left turn l s0) end.
    destruct (le_lt_dec 2 (cnt + (if closed then 2 else 0))) as [L|L].
    - now rewrite turns.
    - rewrite turns_few by lia. replace (cnt + (if closed then 2 else 0) - 2)%nat with 0%nat by lia. reflexivity.
  Qed.
  Lemma frac k : (k < K)%nat -> 0 <= inject_Z (Z.of_nat k) / inject_Z (Z.of_nat K) < 1.
  Proof.
    intros H. pose proof K_pos. assert (P : 0 < inject_Z (Z.of_nat K)) by (unfold Qlt; cbn; lia). split.
    - apply Qle_shift_div_l; [exact P|]. rewrite Qmult_0_l. unfold Qle, inject_Z. cbn [Qnum Qden]. lia.
    - apply Qlt_shift_div_r; [exact P|]. rewrite Qmult_1_l. unfold Qlt, inject_Z. cbn [Qnum Qden]. lia.
  Qed.
  Lemma piece_cox i k (f : Z * Z -> Z) (g : Q * Q -> Q) : ((f = fst /\ g = fst) \/ (f = snd /\ g = snd)) -> (k < K)%nat ->
    g (piece i k) == qsum (fun j => cox 3 (inject_Z (Z.of_nat j)) (3 + inject_Z (Z.of_nat k) / inject_Z (Z.of_nat K)) * inject_Z (f (controlpoint pnts back (i + j)))) 4.
  Proof.
    intros FG H. pose proof (frac k H) as U. unfold piece. set (u := inject_Z (Z.of_nat k) / inject_Z (Z.of_nat K)) in *. pose proof (cox_weights u U) as W.
    destruct (bsplineblend u) as [[[a b] c] d]. destruct W as (Wa & Wb & Wc & Wd). cbn [qsum Z.of_nat Pos.of_succ_nat Pos.succ].
    change (inject_Z 0) with 0. change (inject_Z 1) with 1. change (inject_Z 2) with 2. change (inject_Z 3) with 3. rewrite <- Wa, <- Wb, <- Wc, <- Wd.
    destruct FG as [[-> ->]|[-> ->]]; unfold plus2, scale2; cbn [fst snd]; ring.
  Qed.
  Lemma piece_between i k (f : Z * Z -> Z) (g : Q * Q -> Q) lo hi : ((f = fst /\ g = fst) \/ (f = snd /\ g = snd)) -> (k < K)%nat ->
    (forall j, (j < 4)%nat -> lo <= inject_Z (f (controlpoint pnts back (i + j))) <= hi) -> lo <= g (piece i k) <= hi.
  Proof.
    intros FG H B. pose proof (frac k H) as U. unfold piece. set (u := inject_Z (Z.of_nat k) / inject_Z (Z.of_nat K)) in *.
    pose proof (blend_weights u ltac:(lra)) as W. destruct (bsplineblend u) as [[[a b] c] d]. destruct W as (Wa & Wb & Wc & Wd & W).
    pose proof (B 0%nat ltac:(lia)) as B0. pose proof (B 1%nat ltac:(lia)) as B1. pose proof (B 2%nat ltac:(lia)) as B2. pose proof (B 3%nat ltac:(lia)) as B3.
    assert (G : lo <= inject_Z (f (controlpoint pnts back (i + 0))) * a + inject_Z (f (controlpoint pnts back (i + 1))) * b + inject_Z (f (controlpoint pnts back (i + 2))) * c + inject_Z (f (controlpoint pnts back (i + 3))) * d <= hi).
    { set (x0 := inject_Z (f (controlpoint pnts back (i + 0)))) in *. set (x1 := inject_Z (f (controlpoint pnts back (i + 1)))) in *.
      set (x2 := inject_Z (f (controlpoint pnts back (i + 2)))) in *. set (x3 := inject_Z (f (controlpoint pnts back (i + 3)))) in *.
      assert (M : forall x w, 0 <= w -> lo <= x <= hi -> lo * w <= x * w <= hi * w) by (intros; nra).
      pose proof (M x0 a Wa B0). pose proof (M x1 b Wb B1). pose proof (M x2 c Wc B2). pose proof (M x3 d Wd B3).
      assert (S1 : lo * a + lo * b + lo * c + lo * d == lo) by (rewrite <- (Qmult_1_r lo) at 5; rewrite <- W; ring).
      assert (S2 : hi * a + hi * b + hi * c + hi * d == hi) by (rewrite <- (Qmult_1_r hi) at 5; rewrite <- W; ring). lra. }
    destruct FG as [[-> ->]|[-> ->]]; unfold plus2, scale2; cbn [fst snd]; lra.
  Qed.
End Spline.
