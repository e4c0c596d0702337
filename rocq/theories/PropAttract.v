(** Property C134: attractors. *)
From Coq Require Import ZArith Reals List Bool Lia Lra Psatz Ring.
From Verif Require Import PyBase PyFacts Spec SpecShapes Bmp Region Geometry MathLib Files Fractal Concrete Coords RealProofs Sweeps Cplx Escape EscapeProofs PropFractal2 PropEscape Attract.
Import ListNotations.
Open Scope R_scope.

(** the points F s, F (F s), ... *)
Definition orbit_list (F : R * R -> R * R) (s : R * R) (n : Z) : list (R * R) := map (fun i => Nat.iter (S i) F s) (seq 0 (Z.to_nat n)).
Lemma passes_iter {A} (step : A -> A) n s : passes step n s = map (fun i => Nat.iter (S i) step s) (seq 0 n).
Proof.
  revert s. induction n as [|n IH]; intros s; [reflexivity|]. cbn [passes seq map]. f_equal. rewrite IH, <- seq_shift, map_map. apply map_ext. intros i. symmetry. rewrite <- iter_shift. reflexivity.
Qed.
Lemma passes_proj {A} (phi : A -> R * R) (step : A -> A) F n s : (forall s, phi (step s) = F (phi s)) -> map phi (passes step n s) = map (fun i => Nat.iter (S i) F (phi s)) (seq 0 n).
Proof.
  intros H. rewrite passes_iter, map_map. apply map_ext. intros i. induction i as [|i IH]; [apply H|]. rewrite (iter_S step), H, IH. reflexivity.
Qed.
Lemma map_ext_seq {A} (f g : nat -> A) n : (forall i, f i = g i) -> map f (seq 0 n) = map g (seq 0 n).
Proof. intros H. now apply map_ext. Qed.

(** ** C134 *)
Definition bump (a x : R) : R := a * x + 2 * (1 - a) * x ^ 2 / (1 + x ^ 2) ^ 2.
Definition ikeda_map (a b k p : R) (z : R * R) : R * R :=
  let t := k - p / (1 + fst z ^ 2 + snd z ^ 2) in (a + b * (fst z * cos t - snd z * sin t), b * (fst z * sin t + snd z * cos t)).
Lemma ikeda_eq a b k p z : ikedastep a b k p z = ikeda_map a b k p z.
Proof.
  unfold ikedastep, ikeda_map. assert (N : cabs (cmul z z) = fst z ^ 2 + snd z ^ 2) by (rewrite cabs_mul, cabs_sq; unfold norm2, re, im; ring). rewrite N.
  replace (1 + fst z ^ 2 + snd z ^ 2) with (1 + (fst z ^ 2 + snd z ^ 2)) by ring.
  assert (P : 0 <= fst z ^ 2 + snd z ^ 2) by (simpl; nra). set (u := fst z ^ 2 + snd z ^ 2) in *. clearbody u.
  replace (csub (cmul cI (rtoc k)) (cmul (cmul cI (rtoc p)) (cinv (rtoc (1 + u))))) with ((0, k - p / (1 + u)) : C).
  2:{ apply c_ext; unfold csub, cmul, cI, rtoc, cinv, norm2, re, im; cbn [fst snd]; field; nra. }
  unfold cexp, cadd, cmul, rtoc, re, im. cbn [fst snd]. rewrite exp_0. f_equal; ring.
Qed.
Theorem C134_orbits : forall a b c d k p x y n, (0 <= n)%Z ->
  ikedaattractorlist a b k p n = orbit_list (ikeda_map a b k p) (0, 0) n /\
  nattractorlist a b c d n = orbit_list (fun z => let x' := a * sin (a * snd z) + b * cos (b * fst z) in (x', c * sin (c * x') + d * cos (d * snd z))) (0, 0) n /\
  gumowskimiraattractorlist x y a b n = orbit_list (fun z => let x' := b * snd z + bump a (fst z) in (x', bump a x' - fst z)) (x, y) n /\
  peterdejongattractorlist a b c d n = orbit_list (fun z => (sin (a * snd z) - cos (b * fst z), sin (c * fst z) - cos (d * snd z))) (0, 0) n /\
  cliffordattractorlist a b c d n = orbit_list (fun z => (sin (a * snd z) + c * cos (a * fst z), sin (b * fst z) + d * cos (b * snd z))) (0, 0) n /\
  fractaldreamattractorlist a b c d n = orbit_list (fun z => (sin (b * snd z) + c * sin (b * fst z), sin (a * fst z) + d * sin (a * snd z))) (1 / 10, 1 / 10) n /\
  hopalongattractorlist a b c n =
    orbit_list (fun z => (snd z - (if Rlt_dec 0 (fst z) then 1 else if Rlt_dec (fst z) 0 then -1 else 0) * sqrt (Rabs (b * fst z - c)), a - fst z)) (0, 0) n.
Proof.
  intros a b c d k p x y n N. unfold orbit_list.
  split; [unfold ikedaattractorlist; rewrite passes_iter; apply map_ext; intros i; apply iter_ext, ikeda_eq|]. split; [unfold nattractorlist; now rewrite passes_iter|].
  split.
  { assert (B : forall u, gumowskif a u = bump a u). { intros u. unfold gumowskif, bump. field. simpl. nra. }
    unfold gumowskimiraattractorlist. set (F := fun z : R * R => let x' := b * snd z + bump a (fst z) in (x', bump a x' - fst z)).
    rewrite passes_iter, map_map. apply map_ext. intros i.
    assert (K : forall j, Nat.iter j (fun s : R * R * R => let '(x, y, g) := s in let x' := b * y + g in let g' := gumowskif a x' in (x', g' - x, g')) (x, y, gumowskif a x) =
      (fst (Nat.iter j F (x, y)), snd (Nat.iter j F (x, y)), bump a (fst (Nat.iter j F (x, y))))).
    { induction j as [|j IH]; [now rewrite B|]. rewrite !iter_S, IH. unfold F at 5 6 7. cbv zeta. cbn [fst snd]. now rewrite B. }
    rewrite K. cbn [fst]. destruct (Nat.iter (S i) F (x, y)); reflexivity. }
  split; [unfold peterdejongattractorlist; now rewrite passes_iter|]. split; [unfold cliffordattractorlist; now rewrite passes_iter|]. split; [unfold fractaldreamattractorlist; now rewrite passes_iter|].
  unfold hopalongattractorlist. rewrite passes_iter. apply map_ext. intros i. apply iter_ext. intros z. now rewrite rsign_eq.
Qed.
(** Duffing's oscillator x'' = x - x^3 - a x' + b cos(w t) in steps of dt *)
Theorem C134_duffing : forall x y t dt a b w n, (0 <= n)%Z -> exists u : nat -> R * R, u O = (x, y) /\
  (forall i, let (p, v) := u i in u (S i) = (p + v * dt, v + (p - p ^ 3 - a * v + b * cos (w * (t + INR i * dt))) * dt)) /\
  duffingattractorlist x y t dt a b w n = map u (seq 1 (Z.to_nat n)).
Proof.
  intros x y t dt a b w n N. unfold duffingattractorlist. set (step := fun s : R * R * R => _).
  exists (fun i => fst (Nat.iter i step (x, y, t))). split; [reflexivity|].
  assert (T : forall i, snd (Nat.iter i step (x, y, t)) = t + INR i * dt).
  { induction i as [|i IH]; [cbn; ring|]. rewrite iter_S, S_INR. destruct (Nat.iter i step (x, y, t)) as [[p v] s]. cbn [snd] in IH. unfold step. cbn [snd]. rewrite IH. ring. }
  split.
  - intros i. specialize (T i). rewrite iter_S. destruct (Nat.iter i step (x, y, t)) as [[p v] s]. cbn [fst snd] in *. subst s. reflexivity.
  - rewrite passes_iter, map_map, <- seq_shift, map_map. reflexivity.
Qed.
(** Bounds *)
Lemma orbit_in F s n z : In z (orbit_list F s n) -> exists u, z = F u.
Proof. unfold orbit_list. intros H. apply in_map_iff in H. destruct H as (i & <- & _). rewrite iter_S. eexists. reflexivity. Qed.
Lemma bound2 u v c : -1 <= u <= 1 -> -1 <= v <= 1 -> Rabs (u + c * v) <= 1 + Rabs c.
Proof.
  intros U V. eapply Rle_trans; [apply Rabs_triang|]. rewrite Rabs_mult. assert (Rabs u <= 1) by (apply Rabs_le; lra). assert (Rabs v <= 1) by (apply Rabs_le; lra). pose proof (Rabs_pos c). nra.
Qed.
Lemma bound3 a b u v : -1 <= u <= 1 -> -1 <= v <= 1 -> Rabs (a * u + b * v) <= Rabs a + Rabs b.
Proof.
  intros U V. eapply Rle_trans; [apply Rabs_triang|]. rewrite !Rabs_mult. assert (Rabs u <= 1) by (apply Rabs_le; lra). assert (Rabs v <= 1) by (apply Rabs_le; lra). pose proof (Rabs_pos a). pose proof (Rabs_pos b). nra.
Qed.
Theorem C134_bounds : forall a b c d n x y, (0 <= n)%Z ->
  (In (x, y) (nattractorlist a b c d n) -> Rabs x <= Rabs a + Rabs b /\ Rabs y <= Rabs c + Rabs d) /\
  (In (x, y) (peterdejongattractorlist a b c d n) -> Rabs x <= 2 /\ Rabs y <= 2) /\
  (In (x, y) (cliffordattractorlist a b c d n) -> Rabs x <= 1 + Rabs c /\ Rabs y <= 1 + Rabs d) /\
  (In (x, y) (fractaldreamattractorlist a b c d n) -> Rabs x <= 1 + Rabs c /\ Rabs y <= 1 + Rabs d).
Proof.
  intros a b c d n x y N. destruct (C134_orbits a b c d 0 0 0 0 n N) as (_ & E1 & _ & E2 & E3 & E4 & _). rewrite E1, E2, E3, E4.
  pose proof SIN_bound as SB. pose proof COS_bound as CB.
  split; [|split; [|split]]; intros H; apply orbit_in in H; destruct H as ([p q] & E); injection E as -> ->; split; cbn [fst snd]; try (apply bound2; [apply SB|first [apply SB|apply CB]]); try (apply bound3; [apply SB|apply CB]).
  all: match goal with |- Rabs (sin ?u - cos ?v) <= 2 => pose proof (SB u); pose proof (CB v); apply Rabs_le; lra end.
Qed.
Theorem C134_ikeda_bound : forall a b k p n z, (0 <= n)%Z -> Rabs b < 1 -> In z (ikedaattractorlist a b k p n) -> sqrt (sqnorm z) <= Rabs a / (1 - Rabs b).
Proof.
  intros a b k p n z N B H. unfold ikedaattractorlist in H. rewrite passes_iter in H. apply in_map_iff in H. destruct H as (i & <- & _). change (cabs (Nat.iter (S i) (ikedastep a b k p) (0, 0)) <= Rabs a / (1 - Rabs b)).
  assert (D : 0 < 1 - Rabs b) by lra. assert (K : Rabs a + Rabs b * (Rabs a / (1 - Rabs b)) = Rabs a / (1 - Rabs b)) by (field; lra).
  assert (P0 : 0 <= Rabs a / (1 - Rabs b)) by (apply Rmult_le_pos; [apply Rabs_pos|left; now apply Rinv_0_lt_compat]).
  assert (G : forall j, cabs (Nat.iter j (ikedastep a b k p) (0, 0)) <= Rabs a / (1 - Rabs b)).
  { induction j as [|j IH]; [cbn [Nat.iter nat_rect]; rewrite cabs_0; exact P0|]. rewrite iter_S. set (u := Nat.iter j (ikedastep a b k p) (0, 0)) in *. clearbody u. rewrite ikeda_eq. unfold ikeda_map.
    set (t := k - _). clearbody t. match goal with |- cabs ?w <= _ => replace w with (cadd (rtoc a) (cmul (cmul (rtoc b) u) (cos t, sin t))) by (destruct u as [u1 u2]; cring) end.
    eapply Rle_trans; [apply cabs_triangle|]. rewrite !cabs_mul, !cabs_real. assert (C1 : cabs (cos t, sin t) = 1).
    { unfold cabs, norm2, re, im. cbn [fst snd]. pose proof (sin2_cos2 t) as S. unfold Rsqr in S. replace (cos t * cos t + sin t * sin t) with 1 by lra. apply sqrt_1. }
    rewrite C1. pose proof (Rabs_pos b). nra. }
  apply G.
Qed.
(** Symmetric icons *)
Definition icon_map (a b g o l : R) (d : nat) (z : R * R) : R * R :=
  let s := l + a * sqnorm z + b * fst (power z d) in
  plus (plus (times (s, 0) z) (times (g, 0) (power (mirror z) (d - 1)))) (times (0, - o) (mirror z)).
Lemma icon_eq a b g o l d z : (1 <= d)%Z -> iconstep a b g o l d z = Ok (icon_map a b g o l (Z.to_nat d) z).
Proof.
  intros D. unfold iconstep. rewrite cpow_nonneg by lia. cbn [rbind]. f_equal. unfold icon_map. rewrite !power_eq. change (mirror z) with (cconj z). rewrite <- cconj_pown.
  replace (Z.to_nat (d - 1)) with (Z.to_nat d - 1)%nat by lia. destruct (Z.to_nat d) as [|n] eqn:E; [lia|]. replace (S n - 1)%nat with n by lia. cbn [cpown].
  replace (cabs (cmul z (cconj z))) with (sqnorm z) by (rewrite cabs_mul, cabs_conj, cabs_sq; reflexivity). set (p := cpown z n). unfold sqnorm, plus, times, mirror, cconj, csub, cadd, cmul, rtoc, cI, re, im. cbn [fst snd]. f_equal; ring.
Qed.
Lemma icon_list step F n : (forall z, step z = Ok (F z)) -> forall z, iconpasses step n z = Ok (passes F n z).
Proof. intros H. induction n as [|n IH]; intros z; [reflexivity|]. cbn [iconpasses passes]. rewrite H. cbn [rbind]. rewrite IH. reflexivity. Qed.
Theorem C134_icon : forall x y a b g o l d n, (1 <= d)%Z -> (0 <= n)%Z ->
  symmetriciconattractorlist x y a b g o l d n = Ok (orbit_list (icon_map a b g o l (Z.to_nat d)) (x, y) n).
Proof.
  intros x y a b g o l d n D N. unfold symmetriciconattractorlist. rewrite (icon_list _ (icon_map a b g o l (Z.to_nat d)) _ (fun z => icon_eq a b g o l d z D)). f_equal. unfold orbit_list. apply passes_iter.
Qed.
(** With a negative power the origin raises ZeroDivisionError. *)
Theorem C134_icon_singular : forall a b g o l d n, (d < 1)%Z -> (0 < n)%Z -> symmetriciconattractorlist 0 0 a b g o l d n = Err ZeroDivisionError.
Proof.
  intros a b g o l d n D N. unfold symmetriciconattractorlist. destruct (Z.to_nat n) as [|k] eqn:E; [lia|]. cbn [iconpasses]. unfold iconstep, cpow. replace (d - 1 <? 0)%Z with true by (symmetry; apply Z.ltb_lt; lia).
  replace (ceq (0, 0) (0, 0)) with true by (symmetry; now apply ceq_spec). reflexivity.
Qed.
Lemma orbit_phi (phi F : R * R -> R * R) s n : (forall z, F (phi z) = phi (F z)) -> orbit_list F (phi s) n = map phi (orbit_list F s n).
Proof.
  intros H. unfold orbit_list. rewrite map_map. apply map_ext. intros i. induction i as [|i IH]; [apply H|]. rewrite iter_S, IH, H. reflexivity.
Qed.
Lemma unit_inverse (w : C) n : cmul w (cpown w n) = rtoc 1 -> cpown w n = cconj w.
Proof.
  intros W. assert (W1 : cabs w = 1) by (apply (root_abs w (S n)); [lia|exact W]).
  assert (U : cmul w (cconj w) = rtoc 1). { pose proof (cabs_sq w) as Q. rewrite W1 in Q. unfold norm2, re, im in Q. apply c_ext; unfold cmul, cconj, rtoc, re, im; cbn [fst snd]; lra. }
  transitivity (cmul (cmul w (cconj w)) (cpown w n)); [rewrite U; ring|]. transitivity (cmul (cmul w (cpown w n)) (cconj w)); [ring|]. rewrite W. ring.
Qed.
Lemma icon_rotates a b g o l n (w z : C) : cmul w (cpown w n) = rtoc 1 -> o = 0 \/ cconj w = w ->
  icon_map a b g o l (S n) (cmul w z) = cmul w (icon_map a b g o l (S n) z) :> C.
Proof.
  intros W O. pose proof (unit_inverse w n W) as V. assert (W1 : cabs w = 1) by (apply (root_abs w (S n)); [lia|exact W]). unfold icon_map. rewrite !power_eq. replace (S n - 1)%nat with n by lia.
  change (mirror (cmul w z)) with (cconj (cmul w z)). change (mirror z) with (cconj z). rewrite !cconj_mul, !cpown_mul. replace (cpown (cconj w) n) with w.
  2:{ rewrite <- cconj_pown, V. symmetry. apply cconj_conj. }
  replace (cpown w (S n)) with (rtoc 1) by (symmetry; exact W). replace (sqnorm (cmul w z)) with (sqnorm z).
  2:{ change (norm2 z = norm2 (cmul w z)). rewrite norm2_mul, <- (cabs_sq w), W1. ring. }
  replace (cmul (rtoc 1) (cpown z (S n))) with (cpown z (S n)) by ring. set (s := l + _ + _). clearbody s. change plus with cadd. change times with cmul. change ((s, 0) : C) with (rtoc s). change ((g, 0) : C) with (rtoc g).
  destruct O as [-> | O].
  - replace ((0, - 0) : C) with ((0, 0) : C) by (f_equal; ring). match goal with |- ?a = ?b => change (@eq C a b) end. ring.
  - rewrite O. match goal with |- ?a = ?b => change (@eq C a b) end. ring.
Qed.
Theorem C134_icon_rotation : forall w x y a b g o l d n, (1 <= d)%Z -> (0 <= n)%Z -> power w (Z.to_nat d) = (1, 0) -> o = 0 \/ mirror w = w ->
  let '(x', y') := times w (x, y) in
  exists v, symmetriciconattractorlist x y a b g o l d n = Ok v /\ symmetriciconattractorlist x' y' a b g o l d n = Ok (map (times w) v).
Proof.
  intros w x y a b g o l d n D N W O. destruct (times w (x, y)) as [x' y'] eqn:E. rewrite !C134_icon by assumption. eexists. split; [reflexivity|]. f_equal. rewrite <- E.
  apply (orbit_phi (times w)). intros z. rewrite power_eq in W. destruct (Z.to_nat d) as [|k] eqn:K; [lia|]. exact (icon_rotates a b g o l k w z W O).
Qed.
Theorem C134_icon_rotation_refuted : exists w x y o, power w 3 = (1, 0) /\ let '(x', y') := times w (x, y) in
  exists v, symmetriciconattractorlist x y 0 0 0 o 0 3 1 = Ok v /\ symmetriciconattractorlist x' y' 0 0 0 o 0 3 1 <> Ok (map (times w) v).
Proof.
  assert (S3 : sqrt 3 * sqrt 3 = 3) by (apply sqrt_sqrt; lra). pose proof (sqrt_lt_R0 3 ltac:(lra)) as P.
  exists (-1 / 2, sqrt 3 / 2), 1, 0, 1. set (t := sqrt 3) in *. clearbody t. split.
  - unfold power, times. cbn [Nat.iter nat_rect fst snd]. f_equal; [|match goal with |- ?x = 0 => replace x with (t * (3 - t * t) / 8) by field end; rewrite S3; field].
    + replace (-1 / 2 * (-1 / 2 * (-1 / 2 * 1 - t / 2 * 0) - t / 2 * (-1 / 2 * 0 + t / 2 * 1)) - t / 2 * (-1 / 2 * (-1 / 2 * 0 + t / 2 * 1) + t / 2 * (-1 / 2 * 1 - t / 2 * 0))) with (- (1 / 8) + 3 * (t * t) / 8) by field. rewrite S3. field.
  - destruct (times (-1 / 2, t / 2) (1, 0)) as [x' y'] eqn:E. rewrite !C134_icon by lia. eexists. split; [reflexivity|]. rewrite <- E. intros H. injection H as H1 _.
    unfold icon_map, plus, times, mirror, sqnorm in H1. cbn [fst snd] in H1. lra.
Qed.
Theorem C134_icon_mirror : forall x y a b g l d n, (1 <= d)%Z -> (0 <= n)%Z ->
  exists v, symmetriciconattractorlist x y a b g 0 l d n = Ok v /\ symmetriciconattractorlist x (- y) a b g 0 l d n = Ok (map mirror v).
Proof.
  intros x y a b g l d n D N. rewrite !C134_icon by assumption. eexists. split; [reflexivity|]. f_equal. change (x, - y) with (mirror (x, y)). apply (orbit_phi mirror). intros z.
  unfold icon_map. rewrite !power_eq. change mirror with cconj. rewrite <- !cconj_pown, cconj_conj. change (fst (cconj (cpown z (Z.to_nat d)))) with (fst (cpown z (Z.to_nat d))).
  replace (sqnorm (cconj z)) with (sqnorm z) by (unfold sqnorm, cconj, re, im; cbn [fst snd]; ring). set (s := l + _ + _). clearbody s. set (p := cpown z _). clearbody p.
  unfold plus, times, cconj, re, im. cbn [fst snd]. f_equal; ring.
Qed.
(** Pictures: the brightness of a pixel is the number of points in its cell, between the smallest and the
    largest number of points in a cell. *)
(** z is in the k-th of the intervals of length (high - low) / (bins - 1) from low on *)
Definition in_cell (low high : R) (bins k : Z) (z : R) : Prop :=
  low + IZR k * ((high - low) / IZR (bins - 1)) <= z < low + IZR (k + 1) * ((high - low) / IZR (bins - 1)).
Definition extremes (l : list R) (low high : R) : Prop := In low l /\ In high l /\ forall z, In z l -> low <= z <= high.
(** counts l P n: n of the items have the property P *)
Inductive counts {A} (P : A -> Prop) : list A -> Z -> Prop :=
  | counts_nil : counts P [] 0
  | counts_yes a l n : P a -> counts P l n -> counts P (a :: l) (n + 1)
  | counts_no a l n : ~ P a -> counts P l n -> counts P (a :: l) n.
Lemma fold_rmin l : forall a, In (fold_left Rmin l a) (a :: l) /\ forall z, In z (a :: l) -> fold_left Rmin l a <= z.
Proof.
  induction l as [|b l IH]; intros a; cbn [fold_left]; [split; [now left|intros z [<-|[]]; lra]|]. destruct (IH (Rmin a b)) as (A & B). split.
  - destruct A as [A|A]; [|right; now right]. rewrite <- A. unfold Rmin. destruct (Rle_dec a b); [now left|right; now left].
  - intros z Z0. assert (K : fold_left Rmin l (Rmin a b) <= Rmin a b) by (apply B; now left). destruct Z0 as [<-|[<-|Z0]]; [pose proof (Rmin_l a b); lra|pose proof (Rmin_r a b); lra|]. apply B. now right.
Qed.
Lemma fold_rmax l : forall a, In (fold_left Rmax l a) (a :: l) /\ forall z, In z (a :: l) -> z <= fold_left Rmax l a.
Proof.
  induction l as [|b l IH]; intros a; cbn [fold_left]; [split; [now left|intros z [<-|[]]; lra]|]. destruct (IH (Rmax a b)) as (A & B). split.
  - destruct A as [A|A]; [|right; now right]. rewrite <- A. unfold Rmax. destruct (Rle_dec a b); [right; now left|now left].
  - intros z Z0. assert (K : Rmax a b <= fold_left Rmax l (Rmax a b)) by (apply B; now left). destruct Z0 as [<-|[<-|Z0]]; [pose proof (Rmax_l a b); lra|pose proof (Rmax_r a b); lra|]. apply B. now right.
Qed.
Lemma extremes_unique l a b a' b' : extremes l a b -> extremes l a' b' -> a = a' /\ b = b'.
Proof. intros (A1 & A2 & A3) (B1 & B2 & B3). pose proof (A3 _ B1). pose proof (A3 _ B2). pose proof (B3 _ A1). pose proof (B3 _ A2). lra. Qed.
Lemma bounds_ok v : v <> [] -> exists x0 x1 y0 y1, rdomainbounds v = Ok (x0, x1, y0, y1) /\ extremes (map fst v) x0 x1 /\ extremes (map snd v) y0 y1.
Proof.
  intros N. destruct v as [|p v]; [contradiction|]. unfold rdomainbounds. cbn [map rminlist rmaxlist rbind]. do 4 eexists. split; [reflexivity|].
  destruct (fold_rmin (map fst v) (fst p)) as (A1 & A2), (fold_rmax (map fst v) (fst p)) as (B1 & B2), (fold_rmin (map snd v) (snd p)) as (C1 & C2), (fold_rmax (map snd v) (snd p)) as (D1 & D2).
  split; (split; [assumption|split; [assumption|]]); intros z Z0; split; auto.
Qed.
Lemma cell_of low high bins z : (1 < bins)%Z -> low < high -> low <= z <= high -> let s := (high - low) / IZR (bins - 1) in
  0 < s /\ (0 <= rtrunc ((z - low) / s) < bins)%Z /\ forall k, in_cell low high bins k z <-> rtrunc ((z - low) / s) = k.
Proof.
  intros B L Z0 s. assert (BR : 0 < IZR (bins - 1)) by (apply IZR_lt; lia). assert (S0 : 0 < s) by (apply Rdiv_lt_0_compat; lra). split; [exact S0|].
  set (q := (z - low) / s). assert (QE : z - low = q * s) by (unfold q; field; lra). assert (Q0 : 0 <= q) by (unfold q; apply Rmult_le_pos; [lra|left; now apply Rinv_0_lt_compat]).
  assert (SE : high - low = s * IZR (bins - 1)) by (unfold s; field; lra). assert (Q1 : q <= IZR (bins - 1)) by (apply Rmult_le_reg_r with s; [exact S0|]; lra).
  unfold rtrunc. destruct (rlt q 0) eqn:E; [apply rlt_iff in E; lra|]. clear E. pose proof (base_Int_part q) as (P1 & P2). split.
  - split; [apply le_IZR; assert (-1 < IZR (Int_part q)) by lra; apply (lt_IZR (-1)) in H; apply IZR_le; lia|]. assert (IZR (Int_part q) <= IZR (bins - 1)) by lra. apply le_IZR in H. lia.
  - intros k. unfold in_cell. fold s. rewrite plus_IZR. split.
    + intros (A1 & A2). apply int_unique. split; apply Rnot_lt_le || apply Rnot_le_lt; intros H; nra.
    + intros <-. split; nra.
Qed.
Lemma counts_at (cell : R * R -> Z * Z) (P : Z -> Z -> R * R -> Prop) x y l : (forall z, In z l -> (P x y z <-> cell z = (x, y))) -> counts (P x y) l (count_at (map cell l) x y).
Proof.
  induction l as [|a l IH]; intros H; [apply counts_nil|]. specialize (IH (fun z Z0 => H z (or_intror Z0))). specialize (H a (or_introl eq_refl)). unfold count_at in *. cbn [map filter].
  destruct ((fst (cell a) =? x) && (snd (cell a) =? y))%Z eqn:E.
  - apply andb_true_iff in E. destruct E as (E1 & E2). apply Z.eqb_eq in E1, E2. replace (zlen (cell a :: filter (fun p => ((fst p =? x) && (snd p =? y))%Z) (map cell l))) with (zlen (filter (fun p => ((fst p =? x) && (snd p =? y))%Z) (map cell l)) + 1)%Z by (unfold zlen; cbn [length]; lia).
    apply counts_yes; [|exact IH]. apply H. destruct (cell a). cbn in *. congruence.
  - apply counts_no; [|exact IH]. intros Q. apply H in Q. rewrite Q in E. cbn [fst snd] in E. rewrite !Z.eqb_refl in E. discriminate.
Qed.
Lemma counts_unique {A} (P : A -> Prop) l n m : counts P l n -> counts P l m -> n = m.
Proof. intros H. revert m. induction H; intros m M; inversion M; subst; try contradiction; [reflexivity|f_equal; auto|auto]. Qed.
(** What a picture of the points v is *)
Definition shows_points (v : list (R * R)) (w h bits : Z) (b : list Z) : Prop := wf b w h bits /\
  exists x0 x1 y0 y1 lo hi, extremes (map fst v) x0 x1 /\ extremes (map snd v) y0 y1 /\ (lo < hi)%Z /\
    let cell x y n := counts (fun z => in_cell x0 x1 w x (fst z) /\ in_cell y0 y1 h y (snd z)) v n in
    (exists x y, inside w h x y /\ cell x y lo) /\ (exists x y, inside w h x y /\ cell x y hi) /\
    forall x y, inside w h x y -> exists n, cell x y n /\ (lo <= n <= hi)%Z /\
      IZR (pixel b w h bits x y) <= IZR (n - lo) * (IZR (2 ^ bits - 1) / IZR (hi - lo)) < IZR (pixel b w h bits x y) + 1.
Lemma scale_ok m d v : (0 < m)%Z -> (0 < d)%Z -> (0 <= v <= d)%Z -> (0 <= rscale m d v < m)%Z /\ IZR (rscale m d v) <= IZR v * (IZR (m - 1) / IZR d) < IZR (rscale m d v) + 1.
Proof.
  intros M D V. unfold rscale. assert (DR : 0 < IZR d) by now apply IZR_lt. assert (MR : 0 <= IZR (m - 1)) by (apply IZR_le; lia). assert (V0 : 0 <= IZR v) by (apply IZR_le; lia). assert (V1 : IZR v <= IZR d) by (apply IZR_le; lia).
  set (q := IZR v * (IZR (m - 1) / IZR d)). assert (QE : q * IZR d = IZR v * IZR (m - 1)) by (unfold q; field; lra). assert (Q0 : 0 <= q) by (unfold q; apply Rmult_le_pos; [exact V0|apply Rmult_le_pos; [exact MR|left; now apply Rinv_0_lt_compat]]).
  assert (Q1 : q <= IZR (m - 1)). { apply Rmult_le_reg_r with (IZR d); [exact DR|]. rewrite QE, (Rmult_comm (IZR (m - 1))). now apply Rmult_le_compat_r. }
  unfold rtrunc. destruct (rlt q 0) eqn:E; [apply rlt_iff in E; lra|]. pose proof (base_Int_part q) as (P1 & P2). split; [|lra].
  split; [apply le_IZR; assert (-1 < IZR (Int_part q)) by lra; apply (lt_IZR (-1)) in H; apply IZR_le; lia|]. assert (IZR (Int_part q) <= IZR (m - 1)) by lra. apply le_IZR in H. lia.
Qed.
Lemma reduce_small bits c : valid_depth bits -> (0 <= c < 2 ^ bits)%Z -> reduce bits c = c.
Proof.
  intros V H. unfold reduce. destruct (Z.eqb_spec bits 1) as [->|]; [change (2 ^ 1)%Z with 2%Z in H; destruct (Z.ltb_spec 0 c); lia|]. destruct (bits =? 24)%Z; [reflexivity|]. apply Z.mod_small. exact H.
Qed.
Theorem C134_picture : forall v w h bits W x0 x1 y0 y1, valid_depth bits -> (1 < w < 2 ^ 24)%Z -> (1 < h < 2 ^ 24)%Z ->
  extremes (map fst v) x0 x1 -> extremes (map snd v) y0 y1 -> x0 < x1 -> y0 < y1 ->
  (exists b, drawattractor v w h bits W = (Ok b, W) /\ shows_points v w h bits b) \/
  ((exists n, forall x y, inside w h x y -> counts (fun z => in_cell x0 x1 w x (fst z) /\ in_cell y0 y1 h y (snd z)) v n) /\ drawattractor v w h bits W = (Err ZeroDivisionError, W)).
Proof.
  intros v w h bits W x0 x1 y0 y1 VD Hw Hh EX EY LX LY. assert (NE : v <> []) by (intros ->; destruct EX as ([] & _)).
  destruct (bounds_ok v NE) as (a & b & c & d & BO & BX & BY). destruct (extremes_unique _ _ _ _ _ BX EX) as (-> & ->). destruct (extremes_unique _ _ _ _ _ BY EY) as (-> & ->).
  set (sx := (x1 - x0) / IZR (w - 1)). set (sy := (y1 - y0) / IZR (h - 1)).
  set (cell := fun z : R * R => (rtrunc ((fst z - x0) / sx), rtrunc ((snd z - y0) / sy))).
  assert (IN : forall z, In z v -> x0 <= fst z <= x1 /\ y0 <= snd z <= y1) by (intros z Z0; split; [apply EX|apply EY]; now apply in_map).
  assert (SX : 0 < sx) by (apply Rdiv_lt_0_compat; [lra|apply IZR_lt; lia]). assert (SY : 0 < sy) by (apply Rdiv_lt_0_compat; [lra|apply IZR_lt; lia]).
  assert (RC : rcells v w h = Ok (map cell v)).
  { unfold rcells. rewrite BO. cbn [rbind]. rewrite !rdiv_ok by (apply not_0_IZR; lia). cbn [rbind]. fold sx sy. apply res_map_all. intros z _. rewrite !rdiv_ok by lra. reflexivity. }
  assert (CI : forall x y, In (x, y) (map cell v) -> inside w h x y).
  { intros x y H. apply in_map_iff in H. destruct H as (z & E & Z0). destruct (IN z Z0) as (I1 & I2). destruct (cell_of x0 x1 w (fst z) ltac:(lia) LX I1) as (_ & R1 & _). destruct (cell_of y0 y1 h (snd z) ltac:(lia) LY I2) as (_ & R2 & _).
    injection E as <- <-. split; assumption. }
  assert (CT : forall x y, counts (fun z => in_cell x0 x1 w x (fst z) /\ in_cell y0 y1 h y (snd z)) v (count_at (map cell v) x y)).
  { intros x y. apply (counts_at cell (fun x y z => in_cell x0 x1 w x (fst z) /\ in_cell y0 y1 h y (snd z))). intros z Z0. destruct (IN z Z0) as (I1 & I2).
    destruct (cell_of x0 x1 w (fst z) ltac:(lia) LX I1) as (_ & _ & K1). destruct (cell_of y0 y1 h (snd z) ltac:(lia) LY I2) as (_ & _ & K2). rewrite (K1 x), (K2 y). unfold cell. fold sx sy. split; [intros (<- & <-); reflexivity|intros E; injection E as <- <-; now split]. }
  destruct (C93_attractor rscale (map cell v) w h bits W VD ltac:(lia) ltac:(lia) CI) as (lo & hi & (xl & yl & Il & El) & (xh & yh & Ih & Eh) & LH & D1 & D2).
  assert (B2 : (0 < 2 ^ bits)%Z) by (apply Z.pow_pos_nonneg; [lia|]; unfold valid_depth in VD; lia).
  unfold drawattractor, fbind, flift. rewrite RC. pose proof (LH xl yl Il) as LE. destruct (Z.eq_dec lo hi) as [E|E].
  - right. split; [|now apply D2]. exists lo. intros x y I. replace lo with (count_at (map cell v) x y) by (specialize (LH x y I); lia). apply CT.
  - left. assert (LT : (lo < hi)%Z) by lia. destruct (D1 LT) as (b & Eb & Wb & Pb).
    { intros _ u U. apply scale_ok; lia. }
    exists b. split; [exact Eb|]. split; [exact Wb|]. exists x0, x1, y0, y1, lo, hi. split; [exact EX|]. split; [exact EY|]. split; [exact LT|]. cbv zeta. split; [exists xl, yl; split; [exact Il|]; rewrite <- El; apply CT|].
    split; [exists xh, yh; split; [exact Ih|]; rewrite <- Eh; apply CT|]. intros x y I. exists (count_at (map cell v) x y). split; [apply CT|]. pose proof (LH x y I) as LI. split; [exact LI|].
    destruct (scale_ok (2 ^ bits) (hi - lo) (count_at (map cell v) x y - lo) B2 ltac:(lia) ltac:(lia)) as (S1 & S2). rewrite (Pb x y I), reduce_small by assumption. exact S2.
Qed.
(** No points, a single column or row of bins, or points in one line along an axis: an exception *)
Theorem C134_flat : forall v w h bits W,
  (v = [] -> drawattractor v w h bits W = (Err ValueError, W)) /\
  (v <> [] -> w = 1%Z \/ h = 1%Z -> drawattractor v w h bits W = (Err ZeroDivisionError, W)) /\
  (v <> [] -> w <> 1%Z -> h <> 1%Z -> (exists c, forall z, In z v -> fst z = c) \/ (exists c, forall z, In z v -> snd z = c) -> drawattractor v w h bits W = (Err ZeroDivisionError, W)).
Proof.
  intros v w h bits W. unfold drawattractor, fbind, flift. split; [intros ->; reflexivity|]. split.
  - intros N E. destruct (bounds_ok v N) as (x0 & x1 & y0 & y1 & BO & _). unfold rcells. rewrite BO. cbn [rbind]. destruct (Z.eq_dec w 1) as [->|Nw]; [change (1 - 1)%Z with 0%Z; rewrite rdiv_0; reflexivity|]. destruct E as [E| ->]; [contradiction|].
    rewrite rdiv_ok by (apply not_0_IZR; lia). cbn [rbind]. change (1 - 1)%Z with 0%Z. rewrite rdiv_0. reflexivity.
  - intros N Nw Nh E. destruct (bounds_ok v N) as (x0 & x1 & y0 & y1 & BO & (X0 & X1 & _) & (Y0 & Y1 & _)). unfold rcells. rewrite BO. cbn [rbind]. rewrite !rdiv_ok by (apply not_0_IZR; lia). cbn [rbind].
    apply in_map_iff in X0, X1, Y0, Y1. destruct X0 as (a & <- & A), X1 as (b & <- & B), Y0 as (c & <- & C), Y1 as (d & <- & D).
    assert (R0 : forall q : R, rdiv q (0 / IZR (h - 1)) = Err ZeroDivisionError /\ rdiv q (0 / IZR (w - 1)) = Err ZeroDivisionError) by (intros q; split; unfold Rdiv; rewrite Rmult_0_l; apply rdiv_0).
    destruct v as [|p v]; [contradiction|]. cbn [res_map]. destruct E as [(k & K)|(k & K)].
    + rewrite (K a A), (K b B), Rminus_diag_eq with (1 := eq_refl k). destruct (rdiv (snd p - snd c) ((snd d - snd c) / IZR (h - 1))) eqn:E; cbn [rbind].
      * rewrite (proj2 (R0 _)). reflexivity.
      * unfold rdiv in E. destruct (req _ 0) in E; [injection E as <-; reflexivity|discriminate].
    + rewrite (K c C), (K d D), Rminus_diag_eq with (1 := eq_refl k). rewrite (proj1 (R0 _)). reflexivity.
Qed.
(** Whatever drawattractor returns is the picture of its points *)
Theorem C134_returns : forall v w h bits W b W', valid_depth bits -> (0 < w < 2 ^ 24)%Z -> (0 < h < 2 ^ 24)%Z -> drawattractor v w h bits W = (Ok b, W') -> W' = W /\ shows_points v w h bits b.
Proof.
  intros v w h bits W b W' VD Hw Hh E. destruct (C134_flat v w h bits W) as (F1 & F2 & F3). assert (N : v <> []) by (intros V; rewrite (F1 V) in E; discriminate).
  destruct (Z.eq_dec w 1) as [W1|W1]; [rewrite F2 in E by auto; discriminate|]. destruct (Z.eq_dec h 1) as [H1|H1]; [rewrite F2 in E by auto; discriminate|].
  destruct (bounds_ok v N) as (x0 & x1 & y0 & y1 & _ & BX & BY).
  destruct (Rlt_dec x0 x1) as [LX|LX].
  2:{ rewrite F3 in E; [discriminate|exact N|exact W1|exact H1|]. left. exists x0. intros z Z0. destruct BX as (_ & _ & B). specialize (B (fst z) (in_map fst v z Z0)). lra. }
  destruct (Rlt_dec y0 y1) as [LY|LY].
  2:{ rewrite F3 in E; [discriminate|exact N|exact W1|exact H1|]. right. exists y0. intros z Z0. destruct BY as (_ & _ & B). specialize (B (snd z) (in_map snd v z Z0)). lra. }
  destruct (C134_picture v w h bits W x0 x1 y0 y1 VD ltac:(lia) ltac:(lia) BX BY LX LY) as [(b' & E' & SP)|(_ & E')]; rewrite E' in E; [|discriminate]. injection E as <- <-. split; [reflexivity|exact SP].
Qed.
(** The nine pictures *)
Theorem C134_attractors : forall w h bits W b W' x y a1 a2 a3 a4 a5 d n, valid_depth bits -> (0 < w < 2 ^ 24)%Z -> (0 < h < 2 ^ 24)%Z -> (0 <= n)%Z ->
  let shows v := W' = W /\ shows_points v w h bits b in
  (ikedaattractor w h bits a1 a2 a3 a4 n W = (Ok b, W') -> shows (orbit_list (ikeda_map a1 a2 a3 a4) (0, 0) n)) /\
  (nattractor w h bits a1 a2 a3 a4 n W = (Ok b, W') -> shows (nattractorlist a1 a2 a3 a4 n)) /\
  (peterdejongattractor w h bits a1 a2 a3 a4 n W = (Ok b, W') -> shows (peterdejongattractorlist a1 a2 a3 a4 n)) /\
  (duffingattractor w h bits a1 a2 a3 a4 n W = (Ok b, W') -> shows (duffingattractorlist 0 0 0 a4 a1 a2 a3 n)) /\
  (hopalongattractor w h bits a1 a2 a3 n W = (Ok b, W') -> shows (hopalongattractorlist a1 a2 a3 n)) /\
  (cliffordattractor w h bits a1 a2 a3 a4 n W = (Ok b, W') -> shows (cliffordattractorlist a1 a2 a3 a4 n)) /\
  (fractaldreamattractor w h bits a1 a2 a3 a4 n W = (Ok b, W') -> shows (fractaldreamattractorlist a1 a2 a3 a4 n)) /\
  (gumowskimiraattractor w h bits x y a1 a2 n W = (Ok b, W') -> shows (gumowskimiraattractorlist x y a1 a2 n)) /\
  ((1 <= d)%Z -> symmetriciconattractor w h bits x y a1 a2 a3 a4 a5 d n W = (Ok b, W') -> shows (orbit_list (icon_map a1 a2 a3 a4 a5 (Z.to_nat d)) (x, y) n)).
Proof.
  intros w h bits W b W' x y a1 a2 a3 a4 a5 d n VD Hw Hh N shows. unfold shows.
  split. { intros E. rewrite <- (proj1 (C134_orbits a1 a2 0 0 a3 a4 0 0 n N)). now apply C134_returns. }
  do 7 (split; [apply C134_returns; assumption|]).
  intros D E. unfold symmetriciconattractor, fbind, flift in E. rewrite C134_icon in E by assumption. now apply C134_returns in E.
Qed.
(** Two passes of the Duffing oscillator without damping, pushed by 1: the points (0, 1) and (1, 2), drawn on
    2 x 2 pixels as the two ends of a diagonal *)
Lemma duffing_two : duffingattractorlist 0 0 0 1 0 1 0 2 = [(0, 1); (1, 2)].
Proof.
  destruct (C134_duffing 0 0 0 1 0 1 0 2 ltac:(lia)) as (u & U0 & U1 & ->). change (Z.to_nat 2) with 2%nat. cbn [seq map].
  pose proof (U1 0%nat) as P. rewrite U0 in P. replace (0 * (0 + INR 0 * 1)) with 0 in P by ring. rewrite cos_0 in P. pose proof (U1 1%nat) as Q. rewrite P in Q. replace (0 * (0 + INR 1 * 1)) with 0 in Q by ring. rewrite cos_0 in Q. rewrite P, Q.
  repeat f_equal; ring.
Qed.
Example C134_ex : forall W, exists b, duffingattractor 2 2 8 0 1 0 1 2 W = (Ok b, W) /\ wf b 2 2 8 /\ pixel b 2 2 8 0 0 = 255%Z /\ pixel b 2 2 8 1 1 = 255%Z /\ pixel b 2 2 8 1 0 = 0%Z /\ pixel b 2 2 8 0 1 = 0%Z.
Proof.
  intros W. unfold duffingattractor. rewrite duffing_two. set (v := [(0, 1); (1, 2)]).
  assert (EX : extremes (map fst v) 0 1) by (split; [now left|split; [right; now left|]]; intros z [<-|[<-|[]]]; cbn; lra).
  assert (EY : extremes (map snd v) 1 2) by (split; [now left|split; [right; now left|]]; intros z [<-|[<-|[]]]; cbn; lra).
  assert (Y : forall (P : R * R -> Prop) a b n, counts P [a; b] n -> (P a /\ P b /\ n = 2 \/ P a /\ ~ P b /\ n = 1 \/ ~ P a /\ P b /\ n = 1 \/ ~ P a /\ ~ P b /\ n = 0)%Z).
  { intros P a b n H. inversion H; subst; match goal with H : counts _ [b] _ |- _ => inversion H; subst end; match goal with H : counts _ [] _ |- _ => inversion H; subst end; intuition lia. }
  assert (I1 : forall lo (k : Z) z, in_cell lo (lo + 1) 2 k z <-> lo + IZR k <= z < lo + IZR k + 1).
  { intros lo k z. unfold in_cell. change (2 - 1)%Z with 1%Z. rewrite plus_IZR. replace (lo + 1 - lo) with 1 by ring. split; intros; lra. }
  assert (CELL : forall x y n, counts (fun z => in_cell 0 1 2 x (fst z) /\ in_cell 1 2 2 y (snd z)) v n -> (x = 0 \/ x = 1 -> y = 0 \/ y = 1 -> n = if x =? y then 1 else 0)%Z).
  { intros x y n H HX HY. apply Y in H. cbn [fst snd] in H. replace 2 with (1 + 1) in H by ring. pose proof (I1 0) as J. rewrite Rplus_0_l in J. rewrite !J, !I1 in H. destruct HX as [->| ->], HY as [->| ->]; cbn; lra || lia || idtac.
    all: destruct H as [H|[H|[H|H]]]; try (exfalso; lra); try tauto. all: destruct H as (H1 & H2 & H3); try exact H3; exfalso; try lra; try (apply H2; lra); try (apply H1; lra). }
  destruct (C134_picture v 2 2 8 W 0 1 1 2 ltac:(unfold valid_depth; lia) ltac:(lia) ltac:(lia) EX EY ltac:(lra) ltac:(lra)) as [(b & E & Wb & SP)|((n & H) & _)].
  2:{ exfalso. pose proof (H 0%Z 0%Z ltac:(split; lia)) as A. pose proof (H 0%Z 1%Z ltac:(split; lia)) as B. apply CELL in A; [|lia|lia]. apply CELL in B; [|lia|lia]. cbn in A, B. lia. }
  exists b. split; [exact E|]. split; [exact Wb|]. destruct SP as (x0 & x1 & y0 & y1 & lo & hi & X & Y' & LH & (xa & ya & Ia & Ca) & (xb & yb & Ib & Cb) & P).
  destruct (extremes_unique _ _ _ _ _ X EX) as (-> & ->). destruct (extremes_unique _ _ _ _ _ Y' EY) as (-> & ->). cbv zeta in P. apply CELL in Ca; [|destruct Ia; lia|destruct Ia; lia]. apply CELL in Cb; [|destruct Ib; lia|destruct Ib; lia].
  assert (L0 : lo = 0%Z) by (destruct (xa =? ya)%Z, (xb =? yb)%Z; lia). assert (H1 : hi = 1%Z) by (destruct (xa =? ya)%Z, (xb =? yb)%Z; lia). rewrite L0, H1 in P. clear - P CELL.
  assert (K : forall x y, (x = 0 \/ x = 1)%Z -> (y = 0 \/ y = 1)%Z -> pixel b 2 2 8 x y = (if (x =? y)%Z then 255 else 0)%Z).
  { intros x y HX HY. destruct (P x y ltac:(split; lia)) as (n & N & _ & Q). apply CELL in N; [|exact HX|exact HY]. subst n. change (2 ^ 8 - 1)%Z with 255%Z in Q. change (1 - 0)%Z with 1%Z in Q. rewrite <- (int_unique (if (x =? y)%Z then 255 else 0) (pixel b 2 2 8 x y)).
    - destruct (x =? y)%Z; apply int_unique; lra.
    - destruct (x =? y)%Z; [change (1 - 0)%Z with 1%Z in Q|change (0 - 0)%Z with 0%Z in Q]; lra. }
  rewrite !K by lia. repeat split.
Qed.
Print Assumptions C134_orbits.
Print Assumptions C134_duffing.
Print Assumptions C134_bounds.
Print Assumptions C134_ikeda_bound.
Print Assumptions C134_icon.
Print Assumptions C134_icon_singular.
Print Assumptions C134_icon_rotation.
Print Assumptions C134_icon_rotation_refuted.
Print Assumptions C134_icon_mirror.
Print Assumptions C134_picture.
Print Assumptions C134_flat.
Print Assumptions C134_returns.
Print Assumptions C134_attractors.
