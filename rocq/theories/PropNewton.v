(** Property C133: Newton's method and Newton's fractal. *)
From Coq Require Import ZArith Reals List Bool Lia Lra Psatz Ring.
From Verif Require Import PyBase PyFacts Spec SpecShapes Bmp Region Geometry MathLib Fractal Concrete Coords RealProofs Sweeps Cplx Escape EscapeProofs PropFractal2 PropEscape Newton NewtonProofs.
Import ListNotations.
Open Scope R_scope.

Definition minus (z w : R * R) : R * R := (fst z - fst w, snd z - snd w).
Definition distance (z w : R * R) : R := sqrt (sqnorm (minus z w)).
(** a0 + a1 z + a2 z^2 + ... *)
Fixpoint poly (l : list R) (z : R * R) : R * R := match l with [] => (0, 0) | a :: l => plus (a, 0) (times z (poly l z)) end.
Definition complex_derivative (f f' : R * R -> R * R) : Prop := forall z eps, 0 < eps -> exists delta, 0 < delta /\
  forall w, distance w z < delta -> distance (minus (f w) (f z)) (times (f' z) (minus w z)) <= eps * distance w z.
Lemma distance_eq z w : distance z w = cabs (csub z w).
Proof. reflexivity. Qed.

(** ** C133 *)
(** newtonmethod follows the sequence of Newton's method up to the first point with a short
    step; it gives up at a zero of the derivative and after maxiter points. *)
Theorem C133_method : forall (f fp : R * R -> R * R) x0 m tol, (0 <= m)%Z ->
  exists u : nat -> R * R, u O = x0 /\ (forall k, fp (u k) <> (0, 0) -> times (fp (u k)) (minus (u k) (u (S k))) = f (u k)) /\
    let goes k := fp (u k) <> (0, 0) /\ tol <= distance (u k) (u (S k)) in
    match newtonmethod x0 f fp m tol with
    | Some (x, i) => (0 <= i < m)%Z /\ x = u (Z.to_nat i) /\ fp x <> (0, 0) /\ distance x (u (S (Z.to_nat i))) < tol /\ (forall k, (k < Z.to_nat i)%nat -> goes k)
    | None => (exists k, (Z.of_nat k < m)%Z /\ fp (u k) = (0, 0) /\ forall j, (j < k)%nat -> goes j) \/ (forall k, (Z.of_nat k < m)%Z -> goes k)
    end.
Proof.
  intros f fp x0 m tol M. set (step := fun z : C => csub z (cmul (f z) (cinv (fp z)))). exists (fun k => Nat.iter k step x0).
  assert (ST : forall z : R * R, fp z <> (0, 0) -> csub z (step z) = cmul (f z) (cinv (fp z))).
  { intros z _. unfold step. match goal with |- ?a = ?b => change (@eq C a b) end. ring. }
  split; [reflexivity|]. split.
  { intros k N. rewrite iter_S. set (z := Nat.iter k step x0) in *. change (cmul (fp z) (csub z (step z)) = f z). rewrite (ST z N).
    transitivity (cmul (cmul (fp z) (cinv (fp z))) (f z)); [match goal with |- ?a = ?b => change (@eq C a b) end; ring|]. rewrite (cmul_inv (fp z) N). match goal with |- ?a = ?b => change (@eq C a b) end. ring. }
  intros goes. unfold newtonmethod.
  assert (G : forall n i z, (i + Z.of_nat n = m)%Z -> (0 <= i)%Z -> z = Nat.iter (Z.to_nat i) step x0 -> (forall k, (k < Z.to_nat i)%nat -> goes k) ->
    match newton_from f fp tol n i z with
    | Some (x, j) => (0 <= j < m)%Z /\ x = Nat.iter (Z.to_nat j) step x0 /\ fp x <> (0, 0) /\ distance x (Nat.iter (S (Z.to_nat j)) step x0) < tol /\ (forall k, (k < Z.to_nat j)%nat -> goes k)
    | None => (exists k, (Z.of_nat k < m)%Z /\ fp (Nat.iter k step x0) = (0, 0) /\ forall j, (j < k)%nat -> goes j) \/ (forall k, (Z.of_nat k < m)%Z -> goes k)
    end).
  { induction n as [|n IH]; intros i z E I Z0 B; cbn [newton_from].
    - right. intros k K. apply B. lia.
    - destruct (ceq (fp z) (0, 0)) eqn:F.
      + apply ceq_spec in F. left. exists (Z.to_nat i). split; [lia|]. split; [now rewrite <- Z0|exact B].
      + apply ceq_false in F. destruct (rlt (cabs (cmul (f z) (cinv (fp z)))) tol) eqn:T.
        * apply rlt_iff in T. split; [lia|]. split; [exact Z0|]. split; [exact F|]. split; [|exact B]. rewrite iter_S, <- Z0, distance_eq. now rewrite (ST z F).
        * apply rlt_no in T. apply IH; [lia|lia| |].
          -- replace (Z.to_nat (i + 1)) with (S (Z.to_nat i)) by lia. rewrite iter_S, <- Z0. reflexivity.
          -- intros k K. destruct (Nat.eq_dec k (Z.to_nat i)) as [->|]; [|apply B; lia]. unfold goes. rewrite iter_S, <- Z0. split; [exact F|]. rewrite distance_eq, (ST z F). exact T. }
  apply G; [lia|lia|reflexivity|intros k K; change (Z.to_nat 0) with O in K; lia].
Qed.
Lemma poly_cons a l (z : C) : poly (a :: l) z = cadd (rtoc a) (cmul z (poly l z)) :> C.
Proof. reflexivity. Qed.
Lemma poly_nil (z : C) : poly [] z = (0, 0) :> C.
Proof. reflexivity. Qed.
Lemma rtoc_m1 : rtoc (-1) = copp (rtoc 1).
Proof. cring. Qed.
Ltac polys := intros z; match goal with |- ?a = ?b => change (@eq C a b) end; cbn [fst snd]; rewrite !poly_cons, !poly_nil, ?rtoc_m1; change (rtoc 0) with ((0, 0) : C); ring.
(** The table has pairs of a polynomial and its derivative. *)
Theorem C133_functions :
  Forall2 (fun e p => fst e = fst p /\ (forall z, fst (snd e) z = poly (snd p) z) /\ complex_derivative (fst (snd e)) (snd (snd e))) funcparamdict
    [(30%Z, [-1; 0; 0; 1]); (40%Z, [-1; 0; 0; 0; 1]); (41%Z, [0; -1; 0; 0; 1]); (50%Z, [-1; 0; 0; 0; 0; 1]); (51%Z, [0; -1; 0; 0; 0; 1]);
     (53%Z, [0; 0; 0; -1; 0; 1]); (60%Z, [-1; 0; 0; 0; 0; 0; 1]); (63%Z, [-1; 0; 0; -1; 0; 0; 1])].
Proof.
  assert (D : forall k f fp, In (k, (f, fp)) funcparamdict -> complex_derivative f fp).
  { intros k f fp H z eps E. destruct (hasd_limit f fp (table_hasd k f fp H) z eps E) as (delta & D1 & D2). exists delta. split; [exact D1|]. intros w W.
    specialize (D2 (csub w z) W). assert (E2 : cadd z (csub w z) = w) by cring. rewrite E2 in D2. exact D2. }
  assert (D' : forall i k f fp, nth_error funcparamdict i = Some (k, (f, fp)) -> complex_derivative f fp) by (intros i k f fp H; eapply D, nth_error_In, H). clear D.
  pose proof (D' 0%nat _ _ _ eq_refl) as D0. pose proof (D' 1%nat _ _ _ eq_refl) as D1. pose proof (D' 2%nat _ _ _ eq_refl) as D2. pose proof (D' 3%nat _ _ _ eq_refl) as D3.
  pose proof (D' 4%nat _ _ _ eq_refl) as D4. pose proof (D' 5%nat _ _ _ eq_refl) as D5. pose proof (D' 6%nat _ _ _ eq_refl) as D6. pose proof (D' 7%nat _ _ _ eq_refl) as D7. clear D'.
  unfold funcparamdict. 
  apply Forall2_cons; [split; [reflexivity|split; [polys|exact D0]]|clear D0]. apply Forall2_cons; [split; [reflexivity|split; [polys|exact D1]]|clear D1].
  apply Forall2_cons; [split; [reflexivity|split; [polys|exact D2]]|clear D2]. apply Forall2_cons; [split; [reflexivity|split; [polys|exact D3]]|clear D3].
  apply Forall2_cons; [split; [reflexivity|split; [polys|exact D4]]|clear D4]. apply Forall2_cons; [split; [reflexivity|split; [polys|exact D5]]|clear D5].
  apply Forall2_cons; [split; [reflexivity|split; [polys|exact D6]]|clear D6]. apply Forall2_cons; [split; [reflexivity|split; [polys|exact D7]]|clear D7].
  apply Forall2_nil.
Qed.
(** What newton returns is within 6/10^8 of a root. *)
Theorem C133_root : forall k f fp P Q m x i, In (k, (f, fp)) funcparamdict -> newton P Q (f, fp) m = Some (x, i) -> exists r, f r = (0, 0) /\ distance x r < 6 / 10 ^ 8.
Proof.
  intros k f fp P Q m x i H E. destruct (table_roots k f fp H) as (l & _ & L & F1 & F2 & _). unfold newton, newtonmethod in E. cbn [fst snd] in E. apply newton_some in E. destruct E as (N & T).
  rewrite F1, F2 in T. rewrite F2 in N. destruct (step_near l x _ ltac:(lia) N T) as (r & R1 & R2). exists r. split; [rewrite F1; now apply prodr_zero|]. rewrite distance_eq.
  assert (INR (length l) <= 6) by (replace 6 with (INR 6) by (cbn [INR]; lra); apply le_INR; lia). lra.
Qed.
(** A start at a root with another derivative than 0 is returned at once; 0 is a threefold root of z^5 - z^3 and is not found. *)
Theorem C133_exact : forall f fp x0 m tol, f x0 = (0, 0) -> fp x0 <> (0, 0) -> 0 < tol -> (0 < m)%Z -> newtonmethod x0 f fp m tol = Some (x0, 0%Z).
Proof.
  intros f fp x0 m tol F N T M. unfold newtonmethod. destruct (Z.to_nat m) as [|n] eqn:E; [lia|]. cbn [newton_from]. replace (ceq (fp x0) (0, 0)) with false by (symmetry; now apply ceq_false).
  rewrite F. replace (cmul (0, 0) (cinv (fp x0))) with ((0, 0) : C) by cring. rewrite cabs_0. replace (rlt 0 tol) with true by (symmetry; now apply rlt_iff). reflexivity.
Qed.
Theorem C133_multiple_refuted : exists f fp, In (53%Z, (f, fp)) funcparamdict /\ f (0, 0) = (0, 0) /\ forall m, newton 0 0 (f, fp) m = None.
Proof.
  eexists. eexists. split; [unfold funcparamdict; cbn [In]; do 5 right; left; reflexivity|]. split; [cring|]. intros m. unfold newton, newtonmethod. cbn [fst snd].
  destruct (Z.to_nat m) as [|n]; [reflexivity|]. cbn [newton_from]. match goal with |- context [ceq ?a _] => replace (ceq a (0, 0)) with true; [reflexivity|symmetry; apply ceq_spec; cring] end.
Qed.
(** Symmetries *)
Theorem C133_mirror : forall k f fp P Q m, In (k, (f, fp)) funcparamdict ->
  newton P (- Q) (f, fp) m = match newton P Q (f, fp) m with Some (x, i) => Some (mirror x, i) | None => None end.
Proof.
  intros k f fp P Q m H. unfold newton, newtonmethod. cbn [fst snd].
  assert (K : forall z, f (cconj z) = cconj (f z) /\ fp (cconj z) = cconj (fp z)).
  { intros z. cbn [funcparamdict In] in H. repeat (destruct H as [H|H]; [injection H as <- <- <-; split; cring|]). destruct H. }
  refine (newton_phi cconj f fp f fp _ _ _ _ _ 0%Z (P, Q)); intros z.
  - rewrite (proj2 (K z)). unfold ceq, cconj, re, im. cbn [fst snd]. f_equal. unfold req. destruct (Req_EM_T (- snd (fp z)) 0), (Req_EM_T (snd (fp z)) 0); try reflexivity; lra.
  - intros _. rewrite (proj1 (K z)), (proj2 (K z)), <- cconj_inv, <- cconj_mul. cring.
  - intros _. rewrite (proj1 (K z)), (proj2 (K z)), <- cconj_inv, <- cconj_mul, cabs_conj. reflexivity.
Qed.

Lemma cinv_unique u v : cmul u v = rtoc 1 -> v = cinv u.
Proof.
  intros H. assert (N : u <> (0, 0)). { intros ->. assert (K : cmul (0, 0) v = (0, 0)) by cring. rewrite K in H. injection H. lra. }
  transitivity (cmul (cmul u v) (cinv u)); [|rewrite H; ring]. transitivity (cmul v (cmul u (cinv u))); [rewrite (cmul_inv u N)|]; ring.
Qed.
Lemma cpown3 w : cpown w 3 = cmul (cmul w w) w. Proof. cbn [cpown]. ring. Qed.
Lemma cpown4 w : cpown w 4 = cmul (cmul (cmul w w) w) w. Proof. cbn [cpown]. ring. Qed.
Lemma cpown5 w : cpown w 5 = cmul (cmul (cmul (cmul w w) w) w) w. Proof. cbn [cpown]. ring. Qed.
Lemma cpown6 w : cpown w 6 = cmul (cmul (cmul (cmul (cmul w w) w) w) w) w. Proof. cbn [cpown]. ring. Qed.
Lemma rotates f fp (w : C) n : (1 <= n)%nat -> cpown w n = rtoc 1 -> (forall z, f (cmul w z) = f z) -> (forall z, cmul w (fp (cmul w z)) = fp z) ->
  forall P Q m, let '(P', Q') := times w (P, Q) in newton P' Q' (f, fp) m = match newton P Q (f, fp) m with Some (x, i) => Some (times w x, i) | None => None end.
Proof.
  intros N W F FP P Q m. destruct (times w (P, Q)) as [P' Q'] eqn:EW. change (cmul w (P, Q) = (P', Q')) in EW. unfold newton, newtonmethod. cbn [fst snd]. rewrite <- EW.
  pose proof (root_abs w n N W) as W1. assert (W0 : w <> (0, 0)) by (intros ->; rewrite cabs_0 in W1; lra).
  assert (K : forall z, fp z <> (0, 0) -> cinv (fp (cmul w z)) = cmul w (cinv (fp z))).
  { intros z Z0. symmetry. apply cinv_unique. transitivity (cmul (cmul w (fp (cmul w z))) (cinv (fp z))); [ring|]. rewrite FP. now apply cmul_inv. }
  refine (newton_phi (cmul w) f fp f fp _ _ _ _ _ 0%Z (P, Q)); intros z.
  - destruct (ceq (fp z) (0, 0)) eqn:X.
    + apply ceq_spec in X. apply ceq_spec. rewrite <- FP in X. apply cmul_zero in X. destruct X; [contradiction|assumption].
    + apply ceq_false in X. apply ceq_false. intros H. apply X. rewrite <- FP, H. cring.
  - intros Z0. rewrite (K z Z0), F. ring.
  - intros Z0. rewrite (K z Z0), F, !cabs_mul, W1. ring.
Qed.
Lemma rotation_table k f fp (w : C) : In (k, (f, fp)) funcparamdict -> (k mod 10 = 0)%Z -> cpown w (Z.to_nat (k / 10)) = rtoc 1 ->
  (1 <= Z.to_nat (k / 10))%nat /\ (forall z, f (cmul w z) = f z) /\ (forall z, cmul w (fp (cmul w z)) = fp z).
Proof.
  intros H K W. cbn [funcparamdict In] in H. repeat (destruct H as [H|H]; [injection H as <- <- <-|]); [..|destruct H]; try discriminate K.
  - change (Z.to_nat (30 / 10)) with 3%nat in *. rewrite cpown3 in W. split; [lia|]. split; intros z; ring [W].
  - change (Z.to_nat (40 / 10)) with 4%nat in *. rewrite cpown4 in W. split; [lia|]. split; intros z; ring [W].
  - change (Z.to_nat (50 / 10)) with 5%nat in *. rewrite cpown5 in W. split; [lia|]. split; intros z; ring [W].
  - change (Z.to_nat (60 / 10)) with 6%nat in *. rewrite cpown6 in W. split; [lia|]. split; intros z; ring [W].
Qed.
Theorem C133_rotation : forall k f fp w P Q m, In (k, (f, fp)) funcparamdict -> (k mod 10 = 0)%Z -> power w (Z.to_nat (k / 10)) = (1, 0) ->
  let '(P', Q') := times w (P, Q) in newton P' Q' (f, fp) m = match newton P Q (f, fp) m with Some (x, i) => Some (times w x, i) | None => None end.
Proof.
  intros k f fp w P Q m H K W. rewrite power_eq in W. change (1, 0) with (rtoc 1) in W. destruct (rotation_table k f fp w H K W) as (N & A & B). exact (rotates f fp w _ N W A B P Q m).
Qed.
Lemma newton_more f fp tol n k : forall i z r, newton_from f fp tol n i z = Some r -> newton_from f fp tol (n + k) i z = Some r.
Proof.
  induction n as [|n IH]; intros i z r H; cbn [newton_from Nat.add] in *; [discriminate|]. destruct (ceq (fp z) (0, 0)); [discriminate|]. destruct (rlt _ tol); [exact H|]. now apply IH.
Qed.
(** Near a root of z^3 - 1 the method finds this root within 40 iterations. *)
Theorem C133_converges : forall P Q r m, power r 3 = (1, 0) -> distance (P, Q) r <= 1 / 4 -> (40 <= m)%Z ->
  exists f fp x i, In (30%Z, (f, fp)) funcparamdict /\ newton P Q (f, fp) m = Some (x, i) /\ (0 <= i < 40)%Z /\ distance x r < 3 / 10 ^ 8.
Proof.
  intros P Q r m R D M. eexists. eexists. rewrite power_eq in R. change (1, 0) with (rtoc 1) in R. pose proof (root_abs r 3 ltac:(lia) R) as R1. rewrite cpown3 in R. rewrite distance_eq in D.
  set (f := fun z => csub (cmul (cmul z z) z) (rtoc 1)). set (fp := fun z => cmul (rtoc 3) (cmul z z)).
  assert (H : forall z, cabs (csub z r) <= 1 / 4 -> fp z <> (0, 0) /\ cabs (csub (csub z (cmul (f z) (cinv (fp z)))) r) <= 6 / 10 * cabs (csub z r)).
  { intros z Z0. assert (ZA : 3 / 4 <= cabs z). { pose proof (cabs_sub_ge r (csub z r)) as T. replace (cadd r (csub z r)) with z in T by ring. lra. }
    assert (FA : cabs (fp z) = 3 * (cabs z * cabs z)) by (unfold fp; rewrite !cabs_mul, cabs_real, Rabs_pos_eq by lra; reflexivity).
    assert (N : fp z <> (0, 0)). { intros E. rewrite E, cabs_0 in FA. nra. } split; [exact N|].
    assert (E : csub (csub z (cmul (f z) (cinv (fp z)))) r = cmul (cmul (cmul (csub z r) (csub z r)) (cadd (cadd z z) r)) (cinv (fp z))).
    { transitivity (csub (cmul (csub z r) (cmul (fp z) (cinv (fp z)))) (cmul (f z) (cinv (fp z)))); [rewrite (cmul_inv _ N); ring|]. unfold f. rewrite <- R. unfold fp at 1. nums. ring. }
    rewrite E, !cabs_mul, (cabs_inv _ N), FA. pose proof (cabs_triangle (cadd (csub z r) (csub z r)) (cadd (cadd r r) r)) as T1. pose proof (cabs_triangle (csub z r) (csub z r)) as T2. pose proof (cabs_triangle (cadd r r) r) as T3. pose proof (cabs_triangle r r) as T4.
    replace (cadd (cadd (csub z r) (csub z r)) (cadd (cadd r r) r)) with (cadd (cadd z z) r) in T1 by ring. rewrite R1 in *.
    pose proof (cabs_nonneg (csub z r)) as P1. pose proof (cabs_nonneg (cadd (cadd z z) r)) as P2. set (e := cabs (csub z r)) in *. set (s := cabs (cadd (cadd z z) r)) in *. set (t := cabs z) in *. clearbody e s t.
    assert (S1 : s <= 7 / 2) by lra. assert (S2 : 27 / 16 <= 3 * (t * t)) by nra. apply Rmult_le_reg_r with (3 * (t * t)); [lra|]. rewrite Rmult_assoc, Rinv_l, Rmult_1_r by lra.
    assert (e * e * s <= e * (1 / 4) * (7 / 2)) by (apply Rmult_le_compat; [nra|exact P2|apply Rmult_le_compat_l; lra|exact S1]). nra. }
  assert (Q39 : (6 / 10) ^ 39 < 1 / 10 ^ 8) by lra.
  destruct (newton_contracts f fp r (1 / 4) (6 / 10) (1 / 10 ^ 8) ltac:(lra) ltac:(lra) H 39 (P, Q) 0%Z (1 / 4) D ltac:(lra) ltac:(lra)) as (x & i & E & I & B).
  exists x, i. split; [unfold funcparamdict; cbn [In]; left; reflexivity|]. split; [|split; [lia|]].
  - unfold newton, newtonmethod. cbn [fst snd]. replace (Z.to_nat m) with (40 + (Z.to_nat m - 40))%nat by lia. apply newton_more. exact E.
  - apply newton_some in E. destruct E as (_ & T). destruct (H x B) as (_ & K). rewrite distance_eq. pose proof (cabs_tri x (csub x (cmul (f x) (cinv (fp x)))) r) as TR.
    replace (csub x (csub x (cmul (f x) (cinv (fp x))))) with (cmul (f x) (cinv (fp x))) in TR by ring. lra.
Qed.
Definition newton_at x1 y1 x2 y2 d Pmax Pmin Qmax Qmin m x y := newton (coord Pmin Pmax x1 x2 x) (coord Qmin Qmax y1 y2 y) d m.
(** The picture: the roots found are near different roots of the polynomial, so at most as many as its degree;
    a pixel shows the root its point leads to and the number of iterations. *)
Theorem C133_picture : forall k f fp Pmax Pmin Qmax Qmin n mix m b w h bits o x1 y1 x2 y2, In (k, (f, fp)) funcparamdict ->
  wf b w h bits -> x1 <> x2 -> y1 <> y2 -> (bits = 24 -> forall k l, 0 <= k < n -> 0 <= l < 256 -> 0 <= mix k l < 2 ^ 24)%Z ->
  bits <> 24%Z \/ (k / 10 <= n)%Z ->
  let at_pixel := newton_at x1 y1 x2 y2 (f, fp) Pmax Pmin Qmax Qmin m in
  let near t r := f r = (0, 0) /\ distance t r < 6 / 10 ^ 8 in
  exists rts b', newtonsbmp x1 y1 x2 y2 (f, fp) (Pmax, Pmin, Qmax, Qmin) n mix m (mkst b o) = (Ok rts, mkst b' o) /\
    (zlen rts <= k / 10)%Z /\ (forall t, In t rts -> exists r, near t r) /\
    (forall i j t u r, nth_error rts i = Some t -> nth_error rts j = Some u -> near t r -> near u r -> i = j) /\
    wf b' w h bits /\ same_header b b' bits /\
    (forall x y rt c, inside w h x y -> (Z.min x1 x2 <= x < Z.max x1 x2 -> Z.min y1 y2 <= y < Z.max y1 y2 -> at_pixel x y = Some (rt, c) ->
       exists i t r, nth_error rts i = Some t /\ near t r /\ near rt r /\
         pixel b' w h bits x y = if bits =? 24 then mix (Z.of_nat i) (((255 - c) * 20) mod 256) else 2 ^ bits - 1 - c mod 2 ^ bits)%Z) /\
    (forall x y, inside w h x y -> ~ (Z.min x1 x2 <= x < Z.max x1 x2 /\ Z.min y1 y2 <= y < Z.max y1 y2)%Z \/ at_pixel x y = None ->
       pixel b' w h bits x y = pixel b w h bits x y).
Proof.
  intros k f fp Pmax Pmin Qmax Qmin n mix m b w h bits o x1 y1 x2 y2 T W X Y MX NF at_pixel near.
  destruct (table_roots k f fp T) as (l & L & LB & F1 & F2 & AP).
  assert (Zf : forall r, f r = (0, 0) <-> In r l) by (intros r; rewrite F1; apply prodr_zero).
  assert (K0 : forall x y rt c, at_pixel x y = Some (rt, c) -> exists r, near rt r) by (intros x y rt c E; exact (C133_root k f fp _ _ m rt c T E)).
  assert (NT : forall t u r s, near t r -> near u s -> rootnear t u = true -> r = s).
  { intros t u r s (R1 & R2) (S1 & S2) H. apply Zf in R1. apply Zf in S1. unfold rootnear in H. apply rlt_iff in H. destruct (AP r s R1 S1) as [E|E]; [exact E|]. exfalso. rewrite distance_eq in R2, S2.
    pose proof (cabs_tri r t s) as A. pose proof (cabs_tri t u s) as B. rewrite (cabs_sub_sym r t) in A. change C with (R * R)%type in *. lra. }
  assert (NF2 : forall t u r, near t r -> near u r -> rootnear t u = true).
  { intros t u r (R1 & R2) (S1 & S2). unfold rootnear. apply rlt_iff. rewrite distance_eq in R2, S2. pose proof (cabs_tri t r u) as A. rewrite (cabs_sub_sym r u) in A. change C with (R * R)%type in *. lra. }
  destruct (C91_newton C rootnear (newtonat x1 y1 x2 y2 (f, fp) (Pmax, Pmin, Qmax, Qmin) m) at_pixel n mix b w h bits o x1 y1 x2 y2 W X Y MX) as (rts & D & FN & G & _).
  { intros x y rt c E. destruct (K0 x y rt c E) as (r & R). exact (NF2 rt rt r R R). }
  { intros x y _ _. unfold newtonat. rewrite sorted_pts, !rdiv_ok by now apply width_ok. cbn [rbind]. rewrite !coord_eq by assumption. reflexivity. }
  assert (RN : forall t, In t rts -> exists r, near t r) by (intros t Ht; destruct (FN t Ht) as (x & y & c & _ & _ & E); exact (K0 x y t c E)).
  assert (DI : forall i j t u r, (i < j)%nat -> nth_error rts i = Some t -> nth_error rts j = Some u -> near t r -> near u r -> False).
  { intros i j t u r IJ Hi Hj R1 R2. assert (JL : (j < length rts)%nat) by (apply nth_error_Some; congruence).
    specialize (D i j t (conj IJ JL)). rewrite (nth_error_nth _ _ t Hi), (nth_error_nth _ _ t Hj), (NF2 t u r R1 R2) in D. discriminate. }
  assert (DU : forall i j t u r, nth_error rts i = Some t -> nth_error rts j = Some u -> near t r -> near u r -> i = j).
  { intros i j t u r Hi Hj R1 R2. destruct (Nat.lt_trichotomy i j) as [A|[A|A]]; [exfalso; eauto|exact A|exfalso; eauto]. }
  assert (LE : (zlen rts <= k / 10)%Z).
  { assert (EX : exists rs, length rs = length rts /\ forall i t r, nth_error rts i = Some t -> nth_error rs i = Some r -> near t r).
    { clear - RN. induction rts as [|t rts IH]; [exists []; split; [reflexivity|]; intros [|i] t r H; discriminate|].
      destruct IH as (rs & E & H); [intros u U; apply RN; now right|]. destruct (RN t ltac:(now left)) as (r & R). exists (r :: rs). split; [cbn; now rewrite E|].
      intros [|i] u s A B; cbn in A, B; [injection A as <-; injection B as <-; exact R|eauto]. }
    destruct EX as (rs & E & H). assert (ND : NoDup rs).
    { apply NoDup_nth_error. intros i j I IJ. destruct (nth_error rs i) as [r|] eqn:A; [|apply nth_error_None in A; lia]. symmetry in IJ.
      destruct (nth_error rts i) as [t|] eqn:B; [|apply nth_error_None in B; lia]. assert (JL : (j < length rs)%nat) by (apply nth_error_Some; congruence).
      destruct (nth_error rts j) as [u|] eqn:B2; [|apply nth_error_None in B2; lia]. exact (DU i j t u r B B2 (H i t r B A) (H j u r B2 IJ)). }
    assert (IN : incl rs l).
    { intros r R. apply In_nth_error in R. destruct R as (i & R). destruct (nth_error rts i) as [t|] eqn:B; [|apply nth_error_None in B; assert (i < length rs)%nat by (apply nth_error_Some; congruence); lia].
      apply Zf. apply (H i t r B R). }
    pose proof (NoDup_incl_length ND IN) as Q. unfold zlen. assert (0 <= k / 10)%Z; [|lia]. destruct (Z_le_gt_dec 0 (k / 10)) as [A|A]; [exact A|]. replace (Z.to_nat (k / 10)) with O in L by lia. lia. }
  destruct G as (b' & E & WF & SH & PX & OX); [destruct NF as [NF|NF]; [left; exact NF|right; lia]|].
  exists rts, b'. split; [exact E|]. split; [exact LE|]. split; [exact RN|]. split; [exact DU|]. split; [exact WF|]. split; [exact SH|]. split; [|exact OX].
  intros x y rt c IN HX HY EV. destruct (PX x y rt c IN HX HY EV) as (i & IL & NR & _ & PE). destruct (nth_error rts i) as [t|] eqn:B; [|apply nth_error_None in B; lia].
  rewrite (nth_error_nth _ _ rt B) in NR. destruct (RN t (nth_error_In _ _ B)) as (r & R). destruct (K0 x y rt c EV) as (s & S). pose proof (NT t rt r s R S NR). subst s.
  exists i, t, r. split; [exact B|]. split; [exact R|]. split; [exact S|exact PE].
Qed.
(** from 9/10 to the root 1; a picture of 6 x 4 pixels with three factors *)
Example C133_ex :
  power (1, 0) 3 = (1, 0) /\ distance (9 / 10, 0) (1, 0) <= 1 / 4 /\ power (-1, 0) (Z.to_nat (40 / 10)) = (1, 0) /\
  (exists f fp, In (30%Z, (f, fp)) funcparamdict /\ newton 1 0 (f, fp) 5 = Some ((1, 0), 0%Z)) /\
  wf (blank 6 4 24) 6 4 24 /\ inside 6 4 5 3 /\ (24 = 24 -> forall k l, 0 <= k < 3 -> 0 <= l < 256 -> 0 <= (fun k l => k + l) k l < 2 ^ 24)%Z.
Proof.
  split; [unfold power, times; cbn [Nat.iter nat_rect fst snd]; f_equal; ring|]. split.
  { unfold distance, sqnorm, minus. cbn [fst snd]. replace ((9 / 10 - 1) * (9 / 10 - 1) + (0 - 0) * (0 - 0)) with (1 / 10 * (1 / 10)) by field. rewrite sqrt_square; lra. }
  split; [change (Z.to_nat (40 / 10)) with 4%nat; unfold power, times; cbn [Nat.iter nat_rect fst snd]; f_equal; ring|].
  split. { eexists. eexists. split; [unfold funcparamdict; cbn [In]; left; reflexivity|]. unfold newton. cbn [fst snd]. apply C133_exact; [cring| |lra|lia].
    unfold cmul, rtoc, re, im. cbn [fst snd]. intros H. injection H. lra. }
  split; [concrete_wf|]. split; [unfold inside; lia|]. intros _ k l K L. cbn beta. lia.
Qed.
Print Assumptions C133_method.
Print Assumptions C133_functions.
Print Assumptions C133_root.
Print Assumptions C133_exact.
Print Assumptions C133_multiple_refuted.
Print Assumptions C133_mirror.
Print Assumptions C133_rotation.
Print Assumptions C133_converges.
Print Assumptions C133_picture.
