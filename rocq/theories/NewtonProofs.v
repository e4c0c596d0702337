(** Newton's method: products of linear factors, derivatives, roots of the table (proofs). *)
From Coq Require Import ZArith Reals Lra Lia List Bool Psatz Ring.
From Verif Require Import PyBase PyFacts Bmp Coords RealProofs Cplx Escape EscapeProofs Newton.
Import ListNotations.
Open Scope R_scope.

(** ** Products of linear factors *)
Fixpoint prodr (l : list C) (z : C) : C := match l with [] => rtoc 1 | r :: l => cmul (csub z r) (prodr l z) end.
Fixpoint dprodr (l : list C) (z : C) : C := match l with [] => (0, 0) | r :: l => cadd (prodr l z) (cmul (csub z r) (dprodr l z)) end.
Lemma dprodr_bound l z delta : 0 <= delta -> (forall r, In r l -> delta <= cabs (csub z r)) -> delta * cabs (dprodr l z) <= INR (length l) * cabs (prodr l z).
Proof.
  intros D. induction l as [|r l IH]; intros H.
  - cbn [dprodr length INR]. rewrite cabs_0. lra.
  - cbn [dprodr prodr length]. rewrite S_INR, cabs_mul. pose proof (cabs_triangle (prodr l z) (cmul (csub z r) (dprodr l z))) as T. rewrite cabs_mul in T.
    specialize (IH (fun s S => H s (or_intror S))). specialize (H r (or_introl eq_refl)). pose proof (cabs_nonneg (prodr l z)). pose proof (cabs_nonneg (csub z r)).
    set (a := cabs (csub z r)) in *. set (p := cabs (prodr l z)) in *. set (q := cabs (dprodr l z)) in *. clearbody a p q.
    assert (delta * p <= a * p) by (apply Rmult_le_compat_r; assumption). assert (a * (delta * q) <= a * (INR (length l) * p)) by (apply Rmult_le_compat_l; assumption).
    apply Rle_trans with (delta * (p + a * q)); [now apply Rmult_le_compat_l|]. lra.
Qed.
Lemma prodr_zero l z : prodr l z = (0, 0) <-> In z l.
Proof.
  induction l as [|r l IH]; cbn [prodr In]; [split; [intros H; injection H; lra|easy]|]. split.
  - intros H. destruct (cmul_zero _ _ H) as [H1|H1]; [left|right; now apply IH]. apply c_ext; [pose proof (f_equal re H1) as K|pose proof (f_equal im H1) as K]; unfold csub, re, im in K; cbn [fst snd] in K; unfold re, im; lra.
  - intros [<-|H]; [|apply IH in H; rewrite H]; cring.
Qed.
(** a small step is near a root *)
Lemma step_near l z tol : (1 <= length l)%nat -> dprodr l z <> (0, 0) -> cabs (cmul (prodr l z) (cinv (dprodr l z))) < tol -> exists r, In r l /\ cabs (csub z r) < INR (length l) * tol.
Proof.
  intros L N T. rewrite cabs_mul, cabs_inv in T by exact N. pose proof (cabs_pos _ N) as P. pose proof (cabs_nonneg (prodr l z)) as P2.
  destruct (Exists_dec (fun r => cabs (csub z r) < INR (length l) * tol) l) as [E|E].
  { intros r. destruct (Rlt_dec (cabs (csub z r)) (INR (length l) * tol)); [now left|now right]. }
  - apply Exists_exists in E. exact E.
  - exfalso. rewrite <- Forall_Exists_neg, Forall_forall in E. assert (L1 : 1 <= INR (length l)) by (change 1 with (INR 1); now apply le_INR).
    assert (T0 : 0 <= tol). { assert (0 <= cabs (prodr l z) * / cabs (dprodr l z)) by (apply Rmult_le_pos; [exact P2|left; now apply Rinv_0_lt_compat]). lra. }
    pose proof (dprodr_bound l z (INR (length l) * tol) ltac:(nra) (fun r R => Rnot_lt_le _ _ (E r R))) as B.
    assert (K : cabs (prodr l z) < tol * cabs (dprodr l z)).
    { apply Rmult_lt_reg_r with (/ cabs (dprodr l z)); [now apply Rinv_0_lt_compat|]. rewrite Rmult_assoc, Rinv_r, Rmult_1_r by lra. exact T. }
    set (n := INR (length l)) in *. set (p := cabs (prodr l z)) in *. set (q := cabs (dprodr l z)) in *. clearbody n p q. nra.
Qed.

(** ** Derivatives *)
Definition hasd (f f' : C -> C) : Prop := forall z, exists B, 0 <= B /\ forall h, cabs h <= 1 -> cabs (csub (csub (f (cadd z h)) (f z)) (cmul (f' z) h)) <= B * (cabs h * cabs h).
Lemma hasd_id : hasd (fun z => z) (fun _ => rtoc 1).
Proof. intros z. exists 0. split; [lra|]. intros h _. replace (csub (csub (cadd z h) z) (cmul (rtoc 1) h)) with ((0, 0) : C) by cring. rewrite cabs_0. lra. Qed.
Lemma hasd_const c : hasd (fun _ => c) (fun _ => (0, 0)).
Proof. intros z. exists 0. split; [lra|]. intros h _. replace (csub (csub c c) (cmul (0, 0) h)) with ((0, 0) : C) by cring. rewrite cabs_0. lra. Qed.
Lemma hasd_sub f f' g g' : hasd f f' -> hasd g g' -> hasd (fun z => csub (f z) (g z)) (fun z => csub (f' z) (g' z)).
Proof.
  intros F G z. destruct (F z) as (B1 & P1 & H1), (G z) as (B2 & P2 & H2). exists (B1 + B2). split; [lra|]. intros h H.
  specialize (H1 h H). specialize (H2 h H).
  replace (csub (csub (csub (f (cadd z h)) (g (cadd z h))) (csub (f z) (g z))) (cmul (csub (f' z) (g' z)) h)) with
    (cadd (csub (csub (f (cadd z h)) (f z)) (cmul (f' z) h)) (copp (csub (csub (g (cadd z h)) (g z)) (cmul (g' z) h)))) by ring.
  eapply Rle_trans; [apply cabs_triangle|]. rewrite cabs_opp. lra.
Qed.
Lemma cabs_sum6 a b c d e f : cabs (cadd a (cadd b (cadd c (cadd d (cadd e f))))) <= cabs a + (cabs b + (cabs c + (cabs d + (cabs e + cabs f)))).
Proof.
  pose proof (cabs_triangle a (cadd b (cadd c (cadd d (cadd e f))))). pose proof (cabs_triangle b (cadd c (cadd d (cadd e f)))).
  pose proof (cabs_triangle c (cadd d (cadd e f))). pose proof (cabs_triangle d (cadd e f)). pose proof (cabs_triangle e f). lra.
Qed.
Lemma hasd_mul f f' g g' : hasd f f' -> hasd g g' -> hasd (fun z => cmul (f z) (g z)) (fun z => cadd (cmul (f' z) (g z)) (cmul (f z) (g' z))).
Proof.
  intros F G z. destruct (F z) as (B1 & P1 & H1), (G z) as (B2 & P2 & H2).
  pose proof (cabs_nonneg (f z)) as N1. pose proof (cabs_nonneg (g z)) as N2. pose proof (cabs_nonneg (f' z)) as N3. pose proof (cabs_nonneg (g' z)) as N4.
  exists (cabs (f z) * B2 + (cabs (g z) * B1 + (cabs (f' z) * cabs (g' z) + (cabs (f' z) * B2 + (cabs (g' z) * B1 + B1 * B2))))).
  split; [repeat apply Rplus_le_le_0_compat; apply Rmult_le_pos; assumption|]. intros h H. specialize (H1 h H). specialize (H2 h H). pose proof (cabs_nonneg h) as N5.
  set (r := csub (csub (f (cadd z h)) (f z)) (cmul (f' z) h)) in *. set (s := csub (csub (g (cadd z h)) (g z)) (cmul (g' z) h)) in *.
  replace (csub (csub (cmul (f (cadd z h)) (g (cadd z h))) (cmul (f z) (g z))) (cmul (cadd (cmul (f' z) (g z)) (cmul (f z) (g' z))) h)) with
    (cadd (cmul (f z) s) (cadd (cmul (g z) r) (cadd (cmul (cmul (f' z) (g' z)) (cmul h h)) (cadd (cmul (cmul (f' z) h) s) (cadd (cmul (cmul (g' z) h) r) (cmul r s)))))) by (unfold r, s; ring).
  pose proof (cabs_nonneg r) as N6. pose proof (cabs_nonneg s) as N7.
  eapply Rle_trans; [apply cabs_sum6|]. rewrite !cabs_mul. set (q := cabs h) in *. set (R0 := cabs r) in *. set (S0 := cabs s) in *. clearbody q R0 S0. clear r s.
  assert (Q1 : q * q <= 1) by nra. assert (Q2 : 0 <= q * q) by nra. set (qq := q * q) in *. 
  assert (E1 : cabs (f z) * S0 <= cabs (f z) * (B2 * qq)) by (now apply Rmult_le_compat_l).
  assert (E2 : cabs (g z) * R0 <= cabs (g z) * (B1 * qq)) by (now apply Rmult_le_compat_l).
  assert (E4 : cabs (f' z) * q * S0 <= cabs (f' z) * 1 * (B2 * qq)) by (apply Rmult_le_compat; [now apply Rmult_le_pos|assumption|now apply Rmult_le_compat_l|assumption]).
  assert (E5 : cabs (g' z) * q * R0 <= cabs (g' z) * 1 * (B1 * qq)) by (apply Rmult_le_compat; [now apply Rmult_le_pos|assumption|now apply Rmult_le_compat_l|assumption]).
  assert (E6 : R0 * S0 <= B1 * (B2 * qq)). { apply Rmult_le_compat; try assumption. eapply Rle_trans; [exact H1|]. rewrite <- (Rmult_1_r B1) at 2. now apply Rmult_le_compat_l. }
  match goal with |- _ <= ?r => replace r with (cabs (f z) * (B2 * qq) + (cabs (g z) * (B1 * qq) + (cabs (f' z) * cabs (g' z) * qq + (cabs (f' z) * 1 * (B2 * qq) + (cabs (g' z) * 1 * (B1 * qq) + B1 * (B2 * qq)))))) by ring end.
  lra.
Qed.
Lemma hasd_ext f f' g' : hasd f f' -> (forall z, f' z = g' z) -> hasd f g'.
Proof. intros H E z. destruct (H z) as (B & P & K). exists B. split; [exact P|]. intros h Hh. rewrite <- E. now apply K. Qed.
Lemma hasd_limit f f' : hasd f f' -> forall z eps, 0 < eps -> exists delta, 0 < delta /\ forall h, cabs h < delta -> cabs (csub (csub (f (cadd z h)) (f z)) (cmul (f' z) h)) <= eps * cabs h.
Proof.
  intros H z eps E. destruct (H z) as (B & P & K). exists (Rmin 1 (eps / (B + 1))). assert (D : 0 < eps / (B + 1)) by (apply Rdiv_lt_0_compat; lra).
  split; [apply Rmin_pos; lra|]. intros h Hh. assert (H1 : cabs h <= 1) by (pose proof (Rmin_l 1 (eps / (B + 1))); lra). assert (H2 : cabs h <= eps / (B + 1)) by (pose proof (Rmin_r 1 (eps / (B + 1))); lra).
  eapply Rle_trans; [now apply K|]. pose proof (cabs_nonneg h) as N. rewrite <- Rmult_assoc. apply Rmult_le_compat_r; [exact N|].
  apply Rle_trans with (B * (eps / (B + 1))); [now apply Rmult_le_compat_l|]. apply Rle_trans with ((B + 1) * (eps / (B + 1))); [apply Rmult_le_compat_r; lra|]. right. field. lra.
Qed.

(** ** The table *)
Lemma rtoc_add x y : rtoc (x + y) = cadd (rtoc x) (rtoc y).
Proof. cring. Qed.
Ltac nums := repeat match goal with
  | |- context [rtoc 6] => replace (rtoc 6) with (cadd (rtoc 1) (cadd (rtoc 1) (cadd (rtoc 1) (cadd (rtoc 1) (cadd (rtoc 1) (rtoc 1)))))) by cring
  | |- context [rtoc 5] => replace (rtoc 5) with (cadd (rtoc 1) (cadd (rtoc 1) (cadd (rtoc 1) (cadd (rtoc 1) (rtoc 1))))) by cring
  | |- context [rtoc 4] => replace (rtoc 4) with (cadd (rtoc 1) (cadd (rtoc 1) (cadd (rtoc 1) (rtoc 1)))) by cring
  | |- context [rtoc 3] => replace (rtoc 3) with (cadd (rtoc 1) (cadd (rtoc 1) (rtoc 1))) by cring
  end.
Lemma table_hasd k f fp : In (k, (f, fp)) funcparamdict -> hasd f fp.
Proof.
  intros H. cbn [funcparamdict In] in H.
  repeat (destruct H as [H|H]; [injection H as <- <- <-; eapply hasd_ext; [repeat first [apply hasd_sub|apply hasd_mul|apply hasd_id|apply hasd_const]|intros z; cbn beta; nums; ring]|]).
  destruct H.
Qed.
(** pairs of conjugate roots *)
Lemma quad p q z : cmul (csub z (p, q)) (csub z (p, - q)) = cadd (csub (cmul z z) (cmul (rtoc (2 * p)) z)) (rtoc (p * p + q * q)).
Proof. cring. Qed.

Definition apart (l : list C) : Prop := forall r s, In r l -> In s l -> r = s \/ 1 / 10 <= cabs (csub r s).
Lemma apart_coords u v : 1 / 10 <= re u - re v \/ 1 / 10 <= re v - re u \/ 1 / 10 <= im u - im v \/ 1 / 10 <= im v - im u -> 1 / 10 <= cabs (csub u v).
Proof.
  intros H. pose proof (cabs_re (csub u v)) as A. pose proof (cabs_im (csub u v)) as B. unfold csub in *. unfold re, im in *. cbn [fst snd] in *.
  unfold Rabs in A, B. destruct (Rcase_abs (fst u - fst v)), (Rcase_abs (snd u - snd v)); lra.
Qed.
Ltac aparts := intros r s Hr Hs; cbn [In] in Hr, Hs;
  repeat match goal with H : _ \/ _ |- _ => destruct H as [H|H] | H : False |- _ => destruct H end; subst;
  first [left; reflexivity | right; apply apart_coords; unfold re, im; cbn [fst snd]; lra].
Definition factored (f fp : C -> C) (l : list C) : Prop := (forall z, f z = prodr l z) /\ (forall z, fp z = dprodr l z) /\ apart l.
Lemma s3 : sqrt 3 * sqrt 3 = 3 /\ 17 / 10 < sqrt 3 < 18 / 10.
Proof. assert (E : sqrt 3 * sqrt 3 = 3) by (apply sqrt_sqrt; lra). pose proof (sqrt_pos 3). split; [exact E|]. split; nra. Qed.
Lemma quad2 p q z m : p * p + q * q = m -> cmul (csub z (p, q)) (csub z (p, - q)) = cadd (csub (cmul z z) (cmul (rtoc (2 * p)) z)) (rtoc m).
Proof. intros <-. apply quad. Qed.
(** the expansion of a pair of conjugate roots in front *)
Lemma prod_pair p q m l z : p * p + q * q = m -> prodr ((p, q) :: (p, - q) :: l) z = cmul (cadd (csub (cmul z z) (cmul (rtoc (2 * p)) z)) (rtoc m)) (prodr l z).
Proof. intros E. cbn [prodr]. rewrite <- (quad2 p q z m E). ring. Qed.
Lemma dprod_pair p q m l z : p * p + q * q = m -> dprodr ((p, q) :: (p, - q) :: l) z =
  cadd (cmul (csub (cadd z z) (rtoc (2 * p))) (prodr l z)) (cmul (cadd (csub (cmul z z) (cmul (rtoc (2 * p)) z)) (rtoc m)) (dprodr l z)).
Proof. intros E. cbn [dprodr prodr]. rewrite <- (quad2 p q z m E). replace (rtoc (2 * p)) with (cadd (p, q) (p, - q)) by cring. ring. Qed.
Definition w3 := sqrt 3 / 2.
Lemma w3_sq : w3 * w3 = 3 / 4.
Proof. unfold w3. destruct s3 as [E _]. lra. Qed.
Lemma w3_bounds : 8 / 10 < w3 < 9 / 10.
Proof. unfold w3. destruct s3 as [_ E]. lra. Qed.
Ltac start := unfold factored; split; [intros z|split; [intros z|]].
Lemma roots30 : factored (fun z => csub (cmul (cmul z z) z) (rtoc 1)) (fun z => cmul (rtoc 3) (cmul z z)) [(-1 / 2, w3); (-1 / 2, - w3); (1, 0)].
Proof.
  pose proof w3_sq as E. pose proof w3_bounds. assert (M : -1 / 2 * (-1 / 2) + w3 * w3 = 1) by lra. start; [rewrite (prod_pair _ _ _ _ _ M)|rewrite (dprod_pair _ _ _ _ _ M)|aparts];
    cbn [prodr dprodr]; replace (2 * (-1 / 2)) with (-1) by field; cring.
Qed.
Lemma roots40 : factored (fun z => csub (cmul (cmul (cmul z z) z) z) (rtoc 1)) (fun z => cmul (rtoc 4) (cmul (cmul z z) z)) [(1, 0); (-1, 0); (0, 1); (0, -1)].
Proof. start; [cbn [prodr]; cring|cbn [prodr dprodr]; cring|aparts]. Qed.
Lemma roots41 : factored (fun z => csub (cmul (cmul (cmul z z) z) z) z) (fun z => csub (cmul (rtoc 4) (cmul (cmul z z) z)) (rtoc 1)) [(-1 / 2, w3); (-1 / 2, - w3); (1, 0); (0, 0)].
Proof.
  pose proof w3_sq as E. pose proof w3_bounds. assert (M : -1 / 2 * (-1 / 2) + w3 * w3 = 1) by lra. start; [rewrite (prod_pair _ _ _ _ _ M)|rewrite (dprod_pair _ _ _ _ _ M)|aparts];
    cbn [prodr dprodr]; replace (2 * (-1 / 2)) with (-1) by field; cring.
Qed.
Lemma roots51 : factored (fun z => csub (cmul (cmul (cmul (cmul z z) z) z) z) z) (fun z => csub (cmul (rtoc 5) (cmul (cmul (cmul z z) z) z)) (rtoc 1)) [(1, 0); (-1, 0); (0, 1); (0, -1); (0, 0)].
Proof. start; [cbn [prodr]; cring|cbn [prodr dprodr]; cring|aparts]. Qed.
Lemma roots53 : factored (fun z => csub (cmul (cmul (cmul (cmul z z) z) z) z) (cmul (cmul z z) z)) (fun z => csub (cmul (rtoc 5) (cmul (cmul (cmul z z) z) z)) (cmul (rtoc 3) (cmul z z)))
  [(1, 0); (-1, 0); (0, 0); (0, 0); (0, 0)].
Proof. start; [cbn [prodr]; cring|cbn [prodr dprodr]; cring|aparts]. Qed.
Lemma roots60 : factored (fun z => csub (cmul (cmul (cmul (cmul (cmul z z) z) z) z) z) (rtoc 1)) (fun z => cmul (rtoc 6) (cmul (cmul (cmul (cmul z z) z) z) z))
  [(-1 / 2, w3); (-1 / 2, - w3); (1 / 2, w3); (1 / 2, - w3); (1, 0); (-1, 0)].
Proof.
  pose proof w3_sq as E. pose proof w3_bounds. assert (M : -1 / 2 * (-1 / 2) + w3 * w3 = 1) by lra. assert (M2 : 1 / 2 * (1 / 2) + w3 * w3 = 1) by lra.
  start; [rewrite (prod_pair _ _ _ _ _ M), (prod_pair _ _ _ _ _ M2)|rewrite (dprod_pair _ _ _ _ _ M), (dprod_pair _ _ _ _ _ M2), (prod_pair _ _ _ _ _ M2)|aparts];
    cbn [prodr dprodr]; replace (2 * (-1 / 2)) with (-1) by field; replace (2 * (1 / 2)) with 1 by field; cring.
Qed.
Lemma roots50 : exists l, length l = 5%nat /\ factored (fun z => csub (cmul (cmul (cmul (cmul z z) z) z) z) (rtoc 1)) (fun z => cmul (rtoc 5) (cmul (cmul (cmul z z) z) z)) l.
Proof.
  set (t := sqrt 5). assert (T : t * t = 5) by (apply sqrt_sqrt; lra). assert (TB : 22 / 10 < t < 23 / 10) by (pose proof (sqrt_pos 5) as P; fold t in P; split; nra). clearbody t.
  set (p1 := (t - 1) / 4). set (p2 := (- t - 1) / 4). assert (B1 : 3 / 10 <= p1 <= 4 / 10) by (unfold p1; lra). assert (B2 : - (83 / 100) <= p2 <= - (8 / 10)) by (unfold p2; lra).
  set (q1 := sqrt (1 - p1 * p1)). set (q2 := sqrt (1 - p2 * p2)).
  assert (M1 : p1 * p1 + q1 * q1 = 1) by (unfold q1; rewrite sqrt_sqrt by nra; ring). assert (M2 : p2 * p2 + q2 * q2 = 1) by (unfold q2; rewrite sqrt_sqrt by nra; ring).
  assert (Q1 : 0 <= q1) by apply sqrt_pos. assert (Q2 : 0 <= q2) by apply sqrt_pos. assert (Q1' : 9 / 10 <= q1) by nra. assert (Q2' : 5 / 10 <= q2) by nra.
  assert (S : 2 * p2 = - (1 + 2 * p1)) by (unfold p1, p2; field). assert (S2 : 2 * p1 * (2 * p1) = 1 - 2 * p1) by (unfold p1; nra). clearbody q1 q2. 
  exists [(p1, q1); (p1, - q1); (p2, q2); (p2, - q2); (1, 0)]. split; [reflexivity|].
  start; [rewrite (prod_pair _ _ _ _ _ M1), (prod_pair _ _ _ _ _ M2)|rewrite (dprod_pair _ _ _ _ _ M1), (dprod_pair _ _ _ _ _ M2), (prod_pair _ _ _ _ _ M2)|aparts].
  - cbn [prodr]. rewrite S. set (u := 2 * p1) in *. clearbody u. replace (rtoc (- (1 + u))) with (copp (cadd (rtoc 1) (rtoc u))) by cring.
    assert (U : cmul (rtoc u) (rtoc u) = csub (rtoc 1) (rtoc u)) by (apply c_ext; unfold cmul, csub, rtoc, re, im; cbn [fst snd]; lra).
    replace ((1, 0) : C) with (rtoc 1) by reflexivity. set (U1 := rtoc u) in *. clearbody U1.
    match goal with |- ?a = ?b => change (@eq C a b) end. ring [U].
  - cbn [prodr dprodr]. rewrite S. set (u := 2 * p1) in *. clearbody u. replace (rtoc (- (1 + u))) with (copp (cadd (rtoc 1) (rtoc u))) by cring.
    assert (U : cmul (rtoc u) (rtoc u) = csub (rtoc 1) (rtoc u)) by (apply c_ext; unfold cmul, csub, rtoc, re, im; cbn [fst snd]; lra).
    replace ((1, 0) : C) with (rtoc 1) by reflexivity. set (U1 := rtoc u) in *. clearbody U1. nums.
    match goal with |- ?a = ?b => change (@eq C a b) end. ring [U].
Qed.
Lemma cube_root : exists a, 1 < a < 2 /\ a * a * a = (1 + sqrt 5) / 2.
Proof.
  set (t := sqrt 5). assert (T : t * t = 5) by (apply sqrt_sqrt; lra). assert (TB : 22 / 10 < t < 23 / 10) by (pose proof (sqrt_pos 5) as P; fold t in P; split; nra). clearbody t.
  set (phi := (1 + t) / 2). assert (PB : 16 / 10 < phi < 17 / 10) by (unfold phi; lra). exists (Rpower phi (1 / 3)).
  assert (E : Rpower phi (1 / 3) * Rpower phi (1 / 3) * Rpower phi (1 / 3) = phi).
  { rewrite <- !Rpower_plus. replace (1 / 3 + 1 / 3 + 1 / 3) with 1 by field. apply Rpower_1. lra. }
  assert (P : 0 < Rpower phi (1 / 3)) by apply exp_pos. set (a := Rpower phi (1 / 3)) in *. clearbody a. split; [|exact E].
  assert (A2 : 0 < a * a) by nra. split.
  - destruct (Rlt_dec 1 a) as [L|L]; [exact L|]. exfalso. apply Rnot_lt_le in L. assert (a * a <= 1) by nra. assert (a * a * a <= 1) by nra. lra.
  - destruct (Rlt_dec a 2) as [L|L]; [exact L|]. exfalso. apply Rnot_lt_le in L. assert (4 <= a * a) by nra. assert (8 <= a * a * a) by nra. lra.
Qed.
Lemma roots63 : exists l, length l = 6%nat /\ factored (fun z => csub (csub (cmul (cmul (cmul (cmul (cmul z z) z) z) z) z) (cmul (cmul z z) z)) (rtoc 1))
  (fun z => csub (cmul (rtoc 6) (cmul (cmul (cmul (cmul z z) z) z) z)) (cmul (rtoc 3) (cmul z z))) l.
Proof.
  destruct cube_root as (a & (A1 & A2) & A). set (b := / a). assert (AB : a * b = 1) by (apply Rinv_r; lra).
  assert (B1 : 1 / 2 < b < 1). { split; [destruct (Rlt_dec (1 / 2) b) as [L|L]; [exact L|apply Rnot_lt_le in L; assert (a * b <= 2 * (1 / 2)) by nra; nra]|destruct (Rlt_dec b 1) as [L|L]; [exact L|apply Rnot_lt_le in L; nra]]. }
  assert (AB3 : a * a * a * (b * b * b) = 1) by (replace (a * a * a * (b * b * b)) with ((a * b) * (a * b) * (a * b)) by ring; rewrite AB; ring).
  assert (D3 : a * a * a - b * b * b = 1).
  { assert (T : sqrt 5 * sqrt 5 = 5) by (apply sqrt_sqrt; lra). pose proof (sqrt_pos 5) as T1. rewrite A in *. set (t := sqrt 5) in *. set (c := b * b * b) in *. clearbody t c.
    assert ((1 + t) * (c - (t - 1) / 2) = 0) by nra. assert (1 + t <> 0) by lra. assert (c - (t - 1) / 2 = 0) by (apply Rmult_integral in H; destruct H; [contradiction|assumption]). lra. }
  clearbody b. clear A. pose proof w3_sq as W. pose proof w3_bounds as WB.
  assert (M1 : - a / 2 * (- a / 2) + (a * w3) * (a * w3) = a * a) by (replace (a * w3 * (a * w3)) with (a * a * (w3 * w3)) by ring; rewrite W; field).
  assert (M2 : b / 2 * (b / 2) + (b * w3) * (b * w3) = b * b) by (replace (b * w3 * (b * w3)) with (b * b * (w3 * w3)) by ring; rewrite W; field).
  assert (X1 : 8 / 10 <= a * w3) by nra. assert (X2 : 4 / 10 <= b * w3) by nra. 
  exists [(- a / 2, a * w3); (- a / 2, - (a * w3)); (b / 2, b * w3); (b / 2, - (b * w3)); (a, 0); (- b, 0)]. split; [reflexivity|].
  set (u := a * w3) in *. set (v := b * w3) in *. clearbody u v.
  assert (K3 : csub (cmul (cmul (rtoc a) (rtoc a)) (rtoc a)) (cmul (cmul (rtoc b) (rtoc b)) (rtoc b)) = rtoc 1) by (apply c_ext; unfold cmul, csub, rtoc, re, im; cbn [fst snd]; lra).
  assert (K4 : cmul (cmul (cmul (rtoc a) (rtoc a)) (rtoc a)) (cmul (cmul (rtoc b) (rtoc b)) (rtoc b)) = rtoc 1).
  { transitivity (rtoc (a * a * a * (b * b * b))); [cring|now rewrite AB3]. }
  start; [rewrite (prod_pair _ _ _ _ _ M1), (prod_pair _ _ _ _ _ M2)|rewrite (dprod_pair _ _ _ _ _ M1), (dprod_pair _ _ _ _ _ M2), (prod_pair _ _ _ _ _ M2)|aparts].
  - cbn [prodr]. replace (rtoc (2 * (- a / 2))) with (copp (rtoc a)) by (unfold rtoc, copp, re, im; cbn [fst snd]; f_equal; field).
    replace (rtoc (2 * (b / 2))) with (rtoc b) by (f_equal; field). replace (rtoc (a * a)) with (cmul (rtoc a) (rtoc a)) by cring. replace (rtoc (b * b)) with (cmul (rtoc b) (rtoc b)) by cring.
    change ((a, 0) : C) with (rtoc a). replace ((- b, 0) : C) with (copp (rtoc b)) by cring. set (x := rtoc a) in *. set (y := rtoc b) in *. clearbody x y.
    transitivity (csub (csub (cmul (cmul (cmul (cmul (cmul z z) z) z) z) z) (cmul (csub (cmul (cmul x x) x) (cmul (cmul y y) y)) (cmul (cmul z z) z))) (cmul (cmul (cmul x x) x) (cmul (cmul y y) y)));
      [rewrite K3, K4|]; match goal with |- ?a = ?b => change (@eq C a b) end; ring.
  - cbn [prodr dprodr]. replace (rtoc (2 * (- a / 2))) with (copp (rtoc a)) by (unfold rtoc, copp, re, im; cbn [fst snd]; f_equal; field).
    replace (rtoc (2 * (b / 2))) with (rtoc b) by (f_equal; field). replace (rtoc (a * a)) with (cmul (rtoc a) (rtoc a)) by cring. replace (rtoc (b * b)) with (cmul (rtoc b) (rtoc b)) by cring.
    change ((a, 0) : C) with (rtoc a). replace ((- b, 0) : C) with (copp (rtoc b)) by cring. set (x := rtoc a) in *. set (y := rtoc b) in *. clearbody x y.
    transitivity (csub (cmul (rtoc 6) (cmul (cmul (cmul (cmul z z) z) z) z)) (cmul (cmul (rtoc 3) (csub (cmul (cmul x x) x) (cmul (cmul y y) y))) (cmul z z)));
      [rewrite K3|nums]; match goal with |- ?a = ?b => change (@eq C a b) end; ring.
Qed.
Lemma table_roots k f fp : In (k, (f, fp)) funcparamdict -> exists l, length l = Z.to_nat (k / 10) /\ (3 <= length l <= 6)%nat /\ factored f fp l.
Proof.
  intros H. cbn [funcparamdict In] in H. repeat (destruct H as [H|H]; [injection H as <- <- <-|]); [..|destruct H].
  - eexists. split; [|split; [|apply roots30]]; [reflexivity|cbn; lia].
  - eexists. split; [|split; [|apply roots40]]; [reflexivity|cbn; lia].
  - eexists. split; [|split; [|apply roots41]]; [reflexivity|cbn; lia].
  - destruct roots50 as (l & L & F). exists l. split; [exact L|]. split; [lia|exact F].
  - eexists. split; [|split; [|apply roots51]]; [reflexivity|cbn; lia].
  - eexists. split; [|split; [|apply roots53]]; [reflexivity|cbn; lia].
  - eexists. split; [|split; [|apply roots60]]; [reflexivity|cbn; lia].
  - destruct roots63 as (l & L & F). exists l. split; [exact L|]. split; [lia|exact F].
Qed.
(** ** The loop *)
Lemma newton_some f fp tol n : forall i x0 x j, newton_from f fp tol n i x0 = Some (x, j) -> fp x <> (0, 0) /\ cabs (cmul (f x) (cinv (fp x))) < tol.
Proof.
  induction n as [|n IH]; intros i x0 x j H; cbn [newton_from] in H; [discriminate|]. destruct (ceq (fp x0) (0, 0)) eqn:E; [discriminate|].
  destruct (rlt (cabs (cmul (f x0) (cinv (fp x0)))) tol) eqn:T; [|now apply IH in H]. injection H as <- <-. apply ceq_false in E. apply rlt_iff in T. now split.
Qed.
Lemma newton_phi (phi : C -> C) f fp g gp tol n : (forall z, ceq (gp (phi z)) (0, 0) = ceq (fp z) (0, 0)) ->
  (forall z, fp z <> (0, 0) -> csub (phi z) (cmul (g (phi z)) (cinv (gp (phi z)))) = phi (csub z (cmul (f z) (cinv (fp z))))) ->
  (forall z, fp z <> (0, 0) -> cabs (cmul (g (phi z)) (cinv (gp (phi z)))) = cabs (cmul (f z) (cinv (fp z)))) ->
  forall i z, newton_from g gp tol n i (phi z) = match newton_from f fp tol n i z with Some (x, j) => Some (phi x, j) | None => None end.
Proof.
  intros E S A. induction n as [|n IH]; intros i z; cbn [newton_from]; [reflexivity|]. rewrite E. destruct (ceq (fp z) (0, 0)) eqn:Z0; [reflexivity|]. apply ceq_false in Z0.
  rewrite A by exact Z0. destruct (rlt _ tol); [reflexivity|]. rewrite S by exact Z0. apply IH.
Qed.
Lemma cabs_sub_sym u v : cabs (csub u v) = cabs (csub v u).
Proof. rewrite <- cabs_opp. f_equal. ring. Qed.
Lemma cabs_tri u v w : cabs (csub u w) <= cabs (csub u v) + cabs (csub v w).
Proof. replace (csub u w) with (cadd (csub u v) (csub v w)) by ring. apply cabs_triangle. Qed.
(** contraction to a root *)
Lemma newton_contracts f fp r rho q tol : 0 <= q < 1 -> 0 <= rho -> (forall z, cabs (csub z r) <= rho -> fp z <> (0, 0) /\ cabs (csub (csub z (cmul (f z) (cinv (fp z)))) r) <= q * cabs (csub z r)) ->
  forall n z i e, cabs (csub z r) <= e -> e <= rho -> (1 + q) * (e * q ^ n) < tol ->
  exists x j, newton_from f fp tol (S n) i z = Some (x, j) /\ (i <= j <= i + Z.of_nat n)%Z /\ cabs (csub x r) <= e.
Proof.
  intros Q RH H. induction n as [|n IH]; intros z i e D E T; destruct (H z ltac:(lra)) as (N & K).
  - exists z, i. cbn [newton_from]. replace (ceq (fp z) (0, 0)) with false by (symmetry; now apply ceq_false).
    assert (B : cabs (cmul (f z) (cinv (fp z))) < tol).
    { pose proof (cabs_tri z r (csub z (cmul (f z) (cinv (fp z))))) as TR. rewrite (cabs_sub_sym r) in TR.
      replace (csub z (csub z (cmul (f z) (cinv (fp z))))) with (cmul (f z) (cinv (fp z))) in TR by ring. cbn [pow] in T. pose proof (cabs_nonneg (csub z r)). nra. }
    apply rlt_iff in B. rewrite B. split; [reflexivity|]. split; [lia|exact D].
  - remember (S n) as k. cbn [newton_from]. replace (ceq (fp z) (0, 0)) with false by (symmetry; now apply ceq_false).
    destruct (rlt (cabs (cmul (f z) (cinv (fp z)))) tol); [exists z, i; split; [reflexivity|]; split; [lia|exact D]|]. subst k.
    pose proof (cabs_nonneg (csub z r)) as P0. assert (Q1 : q * cabs (csub z r) <= q * e) by (apply Rmult_le_compat_l; lra). assert (Q2 : q * e <= e) by nra.
    destruct (IH (csub z (cmul (f z) (cinv (fp z)))) (i + 1)%Z (q * e)) as (x & j & R1 & R2 & R3); [lra|lra| |].
    + cbn [pow] in T. replace (q * e * q ^ n) with (e * (q * q ^ n)) by ring. exact T.
    + exists x, j. split; [exact R1|]. split; [lia|lra].
Qed.
