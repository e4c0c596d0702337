(** Python's complex numbers over the real numbers in place of floats: arithmetic, absolute
    value, integer powers and functions of cmath (CPython, Objects/complexobject.c,
    Modules/cmathmodule.c; overflow and rounding are left out). *)
From Coq Require Import ZArith Reals Lra Lia List Bool Ring.
From Verif Require Import PyBase Bmp Coords.
Import ListNotations.
Open Scope R_scope.

Definition C := (R * R)%type.
Definition re (z : C) : R := fst z.
Definition im (z : C) : R := snd z.
Definition rtoc (x : R) : C := (x, 0).
Definition cI : C := (0, 1).
Definition cadd (u v : C) : C := (re u + re v, im u + im v).
Definition csub (u v : C) : C := (re u - re v, im u - im v).
Definition cmul (u v : C) : C := (re u * re v - im u * im v, re u * im v + im u * re v).
Definition copp (u : C) : C := (- re u, - im u).
Definition cconj (u : C) : C := (re u, - im u).
Definition norm2 (u : C) : R := re u * re u + im u * im u.
Definition cabs (u : C) : R := sqrt (norm2 u).
Definition cinv (u : C) : C := (re u / norm2 u, - im u / norm2 u).
Definition ceq (u v : C) : bool := req (re u) (re v) && req (im u) (im v).
(** u / v *)
Definition cdiv (u v : C) : res C := if ceq v (0, 0) then Err ZeroDivisionError else Ok (cmul u (cinv v)).
(** z ** d for an integer d *)
Fixpoint cpown (z : C) (n : nat) : C := match n with O => rtoc 1 | S n => cmul z (cpown z n) end.
Definition cpow (z : C) (d : Z) : res C :=
  if (d <? 0)%Z then if ceq z (0, 0) then Err ZeroDivisionError else Ok (cinv (cpown z (Z.to_nat (- d))))
  else Ok (cpown z (Z.to_nat d)).
(** cmath.exp, sin, cos, sinh, cosh, tan, tanh; at the poles of tan and tanh, which no float
    hits, the model has another value. *)
Definition cexp (z : C) : C := (exp (re z) * cos (im z), exp (re z) * sin (im z)).
Definition csin (z : C) : C := (sin (re z) * cosh (im z), cos (re z) * sinh (im z)).
Definition ccos (z : C) : C := (cos (re z) * cosh (im z), - (sin (re z) * sinh (im z))).
Definition csinh (z : C) : C := (sinh (re z) * cos (im z), cosh (re z) * sin (im z)).
Definition ccosh (z : C) : C := (cosh (re z) * cos (im z), sinh (re z) * sin (im z)).
Definition ctan (z : C) : C := cmul (csin z) (cinv (ccos z)).
Definition ctanh (z : C) : C := cmul (csinh z) (cinv (ccosh z)).

(** ** Facts *)
Lemma c_ext (u v : C) : re u = re v -> im u = im v -> u = v.
Proof. destruct u, v. cbn. congruence. Qed.
Ltac cring := apply c_ext; unfold cadd, csub, cmul, copp, cconj, rtoc, cI, re, im; cbn [fst snd]; ring.
Lemma C_ring : @ring_theory C (0, 0) (rtoc 1) cadd cmul csub copp (@eq C).
Proof. constructor; intros; cring. Qed.
Add Ring Cring : C_ring.

Lemma norm2_nonneg u : 0 <= norm2 u.
Proof. unfold norm2. nra. Qed.
Lemma norm2_mul u v : norm2 (cmul u v) = norm2 u * norm2 v.
Proof. unfold norm2, cmul, re, im. cbn [fst snd]. ring. Qed.
Lemma norm2_0 u : norm2 u = 0 -> u = (0, 0).
Proof. unfold norm2. intros H. apply c_ext; unfold re, im in *; cbn [fst snd]; nra. Qed.
Lemma cabs_nonneg u : 0 <= cabs u.
Proof. apply sqrt_pos. Qed.
Lemma cabs_sq u : cabs u * cabs u = norm2 u.
Proof. apply sqrt_sqrt, norm2_nonneg. Qed.
Lemma cabs_mul u v : cabs (cmul u v) = cabs u * cabs v.
Proof. unfold cabs. rewrite norm2_mul. apply sqrt_mult; apply norm2_nonneg. Qed.
Lemma cabs_opp u : cabs (copp u) = cabs u.
Proof. unfold cabs. f_equal. unfold norm2, copp, re, im. cbn [fst snd]. ring. Qed.
Lemma cabs_conj u : cabs (cconj u) = cabs u.
Proof. unfold cabs. f_equal. unfold norm2, cconj, re, im. cbn [fst snd]. ring. Qed.
Lemma cabs_real x : cabs (rtoc x) = Rabs x.
Proof. unfold cabs, norm2, rtoc, re, im. cbn [fst snd]. replace (x * x + 0 * 0) with (Rsqr x) by (unfold Rsqr; ring). apply sqrt_Rsqr_abs. Qed.
Lemma cabs_0 : cabs (0, 0) = 0.
Proof. change (0, 0) with (rtoc 0). rewrite cabs_real. apply Rabs_R0. Qed.
Lemma cabs_1 : cabs (rtoc 1) = 1.
Proof. rewrite cabs_real. apply Rabs_R1. Qed.
Lemma cabs_zero u : cabs u = 0 -> u = (0, 0).
Proof. intros H. apply norm2_0. rewrite <- cabs_sq, H. ring. Qed.
Lemma cabs_pos u : u <> (0, 0) -> 0 < cabs u.
Proof. intros H. destruct (cabs_nonneg u) as [L|E]; [exact L|]. exfalso. apply H, cabs_zero. now symmetry. Qed.
Lemma le_of_sq a b : 0 <= b -> a * a <= b * b -> a <= b.
Proof. intros. nra. Qed.
Lemma lt_of_sq a b : 0 <= b -> a * a < b * b -> a < b.
Proof. intros. nra. Qed.
Lemma cabs_triangle u v : cabs (cadd u v) <= cabs u + cabs v.
Proof.
  apply le_of_sq; [pose proof (cabs_nonneg u); pose proof (cabs_nonneg v); lra|].
  replace ((cabs u + cabs v) * (cabs u + cabs v)) with (norm2 u + norm2 v + 2 * (cabs u * cabs v)) by (rewrite <- !cabs_sq; ring).
  rewrite cabs_sq. destruct u as [a b], v as [c d]. unfold norm2 at 1, cadd, re, im. cbn [fst snd].
  assert (K : a * c + b * d <= cabs (a, b) * cabs (c, d)).
  { apply le_of_sq; [apply Rmult_le_pos; apply cabs_nonneg|].
    replace (cabs (a, b) * cabs (c, d) * (cabs (a, b) * cabs (c, d))) with (norm2 (a, b) * norm2 (c, d)) by (rewrite <- !cabs_sq; ring).
    unfold norm2, re, im. cbn [fst snd]. pose proof (Rle_0_sqr (a * d - b * c)) as Q. unfold Rsqr in Q. nra. }
  unfold norm2, re, im. cbn [fst snd]. lra.
Qed.
Lemma cabs_sub_ge u v : cabs u - cabs v <= cabs (cadd u v).
Proof.
  pose proof (cabs_triangle (cadd u v) (copp v)) as T. rewrite cabs_opp in T.
  replace (cadd (cadd u v) (copp v)) with u in T by ring. lra.
Qed.
Lemma cabs_re u : Rabs (re u) <= cabs u.
Proof.
  apply le_of_sq; [apply cabs_nonneg|]. rewrite cabs_sq. unfold norm2. pose proof (Rsqr_abs (re u)) as E. unfold Rsqr in E. rewrite <- E. nra.
Qed.
Lemma cabs_im u : Rabs (im u) <= cabs u.
Proof.
  apply le_of_sq; [apply cabs_nonneg|]. rewrite cabs_sq. unfold norm2. pose proof (Rsqr_abs (im u)) as E. unfold Rsqr in E. rewrite <- E. nra.
Qed.
Lemma cpown_abs z n : cabs (cpown z n) = cabs z ^ n.
Proof. induction n as [|n IH]; cbn [cpown pow]; [apply cabs_1|]. now rewrite cabs_mul, IH. Qed.
Lemma cpown_mul u v n : cpown (cmul u v) n = cmul (cpown u n) (cpown v n).
Proof. induction n as [|n IH]; cbn [cpown]; [cring|]. rewrite IH. ring. Qed.
Lemma cpown_add u n m : cpown u (n + m) = cmul (cpown u n) (cpown u m).
Proof. induction n as [|n IH]; cbn [cpown Nat.add]; [ring|]. rewrite IH. ring. Qed.
Lemma cconj_mul u v : cconj (cmul u v) = cmul (cconj u) (cconj v).
Proof. cring. Qed.
Lemma cconj_add u v : cconj (cadd u v) = cadd (cconj u) (cconj v).
Proof. cring. Qed.
Lemma cconj_inv u : cconj (cinv u) = cinv (cconj u).
Proof. unfold cinv, cconj, norm2, re, im. cbn [fst snd]. replace (- snd u * - snd u) with (snd u * snd u) by ring. f_equal. unfold Rdiv. ring. Qed.
Lemma cconj_conj u : cconj (cconj u) = u.
Proof. cring. Qed.
Lemma cconj_pown z n : cconj (cpown z n) = cpown (cconj z) n.
Proof. induction n as [|n IH]; cbn [cpown]; [cring|]. now rewrite cconj_mul, IH. Qed.
Lemma cmul_inv u : u <> (0, 0) -> cmul u (cinv u) = rtoc 1.
Proof.
  intros H. assert (N : norm2 u <> 0) by (intros E; apply H, norm2_0, E). apply c_ext; unfold cmul, cinv, rtoc, re, im; cbn [fst snd].
  - unfold norm2, re, im in *. field. exact N.
  - unfold norm2, re, im in *. field. exact N.
Qed.
Lemma cabs_inv u : u <> (0, 0) -> cabs (cinv u) = / cabs u.
Proof.
  intros H. pose proof (cabs_pos u H) as P. pose proof (f_equal cabs (cmul_inv u H)) as E. rewrite cabs_mul, cabs_1 in E.
  apply Rmult_eq_reg_l with (cabs u); [|lra]. rewrite E. field. lra.
Qed.
Lemma cmul_zero u v : cmul u v = (0, 0) -> u = (0, 0) \/ v = (0, 0).
Proof.
  intros E. pose proof (f_equal cabs E) as A. rewrite cabs_mul, cabs_0 in A. apply Rmult_integral in A. destruct A as [A|A]; [left|right]; now apply cabs_zero.
Qed.
Lemma ceq_spec u v : ceq u v = true <-> u = v.
Proof.
  unfold ceq, req. destruct (Req_EM_T (re u) (re v)), (Req_EM_T (im u) (im v)); cbn; split; intros H; try discriminate; try reflexivity; try (subst; congruence).
  now apply c_ext.
Qed.
Lemma ceq_false u v : ceq u v = false <-> u <> v.
Proof. rewrite <- ceq_spec. destruct (ceq u v); split; congruence. Qed.
Lemma cconj_exp z : cconj (cexp z) = cexp (cconj z).
Proof. unfold cconj, cexp, re, im. cbn [fst snd]. rewrite cos_neg, sin_neg. f_equal; ring. Qed.
Lemma sinh_neg x : sinh (- x) = - sinh x.
Proof. unfold sinh. rewrite Ropp_involutive. field. Qed.
Lemma cosh_neg x : cosh (- x) = cosh x.
Proof. unfold cosh. rewrite Ropp_involutive. field. Qed.
Lemma cconj_sin z : cconj (csin z) = csin (cconj z).
Proof. unfold cconj, csin, re, im. cbn [fst snd]. rewrite cosh_neg, sinh_neg. f_equal; ring. Qed.
Lemma cconj_cos z : cconj (ccos z) = ccos (cconj z).
Proof. unfold cconj, ccos, re, im. cbn [fst snd]. rewrite cosh_neg, sinh_neg. f_equal; ring. Qed.
Lemma cconj_sinh z : cconj (csinh z) = csinh (cconj z).
Proof. unfold cconj, csinh, re, im. cbn [fst snd]. rewrite cos_neg, sin_neg. f_equal; ring. Qed.
Lemma cconj_cosh z : cconj (ccosh z) = ccosh (cconj z).
Proof. unfold cconj, ccosh, re, im. cbn [fst snd]. rewrite cos_neg, sin_neg. f_equal; ring. Qed.
Lemma cconj_tan z : cconj (ctan z) = ctan (cconj z).
Proof. unfold ctan. now rewrite cconj_mul, cconj_inv, cconj_sin, cconj_cos. Qed.
Lemma cconj_tanh z : cconj (ctanh z) = ctanh (cconj z).
Proof. unfold ctanh. now rewrite cconj_mul, cconj_inv, cconj_sinh, cconj_cosh. Qed.
Lemma csin_opp z : csin (copp z) = copp (csin z).
Proof. unfold copp, csin, re, im. cbn [fst snd]. rewrite sin_neg, cos_neg, cosh_neg, sinh_neg. f_equal; ring. Qed.
Lemma ccos_opp z : ccos (copp z) = ccos z.
Proof. unfold copp, ccos, re, im. cbn [fst snd]. rewrite sin_neg, cos_neg, cosh_neg, sinh_neg. f_equal; ring. Qed.
