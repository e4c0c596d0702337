(** Rounding, and the components of adjusted colours. *)
From Coq Require Import ZArith QArith Qround Qabs Qminmax List Bool Lia Lqa.
From Verif Require Import PyBase Bmp Buffers Exact SpecExact SpecColours CurveProofs ExactProofs Colours.
Import ListNotations.
Open Scope Q_scope.

Ltac zq := rewrite ?inject_Z_plus, ?inject_Z_opp, ?inject_Z_mult in *; change (inject_Z 1) with 1 in *; change (inject_Z 0) with 0 in *.

Lemma rounds_qround q : rounds q (qround q).
Proof.
  split; [apply qround_nearest|]. unfold qround. pose proof (Qfloor_le q) as A. pose proof (Qlt_floor q) as B. set (f := Qfloor q) in *. rewrite inject_Z_plus in B. change (inject_Z 1) with 1 in B.
  destruct (Qcompare (q - inject_Z f) (1 # 2)) eqn:E.
  - destruct (Z.even f) eqn:Ev; intros _; [exact Ev|]. rewrite Z.add_1_r, Z.even_succ, <- Z.negb_even, Ev. reflexivity.
  - apply Qlt_alt in E. intros [H|H]; zq; lra.
  - apply Qgt_alt in E. intros [H|H]; zq; lra.
Qed.
Lemma inject_lt a b : inject_Z a < inject_Z b -> (a < b)%Z.
Proof. intros L. apply Zlt_Qlt in L || (unfold Qlt in L; cbn in L); lia. Qed.
Lemma inject_le a b : inject_Z a <= inject_Z b -> (a <= b)%Z.
Proof. intros L. unfold Qle in L; cbn in L; lia. Qed.
Lemma le_inject a b : (a <= b)%Z -> inject_Z a <= inject_Z b.
Proof. intros L. unfold Qle; cbn; lia. Qed.
Lemma lt_inject a b : (a < b)%Z -> inject_Z a < inject_Z b.
Proof. intros L. unfold Qlt; cbn; lia. Qed.
Lemma rounds_unique p q y z : p == q -> rounds p y -> rounds q z -> y = z.
Proof.
  intros E (A & A') (B & B'). unfold nearest in *.
  assert (L1 : inject_Z y <= inject_Z (z + 1)) by (rewrite inject_Z_plus; change (inject_Z 1) with 1; lra). apply inject_le in L1.
  assert (L2 : inject_Z z <= inject_Z (y + 1)) by (rewrite inject_Z_plus; change (inject_Z 1) with 1; lra). apply inject_le in L2.
  assert (K : forall n, Z.even n = true -> Z.even (n + 1) = true -> False) by (intros n X Y; rewrite Z.add_1_r, Z.even_succ, <- Z.negb_even, X in Y; discriminate).
  destruct (Z.eq_dec y z) as [Q|Q]; auto. exfalso.
  assert (F : (y = z + 1 \/ z = y + 1)%Z) by lia. destruct F as [F|F]; subst.
  - assert (F : inject_Z (z + 1) == inject_Z z + 1) by (rewrite inject_Z_plus; reflexivity). apply (K z); [apply B'; right|apply A'; left]; lra.
  - assert (F : inject_Z (y + 1) == inject_Z y + 1) by (rewrite inject_Z_plus; reflexivity). apply (K y); [apply A'; right|apply B'; left]; lra.
Qed.
Lemma qround_ext p q : p == q -> qround p = qround q.
Proof. intros E. apply (rounds_unique p q); auto using rounds_qround. Qed.
Lemma rounds_le p q y z : p <= q -> rounds p y -> rounds q z -> (y <= z)%Z.
Proof.
  intros L A B. destruct (Qeq_dec p q) as [E|N]; [rewrite (rounds_unique p q y z); auto; lia|].
  destruct A as [A _]. destruct B as [B _]. unfold nearest in *.
  assert (X : inject_Z y < inject_Z (z + 1)) by (rewrite inject_Z_plus; change (inject_Z 1) with 1; assert (p < q) by (apply Qle_lteq in L; tauto); lra).
  apply inject_lt in X. lia.
Qed.
Lemma qround_le p q : p <= q -> (qround p <= qround q)%Z.
Proof. intros L. apply (rounds_le p q); auto using rounds_qround. Qed.
Lemma qround_Z z : qround (inject_Z z) = z.
Proof. now apply nearest_integer. Qed.
Lemma qround_bounds q lo hi : inject_Z lo <= q -> q <= inject_Z hi -> (lo <= qround q <= hi)%Z.
Proof. intros. apply (nearest_between q); auto using qround_nearest. Qed.
Lemma rounds_close q z : rounds q z -> close q z.
Proof. intros [H _]. unfold nearest, close in *. lra. Qed.

Lemma qtrunc_nonneg q : 0 <= q -> inject_Z (qtrunc q) <= q < inject_Z (qtrunc q) + 1.
Proof.
  intros H. unfold qtrunc. assert (E : Qle_bool 0 q = true) by now apply Qle_bool_iff. rewrite E.
  pose proof (Qfloor_le q) as A. pose proof (Qlt_floor q) as B. rewrite inject_Z_plus in B. change (inject_Z 1) with 1 in B. lra.
Qed.
Lemma qtrunc_bounds q lo hi : (0 <= lo)%Z -> inject_Z lo <= q -> q <= inject_Z hi -> (lo <= qtrunc q <= hi)%Z.
Proof.
  intros L A B. pose proof (le_inject 0 lo L) as L'. change (inject_Z 0) with 0 in L'. pose proof (qtrunc_nonneg q ltac:(lra)) as [C D]. split.
  - assert (X : inject_Z lo < inject_Z (qtrunc q + 1)) by (rewrite inject_Z_plus; change (inject_Z 1) with 1; lra). apply inject_lt in X. lia.
  - apply inject_le. lra.
Qed.
Lemma qtrunc_close q : 0 <= q -> close q (qtrunc q).
Proof. intros H. pose proof (qtrunc_nonneg q H). unfold close. lra. Qed.
Lemma qtrunc_unique q z : 0 <= q -> inject_Z z <= q < inject_Z z + 1 -> qtrunc q = z.
Proof.
  intros H [A B]. pose proof (qtrunc_nonneg q H) as [C D].
  assert (X : inject_Z z < inject_Z (qtrunc q + 1)) by (rewrite inject_Z_plus; change (inject_Z 1) with 1; lra). apply inject_lt in X.
  assert (Y : inject_Z (qtrunc q) < inject_Z (z + 1)) by (rewrite inject_Z_plus; change (inject_Z 1) with 1; lra). apply inject_lt in Y. lia.
Qed.
Lemma qtrunc_Z z : (0 <= z)%Z -> qtrunc (inject_Z z) = z.
Proof. intros H. apply qtrunc_unique; [now apply (le_inject 0)|lra]. Qed.
Lemma qtrunc_le p q : 0 <= p -> p <= q -> (qtrunc p <= qtrunc q)%Z.
Proof.
  intros H L. pose proof (qtrunc_nonneg p H) as [A B]. pose proof (qtrunc_nonneg q ltac:(lra)) as [C D].
  assert (X : inject_Z (qtrunc p) < inject_Z (qtrunc q + 1)) by (rewrite inject_Z_plus; change (inject_Z 1) with 1; lra). apply inject_lt in X. lia.
Qed.

(** ** Adjusted colours *)
Lemma setminmax_clamped v lo hi : (lo <= hi)%Z -> setminmax v lo hi = clamped lo hi v.
Proof. intros H. unfold setminmax, setmax, setmin, clamped. destruct (Z.gtb_spec v hi); destruct (Z.ltb_spec v lo); try lia; repeat match goal with |- context [(?a <? ?b)%Z] => destruct (Z.ltb_spec a b) | |- context [(?a >? ?b)%Z] => destruct (Z.gtb_spec a b) end; lia. Qed.
Lemma intsetminmax_clamped q : intsetminmax q 0 255 = clamped 0 255 (qround q).
Proof. unfold intsetminmax, clamped. lia. Qed.

Lemma lum_pos c : bytes3 c -> (0 < (let '(r, g, b) := c in let lum := Z.max (Z.max r g) b in if lum =? 0 then 1 else lum) < 256)%Z.
Proof. destruct c as [[r g] b]. cbn. intros H. destruct (Z.eqb_spec (Z.max (Z.max r g) b) 0); lia. Qed.
(** the luminosity of a colour that is not black, and 1 *)
Definition lum1 (c : Z * Z * Z) : Z := Z.max 1 (brightest c).
Lemma factors_lum c : bytes3 c -> exists f, RGBtoRGBfactorsandlum c = (f, lum1 c) /\
  let '(r, g, b) := c in let l := inject_Z (lum1 c) in f = (inject_Z r / l, inject_Z g / l, inject_Z b / l).
Proof.
  destruct c as [[r g] b]. cbn -[inject_Z]. intros H. unfold lum1, brightest. cbn -[inject_Z Z.max].
  assert (E : (if Z.max (Z.max r g) b =? 0 then 1 else Z.max (Z.max r g) b)%Z = Z.max 1 (Z.max r (Z.max g b))) by (destruct (Z.eqb_spec (Z.max (Z.max r g) b) 0); lia).
  rewrite E. eexists. split; reflexivity.
Qed.
Lemma lum1_pos c : 0 < inject_Z (lum1 c).
Proof. apply (lt_inject 0). unfold lum1. lia. Qed.
Lemma byte_lum c : bytes3 c -> let '(r, g, b) := c in (0 <= r <= lum1 c /\ 0 <= g <= lum1 c /\ 0 <= b <= lum1 c)%Z.
Proof. destruct c as [[r g] b]. cbn. unfold lum1, brightest. lia. Qed.

Lemma scaled_eq v l t : 0 < l -> v / l * t == v * (t / l).
Proof. intros H. field. lra. Qed.

Lemma brightness_each p c : bytes3 c ->
  each (fun v z => z = clamped 0 255 (qround (inject_Z v * (1 + p / 100)))) c (brightnessadjust p c).
Proof.
  intros H. unfold brightnessadjust. destruct (factors_lum c H) as (f & E & F). rewrite E. pose proof (lum1_pos c) as L. destruct c as [[r g] b].
  cbv zeta in F. rewrite F. unfold RGBfactors2RGB, setminmax3. cbn [each].
  rewrite !setminmax_clamped by lia. set (l := inject_Z (lum1 (r, g, b))) in *.
  repeat split; apply f_equal; apply qround_ext; field; lra.
Qed.
Lemma scaled_each c t : bytes3 c -> forall f, RGBtoRGBfactorsandlum c = (f, lum1 c) ->
  each (fun v z => rounds (inject_Z v * (t / inject_Z (lum1 c))) z) c (RGBfactors2RGB f t).
Proof.
  intros H f0 E0. destruct (factors_lum c H) as (f & E & F). rewrite E0 in E. injection E as ->. pose proof (lum1_pos c) as L. destruct c as [[r g] b].
  cbv zeta in F. rewrite F. unfold RGBfactors2RGB. cbn [each]. set (l := inject_Z (lum1 (r, g, b))) in *.
  assert (K : forall a b, a == b -> rounds a (qround b)) by (intros a0 b0 E1; rewrite <- (qround_ext _ _ E1); apply rounds_qround).
  split; [|split]; apply K; field; lra.
Qed.
