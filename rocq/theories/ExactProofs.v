From Coq Require Import ZArith QArith Qround List Bool Lia Lqa.
From Verif Require Import PyBase PyFacts Bmp Geometry HeaderProofs MathLib Solids SurfProofs SpecExact Exact.
Import ListNotations.
Open Scope Q_scope.
Open Scope py_scope.

(** ** sums *)
Lemma lsum_ext {A} (f g : A -> Q) l : (forall a, In a l -> f a == g a) -> lsum f l == lsum g l.
Proof. induction l as [|a l IH]; intros H; cbn [lsum]; [reflexivity|]. assert (E : lsum f l == lsum g l) by (apply IH; intros; apply H; now right). rewrite E, (H a (or_introl eq_refl)). reflexivity. Qed.
Lemma lsum_add {A} (f g : A -> Q) l : lsum (fun a => f a + g a) l == lsum f l + lsum g l.
Proof. induction l as [|a l IH]; cbn [lsum]; [ring|]. rewrite IH. ring. Qed.
Lemma lsum_mul {A} c (f : A -> Q) l : lsum (fun a => c * f a) l == c * lsum f l.
Proof. induction l as [|a l IH]; cbn [lsum]; [ring|]. rewrite IH. ring. Qed.
Lemma lsum_const {A} c (l : list A) : lsum (fun _ => c) l == inject_Z (zlen l) * c.
Proof.
  induction l as [|a l IH]; [cbn; ring|]. cbn [lsum]. rewrite IH. unfold zlen. cbn [length]. rewrite Nat2Z.inj_succ. unfold Z.succ. rewrite inject_Z_plus. ring.
Qed.
Lemma lsum_nonneg {A} (f : A -> Q) l : (forall a, In a l -> 0 <= f a) -> 0 <= lsum f l.
Proof. induction l as [|a l IH]; intros H; cbn [lsum]; [lra|]. pose proof (H a (or_introl eq_refl)). assert (0 <= lsum f l) by (apply IH; intros; apply H; now right). lra. Qed.
Lemma lsum_zero {A} (f : A -> Q) l : (forall a, In a l -> 0 <= f a) -> lsum f l == 0 -> forall a, In a l -> f a == 0.
Proof.
  induction l as [|b l IH]; intros H E a Ha; [destruct Ha|]. cbn [lsum] in E. pose proof (H b (or_introl eq_refl)).
  assert (0 <= lsum f l) by (apply lsum_nonneg; intros; apply H; now right). destruct Ha as [->|Ha]; [lra|]. apply IH; auto; [intros; apply H; now right|lra].
Qed.
Lemma py_sum_from l : forall a, fold_left Z.add l a = (a + fold_right Z.add 0 l)%Z.
Proof. induction l as [|b l IH]; intros a; cbn [fold_left fold_right]; [lia|]. rewrite IH. lia. Qed.
Lemma py_sum_map {A} (f : A -> Z) l : inject_Z (py_sum (map f l)) == lsum (fun a => inject_Z (f a)) l.
Proof.
  unfold py_sum. rewrite py_sum_from, Z.add_0_l. induction l as [|a l IH]; cbn [map fold_right lsum]; [reflexivity|]. rewrite inject_Z_plus, IH. reflexivity.
Qed.
Lemma zipwith_map {A} (g : Z -> Z -> Z) (f h : A -> Z) l : zipwith g (map f l) (map h l) = map (fun a => g (f a) (h a)) l.
Proof. induction l as [|a l IH]; [reflexivity|]. cbn [map zipwith]. now rewrite IH. Qed.
Lemma inject_neg a : inject_Z (- a) == - inject_Z a.
Proof. reflexivity. Qed.
Lemma inject_minus a b : inject_Z (a - b) == inject_Z a - inject_Z b.
Proof. unfold Z.sub. rewrite inject_Z_plus. reflexivity. Qed.
Lemma square_nonneg (x : Q) : 0 <= x * x.
Proof. nra. Qed.
Lemma square_zero (x : Q) : x * x == 0 -> x == 0.
Proof. intros H. destruct (Qmult_integral _ _ H); auto. Qed.

(** the table of the data *)
Definition table (rows : list (list Z)) (pts : list (Z * Z)) : Prop :=
  exists k : nat, Forall2 (fun row p => exists t, row = fst p :: snd p :: t /\ length t = k) rows pts.
Lemma table_col rows pts i (f : Z * Z -> Z) : (exists k : nat, Forall2 (fun row p => exists t, row = fst p :: snd p :: t /\ length t = k) rows pts) ->
  (forall x y t, (i <? zlen (x :: y :: t))%Z = true /\ getz (x :: y :: t) i = f (x, y)) -> pivotcol rows i = Ok (map f pts).
Proof.
  intros [k H] Hf. induction H as [|row p rows pts (t & -> & _) _ IH]; [reflexivity|]. cbn [pivotcol map].
  destruct (Hf (fst p) (snd p) t) as [-> ->]. rewrite IH. cbn [rbind]. now destruct p.
Qed.
Lemma table_len rows pts : table rows pts -> zlen rows = zlen pts.
Proof. intros [k H]. unfold zlen. f_equal. induction H; cbn [length]; congruence. Qed.
Lemma table_pivot rows pts : pts <> [] -> table rows pts ->
  exists XY, pivotlist rows = Ok XY /\ item XY 0 = Ok (map fst pts) /\ item XY 1 = Ok (map snd pts).
Proof.
  intros N T. assert (C0 : pivotcol rows 0 = Ok (map fst pts)).
  { apply table_col; [exact T|]. intros x y t. split; [|reflexivity]. unfold zlen. cbn [length]. apply Z.ltb_lt. lia. }
  assert (C1 : pivotcol rows 1 = Ok (map snd pts)).
  { apply table_col; [exact T|]. intros x y t. split; [|reflexivity]. unfold zlen. cbn [length]. apply Z.ltb_lt. lia. }
  destruct T as [k H]. assert (Hk : forall i, (0 <= i < Z.of_nat k + 2)%Z -> exists c, pivotcol rows i = Ok c).
  { intros i Hi. clear C0 C1 N. induction H as [|row p rows pts (t & -> & Hl) _ [c IH]]; [now exists []|]. cbn [pivotcol]. rewrite IH. cbn [rbind].
    replace (i <? zlen (fst p :: snd p :: t))%Z with true; [eauto|]. symmetry. apply Z.ltb_lt. unfold zlen. cbn [length]. lia. }
  destruct H as [|row p rows pts (t & E & Hl) H]; [contradiction|]. unfold pivotlist.
  remember (row :: rows) as all. clear Heqall. 
  replace (zlen row) with (Z.of_nat k + 2)%Z by (subst row; unfold zlen; cbn [length]; lia).
  assert (M : forall l, (forall i, In i l -> exists c, pivotcol all i = Ok c) -> exists r, res_map (pivotcol all) l = Ok r).
  { induction l as [|i l IH]; intros G; [now exists []|]. cbn [res_map]. destruct (G i (or_introl eq_refl)) as [c ->]. cbn [rbind].
    destruct IH as [r ->]; [intros; apply G; now right|]. cbn [rbind]. eauto. }
  rewrite (range_cons 0) by lia. rewrite (range_cons (0 + 1)) by lia. cbn [res_map]. rewrite C0. cbn [rbind]. change (0 + 1)%Z with 1%Z. rewrite C1. cbn [rbind].
  destruct (M (range (1 + 1) (Z.of_nat k + 2))) as [r ->]; [intros i Hi; apply in_range in Hi; apply Hk; lia|]. cbn [rbind].
  eexists. split; [reflexivity|]. split; reflexivity.
Qed.

Ltac sumto f g :=
  cbv beta; let E := fresh in assert (E : forall l, lsum f l == lsum g l) by (intros; apply lsum_ext; intros; cbv beta; rewrite ?inject_Z_mult; ring); rewrite E; clear E.
Ltac sumto1 g :=
  cbv beta; match goal with |- context [lsum ?f ?l] => let E := fresh in assert (E : lsum f l == lsum g l) by (apply lsum_ext; intros; cbv beta; ring); rewrite E; clear E end.
Section Points.
  Variable pts : list (Z * Z).
  Notation X := (fun p : Z * Z => inject_Z (fst p)). Notation Y := (fun p : Z * Z => inject_Z (snd p)).
  Let N := inject_Z (zlen pts).
  Let Sx := lsum X pts. Let Sy := lsum Y pts.
  Let Sxx := lsum (fun p => X p * X p) pts. Let Sxy := lsum (fun p => X p * Y p) pts. Let Syy := lsum (fun p => Y p * Y p) pts.
  Definition slopeden : Z := zlen pts * py_sum (mulvect (map fst pts) (map fst pts)) - py_sum (map fst pts) ^ 2.
  Definition slopenum : Z := zlen pts * py_sum (mulvect (map fst pts) (map snd pts)) - py_sum (map fst pts) * py_sum (map snd pts).
  Definition slopeden' : Z := zlen pts * py_sum (mulvect (map snd pts) (map snd pts)) - py_sum (map snd pts) ^ 2.
  Lemma den_eq : inject_Z slopeden == N * Sxx - Sx * Sx.
  Proof.
    unfold slopeden, mulvect. rewrite zipwith_map, inject_minus, inject_Z_mult, !py_sum_map, Z.pow_2_r, inject_Z_mult, py_sum_map. fold N Sx.
    sumto (fun a : Z * Z => inject_Z (fst a * fst a)) (fun p => X p * X p). reflexivity.
  Qed.
  Lemma den'_eq : inject_Z slopeden' == N * Syy - Sy * Sy.
  Proof.
    unfold slopeden', mulvect. rewrite zipwith_map, inject_minus, inject_Z_mult, !py_sum_map, Z.pow_2_r, inject_Z_mult, py_sum_map. fold N Sy.
    sumto (fun a : Z * Z => inject_Z (snd a * snd a)) (fun p => Y p * Y p). reflexivity.
  Qed.
  Lemma num_eq : inject_Z slopenum == N * Sxy - Sx * Sy.
  Proof.
    unfold slopenum, mulvect. rewrite zipwith_map, inject_minus, !inject_Z_mult, !py_sum_map. fold N Sx Sy.
    sumto (fun a : Z * Z => inject_Z (fst a * snd a)) (fun p => X p * Y p). reflexivity.
  Qed.
  (** N * den is a sum of squares *)
  Lemma den_squares : N * inject_Z slopeden == lsum (fun p => (N * X p - Sx) * (N * X p - Sx)) pts.
  Proof.
    rewrite den_eq. sumto (fun p => (N * X p - Sx) * (N * X p - Sx)) (fun p => ((N * N) * (X p * X p) + (- (2) * N * Sx) * X p) + Sx * Sx).
    rewrite !lsum_add, !lsum_mul, lsum_const. fold Sxx Sx N. ring.
  Qed.
  Hypothesis NE : pts <> [].
  Lemma N_pos : 0 < N.
  Proof. unfold N, zlen. destruct pts; [contradiction|]. unfold Qlt. cbn. lia. Qed.
  Lemma den_nonneg : (0 <= slopeden)%Z.
  Proof.
    assert (0 <= inject_Z slopeden).
    { pose proof N_pos. pose proof den_squares as E. assert (0 <= N * inject_Z slopeden) by (rewrite E; apply lsum_nonneg; intros; apply square_nonneg). nra. }
    unfold Qle in H. cbn in H. lia.
  Qed.
  (** den = 0 exactly if all x are equal *)
  Lemma den_zero : slopeden = 0%Z <-> (forall p q, In p pts -> In q pts -> fst p = fst q).
  Proof.
    pose proof N_pos as NP. split.
    - intros E. pose proof den_squares as D. rewrite E in D. change (inject_Z 0) with 0 in D. rewrite Qmult_0_r in D. symmetry in D.
      assert (G : forall p, In p pts -> N * X p == Sx).
      { intros p Hp. pose proof (lsum_zero _ _ (fun a _ => square_nonneg _) D p Hp) as Z. apply square_zero in Z. lra. }
      intros p q Hp Hq. pose proof (G p Hp) as A. pose proof (G q Hq) as B. assert (X p == X q) by (rewrite <- B in A; apply (Qmult_inj_l _ _ N); lra).
      unfold Qeq in H. cbn in H. lia.
    - intros H. assert (HE : exists p0, In p0 pts) by (clear - NE; destruct pts as [|p0 l]; [contradiction|exists p0; now left]). destruct HE as [p0 Ep].
      assert (D : inject_Z slopeden == 0).
      { rewrite den_eq. assert (E1 : Sx == N * X p0).
        { unfold Sx, N. rewrite <- lsum_const. apply lsum_ext. intros p Hp. now rewrite (H p p0 Hp Ep). }
        assert (E2 : Sxx == N * (X p0 * X p0)).
        { unfold Sxx, N. rewrite <- lsum_const. apply lsum_ext. intros p Hp. now rewrite (H p p0 Hp Ep). }
        rewrite E1, E2. ring. }
      unfold Qeq in D. cbn in D. lia.
  Qed.
  (** Cauchy and Schwarz *)
  Lemma num_bound : inject_Z slopenum * inject_Z slopenum <= inject_Z slopeden * inject_Z slopeden'.
  Proof.
    pose proof N_pos as NP.
    set (U := fun p : Z * Z => N * X p - Sx). set (V := fun p : Z * Z => N * Y p - Sy).
    assert (Euu : lsum (fun p => U p * U p) pts == N * inject_Z slopeden) by (symmetry; apply den_squares).
    assert (Evv : lsum (fun p => V p * V p) pts == N * inject_Z slopeden').
    { rewrite den'_eq. unfold V. sumto (fun p => (N * Y p - Sy) * (N * Y p - Sy)) (fun p => ((N * N) * (Y p * Y p) + (- (2) * N * Sy) * Y p) + Sy * Sy).
      rewrite !lsum_add, !lsum_mul, lsum_const. fold Syy Sy N. ring. }
    assert (Euv : lsum (fun p => U p * V p) pts == N * inject_Z slopenum).
    { rewrite num_eq. unfold U, V. sumto (fun p => (N * X p - Sx) * (N * Y p - Sy)) (fun p => (((N * N) * (X p * Y p) + (- N * Sy) * X p) + (- N * Sx) * Y p) + Sx * Sy).
      rewrite !lsum_add, !lsum_mul, lsum_const. fold Sxy Sx Sy N. ring. }
    set (a := lsum (fun p => U p * U p) pts) in *. set (b := lsum (fun p => U p * V p) pts) in *. set (c := lsum (fun p => V p * V p) pts) in *.
    assert (Q : 0 <= a * (a * c - b * b)).
    { assert (E : a * (a * c - b * b) == lsum (fun p => (a * V p - b * U p) * (a * V p - b * U p)) pts).
      { sumto (fun p => (a * V p - b * U p) * (a * V p - b * U p)) (fun p => ((a * a) * (V p * V p) + (- (2) * a * b) * (U p * V p)) + (b * b) * (U p * U p)).
        rewrite !lsum_add, !lsum_mul. fold a b c. ring. }
      rewrite E. apply lsum_nonneg. intros. apply square_nonneg. }
    assert (A0 : 0 <= a) by (apply lsum_nonneg; intros; apply square_nonneg).
    assert (G : b * b <= a * c).
    { destruct (Qlt_le_dec 0 a) as [P|P]; [nra|]. assert (A : a == 0) by lra.
      assert (B : b == 0).
      { unfold b. transitivity (lsum (fun p => 0 * V p) pts); [|rewrite lsum_mul; ring]. apply lsum_ext. intros p Hp. unfold a in A.
        pose proof (lsum_zero _ _ (fun q _ => square_nonneg (U q)) A p Hp) as Z. apply square_zero in Z. rewrite Z. ring. }
      rewrite A, B. lra. }
    rewrite Euu, Evv, Euv in G. set (n := inject_Z slopenum) in *. set (d := inject_Z slopeden) in *. set (d' := inject_Z slopeden') in *.
    assert (N * N * (n * n) <= N * N * (d * d')) by lra. assert (0 < N * N) by nra. nra.
  Qed.
  (** least squares *)
  Lemma normal_equations m b : (0 < slopeden)%Z -> m == inject_Z slopenum / inject_Z slopeden -> b == Sy / N - m * (Sx / N) ->
    lsum (fun p => Y p - (m * X p + b)) pts == 0 /\ lsum (fun p => X p * (Y p - (m * X p + b))) pts == 0.
  Proof.
    intros HD Em Eb. pose proof N_pos as NP. assert (D0 : ~ N * Sxx - Sx * Sx == 0).
    { rewrite <- den_eq. unfold Qeq. cbn. lia. }
    assert (N0 : ~ N == 0) by lra. rewrite num_eq, den_eq in Em.
    assert (A : lsum (fun p => Y p - (m * X p + b)) pts == Sy - m * Sx - N * b).
    { sumto1 (fun p => (Y p + (- m) * X p) + - b). rewrite !lsum_add, lsum_mul, lsum_const. fold Sx Sy N. ring. }
    assert (B : lsum (fun p => X p * (Y p - (m * X p + b))) pts == Sxy - m * Sxx - b * Sx).
    { sumto1 (fun p => (X p * Y p + (- m) * (X p * X p)) + (- b) * X p). rewrite !lsum_add, !lsum_mul. fold Sx Sxx Sxy. ring. }
    rewrite A, B, Eb, Em. split; field; auto.
  Qed.
  Lemma least m b m' b' : lsum (fun p => Y p - (m * X p + b)) pts == 0 -> lsum (fun p => X p * (Y p - (m * X p + b))) pts == 0 ->
    squares m' b' pts == squares m b pts + lsum (fun p => ((m' - m) * X p + (b' - b)) * ((m' - m) * X p + (b' - b))) pts.
  Proof.
    intros E1 E2. unfold squares.
    sumto (fun p => (Y p - (m' * X p + b')) * (Y p - (m' * X p + b'))) (fun p => (((Y p - (m * X p + b)) * (Y p - (m * X p + b)) + ((m' - m) * X p + (b' - b)) * ((m' - m) * X p + (b' - b)))
        + (- (2) * (m' - m)) * (X p * (Y p - (m * X p + b)))) + (- (2) * (b' - b)) * (Y p - (m * X p + b))).
    rewrite !lsum_add, !lsum_mul, E1, E2. ring.
  Qed.
  Lemma slope_run rows : table rows pts -> LSMslope rows = qdiv (inject_Z slopenum) (inject_Z slopeden).
  Proof.
    intros T. destruct (table_pivot rows pts NE T) as (XY & E & E0 & E1). unfold LSMslope. rewrite E. cbn [rbind]. rewrite E0. cbn [rbind]. rewrite E1. cbn [rbind].
    rewrite (table_len rows pts T). reflexivity.
  Qed.
  Lemma mean_run (f : Z * Z -> Z) : mean (map f pts) = Ok (inject_Z (py_sum (map f pts)) / N).
  Proof.
    unfold mean, qdiv. replace (zlen (map f pts)) with (zlen pts) by (unfold zlen; now rewrite map_length). fold N.
    pose proof N_pos. destruct (Qeq_bool N 0) eqn:E; [|reflexivity]. apply Qeq_bool_iff in E. lra.
  Qed.
  Lemma yint_run rows : table rows pts -> LSMYint rows =
    (let! m := qdiv (inject_Z slopenum) (inject_Z slopeden) in Ok (inject_Z (py_sum (map snd pts)) / N - m * (inject_Z (py_sum (map fst pts)) / N))).
  Proof.
    intros T. unfold LSMYint. rewrite (slope_run rows T). destruct (table_pivot rows pts NE T) as (XY & E & E0 & E1). rewrite E. cbn [rbind].
    rewrite E0. cbn [rbind]. rewrite (mean_run fst). cbn [rbind]. rewrite E1. cbn [rbind]. rewrite (mean_run snd). reflexivity.
  Qed.
  Lemma pearson_run root rows : table rows pts -> PearsonsR root rows = qdiv (inject_Z slopenum) (root (inject_Z (Z.abs slopeden * Z.abs slopeden'))).
  Proof.
    intros T. destruct (table_pivot rows pts NE T) as (XY & E & E0 & E1). unfold PearsonsR. rewrite E. cbn [rbind]. rewrite E0. cbn [rbind]. rewrite E1. cbn [rbind].
    rewrite (table_len rows pts T). reflexivity.
  Qed.
End Points.

(** ** Interpolation *)
Lemma Qmul_nonneg a b : 0 <= a -> 0 <= b -> 0 <= a * b.
Proof. apply Qmult_le_0_compat. Qed.
Lemma Qadd_nonneg a b : 0 <= a -> 0 <= b -> 0 <= a + b.
Proof. intros. lra. Qed.
Lemma Qmul_pos a b : 0 < a -> 0 < b -> 0 < a * b.
Proof. apply Qmult_lt_0_compat. Qed.
Ltac nn := repeat first [ assumption | apply Qadd_nonneg | apply Qmul_nonneg | (unfold Qle; cbn; lia) ].
Ltac pp := repeat first [ assumption | apply Qmul_pos ].
Definition sm1 (v : Q) : Q := v * v * (3 - 2 * v).
Lemma sm1_mono x y : 0 <= x -> x < y -> y <= 1 -> sm1 x < sm1 y.
Proof.
  intros Hx Hxy Hy. set (d := y - x). set (e := 1 - y). assert (D : 0 < d) by (unfold d; lra). assert (E : 0 <= e) by (unfold e; lra). assert (D0 : 0 <= d) by lra.
  assert (G : sm1 y - sm1 x == d*d*d + (3 * (d*d*e) + 6 * (x*d*e) + 3 * (x*d*d))) by (unfold sm1, d, e; ring).
  assert (P : 0 < d*d*d) by pp.
  assert (N : 0 <= 3 * (d*d*e) + 6 * (x*d*e) + 3 * (x*d*d)) by nn. lra.
Qed.
Lemma sm1_sym x : sm1 x + sm1 (1 - x) == 1.
Proof. unfold sm1. ring. Qed.
Lemma sm1_proper x y : x == y -> sm1 x == sm1 y.
Proof. intros E. unfold sm1. now rewrite E. Qed.
Definition sm2 (v : Q) : Q := v * v * v * (v * (v * 6 - 15) + 10).
Lemma sm2_mono x y : 0 <= x -> x < y -> y <= 1 -> sm2 x < sm2 y.
Proof.
  intros Hx Hxy Hy. set (d := y - x). set (e := 1 - y). assert (D : 0 < d) by (unfold d; lra). assert (E : 0 <= e) by (unfold e; lra). assert (D0 : 0 <= d) by lra.
  assert (G : sm2 y - sm2 x == d*d*d*d*d + (10 * (d*d*d*e*e) + 5 * (d*d*d*d*e) + 30 * (x*d*d*e*e) + 20 * (x*d*d*d*e) + 5 * (x*d*d*d*d) + 30 * (x*x*d*e*e) + 30 * (x*x*d*d*e) + 10 * (x*x*d*d*d))) by (unfold sm2, d, e; ring).
  assert (P : 0 < d*d*d*d*d) by pp.
  assert (N : 0 <= 10 * (d*d*d*e*e) + 5 * (d*d*d*d*e) + 30 * (x*d*d*e*e) + 20 * (x*d*d*d*e) + 5 * (x*d*d*d*d) + 30 * (x*x*d*e*e) + 30 * (x*x*d*d*e) + 10 * (x*x*d*d*d)) by nn. lra.
Qed.
Lemma sm2_sym x : sm2 x + sm2 (1 - x) == 1.
Proof. unfold sm2. ring. Qed.
Lemma sm2_proper x y : x == y -> sm2 x == sm2 y.
Proof. intros E. unfold sm2. now rewrite E. Qed.
Definition sm3 (v : Q) : Q := v * v * v * v * (v * (v * (-20 * v + 70) - 84) + 35).
Lemma sm3_mono x y : 0 <= x -> x < y -> y <= 1 -> sm3 x < sm3 y.
Proof.
  intros Hx Hxy Hy. set (d := y - x). set (e := 1 - y). assert (D : 0 < d) by (unfold d; lra). assert (E : 0 <= e) by (unfold e; lra). assert (D0 : 0 <= d) by lra.
  assert (G : sm3 y - sm3 x == d*d*d*d*d*d*d + (35 * (d*d*d*d*e*e*e) + 21 * (d*d*d*d*d*e*e) + 7 * (d*d*d*d*d*d*e) + 140 * (x*d*d*d*e*e*e) + 105 * (x*d*d*d*d*e*e) + 42 * (x*d*d*d*d*d*e) + 7 * (x*d*d*d*d*d*d) + 210 * (x*x*d*d*e*e*e) + 210 * (x*x*d*d*d*e*e) + 105 * (x*x*d*d*d*d*e) + 21 * (x*x*d*d*d*d*d) + 140 * (x*x*x*d*e*e*e) + 210 * (x*x*x*d*d*e*e) + 140 * (x*x*x*d*d*d*e) + 35 * (x*x*x*d*d*d*d))) by (unfold sm3, d, e; ring).
  assert (P : 0 < d*d*d*d*d*d*d) by pp.
  assert (N : 0 <= 35 * (d*d*d*d*e*e*e) + 21 * (d*d*d*d*d*e*e) + 7 * (d*d*d*d*d*d*e) + 140 * (x*d*d*d*e*e*e) + 105 * (x*d*d*d*d*e*e) + 42 * (x*d*d*d*d*d*e) + 7 * (x*d*d*d*d*d*d) + 210 * (x*x*d*d*e*e*e) + 210 * (x*x*d*d*d*e*e) + 105 * (x*x*d*d*d*d*e) + 21 * (x*x*d*d*d*d*d) + 140 * (x*x*x*d*e*e*e) + 210 * (x*x*x*d*d*e*e) + 140 * (x*x*x*d*d*d*e) + 35 * (x*x*x*d*d*d*d)) by nn. lra.
Qed.
Lemma sm3_sym x : sm3 x + sm3 (1 - x) == 1.
Proof. unfold sm3. ring. Qed.
Lemma sm3_proper x y : x == y -> sm3 x == sm3 y.
Proof. intros E. unfold sm3. now rewrite E. Qed.
