(** Hilbert's and Koch's curves (proofs). *)
From Coq Require Import ZArith List Bool Lia.
From Verif Require Import PyBase Fractal FractProofs.
Import ListNotations.
Open Scope Z_scope.

(** ** Hilbert's curve on the cells of a 2^n x 2^n grid *)
Fixpoint hcells (n : nat) : list (Z * Z) :=
  match n with
  | O => [(0, 0)]
  | S n =>
      let s := 2 ^ Z.of_nat n in
      map (fun p => (snd p, fst p)) (hcells n) ++
      map (fun p => (fst p + s, snd p)) (hcells n) ++
      map (fun p => (fst p + s, snd p + s)) (hcells n) ++
      map (fun p => (s - 1 - snd p, s + s - 1 - fst p)) (hcells n)
  end.
Lemma pow_S n : 2 ^ Z.of_nat (S n) = 2 * 2 ^ Z.of_nat n.
Proof. rewrite Nat2Z.inj_succ, Z.pow_succ_r; lia. Qed.
Lemma pow_S1 n : 2 ^ (Z.of_nat (S n) + 1) = 2 * 2 ^ (Z.of_nat n + 1).
Proof. rewrite Nat2Z.inj_succ, <- Z.pow_succ_r; [f_equal; lia|lia]. Qed.
Lemma pow_1 n : 2 ^ (Z.of_nat n + 1) = 2 * 2 ^ Z.of_nat n.
Proof. rewrite <- Z.pow_succ_r; [f_equal; lia|lia]. Qed.

Lemma hilbert_cells n : forall u0 u1 w0 w1 w2 w3, let d := 2 ^ (Z.of_nat n + 1) in
  hilbert_units n u0 u1 (w0 * d) (w1 * d) (w2 * d) (w3 * d) =
  map (fun p => (u0 + (2 * fst p + 1) * w0 + (2 * snd p + 1) * w2, u1 + (2 * fst p + 1) * w1 + (2 * snd p + 1) * w3)) (hcells n).
Proof.
  induction n as [|n IH]; intros u0 u1 w0 w1 w2 w3; cbn zeta.
  - cbn [hilbert_units hcells map fst snd]. change (2 ^ (Z.of_nat 0 + 1)) with 2. f_equal. f_equal; [replace (w0 * 2 + w2 * 2) with ((w0 + w2) * 2) by lia|replace (w1 * 2 + w3 * 2) with ((w1 + w3) * 2) by lia];
    rewrite Z.div_mul by lia; lia.
  - cbn [hilbert_units hcells]. rewrite pow_S1. set (d := 2 ^ (Z.of_nat n + 1)) in *. cbn zeta.
    assert (Hh : forall a, a * (2 * d) / 2 = a * d). { intros a. replace (a * (2 * d)) with (a * d * 2) by lia. apply Z.div_mul. lia. }
    rewrite !Hh. rewrite <- !Z.mul_opp_l. cbn zeta in IH. fold d in IH. rewrite !IH.
    rewrite !map_app, !map_map. pose proof (pow_1 n) as Hd. fold d in Hd.
    set (s := 2 ^ Z.of_nat n) in *. cbn [fst snd].
    f_equal; [apply map_ext; intros [a b]; cbn [fst snd]; f_equal; lia|].
    f_equal; [apply map_ext; intros [a b]; cbn [fst snd]; rewrite Hd; f_equal; lia|].
    f_equal; apply map_ext; intros [a b]; cbn [fst snd]; rewrite Hd; f_equal; lia.
Qed.

Lemma hcells_length n : length (hcells n) = (4 ^ n)%nat.
Proof. induction n as [|n IH]; [reflexivity|]. cbn [hcells]. rewrite !app_length, !map_length, IH. cbn [Nat.pow]. lia. Qed.
Lemma hcells_in n : forall a b, In (a, b) (hcells n) <-> 0 <= a < 2 ^ Z.of_nat n /\ 0 <= b < 2 ^ Z.of_nat n.
Proof.
  induction n as [|n IH]; intros a b.
  - cbn [hcells In]. change (2 ^ Z.of_nat 0) with 1. split; [intros [E|[]]; inversion E; lia|]. intros [H1 H2]. left. f_equal; lia.
  - cbn [hcells]. rewrite pow_S. pose proof (Z.pow_pos_nonneg 2 (Z.of_nat n) ltac:(lia) ltac:(lia)) as Hs.
    set (s := 2 ^ Z.of_nat n) in *. clearbody s. rewrite !in_app_iff, !in_map_iff. split.
    + intros [((p & q) & E & Hi)|[((p & q) & E & Hi)|[((p & q) & E & Hi)|((p & q) & E & Hi)]]]; apply IH in Hi;
      cbn [fst snd] in E; injection E as E1 E2; lia.
    + intros [Ha Hb]. destruct (Z_lt_dec a s), (Z_lt_dec b s).
      * left. exists (b, a). split; [reflexivity|]. apply IH. lia.
      * right; right; right. exists (2 * s - 1 - b, s - 1 - a). cbn [fst snd]. split; [f_equal; lia|]. apply IH. lia.
      * right; left. exists (a - s, b). cbn [fst snd]. split; [f_equal; lia|]. apply IH. lia.
      * right; right; left. exists (a - s, b - s). cbn [fst snd]. split; [f_equal; lia|]. apply IH. lia.
Qed.
Lemma NoDup_app_disjoint {A} (l1 l2 : list A) : NoDup l1 -> NoDup l2 -> (forall x, In x l1 -> In x l2 -> False) -> NoDup (l1 ++ l2).
Proof.
  induction l1 as [|a l IH]; intros H1 H2 Hd; cbn [app]; auto. inversion H1; subst. constructor.
  - rewrite in_app_iff. intros [H|H]; [contradiction|]. apply (Hd a); cbn; auto.
  - apply IH; auto. intros x Hx. apply Hd. cbn; auto.
Qed.
Lemma NoDup_map_inj {A B} (f : A -> B) l : (forall x y, f x = f y -> x = y) -> NoDup l -> NoDup (map f l).
Proof.
  intros Hf H. induction H as [|a l N H IH]; cbn [map]; constructor; auto.
  rewrite in_map_iff. intros (x & E & Hx). apply Hf in E. now subst.
Qed.
Lemma hcells_nodup n : NoDup (hcells n).
Proof.
  induction n as [|n IH]; [repeat constructor; intros []|]. cbn [hcells]. set (s := 2 ^ Z.of_nat n).
  assert (B : forall a b, In (a, b) (hcells n) -> 0 <= a < s /\ 0 <= b < s) by (intros; now apply hcells_in).
  repeat apply NoDup_app_disjoint; try (apply NoDup_map_inj; [intros [] [] E; cbn in E; inversion E; f_equal; lia|exact IH]).
  - intros [x y] H1 H2. apply in_map_iff in H1, H2. destruct H1 as ([p q] & E1 & I1), H2 as ([p' q'] & E2 & I2).
    apply B in I1, I2. cbn [fst snd] in *. inversion E1; inversion E2. lia.
  - intros [x y] H1 H2. apply in_app_iff in H2. rewrite !in_map_iff in H2. apply in_map_iff in H1.
    destruct H1 as ([p q] & E1 & I1), H2 as [([p' q'] & E2 & I2)|([p' q'] & E2 & I2)];
    apply B in I1, I2; cbn [fst snd] in *; inversion E1; inversion E2; lia.
  - intros [x y] H1 H2. rewrite !in_app_iff, !in_map_iff in H2. apply in_map_iff in H1.
    destruct H1 as ([p q] & E1 & I1), H2 as [([p' q'] & E2 & I2)|[([p' q'] & E2 & I2)|([p' q'] & E2 & I2)]];
    apply B in I1, I2; cbn [fst snd] in *; inversion E1; inversion E2; lia.
Qed.

Definition beside (p q : Z * Z) : Prop := Z.abs (fst p - fst q) + Z.abs (snd p - snd q) = 1.
(** neighbours in the list are neighbours in the grid *)
Fixpoint walk (l : list (Z * Z)) : Prop :=
  match l with
  | p :: (q :: _) as t => beside p q /\ walk t
  | _ => True
  end.
Lemma walk_app l1 l2 d : l1 <> [] -> l2 <> [] -> walk l1 -> walk l2 -> beside (last l1 d) (hd d l2) -> walk (l1 ++ l2).
Proof.
  intros N1 N2. induction l1 as [|p l IH]; intros H1 H2 Hb; [contradiction|].
  destruct l as [|q l].
  - cbn [app]. destruct l2 as [|q l2]; [contradiction|]. cbn [walk last hd] in *. auto.
  - cbn [app]. cbn [walk] in H1. cbn [walk]. split; [apply H1|]. apply IH; try discriminate; try apply H1; auto.
Qed.
Lemma walk_map f l : (forall p q, beside p q -> beside (f p) (f q)) -> walk l -> walk (map f l).
Proof.
  intros Hf. induction l as [|p [|q l] IH]; intros H; cbn [map walk] in *; auto. split; [apply Hf, H|]. apply IH, H.
Qed.
Lemma last_app_ne {A} (l1 l2 : list A) d : l2 <> [] -> last (l1 ++ l2) d = last l2 d.
Proof.
  intros N. induction l1 as [|a l IH]; [reflexivity|]. cbn [app].
  destruct (l ++ l2) eqn:E; [destruct l; [contradiction|discriminate]|]. cbn [last]. cbn [last] in IH. now rewrite <- IH.
Qed.
Lemma last_map {A B} (f : A -> B) l d : l <> [] -> last (map f l) (f d) = f (last l d).
Proof.
  induction l as [|a [|b l] IH]; intros N; [contradiction|reflexivity|]. cbn [map] in *. cbn [last] in *. apply IH. discriminate.
Qed.
Lemma last_indep {A} (l : list A) d d' : l <> [] -> last l d = last l d'.
Proof. induction l as [|a [|b l] IH]; intros N; [contradiction|reflexivity|]. cbn [last] in *. apply IH. discriminate. Qed.
Lemma hcells_walk n : hcells n <> [] /\ hd (0, 0) (hcells n) = (0, 0) /\ last (hcells n) (0, 0) = (0, 2 ^ Z.of_nat n - 1) /\ walk (hcells n).
Proof.
  induction n as [|n (N & H & L & Wk)].
  - split; [discriminate|]. repeat split.
  - cbn [hcells]. rewrite pow_S. set (s := 2 ^ Z.of_nat n) in *.
    assert (Mn : forall f : Z * Z -> Z * Z, map f (hcells n) <> []) by (intros f E; apply map_eq_nil in E; contradiction).
    assert (Hm : forall (f : Z * Z -> Z * Z) d, hd d (map f (hcells n)) = f (0, 0)).
    { intros f d. destruct (hcells n) as [|a l]; [contradiction|]. cbn [map hd] in *. now rewrite H. }
    assert (Lm : forall (f : Z * Z -> Z * Z) d, last (map f (hcells n)) d = f (0, s - 1)).
    { intros f d. rewrite (last_indep _ d (f (0, 0))) by apply Mn. rewrite last_map by exact N. now rewrite L. }
    assert (An : forall (l1 l2 : list (Z * Z)), l1 <> [] -> l1 ++ l2 <> []) by (intros [|] ? ? E; [contradiction|discriminate]).
    assert (Ha : forall (l1 l2 : list (Z * Z)) d, l1 <> [] -> hd d (l1 ++ l2) = hd d l1) by (intros [|] ? ? ?; [contradiction|reflexivity]).
    split; [apply An, Mn|]. split; [rewrite Ha by apply Mn; rewrite Hm; reflexivity|]. split.
    + rewrite !last_app_ne by (repeat apply An; apply Mn). rewrite Lm. cbn [fst snd]. f_equal; lia.
    + assert (B : forall p q : Z * Z, beside p q -> Z.abs (fst p - fst q) + Z.abs (snd p - snd q) = 1) by auto.
      repeat apply (walk_app _ _ (0, 0)); try apply Mn; try (repeat apply An; apply Mn);
      try (apply walk_map; [intros [] [] E; unfold beside in *; cbn [fst snd] in *; lia|exact Wk]);
      rewrite ?Ha by apply Mn; rewrite Lm, Hm; unfold beside; cbn [fst snd]; lia.
Qed.

(** rounding to the nearest integer *)
Lemma roundunit_near n v : 2 * Z.abs (2 ^ (Z.of_nat n + 1) * roundunit n v - v) <= 2 ^ (Z.of_nat n + 1).
Proof.
  unfold roundunit. set (d := 2 ^ (Z.of_nat n + 1)).
  assert (Hd : 0 < d) by (apply Z.pow_pos_nonneg; lia).
  pose proof (Z.div_mod v d ltac:(lia)) as E. pose proof (Z.mod_pos_bound v d Hd) as Hr.
  set (q := v / d) in *. set (r := v mod d) in *. clearbody q r d.
  destruct (Z.ltb_spec (2 * r) d); [|destruct (Z.gtb_spec (2 * r) d)]; [| |destruct (Z.even q)]; rewrite E; 
    try (replace (d * q - (d * q + r)) with (- r) by ring); try (replace (d * (q + 1) - (d * q + r)) with (d - r) by ring); lia.
Qed.

(** ** Koch's curve *)
Lemma apart q s t j : (0 < q)%nat -> (0 < j < 4)%nat -> (s * (4 * q) + j * q <> t * (4 * q))%nat.
Proof.
  intros Hq Hj E. assert (K : (q * (4 * t) = q * (4 * s + j))%nat) by lia. apply Nat.mul_cancel_l in K; lia.
Qed.
Section Koch.
  Context {P : Type} (koch : P -> P -> P * P * P) (zero u v : P).
  Let inner (l : nat) (p : list P) (s : nat) : list P :=
    let i := (s * l)%nat in
    let '(a, b, c) := koch (nth i p zero) (nth (i + l) p zero) in
    put_nth (i + l / 4 * 3) c (put_nth (i + l / 2) b (put_nth (i + l / 4) a p)).

  Lemma nth_put (k i : nat) (a : P) l : (k < length l)%nat -> nth i (put_nth k a l) zero = if Nat.eqb i k then a else nth i l zero.
  Proof.
    intros Hk. destruct (Nat.eqb_spec i k) as [->|N]; [now apply put_nth_same|]. apply put_nth_other. congruence.
  Qed.

  Lemma inner_ok q p s : (0 < q)%nat -> (s * (4 * q) + 4 * q < length p)%nat -> let l := (4 * q)%nat in
    length (inner l p s) = length p /\
    koch (nth (s * l) p zero) (nth (s * l + l) p zero) =
      (nth (s * l + q) (inner l p s) zero, nth (s * l + 2 * q) (inner l p s) zero, nth (s * l + 3 * q) (inner l p s) zero) /\
    forall i, ~ In i [(s * l + q)%nat; (s * l + 2 * q)%nat; (s * l + 3 * q)%nat] -> nth i (inner l p s) zero = nth i p zero.
  Proof.
    intros Hq Hl l. unfold inner.
    assert (E4 : (l / 4 = q)%nat) by (unfold l; rewrite Nat.mul_comm; apply Nat.div_mul; lia).
    assert (E2 : (l / 2 = 2 * q)%nat) by (unfold l; replace (4 * q)%nat with (2 * q * 2)%nat by lia; apply Nat.div_mul; lia).
    rewrite E4, E2. destruct (koch _ _) as [[a b] c]. cbn zeta. fold l in Hl.
    rewrite !put_nth_length. split; [reflexivity|].
    assert (G : forall i, nth i (put_nth (s * l + q * 3) c (put_nth (s * l + 2 * q) b (put_nth (s * l + q) a p))) zero =
      if Nat.eqb i (s * l + q * 3) then c else if Nat.eqb i (s * l + 2 * q) then b else if Nat.eqb i (s * l + q) then a else nth i p zero).
    { intros i. rewrite !nth_put; rewrite ?put_nth_length; auto; unfold l in *; lia. }
    split.
    - rewrite !G. replace (s * l + 3 * q)%nat with (s * l + q * 3)%nat by lia. rewrite Nat.eqb_refl.
      replace (s * l + q =? s * l + q * 3)%nat with false by (symmetry; apply Nat.eqb_neq; lia).
      replace (s * l + q =? s * l + 2 * q)%nat with false by (symmetry; apply Nat.eqb_neq; lia). rewrite Nat.eqb_refl.
      replace (s * l + 2 * q =? s * l + q * 3)%nat with false by (symmetry; apply Nat.eqb_neq; lia). rewrite Nat.eqb_refl. reflexivity.
    - intros i Hi. cbn [In] in Hi. rewrite G.
      destruct (Nat.eqb_spec i (s * l + q * 3)) as [->|]; [exfalso; apply Hi; right; right; left; lia|].
      destruct (Nat.eqb_spec i (s * l + 2 * q)) as [->|]; [exfalso; apply Hi; auto|].
      destruct (Nat.eqb_spec i (s * l + q)) as [->|]; [exfalso; apply Hi; auto|]. reflexivity.
  Qed.

  (** one level: all segments of length 4q *)
  Lemma level_ok q m : (0 < q)%nat -> forall p, (m * (4 * q) < length p)%nat -> let l := (4 * q)%nat in
    let p' := fold_left (inner l) (seq 0 m) p in
    length p' = length p /\
    (forall s, (s < m)%nat -> koch (nth (s * l) p zero) (nth (s * l + l) p zero) =
       (nth (s * l + q) p' zero, nth (s * l + 2 * q) p' zero, nth (s * l + 3 * q) p' zero)) /\
    (forall i, (forall s, (s < m)%nat -> ~ In i [(s * l + q)%nat; (s * l + 2 * q)%nat; (s * l + 3 * q)%nat]) ->
       nth i p' zero = nth i p zero).
  Proof.
    intros Hq p Hl l. induction m as [|m IH].
    - cbn. repeat split; auto. intros s Hs; lia.
    - rewrite seq_S, fold_left_app. cbn [fold_left Nat.add]. cbn zeta.
      destruct IH as (L & K & F); [lia|]. cbn zeta in *. set (p1 := fold_left (inner l) (seq 0 m) p) in *.
      destruct (inner_ok q p1 m Hq) as (L2 & K2 & F2); [rewrite L; lia|]. cbn zeta in *. fold l in L2, K2, F2.
      split; [now rewrite L2|].
      assert (Hsep : forall s t a b, (s < t)%nat -> (a < 4)%nat -> (b < 4)%nat -> (s * l + a * q <> t * l + b * q)%nat).
      { intros s t a b Hst Ha Hb. unfold l. nia. }
      split.
      + intros s Hs. destruct (Nat.eq_dec s m) as [->|N].
        * rewrite <- K2. f_equal; symmetry; apply F; intros s0 H0; cbn [In]; unfold l; nia.
        * rewrite (K s) by lia. f_equal; [f_equal|]; symmetry; apply F2; cbn [In]; unfold l; nia.
      + intros i Hi. rewrite F2 by (apply Hi; lia). apply F. intros s Hs. apply Hi. lia.
  Qed.

  Lemma koch_ok n : let p := kochcurvevert koch zero u v n in
    length p = (4 ^ n + 1)%nat /\ nth 0 p zero = u /\ nth (4 ^ n) p zero = v /\
    forall k s, (k < n)%nat -> (s < 4 ^ k)%nat -> let q := (4 ^ (n - k - 1))%nat in
      koch (nth (s * (4 * q)) p zero) (nth (s * (4 * q) + 4 * q) p zero) =
      (nth (s * (4 * q) + q) p zero, nth (s * (4 * q) + 2 * q) p zero, nth (s * (4 * q) + 3 * q) p zero).
  Proof.
    cbn zeta. unfold kochcurvevert. cbn zeta. set (size := (4 ^ n)%nat).
    set (p0 := put_nth size v (put_nth 0 u (repeat zero (size + 1)))).
    set (lev := fun (pl : list P * nat) (_ : nat) => let '(p, l) := pl in (fold_left (inner l) (seq 0 (size / l)) p, (l / 4)%nat)).
    match goal with |- context [fold_left ?f (seq 0 n) (p0, size)] => change (fold_left f (seq 0 n) (p0, size)) with (fold_left lev (seq 0 n) (p0, size)) end.
    assert (L0 : length p0 = (size + 1)%nat) by (unfold p0; rewrite !put_nth_length, repeat_length; reflexivity).
    assert (Hs : (0 < size)%nat) by (unfold size; apply Nat.neq_0_lt_0, Nat.pow_nonzero; lia).
    assert (Q : forall m, (m <= n)%nat -> exists p, fold_left lev (seq 0 m) (p0, size) = (p, (4 ^ (n - m))%nat) /\
      length p = (size + 1)%nat /\ nth 0 p zero = u /\ nth size p zero = v /\
      forall k s, (k < m)%nat -> (s < 4 ^ k)%nat -> let q := (4 ^ (n - k - 1))%nat in
        koch (nth (s * (4 * q)) p zero) (nth (s * (4 * q) + 4 * q) p zero) =
        (nth (s * (4 * q) + q) p zero, nth (s * (4 * q) + 2 * q) p zero, nth (s * (4 * q) + 3 * q) p zero)).
    { induction m as [|m IH]; intros Hm.
      - exists p0. cbn [seq fold_left]. rewrite Nat.sub_0_r. split; [reflexivity|]. split; [exact L0|].
        assert (G : forall i, nth i p0 zero = if Nat.eqb i size then v else if Nat.eqb i 0 then u else nth i (repeat zero (size + 1)) zero).
        { intros i. unfold p0. rewrite !nth_put; rewrite ?put_nth_length, ?repeat_length; auto; lia. }
        split. { rewrite G. replace (0 =? size)%nat with false by (symmetry; apply Nat.eqb_neq; lia). reflexivity. }
        split. { rewrite G, Nat.eqb_refl. reflexivity. }
        intros k s Hk. lia.
      - destruct IH as (p & E & L & H0 & H1 & K); [lia|]. rewrite seq_S, fold_left_app, E. cbn [fold_left Nat.add lev].
        set (q := (4 ^ (n - S m))%nat).
        assert (Hq : (0 < q)%nat) by (unfold q; apply Nat.neq_0_lt_0, Nat.pow_nonzero; lia).
        assert (E4 : (4 ^ (n - m) = 4 * q)%nat). { unfold q. rewrite <- Nat.pow_succ_r'. f_equal. lia. }
        assert (Es : (size = 4 ^ m * (4 * q))%nat). { unfold size. rewrite <- E4, <- Nat.pow_add_r. f_equal. lia. }
        assert (Ed : (size / (4 * q) = 4 ^ m)%nat). { rewrite Es. apply Nat.div_mul. lia. }
        rewrite E4, Ed.
        destruct (level_ok q (4 ^ m)%nat Hq p) as (L' & K' & F'); [rewrite L; lia|]. cbn zeta in *.
        set (p' := fold_left (inner (4 * q)) (seq 0 (4 ^ m)) p) in *.
        exists p'. split. { f_equal. rewrite Nat.mul_comm. apply Nat.div_mul. lia. }
        split; [now rewrite L'|].
        assert (Hf : forall t, nth (t * (4 * q)) p' zero = nth (t * (4 * q)) p zero).
        { intros t. apply F'. intros s Hs2. cbn [In]. pose proof (apart q s t 1 Hq). pose proof (apart q s t 2 Hq).
          pose proof (apart q s t 3 Hq). lia. }
        split. { specialize (Hf 0%nat). cbn in Hf. now rewrite Hf. }
        split. { rewrite Es, Hf, <- Es. exact H1. }
        intros k s Hk Hsk. destruct (Nat.eq_dec k m) as [->|N].
        + replace (n - m - 1)%nat with (n - S m)%nat by lia. fold q. rewrite <- (K' s Hsk).
          replace (s * (4 * q) + 4 * q)%nat with ((s + 1) * (4 * q))%nat by lia. now rewrite !Hf.
        + assert (Hkm : (k < m)%nat) by lia. specialize (K k s Hkm Hsk). cbn zeta in *.
          set (r := (4 ^ (n - k - 1))%nat) in *.
          assert (Er : exists z, (r = z * (4 * q))%nat).
          { exists (4 ^ (m - k - 1))%nat. unfold r. rewrite <- E4, <- Nat.pow_add_r. f_equal. lia. }
          destruct Er as (z & Er). rewrite Er in *.
          replace (s * (4 * (z * (4 * q))) + 4 * (z * (4 * q)))%nat with ((s * 4 * z + 4 * z) * (4 * q))%nat in * by lia.
          replace (s * (4 * (z * (4 * q))) + z * (4 * q))%nat with ((s * 4 * z + z) * (4 * q))%nat in * by lia.
          replace (s * (4 * (z * (4 * q))) + 2 * (z * (4 * q)))%nat with ((s * 4 * z + 2 * z) * (4 * q))%nat in * by lia.
          replace (s * (4 * (z * (4 * q))) + 3 * (z * (4 * q)))%nat with ((s * 4 * z + 3 * z) * (4 * q))%nat in * by lia.
          replace (s * (4 * (z * (4 * q))))%nat with ((s * 4 * z) * (4 * q))%nat in * by lia.
          now rewrite !Hf. }
    destruct (Q n (Nat.le_refl n)) as (p & E & L & H0 & H1 & K). rewrite E. cbn [fst]. auto.
  Qed.
End Koch.
