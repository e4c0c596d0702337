From Coq Require Import List Bool PeanoNat Arith Ring Ring_theory Lia.
From Verif Require Import Fft SpecFft.
Import ListNotations.

Lemma pair_ind {A} (P : list A -> Prop) : P [] -> (forall a, P [a]) -> (forall a b t, P t -> P (a :: b :: t)) -> forall l, P l.
Proof.
  intros H0 H1 H2 l. assert (G : P l /\ forall a, P (a :: l)).
  { induction l as [|b l [I1 I2]]; split; auto. }
  apply G.
Qed.
Lemma evens_nth {A} (d : A) : forall l i, nth i (evens l) d = nth (2 * i) l d.
Proof.
  induction l as [| a | a b t IH] using pair_ind; intros i.
  - destruct i; [reflexivity|]. cbn. now destruct (i + S (i + 0)).
  - destruct i; [reflexivity|]. cbn. destruct i; cbn; [reflexivity|]. destruct (i + S (S (i + 0))); reflexivity.
  - destruct i; [reflexivity|]. cbn [evens nth]. rewrite IH. replace (2 * S i) with (S (S (2 * i))) by lia. reflexivity.
Qed.
Lemma odds_nth {A} (d : A) l i : nth i (odds l) d = nth (2 * i + 1) l d.
Proof.
  destruct l as [|a l].
  - cbn [odds]. destruct i; [reflexivity|]. cbn. now destruct (i + S (i + 0) + 1).
  - cbn [odds]. rewrite evens_nth. replace (2 * i + 1) with (S (2 * i)) by lia. reflexivity.
Qed.
Lemma evens_len {A} : forall l : list A, length (evens l) = Nat.div2 (S (length l)).
Proof. induction l as [| a | a b t IH] using pair_ind; [reflexivity..|]. cbn [evens length]. rewrite IH. reflexivity. Qed.
Lemma odds_len {A} (l : list A) : length (odds l) = Nat.div2 (length l).
Proof. destruct l; [reflexivity|]. cbn [odds length]. apply evens_len. Qed.
Lemma put_len {A} (a : A) : forall v i, length (put v i a) = length v.
Proof. induction v as [|b v IH]; intros [|i]; cbn; auto. Qed.
Lemma put_nth {A} (a d : A) : forall v i j, nth j (put v i a) d = if (i =? j) && (j <? length v) then a else nth j v d.
Proof.
  induction v as [|b v IH]; intros i j.
  - cbn. rewrite Bool.andb_false_r. now destruct j, i.
  - destruct i, j; cbn [put nth length]; try reflexivity. rewrite IH. reflexivity.
Qed.
(** the loop of applyfft *)
Lemma butterfly {A} (d : A) (f g : nat -> A) l v : 2 * l <= length v -> forall k, k <= l ->
  let v' := fold_left (fun v m => put (put v m (f m)) (m + l) (g m)) (seq 0 k) v in
  length v' = length v /\
  forall j, nth j v' d = if j <? k then f j else if (l <=? j) && (j <? l + k) then g (j - l) else nth j v d.
Proof.
  intros Hl k. induction k as [|k IH]; intros Hk.
  - split; [reflexivity|]. intros j. cbn [seq fold_left]. replace (j <? 0) with false by reflexivity.
    destruct (Nat.leb_spec l j), (Nat.ltb_spec j (l + 0)); cbn [andb]; try reflexivity. lia.
  - rewrite seq_S, fold_left_app. cbn [fold_left]. destruct IH as [L N]; [lia|]. cbv zeta. split; [now rewrite !put_len|].
    intros j. rewrite !put_nth, put_len, L, N. cbn [Nat.add].
    destruct (Nat.eqb_spec (k + l) j) as [E1|E1].
    + subst j. replace (k + l <? length v) with true by (symmetry; apply Nat.ltb_lt; lia). cbn [andb].
      replace (k + l <? S k) with (l <? 1). 2: { apply Bool.eq_true_iff_eq. rewrite !Nat.ltb_lt. lia. }
      destruct (Nat.ltb_spec l 1); [lia|].
      replace (l <=? k + l) with true by (symmetry; apply Nat.leb_le; lia).
      replace (k + l <? l + S k) with true by (symmetry; apply Nat.ltb_lt; lia). cbn [andb]. f_equal. lia.
    + cbn [andb]. destruct (Nat.eqb_spec k j) as [E2|E2].
      * subst j. replace (k <? length v) with true by (symmetry; apply Nat.ltb_lt; lia).
        replace (k <? S k) with true by (symmetry; apply Nat.ltb_lt; lia). reflexivity.
      * cbn [andb]. destruct (Nat.ltb_spec j k), (Nat.ltb_spec j (S k)); try lia; try reflexivity.
        destruct (Nat.leb_spec l j), (Nat.ltb_spec j (l + k)), (Nat.ltb_spec j (l + S k)); cbn [andb]; try lia; reflexivity.
Qed.

Section Ring.
  Variable R : Type.
  Variables (zero one : R) (add mul sub : R -> R -> R) (opp : R -> R).
  Hypothesis RT : ring_theory zero one add mul sub opp eq.
  Add Ring Rr : RT.
  Notation "a + b" := (add a b). Notation "a * b" := (mul a b). Notation "a - b" := (sub a b). Notation "- a" := (opp a).
  Notation pow := (rpow one mul). Notation sum := (rsum zero add).

  Lemma pow_add w a b : pow w (a + b)%nat = pow w a * pow w b.
  Proof. induction a as [|a IH]; cbn [Nat.add rpow]; [ring|]. rewrite IH. ring. Qed.
  Lemma pow_one a : pow one a = one.
  Proof. induction a as [|a IH]; cbn [rpow]; [reflexivity|]. rewrite IH. ring. Qed.
  Lemma pow_mul w a b : pow w (a * b)%nat = pow (pow w a) b.
  Proof.
    induction b as [|b IH]; [now rewrite Nat.mul_0_r|]. replace (a * S b)%nat with (a + a * b)%nat by lia. rewrite pow_add, IH. reflexivity.
  Qed.
  Lemma pow_base u v a : pow (u * v) a = pow u a * pow v a.
  Proof. induction a as [|a IH]; cbn [rpow]; [ring|]. rewrite IH. ring. Qed.
  Lemma pow_two w a : pow (w * w) a = pow w (2 * a)%nat.
  Proof. rewrite pow_mul. f_equal. cbn. ring. Qed.
  Lemma sum_ext f g n : (forall i, (i < n)%nat -> f i = g i) -> sum f n = sum g n.
  Proof. intros H. induction n as [|n IH]; [reflexivity|]. cbn [rsum]. rewrite H, IH by auto. reflexivity. Qed.
  Lemma sum_add f g n : sum (fun i => f i + g i) n = sum f n + sum g n.
  Proof. induction n as [|n IH]; cbn [rsum]; [ring|]. rewrite IH. ring. Qed.
  Lemma sum_mul c f n : sum (fun i => c * f i) n = c * sum f n.
  Proof. induction n as [|n IH]; cbn [rsum]; [ring|]. rewrite IH. ring. Qed.
  Lemma sum_split f n : sum f (2 * n)%nat = sum (fun i => f (2 * i)%nat) n + sum (fun i => f (2 * i + 1)%nat) n.
  Proof.
    induction n as [|n IH]; [cbn; ring|]. replace (2 * S n)%nat with (S (S (2 * n))) by lia. cbn [rsum]. rewrite IH.
    replace (S (2 * n)) with (2 * n + 1)%nat by lia. ring.
  Qed.
  Lemma sum_swap f n m : sum (fun i => sum (fun j => f i j) m) n = sum (fun j => sum (fun i => f i j) n) m.
  Proof.
    induction n as [|n IH]; cbn [rsum].
    - induction m as [|m IHm]; cbn [rsum]; [reflexivity|]. rewrite <- IHm. ring.
    - rewrite IH, <- sum_add. reflexivity.
  Qed.
  Lemma sum_zero f n : (forall i, (i < n)%nat -> f i = zero) -> sum f n = zero.
  Proof. intros H. induction n as [|n IH]; [reflexivity|]. cbn [rsum]. rewrite H, IH by auto. ring. Qed.
  Lemma sum_one f n k : (k < n)%nat -> (forall i, (i < n)%nat -> i <> k -> f i = zero) -> sum f n = f k.
  Proof.
    intros Hk H. induction n as [|n IH]; [lia|]. cbn [rsum]. destruct (Nat.eq_dec k n) as [->|N].
    - rewrite sum_zero by (intros; apply H; lia). ring.
    - rewrite IH by (try lia; intros; apply H; lia). rewrite (H n) by lia. ring.
  Qed.

  (** the sum of the powers of a root of unity *)
  Lemma root_sum : forall k w d, pow w (2 ^ k)%nat = - one -> (0 < d < 2 ^ S k)%nat -> sum (fun i => pow w (i * d)) (2 ^ S k) = zero.
  Proof.
    induction k as [|k IH]; intros w d Hw Hd.
    - cbn in Hd. assert (d = 1)%nat as -> by lia. cbn in *. rewrite Hw. ring.
    - change (2 ^ S (S k))%nat with (2 * 2 ^ S k)%nat. rewrite sum_split.
      set (n := (2 ^ S k)%nat) in *. set (m := (2 ^ k)%nat) in *.
      assert (Hn : n = (2 * m)%nat) by reflexivity.
      assert (W2 : pow (w * w) m = - one) by (rewrite pow_two, <- Hn; exact Hw).
      rewrite (sum_ext (fun i => pow w (2 * i * d)) (fun i => pow (w * w) (i * d))) by (intros; rewrite pow_two; apply f_equal; lia).
      rewrite (sum_ext (fun i => pow w ((2 * i + 1) * d)) (fun i => pow w d * pow (w * w) (i * d)))
        by (intros; rewrite pow_two, <- pow_add; apply f_equal; lia).
      rewrite sum_mul.
      assert (C : (d < n \/ d = n \/ n < d)%nat) by lia. destruct C as [C|[->|C]].
      + rewrite IH by (auto; fold n; lia). ring.
      + rewrite Hw. ring.
      + rewrite (sum_ext (fun i => pow (w * w) (i * d)) (fun i => pow (w * w) (i * (d - n)))).
        * rewrite IH by (auto; fold n; change (2 ^ S (S k))%nat with (2 * n)%nat in Hd; lia). ring.
        * intros i _. replace (i * d)%nat with (i * (d - n) + m * (2 * i))%nat by nia. rewrite pow_add, (pow_mul _ m), W2.
          rewrite (pow_mul _ 2). replace (pow (- one) 2) with one by (cbn; ring). rewrite pow_one. ring.
  Qed.

  Notation run := (applyfft zero add sub mul).
  Lemma fft_len fn : forall fuel v, length (run fn fuel v) = length v.
  Proof.
    induction fuel as [|fuel IH]; intros v; [reflexivity|]. cbn [applyfft]. destruct (1 <? length v); [|reflexivity].
    assert (D : (2 * Nat.div2 (length v) <= length v)%nat).
    { pose proof (Nat.div2_odd (length v)). destruct (Nat.odd (length v)); cbn in *; lia. }
    apply (butterfly zero (fun m => nth m (run fn fuel (evens v)) zero + fn m (length v) * nth m (run fn fuel (odds v)) zero)
      (fun m => nth m (run fn fuel (evens v)) zero - fn m (length v) * nth m (run fn fuel (odds v)) zero) _ v D _ (le_n _)).
  Qed.
  (** one level *)
  Lemma fft_level fn fuel v j : (1 < length v)%nat -> let n := length v in let l := Nat.div2 n in
    nth j (run fn (S fuel) v) zero =
      if j <? l then nth j (run fn fuel (evens v)) zero + fn j n * nth j (run fn fuel (odds v)) zero
      else if j <? 2 * l then nth (j - l) (run fn fuel (evens v)) zero - fn (j - l)%nat n * nth (j - l) (run fn fuel (odds v)) zero
      else nth j v zero.
  Proof.
    intros H n l. cbn [applyfft]. replace (1 <? length v) with true by (symmetry; now apply Nat.ltb_lt).
    assert (D : (2 * l <= length v)%nat).
    { unfold l, n. pose proof (Nat.div2_odd (length v)). destruct (Nat.odd (length v)); cbn in *; lia. }
    destruct (butterfly zero (fun m => nth m (run fn fuel (evens v)) zero + fn m (length v) * nth m (run fn fuel (odds v)) zero)
      (fun m => nth m (run fn fuel (evens v)) zero - fn m (length v) * nth m (run fn fuel (odds v)) zero) l v D l (le_n _)) as [_ N].
    fold n l. etransitivity; [exact (N j)|]. fold n.
    destruct (Nat.ltb_spec j l); [reflexivity|]. destruct (Nat.leb_spec l j), (Nat.ltb_spec j (l + l)), (Nat.ltb_spec j (2 * l)); cbn [andb]; try lia; reflexivity.
  Qed.
  Lemma fft_dft : forall k fn w v fuel, length v = (2 ^ k)%nat -> (k <= fuel)%nat ->
    (k = 0%nat \/ pow w (2 ^ (k - 1)) = - one) ->
    (forall m e, (1 <= e <= k)%nat -> (m < 2 ^ (e - 1))%nat -> fn m (2 ^ e)%nat = pow w (m * 2 ^ (k - e))) ->
    forall j, (j < 2 ^ k)%nat -> nth j (run fn fuel v) zero = sum (fun i => nth i v zero * pow w (i * j)) (2 ^ k).
  Proof.
    induction k as [|k IH]; intros fn w v fuel L F Hw Hf j Hj.
    - cbn in L, Hj. assert (j = 0)%nat as -> by lia. destruct v as [|a [|b t]]; try discriminate L.
      destruct fuel; cbn; ring.
    - destruct Hw as [Hw|Hw]; [discriminate|]. replace (S k - 1)%nat with k in Hw by lia.
      destruct fuel as [|fuel]; [lia|]. set (n := (2 ^ k)%nat) in *. assert (Pn : (0 < n)%nat) by (unfold n; apply Nat.neq_0_lt_0, Nat.pow_nonzero; lia).
      assert (E2 : (2 ^ S k = 2 * n)%nat) by reflexivity. rewrite E2 in *.
      assert (DL : Nat.div2 (length v) = n) by (rewrite L; apply Nat.div2_double).
      rewrite fft_level by lia. cbv zeta. rewrite DL.
      assert (Lv : length (evens v) = n) by (rewrite evens_len, L; apply Nat.div2_succ_double).
      assert (Lo : length (odds v) = n) by (rewrite odds_len; exact DL).
      assert (W2 : k = 0%nat \/ pow (w * w) (2 ^ (k - 1)) = - one).
      { destruct k as [|k]; [now left|right]. rewrite pow_two. replace (2 * 2 ^ (S k - 1))%nat with n; [exact Hw|]. unfold n. replace (S k - 1)%nat with k by lia. reflexivity. }
      assert (F2 : forall m e, (1 <= e <= k)%nat -> (m < 2 ^ (e - 1))%nat -> fn m (2 ^ e)%nat = pow (w * w) (m * 2 ^ (k - e))).
      { intros m e He Hm. rewrite Hf by (auto; lia). rewrite pow_two. apply f_equal. replace (S k - e)%nat with (S (k - e)) by lia. cbn [Nat.pow]. lia. }
      assert (T : forall i, (i < n)%nat -> fn i (length v) = pow w i).
      { intros i Hi. rewrite L, <- E2, Hf by (try lia; replace (S k - 1)%nat with k by lia; exact Hi).
        replace (S k - S k)%nat with 0%nat by lia. cbn [Nat.pow]. now rewrite Nat.mul_1_r. }
      assert (G : forall i, (i < n)%nat -> forall s, sum (fun q => nth q v zero * pow w (q * (i + s * n))) (2 * n) =
        sum (fun q => nth q (evens v) zero * pow (w * w) (q * i)) n + (pow (- one) s * pow w i) * sum (fun q => nth q (odds v) zero * pow (w * w) (q * i)) n).
      { intros i Hi s. rewrite sum_split.
        assert (U : forall q, pow w (2 * q * (s * n)) = one).
        { intros q. replace (2 * q * (s * n))%nat with (n * (2 * (q * s)))%nat by lia. rewrite pow_mul, Hw, (pow_mul _ 2).
          replace (pow (- one) 2) with one by (cbn; ring). apply pow_one. }
        f_equal.
        - apply sum_ext. intros q _. rewrite evens_nth. f_equal. rewrite pow_two. replace (2 * q * (i + s * n))%nat with (2 * (q * i) + 2 * q * (s * n))%nat by lia.
          rewrite pow_add, U. ring.
        - rewrite <- sum_mul. apply sum_ext. intros q _. rewrite odds_nth.
          replace ((2 * q + 1) * (i + s * n))%nat with (2 * (q * i) + 2 * q * (s * n) + n * s + i)%nat by lia.
          rewrite !pow_add, U, (pow_mul _ n), Hw, pow_two. ring. }
      destruct (Nat.ltb_spec j n) as [C|C].
      + rewrite (IH fn (w * w) (evens v) fuel Lv) by (auto; lia). rewrite (IH fn (w * w) (odds v) fuel Lo) by (auto; lia).
        rewrite T by exact C. specialize (G j C 0%nat). replace (j + 0 * n)%nat with j in G by lia. rewrite G. cbn [rpow]. ring.
      + replace (j <? 2 * n) with true by (symmetry; apply Nat.ltb_lt; lia).
        rewrite (IH fn (w * w) (evens v) fuel Lv) by (auto; lia). rewrite (IH fn (w * w) (odds v) fuel Lo) by (auto; lia).
        rewrite T by lia. specialize (G (j - n)%nat ltac:(lia) 1%nat). replace (j - n + 1 * n)%nat with j in G by lia. rewrite G. cbn [rpow]. ring.
  Qed.
  Lemma pow_inv w w' a : w * w' = one -> pow w a * pow w' a = one.
  Proof. intros H. rewrite <- pow_base, H. apply pow_one. Qed.
  Lemma fft_inverse k fn fn' w w' v : length v = (2 ^ k)%nat -> w * w' = one -> (k = 0%nat \/ pow w (2 ^ (k - 1)) = - one) ->
    (forall m e, (1 <= e <= k)%nat -> (m < 2 ^ (e - 1))%nat -> fn m (2 ^ e)%nat = pow w (m * 2 ^ (k - e))) ->
    (forall m e, (1 <= e <= k)%nat -> (m < 2 ^ (e - 1))%nat -> fn' m (2 ^ e)%nat = pow w' (m * 2 ^ (k - e))) ->
    forall j, (j < 2 ^ k)%nat -> nth j (ifft zero add sub mul fn' (fft zero add sub mul fn v)) zero = times zero add (2 ^ k) (nth j v zero).
  Proof.
    intros L Hi Hw Hf Hf' j Hj. unfold ifft, fft. rewrite fft_len.
    assert (K : (k <= length v)%nat) by (rewrite L; apply Nat.lt_le_incl, Nat.pow_gt_lin_r; lia).
    assert (Hw' : k = 0%nat \/ pow w' (2 ^ (k - 1)) = - one).
    { destruct Hw as [Hw|Hw]; [now left|right]. pose proof (pow_inv w w' (2 ^ (k - 1)) Hi) as P. rewrite Hw in P.
      replace (pow w' (2 ^ (k - 1))) with (- (- one * pow w' (2 ^ (k - 1)))) by ring. rewrite P. reflexivity. }
    rewrite (fft_dft k fn' w') by (auto; rewrite fft_len; exact L).
    rewrite (sum_ext _ (fun i => sum (fun q => nth q v zero * (pow w (q * i) * pow w' (i * j))) (2 ^ k))).
    2: { intros i Hil. rewrite (fft_dft k fn w) by auto.
         transitivity (pow w' (i * j) * sum (fun q => nth q v zero * pow w (q * i)) (2 ^ k)); [ring|].
         rewrite <- sum_mul. apply sum_ext. intros. ring. }
    rewrite sum_swap.
    assert (O : forall q, (q < 2 ^ k)%nat -> sum (fun i => nth q v zero * (pow w (q * i) * pow w' (i * j))) (2 ^ k) =
      if q =? j then times zero add (2 ^ k) (nth j v zero) else zero).
    { intros q Hq. destruct (Nat.eqb_spec q j) as [->|N].
      - unfold times. apply sum_ext. intros i _. rewrite (Nat.mul_comm j i), pow_inv by exact Hi. ring.
      - rewrite sum_mul. destruct k as [|k]; [cbn in *; lia|]. destruct Hw as [?|Hw]; [lia|]. destruct Hw' as [?|Hw']; [lia|].
        replace (S k - 1)%nat with k in * by lia.
        destruct (Nat.lt_ge_cases j q) as [C|C].
        + rewrite (sum_ext _ (fun i => pow w (i * (q - j)))).
          * rewrite root_sum by (auto; lia). ring.
          * intros i _. replace (q * i)%nat with (i * (q - j) + i * j)%nat by nia. rewrite pow_add.
            transitivity (pow w (i * (q - j)) * (pow w (i * j) * pow w' (i * j))); [ring|]. rewrite pow_inv by exact Hi. ring.
        + rewrite (sum_ext _ (fun i => pow w' (i * (j - q)))).
          * rewrite root_sum by (auto; lia). ring.
          * intros i _. replace (i * j)%nat with (q * i + i * (j - q))%nat by nia. rewrite pow_add.
            transitivity (pow w' (i * (j - q)) * (pow w (q * i) * pow w' (q * i))); [ring|]. rewrite pow_inv by exact Hi. ring. }
    rewrite (sum_ext _ _ _ O). rewrite (sum_one _ _ j Hj).
    - now rewrite Nat.eqb_refl.
    - intros i _ Ni. apply Nat.eqb_neq in Ni. now rewrite Ni.
  Qed.
  Lemma fft_odd fn v : Nat.odd (length v) = true -> nth (length v - 1) (fft zero add sub mul fn v) zero = nth (length v - 1) v zero.
  Proof.
    intros H. unfold fft. destruct (length v) as [|[|n]] eqn:E; [discriminate| |].
    - destruct v as [|a [|]]; try discriminate E. reflexivity.
    - rewrite fft_level by lia. cbv zeta. rewrite E. pose proof (Nat.div2_odd (S (S n))) as D. rewrite H in D. cbn [Nat.b2n] in D.
      destruct (Nat.ltb_spec (S (S n) - 1) (Nat.div2 (S (S n)))); [lia|]. destruct (Nat.ltb_spec (S (S n) - 1) (2 * Nat.div2 (S (S n)))); [lia|]. reflexivity.
  Qed.
End Ring.
