(** Property C137: elapsed time, inverse smooth step, t-test and other helpers. *)
From Coq Require Import ZArith QArith Qreals Reals String Ascii List Bool Lia Lra Lqa Psatz.
From Verif Require Import PyBase PyFacts Bmp MathLib Exact SpecExact ExactProofs CurveProofs Colours ColourProofs PropExact Coords RealProofs Helpers.
Import ListNotations.
Open Scope Z_scope.

(** ** Elapsed time *)
(** the number that a text of digits stands for *)
Definition digit_of (c : ascii) : option Z := let d := Z.of_nat (nat_of_ascii c) - 48 in if (0 <=? d) && (d <=? 9) then Some d else None.
Fixpoint number_from (acc : Z) (s : string) : option Z :=
  match s with
  | EmptyString => Some acc
  | String c s => match digit_of c with Some d => number_from (10 * acc + d) s | None => None end
  end.
Definition stands_for (s : string) (n : Z) : Prop := s <> EmptyString /\ number_from 0 s = Some n.
Lemma digit_ok d : 0 <= d <= 9 -> digit_of (digitchar d) = Some d.
Proof.
  intros H. assert (d = 0 \/ d = 1 \/ d = 2 \/ d = 3 \/ d = 4 \/ d = 5 \/ d = 6 \/ d = 7 \/ d = 8 \/ d = 9) as C by lia.
  repeat (destruct C as [-> | C]; [reflexivity|]). now subst.
Qed.
Lemma number_app s c acc n : number_from acc s = Some n -> number_from acc (s ++ String c EmptyString) = match digit_of c with Some d => Some (10 * n + d) | None => None end.
Proof.
  revert acc. induction s as [|a s IH]; intros acc H; cbn [number_from append] in *; [injection H as ->; reflexivity|].
  destruct (digit_of a); [now apply IH|discriminate].
Qed.
Lemma append_length s t : String.length (s ++ t) = (String.length s + String.length t)%nat.
Proof. induction s as [|a s IH]; [reflexivity|]. cbn. now rewrite IH. Qed.
Lemma decimal_from_ok fuel : forall n, 0 <= n < 2 ^ Z.of_nat fuel -> (0 < fuel)%nat -> number_from 0 (decimal_from fuel n) = Some n /\ (forall k, 0 <= k -> 10 ^ k <= n < 10 ^ (k + 1) \/ (n = 0 /\ k = 0) -> Z.of_nat (String.length (decimal_from fuel n)) = k + 1).
Proof.
  induction fuel as [|fuel IH]; intros n H F; [lia|]. cbn [decimal_from]. destruct (n <? 10) eqn:E.
  - apply Z.ltb_lt in E. cbn [number_from]. rewrite digit_ok by lia. split; [f_equal; lia|]. intros k K [L|[-> ->]]; [|reflexivity].
    assert (k = 0); [|subst; reflexivity]. destruct (Z.eq_dec k 0) as [|N]; [assumption|]. exfalso. assert (10 ^ 1 <= 10 ^ k) by (apply Z.pow_le_mono_r; lia). lia.
  - apply Z.ltb_ge in E. assert (F' : (0 < fuel)%nat). { destruct fuel; [|lia]. change (2 ^ Z.of_nat 1) with 2 in H. lia. }
    assert (B : 0 <= n / 10 < 2 ^ Z.of_nat fuel).
    { split; [apply Z.div_pos; lia|]. apply Z.div_lt_upper_bound; [lia|]. rewrite Nat2Z.inj_succ, Z.pow_succ_r in H by lia. lia. }
    destruct (IH (n / 10) B F') as [A L]. pose proof (Z.mod_pos_bound n 10 ltac:(lia)). split.
    + rewrite (number_app _ _ _ _ A), digit_ok by lia. f_equal. pose proof (Z.div_mod n 10 ltac:(lia)). lia.
    + intros k K [C|C]; [|lia]. rewrite append_length. cbn [String.length]. assert (K1 : 1 <= k). { destruct (Z.eq_dec k 0) as [->|]; [|lia]. change (10 ^ (0 + 1)) with 10 in C. lia. }
      rewrite Nat2Z.inj_add, (L (k - 1)); [lia|lia|]. left. replace (k - 1 + 1) with k by lia.
      assert (P : 10 ^ k = 10 * 10 ^ (k - 1)) by (rewrite <- Z.pow_succ_r by lia; f_equal; lia). rewrite Z.pow_add_r in C by lia. change (10 ^ 1) with 10 in C.
      split; [apply Z.div_le_lower_bound; lia|apply Z.div_lt_upper_bound; lia].
Qed.
Lemma decimal_ok n : 0 <= n -> number_from 0 (decimal n) = Some n /\ (forall k, 0 <= k -> 10 ^ k <= n < 10 ^ (k + 1) \/ (n = 0 /\ k = 0) -> Z.of_nat (String.length (decimal n)) = k + 1).
Proof.
  intros H. apply decimal_from_ok; [|lia]. split; [exact H|]. rewrite Nat2Z.inj_succ, Z2Nat.id by apply Z.log2_nonneg.
  destruct (Z.eq_dec n 0) as [->|N]; [reflexivity|]. apply Z.log2_spec. lia.
Qed.
Lemma digits_exist n : 0 <= n -> exists k, 0 <= k /\ (10 ^ k <= n < 10 ^ (k + 1) \/ (n = 0 /\ k = 0)).
Proof.
  intros H. destruct (Z.eq_dec n 0) as [->|N]; [exists 0; lia|]. assert (G : forall m : nat, n < 10 ^ Z.of_nat m -> exists k, 0 <= k /\ 10 ^ k <= n < 10 ^ (k + 1)).
  { induction m as [|m IH]; intros L; [change (10 ^ Z.of_nat 0) with 1 in L; lia|]. destruct (Z.lt_ge_cases n (10 ^ Z.of_nat m)) as [A|A]; [now apply IH|].
    exists (Z.of_nat m). split; [lia|]. rewrite Nat2Z.inj_succ in L. split; [exact A|exact L]. }
  destruct (G (Z.to_nat n)) as (k & K & L); [rewrite Z2Nat.id by lia; apply Z.pow_gt_lin_r; lia|]. exists k. split; [exact K|now left].
Qed.
Lemma decimal_nonempty n : 0 <= n -> (1 <= String.length (decimal n))%nat.
Proof. intros H. destruct (digits_exist n H) as (k & K & L). pose proof (proj2 (decimal_ok n H) k K L). lia. Qed.
Lemma zfill_ok n : 0 <= n -> stands_for (zfill2 (decimal n)) n /\ (2 <= String.length (zfill2 (decimal n)))%nat /\ (n < 100 -> String.length (zfill2 (decimal n)) = 2%nat).
Proof.
  intros H. destruct (decimal_ok n H) as [A L]. pose proof (decimal_nonempty n H) as NE.
  assert (L2 : n < 100 -> (String.length (decimal n) <= 2)%nat).
  { intros S. destruct (digits_exist n H) as (k & K & D). pose proof (L k K D). assert (k <= 1); [|lia]. destruct D as [D|[_ ->]]; [|lia].
    destruct (Z.le_gt_cases k 1) as [|G]; [assumption|]. assert (10 ^ 2 <= 10 ^ k) by (apply Z.pow_le_mono_r; lia). lia. }
  destruct (decimal n) as [|a [|b s]]; cbn [String.length] in *; [lia|..]; cbn [zfill2 String.length].
  - split; [split; [discriminate|exact A]|]. split; [lia|reflexivity].
  - split; [split; [discriminate|exact A]|]. split; [lia|intros S; specialize (L2 S); lia].
Qed.
(** Hours, minutes and seconds with two digits or more; the last part counts nanoseconds. *)
Theorem C137_time : forall t, 0 <= t -> exists hours minutes seconds nanos h m s n,
  hhmmsselaspedtime t = (hours ++ ":" ++ minutes ++ ":" ++ seconds ++ "." ++ nanos)%string /\
  stands_for hours h /\ stands_for minutes m /\ stands_for seconds s /\ stands_for nanos n /\
  0 <= m < 60 /\ 0 <= s < 60 /\ 0 <= n < 10 ^ 9 /\ t = ((h * 60 + m) * 60 + s) * 10 ^ 9 + n /\
  (2 <= String.length hours)%nat /\ String.length minutes = 2%nat /\ String.length seconds = 2%nat /\
  (String.length nanos = 9%nat <-> 10 ^ 8 <= n).
Proof.
  intros t T. unfold hhmmsselaspedtime. set (secs := t / 1000000000). set (n := t mod 1000000000). set (mins := secs / 60).
  assert (S0 : 0 <= secs) by (apply Z.div_pos; lia). assert (M0 : 0 <= mins) by (apply Z.div_pos; lia). assert (H0 : 0 <= mins / 60) by (apply Z.div_pos; lia).
  assert (N0 : 0 <= n < 1000000000) by (apply Z.mod_pos_bound; lia). pose proof (Z.mod_pos_bound secs 60 ltac:(lia)) as SB. pose proof (Z.mod_pos_bound mins 60 ltac:(lia)) as MB.
  exists (zfill2 (decimal (mins / 60))), (zfill2 (decimal (mins mod 60))), (zfill2 (decimal (secs mod 60))), (decimal n), (mins / 60), (mins mod 60), (secs mod 60), n.
  split; [reflexivity|]. destruct (zfill_ok (mins / 60) H0) as (A1 & A2 & _). destruct (zfill_ok (mins mod 60) ltac:(lia)) as (B1 & _ & B3). destruct (zfill_ok (secs mod 60) ltac:(lia)) as (C1 & _ & C3).
  split; [exact A1|]. split; [exact B1|]. split; [exact C1|]. destruct (decimal_ok n ltac:(lia)) as [D1 D2]. pose proof (decimal_nonempty n ltac:(lia)) as NE.
  split; [split; [intros E; rewrite E in NE; cbn in NE; lia|exact D1]|]. split; [lia|]. split; [lia|]. split; [exact N0|].
  split; [pose proof (Z.div_mod t 1000000000 ltac:(lia)) as X1; pose proof (Z.div_mod secs 60 ltac:(lia)) as X2; pose proof (Z.div_mod mins 60 ltac:(lia)) as X3; fold secs n in X1; fold mins in X2; change (10 ^ 9) with 1000000000; lia|].
  split; [exact A2|]. split; [apply B3; lia|]. split; [apply C3; lia|].
  destruct (digits_exist n ltac:(lia)) as (k & K & D). specialize (D2 k K D). split; intros H.
  - assert (k = 8) by lia. subst k. destruct D as [D|D]; lia.
  - destruct D as [D|[D _]]; [|lia]. assert (k = 8); [|lia]. assert (k < 9). { apply (Z.pow_lt_mono_r_iff 10); [lia|lia|]. change (10 ^ 9) with 1000000000. lia. }
    assert (8 < k + 1); [|lia]. apply (Z.pow_lt_mono_r_iff 10); lia.
Qed.
(** The nanoseconds are not filled with zeros: 1.000000005 s reads as 1.5 s. *)
Theorem C137_time_refuted : hhmmsselaspedtime 1000000005 = "00:00:01.5"%string /\ hhmmsselaspedtime 1500000000 = "00:00:01.500000000"%string.
Proof. split; vm_compute; reflexivity. Qed.

(** ** Ranges of luminosity *)
Theorem C137_lumranges : (forall k a b, In (k, (a, b)) getdefaultlumrange -> 0 <= a <= 255 /\ 0 <= b <= 255 /\ dictitem getdefaultlumrange k = Ok (a, b) /\
    exists k', In (k', (b, a)) getdefaultlumrange) /\
  forall k, In k ["max"; "upper"; "lower"]%string -> exists a b, dictitem getdefaultlumrange (k ++ "asc") = Ok (a, b) /\ dictitem getdefaultlumrange (k ++ "desc") = Ok (b, a) /\ a < b.
Proof.
  split.
  - intros k a b I. unfold getdefaultlumrange in *. cbn [In] in *. repeat (destruct I as [I|I]; [injection I as <- <- <-; split; [lia|]; split; [lia|]; split; [reflexivity|]; eexists; tauto|]). destruct I.
  - intros k I. cbn [In] in I. repeat (destruct I as [<- | I]; [eexists; eexists; split; [reflexivity|]; split; [reflexivity|lia]|]). destruct I.
Qed.
(** The name of one range begins with a space. *)
Theorem C137_lumranges_refuted : dictitem getdefaultlumrange "middesc" = Ok (192, 64) /\ dictitem getdefaultlumrange "midasc" = Err KeyError /\ dictitem getdefaultlumrange " midasc" = Ok (64, 192).
Proof. now repeat split. Qed.

(** ** Vectors *)
Lemma nth_error_map {A B} (f : A -> B) l i : nth_error (map f l) i = option_map f (nth_error l i).
Proof. revert i. induction l as [|a l IH]; intros [|i]; cbn; auto. Qed.
Theorem C137_vectors :
  (forall l m, setmaxvec (setmaxvec l m) m = setmaxvec l m /\ Forall (fun v => v <= m) (setmaxvec l m) /\ (Forall (fun v => v <= m) l -> setmaxvec l m = l)) /\
  (forall l lo hi, lo <= hi -> List.length (intsetminmaxvec l lo hi) = List.length l /\ Forall (fun v => lo <= v <= hi) (intsetminmaxvec l lo hi)) /\
  (forall l n, 0 <= n -> bitmaskvect l (2 ^ n - 1) = map (fun v => v mod 2 ^ n) l) /\
  (forall x y, swapxy [x; y] = Ok [y; x]) /\
  (forall p d, let '(u, v) := mirrorx p d in fst u + fst v = 2 * fst p /\ snd u = snd p /\ snd v = snd p /\ fst v - fst p = d) /\
  (forall p d, let '(u, v) := mirrory p d in snd u + snd v = 2 * snd p /\ fst u = fst p /\ fst v = fst p /\ snd v - snd p = d).
Proof.
  split; [|split; [|split; [|split; [reflexivity|split; intros [x y] d; unfold mirrorx, mirrory; cbn [fst snd]; lia]]]].
  - intros l m. unfold setmaxvec. rewrite map_map. split; [apply map_ext; intros; lia|]. split; [apply Forall_forall; intros v I; apply in_map_iff in I; destruct I as (u & <- & _); lia|].
    intros F. rewrite <- (map_id l) at 2. apply map_ext_in. intros a I. rewrite Forall_forall in F. specialize (F a I). lia.
  - intros l lo hi L. unfold intsetminmaxvec. split; [apply map_length|]. apply Forall_forall. intros v I. apply in_map_iff in I. destruct I as (u & <- & _). unfold intsetminmax. lia.
  - intros l n N. unfold bitmaskvect. apply map_ext. intros a. replace (2 ^ n - 1) with (Z.ones n) by (rewrite Z.ones_equiv; lia). now apply Z.land_ones.
Qed.
(** Rows: rounding keeps the shape and moves no number by more than a half; clamped numbers are rounded first;
    means belong to the rows one by one, and one empty row spoils all. *)
Theorem C137_rows :
  (forall rows, Forall2 (Forall2 (fun (q : Q) z => (2 * q - 1 <= 2 * inject_Z z <= 2 * q + 1)%Q)) rows (roundvectlist rows)) /\
  (forall l lo hi, lo <= hi -> Forall2 (fun (q : Q) z => ((inject_Z hi <= q)%Q -> z = hi) /\ ((q <= inject_Z lo)%Q -> z = lo) /\
     ((inject_Z lo <= q <= inject_Z hi)%Q -> (2 * q - 1 <= 2 * inject_Z z <= 2 * q + 1)%Q)) l (intsetminmaxvec l lo hi)) /\
  (forall rows, (exists m, meanlist rows = Ok m /\ Forall2 (fun r q => r <> [] /\ (q * inject_Z (zlen r) == lsum inject_Z r)%Q) rows m) \/
     (In [] rows /\ meanlist rows = Err ZeroDivisionError)) /\
  (forall u v, List.length u = List.length v -> List.length (addvectpairlist (u, v)) = List.length u /\
     forall i a b, nth_error u i = Some a -> nth_error v i = Some b -> nth_error (addvectpairlist (u, v)) i = Some (a + b)).
Proof.
  assert (N : forall q, (2 * q - 1 <= 2 * inject_Z (qround q) <= 2 * q + 1)%Q).
  { intros q. pose proof (qround_nearest q) as C. unfold nearest in C. lra. }
  split; [|split; [|split]].
  - intros rows. unfold roundvectlist. induction rows as [|r rows IH]; constructor; [|exact IH]. clear IH. induction r as [|q r IH]; constructor; [apply N|exact IH].
  - intros l lo hi L. unfold intsetminmaxvec. induction l as [|q l IH]; constructor; [|exact IH]. unfold intsetminmax. split; [|split].
    + intros H. pose proof (qround_le _ _ H) as R. rewrite qround_Z in R. lia.
    + intros H. pose proof (qround_le _ _ H) as R. rewrite qround_Z in R. lia.
    + intros [A B]. pose proof (qround_bounds q lo hi A B). replace (Z.max (Z.min (qround q) hi) lo) with (qround q) by lia. apply N.
  - unfold meanlist. induction rows as [|r rows IH]; [left; exists []; split; [reflexivity|constructor]|]. cbn [res_map]. destruct r as [|x r].
    + right. split; [now left|reflexivity].
    + destruct (proj2 (C114_mean (x :: r)) ltac:(discriminate)) as (m & -> & M). cbn [rbind]. destruct IH as [(ms & -> & F)|[I ->]]; cbn [rbind]; [left; exists (m :: ms); split; [reflexivity|]; constructor; [split; [discriminate|exact M]|exact F]|].
      right. split; [now right|reflexivity].
  - intros u. unfold addvectpairlist. cbn [fst snd]. induction u as [|a u IH]; intros [|b v] L; try discriminate; [split; [reflexivity|intros [|i]; discriminate]|].
    destruct (IH v ltac:(now injection L)) as [IL IN]. unfold addvect in *. cbn. split; [now rewrite IL|]. intros [|i] x y X Y; cbn in *; [congruence|now apply IN].
Qed.
Lemma combine_seq {A} (l : list A) : forall s i x, nth_error l i = Some x -> nth_error (combine (seq s (List.length l)) l) i = Some ((s + i)%nat, x).
Proof.
  induction l as [|a l IH]; intros s [|i] x H; try discriminate; cbn in *; [injection H as <-; f_equal; f_equal; lia|]. rewrite (IH (S s) i x H). do 2 f_equal. lia.
Qed.
(** Every vertex moves by at most the given numbers in each direction. *)
Theorem C137_jitter : forall lo hi rnd l, (forall i, let '(a, b, c) := rnd i in (lo <= a <= hi /\ lo <= b <= hi) /\ lo <= c <= hi) ->
  List.length (addrndtovert l rnd) = List.length l /\
  forall i x y z, nth_error l i = Some [x; y; z] -> exists x' y' z', nth_error (addrndtovert l rnd) i = Some [x'; y'; z'] /\
    x + lo <= x' <= x + hi /\ y + lo <= y' <= y + hi /\ z + lo <= z' <= z + hi.
Proof.
  intros lo hi rnd l H. unfold addrndtovert. split; [rewrite map_length, combine_length, seq_length; lia|]. intros i x y z E.
  rewrite nth_error_map, (combine_seq l 0 i _ E). cbn [option_map fst snd Nat.add]. specialize (H i). destruct (rnd i) as [[a b] c]. cbn. eexists. eexists. eexists. split; [reflexivity|]. lia.
Qed.
(** Quotients: times the divisors they give the numerators. *)
Lemma res_map_ok {A B} (f : A -> res B) l r : res_map f l = Ok r -> Forall2 (fun a b => f a = Ok b) l r.
Proof.
  revert r. induction l as [|a l IH]; intros r H; cbn [res_map] in H; [injection H as <-; constructor|].
  destruct (f a) as [b|e] eqn:E; cbn [rbind] in H; [|discriminate]. destruct (res_map f l) as [r'|e]; cbn [rbind] in H; [|discriminate]. injection H as <-. constructor; [exact E|now apply IH].
Qed.
Lemma res_map_err {A B} (f : A -> res B) l e : (exists a, In a l /\ f a = Err e) -> (forall a e', In a l -> f a = Err e' -> e' = e) -> res_map f l = Err e.
Proof.
  induction l as [|a l IH]; intros (x & I & E) H; [destruct I|]. cbn [res_map]. destruct (f a) as [b|e'] eqn:Ea; cbn [rbind].
  - rewrite IH; [reflexivity| |intros y e' Iy; apply H; now right]. destruct I as [-> | I]; [congruence|]. now exists x.
  - f_equal. apply (H a); [now left|exact Ea].
Qed.
Lemma qdiv_val a b : ~ (b == 0)%Q -> qdiv a b = Ok (a / b)%Q.
Proof. intros H. unfold qdiv. destruct (Qeq_bool b 0) eqn:E; [apply Qeq_bool_iff in E; contradiction|reflexivity]. Qed.
Lemma inject_nonzero z : z <> 0 -> ~ (inject_Z z == 0)%Q.
Proof. intros H E. unfold Qeq in E. cbn in E. lia. Qed.
Theorem C137_quotients : forall u v, List.length u = List.length v ->
  (Forall (fun d => d <> 0) v -> exists q, divvect u v = Ok q /\ Forall2 (fun p x => (x * inject_Z (snd p) == inject_Z (fst p))%Q) (combine u v) q) /\
  (In 0 v -> divvect u v = Err ZeroDivisionError).
Proof.
  intros u v L. unfold divvect. split.
  - intros F. assert (G : exists q, res_map (fun p : Z * Z => qdiv (inject_Z (fst p)) (inject_Z (snd p))) (combine u v) = Ok q).
    { clear L. revert v F. induction u as [|a u IH]; intros [|d v] F; try (eexists; reflexivity). inversion F as [|? ? N F']; subst. cbn [combine res_map fst snd].
      rewrite qdiv_val by now apply inject_nonzero. cbn [rbind]. destruct (IH v F') as (q & ->). eexists. reflexivity. }
    destruct G as (q & E). exists q. split; [exact E|]. apply res_map_ok in E.
    assert (F2 : Forall (fun p => snd p <> 0) (combine u v)). { apply Forall_forall. intros [a d] I. apply in_combine_r in I. rewrite Forall_forall in F. now apply F. }
    clear - E F2. induction E as [|[a d] x l r E _ IH]; constructor; inversion F2; subst; [|now apply IH]. cbn [fst snd] in *. rewrite qdiv_val in E by now apply inject_nonzero. injection E as <-.
    field. now apply inject_nonzero.
  - intros I. apply res_map_err.
    + revert v L I. induction u as [|a u IH]; intros [|d v] L I; try (destruct I; fail); try discriminate. cbn [combine]. destruct I as [-> | I].
      * exists (a, 0). split; [now left|reflexivity].
      * destruct (IH v ltac:(now injection L) I) as (p & P & E). exists p. split; [now right|exact E].
    + intros [a d] e _. unfold qdiv. destruct (Qeq_bool _ 0); intros H; now inversion H.
Qed.
(** Towers of powers grow. *)
Theorem C137_tetration : forall x n, 2 <= x -> 0 <= n -> exists v v', tetration x n = Ok v /\ tetration x (n + 1) = Ok v' /\ v' = x ^ v /\ v < v' /\ (n = 0 -> v = 1).
Proof.
  intros x n X N. unfold tetration. destruct (n <? 0) eqn:E; [apply Z.ltb_lt in E; lia|]. destruct (n + 1 <? 0) eqn:E'; [apply Z.ltb_lt in E'; lia|].
  replace (Z.to_nat (n + 1)) with (S (Z.to_nat n)) by lia. eexists. eexists. split; [reflexivity|]. split; [reflexivity|]. split; [reflexivity|].
  assert (P : forall k, 0 < tower x k). { intros [|k]; cbn [tower]; [lia|]. induction k as [|k IH]; cbn [tower]; apply Z.pow_pos_nonneg; try lia. }
  split; [cbn [tower]; apply Z.pow_gt_lin_r; [lia|pose proof (P (Z.to_nat n)); lia]|]. intros ->. reflexivity.
Qed.
Theorem C137_total : forall (A : Type) (l l' : list (Z * A)), getdatalisttotal (l ++ l') = getdatalisttotal l + getdatalisttotal l' /\ (forall n (a : A), getdatalisttotal [(n, a)] = n).
Proof.
  assert (G : forall l a, fold_left Z.add l a = a + fold_left Z.add l 0). { induction l as [|x l IH]; intros a; cbn; [lia|]. rewrite IH, (IH x). lia. }
  intros A l l'. unfold getdatalisttotal, py_sum. rewrite map_app, fold_left_app, (G (map fst l')). split; [reflexivity|]. reflexivity.
Qed.

(** ** t-test *)
(** t is the r of Pearson times the root of (n - 2) / (1 - r^2); no t belongs to a perfect correlation. *)
Theorem C137_ttest : forall root rows r, PearsonsR root rows = Ok r ->
  ((r * r == 1)%Q -> TTest root rows = Err ZeroDivisionError) /\
  ((r * r < 1)%Q -> 2 <= zlen rows -> let q := (inject_Z (zlen rows - 2) / (1 - r * r))%Q in
     exists t, TTest root rows = Ok t /\ ((0 <= root q)%Q /\ (root q * root q == q)%Q -> (0 <= t * r)%Q /\ (t * t * (1 - r * r) == r * r * inject_Z (zlen rows - 2))%Q)).
Proof.
  intros root rows r E. unfold TTest. rewrite E. cbn [rbind]. split.
  - intros H. unfold qdiv. destruct (Qeq_bool (1 - r * r) 0) eqn:D; [reflexivity|]. exfalso. apply Qeq_bool_neq in D. apply D. rewrite H. reflexivity.
  - intros H N. assert (NZ : ~ (1 - r * r == 0)%Q) by (intros Z; lra). rewrite qdiv_val by exact NZ. cbn [rbind]. set (q := (inject_Z (zlen rows - 2) / (1 - r * r))%Q).
    assert (P : (0 <= q)%Q). { unfold q. apply Qle_shift_div_l; [lra|]. rewrite Qmult_0_l. unfold Qle. cbn. lia. }
    apply Qle_bool_iff in P. rewrite P. cbn [negb]. eexists. split; [reflexivity|]. intros [R0 R1]. split.
    + setoid_replace (r * root q * r)%Q with (r * r * root q)%Q by ring. apply Qmult_le_0_compat; [nra|exact R0].
    + setoid_replace (r * root q * (r * root q) * (1 - r * r))%Q with (r * r * (root q * root q) * (1 - r * r))%Q by ring. rewrite R1. unfold q. field. exact NZ.
Qed.
(** Errors of the correlation are passed on. *)
Theorem C137_ttest_error : forall root rows e, PearsonsR root rows = Err e -> TTest root rows = Err e.
Proof. intros root rows e E. unfold TTest. now rewrite E. Qed.

(** ** Smooth step *)
Open Scope R_scope.
Lemma sin_triple a : sin (3 * a) = 3 * sin a - 4 * (sin a * sin a * sin a).
Proof.
  replace (3 * a) with (2 * a + a) by ring. rewrite sin_plus, sin_2a, cos_2a. pose proof (sin2_cos2 a) as H. unfold Rsqr in H.
  replace (cos a * cos a) with (1 - sin a * sin a) by lra. replace (2 * sin a * cos a * cos a) with (2 * sin a * (cos a * cos a)) by ring.
  replace (cos a * cos a) with (1 - sin a * sin a) by lra. ring.
Qed.
Lemma smooth_increasing u v : 0 <= u -> u < v -> v <= 1 -> smoothstep01 u < smoothstep01 v.
Proof.
  intros U L V. unfold smoothstep01. apply Rminus_gt_0_lt.
  replace (v * v * (3 - 2 * v) - u * u * (3 - 2 * u)) with ((v - u) * (3 * (u + v) - 2 * (u * u + u * v + v * v))) by ring. apply Rmult_lt_0_compat; [lra|]. nra.
Qed.
Theorem C137_smoothstep : (forall x, 0 <= x <= 1 -> exists y, invsmoothstep x = Ok y /\ 0 <= y <= 1 /\ y * y * (3 - 2 * y) = x) /\
  (forall v, 0 <= v <= 1 -> invsmoothstep (v * v * (3 - 2 * v)) = Ok v) /\
  (forall x, x < 0 \/ 1 < x -> invsmoothstep x = Err ValueError).
Proof.
  assert (G : forall x, 0 <= x <= 1 -> exists y, invsmoothstep x = Ok y /\ 0 <= y <= 1 /\ smoothstep01 y = x).
  { intros x X. unfold invsmoothstep. set (a := 1 - 2 * x). assert (A : -1 <= a <= 1) by (unfold a; lra). rewrite !(proj2 (rlt_no _ _)) by lra. cbn [orb]. eexists. split; [reflexivity|].
    pose proof (asin_bound a) as B. set (t := asin a / 3). pose proof PI_RGT_0 as PI0. assert (T : - (PI / 6) <= t <= PI / 6) by (unfold t; lra).
    assert (S : sin (- (PI / 6)) <= sin t <= sin (PI / 6)) by (split; apply sin_incr_1; lra). rewrite sin_neg, sin_PI6 in S. split; [lra|].
    pose proof (sin_triple t) as E. replace (3 * t) with (asin a) in E by (unfold t; field). rewrite sin_asin in E by exact A. unfold smoothstep01.
    replace ((1 / 2 - sin t) * (1 / 2 - sin t) * (3 - 2 * (1 / 2 - sin t))) with (1 / 2 - (3 * sin t - 4 * (sin t * sin t * sin t)) / 2) by field. rewrite <- E. unfold a. field. }
  split; [exact G|split].
  - intros v V. change (v * v * (3 - 2 * v)) with (smoothstep01 v). assert (B : 0 <= smoothstep01 v <= 1).
    { unfold smoothstep01. split; [apply Rmult_le_pos; [apply Rmult_le_pos|]; lra|]. assert (0 <= (1 - v) * (1 - v) * (1 + 2 * v)) by (apply Rmult_le_pos; [apply Rmult_le_pos|]; lra). lra. }
    destruct (G _ B) as (y & E & Y & H). rewrite E. f_equal. destruct (Rtotal_order y v) as [L|[L|L]]; [|exact L|].
    + pose proof (smooth_increasing y v ltac:(lra) L ltac:(lra)). lra.
    + pose proof (smooth_increasing v y ltac:(lra) L ltac:(lra)). lra.
  - intros x X. unfold invsmoothstep. destruct X as [X|X].
    + replace (rlt 1 (1 - 2 * x)) with true by (symmetry; apply rlt_iff; lra). now rewrite orb_true_r.
    + replace (rlt (1 - 2 * x) (-1)) with true by (symmetry; apply rlt_iff; lra). reflexivity.
Qed.

(** ** Gamma correction of a byte *)
Lemma trunc_pos x : 0 <= x -> IZR (rtrunc x) <= x < IZR (rtrunc x) + 1.
Proof. intros H. unfold rtrunc. rewrite (proj2 (rlt_no x 0)) by lra. destruct (base_Int_part x). lra. Qed.
Lemma power_below x g : 0 < x <= 1 -> 0 < g -> 0 < Rpower x g <= 1 /\ (1 <= g -> Rpower x g <= x) /\ (g <= 1 -> x <= Rpower x g).
Proof.
  intros X G. assert (L : ln x <= 0). { destruct (Req_dec x 1) as [->|N]; [rewrite ln_1; lra|]. rewrite <- ln_1. apply Rlt_le, ln_increasing; lra. }
  assert (E : x = exp (ln x)) by (symmetry; apply exp_ln; lra). assert (M : forall a b, a <= b -> exp a <= exp b) by (intros a b [H| ->]; [apply Rlt_le, exp_increasing, H|lra]).
  unfold Rpower. split; [split; [apply exp_pos|rewrite <- exp_0; apply M; nra]|]. split; intros H; [rewrite E at 2|rewrite E at 1]; apply M; nra.
Qed.
Lemma gamma_run l g : (0 < l)%Z -> gammabyteR l g = Ok (rtrunc (Rpower (IZR l / 255) g * 255)).
Proof.
  intros H. unfold gammabyteR, floatpow. apply IZR_lt in H. rewrite (proj2 (req_no _ _)) by lra. reflexivity.
Qed.
Theorem C137_gamma : forall l gamma, (0 <= l <= 255)%Z -> 0 < gamma -> exists v, gammabyteR l gamma = Ok v /\ (0 <= v <= 255)%Z /\
  ((0 < l)%Z -> IZR v <= 255 * Rpower (IZR l / 255) gamma < IZR v + 1) /\ (l = 0%Z -> v = 0%Z) /\ (l = 255%Z -> v = 255%Z) /\
  (gamma = 1 -> v = l) /\ (1 <= gamma -> (v <= l)%Z) /\ (gamma <= 1 -> (l <= v)%Z).
Proof.
  intros l g L G. destruct (Z.eq_dec l 0) as [->|N].
  - exists 0%Z. split; [|lia || (repeat split; intros; lia)].
    unfold gammabyteR, floatpow. rewrite (proj2 (req_iff _ _)) by lra. rewrite (proj2 (rlt_no _ _)), (proj2 (req_no _ _)) by lra. cbn [rbind]. f_equal. rewrite Rmult_0_l. apply (rtrunc_Z 0).
  - assert (L0 : (0 < l)%Z) by lia. rewrite gamma_run by exact L0. eexists. split; [reflexivity|].
    assert (X : 0 < IZR l / 255 <= 1) by (pose proof (IZR_lt _ _ L0); pose proof (IZR_le _ _ (proj2 L)); lra). destruct (power_below _ g X G) as ((P0 & P1) & PB & PA).
    pose proof (trunc_pos (Rpower (IZR l / 255) g * 255) ltac:(lra)) as T. set (v := rtrunc _) in *.
    assert (V0 : (-1 < v)%Z) by (apply lt_IZR; lra). assert (V1 : (v < 256)%Z) by (apply lt_IZR; lra).
    assert (LE : 1 <= g -> (v <= l)%Z) by (intros H; apply le_IZR; specialize (PB H); lra).
    assert (GE : g <= 1 -> (l <= v)%Z). { intros H. specialize (PA H). assert (l < v + 1)%Z; [apply lt_IZR; rewrite plus_IZR; lra|lia]. }
    split; [lia|]. split; [intros _; lra|]. split; [lia|]. split; [|split; [|split; assumption]].
    + intros ->. assert (255 < v + 1)%Z; [|lia]. apply lt_IZR. rewrite plus_IZR. replace (255 / 255) with 1 in T by field. assert (O1 : Rpower 1 g = 1) by (unfold Rpower; rewrite ln_1, Rmult_0_r; apply exp_0). rewrite O1 in T. lra.
    + intros ->. specialize (LE (Rle_refl 1)). specialize (GE (Rle_refl 1)). lia.
Qed.
(** Brighter bytes stay brighter or equal. *)
Theorem C137_gamma_monotone : forall l l' gamma v v', (0 <= l <= l')%Z -> (l' <= 255)%Z -> 0 < gamma -> gammabyteR l gamma = Ok v -> gammabyteR l' gamma = Ok v' -> (v <= v')%Z.
Proof.
  intros l l' g v v' L L' G E E'. destruct (C137_gamma l g ltac:(lia) G) as (w & F & W & A & Z0 & _). destruct (C137_gamma l' g ltac:(lia) G) as (w' & F' & W' & A' & _).
  assert (w = v) by congruence. assert (w' = v') by congruence. subst w w'. destruct (Z.eq_dec l 0) as [Z|N]; [rewrite (Z0 Z); lia|].
  specialize (A ltac:(lia)). specialize (A' ltac:(lia)). assert (M : Rpower (IZR l / 255) g <= Rpower (IZR l' / 255) g).
  { apply Rle_Rpower_l; [lra|]. assert (0 < IZR l) by (apply IZR_lt; lia). assert (IZR l <= IZR l') by (apply IZR_le; lia). lra. }
  assert (v < v' + 1)%Z; [apply lt_IZR; rewrite plus_IZR; lra|lia].
Qed.
(** A negative gamma is refused for black only, and other bytes leave the range of bytes. *)
Theorem C137_gamma_refuted : (forall gamma, gamma < 0 -> gammabyteR 0 gamma = Err ZeroDivisionError) /\ gammabyteR 51 (-1) = Ok 1275%Z.
Proof.
  split.
  - intros g G. unfold gammabyteR, floatpow. rewrite (proj2 (req_iff _ _)) by lra. rewrite (proj2 (rlt_iff _ _)) by lra. reflexivity.
  - rewrite gamma_run by lia. replace (IZR 51 / 255) with (/ 5) by field. replace (-1) with (Ropp 1) by lra. rewrite Rpower_Ropp, Rpower_1 by lra. replace (/ / 5 * 255) with (IZR 1275) by (field; lra). now rewrite rtrunc_Z.
Qed.

(** Cases that meet the hypotheses. *)
Example C137_ex : hhmmsselaspedtime 3723123456789 = "01:02:03.123456789"%string /\ 
  (exists r t, let root := (fun q => if Qeq_bool q 2500 then 50 else if Qeq_bool q 4 then 2 else 0)%Q in let rows := [[0; 2]; [1; 1]; [2; 0]; [3; 4]; [4; 3]]%Z in
     PearsonsR root rows = Ok r /\ (r == 1 # 2)%Q /\ TTest root rows = Ok t /\ (t == 1)%Q) /\
  tetration 2 3 = Ok 16%Z /\ divvect [6; 7]%Z [3; 0]%Z = Err ZeroDivisionError /\ (exists v, gammabyteR 51 2 = Ok v /\ v = 10%Z) /\ invsmoothstep (1 / 2) = Ok (1 / 2).
Proof.
  split; [vm_compute; reflexivity|]. split; [eexists; eexists; cbv zeta; split; [vm_compute; reflexivity|]; split; [reflexivity|]; split; [vm_compute; reflexivity|reflexivity]|].
  split; [reflexivity|]. split; [vm_compute; reflexivity|]. split.
  - exists 10%Z. split; [|reflexivity]. rewrite gamma_run by lia. replace 2 with (INR 2) by (cbn; lra). rewrite Rpower_pow by lra. f_equal. unfold rtrunc. rewrite (proj2 (rlt_no _ _)) by (cbn; lra). apply int_unique. cbn. lra.
  - replace (1 / 2) with (1 / 2 * (1 / 2) * (3 - 2 * (1 / 2))) at 1 by field. apply C137_smoothstep. lra.
Qed.

Print Assumptions C137_time.
Print Assumptions C137_time_refuted.
Print Assumptions C137_lumranges.
Print Assumptions C137_lumranges_refuted.
Print Assumptions C137_vectors.
Print Assumptions C137_rows.
Print Assumptions C137_jitter.
Print Assumptions C137_quotients.
Print Assumptions C137_tetration.
Print Assumptions C137_total.
Print Assumptions C137_ttest.
Print Assumptions C137_ttest_error.
Print Assumptions C137_smoothstep.
Print Assumptions C137_gamma.
Print Assumptions C137_gamma_monotone.
Print Assumptions C137_gamma_refuted.
