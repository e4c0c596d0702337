(** Facts about the Python primitives of PyBase.v (proofs only). *)
From Coq Require Import ZArith List Bool Lia.
From Verif Require Import PyBase.
Import ListNotations.
Open Scope Z_scope.
Ltac Zify.zify_post_hook ::= Z.to_euclidean_division_equations.

(** Case split on a boolean comparison in the goal. *)
Ltac bcase :=
  match goal with
  | |- context [?a <? ?b] => destruct (Z.ltb_spec a b)
  | |- context [?a <=? ?b] => destruct (Z.leb_spec a b)
  | |- context [?a =? ?b] => destruct (Z.eqb_spec a b)
  | |- context [?a >? ?b] => rewrite (Z.gtb_ltb a b)
  | |- context [?a >=? ?b] => rewrite (Z.geb_leb a b)
  end; cbn [andb orb negb].
Ltac bcases := repeat bcase.

(** ** zlen, getz *)
Lemma zlen_nonneg {A} (l : list A) : 0 <= zlen l.
Proof. unfold zlen; lia. Qed.
Lemma zlen_app {A} (a b : list A) : zlen (a ++ b) = zlen a + zlen b.
Proof. unfold zlen; rewrite app_length; lia. Qed.
Lemma zlen_cons {A} (a : A) b : zlen (a :: b) = 1 + zlen b.
Proof. unfold zlen; cbn [length]; lia. Qed.
Lemma zlen_nil {A} : zlen (@nil A) = 0.
Proof. reflexivity. Qed.
Lemma zlen_map {A B} (f : A -> B) l : zlen (map f l) = zlen l.
Proof. unfold zlen; now rewrite map_length. Qed.
Lemma zlen_firstn {A} (l : list A) n : zlen (firstn n l) = Z.min (Z.of_nat n) (zlen l).
Proof. unfold zlen; rewrite firstn_length; lia. Qed.
Lemma zlen_skipn {A} (l : list A) n : zlen (skipn n l) = Z.max 0 (zlen l - Z.of_nat n).
Proof. unfold zlen; rewrite skipn_length; lia. Qed.
Lemma zlen_rev {A} (l : list A) : zlen (rev l) = zlen l.
Proof. unfold zlen; now rewrite rev_length. Qed.
Lemma zlen_repz v n : zlen (repz v n) = Z.max 0 n.
Proof. unfold zlen, repz; rewrite repeat_length; lia. Qed.
Lemma zlen_0_nil {A} (l : list A) : zlen l = 0 -> l = [].
Proof. destruct l; [easy|]. rewrite zlen_cons. pose proof (zlen_nonneg l). lia. Qed.

Lemma getz_neg l i : i < 0 -> getz l i = 0.
Proof. intros; unfold getz; bcases; lia. Qed.
Lemma getz_big l i : zlen l <= i -> getz l i = 0.
Proof.
  intros H; unfold getz; bcases; auto. apply nth_overflow. unfold zlen in *; lia.
Qed.
Lemma getz_nth l i : 0 <= i -> getz l i = nth (Z.to_nat i) l 0.
Proof. intros; unfold getz; bcases; auto; lia. Qed.
Lemma getz_nil i : getz [] i = 0.
Proof. unfold getz; bcases; auto. destruct (Z.to_nat i); auto. Qed.
Lemma getz_cons a l i : getz (a :: l) i = if i =? 0 then a else getz l (i - 1).
Proof.
  unfold getz. repeat bcase; subst; try lia; auto; cbn.
  replace (Z.to_nat i) with (S (Z.to_nat (i - 1))) by lia. reflexivity.
Qed.
Lemma getz_app a b i : 0 <= i ->
  getz (a ++ b) i = if i <? zlen a then getz a i else getz b (i - zlen a).
Proof.
  intros Hi. bcase.
  - rewrite !getz_nth by lia. apply app_nth1. unfold zlen in *; lia.
  - rewrite !getz_nth by lia. rewrite app_nth2 by (unfold zlen in *; lia).
    f_equal. unfold zlen in *; lia.
Qed.
Lemma getz_firstn l n i : 0 <= i < n -> getz (firstn (Z.to_nat n) l) i = getz l i.
Proof.
  intros Hi. rewrite !getz_nth by lia.
  rewrite <- (firstn_skipn (Z.to_nat n) l) at 2.
  destruct (Nat.lt_ge_cases (Z.to_nat i) (length (firstn (Z.to_nat n) l))) as [H|H].
  - now rewrite app_nth1.
  - rewrite firstn_length in H. rewrite !nth_overflow; auto.
    + rewrite firstn_skipn. lia.
    + rewrite firstn_length; lia.
Qed.
Lemma getz_skipn l n i : 0 <= i -> 0 <= n -> getz (skipn (Z.to_nat n) l) i = getz l (n + i).
Proof.
  intros Hi Hn. rewrite !getz_nth by lia.
  destruct (Nat.lt_ge_cases (Z.to_nat n) (length l)) as [H|H].
  - rewrite <- (firstn_skipn (Z.to_nat n) l) at 2.
    rewrite app_nth2; rewrite firstn_length; [f_equal; lia|lia].
  - rewrite skipn_all2 by lia. rewrite nth_overflow by (cbn; lia).
    now rewrite nth_overflow by lia.
Qed.
Lemma getz_map (f : Z -> Z) l i : 0 <= i < zlen l -> getz (map f l) i = f (getz l i).
Proof.
  intros Hi. rewrite !getz_nth by lia.
  rewrite (nth_indep _ 0 (f 0)) by (rewrite map_length; unfold zlen in *; lia).
  apply map_nth.
Qed.
Lemma getz_map_gen {A} (f : A -> Z) (l : list A) d i : 0 <= i < zlen l ->
  getz (map f l) i = f (nth (Z.to_nat i) l d).
Proof.
  intros Hi. rewrite !getz_nth by lia.
  rewrite (nth_indep _ 0 (f d)) by (rewrite map_length; unfold zlen in *; lia).
  apply map_nth.
Qed.
Lemma getz_repz v n i : 0 <= i < n -> getz (repz v n) i = v.
Proof.
  intros. rewrite getz_nth by lia. unfold repz.
  apply (repeat_spec (Z.to_nat n) v). apply nth_In. rewrite repeat_length. lia.
Qed.
Lemma getz_rev l i : 0 <= i < zlen l -> getz (rev l) i = getz l (zlen l - 1 - i).
Proof.
  intros. rewrite !getz_nth by lia. rewrite rev_nth by (unfold zlen in *; lia).
  f_equal. unfold zlen in *. lia.
Qed.

Lemma list_ext (a b : list Z) : zlen a = zlen b ->
  (forall i, 0 <= i < zlen a -> getz a i = getz b i) -> a = b.
Proof.
  intros Hl H. apply (nth_ext _ _ 0 0).
  - unfold zlen in Hl; lia.
  - intros n Hn. specialize (H (Z.of_nat n)). rewrite !getz_nth in H by lia.
    rewrite !Nat2Z.id in H. apply H. unfold zlen; lia.
Qed.

(** ** bytes *)
Definition bytes (l : list Z) : Prop := Forall byte l.
Lemma bytes_getz l : bytes l <-> forall i, byte (getz l i).
Proof.
  unfold bytes, byte. split.
  - intros H i. unfold getz. bcases; [lia|].
    destruct (nth_in_or_default (Z.to_nat i) l 0) as [Hin|He]; [|lia].
    rewrite Forall_forall in H. now apply H.
  - intros H. apply Forall_forall. intros x Hx.
    apply (In_nth _ _ 0) in Hx. destruct Hx as (n & Hn & Hx).
    specialize (H (Z.of_nat n)). rewrite getz_nth in H by lia. rewrite Nat2Z.id in H. lia.
Qed.
Lemma is_byte_true v : byte v -> is_byte v = true.
Proof. unfold byte, is_byte; intros; bcases; auto; lia. Qed.
Lemma is_byte_false v : ~ byte v -> is_byte v = false.
Proof. unfold byte, is_byte; intros; bcases; auto; lia. Qed.
Lemma is_byte_iff v : is_byte v = true <-> byte v.
Proof. unfold byte, is_byte; bcases; split; intros; auto; try lia; discriminate. Qed.
Lemma py_array_ok l : bytes l -> py_array l = Ok l.
Proof.
  intros H. unfold py_array. replace (forallb is_byte l) with true; auto.
  symmetry. apply forallb_forall. intros x Hx. apply is_byte_true.
  unfold bytes in H. rewrite Forall_forall in H. auto.
Qed.
Lemma py_array_inv l r : py_array l = Ok r -> r = l /\ bytes l.
Proof.
  unfold py_array. destruct (forallb is_byte l) eqn:E; intros H; inversion H; subst.
  split; auto. unfold bytes. apply Forall_forall. rewrite forallb_forall in E.
  intros x Hx. now apply is_byte_iff, E.
Qed.

(** ** upd, single items *)
Lemma upd_length l n v : length (upd l n v) = length l.
Proof. revert n; induction l; destruct n; cbn; auto. Qed.
Lemma zlen_upd l n v : zlen (upd l n v) = zlen l.
Proof. unfold zlen; now rewrite upd_length. Qed.
Lemma nth_upd l n v m : (n < length l)%nat ->
  nth m (upd l n v) 0 = if Nat.eqb m n then v else nth m l 0.
Proof.
  revert n m; induction l; intros n m H; cbn in H; [lia|].
  destruct n, m; cbn; auto. rewrite IHl by lia. reflexivity.
Qed.
Lemma getz_upd l j v i : 0 <= j < zlen l ->
  getz (upd l (Z.to_nat j) v) i = if i =? j then v else getz l i.
Proof.
  intros Hj. unfold getz. bcases; try lia; auto.
  - rewrite nth_upd by (unfold zlen in *; lia). subst.
    now rewrite Nat.eqb_refl.
  - rewrite nth_upd by (unfold zlen in *; lia).
    destruct (Nat.eqb_spec (Z.to_nat i) (Z.to_nat j)); auto; lia.
Qed.
Lemma py_get_in l i : 0 <= i < zlen l -> py_get l i = Ok (getz l i).
Proof. intros; unfold py_get; bcases; auto; lia. Qed.
Lemma py_set_in l i v : 0 <= i < zlen l -> byte v -> py_set l i v = Ok (upd l (Z.to_nat i) v).
Proof. intros; unfold py_set. rewrite is_byte_true by auto. bcases; auto; lia. Qed.

(** ** slices *)
Lemma clampi_in n i : 0 <= i <= n -> clampi n i = i.
Proof. intros; unfold clampi; bcases; lia. Qed.
Lemma zlen_sub l s e : 0 <= s -> s <= e <= zlen l -> zlen (sub l s e) = e - s.
Proof. intros; unfold sub. rewrite zlen_firstn, zlen_skipn. lia. Qed.
Lemma getz_sub l s e i : 0 <= s -> 0 <= i < e - s -> getz (sub l s e) i = getz l (s + i).
Proof. intros; unfold sub. rewrite getz_firstn, getz_skipn by lia. auto. Qed.
Lemma py_slice_in l s e : 0 <= s <= e -> e <= zlen l -> py_slice l s e = sub l s e.
Proof. intros; unfold py_slice. now rewrite !clampi_in by lia. Qed.
Lemma zlen_slice l s e : 0 <= s <= e -> e <= zlen l -> zlen (py_slice l s e) = e - s.
Proof. intros; rewrite py_slice_in by lia. apply zlen_sub; lia. Qed.
Lemma getz_slice l s e i : 0 <= s <= e -> e <= zlen l -> 0 <= i < e - s ->
  getz (py_slice l s e) i = getz l (s + i).
Proof. intros; rewrite py_slice_in by lia. apply getz_sub; lia. Qed.
Lemma bytes_sub l s e : bytes l -> bytes (sub l s e).
Proof.
  unfold bytes, sub; intros H. apply Forall_forall. intros x Hx.
  rewrite Forall_forall in H. apply H.
  assert (Hf : forall A n (k : list A) y, In y (firstn n k) -> In y k).
  { intros A n; induction n; destruct k; cbn; intros; auto; try tauto. destruct H0; auto. }
  apply Hf in Hx.
  assert (Hs : forall A n (k : list A) y, In y (skipn n k) -> In y k).
  { intros A n; induction n; destruct k; cbn; intros; auto. }
  now apply Hs in Hx.
Qed.
Lemma bytes_slice l s e : bytes l -> bytes (py_slice l s e).
Proof. intros; unfold py_slice; now apply bytes_sub. Qed.

Lemma zlen_slice_set l s e v : 0 <= s <= e -> e <= zlen l -> zlen v = e - s ->
  zlen (py_slice_set l s e v) = zlen l.
Proof.
  intros. unfold py_slice_set. rewrite !clampi_in by lia.
  rewrite !zlen_app, zlen_firstn, zlen_skipn. lia.
Qed.
Lemma getz_slice_set l s e v i : 0 <= s <= e -> e <= zlen l -> zlen v = e - s ->
  getz (py_slice_set l s e v) i =
  if (s <=? i) && (i <? e) then getz v (i - s) else getz l i.
Proof.
  intros. destruct (Z.ltb_spec i 0).
  { rewrite !getz_neg by lia. bcases; auto; lia. }
  unfold py_slice_set. rewrite !clampi_in by lia. rewrite Z.max_r by lia.
  rewrite getz_app by lia. rewrite zlen_firstn.
  replace (Z.min (Z.of_nat (Z.to_nat s)) (zlen l)) with s by lia.
  bcase.
  - rewrite getz_firstn by lia. bcases; auto; lia.
  - rewrite getz_app by lia. bcases; try lia; auto.
    rewrite getz_skipn by lia. f_equal. lia.
Qed.
Lemma bytes_app a b : bytes (a ++ b) <-> bytes a /\ bytes b.
Proof. apply Forall_app. Qed.
Lemma bytes_firstn n l : bytes l -> bytes (firstn n l).
Proof. intros H. rewrite <- (firstn_skipn n l) in H. now apply Forall_app in H. Qed.
Lemma bytes_skipn n l : bytes l -> bytes (skipn n l).
Proof. intros H. rewrite <- (firstn_skipn n l) in H. now apply Forall_app in H. Qed.
Lemma bytes_slice_set l s e v : bytes l -> bytes v -> bytes (py_slice_set l s e v).
Proof.
  intros; unfold py_slice_set. apply bytes_app; split; [now apply bytes_firstn|].
  apply bytes_app; split; auto. now apply bytes_skipn.
Qed.
Lemma bytes_upd l n v : bytes l -> byte v -> bytes (upd l n v).
Proof.
  intros Hl Hv. revert n. induction Hl; intros [|n]; cbn; constructor; auto.
  apply IHHl.
Qed.

(** ** ranges *)
Lemma zlen_range a b : zlen (range a b) = Z.max 0 (b - a).
Proof. unfold range; rewrite zlen_map. unfold zlen. rewrite seq_length. lia. Qed.
Lemma getz_range a b i : 0 <= i < b - a -> getz (range a b) i = a + i.
Proof.
  intros. unfold range.
  rewrite (getz_map_gen _ _ 0%nat) by (unfold zlen; rewrite seq_length; lia).
  rewrite seq_nth by lia. lia.
Qed.
Lemma in_range a b x : In x (range a b) <-> a <= x < b.
Proof.
  unfold range. rewrite in_map_iff. split.
  - intros (n & H & Hn). apply in_seq in Hn. lia.
  - intros H. exists (Z.to_nat (x - a)). split; [lia|]. apply in_seq. lia.
Qed.
Lemma range_nil a b : b <= a -> range a b = [].
Proof. intros; unfold range. replace (Z.to_nat (b - a)) with O by lia. reflexivity. Qed.
Lemma range_cons a b : a < b -> range a b = a :: range (a + 1) b.
Proof.
  intros. unfold range. replace (Z.to_nat (b - a)) with (S (Z.to_nat (b - (a + 1)))) by lia.
  cbn [seq map]. f_equal; [lia|]. rewrite <- seq_shift, map_map. apply map_ext. intros; lia.
Qed.
Lemma range_snoc a b : a <= b -> range a (b + 1) = range a b ++ [b].
Proof.
  intros. unfold range. replace (Z.to_nat (b + 1 - a)) with (S (Z.to_nat (b - a))) by lia.
  rewrite seq_S, map_app. cbn [map]. f_equal. f_equal. lia.
Qed.
Lemma stepcount_nonneg s e k : 0 < k -> 0 <= stepcount s e k.
Proof. intros. unfold stepcount; bcases; nia. Qed.
Lemma zlen_range_step a b k : 0 < k -> zlen (range_step a b k) = stepcount a b k.
Proof.
  intros. unfold range_step. rewrite zlen_map, zlen_range.
  pose proof (stepcount_nonneg a b k). lia.
Qed.
Lemma getz_range_step a b k i : 0 < k -> 0 <= i < stepcount a b k ->
  getz (range_step a b k) i = a + i * k.
Proof.
  intros. unfold range_step. rewrite getz_map by (rewrite zlen_range; lia).
  rewrite getz_range by lia. reflexivity.
Qed.
(** the count when the range is known to hold exactly n items *)
Lemma stepcount_exact s e k n : 0 < k -> 0 <= n -> s + (n - 1) * k < e <= s + n * k ->
  stepcount s e k = n.
Proof.
  intros. unfold stepcount. bcase.
  - nia.
  - assert (E : (e - s - 1) / k = n - 1).
    { symmetry. apply (Z.div_unique_pos _ _ _ (e - s - 1 - k * (n - 1))); nia. }
    lia.
Qed.
Lemma zlen_xslice l s e k : 0 < k -> 0 <= s <= zlen l -> 0 <= e <= zlen l ->
  zlen (py_xslice l s e k) = stepcount s e k.
Proof. intros. unfold py_xslice. rewrite zlen_map, !clampi_in by lia. now apply zlen_range_step. Qed.
Lemma getz_xslice l s e k i : 0 < k -> 0 <= s <= zlen l -> 0 <= e <= zlen l ->
  0 <= i < stepcount s e k -> getz (py_xslice l s e k) i = getz l (s + i * k).
Proof.
  intros. unfold py_xslice. rewrite !clampi_in by lia.
  rewrite getz_map by (rewrite zlen_range_step; lia). now rewrite getz_range_step by lia.
Qed.
Lemma bytes_map_getz l ks : bytes l -> bytes (map (getz l) ks).
Proof.
  intros H. unfold bytes. apply Forall_forall. intros x Hx. apply in_map_iff in Hx.
  destruct Hx as (i & <- & _). now apply bytes_getz.
Qed.
Lemma bytes_xslice l s e k : bytes l -> bytes (py_xslice l s e k).
Proof. intros; unfold py_xslice; now apply bytes_map_getz. Qed.

Lemma zlen_mapi f i l : zlen (mapi_from f i l) = zlen l.
Proof. revert i; induction l; intros; cbn [mapi_from]; auto. now rewrite !zlen_cons, IHl. Qed.
Lemma getz_mapi_from f l : forall i0 i, 0 <= i < zlen l ->
  getz (mapi_from f i0 l) i = f (i0 + i) (getz l i).
Proof.
  induction l; intros i0 i Hi.
  - unfold zlen in Hi; cbn in Hi; lia.
  - cbn [mapi_from]. rewrite !getz_cons. rewrite zlen_cons in Hi. bcase.
    + subst. f_equal. lia.
    + rewrite IHl by lia. f_equal. lia.
Qed.
Lemma xslice_set_ok l s e k v : 1 < k -> 0 <= s <= zlen l -> 0 <= e <= zlen l ->
  0 < zlen v -> stepcount s e k = zlen v ->
  py_xslice_set l s e k v =
   Ok (mapi_from (fun i a => if in_xslice s e k i then getz v ((i - s) / k) else a) 0 l).
Proof.
  intros. unfold py_xslice_set. rewrite !clampi_in by lia. bcases; auto; lia.
Qed.
Lemma in_xslice_spec s e k i : 0 < k ->
  in_xslice s e k i = true <-> exists j, 0 <= j < stepcount s e k /\ i = s + j * k.
Proof.
  intros Hk. unfold in_xslice. rewrite !andb_true_iff, Z.leb_le, Z.ltb_lt, Z.eqb_eq. split.
  - intros ((H1 & H2) & H3). exists ((i - s) / k).
    apply Z.mod_divide in H3; [|lia]. destruct H3 as (q & H3).
    rewrite H3, Z.div_mul by lia. split; [|lia].
    unfold stepcount. bcase; [lia|]. split; [nia|].
    assert (q <= (e - s - 1) / k) by (apply Z.div_le_lower_bound; nia). lia.
  - intros (j & Hj & ->). replace (s + j * k - s) with (j * k) by lia.
    unfold stepcount in Hj. destruct (Z.leb_spec e s); [lia|].
    assert (k * ((e - s - 1) / k) <= e - s - 1) by (apply Z.mul_div_le; lia).
    rewrite Z.mod_mul by lia. nia.
Qed.
Lemma getz_xslice_set l s e k v b i : 1 < k -> 0 <= s <= zlen l -> 0 <= e <= zlen l ->
  0 < zlen v -> stepcount s e k = zlen v ->
  py_xslice_set l s e k v = Ok b ->
  getz b i = if in_xslice s e k i then getz v ((i - s) / k) else getz l i.
Proof.
  intros Hk Hs He Hv Hc Hb. rewrite xslice_set_ok in Hb by auto. inversion Hb; subst b; clear Hb.
  destruct (in_xslice s e k i) eqn:E.
  - pose proof E as E'. apply in_xslice_spec in E'; [|lia]. destruct E' as (j & Hj & ->).
    assert (s + j * k < e).
    { unfold in_xslice in E. rewrite !andb_true_iff, Z.ltb_lt in E. tauto. }
    rewrite getz_mapi_from by nia. rewrite Z.add_0_l, E. reflexivity.
  - destruct (Z.ltb_spec i 0); [now rewrite !getz_neg by lia|].
    destruct (Z.ltb_spec i (zlen l)).
    + rewrite getz_mapi_from by lia. rewrite Z.add_0_l, E. reflexivity.
    + rewrite !getz_big; auto. now rewrite zlen_mapi.
Qed.
Lemma zlen_xslice_set l s e k v b : 1 < k -> 0 <= s <= zlen l -> 0 <= e <= zlen l ->
  0 < zlen v -> stepcount s e k = zlen v ->
  py_xslice_set l s e k v = Ok b -> zlen b = zlen l.
Proof.
  intros Hk Hs He Hv Hc Hb. rewrite xslice_set_ok in Hb by auto. inversion Hb; subst b.
  apply zlen_mapi.
Qed.

(** ** running effects *)
Lemma bind_ok {A B} (m : M A) (f : A -> M B) s a s' :
  m s = (Ok a, s') -> bind m f s = f a s'.
Proof. intros H; unfold bind; now rewrite H. Qed.
Lemma bind_err {A B} (m : M A) (f : A -> M B) s e s' :
  m s = (Err e, s') -> bind m f s = (Err e, s').
Proof. intros H; unfold bind; now rewrite H. Qed.
Lemma bind_assoc {A B C} (m : M A) (f : A -> M B) (g : B -> M C) s :
  bind (bind m f) g s = bind m (fun a => bind (f a) g) s.
Proof. unfold bind. destruct (m s) as [[a|e] s']; auto. Qed.

Lemma foldM_app {A B} (f : B -> A -> M B) l1 l2 b s :
  foldM f b (l1 ++ l2) s = bind (foldM f b l1) (fun b' => foldM f b' l2) s.
Proof.
  revert b s. induction l1; intros; cbn [foldM app].
  - reflexivity.
  - rewrite bind_assoc. unfold bind. destruct (f b a s) as [[x|e] s']; auto.
    rewrite IHl1. reflexivity.
Qed.

(** Invariant rule for a loop over range(a,b). *)
Lemma foldM_range_inv {B} (P : Z -> B -> st -> Prop) (f : B -> Z -> M B) a b b0 s0 :
  a <= b -> P a b0 s0 ->
  (forall i x s, a <= i < b -> P i x s ->
     exists x' s', f x i s = (Ok x', s') /\ P (i + 1) x' s') ->
  exists x' s', foldM f b0 (range a b) s0 = (Ok x', s') /\ P b x' s'.
Proof.
  intros Hab. remember (Z.to_nat (b - a)) as n eqn:En. revert a b0 s0 Hab En.
  induction n; intros a b0 s0 Hab En H0 Hs.
  - rewrite range_nil by lia. cbn. exists b0, s0. split; auto.
    now replace b with a by lia.
  - rewrite range_cons by lia. cbn [foldM].
    destruct (Hs a b0 s0) as (x' & s' & E & H'); [lia|auto|].
    unfold bind. rewrite E. apply IHn; auto; try lia.
    intros; apply Hs; auto; lia.
Qed.
Lemma forM_range_inv (P : Z -> st -> Prop) (f : Z -> M unit) a b s0 :
  a <= b -> P a s0 ->
  (forall i s, a <= i < b -> P i s -> exists s', f i s = (Ok tt, s') /\ P (i + 1) s') ->
  exists s', forM (range a b) f s0 = (Ok tt, s') /\ P b s'.
Proof.
  intros Hab H0 Hs. unfold forM.
  destruct (foldM_range_inv (fun i (_ : unit) s => P i s) (fun _ a => f a) a b tt s0)
    as (x & s' & E & H); auto.
  - intros i x s Hi H. destruct (Hs i s Hi H) as (s' & E & H'). now exists tt, s'.
  - destruct x. eauto.
Qed.
(** Invariant rule for a loop over an arbitrary list. *)
Lemma foldM_list_inv {A B} (P : list A -> B -> st -> Prop) (f : B -> A -> M B) l b0 s0 :
  P [] b0 s0 ->
  (forall done a todo x s, l = done ++ a :: todo -> P done x s ->
     exists x' s', f x a s = (Ok x', s') /\ P (done ++ [a]) x' s') ->
  exists x' s', foldM f b0 l s0 = (Ok x', s') /\ P l x' s'.
Proof.
  intros H0 Hs.
  enough (forall todo done x s, l = done ++ todo -> P done x s ->
     exists x' s', foldM f x todo s = (Ok x', s') /\ P l x' s') as H.
  { apply (H l []); auto. }
  induction todo as [|a todo IH]; intros done x s El HP; cbn [foldM].
  - exists x, s. split; auto. rewrite app_nil_r in El. now subst.
  - destruct (Hs done a todo x s El HP) as (x' & s' & E & H').
    unfold bind. rewrite E. apply (IH (done ++ [a])); auto.
    rewrite El, <- app_assoc. reflexivity.
Qed.
(** While loops: a measure that is a step counter. *)
Lemma whileM_inv {B} (P : Z -> B -> st -> Prop) cond (body : B -> M B) n fuel b0 s0 :
  0 <= n -> (Z.to_nat n <= fuel)%nat -> P 0 b0 s0 ->
  (forall i x s, 0 <= i < n -> P i x s -> cond x = true /\
      exists x' s', body x s = (Ok x', s') /\ P (i + 1) x' s') ->
  (forall x s, P n x s -> cond x = false) ->
  exists x' s', whileM fuel cond body b0 s0 = (Ok x', s') /\ P n x' s'.
Proof.
  intros Hn Hf H0 Hs He.
  enough (forall m i fuel x s, m = Z.to_nat (n - i) -> 0 <= i <= n -> (m <= fuel)%nat ->
     P i x s -> exists x' s', whileM fuel cond body x s = (Ok x', s') /\ P n x' s') as H.
  { apply (H (Z.to_nat (n - 0)) 0); auto; lia. }
  clear fuel b0 s0 Hf H0.
  induction m; intros i fuel x s Em Hi Hf HP.
  - assert (i = n) by lia. subst i. destruct fuel; cbn [whileM]; rewrite (He x s HP);
      exists x, s; auto.
  - destruct fuel; [lia|]. cbn [whileM].
    destruct (Hs i x s) as (Ec & x' & s' & E & H'); [lia|auto|].
    rewrite Ec. unfold bind. rewrite E. apply (IHm (i + 1)); auto; lia.
Qed.

(** ** running single statements *)
Lemma run_geti b o i : 0 <= i < zlen b -> geti i (mkst b o) = (Ok (getz b i), mkst b o).
Proof. intros. unfold geti, rd. cbn [mem]. now rewrite py_get_in. Qed.
Lemma run_seti b o i v : 0 <= i < zlen b -> byte v ->
  seti i v (mkst b o) = (Ok tt, mkst (upd b (Z.to_nat i) v) o).
Proof. intros. unfold seti, wr. cbn [mem]. now rewrite py_set_in. Qed.
Lemma run_slice b o s e : slice s e (mkst b o) = (Ok (py_slice b s e), mkst b o).
Proof. reflexivity. Qed.
Lemma run_slice_set b o s e v : slice_set s e v (mkst b o) = (Ok tt, mkst (py_slice_set b s e v) o).
Proof. reflexivity. Qed.
Lemma run_xslice b o s e k : xslice s e k (mkst b o) = (Ok (py_xslice b s e k), mkst b o).
Proof. reflexivity. Qed.
Lemma run_xslice_set b o s e k v b' : py_xslice_set b s e k v = Ok b' ->
  xslice_set s e k v (mkst b o) = (Ok tt, mkst b' o).
Proof. intros H. unfold xslice_set, wr. cbn [mem]. now rewrite H. Qed.
Lemma run_rd {A} (f : list Z -> res A) b o a : f b = Ok a -> rd f (mkst b o) = (Ok a, mkst b o).
Proof. intros H. unfold rd. cbn [mem]. now rewrite H. Qed.
Lemma run_lift {A} (r : res A) b o a : r = Ok a -> lift r (mkst b o) = (Ok a, mkst b o).
Proof. intros H. unfold lift. now rewrite H. Qed.
