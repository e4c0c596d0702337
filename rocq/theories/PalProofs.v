(** Palette operations, palette rotation, block transfers (proofs). *)
From Coq Require Import ZArith List Bool Lia.
From Verif Require Import PyBase PyFacts Spec Palette Bmp BmpFacts PixelProofs HeaderProofs.
Import ListNotations.
Open Scope Z_scope.
Open Scope py_scope.
Ltac Zify.zify_post_hook ::= Z.to_euclidean_division_equations.

Lemma setbmppal_ok b w h bits o pal : wf b w h bits -> bits <> 24 -> zlen pal = 2 ^ bits ->
  Forall byte3 pal ->
  exists b', setbmppal pal (mkst b o) = (Ok tt, mkst b' o) /\ wf b' w h bits /\
    getallRGBpal b' = Ok pal /\
    (forall i, i < 54 \/ data_off bits <= i \/ (i - 54) mod 4 = 3 -> getz b' i = getz b i) /\
    (forall x y, inside w h x y -> pixel b' w h bits x y = pixel b w h bits x y) /\
    zlen b' = zlen b.
Proof.
  intros W N Hl Hp.
  assert (Eo : data_off bits = 54 + 4 * 2 ^ bits).
  { unfold data_off. destruct (Z.eqb_spec bits 24); [contradiction|reflexivity]. }
  destruct (setbmppal_run b o pal bits) as (b' & E & S & B); auto.
  { apply (wf_rbits _ _ _ _ W). } { apply W. } { apply W. } { eapply wf_pal_len; eauto. }
  exists b'. split; auto. pose proof S as (Lb & G).
  assert (F : forall i, i < 54 \/ data_off bits <= i \/ (i - 54) mod 4 = 3 -> getz b' i = getz b i).
  { intros i Hi. rewrite G. bcases; auto; lia. }
  destruct (wf_pal_frame b b' w h bits) as [W' P]; auto. { intros; apply F; tauto. }
  split; auto. split; auto.
  rewrite (getallRGBpal_ok _ _ _ _ W' N). f_equal. rewrite <- Hl. eapply pal_stored_entries; eauto.
Qed.

Lemma setRGBpal_ok b w h bits o c r g bl : wf b w h bits -> bits <> 24 -> 0 <= c < 2 ^ bits ->
  byte r -> byte g -> byte bl ->
  exists b', setRGBpal c r g bl (mkst b o) = (Ok tt, mkst b' o) /\ wf b' w h bits /\
    getRGBpal c b' = Ok (r, g, bl) /\
    (forall c', 0 <= c' < 2 ^ bits -> c' <> c -> getRGBpal c' b' = getRGBpal c' b) /\
    (forall i, i < 54 \/ data_off bits <= i -> getz b' i = getz b i) /\
    (forall x y, inside w h x y -> pixel b' w h bits x y = pixel b w h bits x y) /\
    zlen b' = zlen b.
Proof.
  intros W N Hc Hr Hg Hb.
  assert (Eo : data_off bits = 54 + 4 * 2 ^ bits).
  { unfold data_off. destruct (Z.eqb_spec bits 24); [contradiction|reflexivity]. }
  pose proof (wf_pal_len _ _ _ _ W N) as Hl.
  unfold setRGBpal, bmppal. rewrite shiftl2.
  assert (H3 : bytes [bl; g; r]) by now apply bytes3.
  rewrite (bind_ok _ _ _ _ _ (run_lift _ _ _ _ (py_array_ok _ H3))).
  rewrite run_slice_set. eexists; split; [reflexivity|].
  set (b' := py_slice_set b (54 + c * 4) (54 + c * 4 + 3) [bl; g; r]).
  assert (L3 : zlen [bl; g; r] = 54 + c * 4 + 3 - (54 + c * 4)) by (unfold zlen; cbn; lia).
  assert (G : forall i, getz b' i = if (54 + c * 4 <=? i) && (i <? 54 + c * 4 + 3)
     then getz [bl; g; r] (i - (54 + c * 4)) else getz b i).
  { intros i. apply getz_slice_set; lia. }
  assert (Lb : zlen b' = zlen b) by (apply zlen_slice_set; lia).
  assert (F : forall i, i < 54 \/ data_off bits <= i -> getz b' i = getz b i).
  { intros i Hi. rewrite G. bcases; auto; lia. }
  destruct (wf_pal_frame b b' w h bits) as [W' P]; auto.
  { apply bytes_slice_set; auto. apply W. }
  split; auto. split; [|split; [|auto]].
  - rewrite getRGBpal_ok by lia. unfold pal_entry. rewrite !G.
    replace (54 + 4 * c + 2 - (54 + c * 4)) with 2 by lia.
    replace (54 + 4 * c + 1 - (54 + c * 4)) with 1 by lia.
    replace (54 + 4 * c - (54 + c * 4)) with 0 by lia.
    rewrite getz3_0, getz3_1, getz3_2. bcases; auto; lia.
  - intros c' Hc' Nc. rewrite !getRGBpal_ok by lia. unfold pal_entry. rewrite !G.
    bcases; auto; lia.
Qed.

(** ** palshift *)
Definition rotated (b b' : list Z) (m s : Z) : Prop :=
  zlen b' = zlen b /\ forall i, getz b' i =
    if (54 <=? i) && (i <? 54 + 4 * m) then getz b (54 + (i - 54 + 4 * s) mod (4 * m)) else getz b i.

Lemma palshift_run b w h bits o s : wf b w h bits -> bits = 4 \/ bits = 8 ->
  exists b', palshift s (mkst b o) = (Ok (Some tt), mkst b' o) /\
     rotated b b' (2 ^ bits) (Z.abs s) /\ bytes b'.
Proof.
  intros W Hbits. unfold palshift, func4and8bitonly.
  rewrite (bind_ok (geti bmpcolorbits) _ _ _ _ (run_rd _ _ _ _ (wf_rbits _ _ _ _ W))).
  replace (negb ((bits =? 4) || (bits =? 8))) with false by (destruct Hbits; subst; reflexivity).
  unfold withSome. rewrite bind_assoc.
  rewrite (bind_ok _ _ _ _ _ (run_rd _ _ _ _ (wf_rcolors _ _ _ _ W))).
  set (m := 2 ^ bits) in *. 
  assert (Hm : m = 16 \/ m = 256) by (unfold m; destruct Hbits; subst; auto).
  assert (Hl : 54 + 4 * m <= zlen b) by (eapply wf_pal_len; eauto; destruct Hbits; lia).
  set (t := Z.abs s mod m). assert (Ht : 0 <= t < m) by (unfold t; apply Z.mod_pos_bound; lia).
  assert (Et : exists q, Z.abs s = m * q + t).
  { exists (Z.abs s / m). unfold t. apply Z.div_mod. lia. }
  clearbody t. unfold bmppal. cbv zeta.
  rewrite bind_assoc, (bind_ok _ _ _ _ _ (run_slice _ _ _ _)).
  rewrite bind_assoc, (bind_ok _ _ _ _ _ (run_slice _ _ _ _)).
  rewrite bind_assoc, (bind_ok _ _ _ _ _ (run_slice_set _ _ _ _ _)).
  rewrite (bind_ok _ _ _ _ _ (run_slice_set _ _ _ _ _)). cbn [ret].
  set (q := (m - t) * 4 + 54 + t * 4). set (p := 54 + t * 4). set (e := (m - t) * 4 + 54).
  assert (La : zlen (py_slice b 54 p) = q - e) by (rewrite zlen_slice; unfold p, q, e; lia).
  assert (Lc : zlen (py_slice b p q) = e - 54) by (rewrite zlen_slice; unfold p, q, e; lia).
  assert (L1 : zlen (py_slice_set b e q (py_slice b 54 p)) = zlen b)
    by (apply zlen_slice_set; unfold p, q, e in *; lia).
  eexists; split; [reflexivity|]. split; [split|].
  - rewrite zlen_slice_set; auto; unfold p, q, e in *; lia.
  - intros i. rewrite getz_slice_set by (unfold p, q, e in *; lia).
    destruct Et as (k & Et).
    rewrite getz_slice_set by (unfold p, q, e in *; lia).
    destruct (Z.leb_spec 54 i); destruct (Z.ltb_spec i (54 + 4 * m)); cbn [andb].
    + destruct (Z.ltb_spec i e).
      * rewrite getz_slice by (unfold p, q, e in *; lia). f_equal.
        replace (i - 54 + 4 * Z.abs s) with (i - 54 + 4 * t + k * (4 * m)) by lia.
        rewrite Z.mod_add by lia. rewrite Z.mod_small by (unfold e in *; lia). unfold p; lia.
      * destruct (Z.leb_spec e i); [|lia]. destruct (Z.ltb_spec i q); [|unfold q, e in *; lia]. cbn [andb].
        rewrite getz_slice by (unfold p, q, e in *; lia). f_equal.
        replace (i - 54 + 4 * Z.abs s) with (i - e + (k + 1) * (4 * m)) by (unfold e in *; lia).
        rewrite Z.mod_add by lia. rewrite Z.mod_small by (unfold e, q in *; lia). lia.
    + assert (e <= i) by (unfold e; lia). assert (q <= i) by (unfold q; lia). bcases; auto; lia.
    + assert (i < e) by (unfold e; lia). bcases; auto; lia.
    + lia.
  - apply bytes_slice_set; [apply bytes_slice_set|]; try apply bytes_slice; apply W.
Qed.

Lemma palshift_guard b w h bits o s : wf b w h bits -> bits <> 4 -> bits <> 8 ->
  palshift s (mkst b o) = (Ok None, mkst b (o ++ [Mnot4or8bit])).
Proof.
  intros W N4 N8. unfold palshift, func4and8bitonly.
  rewrite (bind_ok (geti bmpcolorbits) _ _ _ _ (run_rd _ _ _ _ (wf_rbits _ _ _ _ W))).
  destruct (Z.eqb_spec bits 4); [contradiction|]. destruct (Z.eqb_spec bits 8); [contradiction|]. reflexivity.
Qed.

Lemma rotated_wf b b' w h bits s : wf b w h bits -> bits = 4 \/ bits = 8 -> 
  rotated b b' (2 ^ bits) s -> bytes b' ->
  wf b' w h bits /\ (forall x y, inside w h x y -> pixel b' w h bits x y = pixel b w h bits x y).
Proof.
  intros W Hb (L & G) B. apply wf_pal_frame; auto. intros i Hi. rewrite G.
  assert (data_off bits = 54 + 4 * 2 ^ bits) by (destruct Hb; subst; reflexivity). bcases; auto; lia.
Qed.
Lemma rotated_entry b b' m s i : rotated b b' m s -> 0 < m -> 0 <= i < m -> 0 <= s ->
  pal_entry b' i = pal_entry b ((i + s) mod m).
Proof.
  intros (L & G) Hm Hi Hs. unfold pal_entry. rewrite !G.
  assert (K : forall k, 0 <= k < 4 -> (54 + 4 * i + k - 54 + 4 * s) mod (4 * m) = 4 * ((i + s) mod m) + k).
  { intros k Hk. symmetry. apply (Z.mod_unique_pos _ _ ((i + s) / m)).
    - pose proof (Z.mod_pos_bound (i + s) m). lia.
    - pose proof (Z.div_mod (i + s) m). lia. }
  pose proof (K 0 ltac:(lia)) as K0. rewrite Z.add_0_r in K0.
  rewrite (K 1), (K 2), K0 by lia. clear K K0.
  replace (54 + (4 * ((i + s) mod m) + 2)) with (54 + 4 * ((i + s) mod m) + 2) by ring.
  replace (54 + (4 * ((i + s) mod m) + 1)) with (54 + 4 * ((i + s) mod m) + 1) by ring.
  replace (54 + (4 * ((i + s) mod m) + 0)) with (54 + 4 * ((i + s) mod m)) by ring.
  generalize ((i + s) mod m). intros j. bcases; auto; lia.
Qed.
Lemma rotated_comp a b c m s t : 0 < m -> rotated a b m s -> rotated b c m t -> rotated a c m (s + t).
Proof.
  intros Hm (L1 & G1) (L2 & G2). split; [congruence|]. intros i. rewrite G2, !G1.
  pose proof (Z.mod_pos_bound (i - 54 + 4 * t) (4 * m) ltac:(lia)) as R.
  destruct ((54 <=? i) && (i <? 54 + 4 * m)) eqn:E; auto.
  set (r := (i - 54 + 4 * t) mod (4 * m)) in *.
  replace ((54 <=? 54 + r) && (54 + r <? 54 + 4 * m)) with true
    by (symmetry; apply andb_true_intro; split; [apply Z.leb_le|apply Z.ltb_lt]; lia).
  f_equal. f_equal. replace (54 + r - 54 + 4 * s) with (r + 4 * s) by ring.
  unfold r. rewrite Z.add_mod_idemp_l by lia. f_equal. ring.
Qed.
Lemma rotated_unique a b c m s t : 0 < m -> s mod m = t mod m -> rotated a b m s -> rotated a c m t -> b = c.
Proof.
  intros Hm E (L1 & G1) (L2 & G2). apply list_ext; [congruence|]. intros i _. rewrite G1, G2.
  destruct ((54 <=? i) && (i <? 54 + 4 * m)); auto. f_equal. f_equal.
  rewrite (Z.add_mod _ (4 * s)), (Z.add_mod _ (4 * t)) by lia.
  rewrite !Z.mul_mod_distr_l by lia. now rewrite E.
Qed.
Lemma rotated_id b m : 0 < m -> rotated b b m 0.
Proof.
  intros Hm. split; auto. intros i. rewrite Z.mul_0_r, Z.add_0_r.
  destruct (Z.leb_spec 54 i); destruct (Z.ltb_spec i (54 + 4 * m)); cbn [andb]; auto.
  rewrite Z.mod_small by lia. f_equal. lia.
Qed.

(** repeated shifts *)
Fixpoint palshift_n (n : nat) (s : Z) : M unit :=
  match n with O => ret tt | S n' => palshift s ;;; palshift_n n' s end.
Lemma palshift_n_run w h bits o s : bits = 4 \/ bits = 8 -> forall n b, wf b w h bits ->
  exists b', palshift_n n s (mkst b o) = (Ok tt, mkst b' o) /\ rotated b b' (2 ^ bits) (Z.of_nat n * Z.abs s)
     /\ wf b' w h bits.
Proof.
  intros Hb. induction n; intros b W; cbn [palshift_n].
  - exists b. split; [reflexivity|]. split; auto. cbn [Z.of_nat]. rewrite Z.mul_0_l.
    apply rotated_id. destruct Hb; subst; reflexivity.
  - destruct (palshift_run b w h bits o s W Hb) as (b1 & E1 & R1 & B1).
    rewrite (bind_ok _ _ _ _ _ E1).
    destruct (rotated_wf b b1 w h bits _ W Hb R1 B1) as [W1 _].
    destruct (IHn b1 W1) as (b2 & E2 & R2 & W2). exists b2. split; auto. split; auto.
    replace (Z.of_nat (S n) * Z.abs s) with (Z.abs s + Z.of_nat n * Z.abs s) by lia.
    eapply rotated_comp; eauto. destruct Hb; subst; reflexivity.
Qed.

(** ** block transfers *)
Lemma bltput_ok b w h bits o off buf : wf b w h bits -> 0 <= off ->
  data_off bits + off + zlen buf <= zlen b -> bytes buf ->
  BMPbitBLTput off buf (mkst b o) =
    (Ok tt, mkst (py_slice_set b (data_off bits + off) (data_off bits + off + zlen buf) buf) o).
Proof.
  intros W Ho Hf Hb. unfold BMPbitBLTput.
  rewrite (bind_ok _ _ _ _ _ (run_rd _ _ _ _ (wf_rhdsz _ _ _ _ W))). cbv zeta.
  rewrite (bind_ok _ _ _ _ _ (run_rd _ _ _ _ (wf_rflsz _ _ _ _ W))).
  bcases; try lia. reflexivity.
Qed.
Lemma bltput_bad b w h bits o off buf : wf b w h bits ->
  off < 0 \/ zlen b < data_off bits + off + zlen buf ->
  BMPbitBLTput off buf (mkst b o) = (Ok tt, mkst b (o ++ [Minvalidoffset])).
Proof.
  intros W Hf. unfold BMPbitBLTput.
  rewrite (bind_ok _ _ _ _ _ (run_rd _ _ _ _ (wf_rhdsz _ _ _ _ W))). cbv zeta.
  rewrite (bind_ok _ _ _ _ _ (run_rd _ _ _ _ (wf_rflsz _ _ _ _ W))).
  bcases; try lia; reflexivity.
Qed.
Lemma bltget_ok b w h bits o off n : wf b w h bits -> 0 <= off -> 0 < n ->
  data_off bits + off + n <= zlen b ->
  BMPbitBLTget off n (mkst b o) = (Ok (sub b (data_off bits + off) (data_off bits + off + n)), mkst b o).
Proof.
  intros W Ho Hn Hf. unfold BMPbitBLTget.
  rewrite (bind_ok _ _ _ _ _ (run_rd _ _ _ _ (wf_rhdsz _ _ _ _ W))). cbv zeta.
  rewrite (bind_ok _ _ _ _ _ (run_rd _ _ _ _ (wf_rflsz _ _ _ _ W))).
  pose proof (data_off_ge bits (wf_depth _ _ _ _ W)).
  bcases; try lia. rewrite run_slice. rewrite py_slice_in by lia. reflexivity.
Qed.
Lemma bltget_bad b w h bits o off n : wf b w h bits ->
  off < 0 \/ n <= 0 \/ zlen b < data_off bits + off + n ->
  BMPbitBLTget off n (mkst b o) = (Ok [], mkst b (o ++ [Minvalidoffset])).
Proof.
  intros W Hf. unfold BMPbitBLTget.
  rewrite (bind_ok _ _ _ _ _ (run_rd _ _ _ _ (wf_rhdsz _ _ _ _ W))). cbv zeta.
  rewrite (bind_ok _ _ _ _ _ (run_rd _ _ _ _ (wf_rflsz _ _ _ _ W))).
  bcases; try lia; reflexivity.
Qed.
