(** Files: loading, saving, wrappers, comparison (proofs). *)
From Coq Require Import ZArith List Bool Lia String.
From Verif Require Import PyBase PyFacts Spec Bmp BmpFacts PixelProofs HeaderProofs PalProofs Files.
Import ListNotations.
Open Scope Z_scope.
Ltac Zify.zify_post_hook ::= Z.to_euclidean_division_equations.

Lemma le_field_cons a l n off : 0 <= off -> le_field (a :: l) (off + 1) n = le_field l off n.
Proof.
  revert off. induction n; intros off H; cbn [le_field]; auto.
  rewrite IHn by lia. rewrite getz_cons. replace (off + 1 =? 0) with false by (symmetry; apply Z.eqb_neq; lia).
  replace (off + 1 - 1) with off by lia. reflexivity.
Qed.
Lemma char2int_from_spec l : forall p, 0 <= p -> char2int_from p l = 256 ^ p * le_field l 0 (List.length l).
Proof.
  induction l as [|a l IH]; intros p Hp; cbn [char2int_from le_field List.length]; [lia|].
  rewrite IH by lia. rewrite (le_field_cons a l _ 0) by lia. rewrite getz_cons. cbn [Z.eqb].
  rewrite Z.pow_add_r by lia. change (256 ^ 1) with 256. ring.
Qed.
Lemma char2int_spec l : char2int l = le_field l 0 (List.length l).
Proof. unfold char2int. rewrite char2int_from_spec by lia. rewrite Z.pow_0_r. lia. Qed.

Lemma le_field_big l : forall n off, zlen l <= off -> le_field l off n = 0.
Proof.
  induction n; intros off H; cbn [le_field]; auto. rewrite IHn by lia. rewrite getz_big by lia. reflexivity.
Qed.
Lemma skipn_next {A} (a : A) t : forall n l, skipn n l = a :: t -> skipn (S n) l = t.
Proof.
  induction n; intros l H.
  - cbn in H. subst. reflexivity.
  - destruct l as [|b l]; [discriminate|]. cbn [skipn] in H. apply IHn in H. exact H.
Qed.
(** a slice shortened by the end of the list reads as zeros *)
Lemma le_field_slice l s n : 0 <= s -> 
  le_field (py_slice l s (s + Z.of_nat n)) 0 (List.length (py_slice l s (s + Z.of_nat n))) = le_field l s n.
Proof.
  intros Hs. set (v := py_slice l s (s + Z.of_nat n)).
  assert (Hv : v = firstn n (skipn (Z.to_nat s) l)).
  { unfold v, py_slice, sub, clampi. pose proof (zlen_nonneg l).
    replace (s <? 0) with false by (symmetry; apply Z.ltb_ge; lia).
    replace (s + Z.of_nat n <? 0) with false by (symmetry; apply Z.ltb_ge; lia).
    destruct (Z.le_gt_cases (zlen l) s).
    - rewrite (skipn_all2 l) by (unfold zlen in *; lia).
      rewrite skipn_all2 by (unfold zlen in *; lia). rewrite !firstn_nil. reflexivity.
    - rewrite (Z.min_l s) by lia. destruct (Z.le_gt_cases (s + Z.of_nat n) (zlen l)).
      + rewrite Z.min_l by lia. f_equal. lia.
      + rewrite Z.min_r by lia. rewrite !firstn_all2; auto; rewrite skipn_length; unfold zlen in *; lia. }
  rewrite Hv. clear v Hv. revert s Hs. induction n; intros s Hs; [reflexivity|].
  destruct (skipn (Z.to_nat s) l) as [|a t] eqn:E.
  - cbn [firstn List.length le_field]. symmetry.
    assert (zlen l <= s).
    { assert (List.length (skipn (Z.to_nat s) l) = O) by (rewrite E; reflexivity).
      rewrite skipn_length in H. unfold zlen. lia. }
    rewrite getz_big by lia. rewrite le_field_big by lia. reflexivity.
  - cbn [firstn List.length le_field]. rewrite (le_field_cons a _ _ 0) by lia.
    rewrite getz_cons. cbn [Z.eqb].
    assert (Et : t = skipn (Z.to_nat (s + 1)) l).
    { replace (Z.to_nat (s + 1)) with (1 + Z.to_nat s)%nat by lia. symmetry. now apply (skipn_next a). }
    rewrite Et. rewrite <- (IHn (s + 1)) by lia.
    assert (Ea : getz l s = a).
    { replace s with (s + 0) by lia. rewrite <- getz_skipn by lia. rewrite E. reflexivity. }
    rewrite Ea. reflexivity.
Qed.

Lemma zlist_eqb_true a b : zlist_eqb a b = true <-> a = b.
Proof. unfold zlist_eqb. destruct (list_eq_dec Z.eq_dec a b); split; auto; discriminate. Qed.
Lemma zlist_eqb_false a b : zlist_eqb a b = false <-> a <> b.
Proof. unfold zlist_eqb. destruct (list_eq_dec Z.eq_dec a b); split; auto; try discriminate; tauto. Qed.

Lemma slice02 d : py_slice d 0 2 = [66; 77] <-> getz d 0 = 66 /\ getz d 1 = 77.
Proof.
  destruct d as [|a [|b t]].
  - split; [discriminate|]. intros [H1 H2]. vm_compute in H2. discriminate.
  - split; [discriminate|]. intros [H1 H2]. vm_compute in H2. discriminate.
  - unfold py_slice, sub. assert (2 <= zlen (a :: b :: t)) by (rewrite !zlen_cons; pose proof (zlen_nonneg t); lia).
    rewrite !clampi_in by lia. 
    change (firstn (Z.to_nat (2 - 0)) (skipn (Z.to_nat 0) (a :: b :: t))) with [a; b].
    rewrite !getz_cons. cbn. split; intros H0; [now inversion H0|]. destruct H0; subst; auto.
Qed.

(** BM signature present *)
Definition has_sig (d : list Z) : Prop := getz d 0 = 66 /\ getz d 1 = 77.

Lemma loadBMP_missing n w : files w n = None ->
  loadBMP n w = (Ok None, mkw (files w) (con w ++ [Mfilenotexist])).
Proof. intros H. unfold loadBMP, checklink. rewrite H. reflexivity. Qed.
Lemma loadBMP_bad n w d : files w n = Some d -> ~ (has_sig d /\ 54 < le_field d 2 8) ->
  loadBMP n w = (Ok (Some []), mkw (files w) (con w ++ [MnotBMP])).
Proof.
  intros H Hn. unfold loadBMP, checklink. rewrite H. unfold fbind at 1. unfold fbind at 1.
  unfold readall. rewrite H. destruct (zlist_eqb (py_slice d 0 2) [66; 77]) eqn:E; cbn [negb]; [|reflexivity].
  apply zlist_eqb_true, slice02 in E.
  assert (Ec : char2int (py_slice d 2 10) = le_field d 2 8).
  { rewrite char2int_spec. exact (le_field_slice d 2 8 ltac:(lia)). }
  rewrite Ec. rewrite Z.gtb_ltb. destruct (Z.ltb_spec 54 (le_field d 2 8)); [|reflexivity].
  exfalso. apply Hn. split; auto.
Qed.
Lemma loadBMP_good n w d : files w n = Some d -> has_sig d -> 54 < le_field d 2 8 ->
  loadBMP n w = if le_field d 2 8 <? 2 ^ 63 then (Ok (Some (firstn (Z.to_nat (le_field d 2 8)) d)), w)
                else (Err OverflowError, w).
Proof.
  intros H Hs Hd. unfold loadBMP, checklink. rewrite H. unfold fbind at 1. unfold fbind at 1.
  unfold readall. rewrite H. rewrite (proj2 (zlist_eqb_true _ _)) by (now apply slice02). cbn [negb].
  assert (Ec : char2int (py_slice d 2 10) = le_field d 2 8).
  { rewrite char2int_spec. exact (le_field_slice d 2 8 ltac:(lia)). }
  rewrite Ec. rewrite Z.gtb_ltb. rewrite (proj2 (Z.ltb_lt _ _)) by lia.
  unfold flift, fread. destruct (le_field d 2 8 <? 2 ^ 63); [|reflexivity].
  unfold fret. do 3 f_equal. unfold py_slice, sub, clampi. pose proof (zlen_nonneg d).
  replace (le_field d 2 8 <? 0) with false by (symmetry; apply Z.ltb_ge; lia).
  cbn [Z.ltb Z.compare]. rewrite (Z.min_l 0) by lia. cbn [Z.to_nat skipn]. rewrite Z.sub_0_r.
  destruct (Z.le_gt_cases (le_field d 2 8) (zlen d)).
  - now rewrite Z.min_l by lia.
  - rewrite Z.min_r by lia. rewrite !firstn_all2; auto; unfold zlen in *; lia.
Qed.
(** a bitmap without any pixel byte at 24 bit is 54 bytes long and is refused *)
Lemma loadBMP_wf n w d x y bits : files w n = Some d -> wf d x y bits -> 54 < zlen d ->
  loadBMP n w = (Ok (Some d), w).
Proof.
  intros H W Hl. pose proof (wf_len_bound _ _ _ _ W).
  rewrite (loadBMP_good n w d); auto; try (rewrite (wf_size _ _ _ _ W)); auto; [|apply W].
  rewrite (proj2 (Z.ltb_lt _ _)) by lia. rewrite firstn_all2; auto. unfold zlen; lia.
Qed.
Lemma loadBMP_files n w : files (snd (loadBMP n w)) = files w.
Proof.
  destruct (files w n) as [d|] eqn:E.
  - assert (D : {has_sig d /\ 54 < le_field d 2 8} + {~ (has_sig d /\ 54 < le_field d 2 8)}).
    { unfold has_sig. destruct (Z.eq_dec (getz d 0) 66), (Z.eq_dec (getz d 1) 77), (Z_lt_dec 54 (le_field d 2 8));
        ((left; tauto) || (right; tauto)). }
    destruct D as [[H1 H2]|D].
    + rewrite (loadBMP_good _ _ _ E H1 H2). destruct (le_field d 2 8 <? 2 ^ 63); reflexivity.
    + rewrite (loadBMP_bad _ _ _ E D). reflexivity.
  - rewrite (loadBMP_missing _ _ E). reflexivity.
Qed.

Lemma fput_same f n d : fput f n d n = Some d.
Proof. unfold fput. destruct (string_dec n n); congruence. Qed.
Lemma fput_other f n m d : m <> n -> fput f n d m = f m.
Proof. unfold fput. destruct (string_dec m n); congruence. Qed.

(** outcome of a load: what the wrappers see *)
Lemma load_exists n w d : files w n = Some d ->
  (exists b l, loadBMP n w = (Ok (Some b), mkw (files w) l)) \/ loadBMP n w = (Err OverflowError, w).
Proof.
  intros E.
  assert (D : {has_sig d /\ 54 < le_field d 2 8} + {~ (has_sig d /\ 54 < le_field d 2 8)}).
  { unfold has_sig. destruct (Z.eq_dec (getz d 0) 66), (Z.eq_dec (getz d 1) 77), (Z_lt_dec 54 (le_field d 2 8));
      ((left; tauto) || (right; tauto)). }
  destruct D as [[H1 H2]|D].
  - rewrite (loadBMP_good _ _ _ E H1 H2). destruct (le_field d 2 8 <? 2 ^ 63); [|auto].
    left. destruct w. eauto.
  - rewrite (loadBMP_bad _ _ _ E D). left. eauto.
Qed.

(** ** wrappers *)
Definition missing_result (w : world) : res (option unit) * world :=
  (Ok None, mkw (files w) (con w ++ [Mfilenotexist])).

Lemma usebyref_missing {A} src dst (f : M A) w : files w src = None ->
  usebyreffnsv src dst f w = missing_result w.
Proof. intros H. unfold usebyreffnsv, checklink. rewrite H. reflexivity. Qed.
Lemma use24_missing {A} src dst (f : M A) w : files w src = None ->
  use24btbyreffnsv src dst f w = missing_result w.
Proof. intros H. unfold use24btbyreffnsv, checklink. rewrite H. reflexivity. Qed.
Lemma usefnsv_missing src dst f w : files w src = None -> usefnsv src dst f w = missing_result w.
Proof. intros H. unfold usefnsv, checklink. rewrite H. reflexivity. Qed.
Lemma usefn2regsv_missing src dst f w : files w src = None -> usefn2regsv src dst f w = missing_result w.
Proof. intros H. unfold usefn2regsv, checklink. rewrite H. reflexivity. Qed.
Lemma use24par_missing src dst f w : files w src = None -> use24btfnwithparnsv src dst f w = missing_result w.
Proof. intros H. unfold use24btfnwithparnsv, checklink. rewrite H. reflexivity. Qed.

Lemma usebyref_run {A} src dst (f : M A) w d b l : files w src = Some d ->
  loadBMP src w = (Ok (Some b), mkw (files w) l) ->
  usebyreffnsv src dst f w =
    match f (mkst b l) with
    | (Ok _, s) => (Ok (Some tt), mkw (fput (files w) dst (mem s)) (out s ++ [Msaved]))
    | (Err e, s) => (Err e, mkw (files w) (out s))
    end.
Proof.
  intros H L. unfold usebyreffnsv, checklink. rewrite H. unfold fbind at 1 2. rewrite L.
  cbn [notNone]. unfold fbind, fret, callM, saveBMP, fprint. cbn [files con].
  destruct (f (mkst b l)) as [[a|e] s]; reflexivity.
Qed.
Lemma use24_run {A} src dst (f : M A) w d b l bits : files w src = Some d ->
  loadBMP src w = (Ok (Some b), mkw (files w) l) -> py_get b bmpcolorbits = Ok bits ->
  use24btbyreffnsv src dst f w =
    if bits =? 24 then
    match f (mkst b l) with
    | (Ok _, s) => (Ok (Some tt), mkw (fput (files w) dst (mem s)) (out s ++ [Msaved]))
    | (Err e, s) => (Err e, mkw (files w) (out s))
    end
    else (Ok (Some tt), mkw (files w) (l ++ [Mnot24bit])).
Proof.
  intros H L B. unfold use24btbyreffnsv, checklink. rewrite H. unfold fbind at 1 2. rewrite L.
  cbn [notNone]. unfold fbind, fret, flift. rewrite B. destruct (bits =? 24); cbn [negb].
  - unfold callM, saveBMP, fprint. cbn [files con].
    destruct (f (mkst b l)) as [[a|e] s]; reflexivity.
  - reflexivity.
Qed.
Lemma usefnsv_run src dst f w d b l : files w src = Some d ->
  loadBMP src w = (Ok (Some b), mkw (files w) l) ->
  usefnsv src dst f w =
    match f (mkst b l) with
    | (Ok (Some b'), s) => (Ok (Some tt), mkw (fput (files w) dst b') (out s ++ [Msaved]))
    | (Ok None, s) => (Err TypeError, mkw (fput (files w) dst []) (out s))
    | (Err e, s) => (Err e, mkw (files w) (out s))
    end.
Proof.
  intros H L. unfold usefnsv, checklink. rewrite H. unfold fbind at 1 2. rewrite L.
  cbn [notNone]. unfold fbind, fret, callM, saveBMP, fprint. cbn [files con].
  destruct (f (mkst b l)) as [[[a|]|e] s]; reflexivity.
Qed.
Lemma usefn2regsv_run src dst f w d b l : files w src = Some d ->
  loadBMP src w = (Ok (Some b), mkw (files w) l) ->
  usefn2regsv src dst f w =
    match f (mkst b l) with
    | (Ok (Some b'), s) => (Ok (Some tt), mkw (fput (files w) dst b') (out s ++ [Msaved]))
    | (Ok None, s) => (Ok (Some tt), mkw (files w) (out s))
    | (Err e, s) => (Err e, mkw (files w) (out s))
    end.
Proof.
  intros H L. unfold usefn2regsv, checklink. rewrite H. unfold fbind at 1 2. rewrite L.
  cbn [notNone]. unfold fbind, fret, callM, saveBMP, fprint. cbn [files con].
  destruct (f (mkst b l)) as [[[a|]|e] s]; reflexivity.
Qed.
Lemma use24par_run src dst f w d b l bits : files w src = Some d ->
  loadBMP src w = (Ok (Some b), mkw (files w) l) -> py_get b bmpcolorbits = Ok bits ->
  use24btfnwithparnsv src dst f w =
    if bits =? 24 then
    match f (mkst b l) with
    | (Ok (Some b'), s) => (Ok (Some tt), mkw (fput (files w) dst b') (out s ++ [Msaved]))
    | (Ok None, s) => (Err TypeError, mkw (fput (files w) dst []) (out s))
    | (Err e, s) => (Err e, mkw (files w) (out s))
    end
    else (Ok (Some tt), mkw (files w) (l ++ [Mnot24bit])).
Proof.
  intros H L B. unfold use24btfnwithparnsv, checklink. rewrite H. unfold fbind at 1 2. rewrite L.
  cbn [notNone]. unfold fbind, fret, flift. rewrite B. destruct (bits =? 24); cbn [negb].
  - unfold callM, saveBMP, fprint. cbn [files con].
    destruct (f (mkst b l)) as [[[a|]|e] s]; reflexivity.
  - reflexivity.
Qed.

(** ** bitwise combination of pixels *)
Lemma testbit_split a b n : 0 <= a < 256 -> 0 <= n ->
  Z.testbit (a + 256 * b) n = if n <? 8 then Z.testbit a n else Z.testbit b (n - 8).
Proof.
  intros Ha Hn. destruct (Z.ltb_spec n 8).
  - rewrite <- (Z.mod_pow2_bits_low (a + 256 * b) 8 n) by lia. f_equal.
    change (2 ^ 8) with 256. lia.
  - replace n with (n - 8 + 8) at 1 by lia. rewrite <- Z.div_pow2_bits by lia.
    f_equal. change (2 ^ 8) with 256. lia.
Qed.
Definition bitwise (f : Z -> Z -> Z) (g : bool -> bool -> bool) : Prop :=
  (forall a b n, Z.testbit (f a b) n = g (Z.testbit a n) (Z.testbit b n)) /\ g false false = false.
Lemma bitwise_xor : bitwise Z.lxor xorb.
Proof. split; [apply Z.lxor_spec|reflexivity]. Qed.
Lemma bitwise_and : bitwise Z.land andb.
Proof. split; [apply Z.land_spec|reflexivity]. Qed.
Lemma bitwise_or : bitwise Z.lor orb.
Proof. split; [apply Z.lor_spec|reflexivity]. Qed.
Lemma bitwise_byte f g a b : bitwise f g -> byte a -> byte b -> byte (f a b).
Proof.
  intros (Hf & Hg) Ha Hb. unfold byte in *.
  assert (E : f a b = f a b mod 2 ^ 8).
  { apply Z.bits_inj'. intros n Hn. destruct (Z.ltb_spec n 8).
    - now rewrite Z.mod_pow2_bits_low by lia.
    - rewrite Z.mod_pow2_bits_high by lia. rewrite Hf.
      rewrite <- (Z.mod_small a (2 ^ 8)), <- (Z.mod_small b (2 ^ 8)) by lia.
      now rewrite !Z.mod_pow2_bits_high by lia. }
  rewrite E. change (2 ^ 8) with 256. lia.
Qed.
Lemma bitwise_split f g a b a' b' : bitwise f g -> byte a -> byte a' ->
  f (a + 256 * b) (a' + 256 * b') = f a a' + 256 * f b b'.
Proof.
  intros B Ha Ha'. pose proof (bitwise_byte f g a a' B Ha Ha') as Hf. destruct B as (Hs & Hg).
  apply Z.bits_inj'. intros n Hn. rewrite Hs, !testbit_split by auto.
  destruct (n <? 8); now rewrite Hs.
Qed.
Lemma bitwise_field f g a b k m : bitwise f g -> 0 <= k -> 0 <= m ->
  (f a b / 2 ^ k) mod 2 ^ m = f ((a / 2 ^ k) mod 2 ^ m) ((b / 2 ^ k) mod 2 ^ m).
Proof.
  intros (Hs & Hg) Hk Hm. apply Z.bits_inj'. intros n Hn. rewrite Hs.
  destruct (Z.ltb_spec n m).
  - rewrite !Z.mod_pow2_bits_low by lia. rewrite !Z.div_pow2_bits by lia. apply Hs.
  - rewrite !Z.mod_pow2_bits_high by lia. now rewrite Hg.
Qed.

Lemma zlen_zipwith f u : forall v, zlen (zipwith f u v) = Z.min (zlen u) (zlen v).
Proof.
  induction u as [|a u IH]; intros [|b v]; cbn [zipwith].
  - reflexivity.
  - rewrite zlen_nil, zlen_cons. pose proof (zlen_nonneg v). lia.
  - rewrite zlen_nil, zlen_cons. pose proof (zlen_nonneg u). lia.
  - rewrite !zlen_cons, IH. lia.
Qed.
Lemma getz_zipwith f u : forall v i, 0 <= i < zlen u -> i < zlen v ->
  getz (zipwith f u v) i = f (getz u i) (getz v i).
Proof.
  induction u as [|a u IH]; intros [|b v] i Hi Hv; 
    rewrite ?zlen_cons in Hi; rewrite ?zlen_cons in Hv;
    try (change (zlen (@nil Z)) with 0 in *; lia).
  cbn [zipwith]. rewrite !getz_cons. destruct (Z.eqb_spec i 0); auto. apply IH; lia.
Qed.
Lemma bytes_zipwith f g u : bitwise f g -> forall v, bytes u -> bytes v -> bytes (zipwith f u v).
Proof.
  intros B. induction u as [|a u IH]; intros [|b v] Hu Hv; cbn [zipwith]; try constructor.
  - inversion Hu; inversion Hv; subst. eapply bitwise_byte; eauto.
  - inversion Hu; inversion Hv; subst. apply IH; auto.
Qed.

(** byte-wise combination of the pixel data combines the pixels *)
Lemma pixel_bitwise f g a b c w h bits x y : bitwise f g ->
  wf a w h bits -> wf b w h bits -> inside w h x y ->
  (forall i, data_off bits <= i < zlen a -> getz c i = f (getz a i) (getz b i)) ->
  pixel c w h bits x y = f (pixel a w h bits x y) (pixel b w h bits x y).
Proof.
  intros B Wa Wb Hin Hc. destruct (baddr_bounds _ _ _ _ Wa x y Hin) as [B1 B2].
  unfold pbytes in B2. 
  assert (Ha : forall i, byte (getz a i)) by (intros; eapply wf_byte; eauto).
  assert (Hb : forall i, byte (getz b i)) by (intros; eapply wf_byte; eauto).
  destruct (Z.eqb_spec bits 24) as [->|N].
  - rewrite !pixel_24. set (p := baddr w h 24 x y) in *. rewrite !Hc by lia.
    assert (E : forall u v t, u + 256 * v + 65536 * t = u + 256 * (v + 256 * t)) by (intros; lia).
    rewrite !E. rewrite (bitwise_split f g) by auto. rewrite (bitwise_split f g) by auto. reflexivity.
  - unfold pixel. rewrite (proj2 (Z.eqb_neq bits 24)) by auto.
    cbv zeta.
    fold (baddr w h bits x y). rewrite Hc by lia.
    apply (bitwise_field f g); auto; [|]; destruct (wf_depth _ _ _ _ Wa) as [-> | [-> | [-> | ->]]]; lia.
Qed.

Lemma Zpair_eqb_true a b : Zpair_eqb a b = true <-> a = b.
Proof.
  destruct a as [[x y] k], b as [[x' y'] k']. unfold Zpair_eqb.
  rewrite !andb_true_iff, !Z.eqb_eq. split; [intros ((-> & ->) & ->); auto|]. intros H; inversion H; auto.
Qed.
Lemma wf_meta b w h bits : wf b w h bits -> getmaxxyandbits b = Ok ((w, h), bits).
Proof.
  intros W. unfold getmaxxyandbits. rewrite (wf_rx _ _ _ _ W), (wf_ry _ _ _ _ W), (wf_rbits _ _ _ _ W).
  reflexivity.
Qed.
Lemma wf_imgbytes b w h bits : wf b w h bits -> getBMPimgbytes b = Ok (sub b (data_off bits) (zlen b)).
Proof.
  intros W. unfold getBMPimgbytes. rewrite (wf_rhdsz _ _ _ _ W), (wf_rflsz _ _ _ _ W). cbn [rbind].
  pose proof (data_off_ge bits (wf_depth _ _ _ _ W)).
  pose proof (stride_nonneg w bits ltac:(apply W) (wf_depth _ _ _ _ W)).
  pose proof (wf_hrange _ _ _ _ W). pose proof (wf_len _ _ _ _ W).
  rewrite py_slice_in by nia. reflexivity.
Qed.
Lemma wf_doff_len b w h bits : wf b w h bits -> data_off bits <= zlen b.
Proof.
  intros W. pose proof (stride_nonneg w bits ltac:(apply W) (wf_depth _ _ _ _ W)).
  pose proof (wf_hrange _ _ _ _ W). pose proof (wf_len _ _ _ _ W). nia.
Qed.
Lemma setimg_ok b w h bits o buf : wf b w h bits -> zlen buf = zlen b - data_off bits ->
  setBMPimgbytes buf (mkst b o) = (Ok tt, mkst (py_slice_set b (data_off bits) (zlen b) buf) o).
Proof.
  intros W Hb. unfold setBMPimgbytes. 
  rewrite (bind_ok _ _ _ _ _ (run_rd hdsz b o _ (wf_rhdsz _ _ _ _ W))).
  rewrite (bind_ok _ _ _ _ _ (run_rd flsz b o _ (wf_rflsz _ _ _ _ W))). reflexivity.
Qed.
(** copying the palette block of a bitmap of the same depth *)
Lemma copypal_ok b src w h w' h' bits o : wf b w h bits -> wf src w' h' bits ->
  exists b', copyRGBpal src (mkst b o) = (Ok tt, mkst b' o) /\ wf b' w h bits /\ zlen b' = zlen b /\
    (forall i, 54 <= i < data_off bits -> getz b' i = getz src i) /\
    (forall i, i < 54 \/ data_off bits <= i -> getz b' i = getz b i) /\
    (forall x y, inside w h x y -> pixel b' w h bits x y = pixel b w h bits x y).
Proof.
  intros W Ws. unfold copyRGBpal.
  rewrite (bind_ok _ _ _ _ _ (run_lift (hdsz src) b o _ (wf_rhdsz _ _ _ _ Ws))).
  rewrite run_slice_set. eexists; split; [reflexivity|]. unfold bmppal.
  pose proof (data_off_ge bits (wf_depth _ _ _ _ W)).
  pose proof (wf_doff_len _ _ _ _ W). pose proof (wf_doff_len _ _ _ _ Ws).
  assert (Hl : zlen (py_slice src 54 (data_off bits)) = data_off bits - 54) by (apply zlen_slice; lia).
  assert (Hg : forall i, getz (py_slice_set b 54 (data_off bits) (py_slice src 54 (data_off bits))) i =
     if (54 <=? i) && (i <? data_off bits) then getz src i else getz b i).
  { intros i. rewrite getz_slice_set by lia. destruct (Z.leb_spec 54 i); cbn [andb]; auto.
    destruct (Z.ltb_spec i (data_off bits)); auto. rewrite getz_slice by lia. f_equal. lia. }
  assert (Hz : zlen (py_slice_set b 54 (data_off bits) (py_slice src 54 (data_off bits))) = zlen b)
    by (apply zlen_slice_set; lia).
  assert (Ho : forall i, i < 54 \/ data_off bits <= i ->
     getz (py_slice_set b 54 (data_off bits) (py_slice src 54 (data_off bits))) i = getz b i).
  { intros i Hi. rewrite Hg. destruct (Z.leb_spec 54 i); cbn [andb]; auto.
    destruct (Z.ltb_spec i (data_off bits)); auto. lia. }
  destruct (wf_pal_frame b (py_slice_set b 54 (data_off bits) (py_slice src 54 (data_off bits))) w h bits)
    as (W' & P'); auto.
  { apply bytes_slice_set; [apply W|]. apply bytes_slice. apply Ws. }
  repeat split; auto; try apply W'.
  intros i Hi. rewrite Hg. rewrite (proj2 (Z.leb_le _ _)), (proj2 (Z.ltb_lt _ _)) by lia. reflexivity.
Qed.

(** the result of comparing two files of the same size and depth *)
Definition combined (f : Z -> Z -> Z) (a b c : list Z) (w h bits : Z) : Prop :=
  wf c w h bits /\
  (forall i, 54 <= i < data_off bits -> getz c i = getz a i) /\
  (forall x y, inside w h x y ->
     pixel c w h bits x y = f (pixel a w h bits x y) (pixel b w h bits x y)).

Lemma imagecomp_ok f g f1 f2 fd W a b w h bits : bitwise f g ->
  files W f1 = Some a -> files W f2 = Some b -> wf a w h bits -> wf b w h bits -> 54 < zlen a ->
  exists c l, imagecomp f1 f2 fd (zipwith f) W = (Ok (Some tt), mkw (fput (files W) fd c) l) /\
    combined f a b c w h bits.
Proof.
  intros B H1 H2 Wa Wb Hlen. pose proof (wf_depth _ _ _ _ Wa) as Hd.
  pose proof (data_off_ge bits Hd) as D.
  assert (Hab : zlen b = zlen a) by (rewrite (wf_len _ _ _ _ Wa), (wf_len _ _ _ _ Wb); auto).
  unfold imagecomp, checklinks. rewrite H1, H2. unfold fbind at 1 2.
  rewrite (loadBMP_wf _ _ _ _ _ _ H1 Wa Hlen). unfold fbind at 1.
  rewrite (loadBMP_wf _ _ _ _ _ _ H2 Wb) by lia. cbn [notNone].
  unfold fbind at 1 2 3 4. unfold fret at 1 2. unfold flift at 1 2.
  rewrite (wf_meta _ _ _ _ Wa), (wf_meta _ _ _ _ Wb).
  rewrite (proj2 (Zpair_eqb_true _ _) eq_refl). cbn [negb snd].
  destruct (newBMP_wf w h bits Hd ltac:(apply Wa) ltac:(apply Wa)) as (n & En & Wn & _).
  unfold fbind at 1. unfold flift at 1. unfold CopyBMPxydim2newBMP, getmaxx, getmaxy.
  rewrite (wf_rx _ _ _ _ Wa), (wf_ry _ _ _ _ Wa). cbn [rbind]. rewrite En.
  (* palette *)
  assert (Hp : exists n' l, (if bits <? 24 then
        fbind (flift (getallRGBpal a)) (fun pal1 => fbind (flift (getallRGBpal b)) (fun pal2 =>
        fbind (if negb (pal_eqb pal1 pal2) then fprint Mdiffpal else fret tt) (fun _ =>
        fbind (callM n (copyRGBpal a)) (fun r => fret (snd r)))))
      else fret n) W = (Ok n', mkw (files W) l) /\ wf n' w h bits /\
      forall i, 54 <= i < data_off bits -> getz n' i = getz a i).
  { destruct (Z.ltb_spec bits 24).
    - unfold fbind, flift. rewrite (getallRGBpal_ok _ _ _ _ Wa), (getallRGBpal_ok _ _ _ _ Wb) by lia.
      set (q := pal_eqb _ _). clearbody q.
      destruct q; cbn [negb]; unfold fret, fprint, callM; cbn [con files].
      + destruct (copypal_ok n a w h w h bits (con W) Wn Wa) as (n' & E & W' & _ & Hpal & _).
        rewrite E. cbn [snd mem out]. eauto.
      + destruct (copypal_ok n a w h w h bits (con W ++ [Mdiffpal]) Wn Wa) as (n' & E & W' & _ & Hpal & _).
        rewrite E. cbn [snd mem out]. eauto.
    - exists n, (con W). split; [destruct W; reflexivity|]. split; auto.
      intros i Hi. assert (bits = 24) by (unfold valid_depth in Hd; lia). subst bits.
      change (data_off 24) with 54 in Hi. lia. }
  destruct Hp as (n' & l & Ep & Wn' & Hpal). unfold fbind at 1. rewrite Ep.
  unfold fbind at 1 2 3. unfold flift. rewrite (wf_imgbytes _ _ _ _ Wa), (wf_imgbytes _ _ _ _ Wb).
  pose proof (wf_doff_len _ _ _ _ Wa) as Hla.
  set (u := sub a _ _). set (v := sub b _ _).
  assert (Hu : zlen u = zlen a - data_off bits) by (apply zlen_sub; lia).
  assert (Hv : zlen v = zlen a - data_off bits) by (unfold v; rewrite zlen_sub; lia).
  assert (Hby : bytes (zipwith f u v)).
  { eapply bytes_zipwith; eauto; apply bytes_sub; [apply Wa|apply Wb]. }
  rewrite py_array_ok by auto. unfold fbind at 1. unfold callM. cbn [con files].
  assert (Hnl : zlen n' = zlen a) by (rewrite (wf_len _ _ _ _ Wa), (wf_len _ _ _ _ Wn'); auto).
  assert (Hzl : zlen (zipwith f u v) = zlen n' - data_off bits) by (rewrite zlen_zipwith; lia).
  rewrite (setimg_ok _ _ _ _ _ _ Wn') by auto. cbn [snd mem out].
  eexists _, _. split; [reflexivity|].
  destruct (slice_frame n' w h bits (data_off bits) (zlen n') (zipwith f u v) Wn') as (Wc & Sc); try lia; auto.
  split; auto. split.
  - intros i Hi. rewrite (proj2 Sc) by lia. apply Hpal. lia.
  - intros x y Hin. apply (pixel_bitwise f g); auto.
    intros i Hi. rewrite getz_slice_set by lia.
    rewrite (proj2 (Z.leb_le _ _)), (proj2 (Z.ltb_lt _ _)) by lia. cbn [andb].
    rewrite getz_zipwith by lia. unfold u, v. rewrite !getz_sub by lia. f_equal; f_equal; lia.
Qed.

Lemma imagecomp_differ func f1 f2 fd W a b wa ha ka wb hb kb :
  files W f1 = Some a -> files W f2 = Some b -> wf a wa ha ka -> wf b wb hb kb ->
  54 < zlen a -> 54 < zlen b -> (wa, ha, ka) <> (wb, hb, kb) ->
  imagecomp f1 f2 fd func W = (Ok (Some tt), mkw (files W) (con W ++ [Mcantcompare])).
Proof.
  intros H1 H2 Wa Wb L1 L2 N. unfold imagecomp, checklinks. rewrite H1, H2. unfold fbind at 1 2.
  rewrite (loadBMP_wf _ _ _ _ _ _ H1 Wa L1). unfold fbind at 1.
  rewrite (loadBMP_wf _ _ _ _ _ _ H2 Wb L2). cbn [notNone].
  unfold fbind at 1 2 3 4. unfold fret at 1 2. unfold flift at 1 2.
  rewrite (wf_meta _ _ _ _ Wa), (wf_meta _ _ _ _ Wb).
  destruct (Zpair_eqb ((wa, ha), ka) ((wb, hb), kb)) eqn:E.
  - apply Zpair_eqb_true in E. exfalso. apply N. congruence.
  - cbn [negb]. reflexivity.
Qed.
Lemma imagecomp_missing func f1 f2 fd W : files W f1 = None \/ files W f2 = None ->
  imagecomp f1 f2 fd func W = (Ok None, mkw (files W) (con W ++ [Mfilenotexist])).
Proof.
  intros H. unfold imagecomp, checklinks. destruct H as [H|H].
  - rewrite H. reflexivity.
  - rewrite H. destruct (files W f1); reflexivity.
Qed.
