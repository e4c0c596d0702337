(** Header reads, pixel addresses and frame lemmas (proofs only). *)
From Coq Require Import ZArith List Bool Lia.
From Verif Require Import PyBase PyFacts Spec Bmp.
Import ListNotations.
Open Scope Z_scope.
Ltac Zify.zify_post_hook ::= Z.to_euclidean_division_equations.

(** ** bit operations on numbers *)
Lemma land255 x : Z.land x 255 = x mod 256.
Proof. exact (Z.land_ones x 8 ltac:(lia)). Qed.
Lemma land15 x : Z.land x 15 = x mod 16.
Proof. exact (Z.land_ones x 4 ltac:(lia)). Qed.
Lemma land7 x : Z.land x 7 = x mod 8.
Proof. exact (Z.land_ones x 3 ltac:(lia)). Qed.
Lemma land3 x : Z.land x 3 = x mod 4.
Proof. exact (Z.land_ones x 2 ltac:(lia)). Qed.
Lemma land1 x : Z.land x 1 = x mod 2.
Proof. exact (Z.land_ones x 1 ltac:(lia)). Qed.
Lemma shiftr1 x : Z.shiftr x 1 = x / 2.
Proof. rewrite Z.shiftr_div_pow2 by lia. reflexivity. Qed.
Lemma shiftr3 x : Z.shiftr x 3 = x / 8.
Proof. rewrite Z.shiftr_div_pow2 by lia. reflexivity. Qed.
Lemma shiftr8 x : Z.shiftr x 8 = x / 256.
Proof. rewrite Z.shiftr_div_pow2 by lia. reflexivity. Qed.
Lemma shiftr16 x : Z.shiftr x 16 = x / 65536.
Proof. rewrite Z.shiftr_div_pow2 by lia. reflexivity. Qed.
Lemma shiftl8 x : Z.shiftl x 8 = x * 256.
Proof. rewrite Z.shiftl_mul_pow2 by lia. reflexivity. Qed.
Lemma shiftl16 x : Z.shiftl x 16 = x * 65536.
Proof. rewrite Z.shiftl_mul_pow2 by lia. reflexivity. Qed.
Lemma shiftl2 x : Z.shiftl x 2 = x * 4.
Proof. rewrite Z.shiftl_mul_pow2 by lia. reflexivity. Qed.
Lemma shiftl3 x : Z.shiftl x 3 = x * 8.
Proof. rewrite Z.shiftl_mul_pow2 by lia. reflexivity. Qed.
Lemma shiftl4 x : Z.shiftl x 4 = x * 16.
Proof. rewrite Z.shiftl_mul_pow2 by lia. reflexivity. Qed.

(** ** sweeps over all bytes *)
Lemma forall_below (P : Z -> bool) n : forallb P (range 0 n) = true ->
  forall x, 0 <= x < n -> P x = true.
Proof. intros H x Hx. rewrite forallb_forall in H. apply H. now apply in_range. Qed.
Lemma forall_below2 (P : Z -> Z -> bool) n m :
  forallb (fun x => forallb (P x) (range 0 m)) (range 0 n) = true ->
  forall x y, 0 <= x < n -> 0 <= y < m -> P x y = true.
Proof.
  intros H x y Hx Hy. pose proof (forall_below _ _ H x Hx) as H2. cbn beta in H2.
  now apply (forall_below _ _ H2).
Qed.
Lemma forall_below3 (P : Z -> Z -> Z -> bool) n m k :
  forallb (fun x => forallb (fun y => forallb (P x y) (range 0 k)) (range 0 m)) (range 0 n) = true ->
  forall x y z, 0 <= x < n -> 0 <= y < m -> 0 <= z < k -> P x y z = true.
Proof.
  intros H x y z Hx Hy Hz. pose proof (forall_below2 _ _ _ H x y Hx Hy) as H2. cbn beta in H2.
  now apply (forall_below _ _ H2).
Qed.

(** ** integer fields *)
Lemma le_field_nonneg b : bytes b -> forall n off, 0 <= le_field b off n < 256 ^ Z.of_nat n.
Proof.
  intros Hb. induction n; intros off; cbn [le_field]; [cbn; lia|].
  specialize (IHn (off + 1)). pose proof (proj1 (bytes_getz b) Hb off) as Hg. unfold byte in Hg.
  rewrite Nat2Z.inj_succ, Z.pow_succ_r by lia. lia.
Qed.
Lemma le_field_app b : forall n m off,
  le_field b off (n + m) = le_field b off n + 256 ^ Z.of_nat n * le_field b (off + Z.of_nat n) m.
Proof.
  induction n; intros m off; cbn [le_field Nat.add].
  - rewrite Z.add_0_r. cbn [Z.of_nat]. rewrite Z.pow_0_r. lia.
  - rewrite IHn, Nat2Z.inj_succ, Z.pow_succ_r by lia.
    replace (off + 1 + Z.of_nat n) with (off + Z.succ (Z.of_nat n)) by lia. ring.
Qed.
Lemma le_field_ext b b' : forall n off,
  (forall i, off <= i < off + Z.of_nat n -> getz b' i = getz b i) ->
  le_field b' off n = le_field b off n.
Proof.
  induction n; intros off H; cbn [le_field]; auto.
  rewrite H by lia. rewrite IHn; auto. intros; apply H; lia.
Qed.
Lemma sum_le_spec l : forall n off i, 0 <= off + i -> 0 <= i -> off + i + Z.of_nat n <= zlen l ->
  sum_le l off i n = Ok (2 ^ (8 * i) * le_field l (off + i) n).
Proof.
  induction n; intros off i H1 H2 H3; cbn [sum_le le_field].
  - f_equal; lia.
  - rewrite py_get_in by lia. cbn [rbind]. rewrite IHn by lia. cbn [rbind].
    rewrite shiftl3, Z.shiftl_mul_pow2 by lia. f_equal.
    replace (off + (i + 1)) with (off + i + 1) by lia.
    replace (8 * (i + 1)) with (8 * i + 8) by lia. rewrite Z.pow_add_r by lia.
    replace (i * 8) with (8 * i) by lia. change (2 ^ 8) with 256. ring.
Qed.
Lemma readint_spec l off cnt : 0 <= off -> 1 <= cnt -> off + cnt - 1 <= zlen l ->
  readint off cnt l = Ok (le_field l off (Z.to_nat (cnt - 1))).
Proof.
  intros. unfold readint. rewrite sum_le_spec by lia. f_equal.
  rewrite Z.add_0_r, Z.mul_0_r, Z.pow_0_r. lia.
Qed.
(** a field one byte longer than read, but small: the unread byte is zero *)
Lemma le_field_short b off n v : bytes b -> le_field b off (S n) = v -> v < 256 ^ Z.of_nat n ->
  le_field b off n = v.
Proof.
  intros Hb Hv Hs. replace (S n) with (n + 1)%nat in Hv by lia.
  rewrite le_field_app in Hv. cbn [le_field] in Hv.
  pose proof (le_field_nonneg b Hb n off). pose proof (proj1 (bytes_getz b) Hb (off + Z.of_nat n)) as Hg.
  unfold byte in Hg. rewrite Z.mul_0_r, Z.add_0_r in Hv.
  set (g := getz b _) in *. set (P := 256 ^ _) in *. set (a := le_field b off n) in *.
  clearbody g P a. assert (g = 0) by nia. subst g. lia.
Qed.

(** ** row size *)
Lemma xbytes_stride w bits : valid_depth bits -> xbytes w bits = Ok (stride w bits).
Proof.
  unfold valid_depth, xbytes, stride.
  intros [-> | [-> | [-> | ->]]]; cbn [Z.leb Z.eqb Z.compare Pos.compare Pos.compare_cont Pos.eqb rbind].
  - change (8 / 1) with 8. rewrite land3. f_equal.
    rewrite !Z.gtb_ltb. destruct (Z.ltb_spec 0 (w mod 8)); bcases; lia.
  - change (8 / 4) with 2. rewrite land3. f_equal.
    rewrite !Z.gtb_ltb. destruct (Z.ltb_spec 0 (w mod 2)); bcases; lia.
  - change (8 / 8) with 1. rewrite land3. f_equal.
    rewrite !Z.gtb_ltb. destruct (Z.ltb_spec 0 (w mod 1)); bcases; lia.
  - rewrite land3. f_equal. bcases; lia.
Qed.
Lemma stride_nonneg w bits : 0 <= w -> valid_depth bits -> 0 <= stride w bits.
Proof. unfold valid_depth, stride; intros H [-> | [-> | [-> | ->]]]; lia. Qed.

Lemma data_off_val bits : valid_depth bits ->
  data_off bits = if bits =? 1 then 62 else if bits =? 4 then 118 else if bits =? 8 then 1078 else 54.
Proof. unfold valid_depth; intros [-> | [-> | [-> | ->]]]; reflexivity. Qed.
Lemma data_off_ge bits : valid_depth bits -> 54 <= data_off bits <= 1078.
Proof. unfold valid_depth; intros [-> | [-> | [-> | ->]]]; vm_compute; split; discriminate. Qed.
Lemma headersizedict_ok bits : valid_depth bits -> bmpheadersizedict bits = Ok (data_off bits).
Proof. unfold valid_depth; intros [-> | [-> | [-> | ->]]]; reflexivity. Qed.

(** number of bytes touched by one pixel *)
Definition pbytes (bits : Z) : Z := if bits =? 24 then 3 else 1.

Lemma row_fit w bits x : valid_depth bits -> 0 <= x < w ->
  0 <= x * bits / 8 /\ x * bits / 8 + pbytes bits <= stride w bits.
Proof.
  unfold valid_depth, stride, pbytes.
  intros [-> | [-> | [-> | ->]]] Hx; cbn [Z.eqb Pos.eqb]; lia.
Qed.

Definition baddr (w h bits x y : Z) : Z :=
  data_off bits + (h - 1 - y) * stride w bits + x * bits / 8.

(** ** header reads of a well-formed bitmap *)
Section WF.
  Variables (b : list Z) (w h bits : Z).
  Hypothesis W : wf b w h bits.

  Lemma wf_len54 : 54 <= zlen b.
  Proof.
    rewrite (wf_len _ _ _ _ W). pose proof (data_off_ge bits (wf_depth _ _ _ _ W)).
    pose proof (stride_nonneg w bits). pose proof (wf_wrange _ _ _ _ W).
    pose proof (wf_hrange _ _ _ _ W). pose proof (wf_depth _ _ _ _ W). nia.
  Qed.
  Lemma wf_rx : readint bmpx 4 b = Ok w.
  Proof.
    pose proof wf_len54. unfold bmpx. rewrite readint_spec by lia. f_equal.
    apply (le_field_short _ _ 3). apply (wf_bytes _ _ _ _ W). apply (wf_width _ _ _ _ W).
    pose proof (wf_wrange _ _ _ _ W). change (256 ^ Z.of_nat 3) with (2 ^ 24). lia.
  Qed.
  Lemma wf_ry : readint bmpy 4 b = Ok h.
  Proof.
    pose proof wf_len54. unfold bmpy. rewrite readint_spec by lia. f_equal.
    apply (le_field_short _ _ 3). apply (wf_bytes _ _ _ _ W). apply (wf_height _ _ _ _ W).
    pose proof (wf_hrange _ _ _ _ W). change (256 ^ Z.of_nat 3) with (2 ^ 24). lia.
  Qed.
  Lemma wf_rbits : py_get b bmpcolorbits = Ok bits.
  Proof.
    pose proof wf_len54. unfold bmpcolorbits. rewrite py_get_in by lia. f_equal.
    pose proof (wf_bpp _ _ _ _ W) as H0. cbn [le_field] in H0.
    pose proof (proj1 (bytes_getz b) (wf_bytes _ _ _ _ W)) as Hb.
    pose proof (Hb 28). pose proof (Hb (28 + 1)). unfold byte in *.
    destruct (wf_depth _ _ _ _ W) as [-> | [-> | [-> | ->]]]; lia.
  Qed.
  Lemma wf_rhdsz : hdsz b = Ok (data_off bits).
  Proof.
    pose proof wf_len54. unfold hdsz, bmphdrsize. rewrite readint_spec by lia. f_equal.
    apply (le_field_short _ _ 3). apply (wf_bytes _ _ _ _ W). apply (wf_off _ _ _ _ W).
    pose proof (data_off_ge bits (wf_depth _ _ _ _ W)). change (256 ^ Z.of_nat 3) with (2 ^ 24). lia.
  Qed.
  Lemma wf_len_bound : zlen b < 2 ^ 56.
  Proof.
    rewrite (wf_len _ _ _ _ W). pose proof (data_off_ge bits (wf_depth _ _ _ _ W)).
    pose proof (wf_wrange _ _ _ _ W). pose proof (wf_hrange _ _ _ _ W).
    assert (0 <= stride w bits < 2 ^ 27).
    { unfold stride. destruct (wf_depth _ _ _ _ W) as [-> | [-> | [-> | ->]]]; lia. }
    nia.
  Qed.
  Lemma wf_rflsz : flsz b = Ok (zlen b).
  Proof.
    pose proof wf_len54. unfold flsz, bmpfilesize. rewrite readint_spec by lia. f_equal.
    apply (le_field_short _ _ 7). apply (wf_bytes _ _ _ _ W). apply (wf_size _ _ _ _ W).
    pose proof wf_len_bound. change (256 ^ Z.of_nat 7) with (2 ^ 56). lia.
  Qed.
  Lemma wf_rxchr : xchrcnt b = Ok (stride w bits).
  Proof.
    unfold xchrcnt. rewrite wf_rx, wf_rbits. cbn [rbind].
    apply xbytes_stride, (wf_depth _ _ _ _ W).
  Qed.
  Lemma wf_rcolors : getmaxcolors b = Ok (2 ^ bits).
  Proof.
    unfold getmaxcolors. rewrite wf_rbits. cbn [rbind]. f_equal.
    rewrite Z.shiftl_mul_pow2; [lia|].
    destruct (wf_depth _ _ _ _ W) as [-> | [-> | [-> | ->]]]; lia.
  Qed.
  Lemma wf_bmof xo hd y bs : valid_depth bs ->
    bmof xo bs hd y b = Ok (xo + (h - y - 1) * stride w bs + hd).
  Proof.
    intros Hv. unfold bmof. rewrite wf_ry, wf_rx. cbn [rbind].
    rewrite xbytes_stride by auto. reflexivity.
  Qed.
  Lemma wf_inbnd x y : isinBMPrectbnd x y b =
    Ok ((x <? w) && (y <? h) && ((x >? -1) && (y >? -1))).
  Proof. unfold isinBMPrectbnd. rewrite wf_rx, wf_ry. reflexivity. Qed.
  Lemma wf_inbnd_true x y : inside w h x y -> isinBMPrectbnd x y b = Ok true.
  Proof. intros (H1 & H2). rewrite wf_inbnd. f_equal. bcases; auto; lia. Qed.
  Lemma wf_inbnd_false x y : ~ inside w h x y -> isinBMPrectbnd x y b = Ok false.
  Proof. intros H. rewrite wf_inbnd. f_equal. unfold inside in H. bcases; auto; lia. Qed.

  Lemma wf_offset x y : bmoffset x y b = Ok (baddr w h bits x y - data_off bits).
  Proof.
    pose proof (wf_depth _ _ _ _ W) as Hd.
    unfold bmoffset. rewrite wf_rbits. cbn [rbind]. unfold baddr, o24bmof, o8bmof, o4bmof, o1bmof.
    destruct Hd as [E | [E | [E | E]]]; rewrite E; cbn [Z.eqb Pos.eqb];
      rewrite wf_bmof by (unfold valid_depth; lia); f_equal; rewrite ?shiftr1, ?shiftr3; lia.
  Qed.
  Lemma wf_offsethd x y : bmoffsethd x y b = Ok (baddr w h bits x y).
  Proof.
    pose proof (wf_depth _ _ _ _ W) as Hd.
    unfold bmoffsethd. rewrite wf_rbits. cbn [rbind]. unfold baddr, o24bmofhd, o8bmofhd, o4bmofhd, o1bmofhd.
    destruct Hd as [E | [E | [E | E]]]; rewrite E; cbn [Z.eqb Pos.eqb];
      rewrite wf_bmof by (unfold valid_depth; lia); f_equal; rewrite ?shiftr1, ?shiftr3;
      [change (data_off 1) with 62|change (data_off 4) with 118
      |change (data_off 8) with 1078|change (data_off 24) with 54]; lia.
  Qed.

  Lemma baddr_bounds x y : inside w h x y ->
    data_off bits <= baddr w h bits x y /\ baddr w h bits x y + pbytes bits <= zlen b.
  Proof.
    intros (Hx & Hy). rewrite (wf_len _ _ _ _ W). unfold baddr.
    destruct (row_fit w bits x (wf_depth _ _ _ _ W) Hx).
    pose proof (stride_nonneg w bits ltac:(lia) (wf_depth _ _ _ _ W)).
    assert (0 <= pbytes bits) by (unfold pbytes; bcase; lia). nia.
  Qed.

  (** any array with the same length and header is well formed *)
  Lemma wf_frame b' : same_header b b' bits -> bytes b' -> wf b' w h bits.
  Proof.
    intros (Hl & Hh) Hb. pose proof (data_off_ge bits (wf_depth _ _ _ _ W)) as Hd.
    constructor; try apply W; auto.
    - rewrite Hl. apply W.
    - rewrite !Hh by lia. apply W.
    - rewrite Hl, <- (wf_size _ _ _ _ W). apply le_field_ext. intros; apply Hh; lia.
    - rewrite <- (wf_off _ _ _ _ W). apply le_field_ext. intros; apply Hh; lia.
    - rewrite <- (wf_width _ _ _ _ W). apply le_field_ext. intros; apply Hh; lia.
    - rewrite <- (wf_height _ _ _ _ W). apply le_field_ext. intros; apply Hh; lia.
    - rewrite <- (wf_bpp _ _ _ _ W). apply le_field_ext. intros; apply Hh; lia.
  Qed.
End WF.

Lemma same_header_refl b bits : same_header b b bits.
Proof. split; auto. Qed.
Lemma same_header_trans a b c bits :
  same_header a b bits -> same_header b c bits -> same_header a c bits.
Proof.
  intros (H1 & H2) (H3 & H4). split; [congruence|].
  intros i Hi. rewrite H4, H2 by auto. reflexivity.
Qed.
Lemma same_header_sym a b bits : same_header a b bits -> same_header b a bits.
Proof. intros (H1 & H2). split; [congruence|]. intros; symmetry; auto. Qed.

Lemma repainted_refl b w h bits : wf b w h bits -> repainted b b w h bits (pixel b w h bits).
Proof. intros W. repeat split; auto; apply W. Qed.
Lemma repainted_trans a b c w h bits f g :
  repainted a b w h bits f -> repainted b c w h bits g -> repainted a c w h bits g.
Proof.
  intros (W1 & H1 & P1) (W2 & H2 & P2). split; auto. split; auto.
  now apply (same_header_trans a b c).
Qed.
Lemma repainted_ext a b w h bits f g :
  (forall x y, inside w h x y -> f x y = g x y) ->
  repainted a b w h bits f -> repainted a b w h bits g.
Proof. intros E (W & H & P). repeat split; auto; try apply W; try apply H. intros; rewrite P; auto. Qed.
Lemma repainted_wf a b w h bits f : repainted a b w h bits f -> wf b w h bits.
Proof. now intros (W & _). Qed.

(** ** pixels *)
Lemma pixel_24 b w h x y : pixel b w h 24 x y =
  getz b (baddr w h 24 x y) + 256 * getz b (baddr w h 24 x y + 1) + 65536 * getz b (baddr w h 24 x y + 2).
Proof.
  unfold pixel, baddr. cbn [Z.eqb Pos.eqb].
  replace (x * 24 / 8) with (3 * x) by lia. reflexivity.
Qed.
Lemma pixel_8 b w h x y : byte (getz b (baddr w h 8 x y)) ->
  pixel b w h 8 x y = getz b (baddr w h 8 x y).
Proof.
  unfold pixel, baddr, byte. cbn [Z.eqb Pos.eqb]. intros Hb.
  replace ((x * 8) mod 8) with 0 by lia.
  change (2 ^ (8 - 8 - 0)) with 1. rewrite Z.div_1_r. apply Z.mod_small.
  change (2 ^ 8) with 256. apply Hb.
Qed.
Lemma pixel_4 b w h x y : byte (getz b (baddr w h 4 x y)) ->
  pixel b w h 4 x y = if x mod 2 =? 1 then getz b (baddr w h 4 x y) mod 16
                      else getz b (baddr w h 4 x y) / 16.
Proof.
  unfold pixel, baddr, byte. cbn [Z.eqb Pos.eqb]. intros Hb.
  destruct (Z.eqb_spec (x mod 2) 1).
  - replace ((x * 4) mod 8) with 4 by lia. change (2 ^ (8 - 4 - 4)) with 1.
    rewrite Z.div_1_r. reflexivity.
  - replace ((x * 4) mod 8) with 0 by lia. change (2 ^ (8 - 4 - 0)) with 16.
    change (2 ^ 4) with 16. apply Z.mod_small. lia.
Qed.
Lemma pixel_1 b w h x y : 
  pixel b w h 1 x y = (getz b (baddr w h 1 x y) / 2 ^ (7 - x mod 8)) mod 2.
Proof.
  unfold pixel, baddr. cbn [Z.eqb Pos.eqb].
  rewrite Z.mul_1_r. change (2 ^ 1) with 2. reflexivity.
Qed.

(** two different pixels of one byte, or different bytes *)
Lemma baddr_inj w h bits x y x' y' : valid_depth bits ->
  inside w h x y -> inside w h x' y' ->
  baddr w h bits x y = baddr w h bits x' y' -> y = y' /\ x * bits / 8 = x' * bits / 8.
Proof.
  intros Hd (Hx & Hy) (Hx' & Hy') E. unfold baddr in E.
  destruct (row_fit w bits x Hd Hx). destruct (row_fit w bits x' Hd Hx').
  assert (0 < pbytes bits) by (unfold pbytes; bcase; lia).
  assert (y = y') by nia. subst. split; auto. lia.
Qed.
Lemma baddr_disj24 w h x y x' y' : inside w h x y -> inside w h x' y' ->
  (x, y) <> (x', y') ->
  baddr w h 24 x y + 3 <= baddr w h 24 x' y' \/ baddr w h 24 x' y' + 3 <= baddr w h 24 x y.
Proof.
  intros (Hx & Hy) (Hx' & Hy') N. unfold baddr.
  assert (Hd : valid_depth 24) by (unfold valid_depth; lia).
  destruct (row_fit w 24 x Hd Hx). destruct (row_fit w 24 x' Hd Hx').
  change (pbytes 24) with 3 in *.
  destruct (Z.eq_dec y y').
  - subst. assert (x <> x') by congruence. lia.
  - nia.
Qed.
