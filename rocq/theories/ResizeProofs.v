(** Enlarging an image by an integer factor (proofs). *)
From Coq Require Import ZArith List Bool Lia.
From Verif Require Import PyBase PyFacts Spec Bmp BmpFacts PixelProofs HeaderProofs PalProofs Buffers Region Raster VertProofs HorizProofs RectProofs UpProofs.
Import ListNotations.
Open Scope Z_scope.
Open Scope py_scope.
Ltac Zify.zify_post_hook ::= Z.to_euclidean_division_equations.

(** ** rows: repeating every element n times *)
Definition rep_each (n : Z) (l : list Z) : list Z := flat_map (fun v => repz v n) l.
Lemma rep_each_len n l : 0 <= n -> zlen (rep_each n l) = n * zlen l.
Proof. intros Hn. apply zlen_flat_map. intros. rewrite zlen_repz. lia. Qed.
Lemma rep_each_get n l k : 0 < n -> 0 <= k < n * zlen l -> getz (rep_each n l) k = getz l (k / n).
Proof.
  intros Hn Hk. pose proof (Z.div_mod k n ltac:(lia)) as E. pose proof (Z.mod_pos_bound k n Hn) as B.
  unfold rep_each. replace k with (k / n * n + k mod n) at 1 by lia.
  rewrite (getz_flat_map _ n).
  - apply getz_repz. lia.
  - intros. rewrite zlen_repz. lia.
  - split; [apply Z.div_pos; lia|apply Z.div_lt_upper_bound; lia].
  - lia.
Qed.
Lemma bytes_repz v n : byte v -> bytes (repz v n).
Proof. intros H. unfold repz. apply Forall_forall. intros x Hx. apply repeat_spec in Hx. now subst. Qed.
Lemma rep_each_bytes n l : bytes l -> bytes (rep_each n l).
Proof. intros H. apply bytes_flat_map. intros a Ha. apply bytes_repz. eapply bytes_in; eauto. Qed.

(** nibbles *)
Lemma unpack_len l : zlen (unpack4bitbuf l) = 2 * zlen l.
Proof. unfold unpack4bitbuf. apply zlen_flat_map. reflexivity. Qed.
Lemma unpack_rep l n : unpack4bitbufresizeNtimesbigger l n = rep_each n (unpack4bitbuf l).
Proof.
  unfold unpack4bitbufresizeNtimesbigger, rep_each, unpack4bitbuf.
  induction l as [|a l IH]; cbn [flat_map]; auto. rewrite IH. cbn [app flat_map]. rewrite <- app_assoc. reflexivity.
Qed.
Lemma unpack_get l k : bytes l -> 0 <= k < 2 * zlen l ->
  getz (unpack4bitbuf l) k = if k mod 2 =? 0 then (getz l (k / 2) / 16) mod 16 else getz l (k / 2) mod 16.
Proof.
  intros Hb Hk. unfold unpack4bitbuf. replace k with (k / 2 * 2 + k mod 2) at 1 by lia.
  rewrite (getz_flat_map _ 2) by (try reflexivity; lia).
  rewrite land15. assert (E : Z.shiftr (getz l (k / 2)) 4 = getz l (k / 2) / 16) by (rewrite Z.shiftr_div_pow2 by lia; reflexivity).
  pose proof (proj1 (bytes_getz l) Hb (k / 2)) as B. unfold byte in B.
  replace ((getz l (k / 2) / 16) mod 16) with (getz l (k / 2) / 16) by (remember (getz l (k / 2)) as v; clear - B; lia).
  rewrite E. assert (k mod 2 = 0 \/ k mod 2 = 1) as [-> | ->] by lia; reflexivity.
Qed.
Lemma pack_spec n : forall l, zlen l = 2 * Z.of_nat n -> (forall i, 0 <= getz l i < 16) ->
  zlen (pack4bitbuf l) = Z.of_nat n /\ bytes (pack4bitbuf l) /\
  forall k, 0 <= k < Z.of_nat n -> getz (pack4bitbuf l) k = getz l (2 * k) * 16 + getz l (2 * k + 1).
Proof.
  induction n as [|n IH]; intros l Hl Hb.
  - rewrite (zlen_0_nil l) by lia. cbn. split; [reflexivity|]. split; [constructor|]. intros; lia.
  - destruct l as [|a [|c l]]; try (rewrite ?zlen_cons, ?zlen_nil in Hl; lia).
    rewrite !zlen_cons in Hl. destruct (IH l) as (I1 & I2 & I3).
    + lia.
    + intros i. destruct (Z.ltb_spec i 0); [rewrite getz_neg by lia; lia|].
      specialize (Hb (i + 2)). rewrite !getz_cons in Hb.
      destruct (Z.eqb_spec (i + 2) 0); [lia|]. destruct (Z.eqb_spec (i + 2 - 1) 0); [lia|].
      replace (i + 2 - 1 - 1) with i in Hb by lia. exact Hb.
    + cbn [pack4bitbuf]. rewrite shiftl4.
      pose proof (Hb 0) as B0. pose proof (Hb 1) as B1. change (getz (a :: c :: l) 0) with a in B0.
      change (getz (a :: c :: l) 1) with c in B1.
      split; [rewrite zlen_cons; lia|]. split.
      * constructor; auto. unfold byte. lia.
      * intros k Hk. rewrite getz_cons. destruct (Z.eqb_spec k 0) as [->|N]; [reflexivity|].
        rewrite I3 by lia. rewrite !getz_cons. 
        destruct (Z.eqb_spec (2 * k) 0); [lia|]. destruct (Z.eqb_spec (2 * k - 1) 0); [lia|].
        destruct (Z.eqb_spec (2 * k + 1) 0); [lia|]. destruct (Z.eqb_spec (2 * k + 1 - 1) 0); [lia|].
        f_equal; [f_equal|]; f_equal; lia.
Qed.

(** three channels *)
Lemma interleave_spec n : forall a b c, zlen a = Z.of_nat n -> zlen b = Z.of_nat n -> zlen c = Z.of_nat n ->
  zlen (interleave3 a b c) = 3 * Z.of_nat n /\
  (forall k, 0 <= k < Z.of_nat n -> getz (interleave3 a b c) (3 * k) = getz a k /\
     getz (interleave3 a b c) (3 * k + 1) = getz b k /\ getz (interleave3 a b c) (3 * k + 2) = getz c k).
Proof.
  induction n as [|n IH]; intros a b c Ha Hb Hc.
  - rewrite (zlen_0_nil a), (zlen_0_nil b), (zlen_0_nil c) by lia. split; [reflexivity|]. intros; lia.
  - destruct a as [|a0 a]; [rewrite zlen_nil in Ha; lia|]. destruct b as [|b0 b]; [rewrite zlen_nil in Hb; lia|].
    destruct c as [|c0 c]; [rewrite zlen_nil in Hc; lia|]. rewrite zlen_cons in Ha, Hb, Hc.
    destruct (IH a b c) as (I1 & I2); try lia. cbn [interleave3]. rewrite !zlen_cons. split; [lia|].
    intros k Hk. destruct (Z.eqb_spec k 0) as [->|N]; [auto|].
    destruct (I2 (k - 1) ltac:(lia)) as (J1 & J2 & J3).
    assert (F : forall t x y z l, 3 <= t -> getz (x :: y :: z :: l) t = getz l (t - 3)).
    { intros t x y z l Ht. rewrite !getz_cons. destruct (Z.eqb_spec t 0); [lia|].
      destruct (Z.eqb_spec (t - 1) 0); [lia|]. destruct (Z.eqb_spec (t - 1 - 1) 0); [lia|]. f_equal. lia. }
    rewrite !F by lia. replace (3 * k - 3) with (3 * (k - 1)) by lia.
    replace (3 * k + 1 - 3) with (3 * (k - 1) + 1) by lia. replace (3 * k + 2 - 3) with (3 * (k - 1) + 2) by lia.
    rewrite J1, J2, J3, !(getz_cons _ _ k). destruct (Z.eqb_spec k 0); [lia|]. auto.
Qed.
Lemma interleave_bytes a : forall b c, bytes a -> bytes b -> bytes c -> bytes (interleave3 a b c).
Proof.
  induction a as [|x a IH]; intros [|y b] [|z c] Ha Hb Hc; cbn [interleave3]; try constructor.
  - inversion Ha; auto.
  - inversion Ha; inversion Hb; inversion Hc; subst. constructor; auto. constructor; auto. now apply IH.
Qed.
(** the channels of a row of an even number of pixels *)
Lemma split3_even buf p : zlen buf = 3 * p -> p mod 2 = 0 -> bytes buf ->
  exists a b c, altsplitbuf3way buf = [a; b; c] /\ zlen a = p /\ zlen b = p /\ zlen c = p /\
    bytes a /\ bytes b /\ bytes c /\
    forall k, 0 <= k < p -> getz a k = getz buf (3 * k) /\ getz b k = getz buf (3 * k + 1) /\ getz c k = getz buf (3 * k + 2).
Proof.
  intros Hl He Hb. unfold altsplitbuf3way. rewrite Hl, land1.
  replace ((3 * p) mod 3 =? 0) with true by lia. replace (3 * p - (3 * p) mod 2) with (3 * p) by lia.
  pose proof (zlen_nonneg buf) as Hp.
  eexists _, _, _. split; [reflexivity|].
  destruct (Z.eqb_spec p 0) as [->|N].
  - rewrite (zlen_0_nil buf) by lia. repeat split; try (constructor; fail); try (intros; lia); lia.
  - assert (C0 : stepcount 0 (3 * p - 2) 3 = p) by (apply stepcount_exact; lia).
    assert (C1 : stepcount 1 (3 * p - 1) 3 = p) by (apply stepcount_exact; lia).
    assert (C2 : stepcount 2 (3 * p) 3 = p) by (apply stepcount_exact; lia).
    rewrite !zlen_xslice by lia. rewrite C0, C1, C2. repeat split; auto using bytes_xslice.
    + rewrite getz_xslice by lia. f_equal. lia.
    + rewrite getz_xslice by lia. f_equal. lia.
    + rewrite getz_xslice by lia. f_equal. lia.
Qed.

(** ** one enlarged row *)
Definition growable (w bits : Z) : Prop := bits = 8 \/ (bits = 4 \/ bits = 24) /\ w mod 2 = 0.

Lemma resize_row w bits n buf : growable w bits -> 0 < n -> 0 <= w -> bytes buf -> zlen buf = w * bits / 8 ->
  exists nb, resizebufNtimesbigger buf n bits = Ok nb /\ bytes nb /\ zlen nb = w * n * bits / 8 /\
    forall x, 0 <= x < w * n -> rowpix bits (getz nb) x = rowpix bits (getz buf) (x / n).
Proof.
  intros Hg Hn Hw Hb Hl. unfold resizebufNtimesbigger.
  assert (Hq : forall x, 0 <= x < w * n -> 0 <= x / n < w).
  { intros x Hx. split; [apply Z.div_pos; lia|apply Z.div_lt_upper_bound; lia]. }
  destruct Hg as [-> | [[-> | ->] He]]; cbn [Z.eqb Pos.eqb].
  - exists (rep_each n buf). split; [apply py_array_ok, rep_each_bytes, Hb|].
    split; [apply rep_each_bytes, Hb|]. rewrite rep_each_len by lia.
    replace (w * 8 / 8) with w in Hl by lia.
    split. { rewrite Hl. replace (w * n * 8 / 8) with (w * n) by (remember (w * n) as q; lia). ring. }
    intros x Hx. specialize (Hq x Hx). remember (x / n) as q eqn:Eq.
    rewrite !rowpix8 by (apply bytes_getz; auto using rep_each_bytes).
    rewrite rep_each_get by lia. rewrite <- Eq. reflexivity.
  - unfold resize4bitbufNtimesbigger. rewrite unpack_rep.
    remember (rep_each n (unpack4bitbuf buf)) as l eqn:El.
    assert (Hz : zlen buf = w / 2) by lia.
    assert (Ll : zlen l = n * (2 * (w / 2))) by (subst l; rewrite rep_each_len, unpack_len by lia; rewrite Hz; reflexivity).
    assert (Gl : forall k, 0 <= k < w * n -> getz l k = getz (unpack4bitbuf buf) (k / n)).
    { intros k Hk. subst l. apply rep_each_get; auto. rewrite unpack_len, Hz. replace (2 * (w / 2)) with w by lia. lia. }
    assert (Nl : forall i, 0 <= getz l i < 16).
    { intros i. destruct (Z.ltb_spec i 0); [rewrite getz_neg by lia; lia|].
      destruct (Z.ltb_spec i (w * n)).
      - rewrite Gl by lia. specialize (Hq i ltac:(lia)). rewrite unpack_get by (auto; lia).
        pose proof (proj1 (bytes_getz buf) Hb (i / n / 2)) as B. unfold byte in B.
        remember (getz buf (i / n / 2)) as v. clear - B. bcases; lia.
      - rewrite getz_big; [lia|]. rewrite Ll. replace (2 * (w / 2)) with w by lia. lia. }
    destruct (pack_spec (Z.to_nat (n * (w / 2))) l) as (P1 & P2 & P3).
    + rewrite Ll, Z2Nat.id by (clear - Hn Hw; assert (0 <= w / 2) by lia; nia). ring.
    + exact Nl.
    + rewrite Z2Nat.id in P1, P3 by (clear - Hn Hw; assert (0 <= w / 2) by lia; nia).
      exists (pack4bitbuf l). split; [apply py_array_ok, P2|]. split; auto.
      assert (E2 : w * n * 4 / 8 = n * (w / 2)).
      { replace w with (2 * (w / 2)) at 1 by lia. remember (w / 2) as q. 
        replace (2 * q * n * 4) with (n * q * 8) by ring. apply Z.div_mul. lia. }
      split; [rewrite P1; lia|].
      intros x Hx. pose proof (Hq x Hx) as Hq0.
      assert (Hx2 : 0 <= x / 2 < n * (w / 2)).
      { assert (E3 : w * n = 2 * (n * (w / 2))) by (replace w with (2 * (w / 2)) at 1 by lia; ring).
        rewrite E3 in Hx. clear - Hx. remember (n * (w / 2)) as q. lia. }
      rewrite !rowpix4, P3 by auto.
      rewrite <- unpack_get by (auto; lia). rewrite <- Gl by auto.
      pose proof (Nl (2 * (x / 2))). pose proof (Nl (2 * (x / 2) + 1)).
      destruct (Z.eqb_spec (x mod 2) 0).
      * replace (2 * (x / 2)) with x in * by lia. remember (getz l x) as v. remember (getz l (x + 1)) as u. clear - H H0. lia.
      * replace (2 * (x / 2) + 1) with x in * by lia. remember (getz l x) as v. remember (getz l (2 * (x / 2))) as u. clear - H H0. lia.
  - unfold resize24bitbufNtimesbigger.
    assert (Hz : zlen buf = 3 * w) by lia.
    destruct (split3_even buf w Hz He Hb) as (a & c & d & -> & La & Lc & Ld & Ba & Bc & Bd & G).
    unfold resize8bitbufNtimesbigger.
    assert (EE : forall l, bytes l -> py_array (flat_map (fun b => repz b n) l) = Ok (rep_each n l)).
    { intros l Hl'. apply py_array_ok, rep_each_bytes, Hl'. }
    rewrite !EE by auto. cbn [rbind]. unfold makeBGRbuf.
    assert (BI : bytes (interleave3 (rep_each n a) (rep_each n c) (rep_each n d)))
      by (apply interleave_bytes; apply rep_each_bytes; auto).
    exists (interleave3 (rep_each n a) (rep_each n c) (rep_each n d)).
    split; [apply py_array_ok, BI|]. split; auto.
    assert (0 <= n * w) by nia.
    destruct (interleave_spec (Z.to_nat (n * w)) (rep_each n a) (rep_each n c) (rep_each n d)) as (J1 & J2);
      try (rewrite rep_each_len by lia; rewrite Z2Nat.id by lia; congruence).
    rewrite Z2Nat.id in J1, J2 by lia.
    split. { rewrite J1. remember (n * w) as q. replace (w * n) with q by lia. clear. lia. }
    intros x Hx. specialize (Hq x Hx). unfold rowpix. cbn [Z.eqb Pos.eqb].
    destruct (J2 x ltac:(lia)) as (-> & -> & ->).
    rewrite !rep_each_get by (rewrite ?La, ?Lc, ?Ld; lia).
    destruct (G (x / n) Hq) as (-> & -> & ->). reflexivity.
Qed.

(** ** the whole image *)
Section Resize.
  Variables (b : list Z) (w h bits n : Z).
  Hypothesis W : wf b w h bits.
  Hypothesis G : growable w bits.
  Hypothesis Hn : 0 < n.
  Hypothesis Hw : 0 < w.
  Hypothesis Hh : 0 < h.

  Definition row_of (y : Z) : list Z := map (fun k => raster b w h bits k y) (range 0 (w * bits / 8)).
  Definition grown (y : Z) : list Z := match resizebufNtimesbigger (row_of y) n bits with Ok l => l | Err _ => [] end.

  Lemma grow_bits : bits = 4 \/ bits = 8 \/ bits = 24.
  Proof. unfold growable in G. lia. Qed.
  Lemma row_of_len y : zlen (row_of y) = w * bits / 8.
  Proof.
    unfold row_of. rewrite zlen_map, zlen_range. assert (0 <= w * bits / 8); [|lia].
    apply Z.div_pos; [|lia]. pose proof grow_bits. nia.
  Qed.
  Lemma row_of_bytes y : bytes (row_of y).
  Proof. apply Forall_map. apply Forall_forall. intros k _. apply (wf_byte _ _ _ _ _ W). Qed.
  Lemma row_of_get y k : 0 <= k < w * bits / 8 -> getz (row_of y) k = raster b w h bits k y.
  Proof.
    intros Hk. unfold row_of. rewrite getz_map by (rewrite zlen_range; lia). rewrite getz_range by lia. f_equal.
  Qed.
  Lemma grown_spec y : resizebufNtimesbigger (row_of y) n bits = Ok (grown y) /\ bytes (grown y) /\
    zlen (grown y) = w * n * bits / 8 /\
    forall x, 0 <= x < w * n -> rowpix bits (getz (grown y)) x = rowpix bits (getz (row_of y)) (x / n).
  Proof.
    destruct (resize_row w bits n (row_of y) G Hn ltac:(lia) (row_of_bytes y) (row_of_len y)) as (nb & E & R).
    unfold grown. rewrite E. split; auto.
  Qed.

  Lemma resize_inner nb o i buf off : wf nb (w * n) (h * n) bits -> bytes buf -> zlen buf = w * n * bits / 8 ->
    0 <= i < h -> off = i * n * stride (w * n) bits ->
    exists nb', foldM (fun offset (_ : Z) => BMPbitBLTput offset buf ;;; ret (offset + stride (w * n) bits)) off (range 0 n) (mkst nb o)
        = (Ok ((i + 1) * n * stride (w * n) bits), mkst nb' o) /\
      rastered nb nb' (w * n) (h * n) bits (fun k j =>
        if (j / n =? h - 1 - i) && (k <? w * n * bits / 8) then getz buf k else raster nb (w * n) (h * n) bits k j).
  Proof.
    intros Wn Hb Hl Hi ->. set (r := stride (w * n) bits).
    assert (Hf : zlen buf <= r).
    { rewrite Hl. unfold r, stride. pose proof grow_bits as Gb. assert (0 <= w * n) by nia.
      remember (w * n) as q. clear - Gb H. destruct Gb as [-> | [-> | ->]]; lia. }
    destruct (foldM_range_inv (fun t off s => off = i * n * r + t * r /\ exists nb', s = mkst nb' o /\
        rastered nb nb' (w * n) (h * n) bits (fun k j =>
          if ((h * n - 1 - (i * n + t) <? j) && (j <=? h * n - 1 - i * n)) && (k <? zlen buf)
          then getz buf k else raster nb (w * n) (h * n) bits k j))
      (fun offset (_ : Z) => BMPbitBLTput offset buf ;;; ret (offset + r)) 0 n (i * n * r) (mkst nb o))
      as (off & s' & E & -> & nb' & -> & R).
    - lia.
    - split; [ring|]. exists nb. split; auto. eapply rastered_ext; [|apply rastered_refl; auto].
      intros k j Hk Hj. cbn beta.
      replace ((h * n - 1 - (i * n + 0) <? j) && (j <=? h * n - 1 - i * n)) with false by (clear; bcases; auto; lia).
      reflexivity.
    - intros t off s Ht (-> & nb' & -> & R).
      assert (Hy : 0 <= h * n - 1 - (i * n + t) < h * n) by (clear - Hi Ht; nia).
      destruct (bltput_row nb' (w * n) (h * n) bits o (h * n - 1 - (i * n + t)) 0 buf) as (n2 & E & R2).
      + apply R.
      + exact Hy.
      + lia.
      + fold r. lia.
      + auto.
      + fold r in E. replace ((h * n - 1 - (h * n - 1 - (i * n + t))) * r + 0) with (i * n * r + t * r) in E by ring.
        rewrite (bind_ok _ _ _ _ _ E). eexists _, _. split; [reflexivity|]. split; [ring|].
        exists n2. split; auto. eapply rastered_trans; [exact R|]. eapply rastered_ext; [|exact R2].
        intros k j Hk Hj. cbn beta. rewrite (proj2 (proj2 R)) by auto. unfold in_rowpart. rewrite Z.sub_0_r, Z.add_0_l.
        replace (0 <=? k) with true by lia. cbn [andb].
        destruct (k <? zlen buf); [|rewrite !andb_false_r; reflexivity]. rewrite !andb_true_r.
        destruct (Z.eqb_spec j (h * n - 1 - (i * n + t))) as [->|N]; [clear - Ht Hi Hn|clear - N Ht Hi Hn]; bcases; auto; lia.
    - exists nb'. split. { rewrite E. replace ((i + 1) * n * r) with (i * n * r + n * r) by ring. reflexivity. }
      eapply rastered_ext; [|exact R]. intros k j Hk Hj. cbn beta. rewrite Hl.
      replace ((h * n - 1 - (i * n + n) <? j) && (j <=? h * n - 1 - i * n)) with (j / n =? h - 1 - i); auto.
      clear - Hn Hj Hi. pose proof (Z.div_mod j n ltac:(lia)). pose proof (Z.mod_pos_bound j n Hn).
      remember (j / n) as u. remember (j mod n) as v. 
      destruct (Z.eqb_spec u (h - 1 - i)).
      + subst u. rewrite e in H. bcases; auto; nia.
      + bcases; auto; exfalso.
        assert (h - 1 - i - u <= -1 \/ 1 <= h - 1 - i - u) as [A|A] by lia; nia.
  Qed.

  Lemma resize_loop nb o : wf nb (w * n) (h * n) bits ->
    exists nb', (itercopyrect (from b) 0 0 (w - 1) (h - 1) (baddr (w * n) (h * n) bits 0 (h * n - 1) - data_off bits)
      (fun offset buf =>
         nbuf <- lift (resizebufNtimesbigger buf n bits) ;;
         foldM (fun offset (_ : Z) => BMPbitBLTput offset nbuf ;;; ret (offset + stride (w * n) bits)) offset (range 0 n)) ;;;
      ret tt) (mkst nb o) = (Ok tt, mkst nb' o) /\
      repainted nb nb' (w * n) (h * n) bits (fun x y => pixel b w h bits (x / n) (y / n)).
  Proof.
    intros Wn. pose proof grow_bits as Gb.
    assert (HA : (w * bits) mod 8 = 0).
    { clear - G. destruct G as [-> | [[-> | ->] He]]; lia. }
    destruct (itercopyrect_inv (from b) (fun _ => b) w h bits 0 0 (w - 1) (h - 1)
      (fun i off s => off = i * n * stride (w * n) bits /\ exists nb', s = mkst nb' o /\
         rastered nb nb' (w * n) (h * n) bits (fun k j =>
           if (h - 1 - i <? j / n) && (k <? w * n * bits / 8) then getz (grown (j / n)) k
           else raster nb (w * n) (h * n) bits k j)) (baddr (w * n) (h * n) bits 0 (h * n - 1) - data_off bits)
      (fun offset buf =>
         nbuf <- lift (resizebufNtimesbigger buf n bits) ;;
         foldM (fun offset (_ : Z) => BMPbitBLTput offset nbuf ;;; ret (offset + stride (w * n) bits)) offset (range 0 n)) (mkst nb o))
      as (off & s' & E & _ & nb' & -> & R).
    - apply from_reads.
    - auto.
    - split; lia.
    - split; lia.
    - replace (lo 0 (w - 1)) with 0 by (unfold lo; lia). replace (hi 0 (w - 1)) with (w - 1) by (unfold hi; lia).
      split; [lia|]. replace (w - 1 + 1) with w by lia. exact HA.
    - split. { rewrite baddr_rowaddr. unfold rowaddr. change (0 * bits / 8) with 0. ring. }
      exists nb. split; auto. eapply rastered_ext; [|apply rastered_refl; auto].
      intros k j Hk Hj. cbn beta. assert (j / n < h) by (apply Z.div_lt_upper_bound; lia).
      destruct (Z.ltb_spec (h - 1 - 0) (j / n)); [lia|]. reflexivity.
    - intros i off s buf Hi (-> & nb' & -> & R) L1 L2 L3.
      replace (lo 0 (w - 1)) with 0 in * by (unfold lo; lia). replace (hi 0 (w - 1)) with (w - 1) in * by (unfold hi; lia).
      replace (lo 0 (h - 1)) with 0 in * by (unfold lo; lia). replace (hi 0 (h - 1)) with (h - 1) in * by (unfold hi; lia).
      replace (w - 1 + 1) with w in * by lia. change (0 * bits / 8) with 0 in L1, L3. rewrite Z.sub_0_r in L1, L3.
      assert (Eb : buf = row_of (h - 1 - i)).
      { apply list_ext; [rewrite row_of_len; exact L1|]. intros k Hk. rewrite L1 in Hk.
        rewrite L3, row_of_get by auto. rewrite Z.add_0_l. reflexivity. }
      destruct (grown_spec (h - 1 - i)) as (E1 & B1 & Z1 & _). rewrite <- Eb in E1.
      rewrite (bind_ok _ _ _ _ _ (run_lift _ _ _ _ E1)).
      destruct (resize_inner nb' o i (grown (h - 1 - i)) (i * n * stride (w * n) bits)) as (n2 & E & R2); auto.
      + apply R.
      + lia.
      + eexists _, _. split; [exact E|]. split; [reflexivity|].
        exists n2. split; auto. eapply rastered_trans; [exact R|]. eapply rastered_ext; [|exact R2].
        intros k j Hk Hj. cbn beta. rewrite (proj2 (proj2 R)) by auto. 
        destruct (k <? w * n * bits / 8); [|rewrite !andb_false_r; reflexivity]. rewrite !andb_true_r.
        destruct (Z.eqb_spec (j / n) (h - 1 - i)) as [->|N].
        * replace (h - 1 - (i + 1) <? h - 1 - i) with true by lia. reflexivity.
        * remember (j / n) as u. replace (h - 1 - (i + 1) <? u) with (h - 1 - i <? u) by (clear - N; lia). reflexivity.
    - exists nb'. rewrite (bind_ok _ _ _ _ _ E). split; [reflexivity|].
      eapply rastered_repainted; [exact R|]. intros x y (Hx & Hy). cbn beta.
      replace (lo 0 (h - 1)) with 0 by (unfold lo; lia). replace (hi 0 (h - 1)) with (h - 1) by (unfold hi; lia).
      assert (By : 0 <= y / n < h) by (split; [apply Z.div_pos; lia|apply Z.div_lt_upper_bound; lia]).
      assert (Bx : 0 <= x / n < w) by (split; [apply Z.div_pos; lia|apply Z.div_lt_upper_bound; lia]).
      remember (y / n) as u. clear Hequ.
      replace (h - 1 - (h - 1 - 0 + 1) <? u) with true by lia. cbn [andb].
      transitivity (rowpix bits (getz (grown u)) x).
      + apply (rowpix_ext bits (w * n)); auto. apply W. intros k Hk Hk2. cbn beta.
        assert (k < w * n * bits / 8).
        { assert (HA2 : (w * n) * bits mod 8 = 0) by (replace (w * n * bits) with ((w * bits) * n) by ring; rewrite <- Z.mul_mod_idemp_l, HA by lia; reflexivity).
          remember (w * n) as q. clear - Gb Hk2 Hx HA2. unfold pbytes in Hk2.
          destruct Gb as [-> | [-> | ->]]; cbn [Z.eqb Pos.eqb] in Hk2; lia. }
        destruct (Z.ltb_spec k (w * n * bits / 8)); [reflexivity|lia].
      + destruct (grown_spec u) as (_ & _ & _ & ->); auto. rewrite pixel_raster.
        apply (rowpix_ext bits w); auto. apply W. intros k Hk Hk2. apply row_of_get.
        remember (x / n) as q. clear - Gb Hk2 Bx HA Hk. unfold pbytes in Hk2.
        destruct Gb as [-> | [-> | ->]]; cbn [Z.eqb Pos.eqb] in Hk2; lia.
  Qed.

  Lemma resize_run o : w * n < 2 ^ 24 -> h * n < 2 ^ 24 ->
    exists nb, resizeNtimesbigger n (mkst b o) = (Ok nb, mkst b o) /\ wf nb (w * n) (h * n) bits /\
      (forall x y, inside (w * n) (h * n) x y -> pixel nb (w * n) (h * n) bits x y = pixel b w h bits (x / n) (y / n)) /\
      (bits <> 24 -> forall i, 0 <= i < 2 ^ bits -> pal_entry nb i = pal_entry b i).
  Proof.
    intros Bw Bh. unfold resizeNtimesbigger.
    rewrite (bind_ok _ _ _ _ _ (wf_geti_bits _ _ _ _ W _)).
    assert (Em : getmaxxy b = Ok (w, h)).
    { unfold getmaxxy, getmaxx, getmaxy. rewrite (wf_rx _ _ _ _ W), (wf_ry _ _ _ _ W). reflexivity. }
    rewrite (bind_ok _ _ _ _ _ (run_rd _ _ _ _ Em)).
    destruct (newBMP_wf (w * n) (h * n) bits (wf_depth _ _ _ _ W)) as (nb & En & Wn & _); [nia|nia|].
    rewrite (bind_ok _ _ _ _ _ (run_lift _ _ _ _ En)).
    assert (HP : exists n1, (if bits <? 24 then copyRGBpal b else ret tt) (mkst nb o) = (Ok tt, mkst n1 o) /\
       wf n1 (w * n) (h * n) bits /\ (bits <> 24 -> forall i, 0 <= i < 2 ^ bits -> pal_entry n1 i = pal_entry b i)).
    { destruct (Z.ltb_spec bits 24).
      - destruct (copyRGBpal_run b nb _ _ _ _ _ o W Wn) as (n1 & E1 & W1 & L1 & G1).
        exists n1. split; auto. split; auto. intros N. apply (copied_pal b nb n1 _ _ _ _ bits W Wn); auto.
      - exists nb. split; auto. split; auto. intros N. exfalso. pose proof grow_bits. lia. }
    destruct HP as (n1 & E1 & W1 & P1).
    destruct (resize_loop n1 o W1) as (n2 & E2 & R2).
    exists n2. split.
    - apply building_run. rewrite (bind_ok _ _ _ _ _ E1).
      rewrite (bind_ok _ _ _ _ _ (run_rd _ _ _ _ (wf_offset _ _ _ _ W1 _ _))).
      rewrite (bind_ok _ _ _ _ _ (run_rd _ _ _ _ (wf_rxchr _ _ _ _ W1))). exact E2.
    - split; [apply R2|]. split; [apply R2|]. intros N i Hi.
      rewrite (same_header_pal n1 n2 bits) by (first [exact Hi|exact N|apply R2]). now apply P1.
  Qed.
End Resize.
