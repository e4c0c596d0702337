(** Upgrading to 24 bit and enlarging (proofs). *)
From Coq Require Import ZArith List Bool Lia.
From Verif Require Import PyBase PyFacts Spec Bmp BmpFacts PixelProofs HeaderProofs PalProofs Buffers Region Raster VertProofs HorizProofs RectProofs.
Import ListNotations.
Open Scope Z_scope.
Open Scope py_scope.
Ltac Zify.zify_post_hook ::= Z.to_euclidean_division_equations.

(** ** lists made of equal chunks *)
Lemma zlen_flat_map (f : Z -> list Z) n l : (forall a, In a l -> zlen (f a) = n) -> zlen (flat_map f l) = n * zlen l.
Proof.
  induction l as [|a l IH]; intros H; cbn [flat_map].
  - rewrite !zlen_nil. lia.
  - rewrite zlen_app, zlen_cons, H, IH by (cbn; auto; intros; apply H; cbn; auto). lia.
Qed.
Lemma getz_flat_map (f : Z -> list Z) n l i j : (forall a, In a l -> zlen (f a) = n) ->
  0 <= i < zlen l -> 0 <= j < n -> getz (flat_map f l) (i * n + j) = getz (f (getz l i)) j.
Proof.
  intros H. revert i. induction l as [|a l IH]; intros i Hi Hj; [cbn in Hi; lia|].
  cbn [flat_map]. rewrite zlen_cons in Hi. assert (0 <= i * n) by (clear - Hi Hj; nia).
  rewrite getz_app, getz_cons, H by (cbn; auto; lia).
  destruct (Z.eqb_spec i 0) as [->|N].
  - bcases; [f_equal; lia|lia].
  - destruct (Z.ltb_spec (i * n + j) n); [clear - H1 Hi Hj N; nia|].
    replace (i * n + j - n) with ((i - 1) * n + j) by ring. apply IH; auto; try lia.
    intros; apply H; cbn; auto.
Qed.
Lemma bytes_flat_map (f : Z -> list Z) l : (forall a, In a l -> bytes (f a)) -> bytes (flat_map f l).
Proof.
  induction l as [|a l IH]; intros H; cbn [flat_map]; [constructor|].
  apply bytes_app. split; [apply H; cbn; auto|]. apply IH. intros; apply H; cbn; auto.
Qed.
Lemma In_getz l a : In a l -> exists i, 0 <= i < zlen l /\ getz l i = a.
Proof.
  intros H. apply (In_nth _ _ 0) in H. destruct H as (n & Hn & E). exists (Z.of_nat n).
  split; [unfold zlen; lia|]. rewrite getz_nth, Nat2Z.id by lia. exact E.
Qed.
Lemma bytes_in l a : bytes l -> In a l -> byte a.
Proof. intros H. unfold bytes in H. rewrite Forall_forall in H. apply H. Qed.

(** ** upgradeto24bitimage *)
(** the number of a colour given by its channels *)
Definition rgbval (p : Z * Z * Z) : Z := let '(r, g, b) := p in b + 256 * g + 65536 * r.

Section Up.
  Variables (b : list Z) (w h bits : Z).
  Hypothesis W : wf b w h bits.
  Hypothesis N24 : bits <> 24.
  Let pal := py_slice b bmppal (data_off bits).

  Lemma pal_bytes : bytes pal.
  Proof. apply bytes_slice, W. Qed.
  Lemma wf_data_le : data_off bits <= zlen b.
  Proof.
    rewrite (wf_len _ _ _ _ W). pose proof (wf_wrange _ _ _ _ W). pose proof (wf_hrange _ _ _ _ W).
    pose proof (stride_nonneg w bits ltac:(lia) (wf_depth _ _ _ _ W)). nia.
  Qed.
  Lemma pal_len : zlen pal = 4 * 2 ^ bits.
  Proof.
    pose proof (data_off_ge bits (wf_depth _ _ _ _ W)). pose proof wf_data_le. unfold pal, bmppal.
    rewrite zlen_slice by lia. unfold data_off. destruct (Z.eqb_spec bits 24); lia.
  Qed.
  Lemma pal_chunk c : 0 <= c < 2 ^ bits ->
    let ch := py_slice pal (c * 4) (c * 4 + 3) in
    zlen ch = 3 /\ bytes ch /\ getz ch 0 + 256 * getz ch 1 + 65536 * getz ch 2 = rgbval (pal_entry b c).
  Proof.
    intros Hc ch. pose proof pal_len as L. pose proof wf_data_le as Hd.
    assert (Ed : data_off bits = 54 + 4 * 2 ^ bits) by (unfold data_off; destruct (Z.eqb_spec bits 24); lia).
    assert (Hs : forall j, 0 <= j < 3 -> getz ch j = getz b (54 + 4 * c + j)).
    { intros j Hj. unfold ch. rewrite getz_slice by lia. unfold pal, bmppal. rewrite getz_slice by lia. f_equal. lia. }
    split; [unfold ch; rewrite zlen_slice; lia|]. split; [apply bytes_slice, pal_bytes|].
    rewrite !Hs by lia. unfold pal_entry, rgbval. rewrite Z.add_0_r. lia.
  Qed.

  (** bytes per source byte after conversion *)
  Let m := 24 / bits.
  Definition chunk (v : Z) : list Z :=
    if bits =? 8 then let s := Z.shiftl v 2 in py_slice pal s (s + 3)
    else if bits =? 4 then
      let s1 := Z.shiftl (v / 16) 2 in
      let s2 := Z.shiftl (v mod 16) 2 in
      py_slice pal s1 (s1 + 3) ++ py_slice pal s2 (s2 + 3)
    else if bits =? 1 then
      flat_map (fun i => let s := Z.shiftl i 2 in py_slice pal s (s + 3)) (enumbits v)
    else [].
  (** pixel number j (of 8/bits) of a byte *)
  Definition sub_pix (v j : Z) : Z := (v / 2 ^ (8 - bits - j * bits)) mod 2 ^ bits.

  Lemma enumbits_spec v : byte v -> zlen (enumbits v) = 8 /\ forall j, 0 <= j < 8 -> getz (enumbits v) j = (v / 2 ^ (7 - j)) mod 2.
  Proof.
    intros Hv. split; [reflexivity|]. intros j Hj.
    assert (S : forall v, 0 <= v < 256 -> forall j, 0 <= j < 8 -> (getz (enumbits v) j =? (v / 2 ^ (7 - j)) mod 2) = true).
    { intros v' Hv' j' Hj'. revert v' j' Hv' Hj'. apply forall_below2. vm_compute. reflexivity. }
    apply Z.eqb_eq, S; auto.
  Qed.

  Lemma chunk_spec v : byte v -> zlen (chunk v) = 24 / bits /\ bytes (chunk v) /\
    forall j, 0 <= j < 8 / bits ->
      getz (chunk v) (j * 3) + 256 * getz (chunk v) (j * 3 + 1) + 65536 * getz (chunk v) (j * 3 + 2)
      = rgbval (pal_entry b (sub_pix v j)).
  Proof.
    intros Hv. pose proof (wf_depth _ _ _ _ W) as Hd. unfold chunk, sub_pix.
    destruct Hd as [E | [E | [E | E]]]; try contradiction; rewrite E; cbn [Z.eqb Pos.eqb].
    - destruct (enumbits_spec v Hv) as [L1 L2].
      assert (B : forall i, In i (enumbits v) -> 0 <= i < 2 ^ bits).
      { intros i Hi. apply In_getz in Hi. destruct Hi as (j & Hj & <-). rewrite L1 in Hj. rewrite L2 by lia.
        rewrite E. change (2 ^ 1) with 2. apply Z.mod_pos_bound. lia. }
      assert (C : forall i, In i (enumbits v) -> zlen (let s := Z.shiftl i 2 in py_slice pal s (s + 3)) = 3).
      { intros i Hi. cbn zeta. rewrite shiftl2. apply (pal_chunk i (B i Hi)). }
      split; [rewrite (zlen_flat_map _ 3) by exact C; rewrite L1; reflexivity|]. split.
      + apply bytes_flat_map. intros i Hi. cbn zeta. rewrite shiftl2. apply (pal_chunk i (B i Hi)).
      + change (8 / 1) with 8. intros j Hj. pattern (j * 3) at 1. rewrite <- (Z.add_0_r (j * 3)).
        rewrite !(getz_flat_map _ 3) by (auto; lia). cbn zeta. rewrite shiftl2, L2 by auto.
        replace (8 - 1 - j * 1) with (7 - j) by lia. change (2 ^ 1) with 2.
        apply (pal_chunk ((v / 2 ^ (7 - j)) mod 2)). rewrite E. change (2 ^ 1) with 2. apply Z.mod_pos_bound. lia.
    - cbn zeta. rewrite !shiftl2. unfold byte in Hv.
      assert (B1 : 0 <= v / 16 < 2 ^ bits) by (rewrite E; change (2 ^ 4) with 16; lia).
      assert (B2 : 0 <= v mod 16 < 2 ^ bits) by (rewrite E; change (2 ^ 4) with 16; lia).
      destruct (pal_chunk _ B1) as (C1 & C2 & C3). destruct (pal_chunk _ B2) as (D1 & D2 & D3).
      split; [rewrite zlen_app, C1, D1; reflexivity|]. split; [apply bytes_app; auto|].
      change (8 / 4) with 2. intros j Hj. rewrite !getz_app, C1 by lia.
      assert (j = 0 \/ j = 1) as [-> | ->] by lia.
      + change (0 * 3) with 0. change (0 <? 3) with true. change (0 + 1 <? 3) with true. change (0 + 2 <? 3) with true.
        change (0 + 1) with 1. change (0 + 2) with 2. cbn iota.
        rewrite C3. f_equal. f_equal. change (8 - 4 - 0) with 4. change (2 ^ 4) with 16. symmetry. apply Z.mod_small. lia.
      + change (1 * 3) with 3. change (3 <? 3) with false. change (3 + 1 <? 3) with false. change (3 + 2 <? 3) with false.
        change (3 - 3) with 0. change (3 + 1 - 3) with 1. change (3 + 2 - 3) with 2. cbn iota. 
        rewrite D3. f_equal. f_equal. change (8 - 4 - 1 * 4) with 0. change (2 ^ 0) with 1. rewrite Z.div_1_r. reflexivity.
    - cbn zeta. rewrite !shiftl2. unfold byte in Hv.
      assert (B1 : 0 <= v < 2 ^ bits) by (rewrite E; change (2 ^ 8) with 256; lia).
      destruct (pal_chunk _ B1) as (C1 & C2 & C3).
      split; [exact C1|]. split; [exact C2|].
      change (8 / 8) with 1. intros j Hj. assert (j = 0) as -> by lia.
      change (0 * 3) with 0. change (0 + 1) with 1. change (0 + 2) with 2. rewrite C3. f_equal. f_equal. change (8 - 8 - 0 * 8) with 0. change (2 ^ 0) with 1. rewrite Z.div_1_r. symmetry.
      apply Z.mod_small. change (2 ^ 8) with 256. lia.
  Qed.

  Hypothesis HA : (w * bits) mod 8 = 0.

  Lemma up_loop nb o : 0 < w -> 0 < h -> wf nb w h 24 ->
    exists nb', (itercopyrect (from b) 0 0 (w - 1) (h - 1) (baddr w h 24 0 (h - 1) - data_off 24)
        (fun offset buf =>
           a <- lift (convertbufto24bit buf pal bits) ;;
           BMPbitBLTput offset a ;;; ret (offset + stride w 24)) ;;; ret tt) (mkst nb o) = (Ok tt, mkst nb' o) /\
      repainted nb nb' w h 24 (fun x y => rgbval (pal_entry b (pixel b w h bits x y))).
  Proof.
    intros Hw Hh Wn. pose proof (wf_depth _ _ _ _ W) as Hd.
    assert (Hm : 0 < m /\ 3 * w = m * (w * bits / 8) /\ 0 < w * bits / 8 /\ 0 < bits /\ bits * m = 24 /\ m mod 3 = 0).
    { unfold m. clear - Hd HA Hw N24. destruct Hd as [-> | [-> | [-> | ->]]]; try contradiction;
       [change (24 / 1) with 24|change (24 / 4) with 6|change (24 / 8) with 3]; lia. }
    destruct Hm as (Hm0 & Hm1 & Hm2 & Hm3 & Hm4 & Hm5).
    assert (Hst : 3 * w <= stride w 24) by (unfold stride; lia).
    remember (w * bits / 8) as n eqn:En.
    destruct (itercopyrect_inv (from b) (fun _ => b) w h bits 0 0 (w - 1) (h - 1)
      (fun i off s => off = i * stride w 24 /\ exists nb', s = mkst nb' o /\
         rastered nb nb' w h 24 (fun k j =>
           if (h - 1 - i <? j) && (k <? 3 * w) then getz (chunk (raster b w h bits (k / m) j)) (k mod m)
           else raster nb w h 24 k j)) (baddr w h 24 0 (h - 1) - data_off 24)
      (fun offset buf =>
           a <- lift (convertbufto24bit buf pal bits) ;;
           BMPbitBLTput offset a ;;; ret (offset + stride w 24)) (mkst nb o))
      as (off & s' & E & _ & nb' & -> & R).
    - apply from_reads.
    - auto.
    - split; lia.
    - split; lia.
    - replace (lo 0 (w - 1)) with 0 by (unfold lo; lia). replace (hi 0 (w - 1)) with (w - 1) by (unfold hi; lia).
      split; [lia|]. replace (w - 1 + 1) with w by lia. exact HA.
    - split. { rewrite baddr_rowaddr. unfold rowaddr. change (0 * 24 / 8) with 0. ring. }
      exists nb. split; auto. eapply rastered_ext; [|apply rastered_refl; auto].
      intros k j Hk Hj. cbn beta. replace (h - 1 - 0 <? j) with false by lia. reflexivity.
    - intros i off s buf Hi (-> & nb' & -> & R) L1 L2 L3.
      replace (lo 0 (w - 1)) with 0 in * by (unfold lo; lia). replace (hi 0 (w - 1)) with (w - 1) in * by (unfold hi; lia).
      replace (lo 0 (h - 1)) with 0 in * by (unfold lo; lia). replace (hi 0 (h - 1)) with (h - 1) in * by (unfold hi; lia).
      replace (w - 1 + 1) with w in * by lia. rewrite <- En in L1, L3. change (0 * bits / 8) with 0 in L1, L3.
      replace (n - 0) with n in * by lia.
      assert (CL : forall a, In a buf -> zlen (chunk a) = m) by (intros a Ha; apply chunk_spec; eapply bytes_in; eauto).
      assert (CB : bytes (flat_map chunk buf)).
      { apply bytes_flat_map. intros a Ha. apply chunk_spec. eapply bytes_in; eauto. }
      assert (CZ : zlen (flat_map chunk buf) = 3 * w) by (rewrite (zlen_flat_map _ m), L1 by auto; lia).
      assert (EC : convertbufto24bit buf pal bits = Ok (flat_map chunk buf)) by (apply py_array_ok; exact CB).
      rewrite (bind_ok _ _ _ _ _ (run_lift _ _ _ _ EC)).
      destruct (bltput_row nb' w h 24 o (h - 1 - i) 0 (flat_map chunk buf)) as (n2 & E & R2).
      + apply R.
      + lia.
      + lia.
      + rewrite CZ. lia.
      + auto.
      + replace ((h - 1 - (h - 1 - i)) * stride w 24 + 0) with (i * stride w 24) in E by ring.
        rewrite (bind_ok _ _ _ _ _ E). eexists _, _. split; [reflexivity|]. split; [ring|].
        exists n2. split; auto. eapply rastered_trans; [exact R|]. eapply rastered_ext; [|exact R2].
        intros k j Hk Hj. cbn beta. rewrite (proj2 (proj2 R)) by auto. unfold in_rowpart. rewrite CZ, Z.sub_0_r.
        destruct (Z.eqb_spec j (h - 1 - i)) as [->|N]; cbn [andb].
        * replace (0 <=? k) with true by lia. rewrite Z.add_0_l. cbn [andb].
          replace (h - 1 - (i + 1) <? h - 1 - i) with true by lia.
          replace (h - 1 - i <? h - 1 - i) with false by lia. cbn [andb].
          destruct (Z.ltb_spec k (3 * w)); auto.
          pose proof (Z.div_mod k m ltac:(lia)) as EK. pose proof (Z.mod_pos_bound k m Hm0) as BK.
          assert (0 <= k / m < n).
          { split; [apply Z.div_pos; lia|]. apply Z.div_lt_upper_bound; lia. }
          rewrite <- (Z.add_0_l (k / m)) at 1. rewrite <- L3 by auto. rewrite <- (getz_flat_map _ m) by (auto; lia).
          f_equal. rewrite EK at 1. ring.
        * replace (h - 1 - (i + 1) <? j) with (h - 1 - i <? j) by lia. reflexivity.
    - exists nb'. rewrite (bind_ok _ _ _ _ _ E). split; [reflexivity|].
      eapply rastered_repainted; [exact R|]. intros x y (Hx & Hy). cbn beta.
      replace (lo 0 (h - 1)) with 0 by (unfold lo; lia). replace (hi 0 (h - 1)) with (h - 1) by (unfold hi; lia).
      unfold rowpix at 1. cbn [Z.eqb Pos.eqb].
      replace (h - 1 - (h - 1 - 0 + 1) <? y) with true by lia. cbn [andb].
      replace (3 * x <? 3 * w) with true by lia. replace (3 * x + 1 <? 3 * w) with true by lia.
      replace (3 * x + 2 <? 3 * w) with true by lia.
      rewrite pixel_raster. unfold rowpix. replace (bits =? 24) with false by lia.
      assert (A : forall t, 0 <= t < 3 -> (3 * x + t) / m = x * bits / 8 /\ (3 * x + t) mod m = (x mod (8 / bits)) * 3 + t).
      { intros t Ht. unfold m. clear - Hd Ht N24 Hx.
        destruct Hd as [-> | [-> | [-> | ->]]]; try contradiction;
         [change (24 / 1) with 24; change (8 / 1) with 8|change (24 / 4) with 6; change (8 / 4) with 2|change (24 / 8) with 3; change (8 / 8) with 1]; lia. }
      destruct (A 1 ltac:(lia)) as [-> ->]. destruct (A 2 ltac:(lia)) as [-> ->].
      destruct (A 0 ltac:(lia)) as [A1 A2]. rewrite Z.add_0_r in A1, A2. rewrite A1, A2. rewrite Z.add_0_r.
      assert (Bt : 0 <= x mod (8 / bits) < 8 / bits).
      { apply Z.mod_pos_bound. clear - Hd N24. destruct Hd as [-> | [-> | [-> | ->]]]; try contradiction; reflexivity. }
      rewrite (proj2 (proj2 (chunk_spec (raster b w h bits (x * bits / 8) y) (wf_byte _ _ _ _ _ W))) _ Bt).
      f_equal. f_equal. unfold sub_pix. f_equal. f_equal. f_equal.
      clear - Hd N24. destruct Hd as [-> | [-> | [-> | ->]]]; try contradiction;
        [change (8 / 1) with 8|change (8 / 4) with 2|change (8 / 8) with 1]; lia.
  Qed.

  Lemma upgrade_run o : 0 < w -> 0 < h ->
    exists nb, upgradeto24bitimage (mkst b o) = (Ok nb, mkst b o) /\ wf nb w h 24 /\
      forall x y, inside w h x y -> pixel nb w h 24 x y = rgbval (pal_entry b (pixel b w h bits x y)).
  Proof.
    intros Hw Hh. unfold upgradeto24bitimage.
    rewrite (bind_ok _ _ _ _ _ (wf_geti_bits _ _ _ _ W _)).
    replace (bits =? 24) with false by lia.
    destruct (newBMP_wf w h 24 valid_24 (wf_wrange _ _ _ _ W) (wf_hrange _ _ _ _ W)) as (nb & En & Wn & _).
    assert (Ec : CopyBMPxydim2newBMP 24 b = Ok nb).
    { unfold CopyBMPxydim2newBMP, getmaxx, getmaxy. rewrite (wf_rx _ _ _ _ W), (wf_ry _ _ _ _ W). exact En. }
    rewrite (bind_ok _ _ _ _ _ (run_rd _ _ _ _ Ec)).
    assert (Ep : getBGRpalbuf b = Ok pal) by (unfold getBGRpalbuf; rewrite (wf_rhdsz _ _ _ _ W); reflexivity).
    rewrite (bind_ok _ _ _ _ _ (run_rd _ _ _ _ Ep)).
    rewrite (bind_ok _ _ _ _ _ (run_rd getmaxx _ _ _ (wf_rx _ _ _ _ W))).
    rewrite (bind_ok _ _ _ _ _ (run_rd getmaxy _ _ _ (wf_ry _ _ _ _ W))).
    destruct (up_loop nb o Hw Hh Wn) as (n2 & E & R).
    exists n2. rewrite (bind_ok _ _ _ n2 (mkst b o)).
    2:{ apply building_run. rewrite (bind_ok _ _ _ _ _ (run_rd _ _ _ _ (wf_offset _ _ _ _ Wn _ _))).
        rewrite (bind_ok _ _ _ _ _ (run_rd _ _ _ _ (wf_rxchr _ _ _ _ Wn))). exact E. }
    split; [reflexivity|]. split; apply R.
  Qed.
End Up.

Lemma upgrade_24 b w h o : wf b w h 24 -> upgradeto24bitimage (mkst b o) = (Ok b, mkst b (o ++ [Mis24bit])).
Proof.
  intros W. unfold upgradeto24bitimage. rewrite (bind_ok _ _ _ _ _ (wf_geti_bits _ _ _ _ W _)). reflexivity.
Qed.
