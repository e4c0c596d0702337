(** Operations that walk over a rectangle: copying its rows, cropping,
    inverting, upgrading (proofs). *)
From Coq Require Import ZArith List Bool Lia.
From Verif Require Import PyBase PyFacts Spec Bmp BmpFacts PixelProofs HeaderProofs PalProofs Buffers Region Raster VertProofs.
Import ListNotations.
Open Scope Z_scope.
Open Scope py_scope.
Ltac Zify.zify_post_hook ::= Z.to_euclidean_division_equations.

(** ** what a view reads *)
Definition view_reads (v : view) (cur : st -> list Z) : Prop :=
  forall A (m : M A) a s, m (mkst (cur s) (out s)) = (Ok a, mkst (cur s) (out s)) -> v A m s = (Ok a, s).
Lemma own_reads : view_reads own mem.
Proof. intros A m a [b o] H. exact H. Qed.
Lemma from_reads src : view_reads (from src) (fun _ => src).
Proof. intros A m a [b o] H. unfold from, on_src. cbn [out mem] in *. rewrite H. reflexivity. Qed.

(** ** one row part *)
Lemma bltput_row b w h bits o y k buf : wf b w h bits -> 0 <= y < h -> 0 <= k ->
  k + zlen buf <= stride w bits -> bytes buf ->
  exists b', BMPbitBLTput ((h - 1 - y) * stride w bits + k) buf (mkst b o) = (Ok tt, mkst b' o) /\
    rastered b b' w h bits (fun k' y' =>
      if in_rowpart y k (zlen buf) k' y' then getz buf (k' - k) else raster b w h bits k' y').
Proof.
  intros W Hy Hk Hf Hb. pose proof (zlen_nonneg buf) as Hl.
  destruct (rowaddr_bounds _ _ _ _ y W Hy) as [B1 B2]. unfold rowaddr in B1, B2.
  rewrite (bltput_ok b w h bits o) by (auto; lia).
  eexists. split; [reflexivity|].
  replace (data_off bits + ((h - 1 - y) * stride w bits + k)) with (rowaddr w h bits y + k) by (unfold rowaddr; ring).
  apply row_set; auto; lia.
Qed.
Lemma bltget_row b w h bits o y k n : wf b w h bits -> 0 <= y < h -> 0 <= k -> 0 < n ->
  k + n <= stride w bits ->
  exists buf, BMPbitBLTget ((h - 1 - y) * stride w bits + k) n (mkst b o) = (Ok buf, mkst b o) /\
    zlen buf = n /\ bytes buf /\ forall i, 0 <= i < n -> getz buf i = raster b w h bits (k + i) y.
Proof.
  intros W Hy Hk Hn Hf. destruct (rowaddr_bounds _ _ _ _ y W Hy) as [B1 B2].
  destruct (row_get b w h bits y k n W Hy Hk ltac:(lia) Hf) as (A1 & A2 & A3).
  pose proof (data_off_ge bits (wf_depth _ _ _ _ W)).
  rewrite (bltget_ok b w h bits o) by (auto; unfold rowaddr in *; lia).
  eexists. split; [reflexivity|].
  replace (data_off bits + ((h - 1 - y) * stride w bits + k)) with (rowaddr w h bits y + k) by (unfold rowaddr; ring).
  rewrite <- py_slice_in by lia. auto.
Qed.

(** ** the loop over the rows of a rectangle, bottom row first *)
Section Copy.
  Context {B : Type}.
  Variables (v : view) (cur : st -> list Z) (w h bits x1 y1 x2 y2 : Z).
  Variable P : Z -> B -> st -> Prop.
  Variables (b0 : B) (body : B -> list Z -> M B) (s0 : st).
  Let xa := lo x1 x2. Let xb := hi x1 x2. Let ya := lo y1 y2. Let yb := hi y1 y2.
  Let k := xa * bits / 8. Let n := (xb + 1) * bits / 8 - k.
  Hypothesis Hv : view_reads v cur.
  Hypothesis HW : forall i a s, P i a s -> wf (cur s) w h bits.
  Hypothesis I1 : inside w h x1 y1.
  Hypothesis I2 : inside w h x2 y2.
  Hypothesis HA : byte_aligned bits xa xb.
  Hypothesis H0 : P 0 b0 s0.
  Hypothesis HS : forall i a s buf, 0 <= i < yb - ya + 1 -> P i a s ->
    zlen buf = n -> bytes buf ->
    (forall j, 0 <= j < n -> getz buf j = raster (cur s) w h bits (k + j) (yb - i)) ->
    exists a' s', body a buf s = (Ok a', s') /\ P (i + 1) a' s'.

  Lemma itercopyrect_inv : exists a s', itercopyrect v x1 y1 x2 y2 b0 body s0 = (Ok a, s') /\ P (yb - ya + 1) a s'.
  Proof.
    unfold itercopyrect. pose proof (HW _ _ _ H0) as W0. pose proof (wf_depth _ _ _ _ W0) as Hd.
    assert (Hxy : 0 <= xa <= xb /\ xb < w /\ 0 <= ya <= yb /\ yb < h)
      by (unfold inside, xa, xb, ya, yb, lo, hi in *; lia).
    destruct (aligned_fit w bits xa xb Hd) as (F1 & F2 & F3); try lia. fold k in F1, F2, F3. fold n in F2, F3.
    pose proof (stride_pos w bits Hd ltac:(lia)) as Hs.
    assert (Hn : 0 < n /\ xb * bits / 8 < k + n <= xb * bits / 8 + pbytes bits).
    { unfold n, k, pbytes, byte_aligned in *. clear - Hd HA Hxy.
      destruct Hd as [-> | [-> | [-> | ->]]]; cbn [Z.eqb Pos.eqb]; lia. }
    assert (Hq : k <= xb * bits / 8) by (unfold k; apply Z.div_le_mono; [lia|]; destruct Hd as [-> | [-> | [-> | ->]]]; lia).
    assert (Hpb : pbytes bits <= 3) by (unfold pbytes; destruct (bits =? 24); lia).
    set (off := (h - 1 - yb) * stride w bits + k).
    set (lim := (h - 1 - ya) * stride w bits + xb * bits / 8 + stride w bits).
    assert (G : v _ (entirerectinboundary x1 y1 x2 y2 (
         let '(x1, y1, x2, y2) := sortrecpoints x1 y1 x2 y2 in
         bufsize <- rd (adjustxbufsize x1 x2) ;;
         r <- rd xchrcnt ;;
         offset <- rd (bmoffset x1 y2) ;;
         l <- rd (bmoffset x2 y1) ;;
         ret (bufsize, r, offset, l + r))) s0 = (Ok (Some (n, stride w bits, off, lim)), s0)).
    { apply Hv. rewrite (guard_true _ _ _ _ _ _ _ _ _ _ W0 I1 I2). rewrite sortrec. fold xa xb ya yb.
      unfold withSome.
      rewrite bind_assoc, (bind_ok _ _ _ _ _ (run_rd _ _ _ _ (adjustx_run _ _ _ _ xa xb W0))).
      rewrite bind_assoc, (bind_ok _ _ _ _ _ (run_rd _ _ _ _ (wf_rxchr _ _ _ _ W0))).
      rewrite bind_assoc, (bind_ok _ _ _ _ _ (run_rd _ _ _ _ (wf_offset _ _ _ _ W0 xa yb))).
      rewrite bind_assoc, (bind_ok _ _ _ _ _ (run_rd _ _ _ _ (wf_offset _ _ _ _ W0 xb ya))).
      rewrite adjust_aligned by auto. rewrite !baddr_rowaddr. unfold bind, ret. do 3 f_equal.
      assert (EE : forall a b c d : Z, a = c -> b = d -> (n, stride w bits, a, b) = (n, stride w bits, c, d))
        by (intros; subst; reflexivity).
      apply EE; unfold off, lim, n, k, rowaddr; ring. }
    rewrite (bind_ok _ _ _ _ _ G). clear G.
    match goal with |- exists a s', bind (whileM ?fu ?co ?bo _) _ _ = _ /\ _ =>
      destruct (whileM_inv (fun i p s => snd p = off + i * stride w bits /\ P i (fst p) s)
        co bo (yb - ya + 1) fu (b0, off) s0) as (p & s' & E & Ep & R) end.
    - lia.
    - unfold lim, off. clear - Hn Hs Hxy F3 F1 Hq.
      assert (yb - ya <= (yb - ya) * stride w bits) by nia. 
      replace ((h - 1 - ya) * stride w bits + xb * bits / 8 + stride w bits - ((h - 1 - yb) * stride w bits + k) + 1)
        with ((yb - ya) * stride w bits + (xb * bits / 8 + stride w bits - k) + 1) by ring.
      lia.
    - cbn [fst snd]. split; [ring|exact H0].
    - intros i [a o] s Hi (Eo & HP). cbn [fst snd] in *. subst o. split.
      { apply Z.leb_le. unfold off, lim. clear - Hi Hn Hpb Hs.
        replace ((h - 1 - yb) * stride w bits + k + i * stride w bits + n)
          with ((h - 1 - ya) * stride w bits - (yb - ya - i) * stride w bits + (k + n)) by ring.
        assert (0 <= (yb - ya - i) * stride w bits) by nia. lia. }
      replace (off + i * stride w bits) with ((h - 1 - (yb - i)) * stride w bits + k) by (unfold off; ring).
      destruct (bltget_row (cur s) w h bits (out s) (yb - i) k n (HW _ _ _ HP) ltac:(lia) F1 (proj1 Hn) F3)
        as (buf & E & L1 & L2 & L3).
      rewrite (bind_ok _ _ _ _ _ (Hv _ _ _ _ E)).
      destruct (HS i a s buf Hi HP L1 L2 L3) as (a' & s' & E' & HP').
      rewrite (bind_ok _ _ _ _ _ E'). eexists _, _. split; [reflexivity|]. cbn [fst snd]. split; auto. unfold off. ring.
    - intros [a o] s (Eo & HP). cbn [fst snd] in *. subst o. apply Z.leb_gt. unfold off, lim. clear - Hn Hs.
      replace ((h - 1 - yb) * stride w bits + k + (yb - ya + 1) * stride w bits + n)
        with ((h - 1 - ya) * stride w bits + stride w bits + (k + n)) by ring. lia.
    - exists (fst p), s'. split; auto. rewrite (bind_ok _ _ _ _ _ E). reflexivity.
  Qed.
End Copy.

(** ** the loop over the pixels of a rectangle, row by row *)
Section Pix.
  Context {B : Type}.
  Variables (v : view) (cur : st -> list Z) (w h bits x1 y1 x2 y2 : Z).
  Variable P : Z -> Z -> B -> st -> Prop.
  Variables (b0 : B) (body : B -> Z * Z * Z -> M B) (s0 : st).
  Let xa := lo x1 x2. Let xb := hi x1 x2. Let ya := lo y1 y2. Let yb := hi y1 y2.
  Hypothesis Hv : view_reads v cur.
  Hypothesis HW : forall x y a s, P x y a s -> wf (cur s) w h bits.
  Hypothesis I1 : inside w h x1 y1.
  Hypothesis I2 : inside w h x2 y2.
  Hypothesis H0 : P xa ya b0 s0.
  Hypothesis HS : forall x y a s, xa <= x <= xb -> ya <= y <= yb -> P x y a s ->
    exists a' s', body a (x, y, pixel (cur s) w h bits x y) s = (Ok a', s') /\ P (x + 1) y a' s'.
  Hypothesis HN : forall y a s, ya <= y <= yb -> P (xb + 1) y a s -> P xa (y + 1) a s.

  Lemma pixrect_inv : exists a s', itergetcolorfromrectregion v x1 y1 x2 y2 b0 body s0 = (Ok a, s') /\ P xa (yb + 1) a s'.
  Proof.
    unfold itergetcolorfromrectregion. pose proof (HW _ _ _ _ H0) as W0.
    assert (Hxy : 0 <= xa <= xb /\ xb < w /\ 0 <= ya <= yb /\ yb < h)
      by (unfold inside, xa, xb, ya, yb, lo, hi in *; lia).
    assert (G : v _ (entirerectinboundary x1 y1 x2 y2 (ret tt)) s0 = (Ok (Some tt), s0)).
    { apply Hv. rewrite (guard_true _ _ _ _ _ _ _ _ _ _ W0 I1 I2). reflexivity. }
    rewrite (bind_ok _ _ _ _ _ G), sortrec. fold xa xb ya yb.
    apply (foldM_range_inv (fun y a s => P xa y a s)); [lia|exact H0|].
    intros y a s Hy HP.
    destruct (foldM_range_inv (fun x a s => P x y a s)
      (fun b x => c <- v Z (rd (getxybit x y)) ;; body b (x, y, c)) xa (xb + 1) a s) as (a' & s' & E & HP').
    - lia.
    - exact HP.
    - intros x a1 s1 Hx HP1.
      assert (E : v _ (rd (getxybit x y)) s1 = (Ok (pixel (cur s1) w h bits x y), s1)).
      { apply Hv. apply run_rd. apply getxybit_inside; eauto. split; lia. }
      rewrite (bind_ok _ _ _ _ _ E). apply HS; auto; lia.
    - exists a', s'. split; auto. apply HN; auto. lia.
  Qed.
End Pix.

(** ** copying the palette *)
Lemma copyRGBpal_run src b w h w' h' bits o : wf src w h bits -> wf b w' h' bits ->
  exists b', copyRGBpal src (mkst b o) = (Ok tt, mkst b' o) /\ wf b' w' h' bits /\ zlen b' = zlen b /\
    (forall i, getz b' i = if (54 <=? i) && (i <? data_off bits) then getz src i else getz b i).
Proof.
  intros Ws Wb. unfold copyRGBpal. pose proof (data_off_ge bits (wf_depth _ _ _ _ Ws)).
  assert (data_off bits <= zlen src /\ data_off bits <= zlen b).
  { rewrite (wf_len _ _ _ _ Ws), (wf_len _ _ _ _ Wb).
    pose proof (wf_wrange _ _ _ _ Ws). pose proof (wf_wrange _ _ _ _ Wb).
    pose proof (wf_hrange _ _ _ _ Ws). pose proof (wf_hrange _ _ _ _ Wb).
    pose proof (stride_nonneg w bits ltac:(lia) (wf_depth _ _ _ _ Ws)).
    pose proof (stride_nonneg w' bits ltac:(lia) (wf_depth _ _ _ _ Ws)). nia. }
  rewrite (bind_ok _ _ _ _ _ (run_lift _ _ _ _ (wf_rhdsz _ _ _ _ Ws))), run_slice_set.
  unfold bmppal. eexists. split; [reflexivity|].
  set (b' := py_slice_set _ _ _ _).
  assert (G : forall i, getz b' i = if (54 <=? i) && (i <? data_off bits) then getz src i else getz b i).
  { intros i. unfold b'. rewrite getz_slice_set by (rewrite ?zlen_slice; lia).
    bcases; auto; try lia. rewrite getz_slice by lia. f_equal. lia. }
  assert (L : zlen b' = zlen b) by (unfold b'; rewrite zlen_slice_set; rewrite ?zlen_slice; lia).
  split; [|split; auto].
  apply (wf_pal_frame b b' w' h' bits Wb).
  - apply bytes_slice_set; [apply Wb|]. apply bytes_slice, Ws.
  - exact L.
  - intros i Hi. rewrite G. bcases; auto; lia.
Qed.
Lemma copied_pal src b b' w h w' h' bits : wf src w h bits -> wf b w' h' bits -> bits <> 24 ->
  (forall i, getz b' i = if (54 <=? i) && (i <? data_off bits) then getz src i else getz b i) ->
  forall i, 0 <= i < 2 ^ bits -> pal_entry b' i = pal_entry src i.
Proof.
  intros Ws Wb N G i Hi. unfold pal_entry. rewrite !G. unfold data_off.
  destruct (Z.eqb_spec bits 24); [lia|]. bcases; auto; lia.
Qed.
Lemma same_header_pal b b' bits : same_header b b' bits -> bits <> 24 ->
  forall i, 0 <= i < 2 ^ bits -> pal_entry b' i = pal_entry b i.
Proof.
  intros (_ & H) N i Hi. unfold pal_entry. unfold data_off in H. destruct (Z.eqb_spec bits 24); [lia|].
  rewrite !H by lia. reflexivity.
Qed.
Lemma all_zero_pixels b w h bits : (forall i, data_off bits <= i -> getz b i = 0) -> wf b w h bits ->
  forall x y, inside w h x y -> pixel b w h bits x y = 0.
Proof.
  intros H W x y (Hx & Hy). rewrite pixel_raster.
  rewrite (rowpix_ext bits w _ (fun _ => 0)); [|apply W|auto|].
  - unfold rowpix. destruct (bits =? 24); auto.
  - intros k Hk _. unfold raster. apply H. destruct (rowaddr_bounds _ _ _ _ y W Hy). lia.
Qed.

(** ** crop *)
Lemma building_run nb b o m nb' : m b (mkst nb o) = (Ok tt, mkst nb' o) ->
  building nb m (mkst b o) = (Ok nb', mkst b o).
Proof. intros H. unfold building. cbn [mem out]. rewrite H. reflexivity. Qed.

Lemma dims_range w h x1 y1 x2 y2 : w < 2 ^ 24 -> h < 2 ^ 24 -> inside w h x1 y1 -> inside w h x2 y2 ->
  0 <= hi x1 x2 - lo x1 x2 + 1 < 2 ^ 24 /\ 0 <= hi y1 y2 - lo y1 y2 + 1 < 2 ^ 24.
Proof. unfold inside, hi, lo. lia. Qed.

Section Crop.
  Variables (b : list Z) (w h bits x1 y1 x2 y2 : Z).
  Hypothesis W : wf b w h bits.
  Hypothesis I1 : inside w h x1 y1.
  Hypothesis I2 : inside w h x2 y2.
  Let xa := lo x1 x2. Let xb := hi x1 x2. Let ya := lo y1 y2. Let yb := hi y1 y2.
  Let w' := xb - xa + 1. Let h' := yb - ya + 1.

  Lemma crop_small nb o : bits < 8 -> wf nb w' h' bits ->
    exists nb', itergetcolorfromrectregion (from b) xa ya xb yb tt
          (fun _ v => let '(x, y, c) := v in plotxybit (x - xa) (y - ya) c) (mkst nb o) = (Ok tt, mkst nb' o) /\
      repainted nb nb' w' h' bits (fun i j => pixel b w h bits (xa + i) (ya + j)).
  Proof.
    intros Hb Wn.
    assert (Hxy : 0 <= xa <= xb /\ xb < w /\ 0 <= ya <= yb /\ yb < h)
      by (unfold inside, xa, xb, ya, yb, lo, hi in *; lia).
    destruct (pixrect_inv (B := unit) (from b) (fun _ => b) w h bits xa ya xb yb
      (fun x y _ s => exists nb', s = mkst nb' o /\ repainted nb nb' w' h' bits (fun i j =>
          if (ya + j <? y) || ((ya + j =? y) && (xa + i <? x)) then pixel b w h bits (xa + i) (ya + j)
          else pixel nb w' h' bits i j)) tt
      (fun _ v => let '(x, y, c) := v in plotxybit (x - xa) (y - ya) c) (mkst nb o)) as ([] & s' & E & nb' & -> & R).
    - apply from_reads.
    - auto.
    - split; lia.
    - split; lia.
    - exists nb. split; auto. eapply repainted_ext; [|apply repainted_refl; auto].
      intros i j (Hi & Hj). unfold lo. bcases; auto; lia.
    - intros x y _ s Hx Hy (nb' & -> & R). unfold lo, hi in *.
      destruct (plot_inside nb' w' h' bits o (x - xa) (y - ya) (pixel b w h bits x y)) as (n2 & E & R2).
      + eapply repainted_wf; eauto.
      + unfold inside, w', h'. lia.
      + intro; lia.
      + exists tt, (mkst n2 o). split; [exact E|]. exists n2. split; auto.
        eapply repainted_trans; [exact R|]. eapply repainted_ext; [|exact R2].
        intros i j Hij. unfold put_px. rewrite (proj2 (proj2 R)) by auto. cbn beta.
        assert (reduce bits (pixel b w h bits x y) = pixel b w h bits x y).
        { pose proof (pixel_range _ _ _ _ x y W) as Hp. unfold reduce.
          destruct (wf_depth _ _ _ _ W) as [-> | [-> | [-> | ->]]]; cbn [Z.eqb Pos.eqb]; bcases; try lia;
            apply Z.mod_small; lia. }
        destruct Hij as (Hi & Hj).
        destruct (Z.eqb_spec i (x - xa)) as [->|N1], (Z.eqb_spec j (y - ya)) as [->|N2]; cbn [andb]; rewrite ?H;
          try (replace (xa + (x - xa)) with x by lia); try (replace (ya + (y - ya)) with y by lia);
          bcases; auto; lia.
    - intros y _ s Hy (nb' & -> & R). exists nb'. split; auto. eapply repainted_ext; [|exact R].
      intros i j (Hi & Hj). unfold lo, hi, w', h' in *. cbn beta. bcases; auto; lia.
    - exists nb'. split; [exact E|]. eapply repainted_ext; [|exact R]. intros i j (Hi & Hj).
      unfold lo, hi, w', h' in *. cbn beta. bcases; auto; lia.
  Qed.

  Lemma crop_big nb o : bits = 8 \/ bits = 24 -> wf nb w' h' bits ->
    exists nb', (itercopyrect (from b) xa ya xb yb 0
          (fun offset buf => BMPbitBLTput offset buf ;;; ret (offset + stride w' bits)) ;;; ret tt)
          (mkst nb o) = (Ok tt, mkst nb' o) /\
      repainted nb nb' w' h' bits (fun i j => pixel b w h bits (xa + i) (ya + j)).
  Proof.
    intros Hb Wn.
    assert (Hxy : 0 <= xa <= xb /\ xb < w /\ 0 <= ya <= yb /\ yb < h)
      by (unfold inside, xa, xb, ya, yb, lo, hi in *; lia).
    set (p := bits / 8).
    assert (Hp : 0 < p /\ forall x, x * bits / 8 = x * p) by (unfold p; clear - Hb; destruct Hb as [-> | ->]; [change (8 / 8) with 1|change (24 / 8) with 3]; split; intros; lia).
    destruct Hp as [Hp0 Hp].
    assert (Hst : w' * p <= stride w' bits).
    { unfold stride, p. clear - Hb. clearbody w'. destruct Hb as [-> | ->]; [change (8 / 8) with 1|change (24 / 8) with 3]; lia. }
    destruct (itercopyrect_inv (from b) (fun _ => b) w h bits xa ya xb yb
      (fun i off s => off = i * stride w' bits /\ exists nb', s = mkst nb' o /\
         rastered nb nb' w' h' bits (fun k' j =>
           if (h' - 1 - i <? j) && (k' <? w' * p) then raster b w h bits (xa * p + k') (ya + j)
           else raster nb w' h' bits k' j)) 0
      (fun offset buf => BMPbitBLTput offset buf ;;; ret (offset + stride w' bits)) (mkst nb o))
      as (off & s' & E & _ & nb' & -> & R).
    - apply from_reads.
    - auto.
    - split; lia.
    - split; lia.
    - now apply aligned_8_24.
    - split; [lia|]. exists nb. split; auto. eapply rastered_ext; [|apply rastered_refl; auto].
      intros k j Hk Hj. cbn beta. bcases; auto; lia.
    - intros i off s buf Hi (-> & nb' & -> & R) L1 L2 L3.
      replace (lo xa xb) with xa in * by (unfold lo; lia). replace (hi xa xb) with xb in * by (unfold hi; lia).
      replace (lo ya yb) with ya in * by (unfold lo; lia). replace (hi ya yb) with yb in * by (unfold hi; lia).
      rewrite !Hp in L1, L3.
      assert (Hl : zlen buf = w' * p) by (rewrite L1; unfold w'; ring).
      destruct (bltput_row nb' w' h' bits o (h' - 1 - i) 0 buf) as (n2 & E & R2).
      + eapply rastered_wf; eauto.
      + unfold h'; lia.
      + lia.
      + rewrite Hl. clear - Hst. lia.
      + auto.
      + replace ((h' - 1 - (h' - 1 - i)) * stride w' bits + 0) with (i * stride w' bits) in E by ring.
        rewrite (bind_ok _ _ _ _ _ E). eexists _, _. split; [reflexivity|]. split; [ring|].
        exists n2. split; auto. eapply rastered_trans; [exact R|]. eapply rastered_ext; [|exact R2].
        intros k' j Hk' Hj. cbn beta. rewrite (proj2 (proj2 R)) by auto. unfold in_rowpart. rewrite Hl, Z.sub_0_r.
        destruct (Z.eqb_spec j (h' - 1 - i)) as [->|N]; cbn [andb].
        * replace (0 <=? k') with true by lia. rewrite Z.add_0_l. cbn [andb].
          destruct (Z.ltb_spec k' (w' * p)).
          -- rewrite L3 by (rewrite <- L1, Hl; lia). replace (yb - i) with (ya + (h' - 1 - i)) by (unfold h'; lia).
             bcases; auto; lia.
          -- rewrite !andb_false_r. reflexivity.
        * replace (h' - 1 - (i + 1) <? j) with (h' - 1 - i <? j) by lia. reflexivity.
    - exists nb'. rewrite (bind_ok _ _ _ _ _ E). split; [reflexivity|].
      eapply rastered_repainted; [exact R|]. intros i j (Hi & Hj). cbn beta.
      replace (lo ya yb) with ya by (unfold lo; lia). replace (hi ya yb) with yb by (unfold hi; lia).
      rewrite pixel_raster. fold h'.
      transitivity (rowpix bits (fun k' => raster b w h bits (xa * p + k') (ya + j)) i).
      + apply (rowpix_ext bits w'); auto. apply W. intros k' Hk' Hk2. cbn beta.
        replace (h' - 1 - h' <? j) with true by lia. cbn [andb].
        rewrite Hp in Hk2. replace (pbytes bits) with p in Hk2 by (unfold pbytes, p; destruct Hb as [-> | ->]; reflexivity).
        assert (k' < w' * p) by nia. bcases; auto; lia.
      + unfold rowpix, p. clear - Hb. destruct Hb as [-> | ->]; cbn [Z.eqb Pos.eqb].
        * change (8 / 8) with 1. replace (xa * 1 + i * 8 / 8) with ((xa + i) * 8 / 8) by lia.
          replace (((xa + i) * 8) mod 8) with 0 by lia. replace ((i * 8) mod 8) with 0 by lia. reflexivity.
        * change (24 / 8) with 3. repeat (f_equal; try lia).
  Qed.
End Crop.

Lemma crop_run b w h bits o x1 y1 x2 y2 : wf b w h bits -> inside w h x1 y1 -> inside w h x2 y2 ->
  exists nb, crop x1 y1 x2 y2 (mkst b o) = (Ok (Some nb), mkst b o) /\
    wf nb (hi x1 x2 - lo x1 x2 + 1) (hi y1 y2 - lo y1 y2 + 1) bits /\
    (forall i j, inside (hi x1 x2 - lo x1 x2 + 1) (hi y1 y2 - lo y1 y2 + 1) i j ->
       pixel nb (hi x1 x2 - lo x1 x2 + 1) (hi y1 y2 - lo y1 y2 + 1) bits i j =
       pixel b w h bits (lo x1 x2 + i) (lo y1 y2 + j)) /\
    (bits < 8 -> forall i, 0 <= i < 2 ^ bits -> pal_entry nb i = pal_entry b i) /\
    (bits = 8 -> exists pal, getdefaultbitpal 8 = Ok pal /\ getallRGBpal nb = Ok pal).
Proof.
  intros W I1 I2. unfold crop. rewrite (guard_true _ _ _ _ _ _ _ _ _ _ W I1 I2). rewrite sortrec.
  unfold withSome. rewrite bind_assoc, (bind_ok _ _ _ _ _ (wf_geti_bits _ _ _ _ W _)).
  destruct (dims_range w h x1 y1 x2 y2) as [D1 D2]; auto; try apply W.
  destruct (newBMP_wf _ _ bits (wf_depth _ _ _ _ W) D1 D2) as (nb & En & Wn & _ & Hpal & Hz).
  rewrite bind_assoc, (bind_ok _ _ _ _ _ (run_lift _ _ _ _ En)).
  destruct (Z.ltb_spec bits 8) as [Hb|Hb].
  - destruct (copyRGBpal_run b nb _ _ _ _ _ o W Wn) as (n1 & E1 & W1 & L1 & G1).
    destruct (crop_small b w h bits x1 y1 x2 y2 W I1 I2 n1 o Hb W1) as (n2 & E2 & R2).
    exists n2. rewrite (bind_ok _ _ _ n2 (mkst b o)).
    2:{ apply building_run. rewrite (bind_ok _ _ _ _ _ E1). exact E2. }
    split; [reflexivity|]. split; [apply R2|]. split; [apply R2|]. split; [|lia].
    intros _ i Hi. rewrite (same_header_pal n1 n2 bits) by (first [exact Hi|lia|apply R2]).
    apply (copied_pal b nb n1 _ _ _ _ bits W Wn); auto. lia.
  - assert (Hb' : bits = 8 \/ bits = 24) by (pose proof (wf_depth _ _ _ _ W); unfold valid_depth in *; lia).
    destruct (crop_big b w h bits x1 y1 x2 y2 W I1 I2 nb o Hb' Wn) as (n2 & E2 & R2).
    exists n2. rewrite (bind_ok _ _ _ n2 (mkst b o)).
    2:{ apply building_run. rewrite (bind_ok _ _ _ _ _ (run_rd _ _ _ _ (wf_rxchr _ _ _ _ Wn))). exact E2. }
    split; [reflexivity|]. split; [apply R2|]. split; [apply R2|]. split; [lia|].
    intros ->. destruct (Hpal ltac:(lia)) as (pal & Ep & Eg). exists pal. split; auto.
    rewrite (getallRGBpal_ok nb _ _ 8 Wn) in Eg by lia.
    rewrite (getallRGBpal_ok n2 _ _ 8 (proj1 R2)) by lia. rewrite <- Eg. f_equal.
    apply map_ext_in. intros i Hi. apply in_range in Hi. apply (same_header_pal nb n2 8); auto. apply R2. lia.
Qed.

Lemma crop_out b w h bits o x1 y1 x2 y2 : wf b w h bits ->
  ~ (inside w h x1 y1 /\ inside w h x2 y2) ->
  crop x1 y1 x2 y2 (mkst b o) = (Ok None, mkst b (o ++ [Mregionoutofbounds])).
Proof. intros W N. now apply (guard_false _ w h bits). Qed.
