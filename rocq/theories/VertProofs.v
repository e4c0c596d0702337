(** Row-wise operations: vertical flips and mirrors, inversion, erasing of
    lines (proofs). *)
From Coq Require Import ZArith List Bool Lia.
From Verif Require Import PyBase PyFacts Spec Bmp BmpFacts PixelProofs Buffers Region Raster.
Import ListNotations.
Open Scope Z_scope.
Open Scope py_scope.
Ltac Zify.zify_post_hook ::= Z.to_euclidean_division_equations.

(** ** one exchange of row parts *)
Definition vsource (t : vtrans) (ylo yhi y : Z) : Z :=
  match t with
  | TF => ylo + yhi - y
  | TT => Z.min y (ylo + yhi - y)
  | TB => Z.max y (ylo + yhi - y)
  end.
Definition incols (k n k' : Z) : bool := (k <=? k') && (k' <? k + n).

Lemma vswap_run b w h bits o t ya yb k n : wf b w h bits ->
  0 <= ya < yb -> yb < h -> 0 <= k -> 0 <= n -> k + n <= stride w bits ->
  exists b', vswap t (rowaddr w h bits yb + k) (rowaddr w h bits ya + k) n (mkst b o) = (Ok tt, mkst b' o) /\
    rastered b b' w h bits (fun k' y' =>
      if incols k n k' && ((y' =? ya) || (y' =? yb)) then raster b w h bits k' (vsource t ya yb y')
      else raster b w h bits k' y').
Proof.
  intros W H1 H2 Hk Hn Hr.
  destruct (row_get b w h bits ya k n W ltac:(lia) Hk Hn Hr) as (A1 & A2 & A3).
  destruct (row_get b w h bits yb k n W ltac:(lia) Hk Hn Hr) as (B1 & B2 & B3).
  set (va := py_slice b (rowaddr w h bits ya + k) _) in *.
  set (vb := py_slice b (rowaddr w h bits yb + k) _) in *.
  pose proof (row_set b w h bits yb k n va W ltac:(lia) Hk Hn Hr A1 A2) as R1.
  set (b1 := py_slice_set b (rowaddr w h bits yb + k) _ va) in *.
  destruct t; cbn [vswap].
  - rewrite (bind_ok _ _ _ _ _ (run_slice _ _ _ _)). rewrite (bind_ok _ _ _ _ _ (run_slice _ _ _ _)).
    rewrite (bind_ok _ _ _ _ _ (run_slice_set _ _ _ _ _)). rewrite run_slice_set. fold va vb b1.
    pose proof (row_set b1 w h bits ya k n vb (rastered_wf _ _ _ _ _ _ R1) ltac:(lia) Hk Hn Hr B1 B2) as R2.
    eexists; split; [reflexivity|].
    eapply rastered_ext; [|exact (rastered_trans _ _ _ _ _ _ _ _ R1 R2)].
    intros k' y' Hk' Hy'. cbn beta. rewrite (proj2 (proj2 R1) k' y') by auto.
    cbn beta. unfold in_rowpart, incols, vsource.
    destruct (Z.eqb_spec y' ya), (Z.eqb_spec y' yb); try lia; cbn [andb orb];
      rewrite ?andb_true_r, ?andb_false_r; auto;
      (destruct ((k <=? k') && (k' <? k + n)) eqn:C; auto);
      apply andb_true_iff in C; destruct C as [C1 C2]; apply Z.leb_le in C1; apply Z.ltb_lt in C2.
    + rewrite B3 by lia. f_equal; lia.
    + rewrite A3 by lia. f_equal; lia.
  - rewrite (bind_ok _ _ _ _ _ (run_slice _ _ _ _)). rewrite run_slice_set. fold va b1.
    eexists; split; [reflexivity|]. eapply rastered_ext; [|exact R1].
    intros k' y' Hk' Hy'. cbn beta. unfold in_rowpart, incols, vsource.
    destruct (Z.eqb_spec y' ya), (Z.eqb_spec y' yb); try lia; cbn [andb orb];
      rewrite ?andb_true_r, ?andb_false_r; auto;
      (destruct ((k <=? k') && (k' <? k + n)) eqn:C; auto);
      apply andb_true_iff in C; destruct C as [C1 C2]; apply Z.leb_le in C1; apply Z.ltb_lt in C2.
    + f_equal; lia.
    + rewrite A3 by lia. f_equal; lia.
  - pose proof (row_set b w h bits ya k n vb W ltac:(lia) Hk Hn Hr B1 B2) as R2.
    rewrite (bind_ok _ _ _ _ _ (run_slice _ _ _ _)). rewrite run_slice_set. fold vb.
    eexists; split; [reflexivity|]. eapply rastered_ext; [|exact R2].
    intros k' y' Hk' Hy'. cbn beta. unfold in_rowpart, incols, vsource.
    destruct (Z.eqb_spec y' ya), (Z.eqb_spec y' yb); try lia; cbn [andb orb];
      rewrite ?andb_true_r, ?andb_false_r; auto;
      (destruct ((k <=? k') && (k' <? k + n)) eqn:C; auto);
      apply andb_true_iff in C; destruct C as [C1 C2]; apply Z.leb_le in C1; apply Z.ltb_lt in C2.
    + rewrite B3 by lia. f_equal; lia.
    + f_equal; lia.
Qed.

(** ** the loop of verttrans and verttransregion *)
Definition vmirrored (b : list Z) (w h bits y1 y2 k n : Z) (t : vtrans) (k' y' : Z) : Z :=
  if incols k n k' && ((y1 <=? y') && (y' <=? y2)) then raster b w h bits k' (vsource t y1 y2 y')
  else raster b w h bits k' y'.

Lemma vloop_run b w h bits o t y1 y2 k n : wf b w h bits ->
  0 <= y1 <= y2 -> y2 < h -> 0 <= k -> 0 <= n -> k + n <= stride w bits -> 0 < stride w bits ->
  exists p b',
    whileM (Z.to_nat (rowaddr w h bits y1 + k - (rowaddr w h bits y2 + k)))
      (fun p => let '(s1, s2) := p in s1 <? s2)
      (fun p => let '(s1, s2) := p in
         vswap t s1 s2 n ;;; ret (s1 + stride w bits, s2 - stride w bits))
      (rowaddr w h bits y2 + k, rowaddr w h bits y1 + k) (mkst b o) = (Ok p, mkst b' o) /\
    rastered b b' w h bits (vmirrored b w h bits y1 y2 k n t).
Proof.
  intros W Hy Hh Hk Hn Hr Hs.
  destruct (whileM_inv (fun i p s =>
      p = (rowaddr w h bits (y2 - i) + k, rowaddr w h bits (y1 + i) + k) /\ out s = o /\
      rastered b (mem s) w h bits (fun k' y' =>
        if incols k n k' && (((y1 <=? y') && (y' <? y1 + i)) || ((y2 - i <? y') && (y' <=? y2)))
        then raster b w h bits k' (vsource t y1 y2 y') else raster b w h bits k' y'))
    (fun p => let '(s1, s2) := p in s1 <? s2)
    (fun p => let '(s1, s2) := p in
         vswap t s1 s2 n ;;; ret (s1 + stride w bits, s2 - stride w bits))
    ((y2 - y1 + 1) / 2)
    (Z.to_nat (rowaddr w h bits y1 + k - (rowaddr w h bits y2 + k)))
    (rowaddr w h bits y2 + k, rowaddr w h bits y1 + k) (mkst b o)) as (p & s' & E & Ep & Eo & R).
  - lia.
  - unfold rowaddr. nia.
  - split; [now rewrite Z.sub_0_r, Z.add_0_r|]. split; auto.
    eapply rastered_ext; [|apply rastered_refl; auto]. intros k' y' _ _. cbn beta.
    replace (((y1 <=? y') && (y' <? y1 + 0)) || ((y2 - 0 <? y') && (y' <=? y2))) with false
      by (bcases; auto; lia). now rewrite andb_false_r.
  - intros i p s Hi (Ep & Eo & R). subst p. split.
    { apply Z.ltb_lt. unfold rowaddr. nia. }
    destruct s as [bi oi]. cbn [mem out] in *. subst oi.
    destruct (vswap_run bi w h bits o t (y1 + i) (y2 - i) k n (rastered_wf _ _ _ _ _ _ R))
      as (b' & E & R'); try lia.
    exists (rowaddr w h bits (y2 - (i + 1)) + k, rowaddr w h bits (y1 + (i + 1)) + k), (mkst b' o).
    split.
    { rewrite (bind_ok _ _ _ _ _ E). unfold ret. do 3 f_equal; unfold rowaddr; ring. }
    split; auto. split; auto. cbn [mem].
    eapply rastered_ext; [|exact (rastered_trans _ _ _ _ _ _ _ _ R R')].
    intros k' y' Hk' Hy'. cbn beta.
    destruct (incols k n k') eqn:C; cbn [andb]; [|rewrite (proj2 (proj2 R)) by auto; rewrite C; reflexivity].
    destruct (Z.eqb_spec y' (y1 + i)) as [->|N1]; [|destruct (Z.eqb_spec y' (y2 - i)) as [->|N2]]; cbn [orb].
    + assert (Hv : 0 <= vsource t (y1 + i) (y2 - i) (y1 + i) < h) by (destruct t; cbn [vsource]; lia).
      rewrite (proj2 (proj2 R)) by auto. cbn beta. rewrite C. cbn [andb].
      replace (vsource t (y1 + i) (y2 - i) (y1 + i)) with (vsource t y1 y2 (y1 + i)) in *
        by (destruct t; cbn [vsource]; lia).
      replace ((y1 <=? y1 + i) && (y1 + i <? y1 + (i + 1))) with true by (bcases; auto; lia). cbn [orb].
      set (q := vsource t y1 y2 (y1 + i)) in *.
      assert (Hq : q = y1 + i \/ q = y2 - i) by (unfold q; destruct t; cbn [vsource]; lia).
      replace (((y1 <=? q) && (q <? y1 + i)) || ((y2 - i <? q) && (q <=? y2))) with false
        by (bcases; auto; lia). reflexivity.
    + assert (Hv : 0 <= vsource t (y1 + i) (y2 - i) (y2 - i) < h) by (destruct t; cbn [vsource]; lia).
      rewrite (proj2 (proj2 R)) by auto. cbn beta. rewrite C. cbn [andb].
      replace (vsource t (y1 + i) (y2 - i) (y2 - i)) with (vsource t y1 y2 (y2 - i)) in *
        by (destruct t; cbn [vsource]; lia).
      replace ((y2 - (i + 1) <? y2 - i) && (y2 - i <=? y2)) with true by (bcases; auto; lia).
      rewrite orb_true_r.
      set (q := vsource t y1 y2 (y2 - i)) in *.
      assert (Hq : q = y1 + i \/ q = y2 - i) by (unfold q; destruct t; cbn [vsource]; lia).
      replace (((y1 <=? q) && (q <? y1 + i)) || ((y2 - i <? q) && (q <=? y2))) with false
        by (bcases; auto; lia). reflexivity.
    + rewrite (proj2 (proj2 R)) by auto. cbn beta. rewrite C. cbn [andb].
      replace (((y1 <=? y') && (y' <? y1 + (i + 1))) || ((y2 - (i + 1) <? y') && (y' <=? y2)))
        with (((y1 <=? y') && (y' <? y1 + i)) || ((y2 - i <? y') && (y' <=? y2))); auto.
      bcases; auto; lia.
  - intros p s (Ep & _ & _). subst p. apply Z.ltb_ge. unfold rowaddr. nia.
  - destruct s' as [b' o']. cbn [mem out] in *. subst o'.
    exists p, b'. split; auto. eapply rastered_ext; [|exact R].
    intros k' y' Hk' Hy'. cbn beta. unfold vmirrored.
    destruct (incols k n k'); cbn [andb]; auto.
    destruct (Z.eq_dec y' (vsource t y1 y2 y')) as [Ev|Nv].
    + rewrite <- Ev. destruct (_ || _), (_ && _); reflexivity.
    + replace (((y1 <=? y') && (y' <? y1 + (y2 - y1 + 1) / 2)) || ((y2 - (y2 - y1 + 1) / 2 <? y') && (y' <=? y2)))
        with ((y1 <=? y') && (y' <=? y2)); auto.
      assert (2 * y' <> y1 + y2) by (destruct t; cbn [vsource] in Nv; lia).
      bcases; auto; lia.
Qed.

Lemma vsource_range t h y : 0 <= y < h -> 0 <= vsource t 0 (h - 1) y < h.
Proof. intros. destruct t; cbn [vsource]; lia. Qed.

Lemma verttrans_raster b w h bits o t : wf b w h bits ->
  exists b', verttrans t (mkst b o) = (Ok tt, mkst b' o) /\
    rastered b b' w h bits (fun k y => raster b w h bits k (vsource t 0 (h - 1) y)).
Proof.
  intros W. unfold verttrans.
  rewrite (bind_ok _ _ _ _ _ (run_rd _ _ _ _ (wf_rxchr _ _ _ _ W))).
  rewrite (bind_ok _ _ _ _ _ (run_rd _ _ _ _ (wf_rhdsz _ _ _ _ W))).
  rewrite (bind_ok _ _ _ _ _ (run_rd _ _ _ _ (wf_rflsz _ _ _ _ W))). cbv zeta.
  pose proof (wf_wrange _ _ _ _ W). pose proof (wf_hrange _ _ _ _ W).
  pose proof (stride_nonneg w bits ltac:(lia) (wf_depth _ _ _ _ W)).
  destruct (Z.eq_dec h 0) as [E0|N0]; [|destruct (Z.eq_dec (stride w bits) 0) as [E1|N1]].
  - rewrite (wf_len _ _ _ _ W). exists b.
    replace (Z.to_nat (data_off bits + h * stride w bits - stride w bits - data_off bits)) with O
      by (subst h; lia).
    split.
    + unfold bind. cbn [whileM]. destruct (Z.ltb_spec (data_off bits) (data_off bits + h * stride w bits - stride w bits));
        [subst h; lia|]. reflexivity.
    + split; auto. split; [apply same_header_refl|]. intros; lia.
  - rewrite (wf_len _ _ _ _ W), E1. exists b.
    replace (Z.to_nat (data_off bits + h * 0 - 0 - data_off bits)) with O by lia. split.
    + unfold bind. cbn [whileM]. destruct (Z.ltb_spec (data_off bits) (data_off bits + h * 0 - 0)); [lia|]. reflexivity.
    + split; auto. split; [apply same_header_refl|]. intros; lia.
  - destruct (vloop_run b w h bits o t 0 (h - 1) 0 (stride w bits) W) as (p & b' & E & R); try lia.
    replace (rowaddr w h bits (h - 1) + 0) with (data_off bits) in E by (unfold rowaddr; ring).
    replace (rowaddr w h bits 0 + 0) with (zlen b - stride w bits) in E
      by (rewrite (wf_len _ _ _ _ W); unfold rowaddr; ring).
    exists b'. split; [rewrite (bind_ok _ _ _ _ _ E); reflexivity|].
    eapply rastered_ext; [|exact R]. intros k y Hk Hy. cbn beta. unfold vmirrored, incols.
    replace ((0 <=? k) && (k <? 0 + stride w bits)) with true by (bcases; auto; lia).
    replace ((0 <=? y) && (y <=? h - 1)) with true by (bcases; auto; lia). reflexivity.
Qed.

Lemma verttrans_run b w h bits o t : wf b w h bits ->
  exists b', verttrans t (mkst b o) = (Ok tt, mkst b' o) /\
    repainted b b' w h bits (fun x y => pixel b w h bits x (vsource t 0 (h - 1) y)).
Proof.
  intros W. destruct (verttrans_raster b w h bits o t W) as (b' & E & R).
  exists b'. split; auto. eapply rastered_repainted; [exact R|].
  intros x y Hin. now rewrite pixel_raster.
Qed.
Lemma verttrans_twice b w h bits o t b' : wf b w h bits ->
  verttrans t (mkst b o) = (Ok tt, mkst b' o) ->
  verttrans t (mkst b' o) = (Ok tt, mkst (match t with TF => b | _ => b' end) o).
Proof.
  intros W E. destruct (verttrans_raster b w h bits o t W) as (b1 & E1 & R1).
  rewrite E in E1. inversion E1; subst b1; clear E1.
  destruct (verttrans_raster b' w h bits o t (rastered_wf _ _ _ _ _ _ R1)) as (b2 & E2 & R2).
  rewrite E2. do 2 f_equal. 
  pose proof (rastered_trans _ _ _ _ _ _ _ _ R1 R2) as R3.
  assert (R4 : rastered b b2 w h bits (fun k y => raster b w h bits k (vsource t 0 (h - 1) (vsource t 0 (h - 1) y)))).
  { eapply rastered_ext; [|exact R3]. intros k y Hk Hy. cbn beta.
    apply R1; auto. now apply vsource_range. }
  destruct t.
  - f_equal. apply (rastered_unique b _ _ w h bits (raster b w h bits)).
    + eapply rastered_ext; [|exact R4]. intros k y Hk Hy. cbn beta. f_equal. cbn [vsource]. lia.
    + now apply rastered_refl.
  - f_equal. apply (rastered_unique b _ _ w h bits (fun k y => raster b w h bits k (vsource TT 0 (h - 1) y))); auto.
    eapply rastered_ext; [|exact R4]. intros k y Hk Hy. cbn beta. f_equal. cbn [vsource]. lia.
  - f_equal. apply (rastered_unique b _ _ w h bits (fun k y => raster b w h bits k (vsource TB 0 (h - 1) y))); auto.
    eapply rastered_ext; [|exact R4]. intros k y Hk Hy. cbn beta. f_equal. cbn [vsource]. lia.
Qed.

(** ** rectangles whose sides fall on byte boundaries *)
Definition byte_aligned (bits x1 x2 : Z) : Prop := (x1 * bits) mod 8 = 0 /\ ((x2 + 1) * bits) mod 8 = 0.
Lemma aligned_8_24 bits x1 x2 : bits = 8 \/ bits = 24 -> byte_aligned bits x1 x2.
Proof. intros [-> | ->]; unfold byte_aligned; lia. Qed.
Lemma adjust_aligned bits x1 x2 : valid_depth bits -> byte_aligned bits x1 x2 ->
  adjustbufsize (x2 - x1 + 1) bits = (x2 + 1) * bits / 8 - x1 * bits / 8.
Proof.
  unfold adjustbufsize, byte_aligned. intros [-> | [-> | [-> | ->]]] (H1 & H2); cbn [Z.eqb Pos.eqb].
  - rewrite shiftr3. lia. - rewrite shiftr1. lia. - lia. - lia.
Qed.
(** all bytes of a pixel are in the columns of the rectangle, or none is *)
Lemma aligned_cols bits x1 x2 x k : valid_depth bits -> byte_aligned bits x1 x2 ->
  x * bits / 8 <= k < x * bits / 8 + pbytes bits ->
  incols (x1 * bits / 8) ((x2 + 1) * bits / 8 - x1 * bits / 8) k = (x1 <=? x) && (x <=? x2).
Proof.
  unfold byte_aligned, pbytes, incols.
  intros [-> | [-> | [-> | ->]]] (H1 & H2) H; cbn [Z.eqb Pos.eqb] in H; bcases; auto; lia.
Qed.
Lemma aligned_fit w bits x1 x2 : valid_depth bits -> 0 <= x1 -> x1 <= x2 + 1 -> x2 < w ->
  0 <= x1 * bits / 8 /\ 0 <= (x2 + 1) * bits / 8 - x1 * bits / 8 /\
  x1 * bits / 8 + ((x2 + 1) * bits / 8 - x1 * bits / 8) <= stride w bits.
Proof. unfold stride. intros [-> | [-> | [-> | ->]]]; lia. Qed.

Lemma guard_true {A} b w h bits o x1 y1 x2 y2 (f : M A) : wf b w h bits ->
  inside w h x1 y1 -> inside w h x2 y2 ->
  entirerectinboundary x1 y1 x2 y2 f (mkst b o) = withSome f (mkst b o).
Proof.
  intros W H1 H2. unfold entirerectinboundary.
  rewrite (bind_ok _ _ _ _ _ (run_rd _ _ _ _ (wf_inbnd_true _ _ _ _ W _ _ H1))).
  rewrite (bind_ok _ _ _ _ _ (run_rd _ _ _ _ (wf_inbnd_true _ _ _ _ W _ _ H2))). reflexivity.
Qed.
Lemma guard_false {A} b w h bits o x1 y1 x2 y2 (f : M A) : wf b w h bits ->
  ~ (inside w h x1 y1 /\ inside w h x2 y2) ->
  entirerectinboundary x1 y1 x2 y2 f (mkst b o) = (Ok None, mkst b (o ++ [Mregionoutofbounds])).
Proof.
  intros W H. unfold entirerectinboundary.
  rewrite (bind_ok _ _ _ _ _ (run_rd _ _ _ _ (wf_inbnd _ _ _ _ W _ _))).
  rewrite (bind_ok _ _ _ _ _ (run_rd _ _ _ _ (wf_inbnd _ _ _ _ W _ _))).
  assert (E : ((x1 <? w) && (y1 <? h) && ((x1 >? -1) && (y1 >? -1))) &&
     ((x2 <? w) && (y2 <? h) && ((x2 >? -1) && (y2 >? -1))) = false).
  { unfold inside in H. bcases; auto; lia. }
  rewrite E. reflexivity.
Qed.

Definition lo (a b : Z) := Z.min a b.
Definition hi (a b : Z) := Z.max a b.
Lemma sortrec x1 y1 x2 y2 : sortrecpoints x1 y1 x2 y2 = (lo x1 x2, lo y1 y2, hi x1 x2, hi y1 y2).
Proof.
  unfold sortrecpoints, swapif, lo, hi. rewrite !Z.gtb_ltb.
  destruct (Z.ltb_spec x2 x1), (Z.ltb_spec y2 y1); repeat f_equal; lia.
Qed.

Lemma adjustx_run b w h bits x1 x2 : wf b w h bits ->
  adjustxbufsize x1 x2 b = Ok (adjustbufsize (x2 - x1 + 1) bits).
Proof.
  intros W. unfold adjustxbufsize. change 28 with bmpcolorbits. rewrite (wf_rbits _ _ _ _ W). reflexivity.
Qed.

(** which source pixel a region transform takes *)
Definition in_rect (x1 y1 x2 y2 x y : Z) : bool :=
  ((lo x1 x2 <=? x) && (x <=? hi x1 x2)) && ((lo y1 y2 <=? y) && (y <=? hi y1 y2)).

Lemma verttransregion_run b w h bits o t x1 y1 x2 y2 : wf b w h bits ->
  inside w h x1 y1 -> inside w h x2 y2 -> byte_aligned bits (lo x1 x2) (hi x1 x2) ->
  exists b', verttransregion x1 y1 x2 y2 t (mkst b o) = (Ok (Some tt), mkst b' o) /\
    repainted b b' w h bits (fun x y =>
      if in_rect x1 y1 x2 y2 x y then pixel b w h bits x (vsource t (lo y1 y2) (hi y1 y2) y)
      else pixel b w h bits x y).
Proof.
  intros W I1 I2 HA. unfold verttransregion. rewrite (guard_true _ _ _ _ _ _ _ _ _ _ W I1 I2).
  rewrite sortrec. unfold withSome. unfold inside in *.
  set (xa := lo x1 x2) in *. set (xb := hi x1 x2) in *. set (ya := lo y1 y2) in *. set (yb := hi y1 y2) in *.
  assert (Hxy : 0 <= xa <= xb /\ xb < w /\ 0 <= ya <= yb /\ yb < h) by (unfold xa, xb, ya, yb, lo, hi; lia).
  pose proof (wf_depth _ _ _ _ W) as Hd.
  rewrite !bind_assoc.
  rewrite (bind_ok _ _ _ _ _ (run_rd _ _ _ _ (adjustx_run _ _ _ _ xa xb W))).
  rewrite bind_assoc. rewrite (bind_ok _ _ _ _ _ (run_rd _ _ _ _ (wf_rxchr _ _ _ _ W))).
  rewrite bind_assoc. rewrite (bind_ok _ _ _ _ _ (run_rd _ _ _ _ (wf_offsethd _ _ _ _ W xa yb))).
  rewrite bind_assoc. rewrite (bind_ok _ _ _ _ _ (run_rd _ _ _ _ (wf_offsethd _ _ _ _ W xa ya))).
  rewrite adjust_aligned by auto. rewrite !baddr_rowaddr.
  destruct (aligned_fit w bits xa xb Hd) as (F1 & F2 & F3); try lia.
  destruct (vloop_run b w h bits o t ya yb (xa * bits / 8) ((xb + 1) * bits / 8 - xa * bits / 8) W)
    as (p & b' & E & R); try lia; auto.
  { pose proof (stride_pos w bits Hd ltac:(lia)). lia. }
  exists b'. split.
  - rewrite bind_assoc. rewrite (bind_ok _ _ _ _ _ E). reflexivity.
  - eapply rastered_repainted; [exact R|]. intros x y (Hx & Hy). cbn beta.
    unfold in_rect, vmirrored. fold xa xb ya yb.
    transitivity (rowpix bits (fun k => raster b w h bits k
        (if ((xa <=? x) && (x <=? xb)) && ((ya <=? y) && (y <=? yb)) then vsource t ya yb y else y)) x).
    + apply (rowpix_ext bits w); auto. intros k Hk Hkx.
      rewrite (aligned_cols bits xa xb x k) by auto. destruct (_ && _); reflexivity.
    + destruct (_ && _); now rewrite pixel_raster.
Qed.

(** ** inversion of the whole image *)
Lemma lxor255 v : byte v -> Z.lxor v 255 = 255 - v.
Proof.
  intros H. pose proof (forall_below (fun v => Z.lxor v 255 =? 255 - v) 256 ltac:(vm_compute; reflexivity) v H).
  now apply Z.eqb_eq.
Qed.
Definition inverted (b b' : list Z) (bits : Z) (lim : Z) : Prop :=
  bytes b' /\ zlen b' = zlen b /\
  forall i, getz b' i = if (data_off bits <=? i) && (i <? lim) then 255 - getz b i else getz b i.

Lemma invertimagebits_bytes b w h bits o : wf b w h bits ->
  exists b', invertimagebits (mkst b o) = (Ok tt, mkst b' o) /\ inverted b b' bits (zlen b).
Proof.
  intros W. unfold invertimagebits.
  rewrite (bind_ok _ _ _ _ _ (run_rd _ _ _ _ (wf_rhdsz _ _ _ _ W))).
  rewrite (bind_ok _ _ _ _ _ (run_rd _ _ _ _ (wf_rflsz _ _ _ _ W))).
  pose proof (data_off_ge bits (wf_depth _ _ _ _ W)) as Hd. pose proof (wf_wrange _ _ _ _ W). pose proof (wf_hrange _ _ _ _ W).
  pose proof (stride_nonneg w bits ltac:(lia) (wf_depth _ _ _ _ W)).
  assert (data_off bits <= zlen b) by (rewrite (wf_len _ _ _ _ W); nia).
  destruct (whileM_inv (fun i off s => off = data_off bits + i /\ out s = o /\ inverted b (mem s) bits (data_off bits + i))
    (fun offset => offset <? zlen b)
    (fun offset => b <- geti offset ;; seti offset (Z.lxor b 255) ;;; ret (offset + 1))
    (zlen b - data_off bits) (Z.to_nat (zlen b - data_off bits)) (data_off bits) (mkst b o))
    as (x & s' & E & Ex & Eo & R); try lia.
  - split; [lia|]. split; auto. split; [apply W|]. split; auto. intros i. cbn [mem].
    bcases; auto; lia.
  - intros i x s Hi (Ex & Eo & Rb & Rl & Rg). split; [apply Z.ltb_lt; lia|].
    destruct s as [bi oi]. cbn [mem out] in *. subst oi x.
    assert (Hg : byte (getz bi (data_off bits + i))) by now apply bytes_getz.
    assert (Hx : byte (Z.lxor (getz bi (data_off bits + i)) 255))
      by (rewrite lxor255 by auto; unfold byte in *; lia).
    rewrite (bind_ok _ _ _ _ _ (run_geti bi o (data_off bits + i) ltac:(lia))).
    rewrite (bind_ok _ _ _ _ _ (run_seti bi o (data_off bits + i) _ ltac:(lia) Hx)).
    eexists _, _. split; [reflexivity|]. cbn [mem out]. split; [lia|]. split; auto.
    split; [now apply bytes_upd|]. split; [rewrite zlen_upd; lia|].
    intros j. rewrite getz_upd by lia. destruct (Z.eqb_spec j (data_off bits + i)) as [->|N].
    + rewrite lxor255 by auto. rewrite Rg. bcases; lia.
    + rewrite Rg. bcases; auto; lia.
  - exists (mem s'). rewrite (bind_ok _ _ _ _ _ E). destruct s' as [b' o']. cbn [mem out] in *. subst o'.
    split; auto. replace (data_off bits + (zlen b - data_off bits)) with (zlen b) in R by lia. exact R.
Qed.

Lemma inverted_wf b b' w h bits : wf b w h bits -> inverted b b' bits (zlen b) ->
  wf b' w h bits /\ same_header b b' bits.
Proof.
  intros W (Rb & Rl & Rg). assert (same_header b b' bits).
  { split; auto. intros i Hi. rewrite Rg. bcases; auto; lia. }
  split; auto. eapply wf_frame; eauto.
Qed.
Lemma inv_bits_1 : forall v j, byte v -> 0 <= j < 8 -> ((255 - v) / 2 ^ (7 - j)) mod 2 = 1 - (v / 2 ^ (7 - j)) mod 2.
Proof.
  intros v j Hv Hj. pose proof (forall_below2 (fun v j => ((255 - v) / 2 ^ (7 - j)) mod 2 =? 1 - (v / 2 ^ (7 - j)) mod 2)
    256 8 ltac:(vm_compute; reflexivity) v j Hv Hj) as H. now apply Z.eqb_eq.
Qed.
(** complementing the bytes of a row complements its pixels *)
Lemma rowpix_invert bits G x : valid_depth bits -> (forall k, byte (G k)) ->
  rowpix bits (fun k => 255 - G k) x = 2 ^ bits - 1 - rowpix bits G x.
Proof.
  intros Hd Hb. unfold rowpix. destruct Hd as [-> | [-> | [-> | ->]]]; cbn [Z.eqb Pos.eqb].
  - rewrite Z.mul_1_r. change (2 ^ 1) with 2. change (8 - 1 - x mod 8) with (7 - x mod 8).
    rewrite inv_bits_1; [lia|auto|lia].
  - pose proof (Hb (x * 4 / 8)) as B. unfold byte in B. change (2 ^ 4) with 16.
    assert ((x * 4) mod 8 = 0 \/ (x * 4) mod 8 = 4) as [-> | ->] by lia.
    + change (2 ^ (8 - 4 - 0)) with 16. lia.
    + change (2 ^ (8 - 4 - 4)) with 1. lia.
  - pose proof (Hb (x * 8 / 8)) as B. unfold byte in B. change (2 ^ 8) with 256.
    replace ((x * 8) mod 8) with 0 by lia. change (2 ^ (8 - 8 - 0)) with 1. lia.
  - change (2 ^ 24) with 16777216. lia.
Qed.
Lemma invertimagebits_run b w h bits o : wf b w h bits ->
  exists b', invertimagebits (mkst b o) = (Ok tt, mkst b' o) /\
    repainted b b' w h bits (fun x y => 2 ^ bits - 1 - pixel b w h bits x y).
Proof.
  intros W. destruct (invertimagebits_bytes b w h bits o W) as (b' & E & R).
  exists b'. split; auto. destruct (inverted_wf b b' w h bits W R) as (W' & S').
  split; auto. split; auto. intros x y (Hx & Hy). rewrite !pixel_raster.
  rewrite <- rowpix_invert by (try apply W; intros; eapply wf_byte; eauto).
  apply (rowpix_ext bits w); auto; [apply W|]. intros k Hk _.
  unfold raster. destruct R as (_ & _ & Rg). rewrite Rg.
  destruct (rowaddr_bounds _ _ _ _ y W Hy). bcases; auto; lia.
Qed.
Lemma invertimagebits_twice b w h bits o b' : wf b w h bits ->
  invertimagebits (mkst b o) = (Ok tt, mkst b' o) ->
  invertimagebits (mkst b' o) = (Ok tt, mkst b o).
Proof.
  intros W E. destruct (invertimagebits_bytes b w h bits o W) as (b1 & E1 & R1).
  rewrite E in E1. inversion E1; subst b1; clear E1.
  destruct (inverted_wf b b' w h bits W R1) as (W' & S').
  destruct (invertimagebits_bytes b' w h bits o W') as (b2 & E2 & R2). rewrite E2. do 3 f_equal.
  destruct R1 as (_ & L1 & G1), R2 as (_ & L2 & G2). apply list_ext; [lia|].
  intros i Hi. rewrite G2, G1, L1. bcases; lia.
Qed.

(** ** erasing lines *)
Definition erased_rows (b : list Z) (w h bits y1 y2 k n m ph pat lim k' y' : Z) : Z :=
  if incols k n k' && (((y1 <=? y') && (y' <? lim)) && ((y' - y1 + 1) mod m =? ph)) then pat mod 256
  else raster b w h bits k' y'.

Lemma erase_loop b w h bits o y1 y2 k n m ph pat : wf b w h bits ->
  0 <= y1 <= y2 -> y2 < h -> 0 <= k -> 0 <= n -> k + n <= stride w bits -> 0 < stride w bits -> m <> 0 ->
  exists p b',
    whileM (Z.to_nat (rowaddr w h bits y1 + k - (rowaddr w h bits y2 + k)))
      (fun p => let '(s2, _) := p in s2 >? rowaddr w h bits y2 + k)
      (fun p => let '(s2, i) := p in
        (if m =? 0 then raise ZeroDivisionError
         else if i mod m =? ph then slice_set s2 (s2 + n) (repz (pat mod 256) n) else ret tt) ;;;
       ret (s2 - stride w bits, i + 1))
    (rowaddr w h bits y1 + k, 1) (mkst b o) = (Ok p, mkst b' o) /\
    rastered b b' w h bits (erased_rows b w h bits y1 y2 k n m ph pat y2).
Proof.
  intros W Hy Hh Hk Hn Hr Hs Hm.
  assert (Lz : zlen (repz (pat mod 256) n) = n) by (rewrite zlen_repz; lia).
  assert (Bz : bytes (repz (pat mod 256) n)).
  { unfold repz. apply Forall_forall. intros v Hv. apply repeat_spec in Hv. subst v. unfold byte. lia. }
  destruct (whileM_inv (fun i p s =>
      p = (rowaddr w h bits (y1 + i) + k, i + 1) /\ out s = o /\
      rastered b (mem s) w h bits (erased_rows b w h bits y1 y2 k n m ph pat (y1 + i)))
    (fun p => let '(s2, _) := p in s2 >? rowaddr w h bits y2 + k)
      (fun p => let '(s2, i) := p in
        (if m =? 0 then raise ZeroDivisionError
         else if i mod m =? ph then slice_set s2 (s2 + n) (repz (pat mod 256) n) else ret tt) ;;;
       ret (s2 - stride w bits, i + 1))
    (y2 - y1)
    (Z.to_nat (rowaddr w h bits y1 + k - (rowaddr w h bits y2 + k)))
    (rowaddr w h bits y1 + k, 1) (mkst b o)) as (p & s' & E & Ep & Eo & R).
  - lia.
  - unfold rowaddr. nia.
  - split; [now rewrite Z.add_0_r|]. split; auto. eapply rastered_ext; [|apply rastered_refl; auto].
    intros k' y' _ _. unfold erased_rows.
    replace ((y1 <=? y') && (y' <? y1 + 0)) with false by (bcases; auto; lia). now rewrite andb_false_r.
  - intros i p s Hi (Ep & Eo & R). subst p. split.
    { rewrite Z.gtb_ltb. apply Z.ltb_lt. unfold rowaddr. nia. }
    destruct s as [bi oi]. cbn [mem out] in *. subst oi.
    destruct (Z.eqb_spec m 0); [lia|].
    exists (rowaddr w h bits (y1 + (i + 1)) + k, i + 1 + 1).
    destruct (Z.eqb_spec ((i + 1) mod m) ph) as [Em|Nm].
    + pose proof (row_set bi w h bits (y1 + i) k n _ (rastered_wf _ _ _ _ _ _ R) ltac:(lia) Hk Hn Hr Lz Bz) as R'.
      eexists. split.
      { rewrite (bind_ok _ _ _ _ _ (run_slice_set _ _ _ _ _)). unfold ret. do 3 f_equal. unfold rowaddr; ring. }
      cbn [mem out]. split; auto. split; auto.
      eapply rastered_ext; [|exact (rastered_trans _ _ _ _ _ _ _ _ R R')].
      intros k' y' Hk' Hy'. cbn beta. rewrite (proj2 (proj2 R)) by auto. unfold in_rowpart, erased_rows, incols.
      destruct (Z.eqb_spec y' (y1 + i)) as [->|N].
      * cbn [andb]. replace (y1 + i - y1 + 1) with (i + 1) by lia. rewrite Em, Z.eqb_refl.
        destruct (Z.leb_spec k k'); cbn [andb]; auto.
        destruct (Z.ltb_spec k' (k + n)); cbn [andb]; auto.
        replace ((y1 <=? y1 + i) && (y1 + i <? y1 + (i + 1))) with true by (bcases; auto; lia). cbn [andb].
        apply getz_repz. lia.
      * cbn [andb].
        replace (y' <? y1 + (i + 1)) with (y' <? y1 + i) by (bcases; auto; lia). reflexivity.
    + eexists. split.
      { unfold bind, ret. do 3 f_equal. unfold rowaddr; ring. }
      cbn [mem out]. split; auto. split; auto.
      eapply rastered_ext; [|exact R]. intros k' y' Hk' Hy'. unfold erased_rows.
      destruct (Z.eqb_spec y' (y1 + i)) as [->|N].
      * replace (y1 + i - y1 + 1) with (i + 1) by lia.
        destruct (Z.eqb_spec ((i + 1) mod m) ph); [lia|]. now rewrite !andb_false_r.
      * replace (y' <? y1 + (i + 1)) with (y' <? y1 + i) by (bcases; auto; lia). reflexivity.
  - intros p s (Ep & _ & _). subst p. rewrite Z.gtb_ltb. apply Z.ltb_ge. replace (y1 + (y2 - y1)) with y2 by lia. lia.
  - destruct s' as [b' o']. cbn [mem out] in *. subst o'.
    exists p, b'. split; auto. replace (y1 + (y2 - y1)) with y2 in R by lia. exact R.
Qed.

(** pixel value of a byte pattern: every byte of the row is [v] *)
Definition patpix (bits v x : Z) : Z := rowpix bits (fun _ => v) x.

Lemma erase_run b w h bits o n k pat : wf b w h bits -> n <> 0 ->
  exists b', erasealternatehorizontallines n k pat (mkst b o) = (Ok tt, mkst b' o) /\
    repainted b b' w h bits (fun x y =>
      if (y <? h - 1) && ((y + 1) mod n =? k) then patpix bits (pat mod 256) x
      else pixel b w h bits x y).
Proof.
  intros W Hn. unfold erasealternatehorizontallines.
  rewrite (bind_ok _ _ _ _ _ (run_rd _ _ _ _ (wf_rxchr _ _ _ _ W))).
  rewrite (bind_ok _ _ _ _ _ (run_rd _ _ _ _ (wf_rhdsz _ _ _ _ W))).
  rewrite (bind_ok _ _ _ _ _ (run_rd _ _ _ _ (wf_rflsz _ _ _ _ W))). cbv zeta.
  pose proof (wf_wrange _ _ _ _ W). pose proof (wf_hrange _ _ _ _ W).
  pose proof (stride_nonneg w bits ltac:(lia) (wf_depth _ _ _ _ W)).
  assert (Hl : lift (py_array (repz (Z.land pat 255) (stride w bits))) (mkst b o)
     = (Ok (repz (pat mod 256) (stride w bits)), mkst b o)).
  { apply run_lift. rewrite land255. apply py_array_ok.
    unfold repz. apply Forall_forall. intros v Hv. apply repeat_spec in Hv. subst v. unfold byte. lia. }
  rewrite (bind_ok _ _ _ _ _ Hl).
  destruct (Z.eq_dec h 0) as [E0|N0]; [|destruct (Z.eq_dec (stride w bits) 0) as [E1|N1]].
  - rewrite (wf_len _ _ _ _ W). exists b.
    replace (Z.to_nat (data_off bits + h * stride w bits - stride w bits - data_off bits)) with O
      by (subst h; lia).
    split.
    + unfold bind. cbn [whileM]. rewrite Z.gtb_ltb.
      destruct (Z.ltb_spec (data_off bits) (data_off bits + h * stride w bits - stride w bits));
        [subst h; lia|]. reflexivity.
    + split; auto. split; [apply same_header_refl|]. intros x y (_ & ?); lia.
  - rewrite (wf_len _ _ _ _ W), E1. exists b.
    replace (Z.to_nat (data_off bits + h * 0 - 0 - data_off bits)) with O by lia. split.
    + unfold bind. cbn [whileM]. rewrite Z.gtb_ltb. destruct (Z.ltb_spec (data_off bits) (data_off bits + h * 0 - 0)); [lia|]. reflexivity.
    + split; auto. split; [apply same_header_refl|]. intros x y (Hx & Hy).
      pose proof (stride_pos w bits (wf_depth _ _ _ _ W) ltac:(lia)); lia.
  - destruct (erase_loop b w h bits o 0 (h - 1) 0 (stride w bits) n k pat W) as (p & b' & E & R); try lia.
    replace (rowaddr w h bits (h - 1) + 0) with (data_off bits) in E by (unfold rowaddr; ring).
    replace (rowaddr w h bits 0 + 0) with (zlen b - stride w bits) in E
      by (rewrite (wf_len _ _ _ _ W); unfold rowaddr; ring).
    exists b'. split; [rewrite (bind_ok _ _ _ _ _ E); reflexivity|].
    eapply rastered_repainted; [exact R|]. intros x y (Hx & Hy). cbn beta.
    unfold erased_rows. rewrite Z.sub_0_r. rewrite pixel_raster. unfold patpix.
    replace (0 <=? y) with true by (symmetry; apply Z.leb_le; lia). cbn [andb].
    set (c := (y <? h - 1) && ((y + 1) mod n =? k)).
    transitivity (rowpix bits (fun k' => if c then pat mod 256 else raster b w h bits k' y) x).
    + apply (rowpix_ext bits w); auto; [apply W|]. intros k' Hk' _. unfold incols.
      replace ((0 <=? k') && (k' <? 0 + stride w bits)) with true by (bcases; auto; lia). reflexivity.
    + destruct c; reflexivity.
Qed.
Lemma erase_zero b w h bits o k pat : wf b w h bits -> 1 < h -> 0 < w ->
  erasealternatehorizontallines 0 k pat (mkst b o) = (Err ZeroDivisionError, mkst b o).
Proof.
  intros W Hh Hw. unfold erasealternatehorizontallines.
  rewrite (bind_ok _ _ _ _ _ (run_rd _ _ _ _ (wf_rxchr _ _ _ _ W))).
  rewrite (bind_ok _ _ _ _ _ (run_rd _ _ _ _ (wf_rhdsz _ _ _ _ W))).
  rewrite (bind_ok _ _ _ _ _ (run_rd _ _ _ _ (wf_rflsz _ _ _ _ W))). cbv zeta.
  assert (Hl : lift (py_array (repz (Z.land pat 255) (stride w bits))) (mkst b o)
     = (Ok (repz (pat mod 256) (stride w bits)), mkst b o)).
  { apply run_lift. rewrite land255. apply py_array_ok.
    unfold repz. apply Forall_forall. intros v Hv. apply repeat_spec in Hv. subst v. unfold byte. lia. }
  rewrite (bind_ok _ _ _ _ _ Hl). rewrite (wf_len _ _ _ _ W).
  pose proof (stride_pos w bits (wf_depth _ _ _ _ W) Hw).
  destruct (Z.to_nat (data_off bits + h * stride w bits - stride w bits - data_off bits)) eqn:E; [nia|].
  unfold bind. cbn [whileM]. rewrite Z.gtb_ltb.
  destruct (Z.ltb_spec (data_off bits) (data_off bits + h * stride w bits - stride w bits)); [|nia].
  reflexivity.
Qed.

Lemma eraseregion_run b w h bits o x1 y1 x2 y2 n k pat : wf b w h bits -> n <> 0 ->
  inside w h x1 y1 -> inside w h x2 y2 -> byte_aligned bits (lo x1 x2) (hi x1 x2) ->
  exists b', erasealternatehorizontallinesinregion x1 y1 x2 y2 n k pat (mkst b o) = (Ok (Some tt), mkst b' o) /\
    repainted b b' w h bits (fun x y =>
      if in_rect x1 y1 x2 y2 x y && ((y <? hi y1 y2) && ((y - lo y1 y2 + 1) mod n =? k))
      then patpix bits (pat mod 256) x
      else pixel b w h bits x y).
Proof.
  intros W Hn I1 I2 HA. unfold erasealternatehorizontallinesinregion. rewrite (guard_true _ _ _ _ _ _ _ _ _ _ W I1 I2).
  cbv zeta. rewrite sortrec. unfold withSome. unfold inside in *.
  set (xa := lo x1 x2) in *. set (xb := hi x1 x2) in *. set (ya := lo y1 y2) in *. set (yb := hi y1 y2) in *.
  assert (Hxy : 0 <= xa <= xb /\ xb < w /\ 0 <= ya <= yb /\ yb < h) by (unfold xa, xb, ya, yb, lo, hi; lia).
  pose proof (wf_depth _ _ _ _ W) as Hd.
  rewrite !bind_assoc.
  rewrite (bind_ok _ _ _ _ _ (run_rd _ _ _ _ (adjustx_run _ _ _ _ xa xb W))).
  rewrite bind_assoc. rewrite (bind_ok _ _ _ _ _ (run_rd _ _ _ _ (wf_rxchr _ _ _ _ W))).
  rewrite bind_assoc. rewrite (bind_ok _ _ _ _ _ (run_rd _ _ _ _ (wf_offsethd _ _ _ _ W xa yb))).
  rewrite bind_assoc. rewrite (bind_ok _ _ _ _ _ (run_rd _ _ _ _ (wf_offsethd _ _ _ _ W xa ya))).
  rewrite adjust_aligned by auto. rewrite !baddr_rowaddr.
  destruct (aligned_fit w bits xa xb Hd) as (F1 & F2 & F3); try lia.
  set (k0 := xa * bits / 8) in *. set (n0 := (xb + 1) * bits / 8 - k0) in *.
  assert (Hl : lift (py_array (repz (Z.land pat 255) n0)) (mkst b o) = (Ok (repz (pat mod 256) n0), mkst b o)).
  { apply run_lift. rewrite land255. apply py_array_ok.
    unfold repz. apply Forall_forall. intros v Hv. apply repeat_spec in Hv. subst v. unfold byte. lia. }
  rewrite bind_assoc. rewrite (bind_ok _ _ _ _ _ Hl).
  destruct (erase_loop b w h bits o ya yb k0 n0 n k pat W) as (p & b' & E & R); try lia; auto.
  { pose proof (stride_pos w bits Hd ltac:(lia)). lia. }
  exists b'. split.
  - rewrite bind_assoc. rewrite (bind_ok _ _ _ _ _ E). reflexivity.
  - eapply rastered_repainted; [exact R|]. intros x y (Hx & Hy). cbn beta.
    unfold in_rect, erased_rows. fold xa xb ya yb. rewrite pixel_raster. unfold patpix.
    set (c := (xa <=? x) && (x <=? xb) && ((ya <=? y) && (y <=? yb)) && ((y <? yb) && ((y - ya + 1) mod n =? k))).
    transitivity (rowpix bits (fun k' => if c then pat mod 256 else raster b w h bits k' y) x).
    + apply (rowpix_ext bits w); auto. intros k' Hk Hkx. unfold k0, n0, k0.
      rewrite (aligned_cols bits xa xb x k') by auto. unfold c.
      destruct (Z.leb_spec xa x), (Z.leb_spec x xb); cbn [andb]; auto.
      destruct (Z.leb_spec ya y); cbn [andb]; auto.
      destruct (Z.leb_spec y yb), (Z.ltb_spec y yb); cbn [andb]; auto; lia.
    + destruct c; reflexivity.
Qed.

(** a rectangle that is not wholly inside is rejected by every guarded operation *)
Lemma verttransregion_out b w h bits o t x1 y1 x2 y2 : wf b w h bits ->
  ~ (inside w h x1 y1 /\ inside w h x2 y2) ->
  verttransregion x1 y1 x2 y2 t (mkst b o) = (Ok None, mkst b (o ++ [Mregionoutofbounds])).
Proof. intros. now apply (guard_false b w h bits). Qed.
