(** The pixel data as a grid of bytes: byte k of row y.  Lemmas for reading and
    writing parts of rows and of columns (proofs only). *)
From Coq Require Import ZArith List Bool Lia.
From Verif Require Import PyBase PyFacts Spec Bmp BmpFacts PixelProofs.
Import ListNotations.
Open Scope Z_scope.
Ltac Zify.zify_post_hook ::= Z.to_euclidean_division_equations.

Definition rowaddr (w h bits y : Z) : Z := data_off bits + (h - 1 - y) * stride w bits.
Definition raster (b : list Z) (w h bits k y : Z) : Z := getz b (rowaddr w h bits y + k).

(** pixel x of a row of bytes *)
Definition rowpix (bits : Z) (G : Z -> Z) (x : Z) : Z :=
  if bits =? 24 then G (3 * x) + 256 * G (3 * x + 1) + 65536 * G (3 * x + 2)
  else (G (x * bits / 8) / 2 ^ (8 - bits - (x * bits) mod 8)) mod 2 ^ bits.

Lemma pixel_raster b w h bits x y :
  pixel b w h bits x y = rowpix bits (fun k => raster b w h bits k y) x.
Proof. unfold pixel, rowpix, raster, rowaddr. rewrite !Z.add_assoc. reflexivity. Qed.
Lemma rowpix_ext bits w (G G' : Z -> Z) x : valid_depth bits -> 0 <= x < w ->
  (forall k, 0 <= k < stride w bits -> x * bits / 8 <= k < x * bits / 8 + pbytes bits -> G k = G' k) ->
  rowpix bits G x = rowpix bits G' x.
Proof.
  intros Hd Hx H. destruct (row_fit w bits x Hd Hx) as [R1 R2]. unfold rowpix, pbytes in *.
  destruct (Z.eqb_spec bits 24).
  - subst. replace (x * 24 / 8) with (3 * x) in * by lia. rewrite !H by lia. reflexivity.
  - rewrite H by lia. reflexivity.
Qed.

(** same header, bytes of the pixel data given by G *)
Definition rastered (b b' : list Z) (w h bits : Z) (G : Z -> Z -> Z) : Prop :=
  wf b' w h bits /\ same_header b b' bits /\
  forall k y, 0 <= k < stride w bits -> 0 <= y < h -> raster b' w h bits k y = G k y.

Lemma rastered_refl b w h bits : wf b w h bits -> rastered b b w h bits (raster b w h bits).
Proof. intros W. split; auto. split; auto using same_header_refl. Qed.
Lemma rastered_trans a b c w h bits f g :
  rastered a b w h bits f -> rastered b c w h bits g -> rastered a c w h bits g.
Proof.
  intros (W1 & H1 & P1) (W2 & H2 & P2). split; auto. split; auto.
  now apply (same_header_trans a b c).
Qed.
Lemma rastered_ext a b w h bits f g :
  (forall k y, 0 <= k < stride w bits -> 0 <= y < h -> f k y = g k y) ->
  rastered a b w h bits f -> rastered a b w h bits g.
Proof. intros E (W & H & P). split; auto. split; auto. intros; rewrite P; auto. Qed.
Lemma rastered_wf a b w h bits f : rastered a b w h bits f -> wf b w h bits.
Proof. now intros (W & _). Qed.
Lemma rastered_repainted a b w h bits G f : rastered a b w h bits G ->
  (forall x y, inside w h x y -> rowpix bits (fun k => G k y) x = f x y) ->
  repainted a b w h bits f.
Proof.
  intros (W & H & P) E. split; auto. split; auto. intros x y Hin.
  rewrite pixel_raster, <- E by auto. destruct Hin.
  apply (rowpix_ext bits w); [apply W|auto|]. intros; apply P; auto.
Qed.

Lemma stride_ge4 w bits : 0 < stride w bits -> 4 <= stride w bits.
Proof. unfold stride. lia. Qed.
Lemma stride_pos w bits : valid_depth bits -> 0 < w -> 4 <= stride w bits.
Proof. unfold stride. intros [-> | [-> | [-> | ->]]]; lia. Qed.

Lemma rowaddr_bounds b w h bits y : wf b w h bits -> 0 <= y < h ->
  data_off bits <= rowaddr w h bits y /\ rowaddr w h bits y + stride w bits <= zlen b.
Proof.
  intros W Hy. rewrite (wf_len _ _ _ _ W). unfold rowaddr.
  pose proof (wf_wrange _ _ _ _ W).
  pose proof (stride_nonneg w bits ltac:(lia) (wf_depth _ _ _ _ W)). nia.
Qed.
Lemma rowaddr_sep w h bits y y' : 0 <= stride w bits -> y <> y' ->
  rowaddr w h bits y + stride w bits <= rowaddr w h bits y' \/
  rowaddr w h bits y' + stride w bits <= rowaddr w h bits y.
Proof. intros. unfold rowaddr. nia. Qed.
Lemma rowaddr_step w h bits y j : rowaddr w h bits (y - j) = rowaddr w h bits y + j * stride w bits.
Proof. unfold rowaddr. ring. Qed.
Lemma baddr_rowaddr w h bits x y : baddr w h bits x y = rowaddr w h bits y + x * bits / 8.
Proof. reflexivity. Qed.

(** every position of the array is in the header or in a row *)
Lemma row_decomp b w h bits i : wf b w h bits -> data_off bits <= i < zlen b ->
  exists k y, 0 <= k < stride w bits /\ 0 <= y < h /\ i = rowaddr w h bits y + k.
Proof.
  intros W Hi. rewrite (wf_len _ _ _ _ W) in Hi.
  pose proof (wf_wrange _ _ _ _ W). pose proof (wf_hrange _ _ _ _ W).
  pose proof (stride_nonneg w bits ltac:(lia) (wf_depth _ _ _ _ W)).
  unfold rowaddr. set (r := stride w bits) in *. set (d := data_off bits) in *.
  assert (0 < r) by nia.
  pose proof (Z.div_mod (i - d) r ltac:(lia)) as E. pose proof (Z.mod_pos_bound (i - d) r ltac:(lia)).
  set (q := (i - d) / r) in *. set (m := (i - d) mod r) in *. clearbody q m r d.
  exists m, (h - 1 - q). split; [lia|]. split; [nia|]. nia.
Qed.
Lemma rastered_unique a b c w h bits G :
  rastered a b w h bits G -> rastered a c w h bits G -> b = c.
Proof.
  intros (W1 & (L1 & H1) & P1) (W2 & (L2 & H2) & P2). apply list_ext; [lia|].
  intros i Hi. destruct (Z.ltb_spec i (data_off bits)).
  - rewrite H1, H2 by lia. reflexivity.
  - destruct (row_decomp b w h bits i W1 ltac:(lia)) as (k & y & Hk & Hy & ->).
    specialize (P1 k y Hk Hy). specialize (P2 k y Hk Hy). unfold raster in *. congruence.
Qed.

(** ** parts of rows *)
Lemma row_get b w h bits y k n : wf b w h bits -> 0 <= y < h -> 0 <= k -> 0 <= n -> k + n <= stride w bits ->
  let v := py_slice b (rowaddr w h bits y + k) (rowaddr w h bits y + k + n) in
  zlen v = n /\ bytes v /\ (forall i, 0 <= i < n -> getz v i = raster b w h bits (k + i) y).
Proof.
  intros W Hy Hk Hn Hr v. destruct (rowaddr_bounds _ _ _ _ y W Hy) as [B1 B2].
  pose proof (data_off_ge bits (wf_depth _ _ _ _ W)).
  split; [|split].
  - unfold v. rewrite zlen_slice by lia. lia.
  - apply bytes_slice. apply W.
  - intros i Hi. unfold v, raster. rewrite getz_slice by lia. f_equal. lia.
Qed.
Definition in_rowpart (y k n k' y' : Z) : bool := (y' =? y) && ((k <=? k') && (k' <? k + n)).
Lemma row_set b w h bits y k n v : wf b w h bits -> 0 <= y < h -> 0 <= k -> 0 <= n -> k + n <= stride w bits ->
  zlen v = n -> bytes v ->
  rastered b (py_slice_set b (rowaddr w h bits y + k) (rowaddr w h bits y + k + n) v) w h bits
    (fun k' y' => if in_rowpart y k n k' y' then getz v (k' - k) else raster b w h bits k' y').
Proof.
  intros W Hy Hk Hn Hr Hv Hb. destruct (rowaddr_bounds _ _ _ _ y W Hy) as [B1 B2].
  pose proof (data_off_ge bits (wf_depth _ _ _ _ W)).
  destruct (slice_frame b w h bits (rowaddr w h bits y + k) (rowaddr w h bits y + k + n) v W) as [W' S'];
    auto; try lia.
  split; [exact W'|split; [exact S'|]]. intros k' y' Hk' Hy'. unfold raster, in_rowpart.
  rewrite getz_slice_set by lia. destruct (Z.eqb_spec y' y) as [->|N]; cbn [andb].
  - bcases; try lia; auto. f_equal. lia.
  - destruct (rowaddr_sep w h bits y y' ltac:(lia) ltac:(lia)); bcases; auto; lia.
Qed.

(** ** parts of columns: every stride-th byte *)
Lemma clampi_min n i : 0 <= i -> clampi n i = Z.min i n.
Proof. intros. unfold clampi. bcase; lia. Qed.

Section Col.
  Variables (b : list Z) (w h bits y1 y2 k e : Z).
  Hypothesis W : wf b w h bits.
  Hypothesis Hy : 0 <= y1 <= y2 /\ y2 < h.
  Hypothesis Hk : 0 <= k < stride w bits.
  Hypothesis He : rowaddr w h bits y1 + k < e <= rowaddr w h bits y1 + k + stride w bits.
  Let s := rowaddr w h bits y2 + k.
  Let e' := Z.min e (zlen b).
  Let r := stride w bits.

  Lemma col_bounds : 0 <= s <= zlen b /\ 0 <= e' <= zlen b /\ 4 <= r /\
     stepcount s e' r = y2 - y1 + 1 /\ clampi (zlen b) s = s /\ clampi (zlen b) e = e'.
  Proof.
    destruct (rowaddr_bounds _ _ _ _ y1 W ltac:(lia)) as [B1 B2].
    destruct (rowaddr_bounds _ _ _ _ y2 W ltac:(lia)) as [B3 B4].
    pose proof (data_off_ge bits (wf_depth _ _ _ _ W)).
    pose proof (stride_ge4 w bits ltac:(lia)) as H4.
    pose proof (rowaddr_step w h bits y2 (y2 - y1)) as E. replace (y2 - (y2 - y1)) with y1 in E by lia.
    unfold s, e', r in *. repeat split; try lia.
    - apply stepcount_exact; [lia|lia|].
      set (q := stride w bits) in *. set (n := y2 - y1) in *.
      replace (y2 - y1 + 1 - 1) with n by lia. replace ((y2 - y1 + 1) * q) with (n * q + q) by (unfold n; ring).
      clearbody q n. rewrite E in *. lia.
    - rewrite clampi_min by lia. lia.
    - rewrite clampi_min by lia. lia.
  Qed.

  Lemma col_get : let v := py_xslice b s e r in
    zlen v = y2 - y1 + 1 /\ bytes v /\
    (forall i, 0 <= i < y2 - y1 + 1 -> getz v i = raster b w h bits k (y2 - i)).
  Proof.
    destruct col_bounds as (B1 & B2 & B3 & B4 & B5 & B6). intros v. split; [|split].
    - unfold v, py_xslice. rewrite B5, B6, zlen_map, zlen_range_step by lia. exact B4.
    - apply bytes_xslice. apply W.
    - intros i Hi. unfold v, py_xslice. rewrite B5, B6.
      rewrite getz_map by (rewrite zlen_range_step; lia). rewrite getz_range_step by lia.
      unfold raster, s. f_equal. rewrite rowaddr_step. fold r. lia.
  Qed.

  Lemma col_set v : zlen v = y2 - y1 + 1 -> bytes v ->
    exists b', py_xslice_set b s e r v = Ok b' /\
      rastered b b' w h bits
        (fun k' y' => if (k' =? k) && ((y1 <=? y') && (y' <=? y2)) then getz v (y2 - y')
                      else raster b w h bits k' y').
  Proof.
    intros Hv Hb. destruct col_bounds as (B1 & B2 & B3 & B4 & B5 & B6).
    destruct (rowaddr_bounds _ _ _ _ y2 W ltac:(lia)) as [D1 D2].
    unfold py_xslice_set. rewrite B5, B6.
    destruct (Z.eqb_spec r 1); [lia|]. destruct (Z.eqb_spec (zlen v) 0); [lia|].
    rewrite B4, Hv, Z.eqb_refl. eexists; split; [reflexivity|].
    set (b' := mapi_from _ 0 b).
    assert (Lb : zlen b' = zlen b) by apply zlen_mapi.
    assert (Gb : forall i, getz b' i = if in_xslice s e' r i then getz v ((i - s) / r) else getz b i).
    { intros i. unfold b'. destruct (Z.ltb_spec i 0).
      - rewrite !getz_neg by lia. replace (in_xslice s e' r i) with false; auto.
        unfold in_xslice. bcases; auto; lia.
      - destruct (Z.ltb_spec i (zlen b)).
        + rewrite getz_mapi_from by lia. reflexivity.
        + rewrite (getz_big (mapi_from _ _ _)), (getz_big b) by (rewrite ?zlen_mapi; lia).
          destruct (in_xslice s e' r i) eqn:I; auto. unfold in_xslice in I.
          rewrite !andb_true_iff, Z.ltb_lt in I. lia. }
    assert (Bb : bytes b').
    { apply bytes_getz. intros i. rewrite Gb. destruct (in_xslice s e' r i).
      - now apply bytes_getz. - apply bytes_getz. apply W. }
    assert (Sb : same_header b b' bits).
    { split; auto. intros i Hi. rewrite Gb. unfold in_xslice, s.
      destruct (Z.leb_spec (rowaddr w h bits y2 + k) i); [lia|]. reflexivity. }
    split; [eapply wf_frame; eauto|]. split; auto.
    intros k' y' Hk' Hy'. unfold raster at 1. rewrite Gb.
    pose proof (rowaddr_step w h bits y2 (y2 - y')) as E. replace (y2 - (y2 - y')) with y' in E by lia.
    pose proof (rowaddr_step w h bits y2 (y2 - y1)) as E1. replace (y2 - (y2 - y1)) with y1 in E1 by lia.
    fold r in E, E1, Hk', He. destruct (rowaddr_bounds _ _ _ _ y1 W ltac:(lia)) as [D3 D4]. fold r in D4.
    destruct (rowaddr_bounds _ _ _ _ y' W ltac:(lia)) as [D5 D6]. fold r in D6.
    destruct ((k' =? k) && ((y1 <=? y') && (y' <=? y2))) eqn:C.
    - apply andb_true_iff in C. destruct C as [C1 C2]. apply andb_true_iff in C2. destruct C2 as [C2 C3].
      apply Z.eqb_eq in C1. apply Z.leb_le in C2, C3. subst k'.
      replace (in_xslice s e' r (rowaddr w h bits y' + k)) with true.
      + f_equal. unfold s. replace (rowaddr w h bits y' + k - (rowaddr w h bits y2 + k)) with ((y2 - y') * r) by lia.
        apply Z.div_mul. lia.
      + symmetry. apply in_xslice_spec; [lia|]. exists (y2 - y'). rewrite B4. split; [lia|]. unfold s. lia.
    - unfold raster. destruct (in_xslice s e' r (rowaddr w h bits y' + k')) eqn:I; auto. exfalso.
      apply in_xslice_spec in I; [|lia]. destruct I as (j & Hj & EI). rewrite B4 in Hj.
      unfold s in EI. rewrite E in EI.
      assert (k' = k /\ y2 - y' = j).
      { set (dy := y2 - y') in *. pose proof Hk as Hk0. fold r in Hk0. clearbody dy r. clear - EI Hk0 Hk' B3.
        assert ((dy - j) * r = k - k') by lia.
        assert (dy - j = 0) by nia. nia. }
      destruct H as [-> H]. rewrite Z.eqb_refl in C. cbn [andb] in C.
      apply andb_false_iff in C. destruct C as [C|C]; apply Z.leb_gt in C; lia.
  Qed.
End Col.

Lemma wf_geti_bits b w h bits : wf b w h bits -> forall o,
  geti bmpcolorbits (mkst b o) = (Ok bits, mkst b o).
Proof. intros W o. unfold geti, rd. cbn [mem]. now rewrite (wf_rbits _ _ _ _ W). Qed.
