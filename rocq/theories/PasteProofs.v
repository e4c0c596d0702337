(** Copy and paste, transposing (proofs). *)
From Coq Require Import ZArith List Bool Lia.
From Verif Require Import PyBase PyFacts Spec Bmp BmpFacts PixelProofs PlotList HeaderProofs PalProofs Buffers Region Raster VertProofs HorizProofs IterProofs RectProofs UpProofs ResizeProofs.
Import ListNotations.
Open Scope Z_scope.
Open Scope py_scope.
Ltac Zify.zify_post_hook ::= Z.to_euclidean_division_equations.

Lemma listin_true pts b w h bits : wf b w h bits -> listinBMPrecbnd pts b = Ok true.
Proof.
  intros W. induction pts as [|[x y] t IH]; cbn [listinBMPrecbnd]; auto.
  rewrite (wf_inbnd _ _ _ _ W). cbn [rbind].
  destruct ((x <? w) && (y <? h) && ((x >? -1) && (y >? -1))); auto.
Qed.
Lemma rowpix_shift bits G x e : valid_depth bits -> (e * bits) mod 8 = 0 ->
  rowpix bits G (x + e) = rowpix bits (fun k => G (k + e * bits / 8)) x.
Proof.
  intros Hd He. unfold rowpix. destruct Hd as [-> | [-> | [-> | ->]]]; cbn [Z.eqb Pos.eqb].
  - replace ((x + e) * 1 / 8) with (x * 1 / 8 + e * 1 / 8) by lia.
    replace (((x + e) * 1) mod 8) with ((x * 1) mod 8) by lia. reflexivity.
  - replace ((x + e) * 4 / 8) with (x * 4 / 8 + e * 4 / 8) by lia.
    replace (((x + e) * 4) mod 8) with ((x * 4) mod 8) by lia. reflexivity.
  - replace ((x + e) * 8 / 8) with (x * 8 / 8 + e * 8 / 8) by lia.
    replace (((x + e) * 8) mod 8) with ((x * 8) mod 8) by lia. reflexivity.
  - replace (e * 24 / 8) with (3 * e) by lia.
    replace (3 * (x + e)) with (3 * x + 3 * e) by ring. replace (3 * x + 3 * e + 1) with (3 * x + 1 + 3 * e) by ring.
    replace (3 * x + 3 * e + 2) with (3 * x + 2 + 3 * e) by ring. reflexivity.
Qed.

(** ** what a copied rectangle looks like *)
Definition copied (b : list Z) (w h bits x1 y1 x2 y2 : Z) (buf : list Z) : Prop :=
  let xa := lo x1 x2 in let xb := hi x1 x2 in let ya := lo y1 y2 in let yb := hi y1 y2 in
  let k := xa * bits / 8 in let n := (xb + 1) * bits / 8 - k in
  bytes buf /\ zlen buf = 7 + (yb - ya + 1) * n /\ getz buf 0 = bits /\
  py_slice buf 1 3 = int2buf 2 (xb - xa + 2) /\ py_slice buf 3 5 = int2buf 2 (yb - ya + 1) /\
  py_slice buf 5 7 = int2buf 2 n /\
  forall i t, 0 <= i < yb - ya + 1 -> 0 <= t < n -> getz buf (7 + i * n + t) = raster b w h bits (k + t) (yb - i).

Lemma int2buf_bytes n v : 0 <= n -> bytes (int2buf n v).
Proof.
  intros Hn. apply bytes_getz. intros i. destruct (Z.ltb_spec i 0); [rewrite getz_neg by lia; red; lia|].
  destruct (Z.ltb_spec i n).
  - rewrite int2buf_get by lia. unfold byte. remember (v / 256 ^ i) as u. clear. lia.
  - rewrite getz_big by (rewrite int2buf_len; lia). red; lia.
Qed.
Lemma slice_app_hdr (a b c d e : list Z) bits : a = [bits] -> zlen b = 2 -> zlen c = 2 -> zlen d = 2 ->
  py_slice (a ++ b ++ c ++ d ++ e) 1 3 = b /\ py_slice (a ++ b ++ c ++ d ++ e) 3 5 = c /\
  py_slice (a ++ b ++ c ++ d ++ e) 5 7 = d.
Proof.
  intros -> Lb Lc Ld.
  destruct b as [|b1 [|b2 [|b3 b]]]; try (rewrite ?zlen_cons, ?zlen_nil in Lb; pose proof (zlen_nonneg b); lia); try discriminate Lb.
  destruct c as [|c1 [|c2 [|c3 c]]]; try discriminate Lc.
  2:{ exfalso. rewrite !zlen_cons in Lc. pose proof (zlen_nonneg c). lia. }
  destruct d as [|d1 [|d2 [|d3 d]]]; try discriminate Ld.
  2:{ exfalso. rewrite !zlen_cons in Ld. pose proof (zlen_nonneg d). lia. }
  cbn [app].
  assert (L : zlen (bits :: b1 :: b2 :: c1 :: c2 :: d1 :: d2 :: e) >= 7)
    by (rewrite !zlen_cons; pose proof (zlen_nonneg e); lia).
  rewrite !py_slice_in by lia. repeat split.
Qed.

Lemma copyrect_run b w h bits o x1 y1 x2 y2 : wf b w h bits -> inside w h x1 y1 -> inside w h x2 y2 ->
  byte_aligned bits (lo x1 x2) (hi x1 x2) ->
  exists buf, copyrect x1 y1 x2 y2 (mkst b o) = (Ok (Some buf), mkst b o) /\ copied b w h bits x1 y1 x2 y2 buf.
Proof.
  intros W I1 I2 HA. unfold copyrect. rewrite (guard_true _ _ _ _ _ _ _ _ _ _ W I1 I2). rewrite sortrec.
  unfold withSome. rewrite bind_assoc, (bind_ok _ _ _ _ _ (wf_geti_bits _ _ _ _ W _)).
  rewrite bind_assoc, (bind_ok _ _ _ _ _ (run_rd _ _ _ _ (adjustx_run _ _ _ _ _ _ W))).
  assert (Hxy : 0 <= lo x1 x2 <= hi x1 x2 /\ hi x1 x2 < w /\ 0 <= lo y1 y2 <= hi y1 y2 /\ hi y1 y2 < h)
    by (unfold inside, lo, hi in *; lia).
  rewrite adjust_aligned by (auto; apply W). unfold copied.
  destruct (aligned_fit w bits (lo x1 x2) (hi x1 x2) (wf_depth _ _ _ _ W)) as (F1 & F2 & F3); try lia.
  remember (lo x1 x2) as xa. remember (hi x1 x2) as xb. remember (lo y1 y2) as ya. remember (hi y1 y2) as yb.
  remember (xa * bits / 8) as k eqn:Ek. remember ((xb + 1) * bits / 8 - k) as n eqn:En.
  set (hdr := [bits] ++ int2buf 2 (xb - xa + 2) ++ int2buf 2 (yb - ya + 1) ++ int2buf 2 n).
  assert (Lh : zlen hdr = 7) by (unfold hdr; rewrite !zlen_app, !int2buf_len by lia; reflexivity).
  assert (Bh : bytes hdr).
  { unfold hdr. repeat (apply bytes_app; split); auto using int2buf_bytes with zarith.
    constructor; [|constructor]. destruct (wf_depth _ _ _ _ W) as [-> | [-> | [-> | ->]]]; red; lia. }
  destruct (itercopyrect_inv own mem w h bits xa ya xb yb
     (fun i acc s => s = mkst b o /\ exists tl, acc = hdr ++ tl /\ bytes tl /\ zlen tl = i * n /\
        forall j t, 0 <= j < i -> 0 <= t < n -> getz tl (j * n + t) = raster b w h bits (k + t) (yb - j))
     hdr (fun retval buf => ret (retval ++ buf)) (mkst b o)) as (acc & s' & E & -> & tl & -> & B & L & G).
  - apply own_reads.
  - intros i a s (-> & _). exact W.
  - split; lia.
  - split; lia.
  - replace (lo xa xb) with xa by (unfold lo; lia). replace (hi xa xb) with xb by (unfold hi; lia). exact HA.
  - split; auto. exists []. rewrite app_nil_r. split; auto. split; [constructor|]. split; [reflexivity|]. intros; lia.
  - intros i acc s buf Hi (-> & tl & -> & B & L & G) L1 L2 L3.
    replace (lo xa xb) with xa in * by (unfold lo; lia). replace (hi xa xb) with xb in * by (unfold hi; lia).
    replace (lo ya yb) with ya in * by (unfold lo; lia). replace (hi ya yb) with yb in * by (unfold hi; lia).
    rewrite <- Ek in L1, L3. rewrite <- En in L1, L3. cbn [mem] in L3.
    eexists _, _. split; [reflexivity|]. split; auto. exists (tl ++ buf). rewrite app_assoc. split; auto.
    split; [apply bytes_app; auto|]. split; [rewrite zlen_app; lia|].
    intros j t Hj Ht. assert (0 <= j * n + t) by nia. rewrite getz_app by lia. rewrite L.
    destruct (Z.eqb_spec j i) as [->|N].
    + destruct (Z.ltb_spec (i * n + t) (i * n)); [lia|]. replace (i * n + t - i * n) with t by ring. apply L3. lia.
    + destruct (Z.ltb_spec (j * n + t) (i * n)).
      * apply G; lia.
      * exfalso. clear - H0 Hj N Ht. assert (j + 1 <= i) by lia. nia.
  - replace (lo ya yb) with ya in * by (unfold lo; lia). replace (hi ya yb) with yb in * by (unfold hi; lia).
    exists (hdr ++ tl). rewrite (bind_ok _ _ _ _ _ E). split; [reflexivity|].
    split; [apply bytes_app; auto|]. split; [rewrite zlen_app; lia|]. split; [reflexivity|].
    destruct (slice_app_hdr [bits] (int2buf 2 (xb - xa + 2)) (int2buf 2 (yb - ya + 1)) (int2buf 2 n) tl bits) as (S1 & S2 & S3);
      try (apply int2buf_len; lia); auto.
    assert (E7 : hdr ++ tl = [bits] ++ int2buf 2 (xb - xa + 2) ++ int2buf 2 (yb - ya + 1) ++ int2buf 2 n ++ tl)
      by (unfold hdr; rewrite <- !app_assoc; reflexivity).
    rewrite <- E7 in S1, S2, S3. split; [exact S1|]. split; [exact S2|]. split; [exact S3|]. intros i t Hi Ht.
    assert (0 <= i * n) by nia.
    rewrite getz_app by lia. rewrite Lh. destruct (Z.ltb_spec (7 + i * n + t) 7); [lia|].
    replace (7 + i * n + t - 7) with (i * n + t) by ring. apply G; lia.
Qed.

(** ** pasting it *)
Section Paste.
  Variables (b : list Z) (w h bits x1 y1 x2 y2 : Z) (buf : list Z).
  Hypothesis W : wf b w h bits.
  Hypothesis I1 : inside w h x1 y1.
  Hypothesis I2 : inside w h x2 y2.
  Let xa := lo x1 x2. Let xb := hi x1 x2. Let ya := lo y1 y2. Let yb := hi y1 y2.
  Let k := xa * bits / 8. Let n := (xb + 1) * bits / 8 - k.
  Let rws := yb - ya + 1. Let cls := xb - xa + 1.
  Hypothesis HA : byte_aligned bits xa xb.
  Hypothesis HC : copied b w h bits x1 y1 x2 y2 buf.

  Variables (c : list Z) (w' h' px py : Z).
  Hypothesis Wc : wf c w' h' bits.

  Lemma paste_head fuel o : pasterect_fuel fuel buf px py (mkst c o) =
    (whileM fuel
        (fun p => let '(startoff, _, _) := p in startoff <? zlen buf)
        (fun p => let '(startoff, endoff, offset) := p in
           BMPbitBLTput offset (py_slice buf startoff endoff) ;;;
           ret (endoff, endoff + n mod 256, offset + stride w' bits))
        (7, n mod 256 + 7, baddr w' h' bits px (py + rws mod 256) - data_off bits) ;;; ret tt) (mkst c o).
  Proof.
    destruct HC as (B & L & G0 & S1 & S2 & S3 & G).
    unfold pasterect_fuel. rewrite (bind_ok _ _ _ _ _ (wf_geti_bits _ _ _ _ Wc _)).
    assert (Hn : 0 <= zlen buf - 7).
    { fold xa xb ya yb in L. fold k in L. fold n in L. rewrite L.
      destruct (aligned_fit w bits xa xb (wf_depth _ _ _ _ W)) as (F1 & F2 & F3);
        [unfold inside, xa, xb, lo, hi in *; lia..|].
      assert (0 <= yb - ya + 1) by (unfold ya, yb, lo, hi; lia). fold k in F2. fold n in F2.
      clear - F2 H. clearbody n ya yb. nia. }
    rewrite (bind_ok _ _ _ bits (mkst c o)) by (apply run_lift; rewrite py_get_in by lia; f_equal; exact G0).
    rewrite Z.eqb_refl. cbn [negb].
    fold xa xb ya yb in S1, S2, S3. fold k in S3. fold n in S3. fold rws in S2.
    rewrite S1, S2, S3.
    rewrite (bind_ok _ _ _ _ _ (run_lift _ _ _ _ (buf2int_int2buf 2 _ ltac:(lia)))).
    rewrite (bind_ok _ _ _ _ _ (run_lift _ _ _ _ (buf2int_int2buf 2 _ ltac:(lia)))).
    rewrite (bind_ok _ _ _ _ _ (run_rd _ _ _ _ (wf_rxchr _ _ _ _ Wc))).
    rewrite (bind_ok _ _ _ _ _ (run_rd _ _ _ _ (listin_true _ _ _ _ _ Wc))).
    rewrite (bind_ok _ _ _ _ _ (run_rd _ _ _ _ (wf_offset _ _ _ _ Wc _ _))).
    rewrite (bind_ok _ _ _ _ _ (run_lift _ _ _ _ (buf2int_int2buf 2 _ ltac:(lia)))).
    reflexivity.
  Qed.

  Lemma paste_run o : n < 256 -> rws < 256 -> (px * bits) mod 8 = 0 ->
    0 <= px -> px + cls <= w' -> 0 <= py -> py + rws < h' ->
    exists c', pasterect buf px py (mkst c o) = (Ok tt, mkst c' o) /\
      repainted c c' w' h' bits (fun x y =>
        if ((px <=? x) && (x <? px + cls)) && ((py + 1 <=? y) && (y <? py + 1 + rws))
        then pixel b w h bits (xa + (x - px)) (ya + (y - (py + 1)))
        else pixel c w' h' bits x y).
  Proof.
    intros Hn Hr Hp Hpx Hw Hpy Hh. unfold pasterect; rewrite paste_head.
    destruct HC as (B & L & _ & _ & _ & _ & G). fold xa xb ya yb in L, G. fold k in L, G. fold n in L, G. fold rws in L, G.
    assert (Hd := wf_depth _ _ _ _ W).
    assert (Hxy : 0 <= xa <= xb /\ xb < w /\ 0 <= ya <= yb /\ yb < h)
      by (unfold inside, xa, xb, ya, yb, lo, hi in *; lia).
    assert (Hn0 : 0 < n).
    { unfold n, k. clear - HA Hxy Hd. unfold byte_aligned in HA. destruct Hd as [-> | [-> | [-> | ->]]]; lia. }
    assert (Hr0 : 0 < rws) by (unfold rws; lia).
    set (k' := px * bits / 8).
    assert (AL : byte_aligned bits px (px + cls - 1)).
    { split; auto. replace (px + cls - 1 + 1) with (px + cls) by lia. unfold cls, byte_aligned in *. clear - HA Hp Hd.
      destruct Hd as [-> | [-> | [-> | ->]]]; lia. }
    assert (Hk : 0 <= k' /\ n = (px + cls - 1 + 1) * bits / 8 - k' /\ k' + n <= stride w' bits).
    { destruct (aligned_fit w' bits px (px + cls - 1) Hd) as (F1 & F2 & F3); [lia|unfold cls; lia|lia|].
      fold k' in F1, F2, F3. split; auto.
      assert (n = (px + cls - 1 + 1) * bits / 8 - k').
      { replace (px + cls - 1 + 1) with (px + cls) by lia. unfold n, k, k', cls, byte_aligned in *. clear - HA Hp Hd.
        destruct Hd as [-> | [-> | [-> | ->]]]; lia. }
      split; auto. lia. }
    destruct Hk as (Hk0 & Hk1 & Hk2).
    rewrite !(Z.mod_small n 256), !(Z.mod_small rws 256) by lia.
    match goal with |- exists c', bind (whileM ?fu ?co ?bo _) _ _ = _ /\ _ =>
      destruct (whileM_inv (fun i p s => p = (7 + i * n, 7 + (i + 1) * n, (h' - 1 - (py + rws - i)) * stride w' bits + k') /\
         exists c', s = mkst c' o /\ rastered c c' w' h' bits (fun kk j =>
           if incols k' n kk && ((py + rws - i <? j) && (j <=? py + rws)) then raster b w h bits (k + (kk - k')) (ya + (j - (py + 1)))
           else raster c w' h' bits kk j))
        co bo rws fu (7, n + 7, baddr w' h' bits px (py + rws) - data_off bits) (mkst c o)) as (p & s' & E & _ & c' & -> & R) end.
    - lia.
    - rewrite L. clear - Hn0 Hr0. clearbody n rws. apply Z2Nat.inj_le; nia.
    - split.
      + rewrite baddr_rowaddr. unfold rowaddr. fold k'. f_equal; [f_equal|]; ring.
      + exists c. split; auto. eapply rastered_ext; [|apply rastered_refl; auto]. intros kk j Hkk Hj. cbn beta.
        replace ((py + rws - 0 <? j) && (j <=? py + rws)) with false by (clear; bcases; auto; lia).
        now rewrite andb_false_r.
    - intros i p s Hi (-> & c' & -> & R). split.
      { apply Z.ltb_lt. rewrite L. clear - Hi Hn0. clearbody n rws. nia. }
      assert (Q : 0 <= i * n /\ i * n + n <= rws * n).
      { clear - Hi Hn0. clearbody n rws. nia. }
      replace (7 + (i + 1) * n) with (7 + i * n + n) by ring.
      assert (Zs : zlen (py_slice buf (7 + i * n) (7 + i * n + n)) = n) by (rewrite zlen_slice; lia).
      destruct (bltput_row c' w' h' bits o (py + rws - i) k' (py_slice buf (7 + i * n) (7 + i * n + n))) as (c2 & E & R2).
      + apply R.
      + lia.
      + lia.
      + rewrite Zs. exact Hk2.
      + apply bytes_slice, B.
      + rewrite (bind_ok _ _ _ _ _ E). eexists _, _. split; [reflexivity|]. split.
        { f_equal; [f_equal|]; ring. }
        exists c2. split; auto. eapply rastered_trans; [exact R|]. eapply rastered_ext; [|exact R2].
        intros kk j Hkk Hj. cbn beta. rewrite (proj2 (proj2 R)) by auto. unfold in_rowpart. rewrite Zs.
        unfold incols. destruct ((k' <=? kk) && (kk <? k' + n)) eqn:C; [|rewrite andb_false_r; reflexivity].
        apply andb_true_iff in C. destruct C as [C1 C2]. apply Z.leb_le in C1. apply Z.ltb_lt in C2.
        cbn [andb]. rewrite andb_true_r.
        destruct (Z.eqb_spec j (py + rws - i)) as [->|N].
        * rewrite getz_slice by lia. replace (7 + i * n + (kk - k')) with (7 + i * n + (kk - k')) by ring.
          rewrite G by lia. replace (yb - i) with (ya + (py + rws - i - (py + 1))) by (unfold rws; ring).
          clear - Hi. bcases; auto; lia.
        * clear - N Hi. bcases; auto; lia.
    - intros p s (-> & _). apply Z.ltb_ge. rewrite L. lia.
    - exists c'. rewrite (bind_ok _ _ _ _ _ E). split; [reflexivity|].
      eapply rastered_repainted; [exact R|]. intros x y (Hx & Hy). cbn beta.
      rewrite !pixel_raster.
      transitivity (rowpix bits (fun kk => if ((px <=? x) && (x <? px + cls)) && ((py + 1 <=? y) && (y <? py + 1 + rws))
         then raster b w h bits (k + (kk - k')) (ya + (y - (py + 1))) else raster c w' h' bits kk y) x).
      + apply (rowpix_ext bits w'); auto. intros kk Hkk Hk3. cbn beta.
        rewrite Hk1. unfold k' at 1. unfold k' at 1.
        rewrite (aligned_cols bits px (px + cls - 1) x kk Hd AL Hk3).
        replace (x <=? px + cls - 1) with (x <? px + cls) by lia.
        replace (py + rws - rws <? y) with (py + 1 <=? y) by lia.
        replace (y <=? py + rws) with (y <? py + 1 + rws) by lia. reflexivity.
      + destruct (((px <=? x) && (x <? px + cls)) && ((py + 1 <=? y) && (y <? py + 1 + rws))); auto.
        replace (xa + (x - px)) with ((x - px) + xa) by lia. rewrite (rowpix_shift bits _ (x - px) xa) by (auto; apply HA).
        fold k. transitivity (rowpix bits (fun kk => raster b w h bits (kk + k) (ya + (y - (py + 1)))) (x - px)); auto.
        replace x with ((x - px) + px) at 1 by lia. rewrite (rowpix_shift bits _ (x - px) px) by auto. fold k'.
        unfold rowpix. destruct (bits =? 24).
        * f_equal; [f_equal|]; try (f_equal; f_equal; ring). f_equal; ring.
        * f_equal. f_equal. f_equal. ring.
  Qed.

  Lemma paste_diverges fuel off s : forall e, e = 7 -> 7 < zlen buf ->
    exists s', whileM fuel (fun p : Z * Z * Z => let '(startoff, _, _) := p in startoff <? zlen buf)
        (fun p => let '(startoff, endoff, offset) := p in
           BMPbitBLTput offset (py_slice buf startoff endoff) ;;;
           ret (endoff, endoff + 0, offset + stride w' bits)) (7, e, off) (mkst c s) = (Err Diverges, s').
  Proof.
    revert off s. induction fuel as [|fuel IH]; intros off s e -> Hl; cbn [whileM].
    - replace (7 <? zlen buf) with true by lia. eexists. reflexivity.
    - replace (7 <? zlen buf) with true by lia.
      assert (E0 : py_slice buf 7 7 = []).
      { apply zlen_0_nil. rewrite zlen_slice; lia. }
      rewrite E0.
      assert (EE : exists s', BMPbitBLTput off [] (mkst c s) = (Ok tt, mkst c s')).
      { destruct (Z.ltb_spec off 0); [|destruct (Z.ltb_spec (zlen c) (data_off bits + off + 0))].
        - eexists. apply (bltput_bad _ _ _ _ _ _ _ Wc). auto.
        - eexists. apply (bltput_bad _ _ _ _ _ _ _ Wc). right. change (zlen (@nil Z)) with 0. lia.
        - eexists. rewrite (bltput_ok _ _ _ _ _ _ _ Wc); [|lia|change (zlen (@nil Z)) with 0; lia|constructor].
          change (zlen (@nil Z)) with 0. pose proof (data_off_ge bits (wf_depth _ _ _ _ Wc)).
          replace (py_slice_set c (data_off bits + off) (data_off bits + off + 0) []) with c; [reflexivity|].
          apply list_ext; [rewrite zlen_slice_set; change (zlen (@nil Z)) with 0; lia|].
          intros i Hi. rewrite getz_slice_set by (change (zlen (@nil Z)) with 0; lia). bcases; auto; lia. }
      destruct EE as (s1 & E1).
      destruct (IH (off + stride w' bits) s1 (7 + 0) ltac:(lia) Hl) as (s' & E').
      exists s'. unfold bind at 1. unfold bind at 1. rewrite E1. exact E'.
  Qed.

  Lemma paste_forever fuel o : n mod 256 = 0 -> exists s', pasterect_fuel fuel buf px py (mkst c o) = (Err Diverges, s').
  Proof.
    intros Hn. rewrite paste_head, Hn.
    destruct HC as (_ & L & _). fold xa xb ya yb in L. fold k in L. fold n in L.
    assert (Hxy : 0 <= xa <= xb /\ xb < w /\ 0 <= ya <= yb /\ yb < h)
      by (unfold inside, xa, xb, ya, yb, lo, hi in *; lia).
    assert (Hn0 : 0 < n).
    { unfold n, k. clear - HA Hxy W. pose proof (wf_depth _ _ _ _ W) as Hd. unfold byte_aligned in HA. clear W.
      destruct Hd as [-> | [-> | [-> | ->]]]; lia. }
    destruct (paste_diverges fuel (baddr w' h' bits px (py + rws mod 256) - data_off bits) o (0 + 7))
      as (s' & E).
    - reflexivity.
    - rewrite L. clear - Hn0 Hxy. clearbody n ya yb. nia.
    - exists s'. rewrite (bind_err _ _ _ _ _ E). reflexivity.
  Qed.
End Paste.
