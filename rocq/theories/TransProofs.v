(** Transposing, pixel-based flips and the corner mirrors (proofs). *)
From Coq Require Import ZArith List Bool Lia.
From Verif Require Import PyBase PyFacts Spec Bmp BmpFacts PixelProofs PlotList HeaderProofs PalProofs Buffers Region Raster VertProofs HorizProofs IterProofs RectProofs RectProofs2 UpProofs ResizeProofs.
Import ListNotations.
Open Scope Z_scope.
Open Scope py_scope.
Ltac Zify.zify_post_hook ::= Z.to_euclidean_division_equations.

(** ** a column *)
Section Column.
  Variables (b : list Z) (w h bits x : Z).
  Hypothesis W : wf b w h bits.
  Hypothesis Hb : bits = 8 \/ bits = 24.
  Hypothesis Hx : 0 <= x < w.
  Hypothesis Hh : 0 < h.

  Lemma vertget_run o : exists buf, vertBMPbitBLTget x 0 (h - 1) (mkst b o) = (Ok (Some buf), mkst b o) /\
    bytes buf /\ zlen buf = h * bits / 8 /\
    forall i, 0 <= i < h -> rowpix bits (getz buf) i = pixel b w h bits x (h - 1 - i).
  Proof.
    unfold vertBMPbitBLTget. rewrite (bind_ok _ _ _ _ _ (wf_geti_bits _ _ _ _ W _)).
    rewrite (bind_ok _ _ _ _ _ (run_rd _ _ _ _ (wf_rxchr _ _ _ _ W))).
    assert (Em : getmaxxy b = Ok (w, h)).
    { unfold getmaxxy, getmaxx, getmaxy. rewrite (wf_rx _ _ _ _ W), (wf_ry _ _ _ _ W). reflexivity. }
    rewrite (bind_ok _ _ _ _ _ (run_rd _ _ _ _ Em)). cbn [fst snd].
    unfold isinrange. replace ((x >? -1) && (x <? w)) with true by (bcases; auto; lia).
    unfold swapif. replace (0 >? h - 1) with false by lia.
    replace (setmin 0 0) with 0 by reflexivity. unfold setmax. replace (h - 1 >? h - 1) with false by lia.
    rewrite (bind_ok _ _ _ _ _ (run_rd _ _ _ _ (wf_offsethd _ _ _ _ W _ _))).
    rewrite (bind_ok _ _ _ _ _ (run_rd _ _ _ _ (wf_offsethd _ _ _ _ W _ _))).
    rewrite !baddr_rowaddr.
    destruct (row_fit w bits x (wf_depth _ _ _ _ W) Hx) as [R1 R2].
    remember (x * bits / 8) as k eqn:Ek.
    pose proof (stride_ge4 w bits) as H4.
    assert (CG : forall t e, 0 <= t < pbytes bits -> rowaddr w h bits 0 + (k + t) < e <= rowaddr w h bits 0 + (k + t) + stride w bits ->
       let v := py_xslice b (rowaddr w h bits (h - 1) + k + t) e (stride w bits) in
       zlen v = h /\ bytes v /\ forall i, 0 <= i < h -> getz v i = raster b w h bits (k + t) (h - 1 - i)).
    { intros t e Ht He v.
      destruct (col_get b w h bits 0 (h - 1) (k + t) e W ltac:(lia) ltac:(lia) He) as (C1 & C2 & C3).
      replace (rowaddr w h bits (h - 1) + (k + t)) with (rowaddr w h bits (h - 1) + k + t) in C1, C2, C3 by ring.
      fold v in C1, C2, C3. replace (h - 1 - 0 + 1) with h in C1, C3 by lia. auto. }
    destruct (Z.eqb_spec bits 24) as [E24|N24].
    - assert (pbytes bits = 3) as Hp by (rewrite E24; reflexivity). rewrite Hp in R2, CG.
      rewrite ?bind_assoc.
      destruct (CG 0 (rowaddr w h bits 0 + k + stride w bits - 2)) as (A1 & A2 & A3); try lia.
      destruct (CG 1 (rowaddr w h bits 0 + k + stride w bits - 1)) as (B1 & B2 & B3); try lia.
      destruct (CG 2 (rowaddr w h bits 0 + k + stride w bits)) as (C1 & C2 & C3); try lia.
      rewrite Z.add_0_r in A1, A2, A3.
      rewrite (bind_ok _ _ _ _ _ (run_xslice _ _ _ _ _)).
      rewrite (bind_ok _ _ _ _ _ (run_xslice _ _ _ _ _)).
      rewrite (bind_ok _ _ _ _ _ (run_xslice _ _ _ _ _)).
      set (ca := py_xslice b (rowaddr w h bits (h - 1) + k) (rowaddr w h bits 0 + k + stride w bits - 2) (stride w bits)) in *.
      set (cb := py_xslice b (rowaddr w h bits (h - 1) + k + 1) (rowaddr w h bits 0 + k + stride w bits - 1) (stride w bits)) in *.
      set (cc := py_xslice b (rowaddr w h bits (h - 1) + k + 2) (rowaddr w h bits 0 + k + stride w bits) (stride w bits)) in *.
      assert (BI : bytes (interleave3 ca cb cc)) by (apply interleave_bytes; auto).
      rewrite (bind_ok _ _ _ (interleave3 ca cb cc) (mkst b o)) by (apply run_lift, py_array_ok, BI).
      destruct (interleave_spec (Z.to_nat h) ca cb cc) as (L & G); try (rewrite Z2Nat.id; lia).
      rewrite Z2Nat.id in L, G by lia.
      eexists. split; [reflexivity|]. split; auto. split; [rewrite L, E24; lia|].
      intros i Hi. rewrite pixel_raster. unfold rowpix. rewrite E24. cbn [Z.eqb Pos.eqb].
      destruct (G i Hi) as (-> & -> & ->). rewrite A3, B3, C3 by auto. rewrite E24.
      assert (Ek3 : k = 3 * x) by (rewrite E24 in Ek; clear - Ek; lia).
      rewrite <- Ek3, Z.add_0_r. reflexivity.
    - assert (E8 : bits = 8) by lia.
      assert (pbytes bits = 1) as Hp by (rewrite E8; reflexivity). rewrite Hp in R2, CG.
      rewrite (bind_ok _ _ _ _ _ (run_xslice _ _ _ _ _)).
      destruct (CG 0 (rowaddr w h bits 0 + k + stride w bits)) as (A1 & A2 & A3); try lia.
      rewrite Z.add_0_r in A1, A2, A3.
      eexists. split; [reflexivity|]. split; auto. split; [rewrite A1, E8; lia|].
      intros i Hi. rewrite pixel_raster. rewrite E8. rewrite rowpix8 by (apply bytes_getz; rewrite <- E8; auto).
      rewrite rowpix8 by (apply (wf_byte _ _ _ _ _ W)).
      rewrite <- E8, A3 by auto. rewrite E8 in Ek. replace k with x by lia. f_equal. lia.
  Qed.
End Column.

Lemma plots_transposed (l : list (Z * Z * Z)) s :
  forM l (fun v => let '(x, y, c) := v in plotxybit y x c) s =
  forM (map (fun v => let '(x, y, c) := v in (y, x, c)) l) plot_item s.
Proof. rewrite forM_map. apply forM_ext. intros [[x y] c] s' _. reflexivity. Qed.

(** where a source pixel ends up *)
Definition fx (bits w h x y : Z) : Z := if bits <? 8 then y else h - 1 - y.
Definition fy (bits w h x y : Z) : Z := if bits <? 8 then x else w - 1 - x.

Section Flip.
  Variables (b : list Z) (w h bits : Z).
  Hypothesis W : wf b w h bits.
  Hypothesis Hw : 0 < w.
  Hypothesis Hh : 0 < h.

  Lemma flip_small nb o : bits < 8 -> wf nb h w bits ->
    exists nb', forM (allitems b w h bits) (fun v => let '(x, y, c) := v in plotxybit y x c) (mkst nb o) = (Ok tt, mkst nb' o) /\
      repainted nb nb' h w bits (fun i j => pixel b w h bits j i).
  Proof.
    intros Hb Wn. rewrite plots_transposed.
    destruct (plots_nodup (map (fun v => let '(x, y, c) := v in (y, x, c)) (allitems b w h bits)) nb h w bits o Wn)
      as (nb' & E & W' & S & P & _).
    - intros x y c _ E24. lia.
    - rewrite map_map. 
      assert (N := allitems_nodup b w h bits).
      rewrite (map_ext _ (fun i : Z * Z * Z => (snd (fst i), fst (fst i)))) by (intros [[x y] c]; reflexivity).
      replace (map (fun i : Z * Z * Z => (snd (fst i), fst (fst i))) (allitems b w h bits)) with
        (map (fun p : Z * Z => (snd p, fst p)) (map (fun i => (fst (fst i), snd (fst i))) (allitems b w h bits)))
        by (rewrite map_map; reflexivity).
      apply FinFun.Injective_map_NoDup; [|exact N]. intros [p q] [r s]. cbn. congruence.
    - exists nb'. split; auto. split; auto. split; auto. intros i j (Hi & Hj).
      rewrite (P i j (pixel b w h bits j i)).
      + apply reduce_id; [apply W|]. apply (pixel_range _ _ _ _ _ _ W).
      + split; lia.
      + apply in_map_iff. exists (j, i, pixel b w h bits j i). split; auto. apply allitems_in. split; auto. split; lia.
  Qed.

  Lemma flip_big nb o : bits = 8 \/ bits = 24 -> wf nb h w bits ->
    exists nb', (foldM (fun offset y =>
          o <- on_src b (vertBMPbitBLTget y 0 (h - 1)) ;;
          match o with
          | None => raise TypeError
          | Some buf => BMPbitBLTput offset buf ;;; ret (offset + stride h bits)
          end) 0 (range 0 w) ;;; ret tt) (mkst nb o) = (Ok tt, mkst nb' o) /\
      repainted nb nb' h w bits (fun i j => pixel b w h bits (w - 1 - j) (h - 1 - i)).
  Proof.
    intros Hb Wn.
    assert (Hst : h * bits / 8 <= stride h bits) by (unfold stride; clear - Hb; destruct Hb as [-> | ->]; lia).
    destruct (foldM_range_inv (fun t off s => off = t * stride h bits /\ exists nb', s = mkst nb' o /\
        repainted nb nb' h w bits (fun i j => if w - 1 - t <? j then pixel b w h bits (w - 1 - j) (h - 1 - i)
                                              else pixel nb h w bits i j))
      (fun offset y =>
          o <- on_src b (vertBMPbitBLTget y 0 (h - 1)) ;;
          match o with
          | None => raise TypeError
          | Some buf => BMPbitBLTput offset buf ;;; ret (offset + stride h bits)
          end) 0 w 0 (mkst nb o)) as (off & s' & E & _ & nb' & -> & R).
    - lia.
    - split; [ring|]. exists nb. split; auto. eapply repainted_ext; [|apply repainted_refl; auto].
      intros i j (Hi & Hj). cbn beta. bcases; auto; lia.
    - intros t off s Ht (-> & nb' & -> & R).
      destruct (vertget_run b w h bits t W Hb Ht Hh o) as (buf & Eg & B & L & G).
      assert (Eg' : on_src b (vertBMPbitBLTget t 0 (h - 1)) (mkst nb' o) = (Ok (Some buf), mkst nb' o)).
      { unfold on_src. cbn [out mem]. rewrite Eg. reflexivity. }
      rewrite (bind_ok _ _ _ _ _ Eg').
      destruct (bltput_row nb' h w bits o (w - 1 - t) 0 buf) as (n2 & E & R2).
      + apply R.
      + lia.
      + lia.
      + lia.
      + auto.
      + replace ((w - 1 - (w - 1 - t)) * stride h bits + 0) with (t * stride h bits) in E by ring.
        rewrite (bind_ok _ _ _ _ _ E). eexists _, _. split; [reflexivity|]. split; [ring|].
        exists n2. split; auto. eapply repainted_trans; [exact R|].
        eapply rastered_repainted; [exact R2|]. intros i j (Hi & Hj). cbn beta.
        destruct (Z.eqb_spec j (w - 1 - t)) as [->|N].
        * replace (w - 1 - (t + 1) <? w - 1 - t) with true by lia.
          replace (w - 1 - (w - 1 - t)) with t by lia. rewrite <- G by auto.
          apply (rowpix_ext bits h); auto. apply W. intros kk Hkk Hk2. unfold in_rowpart.
          rewrite Z.eqb_refl. cbn [andb]. rewrite L, Z.sub_0_r.
          assert (kk < h * bits / 8).
          { clear - Hk2 Hi Hb. unfold pbytes in Hk2. destruct Hb as [-> | ->]; cbn [Z.eqb Pos.eqb] in Hk2; lia. }
          bcases; auto; lia.
        * replace (w - 1 - (t + 1) <? j) with (w - 1 - t <? j) by lia.
          rewrite <- (proj2 (proj2 R)) by (split; auto). rewrite pixel_raster.
          apply (rowpix_ext bits h); auto. apply W. intros kk Hkk Hk2. unfold in_rowpart.
          destruct (Z.eqb_spec j (w - 1 - t)); [contradiction|]. reflexivity.
    - exists nb'. rewrite (bind_ok _ _ _ _ _ E). split; [reflexivity|].
      eapply repainted_ext; [|exact R]. intros i j (Hi & Hj). cbn beta. bcases; auto; lia.
  Qed.

  Lemma flipXY_run o : exists nb, flipXY (mkst b o) = (Ok nb, mkst b o) /\ wf nb h w bits /\
    (forall x y, inside w h x y -> pixel nb h w bits (fx bits w h x y) (fy bits w h x y) = pixel b w h bits x y) /\
    (bits <> 24 -> forall i, 0 <= i < 2 ^ bits -> pal_entry nb i = pal_entry b i).
  Proof.
    unfold flipXY.
    rewrite (bind_ok _ _ _ _ _ (run_rd getmaxy _ _ _ (wf_ry _ _ _ _ W))).
    rewrite (bind_ok _ _ _ _ _ (run_rd getmaxx _ _ _ (wf_rx _ _ _ _ W))).
    rewrite (bind_ok _ _ _ _ _ (wf_geti_bits _ _ _ _ W _)).
    destruct (newBMP_wf h w bits (wf_depth _ _ _ _ W) (wf_hrange _ _ _ _ W) (wf_wrange _ _ _ _ W)) as (nb & En & Wn & _).
    rewrite (bind_ok _ _ _ _ _ (run_lift _ _ _ _ En)).
    pose proof (wf_depth _ _ _ _ W) as Hd.
    destruct (copyRGBpal_run b nb _ _ _ _ _ o W Wn) as (n1 & E1 & W1 & L1 & G1).
    destruct ((bits =? 8) || (bits =? 24)) eqn:Hbig.
    - assert (Hb : bits = 8 \/ bits = 24) by (apply orb_true_iff in Hbig; lia). clear Hbig.
      assert (HP : exists n1, (if bits <? 24 then copyRGBpal b else ret tt) (mkst nb o) = (Ok tt, mkst n1 o) /\
         wf n1 h w bits /\ (bits <> 24 -> forall i, 0 <= i < 2 ^ bits -> pal_entry n1 i = pal_entry b i)).
      { destruct (Z.ltb_spec bits 24).
        - exists n1. split; auto. split; auto. intros N. apply (copied_pal b nb n1 _ _ _ _ bits W Wn); auto.
        - exists nb. split; auto. split; auto. intros N. exfalso. lia. }
      destruct HP as (n2 & E2 & W2 & P2).
      destruct (flip_big n2 o Hb W2) as (n3 & E3 & R3).
      exists n3. split.
      + apply building_run.
        rewrite (bind_ok _ _ _ _ _ (run_rd _ _ _ _ (wf_rxchr _ _ _ _ Wn))).
        rewrite (bind_ok _ _ _ _ _ E2). exact E3.
      + split; [apply R3|]. split.
        * intros x y (Hx & Hy). unfold fx, fy. replace (bits <? 8) with false by lia.
          rewrite (proj2 (proj2 R3)) by (split; lia). f_equal; lia.
        * intros N i Hi. rewrite (same_header_pal n2 n3 bits) by (first [exact Hi|exact N|apply R3]). now apply P2.
    - assert (Hb : bits < 8). { apply orb_false_iff in Hbig. unfold valid_depth in Hd. lia. }
      destruct (flip_small n1 o Hb W1) as (n3 & E3 & R3).
      exists n3. split.
      + apply building_run. rewrite (bind_ok _ _ _ _ _ E1).
        rewrite (bind_ok _ _ _ _ _ (run_lift _ _ _ _ (iterimagecolor_spec _ _ _ _ W))). exact E3.
      + split; [apply R3|]. split.
        * intros x y (Hx & Hy). unfold fx, fy. replace (bits <? 8) with true by lia.
          rewrite (proj2 (proj2 R3)) by (split; lia). reflexivity.
        * intros N i Hi. rewrite (same_header_pal n1 n3 bits) by (first [exact Hi|exact N|apply R3]).
          apply (copied_pal b nb n1 _ _ _ _ bits W Wn); auto.
  Qed.
End Flip.
