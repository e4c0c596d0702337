(** Circular regions: copies and magnification (proofs). *)
From Coq Require Import ZArith List Bool Lia.
From Verif Require Import PyBase PyFacts Spec Bmp BmpFacts PixelProofs PlotList Buffers Region Raster VertProofs RectProofs HorizProofs
  UpProofs ResizeProofs Geometry GeomProofs Draw DrawProofs DrawProofs4 Filters FilterProofs FilterProofs2 Circle
  CircProofs CircProofs2 CircProofs3 CircProofs4.
Import ListNotations.
Open Scope Z_scope.
Open Scope py_scope.
Ltac Zify.zify_post_hook ::= Z.to_euclidean_division_equations.

Lemma clrbits_run b w h bits o : wf b w h bits -> rd getclrbits (mkst b o) = (Ok bits, mkst b o).
Proof. intros W. apply run_rd. exact (wf_rbits _ _ _ _ W). Qed.

Lemma disc_swap r p v : in_disc r p v = in_disc r v p.
Proof. unfold in_disc. cbv zeta. now rewrite (Z.max_comm (Z.abs p)), (Z.add_comm (p * p)). Qed.

(** the rows of a copied disc *)
Definition circrow (b : list Z) (w h bits x y : Z) (v : Z * Z) : list Z * list Z :=
  (py_slice b (rowaddr w h bits (y - snd v) + kb bits (x - fst v)) (rowaddr w h bits (y - snd v) + kb bits (x + fst v)),
   py_slice b (rowaddr w h bits (y + snd v) + kb bits (x - fst v)) (rowaddr w h bits (y + snd v) + kb bits (x + fst v))).

Lemma copycirc2buf_run b w h bits o x y r l : wf b w h bits -> 0 <= r -> itercirclepartlineedge r = Ok l ->
  0 <= x - r -> x + r < w -> 0 <= y - r -> y + r < w ->
  copycircregion2buf x y r (mkst b o) = (Ok (Some (bits, r, map (circrow b w h bits x y) l)), mkst b o).
Proof.
  intros W Hr El X1 X2 Y1 Y2. unfold copycircregion2buf. rewrite (cguard_run b w h bits) by auto.
  replace (((0 <=? x - r) && (x + r <? w)) && ((0 <=? y - r) && (y + r <? w))) with true by (clear - X1 X2 Y1 Y2; lia).
  unfold withSome. rewrite bind_assoc, (bind_ok _ _ _ _ _ (clrbits_run _ _ _ _ _ W)).
  rewrite bind_assoc, (bind_ok _ _ _ _ _ (run_lift _ _ _ _ El)). rewrite bind_assoc.
  match goal with |- bind (foldM ?f _ _) _ _ = _ =>
    destruct (foldM_list_inv (fun done acc s => acc = map (circrow b w h bits x y) done /\ s = mkst b o) f l [] (mkst b o)) as (rows & s & E & -> & ->) end.
  - auto.
  - intros done [a v] todo acc s _ [-> ->]. cbn [fst snd mirror]. unfold mirror. offs W. kbfold bits.
    rewrite (bind_ok _ _ _ _ _ (run_slice _ _ _ _)). offs W. kbfold bits. rewrite (bind_ok _ _ _ _ _ (run_slice _ _ _ _)).
    eexists _, _. split; [reflexivity|]. rewrite map_app. auto.
  - rewrite (bind_ok _ _ _ _ _ E). reflexivity.
Qed.

(** the counter of pastecirularbuf follows the list *)
Lemma paste_rows x y (g : Z * Z -> list Z * list Z) todo : forall done s s',
  forM todo (fun v => let (x1, x2) := mirror x (fst v) in let (y1, y2) := mirror y (snd v) in
      s <- rd (bmoffsethd x1 y1) ;; e <- rd (bmoffsethd x2 y1) ;; slice_set s e (fst (g v)) ;;;
      s <- rd (bmoffsethd x1 y2) ;; e <- rd (bmoffsethd x2 y2) ;; slice_set s e (snd (g v))) s = (Ok tt, s') ->
  foldM (fun i v => pastecirc_row x y (map g (done ++ todo)) i v ;;; ret (i + 1)) (zlen done) todo s = (Ok (zlen (done ++ todo)), s').
Proof.
  induction todo as [|v todo IH]; intros done s s' E.
  - cbn in E. inversion E. cbn [foldM]. rewrite app_nil_r. reflexivity.
  - rewrite forM_cons in E. cbn [foldM]. unfold bind at 1 in E. unfold bind at 1.
    assert (EP : pastecirc_row x y (map g (done ++ v :: todo)) (zlen done) v =
      (let (x1, x2) := mirror x (fst v) in let (y1, y2) := mirror y (snd v) in
      s <- rd (bmoffsethd x1 y1) ;; e <- rd (bmoffsethd x2 y1) ;; slice_set s e (fst (g v)) ;;;
      s <- rd (bmoffsethd x1 y2) ;; e <- rd (bmoffsethd x2 y2) ;; slice_set s e (snd (g v)))).
    { unfold pastecirc_row. cbn [mirror]. rewrite nth_error_map. unfold zlen. rewrite Nat2Z.id.
      rewrite nth_error_app2 by auto. rewrite Nat.sub_diag. cbn [nth_error option_map]. now destruct (g v). }
    rewrite EP. unfold bind at 1.
    match type of E with match ?m with _ => _ end = _ => destruct m as [[[]|e] s1]; [|discriminate] end.
    unfold ret at 1. specialize (IH (done ++ [v]) s1 s' E). rewrite <- app_assoc in IH. cbn [app] in IH.
    rewrite zlen_app in IH. exact IH.
Qed.

Lemma rowpix_move bits nx x G px : valid_depth bits -> ((nx - x) * bits) mod 8 = 0 ->
  rowpix bits (fun k => G (k - (nx - x) * bits / 8)) px = rowpix bits G (px - nx + x).
  Proof.
    intros Hd A. unfold rowpix. destruct Hd as [-> | [-> | [-> | ->]]]; cbn [Z.eqb Pos.eqb].
    - replace ((px - nx + x) * 1 / 8) with (px * 1 / 8 - (nx - x) * 1 / 8) by (clear - A; lia).
      replace (((px - nx + x) * 1) mod 8) with ((px * 1) mod 8) by (clear - A; lia). reflexivity.
    - replace ((px - nx + x) * 4 / 8) with (px * 4 / 8 - (nx - x) * 4 / 8) by (clear - A; lia).
      replace (((px - nx + x) * 4) mod 8) with ((px * 4) mod 8) by (clear - A; lia). reflexivity.
    - replace ((px - nx + x) * 8 / 8) with (px * 8 / 8 - (nx - x) * 8 / 8) by (clear; lia).
      replace (((px - nx + x) * 8) mod 8) with ((px * 8) mod 8) by (clear; lia). reflexivity.
    - replace ((nx - x) * 24 / 8) with (3 * (nx - x)) by (clear; lia).
      replace (3 * (px - nx + x)) with (3 * px - 3 * (nx - x)) by ring.
      replace (3 * px + 1 - 3 * (nx - x)) with (3 * px - 3 * (nx - x) + 1) by ring.
      replace (3 * px + 2 - 3 * (nx - x)) with (3 * px - 3 * (nx - x) + 2) by ring. reflexivity.
  Qed.

Section Paste.
  (** a disc of b2 pasted into b *)
  Variables (b : list Z) (w h bits : Z) (b2 : list Z) (w2 h2 r x y nx ny : Z) (o : list msg) (l : list (Z * Z)).
  Hypothesis W : wf b w h bits.
  Hypothesis W2 : wf b2 w2 h2 bits.
  Hypothesis Hr : 0 <= r.
  Hypothesis El : itercirclepartlineedge r = Ok l.
  Hypothesis X1 : 0 <= x - r.
  Hypothesis X2 : x + r < w2.
  Hypothesis Y1 : 0 <= y - r.
  Hypothesis Y2 : y + r < h2.
  Hypothesis NX1 : 0 <= nx - r.
  Hypothesis NX2 : nx + r < w.
  Hypothesis NY1 : 0 <= ny - r.
  Hypothesis NY2 : ny + r < h.
  Hypothesis AL : ((nx - x) * bits) mod 8 = 0.
  Let Hd : valid_depth bits := wf_depth _ _ _ _ W.

  Lemma kb_shift c : kb bits (c + (nx - x)) = kb bits c + (nx - x) * bits / 8.
  Proof. unfold kb. rewrite Z.mul_add_distr_r. clear - AL. lia. Qed.
  Lemma paste_run : exists b', pastecirularbuf nx ny (Some (bits, r, map (circrow b2 w2 h2 bits x y) l)) (mkst b o) = (Ok tt, mkst b' o) /\
    repainted b b' w h bits (fun px py => if disc_part w bits r nx ny px py then pixel b2 w2 h2 bits (px - nx + x) (py - ny + y)
      else pixel b w h bits px py).
  Proof.
    unfold pastecirularbuf.
    rewrite (bind_ok _ _ _ _ _ (xmax_run w h bits o b W)), (bind_ok _ _ _ _ _ (ymax_run w h bits o b W)). rewrite circ_in_spec by auto.
    replace (((0 <=? nx - r) && (nx + r <? w)) && ((0 <=? ny - r) && (ny + r <? h))) with true by (clear - NX1 NX2 NY1 NY2; lia).
    rewrite (bind_ok _ _ _ _ _ (clrbits_run _ _ _ _ _ W)). rewrite Z.eqb_refl.
    rewrite (bind_ok _ _ _ _ _ (run_lift _ _ _ _ El)).
    pose (V := fun k y' => raster b2 w2 h2 bits (k - (nx - x) * bits / 8) (y' - ny + y)).
    edestruct (in_loop b w h bits r nx ny o l W Hr El NX1 NX2 V) as (b' & E & R).
    2:{ exists b'. split.
        - pose proof (paste_rows nx ny (circrow b2 w2 h2 bits x y) l [] _ _ E) as EP. cbn [app] in EP.
          change (zlen (@nil (Z * Z))) with 0 in EP. now rewrite (bind_ok _ _ _ _ _ EP).
        - apply (disc_repaint b w h bits r nx ny l W Hr El b' V _ R). intros px py _ _. unfold V.
          rewrite (rowpix_move bits nx x (fun k => raster b2 w2 h2 bits k (py - ny + y))) by auto. now rewrite pixel_raster. }
    intros a v b1 Ha Hv Hin W1 H1. cbn [fst snd mirror]. unfold mirror. offs W1. kbfold bits.
    destruct (part_get b2 w2 h2 bits r x W2 Hr X1 X2 b2 a (y - v) W2 Ha ltac:(clear - Y1 Y2 Hv; lia)) as (La & Ba & Ga).
    destruct (part_get b2 w2 h2 bits r x W2 Hr X1 X2 b2 a (y + v) W2 Ha ltac:(clear - Y1 Y2 Hv; lia)) as (Lb & Bb & Gb).
    unfold circrow. cbn [fst snd].
    set (ua := py_slice b2 (rowaddr w2 h2 bits (y - v) + _) _) in *. set (ub := py_slice b2 (rowaddr w2 h2 bits (y + v) + _) _) in *.
    assert (K1 : kb bits (nx - a) = kb bits (x - a) + (nx - x) * bits / 8) by (rewrite <- kb_shift; f_equal; ring).
    assert (K2 : kb bits (nx + a) = kb bits (x + a) + (nx - x) * bits / 8) by (rewrite <- kb_shift; f_equal; ring).
    destruct (two_put b w h bits r nx ny o W Hr NX1 NX2 NY1 NY2 b1 V a v ua ub W1 Ha Hv) as (b3 & b4 & E3 & W3 & E4 & R4);
      [rewrite La; clear - K1 K2; lia|exact Ba|rewrite Lb; clear - K1 K2; lia|exact Bb|..].
    - intros i Hi. unfold V. rewrite Ga by (clear - Hi K1 K2; lia). f_equal; clear - K1; lia.
    - intros i Hi. unfold V. rewrite Gb by (clear - Hi K1 K2; lia). f_equal; clear - K1; lia.
    - exists b4. split; [|exact R4]. rewrite (bind_ok _ _ _ _ _ E3). offs W3. kbfold bits. exact E4.
  Qed.
End Paste.

(** ** magnification *)
Lemma magnify_run b w h o x y r n : wf b w h 24 -> growable w 24 -> 0 < n -> 0 <= r ->
  0 <= x - r -> x + r < w -> 0 <= y - r -> y + r < h -> w * n < 2 ^ 24 -> h * n < 2 ^ 24 ->
  exists b', magnifyNtimescircregion x y r n (mkst b o) = (Ok (Some tt), mkst b' o) /\
    repainted b b' w h 24 (fun px py => if disc_part w 24 r x y px py
      then pixel b w h 24 ((x * n + (px - x)) / n) ((y * n + (py - y)) / n) else pixel b w h 24 px py).
Proof.
  intros W G Hn Hr X1 X2 Y1 Y2 Bw Bh. unfold magnifyNtimescircregion. rewrite (cguard24_run b w h 24) by auto.
  cbn [Z.eqb Pos.eqb].
  replace (((0 <=? x - r) && (x + r <? w)) && ((0 <=? y - r) && (y + r <? h))) with true by (clear - X1 X2 Y1 Y2; lia).
  unfold withSome.
  destruct (resize_run b w h 24 n W G Hn ltac:(lia) ltac:(lia) o Bw Bh) as (nb & En & Wn & Pn & _).
  rewrite bind_assoc, (bind_ok _ _ _ _ _ En).
  destruct (itercirclepartlineedge_run r Hr) as (l & El & _).
  rewrite bind_assoc, (bind_ok _ _ _ _ _ (run_lift _ _ _ _ El)).
  pose proof (wf_depth _ _ _ _ W) as Hd.
  pose (V := fun k y' => raster nb (w * n) (h * n) 24 (k - (x - x * n) * 24 / 8) (y' - y + y * n)).
  assert (Q1 : 0 <= x * n - r) by (clear - X1 Hr Hn; nia). assert (Q2 : x * n + r < w * n) by (clear - X2 Hr Hn; nia).
  assert (Q3 : 0 <= y * n - r) by (clear - Y1 Hr Hn; nia). assert (Q4 : y * n + r < h * n) by (clear - Y2 Hr Hn; nia).
  match goal with |- exists b', (bind (forM l ?bd) _) _ = _ /\ _ =>
    destruct (in_loop b w h 24 r x y o l W Hr El X1 X2 V bd) as (b' & E & R) end.
  - intros a v b1 Ha Hv Hin W1 H1. cbn [fst snd mirror]. unfold mirror.
    repeat rewrite (bind_ok _ _ _ _ _ (run_lift _ _ _ _ (wf_offsethd _ _ _ _ Wn _ _))). rewrite ?baddr_rowaddr. offs W1. kbfold 24.
    destruct (part_get nb (w * n) (h * n) 24 r (x * n) Wn Hr Q1 Q2 nb a (y * n - v) Wn Ha ltac:(clear - Q3 Q4 Hv; lia)) as (La & Ba & Ga).
    destruct (part_get nb (w * n) (h * n) 24 r (x * n) Wn Hr Q1 Q2 nb a (y * n + v) Wn Ha ltac:(clear - Q3 Q4 Hv; lia)) as (Lb & Bb & Gb).
    set (ua := py_slice nb (rowaddr (w * n) (h * n) 24 (y * n - v) + _) _) in *.
    set (ub := py_slice nb (rowaddr (w * n) (h * n) 24 (y * n + v) + _) _) in *.
    assert (K1 : kb 24 (x - a) = kb 24 (x * n - a) + (x - x * n) * 24 / 8) by (unfold kb; clear; set (q := x * n); clearbody q; lia).
    assert (K2 : kb 24 (x + a) = kb 24 (x * n + a) + (x - x * n) * 24 / 8) by (unfold kb; clear; set (q := x * n); clearbody q; lia).
    destruct (two_put b w h 24 r x y o W Hr X1 X2 Y1 Y2 b1 V a v ua ub W1 Ha Hv) as (b3 & b4 & E3 & W3 & E4 & R4);
      [rewrite La; clear - K1 K2; lia|exact Ba|rewrite Lb; clear - K1 K2; lia|exact Bb|..].
    + intros i Hi. unfold V. rewrite Ga by (clear - Hi K1 K2; lia). f_equal; [clear - K1; lia|ring].
    + intros i Hi. unfold V. rewrite Gb by (clear - Hi K1 K2; lia). f_equal; [clear - K1; lia|ring].
    + exists b4. split; [|exact R4]. rewrite (bind_ok _ _ _ _ _ E3). offs W3. kbfold 24. exact E4.
  - exists b'. split; [now rewrite (bind_ok _ _ _ _ _ E)|].
    apply (disc_repaint b w h 24 r x y l W Hr El b' V _ R). intros px py [Hx Hy] D. unfold V.
    rewrite (rowpix_move 24 x (x * n) (fun k => raster nb (w * n) (h * n) 24 k (py - y + y * n)) px Hd ltac:(clear; set (q := x * n); clearbody q; lia)).
    assert (I : inside (w * n) (h * n) (px - x + x * n) (py - y + y * n)).
    { unfold disc_part in D. apply andb_true_iff in D. destruct D as [D _]. apply andb_true_iff in D. destruct D as [D _].
      cbn [Z.ltb Z.compare Pos.compare Pos.compare_cont] in D. rewrite Z.div_1_r, Z.mul_1_r in D.
      replace (px + 1 - 1 - x) with (px - x) in D by ring.
      assert (Z.abs (px - x) <= r).
      { destruct (Z.le_gt_cases (Z.abs (px - x)) r) as [L|L]; auto. exfalso. rewrite (disc_swap r) in D. rewrite disc_far in D; [discriminate|lia|lia]. }
      assert (Z.abs (py - y) <= r).
      { destruct (Z.le_gt_cases (Z.abs (py - y)) r) as [L|L]; auto. exfalso. rewrite disc_far in D; [discriminate|lia|lia]. }
      unfold inside. lia. }
    replace (x * n + (px - x)) with (px - x + x * n) by ring. replace (y * n + (py - y)) with (py - y + y * n) by ring.
    rewrite <- Pn by exact I. now rewrite pixel_raster.
Qed.
