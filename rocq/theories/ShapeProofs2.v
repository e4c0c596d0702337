(** Composite shapes (proofs): polygons, gradients, grids. *)
From Coq Require Import ZArith List Bool Lia.
From Verif Require Import PyBase PyFacts Spec SpecShapes Bmp BmpFacts PixelProofs PlotList HeaderProofs Buffers Region
  Raster Geometry GeomProofs Draw VertProofs DrawProofs DrawProofs2 DrawProofs3 DrawProofs4 RectProofs Text TextProofs Filters Circle Shapes ShapeProofs.
Import ListNotations.
Open Scope Z_scope.
Open Scope py_scope.
Ltac Zify.zify_post_hook ::= Z.to_euclidean_division_equations.

Section Shapes.
  Variables (b0 : list Z) (w h bits : Z).
  Hypothesis (W0 : wf b0 w h bits) (Hw : 0 < w) (Hh : 0 < h).
  Notation fills := (fills (quiet bits) b0 w h bits).
  Notation paint := (draws (quiet bits) b0 w h bits).
  Let V : valid_depth bits := wf_depth _ _ _ _ W0.
  Let qr := quiet_refl bits.
  Let qt := quiet_trans bits.

  (** *** polylines *)
  Lemma segs_fill (f : Z * Z -> Z * Z -> M unit) hit vs v :
    (forall e, In e (edges vs) -> fills (f (fst e) (snd e)) (hit (fst e) (snd e)) v) ->
    fills (forM (segments vs) (fun s => f (fst s) (snd s))) (any_edge hit (edges vs)) v.
  Proof.
    intros H. rewrite segments_edges. unfold any_edge.
    apply (fills_list _ _ _ _ _ qr qt (edges vs) (fun s => f (fst s) (snd s)) (fun e => hit (fst e) (snd e))). exact H.
  Qed.
  Lemma closed_fill (f : Z * Z -> Z * Z -> M unit) hit vs v : vs <> [] ->
    (forall e, In e (closed_edges vs) -> fills (f (fst e) (snd e)) (hit (fst e) (snd e)) v) ->
    fills (forM (segments vs) (fun s => f (fst s) (snd s)) ;;; closing f vs) (any_edge hit (closed_edges vs)) v.
  Proof.
    intros N H. destruct vs as [|u vs]; [contradiction|]. cbn [closing].
    eapply fills_ext; [|apply (fills_seq _ _ _ _ _ qt); [apply segs_fill|apply (H (u, last (u :: vs) u))]].
    - intros px py _. unfold any_edge, closed_edges. rewrite existsb_app. cbn [existsb]. now rewrite orb_false_r.
    - intros e He. apply H. unfold closed_edges. apply in_or_app. now left.
    - unfold closed_edges. apply in_or_app. right. now left.
  Qed.
  Lemma plotlines_thin vs c p : 0 <= c < 2 ^ bits -> p <= 1 -> Forall (fun e => seg_fits w h bits (fst e) (snd e)) (edges vs) ->
    fills (plotlines vs c p) (any_edge (seg_hit w h) (edges vs)) c.
  Proof.
    intros Hc Hp HF. unfold plotlines. replace (p <=? 1) with true by (symmetry; now apply Z.leb_le).
    apply (segs_fill (fun u v => linevec u v c)). intros e He. apply line_fills; auto. rewrite Forall_forall in HF. now apply HF.
  Qed.
  Lemma plotlines_thick vs c p : storable bits c -> 1 < p -> Forall (fun e => pen_at bits (Z.min (fst (fst e)) (fst (snd e)))) (edges vs) ->
    fills (plotlines vs c p) (any_edge (thick_seg p) (edges vs)) (reduce bits c).
  Proof.
    intros Hc Hp HF. unfold plotlines. replace (p <=? 1) with false by (symmetry; now apply Z.leb_gt).
    apply (segs_fill (fun u v => thickroundline u v p c)). intros e He. apply thickline_fills; auto. rewrite Forall_forall in HF. now apply HF.
  Qed.
  Lemma plotpoly_fill vs c : 0 <= c < 2 ^ bits -> vs <> [] -> Forall (fun e => seg_fits w h bits (fst e) (snd e)) (closed_edges vs) ->
    fills (plotpoly vs c) (any_edge (seg_hit w h) (closed_edges vs)) c.
  Proof.
    intros Hc N HF. unfold plotpoly, plotlines. change (1 <=? 1) with true. cbv iota.
    apply (closed_fill (fun u v => linevec u v c)); auto. intros e He. apply line_fills; auto. rewrite Forall_forall in HF. now apply HF.
  Qed.
  Lemma plotpolylist_fill l c : 0 <= c < 2 ^ bits ->
    Forall (fun vs => vs <> [] /\ Forall (fun e => seg_fits w h bits (fst e) (snd e)) (closed_edges vs)) l ->
    fills (plotpolylist l c) (fun x y => existsb (fun vs => any_edge (seg_hit w h) (closed_edges vs) x y) l) c.
  Proof.
    intros Hc HF. unfold plotpolylist. rewrite Forall_forall in HF.
    apply (fills_list _ _ _ _ _ qr qt l (fun vs => plotpoly vs c) (fun vs => any_edge (seg_hit w h) (closed_edges vs))).
    intros vs Hv. destruct (HF _ Hv). apply plotpoly_fill; auto.
  Qed.
  Lemma thickpoly_fill vs c p : storable bits c -> vs <> [] ->
    Forall (fun e => pen_at bits (Z.min (fst (fst e)) (fst (snd e)))) (closed_edges vs) ->
    fills (thickplotpoly vs p c) (any_edge (thick_seg p) (closed_edges vs)) (reduce bits c).
  Proof.
    intros Hc N HF. unfold thickplotpoly.
    apply (closed_fill (fun u v => thickroundline u v p c)); auto. intros e He. apply thickline_fills; auto. rewrite Forall_forall in HF. now apply HF.
  Qed.
  Lemma rectangle_fill x1 y1 x2 y2 c : 0 <= c < 2 ^ bits -> bits <> 4 ->
    fills (rectangle x1 y1 x2 y2 c) (fun x y =>
      in_box (into w x1) (into h y1) (into w x2) (into h y2) x y &&
      ((x =? into w x1) || (x =? into w x2) || (y =? into h y1) || (y =? into h y2))) c.
  Proof.
    intros Hc N4. unfold rectangle.
    assert (ND : forall a p q, is_diagonal a p a q = false).
    { intros. unfold is_diagonal. now rewrite Z.eqb_refl, andb_false_r. }
    assert (NH : forall a p q, is_diagonal p a q a = false).
    { intros. unfold is_diagonal. apply andb_false_iff. destruct (Z.eq_dec p q) as [->|K]; [right; now rewrite Z.eqb_refl|left].
      apply Z.eqb_neq. lia. }
    eapply fills_ext; [|apply plotpoly_fill; auto; [discriminate|]].
    - intros px py _. unfold recvert, closed_edges, any_edge, edges. cbn [tl combine app last existsb fst snd].
      unfold seg_hit, seg_points. cbn [fst snd]. rewrite !ND, !NH, !on_line_vert, !on_line_hori, orb_false_r.
      set (a1 := into w x1). set (a2 := into w x2). set (d1 := into h y1). set (d2 := into h y2). clearbody a1 a2 d1 d2.
      apply eq_true_iff_eq. unfold in_box.
      rewrite !orb_true_iff, !andb_true_iff, !Z.leb_le, !orb_true_iff, !Z.eqb_eq. clear. lia.
    - unfold recvert, closed_edges, edges. cbn [tl combine app last].
      repeat constructor; cbn [fst snd]; intros; try contradiction; try (rewrite ?ND, ?NH in *; discriminate).
  Qed.

  (** *** gradients *)
  Lemma graded (act : Z -> Z -> M unit) S col m n :
    (forall i, m <= i <= n -> 0 <= col i < 2 ^ 24 /\ forall c, 0 <= c < 2 ^ bits -> fills (act i c) (S i) c) ->
    paint (forM (rev (range m (n + 1))) (fun i => c <- depthcolor (col i) ;; act i c))
      (fun px py => option_map (fun i => dcol b0 bits (col i)) (top_layer S m n px py)).
  Proof.
    intros H. unfold top_layer. apply (layers _ _ _ _ _ qr qt). intros i Hi. apply in_range in Hi.
    destruct (H i ltac:(lia)) as [Hc Ha]. intros b o W Sh.
    rewrite (bind_ok _ _ _ _ _ (depthcolor_run b0 b w h bits (col i) o W Sh Hc)).
    apply Ha; auto. eapply dcol_range; eauto.
  Qed.
  Lemma graded24 (act : Z -> M unit) S col m n : bits = 24 ->
    (forall i, m <= i <= n -> fills (act i) (S i) (col i)) ->
    paint (forM (rev (range m (n + 1))) act)
      (fun px py => option_map col (top_layer S m n px py)).
  Proof. intros E H. unfold top_layer. apply (layers _ _ _ _ _ qr qt). intros i Hi. apply in_range in Hi. apply H. lia. Qed.

  Lemma small_storable c : 0 <= c < 2 ^ bits -> storable bits c.
  Proof. intros H ->. exact H. Qed.
  Lemma into_thick act S c : 0 <= c < 2 ^ bits -> fills act S (reduce bits c) -> fills act S c.
  Proof. intros Hc. now rewrite (reduce_id bits c V Hc). Qed.

  Lemma gradline_paint u v p col : (forall i, 1 <= i <= p -> 0 <= col i < 2 ^ 24) -> pen_at bits (Z.min (fst u) (fst v)) ->
    paint (gradthickroundline col u v p)
      (fun px py => option_map (fun i => dcol b0 bits (col i)) (top_layer (fun i => thick_seg i u v) 1 p px py)).
  Proof.
    intros Hc HP. apply (graded (fun i c => thickroundline u v i c)). intros i Hi. split; [now apply Hc|].
    intros c Hcc. apply into_thick; auto. apply thickline_fills; auto using small_storable.
  Qed.
  Lemma gradpoly_paint vs p col : (forall i, 1 <= i <= p -> 0 <= col i < 2 ^ 24) -> vs <> [] ->
    Forall (fun e => pen_at bits (Z.min (fst (fst e)) (fst (snd e)))) (closed_edges vs) ->
    paint (gradthickplotpoly col vs p)
      (fun px py => option_map (fun i => dcol b0 bits (col i)) (top_layer (fun i => any_edge (thick_seg i) (closed_edges vs)) 1 p px py)).
  Proof.
    intros Hc N HP. apply (graded (fun i c => thickplotpoly vs i c)). intros i Hi. split; [now apply Hc|].
    intros c Hcc. apply into_thick; auto. apply thickpoly_fill; auto using small_storable.
  Qed.
  Lemma gradlines_paint vs p col : (forall i, 1 <= i <= p -> 0 <= col i < 2 ^ 24) ->
    Forall (fun e => seg_fits w h bits (fst e) (snd e) /\ pen_at bits (Z.min (fst (fst e)) (fst (snd e)))) (edges vs) ->
    paint (gradplotlines col vs p)
      (fun px py => option_map (fun i => dcol b0 bits (col i))
         (top_layer (fun i => any_edge (if i =? 1 then seg_hit w h else thick_seg i) (edges vs)) 1 p px py)).
  Proof.
    intros Hc HP. apply (graded (fun i c => plotlines vs c i)). intros i Hi. split; [now apply Hc|].
    intros c Hcc. destruct (Z.eqb_spec i 1) as [-> |Ni].
    - apply plotlines_thin; auto; [lia|]. eapply Forall_impl; [|exact HP]. cbn beta. tauto.
    - apply into_thick; auto. apply plotlines_thick; auto using small_storable; [lia|]. eapply Forall_impl; [|exact HP]. cbn beta. tauto.
  Qed.

  (** *** points *)
  Lemma points_thin vs c p : storable bits c -> p <= 1 ->
    fills (plotxypointlist vs p c) (fun px py => existsb (fun q => (px =? fst q) && (py =? snd q)) vs) (reduce bits c).
  Proof.
    intros Hc Hp. unfold plotxypointlist.
    apply (fills_list _ _ _ _ _ qr qt vs (fun v => roundpen (fst v) (snd v) p c) (fun q px py => (px =? fst q) && (py =? snd q))).
    intros [x y] _ b o W Sh. cbn [fst snd]. unfold roundpen. replace (p <=? 1) with true by (symmetry; now apply Z.leb_le).
    destruct (plot_any b w h bits o x y c W Hc) as (b' & E & R). exists b', o. split; [exact E|]. split; [apply qr|].
    eapply repainted_ext; [|exact R]. intros px py _. unfold put_px. cbn beta. now destruct ((px =? x) && (py =? y)).
  Qed.
  Lemma points_thick vs c p : storable bits c -> 1 < p -> Forall (fun q => pen_at bits (fst q)) vs ->
    fills (plotxypointlist vs p c) (fun px py => existsb (fun q => in_disc p (px - fst q) (py - snd q)) vs) (reduce bits c).
  Proof.
    intros Hc Hp HF. unfold plotxypointlist. rewrite Forall_forall in HF.
    apply (fills_list _ _ _ _ _ qr qt vs (fun v => roundpen (fst v) (snd v) p c) (fun q px py => in_disc p (px - fst q) (py - snd q))).
    intros q Hq. unfold roundpen. replace (p <=? 1) with false by (symmetry; now apply Z.leb_gt).
    eapply fills_ext; [|apply disc_fills; auto]. intros px py _. cbn beta. replace (0 <=? p) with true by (symmetry; apply Z.leb_le; lia).
    now rewrite andb_true_r.
  Qed.
  Lemma gradvert_paint vs p col : (forall i, 1 <= i <= p -> 0 <= col i < 2 ^ 24) -> Forall (fun q => pen_at bits (fst q)) vs ->
    paint (gradvert col vs p)
      (fun px py => option_map (fun i => dcol b0 bits (col i))
         (top_layer (fun i x y => existsb (fun q => if i =? 1 then (x =? fst q) && (y =? snd q) else in_disc i (x - fst q) (y - snd q)) vs) 1 p px py)).
  Proof.
    intros Hc HP. apply (graded (fun i c => plotxypointlist vs i c)). intros i Hi. split; [now apply Hc|].
    intros c Hcc. apply into_thick; auto. destruct (Z.eqb_spec i 1) as [-> |Ni].
    - apply points_thin; auto using small_storable. lia.
    - apply points_thick; auto using small_storable. lia.
  Qed.
  Lemma discs_fills pts c p : storable bits c -> 0 <= p -> Forall (fun q => pen_at bits (fst q)) pts ->
    fills (thickellipserot pts p c) (fun px py => existsb (fun q => in_disc p (px - fst q) (py - snd q)) pts) (reduce bits c).
  Proof.
    intros Hc Hp HF. unfold thickellipserot. rewrite Forall_forall in HF.
    apply (fills_list _ _ _ _ _ qr qt pts (fun v => circle (fst v) (snd v) p c true) (fun q px py => in_disc p (px - fst q) (py - snd q))).
    intros q Hq.
    eapply fills_ext; [|apply disc_fills; auto]. intros px py _. cbn beta. replace (0 <=? p) with true by (symmetry; apply Z.leb_le; lia).
    now rewrite andb_true_r.
  Qed.
  Lemma graddiscs_paint pts p col : (forall i, 1 <= i <= p -> 0 <= col i < 2 ^ 24) -> Forall (fun q => pen_at bits (fst q)) pts ->
    paint (gradthickellipserot col pts p)
      (fun px py => option_map (fun i => dcol b0 bits (col i))
         (top_layer (fun i x y => existsb (fun q => in_disc i (x - fst q) (y - snd q)) pts) 1 p px py)).
  Proof.
    intros Hc HP. apply (graded (fun i c => thickellipserot pts i c)). intros i Hi. split; [now apply Hc|].
    intros c Hcc. apply into_thick; auto. apply discs_fills; auto using small_storable. lia.
  Qed.

  (** *** circles *)
  Lemma pen_le x x' : pen_at bits x -> x <= x' -> pen_at bits x'.
  Proof. intros (A & B & C) L. unfold pen_at. repeat split; auto; intros E; [specialize (B E)|specialize (C E)]; lia. Qed.
  Lemma ring_fills x y r p c : storable bits c -> pen_at bits (x - r) -> 0 <= r ->
    fills (thickcircle x y r p c) (thick_ring p x y r) (reduce bits c).
  Proof.
    intros Hc HP Hr. eapply fills_ext; [|apply thickcircle_fills; auto]. intros px py _.
    replace (0 <=? r) with true by (symmetry; now apply Z.leb_le). now rewrite andb_true_r.
  Qed.
  Lemma gradring_paint x y r p col : (forall i, 1 <= i <= p -> 0 <= col i < 2 ^ 24) -> pen_at bits (x - r) -> 0 <= r ->
    paint (gradthickcircle col x y r p)
      (fun px py => option_map (fun i => dcol b0 bits (col i)) (top_layer (fun i => thick_ring i x y r) 1 p px py)).
  Proof.
    intros Hc HP Hr. apply (graded (fun i c => thickcircle x y r i c)). intros i Hi. split; [now apply Hc|].
    intros c Hcc. apply into_thick; auto. apply ring_fills; auto using small_storable.
  Qed.
  Lemma gradcircle_paint x y r col : (forall i, 1 <= i < r -> 0 <= col i < 2 ^ 24) -> pen_at bits (x - r) ->
    paint (gradcircle col x y r)
      (fun px py => option_map (fun i => dcol b0 bits (col i)) (top_layer (fun i => thick_ring 2 x y i) 1 (r - 1) px py)).
  Proof.
    intros Hc HP. apply (graded (fun i c => thickcircle x y i 2 c)). intros i Hi. split; [apply Hc; lia|].
    intros c Hcc. apply into_thick; auto. apply ring_fills; auto using small_storable; [|lia]. eapply pen_le; eauto. lia.
  Qed.
  Lemma dichromic_paint x y r col : bits = 24 -> (forall i, 1 <= i < r -> 0 <= col i < 2 ^ 24) -> pen_at bits (x - r) ->
    paint (forM (countdown (r - 1)) (fun i => thickcircle x y i 2 (col i)))
      (fun px py => option_map col (top_layer (fun i => thick_ring 2 x y i) 1 (r - 1) px py)).
  Proof.
    intros E Hc HP. apply graded24; [exact E|]. intros i Hi. assert (Hcc : 0 <= col i < 2 ^ bits) by (rewrite E; apply Hc; lia).
    apply into_thick; auto. apply ring_fills; auto using small_storable; [|lia]. eapply pen_le; eauto. lia.
  Qed.
  Lemma orb_paint c0 x y r col : 0 <= c0 < 2 ^ 24 -> (forall i, r / 2 < i < r -> 0 <= col i < 2 ^ 24) -> pen_at bits (x - r) -> 0 <= r ->
    paint (orb c0 col x y r)
      (fun px py => match option_map (fun i => dcol b0 bits (col i)) (top_layer (fun i => thick_ring 2 x y i) (r / 2 + 1) (r - 1) px py) with
                    | Some v => Some v
                    | None => if in_disc (r / 2) (px - x) (py - y) then Some (dcol b0 bits c0) else None
                    end).
  Proof.
    intros H0 Hc HP Hr. unfold orb. rewrite (Z.shiftr_div_pow2 r 1) by lia. change (2 ^ 1) with 2.
    replace (range (r / 2 + 1) r) with (range (r / 2 + 1) (r - 1 + 1)) by (f_equal; ring).
    intros b o W Sh. rewrite (bind_ok _ _ _ _ _ (depthcolor_run b0 b w h bits c0 o W Sh H0)).
    revert b o W Sh. pose proof (dcol_range b0 w h bits c0 W0 H0) as HD.
    assert (D1 : fills (circle x y (r / 2) (dcol b0 bits c0) true) (fun px py => in_disc (r / 2) (px - x) (py - y)) (dcol b0 bits c0)).
    { apply into_thick; auto. eapply fills_ext; [|apply disc_fills; auto using small_storable; eapply pen_le; eauto; lia].
      intros px py _. cbn beta. replace (0 <=? r / 2) with true by (symmetry; apply Z.leb_le, Z.div_pos; lia). now rewrite andb_true_r. }
    assert (D2 := graded (fun i c => thickcircle x y i 2 c) (fun i => thick_ring 2 x y i) col (r / 2 + 1) (r - 1)).
    unfold circle in D1. cbv iota in D1.
    refine (draws_seq _ _ _ _ _ qt _ _ _ _ D1 (D2 _)).
    intros i Hi. split; [apply Hc; lia|]. intros c Hcc. apply into_thick; auto.
    assert (0 <= r / 2) by (apply Z.div_pos; lia).
    apply ring_fills; auto using small_storable; [|lia]. eapply pen_le; eauto. lia.
  Qed.
End Shapes.

(** *** grids *)
Lemma existsb_ext {A} (f g : A -> bool) l : (forall a, f a = g a) -> existsb f l = existsb g l.
Proof. intros H. induction l as [|a l IH]; [reflexivity|]. cbn [existsb]. now rewrite H, IH. Qed.
Definition lines_out (o o' : list msg) : Prop := exists n, o' = o ++ repeat Mlineoutofbnd n.
Lemma lines_out_refl o : lines_out o o. Proof. exists O. now rewrite app_nil_r. Qed.
Lemma lines_out_trans o1 o2 o3 : lines_out o1 o2 -> lines_out o2 o3 -> lines_out o1 o3.
Proof. intros [n ->] [m ->]. exists (n + m)%nat. now rewrite <- app_assoc, repeat_app. Qed.
Section Grid.
  Variables (b0 : list Z) (w h bits : Z).
  Hypothesis (W0 : wf b0 w h bits) (N4 : bits <> 4) (Hh : 0 < h).
  Notation fills := (fills lines_out b0 w h bits).
  Let V : valid_depth bits := wf_depth _ _ _ _ W0.

  Lemma hline_fills y x1 x2 c : storable bits c -> -1 <= Z.max x1 x2 ->
    fills (horiline y x1 x2 c) (in_box x1 y x2 y) (reduce bits c).
  Proof.
    intros Hs Hx b o W Sh. destruct (Z_le_gt_dec 0 y) as [L|L]; [destruct (Z_lt_ge_dec y h) as [L'|L']|].
    2,3: exists b, (o ++ [Mlineoutofbnd]); split; [apply (hori_out b w h bits); auto; lia|]; split; [now exists 1%nat|];
      eapply repainted_ext; [|apply repainted_refl; exact W]; intros px py [_ Hy]; unfold in_box; cbn beta;
      match goal with |- _ = match (if ?q then _ else _) with _ => _ end => replace q with false by (bcases; auto; lia) end; reflexivity.
    assert (HB : bits = 1 \/ (bits = 8 \/ bits = 24)) by (destruct V as [?|[?|[?|?]]]; auto; contradiction).
    destruct HB as [E|HB].
    - destruct (hori_bit b w h bits y x1 x2 c W Hs o E ltac:(lia)) as (b' & E1 & R). exists b', o.
      split; [exact E1|]. split; [apply lines_out_refl|]. eapply repainted_ext; [|exact R]. intros px py _. cbn beta. now destruct (in_box x1 y x2 y px py).
    - destruct (hori_bytes b w h bits y x1 x2 c W Hs o HB ltac:(lia)) as (b' & E1 & R).
      { destruct HB as [E|E]; rewrite E; [change (data_off 8) with 1078; change (pbytes 8) with 1|
            change (data_off 24) with 54; change (pbytes 24) with 3]; clear - Hx; lia. }
      exists b', o.
      split; [exact E1|]. split; [apply lines_out_refl|]. eapply repainted_ext; [|exact R]. intros px py _. cbn beta. now destruct (in_box x1 y x2 y px py).
  Qed.
  Lemma vline_fills x y1 y2 c : storable bits c -> Z.min y1 y2 <= h ->
    fills (vertline x y1 y2 c) (in_box x y1 x y2) (reduce bits c).
  Proof.
    intros Hs Hy b o W Sh.
    assert (HB : bits = 1 \/ (bits = 8 \/ bits = 24)) by (destruct V as [?|[?|[?|?]]]; auto; contradiction).
    destruct HB as [E|HB].
    - destruct (vert_points b w h bits x y1 y2 c W Hs o ltac:(auto)) as (b' & E1 & R). exists b', o.
      split; [exact E1|]. split; [apply lines_out_refl|]. eapply repainted_ext; [|exact R]. intros px py _. cbn beta. now destruct (in_box x y1 x y2 px py).
    - destruct (Z_le_gt_dec 0 x) as [L|L]; [destruct (Z_lt_ge_dec x w) as [L'|L']|].
      2,3: exists b, (o ++ [Mlineoutofbnd]); split; [apply (vert_out b w h bits); auto; lia|]; split; [now exists 1%nat|];
        eapply repainted_ext; [|apply repainted_refl; exact W]; intros px py [Hx _]; unfold in_box; cbn beta;
        match goal with |- _ = match (if ?q then _ else _) with _ => _ end => replace q with false by (bcases; auto; lia) end; reflexivity.
      assert (HS : 0 <= stride w bits) by (unfold stride; destruct HB as [-> | ->]; lia).
      destruct (vert_bytes b w h bits x y1 y2 c W Hs o HB ltac:(lia) Hh) as (b' & E1 & R).
      { assert (0 <= (h - Z.min y1 y2) * stride w bits) by (apply Z.mul_nonneg_nonneg; lia).
        destruct HB as [E|E]; rewrite E in *; [change (data_off 8) with 1078; change (pbytes 8) with 1|
            change (data_off 24) with 54; change (pbytes 24) with 3]; lia. }
      exists b', o.
      split; [exact E1|]. split; [apply lines_out_refl|]. eapply repainted_ext; [|exact R]. intros px py _. cbn beta. now destruct (in_box x y1 x y2 px py).
  Qed.
  Lemma fills_lift {A} (r : res A) a (k : A -> M unit) S v : r = Ok a -> fills (k a) S v -> fills (bind (lift r) k) S v.
  Proof. intros E H b o W Sh. rewrite (bind_ok _ _ _ _ _ (run_lift _ _ _ _ E)). now apply H. Qed.
  Lemma in_step a b k z : 0 < k -> In z (range_step a b k) <-> exists i, 0 <= i /\ z = a + i * k /\ z < b.
  Proof.
    intros Hk. unfold range_step. rewrite in_map_iff. split.
    - intros (i & <- & Hi). apply in_range in Hi. exists i. unfold stepcount in Hi. split; [lia|]. split; [reflexivity|].
      destruct (Z.leb_spec b a); [lia|].
      assert (H1 : i <= (b - a - 1) / k) by lia. assert (H2 : k * ((b - a - 1) / k) <= b - a - 1) by (apply Z.mul_div_le; lia).
      clear - Hk H1 H2. set (q := (b - a - 1) / k) in *. clearbody q. nia.
    - intros (i & Hi & -> & Hb). exists i. split; [reflexivity|]. apply in_range. unfold stepcount. split; [lia|].
      destruct (Z.leb_spec b a); [nia|].
      assert (i <= (b - a - 1) / k) by (apply Z.div_le_lower_bound; lia). lia.
  Qed.
  Lemma step_box a b k z (q : bool) : 0 < k ->
    existsb (fun x => (z =? x) && q) (range_step a b k) = ((a <=? z) && (z <? b) && ((z - a) mod k =? 0)) && q.
  Proof.
    intros Hk. apply eq_true_iff_eq. rewrite existsb_exists, !andb_true_iff, Z.leb_le, Z.ltb_lt, Z.eqb_eq. split.
    - intros (x & Hx & H). apply andb_true_iff in H. destruct H as [H Hy]. apply Z.eqb_eq in H. subst z.
      apply in_step in Hx; auto. split; auto. destruct Hx as (i & Hi & -> & Hb). split; [nia|].
      replace (a + i * k - a) with (i * k) by ring. apply Z.mod_mul. lia.
    - intros [[Hz Hm] Hy]. exists z. rewrite Z.eqb_refl. split; [|exact Hy]. apply in_step; auto.
      exists ((z - a) / k). assert (z - a = k * ((z - a) / k)) by (apply Z_div_exact_full_2; lia).
      split; [apply Z.div_pos; lia|]. split; [|tauto]. rewrite Z.mul_comm. lia.
  Qed.
  Lemma grid_fills x1 y1 x2 y2 xs ys c : storable bits c -> 0 < xs -> 0 < ys -> -1 <= Z.max x1 x2 -> Z.min y1 y2 <= h ->
    fills (xygrid x1 y1 x2 y2 xs ys c) (fun px py =>
      in_box x1 y1 x2 y2 px py &&
      ((negb (px =? Z.max x1 x2) && ((px - Z.min x1 x2) mod xs =? 0)) ||
       (negb (py =? Z.max y1 y2) && ((py - Z.min y1 y2) mod ys =? 0)))) (reduce bits c).
  Proof.
    intros Hs Hxs Hys Hx Hy. unfold xygrid. rewrite sortrec. unfold lo, hi.
    set (a1 := Z.min x1 x2) in *. set (a2 := Z.max x1 x2) in *. set (d1 := Z.min y1 y2) in *. set (d2 := Z.max y1 y2) in *.
    assert (E1 : pyrange3 a1 a2 xs = Ok (range_step a1 a2 xs)).
    { unfold pyrange3. replace (xs =? 0) with false by (symmetry; apply Z.eqb_neq; lia). replace (xs <? 0) with false by (symmetry; apply Z.ltb_ge; lia). reflexivity. }
    assert (E2 : pyrange3 d1 d2 ys = Ok (range_step d1 d2 ys)).
    { unfold pyrange3. replace (ys =? 0) with false by (symmetry; apply Z.eqb_neq; lia). replace (ys <? 0) with false by (symmetry; apply Z.ltb_ge; lia). reflexivity. }
    eapply fills_lift; [exact E1|]. cbv beta.
    eapply fills_ext; [|apply (fills_seq _ _ _ _ _ lines_out_trans);
      [apply (fills_list _ _ _ _ _ lines_out_refl lines_out_trans (range_step a1 a2 xs) (fun x => vertline x d1 d2 c) (fun x => in_box x d1 x d2))|
       eapply fills_lift; [exact E2|]; cbv beta;
       apply (fills_list _ _ _ _ _ lines_out_refl lines_out_trans (range_step d1 d2 ys) (fun y => horiline y a1 a2 c) (fun y => in_box a1 y a2 y))]].
    - intros px py _. cbv beta.
      assert (A : existsb (fun x => in_box x d1 x d2 px py) (range_step a1 a2 xs) = existsb (fun x => (px =? x) && ((d1 <=? py) && (py <=? d2))) (range_step a1 a2 xs)).
      { apply existsb_ext. intros x. unfold in_box. apply eq_true_iff_eq. rewrite !andb_true_iff, !Z.leb_le, Z.eqb_eq. unfold d1, d2. clear. lia. }
      assert (B : existsb (fun y => in_box a1 y a2 y px py) (range_step d1 d2 ys) = existsb (fun y => (py =? y) && ((a1 <=? px) && (px <=? a2))) (range_step d1 d2 ys)).
      { apply existsb_ext. intros y. unfold in_box. apply eq_true_iff_eq. rewrite !andb_true_iff, !Z.leb_le, Z.eqb_eq. unfold a1, a2. clear. lia. }
      rewrite A, B, !step_box by auto. unfold in_box. fold a1 a2 d1 d2. apply eq_true_iff_eq.
      rewrite !orb_true_iff, !andb_true_iff, !orb_true_iff, !andb_true_iff, !negb_true_iff, !Z.leb_le, !Z.ltb_lt, !Z.eqb_eq, !Z.eqb_neq.
      set (m1 := (px - a1) mod xs) in *. set (m2 := (py - d1) mod ys). clearbody m1 m2 a1 a2 d1 d2. clear. lia.
    - intros x _. apply vline_fills; auto. unfold d1, d2. clear - Hy. lia.
    - intros y _. apply hline_fills; auto. unfold a1, a2. clear - Hx. lia.
  Qed.
  Lemma vlines_fills vs len adj c : storable bits c -> Forall (fun v => Z.min (snd v) (snd v + len + adj) <= h) vs ->
    fills (vertlinevert vs len adj c) (fun px py => existsb (fun v => in_box (fst v) (snd v) (fst v) (snd v + len + adj) px py) vs) (reduce bits c).
  Proof.
    intros Hs HF. rewrite Forall_forall in HF. unfold vertlinevert.
    apply (fills_list _ _ _ _ _ lines_out_refl lines_out_trans vs (fun v => vertline (fst v) (snd v) (snd v + len + adj) c)
      (fun v => in_box (fst v) (snd v) (fst v) (snd v + len + adj))).
    intros v Hv. apply vline_fills; auto.
  Qed.
  Lemma hlines_fills vs len adj c : storable bits c -> Forall (fun v => -1 <= Z.max (fst v) (fst v + len + adj)) vs ->
    fills (horilinevert vs len adj c) (fun px py => existsb (fun v => in_box (fst v) (snd v) (fst v + len + adj) (snd v) px py) vs) (reduce bits c).
  Proof.
    intros Hs HF. rewrite Forall_forall in HF. unfold horilinevert.
    apply (fills_list _ _ _ _ _ lines_out_refl lines_out_trans vs (fun v => horiline (snd v) (fst v) (fst v + len + adj) c)
      (fun v => in_box (fst v) (snd v) (fst v + len + adj) (snd v))).
    intros v Hv. apply hline_fills; auto.
  Qed.
End Grid.
