(** Composite shapes (proofs): gradient rectangles, parallelograms, exchanged pixels. *)
From Coq Require Import ZArith List Bool Lia.
From Verif Require Import PyBase PyFacts Spec SpecShapes Bmp BmpFacts PixelProofs PlotList HeaderProofs Buffers Region
  Raster Geometry GeomProofs Draw VertProofs DrawProofs DrawProofs2 DrawProofs3 DrawProofs4 RectProofs Text TextProofs Filters FilterProofs
  Circle Shapes ShapeProofs ShapeProofs2.
Import ListNotations.
Open Scope Z_scope.
Open Scope py_scope.
Ltac Zify.zify_post_hook ::= Z.to_euclidean_division_equations.

Lemma guard8_true {A} b w h bits o x1 y1 x2 y2 (f : M A) : wf b w h bits -> bits = 8 \/ bits = 24 ->
  inside w h x1 y1 -> inside w h x2 y2 ->
  func8and24bitonlyandentirerectinboundary x1 y1 x2 y2 f (mkst b o) = withSome f (mkst b o).
Proof.
  intros W HB I1 I2. unfold func8and24bitonlyandentirerectinboundary.
  rewrite (bind_ok _ _ _ _ _ (wf_geti_bits _ _ _ _ W o)).
  replace (negb ((bits =? 24) || (bits =? 8))) with false by (destruct HB as [-> | ->]; reflexivity).
  rewrite (bind_ok _ _ _ _ _ (run_rd _ _ _ _ (wf_inbnd_true _ _ _ _ W _ _ I1))).
  rewrite (bind_ok _ _ _ _ _ (run_rd _ _ _ _ (wf_inbnd_true _ _ _ _ W _ _ I2))). reflexivity.
Qed.

Section Grad.
  Variables (b0 : list Z) (w h bits : Z).
  Hypothesis (W0 : wf b0 w h bits) (HB : bits = 8 \/ bits = 24).
  Notation fills := (fills eq b0 w h bits).
  Notation paint := (draws eq b0 w h bits).

  (** lists of stripes, one for each value of a key *)
  Lemma stripes l (act : Z -> M unit) (key : Z -> Z -> Z) (q : Z -> Z -> bool) (col : Z -> Z) :
    (forall i, In i l -> fills (act i) (fun px py => (key px py =? i) && q px py) (col i)) ->
    paint (forM l act) (fun px py => if existsb (Z.eqb (key px py)) l && q px py then Some (col (key px py)) else None).
  Proof.
    intros H. eapply draws_ext; [|exact (draws_list _ _ _ _ _ (@eq_refl _) (@eq_trans _) l act _ H)].
    intros px py _. cbn beta. clear H.
    assert (G : forall acc, (acc = None \/ acc = Some (col (key px py))) ->
      fold_left (fun acc i => match (if (key px py =? i) && q px py then Some (col i) else None) with Some v => Some v | None => acc end) l acc =
      if existsb (Z.eqb (key px py)) l && q px py then Some (col (key px py)) else acc).
    { induction l as [|i l IH]; intros acc Ha; [reflexivity|]. cbn [fold_left existsb].
      destruct (Z.eqb_spec (key px py) i) as [E|N]; cbn [andb orb].
      - subst i. destruct (q px py) eqn:Q.
        + rewrite IH by (right; reflexivity). rewrite ?Q, ?andb_true_r. now destruct (existsb _ l).
        + rewrite IH by auto. now rewrite ?Q, ?andb_false_r.
      - now rewrite IH. }
    now apply G; left.
  Qed.
  Lemma mem_range k a b : existsb (Z.eqb k) (range a b) = (a <=? k) && (k <? b).
  Proof.
    apply eq_true_iff_eq. rewrite existsb_exists, andb_true_iff, Z.leb_le, Z.ltb_lt. split.
    - intros (i & Hi & E). apply Z.eqb_eq in E. subst i. apply in_range in Hi. lia.
    - intros H. exists k. split; [apply in_range; lia|apply Z.eqb_refl].
  Qed.

  Variables (x1 y1 x2 y2 : Z).
  Hypothesis (I1 : inside w h x1 y1) (I2 : inside w h x2 y2) (Lx : x1 <= x2) (Ly : y1 <= y2).

  Lemma vstripe x c : x1 <= x <= x2 -> storable bits c ->
    fills (vertline x y1 y2 c) (fun px py => (px =? x) && ((y1 <=? py) && (py <=? y2))) (reduce bits c).
  Proof.
    intros Hx Hs b o W Sh. destruct I1 as [A1 A2], I2 as [A3 A4].
    assert (HS : 0 <= stride w bits) by (unfold stride; destruct HB as [-> | ->]; lia).
    destruct (vert_bytes b w h bits x y1 y2 c W Hs o HB ltac:(lia) ltac:(lia)) as (b' & E & R).
    { assert (0 <= (h - Z.min y1 y2) * stride w bits) by (apply Z.mul_nonneg_nonneg; lia).
      destruct HB as [E|E]; rewrite E in *; [change (data_off 8) with 1078; change (pbytes 8) with 1|
            change (data_off 24) with 54; change (pbytes 24) with 3]; lia. }
    exists b', o. split; [exact E|]. split; [reflexivity|]. eapply repainted_ext; [|exact R]. intros px py _. cbn beta.
    replace (in_box x y1 x y2 px py) with ((px =? x) && ((y1 <=? py) && (py <=? y2))).
    - destruct (_ && _); reflexivity.
    - unfold in_box. clear - Ly. apply eq_true_iff_eq. rewrite !andb_true_iff, !Z.leb_le, Z.eqb_eq. lia.
  Qed.
  Lemma hstripe y c : y1 <= y <= y2 -> storable bits c ->
    fills (horiline y x1 x2 c) (fun px py => (py =? y) && ((x1 <=? px) && (px <=? x2))) (reduce bits c).
  Proof.
    intros Hy Hs b o W Sh. destruct I1 as [A1 A2], I2 as [A3 A4].
    destruct (hori_bytes b w h bits y x1 x2 c W Hs o HB ltac:(lia)) as (b' & E & R).
    { destruct HB as [E|E]; rewrite E; [change (data_off 8) with 1078; change (pbytes 8) with 1|
            change (data_off 24) with 54; change (pbytes 24) with 3]; clear - A1 A3; lia. }
    exists b', o. split; [exact E|]. split; [reflexivity|]. eapply repainted_ext; [|exact R]. intros px py _. cbn beta.
    replace (in_box x1 y x2 y px py) with ((py =? y) && ((x1 <=? px) && (px <=? x2))).
    - destruct (_ && _); reflexivity.
    - unfold in_box. clear - Lx. apply eq_true_iff_eq. rewrite !andb_true_iff, !Z.leb_le, Z.eqb_eq. lia.
  Qed.
  Lemma fills_depth act S c : 0 <= c < 2 ^ 24 -> (forall v, 0 <= v < 2 ^ bits -> fills (act v) S (reduce bits v)) ->
    fills (v <- depthcolor c ;; act v) S (dcol b0 bits c).
  Proof.
    intros Hc H b o W Sh. rewrite (bind_ok _ _ _ _ _ (depthcolor_run b0 b w h bits c o W Sh Hc)).
    pose proof (dcol_range b0 w h bits c W0 Hc) as Hd. specialize (H _ Hd).
    rewrite (reduce_id bits _ (wf_depth _ _ _ _ W0) Hd) in H. now apply H.
  Qed.
  Lemma small_st c : 0 <= c < 2 ^ bits -> storable bits c.
  Proof. intros H ->. exact H. Qed.

  Lemma vgradrect col : (forall x, x1 <= x <= x2 -> 0 <= col x < 2 ^ 24) ->
    paint (forM (range x1 (x2 + 1)) (fun x => c <- depthcolor (col x) ;; vertline x y1 y2 c))
      (fun px py => if in_box x1 y1 x2 y2 px py then Some (dcol b0 bits (col px)) else None).
  Proof.
    intros Hc. eapply draws_ext; [|apply (stripes _ _ (fun px _ => px) (fun _ py => (y1 <=? py) && (py <=? y2)) (fun x => dcol b0 bits (col x)))].
    - intros px py _. cbn beta. rewrite mem_range.
      replace (in_box x1 y1 x2 y2 px py) with (((x1 <=? px) && (px <? x2 + 1)) && ((y1 <=? py) && (py <=? y2))); [reflexivity|].
      unfold in_box. clear - Lx Ly. apply eq_true_iff_eq. rewrite !andb_true_iff, !Z.leb_le, Z.ltb_lt. lia.
    - intros x Hx. apply in_range in Hx. apply fills_depth; [apply Hc; lia|]. intros v Hv. apply vstripe; [lia|now apply small_st].
  Qed.
  Lemma hgradrect col : (forall y, y1 <= y <= y2 -> 0 <= col y < 2 ^ 24) ->
    paint (forM (range y1 (y2 + 1)) (fun y => c <- depthcolor (col y) ;; horiline y x1 x2 c))
      (fun px py => if in_box x1 y1 x2 y2 px py then Some (dcol b0 bits (col py)) else None).
  Proof.
    intros Hc. eapply draws_ext; [|apply (stripes _ _ (fun _ py => py) (fun px _ => (x1 <=? px) && (px <=? x2)) (fun x => dcol b0 bits (col x)))].
    - intros px py _. cbn beta. rewrite mem_range.
      replace (in_box x1 y1 x2 y2 px py) with (((y1 <=? py) && (py <? y2 + 1)) && ((x1 <=? px) && (px <=? x2))); [reflexivity|].
      unfold in_box. clear - Lx Ly. apply eq_true_iff_eq. rewrite !andb_true_iff, !Z.leb_le, Z.ltb_lt. lia.
    - intros y Hy. apply in_range in Hy. apply fills_depth; [apply Hc; lia|]. intros v Hv. apply hstripe; [lia|now apply small_st].
  Qed.
  Lemma vgradrect24 col : bits = 24 -> (forall x, x1 <= x <= x2 -> 0 <= col x < 2 ^ 24) ->
    paint (forM (range x1 (x2 + 1)) (fun x => vertline x y1 y2 (col x)))
      (fun px py => if in_box x1 y1 x2 y2 px py then Some (col px) else None).
  Proof.
    intros E Hc. eapply draws_ext; [|apply (stripes _ _ (fun px _ => px) (fun _ py => (y1 <=? py) && (py <=? y2)) col)].
    - intros px py _. cbn beta. rewrite mem_range.
      replace (in_box x1 y1 x2 y2 px py) with (((x1 <=? px) && (px <? x2 + 1)) && ((y1 <=? py) && (py <=? y2))); [reflexivity|].
      unfold in_box. clear - Lx Ly. apply eq_true_iff_eq. rewrite !andb_true_iff, !Z.leb_le, Z.ltb_lt. lia.
    - intros x Hx. apply in_range in Hx. assert (Hcc : 0 <= col x < 2 ^ bits) by (rewrite E; apply Hc; lia).
      rewrite <- (reduce_id bits (col x) (wf_depth _ _ _ _ W0) Hcc) at 2. apply vstripe; [lia|now apply small_st].
  Qed.
  Lemma hgradrect24 col : bits = 24 -> (forall y, y1 <= y <= y2 -> 0 <= col y < 2 ^ 24) ->
    paint (forM (range y1 (y2 + 1)) (fun y => horiline y x1 x2 (col y)))
      (fun px py => if in_box x1 y1 x2 y2 px py then Some (col py) else None).
  Proof.
    intros E Hc. eapply draws_ext; [|apply (stripes _ _ (fun _ py => py) (fun px _ => (x1 <=? px) && (px <=? x2)) col)].
    - intros px py _. cbn beta. rewrite mem_range.
      replace (in_box x1 y1 x2 y2 px py) with (((y1 <=? py) && (py <? y2 + 1)) && ((x1 <=? px) && (px <=? x2))); [reflexivity|].
      unfold in_box. clear - Lx Ly. apply eq_true_iff_eq. rewrite !andb_true_iff, !Z.leb_le, Z.ltb_lt. lia.
    - intros y Hy. apply in_range in Hy. assert (Hcc : 0 <= col y < 2 ^ bits) by (rewrite E; apply Hc; lia).
      rewrite <- (reduce_id bits (col y) (wf_depth _ _ _ _ W0) Hcc) at 2. apply hstripe; [lia|now apply small_st].
  Qed.
End Grad.

Lemma inside_lo w h x1 y1 x2 y2 : inside w h x1 y1 -> inside w h x2 y2 -> inside w h (lo x1 x2) (lo y1 y2).
Proof. unfold inside, lo. lia. Qed.
Lemma inside_hi w h x1 y1 x2 y2 : inside w h x1 y1 -> inside w h x2 y2 -> inside w h (hi x1 x2) (hi y1 y2).
Proof. unfold inside, hi. lia. Qed.
Lemma box_sorted x1 y1 x2 y2 x y : in_box (lo x1 x2) (lo y1 y2) (hi x1 x2) (hi y1 y2) x y = in_box x1 y1 x2 y2 x y.
Proof. unfold in_box, lo, hi. apply eq_true_iff_eq. rewrite !andb_true_iff, !Z.leb_le. lia. Qed.

(** the fraction of a pixel across a gradient rectangle, as the code computes it *)
Definition gfrac (col : Z -> Z -> Z) (a b : Z) (z : Z) : Z := col (Z.min z (Z.abs (b - a) + 1)) (Z.abs (b - a) + 1).

Lemma gradrect_run b w h bits o x1 y1 x2 y2 d col : wf b w h bits -> bits = 8 \/ bits = 24 -> inside w h x1 y1 -> inside w h x2 y2 ->
  (forall n m, 0 <= n <= m -> 0 <= col n m < 2 ^ 24) ->
  exists b', filledgradrect col x1 y1 x2 y2 d (mkst b o) = (Ok (Some tt), mkst b' o) /\
    repainted b b' w h bits (fun x y => if in_box x1 y1 x2 y2 x y
      then dcol b bits (if d =? 0 then gfrac col x1 x2 x else gfrac col y1 y2 y) else pixel b w h bits x y).
Proof.
  intros W HB I1 I2 Hc. unfold filledgradrect. rewrite (guard8_true b w h bits) by auto. rewrite sortrec. cbv zeta.
  pose proof (inside_lo _ _ _ _ _ _ I1 I2) as J1. pose proof (inside_hi _ _ _ _ _ _ I1 I2) as J2.
  assert (Lx : lo x1 x2 <= hi x1 x2) by (unfold lo, hi; lia). assert (Ly : lo y1 y2 <= hi y1 y2) by (unfold lo, hi; lia).
  assert (EX : hi x1 x2 - lo x1 x2 + 1 = Z.abs (x2 - x1) + 1) by (unfold lo, hi; lia).
  assert (EY : hi y1 y2 - lo y1 y2 + 1 = Z.abs (y2 - y1) + 1) by (unfold lo, hi; lia).
  rewrite EX, EY. unfold withSome.
  destruct (d =? 0).
  - destruct (vgradrect b w h bits W HB (lo x1 x2) (lo y1 y2) (hi x1 x2) (hi y1 y2) J1 J2 Lx Ly (gfrac col x1 x2)) with (b := b) (o := o) as (b' & o' & E & <- & R); auto.
    + intros x Hx. apply Hc. destruct J1. clear - Hx H. lia.
    + split; auto.
    + exists b'. split; [now rewrite (bind_ok _ _ _ _ _ E)|]. eapply repainted_ext; [|exact R]. intros px py _. cbn beta.
      rewrite box_sorted. now destruct (in_box x1 y1 x2 y2 px py).
  - destruct (hgradrect b w h bits W HB (lo x1 x2) (lo y1 y2) (hi x1 x2) (hi y1 y2) J1 J2 Lx Ly (gfrac col y1 y2)) with (b := b) (o := o) as (b' & o' & E & <- & R); auto.
    + intros y Hy. apply Hc. destruct J1. clear - Hy H0. lia.
    + split; auto.
    + exists b'. split; [now rewrite (bind_ok _ _ _ _ _ E)|]. eapply repainted_ext; [|exact R]. intros px py _. cbn beta.
      rewrite box_sorted. now destruct (in_box x1 y1 x2 y2 px py).
Qed.
Lemma dichrorect_run b w h o x1 y1 x2 y2 d col : wf b w h 24 -> inside w h x1 y1 -> inside w h x2 y2 ->
  (forall n m, 0 <= n <= m -> 0 <= col n m < 2 ^ 24) ->
  exists b', filleddichromaticgradrect col x1 y1 x2 y2 d (mkst b o) = (Ok (Some tt), mkst b' o) /\
    repainted b b' w h 24 (fun x y => if in_box x1 y1 x2 y2 x y
      then (if d =? 0 then gfrac col x1 x2 x else gfrac col y1 y2 y) else pixel b w h 24 x y).
Proof.
  intros W I1 I2 Hc. unfold filleddichromaticgradrect. rewrite (guard24_true b w h) by auto. rewrite sortrec. cbv zeta.
  pose proof (inside_lo _ _ _ _ _ _ I1 I2) as J1. pose proof (inside_hi _ _ _ _ _ _ I1 I2) as J2.
  assert (Lx : lo x1 x2 <= hi x1 x2) by (unfold lo, hi; lia). assert (Ly : lo y1 y2 <= hi y1 y2) by (unfold lo, hi; lia).
  assert (EX : hi x1 x2 - lo x1 x2 + 1 = Z.abs (x2 - x1) + 1) by (unfold lo, hi; lia).
  assert (EY : hi y1 y2 - lo y1 y2 + 1 = Z.abs (y2 - y1) + 1) by (unfold lo, hi; lia).
  rewrite EX, EY. unfold withSome.
  destruct (d =? 0).
  - destruct (vgradrect24 b w h 24 W ltac:(auto) (lo x1 x2) (lo y1 y2) (hi x1 x2) (hi y1 y2) J1 J2 Lx Ly (gfrac col x1 x2) eq_refl) with (b := b) (o := o) as (b' & o' & E & <- & R); auto.
    + intros x Hx. apply Hc. destruct J1. clear - Hx H. lia.
    + split; auto.
    + exists b'. split; [now rewrite (bind_ok _ _ _ _ _ E)|]. eapply repainted_ext; [|exact R]. intros px py _. cbn beta.
      rewrite box_sorted. now destruct (in_box x1 y1 x2 y2 px py).
  - destruct (hgradrect24 b w h 24 W ltac:(auto) (lo x1 x2) (lo y1 y2) (hi x1 x2) (hi y1 y2) J1 J2 Lx Ly (gfrac col y1 y2) eq_refl) with (b := b) (o := o) as (b' & o' & E & <- & R); auto.
    + intros y Hy. apply Hc. destruct J1. clear - Hy H0. lia.
    + split; auto.
    + exists b'. split; [now rewrite (bind_ok _ _ _ _ _ E)|]. eapply repainted_ext; [|exact R]. intros px py _. cbn beta.
      rewrite box_sorted. now destruct (in_box x1 y1 x2 y2 px py).
Qed.

(** ** exchanged pixels *)
Lemma swap_run b w h bits o x1 y1 x2 y2 : wf b w h bits -> inside w h x1 y1 -> inside w h x2 y2 ->
  exists b', swapcolors (x1, y1) (x2, y2) (mkst b o) = (Ok tt, mkst b' o) /\
    repainted b b' w h bits (fun x y => if (x =? x2) && (y =? y2) then pixel b w h bits x1 y1
      else if (x =? x1) && (y =? y1) then pixel b w h bits x2 y2 else pixel b w h bits x y).
Proof.
  intros W I1 I2. unfold swapcolors. cbn [fst snd].
  rewrite (bind_ok _ _ _ _ _ (run_rd _ _ _ _ (getxybit_inside _ _ _ _ _ _ W I1))).
  rewrite (bind_ok _ _ _ _ _ (run_rd _ _ _ _ (getxybit_inside _ _ _ _ _ _ W I2))).
  pose proof (pixel_range b w h bits x1 y1 W) as P1. pose proof (pixel_range b w h bits x2 y2 W) as P2.
  pose proof (wf_depth _ _ _ _ W) as V.
  destruct (plot_any b w h bits o x1 y1 (pixel b w h bits x2 y2) W) as (b1 & E1 & R1); [intros ->; exact P2|].
  rewrite (bind_ok _ _ _ _ _ E1).
  destruct (plot_any b1 w h bits o x2 y2 (pixel b w h bits x1 y1) (repainted_wf _ _ _ _ _ _ R1)) as (b2 & E2 & R2); [intros ->; exact P1|].
  exists b2. split; [exact E2|]. eapply repainted_trans; [exact R1|]. eapply repainted_ext; [|exact R2].
  intros x y Hin. unfold put_px. rewrite (reduce_id bits) by auto. destruct ((x =? x2) && (y =? y2)); auto.
  rewrite (proj2 (proj2 R1)) by exact Hin. unfold put_px. rewrite (reduce_id bits) by auto. reflexivity.
Qed.

(** ** parallelograms *)
Lemma combine_map_in {A B} (l : list A) (l' : list B) e : In e (combine l l') -> In (fst e) l /\ In (snd e) l'.
Proof. destruct e as [a b]. intros H. split; [eapply in_combine_l|eapply in_combine_r]; eauto. Qed.
