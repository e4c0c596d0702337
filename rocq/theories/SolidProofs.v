(** Filled polygons (proofs). *)
From Coq Require Import ZArith List Bool Lia.
From Verif Require Import PyBase PyFacts Spec SpecShapes SpecSolids Bmp BmpFacts PixelProofs PlotList HeaderProofs Region
  Geometry GeomProofs Draw DrawProofs Text TextProofs Circle Shapes ShapeProofs Files Wrappers Fractal Edges MathLib Solids PropDraw PropEdges.
Import ListNotations.
Open Scope Z_scope.
Open Scope py_scope.

(** ** lists of points *)
Lemma haspoint_iff l p : haspoint l p = true <-> In p l.
Proof.
  unfold haspoint. rewrite existsb_exists. split.
  - intros (q & H & E). apply andb_true_iff in E. destruct E as [E1 E2]. apply Z.eqb_eq in E1, E2.
    destruct p, q; cbn [fst snd] in *; subst; exact H.
  - intros H. exists p. split; auto. now rewrite !Z.eqb_refl.
Qed.
Lemma addnew_in l px p : In p (fold_left addnew l px) <-> In p px \/ In p l.
Proof.
  revert px. induction l as [|q l IH]; intros px; cbn [fold_left In]; [tauto|]. rewrite IH. unfold addnew.
  destruct (haspoint px q) eqn:E.
  - apply haspoint_iff in E. split; [tauto|]. intros [H|[<-|H]]; auto.
  - rewrite in_app_iff. cbn [In]. tauto.
Qed.
Lemma segments_edges vs : segments vs = edges vs.
Proof.
  unfold edges. induction vs as [|u [|v t] IH]; auto.
  change (segments (u :: v :: t)) with ((u, v) :: segments (v :: t)). rewrite IH. reflexivity.
Qed.
Lemma boundary_fold es : forall px p,
  In p (fold_left (fun px s => fold_left addnew (iterline (fst s) (snd s)) px) es px) <->
  In p px \/ exists e, In e es /\ In p (iterline (fst e) (snd e)).
Proof.
  induction es as [|e es IH]; intros px p; cbn [fold_left In].
  - split; auto. intros [H|(e & [] & _)]; auto.
  - rewrite IH, addnew_in. split.
    + intros [[H|H]|(e' & H1 & H2)]; eauto.
    + intros [H|(e' & [<-|H1] & H2)]; eauto.
Qed.
Lemma polyboundary_run vs : vs <> [] -> exists bnd, polyboundary vs = Ok bnd /\ bnd <> [] /\
  forall x y, In (x, y) bnd <-> outline vs x y.
Proof.
  intros N. destruct vs as [|u t]; [contradiction|]. unfold polyboundary.
  set (vs := u :: t). rewrite segments_edges.
  set (px := fold_left _ (edges vs) []). exists (fold_left addnew (iterline (last vs u) u) px). split; [reflexivity|].
  assert (G : forall x y, In (x, y) (fold_left addnew (iterline (last vs u) u) px) <-> outline vs x y).
  { intros x y. rewrite addnew_in. unfold px. rewrite boundary_fold. unfold outline, any_edge, ring_edges, vs.
    fold vs. rewrite existsb_app, orb_true_iff. cbn [existsb]. rewrite orb_false_r.
    rewrite existsb_exists. split.
    - intros [[[]|(e & H1 & H2)]|H].
      + left. exists e. split; auto. destruct e as [[a b] [c d]]. cbn [fst snd] in *. now apply seg_points_in.
      + right. destruct (last vs u) as [a b]. destruct u as [c d]. cbn [fst snd]. now apply seg_points_in.
    - intros [(e & H1 & H2)|H].
      + left. right. exists e. split; auto. destruct e as [[a b] [c d]]. cbn [fst snd] in *. now apply seg_points_in.
      + right. destruct (last vs u) as [a b]. destruct u as [c d]. cbn [fst snd] in H. now apply seg_points_in. }
  split; auto. intros E. assert (H : In u (fold_left addnew (iterline (last vs u) u) px)).
  { apply addnew_in. right. unfold iterline. apply in_or_app. right. now left. }
  rewrite E in H. destruct H.
Qed.

(** ** rows *)
Definition rowset (l : list Z) (x : Z) : bool := existsb (fun a => a <=? x) l && existsb (fun a => x <=? a) l.
Fixpoint ascending (l : list Z) : Prop :=
  match l with a :: (b :: _) as t => a < b /\ ascending t | _ => True end.
Lemma ascending_cons a l : ascending l -> (forall b, In b l -> a < b) -> ascending (a :: l).
Proof. intros H K. destruct l as [|b t]; [exact I|]. split; auto. apply K. now left. Qed.
Lemma ascending_head a l : ascending (a :: l) -> forall b, In b l -> a < b.
Proof.
  revert a. induction l as [|c l IH]; intros a H b Hb; [destruct Hb|]. destruct H as [H1 H2].
  destruct Hb as [<-|Hb]; auto. specialize (IH c H2 b Hb). lia.
Qed.
Lemma ascending_filter f a b : ascending (filter f (range a b)).
Proof.
  assert (G : forall n a, ascending (filter f (range a (a + Z.of_nat n)))).
  { induction n as [|n IH]; intros a0.
    - rewrite range_nil by lia. exact I.
    - rewrite range_cons by lia. cbn [filter]. replace (a0 + Z.of_nat (S n)) with (a0 + 1 + Z.of_nat n) by lia.
      destruct (f a0); auto. apply ascending_cons; auto. intros b' Hb. apply filter_In in Hb. destruct Hb as [Hb _]. apply in_range in Hb. lia. }
  destruct (Z.le_gt_cases a b) as [H|H].
  - specialize (G (Z.to_nat (b - a)) a). rewrite Z2Nat.id in G by lia. now replace (a + (b - a)) with b in G by ring.
  - now rewrite range_nil by lia.
Qed.
Lemma pairs_rowset l x : ascending l -> (2 <= length l)%nat ->
  existsb (fun s => (fst s <=? x) && (x <=? snd s)) (pairs l) = rowset l x.
Proof.
  intros A L. apply eq_true_iff_eq. unfold rowset. rewrite andb_true_iff, !existsb_exists. split.
  - intros ([a b] & H & E). cbn [fst snd] in E. apply andb_true_iff in E. destruct E as [E1 E2].
    unfold pairs in H. split; [exists a|exists b]; split; auto.
    + eapply in_combine_l; eauto.
    + apply in_combine_r in H. destruct l; [destruct H|now right].
  - intros [(a & Ha & La) (b & Hb & Lb)]. apply Z.leb_le in La, Lb.
    revert a b Ha Hb La Lb. induction l as [|c l IH]; intros a b Ha Hb La Lb; [destruct Ha|].
    destruct l as [|d l]; [cbn in L; lia|]. pose proof (ascending_head c (d :: l) A) as Hd.
    destruct (Z.le_gt_cases x d) as [K|K].
    + exists (c, d). split; [now left|]. cbn [fst snd]. apply andb_true_iff. split; apply Z.leb_le; auto.
      destruct Ha as [<-|Ha]; auto. specialize (Hd a Ha). lia.
    + destruct l as [|e l].
      { destruct Hb as [<-|[<-|[]]]; cbn [In] in Hd; [specialize (Hd d (or_introl eq_refl))|]; lia. }
      destruct A as [A1 A2]. destruct (IH A2 ltac:(cbn; lia) d b) as (s & Hs & Es); auto.
      * now left.
      * destruct Hb as [<-|Hb]; auto. exfalso. lia.
      * lia.
      * exists s. split; auto. now right.
Qed.

Lemma pairs_le l : ascending l -> forall s, In s (pairs l) -> fst s <= snd s.
Proof.
  induction l as [|x [|x' l] IH]; intros A s H; [destruct H|destruct H|].
  destruct H as [<-|H]; [cbn; destruct A; lia|]. destruct A as [_ A]. exact (IH A s H).
Qed.

Section Fill2.
  Variables (R : list msg -> list msg -> Prop) (b0 : list Z) (w h bits : Z).
  Hypothesis Rrefl : forall o, R o o.
  Hypothesis Rtrans : forall o1 o2 o3, R o1 o2 -> R o2 o3 -> R o1 o3.
  Notation fills := (fills R b0 w h bits).

  Lemma hori_fills y x1 x2 c : bits <> 4 -> storable bits c -> 0 <= y < h -> 0 <= Z.max x1 x2 ->
    fills (horiline y x1 x2 c) (fun px py => in_box x1 y x2 y px py) (reduce bits c).
  Proof.
    intros N4 Hs Hy Hx b o W Sh. destruct (C23_horiline b w h bits y x1 x2 c o W N4 Hs Hy) as (b' & E & Rp); [lia|lia|].
    exists b', o. split; [exact E|]. split; [apply Rrefl|]. eapply repainted_ext; [|exact Rp]. intros px py _. cbn beta.
    now destruct (in_box x1 y x2 y px py).
  Qed.
  Lemma point_fills x y c : storable bits c -> fills (plotxybit x y c) (fun px py => (x =? px) && (y =? py)) (reduce bits c).
  Proof.
    intros Hs b o W Sh. destruct (points_run [(x, y)] c b w h bits o W Hs) as (b' & E & Rp).
    exists b', o. split; [|split; [apply Rrefl|]].
    - rewrite forM_cons in E. unfold bind in E. cbn [fst snd] in E. destruct (plotxybit x y c (mkst b o)) as [[[]|e] s']; [|discriminate].
      unfold forM in E. cbn in E. unfold ret in E. exact E.
    - eapply repainted_ext; [|exact Rp]. intros px py _. cbn beta. unfold pt_in. cbn [existsb fst snd]. rewrite orb_false_r.
      now destruct ((x =? px) && (y =? py)).
  Qed.
  Lemma row_fills y l c : bits <> 4 -> storable bits c -> 0 <= y < h -> ascending l -> (forall a, In a l -> 0 <= a) ->
    fills (fillrow y l c) (fun px py => (py =? y) && rowset l px) (reduce bits c).
  Proof.
    intros N4 Hs Hy A P. unfold fillrow. destruct l as [|x [|x' l]].
    - cbn [pairs combine tl]. eapply fills_act; [intros s; reflexivity|].
      eapply fills_ext; [|apply (fills_none R b0 w h bits Rrefl)]. intros px py _. cbn. now rewrite andb_false_r.
    - eapply fills_ext; [|apply point_fills; exact Hs]. intros px py _. cbn beta. unfold rowset. cbn [existsb]. rewrite !orb_false_r.
      destruct (Z.eqb_spec x px), (Z.eqb_spec y py), (Z.eqb_spec py y), (Z.leb_spec x px), (Z.leb_spec px x); cbn; auto; lia.
    - set (l' := x :: x' :: l) in *.
      eapply fills_ext; [|apply (fills_list R b0 w h bits Rrefl Rtrans (pairs l') _ (fun s px py => in_box (fst s) y (snd s) y px py))].
      + intros px py _. cbn beta. rewrite <- (pairs_rowset l' px A) by (unfold l'; cbn; lia).
        pose proof (pairs_le l' A) as AP.
        revert AP. induction (pairs l') as [|s q IH]; intros AP; [now rewrite andb_false_r|]. cbn [existsb].
        rewrite IH by (intros; apply AP; now right). specialize (AP s (or_introl eq_refl)). unfold in_box.
        rewrite Z.min_l, Z.max_r, Z.min_id, Z.max_id by lia.
        destruct (Z.eqb_spec py y), (Z.leb_spec y py), (Z.leb_spec py y); try lia; cbn [andb]; rewrite ?andb_true_r, ?andb_false_r; auto.
      + intros s Hs'. apply hori_fills; auto. destruct s as [a c']. unfold pairs in Hs'. apply in_combine_l in Hs'. cbn [fst snd].
        specialize (P a Hs'). lia.
  Qed.

  (** the pixels between two of the points, as a boolean *)
  Definition hull (bnd : list (Z * Z)) (x y : Z) : bool :=
    existsb (fun p => (snd p =? y) && (fst p <=? x)) bnd && existsb (fun p => (snd p =? y) && (x <=? fst p)) bnd.
  Lemma hull_between bnd x y : hull bnd x y = true <-> between (fun u v => In (u, v) bnd) x y.
  Proof.
    unfold hull, between. rewrite andb_true_iff, !existsb_exists. split.
    - intros [([a b] & H1 & H2) ([c d] & H3 & H4)]. cbn [fst snd] in *. apply andb_true_iff in H2, H4.
      destruct H2 as [E1 L1], H4 as [E2 L2]. apply Z.eqb_eq in E1, E2. apply Z.leb_le in L1, L2. subst. exists a, c. auto.
    - intros (a & c & L & H1 & H2). split; [exists (a, y)|exists (c, y)]; cbn [fst snd]; (split; [auto|]);
        rewrite Z.eqb_refl; apply Z.leb_le; lia.
  Qed.
  Lemma fillpoints_fills bnd c : bnd <> [] -> bits <> 4 -> storable bits c -> (forall x y, In (x, y) bnd -> inside w h x y) ->
    fills (fillpoints bnd c) (hull bnd) (reduce bits c).
  Proof.
    intros N N4 Hs Hin. destruct bnd as [|[x0 y0] t]; [contradiction|]. set (bnd := (x0, y0) :: t) in *.
    destruct (bounds_run t x0 y0) as (x1 & y1 & x2 & y2 & E & B & (v1 & B1) & (u1 & B2) & (v2 & B3) & (u2 & B4)).
    fold bnd in E, B, B1, B2, B3, B4. clearbody bnd. apply Hin in B1, B2, B3, B4. unfold inside in *.
    set (data := map (fun y => (y, filter (fun x => haspoint bnd (x, y)) (range x1 (x2 + 1)))) (range y1 (y2 + 1))).
    assert (F : fills (fillboundary data c) (hull bnd) (reduce bits c)).
    { eapply fills_ext; [|unfold fillboundary; apply (fills_list R b0 w h bits Rrefl Rtrans data _ (fun e px py => (py =? fst e) && rowset (snd e) px))].
      - intros px py _. cbn beta. apply eq_true_iff_eq. rewrite existsb_exists, hull_between. unfold between. split.
        + intros ([y l] & He & Q). unfold data in He. apply in_map_iff in He. destruct He as (y' & Ey & Hy). injection Ey as -> <-.
          cbn [fst snd] in Q. apply andb_true_iff in Q. destruct Q as [Q1 Q2]. apply Z.eqb_eq in Q1. subst y.
          unfold rowset in Q2. apply andb_true_iff in Q2. rewrite !existsb_exists in Q2.
          destruct Q2 as [(a & Ha & La) (d & Hd & Ld)]. apply filter_In in Ha, Hd. destruct Ha as [_ Ha], Hd as [_ Hd].
          apply haspoint_iff in Ha, Hd. apply Z.leb_le in La, Ld. exists a, d. auto.
        + intros (a & d & L & Ha & Hd). pose proof (B _ _ Ha) as Ba. pose proof (B _ _ Hd) as Bd.
          exists (py, filter (fun x => haspoint bnd (x, py)) (range x1 (x2 + 1))). split.
          * unfold data. apply in_map_iff. exists py. split; auto. apply in_range. lia.
          * cbn [fst snd]. rewrite Z.eqb_refl. cbn [andb]. unfold rowset. apply andb_true_iff. rewrite !existsb_exists. split.
            -- exists a. split; [|apply Z.leb_le; lia]. apply filter_In. split; [apply in_range; lia|now apply haspoint_iff].
            -- exists d. split; [|apply Z.leb_le; lia]. apply filter_In. split; [apply in_range; lia|now apply haspoint_iff].
      - intros [y l] He. unfold data in He. apply in_map_iff in He. destruct He as (y' & Ey & Hy). injection Ey as -> <-. cbn [fst snd].
        apply in_range in Hy.
        apply (row_fills y (filter (fun x => haspoint bnd (x, y)) (range x1 (x2 + 1))) c); auto; [lia|apply ascending_filter|].
        intros a Ha. apply filter_In in Ha. destruct Ha as [Ha _]. apply in_range in Ha. lia. }
    intros b o W Sh. destruct (F b o W Sh) as (b' & o' & E1 & E2). exists b', o'. split; [|exact E2].
    unfold fillpoints. rewrite (bind_ok _ _ _ _ _ (run_rd _ _ _ _ (wf_rx _ _ _ _ W))).
    rewrite (bind_ok _ _ _ _ _ (run_rd _ _ _ _ (wf_ry _ _ _ _ W))). unfold fillpolydata.
    unfold bind at 1. rewrite (bind_ok _ _ _ _ _ (run_lift _ _ _ _ E)). cbn [fst snd].
    replace (((x1 >=? 0) && (y1 >=? 0)) && ((x2 + 1 <=? w) && (y2 + 1 <=? h))) with true.
    2: { symmetry. rewrite !andb_true_iff, !Z.geb_le, !Z.leb_le. lia. }
    unfold ret. fold data. exact E1.
  Qed.
End Fill2.

Lemma fillpoints_out b w h bits o bnd c : wf b w h bits -> (exists x y, In (x, y) bnd /\ ~ inside w h x y) ->
  fillpoints bnd c (mkst b o) = (Ok tt, mkst b (o ++ [Mregionoutofbounds])).
Proof.
  intros W (x & y & H & N). destruct bnd as [|[x0 y0] t]; [destruct H|]. set (bnd := (x0, y0) :: t) in *.
  destruct (bounds_run t x0 y0) as (x1 & y1 & x2 & y2 & E & B & _). fold bnd in E, B. specialize (B x y H). unfold inside in N.
  unfold fillpoints. rewrite (bind_ok _ _ _ _ _ (run_rd _ _ _ _ (wf_rx _ _ _ _ W))).
  rewrite (bind_ok _ _ _ _ _ (run_rd _ _ _ _ (wf_ry _ _ _ _ W))). unfold fillpolydata.
  unfold bind at 1. rewrite (bind_ok _ _ _ _ _ (run_lift _ _ _ _ E)). cbn [fst snd].
  replace (((x1 >=? 0) && (y1 >=? 0)) && ((x2 + 1 <=? w) && (y2 + 1 <=? h))) with false.
  2: { symmetry. destruct (((x1 >=? 0) && (y1 >=? 0)) && ((x2 + 1 <=? w) && (y2 + 1 <=? h))) eqn:Q; auto.
       rewrite !andb_true_iff, !Z.geb_le, !Z.leb_le in Q. exfalso. apply N. lia. }
  reflexivity.
Qed.
Lemma fillpoints_empty b w h bits o c : wf b w h bits -> fillpoints [] c (mkst b o) = (Err IndexError, mkst b o).
Proof.
  intros W. unfold fillpoints. rewrite (bind_ok _ _ _ _ _ (run_rd _ _ _ _ (wf_rx _ _ _ _ W))).
  rewrite (bind_ok _ _ _ _ _ (run_rd _ _ _ _ (wf_ry _ _ _ _ W))). reflexivity.
Qed.
