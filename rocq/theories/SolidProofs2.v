(** Arcs and pie charts. *)
From Coq Require Import ZArith List Bool Lia.
From Verif Require Import PyBase PyFacts Spec SpecShapes SpecSolids Bmp BmpFacts PixelProofs PlotList Geometry GeomProofs
  Draw DrawProofs DrawProofs2 DrawProofs4 Text TextProofs Circle Shapes ShapeProofs ShapeProofs2 Files Wrappers Fractal Edges MathLib Solids PropShapes SolidProofs.
Import ListNotations.
Open Scope Z_scope.
Open Scope py_scope.

Lemma centre_off r : 0 < r -> on_ring r 0 0 = false.
Proof. intros. unfold on_ring. cbn [Z.abs Z.max]. apply andb_false_iff. left. apply Z.leb_gt. change (Z.max 0 0) with 0. nia. Qed.
Lemma arcvert_run sel ends x y r : 0 < r -> exists av, arcvert sel ends x y r = Ok av /\
  forall u v, In (u, v) av <-> sector sel ends x y r u v.
Proof.
  intros Hr. destruct (itercircle_run x y r) as (l & E & Hl); [lia|]. unfold arcvert. rewrite E. cbn [rbind].
  assert (In' : forall p q, In (p, q) l <-> on_ring r (p - x) (q - y) = true) by (intros; rewrite <- pt_in_iff, Hl; tauto).
  destruct (haspoint l (x, y)) eqn:C.
  { apply haspoint_iff in C. apply In' in C. rewrite !Z.sub_diag, centre_off in C by exact Hr. discriminate. }
  eexists. split; [reflexivity|]. intros u v. rewrite in_flat_map. unfold sector. split.
  - intros ([p q] & H & K). destruct (sel (p, q)) eqn:S; [|destruct K]. exists p, q. split; [now apply In'|]. split; [exact S|].
    destruct K as [K|K]; [left; congruence|]. right. destruct (ends (p, q)); [|destruct K]. split; [reflexivity|]. now apply seg_points_in.
  - intros (p & q & H & S & K). exists (p, q). split; [now apply In'|]. rewrite S. destruct K as [K|[K1 K2]]; [left; congruence|].
    right. rewrite K1. now apply seg_points_in.
Qed.
Lemma arcvert_zero sel ends x y : arcvert sel ends x y 0 = Err ZeroDivisionError.
Proof.
  destruct (itercircle_run x y 0) as (l & E & Hl); [lia|]. unfold arcvert. rewrite E. cbn [rbind].
  replace (haspoint l (x, y)) with true; [reflexivity|]. symmetry. apply haspoint_iff, pt_in_iff. rewrite Hl, !Z.sub_diag. reflexivity.
Qed.
Lemma arcvert_neg sel ends x y r : r < 0 -> arcvert sel ends x y r = Ok [].
Proof. intros. unfold arcvert. now rewrite itercircle_neg. Qed.

Section Arc.
  Context (R : list msg -> list msg -> Prop) (b0 : list Z) (w h bits : Z).
  Context (Rrefl : forall o, R o o) (Rtrans : forall a b c, R a b -> R b c -> R a c).
  Notation fills := (fills R b0 w h bits).

  Lemma points_fills l c : storable bits c -> fills (forM l (fun p => plotxybit (fst p) (snd p) c)) (pt_in l) (reduce bits c).
  Proof.
    intros Hs b o W Sh. destruct (points_run l c b w h bits o W Hs) as (b' & E & Rp). exists b', o. split; [exact E|].
    split; [apply Rrefl|]. eapply repainted_ext; [|exact Rp]. intros px py _. cbn beta. now destruct (pt_in l px py).
  Qed.
  (** a filled arc: the fill colour covers the outline *)
  Lemma arc_fills sel ends x y r c fc s : 0 < r -> bits <> 4 -> storable bits c -> storable bits fc ->
    (exists u v, sector sel ends x y r u v) -> (forall u v, sector sel ends x y r u v -> inside w h u v) ->
    exists S, (forall u v, S u v = true <-> between (sector sel ends x y r) u v) /\
      fills (drawarc sel ends x y r c s fc true) S (reduce bits fc).
  Proof.
    intros Hr N4 Hs Hf (u0 & v0 & N) Hin. destruct (arcvert_run sel ends x y r Hr) as (av & E & Ha).
    exists (hull av). split.
    - intros u v. rewrite hull_between. unfold between. split; intros (x1 & x2 & L & H1 & H2); exists x1, x2; (split; [auto|]);
        split; apply Ha; auto.
    - eapply fills_act.
      { intros [b1 o1]. unfold drawarc. rewrite (bind_ok _ _ _ _ _ (run_lift _ b1 o1 _ E)). reflexivity. }
      pose proof (points_fills av c Hs) as F1.
      assert (F2 : fills (fillpoints av fc) (hull av) (reduce bits fc)).
      { apply fillpoints_fills; auto; [|intros; apply Hin, Ha; auto]. apply Ha in N. intros ->. destruct N. }
      unfold ShapeProofs.fills. eapply draws_ext; [|exact (draws_seq _ _ _ _ _ Rtrans _ _ _ _ F1 F2)].
      intros px py _. cbn beta. destruct (hull av px py) eqn:Hh; [reflexivity|]. destruct (pt_in av px py) eqn:P; [|reflexivity].
      apply pt_in_iff in P. assert (hull av px py = true); [|congruence]. apply hull_between. exists px, px. split; [lia|auto].
  Qed.
End Arc.

Lemma big_in l c : bigslice l = Some c -> exists s, In s l /\ half s = true /\ colour s = c.
Proof.
  unfold bigslice. intros H.
  assert (G : forall acc, fold_left (fun acc s => if half s then Some (colour s) else acc) l acc = Some c ->
    acc = Some c \/ exists s, In s l /\ half s = true /\ colour s = c).
  { clear H. induction l as [|s l IH]; intros acc H; [auto|]. cbn [fold_left] in H. destruct (IH _ H) as [K|(t & K1 & K2)].
    - destruct (half s) eqn:Hh; [|auto]. right. exists s. split; [now left|]. split; auto. congruence.
    - right. exists t. split; [now right|exact K2]. }
  destruct (G _ H) as [K|K]; [discriminate|exact K].
Qed.
Lemma big_find l : bigslice l = option_map colour (find half (rev l)).
Proof.
  unfold bigslice. induction l as [|s l IH] using rev_ind; [reflexivity|]. rewrite fold_left_app, rev_app_distr. cbn [fold_left rev app find].
  destruct (half s); auto.
Qed.
Lemma sum_fold (l : list Z) : forall a, fold_left Z.add l a = a + fold_right Z.add 0 l.
Proof. induction l as [|x l IH]; intros a; cbn [fold_left fold_right]; [lia|]. rewrite IH. lia. Qed.

Lemma choose {A} (l : list A) (P : A -> Prop) (Q : A -> (Z -> Z -> bool) -> Prop) (dec : forall a, {P a} + {~ P a}) :
  (forall a, In a l -> P a -> exists S, Q a S) ->
  exists L : list (A * (Z -> Z -> bool)), map fst L = l /\ forall p, In p L -> P (fst p) -> Q (fst p) (snd p).
Proof.
  induction l as [|a l IH]; intros H.
  - exists []. split; [reflexivity|]. intros p [].
  - destruct IH as (L & E & HL); [intros; apply H; auto; now right|].
    destruct (dec a) as [Pa|Na].
    + destruct (H a (or_introl eq_refl) Pa) as (S & HS). exists ((a, S) :: L). split; [cbn; congruence|].
      intros p [<-|K] Pp; [exact HS|auto].
    + exists ((a, fun _ _ => false) :: L). split; [cbn; congruence|]. intros p [<-|K] Pp; [contradiction|auto].
Qed.

(** the slices with the pixels they paint; the later ones on top *)
Definition paintslice (x y r : Z) (s : pieslice) : M unit :=
  if half s then ret tt else drawarc (within s) (atend s) x y r (colour s) true (colour s) true.
Lemma slices_draw b w h bits l x y r : wf b w h bits -> bits <> 4 -> 0 < r ->
  (forall s, In s l -> storable bits (colour s)) ->
  (forall s, In s l -> half s = false -> (exists u v, sector (within s) (atend s) x y r u v) /\
     (forall u v, sector (within s) (atend s) x y r u v -> inside w h u v)) ->
  exists L, map fst L = l /\
    (forall s S, In (s, S) L -> half s = false -> forall u v, S u v = true <-> between (sector (within s) (atend s) x y r) u v) /\
    draws (quiet bits) b w h bits (forM l (paintslice x y r))
      (fun px py => option_map (fun p => reduce bits (colour (fst p))) (find (fun p => negb (half (fst p)) && snd p px py) (rev L))).
Proof.
  intros W N4 Hr Hc Hsec.
  destruct (choose l (fun s => half s = false)
    (fun s S => (forall u v, S u v = true <-> between (sector (within s) (atend s) x y r) u v) /\
       fills (quiet bits) b w h bits (drawarc (within s) (atend s) x y r (colour s) true (colour s) true) S (reduce bits (colour s))))
    as (L & EL & HL).
  { intros s. destruct (half s); [right; discriminate|left; reflexivity]. }
  { intros s Hs Hh. destruct (Hsec s Hs Hh) as [H1 H2].
    apply arc_fills; auto; [apply quiet_refl|apply quiet_trans]. }
  exists L. split; [exact EL|]. split; [intros s S Hin Hh; exact (proj1 (HL (s, S) Hin Hh))|].
  eapply draws_act.
  { intros st. rewrite <- EL. rewrite forM_map. reflexivity. }
  assert (DL : forall p, In p L -> draws (quiet bits) b w h bits (paintslice x y r (fst p))
    (fun px py => if negb (half (fst p)) && snd p px py then Some (reduce bits (colour (fst p))) else None)).
  { intros [s S] Hin. cbn [fst snd]. unfold paintslice. destruct (half s) eqn:Hh; cbn [negb andb].
    - apply draws_none. apply quiet_refl.
    - exact (proj2 (HL (s, S) Hin Hh)). }
  eapply draws_ext; [|exact (draws_list _ _ _ _ _ (quiet_refl bits) (quiet_trans bits) L (fun p => paintslice x y r (fst p))
    (fun p px py => if negb (half (fst p)) && snd p px py then Some (reduce bits (colour (fst p))) else None) DL)].
  intros px py _. cbn beta. rewrite fold_find. generalize (rev L). intros K. induction K as [|p K IH]; [reflexivity|].
  cbn [find]. destruct (negb (half (fst p)) && snd p px py) eqn:E; auto. cbn [option_map]. now rewrite E.
Qed.
Lemma big_draw b w h bits l x y r : wf b w h bits -> 0 < r -> pen_at bits x -> (forall s, In s l -> storable bits (colour s)) ->
  draws (quiet bits) b w h bits (match bigslice l with Some c => circle x y r c true | None => ret tt end)
    (fun px py => match find half (rev l) with
                  | Some s => if in_disc r (px - x) (py - y) then Some (reduce bits (colour s)) else None
                  | None => None end).
Proof.
  intros W Hr HP Hc. rewrite big_find. destruct (find half (rev l)) as [s|] eqn:B; cbn [option_map].
  - apply find_some in B. destruct B as [B _]. apply in_rev in B.
    eapply draws_ext; [|apply disc_fills; auto; apply (wf_depth _ _ _ _ W)].
    intros px py _. cbn beta. replace (0 <=? r) with true by (symmetry; apply Z.leb_le; lia). now rewrite andb_true_r.
  - apply draws_none. apply quiet_refl.
Qed.
Lemma pie_split l x y r st : l <> [] -> fold_right Z.add 0 (map amount l) <> 0 ->
  piechart l x y r st = (match bigslice l with Some c => circle x y r c true | None => ret tt end ;;; forM l (paintslice x y r)) st.
Proof.
  intros _ Nt. unfold piechart. rewrite sum_fold, Z.add_0_l.
  replace (fold_right Z.add 0 (map amount l) =? 0) with false by (symmetry; now apply Z.eqb_neq). reflexivity.
Qed.
Lemma pie_run b w h bits o l x y r : wf b w h bits -> bits <> 4 -> 0 < r -> pen_at bits x ->
  l <> [] -> fold_right Z.add 0 (map amount l) <> 0 ->
  (forall s, In s l -> storable bits (colour s)) ->
  (forall s, In s l -> half s = false -> (exists u v, sector (within s) (atend s) x y r u v) /\
     (forall u v, sector (within s) (atend s) x y r u v -> inside w h u v)) ->
  exists L b' o', map fst L = l /\
    (forall s S, In (s, S) L -> half s = false -> forall u v, S u v = true <-> between (sector (within s) (atend s) x y r) u v) /\
    piechart l x y r (mkst b o) = (Ok tt, mkst b' o') /\ quiet bits o o' /\
    repainted b b' w h bits (fun px py =>
      match find (fun p => negb (half (fst p)) && snd p px py) (rev L) with
      | Some p => reduce bits (colour (fst p))
      | None => match find half (rev l) with
                | Some s => if in_disc r (px - x) (py - y) then reduce bits (colour s) else pixel b w h bits px py
                | None => pixel b w h bits px py
                end
      end).
Proof.
  intros W N4 Hr HP Nl Nt Hc Hsec.
  destruct (slices_draw b w h bits l x y r W N4 Hr Hc Hsec) as (L & EL & HL & D2).
  pose proof (draws_seq _ _ _ _ _ (quiet_trans bits) _ _ _ _ (big_draw b w h bits l x y r W Hr HP Hc) D2) as D.
  destruct (draws_open _ _ _ _ _ _ _ o W D) as (b' & o' & E & Q & Rp).
  exists L, b', o'. split; [exact EL|]. split; [exact HL|]. split; [now rewrite pie_split|]. split; [exact Q|].
  eapply repainted_ext; [|exact Rp]. intros px py _. cbn beta.
  destruct (find (fun p => negb (half (fst p)) && snd p px py) (rev L)); [reflexivity|]. cbn [option_map].
  destruct (find half (rev l)); [|reflexivity]. now destruct (in_disc r (px - x) (py - y)).
Qed.
(** a slice without a pixel on the ring stops the chart *)
Lemma pie_thin b w h bits o l1 s l2 x y r : wf b w h bits -> bits <> 4 -> 0 < r -> pen_at bits x ->
  fold_right Z.add 0 (map amount (l1 ++ s :: l2)) <> 0 ->
  (forall s', In s' (l1 ++ s :: l2) -> storable bits (colour s')) ->
  (forall s, In s l1 -> half s = false -> (exists u v, sector (within s) (atend s) x y r u v) /\
     (forall u v, sector (within s) (atend s) x y r u v -> inside w h u v)) ->
  half s = false -> (forall u v, ~ sector (within s) (atend s) x y r u v) ->
  exists st, piechart (l1 ++ s :: l2) x y r (mkst b o) = (Err IndexError, st).
Proof.
  intros W N4 Hr HP Nt Hc Hsec Hh Hno.
  destruct (slices_draw b w h bits l1 x y r W N4 Hr) as (L & EL & HL & D2).
  { intros. apply Hc, in_or_app; auto. } { exact Hsec. }
  pose proof (draws_seq _ _ _ _ _ (quiet_trans bits) _ _ _ _ (big_draw b w h bits (l1 ++ s :: l2) x y r W Hr HP Hc) D2) as D.
  destruct (draws_open _ _ _ _ _ _ _ o W D) as (b' & o' & E & Q & Rp).
  destruct (arcvert_run (within s) (atend s) x y r Hr) as (av & Ea & Ha).
  assert (av = []) as -> by (destruct av as [|[u v] t]; auto; exfalso; apply (Hno u v), Ha; now left).
  exists (mkst b' o'). rewrite pie_split; auto; [|now destruct l1].
  unfold bind in E |- *. destruct (match bigslice (l1 ++ s :: l2) with Some c => circle x y r c true | None => ret tt end (mkst b o)) as [[[]|e] st1]; [|discriminate].
  rewrite forM_app. unfold bind. rewrite E, forM_cons. unfold bind at 1. unfold paintslice at 1. rewrite Hh.
  unfold drawarc. rewrite (bind_ok _ _ _ _ _ (run_lift _ _ _ _ Ea)).
  change (forM [] (fun p => plotxybit (fst p) (snd p) (colour s))) with (ret tt).
  rewrite (bind_ok _ _ (mkst b' o') tt (mkst b' o')) by reflexivity. rewrite (fillpoints_empty b' w h bits) by apply Rp. reflexivity.
Qed.
