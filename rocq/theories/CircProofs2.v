(** Operations on circular regions that work row by row (proofs). *)
From Coq Require Import ZArith List Bool Lia.
From Verif Require Import PyBase PyFacts Spec Bmp BmpFacts PixelProofs PlotList Buffers Region Raster VertProofs RectProofs HorizProofs
  Geometry GeomProofs Draw DrawProofs DrawProofs4 Filters FilterProofs FilterProofs2 Circle CircProofs.
Import ListNotations.
Open Scope Z_scope.
Open Scope py_scope.
Ltac Zify.zify_post_hook ::= Z.to_euclidean_division_equations.

Lemma circ_in_spec x y w h r : 0 <= r ->
  entirecircleisinboundary x y (-1) w (-1) h r = ((0 <=? x - r) && (x + r <? w)) && ((0 <=? y - r) && (y + r <? h)).
Proof.
  intros Hr. unfold entirecircleisinboundary, isinrange.
  apply eq_true_iff_eq. rewrite !andb_true_iff, !Z.gtb_lt, !Z.ltb_lt, !Z.leb_le. lia.
Qed.

(** the loops of _usenoparfn2circreg and outlinecircregion *)
Definition row_in (act : Z -> Z -> M unit) (x y : Z) (pts : list (Z * Z)) : M unit :=
  forM pts (fun v =>
    let (x1, x2) := mirror x (fst v) in
    let (y1, y2) := mirror y (snd v) in
    s1 <- rd (bmoffsethd x1 y1) ;;
    e1 <- rd (bmoffsethd x2 y1) ;;
    s2 <- rd (bmoffsethd x1 y2) ;;
    e2 <- rd (bmoffsethd x2 y2) ;;
    act s1 e1 ;;;
    if negb (y1 =? y2) then act s2 e2 else ret tt).
Definition row_out (act : Z -> Z -> M unit) (x y xmax ymax : Z) (pts : list (Z * Z)) : M unit :=
  forM pts (fun v =>
    let (x1, x2) := mirror x (fst v) in
    let (y1, y2) := mirror y (snd v) in
    let x1 := setmin x1 0 in
    let x2 := setmax x2 (xmax - 1) in
    (if isinrange y2 ymax (-1) then
       s2 <- rd (bmoffsethd x1 y2) ;; e2 <- rd (bmoffsethd x2 y2) ;; act s2 e2
     else ret tt) ;;;
    (if isinrange y1 ymax (-1) && negb (y2 =? y1) then
       s1 <- rd (bmoffsethd x1 y1) ;; e1 <- rd (bmoffsethd x2 y1) ;; act s1 e1
     else ret tt)).
Lemma circrows_in_row f x y pts : circrows_in f x y pts = row_in (mapslice f) x y pts.
Proof. reflexivity. Qed.
Lemma circrows_out_row f x y xm ym pts : circrows_out false f x y xm ym pts = row_out (mapslice f) x y xm ym pts.
Proof. reflexivity. Qed.

Section Rows.
  Variables (b : list Z) (w h bits r x y : Z) (o : list msg) (l : list (Z * Z)).
  Hypothesis W : wf b w h bits.
  Hypothesis Hr : 0 <= r.
  Hypothesis El : itercirclepartlineedge r = Ok l.
  Let Hd : valid_depth bits := wf_depth _ _ _ _ W.
  Notation ra := (rowaddr w h bits).
  Notation klo := (klo l bits x y).
  Notation khi := (khi l w bits x y).
  Notation cp := (cp l w bits x y).

  (** ** an action on one row part *)
  Definition rowact (act : Z -> Z -> M unit) (Q : (Z -> Z) -> Z -> Z -> Z -> Z) : Prop :=
    (forall b1 yy k1 k2, wf b1 w h bits -> 0 <= yy < h -> 0 <= k1 -> k2 <= kb bits (w - 1) -> 0 <= ra yy + k2 ->
       (bits = 24 -> (k2 - k1) mod 3 = 0) ->
       exists b2, act (ra yy + k1) (ra yy + k2) (mkst b1 o) = (Ok tt, mkst b2 o) /\
         rastered b1 b2 w h bits (fun k y' => if (y' =? yy) && ((k1 <=? k) && (k <? k2))
            then Q (fun k => raster b1 w h bits k yy) k1 k2 k else raster b1 w h bits k y')) /\
    (forall C C' k1 k2 k, 0 <= k1 -> k1 <= k < k2 -> k2 <= kb bits (w - 1) -> (bits = 24 -> (k2 - k1) mod 3 = 0) ->
       (forall i, 0 <= i < stride w bits -> C i = C' i) -> Q C k1 k2 k = Q C' k1 k2 k).

  Variables (act : Z -> Z -> M unit) (Q : (Z -> Z) -> Z -> Z -> Z -> Z).
  Hypothesis HA : rowact act Q.

  Definition optrow (c : bool) (yy k1 k2 : Z) : M unit := if c then act (ra yy + k1) (ra yy + k2) else ret tt.
  Lemma two_rows (A B : M unit) c1 c2 ya yb k1 k2 b1 : wf b1 w h bits ->
    A (mkst b1 o) = optrow c1 ya k1 k2 (mkst b1 o) ->
    (forall b2, wf b2 w h bits -> B (mkst b2 o) = optrow c2 yb k1 k2 (mkst b2 o)) ->
    (c1 = true -> 0 <= ya < h) -> (c2 = true -> 0 <= yb < h) -> (c1 = true -> c2 = true -> ya <> yb) ->
    0 <= k1 -> k2 <= kb bits (w - 1) -> 0 <= data_off bits + k2 -> (bits = 24 -> (k2 - k1) mod 3 = 0) ->
    exists b2, (A ;;; B) (mkst b1 o) = (Ok tt, mkst b2 o) /\
      rastered b1 b2 w h bits (fun k y' => if ((c1 && (y' =? ya)) || (c2 && (y' =? yb))) && ((k1 <=? k) && (k <? k2))
        then Q (fun k => raster b1 w h bits k y') k1 k2 k else raster b1 w h bits k y').
  Proof.
    intros W1 EA EB Ha Hb Hab H1 H2 H3 H4.
    assert (HO : forall c yy b1, wf b1 w h bits -> (c = true -> 0 <= yy < h) ->
      exists b2, optrow c yy k1 k2 (mkst b1 o) = (Ok tt, mkst b2 o) /\
        rastered b1 b2 w h bits (fun k y' => if (c && (y' =? yy)) && ((k1 <=? k) && (k <? k2))
          then Q (fun k => raster b1 w h bits k yy) k1 k2 k else raster b1 w h bits k y')).
    { intros c yy b' W' Hy. unfold optrow. destruct c.
      - specialize (Hy eq_refl). destruct (rowaddr_bounds _ _ _ _ yy W' Hy) as [B1 B2].
        exact (proj1 HA b' yy k1 k2 W' Hy H1 H2 ltac:(lia) H4).
      - exists b'. split; [reflexivity|]. now apply rastered_refl. }
    destruct (HO c1 ya b1 W1 Ha) as (b2 & E2 & R2). rewrite <- EA in E2.
    pose proof (rastered_wf _ _ _ _ _ _ R2) as W2.
    destruct (HO c2 yb b2 W2 Hb) as (b3 & E3 & R3). rewrite <- EB in E3 by exact W2.
    exists b3. rewrite (bind_ok _ _ _ _ _ E2). split; [exact E3|].
    eapply rastered_trans; [exact R2|]. eapply rastered_ext; [|exact R3]. intros k y' Hk Hy'. cbn beta.
    destruct ((k1 <=? k) && (k <? k2)) eqn:C; rewrite ?andb_false_r, ?andb_true_r.
    - destruct (c2 && (y' =? yb)) eqn:C2.
      + rewrite orb_true_r. apply andb_true_iff in C2. destruct C2 as [-> C2]. apply Z.eqb_eq in C2. subst y'.
        apply (proj2 HA); auto; [clear - C; lia|]. intros i Hi. rewrite (proj2 (proj2 R2)) by auto. cbn beta.
        replace (c1 && (yb =? ya)) with false; auto. destruct c1; auto. cbn [andb]. symmetry. apply Z.eqb_neq.
        intros E. now apply Hab.
      + rewrite orb_false_r. rewrite (proj2 (proj2 R2)) by auto. rewrite C, andb_true_r.
        destruct (c1 && (y' =? ya)) eqn:C1; auto. apply andb_true_iff in C1. destruct C1 as [-> C1].
        apply Z.eqb_eq in C1. subst y'. reflexivity.
    - rewrite (proj2 (proj2 R2)) by auto. now rewrite C, andb_false_r.
  Qed.

  Definition rowsG (k y' : Z) : Z :=
    if cp k y' then Q (fun k => raster b w h bits k y') (klo y') (khi y') k else raster b w h bits k y'.

  Lemma cp_far k y' : r < Z.abs (y' - y) -> cp k y' = false.
  Proof.
    intros H. unfold cp, CircProofs.klo, CircProofs.khi. rewrite hwid_out.
    - pose proof (kb_mono bits (Z.min (w - 1) (x + -1)) (Z.max 0 (x - -1)) Hd ltac:(lia)) as K. clear - K. lia.
    - destruct (disc_facts r l Hr El) as (_ & Hv & _). rewrite Hv. lia.
  Qed.
  Lemma rows_all b' F : rastered b b' w h bits (fun k y' => if memz (Z.abs (y' - y)) (map snd l) then
      if cp k y' then F k y' else raster b w h bits k y' else raster b w h bits k y') ->
    rastered b b' w h bits (fun k y' => if cp k y' then F k y' else raster b w h bits k y').
  Proof.
    intros R. eapply rastered_ext; [|exact R]. intros k y' Hk Hy. cbn beta.
    rewrite (mem_rows r l Hr El). destruct ((0 <=? Z.abs (y' - y)) && (Z.abs (y' - y) <=? r)) eqn:E; auto.
    rewrite cp_far; auto. clear - E. lia.
  Qed.

  (** one pass of a loop, given the two rows *)
  Lemma rows_step (c1 c2 : bool) a v b1 b2 ya yb : In (a, v) l ->
    (forall k y', 0 <= k < stride w bits -> 0 <= y' < h -> Z.abs (y' - y) = v -> raster b1 w h bits k y' = raster b w h bits k y') ->
    (forall y', 0 <= y' < h -> (c1 && (y' =? ya)) || (c2 && (y' =? yb)) = (Z.abs (y' - y) =? v)) ->
    rastered b1 b2 w h bits (fun k y' => if ((c1 && (y' =? ya)) || (c2 && (y' =? yb))) &&
       ((kb bits (Z.max 0 (x - a)) <=? k) && (k <? kb bits (Z.min (w - 1) (x + a))))
       then Q (fun k => raster b1 w h bits k y') (kb bits (Z.max 0 (x - a))) (kb bits (Z.min (w - 1) (x + a))) k
       else raster b1 w h bits k y') ->
    rastered b1 b2 w h bits (fun k y' => if Z.abs (y' - y) =? v then rowsG k y' else raster b1 w h bits k y').
  Proof.
    intros Hin H1 Hc R. eapply rastered_ext; [|exact R]. intros k y' Hk Hy. cbn beta. rewrite Hc by auto.
    destruct (Z.eqb_spec (Z.abs (y' - y)) v) as [E|N]; cbn [andb]; auto.
    unfold rowsG, cp, CircProofs.klo, CircProofs.khi. rewrite E.
    destruct (in_hw r l Hr El _ Hin) as (_ & _ & Eh). cbn [fst snd] in Eh. rewrite Eh.
    destruct ((kb bits (Z.max 0 (x - a)) <=? k) && (k <? kb bits (Z.min (w - 1) (x + a)))) eqn:C.
    - apply (proj2 HA); auto.
      + apply (kb_mono bits 0); auto. clear; lia.
      + clear - C. lia.
      + apply kb_mono; auto. clear; lia.
      + intros ->. apply kb3.
    - apply H1; auto.
  Qed.

  Lemma row_in_run : 0 <= x - r -> x + r < w -> 0 <= y - r -> y + r < h ->
    exists b', row_in act x y l (mkst b o) = (Ok tt, mkst b' o) /\ rastered b b' w h bits rowsG.
  Proof.
    intros X1 X2 Y1 Y2. unfold row_in.
    match goal with |- exists b', forM l ?body _ = _ /\ _ =>
      destruct (keyed_loop b w h bits o snd (fun _ y' => Z.abs (y' - y)) rowsG body l) as (b' & E & R) end.
    - apply (disc_facts r l Hr El).
    - intros [a v] b1 Hin W1 H1. destruct (in_hw r l Hr El _ Hin) as (Ha & Hv & _). cbn [fst snd] in Ha, Hv.
      cbn [fst snd mirror]. unfold mirror.
      rewrite (bind_ok _ _ _ _ _ (run_rd _ _ _ _ (wf_offsethd _ _ _ _ W1 _ _))).
      rewrite (bind_ok _ _ _ _ _ (run_rd _ _ _ _ (wf_offsethd _ _ _ _ W1 _ _))).
      rewrite (bind_ok _ _ _ _ _ (run_rd _ _ _ _ (wf_offsethd _ _ _ _ W1 _ _))).
      rewrite (bind_ok _ _ _ _ _ (run_rd _ _ _ _ (wf_offsethd _ _ _ _ W1 _ _))).
      rewrite !baddr_rowaddr.
      pose proof (kb_mono bits 0 (Z.max 0 (x - a)) Hd ltac:(clear; lia)) as K1.
      pose proof (kb_mono bits (Z.min (w - 1) (x + a)) (w - 1) Hd ltac:(clear; lia)) as K2.
      assert (K3 : kb bits 0 <= kb bits (Z.min (w - 1) (x + a))) by (apply kb_mono; auto; clear - X1 X2 Ha; lia).
      change (kb bits 0) with 0 in K1, K3. pose proof (data_off_ge bits Hd).
      destruct (two_rows (act (ra (y - v) + (x - a) * bits / 8) (ra (y - v) + (x + a) * bits / 8))
         (if negb (y - v =? y + v) then act (ra (y + v) + (x - a) * bits / 8) (ra (y + v) + (x + a) * bits / 8) else ret tt)
         true (negb (y - v =? y + v)) (y - v) (y + v) (kb bits (Z.max 0 (x - a))) (kb bits (Z.min (w - 1) (x + a))) b1 W1)
        as (b2 & E2 & R2).
      + unfold optrow, kb. rewrite Z.max_r, Z.min_r by (clear - X1 X2 Ha; lia). reflexivity.
      + intros b2 _. unfold optrow, kb. rewrite Z.max_r, Z.min_r by (clear - X1 X2 Ha; lia). reflexivity.
      + intros _. clear - Y1 Y2 Hv. lia.
      + intros _. clear - Y1 Y2 Hv. lia.
      + intros _ E. clear - E. lia.
      + exact K1.
      + exact K2.
      + lia.
      + intros ->. apply kb3.
      + exists b2. split; [exact E2|]. eapply rows_step; eauto. intros y' Hy. cbn [andb].
        clear - Hv. apply eq_true_iff_eq. rewrite orb_true_iff, andb_true_iff, negb_true_iff, Z.eqb_neq, !Z.eqb_eq. lia.
    - exact W.
    - exists b'. split; [exact E|]. apply rows_all. exact R.
  Qed.

  Lemma row_out_run : 0 < w -> 0 <= 8 * data_off bits + x * bits ->
    exists b', row_out act x y w h l (mkst b o) = (Ok tt, mkst b' o) /\ rastered b b' w h bits rowsG.
  Proof.
    intros Hw X. unfold row_out.
    match goal with |- exists b', forM l ?body _ = _ /\ _ =>
      destruct (keyed_loop b w h bits o snd (fun _ y' => Z.abs (y' - y)) rowsG body l) as (b' & E & R) end.
    - apply (disc_facts r l Hr El).
    - intros [a v] b1 Hin W1 H1. destruct (in_hw r l Hr El _ Hin) as (Ha & Hv & _). cbn [fst snd] in Ha, Hv.
      cbn [fst snd mirror]. unfold mirror.
      replace (setmin (x - a) 0) with (Z.max 0 (x - a)) by (unfold setmin; destruct (Z.ltb_spec (x - a) 0); clear - H; lia).
      replace (setmax (x + a) (w - 1)) with (Z.min (w - 1) (x + a)) by (unfold setmax; destruct (Z.gtb_spec (x + a) (w - 1)); clear - H; lia).
      pose proof (kb_mono bits 0 (Z.max 0 (x - a)) Hd ltac:(clear; lia)) as K1.
      pose proof (kb_mono bits (Z.min (w - 1) (x + a)) (w - 1) Hd ltac:(clear; lia)) as K2.
      assert (K3 : kb bits (Z.min 0 x) <= kb bits (Z.min (w - 1) (x + a))) by (apply kb_mono; auto; clear - Ha Hw; lia).
      assert (K4 : 0 <= data_off bits + kb bits (Z.min 0 x)).
      { unfold kb. destruct (Z.le_gt_cases 0 x); [rewrite Z.min_l by lia; pose proof (data_off_ge bits Hd); lia|].
        rewrite Z.min_r by lia. clear - X. lia. }
      change (kb bits 0) with 0 in K1.
      set (opt := fun (c : bool) yy =>
        if c then s <- rd (bmoffsethd (Z.max 0 (x - a)) yy) ;; e <- rd (bmoffsethd (Z.min (w - 1) (x + a)) yy) ;; act s e
        else ret tt).
      assert (EO : forall c yy b', wf b' w h bits -> opt c yy (mkst b' o) =
        optrow c yy (kb bits (Z.max 0 (x - a))) (kb bits (Z.min (w - 1) (x + a))) (mkst b' o)).
      { intros c yy b' W'. unfold optrow, opt. destruct c; auto.
        rewrite (bind_ok _ _ _ _ _ (run_rd _ _ _ _ (wf_offsethd _ _ _ _ W' _ _))).
        rewrite (bind_ok _ _ _ _ _ (run_rd _ _ _ _ (wf_offsethd _ _ _ _ W' _ _))).
        rewrite !baddr_rowaddr. reflexivity. }
      destruct (two_rows (opt (isinrange (y + v) h (-1)) (y + v)) (opt (isinrange (y - v) h (-1) && negb (y + v =? y - v)) (y - v)) (isinrange (y + v) h (-1)) (isinrange (y - v) h (-1) && negb (y + v =? y - v)) (y + v) (y - v)
         (kb bits (Z.max 0 (x - a))) (kb bits (Z.min (w - 1) (x + a))) b1 W1)
        as (b2 & E2 & R2); [apply EO; exact W1|intros b2 W2; apply EO; exact W2|..].
      + unfold isinrange. intros E. clear - E. lia.
      + unfold isinrange. intros E. clear - E. lia.
      + intros _ E. clear - E. lia.
      + exact K1.
      + exact K2.
      + lia.
      + intros ->. apply kb3.
      + exists b2. split; [exact E2|]. eapply rows_step; eauto. intros y' Hy. unfold isinrange. clear - Hv Hy.
        apply eq_true_iff_eq.
        rewrite orb_true_iff, !andb_true_iff, negb_true_iff, Z.eqb_neq, !Z.gtb_lt, !Z.ltb_lt, !Z.eqb_eq. lia.
    - exact W.
    - exists b'. split; [exact E|]. apply rows_all. exact R.
  Qed.
End Rows.

(** ** functions applied to row parts *)
Lemma mapslice_act w h bits o f P : valid_depth bits -> 0 < w -> partfun bits f P ->
  (forall n C C' i, 0 <= i < n -> (bits = 24 -> n mod 3 = 0) -> (forall j, 0 <= j < n -> C j = C' j) -> P n C i = P n C' i) ->
  rowact w h bits o (mapslice f) (fun C k1 k2 k => P (k2 - k1) (fun i => C (k1 + i)) (k - k1)).
Proof.
  intros Hd Hw Hf HP. pose proof (kb_fit w bits (w - 1) Hd ltac:(lia)) as K. split.
  - intros b1 yy k1 k2 W1 Hy H1 H2 H3 H4. apply mapslice_part; auto. lia.
  - intros C C' k1 k2 k H1 Hk H2 H4 HC. apply HP; auto; [lia|]. intros j Hj. apply HC. lia.
Qed.

Section Use.
  Variables (b : list Z) (w h bits r x y : Z) (o : list msg) (l : list (Z * Z)).
  Hypothesis W : wf b w h bits.
  Hypothesis Hr : 0 <= r.
  Hypothesis El : itercirclepartlineedge r = Ok l.
  Lemma xmax_run b1 : wf b1 w h bits -> rd getmaxx (mkst b1 o) = (Ok w, mkst b1 o).
  Proof. intros W1. apply run_rd. exact (wf_rx _ _ _ _ W1). Qed.
  Lemma ymax_run b1 : wf b1 w h bits -> rd getmaxy (mkst b1 o) = (Ok h, mkst b1 o).
  Proof. intros W1. apply run_rd. exact (wf_ry _ _ _ _ W1). Qed.

  Lemma usefn_run tup f P : partfun bits f P ->
    (forall n C C' i, 0 <= i < n -> (bits = 24 -> n mod 3 = 0) -> (forall j, 0 <= j < n -> C j = C' j) -> P n C i = P n C' i) ->
    (0 <= x - r /\ x + r < w /\ 0 <= y - r /\ y + r < h) \/ (tup = false /\ 0 < w /\ 0 <= 8 * data_off bits + x * bits) ->
    exists b', usefn2circreg tup f x y r (mkst b o) = (Ok tt, mkst b' o) /\
      rastered b b' w h bits (rowsG b w h bits x y l (fun C k1 k2 k => P (k2 - k1) (fun i => C (k1 + i)) (k - k1))).
  Proof.
    intros Hf HP HB. unfold usefn2circreg. assert (Hw : 0 < w) by (clear - HB Hr; lia).
    rewrite (bind_ok _ _ _ _ _ (xmax_run _ W)), (bind_ok _ _ _ _ _ (ymax_run _ W)), (bind_ok _ _ _ _ _ (run_lift _ _ _ _ El)).
    rewrite circ_in_spec by auto.
    pose proof (mapslice_act w h bits o f P (wf_depth _ _ _ _ W) Hw Hf HP) as HA.
    destruct (_ && _) eqn:E.
    - rewrite circrows_in_row. apply (row_in_run b w h bits r x y o l W Hr El _ _ HA); clear - E; lia.
    - destruct HB as [HB|(-> & _ & HB)]; [exfalso; clear - HB E; lia|].
      rewrite circrows_out_row. now apply (row_out_run b w h bits r x y o l W Hr El _ _ HA).
  Qed.
End Use.
