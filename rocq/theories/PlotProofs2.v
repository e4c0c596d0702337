(** Proofs about scatter plots. *)
From Coq Require Import ZArith QArith Qround List Bool Lia Lqa.
From Verif Require Import PyBase PyFacts Spec SpecText SpecShapes SpecExact SpecPlots Bmp BmpFacts PixelProofs PlotList Buffers Region Geometry Draw
  Raster DrawProofs DrawProofs4 FilterProofs Text TextProofs TextProofs3 Shapes ShapeProofs ShapeProofs2 
  MathLib Solids SolidProofs3 Exact ExactProofs CurveProofs Plots PlotProofs.
Import ListNotations.
Open Scope Z_scope.
Open Scope py_scope.

Definition area_of (a : axes) : plot_area :=
  area (fst (ax_origin a)) (snd (ax_origin a)) (fst (ax_steps a)) (snd (ax_steps a)) (fst (ax_limits a)) (snd (ax_limits a))
    (fst (ax_starts a)) (snd (ax_starts a)) (fst (ax_vsteps a)) (snd (ax_vsteps a)).
Section Scatter.
  Variable a : axes.
  Hypothesis (Hx : fst (ax_vsteps a) <> 0) (Hy : snd (ax_vsteps a) <> 0).
  Lemma inject_nz z : z <> 0 -> ~ (inject_Z z == 0)%Q.
  Proof. intros H. unfold Qeq. cbn. lia. Qed.
  Definition screen (x y : Q) : Z * Z :=
    if in_view (area_of a) x y then (qround (place_x (area_of a) x), qround (place_y (area_of a) y)) else (-1, -1).
  Lemma screen_plotted x y : at_pixel (area_of a) x y (screen x y).
  Proof. unfold at_pixel, screen. destruct (in_view (area_of a) x y); [split; apply qround_nearest|reflexivity]. Qed.
  Definition report (x y : Q) : list msg := if in_view (area_of a) x y then [] else [Mregionoutofbounds].
  Lemma qround_ext p q : (p == q)%Q -> qround p = qround q.
  Proof.
    intros H. unfold qround. assert (E : Qfloor p = Qfloor q) by now apply Qfloor_comp. rewrite E.
    assert (C : Qcompare (p - inject_Z (Qfloor q)) (1 # 2) = Qcompare (q - inject_Z (Qfloor q)) (1 # 2)).
    { apply Qcompare_comp; [|reflexivity]. unfold Qminus. apply Qplus_comp; [exact H|reflexivity]. }
    now rewrite C.
  Qed.
  Lemma qle_ext p q p' q' : (p == p')%Q -> (q == q')%Q -> Qle_bool p q = Qle_bool p' q'.
  Proof. intros H1 H2. apply eq_true_iff_eq. rewrite !Qle_bool_iff. rewrite H1, H2. reflexivity. Qed.
  (** the conversion: the exact place, or (-1, -1) *)
  Lemma screen_run x y s : exists p, userdef2Dcooordsys2screenxy x y a s = (Ok p, mkst (mem s) (out s ++ report x y)) /\
    roundvect p = screen x y /\
    (in_view (area_of a) x y = true -> (fst p == place_x (area_of a) x)%Q /\ (snd p == place_y (area_of a) y)%Q) /\
    (in_view (area_of a) x y = false -> p = (-1, -1)%Q).
  Proof.
    unfold userdef2Dcooordsys2screenxy, qdiv.
    pose proof (inject_nz _ Hx) as Nx. pose proof (inject_nz _ Hy) as Ny.
    destruct (Qeq_bool (inject_Z (fst (ax_vsteps a))) 0) eqn:Ex; [apply Qeq_bool_iff in Ex; contradiction|].
    destruct (Qeq_bool (inject_Z (snd (ax_vsteps a))) 0) eqn:Ey; [apply Qeq_bool_iff in Ey; contradiction|].
    unfold bind, lift, ret. cbv beta iota zeta.
    set (X := (inject_Z (fst (ax_origin a)) + _)%Q). set (Y := (inject_Z (snd (ax_origin a)) - _)%Q).
    assert (EX : (X == place_x (area_of a) x)%Q) by (unfold X, place_x, place; cbn [area_of origin_x pixels_x start_x value_x]; field; exact Nx).
    assert (EY : (Y == place_y (area_of a) y)%Q).
    { unfold Y, place_y, place; cbn [area_of origin_y pixels_y start_y value_y]. rewrite inject_Z_opp. field; exact Ny. }
    assert (ES : in_view (area_of a) x y = negb (negb (Qle_bool X (inject_Z (fst (ax_limits a)))) || negb (Qle_bool (inject_Z (snd (ax_limits a))) Y))).
    { unfold in_view. cbn [area_of limit_x limit_y]. rewrite (qle_ext X (inject_Z (fst (ax_limits a))) _ _ EX (Qeq_refl _)).
      rewrite (qle_ext (inject_Z (snd (ax_limits a))) Y _ _ (Qeq_refl _) EY). rewrite negb_orb, !negb_involutive. reflexivity. }
    unfold report, screen. rewrite ES. clearbody X Y. destruct (negb (Qle_bool X _) || negb (Qle_bool _ Y)); cbn [negb].
    - exists (-1, -1)%Q. split; [reflexivity|]. split; [reflexivity|]. split; [discriminate|auto].
    - exists (X, Y). split; [destruct s; cbn; now rewrite app_nil_r|]. unfold roundvect. cbn [fst snd].
      rewrite (qround_ext _ _ EX), (qround_ext _ _ EY). split; [reflexivity|]. split; [auto|discriminate].
  Qed.

  Variables (b0 : list Z) (w h bits : Z).
  Hypothesis (W0 : wf b0 w h bits) (N4 : bits <> 4).
  Let V : valid_depth bits := wf_depth _ _ _ _ W0.
  Notation fills := (ShapeProofs.fills (quiet bits) b0 w h bits).
  Lemma mark_fills p r c f (v : Q * Q) : roundvect v = p -> 0 <= c < 2 ^ bits -> (1 < r -> f <> 0 -> pen_at bits (fst p)) ->
    fills (if r >? 1 then circlevec v (setmax r 5) c (negb (f =? 0)) else plotvecxypoint v c) (mark p r f) c.
  Proof.
    intros Ev Hc Hp. assert (Hs : storable bits c) by (intros ->; exact Hc).
    assert (RC : reduce bits c = c) by now apply reduce_id.
    unfold mark, circlevec, plotvecxypoint. rewrite Ev. destruct (Z.gtb_spec r 1) as [L|L].
    - replace (1 <? r) with true by (symmetry; apply Z.ltb_lt; lia).
      replace (setmax r 5) with (Z.min r 5) by (unfold setmax; destruct (Z.gtb_spec r 5); lia).
      assert (0 <= Z.min r 5) by lia. destruct (Z.eqb_spec f 0) as [F|F]; cbn [negb].
      + intros b o W Sh. destruct (circle_run b w h bits (fst p) (snd p) (Z.min r 5) c W ltac:(auto) o ltac:(lia)) as (b' & E & R).
        exists b', o. split; [exact E|]. split; [apply quiet_refl|]. eapply repainted_ext; [|exact R].
        intros px py _. cbn beta. rewrite RC. now destruct (on_ring _ _ _).
      + match goal with |- ShapeProofs.fills _ _ _ _ _ ?x ?y _ => cut (fills x y (reduce bits c)); [now rewrite RC|] end.
        eapply fills_ext; [|apply disc_fills; auto]. intros px py _. cbn beta.
        replace (0 <=? Z.min r 5) with true by (symmetry; now apply Z.leb_le). now rewrite andb_true_r.
    - replace (1 <? r) with false by (symmetry; apply Z.ltb_ge; lia).
      match goal with |- ShapeProofs.fills _ _ _ _ _ ?x ?y _ => cut (fills x y (reduce bits c)); [now rewrite RC|] end.
      apply (pixel_draws (quiet bits) b0 w h bits (quiet_refl bits) 1 0 (fst p) (snd p) c Hs _ ltac:(lia)). auto.
  Qed.

  Definition spot (d : datum) : Z * Z := screen (inject_Z (d_x d)) (inject_Z (d_y d)).
  Definition datum_ok (d : datum) : Prop := 0 <= d_c d < 2 ^ bits /\ (1 < d_r d -> d_f d <> 0 -> pen_at bits (fst (spot d))).
  Lemma point_run d b o : datum_ok d -> wf b w h bits -> same_header b0 b bits ->
    exists b' o', scatterpoint a (d_row d) (mkst b o) = (Ok tt, mkst b' o') /\
      (bits <> 1 -> o' = o ++ report (inject_Z (d_x d)) (inject_Z (d_y d))) /\
      repainted b b' w h bits (fun px py => if mark (spot d) (d_r d) (d_f d) px py then d_c d else pixel b w h bits px py).
  Proof.
    intros [Hc Hp] W Sh. destruct (screen_run (inject_Z (d_x d)) (inject_Z (d_y d)) (mkst b o)) as (v & E & Ev & _).
    destruct (mark_fills (spot d) (d_r d) (d_c d) (d_f d) v Ev Hc Hp b (o ++ report (inject_Z (d_x d)) (inject_Z (d_y d))) W Sh) as (b' & o' & E2 & Q & R).
    exists b', o'. split; [|split].
    - rewrite <- E2. unfold scatterpoint.
      rewrite (bind_ok _ _ _ _ _ (run_lift (item (d_row d) 2) _ _ (d_r d) eq_refl)).
      rewrite (bind_ok _ _ _ _ _ (run_lift (item (d_row d) 0) _ _ (d_x d) eq_refl)).
      rewrite (bind_ok _ _ _ _ _ (run_lift (item (d_row d) 1) _ _ (d_y d) eq_refl)).
      rewrite (bind_ok _ _ _ _ _ E). cbn [mem out].
      rewrite (bind_ok _ _ _ _ _ (run_lift (item (d_row d) 3) _ _ (d_c d) eq_refl)).
      destruct (d_r d >? 1); [|reflexivity].
      now rewrite (bind_ok _ _ _ _ _ (run_lift (item (d_row d) 4) _ _ (d_f d) eq_refl)).
    - exact Q.
    - eapply repainted_ext; [|exact R]. intros px py _. cbn beta. now destruct (mark _ _ _ px py).
  Qed.
  Lemma points_run data : forall b o, Forall datum_ok data -> wf b w h bits -> same_header b0 b bits ->
    exists b' o', forM (map d_row data) (scatterpoint a) (mkst b o) = (Ok tt, mkst b' o') /\
      (bits <> 1 -> o' = o ++ repeat Mregionoutofbounds (length (filter (fun d => negb (d_in_view (area_of a) d)) data))) /\
      repainted b b' w h bits (fun px py => marked spot data px py (pixel b w h bits px py)).
  Proof.
    induction data as [|d data IH]; intros b o HF W Sh.
    - exists b, o. split; [reflexivity|]. split; [intros _; cbn; now rewrite app_nil_r|]. now apply repainted_refl.
    - inversion HF as [|? ? Hd HF']; subst.
      destruct (point_run d b o Hd W Sh) as (b1 & o1 & E1 & Q1 & R1).
      destruct (IH b1 o1 HF') as (b2 & o2 & E2 & Q2 & R2); [apply R1|eapply same_header_trans; [exact Sh|apply R1]|].
      exists b2, o2. split; [|split].
      + unfold forM. cbn [map foldM]. unfold bind at 1. rewrite E1. exact E2.
      + intros N. rewrite (Q2 N), (Q1 N), <- app_assoc. f_equal. cbn [filter]. unfold report. unfold d_in_view at 1.
        destruct (in_view (area_of a) (inject_Z (d_x d)) (inject_Z (d_y d))) eqn:EV; unfold d_in_view at 1; rewrite EV; reflexivity.
      + eapply repainted_ext; [|eapply repainted_trans; [exact R1|exact R2]]. intros px py Hin. cbn beta. unfold marked at 2. cbn [fold_left].
        unfold marked. f_equal. now rewrite (proj2 (proj2 R1)).
  Qed.

  Lemma scatter_plain data b o lc : XYscatterplot (map d_row data) a false lc (mkst b o) =
    forM (map d_row data) (scatterpoint a) (mkst b o).
  Proof.
    unfold XYscatterplot. unfold bind. destruct (forM (map d_row data) (scatterpoint a) (mkst b o)) as [[[]|e] s']; reflexivity.
  Qed.
  Hypothesis (Hw : 0 < w) (Hh : 0 < h) (Hlim : 0 <= snd (ax_limits a)).
  Lemma not_corner x y (p : Q * Q) : in_view (area_of a) x y = true -> (snd p == place_y (area_of a) y)%Q ->
    Qeq_bool (fst p) (-1) && Qeq_bool (snd p) (-1) = false.
  Proof.
    intros HV E. apply andb_false_intro2. destruct (Qeq_bool (snd p) (-1)) eqn:K; auto. apply Qeq_bool_iff in K. exfalso.
    unfold in_view in HV. apply andb_true_iff in HV. destruct HV as [_ HV]. apply Qle_bool_iff in HV. rewrite <- E, K in HV.
    cbn [area_of limit_y] in HV. unfold Qle in HV. cbn in HV. lia.
  Qed.
  Variables (data : list datum) (m k : Q) (lc : Z).
  Let xmin := inject_Z (fst (ax_starts a)).
  Let xmax := inject_Z (fst (ax_max a)).
  Let ymax := inject_Z (snd (ax_max a)).
  Hypothesis (Em : LSMslope (map d_row data) = Ok m) (Ek : LSMYint (map d_row data) = Ok k).
  Hypothesis Hlc : 0 <= lc < 2 ^ bits.
  Hypothesis HF : Forall datum_ok data.
  Definition line_start : Z * Z := screen xmin (xmin * m + k).
  Definition line_end : Z * Z :=
    if in_view (area_of a) xmax (xmax * m + k) then screen xmax (xmax * m + k) else screen ((ymax - k) / m) ymax.
  Lemma scatter_line o : ~ (m == 0)%Q \/ in_view (area_of a) xmax (xmax * m + k) = true -> seg_fits w h bits line_start line_end ->
    exists b' o', XYscatterplot (map d_row data) a true lc (mkst b0 o) = (Ok tt, mkst b' o') /\
      (bits <> 1 -> exists n, o' = o ++ repeat Mregionoutofbounds n) /\
      repainted b0 b' w h bits (fun px py => if seg_hit w h line_start line_end px py then lc else marked spot data px py (pixel b0 w h bits px py)).
  Proof.
    intros Hm HS. assert (SH : same_header b0 b0 bits) by (split; auto).
    destruct (points_run data b0 o HF W0 SH) as (b1 & o1 & E1 & Q1 & R1).
    destruct (screen_run xmin (xmin * m + k) (mkst b1 o1)) as (u & E2 & Ru & _). cbn [mem out] in E2.
    set (o2 := o1 ++ report xmin (xmin * m + k)) in *.
    destruct (screen_run xmax (xmax * m + k) (mkst b1 o2)) as (v & E3 & Rv & Vt & Vf). cbn [mem out] in E3.
    set (o3 := o2 ++ report xmax (xmax * m + k)) in *.
    assert (C : exists v' o4, (if Qeq_bool (fst v) (-1) && Qeq_bool (snd v) (-1) then
            xmax <- lift (qdiv (ymax - k) m) ;; userdef2Dcooordsys2screenxy xmax ymax a else ret v) (mkst b1 o3) = (Ok v', mkst b1 o4) /\
         roundvect v' = line_end /\ exists n, o4 = o3 ++ repeat Mregionoutofbounds n).
    { unfold line_end. destruct (in_view (area_of a) xmax (xmax * m + k)) eqn:EV.
      - destruct (Vt eq_refl) as [_ Vy]. rewrite (not_corner _ _ v EV Vy). exists v, o3. split; [reflexivity|]. split; [exact Rv|].
        exists 0%nat. cbn. now rewrite app_nil_r.
      - rewrite (Vf eq_refl). cbn [fst snd]. change (Qeq_bool (-1) (-1)) with true. cbn [andb].
        destruct Hm as [Hm|]; [|discriminate]. unfold qdiv. destruct (Qeq_bool m 0) eqn:Z0; [apply Qeq_bool_iff in Z0; contradiction|].
        destruct (screen_run ((ymax - k) / m) ymax (mkst b1 o3)) as (v' & E4 & R4 & _). cbn [mem out] in E4.
        exists v', (o3 ++ report ((ymax - k) / m) ymax). split; [exact E4|]. split; [exact R4|].
        unfold report. destruct (in_view (area_of a) ((ymax - k) / m) ymax); [exists 0%nat|exists 1%nat]; reflexivity. }
    destruct C as (v' & o4 & E4 & R4 & n4 & Q4).
    assert (W1 : wf b1 w h bits) by apply R1.
    destruct (line_fills b0 w h bits line_start line_end lc W0 Hw Hh Hlc HS b1 o4 W1) as (b2 & o5 & E5 & Q5 & R5); [apply R1|].
    exists b2, o5. split; [|split].
    - unfold XYscatterplot. rewrite (bind_ok _ _ _ _ _ E1).
      rewrite (bind_ok _ _ _ _ _ (run_lift _ b1 o1 _ Em)). rewrite (bind_ok _ _ _ _ _ (run_lift _ b1 o1 _ Ek)). cbv zeta.
      fold xmin xmax ymax. rewrite (bind_ok _ _ _ _ _ E2), (bind_ok _ _ _ _ _ E3), (bind_ok _ _ _ _ _ E4).
      rewrite Ru, R4. exact E5.
    - intros N. rewrite (Q5 N), Q4. unfold o3, o2. rewrite (Q1 N).
      assert (RP : forall x y, exists n, report x y = repeat Mregionoutofbounds n).
      { intros x y. unfold report. destruct (in_view (area_of a) x y); [exists 0%nat|exists 1%nat]; reflexivity. }
      destruct (RP xmin (xmin * m + k)%Q) as (n2 & ->). destruct (RP xmax (xmax * m + k)%Q) as (n3 & ->).
      rewrite <- !app_assoc, <- !repeat_app. eexists. reflexivity.
    - eapply repainted_ext; [|eapply repainted_trans; [exact R1|exact R5]]. intros px py Hin. cbn beta.
      destruct (seg_hit w h line_start line_end px py); [reflexivity|]. now rewrite (proj2 (proj2 R1)).
  Qed.
  Lemma scatter_flat b o : (m == 0)%Q -> in_view (area_of a) xmax (xmax * m + k) = false -> wf b w h bits -> same_header b0 b bits ->
    exists s', XYscatterplot (map d_row data) a true lc (mkst b o) = (Err ZeroDivisionError, s').
  Proof.
    intros Hm EV W SH. destruct (points_run data b o HF W SH) as (b1 & o1 & E1 & _).
    destruct (screen_run xmin (xmin * m + k) (mkst b1 o1)) as (u & E2 & _). cbn [mem out] in E2.
    destruct (screen_run xmax (xmax * m + k) (mkst b1 (o1 ++ report xmin (xmin * m + k)))) as (v & E3 & _ & _ & Vf). cbn [mem out] in E3.
    eexists. unfold XYscatterplot. rewrite (bind_ok _ _ _ _ _ E1).
    rewrite (bind_ok _ _ _ _ _ (run_lift _ b1 o1 _ Em)). rewrite (bind_ok _ _ _ _ _ (run_lift _ b1 o1 _ Ek)). cbv zeta.
    fold xmin xmax ymax. rewrite (bind_ok _ _ _ _ _ E2), (bind_ok _ _ _ _ _ E3). rewrite (Vf EV). cbn [fst snd].
    change (Qeq_bool (-1) (-1)) with true. cbn [andb]. unfold qdiv. apply Qeq_bool_iff in Hm. rewrite Hm. reflexivity.
  Qed.
End Scatter.
