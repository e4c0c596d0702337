(** Drawing ellipses (proofs). *)
From Coq Require Import ZArith List Bool Lia.
From Verif Require Import PyBase PyFacts Spec SpecShapes Bmp BmpFacts PixelProofs PlotList HeaderProofs Buffers Region Raster VertProofs HorizProofs IterProofs RectProofs RectProofs2 Geometry GeomProofs Draw DrawProofs DrawProofs2 DrawProofs4 Shapes TextProofs ShapeProofs.
Import ListNotations.
Open Scope Z_scope.
Open Scope py_scope.
Ltac Zify.zify_post_hook ::= Z.to_euclidean_division_equations.

Definition quadrant (l : list (Z * Z)) : Prop := forall u v, In (u, v) l -> 0 <= u /\ 0 <= v.
Lemma rows_spanned l x y x' y' : quadrant l -> existsb (fun v => rows2 x y v x' y') l = spanned l x y x' y'.
Proof.
  intros Q. unfold spanned. induction l as [|[u v] l IH]; [reflexivity|]. cbn [existsb].
  rewrite IH by (intros u0 v0 K0; apply Q; now right). destruct (Q u v (or_introl eq_refl)) as [H1 H2].
  assert (E : rows2 x y (u, v) x' y' = (Z.abs (x' - x) <=? fst (u, v)) && (snd (u, v) =? Z.abs (y' - y))); [|rewrite E; reflexivity].
  clear IH. apply eq_true_iff_eq. unfold rows2, in_box. cbn [fst snd].
  rewrite orb_true_iff, !andb_true_iff, !Z.leb_le, Z.eqb_eq. lia.
Qed.
Lemma quad_mirrored l x y x' y' : quadrant l -> pt_in (flat_map (mirror1stquad x y) l) x' y' = mirrored l x y x' y'.
Proof.
  intros Q. rewrite pt_in_flat. unfold mirrored. induction l as [|[u v] l IH]; [reflexivity|]. cbn [existsb].
  rewrite IH by (intros u0 v0 K0; apply Q; now right). destruct (Q u v (or_introl eq_refl)) as [H1 H2].
  assert (E : pt_in (mirror1stquad x y (u, v)) x' y' = (fst (u, v) =? Z.abs (x' - x)) && (snd (u, v) =? Z.abs (y' - y))); [|rewrite E; reflexivity].
  clear IH. apply eq_true_iff_eq. rewrite pt_in_iff. unfold mirror1stquad, mirror. cbn [fst snd In].
  rewrite andb_true_iff, !Z.eqb_eq. split.
  - intros [K|[K|[K|[K|[]]]]]; inversion K; lia.
  - intros [-> ->]. destruct (Z.le_gt_cases 0 (x' - x)), (Z.le_gt_cases 0 (y' - y)).
    + right; left. f_equal; lia.
    + right; right; right; left. f_equal; lia.
    + left. f_equal; lia.
    + right; right; left. f_equal; lia.
Qed.

Section Ell.
  Variables (b : list Z) (w h bits x y bb a c : Z) (l : list (Z * Z)).
  Hypothesis W : wf b w h bits.
  Hypothesis Hs : storable bits c.
  Hypothesis El : iterellipsepart bb a = Ok l.
  Hypothesis Hl : quadrant l.

  Lemma ell1 o : bits = 1 ->
    exists b' o', filledellipse x y bb a c (mkst b o) = (Ok tt, mkst b' o') /\
      repainted b b' w h bits (fun x' y' => if spanned l x y x' y' then reduce bits c else pixel b w h bits x' y').
  Proof.
    intros E1. unfold filledellipse. rewrite (bind_ok _ _ _ _ _ (wf_geti_bits _ _ _ _ W _)).
    rewrite (bind_ok _ _ _ _ _ (run_lift _ _ _ _ El)).
    replace (bits <? 8) with true by (rewrite E1; reflexivity).
    assert (Row : forall yy x1 x2 b o, wf b w h bits -> exists b' o', horiline yy x1 x2 c (mkst b o) = (Ok tt, mkst b' o') /\
      repainted b b' w h bits (fun x' y' => if in_box x1 yy x2 yy x' y' then reduce bits c else pixel b w h bits x' y')).
    { intros yy x1 x2 b1 o1 W1. destruct (Z_le_gt_dec 0 yy) as [A|A]; [destruct (Z_lt_ge_dec yy h) as [B|B]|].
      - destruct (hori_bit b1 w h bits yy x1 x2 c W1 Hs o1 E1 ltac:(lia)) as (b2 & E & R). eauto.
      - do 2 eexists. split; [apply (hori_out b1 w h bits); auto; lia|].
        eapply repainted_ext; [|apply repainted_refl; exact W1]. intros x' y' Hin. unfold inside in Hin.
        replace (in_box x1 yy x2 yy x' y') with false; auto. unfold in_box. symmetry.
        apply andb_false_iff. right. apply andb_false_iff. rewrite !Z.leb_gt. lia.
      - do 2 eexists. split; [apply (hori_out b1 w h bits); auto; lia|].
        eapply repainted_ext; [|apply repainted_refl; exact W1]. intros x' y' Hin. unfold inside in Hin.
        replace (in_box x1 yy x2 yy x' y') with false; auto. unfold in_box. symmetry.
        apply andb_false_iff. right. apply andb_false_iff. rewrite !Z.leb_gt. lia. }
    match goal with |- context [forM l ?f] =>
      destruct (paint_forM l f (rows2 x y) w h bits (reduce bits c) false) with (b := b) (o := o) as (b' & o' & E & _ & R); auto
    end.
    - intros v b1 o1 Hin W1. unfold mirror.
      destruct (Row (y - snd v) (x - fst v) (x + fst v) b1 o1 W1) as (b2 & o2 & Ea & Ra).
      destruct (Row (y + snd v) (x - fst v) (x + fst v) b2 o2 (repainted_wf _ _ _ _ _ _ Ra)) as (b3 & o3 & Eb & Rb).
      exists b3, o3. rewrite (bind_ok _ _ _ _ _ Ea). split; [exact Eb|]. split; [discriminate|].
      eapply repainted_ext; [|eapply repainted_trans; [exact Ra|exact Rb]].
      intros x' y' Hi. cbn beta. rewrite (proj2 (proj2 Ra)) by auto. unfold rows2.
      destruct (in_box _ (y + snd v) _ _ x' y'); cbn [orb]; reflexivity.
    - exists b', o'. split; [exact E|]. eapply repainted_ext; [|exact R]. intros x' y' _. cbn beta.
      rewrite rows_spanned; auto.
  Qed.

  (** 8 and 24 bit *)
  Lemma ell_bytes o : bits = 8 \/ bits = 24 -> 0 <= data_off bits + (x + 1) * pbytes bits ->
    exists b', filledellipse x y bb a c (mkst b o) = (Ok tt, mkst b' o) /\
      repainted b b' w h bits (fun x' y' => if spanned l x y x' y' then reduce bits c else pixel b w h bits x' y').
  Proof.
    intros Hb Hx. unfold filledellipse. rewrite (bind_ok _ _ _ _ _ (wf_geti_bits _ _ _ _ W _)).
    rewrite (bind_ok _ _ _ _ _ (run_lift _ _ _ _ El)).
    replace (bits <? 8) with false by (destruct Hb as [-> | ->]; reflexivity).
    rewrite (bind_ok _ _ _ _ _ (run_rd _ _ _ _ (getmaxxy_ok _ _ _ _ W))). cbn [fst snd].
    assert (Row : forall yy x1 x2 b o, wf b w h bits -> 0 <= data_off bits + (Z.max x1 x2 + 1) * pbytes bits ->
      exists b', (if isinrange yy h (-1) then horiline yy x1 x2 c else ret tt) (mkst b o) = (Ok tt, mkst b' o) /\
      repainted b b' w h bits (fun x' y' => if in_box x1 yy x2 yy x' y' then reduce bits c else pixel b w h bits x' y')).
    { intros yy x1 x2 b1 o1 W1 Hsafe. unfold isinrange.
      destruct ((yy >? -1) && (yy <? h)) eqn:Ey.
      - rewrite andb_true_iff, Z.gtb_ltb, !Z.ltb_lt in Ey. apply hori_bytes; auto; lia.
      - exists b1. split; [reflexivity|].
        eapply repainted_ext; [|apply repainted_refl; exact W1]. intros x' y' Hin. unfold inside in Hin.
        rewrite andb_false_iff, Z.gtb_ltb, !Z.ltb_ge in Ey.
        replace (in_box x1 yy x2 yy x' y') with false; auto. unfold in_box. symmetry.
        apply andb_false_iff. right. apply andb_false_iff. rewrite !Z.leb_gt. lia. }
    assert (Fin : forall f,
      (forall v b o, 0 <= fst v -> wf b w h bits -> f v (mkst b o) =
         ((if isinrange (y + snd v) h (-1) then horiline (y + snd v) (x - fst v) (x + fst v) c else ret tt) ;;;
          (if isinrange (y - snd v) h (-1) then horiline (y - snd v) (x - fst v) (x + fst v) c else ret tt)) (mkst b o)) ->
      exists b', forM l f (mkst b o) = (Ok tt, mkst b' o) /\
      repainted b b' w h bits (fun x' y' => if spanned l x y x' y' then reduce bits c else pixel b w h bits x' y')).
    { intros f Hf.
      destruct (paint_forM l f (rows2 x y) w h bits (reduce bits c) true) with (b := b) (o := o) as (b' & o' & E & Q & R); auto.
      - intros (hw, v) b1 o1 Hin W1. destruct (Hl hw v Hin) as [Hhw _].
        rewrite Hf by auto. cbn [fst snd].
        assert (Hsafe : 0 <= data_off bits + (Z.max (x - hw) (x + hw) + 1) * pbytes bits).
        { rewrite Z.max_r by lia. destruct Hb as [-> | ->];
            [change (data_off 8) with 1078 in *; change (pbytes 8) with 1 in *
            |change (data_off 24) with 54 in *; change (pbytes 24) with 3 in *]; lia. }
        destruct (Row (y + v) (x - hw) (x + hw) b1 o1 W1 Hsafe) as (b2 & Ea & Ra).
        destruct (Row (y - v) (x - hw) (x + hw) b2 o1 (repainted_wf _ _ _ _ _ _ Ra) Hsafe) as (b3 & Eb & Rb).
        exists b3, o1. rewrite (bind_ok _ _ _ _ _ Ea). split; [exact Eb|]. split; [reflexivity|].
        eapply repainted_ext; [|eapply repainted_trans; [exact Ra|exact Rb]].
        intros x' y' Hi. cbn beta. rewrite (proj2 (proj2 Ra)) by auto. unfold rows2. cbn [fst snd].
        destruct (in_box (x - hw) (y + v) (x + hw) (y + v) x' y'), (in_box (x - hw) (y - v) (x + hw) (y - v) x' y'); reflexivity.
      - rewrite Q in E by auto. exists b'. split; [exact E|]. eapply repainted_ext; [|exact R]. intros x' y' _. cbn beta.
        rewrite rows_spanned; auto. }
    assert (Hcl : forall hw, 0 <= hw -> setmin (x - hw) 0 = Z.max (Z.min (x - hw) (x + hw)) 0 /\
                       setmax (x + hw) (w - 1) = Z.min (Z.max (x - hw) (x + hw)) (w - 1)).
    { intros hw Hhw. unfold setmin, setmax. split; bcases; lia. }
    destruct Hb as [Eb|Eb]; rewrite Eb in *; cbn [Z.eqb Pos.eqb].
    - apply Fin. intros v b1 o1 Hv W1. unfold mirror. destruct (Hcl (fst v) Hv) as [C1 C2]. rewrite C1, C2.
      set (xa := Z.max (Z.min (x - fst v) (x + fst v)) 0). set (xb := Z.min (Z.max (x - fst v) (x + fst v)) (w - 1)).
      assert (Bb : bytes (repz (Z.land c 255) (xb - xa + 1))) by (apply bytes_repz; rewrite land255; unfold byte; lia).
      rewrite (bind_ok _ _ _ _ _ (run_lift _ _ _ _ (py_array_ok _ Bb))).
      assert (One : forall yy b o, wf b w h 8 ->
        (if isinrange yy h (-1) then s <- rd (o8bmofhd xa yy) ;; slice_set s (s + (xb - xa + 1)) (repz (Z.land c 255) (xb - xa + 1)) else ret tt) (mkst b o)
        = (if isinrange yy h (-1) then horiline yy (x - fst v) (x + fst v) c else ret tt) (mkst b o)).
      { intros yy b2 o2 W2. destruct (isinrange yy h (-1)) eqn:Ey; auto.
        unfold isinrange in Ey. rewrite andb_true_iff, Z.gtb_ltb, !Z.ltb_lt in Ey.
        rewrite (hori_start b2 w h 8 yy (x - fst v) (x + fst v) c W2) by lia. cbn [Z.eqb Pos.eqb]. cbv zeta. fold xa xb.
        rewrite (bind_ok _ _ _ _ _ (run_lift _ _ _ _ (py_array_ok _ Bb))).
        assert (Eo : o8bmofhd xa yy b2 = Ok (baddr w h 8 xa yy)).
        { pose proof (wf_offsethd _ _ _ _ W2 xa yy) as K. unfold bmoffsethd in K. rewrite (wf_rbits _ _ _ _ W2) in K. exact K. }
        rewrite (bind_ok _ _ _ _ _ (run_rd _ _ _ _ Eo)). reflexivity. }
      destruct (Row (y + snd v) (x - fst v) (x + fst v) b1 o1 W1) as (b2 & Ea & Ra).
      { rewrite Z.max_r by lia. change (data_off 8) with 1078 in *; change (pbytes 8) with 1 in *. lia. }
      rewrite (bind_ok _ _ _ _ _ (eq_trans (One _ _ _ W1) Ea)), (bind_ok _ _ _ _ _ Ea). apply One. apply Ra.
    - apply Fin. intros v b1 o1 Hv W1. unfold mirror. destruct (Hcl (fst v) Hv) as [C1 C2]. rewrite C1, C2.
      set (xa := Z.max (Z.min (x - fst v) (x + fst v)) 0). set (xb := Z.min (Z.max (x - fst v) (x + fst v)) (w - 1)).
      specialize (Hs eq_refl). unfold int2RGB.
      set (buf := rep_list [Z.land c 255; Z.land (Z.shiftr c 8) 255; Z.shiftr c 16] (xb - xa + 1)).
      assert (Bb : bytes buf).
      { unfold buf. destruct (Z.le_gt_cases 0 (xb - xa + 1)) as [L|L].
        - destruct (rep_list_spec [Z.land c 255; Z.land (Z.shiftr c 8) 255; Z.shiftr c 16] (xb - xa + 1) L) as (_ & K & _).
          apply K. now apply rgb_bytes.
        - unfold rep_list. replace (Z.to_nat (xb - xa + 1)) with O by lia. constructor. }
      rewrite (bind_ok _ _ _ _ _ (run_lift _ _ _ _ (py_array_ok _ Bb))).
      assert (One : forall yy b o, wf b w h 24 ->
        (if isinrange yy h (-1) then s <- rd (o24bmofhd xa yy) ;; slice_set s (s + (xb - xa + 1) * 3) buf else ret tt) (mkst b o)
        = (if isinrange yy h (-1) then horiline yy (x - fst v) (x + fst v) c else ret tt) (mkst b o)).
      { intros yy b2 o2 W2. destruct (isinrange yy h (-1)) eqn:Ey; auto.
        unfold isinrange in Ey. rewrite andb_true_iff, Z.gtb_ltb, !Z.ltb_lt in Ey.
        rewrite (hori_start b2 w h 24 yy (x - fst v) (x + fst v) c W2) by lia. cbn [Z.eqb Pos.eqb]. cbv zeta. fold xa xb buf.
        rewrite (bind_ok _ _ _ _ _ (run_lift _ _ _ _ (py_array_ok _ Bb))).
        assert (Eo : o24bmofhd xa yy b2 = Ok (baddr w h 24 xa yy)).
        { pose proof (wf_offsethd _ _ _ _ W2 xa yy) as K. unfold bmoffsethd in K. rewrite (wf_rbits _ _ _ _ W2) in K. exact K. }
        rewrite (bind_ok _ _ _ _ _ (run_rd _ _ _ _ Eo)). reflexivity. }
      destruct (Row (y + snd v) (x - fst v) (x + fst v) b1 o1 W1) as (b2 & Ea & Ra).
      { rewrite Z.max_r by lia. change (data_off 24) with 54 in *; change (pbytes 24) with 3 in *. lia. }
      rewrite (bind_ok _ _ _ _ _ (eq_trans (One _ _ _ W1) Ea)), (bind_ok _ _ _ _ _ Ea). apply One. apply Ra.
  Qed.


  (** The outline.  When the test on the (swapped) half axes finds the ellipse
      inside, the points are stored without a check. *)
  Lemma ellipse_run o : (bits = 8 -> 0 <= c < 256) ->
    (0 <= x - bb -> x + bb < w -> 0 <= y - a -> y + a < h ->
     forall u v, In (u, v) l -> 0 <= x - u /\ x + u < w /\ 0 <= y - v /\ y + v < h) ->
    exists b', ellipse x y bb a c false (mkst b o) = (Ok tt, mkst b' o) /\
      repainted b b' w h bits (fun x' y' => if mirrored l x y x' y' then reduce bits c else pixel b w h bits x' y').
  Proof.
    intros Hc8 Hin. unfold ellipse.
    rewrite (bind_ok _ _ _ _ _ (run_rd _ _ _ _ (getmaxxy_ok _ _ _ _ W))). cbn [fst snd].
    rewrite (bind_ok _ _ _ _ _ (wf_geti_bits _ _ _ _ W _)). cbv zeta.
    set (pts := flat_map (mirror1stquad x y) l).
    assert (Ep : iterellipse x y bb a = Ok pts) by (unfold iterellipse; rewrite El; reflexivity).
    rewrite (bind_ok _ _ _ _ _ (run_lift _ _ _ _ Ep)).
    assert (Fin : forall f, (forall p b o, In p pts -> wf b w h bits -> f p (mkst b o) = plotxybit (fst p) (snd p) c (mkst b o)) ->
      exists b', forM pts f (mkst b o) = (Ok tt, mkst b' o) /\
      repainted b b' w h bits (fun x' y' => if mirrored l x y x' y' then reduce bits c else pixel b w h bits x' y')).
    { intros f Hf. destruct (points_paint pts f c b w h bits o W Hs Hf) as (b' & E & R). exists b'. split; [exact E|].
      eapply repainted_ext; [|exact R]. intros x' y' _. cbn beta. unfold pts. now rewrite quad_mirrored. }
    set (chk := negb (entireellipseisinboundary x y (-1) w (-1) h bb a)).
    assert (In0 : chk = false -> forall p, In p pts -> inside w h (fst p) (snd p)).
    { intros C p Hp. unfold chk in C. apply negb_false_iff in C. unfold entireellipseisinboundary, isinrange in C.
      rewrite !andb_true_iff, !Z.gtb_ltb, !Z.ltb_lt in C. apply in_flat_map in Hp. destruct Hp as ((u, v) & Hu & Hp).
      specialize (Hin ltac:(lia) ltac:(lia) ltac:(lia) ltac:(lia) u v Hu). destruct (Hl u v Hu).
      unfold mirror1stquad, mirror in Hp. cbn [fst snd In] in Hp. unfold inside.
      destruct Hp as [<-|[<-|[<-|[<-|[]]]]]; cbn [fst snd]; lia. }
    assert (Chk : forall g : Z -> M unit,
      (forall p b o, inside w h (fst p) (snd p) -> wf b w h bits ->
         g (baddr w h bits (fst p) (snd p)) (mkst b o) = plotxybit (fst p) (snd p) c (mkst b o)) ->
      forall p b1 o1, In p pts -> wf b1 w h bits ->
        (inb <- (if chk then rd (isinBMPrectbnd (fst p) (snd p)) else ret true) ;;
          if inb then s <- rd (bmoffsethd (fst p) (snd p)) ;; g s else ret tt) (mkst b1 o1) = plotxybit (fst p) (snd p) c (mkst b1 o1)).
    { intros g Hg p b1 o1 Hp W1. destruct (inside_dec w h (fst p) (snd p)) as [Hi|Hi].
      - assert (E : (if chk then rd (isinBMPrectbnd (fst p) (snd p)) else ret true) (mkst b1 o1) = (Ok true, mkst b1 o1)).
        { destruct chk; [|reflexivity]. exact (run_rd _ _ _ _ (wf_inbnd_true _ _ _ _ W1 _ _ Hi)). }
        rewrite (bind_ok _ _ _ _ _ E).
        rewrite (bind_ok _ _ _ _ _ (run_rd _ _ _ _ (wf_offsethd _ _ _ _ W1 _ _))). now apply Hg.
      - assert (E : (if chk then rd (isinBMPrectbnd (fst p) (snd p)) else ret true) (mkst b1 o1) = (Ok false, mkst b1 o1)).
        { destruct chk eqn:C; [|exfalso; auto]. exact (run_rd _ _ _ _ (wf_inbnd_false _ _ _ _ W1 _ _ Hi)). }
        rewrite (bind_ok _ _ _ _ _ E). rewrite (plot_outside b1 w h bits) by auto. reflexivity. }
    clearbody chk.
    destruct (wf_depth _ _ _ _ W) as [Eb|[Eb|[Eb|Eb]]]; rewrite Eb in *; cbn [Z.eqb Pos.eqb].
    - apply Fin. reflexivity.
    - apply Fin. reflexivity.
    - apply Fin. apply (Chk (fun s => seti s c)). intros. apply store8; auto.
    - specialize (Hs eq_refl). unfold int2BGRarr. rewrite (bind_ok _ _ _ _ _ (run_lift _ _ _ _ (py_array_ok _ (rgb_bytes c Hs)))).
      apply Fin. apply (Chk (fun s => slice_set s (s + 3) [Z.land c 255; Z.land (Z.shiftr c 8) 255; Z.shiftr c 16])).
      intros. apply store24; auto.
  Qed.
End Ell.
