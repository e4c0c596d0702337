(** Circles and discs (proofs). *)
From Coq Require Import ZArith List Bool Lia.
From Verif Require Import PyBase PyFacts Spec Bmp BmpFacts PixelProofs PlotList HeaderProofs Buffers Region Raster VertProofs HorizProofs IterProofs RectProofs RectProofs2 Geometry GeomProofs Draw DrawProofs DrawProofs2.
Import ListNotations.
Open Scope Z_scope.
Open Scope py_scope.
Ltac Zify.zify_post_hook ::= Z.to_euclidean_division_equations.

(** ** the outline *)
Lemma ring_circle r dx dy : on_ring r dx dy = true <-> on_circle r (Z.abs dx, Z.abs dy).
Proof.
  unfold on_ring, on_circle, cerr. cbn [fst snd]. rewrite andb_true_iff, !Z.leb_le, !Z.abs_square.
  set (m := Z.max (Z.abs dx) (Z.abs dy)). split; intros; [|lia]. split; [lia|]. split; lia.
Qed.

Lemma quad_ring r l x y x' y' : (forall p, In p l <-> on_circle r p) ->
  existsb (fun p => pt_in (mirror1stquad x y p) x' y') l = on_ring r (x' - x) (y' - y).
Proof.
  intros Hl. apply eq_true_iff_eq. rewrite existsb_exists, ring_circle. split.
  - intros ((a, b) & Hin & Hp). apply Hl in Hin. apply pt_in_iff in Hp.
    assert (K : Z.abs (x' - x) = a /\ Z.abs (y' - y) = b).
    { unfold on_circle in Hin. cbn [fst snd] in Hin.
      unfold mirror1stquad, mirror in Hp. cbn [fst snd In] in Hp.
      destruct Hp as [K|[K|[K|[K|[]]]]]; inversion K; lia. }
    destruct K as [-> ->]. exact Hin.
  - intros Hc. exists (Z.abs (x' - x), Z.abs (y' - y)). split; [now apply Hl|]. apply pt_in_iff.
    unfold mirror1stquad, mirror. cbn [fst snd In].
    destruct (Z.le_gt_cases 0 (x' - x)), (Z.le_gt_cases 0 (y' - y)).
    + right; left. f_equal; lia.
    + right; right; right; left. f_equal; lia.
    + left. f_equal; lia.
    + right; right; left. f_equal; lia.
Qed.
Lemma pt_in_flat {A} (l : list A) f x y : pt_in (flat_map f l) x y = existsb (fun p => pt_in (f p) x y) l.
Proof. induction l; cbn [flat_map existsb]; auto. now rewrite pt_in_app, IHl. Qed.

Lemma itercircle_run x y r : 0 <= r ->
  exists l, itercircle x y r = Ok l /\ forall x' y', pt_in l x' y' = on_ring r (x' - x) (y' - y).
Proof.
  intros Hr. destruct (itercirclepart_run r Hr) as (l & E & _ & Hl & _).
  exists (flat_map (mirror1stquad x y) l). unfold itercircle. rewrite E. split; [reflexivity|].
  intros. rewrite pt_in_flat. now apply quad_ring.
Qed.
Lemma itercircle_neg x y r : r < 0 -> itercircle x y r = Ok [].
Proof. intros. unfold itercircle. now rewrite itercirclepart_neg. Qed.

(** four mirrored unchecked stores *)
Lemma four_paint pts (f : Z * Z -> M unit) (quad : Z * Z -> list (Z * Z)) c b w h bits o :
  wf b w h bits -> storable bits c ->
  (forall p b o, In p pts -> wf b w h bits -> f p (mkst b o) = forM (quad p) (fun q => plotxybit (fst q) (snd q) c) (mkst b o)) ->
  exists b', forM pts f (mkst b o) = (Ok tt, mkst b' o) /\
    repainted b b' w h bits (fun x y => if existsb (fun p => pt_in (quad p) x y) pts then reduce bits c else pixel b w h bits x y).
Proof.
  intros W Hs Hf.
  destruct (paint_forM pts f (fun p => pt_in (quad p)) w h bits (reduce bits c) true) with (b := b) (o := o) as (b' & o' & E & Q & R); auto.
  - intros p b1 o1 Hp W1. rewrite Hf by auto. destruct (points_run (quad p) c b1 w h bits o1 W1 Hs) as (b2 & E & R).
    exists b2, o1. auto.
  - rewrite Q in E by auto. eauto.
Qed.

Section Circle.
  Variables (b : list Z) (w h bits x y r c : Z).
  Hypothesis W : wf b w h bits.
  Hypothesis Hc : (bits = 8 \/ bits = 24) -> 0 <= c < 2 ^ bits.

  Let quad (p : Z * Z) : list (Z * Z) :=
    [(x - fst p, y - snd p); (x + fst p, y + snd p); (x - fst p, y + snd p); (x + fst p, y - snd p)].
  Lemma quad_pts p x' y' : pt_in (quad p) x' y' = pt_in (mirror1stquad x y p) x' y'.
  Proof.
    apply eq_true_iff_eq. rewrite !pt_in_iff. unfold quad, mirror1stquad, mirror. cbn [fst snd In]. tauto.
  Qed.

  Lemma circ_storable : storable bits c.
  Proof. intros E. rewrite <- E. apply Hc. auto. Qed.

  Lemma circ_pts o f l : itercircle x y r = Ok l ->
    (forall p b o, In p l -> wf b w h bits -> f p (mkst b o) = plotxybit (fst p) (snd p) c (mkst b o)) ->
    0 <= r -> exists b', (pts <- lift (itercircle x y r) ;; forM pts f) (mkst b o) = (Ok tt, mkst b' o) /\
      repainted b b' w h bits (fun x' y' => if on_ring r (x' - x) (y' - y) then reduce bits c else pixel b w h bits x' y').
  Proof.
    intros El Hf Hr. destruct (itercircle_run x y r Hr) as (l' & E & Hl). rewrite El in E. inversion E; subst l'.
    rewrite (bind_ok _ _ _ _ _ (run_lift _ _ _ _ El)).
    destruct (points_paint l f c b w h bits o W circ_storable Hf) as (b' & E' & R).
    exists b'. split; [exact E'|]. eapply repainted_ext; [|exact R]. intros x' y' _. cbn beta. now rewrite Hl.
  Qed.

  Lemma circ_part o f l : itercirclepart r = Ok l ->
    (forall p b o, In p l -> wf b w h bits -> f p (mkst b o) = forM (quad p) (fun q => plotxybit (fst q) (snd q) c) (mkst b o)) ->
    0 <= r -> exists b', (pts <- lift (itercirclepart r) ;; forM pts f) (mkst b o) = (Ok tt, mkst b' o) /\
      repainted b b' w h bits (fun x' y' => if on_ring r (x' - x) (y' - y) then reduce bits c else pixel b w h bits x' y').
  Proof.
    intros El Hf Hr. destruct (itercirclepart_run r Hr) as (l' & E & _ & Hl & _). rewrite El in E. inversion E; subst l'.
    rewrite (bind_ok _ _ _ _ _ (run_lift _ _ _ _ El)).
    destruct (four_paint l f quad c b w h bits o W circ_storable Hf) as (b' & E' & R).
    exists b'. split; [exact E'|]. eapply repainted_ext; [|exact R]. intros x' y' _. cbn beta.
    rewrite <- (quad_ring r l x y x' y' Hl).
    replace (existsb (fun p => pt_in (quad p) x' y') l) with (existsb (fun p => pt_in (mirror1stquad x y p) x' y') l); auto.
    clear El Hf E Hl E' R. induction l; cbn [existsb]; auto. now rewrite IHl, quad_pts.
  Qed.

  (** the circle is inside when the check says so *)
  Lemma circ_inside l p q : entirecircleisinboundary x y (-1) w (-1) h r = true -> 0 <= r ->
    itercirclepart r = Ok l -> In p l -> In q (quad p) -> inside w h (fst q) (snd q).
  Proof.
    intros Hi Hr El Hp Hq. destruct (itercirclepart_run r Hr) as (l' & E & _ & Hl & _). rewrite El in E. inversion E; subst l'.
    apply Hl in Hp. apply on_circle_bound in Hp; auto.
    unfold entirecircleisinboundary, isinrange in Hi. rewrite !andb_true_iff, !Z.gtb_ltb, !Z.ltb_lt in Hi.
    unfold quad in Hq. cbn [In] in Hq. unfold inside.
    destruct Hq as [<-|[<-|[<-|[<-|[]]]]]; cbn [fst snd]; lia.
  Qed.

  Lemma circle_run o : 0 <= r ->
    exists b', circle x y r c false (mkst b o) = (Ok tt, mkst b' o) /\
      repainted b b' w h bits (fun x' y' => if on_ring r (x' - x) (y' - y) then reduce bits c else pixel b w h bits x' y').
  Proof.
    intros Hr. unfold circle.
    rewrite (bind_ok _ _ _ _ _ (run_rd _ _ _ _ (getmaxxy_ok _ _ _ _ W))). cbn [fst snd].
    rewrite (bind_ok _ _ _ _ _ (wf_geti_bits _ _ _ _ W _)). cbv zeta.
    destruct (itercircle_run x y r Hr) as (l1 & El1 & _).
    destruct (itercirclepart_run r Hr) as (l2 & El2 & _).
    pose proof (circ_pts o) as P1. pose proof (circ_part o) as P2.
    pose proof (circ_inside l2) as P3. pose proof circ_storable as Hs.
    assert (Hb : (bits = 1 \/ bits = 4) \/ bits = 8 \/ bits = 24)
      by (destruct (wf_depth _ _ _ _ W) as [?|[?|[?|?]]]; auto).
    destruct Hb as [Hb|Hb].
    { replace (bits =? 24) with false by (destruct Hb as [-> | ->]; reflexivity).
      replace (bits =? 8) with false by (destruct Hb as [-> | ->]; reflexivity).
      apply (P1 _ l1); auto. }
    specialize (Hc Hb).
    (* checked stores *)
    assert (Chk : forall g : Z -> M unit,
      (forall p b o, inside w h (fst p) (snd p) -> wf b w h bits ->
         g (baddr w h bits (fst p) (snd p)) (mkst b o) = plotxybit (fst p) (snd p) c (mkst b o)) ->
      exists b', (pts <- lift (itercircle x y r) ;;
        forM pts (fun p => inb <- rd (isinBMPrectbnd (fst p) (snd p)) ;;
          if inb then s <- rd (bmoffsethd (fst p) (snd p)) ;; g s else ret tt)) (mkst b o) = (Ok tt, mkst b' o) /\
      repainted b b' w h bits (fun x' y' => if on_ring r (x' - x) (y' - y) then reduce bits c else pixel b w h bits x' y')).
    { intros g Hg. apply (P1 _ l1); auto. intros p b1 o1 _ W1.
      destruct (inside_dec w h (fst p) (snd p)) as [Hin|Hin].
      - rewrite (bind_ok _ _ _ _ _ (run_rd _ _ _ _ (wf_inbnd_true _ _ _ _ W1 _ _ Hin))).
        rewrite (bind_ok _ _ _ _ _ (run_rd _ _ _ _ (wf_offsethd _ _ _ _ W1 _ _))). now apply Hg.
      - rewrite (bind_ok _ _ _ _ _ (run_rd _ _ _ _ (wf_inbnd_false _ _ _ _ W1 _ _ Hin))).
        rewrite (plot_outside b1 w h bits) by auto. reflexivity. }
    destruct Hb as [Eb|Eb]; rewrite Eb in *; cbn [Z.eqb Pos.eqb].
    - destruct (entirecircleisinboundary x y (-1) w (-1) h r) eqn:Hi; cbn [negb].
      + apply (P2 _ l2); auto. intros p b1 o1 Hp W1. unfold mirror. unfold quad in *.
        assert (Hin : forall q, In q (quad p) -> inside w h (fst q) (snd q)) by (intros q Hq; eapply P3; eauto).
        assert (St : forall q b o (k : unit -> M unit), inside w h (fst q) (snd q) -> wf b w h 8 ->
          exists b', wf b' w h 8 /\ plotxybit (fst q) (snd q) c (mkst b o) = (Ok tt, mkst b' o) /\
          (s <- rd (bmoffsethd (fst q) (snd q)) ;; bind (seti s c) k) (mkst b o) = k tt (mkst b' o)).
        { intros q b2 o2 k Hq W2. destruct (plot_any b2 w h 8 o2 (fst q) (snd q) c W2 Hs) as (b3 & E & R).
          exists b3. split; [apply R|]. split; [exact E|].
          rewrite (bind_ok _ _ _ _ _ (run_rd _ _ _ _ (wf_offsethd _ _ _ _ W2 _ _))).
          unfold bind. rewrite store8 by auto. now rewrite E. }
        unfold quad in Hin. cbn [In] in Hin.
        do 3 (rewrite forM_cons; cbn [fst snd];
          match goal with W0 : wf ?b0 w h 8 |- (s <- rd (bmoffsethd ?a ?d) ;; bind (seti s c) ?k) (mkst ?b0 ?o0) = _ =>
            destruct (St (a, d) b0 o0 k ltac:(apply Hin; tauto) W0) as (? & ? & E1 & E2);
            cbn [fst snd] in E1, E2; cbn beta in E2; rewrite E2, (bind_ok _ _ _ _ _ E1); clear E1 E2
          end).
        rewrite forM_cons. cbn [fst snd].
        match goal with W0 : wf ?b0 w h 8 |- (s <- rd (bmoffsethd ?a ?d) ;; seti s c) (mkst ?b0 ?o0) = _ =>
          rewrite (bind_ok _ _ _ _ _ (run_rd _ _ _ _ (wf_offsethd _ _ _ _ W0 _ _)));
          rewrite store8 by (auto; apply (Hin (a, d)); tauto);
          destruct (plot_any b0 w h 8 o0 a d c W0 Hs) as (b3 & E & R); rewrite (bind_ok _ _ _ _ _ E), E; reflexivity
        end.
      + apply (Chk (fun s => seti s c)). intros. apply store8; auto.
    - unfold int2BGRarr. rewrite (bind_ok _ _ _ _ _ (run_lift _ _ _ _ (py_array_ok _ (rgb_bytes c Hc)))).
      destruct (entirecircleisinboundary x y (-1) w (-1) h r) eqn:Hi; cbn [negb].
      + apply (P2 _ l2); auto. intros p b1 o1 Hp W1. unfold mirror.
        assert (Hin : forall q, In q (quad p) -> inside w h (fst q) (snd q)) by (intros q Hq; eapply P3; eauto).
        unfold quad in Hin |- *. cbn [In] in Hin.
        do 4 rewrite (bind_ok _ _ _ _ _ (run_rd _ _ _ _ (wf_offsethd _ _ _ _ W1 _ _))).
        do 4 (rewrite forM_cons; cbn [fst snd];
          match goal with W0 : wf ?b0 w h 24 |- _ = bind (plotxybit ?a ?d c) _ (mkst ?b0 ?o0) =>
            destruct (plot_any b0 w h 24 o0 a d c W0 Hs) as (? & E1 & R1);
            first [rewrite (bind_ok (slice_set _ _ _) _ _ _ _ (eq_trans (store24 b0 w h a d c o0 (Hin (a, d) ltac:(tauto)) W0 Hc) E1))
                  | rewrite (eq_trans (store24 b0 w h a d c o0 (Hin (a, d) ltac:(tauto)) W0 Hc) E1)];
            rewrite (bind_ok _ _ _ _ _ E1); clear E1; pose proof (repainted_wf _ _ _ _ _ _ R1); clear R1
          end).
        reflexivity.
      + apply (Chk (fun s => slice_set s (s + 3) [Z.land c 255; Z.land (Z.shiftr c 8) 255; Z.shiftr c 16])).
        intros. apply store24; auto.
  Qed.
End Circle.

(** ** the disc *)
Lemma disc_row r hw v p : 0 <= r -> on_circle r (hw, v) -> (forall a, on_circle r (a, v) -> a <= hw) ->
  0 <= p -> (p <= hw <-> in_disc r p v = true).
Proof.
  intros Hr Hc Hmax Hp. unfold in_disc. rewrite Z.leb_le.
  unfold on_circle, cerr in Hc. cbn [fst snd] in Hc. destruct Hc as (H0 & Hv & Hlo & Hup).
  rewrite (Z.abs_eq p), (Z.abs_eq v) by lia. split.
  - intros L. destruct (Z.le_gt_cases hw v).
    + rewrite Z.max_r in * by lia. nia.
    + rewrite (Z.max_l hw v) in * by lia. destruct (Z.eq_dec p hw) as [->|]; [lia|].
      assert (p * p <= (hw - 1) * (hw - 1)) by (clear - L Hp n; nia). lia.
  - intros Hd. destruct (Z.le_gt_cases p hw) as [|G]; auto. exfalso.
    destruct (Z.le_gt_cases p v).
    + rewrite (Z.max_r p v) in Hd by lia. rewrite (Z.max_r hw v) in * by lia.
      assert (hw * hw <= p * p) by (clear - G H0; nia).
      assert (p <= hw); [|lia]. apply Hmax. unfold on_circle, cerr. cbn [fst snd]. rewrite (Z.max_r p v) by lia. lia.
    + rewrite (Z.max_l p v) in Hd by lia.
      destruct (Z.le_gt_cases v hw).
      * rewrite (Z.max_l hw v) in * by lia.
        assert ((hw + 1) * hw <= p * (p - 1)) by (clear - G H0; nia). lia.
      * rewrite (Z.max_r hw v) in * by lia.
        assert ((v + 1) * v <= p * (p - 1)) by (clear - H H1 Hv; nia).
        assert (hw * hw <= (v - 1) * (v - 1)) by (clear - H1 H0; nia). lia.
Qed.
Lemma disc_far r p v : 0 <= r -> r < Z.abs v -> in_disc r p v = false.
Proof.
  intros Hr Hv. unfold in_disc. apply Z.leb_gt. rewrite <- (Z.abs_square p), <- (Z.abs_square v).
  set (a := Z.abs p) in *. set (d := Z.abs v) in *. assert (0 <= a) by (unfold a; lia). clearbody a d.
  destruct (Z.le_gt_cases a d).
  - rewrite (Z.max_r a d), Z.max_r by lia. nia.
  - rewrite (Z.max_l a d), Z.max_r by lia. nia.
Qed.
Lemma in_disc_abs r p v : in_disc r p v = in_disc r (Z.abs p) (Z.abs v).
Proof. unfold in_disc. now rewrite !Z.abs_square, !Z.abs_involutive. Qed.

(** the two rows painted for one (half width, row) pair *)
Definition rows2 (x y : Z) (v : Z * Z) (x' y' : Z) : bool :=
  in_box (x - fst v) (y + snd v) (x + fst v) (y + snd v) x' y' ||
  in_box (x - fst v) (y - snd v) (x + fst v) (y - snd v) x' y'.

Lemma rows_disc r l x y x' y' : 0 <= r -> itercirclepartlineedge r = Ok l ->
  existsb (fun v => rows2 x y v x' y') l = in_disc r (x' - x) (y' - y).
Proof.
  intros Hr El. destruct (itercirclepartlineedge_run r Hr) as (l' & E & _ & Hrows & Hl).
  rewrite El in E. inversion E; subst l'. clear E.
  apply eq_true_iff_eq. rewrite existsb_exists, in_disc_abs. split.
  - intros ((hw, v) & Hin & Hb). destruct (Hl hw v Hin) as [H1 H2].
    assert (0 <= hw /\ 0 <= v) by (unfold on_circle in H1; cbn [fst snd] in H1; lia).
    assert (Z.abs (y' - y) = v /\ Z.abs (x' - x) <= hw).
    { unfold rows2, in_box in Hb. cbn [fst snd] in Hb. rewrite orb_true_iff, !andb_true_iff, !Z.leb_le in Hb. lia. }
    destruct H0 as [-> L]. now apply (disc_row r hw v); auto; lia.
  - intros Hd. destruct (Z.le_gt_cases (Z.abs (y' - y)) r) as [L|L].
    2: { rewrite disc_far in Hd by lia. discriminate. }
    pose proof (proj2 (Hrows (Z.abs (y' - y))) ltac:(lia)) as K. apply in_map_iff in K.
    destruct K as ((hw, v) & Ev & Hin). cbn [snd] in Ev. subst v.
    destruct (Hl _ _ Hin) as [H1 H2]. apply (disc_row r hw _ _ Hr H1 H2) in Hd; [|lia].
    exists (hw, Z.abs (y' - y)). split; auto. unfold rows2, in_box. cbn [fst snd].
    rewrite orb_true_iff, !andb_true_iff, !Z.leb_le. lia.
Qed.

Section Disc.
  Variables (b : list Z) (w h bits x y r c : Z).
  Hypothesis W : wf b w h bits.
  Hypothesis Hs : storable bits c.
  Hypothesis Hr : 0 <= r.

  Lemma disc1 o : bits = 1 ->
    exists b' o', filledcircle x y r c (mkst b o) = (Ok tt, mkst b' o') /\
      repainted b b' w h bits (fun x' y' => if in_disc r (x' - x) (y' - y) then reduce bits c else pixel b w h bits x' y').
  Proof.
    intros E1. unfold filledcircle. rewrite (bind_ok _ _ _ _ _ (wf_geti_bits _ _ _ _ W _)).
    destruct (itercirclepartlineedge_run r Hr) as (l & El & _).
    rewrite (bind_ok _ _ _ _ _ (run_lift _ _ _ _ El)).
    replace (bits <? 8) with true by (rewrite E1; reflexivity).
    assert (Row : forall yy x1 x2 b o, wf b w h bits -> exists b' o', horiline yy x1 x2 c (mkst b o) = (Ok tt, mkst b' o') /\
      repainted b b' w h bits (fun x' y' => if in_box x1 yy x2 yy x' y' then reduce bits c else pixel b w h bits x' y')).
    { intros yy x1 x2 b1 o1 W1. destruct (Z_le_gt_dec 0 yy) as [A|A]; [destruct (Z_lt_ge_dec yy h) as [B|B]|].
      - destruct (hori_bit b1 w h bits yy x1 x2 c W1 Hs o1 E1 ltac:(lia)) as (b2 & E & R). eauto.
      - do 2 eexists. split; [apply (hori_out b1 w h bits); auto; lia|].
        eapply repainted_ext; [|apply repainted_refl; exact W1]. intros x' y' Hin. unfold inside in Hin.
        replace (in_box x1 yy x2 yy x' y') with false; auto. unfold in_box. symmetry.
        apply andb_false_iff. right. apply andb_false_iff. rewrite !Z.leb_gt. lia.
      - do 2 eexists. split; [apply (hori_out b1 w h bits); auto; lia|].
        eapply repainted_ext; [|apply repainted_refl; exact W1]. intros x' y' Hin. unfold inside in Hin.
        replace (in_box x1 yy x2 yy x' y') with false; auto. unfold in_box. symmetry.
        apply andb_false_iff. right. apply andb_false_iff. rewrite !Z.leb_gt. lia. }
    match goal with |- context [forM l ?f] =>
      destruct (paint_forM l f (rows2 x y) w h bits (reduce bits c) false) with (b := b) (o := o) as (b' & o' & E & _ & R); auto
    end.
    - intros v b1 o1 Hin W1. unfold mirror.
      destruct (Row (y - snd v) (x - fst v) (x + fst v) b1 o1 W1) as (b2 & o2 & Ea & Ra).
      destruct (Row (y + snd v) (x - fst v) (x + fst v) b2 o2 (repainted_wf _ _ _ _ _ _ Ra)) as (b3 & o3 & Eb & Rb).
      exists b3, o3. rewrite (bind_ok _ _ _ _ _ Ea). split; [exact Eb|]. split; [discriminate|].
      eapply repainted_ext; [|eapply repainted_trans; [exact Ra|exact Rb]].
      intros x' y' Hi. cbn beta. rewrite (proj2 (proj2 Ra)) by auto. unfold rows2.
      destruct (in_box _ (y + snd v) _ _ x' y'); cbn [orb]; reflexivity.
    - exists b', o'. split; [exact E|]. eapply repainted_ext; [|exact R]. intros x' y' _. cbn beta.
      now rewrite (rows_disc r l x y x' y' Hr El).
  Qed.

  (** 8 and 24 bit *)
  Lemma disc_bytes o : bits = 8 \/ bits = 24 -> 0 <= data_off bits + (x + 1) * pbytes bits ->
    exists b', filledcircle x y r c (mkst b o) = (Ok tt, mkst b' o) /\
      repainted b b' w h bits (fun x' y' => if in_disc r (x' - x) (y' - y) then reduce bits c else pixel b w h bits x' y').
  Proof.
    intros Hb Hx. unfold filledcircle. rewrite (bind_ok _ _ _ _ _ (wf_geti_bits _ _ _ _ W _)).
    destruct (itercirclepartlineedge_run r Hr) as (l & El & _ & _ & Hl).
    rewrite (bind_ok _ _ _ _ _ (run_lift _ _ _ _ El)).
    replace (bits <? 8) with false by (destruct Hb as [-> | ->]; reflexivity).
    rewrite (bind_ok _ _ _ _ _ (run_rd _ _ _ _ (getmaxxy_ok _ _ _ _ W))). cbn [fst snd].
    assert (Row : forall yy x1 x2 b o, wf b w h bits -> 0 <= data_off bits + (Z.max x1 x2 + 1) * pbytes bits ->
      exists b', (if isinrange yy h (-1) then horiline yy x1 x2 c else ret tt) (mkst b o) = (Ok tt, mkst b' o) /\
      repainted b b' w h bits (fun x' y' => if in_box x1 yy x2 yy x' y' then reduce bits c else pixel b w h bits x' y')).
    { intros yy x1 x2 b1 o1 W1 Hsafe. unfold isinrange.
      destruct ((yy >? -1) && (yy <? h)) eqn:Ey.
      - rewrite andb_true_iff, Z.gtb_ltb, !Z.ltb_lt in Ey. apply hori_bytes; auto; lia.
      - exists b1. split; [reflexivity|].
        eapply repainted_ext; [|apply repainted_refl; exact W1]. intros x' y' Hin. unfold inside in Hin.
        rewrite andb_false_iff, Z.gtb_ltb, !Z.ltb_ge in Ey.
        replace (in_box x1 yy x2 yy x' y') with false; auto. unfold in_box. symmetry.
        apply andb_false_iff. right. apply andb_false_iff. rewrite !Z.leb_gt. lia. }
    assert (Fin : forall f,
      (forall v b o, 0 <= fst v -> wf b w h bits -> f v (mkst b o) =
         ((if isinrange (y + snd v) h (-1) then horiline (y + snd v) (x - fst v) (x + fst v) c else ret tt) ;;;
          (if isinrange (y - snd v) h (-1) then horiline (y - snd v) (x - fst v) (x + fst v) c else ret tt)) (mkst b o)) ->
      exists b', forM l f (mkst b o) = (Ok tt, mkst b' o) /\
      repainted b b' w h bits (fun x' y' => if in_disc r (x' - x) (y' - y) then reduce bits c else pixel b w h bits x' y')).
    { intros f Hf.
      destruct (paint_forM l f (rows2 x y) w h bits (reduce bits c) true) with (b := b) (o := o) as (b' & o' & E & Q & R); auto.
      - intros (hw, v) b1 o1 Hin W1. destruct (Hl hw v Hin) as [H1 _].
        assert (Hhw : 0 <= hw) by (unfold on_circle in H1; cbn [fst snd] in H1; lia). clear H1.
        rewrite Hf by auto. cbn [fst snd].
        assert (Hsafe : 0 <= data_off bits + (Z.max (x - hw) (x + hw) + 1) * pbytes bits).
        { rewrite Z.max_r by lia. destruct Hb as [-> | ->];
            [change (data_off 8) with 1078 in *; change (pbytes 8) with 1 in *
            |change (data_off 24) with 54 in *; change (pbytes 24) with 3 in *]; lia. }
        destruct (Row (y + v) (x - hw) (x + hw) b1 o1 W1 Hsafe) as (b2 & Ea & Ra).
        destruct (Row (y - v) (x - hw) (x + hw) b2 o1 (repainted_wf _ _ _ _ _ _ Ra) Hsafe) as (b3 & Eb & Rb).
        exists b3, o1. rewrite (bind_ok _ _ _ _ _ Ea). split; [exact Eb|]. split; [reflexivity|].
        eapply repainted_ext; [|eapply repainted_trans; [exact Ra|exact Rb]].
        intros x' y' Hi. cbn beta. rewrite (proj2 (proj2 Ra)) by auto. unfold rows2. cbn [fst snd].
        destruct (in_box (x - hw) (y + v) (x + hw) (y + v) x' y'), (in_box (x - hw) (y - v) (x + hw) (y - v) x' y'); reflexivity.
      - rewrite Q in E by auto. exists b'. split; [exact E|]. eapply repainted_ext; [|exact R]. intros x' y' _. cbn beta.
        now rewrite (rows_disc r l x y x' y' Hr El). }
    assert (Hcl : forall hw, 0 <= hw -> setmin (x - hw) 0 = Z.max (Z.min (x - hw) (x + hw)) 0 /\
                       setmax (x + hw) (w - 1) = Z.min (Z.max (x - hw) (x + hw)) (w - 1)).
    { intros hw Hhw. unfold setmin, setmax. split; bcases; lia. }
    destruct Hb as [Eb|Eb]; rewrite Eb in *; cbn [Z.eqb Pos.eqb].
    - apply Fin. intros v b1 o1 Hv W1. unfold mirror. destruct (Hcl (fst v) Hv) as [C1 C2]. rewrite C1, C2.
      set (xa := Z.max (Z.min (x - fst v) (x + fst v)) 0). set (xb := Z.min (Z.max (x - fst v) (x + fst v)) (w - 1)).
      assert (Bb : bytes (repz (Z.land c 255) (xb - xa + 1))) by (apply bytes_repz; rewrite land255; unfold byte; lia).
      rewrite (bind_ok _ _ _ _ _ (run_lift _ _ _ _ (py_array_ok _ Bb))).
      assert (One : forall yy b o, wf b w h 8 ->
        (if isinrange yy h (-1) then s <- rd (o8bmofhd xa yy) ;; slice_set s (s + (xb - xa + 1)) (repz (Z.land c 255) (xb - xa + 1)) else ret tt) (mkst b o)
        = (if isinrange yy h (-1) then horiline yy (x - fst v) (x + fst v) c else ret tt) (mkst b o)).
      { intros yy b2 o2 W2. destruct (isinrange yy h (-1)) eqn:Ey; auto.
        unfold isinrange in Ey. rewrite andb_true_iff, Z.gtb_ltb, !Z.ltb_lt in Ey.
        rewrite (hori_start b2 w h 8 yy (x - fst v) (x + fst v) c W2) by lia. cbn [Z.eqb Pos.eqb]. cbv zeta. fold xa xb.
        rewrite (bind_ok _ _ _ _ _ (run_lift _ _ _ _ (py_array_ok _ Bb))).
        assert (Eo : o8bmofhd xa yy b2 = Ok (baddr w h 8 xa yy)).
        { pose proof (wf_offsethd _ _ _ _ W2 xa yy) as K. unfold bmoffsethd in K. rewrite (wf_rbits _ _ _ _ W2) in K. exact K. }
        rewrite (bind_ok _ _ _ _ _ (run_rd _ _ _ _ Eo)). reflexivity. }
      destruct (Row (y + snd v) (x - fst v) (x + fst v) b1 o1 W1) as (b2 & Ea & Ra).
      { rewrite Z.max_r by lia. change (data_off 8) with 1078 in *; change (pbytes 8) with 1 in *. lia. }
      rewrite (bind_ok _ _ _ _ _ (eq_trans (One _ _ _ W1) Ea)), (bind_ok _ _ _ _ _ Ea). apply One. apply Ra.
    - apply Fin. intros v b1 o1 Hv W1. unfold mirror. destruct (Hcl (fst v) Hv) as [C1 C2]. rewrite C1, C2.
      set (xa := Z.max (Z.min (x - fst v) (x + fst v)) 0). set (xb := Z.min (Z.max (x - fst v) (x + fst v)) (w - 1)).
      specialize (Hs eq_refl). unfold int2RGB.
      set (buf := rep_list [Z.land c 255; Z.land (Z.shiftr c 8) 255; Z.shiftr c 16] (xb - xa + 1)).
      assert (Bb : bytes buf).
      { unfold buf. destruct (Z.le_gt_cases 0 (xb - xa + 1)) as [L|L].
        - destruct (rep_list_spec [Z.land c 255; Z.land (Z.shiftr c 8) 255; Z.shiftr c 16] (xb - xa + 1) L) as (_ & K & _).
          apply K. now apply rgb_bytes.
        - unfold rep_list. replace (Z.to_nat (xb - xa + 1)) with O by lia. constructor. }
      rewrite (bind_ok _ _ _ _ _ (run_lift _ _ _ _ (py_array_ok _ Bb))).
      assert (One : forall yy b o, wf b w h 24 ->
        (if isinrange yy h (-1) then s <- rd (o24bmofhd xa yy) ;; slice_set s (s + (xb - xa + 1) * 3) buf else ret tt) (mkst b o)
        = (if isinrange yy h (-1) then horiline yy (x - fst v) (x + fst v) c else ret tt) (mkst b o)).
      { intros yy b2 o2 W2. destruct (isinrange yy h (-1)) eqn:Ey; auto.
        unfold isinrange in Ey. rewrite andb_true_iff, Z.gtb_ltb, !Z.ltb_lt in Ey.
        rewrite (hori_start b2 w h 24 yy (x - fst v) (x + fst v) c W2) by lia. cbn [Z.eqb Pos.eqb]. cbv zeta. fold xa xb buf.
        rewrite (bind_ok _ _ _ _ _ (run_lift _ _ _ _ (py_array_ok _ Bb))).
        assert (Eo : o24bmofhd xa yy b2 = Ok (baddr w h 24 xa yy)).
        { pose proof (wf_offsethd _ _ _ _ W2 xa yy) as K. unfold bmoffsethd in K. rewrite (wf_rbits _ _ _ _ W2) in K. exact K. }
        rewrite (bind_ok _ _ _ _ _ (run_rd _ _ _ _ Eo)). reflexivity. }
      destruct (Row (y + snd v) (x - fst v) (x + fst v) b1 o1 W1) as (b2 & Ea & Ra).
      { rewrite Z.max_r by lia. change (data_off 24) with 54 in *; change (pbytes 24) with 3 in *. lia. }
      rewrite (bind_ok _ _ _ _ _ (eq_trans (One _ _ _ W1) Ea)), (bind_ok _ _ _ _ _ Ea). apply One. apply Ra.
  Qed.

End Disc.
Lemma disc_neg b w h bits x y r c o : wf b w h bits -> r < 0 -> 
  filledcircle x y r c (mkst b o) = (Ok tt, mkst b o).
Proof.
  intros W Hr. unfold filledcircle. rewrite (bind_ok _ _ _ _ _ (wf_geti_bits _ _ _ _ W _)).
  rewrite (bind_ok _ _ _ _ _ (run_lift _ _ _ _ (itercirclepartlineedge_neg r Hr))).
  destruct (bits <? 8); [reflexivity|].
  rewrite (bind_ok _ _ _ _ _ (run_rd _ _ _ _ (getmaxxy_ok _ _ _ _ W))).
  destruct (bits =? 24); [reflexivity|]. destruct (bits =? 8); reflexivity.
Qed.
