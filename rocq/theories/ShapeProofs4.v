(** Parallelograms and layered ellipses (proofs). *)
From Coq Require Import ZArith List Bool Lia.
From Verif Require Import PyBase PyFacts Spec SpecShapes Bmp BmpFacts PixelProofs PlotList Buffers Region Geometry GeomProofs
  Draw VertProofs DrawProofs DrawProofs2 DrawProofs4 Text TextProofs Shapes ShapeProofs ShapeProofs2 EllProofs EllProofs2.
Import ListNotations.
Open Scope Z_scope.
Open Scope py_scope.

(** ** segments move with their end points *)
Definition shift (a d : Z) (p : Z * Z) : Z * Z := (fst p + a, snd p + d).
Lemma iterline_x_shift a d n dxabs dyabs sdx sdy : forall y px py,
  iterline_x n dxabs dyabs sdx sdy y (px + a) (py + d) = map (shift a d) (iterline_x n dxabs dyabs sdx sdy y px py).
Proof.
  induction n as [|n IH]; intros; [reflexivity|]. cbn [iterline_x]. cbv zeta.
  destruct (y + dyabs >=? dxabs); cbn [map]; unfold shift at 1; cbn [fst snd]; rewrite <- IH.
  - replace (px + sdx + a) with (px + a + sdx) by ring. replace (py + sdy + d) with (py + d + sdy) by ring. reflexivity.
  - replace (px + sdx + a) with (px + a + sdx) by ring. reflexivity.
Qed.
Lemma iterline_y_shift a d n dxabs dyabs sdx sdy : forall x px py,
  iterline_y n dxabs dyabs sdx sdy x (px + a) (py + d) = map (shift a d) (iterline_y n dxabs dyabs sdx sdy x px py).
Proof.
  induction n as [|n IH]; intros; [reflexivity|]. cbn [iterline_y]. cbv zeta.
  destruct (x + dxabs >=? dyabs); cbn [map]; unfold shift at 1; cbn [fst snd]; rewrite <- IH.
  - replace (px + sdx + a) with (px + a + sdx) by ring. replace (py + sdy + d) with (py + d + sdy) by ring. reflexivity.
  - replace (py + sdy + d) with (py + d + sdy) by ring. reflexivity.
Qed.
Lemma iterline_shift a d p q : iterline (shift a d p) (shift a d q) = map (shift a d) (iterline p q).
Proof.
  unfold iterline. rewrite map_app. cbn [map]. cbv zeta. destruct p as [p1 p2], q as [q1 q2].
  change (shift a d (p1, p2)) with (p1 + a, p2 + d). change (shift a d (q1, q2)) with (q1 + a, q2 + d). cbn [fst snd].
  replace (q1 + a - (p1 + a)) with (q1 - p1) by ring. replace (q2 + d - (p2 + d)) with (q2 - p2) by ring.
  f_equal. destruct (Z.abs (q1 - p1) >=? Z.abs (q2 - p2)); [apply iterline_x_shift|apply iterline_y_shift].
Qed.
Lemma combine_map {A B} (f : A -> B) l : combine l (map f l) = map (fun a => (a, f a)) l.
Proof. induction l as [|a l IH]; [reflexivity|]. cbn [map combine]. now rewrite IH. Qed.

Lemma sgn_cases z : Z.sgn z = -1 /\ z < 0 \/ Z.sgn z = 0 /\ z = 0 \/ Z.sgn z = 1 /\ 0 < z.
Proof. destruct z; cbn; lia. Qed.
Lemma seg_points_box x1 y1 x2 y2 x y : seg_points x1 y1 x2 y2 x y = true ->
  Z.min x1 x2 <= x <= Z.max x1 x2 /\ Z.min y1 y2 - 1 <= y <= Z.max y1 y2 + 1.
Proof.
  unfold seg_points. destruct (is_diagonal x1 y1 x2 y2) eqn:D; unfold is_diagonal in D.
  - apply andb_true_iff in D. destruct D as [D _]. apply Z.eqb_eq in D.
    rewrite orb_true_iff, !andb_true_iff, !Z.leb_le, !Z.eqb_eq. destruct (sgn_cases (y2 - y1)) as [[-> K]|[[-> K]|[-> K]]]; lia.
  - unfold on_line, in_box. cbv zeta. rewrite !andb_true_iff, !Z.leb_le. lia.
Qed.

Section Par.
  Variables (b0 : list Z) (w h bits : Z).
  Hypothesis (W0 : wf b0 w h bits) (Hw : 0 < w) (Hh : 0 < h).
  Notation fills := (fills (quiet bits) b0 w h bits).
  Notation paint := (draws (quiet bits) b0 w h bits).
  Let qr := quiet_refl bits.
  Let qt := quiet_trans bits.

  Lemma parallelogram_fills p1 p2 p3 c : 0 <= c < 2 ^ bits ->
    (forall u v, seg_points (fst p1) (snd p1) (fst p3) (snd p3) u v = true ->
       seg_fits w h bits (u, v) (u + (fst p2 - fst p1), v + (snd p2 - snd p1))) ->
    fills (filledparallelogram p1 p2 p3 c) (swept w h p1 p2 p3) c.
  Proof.
    intros Hc HF. unfold filledparallelogram.
    set (a := fst p2 - fst p1) in *. set (d := snd p2 - snd p1) in *.
    assert (E : iterline p2 (fst p3 + a, snd p3 + d) = map (shift a d) (iterline p1 p3)).
    { rewrite <- iterline_shift. f_equal. unfold shift, a, d. destruct p2. cbn [fst snd]. f_equal; ring. }
    rewrite E, combine_map.
    assert (Hin : forall u v, In (u, v) (iterline p1 p3) <-> seg_points (fst p1) (snd p1) (fst p3) (snd p3) u v = true).
    { destruct p1 as [x1 y1], p3 as [x3 y3]. intros. apply seg_points_in. }
    eapply fills_ext; [|apply (fills_list _ _ _ _ _ qr qt (map (fun s => (s, shift a d s)) (iterline p1 p3)) (fun s => linevec (fst s) (snd s) c)
      (fun e => seg_hit w h (fst e) (snd e)))].
    - intros px py _. symmetry. apply eq_true_iff_eq. unfold swept. fold a d. rewrite !existsb_exists. split.
      + intros (u & Hu & H). apply existsb_exists in H. destruct H as (v & Hv & H). apply andb_true_iff in H. destruct H as [H1 H2].
        exists ((u, v), shift a d (u, v)). split; [|exact H2]. apply in_map_iff. exists (u, v). split; [reflexivity|]. now apply Hin.
      + intros (e & He & H). apply in_map_iff in He. destruct He as ([u v] & <- & Hs). apply Hin in Hs. cbn [fst snd] in H.
        pose proof (seg_points_box _ _ _ _ _ _ Hs) as [B1 B2].
        exists u. split; [apply in_range; lia|]. apply existsb_exists. exists v. split; [apply in_range; lia|]. rewrite Hs. exact H.
    - intros e He. apply in_map_iff in He. destruct He as ([u v] & <- & Hs). apply Hin in Hs. cbn [fst snd].
      apply line_fills; auto. apply HF. exact Hs.
  Qed.

  (** *** filled ellipses, layers of ellipses *)
  Lemma ellipse_fills x y b a c l : storable bits c -> pen_at bits x -> iterellipsepart b a = Ok l -> quadrant l ->
    fills (ellipse x y b a c true) (spanned l x y) (reduce bits c).
  Proof.
    intros Hs (P4 & P8 & P24) El Q b1 o1 W Sh. unfold ellipse.
    destruct (wf_depth _ _ _ _ W0) as [Eb|[Eb|[Eb|Eb]]]; [|contradiction| |].
    - destruct (ell1 b1 w h bits x y b a c l W Hs El Q o1 Eb) as (b' & o' & E & R). exists b', o'. split; [exact E|].
      split; [intros N; contradiction|]. eapply repainted_ext; [|exact R]. intros px py _. cbn beta. now destruct (spanned l x y px py).
    - destruct (ell_bytes b1 w h bits x y b a c l W Hs El Q o1 ltac:(auto)) as (b' & E & R).
      { rewrite Eb. change (data_off 8) with 1078. change (pbytes 8) with 1. specialize (P8 Eb). lia. }
      exists b', o1. split; [exact E|]. split; [apply qr|]. eapply repainted_ext; [|exact R]. intros px py _. cbn beta. now destruct (spanned l x y px py).
    - destruct (ell_bytes b1 w h bits x y b a c l W Hs El Q o1 ltac:(auto)) as (b' & E & R).
      { rewrite Eb. change (data_off 24) with 54. change (pbytes 24) with 3. specialize (P24 Eb). lia. }
      exists b', o1. split; [exact E|]. split; [apply qr|]. eapply repainted_ext; [|exact R]. intros px py _. cbn beta. now destruct (spanned l x y px py).
  Qed.
  Lemma gradellipse_paint x y b a col L : (forall i, 1 <= i <= Z.max a b -> 0 <= col i < 2 ^ 24) -> pen_at bits x ->
    (forall i, 1 <= i <= Z.max a b -> iterellipsepart (b - Z.max a b + i) (a - Z.max a b + i) = Ok (L i) /\ quadrant (L i)) ->
    paint (gradellipse col x y b a)
      (fun px py => option_map (fun i => dcol b0 bits (col i)) (top_layer (fun i => spanned (L i) x y) 1 (Z.max a b) px py)).
  Proof.
    intros Hc HP HL. unfold gradellipse, countdown.
    apply (graded b0 w h bits W0 (fun i c => ellipse x y (b - Z.max a b + i) (a - Z.max a b + i) c true)). intros i Hi. split; [auto|].
    intros c Hcc. destruct (HL i Hi) as [El Q]. rewrite <- (reduce_id bits c (wf_depth _ _ _ _ W0) Hcc) at 2.
    apply ellipse_fills; auto. intros ->. exact Hcc.
  Qed.
End Par.
Lemma good_quadrant a b l : good a b l -> quadrant l.
Proof. unfold good, quadrant. rewrite Forall_forall. intros H u v Hi. specialize (H _ Hi). cbn [fst snd] in H. lia. Qed.
Lemma ellipse_neg b a : b < 0 -> a <> 0 -> iterellipsepart b a = Ok [].
Proof.
  intros Hb Ha. unfold iterellipsepart. destruct (Z.to_nat (a * a + b * b + 2)) as [|n] eqn:E; [nia|].
  unfold iterellipsepart_fuel. cbv zeta. cbn [gen_while]. rewrite Z.mul_0_l.
  replace (b * (a * a) >=? 0) with false by (symmetry; rewrite Z.geb_leb; apply Z.leb_gt; nia). cbn [rbind fst snd app gen_while].
  replace (b >? -1) with false by (symmetry; rewrite Z.gtb_ltb; apply Z.ltb_ge; lia). reflexivity.
Qed.
