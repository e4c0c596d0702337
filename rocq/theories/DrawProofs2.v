(** Straight lines, filled rectangles, circles (proofs). *)
From Coq Require Import ZArith List Bool Lia.
From Verif Require Import PyBase PyFacts Spec Bmp BmpFacts PixelProofs PlotList HeaderProofs Buffers Region Raster VertProofs HorizProofs IterProofs RectProofs RectProofs2 Geometry GeomProofs Draw DrawProofs.
Import ListNotations.
Open Scope Z_scope.
Open Scope py_scope.
Ltac Zify.zify_post_hook ::= Z.to_euclidean_division_equations.

(** ** unchecked stores of one pixel agree with plotxybit inside the image *)
Section Store.
  Variables (b : list Z) (w h x y c : Z) (o : list msg).
  Hypothesis Hin : inside w h x y.

  Lemma store24 : wf b w h 24 -> 0 <= c < 2 ^ 24 ->
    slice_set (baddr w h 24 x y) (baddr w h 24 x y + 3)
      [Z.land c 255; Z.land (Z.shiftr c 8) 255; Z.shiftr c 16] (mkst b o) = plotxybit x y c (mkst b o).
  Proof.
    intros W Hc. unfold plotxybit. mred. rewrite (wf_inbnd_true _ _ _ _ W) by auto. mred.
    rewrite (wf_rbits _ _ _ _ W). mred. cbn [Z.eqb Pos.eqb].
    mred. rewrite (wf_bmof _ _ _ _ W) by auto with bmp. mred.
    rewrite (py_array_ok _ (rgb_bytes c Hc)). mred.
    replace (x * 3 + (h - y - 1) * stride w 24 + 54) with (baddr w h 24 x y); [reflexivity|].
    unfold baddr. change (data_off 24) with 54. replace (x * 24 / 8) with (x * 3) by lia. ring.
  Qed.
  Lemma store8 : wf b w h 8 -> 0 <= c < 256 ->
    seti (baddr w h 8 x y) c (mkst b o) = plotxybit x y c (mkst b o).
  Proof.
    intros W Hc. unfold plotxybit. mred. rewrite (wf_inbnd_true _ _ _ _ W) by auto. mred.
    rewrite (wf_rbits _ _ _ _ W). mred. cbn [Z.eqb Pos.eqb].
    mred. rewrite (wf_bmof _ _ _ _ W) by auto with bmp. mred.
    replace (x + (h - y - 1) * stride w 8 + 1078) with (baddr w h 8 x y).
    - replace (Z.land c 255) with c by (rewrite land255; lia). reflexivity.
    - unfold baddr. change (data_off 8) with 1078. replace (x * 8 / 8) with x by lia. ring.
  Qed.
  Lemma store4 : wf b w h 4 -> 0 <= c < 16 ->
    (v <- geti (baddr w h 4 x y) ;;
     if Z.land x 1 =? 1 then seti (baddr w h 4 x y) (Z.land v 240 + c)
     else seti (baddr w h 4 x y) (Z.shiftl c 4 + Z.land v 15)) (mkst b o) = plotxybit x y c (mkst b o).
  Proof.
    intros W Hc. unfold plotxybit. mred. rewrite (wf_inbnd_true _ _ _ _ W) by auto. mred.
    rewrite (wf_rbits _ _ _ _ W). mred. cbn [Z.eqb Pos.eqb].
    mred. rewrite (wf_bmof _ _ _ _ W) by auto with bmp. mred.
    replace (Z.shiftr x 1 + (h - y - 1) * stride w 4 + 118) with (baddr w h 4 x y).
    - replace (Z.land c 15) with c by (rewrite land15; lia). reflexivity.
    - unfold baddr. change (data_off 4) with 118. rewrite shiftr1. replace (x * 4 / 8) with (x / 2) by lia. ring.
  Qed.
End Store.

(** a loop whose steps agree with plotxybit paints its points *)
Lemma points_paint pts (f : Z * Z -> M unit) c b w h bits o : wf b w h bits -> storable bits c ->
  (forall p b o, In p pts -> wf b w h bits -> f p (mkst b o) = plotxybit (fst p) (snd p) c (mkst b o)) ->
  exists b', forM pts f (mkst b o) = (Ok tt, mkst b' o) /\
    repainted b b' w h bits (fun x y => if pt_in pts x y then reduce bits c else pixel b w h bits x y).
Proof.
  intros W Hs Hf.
  rewrite (forM_ext_inv (fun s => exists b o, s = mkst b o /\ wf b w h bits) pts f
             (fun p => plotxybit (fst p) (snd p) c)); eauto.
  - apply points_run; auto.
  - intros p s Hp (b1 & o1 & -> & W1). split; [now apply Hf|].
    destruct (plot_any b1 w h bits o1 (fst p) (snd p) c W1 Hs) as (b2 & E & R).
    exists (mkst b2 o1). split; [exact E|]. exists b2, o1. split; auto. apply R.
Qed.

(** ** line *)
Lemma in_range_map {B} (f : Z -> B) n p : In p (map f (range 0 n)) <-> exists i, 0 <= i < n /\ f i = p.
Proof.
  rewrite in_map_iff. split; intros (i & A1 & A2); exists i.
  - apply in_range in A2. split; auto; lia.
  - split; auto. apply in_range. lia.
Qed.

Lemma sign_sgn a : sign a = Z.sgn a.
Proof. destruct (sign_cases a) as [[? ->] | [[? ->] | [? ->]]]; lia. Qed.
Lemma sgn_walk x1 dx i : 0 <= i -> Z.abs (x1 + i * sign dx - x1) = i * Z.abs (sign dx).
Proof. intros. rewrite sign_sgn. replace (x1 + i * Z.sgn dx - x1) with (i * Z.sgn dx) by ring. rewrite Z.abs_mul. f_equal. lia. Qed.

Lemma xline_set x1 y1 dx dy x y : Z.abs dy < Z.abs dx ->
  (exists i, 0 <= i < Z.abs dx + 1 /\ xpoint x1 y1 dx dy i = (x, y)) <->
  in_box x1 y1 (x1 + dx) (y1 + dy) x y = true /\
  y = y1 + Z.sgn dy * ((Z.abs (x - x1) + 1) * Z.abs dy / Z.abs dx).
Proof.
  intros Hd. pose proof (xpoint_props x1 y1 dx dy ltac:(lia) ltac:(lia)) as (_ & _ & _ & P & _).
  destruct (P Hd) as (_ & _ & Pb). clear P. split.
  - intros (i & Hi & E). specialize (Pb i ltac:(lia)). rewrite E in Pb. cbn [fst snd] in Pb. split; [exact Pb|].
    unfold xpoint in E. inversion E as [[E1 E2]]. rewrite sgn_walk by lia.
    rewrite !sign_sgn. replace (Z.abs (Z.sgn dx)) with 1 by lia. now rewrite Z.mul_1_r.
  - intros (B & E). exists (Z.abs (x - x1)). unfold in_box in B. rewrite !andb_true_iff, !Z.leb_le in B.
    split; [lia|]. unfold xpoint. rewrite !sign_sgn. f_equal; [|now rewrite E at 1].
    clear E. destruct (Z.sgn_spec dx) as [[? ->] | [[? ->] | [? ->]]]; lia.
Qed.

(** the points of a segment that is not an exact diagonal *)
Lemma iterline_on_line x1 y1 x2 y2 x y :
  Z.abs (x2 - x1) <> Z.abs (y2 - y1) \/ (x2 = x1 /\ y2 = y1) ->
  (In (x, y) (iterline (x1, y1) (x2, y2)) <-> on_line x1 y1 x2 y2 x y = true).
Proof.
  intros Hd. pose proof (iterline_shape x1 y1 x2 y2) as Es. cbv zeta in Es. rewrite Es. clear Es.
  rewrite in_app_iff. cbn [In]. unfold on_line.
  assert (Ex : x2 = x1 + (x2 - x1)) by lia. assert (Ey : y2 = y1 + (y2 - y1)) by lia.
  set (dx := x2 - x1) in *. set (dy := y2 - y1) in *. clearbody dx dy. subst x2 y2.
  destruct ((dx =? 0) && (dy =? 0)) eqn:E0.
  - apply andb_true_iff in E0. rewrite !Z.eqb_eq in E0. destruct E0; subst.
    cbn [In]. unfold in_box. rewrite !andb_true_iff, !Z.leb_le. cbn [Z.sgn].
    change (Z.abs 0 <=? Z.abs 0) with true. cbn iota. rewrite Z.eqb_eq.
    split; [intros [[Q|[]]|[Q|[]]]; inversion Q; lia|]. intros. left. left. f_equal; lia.
  - apply andb_false_iff in E0. rewrite !Z.eqb_neq in E0.
    rewrite andb_true_iff. destruct (Z.geb_spec (Z.abs dx) (Z.abs dy)) as [L|L].
    + replace (Z.abs dy <=? Z.abs dx) with true by (symmetry; apply Z.leb_le; lia).
      rewrite Z.eqb_eq, in_range_map, <- xline_set by lia.
      split; [intros [K|[K|[]]]; [exact K|]|now left].
      exists (Z.abs dx). split; [lia|].
      pose proof (xpoint_props x1 y1 dx dy ltac:(lia) ltac:(lia)) as (_ & _ & _ & P & _).
      destruct (P ltac:(lia)) as (_ & P' & _). now rewrite P'.
    + replace (Z.abs dy <=? Z.abs dx) with false by (symmetry; apply Z.leb_gt; lia).
      rewrite Z.eqb_eq, in_range_map.
      replace (in_box x1 y1 (x1 + dx) (y1 + dy) x y) with (in_box y1 x1 (y1 + dy) (x1 + dx) y x)
        by (unfold in_box; apply andb_comm).
      rewrite <- xline_set by lia.
      assert (Q : forall i, swap (xpoint y1 x1 dy dx i) = (x, y) <-> xpoint y1 x1 dy dx i = (y, x)).
      { intros i. destruct (xpoint y1 x1 dy dx i). unfold swap; cbn [fst snd].
        split; intros K; inversion K; reflexivity. }
      split; [intros [(i & Hi & K)|[K|[]]]|intros (i & Hi & K); left; exists i; split; auto; now apply Q].
      * exists i. split; auto. now apply Q.
      * exists (Z.abs dy). split; [lia|].
        pose proof (xpoint_props y1 x1 dy dx ltac:(lia) ltac:(lia)) as (_ & _ & _ & P & _).
        destruct (P ltac:(lia)) as (_ & P' & _). rewrite P'. inversion K. reflexivity.
Qed.

(** the points of an exact diagonal *)
Lemma iterline_diag x1 y1 x2 y2 x y :
  Z.abs (x2 - x1) = Z.abs (y2 - y1) -> x1 <> x2 ->
  (In (x, y) (iterline (x1, y1) (x2, y2)) <->
   (x = x2 /\ y = y2) \/ (Z.min x1 x2 <= x <= Z.max x1 x2 /\ y = y1 + Z.sgn (y2 - y1) * (Z.abs (x - x1) + 1))).
Proof.
  intros Hd Hne. pose proof (iterline_shape x1 y1 x2 y2) as Es. cbv zeta in Es. rewrite Es. clear Es.
  rewrite in_app_iff. cbn [In].
  assert (Ex : x2 = x1 + (x2 - x1)) by lia. assert (Ey : y2 = y1 + (y2 - y1)) by lia.
  set (dx := x2 - x1) in *. set (dy := y2 - y1) in *. clearbody dx dy. subst x2 y2.
  replace (dx =? 0) with false by lia. cbn [andb].
  replace (Z.abs dx >=? Z.abs dy) with true by lia.
  rewrite in_range_map.
  pose proof (xpoint_props x1 y1 dx dy ltac:(lia) ltac:(lia)) as (_ & _ & _ & _ & P).
  specialize (P ltac:(lia)). split.
  - intros [(i & Hi & K)|[K|[]]]; [right|left; inversion K; auto].
    rewrite P in K. inversion K as [[K1 K2]]. rewrite sgn_walk, !sign_sgn by lia.
    destruct (Z.sgn_spec dx) as [[? ->] | [[? ->] | [? ->]]]; lia.
  - intros [[-> ->]|[K1 K2]]; [right; left; reflexivity|left].
    exists (Z.abs (x - x1)). split; [lia|]. rewrite P, !sign_sgn. f_equal; [|lia].
    clear K2. destruct (Z.sgn_spec dx) as [[? ->] | [[? ->] | [? ->]]]; lia.
Qed.

Lemma on_line_vert x y1 y2 x' y' : on_line x y1 x y2 x' y' = in_box x y1 x y2 x' y'.
Proof.
  unfold on_line. rewrite Z.sub_diag. change (Z.abs 0) with 0. change (Z.sgn 0) with 0. rewrite !Z.mul_0_l.
  apply eq_true_iff_eq. unfold in_box. rewrite !andb_true_iff, !Z.leb_le.
  destruct (Z.leb_spec (Z.abs (y2 - y1)) 0) as [L|L]; rewrite Z.eqb_eq; [|lia].
  replace (Z.sgn (y2 - y1)) with 0 by lia. lia.
Qed.
Lemma on_line_hori y x1 x2 x' y' : on_line x1 y x2 y x' y' = in_box x1 y x2 y x' y'.
Proof.
  unfold on_line. rewrite Z.sub_diag. change (Z.abs 0) with 0. change (Z.sgn 0) with 0. rewrite !Z.mul_0_l.
  apply eq_true_iff_eq. unfold in_box. rewrite !andb_true_iff, !Z.leb_le.
  destruct (Z.leb_spec 0 (Z.abs (x2 - x1))) as [L|L]; rewrite Z.eqb_eq; lia.
Qed.

Lemma clamp_in v n : 0 < n -> 0 <= Z.max 0 (Z.min v (n - 1)) < n.
Proof. lia. Qed.

Section Line.
  Variables (b : list Z) (w h bits x1 y1 x2 y2 c : Z).
  Hypothesis W : wf b w h bits.
  Hypothesis Hw : 0 < w.
  Hypothesis Hh : 0 < h.
  Hypothesis Hc : 0 <= c < 2 ^ bits.
  Let u1 := Z.max 0 (Z.min x1 (w - 1)).
  Let v1 := Z.max 0 (Z.min y1 (h - 1)).
  Let u2 := Z.max 0 (Z.min x2 (w - 1)).
  Let v2 := Z.max 0 (Z.min y2 (h - 1)).

  Lemma line_start o : line x1 y1 x2 y2 c (mkst b o) =
    (if u1 =? u2 then vertline u1 v1 v2 c
     else if v1 =? v2 then horiline v1 u1 u2 c
     else
       bits <- geti bmpcolorbits ;;
       if bits =? 24 then
         buf <- lift (int2BGRarr c) ;;
         forM (iterline (u1, v1) (u2, v2)) (fun p =>
           s <- rd (bmoffsethd (fst p) (snd p)) ;; slice_set s (s + 3) buf)
       else if bits =? 8 then
         let color := Z.land c 255 in
         forM (iterline (u1, v1) (u2, v2)) (fun p =>
           s <- rd (bmoffsethd (fst p) (snd p)) ;; seti s color)
       else if bits =? 4 then
         let color := if c >? 15 then Z.land c 15 else c in
         forM (iterline (u1, v1) (u2, v2)) (fun p =>
           s <- rd (bmoffsethd (fst p) (snd p)) ;;
           v <- geti s ;;
           if Z.land (fst p) 1 =? 1 then seti s (Z.land v 240 + color)
           else seti s (Z.shiftl color 4 + Z.land v 15))
       else if bits =? 1 then
         let color := if c >? 1 then Z.land c 1 else c in
         forM (iterline (u1, v1) (u2, v2)) (fun p => plotxybit (fst p) (snd p) color)
       else ret tt) (mkst b o).
  Proof.
    assert (E : forall v n, 0 < n -> setminmax v 0 (n - 1) = Z.max 0 (Z.min v (n - 1))).
    { intros v n Hn. unfold setminmax. rewrite Z.gtb_ltb.
      destruct (Z.ltb_spec (n - 1) v); bcases; lia. }
    unfold line, bottomrightcoord.
    assert (Er : (let! x := readint bmpx 4 b in let! y := readint bmpy 4 b in Ok (x - 1, y - 1)) = Ok (w - 1, h - 1)).
    { now rewrite (wf_rx _ _ _ _ W), (wf_ry _ _ _ _ W). }
    rewrite (bind_ok _ _ _ _ _ (run_rd _ _ _ _ Er)). cbn [fst snd]. rewrite !E by auto. reflexivity.
  Qed.

  Lemma line_sloped o : u1 <> u2 -> v1 <> v2 ->
    (forall x y, In (x, y) (iterline (u1, v1) (u2, v2)) -> inside w h x y) ->
    exists b', line x1 y1 x2 y2 c (mkst b o) = (Ok tt, mkst b' o) /\
      repainted b b' w h bits (fun x y =>
        if pt_in (iterline (u1, v1) (u2, v2)) x y then c else pixel b w h bits x y).
  Proof.
    intros Nu Nv Hin. rewrite line_start.
    replace (u1 =? u2) with false by (symmetry; now apply Z.eqb_neq). replace (v1 =? v2) with false by (symmetry; now apply Z.eqb_neq).
    rewrite (bind_ok _ _ _ _ _ (wf_geti_bits _ _ _ _ W _)).
    assert (Hs : storable bits c) by (intros ->; exact Hc).
    assert (Hr : reduce bits c = c).
    { unfold reduce. destruct (wf_depth _ _ _ _ W) as [E | [E | [E | E]]]; rewrite E in *; cbn [Z.eqb Pos.eqb];
        [|rewrite Z.mod_small; auto; lia|rewrite Z.mod_small; auto; lia|auto].
      destruct (Z.ltb_spec 0 c); lia. }
    assert (G : forall f, (forall p b o, In p (iterline (u1, v1) (u2, v2)) -> wf b w h bits ->
               f p (mkst b o) = plotxybit (fst p) (snd p) c (mkst b o)) ->
      exists b', forM (iterline (u1, v1) (u2, v2)) f (mkst b o) = (Ok tt, mkst b' o) /\
      repainted b b' w h bits (fun x y =>
        if pt_in (iterline (u1, v1) (u2, v2)) x y then c else pixel b w h bits x y)).
    { intros f Hf. destruct (points_paint _ f c b w h bits o W Hs Hf) as (b' & E & R).
      exists b'. split; [exact E|]. now rewrite Hr in R. }
    clearbody u1 v1 u2 v2.
    destruct (wf_depth _ _ _ _ W) as [E | [E | [E | E]]]; rewrite E in *; cbn [Z.eqb Pos.eqb]; cbv zeta.
    - apply G. intros p b1 o1 _ _. destruct (Z.gtb_spec c 1); [lia|]. reflexivity.
    - apply G. intros (x, y) b1 o1 Hp W1. cbn [fst snd].
      rewrite (bind_ok _ _ _ _ _ (run_rd _ _ _ _ (wf_offsethd _ _ _ _ W1 x y))).
      destruct (Z.gtb_spec c 15); [lia|]. apply store4; auto; lia.
    - apply G. intros (x, y) b1 o1 Hp W1. cbn [fst snd].
      rewrite (bind_ok _ _ _ _ _ (run_rd _ _ _ _ (wf_offsethd _ _ _ _ W1 x y))).
      replace (Z.land c 255) with c by (rewrite land255; lia). apply store8; auto; lia.
    - unfold int2BGRarr. rewrite (bind_ok _ _ _ _ _ (run_lift _ _ _ _ (py_array_ok _ (rgb_bytes c Hc)))).
      apply G. intros (x, y) b1 o1 Hp W1. cbn [fst snd].
      rewrite (bind_ok _ _ _ _ _ (run_rd _ _ _ _ (wf_offsethd _ _ _ _ W1 x y))).
      apply store24; auto.
  Qed.

  (** every segment but the exact diagonals and the 4-bit horizontal ones *)
  Lemma line_run o : Z.abs (u2 - u1) <> Z.abs (v2 - v1) \/ (u1 = u2 /\ v1 = v2) ->
    bits <> 4 \/ u1 = u2 \/ v1 <> v2 ->
    exists b', line x1 y1 x2 y2 c (mkst b o) = (Ok tt, mkst b' o) /\
      repainted b b' w h bits (fun x y =>
        if on_line u1 v1 u2 v2 x y then c else pixel b w h bits x y).
  Proof.
    intros Hd H4.
    assert (Hu1 : 0 <= u1 < w) by now apply clamp_in. assert (Hu2 : 0 <= u2 < w) by now apply clamp_in.
    assert (Hv1 : 0 <= v1 < h) by now apply clamp_in. assert (Hv2 : 0 <= v2 < h) by now apply clamp_in.
    pose proof (line_start o) as LS. pose proof (line_sloped o) as LL. clearbody u1 u2 v1 v2.
    assert (Hs : storable bits c) by (intros ->; exact Hc).
    assert (Hr : reduce bits c = c).
    { unfold reduce. destruct (wf_depth _ _ _ _ W) as [E | [E | [E | E]]]; rewrite E in *; cbn [Z.eqb Pos.eqb];
        [|rewrite Z.mod_small; auto; lia|rewrite Z.mod_small; auto; lia|auto].
      destruct (Z.ltb_spec 0 c); lia. }
    destruct (Z.eq_dec u1 u2) as [Eu|Nu]; [|destruct (Z.eq_dec v1 v2) as [Ev|Nv]].
    - rewrite LS. clear LS LL. replace (u1 =? u2) with true by (symmetry; now apply Z.eqb_eq).
      assert (Hbox : forall x y, on_line u1 v1 u2 v2 x y = in_box u1 v1 u1 v2 x y).
      { intros x y. rewrite <- Eu. apply on_line_vert. }
      assert (K : exists b', vertline u1 v1 v2 c (mkst b o) = (Ok tt, mkst b' o) /\
        repainted b b' w h bits (fun x' y' => if in_box u1 v1 u1 v2 x' y' then reduce bits c else pixel b w h bits x' y')).
      { assert (HB : (bits = 1 \/ bits = 4) \/ (bits = 8 \/ bits = 24))
          by (destruct (wf_depth _ _ _ _ W) as [?|[?|[?|?]]]; auto).
        destruct HB as [HB|HB]; [now apply vert_points|].
        apply vert_bytes; auto.
        clear Hd H4 Hbox.
        pose proof (stride_nonneg w bits ltac:(lia) (wf_depth _ _ _ _ W)).
        assert (54 <= data_off bits) by (destruct HB as [-> | ->]; cbn; lia).
        assert (pbytes bits <= 3) by (destruct HB as [-> | ->]; cbn; lia).
        assert (0 <= (h - Z.min v1 v2) * stride w bits) by (apply Z.mul_nonneg_nonneg; lia).
        assert (0 <= u1 * pbytes bits) by (apply Z.mul_nonneg_nonneg; [lia|destruct HB as [-> | ->]; cbn; lia]). lia. }
      destruct K as (b' & E & R). exists b'. split; [exact E|].
      eapply repainted_ext; [|exact R]. intros x y _. cbn beta. now rewrite Hbox, Hr.
    - rewrite LS. clear LS LL. replace (u1 =? u2) with false by (symmetry; now apply Z.eqb_neq).
      replace (v1 =? v2) with true by (symmetry; now apply Z.eqb_eq).
      assert (Hbox : forall x y, on_line u1 v1 u2 v2 x y = in_box u1 v1 u2 v1 x y).
      { intros x y. rewrite <- Ev. apply on_line_hori. }
      assert (K : exists b', horiline v1 u1 u2 c (mkst b o) = (Ok tt, mkst b' o) /\
        repainted b b' w h bits (fun x' y' => if in_box u1 v1 u2 v1 x' y' then reduce bits c else pixel b w h bits x' y')).
      { assert (HB : bits = 1 \/ (bits = 8 \/ bits = 24))
          by (destruct (wf_depth _ _ _ _ W) as [?|[?|[?|?]]]; auto; exfalso; clear - H4 Nu Ev H; lia).
        destruct HB as [HB|HB]; [now apply hori_bit|].
        apply hori_bytes; auto. destruct HB as [-> | ->];
          [change (data_off 8) with 1078; change (pbytes 8) with 1|change (data_off 24) with 54; change (pbytes 24) with 3];
          clear - Hu1 Hu2; lia. }
      destruct K as (b' & E & R). exists b'. split; [exact E|].
      eapply repainted_ext; [|exact R]. intros x y _. cbn beta. now rewrite Hbox, Hr.
    - assert (Hon : forall x y, pt_in (iterline (u1, v1) (u2, v2)) x y = on_line u1 v1 u2 v2 x y).
      { intros x y. apply eq_true_iff_eq. rewrite pt_in_iff. apply iterline_on_line. destruct Hd as [Hd|[Hd1 Hd2]]; [left; exact Hd|contradiction]. }
      destruct (LL Nu Nv) as (b' & E & R).
      { intros x y Hp. apply pt_in_iff in Hp. rewrite Hon in Hp. unfold on_line in Hp.
        apply andb_true_iff in Hp. destruct Hp as [Hp _]. unfold in_box in Hp.
        rewrite !andb_true_iff, !Z.leb_le in Hp. unfold inside. clear - Hp Hu1 Hu2 Hv1 Hv2. lia. }
      exists b'. split; [exact E|]. eapply repainted_ext; [|exact R]. intros x y _. cbn beta. now rewrite Hon.
  Qed.

  (** exact diagonals, when the pixel past the end point is still in the image *)
  Lemma line_diag o : Z.abs (u2 - u1) = Z.abs (v2 - v1) -> u1 <> u2 -> 0 <= v2 + Z.sgn (v2 - v1) < h ->
    exists b', line x1 y1 x2 y2 c (mkst b o) = (Ok tt, mkst b' o) /\
      repainted b b' w h bits (fun x y =>
        if ((x =? u2) && (y =? v2)) ||
           (((Z.min u1 u2 <=? x) && (x <=? Z.max u1 u2)) && (y =? v1 + Z.sgn (v2 - v1) * (Z.abs (x - u1) + 1)))
        then c else pixel b w h bits x y).
  Proof.
    intros Hd Nu Hend.
    assert (Hu1 : 0 <= u1 < w) by now apply clamp_in. assert (Hu2 : 0 <= u2 < w) by now apply clamp_in.
    assert (Hv1 : 0 <= v1 < h) by now apply clamp_in. assert (Hv2 : 0 <= v2 < h) by now apply clamp_in.
    pose proof (line_sloped o) as LL. clearbody u1 u2 v1 v2.
    destruct (LL Nu ltac:(clear - Hd Nu; lia)) as (b' & E & R).
    { intros x y Hp. apply iterline_diag in Hp; auto. unfold inside.
      destruct Hp as [[-> ->]|[P1 P2]]; [split; auto|]. split; [clear - P1 Hu1 Hu2; lia|]. rewrite P2.
      clear - Hd Nu Hend Hv1 Hv2 P1.
      destruct (Z.sgn_spec (v2 - v1)) as [[? Q] | [[? Q] | [? Q]]]; rewrite Q in *; lia. }
    exists b'. split; [exact E|]. eapply repainted_ext; [|exact R]. intros x y _. cbn beta.
    replace (pt_in (iterline (u1, v1) (u2, v2)) x y) with
      (((x =? u2) && (y =? v2)) ||
       (((Z.min u1 u2 <=? x) && (x <=? Z.max u1 u2)) && (y =? v1 + Z.sgn (v2 - v1) * (Z.abs (x - u1) + 1)))); auto.
    apply eq_true_iff_eq. rewrite pt_in_iff, iterline_diag by auto.
    rewrite orb_true_iff, !andb_true_iff, !Z.leb_le, !Z.eqb_eq. tauto.
  Qed.
End Line.
