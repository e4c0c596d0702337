(** Proofs about axes. *)
From Coq Require Import ZArith List Bool Lia.
From Verif Require Import PyBase PyFacts Spec SpecText SpecShapes SpecPlots Bmp BmpFacts PixelProofs PlotList Buffers Region Geometry Draw
  Raster DrawProofs FilterProofs Text TextProofs TextProofs3 TextProofs5 TextProofs6 TextProofs8 TextProofs9 Fonts Shapes ShapeProofs ShapeProofs2 ShapeProofs4
  Solids SolidProofs3 Plots.
Import ListNotations.
Open Scope Z_scope.
Open Scope py_scope.

(** ** decimal numbers *)
Lemma digits_ok f : forall n, 0 <= n -> Z.log2 n + 1 <= Z.of_nat f -> exists ds, digits f n = map (Z.add 48) ds /\
  ds <> [] /\ Forall (fun d => 0 <= d < 10) ds /\ (hd 0 ds = 0 -> ds = [0]) /\ fold_left (fun a d => 10 * a + d) ds 0 = n.
Proof.
  induction f as [|f IH]; intros n Hn Hf.
  - exfalso. pose proof (Z.log2_nonneg n). lia.
  - cbn [digits]. destruct (Z.ltb_spec n 10) as [L|L].
    + exists [n]. rewrite Z.mod_small by lia. cbn. split; [reflexivity|]. split; [discriminate|]. split; [repeat constructor; lia|].
      split; [intros ->; reflexivity|lia].
    + assert (0 < n / 10) by (apply Z.div_str_pos; lia).
      destruct (IH (n / 10)) as (ds & E & N & F & Hd & V).
      { lia. }
      { assert (Z.log2 (n / 10) <= Z.log2 (n / 2)) by (apply Z.log2_le_mono, Z.div_le_compat_l; lia).
        assert (Z.log2 (n / 2) + 1 = Z.log2 n).
        { replace (n / 2) with (Z.shiftr n 1) by now rewrite Z.shiftr_div_pow2. rewrite Z.log2_shiftr by lia.
          assert (1 <= Z.log2 n) by (change 1 with (Z.log2 2); apply Z.log2_le_mono; lia). lia. }
        lia. }
      exists (ds ++ [n mod 10]). rewrite map_app, E. split; [reflexivity|]. split; [destruct ds; discriminate|].
      pose proof (Z.mod_pos_bound n 10 ltac:(lia)).
      split; [apply Forall_app; split; [exact F|repeat constructor; lia]|]. split.
      * destruct ds as [|d ds]; [contradiction|]. cbn [hd app]. intros ->. exfalso. specialize (Hd eq_refl). injection Hd as ->. cbn in V. lia.
      * rewrite fold_left_app, V. cbn [fold_left]. pose proof (Z.div_mod n 10). lia.
Qed.
Lemma strint_decimal n : decimal n (strint n).
Proof.
  pose proof (Z.log2_nonneg (Z.abs n)).
  destruct (digits_ok (Z.to_nat (Z.log2 (Z.abs n) + 1)) (Z.abs n)) as (ds & E & K); [lia|lia|].
  exists ds. unfold strint. rewrite E. auto.
Qed.
Lemma strint_chars n c : In c (strint n) -> c = 45 \/ 48 <= c < 58.
Proof.
  intros H. destruct (strint_decimal n) as (ds & E & _ & F & _). rewrite E in H. apply in_app_or in H. destruct H as [H|H].
  - destruct (n <? 0); cbn in H; [destruct H as [<-|[]]; auto|contradiction].
  - apply in_map_iff in H. destruct H as (d & <- & Hd). rewrite Forall_forall in F. specialize (F d Hd). lia.
Qed.

(** ** labels *)
Lemma index_map (pos : Z -> Z * Z) n : forall a, (forall i j, a <= i < a + Z.of_nat n -> a <= j < a + Z.of_nat n -> pos i = pos j -> i = j) ->
  forall i, a <= i < a + Z.of_nat n -> index_of (pos i) (map pos (range a (a + Z.of_nat n))) = i - a.
Proof.
  induction n as [|n IH]; intros a Hinj i Hi; [lia|].
  rewrite range_cons by lia. cbn [map index_of].
  destruct ((fst (pos a) =? fst (pos i)) && (snd (pos a) =? snd (pos i))) eqn:E.
  - apply andb_true_iff in E. rewrite !Z.eqb_eq in E. assert (pos a = pos i) by (destruct (pos a), (pos i); cbn in *; destruct E; congruence).
    apply Hinj in H; lia.
  - assert (i <> a). { intros ->. rewrite !Z.eqb_refl in E. discriminate. }
    replace (a + Z.of_nat (S n)) with (a + 1 + Z.of_nat n) by lia. rewrite IH; [lia| |lia]. intros p q Hp Hq. apply Hinj; lia.
Qed.

Section Labels.
  Variables (R : list msg -> list msg -> Prop) (b0 : list Z) (w h bits : Z).
  Hypothesis Rrefl : forall o, R o o.
  Hypothesis Rtrans : forall o1 o2 o3, R o1 o2 -> R o2 o3 -> R o1 o3.
  Variables (scale ps : Z).
  Hypothesis Hsc : 1 <= scale.
  Variables (hit : Z -> Z -> Z -> Z -> bool) (val : Z -> Z).
  Hypothesis Hbox : forall x y px py, hit x y px py = true -> x <= px < x + scale /\ y <= py < y + scale.
  Hypothesis Hcell : forall x y c, storable bits c -> True ->
    draws R b0 w h bits (plotcell plotsquare scale (scale - 1 - ps) x y c) (fun px py => if hit x y px py then Some (val c) else None).
  Variables (color : SpecText.colour) (font : list Z) (sp : Z).
  Hypothesis (Hc : colour_ok bits color) (F1 : Forall byte font) (F2 : 0 < zlen font).
  Hypothesis F3 : forall c, c = 45 \/ 48 <= c < 58 -> in_font font c.

  Lemma label_draws x y n :
    draws R b0 w h bits (plotstring x y (strint n) scale ps sp color font)
      (fun px py => over val color (upright hit scale) font (fun col _ => x + col * step_x scale sp) (fun _ ln => y + ln * step_y font scale sp)
         px py (layout (strint n) 0 0) None).
  Proof.
    eapply draws_act.
    - intros s. exact (plotstringfunc_for x y (strint n) scale ps sp color font enumletters plot8bitpattern s F2).
    - apply (string_draws R b0 w h bits Rrefl Rtrans scale ps Hsc plotsquare hit val (fun _ _ => True) Hbox Hcell color Hc KUp font _ _ (strint n)).
      + apply height_byte; auto.
      + intros c col ln Hin. destruct (layout_in _ _ _ _ _ _ Hin) as (Ic & N10 & N9). pose proof (strint_chars n c Ic) as K.
        split; [now apply F3|]. split; [|auto]. cbn [kind_can]. auto using glyph_bytes, height_byte.
  Qed.
  Variables (n : Z) (pos : Z -> Z * Z) (xadj yadj v0 dv : Z) (sz sl rj : bool).
  Hypothesis Hn : 0 <= n.
  Hypothesis Hinj : forall i j, 0 <= i < n -> 0 <= j < n -> pos i = pos j -> i = j.
  Definition shown (i : Z) : bool := negb ((i =? 0) && sz || (i =? n - 1) && sl).
  Definition labx (i : Z) : Z := fst (pos i) + xadj - (if rj then 8 * (zlen (strint (v0 + i * dv)) - 1) else 0).
  Definition laby (i : Z) : Z := snd (pos i) + yadj.
  Definition labels_f (px py : Z) : option Z :=
    fold_left (fun acc i => match over val color (upright hit scale) font (fun col _ => labx i + col * step_x scale sp) (fun _ ln => laby i + ln * step_y font scale sp)
         px py (layout (strint (v0 + i * dv)) 0 0) None with Some v => Some v | None => acc end) (filter shown (range 0 n)) None.
  Lemma forM_map {A B} (f : A -> B) (l : list A) (act : B -> M unit) s : forM (map f l) act s = forM l (fun a => act (f a)) s.
  Proof.
    unfold forM. generalize tt. revert s. induction l as [|a l IH]; intros s u; [reflexivity|]. cbn [map foldM]. unfold bind.
    destruct (act (f a) s) as [[v|e] s']; auto.
  Qed.
  Lemma forM_filter {A} (p : A -> bool) (l : list A) (act : A -> M unit) s :
    forM l (fun a => if p a then act a else ret tt) s = forM (filter p l) act s.
  Proof.
    unfold forM. revert s. assert (G : forall u s, foldM (fun _ a => if p a then act a else ret tt) u l s = foldM (fun _ a => act a) u (filter p l) s); [|intros s; apply G].
    induction l as [|a l IH]; intros u s; [reflexivity|]. cbn [filter foldM]. unfold bind at 1. destruct (p a).
    - cbn [foldM]. unfold bind. destruct (act a s) as [[v|e] s']; auto.
    - destruct u. apply IH.
  Qed.
  Lemma forM_ext_in {A} (l : list A) (f g : A -> M unit) s : (forall a s, In a l -> f a s = g a s) -> forM l f s = forM l g s.
  Proof.
    unfold forM. revert s. assert (G : forall u s, (forall a s, In a l -> f a s = g a s) -> foldM (fun _ a => f a) u l s = foldM (fun _ a => g a) u l s); [|intros s; apply G].
    induction l as [|a l IH]; intros u s H; [reflexivity|]. cbn [foldM]. unfold bind. rewrite H by now left.
    destruct (g a s) as [[v|e] s']; auto. apply IH. intros; apply H; now right.
  Qed.
  Lemma numbers_draws :
    draws R b0 w h bits (numbervert (map pos (range 0 n)) xadj yadj scale v0 dv ps sp color font sz sl rj) labels_f.
  Proof.
    assert (IX : forall i, In i (range 0 n) -> index_of (pos i) (map pos (range 0 n)) = i).
    { intros i Hi. apply in_range in Hi. pose proof (index_map pos (Z.to_nat n) 0) as K.
      replace (0 + Z.of_nat (Z.to_nat n)) with n in K by lia. rewrite K; [lia|exact Hinj|lia]. }
    eapply draws_act.
    - intros s. unfold numbervert. rewrite forM_map. rewrite zlen_map, zlen_range, Z.sub_0_r, (Z.max_r 0 n Hn).
      rewrite (forM_ext_in _ _ (fun i => if shown i then plotstring (labx i) (laby i) (strint (v0 + i * dv)) scale ps sp color font else ret tt)).
      + apply forM_filter.
      + intros i t Hi. cbv zeta. rewrite (IX i Hi). apply in_range in Hi. unfold shown, labx, laby.
        rewrite Z.shiftl_mul_pow2 by lia. rewrite (Z.mul_comm _ (2 ^ 3)). change (2 ^ 3) with 8.
        replace (i >? 0) with (negb (i =? 0)) by (destruct (Z.gtb_spec i 0), (Z.eqb_spec i 0); try reflexivity; lia).
        destruct (Z.eqb_spec i 0).
        * cbn [andb orb negb]. destruct ((i =? n - 1) && sl); [now rewrite orb_true_r|]. rewrite orb_false_r. destruct sz; reflexivity.
        * cbn [andb orb negb]. destruct ((i =? n - 1) && sl); reflexivity.
    - unfold labels_f. apply (draws_list R b0 w h bits Rrefl Rtrans (filter shown (range 0 n)) _
        (fun i px py => over val color (upright hit scale) font (fun col _ => labx i + col * step_x scale sp) (fun _ ln => laby i + ln * step_y font scale sp)
         px py (layout (strint (v0 + i * dv)) 0 0) None)).
      intros i _. apply label_draws.
  Qed.
  Lemma labels_over px py old :
    match labels_f px py with Some v => v | None => old end =
    fold_left (fun old i => text_over (upright hit scale) font (fun col _ => labx i + col * step_x scale sp) (fun _ ln => laby i + ln * step_y font scale sp)
       (fun i => val (colour_of_row color i)) (strint (v0 + i * dv)) old px py) (filter shown (range 0 n)) old.
  Proof.
    unfold labels_f. generalize (filter shown (range 0 n)) as l.
    assert (G : forall l acc, match fold_left (fun acc i => match over val color (upright hit scale) font (fun col _ => labx i + col * step_x scale sp)
         (fun _ ln => laby i + ln * step_y font scale sp) px py (layout (strint (v0 + i * dv)) 0 0) None with Some v => Some v | None => acc end) l acc
        with Some v => v | None => old end =
      fold_left (fun old i => text_over (upright hit scale) font (fun col _ => labx i + col * step_x scale sp) (fun _ ln => laby i + ln * step_y font scale sp)
       (fun i => val (colour_of_row color i)) (strint (v0 + i * dv)) old px py) l (match acc with Some v => v | None => old end)).
    { induction l as [|i l IH]; intros acc; [reflexivity|]. cbn [fold_left]. rewrite IH. f_equal.
      unfold text_over. rewrite <- (over_text val color (upright hit scale) font _ _ px py _ None). cbv iota.
      destruct (over _ _ _ _ _ _ _ _ _ None); reflexivity. }
    intros l. apply (G l None).
  Qed.
End Labels.

Lemma font_good : font_ok 14 font8x14 = true.
Proof. apply fonts_checked. cbn [In]. auto 10. Qed.
Lemma font_chars k : k = 45 \/ 48 <= k < 58 -> in_font font8x14 k.
Proof. intros K. apply (font_in 14); [lia|exact font_good|lia]. Qed.

(** ** marks *)
Lemma marks_nonneg d k : 0 < k -> 0 <= marks d k.
Proof. intros Hk. unfold marks. destruct (Z.leb_spec d 0); [lia|]. pose proof (Z.div_pos (d - 1) k). lia. Qed.
Lemma in_marks d k i : 0 < k -> 0 <= i < marks d k <-> 0 <= i /\ i * k < d.
Proof.
  intros Hk. unfold marks. destruct (Z.leb_spec d 0); [nia|].
  assert (H1 : k * ((d - 1) / k) <= d - 1) by (apply Z.mul_div_le; lia). split.
  - intros H2. split; [lia|]. assert (i <= (d - 1) / k) by lia. nia.
  - intros [H2 H3]. assert (i <= (d - 1) / k) by (apply Z.div_le_lower_bound; lia). lia.
Qed.
Lemma marks_box d k a z (q : bool) : 0 < k ->
  existsb (fun i => (z =? a + i * k) && q) (range 0 (marks d k)) = ((a <=? z) && (z <? a + d)) && ((z - a) mod k =? 0) && q.
Proof.
  intros Hk. apply eq_true_iff_eq. rewrite existsb_exists, !andb_true_iff, Z.leb_le, Z.ltb_lt, Z.eqb_eq. split.
  - intros (i & Hi & H). apply in_range, in_marks in Hi; auto. apply andb_true_iff in H. destruct H as [H Hq]. apply Z.eqb_eq in H. subst z.
    split; [|exact Hq]. split; [nia|]. replace (a + i * k - a) with (i * k) by ring. apply Z.mod_mul. lia.
  - intros [[[H1 H2] H3] Hq]. exists ((z - a) / k). assert (E : z - a = k * ((z - a) / k)) by (apply Z_div_exact_full_2; lia).
    assert (0 <= (z - a) / k) by (apply Z.div_pos; lia). split; [apply in_range, in_marks; auto; split; lia|].
    rewrite Hq, andb_true_r. apply Z.eqb_eq. lia.
Qed.
Lemma existsb_map {A B} (f : A -> B) p (l : list A) : existsb p (map f l) = existsb (fun a => p (f a)) l.
Proof. induction l as [|a l IH]; [reflexivity|]. cbn [map existsb]. now rewrite IH. Qed.

(** ** arrows *)
Section Axes.
  Variables (b0 : list Z) (w h bits : Z).
  Hypothesis (W0 : wf b0 w h bits) (N4 : bits <> 4) (Hw : 0 < w) (Hh : 0 < h).
  Let V : valid_depth bits := wf_depth _ _ _ _ W0.
  (** bitmaps of more than one bit: only lines that are out of bounds are reported *)
  Definition noise (o o' : list msg) : Prop := bits <> 1 -> lines_out o o'.
  Lemma noise_refl o : noise o o. Proof. intros _. apply lines_out_refl. Qed.
  Lemma noise_trans o1 o2 o3 : noise o1 o2 -> noise o2 o3 -> noise o1 o3.
  Proof. intros A B N. eapply lines_out_trans; [exact (A N)|exact (B N)]. Qed.
  Lemma noise_lines o o' : lines_out o o' -> noise o o'. Proof. now intros H _. Qed.
  Lemma noise_quiet o o' : quiet bits o o' -> noise o o'. Proof. intros H N. rewrite (H N). apply lines_out_refl. Qed.
  Notation fills := (fills noise b0 w h bits).
  Notation paint := (draws noise b0 w h bits).

  Lemma arrow_thin head u v hs c : 0 <= c < 2 ^ bits ->
    Forall (fun e => seg_fits w h bits (fst e) (snd e)) (iterdrawvec head u v hs) ->
    ShapeProofs.fills (quiet bits) b0 w h bits (drawvec head u v hs c None) (any_edge (seg_hit w h) (iterdrawvec head u v hs)) c.
  Proof.
    intros Hc HF. unfold drawvec, any_edge. rewrite Forall_forall in HF.
    apply (fills_list _ _ _ _ _ (quiet_refl bits) (quiet_trans bits) _ (fun ab => linevec (fst ab) (snd ab) c) (fun e => seg_hit w h (fst e) (snd e))).
    intros e He. apply line_fills; auto.
  Qed.
  Lemma arrow_thick head u v hs c p : storable bits c ->
    Forall (fun e => pen_at bits (Z.min (fst (fst e)) (fst (snd e)))) (iterdrawvec head u v hs) ->
    ShapeProofs.fills (quiet bits) b0 w h bits (drawvec head u v hs c (Some p)) (any_edge (thick_seg p) (iterdrawvec head u v hs)) (reduce bits c).
  Proof.
    intros Hc HF. unfold drawvec, any_edge. rewrite Forall_forall in HF.
    apply (fills_list _ _ _ _ _ (quiet_refl bits) (quiet_trans bits) _ (fun ab => thickroundline (fst ab) (snd ab) p c) (fun e => thick_seg p (fst e) (snd e))).
    intros e He. apply thickline_fills; auto.
  Qed.

  Lemma straight_fits x1 y1 x2 y2 : x1 = x2 \/ y1 = y2 -> seg_fits w h bits (x1, y1) (x2, y2).
  Proof.
    intros H. split; [intros; contradiction|]. cbn [fst snd]. unfold is_diagonal. intros K. exfalso.
    destruct H as [-> | ->]; revert K; bcases; intros; try discriminate; lia.
  Qed.

  Variables (ox oy xl yl xs ys : Z).
  Hypothesis (Hxs : 0 < xs) (Hys : 0 < ys) (Hox : -1 <= ox) (Hoy : oy <= h).
  Let xpos (i : Z) : Z * Z := (ox + i * xs, oy).
  Let ypos (i : Z) : Z * Z := (ox, oy - i * ys).
  Lemma hvert_eq : horizontalvert oy ox xl xs = Ok (map xpos (range 0 (marks (xl - ox) xs))).
  Proof.
    unfold horizontalvert, rangeby. replace (xs =? 0) with false by (symmetry; apply Z.eqb_neq; lia).
    replace (0 <? xs) with true by (symmetry; apply Z.ltb_lt; lia). cbn [rbind]. unfold range_step. rewrite map_map.
    unfold marks, stepcount. replace (xl - ox <=? 0) with (xl <=? ox); [reflexivity|]. bcases; auto; lia.
  Qed.
  Lemma vvert_eq : verticalvert ox oy yl (- ys) = Ok (map ypos (range 0 (marks (oy - yl) ys))).
  Proof.
    unfold verticalvert, rangeby. replace (- ys =? 0) with false by (symmetry; apply Z.eqb_neq; lia).
    replace (0 <? - ys) with false by (symmetry; apply Z.ltb_ge; lia). cbn [rbind]. rewrite map_map.
    unfold marks, stepcount. replace (oy - yl <=? 0) with (oy <=? yl) by (bcases; auto; lia). rewrite Z.opp_involutive.
    apply f_equal. apply map_ext. intros i. unfold ypos. apply f_equal. lia.
  Qed.
  Variables (c tc gc : Z).
  Hypothesis (Hc : 0 <= c < 2 ^ bits) (Htc : storable bits tc) (Hgc : storable bits gc).
  Lemma ticks_fills :
    fills (vertlinevert (map xpos (range 0 (marks (xl - ox) xs))) 5 (-2) c ;;; horilinevert (map ypos (range 0 (marks (oy - yl) ys))) (-3) 0 c)
      (on_ticks ox oy xl yl xs ys) c.
  Proof.
    assert (Hs : storable bits c) by (intros ->; exact Hc).
    match goal with |- ShapeProofs.fills _ _ _ _ _ ?a ?s _ => cut (fills a s (reduce bits c)); [now rewrite (reduce_id bits c V Hc)|] end.
    eapply fills_ext; [|apply fills_seq; [exact noise_trans| |];
      (eapply draws_weaken; [exact noise_lines|]); [apply vlines_fills|apply hlines_fills]; auto].
    - intros px py _. unfold on_ticks. rewrite !existsb_map. f_equal.
      + transitivity (existsb (fun i => (px =? ox + i * xs) && ((oy <=? py) && (py <=? oy + 3))) (range 0 (marks (xl - ox) xs))).
        * apply existsb_ext. intros i. unfold xpos, in_box. cbn [fst snd]. clear. bcases; auto; lia.
        * rewrite marks_box by auto. now replace (ox + (xl - ox)) with xl by ring.
      + transitivity (existsb (fun i => (oy - py =? 0 + i * ys) && ((ox - 3 <=? px) && (px <=? ox))) (range 0 (marks (oy - yl) ys))).
        * apply existsb_ext. intros i. unfold ypos, in_box. cbn [fst snd]. clear. bcases; auto; lia.
        * rewrite marks_box by auto. rewrite Z.sub_0_r. f_equal. f_equal. clear. bcases; auto; lia.
    - apply Forall_forall. intros v Hv. apply in_map_iff in Hv. destruct Hv as (i & <- & _). cbn. lia.
    - apply Forall_forall. intros v Hv. apply in_map_iff in Hv. destruct Hv as (i & <- & _). cbn. lia.
  Qed.

  Lemma pixel_hit x y k : storable bits k -> True ->
    paint (plotcell plotsquare 1 (1 - 1 - 0) x y k) (fun px py => if box_hit 0 x y px py then Some (reduce bits k) else None).
  Proof.
    intros Hk _. change (plotcell plotsquare 1 (1 - 1 - 0) x y k) with (plotxybit x y k).
    apply (pixel_draws noise b0 w h bits noise_refl 1 0 x y k Hk (box_hit 0 x y)); [lia|].
    intros px py _. unfold box_hit, in_box. clear. bcases; auto; lia.
  Qed.
  Lemma pixel_box x y px py : box_hit 0 x y px py = true -> x <= px < x + 1 /\ y <= py < y + 1.
  Proof. unfold box_hit, in_box. rewrite !andb_true_iff, !Z.leb_le. lia. Qed.
  Variables (head : Z * Z -> Z * Z -> Z -> (Z * Z) * (Z * Z)) (vx vy dx dy : Z) (grid : bool).
  Definition axis_edges : list ((Z * Z) * (Z * Z)) :=
    iterdrawvec head (ox, oy) (ox, yl) 10 ++ iterdrawvec head (ox, oy) (xl, oy) 10.
  Hypothesis Hheads : Forall (fun e => seg_fits w h bits (fst e) (snd e)) axis_edges.
  Lemma run_ret (a1 a2 a3 a4 a5 a6 a7 : M unit) {A} (r : A) s s' :
    (a1 ;;; a2 ;;; a3 ;;; (a4 ;;; a5) ;;; a6 ;;; a7) s = (Ok tt, s') ->
    (a1 ;;; a2 ;;; a3 ;;; a4 ;;; a5 ;;; a6 ;;; a7 ;;; ret r) s = (Ok r, s').
  Proof.
    unfold bind, ret.
    destruct (a1 s) as [[[]|] s1]; [|discriminate]. destruct (a2 s1) as [[[]|] s2]; [|discriminate].
    destruct (a3 s2) as [[[]|] s3]; [|discriminate]. destruct (a4 s3) as [[[]|] s4]; [|discriminate].
    destruct (a5 s4) as [[[]|] s5]; [|discriminate]. destruct (a6 s5) as [[[]|] s6]; [|discriminate].
    intros E. now rewrite E.
  Qed.
  Definition ylabels (px py old : Z) : Z :=
    fold_left (fun old i => let t := strint (vy + i * dy) in
        written font8x14 (reduce bits tc) t (ox - 15 - 8 * (zlen t - 1)) (oy - i * ys - 4) old px py) (range 0 (marks (oy - yl) ys)) old.
  Definition xlabels (px py old : Z) : Z :=
    fold_left (fun old i => written font8x14 (reduce bits tc) (strint (vx + i * dx)) (ox + i * xs - 4) (oy + 7) old px py) (range 0 (marks (xl - ox) xs)) old.
  Lemma filter_all {A} (p : A -> bool) l : (forall a, p a = true) -> filter p l = l.
  Proof. intros H. induction l as [|a l IH]; [reflexivity|]. cbn [filter]. now rewrite H, IH. Qed.
  Lemma fold_ext_f {A B} (f g : A -> B -> A) l : (forall a b, f a b = g a b) -> forall a, fold_left f l a = fold_left g l a.
  Proof. intros H. induction l as [|b l IH]; intros a; [reflexivity|]. cbn [fold_left]. now rewrite H, IH. Qed.
  Lemma axes_run o : exists b' o',
    XYaxis head (ox, oy) (xs, ys) (xl, yl) (vx, vy) (dx, dy) c tc grid gc (mkst b0 o) =
      (Ok (mkaxes (ox, oy) (xs, ys) (xl, yl) (vx, vy) (dx, dy)
        (vx + (marks (xl - ox) xs - 1) * dx, vy + (marks (oy - yl) ys - 1) * dy)), mkst b' o') /\
    noise o o' /\
    repainted b0 b' w h bits (fun px py => xlabels px py (ylabels px py
      (if any_edge (seg_hit w h) axis_edges px py || on_ticks ox oy xl yl xs ys px py then c
       else if grid && on_grid ox oy xl yl xs ys px py then reduce bits gc else pixel b0 w h bits px py))).
  Proof.
    pose proof (marks_nonneg (xl - ox) xs Hxs) as Nx. pose proof (marks_nonneg (oy - yl) ys Hys) as Ny.
    destruct (font_facts 14 font8x14 font_good) as (FF1 & FF2 & FF3 & _).
    assert (FZ : 0 < zlen font8x14) by lia.
    assert (G1 : fills (if grid then xygrid ox oy xl yl xs ys gc else ret tt) (fun px py => grid && on_grid ox oy xl yl xs ys px py) (reduce bits gc)).
    { destruct grid; cbn [andb].
      - eapply draws_weaken; [exact noise_lines|]. apply grid_fills; auto; lia.
      - apply fills_none. exact noise_refl. }
    unfold axis_edges in Hheads. apply Forall_app in Hheads. destruct Hheads as [HH1 HH2].
    assert (G2 := draws_weaken _ _ _ _ _ _ _ _ noise_quiet (arrow_thin head (ox, oy) (ox, yl) 10 c Hc HH1)).
    assert (G3 := draws_weaken _ _ _ _ _ _ _ _ noise_quiet (arrow_thin head (ox, oy) (xl, oy) 10 c Hc HH2)).
    assert (G4 := ticks_fills).
    assert (G5 := numbers_draws noise b0 w h bits noise_refl noise_trans 1 0 ltac:(lia) (box_hit 0) (reduce bits) pixel_box pixel_hit
      (One tc) font8x14 0 Htc FF3 FZ font_chars (marks (oy - yl) ys) ypos (-15) (-4) vy dy false false true Ny).
    assert (G6 := numbers_draws noise b0 w h bits noise_refl noise_trans 1 0 ltac:(lia) (box_hit 0) (reduce bits) pixel_box pixel_hit
      (One tc) font8x14 0 Htc FF3 FZ font_chars (marks (xl - ox) xs) xpos (-4) 7 vx dx false false false Nx).
    match type of G5 with ?a -> _ => assert (I5 : a) by (intros i j _ _ E; unfold ypos in E; injection E; intros; nia) end. specialize (G5 I5).
    match type of G6 with ?a -> _ => assert (I6 : a) by (intros i j _ _ E; unfold xpos in E; injection E; intros; nia) end. specialize (G6 I6).
    unfold ShapeProofs.fills in *.
    pose proof (draws_seq _ _ _ _ _ noise_trans _ _ _ _ G5 G6) as D5. pose proof (draws_seq _ _ _ _ _ noise_trans _ _ _ _ G4 D5) as D4.
    pose proof (draws_seq _ _ _ _ _ noise_trans _ _ _ _ G3 D4) as D3. pose proof (draws_seq _ _ _ _ _ noise_trans _ _ _ _ G2 D3) as D2.
    pose proof (draws_seq _ _ _ _ _ noise_trans _ _ _ _ G1 D2) as D1. clear D2 D3 D4 D5.
    destruct (D1 b0 o W0) as (b' & o' & E & HR & RP); [split; auto|]. exists b', o'. split; [|split; [exact HR|]].
    - unfold XYaxis. cbn [fst snd]. rewrite (bind_ok _ _ _ _ _ (run_lift _ _ _ _ hvert_eq)).
      rewrite (bind_ok _ _ _ _ _ (run_lift _ _ _ _ vvert_eq)).
      rewrite !zlen_map, !zlen_range, !Z.sub_0_r, !(Z.max_r 0) by assumption. exact (run_ret _ _ _ _ _ _ _ _ _ _ E).
    - eapply repainted_ext; [|exact RP]. clear - Hxs. intros px py _. cbn beta.
      set (L5 := labels_f _ _ _ _ _ _ (marks (oy - yl) ys) _ _ _ _ _ _ _ _ px py).
      set (L6 := labels_f _ _ _ _ _ _ (marks (xl - ox) xs) _ _ _ _ _ _ _ _ px py).
      set (base := if _ || _ then c else _).
      assert (E5 : forall old, match L5 with Some v => v | None => old end = ylabels px py old).
      { intros old. unfold L5. rewrite labels_over. rewrite filter_all by (intros a; unfold shown; now rewrite !andb_false_r). reflexivity. }
      assert (E6 : forall old, match L6 with Some v => v | None => old end = xlabels px py old).
      { intros old. unfold L6. rewrite labels_over. rewrite filter_all by (intros a; unfold shown; now rewrite !andb_false_r).
        unfold xlabels. apply fold_ext_f. intros a i. unfold labx, laby, written, xpos. cbn [fst snd]. now rewrite Z.sub_0_r. }
      rewrite <- E6, <- E5. destruct L6; [reflexivity|]. destruct L5; [reflexivity|].
      unfold base, axis_edges, any_edge. rewrite existsb_app.
      destruct (on_ticks ox oy xl yl xs ys px py); [now rewrite orb_true_r|]. rewrite orb_false_r.
      destruct (existsb _ (iterdrawvec head (ox, oy) (xl, oy) 10)); [now rewrite orb_true_r|]. rewrite orb_false_r.
      destruct (existsb _ _); [reflexivity|]. destruct (grid && _); reflexivity.
  Qed.
End Axes.
