(** Composite shapes (proofs): strokes with round pens, layers, palette colours. *)
From Coq Require Import ZArith List Bool Lia.
From Verif Require Import PyBase PyFacts Spec SpecShapes Bmp BmpFacts PixelProofs PlotList HeaderProofs Buffers Region
  Raster Geometry GeomProofs Draw VertProofs DrawProofs DrawProofs2 DrawProofs3 DrawProofs4 Text TextProofs Filters Circle Shapes.
Import ListNotations.
Open Scope Z_scope.
Open Scope py_scope.
Ltac Zify.zify_post_hook ::= Z.to_euclidean_division_equations.

(** ** points of a segment *)
Lemma seg_points_in x1 y1 x2 y2 x y : In (x, y) (iterline (x1, y1) (x2, y2)) <-> seg_points x1 y1 x2 y2 x y = true.
Proof.
  unfold seg_points. destruct (is_diagonal x1 y1 x2 y2) eqn:D; unfold is_diagonal in D.
  - apply andb_true_iff in D. destruct D as [D N]. apply Z.eqb_eq in D. apply negb_true_iff, Z.eqb_neq in N.
    rewrite iterline_diag by auto. rewrite orb_true_iff, !andb_true_iff, !Z.leb_le, !Z.eqb_eq. tauto.
  - apply iterline_on_line. apply andb_false_iff in D. destruct D as [D|D].
    + left. now apply Z.eqb_neq in D.
    + apply negb_false_iff, Z.eqb_eq in D. subst x2. destruct (Z.eq_dec y2 y1); [right; auto|left; lia].
Qed.
Lemma seg_points_x x1 y1 x2 y2 x y : seg_points x1 y1 x2 y2 x y = true -> Z.min x1 x2 <= x <= Z.max x1 x2.
Proof.
  unfold seg_points. destruct (is_diagonal x1 y1 x2 y2).
  - rewrite orb_true_iff, !andb_true_iff, !Z.leb_le, !Z.eqb_eq. lia.
  - unfold on_line, in_box. rewrite !andb_true_iff, !Z.leb_le. tauto.
Qed.

(** ** a set drawn with a round pen *)
Lemma disc_out r dx dy : ~ (- r <= dx < r + 1 /\ - r <= dy < r + 1) -> 0 <= r -> in_disc r dx dy = false.
Proof.
  intros N Hr. destruct (in_disc r dx dy) eqn:D; auto. exfalso. apply N.
  destruct (Z.le_gt_cases (Z.abs dy) r) as [A|A].
  - destruct (Z.le_gt_cases (Z.abs dx) r) as [B|B]; [lia|].
    assert (E : in_disc r dx dy = in_disc r dy dx) by (unfold in_disc; cbv zeta; now rewrite (Z.max_comm (Z.abs dx)), (Z.add_comm (dx * dx))).
    rewrite E, disc_far in D by lia. discriminate.
  - rewrite disc_far in D by lia. discriminate.
Qed.
Lemma dilate_list p (S : Z -> Z -> bool) l x y : 0 <= p -> (forall u v, In (u, v) l <-> S u v = true) ->
  existsb (fun q => in_disc p (x - fst q) (y - snd q)) l = dilate p S x y.
Proof.
  intros Hp HS. apply eq_true_iff_eq. unfold dilate. rewrite !existsb_exists. split.
  - intros ([u v] & Hin & D). cbn [fst snd] in D.
    assert (B : - p <= x - u < p + 1 /\ - p <= y - v < p + 1).
    { destruct (Z_le_gt_dec (- p) (x - u)), (Z_lt_ge_dec (x - u) (p + 1)), (Z_le_gt_dec (- p) (y - v)), (Z_lt_ge_dec (y - v) (p + 1));
        try lia; rewrite disc_out in D by lia; discriminate. }
    exists (x - u). split; [apply in_range; lia|]. rewrite existsb_exists. exists (y - v). split; [apply in_range; lia|].
    replace (x - (x - u)) with u by ring. replace (y - (y - v)) with v by ring. rewrite D, andb_true_r. now apply HS.
  - intros (dx & H1 & H2). rewrite existsb_exists in H2. destruct H2 as (dy & H2 & H3). apply andb_true_iff in H3.
    destruct H3 as [H3 H4]. exists (x - dx, y - dy). split; [now apply HS|]. cbn [fst snd].
    replace (x - (x - dx)) with dx by ring. replace (y - (y - dy)) with dy by ring. exact H4.
Qed.

(** ** layers *)
Lemma fold_find {A} (f : A -> option Z) l :
  fold_left (fun acc a => match f a with Some v => Some v | None => acc end) l None =
  match find (fun a => match f a with Some _ => true | None => false end) (rev l) with Some a => f a | None => None end.
Proof.
  induction l as [|a l IH] using rev_ind; [reflexivity|]. rewrite fold_left_app, rev_app_distr. cbn [fold_left rev app find].
  destruct (f a) eqn:E; auto.
Qed.

(** ** palette colours *)
Definition dcol (b : list Z) (bits c : Z) : Z :=
  if bits =? 24 then c else matchRGBtopal false (rgb_of c) (map (pal_entry b) (range 0 (2 ^ bits))).

Lemma rgb_of_int c : int2RGB c = rgb_of c.
Proof. unfold int2RGB, rgb_of. now rewrite !land255, shiftr8, shiftr16. Qed.
Lemma rgb_of_ok c : 0 <= c < 2 ^ 24 -> rgb_ok (rgb_of c).
Proof.
  intros Hc. unfold rgb_ok, rgb_of, byte. cbn [fst snd].
  pose proof (Z.mod_pos_bound (c / 256) 256 ltac:(lia)). pose proof (Z.mod_pos_bound c 256 ltac:(lia)).
  assert (0 <= c / 65536 < 256) by (split; [apply Z.div_pos; lia|apply Z.div_lt_upper_bound; lia]). lia.
Qed.
Lemma nth_map_range {A} (f : Z -> A) n k p : nth_error (map f (range 0 n)) k = Some p ->
  0 <= Z.of_nat k < n /\ p = f (Z.of_nat k).
Proof.
  intros E.
  assert (L : (k < length (map f (range 0 n)))%nat) by (apply nth_error_Some; congruence).
  unfold range in *. rewrite !map_length, seq_length in L.
  rewrite map_map in E. rewrite nth_error_map in E.
  destruct (nth_error (seq 0 (Z.to_nat (n - 0))) k) as [m|] eqn:Em; [|discriminate].
  assert (m = k). { apply (nth_error_nth _ _ O) in Em. rewrite seq_nth in Em by lia. lia. }
  subst m. cbn [option_map] in E. rewrite Z.add_0_l in E. split; [lia|]. congruence.
Qed.
Lemma dist2_rgb u v : dist2 u v = rgb_dist2 u v.
Proof. destruct u as ((?, ?), ?), v as ((?, ?), ?). unfold dist2, rgb_dist2. ring. Qed.
Lemma entry_ok b w h bits i : wf b w h bits -> rgb_ok (pal_entry b i).
Proof. intros W. unfold rgb_ok, pal_entry. cbn [fst snd]. repeat split; eapply wf_byte; eauto. Qed.
Lemma pow2_pos bits : valid_depth bits -> 0 < 2 ^ bits.
Proof. intros [-> | [-> | [-> | ->]]]; reflexivity. Qed.

Lemma dcol_shows b w h bits c : wf b w h bits -> 0 <= c < 2 ^ 24 -> shows b bits c (dcol b bits c).
Proof.
  intros W Hc. unfold shows, dcol. destruct (bits =? 24); [reflexivity|].
  set (pal := map (pal_entry b) (range 0 (2 ^ bits))). pose proof (pow2_pos bits (wf_depth _ _ _ _ W)) as HB.
  unfold matchRGBtopal.
  destruct (pal_nearest_spec false (rgb_of c) pal eq_refl 0 0 (442 * 442)) as [[E K]|(k & p & A1 & A2 & A3 & A4 & A5 & _)].
  - rewrite E. split; [lia|]. intros i Hi Nb. exfalso.
    assert (442 * 442 <= dist2 (rgb_of c) (pal_entry b i)) by (apply K; auto; apply in_map, in_range; lia).
    pose proof (dist2_small (rgb_of c) (pal_entry b i) (rgb_of_ok c Hc) (entry_ok b w h bits i W)). lia.
  - rewrite A2, Z.add_0_l. apply nth_map_range in A1. destruct A1 as [B1 B2]. split; [lia|].
    intros i Hi Nb. rewrite <- B2. split; [exact A3|]. rewrite <- !dist2_rgb. apply A5; auto. apply in_map, in_range. lia.
Qed.
Lemma dcol_range b w h bits c : wf b w h bits -> 0 <= c < 2 ^ 24 -> 0 <= dcol b bits c < 2 ^ bits.
Proof.
  intros W Hc. pose proof (dcol_shows b w h bits c W Hc) as S. unfold shows in S. destruct (Z.eqb_spec bits 24) as [-> |N]; [now rewrite S|tauto].
Qed.
Lemma reduce_id bits c : valid_depth bits -> 0 <= c < 2 ^ bits -> reduce bits c = c.
Proof.
  intros [-> | [-> | [-> | ->]]] Hc; unfold reduce; cbn [Z.eqb Pos.eqb]; try (rewrite Z.mod_small; auto); auto.
  change (2 ^ 1) with 2 in Hc. destruct (Z.ltb_spec 0 c); lia.
Qed.

(** the palette entries of bitmaps with the same header *)
Lemma pal_same b0 b bits i : same_header b0 b bits -> bits <> 24 -> 0 <= i < 2 ^ bits -> pal_entry b i = pal_entry b0 i.
Proof.
  intros [_ H] N Hi. unfold pal_entry. assert (D : data_off bits = 54 + 4 * 2 ^ bits).
  { unfold data_off. destruct (Z.eqb_spec bits 24); [contradiction|reflexivity]. }
  rewrite !H by lia. reflexivity.
Qed.
Lemma depthcolor_run b0 b w h bits c o : wf b w h bits -> same_header b0 b bits -> 0 <= c < 2 ^ 24 ->
  depthcolor c (mkst b o) = (Ok (dcol b0 bits c), mkst b o).
Proof.
  intros W S Hc. unfold depthcolor, dcol. rewrite (bind_ok _ _ _ _ _ (wf_geti_bits _ _ _ _ W _)).
  destruct (Z.eqb_spec bits 24) as [E|N]; [reflexivity|].
  rewrite rgb_of_int. pose proof (rgb_of_ok c Hc) as Hb. destruct (rgb_of c) as ((r, g), bl) eqn:E.
  unfold rgb_ok in Hb. cbn [fst snd] in Hb.
  assert (Ha : py_array [r; g; bl] = Ok [r; g; bl]) by (apply py_array_ok; constructor; [tauto|constructor; [tauto|constructor; [tauto|constructor]]]).
  rewrite (bind_ok _ _ _ _ _ (run_lift _ _ _ _ Ha)).
  rewrite (bind_ok _ _ _ _ _ (run_rd _ _ _ _ (getallRGBpal_ok _ _ _ _ W N))). unfold ret.
  enough (Em : map (pal_entry b) (range 0 (2 ^ bits)) = map (pal_entry b0) (range 0 (2 ^ bits))) by now rewrite Em.
  apply map_ext_in. intros i Hi. apply in_range in Hi. apply (pal_same b0 b bits); auto; lia.
Qed.

(** ** painting a set of pixels *)
Section Fill.
  Variables (R : list msg -> list msg -> Prop) (b0 : list Z) (w h bits : Z).
  Hypothesis Rrefl : forall o, R o o.
  Hypothesis Rtrans : forall o1 o2 o3, R o1 o2 -> R o2 o3 -> R o1 o3.
  Definition fills (act : M unit) (S : Z -> Z -> bool) (v : Z) : Prop :=
    draws R b0 w h bits act (fun px py => if S px py then Some v else None).

  Lemma fills_ext act S S' v : (forall px py, inside w h px py -> S px py = S' px py) -> fills act S v -> fills act S' v.
  Proof. intros E. apply draws_ext. intros px py H. cbn beta. now rewrite E. Qed.
  Lemma fills_act act act' S v : (forall s, act s = act' s) -> fills act' S v -> fills act S v.
  Proof. apply draws_act. Qed.
  Lemma fills_none v : fills (ret tt) (fun _ _ => false) v.
  Proof. unfold fills. cbn beta iota. apply draws_none. exact Rrefl. Qed.
  Lemma fills_seq a1 a2 S1 S2 v : fills a1 S1 v -> fills a2 S2 v -> fills (a1 ;;; a2) (fun px py => S1 px py || S2 px py) v.
  Proof.
    intros D1 D2. eapply draws_ext; [|exact (draws_seq _ _ _ _ _ Rtrans _ _ _ _ D1 D2)].
    intros px py _. cbn beta. destruct (S1 px py), (S2 px py); reflexivity.
  Qed.
  Lemma fills_list {A} (l : list A) act S v : (forall a, In a l -> fills (act a) (S a) v) ->
    fills (forM l act) (fun px py => existsb (fun a => S a px py) l) v.
  Proof.
    intros H. eapply draws_ext; [|exact (draws_list _ _ _ _ _ Rrefl Rtrans l act _ H)].
    intros px py _. cbn beta. clear H.
    assert (G : forall acc, fold_left (fun acc a => match (if S a px py then Some v else None) with Some v => Some v | None => acc end) l acc =
      if existsb (fun a => S a px py) l then Some v else acc).
    { induction l as [|a l IH]; intros acc; [reflexivity|]. cbn [fold_left existsb]. rewrite IH.
      destruct (S a px py), (existsb (fun a => S a px py) l); reflexivity. }
    apply G.
  Qed.
  (** layers painted from the last to the first element *)
  Lemma layers l act (S : Z -> Z -> Z -> bool) (col : Z -> Z) : (forall i, In i l -> fills (act i) (S i) (col i)) ->
    draws R b0 w h bits (forM (rev l) act) (fun px py => option_map col (find (fun i => S i px py) l)).
  Proof.
    intros H. eapply draws_ext; [|exact (draws_list _ _ _ _ _ Rrefl Rtrans (rev l) act
      (fun i px py => if S i px py then Some (col i) else None) ltac:(intros i Hi; apply H, in_rev, Hi))].
    intros px py _. cbn beta. rewrite fold_find, rev_involutive. clear H.
    induction l as [|i l IH]; [reflexivity|]. cbn [find]. destruct (S i px py) eqn:E; auto. cbn [option_map]. now rewrite E.
  Qed.

End Fill.

Section Paint.
  Variables (b0 : list Z) (w h bits : Z).
  (** only 1-bit bitmaps print messages while discs are filled *)
  Definition quiet (o o' : list msg) : Prop := bits <> 1 -> o' = o.
  Lemma quiet_refl o : quiet o o. Proof. unfold quiet; auto. Qed.
  Lemma quiet_trans o1 o2 o3 : quiet o1 o2 -> quiet o2 o3 -> quiet o1 o3.
  Proof. unfold quiet. intros A B N. rewrite (B N), (A N). reflexivity. Qed.
  Notation fills := (fills quiet b0 w h bits).

  (** *** discs *)
  Lemma disc_fills x y r c : storable bits c -> pen_at bits x -> valid_depth bits ->
    fills (circle x y r c true) (fun px py => in_disc r (px - x) (py - y)  && (0 <=? r)) (reduce bits c).
  Proof.
    intros Hs (N4 & H8 & H24) V b o W Sh. unfold circle.
    destruct (Z.leb_spec 0 r) as [Hr|Hr].
    - assert (HB : bits = 1 \/ (bits = 8 \/ bits = 24)) by (destruct V as [?|[?|[?|?]]]; auto; contradiction).
      destruct HB as [E|HB].
      + destruct (disc1 b w h bits x y r c W Hs Hr o E) as (b' & o' & E1 & R). exists b', o'. split; [exact E1|].
        split; [intros N; contradiction|]. eapply repainted_ext; [|exact R]. intros px py _. cbn beta. rewrite andb_true_r.
        now destruct (in_disc r (px - x) (py - y)).
      + destruct (disc_bytes b w h bits x y r c W Hs Hr o HB) as (b' & E1 & R).
        { destruct HB as [E|E]; rewrite E; [change (data_off 8) with 1078; change (pbytes 8) with 1|
            change (data_off 24) with 54; change (pbytes 24) with 3]; [specialize (H8 E)|specialize (H24 E)]; lia. }
        exists b', o. split; [exact E1|]. split; [apply quiet_refl|]. eapply repainted_ext; [|exact R]. intros px py _. cbn beta.
        rewrite andb_true_r. now destruct (in_disc r (px - x) (py - y)).
    - exists b, o. split; [now apply (disc_neg b w h bits)|]. split; [apply quiet_refl|].
      eapply repainted_ext; [|apply repainted_refl; exact W]. intros px py _. cbn beta. now rewrite andb_false_r.
  Qed.
  (** a list of discs *)
  Lemma discs_fill l (S : Z -> Z -> bool) p c : storable bits c -> valid_depth bits ->
    (forall u v, In (u, v) l <-> S u v = true) -> (forall u v, S u v = true -> pen_at bits u) ->
    fills (forM l (fun q => circle (fst q) (snd q) p c true)) (dilate p S) (reduce bits c).
  Proof.
    intros Hs V HS HP. destruct (Z.le_gt_cases 0 p) as [Hp|Hp].
    - eapply fills_ext; [|apply (fills_list _ _ _ _ _ quiet_refl quiet_trans l (fun q => circle (fst q) (snd q) p c true)
        (fun q px py => in_disc p (px - fst q) (py - snd q) && (0 <=? p)))].
      + intros px py _. cbn beta. rewrite <- (dilate_list p S l px py Hp HS).
        replace (0 <=? p) with true by (symmetry; now apply Z.leb_le).
        induction l as [|q l IH]; [reflexivity|]. cbn [existsb]. rewrite andb_true_r. f_equal.
        clear - l. induction l as [|q' l IH]; [reflexivity|]. cbn [existsb]. now rewrite IH, andb_true_r.
      + intros [u v] Hin. cbn [fst snd]. apply disc_fills; auto. eapply HP. apply HS, Hin.
    - eapply fills_ext; [|apply (fills_list _ _ _ _ _ quiet_refl quiet_trans l (fun q => circle (fst q) (snd q) p c true)
        (fun q px py => in_disc p (px - fst q) (py - snd q) && (0 <=? p)))].
      + intros px py _. cbn beta. replace (0 <=? p) with false by (symmetry; now apply Z.leb_gt).
        unfold dilate. rewrite range_nil by lia. cbn [existsb].
        clear. induction l as [|q l IH]; [reflexivity|]. cbn [existsb]. now rewrite andb_false_r.
      + intros [u v] Hin. cbn [fst snd]. apply disc_fills; auto. eapply HP. apply HS, Hin.
  Qed.
  Lemma thickline_fills u v p c : storable bits c -> valid_depth bits -> pen_at bits (Z.min (fst u) (fst v)) ->
    fills (thickroundline u v p c) (thick_seg p u v) (reduce bits c).
  Proof.
    intros Hs V HP. destruct u as [x1 y1], v as [x2 y2]. cbn [fst snd] in *. unfold thickroundline, thick_seg. cbn [fst snd].
    apply discs_fill; auto; [intros; apply seg_points_in|].
    intros x y Hx. apply seg_points_x in Hx. destruct HP as (A & B & C). unfold pen_at. repeat split; auto; intros E; [specialize (B E)|specialize (C E)]; lia.
  Qed.
  Lemma thickcircle_fills x y r p c : storable bits c -> valid_depth bits -> pen_at bits (x - r) ->
    fills (thickcircle x y r p c) (fun px py => thick_ring p x y r px py && (0 <=? r)) (reduce bits c).
  Proof.
    intros Hs V (A & B & C). unfold thickcircle. destruct (Z.leb_spec 0 r) as [Hr|Hr].
    - destruct (itercircle_run x y r Hr) as (l & El & Hl).
      eapply fills_act; [intros s; unfold lift, bind; rewrite El; reflexivity|].
      eapply fills_ext; [|apply (discs_fill l (fun u v => on_ring r (u - x) (v - y)) p c Hs V)].
      + intros px py _. unfold thick_ring. now rewrite andb_true_r.
      + intros u v. rewrite <- pt_in_iff, Hl. tauto.
      + intros u v Hv. apply ring_circle in Hv. apply on_circle_bound in Hv; [|exact Hr]. cbn [fst snd] in Hv.
        unfold pen_at. repeat split; auto; intros E; [specialize (B E)|specialize (C E)]; lia.
    - eapply fills_act; [intros s; unfold lift, bind; rewrite itercircle_neg by exact Hr; reflexivity|].
      eapply fills_ext; [|apply fills_none; exact quiet_refl]. intros px py _. now rewrite andb_false_r.
  Qed.

  (** *** lines *)
  Lemma line_fills u v c : wf b0 w h bits -> 0 < w -> 0 < h -> 0 <= c < 2 ^ bits -> seg_fits w h bits u v ->
    fills (linevec u v c) (seg_hit w h u v) c.
  Proof.
    intros W0 Hw Hh Hc [F4 FD] b o W Sh. unfold linevec, seg_hit, seg_points.
    destruct u as [x1 y1], v as [x2 y2]. cbn [fst snd] in *. unfold into in *.
    pose proof (line_run b w h bits x1 y1 x2 y2 c W Hw Hh Hc o) as L1.
    pose proof (line_diag b w h bits x1 y1 x2 y2 c W Hw Hh Hc o) as L2. cbv zeta in *.
    set (u1 := Z.max 0 (Z.min x1 (w - 1))) in *. set (u2 := Z.max 0 (Z.min x2 (w - 1))) in *.
    set (v1 := Z.max 0 (Z.min y1 (h - 1))) in *. set (v2 := Z.max 0 (Z.min y2 (h - 1))) in *. clearbody u1 u2 v1 v2.
    destruct (is_diagonal u1 v1 u2 v2) eqn:D.
    - specialize (FD eq_refl). unfold is_diagonal in D. apply andb_true_iff in D. destruct D as [D N].
      apply Z.eqb_eq in D. apply negb_true_iff, Z.eqb_neq in N.
      destruct (L2 D N FD) as (b' & E & R). exists b', o. split; [exact E|]. split; [apply quiet_refl|].
      eapply repainted_ext; [|exact R]. intros px py _. cbn beta. match goal with |- (if ?q then _ else _) = _ => destruct q end; reflexivity.
    - destruct L1 as (b' & E & R).
      + unfold is_diagonal in D. apply andb_false_iff in D. destruct D as [D|D]; [left; now apply Z.eqb_neq in D|].
        apply negb_false_iff, Z.eqb_eq in D. clear - D. destruct (Z.eq_dec v1 v2); [right; auto|left; lia].
      + clear - F4. destruct (Z.eq_dec bits 4) as [E|E]; [|left; exact E]. destruct (F4 E); auto.
      + exists b', o. split; [exact E|]. split; [apply quiet_refl|]. eapply repainted_ext; [|exact R].
        intros px py _. cbn beta. now destruct (on_line u1 v1 u2 v2 px py).
  Qed.
End Paint.

Lemma segments_edges vs : segments vs = edges vs.
Proof.
  induction vs as [|u vs IH]; [reflexivity|]. destruct vs as [|v vs]; [reflexivity|].
  change (segments (u :: v :: vs)) with ((u, v) :: segments (v :: vs)). rewrite IH. reflexivity.
Qed.
