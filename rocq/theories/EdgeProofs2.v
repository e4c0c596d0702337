(** Neighbours, edges and regions (proofs). *)
From Coq Require Import ZArith List Bool Lia.
From Verif Require Import PyBase PyFacts Spec SpecEdges Bmp BmpFacts PixelProofs Buffers Region Raster HeaderProofs IterProofs
  Geometry Draw DrawProofs3 ShapeProofs Shapes Files Wrappers Fractal Edges EdgeProofs.
Import ListNotations.
Open Scope Z_scope.
Open Scope py_scope.

Lemma getRGB_in b w h bits x y : wf b w h bits -> inside w h x y -> getRGBxybit x y b = Ok (Some (shown b w h bits x y)).
Proof.
  intros W I. unfold getRGBxybit, shown. rewrite (wf_inbnd_true _ _ _ _ W) by auto. cbn [rbind].
  unfold getclrbits. rewrite (wf_rbits _ _ _ _ W). cbn [rbind].
  destruct (Z.eqb_spec bits 24) as [E|N].
  - subst bits. assert (Eo : o24bmofhd x y b = Ok (baddr w h 24 x y)).
    { pose proof (wf_offsethd _ _ _ _ W x y) as G. unfold bmoffsethd in G. rewrite (wf_rbits _ _ _ _ W) in G. exact G. }
    rewrite Eo. cbn [rbind]. destruct (baddr_bounds _ _ _ _ W x y I) as [B1 B2]. change (data_off 24) with 54 in B1. change (pbytes 24) with 3 in B2.
    rewrite !py_get_in by lia. cbn [rbind]. do 2 f_equal.
    assert (Hb : forall i, byte (getz b i)) by (intros; eapply wf_byte; eauto).
    unfold pixel, baddr. cbn [Z.eqb Pos.eqb]. replace (x * 24 / 8) with (3 * x) by (replace (x * 24) with (3 * x * 8) by ring; symmetry; apply Z.div_mul; lia).
    set (k := data_off 24 + (h - 1 - y) * stride w 24 + 3 * x). pose proof (Hb k) as K0. pose proof (Hb (k + 1)) as K1. pose proof (Hb (k + 2)) as K2.
    unfold byte, rgb_of in *. generalize dependent (getz b k). generalize dependent (getz b (k + 1)). generalize dependent (getz b (k + 2)). clear.
    intros a Ha c Hc e He. repeat f_equal; Z.to_euclidean_division_equations; lia.
  - rewrite (getxybit_inside b w h bits x y W I). cbn [rbind].
    pose proof (pixel_range b w h bits x y W) as P. pose proof (wf_pal_len _ _ _ _ W N).
    rewrite getRGBpal_ok; [reflexivity|lia|lia].

Qed.
Lemma getRGB_out b w h bits x y : wf b w h bits -> ~ inside w h x y -> getRGBxybit x y b = Ok None.
Proof. intros W I. unfold getRGBxybit. now rewrite (wf_inbnd_false _ _ _ _ W) by auto. Qed.

(** ** neighbours *)
Lemma around_spec x y w h : inside w h x y ->
  itergetneighbors (x, y) w h false = filter (fun u => looks w h x y (fst u) (snd u)) (around x y).
Proof.
  intros [Hx Hy]. unfold itergetneighbors, around, looks. cbn [filter fst snd].
  rewrite !Z.gtb_ltb. replace (-1 <? x) with true by (symmetry; apply Z.ltb_lt; lia). replace (-1 <? y) with true by (symmetry; apply Z.ltb_lt; lia).
  cbn [andb].
  replace (x <? w) with true by (symmetry; apply Z.ltb_lt; lia). replace (y <? h) with true by (symmetry; apply Z.ltb_lt; lia).
  replace (x - 1 <? w) with true by (symmetry; apply Z.ltb_lt; lia). replace (y - 1 <? h) with true by (symmetry; apply Z.ltb_lt; lia).
  rewrite !Z.ltb_irrefl.
  replace (x + 1 <? x) with false by (symmetry; apply Z.ltb_ge; lia). replace (y + 1 <? y) with false by (symmetry; apply Z.ltb_ge; lia).
  replace (x - 1 <? x) with true by (symmetry; apply Z.ltb_lt; lia). replace (y - 1 <? y) with true by (symmetry; apply Z.ltb_lt; lia).
  cbn [negb andb orb app].
  destruct (0 <? y - 1), (y + 1 <? h), (0 <? x - 1), (x + 1 <? w); reflexivity.
Qed.
Lemma looks_iff w h x y u v : inside w h x y -> In (u, v) (around x y) -> (looks w h x y u v = true <-> looked_at w h x y u v).
Proof.
  intros [Hx Hy] Hin. unfold looks, looked_at. rewrite !andb_true_iff, !orb_true_iff, !negb_true_iff, !Z.ltb_lt, !Z.ltb_ge.
  assert (A : Z.abs (u - x) <= 1 /\ Z.abs (v - y) <= 1 /\ (u, v) <> (x, y)).
  { unfold around in Hin. cbn [In] in Hin. repeat (destruct Hin as [Hin|Hin]; [injection Hin as <- <-; repeat split; try lia; intros E; injection E; lia|]). contradiction. }
  destruct A as (A1 & A2 & A3). split.
  - intros [[[L1 L2] L3] L4]. repeat split; auto; lia.
  - intros (_ & _ & _ & L1 & L2 & L3 & L4). repeat split; auto; lia.
Qed.
Lemma around_in x y u v : In (u, v) (around x y) <-> Z.abs (u - x) <= 1 /\ Z.abs (v - y) <= 1 /\ (u, v) <> (x, y).
Proof.
  split.
  - unfold around. cbn [In]. intros Hin. repeat (destruct Hin as [Hin|Hin]; [injection Hin as <- <-; repeat split; try lia; intros E; injection E; lia|]). contradiction.
  - intros (A1 & A2 & A3).
    assert (N : ~ (u = x /\ v = y)) by (intros [-> ->]; now apply A3). clear A3.
    assert (Eu : u = x \/ u = x - 1 \/ u = x + 1) by lia. assert (Ev : v = y \/ v = y - 1 \/ v = y + 1) by lia.
    unfold around. destruct Eu as [-> | [-> | ->]], Ev as [-> | [-> | ->]]; cbn [In]; auto 9. exfalso. apply N. auto.
Qed.
Lemma around_nodup x y : NoDup (around x y).
Proof.
  unfold around. repeat constructor; cbn [In]; intros H; repeat (destruct H as [H|H]; [injection H; lia|]); exact H.
Qed.
Lemma neighbors_in w h x y u v : inside w h x y ->
  (In (u, v) (itergetneighbors (x, y) w h false) <-> looked_at w h x y u v).
Proof.
  intros I. rewrite around_spec by auto. rewrite filter_In. cbn [fst snd]. split.
  - intros [H1 H2]. now apply looks_iff.
  - intros H. assert (H1 : In (u, v) (around x y)) by (apply around_in; destruct H as (A & B & C & _); auto). split; auto. now apply looks_iff.
Qed.
Lemma looked_inside w h x y u v : inside w h x y -> looked_at w h x y u v -> inside w h u v.
Proof. intros [Hx Hy] (A1 & A2 & A3 & A4 & A5 & A6 & A7). split; lia. Qed.
Lemma neighbors_center w h x y u : inside w h x y ->
  (In u (itergetneighbors (x, y) w h true) <-> u = (x, y) \/ In u (itergetneighbors (x, y) w h false)).
Proof.
  intros [Hx Hy]. unfold itergetneighbors. rewrite !Z.gtb_ltb.
  replace (-1 <? x) with true by (symmetry; apply Z.ltb_lt; lia). replace (-1 <? y) with true by (symmetry; apply Z.ltb_lt; lia).
  cbn [andb]. rewrite !in_app_iff. cbn [In]. intuition.
Qed.
Lemma neighbors_nodup w h x y : inside w h x y -> NoDup (itergetneighbors (x, y) w h true).
Proof.
  intros I. pose proof I as [Hx Hy].
  assert (N : NoDup (itergetneighbors (x, y) w h false)) by (rewrite around_spec by auto; apply NoDup_filter, around_nodup).
  assert (C : ~ In (x, y) (itergetneighbors (x, y) w h false)) by (rewrite neighbors_in by auto; intros (_ & _ & K & _); now apply K).
  unfold itergetneighbors in *. rewrite !Z.gtb_ltb in *.
  replace (-1 <? x) with true in * by (symmetry; apply Z.ltb_lt; lia). replace (-1 <? y) with true in * by (symmetry; apply Z.ltb_lt; lia).
  cbn [andb app] in *. apply NoDup_Add with (1 := Add_app (x, y) _ _). now split.
Qed.

(** ** edges *)
Lemma first_far_ok far b w h bits c us : wf b w h bits -> (forall u, In u us -> inside w h (fst u) (snd u)) ->
  first_far far c us b = Ok (opt_list (find (fun u => far (rgb_dist2 (shown b w h bits (fst u) (snd u)) c)) us)).
Proof.
  intros W. induction us as [|u t IH]; intros H; cbn [first_far find]; [reflexivity|].
  unfold getRGBxybitvec. rewrite (getRGB_in b w h bits _ _ W) by (apply H; now left). cbn [rbind]. rewrite dist2_rgb.
  destruct (far _); [reflexivity|]. apply IH. intros; apply H; now right.
Qed.
Lemma find_filter {A} (f g : A -> bool) l : find f (filter g l) = find (fun a => g a && f a) l.
Proof.
  induction l as [|a l IH]; cbn [filter find]; auto. destruct (g a); cbn [find andb]; [destruct (f a)|]; auto.
Qed.
Lemma edges_items far b w h bits items : wf b w h bits -> iterimageRGB b = Ok items ->
  (forall x y c, In (x, y, c) items -> inside w h x y /\ c = shown b w h bits x y) ->
  getimagedgevert far b = Ok (flat_map (fun i => opt_list (edge_seen far b w h bits (fst (fst i)) (snd (fst i)))) items).
Proof.
  intros W E H. unfold getimagedgevert, getmaxxy. rewrite (wf_rx _ _ _ _ W), (wf_ry _ _ _ _ W). cbn [rbind]. rewrite E. cbn [rbind fst snd].
  rewrite (mapR_ok _ (fun i => opt_list (edge_seen far b w h bits (fst (fst i)) (snd (fst i))))).
  - cbn [rbind]. f_equal. symmetry. apply flat_map_concat_map.
  - intros [[x y] c] Hi. cbn [fst snd]. destruct (H _ _ _ Hi) as [I ->]. rewrite (first_far_ok far b w h bits); auto.
    + rewrite around_spec, find_filter by auto. reflexivity.
    + intros [u v] Hu. apply neighbors_in in Hu; auto. cbn [fst snd]. eapply looked_inside; eauto.
Qed.
Lemma rgbrow_in b w h bits y a c : 0 <= a -> c <= w -> 0 <= y < h -> forall x' y' v, In (x', y', v) (rgbrow b w h bits y a c) ->
  inside w h x' y' /\ v = shown b w h bits x' y'.
Proof.
  intros Ha Hc Hy x' y' v H. unfold rgbrow in H. apply in_map_iff in H. destruct H as (x & E & Hx). injection E as <- <- <-.
  apply in_range in Hx. split; [split; lia|reflexivity].
Qed.
Lemma rgball_in b w h bits x y v : In (x, y, v) (rgball b w h bits) <-> inside w h x y /\ v = shown b w h bits x y.
Proof.
  unfold rgball. rewrite in_flat_map. split.
  - intros (y' & Hy & Hx). apply in_rev in Hy. apply in_range in Hy. eapply rgbrow_in in Hx; eauto; lia.
  - intros [[Hx Hy] ->]. exists y. rewrite <- in_rev, in_range. split; [lia|]. unfold rgbrow. apply in_map_iff. exists x. rewrite in_range. auto.
Qed.
Lemma rows_step w bits : valid_depth bits -> 0 <= w -> (byte_rows w bits <-> w mod perstep bits = 0).
Proof.
  unfold byte_rows, perstep. intros [-> | [-> | [-> | ->]]] Hw; cbn [Z.eqb Pos.eqb].
  - rewrite Z.mul_1_r. split; [intros H; apply H; lia|auto].
  - split; intros H; [specialize (H ltac:(lia))|intros _]; Z.to_euclidean_division_equations; lia.
  - split; [intros _; apply Z.mod_1_r|intros _ K; lia].
  - split; [intros _; apply Z.mod_1_r|intros _ K; lia].
Qed.
Lemma NoDup_map_inv' {A B} (f : A -> B) l : NoDup (map f l) -> NoDup l.
Proof. apply NoDup_map_inv. Qed.
Lemma rgball_fst b w h bits : map fst (rgball b w h bits) = flat_map (fun y => map (fun x => (x, y)) (range 0 w)) (rev (range 0 h)).
Proof.
  unfold rgball. induction (rev (range 0 h)) as [|y l IH]; cbn [flat_map map]; auto. rewrite map_app, IH. f_equal.
  unfold rgbrow. now rewrite map_map.
Qed.
Lemma rgball_nodup b w h bits : NoDup (map fst (rgball b w h bits)).
Proof.
  rewrite rgball_fst. apply NoDup_flat_map.
  - apply NoDup_rev, NoDup_range.
  - intros y. apply FinFun.Injective_map_NoDup; [intros i j H; congruence|apply NoDup_range].
  - intros y y' z H1 H2. apply in_map_iff in H1, H2. destruct H1 as (? & <- & _), H2 as (? & E2 & _). congruence.
Qed.
Lemma rgball_len b w h bits : 0 <= w -> 0 <= h -> zlen (rgball b w h bits) = w * h.
Proof.
  intros Hw Hh. unfold rgball.
  assert (E : forall l, zlen (flat_map (fun y => rgbrow b w h bits y 0 w) l) = w * zlen l).
  { induction l as [|y l IH]; cbn [flat_map]; [unfold zlen; cbn; lia|].
    rewrite zlen_app, IH. unfold rgbrow. rewrite zlen_map, zlen_range, zlen_cons. lia. }
  rewrite E, zlen_rev, zlen_range. lia.
Qed.
