(** Palettes chosen from a histogram, and the reduction of 24-bit images (proofs). *)
From Coq Require Import ZArith List Bool Lia Sorted.
From Verif Require Import PyBase PyFacts Spec SpecEdges Bmp BmpFacts PixelProofs PlotList Buffers Region Raster HeaderProofs PalProofs IterProofs
  Geometry Draw DrawProofs3 ShapeProofs Shapes Files Wrappers Fractal FractProofs FractProofs2 FractProofs3 Edges EdgeProofs EdgeProofs2 PropDraw PropRegion.
Import ListNotations.
Open Scope Z_scope.
Open Scope py_scope.

Lemma nth_error_app_some {A} (l l' : list A) k a : nth_error l k = Some a -> nth_error (l ++ l') k = Some a.
Proof. intros H. rewrite nth_error_app1; auto. apply nth_error_Some. congruence. Qed.

(** what the loop does, with the entries chosen so far *)
Lemma newpal_spec near colors : forall hist acc,
  let R := newpal_loop near colors hist acc in
  exists ext, R = acc ++ ext /\
    (zlen acc < colors -> zlen R <= colors) /\
    ((forall i j p q, (i < j)%nat -> nth_error acc i = Some p -> nth_error acc j = Some q -> near (rgb_dist2 p q) = false) ->
      forall i j p q, (i < j)%nat -> nth_error R i = Some p -> nth_error R j = Some q -> near (rgb_dist2 p q) = false) /\
    (forall k p, (length acc <= k)%nat -> nth_error R k = Some p ->
       exists l1 n c l2, hist = l1 ++ (n, c) :: l2 /\ p = rgb_of c /\
         forall n' c', In (n', c') l1 -> exists j q, (j < k)%nat /\ nth_error R j = Some q /\ covered near q (rgb_of c')) /\
    (zlen R <> colors -> forall n c, In (n, c) hist -> exists q, In q R /\ covered near q (rgb_of c)).
Proof.
  induction hist as [|[n c] t IH]; intros acc; cbv zeta; cbn [newpal_loop].
  { exists []. rewrite app_nil_r. split; [reflexivity|]. split; [lia|]. split; [auto|]. split.
    - intros k p Hk H. exfalso. apply nth_error_None in Hk. congruence.
    - intros _ ? ? []. }
  rewrite int2RGB_of. set (nw := if existsb _ acc then acc else acc ++ [rgb_of c]).
  assert (Hn : (nw = acc /\ exists q, In q acc /\ near (rgb_dist2 q (rgb_of c)) = true) \/
               (nw = acc ++ [rgb_of c] /\ forall q, In q acc -> near (rgb_dist2 q (rgb_of c)) = false)).
  { unfold nw. destruct (existsb (fun p => near (dist2 p (rgb_of c))) acc) eqn:E.
    - left. split; auto. apply existsb_exists in E. destruct E as (q & Hq & E). rewrite dist2_rgb in E. eauto.
    - right. split; auto. intros q Hq. rewrite <- dist2_rgb. destruct (near (dist2 q (rgb_of c))) eqn:F; auto.
      exfalso. assert (existsb (fun p => near (dist2 p (rgb_of c))) acc = true) by (apply existsb_exists; eauto). congruence. }
  clearbody nw.
  (* the entry that covers the colour just seen *)
  assert (Hc : exists j q, (j < length nw)%nat /\ nth_error nw j = Some q /\ covered near q (rgb_of c)).
  { destruct Hn as [[-> (q & Hq & F)]|[-> F]].
    - destruct (In_nth_error _ _ Hq) as [j Hj]. exists j, q. split; [apply nth_error_Some; congruence|]. split; auto. now left.
    - exists (length acc), (rgb_of c). rewrite app_length. cbn [length]. split; [lia|]. rewrite nth_error_app2, Nat.sub_diag by lia. split; [reflexivity|now right]. }
  assert (Hp : (forall i j p q, (i < j)%nat -> nth_error acc i = Some p -> nth_error acc j = Some q -> near (rgb_dist2 p q) = false) ->
      forall i j p q, (i < j)%nat -> nth_error nw i = Some p -> nth_error nw j = Some q -> near (rgb_dist2 p q) = false).
  { intros Ha. destruct Hn as [[-> _]|[-> F]]; [exact Ha|]. intros i j p q Hij Hi Hj.
    assert (Lj : (j < length (acc ++ [rgb_of c]))%nat) by (apply nth_error_Some; congruence). rewrite app_length in Lj. cbn [length] in Lj.
    rewrite nth_error_app1 in Hi by lia. destruct (Nat.eq_dec j (length acc)) as [->|Nj].
    - rewrite nth_error_app2, Nat.sub_diag in Hj by lia. injection Hj as <-. apply F. eapply nth_error_In; eauto.
    - rewrite nth_error_app1 in Hj by lia. apply (Ha i j); auto. }
  assert (Hl : zlen nw <= zlen acc + 1).
  { destruct Hn as [[-> _]|[-> _]]; rewrite ?zlen_app; unfold zlen; cbn [length]; lia. }
  assert (Ha : exists e, nw = acc ++ e). { destruct Hn as [[-> _]|[-> _]]; [exists []; now rewrite app_nil_r|eauto]. }
  destruct Ha as [e0 Ee].
  (* a position below length nw and at least length acc holds the colour just seen *)
  assert (Hk : forall k p, (length acc <= k)%nat -> (k < length nw)%nat -> nth_error nw k = Some p -> p = rgb_of c).
  { intros k p K1 K2 K3. destruct Hn as [[-> _]|[-> _]]; [lia|]. rewrite app_length in K2. cbn [length] in K2.
    replace k with (length acc) in K3 by lia. rewrite nth_error_app2, Nat.sub_diag in K3 by lia. now injection K3. }
  destruct (Z.eqb_spec (zlen nw) colors) as [E|N].
  - exists e0. split; [exact Ee|]. split; [lia|]. split; [exact Hp|]. split.
    + intros k p K1 K2. exists [], n, c, t. split; [reflexivity|]. split; [|intros ? ? []].
      apply (Hk k); auto. apply nth_error_Some. congruence.
    + intros K. contradiction.
  - destruct (IH nw) as (ext & E1 & E2 & E3 & E4 & E5). exists (e0 ++ ext). split; [rewrite E1, Ee; now rewrite app_assoc|].
    split; [intros L; apply E2; lia|]. split; [intros K; apply E3, Hp, K|]. split.
    + intros k p K1 K2. destruct (Nat.lt_ge_cases k (length nw)) as [L|L].
      * exists [], n, c, t. split; [reflexivity|]. split; [|intros ? ? []]. apply (Hk k); auto. rewrite E1 in K2. now rewrite nth_error_app1 in K2.
      * destruct (E4 k p L K2) as (l1 & n1 & c1 & l2 & F1 & F2 & F3). exists ((n, c) :: l1), n1, c1, l2. split; [now rewrite F1|]. split; [exact F2|].
        intros n' c' [K|K].
        -- injection K as <- <-. destruct Hc as (j & q & H1 & H2 & H3). exists j, q. split; [lia|]. split; [|exact H3]. rewrite E1. now apply nth_error_app_some.
        -- now apply (F3 n').
    + intros K n' c' [Q|Q].
      * injection Q as <- <-. destruct Hc as (j & q & H1 & H2 & H3). exists q. split; [|exact H3]. rewrite E1. apply in_or_app. left. eapply nth_error_In; eauto.
      * now apply (E5 K n').
Qed.

Lemma sorted_split {A} (R : A -> A -> Prop) l1 a l2 : StronglySorted R (l1 ++ a :: l2) -> forall x, In x l2 -> R a x.
Proof.
  induction l1 as [|y l1 IH]; cbn [app]; intros H; inversion H; subst; auto. now apply Forall_forall.
Qed.
Lemma freq_pal near b w h hist n : wf b w h 24 -> colorhistogram b = Ok hist -> 1 < n ->
  frequent_pal near b w h n (makenewpalfromcolorhist near hist n).
Proof.
  intros W E Hn. destruct (C14_colorhistogram b w h 24 W) as (hist' & E' & Nd & H & S & _). rewrite E in E'. injection E' as <-.
  unfold makenewpalfromcolorhist. destruct (newpal_spec near n hist [(0, 0, 0)]) as (ext & E1 & E2 & E3 & E4 & E5). cbv zeta in *.
  set (R := newpal_loop near n hist [(0, 0, 0)]) in *. unfold frequent_pal.
  split; [rewrite E1; reflexivity|]. split; [apply E2; unfold zlen; cbn; lia|]. split.
  { apply E3. intros [|i] [|j] p q Hij Hi Hj; try lia; destruct j; discriminate. }
  split.
  - intros k p Hk Hp. destruct (E4 k p ltac:(cbn; lia) Hp) as (l1 & m & c & l2 & F1 & F2 & F3). exists c. split; [exact F2|].
    assert (Hc : In (m, c) hist) by (rewrite F1; apply in_or_app; right; now left). apply H in Hc. destruct Hc as [Em Pm].
    split; [lia|]. intros c' L.
    assert (Hc' : In (pixels_of_color b w h 24 c', c') hist) by (apply H; split; [reflexivity|lia]).
    rewrite F1 in Hc'. apply in_app_or in Hc'. destruct Hc' as [Hc'|[Hc'|Hc']].
    + exact (F3 _ c' Hc').
    + injection Hc' as A B. lia.
    + rewrite F1 in S. pose proof (sorted_split _ _ _ _ S _ Hc') as K. cbn [fst] in K. lia.
  - intros L c Hc. apply (E5 ltac:(lia) (pixels_of_color b w h 24 c) c). apply H. auto.
Qed.

Lemma match_tuple c pal : rgb_ok c -> Forall rgb_ok pal -> nearest_nonblack pal c (matchRGBtopal false c pal).
Proof.
  intros Hc Hp. unfold matchRGBtopal. destruct (pal_nearest_spec false c pal eq_refl 0 0 (442 * 442)) as [[E K]|(k & p & A1 & A2 & A3 & A4 & A5 & _)].
  - right. split; [exact E|]. intros q Hq. destruct (rgb_eqb q (0, 0, 0)) eqn:F; [now apply rgb_eqb_eq|]. exfalso. apply rgb_eqb_neq in F.
    pose proof (K q Hq F). rewrite Forall_forall in Hp. pose proof (dist2_small c q Hc (Hp q Hq)). lia.
  - left. exists p. rewrite A2. split; [lia|]. replace (Z.to_nat (0 + Z.of_nat k)) with k by lia.
    split; [exact A1|]. split; [auto|]. intros q Hq Nq. rewrite <- !dist2_rgb. auto.
Qed.

Lemma has_pixel b w h bits c : wf b w h bits -> 0 < pixels_of_color b w h bits c -> 0 <= c < 2 ^ bits.
Proof.
  intros W H. unfold pixels_of_color in H.
  destruct (filter (fun p => pixel b w h bits (fst p) (snd p) =? c) (list_prod (range 0 w) (range 0 h))) as [|p l] eqn:E; [cbn in H; lia|].
  assert (In p (filter (fun p => pixel b w h bits (fst p) (snd p) =? c) (list_prod (range 0 w) (range 0 h)))) as K by (rewrite E; now left).
  apply filter_In in K. destruct K as [_ K]. apply Z.eqb_eq in K. rewrite <- K. now apply pixel_range.
Qed.
Lemma freq_ok near b w h n pal : wf b w h 24 -> frequent_pal near b w h n pal -> Forall rgb_ok pal.
Proof.
  intros W (H0 & _ & _ & H1 & _). apply Forall_forall. intros p Hp. destruct (In_nth_error _ _ Hp) as [[|k] Hk].
  - rewrite H0 in Hk. injection Hk as <-. repeat split; cbn; lia.
  - destruct (H1 (S k) p ltac:(lia) Hk) as (c & -> & Hc & _). apply rgb_of_ok. now apply (has_pixel b w h 24).
Qed.
Lemma setnew_run near sb w h nb w' h' bits o : wf sb w h 24 -> wf nb w' h' bits -> bits = 4 \/ bits = 8 ->
  exists pal nb', setnewpalfromsourcebmp near sb (mkst nb o) = (Ok pal, mkst nb' o) /\ frequent_pal near sb w h (2 ^ bits) pal /\
    wf nb' w' h' bits /\ (zlen pal = 2 ^ bits -> getallRGBpal nb' = Ok pal) /\ (zlen pal <> 2 ^ bits -> nb' = nb) /\
    (forall i, i < 54 \/ data_off bits <= i \/ (i - 54) mod 4 = 3 -> getz nb' i = getz nb i) /\
    (forall x y, inside w' h' x y -> pixel nb' w' h' bits x y = pixel nb w' h' bits x y).
Proof.
  intros Ws Wn Hb. destruct (C14_colorhistogram sb w h 24 Ws) as (hist & E & _).
  assert (Hn : 1 < 2 ^ bits) by (destruct Hb as [-> | ->]; reflexivity). assert (N : bits <> 24) by lia.
  pose proof (freq_pal near sb w h hist (2 ^ bits) Ws E Hn) as F. set (pal := makenewpalfromcolorhist near hist (2 ^ bits)) in *.
  assert (K : exists nb', setbmppal pal (mkst nb o) = (Ok tt, mkst nb' o) /\ wf nb' w' h' bits /\
     (zlen pal = 2 ^ bits -> getallRGBpal nb' = Ok pal) /\ (zlen pal <> 2 ^ bits -> nb' = nb) /\
     (forall i, i < 54 \/ data_off bits <= i \/ (i - 54) mod 4 = 3 -> getz nb' i = getz nb i) /\
     (forall x y, inside w' h' x y -> pixel nb' w' h' bits x y = pixel nb w' h' bits x y)).
  { destruct (Z.eq_dec (zlen pal) (2 ^ bits)) as [L|L].
    - destruct (setbmppal_ok nb w' h' bits o pal Wn N L) as (nb' & E1 & E2 & E3 & E4 & E5 & _).
      { pose proof (freq_ok near sb w h _ pal Ws F) as B. rewrite Forall_forall in *. intros [[p1 p2] p3] Hp. destruct (B _ Hp) as (B1 & B2 & B3). repeat split; assumption || apply B1 || apply B2 || apply B3. }
      exists nb'. split; [exact E1|]. split; [exact E2|]. split; [auto|]. split; [intros X; contradiction|]. split; auto.
    - exists nb. split; [eapply setbmppal_wronglen; eauto|]. split; [exact Wn|]. split; [intros X; contradiction|]. auto. }
  destruct K as (nb' & E1 & E2). exists pal, nb'. split.
  - unfold setnewpalfromsourcebmp. rewrite (bind_ok _ _ _ _ _ (run_lift _ _ _ _ E)).
    rewrite (bind_ok _ _ _ _ _ (run_rd _ _ _ _ (wf_rcolors _ _ _ _ Wn))). fold pal. cbv zeta.
    rewrite (bind_ok _ _ _ _ _ E1). reflexivity.
  - split; [exact F|exact E2].
Qed.

(** painting a value computed from each pixel of the scan *)
Lemma paint_scan sb w h nb bits o (k : Z -> Z -> Z * Z * Z -> Z) : wf sb w h 24 -> wf nb w h bits -> bits <> 24 ->
  exists nb', forM (rgball sb w h 24) (fun i => let '(x, y, c) := i in intplotvecxypoint (x, y) (k x y c)) (mkst nb o) = (Ok tt, mkst nb' o) /\
    repainted nb nb' w h bits (fun x y => reduce bits (k x y (shown sb w h 24 x y))).
Proof.
  intros Ws Wn N. set (g := fun i : Z * Z * (Z * Z * Z) => let '(x, y, c) := i in (x, y, k x y c)).
  destruct (plots_nodup (map g (rgball sb w h 24)) nb w h bits o Wn) as (nb' & E & W' & S & P & _).
  - intros x y c _ K. contradiction.
  - rewrite map_map. rewrite (map_ext _ fst); [apply rgball_nodup|]. intros [[x y] c]. reflexivity.
  - exists nb'. split.
    + rewrite <- E. rewrite forM_map. apply forM_ext. intros [[x y] c]. reflexivity.
    + split; [exact W'|]. split; [exact S|]. intros x y I. apply P; auto. apply in_map_iff. exists (x, y, shown sb w h 24 x y).
      split; [reflexivity|]. now apply rgball_in.
Qed.
