(** Filled rectangles and circles (proofs). *)
From Coq Require Import ZArith List Bool Lia.
From Verif Require Import PyBase PyFacts Spec Bmp BmpFacts PixelProofs PlotList HeaderProofs Buffers Region Raster VertProofs HorizProofs IterProofs RectProofs RectProofs2 Geometry GeomProofs Draw DrawProofs DrawProofs2.
Import ListNotations.
Open Scope Z_scope.
Open Scope py_scope.
Ltac Zify.zify_post_hook ::= Z.to_euclidean_division_equations.

(** ** matchRGBtopal *)
Lemma rgb_eqb_eq u v : rgb_eqb u v = true <-> u = v.
Proof.
  destruct u as ((a, b), c), v as ((a', b'), c'). unfold rgb_eqb. rewrite !andb_true_iff, !Z.eqb_eq.
  split; [intros [[-> ->] ->]; auto|intros K; inversion K; auto].
Qed.
Lemma rgb_eqb_neq u v : rgb_eqb u v = false <-> u <> v.
Proof. rewrite <- not_true_iff_false, rgb_eqb_eq. reflexivity. Qed.

Lemma pal_index_spec rgb pal : forall i,
  match pal_index rgb pal i with
  | Some k => exists n, k = i + Z.of_nat n /\ nth_error pal n = Some rgb /\
      forall m, (m < n)%nat -> nth_error pal m <> Some rgb
  | None => ~ In rgb pal
  end.
Proof.
  induction pal as [|p t IH]; intros i; cbn [pal_index]; [cbn; tauto|].
  destruct (rgb_eqb p rgb) eqn:E.
  - apply rgb_eqb_eq in E. subst. exists O. split; [lia|]. split; auto. intros; lia.
  - apply rgb_eqb_neq in E. specialize (IH (i + 1)). destruct (pal_index rgb t (i + 1)) as [k|].
    + destruct IH as (n & -> & E1 & E2). exists (S n). split; [lia|]. split; auto.
      intros [|m] Hm; cbn [nth_error]; [congruence|]. apply E2. lia.
    + cbn [In]. intros [K|K]; auto.
Qed.

Lemma pal_nearest_spec islist rgb pal : (islist && rgb_eqb rgb (0, 0, 0)) = false ->
  forall i c d,
  (pal_nearest islist rgb pal i c d = c /\ forall p, In p pal -> p <> (0, 0, 0) -> d <= dist2 rgb p) \/
  (exists k p, nth_error pal k = Some p /\ pal_nearest islist rgb pal i c d = i + Z.of_nat k /\
     p <> (0, 0, 0) /\ dist2 rgb p < d /\
     (forall q, In q pal -> q <> (0, 0, 0) -> dist2 rgb p <= dist2 rgb q) /\
     (forall j q, (j < k)%nat -> nth_error pal j = Some q -> q <> (0, 0, 0) -> dist2 rgb p < dist2 rgb q)).
Proof.
  intros Hb. induction pal as [|p t IH]; intros i c d; cbn [pal_nearest].
  - left. split; auto. intros p [].
  - rewrite Hb. cbn [negb]. rewrite andb_true_r.
    assert (Skip : forall c' d', (c', d') = (c, d) -> (p = (0, 0, 0) \/ d <= dist2 rgb p) ->
      (pal_nearest islist rgb t (i + 1) c' d' = c /\ (forall q, In q (p :: t) -> q <> (0, 0, 0) -> d <= dist2 rgb q)) \/
      (exists k p', nth_error (p :: t) k = Some p' /\ pal_nearest islist rgb t (i + 1) c' d' = i + Z.of_nat k /\
         p' <> (0, 0, 0) /\ dist2 rgb p' < d /\
         (forall q, In q (p :: t) -> q <> (0, 0, 0) -> dist2 rgb p' <= dist2 rgb q) /\
         (forall j q, (j < k)%nat -> nth_error (p :: t) j = Some q -> q <> (0, 0, 0) -> dist2 rgb p' < dist2 rgb q))).
    { intros c' d' E Hp. inversion E; subst c' d'. destruct (IH (i + 1) c d) as [[E1 E2]|(k & q & A1 & A2 & A3 & A4 & A5 & A6)].
      - left. split; [exact E1|]. intros q [<-|Hq] Nq; [destruct Hp; [contradiction|auto]|auto].
      - right. exists (S k), q. split; [exact A1|]. split; [rewrite A2; lia|]. split; [exact A3|]. split; [exact A4|].
        split.
        + intros q' [<-|Hq'] Nq; [destruct Hp; [contradiction|lia]|auto].
        + intros [|j] q' Hj Eq Nq; cbn [nth_error] in Eq.
          * inversion Eq; subst q'. destruct Hp; [contradiction|lia].
          * apply (A6 j); auto. lia. }
    destruct (rgb_eqb p (0, 0, 0)) eqn:Ep; cbn [negb].
    + apply rgb_eqb_eq in Ep. apply Skip; auto.
    + apply rgb_eqb_neq in Ep. destruct (Z.ltb_spec (dist2 rgb p) d) as [L|L]; [|apply Skip; auto].
      right. destruct (IH (i + 1) i (dist2 rgb p)) as [[E1 E2]|(k & q & A1 & A2 & A3 & A4 & A5 & A6)].
      * exists O, p. split; [reflexivity|]. split; [rewrite E1; lia|]. split; [exact Ep|]. split; [exact L|].
        split; [intros q [<-|Hq] Nq; [lia|auto]|intros; lia].
      * exists (S k), q. split; [exact A1|]. split; [rewrite A2; lia|]. split; [exact A3|]. split; [lia|].
        split.
        -- intros q' [<-|Hq'] Nq; [lia|auto].
        -- intros [|j] q' Hj Eq Nq; cbn [nth_error] in Eq; [inversion Eq; subst q'; lia|]. apply (A6 j); auto. lia.
Qed.

Lemma pal_nearest_black pal : forall i c d, pal_nearest true (0, 0, 0) pal i c d = c.
Proof.
  induction pal as [|p t IH]; intros; cbn [pal_nearest]; auto.
  change (rgb_eqb (0, 0, 0) (0, 0, 0)) with true. cbn [andb negb]. rewrite andb_false_r. apply IH.
Qed.

Definition rgb_ok (u : Z * Z * Z) : Prop := byte (fst (fst u)) /\ byte (snd (fst u)) /\ byte (snd u).
Lemma dist2_small u v : rgb_ok u -> rgb_ok v -> dist2 u v < 442 * 442.
Proof.
  destruct u as ((a, b), c), v as ((a', b'), c'). unfold rgb_ok, byte, dist2; cbn [fst snd]. intros.
  assert (K : forall p q, 0 <= p <= 255 -> 0 <= q <= 255 -> (p - q) * (p - q) <= 255 * 255) by (clear; intros; nia).
  pose proof (K a a' ltac:(lia) ltac:(lia)). pose proof (K b b' ltac:(lia) ltac:(lia)).
  pose proof (K c c' ltac:(lia) ltac:(lia)). lia.
Qed.

(** ** filledrect *)
Section Rect.
  Variables (b : list Z) (w h bits x1 y1 x2 y2 c : Z).
  Hypothesis W : wf b w h bits.
  Hypothesis H1 : inside w h x1 y1.
  Hypothesis H2 : inside w h x2 y2.

  (** the loop over rows of one colour *)
  Lemma rows_fill xa xb ya yb v buf fuel o : bits = 8 \/ bits = 24 ->
    0 <= xa <= xb -> xb < w -> 0 <= ya <= yb -> yb < h -> yb - ya + 1 <= Z.of_nat fuel ->
    bytes buf -> zlen buf = (xb - xa + 1) * pbytes bits ->
    (forall i, 0 <= i < xb - xa + 1 -> rowpix bits (getz buf) i = v) ->
    exists b' x', whileM fuel (fun offset => (offset <=? baddr w h bits xb ya) && (offset + zlen buf <=? zlen b))
      (fun offset => slice_set offset (offset + zlen buf) buf ;;; ret (offset + stride w bits))
      (baddr w h bits xa yb) (mkst b o) = (Ok x', mkst b' o) /\
      repainted b b' w h bits (fun x y => if in_box xa ya xb yb x y then v else pixel b w h bits x y).
  Proof.
    intros Hb Hx Hxw Hy Hyh Hf Bb Lb Hv.
    assert (Hp : 0 < pbytes bits) by (destruct Hb as [-> | ->]; reflexivity).
    pose proof (stride_nonneg w bits ltac:(lia) (wf_depth _ _ _ _ W)) as HS0.
    assert (HS : w * pbytes bits <= stride w bits).
    { destruct (row_fit w bits (w - 1) (wf_depth _ _ _ _ W) ltac:(lia)) as [_ R].
      destruct Hb as [-> | ->]; [change (pbytes 8) with 1 in *|change (pbytes 24) with 3 in *]; lia. }
    assert (Hk : forall x, x * bits / 8 = x * pbytes bits).
    { intros x. destruct Hb as [-> | ->]; [change (pbytes 8) with 1|change (pbytes 24) with 3]; lia. }
    assert (Ha : forall x y, baddr w h bits x y = data_off bits + (h - 1 - y) * stride w bits + x * pbytes bits).
    { intros. unfold baddr. now rewrite Hk. }
    destruct (whileM_inv (fun i x s => x = baddr w h bits xa (yb - i) /\ exists b', s = mkst b' o /\
       repainted b b' w h bits (fun x' y' => if ((xa <=? x') && (x' <=? xb)) && ((yb - i <? y') && (y' <=? yb))
         then v else pixel b w h bits x' y'))
      (fun offset => (offset <=? baddr w h bits xb ya) && (offset + zlen buf <=? zlen b))
      (fun offset => slice_set offset (offset + zlen buf) buf ;;; ret (offset + stride w bits))
      (yb - ya + 1) fuel (baddr w h bits xa yb) (mkst b o)) as (x' & s' & E & Ex & b' & -> & R).
    - lia.
    - lia.
    - split; [f_equal; lia|]. exists b. split; [reflexivity|].
      eapply repainted_ext; [|apply repainted_refl; auto]. intros x' y' _. cbn beta.
      replace ((yb - 0 <? y') && (y' <=? yb)) with false by (bcases; auto; lia). now rewrite andb_false_r.
    - intros i x s Hi (-> & b1 & -> & R).
      split.
      + apply andb_true_iff. rewrite !Z.leb_le. split.
        * rewrite !Ha. assert (K1 : 0 <= (yb - i - ya) * stride w bits) by (apply Z.mul_nonneg_nonneg; lia).
          assert (K2 : xa * pbytes bits <= xb * pbytes bits) by (apply Z.mul_le_mono_nonneg_r; lia).
          clear - K1 K2. lia.
        * rewrite (wf_len _ _ _ _ W), Ha, Lb.
          assert (K1 : 0 <= (yb - i) * stride w bits) by (apply Z.mul_nonneg_nonneg; lia).
          assert (K2 : (xb + 1) * pbytes bits <= w * pbytes bits) by (apply Z.mul_le_mono_nonneg_r; lia).
          clear - K1 K2 HS. lia.
      + do 2 eexists. split.
        * rewrite (bind_ok _ _ _ _ _ (run_slice_set _ _ _ _ _)). reflexivity.
        * split; [rewrite !Ha; ring|]. eexists. split; [reflexivity|].
          pose proof (span_run b1 w h bits xa xb (yb - i) v buf (repainted_wf _ _ _ _ _ _ R) Hb
            ltac:(lia) ltac:(lia) ltac:(lia) Hxw Bb Lb Hv) as R1.
          eapply repainted_ext; [|eapply repainted_trans; [exact R|exact R1]].
          intros x' y' Hin. cbn beta. rewrite (proj2 (proj2 R)) by auto. unfold in_span.
          destruct (Z.eqb_spec y' (yb - i)).
          -- replace (yb - (i + 1) <? y') with true by lia. replace (y' <=? yb) with true by lia.
             replace (yb - i <? y') with false by lia. cbn [andb]. rewrite ?andb_false_r, ?andb_true_r. reflexivity.
          -- replace (yb - (i + 1) <? y') with (yb - i <? y') by (bcases; auto; lia). reflexivity.
    - intros x s (-> & _). apply andb_false_iff. left. apply Z.leb_gt. rewrite !Ha.
      replace (h - 1 - (yb - (yb - ya + 1))) with (h - 1 - ya + 1) by ring.
      assert (K1 : (xb + 1) * pbytes bits <= w * pbytes bits) by (apply Z.mul_le_mono_nonneg_r; lia).
      assert (K2 : 0 <= xa * pbytes bits) by (apply Z.mul_nonneg_nonneg; lia).
      clear - K1 K2 HS Hp. lia.
    - exists b', x'. split; [exact E|]. eapply repainted_ext; [|exact R]. intros x0 y0 Hin. cbn beta.
      replace (in_box xa ya xb yb x0 y0) with
        (((xa <=? x0) && (x0 <=? xb)) && ((yb - (yb - ya + 1) <? y0) && (y0 <=? yb))); auto.
      unfold in_box.
      apply eq_true_iff_eq. rewrite !andb_true_iff, !Z.leb_le, Z.ltb_lt. lia.
  Qed.

  Lemma rect_start o : filledrect x1 y1 x2 y2 c (mkst b o) =
    withSome (filledrect_body (Z.to_nat (h + 1)) x1 y1 x2 y2 c) (mkst b o).
  Proof.
    unfold filledrect. rewrite (bind_ok _ _ _ _ _ (run_rd _ _ _ _ (wf_ry _ _ _ _ W))).
    unfold filledrect_fuel. now rewrite (guard_true _ _ _ _ _ _ _ _ _ _ W H1 H2).
  Qed.

  Lemma in_box_sort x y : in_box (lo x1 x2) (lo y1 y2) (hi x1 x2) (hi y1 y2) x y = in_box x1 y1 x2 y2 x y.
  Proof. unfold in_box, lo, hi. apply eq_true_iff_eq. rewrite !andb_true_iff, !Z.leb_le. lia. Qed.

  (** the body for 8 and 24 bit once its buffer is known *)
  Lemma rect_bytes v buf o : bits = 8 \/ bits = 24 ->
    (if bits =? 24 then lift (py_array (rep_list [Z.land c 255; Z.land (Z.shiftr c 8) 255; Z.shiftr c 16] (hi x1 x2 - lo x1 x2 + 1)))
     else pal <- rd getallRGBpal ;;
       lift (py_array (repz (matchRGBtopal false (int2RGB c) pal) (hi x1 x2 - lo x1 x2 + 1)))) (mkst b o) = (Ok buf, mkst b o) ->
    bytes buf -> zlen buf = (hi x1 x2 - lo x1 x2 + 1) * pbytes bits ->
    (forall i, 0 <= i < hi x1 x2 - lo x1 x2 + 1 -> rowpix bits (getz buf) i = v) ->
    exists b', filledrect x1 y1 x2 y2 c (mkst b o) = (Ok (Some tt), mkst b' o) /\
      repainted b b' w h bits (fun x y => if in_box x1 y1 x2 y2 x y then v else pixel b w h bits x y).
  Proof.
    intros Hb Eb Bb Lb Hv. rewrite rect_start. unfold withSome, filledrect_body.
    rewrite sortrec.
    destruct (rows_fill (lo x1 x2) (hi x1 x2) (lo y1 y2) (hi y1 y2) v buf (Z.to_nat (h + 1)) o Hb) as (b' & x' & E & R);
      auto; try (unfold inside, lo, hi in *; lia).
    exists b'. split.
    2: { eapply repainted_ext; [|exact R]. intros x y _. cbn beta. now rewrite in_box_sort. }
    erewrite bind_ok; [reflexivity|].
    rewrite (bind_ok _ _ _ _ _ (wf_geti_bits _ _ _ _ W _)).
    replace (negb ((bits =? 8) || (bits =? 24))) with false by (destruct Hb as [-> | ->]; reflexivity).
    rewrite (bind_ok _ _ _ _ _ (run_rd _ _ _ _ (wf_rxchr _ _ _ _ W))).
    cbv beta iota delta [int2RGB]. unfold int2RGB in Eb.
    rewrite (bind_ok _ _ _ _ _ Eb).
    rewrite (bind_ok _ _ _ _ _ (run_rd _ _ _ _ (wf_offsethd _ _ _ _ W _ _))).
    rewrite (bind_ok _ _ _ _ _ (run_rd _ _ _ _ (wf_offsethd _ _ _ _ W _ _))).
    rewrite (bind_ok _ _ _ _ _ (run_rd _ _ _ _ (wf_rflsz _ _ _ _ W))).
    rewrite (bind_ok _ _ _ _ _ E). reflexivity.
  Qed.

  Lemma rect24 o : bits = 24 -> 0 <= c < 2 ^ 24 ->
    exists b', filledrect x1 y1 x2 y2 c (mkst b o) = (Ok (Some tt), mkst b' o) /\
      repainted b b' w h bits (fun x y => if in_box x1 y1 x2 y2 x y then c else pixel b w h bits x y).
  Proof.
    intros E24 Hc.
    destruct (solid_spec bits c (hi x1 x2 - lo x1 x2 + 1)) as (S1 & S2 & S3);
      [auto|intros _; exact Hc|unfold lo, hi; lia|].
    apply (rect_bytes c (solid bits c (hi x1 x2 - lo x1 x2 + 1)) o); auto.
    - rewrite E24. cbn [Z.eqb Pos.eqb]. apply run_lift. rewrite E24 in S1. unfold solid in *. cbn [Z.eqb Pos.eqb] in *.
      now apply py_array_ok.
    - intros i Hi. rewrite S3 by auto. now rewrite E24.
  Qed.

  Lemma rect8 v o : bits = 8 ->
    v = matchRGBtopal false (int2RGB c) (map (pal_entry b) (range 0 256)) -> 0 <= v < 256 ->
    exists b', filledrect x1 y1 x2 y2 c (mkst b o) = (Ok (Some tt), mkst b' o) /\
      repainted b b' w h bits (fun x y => if in_box x1 y1 x2 y2 x y then v else pixel b w h bits x y).
  Proof.
    intros E8 Ev Hv.
    destruct (solid_spec bits v (hi x1 x2 - lo x1 x2 + 1)) as (S1 & S2 & S3);
      [auto|intros K; lia|unfold lo, hi; lia|].
    apply (rect_bytes v (solid bits v (hi x1 x2 - lo x1 x2 + 1)) o); auto.
    - pose proof (getallRGBpal_ok b w h bits W ltac:(lia)) as Ep.
      rewrite E8 in *. change (2 ^ 8) with 256 in Ep. cbn [Z.eqb Pos.eqb].
      rewrite (bind_ok _ _ _ _ _ (run_rd _ _ _ _ Ep)). rewrite <- Ev.
      apply run_lift. unfold solid in *. cbn [Z.eqb Pos.eqb] in *.
      rewrite (Z.mod_small v) in * by lia. now apply py_array_ok.
    - intros i Hi. rewrite S3 by auto. rewrite E8. unfold reduce. cbn [Z.eqb Pos.eqb]. apply Z.mod_small. lia.
  Qed.

  Lemma rect_rows (S : Z -> Z -> Z -> bool) v o : bits = 1 \/ bits = 4 ->
    (forall y b o, lo y1 y2 <= y <= hi y1 y2 -> wf b w h bits -> exists b',
       horiline y (lo x1 x2) (hi x1 x2) c (mkst b o) = (Ok tt, mkst b' o) /\
       repainted b b' w h bits (fun x' y' => if S y x' y' then v else pixel b w h bits x' y')) ->
    exists b', filledrect x1 y1 x2 y2 c (mkst b o) = (Ok (Some tt), mkst b' o) /\
      repainted b b' w h bits (fun x y =>
        if existsb (fun a => S a x y) (range (lo y1 y2) (hi y1 y2 + 1)) then v else pixel b w h bits x y).
  Proof.
    intros Hb Hrow. rewrite rect_start. unfold withSome, filledrect_body. rewrite sortrec.
    destruct (paint_forM (range (lo y1 y2) (hi y1 y2 + 1)) (fun y => horiline y (lo x1 x2) (hi x1 x2) c)
                S w h bits v true) with (b := b) (o := o) as (b' & o' & E & Q & R); auto.
    { intros y b1 o1 Hy W1. apply in_range in Hy. destruct (Hrow y b1 o1 ltac:(lia) W1) as (b2 & E & R).
      exists b2, o1. auto. }
    rewrite Q in E by auto. exists b'. split; [|exact R].
    erewrite bind_ok; [reflexivity|].
    rewrite (bind_ok _ _ _ _ _ (wf_geti_bits _ _ _ _ W _)).
    replace (negb ((bits =? 8) || (bits =? 24))) with true by (destruct Hb as [-> | ->]; reflexivity).
    exact E.
  Qed.

  Lemma rect1 o : bits = 1 ->
    exists b', filledrect x1 y1 x2 y2 c (mkst b o) = (Ok (Some tt), mkst b' o) /\
      repainted b b' w h bits (fun x y => if in_box x1 y1 x2 y2 x y then reduce bits c else pixel b w h bits x y).
  Proof.
    intros E1.
    destruct (rect_rows (fun y => in_box (lo x1 x2) y (hi x1 x2) y) (reduce bits c) o) as (b' & E & R); auto.
    { intros y b1 o1 Hy W1. apply hori_bit; auto; [intros K; lia|]. unfold inside, lo, hi in *. lia. }
    exists b'. split; [exact E|]. eapply repainted_ext; [|exact R]. intros x y _. cbn beta.
    replace (existsb _ _) with (in_box x1 y1 x2 y2 x y); auto.
    apply eq_true_iff_eq. rewrite existsb_exists. unfold in_box, lo, hi.
    rewrite !andb_true_iff, !Z.leb_le. split.
    - intros K. exists y. rewrite in_range, !andb_true_iff, !Z.leb_le. lia.
    - intros (a & Ha & K). rewrite in_range in Ha. rewrite !andb_true_iff, !Z.leb_le in K. lia.
  Qed.

  (** 4 bit: exact when the rectangle covers whole bytes *)
  Lemma rect4 o : bits = 4 -> Z.min x1 x2 mod 2 = 0 -> Z.max x1 x2 mod 2 = 1 ->
    exists b', filledrect x1 y1 x2 y2 c (mkst b o) = (Ok (Some tt), mkst b' o) /\
      repainted b b' w h bits (fun x y => if in_box x1 y1 x2 y2 x y then reduce bits c else pixel b w h bits x y).
  Proof.
    intros E4 M1 M2. pose proof W as W'. rewrite E4 in W'.
    destruct (rect_rows (fun y x' y' => (y' =? y) && ((lo x1 x2 <=? x') && (x' <=? hi x1 x2))) (reduce bits c) o) as (b' & E & R); auto.
    { intros y b1 o1 Hy W1. rewrite E4 in W1. destruct (hori4 b1 w h y (lo x1 x2) (hi x1 x2) c o1 W1) as (b2 & E & R);
        try (unfold inside, lo, hi in *; lia).
      exists b2. split; [exact E|]. rewrite E4. eapply repainted_ext; [|exact R]. intros x' y' _. cbn beta.
      replace (span4 _ _ x') with ((lo x1 x2 <=? x') && (x' <=? hi x1 x2)); [reflexivity|].
      replace (Z.max (Z.min (lo x1 x2) (hi x1 x2)) 0) with (lo x1 x2) by (unfold inside, lo, hi in *; lia).
      replace (Z.min (Z.max (lo x1 x2) (hi x1 x2)) (w - 1)) with (hi x1 x2) by (unfold inside, lo, hi in *; lia).
      unfold span4. unfold lo, hi. now rewrite M1, M2. }
    exists b'. split; [exact E|]. eapply repainted_ext; [|exact R]. intros x y _. cbn beta.
    replace (existsb _ _) with (in_box x1 y1 x2 y2 x y); auto.
    apply eq_true_iff_eq. rewrite existsb_exists. unfold in_box, lo, hi.
    rewrite !andb_true_iff, !Z.leb_le. split.
    - intros K. exists y. rewrite in_range, !andb_true_iff, !Z.leb_le, Z.eqb_eq. clear - K. lia.
    - intros (a & Ha & K). rewrite in_range in Ha. rewrite !andb_true_iff, !Z.leb_le, Z.eqb_eq in K. clear - Ha K. lia.
  Qed.
End Rect.
