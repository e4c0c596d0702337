(** Pixel-based flips: swapping pairs of pixels (proofs). *)
From Coq Require Import ZArith List Bool Lia.
From Verif Require Import PyBase PyFacts Spec Bmp BmpFacts PixelProofs PlotList HeaderProofs PalProofs Buffers Region Raster VertProofs HorizProofs IterProofs RectProofs2.
Import ListNotations.
Open Scope Z_scope.
Open Scope py_scope.
Ltac Zify.zify_post_hook ::= Z.to_euclidean_division_equations.

Lemma swapcolors_run b w h bits o x1 y1 x2 y2 : wf b w h bits -> inside w h x1 y1 -> inside w h x2 y2 ->
  exists b', swapcolors x1 y1 x2 y2 (mkst b o) = (Ok tt, mkst b' o) /\
    repainted b b' w h bits (fun x y =>
      if (x =? x2) && (y =? y2) then pixel b w h bits x1 y1
      else if (x =? x1) && (y =? y1) then pixel b w h bits x2 y2
      else pixel b w h bits x y).
Proof.
  intros W I1 I2. unfold swapcolors.
  rewrite (bind_ok _ _ _ _ _ (run_rd _ _ _ _ (getxybit_inside _ _ _ _ _ _ W I1))).
  rewrite (bind_ok _ _ _ _ _ (run_rd _ _ _ _ (getxybit_inside _ _ _ _ _ _ W I2))).
  pose proof (pixel_range b w h bits x1 y1 W) as P1. pose proof (pixel_range b w h bits x2 y2 W) as P2.
  destruct (plot_inside b w h bits o x1 y1 (pixel b w h bits x2 y2) W I1) as (b1 & E1 & R1).
  { intros E. rewrite E in P2 |- *. exact P2. }
  rewrite (bind_ok _ _ _ _ _ E1).
  destruct (plot_inside b1 w h bits o x2 y2 (pixel b w h bits x1 y1) (repainted_wf _ _ _ _ _ _ R1) I2) as (b2 & E2 & R2).
  { intros E. rewrite E in P1 |- *. exact P1. }
  exists b2. split; auto. eapply repainted_trans; [exact R1|]. eapply repainted_ext; [|exact R2].
  intros x y Hin. cbn beta. unfold put_px. rewrite !reduce_id by (auto; apply W).
  destruct ((x =? x2) && (y =? y2)); auto. rewrite (proj2 (proj2 R1)) by auto. unfold put_px.
  rewrite reduce_id by (auto; apply W). reflexivity.
Qed.

Section Swaps.
  Variables (w h bits : Z) (sig : Z * Z -> Z * Z).
  Hypothesis Sin : forall p, inside w h (fst p) (snd p) -> inside w h (fst (sig p)) (snd (sig p)).
  Hypothesis Sinv : forall p, sig (sig p) = p.

  Lemma swaps_run L : forall b o, wf b w h bits ->
    (forall p, In p L -> inside w h (fst p) (snd p)) -> NoDup L ->
    (forall p, In p L -> In (sig p) L -> sig p = p) ->
    exists b', forM L (fun p => swapcolors (fst p) (snd p) (fst (sig p)) (snd (sig p))) (mkst b o) = (Ok tt, mkst b' o) /\
      repainted b b' w h bits (fun x y =>
        if pt_in L x y || pt_in L (fst (sig (x, y))) (snd (sig (x, y)))
        then pixel b w h bits (fst (sig (x, y))) (snd (sig (x, y))) else pixel b w h bits x y).
  Proof.
    induction L as [|p L IH]; intros b o W HI ND HS.
    - exists b. split; [reflexivity|]. apply repainted_refl, W.
    - inversion ND as [|? ? Np ND']; subst.
      destruct (swapcolors_run b w h bits o (fst p) (snd p) (fst (sig p)) (snd (sig p)) W) as (b1 & E1 & R1).
      { apply HI. now left. } { apply Sin, HI. now left. }
      destruct (IH b1 o (repainted_wf _ _ _ _ _ _ R1)) as (b2 & E2 & R2); auto.
      { intros q Hq. apply HI. now right. }
      { intros q Hq Hs. apply HS; now right. }
      exists b2. rewrite forM_cons, (bind_ok _ _ _ _ _ E1). split; auto.
      eapply repainted_trans; [exact R1|]. eapply repainted_ext; [|exact R2].
      intros x y Hin. cbn beta.
      assert (Hin' := Sin (x, y) Hin). remember (sig (x, y)) as q eqn:Eq.
      assert (Eq' : sig q = (x, y)) by (subst q; apply Sinv).
      rewrite !(proj2 (proj2 R1)) by auto.
      assert (PI : forall l r, pt_in l (fst r) (snd r) = true <-> In r l).
      { intros l [r1 r2]. apply pt_in_iff. }
      assert (PE : forall r s : Z * Z, (fst r =? fst s) && (snd r =? snd s) = true <-> r = s).
      { intros [r1 r2] [s1 s2]. cbn [fst snd]. rewrite andb_true_iff, !Z.eqb_eq. split; [intros (-> & ->); auto|].
        intros H; inversion H; auto. }
      pose proof (PI L (x, y)) as A1. pose proof (PI L q) as A2.
      pose proof (PI (p :: L) (x, y)) as A3. pose proof (PI (p :: L) q) as A4.
      pose proof (PE (x, y) (sig p)) as B1. pose proof (PE (x, y) p) as B2.
      pose proof (PE q (sig p)) as B3. pose proof (PE q p) as B4.
      cbn [fst snd In] in *.
      assert (C1 : (x, y) = sig p <-> q = p).
      { rewrite Eq. split; [intros ->; apply Sinv|intros <-; symmetry; apply Sinv]. }
      assert (C2 : q = sig p <-> (x, y) = p).
      { rewrite Eq. split; [intros H; rewrite <- (Sinv (x, y)), H; apply Sinv|intros ->; auto]. }
      destruct (pt_in L x y || pt_in L (fst q) (snd q)) eqn:D.
      + replace (pt_in (p :: L) x y || pt_in (p :: L) (fst q) (snd q)) with true.
        2:{ symmetry. apply orb_true_iff in D. apply orb_true_iff. tauto. }
        destruct ((fst q =? fst (sig p)) && (snd q =? snd (sig p))) eqn:F.
        * (* (x,y) = p, so q = sig p is in L *)
          assert (X : (x, y) = p) by tauto. apply orb_true_iff in D.
          assert (Q : q = sig p) by tauto. rewrite <- X in Np.
          assert (HL : In q L) by tauto.
          assert (Z1 : sig p = p). { apply HS; [now left|right; rewrite <- Q; auto]. }
          rewrite <- Q, Z1, <- X in *. contradiction.
        * destruct ((fst q =? fst p) && (snd q =? snd p)) eqn:G; auto.
          assert (X : q = p) by tauto. apply orb_true_iff in D.
          assert (Q : (x, y) = sig p) by tauto. rewrite <- X in Np.
          assert (HL : In (x, y) L) by tauto.
          assert (Z1 : sig p = p). { apply HS; [now left|right; rewrite <- Q; auto]. }
          exfalso. rewrite Z1 in Q. rewrite Q, <- X in HL. contradiction.
      + apply orb_false_iff in D.
        destruct ((x =? fst (sig p)) && (y =? snd (sig p))) eqn:F.
        * assert (X : q = p) by tauto.
          replace (pt_in (p :: L) x y || pt_in (p :: L) (fst q) (snd q)) with true.
          2:{ symmetry. apply orb_true_iff. right. apply A4. left. auto. }
          rewrite X. reflexivity.
        * destruct ((x =? fst p) && (y =? snd p)) eqn:G.
          -- assert (X : (x, y) = p) by tauto.
             replace (pt_in (p :: L) x y || pt_in (p :: L) (fst q) (snd q)) with true.
             2:{ symmetry. apply orb_true_iff. left. apply A3. left. auto. }
             assert (Q : q = sig p) by tauto. rewrite Q. reflexivity.
          -- replace (pt_in (p :: L) x y || pt_in (p :: L) (fst q) (snd q)) with false; auto.
             symmetry. apply not_true_is_false. intros H. apply orb_true_iff in H.
             destruct D as (D1 & D2). destruct H as [H|H].
             ++ apply A3 in H. destruct H as [H|H].
                ** symmetry in H. apply B2 in H. congruence.
                ** apply A1 in H. congruence.
             ++ apply A4 in H. destruct H as [H|H].
                ** symmetry in H. apply C1, B1 in H. congruence.
                ** apply A2 in H. congruence.
  Qed.
End Swaps.

(** points of nested ranges *)
Definition grid (a b c d : Z) : list (Z * Z) := flat_map (fun x => map (fun y => (x, y)) (range c d)) (range a b).
Lemma grid_in a b c d p : In p (grid a b c d) <-> a <= fst p < b /\ c <= snd p < d.
Proof.
  unfold grid. rewrite in_flat_map. split.
  - intros (x & Hx & Hp). apply in_map_iff in Hp. destruct Hp as (y & <- & Hy). rewrite in_range in *. cbn; lia.
  - destruct p as [x y]. cbn [fst snd]. intros (Hx & Hy). exists x. rewrite in_range. split; auto.
    apply in_map_iff. exists y. rewrite in_range. auto.
Qed.
Lemma grid_nodup a b c d : NoDup (grid a b c d).
Proof.
  unfold grid. assert (N := NoDup_range a b). induction (range a b) as [|x l IH]; cbn [flat_map]; [constructor|].
  inversion N; subst. apply NoDup_app'.
  - apply FinFun.Injective_map_NoDup; [|apply NoDup_range]. intros u v H. now inversion H.
  - now apply IH.
  - intros p Hp Hq. apply in_map_iff in Hp. destruct Hp as (y & <- & _). apply in_flat_map in Hq.
    destruct Hq as (z & Hz & Hq). apply in_map_iff in Hq. destruct Hq as (u & E & _). inversion E; subst. contradiction.
Qed.

Definition gridv (a b c d : Z) : list (Z * Z) := flat_map (fun y => map (fun x => (x, y)) (range c d)) (range a b).
Lemma gridv_in a b c d p : In p (gridv a b c d) <-> c <= fst p < d /\ a <= snd p < b.
Proof.
  unfold gridv. rewrite in_flat_map. split.
  - intros (x & Hx & Hp). apply in_map_iff in Hp. destruct Hp as (y & <- & Hy). rewrite in_range in *. cbn; lia.
  - destruct p as [x y]. cbn [fst snd]. intros (Hx & Hy). exists y. rewrite in_range. split; auto.
    apply in_map_iff. exists x. rewrite in_range. auto.
Qed.
Lemma gridv_nodup a b c d : NoDup (gridv a b c d).
Proof.
  unfold gridv. assert (N := NoDup_range a b). induction (range a b) as [|x l IH]; cbn [flat_map]; [constructor|].
  inversion N; subst. apply NoDup_app'.
  - apply FinFun.Injective_map_NoDup; [|apply NoDup_range]. intros u v H. now inversion H.
  - now apply IH.
  - intros p Hp Hq. apply in_map_iff in Hp. destruct Hp as (y & <- & _). apply in_flat_map in Hq.
    destruct Hq as (z & Hz & Hq). apply in_map_iff in Hq. destruct Hq as (u & E & _). inversion E; subst. contradiction.
Qed.

Definition hsig (x1 x2 : Z) (p : Z * Z) : Z * Z := (x1 + x2 - fst p, snd p).
Definition vsig (y1 y2 : Z) (p : Z * Z) : Z * Z := (fst p, y1 + y2 - snd p).

Section Pix.
  Variables (b : list Z) (w h bits x1 y1 x2 y2 : Z).
  Hypothesis W : wf b w h bits.
  Hypothesis I1 : inside w h x1 y1.
  Hypothesis I2 : inside w h x2 y2.

  (** corners not in top-left, bottom-right order: nothing happens *)
  Lemma pixflip_none o : x2 < x1 \/ y2 < y1 ->
    fliphorzontalpixelbased x1 y1 x2 y2 (mkst b o) = (Ok (Some tt), mkst b o) /\
    fliphverticalalpixelbased x1 y1 x2 y2 (mkst b o) = (Ok (Some tt), mkst b o).
  Proof.
    assert (FN : forall {A} (l : list A) (f : A -> M unit) s, (forall a s, f a s = (Ok tt, s)) -> forM l f s = (Ok tt, s)).
    { intros A l f. induction l as [|a l IH]; intros s H; auto. rewrite forM_cons, (bind_ok _ _ _ _ _ (H a s)). auto. }
    intros H. unfold fliphorzontalpixelbased, fliphverticalalpixelbased.
    rewrite !(guard_true _ _ _ _ _ _ _ _ _ _ W I1 I2). unfold withSome. split.
    - rewrite (bind_ok _ _ _ tt (mkst b o)); [reflexivity|]. destruct H as [H|H].
      + rewrite range_nil; [reflexivity|]. rewrite shiftr1. lia.
      + apply FN. intros a s. rewrite range_nil by lia. reflexivity.
    - rewrite (bind_ok _ _ _ tt (mkst b o)); [reflexivity|]. destruct H as [H|H].
      + apply FN. intros a s. rewrite range_nil by lia. reflexivity.
      + rewrite range_nil; [reflexivity|]. rewrite shiftr1. lia.
  Qed.

  Hypothesis Hx : x1 <= x2.
  Hypothesis Hy : y1 <= y2.

  Lemma pixfliph_run o : exists b', fliphorzontalpixelbased x1 y1 x2 y2 (mkst b o) = (Ok (Some tt), mkst b' o) /\
    repainted b b' w h bits (fun x y => if in_rect x1 y1 x2 y2 x y then pixel b w h bits (x1 + x2 - x) y else pixel b w h bits x y).
  Proof.
    unfold fliphorzontalpixelbased. rewrite (guard_true _ _ _ _ _ _ _ _ _ _ W I1 I2). unfold withSome. rewrite shiftr1.
    unfold inside in I1, I2.
    pose (sg := fun p : Z * Z => if in_rect x1 y1 x2 y2 (fst p) (snd p) then hsig x1 x2 p else p).
    assert (IR : forall x y, in_rect x1 y1 x2 y2 x y = true <-> x1 <= x <= x2 /\ y1 <= y <= y2).
    { intros x y. unfold in_rect, lo, hi. rewrite !andb_true_iff, !Z.leb_le. lia. }
    assert (Sg : forall p, sg p = if in_rect x1 y1 x2 y2 (fst p) (snd p) then hsig x1 x2 p else p) by reflexivity.
    clearbody sg.
    assert (S2 : forall p, sg (sg p) = p).
    { intros [p q]. rewrite (Sg (p, q)). cbn [fst snd]. destruct (in_rect x1 y1 x2 y2 p q) eqn:D.
      - rewrite Sg. apply IR in D. replace (in_rect x1 y1 x2 y2 _ _) with true.
        + unfold hsig. cbn [fst snd]. f_equal; lia.
        + symmetry. apply IR. unfold hsig. cbn [fst snd]. lia.
      - rewrite Sg. cbn [fst snd]. rewrite D. reflexivity. }
    destruct (swaps_run w h bits sg) with (L := grid x1 (x1 + (x2 - x1) / 2 + 1) y1 (y2 + 1)) (b := b) (o := o) as (b' & E & R); auto.
    - intros [p q] (Hp & Hq). rewrite Sg. cbn [fst snd] in *. destruct (in_rect x1 y1 x2 y2 p q) eqn:D; [|split; auto].
      apply IR in D. unfold hsig, inside. cbn [fst snd]. lia.
    - intros [p q] Hp. apply grid_in in Hp. cbn [fst snd] in *. split; lia.
    - apply grid_nodup.
    - intros [p q] Hp Hq. rewrite Sg in *. cbn [fst snd] in *. apply grid_in in Hp. cbn [fst snd] in Hp.
      replace (in_rect x1 y1 x2 y2 p q) with true in * by (symmetry; apply IR; lia).
      apply grid_in in Hq. unfold hsig in *. cbn [fst snd] in *. f_equal; lia.
    - exists b'. split.
      + rewrite (bind_ok _ _ _ tt (mkst b' o)); [reflexivity|].
        rewrite <- E. unfold grid. rewrite forM_flat_map. apply forM_ext. intros u s Hu. apply in_range in Hu.
        rewrite forM_map. apply forM_ext. intros v s' Hv. apply in_range in Hv.
        rewrite !Sg. cbn [fst snd]. replace (in_rect x1 y1 x2 y2 _ _) with true by (symmetry; apply IR; lia).
        unfold hsig. cbn [fst snd]. f_equal; lia.
      + eapply repainted_ext; [|exact R]. intros x y (Px & Py). cbn beta. rewrite !Sg. cbn [fst snd].
        destruct (in_rect x1 y1 x2 y2 x y) eqn:D.
        * replace (pt_in _ _ _ || pt_in _ _ _) with true; [reflexivity|]. symmetry. apply IR in D.
          apply orb_true_iff. rewrite !pt_in_iff, !grid_in. unfold hsig. cbn [fst snd]. lia.
        * destruct (_ || _); reflexivity.
  Qed.

  Lemma pixflipv_run o : exists b', fliphverticalalpixelbased x1 y1 x2 y2 (mkst b o) = (Ok (Some tt), mkst b' o) /\
    repainted b b' w h bits (fun x y => if in_rect x1 y1 x2 y2 x y then pixel b w h bits x (y1 + y2 - y) else pixel b w h bits x y).
  Proof.
    unfold fliphverticalalpixelbased. rewrite (guard_true _ _ _ _ _ _ _ _ _ _ W I1 I2). unfold withSome. rewrite shiftr1.
    unfold inside in I1, I2.
    pose (sg := fun p : Z * Z => if in_rect x1 y1 x2 y2 (fst p) (snd p) then vsig y1 y2 p else p).
    assert (IR : forall x y, in_rect x1 y1 x2 y2 x y = true <-> x1 <= x <= x2 /\ y1 <= y <= y2).
    { intros x y. unfold in_rect, lo, hi. rewrite !andb_true_iff, !Z.leb_le. lia. }
    assert (Sg : forall p, sg p = if in_rect x1 y1 x2 y2 (fst p) (snd p) then vsig y1 y2 p else p) by reflexivity.
    clearbody sg.
    assert (S2 : forall p, sg (sg p) = p).
    { intros [p q]. rewrite (Sg (p, q)). cbn [fst snd]. destruct (in_rect x1 y1 x2 y2 p q) eqn:D.
      - rewrite Sg. apply IR in D. replace (in_rect x1 y1 x2 y2 _ _) with true.
        + unfold vsig. cbn [fst snd]. f_equal; lia.
        + symmetry. apply IR. unfold vsig. cbn [fst snd]. lia.
      - rewrite Sg. cbn [fst snd]. rewrite D. reflexivity. }
    destruct (swaps_run w h bits sg) with (L := gridv y1 (y1 + (y2 - y1) / 2 + 1) x1 (x2 + 1)) (b := b) (o := o) as (b' & E & R); auto.
    - intros [p q] (Hp & Hq). rewrite Sg. cbn [fst snd] in *. destruct (in_rect x1 y1 x2 y2 p q) eqn:D; [|split; auto].
      apply IR in D. unfold vsig, inside. cbn [fst snd]. lia.
    - intros [p q] Hp. apply gridv_in in Hp. cbn [fst snd] in *. split; lia.
    - apply gridv_nodup.
    - intros [p q] Hp Hq. rewrite Sg in *. cbn [fst snd] in *. apply gridv_in in Hp. cbn [fst snd] in Hp.
      replace (in_rect x1 y1 x2 y2 p q) with true in * by (symmetry; apply IR; lia).
      apply gridv_in in Hq. unfold vsig in *. cbn [fst snd] in *. f_equal; lia.
    - exists b'. split.
      + rewrite (bind_ok _ _ _ tt (mkst b' o)); [reflexivity|].
        rewrite <- E. unfold gridv. rewrite forM_flat_map. apply forM_ext. intros u s Hu. apply in_range in Hu.
        rewrite forM_map. apply forM_ext. intros v s' Hv. apply in_range in Hv.
        rewrite !Sg. cbn [fst snd]. replace (in_rect x1 y1 x2 y2 _ _) with true by (symmetry; apply IR; lia).
        unfold vsig. cbn [fst snd]. f_equal; lia.
      + eapply repainted_ext; [|exact R]. intros x y (Px & Py). cbn beta. rewrite !Sg. cbn [fst snd].
        destruct (in_rect x1 y1 x2 y2 x y) eqn:D.
        * replace (pt_in _ _ _ || pt_in _ _ _) with true; [reflexivity|]. symmetry. apply IR in D.
          apply orb_true_iff. rewrite !pt_in_iff, !gridv_in. unfold vsig. cbn [fst snd]. lia.
        * destruct (_ || _); reflexivity.
  Qed.
End Pix.

(** ** out of bounds, corners *)
Lemma bydepth_run {A} b w h bits o (f24 f8 f4 f1 : A) : wf b w h bits ->
  exists f, bydepth f24 f8 f4 f1 (mkst b o) = (Ok f, mkst b o).
Proof.
  intros W. unfold bydepth. rewrite (bind_ok _ _ _ _ _ (wf_geti_bits _ _ _ _ W _)).
  destruct (wf_depth _ _ _ _ W) as [-> | [-> | [-> | ->]]]; cbn [Z.eqb Pos.eqb]; eexists; reflexivity.
Qed.
Lemma hop_out b w h bits o op x1 y1 x2 y2 : wf b w h bits ->
  ~ (inside w h x1 y1 /\ inside w h x2 y2) ->
  hopfun op x1 y1 x2 y2 (mkst b o) = (Ok None, mkst b (o ++ [Mregionoutofbounds])).
Proof.
  intros W N. destruct op; cbn [hopfun]; unfold fliphorizontalregion, mirrorleftinregion, mirrorrightinregion;
  match goal with |- bind (bydepth ?a ?b ?c ?d) _ _ = _ =>
    destruct (bydepth_run _ _ _ _ o a b c d W) as (f & E) end;
  rewrite (bind_ok _ _ _ _ _ E); now apply (guard_false b w h bits).
Qed.

(** both mirrors one after the other, in a region *)
Definition corner_region (op : hop) (t : vtrans) (x1 y1 x2 y2 : Z) : M unit :=
  hopfun op x1 y1 x2 y2 ;;; verttransregion x1 y1 x2 y2 t ;;; ret tt.
Lemma corner_region_run b w h bits o op t x1 y1 x2 y2 : wf b w h bits ->
  inside w h x1 y1 -> inside w h x2 y2 ->
  flippable op bits (lo x1 x2) (hi x1 x2) ->
  exists b', corner_region op t x1 y1 x2 y2 (mkst b o) = (Ok tt, mkst b' o) /\
    repainted b b' w h bits (fun x y =>
      if in_rect x1 y1 x2 y2 x y
      then pixel b w h bits (hsource op (lo x1 x2) (hi x1 x2) x) (vsource t (lo y1 y2) (hi y1 y2) y)
      else pixel b w h bits x y).
Proof.
  intros W I1 I2 HF. destruct (hop_run b w h bits o op x1 y1 x2 y2 W I1 I2 HF) as (b1 & E1 & R1).
  assert (HA : byte_aligned bits (lo x1 x2) (hi x1 x2)).
  { unfold byte_aligned. destruct HF as [-> | [-> | (-> & H1 & H2 & _)]]; clear - H1 H2 || idtac; lia. }
  destruct (verttransregion_run b1 w h bits o t x1 y1 x2 y2 (repainted_wf _ _ _ _ _ _ R1) I1 I2 HA) as (b2 & E2 & R2).
  exists b2. unfold corner_region. rewrite (bind_ok _ _ _ _ _ E1), (bind_ok _ _ _ _ _ E2). split; auto.
  eapply repainted_trans; [exact R1|]. eapply repainted_ext; [|exact R2]. intros x y Hin. cbn beta.
  destruct (in_rect x1 y1 x2 y2 x y) eqn:D.
  - assert (Hv : lo y1 y2 <= vsource t (lo y1 y2) (hi y1 y2) y <= hi y1 y2).
    { unfold in_rect in D. rewrite !andb_true_iff, !Z.leb_le in D. destruct t; cbn [vsource]; lia. }
    rewrite (proj2 (proj2 R1)).
    + replace (in_rect x1 y1 x2 y2 x _) with true; auto.
      unfold in_rect in *. rewrite !andb_true_iff, !Z.leb_le in D. symmetry. rewrite !andb_true_iff, !Z.leb_le. tauto.
    + unfold inside, lo, hi in *. lia.
  - rewrite (proj2 (proj2 R1)) by auto. rewrite D. reflexivity.
Qed.

(** the whole image: mirror the half that is kept, then mirror vertically *)
Lemma corner_top_run b w h bits o op : wf b w h bits -> 0 < w -> 0 < h ->
  flippable op bits 0 (w - 1) ->
  exists b', (hopfun op 0 0 (w - 1) ((h - 1) / 2) ;;; mirrortop) (mkst b o) = (Ok tt, mkst b' o) /\
    repainted b b' w h bits (fun x y => pixel b w h bits (hsource op 0 (w - 1) x) (Z.min y (h - 1 - y))).
Proof.
  intros W Hw Hh HF.
  assert (L1 : lo 0 (w - 1) = 0) by (unfold lo; lia). assert (L2 : hi 0 (w - 1) = w - 1) by (unfold hi; lia).
  destruct (hop_run b w h bits o op 0 0 (w - 1) ((h - 1) / 2) W) as (b1 & E1 & R1);
    [unfold inside; lia|unfold inside; lia|rewrite L1, L2; auto|].
  destruct (verttrans_run b1 w h bits o TT (repainted_wf _ _ _ _ _ _ R1)) as (b2 & E2 & R2).
  exists b2. rewrite (bind_ok _ _ _ _ _ E1). split; [exact E2|].
  eapply repainted_trans; [exact R1|]. eapply repainted_ext; [|exact R2]. intros x y (Hx & Hy). cbn beta.
  rewrite (proj2 (proj2 R1)) by (split; cbn [vsource]; lia). rewrite L1, L2.
  replace (vsource TT 0 (h - 1) y) with (Z.min y (h - 1 - y)) by (cbn; lia).
  replace (in_rect _ _ _ _ _ _) with true; auto. symmetry. unfold in_rect, lo, hi.
  rewrite !andb_true_iff, !Z.leb_le. lia.
Qed.
Lemma corner_bottom_run b w h bits o op : wf b w h bits -> 0 < w -> 0 < h ->
  flippable op bits 0 (w - 1) ->
  exists b', (hopfun op 0 ((h - 1) / 2) (w - 1) (h - 1) ;;; mirrorbottom) (mkst b o) = (Ok tt, mkst b' o) /\
    repainted b b' w h bits (fun x y => pixel b w h bits (hsource op 0 (w - 1) x) (Z.max y (h - 1 - y))).
Proof.
  intros W Hw Hh HF.
  assert (L1 : lo 0 (w - 1) = 0) by (unfold lo; lia). assert (L2 : hi 0 (w - 1) = w - 1) by (unfold hi; lia).
  destruct (hop_run b w h bits o op 0 ((h - 1) / 2) (w - 1) (h - 1) W) as (b1 & E1 & R1);
    [unfold inside; lia|unfold inside; lia|rewrite L1, L2; auto|].
  destruct (verttrans_run b1 w h bits o TB (repainted_wf _ _ _ _ _ _ R1)) as (b2 & E2 & R2).
  exists b2. rewrite (bind_ok _ _ _ _ _ E1). split; [exact E2|].
  eapply repainted_trans; [exact R1|]. eapply repainted_ext; [|exact R2]. intros x y (Hx & Hy). cbn beta.
  rewrite (proj2 (proj2 R1)) by (split; cbn [vsource]; lia). rewrite L1, L2.
  replace (vsource TB 0 (h - 1) y) with (Z.max y (h - 1 - y)) by (cbn; lia).
  replace (in_rect _ _ _ _ _ _) with true; auto. symmetry. unfold in_rect, lo, hi.
  rewrite !andb_true_iff, !Z.leb_le. lia.
Qed.
