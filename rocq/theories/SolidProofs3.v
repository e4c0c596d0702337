(** Faces of solids. *)
From Coq Require Import ZArith List Bool Lia.
From Verif Require Import PyBase PyFacts Spec SpecShapes SpecSolids Bmp BmpFacts PixelProofs PlotList Geometry GeomProofs
  Draw DrawProofs DrawProofs2 DrawProofs4 Text TextProofs Circle Shapes ShapeProofs ShapeProofs2 Files Wrappers Fractal Edges MathLib Solids PropShapes SolidProofs SolidProofs2.
Import ListNotations.
Open Scope Z_scope.
Open Scope py_scope.

Definition noisy (bits : Z) (o o' : list msg) : Prop := bits <> 1 -> exists n, o' = o ++ repeat Mregionoutofbounds n.
Lemma noisy_refl bits o : noisy bits o o.
Proof. intros _. exists O. now rewrite app_nil_r. Qed.
Lemma noisy_trans bits a b c : noisy bits a b -> noisy bits b c -> noisy bits a c.
Proof. intros H K N. destruct (H N) as (n & ->), (K N) as (m & ->). exists (n + m)%nat. now rewrite repeat_app, app_assoc. Qed.
Lemma quiet_noisy bits o o' : quiet bits o o' -> noisy bits o o'.
Proof. intros H N. rewrite (H N). now apply (noisy_refl bits). Qed.
Lemma draws_weaken (R R' : list msg -> list msg -> Prop) b0 w h bits act f : (forall o o', R o o' -> R' o o') ->
  draws R b0 w h bits act f -> draws R' b0 w h bits act f.
Proof. intros H D b o W S. destruct (D b o W S) as (b' & o' & E & K & Rp). exists b', o'. auto. Qed.

(** one face *)
Lemma face_draws b0 w h bits vs c : vs <> [] -> bits <> 4 -> storable bits c ->
  exists S, (forall u v, S u v = true <-> (forall p q, outline vs p q -> inside w h p q) /\ between (outline vs) u v) /\
    fills (noisy bits) b0 w h bits (plotpolyfill vs c) S (reduce bits c).
Proof.
  intros N N4 Hs. destruct (polyboundary_run vs N) as (bnd & E & Nb & Hb).
  assert (Bt : forall u v, between (fun p q => In (p, q) bnd) u v <-> between (outline vs) u v).
  { intros. unfold between. split; intros (x1 & x2 & L & H1 & H2); exists x1, x2; (split; [auto|]); split; apply Hb; auto. }
  assert (D : {forall p, In p bnd -> inside w h (fst p) (snd p)} + {exists p, In p bnd /\ ~ inside w h (fst p) (snd p)}).
  { clear - bnd. induction bnd as [|p l IH]; [left; intros p []|].
    destruct (inside_dec w h (fst p) (snd p)) as [Y|Y].
    - destruct IH as [IH|IH]; [left; intros q [<-|H]; auto|right]. destruct IH as (q & H & K). exists q. split; [now right|exact K].
    - right. exists p. split; [now left|exact Y]. }
  destruct D as [D|D].
  - exists (hull bnd). split.
    + intros u v. rewrite hull_between, Bt. split; [|tauto]. intros H. split; [|exact H]. intros p q K. exact (D (p, q) (proj2 (Hb p q) K)).
    + eapply fills_act.
      { intros [b1 o1]. unfold plotpolyfill. rewrite (bind_ok _ _ _ _ _ (run_lift _ b1 o1 _ E)). reflexivity. }
      apply fillpoints_fills; auto; [apply noisy_refl|apply noisy_trans|]. intros x y H. exact (D (x, y) H).
  - destruct D as ([x y] & H & K). cbn [fst snd] in K. exists (fun _ _ => false). split.
    + intros u v. split; [discriminate|]. intros [Q _]. exfalso. apply K, Q, Hb, H.
    + intros b o W _. exists b, (o ++ [Mregionoutofbounds]). split; [|split].
      * unfold plotpolyfill. rewrite (bind_ok _ _ _ _ _ (run_lift _ _ _ _ E)). eapply fillpoints_out; eauto.
      * intros _. now exists 1%nat.
      * eapply repainted_ext; [|apply repainted_refl; exact W]. reflexivity.
Qed.

(** the faces with their normals; when there are too few of those, IndexError *)
Lemma item_at {N} (pre : list N) n ns : item (pre ++ n :: ns) (zlen pre) = Ok n.
Proof.
  unfold item, zlen. replace (Z.of_nat (length pre) <? 0) with false by (symmetry; apply Z.ltb_ge; lia). cbv zeta.
  replace (Z.of_nat (length pre) <? 0) with false by (symmetry; apply Z.ltb_ge; lia). rewrite Nat2Z.id, nth_error_app2 by lia.
  now rewrite Nat.sub_diag.
Qed.
Lemma item_beyond {N} (pre : list N) : item pre (zlen pre) = Err IndexError.
Proof.
  unfold item, zlen. replace (Z.of_nat (length pre) <? 0) with false by (symmetry; apply Z.ltb_ge; lia). cbv zeta.
  replace (Z.of_nat (length pre) <? 0) with false by (symmetry; apply Z.ltb_ge; lia). rewrite Nat2Z.id.
  destruct (nth_error pre (length pre)) eqn:E; [|reflexivity]. assert (length pre < length pre)%nat by (apply nth_error_Some; congruence). lia.
Qed.
Lemma enumerate_run {A N} (g : A -> N -> M unit) (l : list A) : forall (pre ns : list N) s,
  forM (combine (range (zlen pre) (zlen pre + zlen l)) l) (fun ip => n <- lift (item (pre ++ ns) (fst ip)) ;; g (snd ip) n) s =
  (forM (combine l ns) (fun pn => g (fst pn) (snd pn)) ;;; if (length ns <? length l)%nat then raise IndexError else ret tt) s.
Proof.
  induction l as [|a l IH]; intros pre ns s.
  - change (zlen (@nil A)) with 0. rewrite range_nil by lia. reflexivity.
  - assert (zlen (a :: l) = 1 + zlen l) as Ez by (unfold zlen; cbn [length]; lia).
    assert (0 <= zlen l) by (unfold zlen; lia).
    rewrite range_cons by lia. cbn [combine]. rewrite forM_cons. cbn [fst snd].
    destruct ns as [|n ns].
    + destruct s as [b o]. rewrite app_nil_r. unfold bind at 1. unfold bind at 1. unfold lift at 1. rewrite item_beyond. reflexivity.
    + cbn [combine]. destruct s as [b o].
      change (length (n :: ns) <? length (a :: l))%nat with (length ns <? length l)%nat.
      transitivity ((g a n ;;; (forM (combine l ns) (fun pn => g (fst pn) (snd pn)) ;;;
        if (length ns <? length l)%nat then raise IndexError else ret tt)) (mkst b o)).
      2: { unfold bind. rewrite forM_cons. unfold bind. cbn [fst snd]. now destruct (g a n (mkst b o)) as [[[]|e] s1]. }
      unfold bind at 1. rewrite (bind_ok _ _ _ _ _ (run_lift _ _ _ _ (item_at pre n ns))).
      match goal with |- _ = bind ?m ?k ?s => change (bind m k s) with (let (r, s') := m s in match r with Ok a => k a s' | Err e => (Err e, s') end) end.
      destruct (g a n (mkst b o)) as [[[]|e] s1]; [|reflexivity]. cbv iota.
      specialize (IH (pre ++ [n]) ns s1). replace (zlen (pre ++ [n])) with (zlen pre + 1) in IH by (unfold zlen; rewrite app_length; cbn [length]; lia).
      rewrite <- app_assoc in IH. cbn [app] in IH.
      replace (zlen pre + zlen (a :: l)) with (zlen pre + 1 + zlen l) by lia. rewrite IH. reflexivity.
Qed.

Lemma choose2 {A} (l : list A) (Q : A -> (Z -> Z -> bool) -> Prop) : (forall a, In a l -> exists S, Q a S) ->
  exists L : list (A * (Z -> Z -> bool)), map fst L = l /\ forall p, In p L -> Q (fst p) (snd p).
Proof.
  intros H. destruct (choose l (fun _ => True) Q) as (L & E & HL); [auto|auto|]. exists L. split; auto.
Qed.
Lemma faces_draw {N} (col : N -> Z) b w h bits polys ns : wf b w h bits -> bits <> 4 -> (forall n, In n ns -> 0 <= col n < 2 ^ 24) ->
  (forall p, In p polys -> p <> []) ->
  exists L, map fst L = combine polys ns /\
    (forall p n S, In ((p, n), S) L -> forall u v, S u v = true <-> (forall x y, outline p x y -> inside w h x y) /\ between (outline p) u v) /\
    draws (noisy bits) b w h bits (forM (combine polys ns) (fun pn => c <- depthcolor (col (snd pn)) ;; plotpolyfill (fst pn) c))
      (fun px py => option_map (fun q => dcol b bits (col (snd (fst q)))) (find (fun q => snd q px py) (rev L))).
Proof.
  intros W N4 Hc Hp.
  destruct (choose2 (combine polys ns) (fun pn S =>
    (forall u v, S u v = true <-> (forall x y, outline (fst pn) x y -> inside w h x y) /\ between (outline (fst pn)) u v) /\
    fills (noisy bits) b w h bits (c <- depthcolor (col (snd pn)) ;; plotpolyfill (fst pn) c) S (dcol b bits (col (snd pn)))))
    as (L & EL & HL).
  { intros [p n] Hin. cbn [fst snd]. pose proof (in_combine_l _ _ _ _ Hin) as H1. pose proof (in_combine_r _ _ _ _ Hin) as H2.
    pose proof (dcol_range b w h bits (col n) W (Hc n H2)) as Hd.
    destruct (face_draws b w h bits p (dcol b bits (col n)) (Hp p H1) N4) as (S & HS & F); [intros ->; exact Hd|].
    exists S. split; [exact HS|]. rewrite (reduce_id bits) in F by (auto; eapply wf_depth; eauto).
    intros b1 o1 W1 S1. rewrite (bind_ok _ _ _ _ _ (depthcolor_run b b1 w h bits (col n) o1 W1 S1 (Hc n H2))). exact (F b1 o1 W1 S1). }
  exists L. split; [exact EL|]. split; [intros p n S Hin; exact (proj1 (HL ((p, n), S) Hin))|].
  eapply draws_act.
  { intros st. rewrite <- EL. rewrite forM_map. reflexivity. }
  assert (DL : forall p, In p L -> draws (noisy bits) b w h bits (c <- depthcolor (col (snd (fst p))) ;; plotpolyfill (fst (fst p)) c)
    (fun px py => if snd p px py then Some (dcol b bits (col (snd (fst p)))) else None)) by (intros p Hin; exact (proj2 (HL p Hin))).
  eapply draws_ext; [|exact (draws_list _ _ _ _ _ (noisy_refl bits) (noisy_trans bits) L
    (fun p => c <- depthcolor (col (snd (fst p))) ;; plotpolyfill (fst (fst p)) c) _ DL)].
  intros px py _. cbn beta.
  rewrite (fold_find (fun p : list (Z * Z) * N * (Z -> Z -> bool) => if snd p px py then Some (dcol b bits (col (snd (fst p)))) else None) L).
  generalize (rev L). intros K. induction K as [|p K IH]; [reflexivity|].
  cbn [find]. destruct (snd p px py) eqn:E; auto. cbn [option_map]. now rewrite E.
Qed.
Lemma fillist_run {N} (col : N -> Z) polys (ns : list N) s :
  plotpolyfillist col polys ns s =
  (forM (combine polys ns) (fun pn => c <- depthcolor (col (snd pn)) ;; plotpolyfill (fst pn) c) ;;;
   if (length ns <? length polys)%nat then raise IndexError else ret tt) s.
Proof.
  unfold plotpolyfillist.
  exact (enumerate_run (fun p n => c <- depthcolor (col n) ;; plotpolyfill p c) polys [] ns s).
Qed.
