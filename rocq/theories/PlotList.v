(** Sequences of plotted points (proofs). *)
From Coq Require Import ZArith List Bool Lia.
From Verif Require Import PyBase PyFacts Spec Bmp BmpFacts PixelProofs.
Import ListNotations.
Open Scope Z_scope.
Open Scope py_scope.

(** the last colour plotted at (x,y), given newest first *)
Fixpoint last_plot (hist : list (Z * Z * Z)) (x y : Z) : option Z :=
  match hist with
  | [] => None
  | (x', y', c) :: older => if (x' =? x) && (y' =? y) then Some c else last_plot older x y
  end.
Definition plot_item (p : Z * Z * Z) : M unit := let '(x, y, c) := p in plotxybit x y c.

Lemma forM_cons {A} (a : A) l f s : forM (a :: l) f s = (f a ;;; forM l f) s.
Proof. unfold forM. cbn [foldM]. unfold bind. destruct (f a s) as [[[]|e] s']; reflexivity. Qed.
Lemma forM_app {A} (l1 l2 : list A) f s : forM (l1 ++ l2) f s = (forM l1 f ;;; forM l2 f) s.
Proof.
  unfold forM. rewrite foldM_app. unfold bind. destruct (foldM _ tt l1 s) as [[[]|e] s']; reflexivity.
Qed.
Lemma forM_ext {A} (l : list A) (f g : A -> M unit) s : (forall a s, In a l -> f a s = g a s) -> forM l f s = forM l g s.
Proof.
  unfold forM. revert s. induction l as [|a l IH]; intros s H; cbn [foldM]; auto.
  unfold bind. rewrite H by (cbn; auto). destruct (g a s) as [[[]|e] s']; auto. apply IH. intros; apply H; cbn; auto.
Qed.
Lemma forM_map {A B} (l : list A) (h : A -> B) (f : B -> M unit) s : forM (map h l) f s = forM l (fun a => f (h a)) s.
Proof.
  unfold forM. revert s. induction l as [|a l IH]; intros s; cbn [foldM map]; auto.
  unfold bind. destruct (f (h a) s) as [[[]|e] s']; auto.
Qed.
Lemma forM_flat_map {A B} (l : list A) (h : A -> list B) (f : B -> M unit) s :
  forM (flat_map h l) f s = forM l (fun a => forM (h a) f) s.
Proof.
  revert s. induction l as [|a l IH]; intros s; cbn [flat_map]; auto.
  rewrite forM_app, forM_cons. unfold bind. destruct (forM (h a) f s) as [[[]|e] s']; auto.
Qed.

Lemma plots_run hist : forall b w h bits o, wf b w h bits ->
  (forall x y c, In (x, y, c) hist -> storable bits c) ->
  exists b', forM hist plot_item (mkst b o) = (Ok tt, mkst b' o) /\
    repainted b b' w h bits (fun x y =>
      match last_plot (rev hist) x y with Some c => reduce bits c | None => pixel b w h bits x y end).
Proof.
  induction hist as [|p hist IH] using rev_ind; intros b w h bits o W Hs.
  - exists b. split; [reflexivity|]. cbn. now apply repainted_refl.
  - destruct (IH b w h bits o W) as (b1 & E1 & R1).
    { intros x y c Hin. apply (Hs x y c). apply in_app_iff. auto. }
    destruct p as [[x y] c].
    destruct (plot_any b1 w h bits o x y c) as (b2 & E2 & R2); [apply R1|apply (Hs x y c), in_app_iff; cbn; auto|].
    exists b2. split.
    + rewrite forM_app, (bind_ok _ _ _ _ _ E1). unfold forM. cbn [foldM plot_item].
      rewrite (bind_ok _ _ _ _ _ E2). reflexivity.
    + rewrite rev_app_distr. cbn [rev app last_plot].
      eapply repainted_ext; [|eapply repainted_trans; [exact R1|exact R2]].
      intros x' y' Hin. unfold put_px. rewrite (Z.eqb_sym x' x), (Z.eqb_sym y' y).
      destruct ((x =? x') && (y =? y')); auto. now apply R1.
Qed.

(** points plotted in one colour *)
Definition pt_in (l : list (Z * Z)) (x y : Z) : bool := existsb (fun p => (fst p =? x) && (snd p =? y)) l.
Lemma pt_in_iff l x y : pt_in l x y = true <-> In (x, y) l.
Proof.
  unfold pt_in. rewrite existsb_exists. split.
  - intros ([a b] & H & E). cbn [fst snd] in E. apply andb_true_iff in E. destruct E as [E1 E2].
    apply Z.eqb_eq in E1, E2. now subst.
  - intros H. exists (x, y). split; auto. cbn. now rewrite !Z.eqb_refl.
Qed.
Lemma pt_in_app l m x y : pt_in (l ++ m) x y = pt_in l x y || pt_in m x y.
Proof. unfold pt_in. apply existsb_app. Qed.
Lemma last_plot_some hist x y c : last_plot hist x y = Some c -> In (x, y, c) hist.
Proof.
  induction hist as [|[[a b] d] l IH]; cbn [last_plot]; [discriminate|].
  destruct ((a =? x) && (b =? y)) eqn:E.
  - intros H; inversion H; subst. apply andb_true_iff in E. destruct E as [E1 E2]. apply Z.eqb_eq in E1, E2. subst. cbn; auto.
  - intros H. cbn. auto.
Qed.
Lemma last_plot_none hist x y : last_plot hist x y = None -> forall c, ~ In (x, y, c) hist.
Proof.
  induction hist as [|[[a b] d] l IH]; cbn [last_plot In]; intros H c; [tauto|].
  destruct ((a =? x) && (b =? y)) eqn:E; [discriminate|]. intros [Q|Q].
  - inversion Q; subst. now rewrite !Z.eqb_refl in E.
  - now apply (IH H c).
Qed.
Lemma points_run pts c : forall b w h bits o, wf b w h bits -> storable bits c ->
  exists b', forM pts (fun p => plotxybit (fst p) (snd p) c) (mkst b o) = (Ok tt, mkst b' o) /\
    repainted b b' w h bits (fun x y => if pt_in pts x y then reduce bits c else pixel b w h bits x y).
Proof.
  intros b w h bits o W Hs.
  destruct (plots_run (map (fun p => (fst p, snd p, c)) pts) b w h bits o W) as (b' & E & R).
  { intros x y c' Hin. apply in_map_iff in Hin. destruct Hin as (p & Q & _). inversion Q; subst. exact Hs. }
  exists b'. split. { rewrite forM_map in E. exact E. }
  eapply repainted_ext; [|exact R]. intros x y _. cbn beta.
  destruct (last_plot _ x y) as [c'|] eqn:L.
  - apply last_plot_some in L. apply in_rev in L. apply in_map_iff in L. destruct L as ([a d] & Q & Hin). inversion Q; subst.
    replace (pt_in pts x y) with true; auto. symmetry. now apply pt_in_iff.
  - destruct (pt_in pts x y) eqn:E2; auto. exfalso. apply pt_in_iff in E2.
    apply (last_plot_none _ _ _ L c). apply in_rev. rewrite rev_involutive. apply in_map_iff. exists (x, y). auto.
Qed.

(** distinct points: every one keeps its own colour *)
Lemma plots_nodup hist : forall b w h bits o, wf b w h bits ->
  (forall x y c, In (x, y, c) hist -> storable bits c) ->
  NoDup (map (fun p => (fst (fst p), snd (fst p))) hist) ->
  exists b', forM hist plot_item (mkst b o) = (Ok tt, mkst b' o) /\ wf b' w h bits /\ same_header b b' bits /\
    (forall x y c, inside w h x y -> In (x, y, c) hist -> pixel b' w h bits x y = reduce bits c) /\
    (forall x y, inside w h x y -> (forall c, ~ In (x, y, c) hist) -> pixel b' w h bits x y = pixel b w h bits x y).
Proof.
  intros b w h bits o W Hs Hn. destruct (plots_run hist b w h bits o W Hs) as (b' & E & R).
  exists b'. split; auto. split; [apply R|]. split; [apply R|]. split.
  - intros x y c Hin Hi. rewrite (proj2 (proj2 R)) by auto. cbn beta.
    destruct (last_plot (rev hist) x y) as [c'|] eqn:L.
    + apply last_plot_some in L. apply in_rev in L. f_equal. clear - L Hi Hn.
      induction hist as [|[[a b] d] l IH]; [destruct L|]. cbn [map fst snd] in Hn. inversion Hn; subst.
      assert (K : forall e, In (x, y, e) l -> In (x, y) (map (fun p => (fst (fst p), snd (fst p))) l)).
      { intros e He. apply in_map_iff. exists (x, y, e). auto. }
      destruct L as [L|L], Hi as [Hi|Hi].
      * congruence.
      * inversion L; subst. exfalso. apply H1. eauto.
      * inversion Hi; subst. exfalso. apply H1. eauto.
      * auto.
    + exfalso. apply (last_plot_none _ _ _ L c). apply in_rev. now rewrite rev_involutive.
  - intros x y Hin Hno. rewrite (proj2 (proj2 R)) by auto. cbn beta.
    destruct (last_plot (rev hist) x y) as [c'|] eqn:L; auto. exfalso.
    apply last_plot_some in L. apply in_rev in L. eapply Hno; eauto.
Qed.
