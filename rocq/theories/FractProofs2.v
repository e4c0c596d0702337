(** Fractals, iterated functions, attractors (proofs). *)
From Coq Require Import ZArith String List Bool Lia.
From Verif Require Import PyBase PyFacts Spec Palette Bmp BmpFacts Raster PixelProofs HeaderProofs PalProofs PlotList
  Region Geometry Draw Circle Shapes ShapeProofs Files FileProofs Wrappers WrapProofs Fractal FractProofs.
Import ListNotations.
Open Scope Z_scope.
Open Scope py_scope.
Ltac Zify.zify_post_hook ::= Z.to_euclidean_division_equations.

(** every action paints its own point in the colour of that point *)
Lemma forM_paint w h bits (act : Z * Z -> M unit) (col : Z -> Z -> Z) pts :
  (forall p b o, In p pts -> wf b w h bits ->
     exists b', act p (mkst b o) = (Ok tt, mkst b' o) /\
       repainted b b' w h bits (fun x y => if (x =? fst p) && (y =? snd p) then col x y else pixel b w h bits x y)) ->
  forall b o, wf b w h bits ->
  exists b', forM pts act (mkst b o) = (Ok tt, mkst b' o) /\
    repainted b b' w h bits (fun x y => if pt_in pts x y then col x y else pixel b w h bits x y).
Proof.
  induction pts as [|p pts IH]; intros H b o W.
  - exists b. split; [reflexivity|]. apply repainted_refl; auto.
  - destruct (H p b o) as (b1 & E1 & R1); [cbn; auto|auto|].
    destruct (IH (fun q b o Hq => H q b o (or_intror Hq)) b1 o (proj1 R1)) as (b2 & E2 & R2).
    exists b2. split. { rewrite forM_cons, (bind_ok _ _ _ _ _ E1). exact E2. }
    eapply repainted_ext; [|eapply repainted_trans; [exact R1|exact R2]].
    intros x y Hin. cbn beta. rewrite (proj2 (proj2 R1)) by auto. unfold pt_in. cbn [existsb].
    rewrite (Z.eqb_sym (fst p)), (Z.eqb_sym (snd p)).
    destruct ((x =? fst p) && (y =? snd p)); cbn [orb]; destruct (existsb _ pts); reflexivity.
Qed.

(** ** the points of a fractal *)
Definition half_box (x1 y1 x2 y2 x y : Z) : bool :=
  ((Z.min x1 x2 <=? x) && (x <? Z.max x1 x2)) && ((Z.min y1 y2 <=? y) && (y <? Z.max y1 y2)).
Lemma sort_minmax x1 y1 x2 y2 : sortrecpoints x1 y1 x2 y2 = (Z.min x1 x2, Z.min y1 y2, Z.max x1 x2, Z.max y1 y2).
Proof.
  unfold sortrecpoints, swapif.
  destruct (Z.gtb_spec x1 x2), (Z.gtb_spec y1 y2); f_equal; [f_equal; [f_equal|]|..]; try lia; f_equal; try lia; f_equal; lia.
Qed.
Lemma fractalpoints_spec x1 y1 x2 y2 : x1 <> x2 -> y1 <> y2 ->
  exists pts, fractalpoints x1 y1 x2 y2 = Ok pts /\ forall x y, pt_in pts x y = half_box x1 y1 x2 y2 x y.
Proof.
  intros Hx Hy. unfold fractalpoints. rewrite sort_minmax.
  replace (Z.max x1 x2 - Z.min x1 x2 =? 0) with false by (symmetry; apply Z.eqb_neq; lia).
  replace (Z.max y1 y2 - Z.min y1 y2 =? 0) with false by (symmetry; apply Z.eqb_neq; lia). cbn [orb].
  eexists. split; [reflexivity|]. intros x y. unfold half_box. apply eq_iff_eq_true.
  rewrite pt_in_iff, in_flat_map, !andb_true_iff, !Z.leb_le, !Z.ltb_lt. split.
  - intros (v & Hv & Hi). apply in_map_iff in Hi. destruct Hi as (u & E & Hu). inversion E; subst.
    apply in_range in Hv, Hu. lia.
  - intros ((H1 & H2) & H3 & H4). exists y. split; [apply in_range; lia|]. apply in_map_iff. exists x.
    split; [reflexivity|]. apply in_range. lia.
Qed.
Lemma fractalpoints_empty x1 y1 x2 y2 : x1 = x2 \/ y1 = y2 -> fractalpoints x1 y1 x2 y2 = Err ZeroDivisionError.
Proof.
  intros H. unfold fractalpoints. rewrite sort_minmax.
  replace ((Z.max x1 x2 - Z.min x1 x2 =? 0) || (Z.max y1 y2 - Z.min y1 y2 =? 0)) with true; [reflexivity|].
  symmetry. apply orb_true_iff. rewrite !Z.eqb_eq. lia.
Qed.

(** ** colours *)
Definition fcolor (f : factors) (bits v : Z) : Z :=
  if bits =? 24 then match f with Three _ mix => mix (((255 - v) * 20) mod 256) | _ => 0 end
  else if bits =? 1 then v mod 2
  else if three f then v mod 2 ^ bits
  else (2 ^ bits - 1 - v) mod 2 ^ bits.
Definition fok (f : factors) (w h bits : Z) (v : Z) : Prop :=
  (bits = 24 -> three f = true /\ 0 <= fcolor f 24 v < 2 ^ 24) /\
  (bits = 8 -> three f = true -> 0 <= v < 256).

Lemma seti8 b w h o x y c : wf b w h 8 -> inside w h x y -> 0 <= c < 256 ->
  (s <- rd (o8bmofhd x y) ;; seti s c) (mkst b o) = plotxybit x y c (mkst b o).
Proof.
  intros W Hin Hc. unfold plotxybit.
  rewrite (bind_ok _ _ _ _ _ (run_rd _ _ _ _ (wf_inbnd_true _ _ _ _ W _ _ Hin))). cbn [negb].
  rewrite (bind_ok _ _ _ _ _ (wf_geti_bits _ _ _ _ W _)). cbn [Z.eqb Pos.eqb]. unfold o8bmofhd.
  replace (Z.land c 255) with c; [reflexivity|]. rewrite land255. lia.
Qed.

Lemma fpoint_run f b w h bits o x y v : wf b w h bits -> fok f w h bits v -> (bits = 8 -> three f = true -> inside w h x y) ->
  exists b', fractalpoint f bits (2 ^ bits) x y v (mkst b o) = (Ok tt, mkst b' o) /\
    repainted b b' w h bits (fun x' y' => if (x' =? x) && (y' =? y) then fcolor f bits v else pixel b w h bits x' y').
Proof.
  intros W (H24 & H8) Hi. pose proof (wf_depth _ _ _ _ W) as D.
  assert (K : forall c, storable bits c -> reduce bits c = fcolor f bits v ->
     exists b', plotxybit x y c (mkst b o) = (Ok tt, mkst b' o) /\
     repainted b b' w h bits (fun x' y' => if (x' =? x) && (y' =? y) then fcolor f bits v else pixel b w h bits x' y')).
  { intros c Hs Er. destruct (plot_any b w h bits o x y c W Hs) as (b' & E & R). exists b'. split; [exact E|].
    rewrite Er in R. exact R. }
  unfold fractalpoint. destruct D as [-> | [-> | [-> | ->]]].
  - cbn [Z.eqb Pos.eqb andb]. apply K; [unfold storable; lia|]. unfold reduce, fcolor. cbn [Z.eqb Pos.eqb].
    change (2 ^ 1) with 2. destruct (Z.ltb_spec 0 (v mod 2)); lia.
  - cbn [Z.eqb Pos.eqb andb]. destruct (three f) eqn:T.
    + apply K; [unfold storable; lia|]. unfold reduce, fcolor. cbn [Z.eqb Pos.eqb]. rewrite T. reflexivity.
    + apply K; [unfold storable; lia|]. unfold reduce, fcolor. cbn [Z.eqb Pos.eqb]. rewrite T. change (2 ^ 4) with 16. lia.
  - cbn [Z.eqb Pos.eqb andb]. destruct (three f) eqn:T.
    + rewrite (seti8 b w h) by auto. apply K; [unfold storable; lia|]. unfold reduce, fcolor. cbn [Z.eqb Pos.eqb]. now rewrite T.
    + apply K; [unfold storable; lia|]. unfold reduce, fcolor. cbn [Z.eqb Pos.eqb]. rewrite T. change (2 ^ 8) with 256. lia.
  - destruct (H24 eq_refl) as [T Hc]. cbn [Z.eqb Pos.eqb]. destruct f as [rnd mix| |]; try discriminate.
    cbn [colormix]. rewrite (bind_ok _ _ _ (mix (((255 - v) * 20) mod 256)) (mkst b o)) by reflexivity.
    apply K; [intros _; exact Hc|]. reflexivity.
Qed.

Lemma fractal_run val (v : Z -> Z -> Z) f b w h bits o x1 y1 x2 y2 : wf b w h bits -> x1 <> x2 -> y1 <> y2 ->
  (forall x y, half_box x1 y1 x2 y2 x y = true -> val x y = Ok (v x y) /\ fok f w h bits (v x y)) ->
  (bits = 8 -> three f = true -> 0 <= Z.min x1 x2 /\ Z.max x1 x2 <= w /\ 0 <= Z.min y1 y2 /\ Z.max y1 y2 <= h) ->
  exists b', plotmultifractal val f x1 y1 x2 y2 (mkst b o) = (Ok tt, mkst b' o) /\
    repainted b b' w h bits (fun x y =>
      if half_box x1 y1 x2 y2 x y then fcolor f bits (v x y) else pixel b w h bits x y).
Proof.
  intros W Hx Hy Hv H8. destruct (fractalpoints_spec x1 y1 x2 y2 Hx Hy) as (pts & Ep & Hp).
  unfold plotmultifractal. rewrite (bind_ok _ _ _ _ _ (run_rd _ _ _ _ (wf_rcolors _ _ _ _ W))).
  rewrite (bind_ok _ _ _ _ _ (wf_geti_bits _ _ _ _ W _)). rewrite Ep. rewrite (bind_ok _ _ _ pts (mkst b o)) by reflexivity.
  destruct (forM_paint w h bits (fun p => c <- lift (val (fst p) (snd p)) ;; fractalpoint f bits (2 ^ bits) (fst p) (snd p) c)
     (fun x y => fcolor f bits (v x y)) pts) with (b := b) (o := o) as (b' & E & R); auto.
  - intros [x y] b1 o1 Hin W1. cbn [fst snd]. apply pt_in_iff in Hin. rewrite Hp in Hin.
    destruct (Hv x y Hin) as [Ev Hf]. rewrite Ev. rewrite (bind_ok _ _ _ (v x y) (mkst b1 o1)) by reflexivity.
    destruct (fpoint_run f b1 w h bits o1 x y (v x y) W1 Hf) as (b' & E & R).
    { intros Hb Ht. specialize (H8 Hb Ht). unfold half_box in Hin. rewrite !andb_true_iff, !Z.leb_le, !Z.ltb_lt in Hin.
      unfold inside. clear - Hin H8. lia. }
    exists b'. split; [exact E|]. eapply repainted_ext; [|exact R]. intros x' y' _. cbn beta.
    destruct (Z.eqb_spec x' x) as [->|]; [destruct (Z.eqb_spec y' y) as [->|]|]; reflexivity.
  - exists b'. split; [exact E|]. eapply repainted_ext; [|exact R]. intros x y _. cbn beta. now rewrite Hp.
Qed.
Lemma fractal_empty val f b w h bits o x1 y1 x2 y2 : wf b w h bits -> x1 = x2 \/ y1 = y2 ->
  plotmultifractal val f x1 y1 x2 y2 (mkst b o) = (Err ZeroDivisionError, mkst b o).
Proof.
  intros W H. unfold plotmultifractal. rewrite (bind_ok _ _ _ _ _ (run_rd _ _ _ _ (wf_rcolors _ _ _ _ W))).
  rewrite (bind_ok _ _ _ _ _ (wf_geti_bits _ _ _ _ W _)). rewrite fractalpoints_empty by exact H. reflexivity.
Qed.

(** ** escape times *)
Lemma escape_spec {S} (step : S -> res S) (out : S -> bool) found n : forall i z maxiter (orbit : Z -> S),
  (forall k, 0 <= k < Z.of_nat n -> step (orbit (i + k)) = Ok (orbit (i + k + 1))) -> orbit i = z ->
  (forall k, 0 <= k < Z.of_nat n -> (forall j, 0 <= j < k -> out (orbit (i + j + 1)) = false) ->
     out (orbit (i + k + 1)) = true -> escape_from step out found n i z maxiter = found (orbit (i + k + 1)) (i + k)) /\
  ((forall k, 0 <= k < Z.of_nat n -> out (orbit (i + k + 1)) = false) -> escape_from step out found n i z maxiter = Ok maxiter).
Proof.
  induction n as [|n IH]; intros i z maxiter orbit Hs Hz; cbn [escape_from].
  - split; [intros k Hk; lia|reflexivity].
  - pose proof (Hs 0 ltac:(lia)) as E0. rewrite Z.add_0_r in E0. rewrite <- Hz, E0. cbn [rbind].
    destruct (IH (i + 1) (orbit (i + 1)) maxiter orbit) as [A B]; auto.
    { intros k Hk. specialize (Hs (k + 1) ltac:(lia)). replace (i + 1 + k) with (i + (k + 1)) by lia. exact Hs. }
    split.
    + intros k Hk Hlow Hout. destruct (Z.eq_dec k 0) as [->|N].
      * rewrite Z.add_0_r in Hout. rewrite Hout. now rewrite Z.add_0_r.
      * pose proof (Hlow 0 ltac:(lia)) as F. rewrite Z.add_0_r in F. rewrite F.
        replace (i + k) with (i + 1 + (k - 1)) by lia. apply A; [lia| |].
        -- intros j Hj. replace (i + 1 + j + 1) with (i + (j + 1) + 1) by lia. apply Hlow. lia.
        -- now replace (i + 1 + (k - 1) + 1) with (i + k + 1) by lia.
    + intros H. pose proof (H 0 ltac:(lia)) as F. rewrite Z.add_0_r in F. rewrite F. apply B.
      intros k Hk. replace (i + 1 + k + 1) with (i + (k + 1) + 1) by lia. apply H. lia.
Qed.
Lemma escape_range {S} (step : S -> res S) (out : S -> bool) found (P : Z -> Prop) n : forall i z maxiter r,
  0 <= i -> (forall z k v, 0 <= k < i + Z.of_nat n -> found z k = Ok v -> P v) -> P maxiter ->
  escape_from step out found n i z maxiter = Ok r -> P r.
Proof.
  induction n as [|n IH]; intros i z maxiter r Hi Hf Hm E; cbn [escape_from] in E.
  - inversion E; now subst.
  - destruct (step z) as [z'|e]; cbn [rbind] in E; [|discriminate]. destruct (out z').
    + apply (Hf z' i); auto. lia.
    + apply (IH (i + 1) z' maxiter r); auto; [lia|]. intros z0 k v Hk. apply Hf. lia.
Qed.

(** ** Newton's fractal *)
Lemma nearroot_some {R} (near : R -> R -> bool) rt roots k d : nearroot near rt roots = Some k ->
  (k < length roots)%nat /\ near (nth k roots d) rt = true /\ forall j, (j < k)%nat -> near (nth j roots d) rt = false.
Proof.
  revert k. induction roots as [|t l IH]; intros k H; cbn [nearroot] in H; [discriminate|].
  destruct (near t rt) eqn:E.
  - inversion H; subst. cbn [length nth]. split; [lia|]. split; auto. intros j Hj; lia.
  - destruct (nearroot near rt l) as [k'|] eqn:E2; [|discriminate]. inversion H; subst.
    destruct (IH k' eq_refl) as (A & B & C). cbn [length nth]. split; [lia|]. split; auto.
    intros [|j] Hj; auto. apply C. lia.
Qed.
Lemma nearroot_none {R} (near : R -> R -> bool) rt roots : nearroot near rt roots = None ->
  forall t, In t roots -> near t rt = false.
Proof.
  induction roots as [|a l IH]; intros H t Ht; [destruct Ht|]. cbn [nearroot] in H.
  destruct (near a rt) eqn:E; [discriminate|]. destruct (nearroot near rt l); [discriminate|].
  destruct Ht as [->|Ht]; auto.
Qed.

(** ** points of iterated functions *)
Lemma ifs_run pts b w h bits o x1 y1 x2 y2 c : wf b w h bits -> storable bits c ->
  exists b', IFS pts x1 y1 x2 y2 c (mkst b o) = (Ok tt, mkst b' o) /\
    repainted b b' w h bits (fun x y =>
      if pt_in pts x y && (((Z.min x1 x2 <? x) && (x <? Z.max x1 x2)) && ((Z.min y1 y2 <? y) && (y <? Z.max y1 y2)))
      then reduce bits c else pixel b w h bits x y).
Proof.
  intros W Hs. unfold IFS. rewrite sort_minmax.
  destruct (points_run (filter (fun p => isinrectbnd (fst p) (snd p) (Z.min x1 x2) (Z.min y1 y2) (Z.max x1 x2) (Z.max y1 y2)) pts)
              c b w h bits o W Hs) as (b' & E & R).
  exists b'. split; [exact E|]. eapply repainted_ext; [|exact R]. intros x y _. cbn beta.
  replace (pt_in (filter _ pts) x y) with
    (pt_in pts x y && (((Z.min x1 x2 <? x) && (x <? Z.max x1 x2)) && ((Z.min y1 y2 <? y) && (y <? Z.max y1 y2)))); auto.
  apply eq_iff_eq_true. rewrite andb_true_iff, !pt_in_iff, filter_In. cbn [fst snd]. unfold isinrectbnd.
  rewrite !andb_true_iff, !Z.ltb_lt, !Z.gtb_lt. clear. tauto.
Qed.

Lemma flower_run pts col b w h bits o : wf b w h bits -> (bits = 24 -> forall x y, In (x, y) pts -> 0 <= col x y < 2 ^ 24) ->
  exists b', plotflower pts col (mkst b o) = (Ok tt, mkst b' o) /\
    repainted b b' w h bits (fun x y =>
      if pt_in pts x y then (if bits =? 24 then col x y else 2 ^ bits - 1 - col x y mod 2 ^ bits) else pixel b w h bits x y).
Proof.
  intros W Hc. unfold plotflower. rewrite (bind_ok _ _ _ _ _ (run_rd _ _ _ _ (wf_rcolors _ _ _ _ W))).
  apply forM_paint; auto. intros [x y] b1 o1 Hin W1. cbn [fst snd].
  rewrite (bind_ok _ _ _ _ _ (wf_geti_bits _ _ _ _ W1 _)).
  destruct (plot_any b1 w h bits o1 x y (if bits =? 24 then col x y else 2 ^ bits - 1 - col x y mod 2 ^ bits) W1) as (b' & E & R).
  { intros Hb. destruct (Z.eqb_spec bits 24) as [_|N]; [|contradiction]. now apply Hc. }
  exists b'. split; [exact E|]. eapply repainted_ext; [|exact R]. intros x' y' _. unfold put_px.
  destruct (Z.eqb_spec x' x) as [->|]; [destruct (Z.eqb_spec y' y) as [->|]|]; cbn [andb]; auto.
  clear - W. pose proof (wf_depth _ _ _ _ W) as D. unfold reduce.
  destruct D as [-> | [-> | [-> | ->]]]; cbn [Z.eqb Pos.eqb]; auto.
  - change (2 ^ 1) with 2. destruct (Z.ltb_spec 0 (2 - 1 - col x y mod 2)); lia.
  - change (2 ^ 4) with 16. lia.
  - change (2 ^ 8) with 256. lia.
Qed.
