(** Attractors (proofs). *)
From Coq Require Import ZArith String List Bool Lia.
From Verif Require Import PyBase PyFacts Spec Palette Bmp BmpFacts Raster PixelProofs HeaderProofs PlotList
  Region Geometry Draw Circle Shapes Files FileProofs Wrappers WrapProofs Fractal FractProofs FractProofs2.
Import ListNotations.
Open Scope Z_scope.
Open Scope py_scope.

(** how often the orbit meets a cell *)
Definition hits (cells : list (Z * Z)) (x y : Z) : Z := zlen (filter (fun p => (fst p =? x) && (snd p =? y)) cells).

Definition table (g : list (list Z)) (w h : Z) (f : Z -> Z -> Z) : Prop :=
  zlen g = h /\ forall y, 0 <= y < h -> zlen (nth (Z.to_nat y) g []) = w /\
    forall x, 0 <= x < w -> getz (nth (Z.to_nat y) g []) x = f x y.

Lemma nth_range {A} (f : Z -> A) n i d : 0 <= i < n -> nth (Z.to_nat i) (map f (range 0 n)) d = f i.
Proof.
  intros Hi. rewrite (nth_indep _ _ (f 0)) by (rewrite map_length; unfold range; rewrite map_length, seq_length; lia).
  rewrite map_nth. f_equal. unfold range. rewrite Z.sub_0_r.
  rewrite (nth_indep _ _ (0 + Z.of_nat 0)%Z) by (rewrite map_length, seq_length; lia).
  rewrite (map_nth (fun i : nat => 0 + Z.of_nat i)). rewrite seq_nth by lia. lia.
Qed.
Lemma getz_nth l i : 0 <= i -> getz l i = nth (Z.to_nat i) l 0.
Proof. intros H. unfold getz. destruct (Z.ltb_spec i 0); [lia|reflexivity]. Qed.
Lemma getz_put k a l x : 0 <= k < zlen l -> 0 <= x < zlen l -> getz (put_nth (Z.to_nat k) a l) x = if x =? k then a else getz l x.
Proof.
  intros Hk Hx. rewrite !getz_nth by lia. destruct (Z.eqb_spec x k) as [->|N].
  - apply put_nth_same. unfold zlen in Hk. lia.
  - apply put_nth_other. lia.
Qed.
Lemma zlen_put {A} k (a : A) l : zlen (put_nth k a l) = zlen l.
Proof. unfold zlen. now rewrite put_nth_length. Qed.

Definition cells_ok (cells : list (Z * Z)) (w h : Z) : Prop := forall x y, In (x, y) cells -> 0 <= x < w /\ 0 <= y < h.

Lemma hist_ok cells w h : 0 <= w -> 0 <= h -> cells_ok cells w h ->
  exists g, histogram2D cells w h = Ok g /\ table g w h (hits cells).
Proof.
  intros Hw Hh. induction cells as [|[px py] cells IH] using rev_ind; intros Hc.
  - eexists. split; [reflexivity|]. split; [rewrite zlen_map, zlen_range; lia|]. intros y Hy.
    rewrite nth_range by exact Hy. split; [rewrite zlen_map, zlen_range; lia|].
    intros x Hx. rewrite getz_nth by lia. rewrite nth_range by exact Hx. reflexivity.
  - destruct IH as (g & E & L & T). { intros x y Hi. apply Hc. rewrite in_app_iff. auto. }
    assert (Hp : 0 <= px < w /\ 0 <= py < h) by (apply Hc; rewrite in_app_iff; cbn; auto).
    unfold histogram2D in *. rewrite fold_left_app, E. cbn [fold_left rbind].
    replace (((0 <=? px) && (px <? w)) && ((0 <=? py) && (py <? h))) with true
      by (symmetry; rewrite !andb_true_iff, !Z.leb_le, !Z.ltb_lt; lia).
    eexists. split; [reflexivity|]. split; [now rewrite zlen_put|]. intros y Hy.
    assert (Hh1 : forall x, hits (cells ++ [(px, py)]) x y = hits cells x y + (if (px =? x) && (py =? y) then 1 else 0)).
    { intros x. unfold hits. rewrite filter_app, zlen_app. cbn [filter fst snd].
      destruct ((px =? x) && (py =? y)); [change (zlen [(px, py)]) with 1|change (zlen (@nil (Z * Z))) with 0]; lia. }
    destruct (T y Hy) as [Ly Ty]. destruct (Z.eq_dec py y) as [<-|N].
    + rewrite put_nth_same by (unfold zlen in L; lia). split; [now rewrite zlen_put|].
      intros x Hx. rewrite getz_put by lia. rewrite Hh1, Z.eqb_refl, andb_true_r, (Z.eqb_sym px x).
      destruct (Z.eqb_spec x px) as [->|]; rewrite Ty by lia; lia.
    + rewrite put_nth_other by lia. split; [exact Ly|]. intros x Hx. rewrite Hh1, Ty by lia.
      replace (py =? y) with false by (symmetry; now apply Z.eqb_neq). rewrite andb_false_r. lia.
Qed.
Lemma hist_outside cells w h : ~ cells_ok cells w h -> histogram2D cells w h = Err IndexError.
Proof.
  intros Hn. unfold histogram2D.
  match goal with |- fold_left ?f cells ?i = _ => set (F := f); set (I := i) end.
  assert (Kerr : forall l e, fold_left F l (Err e) = Err e) by (induction l as [|a l IH]; intros e; cbn; auto).
  assert (K : forall l g, ~ cells_ok l w h -> fold_left F l (Ok g) = Err IndexError).
  { induction l as [|[x y] l IH]; intros g H; [exfalso; apply H; intros ? ? []|]. cbn [fold_left].
    unfold F at 2. cbn [rbind].
    destruct (((0 <=? x) && (x <? w)) && ((0 <=? y) && (y <? h))) eqn:E.
    - apply IH. intros Hl. apply H. rewrite !andb_true_iff, !Z.leb_le, !Z.ltb_lt in E.
      intros x0 y0 [Q|Q]; [inversion Q; subst; lia|auto].
    - apply Kerr. }
  apply K. exact Hn.
Qed.

Lemma fold_min_le l : forall a, fold_left Z.min l a <= a /\ (forall z, In z l -> fold_left Z.min l a <= z) /\ In (fold_left Z.min l a) (a :: l).
Proof.
  induction l as [|b l IH]; intros a; cbn [fold_left].
  - split; [lia|]. split; [intros z []|cbn; auto].
  - destruct (IH (Z.min a b)) as (A & B & C). split; [lia|]. split.
    + intros z [<-|Hz]; [lia|auto].
    + cbn [In] in C. destruct C as [C|C]; [|cbn; auto]. rewrite <- C. destruct (Z.min_spec a b) as [[_ ->]|[_ ->]]; cbn; auto.
Qed.
Lemma fold_max_ge l : forall a, a <= fold_left Z.max l a /\ (forall z, In z l -> z <= fold_left Z.max l a) /\ In (fold_left Z.max l a) (a :: l).
Proof.
  induction l as [|b l IH]; intros a; cbn [fold_left].
  - split; [lia|]. split; [intros z []|cbn; auto].
  - destruct (IH (Z.max a b)) as (A & B & C). split; [lia|]. split.
    + intros z [<-|Hz]; [lia|auto].
    + cbn [In] in C. destruct C as [C|C]; [|cbn; auto]. rewrite <- C. destruct (Z.max_spec a b) as [[_ ->]|[_ ->]]; cbn; auto.
Qed.
Lemma minlist_ok l : l <> [] -> exists m, minlist l = Ok m /\ In m l /\ forall z, In z l -> m <= z.
Proof.
  destruct l as [|a l]; [contradiction|]. intros _. eexists. split; [reflexivity|].
  destruct (fold_min_le l a) as (A & B & C). split; [exact C|]. intros z [<-|Hz]; auto.
Qed.
Lemma maxlist_ok l : l <> [] -> exists m, maxlist l = Ok m /\ In m l /\ forall z, In z l -> z <= m.
Proof.
  destruct l as [|a l]; [contradiction|]. intros _. eexists. split; [reflexivity|].
  destruct (fold_max_ge l a) as (A & B & C). split; [exact C|]. intros z [<-|Hz]; auto.
Qed.
Lemma in_table g w h f z : table g w h f -> (In z (List.concat g) <-> exists x y, 0 <= x < w /\ 0 <= y < h /\ z = f x y).
Proof.
  intros [L T]. rewrite in_concat. split.
  - intros (r & Hr & Hz). apply (In_nth _ _ []) in Hr. destruct Hr as (j & Hj & Er).
    apply (In_nth _ _ 0) in Hz. destruct Hz as (i & Hi & Ez).
    assert (Hy : 0 <= Z.of_nat j < h) by (unfold zlen in L; lia). destruct (T _ Hy) as [Lr Tr]. rewrite Nat2Z.id, Er in Lr, Tr.
    assert (Hx : 0 <= Z.of_nat i < w) by (unfold zlen in Lr; lia).
    exists (Z.of_nat i), (Z.of_nat j). split; [exact Hx|]. split; [exact Hy|]. rewrite <- (Tr _ Hx). rewrite getz_nth by lia. now rewrite Nat2Z.id.
  - intros (x & y & Hx & Hy & ->). destruct (T y Hy) as [Ly Ty]. exists (nth (Z.to_nat y) g []). split.
    + apply nth_In. unfold zlen in L. lia.
    + rewrite <- (Ty x Hx). rewrite getz_nth by lia. apply nth_In. unfold zlen in Ly. lia.
Qed.

Lemma attractor_run scale cells w h bits W : valid_depth bits -> 0 < w < 2 ^ 24 -> 0 < h < 2 ^ 24 -> cells_ok cells w h ->
  exists lo hi, (exists x y, inside w h x y /\ hits cells x y = lo) /\ (exists x y, inside w h x y /\ hits cells x y = hi) /\
    (forall x y, inside w h x y -> lo <= hits cells x y <= hi) /\
    (lo = hi -> plotattractor scale cells w h bits W = (Err ZeroDivisionError, W)) /\
    (lo < hi -> (bits = 24 -> forall v, 0 <= v <= hi - lo -> 0 <= scale (2 ^ 24) (hi - lo) v < 2 ^ 24) ->
       exists b, plotattractor scale cells w h bits W = (Ok b, W) /\ wf b w h bits /\
         forall x y, inside w h x y -> pixel b w h bits x y = reduce bits (scale (2 ^ bits) (hi - lo) (hits cells x y - lo))).
Proof.
  intros Hd Hw Hh Hc. destruct (hist_ok cells w h ltac:(lia) ltac:(lia) Hc) as (g & Eg & T).
  assert (Hin : forall z, In z (List.concat g) <-> exists x y, 0 <= x < w /\ 0 <= y < h /\ z = hits cells x y)
    by (intros z; now apply in_table).
  assert (Hne : List.concat g <> []).
  { intros E. assert (K : In (hits cells 0 0) (List.concat g)) by (apply Hin; exists 0, 0; split; [lia|split; [lia|reflexivity]]).
    rewrite E in K. destruct K. }
  destruct (minlist_ok _ Hne) as (lo & El & Il & Ll). destruct (maxlist_ok _ Hne) as (hi & Eh & Ih & Lh).
  exists lo, hi.
  assert (Hb : forall x y, inside w h x y -> lo <= hits cells x y <= hi).
  { intros x y Hi. unfold inside in Hi. assert (K : In (hits cells x y) (List.concat g)) by (apply Hin; exists x, y; tauto). auto. }
  split. { apply Hin in Il. destruct Il as (x & y & A & B & ->). exists x, y. unfold inside. tauto. }
  split. { apply Hin in Ih. destruct Ih as (x & y & A & B & ->). exists x, y. unfold inside. tauto. }
  split; [exact Hb|].
  destruct (newBMP_wf w h bits Hd ltac:(lia) ltac:(lia)) as (b0 & E0 & W0 & P0 & _).
  assert (Epre : plotattractor scale cells w h bits W =
    (if hi - lo =? 0 then fraise ZeroDivisionError else
     r <~ callM b0 (forM (range 0 h) (fun q => forM (range 0 w) (fun p =>
        plotxybit p q (scale (2 ^ bits) (hi - lo) (getz (nth (Z.to_nat q) g []) p - lo))))) ;; fret (snd r)) W).
  { unfold plotattractor, fbind at 1, flift at 1. rewrite Eg. unfold fbind at 1, flift at 1. rewrite El.
    unfold fbind at 1, flift at 1. rewrite E0. unfold fbind at 1, flift at 1. rewrite (wf_rcolors _ _ _ _ W0).
    unfold fbind at 1, flift at 1. rewrite Eh. reflexivity. }
  rewrite Epre. split.
  - intros ->. rewrite Z.sub_diag. reflexivity.
  - intros Hlt Hsc. replace (hi - lo =? 0) with false by (symmetry; apply Z.eqb_neq; lia).
    set (pts := flat_map (fun q => map (fun p => (p, q)) (range 0 w)) (range 0 h)).
    assert (Hp : forall x y, In (x, y) pts <-> inside w h x y).
    { intros x y. unfold pts, inside. rewrite in_flat_map. split.
      - intros (q & Hq & Hi). apply in_map_iff in Hi. destruct Hi as (p & E & Hp). inversion E; subst. apply in_range in Hq, Hp. lia.
      - intros Hi. exists y. split; [apply in_range; lia|]. apply in_map_iff. exists x. split; [reflexivity|apply in_range; lia]. }
    destruct (forM_paint w h bits
       (fun p => plotxybit (fst p) (snd p) (scale (2 ^ bits) (hi - lo) (getz (nth (Z.to_nat (snd p)) g []) (fst p) - lo)))
       (fun x y => reduce bits (scale (2 ^ bits) (hi - lo) (hits cells x y - lo))) pts) with (b := b0) (o := con W)
       as (b & E & R); auto.
    { intros [x y] b1 o1 Hi W1. apply Hp in Hi. cbn [fst snd]. pose proof (Hb x y Hi) as Hr. unfold inside in Hi.
      destruct T as [_ T]. destruct (T y) as [_ Ty]; [tauto|]. rewrite Ty by tauto.
      destruct (plot_any b1 w h bits o1 x y (scale (2 ^ bits) (hi - lo) (hits cells x y - lo)) W1) as (b' & E & R).
      { intros ->. apply Hsc; [reflexivity|lia]. }
      exists b'. split; [exact E|]. eapply repainted_ext; [|exact R]. intros x' y' _. unfold put_px.
      destruct (Z.eqb_spec x' x) as [->|]; [destruct (Z.eqb_spec y' y) as [->|]|]; reflexivity. }
    exists b. unfold fbind, callM.
    assert (E2 : forM (range 0 h) (fun q => forM (range 0 w) (fun p =>
        plotxybit p q (scale (2 ^ bits) (hi - lo) (getz (nth (Z.to_nat q) g []) p - lo)))) (mkst b0 (con W)) = (Ok tt, mkst b (con W))).
    { rewrite <- E. unfold pts. rewrite forM_flat_map. apply forM_ext. intros q s _. now rewrite forM_map. }
    rewrite E2. cbn [files con mem out snd]. unfold fret. split; [destruct W; reflexivity|]. split; [apply R|].
    intros x y Hi. rewrite (proj2 (proj2 R)) by exact Hi.
    replace (pt_in pts x y) with true; [reflexivity|]. symmetry. apply pt_in_iff. now apply Hp.
Qed.
