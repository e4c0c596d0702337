(** Property C136: the pictures of the fractals. *)
From Coq Require Import ZArith Reals List Bool Lia Lra Psatz.
From Verif Require Import PyBase PyFacts Spec SpecShapes Bmp BmpFacts Raster Region Geometry IterProofs MathLib Fractal FractProofs2 Concrete Coords RealProofs Sweeps Cplx Escape EscapeProofs Pictures PropFractal PropEscape PropBiomorph.
Import ListNotations.
Open Scope R_scope.

(** ** What the pictures show *)
(** The rectangle (without its last column and row) shows at each pixel the colour of a value that is right for its point. *)
Definition pictured (b : list Z) (w h bits : Z) (o : list msg) (f : factors) (Pmax Pmin Qmax Qmin : R) (x1 y1 x2 y2 : Z) (fn : M unit) (V : R -> R -> Z -> Prop) : Prop :=
  exists b' v, fn (mkst b o) = (Ok tt, mkst b' o) /\ (forall x y, V (coord Pmin Pmax x1 x2 x) (coord Qmin Qmax y1 y2 y) (v x y)) /\
    repainted b b' w h bits (fun x y =>
      (if ((Z.min x1 x2 <=? x) && (x <? Z.max x1 x2)) && ((Z.min y1 y2 <=? y) && (y <? Z.max y1 y2))
       then fractal_colour f bits (v x y) else pixel b w h bits x y)%Z).
(** r is, modulo m, the integer next to x *)
Definition rounded (x : R) (m r : Z) : Prop := exists n, Rabs (x - IZR n) <= 1 / 2 /\ r = (n mod m)%Z.
(** the same for the integer part of x >= 0 *)
Definition floored (x : R) (m r : Z) : Prop := exists n, IZR n <= x < IZR n + 1 /\ r = (n mod m)%Z.
(** the first point of the orbit with a coordinate beyond a gives its distance from 0 *)
Definition variant_value (f : R * R -> R * R) (z : R * R) (a : R) (m r : Z) : Prop :=
  (exists k, (Z.of_nat k < m)%Z /\ (forall n, (1 <= n <= k)%nat -> ~ large a (fst (Nat.iter n f z)) /\ ~ large a (snd (Nat.iter n f z))) /\
     let p := Nat.iter (S k) f z in (large a (fst p) \/ large a (snd p)) /\ rounded (sqrt (sqnorm p)) m r) \/
  ((forall n, (1 <= n)%nat -> (Z.of_nat n <= m)%Z -> ~ large a (fst (Nat.iter n f z)) /\ ~ large a (snd (Nat.iter n f z))) /\ r = m).
(** the n-th point of the orbit of a partial function with the sum of the imaginary parts so far *)
Fixpoint partial_sum (g : R * R -> option (R * R)) (z : R * R) (n : nat) : option ((R * R) * R) :=
  match n with
  | O => Some (z, 0)
  | S k => match partial_sum g z k with
           | Some (u, y) => match g u with Some u' => Some (u', y + snd u') | None => None end
           | None => None
           end
  end.
Definition quiet (g : R * R -> option (R * R)) (z : R * R) (d : Z) (n : nat) : Prop := exists u y, partial_sum g z n = Some (u, y) /\ Rabs y <= IZR d.
Definition tetration_value (g : R * R -> option (R * R)) (z : R * R) (d m r : Z) : Prop :=
  (exists k, (Z.of_nat k < d)%Z /\ (forall n, (n <= k)%nat -> quiet g z d n) /\ ~ quiet g z d (S k) /\ r = (Z.of_nat k mod m)%Z) \/
  ((forall n, (Z.of_nat n <= d)%Z -> quiet g z d n) /\ r = m).
(** the value of ngonfunc, as in C132_ngon *)
Definition ngon_value (n : nat) (c z : R * R) (m r : Z) : Prop := let f := ngon_map n c in
  (0 <= r <= m)%Z /\ (forall j, (1 <= j)%nat -> (Z.of_nat j <= r)%Z -> sqnorm (Nat.iter j f z) <= 4) /\ (forall j, (Z.of_nat j < r)%Z -> Nat.iter j f z <> (0, 0)) /\
  ((r < m)%Z -> Nat.iter (Z.to_nat r) f z = (0, 0) \/ 4 < sqnorm (Nat.iter (S (Z.to_nat r)) f z)).

(** ** C136 *)
Lemma variant_ok P Q c d m a : (0 <= d)%Z -> (0 < m)%Z -> exists r, variant P Q c d m a = Ok r /\ variant_value (power_map (Z.to_nat d) c) (P, Q) a m r.
Proof.
  intros D M. unfold variant, multibiomorphvariant. set (f := power_map (Z.to_nat d) c). set (z0 := (P, Q)).
  assert (G : forall n i, (i + Z.of_nat n = m)%Z -> (0 <= i)%Z ->
     (forall k, (1 <= k)%nat -> (Z.of_nat k <= i)%Z -> ~ large a (fst (Nat.iter k f z0)) /\ ~ large a (snd (Nat.iter k f z0))) ->
     exists r, escape_from (fun z => (let! p := cpow z d in Ok (cadd p c))%py) (fun z => rlt a (Rabs (re z)) || rlt a (Rabs (im z)))
      (fun z _ => pymod (rround (cabs z)) m) n i (Nat.iter (Z.to_nat i) f z0) m = Ok r /\ variant_value f z0 a m r).
  { induction n as [|n IH]; intros i E I B; cbn [escape_from].
    - exists m. split; [reflexivity|]. right. split; [|reflexivity]. intros k K1 K2. apply B; lia.
    - rewrite step_power by exact D. cbn [rbind]. fold f. change (f (Nat.iter (Z.to_nat i) f z0)) with (Nat.iter (S (Z.to_nat i)) f z0).
      set (p := Nat.iter (S (Z.to_nat i)) f z0). destruct (rlt a (Rabs (re p)) || rlt a (Rabs (im p))) eqn:X.
      + rewrite pymod_ok by lia. eexists. split; [reflexivity|]. left. exists (Z.to_nat i). split; [lia|]. split; [intros k K; apply B; lia|]. fold p. cbv zeta.
        split; [apply orb_true_iff in X; destruct X as [X|X]; apply rlt_iff in X; [now left|now right]|]. eexists. split; [|reflexivity]. apply rround_near.
      + apply orb_false_iff in X. destruct X as [X1 X2]. apply not_large in X1, X2. unfold p. replace (S (Z.to_nat i)) with (Z.to_nat (i + 1)) by lia. apply IH; [lia|lia|].
        intros k K1 K2. destruct (Z.eq_dec (Z.of_nat k) (i + 1)) as [J|J]; [|apply B; lia]. replace k with (S (Z.to_nat i)) by lia. now split. }
  apply (G (Z.to_nat m) 0%Z); [lia|lia|intros; lia].
Qed.
Lemma tetration_ok zz P Q d m : (0 <= d)%Z -> m <> 0%Z -> exists r, tetrationfn zz P Q d m = Ok r /\ tetration_value zz (P, Q) d m r.
Proof.
  intros D M. unfold tetrationfn. set (z0 := (P, Q)).
  assert (G : forall n i z y, (i + Z.of_nat n = d)%Z -> (0 <= i)%Z -> partial_sum zz z0 (Z.to_nat i) = Some (z, y) -> (forall k, (Z.of_nat k <= i)%Z -> quiet zz z0 d k) ->
     exists r, tetration_from zz n i z y d m = Ok r /\ tetration_value zz z0 d m r).
  { induction n as [|n IH]; intros i z y E I S B; cbn [tetration_from].
    - exists m. split; [reflexivity|]. right. split; [|reflexivity]. intros k K. apply B; lia.
    - assert (NX : partial_sum zz z0 (Datatypes.S (Z.to_nat i)) = match zz z with Some u' => Some (u', y + snd u') | None => None end) by (cbn [partial_sum]; now rewrite S).
      destruct (zz z) as [u|].
      + destruct (rlt (IZR d) (Rabs (y + im u))) eqn:X.
        * rewrite pymod_ok by exact M. eexists. split; [reflexivity|]. left. exists (Z.to_nat i). split; [lia|]. split; [intros k K; apply B; lia|].
          split; [|now rewrite Z2Nat.id]. intros (u' & y' & A1 & A2). rewrite NX in A1. injection A1 as <- <-. apply rlt_iff in X. unfold im in X. lra.
        * replace (Datatypes.S (Z.to_nat i)) with (Z.to_nat (i + 1)) in NX by lia. apply rlt_no in X. apply (IH (i + 1)%Z); [lia|lia|exact NX|].
          intros k K. destruct (Z.eq_dec (Z.of_nat k) (i + 1)) as [J|J]; [|apply B; lia]. replace k with (Z.to_nat (i + 1)) by lia. exists u, (y + snd u). now split.
      + rewrite pymod_ok by exact M. eexists. split; [reflexivity|]. left. exists (Z.to_nat i). split; [lia|]. split; [intros k K; apply B; lia|].
        split; [|now rewrite Z2Nat.id]. intros (u' & y' & A1 & A2). rewrite NX in A1. discriminate. }
  apply (G (Z.to_nat d) 0%Z z0 0); [lia|lia|reflexivity|]. intros k K. replace k with O by lia. exists z0, 0. split; [reflexivity|]. rewrite Rabs_R0. now apply IZR_le.
Qed.
Lemma drawn (V : R -> R -> Z -> Prop) func b w h bits o f Pmax Pmin Qmax Qmin x1 y1 x2 y2 m : wf b w h bits -> x1 <> x2 -> y1 <> y2 ->
  (forall v, (0 <= v <= m)%Z -> fractal_fits f bits v) ->
  (bits = 8%Z -> (0 <= Z.min x1 x2 /\ Z.max x1 x2 <= w /\ 0 <= Z.min y1 y2 /\ Z.max y1 y2 <= h)%Z) ->
  (forall P Q r, V P Q r -> (0 <= r <= m)%Z) ->
  (forall P Q, exists r, func P Q m = Ok r /\ V P Q r) ->
  pictured b w h bits o f Pmax Pmin Qmax Qmin x1 y1 x2 y2 (draw (mkcanvas x1 y1 x2 y2 (Pmax, Pmin, Qmax, Qmin) f m) func) V.
Proof.
  intros W X Y FF H8 HV FV. set (v := fun x y => match func (coord Pmin Pmax x1 x2 x) (coord Qmin Qmax y1 y2 y) m with Ok r => r | Err _ => 0%Z end).
  unfold draw. cbn [cx1 cy1 cx2 cy2 cdomain cfactors cmaxiter].
  assert (A : forall x y, valueat x1 y1 x2 y2 (fun P Q => func P Q m) (Pmax, Pmin, Qmax, Qmin) x y = Ok (v x y) /\ V (coord Pmin Pmax x1 x2 x) (coord Qmin Qmax y1 y2 y) (v x y)).
  { intros x y. rewrite valueat_ok by assumption. unfold v. destruct (FV (coord Pmin Pmax x1 x2 x) (coord Qmin Qmax y1 y2 y)) as (r & E & T). rewrite E. now split. }
  destruct (C88_painted (valueat x1 y1 x2 y2 (fun P Q => func P Q m) (Pmax, Pmin, Qmax, Qmin)) v f b w h bits o x1 y1 x2 y2 W X Y) as (b' & E & RP).
  - intros x y _ _. destruct (A x y) as (E & T). split; [exact E|]. apply FF. eapply HV. exact T.
  - intros E8 _. now apply H8.
  - exists b', v. split; [exact E|]. split; [intros x y; apply A|exact RP].
Qed.
Lemma escape_bound f z m r : escape_time f z m r -> (0 <= r <= m)%Z.
Proof. now intros (A & _). Qed.
Lemma rounded_bound x m r : (0 < m)%Z -> rounded x m r -> (0 <= r <= m)%Z.
Proof. intros M (n & _ & ->). pose proof (Z.mod_pos_bound n m M). lia. Qed.
Lemma floored_bound x m r : (0 < m)%Z -> floored x m r -> (0 <= r <= m)%Z.
Proof. intros M (n & _ & ->). pose proof (Z.mod_pos_bound n m M). lia. Qed.
Lemma sum_bound f g size z lim m r : (0 < m)%Z -> sum_value f g size z lim m r -> (0 <= r <= m)%Z.
Proof. intros M [(k & _ & _ & _ & ->)|(_ & ->)]; [|lia]. pose proof (Z.mod_pos_bound (Z.of_nat k) m M). lia. Qed.
Lemma tetration_bound g z d m r : (0 < m)%Z -> tetration_value g z d m r -> (0 <= r <= m)%Z.
Proof. intros M [(k & _ & _ & _ & ->)|(_ & ->)]; [|lia]. pose proof (Z.mod_pos_bound (Z.of_nat k) m M). lia. Qed.
Lemma biomorph_bound f z a m r : (0 <= m)%Z -> biomorph_value f z a m r -> (0 <= r <= m)%Z.
Proof. intros M [(k & K & _ & [(_ & _ & ->)|(_ & _ & ->)])|(_ & ->)]; lia. Qed.
Lemma variant_bound f z a m r : (0 < m)%Z -> variant_value f z a m r -> (0 <= r <= m)%Z.
Proof. intros M [(k & K & _ & _ & H)|(_ & ->)]; [|lia]. now apply rounded_bound in H. Qed.

(** Each function paints the picture of its own value. *)
Theorem C136_escape : forall b w h bits o f Pmax Pmin Qmax Qmin x1 y1 x2 y2 m, wf b w h bits -> x1 <> x2 -> y1 <> y2 -> (0 <= m)%Z ->
  (forall v, (0 <= v <= m)%Z -> fractal_fits f bits v) ->
  (bits = 8%Z -> (0 <= Z.min x1 x2 /\ Z.max x1 x2 <= w /\ 0 <= Z.min y1 y2 /\ Z.max y1 y2 <= h)%Z) ->
  let k := mkcanvas x1 y1 x2 y2 (Pmax, Pmin, Qmax, Qmin) f m in
  let shows := pictured b w h bits o f Pmax Pmin Qmax Qmin x1 y1 x2 y2 in
  forall c d, (0 <= d)%Z ->
  shows (multibrotbmp k d) (fun P Q => escape_time (power_map (Z.to_nat d) (P, Q)) (0, 0) m) /\
  shows (multicornbmp k d) (fun P Q => escape_time (corn_map (Z.to_nat d) (P, Q)) (0, 0) m) /\
  shows (multijuliabmp k c d) (fun P Q => escape_time (power_map (Z.to_nat d) c) (P, Q) m) /\
  shows (lambdabmp k c) (fun P Q => escape_time (logistic c) (P, Q) m) /\
  shows (barnsleytreebmp k c) (fun P Q => escape_time (tree_map c) (P, Q) m) /\
  shows (spiraljuliabmp k c) (fun P Q => escape_time (fun z => ctan (plus (times z z) c)) (P, Q) m) /\
  shows (ngonbmp k c d) (fun P Q => ngon_value (Z.to_nat d) c (P, Q) m).
Proof.
  intros b w h bits o f Pmax Pmin Qmax Qmin x1 y1 x2 y2 m W X Y M FF H8 k shows c d D. unfold shows, k.
  repeat split; apply drawn; try assumption; try (intros P Q r; apply escape_bound); intros P Q.
  - now apply C131_multibrot.
  - now apply C131_multicorn.
  - now apply C131_multijulia.
  - now apply C131_lambda.
  - now apply C131_tree.
  - apply (escape_hits _ out2 (fun z => ctan (plus (times z z) c))); [|exact out2_iff|exact M]. reflexivity.
  - intros r (A & _). exact A.
  - destruct (C132_ngon P Q c d m D M) as (r & E & T). exists r. split; [exact E|exact T].
Qed.
Theorem C136_biomorphs : forall b w h bits o f Pmax Pmin Qmax Qmin x1 y1 x2 y2 m, wf b w h bits -> x1 <> x2 -> y1 <> y2 -> (0 <= m)%Z ->
  (forall v, (0 <= v <= m)%Z -> fractal_fits f bits v) ->
  (bits = 8%Z -> (0 <= Z.min x1 x2 /\ Z.max x1 x2 <= w /\ 0 <= Z.min y1 y2 /\ Z.max y1 y2 <= h)%Z) ->
  let k := mkcanvas x1 y1 x2 y2 (Pmax, Pmin, Qmax, Qmin) f m in
  let shows := pictured b w h bits o f Pmax Pmin Qmax Qmin x1 y1 x2 y2 in
  forall c d pw zz, (0 <= d)%Z ->
  shows (multibiomorphbmp k c d) (fun P Q => biomorph_value (power_map (Z.to_nat d) c) (P, Q) 5 m) /\
  shows (multizconjugatebmp k c d) (fun P Q => biomorph_value (corn_map (Z.to_nat d) c) (P, Q) 5 m) /\
  (forall fn g, In (fn, g) [(multisinbiomorphbmp, csin); (multicosbiomorphbmp, ccos); (multisinhbiomorphbmp, csinh); (multicoshbiomorphbmp, ccosh);
     (multitanbiomorphbmp, ctan); (multitanhbiomorphbmp, ctanh); (multiexpbiomorphbmp, cexp); (multi2ndtetrationbmp zz, zz)] ->
   shows (fn k c d) (fun P Q => biomorph_value (fun z => plus (plus (g z) (power z (Z.to_nat d))) c) (P, Q) 5 m)) /\
  shows (phasevariantbmp pw k c) (fun P Q => biomorph_value (fun z => plus (pw z) c) (P, Q) 5 m) /\
  ((0 < m)%Z -> shows (biomorphvariantbmp k c d) (fun P Q => variant_value (power_map (Z.to_nat d) c) (P, Q) 5 m)).
Proof.
  intros b w h bits o f Pmax Pmin Qmax Qmin x1 y1 x2 y2 m W X Y M FF H8 k shows c d pw zz D. unfold shows, k.
  split; [|split; [|split; [|split]]].
  - apply drawn; try assumption; intros P Q; [intros r; now apply biomorph_bound|now apply C132_multibiomorph].
  - apply drawn; try assumption; intros P Q; [intros r; now apply biomorph_bound|now apply C132_multibiomorph].
  - intros fn g I. pose proof C132_biomorphs as CB. cbn [In] in I, CB.
    repeat (destruct I as [I|I]; [injection I as <- <-; apply drawn; try assumption; intros P Q; [intros r; now apply biomorph_bound|first [apply CB; try assumption; tauto|apply biomorph_ok; [|exact M]]]|]); [|destruct I].
    intros z. unfold biomorphstep. rewrite cpow_nonneg by exact D. cbn [rbind]. rewrite power_eq. reflexivity.
  - apply drawn; try assumption; intros P Q; [intros r; now apply biomorph_bound|]. apply biomorph_ok; [reflexivity|exact M].
  - intros M'. apply drawn; try assumption; intros P Q; [intros r; now apply variant_bound|now apply variant_ok].
Qed.
Theorem C136_curves : forall b w h bits o f Pmax Pmin Qmax Qmin x1 y1 x2 y2 m, wf b w h bits -> x1 <> x2 -> y1 <> y2 -> (0 < m)%Z ->
  (forall v, (0 <= v <= m)%Z -> fractal_fits f bits v) ->
  (bits = 8%Z -> (0 <= Z.min x1 x2 /\ Z.max x1 x2 <= w /\ 0 <= Z.min y1 y2 /\ Z.max y1 y2 <= h)%Z) ->
  let k := mkcanvas x1 y1 x2 y2 (Pmax, Pmin, Qmax, Qmin) f m in
  let shows := pictured b w h bits o f Pmax Pmin Qmax Qmin x1 y1 x2 y2 in
  forall c d r zz, (0 <= d)%Z ->
  shows (multicirclebmp k d) (fun P Q => rounded (sqrt (P * P + Q * Q) ^ Z.to_nat d) m) /\
  shows (multihyperbolabmp k d) (fun P Q => rounded (Rabs (P ^ Z.to_nat d - Q ^ Z.to_nat d)) m) /\
  shows (astroidbmp k r) (fun P Q => rounded (Rabs ((P ^ 2 + Q ^ 2 - r ^ 2) ^ 3 + 27 * P ^ 2 * Q ^ 2 * r ^ 2)) m) /\
  shows (lemniscatebmp k r) (fun P Q => floored (Rabs (((P - r) ^ 2 + Q ^ 2) * ((P + r) ^ 2 + Q ^ 2) - r ^ 4)) m) /\
  shows (sinjuliabmp k c) (fun P Q => sum_value (fun z => times c (csin z)) (fun x => x) Rabs (P, Q) 50 m) /\
  shows (cosjuliabmp k c) (fun P Q => sum_value (fun z => times c (ccos z)) (fun x => x) Rabs (P, Q) 50 m) /\
  shows (marekdragonbmp k c) (fun P Q => sum_value (fun z => times z (plus c z)) Rabs (fun x => x) (P, Q) 65 m) /\
  shows (tetrationbmp zz k d) (fun P Q => tetration_value zz (P, Q) d m).
Proof.
  intros b w h bits o f Pmax Pmin Qmax Qmin x1 y1 x2 y2 m W X Y M FF H8 k shows c d r zz D. unfold shows, k. assert (M0 : m <> 0%Z) by lia.
  repeat split; apply drawn; try assumption; intros P Q; try (intros r'; first [now apply rounded_bound|now apply floored_bound|now apply sum_bound|now apply tetration_bound]).
  - destruct (proj2 (C132_circles P Q d m) D M0) as (n & E & N). eexists. split; [exact E|]. now exists n.
  - destruct (C132_hyperbolas P Q d m D M0) as (_ & _ & n & E & N). eexists. split; [exact E|]. now exists n.
  - unfold astroid. rewrite pymod_ok by exact M0. eexists. split; [reflexivity|]. eexists. split; [|reflexivity].
    replace (27 * P ^ 2 * Q ^ 2 * r ^ 2) with (27 * (P * P) * (Q * Q) * (r * r)) by ring. replace (P ^ 2 + Q ^ 2 - r ^ 2) with (P * P + Q * Q - r * r) by ring. apply rround_near.
  - destruct (C132_lemniscate P Q r m M0) as (n & E & N0 & N1 & N2). eexists. split; [exact E|]. exists n. split; [|reflexivity].
    set (d1 := sqrt ((P - r) * (P - r) + Q * Q)) in *. set (d2 := sqrt ((P + r) * (P + r) + Q * Q)) in *.
    assert (E1 : d1 * d1 = (P - r) * (P - r) + Q * Q) by (apply sqrt_sqrt, sumsq). assert (E2 : d2 * d2 = (P + r) * (P + r) + Q * Q) by (apply sqrt_sqrt, sumsq).
    replace (((P - r) ^ 2 + Q ^ 2) * ((P + r) ^ 2 + Q ^ 2)) with (d1 * d2 * (d1 * d2)); [now split|].
    replace (d1 * d2 * (d1 * d2)) with ((d1 * d1) * (d2 * d2)) by ring. rewrite E1, E2. ring.
  - apply C132_sums; lia.
  - apply C132_sums; lia.
  - apply C132_sums; lia.
  - now apply tetration_ok.
Qed.
(** ** Symmetric pictures *)
(** [s = false]: the rows at the same distance from the middle of the rectangle are the same;
    [s = true]: a half turn leaves the picture as it is. *)
Definition symmetric (b : list Z) (w h bits : Z) (o : list msg) (x1 y1 x2 y2 : Z) (s : bool) (fn : M unit) : Prop :=
  exists b', fn (mkst b o) = (Ok tt, mkst b' o) /\ wf b' w h bits /\
    forall x y, let x' := (if s then x1 + x2 - x else x)%Z in let y' := (y1 + y2 - y)%Z in
      (Z.min x1 x2 <= x < Z.max x1 x2)%Z -> (Z.min x1 x2 <= x' < Z.max x1 x2)%Z -> (Z.min y1 y2 < y < Z.max y1 y2)%Z ->
      inside w h x y -> inside w h x' y' -> pixel b' w h bits x' y' = pixel b' w h bits x y.
Lemma coord_opp q a b x : a <> b -> coord (- q) q a b (a + b - x) = - coord (- q) q a b x.
Proof.
  intros N. unfold coord. assert (D : IZR (Z.abs (b - a)) <> 0) by (apply not_0_IZR; lia).
  replace (a + b - x - Z.min a b)%Z with (Z.abs (b - a) - (x - Z.min a b))%Z by lia. rewrite (minus_IZR (Z.abs (b - a))). field. exact D.
Qed.
Lemma sym_pic (s : bool) func b w h bits o f Pmax Pmin Qmax x1 y1 x2 y2 m fn : fn = draw (mkcanvas x1 y1 x2 y2 (Pmax, Pmin, Qmax, - Qmax) f m) func ->
  wf b w h bits -> x1 <> x2 -> y1 <> y2 ->
  (forall v, (0 <= v <= m)%Z -> fractal_fits f bits v) ->
  (bits = 8%Z -> (0 <= Z.min x1 x2 /\ Z.max x1 x2 <= w /\ 0 <= Z.min y1 y2 /\ Z.max y1 y2 <= h)%Z) ->
  (forall P Q, exists r, func P Q m = Ok r /\ (0 <= r <= m)%Z) ->
  (s = true -> Pmin = - Pmax) -> (forall P Q, func (if s then - P else P) (- Q) m = func P Q m) ->
  symmetric b w h bits o x1 y1 x2 y2 s fn.
Proof.
  intros EF W X Y FF H8 FV HS SY. subst fn.
  destruct (drawn (fun P Q r => func P Q m = Ok r) func b w h bits o f Pmax Pmin Qmax (- Qmax) x1 y1 x2 y2 m W X Y FF H8) as (b' & v & E & V' & RP).
  - intros P Q r A. destruct (FV P Q) as (r' & B & D). congruence.
  - intros P Q. destruct (FV P Q) as (r' & B & D). now exists r'.
  - exists b'. split; [exact E|]. split; [apply RP|]. intros x y x' y' HX HX' HY I I'. destruct RP as (_ & _ & RP). rewrite !RP by assumption.
    assert (G : forall p q, (Z.min x1 x2 <= p < Z.max x1 x2)%Z -> (Z.min y1 y2 <= q < Z.max y1 y2)%Z -> ((Z.min x1 x2 <=? p) && (p <? Z.max x1 x2) && ((Z.min y1 y2 <=? q) && (q <? Z.max y1 y2)))%Z = true).
    { intros p q Hp Hq. rewrite !andb_true_iff, !Z.leb_le, !Z.ltb_lt. auto. }
    rewrite !G by (unfold y' in *; lia). f_equal. pose proof (V' x y) as A. pose proof (V' x' y') as A'. cbn beta in A, A'.
    assert (EY : coord (- Qmax) Qmax y1 y2 y' = - coord (- Qmax) Qmax y1 y2 y) by now apply coord_opp.
    assert (EX : coord Pmin Pmax x1 x2 x' = if s then - coord Pmin Pmax x1 x2 x else coord Pmin Pmax x1 x2 x).
    { unfold x'. destruct s; [|reflexivity]. rewrite HS by reflexivity. now apply coord_opp. }
    rewrite EX, EY, SY, A in A'. now injection A' as ->.
Qed.
Lemma cconj_sub u v : cconj (csub u v) = csub (cconj u) (cconj v).
Proof. unfold cconj, csub, re, im. cbn [fst snd]. f_equal. ring. Qed.
Lemma real_conj x : cconj (x, 0) = (x, 0).
Proof. unfold cconj, re, im; cbn [fst snd]; f_equal; ring. Qed.
Lemma lambda_mirror P Q x m : lambdafn P (- Q) (x, 0) m = lambdafn P Q (x, 0) m.
Proof.
  unfold lambdafn, escapetime. change (P, - Q) with (cconj (P, Q)). apply escape_same; [|apply out2_conj]. intros z. cbn [rbind].
  now rewrite !cconj_mul, cconj_sub, (real_conj x), (real_conj 1 : cconj (rtoc 1) = rtoc 1).
Qed.
Lemma tree_mirror P Q x m : barnsleytree P (- Q) (x, 0) m = barnsleytree P Q (x, 0) m.
Proof.
  unfold barnsleytree, escapetime. change (P, - Q) with (cconj (P, Q)). apply escape_same; [|apply out2_conj]. intros z. cbn [rbind].
  rewrite cconj_mul, cconj_sub, (real_conj x), (real_conj _ : cconj (rtoc (rsign (re z))) = rtoc (rsign (re z))). reflexivity.
Qed.
Lemma rsign_opp x : rsign (- x) = - rsign x.
Proof. rewrite !rsign_eq. destruct (Rlt_dec 0 (- x)), (Rlt_dec (- x) 0), (Rlt_dec 0 x), (Rlt_dec x 0); lra. Qed.
Lemma tree_turn P Q d m : barnsleytree (- P) (- Q) d m = barnsleytree P Q d m.
Proof.
  unfold barnsleytree, escapetime. change (- P, - Q) with (copp (P, Q)). apply escape_same.
  - intros z. cbn [rbind]. f_equal. change (re (copp z)) with (- re z). rewrite rsign_opp. replace (rtoc (- rsign (re z))) with (copp (rtoc (rsign (re z)))) by cring. ring.
  - intros z. unfold out2, cabs, norm2, copp, re, im. cbn [fst snd]. do 2 f_equal. ring.
Qed.
Lemma spiral_turn P Q c m : spiraljulia (- P) (- Q) c m = spiraljulia P Q c m.
Proof. apply escape_start. do 2 f_equal. change (- P, - Q) with (copp (P, Q)). f_equal. ring. Qed.
Lemma minus_one_power n : Nat.even n = true -> power (-1, 0) n = (1, 0).
Proof.
  intros E. apply Nat.even_spec in E. destruct E as (k & ->). rewrite power_eq. replace (2 * k)%nat with (k + k)%nat by lia. rewrite cpown_add, <- cpown_mul.
  replace (cmul (-1, 0) (-1, 0)) with (rtoc 1) by cring. induction k as [|k IH]; [reflexivity|]. cbn [cpown]. rewrite IH. cring.
Qed.
Lemma minus_times P Q : times (-1, 0) (P, Q) = (- P, - Q).
Proof. unfold times. cbn [fst snd]. f_equal; ring. Qed.
(** The domain is symmetric about the real axis and the constants are real. *)
Theorem C136_mirror : forall b w h bits o f Pmax Pmin Qmax x1 y1 x2 y2 m, wf b w h bits -> x1 <> x2 -> y1 <> y2 -> (0 < m)%Z ->
  (forall v, (0 <= v <= m)%Z -> fractal_fits f bits v) ->
  (bits = 8%Z -> (0 <= Z.min x1 x2 /\ Z.max x1 x2 <= w /\ 0 <= Z.min y1 y2 /\ Z.max y1 y2 <= h)%Z) ->
  let k := mkcanvas x1 y1 x2 y2 (Pmax, Pmin, Qmax, - Qmax) f m in
  let sym := symmetric b w h bits o x1 y1 x2 y2 false in
  forall x d r, (0 <= d)%Z ->
  sym (multibrotbmp k d) /\ sym (multicornbmp k d) /\ sym (multicirclebmp k d) /\ sym (astroidbmp k r) /\ sym (lemniscatebmp k r) /\
  (forall fn, In fn [multijuliabmp; multibiomorphbmp; multisinbiomorphbmp; multicosbiomorphbmp; multisinhbiomorphbmp; multicoshbiomorphbmp; multitanbiomorphbmp;
     multitanhbiomorphbmp; multiexpbiomorphbmp; multizconjugatebmp] -> sym (fn k (x, 0) d)) /\
  (forall fn, In fn [lambdabmp; barnsleytreebmp; sinjuliabmp; cosjuliabmp; marekdragonbmp] -> sym (fn k (x, 0))).
Proof.
  intros b w h bits o f Pmax Pmin Qmax x1 y1 x2 y2 m W X Y M FF H8 k sym x d r D. unfold sym. assert (M0 : m <> 0%Z) by lia. assert (M1 : (0 <= m)%Z) by lia.
  assert (G : forall func, (forall P Q, exists r, func P Q m = Ok r /\ (0 <= r <= m)%Z) -> (forall P Q, func P (- Q) m = func P Q m) -> symmetric b w h bits o x1 y1 x2 y2 false (draw k func)).
  { intros func A B. eapply sym_pic with (func := func) (m := m); try eassumption; [reflexivity|discriminate]. }
  assert (ES : forall e F z, (exists r, e = Ok r /\ escape_time F z m r) -> exists r, e = Ok r /\ (0 <= r <= m)%Z) by (intros e F z (q & E & T & _); now exists q).
  assert (BI : forall e F z a, (exists r, e = Ok r /\ biomorph_value F z a m r) -> exists r, e = Ok r /\ (0 <= r <= m)%Z) by (intros e F z a (q & E & T); exists q; split; [exact E|now apply biomorph_bound in T]).
  assert (SM : forall e F g sz z lim, (exists r, e = Ok r /\ sum_value F g sz z lim m r) -> exists r, e = Ok r /\ (0 <= r <= m)%Z) by (intros e F g sz z lim (q & E & T); exists q; split; [exact E|now apply sum_bound in T]).
  assert (MD : forall n, exists r, Ok (n mod m)%Z = Ok r /\ (0 <= r <= m)%Z) by (intros n; pose proof (Z.mod_pos_bound n m M); eexists; split; [reflexivity|lia]).
  split; [|split; [|split; [|split; [|split; [|split]]]]].
  - apply G; intros P Q; [eapply ES, C131_multibrot; assumption|apply C131_symmetry].
  - apply G; intros P Q; [eapply ES, C131_multicorn; assumption|apply C131_symmetry].
  - apply G; intros P Q; [destruct (proj2 (C132_circles P Q d m) D M0) as (n & E & _); rewrite E; apply MD|]. apply C132_circles. ring.
  - apply G; intros P Q; unfold astroid; [rewrite pymod_ok by exact M0; apply MD|]. now replace (- Q * - Q) with (Q * Q) by ring.
  - apply G; intros P Q; unfold lemniscate; [rewrite pymod_ok by exact M0; apply MD|]. now replace (- Q * - Q) with (Q * Q) by ring.
  - intros fn I. pose proof C132_biomorphs as CB. pose proof C132_symmetry as CS. cbn [In] in I, CB, CS.
    destruct I as [<- | I]; [apply G; intros P Q; [eapply ES, C131_multijulia; assumption|apply C131_symmetry]|].
    destruct I as [<- | I]; [apply G; intros P Q; [eapply BI, C132_multibiomorph; assumption|apply CS; tauto]|].
    do 7 (destruct I as [<- | I]; [apply G; intros P Q; [eapply BI, CB; try assumption; tauto|apply CS; tauto]|]).
    destruct I as [<- | []]. apply G; intros P Q; [eapply BI, C132_multibiomorph; assumption|apply CS; tauto].
  - intros fn I. cbn [In] in I.
    destruct I as [<- | I]; [apply G; intros P Q; [eapply ES, C131_lambda; assumption|apply lambda_mirror]|].
    destruct I as [<- | I]; [apply G; intros P Q; [eapply ES, C131_tree; assumption|apply tree_mirror]|].
    destruct I as [<- | I]; [apply G; intros P Q; [eapply SM; apply sum_ok; lia|exact (proj1 (proj1 (proj2 (proj2 (C132_sum_symmetry P Q (x, 0) m 50))) x))]|].
    destruct I as [<- | I]; [apply G; intros P Q; [eapply SM; apply sum_ok; lia|exact (proj2 (proj1 (proj2 (proj2 (C132_sum_symmetry P Q (x, 0) m 50))) x))]|].
    destruct I as [<- | []]. apply G; intros P Q; [eapply SM; apply sum_ok; lia|].
    destruct (C132_sum_symmetry P Q (x, 0) m 65) as (_ & _ & _ & E). change (mirror (x, 0)) with (cconj (x, 0)) in E. rewrite real_conj in E. exact E.
Qed.
(** The domain is symmetric about both axes. *)
Theorem C136_turn : forall b w h bits o f Pmax Qmax x1 y1 x2 y2 m, wf b w h bits -> x1 <> x2 -> y1 <> y2 -> (0 < m)%Z ->
  (forall v, (0 <= v <= m)%Z -> fractal_fits f bits v) ->
  (bits = 8%Z -> (0 <= Z.min x1 x2 /\ Z.max x1 x2 <= w /\ 0 <= Z.min y1 y2 /\ Z.max y1 y2 <= h)%Z) ->
  let k := mkcanvas x1 y1 x2 y2 (Pmax, - Pmax, Qmax, - Qmax) f m in
  let sym := symmetric b w h bits o x1 y1 x2 y2 true in
  forall c d r, (2 <= d)%Z ->
  (Z.odd d = true -> sym (multibrotbmp k d) /\ sym (multicornbmp k d)) /\
  (Z.even d = true -> sym (multijuliabmp k c d) /\ sym (ngonbmp k c d)) /\
  sym (multicirclebmp k d) /\ sym (astroidbmp k r) /\ sym (lemniscatebmp k r) /\
  (forall fn, In fn [barnsleytreebmp; sinjuliabmp; cosjuliabmp; spiraljuliabmp] -> sym (fn k c)).
Proof.
  intros b w h bits o f Pmax Qmax x1 y1 x2 y2 m W X Y M FF H8 k sym c d r D. unfold sym. assert (M0 : m <> 0%Z) by lia. assert (M1 : (0 <= m)%Z) by lia.
  assert (G : forall func, (forall P Q, exists r, func P Q m = Ok r /\ (0 <= r <= m)%Z) -> (forall P Q, func (- P) (- Q) m = func P Q m) -> symmetric b w h bits o x1 y1 x2 y2 true (draw k func)).
  { intros func A B. eapply sym_pic with (func := func) (m := m); try eassumption; reflexivity. }
  assert (ES : forall e F z, (exists r, e = Ok r /\ escape_time F z m r) -> exists r, e = Ok r /\ (0 <= r <= m)%Z) by (intros e F z (q & E & T & _); now exists q).
  assert (SM : forall e F g sz z lim, (exists r, e = Ok r /\ sum_value F g sz z lim m r) -> exists r, e = Ok r /\ (0 <= r <= m)%Z) by (intros e F g sz z lim (q & E & T); exists q; split; [exact E|now apply sum_bound in T]).
  assert (MD : forall n, exists r, Ok (n mod m)%Z = Ok r /\ (0 <= r <= m)%Z) by (intros n; pose proof (Z.mod_pos_bound n m M); eexists; split; [reflexivity|lia]).
  assert (EV : forall e, (0 <= e)%Z -> Z.even e = true -> power (-1, 0) (Z.to_nat e) = (1, 0)).
  { intros e E0 E. apply minus_one_power. apply Z.even_spec in E. destruct E as (j & ->). apply Nat.even_spec. exists (Z.to_nat j). lia. }
  split; [|split; [|split; [|split; [|split]]]].
  - intros O. assert (E1 : Z.even (d - 1) = true) by (rewrite Z.even_sub, <- Z.negb_odd, O; reflexivity). assert (E2 : Z.even (d + 1) = true) by (rewrite Z.even_add, <- Z.negb_odd, O; reflexivity).
    split; apply G; intros P Q.
    + eapply ES, C131_multibrot; lia.
    + pose proof (C131_rotation (-1, 0) P Q d m D) as H. rewrite minus_times in H. apply H. apply EV; [lia|exact E1].
    + eapply ES, C131_multicorn; lia.
    + pose proof (C131_rotation (-1, 0) P Q d m D) as H. rewrite minus_times in H. apply H. apply EV; [lia|exact E2].
  - intros E. split; apply G; intros P Q.
    + eapply ES, C131_multijulia; lia.
    + apply C131_symmetry; [lia|exact E].
    + destruct (C132_ngon P Q c d m ltac:(lia) M1) as (q & A & B & _). now exists q.
    + pose proof (C132_ngon_rotation (-1, 0) P Q c d m ltac:(lia) (EV d ltac:(lia) E)) as H. rewrite minus_times in H. exact H.
  - apply G; intros P Q; [destruct (proj2 (C132_circles P Q d m) ltac:(lia) M0) as (n & E & _); rewrite E; apply MD|]. apply C132_circles. ring.
  - apply G; intros P Q; unfold astroid; [rewrite pymod_ok by exact M0; apply MD|]. now replace (- Q * - Q) with (Q * Q) by ring; replace (- P * - P) with (P * P) by ring.
  - apply G; intros P Q; unfold lemniscate; [rewrite pymod_ok by exact M0; apply MD|]. now replace (- Q * - Q) with (Q * Q) by ring; replace (- P * - P) with (P * P) by ring.
  - intros fn I. cbn [In] in I.
    destruct I as [<- | I]; [apply G; intros P Q; [eapply ES, C131_tree; assumption|apply tree_turn]|].
    destruct I as [<- | I]; [apply G; intros P Q; [eapply SM; apply sum_ok; lia|exact (proj1 (C132_sum_symmetry P Q c m 50))]|].
    destruct I as [<- | I]; [apply G; intros P Q; [eapply SM; apply sum_ok; lia|exact (proj1 (proj2 (C132_sum_symmetry P Q c m 50)))]|].
    destruct I as [<- | []]. apply G; intros P Q; [|apply spiral_turn].
    eapply ES. apply (escape_hits _ out2 (fun z => ctan (plus (times z z) c))); [reflexivity|exact out2_iff|exact M1].
Qed.

(** ** Exclusive or *)
(** the integer part towards 0 *)
Definition whole (x : R) (a : Z) : Prop := Rabs (x - IZR a) < 1 /\ Rabs (IZR a) <= Rabs x.
Lemma rtrunc_whole x : whole x (rtrunc x).
Proof. split; [apply rtrunc_near|apply rtrunc_abs]. Qed.
Theorem C136_xor : forall b w h bits o f Pmax Pmin Qmax Qmin x1 y1 x2 y2 m, wf b w h bits -> x1 <> x2 -> y1 <> y2 -> (0 < m)%Z ->
  (forall v, (0 <= v <= m)%Z -> fractal_fits f bits v) ->
  (bits = 8%Z -> (0 <= Z.min x1 x2 /\ Z.max x1 x2 <= w /\ 0 <= Z.min y1 y2 /\ Z.max y1 y2 <= h)%Z) ->
  let k := mkcanvas x1 y1 x2 y2 (Pmax, Pmin, Qmax, Qmin) f m in
  let shows := pictured b w h bits o f Pmax Pmin Qmax Qmin x1 y1 x2 y2 in
  forall d, d <> 0%Z ->
  shows (xorbmp k d) (fun P Q r => exists p q, whole P p /\ whole Q q /\ r = (Z.lxor p q mod d mod m)%Z) /\
  shows (xordivbmp k d) (fun P Q r => exists p q, whole P p /\ whole Q q /\ r = (Z.lxor p q / d mod m)%Z).
Proof.
  intros b w h bits o f Pmax Pmin Qmax Qmin x1 y1 x2 y2 m W X Y M FF H8 k shows d D. unfold shows, k.
  split; apply drawn; try assumption; intros P Q.
  - intros r (p & q & _ & _ & ->). pose proof (Z.mod_pos_bound (Z.lxor p q mod d) m M). lia.
  - unfold xorat, xorfn. rewrite !pymod_ok by assumption. cbn [rbind]. rewrite pymod_ok by lia. eexists. split; [reflexivity|]. exists (rtrunc P), (rtrunc Q).
    split; [apply rtrunc_whole|]. split; [apply rtrunc_whole|reflexivity].
  - intros r (p & q & _ & _ & ->). pose proof (Z.mod_pos_bound (Z.lxor p q / d) m M). lia.
  - unfold xordivat, xordivfn. destruct (d =? 0)%Z eqn:E; [apply Z.eqb_eq in E; contradiction|]. rewrite pymod_ok by lia. eexists. split; [reflexivity|]. exists (rtrunc P), (rtrunc Q).
    split; [apply rtrunc_whole|]. split; [apply rtrunc_whole|reflexivity].
Qed.
(** With one unit of the domain per pixel the value is made of the coordinates of the pixel. *)
Lemma coord_pixel a b x : a <> b -> coord (IZR (Z.min a b)) (IZR (Z.max a b)) a b x = IZR x.
Proof.
  intros N. unfold coord. rewrite <- minus_IZR. replace (Z.max a b - Z.min a b)%Z with (Z.abs (b - a)) by lia. assert (IZR (Z.abs (b - a)) <> 0) by (apply not_0_IZR; lia).
  rewrite minus_IZR. field. exact H.
Qed.
Lemma whole_Z n a : whole (IZR n) a -> a = n.
Proof.
  intros (A & _). rewrite <- minus_IZR, <- abs_IZR in A. apply (lt_IZR _ 1) in A. lia.
Qed.
Theorem C136_xor_pixels : forall b w h bits o f x1 y1 x2 y2 m d, wf b w h bits -> x1 <> x2 -> y1 <> y2 -> (0 < m)%Z -> d <> 0%Z ->
  (forall v, (0 <= v <= m)%Z -> fractal_fits f bits v) ->
  (bits = 8%Z -> (0 <= Z.min x1 x2 /\ Z.max x1 x2 <= w /\ 0 <= Z.min y1 y2 /\ Z.max y1 y2 <= h)%Z) ->
  let k := mkcanvas x1 y1 x2 y2 (IZR (Z.max x1 x2), IZR (Z.min x1 x2), IZR (Z.max y1 y2), IZR (Z.min y1 y2)) f m in
  (exists b', xorbmp k d (mkst b o) = (Ok tt, mkst b' o) /\ repainted b b' w h bits (fun x y =>
     (if ((Z.min x1 x2 <=? x) && (x <? Z.max x1 x2)) && ((Z.min y1 y2 <=? y) && (y <? Z.max y1 y2)) then fractal_colour f bits (Z.lxor x y mod d mod m) else pixel b w h bits x y)%Z)) /\
  (exists b', xordivbmp k d (mkst b o) = (Ok tt, mkst b' o) /\ repainted b b' w h bits (fun x y =>
     (if ((Z.min x1 x2 <=? x) && (x <? Z.max x1 x2)) && ((Z.min y1 y2 <=? y) && (y <? Z.max y1 y2)) then fractal_colour f bits (Z.lxor x y / d mod m) else pixel b w h bits x y)%Z)).
Proof.
  intros b w h bits o f x1 y1 x2 y2 m d W X Y M D FF H8 k.
  destruct (C136_xor b w h bits o f (IZR (Z.max x1 x2)) (IZR (Z.min x1 x2)) (IZR (Z.max y1 y2)) (IZR (Z.min y1 y2)) x1 y1 x2 y2 m W X Y M FF H8 d D) as ((b1 & v1 & E1 & V1 & R1) & (b2 & v2 & E2 & V2 & R2)).
  split; [exists b1; split; [exact E1|]; eapply repainted_ext; [|exact R1]|exists b2; split; [exact E2|]; eapply repainted_ext; [|exact R2]]; intros x y _; cbn beta; (destruct (_ && _)%bool; [|reflexivity]); f_equal.
  - destruct (V1 x y) as (p & q & A & B & ->). rewrite coord_pixel in A, B by assumption. apply whole_Z in A. apply whole_Z in B. now subst.
  - destruct (V2 x y) as (p & q & A & B & ->). rewrite coord_pixel in A, B by assumption. apply whole_Z in A. apply whole_Z in B. now subst.
Qed.
(** Such values are symmetric and 0 on the diagonal; for d = 2 ^ n they repeat after 2 ^ n pixels and each of 0 ... 2 ^ n - 1 stands once
    in every 2 ^ n pixels of a row. *)
Lemma lxor_mod a b n : (0 <= n)%Z -> (Z.lxor a b mod 2 ^ n = Z.lxor (a mod 2 ^ n) (b mod 2 ^ n))%Z.
Proof.
  intros N. apply Z.bits_inj'. intros j J. rewrite Z.lxor_spec. destruct (Z.lt_ge_cases j n) as [L|L].
  - rewrite !Z.mod_pow2_bits_low by lia. apply Z.lxor_spec.
  - rewrite !Z.mod_pow2_bits_high by lia. reflexivity.
Qed.
Theorem C136_xor_square : forall d m, d <> 0%Z -> m <> 0%Z ->
  (forall P Q, xorat P Q d m = xorat Q P d m /\ xordivat P Q d m = xordivat Q P d m /\ xorat P P d m = Ok 0%Z /\ xordivat P P d m = Ok 0%Z) /\
  (forall n, (0 <= n)%Z -> d = (2 ^ n)%Z -> (d <= m)%Z -> forall x y i j,
    xorat (IZR (x + i * d)) (IZR (y + j * d)) d m = xorat (IZR x) (IZR y) d m /\
    forall v, (0 <= v < d)%Z -> exists! x', (x <= x' < x + d)%Z /\ xorat (IZR x') (IZR y) d m = Ok v).
Proof.
  intros d m D M. split.
  - intros P Q. unfold xorat, xordivat, xorfn, xordivfn. rewrite (Z.lxor_comm (rtrunc P) (rtrunc Q)), Z.lxor_nilpotent. destruct (d =? 0)%Z eqn:E; [apply Z.eqb_eq in E; contradiction|].
    split; [reflexivity|]. split; [reflexivity|]. rewrite pymod_ok by assumption. cbn [rbind]. rewrite Z.mod_0_l, Z.div_0_l by assumption. rewrite pymod_ok, Z.mod_0_l by assumption. now split.
  - intros n N ED DM x y i j. assert (DP : (0 < d)%Z) by (rewrite ED; apply Z.pow_pos_nonneg; lia).
    assert (K : forall a b, xorat (IZR a) (IZR b) d m = Ok (Z.lxor (a mod d) (b mod d))).
    { intros a b. unfold xorat, xorfn. rewrite !rtrunc_Z, pymod_ok by exact D. cbn [rbind]. rewrite pymod_ok by exact M. f_equal. rewrite Z.mod_small by (pose proof (Z.mod_pos_bound (Z.lxor a b) d DP); lia). rewrite ED. now apply lxor_mod. }
    rewrite !K. split; [now rewrite !Z.mod_add by lia|]. intros v V.
    assert (LX : (0 <= Z.lxor v (y mod d) < d)%Z).
    { replace (Z.lxor v (y mod d)) with (Z.lxor v y mod d)%Z by (rewrite ED, lxor_mod, (Z.mod_small v) by lia; reflexivity). now apply Z.mod_pos_bound. }
    set (t := Z.lxor v (y mod d)) in *. exists (x + (t - x) mod d)%Z. pose proof (Z.mod_pos_bound (t - x) d DP) as B. split.
    + split; [lia|]. rewrite K. f_equal. replace ((x + (t - x) mod d) mod d)%Z with t.
      * unfold t. rewrite Z.lxor_assoc, Z.lxor_nilpotent. apply Z.lxor_0_r.
      * rewrite Z.add_mod_idemp_r by lia. replace (x + (t - x))%Z with t by lia. symmetry. now apply Z.mod_small.
    + intros x' (HX & E). rewrite K in E. injection E as E.
      assert (T : (x' mod d = t)%Z). { unfold t. rewrite <- E, Z.lxor_assoc, Z.lxor_nilpotent. symmetry. apply Z.lxor_0_r. }
      assert (Q : ((x' - x) mod d = (t - x) mod d)%Z) by (rewrite <- T; symmetry; apply Zminus_mod_idemp_l).
      rewrite Z.mod_small in Q by lia. lia.
Qed.
(** A rectangle without area is refused, and so are divisors 0. *)
Theorem C136_refused : forall b w h bits o k, wf b w h bits ->
  (cx1 k = cx2 k \/ cy1 k = cy2 k -> forall func, draw k func (mkst b o) = (Err ZeroDivisionError, mkst b o)) /\
  (forall P Q m, xorat P Q 0 m = Err ZeroDivisionError /\ xordivat P Q 0 m = Err ZeroDivisionError) /\
  (forall P Q d r, xorat P Q d 0 = Err ZeroDivisionError /\ xordivat P Q d 0 = Err ZeroDivisionError /\ astroid P Q r 0 = Err ZeroDivisionError /\ lemniscate P Q r 0 = Err ZeroDivisionError).
Proof.
  intros b w h bits o k W. split; [intros H func; unfold draw; eapply C88_empty; eauto|]. split; [intros P Q m; now split|]. intros P Q d r. unfold xorat, xordivat, xorfn, xordivfn, astroid, lemniscate, pymod. destruct (d =? 0)%Z; now repeat split.
Qed.
(** int() cuts towards 0, so a picture with negative coordinates is not the continuation of the one with positive ones:
    the points from -1 to 1 all have the value of 0. *)
Theorem C136_xor_refuted : forall P d m, d <> 0%Z -> m <> 0%Z -> -1 < P < 1 -> xorat P 0 d m = Ok 0%Z.
Proof.
  intros P d m D M H. unfold xorat, xorfn. assert (rtrunc P = 0%Z) as ->.
  { pose proof (rtrunc_abs P) as A. assert (B : Rabs P < 1) by (apply Rabs_def1; lra). rewrite <- abs_IZR in A. assert (C : IZR (Z.abs (rtrunc P)) < 1) by lra. apply (lt_IZR _ 1) in C. lia. }
  change 0 with (IZR 0). rewrite rtrunc_Z, Z.lxor_nilpotent, pymod_ok by exact D. cbn [rbind]. rewrite Z.mod_0_l, pymod_ok, Z.mod_0_l by assumption. reflexivity.
Qed.

Example C136_ex : let f := Three (fun c => (c, c, c)) (fun c => c) in
  wf (blank 4 4 8) 4 4 8 /\ (forall v, (0 <= v <= 255)%Z -> fractal_fits f 8 v) /\
  (exists b', xorbmp (mkcanvas 0 0 4 4 (IZR (Z.max 0 4), IZR (Z.min 0 4), IZR (Z.max 0 4), IZR (Z.min 0 4)) f 255) 4 (mkst (blank 4 4 8) []) = (Ok tt, mkst b' []) /\
    rows b' 4 4 8 = [[0; 1; 2; 3]; [1; 0; 3; 2]; [2; 3; 0; 1]; [3; 2; 1; 0]]%Z) /\
  (exists b', multicirclebmp (mkcanvas 0 0 4 4 (4, -4, 4, -4) f 255) 2 (mkst (blank 4 4 8) []) = (Ok tt, mkst b' []) /\ pixel b' 4 4 8 1 2 = 4%Z) /\
  xorat (5 / 2) (7 / 2) 4 255 = Ok 1%Z /\ whole (-1 / 2) 0 /\ Z.odd 3 = true /\ Z.even 2 = true.
Proof.
  intros f. assert (W : wf (blank 4 4 8) 4 4 8) by concrete_wf. assert (FF : forall v, (0 <= v <= 255)%Z -> fractal_fits f 8 v) by (intros v Hv; split; [discriminate|lia]).
  split; [exact W|]. split; [exact FF|]. split; [|split; [|split; [|split; [|now split]]]].
  - destruct (C136_xor_pixels (blank 4 4 8) 4 4 8 [] f 0 0 4 4 255 4 W ltac:(lia) ltac:(lia) ltac:(lia) ltac:(lia) FF ltac:(intros; lia)) as ((b' & E & RP) & _).
    exists b'. split; [exact E|]. destruct RP as (_ & _ & RP).
    assert (K : forall x y, (0 <= x < 4)%Z -> (0 <= y < 4)%Z -> pixel b' 4 4 8 x y = Z.lxor x y).
    { intros x y HX HY. rewrite RP by (unfold inside; lia). assert (x = 0 \/ x = 1 \/ x = 2 \/ x = 3)%Z as A by lia. assert (y = 0 \/ y = 1 \/ y = 2 \/ y = 3)%Z as B by lia.
      destruct A as [-> | [-> | [-> | ->]]], B as [-> | [-> | [-> | ->]]]; reflexivity. }
    unfold rows. cbn [map range Z.to_nat]. let v := eval vm_compute in (range 0 4) in change (range 0 4) with v. cbn [map]. rewrite !K by lia. reflexivity.
  - destruct (C136_curves (blank 4 4 8) 4 4 8 [] f 4 (-4) 4 (-4) 0 0 4 4 255 W ltac:(lia) ltac:(lia) ltac:(lia) FF ltac:(intros; lia) (0, 0) 2 0 (fun _ => None) ltac:(lia)) as ((b' & v & E & V & RP) & _).
    exists b'. split; [exact E|]. destruct RP as (_ & _ & RP). rewrite RP by (unfold inside; lia). cbn [Z.min Z.max Z.compare Z.leb Z.ltb andb Pos.compare Pos.compare_cont].
    destruct (V 1%Z 2%Z) as (n & N & EN). change (Z.to_nat 2) with 2%nat in N.
    assert (S4 : coord (-4) 4 0 4 1 * coord (-4) 4 0 4 1 + coord (-4) 4 0 4 2 * coord (-4) 4 0 4 2 = 4).
    { unfold coord. change (Z.min 0 4) with 0%Z. change (Z.abs (4 - 0)) with 4%Z. change (1 - 0)%Z with 1%Z. change (2 - 0)%Z with 2%Z. field. }
    rewrite S4 in N. rewrite <- Rsqr_pow2, Rsqr_sqrt in N by lra. assert (n = 4%Z). { assert (A := N). apply Rabs_le_inv in A. assert (IZR n < 5) by lra. assert (3 < IZR n) by lra. apply (lt_IZR _ 5) in H. apply (lt_IZR 3) in H0. lia. }
    subst n. unfold fractal_colour, f. cbn [Z.eqb Pos.eqb]. rewrite EN. reflexivity.
  - unfold xorat. assert (forall x n, (0 <= n)%Z -> IZR n <= x < IZR n + 1 -> rtrunc x = n) as K.
    { intros x n N A. unfold rtrunc. apply IZR_le in N. destruct (rlt x 0) eqn:E; [apply rlt_iff in E; lra|]. now apply int_unique. }
    rewrite (K (5 / 2) 2%Z), (K (7 / 2) 3%Z) by (lia || lra). reflexivity.
  - split; [rewrite Rabs_left; lra|rewrite Rabs_R0; apply Rabs_pos].
Qed.
Print Assumptions C136_escape.
Print Assumptions C136_biomorphs.
Print Assumptions C136_curves.
Print Assumptions C136_mirror.
Print Assumptions C136_turn.
Print Assumptions C136_xor.
Print Assumptions C136_xor_pixels.
Print Assumptions C136_xor_square.
Print Assumptions C136_refused.
Print Assumptions C136_xor_refuted.
