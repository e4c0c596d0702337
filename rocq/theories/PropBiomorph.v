(** Property C132: biomorphs, sums of imaginary parts, n-gons and level curves. *)
From Coq Require Import ZArith Reals List Bool Lia Lra Psatz.
From Verif Require Import PyBase PyFacts Spec SpecShapes Bmp BmpFacts Raster Region Geometry IterProofs MathLib Fractal PixelProofs PlotList ShapeProofs ShapeProofs2 VertProofs FractProofs FractProofs2 Concrete Coords RealProofs Sweeps Cplx Escape EscapeProofs PropEscape.
Import ListNotations.
Open Scope R_scope.

(** ** C132 *)
(** The functions of cmath in the model: Euler's formulas. *)
Theorem C132_functions : forall z w : C,
  cexp (cadd z w) = cmul (cexp z) (cexp w) /\ (forall x, cexp (rtoc x) = rtoc (exp x)) /\ (forall t, cexp (0, t) = (cos t, sin t)) /\
  cmul (rtoc 2) (ccos z) = cadd (cexp (cmul cI z)) (cexp (copp (cmul cI z))) /\
  cmul (cmul (rtoc 2) cI) (csin z) = csub (cexp (cmul cI z)) (cexp (copp (cmul cI z))) /\
  cmul (rtoc 2) (ccosh z) = cadd (cexp z) (cexp (copp z)) /\ cmul (rtoc 2) (csinh z) = csub (cexp z) (cexp (copp z)) /\
  (ccos z <> (0, 0) -> cmul (ctan z) (ccos z) = csin z) /\ (ccosh z <> (0, 0) -> cmul (ctanh z) (ccosh z) = csinh z).
Proof.
  intros [a b] [c d]. unfold cexp, ccos, csin, ccosh, csinh, cmul, cadd, csub, copp, cI, rtoc, re, im. cbn [fst snd].
  assert (I : cmul cI (a, b) = (- b, a)) by (unfold cmul, cI, re, im; cbn [fst snd]; f_equal; ring).
  split; [rewrite exp_plus, cos_plus, sin_plus; f_equal; ring|]. split; [intros x; rewrite cos_0, sin_0; f_equal; ring|].
  split; [intros t; rewrite exp_0; f_equal; ring|].
  replace (0 * a - 1 * b) with (- b) by ring. replace (0 * b + 1 * a) with a by ring. rewrite !Ropp_involutive, !cos_neg, !sin_neg.
  split; [unfold cosh, sinh; f_equal; field|]. split; [unfold cosh, sinh; f_equal; field|].
  split; [unfold cosh, sinh; f_equal; field|]. split; [unfold cosh, sinh; f_equal; field|].
  split; intros N.
  - unfold ctan. fold (csin (a, b)). fold (ccos (a, b)). change (cmul (cmul (csin (a, b)) (cinv (ccos (a, b)))) (ccos (a, b)) = csin (a, b)).
    transitivity (cmul (csin (a, b)) (cmul (ccos (a, b)) (cinv (ccos (a, b))))); [ring|]. rewrite cmul_inv by exact N. ring.
  - change (cmul (cmul (csinh (a, b)) (cinv (ccosh (a, b)))) (ccosh (a, b)) = csinh (a, b)).
    transitivity (cmul (csinh (a, b)) (cmul (ccosh (a, b)) (cinv (ccosh (a, b))))); [ring|]. rewrite cmul_inv by exact N. ring.
Qed.
(** The first point of the orbit with a coordinate beyond a decides: the number of points before it if both are, else the
    number of iterations. *)
Definition large (a x : R) : Prop := a < Rabs x.
Definition biomorph_value (f : R * R -> R * R) (z : R * R) (a : R) (m r : Z) : Prop :=
  (exists k, (Z.of_nat k < m)%Z /\ (forall n, (1 <= n <= k)%nat -> ~ large a (fst (Nat.iter n f z)) /\ ~ large a (snd (Nat.iter n f z))) /\
     (let p := Nat.iter (S k) f z in (large a (fst p) /\ large a (snd p) /\ r = Z.of_nat k) \/
        ((large a (fst p) \/ large a (snd p)) /\ ~ (large a (fst p) /\ large a (snd p)) /\ r = m))) \/
  ((forall n, (1 <= n)%nat -> (Z.of_nat n <= m)%Z -> ~ large a (fst (Nat.iter n f z)) /\ ~ large a (snd (Nat.iter n f z))) /\ r = m).
Lemma not_large a x : rlt a (Rabs x) = false -> ~ large a x.
Proof. intros H L. apply rlt_iff in L. congruence. Qed.
Lemma biomorph_ok (step : C -> res C) (f : R * R -> R * R) P Q a m : (forall z, step z = Ok (f z)) -> (0 <= m)%Z -> exists r, biomorph step P Q a m = Ok r /\ biomorph_value f (P, Q) a m r.
Proof.
  intros Hs M. unfold biomorph, biomorphfunc.
  assert (G : forall n i (z0 : R * R), (i + Z.of_nat n = m)%Z -> (0 <= i)%Z -> let z := Nat.iter (Z.to_nat i) f z0 in
     (forall k, (1 <= k)%nat -> (Z.of_nat k <= i)%Z -> ~ large a (fst (Nat.iter k f z0)) /\ ~ large a (snd (Nat.iter k f z0))) ->
     exists r, escape_from step (fun z => rlt a (Rabs (re z)) || rlt a (Rabs (im z)))
      (fun z i => if rlt a (Rabs (re z)) && rlt a (Rabs (im z)) then Ok i else Ok m) n i z m = Ok r /\ biomorph_value f z0 a m r).
  { induction n as [|n IH]; intros i z0 E I z B; cbn [escape_from].
    - exists m. split; [reflexivity|]. right. split; [|reflexivity]. intros k K1 K2. apply B; lia.
    - rewrite Hs. cbn [rbind]. assert (F : f z = Nat.iter (S (Z.to_nat i)) f z0) by reflexivity.
      destruct (rlt a (Rabs (re (f z)))) eqn:X, (rlt a (Rabs (im (f z)))) eqn:Y; cbn [orb andb].
      + exists i. split; [reflexivity|]. left. exists (Z.to_nat i). split; [lia|]. split; [intros k K; apply B; lia|]. cbv zeta. rewrite <- F. left. apply rlt_iff in X, Y. split; [exact X|]. split; [exact Y|lia].
      + exists m. split; [reflexivity|]. left. exists (Z.to_nat i). split; [lia|]. split; [intros k K; apply B; lia|]. cbv zeta. rewrite <- F. right. apply rlt_iff in X. apply not_large in Y.
        split; [left; exact X|]. split; [intros [_ H]; exact (Y H)|reflexivity].
      + exists m. split; [reflexivity|]. left. exists (Z.to_nat i). split; [lia|]. split; [intros k K; apply B; lia|]. cbv zeta. rewrite <- F. right. apply rlt_iff in Y. apply not_large in X.
        split; [right; exact Y|]. split; [intros [H _]; exact (X H)|reflexivity].
      + destruct (IH (i + 1)%Z z0 ltac:(lia) ltac:(lia)) as (r & Er & V).
        * intros k K1 K2. destruct (Z.eq_dec (Z.of_nat k) (i + 1)) as [J|J]; [|apply B; lia]. replace k with (S (Z.to_nat i)) by lia. rewrite <- F. split; now apply not_large.
        * exists r. split; [|exact V]. rewrite <- Er. f_equal. rewrite F. now replace (Z.to_nat (i + 1)) with (S (Z.to_nat i)) by lia. }
  apply (G (Z.to_nat m) 0%Z (P, Q)); [lia|lia|intros; lia].
Qed.
Theorem C132_biomorphs : forall fn g, In (fn, g)
  [(multisinbiomorph, csin); (multicosbiomorph, ccos); (multisinhbiomorph, csinh); (multicoshbiomorph, ccosh);
   (multitanbiomorph, ctan); (multitanhbiomorph, ctanh); (multiexpbiomorph, cexp)] ->
  forall P Q c d m a, (0 <= d)%Z -> (0 <= m)%Z ->
  exists r, fn P Q c d m a = Ok r /\ biomorph_value (fun z => plus (plus (g z) (power z (Z.to_nat d))) c) (P, Q) a m r.
Proof.
  intros fn g I P Q c d m a D M. assert (K : forall h z, biomorphstep h d c z = Ok (plus (plus (h z) (power z (Z.to_nat d))) c)).
  { intros h z. unfold biomorphstep. rewrite cpow_nonneg by exact D. cbn [rbind]. rewrite power_eq. reflexivity. }
  cbn [In] in I. repeat (destruct I as [I|I]; [injection I as <- <-; apply biomorph_ok; [apply K|exact M]|]). destruct I.
Qed.
Theorem C132_multibiomorph : forall P Q c d m a, (0 <= d)%Z -> (0 <= m)%Z ->
  (exists r, multibiomorph P Q c d m a = Ok r /\ biomorph_value (power_map (Z.to_nat d) c) (P, Q) a m r) /\
  (exists r, multizconjugatebiomorph P Q c d m a = Ok r /\ biomorph_value (corn_map (Z.to_nat d) c) (P, Q) a m r).
Proof.
  intros P Q c d m a D M. split; apply biomorph_ok; try exact M; intros z; [now apply step_power|]. exact (step_power c d (cconj z) D).
Qed.
(** For a real constant they are symmetric about the real axis. *)
Lemma found_same {X} (phi : X -> X) step step' out out' (found found' : X -> Z -> res Z) n : forall i z m,
  (forall z, step' (phi z) = (let! w := step z in Ok (phi w))%py) -> (forall z, out' (phi z) = out z) -> (forall z i, found' (phi z) i = found z i) ->
  escape_from step' out' found' n i (phi z) m = escape_from step out found n i z m.
Proof.
  induction n as [|n IH]; intros i z m Hs Ho Hf; cbn [escape_from]; [reflexivity|]. rewrite Hs. destruct (step z) as [w|e]; cbn [rbind]; [|reflexivity].
  rewrite Ho. destruct (out w); [apply Hf|]. now apply IH.
Qed.
Lemma biomorph_conj step P Q a m : (forall z, step (cconj z) = (let! w := step z in Ok (cconj w))%py) -> biomorph step P (- Q) a m = biomorph step P Q a m.
Proof.
  intros H. unfold biomorph, biomorphfunc. change (P, - Q) with (cconj (P, Q)). apply found_same; [exact H|..]; intros z; intros; unfold cconj, re, im; cbn [fst snd]; now rewrite Rabs_Ropp.
Qed.
Theorem C132_symmetry : forall fn, In fn [multibiomorph; multisinbiomorph; multicosbiomorph; multisinhbiomorph; multicoshbiomorph;
   multitanbiomorph; multitanhbiomorph; multiexpbiomorph; multizconjugatebiomorph] ->
  forall P Q x d m a, fn P (- Q) (x, 0) d m a = fn P Q (x, 0) d m a.
Proof.
  intros fn I P Q x d m a.
  assert (X : (x, 0) = cconj (x, 0)) by (unfold cconj, re, im; cbn [fst snd]; f_equal; ring).
  assert (K0 : forall z, (let! p := cpow (cconj z) d in Ok (cadd p (x, 0)))%py = (let! w := (let! p := cpow z d in Ok (cadd p (x, 0))) in Ok (cconj w))%py).
  { intros z. rewrite cconj_pow. destruct (cpow z d) as [p|e]; cbn [rbind]; [|reflexivity]. now rewrite cconj_add, <- X. }
  assert (K : forall g, (forall z, cconj (g z) = g (cconj z)) -> forall z, biomorphstep g d (x, 0) (cconj z) = (let! w := biomorphstep g d (x, 0) z in Ok (cconj w))%py).
  { intros g G z. unfold biomorphstep. rewrite cconj_pow. destruct (cpow z d) as [p|e]; cbn [rbind]; [|reflexivity]. now rewrite !cconj_add, <- X, G. }
  cbn [In] in I. repeat (destruct I as [<- | I]; [apply biomorph_conj; first [exact K0|apply K; first [exact cconj_sin|exact cconj_cos|exact cconj_sinh|exact cconj_cosh|exact cconj_tan|exact cconj_tanh|exact cconj_exp]|intros z; apply K0]|]). destruct I.
Qed.

(** ** Sums of imaginary parts *)
Fixpoint total (f : R * R -> R * R) (g : R -> R) (z : R * R) (k : nat) : R :=
  match k with O => 0 | S j => total f g z j + g (snd (Nat.iter (S j) f z)) end.
(** the number, modulo m, of sums before the first one that exceeds lim; m if none of the first lim sums does *)
Definition sum_value (f : R * R -> R * R) (g size : R -> R) (z : R * R) (lim m r : Z) : Prop :=
  (exists k, (Z.of_nat k < lim)%Z /\ (forall n, (1 <= n <= k)%nat -> size (total f g z n) <= IZR lim) /\ IZR lim < size (total f g z (S k)) /\ r = (Z.of_nat k mod m)%Z) \/
  ((forall n, (1 <= n)%nat -> (Z.of_nat n <= lim)%Z -> size (total f g z n) <= IZR lim) /\ r = m).
Lemma sum_ok (f : R * R -> R * R) g size P Q m lim : m <> 0%Z -> (0 <= lim)%Z -> exists r, sumescape f g P Q m lim size = Ok r /\ sum_value f g size (P, Q) lim m r.
Proof.
  intros M L. unfold sumescape, limitedescape. set (z0 := (P, Q)).
  assert (G : forall n i, (i + Z.of_nat n = lim)%Z -> (0 <= i)%Z ->
     (forall k, (1 <= k)%nat -> (Z.of_nat k <= i)%Z -> size (total f g z0 k) <= IZR lim) ->
     exists r, escape_from (fun zs : C * R => let z := f (fst zs) in Ok (z, (snd zs + g (im z))%R)) (fun zs => rlt (IZR lim) (size (snd zs))) (fun _ i => pymod i m)
       n i (Nat.iter (Z.to_nat i) f z0, total f g z0 (Z.to_nat i)) m = Ok r /\ sum_value f g size z0 lim m r).
  { induction n as [|n IH]; intros i E I B; cbn [escape_from].
    - exists m. split; [reflexivity|]. right. split; [|reflexivity]. intros k K1 K2. apply B; lia.
    - cbn [rbind fst snd]. change (f (Nat.iter (Z.to_nat i) f z0)) with (Nat.iter (S (Z.to_nat i)) f z0).
      change (total f g z0 (Z.to_nat i) + g (im (Nat.iter (S (Z.to_nat i)) f z0))) with (total f g z0 (S (Z.to_nat i))).
      destruct (rlt (IZR lim) (size (total f g z0 (S (Z.to_nat i))))) eqn:X.
      + apply rlt_iff in X. unfold pymod. destruct (m =? 0)%Z eqn:MZ; [apply Z.eqb_eq in MZ; contradiction|]. exists (i mod m)%Z. split; [reflexivity|]. left.
        exists (Z.to_nat i). split; [lia|]. split; [intros k K; apply B; lia|]. split; [exact X|]. now rewrite Z2Nat.id.
      + replace (S (Z.to_nat i)) with (Z.to_nat (i + 1)) in * by lia. apply IH; [lia|lia|]. intros k K1 K2.
        destruct (Z.eq_dec (Z.of_nat k) (i + 1)) as [J|J]; [|apply B; lia]. replace k with (Z.to_nat (i + 1)) by lia. now apply rlt_no. }
  apply (G (Z.to_nat lim) 0%Z); [lia|lia|intros; lia].
Qed.
Theorem C132_sums : forall P Q c m lim, m <> 0%Z -> (0 <= lim)%Z ->
  (exists r, sinjulia P Q c m lim = Ok r /\ sum_value (fun z => times c (csin z)) (fun x => x) Rabs (P, Q) lim m r) /\
  (exists r, cosjulia P Q c m lim = Ok r /\ sum_value (fun z => times c (ccos z)) (fun x => x) Rabs (P, Q) lim m r) /\
  (exists r, marekdragon P Q c m lim = Ok r /\ sum_value (fun z => times z (plus c z)) Rabs (fun x => x) (P, Q) lim m r).
Proof. intros P Q c m lim M L. split; [|split]; now apply sum_ok. Qed.
Lemma sum_same (phi : C -> C) (sg : R -> R) (f f' : C -> C) (g size : R -> R) z m lim : (forall z, f' (phi z) = phi (f z)) -> (forall z, g (im (phi z)) = sg (g (im z))) ->
  (forall x y, sg (x + y) = sg x + sg y) -> (forall x, size (sg x) = size x) -> sg 0 = 0 ->
  sumescape f' g (re (phi z)) (im (phi z)) m lim size = sumescape f g (re z) (im z) m lim size.
Proof.
  intros F G A S Z0. unfold sumescape, limitedescape. replace (re (phi z), im (phi z), 0) with ((fun zs => (phi (fst zs), sg (snd zs))) ((re z, im z), 0)) by (cbn [fst snd]; rewrite Z0; destruct z; unfold re, im; cbn [fst snd]; now destruct (phi _)).
  apply (found_same (fun zs => (phi (fst zs), sg (snd zs)))); [|intros zs; cbn [snd]; now rewrite S|reflexivity].
  intros [u s]. cbn [fst snd rbind]. now rewrite F, G, A.
Qed.
Theorem C132_sum_symmetry : forall P Q c m lim,
  sinjulia (- P) (- Q) c m lim = sinjulia P Q c m lim /\ cosjulia (- P) (- Q) c m lim = cosjulia P Q c m lim /\
  (forall x, sinjulia P (- Q) (x, 0) m lim = sinjulia P Q (x, 0) m lim /\ cosjulia P (- Q) (x, 0) m lim = cosjulia P Q (x, 0) m lim) /\
  marekdragon P (- Q) (mirror c) m lim = marekdragon P Q c m lim.
Proof.
  intros P Q c m lim. split; [|split; [|split]].
  - apply (sum_same copp Ropp _ _ (fun x => x) Rabs (P, Q)).
    + intros z. rewrite csin_opp. ring.
    + reflexivity.
    + intros; ring.
    + apply Rabs_Ropp.
    + ring.
  - unfold cosjulia, sumescape, limitedescape. destruct (Z.to_nat lim) as [|n]; [reflexivity|]. cbn [escape_from rbind fst snd]. change (- P, - Q) with (copp (P, Q)). now rewrite ccos_opp.
  - intros x. assert (X : cconj (x, 0) = (x, 0)) by (unfold cconj, re, im; cbn [fst snd]; f_equal; ring). split.
    + apply (sum_same cconj Ropp _ _ (fun x => x) Rabs (P, Q)); [|reflexivity|intros; ring|apply Rabs_Ropp|ring]. intros z. now rewrite cconj_mul, X, cconj_sin.
    + apply (sum_same cconj Ropp _ _ (fun x => x) Rabs (P, Q)); [|reflexivity|intros; ring|apply Rabs_Ropp|ring]. intros z. now rewrite cconj_mul, X, cconj_cos.
  - apply (sum_same cconj (fun x => x) _ _ Rabs (fun x => x) (P, Q)); try reflexivity.
    + intros z. change (mirror c) with (cconj c). now rewrite cconj_mul, cconj_add.
    + intros z. unfold cconj, re, im. cbn [fst snd]. apply Rabs_Ropp.
Qed.
(** ** n-gons *)
Lemma cpown_1 n : cpown (rtoc 1) n = rtoc 1.
Proof. induction n as [|n IH]; [reflexivity|]. cbn [cpown]. rewrite IH. ring. Qed.
Definition ngon_map (n : nat) (c z : R * R) : R * R := times (plus (power z n) c) (fst z / sqnorm z, - snd z / sqnorm z).
Lemma ngon_run c n m : (0 <= n)%Z -> forall k i z, (i + Z.of_nat k = m)%Z -> (0 <= i)%Z -> let f := ngon_map (Z.to_nat n) c in
  exists r, ngon_from c n k i z m = Ok r /\ (i <= r <= m)%Z /\
    (forall j, (1 <= j)%nat -> (i + Z.of_nat j <= r)%Z -> norm2 (Nat.iter j f z) <= 4) /\
    (forall j, (i + Z.of_nat j < r)%Z -> Nat.iter j f z <> (0, 0)) /\
    ((r < m)%Z -> Nat.iter (Z.to_nat (r - i)) f z = (0, 0) \/ 4 < norm2 (Nat.iter (S (Z.to_nat (r - i))) f z)).
Proof.
  intros N. induction k as [|k IH]; intros i z E I f; cbn [ngon_from].
  - exists m. split; [reflexivity|]. split; [lia|]. split; [intros; lia|]. split; [intros; lia|lia].
  - destruct (ceq z (0, 0)) eqn:Z0.
    + apply ceq_spec in Z0. exists i. split; [reflexivity|]. split; [lia|]. split; [intros; lia|]. split; [intros; lia|]. intros _. left. rewrite Z.sub_diag. exact Z0.
    + rewrite cpow_nonneg by exact N. cbn [rbind]. unfold cdiv. rewrite Z0. cbn [rbind]. rewrite <- power_eq.
      change (cmul (cadd (power z (Z.to_nat n)) c) (cinv z)) with (f z). destruct (out2 (f z)) eqn:O.
      * apply out2_iff in O. exists i. split; [reflexivity|]. split; [lia|]. split; [intros; lia|]. split; [intros; lia|]. intros _. right. rewrite Z.sub_diag. exact O.
      * destruct (IH (i + 1)%Z (f z) ltac:(lia) ltac:(lia)) as (r & Er & A & B & B0 & D). fold f in B, B0, D. exists r. split; [exact Er|]. split; [lia|]. split; [|split].
        -- intros [|[|j]] J1 J2; [lia| |].
           ++ change (Nat.iter 1 f z) with (f z). apply Rnot_lt_le. intros H. apply out2_iff in H. congruence.
           ++ rewrite <- iter_shift. apply B; lia.
        -- intros [|j] J; [change (Nat.iter 0 f z) with z; now apply ceq_false|]. rewrite <- iter_shift. apply B0. lia.
        -- intros H. specialize (D H). rewrite !iter_shift in D. replace (Z.to_nat (r - i)) with (S (Z.to_nat (r - (i + 1)))) by lia. exact D.
Qed.
(** The value is the number of steps before the orbit meets 0 or leaves the circle of radius 2. *)
Theorem C132_ngon : forall P Q c n m, (0 <= n)%Z -> (0 <= m)%Z -> let f := ngon_map (Z.to_nat n) c in
  exists r, ngonfunc P Q c n m = Ok r /\ (0 <= r <= m)%Z /\
    (forall j, (1 <= j)%nat -> (Z.of_nat j <= r)%Z -> sqnorm (Nat.iter j f (P, Q)) <= 4) /\ (forall j, (Z.of_nat j < r)%Z -> Nat.iter j f (P, Q) <> (0, 0)) /\
    ((r < m)%Z -> Nat.iter (Z.to_nat r) f (P, Q) = (0, 0) \/ 4 < sqnorm (Nat.iter (S (Z.to_nat r)) f (P, Q))).
Proof.
  intros P Q c n m N M f. destruct (ngon_run c n m N (Z.to_nat m) 0 (P, Q) ltac:(lia) ltac:(lia)) as (r & E & A & B & B0 & D). fold f in B, B0, D. exists r.
  split; [exact E|]. split; [exact A|]. split; [intros j J1 J2; apply B; lia|]. split; [intros j J; apply B0; lia|]. rewrite Z.sub_0_r in D. exact D.
Qed.
(** For n >= 3 and |c| <= 4 an orbit outside that circle is unbounded. *)
Theorem C132_ngon_outside : forall n c z k, (3 <= n)%nat -> sqnorm c <= 16 -> 4 < sqnorm (Nat.iter k (ngon_map n c) z) -> ~ bounded_orbit (ngon_map n c) z.
Proof.
  intros n c z k N HC K. set (f := ngon_map n c) in *. change (4 < norm2 (Nat.iter k f z)) in K. apply cabs_gt2 in K.
  apply (unbounded f z k (cabs (Nat.iter k f z))); [exact K| |apply Rle_refl]. set (L := cabs (Nat.iter k f z)) in *. clearbody L. intros u U.
  assert (U0 : u <> (0, 0)) by (intros ->; rewrite cabs_0 in U; lra).
  change (f u) with (cmul (cadd (power u n) c) (cinv u)). rewrite cabs_mul, cabs_inv by exact U0.
  pose proof (cabs_sub_ge (power u n) c) as T. rewrite pm_abs in T.
  assert (C4 : cabs c <= 4). { change (norm2 c <= 16) in HC. rewrite <- cabs_sq in HC. pose proof (cabs_nonneg c). nra. }
  assert (P3 : cabs u ^ 3 <= cabs u ^ n) by (apply Rle_pow; [lra|lia]).
  set (a := cabs u) in *. assert (A : 0 < a) by lra. apply Rle_trans with ((a ^ 3 - 4) * / a); [|apply Rmult_le_compat_r; [left; now apply Rinv_0_lt_compat|lra]].
  apply Rmult_le_reg_r with a; [exact A|]. rewrite Rmult_assoc, Rinv_l, Rmult_1_r by lra. replace (a ^ 3) with (a * a * a) by ring. nra.
Qed.
(** Turned by an n-th root of unity the picture is the same. *)
Theorem C132_ngon_rotation : forall w P Q c n m, (1 <= n)%Z -> power w (Z.to_nat n) = (1, 0) -> let '(P', Q') := times w (P, Q) in ngonfunc P' Q' c n m = ngonfunc P Q c n m.
Proof.
  intros w P Q c n m N W. destruct (times w (P, Q)) as [P' Q'] eqn:EW. change (cmul w (P, Q) = (P', Q')) in EW. unfold ngonfunc. rewrite <- EW. clear EW P' Q'.
  rewrite power_eq in W. change (1, 0) with (rtoc 1) in W. generalize (P, Q) as z. generalize 0%Z as i. revert w W.
  induction (Z.to_nat m) as [|k IH]; intros w W i z; [reflexivity|]. cbn [ngon_from].
  pose proof (root_abs w (Z.to_nat n) ltac:(lia) W) as W1. assert (W0 : w <> (0, 0)) by (intros ->; rewrite cabs_0 in W1; lra).
  assert (E0 : ceq (cmul w z) (0, 0) = ceq z (0, 0)).
  { destruct (ceq z (0, 0)) eqn:Z0.
    - apply ceq_spec in Z0. subst z. apply ceq_spec. ring.
    - apply ceq_false in Z0. apply ceq_false. intros H. destruct (cmul_zero _ _ H); contradiction. }
  rewrite E0. destruct (ceq z (0, 0)) eqn:Z0; [reflexivity|]. rewrite !cpow_nonneg by lia. cbn [rbind]. rewrite cpown_mul, W. unfold cdiv. rewrite E0, Z0. cbn [rbind].
  apply ceq_false in Z0.
  assert (EI : cmul (cadd (cmul (rtoc 1) (cpown z (Z.to_nat n))) c) (cinv (cmul w z)) = cmul (cinv w) (cmul (cadd (cpown z (Z.to_nat n)) c) (cinv z))).
  { assert (IM : cinv (cmul w z) = cmul (cinv w) (cinv z)).
    { assert (WZ : cmul w z <> (0, 0)) by (intros H; destruct (cmul_zero _ _ H); contradiction).
      transitivity (cmul (cinv (cmul w z)) (cmul (cmul w (cinv w)) (cmul z (cinv z)))); [rewrite !cmul_inv by assumption; ring|].
      transitivity (cmul (cmul (cmul w z) (cinv (cmul w z))) (cmul (cinv w) (cinv z))); [ring|]. rewrite cmul_inv by exact WZ. ring. }
    rewrite IM. ring. }
  rewrite EI. assert (IW : cabs (cinv w) = 1) by (rewrite cabs_inv, W1 by exact W0; apply Rinv_1). rewrite out2_mul by exact IW. destruct (out2 _); [reflexivity|]. apply IH.
  assert (Q1 : cmul (cpown w (Z.to_nat n)) (cpown (cinv w) (Z.to_nat n)) = rtoc 1).
  { rewrite <- cpown_mul, cmul_inv by exact W0. apply cpown_1. }
  rewrite W in Q1. transitivity (cmul (rtoc 1) (cpown (cinv w) (Z.to_nat n))); [match goal with |- ?a = ?b => change (@eq C a b) end; ring|exact Q1].
Qed.

(** ** Level curves *)
Lemma pymod_ok a m : m <> 0%Z -> pymod a m = Ok (a mod m)%Z.
Proof. intros M. unfold pymod. destruct (m =? 0)%Z eqn:E; [apply Z.eqb_eq in E; contradiction|reflexivity]. Qed.
(** multicircle: the value depends on the distance r from the origin only; it is r ** d, rounded, modulo m. *)
Theorem C132_circles : forall P Q d m,
  (forall P' Q', P' * P' + Q' * Q' = P * P + Q * Q -> multicircle P' Q' d m = multicircle P Q d m) /\
  ((0 <= d)%Z -> m <> 0%Z -> exists n, multicircle P Q d m = Ok (n mod m)%Z /\ Rabs (sqrt (P * P + Q * Q) ^ Z.to_nat d - IZR n) <= 1 / 2).
Proof.
  intros P Q d m. split.
  - intros P' Q' E. assert (A : cabs (P', Q') = cabs (P, Q)) by (unfold cabs, norm2, re, im; cbn [fst snd]; now rewrite E).
    assert (Z0 : ceq (P', Q') (0, 0) = ceq (P, Q) (0, 0)).
    { destruct (ceq (P, Q) (0, 0)) eqn:X; [apply ceq_spec in X; apply ceq_spec; apply cabs_zero; now rewrite A, X, cabs_0|].
      apply ceq_false in X. apply ceq_false. intros H. apply X, cabs_zero. now rewrite <- A, H, cabs_0. }
    unfold multicircle, cpow. rewrite Z0. destruct (d <? 0)%Z; [destruct (ceq (P, Q) (0, 0)) eqn:X|]; cbn [rbind]; [reflexivity|..].
    + assert (N : forall z n, z <> (0, 0) -> cpown z n <> (0, 0)).
      { intros z n H. induction n as [|n IH]; cbn [cpown]; [intros K; injection K; lra|]. intros K. destruct (cmul_zero _ _ K); contradiction. }
      assert (N1 : (P, Q) <> (0, 0)) by now apply ceq_false. assert (N2 : (P', Q') <> (0, 0)) by (apply ceq_false; congruence).
      rewrite (cabs_inv _ (N (P', Q') _ N2)), (cabs_inv _ (N (P, Q) _ N1)), !cpown_abs, A. reflexivity.
    + now rewrite !cpown_abs, A.
  - intros D M. unfold multicircle. rewrite cpow_nonneg by exact D. cbn [rbind]. rewrite cpown_abs, pymod_ok by exact M. eexists. split; [reflexivity|]. apply rround_near.
Qed.
Theorem C132_hyperbolas : forall P Q d m, (0 <= d)%Z -> m <> 0%Z ->
  multihyperbola Q P d m = multihyperbola P Q d m /\ multihyperbola P P d m = Ok 0%Z /\
  exists n, multihyperbola P Q d m = Ok (n mod m)%Z /\ Rabs (Rabs (P ^ Z.to_nat d - Q ^ Z.to_nat d) - IZR n) <= 1 / 2.
Proof.
  intros P Q d m D M. assert (K : forall x, rpowz x d = Ok (x ^ Z.to_nat d)).
  { intros x. unfold rpowz. destruct (d <? 0)%Z eqn:E; [apply Z.ltb_lt in E; lia|]. cbn [andb]. f_equal. rewrite <- (Z2Nat.id d) at 1 by exact D. symmetry. apply pow_powerRZ. }
  unfold multihyperbola. rewrite !K. cbn [rbind]. rewrite !pymod_ok by exact M. split; [now rewrite Rabs_minus_sym|]. split.
  - replace (P ^ Z.to_nat d - P ^ Z.to_nat d) with 0 by ring. rewrite Rabs_R0. change 0 with (IZR 0). rewrite rround_Z. now rewrite Z.mod_0_l.
  - eexists. split; [reflexivity|]. apply rround_near.
Qed.
(** the astroid of radius r has the value 0 *)
Theorem C132_astroid : forall r t m, m <> 0%Z -> astroid (r * cos t ^ 3) (r * sin t ^ 3) r m = Ok 0%Z.
Proof.
  intros r t m M. unfold astroid. rewrite pymod_ok by exact M.
  replace (_ + _) with 0; [rewrite Rabs_R0; change 0 with (IZR 0); rewrite rround_Z; now rewrite Z.mod_0_l|].
  pose proof (sin2_cos2 t) as S. unfold Rsqr in S. set (c := cos t) in *. set (s := sin t) in *. assert (E : s * s = 1 - c * c) by lra.
  replace (r * s ^ 3 * (r * s ^ 3)) with (r * r * (s * s) ^ 3) by ring. rewrite E. ring.
Qed.
Lemma sumsq x y : 0 <= x * x + y * y.
Proof. nra. Qed.
(** lemniscate: with the distances d1, d2 from the foci (r, 0) and (-r, 0) the value is the integer part of
    |(d1 d2)^2 - r^4|, so 0 on the lemniscate *)
Theorem C132_lemniscate : forall P Q r m, m <> 0%Z ->
  let d1 := sqrt ((P - r) * (P - r) + Q * Q) in let d2 := sqrt ((P + r) * (P + r) + Q * Q) in
  exists n, lemniscate P Q r m = Ok (n mod m)%Z /\ (0 <= n)%Z /\ IZR n <= Rabs ((d1 * d2) * (d1 * d2) - r ^ 4) < IZR n + 1.
Proof.
  intros P Q r m M d1 d2. unfold lemniscate. rewrite pymod_ok by exact M. eexists. split; [reflexivity|].
  assert (E : d1 * d2 * (d1 * d2) - r ^ 4 = (P * P + Q * Q) ^ 2 - 2 * (r * r) * (P * P - Q * Q)).
  { assert (E1 : d1 * d1 = (P - r) * (P - r) + Q * Q) by (apply sqrt_sqrt, sumsq). assert (E2 : d2 * d2 = (P + r) * (P + r) + Q * Q) by (apply sqrt_sqrt, sumsq).
    replace (d1 * d2 * (d1 * d2)) with ((d1 * d1) * (d2 * d2)) by ring. rewrite E1, E2. ring. }
  rewrite E. set (v := (P * P + Q * Q) ^ 2 - 2 * (r * r) * (P * P - Q * Q)). clearbody v. unfold rtrunc. pose proof (Rabs_pos v) as N. destruct (rlt (Rabs v) 0) eqn:L; [apply rlt_iff in L; lra|].
  pose proof (base_Int_part (Rabs v)) as (B1 & B2). split; [|lra]. apply le_IZR. assert (-1 < IZR (Int_part (Rabs v))) by lra. apply (lt_IZR (-1)) in H. apply IZR_le. lia.
Qed.
(** multisuperellipse gives floats: with 4 and 8 bits it raises TypeError and paints nothing; otherwise the pixels show the value. *)
Lemma rpowz_ok x d : (0 <= d)%Z -> rpowz x d = Ok (x ^ Z.to_nat d).
Proof. intros D. unfold rpowz. destruct (d <? 0)%Z eqn:E; [apply Z.ltb_lt in E; lia|]. cbn [andb]. f_equal. rewrite <- (Z2Nat.id d) at 1 by exact D. symmetry. apply pow_powerRZ. Qed.
Lemma rmod_ok x m : (0 < m)%Z -> exists r, rmod x m = Ok r /\ 0 <= r < IZR m /\ exists k, x = r + IZR k * IZR m.
Proof.
  intros M. unfold rmod. destruct (m =? 0)%Z eqn:E; [apply Z.eqb_eq in E; lia|]. eexists. split; [reflexivity|]. assert (MR : 0 < IZR m) by now apply IZR_lt.
  pose proof (base_Int_part (x / IZR m)) as (A & B). set (k := Int_part (x / IZR m)) in *. assert (X : x = x / IZR m * IZR m) by (field; lra). split; [nra|]. exists k. ring.
Qed.
Definition superellipse_value (P Q : R) (d m : Z) (v : R) : Prop := 0 <= v < IZR m /\ exists k, Rabs (P ^ Z.to_nat d + Q ^ Z.to_nat d) = v + IZR k * IZR m.
Lemma superellipse_run Pmax Pmin Qmax Qmin x1 y1 x2 y2 d m x y : x1 <> x2 -> y1 <> y2 -> (0 <= d)%Z -> (0 < m)%Z ->
  exists v, superellipseat x1 y1 x2 y2 (Pmax, Pmin, Qmax, Qmin) d m x y = Ok v /\ superellipse_value (coord Pmin Pmax x1 x2 x) (coord Qmin Qmax y1 y2 y) d m v.
Proof.
  intros X Y D M. unfold superellipseat. rewrite sorted_pts, !rdiv_ok by now apply width_ok. cbn [rbind]. rewrite !coord_eq by assumption. unfold multisuperellipse.
  rewrite !rpowz_ok by exact D. cbn [rbind]. destruct (rmod_ok (Rabs (coord Pmin Pmax x1 x2 x ^ Z.to_nat d + coord Qmin Qmax y1 y2 y ^ Z.to_nat d)) m M) as (r & E & B & K). exists r. split; [exact E|]. now split.
Qed.
Theorem C132_superellipse_refuted : forall mix b w h bits o Pmax Pmin Qmax Qmin x1 y1 x2 y2 d m, wf b w h bits -> bits = 4%Z \/ bits = 8%Z -> x1 <> x2 -> y1 <> y2 ->
  (0 <= d)%Z -> (0 < m)%Z -> inside w h (Z.min x1 x2) (Z.min y1 y2) ->
  multisuperellipsebmp mix x1 y1 x2 y2 (Pmax, Pmin, Qmax, Qmin) d m (mkst b o) = (Err TypeError, mkst b o).
Proof.
  intros mix b w h bits o Pmax Pmin Qmax Qmin x1 y1 x2 y2 d m W BB X Y D M IN. unfold multisuperellipsebmp. rewrite (bind_ok _ _ _ _ _ (wf_geti_bits _ _ _ _ W _)).
  assert (E : exists pts, fractalpoints x1 y1 x2 y2 = Ok ((Z.min x1 x2, Z.min y1 y2) :: pts)).
  { unfold fractalpoints. rewrite sort_minmax. replace (Z.max x1 x2 - Z.min x1 x2 =? 0)%Z with false by (symmetry; apply Z.eqb_neq; lia).
    replace (Z.max y1 y2 - Z.min y1 y2 =? 0)%Z with false by (symmetry; apply Z.eqb_neq; lia). cbn [orb].
    rewrite (range_cons (Z.min x1 x2)), (range_cons (Z.min y1 y2)) by lia. cbn [flat_map map app]. eexists. reflexivity. }
  destruct E as (pts & E). rewrite E. rewrite (bind_ok _ _ _ ((Z.min x1 x2, Z.min y1 y2) :: pts) (mkst b o)) by reflexivity. rewrite forM_cons. cbn [fst snd].
  destruct (superellipse_run Pmax Pmin Qmax Qmin x1 y1 x2 y2 d m (Z.min x1 x2) (Z.min y1 y2) X Y D M) as (v & Ev & _). rewrite Ev.
  set (px := Z.min x1 x2) in *. set (py := Z.min y1 y2) in *.
  assert (K : (c <- lift (Ok v) ;; realpoint mix bits px py c)%py (mkst b o) = (Err TypeError, mkst b o)).
  { rewrite (bind_ok _ _ _ v (mkst b o)) by reflexivity. unfold realpoint. destruct BB as [-> | ->]; cbn [Z.eqb Pos.eqb].
    - rewrite (bind_ok _ _ _ _ _ (run_rd _ _ _ _ (wf_inbnd_true _ _ _ _ W _ _ IN))). reflexivity.
    - assert (Eo : o8bmofhd px py b = Ok (baddr w h 8 px py)).
      { pose proof (wf_offsethd b w h 8 W px py) as E8. unfold bmoffsethd in E8. rewrite (wf_rbits _ _ _ _ W) in E8. exact E8. }
      rewrite (bind_ok _ _ _ _ _ (run_rd _ _ _ _ Eo)). unfold geti, rd, bind, raise. cbn [mem]. rewrite py_get_in; [reflexivity|].
      pose proof (baddr_bounds b w h 8 W px py IN) as BB. change (data_off 8) with 1078%Z in BB. change (pbytes 8) with 1%Z in BB. lia. }
  unfold bind at 1. rewrite K. reflexivity.
Qed.

Theorem C132_superellipse : forall mix b w h bits o Pmax Pmin Qmax Qmin x1 y1 x2 y2 d m, wf b w h bits -> bits = 1%Z \/ bits = 24%Z -> x1 <> x2 -> y1 <> y2 ->
  (0 <= d)%Z -> (0 < m)%Z -> (forall l, 0 <= l < 256 -> (0 <= mix l < 2 ^ 24)%Z) ->
  exists b' v c, multisuperellipsebmp mix x1 y1 x2 y2 (Pmax, Pmin, Qmax, Qmin) d m (mkst b o) = (Ok tt, mkst b' o) /\
    (forall x y, superellipse_value (coord Pmin Pmax x1 x2 x) (coord Qmin Qmax y1 y2 y) d m (v x y)) /\
    (forall x y, if (bits =? 24)%Z then exists l k, 0 <= l < 256 /\ (255 - v x y) * 20 = l + IZR k * 256 /\ c x y = mix l
                 else (c x y = 0%Z /\ exists k, v x y = IZR k * 2) \/ (c x y = 1%Z /\ ~ exists k, v x y = IZR k * 2)) /\
    repainted b b' w h bits (fun x y =>
      (if ((Z.min x1 x2 <=? x) && (x <? Z.max x1 x2)) && ((Z.min y1 y2 <=? y) && (y <? Z.max y1 y2)) then c x y else pixel b w h bits x y)%Z).
Proof.
  intros mix b w h bits o Pmax Pmin Qmax Qmin x1 y1 x2 y2 d m W BB X Y D M MX.
  set (val := fun x y => superellipseat x1 y1 x2 y2 (Pmax, Pmin, Qmax, Qmin) d m x y).
  set (v := fun x y => match val x y with Ok r => r | Err _ => 0 end).
  assert (V : forall x y, val x y = Ok (v x y) /\ superellipse_value (coord Pmin Pmax x1 x2 x) (coord Qmin Qmax y1 y2 y) d m (v x y)).
  { intros x y. unfold v, val. destruct (superellipse_run Pmax Pmin Qmax Qmin x1 y1 x2 y2 d m x y X Y D M) as (r & E & S). rewrite E. now split. }
  set (c := fun x y => if (bits =? 24)%Z then match rmod ((255 - v x y) * 20) 256 with Ok l => mix l | Err _ => 0%Z end else match rmod (v x y) 2 with Ok r => if rlt 0 r then 1%Z else 0%Z | Err _ => 0%Z end).
  assert (A : forall x y b1 o1, wf b1 w h bits -> exists b', (cc <- lift (val x y) ;; realpoint mix bits x y cc)%py (mkst b1 o1) = (Ok tt, mkst b' o1) /\
     repainted b1 b' w h bits (fun x' y' => if ((x' =? x) && (y' =? y))%Z then c x' y' else pixel b1 w h bits x' y')).
  { intros x y b1 o1 W1. destruct (V x y) as (E & _). rewrite E. rewrite (bind_ok _ _ _ (v x y) (mkst b1 o1)) by reflexivity. unfold realpoint.
    assert (K : forall cc, storable bits cc -> reduce bits cc = c x y -> exists b', plotxybit x y cc (mkst b1 o1) = (Ok tt, mkst b' o1) /\
       repainted b1 b' w h bits (fun x' y' => if ((x' =? x) && (y' =? y))%Z then c x' y' else pixel b1 w h bits x' y')).
    { intros cc S RD. destruct (plot_any b1 w h bits o1 x y cc W1 S) as (b' & Eb & Rb). exists b'. split; [exact Eb|]. eapply repainted_ext; [|exact Rb]. intros x' y' _. unfold put_px. rewrite RD.
      destruct (Z.eqb_spec x' x) as [->|]; [destruct (Z.eqb_spec y' y) as [->|]|]; reflexivity. }
    unfold c in K. destruct BB as [EB|EB]; subst bits; cbn [Z.eqb Pos.eqb] in *.
    - destruct (rmod_ok (v x y) 2 ltac:(lia)) as (r & Er & _). rewrite Er in *. rewrite (bind_ok _ _ _ r (mkst b1 o1)) by reflexivity. apply K; [unfold storable; lia|]. unfold reduce. cbn [Z.eqb Pos.eqb]. destruct (rlt 0 r); reflexivity.
    - destruct (rmod_ok ((255 - v x y) * 20) 256 ltac:(lia)) as (r & Er & Br & _). rewrite Er in *. rewrite (bind_ok _ _ _ r (mkst b1 o1)) by reflexivity. apply K; [intros _; now apply MX|reflexivity]. }
  destruct (fractalpoints_spec x1 y1 x2 y2 X Y) as (pts & Ep & Hp).
  destruct (forM_paint w h bits (fun p => cc <- lift (val (fst p) (snd p)) ;; realpoint mix bits (fst p) (snd p) cc)%py c pts) with (b := b) (o := o) as (b' & E & R).
  - intros [x y] b1 o1 _ W1. apply A. exact W1.
  - exact W.
  - exists b', v, c. split; [|split; [intros x y; apply V|split]].
    + unfold multisuperellipsebmp. rewrite (bind_ok _ _ _ _ _ (wf_geti_bits _ _ _ _ W _)), Ep. rewrite (bind_ok _ _ _ pts (mkst b o)) by reflexivity. exact E.
    + intros x y. unfold c. destruct (bits =? 24)%Z.
      * destruct (rmod_ok ((255 - v x y) * 20) 256 ltac:(lia)) as (r & Er & Br & k & Ek). rewrite Er. exists r, k. split; [exact Br|]. split; [exact Ek|reflexivity].
      * destruct (rmod_ok (v x y) 2 ltac:(lia)) as (r & Er & Br & k & Ek). rewrite Er. destruct (rlt 0 r) eqn:L.
        -- right. split; [reflexivity|]. apply rlt_iff in L. intros (j & Ej). assert (J : IZR j * 2 = r + IZR k * 2) by lra. assert (J1 : IZR k < IZR j) by lra. assert (J2 : IZR j < IZR (k + 1)) by (rewrite plus_IZR; lra). apply lt_IZR in J1. apply lt_IZR in J2. lia.
        -- left. split; [reflexivity|]. apply rlt_no in L. exists k. lra.
    + eapply repainted_ext; [|exact R]. intros x y _. cbn beta. now rewrite Hp.
Qed.
(** sin with c = 1; w = -1 for even n; 8 bits *)
Example C132_ex :
  (exists r, multisinbiomorph 1 1 (1, 0) 2 10 5 = Ok r) /\ power (-1, 0) (Z.to_nat 4) = (1, 0) /\ sqnorm (1, 1) <= 16 /\
  astroid 1 0 1 7 = Ok 0%Z /\ multicircle 3 4 1 100 = Ok 5%Z /\ multisuperellipse (1 / 2) 0 1 10 = Ok (1 / 2) /\ wf (blank 4 3 8) 4 3 8 /\ inside 4 3 (Z.min 1 3) (Z.min 2 0).
Proof.
  split; [destruct (C132_biomorphs multisinbiomorph csin ltac:(now left) 1 1 (1, 0) 2 10 5 ltac:(lia) ltac:(lia)) as (r & E & _); now exists r|].
  split; [change (Z.to_nat 4) with 4%nat; unfold power, times; cbn [Nat.iter nat_rect fst snd]; f_equal; ring|]. split; [unfold sqnorm; cbn [fst snd]; lra|].
  split; [pose proof (C132_astroid 1 0 7 ltac:(lia)) as A; rewrite sin_0, cos_0 in A; replace (1 * 1 ^ 3) with 1 in A by ring; replace (1 * 0 ^ 3) with 0 in A by ring; exact A|].
  split. { unfold multicircle. rewrite cpow_nonneg by lia. cbn [rbind]. rewrite cpown_abs. change (Z.to_nat 1) with 1%nat. rewrite pow_1. unfold cabs, norm2, re, im. cbn [fst snd].
    replace (3 * 3 + 4 * 4) with (5 * 5) by ring. rewrite sqrt_square by lra. change 5 with (IZR 5). rewrite rround_Z. reflexivity. }
  split. { unfold multisuperellipse. rewrite !rpowz_ok by lia. cbn [rbind]. change (Z.to_nat 1) with 1%nat. rewrite !pow_1, Rplus_0_r, Rabs_pos_eq by lra. unfold rmod. cbn [Z.eqb].
    rewrite (int_unique _ 0) by lra. f_equal. lra. }
  split; [concrete_wf|]. unfold inside. lia.
Qed.
Print Assumptions C132_functions.
Print Assumptions C132_biomorphs.
Print Assumptions C132_multibiomorph.
Print Assumptions C132_symmetry.
Print Assumptions C132_sums.
Print Assumptions C132_sum_symmetry.
Print Assumptions C132_ngon.
Print Assumptions C132_ngon_outside.
Print Assumptions C132_ngon_rotation.
Print Assumptions C132_circles.
Print Assumptions C132_hyperbolas.
Print Assumptions C132_astroid.
Print Assumptions C132_lemniscate.
Print Assumptions C132_superellipse_refuted.
Print Assumptions C132_superellipse.
