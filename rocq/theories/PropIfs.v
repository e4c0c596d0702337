(** Property C135: points of iterated functions. *)
From Coq Require Import ZArith Reals List Bool Lia Lra Psatz Ring.
From Verif Require Import PyBase PyFacts Spec SpecShapes Bmp Region Geometry Fractal Concrete Coords RealProofs Sweeps IterProofs FractProofs2 VertProofs PropFractal2 PropEscape Ifs.
Import ListNotations.
Open Scope R_scope.

(** ** C135 *)
(** The rules, one map for each range of the random number *)
Definition fern_rule (j : R) (z : R * R) : R * R := let (x, y) := z in
  if Rlt_dec j (9 / 1000) then (0, 16 / 100 * y) else
  if Rlt_dec j (73 / 1000) then (20 / 100 * x - 26 / 100 * y, 23 / 100 * x + 22 / 100 * y + 160 / 100) else
  if Rlt_dec j (137 / 1000) then (28 / 100 * y - 15 / 100 * x, 26 / 100 * x + 24 / 100 * y + 44 / 100) else
  (85 / 100 * x + 4 / 100 * y, 85 / 100 * y - 4 / 100 * x + 160 / 100).
Definition tree_rule (j : R) (z : R * R) : R * R := let (x, y) := z in
  if Rlt_dec j (1 / 20) then (y / 5, y / 2) else if Rlt_dec j (1 / 5) then (x / 10, y / 10 + 1 / 5) else
  if Rlt_dec j (3 / 5) then (42 / 100 * (x - y), 42 / 100 * (x + y) + 1 / 5) else (42 / 100 * (x + y), 42 / 100 * (y - x) + 1 / 5).
Definition cantor_rule (j : R) (z : R * R) : R * R := let (x, y) := z in
  if Rlt_dec j (1 / 3) then (x / 3, y / 3) else if Rlt_dec j (2 / 3) then (x / 3 + 1, y / 3) else (2 * x / 3 + 1 / 2, 2 * y / 3 + 1 / 2).
(** half way to (0, 0), (2, 0) or (1, 1) *)
Definition sierpinski_rule (j : R) (z : R * R) : R * R := let (x, y) := z in
  if Rlt_dec j (1 / 3) then (x / 2, y / 2) else if Rlt_dec j (2 / 3) then ((x + 2) / 2, y / 2) else ((x + 1) / 2, (y + 1) / 2).
(** the results of random() *)
Definition random01 (js : list R) : Prop := Forall (fun j => 0 <= j < 1) js.
(** chain F s js zs: zs are the points after s that the rule F gives for js *)
Inductive chain (F : R -> R * R -> R * R) : R * R -> list R -> list (R * R) -> Prop :=
  | chain_nil s : chain F s [] []
  | chain_cons s j js zs : chain F (F j s) js zs -> chain F s (j :: js) (F j s :: zs).
Definition systems : list (ifsparam * (R -> R * R -> R * R)) :=
  [(fernparam, fern_rule); (treeparam, tree_rule); (cantortreeparam, cantor_rule); (sierpinskitriangleparam, sierpinski_rule)].
Lemma rlt_dec a b (A : Type) (u v : A) : (if rlt a b then u else v) = (if Rlt_dec a b then u else v).
Proof. unfold rlt. now destruct (Rlt_dec a b). Qed.
Lemma step_rule t F j z : In (t, F) systems -> j < 1 -> ifsstep t j z = F j z.
Proof.
  intros I J. destruct z as (x, y). cbn [systems In] in I. repeat (destruct I as [I|I]; [injection I as <- <-; cbn [ifsstep fernparam treeparam cantortreeparam sierpinskitriangleparam fern_rule tree_rule cantor_rule sierpinski_rule]; rewrite !rlt_dec|]); try contradiction.
  - repeat (destruct (Rlt_dec _ _)); f_equal; lra.
  - destruct (Rlt_dec j (5 / 100)), (Rlt_dec j (1 / 20)); try lra; [f_equal; lra|]. destruct (Rlt_dec j (2 / 10)), (Rlt_dec j (1 / 5)); try lra; [f_equal; lra|]. destruct (Rlt_dec j (6 / 10)), (Rlt_dec j (3 / 5)); try lra; f_equal; lra.
  - destruct (Rlt_dec j (1 / 3)); [f_equal; lra|]. destruct (Rlt_dec j (2 / 3)); [f_equal; lra|]. destruct (Rlt_dec j 1); [f_equal; lra|lra].
  - destruct (Rlt_dec j (1 / 3)); [f_equal; lra|]. destruct (Rlt_dec j (2 / 3)); [f_equal; lra|]. destruct (Rlt_dec j 1); [f_equal; lra|lra].
Qed.
Lemma orbit_chain t F js : In (t, F) systems -> random01 js -> forall z, chain F z js (ifsorbit t z js).
Proof.
  intros I. induction js as [|j js IH]; intros RJ z; [constructor|]. inversion RJ as [|? ? J RJ']; subst. cbn [ifsorbit]. rewrite (step_rule t F j z I) by apply J. constructor. now apply IH.
Qed.
Lemma chain_fun F z js zs : chain F z js zs -> forall zs', chain F z js zs' -> zs = zs'.
Proof. induction 1; intros zs' H'; inversion H'; subst; [reflexivity|f_equal; auto]. Qed.
(** r without its fraction *)
Definition chopped (r : R) (n : Z) : Prop := (0 <= r -> IZR n <= r < IZR n + 1) /\ (r <= 0 -> IZR n - 1 < r <= IZR n).
Lemma chopped_trunc r n : chopped r n <-> rtrunc r = n.
Proof.
  unfold rtrunc, chopped. destruct (rlt r 0) eqn:E.
  - apply rlt_iff in E. split; [intros (_ & H); specialize (H ltac:(lra)); enough (Int_part (- r) = (- n)%Z) by lia; apply int_unique; rewrite opp_IZR; lra|].
    intros <-. pose proof (base_Int_part (- r)). rewrite opp_IZR. split; intros; lra.
  - assert (R0 : 0 <= r) by (destruct (Rlt_dec r 0) as [L|]; [apply rlt_iff in L; congruence|lra]). split; [intros (H & _); now apply int_unique, H|].
    intros <-. pose proof (base_Int_part r) as (P1 & P2). split; intros; [lra|]. assert (r = 0) by lra. assert (Int_part r = 0%Z) by (subst r; rewrite (int_unique 0 0) by lra; reflexivity). rewrite H1. lra.
Qed.
(** The pixels drawn: those strictly inside the rectangle that a point of the chain falls on, its first coordinate
    scaled to the right of and its second above the lower left corner; the chain starts with the coordinates of the
    upper left corner. *)
Theorem C135_picture : forall t F b w h bits o x1 y1 x2 y2 xs ys xo yo c js, In (t, F) systems -> random01 js -> wf b w h bits -> storable bits c ->
  let l := Z.min x1 x2 in let r := Z.max x1 x2 in let u := Z.min y1 y2 in let d := Z.max y1 y2 in
  exists zs b', chain F (IZR l, IZR u) js zs /\ drawIFS t x1 y1 x2 y2 xs ys xo yo c js (mkst b o) = (Ok tt, mkst b' o) /\ wf b' w h bits /\
    forall x y, inside w h x y ->
      let hit := (l < x < r /\ u < y < d)%Z /\ exists z, In z zs /\ chopped (IZR l + IZR xo + fst z * IZR xs) x /\ chopped (IZR d + IZR yo - snd z * IZR ys) y in
      (hit -> pixel b' w h bits x y = reduce bits c) /\ (~ hit -> pixel b' w h bits x y = pixel b w h bits x y).
Proof.
  intros t F b w h bits o x1 y1 x2 y2 xs ys xo yo c js I RJ Wb Sc l r u d. unfold drawIFS. set (pts := ifspoints t x1 y1 x2 y2 xs ys xo yo js).
  destruct (C92_ifs pts b w h bits o x1 y1 x2 y2 c Wb Sc) as (b' & E & (Wb' & _ & P)). fold l r u d in P. exists (ifsorbit t (IZR l, IZR u) js), b'. split; [now apply orbit_chain|]. split; [exact E|]. split; [exact Wb'|].
  intros x y Hin. specialize (P x y Hin). cbv zeta.
  assert (PT : forall p, In p pts <-> exists z, In z (ifsorbit t (IZR l, IZR u) js) /\ chopped (IZR l + IZR xo + fst z * IZR xs) (fst p) /\ chopped (IZR d + IZR yo - snd z * IZR ys) (snd p)).
  { intros p. unfold pts, ifspoints. rewrite FractProofs2.sort_minmax. fold l r u d. rewrite in_map_iff. split; intros (z & Z1 & Z2); exists z.
    - split; [exact Z2|]. rewrite !chopped_trunc. destruct p as (p1, p2). injection Z1 as <- <-. cbn [fst snd]. split; f_equal; [ring|rewrite minus_IZR; ring].
    - split; [|exact Z1]. rewrite !chopped_trunc in Z2. destruct p as (p1, p2). cbn [fst snd] in Z2. destruct Z2 as (<- & <-). f_equal; f_equal; [ring|rewrite minus_IZR; ring]. }
  set (e := existsb _ pts) in P. assert (EE : e = true <-> In (x, y) pts).
  { unfold e. rewrite existsb_exists. split; [intros ((p1, p2) & A & B); cbn in B; apply andb_true_iff in B; destruct B as (B1 & B2); apply Z.eqb_eq in B1, B2; subst; exact A|intros A; exists (x, y); split; [exact A|cbn; now rewrite !Z.eqb_refl]]. }
  rewrite PT in EE. cbn [fst snd] in EE. clearbody e. split.
  - intros ((H1 & H2) & H3). apply EE in H3. rewrite H3 in P. rewrite P. rewrite !(proj2 (Z.ltb_lt _ _)) by lia. reflexivity.
  - intros N. rewrite P. destruct e; [|reflexivity]. destruct (((l <? x)%Z && (x <? r)%Z) && ((u <? y)%Z && (y <? d)%Z)) eqn:G; [|reflexivity].
    exfalso. apply N. rewrite !andb_true_iff, !Z.ltb_lt in G. split; [lia|]. now apply EE.
Qed.
(** Chains of the same random numbers approach each other: the picture forgets where it starts. *)
Definition dist (z w : R * R) : R := sqrt (sqnorm (fst z - fst w, snd z - snd w)).
Lemma dist_scale z w z' w' q : 0 <= q -> sqnorm (fst z' - fst w', snd z' - snd w') <= q * q * sqnorm (fst z - fst w, snd z - snd w) -> dist z' w' <= q * dist z w.
Proof.
  intros Q H. unfold dist. rewrite <- (sqrt_square q) at 1 by exact Q. rewrite <- sqrt_mult; [now apply sqrt_le_1_alt|nra|unfold sqnorm; cbn [fst snd]; apply Rplus_le_le_0_compat; apply Rle_0_sqr].
Qed.
Theorem C135_contract : forall F q z w js zs ws k p p', In (F, q) [(fern_rule, 86 / 100); (tree_rule, 6 / 10); (cantor_rule, 2 / 3); (sierpinski_rule, 1 / 2)] ->
  chain F z js zs -> chain F w js ws -> nth_error zs k = Some p -> nth_error ws k = Some p' -> dist p p' <= q ^ S k * dist z w.
Proof.
  intros F q z w js zs ws k p p' I. assert (Q0 : 0 <= q) by (cbn [In] in I; repeat (destruct I as [I|I]; [injection I as _ <-; lra|]); contradiction).
  assert (Q : forall j z w, dist (F j z) (F j w) <= q * dist z w).
  { intros j (x, y) (x', y'). apply dist_scale; [exact Q0|]. unfold sqnorm. cbn [fst snd]. set (u := x - x'). set (v := y - y'). assert (U := pow2_ge_0 (u + v)). assert (V := pow2_ge_0 (u - v)). assert (X := pow2_ge_0 u). assert (Y := pow2_ge_0 v).
    cbn [In] in I. repeat (destruct I as [I|I]; [injection I as <- <-|]); [| | | |contradiction]; cbn [fern_rule tree_rule cantor_rule sierpinski_rule]; repeat (destruct (Rlt_dec _ _)); cbn [fst snd]; replace x with (x' + u) by (unfold u; ring); replace y with (y' + v) by (unfold v; ring); clearbody u v; nra. }
  intros H. revert w ws k p p'. induction H as [|s j js zs H IH]; intros w ws k p p' H' E E'; [destruct k; discriminate|]. inversion H'; subst. destruct k as [|k]; cbn [nth_error] in E, E'.
  - injection E as <-. injection E' as <-. rewrite pow_1. apply Q.
  - eapply Rle_trans; [eapply IH; eassumption|]. replace (q ^ S (S k)) with (q ^ S k * q) by (cbn; ring). rewrite Rmult_assoc. apply Rmult_le_compat_l; [now apply pow_le|apply Q].
Qed.
(** Sierpinski's triangle with the corners (0, 0), (2, 0) and (1, 1) *)
Definition in_triangle (z : R * R) : Prop := 0 <= snd z <= fst z /\ fst z + snd z <= 2.
(** the holes: the triangle upside down in the middle, and the holes of the three halves *)
Fixpoint hole (k : nat) (z : R * R) : Prop :=
  match k with
  | O => 1 < fst z + snd z /\ fst z - snd z < 1 /\ snd z < 1 / 2
  | S k => hole k (2 * fst z, 2 * snd z) /\ fst z + snd z < 1 /\ 0 < snd z < fst z \/
           hole k (2 * fst z - 2, 2 * snd z) /\ 1 < fst z - snd z /\ 0 < snd z /\ fst z + snd z < 2 \/
           hole k (2 * fst z - 1, 2 * snd z - 1) /\ 1 / 2 < snd z < fst z /\ fst z + snd z < 2
  end.
Lemma hole_inside k : forall z, hole k z -> 0 < snd z < fst z /\ fst z + snd z < 2.
Proof. destruct k as [|k]; intros z H; cbn [hole] in H; [lra|]. destruct H as [(_ & H)|[(_ & H)|(_ & H)]]; lra. Qed.
Theorem C135_sierpinski : forall s js zs n z, in_triangle s -> chain sierpinski_rule s js zs -> nth_error zs n = Some z ->
  in_triangle z /\ forall k, (k <= n)%nat -> ~ hole k z.
Proof.
  intros s js zs n z TS C. enough (H : forall n z, nth_error zs n = Some z -> in_triangle z /\ forall k, (k < S n)%nat -> ~ hole k z) by (intros E; destruct (H n z E) as (A & B); split; [exact A|intros k K; apply B; lia]).
  clear n z. assert (G : forall m, (forall k, (k < m)%nat -> ~ hole k s) -> forall n z, nth_error zs n = Some z -> in_triangle z /\ forall k, (k < m + S n)%nat -> ~ hole k z).
  { induction C as [|s j js zs C IH]; intros m Hm n z E; [destruct n; discriminate|].
    assert (T : in_triangle (sierpinski_rule j s)) by (destruct s as (x, y); unfold in_triangle in *; cbn [fst snd sierpinski_rule] in *; repeat (destruct (Rlt_dec _ _)); cbn [fst snd]; lra).
    assert (N : forall k, (k < S m)%nat -> ~ hole k (sierpinski_rule j s)).
    { intros k K H. destruct s as (x, y). unfold in_triangle in TS. cbn [fst snd] in TS. cbn [sierpinski_rule] in H. destruct k as [|k].
      - cbn [hole] in H. repeat (destruct (Rlt_dec _ _)); cbn [fst snd] in H; lra.
      - specialize (Hm k ltac:(lia)). cbn [hole] in H. destruct (Rlt_dec j (1 / 3)) as [_|_]; [|destruct (Rlt_dec j (2 / 3)) as [_|_]]; cbn [fst snd] in H; (destruct H as [(Q & H)|[(Q & H)|(Q & H)]]; try (exfalso; lra); apply Hm; match type of Q with hole k (?a, ?b) => replace x with a by lra; replace y with b by lra; exact Q end). }
    destruct n as [|n]; cbn [nth_error] in E; [injection E as <-; split; [exact T|intros k K; apply N; lia]|]. destruct (IH T (S m) N n z E) as (A & B). split; [exact A|]. intros k K. apply B. lia. }
  intros n z E. apply (G O); [intros k K; lia|exact E].
Qed.
(** the Cantor tree *)
Theorem C135_cantortree : forall s js zs z, 0 <= snd s <= fst s -> fst s <= 3 / 2 -> chain cantor_rule s js zs -> In z zs -> 0 <= snd z <= fst z /\ fst z <= 3 / 2 /\ (snd z <= 1 / 2 \/ 1 / 2 <= fst z).
Proof.
  intros s js zs z S1 S2 C. induction C as [|s j js zs C IH]; intros I; [destruct I|].
  assert (T : 0 <= snd (cantor_rule j s) <= fst (cantor_rule j s) /\ fst (cantor_rule j s) <= 3 / 2 /\ (snd (cantor_rule j s) <= 1 / 2 \/ 1 / 2 <= fst (cantor_rule j s))) by (destruct s as (x, y); cbn [fst snd cantor_rule] in *; repeat (destruct (Rlt_dec _ _)); cbn [fst snd]; lra).
  destruct I as [<-|I]; [exact T|]. apply IH; [apply T|apply T|exact I].
Qed.
(** the tree *)
Theorem C135_tree : forall s js zs z, - (11 / 20) <= fst s <= 11 / 20 -> - (3 / 50) <= snd s <= 3 / 4 -> chain tree_rule s js zs -> In z zs -> - (11 / 20) <= fst z <= 11 / 20 /\ - (3 / 50) <= snd z <= 3 / 4.
Proof.
  intros s js zs z S1 S2 C. induction C as [|s j js zs C IH]; intros I; [destruct I|].
  assert (T : - (11 / 20) <= fst (tree_rule j s) <= 11 / 20 /\ - (3 / 50) <= snd (tree_rule j s) <= 3 / 4) by (destruct s as (x, y); cbn [fst snd tree_rule] in *; repeat (destruct (Rlt_dec _ _)); cbn [fst snd]; lra).
  destruct I as [<-|I]; [exact T|]. apply IH; [apply T|apply T|exact I].
Qed.
(** The fern is in a polygon that the four maps take into itself.  A half plane (a, b, c) is a x + b y <= c, a map
    has coefficients in hundredths. *)
Definition below (h : Z * Z * Z) (z : R * R) : Prop := let '(a, b, c) := h in IZR a * fst z + IZR b * snd z <= IZR c.
Definition follows_from (p q h : Z * Z * Z) : bool :=
  let '(a, b, c) := h in let '(a1, b1, c1) := p in let '(a2, b2, c2) := q in
  let d := (a1 * b2 - b1 * a2)%Z in let l := (a * b2 - b * a2)%Z in let m := (a1 * b - b1 * a)%Z in
  ((0 <? d) && (0 <=? l) && (0 <=? m) && (l * c1 + m * c2 <=? d * c))%Z.
Lemma follows_sound p q h z : follows_from p q h = true -> below p z -> below q z -> below h z.
Proof.
  destruct p as ((a1, b1), c1), q as ((a2, b2), c2), h as ((a, b), c), z as (x, y). cbn [follows_from below fst snd]. rewrite !andb_true_iff, Z.ltb_lt, !Z.leb_le. intros (((D & L) & M) & K) P Q.
  apply IZR_lt in D. apply IZR_le in L, M, K. rewrite !plus_IZR, !mult_IZR, !minus_IZR, !mult_IZR in K. rewrite !minus_IZR, !mult_IZR in D, L, M.
  set (d := IZR a1 * IZR b2 - IZR b1 * IZR a2) in *. set (l := IZR a * IZR b2 - IZR b * IZR a2) in *. set (m := IZR a1 * IZR b - IZR b1 * IZR a) in *.
  apply Rmult_le_reg_l with d; [exact D|]. replace (d * (IZR a * x + IZR b * y)) with (l * (IZR a1 * x + IZR b1 * y) + m * (IZR a2 * x + IZR b2 * y)) by (unfold d, l, m; ring).
  eapply Rle_trans; [|exact K]. apply Rplus_le_compat; apply Rmult_le_compat_l; assumption.
Qed.
Definition pull (f : Z * Z * Z * Z * Z * Z) (h : Z * Z * Z) : Z * Z * Z :=
  let '(fa, fb, fc, fd, fe, ff) := f in let '(a, b, c) := h in ((a * fa + b * fc)%Z, (a * fb + b * fd)%Z, (100 * c - a * fe - b * ff)%Z).
Definition hundredths (f : Z * Z * Z * Z * Z * Z) (z : R * R) : R * R :=
  let '(fa, fb, fc, fd, fe, ff) := f in
  ((IZR fa * fst z + IZR fb * snd z + IZR fe) / 100, (IZR fc * fst z + IZR fd * snd z + IZR ff) / 100).
Lemma pull_sound f h z : below (pull f h) z -> below h (hundredths f z).
Proof.
  destruct f as (((((fa, fb), fc), fd), fe), ff), h as ((a, b), c), z as (x, y). cbn [pull below hundredths fst snd]. rewrite !minus_IZR, !plus_IZR, !mult_IZR. intros H. apply Rmult_le_reg_l with 100; [lra|].
  replace (100 * (IZR a * ((IZR fa * x + IZR fb * y + IZR fe) / 100) + IZR b * ((IZR fc * x + IZR fd * y + IZR ff) / 100))) with
    ((IZR a * IZR fa + IZR b * IZR fc) * x + (IZR a * IZR fb + IZR b * IZR fd) * y + IZR a * IZR fe + IZR b * IZR ff) by field. lra.
Qed.
Definition fernpolygon : list (Z * Z * Z) := [(-70700, -70700, 3); (0, -100000, 0); (70700, -70700, 44185); (100000, 0, 265920); (70700, 70700, 893016); (0, 100000, 999869); (-4700, 99900, 987095); (-9400, 99600, 972455); (-14100, 99000, 954975); (-18700, 98200, 935923); (-23300, 97200, 915091); (-27800, 96000, 892748); (-32300, 94600, 868712); (-36700, 93000, 843260); (-41100, 91200, 816240); (-45300, 89100, 787160); (-49500, 86900, 757671); (-53500, 84500, 727266); (-57400, 81900, 695875); (-61200, 79100, 663649); (-64800, 76100, 630895); (-68300, 73000, 598596); (-70700, 70700, 575893); (-71700, 69700, 566077); (-74900, 66300, 534578); (-77900, 62700, 503509); (-80800, 58900, 473266); (-83500, 55100, 445872); (-86000, 51100, 420277); (-88300, 47000, 397797); (-90400, 42800, 379092); (-100000, 0, 218313)]%Z.
Definition fernmaps : list (Z * Z * Z * Z * Z * Z) := [(0, 0, 0, 16, 0, 0); (20, -26, 23, 22, 0, 160); (-15, 28, 26, 24, 0, 44); (85, 4, -4, 85, 0, 160)]%Z.
Definition closed_under (l : list (Z * Z * Z)) (f : Z * Z * Z * Z * Z * Z) : bool :=
  forallb (fun h => existsb (fun pq => follows_from (fst pq) (snd pq) (pull f h)) (combine l (tl l ++ firstn 1 l))) l.
Lemma closed_sound l f z : closed_under l f = true -> Forall (fun h => below h z) l -> Forall (fun h => below h (hundredths f z)) l.
Proof.
  intros K H. rewrite Forall_forall in *. intros h I. apply pull_sound. unfold closed_under in K. rewrite forallb_forall in K. specialize (K h I). apply existsb_exists in K. destruct K as ((p, q) & J & K). cbn [fst snd] in K.
  apply (follows_sound p q); [exact K|apply H; now apply in_combine_l in J|]. apply in_combine_r in J. apply H. apply in_app_or in J. destruct l as [|a l]; [destruct J as [[]|[]]|]. destruct J as [J|[<-|[]]]; [now right|now left].
Qed.
Lemma fern_closed : forallb (closed_under fernpolygon) fernmaps = true.
Proof. vm_compute. reflexivity. Qed.
Lemma fern_hundredths j z : exists f, In f fernmaps /\ fern_rule j z = hundredths f z.
Proof.
  destruct z as (x, y). cbn [fern_rule]. destruct (Rlt_dec _ _); [|destruct (Rlt_dec _ _); [|destruct (Rlt_dec _ _)]].
  - exists (0, 0, 0, 16, 0, 0)%Z. split; [now left|]. cbn [hundredths fst snd]. f_equal; lra.
  - exists (20, -26, 23, 22, 0, 160)%Z. split; [right; now left|]. cbn [hundredths fst snd]. f_equal; lra.
  - exists (-15, 28, 26, 24, 0, 44)%Z. split; [do 2 right; now left|]. cbn [hundredths fst snd]. f_equal; lra.
  - exists (85, 4, -4, 85, 0, 160)%Z. split; [do 3 right; now left|]. cbn [hundredths fst snd]. f_equal; lra.
Qed.
Lemma fern_polygon s js zs z : Forall (fun h => below h s) fernpolygon -> chain fern_rule s js zs -> In z zs -> Forall (fun h => below h z) fernpolygon.
Proof.
  intros S1 C. induction C as [|s j js zs C IH]; intros I; [destruct I|]. assert (T : Forall (fun h => below h (fern_rule j s)) fernpolygon).
  { destruct (fern_hundredths j s) as (f & J & ->). apply closed_sound; [|exact S1]. pose proof fern_closed as K. rewrite forallb_forall in K. now apply K. }
  destruct I as [<-|I]; [exact T|now apply IH].
Qed.
Theorem C135_fern : forall js zs z, chain fern_rule (0, 0) js zs -> In z zs -> - (2184 / 1000) <= fst z <= 2660 / 1000 /\ 0 <= snd z <= 9999 / 1000.
Proof.
  intros js zs z C I. assert (P : Forall (fun h => below h z) fernpolygon).
  { apply (fern_polygon (0, 0) js zs); [|exact C|exact I]. unfold fernpolygon. repeat (apply Forall_cons; [cbn [below fst snd]; lra|]). apply Forall_nil. }
  rewrite Forall_forall in P. pose proof (P (0, -100000, 0)%Z (nth_error_In fernpolygon 1 eq_refl)) as A1. pose proof (P (100000, 0, 265920)%Z (nth_error_In fernpolygon 3 eq_refl)) as A2. pose proof (P (0, 100000, 999869)%Z (nth_error_In fernpolygon 5 eq_refl)) as A3. pose proof (P (-100000, 0, 218313)%Z (nth_error_In fernpolygon 31 eq_refl)) as A4.
  cbn [below] in A1, A2, A3, A4. lra.
Qed.
(** The fern drawn in a rectangle fits in: after the first points, which lead from the corner of the rectangle to the
    fern, none is cut off if the rectangle is wide enough. *)
Lemma chain_total F js : forall s, exists zs, chain F s js zs /\ length zs = length js.
Proof. induction js as [|j js IH]; intros s; [exists []; split; constructor|]. destruct (IH (F j s)) as (zs & C & L). exists (F j s :: zs). split; [now constructor|cbn; lia]. Qed.
Lemma chain_length F s js zs : chain F s js zs -> length zs = length js.
Proof. induction 1; cbn; lia. Qed.
Lemma dist_parts z w : Rabs (fst z - fst w) <= dist z w /\ Rabs (snd z - snd w) <= dist z w.
Proof.
  unfold dist, sqnorm. cbn [fst snd]. set (a := fst z - fst w). set (b := snd z - snd w). rewrite <- !sqrt_Rsqr_abs. unfold Rsqr. pose proof (Rle_0_sqr a). pose proof (Rle_0_sqr b). unfold Rsqr in *. split; apply sqrt_le_1_alt; lra.
Qed.
Lemma dist_origin x y : 0 <= x -> 0 <= y -> dist (x, y) (0, 0) <= x + y.
Proof. intros X Y. unfold dist, sqnorm. cbn [fst snd]. rewrite !Rminus_0_r. rewrite <- (sqrt_square (x + y)) by lra. apply sqrt_le_1_alt. nra. Qed.
Theorem C135_fern_fits : forall l r u d js zs k z x y, (0 <= l <= r)%Z -> (0 <= u <= d)%Z -> let s := ((d - u) / 10)%Z in (2661 * s <= 1000 * ((r - l) / 2))%Z ->
  chain fern_rule (IZR l, IZR u) js zs -> nth_error zs k = Some z -> let e := (86 / 100) ^ S k * IZR (l + u) in e <= 1 / 1000 -> e * IZR s < 1 ->
  chopped (IZR l + IZR ((r - l) / 2) + fst z * IZR s) x -> chopped (IZR d + IZR 0 - snd z * IZR s) y -> (l <= x <= r /\ u <= y <= d)%Z.
Proof.
  intros l r u d js zs k z x y L U s Wd C E e E1 E2 CX CY.
  destruct (chain_total fern_rule js (0, 0)) as (ws & C' & LW). assert (K : (k < length ws)%nat) by (rewrite LW, <- (chain_length _ _ _ _ C); apply nth_error_Some; congruence).
  destruct (nth_error ws k) as [w|] eqn:E'; [|apply nth_error_None in E'; lia].
  pose proof (C135_contract fern_rule (86 / 100) _ _ js zs ws k z w (or_introl eq_refl) C C' E E') as D. destruct (C135_fern js ws w C' (nth_error_In _ _ E')) as (W1 & W2).
  assert (L0 : 0 <= IZR l) by (apply IZR_le; lia). assert (U0 : 0 <= IZR u) by (apply IZR_le; lia). assert (DE : dist z w <= e).
  { eapply Rle_trans; [exact D|]. unfold e. rewrite plus_IZR. apply Rmult_le_compat_l; [apply pow_le; lra|]. now apply dist_origin. }
  destruct (dist_parts z w) as (D1 & D2).
  assert (D1' : - e <= fst z - fst w <= e) by (split; [apply Ropp_le_cancel; rewrite Ropp_involutive; pose proof (Rle_abs (- (fst z - fst w))); rewrite Rabs_Ropp in *; lra|pose proof (Rle_abs (fst z - fst w)); lra]).
  assert (D2' : - e <= snd z - snd w <= e) by (split; [apply Ropp_le_cancel; rewrite Ropp_involutive; pose proof (Rle_abs (- (snd z - snd w))); rewrite Rabs_Ropp in *; lra|pose proof (Rle_abs (snd z - snd w)); lra]).
  assert (S0 : (0 <= s /\ 10 * s <= d - u)%Z) by (unfold s; pose proof (Z.mul_div_le (d - u) 10); pose proof (Z.div_pos (d - u) 10); lia). assert (H0 : (2 * ((r - l) / 2) <= r - l)%Z) by (pose proof (Z.mul_div_le (r - l) 2); lia).
  destruct S0 as (S0 & S1). apply IZR_le in S0, S1, Wd, H0. rewrite !mult_IZR in Wd. rewrite mult_IZR, minus_IZR in S1, H0. set (hw := IZR ((r - l) / 2)) in *. set (sr := IZR s) in *.
  assert (X1 : - (2185 / 1000) * sr <= fst z * sr <= 2661 / 1000 * sr) by (split; apply Rmult_le_compat_r; lra). assert (Y1 : - (e * sr) <= snd z * sr <= 10 * sr) by (split; [rewrite Ropp_mult_distr_l|]; apply Rmult_le_compat_r; lra).
  destruct CX as (CX & _). destruct CY as (CY & _). specialize (CX ltac:(lra)). specialize (CY ltac:(lra)).
  assert (XL : IZR l < IZR (x + 1)) by (rewrite plus_IZR; lra). assert (XR : IZR x <= IZR r) by lra. assert (YU : IZR u < IZR (y + 1)) by (rewrite plus_IZR; lra). assert (YD : IZR y < IZR (d + 1)) by (rewrite plus_IZR; lra).
  apply lt_IZR in XL, YU, YD. apply le_IZR in XR. lia.
Qed.
(** The fern of fern(): the picture of its points with a tenth of the height as the scale, the middle as the place of
    its stem. *)
Theorem C135_drawfern : forall b w h bits o x1 y1 x2 y2 c js, random01 js -> wf b w h bits -> storable bits c ->
  let s := (Z.abs (y2 - y1) / 10)%Z in
  (inside w h x1 y1 -> inside w h x2 y2 -> exists b', drawfern x1 y1 x2 y2 c js (mkst b o) = (Ok (Some tt), mkst b' o) /\
     drawIFS fernparam x1 y1 x2 y2 s s (Z.abs (x2 - x1) / 2) 0 c js (mkst b o) = (Ok tt, mkst b' o)) /\
  (~ (inside w h x1 y1 /\ inside w h x2 y2) -> drawfern x1 y1 x2 y2 c js (mkst b o) = (Ok None, mkst b (o ++ [Mregionoutofbounds]))).
Proof.
  intros b w h bits o x1 y1 x2 y2 c js RJ Wb Sc s. split.
  - intros I1 I2. destruct (C135_picture fernparam fern_rule b w h bits o x1 y1 x2 y2 s s (Z.abs (x2 - x1) / 2) 0 c js (or_introl eq_refl) RJ Wb Sc) as (zs & b' & _ & E & _). exists b'. split; [|exact E].
    unfold drawfern, fern. fold s. unfold drawIFS in E. rewrite (guard_true b w h bits) by auto. unfold withSome. rewrite (bind_ok _ _ _ _ _ E). reflexivity.
  - intros N. unfold drawfern. now apply (C92_fern _ b w h bits).
Qed.
Lemma half_false (j p : R) (A : Type) (u v : A) : ~ j < p -> (if Rlt_dec j p then u else v) = v.
Proof. intros H. now destruct (Rlt_dec j p). Qed.
Lemma half_true (j p : R) (A : Type) (u v : A) : j < p -> (if Rlt_dec j p then u else v) = u.
Proof. intros H. now destruct (Rlt_dec j p). Qed.
(** Three points of Sierpinski's triangle, a point in its hole, and a fern that starts in the corner (0, 0) *)
Example C135_ex : random01 [1 / 2; 3 / 4; 0] /\ in_triangle (0, 0) /\ chain sierpinski_rule (0, 0) [1 / 2; 3 / 4; 0] [(1, 0); (1, 1 / 2); (1 / 2, 1 / 4)] /\ hole 0 (1, 1 / 4) /\ hole 1 (1 / 2, 1 / 8) /\
  chain fern_rule (0, 0) [1 / 2; 1 / 100] [(0, 160 / 100); (- (416 / 1000), 1952 / 1000)] /\ (2661 * ((99 - 0) / 10) <= 1000 * ((99 - 0) / 2))%Z.
Proof.
  split; [repeat apply Forall_cons; try apply Forall_nil; lra|]. split; [unfold in_triangle; cbn; lra|]. split; [|split; [cbn; lra|split; [cbn; left; lra|split]]].
  - replace (1, 0) with (sierpinski_rule (1 / 2) (0, 0)) by (cbn; rewrite half_false, half_true by lra; f_equal; lra). constructor. replace (sierpinski_rule (1 / 2) (0, 0)) with (1, 0) by (cbn; rewrite half_false, half_true by lra; f_equal; lra).
    replace (1, 1 / 2) with (sierpinski_rule (3 / 4) (1, 0)) by (cbn; rewrite !half_false by lra; f_equal; lra). constructor. replace (sierpinski_rule (3 / 4) (1, 0)) with (1, 1 / 2) by (cbn; rewrite !half_false by lra; f_equal; lra).
    replace (1 / 2, 1 / 4) with (sierpinski_rule 0 (1, 1 / 2)) by (cbn; rewrite half_true by lra; f_equal; lra). constructor. constructor.
  - replace (0, 160 / 100) with (fern_rule (1 / 2) (0, 0)) by (cbn; rewrite !half_false by lra; f_equal; lra). constructor. replace (fern_rule (1 / 2) (0, 0)) with (0, 160 / 100) by (cbn; rewrite !half_false by lra; f_equal; lra).
    replace (- (416 / 1000), 1952 / 1000) with (fern_rule (1 / 100) (0, 160 / 100)) by (cbn; rewrite half_false, half_true by lra; f_equal; lra). constructor. constructor.
  - vm_compute. discriminate.
Qed.
Print Assumptions C135_picture.
Print Assumptions C135_contract.
Print Assumptions C135_sierpinski.
Print Assumptions C135_cantortree.
Print Assumptions C135_tree.
Print Assumptions C135_fern.
Print Assumptions C135_fern_fits.
Print Assumptions C135_drawfern.
