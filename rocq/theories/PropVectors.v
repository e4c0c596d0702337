(** Property C125: lists of points. *)
From Coq Require Import ZArith QArith List Bool Lia Lqa Permutation.
From Verif Require Import PyBase PyFacts Spec Bmp MathLib Fractal FractProofs5 Exact SpecColours Colours ColourProofs Vectors.
Import ListNotations.
Open Scope Z_scope.

(** * C125 *)
Lemma zipwith_length f u v : length (zipwith f u v) = Nat.min (length u) (length v).
Proof. revert v. induction u as [|a u IH]; intros [|b v]; cbn; auto. Qed.
Lemma addvect_nth u v k : (k < length u)%nat -> (k < length v)%nat -> nth k (addvect u v) 0 = nth k u 0 + nth k v 0.
Proof. unfold addvect. revert v k. induction u as [|a u IH]; intros [|b v] [|k] H K; cbn in *; try lia. apply IH; lia. Qed.
(** The sum of vectors: as long as the shortest one, item by item, in any order. *)
Theorem C125_sum : forall v t, exists s, addvectinlist (v :: t) = Ok s /\
  length s = fold_right (fun u m => Nat.min (length u) m) (length v) t /\
  forall k, (k < length s)%nat -> nth k s 0 = fold_right Z.add 0 (map (fun u => nth k u 0) (v :: t)).
Proof.
  intros v t. cbn [addvectinlist]. eexists. split; [reflexivity|]. revert v. induction t as [|u t IH]; intros v.
  - cbn. split; [reflexivity|]. intros. lia.
  - cbn [fold_left]. destruct (IH (addvect v u)) as (L & N). rewrite L. split.
    + unfold addvect. rewrite zipwith_length. cbn [fold_right]. clear. induction t as [|w t IH]; cbn; lia.
    + intros k Hk.
      assert (M : (length (fold_left addvect t (addvect v u)) <= Nat.min (length v) (length u))%nat).
      { rewrite L. unfold addvect at 1. rewrite zipwith_length. clear. induction t as [|w t IH]; cbn; lia. }
      rewrite (N k) by lia. cbn [map fold_right]. rewrite addvect_nth by lia. lia.
Qed.
Theorem C125_sum_order : forall v t w u s s', Permutation (v :: t) (w :: u) ->
  addvectinlist (v :: t) = Ok s -> addvectinlist (w :: u) = Ok s' -> s = s'.
Proof.
  intros v t w u s s' P E E'. destruct (C125_sum v t) as (s1 & E1 & L1 & N1). destruct (C125_sum w u) as (s2 & E2 & L2 & N2).
  rewrite E in E1. injection E1 as <-. rewrite E' in E2. injection E2 as <-.
  assert (F : forall (l : list (list Z)) m, fold_right (fun u m => Nat.min (length u) m) m l = fold_right Nat.min m (map (@length Z) l)) by (induction l; intros; cbn; auto).
  assert (G : forall v t, fold_right (fun u m => Nat.min (length u) m) (length v) t = fold_right Nat.min (length (v : list Z)) (map (@length Z) (v :: t))).
  { intros v0 t0. rewrite F. cbn [map fold_right]. induction (map (@length Z) t0) as [|n l IH]; cbn; lia. }
  assert (H : forall l l' : list nat, Permutation l l' -> forall m m', In m l -> In m' l' -> fold_right Nat.min m l = fold_right Nat.min m' l').
  { assert (B : forall (l : list nat) m k, In k l -> (fold_right Nat.min m l <= k)%nat) by (induction l as [|a l IH]; intros m k []; cbn; subst; [lia|pose proof (IH m k H); lia]).
    assert (B0 : forall (l : list nat) m, (fold_right Nat.min m l <= m)%nat) by (induction l as [|a l IH]; intros m; cbn; [lia|pose proof (IH m); lia]).
    assert (A : forall (l : list nat) m, In (fold_right Nat.min m l) (m :: l)).
    { induction l as [|a l IH]; intros m; [now left|]. cbn [fold_right]. destruct (IH m) as [Q|Q]; destruct (Nat.min_spec a (fold_right Nat.min m l)) as [[_ ->]|[_ ->]]; cbn; auto. }
    intros l l' Q m m' I I'. apply Nat.le_antisymm.
    - destruct (A l' m') as [X|X]; [rewrite <- X; apply B; eapply Permutation_in; [apply Permutation_sym; exact Q|exact I']|apply B; eapply Permutation_in; [apply Permutation_sym; exact Q|exact X]].
    - destruct (A l m) as [X|X]; [rewrite <- X; apply B; eapply Permutation_in; [exact Q|exact I]|apply B; eapply Permutation_in; [exact Q|exact X]]. }
  assert (LL : length s = length s').
  { rewrite L1, L2, !G. apply H; [now apply Permutation_map|now left|now left]. }
  apply (nth_ext s s' 0 0 LL). intros k Hk. rewrite (N1 k Hk), (N2 k ltac:(lia)).
  assert (S : forall l l' : list Z, Permutation l l' -> fold_right Z.add 0 l = fold_right Z.add 0 l') by (intros l l' Q; induction Q; cbn; lia).
  apply S. now apply Permutation_map.
Qed.

(** Mirrored points have the centre in the middle; lists of vectors add item by item. *)
Theorem C125_mirror : forall c v, length c = length v -> exists p q, mirrorvec c v = [p; q] /\
  forall k, (k < length c)%nat -> nth k q 0 - nth k c 0 = nth k v 0 /\ nth k c 0 - nth k p 0 = nth k v 0.
Proof.
  intros c v L. unfold mirrorvec. do 2 eexists. split; [reflexivity|]. intros k Hk. rewrite addvect_nth by lia. split; [lia|].
  unfold subvect. revert v k L Hk. induction c as [|a c IH]; intros [|b v] [|k] L Hk; cbn in *; try lia. apply IH; lia.
Qed.
Theorem C125_lists : forall u v k, (k < length u)%nat -> (k < length v)%nat -> nth k (addvectlist u v) [] = addvect (nth k u []) (nth k v []).
Proof. unfold addvectlist. induction u as [|a u IH]; intros [|b v] [|k] H K; cbn in *; try lia; auto. apply IH; lia. Qed.
Theorem C125_triplet : forall u v w, Ok (addvecttripletlist (u, v, w)) = addvectinlist [u; v; w].
Proof. reflexivity. Qed.

(** ** bounds *)
Lemma fold_min t : forall a, let m := fold_left (fun m q => if negb (Qle_bool m q) then q else m) t a in
  In m (a :: t) /\ forall q, In q (a :: t) -> (m <= q)%Q.
Proof.
  induction t as [|b t IH]; intros a; cbn [fold_left]; [split; [now left|intros q [<-|[]]; apply Qle_refl]|].
  destruct (Qle_bool a b) eqn:E; cbn [negb].
  - destruct (IH a) as (I & L). cbv zeta in *. split; [destruct I as [I|I]; cbn; auto|]. intros q [<-|[<-|K]]; [apply L; now left|apply Qle_trans with a; [apply L; now left|now apply Qle_bool_iff]|apply L; now right].
  - destruct (IH b) as (I & L). cbv zeta in *. split; [destruct I as [I|I]; cbn; auto|].
    assert (LT : (b < a)%Q) by (destruct (Qlt_le_dec b a); [auto|apply Qle_bool_iff in q; congruence]).
    intros q [<-|[<-|K]]; [apply Qle_trans with b; [apply L; now left|lra]|apply L; now left|apply L; now right].
Qed.
Lemma fold_max t : forall a, let m := fold_left (fun m q => if negb (Qle_bool q m) then q else m) t a in
  In m (a :: t) /\ forall q, In q (a :: t) -> (q <= m)%Q.
Proof.
  induction t as [|b t IH]; intros a; cbn [fold_left]; [split; [now left|intros q [<-|[]]; apply Qle_refl]|].
  destruct (Qle_bool b a) eqn:E; cbn [negb].
  - destruct (IH a) as (I & L). cbv zeta in *. split; [destruct I as [I|I]; cbn; auto|]. intros q [<-|[<-|K]]; [apply L; now left|apply Qle_trans with a; [now apply Qle_bool_iff|apply L; now left]|apply L; now right].
  - destruct (IH b) as (I & L). cbv zeta in *. split; [destruct I as [I|I]; cbn; auto|].
    assert (LT : (a < b)%Q) by (destruct (Qlt_le_dec a b); [auto|apply Qle_bool_iff in q; congruence]).
    intros q [<-|[<-|K]]; [apply Qle_trans with b; [lra|apply L; now left]|apply L; now left|apply L; now right].
Qed.
(** The bounds contain every point and each of them is a coordinate of some point. *)
Theorem C125_bounds : forall v, v <> [] -> exists x0 x1 y0 y1, getdomainbounds v = Ok (x0, x1, y0, y1) /\
  (forall x y, In (x, y) v -> x0 <= x <= x1 /\ y0 <= y <= y1)%Q /\
  In x0 (map fst v) /\ In x1 (map fst v) /\ In y0 (map snd v) /\ In y1 (map snd v).
Proof.
  intros [|[a b] v] N; [contradiction|]. unfold getdomainbounds. cbn [map fst snd qmin_list qmax_list rbind]. do 4 eexists. split; [reflexivity|].
  destruct (fold_min (map fst v) a) as (A1 & A2), (fold_max (map fst v) a) as (B1 & B2), (fold_min (map snd v) b) as (C1 & C2), (fold_max (map snd v) b) as (D1 & D2). cbv zeta in *.
  split; [|cbn [map fst snd] in *; auto]. intros x y I.
  assert (IX : In x (a :: map fst v)) by (change (a :: map fst v) with (map fst ((a, b) :: v)); apply in_map_iff; now exists (x, y)).
  assert (IY : In y (b :: map snd v)) by (change (b :: map snd v) with (map snd ((a, b) :: v)); apply in_map_iff; now exists (x, y)).
  repeat split; auto.
Qed.
Theorem C125_no_points : getdomainbounds [] = Err ValueError.
Proof. reflexivity. Qed.

(** ** histograms *)
(** z lies in the k-th of the half-open intervals of length (high - low) / (bins - 1) *)
Definition in_bin (low high : Q) (bins k : Z) (z : Q) : bool :=
  let s := ((high - low) / inject_Z (bins - 1))%Q in
  Qle_bool (low + inject_Z k * s) z && negb (Qle_bool (low + inject_Z (k + 1) * s) z).
Lemma bin_of low high bins z : 1 < bins -> (low < high)%Q -> (low <= z <= high)%Q ->
  let s := ((high - low) / inject_Z (bins - 1))%Q in
  Qeq_bool s 0 = false /\ 0 <= qtrunc ((z - low) / s) < bins /\ (forall k, in_bin low high bins k z = (qtrunc ((z - low) / s) =? k)).
Proof.
  intros B L Z s. pose proof (lt_inject 0 (bins - 1) ltac:(lia)) as P. change (inject_Z 0) with 0%Q in P. set (n := inject_Z (bins - 1)) in *.
  assert (S0 : (0 < s)%Q) by (subst s; apply Qlt_shift_div_l; lra). assert (SN : (s * n == high - low)%Q) by (subst s; field; lra).
  split; [destruct (Qeq_bool s 0) eqn:E; [apply Qeq_bool_iff in E; lra|reflexivity]|].
  set (q := ((z - low) / s)%Q). assert (QE : (z - low == q * s)%Q) by (subst q; field; lra). assert (Q0 : (0 <= q)%Q) by (subst q; apply Qle_shift_div_l; lra).
  destruct (qtrunc_nonneg q Q0) as (T1 & T2). assert (QN : (q <= n)%Q) by (subst q; apply Qle_shift_div_r; lra). split.
  - assert (0 <= qtrunc q <= bins - 1); [|lia]. apply qtrunc_bounds; auto; lia.
  - intros k. unfold in_bin. fold n. fold s. apply eq_true_iff_eq. rewrite andb_true_iff, negb_true_iff, Z.eqb_eq. rewrite <- not_true_iff_false, !Qle_bool_iff.
    rewrite inject_Z_plus. change (inject_Z 1) with 1%Q. clearbody s q n. split.
    + intros (A & A'). apply qtrunc_unique; auto. assert (A2 : (z < low + (inject_Z k + 1) * s)%Q) by (destruct (Qlt_le_dec z (low + (inject_Z k + 1) * s)); [auto|contradiction]).
      split; [apply Qnot_lt_le; intros X|apply Qnot_le_lt; intros X]; nra.
    + intros <-. split; [nra|]. intros X. nra.
Qed.
(** Every point is counted once, in the cell whose intervals contain it. *)
Theorem C125_histogram : forall v xbins ybins x0 x1 y0 y1, getdomainbounds v = Ok (x0, x1, y0, y1) -> (x0 < x1)%Q -> (y0 < y1)%Q -> 1 < xbins -> 1 < ybins ->
  exists h, histogram v xbins ybins = Ok h /\ zlen h = ybins /\
    forall r, 0 <= r < ybins -> zlen (nth (Z.to_nat r) h []) = xbins /\
      forall c, 0 <= c < xbins ->
        getz (nth (Z.to_nat r) h []) c = zlen (filter (fun z => in_bin x0 x1 xbins c (fst z) && in_bin y0 y1 ybins r (snd z)) v).
Proof.
  intros v xbins ybins x0 x1 y0 y1 G LX LY BX BY. assert (NE : v <> []) by (intros ->; discriminate G).
  destruct (C125_bounds v NE) as (a & b & c & d & G' & I & _). rewrite G in G'. injection G' as <- <- <- <-.
  set (sx := ((x1 - x0) / inject_Z (xbins - 1))%Q). set (sy := ((y1 - y0) / inject_Z (ybins - 1))%Q).
  set (cell := fun z : Q * Q => (qtrunc ((fst z - x0) / sx), qtrunc ((snd z - y0) / sy))).
  assert (C : forall z, In z v -> let x := fst z in let y := snd z in
     (0 <= fst (cell z) < xbins /\ 0 <= snd (cell z) < ybins) /\ (forall c r, in_bin x0 x1 xbins c x && in_bin y0 y1 ybins r y = (fst (cell z) =? c) && (snd (cell z) =? r))).
  { intros [x y] Hz. destruct (I x y Hz) as (X & Y). destruct (bin_of x0 x1 xbins x BX LX X) as (_ & R1 & K1). destruct (bin_of y0 y1 ybins y BY LY Y) as (_ & R2 & K2).
    cbv zeta. cbn [fst snd]. split; [split; assumption|]. intros c r. rewrite K1, K2. reflexivity. }
  assert (EC : cellsof v xbins ybins = Ok (map cell v)).
  { unfold cellsof. rewrite G. cbn [rbind]. unfold binsize. destruct (Z.eqb_spec xbins 1); [lia|]. destruct (Z.eqb_spec ybins 1); [lia|]. cbn [rbind]. fold sx sy.
    destruct v as [|[p q] v']; [contradiction|]. destruct (I p q (or_introl eq_refl)) as (X & Y).
    destruct (bin_of x0 x1 xbins p BX LX X) as (NX & _). destruct (bin_of y0 y1 ybins q BY LY Y) as (NY & _). fold sx in NX. fold sy in NY.
    clear - NX NY. unfold pycell. rewrite NX, NY. cbn [rbind]. induction ((p, q) :: v') as [|z l IH]; [reflexivity|]. cbn [res_map map]. rewrite IH. reflexivity. }
  unfold histogram. rewrite EC. cbn [rbind].
  destruct (hist_ok (map cell v) xbins ybins ltac:(lia) ltac:(lia)) as (h & E & L & T).
  { intros x y Hi. apply in_map_iff in Hi. destruct Hi as (z & Ez & Hz). destruct (C z Hz) as (K & _). rewrite Ez in K. exact K. }
  exists h. split; [exact E|]. split; [exact L|]. intros r Hr. destruct (T r Hr) as (T1 & T2). split; [exact T1|]. intros k Hk. rewrite (T2 k Hk). unfold hits.
  assert (F : forall l, (forall z, In z l -> In z v) -> zlen (filter (fun p => (fst p =? k) && (snd p =? r)) (map cell l)) = zlen (filter (fun z => in_bin x0 x1 xbins k (fst z) && in_bin y0 y1 ybins r (snd z)) l)).
  { induction l as [|z l IH]; intros Hl; [reflexivity|]. cbn [map filter]. destruct (C z (Hl z (or_introl eq_refl))) as (_ & K). rewrite (K k r).
    specialize (IH (fun z0 H0 => Hl z0 (or_intror H0))). destruct ((fst (cell z) =? k) && (snd (cell z) =? r)); unfold zlen in *; cbn [length]; lia. }
  apply F. auto.
Qed.
Theorem C125_histogram_flat : forall v xbins ybins x0 x1 y0 y1, getdomainbounds v = Ok (x0, x1, y0, y1) ->
  xbins = 1 \/ ybins = 1 \/ (x0 == x1)%Q \/ (y0 == y1)%Q -> histogram v xbins ybins = Err ZeroDivisionError.
Proof.
  intros v xbins ybins x0 x1 y0 y1 G H. unfold histogram, cellsof. rewrite G. cbn [rbind]. unfold binsize.
  destruct (Z.eqb_spec xbins 1); [reflexivity|]. cbn [rbind]. destruct (Z.eqb_spec ybins 1); [reflexivity|]. cbn [rbind].
  destruct v as [|z v]; [discriminate G|]. cbn [res_map].
  assert (K : forall a b n q, (a == b)%Q -> pycell q a ((b - a) / n) = Err ZeroDivisionError).
  { intros a b m q E. unfold pycell. assert (QE : Qeq_bool ((b - a) / m) 0 = true) by (apply Qeq_bool_iff; rewrite E; unfold Qdiv; ring). now rewrite QE. }
  destruct H as [H|[H|[H|H]]]; try contradiction.
  - rewrite (K x0 x1 _ (fst z) H). destruct (pycell (snd z) y0 _) eqn:P; [reflexivity|]. unfold pycell in P. destruct (Qeq_bool _ 0) in P; [injection P as <-; reflexivity|discriminate P].
  - now rewrite (K y0 y1 _ (snd z) H).
Qed.

(** ** the test of a list of points does not test *)
Theorem C125_listinrecbnd : forall l xmin ymin xmax ymax, listinrecbnd l xmin ymin xmax ymax = true.
Proof. intros. unfold listinrecbnd. induction l as [|[x y] l IH]; [reflexivity|]. destruct (Bool.eqb _ false); auto. Qed.
Theorem C125_listinrecbnd_refuted : ~ (forall l xmin ymin xmax ymax, listinrecbnd l xmin ymin xmax ymax = true -> forall x y, In (x, y) l -> xmin < x < xmax /\ ymin < y < ymax).
Proof. intros F. specialize (F [(9, 9)] 0 0 5 5 eq_refl 9 9 (or_introl eq_refl)). lia. Qed.

(** ** distances *)
Lemma same_iff u v : same u v = true <-> u = v.
Proof. unfold same. destruct u, v. cbn. rewrite andb_true_iff, !Z.eqb_eq. split; [intros [-> ->]; reflexivity|]. intros E. now inversion E. Qed.
Lemma index_nth l : NoDup l -> forall i d, (i < length l)%nat -> index_of (nth i l d) l = Z.of_nat i.
Proof.
  induction 1 as [|u l N ND IH]; intros i d Hi; [cbn in Hi; lia|]. destruct i as [|i]; cbn [nth index_of].
  - rewrite !Z.eqb_refl. reflexivity.
  - cbn [length] in Hi. fold (same u (nth i l d)). destruct (same u (nth i l d)) eqn:S.
    + apply same_iff in S. exfalso. apply N. rewrite S. apply nth_In. lia.
    + rewrite (IH i d) by lia. lia.
Qed.
(** All ordered pairs of different points, with their positions. *)
Theorem C125_distancetable : forall dist l i j d, NoDup l ->
  (In (i, j, d) (distancetable dist l) <->
   0 <= i < zlen l /\ 0 <= j < zlen l /\ i <> j /\ d = dist (nth (Z.to_nat j) l (0, 0)) (nth (Z.to_nat i) l (0, 0))).
Proof.
  intros dist l i j d ND. unfold distancetable. rewrite in_concat. unfold zlen. split.
  - intros (t & Ht & Hi). apply in_map_iff in Ht. destruct Ht as (v & <- & Hv). apply in_map_iff in Hi. destruct Hi as (u & E & Hu). apply filter_In in Hu. destruct Hu as (Hu & S).
    destruct (In_nth l v (0, 0) Hv) as (a & La & Ea). destruct (In_nth l u (0, 0) Hu) as (b & Lb & Eb). subst v u. rewrite !index_nth in E by auto. injection E as <- <- <-.
    rewrite !Nat2Z.id. split; [lia|]. split; [lia|]. split; [|reflexivity]. intros X. assert (a = b) by lia. subst b. apply negb_true_iff in S. assert (same (nth a l (0, 0)) (nth a l (0, 0)) = true) by now apply same_iff. congruence.
  - intros (Hi & Hj & N & ->). set (v := nth (Z.to_nat i) l (0, 0)). set (u := nth (Z.to_nat j) l (0, 0)).
    exists (map (fun u => (index_of v l, index_of u l, dist u v)) (filter (fun u => negb (same u v)) l)). split; [apply in_map_iff; exists v; split; [reflexivity|apply nth_In; lia]|].
    apply in_map_iff. exists u. split; [subst u v; rewrite !index_nth by (auto; lia); now rewrite !Z2Nat.id by lia|].
    apply filter_In. split; [apply nth_In; lia|]. apply negb_true_iff. apply not_true_iff_false. rewrite same_iff. intros E. apply N.
    apply (NoDup_nth l (0, 0)) in E; auto; lia.
Qed.
Lemma nodup_app {A} (l m : list A) : NoDup l -> NoDup m -> (forall a, In a l -> ~ In a m) -> NoDup (l ++ m).
Proof.
  induction l as [|a l IH]; intros H K D; [exact K|]. inversion H; subst. cbn. constructor.
  - rewrite in_app_iff. intros [X|X]; [contradiction|]. apply (D a); [now left|exact X].
  - apply IH; auto. intros b Hb. apply D. now right.
Qed.
Lemma index_inj l : NoDup l -> forall u v, In u l -> In v l -> index_of u l = index_of v l -> u = v.
Proof.
  intros ND u v Hu Hv E. destruct (In_nth l u (0, 0) Hu) as (a & La & <-). destruct (In_nth l v (0, 0) Hv) as (b & Lb & <-). rewrite !index_nth in E by auto. f_equal. lia.
Qed.
(** No pair of positions is listed twice. *)
Theorem C125_distancetable_once : forall dist l, NoDup l -> NoDup (map fst (distancetable dist l)).
Proof.
  intros dist l ND. unfold distancetable.
  assert (K : forall t, NoDup t -> incl t l -> NoDup (map fst (List.concat (map (fun v => map (fun u => (index_of v l, index_of u l, dist u v)) (filter (fun u => negb (same u v)) l)) t)))).
  { induction t as [|v t IH]; intros NT I; [constructor|]. inversion NT as [|? ? N1 N2]; subst. cbn [map List.concat]. rewrite map_app. apply nodup_app.
    - rewrite map_map. cbn [fst]. pose proof (NoDup_filter (fun u => negb (same u v)) ND) as NF. remember (filter (fun u => negb (same u v)) l) as f eqn:Ef.
      assert (FI : incl f l) by (subst f; intros a Ha; now apply filter_In in Ha). clear Ef. induction f as [|u f IHf]; [constructor|]. inversion NF; subst. cbn [map]. constructor.
      + intros X. apply in_map_iff in X. destruct X as (w & E & Hw). injection E as E. apply index_inj in E; auto; [congruence|apply FI; now right|apply FI; now left].
      + apply IHf; auto. intros a Ha. apply FI. now right.
    - apply IH; auto. intros a Ha. apply I. now right.
    - intros [i j] H1 H2. rewrite map_map in H1. apply in_map_iff in H1. destruct H1 as (u & E & _). cbn [fst] in E. injection E as E _.
      apply in_map_iff in H2. destruct H2 as ([[i' j'] d] & E' & H2). cbn [fst] in E'. injection E' as -> ->. apply in_concat in H2. destruct H2 as (q & Hq & H2).
      apply in_map_iff in Hq. destruct Hq as (w & <- & Hw). apply in_map_iff in H2. destruct H2 as (z & E2 & _). injection E2 as E2 _ _. apply N1. replace v with w; [exact Hw|].
      apply (index_inj l ND); [apply I; now right|apply I; now left|congruence]. }
  apply K; auto. apply incl_refl.
Qed.
Definition lookup (d : Z) (l : list (Z * Z)) : Z := match find (fun p => fst p =? d) l with Some p => snd p | None => 0 end.
Lemma bump_lookup d e l : lookup e (bump d l) = lookup e l + (if d =? e then 1 else 0).
Proof.
  unfold lookup. induction l as [|[k n] l IH]; cbn [bump find fst snd].
  - destruct (Z.eqb_spec d e); reflexivity.
  - destruct (Z.eqb_spec k d) as [->|N]; cbn [find fst snd].
    + destruct (Z.eqb_spec d e); cbn [snd]; lia.
    + destruct (Z.eqb_spec k e) as [->|N']; cbn [snd]; [destruct (Z.eqb_spec d e); lia|exact IH].
Qed.
Lemma bump_keys d l x : In x (map fst (bump d l)) <-> x = d \/ In x (map fst l).
Proof.
  induction l as [|[k n] l IH]; cbn [bump map fst In]; [intuition|]. destruct (Z.eqb_spec k d) as [->|N]; cbn [map fst In]; [intuition|]. rewrite IH. intuition.
Qed.
Lemma bump_nodup d l : NoDup (map fst l) -> NoDup (map fst (bump d l)).
Proof.
  induction l as [|[k n] l IH]; cbn [bump map fst]; intros H; [constructor; [intros []|constructor]|]. inversion H as [|? ? H1 H2]; subst.
  destruct (Z.eqb_spec k d) as [->|N]; cbn [map fst]; [now constructor|]. constructor; [|now apply IH]. rewrite bump_keys. intuition.
Qed.
(** Each distance once, with the number of its occurrences. *)
Theorem C125_countdist : forall t, NoDup (map fst (countdist t)) /\
  (forall d, lookup d (countdist t) = zlen (filter (fun e => snd e =? d) t)) /\
  (forall d, In d (map fst (countdist t)) <-> In d (map snd t)).
Proof.
  intros t. unfold countdist.
  assert (K : forall t l, NoDup (map fst l) -> NoDup (map fst (fold_left (fun d i => bump (snd i) d) t l)) /\
    (forall d, lookup d (fold_left (fun d i => bump (snd i) d) t l) = lookup d l + zlen (filter (fun e => snd e =? d) t)) /\
    (forall d, In d (map fst (fold_left (fun d (i : Z * Z * Z) => bump (snd i) d) t l)) <-> In d (map snd t) \/ In d (map fst l))).
  { clear t. induction t as [|e t IH]; intros l H; [cbn; split; [auto|split; [intros; unfold zlen; cbn; lia|intuition]]|]. cbn [fold_left].
    destruct (IH (bump (snd e) l) (bump_nodup (snd e) l H)) as (A & B & C). split; [exact A|]. split.
    - intros d. rewrite B, bump_lookup. cbn [filter]. destruct (snd e =? d); unfold zlen; cbn [length]; lia.
    - intros d. rewrite C, bump_keys. cbn [map In]. intuition. }
  destruct (K t [] ltac:(constructor)) as (A & B & C). split; [exact A|]. split; [intros d; rewrite B; cbn; lia|]. intros d. rewrite C. cbn. intuition.
Qed.

(** ** spirals *)
(** The legs of a spiral go right, up, left and down in turn; each is longer than the one before
    by the step, multiplied by the growth factor after each turn. *)
Fixpoint leglength (step growth : Z) (k : nat) : Z :=
  match k with O => step | S j => leglength step growth j + step * growth ^ Z.of_nat (j / 4) end.
Definition leg (step growth : Z) (k : nat) : Z * Z :=
  let n := leglength step growth k in
  match (k mod 4)%nat with 0%nat => (n, 0) | 1%nat => (0, n) | 2%nat => (- n, 0) | _ => (0, - n) end.
Lemma leg4 step growth m : let L := leglength step growth in let i := step * growth ^ Z.of_nat m in
  L (4 * m + 1)%nat = L (4 * m)%nat + i /\ L (4 * m + 2)%nat = L (4 * m)%nat + i + i /\
  L (4 * m + 3)%nat = L (4 * m)%nat + i + i + i /\ L (4 * (m + 1))%nat = L (4 * m)%nat + i + i + i + i.
Proof.
  cbv zeta. replace (4 * m + 1)%nat with (S (4 * m)) by lia. replace (4 * m + 2)%nat with (S (S (4 * m))) by lia. replace (4 * m + 3)%nat with (S (S (S (4 * m)))) by lia.
  replace (4 * (m + 1))%nat with (S (S (S (S (4 * m))))) by lia. cbn [leglength].
  assert (D : forall r, (r < 4)%nat -> ((4 * m + r) / 4 = m)%nat) by (intros r Hr; symmetry; apply Nat.div_unique with r; lia).
  replace (S (S (S (4 * m)))) with (4 * m + 3)%nat by lia. replace (S (S (4 * m))) with (4 * m + 2)%nat by lia. replace (S (4 * m)) with (4 * m + 1)%nat by lia. replace (4 * m / 4)%nat with m by (rewrite <- (D 0%nat) at 1 by lia; f_equal; lia).
  rewrite !D by lia. repeat split; lia.
Qed.
Theorem C125_spiral : forall x y step growth turns, 0 <= turns ->
  let l := spiralcontrolpointsvert x y step growth turns in
  zlen l = 4 * turns + 1 /\ nth 0 l (0, 0) = (x, y) /\
  forall k, Z.of_nat k < 4 * turns ->
    let p := nth k l (0, 0) in let q := nth (S k) l (0, 0) in
    (fst q - fst p, snd q - snd p) = leg step growth k.
Proof.
  intros x y step growth turns H. unfold spiralcontrolpointsvert. cbv zeta.
  assert (K : forall n m x y, let L := leglength step growth (4 * m) in let i := step * growth ^ Z.of_nat m in zlen (spiralturns n x y L i growth) = 4 * Z.of_nat n /\
    forall k, (k < 4 * n)%nat ->
      let l := (x, y) :: spiralturns n x y L i growth in
      (fst (nth (S k) l (0, 0)) - fst (nth k l (0, 0)), snd (nth (S k) l (0, 0)) - snd (nth k l (0, 0))) = leg step growth (4 * m + k)).
  { clear. induction n as [|n IH]; intros m x y L i; [split; [reflexivity|intros; lia]|].
    destruct (leg4 step growth m) as (L1 & L2 & L3 & L4). fold L i in L1, L2, L3, L4.
    assert (I : i * growth = step * growth ^ Z.of_nat (m + 1)) by (subst i; rewrite Nat2Z.inj_add, Z.pow_add_r by lia; change (Z.of_nat 1) with 1; ring).
    cbn [spiralturns]. rewrite <- L4, I.
    set (x1 := x + L). set (y1 := y + (L + i)). set (x2 := x1 - (L + i + i)). set (y2 := y1 - (L + i + i + i)).
    destruct (IH (m + 1)%nat x2 y2) as (Ln & N). split; [unfold zlen in *; cbn [length]; lia|].
    assert (D : forall r, (r < 4)%nat -> ((4 * m + r) mod 4 = r)%nat) by (intros r Hr; symmetry; apply Nat.mod_unique with m; lia).
    intros k Hk. cbv zeta. assert (k = 0 \/ k = 1 \/ k = 2 \/ k = 3 \/ 4 <= k)%nat as [->|[->|[->|[->|G]]]] by lia.
    - unfold leg. rewrite D by lia. cbn [nth fst snd]. rewrite Nat.add_0_r. fold L. subst x1. f_equal; lia.
    - unfold leg. rewrite D by lia. cbn [nth fst snd]. rewrite L1. subst y1. f_equal; lia.
    - unfold leg. rewrite D by lia. cbn [nth fst snd]. rewrite L2. subst x2. f_equal; lia.
    - unfold leg. rewrite D by lia. cbn [nth fst snd]. rewrite L3. subst y2. f_equal; lia.
    - specialize (N (k - 4)%nat ltac:(lia)). cbv zeta in N. replace (4 * (m + 1) + (k - 4))%nat with (4 * m + k)%nat in N by lia. rewrite <- N.
      replace k with (4 + (k - 4))%nat at 1 2 3 4 by lia. cbn [nth plus]. reflexivity. }
  destruct (K (Z.to_nat turns) 0%nat x y) as (L & N). change (leglength step growth (4 * 0)) with step in *. change (growth ^ Z.of_nat 0) with 1 in *. rewrite Z.mul_1_r in *. split; [unfold zlen in *; cbn [length]; lia|]. split; [reflexivity|].
  intros k Hk. specialize (N k ltac:(lia)). cbv zeta in N. exact N.
Qed.
Theorem C125_spiral_even : forall step k, leglength step 1 k = step * (Z.of_nat k + 1).
Proof. intros step. induction k as [|k IH]; [cbn [leglength]; lia|]. cbn [leglength]. rewrite IH, Z.pow_1_l by lia. lia. Qed.
Example C125_ex :
  addvectinlist [[1; 2; 3]; [10; 20]; [5; 5; 5]] = Ok [16; 27] /\
  histogram [(0, 0); (1, 3); (1 # 2, 3); (1, 3)]%Q 3 2 = Ok [[1; 0; 0]; [0; 1; 2]] /\
  distancetable (fun u v => Z.abs (fst u - fst v)) [(0, 0); (2, 0); (4, 0)] = [(0, 1, 2); (0, 2, 4); (1, 0, 2); (1, 2, 2); (2, 0, 4); (2, 1, 2)] /\
  countdist (distancetable (fun u v => Z.abs (fst u - fst v)) [(0, 0); (2, 0); (4, 0)]) = [(2, 4); (4, 2)] /\
  spiralcontrolpointsvert 10 10 1 1 1 = [(10, 10); (11, 10); (11, 12); (8, 12); (8, 8)] /\
  map (leg 1 2) (seq 0 6) = [(1, 0); (0, 2); (-3, 0); (0, -4); (5, 0); (0, 7)].
Proof. vm_compute. auto 8. Qed.
Print Assumptions C125_sum.
Print Assumptions C125_sum_order.
Print Assumptions C125_bounds.
Print Assumptions C125_no_points.
Print Assumptions C125_histogram.
Print Assumptions C125_histogram_flat.
Print Assumptions C125_listinrecbnd.
Print Assumptions C125_listinrecbnd_refuted.
Print Assumptions C125_distancetable.
Print Assumptions C125_countdist.
Print Assumptions C125_spiral.
Print Assumptions C125_spiral_even.
Print Assumptions C125_mirror.
Print Assumptions C125_lists.
Print Assumptions C125_triplet.
Print Assumptions C125_distancetable_once.
