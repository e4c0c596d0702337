(** Property C141: nearest colours and B-splines with the rounding of floats. *)
From Coq Require Import ZArith QArith Reals List Lia Lra Bool.
From Verif Require Import PyBase Bmp Buffers Geometry Draw Solids Exact Spec GeomProofs DrawProofs2 CurveProofs Colours Coords RealProofs Floats FloatProofs PropFloats Floats2 PropFloats2 FloatCurves.
Import ListNotations.
Open Scope R_scope.

(** ** Distances of colours *)
Lemma sqrt_order n m : (0 <= n)%Z -> (n < m <= 2 ^ 20)%Z -> fl (sqrt (IZR n)) < fl (sqrt (IZR m)).
Proof.
  intros N M. assert (N0 : 0 <= IZR n) by (apply IZR_le; lia). assert (M0 : 0 <= IZR m) by (apply IZR_le; lia). assert (D : IZR n + 1 <= IZR m) by (rewrite <- plus_IZR; apply IZR_le; lia).
  pose proof (sqrt_sqrt _ N0) as SN. pose proof (sqrt_sqrt _ M0) as SM. pose proof (sqrt_pos (IZR n)). pose proof (sqrt_pos (IZR m)). set (a := sqrt (IZR n)) in *. set (b := sqrt (IZR m)) in *.
  assert (B : b <= 1024). { unfold b. rewrite <- (sqrt_square 1024) by lra. apply sqrt_le_1_alt. rewrite <- mult_IZR. apply IZR_le. lia. }
  assert (AB : a < b) by nra. pose proof u_pos. pose proof eta_pos.
  assert (EA : Rabs (fl a - a) <= / 1000000000000) by (eapply Rle_trans; [apply (fl_near _ 1024); apply Rabs_le; lra|]; lra).
  assert (EB : Rabs (fl b - b) <= / 1000000000000) by (eapply Rle_trans; [apply (fl_near _ 1024); apply Rabs_le; lra|]; lra).
  apply Rabs_le_inv in EA, EB. assert (G : a + / 3000 <= b); [|lra]. assert ((b - a) * (b + a) >= 1) by nra. nra.
Qed.
Lemma sqrt_lt_iff n m : (0 <= n <= 2 ^ 20)%Z -> (0 <= m <= 2 ^ 20)%Z -> rlt (fl (sqrt (IZR n))) (fl (sqrt (IZR m))) = (n <? m)%Z.
Proof.
  intros N M. destruct (Z.ltb_spec n m) as [L|L]; [apply rlt_iff, sqrt_order; lia|]. apply rlt_no. destruct (Z.eq_dec m n) as [->|NE]; [lra|]. apply Rlt_le, sqrt_order; lia.
Qed.
Lemma fl_sqrt_square t : (0 <= t <= 2 ^ 53)%Z -> fl (sqrt (IZR (t * t))) = IZR t.
Proof. intros T. rewrite mult_IZR, sqrt_square by (apply IZR_le; lia). apply fl_Z. lia. Qed.
Definition bytes (c : Z * Z * Z) : Prop := let '(r, g, b) := c in byte r /\ byte g /\ byte b.
Lemma dist2_bound u v : bytes u -> bytes v -> (0 <= dist2 u v <= 195075)%Z.
Proof.
  destruct u as [[a b] c], v as [[d e] f]. unfold bytes, byte, dist2. intros (A & B & C) (D & E & F).
  assert (G : forall x y, (0 <= x <= 255)%Z -> (0 <= y <= 255)%Z -> (0 <= (x - y) * (x - y) <= 65025)%Z) by (intros x y X Y; assert (Z1 : (-255 <= x - y <= 255)%Z) by lia; generalize dependent (x - y)%Z; intros z Z1; clear - Z1; nia).
  pose proof (G a d A D). pose proof (G b e B E). pose proof (G c f C F). lia.
Qed.
(** Of two colours the one with the smaller square of the distance is nearer, and equal squares are equal
    distances; the nearest entry of a palette is the one that the squares give. *)
Theorem C141_nearest : forall islist rgb pal, bytes rgb -> (forall p, In p pal -> bytes p) ->
  fmatchRGBtopal islist rgb pal = matchRGBtopal islist rgb pal /\ (forall p q, In p pal -> In q pal -> (frgbdist rgb p < frgbdist rgb q <-> (dist2 rgb p < dist2 rgb q)%Z)).
Proof.
  intros islist rgb pal B P. split.
  - unfold fmatchRGBtopal, matchRGBtopal. destruct (if islist then pal_index rgb pal 0 else None) as [c|]; [reflexivity|].
    rewrite <- (fl_sqrt_square 442) by lia. assert (G : forall pal i c d, (forall p, In p pal -> bytes p) -> (0 <= d <= 442 * 442)%Z -> fpal_nearest islist rgb pal i c (fl (sqrt (IZR d))) = pal_nearest islist rgb pal i c d); [|now apply G].
    clear P pal. induction pal as [|p t IH]; intros i c d P D; [reflexivity|]. cbn [fpal_nearest pal_nearest]. assert (PT : forall q, In q t -> bytes q) by (intros; apply P; now right).
    destruct (negb (rgb_eqb p (0, 0, 0)%Z) && negb (islist && rgb_eqb rgb (0, 0, 0)%Z)); [|now apply IH]. pose proof (dist2_bound rgb p B (P p (or_introl eq_refl))) as DB. unfold frgbdist. rewrite sqrt_lt_iff by lia.
    destruct (dist2 rgb p <? d)%Z; apply IH; try assumption; lia.
  - intros p q Hp Hq. pose proof (dist2_bound rgb p B (P p Hp)). pose proof (dist2_bound rgb q B (P q Hq)). unfold frgbdist. rewrite <- rlt_iff, sqrt_lt_iff by lia. apply Z.ltb_lt.
Qed.
(** Thresholds of similarity compare squares. *)
Theorem C141_threshold : forall t u v, bytes u -> bytes v ->
  (fnear t (dist2 u v) = true <-> (0 < t /\ dist2 u v < t * t)%Z) /\ (ffar t (dist2 u v) = true <-> (t < 0 \/ t * t < dist2 u v)%Z).
Proof.
  intros t u v U V. pose proof (dist2_bound u v U V) as D. set (d := dist2 u v) in *. clearbody d. unfold fnear, ffar. assert (S0 : 0 <= fl (sqrt (IZR d))) by (apply fl_nonneg, sqrt_pos).
  destruct (Z_lt_le_dec t 0) as [T|T]. { apply IZR_lt in T as T'. split; rewrite rlt_iff; split; intros; lra || lia || (exfalso; lra). }
  destruct (Z_lt_le_dec t 1000) as [T1|T1].
  - rewrite <- (fl_sqrt_square t) by lia. rewrite !sqrt_lt_iff by nia. rewrite !Z.ltb_lt. split; split; intros; nia.
  - assert (SB : fl (sqrt (IZR d)) < 442). { replace 442 with (fl (sqrt (IZR (442 * 442)))) by (apply fl_sqrt_square; lia). apply sqrt_order; lia. } apply IZR_le in T1 as T2. split; rewrite rlt_iff; split; intros; try lra; try nia; try (exfalso; lra).
Qed.

(** ** B-splines *)
(** the uniform cubic B-spline of four numbers *)
Definition spline (p0 p1 p2 p3 : Z) (u : R) : R :=
  ((1 - u) ^ 3 * IZR p0 + (3 * u ^ 3 - 6 * u ^ 2 + 4) * IZR p1 + (-3 * u ^ 3 + 3 * u ^ 2 + 3 * u + 1) * IZR p2 + u ^ 3 * IZR p3) / 6.
Definition spline_point (a b c d : Z * Z) (u : R) : R * R := (spline (fst a) (fst b) (fst c) (fst d) u, spline (snd a) (snd b) (snd c) (snd d) u).
(** *** the loops, for any numbers *)
Section Loop.
  Variables (T : Type) (rnd : T -> Z * Z) (V : nat -> nat -> T) (K : nat).
  Hypothesis KP : (1 <= K)%nat.
  Lemma gjoin (W : nat -> T) n : forall a w l,
    fold_left (fun (s : T * list (Z * Z)) k => (W k, snd s ++ iterline (rnd (W k)) (rnd (fst s)))) (seq a n) (w, l) =
    (match n with O => w | Datatypes.S m => W (a + m)%nat end,
     l ++ flat_map (fun k => iterline (rnd (W k)) (rnd (if (k =? a)%nat then w else W (k - 1)%nat))) (seq a n)).
  Proof.
    induction n as [|n IH]; intros a w l; [cbn; now rewrite app_nil_r|]. cbn [seq fold_left fst snd flat_map]. rewrite IH. rewrite Nat.eqb_refl. f_equal.
    - destruct n; [now rewrite Nat.add_0_r|]. f_equal. lia.
    - rewrite <- app_assoc. f_equal. f_equal. rewrite !flat_map_concat_map. f_equal. apply map_ext_in. intros k Hk. apply in_seq in Hk.
      destruct (Nat.eqb_spec k (Datatypes.S a)); destruct (Nat.eqb_spec k a); try lia; try reflexivity. subst. replace (Datatypes.S a - 1)%nat with a by lia. reflexivity.
  Qed.
  Lemma gskip (W : nat -> T) n : forall a (w : T) (l : list (Z * Z)),
    fold_left (fun (s : T * list (Z * Z)) k => (W k, snd s)) (seq a n) (w, l) = (match n with O => w | Datatypes.S m => W (a + m)%nat end, l).
  Proof.
    induction n as [|n IH]; intros a w l; [reflexivity|]. cbn [seq fold_left snd]. rewrite IH. f_equal. destruct n; [now rewrite Nat.add_0_r|]. f_equal. lia.
  Qed.
  Definition gknot (m : nat) : Z * Z := rnd (V (Nat.div m K) (Nat.modulo m K)).
  Lemma gknot_at i k : (k < K)%nat -> gknot (i * K + k) = rnd (V i k).
  Proof.
    intros H. unfold gknot. rewrite Nat.div_add_l, Nat.div_small, Nat.add_0_r by lia.
    rewrite (Nat.add_comm (i * K) k), Nat.mod_add, Nat.mod_small by lia. reflexivity.
  Qed.
  Definition gturn (s : T * list (Z * Z)) (i : nat) : T * list (Z * Z) :=
    fold_left (fun (s : T * list (Z * Z)) k => (V i k, if (1 <? i)%nat then snd s ++ iterline (rnd (V i k)) (rnd (fst s)) else snd s)) (seq 0 K) s.
  Lemma gturns n w : (2 <= n)%nat ->
    fold_left gturn (seq 0 n) (w, []) = (V (n - 1)%nat (K - 1)%nat, flat_map (fun m => iterline (gknot (Datatypes.S m)) (gknot m)) (seq (2 * K - 1) ((n - 2) * K))).
  Proof.
    intros H. induction H as [|n H IH].
    - cbn [seq fold_left]. unfold gturn. cbn [Nat.ltb Nat.leb]. rewrite (gskip (V 0%nat)), (gskip (V 1%nat)).
      replace (2 - 2)%nat with 0%nat by lia. cbn [Nat.mul seq flat_map]. destruct K as [|k]; [lia|]. replace (2 - 1)%nat with 1%nat by lia. do 2 f_equal; lia.
    - rewrite seq_S, fold_left_app, IH. cbn [fold_left]. rewrite Nat.add_0_l. unfold gturn. replace (1 <? n)%nat with true by (symmetry; apply Nat.ltb_lt; lia).
      rewrite (gjoin (V n)). f_equal.
      + destruct K as [|k]; [lia|]. rewrite Nat.add_0_l. f_equal; lia.
      + replace ((Datatypes.S n - 2) * K)%nat with ((n - 2) * K + K)%nat by (replace (Datatypes.S n - 2)%nat with (Datatypes.S (n - 2)) by lia; cbn [Nat.mul]; lia).
        rewrite seq_app, flat_map_app. f_equal. replace (2 * K - 1 + (n - 2) * K)%nat with (n * K - 1)%nat by nia.
        assert (G : forall q, (q <= K)%nat -> flat_map (fun k => iterline (rnd (V n k)) (rnd (if (k =? 0)%nat then V (n - 1)%nat (K - 1)%nat else V n (k - 1)%nat))) (seq 0 q) =
          flat_map (fun m => iterline (gknot (Datatypes.S m)) (gknot m)) (seq (n * K - 1) q)).
        { induction q as [|q IHq]; intros Hq; [reflexivity|]. rewrite !seq_S, !flat_map_app, IHq by lia. f_equal. cbn [flat_map]. rewrite !app_nil_r, Nat.add_0_l.
          replace (Datatypes.S (n * K - 1 + q))%nat with (n * K + q)%nat by nia. rewrite gknot_at by lia. f_equal.
          destruct q as [|q]; cbn [Nat.eqb].
          - replace (n * K - 1 + 0)%nat with ((n - 1) * K + (K - 1))%nat by nia. now rewrite gknot_at by lia.
          - replace (n * K - 1 + Datatypes.S q)%nat with (n * K + q)%nat by nia. rewrite gknot_at by lia. now replace (Datatypes.S q - 1)%nat with q by lia. }
        apply G. lia.
  Qed.
  Lemma gturns_snd n w : snd (fold_left gturn (seq 0 n) (w, [])) = flat_map (fun m => iterline (gknot (Datatypes.S m)) (gknot m)) (seq (2 * K - 1) ((n - 2) * K)).
  Proof.
    destruct (le_lt_dec 2 n) as [L|L]; [now rewrite gturns|]. replace (n - 2)%nat with 0%nat by lia. cbn [Nat.mul seq flat_map].
    assert (D : (n = 0 \/ n = 1)%nat) by lia. destruct D as [-> | ->]; [reflexivity|]. cbn [seq fold_left]. unfold gturn. cbn [Nat.ltb Nat.leb]. now rewrite (gskip (V 0%nat)).
  Qed.
End Loop.
(** *** the weights *)
Definition s15 : R := / 1000000000000000.
Lemma step4 x : Rabs x <= 4 -> Rabs (fl x - x) <= s15.
Proof. intros H. pose proof (fl_near x 4 H). pose proof u_pos. pose proof eta_pos. unfold s15. lra. Qed.
Tactic Notation "near4" constr(x) ident(H) := assert (H : Rabs (fl x - x) <= s15); [apply step4, Rabs_le; lra|apply Rabs_le_inv in H].
Lemma blend_err e : 0 <= e <= 1 -> let '(a, b, c, d) := fbsplineblend (fl e) in
  Rabs (a - (1 - e) ^ 3 / 6) <= 10 * s15 /\ Rabs (b - (3 * e ^ 3 - 6 * e ^ 2 + 4) / 6) <= 10 * s15 /\
  Rabs (c - (-3 * e ^ 3 + 3 * e ^ 2 + 3 * e + 1) / 6) <= 10 * s15 /\ Rabs (d - e ^ 3 / 6) <= 10 * s15.
Proof.
  intros E. unfold fbsplineblend. assert (S0 : 0 < s15 < / 100000) by (unfold s15; lra). near4 e He.
  assert (V0 : 0 <= fl e) by (apply fl_nonneg; lra). assert (V1 : fl e <= 1) by (rewrite <- fl_1; apply fl_le; lra). set (v := fl e) in *. clearbody v.
  assert (Q2 : - (2 * s15) <= v * v - e * e <= 2 * s15) by nra. assert (P2 : 0 <= v * v <= 1) by nra. near4 (v * v) H2.
  assert (U0 : 0 <= fl (v * v)) by (apply fl_nonneg; lra). assert (U1 : fl (v * v) <= 1) by (rewrite <- fl_1; apply fl_le; lra). set (u2 := fl (v * v)) in *. clearbody u2.
  assert (D2 : - (3 * s15) <= u2 - e * e <= 3 * s15) by lra. assert (E2 : 0 <= e * e <= 1) by nra.
  assert (Q3 : - (4 * s15) <= u2 * v - e * e * e <= 4 * s15). { replace (u2 * v - e * e * e) with ((u2 - e * e) * v + e * e * (v - e)) by ring. nra. }
  assert (P3 : 0 <= u2 * v <= 1) by nra. near4 (u2 * v) H3. set (u3 := fl (u2 * v)) in *. clearbody u3.
  assert (E3 : 0 <= e * e * e <= 1) by nra. assert (D3 : - (5 * s15) <= u3 - e * e * e <= 5 * s15) by lra.
  replace (e ^ 3) with (e * e * e) by ring. replace (e ^ 2) with (e * e) by ring. replace ((1 - e) ^ 3) with (1 - 3 * e + 3 * (e * e) - e * e * e) by ring.
  clear Q2 P2 H2 Q3 P3 H3. set (c3 := e * e * e) in *. set (c2 := e * e) in *. clearbody c3 c2.
  near4 (u3 / 6) A1. set (d := fl (u3 / 6)) in *. clearbody d. near4 (1 / 6) A2. set (f := fl (1 / 6)) in *. clearbody f. near4 (2 / 3) A3. set (g := fl (2 / 3)) in *. clearbody g.
  near4 (u2 / 2) B1. set (h := fl (u2 / 2)) in *. clearbody h. near4 (v / 2) B2. set (j := fl (v / 2)) in *. clearbody j.
  near4 (- d + h) B3. set (x1 := fl (- d + h)) in *. clearbody x1. near4 (x1 - j) B4. set (x2 := fl (x1 - j)) in *. clearbody x2. near4 (x2 + f) B5. set (x3 := fl (x2 + f)) in *. clearbody x3.
  near4 (u3 / 2) C1. set (y1 := fl (u3 / 2)) in *. clearbody y1. near4 (y1 - u2) C2. set (y2 := fl (y1 - u2)) in *. clearbody y2. near4 (y2 + g) C3. set (y3 := fl (y2 + g)) in *. clearbody y3.
  near4 (- u3 + u2) F1. set (z1 := fl (- u3 + u2)) in *. clearbody z1. near4 (z1 + v) F2. set (z2 := fl (z1 + v)) in *. clearbody z2. near4 (z2 / 2) F3. set (z3 := fl (z2 / 2)) in *. clearbody z3. near4 (z3 + f) F4. set (z4 := fl (z3 + f)) in *. clearbody z4.
  repeat split; apply Rabs_le; lra.
Qed.
Lemma weights e : 0 <= e <= 1 -> 0 <= (1 - e) ^ 3 / 6 <= 1 /\ 0 <= (3 * e ^ 3 - 6 * e ^ 2 + 4) / 6 <= 1 /\ 0 <= (-3 * e ^ 3 + 3 * e ^ 2 + 3 * e + 1) / 6 <= 1 /\ 0 <= e ^ 3 / 6 <= 1.
Proof.
  intros E. set (o := 1 - e). assert (O : 0 <= o <= 1) by (unfold o; lra). assert (N : forall x y z, 0 <= x -> 0 <= y -> 0 <= z -> 0 <= x * y * z) by (intros; repeat apply Rmult_le_pos; assumption).
  pose proof (N e e e) as N1. pose proof (N e e o) as N2. pose proof (N e o o) as N3. pose proof (N o o o) as N4.
  assert (A : 3 * e ^ 3 - 6 * e ^ 2 + 4 = e * e * e + 6 * (e * e * o) + 12 * (e * o * o) + 4 * (o * o * o)) by (unfold o; ring).
  assert (B : -3 * e ^ 3 + 3 * e ^ 2 + 3 * e + 1 = o * o * o + 6 * (e * o * o) + 12 * (e * e * o) + 4 * (e * e * e)) by (unfold o; ring).
  assert (T : e * e * e + 3 * (e * e * o) + 3 * (e * o * o) + o * o * o = 1) by (unfold o; ring).
  rewrite A, B. replace (e ^ 3) with (e * e * e) by ring. replace (o ^ 3) with (o * o * o) by ring. lra.
Qed.
Lemma spline_between p0 p1 p2 p3 e lo hi : 0 <= e <= 1 -> (lo <= p0 <= hi)%Z -> (lo <= p1 <= hi)%Z -> (lo <= p2 <= hi)%Z -> (lo <= p3 <= hi)%Z -> IZR lo <= spline p0 p1 p2 p3 e <= IZR hi.
Proof.
  intros E P0 P1 P2 P3. destruct (weights e E) as (A & B & C & D). unfold spline.
  assert (T : (1 - e) ^ 3 / 6 + (3 * e ^ 3 - 6 * e ^ 2 + 4) / 6 + (-3 * e ^ 3 + 3 * e ^ 2 + 3 * e + 1) / 6 + e ^ 3 / 6 = 1) by field.
  set (a := (1 - e) ^ 3 / 6) in *. set (b := (3 * e ^ 3 - 6 * e ^ 2 + 4) / 6) in *. set (c := (-3 * e ^ 3 + 3 * e ^ 2 + 3 * e + 1) / 6) in *. set (d := e ^ 3 / 6) in *.
  replace (((1 - e) ^ 3 * IZR p0 + (3 * e ^ 3 - 6 * e ^ 2 + 4) * IZR p1 + (-3 * e ^ 3 + 3 * e ^ 2 + 3 * e + 1) * IZR p2 + e ^ 3 * IZR p3) / 6) with (a * IZR p0 + b * IZR p1 + c * IZR p2 + d * IZR p3) by (unfold a, b, c, d; field).
  clearbody a b c d. assert (M : forall w p, 0 <= w -> (lo <= p <= hi)%Z -> w * IZR lo <= w * IZR p <= w * IZR hi) by (intros w p W [L H]; apply IZR_le in L, H; split; apply Rmult_le_compat_l; assumption).
  pose proof (M a p0 ltac:(lra) P0). pose proof (M b p1 ltac:(lra) P1). pose proof (M c p2 ltac:(lra) P2). pose proof (M d p3 ltac:(lra) P3).
  replace (IZR lo) with (a * IZR lo + b * IZR lo + c * IZR lo + d * IZR lo) by (rewrite <- !Rmult_plus_distr_r, T; ring). replace (IZR hi) with (a * IZR hi + b * IZR hi + c * IZR hi + d * IZR hi) by (rewrite <- !Rmult_plus_distr_r, T; ring). lra.
Qed.
(** *** a coordinate *)
Definition million (p : Z) : Prop := (Z.abs p <= 1000000)%Z.
Definition fsum (p0 p1 p2 p3 : Z) (a b c d : R) : R := fl (fl (fl (fl (0 + fl (IZR p0 * a)) + fl (IZR p1 * b)) + fl (IZR p2 * c)) + fl (IZR p3 * d)).
Lemma term_err p w w' : million p -> 0 <= w <= 1 -> Rabs (w' - w) <= 10 * s15 -> - / 50000000 <= fl (IZR p * w') - w * IZR p <= / 50000000 /\ -1000001 <= fl (IZR p * w') <= 1000001.
Proof.
  intros P W E. unfold million in P. assert (P1 : Rabs (IZR p) <= 1000000) by (rewrite <- abs_IZR; now apply IZR_le). rewrite (Rmult_comm (IZR p) w').
  pose proof (near_mul w w' (IZR p) (10 * s15) 1000000 1 E P1 ltac:(apply Rabs_le; lra)) as N. pose proof u_pos. pose proof eta_pos. assert (S0 : 0 < s15 <= / 1000000000000000) by (unfold s15; lra).
  assert (U2 : u * ((1 + 10 * s15) * 1000000) <= / 1000000000) by nra.
  assert (N' : Rabs (fl (w' * IZR p) - w * IZR p) <= / 50000000) by lra. apply Rabs_le_inv in N'. apply Rabs_le_inv in P1. split; [exact N'|]. assert (-1000000 <= w * IZR p <= 1000000) by nra. lra.
Qed.
Lemma coord_err p0 p1 p2 p3 e a b c d : 0 <= e <= 1 -> million p0 -> million p1 -> million p2 -> million p3 -> fbsplineblend (fl e) = (a, b, c, d) ->
  Rabs (fsum p0 p1 p2 p3 a b c d - spline p0 p1 p2 p3 e) <= / 1000000.
Proof.
  intros E P0 P1 P2 P3 F. pose proof (blend_err e E) as B. rewrite F in B. destruct B as (A1 & A2 & A3 & A4). destruct (weights e E) as (W1 & W2 & W3 & W4).
  destruct (term_err p0 _ _ P0 W1 A1) as (T1 & R1). destruct (term_err p1 _ _ P1 W2 A2) as (T2 & R2). destruct (term_err p2 _ _ P2 W3 A3) as (T3 & R3). destruct (term_err p3 _ _ P3 W4 A4) as (T4 & R4).
  unfold fsum, spline. set (t1 := fl (IZR p0 * a)) in *. set (t2 := fl (IZR p1 * b)) in *. set (t3 := fl (IZR p2 * c)) in *. set (t4 := fl (IZR p3 * d)) in *. clearbody t1 t2 t3 t4.
  pose proof u_pos. pose proof eta_pos.
  assert (ST : forall x, -5000000 <= x <= 5000000 -> - / 500000000 <= fl x - x <= / 500000000).
  { intros x X. apply Rabs_le_inv. eapply Rle_trans; [apply (fl_near x 5000000), Rabs_le; lra|]. lra. }
  pose proof (ST (0 + t1) ltac:(lra)) as S1. set (s1 := fl (0 + t1)) in *. clearbody s1. pose proof (ST (s1 + t2) ltac:(lra)) as S2. set (s2 := fl (s1 + t2)) in *. clearbody s2.
  pose proof (ST (s2 + t3) ltac:(lra)) as S3. set (s3 := fl (s2 + t3)) in *. clearbody s3. pose proof (ST (s3 + t4) ltac:(lra)) as S4. set (s4 := fl (s3 + t4)) in *. clearbody s4.
  apply Rabs_le. lra.
Qed.
(** The curve joins its points, 4 for each control point and piece, from the last point of the second piece on; each is
    the uniform cubic B-spline rounded to an integer, up to a millionth. *)
Theorem C141_bspline : forall pnts (closed back : bool), pnts <> [] -> (forall p, In p pnts -> million (fst p) /\ million (snd p)) ->
  let cnt := length pnts in
  let K := (4 * cnt)%nat in
  let ctrl k := nth (if back then Nat.modulo k cnt else Nat.min k (cnt - 1)) pnts (0, 0)%Z in
  exists P : nat -> Z * Z,
    fiterbspline pnts closed back = Ok (flat_map (fun m => iterline (P (Datatypes.S m)) (P m)) (seq (2 * K - 1) ((cnt + (if closed then 2 else 0) - 2) * K))) /\
    (forall i k, (k < K)%nat -> let '(x, y) := spline_point (ctrl i) (ctrl (i + 1)%nat) (ctrl (i + 2)%nat) (ctrl (i + 3)%nat) (IZR (Z.of_nat k) / IZR (Z.of_nat K)) in
       Rabs (IZR (fst (P (i * K + k)%nat)) - x) <= / 2 + / 1000000 /\ Rabs (IZR (snd (P (i * K + k)%nat)) - y) <= / 2 + / 1000000) /\
    (forall x0 y0 x1 y1 i k, (k < K)%nat -> (forall j, (j < 4)%nat -> x0 <= fst (ctrl (i + j)%nat) <= x1 /\ y0 <= snd (ctrl (i + j)%nat) <= y1)%Z ->
       (x0 <= fst (P (i * K + k)%nat) <= x1 /\ y0 <= snd (P (i * K + k)%nat) <= y1)%Z) /\
    (closed = true -> back = true -> P (2 * K - 1)%nat = P ((cnt + 2) * K - 1)%nat) /\
    (closed = false -> back = false -> (3 <= cnt)%nat -> P (cnt * K - 1)%nat = nth (cnt - 1) pnts (0, 0)%Z).
Proof.
  intros pnts closed back N MB cnt K ctrl. assert (CP : (1 <= cnt)%nat) by (unfold cnt; destruct pnts; [contradiction|cbn; lia]). assert (KP : (4 <= K)%nat) by (unfold K; lia).
  set (V := fun i k : nat => let '(a, b, c, d) := fbsplineblend (fl (IZR (Z.of_nat k) / IZR (Z.of_nat K))) in
    let at_ j := controlpoint pnts back (i + j) in
    fplus2 (fplus2 (fplus2 (fplus2 (0, 0) (fscale2 (at_ 0%nat) a)) (fscale2 (at_ 1%nat) b)) (fscale2 (at_ 2%nat) c)) (fscale2 (at_ 3%nat) d)).
  set (P := gknot (R * R) froundvect V K). exists P.
  assert (PA : forall i k, (k < K)%nat -> P (i * K + k)%nat = froundvect (V i k)) by (intros; apply gknot_at; lia).
  assert (MC : forall k, million (fst (ctrl k)) /\ million (snd (ctrl k))).
  { intros k. apply MB. unfold ctrl. apply nth_In. fold cnt. destruct back; [apply Nat.mod_upper_bound; lia|lia]. }
  assert (FR : forall k, (k < K)%nat -> 0 <= IZR (Z.of_nat k) / IZR (Z.of_nat K) <= 1).
  { intros k Hk. assert (K1 : 0 < IZR (Z.of_nat K)) by (apply IZR_lt; lia). assert (K2 : IZR (Z.of_nat k) <= IZR (Z.of_nat K)) by (apply IZR_le; lia). assert (K3 : 0 <= IZR (Z.of_nat k)) by (apply IZR_le; lia).
    split; [apply Rmult_le_pos; [exact K3|apply Rlt_le, Rinv_0_lt_compat, K1]|]. apply (Rmult_le_reg_r (IZR (Z.of_nat K))); [exact K1|]. unfold Rdiv. rewrite Rmult_assoc, Rinv_l by lra. lra. }
  assert (NR : forall i k, (k < K)%nat -> let e := IZR (Z.of_nat k) / IZR (Z.of_nat K) in
    Rabs (IZR (fst (P (i * K + k)%nat)) - spline (fst (ctrl i)) (fst (ctrl (i + 1)%nat)) (fst (ctrl (i + 2)%nat)) (fst (ctrl (i + 3)%nat)) e) <= / 2 + / 1000000 /\
    Rabs (IZR (snd (P (i * K + k)%nat)) - spline (snd (ctrl i)) (snd (ctrl (i + 1)%nat)) (snd (ctrl (i + 2)%nat)) (snd (ctrl (i + 3)%nat)) e) <= / 2 + / 1000000).
  { intros i k Hk e. rewrite PA by exact Hk. unfold V. fold e. destruct (fbsplineblend (fl e)) as [[[a b] c] d] eqn:FB. unfold froundvect, fplus2, fscale2. cbn [fst snd].
    change (controlpoint pnts back) with ctrl. rewrite Nat.add_0_r.
    destruct (MC i) as (M0 & M0'), (MC (i + 1)%nat) as (M1 & M1'), (MC (i + 2)%nat) as (M2 & M2'), (MC (i + 3)%nat) as (M3 & M3').
    pose proof (coord_err _ _ _ _ e a b c d (FR k Hk) M0 M1 M2 M3 FB) as X. pose proof (coord_err _ _ _ _ e a b c d (FR k Hk) M0' M1' M2' M3' FB) as Y. unfold fsum in X, Y.
    match type of X with Rabs (?x - _) <= _ => pose proof (rround_near x) as RX; set (fx := x) in * end. match type of Y with Rabs (?y - _) <= _ => pose proof (rround_near y) as RY; set (fy := y) in * end.
    apply Rabs_le_inv in X, Y, RX, RY. split; apply Rabs_le; lra. }
  assert (BX : forall x0 y0 x1 y1 i k, (k < K)%nat -> (forall j, (j < 4)%nat -> x0 <= fst (ctrl (i + j)%nat) <= x1 /\ y0 <= snd (ctrl (i + j)%nat) <= y1)%Z ->
       (x0 <= fst (P (i * K + k)%nat) <= x1 /\ y0 <= snd (P (i * K + k)%nat) <= y1)%Z).
  { intros x0 y0 x1 y1 i k Hk B. destruct (NR i k Hk) as (X & Y). pose proof (B 0%nat ltac:(lia)) as B0. rewrite Nat.add_0_r in B0. pose proof (B 1%nat ltac:(lia)) as B1. pose proof (B 2%nat ltac:(lia)) as B2. pose proof (B 3%nat ltac:(lia)) as B3.
    pose proof (spline_between _ _ _ _ _ x0 x1 (FR k Hk) (proj1 B0) (proj1 B1) (proj1 B2) (proj1 B3)) as SX. pose proof (spline_between _ _ _ _ _ y0 y1 (FR k Hk) (proj2 B0) (proj2 B1) (proj2 B2) (proj2 B3)) as SY.
    apply Rabs_le_inv in X, Y.
    assert (IN : forall a b : Z, IZR a < IZR b + 1 -> (a <= b)%Z) by (intros a b H; rewrite <- plus_IZR in H; apply lt_IZR in H; lia).
    repeat split; apply IN; lra. }
  split; [|split; [|split; [exact BX|split]]].
  - assert (HE : exists p t, pnts = p :: t) by (clear - N; destruct pnts; [contradiction|eauto]). destruct HE as (p & t & Ep).
    unfold fiterbspline. rewrite Ep at 1. f_equal. fold cnt K. etransitivity; [|apply (gturns_snd (R * R) froundvect V K ltac:(lia) _ (IZR (fst p), IZR (snd p)))]. f_equal.

  - intros i k Hk. exact (NR i k Hk).
  - intros -> ->. assert (A1 : ((cnt + 2) * K = (cnt + 1) * K + K)%nat) by (replace (cnt + 2)%nat with (Datatypes.S (cnt + 1)) by lia; apply Nat.add_comm).
    replace (2 * K - 1)%nat with (1 * K + (K - 1))%nat by lia. replace ((cnt + 2) * K - 1)%nat with ((cnt + 1) * K + (K - 1))%nat by (rewrite A1; clear - KP; clearbody K; generalize ((cnt + 1) * K)%nat; intros; lia).
    rewrite !PA by lia. f_equal. unfold V. destruct (fbsplineblend _) as [[[a b] c] d].
    assert (M : forall j, controlpoint pnts true (cnt + 1 + j) = controlpoint pnts true (1 + j)).
    { intros j. unfold controlpoint. fold cnt. replace (cnt + 1 + j)%nat with (1 + j + 1 * cnt)%nat by lia. rewrite Nat.mod_add by lia. reflexivity. }
    now rewrite !M.
  - intros -> -> H3. assert (A1 : (cnt * K = (cnt - 1) * K + K)%nat).
    { clear - H3. clearbody K cnt. destruct cnt as [|c]; [lia|]. replace (Datatypes.S c - 1)%nat with c by lia. apply Nat.add_comm. }
    replace (cnt * K - 1)%nat with ((cnt - 1) * K + (K - 1))%nat by (rewrite A1; clear - KP; clearbody K; generalize ((cnt - 1) * K)%nat; intros; lia).
    set (z := nth (cnt - 1) pnts (0, 0)%Z). assert (Q : forall j, (j < 4)%nat -> ctrl (cnt - 1 + j)%nat = z) by (intros j Hj; unfold ctrl, z; f_equal; lia).
    pose proof (BX (fst z) (snd z) (fst z) (snd z) (cnt - 1)%nat (K - 1)%nat ltac:(lia)) as G.
    assert (G' : (fst z <= fst (P ((cnt - 1) * K + (K - 1))%nat) <= fst z /\ snd z <= snd (P ((cnt - 1) * K + (K - 1))%nat) <= snd z)%Z).
    { apply G. intros j Hj. rewrite (Q j Hj). lia. }
    destruct (P ((cnt - 1) * K + (K - 1))%nat) as [x y], z as [zx zy]. cbn [fst snd] in G'. f_equal; lia.
Qed.
Theorem C141_bspline_box : forall pnts closed back l x0 y0 x1 y1, pnts <> [] -> (forall p, In p pnts -> million (fst p) /\ million (snd p)) ->
  fiterbspline pnts closed back = Ok l -> (forall p, In p pnts -> x0 <= fst p <= x1 /\ y0 <= snd p <= y1)%Z ->
  forall p, In p l -> (x0 <= fst p <= x1 /\ y0 - 1 <= snd p <= y1 + 1)%Z.
Proof.
  intros pnts closed back l x0 y0 x1 y1 N M E B p Hp. destruct (C141_bspline pnts closed back N M) as (P & Q & _ & G & _). rewrite E in Q. injection Q as Q. rewrite Q in Hp. clear Q.
  assert (LN : (length pnts <> 0)%nat) by (destruct pnts; [contradiction|cbn; lia]).
  assert (G' : forall m, (x0 <= fst (P m) <= x1 /\ y0 <= snd (P m) <= y1)%Z).
  { intros m. set (K := (4 * length pnts)%nat) in *. rewrite (Nat.div_mod m K) by lia. rewrite (Nat.mul_comm K). apply G; [apply Nat.mod_upper_bound; lia|].
    intros j Hj. apply B. apply nth_In. destruct back; [apply Nat.mod_upper_bound; lia|lia]. }
  apply in_flat_map in Hp. destruct Hp as (k & _ & Hin). pose proof (G' k) as G1. pose proof (G' (Datatypes.S k)) as G2.
  destruct (P (Datatypes.S k)) as [a b], (P k) as [c d], p as [x y]. apply iterline_near in Hin. cbn [fst snd] in *. lia.
Qed.
Theorem C141_bspline_empty : forall closed back, fiterbspline [] closed back = Err IndexError.
Proof. reflexivity. Qed.

Example C141_nearest_ex : fmatchRGBtopal false (250, 10, 10)%Z [(0, 0, 0); (0, 0, 255); (255, 0, 0); (255, 255, 255)]%Z = 2%Z.
Proof.
  rewrite (proj1 (C141_nearest false (250, 10, 10)%Z [(0, 0, 0); (0, 0, 255); (255, 0, 0); (255, 255, 255)]%Z ltac:(unfold bytes, byte; lia) ltac:(intros p [<-|[<-|[<-|[<-|[]]]]]; unfold bytes, byte; lia))). reflexivity.
Qed.
Example C141_threshold_ex : fnear 5 (dist2 (3, 4, 0) (0, 0, 0))%Z = false /\ ffar 5 (dist2 (3, 4, 0) (0, 0, 0))%Z = false /\ fnear 6 (dist2 (3, 4, 0) (0, 0, 0))%Z = true /\ ffar 4 (dist2 (3, 4, 0) (0, 0, 0))%Z = true.
Proof.
  assert (U : bytes (3, 4, 0)%Z) by (unfold bytes, byte; lia). assert (V : bytes (0, 0, 0)%Z) by (unfold bytes, byte; lia).
  pose proof (C141_threshold 5 _ _ U V) as [A B]. pose proof (C141_threshold 6 _ _ U V) as [C _]. pose proof (C141_threshold 4 _ _ U V) as [_ D]. change (dist2 (3, 4, 0) (0, 0, 0))%Z with 25%Z in *.
  split; [|split; [|split]].
  - destruct (fnear 5 25); [|reflexivity]. destruct A as [A _]. specialize (A eq_refl). lia.
  - destruct (ffar 5 25); [|reflexivity]. destruct B as [B _]. specialize (B eq_refl). lia.
  - apply C. lia.
  - apply D. lia.
Qed.
(** a curve within its square that comes back to where it began, and an open one that ends in its last point *)
Example C141_bspline_ex : (exists P l, fiterbspline [(0, 0); (6, 0); (6, 6); (0, 6)]%Z true true = Ok l /\ l = flat_map (fun m => iterline (P (Datatypes.S m)) (P m)) (seq 31 64) /\ P 31%nat = P 95%nat /\
    (forall p, In p l -> (0 <= fst p <= 6 /\ -1 <= snd p <= 7)%Z)) /\
  (exists P l, fiterbspline [(0, 0); (8, 0); (8, 8)]%Z false false = Ok l /\ l = flat_map (fun m => iterline (P (Datatypes.S m)) (P m)) (seq 23 12) /\ P 35%nat = (8, 8)%Z).
Proof.
  split.
  - assert (M : forall p, In p [(0, 0); (6, 0); (6, 6); (0, 6)]%Z -> million (fst p) /\ million (snd p)) by (intros p [<-|[<-|[<-|[<-|[]]]]]; split; unfold million; cbn; lia).
    destruct (C141_bspline [(0, 0); (6, 0); (6, 6); (0, 6)]%Z true true ltac:(discriminate) M) as (P & E & _ & _ & C & _). exists P. eexists. split; [exact E|]. split; [reflexivity|]. split; [exact (C eq_refl eq_refl)|].
    intros q. apply (C141_bspline_box [(0, 0); (6, 0); (6, 6); (0, 6)]%Z true true _ 0 0 6 6 ltac:(discriminate) M E). intros p [<-|[<-|[<-|[<-|[]]]]]; cbn; lia.
  - assert (M : forall p, In p [(0, 0); (8, 0); (8, 8)]%Z -> million (fst p) /\ million (snd p)) by (intros p [<-|[<-|[<-|[]]]]; split; unfold million; cbn; lia).
    destruct (C141_bspline [(0, 0); (8, 0); (8, 8)]%Z false false ltac:(discriminate) M) as (P & E & _ & _ & _ & C). exists P. eexists. split; [exact E|]. split; [reflexivity|]. apply C; cbn; lia || reflexivity.
Qed.

Print Assumptions C141_nearest.
Print Assumptions C141_threshold.
Print Assumptions C141_bspline.
Print Assumptions C141_bspline_box.
Print Assumptions C141_bspline_empty.
