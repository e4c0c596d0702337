(** Property C143: means, slopes and correlations with the rounding of floats. *)
From Coq Require Import ZArith QArith Qreals Reals List Lia Lra Bool.
From Flocq Require Import Core Relative Plus_error.
From Verif Require Import PyBase PyFacts Bmp BmpFacts Buffers MathLib Spec SpecImage PixelProofs Exact ExactProofs SpecExact PropExact Coords RealProofs Floats FloatProofs PropFloats Floats3 Shrink ShrinkProofs PropShrink.
Import ListNotations.
Open Scope R_scope.

(** ** Errors *)
Lemma fl_rel x : / IZR (2 ^ 1000) <= Rabs x -> Rabs (fl x - x) <= u * Rabs x.
Proof.
  intros H. pose proof (relative_error_N_FLT radix2 (-1074) 53 eq_refl (fun t => negb (Z.even t)) x) as E.
  replace (/ 2 * bpow radix2 (- (53) + 1)) with u in E. 2:{ unfold u. change (bpow radix2 (- (53) + 1)) with (/ IZR (2 ^ 52)). change (2 ^ 53)%Z with (2 * 2 ^ 52)%Z. rewrite mult_IZR. field. apply not_0_IZR. lia. }
  apply E. eapply Rle_trans; [|exact H]. change (/ IZR (2 ^ 1000)) with (bpow radix2 (-1000)). apply bpow_le. lia.
Qed.
Lemma ge1 x : 1 <= Rabs x -> / IZR (2 ^ 1000) <= Rabs x.
Proof. intros H. eapply Rle_trans; [|exact H]. rewrite <- Rinv_1. apply Rinv_le; [lra|]. apply IZR_le. lia. Qed.
(** ** Squares and roots *)
Lemma power_or a : (0 < a <= 2 ^ 53)%Z -> (exists k, (0 <= k <= 53)%Z /\ a = (2 ^ k)%Z) \/ exists k M, (0 < k <= 53)%Z /\ mag radix2 (IZR a) = k :> Z /\ IZR a <> bpow radix2 (k - 1) /\ IZR a = IZR M * bpow radix2 (k - 53) /\ (0 < M <= 2 ^ 53 - 1)%Z.
Proof.
  intros A. set (k := (Z.log2 a + 1)%Z). pose proof (Z.log2_spec a ltac:(lia)) as L. pose proof (Z.log2_nonneg a) as L0.
  destruct (Z.eq_dec a (2 ^ Z.log2 a)) as [E|E].
  - left. exists (Z.log2 a). split; [|exact E]. split; [exact L0|]. apply (Z.log2_le_mono a (2 ^ 53)) in A as A2 || idtac. destruct (Z.le_gt_cases (Z.log2 a) 53) as [H|H]; [exact H|]. pose proof (Z.pow_lt_mono_r 2 53 (Z.log2 a) ltac:(lia) L0 H). lia.
  - right. assert (K : (k <= 53)%Z). { unfold k. destruct (Z.le_gt_cases (Z.log2 a + 1) 53) as [H|H]; [exact H|]. assert (2 ^ 53 <= 2 ^ Z.log2 a)%Z by (apply Z.pow_le_mono_r; lia). lia. }
    exists k, (a * 2 ^ (53 - k))%Z. split; [lia|]. unfold Z.succ in L. fold k in L. split.
    + apply mag_unique_pos. unfold k at 1. rewrite Z.add_simpl_r. rewrite <- !IZR_Zpower by lia. change (radix_val radix2) with 2%Z. split; [apply IZR_le|apply IZR_lt]; lia.
    + split.
      * unfold k. rewrite Z.add_simpl_r. rewrite <- IZR_Zpower by lia. change (radix_val radix2) with 2%Z. intros F. apply eq_IZR in F. contradiction.
      * split.
        { rewrite mult_IZR, Rmult_assoc. replace (k - 53)%Z with (- (53 - k))%Z by lia. change 2%Z with (radix_val radix2). rewrite IZR_Zpower by lia. rewrite <- bpow_plus. replace (53 - k + - (53 - k))%Z with 0%Z by lia. cbn [bpow]. ring. }
        { assert (P : (0 < 2 ^ (53 - k))%Z) by (apply Z.pow_pos_nonneg; lia). assert (Q : (2 ^ k * 2 ^ (53 - k) = 2 ^ 53)%Z) by (rewrite <- Z.pow_add_r by lia; f_equal; lia). nia. }
Qed.
Lemma root_square a : (Z.abs a <= 2 ^ 53)%Z -> fl (sqrt (fl (IZR (a * a)))) = IZR (Z.abs a).
Proof.
  intros A. rewrite <- Z.abs_square. set (n := Z.abs a) in *. assert (N0 : (0 <= n)%Z) by (unfold n; lia). clearbody n. clear a.
  destruct (Z.eq_dec n 0) as [-> |NZ]; [change (0 * 0)%Z with 0%Z; rewrite fl_0, sqrt_0; apply fl_0|].
  destruct (power_or n ltac:(lia)) as [(k & K & ->)|(k & M & K & MG & NP & E & MB)].
  - rewrite <- Z.pow_add_r by lia. assert (F : fl (IZR (2 ^ (k + k))) = IZR (2 ^ (k + k))). { change 2%Z with (radix_val radix2) at 1 2. rewrite IZR_Zpower by lia. rewrite <- (Rmult_1_l (bpow radix2 (k + k))). apply (fl_exact 1); lia. }
    rewrite F, Z.pow_add_r, mult_IZR by lia. rewrite sqrt_square by (apply IZR_le; lia). apply fl_Z. rewrite Z.abs_eq; lia.
  - set (x := IZR n) in *. assert (X1 : 1 <= x) by (apply IZR_le; lia). rewrite mult_IZR. fold x.
    assert (G : generic_format radix2 fexp x). { rewrite E. apply generic_format_FLT. exists (Float radix2 M (k - 53)); cbn [Fnum Fexp]; [reflexivity|change (radix_val radix2 ^ 53)%Z with (2 ^ 53)%Z; lia|lia]. }
    assert (U : ulp radix2 fexp x = bpow radix2 (k - 53)). { rewrite ulp_neq_0 by lra. f_equal. unfold cexp. rewrite MG. unfold FLT_exp. lia. }
    set (up := bpow radix2 (k - 53)) in *. assert (UP : 0 < up) by apply bpow_gt_0. pose proof u_pos as UB.
    assert (MU : IZR M <= / u - 1). { unfold u. rewrite Rinv_inv. rewrite <- minus_IZR. apply IZR_le. lia. }
    assert (XU : x * u <= up * (1 - u)). { rewrite E. apply Rle_trans with ((/ u - 1) * up * u); [apply Rmult_le_compat_r; [lra|]; apply Rmult_le_compat_r; lra|]. apply Req_le. field. lra. }
    pose proof (fl_rel (x * x)) as FE. rewrite (Rabs_pos_eq (x * x)) in FE by nra. specialize (FE ltac:(rewrite <- (Rabs_pos_eq (x * x)) by nra; apply ge1; rewrite Rabs_pos_eq; nra)). apply Rabs_le_inv in FE.
    set (y := sqrt (fl (x * x))). assert (Y0 : 0 <= y) by apply sqrt_pos. assert (F0 : 0 <= fl (x * x)) by (apply fl_nonneg; nra). assert (YY : y * y = fl (x * x)) by (apply sqrt_sqrt, F0).
    assert (HI : y <= x * (1 + u / 2)). { apply Rnot_lt_le. intros C. assert (x * (1 + u / 2) * (x * (1 + u / 2)) < y * y) by (apply Rmult_le_0_lt_compat; nra). nra. }
    assert (LO : x * (1 - u / 2 - u * u / 2) <= y). { apply Rnot_lt_le. intros C. assert (y * y < x * (1 - u / 2 - u * u / 2) * (x * (1 - u / 2 - u * u / 2))) by (apply Rmult_le_0_lt_compat; lra).
      assert (Q : (1 - u / 2 - u * u / 2) * (1 - u / 2 - u * u / 2) <= 1 - u). { assert (0 <= u * u) by nra. assert (u * u * u <= u * u * / 1000) by (apply Rmult_le_compat_l; lra). assert (u * u * u * u <= u * u * / 1000). { rewrite Rmult_assoc. apply Rmult_le_compat_l; [lra|]. assert (u * u <= u * 1) by (apply Rmult_le_compat_l; lra). lra. } lra. }
      assert (x * x * ((1 - u / 2 - u * u / 2) * (1 - u / 2 - u * u / 2)) <= x * x * (1 - u)) by (apply Rmult_le_compat_l; nra). lra. }
    apply Rle_antisym.
    + apply round_N_le_midp; [typeclasses eauto|exact G|]. rewrite succ_eq_pos, U by lra. assert (x * u < up) by nra. lra.
    + apply round_N_ge_midp; [typeclasses eauto|exact G|]. rewrite pred_eq_pos by lra. unfold pred_pos. rewrite MG. rewrite Req_bool_false by exact NP. rewrite U.
      assert (x * u * (1 + u) < up). { apply Rle_lt_trans with (up * (1 - u) * (1 + u)); [apply Rmult_le_compat_r; lra|]. assert (0 < up * (u * u)) by (apply Rmult_lt_0_compat; nra). lra. }
      lra.
Qed.

(** ** Means of squares *)
Lemma fshrink_near n s : (0 < n <= 2 ^ 20)%Z -> (0 <= s <= 255 * (n * n))%Z -> (2 * Z.abs (s - n * n * fshrink n s) <= n * n)%Z.
Proof.
  intros N S. unfold fshrink. rewrite Z.pow_2_r. assert (Q0 : (0 < n * n <= 2 ^ 40)%Z) by (change (2 ^ 40)%Z with (2 ^ 20 * 2 ^ 20)%Z; nia). set (q := (n * n)%Z) in *. clearbody q. clear n N.
  assert (B0 : 0 < IZR q) by (apply IZR_lt; lia). assert (BQ : IZR q <= 1099511627776) by (apply IZR_le; lia). assert (S0 : 0 <= IZR s) by (apply IZR_le; lia). assert (S1 : IZR s <= 255 * IZR q) by (rewrite <- mult_IZR; apply IZR_le; lia).
  pose proof u_pos as UB. set (f := fl (1 / IZR q)). set (y := fl (IZR s * f)). set (v := rround y).
  assert (F : Rabs (f - 1 / IZR q) <= u * (1 / IZR q)).
  { assert (P : 0 < 1 / IZR q) by (apply Rdiv_lt_0_compat; lra). pose proof (fl_rel (1 / IZR q)) as E. rewrite (Rabs_pos_eq (1 / IZR q)) in E by lra. apply E. unfold Rdiv. rewrite Rmult_1_l. apply Rinv_le; [lra|]. apply Rle_trans with (IZR (2 ^ 40)); apply IZR_le; lia. }
  assert (F1 : Rabs (IZR s * f - IZR s / IZR q) <= 255 * u).
  { replace (IZR s * f - IZR s / IZR q) with (IZR s * (f - 1 / IZR q)) by (field; lra). rewrite Rabs_mult, (Rabs_pos_eq (IZR s)) by lra. apply Rle_trans with (IZR s * (u * (1 / IZR q))); [apply Rmult_le_compat_l; lra|].
    replace (IZR s * (u * (1 / IZR q))) with (u * (IZR s / IZR q)) by (field; lra). assert (IZR s / IZR q <= 255) by (apply (Rmult_le_reg_r (IZR q)); [lra|]; unfold Rdiv; rewrite Rmult_assoc, Rinv_l; lra). nra. }
  assert (X : 0 <= IZR s / IZR q <= 255). { split; [apply Rmult_le_pos; [lra|apply Rlt_le, Rinv_0_lt_compat; lra]|]. apply (Rmult_le_reg_r (IZR q)); [lra|]; unfold Rdiv; rewrite Rmult_assoc, Rinv_l; lra. }
  assert (Y : Rabs (y - IZR s / IZR q) <= / 10000000000000).
  { apply Rabs_le_inv in F1. assert (A : Rabs (IZR s * f) <= 256) by (apply Rabs_le; lra). pose proof (fl_near _ _ A) as G. fold y in G. apply Rabs_le_inv in G. pose proof eta_pos. apply Rabs_le. lra. }
  pose proof (rround_near y) as R. fold v in R. apply Rabs_le_inv in Y. assert (R' : -1 / 2 <= y - IZR v <= 1 / 2) by (apply Rabs_le_inv in R; lra).
  assert (D : -1 / 2 - / 10000000000000 <= IZR s / IZR q - IZR v <= 1 / 2 + / 10000000000000) by lra.
  assert (E : IZR (s - q * v) = (IZR s / IZR q - IZR v) * IZR q) by (rewrite minus_IZR, mult_IZR; field; lra).
  assert (E1 : 2 * IZR (s - q * v) < IZR q + 1) by (rewrite E; nra). assert (E2 : - IZR q - 1 < 2 * IZR (s - q * v)) by (rewrite E; nra).
  rewrite <- mult_IZR, <- plus_IZR in E1. apply lt_IZR in E1. rewrite <- opp_IZR, <- minus_IZR, <- mult_IZR in E2. apply lt_IZR in E2. lia.
Qed.
Lemma fshrink_range n s : (0 < n <= 2 ^ 20)%Z -> (0 <= s <= 255 * (n * n))%Z -> (0 <= fshrink n s < 256)%Z.
Proof. intros N S. pose proof (fshrink_near n s N S). nia. Qed.
Lemma fshrink_between n s lo hi : (0 < n <= 2 ^ 20)%Z -> (0 <= s <= 255 * (n * n))%Z -> (lo * (n * n) <= s <= hi * (n * n))%Z -> (lo <= fshrink n s <= hi)%Z.
Proof. intros N S B. pose proof (fshrink_near n s N S). nia. Qed.
Open Scope Z_scope.
Ltac Zify.zify_post_hook ::= Z.to_euclidean_division_equations.
Definition chan (k c : Z) : Z := c / 256 ^ k mod 256.
Lemma chan_rgb r g b : 0 <= r < 256 -> 0 <= g < 256 -> 0 <= b < 256 -> chan 0 (rgb24 (r, g, b)) = b /\ chan 1 (rgb24 (r, g, b)) = g /\ chan 2 (rgb24 (r, g, b)) = r.
Proof. intros. unfold chan, rgb24. change (256 ^ 0) with 1. change (256 ^ 1) with 256. change (256 ^ 2) with 65536. lia. Qed.
Lemma chan_ext c d : 0 <= c < 2 ^ 24 -> 0 <= d < 2 ^ 24 -> (forall k, 0 <= k <= 2 -> chan k c = chan k d) -> c = d.
Proof. intros C D H. pose proof (H 0 ltac:(lia)) as A. pose proof (H 1 ltac:(lia)) as B. pose proof (H 2 ltac:(lia)) as E. unfold chan in *. change (256 ^ 0) with 1 in *. change (256 ^ 1) with 256 in *. change (256 ^ 2) with 65536 in *. change (2 ^ 24) with 16777216 in *. lia. Qed.
Lemma total_between {A} (f : A -> Z) lo hi l : (forall a, In a l -> lo <= f a <= hi) -> lo * zlen l <= total (map f l) <= hi * zlen l.
Proof.
  induction l as [|x l IH]; intros H; cbn [map]; rewrite ?total_cons, ?zlen_cons; [change (total []) with 0; change (zlen (@nil A)) with 0; lia|].
  assert (lo * zlen l <= total (map f l) <= hi * zlen l) by (apply IH; intros; apply H; now right). specialize (H x (or_introl eq_refl)). lia.
Qed.
Lemma square_between f n x y lo hi : 0 <= n -> (forall i j, 0 <= i < n -> 0 <= j < n -> lo <= f (x + i) (y + j) <= hi) -> lo * (n * n) <= square_sum f n x y <= hi * (n * n).
Proof.
  intros N H. unfold square_sum. assert (L : zlen (range 0 n) = n) by (rewrite zlen_range; lia).
  assert (B : lo * n * zlen (range 0 n) <= total (map (fun i => total (map (fun j => f (x + i) (y + j)) (range 0 n))) (range 0 n)) <= hi * n * zlen (range 0 n)).
  { apply total_between. intros i I. apply in_range in I. pose proof (total_between (fun j => f (x + i) (y + j)) lo hi (range 0 n)) as T. rewrite L in T. apply T. intros j J. apply in_range in J. now apply H. }
  rewrite L in B. lia.
Qed.
Lemma chan_byte k c : 0 <= chan k c <= 255.
Proof. unfold chan. pose proof (Z.mod_pos_bound (c / 256 ^ k) 256). lia. Qed.
Lemma sum_bytes b w h n x y k : 0 <= n -> 0 <= square_sum (fun u v => chan k (pixel b w h 24 u v)) n x y <= 255 * (n * n).
Proof. intros N. pose proof (square_between (fun u v => chan k (pixel b w h 24 u v)) n x y 0 255 N) as S. cbv beta in S. specialize (S ltac:(intros; apply chan_byte)). lia. Qed.
Lemma mean_chan b w h n x y k : 0 < n <= 2 ^ 20 -> 0 <= k <= 2 -> chan k (square_mean (fshrink n) b w h n x y) = fshrink n (square_sum (fun u v => chan k (pixel b w h 24 u v)) n x y).
Proof.
  intros N K. unfold square_mean. change (fun u v => pixel b w h 24 u v / 256 ^ 2 mod 256) with (fun u v => chan 2 (pixel b w h 24 u v)). change (fun u v => pixel b w h 24 u v / 256 ^ 1 mod 256) with (fun u v => chan 1 (pixel b w h 24 u v)). change (fun u v => pixel b w h 24 u v / 256 ^ 0 mod 256) with (fun u v => chan 0 (pixel b w h 24 u v)).
  assert (R : forall j, 0 <= fshrink n (square_sum (fun u v => chan j (pixel b w h 24 u v)) n x y) < 256) by (intros j; apply fshrink_range; [exact N|apply sum_bytes; lia]).
  destruct (chan_rgb _ _ _ (R 2) (R 1) (R 0)) as (A & B & C). assert (E : k = 0 \/ k = 1 \/ k = 2) by lia. destruct E as [-> | [-> | ->]]; assumption.
Qed.
(** what the mean of a square is: each channel is an integer nearest to the mean of the channel, not below the least nor above the
    greatest value of it in the square *)
Definition averaged (b : list Z) (w h n x y c : Z) : Prop :=
  forall k, 0 <= k <= 2 ->
    2 * Z.abs (square_sum (fun u v => chan k (pixel b w h 24 u v)) n x y - n * n * chan k c) <= n * n /\
    forall lo hi, (forall i j, 0 <= i < n -> 0 <= j < n -> lo <= chan k (pixel b w h 24 (x + i) (y + j)) <= hi) -> lo <= chan k c <= hi.
Lemma mean_averaged b w h n x y : 0 < n <= 2 ^ 20 -> averaged b w h n x y (square_mean (fshrink n) b w h n x y).
Proof.
  intros N k K. rewrite mean_chan by assumption. assert (S : 0 <= square_sum (fun u v => chan k (pixel b w h 24 u v)) n x y <= 255 * (n * n)) by (apply sum_bytes; lia).
  split; [now apply fshrink_near|]. intros lo hi H. apply fshrink_between; [exact N|exact S|]. apply square_between; [lia|exact H].
Qed.
Lemma mean_uniform b w h n x y c : wf b w h 24 -> 0 < n <= 2 ^ 20 -> (forall i j, 0 <= i < n -> 0 <= j < n -> pixel b w h 24 (x + i) (y + j) = c) -> square_mean (fshrink n) b w h n x y = c.
Proof.
  intros W N H. assert (C : 0 <= c < 2 ^ 24) by (rewrite <- (H 0 0) by lia; apply pixel_range; exact W).
  assert (R : forall j, 0 <= fshrink n (square_sum (fun u v => chan j (pixel b w h 24 u v)) n x y) < 256) by (intros j; apply fshrink_range; [exact N|apply sum_bytes; lia]).
  apply chan_ext; [|exact C|].
  - unfold square_mean, rgb24. pose proof (R 0) as R0. pose proof (R 1) as R1. pose proof (R 2) as R2. unfold chan in R0, R1, R2. lia.
  - intros k K. destruct (mean_averaged b w h n x y N k K) as (_ & B). specialize (B (chan k c) (chan k c)). enough (chan k c <= chan k (square_mean (fshrink n) b w h n x y) <= chan k c) by lia. apply B. intros i j I J. rewrite H by assumption. lia.
Qed.

(** The reduced image with floats: all pixels are means in this sense; the columns that need the last column of an image of odd width
    are black (C80). *)
Theorem C143_shrink : forall b w h n o, wf b w h 24 -> 0 < n <= 2 ^ 20 -> 0 < w -> 0 < h ->
  exists nb, resizeNtimessmaller fshrink n (mkst b o) = (Ok (Some nb), mkst b o) /\ wf nb (w / n) (h / n) 24 /\
    forall x y, inside (w / n) (h / n) x y -> (w mod 2 = 1 -> x * n + n <> w) ->
      averaged b w h n (x * n) (h mod n + y * n) (pixel nb (w / n) (h / n) 24 x y) /\
      forall c, (forall i j, 0 <= i < n -> 0 <= j < n -> pixel b w h 24 (x * n + i) (h mod n + y * n + j) = c) -> pixel nb (w / n) (h / n) 24 x y = c.
Proof.
  intros b w h n o W N W0 H0. destruct (C80_shrink fshrink b w h n o W ltac:(lia) W0 H0 (fun s => fshrink_range n s N)) as (nb & E & Wn & P).
  exists nb. split; [exact E|]. split; [exact Wn|]. intros x y I C. rewrite P by exact I. assert (B : (w mod 2 =? 1) && (x * n + n =? w) = false) by (apply andb_false_iff; rewrite !Z.eqb_neq; destruct (Z.eq_dec (w mod 2) 1); [right; auto|now left]).
  rewrite B. split; [now apply mean_averaged|]. intros c U. now apply mean_uniform.
Qed.
(** A pixelated image: squares of means; to pixelate it again changes nothing. *)
Theorem C143_pixelate : forall b w h n o, wf b w h 24 -> 0 < n <= 2 ^ 20 -> n <= w -> n <= h -> (w / n) mod 2 = 0 ->
  exists nb, pixelizenxn fshrink n (mkst b o) = (Ok nb, mkst b o) /\ wf nb (w / n * n) (h / n * n) 24 /\
    (forall x y, inside (w / n * n) (h / n * n) x y -> averaged b w h n (x / n * n) (h mod n + y / n * n) (pixel nb (w / n * n) (h / n * n) 24 x y)) /\
    forall o', exists nb', pixelizenxn fshrink n (mkst nb o') = (Ok nb', mkst nb o') /\ wf nb' (w / n * n) (h / n * n) 24 /\
      forall x y, inside (w / n * n) (h / n * n) x y -> pixel nb' (w / n * n) (h / n * n) 24 x y = pixel nb (w / n * n) (h / n * n) 24 x y.
Proof.
  intros b w h n o W N Nw Nh Ev. destruct (C81_pixelate fshrink b w h n o W ltac:(lia) Nw Nh Ev (fun s => fshrink_range n s N)) as (nb & E & Wn & P).
  exists nb. split; [exact E|]. split; [exact Wn|]. split; [intros x y I; rewrite P by exact I; now apply mean_averaged|]. intros o'.
  assert (D : forall a, a / n * n / n = a / n) by (intros a; apply Z.div_mul; lia). assert (Q : forall a, n <= a -> n <= a / n * n) by (intros a A; assert (1 <= a / n) by (apply Z.div_le_lower_bound; lia); nia).
  destruct (C81_pixelate fshrink nb (w / n * n) (h / n * n) n o' Wn ltac:(lia) (Q w Nw) (Q h Nh) ltac:(rewrite D; exact Ev) (fun s => fshrink_range n s N)) as (nb' & E' & Wn' & P').
  rewrite !D in Wn', P'. exists nb'. split; [exact E'|]. split; [exact Wn'|]. intros x y I. rewrite P' by exact I. rewrite (Z.mod_mul (h / n) n), Z.add_0_l by lia.
  apply mean_uniform; [exact Wn|exact N|]. intros i j Hi Hj. destruct I as [Ix Iy]. assert (Dx : x / n < w / n) by (apply Z.div_lt_upper_bound; lia). assert (Dy : y / n < h / n) by (apply Z.div_lt_upper_bound; lia). assert (0 <= x / n /\ 0 <= y / n) by (split; apply Z.div_pos; lia).
  assert (G : forall X A i, 0 <= X < A -> 0 <= i < n -> 0 <= X * n + i < A * n) by (clear; intros; nia). rewrite !P by (split; apply G || assumption; lia). rewrite !Z.div_add_l by lia. rewrite !(Z.div_small i), !(Z.div_small j), !Z.add_0_r by lia. reflexivity.
Qed.
(** halves are not always rounded to the even number: the mean of 98 ones and 98 twos gives 1 *)
Theorem C143_half_refuted : fshrink 14 294 = 1 /\ 2 * 294 = 3 * (14 * 14).
Proof.
  split; [|reflexivity]. unfold fshrink. change (14 ^ 2) with 196. rewrite (ddiv_ok 1 196) by (vm_compute; reflexivity). rewrite Rmult_comm. rewrite dmul_ok by (vm_compute; reflexivity).
  change (dmul (flfind 1 196) 294) with (6755399441055743, 52). unfold dval. cbn [fst snd]. change (2 ^ 52) with 4503599627370496. apply rround_unique. apply Rabs_def1; lra.
Qed.
Open Scope R_scope.
(** ** Statistics *)
Lemma fquot_ok a b : b <> 0%Z -> fquot a b = Ok (fl (IZR a / IZR b)).
Proof. intros B. unfold fquot. now rewrite (proj2 (Z.eqb_neq b 0) B). Qed.
Lemma py_sum_between v lo hi : (forall x, In x v -> lo <= x <= hi)%Z -> (lo * zlen v <= py_sum v <= hi * zlen v)%Z.
Proof.
  intros H. unfold py_sum. rewrite py_sum_from, Z.add_0_l. pose proof (total_between (fun x => x) lo hi v H) as T. rewrite map_id in T. exact T.
Qed.
(** The mean of integers is the float next to it; it is not below the least nor above the greatest. *)
Theorem C143_mean : forall v, v <> [] -> exists m, fmean v = Ok m /\ m = fl (IZR (py_sum v) / IZR (zlen v)) /\
  (forall lo hi, (Z.abs lo <= 2 ^ 53)%Z -> (Z.abs hi <= 2 ^ 53)%Z -> (forall x, In x v -> (lo <= x <= hi)%Z) -> IZR lo <= m <= IZR hi).
Proof.
  intros v N. assert (L : (0 < zlen v)%Z) by (destruct v; [contradiction|unfold zlen; cbn [length]; lia]). eexists. split; [apply fquot_ok; lia|]. split; [reflexivity|].
  intros lo hi Lo Hi H. pose proof (py_sum_between v lo hi H) as (A & B). apply IZR_le in A, B. rewrite mult_IZR in A, B. apply IZR_lt in L.
  rewrite <- (fl_Z lo), <- (fl_Z hi) by assumption. split; apply fl_le; apply (Rmult_le_reg_r (IZR (zlen v))); try exact L; unfold Rdiv; rewrite Rmult_assoc, Rinv_l; lra.
Qed.
Theorem C143_mean_empty : fmean [] = Err ZeroDivisionError /\ fvariance [] = Err ZeroDivisionError.
Proof. split; reflexivity. Qed.
(** the deviations: zero for equal numbers, and each has the sign of the difference from the mean *)
Theorem C143_deviations : forall v, v <> [] -> (forall x, In x v -> (Z.abs x <= 2 ^ 53)%Z) -> exists m d, fmean v = Ok m /\ fvariance v = Ok d /\ length d = length v /\
  ((forall x y, In x v -> In y v -> x = y) -> forall e, In e d -> e = 0) /\
  forall i x e, nth_error v i = Some x -> nth_error d i = Some e -> (0 < e <-> m < IZR x) /\ (e < 0 <-> IZR x < m).
Proof.
  intros v N B. destruct (C143_mean v N) as (m & E & F & G). exists m, (map (fun n => fl (fl (IZR n) - m)) v). split; [exact E|]. split; [unfold fvariance; now rewrite E|]. split; [apply map_length|].
  split.
  - intros S e He. apply in_map_iff in He. destruct He as (x & <- & Hx). specialize (B x Hx). assert (M : m = IZR x). { destruct (G x x B B); [intros y Hy; rewrite (S y x Hy Hx); lia|lra]. } rewrite M, fl_Z by exact B. replace (IZR x - IZR x) with 0 by ring. apply fl_0.
  - intros i x e Hx He. rewrite nth_error_map, Hx in He. injection He as <-. assert (Bx := B x (nth_error_In _ _ Hx)). rewrite fl_Z by exact Bx.
    assert (FM : generic_format radix2 fexp m) by (rewrite F; apply generic_format_round; typeclasses eauto). assert (FX : generic_format radix2 fexp (IZR x)) by (rewrite <- (fl_Z x Bx); apply generic_format_round; typeclasses eauto).
    assert (Z0 : forall y z, generic_format radix2 fexp y -> generic_format radix2 fexp z -> y < z -> 0 < fl (z - y)).
    { intros y z Fy Fz L. destruct (Rle_lt_or_eq_dec 0 (fl (z - y))) as [P|P]; [apply fl_nonneg; lra|exact P|]. exfalso. apply (round_plus_neq_0 radix2 fexp ZnearestE z (- y) Fz (generic_format_opp _ _ _ Fy)); [lra|]. symmetry. exact P. }
    split; split; intros H.
    + apply Rnot_le_lt. intros C. assert (fl (IZR x - m) <= fl 0) by (apply fl_le; lra). rewrite fl_0 in *. lra.
    + now apply Z0.
    + apply Rnot_le_lt. intros C. assert (0 <= fl (IZR x - m)) by (apply fl_nonneg; lra). lra.
    + replace (IZR x - m) with (- (m - IZR x)) by ring. rewrite fl_opp. specialize (Z0 (IZR x) m FX FM H). lra.
Qed.
(** The slope of the line of least squares is the float next to the exact one (C114), so exact for lines with an integer slope. *)
Theorem C143_slope : forall pts rows, pts <> [] -> table_of pts rows ->
  (forall q, LSMslope rows = Ok q -> fLSMslope rows = Ok (fl (Q2R q))) /\
  ((forall p q, In p pts -> In q pts -> fst p = fst q) -> fLSMslope rows = Err ZeroDivisionError) /\
  ((exists p q, In p pts /\ In q pts /\ fst p <> fst q) -> forall m b, (Z.abs m <= 2 ^ 53)%Z -> (forall p, In p pts -> snd p = (m * fst p + b)%Z) -> fLSMslope rows = Ok (IZR m)).
Proof.
  intros pts rows N T. pose proof (slope_run pts N rows T) as SR.
  assert (FR : fLSMslope rows = fquot (slopenum pts) (slopeden pts)).
  { destruct (table_pivot rows pts N T) as (XY & E & E0 & E1). unfold fLSMslope. rewrite E. cbn [rbind]. rewrite E0. cbn [rbind]. rewrite E1. cbn [rbind]. rewrite (table_len rows pts T). reflexivity. }
  assert (A : forall q, LSMslope rows = Ok q -> fLSMslope rows = Ok (fl (Q2R q))).
  { intros q E. rewrite SR in E. rewrite FR. unfold qdiv in E. unfold fquot. destruct (Z.eqb_spec (slopeden pts) 0) as [Z0|Z0]; [rewrite Z0 in E; discriminate|].
    destruct (Qeq_bool (inject_Z (slopeden pts)) 0) eqn:Q; [discriminate|]. injection E as <-. do 2 f_equal. rewrite Q2R_div by (intros C; rewrite <- Qeq_bool_iff in C; congruence). unfold Q2R, inject_Z. cbn [Qnum Qden]. field. apply not_0_IZR, Z0. }
  split; [exact A|]. split.
  - intros S. apply (den_zero pts N) in S. rewrite FR, S. reflexivity.
  - intros X m b M H. destruct (C114_line pts rows (inject_Z m) (inject_Z b) N T X) as (m' & b' & E & _ & Em & _).
    { intros p Hp. rewrite (H p Hp), inject_Z_plus, inject_Z_mult. reflexivity. }
    rewrite (A m' E). f_equal. rewrite (Qeq_eqR _ _ Em). unfold Q2R, inject_Z. cbn [Qnum Qden]. rewrite Rinv_1, Rmult_1_r. now apply fl_Z.
Qed.

(** ** Correlation *)
Definition swapped (pts : list (Z * Z)) : list (Z * Z) := map (fun p => (snd p, fst p)) pts.
Lemma swapped_fst pts : map fst (swapped pts) = map snd pts.
Proof. unfold swapped. rewrite map_map. reflexivity. Qed.
Lemma swapped_snd pts : map snd (swapped pts) = map fst pts.
Proof. unfold swapped. rewrite map_map. reflexivity. Qed.
Lemma swapped_len pts : zlen (swapped pts) = zlen pts.
Proof. unfold swapped, zlen. now rewrite map_length. Qed.
Lemma swapped_den pts : slopeden (swapped pts) = slopeden' pts.
Proof. unfold slopeden, slopeden'. now rewrite swapped_fst, swapped_len. Qed.
Lemma mulvect_comm u v : mulvect u v = mulvect v u.
Proof. unfold mulvect. revert v. induction u as [|a u IH]; intros [|b v]; try reflexivity. cbn. rewrite IH. f_equal. ring. Qed.
Lemma swapped_num pts : slopenum (swapped pts) = slopenum pts.
Proof. unfold slopenum. rewrite swapped_fst, swapped_snd, swapped_len, (mulvect_comm (map snd pts)). ring. Qed.
Lemma swapped_ne pts : pts <> [] -> swapped pts <> [].
Proof. destruct pts; [congruence|discriminate]. Qed.
Lemma den_bound pts M : (forall p, In p pts -> Z.abs (fst p) <= M)%Z -> (slopeden pts <= zlen pts * zlen pts * (M * M))%Z.
Proof.
  intros H. unfold slopeden. assert (S : (py_sum (mulvect (map fst pts) (map fst pts)) <= M * M * zlen pts)%Z).
  { assert (E : zlen (mulvect (map fst pts) (map fst pts)) = zlen pts) by (unfold mulvect; rewrite zipwith_map; unfold zlen; now rewrite map_length). rewrite <- E. apply (py_sum_between _ 0). intros x Hx. unfold mulvect in Hx. rewrite zipwith_map in Hx. apply in_map_iff in Hx. destruct Hx as (p & <- & Hp). specialize (H p Hp). nia. }
  assert (0 <= zlen pts)%Z by (unfold zlen; lia). nia.
Qed.
(** Pearson's coefficient: with floats, too, never outside of -1 and 1, and exactly 1 or -1 for points on a line; near to the exact
    coefficient; it raises exactly if all x or all y are equal. *)
Theorem C143_pearson : forall pts rows M, pts <> [] -> table_of pts rows -> (forall p, In p pts -> (Z.abs (fst p) <= M /\ Z.abs (snd p) <= M)%Z) -> (zlen pts * zlen pts * (M * M) <= 2 ^ 53)%Z ->
  let same f := forall p q : Z * Z, In p pts -> In q pts -> f p = f q :> Z in
  (same fst \/ same snd -> fPearsonsR rows = Err ZeroDivisionError) /\
  (~ same fst -> ~ same snd -> exists r, fPearsonsR rows = Ok r /\ -1 <= r <= 1 /\
     forall m b : Q, (forall p, In p pts -> inject_Z (snd p) == m * inject_Z (fst p) + b)%Q -> ((0 < m)%Q -> r = 1) /\ ((m < 0)%Q -> r = -1)).
Proof.
  intros pts rows M N T B MB same. destruct (table_pivot rows pts N T) as (XY & E & E0 & E1).
  assert (FR : fPearsonsR rows = let root := fl (sqrt (fl (IZR (Z.abs (slopeden pts) * Z.abs (slopeden' pts))))) in if req root 0 then Err ZeroDivisionError else Ok (fl (fl (IZR (slopenum pts)) / root))).
  { unfold fPearsonsR. rewrite E. cbn [rbind]. rewrite E0. cbn [rbind]. rewrite E1. cbn [rbind]. rewrite (table_len rows pts T). reflexivity. }
  pose proof (den_nonneg pts N) as D1. pose proof (den_nonneg (swapped pts) (swapped_ne pts N)) as D2. rewrite swapped_den in D2. rewrite !Z.abs_eq in FR by assumption. cbv zeta in FR.
  pose proof (den_zero pts N) as Z1. pose proof (den_zero (swapped pts) (swapped_ne pts N)) as Z2. rewrite swapped_den in Z2.
  assert (Z2' : slopeden' pts = 0%Z <-> same snd).
  { rewrite Z2. unfold same, swapped. split; intros H.
    - intros p q Hp Hq. apply (H (snd p, fst p) (snd q, fst q)); apply (in_map (fun p => (snd p, fst p))); assumption.
    - intros p q Hp Hq. apply in_map_iff in Hp, Hq. destruct Hp as (p' & <- & Hp). destruct Hq as (q' & <- & Hq). apply H; assumption. }
  pose proof (den_bound pts M (fun p Hp => proj1 (B p Hp))) as B1. pose proof (den_bound (swapped pts) M) as B2. rewrite swapped_den, swapped_len in B2.
  assert (B2' : (slopeden' pts <= 2 ^ 53)%Z). { eapply Z.le_trans; [apply B2|exact MB]. intros p Hp. unfold swapped in Hp. apply in_map_iff in Hp. destruct Hp as (p' & <- & Hp). apply (B p' Hp). }
  pose proof (num_bound pts N) as NB. rewrite <- !inject_Z_mult in NB. rewrite <- Zle_Qle in NB. set (A := slopenum pts) in *. set (D := slopeden pts) in *. set (D' := slopeden' pts) in *.
  assert (AB : (Z.abs A <= 2 ^ 53)%Z) by (assert (D * D' <= 2 ^ 53 * 2 ^ 53)%Z by (apply Z.mul_le_mono_nonneg; lia); nia).
  split.
  - intros S. assert (P : (D * D' = 0)%Z) by (destruct S as [S|S]; [apply Z1 in S|apply Z2' in S]; rewrite S; ring). rewrite FR, P, fl_0, sqrt_0, fl_0. now rewrite (proj2 (req_iff 0 0) eq_refl).
  - intros S1 S2. assert (P1 : (0 < D)%Z) by (destruct (Z.eq_dec D 0) as [Q|Q]; [exfalso; exact (S1 (proj1 Z1 Q))|lia]). assert (P2 : (0 < D')%Z) by (destruct (Z.eq_dec D' 0) as [Q|Q]; [exfalso; exact (S2 (proj1 Z2' Q))|lia]).
    set (s := fl (sqrt (fl (IZR (D * D'))))) in *.
    assert (SP : 1 <= s). { unfold s. rewrite <- fl_1. apply fl_le. rewrite <- sqrt_1. apply sqrt_le_1_alt. rewrite <- fl_1. apply fl_le. apply IZR_le. nia. }
    assert (SA : IZR (Z.abs A) <= s). { rewrite <- (root_square A AB). apply fl_le, sqrt_le_1_alt, fl_le, IZR_le. exact NB. }
    rewrite abs_IZR in SA. assert (NE : req s 0 = false) by (destruct (req s 0) eqn:Q; [apply req_iff in Q; lra|reflexivity]). rewrite NE in FR. rewrite (fl_Z A AB) in FR. eexists. split; [exact FR|]. split.
    + apply Rabs_le_inv in SA. assert (Q : -1 <= IZR A / s <= 1) by (split; apply (Rmult_le_reg_r s); try lra; unfold Rdiv; rewrite Rmult_assoc, Rinv_l; lra).
      split; [apply Rle_trans with (fl (Ropp 1)); [rewrite fl_opp, fl_1; lra|]|apply Rle_trans with (fl 1); [|rewrite fl_1; lra]]; apply fl_le; lra.
    + intros m b H.
      assert (SL : forall l r m b, l <> [] -> table_of l r -> (0 < slopeden l)%Z -> (forall p, In p l -> inject_Z (snd p) == m * inject_Z (fst p) + b)%Q -> (inject_Z (slopenum l) == m * inject_Z (slopeden l))%Q).
      { clear. intros l r m b N T P H. destruct (C114_line l r m b N T) as (m' & b' & F & _ & Em & _); [|exact H|].
        - destruct (Classical_Prop.classic (exists p q, In p l /\ In q l /\ fst p <> fst q)) as [C|C]; [exact C|]. exfalso. assert (slopeden l = 0%Z); [|lia]. apply (den_zero l N). intros p q Hp Hq. destruct (Z.eq_dec (fst p) (fst q)) as [|NE']; [assumption|]. exfalso. apply C. exists p, q. auto.
        - rewrite (slope_run l N r T) in F. rewrite qdiv_ok in F by (unfold Qeq; cbn; lia). injection F as <-. rewrite <- Em. field. unfold Qeq. cbn. lia. }
      pose proof (SL pts rows m b N T P1 H) as AM. fold A D in AM.
      assert (AM' : ~ (m == 0)%Q -> (inject_Z A == (1 / m) * inject_Z D')%Q).
      { intros NZ. unfold A, D'. rewrite <- (swapped_num pts), <- (swapped_den pts). apply (SL (swapped pts) (map (fun p => [fst p; snd p]) (swapped pts)) (1 / m)%Q (- (b / m))%Q).
        - now apply swapped_ne.
        - exists 0%nat. clear. induction (swapped pts) as [|p l IH]; constructor; [exists []; split; reflexivity|exact IH].
        - rewrite swapped_den. exact P2.
        - intros p Hp. unfold swapped in Hp. apply in_map_iff in Hp. destruct Hp as (p' & <- & Hp). cbn [fst snd]. rewrite (H p' Hp). field. exact NZ. }
      assert (SQ : ~ (m == 0)%Q -> s = IZR (Z.abs A)).
      { intros NZ. unfold s. rewrite <- (root_square A AB). do 4 f_equal. symmetry. assert (Q : (inject_Z (A * A) == inject_Z (D * D'))%Q) by (rewrite !inject_Z_mult; setoid_replace (inject_Z A * inject_Z A)%Q with ((m * inject_Z D) * ((1 / m) * inject_Z D'))%Q by (rewrite <- AM, <- (AM' NZ); reflexivity); field; exact NZ). unfold Qeq in Q. cbn [Qnum Qden inject_Z] in Q. lia. }
      assert (PD : (0 < inject_Z D)%Q) by (unfold Qlt; cbn; lia).
      split; intros Hm.
      * assert (PA : (0 < A)%Z). { rewrite Zlt_Qlt. rewrite AM. change (inject_Z 0) with 0%Q. setoid_replace 0%Q with (0 * inject_Z D)%Q by ring. apply Qmult_lt_compat_r; assumption. }
        rewrite (SQ (fun C => Qlt_irrefl 0 ltac:(rewrite C in Hm; exact Hm))), Z.abs_eq by lia. unfold Rdiv. rewrite Rinv_r by (apply not_0_IZR; lia). apply fl_1.
      * assert (PA : (A < 0)%Z). { rewrite Zlt_Qlt. rewrite AM. change (inject_Z 0) with 0%Q. setoid_replace 0%Q with (0 * inject_Z D)%Q by ring. apply Qmult_lt_compat_r; assumption. }
        rewrite (SQ (fun C => Qlt_irrefl 0 ltac:(rewrite C in Hm; exact Hm))), Z.abs_neq by lia. rewrite opp_IZR. replace (IZR A / - IZR A) with (Ropp 1) by (field; apply not_0_IZR; lia). now rewrite fl_opp, fl_1.
Qed.

(** ** Cases that meet the hypotheses *)
Example C143_shrink_ex : (wf (Concrete.sample24 4 4) 4 4 24 /\ 0 < 2 <= 2 ^ 20 /\ (4 / 2) mod 2 = 0 /\ inside (4 / 2) (4 / 2) 1 1)%Z /\ fshrink 2 (10 + 20 + 30 + 41) = 25%Z.
Proof.
  split; [split; [Concrete.concrete_wf|]; split; [lia|]; split; [reflexivity|vm_compute; intuition congruence]|].
  unfold fshrink. change (2 ^ 2)%Z with 4%Z. rewrite (ddiv_ok 1 4) by (vm_compute; reflexivity). rewrite Rmult_comm. rewrite dmul_ok by (vm_compute; reflexivity).
  match goal with |- rround (dval ?d) = _ => let v := eval vm_compute in d in change d with v end. unfold dval. cbn [fst snd]. apply rround_unique. apply Rabs_def1; lra.
Qed.
Example C143_mean_ex : fmean [3; 4; 8]%Z = Ok 5 /\ fvariance [3; 4; 8]%Z = Ok [-2; -1; 3].
Proof.
  assert (E : fmean [3; 4; 8]%Z = Ok 5). { unfold fmean. rewrite fquot_ok by discriminate. change (py_sum [3; 4; 8]%Z) with 15%Z. change (zlen [3; 4; 8]%Z) with 3%Z. replace (15 / 3) with 5 by lra. f_equal. apply (fl_Z 5). lia. }
  split; [exact E|]. unfold fvariance. rewrite E. cbn [rbind map]. rewrite !fl_Z by lia. replace (3 - 5) with (-2) by lra. replace (4 - 5) with (-1) by lra. replace (8 - 5) with 3 by lra. now rewrite !fl_Z by lia.
Qed.
Example C143_slope_ex : fLSMslope [[0; 1; 9]; [1; 4; 9]; [3; 10; 9]]%Z = Ok 3 /\ fLSMslope [[4; 1]; [4; 2]]%Z = Err ZeroDivisionError.
Proof.
  split; [|reflexivity]. destruct (C143_slope [(0, 1); (1, 4); (3, 10)]%Z [[0; 1; 9]; [1; 4; 9]; [3; 10; 9]]%Z) as (_ & _ & H).
  - discriminate.
  - exists 1%nat. repeat constructor; eexists; split; reflexivity.
  - apply (H ltac:(exists (0, 1)%Z, (1, 4)%Z; cbn; repeat split; auto; discriminate) 3%Z 1%Z).
    + lia.
    + intros p [<- | [<- | [<- | []]]]; reflexivity.
Qed.
Example C143_pearson_ex : fPearsonsR [[0; 10]; [2; 7]; [6; 1]]%Z = Ok (-1).
Proof.
  destruct (C143_pearson [(0, 10); (2, 7); (6, 1)]%Z [[0; 10]; [2; 7]; [6; 1]]%Z 10) as [_ H].
  - discriminate.
  - exists 0%nat. repeat constructor; eexists; split; reflexivity.
  - intros p [<- | [<- | [<- | []]]]; cbn; lia.
  - unfold zlen. cbn [length]. lia.
  - destruct H as (r & E & _ & L).
    + intros S. specialize (S (0, 10)%Z (2, 7)%Z ltac:(cbn; auto) ltac:(cbn; auto)). discriminate.
    + intros S. specialize (S (0, 10)%Z (2, 7)%Z ltac:(cbn; auto) ltac:(cbn; auto)). discriminate.
    + rewrite E. f_equal. apply (L (-3 # 2)%Q 10%Q).
      * intros p [<- | [<- | [<- | []]]]; reflexivity.
      * reflexivity.
Qed.

Print Assumptions C143_shrink.
Print Assumptions C143_pixelate.
Print Assumptions C143_half_refuted.
Print Assumptions C143_mean.
Print Assumptions C143_mean_empty.
Print Assumptions C143_deviations.
Print Assumptions C143_slope.
Print Assumptions C143_pearson.
