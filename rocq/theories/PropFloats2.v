(** Property C140: gradients, distances and pie charts with the rounding of floats. *)
From Coq Require Import ZArith Reals List Lia Lra Bool.
From Verif Require Import PyBase Bmp Buffers Exact Colours Coords RealProofs Floats FloatProofs PropFloats Floats2.
Import ListNotations.
Open Scope R_scope.

(** ** Gradients *)
(** cutting off a number close to the fraction N / n *)
Lemma trunc_fraction x N n : 0 <= x -> (0 < n <= 2 ^ 20)%Z -> Rabs (x - IZR N / IZR n) <= tiny ->
  (rtrunc x = N / n \/ (N mod n = 0 /\ rtrunc x = N / n - 1))%Z.
Proof.
  intros X0 NN E. pose proof (trunc_pos x X0) as T. set (t := rtrunc x) in *. assert (LR : 1 <= IZR n) by (apply IZR_le; lia). assert (LU : IZR n <= IZR (2 ^ 20)) by (apply IZR_le; lia). change (2 ^ 20)%Z with 1048576%Z in LU.
  set (q := (N / n)%Z). set (r := (N mod n)%Z). pose proof (Z.div_mod N n ltac:(lia)) as D. fold q r in D. pose proof (Z.mod_pos_bound N n ltac:(lia)) as RB. fold r in RB.
  assert (X : IZR N / IZR n = IZR q + IZR r / IZR n) by (rewrite D, plus_IZR, mult_IZR; field; lra). rewrite X in E. apply Rabs_le_inv in E. unfold tiny in E.
  assert (I : / 1048576 <= / IZR n) by (apply Rinv_le_contravar; lra). assert (F0 : 0 <= IZR r / IZR n) by (apply Rmult_le_pos; [apply IZR_le; lia|lra]).
  assert (F1 : IZR r / IZR n <= 1 - / IZR n). { apply (Rmult_le_reg_r (IZR n)); [lra|]. replace (IZR r / IZR n * IZR n) with (IZR r) by (field; lra). replace ((1 - / IZR n) * IZR n) with (IZR n - 1) by (field; lra). rewrite <- minus_IZR. apply IZR_le. lia. }
  assert (U : (t < q + 1)%Z) by (apply lt_IZR; rewrite plus_IZR; lra). assert (W : (q - 1 < t + 1)%Z) by (apply lt_IZR; rewrite plus_IZR, minus_IZR; lra).
  destruct (Z.eq_dec r 0) as [Z|NZ]; [lia|left]. assert (F2 : / IZR n <= IZR r / IZR n). { assert (1 <= IZR r) by (apply IZR_le; lia). unfold Rdiv. rewrite <- (Rmult_1_l (/ IZR n)) at 1. apply Rmult_le_compat_r; lra. }
  assert (q < t + 1)%Z; [apply lt_IZR; rewrite plus_IZR; lra|lia].
Qed.
(** the exact value i / n of the way from a to c, times n *)
Definition way (a c i n : Z) : Z := (a * n + (c - a) * i)%Z.
Lemma way_R a c i n : (0 < n)%Z -> IZR (way a c i n) / IZR n = IZR a + IZR ((c - a) * i) / IZR n.
Proof. intros N. unfold way. rewrite plus_IZR, !mult_IZR. field. apply not_0_IZR. lia. Qed.
Lemma way_between a c i n : (0 <= i <= n)%Z -> (0 < n)%Z -> (Z.min a c * n <= way a c i n <= Z.max a c * n)%Z.
Proof. unfold way. intros. destruct (Z.min_spec a c) as [[? ->]|[? ->]]; destruct (Z.max_spec a c) as [[? ->]|[? ->]]; nia. Qed.
Lemma way_floor a c i n : (0 <= i <= n)%Z -> (0 < n)%Z -> (Z.min a c <= way a c i n / n <= Z.max a c)%Z.
Proof. intros I N. pose proof (way_between a c i n I N) as [A B]. split; [apply Z.div_le_lower_bound; lia|apply Z.div_le_upper_bound; lia]. Qed.
(** Gradients by base and range are exact: the luminosity is the exact value without its fraction.  It lies between
    the ends and is exact at the ends. *)
Theorem C140_gradient : forall l1 l2 i n, byte l1 -> byte l2 -> (0 <= i <= n)%Z -> (0 < n <= 2 ^ 20)%Z ->
  fgradbase l1 l2 i n = ((l1 * n + (l2 - l1) * i) / n)%Z /\ (Z.min l1 l2 <= fgradbase l1 l2 i n <= Z.max l1 l2)%Z /\
  (i = 0%Z -> fgradbase l1 l2 i n = l1) /\ (i = n -> fgradbase l1 l2 i n = l2) /\ (l1 = l2 -> fgradbase l1 l2 i n = l1).
Proof.
  intros l1 l2 i n B1 B2 I N. assert (E : fgradbase l1 l2 i n = (way l1 l2 i n / n)%Z).
  - unfold fgradbase. set (k := ((l2 - l1) * i)%Z). assert (N1 : 1 <= IZR n) by (apply IZR_le; lia). unfold byte in B1, B2. pose proof (way_R l1 l2 i n ltac:(lia)) as WR. fold k in WR.
    assert (Q : Rabs (IZR k / IZR n) <= 255). { apply Rabs_le. assert (KB : (- (255 * n) <= k <= 255 * n)%Z) by (unfold k; nia). destruct KB as [K1 K2]. apply IZR_le in K1, K2. rewrite opp_IZR, mult_IZR in K1. rewrite mult_IZR in K2. split; apply (Rmult_le_reg_r (IZR n)); try lra; replace (IZR k / IZR n * IZR n) with (IZR k) by (field; lra); lra. }
    assert (X : Rabs (IZR l1 + IZR k / IZR n) <= 255). { rewrite <- WR. pose proof (way_between l1 l2 i n I ltac:(lia)) as [W1 W2]. assert (W3 : (0 <= way l1 l2 i n <= 255 * n)%Z) by nia. destruct W3 as [W3 W4]. apply IZR_le in W3, W4. rewrite mult_IZR in W4. apply Rabs_le. split; apply (Rmult_le_reg_r (IZR n)); try lra; replace (IZR (way l1 l2 i n) / IZR n * IZR n) with (IZR (way l1 l2 i n)) by (field; lra); lra. }
    destruct (Z.eq_dec (k mod n) 0) as [Z|NZ].
    + pose proof (Z.div_mod k n ltac:(lia)) as D. rewrite Z, Z.add_0_r in D. assert (QE : IZR k / IZR n = IZR (k / n)) by (rewrite D at 1; rewrite mult_IZR; field; lra). rewrite QE in *. apply Rabs_le_inv in Q, X.
      assert (KN : (-255 <= k / n <= 255)%Z) by (split; apply le_IZR; lra). rewrite fl_Z, <- plus_IZR, fl_Z by lia. rewrite rtrunc_Z. unfold way. fold k. rewrite Z.div_add_l by lia. reflexivity.
    + pose proof (fl_near _ _ Q) as D. assert (Z1 : Rabs (IZR l1 - IZR l1) <= 0) by (rewrite Rminus_diag_eq by reflexivity; rewrite Rabs_R0; lra). pose proof (near_add _ _ _ _ _ _ _ Z1 D X) as F. pose proof u_pos. pose proof eta_pos.
      assert (F' : Rabs (fl (IZR l1 + fl (IZR k / IZR n)) - (IZR l1 + IZR k / IZR n)) <= tiny). { eapply Rle_trans; [exact F|]. assert (u * (255 + 0 + (u * 255 + eta)) <= u * 1000) by (apply Rmult_le_compat_l; lra). unfold tiny. lra. }
      rewrite <- WR in F'. assert (P : 0 <= fl (IZR l1 + fl (IZR k / IZR n))).
      { apply fl_nonneg. rewrite WR in F'. destruct (Z_le_gt_dec l1 l2) as [L|L].
        - assert (0 <= fl (IZR k / IZR n)) by (apply fl_nonneg, Rmult_le_pos; [apply IZR_le; unfold k; nia|apply Rlt_le, Rinv_0_lt_compat; lra]). assert (0 <= IZR l1) by (apply IZR_le; lia). lra.
        - assert (- IZR l1 <= fl (IZR k / IZR n)); [|lra]. rewrite <- opp_IZR, <- (fl_Z (- l1)) by lia. apply fl_le. apply (Rmult_le_reg_r (IZR n)); [lra|]. replace (IZR k / IZR n * IZR n) with (IZR k) by (field; lra). rewrite <- mult_IZR. apply IZR_le. unfold k. nia. }
      destruct (trunc_fraction _ _ _ P N F') as [G|[G _]]; [exact G|]. exfalso. apply NZ. unfold way in G. fold k in G. rewrite Z.add_comm, Z.mod_add in G by lia. exact G.
  - rewrite E. split; [reflexivity|]. split; [apply way_floor; lia|]. unfold way. split; [|split]; intros ->.
    + rewrite Z.mul_0_r, Z.add_0_r. apply Z.div_mul. lia.
    + replace (l1 * n + (l2 - l1) * n)%Z with (l2 * n)%Z by ring. apply Z.div_mul. lia.
    + rewrite Z.sub_diag, Z.mul_0_l, Z.add_0_r. apply Z.div_mul. lia.
Qed.
(** linear interpolation: error and range *)
Lemma flerp_err a x j : byte a -> byte x -> 0 <= j <= 1 -> 0 <= flerp (IZR a) (IZR x) j /\ Rabs (flerp (IZR a) (IZR x) j - ((1 - j) * IZR a + j * IZR x)) <= / 10000000000.
Proof.
  intros A X J. pose proof u_pos as U. pose proof eta_pos as ET. pose proof (byte_R a A) as AR. pose proof (byte_R x X) as XR. unfold flerp. split.
  { apply fl_nonneg, Rplus_le_le_0_compat; apply fl_nonneg, Rmult_le_pos; try lra. apply fl_nonneg. lra. }
  assert (D1 : Rabs (fl (1 - j) - (1 - j)) <= / 1000000000000000) by (eapply Rle_trans; [apply (fl_near _ 1); apply Rabs_le; lra|]; lra).
  assert (D : Rabs (j - j) <= 0) by (rewrite Rminus_diag_eq by reflexivity; rewrite Rabs_R0; lra).
  assert (JA : Rabs (1 - j) <= 1) by (apply Rabs_le; lra). assert (JB : Rabs j <= 1) by (apply Rabs_le; lra).
  pose proof (near_mul _ _ _ _ _ _ D1 (byte_abs a A) JA) as E1. pose proof (near_mul _ _ _ _ _ _ D (byte_abs x X) JB) as E2.
  assert (E1' : Rabs (fl (fl (1 - j) * IZR a) - (1 - j) * IZR a) <= / 1000000000000) by (eapply Rle_trans; [exact E1|]; assert (u * ((1 + / 1000000000000000) * 255) <= u * 300) by (apply Rmult_le_compat_l; lra); lra).
  assert (E2' : Rabs (fl (j * IZR x) - j * IZR x) <= / 1000000000000) by (eapply Rle_trans; [exact E2|]; assert (u * ((1 + 0) * 255) <= u * 300) by (apply Rmult_le_compat_l; lra); lra).
  assert (S : Rabs ((1 - j) * IZR a + j * IZR x) <= 255) by (apply Rabs_le; split; nra).
  eapply Rle_trans; [apply (near_add _ _ _ _ _ _ _ E1' E2' S)|]. assert (u * (255 + / 1000000000000 + / 1000000000000) <= u * 1000) by (apply Rmult_le_compat_l; lra). lra.
Qed.
Lemma share i n : (0 <= i <= n)%Z -> (0 < n)%Z -> 0 <= IZR i / IZR n <= 1.
Proof.
  intros I N. assert (N0 : 0 < IZR n) by now apply IZR_lt. split; [apply Rmult_le_pos; [apply IZR_le; lia|apply Rlt_le, Rinv_0_lt_compat; lra]|]. apply (Rmult_le_reg_r (IZR n)); [lra|]. replace (IZR i / IZR n * IZR n) with (IZR i) by (field; lra). rewrite Rmult_1_l. apply IZR_le. lia.
Qed.
Lemma flerp_0 a x : byte a -> byte x -> flerp (IZR a) (IZR x) 0 = IZR a.
Proof. intros A X. unfold flerp, byte in *. rewrite Rminus_0_r, fl_1, Rmult_1_l, Rmult_0_l, fl_0, Rplus_0_r, fl_Z, fl_Z by (rewrite ?fl_Z; lia). reflexivity. Qed.
Lemma flerp_1 a x : byte a -> byte x -> flerp (IZR a) (IZR x) 1 = IZR x.
Proof. intros A X. unfold flerp, byte in *. replace (1 - 1) with 0 by ring. rewrite fl_0, Rmult_0_l, Rmult_1_l, fl_0, Rplus_0_l, fl_Z, fl_Z by (rewrite ?fl_Z; lia). reflexivity. Qed.
(** Gradients by linear interpolation: the luminosity is the exact value without its fraction, or one less where that
    is an integer; never above the ends, and exact at the ends. *)
Theorem C140_lerp : forall l1 l2 i n, byte l1 -> byte l2 -> (0 <= i <= n)%Z -> (0 < n <= 2 ^ 20)%Z ->
  let exact := (l1 * n + (l2 - l1) * i)%Z in
  (0 <= fgradlerp l1 l2 i n <= Z.max l1 l2 /\ Z.min l1 l2 - 1 <= fgradlerp l1 l2 i n)%Z /\
  (fgradlerp l1 l2 i n = exact / n \/ exact mod n = 0 /\ fgradlerp l1 l2 i n = exact / n - 1)%Z /\
  (i = 0%Z -> fgradlerp l1 l2 i n = l1) /\ (i = n -> fgradlerp l1 l2 i n = l2).
Proof.
  intros l1 l2 i n B1 B2 I N exact. assert (N1 : 1 <= IZR n) by (apply IZR_le; lia). pose proof (share i n I ltac:(lia)) as J. set (j := IZR i / IZR n) in *.
  assert (J' : 0 <= fl j <= 1) by (split; [apply fl_nonneg; lra|rewrite <- fl_1; apply fl_le; lra]). destruct (flerp_err l1 l2 (fl j) B1 B2 J') as [P E]. pose proof u_pos. pose proof eta_pos.
  assert (D : Rabs (fl j - j) <= / 1000000000000000) by (eapply Rle_trans; [apply (fl_near _ 1); apply Rabs_le; lra|]; lra).
  assert (W : IZR exact / IZR n = (1 - j) * IZR l1 + j * IZR l2) by (unfold exact, j; rewrite plus_IZR, !mult_IZR, minus_IZR; field; lra).
  assert (F : Rabs (flerp (IZR l1) (IZR l2) (fl j) - IZR exact / IZR n) <= tiny).
  { rewrite W. apply Rabs_le_inv in D, E. pose proof (byte_R _ B1). pose proof (byte_R _ B2). assert (Q : -/ 1000000000000 <= (fl j - j) * (IZR l2 - IZR l1) <= / 1000000000000) by (split; nra). replace ((1 - fl j) * IZR l1 + fl j * IZR l2) with ((1 - j) * IZR l1 + j * IZR l2 + (fl j - j) * (IZR l2 - IZR l1)) in E by ring. unfold tiny. apply Rabs_le. lra. }
  pose proof (trunc_fraction _ _ _ P N F) as T. change (rtrunc (flerp (IZR l1) (IZR l2) (fl j))) with (fgradlerp l1 l2 i n) in T. pose proof (way_floor l1 l2 i n I ltac:(lia)) as WF. change (way l1 l2 i n) with exact in WF.
  assert (T0 : (0 <= fgradlerp l1 l2 i n)%Z). { pose proof (trunc_pos _ P) as TP. unfold fgradlerp. fold j. assert (-1 < rtrunc (flerp (IZR l1) (IZR l2) (fl j)))%Z by (apply lt_IZR; lra). lia. }
  split; [lia|]. split; [exact T|]. unfold fgradlerp. fold j. split; intros ->.
  - assert (j = 0) as -> by (unfold j; field; lra). rewrite fl_0, flerp_0 by assumption. apply rtrunc_Z.
  - assert (j = 1) as -> by (unfold j; field; lra). rewrite fl_1, flerp_1 by assumption. apply rtrunc_Z.
Qed.
(** A gradient from 255 to 255 has a ring of 254. *)
Theorem C140_lerp_refuted : fgradlerp 255 255 3 7 = 254%Z.
Proof.
  unfold fgradlerp, flerp. assert (F1 : flcheck 3 7 (fst (flfind 3 7)) (snd (flfind 3 7)) = true) by (vm_compute; reflexivity). apply flcheck_ok in F1. rewrite F1. clear F1.
  set (m := fst (flfind 3 7)). set (k := snd (flfind 3 7)). vm_compute in m, k.
  replace (1 - IZR m / IZR (2 ^ k)) with (IZR (2 ^ k - m) / IZR (2 ^ k)) by (rewrite minus_IZR; field; apply not_0_IZR; discriminate).
  pose (f2 := flfind (2 ^ k - m) (2 ^ k)). assert (F2 : flcheck (2 ^ k - m) (2 ^ k) (fst f2) (snd f2) = true) by (vm_compute; reflexivity). apply flcheck_ok in F2. rewrite F2. clear F2. set (m2 := fst f2). set (k2 := snd f2). vm_compute in m2, k2. clear f2.
  replace (IZR m2 / IZR (2 ^ k2) * 255) with (IZR (m2 * 255) / IZR (2 ^ k2)) by (rewrite mult_IZR; unfold Rdiv; ring).
  pose (f3 := flfind (m2 * 255) (2 ^ k2)). assert (F3 : flcheck (m2 * 255) (2 ^ k2) (fst f3) (snd f3) = true) by (vm_compute; reflexivity). apply flcheck_ok in F3. rewrite F3. clear F3. set (m3 := fst f3). set (k3 := snd f3). vm_compute in m3, k3. clear f3.
  replace (IZR m / IZR (2 ^ k) * 255) with (IZR (m * 255) / IZR (2 ^ k)) by (rewrite mult_IZR; unfold Rdiv; ring).
  pose (f4 := flfind (m * 255) (2 ^ k)). assert (F4 : flcheck (m * 255) (2 ^ k) (fst f4) (snd f4) = true) by (vm_compute; reflexivity). apply flcheck_ok in F4. rewrite F4. clear F4. set (m4 := fst f4). set (k4 := snd f4). vm_compute in m4, k4. clear f4.
  replace (IZR m3 / IZR (2 ^ k3) + IZR m4 / IZR (2 ^ k4)) with (IZR (m3 * 2 ^ k4 + m4 * 2 ^ k3) / IZR (2 ^ k3 * 2 ^ k4)) by (rewrite plus_IZR, !mult_IZR; field; split; apply not_0_IZR; discriminate).
  pose (f5 := flfind (m3 * 2 ^ k4 + m4 * 2 ^ k3) (2 ^ k3 * 2 ^ k4)). assert (F5 : flcheck (m3 * 2 ^ k4 + m4 * 2 ^ k3) (2 ^ k3 * 2 ^ k4) (fst f5) (snd f5) = true) by (vm_compute; reflexivity). apply flcheck_ok in F5. rewrite F5. clear F5. set (m5 := fst f5). set (k5 := snd f5). vm_compute in m5, k5. clear f5.
  assert (P : 0 < IZR (2 ^ k5)) by (apply IZR_lt; reflexivity). assert (B : (254 * 2 ^ k5 <= m5 < 255 * 2 ^ k5)%Z) by (vm_compute; split; [discriminate|reflexivity]). destruct B as [B1 B2]. apply IZR_le in B1. apply IZR_lt in B2. rewrite mult_IZR in B1, B2.
  assert (Q : 254 <= IZR m5 / IZR (2 ^ k5) < 255). { split; [apply (Rmult_le_reg_r (IZR (2 ^ k5)))|apply (Rmult_lt_reg_r (IZR (2 ^ k5)))]; try lra; replace (IZR m5 / IZR (2 ^ k5) * IZR (2 ^ k5)) with (IZR m5) by (field; lra); lra. }
  unfold rtrunc. rewrite (proj2 (rlt_no _ _)) by lra. apply int_unique. lra.
Qed.
(** The rings of an orb: bytes, brighter towards the middle. *)
Theorem C140_orb : forall r i, (r / 2 < i < r)%Z -> (0 < r / 2)%Z -> (r <= 2 ^ 40)%Z ->
  forblum r i = (255 * (r - i) / (r / 2))%Z /\ byte (forblum r i) /\ (forall k, (r / 2 < k <= i)%Z -> (forblum r i <= forblum r k)%Z).
Proof.
  assert (E : forall r i, (r / 2 < i < r)%Z -> (0 < r / 2)%Z -> (r <= 2 ^ 40)%Z -> forblum r i = (255 * (r - i) / (r / 2))%Z).
  { intros r i I J R. unfold forblum. rewrite Z.shiftr_div_pow2 by lia. change (2 ^ 1)%Z with 2%Z. pose proof (Z.div_mod r 2 ltac:(lia)). pose proof (Z.mod_pos_bound r 2 ltac:(lia)). apply intquot_pos; lia. }
  intros r i I J R. pose proof (Z.div_mod r 2 ltac:(lia)) as D. pose proof (Z.mod_pos_bound r 2 ltac:(lia)). rewrite E by assumption. split; [reflexivity|]. split.
  - split; [apply Z.div_pos; lia|apply Z.div_le_upper_bound; nia].
  - intros k K. rewrite E by lia. apply Z.div_le_mono; lia.
Qed.
(** Interpolated colours for any float from 0 to 1: between the ends, exact at the ends, one colour stays itself, and
    the rounded exact value up to a billionth. *)
Theorem C140_interpolate : forall r1 r2 g1 g2 b1 b2 v, byte r1 -> byte r2 -> byte g1 -> byte g2 -> byte b1 -> byte b2 -> 0 <= v <= 1 ->
  let part a c z := (Z.min a c <= z <= Z.max a c)%Z /\ Rabs (IZR z - (IZR a + IZR (c - a) * v)) <= 1 / 2 + tiny in
  let '(r, g, b) := finterpolateRGB r1 r2 g1 g2 b1 b2 v in part r1 r2 r /\ part g1 g2 g /\ part b1 b2 b /\
  (v = 0 -> (r, g, b) = (r1, g1, b1)) /\ (v = 1 -> (r, g, b) = (r2, g2, b2)).
Proof.
  intros r1 r2 g1 g2 b1 b2 v R1 R2 G1 G2 B1 B2 V part. unfold finterpolateRGB.
  assert (K : forall a c, byte a -> byte c -> part a c (rround (flerp (IZR a) (IZR c) v))).
  { intros a c A C. destruct (flerp_err a c v A C V) as [_ E]. assert (E' : Rabs (flerp (IZR a) (IZR c) v - ((1 - v) * IZR a + v * IZR c)) <= tiny) by (unfold tiny; lra).
    destruct (round_stable _ _ E') as [S _]. replace ((1 - v) * IZR a + v * IZR c) with (IZR a + IZR (c - a) * v) in * by (rewrite minus_IZR; ring).
    unfold part. split; [|exact S]. set (z := rround _) in *. apply Rabs_le_inv in S. unfold tiny in S. rewrite minus_IZR in S.
    assert (Lo : IZR (Z.min a c) <= IZR a + (IZR c - IZR a) * v). { destruct (Z.min_spec a c) as [[H ->]|[H ->]]; apply IZR_le in H || apply IZR_lt in H; nra. }
    assert (Hi : IZR a + (IZR c - IZR a) * v <= IZR (Z.max a c)). { destruct (Z.max_spec a c) as [[H ->]|[H ->]]; apply IZR_le in H || apply IZR_lt in H; nra. }
    assert (Z.min a c < z + 1)%Z by (apply lt_IZR; rewrite plus_IZR; lra). assert (z < Z.max a c + 1)%Z by (apply lt_IZR; rewrite plus_IZR; lra). lia. }
  split; [now apply K|]. split; [now apply K|]. split; [now apply K|]. split; intros ->; [rewrite !flerp_0 by assumption|rewrite !flerp_1 by assumption]; now rewrite !rround_Z.
Qed.
(** ** Rows of a brightness gradient *)
Lemma flums_float s d k : fl s = s -> fl (flums s d k) = flums s d k.
Proof. intros F. destruct k as [|k]; [exact F|]. apply fl_fl. Qed.
(** The percentages add up to the exact ones up to a trillionth for each row; the first is exact and their order is
    right. *)
Theorem C140_rows : forall l0 l1 y1 y2 k, (Z.abs l0 <= 1000)%Z -> (Z.abs l1 <= 1000)%Z -> (y1 < y2)%Z -> (Z.of_nat k <= y2 - y1 <= 1000000)%Z ->
  Rabs (fvertlum l0 l1 y1 y2 k - (IZR l1 + IZR (l0 - l1) * INR k / IZR (y2 - y1))) <= INR k * / 1000000000000 /\ fvertlum l0 l1 y1 y2 0 = IZR l1 /\
  ((l1 <= l0)%Z -> fvertlum l0 l1 y1 y2 k <= fvertlum l0 l1 y1 y2 (k + 1)) /\ ((l0 <= l1)%Z -> fvertlum l0 l1 y1 y2 (k + 1) <= fvertlum l0 l1 y1 y2 k).
Proof.
  intros l0 l1 y1 y2 k L0 L1 Y K. set (h := (y2 - y1)%Z) in *. assert (H1 : 1 <= IZR h) by (apply IZR_le; lia). assert (HU : IZR h <= 1000000) by (apply IZR_le; lia). set (d := IZR (l0 - l1) / IZR h). pose proof u_pos. pose proof eta_pos.
  assert (L1F : fl (IZR l1) = IZR l1) by (apply fl_Z; lia). assert (DL : -2000 <= IZR (l0 - l1) <= 2000) by (split; apply IZR_le; lia). assert (LL : -1000 <= IZR l1 <= 1000) by (split; apply IZR_le; lia). assert (LL0 : -1000 <= IZR l0 <= 1000) by (split; apply IZR_le; lia).
  assert (IH0 : 0 < / IZR h) by (apply Rinv_0_lt_compat; lra). assert (HH : IZR h * / IZR h = 1) by (field; lra).
  assert (DE : Rabs (fl d - d) <= / 4000000000000).
  { eapply Rle_trans; [apply (fl_near _ 2000)|lra]. apply Rabs_le. unfold d, Rdiv. split; nra. }
  fold (fvertlum l0 l1 y1 y2 k). unfold fvertlum. fold h. fold d. split; [|split; [reflexivity|]].
  - clear Y. assert (G : forall k, (Z.of_nat k <= h)%Z -> Rabs (flums (IZR l1) (fl d) k - (IZR l1 + d * INR k)) <= INR k * / 1000000000000).
    { induction k0 as [|k0 IH]; intros KH; [cbn [flums INR]; rewrite Rmult_0_r, Rplus_0_r, Rminus_diag_eq, Rabs_R0 by reflexivity; lra|]. specialize (IH ltac:(lia)). cbn [flums]. rewrite S_INR.
      assert (KK : 0 <= INR k0 <= IZR h - 1). { split; [apply pos_INR|]. rewrite INR_IZR_INZ, <- minus_IZR. apply IZR_le. lia. }
      assert (V : Rabs (IZR l1 + d * INR k0 + d) <= 1000). { replace (IZR l1 + d * INR k0 + d) with (IZR l1 + d * (INR k0 + 1)) by ring. set (t := (INR k0 + 1) * / IZR h). assert (T : 0 <= t <= 1) by (unfold t; split; nra).
        replace (IZR l1 + d * (INR k0 + 1)) with ((1 - t) * IZR l1 + t * IZR l0) by (unfold d, t; rewrite minus_IZR; field; lra). apply Rabs_le. split; nra. }
      pose proof (near_add _ _ _ _ _ _ _ IH DE V) as E. replace (IZR l1 + d * (INR k0 + 1)) with (IZR l1 + d * INR k0 + d) by ring. eapply Rle_trans; [exact E|].
      assert (KE : INR k0 * / 1000000000000 <= / 1000000) by nra. assert (u * (1000 + INR k0 * / 1000000000000 + / 4000000000000) <= u * 2000) by (apply Rmult_le_compat_l; lra). lra. }
    replace (IZR (l0 - l1) * INR k / IZR h) with (d * INR k) by (unfold d; field; lra). apply G. lia.
  - rewrite Nat.add_1_r. cbn [flums]. rewrite <- (flums_float _ (fl d) k L1F) at 1 4. split; intros L; apply fl_le.
    + assert (0 <= fl d); [|lra]. apply fl_nonneg. unfold d. apply Rmult_le_pos; [apply IZR_le; lia|lra].
    + assert (0 <= - fl d); [|lra]. rewrite <- fl_opp. apply fl_nonneg. unfold d, Rdiv. rewrite Ropp_mult_distr_l. apply Rmult_le_pos; [rewrite <- opp_IZR; apply IZR_le; lia|lra].
Qed.
(** ** Distances *)
Lemma sqrt_margin n : (0 <= n <= 2 ^ 48)%Z -> 0 <= sqrt (IZR n) <= 16777216 /\ Rabs (fl (sqrt (IZR n)) - sqrt (IZR n)) <= / 500000000.
Proof.
  intros N. assert (N0 : 0 <= IZR n) by (apply IZR_le; lia). assert (S : 0 <= sqrt (IZR n) <= 16777216).
  { split; [apply sqrt_pos|]. rewrite <- (sqrt_square 16777216) by lra. apply sqrt_le_1_alt. rewrite <- mult_IZR. apply IZR_le. lia. }
  split; [exact S|]. pose proof u_pos. pose proof eta_pos. eapply Rle_trans; [apply (fl_near _ 16777216); apply Rabs_le; lra|]. lra.
Qed.
(** The distance of two points with integer coordinates compares with an integer as the squares do; without its
    fraction it is the integer square root, and rounded it is the integer nearest to the root. *)
Theorem C140_distance : forall p q r, let dx := (fst p - fst q)%Z in let dy := (snd p - snd q)%Z in let n := (dx * dx + dy * dy)%Z in
  (n <= 2 ^ 48)%Z -> (0 <= r <= 2 ^ 24)%Z ->
  (fdist p q < IZR r <-> (n < r * r)%Z) /\ (fdist p q <= IZR r <-> (n <= r * r)%Z) /\ (fdist p q = IZR r <-> n = (r * r)%Z) /\
  rtrunc (fdist p q) = Z.sqrt n /\ (forall z, rround (fdist p q) = z <-> ((z = 0 \/ 0 < z /\ (2 * z - 1) * (2 * z - 1) < 4 * n) /\ 4 * n < (2 * z + 1) * (2 * z + 1))%Z).
Proof.
  intros p q r dx dy n N R. unfold fdist. fold dx dy. fold n. assert (N0 : (0 <= n)%Z) by (unfold n; nia). clearbody n. clear dx dy p q. destruct (sqrt_margin n ltac:(lia)) as [S E]. set (s := sqrt (IZR n)) in *.
  assert (SS : s * s = IZR n) by (apply sqrt_sqrt, IZR_le; lia). set (d := fl s) in *. assert (D0 : 0 <= d) by (apply fl_nonneg; lra). apply Rabs_le_inv in E.
  (* comparisons with integers *)
  assert (EQ : forall z, (0 <= z <= 2 ^ 24)%Z -> n = (z * z)%Z -> d = IZR z). { intros z Z H. assert (s = IZR z) as SE by (unfold s; rewrite H, mult_IZR; apply sqrt_square, IZR_le; lia). unfold d. rewrite SE. apply fl_Z. lia. }
  assert (LT : forall z, (0 <= z <= 2 ^ 24 + 1)%Z -> (n < z * z)%Z -> d < IZR z).
  { intros z Z H. assert (ZR : 0 <= IZR z <= 16777217) by (split; apply IZR_le; lia). assert (H' : s * s + 1 <= IZR z * IZR z) by (rewrite SS, <- mult_IZR, <- plus_IZR; apply IZR_le; lia). assert (s + / 50000000 <= IZR z); [|lra]. assert (s < IZR z) by nra. assert ((IZR z - s) * (IZR z + s) >= 1) by nra. nra. }
  assert (GT : forall z, (0 <= z <= 2 ^ 24)%Z -> (z * z < n)%Z -> IZR z < d).
  { intros z Z H. assert (ZR : 0 <= IZR z <= 16777216) by (split; apply IZR_le; lia). assert (H' : IZR z * IZR z + 1 <= s * s) by (rewrite SS, <- mult_IZR, <- plus_IZR; apply IZR_le; lia). assert (IZR z + / 50000000 <= s); [|lra]. assert (IZR z < s) by nra. assert ((s - IZR z) * (s + IZR z) >= 1) by nra. nra. }
  pose proof (Z.lt_trichotomy n (r * r)) as TR. assert (C : (d < IZR r /\ (n < r * r)%Z) \/ (d = IZR r /\ n = (r * r)%Z) \/ (IZR r < d /\ (r * r < n)%Z)).
  { destruct TR as [H|[H|H]]; [left|right; left|right; right]; (split; [|exact H]); [apply LT|apply EQ|apply GT]; lia. }
  split; [split; intros; destruct C as [[C D]|[[C D]|[C D]]]; first [lia|lra|exfalso; lra|exfalso; lia]|]. split; [split; intros; destruct C as [[C D]|[[C D]|[C D]]]; first [lia|lra|exfalso; lra|exfalso; lia]|]. split; [split; intros; destruct C as [[C D]|[[C D]|[C D]]]; first [lia|lra|exfalso; lra|exfalso; lia]|].
  pose proof (Z.sqrt_spec n N0) as Q. cbv zeta in Q. rewrite <- (Z.add_1_r (Z.sqrt n)) in Q. set (t := Z.sqrt n) in *. assert (T0 : (0 <= t)%Z) by apply Z.sqrt_nonneg. assert (TU : (t <= 2 ^ 24)%Z) by (apply Z.square_le_simpl_nonneg; [lia|change (2 ^ 24 * 2 ^ 24)%Z with (2 ^ 48)%Z; lia]). split.
  - unfold rtrunc. rewrite (proj2 (rlt_no _ _)) by lra. apply int_unique. split.
    + destruct (Z.eq_dec (t * t) n) as [H|H]; [rewrite (EQ t) by lia; lra|]. apply Rlt_le, GT; lia.
    + rewrite <- plus_IZR. apply LT; lia.
  - (* half integers *)
    assert (HL : forall z, (0 <= z <= 2 ^ 24)%Z -> (4 * n < (2 * z + 1) * (2 * z + 1))%Z -> d < IZR z + / 2).
    { intros z Z H. assert (ZR : 0 <= IZR z <= 16777216) by (split; apply IZR_le; lia). assert (H' : 4 * (s * s) + 1 <= (2 * IZR z + 1) * (2 * IZR z + 1)) by (rewrite SS; change 1 with (IZR 1); change 2 with (IZR 2); change 4 with (IZR 4); rewrite <- !mult_IZR, <- !plus_IZR, <- !mult_IZR; apply IZR_le; lia). assert (s + / 200000000 <= IZR z + / 2); [|lra].
      assert (s < IZR z + / 2) by nra. assert ((IZR z + / 2 - s) * (IZR z + / 2 + s) >= / 4) by nra. nra. }
    assert (HG : forall z, (0 <= z <= 2 ^ 24)%Z -> ((2 * z + 1) * (2 * z + 1) < 4 * n)%Z -> IZR z + / 2 < d).
    { intros z Z H. assert (ZR : 0 <= IZR z <= 16777216) by (split; apply IZR_le; lia). assert (H' : (2 * IZR z + 1) * (2 * IZR z + 1) + 1 <= 4 * (s * s)) by (rewrite SS; change 1 with (IZR 1); change 2 with (IZR 2); change 4 with (IZR 4); rewrite <- !mult_IZR, <- !plus_IZR, <- !mult_IZR, <- plus_IZR; apply IZR_le; lia). assert (IZR z + / 2 + / 200000000 <= s); [|lra].
      assert (IZR z + / 2 < s) by nra. assert ((s - (IZR z + / 2)) * (IZR z + / 2 + s) >= / 4) by nra. nra. }
    assert (ROUND : forall z, (z = 0 \/ 0 < z /\ (2 * z - 1) * (2 * z - 1) < 4 * n)%Z -> (4 * n < (2 * z + 1) * (2 * z + 1))%Z -> rround d = z).
    { intros z A B. apply rround_unique. apply Rabs_def1.
      - assert (U : (0 <= z <= 2 ^ 24)%Z) by (destruct A as [->|A]; nia). specialize (HL z U B). lra.
      - destruct A as [->|[A A']]; [cbn; lra|]. specialize (HG (z - 1)%Z ltac:(nia) ltac:(nia)). rewrite minus_IZR in HG. lra. }
    assert (Y : (4 * n < (2 * t + 1) * (2 * t + 1) \/ (2 * t + 1) * (2 * t + 1) < 4 * n)%Z). { assert (4 * n <> (2 * t + 1) * (2 * t + 1))%Z by (intros Z; apply (f_equal Z.even) in Z; rewrite !Z.even_mul, Z.even_add, Z.even_mul in Z; discriminate). lia. }
    intros z. split; [|intros [A B]; now apply ROUND]. intros <-. destruct Y as [Y|Y].
    + assert (A : (t = 0 \/ 0 < t /\ (2 * t - 1) * (2 * t - 1) < 4 * n)%Z) by (destruct (Z.eq_dec t 0); [left; assumption|right; nia]). rewrite (ROUND t A Y). split; [exact A|exact Y].
    + assert (A : (t + 1 = 0 \/ 0 < t + 1 /\ (2 * (t + 1) - 1) * (2 * (t + 1) - 1) < 4 * n)%Z) by (right; nia). assert (B : (4 * n < (2 * (t + 1) + 1) * (2 * (t + 1) + 1))%Z) by nia. rewrite (ROUND _ A B). split; [exact A|exact B].
Qed.
(** ** Pie charts *)
Definition sumfst (l : list (Z * Z)) : Z := fold_right (fun d s => fst d + s)%Z 0%Z l.
Lemma total_fold l : fold_left Z.add (map fst l) 0%Z = sumfst l.
Proof.
  assert (G : forall l a, fold_left Z.add (map fst l) a = (a + sumfst l)%Z). { induction l0 as [|d t IH]; intros a; cbn; [lia|]. rewrite IH. unfold sumfst. lia. }
  rewrite G. lia.
Qed.
Lemma sumfst_nonneg l : (forall d, In d l -> (0 <= fst d)%Z) -> (0 <= sumfst l)%Z.
Proof. induction l as [|d t IH]; cbn; intros H; [lia|]. pose proof (H d (or_introl eq_refl)). assert (0 <= sumfst t)%Z by (apply IH; intros; apply H; now right). unfold sumfst in *. lia. Qed.
Lemma sumfst_in l d : (forall d, In d l -> (0 <= fst d)%Z) -> In d l -> (fst d <= sumfst l)%Z.
Proof. induction l as [|e t IH]; cbn; intros H I; [contradiction|]. pose proof (H e (or_introl eq_refl)). pose proof (sumfst_nonneg t (fun d D => H d (or_intror D))). unfold sumfst in *. destruct I as [->|I]; [lia|]. specialize (IH (fun d D => H d (or_intror D)) I). lia. Qed.
(** a share of at least one half *)
Lemma half_share a tot : (0 <= a <= tot)%Z -> (0 < tot <= 2 ^ 50)%Z -> rle 50 (fl (fl (IZR a / IZR tot) * 100)) = (tot <=? 2 * a)%Z.
Proof.
  intros A T. pose proof (share a tot A ltac:(lia)) as S. assert (T0 : 1 <= IZR tot) by (apply IZR_le; lia). destruct (Z.leb_spec tot (2 * a)) as [H|H].
  - apply rle_iff. apply IZR_le in H. rewrite mult_IZR in H. assert (G : / 2 <= fl (IZR a / IZR tot)). { replace (/ 2) with (IZR 1 / 2) by lra. rewrite <- (fl_half 1) by lia. apply fl_le. apply (Rmult_le_reg_r (IZR tot)); [lra|]. replace (IZR a / IZR tot * IZR tot) with (IZR a) by (field; lra). lra. }
    apply (Rle_trans _ (fl (IZR 50))); [rewrite fl_Z by lia; lra|]. apply fl_le. lra.
  - apply not_true_iff_false. rewrite rle_iff. apply Rlt_not_le. assert (H' : 2 * IZR a + 1 <= IZR tot) by (rewrite <- mult_IZR, <- plus_IZR; apply IZR_le; lia).
    assert (TU : IZR tot <= IZR (2 ^ 50)) by (apply IZR_le; lia). assert (IT : / IZR (2 ^ 50) <= / IZR tot) by (apply Rinv_le_contravar; lra). set (e := / IZR (2 ^ 50)) in *.
    assert (EU : e = 8 * u). { unfold e, u. change (2 ^ 53)%Z with (8 * 2 ^ 50)%Z. rewrite mult_IZR. field. apply not_0_IZR. discriminate. }
    assert (X : IZR a / IZR tot <= / 2 - 4 * u). { apply Rle_trans with (/ 2 - / 2 * / IZR tot); [|lra]. apply (Rmult_le_reg_r (IZR tot)); [lra|]. replace (IZR a / IZR tot * IZR tot) with (IZR a) by (field; lra). replace ((/ 2 - / 2 * / IZR tot) * IZR tot) with (/ 2 * IZR tot - / 2) by (field; lra). lra. }
    pose proof u_pos. assert (UU : eta <= u * / 100). { unfold eta, u. change (2 ^ 60)%Z with (128 * 2 ^ 53)%Z. rewrite mult_IZR, Rinv_mult. assert (0 < / IZR (2 ^ 53)) by (apply Rinv_0_lt_compat, IZR_lt; reflexivity). lra. } pose proof eta_pos.
    assert (E1 : Rabs (fl (IZR a / IZR tot) - IZR a / IZR tot) <= u * / 2 + eta) by (apply fl_near, Rabs_le; lra). apply Rabs_le_inv in E1.
    assert (P : 0 <= fl (IZR a / IZR tot)) by (apply fl_nonneg; lra).
    assert (E2 : Rabs (fl (fl (IZR a / IZR tot) * 100) - fl (IZR a / IZR tot) * 100) <= u * 50 + eta) by (apply fl_near, Rabs_le; lra). apply Rabs_le_inv in E2. lra.
Qed.
Lemma fpieitems_spec dlist tot : (0 < tot)%Z -> forall l sa big s0 k0, (forall d, In d l -> (0 <= fst d)%Z) -> (0 <= s0)%Z -> (s0 + sumfst l <= tot)%Z -> fl sa = sa -> 0 <= k0 -> k0 + INR (length l) <= 1000000 ->
  Rabs (sa - 360 * IZR s0 / IZR tot) <= k0 * / 1000000000000 ->
  let v := fst (fpieitems dlist tot sa big l) in
  length v = length l /\ (forall a, nth_error v 0 = Some a -> pi_start a = sa) /\ (forall k a b, nth_error v k = Some a -> nth_error v (Datatypes.S k) = Some b -> pi_start b = pi_end a) /\
  (forall k d, nth_error l k = Some d -> exists a, nth_error v k = Some a /\ pi_colour a = snd d /\ pi_amount a = fst d /\ pi_start a <= pi_end a /\
     Rabs (pi_end a - 360 * IZR (s0 + sumfst (firstn (k + 1) l)) / IZR tot) <= (k0 + INR (k + 1)) * / 1000000000000 /\ Rabs (pi_percent a - 100 * IZR (fst d) / IZR tot) <= / 1000000000000).
Proof.
  intros T. assert (T0 : 1 <= IZR tot) by (apply IZR_le; lia). pose proof u_pos. pose proof eta_pos. induction l as [|d t IH]; intros sa big s0 k0 NN S0 SL FS K0 KL ER.
  { cbn. split; [reflexivity|]. split; [discriminate|]. split; [intros [|]; discriminate|]. intros [|]; discriminate. }
  cbn [fpieitems]. set (p := fl (IZR (fst d) / IZR tot)). set (ea := fl (sa + fl (p * 360))). cbv zeta. set (big' := if rle 50 (fl (p * 100)) then index_of d dlist else big).
  assert (D0 : (0 <= fst d)%Z) by (apply NN; now left). assert (NT : forall e, In e t -> (0 <= fst e)%Z) by (intros; apply NN; now right). pose proof (sumfst_nonneg t NT) as ST. cbn [sumfst fold_right] in SL. fold (sumfst t) in SL.
  pose proof (share (fst d) tot ltac:(lia) T) as SH. assert (PE : Rabs (p - IZR (fst d) / IZR tot) <= / 8000000000000000) by (eapply Rle_trans; [apply (fl_near _ 1); apply Rabs_le; lra|]; lra).
  assert (P0 : 0 <= p) by (apply fl_nonneg; lra). assert (SA : Rabs (IZR (fst d) / IZR tot) <= 1) by (apply Rabs_le; lra).
  assert (B360 : Rabs 360 <= 360) by (apply Rabs_le; lra). assert (B100 : Rabs 100 <= 100) by (apply Rabs_le; lra).
  pose proof (near_mul _ _ _ _ _ _ PE B360 SA) as E1. pose proof (near_mul _ _ _ _ _ _ PE B100 SA) as E2.
  assert (E1' : Rabs (fl (p * 360) - IZR (fst d) / IZR tot * 360) <= / 10000000000000). { eapply Rle_trans; [exact E1|]. assert (u * ((1 + / 8000000000000000) * 360) <= u * 400) by (apply Rmult_le_compat_l; lra). lra. }
  assert (E2' : Rabs (fl (p * 100) - 100 * IZR (fst d) / IZR tot) <= / 1000000000000). { replace (100 * IZR (fst d) / IZR tot) with (IZR (fst d) / IZR tot * 100) by (field; lra). eapply Rle_trans; [exact E2|]. assert (u * ((1 + / 8000000000000000) * 100) <= u * 400) by (apply Rmult_le_compat_l; lra). lra. }
  assert (SUM : 360 * IZR s0 / IZR tot + IZR (fst d) / IZR tot * 360 = 360 * IZR (s0 + fst d) / IZR tot) by (rewrite plus_IZR; field; lra).
  assert (SB : Rabs (360 * IZR s0 / IZR tot + IZR (fst d) / IZR tot * 360) <= 360). { rewrite SUM. pose proof (share (s0 + fst d) tot ltac:(lia) T) as S2. replace (360 * IZR (s0 + fst d) / IZR tot) with (360 * (IZR (s0 + fst d) / IZR tot)) by (field; lra). apply Rabs_le. lra. }
  cbn [length] in KL. rewrite S_INR in KL. pose proof (pos_INR (length t)) as LP.
  assert (E3 : Rabs (ea - 360 * IZR (s0 + fst d) / IZR tot) <= (k0 + 1) * / 1000000000000).
  { rewrite <- SUM. eapply Rle_trans; [apply (near_add _ _ _ _ _ _ _ ER E1' SB)|]. assert (u * (360 + k0 * / 1000000000000 + / 10000000000000) <= u * 400) by (apply Rmult_le_compat_l; lra). lra. }
  assert (LE : sa <= ea). { rewrite <- FS. apply fl_le. assert (0 <= fl (p * 360)) by (apply fl_nonneg; lra). lra. }
  specialize (IH ea big' (s0 + fst d)%Z (k0 + 1) NT ltac:(lia) ltac:(lia) (fl_fl _) ltac:(lra) ltac:(lra) E3). cbv zeta in IH.
  destruct (fpieitems dlist tot ea big' t) as [rest b] eqn:R. cbn [fst] in *. destruct IH as (L & F & C & A). split; [cbn; now rewrite L|]. split; [intros a; cbn; intros G; injection G as <-; reflexivity|]. split.
  - intros [|k] a b'; cbn [nth_error]; [intros G; injection G as <-; intros G; apply (F b' G)|]. apply C.
  - intros [|k] e; cbn [nth_error Nat.add].
    + intros G. injection G as <-. eexists. split; [reflexivity|]. cbn [pi_colour pi_amount pi_start pi_end pi_percent firstn sumfst fold_right]. rewrite Z.add_0_r. split; [reflexivity|]. split; [reflexivity|]. split; [exact LE|]. split; [exact E3|exact E2'].
    + intros G. destruct (A k e G) as (a & A1 & A2 & A3 & A4 & A5 & A6). exists a. split; [exact A1|]. split; [exact A2|]. split; [exact A3|]. split; [exact A4|]. split; [|exact A6].
      cbn [firstn sumfst fold_right]. fold (sumfst (firstn (k + 1) t)). rewrite Z.add_assoc. replace (k0 + INR (Datatypes.S (k + 1))) with (k0 + 1 + INR (k + 1)) by (rewrite S_INR; ring). exact A5.
Qed.
Lemma index_of_spec d l : In d l -> nth_error l (Z.to_nat (index_of d l)) = Some d /\ (0 <= index_of d l)%Z.
Proof.
  induction l as [|e t IH]; intros I; [contradiction|]. cbn [index_of]. destruct ((fst d =? fst e) && (snd d =? snd e))%Z eqn:E.
  - apply andb_true_iff in E. destruct E as [E1 E2]. apply Z.eqb_eq in E1, E2. destruct d, e; cbn in *; subst. split; [reflexivity|lia].
  - destruct I as [->|I]; [rewrite !Z.eqb_refl in E; discriminate|]. destruct (IH I) as [G P]. rewrite Z.add_comm, Z2Nat.inj_add by lia. rewrite Nat.add_comm. split; [exact G|lia].
Qed.
Lemma fpieitems_big dlist tot : (0 < tot <= 2 ^ 50)%Z -> forall l sa big, (forall d, In d l -> (0 <= fst d <= tot)%Z /\ In d dlist) -> let b := snd (fpieitems dlist tot sa big l) in
  (b = big /\ (forall d, In d l -> (2 * fst d < tot)%Z)) \/ (exists d, In d l /\ b = index_of d dlist /\ (tot <= 2 * fst d)%Z).
Proof.
  intros T. induction l as [|d t IH]; intros sa big H; [left; split; [reflexivity|contradiction]|]. cbn [fpieitems]. cbv zeta. destruct (H d (or_introl eq_refl)) as [D ID]. rewrite (half_share (fst d) tot D T).
  set (ea := fl (sa + fl (fl (IZR (fst d) / IZR tot) * 360))). set (big' := if (tot <=? 2 * fst d)%Z then index_of d dlist else big). specialize (IH ea big' (fun e E => H e (or_intror E))). cbv zeta in IH. destruct (fpieitems dlist tot ea big' t) as [rest b]. cbn [snd] in *. unfold big' in IH. clear big'. destruct IH as [[-> A]|(e & E1 & E2 & E3)].
  - destruct (Z.leb_spec tot (2 * fst d)) as [G|G]; [right; exists d; split; [now left|]; split; [reflexivity|exact G]|]. left. split; [reflexivity|]. intros e [<-|I]; [lia|now apply A].
  - right. exists e. split; [now right|]. split; assumption.
Qed.
(** The slices of a pie chart: each begins where the one before it ends, none ends before it begins, the angles and
    percentages are right up to a trillionth for each slice; the large slice is one with at least half of the total. *)
Theorem C140_pie : forall l, l <> [] -> (forall d, In d l -> (0 <= fst d)%Z) -> (0 < sumfst l <= 2 ^ 50)%Z -> (Z.of_nat (length l) <= 1000000)%Z ->
  exists v big, fgenpiechartdata l = Ok (v, big) /\ length v = length l /\ (forall a, nth_error v 0 = Some a -> pi_start a = 0) /\
  (forall k a b, nth_error v k = Some a -> nth_error v (Datatypes.S k) = Some b -> pi_start b = pi_end a) /\
  (forall k d, nth_error l k = Some d -> exists a, nth_error v k = Some a /\ pi_colour a = snd d /\ pi_amount a = fst d /\ pi_start a <= pi_end a /\
     Rabs (pi_end a - 360 * IZR (sumfst (firstn (k + 1) l)) / IZR (sumfst l)) <= INR (k + 1) * / 1000000000000 /\ Rabs (pi_percent a - 100 * IZR (fst d) / IZR (sumfst l)) <= / 1000000000000) /\
  ((big = (-1)%Z /\ forall d, In d l -> (2 * fst d < sumfst l)%Z) \/ ((0 <= big)%Z /\ exists d, nth_error l (Z.to_nat big) = Some d /\ (sumfst l <= 2 * fst d)%Z)).
Proof.
  intros l NE NN T L. unfold fgenpiechartdata. rewrite total_fold. destruct (fpieitems l (sumfst l) 0 (-1) l) as [v big] eqn:F. exists v, big.
  split. { destruct l as [|d t]; [congruence|]. replace (sumfst (d :: t) =? 0)%Z with false by (symmetry; apply Z.eqb_neq; lia). reflexivity. }
  assert (LR : 0 + INR (length l) <= 1000000) by (rewrite INR_IZR_INZ, Rplus_0_l; apply IZR_le; lia). assert (E0 : Rabs (0 - 360 * 0 / IZR (sumfst l)) <= 0 * / 1000000000000). { replace (0 - 360 * 0 / IZR (sumfst l)) with 0 by (field; apply not_0_IZR; lia). rewrite Rabs_R0. lra. }
  pose proof (fpieitems_spec l (sumfst l) ltac:(lia) l 0 (-1)%Z 0%Z 0 NN ltac:(lia) ltac:(lia) fl_0 ltac:(lra) LR E0) as S. cbv zeta in S. rewrite F in S. cbn [fst] in S. destruct S as (S1 & S2 & S3 & S4).
  split; [exact S1|]. split; [exact S2|]. split; [exact S3|]. split. { intros k d D. destruct (S4 k d D) as (a & A). exists a. rewrite Z.add_0_l, Rplus_0_l in A. exact A. }
  pose proof (fpieitems_big l (sumfst l) T l 0 (-1)%Z) as B. cbv zeta in B. rewrite F in B. cbn [snd] in B. destruct B as [B|(d & D1 & -> & D3)]; [|left; exact B|right].
  - intros d D. split; [split; [now apply NN|now apply sumfst_in]|exact D].
  - destruct (index_of_spec d l D1) as [G P]. split; [exact P|]. exists d. split; [exact G|exact D3].
Qed.
(** The last slice may end before 360 degrees. *)
Theorem C140_pie_refuted : exists v a, fgenpiechartdata [(1, 0); (4, 0); (2, 0)]%Z = Ok v /\ nth_error (fst v) 2 = Some a /\ pi_end a < 360.
Proof.
  pose (sa := fl (fl (0 + fl (fl (1 / 7) * 360)) + fl (fl (4 / 7) * 360))). eexists. exists (mkitem sa (fl (sa + fl (fl (2 / 7) * 360))) 0 2 (fl (fl (2 / 7) * 100))). split; [reflexivity|]. split; [reflexivity|]. cbn [pi_end]. unfold sa. clear sa.
  rewrite (ddiv_ok 1 7), (ddiv_ok 4 7), (ddiv_ok 2 7) by (vm_compute; reflexivity). rewrite !dmul_ok by (vm_compute; reflexivity). rewrite Rplus_0_l. set (a := dmul (flfind 1 7) 360). set (b := dmul (flfind 4 7) 360). set (c := dmul (flfind 2 7) 360).
  assert (FA : fl (dval a) = dval a) by (unfold a; rewrite <- dmul_ok by (vm_compute; reflexivity); apply fl_fl). rewrite FA, dadd_ok, dadd_ok by (vm_compute; (reflexivity || discriminate)).
  vm_compute in a, b, c. set (e := dadd (dadd a b) c). vm_compute in e. unfold dval, e. cbn [fst snd]. apply (Rmult_lt_reg_r (IZR (2 ^ 44))); [apply IZR_lt; reflexivity|]. unfold Rdiv. rewrite Rmult_assoc, Rinv_l, Rmult_1_r by (apply not_0_IZR; discriminate). rewrite <- mult_IZR. apply IZR_lt. vm_compute. reflexivity.
Qed.
Example C140_ex : (forblum 21 15 = 153 /\ fgradbase 10 200 3 7 = 91 /\ byte 255 /\ sumfst [(1, 0); (4, 0); (2, 0)] = 7 /\ rtrunc (fdist (3, 1) (0, -3)) = 5)%Z /\ 0 <= / 4 <= 1.
Proof.
  split; [|lra]. split; [exact (proj1 (C140_orb 21 15 ltac:(split; reflexivity) ltac:(reflexivity) ltac:(lia)))|].
  split; [exact (proj1 (C140_gradient 10 200 3 7 ltac:(red; lia) ltac:(red; lia) ltac:(lia) ltac:(lia)))|]. split; [red; lia|]. split; [reflexivity|].
  pose proof (C140_distance (3, 1)%Z (0, -3)%Z 5 ltac:(cbn; lia) ltac:(lia)) as H. cbv zeta in H. destruct H as (_ & _ & _ & H & _). exact H.
Qed.

Print Assumptions C140_gradient.
Print Assumptions C140_lerp.
Print Assumptions C140_lerp_refuted.
Print Assumptions C140_orb.
Print Assumptions C140_interpolate.
Print Assumptions C140_rows.
Print Assumptions C140_distance.
Print Assumptions C140_pie.
Print Assumptions C140_pie_refuted.
