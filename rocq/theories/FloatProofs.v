(** Facts about the rounding of floats. *)
From Coq Require Import ZArith QArith Qreals Reals Lia Lra Bool.
From Flocq Require Import Core Relative.
From Verif Require Import PyBase Bmp Buffers Exact Colours Coords RealProofs Floats.
Open Scope R_scope.

Notation fexp := (FLT_exp (-1074) 53).
#[global] Instance prec53 : Prec_gt_0 53.
Proof. reflexivity. Qed.
#[global] Instance valid53 : Valid_exp fexp.
Proof. apply FLT_exp_valid, prec53. Qed.
Lemma fl_le x y : x <= y -> fl x <= fl y.
Proof. apply round_le; typeclasses eauto. Qed.
Lemma fl_format x : generic_format radix2 fexp x -> fl x = x.
Proof. apply round_generic; typeclasses eauto. Qed.
(** m * 2^e *)
Lemma fl_exact m e : (Z.abs m <= 2 ^ 53)%Z -> (-1074 <= e)%Z -> fl (IZR m * bpow radix2 e) = IZR m * bpow radix2 e.
Proof.
  intros M E. apply fl_format. destruct (Z.eq_dec (Z.abs m) (2 ^ 53)) as [H|H].
  - assert (G : generic_format radix2 fexp (bpow radix2 (53 + e))) by (apply generic_format_FLT_bpow; [apply prec53|lia]).
    rewrite bpow_plus in G. change (bpow radix2 53) with (IZR (2 ^ 53)) in G. assert (C : m = (2 ^ 53)%Z \/ m = (- 2 ^ 53)%Z) by lia. destruct C as [-> | ->]; [exact G|].
    rewrite opp_IZR, Ropp_mult_distr_l_reverse. now apply generic_format_opp.
  - apply generic_format_FLT. exists (Float radix2 m e); cbn [Fnum Fexp]; [reflexivity|change (radix_val radix2 ^ 53)%Z with (2 ^ 53)%Z; lia|exact E].
Qed.
Lemma fl_Z n : (Z.abs n <= 2 ^ 53)%Z -> fl (IZR n) = IZR n.
Proof. intros H. rewrite <- (Rmult_1_r (IZR n)). change 1 with (bpow radix2 0). apply fl_exact; lia. Qed.
Lemma fl_half n : (Z.abs n <= 2 ^ 53)%Z -> fl (IZR n / 2) = IZR n / 2.
Proof. intros H. change (IZR n / 2) with (IZR n * bpow radix2 (-1)). apply fl_exact; lia. Qed.
Lemma fl_0 : fl 0 = 0.
Proof. apply (fl_Z 0). lia. Qed.
Lemma fl_1 : fl 1 = 1.
Proof. apply (fl_Z 1). lia. Qed.
Lemma fl_opp x : fl (- x) = - fl x.
Proof. apply round_NE_opp. Qed.
(** 2^-53 *)
Definition u : R := / IZR (2 ^ 53).
Definition eta : R := / IZR (2 ^ 60).
Lemma u_pos : 0 < u < / 9000000000000000.
Proof. unfold u. split; [apply Rinv_0_lt_compat, IZR_lt; lia|]. apply Rinv_lt_contravar; [apply Rmult_lt_0_compat; apply IZR_lt; lia|apply IZR_lt; lia]. Qed.
Lemma eta_pos : 0 < eta < / 1000000000000000000.
Proof. unfold eta. split; [apply Rinv_0_lt_compat, IZR_lt; lia|]. apply Rinv_lt_contravar; [apply Rmult_lt_0_compat; apply IZR_lt; lia|apply IZR_lt; lia]. Qed.
Lemma fl_err x : Rabs (fl x - x) <= u * Rabs x + eta.
Proof.
  destruct (Rle_or_lt (bpow radix2 (-1074 + 53 - 1)) (Rabs x)) as [H|H].
  - pose proof (relative_error_N_FLT radix2 (-1074) 53 eq_refl (fun t => negb (Z.even t)) x H) as E.
    replace (/ 2 * bpow radix2 (- (53) + 1)) with u in E. 2:{ unfold u. change (bpow radix2 (- (53) + 1)) with (/ IZR (2 ^ 52)). change (2 ^ 53)%Z with (2 * 2 ^ 52)%Z. rewrite mult_IZR. field. apply not_0_IZR. lia. }
    pose proof eta_pos. unfold fl. change (Znearest (fun t => negb (Z.even t))) with ZnearestE in E. lra.
  - (* tiny numbers *) assert (T : Rabs (fl x) <= bpow radix2 (-1022)).
    { apply Rabs_le. apply Rabs_def2 in H. change (-1074 + 53 - 1)%Z with (-1022)%Z in H. assert (F : fl (bpow radix2 (-1022)) = bpow radix2 (-1022)) by (apply fl_format, generic_format_FLT_bpow; [apply prec53|lia]).
      split; [rewrite <- F, <- fl_opp|rewrite <- F]; apply fl_le; lra. }
    change (-1074 + 53 - 1)%Z with (-1022)%Z in H. assert (B : 2 * bpow radix2 (-1022) <= eta).
    { change 2 with (bpow radix2 1). rewrite <- bpow_plus. change eta with (bpow radix2 (-60)). apply bpow_le. lia. }
    pose proof u_pos. pose proof (Rabs_pos x). assert (0 <= u * Rabs x) by (apply Rmult_le_pos; lra). unfold Rminus. eapply Rle_trans; [apply Rabs_triang|]. rewrite Rabs_Ropp. lra.
Qed.
Lemma fl_near x b : Rabs x <= b -> Rabs (fl x - x) <= u * b + eta.
Proof. intros H. pose proof (fl_err x). pose proof u_pos. assert (u * Rabs x <= u * b) by (apply Rmult_le_compat_l; lra). lra. Qed.
Lemma fl_nonneg x : 0 <= x -> 0 <= fl x.
Proof. intros H. rewrite <- fl_0. now apply fl_le. Qed.

(** ** Computation of floats: p / q rounds to m / 2^k *)
Definition flcheck (p q m k : Z) : bool :=
  ((0 <? q) && (0 <=? k) && (k <=? 1074) && (q * 2 ^ 52 <=? p * 2 ^ k) && (p * 2 ^ k <? q * 2 ^ 53) &&
  ((2 * Z.abs (p * 2 ^ k - m * q) <? q) || ((2 * Z.abs (p * 2 ^ k - m * q) =? q) && Z.even m)))%Z.
Lemma nearest_rround x : ZnearestE x = rround x.
Proof.
  destruct (Rlt_or_le (Rabs (x - IZR (ZnearestE x))) (/ 2)) as [H|H]; [symmetry; apply rround_unique; lra|].
  destruct (Rlt_or_le (Rabs (x - IZR (rround x))) (/ 2)) as [H'|H']; [apply Znearest_imp; exact H'|].
  pose proof (Znearest_half (fun t => negb (Z.even t)) x) as A. pose proof (rround_near x) as B.
  assert (E : Z.even (rround x) = true) by (apply rround_even; lra).
  unfold ZnearestE, Znearest in *. pose proof (Zfloor_lb x) as FL. pose proof (Zfloor_ub x) as FU. destruct (Rcompare_spec (x - IZR (Zfloor x)) (/ 2)) as [C|C|C].
  - rewrite Rabs_pos_eq in H by lra. lra.
  - assert (NI : Zceil x = (Zfloor x + 1)%Z) by (apply Zceil_floor_neq; lra).
    assert (R : rround x = Zfloor x \/ rround x = (Zfloor x + 1)%Z).
    { apply Rabs_le_inv in B. assert (rround x < Zfloor x + 2)%Z by (apply lt_IZR; rewrite plus_IZR; lra). assert (Zfloor x - 1 < rround x)%Z by (apply lt_IZR; rewrite minus_IZR; lra). lia. }
    destruct (Z.even (Zfloor x)) eqn:F; cbn [negb]; destruct R as [R|R]; rewrite R in *; try lia; try congruence.
    rewrite Z.even_add, F in E. discriminate.
  - assert (NI : Zceil x = (Zfloor x + 1)%Z) by (apply Zceil_floor_neq; lra). rewrite NI in H. rewrite plus_IZR in H. rewrite Rabs_left1 in H by lra. lra.
Qed.
Lemma flcheck_ok p q m k : flcheck p q m k = true -> fl (IZR p / IZR q) = IZR m / IZR (2 ^ k).
Proof.
  unfold flcheck. rewrite !andb_true_iff. intros (((((Q & K0) & K1) & L) & U) & N). apply Z.ltb_lt in Q, U. apply Z.leb_le in K0, K1, L.
  set (x := IZR p / IZR q). assert (Q0 : 0 < IZR q) by now apply IZR_lt. assert (P2 : (0 < 2 ^ k)%Z) by (apply Z.pow_pos_nonneg; lia). assert (P0 : 0 < IZR (2 ^ k)) by now apply IZR_lt.
  assert (B : bpow radix2 (- k) = / IZR (2 ^ k)) by (rewrite bpow_opp, <- IZR_Zpower by lia; reflexivity).
  assert (X : x * IZR (2 ^ k) = IZR (p * 2 ^ k) / IZR q) by (unfold x; rewrite mult_IZR; field; lra).
  assert (XL : IZR (2 ^ 52) <= x * IZR (2 ^ k)). { rewrite X. apply (Rmult_le_reg_r (IZR q)); [exact Q0|]. unfold Rdiv. rewrite Rmult_assoc, Rinv_l, Rmult_1_r by lra. rewrite <- mult_IZR. apply IZR_le. lia. }
  assert (XU : x * IZR (2 ^ k) < IZR (2 ^ 53)). { rewrite X. apply (Rmult_lt_reg_r (IZR q)); [exact Q0|]. unfold Rdiv. rewrite Rmult_assoc, Rinv_l, Rmult_1_r by lra. rewrite <- mult_IZR. apply IZR_lt. lia. }
  assert (XE : x = x * IZR (2 ^ k) * / IZR (2 ^ k)) by (field; lra). assert (I0 : 0 < / IZR (2 ^ k)) by now apply Rinv_0_lt_compat.
  assert (X0 : 0 < x). { rewrite XE. apply Rmult_lt_0_compat; [|exact I0]. assert (0 < IZR (2 ^ 52)) by (apply IZR_lt; lia). lra. }
  assert (MG : mag radix2 x = (53 - k)%Z :> Z).
  { apply mag_unique. rewrite Rabs_pos_eq by lra. replace (53 - k - 1)%Z with (52 + - k)%Z by ring. replace (53 - k)%Z with (53 + - k)%Z by ring. rewrite !bpow_plus, B. change (bpow radix2 52) with (IZR (2 ^ 52)). change (bpow radix2 53) with (IZR (2 ^ 53)).
    rewrite XE. split; [apply Rmult_le_compat_r; lra|apply Rmult_lt_compat_r; lra]. }
  unfold fl, round, F2R, scaled_mantissa, cexp. cbn [Fnum Fexp]. rewrite MG. replace (fexp (53 - k)) with (- k)%Z by (unfold FLT_exp; lia). rewrite Z.opp_involutive, B. unfold Rdiv. f_equal. f_equal.
  rewrite nearest_rround. replace (bpow radix2 k) with (IZR (2 ^ k)) by (rewrite <- IZR_Zpower by lia; reflexivity).
  assert (D : x * IZR (2 ^ k) - IZR m = IZR (p * 2 ^ k - m * q) / IZR q) by (rewrite X, minus_IZR, !mult_IZR; field; lra).
  assert (DA : Rabs (x * IZR (2 ^ k) - IZR m) = IZR (Z.abs (p * 2 ^ k - m * q)) / IZR q) by (rewrite D; unfold Rdiv; rewrite Rabs_mult, abs_IZR, (Rabs_pos_eq (/ IZR q)); [reflexivity|apply Rlt_le, Rinv_0_lt_compat; exact Q0]).
  apply orb_true_iff in N. destruct N as [N|N].
  - apply rround_unique. rewrite DA. apply Z.ltb_lt in N. apply (Rmult_lt_reg_r (IZR q)); [exact Q0|]. unfold Rdiv. rewrite Rmult_assoc, Rinv_l, Rmult_1_r by lra. apply IZR_lt in N. rewrite mult_IZR in N. lra.
  - apply andb_true_iff in N. destruct N as [N EV]. apply Z.eqb_eq in N.
    assert (H : Rabs (x * IZR (2 ^ k) - IZR m) = 1 / 2). { rewrite DA. apply (Rmult_eq_reg_r (IZR q)); [|lra]. unfold Rdiv. rewrite Rmult_assoc, Rinv_l, Rmult_1_r by lra. rewrite <- N at 2. rewrite mult_IZR. lra. }
    clear - H EV. set (y := x * IZR (2 ^ k)) in *. pose proof (rround_near y) as R. pose proof (rround_even y) as RE.
    destruct (Req_dec (Rabs (y - IZR (rround y))) (1 / 2)) as [T|T].
    + specialize (RE T). destruct (Z.eq_dec (rround y) m) as [|NE]; [assumption|exfalso].
      assert (rround y = m + 1 \/ rround y = m - 1)%Z as C.
      { unfold Rabs in H, T. destruct (Rcase_abs (y - IZR m)), (Rcase_abs (y - IZR (rround y))); try (exfalso; apply NE, eq_IZR; lra); [right|left]; apply eq_IZR; rewrite ?plus_IZR, ?minus_IZR; lra. }
      destruct C as [C|C]; rewrite C in RE; [rewrite Z.even_add, EV in RE|rewrite Z.even_sub, EV in RE]; discriminate.
    + exfalso. assert (L : Rabs (y - IZR (rround y)) < 1 / 2) by lra. apply Rabs_def2 in L.
      unfold Rabs in H. destruct (Rcase_abs (y - IZR m)).
      * assert (rround y < m)%Z by (apply lt_IZR; lra). assert (m - 1 < rround y)%Z by (apply lt_IZR; rewrite minus_IZR; lra). lia.
      * assert (rround y < m + 1)%Z by (apply lt_IZR; rewrite plus_IZR; lra). assert (m < rround y)%Z by (apply lt_IZR; lra). lia.
Qed.
(** m and k for a positive fraction p / q *)
Definition flfind (p q : Z) : Z * Z :=
  (let k0 := 52 - (Z.log2 p - Z.log2 q) in
   let k := if p * 2 ^ k0 <? q * 2 ^ 52 then k0 + 1 else k0 in
   let n := p * 2 ^ k in
   let f := n / q in
   let d := 2 * (n - f * q) in
   (if (q <? d) || ((d =? q) && Z.odd f) then f + 1 else f, k))%Z.
(** int(fl(fl(a / b) * c)) of positive integers by computation *)
Definition threshcompute (a b c : Z) : option Z :=
  (let (m, k) := flfind a b in
   let (m', k') := flfind (m * c) (2 ^ k) in
   if flcheck a b m k && flcheck (m * c) (2 ^ k) m' k' then Some (m' / 2 ^ k') else None)%Z.
Lemma threshcompute_ok a b c z : threshcompute a b c = Some z -> (0 <= c)%Z -> rtrunc (fl (fl (IZR a / IZR b) * IZR c)) = z.
Proof.
  unfold threshcompute. destruct (flfind a b) as [m k]. destruct (flfind (m * c) (2 ^ k)) as [m' k']. destruct (flcheck a b m k && flcheck (m * c) (2 ^ k) m' k') eqn:E; [|discriminate]. intros H _. injection H as <-.
  apply andb_true_iff in E. destruct E as [E F]. rewrite (flcheck_ok _ _ _ _ E). replace (IZR m / IZR (2 ^ k) * IZR c) with (IZR (m * c) / IZR (2 ^ k)) by (rewrite mult_IZR; unfold Rdiv; ring). rewrite (flcheck_ok _ _ _ _ F).
  unfold flcheck in F. rewrite !andb_true_iff in F. destruct F as (((((F1 & F2) & F3) & F4) & F5) & F6). apply Z.ltb_lt in F1, F5. apply Z.leb_le in F2, F3, F4.
  assert (P : (0 < 2 ^ k')%Z) by (apply Z.pow_pos_nonneg; lia). assert (P0 : 0 < IZR (2 ^ k')) by now apply IZR_lt.
  assert (M0 : (0 <= m')%Z). { destruct (Z.le_gt_cases 0 m') as [|N]; [assumption|]. exfalso. apply orb_true_iff in F6. rewrite andb_true_iff, Z.ltb_lt, Z.eqb_eq in F6. nia. }
  pose proof (Z.div_mod m' (2 ^ k') ltac:(lia)) as D. pose proof (Z.mod_pos_bound m' (2 ^ k') P) as B.
  unfold rtrunc. rewrite (proj2 (rlt_no _ _)) by (apply Rmult_le_pos; [apply IZR_le; lia|apply Rlt_le, Rinv_0_lt_compat, P0]). apply int_unique.
  split; [apply (Rmult_le_reg_r (IZR (2 ^ k')))|apply (Rmult_lt_reg_r (IZR (2 ^ k')))]; try exact P0; replace (IZR m' / IZR (2 ^ k') * IZR (2 ^ k')) with (IZR m') by (field; lra); rewrite <- ?plus_IZR, <- mult_IZR; [apply IZR_le|apply IZR_lt]; nia.
Qed.
Lemma fl_fl x : fl (fl x) = fl x.
Proof. apply fl_format, generic_format_round; typeclasses eauto. Qed.
(** ** Floats m / 2^k by computation *)
Definition dval (d : Z * Z) : R := IZR (fst d) / IZR (2 ^ snd d).
Definition dmul (d : Z * Z) (c : Z) : Z * Z := flfind (fst d * c) (2 ^ snd d).
Definition dadd (d e : Z * Z) : Z * Z := flfind (fst d * 2 ^ snd e + fst e * 2 ^ snd d) (2 ^ snd d * 2 ^ snd e).
Lemma ddiv_ok a b : flcheck a b (fst (flfind a b)) (snd (flfind a b)) = true -> fl (IZR a / IZR b) = dval (flfind a b).
Proof. apply flcheck_ok. Qed.
Lemma dmul_ok d c : flcheck (fst d * c) (2 ^ snd d) (fst (dmul d c)) (snd (dmul d c)) = true -> fl (dval d * IZR c) = dval (dmul d c).
Proof. intros H. refine (eq_trans _ (ddiv_ok _ _ H)). f_equal. unfold dval. rewrite mult_IZR. unfold Rdiv. ring. Qed.
Lemma dadd_ok d e : (0 <= snd d)%Z -> (0 <= snd e)%Z -> flcheck (fst d * 2 ^ snd e + fst e * 2 ^ snd d) (2 ^ snd d * 2 ^ snd e) (fst (dadd d e)) (snd (dadd d e)) = true -> fl (dval d + dval e) = dval (dadd d e).
Proof.
  intros D E H. refine (eq_trans _ (ddiv_ok _ _ H)). f_equal. unfold dval. rewrite plus_IZR, !mult_IZR. field. split; apply not_0_IZR, Z.pow_nonzero; lia.
Qed.
