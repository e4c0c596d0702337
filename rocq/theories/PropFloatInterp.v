(** Property C147: interpolation with the rounding of floats. *)
From Coq Require Import ZArith Reals List Lia Lra Bool Psatz.
From Flocq Require Import Core Sterbenz.
From Verif Require Import PyBase Bmp MathLib Coords RealProofs Floats FloatProofs PropFloats PropFloats3 FloatEscape PropFloatEscape FloatSweeps PropFloatSweeps FloatInterp.
Import ListNotations.
Open Scope R_scope.

(** ** Linear interpolation *)
Theorem C147_lerp_ends : forall a b, fl a = a -> fl b = b -> flerp a b 0 = a /\ flerp a b 1 = b.
Proof.
  intros a b A B. unfold flerp. split.
  - rewrite Rminus_0_r, fl_1, Rmult_1_l, Rmult_0_l, fl_0, Rplus_0_r, A. exact A.
  - replace (1 - 1) with 0 by ring. rewrite fl_0, Rmult_0_l, fl_0, Rplus_0_l, Rmult_1_l, B. exact B.
Qed.
Lemma flerp_near a b f g d B : Rabs a <= B -> Rabs b <= B -> -1 / 100 <= f <= 1 + 1 / 100 -> fl g = g -> Rabs (g - f) <= d -> d <= 1 / 100 ->
  Rabs (flerp a b g - ((1 - f) * a + f * b)) <= 2 * (d * B) + 6 * (u * B) + 3 * eta.
Proof.
  intros A B' F FG G D. assert (B0 : 0 <= B) by (pose proof (Rabs_pos a); lra). assert (D0 : 0 <= d) by (pose proof (Rabs_pos (g - f)); lra). destruct consts as (U & E & _). pose proof (Rabs_le_inv _ _ G) as G'.
  assert (N1 : Rabs (fl (1 - g) - (1 - f)) <= d + u * 1.02).
  { pose proof (sum_err 1 (- g) fl_1 ltac:(rewrite fl_opp; now rewrite FG)) as N. change (1 + - g) with (1 - g) in N. assert (Q : Rabs (1 - g) <= 1.02) by (apply Rabs_le; lra). assert (u * Rabs (1 - g) <= u * 1.02) by (apply Rmult_le_compat_l; lra).
    apply Rabs_le_inv in N. apply Rabs_le. lra. }
  assert (UB : 0 <= u * B) by (apply Rmult_le_pos; lra). assert (DB : 0 <= d * B) by (apply Rmult_le_pos; lra). assert (UB' : u * B <= B * / 9000000000000000) by (rewrite Rmult_comm; apply Rmult_le_compat_l; lra).
  assert (DB' : d * B <= B / 100) by (apply Rle_trans with (1 / 100 * B); [apply Rmult_le_compat_r; lra|lra]). assert (UDB : 0 <= u * (d * B) <= u * B / 100) by (split; [apply Rmult_le_pos; lra|]; replace (u * B / 100) with (u * (B / 100)) by field; apply Rmult_le_compat_l; lra). assert (UUB : 0 <= u * (u * B) <= u * B / 1000) by (split; [apply Rmult_le_pos; lra|]; replace (u * B / 1000) with (/ 1000 * (u * B)) by field; apply Rmult_le_compat_r; lra). assert (UE : 0 <= u * eta <= eta / 1000) by (split; [apply Rmult_le_pos; lra|]; replace (eta / 1000) with (/ 1000 * eta) by field; apply Rmult_le_compat_r; lra).
  pose proof (near_mul (1 - f) (fl (1 - g)) a _ B 1.01 N1 A ltac:(apply Rabs_le; lra)) as M1. pose proof (near_mul f g b _ B 1.01 G B' ltac:(apply Rabs_le; lra)) as M2.
  assert (M1' : Rabs (fl (fl (1 - g) * a) - (1 - f) * a) <= d * B + 2.1 * (u * B) + eta) by (eapply Rle_trans; [exact M1|]; nra). assert (M2' : Rabs (fl (g * b) - f * b) <= d * B + 1.1 * (u * B) + eta) by (eapply Rle_trans; [exact M2|]; nra). clear M1 M2 N1.
  set (p := fl (fl (1 - g) * a)) in *. set (q := fl (g * b)) in *. assert (S : Rabs ((1 - f) * a + f * b) <= 1.03 * B).
  { apply Rabs_le_inv in A, B'. apply Rabs_le. split; nra. }
  pose proof (sum_err p q ltac:(apply fl_fl) ltac:(apply fl_fl)) as N. apply Rabs_le_inv in M1', M2', S. assert (PQ : Rabs (p + q) <= 1.06 * B + 4 * (u * B) + 2 * eta) by (apply Rabs_le; lra).
  assert (UPQ : u * Rabs (p + q) <= u * (1.06 * B + 4 * (u * B) + 2 * eta)) by (apply Rmult_le_compat_l; lra). unfold flerp. fold p q. apply Rabs_le_inv in N. apply Rabs_le. split; lra.
Qed.
(** For f between 0 and 1 the result grows with both ends and is off by a few units in the last place of the larger end. *)
Theorem C147_lerp : forall a b f B, Rabs a <= B -> Rabs b <= B -> 0 <= f <= 1 -> fl f = f ->
  Rabs (flerp a b f - ((1 - f) * a + f * b)) <= 6 * B / IZR (2 ^ 53) + 3 / IZR (2 ^ 60) /\
  (forall a' b', a <= a' -> b <= b' -> flerp a b f <= flerp a' b' f).
Proof.
  intros a b f B A B' F G. split.
  - pose proof (flerp_near a b f f 0 B A B' ltac:(lra) G (abs0 f) ltac:(lra)) as N. unfold u, eta in N. eapply Rle_trans; [exact N|]. apply Req_le. field. split; apply not_0_IZR; lia.
  - intros a' b' La Lb. unfold flerp. apply fl_le, Rplus_le_compat; apply fl_le, Rmult_le_compat_l; try lra. apply fl_nonneg. lra.
Qed.
(** Rounded to an integer it stays between integer ends. *)
Lemma between a b f : (a <= b)%Z -> 0 <= f <= 1 -> IZR a <= (1 - f) * IZR a + f * IZR b <= IZR b.
Proof. intros L F. apply IZR_le in L. nra. Qed.
Lemma round_within x lo hi : IZR lo - 1 / 2 < x -> x < IZR hi + 1 / 2 -> (lo <= rround x <= hi)%Z.
Proof. intros L H. pose proof (rround_near x) as N. apply Rabs_le_inv in N. split; apply Z.lt_succ_r, lt_IZR; rewrite succ_IZR; lra. Qed.
Lemma within a b f x : 0 <= f <= 1 -> Rabs (x - ((1 - f) * IZR a + f * IZR b)) <= 1 / 4 -> (Z.min a b <= rround x <= Z.max a b)%Z.
Proof.
  intros F N. apply Rabs_le_inv in N. destruct (Z.le_ge_cases a b) as [L|L].
  - rewrite Z.min_l, Z.max_r by exact L. pose proof (between a b f L F). apply round_within; lra.
  - rewrite Z.min_r, Z.max_l by exact L. pose proof (between b a (1 - f) L ltac:(lra)). apply round_within; lra.
Qed.
Lemma size_R a k : (Z.abs a <= k)%Z -> Rabs (IZR a) <= IZR k.
Proof. intros H. rewrite <- abs_IZR. now apply IZR_le. Qed.
Lemma u47 : u * IZR (2 ^ 47) = 1 / 64.
Proof. unfold u. change (2 ^ 53)%Z with (64 * 2 ^ 47)%Z. rewrite mult_IZR. field. apply not_0_IZR. lia. Qed.
Theorem C147_lerp_between : forall a b f, (Z.abs a <= 2 ^ 47)%Z -> (Z.abs b <= 2 ^ 47)%Z -> 0 <= f <= 1 -> fl f = f ->
  (Z.min a b <= rround (flerp (IZR a) (IZR b) f) <= Z.max a b)%Z.
Proof.
  intros a b f A B F G. apply (within a b f _ F). eapply Rle_trans; [apply (flerp_near _ _ f f 0 _ (size_R a _ A) (size_R b _ B) ltac:(lra) G (abs0 f)); lra|]. rewrite u47. destruct consts as (_ & E & _). lra.
Qed.

(** ** The fraction of the way from a to b *)
Lemma sub_err x y : fl x = x -> fl y = y -> Rabs (fl (x - y) - (x - y)) <= u * Rabs (x - y).
Proof. intros X Y. apply sum_err; [exact X|]. now rewrite fl_opp, Y. Qed.
Lemma sub_zero x y : fl x = x -> fl y = y -> fl (x - y) = 0 -> x = y.
Proof. intros X Y Z. pose proof (sub_err x y X Y) as N. rewrite Z, Rminus_0_l, Rabs_Ropp in N. destruct consts as (U & _ & _). pose proof (Rabs_pos (x - y)) as P. destruct (Req_dec (x - y) 0) as [H|H]; [lra|]. apply Rabs_pos_lt in H. nra. Qed.
Lemma finvlerp_run a b v : fl a = a -> fl b = b -> a <> b -> finvlerp a b v = fl (fl (v - a) / fl (b - a)).
Proof. intros A B N. unfold finvlerp. rewrite (proj2 (req_no _ _)); [reflexivity|]. intros H. apply N. symmetry. now apply sub_zero. Qed.
Lemma finvlerp_fl a b v : fl (finvlerp a b v) = finvlerp a b v.
Proof. unfold finvlerp. destruct (negb _); [apply fl_fl|apply fl_1]. Qed.
Definition inside (a b v : R) : Prop := a <= v <= b \/ b <= v <= a.
Lemma finvlerp_opp a b v : finvlerp (- a) (- b) (- v) = finvlerp a b v.
Proof.
  unfold finvlerp. replace (- b - - a) with (- (b - a)) by ring. replace (- v - - a) with (- (v - a)) by ring. rewrite !fl_opp. destruct (req (fl (b - a)) 0) eqn:E.
  - apply req_iff in E. rewrite (proj2 (req_iff _ _)) by lra. reflexivity.
  - apply req_no in E. rewrite (proj2 (req_no _ _)) by lra. cbn [negb]. f_equal. field. exact E.
Qed.
Lemma fl_sub_pos a b : fl a = a -> fl b = b -> a < b -> 0 < fl (b - a).
Proof. intros A B L. destruct (fl_nonneg (b - a) ltac:(lra)) as [P|P]; [exact P|]. exfalso. symmetry in P. apply sub_zero in P; (assumption || lra). Qed.
Theorem C147_invlerp : forall a b v, fl a = a -> fl b = b -> fl v = v ->
  finvlerp a a v = 1 /\
  (a <> b -> finvlerp a b a = 0 /\ finvlerp a b b = 1 /\
    (inside a b v -> 0 <= finvlerp a b v <= 1 /\ Rabs (finvlerp a b v - (v - a) / (b - a)) <= 5 / IZR (2 ^ 53)) /\
    (forall w, a < b /\ v <= w \/ b < a /\ w <= v -> finvlerp a b v <= finvlerp a b w)).
Proof.
  intros a b v A B V. split; [unfold finvlerp; rewrite Rminus_diag_eq by reflexivity; rewrite fl_0, (proj2 (req_iff _ _)) by reflexivity; reflexivity|]. intros NE.
  split; [rewrite finvlerp_run by assumption; rewrite (Rminus_diag_eq a a) by reflexivity; rewrite fl_0; unfold Rdiv; rewrite Rmult_0_l; apply fl_0|].
  split; [rewrite finvlerp_run by assumption; unfold Rdiv; rewrite Rinv_r; [apply fl_1|]; intros H; apply NE; symmetry; now apply sub_zero|].
  assert (MON : forall a b v w, fl a = a -> fl b = b -> a < b -> v <= w -> finvlerp a b v <= finvlerp a b w).
  { clear. intros a b v w A B L W. rewrite !finvlerp_run by (assumption || lra). pose proof (fl_sub_pos a b A B L) as P. apply fl_le. unfold Rdiv. apply Rmult_le_compat_r; [apply Rlt_le, Rinv_0_lt_compat, P|]. apply fl_le. lra. }
  assert (INS : forall a b v, fl a = a -> fl b = b -> fl v = v -> a < b -> a <= v <= b -> 0 <= finvlerp a b v <= 1 /\ Rabs (finvlerp a b v - (v - a) / (b - a)) <= 5 / IZR (2 ^ 53)).
  { clear. intros a b v A B V L I. rewrite finvlerp_run by (assumption || lra). pose proof (fl_sub_pos a b A B L) as P. set (D := fl (b - a)) in *. assert (X0 : 0 <= fl (v - a)) by (apply fl_nonneg; lra). assert (XD : fl (v - a) <= D) by (apply fl_le; lra).
    assert (Q : 0 <= fl (v - a) / D <= 1). { split; [apply Rmult_le_pos; [exact X0|apply Rlt_le, Rinv_0_lt_compat, P]|]. apply Rmult_le_reg_r with D; [exact P|]. unfold Rdiv. rewrite Rmult_assoc, Rinv_l by lra. lra. }
    split; [split; [apply fl_nonneg; lra|apply Rle_trans with (fl 1); [apply fl_le; lra|rewrite fl_1; lra]]|].
    pose proof (sub_err v a V A) as E1. pose proof (sub_err b a B A) as E2. fold D in E2. rewrite (Rabs_pos_eq (v - a)) in E1 by lra. rewrite (Rabs_pos_eq (b - a)) in E2 by lra. set (x := v - a) in *. set (y := b - a) in *. set (X := fl x) in *. destruct consts as (U & E & _).
    assert (Y0 : 0 < y) by (unfold y; lra). assert (XY : 0 <= x <= y) by (unfold x, y; lra). apply Rabs_le_inv in E1, E2. set (q := X / D) in *. assert (XQ : X = q * D) by (unfold q; field; lra).
    assert (QT : Rabs (q - x / y) <= 2 * u).
    { assert (ET : q - x / y = ((X - x) - q * (D - y)) / y) by (rewrite XQ; field; lra). rewrite ET. unfold Rdiv. rewrite Rabs_mult, (Rabs_pos_eq (/ y)) by (apply Rlt_le, Rinv_0_lt_compat, Y0). apply Rmult_le_reg_r with y; [exact Y0|]. rewrite Rmult_assoc, Rinv_l, Rmult_1_r by lra.
      assert (u * x <= u * y) by (apply Rmult_le_compat_l; lra). assert (0 <= u * y) by (apply Rmult_le_pos; lra). apply Rabs_le. split; nra. }
    assert (N := fl_near q 1 ltac:(apply Rabs_le; lra)). assert (EU : eta <= u) by (unfold eta, u; lra). unfold Rdiv. fold u. apply Rabs_le_inv in QT, N. fold (x / y). apply Rabs_le. lra. }
  destruct (Rtotal_order a b) as [L|[L|L]]; [|contradiction|].
  - split; [intros [I|I]; [now apply INS|lra]|]. intros w [(_ & W)|(W & _)]; [now apply MON|lra].
  - assert (OP : forall x, fl x = x -> fl (- x) = - x) by (intros x X; now rewrite fl_opp, X). split.
    + intros [I|I]; [lra|]. rewrite <- finvlerp_opp. replace ((v - a) / (b - a)) with ((- v - - a) / (- b - - a)) by (field; lra). apply INS; try (now apply OP); lra.
    + intros w [(W & _)|(_ & W)]; [lra|]. rewrite <- (finvlerp_opp a b v), <- (finvlerp_opp a b w). apply MON; try (now apply OP); lra.
Qed.
Lemma ratio x y : 0 < y -> 0 <= x <= y -> 0 <= x / y <= 1.
Proof. intros Y X. split; [apply Rmult_le_pos; [lra|apply Rlt_le, Rinv_0_lt_compat, Y]|]. apply Rmult_le_reg_r with y; [exact Y|]. unfold Rdiv. rewrite Rmult_assoc, Rinv_l by lra. lra. Qed.
(** lerp undoes it for integers *)
Theorem C147_round_trip : forall a b v, (Z.abs a <= 2 ^ 47)%Z -> (Z.abs b <= 2 ^ 47)%Z -> a <> b -> (a <= v <= b \/ b <= v <= a)%Z ->
  rround (flerp (IZR a) (IZR b) (finvlerp (IZR a) (IZR b) (IZR v))) = v.
Proof.
  intros a b v A B NE I. assert (NR : IZR a <> IZR b) by (intros H; apply NE; now apply eq_IZR). assert (IR : inside (IZR a) (IZR b) (IZR v)) by (destruct I as [I|I]; [left|right]; split; apply IZR_le; lia).
  destruct (C147_invlerp (IZR a) (IZR b) (IZR v) (fl_Z a ltac:(lia)) (fl_Z b ltac:(lia)) (fl_Z v ltac:(lia))) as (_ & K). destruct (K NR) as (_ & _ & K' & _). destruct (K' IR) as (R & N). clear K K'.
  set (t := (IZR v - IZR a) / (IZR b - IZR a)) in *. assert (T : 0 <= t <= 1).
  { unfold t. destruct IR as [IR|IR]; [|replace ((IZR v - IZR a) / (IZR b - IZR a)) with ((IZR a - IZR v) / (IZR a - IZR b)) by (field; lra)]; apply ratio; lra. }
  unfold Rdiv in N. fold u in N. destruct consts as (U & E & _). pose proof (flerp_near (IZR a) (IZR b) t _ _ _ (size_R a _ A) (size_R b _ B) ltac:(lra) (finvlerp_fl _ _ _) N ltac:(lra)) as M.
  apply rround_unique. assert (EV : (1 - t) * IZR a + t * IZR b = IZR v) by (unfold t; field; lra). rewrite EV in M. eapply Rle_lt_trans; [exact M|]. replace (5 * u * IZR (2 ^ 47)) with (5 * (u * IZR (2 ^ 47))) by ring. rewrite u47. lra.
Qed.

(** ** Smooth steps *)
Lemma half_up : fl (1 + u) = 1.
Proof. unfold u. replace (1 + / IZR (2 ^ 53)) with (IZR (2 ^ 53 + 1) / IZR (2 ^ 53)) by (rewrite plus_IZR; field; apply not_0_IZR; lia). rewrite (flcheck_ok _ _ (2 ^ 52) 52) by (vm_compute; reflexivity). apply Rinv_r. apply not_0_IZR. lia. Qed.
Definition e15 : R := / 1000000000000000.
Lemma uv k : 0 <= k <= 8 -> u * k + eta <= e15.
Proof. intros K. unfold e15. destruct consts as (U & E & _). nra. Qed.
(** 3v^2 - 2v^3 *)
Definition smooth (v : R) : R := fl (fl (v * v) * fl (3 - fl (2 * v))).
Definition smoother (v : R) : R := fl (fl (fl (v * v) * v) * fl (fl (v * fl (fl (v * 6) - 15)) + 10)).
Definition smoothest (v : R) : R := fl (fl (fl (fl (v * v) * v) * v) * fl (fl (v * fl (fl (v * fl (fl (-20 * v) + 70)) - 84)) + 35)).
Lemma fl_lower x k : (Z.abs k <= 2 ^ 53)%Z -> IZR k <= x -> IZR k <= fl x.
Proof. intros K L. rewrite <- (fl_Z k K). now apply fl_le. Qed.
Lemma fl_upper x k : (Z.abs k <= 2 ^ 53)%Z -> x <= IZR k -> fl x <= IZR k.
Proof. intros K L. rewrite <- (fl_Z k K). now apply fl_le. Qed.
Lemma smooth_range v : fl v = v -> 0 <= v <= 1 -> 0 <= smooth v <= 1.
Proof.
  intros F V. unfold smooth. rewrite (fl_double v F). destruct consts as (U & E & _). assert (S0 : 0 <= fl (v * v)) by (apply fl_nonneg; nra).
  assert (W : 1 <= fl (3 - 2 * v) <= 3) by (split; [apply (fl_lower _ 1)|apply (fl_upper _ 3)]; (lia || lra)).
  split; [apply fl_nonneg, Rmult_le_pos; lra|]. destruct (Rle_dec (3 / 4) v) as [L|L].
  - assert (EX : fl (3 - 2 * v) = 3 - 2 * v).
    { apply fl_format. apply sterbenz; [typeclasses eauto|typeclasses eauto|apply fl_fmt, (fl_Z 3); lia|apply fl_fmt, fl_double, F|lra]. }
    rewrite EX in *. assert (N : Rabs (fl (v * v) - v * v) <= u * Rabs (v * v)). { apply fl_rel. rewrite Rabs_pos_eq by nra. apply Rle_trans with (/ 2); [|nra]. apply Rinv_le_contravar; [lra|]. apply IZR_le. vm_compute. discriminate. }
    rewrite (Rabs_pos_eq (v * v)) in N by nra. apply Rabs_le_inv in N. rewrite <- half_up. apply fl_le.
    apply Rle_trans with ((1 + u) * (v * v * (3 - 2 * v))); [replace ((1 + u) * (v * v * (3 - 2 * v))) with ((v * v + u * (v * v)) * (3 - 2 * v)) by ring; apply Rmult_le_compat_r; lra|].
    rewrite <- (Rmult_1_r (1 + u)) at 2. apply Rmult_le_compat_l; [lra|]. replace (v * v * (3 - 2 * v)) with (1 - (1 - v) * (1 - v) * (1 + 2 * v)) by ring. assert (0 <= (1 - v) * (1 - v) * (1 + 2 * v)) by (apply Rmult_le_pos; nra). lra.
  - assert (N1 := fl_near (v * v) 1 ltac:(rewrite Rabs_pos_eq; nra)). assert (N2 := fl_near (3 - 2 * v) 3 ltac:(rewrite Rabs_pos_eq; lra)). apply Rabs_le_inv in N1, N2. apply (fl_upper _ 1); [lia|].
    apply Rle_trans with ((v * v + / 1000) * (3 - 2 * v + / 1000)); [apply Rmult_le_compat; lra|]. assert (0 <= (3 / 4 - v) * ((3 / 4 - v) * v)) by (apply Rmult_le_pos; nra). assert (v * v * (3 - 2 * v) <= 27 / 32) by nra. nra.
Qed.
Lemma abs_mul x y X Y : Rabs x <= X -> Rabs y <= Y -> Rabs (x * y) <= X * Y.
Proof. intros A B. rewrite Rabs_mult. apply Rmult_le_compat; (assumption || apply Rabs_pos). Qed.
Lemma abs_add x y X Y : Rabs x <= X -> Rabs y <= Y -> Rabs (x + y) <= X + Y.
Proof. intros A B. eapply Rle_trans; [apply Rabs_triang|lra]. Qed.
(** a rounded product or sum of numbers that are off by at most a and b units of 10^-15 *)
Lemma prod_e x x' y y' a b c X Y : Rabs (x' - x) <= a * e15 -> Rabs (y' - y) <= b * e15 -> Rabs x <= X -> Rabs y <= Y -> 0 <= a <= 10000 -> 0 <= b <= 10000 -> 0 <= X <= 300 -> 0 <= Y <= 300 -> (X + / 100) * b + a * Y + (X + / 100) * (Y + / 100) / 8 + / 100 <= c -> Rabs (fl (x' * y') - x * y) <= c * e15.
Proof.
  intros A B HX HY Ra Rb RX RY C. eapply Rle_trans; [apply (near_prod x x' y y' _ _ X Y A B HX HY)|]. assert (e15 = / 1000000000000000) by reflexivity. destruct consts as (U & E & _).
  assert (a * e15 <= / 100) by (unfold e15; lra). assert (b * e15 <= / 100) by (unfold e15; lra). assert (0 < e15) by (unfold e15; lra). assert (0 <= a * e15) by (apply Rmult_le_pos; lra). assert (0 <= b * e15) by (apply Rmult_le_pos; lra).
  assert (u <= e15 / 8) by (unfold e15; lra). assert (eta <= e15 / 100) by (unfold e15; lra).
  apply Rle_trans with ((X + / 100) * (b * e15) + a * e15 * Y + e15 / 8 * ((X + / 100) * (Y + / 100)) + e15 / 100).
  - apply Rplus_le_compat; [|lra]. apply Rplus_le_compat; [apply Rplus_le_compat; [apply Rmult_le_compat_r; lra|lra]|]. apply Rmult_le_compat; [lra|apply Rmult_le_pos; lra|lra|apply Rmult_le_compat; lra].
  - replace ((X + / 100) * (b * e15) + a * e15 * Y + e15 / 8 * ((X + / 100) * (Y + / 100)) + e15 / 100) with (((X + / 100) * b + a * Y + (X + / 100) * (Y + / 100) / 8 + / 100) * e15) by field. apply Rmult_le_compat_r; lra.
Qed.
Lemma sum_e x x' y y' a b c S : Rabs (x' - x) <= a * e15 -> Rabs (y' - y) <= b * e15 -> Rabs (x + y) <= S -> 0 <= a <= 10000 -> 0 <= b <= 10000 -> 0 <= S <= 1000 -> a + b + (S + / 100) / 8 + / 100 <= c -> Rabs (fl (x' + y') - (x + y)) <= c * e15.
Proof.
  intros A B HS Ra Rb RS C. eapply Rle_trans; [apply (near_add x x' y y' _ _ S A B HS)|]. destruct consts as (U & E & _).
  assert (a * e15 + b * e15 <= / 100) by (unfold e15; lra). assert (0 < e15) by (unfold e15; lra). assert (0 <= a * e15) by (apply Rmult_le_pos; lra). assert (0 <= b * e15) by (apply Rmult_le_pos; lra).
  assert (u <= e15 / 8) by (unfold e15; lra). assert (eta <= e15 / 100) by (unfold e15; lra).
  apply Rle_trans with (a * e15 + b * e15 + e15 / 8 * (S + / 100) + e15 / 100).
  - apply Rplus_le_compat; [|lra]. apply Rplus_le_compat; [lra|]. apply Rmult_le_compat; lra.
  - replace (a * e15 + b * e15 + e15 / 8 * (S + / 100) + e15 / 100) with ((a + b + (S + / 100) / 8 + / 100) * e15) by field. apply Rmult_le_compat_r; lra.
Qed.
Lemma exact_e x : Rabs (x - x) <= 0 * e15.
Proof. rewrite Rmult_0_l. apply abs0. Qed.
Lemma const_e k : Rabs (IZR k) <= IZR (Z.abs k).
Proof. rewrite abs_IZR. lra. Qed.
Lemma square_size v : Rabs v <= 1.01 -> Rabs (v * v) <= 1.03.
Proof. intros V. eapply Rle_trans; [apply (abs_mul v v _ _ V V)|lra]. Qed.
Lemma smooth_err v : Rabs v <= 1.01 -> Rabs (smooth v - (3 * v ^ 2 - 2 * v ^ 3)) <= 10 * e15.
Proof.
  intros V. unfold smooth. pose proof (square_size v V) as V2. replace (3 * v ^ 2 - 2 * v ^ 3) with (v * v * (3 + - (2 * v))) by ring. change (3 - fl (2 * v)) with (3 + - fl (2 * v)).
  assert (A : Rabs (fl (v * v) - v * v) <= 1 * e15) by (apply (prod_e v v v v 0 0 1 1.01 1.01); try apply exact_e; (assumption || lra)).
  assert (B : Rabs (fl (2 * v) - 2 * v) <= 1 * e15) by (apply (prod_e 2 2 v v 0 0 1 2 1.01); try apply exact_e; try assumption; try apply (const_e 2); lra).
  assert (B' : Rabs (- fl (2 * v) - - (2 * v)) <= 1 * e15) by (replace (- fl (2 * v) - - (2 * v)) with (- (fl (2 * v) - 2 * v)) by ring; now rewrite Rabs_Ropp).
  assert (S : Rabs (3 + - (2 * v)) <= 5.1) by (apply Rabs_le_inv in V; apply Rabs_le; lra).
  pose proof (sum_e 3 3 _ _ 0 1 2 5.1 (exact_e 3) B' S ltac:(lra) ltac:(lra) ltac:(lra) ltac:(lra)) as C. apply (prod_e _ _ _ _ 1 2 10 1.03 5.1 A C V2 S); lra.
Qed.
Lemma smoother_factor v : Rabs v <= 1.01 -> Rabs (fl (fl (v * fl (fl (v * 6) - 15)) + 10) - (v * (v * 6 + - (15)) + 10)) <= 15 * e15 /\ Rabs (v * (v * 6 + - (15)) + 10) <= 31.4.
Proof.
  intros V. change (fl (v * 6) - 15) with (fl (v * 6) + - (15)).
  assert (B : Rabs (fl (v * 6) - v * 6) <= 1 * e15) by (apply (prod_e v v 6 6 0 0 1 1.01 6); try apply exact_e; try assumption; try apply (const_e 6); lra).
  assert (S1 : Rabs (v * 6 + - (15)) <= 21.1) by (apply Rabs_le_inv in V; apply Rabs_le; lra). pose proof (sum_e _ _ _ _ 1 0 4 21.1 B (exact_e (- (15))) S1 ltac:(lra) ltac:(lra) ltac:(lra) ltac:(lra)) as C.
  assert (S2 : Rabs (v * (v * 6 + - (15))) <= 21.4) by (eapply Rle_trans; [apply (abs_mul _ _ _ _ V S1)|lra]). pose proof (prod_e _ _ _ _ 0 4 10 1.01 21.1 (exact_e v) C V S1 ltac:(lra) ltac:(lra) ltac:(lra) ltac:(lra) ltac:(lra)) as D.
  assert (S3 : Rabs (v * (v * 6 + - (15)) + 10) <= 31.4) by (apply Rabs_le_inv in S2; apply Rabs_le; lra). split; [|exact S3].
  apply (sum_e _ _ _ _ 10 0 15 31.4 D (exact_e 10) S3); lra.
Qed.
Lemma smoother_err v : Rabs v <= 1.01 -> Rabs (smoother v - (6 * v ^ 5 - 15 * v ^ 4 + 10 * v ^ 3)) <= 200 * e15.
Proof.
  intros V. unfold smoother. pose proof (square_size v V) as V2. replace (6 * v ^ 5 - 15 * v ^ 4 + 10 * v ^ 3) with (v * v * v * (v * (v * 6 + - (15)) + 10)) by ring.
  assert (A : Rabs (fl (v * v) - v * v) <= 1 * e15) by (apply (prod_e v v v v 0 0 1 1.01 1.01); try apply exact_e; (assumption || lra)).
  pose proof (prod_e _ _ _ _ 1 0 2 1.03 1.01 A (exact_e v) V2 V ltac:(lra) ltac:(lra) ltac:(lra) ltac:(lra) ltac:(lra)) as A3. assert (V3 : Rabs (v * v * v) <= 1.05) by (eapply Rle_trans; [apply (abs_mul _ _ _ _ V2 V)|lra]).
  destruct (smoother_factor v V) as (E & S). apply (prod_e _ _ _ _ 2 15 200 1.05 31.4 A3 E V3 S); lra.
Qed.
Lemma smoothest_factor v : Rabs v <= 1.01 -> Rabs (fl (fl (v * fl (fl (v * fl (fl (-20 * v) + 70)) - 84)) + 35) - (v * (v * (-20 * v + 70) + - (84)) + 35)) <= 120 * e15 /\ Rabs (v * (v * (-20 * v + 70) + - (84)) + 35) <= 213.
Proof.
  intros V. change (fl (v * fl (fl (-20 * v) + 70)) - 84) with (fl (v * fl (fl (-20 * v) + 70)) + - (84)).
  assert (B : Rabs (fl (-20 * v) - -20 * v) <= 4 * e15) by (apply (prod_e (-20) (-20) v v 0 0 4 20 1.01); try apply exact_e; try assumption; try apply (const_e (-20)); lra).
  assert (S1 : Rabs (-20 * v + 70) <= 91) by (apply Rabs_le_inv in V; apply Rabs_le; lra). pose proof (sum_e _ _ _ _ 4 0 16 91 B (exact_e 70) S1 ltac:(lra) ltac:(lra) ltac:(lra) ltac:(lra)) as C.
  assert (S2 : Rabs (v * (-20 * v + 70)) <= 92) by (eapply Rle_trans; [apply (abs_mul _ _ _ _ V S1)|lra]). pose proof (prod_e _ _ _ _ 0 16 30 1.01 91 (exact_e v) C V S1 ltac:(lra) ltac:(lra) ltac:(lra) ltac:(lra) ltac:(lra)) as D.
  assert (S3 : Rabs (v * (-20 * v + 70) + - (84)) <= 176) by (apply Rabs_le_inv in S2; apply Rabs_le; lra). pose proof (sum_e _ _ _ _ 30 0 55 176 D (exact_e (- (84))) S3 ltac:(lra) ltac:(lra) ltac:(lra) ltac:(lra)) as E.
  assert (S4 : Rabs (v * (v * (-20 * v + 70) + - (84))) <= 178) by (eapply Rle_trans; [apply (abs_mul _ _ _ _ V S3)|lra]). pose proof (prod_e _ _ _ _ 0 55 85 1.01 176 (exact_e v) E V S3 ltac:(lra) ltac:(lra) ltac:(lra) ltac:(lra) ltac:(lra)) as F.
  assert (S5 : Rabs (v * (v * (-20 * v + 70) + - (84)) + 35) <= 213) by (apply Rabs_le_inv in S4; apply Rabs_le; lra). split; [|exact S5].
  apply (sum_e _ _ _ _ 85 0 120 213 F (exact_e 35) S5); lra.
Qed.
Lemma smoothest_err v : Rabs v <= 1.01 -> Rabs (smoothest v - (35 * v ^ 4 - 84 * v ^ 5 + 70 * v ^ 6 - 20 * v ^ 7)) <= 1500 * e15.
Proof.
  intros V. unfold smoothest. pose proof (square_size v V) as V2. replace (35 * v ^ 4 - 84 * v ^ 5 + 70 * v ^ 6 - 20 * v ^ 7) with (v * v * v * v * (v * (v * (-20 * v + 70) + - (84)) + 35)) by ring.
  assert (A : Rabs (fl (v * v) - v * v) <= 1 * e15) by (apply (prod_e v v v v 0 0 1 1.01 1.01); try apply exact_e; (assumption || lra)).
  pose proof (prod_e _ _ _ _ 1 0 2 1.03 1.01 A (exact_e v) V2 V ltac:(lra) ltac:(lra) ltac:(lra) ltac:(lra) ltac:(lra)) as A3. assert (V3 : Rabs (v * v * v) <= 1.05) by (eapply Rle_trans; [apply (abs_mul _ _ _ _ V2 V)|lra]).
  pose proof (prod_e _ _ _ _ 2 0 3 1.05 1.01 A3 (exact_e v) V3 V ltac:(lra) ltac:(lra) ltac:(lra) ltac:(lra) ltac:(lra)) as A4. assert (V4 : Rabs (v * v * v * v) <= 1.07) by (eapply Rle_trans; [apply (abs_mul _ _ _ _ V3 V)|lra]).
  destruct (smoothest_factor v V) as (E & S). apply (prod_e _ _ _ _ 3 120 1500 1.07 213 A4 E V4 S); lra.
Qed.
Lemma unit_abs v : 0 <= v <= 1 -> Rabs v <= 1.01.
Proof. intros V. apply Rabs_le. lra. Qed.
Lemma smoother_nonneg v : 0 <= v <= 1 -> 0 <= smoother v.
Proof.
  intros V. destruct (smoother_factor v (unit_abs v V)) as (E & _). unfold smoother. apply fl_nonneg, Rmult_le_pos; [apply fl_nonneg, Rmult_le_pos; [apply fl_nonneg; nra|lra]|]. apply Rabs_le_inv in E. unfold e15 in E. nra.
Qed.
Lemma smoothest_nonneg v : 0 <= v <= 1 -> 0 <= smoothest v.
Proof.
  intros V. destruct (smoothest_factor v (unit_abs v V)) as (E & _). unfold smoothest. apply fl_nonneg, Rmult_le_pos; [apply fl_nonneg, Rmult_le_pos; [apply fl_nonneg, Rmult_le_pos; [apply fl_nonneg; nra|lra]|lra]|]. apply Rabs_le_inv in E. unfold e15 in E.
  assert (P : 1 <= v * (v * (-20 * v + 70) + - (84)) + 35); [|lra]. replace (v * (v * (-20 * v + 70) + - (84)) + 35) with (1 + (1 - v) * (20 * (v * v) - 50 * v + 34)) by ring. assert (0 <= 20 * (v * v) - 50 * v + 34) by nra. nra.
Qed.
(** ** How far the exact polynomials move *)
Lemma pow_size t n : Rabs t <= 1.01 -> (n <= 7)%nat -> Rabs (t ^ n) <= 2.
Proof.
  intros T N. rewrite <- RPow_abs. apply Rle_trans with (1.01 ^ n); [apply pow_incr; split; [apply Rabs_pos|exact T]|]. apply Rle_trans with (1.01 ^ 7); [apply Rle_pow; [lra|exact N]|cbn; lra].
Qed.
Lemma pow_move v t d n : Rabs v <= 1.01 -> Rabs t <= 1.01 -> Rabs (v - t) <= d -> (n <= 7)%nat -> Rabs (v ^ n - t ^ n) <= 15 * d.
Proof.
  intros V T D. assert (D0 : 0 <= d) by (pose proof (Rabs_pos (v - t)); lra). assert (ST : forall n c, (n < 7)%nat -> 0 <= c -> Rabs (v ^ n - t ^ n) <= c * d -> Rabs (v ^ S n - t ^ S n) <= (1.01 * c + 2) * d).
  { intros m c M C H. cbn [pow]. replace (v * v ^ m - t * t ^ m) with (v * (v ^ m - t ^ m) + (v - t) * t ^ m) by ring. pose proof (abs_mul _ _ _ _ V H) as A. pose proof (abs_mul _ _ _ _ D (pow_size t m T ltac:(lia))) as B. pose proof (abs_add _ _ _ _ A B). lra. }
  assert (P0 : Rabs (v ^ 0 - t ^ 0) <= 0 * d) by (cbn; rewrite Rminus_diag_eq, Rabs_R0 by reflexivity; lra).
  assert (C0 : 0 <= 0) by lra. assert (P1 := ST 0%nat _ ltac:(lia) (C0 : 0 <= 0) P0). assert (C1 : 0 <= 1.01 * (0) + 2) by lra. assert (P2 := ST 1%nat _ ltac:(lia) (C1 : 0 <= 1.01 * (0) + 2) P1). assert (C2 : 0 <= 1.01 * (1.01 * (0) + 2) + 2) by lra. assert (P3 := ST 2%nat _ ltac:(lia) (C2 : 0 <= 1.01 * (1.01 * (0) + 2) + 2) P2). assert (C3 : 0 <= 1.01 * (1.01 * (1.01 * (0) + 2) + 2) + 2) by lra. assert (P4 := ST 3%nat _ ltac:(lia) (C3 : 0 <= 1.01 * (1.01 * (1.01 * (0) + 2) + 2) + 2) P3). assert (C4 : 0 <= 1.01 * (1.01 * (1.01 * (1.01 * (0) + 2) + 2) + 2) + 2) by lra. assert (P5 := ST 4%nat _ ltac:(lia) (C4 : 0 <= 1.01 * (1.01 * (1.01 * (1.01 * (0) + 2) + 2) + 2) + 2) P4). assert (C5 : 0 <= 1.01 * (1.01 * (1.01 * (1.01 * (1.01 * (0) + 2) + 2) + 2) + 2) + 2) by lra. assert (P6 := ST 5%nat _ ltac:(lia) (C5 : 0 <= 1.01 * (1.01 * (1.01 * (1.01 * (1.01 * (0) + 2) + 2) + 2) + 2) + 2) P5). assert (C6 : 0 <= 1.01 * (1.01 * (1.01 * (1.01 * (1.01 * (1.01 * (0) + 2) + 2) + 2) + 2) + 2) + 2) by lra. assert (P7 := ST 6%nat _ ltac:(lia) (C6 : 0 <= 1.01 * (1.01 * (1.01 * (1.01 * (1.01 * (1.01 * (0) + 2) + 2) + 2) + 2) + 2) + 2) P6). assert (C7 : 0 <= 1.01 * (1.01 * (1.01 * (1.01 * (1.01 * (1.01 * (1.01 * (0) + 2) + 2) + 2) + 2) + 2) + 2) + 2) by lra.
  intros N. assert (W : forall k x, k <= 15 -> x <= k * d -> x <= 15 * d) by (intros k x K X; eapply Rle_trans; [exact X|]; apply Rmult_le_compat_r; lra).
  destruct n as [|[|[|[|[|[|[|[|n]]]]]]]]; [eapply W; [|exact P0]; lra|eapply W; [|exact P1]; lra|eapply W; [|exact P2]; lra|eapply W; [|exact P3]; lra|eapply W; [|exact P4]; lra|eapply W; [|exact P5]; lra|eapply W; [|exact P6]; lra|eapply W; [|exact P7]; lra|lia].
Qed.

Definition exact3 (t : R) : R := 3 * t ^ 2 - 2 * t ^ 3.
Definition exact5 (t : R) : R := 6 * t ^ 5 - 15 * t ^ 4 + 10 * t ^ 3.
Definition exact7 (t : R) : R := 35 * t ^ 4 - 84 * t ^ 5 + 70 * t ^ 6 - 20 * t ^ 7.
Lemma moves v t d : Rabs v <= 1.01 -> Rabs t <= 1.01 -> Rabs (v - t) <= d -> Rabs (exact3 v - exact3 t) <= 75 * d /\ Rabs (exact5 v - exact5 t) <= 465 * d /\ Rabs (exact7 v - exact7 t) <= 3135 * d.
Proof.
  intros V T D. pose proof (fun n => pow_move v t d n V T D) as M. assert (M2 := M 2%nat ltac:(lia)). assert (M3 := M 3%nat ltac:(lia)). assert (M4 := M 4%nat ltac:(lia)). assert (M5 := M 5%nat ltac:(lia)). assert (M6 := M 6%nat ltac:(lia)). assert (M7 := M 7%nat ltac:(lia)).
  apply Rabs_le_inv in M2, M3, M4, M5, M6, M7. unfold exact3, exact5, exact7. repeat split; apply Rabs_le; lra.
Qed.
Lemma steps_near v t d : Rabs t <= 1 -> Rabs (v - t) <= d -> d <= / 1000 -> Rabs (smooth v - exact3 t) <= 75 * d + 10 * e15 /\ Rabs (smoother v - exact5 t) <= 465 * d + 200 * e15 /\ Rabs (smoothest v - exact7 t) <= 3135 * d + 1500 * e15.
Proof.
  intros T D L. assert (V : Rabs v <= 1.01) by (apply Rabs_le_inv in T, D; apply Rabs_le; lra). destruct (moves v t d V ltac:(lra) D) as (A & B & C). pose proof (smooth_err v V) as A'. pose proof (smoother_err v V) as B'. pose proof (smoothest_err v V) as C'.
  unfold exact3, exact5, exact7 in *. apply Rabs_le_inv in A, B, C, A', B', C'. repeat split; apply Rabs_le; lra.
Qed.
Lemma exact_unit t : 0 <= t <= 1 -> 0 <= exact3 t <= 1 /\ 0 <= exact5 t <= 1 /\ 0 <= exact7 t <= 1.
Proof.
  intros T. assert (P : forall n, 0 <= t ^ n) by (intros n; apply pow_le; lra). assert (Q : forall n, 0 <= (1 - t) ^ n) by (intros n; apply pow_le; lra). unfold exact3, exact5, exact7. repeat split.
  - replace (3 * t ^ 2 - 2 * t ^ 3) with (t ^ 2 * (3 - 2 * t)) by ring. apply Rmult_le_pos; [apply P|lra].
  - assert (0 <= (1 - t) ^ 2 * (1 + 2 * t)) by (apply Rmult_le_pos; [apply Q|lra]). replace (3 * t ^ 2 - 2 * t ^ 3) with (1 - (1 - t) ^ 2 * (1 + 2 * t)) by ring. lra.
  - replace (6 * t ^ 5 - 15 * t ^ 4 + 10 * t ^ 3) with (t ^ 3 * (6 * (t * t) - 15 * t + 10)) by ring. apply Rmult_le_pos; [apply P|nra].
  - assert (0 <= (1 - t) ^ 3 * (1 + 3 * t + 6 * (t * t))) by (apply Rmult_le_pos; [apply Q|nra]). replace (6 * t ^ 5 - 15 * t ^ 4 + 10 * t ^ 3) with (1 - (1 - t) ^ 3 * (1 + 3 * t + 6 * (t * t))) by ring. lra.
  - replace (35 * t ^ 4 - 84 * t ^ 5 + 70 * t ^ 6 - 20 * t ^ 7) with (t ^ 4 * (1 + (1 - t) * (20 * (t * t) - 50 * t + 34))) by ring. apply Rmult_le_pos; [apply P|]. assert (0 <= 20 * (t * t) - 50 * t + 34) by nra. assert (0 <= (1 - t) * (20 * (t * t) - 50 * t + 34)) by (apply Rmult_le_pos; lra). lra.
  - assert (0 <= (1 - t) ^ 4 * (1 + 4 * t + 10 * (t * t) + 20 * t ^ 3)) by (apply Rmult_le_pos; [apply Q|pose proof (P 3%nat); nra]). replace (35 * t ^ 4 - 84 * t ^ 5 + 70 * t ^ 6 - 20 * t ^ 7) with (1 - (1 - t) ^ 4 * (1 + 4 * t + 10 * (t * t) + 20 * t ^ 3)) by ring. lra.
Qed.
Lemma step_ends : (smooth 0 = 0 /\ smooth 1 = 1) /\ (smoother 0 = 0 /\ smoother 1 = 1) /\ (smoothest 0 = 0 /\ smoothest 1 = 1).
Proof.
  unfold smooth, smoother, smoothest. repeat split.
  - now rewrite !Rmult_0_l, fl_0, Rmult_0_l, fl_0.
  - rewrite !Rmult_1_l, Rmult_1_r, (fl_Z 2), fl_1 by lia. replace (3 - 2) with 1 by ring. rewrite fl_1, Rmult_1_l. apply fl_1.
  - now rewrite !Rmult_0_l, fl_0, !Rmult_0_l, fl_0, Rmult_0_l, fl_0.
  - rewrite !Rmult_1_l, (fl_Z 6), !fl_1, !Rmult_1_l, fl_1 by lia. replace (6 - 15) with (-9) by ring. rewrite (fl_Z (-9)), (fl_Z (-9)) by lia. replace (-9 + 10) with 1 by ring. now rewrite fl_1, Rmult_1_l, fl_1.
  - now rewrite !Rmult_0_l, fl_0, !Rmult_0_l, fl_0, !Rmult_0_l, fl_0, !Rmult_0_l, fl_0.
  - rewrite !Rmult_1_r, fl_1, !Rmult_1_l, fl_1, (fl_Z (-20)) by lia. replace (-20 + 70) with 50 by ring. rewrite !(fl_Z 50) by lia. replace (50 - 84) with (-34) by ring. rewrite !(fl_Z (-34)) by lia. replace (-34 + 35) with 1 by ring. now rewrite !fl_1, Rmult_1_l, fl_1.
Qed.

(** The three steps for a value between a and b: from exactly 0 at a to exactly 1 at b, close to the polynomials of the fraction of the way; the first stays between 0 and 1, the others above 0. *)
Theorem C147_steps : forall a b v, fl a = a -> fl b = b -> fl v = v -> a <> b -> inside a b v -> let t := (v - a) / (b - a) in
  (0 <= fsmoothstep a b v <= 1 /\ Rabs (fsmoothstep a b v - (3 * t ^ 2 - 2 * t ^ 3)) <= / 10 ^ 13) /\
  (0 <= fsmootherstep a b v /\ Rabs (fsmootherstep a b v - (6 * t ^ 5 - 15 * t ^ 4 + 10 * t ^ 3)) <= / 10 ^ 12) /\
  (0 <= fsmootheststep a b v /\ Rabs (fsmootheststep a b v - (35 * t ^ 4 - 84 * t ^ 5 + 70 * t ^ 6 - 20 * t ^ 7)) <= / 10 ^ 11).
Proof.
  intros a b v A B V NE I t. destruct (C147_invlerp a b v A B V) as (_ & K). destruct (K NE) as (_ & _ & K' & _). destruct (K' I) as (R & N). clear K K'. fold t in N. unfold Rdiv in N. fold u in N.
  change (fsmoothstep a b v) with (smooth (finvlerp a b v)). change (fsmootherstep a b v) with (smoother (finvlerp a b v)). change (fsmootheststep a b v) with (smoothest (finvlerp a b v)). set (w := finvlerp a b v) in *.
  assert (T : 0 <= t <= 1). { unfold t. destruct I as [I|I]; [|replace ((v - a) / (b - a)) with ((a - v) / (a - b)) by (field; lra)]; apply ratio; lra. }
  destruct consts as (U & _ & _). destruct (steps_near w t _ ltac:(apply Rabs_le; lra) N ltac:(lra)) as (S3 & S5 & S7). unfold exact3, exact5, exact7, e15 in *.
  split; [split; [apply smooth_range; [apply finvlerp_fl|exact R]|]|split; (split; [apply smoother_nonneg, R || apply smoothest_nonneg, R|])]; (eapply Rle_trans; [eassumption|cbn [pow]; lra]).
Qed.
Theorem C147_step_ends : forall a b v, fl a = a -> fl b = b ->
  (a <> b -> (fsmoothstep a b a = 0 /\ fsmoothstep a b b = 1) /\ (fsmootherstep a b a = 0 /\ fsmootherstep a b b = 1) /\ (fsmootheststep a b a = 0 /\ fsmootheststep a b b = 1)) /\
  fsmoothstep a a v = 1 /\ fsmootherstep a a v = 1 /\ fsmootheststep a a v = 1.
Proof.
  intros a b v A B. pose proof step_ends as ((S0 & S1) & (R0 & R1) & (T0 & T1)). split.
  - intros NE. destruct (C147_invlerp a b a A B A) as (_ & K). destruct (K NE) as (I0 & I1 & _).
    change (fsmoothstep a b) with (fun v => smooth (finvlerp a b v)). change (fsmootherstep a b) with (fun v => smoother (finvlerp a b v)). change (fsmootheststep a b) with (fun v => smoothest (finvlerp a b v)). cbv beta. rewrite I0, I1. repeat split; assumption.
  - change (fsmoothstep a a v) with (smooth (finvlerp a a v)). change (fsmootherstep a a v) with (smoother (finvlerp a a v)). change (fsmootheststep a a v) with (smoothest (finvlerp a a v)).
    assert (D : finvlerp a a v = 1) by (unfold finvlerp; rewrite Rminus_diag_eq by reflexivity; rewrite fl_0, (proj2 (req_iff _ _)) by reflexivity; reflexivity). rewrite D. repeat split; assumption.
Qed.

(** ** Smooth interpolation *)
Theorem C147_steplerp_ends : forall a b, fl a = a -> fl b = b ->
  (fsmoothsteplerp a b 0 = a /\ fsmoothsteplerp a b 1 = b) /\ (fsmoothersteplerp a b 0 = a /\ fsmoothersteplerp a b 1 = b) /\ (fsmootheststeplerp a b 0 = a /\ fsmootheststeplerp a b 1 = b).
Proof.
  intros a b A B. destruct (C147_lerp_ends a b A B) as (L0 & L1). unfold fsmoothsteplerp, fsmoothersteplerp, fsmootheststeplerp. rewrite L0, L1. destruct (Req_dec a b) as [<-|NE].
  - destruct (C147_step_ends a a a A A) as (_ & -> & -> & ->). rewrite L1. repeat split.
  - destruct (C147_step_ends a b a A B) as (K & _). destruct (K NE) as ((-> & ->) & (-> & ->) & (-> & ->)). rewrite L0, L1. repeat split.
Qed.
Theorem C147_steplerp : forall a b f, (Z.abs a <= 65536)%Z -> (Z.abs b <= 65536)%Z -> 0 <= f <= 1 -> fl f = f ->
  let near (x p : R) := Rabs (x - ((1 - p) * IZR a + p * IZR b)) <= 1 / 30 /\ (Z.min a b <= rround x <= Z.max a b)%Z in
  near (fsmoothsteplerp (IZR a) (IZR b) f) (3 * f ^ 2 - 2 * f ^ 3) /\
  near (fsmoothersteplerp (IZR a) (IZR b) f) (6 * f ^ 5 - 15 * f ^ 4 + 10 * f ^ 3) /\
  near (fsmootheststeplerp (IZR a) (IZR b) f) (35 * f ^ 4 - 84 * f ^ 5 + 70 * f ^ 6 - 20 * f ^ 7).
Proof.
  intros a b f A B F G near. assert (FA : fl (IZR a) = IZR a) by (apply fl_Z; lia). assert (FB : fl (IZR b) = IZR b) by (apply fl_Z; lia). destruct (exact_unit f F) as (X3 & X5 & X7).
  assert (NEAR : forall x p, 0 <= p <= 1 -> Rabs (x - ((1 - p) * IZR a + p * IZR b)) <= 1 / 30 -> near x p) by (intros x p P N; split; [exact N|apply (within a b p); [exact P|lra]]).
  unfold fsmoothsteplerp, fsmoothersteplerp, fsmootheststeplerp. destruct (Z.eq_dec a b) as [<-|NE].
  - destruct (C147_step_ends (IZR a) (IZR a) (flerp (IZR a) (IZR a) f) FA FA) as (_ & -> & -> & ->). destruct (C147_lerp_ends (IZR a) (IZR a) FA FA) as (_ & ->).
    repeat split; try (rewrite rround_Z; lia); (match goal with |- Rabs ?e <= _ => replace e with 0 by ring end; rewrite Rabs_R0; lra).
  - pose proof (flerp_near (IZR a) (IZR b) f f 0 65536 (size_R a _ A) (size_R b _ B) ltac:(lra) G (abs0 f) ltac:(lra)) as N. set (v := flerp (IZR a) (IZR b) f) in *. assert (FV : fl v = v) by apply fl_fl. destruct consts as (U & E & _).
    change (fsmoothstep (IZR a) (IZR b) v) with (smooth (finvlerp (IZR a) (IZR b) v)). change (fsmootherstep (IZR a) (IZR b) v) with (smoother (finvlerp (IZR a) (IZR b) v)). change (fsmootheststep (IZR a) (IZR b) v) with (smoothest (finvlerp (IZR a) (IZR b) v)).
    assert (D1 : 1 <= Rabs (IZR b - IZR a)) by (rewrite <- minus_IZR, <- abs_IZR; apply IZR_le; lia). assert (DB : Rabs (IZR b - IZR a) <= 131072) by (rewrite <- minus_IZR, <- abs_IZR; apply IZR_le; lia). set (d := IZR b - IZR a) in *. assert (D0 : d <> 0) by (intros H; rewrite H, Rabs_R0 in D1; lra).
    assert (W : Rabs (finvlerp (IZR a) (IZR b) v - f) <= / 15000000000).
    { rewrite finvlerp_run by (assumption || (intros H; apply NE; now apply eq_IZR)). fold d. assert (FD : fl d = d) by (unfold d; rewrite <- minus_IZR; apply fl_Z; lia). rewrite FD. pose proof (sub_err v (IZR a) FV FA) as S. assert (VA : Rabs (v - IZR a - f * d) <= / 22000000000) by (replace (v - IZR a - f * d) with (v - ((1 - f) * IZR a + f * IZR b)) by (unfold d; ring); eapply Rle_trans; [exact N|]; lra).
      assert (FDB : Rabs (f * d) <= 131072) by (rewrite <- (Rmult_1_l 131072); apply abs_mul; [apply Rabs_le; lra|exact DB]). assert (VS : Rabs (v - IZR a) <= 131073) by (apply Rabs_le_inv in VA, FDB; apply Rabs_le; lra). assert (u * Rabs (v - IZR a) <= u * 131073) by (apply Rmult_le_compat_l; lra).
      assert (XE : Rabs (fl (v - IZR a) - f * d) <= / 16000000000) by (apply Rabs_le_inv in VA, S; apply Rabs_le; lra). set (x := fl (v - IZR a)) in *.
      assert (Q : Rabs (x / d - f) <= / 16000000000). { replace (x / d - f) with ((x - f * d) * / d) by (field; exact D0). rewrite Rabs_mult, Rabs_inv. rewrite <- (Rmult_1_r (/ 16000000000)). apply Rmult_le_compat; [apply Rabs_pos|apply Rlt_le, Rinv_0_lt_compat; lra|exact XE|]. rewrite <- Rinv_1. apply Rinv_le_contravar; lra. }
      assert (QB : Rabs (x / d) <= 2) by (apply Rabs_le_inv in Q; apply Rabs_le; lra). pose proof (fl_near _ _ QB) as QN. apply Rabs_le_inv in Q, QN. apply Rabs_le. lra. }
    destruct (steps_near _ f _ ltac:(apply Rabs_le; lra) W ltac:(lra)) as (S3 & S5 & S7). unfold e15 in *.
    assert (FIN : forall s p, 0 <= p <= 1 -> fl s = s -> Rabs (s - p) <= 3135 * / 15000000000 + 1500 * / 1000000000000000 -> near (flerp (IZR a) (IZR b) s) p).
    { intros s p P FS S. apply NEAR; [exact P|]. eapply Rle_trans; [apply (flerp_near (IZR a) (IZR b) p s _ 65536 (size_R a _ A) (size_R b _ B) ltac:(lra) FS S); lra|]. lra. }
    split; [|split]; (apply FIN; [assumption|apply fl_fl|]); [eapply Rle_trans; [exact S3|]; lra|eapply Rle_trans; [exact S5|]; lra|exact S7].
Qed.

(** ** What does not hold *)
Lemma flis p q m k x y : flcheck p q m k = true -> y = IZR m / IZR (2 ^ k) -> x = IZR p / IZR q -> fl x = y.
Proof. intros C -> ->. now apply flcheck_ok. Qed.
Lemma flisn p q m k x y : flcheck p q m k = true -> y = - (IZR m / IZR (2 ^ k)) -> x = - (IZR p / IZR q) -> fl x = y.
Proof. intros C -> ->. rewrite fl_opp. now rewrite (flcheck_ok _ _ _ _ C). Qed.
Lemma wl_0 x : x = (18014398509481971 / 18014398509481984) -> fl x = (4503599627370493 / 4503599627370496).
Proof. intros H. apply (flis 18014398509481971 18014398509481984 9007199254740986 53); [vm_compute; reflexivity|lra|lra]. Qed.
Lemma wl_1 x : x = (13510798882111479 / 4503599627370496) -> fl x = (1688849860263935 / 562949953421312).
Proof. intros H. apply (flis 13510798882111479 4503599627370496 6755399441055740 51); [vm_compute; reflexivity|lra|lra]. Qed.
Lemma wl_2 x : x = (39 / 18014398509481984) -> fl x = (39 / 18014398509481984).
Proof. intros H. apply (flis 39 18014398509481984 5488762045857792 101); [vm_compute; reflexivity|lra|lra]. Qed.
Lemma wl_3 x : x = (54043195528445959 / 18014398509481984) -> fl x = (6755399441055745 / 2251799813685248).
Proof. intros H. apply (flis 54043195528445959 18014398509481984 6755399441055745 51); [vm_compute; reflexivity|lra|lra]. Qed.
Lemma wr_0 x : x = (4503599493152769 / 4503599627370496) -> fl x = (4503599493152769 / 4503599627370496).
Proof. intros H. apply (flis 4503599493152769 4503599627370496 9007198986305538 53); [vm_compute; reflexivity|lra|lra]. Qed.
Lemma wr_1 x : x = (302231441392858612891647 / 302231454903657293676544) -> fl x = (4503599426043907 / 4503599627370496).
Proof. intros H. apply (flis 302231441392858612891647 302231454903657293676544 9007198852087814 53); [vm_compute; reflexivity|lra|lra]. Qed.
Lemma wr_2 x : x = (201326589 / 33554432) -> fl x = (201326589 / 33554432).
Proof. intros H. apply (flis 201326589 33554432 6755399340392448 50); [vm_compute; reflexivity|lra|lra]. Qed.
Lemma wr_3 x : x = (- (301989891 / 33554432)) -> fl x = (- (301989891 / 33554432)).
Proof. intros H. apply (flisn 301989891 33554432 5066549631123456 49); [vm_compute; reflexivity|lra|lra]. Qed.
Lemma wr_4 x : x = (- (20266198222503933 / 2251799813685248)) -> fl x = (- (5066549555625983 / 562949953421312)).
Proof. intros H. apply (flisn 20266198222503933 2251799813685248 5066549555625983 49); [vm_compute; reflexivity|lra|lra]. Qed.
Lemma wr_5 x : x = (562949978587137 / 562949953421312) -> fl x = (562949978587137 / 562949953421312).
Proof. intros H. apply (flis 562949978587137 562949953421312 4503599828697096 52); [vm_compute; reflexivity|lra|lra]. Qed.
Lemma wr_6 x : x = (2535301200456459928893187424259 / 2535301200456458802993406410752) -> fl x = (2251799813685249 / 2251799813685248).
Proof. intros H. apply (flis 2535301200456459928893187424259 2535301200456458802993406410752 4503599627370498 52); [vm_compute; reflexivity|lra|lra]. Qed.
Lemma wt_0 x : x = (1125899839733761 / 1125899906842624) -> fl x = (1125899839733761 / 1125899906842624).
Proof. intros H. apply (flis 1125899839733761 1125899906842624 9007198717870088 53); [vm_compute; reflexivity|lra|lra]. Qed.
Lemma wt_1 x : x = (37778928485257541844991 / 37778931862957161709568) -> fl x = (1125899806179331 / 1125899906842624).
Proof. intros H. apply (flis 37778928485257541844991 37778931862957161709568 9007198449434648 53); [vm_compute; reflexivity|lra|lra]. Qed.
Lemma wt_2 x : x = (37778927359357735665661 / 37778931862957161709568) -> fl x = (562949886312451 / 562949953421312).
Proof. intros H. apply (flis 37778927359357735665661 37778931862957161709568 9007198180999216 53); [vm_compute; reflexivity|lra|lra]. Qed.
Lemma wt_3 x : x = (- (167772155 / 8388608)) -> fl x = (- (167772155 / 8388608)).
Proof. intros H. apply (flisn 167772155 8388608 5629499366440960 48); [vm_compute; reflexivity|lra|lra]. Qed.
Lemma wt_4 x : x = (419430405 / 8388608) -> fl x = (419430405 / 8388608).
Proof. intros H. apply (flis 419430405 8388608 7036874501652480 47); [vm_compute; reflexivity|lra|lra]. Qed.
Lemma wt_5 x : x = (14073748583874555 / 281474976710656) -> fl x = (3518437145968639 / 70368744177664).
Proof. intros H. apply (flis 14073748583874555 281474976710656 7036874291937278 47); [vm_compute; reflexivity|lra|lra]. Qed.
Lemma wt_6 x : x = (- (2392537364955137 / 70368744177664)) -> fl x = (- (2392537364955137 / 70368744177664)).
Proof. intros H. apply (flisn 2392537364955137 70368744177664 4785074729910274 47); [vm_compute; reflexivity|lra|lra]. Qed.
Lemma wt_7 x : x = (- (80280229927308962562047 / 2361183241434822606848)) -> fl x = (- (2392537293651967 / 70368744177664)).
Proof. intros H. apply (flisn 80280229927308962562047 2361183241434822606848 4785074587303934 47); [vm_compute; reflexivity|lra|lra]. Qed.
Lemma wt_8 x : x = (70368752566273 / 70368744177664) -> fl x = (70368752566273 / 70368744177664).
Proof. intros H. apply (flis 70368752566273 70368744177664 4503600164241472 52); [vm_compute; reflexivity|lra|lra]. Qed.
Lemma wt_9 x : x = (39614081257132379902962565123 / 39614081257132168796771975168) -> fl x = (562949953421315 / 562949953421312).
Proof. intros H. apply (flis 39614081257132379902962565123 39614081257132168796771975168 4503599627370520 52); [vm_compute; reflexivity|lra|lra]. Qed.
Lemma wa_0 x : x = (236446493430884881 / 288230376151711744) -> fl x = (7388952919715153 / 9007199254740992).
Proof. intros H. apply (flis 236446493430884881 288230376151711744 7388952919715153 53); [vm_compute; reflexivity|lra|lra]. Qed.
Lemma wa_1 x : x = (486257641 / 268435456) -> fl x = (486257641 / 268435456).
Proof. intros H. apply (flis 486257641 268435456 8158049474707456 52); [vm_compute; reflexivity|lra|lra]. Qed.
Lemma wa_2 x : x = (319048727 / 268435456) -> fl x = (319048727 / 268435456).
Proof. intros H. apply (flis 319048727 268435456 5352749407404032 52); [vm_compute; reflexivity|lra|lra]. Qed.
Lemma wa_3 x : x = (2357436022898052767260231 / 2417851639229258349412352) -> fl x = (8782133545346755 / 9007199254740992).
Proof. intros H. apply (flis 2357436022898052767260231 2417851639229258349412352 8782133545346755 53); [vm_compute; reflexivity|lra|lra]. Qed.
Lemma wb_0 x : x = (66553771231774615089955731406849 / 81129638414606681695789005144064) -> fl x = (3694476459857577 / 4503599627370496).
Proof. intros H. apply (flis 66553771231774615089955731406849 81129638414606681695789005144064 7388952919715154 53); [vm_compute; reflexivity|lra|lra]. Qed.
Lemma wb_1 x : x = (8158049474707457 / 4503599627370496) -> fl x = (8158049474707457 / 4503599627370496).
Proof. intros H. apply (flis 8158049474707457 4503599627370496 8158049474707457 52); [vm_compute; reflexivity|lra|lra]. Qed.
Lemma wb_2 x : x = (5352749407404031 / 4503599627370496) -> fl x = (5352749407404031 / 4503599627370496).
Proof. intros H. apply (flis 5352749407404031 4503599627370496 5352749407404031 52); [vm_compute; reflexivity|lra|lra]. Qed.
Lemma wb_3 x : x = (19775606681170787609759555692887 / 20282409603651670423947251286016) -> fl x = (4391066772673377 / 4503599627370496).
Proof. intros H. apply (flis 19775606681170787609759555692887 20282409603651670423947251286016 8782133545346754 53); [vm_compute; reflexivity|lra|lra]. Qed.

Lemma fl_finvlerp01 v : fl v = v -> finvlerp 0 1 v = v.
Proof. intros V. unfold finvlerp. rewrite !Rminus_0_r, fl_1, V, (proj2 (req_no _ _)) by lra. cbn [negb]. unfold Rdiv. now rewrite Rinv_1, Rmult_1_r. Qed.
(** A value between two equal ends can lie above them, 0.975... comes after a larger value, and the smoother steps can exceed 1. *)
Theorem C147_lerp_refuted : exists f, fl f = f /\ 0 < f < 1 /\ 3 < flerp 3 3 f.
Proof.
  exists (13 / 18014398509481984). split; [apply (flis 13 18014398509481984 7318349394477056 103); [vm_compute; reflexivity|lra|lra]|]. split; [lra|]. unfold flerp.
  rewrite (wl_0 (1 - _)) by lra. rewrite (wl_1 (_ * 3)) by lra. rewrite (wl_2 (_ * 3)) by lra. rewrite wl_3 by lra. lra.
Qed.
Theorem C147_order_refuted : exists v w, fl v = v /\ fl w = w /\ 0 < v < w /\ w < 1 /\ fsmoothstep 0 1 w < fsmoothstep 0 1 v.
Proof.
  exists (486257641 / 536870912), (8158049474707457 / 9007199254740992).
  assert (FV : fl (486257641 / 536870912) = 486257641 / 536870912) by (apply (flis 486257641 536870912 8158049474707456 53); [vm_compute; reflexivity|lra|lra]). assert (FW : fl (8158049474707457 / 9007199254740992) = 8158049474707457 / 9007199254740992) by (apply (flis 8158049474707457 9007199254740992 8158049474707457 53); [vm_compute; reflexivity|lra|lra]).
  split; [exact FV|]. split; [exact FW|]. split; [lra|]. split; [lra|]. unfold fsmoothstep. rewrite (fl_finvlerp01 _ FV), (fl_finvlerp01 _ FW).
  rewrite (wa_0 (486257641 / 536870912 * _)) by lra. rewrite (wa_1 (2 * (486257641 / 536870912))) by lra. rewrite (wa_2 (3 - 486257641 / 268435456)) by lra. rewrite (wa_3 (7388952919715153 / 9007199254740992 * _)) by lra.
  rewrite (wb_0 (8158049474707457 / 9007199254740992 * _)) by lra. rewrite (wb_1 (2 * _)) by lra. rewrite (wb_2 (3 - _)) by lra. rewrite wb_3 by lra. lra.
Qed.
Theorem C147_above_refuted : exists v w, fl v = v /\ fl w = w /\ 0 < v < 1 /\ 0 < w < 1 /\ 1 < fsmootherstep 0 1 v /\ 1 < fsmootheststep 0 1 w.
Proof.
  exists (67108863 / 67108864), (33554431 / 33554432).
  assert (FV : fl (67108863 / 67108864) = 67108863 / 67108864) by (apply (flis 67108863 67108864 9007199120523264 53); [vm_compute; reflexivity|lra|lra]). assert (FW : fl (33554431 / 33554432) = 33554431 / 33554432) by (apply (flis 33554431 33554432 9007198986305536 53); [vm_compute; reflexivity|lra|lra]).
  split; [exact FV|]. split; [exact FW|]. split; [lra|]. split; [lra|]. unfold fsmootherstep, fsmootheststep. rewrite (fl_finvlerp01 _ FV), (fl_finvlerp01 _ FW). split.
  - rewrite (wr_0 (67108863 / 67108864 * (67108863 / 67108864))) by lra. rewrite (wr_1 (4503599493152769 / 4503599627370496 * _)) by lra. rewrite (wr_2 (_ * 6)) by lra. rewrite (wr_3 (_ - 15)) by lra. rewrite (wr_4 (67108863 / 67108864 * _)) by lra. rewrite (wr_5 (_ + 10)) by lra. rewrite wr_6 by lra. lra.
  - rewrite (wt_0 (33554431 / 33554432 * (33554431 / 33554432))) by lra. rewrite (wt_1 (1125899839733761 / 1125899906842624 * _)) by lra. rewrite (wt_2 (1125899806179331 / 1125899906842624 * _)) by lra. rewrite (wt_3 (-20 * _)) by lra. rewrite (wt_4 (_ + 70)) by lra. rewrite (wt_5 (33554431 / 33554432 * (419430405 / 8388608))) by lra. rewrite (wt_6 (_ - 84)) by lra. rewrite (wt_7 (33554431 / 33554432 * _)) by lra. rewrite (wt_8 (_ + 35)) by lra. rewrite wt_9 by lra. lra.
Qed.
(** halfway between 0 and 255 *)
Example C147_lerp_half : rround (flerp 0 255 (1 / 2)) = 128%Z /\ fl (1 / 2) = 1 / 2.
Proof.
  assert (H : fl (1 / 2) = 1 / 2) by (apply (fl_half 1); lia). split; [|exact H]. unfold flerp. replace (1 - 1 / 2) with (1 / 2) by field. rewrite H, Rmult_0_r, fl_0, Rplus_0_l. replace (1 / 2 * 255) with (255 / 2) by field. rewrite (fl_half 255) by lia. rewrite (fl_half 255) by lia.
  pose proof (rround_near (255 / 2)) as N. apply Rabs_le_inv in N. assert (C : (127 <= rround (255 / 2) <= 128)%Z) by (apply round_within; lra).
  destruct (Z.eq_dec (rround (255 / 2)) 127) as [E|E]; [|lia]. exfalso. pose proof (rround_even (255 / 2)) as V. rewrite E in V. specialize (V ltac:(rewrite Rabs_pos_eq; lra)). discriminate V.
Qed.
Example C147_step_half : inside 0 4 1 /\ 0 <> 4 /\ fl 4 = 4 /\ fsmoothstep 0 4 1 = 5 / 32.
Proof.
  assert (F4 : fl 4 = 4) by (apply (fl_Z 4); lia). split; [left; lra|]. split; [lra|]. split; [exact F4|]. unfold fsmoothstep, finvlerp. rewrite !Rminus_0_r, F4, fl_1, (proj2 (req_no _ _)) by lra. cbn [negb].
  assert (E1 : fl (1 / 4) = 1 / 4) by (apply (flis 1 4 (2 ^ 52) 54); [vm_compute; reflexivity|lra|lra]). rewrite E1.
  rewrite (flis 1 16 (2 ^ 52) 56 (1 / 4 * (1 / 4)) (1 / 16)) by ((vm_compute; reflexivity) || lra). replace (2 * (1 / 4)) with (1 / 2) by field. rewrite (fl_half 1) by lia. replace (3 - 1 / 2) with (5 / 2) by field. rewrite (fl_half 5) by lia.
  apply (flis 5 32 5629499534213120 55); [vm_compute; reflexivity|lra|lra].
Qed.
Example C147_trip : rround (flerp 0 255 (finvlerp 0 255 100)) = 100%Z.
Proof. apply (C147_round_trip 0 255 100); lia. Qed.
Example C147_steplerp_half : (10 <= rround (fsmoothsteplerp 10 70 (1 / 2)) <= 70)%Z /\ Rabs (fsmoothsteplerp 10 70 (1 / 2) - 40) <= 1 / 30.
Proof.
  destruct (C147_steplerp 10 70 (1 / 2) ltac:(lia) ltac:(lia) ltac:(lra) ltac:(apply (fl_half 1); lia)) as ((N & W) & _). split; [exact W|].
  replace 40 with ((1 - (3 * (1 / 2) ^ 2 - 2 * (1 / 2) ^ 3)) * 10 + (3 * (1 / 2) ^ 2 - 2 * (1 / 2) ^ 3) * 70) by field. exact N.
Qed.
Print Assumptions C147_lerp_ends.
Print Assumptions C147_lerp.
Print Assumptions C147_lerp_between.
Print Assumptions C147_invlerp.
Print Assumptions C147_round_trip.
Print Assumptions C147_steps.
Print Assumptions C147_step_ends.
Print Assumptions C147_steplerp_ends.
Print Assumptions C147_steplerp.
Print Assumptions C147_lerp_refuted.
Print Assumptions C147_order_refuted.
Print Assumptions C147_above_refuted.
Print Assumptions C147_lerp_half.
Print Assumptions C147_step_half.
Print Assumptions C147_trip.
Print Assumptions C147_steplerp_half.
