(** Property C139: colours with the rounding of floats. *)
From Coq Require Import ZArith QArith Qround Qreals Reals List Lia Lra Bool.
From Verif Require Import PyBase Bmp Buffers Exact SpecExact CurveProofs Colours ColourProofs SpecColours Coords RealProofs Floats FloatProofs.
Import ListNotations.
Open Scope R_scope.

(** ** Quotients of integers *)
Lemma quot_small a b : (Z.abs a <= 2 ^ 50)%Z -> (0 < b <= 2 ^ 50)%Z -> 2 * Rabs (fl (IZR a / IZR b) - IZR a / IZR b) * IZR b < 1.
Proof.
  intros A B. set (x := IZR a / IZR b). assert (B0 : 0 < IZR b) by (apply IZR_lt; lia). pose proof (fl_err x) as E.
  assert (BX : Rabs x * IZR b = IZR (Z.abs a)). { unfold x, Rdiv. rewrite Rabs_mult, abs_IZR, (Rabs_pos_eq (/ IZR b)) by (apply Rlt_le, Rinv_0_lt_compat, B0). field. lra. }
  assert (UA : u * IZR (Z.abs a) <= / 8). { apply Rle_trans with (u * IZR (2 ^ 50)); [apply Rmult_le_compat_l; [pose proof u_pos; lra|apply IZR_le; lia]|]. unfold u. change (2 ^ 53)%Z with (8 * 2 ^ 50)%Z. rewrite mult_IZR. apply Req_le. field. apply not_0_IZR. lia. }
  assert (EB : eta * IZR b <= / 8). { apply Rle_trans with (eta * IZR (2 ^ 50)); [apply Rmult_le_compat_l; [pose proof eta_pos; lra|apply IZR_le; lia]|]. unfold eta. change (2 ^ 60)%Z with (1024 * 2 ^ 50)%Z. rewrite mult_IZR.
    replace (/ (1024 * IZR (2 ^ 50)) * IZR (2 ^ 50)) with (/ 1024) by (field; apply not_0_IZR; lia). lra. }
  assert (M : Rabs (fl x - x) * IZR b <= (u * Rabs x + eta) * IZR b) by (apply Rmult_le_compat_r; lra). replace ((u * Rabs x + eta) * IZR b) with (u * (Rabs x * IZR b) + eta * IZR b) in M by ring. rewrite BX in M. lra.
Qed.
Lemma abs_scaled a b z : (0 < b)%Z -> Rabs (IZR a / IZR b - IZR z) * IZR b = IZR (Z.abs (a - z * b)).
Proof.
  intros H. assert (0 < IZR b) by now apply IZR_lt. rewrite abs_IZR, minus_IZR, mult_IZR. rewrite <- (Rabs_pos_eq (IZR b)) at 2 by lra. rewrite <- Rabs_mult. f_equal. field. lra.
Qed.
Lemma intquot_pos a b : (0 <= a <= 2 ^ 50)%Z -> (0 < b <= 2 ^ 50)%Z -> intquot a b = (a / b)%Z.
Proof.
  intros A B. unfold intquot. pose proof (quot_small a b ltac:(lia) B) as Q. set (x := IZR a / IZR b) in *. assert (B0 : 0 < IZR b) by (apply IZR_lt; lia).
  set (n := (a / b)%Z). assert (N0 : (0 <= n)%Z) by (apply Z.div_pos; lia). pose proof (Z.div_mod a b ltac:(lia)) as D. pose proof (Z.mod_pos_bound a b ltac:(lia)) as MB. fold n in D.
  assert (NA : (n <= a)%Z) by (unfold n; apply Z.div_le_upper_bound; nia).
  assert (XB : x * IZR b = IZR a) by (unfold x; field; lra).
  assert (L : IZR n <= x). { apply (Rmult_le_reg_r (IZR b)); [exact B0|]. rewrite XB, <- mult_IZR. apply IZR_le. nia. }
  apply fl_le in L. rewrite fl_Z in L by lia. assert (0 <= IZR n) by (now apply IZR_le).
  unfold rtrunc. rewrite (proj2 (rlt_no _ _)) by lra. apply int_unique. split; [exact L|].
  apply (Rmult_lt_reg_r (IZR b)); [exact B0|]. assert (U : IZR a + 1 <= (IZR n + 1) * IZR b). { rewrite <- !plus_IZR, <- mult_IZR. apply IZR_le. nia. }
  pose proof (Rle_abs (fl x - x)) as RA. assert ((fl x - x) * IZR b <= Rabs (fl x - x) * IZR b) by (apply Rmult_le_compat_r; lra). lra.
Qed.
(** int(a / b) is the quotient without its fraction, round(a / b) the nearest integer, of two the even one. *)
Theorem C139_quotients : forall a b, (Z.abs a <= 2 ^ 50)%Z -> (0 < b <= 2 ^ 50)%Z ->
  intquot a b = Z.quot a b /\ (2 * Z.abs (a - roundquot a b * b) <= b)%Z /\ ((2 * Z.abs (a - roundquot a b * b) = b)%Z -> Z.even (roundquot a b) = true).
Proof.
  intros a b A B. split.
  - destruct (Z.le_gt_cases 0 a) as [P|P]; [rewrite intquot_pos by lia; symmetry; apply Z.quot_div_nonneg; lia|].
    unfold intquot. replace (IZR a / IZR b) with (- (IZR (- a) / IZR b)) by (rewrite opp_IZR; field; apply not_0_IZR; lia). rewrite fl_opp, rtrunc_opp.
    change (- intquot (- a) b = Z.quot a b)%Z. rewrite intquot_pos by lia. rewrite <- (Z.opp_involutive a) at 2. rewrite Z.quot_opp_l by lia. f_equal. symmetry. apply Z.quot_div_nonneg; lia.
  - unfold roundquot. pose proof (quot_small a b A B) as Q. set (x := IZR a / IZR b) in *. set (z := rround (fl x)). assert (B0 : 0 < IZR b) by (apply IZR_lt; lia).
    pose proof (rround_near (fl x)) as N. fold z in N. pose proof (abs_scaled a b z ltac:(lia)) as S. fold x in S. split.
    + assert (T : Rabs (x - IZR z) <= Rabs (fl x - x) + 1 / 2). { replace (x - IZR z) with (- (fl x - x) + (fl x - IZR z)) by ring. eapply Rle_trans; [apply Rabs_triang|]. rewrite Rabs_Ropp. lra. }
      assert (T2 : Rabs (x - IZR z) * IZR b <= (Rabs (fl x - x) + 1 / 2) * IZR b) by (apply Rmult_le_compat_r; lra).
      assert (2 * Z.abs (a - z * b) < b + 1)%Z; [|lia]. apply lt_IZR. rewrite plus_IZR, mult_IZR, <- S. lra.
    + intros E. apply rround_even. fold z. apply (f_equal IZR) in E. rewrite mult_IZR, <- S in E.
      assert (H : Rabs (x - IZR z) = 1 / 2) by (apply (Rmult_eq_reg_r (IZR b)); lra).
      assert (ZB : (Z.abs (2 * z) <= 2 ^ 52)%Z).
      { assert (Z.abs z < 2 ^ 50 + 2)%Z; [|lia]. apply lt_IZR. rewrite plus_IZR. rewrite abs_IZR. assert (XA : Rabs x <= IZR (2 ^ 50)).
        { unfold x, Rdiv. rewrite Rabs_mult, <- abs_IZR, (Rabs_pos_eq (/ IZR b)) by (apply Rlt_le, Rinv_0_lt_compat, B0). assert (1 <= IZR b) by (apply IZR_le; lia). assert (/ IZR b <= 1) by (rewrite <- Rinv_1; apply Rinv_le_contravar; lra).
          assert (0 <= IZR (Z.abs a)) by (apply IZR_le; lia). assert (IZR (Z.abs a) <= IZR (2 ^ 50)) by (apply IZR_le; lia). apply Rle_trans with (IZR (Z.abs a) * 1); [apply Rmult_le_compat_l; lra|lra]. }
        replace (IZR z) with (x + - (x - IZR z)) by ring. eapply Rle_lt_trans; [apply Rabs_triang|]. rewrite Rabs_Ropp. lra. }
      assert (F : fl x = x); [|rewrite F; exact H].
      assert (C : x = IZR (2 * z + 1) / 2 \/ x = IZR (2 * z - 1) / 2). { rewrite plus_IZR, minus_IZR, mult_IZR. unfold Rabs in H. destruct (Rcase_abs (x - IZR z)); [right|left]; lra. }
      destruct C as [C|C]; rewrite C; apply fl_half; lia.
Qed.
(** The same as in the models with rational numbers. *)
Theorem C139_exact_models : forall a b, (Z.abs a <= 2 ^ 50)%Z -> (0 < b <= 2 ^ 50)%Z ->
  roundquot a b = qround (inject_Z a / inject_Z b) /\ intquot a b = qtrunc (inject_Z a / inject_Z b).
Proof.
  intros a b A B. destruct (C139_quotients a b A B) as (T & N & E). assert (B0 : (0 < inject_Z b)%Q) by (unfold Qlt; cbn; lia). split.
  - apply (rounds_unique (inject_Z a / inject_Z b) (inject_Z a / inject_Z b)); [reflexivity| |apply rounds_qround]. set (z := roundquot a b) in *.
    set (q := (inject_Z a / inject_Z b)%Q). assert (QB : (q * inject_Z b == inject_Z a)%Q) by (unfold q; field; intros H; rewrite H in B0; discriminate).
    split.
    + unfold nearest, q. split.
      * apply Qle_shift_div_l; [exact B0|]. unfold Qle, Qmult, Qminus, Qplus, Qopp. cbn. lia.
      * apply Qle_shift_div_r; [exact B0|]. unfold Qle, Qmult, Qplus. cbn. lia.
    + intros H. apply E. destruct H as [H|H].
      * assert (K : (inject_Z (2 * (z * b - a)) == inject_Z b)%Q).
        { unfold Z.sub. rewrite inject_Z_mult, inject_Z_plus, inject_Z_opp, inject_Z_mult, <- QB. change (inject_Z 2) with 2%Q. setoid_replace (2 * (inject_Z z * inject_Z b + - (q * inject_Z b)))%Q with (2 * (inject_Z z - q) * inject_Z b)%Q by ring. rewrite H. ring. }
        apply (proj1 (inject_Z_injective _ _)) in K. clear - K B. lia.
      * assert (K : (inject_Z (2 * (a - z * b)) == inject_Z b)%Q).
        { unfold Z.sub. rewrite inject_Z_mult, inject_Z_plus, inject_Z_opp, inject_Z_mult, <- QB. change (inject_Z 2) with 2%Q. setoid_replace (2 * (q * inject_Z b + - (inject_Z z * inject_Z b)))%Q with (2 * (q - inject_Z z) * inject_Z b)%Q by ring. rewrite H. ring. }
        apply (proj1 (inject_Z_injective _ _)) in K. clear - K B. lia.
  - rewrite T. unfold qtrunc. destruct (Qle_bool 0 (inject_Z a / inject_Z b)) eqn:S.
    + apply Qle_bool_iff in S. assert (P : (0 <= a)%Z). { assert (P : (0 * inject_Z b <= inject_Z a / inject_Z b * inject_Z b)%Q) by (apply Qmult_le_compat_r; [exact S|lra || (apply Qlt_le_weak; exact B0)]).
        assert (QB : (inject_Z a / inject_Z b * inject_Z b == inject_Z a)%Q) by (field; intros H; rewrite H in B0; discriminate). rewrite QB, Qmult_0_l in P. unfold Qle in P. cbn in P. lia. }
      rewrite <- Zdiv_Qdiv. apply Z.quot_div_nonneg; lia.
    + assert (P : (a < 0)%Z). { destruct (Z.lt_ge_cases a 0) as [L|L]; [exact L|]. exfalso. assert (Qle_bool 0 (inject_Z a / inject_Z b) = true); [|congruence]. apply Qle_bool_iff. apply Qle_shift_div_l; [exact B0|]. rewrite Qmult_0_l. unfold Qle. cbn. lia. }
      unfold Qceiling. assert (OE : (- (inject_Z a / inject_Z b) == inject_Z (- a) / inject_Z b)%Q) by (rewrite inject_Z_opp; field; intros H; rewrite H in B0; discriminate). rewrite OE, <- Zdiv_Qdiv.
      rewrite <- (Z.opp_involutive a) at 1. rewrite Z.quot_opp_l by lia. f_equal. apply Z.quot_div_nonneg; lia.
Qed.
(** ** Errors of products *)
Lemma near_mul x x' y d B X : Rabs (x' - x) <= d -> Rabs y <= B -> Rabs x <= X -> Rabs (fl (x' * y) - x * y) <= d * B + u * ((X + d) * B) + eta.
Proof.
  intros D Y HX. assert (D0 : 0 <= d) by (pose proof (Rabs_pos (x' - x)); lra). assert (Y0 := Rabs_pos y).
  assert (X' : Rabs x' <= X + d). { replace x' with (x + (x' - x)) by ring. eapply Rle_trans; [apply Rabs_triang|]. lra. }
  assert (P : Rabs (x' * y) <= (X + d) * B) by (rewrite Rabs_mult; apply Rmult_le_compat; try lra; apply Rabs_pos).
  pose proof (fl_near _ _ P) as E. assert (Q : Rabs (x' * y - x * y) <= d * B). { replace (x' * y - x * y) with ((x' - x) * y) by ring. rewrite Rabs_mult. apply Rmult_le_compat; try lra; apply Rabs_pos. }
  replace (fl (x' * y) - x * y) with ((fl (x' * y) - x' * y) + (x' * y - x * y)) by ring. eapply Rle_trans; [apply Rabs_triang|]. lra.
Qed.
Lemma near_add x x' y y' d e B : Rabs (x' - x) <= d -> Rabs (y' - y) <= e -> Rabs (x + y) <= B -> Rabs (fl (x' + y') - (x + y)) <= d + e + u * (B + d + e) + eta.
Proof.
  intros D E S. assert (Q : Rabs ((x' + y') - (x + y)) <= d + e). { replace ((x' + y') - (x + y)) with ((x' - x) + (y' - y)) by ring. eapply Rle_trans; [apply Rabs_triang|]. lra. }
  assert (P : Rabs (x' + y') <= B + d + e). { replace (x' + y') with ((x + y) + ((x' + y') - (x + y))) by ring. eapply Rle_trans; [apply Rabs_triang|]. lra. }
  pose proof (fl_near _ _ P). replace (fl (x' + y') - (x + y)) with ((fl (x' + y') - (x' + y')) + ((x' + y') - (x + y))) by ring. eapply Rle_trans; [apply Rabs_triang|]. lra.
Qed.
Definition byte (v : Z) : Prop := (0 <= v <= 255)%Z.
Lemma byte_R v : byte v -> 0 <= IZR v <= 255.
Proof. intros [A B]. apply IZR_le in A, B. lra. Qed.
Lemma byte_abs v : byte v -> Rabs (IZR v) <= 255.
Proof. intros H. apply byte_R in H. apply Rabs_le. lra. Qed.
(** a fraction of two bytes, not above 1, times a byte *)
Definition tiny : R := / 1000000000.
Lemma fraction_err r l v : byte r -> byte v -> (0 < l)%Z -> Rabs (fl (fl (IZR r / IZR l) * IZR v) - IZR r / IZR l * IZR v) <= tiny.
Proof.
  intros R V L. assert (L1 : 1 <= IZR l) by (apply IZR_le; lia). apply byte_R in R. assert (X : Rabs (IZR r / IZR l) <= 255).
  { rewrite Rabs_pos_eq. - apply (Rmult_le_reg_r (IZR l)); [lra|]. replace (IZR r / IZR l * IZR l) with (IZR r) by (field; lra). nra. - apply Rmult_le_pos; [lra|]. apply Rlt_le, Rinv_0_lt_compat. lra. }
  pose proof (fl_near _ _ X) as D. pose proof (near_mul _ _ _ _ _ _ D (byte_abs v V) X) as E. pose proof u_pos. pose proof eta_pos. eapply Rle_trans; [exact E|]. unfold tiny.
  assert (u * 255 + eta <= / 10000000000000) by lra. assert (u * ((255 + (u * 255 + eta)) * 255) <= u * 100000) by (apply Rmult_le_compat_l; lra). lra.
Qed.
Lemma factor_back r l : byte r -> (0 < l)%Z -> byte l -> rround (fl (fl (IZR r / IZR l) * IZR l)) = r.
Proof.
  intros R L0 L. pose proof (fraction_err r l l R L L0) as E. assert (0 < IZR l) by now apply IZR_lt. replace (IZR r / IZR l * IZR l) with (IZR r) in E by (field; lra). apply rround_unique. unfold tiny in E. lra.
Qed.
Lemma setminmax_byte v : byte v -> setminmax v 0 255 = v.
Proof. intros [A B]. unfold setminmax, setmax, setmin. destruct (Z.gtb_spec v 255); [lia|]. destruct (Z.ltb_spec v 0); [lia|reflexivity]. Qed.
Lemma percent_0 : percent 0 = 1.
Proof. unfold percent. replace (0 / 100) with 0 by field. rewrite fl_0, Rplus_0_r. apply fl_1. Qed.
Lemma percent_100 : percent (-100) = 0.
Proof. unfold percent. replace (-100 / 100) with (-1) by field. rewrite (fl_Z (-1)) by lia. replace (1 + -1) with 0 by ring. apply fl_0. Qed.
(** ** Colours of three bytes *)
(** The factors of a colour times its own luminosity are the colour; so 0 percent of brightness and a threshold
    that contains the luminosity change nothing, and -100 percent gives black. *)
Theorem C139_colours : forall r g b, byte r -> byte g -> byte b ->
  (let (f, lum) := fRGBtoRGBfactorsandlum (r, g, b) in fRGBfactors2RGB f (IZR lum) = (r, g, b)) /\
  fbrightnessadjust 0 (r, g, b) = (r, g, b) /\ fbrightnessadjust (-100) (r, g, b) = (0, 0, 0)%Z /\
  (forall lo hi, (lo <= Z.max 1 (Z.max (Z.max r g) b) <= hi)%Z -> fthresholdadjust (lo, hi) (r, g, b) = (r, g, b) /\ fthresholdadjust (hi, lo) (r, g, b) = (r, g, b)).
Proof.
  intros r g b R G B. unfold byte in *. set (m := Z.max (Z.max r g) b). set (lum := if (m =? 0)%Z then 1%Z else m).
  assert (LE : lum = Z.max 1 m) by (unfold lum; destruct (Z.eqb_spec m 0); lia). assert (L0 : (0 < lum)%Z) by lia. assert (LB : byte lum) by (unfold byte; lia).
  assert (E : fRGBtoRGBfactorsandlum (r, g, b) = ((fl (IZR r / IZR lum), fl (IZR g / IZR lum), fl (IZR b / IZR lum)), lum)) by reflexivity.
  assert (K : fRGBfactors2RGB (fl (IZR r / IZR lum), fl (IZR g / IZR lum), fl (IZR b / IZR lum)) (IZR lum) = (r, g, b)) by (unfold fRGBfactors2RGB; rewrite !factor_back by (unfold byte; lia || assumption); reflexivity).
  split; [rewrite E; exact K|]. split; [|split].
  - unfold fbrightnessadjust. rewrite E, percent_0, Rmult_1_r, fl_Z by (unfold byte in LB; lia). rewrite K. unfold setminmax3. now rewrite !setminmax_byte.
  - unfold fbrightnessadjust. rewrite E, percent_100, Rmult_0_r, fl_0. unfold fRGBfactors2RGB. rewrite !Rmult_0_r, fl_0. now rewrite (rround_Z 0).
  - intros lo hi H. fold m in H. rewrite <- LE in H. unfold fthresholdadjust. rewrite E. cbn [fst snd]. unfold byte in LB.
    assert (S : forall l h, (l <= lum <= h)%Z -> setminmax lum l h = lum). { intros l h C. unfold setminmax, setmax, setmin. destruct (Z.gtb_spec lum h); [lia|]. destruct (Z.ltb_spec lum l); [lia|reflexivity]. }
    split.
    + destruct (Z.gtb_spec (Z.max (Z.min lo 255) 0) (Z.max (Z.min hi 255) 0)); [lia|]. rewrite S by lia. exact K.
    + destruct (Z.gtb_spec (Z.max (Z.min hi 255) 0) (Z.max (Z.min lo 255) 0)); rewrite S by lia; exact K.
Qed.
Lemma percent_le p q : p <= q -> percent p <= percent q.
Proof. intros H. unfold percent. apply fl_le, Rplus_le_compat_l, fl_le. lra. Qed.
Lemma percent_err p : -100 <= p <= 10000 -> 0 <= percent p /\ Rabs (percent p - (1 + p / 100)) <= / 1000000000000.
Proof.
  intros P. split; [rewrite <- percent_100; apply percent_le; lra|]. unfold percent. pose proof u_pos. pose proof eta_pos.
  assert (A : Rabs (p / 100) <= 100) by (apply Rabs_le; lra). pose proof (fl_near _ _ A) as D.
  assert (Z : Rabs (1 - 1) <= 0) by (rewrite Rminus_diag_eq by reflexivity; rewrite Rabs_R0; lra). assert (B : Rabs (1 + p / 100) <= 101) by (apply Rabs_le; lra).
  eapply Rle_trans; [apply (near_add _ _ _ _ _ _ _ Z D B)|]. assert (u * 100 + eta <= / 10000000000000) by lra. assert (u * (101 + 0 + (u * 100 + eta)) <= u * 102) by (apply Rmult_le_compat_l; lra). lra.
Qed.
Lemma setminmax_mono a b : (a <= b)%Z -> (setminmax a 0 255 <= setminmax b 0 255)%Z.
Proof. intros H. rewrite !setminmax_clamped by lia. unfold clamped. lia. Qed.
(** rounding of a number that floats have moved by less than a billionth *)
Lemma round_stable x y : Rabs (x - y) <= tiny -> Rabs (IZR (rround x) - y) <= 1 / 2 + tiny /\ (Rabs (y - IZR (rround y)) < 1 / 2 - tiny -> rround x = rround y).
Proof.
  intros H. pose proof (rround_near x) as N. apply Rabs_le_inv in H. apply Rabs_le_inv in N. split; [apply Rabs_le; lra|]. intros T. apply Rabs_def2 in T. apply rround_unique, Rabs_def1; lra.
Qed.
(** Brightness of a byte: the clamped rounded product up to a billionth; the float of the exact product is the
    same unless that is a billionth or less away from a half. *)
Theorem C139_brightness : forall p v, -100 <= p <= 10000 -> byte v -> let exact := IZR v * (1 + p / 100) in
  byte (fbrightbyte p v) /\
  (exists z, fbrightbyte p v = Z.max 0 (Z.min 255 z) /\ Rabs (IZR z - exact) <= 1 / 2 + tiny /\ (Rabs (exact - IZR (rround exact)) < 1 / 2 - tiny -> z = rround exact)) /\
  (p = 0 -> fbrightbyte p v = v) /\ (p = -100 -> fbrightbyte p v = 0%Z) /\
  (forall q w, p <= q -> (v <= w)%Z -> (fbrightbyte p v <= fbrightbyte q w)%Z).
Proof.
  intros p v P V exact. destruct (percent_err p P) as [P0 PE]. pose proof (byte_R v V) as VR. unfold fbrightbyte.
  assert (E : Rabs (fl (IZR v * percent p) - exact) <= tiny).
  { unfold exact. rewrite !(Rmult_comm (IZR v)). assert (B : Rabs (1 + p / 100) <= 101) by (apply Rabs_le; lra). eapply Rle_trans; [apply (near_mul _ _ _ _ _ _ PE (byte_abs v V) B)|]. pose proof u_pos. pose proof eta_pos. unfold tiny.
    assert (u * ((101 + / 1000000000000) * 255) <= u * 100000) by (apply Rmult_le_compat_l; lra). lra. }
  destruct (round_stable _ _ E) as [S1 S2].
  split; [rewrite setminmax_clamped by lia; unfold clamped, byte; lia|]. split; [|split; [|split]].
  - eexists. split; [rewrite setminmax_clamped by lia; unfold clamped; reflexivity|]. split; assumption.
  - intros ->. rewrite percent_0, Rmult_1_r, fl_Z, rround_Z by (unfold byte in V; lia). now apply setminmax_byte.
  - intros ->. rewrite percent_100, Rmult_0_r, fl_0, (rround_Z 0). reflexivity.
  - intros q w PQ VW. apply setminmax_mono, rround_mono, fl_le. pose proof (percent_le p q PQ). apply IZR_le in VW. apply Rmult_le_compat; lra.
Qed.
(** Filters by a factor. *)
Theorem C139_filter : forall f v, 0 <= f <= 100 -> byte v -> let exact := IZR v * f in
  (0 <= ffilterbyte f v)%Z /\ (f <= 1 -> (ffilterbyte f v <= v)%Z) /\ (f = 1 -> ffilterbyte f v = v) /\ (f = 0 -> ffilterbyte f v = 0%Z) /\
  Rabs (IZR (ffilterbyte f v) - exact) <= 1 / 2 + tiny /\ (Rabs (exact - IZR (rround exact)) < 1 / 2 - tiny -> ffilterbyte f v = rround exact) /\
  (forall g w, f <= g -> (v <= w)%Z -> (ffilterbyte f v <= ffilterbyte g w)%Z).
Proof.
  intros f v F V exact. pose proof (byte_R v V) as VR. unfold ffilterbyte.
  assert (E : Rabs (fl (IZR v * f) - exact) <= tiny).
  { unfold exact. assert (A : Rabs (IZR v * f) <= 25500) by (rewrite Rabs_pos_eq by nra; nra). eapply Rle_trans; [apply (fl_near _ _ A)|]. pose proof u_pos. pose proof eta_pos. unfold tiny. lra. }
  destruct (round_stable _ _ E) as [S1 S2].
  assert (M : forall g w, f <= g -> (v <= w)%Z -> (rround (fl (IZR v * f)) <= rround (fl (IZR w * g)))%Z) by (intros g w FG VW; apply rround_mono, fl_le; apply IZR_le in VW; apply Rmult_le_compat; lra).
  assert (O : rround (fl (IZR v * 1)) = v) by (rewrite Rmult_1_r, fl_Z, rround_Z by (unfold byte in V; lia); reflexivity).
  split; [rewrite <- (rround_Z 0); apply rround_mono, fl_nonneg; nra|]. split; [intros F1; rewrite <- O at 2; apply M; [lra|lia]|]. split; [intros ->; exact O|].
  split; [intros ->; rewrite Rmult_0_r, fl_0, (rround_Z 0); reflexivity|]. split; [exact S1|]. split; [exact S2|exact M].
Qed.
Lemma trunc_pos x : 0 <= x -> IZR (rtrunc x) <= x < IZR (rtrunc x) + 1.
Proof. intros H. unfold rtrunc. rewrite (proj2 (rlt_no x 0)) by lra. destruct (base_Int_part x). lra. Qed.
(** int((a / lum) * v) is the exact quotient a v / lum without its fraction, except that it may be one less where
    the quotient is an integer. *)
Theorem C139_threshold : forall a lum v, byte a -> byte v -> (0 < lum)%Z -> byte lum ->
  (0 <= fthresholdbyte a lum v)%Z /\ ((a * v mod lum <> 0)%Z -> fthresholdbyte a lum v = (a * v / lum)%Z) /\
  (fthresholdbyte a lum v = a * v / lum \/ fthresholdbyte a lum v = a * v / lum - 1)%Z.
Proof.
  intros a l v A V L0 L. pose proof (fraction_err a l v A V L0) as E. unfold fthresholdbyte. set (y := fl (fl (IZR a / IZR l) * IZR v)) in *.
  pose proof (byte_R a A) as AR. pose proof (byte_R v V) as VR. assert (LR : 0 < IZR l) by now apply IZR_lt. assert (LU : IZR l <= 255) by (apply byte_R in L; lra).
  assert (Y0 : 0 <= y) by (apply fl_nonneg, Rmult_le_pos; [apply fl_nonneg, Rmult_le_pos; [lra|apply Rlt_le, Rinv_0_lt_compat; lra]|lra]).
  pose proof (trunc_pos y Y0) as T. set (t := rtrunc y) in *. set (q := (a * v / l)%Z). set (r := (a * v mod l)%Z). unfold byte in *.
  pose proof (Z.div_mod (a * v) l ltac:(lia)) as D. fold q r in D. pose proof (Z.mod_pos_bound (a * v) l L0) as RB. fold r in RB.
  assert (X : IZR a / IZR l * IZR v = IZR q + IZR r / IZR l). { apply (Rmult_eq_reg_r (IZR l)); [|lra]. replace (IZR a / IZR l * IZR v * IZR l) with (IZR (a * v)) by (rewrite mult_IZR; field; lra). rewrite D, plus_IZR, mult_IZR. field. lra. }
  rewrite X in E. assert (I : / 255 <= / IZR l) by (apply Rinv_le_contravar; lra).
  assert (F0 : 0 <= IZR r / IZR l) by (apply Rmult_le_pos; [apply IZR_le; lia|lra]).
  assert (F1 : IZR r / IZR l <= 1 - / IZR l). { apply (Rmult_le_reg_r (IZR l)); [lra|]. replace (IZR r / IZR l * IZR l) with (IZR r) by (field; lra). replace ((1 - / IZR l) * IZR l) with (IZR l - 1) by (field; lra). rewrite <- minus_IZR. apply IZR_le. lia. }
  apply Rabs_le_inv in E. unfold tiny in E.
  assert (U : (t < q + 1)%Z) by (apply lt_IZR; rewrite plus_IZR; lra). assert (W : (q - 1 < t + 1)%Z) by (apply lt_IZR; rewrite plus_IZR, minus_IZR; lra).
  assert (T0 : (-1 < t)%Z) by (apply lt_IZR; lra).
  split; [lia|]. split; [|lia]. intros NZ. assert (F2 : / IZR l <= IZR r / IZR l). { assert (1 <= IZR r) by (apply IZR_le; lia). unfold Rdiv. rewrite <- (Rmult_1_l (/ IZR l)) at 1. apply Rmult_le_compat_r; lra. }
  assert (q < t + 1)%Z; [apply lt_IZR; rewrite plus_IZR; lra|lia].
Qed.
(** It is one less than it should be for (1 / 49) * 49. *)
Theorem C139_threshold_refuted : fthresholdbyte 1 49 49 = 0%Z /\ fthresholdbyte 15 107 107 = 14%Z.
Proof. split; apply threshcompute_ok; [vm_compute; reflexivity|lia|vm_compute; reflexivity|lia]. Qed.

(** ** Gamma *)
Lemma gamma_id_check : forallb (fun n => match threshcompute (Z.of_nat n) 255 255 with Some z => (z =? Z.of_nat n)%Z | None => false end) (seq 1 255) = true.
Proof. vm_compute. reflexivity. Qed.
Lemma gamma_id l : byte l -> fgammacorrectbyte (fun x => x) l = l.
Proof.
  intros [A B]. unfold fgammacorrectbyte. destruct (Z.eq_dec l 0) as [->|N].
  - replace (0 / 255) with 0 by field. rewrite fl_0, Rmult_0_l, fl_0. apply (rtrunc_Z 0).
  - pose proof gamma_id_check as C. rewrite forallb_forall in C. specialize (C (Z.to_nat l) ltac:(apply in_seq; lia)). rewrite Z2Nat.id in C by lia.
    destruct (threshcompute l 255 255) as [z|] eqn:E; [|discriminate]. apply Z.eqb_eq in C. subst z. apply (threshcompute_ok l 255 255 l E). lia.
Qed.
(** [pow] is x ** gamma: a byte stays a byte, a brighter byte stays as bright or brighter, 0 and 255 stay.  A power
    that changes nothing, as gamma = 1, leaves all bytes and colours as they are. *)
Theorem C139_gamma : forall pow, (forall x, 0 <= x <= 1 -> 0 <= pow x <= 1) ->
  (forall l, byte l -> byte (fgammacorrectbyte pow l)) /\
  ((forall x y, 0 <= x -> x <= y -> y <= 1 -> pow x <= pow y) -> forall l l', byte l -> byte l' -> (l <= l')%Z -> (fgammacorrectbyte pow l <= fgammacorrectbyte pow l')%Z) /\
  (pow 0 = 0 -> fgammacorrectbyte pow 0 = 0%Z) /\ (pow 1 = 1 -> fgammacorrectbyte pow 255 = 255%Z).
Proof.
  intros pow P. assert (IN : forall l, byte l -> 0 <= fl (IZR l / 255) <= 1). { intros l L. apply byte_R in L. split; [apply fl_nonneg; lra|]. rewrite <- fl_1. apply fl_le. lra. }
  assert (TR : forall l, byte l -> 0 <= fl (pow (fl (IZR l / 255)) * 255) <= 255). { intros l L. specialize (P _ (IN l L)). split; [apply fl_nonneg; lra|]. apply (Rle_trans _ (fl 255)); [apply fl_le; lra|rewrite (fl_Z 255) by lia; lra]. }
  split; [|split; [|split]].
  - intros l L. specialize (TR l L). unfold fgammacorrectbyte. pose proof (trunc_pos _ (proj1 TR)) as T. split; [assert (-1 < rtrunc (fl (pow (fl (IZR l / 255)) * 255)))%Z by (apply lt_IZR; lra); lia|apply le_IZR; lra].
  - intros M l l' L L' LL. pose proof (trunc_pos _ (proj1 (TR l L))) as T. pose proof (trunc_pos _ (proj1 (TR l' L'))) as T'. unfold fgammacorrectbyte.
    assert (LE : fl (pow (fl (IZR l / 255)) * 255) <= fl (pow (fl (IZR l' / 255)) * 255)). { apply fl_le, Rmult_le_compat_r; [lra|]. apply M; [apply IN, L| |apply IN, L']. apply fl_le. apply IZR_le in LL. lra. }
    apply Z.lt_succ_r, lt_IZR. rewrite succ_IZR. lra.
  - intros H. unfold fgammacorrectbyte. replace (0 / 255) with 0 by field. rewrite fl_0, H, Rmult_0_l, fl_0. apply (rtrunc_Z 0).
  - intros H. unfold fgammacorrectbyte. replace (255 / 255) with 1 by field. rewrite fl_1, H, Rmult_1_l, fl_Z by lia. apply rtrunc_Z.
Qed.
Theorem C139_gamma_identity : forall pow, (forall x, pow x = x) ->
  (forall l, byte l -> fgammacorrectbyte pow l = l) /\ (forall r g b, byte r -> byte g -> byte b -> fgammacorrect pow (r, g, b) = (r, g, b)) /\
  (forall lum v, (0 < lum)%Z -> byte lum -> byte v -> fgammabyte pow lum v = v).
Proof.
  intros pow P. assert (I : forall l, byte l -> fgammacorrectbyte pow l = l) by (intros l L; unfold fgammacorrectbyte; rewrite P; apply (gamma_id l L)).
  split; [exact I|]. split.
  - intros r g b R G B. assert (K : let (f, lum) := fRGBtoRGBfactorsandlum (r, g, b) in fRGBfactors2RGB f (IZR lum) = (r, g, b)) by apply (C139_colours r g b R G B). unfold fgammacorrect. revert K. destruct (fRGBtoRGBfactorsandlum (r, g, b)) as [f lum] eqn:E. intros K.
    assert (L : byte lum). { unfold fRGBtoRGBfactorsandlum in E. injection E as <- <-. unfold byte in *. destruct (Z.eqb_spec (Z.max (Z.max r g) b) 0); lia. }
    rewrite I, K by exact L. unfold setminmax3. now rewrite !setminmax_byte.
  - intros lum v L0 L V. unfold fgammabyte. rewrite I by exact L. replace (IZR lum / IZR lum) with 1 by (field; apply not_0_IZR; lia). rewrite fl_1, Rmult_1_r, fl_Z by (unfold byte in V; lia). apply rtrunc_Z.
Qed.
(** Pixels of 24-bit pictures may lose one: where gamma takes 49 to 1, the grey 49 becomes 0 and not 1. *)
Theorem C139_gamma_refuted : (forall pow, fgammacorrectbyte pow 49 = 1%Z -> fgammabyte pow 49 49 = 0%Z) /\ fgammacorrectbyte (fun x => fl (x * x * x)) 49 = 1%Z.
Proof.
  split.
  - intros pow H. unfold fgammabyte. rewrite H, Rmult_comm. apply (proj1 C139_threshold_refuted).
  - unfold fgammacorrectbyte. set (x := fl (49 / 255)). pose proof u_pos. pose proof eta_pos.
    assert (X : Rabs (x - 49 / 255) <= / 1000000). { unfold x. eapply Rle_trans; [apply (fl_near _ 1); apply Rabs_le; lra|]. lra. } apply Rabs_le_inv in X.
    assert (B : 0.007 <= x * x * x <= 0.0072). { assert (0.192 <= x <= 0.1922) by lra. assert (0.192 * 0.192 <= x * x <= 0.1922 * 0.1922) by nra. nra. }
    assert (Y : Rabs (fl (x * x * x) - x * x * x) <= / 1000000) by (eapply Rle_trans; [apply (fl_near _ 1); apply Rabs_le; lra|]; lra). set (y := fl (x * x * x)) in *. apply Rabs_le_inv in Y.
    assert (W : Rabs (fl (y * 255) - y * 255) <= / 1000000) by (eapply Rle_trans; [apply (fl_near _ 2); apply Rabs_le; lra|]; lra). apply Rabs_le_inv in W.
    unfold rtrunc. rewrite (proj2 (rlt_no _ _)) by lra. apply int_unique. lra.
Qed.
(** ** Greys, mixtures and palettes *)
Theorem C139_grey : forall b g r, byte b -> byte g -> byte r ->
  fgreybyte b g r = ((b + g + r) / 3)%Z /\ (Z.min (Z.min b g) r <= fgreybyte b g r <= Z.max (Z.max b g) r)%Z /\
  exists v, fmonochrome (r, g, b) = (v, v, v) /\ (3 * v - 1 <= r + g + b <= 3 * v + 1)%Z.
Proof.
  intros b g r B G R. unfold byte in *. unfold fgreybyte. rewrite intquot_pos by lia. split; [reflexivity|]. pose proof (Z.div_mod (b + g + r) 3 ltac:(lia)). pose proof (Z.mod_pos_bound (b + g + r) 3 ltac:(lia)). split; [lia|].
  eexists. split; [reflexivity|]. destruct (C139_quotients (r + g + b) 3 ltac:(lia) ltac:(lia)) as (_ & N & _). lia.
Qed.
(** A colour from its factors by colormix may lose one in each part. *)
Theorem C139_mix : forall r g b, byte r -> byte g -> byte b -> let (f, lum) := fRGBtoRGBfactorsandlum (r, g, b) in
  let '(r', g', b') := fcolormix lum f in (r - 1 <= r' <= r /\ g - 1 <= g' <= g)%Z /\ (b - 1 <= b' <= b)%Z.
Proof.
  intros r g b R G B. unfold fRGBtoRGBfactorsandlum. set (m := Z.max (Z.max r g) b). set (lum := if (m =? 0)%Z then 1%Z else m). unfold fcolormix.
  assert (M0 : byte m) by (unfold byte, m in *; lia). clearbody m. assert (LE : lum = Z.max 1 m) by (unfold byte, lum in *; destruct (Z.eqb_spec m 0); lia). clearbody lum. assert (L0 : (0 < lum)%Z) by lia. assert (LB : byte lum) by (unfold byte in *; lia).
  assert (K : forall x, byte x -> (x - 1 <= rtrunc (fl (fl (IZR x / IZR lum) * IZR lum)) <= x)%Z).
  { intros x X. destruct (C139_threshold x lum lum X LB L0 LB) as (_ & _ & C). unfold fthresholdbyte in C. rewrite Z.div_mul in C by lia. lia. }
  pose proof (K r R). pose proof (K g G). pose proof (K b B). lia.
Qed.
Theorem C139_mix_refuted : let (f, lum) := fRGBtoRGBfactorsandlum (1, 49, 15)%Z in lum = 49%Z /\ exists g b, fcolormix lum f = (0, g, b)%Z.
Proof.
  cbn. split; [reflexivity|]. eexists. eexists. rewrite (proj1 C139_threshold_refuted : rtrunc (fl (fl (1 / 49) * 49)) = 0%Z). reflexivity.
Qed.
Lemma blend_err a x i n : byte a -> byte x -> (0 <= i <= n)%Z -> (0 < n)%Z -> Rabs (flerp (IZR a) (IZR x) (fl (IZR i / IZR n)) - ((1 - IZR i / IZR n) * IZR a + IZR i / IZR n * IZR x)) <= tiny.
Proof.
  intros A X I N. set (j := IZR i / IZR n). set (j' := fl j). pose proof u_pos as U. pose proof eta_pos as ET. assert (N0 : 0 < IZR n) by now apply IZR_lt.
  assert (J : 0 <= j <= 1). { unfold j. split; [apply Rmult_le_pos; [apply IZR_le; lia|apply Rlt_le, Rinv_0_lt_compat; lra]|]. apply (Rmult_le_reg_r (IZR n)); [lra|]. replace (IZR i / IZR n * IZR n) with (IZR i) by (field; lra). rewrite Rmult_1_l. apply IZR_le. lia. }
  assert (D : Rabs (j' - j) <= / 1000000000000000). { unfold j'. eapply Rle_trans; [apply (fl_near _ 1); apply Rabs_le; lra|]. lra. }
  assert (D1 : Rabs (fl (1 - j') - (1 - j)) <= / 100000000000000).
  { unfold Rminus at 2 3. assert (Z : Rabs (1 - 1) <= 0) by (rewrite Rminus_diag_eq by reflexivity; rewrite Rabs_R0; lra). assert (D' : Rabs (- j' - - j) <= / 1000000000000000) by (replace (- j' - - j) with (- (j' - j)) by ring; rewrite Rabs_Ropp; exact D).
    assert (B : Rabs (1 + - j) <= 1) by (apply Rabs_le; lra). eapply Rle_trans; [apply (near_add _ _ _ _ _ _ _ Z D' B)|]. assert (u * (1 + 0 + / 1000000000000000) <= u * 2) by (apply Rmult_le_compat_l; lra). lra. }
  assert (JA : Rabs (1 - j) <= 1) by (apply Rabs_le; lra). assert (JB : Rabs j <= 1) by (apply Rabs_le; lra).
  pose proof (near_mul _ _ _ _ _ _ D1 (byte_abs a A) JA) as E1. pose proof (near_mul _ _ _ _ _ _ D (byte_abs x X) JB) as E2.
  assert (E1' : Rabs (fl (fl (1 - j') * IZR a) - (1 - j) * IZR a) <= / 100000000000) by (eapply Rle_trans; [exact E1|]; assert (u * ((1 + / 100000000000000) * 255) <= u * 1000) by (apply Rmult_le_compat_l; lra); lra).
  assert (E2' : Rabs (fl (j' * IZR x) - j * IZR x) <= / 100000000000) by (eapply Rle_trans; [exact E2|]; assert (u * ((1 + / 1000000000000000) * 255) <= u * 1000) by (apply Rmult_le_compat_l; lra); lra).
  apply byte_R in A, X. assert (S : Rabs ((1 - j) * IZR a + j * IZR x) <= 510) by (apply Rabs_le; split; nra).
  eapply Rle_trans; [apply (near_add _ _ _ _ _ _ _ E1' E2' S)|]. assert (u * (510 + / 100000000000 + / 100000000000) <= u * 1000) by (apply Rmult_le_compat_l; lra). unfold tiny. lra.
Qed.
(** A palette from one colour to another: each part lies between the ends, is exact at the ends, and is the rounded
    exact value up to a billionth. *)
Theorem C139_blend : forall r g b x y z i n, byte r -> byte g -> byte b -> byte x -> byte y -> byte z -> (0 <= i <= n)%Z -> (0 < n)%Z ->
  let part a c v := (Z.min a c <= v <= Z.max a c)%Z /\ Rabs (IZR v - (IZR a + IZR (c - a) * IZR i / IZR n)) <= 1 / 2 + tiny in
  let '(r', g', b') := fblend (r, g, b) (x, y, z) i n in part r x r' /\ part g y g' /\ part b z b' /\ (i = 0%Z -> (r', g', b') = (r, g, b)) /\ (i = n -> (r', g', b') = (x, y, z)).
Proof.
  intros r g b x y z i n R G B X Y Z I N part. unfold fblend. assert (N0 : 0 < IZR n) by now apply IZR_lt.
  assert (J : 0 <= IZR i / IZR n <= 1). { split; [apply Rmult_le_pos; [apply IZR_le; lia|apply Rlt_le, Rinv_0_lt_compat; lra]|]. apply (Rmult_le_reg_r (IZR n)); [lra|]. replace (IZR i / IZR n * IZR n) with (IZR i) by (field; lra). rewrite Rmult_1_l. apply IZR_le. lia. }
  assert (K : forall a c, byte a -> byte c -> part a c (rround (flerp (IZR a) (IZR c) (fl (IZR i / IZR n))))).
  { intros a c A C. pose proof (blend_err a c i n A C I N) as E. destruct (round_stable _ _ E) as [S _]. replace ((1 - IZR i / IZR n) * IZR a + IZR i / IZR n * IZR c) with (IZR a + IZR (c - a) * IZR i / IZR n) in * by (rewrite minus_IZR; field; lra).
    unfold part. split; [|exact S]. set (v := rround _) in *. apply Rabs_le_inv in S. unfold tiny in S. replace (IZR (c - a) * IZR i / IZR n) with (IZR (c - a) * (IZR i / IZR n)) in S by (unfold Rdiv; ring). rewrite minus_IZR in S.
    assert (Lo : IZR (Z.min a c) <= IZR a + (IZR c - IZR a) * (IZR i / IZR n)). { destruct (Z.min_spec a c) as [[H ->]|[H ->]]; apply IZR_le in H || apply IZR_lt in H; nra. }
    assert (Hi : IZR a + (IZR c - IZR a) * (IZR i / IZR n) <= IZR (Z.max a c)). { destruct (Z.max_spec a c) as [[H ->]|[H ->]]; apply IZR_le in H || apply IZR_lt in H; nra. }
    assert (Z.min a c < v + 1)%Z by (apply lt_IZR; rewrite plus_IZR; lra). assert (v < Z.max a c + 1)%Z by (apply lt_IZR; rewrite plus_IZR; lra). lia. }
  split; [now apply K|]. split; [now apply K|]. split; [now apply K|]. split; intros ->.
  - assert (F : forall a c, byte a -> rround (flerp (IZR a) c (fl (0 / IZR n))) = a).
    { intros a c A. replace (0 / IZR n) with 0 by (field; lra). unfold flerp. rewrite fl_0, Rminus_0_r, fl_1, Rmult_1_l, Rmult_0_l, fl_0, Rplus_0_r. unfold byte in A. rewrite !fl_Z by (rewrite ?fl_Z; lia). apply rround_Z. }
    now rewrite !F.
  - assert (F : forall a c, byte c -> rround (flerp a (IZR c) (fl (IZR n / IZR n))) = c).
    { intros a c C. replace (IZR n / IZR n) with 1 by (field; lra). unfold flerp. rewrite fl_1. replace (1 - 1) with 0 by ring. rewrite fl_0, Rmult_0_l, Rmult_1_l, fl_0, Rplus_0_l. unfold byte in C. rewrite !fl_Z by (rewrite ?fl_Z; lia). apply rround_Z. }
    now rewrite !F.
Qed.
Example C139_ex : roundquot 5 2 = 2%Z /\ intquot (-7) 2 = (-3)%Z /\ fthresholdbyte 100 200 37 = 18%Z /\ fgreybyte 1 2 5 = 2%Z /\ fbrightbyte 0 77 = 77%Z /\ byte 77 /\ float (/ 4).
Proof.
  split. { destruct (C139_quotients 5 2 ltac:(lia) ltac:(lia)) as (_ & A & B). assert (C : roundquot 5 2 = 2%Z \/ roundquot 5 2 = 3%Z) by lia. destruct C as [C|C]; [exact C|]. rewrite C in B. specialize (B eq_refl). discriminate. }
  split; [exact (proj1 (C139_quotients (-7) 2 ltac:(lia) ltac:(lia)))|]. split; [apply threshcompute_ok; [vm_compute; reflexivity|lia]|].
  split; [exact (proj1 (C139_grey 1 2 5 ltac:(red; lia) ltac:(red; lia) ltac:(red; lia)))|].
  split; [apply (C139_brightness 0 77 ltac:(lra) ltac:(red; lia)); reflexivity|]. split; [red; lia|].
  unfold float. replace (/ 4) with (IZR 1 / IZR 4) by lra. assert (F : flcheck 1 4 (2 ^ 52) 54 = true) by (vm_compute; reflexivity). rewrite (flcheck_ok _ _ _ _ F). change (2 ^ 54)%Z with (4 * 2 ^ 52)%Z. rewrite mult_IZR. field. apply not_0_IZR. lia.
Qed.

Print Assumptions C139_quotients.
Print Assumptions C139_exact_models.
Print Assumptions C139_colours.
Print Assumptions C139_brightness.
Print Assumptions C139_filter.
Print Assumptions C139_threshold.
Print Assumptions C139_threshold_refuted.
Print Assumptions C139_gamma.
Print Assumptions C139_gamma_identity.
Print Assumptions C139_gamma_refuted.
Print Assumptions C139_grey.
Print Assumptions C139_mix.
Print Assumptions C139_mix_refuted.
Print Assumptions C139_blend.
