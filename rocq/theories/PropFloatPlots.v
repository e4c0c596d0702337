(** Property C144: points of scatter plots with the rounding of floats. *)
From Coq Require Import ZArith QArith Qreals Reals List Lia Lra Bool.
From Verif Require Import PyBase PyFacts Bmp BmpFacts Buffers MathLib Draw Shapes Solids Spec SpecExact Exact PropExact CurveProofs Plots Coords RealProofs Floats FloatProofs Floats3 PropFloats3 FloatPlots.
Import ListNotations.
Open Scope R_scope.

(** ** Errors *)
Lemma fl_scaled x t : Rabs (fl x * t - x * t) <= u * Rabs (x * t) + eta * Rabs t.
Proof.
  replace (fl x * t - x * t) with ((fl x - x) * t) by ring. rewrite !Rabs_mult. rewrite <- Rmult_assoc, <- Rmult_plus_distr_r. apply Rmult_le_compat_r; [apply Rabs_pos|apply fl_err].
Qed.
(** the sizes of the numbers *)
Definition sized (o s t n : Z) : Prop := (Z.abs o <= 2 ^ 20 /\ Z.abs s <= 2 ^ 20 /\ Z.abs t <= 2 ^ 20 /\ Z.abs n <= 2 ^ 26 /\ t <> 0)%Z.
Lemma Zabs_R a b : (Z.abs a <= b)%Z -> Rabs (IZR a) <= IZR b.
Proof. intros H. rewrite <- abs_IZR. now apply IZR_le. Qed.
Lemma place_err o s t n : sized o s t n -> Rabs (fplacex o s (fl (IZR n / IZR t)) * IZR t - IZR (o * t + n * s)) < / 4.
Proof.
  intros (O & S & T & N & Z). unfold fplacex. assert (OT : (Z.abs (o * t) <= 2 ^ 40)%Z) by (rewrite Z.abs_mul; change (2 ^ 40)%Z with (2 ^ 20 * 2 ^ 20)%Z; apply Z.mul_le_mono_nonneg; lia).
  assert (NS : (Z.abs (n * s) <= 2 ^ 46)%Z) by (rewrite Z.abs_mul; change (2 ^ 46)%Z with (2 ^ 26 * 2 ^ 20)%Z; apply Z.mul_le_mono_nonneg; lia).
  apply Zabs_R in S, T, N, OT, NS. rewrite plus_IZR. rewrite mult_IZR in OT, NS. rewrite !mult_IZR. apply not_0_IZR in Z. clear O. 
  set (q := fl (IZR n / IZR t)). set (p := fl (q * IZR s)). set (f := fl (IZR o + p)).
  pose proof (fl_scaled (IZR n / IZR t) (IZR t)) as Q. fold q in Q. replace (IZR n / IZR t * IZR t) with (IZR n) in Q by (field; exact Z).
  pose proof (fl_scaled (q * IZR s) (IZR t)) as P. fold p in P. pose proof (fl_scaled (IZR o + p) (IZR t)) as F. fold f in F.
  pose proof u_pos as [U0 U1]. pose proof eta_pos as [E0 E1].
  assert (ET : eta * Rabs (IZR t) <= / 100000000) by (apply Rle_trans with (/ 1000000000000000000 * IZR (2 ^ 20)); [apply Rmult_le_compat; try lra; try apply Rabs_pos|]; change (2 ^ 20)%Z with 1048576%Z; lra).
  assert (UB : forall x b, Rabs x <= b -> u * Rabs x <= / 9000000000000000 * b) by (intros x b B; apply Rmult_le_compat; try lra; apply Rabs_pos).
  change (2 ^ 20)%Z with 1048576%Z in *. change (2 ^ 26)%Z with 67108864%Z in *. change (2 ^ 40)%Z with 1099511627776%Z in *. change (2 ^ 46)%Z with 70368744177664%Z in *.
  pose proof (UB _ _ N) as Q'. assert (Q1 : Rabs (q * IZR t - IZR n) <= / 40000000) by lra.
  assert (Q2 : Rabs (q * IZR s * IZR t - IZR n * IZR s) <= / 30).
  { replace (q * IZR s * IZR t - IZR n * IZR s) with ((q * IZR t - IZR n) * IZR s) by ring. rewrite Rabs_mult. apply Rle_trans with (/ 40000000 * 1048576); [apply Rmult_le_compat; try apply Rabs_pos; assumption|lra]. }
  assert (Q3 : Rabs (q * IZR s * IZR t) <= 70368744177665) by (apply Rabs_le_inv in Q2; apply Rabs_le_inv in NS; apply Rabs_le; lra).
  pose proof (UB _ _ Q3) as P'. assert (P1 : Rabs (p * IZR t - q * IZR s * IZR t) <= / 100) by lra.
  assert (P2 : Rabs ((IZR o + p) * IZR t) <= 72000000000000) by (rewrite Rmult_plus_distr_r; apply Rabs_le_inv in P1; apply Rabs_le_inv in Q3; apply Rabs_le_inv in OT; apply Rabs_le; lra).
  pose proof (UB _ _ P2) as F'. assert (F1 : Rabs (f * IZR t - (IZR o + p) * IZR t) <= / 100) by lra. rewrite Rmult_plus_distr_r in F1.
  apply Rabs_le_inv in F1. apply Rabs_le_inv in P1. apply Rabs_le_inv in Q2. apply Rabs_def1; lra.
Qed.
Lemma place_tick o s t n k : sized o s t n -> (n = k * t)%Z -> fplacex o s (fl (IZR n / IZR t)) = IZR (o + k * s).
Proof.
  intros (O & S & T & N & Z) E. assert (K : (Z.abs k <= 2 ^ 26)%Z) by (rewrite E, Z.abs_mul in N; nia). unfold fplacex. rewrite E, mult_IZR. replace (IZR k * IZR t / IZR t) with (IZR k) by (field; now apply not_0_IZR).
  assert (KS : (Z.abs (k * s) <= 2 ^ 46)%Z) by (rewrite Z.abs_mul; change (2 ^ 46)%Z with (2 ^ 26 * 2 ^ 20)%Z; apply Z.mul_le_mono_nonneg; lia).
  rewrite (fl_Z k) by lia. rewrite <- mult_IZR, fl_Z by lia. rewrite <- plus_IZR, fl_Z by lia. reflexivity.
Qed.
(** the place of y is that of x with the step upwards *)
Lemma place_y o s q : fplacey o s q = fplacex o (- s) q.
Proof. unfold fplacey, fplacex. rewrite opp_IZR, Ropp_mult_distr_r_reverse, fl_opp. reflexivity. Qed.

(** ** Agreement with the exact place *)
(** either on a tick of the axis, or neither halfway between two pixels nor on the limit *)
Definition settled (o s t lim n : Z) : Prop :=
  sized o s t n /\ ((exists k, n = k * t) \/ ((forall k, 2 * (n * s) <> (2 * k + 1) * t) /\ n * s <> (lim - o) * t))%Z.
Lemma place_agree o s t lim n (e : Q) : settled o s t lim n -> (e * inject_Z t == inject_Z (o * t + n * s))%Q ->
  let f := fplacex o s (fl (IZR n / IZR t)) in
  rround f = qround e /\ (IZR lim < f <-> (inject_Z lim < e)%Q) /\ (f < IZR lim <-> (e < inject_Z lim)%Q).
Proof.
  intros (SZ & C) E f. assert (TZ : t <> 0%Z) by apply SZ. pose proof (not_0_IZR _ TZ) as TR.
  assert (L : forall z, inject_Z z = z # 1) by reflexivity.
  destruct C as [(k & K) | (H & NL)].
  - pose proof (place_tick o s t n k SZ K) as P. fold f in P. assert (EQ : (e == inject_Z (o + k * s))%Q).
    { apply (Qmult_inj_r _ _ (inject_Z t)); [unfold Qeq; cbn; lia|]. rewrite E, <- inject_Z_mult. unfold Qeq. cbn. rewrite K. ring. }
    rewrite P, rround_Z. split; [symmetry; now apply nearest_integer|]. split; (split; intros Q; [apply lt_IZR in Q; rewrite EQ, <- Zlt_Qlt; exact Q|rewrite EQ, <- Zlt_Qlt in Q; now apply IZR_lt]).
  - pose proof (place_err o s t n SZ) as P. fold f in P. set (N := (o * t + n * s)%Z) in *. apply Qeq_eqR in E. rewrite Q2R_mult in E. assert (Z1 : forall z, Q2R (inject_Z z) = IZR z) by (intros z; unfold Q2R, inject_Z; cbn [Qnum Qden]; now rewrite Rinv_1, Rmult_1_r). rewrite !Z1 in E.
    assert (TP : 0 < Rabs (IZR t)) by now apply Rabs_pos_lt.
    split.
    + set (m := qround e). pose proof (qround_nearest e) as NR. unfold nearest in NR. fold m in NR. destruct NR as [N1 N2].
      assert (M1 : (2 * Z.abs (N - m * t) <= Z.abs t)%Z).
      { assert (HF : Q2R (1 # 2) = / 2) by (unfold Q2R; cbn; lra). apply Qle_Rle in N1. apply Qle_Rle in N2. rewrite Q2R_minus, Z1, HF in N1. rewrite Q2R_plus, Z1, HF in N2.
        apply le_IZR. rewrite mult_IZR, !abs_IZR, minus_IZR, mult_IZR, <- E. replace (Q2R e * IZR t - IZR m * IZR t) with ((Q2R e - IZR m) * IZR t) by ring. rewrite Rabs_mult.
        assert (Rabs (Q2R e - IZR m) <= / 2) by (apply Rabs_le; lra). nra. }
      assert (M2 : (2 * Z.abs (N - m * t) <> Z.abs t)%Z).
      { intros C. destruct (Z.abs_spec (N - m * t)) as [[_ A] | [_ A]], (Z.abs_spec t) as [[_ B] | [_ B]]; rewrite A, B in C; [apply (H (m - o)%Z)|apply (H (m - o - 1)%Z)|apply (H (m - o - 1)%Z)|apply (H (m - o)%Z)]; unfold N in C; lia. }
      assert (M3 : (2 * Z.abs (N - m * t) + 1 <= Z.abs t)%Z) by lia. apply IZR_le in M3. rewrite plus_IZR, mult_IZR, !abs_IZR, minus_IZR, mult_IZR in M3.
      apply rround_unique. apply (Rmult_lt_reg_r (Rabs (IZR t))); [exact TP|]. rewrite <- Rabs_mult, Rmult_minus_distr_r.
      replace (f * IZR t - IZR m * IZR t) with ((f * IZR t - IZR N) + (IZR N - IZR m * IZR t)) by ring. eapply Rle_lt_trans; [apply Rabs_triang|]. lra.
    + assert (D : (1 <= Z.abs (N - lim * t))%Z) by (unfold N; lia). apply IZR_le in D. rewrite abs_IZR, minus_IZR, mult_IZR in D.
      assert (PP : 0 < (f - IZR lim) * (Q2R e - IZR lim)).
      { assert (TT : 0 < IZR t * IZR t) by nra. apply (Rmult_lt_reg_r (IZR t * IZR t)); [exact TT|]. rewrite Rmult_0_l.
        replace ((f - IZR lim) * (Q2R e - IZR lim) * (IZR t * IZR t)) with (((f * IZR t - IZR N) + (IZR N - IZR lim * IZR t)) * (Q2R e * IZR t - IZR lim * IZR t)) by ring. rewrite E.
        set (d := IZR N - IZR lim * IZR t) in *. apply Rabs_def2 in P. unfold Rabs in D. destruct (Rcase_abs d); [assert (d <= -1) by lra|]; nra. }
      split; (split; intros Q; [apply Rlt_Qlt|apply Qlt_Rlt in Q]; rewrite Z1 in *; nra).
Qed.
(** ** Points *)
Lemma screen_agree x y a s : settled (fst (ax_origin a)) (fst (ax_steps a)) (fst (ax_vsteps a)) (fst (ax_limits a)) (x - fst (ax_starts a)) ->
  settled (snd (ax_origin a)) (- snd (ax_steps a)) (snd (ax_vsteps a)) (snd (ax_limits a)) (y - snd (ax_starts a)) ->
  exists p w s', userdef2Dcooordsys2screenxy (inject_Z x) (inject_Z y) a s = (Ok p, s') /\ fscreen x y a s = (Ok w, s') /\ roundvect p = (rround (fst w), rround (snd w)).
Proof.
  intros SX SY. assert (ZX : fst (ax_vsteps a) <> 0%Z) by apply SX. assert (ZY : snd (ax_vsteps a) <> 0%Z) by apply SY.
  unfold userdef2Dcooordsys2screenxy, fscreen. rewrite !fquot_ok by assumption. rewrite !qdiv_ok by (unfold Qeq; cbn; lia). unfold bind, lift, ret. cbv beta iota zeta.
  set (ex := (inject_Z (fst (ax_origin a)) + _)%Q). set (ey := (inject_Z (snd (ax_origin a)) - _)%Q).
  destruct (place_agree _ _ _ _ _ ex SX) as (RX & LX & _).
  { unfold ex. rewrite inject_Z_plus, !inject_Z_mult. unfold Z.sub. rewrite inject_Z_plus, inject_Z_opp. field. unfold Qeq. cbn. lia. }
  destruct (place_agree _ _ _ _ _ ey SY) as (RY & _ & LY).
  { unfold ey. rewrite inject_Z_plus, !inject_Z_mult. unfold Z.sub. rewrite inject_Z_plus, !inject_Z_opp. field. unfold Qeq. cbn. lia. }
  rewrite place_y. set (fx := fplacex _ _ _) in *. set (fy := fplacex (snd (ax_origin a)) _ _) in *. clearbody ex ey fx fy.
  assert (BX : negb (Qle_bool ex (inject_Z (fst (ax_limits a)))) = rlt (IZR (fst (ax_limits a))) fx).
  { destruct (rlt _ fx) eqn:B; [apply rlt_iff in B; apply LX in B|apply rlt_no in B]; destruct (Qle_bool ex _) eqn:Q; try reflexivity; exfalso.
    - apply Qle_bool_iff in Q. apply Qle_not_lt in Q. contradiction.
    - assert (Q' : (inject_Z (fst (ax_limits a)) < ex)%Q) by (apply Qnot_le_lt; intros C; apply Qle_bool_iff in C; congruence). apply LX in Q'. lra. }
  assert (BY : negb (Qle_bool (inject_Z (snd (ax_limits a))) ey) = rlt fy (IZR (snd (ax_limits a)))).
  { destruct (rlt fy _) eqn:B; [apply rlt_iff in B; apply LY in B|apply rlt_no in B]; destruct (Qle_bool _ ey) eqn:Q; try reflexivity; exfalso.
    - apply Qle_bool_iff in Q. apply Qle_not_lt in Q. contradiction.
    - assert (Q' : (ey < inject_Z (snd (ax_limits a)))%Q) by (apply Qnot_le_lt; intros C; apply Qle_bool_iff in C; congruence). apply LY in Q'. lra. }
  rewrite BX, BY. destruct (_ || _)%bool.
  - unfold print. do 3 eexists. split; [reflexivity|]. split; [reflexivity|]. cbn [fst snd]. now rewrite !rround_Z.
  - do 3 eexists. split; [reflexivity|]. split; [reflexivity|]. unfold roundvect. cbn [fst snd]. now rewrite RX, RY.
Qed.
(** a row of data whose coordinates are settled *)
Definition clear_row (a : axes) (v : list Z) : Prop := forall x y, item v 0 = Ok x -> item v 1 = Ok y ->
  settled (fst (ax_origin a)) (fst (ax_steps a)) (fst (ax_vsteps a)) (fst (ax_limits a)) (x - fst (ax_starts a)) /\
  settled (snd (ax_origin a)) (- snd (ax_steps a)) (snd (ax_vsteps a)) (snd (ax_limits a)) (y - snd (ax_starts a)).
Theorem C144_point : forall a v s, clear_row a v -> fscatterpoint a v s = scatterpoint a v s.
Proof.
  intros a v s C. unfold fscatterpoint, scatterpoint. destruct (item v 2) as [r|e]; [|reflexivity]. destruct (item v 0) as [x|e] eqn:X; [|reflexivity]. destruct (item v 1) as [y|e] eqn:Y; [|reflexivity].
  destruct (C x y X Y) as (SX & SY). destruct (screen_agree x y a s SX SY) as (p & w & s' & E & F & R). unfold bind, lift. cbv beta iota. rewrite E, F. cbv beta iota.
  destruct (item v 3) as [c|e]; [|reflexivity]. unfold circlevec, plotvecxypoint. rewrite R. cbn [fst snd]. reflexivity.
Qed.
(** the whole plot is that of C118 *)
Theorem C144_plot : forall a rows s c, (forall v, In v rows -> clear_row a v) -> fXYscatter rows a s = XYscatterplot rows a false c s.
Proof.
  intros a rows s c C. unfold fXYscatter, XYscatterplot. transitivity (forM rows (scatterpoint a) s).
  - apply PlotList.forM_ext. intros v s' H. apply C144_point. now apply C.
  - unfold bind, ret. destruct (forM rows (scatterpoint a) s) as [[[]|]?]; reflexivity.
Qed.

(** ** Order, nearness and ticks, also where a point is not settled *)
(** On each axis: exact on the ticks; a greater value is never to the left of (below) a smaller one; the pixel is one
    nearest to the exact place o + n * s / t. *)
Theorem C144_axis : forall o s t n, sized o s t n -> let place n := fplacex o s (fl (IZR n / IZR t)) in
  (forall k, n = (k * t)%Z -> place n = IZR (o + k * s)) /\
  (forall n', (0 < t)%Z -> (0 <= s)%Z -> (n <= n')%Z -> place n <= place n') /\
  (forall n', (0 < t)%Z -> (s <= 0)%Z -> (n <= n')%Z -> place n' <= place n) /\
  (2 * Z.abs (rround (place n) * t - (o * t + n * s)) <= Z.abs t)%Z.
Proof.
  intros o s t n SZ place. assert (Z : IZR t <> 0) by (apply not_0_IZR; apply SZ).
  assert (Q : forall n', (0 < t)%Z -> (n <= n')%Z -> fl (IZR n / IZR t) <= fl (IZR n' / IZR t)).
  { intros n' T L. apply IZR_lt in T. apply IZR_le in L. apply fl_le. apply Rmult_le_compat_r; [apply Rlt_le, Rinv_0_lt_compat; lra|exact L]. }
  split; [intros k K; now apply place_tick|]. split; [|split].
  - intros n' T S L. unfold place, fplacex. apply fl_le, Rplus_le_compat_l, fl_le, Rmult_le_compat_r; [now apply IZR_le|now apply Q].
  - intros n' T S L. unfold place, fplacex. apply fl_le, Rplus_le_compat_l, fl_le. apply Rmult_le_compat_neg_r || (pose proof (Q n' T L); apply IZR_le in S; nra).
  - pose proof (place_err o s t n SZ) as P. fold (place n) in P. pose proof (rround_near (place n)) as R. rewrite plus_IZR, !mult_IZR in P.
    assert (D : Rabs (IZR (rround (place n)) * IZR t - (IZR o * IZR t + IZR n * IZR s)) < / 2 * Rabs (IZR t) + / 4).
    { replace (IZR (rround (place n)) * IZR t - (IZR o * IZR t + IZR n * IZR s)) with (- ((place n - IZR (rround (place n))) * IZR t) + (place n * IZR t - (IZR o * IZR t + IZR n * IZR s))) by ring.
      eapply Rle_lt_trans; [apply Rabs_triang|]. rewrite Rabs_Ropp, Rabs_mult. pose proof (Rabs_pos (IZR t)). nra. }
    apply Z.lt_succ_r. apply lt_IZR. unfold Z.succ. rewrite plus_IZR, mult_IZR, !abs_IZR, minus_IZR, plus_IZR, !mult_IZR. lra.
Qed.
(** So two points that are shown keep their order, whatever the numbers: to the right for a greater x, upwards for a greater y. *)
Theorem C144_order : forall a x y x' y' s p q p' q', (0 < fst (ax_vsteps a))%Z -> (0 < snd (ax_vsteps a))%Z -> (0 <= fst (ax_steps a))%Z -> (0 <= snd (ax_steps a))%Z ->
  fscreen x y a s = (Ok (p, q), s) -> fscreen x' y' a s = (Ok (p', q'), s) ->
  ((x <= x')%Z -> p <= p') /\ ((y <= y')%Z -> q' <= q) /\ p <= IZR (fst (ax_limits a)) /\ IZR (snd (ax_limits a)) <= q.
Proof.
  intros a x y x' y' s p q p' q' VX VY SX SY.
  assert (R : forall x y p q, fscreen x y a s = (Ok (p, q), s) -> p = fplacex (fst (ax_origin a)) (fst (ax_steps a)) (fl (IZR (x - fst (ax_starts a)) / IZR (fst (ax_vsteps a)))) /\ q = fplacey (snd (ax_origin a)) (snd (ax_steps a)) (fl (IZR (y - snd (ax_starts a)) / IZR (snd (ax_vsteps a)))) /\ p <= IZR (fst (ax_limits a)) /\ IZR (snd (ax_limits a)) <= q).
  { clear. intros x y p q E. unfold fscreen, fquot, bind, lift in E. destruct (_ =? 0)%Z; [discriminate|]. destruct (_ =? 0)%Z; [discriminate|]. cbv beta iota zeta in E. destruct (_ || _)%bool eqn:B.
    - unfold print, ret in E. injection E as _ _ E. exfalso. apply (f_equal out) in E. cbn in E. apply (f_equal (@length _)) in E. rewrite app_length in E. cbn in E. lia.
    - unfold ret in E. injection E as <- <-. apply orb_false_iff in B. destruct B as (B1 & B2). apply rlt_no in B1, B2. auto. }
  intros E E'. apply R in E, E'. destruct E as (-> & -> & L1 & L2). destruct E' as (-> & -> & _).
  assert (Q : forall t n n', (0 < t)%Z -> (n <= n')%Z -> fl (IZR n / IZR t) <= fl (IZR n' / IZR t)).
  { intros t n n' T L. apply IZR_lt in T. apply IZR_le in L. apply fl_le. apply Rmult_le_compat_r; [apply Rlt_le, Rinv_0_lt_compat; lra|exact L]. }
  split; [|split; [|split; assumption]]; intros L.
  - apply fl_le, Rplus_le_compat_l, fl_le, Rmult_le_compat_r; [now apply IZR_le|]. apply Q; lia.
  - apply fl_le. apply Rplus_le_compat_l, Ropp_le_contravar, fl_le, Rmult_le_compat_r; [now apply IZR_le|]. apply Q; lia.
Qed.
(** A value on the limit of the axis, but not on a tick, may be refused: 97 with 15 pixels for a step of 3 is at 20 + 485 = 505. *)
Theorem C144_limit_refuted : let a := mkaxes (20, 100)%Z (15, 10)%Z (505, 20)%Z (0, 0)%Z (3, 1)%Z (96, 8)%Z in
  (97 * 15 = (505 - 20) * 3)%Z /\ forall s, userdef2Dcooordsys2screenxy (inject_Z 97) (inject_Z 0) a s = (Ok (1515 # 3, 100 # 1)%Q, s) /\
    fscreen 97 0 a s = (Ok (-1, -1), mkst (mem s) (out s ++ [Mregionoutofbounds])).
Proof.
  split; [reflexivity|]. intros s. split; [reflexivity|]. unfold fscreen. cbn [ax_starts ax_vsteps ax_origin ax_steps ax_limits fst snd]. rewrite !fquot_ok by discriminate. unfold bind, lift. cbv beta iota zeta.
  assert (P : IZR 505 < fplacex 20 15 (fl (97 / 3))).
  { unfold fplacex. rewrite (ddiv_ok 97 3) by (vm_compute; reflexivity). rewrite dmul_ok by (vm_compute; reflexivity). replace 20 with (dval (20, 0)%Z) by (unfold dval; cbn; lra). rewrite dadd_ok by (try (vm_compute; congruence)).
    match goal with |- _ < dval ?d => let v := eval vm_compute in d in change d with v end. unfold dval. cbn [fst snd]. match goal with |- context [(2 ^ ?k)%Z] => let v := eval vm_compute in (2 ^ k)%Z in change (2 ^ k)%Z with v end. lra. }
  change (97 - 0)%Z with 97%Z. rewrite (proj2 (rlt_iff _ _) P). reflexivity.
Qed.
(** A value halfway between two pixels may take the odd one: 97 with 27 pixels for a step of 6 is at 456.5. *)
Theorem C144_half_refuted : rround (fplacex 20 27 (fl (97 / 6))) = 457%Z /\ (2 * (20 * 6 + 97 * 27) = 913 * 6)%Z.
Proof.
  split; [|reflexivity]. unfold fplacex. rewrite (ddiv_ok 97 6) by (vm_compute; reflexivity). rewrite dmul_ok by (vm_compute; reflexivity). replace 20 with (dval (20, 0)%Z) by (unfold dval; cbn; lra). rewrite dadd_ok by (try (vm_compute; congruence)).
  match goal with |- rround (dval ?d) = _ => let v := eval vm_compute in d in change d with v end. unfold dval. cbn [fst snd]. match goal with |- context [(2 ^ ?k)%Z] => let v := eval vm_compute in (2 ^ k)%Z in change (2 ^ k)%Z with v end. apply rround_unique. apply Rabs_def1; lra.
Qed.
(** a plot with the origin at (20, 100): values 5 and 7 are settled *)
Example C144_ex : let a := mkaxes (20, 100)%Z (15, 10)%Z (505, 20)%Z (0, 0)%Z (3, 2)%Z (96, 16)%Z in
  clear_row a [6; 7; 1; 3]%Z /\ clear_row a [7; 4; 4; 3; 1]%Z /\ sized 20 15 3 7 /\ ~ clear_row a [97; 0; 1; 3]%Z.
Proof.
  split; [|split; [|split]].
  - intros x y X Y. injection X as <-. injection Y as <-. cbn -[Z.pow settled]. split; (split; [unfold sized; lia|]); [left; exists 2%Z; reflexivity|right; split; [intros k|]; lia].
  - intros x y X Y. injection X as <-. injection Y as <-. cbn -[Z.pow settled]. split; (split; [unfold sized; lia|]); [right; split; [intros k|]; lia|left; exists 2%Z; reflexivity].
  - unfold sized. lia.
  - intros C. destruct (C 97 0 eq_refl eq_refl)%Z as ((_ & [(k & K) | (_ & K)]) & _); cbn in K; lia.
Qed.
Example C144_order_ex : let a := mkaxes (20, 100)%Z (15, 10)%Z (505, 20)%Z (0, 0)%Z (3, 2)%Z (96, 16)%Z in
  forall s, fscreen 3 2 a s = (Ok (35, 90), s) /\ fscreen 6 4 a s = (Ok (50, 80), s).
Proof.
  intros a s. assert (R : forall x y k l, (x = k * 3)%Z -> (y = l * 2)%Z -> (0 <= k <= 32)%Z -> (0 <= l <= 8)%Z -> fscreen x y a s = (Ok (IZR (20 + k * 15), IZR (100 + l * - (10))), s)).
  { intros x y k l X Y K L. unfold fscreen, a. cbn [ax_starts ax_vsteps ax_origin ax_steps ax_limits fst snd]. rewrite !fquot_ok by discriminate. unfold bind, lift. cbv beta iota zeta. rewrite place_y.
    rewrite (place_tick 20 15 3 (x - 0) k), (place_tick 100 (- (10)) 2 (y - 0) l) by (unfold sized; lia).
    rewrite (proj2 (rlt_no _ _)) by (apply IZR_le; lia). rewrite (proj2 (rlt_no _ _)) by (apply IZR_le; lia). reflexivity. }
  split; [apply (R 3 2 1 1)%Z|apply (R 6 4 2 2)%Z]; lia.
Qed.
Print Assumptions C144_point.
Print Assumptions C144_plot.
Print Assumptions C144_axis.
Print Assumptions C144_order.
Print Assumptions C144_limit_refuted.
Print Assumptions C144_half_refuted.
