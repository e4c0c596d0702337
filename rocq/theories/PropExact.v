(** Properties C114 and C115: statistics and interpolation. *)
From Coq Require Import ZArith QArith List Bool Lia Lqa.
From Verif Require Import PyBase Bmp MathLib SpecExact Exact ExactProofs.
Import ListNotations.
Open Scope Q_scope.

Lemma inject_pos {A} (v : list A) : v <> [] -> 0 < inject_Z (zlen v).
Proof. destruct v; [contradiction|]. unfold zlen, Qlt. cbn. lia. Qed.
Lemma qdiv_ok a b : ~ b == 0 -> qdiv a b = Ok (a / b).
Proof. unfold qdiv. intros H. destruct (Qeq_bool b 0) eqn:E; [apply Qeq_bool_iff in E; contradiction|reflexivity]. Qed.
Lemma qdiv_err a b : b == 0 -> qdiv a b = Err ZeroDivisionError.
Proof. unfold qdiv. intros H. apply Qeq_bool_iff in H. now rewrite H. Qed.
Lemma some_ok {A} (a b : A) : Ok a = Ok b -> a = b.
Proof. congruence. Qed.

(** the mean times the number of items is the sum; the mean of nothing raises *)
Theorem C114_mean : forall v,
  (v = [] -> mean v = Err ZeroDivisionError) /\
  (v <> [] -> exists m, mean v = Ok m /\ m * inject_Z (zlen v) == lsum inject_Z v).
Proof.
  intros v. split; [now intros ->|]. intros N. pose proof (inject_pos v N) as P. unfold mean. rewrite qdiv_ok by lra.
  eexists. split; [reflexivity|]. pose proof (py_sum_map (fun n => n) v) as S. rewrite map_id in S. change (fun a => inject_Z a) with inject_Z in S. rewrite S. field. lra.
Qed.
Example C114_mean_ex : exists m, mean [3; 4; 8]%Z = Ok m /\ m == 5.
Proof. eexists. split; [reflexivity|]. reflexivity. Qed.

(** "variance" returns the deviations from the mean, one for each item; they cancel out *)
Theorem C114_deviations : forall v, v <> [] -> exists m d,
  mean v = Ok m /\ variance v = Ok d /\ length d = length v /\
  (forall i, (i < length v)%nat -> nth i d 0 == inject_Z (nth i v 0%Z) - m) /\ lsum (fun q => q) d == 0.
Proof.
  intros v N. destruct (proj2 (C114_mean v) N) as (m & E & Em). exists m. unfold variance. rewrite E. cbn [rbind]. eexists. split; [reflexivity|]. split; [reflexivity|].
  split; [apply map_length|]. split.
  - intros i Hi. rewrite (nth_indep _ 0 (inject_Z 0 - m)) by now rewrite map_length. rewrite (map_nth (fun n => inject_Z n - m)). reflexivity.
  - assert (G : forall l, lsum (fun q => q) (map (fun n => inject_Z n - m) l) == lsum inject_Z l - inject_Z (zlen l) * m).
    { induction l as [|a l IH]; [cbn; ring|]. cbn [map lsum]. rewrite IH. unfold zlen. cbn [length]. rewrite Nat2Z.inj_succ. unfold Z.succ. rewrite inject_Z_plus. ring. }
    rewrite G, <- Em. ring.
Qed.
Example C114_deviations_ex : exists d, variance [3; 4; 8]%Z = Ok d /\ Forall2 Qeq d [-2; -1; 3]%Q.
Proof. eexists. split; [reflexivity|]. repeat constructor. Qed.

Lemma qtotal_from l : forall a, fold_left Qplus l a == a + lsum (fun q => q) l.
Proof. induction l as [|b l IH]; intros a; cbn [fold_left lsum]; [ring|]. rewrite IH. ring. Qed.
(** the standard deviation is the root of the mean of the squares less the square of the
    mean: of a number that is not negative, and 0 only if all items are equal *)
Theorem C114_stddev : forall root v, v <> [] -> exists q,
  StdDev root v = Ok (root q) /\
  q * (inject_Z (zlen v) * inject_Z (zlen v)) ==
    inject_Z (zlen v) * lsum (fun n => inject_Z n * inject_Z n) v - lsum inject_Z v * lsum inject_Z v /\
  0 <= q /\ (q == 0 <-> forall a b, In a v -> In b v -> a = b).
Proof.
  intros root v N. pose proof (inject_pos v N) as P. destruct (proj2 (C114_mean v) N) as (m & E & Em).
  unfold StdDev, variance. rewrite E. cbn [rbind]. rewrite qdiv_ok by lra. cbn [rbind]. eexists. split; [reflexivity|].
  set (n := inject_Z (zlen v)) in *.
  assert (G : qtotal (map (fun d : Q => d * d) (map (fun a => inject_Z a - m) v)) == lsum (fun a => (inject_Z a - m) * (inject_Z a - m)) v).
  { unfold qtotal. rewrite qtotal_from, Qplus_0_l. clear. induction v as [|a l IH]; [reflexivity|]. cbn [map lsum]. now rewrite IH. }
  assert (S : lsum (fun a => (inject_Z a - m) * (inject_Z a - m)) v == lsum (fun a => inject_Z a * inject_Z a) v - n * m * m).
  { sumto (fun a : Z => (inject_Z a - m) * (inject_Z a - m)) (fun a : Z => (inject_Z a * inject_Z a + (- (2) * m) * inject_Z a) + m * m).
    rewrite !lsum_add, lsum_mul, lsum_const. fold n. change (fun a => inject_Z a) with inject_Z. rewrite <- Em. ring. }
  set (q := qtotal _) in *. assert (NN : 0 <= lsum (fun a => (inject_Z a - m) * (inject_Z a - m)) v) by (apply lsum_nonneg; intros; apply square_nonneg).
  split.
  { transitivity (q * n); [field; lra|]. rewrite G, S, <- Em. ring. }
  split.
  { apply Qle_shift_div_l; [exact P|]. rewrite G. lra. }
  split.
  - intros Z. assert (Q0 : q == 0).
    { transitivity (q / n * n); [field; lra|]. rewrite Z. ring. }
    rewrite G in Q0. pose proof (lsum_zero _ _ (fun a _ => square_nonneg (inject_Z a - m)) Q0) as H. intros a b Ha Hb.
    apply H in Ha. apply H in Hb. apply square_zero in Ha, Hb. assert (A : inject_Z a == inject_Z b) by lra. unfold Qeq in A. cbn in A. lia.
  - intros H. assert (exists a, In a v) as [a Ha] by (destruct v as [|a t]; [contradiction|exists a; now left]).
    assert (E1 : lsum inject_Z v == n * inject_Z a).
    { unfold n. rewrite <- lsum_const. apply lsum_ext. intros b Hb. now rewrite (H b a). }
    assert (M : m == inject_Z a) by (rewrite E1 in Em; apply (Qmult_inj_r _ _ n); [lra|rewrite Em; ring]).
    assert (Q0 : q == 0).
    { rewrite G. transitivity (lsum (fun _ : Z => 0) v); [|rewrite lsum_const; ring]. apply lsum_ext. intros b Hb. rewrite (H b a), M by auto. ring. }
    rewrite Q0. field. lra.
Qed.
Example C114_stddev_ex : exists q, StdDev (fun q => q) [2; 4; 4; 4; 5; 5; 7; 9]%Z = Ok q /\ q == 4.
Proof. eexists. split; [reflexivity|]. reflexivity. Qed.

(** the line of least squares: no line is closer to the points, and no other is as close;
    the slope raises exactly if all x are equal *)
Theorem C114_least_squares : forall pts rows, pts <> [] -> table_of pts rows ->
  ((forall p q, In p pts -> In q pts -> fst p = fst q) ->
     LSMslope rows = Err ZeroDivisionError /\ LSMYint rows = Err ZeroDivisionError) /\
  ((exists p q, In p pts /\ In q pts /\ fst p <> fst q) -> exists m b,
     LSMslope rows = Ok m /\ LSMYint rows = Ok b /\
     forall m' b', squares m b pts <= squares m' b' pts /\ (squares m' b' pts == squares m b pts -> m' == m /\ b' == b)).
Proof.
  intros pts rows N T. pose proof (den_zero pts N) as DZ. pose proof (den_nonneg pts N) as DN. split.
  - intros H. apply DZ in H. rewrite (slope_run pts N rows T), (yint_run pts N rows T), H. split; reflexivity.
  - intros (p & q & Hp & Hq & Hne). assert (D : (0 < slopeden pts)%Z).
    { destruct (Z.eq_dec (slopeden pts) 0) as [E|E]; [exfalso; apply Hne; now apply DZ|lia]. }
    assert (D0 : ~ inject_Z (slopeden pts) == 0) by (unfold Qeq; cbn; lia).
    rewrite (slope_run pts N rows T), (yint_run pts N rows T), (qdiv_ok _ _ D0). cbn [rbind]. eexists. eexists. split; [reflexivity|]. split; [reflexivity|].
    set (m := inject_Z (slopenum pts) / inject_Z (slopeden pts)). set (b := _ - m * _).
    destruct (normal_equations pts N m b D (Qeq_refl _)) as [E1 E2]; [unfold b; rewrite !py_sum_map; reflexivity|].
    intros m' b'. pose proof (least pts m b m' b' E1 E2) as L.
    assert (NN : 0 <= lsum (fun p => ((m' - m) * inject_Z (fst p) + (b' - b)) * ((m' - m) * inject_Z (fst p) + (b' - b))) pts) by (apply lsum_nonneg; intros; apply square_nonneg).
    clearbody m b. split; [rewrite L; set (s0 := squares m b pts) in *; set (s1 := lsum _ _) in *; clearbody s0 s1; lra|]. intros E. rewrite E in L. assert (Z : lsum (fun p => ((m' - m) * inject_Z (fst p) + (b' - b)) * ((m' - m) * inject_Z (fst p) + (b' - b))) pts == 0) by (set (s0 := squares m b pts) in *; set (s1 := lsum _ _) in *; clearbody s0 s1; lra).
    pose proof (lsum_zero _ _ (fun a _ => square_nonneg _) Z) as H. pose proof (H p Hp) as A. pose proof (H q Hq) as B. apply square_zero in A, B.
    assert (X : ~ inject_Z (fst p) - inject_Z (fst q) == 0) by (rewrite <- inject_minus; unfold Qeq; cbn; lia).
    assert (C : (m' - m) * (inject_Z (fst p) - inject_Z (fst q)) == 0) by lra. destruct (Qmult_integral _ _ C) as [M|M]; [|contradiction].
    split; [lra|]. rewrite M in A. lra.
Qed.
(** points on a line give back that line *)
Theorem C114_line : forall pts rows m b, pts <> [] -> table_of pts rows ->
  (exists p q, In p pts /\ In q pts /\ fst p <> fst q) ->
  (forall p, In p pts -> inject_Z (snd p) == m * inject_Z (fst p) + b) ->
  exists m' b', LSMslope rows = Ok m' /\ LSMYint rows = Ok b' /\ m' == m /\ b' == b.
Proof.
  intros pts rows m b N T X H. destruct (proj2 (C114_least_squares pts rows N T) X) as (m' & b' & E1 & E2 & G). exists m', b'. repeat (split; [assumption|]).
  destruct (G m b) as [L U]. assert (Z : squares m b pts == 0).
  { unfold squares. transitivity (lsum (fun _ : Z * Z => 0) pts); [|rewrite lsum_const; ring]. apply lsum_ext. intros p Hp. rewrite (H p Hp). ring. }
  assert (0 <= squares m' b' pts) by (apply lsum_nonneg; intros; apply square_nonneg). destruct U as [U1 U2]; [lra|]. split; symmetry; assumption.
Qed.
Example C114_least_squares_ex :
  table_of [(0, 1); (1, 1); (2, 4)]%Z [[0; 1; 9]; [1; 1; 9]; [2; 4; 9]]%Z /\
  (exists p q, In p [(0, 1); (1, 1); (2, 4)]%Z /\ In q [(0, 1); (1, 1); (2, 4)]%Z /\ fst p <> fst q) /\
  (exists m, LSMslope [[0; 1; 9]; [1; 1; 9]; [2; 4; 9]]%Z = Ok m /\ m == 3 # 2) /\
  (exists b, LSMYint [[0; 1; 9]; [1; 1; 9]; [2; 4; 9]]%Z = Ok b /\ b == 1 # 2) /\
  LSMslope [[4; 1]; [4; 2]]%Z = Err ZeroDivisionError /\ LSMslope [] = Err IndexError.
Proof.
  split; [exists 1%nat; repeat (constructor; [eexists; split; reflexivity|]); constructor|].
  split; [exists (0, 1)%Z, (1, 1)%Z; cbn; repeat split; auto; discriminate|].
  split; [eexists; split; [reflexivity|reflexivity]|]. split; [eexists; split; [reflexivity|reflexivity]|]. split; reflexivity.
Qed.

(** the coefficient of correlation: the sum of the products of the deviations over a root
    of the product of the sums of their squares; it lies between -1 and 1 if that root is
    not taken too small *)
Theorem C114_pearson : forall root pts rows mx my, pts <> [] -> table_of pts rows ->
  mx * inject_Z (zlen pts) == lsum (fun p => inject_Z (fst p)) pts ->
  my * inject_Z (zlen pts) == lsum (fun p => inject_Z (snd p)) pts ->
  let n := inject_Z (zlen pts) in
  let xx := lsum (fun p => (inject_Z (fst p) - mx) * (inject_Z (fst p) - mx)) pts in
  let yy := lsum (fun p => (inject_Z (snd p) - my) * (inject_Z (snd p) - my)) pts in
  let xy := lsum (fun p => (inject_Z (fst p) - mx) * (inject_Z (snd p) - my)) pts in
  exists q, q == n * n * (xx * yy) /\
    (root q == 0 -> PearsonsR root rows = Err ZeroDivisionError /\ Rsquare root rows = Err ZeroDivisionError) /\
    (~ root q == 0 -> exists r r2, PearsonsR root rows = Ok r /\ r * root q == n * xy /\
      Rsquare root rows = Ok r2 /\ r2 == r * r /\
      (0 < root q -> q <= root q * root q -> -1 <= r <= 1)).
Proof.
  intros root pts rows mx my N T Ex Ey n xx yy xy. pose proof (inject_pos pts N) as P. fold n in Ex, Ey, P.
  assert (Hx : n * xx == inject_Z (slopeden pts)).
  { rewrite den_eq. fold n. rewrite <- Ex. unfold xx. sumto (fun p : Z * Z => (inject_Z (fst p) - mx) * (inject_Z (fst p) - mx)) (fun p : Z * Z => (inject_Z (fst p) * inject_Z (fst p) + (- (2) * mx) * inject_Z (fst p)) + mx * mx).
    rewrite !lsum_add, lsum_mul, lsum_const. fold n. rewrite <- Ex. ring. }
  assert (Hy : n * yy == inject_Z (slopeden' pts)).
  { rewrite den'_eq. fold n. rewrite <- Ey. unfold yy. sumto (fun p : Z * Z => (inject_Z (snd p) - my) * (inject_Z (snd p) - my)) (fun p : Z * Z => (inject_Z (snd p) * inject_Z (snd p) + (- (2) * my) * inject_Z (snd p)) + my * my).
    rewrite !lsum_add, lsum_mul, lsum_const. fold n. rewrite <- Ey. ring. }
  assert (Hxy : n * xy == inject_Z (slopenum pts)).
  { rewrite num_eq. fold n. rewrite <- Ex, <- Ey. unfold xy. sumto (fun p : Z * Z => (inject_Z (fst p) - mx) * (inject_Z (snd p) - my)) (fun p : Z * Z => ((inject_Z (fst p) * inject_Z (snd p) + (- my) * inject_Z (fst p)) + (- mx) * inject_Z (snd p)) + mx * my).
    rewrite !lsum_add, !lsum_mul, lsum_const. fold n. rewrite <- Ex, <- Ey. ring. }
  pose proof (den_nonneg pts N) as D1.
  assert (D2 : (0 <= slopeden' pts)%Z).
  { assert (0 <= inject_Z (slopeden' pts)) as G. { rewrite <- Hy. assert (0 <= yy) by (apply lsum_nonneg; intros; apply square_nonneg). nra. } unfold Qle in G. cbn in G. lia. }
  exists (inject_Z (Z.abs (slopeden pts) * Z.abs (slopeden' pts))). rewrite !Z.abs_eq by assumption. split.
  { rewrite inject_Z_mult, <- Hx, <- Hy. ring. }
  unfold Rsquare. rewrite (pearson_run pts N root rows T). rewrite !Z.abs_eq by assumption. set (q := inject_Z _). split.
  { intros Z. rewrite (qdiv_err _ _ Z). split; reflexivity. }
  intros Z. rewrite (qdiv_ok _ _ Z). cbn [rbind]. eexists. eexists. split; [reflexivity|].
  assert (R : inject_Z (slopenum pts) / root q * root q == inject_Z (slopenum pts)) by (field; exact Z).
  split; [now rewrite R, Hxy|]. split; [reflexivity|]. split; [reflexivity|]. intros Pq Hq.
  pose proof (num_bound pts N) as B. set (r := inject_Z (slopenum pts) / root q) in *. set (s := root q) in *. set (k := inject_Z (slopenum pts)) in *.
  assert (Q : q == inject_Z (slopeden pts) * inject_Z (slopeden' pts)) by (unfold q; now rewrite inject_Z_mult).
  rewrite <- Q in B. assert (B2 : k * k <= s * s) by lra. split.
  - unfold r. apply Qle_shift_div_l; [exact Pq|]. nra.
  - unfold r. apply Qle_shift_div_r; [exact Pq|]. nra.
Qed.
Example C114_pearson_ex : exists r, PearsonsR (fun q => if Qeq_bool q 36 then 6 else 0) [[0; 0]; [1; 1]; [2; 2]]%Z = Ok r /\ r == 1.
Proof. eexists. split; [reflexivity|]. reflexivity. Qed.

(** coefvar is the standard deviation over the mean *)
Theorem C114_coefvar : forall root v, v <> [] -> exists s m, StdDev root v = Ok s /\ mean v = Ok m /\
  (m == 0 -> coefvar root v = Err ZeroDivisionError) /\
  (~ m == 0 -> exists c, coefvar root v = Ok c /\ c * m == s).
Proof.
  intros root v N. destruct (C114_stddev root v N) as (q & E & _). destruct (proj2 (C114_mean v) N) as (m & Em & _). exists (root q), m.
  split; [exact E|]. split; [exact Em|]. unfold coefvar. rewrite E, Em. cbn [rbind]. split; intros H; [now apply qdiv_err|].
  rewrite (qdiv_ok _ _ H). eexists. split; [reflexivity|]. field. exact H.
Qed.
Example C114_coefvar_ex : exists c, coefvar (fun q => q) [2; 4; 4; 4; 5; 5; 7; 9]%Z = Ok c /\ c == 4 # 5.
Proof. eexists. split; [reflexivity|]. reflexivity. Qed.

(** ** C115 *)
Theorem C115_lerp : forall a b f v,
  lerp a b 0 == a /\ lerp a b 1 == b /\ (0 <= f <= 1 -> amid a b (lerp a b f)) /\
  (~ a == b -> invlerp a b (lerp a b f) == f /\ lerp a b (invlerp a b v) == v /\ (amid a b v -> 0 <= invlerp a b v <= 1)) /\
  (a == b -> lerp a b f == a /\ invlerp a b v == 1).
Proof.
  intros a b f v. unfold lerp, invlerp, amid. split; [ring|]. split; [ring|]. split.
  - intros [H1 H2]. destruct (Qlt_le_dec a b); [left|right]; split; nra.
  - split.
    + intros N. destruct (Qeq_bool (b - a) 0) eqn:E; [apply Qeq_bool_iff in E; exfalso; apply N; lra|]. cbn [negb].
      assert (D : ~ b - a == 0) by (intros Z; apply N; lra). split; [field; exact D|]. split; [field; exact D|].
      intros [[H1 H2]|[H1 H2]].
      * assert (0 < b - a) by (destruct (Qlt_le_dec 0 (b - a)); [assumption|exfalso; apply D; lra]).
        split; [apply Qle_shift_div_l; lra|apply Qle_shift_div_r; lra].
      * assert (P : 0 < a - b) by (destruct (Qlt_le_dec 0 (a - b)); [assumption|exfalso; apply D; lra]).
        assert (X : (v - a) / (b - a) == (a - v) / (a - b)) by (field; split; [lra|exact D]). rewrite X.
        split; [apply Qle_shift_div_l; lra|apply Qle_shift_div_r; lra].
    + intros E. split; [rewrite E; ring|]. assert (Z : Qeq_bool (b - a) 0 = true) by (apply Qeq_bool_iff; lra). rewrite Z. reflexivity.
Qed.
Example C115_lerp_ex : lerp 10 20 (1 # 4) == 25 # 2 /\ invlerp 10 20 (25 # 2) == 1 # 4 /\ amid 10 20 (25 # 2) /\ ~ 10 == 20.
Proof. split; [reflexivity|]. split; [reflexivity|]. split; [left; lra|lra]. Qed.

Theorem C115_clamp : forall x a b,
  (a <= b -> a <= clamp x a b <= b /\ (a <= x <= b -> clamp x a b == x) /\ (x < a -> clamp x a b == a) /\ (b < x -> clamp x a b == b)) /\
  (b < a -> clamp x a b == b).
Proof.
  intros x a b. unfold clamp.
  destruct (Qle_bool a x) eqn:E1; cbn [negb]; [apply Qle_bool_iff in E1|assert (~ a <= x) as E1' by (intros H; apply Qle_bool_iff in H; congruence)].
  - destruct (Qle_bool x b) eqn:E2; cbn [negb]; [apply Qle_bool_iff in E2|assert (~ x <= b) as E2' by (intros H; apply Qle_bool_iff in H; congruence)].
    + split; intros; [repeat split; intros; lra|lra].
    + split; intros; [repeat split; intros; lra|lra].
  - destruct (Qle_bool a b) eqn:E2; cbn [negb]; [apply Qle_bool_iff in E2|assert (~ a <= b) as E2' by (intros H; apply Qle_bool_iff in H; congruence)].
    + split; intros; [repeat split; intros; lra|lra].
    + split; intros; lra.
Qed.
Example C115_clamp_ex : clamp 7 0 5 == 5 /\ clamp (-1) 0 5 == 0 /\ clamp 3 0 5 == 3.
Proof. repeat split; reflexivity. Qed.

Definition steps : list ((Q -> Q -> Q -> Q) * (Q -> Q)) := [(smoothstep, sm1); (smootherstep, sm2); (smootheststep, sm3)].
Lemma step_is f s a b v : In (f, s) steps -> f a b v = s (invlerp a b v).
Proof. intros [H|[H|[H|[]]]]; injection H as <- <-; reflexivity. Qed.
Lemma step_mono f s x y : In (f, s) steps -> 0 <= x -> x < y -> y <= 1 -> s x < s y.
Proof. intros [H|[H|[H|[]]]]; injection H as <- <-; [apply sm1_mono|apply sm2_mono|apply sm3_mono]. Qed.
Lemma step_sym f s x : In (f, s) steps -> s x + s (1 - x) == 1.
Proof. intros [H|[H|[H|[]]]]; injection H as <- <-; [apply sm1_sym|apply sm2_sym|apply sm3_sym]. Qed.
Lemma step_proper f s x y : In (f, s) steps -> x == y -> s x == s y.
Proof. intros [H|[H|[H|[]]]]; injection H as <- <-; [apply sm1_proper|apply sm2_proper|apply sm3_proper]. Qed.
Lemma step_0 f s : In (f, s) steps -> s 0 == 0.
Proof. intros [H|[H|[H|[]]]]; injection H as <- <-; reflexivity. Qed.
Lemma step_1 f s : In (f, s) steps -> s 1 == 1.
Proof. intros [H|[H|[H|[]]]]; injection H as <- <-; reflexivity. Qed.
Lemma step_unit f s x : In (f, s) steps -> 0 <= x <= 1 -> 0 <= s x <= 1.
Proof.
  intros I [H1 H2]. pose proof (step_0 f s I) as Z. pose proof (step_1 f s I) as O. split.
  - destruct (Qlt_le_dec 0 x) as [P|P]; [pose proof (step_mono f s 0 x I (Qle_refl 0) P H2); lra|]. rewrite (step_proper f s x 0 I) by lra. lra.
  - destruct (Qlt_le_dec x 1) as [P|P]; [pose proof (step_mono f s x 1 I H1 P (Qle_refl 1)); lra|]. rewrite (step_proper f s x 1 I) by lra. lra.
Qed.
Lemma step_pair f : In f [smoothstep; smootherstep; smootheststep] -> exists s, In (f, s) steps.
Proof. intros [<-|[<-|[<-|[]]]]; eexists; cbn; eauto. Qed.

(** a smooth step rises strictly from 0 at a to 1 at b, whichever is the larger, and is
    symmetric about the middle *)
Theorem C115_smoothstep : forall f a b, In f [smoothstep; smootherstep; smootheststep] -> ~ a == b ->
  f a b a == 0 /\ f a b b == 1 /\
  (forall v, amid a b v -> 0 <= f a b v <= 1) /\
  (forall v w, a < b -> a <= v -> v < w -> w <= b -> f a b v < f a b w) /\
  (forall v w, b < a -> b <= w -> w < v -> v <= a -> f a b v < f a b w) /\
  (forall v, f a b v + f a b (a + b - v) == 1).
Proof.
  intros f a b I N. destruct (step_pair f I) as [s S].
  assert (D : ~ b - a == 0) by (intros Z; apply N; lra).
  assert (V : forall v, invlerp a b v == (v - a) / (b - a)).
  { intros v. unfold invlerp. destruct (Qeq_bool (b - a) 0) eqn:E; [apply Qeq_bool_iff in E; contradiction|reflexivity]. }
  assert (U : forall v, amid a b v -> 0 <= invlerp a b v <= 1).
  { intros v Hv. destruct (C115_lerp a b 0 v) as (_ & _ & _ & G & _). now apply G. }
  rewrite !(step_is f s) by exact S. split; [|split; [|split; [|split; [|split]]]].
  - rewrite (step_proper f s _ 0 S), (step_0 f s S); [reflexivity|]. rewrite V. field. exact D.
  - rewrite (step_proper f s _ 1 S), (step_1 f s S); [reflexivity|]. rewrite V. field. exact D.
  - intros v Hv. rewrite (step_is f s) by exact S. apply (step_unit f s _ S). now apply U.
  - intros v w H H1 H2 H3. rewrite !(step_is f s) by exact S. apply (step_mono f s _ _ S); [apply U; left; lra| |apply U; left; lra].
    rewrite !V. assert (P : 0 < b - a) by lra. apply Qlt_shift_div_l; [exact P|]. assert (X : (v - a) / (b - a) * (b - a) == v - a) by (field; exact D). lra.
  - intros v w H H1 H2 H3. rewrite !(step_is f s) by exact S. apply (step_mono f s _ _ S); [apply U; right; lra| |apply U; right; lra].
    rewrite !V. assert (P : 0 < a - b) by lra. assert (X1 : (w - a) / (b - a) == (a - w) / (a - b)) by (field; split; [lra|exact D]). rewrite X1. apply Qlt_shift_div_l; [exact P|].
    assert (X : (v - a) / (b - a) * (a - b) == a - v) by (field; exact D). lra.
  - intros v. rewrite !(step_is f s) by exact S. rewrite (step_proper f s (invlerp a b (a + b - v)) (1 - invlerp a b v) S); [apply (step_sym f s _ S)|]. rewrite !V. field. exact D.
Qed.
Example C115_smoothstep_ex : smoothstep 10 20 12 == 13 # 125 /\ smootherstep 20 10 18 == 181 # 3125 /\ smootheststep 0 1 (1 # 2) == 1 # 2.
Proof. repeat split; reflexivity. Qed.
(** outside a and b it is not held at 0 and 1; for a = b it is 1 everywhere *)
Theorem C115_clamped_refuted : exists f v, In f [smoothstep; smootherstep; smootheststep] /\ 1 < v /\ f 0 1 v < 0.
Proof. exists smoothstep, 2. split; [now left|]. split; reflexivity. Qed.
Theorem C115_smoothstep_same : forall f a b v, In f [smoothstep; smootherstep; smootheststep] -> a == b -> f a b v == 1.
Proof.
  intros f a b v I E. destruct (step_pair f I) as [s S]. rewrite (step_is f s _ _ _ S), (step_proper f s _ 1 S), (step_1 f s S); [reflexivity|].
  destruct (C115_lerp a b 0 v) as (_ & _ & _ & _ & G). now apply G.
Qed.
(** the interpolations with a smooth step run strictly from a to b *)
Theorem C115_steplerp : forall g a b, In g [smoothsteplerp; smoothersteplerp; smootheststeplerp] ->
  g a b 0 == a /\ g a b 1 == b /\
  (forall f, 0 <= f <= 1 -> amid a b (g a b f)) /\
  (forall f f', 0 <= f -> f < f' -> f' <= 1 -> (a < b -> g a b f < g a b f') /\ (b < a -> g a b f' < g a b f)).
Proof.
  intros g a b I. assert (exists f s, In (f, s) steps /\ forall x, g a b x = lerp a b (f a b (lerp a b x))) as (f & s & S & G).
  { destruct I as [<-|[<-|[<-|[]]]]; eexists; eexists; (split; [|reflexivity]); cbn; eauto. }
  assert (W : forall x, ~ a == b -> g a b x == lerp a b (s x)).
  { intros x N. rewrite G. rewrite (step_is f s _ _ _ S). assert (E : s (invlerp a b (lerp a b x)) == s x).
    { apply (step_proper f s _ _ S). destruct (C115_lerp a b x 0) as (_ & _ & _ & H & _). now apply H. }
    unfold lerp at 1 3. now rewrite E. }
  destruct (Qeq_dec a b) as [E|N].
  - assert (K : forall x, g a b x == a).
    { intros x. rewrite G. destruct (C115_lerp a b (f a b (lerp a b x)) 0) as (_ & _ & _ & _ & H). now apply H. }
    repeat split; intros; rewrite ?K; try lra. left. rewrite K. lra.
  - rewrite !W by exact N. split; [unfold lerp; rewrite (step_0 f s S); ring|]. split; [unfold lerp; rewrite (step_1 f s S); ring|]. split.
    + intros x Hx. destruct (C115_lerp a b (s x) 0) as (_ & _ & H & _). specialize (H (step_unit f s x S Hx)). unfold amid in *. now rewrite W.
    + intros x y H1 H2 H3. pose proof (step_mono f s x y S H1 H2 H3) as M. rewrite !W by exact N. unfold lerp. split; intros; nra.
Qed.
Example C115_steplerp_ex : smoothsteplerp 10 20 (1 # 5) == 276 # 25 /\ smoothersteplerp 20 10 (1 # 2) == 15 /\ smootheststeplerp 3 3 (1 # 2) == 3.
Proof. repeat split; reflexivity. Qed.

Print Assumptions C114_mean.
Print Assumptions C114_deviations.
Print Assumptions C114_stddev.
Print Assumptions C114_least_squares.
Print Assumptions C114_line.
Print Assumptions C114_pearson.
Print Assumptions C114_coefvar.
Print Assumptions C115_lerp.
Print Assumptions C115_clamp.
Print Assumptions C115_smoothstep.
Print Assumptions C115_clamped_refuted.
Print Assumptions C115_smoothstep_same.
Print Assumptions C115_steplerp.
