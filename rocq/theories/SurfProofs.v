(** Surfaces of solids: closed surfaces (proofs). *)
From Coq Require Import ZArith List Bool Lia.
From Verif Require Import PyBase PyFacts Spec SpecShapes SpecSolids HeaderProofs IterProofs Bmp Geometry Fractal MathLib Solids.
Import ListNotations.
Open Scope Z_scope.
Open Scope py_scope.

(** ** sums along edges *)
Definition zsum (l : list Z) : Z := fold_right Z.add 0 l.
Lemma zsum_app l m : zsum (l ++ m) = zsum l + zsum m.
Proof. unfold zsum. induction l as [|x l IH]; cbn [app fold_right]; [lia|]. rewrite IH. lia. Qed.
Definition flow (P : Z -> Z -> Z) (es : list (Z * Z)) : Z := zsum (map (fun e => P (fst e) (snd e)) es).
Lemma flow_app P l m : flow P (l ++ m) = flow P l + flow P m.
Proof. unfold flow. now rewrite map_app, zsum_app. Qed.
Lemma flow_concat P ll : flow P (List.concat ll) = zsum (map (flow P) ll).
Proof. induction ll as [|l ll IH]; [reflexivity|]. cbn [List.concat map]. rewrite flow_app, IH. reflexivity. Qed.
Lemma surface_app fs gs : surface_edges (fs ++ gs) = surface_edges fs ++ surface_edges gs.
Proof. unfold surface_edges. now rewrite flat_map_app. Qed.
Lemma surface_flow P fs : flow P (surface_edges fs) = zsum (map (fun f => flow P (face_edges f)) fs).
Proof. unfold surface_edges. rewrite flat_map_concat_map, flow_concat, map_map. reflexivity. Qed.

(** the edge from p to q counted between a and b *)
Definition ind (p q a b : Z) : Z := if edge_eq_dec (p, q) (a, b) then 1 else 0.
Definition ecount (a b p q : Z) : Z := ind p q a b - ind p q b a.
Lemma ecount_anti a b p q : ecount a b q p = - ecount a b p q.
Proof.
  unfold ecount, ind. destruct (edge_eq_dec (q, p) (a, b)), (edge_eq_dec (p, q) (b, a)), (edge_eq_dec (q, p) (b, a)), (edge_eq_dec (p, q) (a, b));
    try lia; congruence.
Qed.
Lemma count_flow es a b : Z.of_nat (count_occ edge_eq_dec es (a, b)) = flow (fun p q => ind p q a b) es.
Proof.
  induction es as [|[p q] es IH]; [reflexivity|]. cbn [count_occ]. unfold flow in *. cbn [map fst snd]. unfold zsum in *. cbn [fold_right].
  unfold ind at 1. destruct (edge_eq_dec (p, q) (a, b)); lia.
Qed.
Lemma flow_sub P Q es : flow (fun p q => P p q - Q p q) es = flow P es - flow Q es.
Proof. unfold flow, zsum. induction es as [|e es IH]; cbn [map fold_right]; [reflexivity|]. rewrite IH. lia. Qed.
Lemma face_map (pos : Z -> Z) f : face_edges (map pos f) = map (fun e => (pos (fst e), pos (snd e))) (face_edges f).
Proof.
  destruct f as [|a t]; [reflexivity|]. unfold face_edges. cbn [map].
  change (pos a :: map pos t) with (map pos (a :: t)). change [pos a] with (map pos [a]). rewrite <- map_app.
  generalize (a :: t) as l, (t ++ [a]) as m. induction l as [|x l IH]; intros [|y m]; cbn [map combine fst snd]; auto. now rewrite IH.
Qed.
Lemma surface_map (pos : Z -> Z) fs : surface_edges (map (map pos) fs) = map (fun e => (pos (fst e), pos (snd e))) (surface_edges fs).
Proof.
  unfold surface_edges. induction fs as [|f fs IH]; [reflexivity|]. cbn [map flat_map]. now rewrite map_app, face_map, IH.
Qed.
(** closed: the flow of every antisymmetric function of the places vanishes *)
Lemma closed_flow (pos : Z -> Z) fs :
  (forall P, (forall p q, P q p = - P p q) -> flow (fun p q => P (pos p) (pos q)) (surface_edges fs) = 0) -> closed (map (map pos) fs).
Proof.
  intros H a b. apply Nat2Z.inj. unfold runs. rewrite !count_flow.
  enough (flow (ecount a b) (surface_edges (map (map pos) fs)) = 0) by (unfold ecount in H0; rewrite flow_sub in H0; lia).
  rewrite surface_map. rewrite <- (H (ecount a b)); [|intros; apply ecount_anti].
  unfold flow. rewrite map_map. reflexivity.
Qed.
Lemma closed_flow_id fs : (forall P, (forall p q, P q p = - P p q) -> flow P (surface_edges fs) = 0) -> closed fs.
Proof.
  intros H. replace fs with (map (map (fun i => i)) fs); [now apply closed_flow|].
  rewrite (map_ext _ (fun f => f)) by (intros; apply map_id). apply map_id.
Qed.

(** ** tables *)
Definition closedb (fs : list (list Z)) : bool :=
  let es := surface_edges fs in
  forallb (fun e => Nat.eqb (count_occ edge_eq_dec es e) (count_occ edge_eq_dec es (snd e, fst e))) es.
Lemma closedb_sound fs : closedb fs = true -> closed fs.
Proof.
  unfold closedb, closed, runs. cbv zeta. set (es := surface_edges fs). intros H a b. rewrite forallb_forall in H.
  destruct (in_dec edge_eq_dec (a, b) es) as [I|I].
  - apply Nat.eqb_eq. exact (H _ I).
  - destruct (in_dec edge_eq_dec (b, a) es) as [J|J].
    + symmetry. apply Nat.eqb_eq. exact (H _ J).
    + apply (count_occ_not_In edge_eq_dec) in I, J. congruence.
Qed.
Definition simpleb (fs : list (list Z)) : bool :=
  let es := surface_edges fs in forallb (fun e => Nat.leb (count_occ edge_eq_dec es e) 1) es.
Lemma simpleb_sound fs : simpleb fs = true -> simple fs.
Proof.
  unfold simpleb, simple, runs. cbv zeta. set (es := surface_edges fs). intros H a b. rewrite forallb_forall in H.
  destruct (in_dec edge_eq_dec (a, b) es) as [I|I].
  - apply Nat.leb_le. exact (H _ I).
  - apply (count_occ_not_In edge_eq_dec) in I. lia.
Qed.

Lemma telescope (F : Z -> Z) a b : a <= b -> zsum (map (fun k => F (k + 1) - F k) (range a b)) = F b - F a.
Proof.
  intros L. replace b with (a + (b - a)) by lia. generalize (b - a), (Zle_minus_le_0 b a L). clear b L. intros n Hn. revert n Hn a.
  apply (natlike_ind (fun n => forall a, zsum (map (fun k => F (k + 1) - F k) (range a (a + n))) = F (a + n) - F a)).
  - intros a. rewrite Z.add_0_r, range_nil by lia. cbn. lia.
  - intros n Hn IH a. rewrite range_cons by lia. replace (a + Z.succ n) with (a + 1 + n) by lia. cbn [map].
    change (F (a + 1) - F a + zsum (map (fun k => F (k + 1) - F k) (range (a + 1) (a + 1 + n))) = F (a + 1 + n) - F a). rewrite IH. lia.
Qed.
Lemma zsum_plus {A} (f g : A -> Z) l : zsum (map (fun k => f k + g k) l) = zsum (map f l) + zsum (map g l).
Proof. unfold zsum. induction l as [|x l IH]; cbn [map fold_right]; [reflexivity|]. rewrite IH. lia. Qed.
Lemma zsum_opp {A} (f : A -> Z) l : zsum (map (fun k => - f k) l) = - zsum (map f l).
Proof. unfold zsum. induction l as [|x l IH]; cbn [map fold_right]; [reflexivity|]. rewrite IH. lia. Qed.
Lemma zsum_ext {A} (f g : A -> Z) l : (forall a, In a l -> f a = g a) -> zsum (map f l) = zsum (map g l).
Proof. intros H. now rewrite (map_ext_in f g). Qed.
Lemma zsum_zero {A} (f : A -> Z) l : (forall a, In a l -> f a = 0) -> zsum (map f l) = 0.
Proof. intros H. rewrite (zsum_ext f (fun _ => 0) l H). unfold zsum. induction l as [|x l IH]; cbn [map fold_right]; auto. rewrite IH; auto. intros; apply H; now right. Qed.

(** ** paths *)
Section Flow.
  Variable P : Z -> Z -> Z.
  Hypothesis anti : forall p q, P q p = - P p q.

  Lemma anti_refl p : P p p = 0.
  Proof. pose proof (anti p p). lia. Qed.
  (** the flow along a list of vertices *)
  Fixpoint along (l : list Z) : Z :=
    match l with a :: (b :: _) as t => P a b + along t | _ => 0 end.
  Lemma along_snoc l x : along (l ++ [x]) = along l + match l with [] => 0 | a :: _ => P (last l a) x end.
  Proof. clear anti.
    induction l as [|a [|b l] IH]; [reflexivity|cbn; lia|].
    change (along ((a :: b :: l) ++ [x])) with (P a b + along ((b :: l) ++ [x])). rewrite IH.
    change (along (a :: b :: l)) with (P a b + along (b :: l)).
    change (last (a :: b :: l) a) with (last (b :: l) a). replace (last (b :: l) a) with (last (b :: l) b); [lia|]. clear. revert b. induction l as [|c l IH]; intros b; [reflexivity|].
    change (last (b :: c :: l) b) with (last (c :: l) b). change (last (b :: c :: l) a) with (last (c :: l) a).
    destruct l; [reflexivity|]. cbn [last] in *. clear IH. revert z. induction l as [|d l IH]; intros z; [reflexivity|]. apply IH.
  Qed.
  Lemma along_rev l : along (rev l) = - along l.
  Proof.
    induction l as [|a l IH]; [reflexivity|]. cbn [rev]. rewrite along_snoc, IH. destruct l as [|b l]; [reflexivity|].
    change (along (a :: b :: l)) with (P a b + along (b :: l)).
    destruct (rev (b :: l)) as [|c m] eqn:E; [apply (f_equal (@length Z)) in E; rewrite rev_length in E; discriminate|].
    replace (last (c :: m) c) with b; [rewrite (anti a b); lia|]. rewrite <- E. cbn [rev]. now rewrite last_last.
  Qed.
  Lemma face_flow a t : flow P (face_edges (a :: t)) = along (a :: t) + P (last (a :: t) a) a.
  Proof. clear anti.
    unfold face_edges. generalize a at 2 6 as z. intros z. revert a. induction t as [|b t IH]; intros a.
    - unfold flow, zsum. cbn. lia.
    - change (combine (a :: b :: t) ((b :: t) ++ [z])) with ((a, b) :: combine (b :: t) (t ++ [z])).
      unfold flow in *. cbn [map fst snd]. unfold zsum in *. cbn [fold_right]. rewrite IH.
      change (along (a :: b :: t)) with (P a b + along (b :: t)).
      replace (last (a :: b :: t) a) with (last (b :: t) b); [lia|].
      change (last (a :: b :: t) a) with (last (b :: t) a). clear. revert b. induction t as [|c t IH]; intros b; [reflexivity|].
      change (last (b :: c :: t) b) with (last (c :: t) b). change (last (b :: c :: t) a) with (last (c :: t) a).
      clear IH. revert c. induction t as [|d t IH]; intros c; [reflexivity|]. exact (IH d).
  Qed.
  Lemma along_range (g : Z -> Z) a b : a <= b -> along (map g (range a (b + 1))) = zsum (map (fun k => P (g k) (g (k + 1))) (range a b)).
  Proof. clear anti.
    intros L. replace b with (a + (b - a)) by lia. generalize (b - a), (Zle_minus_le_0 b a L). clear b L. intros n Hn. revert n Hn a.
    apply (natlike_ind (fun n => forall a, along (map g (range a (a + n + 1))) = zsum (map (fun k => P (g k) (g (k + 1))) (range a (a + n))))).
    - intros a. rewrite Z.add_0_r, (range_cons a), !range_nil by lia. reflexivity.
    - intros n Hn IH a. rewrite (range_cons a (a + Z.succ n)), (range_cons a (a + Z.succ n + 1)) by lia.
      replace (a + Z.succ n + 1) with (a + 1 + n + 1) by lia. replace (a + Z.succ n) with (a + 1 + n) by lia.
      cbn [map]. unfold zsum in *. cbn [fold_right]. rewrite <- (IH (a + 1)). rewrite (range_cons (a + 1)) by lia. reflexivity.
  Qed.
  Lemma quad_flow p q r s : flow P (face_edges [p; q; r; s]) = P p q + P q r + P r s + P s p.
  Proof. clear anti. unfold flow, zsum. cbn. lia. Qed.
  Lemma tri_flow p q r : flow P (face_edges [p; q; r]) = P p q + P q r + P r p.
  Proof. clear anti. unfold flow, zsum. cbn. lia. Qed.
End Flow.

(** ** cylinders and cones *)
Lemma thetas_count s n : 0 < s -> s * n = 360 -> exists l, rangeby 0 (360 + 2 * s) s = Ok l /\ zlen l = n + 2.
Proof.
  intros Hs E. unfold rangeby. replace (s =? 0) with false by (symmetry; apply Z.eqb_neq; lia).
  replace (0 <? s) with true by (symmetry; now apply Z.ltb_lt). eexists. split; [reflexivity|].
  rewrite zlen_range_step by exact Hs. apply stepcount_exact; nia.
Qed.
Lemma filter_range (f : Z -> bool) a m b : a <= m <= b -> (forall i, a <= i < m -> f i = false) -> (forall i, m <= i < b -> f i = true) ->
  filter f (range a b) = range m b.
Proof.
  intros L F T. rewrite <- (range_app a m b) by lia. rewrite filter_app.
  assert (filter f (range a m) = []) as ->.
  { assert (G : forall l, (forall i, In i l -> f i = false) -> filter f l = []).
    { induction l as [|x l IH]; intros H; [reflexivity|]. cbn [filter]. rewrite H by (now left). apply IH. intros; apply H; now right. }
    apply G. intros i Hi. apply in_range in Hi. apply F; lia. }
  assert (G : forall l, (forall i, In i l -> f i = true) -> filter f l = l).
  { induction l as [|x l IH]; intros H; [reflexivity|]. cbn [filter]. rewrite H by (now left). f_equal. apply IH. intros; apply H; now right. }
  apply G. intros i Hi. apply in_range in Hi. apply T; lia.
Qed.

Lemma range_plus a b d : range (a + d) (b + d) = map (fun k => k + d) (range a b).
Proof.
  unfold range. replace (b + d - (a + d)) with (b - a) by lia. rewrite map_map. apply map_ext. intros. lia.
Qed.
Lemma face_flow_ne P l d : l <> [] -> flow P (face_edges l) = along P l + P (last l d) (hd d l).
Proof.
  intros N. destruct l as [|a t]; [contradiction|]. rewrite face_flow. cbn [hd].
  replace (last (a :: t) d) with (last (a :: t) a); [reflexivity|]. clear. revert a. induction t as [|b t IH]; intros a; [reflexivity|].
  change (last (a :: b :: t) a) with (last (b :: t) a). change (last (a :: b :: t) d) with (last (b :: t) d).
  clear IH. revert b. induction t as [|c t IH]; intros b; [reflexivity|]. exact (IH c).
Qed.
Lemma last_hd_rev {A} (l : list A) d : last (rev l) d = hd d l.
Proof. destruct l; [reflexivity|]. cbn [rev hd]. apply last_last. Qed.
Lemma hd_rev_last {A} (l : list A) d : hd d (rev l) = last l d.
Proof. rewrite <- (rev_involutive l) at 2. now rewrite last_hd_rev. Qed.
Lemma flow_ext P Q es : (forall p q, P p q = Q p q) -> flow P es = flow Q es.
Proof. intros H. unfold flow. f_equal. apply map_ext. intros. apply H. Qed.

Lemma cylinder_run s n : 0 < s -> s * n = 360 ->
  cylindersurface s = Ok ([rev (map (fun k => 2 * k) (range 0 (n + 2)))] ++
    map (fun k => [2 * (k + 1); 2 * (k + 1) + 1; 2 * k + 1; 2 * k]) (range 1 (n + 1)) ++ [map (fun k => 2 * k + 1) (range 0 (n + 2))]).
Proof.
  intros Hs E. assert (0 < n) by nia. unfold cylindersurface. destruct (thetas_count s n Hs E) as (l & -> & El). cbn [rbind]. rewrite El. clear El. f_equal. f_equal. f_equal.
  - assert (F : filter (fun i => 2 <? i) (map (fun k => 2 * k) (range 0 (n + 2))) = map (fun k => 2 * k) (range 2 (n + 2))).
    { rewrite <- (filter_range (fun k => 2 <? 2 * k) 0 2 (n + 2)) by (intros; lia).
      induction (range 0 (n + 2)) as [|x m IH]; [reflexivity|]. cbn [map filter]. destruct (2 <? 2 * x); cbn [map]; now rewrite IH. }
    rewrite F. replace (range 2 (n + 2)) with (map (fun k => k + 1) (range 1 (n + 1))) by (rewrite <- range_plus; f_equal; lia). rewrite !map_map. apply map_ext.
    intros k. repeat (apply f_equal2; [lia|]). reflexivity.
  - rewrite map_map. reflexivity.
Qed.
Lemma last_map_range (g : Z -> Z) a b d : a <= b -> last (map g (range a (b + 1))) d = g b.
Proof. intros. rewrite range_snoc by lia. rewrite map_app. cbn [map]. now rewrite last_last. Qed.
Lemma hd_map_range (g : Z -> Z) a b d : a < b -> hd d (map g (range a b)) = g a.
Proof. intros. now rewrite range_cons by lia. Qed.
Lemma map_range_ne (g : Z -> Z) a b : a < b -> map g (range a b) <> [].
Proof. intros. now rewrite range_cons by lia. Qed.
Lemma cylinder_closed s n pos : 0 < s -> s * n = 360 -> (forall i, 0 <= i -> pos (i + 2 * n) = pos i) ->
  exists fs, cylindersurface s = Ok fs /\ closed (map (map pos) fs).
Proof.
  intros Hs E Hp. assert (Hn : 0 < n) by nia. eexists. split; [exact (cylinder_run s n Hs E)|]. apply closed_flow. intros P anti.
  set (Q := fun p q => P (pos p) (pos q)). assert (aQ : forall p q, Q q p = - Q p q) by (intros; apply anti).
  rewrite !surface_app, !flow_app. rewrite !(surface_flow Q). rewrite map_map. cbn [map].
  set (top := map (fun k => 2 * k) (range 0 (n + 2))). set (bot := map (fun k => 2 * k + 1) (range 0 (n + 2))).
  assert (Ft : flow Q (face_edges (rev top)) = - zsum (map (fun k => Q (2 * k) (2 * (k + 1))) (range 0 (n + 1))) + Q 0 (2 * (n + 1))).
  { rewrite (face_flow_ne Q _ 0).
    - rewrite along_rev by exact aQ. rewrite last_hd_rev, hd_rev_last. unfold top. replace (n + 2) with (n + 1 + 1) by lia.
      rewrite along_range, last_map_range, hd_map_range by lia. reflexivity.
    - intros K. apply (f_equal (@rev Z)) in K. rewrite rev_involutive in K. revert K. apply map_range_ne. lia. }
  assert (Fb : flow Q (face_edges bot) = zsum (map (fun k => Q (2 * k + 1) (2 * (k + 1) + 1)) (range 0 (n + 1))) + Q (2 * (n + 1) + 1) 1).
  { rewrite (face_flow_ne Q _ 0) by (apply map_range_ne; lia). unfold bot. replace (n + 2) with (n + 1 + 1) by lia.
    rewrite along_range, last_map_range, hd_map_range by lia. reflexivity. }
  rewrite Ft, Fb. clear Ft Fb top bot. rewrite (zsum_ext (fun k => flow Q (face_edges [2 * (k + 1); 2 * (k + 1) + 1; 2 * k + 1; 2 * k])) (fun k =>
    ((Q (2 * (k + 1)) (2 * (k + 1) + 1) - Q (2 * k) (2 * k + 1)) + - Q (2 * k + 1) (2 * (k + 1) + 1)) + Q (2 * k) (2 * (k + 1)))).
  2: { intros k _. rewrite quad_flow. rewrite (aQ (2 * k + 1) (2 * (k + 1) + 1)), (aQ (2 * k) (2 * k + 1)). lia. }
  rewrite (zsum_plus (fun k => (Q (2 * (k + 1)) (2 * (k + 1) + 1) - Q (2 * k) (2 * k + 1)) + - Q (2 * k + 1) (2 * (k + 1) + 1))
    (fun k => Q (2 * k) (2 * (k + 1)))).
  rewrite (zsum_plus (fun k => Q (2 * (k + 1)) (2 * (k + 1) + 1) - Q (2 * k) (2 * k + 1)) (fun k => - Q (2 * k + 1) (2 * (k + 1) + 1))).
  rewrite (zsum_opp (fun k => Q (2 * k + 1) (2 * (k + 1) + 1))).
  rewrite (telescope (fun k => Q (2 * k) (2 * k + 1))) by lia.
  rewrite (range_cons 0) by lia. cbn [map].
  assert (U : forall x l, zsum (x :: l) = x + zsum l) by reflexivity. rewrite !U. change (zsum []) with 0.
  assert (E1 : pos (2 * (n + 1)) = pos 2) by (replace (2 * (n + 1)) with (2 + 2 * n) by lia; apply Hp; lia).
  assert (E2 : pos (2 * (n + 1) + 1) = pos 3) by (replace (2 * (n + 1) + 1) with (3 + 2 * n) by lia; apply Hp; lia).
  change (0 + 1) with 1. change (2 * 1) with 2. change (2 * 0) with 0. change (2 + 1) with 3. change (0 + 1) with 1.
  assert (E3 : Q 0 (2 * (n + 1)) = Q 0 2) by (unfold Q; now rewrite E1).
  assert (E4 : Q (2 * (n + 1) + 1) 1 = - Q 1 3) by (rewrite <- aQ; unfold Q; now rewrite E2).
  assert (E5 : Q (2 * (n + 1)) (2 * (n + 1) + 1) = Q 2 3) by (unfold Q; now rewrite E1, E2).
  rewrite E3, E4, E5. lia.
Qed.

Lemma cone_run s n : 0 < s -> s * n = 360 ->
  conesurface s = Ok (map (fun k => [0; k + 1; k]) (range 2 (n + 2)) ++ [range 1 (n + 3)]).
Proof.
  intros Hs E. assert (0 < n) by nia. unfold conesurface. destruct (thetas_count s n Hs E) as (l & -> & El). cbn [rbind]. rewrite El. clear El.
  replace (1 + (n + 2)) with (n + 3) by lia. f_equal. f_equal.
  rewrite (filter_range (fun i => 2 <? i) 1 3 (n + 3)) by (intros; lia).
  replace (range 3 (n + 3)) with (map (fun k => k + 1) (range 2 (n + 2))) by (rewrite <- range_plus; f_equal; lia). rewrite !map_map. apply map_ext.
  intros k. repeat (apply f_equal2; [lia|]). reflexivity.
Qed.
Lemma cone_closed s n pos : 0 < s -> s * n = 360 -> (forall i, 1 <= i -> pos (i + n) = pos i) ->
  exists fs, conesurface s = Ok fs /\ closed (map (map pos) fs).
Proof.
  intros Hs E Hp. assert (Hn : 0 < n) by nia. eexists. split; [exact (cone_run s n Hs E)|]. apply closed_flow. intros P anti.
  set (Q := fun p q => P (pos p) (pos q)). assert (aQ : forall p q, Q q p = - Q p q) by (intros; apply anti).
  rewrite !surface_app, !flow_app. rewrite !(surface_flow Q). rewrite map_map. cbn [map].
  assert (Fb : flow Q (face_edges (range 1 (n + 3))) = zsum (map (fun k => Q k (k + 1)) (range 1 (n + 2))) + Q (n + 2) 1).
  { rewrite <- (map_id (range 1 (n + 3))). rewrite (face_flow_ne Q _ 0) by (apply map_range_ne; lia). replace (n + 3) with (n + 2 + 1) by lia.
    rewrite along_range, last_map_range, hd_map_range by lia. reflexivity. }
  rewrite Fb. clear Fb. rewrite (zsum_ext (fun k => flow Q (face_edges [0; k + 1; k])) (fun k => (Q 0 (k + 1) - Q 0 k) + - Q k (k + 1))).
  2: { intros k _. rewrite tri_flow. rewrite (aQ k (k + 1)), (aQ 0 k). lia. }
  rewrite (zsum_plus (fun k => Q 0 (k + 1) - Q 0 k) (fun k => - Q k (k + 1))), (zsum_opp (fun k => Q k (k + 1))).
  rewrite (telescope (fun k => Q 0 k)) by lia.
  rewrite (range_cons 1) by lia. cbn [map].
  assert (U : forall x l, zsum (x :: l) = x + zsum l) by reflexivity. rewrite !U. change (zsum []) with 0. change (1 + 1) with 2.
  assert (E1 : pos (n + 2) = pos 2) by (rewrite Z.add_comm; apply Hp; lia).
  assert (E3 : Q 0 (n + 2) = Q 0 2) by (unfold Q; now rewrite E1).
  assert (E4 : Q (n + 2) 1 = - Q 1 2) by (rewrite <- aQ; unfold Q; now rewrite E1).
  rewrite E3, E4. lia.
Qed.

(** ** spheres *)
Lemma item_nth {A} (l : list A) d i : 0 <= i < zlen l -> item l i = Ok (nth (Z.to_nat i) l d).
Proof.
  intros H. unfold item. replace (i <? 0) with false by (symmetry; apply Z.ltb_ge; lia). cbv zeta.
  replace (i <? 0) with false by (symmetry; apply Z.ltb_ge; lia).
  destruct (nth_error l (Z.to_nat i)) eqn:E; [now rewrite (nth_error_nth _ _ d E)|]. apply nth_error_None in E. unfold zlen in H. lia.
Qed.
(** the next place on a ring of n *)
Definition nxt (n i : Z) : Z := if i =? n - 1 then 0 else i + 1.
Lemma nxt_range n i : 0 <= i < n -> 0 <= nxt n i < n.
Proof. unfold nxt. destruct (Z.eqb_spec i (n - 1)); lia. Qed.
Lemma ringloop_ok {A} n (f : Z -> Z -> res A) g : (forall i j, 0 <= i < n -> 0 <= j < n -> f i j = Ok (g i j)) ->
  ringloop n f = Ok (map (fun i => g i (nxt n i)) (range 0 n)).
Proof. intros H. unfold ringloop. apply mapR_ok. intros i Hi. apply in_range in Hi. apply H; auto. now apply nxt_range. Qed.
Lemma cyclic (F : Z -> Z) n : 1 <= n -> zsum (map (fun i => F (nxt n i) - F i) (range 0 n)) = 0.
Proof.
  intros Hn. replace (range 0 n) with (range 0 (n - 1 + 1)) by (f_equal; lia). rewrite range_snoc by lia. rewrite map_app, zsum_app.
  rewrite (zsum_ext _ (fun i => F (i + 1) - F i)).
  - rewrite telescope by lia. unfold zsum. cbn [map fold_right]. unfold nxt. rewrite Z.eqb_refl. lia.
  - intros i Hi. apply in_range in Hi. unfold nxt. replace (i =? n - 1) with false by (symmetry; apply Z.eqb_neq; lia). reflexivity.
Qed.
Lemma surface_concat P ll : flow P (surface_edges (List.concat ll)) = zsum (map (fun fs => flow P (surface_edges fs)) ll).
Proof.
  induction ll as [|fs ll IH]; [reflexivity|]. cbn [List.concat map]. rewrite surface_app, flow_app, IH. reflexivity.
Qed.
Definition rget (ring : list Z) (i : Z) : Z := nth (Z.to_nat i) ring 0.
Definition spherefaces (north south n : Z) (rings : list (list Z)) : list (list Z) :=
  List.concat (map (fun i => [[north; rget (hd [] rings) (nxt n i); rget (hd [] rings) i];
                              [south; rget (last rings []) i; rget (last rings []) (nxt n i)]]) (range 0 n)) ++
  List.concat (map (fun k => map (fun i => [rget (nth (Z.to_nat k) rings []) (nxt n i); rget (nth (Z.to_nat k) rings []) i;
                                            rget (nth (Z.to_nat (k - 1)) rings []) i; rget (nth (Z.to_nat (k - 1)) rings []) (nxt n i)]) (range 0 n))
                   (range 1 (zlen rings))).
Lemma sphere_run north t0 rings south t1 n : rings <> [] -> 1 <= n -> (forall r, In r rings -> zlen r = n) ->
  genspheresurfaces ((north :: t0) :: rings ++ [south :: t1]) = Ok (spherefaces north south n rings).
Proof.
  intros N Hn Hr. set (lv := (north :: t0) :: rings ++ [south :: t1]).
  assert (Hl : zlen lv = zlen rings + 2) by (unfold lv, zlen; cbn [length]; rewrite app_length; cbn [length]; lia).
  assert (Hm : 1 <= zlen rings) by (destruct rings; [contradiction|unfold zlen; cbn [length]; lia]).
  assert (At : forall k, 1 <= k <= zlen rings -> item lv k = Ok (nth (Z.to_nat (k - 1)) rings [])).
  { intros k Hk. rewrite (item_nth lv []) by lia. f_equal. unfold lv. replace (Z.to_nat k) with (S (Z.to_nat (k - 1))) by lia.
    cbn [nth]. apply app_nth1. unfold zlen in Hk. lia. }
  assert (Rn : forall k, 0 <= k < zlen rings -> zlen (nth (Z.to_nat k) rings []) = n).
  { intros k Hk. apply Hr, nth_In. unfold zlen in Hk. lia. }
  assert (G : forall k i, 0 <= k < zlen rings -> 0 <= i < n -> item (nth (Z.to_nat k) rings []) i = Ok (rget (nth (Z.to_nat k) rings []) i)).
  { intros k i Hk Hi. apply item_nth. rewrite Rn; auto. }
  unfold genspheresurfaces. cbv zeta. rewrite Hl.
  assert (I0 : item lv 0 = Ok (north :: t0)) by reflexivity.
  assert (In' : item lv (zlen rings + 2 - 1) = Ok (south :: t1)).
  { rewrite (item_nth lv []) by lia. f_equal. unfold lv. replace (Z.to_nat (zlen rings + 2 - 1)) with (S (length rings)) by (unfold zlen; lia).
    cbn [nth]. rewrite app_nth2 by lia. now rewrite Nat.sub_diag. }
  rewrite I0. cbn [rbind]. change (item (north :: t0) 0) with (Ok north). cbn [rbind]. rewrite In'. cbn [rbind].
  change (item (south :: t1) 0) with (Ok south). cbn [rbind]. rewrite (At 1) by lia. cbn [rbind].
  rewrite (At (zlen rings + 2 - 1 - 1)) by lia. cbn [rbind].
  change (1 - 1) with 0. replace (zlen rings + 2 - 1 - 1 - 1) with (zlen rings - 1) by lia. rewrite Rn by lia.
  rewrite (ringloop_ok n _ (fun i j => [[north; rget (nth (Z.to_nat 0) rings []) j; rget (nth (Z.to_nat 0) rings []) i];
    [south; rget (nth (Z.to_nat (zlen rings - 1)) rings []) i; rget (nth (Z.to_nat (zlen rings - 1)) rings []) j]])).
  2: { intros i j Hi Hj. rewrite !G by lia. reflexivity. }
  cbn [rbind].
  set (bands := map (fun k => map (fun i => [rget (nth (Z.to_nat k) rings []) (nxt n i); rget (nth (Z.to_nat k) rings []) i;
      rget (nth (Z.to_nat (k - 1)) rings []) i; rget (nth (Z.to_nat (k - 1)) rings []) (nxt n i)]) (range 0 n)) (range 1 (zlen rings))).
  assert (B : mapR (fun k => let! pts := item lv k in let! adj := item lv (k + 1) in ringloop (zlen pts) (fun i j =>
      if zlen adj =? 0 then Err ZeroDivisionError else let! aj := item adj (j mod zlen adj) in let! ai := item adj (i mod zlen adj) in
      let! pi := item pts i in let! pj := item pts j in Ok [aj; ai; pi; pj])) (range 1 (zlen rings + 2 - 1 - 1)) = Ok bands).
  { unfold bands. replace (zlen rings + 2 - 1 - 1) with (zlen rings) by lia. apply mapR_ok. intros k Hk. apply in_range in Hk.
    rewrite (At k), (At (k + 1)) by lia. cbn [rbind]. replace (k + 1 - 1) with k by lia.
    rewrite !Rn by lia. apply ringloop_ok with (g := fun i j => [rget (nth (Z.to_nat k) rings []) j; rget (nth (Z.to_nat k) rings []) i;
      rget (nth (Z.to_nat (k - 1)) rings []) i; rget (nth (Z.to_nat (k - 1)) rings []) j]).
    intros i j Hi Hj. replace (n =? 0) with false by (symmetry; apply Z.eqb_neq; lia). rewrite !Z.mod_small by lia. rewrite !G by lia. reflexivity. }
  assert (E : (if zlen rings + 2 - 1 >? 2 then mapR (fun k => let! pts := item lv k in let! adj := item lv (k + 1) in ringloop (zlen pts) (fun i j =>
      if zlen adj =? 0 then Err ZeroDivisionError else let! aj := item adj (j mod zlen adj) in let! ai := item adj (i mod zlen adj) in
      let! pi := item pts i in let! pj := item pts j in Ok [aj; ai; pi; pj])) (range 1 (zlen rings + 2 - 1 - 1)) else Ok []) = Ok bands).
  { destruct (zlen rings + 2 - 1 >? 2) eqn:C; [exact B|]. rewrite <- B. rewrite range_nil by lia. reflexivity. }
  rewrite E. cbn [rbind]. f_equal. unfold spherefaces. f_equal.
  replace (nth (Z.to_nat 0) rings []) with (hd [] rings) by (destruct rings; reflexivity).
  replace (nth (Z.to_nat (zlen rings - 1)) rings []) with (last rings []); [reflexivity|].
  clear - N. destruct (exists_last N) as (l & x & ->). rewrite last_last. unfold zlen. rewrite app_length. cbn [length].
  replace (Z.to_nat _) with (length l) by lia. rewrite app_nth2 by lia. now rewrite Nat.sub_diag.
Qed.
Lemma sphere_closed north south n rings : rings <> [] -> 1 <= n -> closed (spherefaces north south n rings).
Proof.
  intros N Hn. apply closed_flow_id. intros P anti. unfold spherefaces. rewrite surface_app, flow_app, !surface_concat, !map_map.
  set (C := fun r => zsum (map (fun i => P (rget r i) (rget r (nxt n i))) (range 0 n))).
  assert (Hc : zsum (map (fun i => flow P (surface_edges [[north; rget (hd [] rings) (nxt n i); rget (hd [] rings) i];
      [south; rget (last rings []) i; rget (last rings []) (nxt n i)]])) (range 0 n)) = C (last rings []) - C (hd [] rings)).
  { set (u := hd [] rings). set (v := last rings []).
    rewrite (zsum_ext _ (fun i => (((P north (rget u (nxt n i)) - P north (rget u i)) + - (P south (rget v (nxt n i)) - P south (rget v i)))
      + P (rget v i) (rget v (nxt n i))) + - P (rget u i) (rget u (nxt n i)))).
    2: { intros i _. rewrite surface_flow. cbn [map]. rewrite !tri_flow. unfold zsum. cbn [fold_right].
         rewrite (anti (rget u i) (rget u (nxt n i))), (anti north (rget u i)), (anti south (rget v (nxt n i))). lia. }
    rewrite (zsum_plus (fun i => ((P north (rget u (nxt n i)) - P north (rget u i)) + - (P south (rget v (nxt n i)) - P south (rget v i)))
      + P (rget v i) (rget v (nxt n i))) (fun i => - P (rget u i) (rget u (nxt n i)))).
    rewrite (zsum_plus (fun i => (P north (rget u (nxt n i)) - P north (rget u i)) + - (P south (rget v (nxt n i)) - P south (rget v i)))
      (fun i => P (rget v i) (rget v (nxt n i)))).
    rewrite (zsum_plus (fun i => P north (rget u (nxt n i)) - P north (rget u i)) (fun i => - (P south (rget v (nxt n i)) - P south (rget v i)))).
    rewrite (zsum_opp (fun i => P south (rget v (nxt n i)) - P south (rget v i))), (zsum_opp (fun i => P (rget u i) (rget u (nxt n i)))).
    rewrite (cyclic (fun i => P north (rget u i))), (cyclic (fun i => P south (rget v i))) by exact Hn. fold (C u) (C v). lia. }
  rewrite Hc. clear Hc. set (R := fun k => C (nth (Z.to_nat (k - 1)) rings [])).
  rewrite (zsum_ext (fun k => flow P (surface_edges (map _ (range 0 n)))) (fun k => - (R (k + 1) - R k))).
  - assert (1 <= zlen rings) by (destruct rings; [contradiction|unfold zlen; cbn [length]; lia]).
    rewrite (zsum_opp (fun k => R (k + 1) - R k)), telescope by lia. unfold R. change (1 - 1) with 0. cbn [Z.to_nat].
    replace (nth 0 rings []) with (hd [] rings) by (destruct rings; reflexivity).
    replace (nth (Z.to_nat (zlen rings - 1)) rings []) with (last rings []); [lia|].
    clear - N. destruct (exists_last N) as (l & x & ->). rewrite last_last. unfold zlen. rewrite app_length. cbn [length].
    replace (Z.to_nat _) with (length l) by lia. rewrite app_nth2 by lia. now rewrite Nat.sub_diag.
  - intros k Hk. unfold R. replace (k + 1 - 1) with k by lia. set (a := nth (Z.to_nat k) rings []). set (p := nth (Z.to_nat (k - 1)) rings []).
    rewrite surface_flow, map_map.
    rewrite (zsum_ext _ (fun i => ((P (rget p (nxt n i)) (rget a (nxt n i)) - P (rget p i) (rget a i))
      + P (rget p i) (rget p (nxt n i))) + - P (rget a i) (rget a (nxt n i)))).
    2: { intros i _. rewrite quad_flow. rewrite (anti (rget a i) (rget a (nxt n i))), (anti (rget p i) (rget a i)). lia. }
    rewrite (zsum_plus (fun i => (P (rget p (nxt n i)) (rget a (nxt n i)) - P (rget p i) (rget a i)) + P (rget p i) (rget p (nxt n i)))
      (fun i => - P (rget a i) (rget a (nxt n i)))).
    rewrite (zsum_plus (fun i => P (rget p (nxt n i)) (rget a (nxt n i)) - P (rget p i) (rget a i)) (fun i => P (rget p i) (rget p (nxt n i)))).
    rewrite (zsum_opp (fun i => P (rget a i) (rget a (nxt n i)))).
    rewrite (cyclic (fun i => P (rget p i) (rget a i))) by exact Hn. fold (C p) (C a). lia.
Qed.
