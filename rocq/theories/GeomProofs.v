(** Facts about the point generators: termination, bounds, accuracy. *)
From Coq Require Import ZArith List Bool Lia.
From Verif Require Import PyBase PyFacts Spec Bmp BmpFacts IterProofs Geometry.
Import ListNotations.
Open Scope Z_scope.

(** ** generators as loops *)
Lemma gen_while_inv {S A} (P : list A -> S -> Prop) (m : S -> Z) cond (body : S -> list A * S) :
  (forall acc s, P acc s -> cond s = true ->
     0 <= m s /\ m (snd (body s)) < m s /\ P (acc ++ fst (body s)) (snd (body s))) ->
  forall fuel acc s, P acc s -> (m s < Z.of_nat fuel) ->
  exists ys s', gen_while fuel cond body s = Ok (ys, s') /\ cond s' = false /\ P (acc ++ ys) s'.
Proof.
  intros Step. induction fuel; intros acc s HP Hm; cbn [gen_while].
  - destruct (cond s) eqn:C.
    + destruct (Step acc s HP C) as (H & _). lia.
    + exists [], s. rewrite app_nil_r. auto.
  - destruct (cond s) eqn:C.
    + destruct (Step acc s HP C) as (H0 & H1 & H2).
      destruct (body s) as (ys, s') eqn:E. cbn [fst snd] in *.
      destruct (IHfuel _ s' H2) as (zs & s'' & E1 & E2 & E3); [lia|].
      rewrite E1. cbn [rbind fst snd].
      exists (ys ++ zs), s''. rewrite app_assoc. auto.
    + exists [], s. rewrite app_nil_r. auto.
Qed.

Lemma memz_in v l : memz v l = true <-> In v l.
Proof.
  unfold memz. rewrite existsb_exists. split.
  - intros (x & Hx & E). apply Z.eqb_eq in E. now subst.
  - intros H. exists v. split; auto. apply Z.eqb_refl.
Qed.
Lemma memz_not v l : memz v l = false <-> ~ In v l.
Proof. rewrite <- memz_in. destruct (memz v l); split; congruence. Qed.

(** ** the decision variable of the circle generators *)
Definition dec (r row col : Z) : Z :=
  r * r * (2 * ((col + 1) * (col + 1)) + row * row + (row - 1) * (row - 1) - 2 * (r * r)).

Lemma shl1 x : Z.shiftl x 1 = 2 * x.
Proof. rewrite Z.shiftl_mul_pow2 by lia. change (2 ^ 1) with 2. lia. Qed.
Lemma shl2 x : Z.shiftl x 2 = 4 * x.
Proof. rewrite Z.shiftl_mul_pow2 by lia. change (2 ^ 2) with 4. lia. Qed.

Lemma circ_d0_dec r : circ_d0 r = dec r r 0.
Proof. unfold circ_d0, dec. rewrite !shl1. ring. Qed.
Lemma dec_keep r row col :
  dec r row col + Z.shiftl (r * r) 1 * (3 + Z.shiftl col 1) = dec r row (col + 1).
Proof. unfold dec. rewrite !shl1. ring. Qed.
Lemma dec_down r row col :
  dec r row col - Z.shiftl (r * r) 2 * (row - 1) + Z.shiftl (r * r) 1 * (3 + Z.shiftl col 1)
  = dec r (row - 1) (col + 1).
Proof. unfold dec. rewrite !shl1, !shl2. ring. Qed.
Lemma dec_sign r row col : 0 < r ->
  (dec r row col >= 0 <->
   0 <= 2 * ((col + 1) * (col + 1)) + row * row + (row - 1) * (row - 1) - 2 * (r * r)).
Proof.
  intros Hr. unfold dec.
  set (k := 2 * ((col + 1) * (col + 1)) + row * row + (row - 1) * (row - 1) - 2 * (r * r)).
  assert (0 < r * r) by nia. split; intros; nia.
Qed.

(** distance of an offset from the circle of radius r, as a squared error *)
Definition cerr (r a b : Z) : Z := a * a + b * b - r * r.

(** [(a, b)] is a lattice point of the circle of radius [r]: the larger
    coordinate is the integer nearest to the exact one *)
Definition on_circle (r : Z) (p : Z * Z) : Prop :=
  0 <= fst p /\ 0 <= snd p /\
  - Z.max (fst p) (snd p) <= cerr r (fst p) (snd p) <= Z.max 0 (Z.max (fst p) (snd p) - 1).

(** the invariant of the walk: [row] is the rounded height at [col] *)
Definition walk (r row col : Z) : Prop :=
  0 <= col /\ row <= r /\ 0 <= row + 1 /\ col <= row + 2 /\ col <= r + 1 /\
  (row < col -> 1 <= col /\ r * r <= 2 * (col * col) - col) /\
  (col <= row -> - row <= cerr r col row <= Z.max 0 (row - 1)).

Lemma walk_start r : 0 <= r -> walk r r 0.
Proof. intros. unfold walk, cerr. repeat split; try lia. Qed.

Lemma walk_keep r row col : 0 <= r -> walk r row col -> col <= row -> ~ dec r row col >= 0 ->
  walk r row (col + 1) /\ col < row.
Proof.
  intros Hr (H1 & H2 & H3 & H4 & H4' & _ & H5) Hc D. specialize (H5 Hc).
  assert (Hr' : 0 < r) by (unfold dec in D; nia).
  rewrite dec_sign in D by lia.
  unfold cerr in *. unfold walk, cerr.
  assert (col < row) by nia.
  split; [|assumption]. do 6 (split; [lia|]). intros Hn. nia.
Qed.
Lemma walk_down r row col : 0 <= r -> walk r row col -> col <= row -> dec r row col >= 0 ->
  walk r (row - 1) (col + 1).
Proof.
  intros Hr (H1 & H2 & H3 & H4 & H4' & _ & H5) Hc D. specialize (H5 Hc).
  unfold walk, cerr in *.
  do 5 (split; [lia|]).
  destruct (Z.eq_dec r 0) as [->|Hr0]; [split; intros; nia|].
  rewrite dec_sign in D by lia. split; intros Hn; [|nia].
  assert (row = col \/ row = col + 1) as [-> | ->] by lia; nia.
Qed.

Lemma on_circle_swap r a b : on_circle r (a, b) -> on_circle r (b, a).
Proof. unfold on_circle, cerr; cbn [fst snd]. lia. Qed.
Lemma on_circle_bound r p : 0 <= r -> on_circle r p -> 0 <= fst p <= r /\ 0 <= snd p <= r.
Proof. destruct p as (a, b). unfold on_circle, cerr; cbn [fst snd]. intros. split; nia. Qed.

Lemma walk_on_circle r row col : 0 <= r -> walk r row col -> col <= row -> on_circle r (col, row).
Proof.
  intros Hr (H1 & H2 & H3 & H4 & H4' & _ & H5) Hc. specialize (H5 Hc).
  unfold on_circle; cbn [fst snd]. lia.
Qed.
(** the rounded height is unique *)
Lemma on_circle_unique r a b b' : on_circle r (a, b) -> on_circle r (a, b') -> a <= b -> a <= b' -> b = b'.
Proof.
  unfold on_circle, cerr; cbn [fst snd]. intros (_ & _ & H) (_ & _ & H') L L'.
  rewrite Z.max_r in H, H' by lia.
  destruct (Z.lt_trichotomy b b') as [K|[K|K]]; auto; exfalso; nia.
Qed.
Lemma on_circle_none r col row a b : walk r row col -> row < col -> 0 <= r -> col <= a -> a <= b ->
  ~ on_circle r (a, b).
Proof.
  intros (H1 & H2 & H3 & H4 & H4' & H6 & _) Hlt Hr Ha Hb. specialize (H6 Hlt).
  unfold on_circle, cerr; cbn [fst snd]. intros (_ & _ & H).
  assert (col * col <= a * a) by (clear - H6 Ha; nia).
  assert (col * (col - 1) <= b * (b - 1)) by (clear - H6 Ha Hb; nia). lia.
Qed.

(** ** itercirclepart *)
Lemma itercirclepart_run r : 0 <= r ->
  exists l, itercirclepart r = Ok l /\ NoDup l /\ (forall p, In p l <-> on_circle r p) /\
    (forall a, 0 <= a <= r -> exists b, In (a, b) l).
Proof.
  intros Hr.
  set (P := fun (acc : list (Z * Z)) (s : Z * Z * Z) =>
    let '(row, col, d) := s in
    d = dec r row col /\ walk r row col /\
    (forall p, In p acc -> on_circle r p) /\
    (forall a b, on_circle r (a, b) -> a <= b -> a < col -> In (a, b) acc /\ In (b, a) acc) /\
    (forall a b, In (a, b) acc -> (a < col /\ a <= b /\ row <= b) \/ (b < col /\ b <= a /\ row <= a)) /\
    NoDup acc /\
    (forall a, 0 <= a < col \/ row < a <= r -> exists b, In (a, b) acc)).
  destruct (gen_while_inv P (fun '(row, col, d) => r - col)
     (fun '(row, col, d) => row >=? col) (itercirclepart_body r)) with
     (fuel := Z.to_nat (r + 1)) (acc := @nil (Z * Z)) (s := (r, 0, circ_d0 r))
    as (ys & s' & E1 & E2 & E3).
  - intros acc ((row, col), d) (-> & W & Hon & Hall & Hsep & Hnd & Hcov) C.
    rewrite Z.geb_le in C.
    assert (HC : on_circle r (col, row)) by now apply walk_on_circle.
    assert (Hcr : col <= r) by (destruct W; lia).
    split; [lia|].
    unfold itercirclepart_body.
    set (new := (col, row) :: (if row =? col then [] else [(row, col)])).
    assert (Hnew : forall p, In p new <-> p = (col, row) \/ p = (row, col)).
    { intros p. unfold new. destruct (Z.eqb_spec row col); cbn [In]; intuition (subst; auto). }
    assert (Hnn : NoDup (acc ++ new)).
    { apply NoDup_app'; auto.
      - unfold new. destruct (Z.eqb_spec row col); repeat constructor; cbn; intuition congruence.
      - intros (a, b) Ha Hb. apply Hnew in Hb. specialize (Hsep _ _ Ha).
        destruct Hb as [Hb|Hb]; inversion Hb; subst; lia. }
    assert (Hon' : forall p, In p (acc ++ new) -> on_circle r p).
    { intros p Hp. apply in_app_or in Hp as [Hp|Hp]; auto.
      apply Hnew in Hp as [->| ->]; auto. now apply on_circle_swap. }
    assert (Hall' : forall a b, on_circle r (a, b) -> a <= b -> a < col + 1 ->
              In (a, b) (acc ++ new) /\ In (b, a) (acc ++ new)).
    { intros a b Hab L1 L2. rewrite !in_app_iff, !Hnew.
      destruct (Z.eq_dec a col) as [->|].
      - assert (b = row) by now apply (on_circle_unique r col). subst. auto.
      - destruct (Hall a b); auto. lia. }
    assert (Hcov' : forall a, 0 <= a <= col \/ row <= a <= r -> exists b, In (a, b) (acc ++ new)).
    { intros a Ha.
      destruct (Z.eq_dec a col) as [->|]; [exists row; apply in_or_app; right; apply Hnew; auto|].
      destruct (Z.eq_dec a row) as [->|]; [exists col; apply in_or_app; right; apply Hnew; auto|].
      destruct (Hcov a) as (b & Hb); [lia|]. exists b. apply in_or_app; auto. }
    destruct (Z.geb_spec (dec r row col) 0) as [D|D]; cbn [fst snd].
    + split; [lia|]. rewrite dec_down. unfold P.
      split; [reflexivity|]. split; [apply walk_down; auto; lia|].
      split; [exact Hon'|]. split; [exact Hall'|]. split.
      { intros a b Hp. apply in_app_or in Hp as [Hp|Hp].
        - specialize (Hsep _ _ Hp). lia.
        - apply Hnew in Hp as [Hp|Hp]; inversion Hp; subst; lia. }
      split; [exact Hnn|]. intros; apply Hcov'; lia.
    + split; [lia|]. rewrite dec_keep. unfold P.
      destruct (walk_keep r row col) as (W' & Hlt); auto; try lia.
      split; [reflexivity|]. split; [exact W'|].
      split; [exact Hon'|]. split; [exact Hall'|]. split.
      { intros a b Hp. apply in_app_or in Hp as [Hp|Hp].
        - specialize (Hsep _ _ Hp). lia.
        - apply Hnew in Hp as [Hp|Hp]; inversion Hp; subst; lia. }
      split; [exact Hnn|]. intros; apply Hcov'; lia.
  - unfold P. split; [apply circ_d0_dec|]. split; [now apply walk_start|].
    cbn [In]. split; [tauto|]. split.
    { intros a b (H & _) _ H'. cbn in H. lia. }
    split; [tauto|]. split; [constructor|]. intros; lia.
  - cbn. lia.
  - destruct s' as ((row, col), d). cbn [app] in E3.
    destruct E3 as (_ & W & Hon & Hall & Hsep & Hnd & Hcov).
    destruct (Z.geb_spec row col) as [|Hlt]; [discriminate|].
    exists ys. unfold itercirclepart. rewrite E1. cbn [rbind fst].
    split; [reflexivity|]. split; [exact Hnd|]. split.
    + intros (a, b). split; [apply Hon|]. intros H.
      destruct (Z.le_ge_cases a b) as [L|L].
      * destruct (Z.lt_ge_cases a col) as [K|K]; [now destruct (Hall _ _ H L K)|].
        destruct (on_circle_none r col row a b W Hlt Hr K L H).
      * apply on_circle_swap in H.
        destruct (Z.lt_ge_cases b col) as [K|K]; [now destruct (Hall _ _ H L K)|].
        destruct (on_circle_none r col row b a W Hlt Hr K L H).
    + intros a Ha. apply Hcov. lia.
Qed.

Lemma itercirclepart_neg r : r < 0 -> itercirclepart r = Ok [].
Proof.
  intros. unfold itercirclepart. replace (Z.to_nat (r + 1)) with O by lia.
  cbn [gen_while]. destruct (Z.geb_spec r 0); [lia|]. reflexivity.
Qed.

(** ** itercirclepartlineedge *)
Lemma widest_up r row col a : 0 <= r -> walk r row col -> col <= row -> on_circle r (a, col) -> a <= row.
Proof.
  intros Hr W Hc H. pose proof (walk_on_circle r row col Hr W Hc) as Hw.
  destruct (Z.le_gt_cases a col) as [L|L]; [lia|].
  apply on_circle_swap in H. rewrite (on_circle_unique r col a row H Hw); lia.
Qed.
Lemma widest_side r row col a : 0 <= r -> walk r row col -> col <= row -> dec r row col >= 0 ->
  on_circle r (a, row) -> a <= col.
Proof.
  intros Hr W Hc D H. pose proof (walk_on_circle r row col Hr W Hc) as Hw.
  assert (H0 : 0 <= col) by apply W.
  unfold on_circle, cerr in H, Hw; cbn [fst snd] in H, Hw.
  destruct (Z.le_gt_cases a col) as [L|L]; auto. exfalso.
  destruct (Z.eq_dec r 0) as [->|Hr0]; [nia|].
  rewrite dec_sign in D by lia.
  destruct (Z.le_gt_cases a row) as [K|K].
  - rewrite Z.max_r in H by lia.
    assert ((col + 1) * (col + 1) <= a * a) by (clear - L H0; nia).
    assert (1 <= row) by lia. lia.
  - rewrite (Z.max_l a row) in H by lia. rewrite (Z.max_r col row) in Hw by lia.
    assert ((row + 1) * row <= a * (a - 1)) by (clear - K Hc H0; nia).
    assert (col * col <= row * row) by (clear - Hc H0; nia). lia.
Qed.

Lemma itercirclepartlineedge_run r : 0 <= r ->
  exists l, itercirclepartlineedge r = Ok l /\
    NoDup (map snd l) /\
    (forall v, In v (map snd l) <-> 0 <= v <= r) /\
    (forall hw v, In (hw, v) l -> on_circle r (hw, v) /\ forall a, on_circle r (a, v) -> a <= hw).
Proof.
  intros Hr.
  set (P := fun (acc : list (Z * Z)) (s : Z * Z * Z * list Z) =>
    let '(row, col, d, y) := s in
    d = dec r row col /\ walk r row col /\ y = map snd acc /\ NoDup y /\
    (forall v, In v y <-> 0 <= v < col \/ row < v <= r) /\
    (forall hw v, In (hw, v) acc -> on_circle r (hw, v) /\ forall a, on_circle r (a, v) -> a <= hw)).
  destruct (gen_while_inv P (fun '(row, col, d, y) => r - col)
     (fun '(row, col, d, y) => row >=? col) (itercirclepartlineedge_body r)) with
     (fuel := Z.to_nat (r + 1)) (acc := @nil (Z * Z)) (s := (r, 0, circ_d0 r, @nil Z))
    as (ys & s' & E1 & E2 & E3).
  - intros acc (((row, col), d), y) (-> & W & Hy & Hnd & Hin & Hon) C.
    rewrite Z.geb_le in C.
    assert (HC : on_circle r (col, row)) by now apply walk_on_circle.
    assert (Hcr : 0 <= col <= r /\ row <= r) by (destruct W; lia).
    split; [lia|].
    unfold itercirclepartlineedge_body.
    replace (memz col y) with false by (symmetry; apply memz_not; rewrite Hin; lia).
    assert (Hon1 : forall a, on_circle r (a, col) -> a <= row) by (intros; now apply (widest_up r row col)).
    assert (Hnd1 : NoDup (y ++ [col])).
    { apply NoDup_app'; auto; [repeat constructor; cbn; tauto|].
      intros x Hx [->|[]]. apply Hin in Hx. lia. }
    destruct (Z.geb_spec (dec r row col) 0) as [D|D]; cbn [fst snd].
    + assert (Hon2 : forall a, on_circle r (a, row) -> a <= col)
        by (intros; apply (widest_side r row col); auto; lia).
      assert (W' : walk r (row - 1) (col + 1)) by (apply walk_down; auto; lia).
      destruct (memz row (y ++ [col])) eqn:Em; cbn [fst snd]; (split; [lia|]); rewrite dec_down; unfold P.
      * apply memz_in in Em. apply in_app_or in Em as [Em|[Em|[]]]; [apply Hin in Em; lia|].
        split; [reflexivity|]. split; [exact W'|].
        split; [rewrite Hy, map_app; reflexivity|]. split; [exact Hnd1|]. split.
        { intros v. rewrite in_app_iff, Hin. cbn [In]. lia. }
        intros hw v Hv. apply in_app_or in Hv as [Hv|[Hv|[]]]; [now apply Hon|].
        inversion Hv; subst. auto using on_circle_swap.
      * apply memz_not in Em.
        split; [reflexivity|]. split; [exact W'|].
        split; [rewrite Hy, !map_app; cbn [map snd app]; now rewrite <- app_assoc|].
        split.
        { apply NoDup_app'; auto; [repeat constructor; cbn; tauto|]. intros x Hx [->|[]]; auto. }
        split.
        { intros v. rewrite !in_app_iff, Hin. cbn [In]. lia. }
        intros hw v Hv. cbn [app] in Hv. apply in_app_or in Hv as [Hv|[Hv|[Hv|[]]]]; [now apply Hon| |];
        inversion Hv; subst; auto using on_circle_swap.
    + destruct (walk_keep r row col) as (W' & Hlt); auto; try lia.
      split; [lia|]. rewrite dec_keep. unfold P.
      split; [reflexivity|]. split; [exact W'|].
      split; [rewrite Hy, map_app; reflexivity|]. split; [exact Hnd1|]. split.
      { intros v. rewrite in_app_iff, Hin. cbn [In]. lia. }
      intros hw v Hv. apply in_app_or in Hv as [Hv|[Hv|[]]]; [now apply Hon|].
      inversion Hv; subst. auto using on_circle_swap.
  - unfold P. split; [apply circ_d0_dec|]. split; [now apply walk_start|].
    split; [reflexivity|]. split; [constructor|]. cbn [In]. split; [intros; lia | tauto].
  - cbn. lia.
  - destruct s' as (((row, col), d), y). cbn [app] in E3.
    destruct E3 as (_ & W & Hy & Hnd & Hin & Hon).
    destruct (Z.geb_spec row col) as [|Hlt]; [discriminate|].
    exists ys. unfold itercirclepartlineedge. rewrite E1. cbn [rbind fst]. rewrite <- Hy.
    split; [reflexivity|]. split; [exact Hnd|]. split; [|exact Hon].
    intros v. rewrite Hin. destruct W as (? & ? & ? & ? & ? & _). lia.
Qed.
Lemma itercirclepartlineedge_neg r : r < 0 -> itercirclepartlineedge r = Ok [].
Proof.
  intros. unfold itercirclepartlineedge. replace (Z.to_nat (r + 1)) with O by lia.
  cbn [gen_while]. destruct (Z.geb_spec r 0); [lia|]. reflexivity.
Qed.

(** ** itercirclepartvertlineedge *)
Lemma itercirclepartvertlineedge_run r : 0 <= r ->
  exists l, itercirclepartvertlineedge r = Ok l /\
    NoDup (map fst l) /\
    (forall v, In v (map fst l) <-> 0 <= v <= r) /\
    (forall v hh, In (v, hh) l -> on_circle r (v, hh) /\ forall c, on_circle r (v, c) -> hh <= c).
Proof.
  intros Hr.
  set (P := fun (acc : list (Z * Z)) (s : Z * Z * Z * list Z) =>
    let '(row, col, d, x) := s in
    d = dec r row col /\ walk r row col /\ x = map fst acc /\ NoDup x /\
    (forall v, 0 <= v < col \/ row < v <= r -> In v x) /\
    (forall v, In v x -> 0 <= v < col \/ 0 <= v /\ row <= v <= r) /\
    (forall v hh, In (v, hh) acc -> on_circle r (v, hh) /\ forall c, on_circle r (v, c) -> hh <= c) /\
    (forall a c, 0 <= a < col -> a <= c -> on_circle r (a, c) -> In c x)).
  destruct (gen_while_inv P (fun '(row, col, d, y) => r - col)
     (fun '(row, col, d, y) => row >=? col) (itercirclepartvertlineedge_body r)) with
     (fuel := Z.to_nat (r + 1)) (acc := @nil (Z * Z)) (s := (r, 0, circ_d0 r, @nil Z))
    as (ys & s' & E1 & E2 & E3).
  - intros acc (((row, col), d), x) (-> & W & Hx & Hnd & Hin & Hin' & Hon & Hseen) C.
    rewrite Z.geb_le in C.
    assert (HC : on_circle r (col, row)) by now apply walk_on_circle.
    assert (Hcr : 0 <= col <= r /\ row <= r) by (destruct W; lia).
    split; [lia|].
    unfold itercirclepartvertlineedge_body.
    assert (Min1 : ~ In col x -> forall c, on_circle r (col, c) -> row <= c).
    { intros N c Hc. destruct (Z.le_gt_cases col c) as [L|L].
      - rewrite (on_circle_unique r col row c); auto; lia.
      - exfalso. apply N. apply (Hseen c col); [|lia|now apply on_circle_swap].
        pose proof (on_circle_bound r _ Hr Hc) as Bc. cbn [fst snd] in Bc. lia. }
    assert (Min2 : ~ In row x -> forall c, on_circle r (row, c) -> col <= c).
    { intros N c Hc. destruct (Z.le_gt_cases col c) as [L|L]; auto.
      exfalso. apply N. apply (Hseen c row); [|lia|now apply on_circle_swap].
      pose proof (on_circle_bound r _ Hr Hc) as Bc. cbn [fst snd] in Bc. lia. }
    (* the two conditional emissions *)
    assert (Em : exists new x', (let (ys1, x1) := if memz col x then ([], x) else ([(col, row)], x ++ [col]) in
       let (ys2, x2) := if memz row x1 then ([], x1) else ([(row, col)], x1 ++ [row]) in (ys1 ++ ys2, x2))
       = (new, x') /\ x' = map fst (acc ++ new) /\ NoDup x' /\
       (forall v, In v x' <-> In v x \/ v = col \/ v = row) /\
       (forall v hh, In (v, hh) new -> on_circle r (v, hh) /\ forall c, on_circle r (v, c) -> hh <= c)).
    { destruct (memz col x) eqn:M1.
      - apply memz_in in M1. destruct (memz row x) eqn:M2.
        + apply memz_in in M2. exists [], x.
          split; [reflexivity|]. split; [rewrite app_nil_r; exact Hx|]. split; [exact Hnd|].
          split; [intros v; intuition (subst; auto)|]. cbn; tauto.
        + apply memz_not in M2. exists [(row, col)], (x ++ [row]).
          split; [reflexivity|]. split; [rewrite map_app, <- Hx; reflexivity|]. split.
          { apply NoDup_app'; auto; [repeat constructor; cbn; tauto|]. intros z Hz [->|[]]; auto. }
          split; [intros v; rewrite in_app_iff; cbn; intuition (subst; auto)|].
          intros v hh [H|[]]; inversion H; subst v hh; auto using on_circle_swap.
      - apply memz_not in M1.
        assert (Hnd1 : NoDup (x ++ [col])).
        { apply NoDup_app'; auto; [repeat constructor; cbn; tauto|]. intros z Hz [->|[]]; auto. }
        destruct (memz row (x ++ [col])) eqn:M2.
        + apply memz_in in M2. exists [(col, row)], (x ++ [col]).
          split; [reflexivity|]. split; [rewrite map_app, <- Hx; reflexivity|]. split; [exact Hnd1|].
          split; [intros v; rewrite in_app_iff in *; cbn in *; intuition (subst; auto)|].
          intros v hh [H|[]]; inversion H; subst v hh; auto.
        + apply memz_not in M2. exists ([(col, row)] ++ [(row, col)]), ((x ++ [col]) ++ [row]).
          split; [reflexivity|]. split; [rewrite !map_app, <- Hx, app_assoc; reflexivity|]. split.
          { apply NoDup_app'; auto; [repeat constructor; cbn; tauto|]. intros z Hz [->|[]]; auto. }
          split; [intros v; rewrite !in_app_iff; cbn; intuition (subst; auto)|].
          assert (M3 : ~ In row x) by (intros I; apply M2; rewrite in_app_iff; auto).
          intros v hh [H|[H|[]]]; inversion H; subst v hh; auto using on_circle_swap. }
    destruct Em as (new & x' & Em & Hx' & Hnd' & Hinx & Hnew).
    assert (Hon' : forall v hh, In (v, hh) (acc ++ new) -> on_circle r (v, hh) /\ forall c, on_circle r (v, c) -> hh <= c).
    { intros v hh Hv. apply in_app_or in Hv as [Hv|Hv]; auto. }
    assert (Hseen' : forall a c, 0 <= a < col + 1 -> a <= c -> on_circle r (a, c) -> In c x').
    { intros a c Ha Hac Hc. apply Hinx. destruct (Z.eq_dec a col) as [->|]; [|left; apply (Hseen a); auto; lia].
      right. right. apply (on_circle_unique r col); auto. }
    destruct (if memz col x then ([], x) else ([(col, row)], x ++ [col])) as (ys1, x1).
    destruct (if memz row x1 then ([], x1) else ([(row, col)], x1 ++ [row])) as (ys2, x2).
    injection Em as Em1 Em2. rewrite Em1, Em2.
    destruct (Z.geb_spec (dec r row col) 0) as [D|D]; cbn [fst snd]; (split; [lia|]); unfold P.
    + rewrite dec_down. split; [reflexivity|]. split; [apply walk_down; auto; lia|].
      split; [exact Hx'|]. split; [exact Hnd'|]. split.
      { intros v Hv. apply Hinx. destruct (Z.eq_dec v col); auto. destruct (Z.eq_dec v row); auto.
        left. apply Hin. lia. }
      split; [|split; [exact Hon'|exact Hseen']]. intros v Hv. apply Hinx in Hv as [Hv|Hv]; [specialize (Hin' _ Hv)|]; lia.
    + destruct (walk_keep r row col) as (W' & Hlt); auto; try lia.
      rewrite dec_keep. split; [reflexivity|]. split; [exact W'|].
      split; [exact Hx'|]. split; [exact Hnd'|]. split.
      { intros v Hv. apply Hinx. destruct (Z.eq_dec v col); auto. destruct (Z.eq_dec v row); auto.
        left. apply Hin. lia. }
      split; [|split; [exact Hon'|exact Hseen']]. intros v Hv. apply Hinx in Hv as [Hv|Hv]; [specialize (Hin' _ Hv)|]; lia.
  - unfold P. split; [apply circ_d0_dec|]. split; [now apply walk_start|].
    split; [reflexivity|]. split; [constructor|]. cbn [In]. split; [intros; lia|]. split; [tauto|]. split; [tauto|]. intros; lia.
  - cbn. lia.
  - destruct s' as (((row, col), d), x). cbn [app] in E3.
    destruct E3 as (_ & W & Hx & Hnd & Hin & Hin' & Hon & _).
    destruct (Z.geb_spec row col) as [|Hlt]; [discriminate|].
    exists ys. unfold itercirclepartvertlineedge. rewrite E1. cbn [rbind fst]. rewrite <- Hx.
    split; [reflexivity|]. split; [exact Hnd|]. split; [|exact Hon].
    destruct W as (? & ? & ? & ? & ? & _).
    intros v. split; [intros Hv; specialize (Hin' _ Hv); lia | intros; apply Hin; lia].
Qed.
Lemma itercirclepartvertlineedge_neg r : r < 0 -> itercirclepartvertlineedge r = Ok [].
Proof.
  intros. unfold itercirclepartvertlineedge. replace (Z.to_nat (r + 1)) with O by lia.
  cbn [gen_while]. destruct (Z.geb_spec r 0); [lia|]. reflexivity.
Qed.

(** ** iterline *)
Lemma sign_cases v : (0 < v /\ sign v = 1) \/ (v = 0 /\ sign v = 0) \/ (v < 0 /\ sign v = -1).
Proof. unfold sign. destruct (Z.gtb_spec v 0), (Z.eqb_spec v 0); lia. Qed.
Lemma sign_abs v : sign v * Z.abs v = v.
Proof. destruct (sign_cases v) as [(H & ->)|[(H & ->)|(H & ->)]]; lia. Qed.

Lemma div_step a b d : 0 < d -> 0 <= a < d -> 0 <= b <= d ->
  (a + b) / d = (if a + b >=? d then 1 else 0) /\
  (a + b) mod d = (if a + b >=? d then a + b - d else a + b).
Proof.
  intros. destruct (Z.geb_spec (a + b) d).
  - assert (K : (a + b) / d = 1) by (symmetry; apply (Z.div_unique _ _ _ (a + b - d)); lia).
    split; auto. rewrite Z.mod_eq by lia. rewrite K. lia.
  - split; [apply Z.div_small|apply Z.mod_small]; lia.
Qed.

Lemma iterline_x_spec dx dy sdx sdy : 0 < dx -> 0 <= dy <= dx ->
  forall n y px py, 0 <= y < dx ->
  iterline_x n dx dy sdx sdy y px py =
  map (fun i => (px + i * sdx, py + sdy * ((y + (i + 1) * dy) / dx))) (range 0 (Z.of_nat n)).
Proof.
  intros Hdx Hdy. induction n; intros y px py Hy.
  - reflexivity.
  - rewrite range_cons by lia. cbn [iterline_x map].
    destruct (div_step y dy dx Hdx Hy Hdy) as (D & Mo).
    assert (Hy' : 0 <= (y + dy) mod dx < dx) by (apply Z.mod_pos_bound; lia).
    replace (let (y0, py0) := if y + dy >=? dx then (y + dy - dx, py + sdy) else (y + dy, py)
       in (px, py0) :: iterline_x n dx dy sdx sdy y0 (px + sdx) py0)
    with ((px, py + sdy * ((y + dy) / dx)) ::
          iterline_x n dx dy sdx sdy ((y + dy) mod dx) (px + sdx) (py + sdy * ((y + dy) / dx))).
    2:{ rewrite D, Mo. destruct (y + dy >=? dx).
        - replace (py + sdy * 1) with (py + sdy) by ring. reflexivity.
        - replace (py + sdy * 0) with py by ring. reflexivity. }
    rewrite IHn by auto. f_equal; [f_equal; [ring|do 3 f_equal; ring]|].
    replace (Z.of_nat (S n)) with (Z.of_nat n + 1) by lia.
    replace (range (0 + 1) (Z.of_nat n + 1)) with (map (Z.add 1) (range 0 (Z.of_nat n))).
    + rewrite map_map. apply map_ext. intros i. f_equal; [ring|].
      rewrite <- Z.add_assoc, <- Z.mul_add_distr_l. f_equal. f_equal.
      replace (y + (1 + i + 1) * dy) with
        (((y + dy) mod dx + (i + 1) * dy) + ((y + dy) / dx) * dx)
        by (pose proof (Z.div_mod (y + dy) dx ltac:(lia)) as K; lia).
      rewrite Z.div_add by lia. ring.
    + unfold range. rewrite map_map. replace (Z.to_nat (Z.of_nat n + 1 - (0 + 1))) with (Z.to_nat (Z.of_nat n - 0)) by lia.
      apply map_ext. intros; lia.
Qed.

Definition swap (p : Z * Z) : Z * Z := (snd p, fst p).
Lemma iterline_y_x n : forall dx dy sdx sdy x px py,
  iterline_y n dx dy sdx sdy x px py = map swap (iterline_x n dy dx sdy sdx x py px).
Proof.
  induction n; intros; cbn [iterline_y iterline_x map]; auto.
  destruct (x + dx >=? dy); cbn [map swap fst snd]; f_equal; auto.
Qed.

(** the i-th point of a line with |dx| >= |dy| *)
Definition xpoint (x1 y1 dx dy i : Z) : Z * Z :=
  (x1 + i * sign dx, y1 + sign dy * ((i + 1) * Z.abs dy / Z.abs dx)).

Lemma iterline_shape x1 y1 x2 y2 :
  let dx := x2 - x1 in let dy := y2 - y1 in
  iterline (x1, y1) (x2, y2) =
  (if (dx =? 0) && (dy =? 0) then [(x1, y1)]
   else if Z.abs dx >=? Z.abs dy then map (xpoint x1 y1 dx dy) (range 0 (Z.abs dx + 1))
   else map (fun i => swap (xpoint y1 x1 dy dx i)) (range 0 (Z.abs dy + 1))) ++ [(x2, y2)].
Proof.
  intros dx dy. unfold iterline. cbn [fst snd]. fold dx dy. f_equal.
  destruct (Z.geb_spec (Z.abs dx) (Z.abs dy)) as [L|L].
  - destruct (Z.eqb_spec dx 0) as [E0|N0]; cbn [andb].
    + assert (E1 : dy = 0) by lia. rewrite E0, E1. change (iterline_x _ _ _ _ _ _ _ _) with [(x1, y1 + 0)].
      now rewrite Z.add_0_r.
    + rewrite iterline_x_spec by lia. rewrite Z2Nat.id by lia. apply map_ext. intros i.
      unfold xpoint. now rewrite Z.add_0_l.
  - replace ((dx =? 0) && (dy =? 0)) with false by (destruct (Z.eqb_spec dy 0), (Z.eqb_spec dx 0); cbn; auto; lia).
    rewrite iterline_y_x, iterline_x_spec by lia. rewrite Z2Nat.id, map_map by lia. apply map_ext. intros i.
    unfold xpoint. now rewrite Z.add_0_l.
Qed.

(** steps, ends and distance from the ideal line of the points with |dx| >= |dy| *)
Section XLine.
  Variables (x1 y1 dx dy : Z).
  Hypothesis Hd : 0 < Z.abs dx.
  Hypothesis Hdy : Z.abs dy <= Z.abs dx.
  Let a := Z.abs dx.
  Let q i := (i + 1) * Z.abs dy / a.

  Lemma q_step i : q i <= q (i + 1) <= q i + 1.
  Proof.
    unfold q. split.
    - apply Z.div_le_mono; [exact Hd|]. nia.
    - rewrite <- (Z.div_add _ 1) by (unfold a; lia). apply Z.div_le_mono; [exact Hd|]. unfold a. nia.
  Qed.
  Lemma q_range i : 0 <= i <= a -> Z.abs dy < a -> 0 <= q i <= Z.abs dy.
  Proof.
    intros Hi Hlt. unfold q. split.
    - apply Z.div_pos; [nia|exact Hd].
    - apply Z.lt_succ_r. apply Z.div_lt_upper_bound; [exact Hd|]. nia.
  Qed.
  Lemma q_diag i : Z.abs dy = a -> q i = i + 1.
  Proof. intros E. unfold q. rewrite E. apply Z.div_mul. unfold a. lia. Qed.
  Lemma q_last : Z.abs dy < a -> q a = Z.abs dy.
  Proof.
    intros Hlt. unfold q. symmetry. apply (Z.div_unique _ _ _ (Z.abs dy)); lia.
  Qed.
  Lemma q_first : Z.abs dy < a -> q 0 = 0.
  Proof. intros Hlt. unfold q. apply Z.div_small. lia. Qed.
  (** error of the point: less than one pixel across the line *)
  Lemma q_err i : - a < a * q i - i * Z.abs dy <= Z.abs dy.
  Proof.
    unfold q. pose proof (Z.div_mod ((i + 1) * Z.abs dy) a ltac:(unfold a; lia)) as E.
    pose proof (Z.mod_pos_bound ((i + 1) * Z.abs dy) a Hd) as B. nia.
  Qed.
End XLine.

Definition near (p q : Z * Z) : Prop := Z.abs (fst q - fst p) <= 1 /\ Z.abs (snd q - snd p) <= 1.
Definition off_line (x1 y1 dx dy : Z) (p : Z * Z) : Z := dx * (snd p - y1) - dy * (fst p - x1).

Lemma sign_id a : sign a * Z.abs a = a /\ a * sign a = Z.abs a.
Proof. destruct (sign_cases a) as [[? ->] | [[? ->] | [? ->]]]; lia. Qed.

Lemma xpoint_props x1 y1 dx dy : 0 < Z.abs dx -> Z.abs dy <= Z.abs dx ->
  let m := Z.abs dx in
  let f := xpoint x1 y1 dx dy in
  (forall i, near (f i) (f (i + 1))) /\ near (f m) (x1 + dx, y1 + dy) /\
  (forall i, - m < sign dx * sign dy * off_line x1 y1 dx dy (f i) <= Z.abs dy) /\
  (Z.abs dy < m -> f 0 = (x1, y1) /\ f m = (x1 + dx, y1 + dy) /\
     forall i, 0 <= i <= m -> in_box x1 y1 (x1 + dx) (y1 + dy) (fst (f i)) (snd (f i)) = true) /\
  (Z.abs dy = m -> forall i, f i = (x1 + i * sign dx, y1 + (i + 1) * sign dy)).
Proof.
  intros H1 H2 m f. unfold f, xpoint, near, off_line. cbn [fst snd].
  pose proof (sign_id dx) as [Sx Sx']. pose proof (sign_id dy) as [Sy Sy'].
  assert (Bx : -1 <= sign dx <= 1) by (destruct (sign_cases dx) as [[? ->] | [[? ->] | [? ->]]]; lia).
  assert (By : -1 <= sign dy <= 1) by (destruct (sign_cases dy) as [[? ->] | [[? ->] | [? ->]]]; lia).
  split; [|split; [|split; [|split]]].
  - intros i. pose proof (q_step dx dy H1 H2 i) as Q. cbv beta zeta in Q.
    set (u := (i + 1) * Z.abs dy / Z.abs dx) in *. set (v := (i + 1 + 1) * Z.abs dy / Z.abs dx) in *.
    clearbody u v. split; nia.
  - fold m. assert (Em : m * sign dx = dx) by (unfold m; lia). rewrite Em. split; [lia|].
    destruct (Z.eq_dec (Z.abs dy) m) as [E|N].
    + pose proof (q_diag dx dy H1 m E) as Q. cbv beta zeta in Q. fold m in Q. rewrite Q. rewrite <- E. rewrite Z.mul_add_distr_l, Sy. clear - By. lia.
    + pose proof (q_last dx dy ltac:(fold m; lia)) as Q. cbv beta zeta in Q. fold m in Q. rewrite Q. lia.
  - intros i. pose proof (q_err dx dy H1 H2 i) as Q. cbv beta zeta in Q. fold m in Q |- *.
    set (u := (i + 1) * Z.abs dy / m) in *. clearbody u.
    replace (sign dx * sign dy * (dx * (y1 + sign dy * u - y1) - dy * (x1 + i * sign dx - x1)))
      with ((sign dy * sign dy) * (dx * sign dx) * u - (sign dx * sign dx) * (dy * sign dy) * i) by ring.
    rewrite Sx', Sy'.
    assert (Esx : sign dx * sign dx = 1) by (destruct (sign_cases dx) as [[? ->] | [[? ->] | [? ->]]]; lia).
    rewrite Esx. fold m.
    destruct (Z.eq_dec dy 0) as [E0|N0].
    + rewrite E0 in *. change (sign 0) with 0. change (Z.abs 0) with 0 in *. lia.
    + assert (Esy : sign dy * sign dy = 1) by (destruct (sign_cases dy) as [[? ->] | [[? ->] | [? ->]]]; lia).
      rewrite Esy. lia.
  - intros Hlt. split; [|split].
    + pose proof (q_first dx dy Hlt) as Q. cbv beta zeta in Q. rewrite Q. f_equal; lia.
    + pose proof (q_last dx dy Hlt) as Q. cbv beta zeta in Q. fold m in Q |- *. rewrite Q, Sy.
      f_equal. unfold m; lia.
    + intros i Hi. pose proof (q_range dx dy H1 H2 i Hi Hlt) as Q. cbv beta zeta in Q. fold m in Q |- *.
      set (u := (i + 1) * Z.abs dy / m) in *. clearbody u.
      assert (Kx : Z.min 0 dx <= i * sign dx <= Z.max 0 dx)
        by (unfold m in *; destruct (sign_cases dx) as [[? ->] | [[? ->] | [? ->]]]; lia).
      assert (Ky : Z.min 0 dy <= sign dy * u <= Z.max 0 dy)
        by (destruct (sign_cases dy) as [[? ->] | [[? ->] | [? ->]]]; lia).
      unfold in_box. rewrite !andb_true_iff, !Z.leb_le. lia.
  - intros E i. pose proof (q_diag dx dy H1 i E) as Q. cbv beta zeta in Q. fold m in Q |- *. rewrite Q. f_equal. ring.
Qed.

Lemma iterline_props x1 y1 x2 y2 :
  let dx := x2 - x1 in let dy := y2 - y1 in
  let m := Z.max (Z.abs dx) (Z.abs dy) in
  exists f, iterline (x1, y1) (x2, y2) = map f (range 0 (m + 1)) ++ [(x2, y2)] /\
  (forall i, near (f i) (f (i + 1))) /\ near (f m) (x2, y2) /\
  (forall i, 0 <= i <= m -> Z.abs (off_line x1 y1 dx dy (f i)) <= m /\
     (Z.abs dx <> Z.abs dy -> Z.abs (off_line x1 y1 dx dy (f i)) < m)) /\
  (forall i, 0 <= i <= m -> if Z.abs dx >=? Z.abs dy then fst (f i) = x1 + i * sign dx else snd (f i) = y1 + i * sign dy) /\
  ((Z.abs dx <> Z.abs dy \/ m = 0) -> f 0 = (x1, y1) /\ f m = (x2, y2) /\
     forall i, 0 <= i <= m -> in_box x1 y1 x2 y2 (fst (f i)) (snd (f i)) = true) /\
  (Z.abs dx = Z.abs dy -> m > 0 -> forall i, f i = (x1 + i * sign dx, y1 + (i + 1) * sign dy)).
Proof.
  intros dx dy m. pose proof (iterline_shape x1 y1 x2 y2) as Hs. cbv zeta in Hs. fold dx dy in Hs. rewrite Hs. clear Hs.
  assert (Ex : x2 = x1 + dx) by (unfold dx; lia). assert (Ey : y2 = y1 + dy) by (unfold dy; lia).
  clearbody dx dy. subst x2 y2.
  destruct (Z.eqb_spec dx 0) as [E0|N0]; [destruct (Z.eqb_spec dy 0) as [E1|N1]|]; cbn [andb].
  1: { subst dx dy. change m with 0. exists (fun _ => (x1, y1)). rewrite !Z.add_0_r.
    split; [reflexivity|]. unfold near, off_line, in_box. cbn [fst snd].
    split; [intros; lia|]. split; [lia|]. split; [intros; lia|]. split; [intros; cbn; lia|]. split; [|intros; lia].
    intros _. split; [reflexivity|]. split; [reflexivity|]. intros. rewrite !andb_true_iff, !Z.leb_le. lia. }
  all: destruct (Z.geb_spec (Z.abs dx) (Z.abs dy)) as [L|L]; try lia.
  1,3: assert (Em : m = Z.abs dy) by (unfold m; lia); rewrite Em;
    pose proof (xpoint_props y1 x1 dy dx ltac:(lia) ltac:(lia)) as (P1 & P2 & P3 & P4 & P5);
    exists (fun i => swap (xpoint y1 x1 dy dx i)); clear Em m;
    (split; [reflexivity|]);
    (split; [intros i; destruct (P1 i); split; assumption|]);
    (split; [destruct P2; split; assumption|]);
    (split; [intros i Hi; specialize (P3 i); unfold off_line in *; unfold swap; cbn [fst snd];
       destruct (sign_cases dx) as [[? E] | [[? E] | [? E]]], (sign_cases dy) as [[? E'] | [[? E'] | [? E']]];
       rewrite E, E' in P3; try lia; subst; rewrite ?Z.mul_0_l in *; unfold xpoint in *; cbn [fst snd] in *;
       rewrite ?E, ?Z.mul_0_l, ?Z.add_0_r, ?Z.sub_diag in *; lia|]);
    (split; [intros i Hi; reflexivity|]);
    (split; [intros _; destruct (P4 L) as (Q1 & Q2 & Q3); rewrite Q1, Q2;
       (split; [reflexivity|]); (split; [reflexivity|]); intros i Hi; specialize (Q3 i Hi);
       unfold in_box in *; unfold swap; cbn [fst snd]; now rewrite andb_comm|]);
    intros; lia.
  assert (Em : m = Z.abs dx) by (unfold m; lia). rewrite Em.
  pose proof (xpoint_props x1 y1 dx dy ltac:(lia) ltac:(lia)) as (P1 & P2 & P3 & P4 & P5).
  exists (xpoint x1 y1 dx dy). clear Em m.
  split; [reflexivity|]. split; [exact P1|]. split; [exact P2|].
  split.
  { intros i Hi. specialize (P3 i). unfold off_line in *.
    destruct (sign_cases dx) as [[? E] | [[? E] | [? E]]], (sign_cases dy) as [[? E'] | [[? E'] | [? E']]];
    rewrite E, E' in P3; try lia. all: subst; rewrite ?Z.mul_0_l in *; unfold xpoint in *; cbn [fst snd] in *;
      rewrite ?E', ?Z.mul_0_l, ?Z.add_0_r, ?Z.sub_diag in *; lia. }
  split; [intros i Hi; reflexivity|].
  split; [intros [Hne|Hz]; [apply P4|]; lia|]. intros E _. now apply P5.
Qed.
