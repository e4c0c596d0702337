(** Visible sides and surface plots (proofs). *)
From Coq Require Import ZArith List Bool Lia.
From Verif Require Import PyBase PyFacts Spec SpecShapes SpecSolids HeaderProofs IterProofs Bmp Geometry Fractal MathLib Solids SurfProofs.
Import ListNotations.
Open Scope Z_scope.
Open Scope py_scope.

(** ** visible sides *)
Definition listof (v : vec) : list Z := let '(a, b, c) := v in [a; b; c].
Lemma surfacetest_run u v w : surfacetest (listof u) (listof v) (listof w) = Ok (- dot3 (normal u v w) u).
Proof.
  destruct u as ((u1, u2), u3), v as ((v1, v2), v3), w as ((w1, w2), w3). unfold surfacetest, listof. f_equal.
  cbv beta iota delta [dot3 normal cross3 minus3]. ring.
Qed.
Lemma getnormvec_run u v w : getnormvec (listof u) (listof v) (listof w) = listof (normal u v w).
Proof.
  destruct u as ((u1, u2), u3), v as ((v1, v2), v3), w as ((w1, w2), w3). reflexivity.
Qed.
Definition vertex (vs : list vec) (i : Z) : vec := nth (Z.to_nat i) vs (0, 0, 0).
Definition kept (vs : list vec) (f : list Z) : bool :=
  match f with
  | i :: j :: k :: _ => 0 <=? dot3 (normal (vertex vs i) (vertex vs j) (vertex vs k)) (vertex vs i)
  | _ => false
  end.
Definition facenormal (vs : list vec) (f : list Z) : list Z :=
  match f with
  | i :: j :: k :: _ => listof (normal (vertex vs i) (vertex vs j) (vertex vs k))
  | _ => []
  end.
Definition facepoly (ps : list (Z * Z)) (t : Z * Z) (f : list Z) : list (Z * Z) :=
  map (fun i => let p := nth (Z.to_nat i) ps (0, 0) in (fst p + fst t, snd p + snd t)) f.
Lemma item_vertex vs i : 0 <= i < zlen vs -> item (map listof vs) i = Ok (listof (vertex vs i)).
Proof.
  intros H. rewrite (item_nth _ (listof (0, 0, 0))) by (unfold zlen in *; rewrite map_length; lia). now rewrite map_nth.
Qed.
Lemma gensides_run vs ps t sides : zlen ps = zlen vs ->
  (forall f, In f sides -> 3 <= zlen f /\ forall i, In i f -> 0 <= i < zlen vs) ->
  gensides (map listof vs) ps t sides =
    Ok (map (facepoly ps t) (filter (kept vs) sides), map (facenormal vs) (filter (kept vs) sides)).
Proof.
  intros Hp Hs. unfold gensides.
  assert (G : forall l, (forall f, In f l -> In f sides) -> forall a1 a2,
    fold_left (fun r sidepts => let! acc := r in
      match sidepts with
      | s0 :: s1 :: s2 :: _ =>
          let! u := item (map listof vs) s0 in let! v := item (map listof vs) s1 in let! w := item (map listof vs) s2 in
          let! t0 := surfacetest u v w in
          if t0 <=? 0 then
            let! poly := mapR (fun i => let! p := item ps i in Ok (fst p + fst t, snd p + snd t)) sidepts in
            Ok (fst acc ++ [poly], snd acc ++ [getnormvec u v w])
          else Ok acc
      | _ => Err ValueError
      end) l (Ok (a1, a2)) = Ok (a1 ++ map (facepoly ps t) (filter (kept vs) l), a2 ++ map (facenormal vs) (filter (kept vs) l))).
  { induction l as [|f l IH]; intros Hl a1 a2.
    - cbn [fold_left filter map]. now rewrite !app_nil_r.
    - destruct (Hs f (Hl f (or_introl eq_refl))) as [Lf If].
      destruct f as [|i [|j [|k r]]]; try (unfold zlen in Lf; cbn [length] in Lf; lia).
      set (f := i :: j :: k :: r) in *. cbn [fold_left]. unfold f at 1. cbn [rbind].
      rewrite !item_vertex by (apply If; cbn; auto). cbn [rbind]. rewrite surfacetest_run. cbn [rbind].
      assert (Ep : mapR (fun i => let! p := item ps i in Ok (fst p + fst t, snd p + snd t)) (i :: j :: k :: r) = Ok (facepoly ps t f)).
      { unfold facepoly. apply mapR_ok. intros a Ha. rewrite (item_nth _ (0, 0)) by (rewrite Hp; apply If; exact Ha). reflexivity. }
      cbn [filter]. assert (Ek : kept vs f = (- dot3 (normal (vertex vs i) (vertex vs j) (vertex vs k)) (vertex vs i) <=? 0)).
      { unfold kept, f. apply eq_true_iff_eq. rewrite !Z.leb_le. lia. }
      rewrite Ek. destruct (_ <=? 0).
      + fold f in Ep |- *. rewrite Ep. cbn [rbind fst snd]. rewrite IH by (intros; apply Hl; now right). cbn [map].
        rewrite <- !app_assoc. cbn [app]. rewrite getnormvec_run. reflexivity.
      + apply IH. intros; apply Hl; now right. }
  now rewrite (G sides ltac:(auto) [] []).
Qed.
(** an orientation reversing map *)
Definition scale (rot : (Z * Z) * (Z * Z) * (Z * Z)) : Z :=
  let '((a, b), (c, d), (e, f)) := rot in (a * a + b * b) * (c * c + d * d) * (e * e + f * f).
Lemma scale_nonneg rot : 0 <= scale rot.
Proof. destruct rot as (((a, b), (c, d)), (e, f)). unfold scale. repeat apply Z.mul_nonneg_nonneg; nia. Qed.
Lemma rotate_normal rot disp u v w z :
  dot3 (normal (rotate rot disp u) (rotate rot disp v) (rotate rot disp w)) (minus3 (rotate rot disp z) (rotate rot disp u)) =
  - scale rot * dot3 (normal u v w) (minus3 z u).
Proof.
  destruct rot as (((a, b), (c, d)), (e, f)), disp as ((x, y), t), u as ((u1, u2), u3), v as ((v1, v2), v3), w as ((w1, w2), w3), z as ((z1, z2), z3).
  cbv beta iota zeta delta [rotate normal minus3 cross3 dot3 scale]. ring.
Qed.
Lemma dot_minus n u : dot3 n (minus3 (0, 0, 0) u) = - dot3 n u.
Proof. destruct n as ((a, b), c), u as ((d, e), f). cbv beta iota delta [dot3 minus3]. ring. Qed.

(** ** surface plots *)
Lemma grid_flat {A} (H : Z -> Z -> A) m n : 0 < m -> 0 <= n ->
  flat_map (fun r => map (fun c => H r c) (range 0 m)) (range 0 n) = map (fun i => H (i / m) (i mod m)) (range 0 (n * m)).
Proof.
  intros Hm Hn. revert n Hn. apply (natlike_ind (fun n => flat_map (fun r => map (fun c => H r c) (range 0 m)) (range 0 n) =
    map (fun i => H (i / m) (i mod m)) (range 0 (n * m)))).
  - rewrite Z.mul_0_l, (range_nil 0 0) by lia. reflexivity.
  - intros n Hn IH. unfold Z.succ. rewrite range_snoc by lia. rewrite flat_map_app. cbn [flat_map]. rewrite app_nil_r, IH.
    rewrite <- (range_app 0 (n * m) ((n + 1) * m)) by nia. rewrite map_app. f_equal.
    replace (range (n * m) ((n + 1) * m)) with (map (fun k => k + n * m) (range 0 m)) by (rewrite <- range_plus; f_equal; lia).
    rewrite map_map. apply map_ext_in. intros c Hc. apply in_range in Hc.
    rewrite Z.div_add, Z.mod_add, Z.div_small, Z.mod_small by lia. reflexivity.
Qed.
Lemma indexof_range {A} (eqb : A -> A -> bool) (G : Z -> A) a b i : a <= i < b ->
  (forall p q, a <= p < b -> a <= q < b -> eqb (G p) (G q) = true <-> p = q) -> indexof eqb (map G (range a b)) (G i) = i - a.
Proof.
  intros Hi. assert (Hn : 0 <= b - a) by lia. assert (Eb : b = a + (b - a)) by lia. revert Hi. generalize dependent (b - a). intros n Hn ->.
  revert n Hn a. apply (natlike_ind (fun n => forall a, a <= i < a + n ->
    (forall p q, a <= p < a + n -> a <= q < a + n -> eqb (G p) (G q) = true <-> p = q) -> indexof eqb (map G (range a (a + n))) (G i) = i - a)).
  - intros; lia.
  - intros n Hn IH a Hi E. rewrite range_cons by lia. cbn [map indexof].
    destruct (eqb (G a) (G i)) eqn:K.
    + apply E in K; lia.
    + assert (a <> i) by (intros ->; rewrite (proj2 (E i i ltac:(lia) ltac:(lia))) in K by reflexivity; discriminate).
      replace (a + Z.succ n) with (a + 1 + n) by lia. rewrite IH; [lia|lia|]. intros. apply E; lia.
Qed.
Lemma mapR_map {A B C} (f : B -> res C) (g : A -> B) l : mapR f (map g l) = mapR (fun a => f (g a)) l.
Proof. induction l as [|a l IH]; [reflexivity|]. cbn [map mapR]. now rewrite IH. Qed.

Definition gridpoint (x1 y1 step m : Z) (fnxy : Z -> Z -> Z) (i : Z) : Z * Z * Z :=
  let x := x1 + (i mod m) * step in let y := y1 + (i / m) * step in (x, y, fnxy x y).
Lemma surfplot_run x1 y1 x2 y2 step fnxy m n : 0 < step -> 0 < m -> 0 <= n -> x2 - x1 = m * step -> y1 + (n - 1) * step < y2 <= y1 + n * step ->
  surfplot3Dvertandsurface x1 y1 x2 y2 step fnxy =
    Ok (map (gridpoint x1 y1 step m fnxy) (range 0 (n * m)),
        List.concat (map (fun i => if ((i + m + 1 <=? n * m) && (i mod m <? m - 1)) then [[i + m; i + m + 1; i + 1; i]] else []) (range 0 (n * m)))).
Proof.
  intros Hs Hm Hn Ex Ey. unfold surfplot3Dvertandsurface, rangeby.
  replace (step =? 0) with false by (symmetry; apply Z.eqb_neq; lia). replace (0 <? step) with true by (symmetry; now apply Z.ltb_lt).
  cbn [rbind]. cbv zeta. unfold range_step.
  rewrite (stepcount_exact y1 y2 step n) by lia. rewrite (stepcount_exact x1 x2 step m) by nia.
  set (vl := flat_map _ _).
  assert (Ev : vl = map (gridpoint x1 y1 step m fnxy) (range 0 (n * m))).
  { unfold vl. rewrite flat_map_concat_map, map_map, <- flat_map_concat_map.
    etransitivity; [|exact (grid_flat (fun r c => (x1 + c * step, y1 + r * step, fnxy (x1 + c * step) (y1 + r * step))) m n Hm Hn)].
    apply flat_map_ext. intros r. rewrite map_map. reflexivity. }
  clearbody vl. subst vl. assert (0 <= n * m) by nia.
  assert (Ed : Z.abs (x2 - x1) / step = m) by (rewrite Ex, Z.abs_eq by nia; apply Z.div_mul; lia). rewrite Ed.
  replace (zlen (map (gridpoint x1 y1 step m fnxy) (range 0 (n * m)))) with (n * m)
    by (unfold zlen, range; rewrite !map_length, seq_length; lia).
  rewrite mapR_map.
  rewrite (mapR_ok _ (fun i => if ((i + m + 1 <=? n * m) && (i mod m <? m - 1)) then [[i + m; i + m + 1; i + 1; i]] else [])).
  { reflexivity. }
  intros i Hi. apply in_range in Hi. cbv beta.
  assert (Inj : forall p q, 0 <= p < n * m -> 0 <= q < n * m ->
    point3_eqb (gridpoint x1 y1 step m fnxy p) (gridpoint x1 y1 step m fnxy q) = true <-> p = q).
  { intros p q _ _. unfold point3_eqb, gridpoint. cbn [fst snd]. split.
    - rewrite !andb_true_iff, !Z.eqb_eq. intros [[A B] _].
      assert (p mod m = q mod m) by (apply (Z.mul_reg_r _ _ step); lia). assert (p / m = q / m) by (apply (Z.mul_reg_r _ _ step); lia).
      rewrite (Z.div_mod p m), (Z.div_mod q m) by lia. congruence.
    - intros ->. now rewrite !Z.eqb_refl. }
  rewrite (indexof_range point3_eqb (gridpoint x1 y1 step m fnxy) 0 (n * m) i Hi Inj).
  rewrite Z.sub_0_r. replace (m =? 0) with false by (symmetry; apply Z.eqb_neq; lia).
  replace (n * m - (i + m + 1) >=? 0) with (i + m + 1 <=? n * m).
  - destruct (i + m + 1 <=? n * m); reflexivity.
  - apply eq_true_iff_eq. rewrite Z.leb_le, Z.geb_le. lia.
Qed.
