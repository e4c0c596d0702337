(** The ellipse generator (proofs). *)
From Coq Require Import ZArith List Bool Lia.
From Verif Require Import PyBase PyFacts Spec SpecShapes Geometry GeomProofs Shapes.
Import ListNotations.
Open Scope Z_scope.

Lemma edges_snoc (l : list (Z * Z)) x y : edges (l ++ [x; y]) = edges (l ++ [x]) ++ [(x, y)].
Proof.
  unfold edges. induction l as [|u l IH]; [reflexivity|].
  destruct l as [|v l]; [reflexivity|].
  change ((u :: v :: l) ++ [x; y]) with (u :: (v :: l) ++ [x; y]). change ((u :: v :: l) ++ [x]) with (u :: (v :: l) ++ [x]).
  cbn [tl] in *. change ((v :: l) ++ [x; y]) with (v :: l ++ [x; y]) in *. change ((v :: l) ++ [x]) with (v :: l ++ [x]) in *.
  cbn [combine tl app] in *. f_equal. exact IH.
Qed.
Definition chain (l : list (Z * Z)) : Prop := Forall (fun e => down_right (fst e) (snd e)) (edges l).
Lemma chain_snoc l x y : chain (l ++ [x]) -> down_right x y -> chain (l ++ [x; y]).
Proof. unfold chain. intros H D. rewrite edges_snoc. apply Forall_app. split; auto. Qed.
Lemma chain_prefix l x : chain (l ++ [x]) -> chain l.
Proof.
  unfold chain. destruct l as [|u l _] using rev_ind; [constructor|]. rewrite <- app_assoc. cbn [app]. rewrite edges_snoc.
  intros H. now apply Forall_app in H.
Qed.

Section Ell.
  Variables (a b : Z).
  Hypothesis (Ha : 0 < a) (Hb : 0 < b).
  Notation A2 := (a * a).
  Notation B2 := (b * b).

  Definition good (l : list (Z * Z)) : Prop :=
    Forall (fun p => 0 <= fst p /\ 0 <= snd p <= b /\ (fst p * B2 <= snd p * A2 -> ell_row b a (fst p) (snd p))) l.
  Definition covered (l : list (Z * Z)) (row : Z) : Prop := forall v, row < v <= b -> exists u, In (u, v) l.

  Definition P1 (acc : list (Z * Z)) (s : Z * Z * Z) : Prop :=
    let '(row, col, d) := s in
    chain (acc ++ [(col, row)]) /\ hd (0, 0) (acc ++ [(col, row)]) = (0, b) /\ good acc /\ covered acc row /\
    0 <= col /\ -1 <= row <= b /\
    d = ell b a (col + 1) row + ell b a (col + 1) (row - 1) /\
    0 <= ell b a col (row + 1) + ell b a col row /\
    (col * B2 <= row * A2 -> ell b a col row + ell b a col (row - 1) < 0).

  Lemma hd_snoc {A} (d : A) l x y : hd d (l ++ [x]) = hd d (l ++ [x; y]).
  Proof. now destruct l. Qed.
  Lemma covered_step acc col row row' : covered acc row -> row - 1 <= row' -> covered (acc ++ [(col, row)]) row'.
  Proof.
    intros H L v Hv. destruct (Z.eq_dec v row) as [-> |N].
    - exists col. apply in_or_app. right. now left.
    - destruct (H v ltac:(lia)) as (u & Hu). exists u. apply in_or_app. now left.
  Qed.

  Lemma loop1 fuel : A2 < Z.of_nat fuel ->
    exists ys s', gen_while fuel (fun '(row, col, d) => row * A2 >=? col * B2) (iterellipsepart_body1 b a)
        (b, 0, Z.shiftl A2 1 * ((b - 1) * b) + A2 + Z.shiftl B2 1 * (1 - A2)) = Ok (ys, s') /\
      (let '(row, col, d) := s' in row * A2 < col * B2) /\ P1 ys s'.
  Proof.
    intros Hf.
    destruct (gen_while_inv P1 (fun s => let '(row, col, d) := s in A2 - col)
      (fun '(row, col, d) => row * A2 >=? col * B2) (iterellipsepart_body1 b a)) with (fuel := fuel) (acc := @nil (Z * Z))
      (s := (b, 0, Z.shiftl A2 1 * ((b - 1) * b) + A2 + Z.shiftl B2 1 * (1 - A2))) as (ys & s' & E & C & HP).
    - intros acc [[row col] d] (H1 & H2 & H3 & H4 & H5 & H6 & H7 & H8 & H9) C. apply Z.geb_le in C.
      assert (Pa : 0 < A2) by nia. assert (Pb : 0 < B2) by nia.
      assert (R0 : 0 <= row) by nia.
      assert (Cb : col * b <= A2).
      { assert (col * B2 <= b * A2) by nia. assert (b * (col * b) <= b * A2) by nia. nia. }
      unfold iterellipsepart_body1. rewrite !shl1, !shl2.
      specialize (H9 C).
      assert (G : good (acc ++ [(col, row)])).
      { apply Forall_app. split; auto. repeat constructor; cbn [fst snd]; try lia. }
      rewrite Z.geb_leb. destruct (Z.leb_spec 0 d) as [D|D]; cbn [fst snd]; (split; [nia|]); (split; [lia|]); unfold P1; rewrite <- app_assoc; cbn [app].
      + split; [apply chain_snoc; auto; unfold down_right; cbn [fst snd]; repeat split; try lia; intros Q; inversion Q; lia|].
        split; [now rewrite <- hd_snoc|]. split; [exact G|]. split; [apply covered_step; auto; lia|]. split; [lia|]. split; [lia|].
        split; [subst d; unfold ell; ring|]. split; [replace (row - 1 + 1) with row by ring; lia|].
        intros C'. replace (row - 1 - 1) with (row - 2) by ring.
        assert (K : ell b a (col + 1) (row - 1) + ell b a (col + 1) (row - 2) - (ell b a col row + ell b a col (row - 1)) =
          4 * ((col + 1) * B2 - (row - 1) * A2) - 2 * B2) by (unfold ell; ring). lia.
      + split; [apply chain_snoc; auto; unfold down_right; cbn [fst snd]; repeat split; try lia; intros Q; inversion Q; lia|].
        split; [now rewrite <- hd_snoc|]. split; [exact G|]. split; [apply covered_step; auto; lia|]. split; [lia|]. split; [lia|].
        split; [subst d; unfold ell; ring|]. split.
        * assert (K : ell b a (col + 1) (row + 1) + ell b a (col + 1) row - (ell b a col (row + 1) + ell b a col row) = 2 * B2 * (2 * col + 1)) by (unfold ell; ring).
          assert (0 <= 2 * B2 * (2 * col + 1)) by nia. lia.
        * intros _. lia.
    - unfold P1. cbn [app hd]. split; [constructor|]. split; [reflexivity|]. split; [constructor|].
      split; [intros v Hv; lia|]. split; [lia|]. split; [lia|]. rewrite !shl1. split; [unfold ell; ring|].
      split; [unfold ell; nia|]. intros _. assert (K : ell b a 0 b + ell b a 0 (b - 1) = A2 * (1 - 2 * b)) by (unfold ell; ring). rewrite K. nia.
    - lia.
    - exists ys, s'. cbn [app] in HP. split; [exact E|]. split; [|exact HP]. destruct s' as [[row col] d]. clear - C.
      rewrite Z.geb_leb in C. apply Z.leb_gt in C. exact C.
  Qed.

  Definition P2 (acc : list (Z * Z)) (s : Z * Z * Z) : Prop :=
    let '(row, col, d) := s in
    chain (acc ++ [(col, row)]) /\ hd (0, 0) (acc ++ [(col, row)]) = (0, b) /\ good acc /\ covered acc row /\
    0 <= col /\ -1 <= row <= b /\ row * A2 < col * B2.

  Lemma loop2 fuel acc s : b + 1 < Z.of_nat fuel -> P2 acc s ->
    exists ys s', gen_while fuel (fun '(row, col, d) => row >? -1) (iterellipsepart_body2 b a) s = Ok (ys, s') /\
      (let '(row, col, d) := s' in row <= -1) /\ P2 (acc ++ ys) s'.
  Proof.
    intros Hf HP.
    destruct (gen_while_inv P2 (fun s => let '(row, col, d) := s in row)
      (fun '(row, col, d) => row >? -1) (iterellipsepart_body2 b a)) with (fuel := fuel) (acc := acc) (s := s)
      as (ys & s' & E & C & HP').
    - clear acc s Hf HP. intros acc [[row col] d] (H1 & H2 & H3 & H4 & H5 & H6 & H7) C. apply Z.gtb_lt in C.
      unfold iterellipsepart_body2.
      assert (G : good (acc ++ [(col, row)])).
      { apply Forall_app. split; auto. constructor; [cbn [fst snd]|constructor]. split; [lia|]. split; [lia|]. intros; exfalso; lia. }
      destruct (d >=? 0); cbn [fst snd]; (split; [lia|]); (split; [lia|]); unfold P2; rewrite <- app_assoc; cbn [app].
      + split; [apply chain_snoc; auto; unfold down_right; cbn [fst snd]; repeat split; try lia; intros Q; inversion Q; lia|].
        split; [now rewrite <- hd_snoc|]. split; [exact G|]. split; [apply covered_step; auto; lia|]. split; [lia|]. split; [lia|]. nia.
      + split; [apply chain_snoc; auto; unfold down_right; cbn [fst snd]; repeat split; try lia; intros Q; inversion Q; lia|].
        split; [now rewrite <- hd_snoc|]. split; [exact G|]. split; [apply covered_step; auto; lia|]. split; [lia|]. split; [lia|]. nia.
    - exact HP.
    - destruct s as [[row col] d]. destruct HP as (_ & _ & _ & _ & _ & H & _). lia.
    - exists ys, s'. split; [exact E|]. split; [|exact HP']. destruct s' as [[row col] d]. clear - C.
      rewrite Z.gtb_ltb in C. apply Z.ltb_ge in C. lia.
  Qed.

  Lemma ellipsepart_run : exists l, iterellipsepart b a = Ok l /\ chain l /\ hd (0, 0) l = (0, b) /\ good l /\ covered l (-1).
  Proof.
    unfold iterellipsepart. set (fuel := Z.to_nat (A2 + B2 + 2)).
    assert (F1 : A2 < Z.of_nat fuel) by (unfold fuel; nia). assert (F2 : b + 1 < Z.of_nat fuel) by (unfold fuel; nia). clearbody fuel.
    unfold iterellipsepart_fuel. cbv zeta.
    destruct (loop1 fuel F1) as (ys & [[row col] d] & E & C & HP). rewrite E. cbn [rbind fst snd].
    set (d2 := Z.shiftl B2 1 * ((col - 1) * col) + Z.shiftl A2 1 * (row * (row - 2) + 1) + (1 - Z.shiftl A2 1) * B2). clearbody d2.
    destruct HP as (H1 & H2 & H3 & H4 & H5 & H6 & _).
    destruct (loop2 fuel ys (row, col, d2) F2) as (ys2 & [[row2 col2] d3] & E2 & C2 & K1 & K2 & K3 & K4 & K5 & K6 & K7).
    { unfold P2. tauto. }
    rewrite E2. cbn [rbind fst snd]. exists (ys ++ ys2). split; [reflexivity|].
    assert (row2 = -1) by lia. subst row2.
    split; [eapply chain_prefix; eauto|]. split; [|split; auto].
    destruct (ys ++ ys2) as [|q l] eqn:Q; [|exact K2]. exfalso. destruct (K4 b ltac:(lia)) as (u & []).
  Qed.
End Ell.

(** ** degenerate ellipses *)
Lemma ellipse_flat a : 0 < a -> iterellipsepart 0 a = Ok [(0, 0)].
Proof.
  intros Ha. unfold iterellipsepart. destruct (Z.to_nat (a * a + 0 * 0 + 2)) as [|[|n]] eqn:E; [nia|nia|].
  unfold iterellipsepart_fuel. cbv zeta. cbn [gen_while]. rewrite !Z.mul_0_l, !Z.mul_0_r.
  change (Z.shiftl 0 1) with 0. rewrite ?Z.mul_0_l, ?Z.mul_0_r, Z.add_0_r, Z.add_0_l.
  change (0 >=? 0) with true. cbv iota. unfold iterellipsepart_body1.
  replace (a * a >=? 0) with true by (symmetry; apply Z.geb_le; nia). cbv iota. cbn [gen_while].
  replace ((0 - 1) * (a * a) >=? (0 + 1) * 0) with false by (symmetry; rewrite Z.geb_leb; apply Z.leb_gt; nia).
  cbn [rbind fst snd app]. change (0 - 1 >? -1) with false. reflexivity.
Qed.
Lemma ellipse_loops fuel : iterellipsepart_fuel fuel 0 0 = Err Diverges.
Proof.
  unfold iterellipsepart_fuel. cbv zeta. rewrite !Z.mul_0_l, !Z.mul_0_r. change (Z.shiftl 0 1) with 0. cbn [Z.mul Z.add].
  assert (G : forall fuel s, gen_while fuel (fun '(row, col, d) => row * 0 >=? col * 0) (iterellipsepart_body1 0 0) s = Err Diverges).
  { clear. induction fuel as [|n IH]; intros [[row col] d]; cbn [gen_while]; rewrite !Z.mul_0_r; cbn [Z.geb Z.compare]; [reflexivity|].
    unfold iterellipsepart_body1. destruct (d >=? 0); rewrite IH; reflexivity. }
  rewrite G. reflexivity.
Qed.
