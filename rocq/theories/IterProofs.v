(** The pixel iterator and the colour histogram (proofs). *)
From Coq Require Import ZArith List Bool Lia Permutation Sorted.
From Verif Require Import PyBase PyFacts Spec Bmp BmpFacts PixelProofs Buffers Region Raster.
Import ListNotations.
Open Scope Z_scope.
Open Scope py_scope.
Ltac Zify.zify_post_hook ::= Z.to_euclidean_division_equations.

Definition perstep (bits : Z) : Z := if bits =? 1 then 8 else if bits =? 4 then 2 else 1.
Definition stepbytes (bits : Z) : Z := if bits =? 24 then 3 else 1.

(** items of pixels a..b-1 of row y *)
Definition rowitems (b : list Z) (w h bits y x1 x2 : Z) : list (Z * Z * Z) :=
  map (fun x => (x, y, pixel b w h bits x y)) (range x1 x2).
(** all pixels: rows from the bottom (h-1) to the top, each from left to right *)
Definition allitems (b : list Z) (w h bits : Z) : list (Z * Z * Z) :=
  flat_map (fun y => rowitems b w h bits y 0 w) (rev (range 0 h)).

Lemma bitsel_sweep v k : byte v -> 0 <= k < 8 -> Z.shiftr (Z.land v (Z.shiftl 1 k)) k = (v / 2 ^ k) mod 2.
Proof.
  intros Hv Hk. pose proof (forall_below2 (fun v k => Z.shiftr (Z.land v (Z.shiftl 1 k)) k =? (v / 2 ^ k) mod 2)
    256 8 ltac:(vm_compute; reflexivity) v k Hv Hk) as H. now apply Z.eqb_eq.
Qed.
Lemma range_snoc' a b : a < b -> range a b = range a (b - 1) ++ [b - 1].
Proof. intros. replace b with (b - 1 + 1) at 1 by lia. apply range_snoc. lia. Qed.

Lemma range_app a c e : a <= c <= e -> range a c ++ range c e = range a e.
Proof.
  intros H. replace e with (c + Z.of_nat (Z.to_nat (e - c))) by lia. induction (Z.to_nat (e - c)) as [|n IH].
  - rewrite Z.add_0_r, (range_nil c c), app_nil_r by lia. reflexivity.
  - replace (c + Z.of_nat (S n)) with (c + Z.of_nat n + 1) by lia.
    rewrite !range_snoc by lia. now rewrite app_assoc, IH.
Qed.

Section Iter.
  Variables (b : list Z) (w h bits : Z).
  Hypothesis W : wf b w h bits.
  Let img := py_slice b (data_off bits) (zlen b).
  Let r := stride w bits.

  Lemma img_len : zlen img = h * r.
  Proof.
    unfold img, r. pose proof (data_off_ge bits (wf_depth _ _ _ _ W)). pose proof (wf_len _ _ _ _ W).
    pose proof (wf_wrange _ _ _ _ W). pose proof (wf_hrange _ _ _ _ W).
    pose proof (stride_nonneg w bits ltac:(lia) (wf_depth _ _ _ _ W)).
    assert (0 <= h * stride w bits) by nia.
    rewrite zlen_slice by lia. lia.
  Qed.
  Lemma img_get i : 0 <= i < zlen img -> getz img i = getz b (data_off bits + i).
  Proof.
    intros Hi. rewrite img_len in Hi. unfold r in Hi.
    unfold img. pose proof (data_off_ge bits (wf_depth _ _ _ _ W)). pose proof (wf_len _ _ _ _ W).
    rewrite getz_slice by lia. reflexivity.
  Qed.
  Lemma img_row y k : 0 <= y < h -> 0 <= k < r ->
    0 <= (h - 1 - y) * r + k < zlen img /\ getz img ((h - 1 - y) * r + k) = raster b w h bits k y.
  Proof.
    intros Hy Hk. assert (B : 0 <= (h - 1 - y) * r + k < zlen img).
    { rewrite img_len. clearbody r. clear W. clear img. nia. }
    split; auto. rewrite img_get by auto. unfold raster, rowaddr. f_equal. unfold r. lia.
  Qed.

  Lemma iic_step_spec x y j : 0 <= y < h -> x = perstep bits * j -> 0 <= x < w ->
    iic_step img bits w x y ((h - 1 - y) * r + stepbytes bits * j) =
    Ok (rowitems b w h bits y x (Z.min w (x + perstep bits)), x + perstep bits).
  Proof.
    intros Hy Ex Hx. pose proof (wf_depth _ _ _ _ W) as Hd.
    destruct (row_fit w bits x Hd Hx) as [F1 F2].
    assert (Hb : forall k y, byte (raster b w h bits k y)) by (intros; eapply wf_byte; eauto).
    unfold iic_step, rowitems, perstep, stepbytes in *.
    unfold pbytes in F1, F2. destruct Hd as [E | [E | [E | E]]]; rewrite E in Ex, F1, F2 |- *; cbn [Z.eqb Pos.eqb] in Ex, F1, F2 |- *.
    - assert (Ej : x * 1 / 8 = j) by lia. rewrite Ej in F1, F2.
      destruct (img_row y j Hy ltac:(unfold r; rewrite E; lia)) as [B1 B2].
      rewrite Z.mul_1_l. rewrite py_get_in by auto. rewrite B2. cbn [rbind].
      assert (Hp : forall i, 0 <= i < 8 -> pixel b w h 1 (x + i) y =
        Z.shiftr (Z.land (raster b w h bits j y) (Z.shiftl 1 (7 - i))) (7 - i)).
      { intros i Hi. rewrite pixel_raster. unfold rowpix. cbn [Z.eqb Pos.eqb].
        rewrite bitsel_sweep by (auto; lia). rewrite E.
        replace ((x + i) * 1 / 8) with j by lia. replace ((x + i) * 1 mod 8) with i by lia.
        do 3 f_equal; lia. }
      cbn [fold_left].
      replace (x + 1 + 1) with (x + 2) by lia. replace (x + 2 + 1) with (x + 3) by lia.
      replace (x + 3 + 1) with (x + 4) by lia. replace (x + 4 + 1) with (x + 5) by lia.
      replace (x + 5 + 1) with (x + 6) by lia. replace (x + 6 + 1) with (x + 7) by lia.
      replace (x + 7 + 1) with (x + 8) by lia.
      pose proof (Hp 0 ltac:(lia)) as P0. pose proof (Hp 1 ltac:(lia)) as P1. pose proof (Hp 2 ltac:(lia)) as P2.
      pose proof (Hp 3 ltac:(lia)) as P3. pose proof (Hp 4 ltac:(lia)) as P4. pose proof (Hp 5 ltac:(lia)) as P5.
      pose proof (Hp 6 ltac:(lia)) as P6. pose proof (Hp 7 ltac:(lia)) as P7. rewrite Z.add_0_r in P0.
      change (7 - 0) with 7 in *. change (7 - 1) with 6 in *. change (7 - 2) with 5 in *. change (7 - 3) with 4 in *.
      change (7 - 4) with 3 in *. change (7 - 5) with 2 in *. change (7 - 6) with 1 in *. change (7 - 7) with 0 in *.
      rewrite <- P0, <- P1, <- P2, <- P3, <- P4, <- P5, <- P6, <- P7. clear - Hx.
      replace (x <? w) with true by (symmetry; apply Z.ltb_lt; lia).
      assert (R : forall n, 0 <= n -> range x (x + n + 1) = range x (x + n) ++ [x + n]) by (intros; apply range_snoc; lia).
      assert (R1 : range x (x + 1) = [x]) by (rewrite range_cons, range_nil by lia; reflexivity).
      pose proof (R 1 ltac:(lia)) as Q1. pose proof (R 2 ltac:(lia)) as Q2. pose proof (R 3 ltac:(lia)) as Q3.
      pose proof (R 4 ltac:(lia)) as Q4. pose proof (R 5 ltac:(lia)) as Q5. pose proof (R 6 ltac:(lia)) as Q6.
      pose proof (R 7 ltac:(lia)) as Q7. clear R.
      replace (x + 1 + 1) with (x + 2) in * by lia. replace (x + 2 + 1) with (x + 3) in * by lia.
      replace (x + 3 + 1) with (x + 4) in * by lia. replace (x + 4 + 1) with (x + 5) in * by lia.
      replace (x + 5 + 1) with (x + 6) in * by lia. replace (x + 6 + 1) with (x + 7) in * by lia.
      replace (x + 7 + 1) with (x + 8) in * by lia.
      do 2 f_equal.
      destruct (Z.ltb_spec (x + 1) w).
      2:{ replace (Z.min w (x + 8)) with (x + 1) by lia. 
          repeat (rewrite (proj2 (Z.ltb_ge _ _)) by lia). rewrite R1. reflexivity. }
      destruct (Z.ltb_spec (x + 2) w).
      2:{ replace (Z.min w (x + 8)) with (x + 2) by lia. 
          repeat (rewrite (proj2 (Z.ltb_ge _ _)) by lia). rewrite Q1, R1. reflexivity. }
      destruct (Z.ltb_spec (x + 3) w).
      2:{ replace (Z.min w (x + 8)) with (x + 3) by lia. 
          repeat (rewrite (proj2 (Z.ltb_ge _ _)) by lia). rewrite Q2, Q1, R1. reflexivity. }
      destruct (Z.ltb_spec (x + 4) w).
      2:{ replace (Z.min w (x + 8)) with (x + 4) by lia. 
          repeat (rewrite (proj2 (Z.ltb_ge _ _)) by lia). rewrite Q3, Q2, Q1, R1. reflexivity. }
      destruct (Z.ltb_spec (x + 5) w).
      2:{ replace (Z.min w (x + 8)) with (x + 5) by lia. 
          repeat (rewrite (proj2 (Z.ltb_ge _ _)) by lia). rewrite Q4, Q3, Q2, Q1, R1. reflexivity. }
      destruct (Z.ltb_spec (x + 6) w).
      2:{ replace (Z.min w (x + 8)) with (x + 6) by lia. 
          repeat (rewrite (proj2 (Z.ltb_ge _ _)) by lia). rewrite Q5, Q4, Q3, Q2, Q1, R1. reflexivity. }
      destruct (Z.ltb_spec (x + 7) w).
      2:{ replace (Z.min w (x + 8)) with (x + 7) by lia. 
          repeat (rewrite (proj2 (Z.ltb_ge _ _)) by lia). rewrite Q6, Q5, Q4, Q3, Q2, Q1, R1. reflexivity. }
      replace (Z.min w (x + 8)) with (x + 8) by lia. rewrite Q7, Q6, Q5, Q4, Q3, Q2, Q1, R1. reflexivity.
    - assert (Ej : x * 4 / 8 = j) by lia. rewrite Ej in F1, F2.
      destruct (img_row y j Hy ltac:(unfold r; rewrite E; lia)) as [B1 B2].
      rewrite Z.mul_1_l. rewrite py_get_in by auto.
      pose proof (Hb j y) as Hv. unfold byte in Hv. rewrite E in Hv, B2. rewrite B2. cbn [rbind].
      assert (P0 : pixel b w h 4 x y = raster b w h 4 j y / 16).
      { rewrite pixel_raster. unfold rowpix. cbn [Z.eqb Pos.eqb]. rewrite ?E.
        replace (x * 4 / 8) with j by lia. replace (x * 4 mod 8) with 0 by lia. change (2 ^ (8 - 4 - 0)) with 16.
        change (2 ^ 4) with 16. lia. }
      assert (P1 : pixel b w h 4 (x + 1) y = raster b w h 4 j y mod 16).
      { rewrite pixel_raster. unfold rowpix. cbn [Z.eqb Pos.eqb]. rewrite ?E.
        replace ((x + 1) * 4 / 8) with j by lia. replace ((x + 1) * 4 mod 8) with 4 by lia. change (2 ^ (8 - 4 - 4)) with 1.
        change (2 ^ 4) with 16. now rewrite Z.div_1_r. }
      rewrite <- P0, <- P1.
      replace (x <? w) with true by (symmetry; apply Z.ltb_lt; lia).
      destruct (Z.ltb_spec (x + 1) w).
      + replace (Z.min w (x + 2)) with (x + 2) by lia.
        rewrite range_cons, (range_cons (x + 1)), range_nil by lia. reflexivity.
      + replace (Z.min w (x + 2)) with (x + 1) by lia. rewrite range_cons, range_nil by lia. reflexivity.
    - assert (Ej : x * 8 / 8 = j) by lia. rewrite Ej in F1, F2.
      destruct (img_row y j Hy ltac:(unfold r; rewrite E; lia)) as [B1 B2].
      rewrite Z.mul_1_l. replace (x <? w) with true by (symmetry; apply Z.ltb_lt; lia).
      rewrite py_get_in by auto.
      pose proof (Hb j y) as Hv. unfold byte in Hv. rewrite E in Hv, B2. rewrite B2. cbn [rbind].
      replace (Z.min w (x + 1)) with (x + 1) by lia. rewrite range_cons, range_nil by lia. cbn [map].
      do 4 f_equal. rewrite pixel_raster. unfold rowpix. cbn [Z.eqb Pos.eqb]. rewrite ?E.
      replace (x * 8 / 8) with j by lia. replace (x * 8 mod 8) with 0 by lia. change (2 ^ (8 - 8 - 0)) with 1.
      change (2 ^ 8) with 256. lia.
    - assert (Ej : x = j) by lia. rewrite Ej in Hx, F1, F2 |- *.
      replace (j * 24 / 8) with (3 * j) in F1, F2 by lia.
      destruct (img_row y (3 * j) Hy ltac:(unfold r; rewrite E; lia)) as [B1 B2].
      destruct (img_row y (3 * j + 1) Hy ltac:(unfold r; rewrite E; lia)) as [B3 B4].
      destruct (img_row y (3 * j + 2) Hy ltac:(unfold r; rewrite E; lia)) as [B5 B6].
      rewrite Z.add_assoc in B3, B4, B5, B6.
      replace (j <? w) with true by (symmetry; apply Z.ltb_lt; lia).
      rewrite !py_get_in by auto. rewrite B2, B4, B6. cbn [rbind].
      replace (Z.min w (j + 1)) with (j + 1) by lia. rewrite range_cons, range_nil by lia. cbn [map].
      do 4 f_equal. rewrite pixel_raster. unfold rowpix. cbn [Z.eqb Pos.eqb]. rewrite ?E.
      rewrite shiftl16, shiftl8. lia.
  Qed.

  Lemma rowitems_app y a c e : a <= c <= e ->
    rowitems b w h bits y a c ++ rowitems b w h bits y c e = rowitems b w h bits y a e.
  Proof.
    intros H. unfold rowitems. rewrite <- map_app. f_equal.
    now apply range_app.
  Qed.

  Lemma pdb : pdbytes w bits = Ok (r - ((w + perstep bits - 1) / perstep bits) * stepbytes bits).
  Proof.
    pose proof (wf_wrange _ _ _ _ W). pose proof (wf_depth _ _ _ _ W) as Hd.
    unfold pdbytes, r, stride, perstep, stepbytes.
    destruct Hd as [-> | [-> | [-> | ->]]]; cbn [Z.eqb Pos.eqb Z.leb Z.compare Pos.compare Pos.compare_cont];
      [change (8 / 1) with 8|change (8 / 4) with 2|change (8 / 8) with 1|]; cbn [rbind]; rewrite !Z.gtb_ltb, land3; 
      f_equal.
    - destruct (Z.ltb_spec 0 (w mod 8)); bcases; lia.
    - destruct (Z.ltb_spec 0 (w mod 2)); bcases; lia.
    - destruct (Z.ltb_spec 0 (w mod 1)); bcases; lia.
    - bcases; lia.
  Qed.

  Lemma iic_loop_spec fuel : forall x y j, 0 < w -> -1 <= y < h -> x = perstep bits * j -> 0 <= j -> x < w ->
    (y = -1 -> j = 0) ->
    zlen img - ((h - 1 - y) * r + stepbytes bits * j) <= Z.of_nat fuel ->
    iic_loop fuel img bits w (r - ((w + perstep bits - 1) / perstep bits) * stepbytes bits) (stepbytes bits) x y
       ((h - 1 - y) * r + stepbytes bits * j) =
    Ok (if y =? -1 then [] else rowitems b w h bits y x w ++ flat_map (fun y => rowitems b w h bits y 0 w) (rev (range 0 y))).
  Proof.
    induction fuel as [|fuel IH]; intros x y j Hw Hy Ex Hj Hx Hy1 Hf; cbn [iic_loop];
      (destruct (Z.eqb_spec y (-1)) as [E|N];
       [replace ((h - 1 - y) * r + stepbytes bits * j) with (zlen img)
          by (rewrite img_len, E, Hy1 by auto; clearbody r; clear; lia); rewrite Z.ltb_irrefl; reflexivity|]);
      pose proof (wf_depth _ _ _ _ W) as Hd;
      assert (Hx0 : 0 <= x) by (unfold perstep in Ex; destruct (bits =? 1), (bits =? 4); clear - Ex Hj; lia);
      destruct (row_fit w bits x Hd (conj Hx0 Hx)) as [F1 F2]; fold r in F2;
      assert (Hj2 : 0 <= stepbytes bits * j /\ stepbytes bits * j + stepbytes bits <= r)
        by (clear - Hd F1 F2 Ex Hj; unfold stepbytes, perstep, pbytes in *; destruct Hd as [E | [E | [E | E]]]; rewrite E in *;
            cbn [Z.eqb Pos.eqb] in *; lia);
      assert (Hs : 1 <= stepbytes bits) by (unfold stepbytes; destruct (bits =? 24); lia);
      assert (Hyh : 0 <= y < h) by (clear - Hy N; lia);
      destruct (img_row y (stepbytes bits * j) Hyh ltac:(clear - Hj2 Hs; lia)) as [B1 _].
    - exfalso. clear - Hf B1. lia.
    - rewrite (proj2 (Z.ltb_lt _ _)) by (apply B1).
      rewrite (iic_step_spec x y j Hyh Ex (conj Hx0 Hx)). cbn [rbind]. rewrite Z.geb_leb.
      destruct (Z.leb_spec w (x + perstep bits)) as [Hl|Hl].
      + replace (Z.min w (x + perstep bits)) with w by (clear - Hl; lia).
        assert (Elast : (w + perstep bits - 1) / perstep bits = j + 1).
        { clear - Ex Hx Hl. unfold perstep in *. destruct (bits =? 1), (bits =? 4); lia. }
        replace ((h - 1 - y) * r + stepbytes bits * j +
             (r - (w + perstep bits - 1) / perstep bits * stepbytes bits) + stepbytes bits)
          with ((h - 1 - (y - 1)) * r + stepbytes bits * 0) by (rewrite Elast; clearbody r; clear; ring).
        rewrite (IH 0 (y - 1) 0); auto; try (clear - Hyh; lia).
        * cbn [rbind]. f_equal. f_equal.
          destruct (Z.eqb_spec (y - 1) (-1)) as [E1|N1].
          -- replace y with 0 by (clear - E1; lia). reflexivity.
          -- rewrite (range_snoc' 0 y) by (clear - N1 Hyh; lia). rewrite rev_app_distr. reflexivity.
        * replace ((h - 1 - (y - 1)) * r) with ((h - 1 - y) * r + r) by ring.
          rewrite Nat2Z.inj_succ in Hf. clear - Hf Hj2 Hs. lia.
      + replace (Z.min w (x + perstep bits)) with (x + perstep bits) by (clear - Hl; lia).
        replace ((h - 1 - y) * r + stepbytes bits * j + stepbytes bits)
          with ((h - 1 - y) * r + stepbytes bits * (j + 1)) by (clearbody r; clear; ring).
        rewrite (IH (x + perstep bits) y (j + 1)); auto; try (clear - Hj; lia).
        * cbn [rbind]. destruct (Z.eqb_spec y (-1)); [contradiction|]. rewrite app_assoc. rewrite rowitems_app; auto.
          unfold perstep in *. clear - Hl. destruct (bits =? 1), (bits =? 4); lia.
        * rewrite Ex. clear. ring.
        * intros Ey. contradiction.
        * rewrite Nat2Z.inj_succ in Hf. rewrite Z.mul_add_distr_l, Z.mul_1_r. clear - Hf Hj2 Hs. lia.
  Qed.

  Lemma iterimagecolor_spec : iterimagecolor b = Ok (allitems b w h bits).
  Proof.
    unfold iterimagecolor, getmaxy, getmaxx, getBMPimgbytes.
    rewrite (wf_ry _ _ _ _ W), (wf_rhdsz _ _ _ _ W), (wf_rflsz _ _ _ _ W), (wf_rx _ _ _ _ W), (wf_rbits _ _ _ _ W).
    cbn [rbind]. rewrite pdb. cbn [rbind]. fold img. pose proof (wf_wrange _ _ _ _ W). pose proof (wf_hrange _ _ _ _ W).
    destruct (Z.eq_dec w 0) as [E0|N0].
    - assert (Ei : zlen img = 0).
      { rewrite img_len. unfold r, stride. rewrite E0. clear. change ((0 * bits + 31) / 32 * 4) with 0. lia. }
      rewrite (zlen_0_nil _ Ei). cbn [iic_loop length]. change (zlen (@nil Z)) with 0. cbn [Z.ltb Z.compare].
      f_equal. unfold allitems, rowitems. rewrite E0. rewrite range_nil by lia.
      induction (rev (range 0 h)); auto.
    - fold (stepbytes bits).
      replace 0 with ((h - 1 - (h - 1)) * r + stepbytes bits * 0) at 2 by (clear; ring).
      rewrite (iic_loop_spec (length img) 0 (h - 1) 0); try (clear - H H0 N0; lia).
      + f_equal. unfold allitems. destruct (Z.eqb_spec (h - 1) (-1)).
        * replace h with 0 by lia. reflexivity.
        * rewrite (range_snoc' 0 h) by lia. rewrite rev_app_distr. reflexivity.
      + unfold zlen. clearbody r. clear. lia.
  Qed.
End Iter.

(** ** what the list of items contains *)
Lemma allitems_in b w h bits x y c :
  In (x, y, c) (allitems b w h bits) <-> inside w h x y /\ c = pixel b w h bits x y.
Proof.
  unfold allitems, rowitems, inside. rewrite in_flat_map. split.
  - intros (y' & Hy & Hx). apply in_rev in Hy. apply in_range in Hy. apply in_map_iff in Hx.
    destruct Hx as (x' & E & Hx). apply in_range in Hx. inversion E; subst. auto.
  - intros ((Hx & Hy) & ->). exists y. split; [apply in_rev; rewrite rev_involutive; now apply in_range|].
    apply in_map_iff. exists x. split; auto. now apply in_range.
Qed.
Lemma NoDup_range a b : NoDup (range a b).
Proof.
  unfold range. apply FinFun.Injective_map_NoDup; [intros i j H; lia|apply seq_NoDup].
Qed.
Lemma NoDup_app' {A} (a b : list A) : NoDup a -> NoDup b -> (forall x, In x a -> ~ In x b) -> NoDup (a ++ b).
Proof.
  intros Ha Hb H. induction a as [|x a IH]; cbn [app]; auto. inversion Ha; subst. constructor.
  - rewrite in_app_iff. intros [?|?]; [contradiction|]. apply (H x); auto. now left.
  - apply IH; auto. intros z Hz. apply H. now right.
Qed.
Lemma NoDup_flat_map {A B} (f : A -> list B) l : NoDup l -> (forall a, NoDup (f a)) ->
  (forall a b z, In z (f a) -> In z (f b) -> a = b) -> NoDup (flat_map f l).
Proof.
  intros Hl Hf Hd. induction l as [|a l IH]; cbn [flat_map]; [constructor|].
  inversion Hl; subst. apply NoDup_app'; auto. intros z Hz Hz'. apply in_flat_map in Hz'.
  destruct Hz' as (c & Hc & Hz'). rewrite (Hd a c z Hz Hz') in *. contradiction.
Qed.
(** every coordinate appears once *)
Lemma allitems_nodup b w h bits : NoDup (map (fun i => (fst (fst i), snd (fst i))) (allitems b w h bits)).
Proof.
  unfold allitems, rowitems.
  assert (E : map (fun i : Z * Z * Z => (fst (fst i), snd (fst i)))
      (flat_map (fun y => map (fun x => (x, y, pixel b w h bits x y)) (range 0 w)) (rev (range 0 h)))
    = flat_map (fun y => map (fun x => (x, y)) (range 0 w)) (rev (range 0 h))).
  { induction (rev (range 0 h)) as [|y l IH]; cbn [flat_map]; auto. rewrite map_app, map_map, IH. reflexivity. }
  rewrite E. apply NoDup_flat_map.
  - apply NoDup_rev, NoDup_range.
  - intros y. apply FinFun.Injective_map_NoDup; [intros i j H; congruence|apply NoDup_range].
  - intros y y' z H1 H2. apply in_map_iff in H1, H2. destruct H1 as (? & <- & _), H2 as (? & E2 & _). congruence.
Qed.
Lemma allitems_len b w h bits : 0 <= w -> 0 <= h -> zlen (allitems b w h bits) = w * h.
Proof.
  intros Hw Hh. unfold allitems, rowitems.
  assert (E : forall l, zlen (flat_map (fun y => map (fun x => (x, y, pixel b w h bits x y)) (range 0 w)) l) = w * zlen l).
  { induction l as [|y l IH]; cbn [flat_map]; [unfold zlen; cbn; lia|].
    rewrite zlen_app, IH, zlen_map, zlen_range, zlen_cons. lia. }
  rewrite E, zlen_rev, zlen_range. lia.
Qed.

(** ** the dictionary of counts *)
Definition cnt (c : Z) (l : list Z) : Z := Z.of_nat (count_occ Z.eq_dec l c).
Lemma cnt_snoc c l a : cnt c (l ++ [a]) = cnt c l + (if a =? c then 1 else 0).
Proof.
  unfold cnt. rewrite count_occ_app. cbn [count_occ]. destruct (Z.eq_dec a c), (Z.eqb_spec a c); try lia; try contradiction.
Qed.
Definition dict_ok (d : list (Z * Z)) (l : list Z) : Prop :=
  NoDup (map fst d) /\ forall c n, In (c, n) d <-> n = cnt c l /\ 0 < n.

Lemma count_color_keys d c : forall k, In k (map fst (count_color d c)) <-> k = c \/ In k (map fst d).
Proof.
  induction d as [|(k0 & n0) d IH]; intros k; cbn [count_color map In].
  - cbn. intuition.
  - destruct (Z.eqb_spec k0 c) as [->|N]; cbn [map fst In].
    + intuition.
    + rewrite IH. intuition.
Qed.
Lemma count_color_nodup d c : NoDup (map fst d) -> NoDup (map fst (count_color d c)).
Proof.
  induction d as [|(k0 & n0) d IH]; cbn [count_color map fst]; intros H.
  - constructor; [easy|constructor].
  - inversion H; subst. destruct (Z.eqb_spec k0 c) as [->|N]; cbn [map fst]; [now constructor|].
    constructor; auto. rewrite count_color_keys. intros [->|?]; [now apply N|contradiction].
Qed.
Lemma count_color_in d c k n : NoDup (map fst d) ->
  (In (k, n) (count_color d c) <->
    if k =? c then (In (k, n - 1) d \/ (n = 1 /\ ~ In k (map fst d))) else In (k, n) d).
Proof.
  induction d as [|(k0 & n0) d IH]; cbn [count_color map fst In]; intros H.
  - destruct (Z.eqb_spec k c) as [->|N]; split; intros G.
    + destruct G as [G|[]]. inversion G; subst. right. split; auto.
    + left. destruct G as [[]|[-> _]]. reflexivity.
    + destruct G as [G|[]]. inversion G; subst. contradiction.
    + destruct G.
  - inversion H as [|? ? Hn Hd]; subst. destruct (Z.eqb_spec k0 c) as [->|N]; cbn [In].
    + destruct (Z.eqb_spec k c) as [->|N]; split; intros G.
      * destruct G as [G|G].
        -- inversion G; subst. left. left. f_equal. lia.
        -- exfalso. apply Hn. apply in_map_iff. exists (c, n). auto.
      * destruct G as [[G|G]|[_ G]].
        -- left. inversion G; subst. f_equal. lia.
        -- exfalso. apply Hn. apply in_map_iff. exists (c, n - 1). auto.
        -- exfalso. apply G. now left.
      * destruct G as [G|G]; [inversion G; subst; contradiction|now right].
      * destruct G as [G|G]; [inversion G; subst; contradiction|now right].
    + rewrite (IH Hd). destruct (Z.eqb_spec k c) as [->|N']; split; intros G.
      * destruct G as [G|[G|(G1 & G2)]]; [inversion G; subst; contradiction|left; now right|right; split; auto].
        intros [->|?]; contradiction.
      * destruct G as [[G|G]|(G1 & G2)]; [inversion G; subst; contradiction|right; now left|right; right; split; auto].
      * exact G.
      * exact G.
Qed.
Lemma dict_ok_snoc d l c : dict_ok d l -> dict_ok (count_color d c) (l ++ [c]).
Proof.
  intros (H1 & H2). split; [now apply count_color_nodup|]. intros k n. rewrite count_color_in by auto.
  rewrite cnt_snoc. rewrite (Z.eqb_sym k c). destruct (Z.eqb_spec c k) as [->|N].
  - rewrite H2. split.
    + intros [(G1 & G2)|(-> & G)]; [lia|].
      assert (C : cnt k l = 0 \/ 0 < cnt k l) by (unfold cnt; lia).
      destruct C as [C|C]; [lia|]. exfalso. apply G. apply in_map_iff. exists (k, cnt k l). split; auto. now apply H2.
    + intros (G1 & G2). destruct (Z.eq_dec (cnt k l) 0) as [C|C]; [right|left; unfold cnt in *; lia].
      split; [lia|]. intros G. apply in_map_iff in G. destruct G as ((k' & n') & E & G). cbn in E. subst k'.
      apply H2 in G. lia.
  - rewrite H2. rewrite Z.add_0_r. reflexivity.
Qed.
Lemma fold_dict l : forall l0 d, dict_ok d l0 ->
  dict_ok (fold_left (fun d v => count_color d (snd v)) l d) (l0 ++ map (snd (A := Z * Z)) l).
Proof.
  induction l as [|(p & c) l IH]; intros l0 d H; cbn [fold_left map snd]; [now rewrite app_nil_r|].
  replace (l0 ++ c :: map snd l) with ((l0 ++ [c]) ++ map snd l) by (rewrite <- app_assoc; reflexivity).
  apply IH. now apply dict_ok_snoc.
Qed.

(** ** sorting *)
Lemma insert_perm a l : Permutation (a :: l) (insert_sorted a l).
Proof.
  induction l as [|b l IH]; cbn [insert_sorted]; auto. destruct (pair_le a b); auto.
  rewrite perm_swap. now constructor.
Qed.
Lemma sort_perm l : Permutation l (sort_pairs l).
Proof.
  unfold sort_pairs. induction l as [|a l IH]; cbn [fold_right]; auto.
  rewrite <- insert_perm. now constructor.
Qed.
Definition ple (a b : Z * Z) : Prop := fst a <= fst b.
Lemma insert_sorted_ok a l : StronglySorted ple l -> StronglySorted ple (insert_sorted a l).
Proof.
  induction l as [|b l IH]; cbn [insert_sorted]; intros H; [constructor; constructor|].
  inversion H as [|? ? Hs Hf]; subst. destruct (pair_le a b) eqn:E.
  - assert (Hab : ple a b).
    { unfold pair_le, ple in *. revert E. bcases; try discriminate; lia. }
    constructor; auto. constructor; auto. rewrite Forall_forall in *. intros z Hz. specialize (Hf z Hz).
    unfold ple in *. lia.
  - constructor; auto. apply Forall_forall. intros z Hz.
    apply (Permutation_in z (Permutation_sym (insert_perm a l))) in Hz. destruct Hz as [<-|Hz].
    + unfold pair_le, ple in *. revert E. bcases; try discriminate; lia.
    + rewrite Forall_forall in Hf. now apply Hf.
Qed.
Lemma sort_sorted l : StronglySorted ple (sort_pairs l).
Proof. unfold sort_pairs. induction l; cbn [fold_right]; [constructor|now apply insert_sorted_ok]. Qed.
Lemma sorted_snoc {A} (R : A -> A -> Prop) l a : StronglySorted R l -> Forall (fun x => R x a) l -> StronglySorted R (l ++ [a]).
Proof.
  induction l as [|b l IH]; cbn [app]; intros H F; [constructor; constructor|].
  inversion H; inversion F; subst. constructor; auto. apply Forall_app. split; auto.
Qed.
Lemma sorted_rev l : StronglySorted ple l -> StronglySorted (fun a b => fst b <= fst a) (rev l).
Proof.
  induction l as [|b l IH]; cbn [rev]; intros H; [constructor|]. inversion H; subst.
  apply sorted_snoc; auto. apply Forall_rev. assumption.
Qed.

Definition zsum (l : list Z) : Z := fold_right Z.add 0 l.
Lemma zsum_perm a b : Permutation a b -> zsum a = zsum b.
Proof. induction 1; cbn [zsum fold_right] in *; unfold zsum in *; cbn [fold_right] in *; lia. Qed.
Lemma count_color_sum d c : zsum (map snd (count_color d c)) = zsum (map snd d) + 1.
Proof.
  induction d as [|(k & n) d IH]; cbn [count_color map snd]; [reflexivity|].
  destruct (k =? c); cbn [map snd zsum fold_right]; fold (zsum (map snd d)); [lia|].
  fold (zsum (map snd (count_color d c))). rewrite IH. lia.
Qed.
Lemma fold_sum {A} (l : list (A * Z)) : forall d, zsum (map snd (fold_left (fun d v => count_color d (snd v)) l d)) = zsum (map snd d) + zlen l.
Proof.
  induction l as [|v l IH]; intros d; cbn [fold_left]; [unfold zlen; cbn; lia|].
  rewrite IH, count_color_sum, zlen_cons. lia.
Qed.

Definition colors_of (b : list Z) (w h bits : Z) : list Z := map snd (allitems b w h bits).

Lemma colorhistogram_spec b w h bits : wf b w h bits ->
  exists hist, colorhistogram b = Ok hist /\
    NoDup (map snd hist) /\
    (forall n c, In (n, c) hist <-> n = cnt c (colors_of b w h bits) /\ 0 < n) /\
    StronglySorted (fun a b => fst b <= fst a) hist /\
    zsum (map fst hist) = w * h.
Proof.
  intros W. unfold colorhistogram. rewrite (iterimagecolor_spec b w h bits W). cbn [rbind].
  set (d := fold_left _ _ _). eexists. split; [reflexivity|].
  assert (D : dict_ok d (colors_of b w h bits)).
  { apply (fold_dict (allitems b w h bits) [] []). split; [constructor|]. intros c n. unfold cnt. cbn. lia. }
  destruct D as (D1 & D2). unfold dict2descorderlist.
  set (l := map (fun kv => (snd kv, fst kv)) d).
  assert (P : Permutation l (rev (sort_pairs l))) by (rewrite <- Permutation_rev; apply sort_perm).
  split; [|split; [|split]].
  - apply (Permutation_NoDup (Permutation_map snd P)). unfold l. rewrite map_map. exact D1.
  - intros n c. rewrite <- D2. split; intros H.
    + apply (Permutation_in _ (Permutation_sym P)) in H. unfold l in H. apply in_map_iff in H.
      destruct H as ((k & m) & E & H). cbn in E. inversion E; subst. exact H.
    + apply (Permutation_in _ P). unfold l. apply in_map_iff. exists (c, n). auto.
  - apply sorted_rev, sort_sorted.
  - rewrite <- (zsum_perm _ _ (Permutation_map fst P)). unfold l. rewrite map_map. cbn [fst].
    transitivity (zsum (map snd d)); [reflexivity|].
    unfold d. rewrite (fold_sum (allitems b w h bits) []). cbn [map zsum fold_right].
    rewrite allitems_len by (destruct (wf_wrange _ _ _ _ W), (wf_hrange _ _ _ _ W); lia). lia.
Qed.
