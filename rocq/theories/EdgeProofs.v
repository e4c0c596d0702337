(** The scan of all pixels by RGB value (proofs). *)
From Coq Require Import ZArith List Bool Lia.
From Verif Require Import PyBase PyFacts Spec SpecEdges Bmp BmpFacts PixelProofs Buffers Region Raster HeaderProofs IterProofs
  Geometry Draw Shapes Files Wrappers Fractal Edges.
Import ListNotations.
Open Scope Z_scope.
Open Scope py_scope.
Ltac Zify.zify_post_hook ::= Z.to_euclidean_division_equations.

Definition colored (f : Z -> Z * Z * Z) (i : Z * Z * Z) : Z * Z * (Z * Z * Z) := (fst i, f (snd i)).

Lemma get_byte img i c : Forall byte img -> py_get img i = Ok c -> byte c.
Proof.
  intros Hb. unfold py_get. set (j := if i <? 0 then i + zlen img else i). destruct ((0 <=? j) && (j <? zlen img)) eqn:E; [|discriminate].
  intros H. injection H as <-. apply andb_prop in E. destruct E as [E1 E2]. apply Z.leb_le in E1. apply Z.ltb_lt in E2.
  unfold getz. destruct (Z.ltb_spec j 0); [lia|]. rewrite Forall_forall in Hb. apply Hb. apply nth_In. unfold zlen in E2. lia.
Qed.

Section Step.
  Variables (p : list (Z * Z * Z)) (f : Z -> Z * Z * Z) (img : list Z) (bits w : Z).
  Hypothesis Hd : valid_depth bits.
  Hypothesis Hb : Forall byte img.
  Hypothesis Hp : bits <> 24 -> forall c, 0 <= c < 2 ^ bits -> pal_at p c = Ok (f c).
  Hypothesis H24 : bits = 24 -> forall r g b, byte r -> byte g -> byte b -> f (Z.shiftl r 16 + Z.shiftl g 8 + b) = (r, g, b).

  Lemma iir_iic x y off :
    iir_step p img bits w x y off =
    match iic_step img bits w x y off with
    | Ok (items, x') => Ok (map (colored f) items, x')
    | Err e => Err e
    end.
  Proof.
    unfold iir_step, iic_step. destruct Hd as [E|[E|[E|E]]]; rewrite ?E in *; cbn [Z.eqb Pos.eqb].
    - destruct (py_get img off) as [c|e] eqn:G; [|reflexivity]. cbn [rbind].
      pose proof (get_byte _ _ _ Hb G) as Bc.
      assert (Q : forall k, 0 <= k < 8 -> pal_at p (Z.shiftr (Z.land c (Z.shiftl 1 k)) k) = Ok (f (Z.shiftr (Z.land c (Z.shiftl 1 k)) k))).
      { intros k Hk. apply (Hp ltac:(discriminate)). rewrite bitsel_sweep by auto. change (2 ^ 1) with 2. apply Z.mod_pos_bound. lia. }
      cbn [fold_left].
      pose proof (Q 7 ltac:(lia)) as Q7. pose proof (Q 6 ltac:(lia)) as Q6. pose proof (Q 5 ltac:(lia)) as Q5. pose proof (Q 4 ltac:(lia)) as Q4.
      pose proof (Q 3 ltac:(lia)) as Q3. pose proof (Q 2 ltac:(lia)) as Q2. pose proof (Q 1 ltac:(lia)) as Q1. pose proof (Q 0 ltac:(lia)) as Q0.
      clear Q.
      cbn [rbind].
      destruct (x <? w); [rewrite Q7|]; cbn [rbind]; (destruct (x + 1 <? w); [rewrite Q6|]); cbn [rbind]; (destruct (x + 1 + 1 <? w); [rewrite Q5|]);
        cbn [rbind]; (destruct (x + 1 + 1 + 1 <? w); [rewrite Q4|]); cbn [rbind]; (destruct (x + 1 + 1 + 1 + 1 <? w); [rewrite Q3|]); cbn [rbind];
        (destruct (x + 1 + 1 + 1 + 1 + 1 <? w); [rewrite Q2|]); cbn [rbind]; (destruct (x + 1 + 1 + 1 + 1 + 1 + 1 <? w); [rewrite Q1|]); cbn [rbind];
        (destruct (x + 1 + 1 + 1 + 1 + 1 + 1 + 1 <? w); [rewrite Q0|]); cbn [rbind]; reflexivity.
    - destruct (py_get img off) as [c|e] eqn:G; [|reflexivity]. cbn [rbind]. pose proof (get_byte _ _ _ Hb G) as Bc. unfold byte in Bc.
      pose proof (Hp ltac:(discriminate) (c / 16) ltac:(change (2 ^ 4) with 16; lia)) as Q1.
      pose proof (Hp ltac:(discriminate) (c mod 16) ltac:(change (2 ^ 4) with 16; lia)) as Q2.
      destruct (x <? w); [rewrite Q1|]; cbn [rbind]; (destruct (x + 1 <? w); [rewrite Q2|]); cbn [rbind]; reflexivity.
    - destruct (x <? w); [|reflexivity]. destruct (py_get img off) as [c|e] eqn:G; [|reflexivity]. cbn [rbind].
      pose proof (get_byte _ _ _ Hb G) as Bc. rewrite (Hp ltac:(discriminate) c Bc). reflexivity.
    - destruct (x <? w); [|reflexivity].
      destruct (py_get img (off + 2)) as [r|e] eqn:G2; [|reflexivity]. cbn [rbind].
      destruct (py_get img (off + 1)) as [g|e] eqn:G1; [|reflexivity]. cbn [rbind].
      destruct (py_get img off) as [c|e] eqn:G0; [|reflexivity]. cbn [rbind].
      cbn [map]. unfold colored. cbn [fst snd]. rewrite (H24 eq_refl) by eauto using get_byte. reflexivity.
  Qed.
  Lemma iic_step_x x y off items x' : iic_step img bits w x y off = Ok (items, x') -> x' = x + perstep bits.
  Proof.
    unfold iic_step, perstep. destruct Hd as [E|[E|[E|E]]]; rewrite ?E in *; cbn [Z.eqb Pos.eqb].
    - destruct (py_get img off) as [c|e]; [|discriminate]. cbn [rbind fold_left].
      repeat match goal with |- context [if ?c then _ else _] => destruct c end; intros H; injection H; lia.
    - destruct (py_get img off) as [c|e]; [|discriminate]. cbn [rbind]. intros H. injection H. lia.
    - destruct (x <? w); [destruct (py_get img off); [|discriminate]|]; cbn [rbind]; intros H; injection H; lia.
    - destruct (x <? w); [|intros H; injection H; lia].
      destruct (py_get img (off + 2)); [|discriminate]. cbn [rbind]. destruct (py_get img (off + 1)); [|discriminate]. cbn [rbind].
      destruct (py_get img off); [|discriminate]. cbn [rbind]. intros H; injection H; lia.
  Qed.
  (** rows that end exactly *)
  Lemma iir_loop_good fuel pb doff : w mod perstep bits = 0 -> forall x y off, x mod perstep bits = 0 -> 0 <= x < w ->
    iir_loop fuel p img bits w pb doff x y off =
    match iic_loop fuel img bits w pb doff x y off with Ok l => Ok (map (colored f) l) | Err e => Err e end.
  Proof.
    intros Hm. assert (Hs : 1 <= perstep bits) by (unfold perstep; destruct (bits =? 1), (bits =? 4); lia).
    induction fuel as [|fuel IH]; intros x y off Hx Hw; cbn [iir_loop iic_loop]; (destruct (off <? zlen img); [|reflexivity]); [reflexivity|].
    rewrite iir_iic. destruct (iic_step img bits w x y off) as [[items x']|e] eqn:E; [|reflexivity].
    pose proof (iic_step_x _ _ _ _ _ E) as Ex. cbn [rbind].
    assert (L : x' <= w). { rewrite Ex. clear - Hm Hx Hw Hs. revert Hm Hx Hs. generalize (perstep bits). intros s Hm Hx Hs.
      apply Z.mod_divide in Hm; [|lia]. apply Z.mod_divide in Hx; [|lia]. destruct Hm as [a E1], Hx as [c E2]. rewrite E1, E2 in *. assert (c < a) by (apply (Z.mul_lt_mono_pos_r s); lia). replace (c * s + s) with ((c + 1) * s) by ring. apply Z.mul_le_mono_nonneg_r; lia. }
    assert (Em : x' mod perstep bits = 0). { rewrite Ex. rewrite Z.add_mod, Hx, Z.mod_same by (clear - Hs; lia). reflexivity. }
    rewrite Z.geb_leb.
    destruct (Z.eqb_spec x' w) as [->|N].
    - rewrite Z.leb_refl. rewrite IH; [|apply Z.mod_0_l; clear - Hs; lia|clear - Hw; lia].
      destruct (iic_loop fuel img bits w pb doff 0 (y - 1) (off + pb + doff)); cbn [rbind]; [|reflexivity]. now rewrite map_app.
    - replace (w <=? x') with false by (symmetry; apply Z.leb_gt; clear - L N; lia). rewrite IH; [|exact Em|clear - Ex Hw L N Hs; lia].
      destruct (iic_loop fuel img bits w pb doff x' y (off + doff)); cbn [rbind]; [|reflexivity]. now rewrite map_app.
  Qed.
End Step.

Definition rgbf (b : list Z) (bits c : Z) : Z * Z * Z := if bits =? 24 then rgb_of c else pal_entry b c.
Definition scanned (b : list Z) (w h bits : Z) (i : Z * Z * (Z * Z * Z)) : Prop :=
  let '(x, y, c) := i in inside w h x y /\ c = shown b w h bits x y.
(** row y from column a to column c - 1 *)
Definition rgbrow (b : list Z) (w h bits y a c : Z) : list (Z * Z * (Z * Z * Z)) :=
  map (fun x => (x, y, shown b w h bits x y)) (range a c).
Definition rgball (b : list Z) (w h bits : Z) : list (Z * Z * (Z * Z * Z)) :=
  flat_map (fun y => rgbrow b w h bits y 0 w) (rev (range 0 h)).

Lemma rgbrow_map b w h bits y a c : map (colored (rgbf b bits)) (rowitems b w h bits y a c) = rgbrow b w h bits y a c.
Proof. unfold rowitems, rgbrow. rewrite map_map. apply map_ext. intros x. reflexivity. Qed.
Lemma rgball_map b w h bits : map (colored (rgbf b bits)) (allitems b w h bits) = rgball b w h bits.
Proof.
  unfold allitems, rgball. induction (rev (range 0 h)) as [|y l IH]; cbn [flat_map map]; auto.
  now rewrite map_app, rgbrow_map, IH.
Qed.
Lemma pal_at_entry b w h bits c : wf b w h bits -> bits <> 24 -> 0 <= c < 2 ^ bits ->
  pal_at (map (pal_entry b) (range 0 (2 ^ bits))) c = Ok (pal_entry b c).
Proof.
  intros W N Hc. unfold pal_at, range. rewrite map_map.
  rewrite (nth_error_nth' _ (pal_entry b 0)) by (rewrite map_length, seq_length; lia).
  f_equal. rewrite (nth_indep _ _ (pal_entry b (0 + Z.of_nat 0))) by (rewrite map_length, seq_length; lia).
  rewrite (map_nth (fun i => pal_entry b (0 + Z.of_nat i))). rewrite seq_nth by lia. f_equal. lia.
Qed.
Lemma rgb_of_bytes r g c : byte r -> byte g -> byte c -> rgb_of (Z.shiftl r 16 + Z.shiftl g 8 + c) = (r, g, c).
Proof.
  unfold byte, rgb_of. intros. rewrite !Z.shiftl_mul_pow2 by lia. change (2 ^ 16) with 65536. change (2 ^ 8) with 256.
  repeat f_equal; lia.
Qed.

Section Scan.
  Variables (b : list Z) (w h bits : Z).
  Hypothesis W : wf b w h bits.
  Let img := py_slice b (data_off bits) (zlen b).
  Let r := stride w bits.
  Let p := if bits <? 24 then map (pal_entry b) (range 0 (2 ^ bits)) else [].

  Lemma img_bytes : Forall byte img.
  Proof. unfold img. apply bytes_slice. exact (wf_bytes _ _ _ _ W). Qed.
  Lemma pal_ok : bits <> 24 -> forall c, 0 <= c < 2 ^ bits -> pal_at p c = Ok (rgbf b bits c).
  Proof.
    intros N c Hc. unfold p, rgbf. replace (bits <? 24) with true by (symmetry; apply Z.ltb_lt; pose proof (wf_depth _ _ _ _ W) as Hd; clear - Hd N; unfold valid_depth in Hd; lia).
    replace (bits =? 24) with false by (symmetry; now apply Z.eqb_neq). now apply (pal_at_entry b w h bits).
  Qed.
  Lemma rgb_ok24 : bits = 24 -> forall x y z, byte x -> byte y -> byte z -> rgbf b bits (Z.shiftl x 16 + Z.shiftl y 8 + z) = (x, y, z).
  Proof. intros E x y z Hx Hy Hz. unfold rgbf. rewrite E. cbn [Z.eqb Pos.eqb]. now apply rgb_of_bytes. Qed.

  Lemma scan_open : iterimageRGB b =
    iir_loop (length img) p img bits w (r - (w + perstep bits - 1) / perstep bits * stepbytes bits) (stepbytes bits) 0 (h - 1) 0.
  Proof.
    unfold iterimageRGB, getmaxy, getmaxx, getBMPimgbytes.
    rewrite (wf_ry _ _ _ _ W), (wf_rhdsz _ _ _ _ W), (wf_rflsz _ _ _ _ W), (wf_rx _ _ _ _ W), (wf_rbits _ _ _ _ W).
    cbn [rbind]. rewrite (pdb b w h bits W). cbn [rbind]. fold img. fold r.
    unfold p. pose proof (wf_depth _ _ _ _ W) as Hd.
    assert (E : (if bits <? 24 then 1 else 3) = stepbytes bits).
    { unfold stepbytes. destruct Hd as [-> | [-> | [-> | ->]]]; reflexivity. }
    rewrite E. destruct (Z.ltb_spec bits 24) as [L|L]; [rewrite (getallRGBpal_ok b w h bits W) by (clear - L; lia)|]; reflexivity.
  Qed.
  (** rows that fill their bytes *)
  Lemma scan_good : w mod perstep bits = 0 -> iterimageRGB b = Ok (rgball b w h bits).
  Proof.
    intros Hm. rewrite scan_open. pose proof (iterimagecolor_spec b w h bits W) as S.
    unfold iterimagecolor, getmaxy, getmaxx, getBMPimgbytes in S.
    rewrite (wf_ry _ _ _ _ W), (wf_rhdsz _ _ _ _ W), (wf_rflsz _ _ _ _ W), (wf_rx _ _ _ _ W), (wf_rbits _ _ _ _ W) in S.
    cbn [rbind] in S. rewrite (pdb b w h bits W) in S. cbn [rbind] in S. fold img in S. fold r in S. fold (stepbytes bits) in S.
    destruct (Z.eq_dec w 0) as [E0|N0].
    - assert (Ei : zlen img = 0).
      { unfold img. rewrite (img_len b w h bits W). unfold stride. rewrite E0. clear. change ((0 * bits + 31) / 32 * 4) with 0. lia. }
      rewrite (zlen_0_nil _ Ei). cbn [iir_loop length]. change (zlen (@nil Z)) with 0. cbn [Z.ltb Z.compare].
      f_equal. unfold rgball, rgbrow. rewrite E0. rewrite range_nil by lia. induction (rev (range 0 h)); auto.
    - pose proof (wf_wrange _ _ _ _ W) as Hw. rewrite (iir_loop_good p (rgbf b bits) img bits w (wf_depth _ _ _ _ W) img_bytes pal_ok rgb_ok24) by
        (auto; try (clear - Hw N0; lia); apply Z.mod_0_l; unfold perstep; destruct (bits =? 1), (bits =? 4); lia).
      rewrite S. now rewrite rgball_map.
  Qed.
  (** past the end of a row nothing comes any more *)
  Lemma scan_past fuel pb : bits = 1 \/ bits = 4 -> forall x y off, w < x -> 0 <= off -> zlen img - off <= Z.of_nat fuel ->
    iir_loop fuel p img bits w pb 1 x y off = Ok [].
  Proof.
    intros Hb. induction fuel as [|fuel IH]; intros x y off Hx Ho Hf; cbn [iir_loop]; (destruct (Z.ltb_spec off (zlen img)) as [L|L]; [|reflexivity]).
    - exfalso. clear - L Hf. lia.
    - assert (E : iic_step img bits w x y off = Ok ([], x + perstep bits)).
      { unfold iic_step, perstep. destruct Hb as [-> | ->]; cbn [Z.eqb Pos.eqb]; rewrite (py_get_in _ _ (conj Ho L)); cbn [rbind fold_left];
          repeat (rewrite (proj2 (Z.ltb_ge _ _)) by (clear - Hx; lia)); [do 2 f_equal; clear; lia|reflexivity]. }
      rewrite (iir_iic p (rgbf b bits) img bits w (wf_depth _ _ _ _ W) img_bytes pal_ok rgb_ok24), E. cbn [rbind map].
      assert (1 <= perstep bits) by (unfold perstep; destruct (bits =? 1), (bits =? 4); clear; lia).
      replace (x + perstep bits =? w) with false by (symmetry; apply Z.eqb_neq; clear - Hx H; lia).
      rewrite IH; [reflexivity|clear - Hx H; lia|clear - Ho; lia|clear - Hf; lia].
  Qed.
  Lemma scan_row fuel : bits = 1 \/ bits = 4 -> w mod perstep bits <> 0 -> 0 < h -> forall j, 0 <= j -> perstep bits * j < w ->
    zlen img - j <= Z.of_nat fuel -> forall pb,
    iir_loop fuel p img bits w pb 1 (perstep bits * j) (h - 1) j = Ok (rgbrow b w h bits (h - 1) (perstep bits * j) w).
  Proof.
    intros Hb Hm Hh. assert (Hs : 1 <= perstep bits) by (unfold perstep; destruct (bits =? 1), (bits =? 4); clear; lia).
    assert (Es : stepbytes bits = 1) by (unfold stepbytes; destruct Hb as [-> | ->]; reflexivity).
    induction fuel as [|fuel IH]; intros j Hj Hx Hf pb; cbn [iir_loop];
      pose proof (wf_depth _ _ _ _ W) as Hd;
      assert (Hx0 : 0 <= perstep bits * j) by (clear - Hs Hj; apply Z.mul_nonneg_nonneg; lia);
      destruct (row_fit w bits (perstep bits * j) Hd (conj Hx0 Hx)) as [F1 F2]; fold r in F2;
      assert (Hj2 : j < r) by
        (clear - Hb F1 F2 Hj; unfold perstep, pbytes in *; destruct Hb as [E | E]; rewrite E in *; cbn [Z.eqb Pos.eqb] in *; lia);
      destruct (img_row b w h bits W (h - 1) j ltac:(clear - Hh; lia) (conj Hj Hj2)) as [B1 _];
      fold r in B1; fold img in B1; replace ((h - 1 - (h - 1)) * r + j) with j in B1 by (clearbody r; clear; ring).
    - exfalso. clear - Hf B1. lia.
    - rewrite (proj2 (Z.ltb_lt _ _)) by (apply B1).
      rewrite (iir_iic p (rgbf b bits) img bits w (wf_depth _ _ _ _ W) img_bytes pal_ok rgb_ok24).
      pose proof (iic_step_spec b w h bits W (perstep bits * j) (h - 1) j ltac:(clear - Hh; lia) eq_refl (conj Hx0 Hx)) as S.
      fold r in S. fold img in S. rewrite Es in S. replace ((h - 1 - (h - 1)) * r + 1 * j) with j in S by (clearbody r; clear; ring).
      rewrite S. cbn [rbind]. rewrite rgbrow_map.
      replace (perstep bits * j + perstep bits =? w) with false.
      2:{ symmetry. apply Z.eqb_neq. intros E. apply Hm. rewrite <- E. replace (perstep bits * j + perstep bits) with ((j + 1) * perstep bits) by ring.
          apply Z.mod_mul. clear - Hs. lia. }
      destruct (Z.lt_ge_cases (perstep bits * j + perstep bits) w) as [L|L].
      + rewrite Z.min_r by (clear - L; lia).
        replace (perstep bits * j + perstep bits) with (perstep bits * (j + 1)) in * by ring.
        rewrite IH; [|clear - Hj; lia|exact L|clear - Hf; lia]. cbn [rbind]. f_equal. unfold rgbrow. rewrite <- map_app. f_equal.
        apply range_app. clear - L Hs. lia.
      + rewrite Z.min_l by exact L.
        assert (w < perstep bits * j + perstep bits).
        { destruct (Z.eq_dec w (perstep bits * j + perstep bits)) as [E|E]; [|clear - L E; lia]. exfalso. apply Hm. rewrite E.
          replace (perstep bits * j + perstep bits) with ((j + 1) * perstep bits) by ring. apply Z.mod_mul. clear - Hs. lia. }
        rewrite scan_past; [cbn [rbind]; now rewrite app_nil_r|exact Hb|exact H|clear - Hj; lia|clear - Hf; lia].
  Qed.
  Lemma scan_bad : w mod perstep bits <> 0 -> 0 < h -> iterimageRGB b = Ok (rgbrow b w h bits (h - 1) 0 w).
  Proof.
    intros Hm Hh. rewrite scan_open.
    assert (Hb : bits = 1 \/ bits = 4).
    { destruct (wf_depth _ _ _ _ W) as [E|[E|[E|E]]]; auto; exfalso; apply Hm; rewrite E; apply Z.mod_1_r. }
    pose proof (wf_wrange _ _ _ _ W) as Hw.
    assert (Hw0 : 0 < w). { destruct (Z.eq_dec w 0) as [E|E]; [|clear - Hw E; lia]. exfalso. apply Hm. rewrite E. apply Z.mod_0_l.
      unfold perstep. destruct (bits =? 1), (bits =? 4); clear; lia. }
    pose proof (scan_row (length img) Hb Hm Hh 0 ltac:(lia) ltac:(rewrite Z.mul_0_r; exact Hw0) ltac:(unfold zlen; lia)) as S.
    rewrite Z.mul_0_r in S. replace (stepbytes bits) with 1 at 2 by (unfold stepbytes; destruct Hb as [-> | ->]; reflexivity). apply S.
  Qed.
End Scan.
