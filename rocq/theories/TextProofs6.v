(** Text (proofs): the styles under one heading, strings, and the two ways of
    drawing a bit. *)
From Coq Require Import ZArith List Bool Lia.
From Verif Require Import PyBase PyFacts Spec SpecText Bmp BmpFacts PixelProofs PlotList HeaderProofs Buffers Region
  Raster Geometry GeomProofs Draw VertProofs DrawProofs DrawProofs2 DrawProofs3 DrawProofs4 MiscProofs Text TextProofs
  TextProofs2 TextProofs3 TextProofs4 TextProofs5.
Import ListNotations.
Open Scope Z_scope.
Open Scope py_scope.
Ltac Zify.zify_post_hook ::= Z.to_euclidean_division_equations.

Inductive kind := KUp | KDown | KMir | KIt | KMirIt | KDownIt | KSide | KSideIt.
Definition kind_fn (k : kind) (fn : Z -> Z -> Z -> Z -> M unit) : renderer := fun x y p scale ps color =>
  match k with
  | KUp => plot8bitpatternwithfn x y p scale ps color fn
  | KDown => plot8bitpatternupsidedownwithfn x y p scale ps color fn
  | KMir => intcolour (fun x y p scale ps c => plotrotated8bitpatternwithfn x y p scale ps c fn) x y p scale ps color
  | KIt => plotitalic8bitpatternwithfn x y p scale ps color fn
  | KMirIt => plotrotateditalic8bitpatternwithfn x y p scale ps color fn
  | KDownIt => plotitalic8bitpatternupsidedownwithfn x y p scale ps color fn
  | KSide => plot8bitpatternsidewaywithfn x y p scale ps color fn
  | KSideIt => plotitalic8bitpatternsidewaywithfn x y p scale ps color fn
  end.
Definition kind_style (k : kind) : (Z -> Z -> Z -> Z -> bool) -> Z -> style :=
  match k with
  | KUp => upright | KDown => upside_down | KMir => mirrored | KIt => italic
  | KMirIt => mirrored_italic | KDownIt => upside_down_italic | KSide => sideways | KSideIt => sideways_italic
  end.
Definition kind_lit (k : kind) (pat : list Z) : Z -> Z -> bool :=
  match k with
  | KUp | KIt | KSide | KSideIt => bit_set pat
  | KDown | KDownIt => bit_set (rev pat)
  | KMir | KMirIt => mirror_bit pat
  end.
Definition kind_x (k : kind) (scale n x y i j : Z) : Z :=
  match k with
  | KUp | KDown | KMir => x + j * scale
  | KIt | KMirIt => x + lead scale n - slant scale y i + j * scale
  | KDownIt => x - slant scale y i + j * scale
  | KSide | KSideIt => x + i * scale
  end.
Definition kind_y (k : kind) (scale n x y i j : Z) : Z :=
  match k with
  | KSide => y - j * scale
  | KSideIt => y + (if scale =? 1 then - slant scale x i else slant scale x i) - j * scale
  | _ => y + i * scale
  end.
(** what the mirrored styles need *)
Definition kind_can (k : kind) (color : colour) (pat : list Z) : Prop :=
  match k with
  | KMir => (exists c, color = One c) /\ Forall byte pat
  | KMirIt => Forall byte pat
  | _ => True
  end.
Lemma kind_lit_range k pat i j : kind_lit k pat i j = true -> 0 <= i < zlen pat /\ 0 <= j < 8.
Proof.
  assert (B : forall p, bit_set p i j = true -> 0 <= i < zlen p /\ 0 <= j < 8).
  { intros p. unfold bit_set. rewrite !andb_true_iff, !Z.leb_le, !Z.ltb_lt. tauto. }
  assert (R : forall p, bit_set (rev p) i j = true -> 0 <= i < zlen p /\ 0 <= j < 8).
  { intros p H. apply B in H. now rewrite zlen_rev in H. }
  assert (N : forall p, mirror_bit p i j = true -> 0 <= i < zlen p /\ 0 <= j < 8).
  { intros p. unfold mirror_bit, bit_set. rewrite !andb_true_iff, !Z.leb_le, !Z.ltb_lt. lia. }
  destruct k; cbn [kind_lit]; auto.
Qed.

Section Kinds.
  Variables (R : list msg -> list msg -> Prop) (b0 : list Z) (w h bits : Z).
  Hypothesis Rrefl : forall o, R o o.
  Hypothesis Rtrans : forall o1 o2 o3, R o1 o2 -> R o2 o3 -> R o1 o3.
  Variables (scale ps : Z).
  Hypothesis Hsc : 1 <= scale.
  Let inc := scale - 1 - ps.
  Variables (fn : Z -> Z -> Z -> Z -> M unit) (hit : Z -> Z -> Z -> Z -> bool) (val : Z -> Z) (P : Z -> Z -> Prop).
  Hypothesis Hbox : forall x y px py, hit x y px py = true -> x <= px < x + scale /\ y <= py < y + scale.
  Hypothesis Hcell : forall x y c, storable bits c -> P x y ->
    draws R b0 w h bits (plotcell fn scale inc x y c)
      (fun px py => if hit x y px py then Some (val c) else None).
  Variables (color : colour).
  Hypothesis Hc : colour_ok bits color.

  Lemma kind_paints k pat x y : kind_can k color pat ->
    (forall i j, kind_lit k pat i j = true -> P (kind_x k scale (zlen pat) x y i j) (kind_y k scale (zlen pat) x y i j)) ->
    paints R b0 w h bits val (kind_fn k fn x y pat scale ps color) color (kind_style k hit scale pat x y).
  Proof.
    intros K HP. destruct k; cbn [kind_lit kind_x kind_y kind_fn kind_style kind_can] in *.
    - eapply upright_paints; eauto.
    - eapply upside_paints; eauto.
    - destruct K as [[c ->] F]. cbn [intcolour]. eapply mirror_paints; eauto.
    - eapply italic_paints; eauto.
    - eapply mirroritalic_paints; eauto.
    - eapply upitalic_paints; eauto.
    - eapply side_paints; eauto.
    - eapply sideitalic_paints; eauto.
  Qed.

  Definition over (G : style) (font : list Z) (X Y : Z -> Z -> Z) (px py : Z) (l : list (Z * Z * Z)) (acc : option Z) : option Z :=
    fold_left (fun acc t => match option_map (fun i => val (colour_of_row color i))
       (G (glyph font (fst (fst t))) (X (snd (fst t)) (snd t)) (Y (snd (fst t)) (snd t)) px py) with Some v => Some v | None => acc end) l acc.
  Lemma string_draws k font X Y text : 0 <= font_height font ->
    (forall c col ln, In (c, col, ln) (layout text 0 0) ->
       in_font font c /\ kind_can k color (glyph font c) /\
       forall i j, kind_lit k (glyph font c) i j = true ->
         P (kind_x k scale (font_height font) (X col ln) (Y col ln) i j) (kind_y k scale (font_height font) (X col ln) (Y col ln) i j)) ->
    draws R b0 w h bits (forM (layout text 0 0) (act3 (draw_char font (kind_fn k fn) scale ps color X Y)))
      (fun px py => over (kind_style k hit scale) font X Y px py (layout text 0 0) None).
  Proof.
    intros Hh H. unfold over.
    apply (draws_list R b0 w h bits Rrefl Rtrans (layout text 0 0) _ (fun t px py => option_map (fun i => val (colour_of_row color i))
       (kind_style k hit scale (glyph font (fst (fst t))) (X (snd (fst t)) (snd t)) (Y (snd (fst t)) (snd t)) px py))).
    intros [[c col] ln] Hin. destruct (H c col ln Hin) as (F & K & HP). unfold act3. cbn [fst snd].
    eapply draws_act; [intros s; unfold draw_char, bind, lift; rewrite (getcharfont_ok font c Hh F); reflexivity|].
    apply kind_paints; auto. intros i j L.
    assert (E : zlen (glyph font c) = font_height font).
    { unfold glyph. rewrite zlen_map, zlen_range by lia. lia. }
    rewrite E. auto.
  Qed.
End Kinds.

Lemma over_text val color G font X Y px py l : forall acc old,
  match over val color G font X Y px py l acc with Some v => v | None => old end =
  fold_left (fun v t => let '(c, col, ln) := t in
      match G (glyph font c) (X col ln) (Y col ln) px py with Some i => val (colour_of_row color i) | None => v end)
    l (match acc with Some v => v | None => old end).
Proof.
  unfold over. induction l as [|[[c col] ln] l IH]; intros acc old; [reflexivity|]. cbn [fold_left fst snd]. rewrite IH. f_equal.
  destruct (G _ _ _ px py); reflexivity.
Qed.
Lemma glyph_bytes font c : Forall byte font -> in_font font c -> 0 <= font_height font -> Forall byte (glyph font c).
Proof.
  intros F [Hc Hf] Hh. apply Forall_forall. intros v Hv. unfold glyph in Hv. apply in_map_iff in Hv.
  destruct Hv as (i & <- & Hi). apply in_range in Hi. rewrite Forall_forall in F. apply F.
  rewrite getz_nth by nia. apply nth_In. unfold zlen in Hf. nia.
Qed.
Lemma height_byte font : Forall byte font -> 0 < zlen font -> 0 <= font_height font.
Proof.
  intros F H. rewrite Forall_forall in F. assert (byte (font_height font)).
  { apply F. unfold font_height. rewrite getz_nth by lia. apply nth_In. unfold zlen in H. lia. }
  unfold byte in *. lia.
Qed.
Lemma layout_in text : forall c col ln col0 ln0, In (c, col, ln) (layout text col0 ln0) -> In c text /\ c <> 10 /\ c <> 9.
Proof.
  induction text as [|a t IH]; intros c col ln col0 ln0; [intros []|]. cbn [layout].
  destruct (Z.eqb_spec a 10); [intros H; apply IH in H; intuition|].
  destruct (Z.eqb_spec a 9); [intros H; apply IH in H; intuition|].
  intros [E|H]; [inversion E; subst; cbn [In]; auto|apply IH in H; cbn [In]; tauto].
Qed.
Lemma layout_pos text : forall c col ln col0 ln0, In (c, col, ln) (layout text col0 ln0) -> 0 <= col0 -> 0 <= col /\ ln0 <= ln.
Proof.
  induction text as [|a t IH]; intros c col ln col0 ln0; [intros []|]. cbn [layout].
  destruct (Z.eqb_spec a 10); [intros H H0; apply IH in H; lia|].
  destruct (Z.eqb_spec a 9); [intros H H0; apply IH in H; lia|].
  intros [E|H] H0; [inversion E; subst; lia|apply IH in H; lia].
Qed.

(** ** squares and dots *)
Definition complaints (o o' : list msg) : Prop := exists k, o' = o ++ repeat Mregionoutofbounds k.
Lemma complaints_refl o : complaints o o.
Proof. exists 0%nat. cbn. now rewrite app_nil_r. Qed.
Lemma complaints_trans o1 o2 o3 : complaints o1 o2 -> complaints o2 o3 -> complaints o1 o3.
Proof. intros [a ->] [b ->]. exists (a + b)%nat. now rewrite repeat_app, app_assoc. Qed.
Lemma complaints_one o : complaints o (o ++ [Mregionoutofbounds]).
Proof. now exists 1%nat. Qed.
Lemma eq_trans' (o1 o2 o3 : list msg) : o1 = o2 -> o2 = o3 -> o1 = o3.
Proof. congruence. Qed.

Section Squares.
  Variables (b : list Z) (w h bits scale ps : Z).
  Hypothesis Hsc : 1 <= scale.
  Hypothesis Hps : 0 <= ps.
  Let inc := scale - 1 - ps.
  Let d := Z.max 0 inc.
  Let val := cellval b bits inc.
  (** clipped, with messages *)
  Lemma squares : (bits <> 4 \/ inc <= 0) -> forall x y c, storable bits c -> True ->
    draws complaints b w h bits (plotcell plotsquare scale inc x y c)
      (fun px py => if square_hit d w h x y px py then Some (val c) else None).
  Proof.
    intros Hb x y c Hst _. apply square_draws; auto using complaints_refl, complaints_one.
    destruct Hb; auto.
  Qed.
  (** 4-bit, at even places *)
  Lemma squares4 : inc mod 2 = 1 -> forall x y c, storable bits c -> x mod 2 = 0 ->
    draws complaints b w h bits (plotcell plotsquare scale inc x y c)
      (fun px py => if square_hit d w h x y px py then Some (val c) else None).
  Proof.
    intros Hb x y c Hst Hx. apply square_draws; auto using complaints_refl, complaints_one.
  Qed.
  (** inside, silently *)
  Definition room (x y : Z) : Prop := 0 <= x /\ x + scale <= w /\ 0 <= y /\ y + scale <= h.
  Definition full_hit : Z -> Z -> Z -> Z -> bool := box_hit d.
  Lemma squares_inside : (bits <> 4 \/ inc <= 0) -> forall x y c, storable bits c -> room x y ->
    draws eq b w h bits (plotcell plotsquare scale inc x y c)
      (fun px py => if full_hit x y px py then Some (val c) else None).
  Proof.
    intros Hb x y c Hst Hr. unfold room in Hr.
    assert (D : 0 <= d < scale) by (unfold d, inc; clear - Hsc Hps; lia).
    eapply draws_ext; [|apply square_draws; auto].
    - intros px py _. unfold square_hit, full_hit, box_hit. fold inc. fold d.
      replace (((0 <=? x) && (x + d <? w)) && ((0 <=? y) && (y + d <? h))) with true; [now rewrite andb_true_r|].
      symmetry. rewrite !andb_true_iff, !Z.leb_le, !Z.ltb_lt. clear - Hr D. lia.
    - destruct Hb; auto.
    - left. unfold whole. fold inc. fold d. clear - Hr D. lia.
  Qed.
  Lemma full_box x y px py : full_hit x y px py = true -> x <= px < x + scale /\ y <= py < y + scale.
  Proof.
    unfold full_hit, box_hit, in_box. assert (D : 0 <= d < scale) by (unfold d, inc; clear - Hsc Hps; lia).
    rewrite !andb_true_iff, !Z.leb_le. clear - D. lia.
  Qed.
  (** discs *)
  Lemma dots : bits = 8 \/ bits = 24 \/ inc <= 0 -> forall x y c, storable bits c -> -19 <= x ->
    draws eq b w h bits (plotcell plotcircinsqr scale inc x y c)
      (fun px py => if dot_hit d x y px py then Some (reduce bits c) else None).
  Proof.
    intros Hb x y c Hst Hx. apply dot_draws; auto. fold inc. clear - Hb Hx. lia.
  Qed.
End Squares.

(** ** how far the patterns reach *)
Lemma slant_lead scale n y i : 1 <= scale -> 0 <= i < n -> 0 <= slant scale y i <= lead scale n.
Proof.
  intros Hs Hi. unfold slant, lead. destruct (Z.eqb_spec scale 1); [clear - Hi; lia|].
  assert (0 <= scale / 2) by (clear - Hs; lia). nia.
Qed.
Definition extra (k : kind) (scale n : Z) : Z := match k with KIt | KMirIt => lead scale n | _ => 0 end.
Lemma kind_extent k pat scale x y i j : 1 <= scale -> k <> KDownIt -> k <> KSide -> k <> KSideIt ->
  kind_lit k pat i j = true -> let n := zlen pat in
  x <= kind_x k scale n x y i j /\ kind_x k scale n x y i j + scale <= x + 8 * scale + extra k scale n /\
  y <= kind_y k scale n x y i j /\ kind_y k scale n x y i j + scale <= y + n * scale.
Proof.
  intros Hs N1 N2 N3 L n. apply kind_lit_range in L. destruct L as [Li Lj]. fold n in Li.
  pose proof (slant_lead scale n y i Hs Li) as B.
  destruct k; try contradiction; cbn [kind_x kind_y extra]; nia.
Qed.

(** ** colours of squares *)
Lemma dist2_spec' u v : dist2 u v = rgb_dist2 u v.
Proof. destruct u as ((?, ?), ?), v as ((?, ?), ?). unfold dist2, rgb_dist2. ring. Qed.
Lemma cellval_spec b w h bits inc c : wf b w h bits -> square_value b bits (Z.max 0 inc) c (cellval b bits inc c).
Proof.
  intros W. unfold square_value, cellval. replace (0 <? Z.max 0 inc) with (0 <? inc).
  2:{ destruct (Z.ltb_spec 0 inc), (Z.ltb_spec 0 (Z.max 0 inc)); lia. }
  destruct ((bits =? 8) && (0 <? inc)); [|reflexivity]. intros Hc. unfold nearest.
  set (pal := map (pal_entry b) (range 0 256)). unfold matchRGBtopal. replace (int2RGB c) with (rgb_of c) by (unfold int2RGB, rgb_of; now rewrite !land255, shiftr8, shiftr16).
  assert (Hrgb : rgb_ok (rgb_of c)).
  { unfold rgb_ok, rgb_of, byte. cbn [fst snd]. change (2 ^ 24) with 16777216 in Hc. clear - Hc. lia. }
  assert (Hok : forall i, rgb_ok (pal_entry b i)).
  { intros i. unfold rgb_ok, pal_entry. cbn [fst snd]. repeat split; eapply wf_byte; eauto. }
  destruct (pal_nearest_spec false (rgb_of c) pal eq_refl 0 0 (442 * 442)) as [[E K]|(k & p & A1 & A2 & A3 & A4 & A5 & _)].
  - rewrite E. split; [lia|]. intros i Hi Nb. exfalso.
    assert (442 * 442 <= dist2 (rgb_of c) (pal_entry b i)).
    { apply K; auto. apply in_map. apply in_range. lia. }
    pose proof (dist2_small (rgb_of c) (pal_entry b i) Hrgb (Hok i)). lia.
  - rewrite A2, Z.add_0_l.
    assert (B : 0 <= Z.of_nat k < 256 /\ p = pal_entry b (Z.of_nat k)).
    { unfold pal in A1. assert (Lk : (k < length (map (pal_entry b) (range 0 256)))%nat) by (apply nth_error_Some; congruence).
      assert (L : zlen (map (pal_entry b) (range 0 256)) = 256) by (rewrite zlen_map; reflexivity). unfold zlen in L.
      split; [lia|]. rewrite nth_error_map in A1. unfold range in A1. rewrite nth_error_map in A1.
      destruct (nth_error (seq 0 _) k) as [m|] eqn:Em; [|discriminate]. cbn in A1. inversion A1 as [A].
      apply nth_error_nth with (d := 0%nat) in Em. rewrite seq_nth in Em; [subst m; f_equal; lia|].
      change (Z.to_nat (256 - 0)) with 256%nat. lia. }
    destruct B as [B1 B2]. split; [lia|].
    intros i Hi Nb. rewrite <- B2. split; [exact A3|]. rewrite <- !dist2_spec'. apply A5; auto.
    apply in_map. apply in_range. lia.
Qed.
