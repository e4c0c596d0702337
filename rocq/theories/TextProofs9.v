(** Text (proofs): patterns and texts drawn with squares and with dots. *)
From Coq Require Import ZArith List Bool String Lia.
From Verif Require Import PyBase PyFacts Spec SpecText Bmp BmpFacts PixelProofs PlotList HeaderProofs Buffers Region
  Raster Geometry GeomProofs Draw VertProofs DrawProofs DrawProofs2 DrawProofs3 DrawProofs4 MiscProofs Files Text TextProofs
  TextProofs2 TextProofs3 TextProofs4 TextProofs5 TextProofs6 TextProofs7.
Import ListNotations.
Open Scope Z_scope.
Open Scope py_scope.
Ltac Zify.zify_post_hook ::= Z.to_euclidean_division_equations.

Section Runs.
  Variables (b : list Z) (w h bits scale ps : Z) (color : colour) (o : list msg).
  Hypothesis W : wf b w h bits.
  Hypothesis Hsc : 1 <= scale.
  Hypothesis Hps : 0 <= ps.
  Hypothesis Hc : colour_ok bits color.
  Let inc := scale - 1 - ps.
  Let d := Z.max 0 inc.

  Lemma self_header : same_header b b bits.
  Proof. split; auto. Qed.
  Lemma value_spec : forall c, square_value b bits d c (cellval b bits inc c).
  Proof. intros c. apply (cellval_spec b w h bits inc c W). Qed.
  Lemma d_range : 0 <= d < scale.
  Proof. unfold d, inc. clear - Hsc Hps. lia. Qed.

  (** one pattern *)
  Definition painted (G : style) (val : Z -> Z) (pat : list Z) (x y px py : Z) : Z :=
    match G pat x y px py with Some i => val (colour_of_row color i) | None => pixel b w h bits px py end.
  Lemma paints_run R val act g : paints R b w h bits val act color g ->
    exists b' o', act (mkst b o) = (Ok tt, mkst b' o') /\ R o o' /\
      repainted b b' w h bits (fun px py => match g px py with Some i => val (colour_of_row color i) | None => pixel b w h bits px py end).
  Proof.
    intros P. destruct (P b o W self_header) as (b' & o' & E1 & E2 & E3). exists b', o'. split; auto. split; auto.
    eapply repainted_ext; [|exact E3]. intros px py _. cbn beta. destruct (g px py); reflexivity.
  Qed.
  Lemma pattern_squares k x y pat : (bits <> 4 \/ inc <= 0) -> kind_can k color pat ->
    exists b' n, kind_fn k plotsquare x y pat scale ps color (mkst b o) = (Ok tt, mkst b' (o ++ repeat Mregionoutofbounds n)) /\
      repainted b b' w h bits (painted (kind_style k (square_hit d w h) scale) (cellval b bits inc) pat x y).
  Proof.
    intros Hb K.
    destruct (paints_run complaints (cellval b bits inc) _ _ (kind_paints complaints b w h bits complaints_refl complaints_trans scale ps Hsc plotsquare
      (square_hit d w h) (cellval b bits inc) (fun _ _ => True) (square_box w h scale ps Hsc Hps)
      (squares b w h bits scale ps Hps Hb) color Hc k pat x y K (fun _ _ _ => I))) as (b' & o' & E1 & [n ->] & E3).
    exists b', n. auto.
  Qed.
  Lemma pattern_squares4 k x y pat : k = KUp \/ k = KDown -> scale mod 2 = 0 -> ps mod 2 = 0 -> x mod 2 = 0 ->
    exists b' n, kind_fn k plotsquare x y pat scale ps color (mkst b o) = (Ok tt, mkst b' (o ++ repeat Mregionoutofbounds n)) /\
      repainted b b' w h bits (painted (kind_style k (square_hit d w h) scale) (cellval b bits inc) pat x y).
  Proof.
    intros Hk Es Ep Ex. assert (K : kind_can k color pat) by (destruct Hk as [-> | ->]; exact I).
    assert (Hi : (scale - 1 - ps) mod 2 = 1) by (clear - Es Ep; lia).
    pose proof (fun PL => paints_run complaints (cellval b bits inc) _ _ (kind_paints complaints b w h bits complaints_refl complaints_trans scale ps Hsc plotsquare
      (square_hit d w h) (cellval b bits inc) (fun x _ => x mod 2 = 0) (square_box w h scale ps Hsc Hps)
      (squares4 b w h bits scale ps Hps Hi) color Hc k pat x y K PL)) as Q.
    match type of Q with ?A -> _ => assert (PL : A) end.
    { intros i j _. destruct Hk as [-> | ->]; cbn [kind_x]; rewrite <- Z.add_mod_idemp_l, Ex, Z.add_0_l by lia;
        rewrite <- Z.mul_mod_idemp_r, Es, Z.mul_0_r by lia; reflexivity. }
    destruct (Q PL) as (b' & o' & E1 & [n ->] & E3).
    exists b', n. auto.
  Qed.
  Lemma pattern_inside k x y pat : (bits <> 4 \/ inc <= 0) -> kind_can k color pat -> plain k ->
    0 <= x -> x + 8 * scale + extra k scale (zlen pat) <= w -> 0 <= y -> y + zlen pat * scale <= h ->
    exists b', kind_fn k plotsquare x y pat scale ps color (mkst b o) = (Ok tt, mkst b' o) /\
      repainted b b' w h bits (painted (kind_style k (full_hit scale ps) scale) (cellval b bits inc) pat x y).
  Proof.
    intros Hb K (K1 & K2 & K3) X1 X2 Y1 Y2.
    pose proof (fun PL => paints_run eq (cellval b bits inc) _ _ (kind_paints eq b w h bits (@eq_refl _) eq_trans' scale ps Hsc plotsquare
      (full_hit scale ps) (cellval b bits inc) (room w h scale) (full_box scale ps Hsc Hps)
      (squares_inside b w h bits scale ps Hsc Hps Hb) color Hc k pat x y K PL)) as Q.
    match type of Q with ?A -> _ => assert (PL : A) end.
    { intros i j L. pose proof (kind_extent k pat scale x y i j Hsc K1 K2 K3 L) as Q0. cbv zeta in Q0. unfold room.
      clear - Q0 X1 X2 Y1 Y2. lia. }
    destruct (Q PL) as (b' & o' & E1 & <- & E3).
    exists b'. auto.
  Qed.
  Lemma pattern_dots k x y pat : bits = 8 \/ bits = 24 \/ inc <= 0 -> kind_can k color pat ->
    (if match k with KDownIt => true | _ => false end then -19 + lead scale (zlen pat) <= x else -19 <= x) ->
    exists b', kind_fn k plotcircinsqr x y pat scale ps color (mkst b o) = (Ok tt, mkst b' o) /\
      repainted b b' w h bits (painted (kind_style k (dot_hit d) scale) (reduce bits) pat x y).
  Proof.
    intros Hb K Hx.
    pose proof (fun PL => paints_run eq (reduce bits) _ _ (kind_paints eq b w h bits (@eq_refl _) eq_trans' scale ps Hsc plotcircinsqr
      (dot_hit d) (reduce bits) (fun x _ => -19 <= x) (dot_box scale ps Hsc Hps)
      (dots b w h bits scale ps Hps Hb) color Hc k pat x y K PL)) as Q.
    match type of Q with ?A -> _ => assert (PL : A) end.
    { intros i j L. apply kind_lit_range in L. destruct L as [Li Lj]. pose proof (slant_lead scale (zlen pat) y i Hsc Li) as B.
      destruct k; cbn [kind_x]; cbv iota in Hx; clear - B Hx Li Lj Hsc; nia. }
    destruct (Q PL) as (b' & o' & E1 & <- & E3).
    exists b'. auto.
  Qed.

  (** texts *)
  Variables (font text : list Z) (k : kind) (X Y : Z -> Z -> Z) (act : M unit).
  Hypothesis Hfont : Forall byte font.
  Hypothesis Hne : 0 < zlen font.
  Hypothesis Htext : forall c, In c text -> c = 10 \/ c = 9 \/ in_font font c.
  Hypothesis Hone : k = KMir -> exists c, color = One c.
  Definition over_image (G : style) (val : Z -> Z) (px py : Z) : Z :=
    text_over G font X Y (fun i => val (colour_of_row color i)) text (pixel b w h bits px py) px py.
  Lemma chars_ok c col ln : In (c, col, ln) (layout text 0 0) -> in_font font c /\ kind_can k color (glyph font c).
  Proof.
    intros Hin. destruct (layout_in _ _ _ _ _ _ Hin) as (Ic & N10 & N9).
    assert (Fc : in_font font c) by (destruct (Htext c Ic) as [|[|]]; [contradiction|contradiction|assumption]).
    split; [exact Fc|]. pose proof (glyph_bytes font c Hfont Fc (height_byte font Hfont Hne)) as Fb.
    unfold kind_can. destruct k; auto.
  Qed.
  Lemma over_run R val G : 
    draws R b w h bits act (fun px py => over val color G font X Y px py (layout text 0 0) None) ->
    exists b' o', act (mkst b o) = (Ok tt, mkst b' o') /\ R o o' /\ repainted b b' w h bits (over_image G val).
  Proof.
    intros D. destruct (D b o W self_header) as (b' & o' & E1 & E2 & E3). exists b', o'. split; auto. split; auto.
    eapply repainted_ext; [|exact E3]. intros px py _. cbn beta. rewrite over_text. reflexivity.
  Qed.
  Lemma text_squares : (bits <> 4 \/ inc <= 0) ->
    (forall s, act s = forM (layout text 0 0) (act3 (draw_char font (kind_fn k plotsquare) scale ps color X Y)) s) ->
    exists b' n, act (mkst b o) = (Ok tt, mkst b' (o ++ repeat Mregionoutofbounds n)) /\
      repainted b b' w h bits (over_image (kind_style k (square_hit d w h) scale) (cellval b bits inc)).
  Proof.
    intros Hb Ha. destruct (over_run complaints (cellval b bits inc) (kind_style k (square_hit d w h) scale)) as (b' & o' & E1 & [n ->] & E3).
    { eapply draws_act; [exact Ha|].
      apply (string_draws complaints b w h bits complaints_refl complaints_trans scale ps Hsc plotsquare
        (square_hit d w h) (cellval b bits inc) (fun _ _ => True) (square_box w h scale ps Hsc Hps)
        (squares b w h bits scale ps Hps Hb) color Hc k font X Y text (height_byte font Hfont Hne)).
      intros c col ln Hin. destruct (chars_ok c col ln Hin). auto. }
    exists b', n. auto.
  Qed.
  Lemma glyph_len c : zlen (glyph font c) = font_height font.
  Proof. unfold glyph. rewrite zlen_map, zlen_range. pose proof (height_byte font Hfont Hne). lia. Qed.
  Lemma text_inside : (bits <> 4 \/ inc <= 0) -> plain k ->
    (forall c col ln, In (c, col, ln) (layout text 0 0) ->
       0 <= X col ln /\ X col ln + 8 * scale + extra k scale (font_height font) <= w /\
       0 <= Y col ln /\ Y col ln + font_height font * scale <= h) ->
    (forall s, act s = forM (layout text 0 0) (act3 (draw_char font (kind_fn k plotsquare) scale ps color X Y)) s) ->
    exists b', act (mkst b o) = (Ok tt, mkst b' o) /\
      repainted b b' w h bits (over_image (kind_style k (full_hit scale ps) scale) (cellval b bits inc)).
  Proof.
    intros Hb (K1 & K2 & K3) Hroom Ha.
    destruct (over_run eq (cellval b bits inc) (kind_style k (full_hit scale ps) scale)) as (b' & o' & E1 & <- & E3).
    { eapply draws_act; [exact Ha|].
      apply (string_draws eq b w h bits (@eq_refl _) eq_trans' scale ps Hsc plotsquare
        (full_hit scale ps) (cellval b bits inc) (room w h scale) (full_box scale ps Hsc Hps)
        (squares_inside b w h bits scale ps Hsc Hps Hb) color Hc k font X Y text (height_byte font Hfont Hne)).
      intros c col ln Hin. destruct (chars_ok c col ln Hin). split; auto. split; auto. intros i j L.
      pose proof (kind_extent k (glyph font c) scale (X col ln) (Y col ln) i j Hsc K1 K2 K3 L) as Q. cbv zeta in Q.
      rewrite glyph_len in Q. destruct (Hroom c col ln Hin) as (R1 & R2 & R3 & R4). unfold room.
      clear - Q R1 R2 R3 R4. lia. }
    exists b'. auto.
  Qed.
  Lemma text_dots : bits = 8 \/ bits = 24 \/ inc <= 0 ->
    (forall c col ln, In (c, col, ln) (layout text 0 0) ->
       (if match k with KDownIt => true | _ => false end then -19 + lead scale (font_height font) <= X col ln else -19 <= X col ln)) ->
    (forall s, act s = forM (layout text 0 0) (act3 (draw_char font (kind_fn k plotcircinsqr) scale ps color X Y)) s) ->
    exists b', act (mkst b o) = (Ok tt, mkst b' o) /\
      repainted b b' w h bits (over_image (kind_style k (dot_hit d) scale) (reduce bits)).
  Proof.
    intros Hb Hroom Ha.
    destruct (over_run eq (reduce bits) (kind_style k (dot_hit d) scale)) as (b' & o' & E1 & <- & E3).
    { eapply draws_act; [exact Ha|].
      apply (string_draws eq b w h bits (@eq_refl _) eq_trans' scale ps Hsc plotcircinsqr
        (dot_hit d) (reduce bits) (fun x _ => -19 <= x) (dot_box scale ps Hsc Hps)
        (dots b w h bits scale ps Hps Hb) color Hc k font X Y text (height_byte font Hfont Hne)).
      intros c col ln Hin. destruct (chars_ok c col ln Hin). split; auto. split; auto. intros i j L.
      apply kind_lit_range in L. rewrite glyph_len in L. destruct L as [Li Lj].
      pose proof (slant_lead scale (font_height font) (Y col ln) i Hsc Li) as B.
      pose proof (Hroom c col ln Hin) as Hx.
      destruct k; cbn [kind_x]; cbv iota in Hx; clear - B Hx Li Lj Hsc; nia. }
    exists b'. auto.
  Qed.
End Runs.
