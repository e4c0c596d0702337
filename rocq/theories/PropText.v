(** Text: bit patterns, strings, fonts and text images (C62 - C68). *)
From Coq Require Import ZArith List Bool String Lia.
From Verif Require Import PyBase PyFacts Spec SpecText Bmp BmpFacts Files Text Fonts TextProofs TextProofs2 TextProofs3 TextProofs4 TextProofs5 TextProofs6
  TextProofs7 TextProofs8 TextProofs9 Concrete.
Import ListNotations.
Open Scope Z_scope.

Ltac pick H := cbn [In] in H; repeat (destruct H as [H|H]; [inversion H; subst; clear H|]); [..|destruct H].

(** * C62: bit patterns drawn with squares *)
Definition patterns : list (renderer * ((Z -> Z -> Z -> Z -> bool) -> Z -> style)) :=
  [(plot8bitpattern, upright); (plot8bitpatternupsidedown, upside_down);
   (plotitalic8bitpattern, italic); (plotreverseditalic8bitpattern, mirrored_italic);
   (plotupsidedownitalic8bitpattern, upside_down_italic);
   (plot8bitpatternsideway, sideways); (plotitalic8bitpatternsideway, sideways_italic)].
Lemma patterns_kind plot G : In (plot, G) patterns ->
  exists k, plot = kind_fn k plotsquare /\ G = kind_style k /\ k <> KMir.
Proof.
  intros H. unfold patterns in H. pick H.
  - now exists KUp. - now exists KDown. - now exists KIt. - now exists KMirIt. - now exists KDownIt. - now exists KSide. - now exists KSideIt.
Qed.
Lemma can_kind k color pat : k <> KMir -> Forall byte pat -> kind_can k color pat.
Proof. intros N F. destruct k; cbn; auto. contradiction. Qed.

Theorem C62_patterns : forall plot G b w h bits x y pat scale ps color o, In (plot, G) patterns ->
  wf b w h bits -> 1 <= scale -> 0 <= ps -> colour_ok bits color -> Forall byte pat ->
  bits <> 4 \/ scale - 1 - ps <= 0 ->
  let d := Z.max 0 (scale - 1 - ps) in
  exists b' n val, (forall c, square_value b bits d c (val c)) /\
    plot x y pat scale ps color (mkst b o) = (Ok tt, mkst b' (o ++ repeat Mregionoutofbounds n)) /\
    repainted b b' w h bits (fun px py =>
      match G (square_hit d w h) scale pat x y px py with
      | Some i => val (colour_of_row color i)
      | None => pixel b w h bits px py
      end).
Proof.
  intros plot G b w h bits x y pat scale ps color o Hin W Hsc Hps Hc Hp Hb d.
  destruct (patterns_kind _ _ Hin) as (k & -> & -> & Nk).
  destruct (pattern_squares b w h bits scale ps color o W Hsc Hps Hc k x y pat Hb (can_kind k color pat Nk Hp)) as (b' & n & E & R).
  exists b', n, (cellval b bits (scale - 1 - ps)). split; [|split]; auto.
  apply (value_spec b w h bits scale ps W).
Qed.
Theorem C62_mirrored : forall b w h bits x y pat scale ps c o,
  wf b w h bits -> 1 <= scale -> 0 <= ps -> storable bits c -> Forall byte pat ->
  bits <> 4 \/ scale - 1 - ps <= 0 ->
  let d := Z.max 0 (scale - 1 - ps) in
  exists b' n v, square_value b bits d c v /\
    plotrotated8bitpattern x y pat scale ps c (mkst b o) = (Ok tt, mkst b' (o ++ repeat Mregionoutofbounds n)) /\
    repainted b b' w h bits (fun px py =>
      match mirrored (square_hit d w h) scale pat x y px py with Some _ => v | None => pixel b w h bits px py end).
Proof.
  intros b w h bits x y pat scale ps c o W Hsc Hps Hst Hp Hb d.
  destruct (pattern_squares b w h bits scale ps (One c) o W Hsc Hps Hst KMir x y pat Hb) as (b' & n & E & R).
  { split; eauto. }
  exists b', n, (cellval b bits (scale - 1 - ps) c). split; [apply (value_spec b w h bits scale ps W)|]. split; [exact E|exact R].
Qed.
(** 4-bit bitmaps: right as long as the squares cover whole bytes *)
Theorem C62_four_bit : forall plot G b w h x y pat scale ps color o,
  In (plot, G) [(plot8bitpattern, upright); (plot8bitpatternupsidedown, upside_down)] ->
  wf b w h 4 -> 1 <= scale -> 0 <= ps -> scale mod 2 = 0 -> ps mod 2 = 0 -> x mod 2 = 0 -> colour_ok 4 color ->
  let d := Z.max 0 (scale - 1 - ps) in
  exists b' n, plot x y pat scale ps color (mkst b o) = (Ok tt, mkst b' (o ++ repeat Mregionoutofbounds n)) /\
    repainted b b' w h 4 (fun px py =>
      match G (square_hit d w h) scale pat x y px py with
      | Some i => reduce 4 (colour_of_row color i)
      | None => pixel b w h 4 px py
      end).
Proof.
  intros plot G b w h x y pat scale ps color o Hin W Hsc Hps Es Ep Ex Hc d.
  assert (K : exists k, plot = kind_fn k plotsquare /\ G = kind_style k /\ (k = KUp \/ k = KDown)).
  { pick Hin; [exists KUp|exists KDown]; auto. }
  destruct K as (k & -> & -> & Hk). exact (pattern_squares4 b w h 4 scale ps color o W Hsc Hps Hc k x y pat Hk Es Ep Ex).
Qed.
(** a pattern that fits is drawn completely and nothing is printed *)
Theorem C62_fits : forall plot G extra b w h bits x y pat scale ps color o,
  In (plot, G, extra) [(plot8bitpattern, upright, 0); (plot8bitpatternupsidedown, upside_down, 0);
    (plotitalic8bitpattern, italic, lead scale (zlen pat));
    (plotreverseditalic8bitpattern, mirrored_italic, lead scale (zlen pat))] ->
  wf b w h bits -> 1 <= scale -> 0 <= ps -> colour_ok bits color -> Forall byte pat ->
  bits <> 4 \/ scale - 1 - ps <= 0 ->
  0 <= x -> x + 8 * scale + extra <= w -> 0 <= y -> y + zlen pat * scale <= h ->
  let d := Z.max 0 (scale - 1 - ps) in
  exists b' val, (forall c, square_value b bits d c (val c)) /\
    plot x y pat scale ps color (mkst b o) = (Ok tt, mkst b' o) /\
    repainted b b' w h bits (fun px py =>
      match G (box_hit d) scale pat x y px py with
      | Some i => val (colour_of_row color i)
      | None => pixel b w h bits px py
      end).
Proof.
  intros plot G extra b w h bits x y pat scale ps color o Hin W Hsc Hps Hc Hp Hb X1 X2 Y1 Y2 d.
  assert (K : exists k, plot = kind_fn k plotsquare /\ G = kind_style k /\ extra = TextProofs6.extra k scale (zlen pat) /\ plain k /\ k <> KMir).
  { unfold plain. pick Hin; [exists KUp|exists KDown|exists KIt|exists KMirIt]; repeat split; try reflexivity; discriminate. }
  destruct K as (k & -> & -> & -> & Pk & Nk).
  destruct (pattern_inside b w h bits scale ps color o W Hsc Hps Hc k x y pat Hb (can_kind k color pat Nk Hp) Pk X1 X2 Y1 Y2) as (b' & E & R).
  exists b', (cellval b bits (scale - 1 - ps)). split; [|split]; auto.
  apply (value_spec b w h bits scale ps W).
Qed.
(** what the styles mean: the colour index is i where bit (i, j) of some column j
    is set and covers the pixel *)
Theorem C62_meaning : forall d w h scale pat x y px py i, 0 <= d < scale ->
  let hit := square_hit d w h in
  (upright hit scale pat x y px py = Some i <->
     exists j, bit_set pat i j = true /\ hit (x + j * scale) (y + i * scale) px py = true) /\
  (upside_down hit scale pat x y px py = Some i <->
     exists j, bit_set (rev pat) i j = true /\ hit (x + j * scale) (y + i * scale) px py = true) /\
  (mirrored hit scale pat x y px py = Some i <->
     exists j, 0 < j /\ bit_set pat i (7 - j) = true /\ hit (x + j * scale) (y + i * scale) px py = true) /\
  (italic hit scale pat x y px py = Some i <->
     exists j, bit_set pat i j = true /\
       hit (x + lead scale (zlen pat) - slant scale y i + j * scale) (y + i * scale) px py = true) /\
  ((exists k, sideways hit scale pat x y px py = Some k /\ k = 8 * i) <->
     exists j, bit_set pat i j = true /\ hit (x + i * scale) (y - j * scale) px py = true).
Proof.
  intros d w h scale pat x y px py i Hd hit.
  assert (Hs : 1 <= scale) by lia.
  assert (B : forall x y px py, hit x y px py = true -> x <= px < x + scale /\ y <= py < y + scale).
  { intros x' y' px' py'. unfold hit, square_hit, in_box. rewrite !andb_true_iff, !Z.leb_le, !Z.ltb_lt. lia. }
  split; [|split; [|split; [|split]]].
  - apply (ink_iff hit (bit_set pat) scale (fun _ => x) y px py i Hs B).
  - apply (ink_iff hit (bit_set (rev pat)) scale (fun _ => x) y px py i Hs B).
  - unfold mirrored. rewrite (ink_iff hit (mirror_bit pat) scale (fun _ => x) y px py i Hs B).
    unfold mirror_bit. split; intros (j & K).
    + rewrite andb_true_iff, Z.ltb_lt in K. exists j. tauto.
    + exists j. rewrite andb_true_iff, Z.ltb_lt. tauto.
  - apply (ink_iff hit (bit_set pat) scale (fun i => x + lead scale (zlen pat) - slant scale y i) y px py i Hs B).
  - rewrite <- (side_iff hit (bit_set pat) scale x (fun _ => y) px py i Hs B). unfold sideways.
    destruct (side_glyph_at hit (bit_set pat) scale x (fun _ => y) px py); split.
    + intros (k & E & ->). split; auto. assert (8 * ((px - x) / scale) = 8 * i) by congruence. lia.
    + intros [_ ->]. eauto.
    + intros (k & E & _). discriminate.
    + intros [E _]. discriminate.
Qed.
(** squares that cross the edge are left out, with a message each *)
Theorem C62_clipping_refuted : exists b w h x y pat scale c px py, wf b w h 24 /\ inside w h px py /\
  upright (box_hit (scale - 1)) scale pat x y px py = Some 0 /\
  pixel (after (plot8bitpattern x y pat scale 0 (One c)) b) w h 24 px py = pixel b w h 24 px py /\
  pixel b w h 24 px py <> c /\
  out (snd (run (plot8bitpattern x y pat scale 0 (One c)) b)) = [Mregionoutofbounds].
Proof.
  exists (blank 4 3 24), 4, 3, (-1), 0, [128], 2, 70000, 0, 0. split; [concrete_wf|]. split; [unfold inside; lia|].
  split; [vm_compute; reflexivity|]. split; [vm_compute; reflexivity|]. split; [vm_compute; discriminate|vm_compute; reflexivity].
Qed.
(** 4-bit squares that do not cover whole bytes are not drawn as squares *)
Theorem C62_four_bit_refuted : exists b w h x y pat scale c px py, wf b w h 4 /\ inside w h px py /\
  upright (box_hit (scale - 1)) scale pat x y px py = Some 0 /\
  pixel (after (plot8bitpattern x y pat scale 0 (One c)) b) w h 4 px py <> c.
Proof.
  exists (blank 6 3 4), 6, 3, 0, 0, [128], 3, 5, 2, 1. split; [concrete_wf|]. split; [unfold inside; lia|].
  split; [vm_compute; reflexivity|vm_compute; discriminate].
Qed.
(** mirrored patterns lose the column of their lowest bit *)
Theorem C62_mirror_refuted : exists b w h pat c, wf b w h 24 /\ bit_set pat 0 7 = true /\
  after (plotrotated8bitpattern 0 0 pat 1 0 c) b = b /\ pixel b w h 24 0 0 <> c.
Proof.
  exists (blank 8 1 24), 8, 1, [1], 255. split; [concrete_wf|]. split; [reflexivity|]. split; [vm_compute; reflexivity|vm_compute; discriminate].
Qed.
(** sideways patterns move eight colours on per row: of two colours only the
    first is used *)
Theorem C62_sideways_colours_refuted : exists b w h pat c1 c2, wf b w h 24 /\ c1 <> c2 /\ bit_set pat 1 0 = true /\
  pixel (after (plot8bitpatternsideway 0 7 pat 1 0 (Many [c1; c2])) b) w h 24 1 7 = c1 /\
  pixel (after (plot8bitpattern 0 0 pat 1 0 (Many [c1; c2])) b) w h 24 0 1 = c2.
Proof.
  exists (blank 2 8 24), 2, 8, [128; 128], 255, 65280. split; [concrete_wf|]. split; [discriminate|]. split; [reflexivity|].
  split; [vm_compute; reflexivity|vm_compute; reflexivity].
Qed.
Example C62_ex : rows (after (plot8bitpattern 1 1 [128; 64] 2 0 (Many [7; 9])) (blank 6 6 24)) 6 6 24 =
  [[0;0;0;0;0;0]; [0;7;7;0;0;0]; [0;7;7;0;0;0]; [0;0;0;9;9;0]; [0;0;0;9;9;0]; [0;0;0;0;0;0]] /\
  rows (after (plotitalic8bitpattern 0 0 [128; 128] 2 0 (One 7)) (blank 5 4 24)) 5 4 24 =
  [[0;0;7;7;0]; [0;0;7;7;0]; [0;7;7;0;0]; [0;7;7;0;0]] /\
  rows (after (plot8bitpatternsideway 0 3 [192] 2 0 (One 7)) (blank 2 6 24)) 2 6 24 =
  [[0;0]; [7;7]; [7;7]; [7;7]; [7;7]; [0;0]].
Proof. split; [vm_compute; reflexivity|]. split; [vm_compute; reflexivity|vm_compute; reflexivity]. Qed.
Print Assumptions C62_patterns.
Print Assumptions C62_mirrored.
Print Assumptions C62_four_bit.
Print Assumptions C62_fits.
Print Assumptions C62_meaning.
Print Assumptions C62_clipping_refuted.
Print Assumptions C62_four_bit_refuted.
Print Assumptions C62_mirror_refuted.
Print Assumptions C62_sideways_colours_refuted.

(** * C63: bit patterns drawn with dots *)
Theorem C63_dots : forall plot G left b w h bits x y pat scale ps color o,
  In (plot, G, left) [(plot8bitpatternasdots, upright, 0); (plot8bitpatternupsidedownasdots, upside_down, 0);
    (plotitalic8bitpatternasdots, italic, 0); (plotreverseditalic8bitpatternasdots, mirrored_italic, 0);
    (plotupsidedownitalic8bitpatternasdots, upside_down_italic, lead scale (zlen pat));
    (plot8bitpatternsidewaywithdots, sideways, 0); (plotitalic8bitpatternsidewayasdots, sideways_italic, 0)] ->
  wf b w h bits -> 1 <= scale -> 0 <= ps -> colour_ok bits color -> Forall byte pat ->
  bits = 8 \/ bits = 24 \/ scale - 1 - ps <= 0 -> -19 + left <= x ->
  let d := Z.max 0 (scale - 1 - ps) in
  exists b', plot x y pat scale ps color (mkst b o) = (Ok tt, mkst b' o) /\
    repainted b b' w h bits (fun px py =>
      match G (dot_hit d) scale pat x y px py with
      | Some i => reduce bits (colour_of_row color i)
      | None => pixel b w h bits px py
      end).
Proof.
  intros plot G left b w h bits x y pat scale ps color o Hin W Hsc Hps Hc Hp Hb Hx d.
  assert (K : exists k, plot = kind_fn k plotcircinsqr /\ G = kind_style k /\ k <> KMir /\
    (if match k with KDownIt => true | _ => false end then -19 + lead scale (zlen pat) <= x else -19 <= x)).
  { pick Hin; [exists KUp|exists KDown|exists KIt|exists KMirIt|exists KDownIt|exists KSide|exists KSideIt];
      (split; [reflexivity|split; [reflexivity|split; [discriminate|cbv iota; lia]]]). }
  destruct K as (k & -> & -> & Nk & Hk).
  exact (pattern_dots b w h bits scale ps color o W Hsc Hps Hc k x y pat Hb (can_kind k color pat Nk Hp) Hk).
Qed.
Theorem C63_mirrored : forall b w h bits x y pat scale ps c o,
  wf b w h bits -> 1 <= scale -> 0 <= ps -> storable bits c -> Forall byte pat ->
  bits = 8 \/ bits = 24 \/ scale - 1 - ps <= 0 -> -19 <= x ->
  let d := Z.max 0 (scale - 1 - ps) in
  exists b', plotrotated8bitpatternasdots x y pat scale ps c (mkst b o) = (Ok tt, mkst b' o) /\
    repainted b b' w h bits (fun px py =>
      match mirrored (dot_hit d) scale pat x y px py with Some _ => reduce bits c | None => pixel b w h bits px py end).
Proof.
  intros b w h bits x y pat scale ps c o W Hsc Hps Hst Hp Hb Hx d.
  apply (pattern_dots b w h bits scale ps (One c) o W Hsc Hps Hst KMir x y pat Hb); [|exact Hx]. split; eauto.
Qed.
(** 8-bit: dots and single pixels take the colour as a palette index, squares
    as a 24-bit colour to be matched *)
Theorem C63_index_refuted : exists b w h c, wf b w h 8 /\
  pixel (after (plot8bitpatternasdots 0 0 [128] 3 0 (One c)) b) w h 8 1 1 = c /\
  pixel (after (plot8bitpattern 0 0 [128] 1 0 (One c)) b) w h 8 0 0 = c /\
  pixel (after (plot8bitpattern 0 0 [128] 3 0 (One c)) b) w h 8 1 1 <> c.
Proof.
  exists (blank 3 3 8), 3, 3, 14. split; [concrete_wf|]. split; [vm_compute; reflexivity|]. split; [vm_compute; reflexivity|].
  vm_compute; discriminate.
Qed.
Example C63_ex : rows (after (plot8bitpatternasdots 0 0 [128; 64] 4 0 (One 7)) (blank 8 8 24)) 8 8 24 =
  [[0;7;0;0;0;0;0;0]; [7;7;7;0;0;0;0;0]; [0;7;0;0;0;0;0;0]; [0;0;0;0;0;0;0;0];
   [0;0;0;0;0;7;0;0]; [0;0;0;0;7;7;7;0]; [0;0;0;0;0;7;0;0]; [0;0;0;0;0;0;0;0]].
Proof. vm_compute; reflexivity. Qed.
Print Assumptions C63_dots.
Print Assumptions C63_mirrored.
Print Assumptions C63_index_refuted.

(** * C64: strings *)
Definition drawn (font text : list Z) : Prop :=
  Forall byte font /\ 0 < zlen font /\ forall c, In c text -> c = 10 \/ c = 9 \/ in_font font c.
Lemma drawn_rev font text : drawn font text -> drawn font (rev text).
Proof. intros (H1 & H2 & H3). split; auto. split; auto. intros c Hc. apply H3. now apply in_rev. Qed.

Lemma gap_ge sp : 0 <= sp -> 1 <= gap sp.
Proof. unfold gap. destruct (Z.eqb_spec sp 0); lia. Qed.

(** left to right: the character in column [col] of line [ln] at
    (x + col * step_x, y + ln * step_y) *)
Theorem C64_across : forall plot order G b w h bits x y text scale ps sp color font o,
  In (plot, order, G) [(plotstring, fun s => s, upright); (plotitalicstring, fun s => s, italic);
    (plotreverseditalicstring, @rev Z, mirrored_italic); (plotstringupsidedown, @rev Z, upside_down);
    (plotupsidedownitalicstring, @rev Z, upside_down_italic)] ->
  wf b w h bits -> 1 <= scale -> 0 <= ps -> colour_ok bits color -> drawn font text ->
  bits <> 4 \/ scale - 1 - ps <= 0 ->
  let d := Z.max 0 (scale - 1 - ps) in
  exists b' n val, (forall c, square_value b bits d c (val c)) /\
    plot x y text scale ps sp color font (mkst b o) = (Ok tt, mkst b' (o ++ repeat Mregionoutofbounds n)) /\
    repainted b b' w h bits (fun px py =>
      text_over (G (square_hit d w h) scale) font
        (fun col _ => x + col * step_x scale sp) (fun _ ln => y + ln * step_y font scale sp)
        (fun i => val (colour_of_row color i)) (order text) (pixel b w h bits px py) px py).
Proof.
  intros plot order G b w h bits x y text scale ps sp color font o Hin W Hsc Hps Hc Hd Hb d.
  pose proof (drawn_rev font text Hd) as (_ & _ & D2). destruct Hd as (F1 & F2 & D1).
  pose proof (value_spec b w h bits scale ps W) as V.
  pick Hin.
  - destruct (text_squares b w h bits scale ps color o W Hsc Hps Hc font text KUp _ _ _ F1 F2 D1 ltac:(discriminate) Hb
      (fun s => plotstringfunc_for x y text scale ps sp color font enumletters plot8bitpattern s F2)) as (b' & n & E & R).
    exists b', n, (cellval b bits (scale - 1 - ps)). auto.
  - destruct (text_squares b w h bits scale ps color o W Hsc Hps Hc font text KIt _ _ _ F1 F2 D1 ltac:(discriminate) Hb
      (fun s => plotstringfunc_for x y text scale ps sp color font enumletters plotitalic8bitpattern s F2)) as (b' & n & E & R).
    exists b', n, (cellval b bits (scale - 1 - ps)). auto.
  - destruct (text_squares b w h bits scale ps color o W Hsc Hps Hc font (rev text) KMirIt _ _ _ F1 F2 D2 ltac:(discriminate) Hb
      (fun s => plotstringfunc_for x y text scale ps sp color font enumreverseletters plotreverseditalic8bitpattern s F2)) as (b' & n & E & R).
    exists b', n, (cellval b bits (scale - 1 - ps)). auto.
  - destruct (text_squares b w h bits scale ps color o W Hsc Hps Hc font (rev text) KDown _ _ _ F1 F2 D2 ltac:(discriminate) Hb
      (fun s => plotstringfunc_for x y text scale ps sp color font enumreverseletters plot8bitpatternupsidedown s F2)) as (b' & n & E & R).
    exists b', n, (cellval b bits (scale - 1 - ps)). auto.
  - destruct (text_squares b w h bits scale ps color o W Hsc Hps Hc font (rev text) KDownIt _ _ _ F1 F2 D2 ltac:(discriminate) Hb
      (fun s => plotstringfunc_for x y text scale ps sp color font enumreverseletters plotupsidedownitalic8bitpattern s F2)) as (b' & n & E & R).
    exists b', n, (cellval b bits (scale - 1 - ps)). auto.
Qed.
Theorem C64_mirrored : forall b w h bits x y text scale ps sp c font o,
  wf b w h bits -> 1 <= scale -> 0 <= ps -> storable bits c -> drawn font text ->
  bits <> 4 \/ scale - 1 - ps <= 0 ->
  let d := Z.max 0 (scale - 1 - ps) in
  exists b' n v, square_value b bits d c v /\
    plotreversestring x y text scale ps sp (One c) font (mkst b o) = (Ok tt, mkst b' (o ++ repeat Mregionoutofbounds n)) /\
    repainted b b' w h bits (fun px py =>
      text_over (mirrored (square_hit d w h) scale) font
        (fun col _ => x + col * step_x scale sp) (fun _ ln => y + ln * step_y font scale sp)
        (fun _ => v) (rev text) (pixel b w h bits px py) px py).
Proof.
  intros b w h bits x y text scale ps sp c font o W Hsc Hps Hst Hd Hb d.
  pose proof (drawn_rev font text Hd) as (F1 & F2 & D2).
  destruct (text_squares b w h bits scale ps (One c) o W Hsc Hps Hst font (rev text) KMir _ _ _ F1 F2 D2 ltac:(eauto) Hb
      (fun s => plotstringfunc_for x y text scale ps sp (One c) font enumreverseletters (intcolour plotrotated8bitpattern) s F2)) as (b' & n & E & R).
  exists b', n, (cellval b bits (scale - 1 - ps) c). split; [apply (value_spec b w h bits scale ps W)|]. split; [exact E|exact R].
Qed.
(** top to bottom, and upwards *)
Theorem C64_down : forall plot G b w h bits x y text scale ps sp color font o,
  In (plot, G) [(plotstringvertical, upright); (plotitalicstringvertical, italic)] ->
  wf b w h bits -> 1 <= scale -> 0 <= ps -> colour_ok bits color -> drawn font text ->
  bits <> 4 \/ scale - 1 - ps <= 0 ->
  let d := Z.max 0 (scale - 1 - ps) in
  exists b' n val, (forall c, square_value b bits d c (val c)) /\
    plot x y text scale ps sp color font (mkst b o) = (Ok tt, mkst b' (o ++ repeat Mregionoutofbounds n)) /\
    repainted b b' w h bits (fun px py =>
      text_over (G (square_hit d w h) scale) font
        (fun _ ln => x + ln * step_x scale sp) (fun col _ => y + col * step_y font scale sp)
        (fun i => val (colour_of_row color i)) text (pixel b w h bits px py) px py).
Proof.
  intros plot G b w h bits x y text scale ps sp color font o Hin W Hsc Hps Hc (F1 & F2 & D1) Hb d.
  pose proof (value_spec b w h bits scale ps W) as V.
  pick Hin.
  - destruct (text_squares b w h bits scale ps color o W Hsc Hps Hc font text KUp _ _ _ F1 F2 D1 ltac:(discriminate) Hb
      (fun s => plotstringvertical_for x y text scale ps sp color font plot8bitpattern s F2)) as (b' & n & E & R).
    exists b', n, (cellval b bits (scale - 1 - ps)). auto.
  - destruct (text_squares b w h bits scale ps color o W Hsc Hps Hc font text KIt _ _ _ F1 F2 D1 ltac:(discriminate) Hb
      (fun s => plotstringvertical_for x y text scale ps sp color font plotitalic8bitpattern s F2)) as (b' & n & E & R).
    exists b', n, (cellval b bits (scale - 1 - ps)). auto.
Qed.
Theorem C64_sideways : forall plot G b w h bits x y text scale ps sp color font o,
  In (plot, G) [(plotstringsideway, sideways); (plotitalicstringsideway, sideways_italic)] ->
  wf b w h bits -> 1 <= scale -> 0 <= ps -> colour_ok bits color -> drawn font text ->
  bits <> 4 \/ scale - 1 - ps <= 0 ->
  let d := Z.max 0 (scale - 1 - ps) in
  exists b' n val, (forall c, square_value b bits d c (val c)) /\
    plot x y text scale ps sp color font (mkst b o) = (Ok tt, mkst b' (o ++ repeat Mregionoutofbounds n)) /\
    repainted b b' w h bits (fun px py =>
      text_over (G (square_hit d w h) scale) font
        (fun _ ln => x + ln * step_y font scale sp) (fun col _ => y - col * step_x scale sp)
        (fun i => val (colour_of_row color i)) text (pixel b w h bits px py) px py).
Proof.
  intros plot G b w h bits x y text scale ps sp color font o Hin W Hsc Hps Hc (F1 & F2 & D1) Hb d.
  pose proof (value_spec b w h bits scale ps W) as V.
  pick Hin.
  - destruct (text_squares b w h bits scale ps color o W Hsc Hps Hc font text KSide _ _ _ F1 F2 D1 ltac:(discriminate) Hb
      (fun s => plotstringsideway_for x y text scale ps sp color font plot8bitpatternsideway s F2)) as (b' & n & E & R).
    exists b', n, (cellval b bits (scale - 1 - ps)). auto.
  - destruct (text_squares b w h bits scale ps color o W Hsc Hps Hc font text KSideIt _ _ _ F1 F2 D1 ltac:(discriminate) Hb
      (fun s => plotstringsideway_for x y text scale ps sp color font plotitalic8bitpatternsideway s F2)) as (b' & n & E & R).
    exists b', n, (cellval b bits (scale - 1 - ps)). auto.
Qed.
(** a text that fits is drawn completely and nothing is printed *)
Theorem C64_fits : forall plot order G extra b w h bits x y text scale ps sp color font o,
  In (plot, order, G, extra) [(plotstring, fun s => s, upright, 0); (plotitalicstring, fun s => s, italic, lead scale (font_height font));
    (plotreverseditalicstring, @rev Z, mirrored_italic, lead scale (font_height font)); (plotstringupsidedown, @rev Z, upside_down, 0)] ->
  wf b w h bits -> 1 <= scale -> 0 <= ps -> 0 <= sp -> colour_ok bits color -> drawn font text ->
  bits <> 4 \/ scale - 1 - ps <= 0 ->
  0 <= x -> x + (text_columns text 0 - 1) * step_x scale sp + 8 * scale + extra <= w ->
  0 <= y -> y + (text_lines text - 1) * step_y font scale sp + font_height font * scale <= h ->
  let d := Z.max 0 (scale - 1 - ps) in
  exists b' val, (forall c, square_value b bits d c (val c)) /\
    plot x y text scale ps sp color font (mkst b o) = (Ok tt, mkst b' o) /\
    repainted b b' w h bits (fun px py =>
      text_over (G (box_hit d) scale) font
        (fun col _ => x + col * step_x scale sp) (fun _ ln => y + ln * step_y font scale sp)
        (fun i => val (colour_of_row color i)) (order text) (pixel b w h bits px py) px py).
Proof.
  intros plot order G extra b w h bits x y text scale ps sp color font o Hin W Hsc Hps Hsp Hc Hd Hb X1 X2 Y1 Y2 d.
  assert (K : exists k ord, plot = (fun x y s scale ps sp color font => plotstringfunc x y s scale ps sp color font ord (kind_fn k plotsquare)) /\
    (ord = enumletters \/ ord = enumreverseletters) /\ order = ord /\ G = kind_style k /\
    extra = TextProofs6.extra k scale (font_height font) /\ plain k /\ k <> KMir).
  { unfold plain. pick Hin; [exists KUp, enumletters|exists KIt, enumletters|exists KMirIt, enumreverseletters|exists KDown, enumreverseletters];
      (split; [reflexivity|]; split; [auto|]; split; [reflexivity|]; split; [reflexivity|]; split; [reflexivity|];
       split; [split; [discriminate|split; discriminate]|discriminate]). }
  destruct K as (k & ord & -> & Ho & -> & -> & -> & Pk & Nk).
  assert (D : drawn font (ord text)) by (destruct Ho as [-> | ->]; [exact Hd|now apply drawn_rev]).
  destruct D as (F1 & F2 & D1). pose proof (height_byte font F1 F2) as HH.
  pose proof (gap_ge sp Hsp) as HG.
  destruct (text_inside b w h bits scale ps color o W Hsc Hps Hc font (ord text) k (fun col _ => x + col * step_x scale sp)
     (fun _ ln => y + ln * step_y font scale sp) (plotstringfunc x y text scale ps sp color font ord (kind_fn k plotsquare))
     F1 F2 D1 ltac:(intros; contradiction) Hb Pk) as (b' & E & R).
  - intros c col ln Hl. destruct (layout_bound _ _ _ _ _ _ Hl ltac:(lia)) as [B1 B2].
    destruct (layout_pos _ _ _ _ _ _ Hl ltac:(lia)) as [B3 B4].
    assert (E1 : text_columns (ord text) 0 = text_columns text 0) by (destruct Ho as [-> | ->]; [reflexivity|apply columns_rev]).
    assert (E2 : text_lines (ord text) = text_lines text) by (destruct Ho as [-> | ->]; [reflexivity|apply lines_rev]).
    rewrite E1 in B1. rewrite E2 in B2.
    assert (Xs : 0 < step_x scale sp) by (unfold step_x; clear - Hsc HG; lia).
    assert (Ys : 0 < step_y font scale sp) by (unfold step_y; clear - HH Hsc HG; nia).
    assert (T1 : 0 <= col * step_x scale sp <= (text_columns text 0 - 1) * step_x scale sp) by (clear - B1 B3 Xs; nia).
    assert (T2 : 0 <= ln * step_y font scale sp <= (text_lines text - 1) * step_y font scale sp) by (clear - B2 B4 Ys; nia).
    clear - T1 T2 X1 X2 Y1 Y2. lia.
  - intros s. now apply plotstringfunc_for.
  - exists b', (cellval b bits (scale - 1 - ps)). split; [apply (value_spec b w h bits scale ps W)|]. auto.
Qed.
Example C64_ex : rows (after (plotstring 0 0 [0; 10; 1] 1 0 1 (One 7) [2; 192; 64; 128; 192]) (blank 4 6 24)) 4 6 24 =
  [[7;7;0;0]; [0;7;0;0]; [0;0;0;0]; [7;0;0;0]; [7;7;0;0]; [0;0;0;0]] /\
  drawn [2; 192; 64; 128; 192] [0; 10; 1] /\ in_font [2; 192; 64; 128; 192] 1.
Proof.
  split; [vm_compute; reflexivity|]. split; [|unfold in_font, font_height, getz; cbn; lia].
  split; [repeat constructor; unfold byte; lia|]. split; [cbn; lia|].
  intros c Hc. unfold in_font. change (zlen _) with 5. change (font_height _) with 2. cbn [In] in Hc. lia.
Qed.
Print Assumptions C64_across.
Print Assumptions C64_mirrored.
Print Assumptions C64_down.
Print Assumptions C64_sideways.
Print Assumptions C64_fits.

(** * C65: strings of dots *)
Theorem C65_across : forall plot order G left b w h bits x y text scale ps sp color font o,
  In (plot, order, G, left) [(plotstringasdots, fun s => s, upright, 0); (plotitalicstringasdots, fun s => s, italic, 0);
    (plotreverseditalicstringasdots, @rev Z, mirrored_italic, 0); (plotstringupsidedownasdots, fun s => s, upside_down, 0);
    (plotupsidedownitalicstringasdots, @rev Z, upside_down_italic, lead scale (font_height font))] ->
  wf b w h bits -> 1 <= scale -> 0 <= ps -> 0 <= sp -> colour_ok bits color -> drawn font text ->
  bits = 8 \/ bits = 24 \/ scale - 1 - ps <= 0 -> -19 + left <= x ->
  let d := Z.max 0 (scale - 1 - ps) in
  exists b', plot x y text scale ps sp color font (mkst b o) = (Ok tt, mkst b' o) /\
    repainted b b' w h bits (fun px py =>
      text_over (G (dot_hit d) scale) font
        (fun col _ => x + col * step_x scale sp) (fun _ ln => y + ln * step_y font scale sp)
        (fun i => reduce bits (colour_of_row color i)) (order text) (pixel b w h bits px py) px py).
Proof.
  intros plot order G left b w h bits x y text scale ps sp color font o Hin W Hsc Hps Hsp Hc Hd Hb Hx d.
  assert (K : exists k ord, plot = (fun x y s scale ps sp color font => plotstringfunc x y s scale ps sp color font ord (kind_fn k plotcircinsqr)) /\
    (ord = enumletters \/ ord = enumreverseletters) /\ order = ord /\ G = kind_style k /\ k <> KMir /\
    (if match k with KDownIt => true | _ => false end then -19 + lead scale (font_height font) <= x else -19 <= x)).
  { pick Hin; [exists KUp, enumletters|exists KIt, enumletters|exists KMirIt, enumreverseletters|exists KDown, enumletters|exists KDownIt, enumreverseletters];
      (split; [reflexivity|]; split; [auto|]; split; [reflexivity|]; split; [reflexivity|]; split; [discriminate|cbv iota; lia]). }
  destruct K as (k & ord & -> & Ho & -> & -> & Nk & Hk).
  assert (D : drawn font (ord text)) by (destruct Ho as [-> | ->]; [exact Hd|now apply drawn_rev]).
  destruct D as (F1 & F2 & D1). pose proof (gap_ge sp Hsp) as HG.
  apply (text_dots b w h bits scale ps color o W Hsc Hps Hc font (ord text) k (fun col _ => x + col * step_x scale sp)
     (fun _ ln => y + ln * step_y font scale sp) (plotstringfunc x y text scale ps sp color font ord (kind_fn k plotcircinsqr))
     F1 F2 D1 ltac:(intros; contradiction) Hb).
  - intros c col ln Hl. destruct (layout_pos _ _ _ _ _ _ Hl ltac:(lia)) as [B3 B4].
    assert (0 <= col * step_x scale sp) by (apply Z.mul_nonneg_nonneg; [exact B3|unfold step_x; clear - Hsc HG; lia]).
    destruct k; cbv iota in *; clear - Hk H; lia.
  - intros s. now apply plotstringfunc_for.
Qed.
Theorem C65_down_and_sideways : forall plot G X Y b w h bits x y text scale ps sp color font o,
  In (plot, G, X, Y)
   [(plotstringverticalasdots, upright, (fun _ ln => x + ln * step_x scale sp), (fun col _ => y + col * step_y font scale sp));
    (plotitalicstringverticalasdots, italic, (fun _ ln => x + ln * step_x scale sp), (fun col _ => y + col * step_y font scale sp));
    (plotstringsidewayasdots, sideways, (fun _ ln => x + ln * step_y font scale sp), (fun col _ => y - col * step_x scale sp));
    (plotitalicstringsidewayasdots, sideways_italic, (fun _ ln => x + ln * step_y font scale sp), (fun col _ => y - col * step_x scale sp))] ->
  wf b w h bits -> 1 <= scale -> 0 <= ps -> 0 <= sp -> colour_ok bits color -> drawn font text ->
  bits = 8 \/ bits = 24 \/ scale - 1 - ps <= 0 -> -19 <= x ->
  let d := Z.max 0 (scale - 1 - ps) in
  exists b', plot x y text scale ps sp color font (mkst b o) = (Ok tt, mkst b' o) /\
    repainted b b' w h bits (fun px py =>
      text_over (G (dot_hit d) scale) font X Y
        (fun i => reduce bits (colour_of_row color i)) text (pixel b w h bits px py) px py).
Proof.
  intros plot G X Y b w h bits x y text scale ps sp color font o Hin W Hsc Hps Hsp Hc (F1 & F2 & D1) Hb Hx d.
  pose proof (gap_ge sp Hsp) as HG. pose proof (height_byte font F1 F2) as HH.
  assert (PX : forall ln, 0 <= ln -> -19 <= x + ln * step_x scale sp).
  { intros ln Hl. assert (0 <= ln * step_x scale sp) by (apply Z.mul_nonneg_nonneg; [exact Hl|unfold step_x; clear - Hsc HG; lia]). lia. }
  assert (PY : forall ln, 0 <= ln -> -19 <= x + ln * step_y font scale sp).
  { intros ln Hl. assert (0 <= ln * step_y font scale sp) by (apply Z.mul_nonneg_nonneg; [exact Hl|unfold step_y; clear - HH Hsc HG; nia]). lia. }
  pick Hin.
  - refine (text_dots b w h bits scale ps color o W Hsc Hps Hc font text KUp _ _ _ F1 F2 D1 ltac:(discriminate) Hb _ (fun s => plotstringvertical_for x y text scale ps sp color font plot8bitpatternasdots s F2)).
    intros c col ln Hl. destruct (layout_pos _ _ _ _ _ _ Hl ltac:(lia)). auto.
  - refine (text_dots b w h bits scale ps color o W Hsc Hps Hc font text KIt _ _ _ F1 F2 D1 ltac:(discriminate) Hb _ (fun s => plotstringvertical_for x y text scale ps sp color font plotitalic8bitpatternasdots s F2)).
    intros c col ln Hl. destruct (layout_pos _ _ _ _ _ _ Hl ltac:(lia)). auto.
  - refine (text_dots b w h bits scale ps color o W Hsc Hps Hc font text KSide _ _ _ F1 F2 D1 ltac:(discriminate) Hb _ (fun s => plotstringsideway_for x y text scale ps sp color font plot8bitpatternsidewaywithdots s F2)).
    intros c col ln Hl. destruct (layout_pos _ _ _ _ _ _ Hl ltac:(lia)). auto.
  - refine (text_dots b w h bits scale ps color o W Hsc Hps Hc font text KSideIt _ _ _ F1 F2 D1 ltac:(discriminate) Hb _ (fun s => plotstringsideway_for x y text scale ps sp color font plotitalic8bitpatternsidewayasdots s F2)).
    intros c col ln Hl. destruct (layout_pos _ _ _ _ _ _ Hl ltac:(lia)). auto.
Qed.
(** upside-down text is set from right to left with squares, but from left to
    right with dots *)
Theorem C65_order_refuted : exists b w h text font, wf b w h 24 /\ drawn font text /\
  after (plotstringupsidedown 0 0 text 1 0 1 (One 7) font) b <> after (plotstringupsidedownasdots 0 0 text 1 0 1 (One 7) font) b.
Proof.
  exists (blank 10 1 24), 10, 1, [0; 1], [1; 128; 64]. split; [concrete_wf|]. split; [|vm_compute; discriminate].
  split; [repeat constructor; unfold byte; lia|]. split; [cbn; lia|].
  intros c Hc. unfold in_font. change (zlen _) with 3. change (font_height _) with 1. cbn [In] in Hc. lia.
Qed.
Example C65_ex : rows (after (plotstringasdots 0 0 [0; 1] 1 0 1 (One 7) [2; 192; 64; 128; 192]) (blank 12 2 24)) 12 2 24 =
  [[7;7;0;0;0;0;0;0;0;7;0;0]; [0;7;0;0;0;0;0;0;0;7;7;0]].
Proof. vm_compute; reflexivity. Qed.
Print Assumptions C65_across.
Print Assumptions C65_down_and_sideways.
Print Assumptions C65_order_refuted.

(** * C66: a character that is not in the font *)
Theorem C66_forward : forall plot x y pre c post scale ps sp color font s s',
  In plot [plotstring; plotitalicstring; plotstringasdots; plotitalicstringasdots; plotstringupsidedownasdots;
    plotstringsideway; plotitalicstringsideway; plotstringsidewayasdots; plotitalicstringsidewayasdots;
    plotstringvertical; plotitalicstringvertical; plotstringverticalasdots; plotitalicstringverticalasdots] ->
  0 < font_height font -> 0 <= c -> c <> 10 -> c <> 9 -> ~ in_font font c ->
  plot x y pre scale ps sp color font s = (Ok tt, s') ->
  plot x y (pre ++ c :: post) scale ps sp color font s = (Err IndexError, s').
Proof.
  intros plot x y pre c post scale ps sp color font s s' Hin Hh Hc N10 N9 N.
  assert (Hz : 0 < zlen font).
  { destruct font as [|a l]; [cbn in Hh; lia|]. rewrite zlen_cons. pose proof (zlen_nonneg l). lia. }
  pick Hin; intros E;
    first [unfold plotstring, plotitalicstring, plotstringasdots, plotitalicstringasdots, plotstringupsidedownasdots in *;
           rewrite plotstringfunc_for in * by exact Hz
          |unfold plotstringsideway, plotitalicstringsideway, plotstringsidewayasdots, plotitalicstringsidewayasdots in *;
           rewrite plotstringsideway_for in * by exact Hz
          |unfold plotstringvertical, plotitalicstringvertical, plotstringverticalasdots, plotitalicstringverticalasdots in *;
           rewrite plotstringvertical_for in * by exact Hz];
    apply missing_stops; auto.
Qed.
Theorem C66_reversed : forall plot x y pre c post scale ps sp color font s s',
  In plot [plotreverseditalicstringasdots; plotreverseditalicstring; plotstringupsidedown; plotupsidedownitalicstring;
    plotupsidedownitalicstringasdots; plotreversestring; plotreversestringasdots] ->
  0 < font_height font -> 0 <= c -> c <> 10 -> c <> 9 -> ~ in_font font c ->
  plot x y post scale ps sp color font s = (Ok tt, s') ->
  plot x y (pre ++ c :: post) scale ps sp color font s = (Err IndexError, s').
Proof.
  intros plot x y pre c post scale ps sp color font s s' Hin Hh Hc N10 N9 N.
  assert (Hz : 0 < zlen font).
  { destruct font as [|a l]; [cbn in Hh; lia|]. rewrite zlen_cons. pose proof (zlen_nonneg l). lia. }
  assert (Er : enumreverseletters (pre ++ c :: post) = rev post ++ c :: rev pre).
  { unfold enumreverseletters. rewrite rev_app_distr. cbn [rev]. now rewrite <- app_assoc. }
  pick Hin; intros E;
    unfold plotreverseditalicstringasdots, plotreverseditalicstring, plotstringupsidedown, plotupsidedownitalicstring,
      plotupsidedownitalicstringasdots, plotreversestring, plotreversestringasdots in *;
    rewrite plotstringfunc_for in * by exact Hz; rewrite Er; apply missing_stops; auto.
Qed.
Example C66_ex : ~ in_font font8x8 8364 /\ 0 < font_height font8x8 /\
  outcome (plotstring 0 0 [65; 8364; 66] 1 0 1 (One 7) font8x8) (blank 9 8 24) = Err IndexError /\
  after (plotstring 0 0 [65; 8364; 66] 1 0 1 (One 7) font8x8) (blank 9 8 24) =
  after (plotstring 0 0 [65] 1 0 1 (One 7) font8x8) (blank 9 8 24) /\
  after (plotstring 0 0 [65] 1 0 1 (One 7) font8x8) (blank 9 8 24) <> blank 9 8 24.
Proof.
  split.
  - unfold in_font. replace (zlen font8x8) with 2049 by (vm_compute; reflexivity).
    replace (font_height font8x8) with 8 by (vm_compute; reflexivity). lia.
  - split; [vm_compute; reflexivity|]. split; [vm_compute; reflexivity|]. split; [vm_compute; reflexivity|vm_compute; discriminate].
Qed.
Print Assumptions C66_forward.
Print Assumptions C66_reversed.

(** * C67: the fonts, and patterns as text *)
Theorem C67_fonts : forall font height, In (font, height)
    [(font8x8, 8); (font8x8thin, 8); (font8x8sanserif, 8); (font8x14, 14); (font8x14thin, 14); (font8x14sanserif, 14)] ->
  font_height font = height /\ Forall byte font /\
  (forall c, in_font font c <-> 0 <= c < 256) /\
  (forall c, 0 <= c < 256 -> getcharfont font c = Ok (glyph font c) /\ zlen (glyph font c) = height) /\
  (forall c, 0 <= c < 256 -> (forall i, 0 <= i < height -> getz (glyph font c) i = 0) <-> (c = 0 \/ c = 32 \/ c = 255)) /\
  (forall c c', 0 <= c < 256 -> 0 <= c' < 256 -> glyph font c = glyph font c' ->
     c = c' \/ ((c = 0 \/ c = 32 \/ c = 255) /\ (c' = 0 \/ c' = 32 \/ c' = 255))).
Proof.
  intros font height Hin. pose proof (fonts_checked font height Hin) as K.
  assert (Hh : 8 <= height) by (pick Hin; lia). destruct (font_facts height font K) as (F1 & F2 & F3 & _).
  split; [exact F1|]. split; [exact F3|]. split; [|split; [|split]].
  - intros c. split; [|intros Hc; apply (font_in height); [lia|exact K|exact Hc]]. unfold in_font. rewrite F1, F2. nia.
  - intros c Hc. split; [apply getcharfont_ok; [lia|apply (font_in height); [lia|exact K|exact Hc]]|].
    unfold glyph. rewrite zlen_map, zlen_range. lia.
  - intros c Hc. apply (font_blank height font ltac:(lia) K c Hc).
  - intros c c' Hc Hc'. apply (font_inj height font ltac:(lia) K c c' Hc Hc').
Qed.
(** the 8x14 sans serif table is shifted by one row: its full block (219) ends
    with an empty row *)
Theorem C67_sanserif_shift_refuted :
  glyph font8x14 219 = repeat 255 14 /\ glyph font8x14sanserif 219 <> repeat 255 14 /\
  getz (glyph font8x14sanserif 219) 13 = 0.
Proof. split; [vm_compute; reflexivity|]. split; [vm_compute; discriminate|vm_compute; reflexivity]. Qed.
(** a pattern printed as text can be read back *)
Theorem C67_astext : forall one zero pat, let t := plot8bitpatternastext pat [one] [zero] in
  zlen t = 9 * zlen pat /\
  (forall i j, 0 <= i < zlen pat -> 0 <= j < 8 -> getz t (9 * i + j) = if bit_set pat i j then one else zero) /\
  (forall i, 0 <= i < zlen pat -> getz t (9 * i + 8) = 10).
Proof. exact astext_spec. Qed.
Example C67_ex : glyph font8x8 65 = [48; 120; 204; 204; 252; 204; 204; 0] /\
  plot8bitpatternastext [130; 1] [42] [45] = [42;45;45;45;45;45;42;45;10; 45;45;45;45;45;45;45;42;10].
Proof. split; [vm_compute; reflexivity|vm_compute; reflexivity]. Qed.
Print Assumptions C67_fonts.
Print Assumptions C67_sanserif_shift_refuted.
Print Assumptions C67_astext.

(** * C68: text images *)
Definition canvas_ground (b : list Z) (bits bg v : Z) : Prop :=
  if 0 <? bg then square_value b bits 1 bg v else v = 0.
Lemma ground_spec b w h bits bg : wf b w h bits -> canvas_ground b bits bg (ground b bits bg).
Proof.
  intros W. unfold canvas_ground, ground. rewrite Z.gtb_ltb. destruct (0 <? bg); [|reflexivity].
  apply (cellval_spec b w h bits 1 bg W).
Qed.
(** squares *)
Lemma squares_file scale ps bits : 1 <= scale -> 0 <= ps -> bits = 1 \/ bits = 8 \/ bits = 24 ->
  forall b w h x y c, wf b w h bits -> storable bits c -> room w h scale x y ->
    draws eq b w h bits (plotcell plotsquare scale (scale - 1 - ps) x y c)
      (fun px py => if box_hit (Z.max 0 (scale - 1 - ps)) x y px py then Some (cellval b bits (scale - 1 - ps) c) else None).
Proof. intros Hsc Hps Hb b w h x y c W Hst Hr. apply squares_inside; auto. left. lia. Qed.
Lemma dots_file scale ps bits : 1 <= scale -> 0 <= ps -> bits = 8 \/ bits = 24 ->
  forall b w h x y c, wf b w h bits -> storable bits c -> room w h scale x y ->
    draws eq b w h bits (plotcell plotcircinsqr scale (scale - 1 - ps) x y c)
      (fun px py => if dot_hit (Z.max 0 (scale - 1 - ps)) x y px py then Some (reduce bits c) else None).
Proof. intros Hsc Hps Hb b w h x y c W Hst Hr. apply dots; auto; [lia|]. unfold room in Hr. lia. Qed.

Theorem C68_across : forall plot order G extra file text scale ps sp color font bg bits Wd,
  In (plot, order, G, extra)
    [(plotstring2file, fun s => s, upright, 0); (plotitalicstring2file, fun s => s, italic, lead scale (font_height font));
     (plotreverseditalicstring2file, @rev Z, mirrored_italic, lead scale (font_height font));
     (plotupsidedownstring2file, @rev Z, upside_down, 0)] ->
  1 <= scale -> 0 <= ps -> 0 <= sp -> drawn font text -> bits = 1 \/ bits = 8 \/ bits = 24 ->
  colour_ok bits color -> storable bits bg ->
  let d := Z.max 0 (scale - 1 - ps) in
  let w := text_columns text 0 * step_x scale sp + 2 * scale + extra in
  let h := text_lines text * step_y font scale sp + 2 * scale in
  w < 2 ^ 24 -> h < 2 ^ 24 ->
  exists b val v0, plot file text scale ps sp color font bg bits Wd = (Ok tt, mkw (fput (files Wd) file b) (con Wd)) /\
    wf b w h bits /\ (bits <> 24 -> exists pal, getdefaultbitpal bits = Ok pal /\ getallRGBpal b = Ok pal) /\
    (forall c, square_value b bits d c (val c)) /\ canvas_ground b bits bg v0 /\
    forall px py, inside w h px py -> pixel b w h bits px py =
      text_over (G (box_hit d) scale) font
        (fun col _ => scale + col * step_x scale sp) (fun _ ln => scale + ln * step_y font scale sp)
        (fun i => val (colour_of_row color i)) (order text) v0 px py.
Proof.
  intros plot order G extra file text scale ps sp color font bg bits Wd Hin Hsc Hps Hsp (F1 & F2 & D1) Hb Hc Hbg d w h Hw Hh.
  assert (K : exists k ord, plot = (fun f s scale ps sp color font bg bits => plotstringfunc2file f s scale ps sp color font ord (kind_fn k plotsquare) (is_italic k) bg bits) /\
    (ord = enumletters \/ ord = enumreverseletters) /\ order = ord /\ G = kind_style k /\
    extra = TextProofs6.extra k scale (font_height font) /\ plain k /\ k <> KMir).
  { unfold plain. clear Hw Hh w h. pick Hin; [exists KUp, enumletters|exists KIt, enumletters|exists KMirIt, enumreverseletters|exists KDown, enumreverseletters];
      (split; [reflexivity|]; split; [auto|]; split; [reflexivity|]; split; [reflexivity|]; split; [reflexivity|];
       split; [split; [discriminate|split; discriminate]|discriminate]). }
  destruct K as (k & ord & -> & Ho & -> & -> & -> & Pk & Nk).
  destruct (across_file file text scale ps sp color font bg bits ord k plotsquare (box_hit d) (fun b => cellval b bits (scale - 1 - ps))
    Hsc Hsp F1 F2 D1 Hb Hc ltac:(intros; contradiction) Hbg Pk Ho (full_box scale ps Hsc Hps) (squares_file scale ps bits Hsc Hps Hb)
    (fun b b' c S => cellval_header b b' bits _ c S) Wd Hw Hh) as (b & E & Wf & Pal & P).
  exists b, (cellval b bits (scale - 1 - ps)), (ground b bits bg).
  split; [exact E|]. split; [exact Wf|]. split; [exact Pal|]. split; [apply (value_spec b _ _ bits scale ps Wf)|].
  split; [exact (ground_spec b _ _ bits bg Wf)|]. exact P.
Qed.
Theorem C68_mirrored : forall file text scale ps sp c font bg bits Wd,
  1 <= scale -> 0 <= ps -> 0 <= sp -> drawn font text -> bits = 1 \/ bits = 8 \/ bits = 24 ->
  storable bits c -> storable bits bg ->
  let d := Z.max 0 (scale - 1 - ps) in
  let w := text_columns text 0 * step_x scale sp + 2 * scale in
  let h := text_lines text * step_y font scale sp + 2 * scale in
  w < 2 ^ 24 -> h < 2 ^ 24 ->
  exists b v v0, plotreversedstring2file file text scale ps sp (One c) font bg bits Wd = (Ok tt, mkw (fput (files Wd) file b) (con Wd)) /\
    wf b w h bits /\ (bits <> 24 -> exists pal, getdefaultbitpal bits = Ok pal /\ getallRGBpal b = Ok pal) /\
    square_value b bits d c v /\ canvas_ground b bits bg v0 /\
    forall px py, inside w h px py -> pixel b w h bits px py =
      text_over (mirrored (box_hit d) scale) font
        (fun col _ => scale + col * step_x scale sp) (fun _ ln => scale + ln * step_y font scale sp)
        (fun _ => v) (rev text) v0 px py.
Proof.
  intros file text scale ps sp c font bg bits Wd Hsc Hps Hsp (F1 & F2 & D1) Hb Hc Hbg d w h Hw Hh.
  assert (Ew : w = text_columns text 0 * step_x scale sp + 2 * scale + extra KMir scale (font_height font)) by (unfold w; cbn [extra]; ring).
  assert (Pk : plain KMir) by (split; [discriminate|split; discriminate]).
  rewrite Ew in *. clear Ew w.
  destruct (across_file file text scale ps sp (One c) font bg bits enumreverseletters KMir plotsquare (box_hit d) (fun b => cellval b bits (scale - 1 - ps))
    Hsc Hsp F1 F2 D1 Hb Hc ltac:(eauto) Hbg Pk ltac:(auto) (full_box scale ps Hsc Hps) (squares_file scale ps bits Hsc Hps Hb)
    (fun b b' c S => cellval_header b b' bits _ c S) Wd Hw Hh) as (b & E & Wf & Pal & P).
  exists b, (cellval b bits (scale - 1 - ps) c), (ground b bits bg).
  split; [exact E|]. split; [exact Wf|]. split; [exact Pal|]. split; [apply (value_spec b _ _ bits scale ps Wf)|].
  split; [exact (ground_spec b _ _ bits bg Wf)|]. exact P.
Qed.
Theorem C68_down : forall plot G extra file text scale ps sp color font bg bits Wd,
  In (plot, G, extra)
    [(plotverticalstring2file, upright, 0); (plotverticalitalicstring2file, italic, lead scale (font_height font))] ->
  1 <= scale -> 0 <= ps -> 0 <= sp -> drawn font text -> bits = 1 \/ bits = 8 \/ bits = 24 ->
  colour_ok bits color -> storable bits bg ->
  let d := Z.max 0 (scale - 1 - ps) in
  let w := text_lines text * step_x scale sp + 2 * scale + extra in
  let h := text_columns text 0 * step_y font scale sp + 2 * scale in
  w < 2 ^ 24 -> h < 2 ^ 24 ->
  exists b val v0, plot file text scale ps sp color font bg bits Wd = (Ok tt, mkw (fput (files Wd) file b) (con Wd)) /\
    wf b w h bits /\ (bits <> 24 -> exists pal, getdefaultbitpal bits = Ok pal /\ getallRGBpal b = Ok pal) /\
    (forall c, square_value b bits d c (val c)) /\ canvas_ground b bits bg v0 /\
    forall px py, inside w h px py -> pixel b w h bits px py =
      text_over (G (box_hit d) scale) font
        (fun _ ln => scale + ln * step_x scale sp) (fun col _ => scale + col * step_y font scale sp)
        (fun i => val (colour_of_row color i)) text v0 px py.
Proof.
  intros plot G extra file text scale ps sp color font bg bits Wd Hin Hsc Hps Hsp (F1 & F2 & D1) Hb Hc Hbg d w h Hw Hh.
  assert (K : exists k, plot = (fun f s scale ps sp color font bg bits => plotstringverticalwithfn2file f s scale ps sp color font enumletters (kind_fn k plotsquare) (is_italic k) bg bits) /\
    G = kind_style k /\ extra = TextProofs6.extra k scale (font_height font) /\ plain k /\ k <> KMir).
  { unfold plain. clear Hw Hh w h. pick Hin; [exists KUp|exists KIt];
      (split; [reflexivity|]; split; [reflexivity|]; split; [reflexivity|];
       split; [split; [discriminate|split; discriminate]|discriminate]). }
  destruct K as (k & -> & -> & -> & Pk & Nk).
  destruct (down_file file text scale ps sp color font bg bits enumletters k plotsquare (box_hit d) (fun b => cellval b bits (scale - 1 - ps))
    Hsc Hsp F1 F2 D1 Hb Hc ltac:(intros; contradiction) Hbg Pk ltac:(auto) (full_box scale ps Hsc Hps) (squares_file scale ps bits Hsc Hps Hb)
    (fun b b' c S => cellval_header b b' bits _ c S) Wd Hw Hh) as (b & E & Wf & Pal & P).
  exists b, (cellval b bits (scale - 1 - ps)), (ground b bits bg).
  split; [exact E|]. split; [exact Wf|]. split; [exact Pal|]. split; [apply (value_spec b _ _ bits scale ps Wf)|].
  split; [exact (ground_spec b _ _ bits bg Wf)|]. exact P.
Qed.
Theorem C68_dots : forall plot order G extra file text scale ps sp color font bg bits Wd,
  In (plot, order, G, extra)
    [(plotstringasdots2file, fun s => s, upright, 0); (plotitalicstringasdots2file, fun s => s, italic, lead scale (font_height font));
     (plotupsidedownstringasdots2file, @rev Z, upside_down, 0)] ->
  1 <= scale -> 0 <= ps -> 0 <= sp -> drawn font text -> bits = 8 \/ bits = 24 ->
  colour_ok bits color -> storable bits bg ->
  let d := Z.max 0 (scale - 1 - ps) in
  let w := text_columns text 0 * step_x scale sp + 2 * scale + extra in
  let h := text_lines text * step_y font scale sp + 2 * scale in
  w < 2 ^ 24 -> h < 2 ^ 24 ->
  exists b v0, plot file text scale ps sp color font bg bits Wd = (Ok tt, mkw (fput (files Wd) file b) (con Wd)) /\
    wf b w h bits /\ (bits <> 24 -> exists pal, getdefaultbitpal bits = Ok pal /\ getallRGBpal b = Ok pal) /\
    canvas_ground b bits bg v0 /\
    forall px py, inside w h px py -> pixel b w h bits px py =
      text_over (G (dot_hit d) scale) font
        (fun col _ => scale + col * step_x scale sp) (fun _ ln => scale + ln * step_y font scale sp)
        (fun i => reduce bits (colour_of_row color i)) (order text) v0 px py.
Proof.
  intros plot order G extra file text scale ps sp color font bg bits Wd Hin Hsc Hps Hsp (F1 & F2 & D1) Hb Hc Hbg d w h Hw Hh.
  assert (K : exists k ord, plot = (fun f s scale ps sp color font bg bits => plotstringfunc2file f s scale ps sp color font ord (kind_fn k plotcircinsqr) (is_italic k) bg bits) /\
    (ord = enumletters \/ ord = enumreverseletters) /\ order = ord /\ G = kind_style k /\
    extra = TextProofs6.extra k scale (font_height font) /\ plain k /\ k <> KMir).
  { unfold plain. clear Hw Hh w h. pick Hin; [exists KUp, enumletters|exists KIt, enumletters|exists KDown, enumreverseletters];
      (split; [reflexivity|]; split; [auto|]; split; [reflexivity|]; split; [reflexivity|]; split; [reflexivity|];
       split; [split; [discriminate|split; discriminate]|discriminate]). }
  destruct K as (k & ord & -> & Ho & -> & -> & -> & Pk & Nk).
  destruct (across_file file text scale ps sp color font bg bits ord k plotcircinsqr (dot_hit d) (fun _ => reduce bits)
    Hsc Hsp F1 F2 D1 ltac:(tauto) Hc ltac:(intros; contradiction) Hbg Pk Ho (dot_box scale ps Hsc Hps) (dots_file scale ps bits Hsc Hps Hb)
    (fun b b' c S => eq_refl) Wd Hw Hh) as (b & E & Wf & Pal & P).
  exists b, (ground b bits bg).
  split; [exact E|]. split; [exact Wf|]. split; [exact Pal|].
  split; [exact (ground_spec b _ _ bits bg Wf)|]. exact P.
Qed.
Theorem C68_mirrored_dots : forall file text scale ps sp c font bg bits Wd,
  1 <= scale -> 0 <= ps -> 0 <= sp -> drawn font text -> bits = 8 \/ bits = 24 ->
  storable bits c -> storable bits bg ->
  let d := Z.max 0 (scale - 1 - ps) in
  let w := text_columns text 0 * step_x scale sp + 2 * scale in
  let h := text_lines text * step_y font scale sp + 2 * scale in
  w < 2 ^ 24 -> h < 2 ^ 24 ->
  exists b v0, plotreversedstringasdots2file file text scale ps sp (One c) font bg bits Wd = (Ok tt, mkw (fput (files Wd) file b) (con Wd)) /\
    wf b w h bits /\ (bits <> 24 -> exists pal, getdefaultbitpal bits = Ok pal /\ getallRGBpal b = Ok pal) /\
    canvas_ground b bits bg v0 /\
    forall px py, inside w h px py -> pixel b w h bits px py =
      text_over (mirrored (dot_hit d) scale) font
        (fun col _ => scale + col * step_x scale sp) (fun _ ln => scale + ln * step_y font scale sp)
        (fun _ => reduce bits c) (rev text) v0 px py.
Proof.
  intros file text scale ps sp c font bg bits Wd Hsc Hps Hsp (F1 & F2 & D1) Hb Hc Hbg d w h Hw Hh.
  assert (Ew : w = text_columns text 0 * step_x scale sp + 2 * scale + extra KMir scale (font_height font)) by (unfold w; cbn [extra]; ring).
  assert (Pk : plain KMir) by (split; [discriminate|split; discriminate]).
  rewrite Ew in *. clear Ew w.
  destruct (across_file file text scale ps sp (One c) font bg bits enumreverseletters KMir plotcircinsqr (dot_hit d) (fun _ => reduce bits)
    Hsc Hsp F1 F2 D1 ltac:(tauto) Hc ltac:(eauto) Hbg Pk ltac:(auto) (dot_box scale ps Hsc Hps) (dots_file scale ps bits Hsc Hps Hb)
    (fun b b' c S => eq_refl) Wd Hw Hh) as (b & E & Wf & Pal & P).
  exists b, (ground b bits bg).
  split; [exact E|]. split; [exact Wf|]. split; [exact Pal|].
  split; [exact (ground_spec b _ _ bits bg Wf)|]. exact P.
Qed.
Theorem C68_down_dots : forall plot G extra file text scale ps sp color font bg bits Wd,
  In (plot, G, extra)
    [(plotverticalstringasdots2file, upright, 0); (plotverticalitalicstringasdots2file, italic, lead scale (font_height font))] ->
  1 <= scale -> 0 <= ps -> 0 <= sp -> drawn font text -> bits = 8 \/ bits = 24 ->
  colour_ok bits color -> storable bits bg ->
  let d := Z.max 0 (scale - 1 - ps) in
  let w := text_lines text * step_x scale sp + 2 * scale + extra in
  let h := text_columns text 0 * step_y font scale sp + 2 * scale in
  w < 2 ^ 24 -> h < 2 ^ 24 ->
  exists b v0, plot file text scale ps sp color font bg bits Wd = (Ok tt, mkw (fput (files Wd) file b) (con Wd)) /\
    wf b w h bits /\ (bits <> 24 -> exists pal, getdefaultbitpal bits = Ok pal /\ getallRGBpal b = Ok pal) /\
    canvas_ground b bits bg v0 /\
    forall px py, inside w h px py -> pixel b w h bits px py =
      text_over (G (dot_hit d) scale) font
        (fun _ ln => scale + ln * step_x scale sp) (fun col _ => scale + col * step_y font scale sp)
        (fun i => reduce bits (colour_of_row color i)) text v0 px py.
Proof.
  intros plot G extra file text scale ps sp color font bg bits Wd Hin Hsc Hps Hsp (F1 & F2 & D1) Hb Hc Hbg d w h Hw Hh.
  assert (K : exists k, plot = (fun f s scale ps sp color font bg bits => plotstringverticalwithfn2file f s scale ps sp color font enumletters (kind_fn k plotcircinsqr) (is_italic k) bg bits) /\
    G = kind_style k /\ extra = TextProofs6.extra k scale (font_height font) /\ plain k /\ k <> KMir).
  { unfold plain. clear Hw Hh w h. pick Hin; [exists KUp|exists KIt];
      (split; [reflexivity|]; split; [reflexivity|]; split; [reflexivity|];
       split; [split; [discriminate|split; discriminate]|discriminate]). }
  destruct K as (k & -> & -> & -> & Pk & Nk).
  destruct (down_file file text scale ps sp color font bg bits enumletters k plotcircinsqr (dot_hit d) (fun _ => reduce bits)
    Hsc Hsp F1 F2 D1 ltac:(tauto) Hc ltac:(intros; contradiction) Hbg Pk ltac:(auto) (dot_box scale ps Hsc Hps) (dots_file scale ps bits Hsc Hps Hb)
    (fun b b' c S => eq_refl) Wd Hw Hh) as (b & E & Wf & Pal & P).
  exists b, (ground b bits bg).
  split; [exact E|]. split; [exact Wf|]. split; [exact Pal|].
  split; [exact (ground_spec b _ _ bits bg Wf)|]. exact P.
Qed.
Example C68_ex :
  match plotstring2file "t.bmp" [1; 9; 1] 1 0 0 (One 7) [1; 128; 128] 3 24 (mkw (fun _ => None) []) with
  | (r, W) => r = Ok tt /\ con W = [] /\
      option_map (fun b => map (fun x => pixel b 56 4 24 x 1) [0; 1; 2; 10; 46; 47]) (files W "t.bmp"%string) = Some [3; 7; 3; 3; 7; 3]
  end.
Proof. vm_compute. split; [reflexivity|]. split; reflexivity. Qed.
Print Assumptions C68_across.
Print Assumptions C68_mirrored.
Print Assumptions C68_down.
Print Assumptions C68_dots.
Print Assumptions C68_mirrored_dots.
Print Assumptions C68_down_dots.
