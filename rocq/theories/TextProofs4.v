(** Drawing of patterns (proofs): the eight styles. *)
From Coq Require Import ZArith List Bool Lia.
From Verif Require Import PyBase PyFacts Spec SpecText Bmp BmpFacts PixelProofs PlotList HeaderProofs Buffers Region
  Raster Geometry GeomProofs Draw VertProofs DrawProofs DrawProofs2 DrawProofs3 DrawProofs4 MiscProofs Text TextProofs
  TextProofs2 TextProofs3.
Import ListNotations.
Open Scope Z_scope.
Open Scope py_scope.
Ltac Zify.zify_post_hook ::= Z.to_euclidean_division_equations.

Lemma testbit_div v k : 0 <= k -> Z.testbit v k = (v / 2 ^ k mod 2 =? 1).
Proof.
  intros Hk. now apply Z.testbit_eqb.
Qed.
Lemma mirror_row pat i j : Forall byte pat -> 0 <= i < zlen pat -> 0 <= j < 8 ->
  Z.testbit (rotatebits (getz pat i)) (7 - j) = (0 <? j) && Z.testbit (getz pat i) j.
Proof.
  intros F Hi Hj. assert (B : 0 <= getz pat i < 256).
  { rewrite Forall_forall in F. assert (K : byte (getz pat i)); [|exact K].
    apply F. rewrite getz_nth by lia. apply nth_In. unfold zlen in *. lia. }
  destruct (rotatebits_spec _ B) as [_ K]. rewrite !testbit_div by lia. rewrite K by lia.
  destruct (Z.eqb_spec (7 - j) 7) as [E|E].
  - replace j with 0 by lia. reflexivity.
  - replace (0 <? j) with true by (symmetry; apply Z.ltb_lt; lia). replace (7 - (7 - j)) with j by lia. reflexivity.
Qed.
Lemma bit_set_rows pat : bit_set pat = (fun i j => (((0 <=? i) && (i <? zlen pat)) && ((0 <=? j) && (j <? 8))) && Z.testbit (getz pat i) (7 - j)).
Proof. reflexivity. Qed.

Section Styles.
  Variables (R : list msg -> list msg -> Prop) (b0 : list Z) (w h bits : Z).
  Hypothesis Rrefl : forall o, R o o.
  Hypothesis Rtrans : forall o1 o2 o3, R o1 o2 -> R o2 o3 -> R o1 o3.
  Variables (scale ps : Z).
  Hypothesis Hsc : 1 <= scale.
  Let inc := scale - 1 - ps.
  Variables (fn : Z -> Z -> Z -> Z -> M unit) (hit : Z -> Z -> Z -> Z -> bool) (val : Z -> Z) (P : Z -> Z -> Prop).
  Hypothesis Hbox : forall x y px py, hit x y px py = true -> x <= px < x + scale /\ y <= py < y + scale.
  Hypothesis Hcell : forall x y c, storable bits c -> P x y ->
    draws R b0 w h bits (plotcell fn scale inc x y c)
      (fun px py => if hit x y px py then Some (val c) else None).

  (** what the function [act] with the style [G] paints *)
  Definition paints (act : M unit) (color : colour) (g : Z -> Z -> option Z) : Prop :=
    draws R b0 w h bits act (fun px py => option_map (fun i => val (colour_of_row color i)) (g px py)).

  Variables (pat : list Z) (color : colour).
  Hypothesis Hc : colour_ok bits color.
  Let Hu := colour_usable bits color Hc.
  Let n := zlen pat.

  Lemma glyph_ext lit lit' ox y px py : (forall i j, lit i j = lit' i j) ->
    glyph_at hit lit scale ox y px py = glyph_at hit lit' scale ox y px py.
  Proof. intros E. unfold glyph_at. now rewrite E. Qed.

  Lemma ink_paints row lit ox y act :
    (forall s, act s = cells fn scale inc n row (fun i j => ox i + j * scale) (fun i _ => y + i * scale) (colour_of_row color) s) ->
    (forall i j, (((0 <=? i) && (i <? n)) && ((0 <=? j) && (j <? 8))) && Z.testbit (row i) (7 - j) = lit i j) ->
    (forall i j, lit i j = true -> P (ox i + j * scale) (y + i * scale)) ->
    paints act color (ink hit lit scale ox y).
  Proof.
    intros E L HP. eapply draws_act; [exact E|].
    eapply draws_ext; [|apply (upright_draws R b0 w h bits Rrefl Rtrans scale ps fn hit val Hbox n row (colour_of_row color))].
    - intros px py _. cbn beta. unfold ink, opt_if. rewrite (glyph_ext _ _ ox y px py L).
      destruct (glyph_at hit lit scale ox y px py); reflexivity.
    - apply zlen_nonneg.
    - intros i j Hi Hj Ht. apply Hcell; [now apply colour_storable|]. apply HP. rewrite <- L.
      rewrite Ht. rewrite !andb_true_iff, !Z.leb_le, !Z.ltb_lt. auto.
  Qed.
  Lemma upright_paints x y :
    (forall i j, bit_set pat i j = true -> P (x + j * scale) (y + i * scale)) ->
    paints (plot8bitpatternwithfn x y pat scale ps color fn) color (upright hit scale pat x y).
  Proof.
    intros HP. apply (ink_paints (getz pat)); auto. intros s. now apply upright_cells.
  Qed.
  Lemma upside_paints x y :
    (forall i j, bit_set (rev pat) i j = true -> P (x + j * scale) (y + i * scale)) ->
    paints (plot8bitpatternupsidedownwithfn x y pat scale ps color fn) color (upside_down hit scale pat x y).
  Proof.
    intros HP. apply (ink_paints (getz (rev pat))); auto; [intros s; now apply upside_cells|].
    intros i j. unfold bit_set. now rewrite zlen_rev.
  Qed.
  Lemma mirror_lit i j : Forall byte pat ->
    (((0 <=? i) && (i <? n)) && ((0 <=? j) && (j <? 8))) && Z.testbit (rotatebits (getz pat i)) (7 - j) = mirror_bit pat i j.
  Proof.
    intros F. unfold mirror_bit, bit_set. fold n.
    destruct (Z.leb_spec 0 i), (Z.ltb_spec i n), (Z.leb_spec 0 j), (Z.ltb_spec j 8); cbn [andb];
      try (rewrite ?andb_false_r; reflexivity).
    - rewrite mirror_row by (auto; unfold n in *; lia). replace (7 - (7 - j)) with j by lia.
      destruct (Z.leb_spec 0 (7 - j)), (Z.ltb_spec (7 - j) 8); try lia. cbn [andb]. try reflexivity.
    - destruct (Z.leb_spec 0 (7 - j)); try lia.
    - replace (0 <? j) with false; [reflexivity|]. symmetry. apply Z.ltb_ge. lia.
    - lia.
  Qed.
  Lemma mirror_paints x y c : color = One c -> Forall byte pat ->
    (forall i j, mirror_bit pat i j = true -> P (x + j * scale) (y + i * scale)) ->
    paints (plotrotated8bitpatternwithfn x y pat scale ps c fn) color (mirrored hit scale pat x y).
  Proof.
    intros E F HP. apply (ink_paints (fun i => rotatebits (getz pat i))); auto.
    - intros s. rewrite E. apply rotated_cells.
    - intros i j. now apply mirror_lit.
  Qed.
  Lemma italic_paints x y :
    (forall i j, bit_set pat i j = true -> P (x + lead scale n - slant scale y i + j * scale) (y + i * scale)) ->
    paints (plotitalic8bitpatternwithfn x y pat scale ps color fn) color (italic hit scale pat x y).
  Proof.
    intros HP. apply (ink_paints (getz pat)); auto. intros s. now apply slanted_cells.
  Qed.
  Lemma mirroritalic_paints x y : Forall byte pat ->
    (forall i j, mirror_bit pat i j = true -> P (x + lead scale n - slant scale y i + j * scale) (y + i * scale)) ->
    paints (plotrotateditalic8bitpatternwithfn x y pat scale ps color fn) color (mirrored_italic hit scale pat x y).
  Proof.
    intros F HP. apply (ink_paints (fun i => rotatebits (getz pat i))); auto.
    - intros s. now apply rotslanted_cells.
    - intros i j. now apply mirror_lit.
  Qed.
  Lemma upitalic_paints x y :
    (forall i j, bit_set (rev pat) i j = true -> P (x - slant scale y i + j * scale) (y + i * scale)) ->
    paints (plotitalic8bitpatternupsidedownwithfn x y pat scale ps color fn) color (upside_down_italic hit scale pat x y).
  Proof.
    intros HP. apply (ink_paints (getz (rev pat))); auto; [intros s; now apply upslanted_cells|].
    intros i j. unfold bit_set. now rewrite zlen_rev.
  Qed.
  Lemma side_paints x y :
    (forall i j, bit_set pat i j = true -> P (x + i * scale) (y - j * scale)) ->
    paints (plot8bitpatternsidewaywithfn x y pat scale ps color fn) color (sideways hit scale pat x y).
  Proof.
    intros HP. eapply draws_act; [intros s; apply side_cells; exact Hu|].
    eapply draws_ext; [|apply (sideways_draws R b0 w h bits Rrefl Rtrans scale ps fn hit val Hbox n (getz pat)
      (fun i => colour_of_row color (8 * i)) (zlen_nonneg pat) x (fun _ => y))].
    - intros px py _. cbn beta. unfold sideways, opt_if. rewrite bit_set_rows. fold n.
      destruct (side_glyph_at hit _ scale x (fun _ => y) px py); reflexivity.
    - intros i j Hi Hj Ht. apply Hcell; [now apply colour_storable|]. apply HP. unfold bit_set. fold n.
      rewrite Ht. rewrite !andb_true_iff, !Z.leb_le, !Z.ltb_lt. auto.
  Qed.
  Lemma sideitalic_paints x y :
    (forall i j, bit_set pat i j = true ->
       P (x + i * scale) (y + (if scale =? 1 then - slant scale x i else slant scale x i) - j * scale)) ->
    paints (plotitalic8bitpatternsidewaywithfn x y pat scale ps color fn) color (sideways_italic hit scale pat x y).
  Proof.
    intros HP. eapply draws_act; [intros s; apply sideslanted_cells; [exact Hu|exact Hsc]|].
    eapply draws_ext; [|apply (sideways_draws R b0 w h bits Rrefl Rtrans scale ps fn hit val Hbox n (getz pat)
      (colour_of_row color) (zlen_nonneg pat) x (fun i => y + sideshift scale x i))].
    - intros px py _. cbn beta. unfold sideways_italic, opt_if. rewrite bit_set_rows. fold n. unfold sideshift.
      destruct (side_glyph_at hit _ scale x _ px py); reflexivity.
    - intros i j Hi Hj Ht. apply Hcell; [now apply colour_storable|]. apply HP. unfold bit_set. fold n.
      rewrite Ht. rewrite !andb_true_iff, !Z.leb_le, !Z.ltb_lt. auto.
  Qed.
End Styles.
