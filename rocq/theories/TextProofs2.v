(** Drawing of patterns (proofs): every pattern function as a loop over the bits
    of the pattern, and the pixels it covers. *)
From Coq Require Import ZArith List Bool Lia.
From Verif Require Import PyBase PyFacts Spec SpecText Bmp BmpFacts PixelProofs PlotList HeaderProofs Buffers Region
  Raster Geometry GeomProofs Draw VertProofs DrawProofs DrawProofs2 DrawProofs3 DrawProofs4 Text TextProofs.
Import ListNotations.
Open Scope Z_scope.
Open Scope py_scope.
Ltac Zify.zify_post_hook ::= Z.to_euclidean_division_equations.

Definition usable (color : colour) : Prop := match color with One _ => True | Many l => l <> [] end.
Definition ind (color : colour) (k : Z) : Z := match color with One _ => 0 | Many l => k mod zlen l end.
Lemma usable_pos l : usable (Many l) -> 0 < zlen l.
Proof.
  intros H. pose proof (zlen_nonneg l). destruct (Z.eq_dec (zlen l) 0) as [E|]; [|lia].
  apply zlen_0_nil in E. contradiction.
Qed.
Lemma rowcolor_ind color k : usable color -> rowcolor color (ind color k) = Ok (colour_of_row color k).
Proof.
  destruct color as [c|l]; intros H; [reflexivity|]. cbn [rowcolor ind colour_of_row].
  apply py_get_in. apply Z.mod_pos_bound. now apply usable_pos.
Qed.
Lemma nextind_ind color k : usable color -> nextind color (ind color k) = ind color (k + 1).
Proof.
  destruct color as [c|l]; intros H; [reflexivity|]. cbn [nextind ind]. pose proof (usable_pos l H) as P.
  set (n := zlen l) in *. clearbody n. rewrite <- (Z.add_mod_idemp_l k 1 n) by lia.
  pose proof (Z.mod_pos_bound k n P) as B. destruct (Z.eqb_spec (k mod n + 1) n) as [E|E].
  - rewrite E. now rewrite Z.mod_same by lia.
  - now rewrite (Z.mod_small (k mod n + 1) n) by lia.
Qed.
Lemma nextind8_ind color k : usable color -> nextind8 color (ind color (8 * k)) = ind color (8 * (k + 1)).
Proof.
  intros H. unfold nextind8. cbn [Nat.iter nat_rect]. unfold Nat.iter. cbn [nat_rect]. rewrite !nextind_ind by auto. f_equal. lia.
Qed.
Lemma ind0 color : ind color 0 = 0.
Proof. destruct color; [reflexivity|]. cbn [ind]. now rewrite Zmod_0_l. Qed.

(** the common shape *)
Definition cells (fn : Z -> Z -> Z -> Z -> M unit) (scale inc n : Z) (row : Z -> Z) (cx cy : Z -> Z -> Z) (col : Z -> Z) : M unit :=
  forM (range 0 n) (fun i => forM (range 0 8) (fun j =>
    if Z.testbit (row i) (7 - j) then plotcell fn scale inc (cx i j) (cy i j) (col i) else ret tt)).

Lemma forM_step {S} (v : Z -> S) (l : list Z) step act :
  (forall k s, 0 <= k < zlen l -> step (v k) (getz l k) s = bind (act k) (fun _ => ret (v (k + 1))) s) ->
  forall s, (foldM step (v 0) l ;;; ret tt) s = forM (range 0 (zlen l)) act s.
Proof.
  intros H s. unfold bind at 1. rewrite (fold_for v l step act H). unfold bind.
  destruct (forM (range 0 (zlen l)) act s) as [[[]|e] s']; auto.
Qed.
Lemma bind_ext {A B} (m m' : M A) (k : A -> M B) s : m s = m' s -> bind m k s = bind m' k s.
Proof. intros E. unfold bind. now rewrite E. Qed.

Lemma lift_colour {B} color k (f : Z -> M B) s : usable color ->
  bind (lift (rowcolor color (ind color k))) f s = f (colour_of_row color k) s.
Proof. intros H. unfold bind, lift. now rewrite rowcolor_ind. Qed.

Section Shapes.
  Variables (fn : Z -> Z -> Z -> Z -> M unit) (pat : list Z) (scale ps : Z) (color : colour).
  Hypothesis Hc : usable color.
  Let inc := scale - 1 - ps.
  Let n := zlen pat.

  Lemma upright_cells x y s :
    plot8bitpatternwithfn x y pat scale ps color fn s =
    cells fn scale inc n (getz pat) (fun _ j => x + j * scale) (fun i _ => y + i * scale) (colour_of_row color) s.
  Proof.
    unfold plot8bitpatternwithfn, cells. fold inc.
    rewrite <- (forM_step (fun k => (y + k * scale, ind color k)) pat (fun v bits =>
      cl <- lift (rowcolor color (snd v)) ;;
      plotrow fn scale inc bits x (fst v) cl ;;;
      ret (fst v + scale, nextind color (snd v)))).
    { rewrite ind0. now replace (y + 0 * scale) with y by lia. }
    intros k s' Hk. cbn [fst snd]. rewrite lift_colour, nextind_ind by auto.
    replace (y + (k + 1) * scale) with (y + k * scale + scale) by ring. apply bind_ext. apply plotrow_for.
  Qed.
  Lemma upside_cells x y s :
    plot8bitpatternupsidedownwithfn x y pat scale ps color fn s =
    cells fn scale inc n (getz (rev pat)) (fun _ j => x + j * scale) (fun i _ => y + i * scale) (colour_of_row color) s.
  Proof.
    unfold plot8bitpatternupsidedownwithfn, cells. fold inc. unfold n. rewrite <- zlen_rev.
    rewrite <- (forM_step (fun k => (y + k * scale, ind color k)) (rev pat) (fun v bits =>
      cl <- lift (rowcolor color (snd v)) ;;
      plotrow fn scale inc bits x (fst v) cl ;;;
      ret (fst v + scale, nextind color (snd v)))).
    { rewrite ind0. now replace (y + 0 * scale) with y by lia. }
    intros k s' Hk. cbn [fst snd]. rewrite lift_colour, nextind_ind by auto.
    replace (y + (k + 1) * scale) with (y + k * scale + scale) by ring. apply bind_ext. apply plotrow_for.
  Qed.
  Lemma side_cells x y s :
    plot8bitpatternsidewaywithfn x y pat scale ps color fn s =
    cells fn scale inc n (getz pat) (fun i _ => x + i * scale) (fun _ j => y - j * scale) (fun i => colour_of_row color (8 * i)) s.
  Proof.
    unfold plot8bitpatternsidewaywithfn, cells. fold inc.
    rewrite <- (forM_step (fun k => (x + k * scale, ind color (8 * k))) pat (fun v bits =>
      cl <- lift (rowcolor color (snd v)) ;;
      plotcolumn fn scale inc bits (fst v) y cl ;;;
      ret (fst v + scale, nextind8 color (snd v)))).
    { rewrite ind0. now replace (x + 0 * scale) with x by lia. }
    intros k s' Hk. cbn [fst snd]. rewrite lift_colour, nextind8_ind by auto.
    replace (x + (k + 1) * scale) with (x + k * scale + scale) by ring. apply bind_ext. apply plotcolumn_for.
  Qed.
  Lemma rotated_cells x y c s :
    plotrotated8bitpatternwithfn x y pat scale ps c fn s =
    cells fn scale inc n (fun i => rotatebits (getz pat i)) (fun _ j => x + j * scale) (fun i _ => y + i * scale) (fun _ => c) s.
  Proof.
    unfold plotrotated8bitpatternwithfn, cells. fold inc.
    rewrite <- (forM_step (fun k => y + k * scale) pat (fun y bits =>
      plotrow fn scale inc (rotatebits bits) x y c ;;; ret (y + scale))).
    { now replace (y + 0 * scale) with y by lia. }
    intros k s' Hk.
    replace (y + (k + 1) * scale) with (y + k * scale + scale) by ring. apply bind_ext. apply plotrow_for.
  Qed.

  (** the running shift of slanted patterns *)
  Hypothesis Hs : 1 <= scale.
  Lemma slant_step y k : 0 <= k ->
    (if ((y + k * scale + scale) mod 2 =? 0) && (scale =? 1) then Z.shiftr scale 1 + 1 else Z.shiftr scale 1) =
    slant scale y (k + 1) - slant scale y k.
  Proof.
    intros Hk. unfold slant. rewrite shiftr1. destruct (Z.eqb_spec scale 1) as [->|N].
    - rewrite andb_true_r. change (1 / 2) with 0. rewrite Z.mul_1_r, Z.add_assoc.
      clear. destruct (Z.eqb_spec ((y + k + 1) mod 2) 0); lia.
    - rewrite andb_false_r. ring.
  Qed.
  Lemma slant_0 y : slant scale y 0 = 0.
  Proof. unfold slant. destruct (scale =? 1); rewrite ?Z.add_0_r; lia. Qed.
  Lemma italic_cells (rw : Z -> Z) x y s l : zlen l = n ->
    (foldM (fun v bits =>
      let '(x, y, colorind) := v in
      cl <- lift (rowcolor color colorind) ;;
      plotrow fn scale inc (rw bits) x y cl ;;;
      let y := y + scale in
      let x := x - Z.shiftr scale 1 in
      let x := if (y mod 2 =? 0) && (scale =? 1) then x - 1 else x in
      ret (x, y, nextind color colorind)) (x, y, 0) l ;;; ret tt) s =
    cells fn scale inc n (fun i => rw (getz l i)) (fun i j => x - slant scale y i + j * scale) (fun i _ => y + i * scale)
      (colour_of_row color) s.
  Proof.
    intros L. unfold cells. rewrite <- L.
    rewrite <- (forM_step (fun k => (x - slant scale y k, y + k * scale, ind color k)) l (fun v bits =>
      let '(x, y, colorind) := v in
      cl <- lift (rowcolor color colorind) ;;
      plotrow fn scale inc (rw bits) x y cl ;;;
      let y := y + scale in
      let x := x - Z.shiftr scale 1 in
      let x := if (y mod 2 =? 0) && (scale =? 1) then x - 1 else x in
      ret (x, y, nextind color colorind))).
    { rewrite ind0, slant_0. replace (y + 0 * scale) with y by lia. now rewrite Z.sub_0_r. }
    intros k s' Hk. rewrite lift_colour by auto. cbv zeta. rewrite nextind_ind by auto.
    pose proof (slant_step y k (proj1 Hk)) as K.
    replace (if ((y + k * scale + scale) mod 2 =? 0) && (scale =? 1) then x - slant scale y k - Z.shiftr scale 1 - 1
             else x - slant scale y k - Z.shiftr scale 1) with (x - slant scale y (k + 1)).
    2: { destruct (((y + k * scale + scale) mod 2 =? 0) && (scale =? 1)); lia. }
    replace (y + (k + 1) * scale) with (y + k * scale + scale) by ring.
    apply bind_ext. apply plotrow_for.
  Qed.
  Lemma lead_eq x : (if scale >? 1 then x + Z.shiftr scale 1 * zlen pat else x + Z.shiftr (zlen pat) 1) = x + lead scale n.
  Proof.
    unfold lead, n. rewrite !shiftr1. rewrite Z.gtb_ltb. destruct (Z.eqb_spec scale 1) as [->|]; [reflexivity|].
    destruct (Z.ltb_spec 1 scale); [reflexivity|lia].
  Qed.
  Lemma slanted_cells x y s :
    plotitalic8bitpatternwithfn x y pat scale ps color fn s =
    cells fn scale inc n (getz pat) (fun i j => x + lead scale n - slant scale y i + j * scale) (fun i _ => y + i * scale)
      (colour_of_row color) s.
  Proof.
    unfold plotitalic8bitpatternwithfn. fold inc. rewrite lead_eq. now apply (italic_cells (fun b => b)).
  Qed.
  Lemma rotslanted_cells x y s :
    plotrotateditalic8bitpatternwithfn x y pat scale ps color fn s =
    cells fn scale inc n (fun i => rotatebits (getz pat i)) (fun i j => x + lead scale n - slant scale y i + j * scale)
      (fun i _ => y + i * scale) (colour_of_row color) s.
  Proof.
    unfold plotrotateditalic8bitpatternwithfn. fold inc. rewrite lead_eq. now apply (italic_cells rotatebits).
  Qed.
  Lemma upslanted_cells x y s :
    plotitalic8bitpatternupsidedownwithfn x y pat scale ps color fn s =
    cells fn scale inc n (getz (rev pat)) (fun i j => x - slant scale y i + j * scale)
      (fun i _ => y + i * scale) (colour_of_row color) s.
  Proof.
    unfold plotitalic8bitpatternupsidedownwithfn. fold inc.
    apply (italic_cells (fun b => b)). unfold n. apply zlen_rev.
  Qed.
  (** sideways: at scale 1 the shift is upwards, otherwise downwards *)
  Definition sideshift (x i : Z) : Z := if scale =? 1 then - slant scale x i else slant scale x i.
  Lemma sideslanted_cells x y s :
    plotitalic8bitpatternsidewaywithfn x y pat scale ps color fn s =
    cells fn scale inc n (getz pat) (fun i _ => x + i * scale) (fun i j => y + sideshift x i - j * scale) (colour_of_row color) s.
  Proof.
    unfold plotitalic8bitpatternsidewaywithfn, cells. fold inc.
    rewrite <- (forM_step (fun k => (x + k * scale, y + sideshift x k, ind color k)) pat (fun v bits =>
      let '(x, y, colorind) := v in
      cl <- lift (rowcolor color colorind) ;;
      plotcolumn fn scale inc bits x y cl ;;;
      let x := x + scale in
      let y := y + Z.shiftr scale 1 in
      let y := if (x mod 2 =? 0) && (scale =? 1) then y - 1 else y in
      ret (x, y, nextind color colorind))).
    { assert (E : sideshift x 0 = 0) by (unfold sideshift; rewrite slant_0; destruct (scale =? 1); reflexivity).
      rewrite ind0, E. replace (x + 0 * scale) with x by lia. now rewrite Z.add_0_r. }
    intros k s' Hk. rewrite lift_colour by auto. cbv zeta. rewrite nextind_ind by auto.
    replace (if ((x + k * scale + scale) mod 2 =? 0) && (scale =? 1) then y + sideshift x k + Z.shiftr scale 1 - 1
             else y + sideshift x k + Z.shiftr scale 1) with (y + sideshift x (k + 1)).
    2: { pose proof (slant_step x k (proj1 Hk)) as K. unfold sideshift in *. destruct (Z.eqb_spec scale 1) as [E|E].
         - rewrite E in *. change (Z.shiftr 1 1) with 0 in *. cbn [Z.eqb Pos.eqb] in *.
           destruct (((x + k * 1 + 1) mod 2 =? 0) && true); lia.
         - rewrite andb_false_r in *. lia. }
    replace (x + (k + 1) * scale) with (x + k * scale + scale) by ring.
    apply bind_ext. apply plotcolumn_for.
  Qed.
End Shapes.
