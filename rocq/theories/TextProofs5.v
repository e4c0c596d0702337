(** Text (proofs): strings of characters. *)
From Coq Require Import ZArith List Bool Lia.
From Verif Require Import PyBase PyFacts Spec SpecText Bmp BmpFacts PixelProofs PlotList HeaderProofs Buffers Region
  Raster Geometry GeomProofs Draw VertProofs DrawProofs DrawProofs2 DrawProofs3 DrawProofs4 MiscProofs Text TextProofs
  TextProofs2 TextProofs3 TextProofs4.
Import ListNotations.
Open Scope Z_scope.
Open Scope py_scope.
Ltac Zify.zify_post_hook ::= Z.to_euclidean_division_equations.

(** ** fonts *)
Lemma mapR_ok {A B} (f : A -> res B) (g : A -> B) l : (forall a, In a l -> f a = Ok (g a)) -> mapR f l = Ok (map g l).
Proof.
  induction l as [|a l IH]; intros H; [reflexivity|]. cbn [mapR map]. rewrite (H a (or_introl eq_refl)).
  rewrite IH by (intros; apply H; now right). reflexivity.
Qed.
Lemma range_shift a n : 0 <= n -> range a (a + n) = map (fun i => a + i) (range 0 n).
Proof.
  intros Hn. unfold range. rewrite map_map. replace (Z.to_nat (a + n - a)) with (Z.to_nat (n - 0)) by lia.
  apply map_ext. intros i. lia.
Qed.
Lemma font_nonempty font c : in_font font c -> 0 <= font_height font -> 0 < zlen font.
Proof. intros [H1 H2] Hh. nia. Qed.
Lemma getcharfont_ok font c : 0 <= font_height font -> in_font font c -> getcharfont font c = Ok (glyph font c).
Proof.
  intros Hh Hf. pose proof (font_nonempty font c Hf Hh) as P. unfold getcharfont.
  rewrite py_get_in by lia. cbn [rbind]. cbv zeta. fold (font_height font). set (hh := font_height font) in *.
  rewrite range_shift by auto. destruct Hf as [Hc Hf]. fold hh in Hf.
  rewrite (mapR_ok _ (getz font)).
  - unfold glyph. fold hh. rewrite map_map. f_equal. apply map_ext. intros i. f_equal. lia.
  - intros i Hi. apply in_map_iff in Hi. destruct Hi as (k & <- & Hk). apply in_range in Hk.
    apply py_get_in. nia.
Qed.
Lemma mapR_err {A B} (f : A -> res B) (g : A -> B) e l a : In a l -> (forall a, In a l -> f a = Ok (g a) \/ f a = Err e) ->
  f a = Err e -> mapR f l = Err e.
Proof.
  induction l as [|a' l IH]; intros Hin H E; [destruct Hin|]. cbn [mapR].
  destruct (H a' (or_introl eq_refl)) as [K|K].
  - rewrite K. destruct Hin as [->|Hin]; [congruence|]. rewrite IH; auto. intros; apply H; now right.
  - now rewrite K.
Qed.
Lemma getcharfont_err font c : 0 < font_height font -> 0 <= c -> 0 < zlen font -> ~ in_font font c ->
  getcharfont font c = Err IndexError.
Proof.
  intros Hh Hc P N. unfold getcharfont. rewrite py_get_in by lia. cbn [rbind]. cbv zeta. fold (font_height font). set (hh := font_height font) in *.
  assert (L : zlen font < 1 + (c + 1) * hh) by (unfold in_font in N; fold hh in N; lia).
  assert (O : forall i, zlen font <= i -> py_get font i = Err IndexError).
  { intros i Hi. unfold py_get. cbv zeta. destruct (Z.ltb_spec i 0); [lia|].
    destruct (Z.ltb_spec i (zlen font)); [lia|]. now rewrite andb_false_r. }
  apply (mapR_err _ (getz font) IndexError _ (c * hh + hh)).
  - apply in_range. lia.
  - intros i Hi. apply in_range in Hi. destruct (Z_lt_ge_dec i (zlen font)); [left; apply py_get_in; nia|right; apply O; lia].
  - apply O. lia.
Qed.

(** ** the walk over the characters *)
Section Walk.
  Context {S : Type}.
  Variables (v : Z -> Z -> S) (step : S -> Z -> M S) (act : Z -> Z -> Z -> M unit).
  Hypothesis Hnl : forall col ln s, step (v col ln) 10 s = ret (v 0 (ln + 1)) s.
  Hypothesis Htab : forall col ln s, step (v col ln) 9 s = ret (v (col + 4) ln) s.
  Hypothesis Hch : forall c col ln s, c <> 10 -> c <> 9 ->
    step (v col ln) c s = bind (act c col ln) (fun _ => ret (v (col + 1) ln)) s.
  Definition act3 (t : Z * Z * Z) : M unit := act (fst (fst t)) (snd (fst t)) (snd t).
  Lemma walk text : forall col ln s,
    (foldM step (v col ln) text ;;; ret tt) s = forM (layout text col ln) act3 s.
  Proof.
    induction text as [|c t IH]; intros col ln s; [reflexivity|]. cbn [foldM layout].
    rewrite bind_assoc. destruct (Z.eqb_spec c 10) as [->|N10]; [unfold bind at 1; rewrite Hnl; cbn; apply IH|].
    destruct (Z.eqb_spec c 9) as [->|N9]; [unfold bind at 1; rewrite Htab; cbn; apply IH|].
    rewrite forM_cons. unfold bind at 1. rewrite Hch by auto. unfold act3 at 1. cbn [fst snd]. unfold bind.
    destruct (act c col ln s) as [[[]|e] s']; auto. cbn. apply IH.
  Qed.
End Walk.

Definition draw_char (font : list Z) (render : renderer) (scale ps : Z) (color : colour) (PX PY : Z -> Z -> Z) (c col ln : Z) : M unit :=
  p <- lift (getcharfont font c) ;; render (PX col ln) (PY col ln) p scale ps color.

Lemma ok2 (a a' b b' : Z) (s : st) : a = a' -> b = b' -> (Ok (a, b), s) = (Ok (a', b'), s).
Proof. now intros -> ->. Qed.
Lemma shiftl2 n : Z.shiftl n 2 = 4 * n.
Proof. rewrite Z.shiftl_mul_pow2 by lia. lia. Qed.
Lemma shiftl3 n : Z.shiftl n 3 = 8 * n.
Proof. rewrite Z.shiftl_mul_pow2 by lia. lia. Qed.
Lemma plotchars_for x y text xs ys scale ps color font render s :
  plotchars x x y text xs ys scale ps color font render s =
  forM (layout text 0 0) (act3 (draw_char font render scale ps color (fun col _ => x + col * xs) (fun _ ln => y + ln * ys))) s.
Proof.
  unfold plotchars.
  replace (x, y) with ((fun col ln => (x + col * xs, y + ln * ys)) 0 0) by (cbn; f_equal; lia).
  apply (walk (fun col ln => (x + col * xs, y + ln * ys))).
  - intros. cbn -[Z.mul]. unfold ret. apply ok2; ring.
  - intros. cbn -[Z.mul Z.shiftl]. rewrite shiftl2. unfold ret. apply ok2; ring.
  - intros c col ln s' N1 N2. cbn [fst snd]. destruct (Z.eqb_spec c 10); [contradiction|]. destruct (Z.eqb_spec c 9); [contradiction|].
    unfold draw_char. rewrite bind_assoc. unfold bind. destruct (lift (getcharfont font c) s') as [[p|e] s1]; auto.
    destruct (render _ _ p scale ps color s1) as [[[]|e] s2]; auto. unfold ret. apply ok2; ring.
Qed.
Lemma plotcharsvertical_for x y text xs ys scale ps color font render s :
  plotcharsvertical y x y text xs ys scale ps color font render s =
  forM (layout text 0 0) (act3 (draw_char font render scale ps color (fun _ ln => x + ln * xs) (fun col _ => y + col * ys))) s.
Proof.
  unfold plotcharsvertical.
  replace (x, y) with ((fun col ln => (x + ln * xs, y + col * ys)) 0 0) by (cbn; f_equal; lia).
  apply (walk (fun col ln => (x + ln * xs, y + col * ys))).
  - intros. cbn -[Z.mul]. unfold ret. apply ok2; ring.
  - intros. cbn -[Z.mul Z.shiftl]. rewrite shiftl2. unfold ret. apply ok2; ring.
  - intros c col ln s' N1 N2. cbn [fst snd]. destruct (Z.eqb_spec c 10); [contradiction|]. destruct (Z.eqb_spec c 9); [contradiction|].
    unfold draw_char. rewrite bind_assoc. unfold bind. destruct (lift (getcharfont font c) s') as [[p|e] s1]; auto.
    destruct (render _ _ p scale ps color s1) as [[[]|e] s2]; auto. unfold ret. apply ok2; ring.
Qed.
Lemma head_font {A} font (k : Z -> M A) s : 0 < zlen font -> bind (lift (py_get font 0)) k s = k (font_height font) s.
Proof. intros H. unfold bind, lift. rewrite py_get_in by lia. reflexivity. Qed.
Lemma plotstringfunc_for x y text scale ps sp color font order render s : 0 < zlen font ->
  plotstringfunc x y text scale ps sp color font order render s =
  forM (layout (order text) 0 0) (act3 (draw_char font render scale ps color
    (fun col _ => x + col * step_x scale sp) (fun _ ln => y + ln * step_y font scale sp))) s.
Proof.
  intros H. unfold plotstringfunc. rewrite head_font by auto. rewrite shiftl3. fold (gap sp). apply plotchars_for.
Qed.
Lemma plotstringvertical_for x y text scale ps sp color font render s : 0 < zlen font ->
  plotstringverticalwithfn x y text scale ps sp color font render s =
  forM (layout text 0 0) (act3 (draw_char font render scale ps color
    (fun _ ln => x + ln * step_x scale sp) (fun col _ => y + col * step_y font scale sp))) s.
Proof.
  intros H. unfold plotstringverticalwithfn. rewrite head_font by auto. rewrite shiftl3. fold (gap sp). apply plotcharsvertical_for.
Qed.
Lemma plotstringsideway_for x y text scale ps sp color font render s : 0 < zlen font ->
  plotstringsidewayfn x y text scale ps sp color font render s =
  forM (layout text 0 0) (act3 (draw_char font render scale ps color
    (fun _ ln => x + ln * step_y font scale sp) (fun col _ => y - col * step_x scale sp))) s.
Proof.
  intros H. unfold plotstringsidewayfn. cbv zeta. rewrite head_font by auto. rewrite shiftl3. fold (gap sp).
  change (8 * scale + gap sp) with (step_x scale sp). change (font_height font * scale + gap sp) with (step_y font scale sp).
  set (xs := step_x scale sp). set (ys := step_y font scale sp). unfold enumletters.
  replace (x, y) with ((fun col ln => (x + ln * ys, y - col * xs)) 0 0) by (cbn; f_equal; lia).
  apply (walk (fun col ln => (x + ln * ys, y - col * xs))).
  - intros. cbn -[Z.mul]. unfold ret. apply ok2; ring.
  - intros. cbn -[Z.mul Z.shiftl]. rewrite shiftl2. unfold ret. apply ok2; ring.
  - intros c col ln s' N1 N2. cbn [fst snd]. destruct (Z.eqb_spec c 10); [contradiction|]. destruct (Z.eqb_spec c 9); [contradiction|].
    unfold draw_char. rewrite bind_assoc. unfold bind. destruct (lift (getcharfont font c) s') as [[p|e] s1]; auto.
    destruct (render _ _ p scale ps color s1) as [[[]|e] s2]; auto. unfold ret. apply ok2; ring.
Qed.
