(** Text (proofs): what the styles mean, characters missing from a font, the
    font tables, and patterns as text. *)
From Coq Require Import ZArith List Bool Lia.
From Verif Require Import PyBase PyFacts Spec SpecText Bmp BmpFacts PlotList Text TextProofs TextProofs2 TextProofs3 TextProofs4
  TextProofs5 TextProofs6 Fonts.
Import ListNotations.
Open Scope Z_scope.
Open Scope py_scope.
Ltac Zify.zify_post_hook ::= Z.to_euclidean_division_equations.

(** ** the styles without divisions *)
Lemma ink_iff hit lit scale ox y px py i : 1 <= scale ->
  (forall x y px py, hit x y px py = true -> x <= px < x + scale /\ y <= py < y + scale) ->
  ink hit lit scale ox y px py = Some i <->
  exists j, lit i j = true /\ hit (ox i + j * scale) (y + i * scale) px py = true.
Proof.
  intros Hs Hb. unfold ink, glyph_at. split.
  - destruct (lit _ _ && hit _ _ px py) eqn:E; [|discriminate]. intros K. inversion K; subst.
    apply andb_true_iff in E. eauto.
  - intros (j & L & T). destruct (Hb _ _ _ _ T) as [B1 B2].
    assert (Ei : (py - y) / scale = i).
    { symmetry. apply (Z.div_unique_pos _ _ _ (py - y - i * scale)); [lia|ring]. }
    rewrite Ei. assert (Ej : (px - ox i) / scale = j).
    { symmetry. apply (Z.div_unique_pos _ _ _ (px - ox i - j * scale)); [lia|ring]. }
    now rewrite Ej, L, T.
Qed.
Lemma side_iff hit lit scale x oy px py i : 1 <= scale ->
  (forall x y px py, hit x y px py = true -> x <= px < x + scale /\ y <= py < y + scale) ->
  (side_glyph_at hit lit scale x oy px py = true /\ i = (px - x) / scale) <->
  exists j, lit i j = true /\ hit (x + i * scale) (oy i - j * scale) px py = true.
Proof.
  intros Hs Hb. unfold side_glyph_at. split.
  - intros [E ->]. apply andb_true_iff in E. eauto.
  - intros (j & L & T). destruct (Hb _ _ _ _ T) as [B1 B2].
    assert (Ei : (px - x) / scale = i).
    { symmetry. apply (Z.div_unique_pos _ _ _ (px - x - i * scale)); [lia|ring]. }
    rewrite Ei. assert (Ej : - ((py - oy i) / scale) = j).
    { enough ((py - oy i) / scale = - j) by lia. symmetry. apply (Z.div_unique_pos _ _ _ (py - (oy i - j * scale))); [lia|ring]. }
    now rewrite Ej, L, T.
Qed.

(** ** a character that is not in the font *)
Lemma layout_app pre post : forall col ln,
  exists col' ln', layout (pre ++ post) col ln = layout pre col ln ++ layout post col' ln'.
Proof.
  induction pre as [|a t IH]; intros col ln; [now exists col, ln|]. cbn [app layout].
  destruct (a =? 10); [apply IH|]. destruct (a =? 9); [apply IH|].
  destruct (IH (col + 1) ln) as (c' & l' & E). exists c', l'. now rewrite E.
Qed.
Lemma forM_app {A} (l1 l2 : list A) act (s : st) : forM (l1 ++ l2) act s = (forM l1 act ;;; forM l2 act) s.
Proof.
  unfold forM. rewrite foldM_app. unfold bind. destruct (foldM (fun _ a => act a) tt l1 s) as [[[]|e] s']; auto.
Qed.
Lemma missing_stops font render scale ps color X Y pre c post s s' :
  0 < font_height font -> 0 < zlen font -> 0 <= c -> c <> 10 -> c <> 9 -> ~ in_font font c ->
  forM (layout pre 0 0) (act3 (draw_char font render scale ps color X Y)) s = (Ok tt, s') ->
  forM (layout (pre ++ c :: post) 0 0) (act3 (draw_char font render scale ps color X Y)) s = (Err IndexError, s').
Proof.
  intros Hh Hz Hc N10 N9 N E. destruct (layout_app pre (c :: post) 0 0) as (col & ln & L). rewrite L.
  rewrite forM_app. unfold bind at 1. rewrite E. cbn [layout].
  destruct (Z.eqb_spec c 10); [contradiction|]. destruct (Z.eqb_spec c 9); [contradiction|]. rewrite forM_cons. unfold bind at 1.
  unfold act3 at 1, draw_char at 1, bind, lift. cbn [fst snd].
  rewrite (getcharfont_err font c Hh Hc Hz N). reflexivity.
Qed.

(** ** font tables *)
Fixpoint chunks (n : nat) (h : nat) (l : list Z) : list (list Z) :=
  match n with O => [] | S n' => firstn h l :: chunks n' h (skipn h l) end.
Lemma map_getz_range l a n : 0 <= a -> 0 <= n -> a + n <= zlen l ->
  map (fun i => getz l (a + i)) (range 0 n) = firstn (Z.to_nat n) (skipn (Z.to_nat a) l).
Proof.
  intros Ha Hn Hl.
  assert (Ls : zlen (skipn (Z.to_nat a) l) = zlen l - a) by (unfold zlen in *; rewrite skipn_length; lia).
  assert (Lf : zlen (firstn (Z.to_nat n) (skipn (Z.to_nat a) l)) = n).
  { unfold zlen in *. rewrite firstn_length. lia. }
  apply list_ext.
  - rewrite zlen_map, zlen_range, Lf. lia.
  - intros i Hi. rewrite zlen_map, zlen_range in Hi. rewrite getz_map by (rewrite zlen_range; lia).
    rewrite getz_range, getz_firstn, getz_skipn by lia. f_equal.
Qed.
Lemma skipn_add {A} (l : list A) : forall a b, skipn a (skipn b l) = skipn (a + b) l.
Proof.
  intros a b. revert l. induction b as [|b IH]; intros l; [now rewrite Nat.add_0_r|].
  destruct l as [|x l]; [now rewrite !skipn_nil|]. rewrite Nat.add_succ_r. cbn [skipn]. apply IH.
Qed.
Lemma nth_chunks h : forall n l c, (c < n)%nat -> nth c (chunks n h l) [] = firstn h (skipn (c * h) l).
Proof.
  induction n as [|n IH]; intros l c Hc; [lia|]. cbn [chunks]. destruct c as [|c]; [reflexivity|].
  cbn [nth]. rewrite IH by lia. f_equal. rewrite skipn_add. f_equal. lia.
Qed.
Lemma length_chunks h : forall n l, List.length (chunks n h l) = n.
Proof. induction n as [|n IH]; intros l; cbn; auto. Qed.

Fixpoint same (a b : list Z) : bool :=
  match a, b with [], [] => true | x :: a', y :: b' => (x =? y) && same a' b' | _, _ => false end.
Lemma same_iff a : forall b, same a b = true <-> a = b.
Proof.
  induction a as [|x a IH]; intros [|y b]; cbn [same]; split; try discriminate; auto.
  - rewrite andb_true_iff, Z.eqb_eq, IH. intros [-> ->]. reflexivity.
  - intros E. inversion E; subst. rewrite Z.eqb_refl. apply IH. reflexivity.
Qed.
Definition blank_code (c : Z) : bool := (c =? 0) || (c =? 32) || (c =? 255).
(** every glyph is blank or not as its code says, and differs from the later
    ones unless both are blank *)
Fixpoint table_ok (c : Z) (gs : list (list Z)) : bool :=
  match gs with
  | [] => true
  | g :: t => Bool.eqb (forallb (Z.eqb 0) g) (blank_code c) &&
              (blank_code c || forallb (fun g' => negb (same g g')) t) && table_ok (c + 1) t
  end.
Lemma table_blank gs : forall c k, table_ok c gs = true -> (k < List.length gs)%nat ->
  forallb (Z.eqb 0) (nth k gs []) = blank_code (c + Z.of_nat k).
Proof.
  induction gs as [|g t IH]; intros c k H Hk; [cbn in Hk; lia|]. cbn [table_ok] in H. rewrite !andb_true_iff in H.
  destruct H as [[H1 H2] H3]. destruct k as [|k].
  - cbn [nth]. replace (c + Z.of_nat 0) with c by lia. now apply eqb_prop.
  - cbn [nth]. rewrite (IH (c + 1) k H3) by (cbn in Hk; lia). f_equal. lia.
Qed.
Lemma table_diff gs : forall c k k', table_ok c gs = true -> (k < k' < List.length gs)%nat ->
  blank_code (c + Z.of_nat k) = false -> nth k gs [] <> nth k' gs [].
Proof.
  induction gs as [|g t IH]; intros c k k' H Hk B; [cbn in Hk; lia|]. cbn [table_ok] in H. rewrite !andb_true_iff in H.
  destruct H as [[H1 H2] H3]. destruct k' as [|k']; [lia|]. destruct k as [|k].
  - cbn [nth]. replace (c + Z.of_nat 0) with c in B by lia. rewrite B in H2. cbn [orb] in H2.
    rewrite forallb_forall in H2. intros E. specialize (H2 (nth k' t []) ltac:(apply nth_In; cbn in Hk; lia)).
    apply negb_true_iff in H2. rewrite <- E in H2.
    assert (same g g = true) by now apply same_iff. congruence.
  - cbn [nth]. apply (IH (c + 1) k k' H3); [cbn in Hk; lia|]. rewrite <- B. f_equal. lia.
Qed.
Definition font_ok (h : Z) (font : list Z) : bool :=
  (font_height font =? h) && (zlen font =? 1 + 256 * h) && forallb is_byte font &&
  table_ok 0 (chunks 256 (Z.to_nat h) (tl font)).
Section Font.
  Variables (h : Z) (font : list Z).
  Hypothesis Hh : 0 <= h.
  Hypothesis Hok : font_ok h font = true.
  Lemma font_facts : font_height font = h /\ zlen font = 1 + 256 * h /\ Forall byte font /\
    table_ok 0 (chunks 256 (Z.to_nat h) (tl font)) = true.
  Proof.
    unfold font_ok in Hok. rewrite !andb_true_iff, !Z.eqb_eq in Hok. destruct Hok as [[[H1 H2] H3] H4].
    split; auto. split; auto. split; auto. apply Forall_forall. intros v Hv. rewrite forallb_forall in H3.
    now apply is_byte_iff, H3.
  Qed.
  Lemma font_glyph c : 0 <= c < 256 -> glyph font c = nth (Z.to_nat c) (chunks 256 (Z.to_nat h) (tl font)) [].
  Proof.
    intros Hc. destruct font_facts as (F1 & F2 & F3 & F4). unfold glyph. rewrite F1.
    rewrite map_getz_range by nia. rewrite nth_chunks by lia. f_equal.
    destruct font as [|a l]; [change (zlen []) with 0 in F2; clear - F2 Hh; lia|]. cbn [tl].
    replace (Z.to_nat (1 + c * h)) with (S (Z.to_nat c * Z.to_nat h)) by nia. reflexivity.
  Qed.
  Lemma font_in c : 0 <= c < 256 -> in_font font c.
  Proof. intros Hc. destruct font_facts as (F1 & F2 & _). unfold in_font. rewrite F1, F2. nia. Qed.
  Lemma font_blank c : 0 <= c < 256 -> (forall i, 0 <= i < h -> getz (glyph font c) i = 0) <-> (c = 0 \/ c = 32 \/ c = 255).
  Proof.
    intros Hc. destruct font_facts as (F1 & F2 & F3 & F4).
    pose proof (table_blank _ 0 (Z.to_nat c) F4 ltac:(rewrite length_chunks; lia)) as B. rewrite <- font_glyph in B by auto.
    replace (0 + Z.of_nat (Z.to_nat c)) with c in B by lia.
    assert (L : zlen (glyph font c) = h) by (unfold glyph; rewrite zlen_map, zlen_range; lia).
    assert (E : (forall i, 0 <= i < h -> getz (glyph font c) i = 0) <-> forallb (Z.eqb 0) (glyph font c) = true).
    { rewrite forallb_forall. split.
      - intros K v Hv. apply In_nth with (d := 0) in Hv. destruct Hv as (n & Hn & <-). apply Z.eqb_eq. symmetry.
        unfold zlen in L. specialize (K (Z.of_nat n) ltac:(lia)). rewrite getz_nth in K by lia. now rewrite Nat2Z.id in K.
      - intros K i Hi. symmetry. apply Z.eqb_eq. apply K. rewrite getz_nth by lia. apply nth_In. unfold zlen in L. lia. }
    rewrite E, B. unfold blank_code. rewrite !orb_true_iff, !Z.eqb_eq. tauto.
  Qed.
  Lemma font_inj c c' : 0 <= c < 256 -> 0 <= c' < 256 -> glyph font c = glyph font c' ->
    c = c' \/ ((c = 0 \/ c = 32 \/ c = 255) /\ (c' = 0 \/ c' = 32 \/ c' = 255)).
  Proof.
    intros Hc Hc' E. destruct (Z.eq_dec c c') as [|N]; [auto|right].
    destruct font_facts as (F1 & F2 & F3 & F4).
    assert (K : forall u v, 0 <= u < v -> v < 256 -> glyph font u = glyph font v -> u = 0 \/ u = 32 \/ u = 255).
    { intros u v Hu Hv Euv. destruct (blank_code u) eqn:Bu.
      - unfold blank_code in Bu. rewrite !orb_true_iff, !Z.eqb_eq in Bu. tauto.
      - exfalso. rewrite !font_glyph in Euv by lia. revert Euv. apply (table_diff _ 0 _ _ F4).
        + rewrite length_chunks. lia.
        + now replace (0 + Z.of_nat (Z.to_nat u)) with u by lia. }
    assert (T : forall u v, 0 <= u < 256 -> 0 <= v < 256 -> glyph font u = glyph font v ->
      (u = 0 \/ u = 32 \/ u = 255) -> (v = 0 \/ v = 32 \/ v = 255)).
    { intros u v Hu Hv Euv Bu. apply font_blank; auto. rewrite <- Euv. now apply font_blank. }
    destruct (Z_lt_ge_dec c c').
    - assert (B : c = 0 \/ c = 32 \/ c = 255) by (apply (K c c'); auto; lia). split; [exact B|]. now apply (T c c').
    - assert (B : c' = 0 \/ c' = 32 \/ c' = 255) by (apply (K c' c); auto; lia). split; [now apply (T c' c)|exact B].
  Qed.
End Font.
Lemma fonts_checked : forall font h, In (font, h)
    [(font8x8, 8); (font8x8thin, 8); (font8x8sanserif, 8); (font8x14, 14); (font8x14thin, 14); (font8x14sanserif, 14)] ->
  font_ok h font = true.
Proof.
  intros font h H. cbn [In] in H.
  repeat (destruct H as [H|H]; [inversion H; subst; vm_compute; reflexivity|]). destruct H.
Qed.

(** ** patterns as text *)
Lemma astext_spec one zero pat : let t := plot8bitpatternastext pat [one] [zero] in
  zlen t = 9 * zlen pat /\
  (forall i j, 0 <= i < zlen pat -> 0 <= j < 8 -> getz t (9 * i + j) = if bit_set pat i j then one else zero) /\
  (forall i, 0 <= i < zlen pat -> getz t (9 * i + 8) = 10).
Proof.
  cbv zeta. induction pat as [|v pat (L & P & Q)].
  - split; [reflexivity|]. split; intros; change (zlen []) with 0 in *; lia.
  - set (t := plot8bitpatternastext pat [one] [zero]) in *.
    set (row := flat_map (fun mask => if Z.land mask v >? 0 then [one] else [zero]) [128; 64; 32; 16; 8; 4; 2; 1] ++ [10]).
    change (plot8bitpatternastext (v :: pat) [one] [zero]) with (row ++ t).
    assert (R : forall j, 0 <= j < 8 -> getz row j = if Z.testbit v (7 - j) then one else zero).
    { assert (K : row = map (fun j => if Z.testbit v (7 - j) then one else zero) [0; 1; 2; 3; 4; 5; 6; 7] ++ [10]).
      { unfold row. f_equal. cbn [flat_map map].
        assert (M0 : (Z.land 128 v >? 0) = Z.testbit v (7 - 0)) by exact (mask_bit 0 v ltac:(lia)).
        assert (M1 : (Z.land 64 v >? 0) = Z.testbit v (7 - 1)) by exact (mask_bit 1 v ltac:(lia)).
        assert (M2 : (Z.land 32 v >? 0) = Z.testbit v (7 - 2)) by exact (mask_bit 2 v ltac:(lia)).
        assert (M3 : (Z.land 16 v >? 0) = Z.testbit v (7 - 3)) by exact (mask_bit 3 v ltac:(lia)).
        assert (M4 : (Z.land 8 v >? 0) = Z.testbit v (7 - 4)) by exact (mask_bit 4 v ltac:(lia)).
        assert (M5 : (Z.land 4 v >? 0) = Z.testbit v (7 - 5)) by exact (mask_bit 5 v ltac:(lia)).
        assert (M6 : (Z.land 2 v >? 0) = Z.testbit v (7 - 6)) by exact (mask_bit 6 v ltac:(lia)).
        assert (M7 : (Z.land 1 v >? 0) = Z.testbit v (7 - 7)) by exact (mask_bit 7 v ltac:(lia)).
        rewrite M0, M1, M2, M3, M4, M5, M6, M7.
        repeat match goal with |- context [Z.testbit v ?k] => destruct (Z.testbit v k) end; reflexivity. }
      intros j Hj. rewrite K. assert (E : j = 0 \/ j = 1 \/ j = 2 \/ j = 3 \/ j = 4 \/ j = 5 \/ j = 6 \/ j = 7) by lia.
      destruct E as [-> |[-> |[-> |[-> |[-> |[-> |[-> | ->]]]]]]]; reflexivity. }
    assert (Rl : zlen row = 9).
    { unfold row. cbn [flat_map]. repeat match goal with |- context [Z.land ?m v >? 0] => destruct (Z.land m v >? 0) end; reflexivity. }
    assert (Rn : getz row 8 = 10).
    { unfold row. cbn [flat_map]. repeat match goal with |- context [Z.land ?m v >? 0] => destruct (Z.land m v >? 0) end; reflexivity. }
    rewrite zlen_app, Rl, zlen_cons, L. split; [lia|]. split.
    + intros i j Hi Hj. rewrite getz_app by lia. rewrite Rl. destruct (Z.ltb_spec (9 * i + j) 9).
      * replace i with 0 by lia. rewrite Z.mul_0_r, Z.add_0_l, R by lia. unfold bit_set.
        rewrite zlen_cons. pose proof (zlen_nonneg pat).
        replace (((0 <=? 0) && (0 <? 1 + zlen pat)) && ((0 <=? j) && (j <? 8))) with true; [reflexivity|].
        symmetry. rewrite !andb_true_iff, !Z.leb_le, !Z.ltb_lt. lia.
      * replace (9 * i + j - 9) with (9 * (i - 1) + j) by lia. rewrite P by lia.
        assert (E : bit_set (v :: pat) i j = bit_set pat (i - 1) j).
        { unfold bit_set. rewrite zlen_cons. replace (getz (v :: pat) i) with (getz pat (i - 1)).
          - f_equal. apply eq_true_iff_eq. rewrite !andb_true_iff, !Z.leb_le, !Z.ltb_lt. lia.
          - rewrite !getz_nth by lia. replace (Z.to_nat i) with (S (Z.to_nat (i - 1))) by lia. reflexivity. }
        now rewrite E.
    + intros i Hi. rewrite getz_app by lia. rewrite Rl. destruct (Z.ltb_spec (9 * i + 8) 9).
      * replace i with 0 by lia. exact Rn.
      * replace (9 * i + 8 - 9) with (9 * (i - 1) + 8) by lia. apply Q. lia.
Qed.
