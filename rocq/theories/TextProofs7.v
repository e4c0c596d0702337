(** Text (proofs): the size of a text, and text images written to a file. *)
From Coq Require Import ZArith List Bool String Lia.
From Verif Require Import PyBase PyFacts Spec SpecText Bmp BmpFacts PixelProofs PlotList HeaderProofs Buffers Region
  Raster Geometry GeomProofs Draw VertProofs DrawProofs DrawProofs2 DrawProofs3 DrawProofs4 MiscProofs Files Text TextProofs
  TextProofs2 TextProofs3 TextProofs4 TextProofs5 TextProofs6.
Import ListNotations.
Open Scope Z_scope.
Open Scope py_scope.
Ltac Zify.zify_post_hook ::= Z.to_euclidean_division_equations.

(** ** lines *)
Definition maxlen (l : list (list Z)) (m : Z) : Z := fold_left (fun m s => Z.max m (zlen s)) l m.
Lemma maxlen_max l : forall m, 0 <= m -> maxlen l m = Z.max m (maxlen l 0).
Proof.
  unfold maxlen. induction l as [|s l IH]; intros m Hm; cbn [fold_left]; [lia|].
  rewrite IH, (IH (Z.max 0 (zlen s))) by lia. pose proof (zlen_nonneg s). lia.
Qed.
Lemma maxlen_cons s l : maxlen (s :: l) 0 = Z.max (zlen s) (maxlen l 0).
Proof. change (maxlen (s :: l) 0) with (maxlen l (Z.max 0 (zlen s))). rewrite maxlen_max by lia. pose proof (zlen_nonneg s). lia. Qed.
Lemma maxlen_nonneg l : 0 <= maxlen l 0.
Proof. pose proof (maxlen_max l 0). lia. Qed.
Lemma maxlen_snoc l s : maxlen (l ++ [s]) 0 = Z.max (maxlen l 0) (zlen s).
Proof. unfold maxlen. now rewrite fold_left_app. Qed.

Lemma split_cons t : exists l0 r, splitlines t = l0 :: r.
Proof.
  induction t as [|c t (l0 & r & E)]; [now exists [], []|]. cbn [splitlines]. rewrite E.
  destruct (c =? 10); eauto.
Qed.
Lemma split_char c t l0 r : c <> 10 -> splitlines t = l0 :: r -> splitlines (c :: t) = (c :: l0) :: r.
Proof. intros N E. cbn [splitlines]. rewrite E. destruct (Z.eqb_spec c 10); [contradiction|reflexivity]. Qed.
Lemma columns_split t : forall col l0 r, 0 <= col -> splitlines (replacetabs t) = l0 :: r ->
  text_columns t col = Z.max (col + zlen l0) (maxlen r 0).
Proof.
  induction t as [|c t IH]; intros col l0 r Hcol E.
  - cbn in E. inversion E; subst. cbn. lia.
  - destruct (split_cons (replacetabs t)) as (l1 & r1 & E1). cbn [text_columns].
    destruct (Z.eqb_spec c 10) as [->|N10].
    + change (replacetabs (10 :: t)) with (10 :: replacetabs t) in E. cbn [splitlines] in E. change (10 =? 10) with true in E. cbv iota in E.
      inversion E; subst. rewrite E1. rewrite maxlen_cons. rewrite (IH 0 l1 r1 ltac:(lia) E1). pose proof (zlen_nonneg l1).
      change (zlen []) with 0. lia.
    + destruct (Z.eqb_spec c 9) as [->|N9].
      * change (replacetabs (9 :: t)) with (32 :: 32 :: 32 :: 32 :: replacetabs t) in E.
        rewrite (split_char 32 _ (32 :: 32 :: 32 :: l1) r1) in E
          by (try lia; repeat (apply split_char; [lia|]); exact E1).
        inversion E; subst. rewrite (IH (col + 4) l1 r ltac:(lia) E1). rewrite !zlen_cons. lia.
      * assert (K : replacetabs (c :: t) = c :: replacetabs t).
        { unfold replacetabs. cbn [flat_map]. destruct (Z.eqb_spec c 9); [contradiction|reflexivity]. }
        rewrite K, (split_char c _ l1 r1) in E by auto. inversion E; subst. rewrite (IH (col + 1) l1 r ltac:(lia) E1). rewrite zlen_cons. lia.
Qed.
Lemma lines_split t : zlen (splitlines (replacetabs t)) = text_lines t.
Proof.
  unfold text_lines. induction t as [|c t IH]; [reflexivity|].
  destruct (split_cons (replacetabs t)) as (l1 & r1 & E1). cbn [filter].
  destruct (Z.eqb_spec c 10) as [->|N10].
  - change (replacetabs (10 :: t)) with (10 :: replacetabs t). cbn [splitlines]. change (10 =? 10) with true. cbv iota.
    rewrite !zlen_cons. lia.
  - replace (10 =? c) with false by (symmetry; apply Z.eqb_neq; lia).
    destruct (Z.eqb_spec c 9) as [->|N9].
    + change (replacetabs (9 :: t)) with (32 :: 32 :: 32 :: 32 :: replacetabs t).
      rewrite (split_char 32 _ (32 :: 32 :: 32 :: l1) r1) by (try lia; repeat (apply split_char; [lia|]); exact E1).
      rewrite <- IH, E1, !zlen_cons. reflexivity.
    + assert (K : replacetabs (c :: t) = c :: replacetabs t).
      { unfold replacetabs. cbn [flat_map]. destruct (Z.eqb_spec c 9); [contradiction|reflexivity]. }
      rewrite K, (split_char c _ l1 r1) by auto. rewrite <- IH, E1, !zlen_cons. reflexivity.
Qed.
Lemma count_spec t : computetextrowandcolcnt t = (text_columns t 0, text_lines t).
Proof.
  unfold computetextrowandcolcnt. rewrite lines_split. f_equal.
  destruct (split_cons (replacetabs t)) as (l0 & r & E). rewrite (columns_split t 0 l0 r ltac:(lia) E).
  rewrite E. fold (maxlen (l0 :: r) 0). rewrite maxlen_cons. reflexivity.
Qed.
(** reversal *)
Lemma split_snoc c t : splitlines (t ++ [c]) =
  if c =? 10 then splitlines t ++ [[]] else removelast (splitlines t) ++ [last (splitlines t) [] ++ [c]].
Proof.
  induction t as [|a t IH].
  - cbn. destruct (c =? 10); reflexivity.
  - cbn [app splitlines]. rewrite IH. destruct (split_cons t) as (l1 & r1 & E). rewrite E.
    destruct (a =? 10), (c =? 10); cbn [app]; try reflexivity.
    destruct r1 as [|l2 r2]; reflexivity.
Qed.
Lemma split_rev t : splitlines (rev t) = rev (map (@rev Z) (splitlines t)).
Proof.
  induction t as [|c t IH]; [reflexivity|]. cbn [rev]. rewrite split_snoc, IH. cbn [splitlines].
  destruct (split_cons t) as (l1 & r1 & E). rewrite E. destruct (c =? 10).
  - reflexivity.
  - cbn [map rev]. rewrite removelast_last, last_last. reflexivity.
Qed.
Lemma tabs_rev t : replacetabs (rev t) = rev (replacetabs t).
Proof.
  induction t as [|c t IH]; [reflexivity|]. cbn [rev]. unfold replacetabs in *. rewrite flat_map_app, IH. cbn [flat_map].
  rewrite app_nil_r, rev_app_distr. destruct (c =? 9); reflexivity.
Qed.
Lemma maxlen_rev l : maxlen (rev (map (@rev Z) l)) 0 = maxlen l 0.
Proof.
  induction l as [|s l IH]; [reflexivity|]. cbn [map rev]. rewrite maxlen_snoc, IH, maxlen_cons, zlen_rev. lia.
Qed.
Lemma columns_maxlen t : text_columns t 0 = maxlen (splitlines (replacetabs t)) 0.
Proof.
  destruct (split_cons (replacetabs t)) as (l0 & r & E). rewrite (columns_split t 0 l0 r ltac:(lia) E), E, maxlen_cons. reflexivity.
Qed.
Lemma columns_rev t : text_columns (rev t) 0 = text_columns t 0.
Proof. now rewrite !columns_maxlen, tabs_rev, split_rev, maxlen_rev. Qed.
Lemma lines_rev t : text_lines (rev t) = text_lines t.
Proof. rewrite <- !lines_split, tabs_rev, split_rev, zlen_rev, zlen_map. reflexivity. Qed.

Lemma columns_ge t : forall col, 0 <= col -> col <= text_columns t col.
Proof.
  induction t as [|c t IH]; intros col H; cbn [text_columns]; [lia|].
  destruct (c =? 10); [lia|]. destruct (c =? 9); [specialize (IH (col + 4))|specialize (IH (col + 1))]; lia.
Qed.
Lemma lines_cons c t : text_lines (c :: t) = (if c =? 10 then 1 else 0) + text_lines t.
Proof.
  unfold text_lines. cbn [filter]. rewrite (Z.eqb_sym 10 c). destruct (c =? 10); rewrite ?zlen_cons; lia.
Qed.
Lemma lines_pos t : 1 <= text_lines t.
Proof. unfold text_lines. pose proof (zlen_nonneg (filter (Z.eqb 10) t)). lia. Qed.
Lemma layout_bound t : forall c col ln col0 ln0, In (c, col, ln) (layout t col0 ln0) -> 0 <= col0 ->
  col < text_columns t col0 /\ ln < ln0 + text_lines t.
Proof.
  induction t as [|a t IH]; intros c col ln col0 ln0; [intros []|]. cbn [layout text_columns]. rewrite lines_cons.
  destruct (Z.eqb_spec a 10); [intros H H0; apply IH in H; lia|].
  destruct (Z.eqb_spec a 9); [intros H H0; apply IH in H; lia|].
  intros [E|H] H0.
  - inversion E; subst. pose proof (columns_ge t (col + 1)). pose proof (lines_pos t). lia.
  - apply IH in H; lia.
Qed.

(** ** the canvas *)
Lemma fill_all b w h bits c o : wf b w h bits -> bits <> 4 -> storable bits c -> 0 < w -> 0 < h ->
  exists b', filledrect 0 0 (w - 1) (h - 1) c (mkst b o) = (Ok (Some tt), mkst b' o) /\
    repainted b b' w h bits (fun _ _ => cellval b bits 1 c).
Proof.
  intros W N4 Hst Hw Hh.
  assert (I1 : inside w h 0 0) by (unfold inside; lia).
  assert (I2 : inside w h (w - 1) (h - 1)) by (unfold inside; lia).
  assert (B : forall px py, inside w h px py -> in_box 0 0 (w - 1) (h - 1) px py = true).
  { intros px py [Hx Hy]. unfold in_box. rewrite !andb_true_iff, !Z.leb_le. lia. }
  unfold cellval. change (0 <? 1) with true. rewrite andb_true_r.
  destruct (wf_depth _ _ _ _ W) as [E|[E|[E|E]]]; [| contradiction | |].
  - assert (E8 : (bits =? 8) = false) by (rewrite E; reflexivity). rewrite E8.
    destruct (rect1 b w h bits 0 0 (w - 1) (h - 1) c W I1 I2 o E) as (b' & E1 & E2).
    exists b'. split; auto. eapply repainted_ext; [|exact E2]. intros px py H. cbn beta. now rewrite B.
  - assert (E8 : (bits =? 8) = true) by (rewrite E; reflexivity). rewrite E8.
    assert (L : zlen (map (pal_entry b) (range 0 256)) = 256) by (rewrite zlen_map; reflexivity).
    assert (V : 0 <= matchRGBtopal false (int2RGB c) (map (pal_entry b) (range 0 256)) < 256).
    { rewrite <- L. apply match_range. unfold zlen in L. apply Nat2Z.inj_lt. rewrite L. reflexivity. }
    destruct (rect8 b w h bits 0 0 (w - 1) (h - 1) c W I1 I2 _ o E eq_refl V) as (b' & E1 & E2).
    exists b'. split; auto. eapply repainted_ext; [|exact E2]. intros px py H. cbn beta. now rewrite B.
  - assert (E8 : (bits =? 8) = false) by (rewrite E; reflexivity). rewrite E8.
    destruct (rect24 b w h bits 0 0 (w - 1) (h - 1) c W I1 I2 o E (Hst E)) as (b' & E1 & E2).
    exists b'. split; auto. eapply repainted_ext; [|exact E2]. intros px py H. cbn beta. rewrite B by auto. now rewrite E.
Qed.
Definition ground (b : list Z) (bits bg : Z) : Z := if bg >? 0 then cellval b bits 1 bg else 0.
Lemma canvas mx my bits bg act f b W : bits <> 4 -> valid_depth bits -> storable bits bg -> 0 < mx -> 0 < my ->
  wf b mx my bits -> (forall i j, inside mx my i j -> pixel b mx my bits i j = 0) ->
  draws eq b mx my bits act f ->
  exists b', callM b ((if bg >? 0 then filledrect 0 0 (mx - 1) (my - 1) bg ;;; ret tt else ret tt) ;;; act) W = (Ok (tt, b'), W) /\
    same_header b b' bits /\ wf b' mx my bits /\
    forall px py, inside mx my px py -> pixel b' mx my bits px py = match f px py with Some v => v | None => ground b bits bg end.
Proof.
  intros N4 Vd Hst Hx Hy Wf Z0 D.
  assert (K : exists b1, (if bg >? 0 then filledrect 0 0 (mx - 1) (my - 1) bg ;;; ret tt else ret tt) (mkst b (con W)) = (Ok tt, mkst b1 (con W)) /\
     repainted b b1 mx my bits (fun _ _ => ground b bits bg)).
  { unfold ground. destruct (bg >? 0).
    - destruct (fill_all b mx my bits bg (con W) Wf N4 Hst Hx Hy) as (b1 & E1 & E2). exists b1. split; auto.
      unfold bind. now rewrite E1.
    - exists b. split; [reflexivity|]. eapply repainted_ext; [|now apply repainted_refl]. intros; cbn beta. now apply Z0. }
  destruct K as (b1 & E1 & P1). destruct (D b1 (con W)) as (b2 & o2 & E2 & <- & P2); [apply P1|apply P1|].
  exists b2. split; [|split; [|split]].
  - unfold callM. unfold bind at 1. rewrite E1, E2. cbn. destruct W; reflexivity.
  - eapply same_header_trans; [apply P1|apply P2].
  - apply P2.
  - intros px py H. rewrite (proj2 (proj2 P2)) by auto. destruct (f px py); auto. now rewrite (proj2 (proj2 P1)).
Qed.
Lemma cellval_header b b' bits inc c : same_header b b' bits -> cellval b' bits inc c = cellval b bits inc c.
Proof.
  intros [_ S]. unfold cellval. destruct ((bits =? 8) && (0 <? inc)) eqn:E; [|reflexivity].
  apply andb_true_iff in E. destruct E as [E _]. apply Z.eqb_eq in E.
  assert (Eo : data_off bits = 1078) by (rewrite E; reflexivity). rewrite Eo in S. f_equal.
  apply map_ext_in. intros i Hi. apply in_range in Hi. unfold pal_entry. now rewrite !S by (clear - Hi; lia).
Qed.

(** what the rendering functions that are used for files have in common *)
Definition plain (k : kind) : Prop := k <> KDownIt /\ k <> KSide /\ k <> KSideIt.
Definition is_italic (k : kind) : bool := match k with KIt | KMirIt => true | _ => false end.
Lemma extra_it k scale n (mx : Z) : 1 <= scale -> plain k ->
  (if is_italic k then (if scale >? 1 then mx + n * Z.shiftr scale 1 else mx + Z.shiftr n 1) else mx) = mx + extra k scale n.
Proof.
  intros Hs (N1 & N2 & N3). rewrite !shiftr1.
  assert (L : (if scale >? 1 then mx + n * (scale / 2) else mx + n / 2) = mx + lead scale n).
  { unfold lead. destruct (Z.eqb_spec scale 1) as [->|E]; [reflexivity|].
    replace (scale >? 1) with true by (symmetry; apply Z.gtb_lt; lia). ring. }
  destruct k; try contradiction; cbn [is_italic extra]; auto; lia.
Qed.

Section File.
  Variables (file : string) (text : list Z) (scale ps sp : Z) (color : colour) (font : list Z) (bg bits : Z).
  Variables (order : list Z -> list Z) (k : kind) (fn : Z -> Z -> Z -> Z -> M unit) (hit : Z -> Z -> Z -> Z -> bool) (val : list Z -> Z -> Z).
  Hypothesis Hsc : 1 <= scale.
  Hypothesis Hps : 0 <= ps.
  Hypothesis Hsp : 0 <= sp.
  Hypothesis Hfont : Forall byte font.
  Hypothesis Hne : 0 < zlen font.
  Hypothesis Htext : forall c, In c text -> c = 10 \/ c = 9 \/ in_font font c.
  Hypothesis Hbits : bits = 1 \/ bits = 8 \/ bits = 24.
  Hypothesis Hcol : colour_ok bits color.
  Hypothesis Hone : k = KMir -> exists c, color = One c.
  Hypothesis Hbg : storable bits bg.
  Hypothesis Hk : plain k.
  Hypothesis Hord : order = enumletters \/ order = enumreverseletters.
  Hypothesis Hbox : forall x y px py, hit x y px py = true -> x <= px < x + scale /\ y <= py < y + scale.
  Hypothesis Hcell : forall b w h x y c, wf b w h bits -> storable bits c -> room w h scale x y ->
    draws eq b w h bits (plotcell fn scale (scale - 1 - ps) x y c)
      (fun px py => if hit x y px py then Some (val b c) else None).
  Hypothesis Hval : forall b b' c, same_header b b' bits -> val b' c = val b c.
  Let H := font_height font.
  Let xs := step_x scale sp.
  Let ys := step_y font scale sp.

  Lemma gap_pos : 1 <= gap sp.
  Proof. unfold gap. destruct (Z.eqb_spec sp 0); lia. Qed.
  Lemma H_nonneg : 0 <= H.
  Proof. now apply height_byte. Qed.

  Lemma file_core mx my X Y W body : 
    0 < mx < 2 ^ 24 -> 0 < my < 2 ^ 24 ->
    (forall c col ln, In (c, col, ln) (layout (order text) 0 0) ->
       0 <= X col ln /\ X col ln + 8 * scale + extra k scale H <= mx /\ 0 <= Y col ln /\ Y col ln + H * scale <= my) ->
    (forall s, body s = forM (layout (order text) 0 0) (act3 (draw_char font (kind_fn k fn) scale ps color X Y)) s) ->
    exists b', (bmp <~ flift (newBMP mx my bits) ;;
       r <~ callM bmp ((if bg >? 0 then filledrect 0 0 (mx - 1) (my - 1) bg ;;; ret tt else ret tt) ;;; body) ;;
       saveBMP file (Some (snd r))) W = (Ok tt, mkw (fput (files W) file b') (con W)) /\
      wf b' mx my bits /\
      (bits <> 24 -> exists pal, getdefaultbitpal bits = Ok pal /\ getallRGBpal b' = Ok pal) /\
      forall px py, inside mx my px py -> pixel b' mx my bits px py =
        text_over (kind_style k hit scale) font X Y (fun i => val b' (colour_of_row color i)) (order text) (ground b' bits bg) px py.
  Proof.
    intros Hx Hy Hroom Hbody.
    assert (Vd : valid_depth bits) by (unfold valid_depth; lia).
    destruct (newBMP_wf mx my bits Vd ltac:(lia) ltac:(lia)) as (b & Eb & Wf & Z0 & Pal & _).
    assert (D : draws eq b mx my bits body (fun px py => over (val b) color (kind_style k hit scale) font X Y px py (layout (order text) 0 0) None)).
    { eapply draws_act; [exact Hbody|].
      apply (string_draws eq b mx my bits (@eq_refl _) eq_trans' scale ps Hsc fn hit (val b) (room mx my scale) Hbox
        (fun x y c Hst Hr => Hcell b mx my x y c Wf Hst Hr) color Hcol k font X Y (order text) H_nonneg).
      intros c col ln Hin. destruct (layout_in _ _ _ _ _ _ Hin) as (Ic & N10 & N9).
      assert (Ic' : In c text). { destruct Hord as [->| ->]; [exact Ic|]. apply in_rev. exact Ic. }
      assert (Fc : in_font font c) by (destruct (Htext c Ic') as [|[|]]; [contradiction|contradiction|assumption]).
      split; [exact Fc|]. pose proof (glyph_bytes font c Hfont Fc H_nonneg) as Fb. split.
      - unfold kind_can. destruct k; auto.
      - intros i j L. destruct Hk as (K1 & K2 & K3).
        assert (EH : zlen (glyph font c) = H).
        { unfold glyph. rewrite zlen_map. rewrite zlen_range. pose proof H_nonneg. fold H. lia. }
        pose proof (kind_extent k (glyph font c) scale (X col ln) (Y col ln) i j Hsc K1 K2 K3 L) as Q. cbv zeta in Q.
        rewrite EH in Q. destruct (Hroom c col ln Hin) as (R1 & R2 & R3 & R4). fold H. unfold room.
        clear - Q R1 R2 R3 R4. lia. }
    destruct (canvas mx my bits bg body _ b W ltac:(lia) Vd Hbg ltac:(lia) ltac:(lia) Wf Z0 D) as (b' & E & Sh & Wf' & P).
    exists b'. split; [|split; [exact Wf'|split]].
    - unfold fbind, flift. rewrite Eb, E. reflexivity.
    - intros N. destruct (Pal N) as (pal & P1 & P2). exists pal. split; auto.
      rewrite <- P2. rewrite (getallRGBpal_ok _ _ _ _ Wf N), (getallRGBpal_ok _ _ _ _ Wf' N). f_equal.
      apply map_ext_in. intros i Hi. apply in_range in Hi. destruct Sh as [_ Sh]. unfold pal_entry.
      assert (Eo : 54 + 4 * 2 ^ bits <= data_off bits) by (destruct Hbits as [-> |[-> | ->]]; [discriminate|discriminate|contradiction]).
      now rewrite !Sh by (clear - Hi Eo; lia).
    - intros px py Hin. rewrite P by auto. rewrite over_text. cbv beta iota. unfold text_over, ground.
      rewrite (cellval_header b b' bits 1 bg Sh).
      assert (EV : forall l v0, fold_left (fun v t => let '(c, col, ln) := t in
          match kind_style k hit scale (glyph font c) (X col ln) (Y col ln) px py with Some i => val b (colour_of_row color i) | None => v end) l v0 =
        fold_left (fun v t => let '(c, col, ln) := t in
          match kind_style k hit scale (glyph font c) (X col ln) (Y col ln) px py with Some i => val b' (colour_of_row color i) | None => v end) l v0).
      { induction l as [|[[c col] ln] l IH]; intros v0; [reflexivity|]. cbn [fold_left]. rewrite IH. f_equal.
        destruct (kind_style k hit scale _ _ _ px py); [|reflexivity]. now rewrite (Hval b b' _ Sh). }
      apply EV.
  Qed.
  Lemma order_columns : text_columns (order text) 0 = text_columns text 0.
  Proof. destruct Hord as [->| ->]; [reflexivity|apply columns_rev]. Qed.
  Lemma order_lines : text_lines (order text) = text_lines text.
  Proof. destruct Hord as [->| ->]; [reflexivity|apply lines_rev]. Qed.
  Lemma extra_nonneg : 0 <= extra k scale H.
  Proof.
    pose proof H_nonneg. unfold extra, lead. assert (0 <= scale / 2) by (clear - Hsc; lia).
    destruct k; try lia; destruct (scale =? 1); try (clear - H0; lia); nia.
  Qed.

  Lemma across_file W : let mx := text_columns text 0 * xs + 2 * scale + extra k scale H in
    let my := text_lines text * ys + 2 * scale in
    mx < 2 ^ 24 -> my < 2 ^ 24 ->
    exists b', plotstringfunc2file file text scale ps sp color font order (kind_fn k fn) (is_italic k) bg bits W
        = (Ok tt, mkw (fput (files W) file b') (con W)) /\
      wf b' mx my bits /\
      (bits <> 24 -> exists pal, getdefaultbitpal bits = Ok pal /\ getallRGBpal b' = Ok pal) /\
      forall px py, inside mx my px py -> pixel b' mx my bits px py =
        text_over (kind_style k hit scale) font (fun col _ => scale + col * xs) (fun _ ln => scale + ln * ys)
          (fun i => val b' (colour_of_row color i)) (order text) (ground b' bits bg) px py.
  Proof.
    intros mx my Hmx Hmy. pose proof gap_pos as G. pose proof H_nonneg as HH. pose proof extra_nonneg as HE.
    pose proof (columns_ge text 0 ltac:(lia)) as HC. pose proof (lines_pos text) as HL.
    assert (Xs : 8 * scale < xs) by (unfold xs, step_x; lia).
    assert (Ys : H * scale < ys) by (unfold ys, step_y; fold H; lia).
    assert (Ys0 : 0 < ys) by nia.
    assert (Mx : 0 < mx) by (unfold mx; clear - HC Xs HE Hsc; nia).
    assert (My : 0 < my) by (unfold my; clear - HL Ys0 Hsc; nia).
    unfold plotstringfunc2file. cbv zeta. rewrite count_spec. fold (gap sp).
    unfold fbind at 1, flift at 1. rewrite py_get_in by lia. fold (font_height font). fold H.
    rewrite !shiftl3. replace (Z.shiftl scale 1) with (2 * scale) by (rewrite Z.shiftl_mul_pow2 by lia; lia).
    change (8 * scale + gap sp) with xs. change (H * scale + gap sp) with ys.
    rewrite extra_it by auto. fold mx. fold my.
    apply file_core; try lia.
    - intros c col ln Hin. destruct (layout_bound _ _ _ _ _ _ Hin ltac:(lia)) as [B1 B2].
      destruct (layout_pos _ _ _ _ _ _ Hin ltac:(lia)) as [B3 B4]. rewrite order_columns in B1. rewrite order_lines in B2.
      assert (T1 : 0 <= col * xs /\ col * xs + xs <= text_columns text 0 * xs) by (clear - B1 B3 Xs Hsc; nia).
      assert (T2 : 0 <= ln * ys /\ ln * ys + ys <= text_lines text * ys) by (clear - B2 B4 Ys0; nia).
      unfold mx, my. clear - T1 T2 Hsc Xs Ys HE. lia.
    - intros s. apply plotchars_for.
  Qed.
  Lemma down_file W : let mx := text_lines text * xs + 2 * scale + extra k scale H in
    let my := text_columns text 0 * ys + 2 * scale in
    mx < 2 ^ 24 -> my < 2 ^ 24 ->
    exists b', plotstringverticalwithfn2file file text scale ps sp color font order (kind_fn k fn) (is_italic k) bg bits W
        = (Ok tt, mkw (fput (files W) file b') (con W)) /\
      wf b' mx my bits /\
      (bits <> 24 -> exists pal, getdefaultbitpal bits = Ok pal /\ getallRGBpal b' = Ok pal) /\
      forall px py, inside mx my px py -> pixel b' mx my bits px py =
        text_over (kind_style k hit scale) font (fun _ ln => scale + ln * xs) (fun col _ => scale + col * ys)
          (fun i => val b' (colour_of_row color i)) (order text) (ground b' bits bg) px py.
  Proof.
    intros mx my Hmx Hmy. pose proof gap_pos as G. pose proof H_nonneg as HH. pose proof extra_nonneg as HE.
    pose proof (columns_ge text 0 ltac:(lia)) as HC. pose proof (lines_pos text) as HL.
    assert (Xs : 8 * scale < xs) by (unfold xs, step_x; lia).
    assert (Ys : H * scale < ys) by (unfold ys, step_y; fold H; lia).
    assert (Ys0 : 0 < ys) by nia.
    assert (Mx : 0 < mx) by (unfold mx; clear - HL Xs HE Hsc; nia).
    assert (My : 0 < my) by (unfold my; clear - HC Ys0 Hsc; nia).
    unfold plotstringverticalwithfn2file. cbv zeta. rewrite count_spec. fold (gap sp).
    unfold fbind at 1, flift at 1. rewrite py_get_in by lia. fold (font_height font). fold H.
    rewrite !shiftl3. replace (Z.shiftl scale 1) with (2 * scale) by (rewrite Z.shiftl_mul_pow2 by lia; lia).
    change (8 * scale + gap sp) with xs. change (H * scale + gap sp) with ys.
    rewrite extra_it by auto. fold mx. fold my.
    apply file_core; try lia.
    - intros c col ln Hin. destruct (layout_bound _ _ _ _ _ _ Hin ltac:(lia)) as [B1 B2].
      destruct (layout_pos _ _ _ _ _ _ Hin ltac:(lia)) as [B3 B4]. rewrite order_columns in B1. rewrite order_lines in B2.
      assert (T1 : 0 <= ln * xs /\ ln * xs + xs <= text_lines text * xs) by (clear - B2 B4 Xs Hsc; nia).
      assert (T2 : 0 <= col * ys /\ col * ys + ys <= text_columns text 0 * ys) by (clear - B1 B3 Ys0; nia).
      unfold mx, my. clear - T1 T2 Hsc Xs Ys HE. lia.
    - intros s. apply plotcharsvertical_for.
  Qed.
End File.
