(** Drawing of patterns (proofs): the squares and discs, and the pixels the
    pattern functions cover. *)
From Coq Require Import ZArith List Bool Lia.
From Verif Require Import PyBase PyFacts Spec SpecText Bmp BmpFacts PixelProofs PlotList HeaderProofs Buffers Region
  Raster Geometry GeomProofs Draw VertProofs DrawProofs DrawProofs2 DrawProofs3 DrawProofs4 MiscProofs Text TextProofs TextProofs2.
Import ListNotations.
Open Scope Z_scope.
Open Scope py_scope.
Ltac Zify.zify_post_hook ::= Z.to_euclidean_division_equations.

Lemma match_range rgb pal : (0 < length pal)%nat -> 0 <= matchRGBtopal false rgb pal < zlen pal.
Proof.
  intros H. unfold matchRGBtopal.
  destruct (pal_nearest_spec false rgb pal eq_refl 0 0 (442 * 442)) as [[E _]|(k & p & A1 & A2 & _)].
  - rewrite E. unfold zlen. lia.
  - rewrite A2. assert (k < length pal)%nat by (apply nth_error_Some; congruence). unfold zlen. lia.
Qed.

(** the value stored for a colour *)
Definition cellval (b0 : list Z) (bits inc c : Z) : Z :=
  if (bits =? 8) && (0 <? inc) then matchRGBtopal false (int2RGB c) (map (pal_entry b0) (range 0 256))
  else reduce bits c.

Section Cell.
  Variables (R : list msg -> list msg -> Prop) (b0 : list Z) (w h bits : Z).
  Hypothesis Rrefl : forall o, R o o.
  Variables (scale ps x y c : Z).
  Hypothesis Hps : 0 <= ps.
  Hypothesis Hst : storable bits c.
  Let inc := scale - 1 - ps.
  Let d := Z.max 0 inc.

  Lemma pixel_draws hit : inc <= 0 ->
    (forall px py, inside w h px py -> hit px py = (px =? x) && (py =? y)) ->
    draws R b0 w h bits (plotxybit x y c) (fun px py => if hit px py then Some (reduce bits c) else None).
  Proof.
    intros Hi Hh b o W S. destruct (plot_any b w h bits o x y c W Hst) as (b' & E & P).
    exists b', o. split; auto. split; auto. eapply repainted_ext; [|exact P].
    intros px py Hin. unfold put_px. cbn beta. rewrite Hh by auto. destruct ((px =? x) && (py =? y)); reflexivity.
  Qed.
  Definition whole : Prop := 0 <= x /\ x + d < w /\ 0 <= y /\ y + d < h.

  Lemma square_draws : (bits <> 4 \/ inc <= 0 \/ (x mod 2 = 0 /\ inc mod 2 = 1)) ->
    (whole \/ forall o, R o (o ++ [Mregionoutofbounds])) ->
    draws R b0 w h bits (plotcell plotsquare scale inc x y c)
      (fun px py => if square_hit d w h x y px py then Some (cellval b0 bits inc c) else None).
  Proof.
    intros H4 HR. unfold plotcell, cellval.
    destruct (Z_le_gt_dec inc 0) as [L|G].
    - replace ((scale =? 1) || (inc <=? 0)) with true
        by (symmetry; apply orb_true_iff; right; apply Z.leb_le; exact L).
      replace (0 <? inc) with false by (symmetry; apply Z.ltb_ge; exact L). rewrite andb_false_r.
      apply pixel_draws; auto. intros px py [Hx Hy]. unfold square_hit, in_box, d.
      rewrite Z.max_l by exact L. rewrite !Z.add_0_r, !Z.min_id, !Z.max_id. clear - Hx Hy. apply eq_true_iff_eq.
      rewrite !andb_true_iff, !Z.leb_le, !Z.ltb_lt, !Z.eqb_eq. lia.
    - assert (N1 : scale <> 1) by (unfold inc in G; clear - G Hps; lia).
      replace ((scale =? 1) || (inc <=? 0)) with false
        by (symmetry; apply orb_false_iff; split; [now apply Z.eqb_neq|apply Z.leb_gt; clear - G; lia]).
      replace (0 <? inc) with true by (symmetry; apply Z.ltb_lt; clear - G; lia). rewrite andb_true_r.
      assert (Ed : d = inc) by (unfold d; clear - G; lia).
      intros b o W S. unfold plotsquare.
      destruct (((0 <=? x) && (x + inc <? w)) && ((0 <=? y) && (y + inc <? h))) eqn:Ew.
      + rewrite !andb_true_iff, !Z.leb_le, !Z.ltb_lt in Ew. destruct Ew as [[X1 X2] [Y1 Y2]].
        assert (I1 : inside w h x y) by (unfold inside; clear - G X1 X2 Y1 Y2; lia).
        assert (I2 : inside w h (x + inc) (y + inc)) by (unfold inside; clear - G X1 X2 Y1 Y2; lia).
        assert (K : exists b', filledrect x y (x + inc) (y + inc) c (mkst b o) = (Ok (Some tt), mkst b' o) /\
          repainted b b' w h bits (fun px py => if in_box x y (x + inc) (y + inc) px py then
            (if bits =? 8 then matchRGBtopal false (int2RGB c) (map (pal_entry b0) (range 0 256)) else reduce bits c)
            else pixel b w h bits px py)).
        { destruct (wf_depth _ _ _ _ W) as [E|[E|[E|E]]].
          - replace (bits =? 8) with false by (rewrite E; reflexivity). apply rect1; auto.
          - replace (bits =? 8) with false by (rewrite E; reflexivity). destruct H4 as [H4|[H4|[H4 H4']]]; [lia|lia|].
            apply rect4; auto; clear - H4 H4' G; lia.
          - replace (bits =? 8) with true by (rewrite E; reflexivity).
            assert (Ep : map (pal_entry b) (range 0 256) = map (pal_entry b0) (range 0 256)).
            { apply map_ext_in. intros i Hi. apply in_range in Hi. destruct S as [_ S].
              assert (Eo : data_off bits = 1078) by (rewrite E; reflexivity). rewrite Eo in S.
              unfold pal_entry. now rewrite !S by (clear - Hi; lia). }
            apply rect8; auto; [now rewrite Ep|].
            assert (L : zlen (map (pal_entry b0) (range 0 256)) = 256) by (rewrite zlen_map; reflexivity).
            rewrite <- L. apply match_range. unfold zlen in L. apply Nat2Z.inj_lt. rewrite L. reflexivity.
          - assert (E8 : (bits =? 8) = false) by (rewrite E; reflexivity). rewrite E8.
            destruct (rect24 b w h bits x y (x + inc) (y + inc) c W I1 I2 o E (Hst E)) as (b' & E1 & E2).
            exists b'. split; auto. eapply repainted_ext; [|exact E2]. intros; cbn beta. now rewrite E. }
        destruct K as (b' & E1 & E2). exists b', o. split; [unfold bind; now rewrite E1|]. split; auto.
        eapply repainted_ext; [|exact E2]. intros px py _. cbn beta. unfold square_hit. rewrite Ed.
        replace (((0 <=? x) && (x + inc <? w)) && ((0 <=? y) && (y + inc <? h))) with true.
        * rewrite andb_true_r. destruct (in_box x y (x + inc) (y + inc) px py); reflexivity.
        * symmetry. rewrite !andb_true_iff, !Z.leb_le, !Z.ltb_lt. auto.
      + assert (NW : ~ (0 <= x /\ x + inc < w /\ 0 <= y /\ y + inc < h)).
        { apply not_true_iff_false in Ew. rewrite !andb_true_iff, !Z.leb_le, !Z.ltb_lt in Ew. tauto. }
        assert (NI : ~ (inside w h x y /\ inside w h (x + inc) (y + inc))).
        { unfold inside. clear - NW G. lia. }
        exists b, (o ++ [Mregionoutofbounds]). split; [|split].
        * unfold bind, filledrect. rewrite (bind_ok _ _ _ _ _ (run_rd _ _ _ _ (wf_ry _ _ _ _ W))).
          unfold filledrect_fuel. now rewrite (guard_false _ w h bits).
        * destruct HR as [HR|HR]; auto. exfalso. unfold whole in HR. rewrite Ed in HR. tauto.
        * eapply repainted_ext; [|now apply repainted_refl]. intros px py _. cbn beta. unfold square_hit. rewrite Ed.
          rewrite Ew. now rewrite andb_false_r.
  Qed.

  Lemma dot_draws : (bits = 1 /\ (forall o o', R o o')) \/ (bits = 8 /\ -1079 <= x) \/ (bits = 24 /\ -19 <= x) \/ inc <= 0 ->
    draws R b0 w h bits (plotcell plotcircinsqr scale inc x y c)
      (fun px py => if dot_hit d x y px py then Some (reduce bits c) else None).
  Proof.
    intros Hb. unfold plotcell.
    destruct (Z_le_gt_dec inc 0) as [L|G].
    - replace ((scale =? 1) || (inc <=? 0)) with true
        by (symmetry; apply orb_true_iff; right; apply Z.leb_le; exact L).
      apply pixel_draws; auto. intros px py _. unfold dot_hit, in_disc, d.
      rewrite Z.max_l by exact L. change (0 / 2) with 0. rewrite !Z.add_0_r. change (0 * 0) with 0. rewrite Z.add_0_l.
      set (u := px - x). set (v := py - y). set (m := Z.max (Z.abs u) (Z.abs v)).
      assert (Hm : m * m <= u * u + v * v).
      { unfold m. destruct (Z.max_spec (Z.abs u) (Z.abs v)) as [[_ ->]|[_ ->]]; rewrite Z.abs_square.
        - pose proof (Z.square_nonneg u). lia.
        - pose proof (Z.square_nonneg v). lia. }
      apply eq_true_iff_eq. rewrite andb_true_iff, Z.leb_le, !Z.eqb_eq. split.
      + intros H. destruct (Z.eq_dec m 0) as [E|E]; [unfold m, u, v in E; lia|].
        assert (0 < m) by (unfold m in *; lia). nia.
      + intros [Eu Ev]. unfold u, v. rewrite Eu, Ev, !Z.sub_diag. apply Z.le_max_l.
    - assert (N1 : scale <> 1) by (unfold inc in G; clear - G Hps; lia).
      replace ((scale =? 1) || (inc <=? 0)) with false
        by (symmetry; apply orb_false_iff; split; [now apply Z.eqb_neq|apply Z.leb_gt; clear - G; lia]).
      assert (Ed : d = inc) by (unfold d; clear - G; lia). rewrite Ed.
      intros b o W S. unfold plotcircinsqr, dot_hit. rewrite shiftr1. set (r := inc / 2).
      assert (Hr : 0 <= r) by (unfold r; clear - G; lia).
      assert (K : exists b' o', filledcircle (x + r) (y + r) r c (mkst b o) = (Ok tt, mkst b' o') /\ R o o' /\
        repainted b b' w h bits (fun px py => if in_disc r (px - (x + r)) (py - (y + r)) then reduce bits c else pixel b w h bits px py)).
      { destruct Hb as [[E HR]|[[E Hx]|[[E Hx]|Hx]]].
        - destruct (disc1 b w h bits (x + r) (y + r) r c W Hst Hr o E) as (b' & o' & E1 & E2).
          exists b', o'. auto.
        - destruct (disc_bytes b w h bits (x + r) (y + r) r c W Hst Hr o (or_introl E)) as (b' & E1 & E2).
          { rewrite E. change (data_off 8) with 1078; change (pbytes 8) with 1. clear - Hx Hr. lia. }
          exists b', o. auto.
        - destruct (disc_bytes b w h bits (x + r) (y + r) r c W Hst Hr o (or_intror E)) as (b' & E1 & E2).
          { rewrite E. change (data_off 24) with 54; change (pbytes 24) with 3. clear - Hx Hr. lia. }
          exists b', o. auto.
        - clear - Hx G. lia. }
      destruct K as (b' & o' & E1 & E2 & E3). exists b', o'. split; auto. split; auto.
      eapply repainted_ext; [|exact E3]. intros px py _. cbn beta.
      destruct (in_disc r (px - (x + r)) (py - (y + r))); reflexivity.
  Qed.
End Cell.

(** ** all bits of a pattern *)
Lemma colour_usable bits color : colour_ok bits color -> usable color.
Proof. destruct color; cbn; tauto. Qed.
Lemma colour_storable bits color i : colour_ok bits color -> storable bits (colour_of_row color i).
Proof.
  destruct color as [c|l]; cbn [colour_ok colour_of_row]; auto. intros [N F].
  rewrite Forall_forall in F. apply F. pose proof (usable_pos l N) as P.
  pose proof (Z.mod_pos_bound i (zlen l) P) as B. rewrite getz_nth by lia. apply nth_In. unfold zlen in *. lia.
Qed.
Definition opt_if (b : bool) (v : Z) : option Z := if b then Some v else None.

Lemma disc_near r dx dy : 0 <= r -> in_disc r dx dy = true -> Z.abs dx <= r /\ Z.abs dy <= r.
Proof.
  unfold in_disc. intros Hr H. apply Z.leb_le in H.
  set (m := Z.max (Z.abs dx) (Z.abs dy)) in *. assert (Z.abs dx <= m /\ Z.abs dy <= m) by (unfold m; lia).
  assert (Hm : m * m <= dx * dx + dy * dy).
  { unfold m. destruct (Z.max_spec (Z.abs dx) (Z.abs dy)) as [[_ ->]|[_ ->]]; rewrite Z.abs_square.
    - pose proof (Z.square_nonneg dx). lia.
    - pose proof (Z.square_nonneg dy). lia. }
  clearbody m. assert (m <= r) by nia. lia.
Qed.
Section Patterns.
  Variables (R : list msg -> list msg -> Prop) (b0 : list Z) (w h bits : Z).
  Hypothesis Rrefl : forall o, R o o.
  Hypothesis Rtrans : forall o1 o2 o3, R o1 o2 -> R o2 o3 -> R o1 o3.
  Variables (scale ps : Z).
  Hypothesis Hsc : 1 <= scale.
  Hypothesis Hps : 0 <= ps.
  Let inc := scale - 1 - ps.
  Let d := Z.max 0 inc.

  Lemma square_box x y px py : square_hit d w h x y px py = true -> x <= px < x + scale /\ y <= py < y + scale.
  Proof.
    unfold square_hit, in_box. rewrite !andb_true_iff, !Z.leb_le.
    assert (0 <= d < scale) by (unfold d, inc; clear - Hsc Hps; lia). clearbody d. clear - H. lia.
  Qed.
  Lemma dot_box x y px py : dot_hit d x y px py = true -> x <= px < x + scale /\ y <= py < y + scale.
  Proof.
    unfold dot_hit. intros H. assert (Hd : 0 <= d < scale) by (unfold d, inc; clear - Hsc Hps; lia). clearbody d.
    assert (Hr : 0 <= d / 2 /\ 2 * (d / 2) <= d) by (clear - Hd; lia). destruct Hr as [Hr Hr'].
    apply disc_near in H; auto. clear - H Hr Hr' Hd. lia.
  Qed.

  Section Any.
    Variables (fn : Z -> Z -> Z -> Z -> M unit) (hit : Z -> Z -> Z -> Z -> bool) (val : Z -> Z).
    Hypothesis Hbox : forall x y px py, hit x y px py = true -> x <= px < x + scale /\ y <= py < y + scale.
    Variables (n : Z) (row : Z -> Z) (col : Z -> Z).
    Hypothesis Hn : 0 <= n.

    Lemma upright_draws ox y :
      (forall i j, 0 <= i < n -> 0 <= j < 8 -> Z.testbit (row i) (7 - j) = true ->
        draws R b0 w h bits (plotcell fn scale inc (ox i + j * scale) (y + i * scale) (col i))
          (fun px py => if hit (ox i + j * scale) (y + i * scale) px py then Some (val (col i)) else None)) ->
      draws R b0 w h bits (cells fn scale inc n row (fun i j => ox i + j * scale) (fun i _ => y + i * scale) col)
        (fun px py => opt_if
           (glyph_at hit (fun i j => (((0 <=? i) && (i <? n)) && ((0 <=? j) && (j <? 8))) && Z.testbit (row i) (7 - j)) scale ox y px py)
           (val (col ((py - y) / scale)))).
    Proof.
      intros D. unfold cells.
      apply (draws_cells R b0 w h bits Rrefl Rtrans n
        (fun i j => plotcell fn scale inc (ox i + j * scale) (y + i * scale) (col i))
        (fun i j => Z.testbit (row i) (7 - j)) (fun i j => ox i + j * scale) (fun i _ => y + i * scale) hit
        (fun i => val (col i)) (fun px py => (py - y) / scale) (fun px py => (px - ox ((py - y) / scale)) / scale)); auto.
      intros i j px py Hi Hj Hh. apply Hbox in Hh. destruct Hh as [H1 H2].
      assert (E : (py - y) / scale = i).
      { symmetry. apply (Z.div_unique _ _ _ (py - y - i * scale)); [clear - H2; lia|ring]. }
      split; [exact E|]. rewrite E.
      symmetry. apply (Z.div_unique _ _ _ (px - ox i - j * scale)); [clear - H1; lia|ring].
    Qed.
    Lemma sideways_draws x oy :
      (forall i j, 0 <= i < n -> 0 <= j < 8 -> Z.testbit (row i) (7 - j) = true ->
        draws R b0 w h bits (plotcell fn scale inc (x + i * scale) (oy i - j * scale) (col i))
          (fun px py => if hit (x + i * scale) (oy i - j * scale) px py then Some (val (col i)) else None)) ->
      draws R b0 w h bits (cells fn scale inc n row (fun i _ => x + i * scale) (fun i j => oy i - j * scale) col)
        (fun px py => opt_if
           (side_glyph_at hit (fun i j => (((0 <=? i) && (i <? n)) && ((0 <=? j) && (j <? 8))) && Z.testbit (row i) (7 - j)) scale x oy px py)
           (val (col ((px - x) / scale)))).
    Proof.
      intros D. unfold cells.
      apply (draws_cells R b0 w h bits Rrefl Rtrans n
        (fun i j => plotcell fn scale inc (x + i * scale) (oy i - j * scale) (col i))
        (fun i j => Z.testbit (row i) (7 - j)) (fun i _ => x + i * scale) (fun i j => oy i - j * scale) hit
        (fun i => val (col i)) (fun px py => (px - x) / scale) (fun px py => - ((py - oy ((px - x) / scale)) / scale))); auto.
      intros i j px py Hi Hj Hh. apply Hbox in Hh. destruct Hh as [H1 H2].
      assert (E : (px - x) / scale = i).
      { symmetry. apply (Z.div_unique _ _ _ (px - x - i * scale)); [clear - H1; lia|ring]. }
      split; [exact E|]. rewrite E.
      rewrite <- (Z.div_unique (py - oy i) scale (- j) (py - oy i + j * scale)); [ring|clear - H2; lia|ring].
    Qed.
  End Any.
End Patterns.
