(** Operations on circular regions: pixel level (proofs). *)
From Coq Require Import ZArith List Bool Lia.
From Verif Require Import PyBase PyFacts Spec Bmp BmpFacts PixelProofs PlotList Buffers Region Raster VertProofs RectProofs HorizProofs
  Geometry GeomProofs Draw DrawProofs DrawProofs4 Filters FilterProofs FilterProofs2 Circle CircProofs CircProofs2.
Import ListNotations.
Open Scope Z_scope.
Open Scope py_scope.
Ltac Zify.zify_post_hook ::= Z.to_euclidean_division_equations.

Lemma raster_byte b w h bits k y : wf b w h bits -> byte (raster b w h bits k y).
Proof. intros W. apply bytes_getz, (wf_bytes _ _ _ _ W). Qed.

Section Pix.
  Variables (b : list Z) (w h bits r x y : Z) (l : list (Z * Z)).
  Hypothesis W : wf b w h bits.
  Hypothesis Hr : 0 <= r.
  Hypothesis El : itercirclepartlineedge r = Ok l.
  Let Hd : valid_depth bits := wf_depth _ _ _ _ W.
  Notation cp := (cp l w bits x y).

  Lemma disc_repaint b' V P :
    rastered b b' w h bits (fun k y' => if cp k y' then V k y' else raster b w h bits k y') ->
    (forall px py, inside w h px py -> disc_part w bits r x y px py = true -> rowpix bits (fun k => V k py) px = P px py) ->
    repainted b b' w h bits (fun px py => if disc_part w bits r x y px py then P px py else pixel b w h bits px py).
  Proof.
    intros R HP. eapply rastered_repainted; [exact R|]. intros px py [Hx Hy].
    destruct (disc_part w bits r x y px py) eqn:D.
    - rewrite <- HP by (try split; auto). apply (rowpix_ext bits w); auto. intros k Hk Hk'.
      rewrite (cp_pix r l Hr El w bits x y Hd px py k) by auto. now rewrite D.
    - rewrite pixel_raster. apply (rowpix_ext bits w); auto. intros k Hk Hk'.
      rewrite (cp_pix r l Hr El w bits x y Hd px py k) by auto. now rewrite D.
  Qed.

  Lemma invert_disc b' :
    rastered b b' w h bits (rowsG b w h bits x y l (fun C k1 k2 k => 255 - C (k1 + (k - k1)))) ->
    repainted b b' w h bits (fun px py => if disc_part w bits r x y px py then 2 ^ bits - 1 - pixel b w h bits px py
      else pixel b w h bits px py).
  Proof.
    intros R. apply (disc_repaint b' (fun k y' => 255 - raster b w h bits k y')).
    - eapply rastered_ext; [|exact R]. intros k y' _ _. unfold rowsG. destruct (cp k y'); auto. f_equal. f_equal. lia.
    - intros px py _ _. rewrite rowpix_invert, pixel_raster; auto. intros k. now apply raster_byte.
  Qed.
End Pix.

Section Pix24.
  Variables (b : list Z) (w h r x y : Z) (l : list (Z * Z)).
  Hypothesis W : wf b w h 24.
  Hypothesis Hr : 0 <= r.
  Hypothesis El : itercirclepartlineedge r = Ok l.

  Lemma filter_disc b' T :
    rastered b b' w h 24 (rowsG b w h 24 x y l (fun C k1 k2 k =>
      T (k2 - k1 <=? 3 * ((k - k1) / 3) + 3) ((k - k1) mod 3)
        (C (k1 + 3 * ((k - k1) / 3))) (C (k1 + (3 * ((k - k1) / 3) + 1))) (C (k1 + (3 * ((k - k1) / 3) + 2))))) ->
    repainted b b' w h 24 (fun px py => if disc_part w 24 r x y px py
      then Tpix T (negb (disc_part w 24 r x y (px + 1) py)) (pixel b w h 24 px py) else pixel b w h 24 px py).
  Proof.
    intros R. eapply (disc_repaint b w h 24 r x y l W Hr El b').
    - exact R.
    - intros px py [Hx Hy] D. rewrite pixel_raster. apply rowpix24_T; [intros k; now apply raster_byte|].
      intros c Hc. pose proof (wf_depth _ _ _ _ W) as Hd.
      pose proof (cp_pix r l Hr El w 24 x y Hd px py (3 * px) Hx) as Hcp.
      unfold pbytes in Hcp. specialize (Hcp ltac:(change (24 =? 24) with true; cbv iota; lia)). rewrite D in Hcp.
      unfold cp in Hcp.
      assert (EL : disc_part w 24 r x y (px + 1) py = (3 * px + 3 <? khi l w 24 x y py)).
      { unfold cp, klo, khi, kb in *. apply andb_true_iff in Hcp. destruct Hcp as [C1 C2]. apply Z.leb_le in C1. apply Z.ltb_lt in C2.
        unfold disc_part in *. cbn [Z.ltb Z.compare Pos.compare Pos.compare_cont] in *. rewrite !Z.div_1_r, !Z.mul_1_r in *.
        apply andb_true_iff in D. destruct D as [D D3]. apply andb_true_iff in D. destruct D as [D1 D2].
        replace (px + 1 + 1 - 1 - x) with (px + 1 - x) by ring. rewrite D2. cbn [andb].
        pose proof (hwid_disc r l Hr El (px + 1 + 1 - x) (py - y)) as HW.
        apply (hwid_disc r l Hr El) in D1. apply (hwid_disc r l Hr El) in D2.
        set (a := hwid l (Z.abs (py - y))) in *. clearbody a.
        replace (Z.min (w - 1) (x + a) * 24 / 8) with (3 * Z.min (w - 1) (x + a)) in * by (clear; lia).
        apply eq_true_iff_eq. rewrite andb_true_iff, <- HW, !Z.ltb_lt. clear - D1 D2 C1 C2. lia. }
      rewrite EL. assert (K : (3 * px - klo l 24 x y py) mod 3 = 0).
      { unfold klo, kb. clear. lia. }
      set (k1 := klo l 24 x y py) in *. set (k2 := khi l w 24 x y py) in *. clearbody k1 k2. clear EL D. clear - K Hc Hcp.
      replace ((3 * px + c - k1) / 3) with ((3 * px - k1) / 3) by lia.
      replace ((3 * px + c - k1) mod 3) with c by lia.
      replace (k1 + 3 * ((3 * px - k1) / 3)) with (3 * px) by lia.
      replace (k1 + (3 * ((3 * px - k1) / 3) + 1)) with (3 * px + 1) by lia.
      replace (k1 + (3 * ((3 * px - k1) / 3) + 2)) with (3 * px + 2) by lia.
      f_equal. apply eq_true_iff_eq. rewrite negb_true_iff, Z.ltb_ge, Z.leb_le. lia.
  Qed.
End Pix24.

(** ** the guards *)
Lemma cguard_run {A} b w h bits o x y r (f : M A) : wf b w h bits -> 0 <= r ->
  entirecircleinboundary x y r f (mkst b o) =
  if ((0 <=? x - r) && (x + r <? w)) && ((0 <=? y - r) && (y + r <? w)) then withSome f (mkst b o)
  else (Ok None, mkst b (o ++ [Mregionoutofbounds])).
Proof.
  intros W Hr. unfold entirecircleinboundary.
  pose proof (run_rd _ b o _ (wf_rx _ _ _ _ W)) as E. rewrite !(bind_ok _ _ _ _ _ E). rewrite circ_in_spec by auto.
  destruct (_ && _); reflexivity.
Qed.
Lemma cguard24_run {A} b w h bits o x y r (f : M A) : wf b w h bits -> 0 <= r ->
  func24bitonlyandentirecircleinboundary x y r f (mkst b o) =
  if bits =? 24 then
    if ((0 <=? x - r) && (x + r <? w)) && ((0 <=? y - r) && (y + r <? h)) then withSome f (mkst b o)
    else (Ok None, mkst b (o ++ [Mregionoutofbounds]))
  else (Ok None, mkst b (o ++ [Mnot24bit])).
Proof.
  intros W Hr. unfold func24bitonlyandentirecircleinboundary.
  rewrite (bind_ok _ _ _ _ _ (wf_geti_bits _ _ _ _ W _)). destruct (bits =? 24); cbn [negb]; [|reflexivity].
  pose proof (run_rd _ b o _ (wf_rx _ _ _ _ W)) as E. rewrite !(bind_ok _ _ _ _ _ E).
  pose proof (run_rd _ b o _ (wf_ry _ _ _ _ W)) as E'. rewrite !(bind_ok _ _ _ _ _ E'). rewrite circ_in_spec by auto.
  destruct (_ && _); reflexivity.
Qed.
Lemma cguard8_run {A} b w h bits o x y r (f : M A) : wf b w h bits -> 0 <= r ->
  func8and24bitonlyandentirecircleinboundary x y r f (mkst b o) =
  if (bits =? 24) || (bits =? 8) then
    if ((0 <=? x - r) && (x + r <? w)) && ((0 <=? y - r) && (y + r <? h)) then withSome f (mkst b o)
    else (Ok None, mkst b (o ++ [Mregionoutofbounds]))
  else (Ok None, mkst b (o ++ [Mnot24or8bit])).
Proof.
  intros W Hr. unfold func8and24bitonlyandentirecircleinboundary.
  rewrite (bind_ok _ _ _ _ _ (wf_geti_bits _ _ _ _ W _)). destruct ((bits =? 24) || (bits =? 8)); cbn [negb]; [|reflexivity].
  pose proof (run_rd _ b o _ (wf_rx _ _ _ _ W)) as E. rewrite !(bind_ok _ _ _ _ _ E).
  pose proof (run_rd _ b o _ (wf_ry _ _ _ _ W)) as E'. rewrite !(bind_ok _ _ _ _ _ E'). rewrite circ_in_spec by auto.
  destruct (_ && _); reflexivity.
Qed.

(** ** filters and inversion on discs *)
Lemma onbuf_part_ext (T : bool -> Z -> Z -> Z -> Z -> Z) n (C C' : Z -> Z) i : 0 <= i < n -> n mod 3 = 0 -> (forall j, 0 <= j < n -> C j = C' j) ->
  (T (n <=? 3 * (i / 3) + 3) (i mod 3) (C (3 * (i / 3))) (C (3 * (i / 3) + 1)) (C (3 * (i / 3) + 2)) : Z) =
  T (n <=? 3 * (i / 3) + 3) (i mod 3) (C' (3 * (i / 3))) (C' (3 * (i / 3) + 1)) (C' (3 * (i / 3) + 2)).
Proof. intros Hi Hn HC. rewrite !HC by (clear - Hi Hn; lia). reflexivity. Qed.

Lemma use24circ_run b w h o f T tup x y r : wf b w h 24 -> 0 <= r -> onbuf f T ->
  (0 <= x - r /\ x + r < w /\ 0 <= y - r /\ y + r < h) \/ (tup = false /\ 0 < w /\ -18 <= x) ->
  exists b', intcircleparam24bitonly (usefn2circreg tup f x y r) (mkst b o) = (Ok (Some tt), mkst b' o) /\
    repainted b b' w h 24 (fun px py => if disc_part w 24 r x y px py
      then Tpix T (negb (disc_part w 24 r x y (px + 1) py)) (pixel b w h 24 px py) else pixel b w h 24 px py).
Proof.
  intros W Hr Hf HB. destruct (itercirclepartlineedge_run r Hr) as (l & El & _).
  destruct (usefn_run b w h 24 r x y o l W Hr El tup f _ (onbuf_part f T Hf)) as (b' & E & R).
  - intros n C C' i Hi Hn HC. apply onbuf_part_ext; auto.
  - destruct HB as [HB|(-> & H1 & H2)]; [now left|right]. split; auto. split; auto.
    unfold data_off. cbn [Z.eqb Pos.eqb]. lia.
  - exists b'. split.
    + unfold intcircleparam24bitonly, func24bitonly. rewrite (bind_ok _ _ _ _ _ (wf_geti_bits _ _ _ _ W _)).
      cbn [Z.eqb Pos.eqb negb]. unfold withSome. now rewrite (bind_ok _ _ _ _ _ E).
    + now apply (filter_disc b w h r x y l).
Qed.

Lemma invertcirc_run b w h bits o x y r : wf b w h bits -> 0 <= r -> 0 < w -> 0 <= 8 * data_off bits + x * bits ->
  exists b', invertbitsincircregion x y r (mkst b o) = (Ok tt, mkst b' o) /\
    repainted b b' w h bits (fun px py => if disc_part w bits r x y px py then 2 ^ bits - 1 - pixel b w h bits px py
      else pixel b w h bits px py).
Proof.
  intros W Hr Hw HB. destruct (itercirclepartlineedge_run r Hr) as (l & El & _).
  destruct (usefn_run b w h bits r x y o l W Hr El false _ _ (invert_part bits)) as (b' & E & R).
  - intros n C C' i Hi Hn HC. rewrite HC; auto.
  - right. auto.
  - exists b'. split; [exact E|]. now apply (invert_disc b w h bits r x y l).
Qed.

(** negative radius: nothing is done *)
Lemma usefn_neg b w h bits o tup f x y r : wf b w h bits -> r < 0 ->
  usefn2circreg tup f x y r (mkst b o) = (Ok tt, mkst b o).
Proof.
  intros W Hr. unfold usefn2circreg.
  rewrite (bind_ok _ _ _ _ _ (xmax_run w h bits o b W)), (bind_ok _ _ _ _ _ (ymax_run w h bits o b W)).
  rewrite (bind_ok _ _ _ _ _ (run_lift _ _ _ _ (itercirclepartlineedge_neg r Hr))). destruct (entirecircleisinboundary _ _ _ _ _ _ _); reflexivity.
Qed.

(** ** outlines *)
Lemma xorslice_act w h bits o d : valid_depth bits -> 0 < w -> d = (if bits =? 24 then 3 else 1) ->
  rowact w h bits o (xorslice d) (fun C k1 k2 k => Z.lxor (C k) (C (k + d))).
Proof.
  intros Hd Hw Ed. destruct (row_fit w bits (w - 1) Hd ltac:(lia)) as [K1 K2].
  assert (K : kb bits (w - 1) + d <= stride w bits).
  { unfold kb, pbytes in *. subst d. destruct (bits =? 24); lia. }
  assert (D : 0 < d) by (subst d; destruct (bits =? 24); lia). clear Ed. split.
  - intros b1 yy k1 k2 W1 Hy H1 H2 H3 H4. unfold xorslice.
    destruct (get_part b1 w h bits o yy k1 k2 W1 Hy H1 ltac:(lia) H3) as (u & Eu & Lu & Bu & Gu).
    rewrite (bind_ok _ _ _ _ _ Eu).
    destruct (get_part b1 w h bits o yy (k1 + d) (k2 + d) W1 Hy ltac:(lia) ltac:(lia) ltac:(lia)) as (v & Ev & Lv & Bv & Gv).
    rewrite !Z.add_assoc in Ev. rewrite (bind_ok _ _ _ _ _ Ev).
    assert (L : zlen u = zlen v) by lia.
    rewrite (bind_ok _ _ _ _ _ (run_lift _ _ _ _ (py_array_ok _ (xorvect_bytes u v L Bu Bv)))).
    destruct (put_part b1 w h bits o yy k1 k2 (xorvect u v) W1 Hy H1 ltac:(lia) H3) as (b2 & E2 & R2).
    { rewrite xorvect_len; auto. }
    { now apply xorvect_bytes. }
    exists b2. split; [exact E2|]. eapply rastered_ext; [|exact R2]. intros k y' _ _. cbn beta.
    destruct ((y' =? yy) && ((k1 <=? k) && (k <? k2))) eqn:C; auto.
    rewrite xorvect_get by (auto; clear - C Lu; lia). rewrite Gu, Gv by (clear - C; lia).
    f_equal; f_equal; lia.
  - intros C C' k1 k2 k H1 Hk H2 _ HC. rewrite !HC; auto; lia.
Qed.

Lemma rowpix_shift bits G d x : valid_depth bits -> d = (if bits =? 24 then 3 else 1) ->
  rowpix bits (fun k => G (k + d)) x = rowpix bits G (x + (if bits <? 8 then 8 / bits else 1)).
Proof.
  intros Hd ->. unfold rowpix. destruct Hd as [-> | [-> | [-> | ->]]];
    cbn [Z.eqb Pos.eqb Z.ltb Z.compare Pos.compare Pos.compare_cont].
  - change (8 / 1) with 8. replace ((x + 8) * 1 / 8) with (x * 1 / 8 + 1) by lia.
    replace (((x + 8) * 1) mod 8) with ((x * 1) mod 8) by lia. reflexivity.
  - change (8 / 4) with 2. replace ((x + 2) * 4 / 8) with (x * 4 / 8 + 1) by lia.
    replace (((x + 2) * 4) mod 8) with ((x * 4) mod 8) by lia. reflexivity.
  - replace ((x + 1) * 8 / 8) with (x * 8 / 8 + 1) by lia.
    replace (((x + 1) * 8) mod 8) with ((x * 8) mod 8) by lia. reflexivity.
  - replace (3 * (x + 1)) with (3 * x + 3) by ring. replace (3 * x + 3 + 1) with (3 * x + 1 + 3) by ring.
    replace (3 * x + 3 + 2) with (3 * x + 2 + 3) by ring. reflexivity.
Qed.

Lemma outlinecirc_run b w h bits o x y r : wf b w h bits -> 0 <= r -> 0 < w -> 0 <= 8 * data_off bits + x * bits ->
  exists b', outlinecircregion x y r (mkst b o) = (Ok tt, mkst b' o) /\
    repainted b b' w h bits (fun px py => if disc_part w bits r x y px py
      then Z.lxor (pixel b w h bits px py) (pixel b w h bits (px + (if bits <? 8 then 8 / bits else 1)) py)
      else pixel b w h bits px py).
Proof.
  intros W Hr Hw HB. destruct (itercirclepartlineedge_run r Hr) as (l & El & _). unfold outlinecircregion.
  rewrite (bind_ok _ _ _ _ _ (wf_geti_bits _ _ _ _ W _)).
  rewrite (bind_ok _ _ _ _ _ (xmax_run w h bits o b W)), (bind_ok _ _ _ _ _ (ymax_run w h bits o b W)), (bind_ok _ _ _ _ _ (run_lift _ _ _ _ El)).
  rewrite circ_in_spec by auto. pose proof (wf_depth _ _ _ _ W) as Hd.
  set (d := if bits =? 24 then 3 else 1). cbv zeta.
  pose proof (xorslice_act w h bits o d Hd Hw eq_refl) as HA.
  assert (exists b', (if ((0 <=? x - r) && (x + r <? w)) && ((0 <=? y - r) && (y + r <? h)) then row_in (xorslice d) x y l
     else row_out (xorslice d) x y w h l) (mkst b o) = (Ok tt, mkst b' o) /\
     rastered b b' w h bits (rowsG b w h bits x y l (fun C k1 k2 k => Z.lxor (C k) (C (k + d))))) as (b' & E & R).
  { destruct (_ && _) eqn:C.
    - apply (row_in_run b w h bits r x y o l W Hr El _ _ HA); clear - C; lia.
    - apply (row_out_run b w h bits r x y o l W Hr El _ _ HA); auto. }
  exists b'. split; [exact E|].
  apply (disc_repaint b w h bits r x y l W Hr El b' (fun k y' => Z.lxor (raster b w h bits k y') (raster b w h bits (k + d) y'))).
  - exact R.
  - intros px py _ _. rewrite (rowpix_xor bits (fun k => raster b w h bits k py) (fun k => raster b w h bits (k + d) py)); auto.
    + rewrite (rowpix_shift bits (fun k => raster b w h bits k py) d px Hd eq_refl). now rewrite !pixel_raster.
    + intros k. now apply raster_byte.
    + intros k. now apply raster_byte.
Qed.
