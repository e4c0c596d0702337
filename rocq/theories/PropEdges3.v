(** Properties C104-C105: discs, ferns and snowflakes in files, bitmaps as text. *)
From Coq Require Import ZArith String List Bool Lia.
From Verif Require Import PyBase PyFacts Spec SpecShapes SpecEdges Bmp BmpFacts PixelProofs PlotList Region Raster HeaderProofs
  Geometry Draw DrawProofs3 Circle ShapeProofs ShapeProofs2 Shapes Files FileProofs Wrappers WrapProofs Fractal FractProofs FractProofs5 Edges EdgeProofs4
  Concrete PropFiles PropCore PropDraw PropShapes PropWrap PropFractal2.
Import ListNotations.
Open Scope string_scope.
Open Scope list_scope.
Open Scope Z_scope.
Open Scope py_scope.

(** * C104 *)
(** A shaded ball in a 24-bit file: rings of radius 1, ..., r - 1 around (x, y), each with
    its own colour, drawn from the outside to the inside with a pen of radius 2. *)
Theorem C104_sphere : forall col x y r src dst W b w h cs, files W src = Some b -> wf b w h 24 -> 0 < w -> 0 < h ->
  In cs [Sfactors col; Scolors col] -> (forall i, 1 <= i < r -> 0 <= col i < 2 ^ 24) -> -19 <= x - r ->
  exists W' b', sphere2file cs x y r src dst W = (Ok tt, W') /\ only_file W W' dst b' /\ con W' = con W ++ [Mtext; Msaved; Mdone] /\
    repainted b b' w h 24 (fun px py =>
      match top_layer (fun i => thick_ring 2 x y i) 1 (r - 1) px py with Some i => col i | None => pixel b w h 24 px py end).
Proof.
  intros col x y r src dst W b w h cs Hf Wb Hw Hh Hcs Hc Hx. pose proof (C10_condition b w h 24 Wb (or_intror (conj Hw Hh))) as Hl.
  set (V := mkw (files W) (con W ++ [Mtext])).
  assert (K : exists b', sphere cs x y r (mkst b (con W ++ [Mtext])) = (Ok tt, mkst b' (con W ++ [Mtext])) /\
    repainted b b' w h 24 (fun px py => match top_layer (fun i => thick_ring 2 x y i) 1 (r - 1) px py with Some i => col i | None => pixel b w h 24 px py end)).
  { destruct Hcs as [<-|[<-|[]]]; cbn [sphere].
    - destruct (C74_circle col b w h 24 (con W ++ [Mtext]) x y r Wb Hc) as (k & b' & o' & S & E & Q & R).
      { unfold pen_at. repeat split; lia. }
      rewrite (Q ltac:(lia)) in E. exists b'. split; [exact E|]. eapply repainted_ext; [|exact R]. intros px py I. cbn beta.
      destruct (top_layer _ _ _ _ _) as [i|] eqn:T; [|reflexivity]. unfold top_layer in T. apply find_some in T. destruct T as [T _]. apply in_range in T.
      apply (S i). lia.
    - destruct (C74_dichromic col b w h (con W ++ [Mtext]) x y r Wb Hc Hx) as (b' & E & R). exists b'. rewrite (bind_ok _ _ _ _ _ E). auto. }
  destruct K as (b' & E & R). eexists _, b'. split.
  - unfold sphere2file. rewrite (timer_run W). fold V. unfold use24btclrfnwithmultpar2circreg.
    rewrite (fbind_ok _ _ _ _ _ (load_text src W b w h 24 Hf Wb Hl)). fold V. rewrite (fbind_ok _ _ V b V eq_refl).
    rewrite (fbind_ok _ _ V 24 V) by (unfold flift; now rewrite (wf_rbits _ _ _ _ Wb)). cbn [Z.eqb Pos.eqb negb].
    rewrite (fbind_ok _ _ V (tt, b') (mkw (files V) (con W ++ [Mtext]))) by (apply callM_ok; exact E). cbn. reflexivity.
  - split; [exact (only_fput W _ _ _)|]. split; [cbn; now rewrite <- !app_assoc|exact R].
Qed.
(** neither three factors nor two colours: the image is saved unchanged *)
Theorem C104_sphere_colors : forall x y r src dst W b w h, files W src = Some b -> wf b w h 24 -> 0 < w -> 0 < h ->
  exists W', sphere2file Sothers x y r src dst W = (Ok tt, W') /\ only_file W W' dst b.
Proof.
  intros x y r src dst W b w h Hf Wb Hw Hh. pose proof (C10_condition b w h 24 Wb (or_intror (conj Hw Hh))) as Hl.
  set (V := mkw (files W) (con W ++ [Mtext])). eexists. split.
  - unfold sphere2file. rewrite (timer_run W). fold V. unfold use24btclrfnwithmultpar2circreg.
    rewrite (fbind_ok _ _ _ _ _ (load_text src W b w h 24 Hf Wb Hl)). fold V. rewrite (fbind_ok _ _ V b V eq_refl).
    rewrite (fbind_ok _ _ V 24 V) by (unfold flift; now rewrite (wf_rbits _ _ _ _ Wb)). cbn. reflexivity.
  - exact (only_fput W _ _ _).
Qed.
(** other depths are refused; a missing file raises TypeError *)
Theorem C104_sphere_refused : forall cs x y r src dst W,
  (forall b w h bits, files W src = Some b -> wf b w h bits -> 0 < w -> 0 < h -> bits <> 24 ->
     sphere2file cs x y r src dst W = (Ok tt, mkw (files W) (con W ++ [Mtext; Mnot24bit; Mdone]))) /\
  (files W src = None -> sphere2file cs x y r src dst W = (Err TypeError, mkw (files W) (con W ++ [Mtext; Mfilenotexist]))).
Proof.
  intros cs x y r src dst W. set (V := mkw (files W) (con W ++ [Mtext])). split.
  - intros b w h bits Hf Wb Hw Hh N. pose proof (C10_condition b w h bits Wb (or_introl N)) as Hl.
    unfold sphere2file. rewrite (timer_run W). fold V. unfold use24btclrfnwithmultpar2circreg.
    rewrite (fbind_ok _ _ _ _ _ (load_text src W b w h bits Hf Wb Hl)). fold V. rewrite (fbind_ok _ _ V b V eq_refl).
    rewrite (fbind_ok _ _ V bits V) by (unfold flift; now rewrite (wf_rbits _ _ _ _ Wb)). destruct (Z.eqb_spec bits 24); [contradiction|].
    cbn. now rewrite <- !app_assoc.
  - intros H. unfold sphere2file. rewrite (timer_run W). unfold use24btclrfnwithmultpar2circreg, fbind at 1. unfold loadBMP, checklink. cbn [files]. rewrite H.
    cbn. now rewrite <- app_assoc.
Qed.
(** the points of a fern strictly inside the rectangle get the colour *)
Theorem C104_fern : forall pts x1 y1 x2 y2 c src dst W b w h bits, files W src = Some b -> wf b w h bits -> storable bits c ->
  inside w h x1 y1 -> inside w h x2 y2 ->
  exists W' b', fern2file pts x1 y1 x2 y2 c src dst W = (Ok tt, W') /\ only_file W W' dst b' /\
    repainted b b' w h bits (fun x y =>
      if existsb (fun p => (fst p =? x) && (snd p =? y)) pts &&
         (((Z.min x1 x2 <? x) && (x <? Z.max x1 x2)) && ((Z.min y1 y2 <? y) && (y <? Z.max y1 y2)))
      then reduce bits c else pixel b w h bits x y).
Proof.
  intros pts x1 y1 x2 y2 c src dst W b w h bits Hf Wb Hs I1 I2. pose proof (C10_condition b w h bits Wb) as Hl.
  assert (H : 0 < w /\ 0 < h) by (unfold inside in I1; lia). specialize (Hl (or_intror H)).
  destruct (proj1 (C92_fern pts b w h bits (con W ++ [Mtext]) x1 y1 x2 y2 c Wb Hs) I1 I2) as (b' & E & R).
  destruct (by_ref src dst W b w h bits Hf Wb Hl _ _ _ _ E) as (W' & E' & O & _). exists W', b'. auto.
Qed.
(** A snowflake (vertices vs, computed with floats around the centre) in a new 24-bit
    file: a square bitmap in the background colour with the closed polygon. *)
Theorem C104_koch : forall vs file r c bg pen W, let n := 2 * r + 2 * pen + 2 in let m := (n - 1) / 2 in
  0 < n < 2 ^ 24 -> 0 <= c < 2 ^ 24 -> bg < 2 ^ 24 -> vs m m <> [] ->
  (pen <= 1 -> Forall (fun e => seg_fits n n 24 (fst e) (snd e)) (closed_edges (vs m m))) ->
  (1 < pen -> Forall (fun e => -19 <= Z.min (fst (fst e)) (fst (snd e))) (closed_edges (vs m m))) ->
  exists W' b, savekochsnowflake2file vs file r 24 c bg pen W = (Ok tt, W') /\ only_file W W' file b /\ wf b n n 24 /\
    forall x y, inside n n x y -> pixel b n n 24 x y =
      if any_edge (if 1 <? pen then thick_seg pen else seg_hit n n) (closed_edges (vs m m)) x y then c else Z.max 0 bg.
Proof.
  intros vs file r c bg pen W n m Hn Hc Hbg Hv Hthin Hthick.
  destruct (newBMP_wf n n 24 ltac:(unfold valid_depth; auto) ltac:(lia) ltac:(lia)) as (b0 & E0 & W0 & P0 & _).
  set (o := con W ++ [Mtext]).
  assert (K : exists b1, (if bg >? 0 then filledrect 0 0 (n - 1) (n - 1) bg ;;; ret tt else ret tt) (mkst b0 o) = (Ok tt, mkst b1 o) /\
     repainted b0 b1 n n 24 (fun _ _ => Z.max 0 bg)).
  { destruct (Z.gtb_spec bg 0) as [Q|Q].
    - destruct (C22_filledrect24 b0 n n 0 0 (n - 1) (n - 1) bg o W0) as (b1 & E1 & R1); try (unfold inside; lia); try lia.
      exists b1. rewrite (bind_ok _ _ _ _ _ E1). split; [reflexivity|]. eapply repainted_ext; [|exact R1].
      intros x y Hi. cbn beta. unfold inside in Hi. replace (in_box 0 0 (n - 1) (n - 1) x y) with true; [lia|].
      symmetry. unfold in_box. rewrite !andb_true_iff, !Z.leb_le. lia.
    - exists b0. split; [reflexivity|]. eapply repainted_ext; [|now apply repainted_refl]. intros x y Hi. cbn beta. rewrite P0 by exact Hi. lia. }
  destruct K as (b1 & E1 & R1).
  assert (K : exists b2, (if pen >? 1 then thickplotpoly (vs m m) pen c else plotpoly (vs m m) c) (mkst b1 o) = (Ok tt, mkst b2 o) /\
     repainted b1 b2 n n 24 (fun x y => if any_edge (if 1 <? pen then thick_seg pen else seg_hit n n) (closed_edges (vs m m)) x y then c else pixel b1 n n 24 x y)).
  { rewrite Z.gtb_ltb. destruct (Z.ltb_spec 1 pen) as [Q|Q].
    - destruct (C73_polygon b1 n n 24 o (vs m m) pen c (proj1 R1)) as (b2 & o2 & E2 & Q2 & R2); auto.
      { intros _. exact Hc. }
      { eapply Forall_impl; [|exact (Hthick Q)]. intros e He. cbn beta in He. unfold pen_at. repeat split; lia. }
      rewrite (Q2 ltac:(lia)) in E2. exists b2. auto.
    - destruct (C72_polygon b1 n n 24 o (vs m m) c (proj1 R1)) as (b2 & o2 & E2 & Q2 & R2); try lia; auto.
      rewrite (Q2 ltac:(lia)) in E2. exists b2. auto. }
  destruct K as (b2 & E2 & R2). eexists _, b2. split.
  - unfold savekochsnowflake2file. rewrite timer_run. fold o.
    replace (Z.shiftl r 1 + Z.shiftl pen 1 + 2) with n by (unfold n; rewrite !Z.shiftl_mul_pow2 by lia; lia). cbv zeta.
    rewrite Z.shiftr_div_pow2 by lia. change (2 ^ 1) with 2. fold m.
    unfold fbind at 1, flift at 1. rewrite E0. unfold fbind, callM. cbn [con]. rewrite (bind_ok _ _ _ _ _ E1). rewrite E2. reflexivity.
  - split; [exact (only_fput W _ _ _)|]. split; [apply R2|]. intros x y I. rewrite (proj2 (proj2 R2)) by exact I. now rewrite (proj2 (proj2 R1)) by exact I.
Qed.
Example C104_ex : wf (sample24 9 9) 9 9 24 /\ In (Sfactors (fun i => i)) [Sfactors (fun i => i); Scolors (fun i => i)] /\
  match files (snd (sphere2file (Sfactors (fun i => i)) 4 4 3 "a" "b" (mkw (fput nofiles "a" (blank 9 9 24)) []))) "b"%string with
  | Some c => rows c 9 9 24 = rows (after (gradcircle (fun i => i) 4 4 3) (blank 9 9 24)) 9 9 24 | None => False end /\
  match files (snd (savekochsnowflake2file (fun x y => [(x - 2, y - 2); (x + 2, y - 2); (x + 2, y)]) "k" 1 24 7 1 1 (mkw nofiles []))) "k"%string with
  | Some c => rows c 6 6 24 = [[7; 7; 7; 7; 7; 1]; [1; 7; 7; 1; 7; 1]; [1; 1; 1; 7; 7; 1]; [1; 1; 1; 1; 1; 1]; [1; 1; 1; 1; 1; 1]; [1; 1; 1; 1; 1; 1]] | None => False end.
Proof. split; [concrete_wf|]. split; [cbn; auto|]. split; vm_compute; reflexivity. Qed.
Print Assumptions C104_sphere.
Print Assumptions C104_sphere_colors.
Print Assumptions C104_sphere_refused.
Print Assumptions C104_fern.
Print Assumptions C104_koch.

(** * C105 *)
(** Printing a bitmap: one line per image row, from the top, the bottom row missing; the
    character in column x is a star or a blank for a bit, a letter from 'a' on for four
    bits, the character with the number for eight; lines of 24-bit bitmaps are empty.
    Padding is printed after the last column. *)
Definition glyph (bits c : Z) : Z := if bits =? 1 then (if c =? 0 then 32 else 42) else if bits =? 4 then 97 + c else c.
Lemma nth_blocks {A} k (d : A) : (0 < k)%nat -> forall bs i, Forall (fun l => length l = k) bs -> (i < k * length bs)%nat ->
  nth i (List.concat bs) d = nth (i mod k) (nth (i / k) bs []) d.
Proof.
  intros Hk. induction bs as [|l bs IH]; intros i F L; [cbn in L; lia|]. inversion F; subst. cbn [List.concat].
  destruct (Nat.lt_ge_cases i (length l)) as [Q|Q].
  - rewrite app_nth1 by auto. rewrite Nat.div_small, Nat.mod_small by auto. reflexivity.
  - rewrite app_nth2 by auto. rewrite IH; auto; [|cbn [length] in L; lia].
    replace i with (length l + (i - length l))%nat at 3 4 by lia.
    replace (length l + (i - length l))%nat with ((i - length l) + 1 * length l)%nat by lia.
    rewrite Nat.mod_add, Nat.div_add by lia. rewrite Nat.add_1_r. reflexivity.
Qed.
Lemma bit_glyph v j : 0 <= v -> (j < 8)%nat -> nth j (plotbitsastext v) 0 = if (v / 2 ^ (7 - Z.of_nat j)) mod 2 =? 0 then 32 else 42.
Proof.
  intros Hv Hj.
  assert (K : forall n, 0 <= n -> (Z.land (2 ^ n) v =? 0) = ((v / 2 ^ n) mod 2 =? 0)).
  { intros n Hn. rewrite <- Z.testbit_spec' by lia.
    destruct (Z.testbit v n) eqn:T; cbn [Z.b2z]; apply eq_iff_eq_true; rewrite !Z.eqb_eq; split; intros H; try lia.
    - exfalso. apply (f_equal (fun z => Z.testbit z n)) in H. rewrite Z.land_spec, Z.pow2_bits_true, T, Z.bits_0 in H by lia. discriminate.
    - apply Z.bits_inj_0. intros m. rewrite Z.land_spec. destruct (Z.eq_dec n m) as [->|N]; [now rewrite T, andb_false_r|].
      rewrite Z.pow2_bits_false by lia. reflexivity. }
  unfold plotbitsastext.
  do 8 (destruct j as [|j]; [cbn [nth map]; rewrite <- K by lia; reflexivity|]). lia.
Qed.
Theorem C105_text : forall b w h bits, wf b w h bits -> 0 < h -> exists lines, plotbmpastext b = Ok lines /\ zlen lines = h - 1 /\
  (bits <> 24 -> forall x y, inside w (h - 1) x y -> nth (Z.to_nat x) (nth (Z.to_nat y) lines []) 0 = glyph bits (pixel b w h bits x y)) /\
  (bits = 24 -> Forall (fun l => l = []) lines).
Proof.
  intros b w h bits W Hh. pose proof (wf_len _ _ _ _ W) as L. pose proof (wf_wrange _ _ _ _ W) as Hw.
  pose proof (stride_nonneg w bits ltac:(lia) (wf_depth _ _ _ _ W)) as Hs. pose proof (data_off_ge bits (wf_depth _ _ _ _ W)) as Ho.
  set (r := stride w bits) in *. set (off := data_off bits) in *.
  set (blk := fun y x => let v := getz b (off + r * y + x) in
     if bits =? 1 then plotbitsastext v else if bits =? 4 then [97 + v / 16; 97 + v mod 16] else if bits =? 8 then [v] else []).
  assert (E : plotbmpastext b = Ok (map (fun y => List.concat (map (blk y) (range 0 r))) (rev (range 1 h)))).
  { unfold plotbmpastext, getclrbits, getmaxy. rewrite (wf_rbits _ _ _ _ W), (wf_ry _ _ _ _ W), (wf_rxchr _ _ _ _ W), (wf_rhdsz _ _ _ _ W). cbn [rbind].
    fold r off. apply mapR_ok. intros y Hy. apply in_rev in Hy. apply in_range in Hy.
    rewrite (mapR_ok _ (blk y)); [reflexivity|]. intros x Hx. apply in_range in Hx. unfold blk.
    assert (Hi : 0 <= off + r * y + x < zlen b) by nia. rewrite (py_get_in _ _ Hi). cbn [rbind].
    destruct (bits =? 1); [reflexivity|]. destruct (bits =? 4); [reflexivity|]. destruct (bits =? 8); reflexivity. }
  eexists. split; [exact E|]. split; [|split].
  - rewrite zlen_map. unfold zlen. rewrite rev_length. fold (zlen (range 1 h)). rewrite zlen_range. lia.
  - intros N x y [Hx Hy]. 
    assert (Ey : nth (Z.to_nat y) (map (fun y => List.concat (map (blk y) (range 0 r))) (rev (range 1 h))) [] = List.concat (map (blk (h - 1 - y)) (range 0 r))).
    { assert (Lr : length (range 1 h) = Z.to_nat (h - 1)) by (pose proof (zlen_range 1 h) as Q; unfold zlen in Q; lia).
      rewrite (nth_indep _ [] (List.concat (map (blk 0) (range 0 r)))) by (rewrite map_length, rev_length; lia).
      rewrite (map_nth (fun y => List.concat (map (blk y) (range 0 r)))). do 2 f_equal. f_equal. rewrite rev_nth by lia. rewrite Lr.
      unfold range. replace (Z.to_nat (h - 1) - S (Z.to_nat y))%nat with (Z.to_nat (h - 2 - y)) by lia.
      rewrite nth_indep with (d' := 1 + Z.of_nat 0) by (rewrite map_length, seq_length; lia).
      rewrite (map_nth (fun i => 1 + Z.of_nat i)). rewrite seq_nth by lia. lia. }
    rewrite Ey. clear Ey E.
    assert (Hd3 : exists k, (bits = 1 /\ k = 8) \/ (bits = 4 /\ k = 2) \/ (bits = 8 /\ k = 1)).
    { destruct (wf_depth _ _ _ _ W) as [-> | [-> | [-> | ->]]]; [exists 8|exists 2|exists 1|]; auto; lia. }
    destruct Hd3 as (k & Hk).
    assert (Hkr : w <= k * r).
    { pose proof (C02_stride_smallest w bits (wf_depth _ _ _ _ W) ltac:(lia)) as (_ & Q & _). fold r in Q. destruct Hk as [[-> ->]|[[-> ->]|[-> ->]]]; lia. }
    assert (Hk0 : 0 < k) by lia.
    rewrite (nth_blocks (Z.to_nat k)).
    2:{ lia. }
    2:{ apply Forall_forall. intros l Hl. apply in_map_iff in Hl. destruct Hl as (i & <- & _). unfold blk. destruct Hk as [[-> ->]|[[-> ->]|[-> ->]]]; reflexivity. }
    2:{ rewrite map_length. pose proof (zlen_range 0 r) as Q. unfold zlen in Q. nia. }
    assert (Hq : 0 <= x / k < r) by (split; [apply Z.div_pos; lia|apply Z.div_lt_upper_bound; lia]).
    assert (Hm : 0 <= x mod k < k) by (apply Z.mod_pos_bound; lia).
    rewrite <- Z2Nat.inj_div, <- Z2Nat.inj_mod by lia. rewrite nth_range by lia.
    unfold blk, glyph, pixel. fold r off. replace (r * (h - 1 - y)) with ((h - 1 - y) * r) by lia.
    pose proof (wf_byte b w h bits (off + (h - 1 - y) * r + x / k) W) as Hb. unfold byte in Hb.
    destruct Hk as [[-> ->]|[[-> ->]|[-> ->]]]; cbn [Z.eqb Pos.eqb].
    + rewrite bit_glyph by lia. rewrite Z.mul_1_r. rewrite Z2Nat.id by lia. replace (8 - 1 - x mod 8) with (7 - x mod 8) by lia. reflexivity.
    + replace (x * 4 / 8) with (x / 2) by (change 8 with (2 * 4); rewrite Z.div_mul_cancel_r; lia).
      replace ((x * 4) mod 8) with (4 * (x mod 2)) by (change 8 with (2 * 4); rewrite Z.mul_mod_distr_r; lia).
      assert (x mod 2 = 0 \/ x mod 2 = 1) as [-> | ->] by lia; cbn [Z.to_nat nth Pos.to_nat Pos.iter_op].
      * change (8 - 4 - 4 * 0) with 4. change (2 ^ 4) with 16. rewrite (Z.mod_small (_ / 16)); [reflexivity|]. split; [apply Z.div_pos; lia|apply Z.div_lt_upper_bound; lia].
      * change (8 - 4 - 4 * 1) with 0. change (2 ^ 4) with 16. change (2 ^ 0) with 1. rewrite Z.div_1_r. reflexivity.
    + rewrite Z.div_1_r, Z.mod_1_r in *. cbn [Z.to_nat nth]. rewrite Z.div_mul by lia. rewrite Z.mod_mul by lia. change (8 - 8 - 0) with 0. change (2 ^ 0) with 1.
      change (2 ^ 8) with 256. rewrite Z.div_1_r, Z.mod_small by lia. reflexivity.
  - intros ->. apply Forall_forall. intros l Hl. apply in_map_iff in Hl. destruct Hl as (y & <- & _). unfold blk. cbn [Z.eqb Pos.eqb].
    clear E. induction (range 0 r) as [|a t IH]; [reflexivity|]. cbn [map List.concat app]. exact IH.
Qed.
(** a bitmap of one row prints nothing *)
Theorem C105_all_rows_refuted : exists b, wf b 5 1 8 /\ plotbmpastext b = Ok [].
Proof. exists (sample 5 1 8). split; [concrete_wf|vm_compute; reflexivity]. Qed.
Example C105_ex : wf (sample 5 3 4) 5 3 4 /\ inside 5 2 4 1 /\
  plotbmpastext (sample 5 3 4) = Ok [[98; 105; 112; 103; 110; 97; 97; 97]; [111; 102; 109; 100; 107; 97; 97; 97]].
Proof. split; [apply sample4_wf|]. split; [unfold inside; lia|]. vm_compute. reflexivity. Qed.
Print Assumptions C105_text.
Print Assumptions C105_all_rows_refuted.
