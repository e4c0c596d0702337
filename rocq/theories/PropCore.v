(** Properties C01-C09, C12, C31, C35, C40: headers, pixels, palettes, block
    transfers, colours, guards.  Each theorem is followed by an example that
    meets its hypotheses and by its assumptions. *)
From Coq Require Import ZArith List Bool Lia.
From Verif Require Import PyBase PyFacts Spec Bmp BmpFacts PixelProofs HeaderProofs PalProofs PlotList Concrete.
Import ListNotations.
Open Scope Z_scope.
Open Scope py_scope.

(** * C01 *)
Theorem C01_writeint_readint : forall b o off n v,
  0 <= off -> 1 <= n -> off + n - 1 <= zlen b -> bytes b ->
  exists b', writeint off n v (mkst b o) = (Ok tt, mkst b' o) /\
    readint off n b' = Ok (v mod 256 ^ (n - 1)) /\
    zlen b' = zlen b /\
    (forall i, i < off \/ off + n - 1 <= i -> getz b' i = getz b i).
Proof.
  intros b o off n v H1 H2 H3 H4.
  destruct (writeint_run b o off n v H1 H2 H3 H4) as (b' & E & Fb & Hb).
  exists b'. split; auto. split; [|split].
  - replace n with (n - 1 + 1) at 1 by lia. apply (field_bytes_read b); auto; lia.
  - apply Fb.
  - intros i Hi. rewrite (proj2 Fb). destruct (Z.leb_spec off i); cbn [andb]; auto.
    destruct (Z.ltb_spec i (off + (n - 1))); auto. lia.
Qed.
Theorem C01_exact : forall b o off n v,
  0 <= off -> 1 <= n -> off + n - 1 <= zlen b -> bytes b -> 0 <= v < 256 ^ (n - 1) ->
  exists b', writeint off n v (mkst b o) = (Ok tt, mkst b' o) /\ readint off n b' = Ok v.
Proof.
  intros b o off n v H1 H2 H3 H4 Hv.
  destruct (C01_writeint_readint b o off n v H1 H2 H3 H4) as (b' & E & R & _).
  exists b'. split; auto. now rewrite Z.mod_small in R.
Qed.
Theorem C01_buf2int_loses_top_byte : forall n v, 1 <= n ->
  buf2int (int2buf n v) = Ok (v mod 256 ^ (n - 1)).
Proof. exact buf2int_int2buf. Qed.
Theorem C01_buf2int_refuted : exists n v, 1 <= n /\ 0 <= v < 256 ^ n /\ buf2int (int2buf n v) <> Ok v.
Proof. exists 2, 300. vm_compute. repeat split; discriminate. Qed.
Example C01_ex : readint 18 4 (after (writeint 18 4 70000) (repz 0 54)) = Ok 70000.
Proof. vm_compute; reflexivity. Qed.
Print Assumptions C01_writeint_readint.
Print Assumptions C01_exact.
Print Assumptions C01_buf2int_loses_top_byte.

(** * C02 *)
Theorem C02_newBMP : forall x y bits, valid_depth bits -> 0 <= x < 2 ^ 24 -> 0 <= y < 2 ^ 24 ->
  exists b, newBMP x y bits = Ok b /\ wf b x y bits /\
    getmaxx b = Ok x /\ getmaxy b = Ok y /\ getclrbits b = Ok bits /\
    hdsz b = Ok (data_off bits) /\ flsz b = Ok (zlen b) /\
    zlen b = data_off bits + y * stride x bits /\
    (forall i j, inside x y i j -> pixel b x y bits i j = 0) /\
    (bits <> 24 -> getallRGBpal b = getdefaultbitpal bits).
Proof.
  intros x y bits Hd Hx Hy. destruct (newBMP_wf x y bits Hd Hx Hy) as (b & E & W & P & Q & _).
  exists b. split; auto. split; auto.
  split; [apply (wf_rx _ _ _ _ W)|]. split; [apply (wf_ry _ _ _ _ W)|]. split; [apply (wf_rbits _ _ _ _ W)|].
  split; [apply (wf_rhdsz _ _ _ _ W)|]. split; [apply (wf_rflsz _ _ _ _ W)|].
  split; [apply (wf_len _ _ _ _ W)|]. split; auto.
  intros H. destruct (Q H) as (pal & E1 & E2). congruence.
Qed.
(** the row size is the smallest multiple of 4 bytes holding x pixels *)
Theorem C02_stride_smallest : forall x bits, valid_depth bits -> 0 <= x ->
  stride x bits mod 4 = 0 /\ x * bits <= 8 * stride x bits /\
  forall s, s mod 4 = 0 -> x * bits <= 8 * s -> stride x bits <= s.
Proof.
  intros x bits Hd Hx. unfold stride. set (q := x * bits).
  assert (Hq : 0 <= q) by (unfold q; unfold valid_depth in Hd; nia). clearbody q.
  split; [|split].
  - rewrite Z.mod_mul; lia.
  - pose proof (Z.div_mod (q + 31) 32 ltac:(lia)). pose proof (Z.mod_pos_bound (q + 31) 32 ltac:(lia)). lia.
  - intros s Hs Hl. pose proof (Z.div_mod s 4 ltac:(lia)).
    enough ((q + 31) / 32 <= s / 4) by lia.
    apply Z.lt_succ_r. apply Z.div_lt_upper_bound; lia.
Qed.
Example C02_ex : exists b, newBMP 5 3 4 = Ok b /\ zlen b = 118 + 3 * 4.
Proof. eexists. split; vm_compute; reflexivity. Qed.
Print Assumptions C02_newBMP.
Print Assumptions C02_stride_smallest.

(** * C03 *)
Theorem C03_bad_depth : forall x y bits, ~ valid_depth bits -> exists e, newBMP x y bits = Err e.
Proof. exact newBMP_baddepth. Qed.
Example C03_ex : newBMP 5 3 16 = Err UnboundLocalError /\ newBMP 5 3 2 = Err KeyError /\ newBMP 5 3 0 = Err ZeroDivisionError.
Proof. vm_compute; auto. Qed.
Print Assumptions C03_bad_depth.

(** * C04 *)
Theorem C04_getxybit : forall b w h bits x y, wf b w h bits ->
  (inside w h x y -> getxybit x y b = Ok (pixel b w h bits x y)) /\
  (~ inside w h x y -> getxybit x y b = Ok (-1)).
Proof.
  intros b w h bits x y W. split; intros; [now apply getxybit_inside|now apply (getxybit_outside b w h bits)].
Qed.
(** a pixel value is a colour of the depth, so -1 is never a pixel value *)
Theorem C04_pixel_range : forall b w h bits x y, wf b w h bits -> 0 <= pixel b w h bits x y < 2 ^ bits.
Proof. exact pixel_range. Qed.
Example C04_ex : wf (sample 5 3 4) 5 3 4 /\ inside 5 3 4 2 /\ getxybit 4 2 (sample 5 3 4) = Ok 7.
Proof. split; [apply sample4_wf|]. split; [unfold inside; lia|vm_compute; reflexivity]. Qed.
Print Assumptions C04_getxybit.
Print Assumptions C04_pixel_range.

(** * C05, C06 *)
Theorem C05_plot_reads_back : forall b w h bits o x y c,
  wf b w h bits -> inside w h x y -> storable bits c ->
  exists b', plotxybit x y c (mkst b o) = (Ok tt, mkst b' o) /\ getxybit x y b' = Ok (reduce bits c).
Proof.
  intros b w h bits o x y c W Hin Hs. destruct (plot_inside b w h bits o x y c W Hin Hs) as (b' & E & R).
  exists b'. split; auto. rewrite (getxybit_inside b' w h bits x y); auto; [|apply R].
  rewrite (proj2 (proj2 R)) by auto. unfold put_px. now rewrite !Z.eqb_refl.
Qed.
Theorem C06_plot_frame : forall b w h bits o x y c, wf b w h bits -> storable bits c ->
  exists b', plotxybit x y c (mkst b o) = (Ok tt, mkst b' o) /\
    wf b' w h bits /\ same_header b b' bits /\
    (forall x' y', inside w h x' y' -> (x', y') <> (x, y) ->
       pixel b' w h bits x' y' = pixel b w h bits x' y').
Proof.
  intros b w h bits o x y c W Hs. destruct (plot_any b w h bits o x y c W Hs) as (b' & E & R).
  exists b'. split; auto. split; [apply R|]. split; [apply R|].
  intros x' y' Hin N. rewrite (proj2 (proj2 R)) by auto. unfold put_px.
  destruct (Z.eqb_spec x' x), (Z.eqb_spec y' y); cbn [andb]; auto. congruence.
Qed.
Theorem C06_plot_outside : forall b w h bits o x y c, wf b w h bits -> ~ inside w h x y ->
  plotxybit x y c (mkst b o) = (Ok tt, mkst b o).
Proof. exact plot_outside. Qed.
Theorem C06_plot_overflow : forall b w h o x y c, wf b w h 24 -> inside w h x y -> ~ (0 <= c < 2 ^ 24) ->
  plotxybit x y c (mkst b o) = (Err OverflowError, mkst b o).
Proof. exact plot_overflow. Qed.
Example C05_ex : rows (after (plotxybit 3 1 25) (sample 5 3 4)) 5 3 4
  = [[1; 8; 15; 6; 13]; [14; 5; 12; 9; 10]; [11; 2; 9; 0; 7]].
Proof. vm_compute; reflexivity. Qed.
Print Assumptions C05_plot_reads_back.
Print Assumptions C06_plot_frame.
Print Assumptions C06_plot_outside.
Print Assumptions C06_plot_overflow.

(** * C07: any history of plots *)
(** [last_plot] (PlotList.v): the last colour plotted at (x,y), newest first *)
Theorem C07_histories : forall hist b w h bits o, wf b w h bits ->
  (forall x y c, In (x, y, c) hist -> storable bits c) ->
  exists b', forM hist (fun p => let '(x, y, c) := p in plotxybit x y c) (mkst b o) = (Ok tt, mkst b' o) /\
    repainted b b' w h bits (fun x y =>
      match last_plot (rev hist) x y with Some c => reduce bits c | None => pixel b w h bits x y end).
Proof.
  intros hist b w h bits o W Hs. exact (plots_run hist b w h bits o W Hs).
Qed.
Example C07_ex : rows (after (forM [(0,0,9); (2,1,3); (0,0,5); (7,7,1)]
    (fun p => let '(x, y, c) := p in plotxybit x y c)) (blank 3 2 8)) 3 2 8 = [[5; 0; 0]; [0; 0; 3]].
Proof. vm_compute; reflexivity. Qed.
Print Assumptions C07_histories.

(** * C08 *)
Theorem C08_setbmppal : forall b w h bits o pal, wf b w h bits -> bits <> 24 -> zlen pal = 2 ^ bits ->
  Forall byte3 pal ->
  exists b', setbmppal pal (mkst b o) = (Ok tt, mkst b' o) /\ wf b' w h bits /\
    getallRGBpal b' = Ok pal /\
    (forall i, i < 54 \/ data_off bits <= i -> getz b' i = getz b i) /\
    (forall x y, inside w h x y -> pixel b' w h bits x y = pixel b w h bits x y).
Proof.
  intros b w h bits o pal W N L B. destruct (setbmppal_ok b w h bits o pal W N L B) as (b' & E & W' & G & H & P & _).
  exists b'. repeat (split; auto). intros i Hi. apply H. tauto.
Qed.
Theorem C08_wrong_count : forall b w h bits o pal, wf b w h bits -> zlen pal <> 2 ^ bits ->
  setbmppal pal (mkst b o) = (Ok tt, mkst b o).
Proof. exact setbmppal_wronglen. Qed.
Theorem C08_setRGBpal : forall b w h bits o c r g bl, wf b w h bits -> bits <> 24 -> 0 <= c < 2 ^ bits ->
  byte r -> byte g -> byte bl ->
  exists b', setRGBpal c r g bl (mkst b o) = (Ok tt, mkst b' o) /\ wf b' w h bits /\
    getRGBpal c b' = Ok (r, g, bl) /\
    (forall c', 0 <= c' < 2 ^ bits -> c' <> c -> getRGBpal c' b' = getRGBpal c' b) /\
    (forall i, i < 54 \/ data_off bits <= i -> getz b' i = getz b i) /\
    (forall x y, inside w h x y -> pixel b' w h bits x y = pixel b w h bits x y).
Proof.
  intros b w h bits o c r g bl W N C B1 B2 B3.
  destruct (setRGBpal_ok b w h bits o c r g bl W N C B1 B2 B3) as (b' & E & W' & G & H & H2 & P & _).
  exists b'. repeat (split; auto).
Qed.
(** what getRGBpal and getallRGBpal read is the palette of the file *)
Theorem C08_palette_decoded : forall b w h bits, wf b w h bits -> bits <> 24 ->
  getallRGBpal b = Ok (map (pal_entry b) (range 0 (2 ^ bits))).
Proof. exact getallRGBpal_ok. Qed.
Example C08_ex : getallRGBpal (after (setbmppal [(1,2,3); (250,251,252)]) (sample 11 3 1)) = Ok [(1,2,3); (250,251,252)]
  /\ rows (after (setbmppal [(1,2,3); (250,251,252)]) (sample 11 3 1)) 11 3 1 = rows (sample 11 3 1) 11 3 1.
Proof. vm_compute; auto. Qed.
Print Assumptions C08_setbmppal.
Print Assumptions C08_wrong_count.
Print Assumptions C08_setRGBpal.
Print Assumptions C08_palette_decoded.

(** * C09 *)
Theorem C09_palshift : forall b w h bits o s, wf b w h bits -> bits = 4 \/ bits = 8 ->
  exists b', palshift s (mkst b o) = (Ok (Some tt), mkst b' o) /\ wf b' w h bits /\
    (forall i, 0 <= i < 2 ^ bits -> pal_entry b' i = pal_entry b ((i + Z.abs s) mod 2 ^ bits)) /\
    (forall i, i < 54 \/ data_off bits <= i -> getz b' i = getz b i) /\
    (forall x y, inside w h x y -> pixel b' w h bits x y = pixel b w h bits x y).
Proof.
  intros b w h bits o s W Hb. destruct (palshift_run b w h bits o s W Hb) as (b' & E & R & B).
  destruct (rotated_wf b b' w h bits (Z.abs s) W Hb R B) as (W' & P).
  exists b'. split; auto. split; auto. split; [|split]; auto.
  - intros i Hi. apply rotated_entry; auto; lia.
  - intros i Hi. rewrite (proj2 R). destruct (Z.leb_spec 54 i); cbn [andb]; auto.
    destruct (Z.ltb_spec i (54 + 4 * 2 ^ bits)); auto. exfalso.
    destruct Hb as [-> | ->]; [change (data_off 4) with 118 in Hi; change (2 ^ 4) with 16 in *
                              |change (data_off 8) with 1078 in Hi; change (2 ^ 8) with 256 in *]; lia.
Qed.
Theorem C09_compose : forall b w h bits o s t, wf b w h bits -> bits = 4 \/ bits = 8 ->
  (palshift s ;;; palshift t) (mkst b o) = palshift (Z.abs s + Z.abs t) (mkst b o).
Proof.
  intros b w h bits o s t W Hb. destruct (palshift_run b w h bits o s W Hb) as (b1 & E1 & R1 & B1).
  destruct (rotated_wf b b1 w h bits (Z.abs s) W Hb R1 B1) as (W1 & _).
  destruct (palshift_run b1 w h bits o t W1 Hb) as (b2 & E2 & R2 & _).
  destruct (palshift_run b w h bits o (Z.abs s + Z.abs t) W Hb) as (b3 & E3 & R3 & _).
  rewrite (bind_ok _ _ _ _ _ E1), E2, E3. do 2 f_equal.
  eapply (rotated_unique b b2 b3 (2 ^ bits)); [| |eapply rotated_comp; [|exact R1|exact R2]|exact R3].
  - destruct Hb as [-> | ->]; lia.
  - f_equal. lia.
  - destruct Hb as [-> | ->]; lia.
Qed.
Theorem C09_full_cycle : forall b w h bits o, wf b w h bits -> bits = 4 \/ bits = 8 ->
  palshift_n (Z.to_nat (2 ^ bits)) 1 (mkst b o) = (Ok tt, mkst b o).
Proof.
  intros b w h bits o W Hb. destruct (palshift_n_run w h bits o 1 Hb (Z.to_nat (2 ^ bits)) b W) as (b' & E & R & _).
  rewrite E. do 2 f_equal.
  assert (0 < 2 ^ bits) by (destruct Hb as [-> | ->]; lia).
  eapply (rotated_unique b b' b (2 ^ bits)); [auto| |exact R|now apply rotated_id].
  rewrite Z2Nat.id by lia. change (Z.abs 1) with 1. rewrite Z.mul_1_r, Z.mod_same, Z.mod_0_l; lia.
Qed.
Theorem C09_other_depths : forall b w h bits o s, wf b w h bits -> bits <> 4 -> bits <> 8 ->
  palshift s (mkst b o) = (Ok None, mkst b (o ++ [Mnot4or8bit])).
Proof. exact palshift_guard. Qed.
Example C09_ex : wf (sample 5 3 4) 5 3 4 /\
  getRGBpal 15 (after (palshift (-3)) (sample 5 3 4)) = getRGBpal 2 (sample 5 3 4).
Proof. split; [apply sample4_wf|vm_compute; reflexivity]. Qed.
Print Assumptions C09_palshift.
Print Assumptions C09_compose.
Print Assumptions C09_full_cycle.
Print Assumptions C09_other_depths.

(** * C12 *)
Theorem C12_put_inside : forall b w h bits o off buf, wf b w h bits -> 0 <= off ->
  data_off bits + off + zlen buf <= zlen b -> bytes buf ->
  exists b', BMPbitBLTput off buf (mkst b o) = (Ok tt, mkst b' o) /\ wf b' w h bits /\ same_header b b' bits /\
    (forall i, getz b' i = if (data_off bits + off <=? i) && (i <? data_off bits + off + zlen buf)
                           then getz buf (i - (data_off bits + off)) else getz b i) /\
    (buf <> [] -> BMPbitBLTget off (zlen buf) (mkst b' o) = (Ok buf, mkst b' o)).
Proof.
  intros b w h bits o off buf W Ho Hf Hb. pose proof (bltput_ok b w h bits o off buf W Ho Hf Hb) as E.
  eexists; split; [exact E|].
  pose proof (data_off_ge bits (wf_depth _ _ _ _ W)) as D. pose proof (zlen_nonneg buf).
  set (s := data_off bits + off) in *. set (e := s + zlen buf) in *.
  destruct (slice_frame b w h bits s e buf W) as (W' & S'); try lia; auto.
  split; auto. split; auto. split.
  - intros i. apply getz_slice_set; lia.
  - intros N. assert (0 < zlen buf) by (destruct buf; [congruence|rewrite zlen_cons; pose proof (zlen_nonneg buf); lia]).
    assert (Hz : zlen (py_slice_set b s e buf) = zlen b) by (apply zlen_slice_set; lia).
    rewrite (bltget_ok _ w h bits o off (zlen buf) W'); try lia. do 2 f_equal.
    fold s. fold e. apply list_ext.
    + rewrite zlen_sub; lia.
    + intros i Hi. rewrite zlen_sub in Hi by lia. rewrite getz_sub by lia. rewrite getz_slice_set by lia.
      rewrite (proj2 (Z.leb_le _ _)), (proj2 (Z.ltb_lt _ _)) by lia. cbn [andb]. f_equal. lia.
Qed.
Theorem C12_put_rejected : forall b w h bits o off buf, wf b w h bits ->
  off < 0 \/ zlen b < data_off bits + off + zlen buf ->
  BMPbitBLTput off buf (mkst b o) = (Ok tt, mkst b (o ++ [Minvalidoffset])).
Proof. exact bltput_bad. Qed.
Theorem C12_get_inside : forall b w h bits o off n, wf b w h bits -> 0 <= off -> 0 < n ->
  data_off bits + off + n <= zlen b ->
  exists buf, BMPbitBLTget off n (mkst b o) = (Ok buf, mkst b o) /\ zlen buf = n /\
    forall i, 0 <= i < n -> getz buf i = getz b (data_off bits + off + i).
Proof.
  intros b w h bits o off n W Ho Hn Hf. pose proof (data_off_ge bits (wf_depth _ _ _ _ W)) as D.
  eexists; split; [now apply (bltget_ok b w h bits)|]. split; [rewrite zlen_sub; lia|].
  intros i Hi. apply getz_sub; lia.
Qed.
Theorem C12_get_rejected : forall b w h bits o off n, wf b w h bits ->
  off < 0 \/ n <= 0 \/ zlen b < data_off bits + off + n ->
  BMPbitBLTget off n (mkst b o) = (Ok [], mkst b (o ++ [Minvalidoffset])).
Proof. exact bltget_bad. Qed.
Example C12_ex : wf (sample 5 3 8) 5 3 8 /\ 0 <= 20 /\ data_off 8 + 20 + zlen [9; 8; 7; 6] <= zlen (sample 5 3 8)
  /\ rows (after (BMPbitBLTput 16 [9; 8; 7; 6]) (sample 5 3 8)) 5 3 8
     = [[9; 8; 7; 6; 29]; [14; 21; 28; 35; 42]; [27; 34; 41; 48; 55]].
Proof. split; [apply sample8_wf|]. vm_compute. repeat split; discriminate. Qed.
Print Assumptions C12_put_inside.
Print Assumptions C12_put_rejected.
Print Assumptions C12_get_inside.
Print Assumptions C12_get_rejected.

(** * C31 *)
Theorem C31_int_RGB_int : forall c, let '(r, g, b) := int2RGB c in RGB2int r g b = c.
Proof.
  intros c. unfold int2RGB, RGB2int. rewrite shiftr16, shiftr8, !land255, shiftl8, shiftl16.
  pose proof (Z.div_mod c 256 ltac:(lia)). pose proof (Z.div_mod (c / 256) 256 ltac:(lia)).
  replace (c / 65536) with (c / 256 / 256) by (rewrite Z.div_div; [f_equal|lia|lia]). lia.
Qed.
Theorem C31_RGB_int_RGB : forall r g b, byte g -> byte b -> int2RGB (RGB2int r g b) = (r, g, b).
Proof.
  intros r g b Hg Hb. unfold int2RGB, RGB2int, byte in *. rewrite shiftr16, shiftr8, !land255, shiftl8, shiftl16.
  assert (E1 : (b + g * 256 + r * 65536) / 65536 = r)
    by (symmetry; apply (Z.div_unique_pos _ _ _ (b + g * 256)); lia).
  assert (E2 : (b + g * 256 + r * 65536) / 256 = g + r * 256)
    by (symmetry; apply (Z.div_unique_pos _ _ _ b); lia).
  rewrite E1, E2. replace (b + g * 256 + r * 65536) with (b + (g + r * 256) * 256) by lia.
  rewrite !Z.mod_add by lia. rewrite !Z.mod_small by lia. reflexivity.
Qed.
Theorem C31_int2BGRarr : forall c,
  (0 <= c < 2 ^ 24 -> exists b g r, int2BGRarr c = Ok [b; g; r] /\ byte b /\ byte g /\ byte r /\
                        c = b + 256 * g + 65536 * r) /\
  (~ 0 <= c < 2 ^ 24 -> int2BGRarr c = Err OverflowError).
Proof.
  intros c. unfold int2BGRarr. rewrite shiftr16, shiftr8, !land255.
  pose proof (Z.div_mod c 256 ltac:(lia)). pose proof (Z.div_mod (c / 256) 256 ltac:(lia)).
  pose proof (Z.mod_pos_bound c 256 ltac:(lia)). pose proof (Z.mod_pos_bound (c / 256) 256 ltac:(lia)).
  assert (E : c / 65536 = c / 256 / 256) by (rewrite Z.div_div; [f_equal|lia|lia]).
  rewrite E. split; intros Hc.
  - exists (c mod 256), ((c / 256) mod 256), (c / 256 / 256). split; [|unfold byte; lia].
    apply py_array_ok, bytes3; unfold byte; lia.
  - unfold py_array. cbn [forallb]. rewrite (is_byte_false (c / 256 / 256)); [now rewrite !andb_false_r|].
    unfold byte. lia.
Qed.
Example C31_ex : int2RGB 1193046 = (18, 52, 86) /\ int2RGB (-1) = (-1, 255, 255).
Proof. vm_compute; auto. Qed.
Print Assumptions C31_int_RGB_int.
Print Assumptions C31_RGB_int_RGB.
Print Assumptions C31_int2BGRarr.

(** * C35: a guard protects whatever operation it wraps *)
Theorem C35_rect_guard : forall (A : Type) (f : M A) b w h bits o x1 y1 x2 y2, wf b w h bits ->
  ~ (inside w h x1 y1 /\ inside w h x2 y2) ->
  entirerectinboundary x1 y1 x2 y2 f (mkst b o) = (Ok None, mkst b (o ++ [Mregionoutofbounds])).
Proof.
  intros A f b w h bits o x1 y1 x2 y2 W N. unfold entirerectinboundary. mred.
  destruct (inside_dec w h x1 y1) as [H1|H1].
  - rewrite (wf_inbnd_true _ _ _ _ W) by auto. mred.
    rewrite (wf_inbnd_false _ _ _ _ W) by tauto. reflexivity.
  - rewrite (wf_inbnd_false _ _ _ _ W) by auto. mred.
    rewrite (wf_inbnd _ _ _ _ W). reflexivity.
Qed.
Theorem C35_24bit_guard : forall (A : Type) (f : M A) b w h bits o, wf b w h bits -> bits <> 24 ->
  func24bitonly f (mkst b o) = (Ok None, mkst b (o ++ [Mnot24bit])).
Proof.
  intros A f b w h bits o W N. unfold func24bitonly. mred. rewrite (wf_rbits _ _ _ _ W). mred.
  rewrite (proj2 (Z.eqb_neq bits 24)) by auto. reflexivity.
Qed.
Theorem C35_24bit_rect_guard : forall (A : Type) (f : M A) b w h bits o x1 y1 x2 y2, wf b w h bits ->
  (bits <> 24 -> func24bitonlyandentirerectinboundary x1 y1 x2 y2 f (mkst b o)
                 = (Ok None, mkst b (o ++ [Mnot24bit]))) /\
  (bits = 24 -> ~ (inside w h x1 y1 /\ inside w h x2 y2) ->
     func24bitonlyandentirerectinboundary x1 y1 x2 y2 f (mkst b o)
                 = (Ok None, mkst b (o ++ [Mregionoutofbounds]))).
Proof.
  intros A f b w h bits o x1 y1 x2 y2 W.
  unfold func24bitonlyandentirerectinboundary. mred. rewrite (wf_rbits _ _ _ _ W). mred. split.
  - intros N. rewrite (proj2 (Z.eqb_neq bits 24)) by auto. reflexivity.
  - intros E N. rewrite (proj2 (Z.eqb_eq bits 24)) by auto. mred.
    destruct (inside_dec w h x1 y1) as [H1|H1].
    + rewrite (wf_inbnd_true _ _ _ _ W) by auto. mred.
      rewrite (wf_inbnd_false _ _ _ _ W) by tauto. reflexivity.
    + rewrite (wf_inbnd_false _ _ _ _ W) by auto. mred.
      rewrite (wf_inbnd _ _ _ _ W). reflexivity.
Qed.
Theorem C35_8or24bit_rect_guard : forall (A : Type) (f : M A) b w h bits o x1 y1 x2 y2, wf b w h bits ->
  (bits <> 24 -> bits <> 8 -> func8and24bitonlyandentirerectinboundary x1 y1 x2 y2 f (mkst b o)
                 = (Ok None, mkst b (o ++ [Mnot24or8bit]))) /\
  (bits = 24 \/ bits = 8 -> ~ (inside w h x1 y1 /\ inside w h x2 y2) ->
     func8and24bitonlyandentirerectinboundary x1 y1 x2 y2 f (mkst b o)
                 = (Ok None, mkst b (o ++ [Mregionoutofbounds]))).
Proof.
  intros A f b w h bits o x1 y1 x2 y2 W.
  unfold func8and24bitonlyandentirerectinboundary. mred. rewrite (wf_rbits _ _ _ _ W). mred. split.
  - intros N1 N2. rewrite (proj2 (Z.eqb_neq bits 24)), (proj2 (Z.eqb_neq bits 8)) by auto. reflexivity.
  - intros E N. replace ((bits =? 24) || (bits =? 8)) with true
      by (destruct E as [-> | ->]; reflexivity). mred.
    destruct (inside_dec w h x1 y1) as [H1|H1].
    + rewrite (wf_inbnd_true _ _ _ _ W) by auto. mred.
      rewrite (wf_inbnd_false _ _ _ _ W) by tauto. reflexivity.
    + rewrite (wf_inbnd_false _ _ _ _ W) by auto. mred.
      rewrite (wf_inbnd _ _ _ _ W). reflexivity.
Qed.
(** and passes the call on unchanged otherwise *)
Theorem C35_rect_guard_open : forall (A : Type) (f : M A) b w h bits o x1 y1 x2 y2, wf b w h bits ->
  inside w h x1 y1 -> inside w h x2 y2 ->
  entirerectinboundary x1 y1 x2 y2 f (mkst b o) = (a <- f ;; ret (Some a)) (mkst b o) /\
  (bits = 24 -> func24bitonlyandentirerectinboundary x1 y1 x2 y2 f (mkst b o) = (a <- f ;; ret (Some a)) (mkst b o)) /\
  (bits = 24 \/ bits = 8 -> func8and24bitonlyandentirerectinboundary x1 y1 x2 y2 f (mkst b o)
     = (a <- f ;; ret (Some a)) (mkst b o)).
Proof.
  intros A f b w h bits o x1 y1 x2 y2 W H1 H2.
  unfold entirerectinboundary, func24bitonlyandentirerectinboundary, func8and24bitonlyandentirerectinboundary.
  assert (G1 := run_rd (isinBMPrectbnd x1 y1) b o _ (wf_inbnd_true _ _ _ _ W x1 y1 H1)).
  assert (G2 := run_rd (isinBMPrectbnd x2 y2) b o _ (wf_inbnd_true _ _ _ _ W x2 y2 H2)).
  assert (G3 : geti bmpcolorbits (mkst b o) = (Ok bits, mkst b o)) by (apply run_rd, (wf_rbits _ _ _ _ W)).
  split; [|split].
  - rewrite (bind_ok _ _ _ _ _ G1), (bind_ok _ _ _ _ _ G2). reflexivity.
  - intros ->. rewrite (bind_ok _ _ _ _ _ G3). cbn [Z.eqb Pos.eqb negb].
    rewrite (bind_ok _ _ _ _ _ G1), (bind_ok _ _ _ _ _ G2). reflexivity.
  - intros E. rewrite (bind_ok _ _ _ _ _ G3).
    replace ((bits =? 24) || (bits =? 8)) with true by (destruct E as [-> | ->]; reflexivity). cbn [negb].
    rewrite (bind_ok _ _ _ _ _ G1), (bind_ok _ _ _ _ _ G2). reflexivity.
Qed.
Example C35_ex : wf (sample 5 3 8) 5 3 8 /\ ~ (inside 5 3 0 0 /\ inside 5 3 5 2) /\
  outcome (entirerectinboundary 0 0 5 2 (plotxybit 0 0 9)) (sample 5 3 8) = Ok None.
Proof. split; [apply sample8_wf|]. split; [unfold inside; lia|vm_compute; reflexivity]. Qed.
Print Assumptions C35_rect_guard.
Print Assumptions C35_24bit_guard.
Print Assumptions C35_24bit_rect_guard.
Print Assumptions C35_8or24bit_rect_guard.
Print Assumptions C35_rect_guard_open.

(** * C40 *)
Theorem C40_listinBMPrecbnd : forall pts b w h bits, wf b w h bits -> listinBMPrecbnd pts b = Ok true.
Proof.
  induction pts as [|[x y] t IH]; intros b w h bits W; cbn [listinBMPrecbnd]; auto.
  rewrite (wf_inbnd _ _ _ _ W). cbn [rbind].
  destruct ((x <? w) && (y <? h) && ((x >? -1) && (y >? -1))); auto. eapply IH; eauto.
Qed.
Theorem C40_refuted : exists pts b, wf b 5 3 8 /\ (exists x y, In (x, y) pts /\ ~ inside 5 3 x y) /\
  listinBMPrecbnd pts b = Ok true.
Proof.
  exists [(0, 0); (99, 0)], (sample 5 3 8). split; [apply sample8_wf|]. split.
  - exists 99, 0. split; [cbn; auto|unfold inside; lia].
  - vm_compute; reflexivity.
Qed.
Print Assumptions C40_listinBMPrecbnd.
