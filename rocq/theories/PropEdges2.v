(** Properties C100-C103: palettes chosen from a histogram, reduced colour depth, colours
    matched to a palette, palette cycles saved as frames. *)
From Coq Require Import ZArith String List Bool Lia.
From Verif Require Import PyBase PyFacts Spec SpecShapes SpecEdges Palette Bmp BmpFacts PixelProofs PlotList Region Raster HeaderProofs PalProofs IterProofs
  Geometry Draw DrawProofs DrawProofs3 ShapeProofs Shapes Files FileProofs Wrappers WrapProofs Fractal FractProofs FractProofs3 FractProofs5 Edges EdgeProofs EdgeProofs2 EdgeProofs3 EdgeProofs4
  Concrete PropFiles PropCore PropDraw PropRegion PropShapes PropWrap.
Import ListNotations.
Open Scope string_scope.
Open Scope list_scope.
Open Scope Z_scope.
Open Scope py_scope.

(** * C100 *)
(** The palette chosen from the histogram of a 24-bit image. *)
Theorem C100_choice : forall near b w h n, wf b w h 24 -> 1 < n ->
  exists hist, colorhistogram b = Ok hist /\ frequent_pal near b w h n (makenewpalfromcolorhist near hist n).
Proof.
  intros near b w h n W Hn. destruct (C14_colorhistogram b w h 24 W) as (hist & E & _). exists hist. split; [exact E|]. now apply freq_pal.
Qed.
(** It is stored in the other bitmap only when it is full; otherwise that bitmap stays
    as it is.  The chosen palette is returned in both cases. *)
Theorem C100_set : forall near sb w h nb w' h' bits o, wf sb w h 24 -> wf nb w' h' bits -> bits = 4 \/ bits = 8 ->
  exists pal nb', setnewpalfromsourcebmp near sb (mkst nb o) = (Ok pal, mkst nb' o) /\ frequent_pal near sb w h (2 ^ bits) pal /\
    wf nb' w' h' bits /\
    (zlen pal = 2 ^ bits -> forall i, 0 <= i < 2 ^ bits -> nth_error pal (Z.to_nat i) = Some (pal_entry nb' i)) /\
    (zlen pal <> 2 ^ bits -> nb' = nb) /\
    (forall x y, inside w' h' x y -> pixel nb' w' h' bits x y = pixel nb w' h' bits x y).
Proof.
  intros near sb w h nb w' h' bits o Ws Wn Hb. destruct (setnew_run near sb w h nb w' h' bits o Ws Wn Hb) as (pal & nb' & E & F & W' & P1 & P2 & _ & P4).
  exists pal, nb'. split; [exact E|]. split; [exact F|]. split; [exact W'|]. split; [|auto].
  intros L i Hi. assert (N : bits <> 24) by lia. specialize (P1 L). rewrite (getallRGBpal_ok _ _ _ _ W' N) in P1. injection P1 as <-.
  rewrite (nth_error_nth' _ (0, 0, 0)) by (pose proof (zlen_range 0 (2 ^ bits)) as Lr; rewrite map_length; unfold zlen in Lr; lia).
  f_equal. now apply nth_range.
Qed.
(** With few colours in the image the palette is returned but not stored. *)
Theorem C100_stored_refuted : exists sb nb pal nb', wf sb 1 1 24 /\ wf nb 1 1 4 /\
  setnewpalfromsourcebmp (fun d => d <? 1) sb (mkst nb []) = (Ok pal, mkst nb' []) /\
  nth_error pal 1 = Some (200, 100, 50) /\ forall i, 0 <= i < 16 -> pal_entry nb' i <> (200, 100, 50).
Proof.
  exists (after (plotxybit 0 0 (200 * 65536 + 100 * 256 + 50)) (blank 1 1 24)), (blank 1 1 4). eexists. eexists.
  split; [concrete_wf|]. split; [concrete_wf|]. split; [vm_compute; reflexivity|]. split; [reflexivity|].
  intros i Hi. assert (K : forallb (fun i => let '(r, g, b) := pal_entry (blank 1 1 4) i in negb ((r =? 200) && (g =? 100) && (b =? 50))) (range 0 16) = true) by (vm_compute; reflexivity).
  rewrite forallb_forall in K. specialize (K i ltac:(apply in_range; lia)). intros Q.
  change (pal_entry (blank 1 1 4) i = (200, 100, 50)) in Q. rewrite Q in K. discriminate.
Qed.
Example C100_ex : wf (sample24 5 3) 5 3 24 /\ wf (sample 5 3 4) 5 3 4 /\
  outcome (setnewpalfromsourcebmp (fun d => d <? 400) (sample24 5 3)) (sample 5 3 4) =
    Ok [(0, 0, 0); (226, 26, 55); (223, 11, 34); (211, 3, 14); (204, 20, 29)].
Proof. split; [apply sample24_wf|]. split; [apply sample4_wf|]. vm_compute. reflexivity. Qed.
Print Assumptions C100_choice.
Print Assumptions C100_set.
Print Assumptions C100_stored_refuted.

(** * C101 *)
(** Reduction of a 24-bit file to 4 or 8 bits: each pixel gets the number of the nearest
    entry, black ones excluded, of the chosen palette; that palette is stored only when
    it is full, otherwise the file has the default palette of the depth. *)
Lemma nearest_range pal c k n : zlen pal <= n -> 0 < n -> nearest_nonblack pal c k -> 0 <= k < n.
Proof.
  intros L Hn [(p & H0 & H1 & _)|[-> _]]; [|lia]. assert (Z.to_nat k < length pal)%nat by (apply nth_error_Some; congruence). unfold zlen in L. lia.
Qed.
Lemma reduce_small bits k : 0 <= k < 2 ^ bits -> reduce bits k = k.
Proof.
  intros H. unfold reduce. destruct (Z.eqb_spec bits 1) as [->|]; [change (2 ^ 1) with 2 in H; destruct (Z.ltb_spec 0 k); lia|].
  destruct (bits =? 24); [reflexivity|]. now apply Z.mod_small.
Qed.
Theorem C101_reduced : forall near rnd bits src dst W sb w h, files W src = Some sb -> wf sb w h 24 -> 0 < w -> 0 < h -> bits = 4 \/ bits = 8 ->
  exists pal W' nb, reduce24bitimagebits near None rnd bits src dst W = (Ok (Some tt), W') /\ only_file W W' dst nb /\
    con W' = con W ++ [Mtext; Msaved; Mdone] /\ wf nb w h bits /\ frequent_pal near sb w h (2 ^ bits) pal /\
    (forall x y, inside w h x y -> nearest_nonblack pal (rgb_of (pixel sb w h 24 x y)) (pixel nb w h bits x y)) /\
    (zlen pal = 2 ^ bits -> forall i, 0 <= i < 2 ^ bits -> nth_error pal (Z.to_nat i) = Some (pal_entry nb i)) /\
    (zlen pal <> 2 ^ bits -> getallRGBpal nb = getdefaultbitpal bits).
Proof.
  intros near rnd bits src dst W sb w h Hf Ws Hw Hh Hb. pose proof (C10_condition sb w h 24 Ws (or_intror (conj Hw Hh))) as Hl.
  assert (N : bits <> 24) by lia. assert (Hd : valid_depth bits) by (unfold valid_depth; lia). assert (Hp : 0 < 2 ^ bits) by (destruct Hb as [-> | ->]; reflexivity).
  destruct (newBMP_wf w h bits Hd (wf_wrange _ _ _ _ Ws) (wf_hrange _ _ _ _ Ws)) as (n0 & E0 & W0 & _ & D0 & _).
  destruct (C100_set near sb w h n0 w h bits (con W ++ [Mtext]) Ws W0 Hb) as (pal & n1 & E1 & F & W1 & P1 & P2 & _).
  destruct (reduce_file near None rnd bits src dst W sb w h n0 n1 pal Hf Ws Hl N E0 W1) as (W' & nb & E & O & C & R).
  { replace (bits >? 1) with true by (destruct Hb as [-> | ->]; reflexivity). exact E1. }
  exists pal, W', nb. split; [exact E|]. split; [exact O|]. split; [exact C|]. split; [apply R|]. split; [exact F|]. split; [|split].
  - intros x y I. rewrite (proj2 (proj2 R)) by auto. replace (bits =? 1) with false by (destruct Hb as [-> | ->]; reflexivity).
    assert (K : nearest_nonblack pal (rgb_of (pixel sb w h 24 x y)) (matchRGBtopal false (rgb_of (pixel sb w h 24 x y)) pal)).
    { apply match_tuple; [apply rgb_of_ok; now apply (pixel_range sb w h 24)|]. now apply (freq_ok near sb w h (2 ^ bits)). }
    rewrite reduce_small; [exact K|]. eapply nearest_range; [apply F|lia|exact K].
  - intros L i Hi. rewrite (P1 L i Hi). f_equal. symmetry. apply (repainted_pal _ _ _ _ _ _ _ R); auto.
  - intros L. specialize (P2 L). subst n1. destruct (D0 N) as (p & G1 & G2). rewrite G1.
    rewrite (getallRGBpal_ok _ _ _ _ W0 N) in G2. injection G2 as <-. rewrite (getallRGBpal_ok _ _ _ _ (proj1 R) N). f_equal.
    apply map_ext_in. intros i Hi. apply in_range in Hi. apply (repainted_pal _ _ _ _ _ _ _ R); auto.
Qed.
(** with a single-hue palette ([f v] are the rounded products of the factors with v) *)
Theorem C101_mono : forall near f rnd bits src dst W sb w h, files W src = Some sb -> wf sb w h 24 -> 0 < w -> 0 < h -> bits = 4 \/ bits = 8 ->
  (forall c, 0 <= c < 256 -> byte3 (f c)) ->
  exists W' nb, reduce24bitimagebits near (Some f) rnd bits src dst W = (Ok (Some tt), W') /\ only_file W W' dst nb /\ wf nb w h bits /\
    (forall i, 0 <= i < 2 ^ bits -> pal_entry nb i = f (i * (255 / (2 ^ bits - 1)))) /\
    (forall x y, inside w h x y ->
       nearest_nonblack (map (pal_entry nb) (range 0 (2 ^ bits))) (rgb_of (pixel sb w h 24 x y)) (pixel nb w h bits x y)).
Proof.
  intros near f rnd bits src dst W sb w h Hf Ws Hw Hh Hb Hbt. pose proof (C10_condition sb w h 24 Ws (or_intror (conj Hw Hh))) as Hl.
  assert (N : bits <> 24) by lia. assert (Hd : valid_depth bits) by (unfold valid_depth; lia). assert (Hp : 0 < 2 ^ bits) by (destruct Hb as [-> | ->]; reflexivity).
  destruct (newBMP_wf w h bits Hd (wf_wrange _ _ _ _ Ws) (wf_hrange _ _ _ _ Ws)) as (n0 & E0 & W0 & _).
  destruct (mono_run n0 w h bits (con W ++ [Mtext]) f W0 N Hbt) as (n1 & E1 & W1 & G & _).
  destruct (reduce_file near (Some f) rnd bits src dst W sb w h n0 n1 (map (fun i => f (i * (255 / (2 ^ bits - 1)))) (range 0 (2 ^ bits))) Hf Ws Hl N E0 W1) as (W' & nb & E & O & C & R).
  { replace (bits >? 1) with true by (destruct Hb as [-> | ->]; reflexivity). exact E1. }
  assert (Pe : forall i, 0 <= i < 2 ^ bits -> pal_entry nb i = f (i * (255 / (2 ^ bits - 1)))).
  { intros i Hi. rewrite (repainted_pal _ _ _ _ _ _ i R) by auto. rewrite (nthpal_entry _ _ _ _ _ i W1 N G Hi). now rewrite nthpal_map. }
  assert (Eq : map (pal_entry nb) (range 0 (2 ^ bits)) = map (fun i => f (i * (255 / (2 ^ bits - 1)))) (range 0 (2 ^ bits))).
  { apply map_ext_in. intros i Hi. apply in_range in Hi. now apply Pe. }
  exists W', nb. split; [exact E|]. split; [exact O|]. split; [apply R|]. split; [exact Pe|].
  intros x y I. rewrite (proj2 (proj2 R)) by auto. replace (bits =? 1) with false by (destruct Hb as [-> | ->]; reflexivity). rewrite Eq.
  assert (K : nearest_nonblack (map (fun i => f (i * (255 / (2 ^ bits - 1)))) (range 0 (2 ^ bits))) (rgb_of (pixel sb w h 24 x y))
    (matchRGBtopal false (rgb_of (pixel sb w h 24 x y)) (map (fun i => f (i * (255 / (2 ^ bits - 1)))) (range 0 (2 ^ bits))))).
  { apply match_tuple; [apply rgb_of_ok; now apply (pixel_range sb w h 24)|]. apply Forall_forall. intros p Hpn. apply in_map_iff in Hpn.
    destruct Hpn as (i & <- & Hi). apply in_range in Hi.
    assert (Hv : 0 <= i * (255 / (2 ^ bits - 1)) < 256).
    { destruct Hb as [-> | ->]; [change (255 / (2 ^ 4 - 1)) with 17|change (255 / (2 ^ 8 - 1)) with 1]; cbn in Hi; lia. }
    specialize (Hbt _ Hv). destruct (f _) as [[r g] b]. destruct Hbt as (B1 & B2 & B3). repeat split; apply B1 || apply B2 || apply B3. }
  rewrite reduce_small; [exact K|]. eapply nearest_range; [|exact Hp|exact K]. rewrite zlen_map, zlen_range. lia.
Qed.
(** one bit: the colour number drawn for the pixel *)
Theorem C101_one_bit : forall near mono rnd src dst W sb w h, files W src = Some sb -> wf sb w h 24 -> 0 < w -> 0 < h ->
  (forall x y, rnd x y = 0 \/ rnd x y = 1) ->
  exists W' nb, reduce24bitimagebits near mono rnd 1 src dst W = (Ok (Some tt), W') /\ only_file W W' dst nb /\ wf nb w h 1 /\
    getallRGBpal nb = Ok [(0, 0, 0); (255, 255, 255)] /\ forall x y, inside w h x y -> pixel nb w h 1 x y = rnd x y.
Proof.
  intros near mono rnd src dst W sb w h Hf Ws Hw Hh Hr. pose proof (C10_condition sb w h 24 Ws (or_intror (conj Hw Hh))) as Hl.
  assert (N : 1 <> 24) by lia. assert (Hd : valid_depth 1) by (unfold valid_depth; lia).
  destruct (newBMP_wf w h 1 Hd (wf_wrange _ _ _ _ Ws) (wf_hrange _ _ _ _ Ws)) as (n0 & E0 & W0 & _ & D0 & _).
  destruct (reduce_file near mono rnd 1 src dst W sb w h n0 n0 [] Hf Ws Hl N E0 W0 eq_refl) as (W' & nb & E & O & C & R).
  exists W', nb. split; [exact E|]. split; [exact O|]. split; [apply R|]. split.
  - destruct (D0 N) as (p & G1 & G2). rewrite (getallRGBpal_ok _ _ _ _ W0 N) in G2. rewrite (getallRGBpal_ok _ _ _ _ (proj1 R) N).
    transitivity (Ok (map (pal_entry n0) (range 0 (2 ^ 1)))); [f_equal; apply map_ext_in; intros i Hi; apply in_range in Hi; now apply (repainted_pal _ _ _ _ _ _ _ R)|].
    rewrite G2. rewrite <- G1. reflexivity.
  - intros x y I. rewrite (proj2 (proj2 R)) by auto. cbn [Z.eqb Pos.eqb]. destruct (Hr x y) as [-> | ->]; reflexivity.
Qed.
Theorem C101_refused : forall near mono rnd newbits src dst W sb w h bits, files W src = Some sb -> wf sb w h bits -> 0 < w -> 0 < h -> bits <> 24 ->
  reduce24bitimagebits near mono rnd newbits src dst W = (Ok (Some tt), mkw (files W) (con W ++ [Mtext; Mnot24bit; Mdone])).
Proof.
  intros near mono rnd newbits src dst W sb w h bits Hf Ws Hw Hh N. pose proof (C10_condition sb w h bits Ws (or_introl N)) as Hl.
  set (V := mkw (files W) (con W ++ [Mtext])). unfold reduce24bitimagebits. rewrite (clink_timer _ _ _ _ Hf). fold V.
  rewrite (fbind_ok _ _ _ _ _ (load_text src W sb w h bits Hf Ws Hl)). fold V. rewrite (fbind_ok _ _ V sb V eq_refl).
  rewrite (fbind_ok _ _ V bits V) by (unfold flift; now rewrite (wf_rbits _ _ _ _ Ws)).
  destruct (Z.eqb_spec bits 24); [contradiction|]. cbn. now rewrite <- !app_assoc.
Qed.
Theorem C101_missing : forall near mono rnd newbits src dst W, files W src = None ->
  reduce24bitimagebits near mono rnd newbits src dst W = (Ok None, mkw (files W) (con W ++ [Mfilenotexist])).
Proof. intros near mono rnd newbits src dst W H. unfold reduce24bitimagebits, checklink. now rewrite H. Qed.
(** An image of one colour, black or not, does not keep it, though the colour is in the
    chosen palette. *)
Theorem C101_colors_refuted : forall c, In c [(0, 0, 0); (200, 100, 50)] -> exists sb, wf sb 2 1 24 /\
  (forall x, 0 <= x < 2 -> rgb_of (pixel sb 2 1 24 x 0) = (200, 100, 50) \/ rgb_of (pixel sb 2 1 24 x 0) = (0, 0, 0)) /\
  rgb_of (pixel sb 2 1 24 0 0) = c /\
  match files (snd (reduce24bitimagebits (fun d => d <? 1) None (fun _ _ => 0) 4 "a" "b" (mkw (fput nofiles "a" sb) []))) "b"%string with
  | Some nb => pal_entry nb (pixel nb 2 1 4 0 0) <> c | None => False end.
Proof.
  intros c [<-|[<-|[]]].
  - exists (after (plotxybit 1 0 (200 * 65536 + 100 * 256 + 50)) (blank 2 1 24)). split; [concrete_wf|]. split.
    + intros x Hx. assert (x = 0 \/ x = 1) as [-> | ->] by lia; [right|left]; vm_compute; reflexivity.
    + split; [vm_compute; reflexivity|]. vm_compute. discriminate.
  - exists (after (plotxybit 0 0 (200 * 65536 + 100 * 256 + 50)) (blank 2 1 24)). split; [concrete_wf|]. split.
    + intros x Hx. assert (x = 0 \/ x = 1) as [-> | ->] by lia; [left|right]; vm_compute; reflexivity.
    + split; [vm_compute; reflexivity|]. vm_compute. discriminate.
Qed.
Example C101_ex : wf (sample24 5 3) 5 3 24 /\ byte3 (7, 8, 9) /\
  match files (snd (reduce24bitimagebits (fun d => d <? 400) None (fun _ _ => 0) 8 "a" "b" (mkw (fput nofiles "a" (sample24 5 3)) []))) "b"%string with
  | Some nb => rows nb 5 3 8 = [[3; 3; 3; 4; 4]; [3; 3; 4; 2; 2]; [2; 2; 2; 1; 1]] | None => False end.
Proof. split; [apply sample24_wf|]. split; [unfold byte3, byte; lia|]. vm_compute. reflexivity. Qed.
Print Assumptions C101_reduced.
Print Assumptions C101_mono.
Print Assumptions C101_one_bit.
Print Assumptions C101_refused.
Print Assumptions C101_missing.
Print Assumptions C101_colors_refuted.

(** * C102 *)
(** The colours of a dictionary are replaced by the numbers of the nearest palette entries
    that are not black; 24-bit bitmaps leave them as they are. *)
Theorem C102_dict : forall (K : Type) (d : list (K * Z)) b w h bits, wf b w h bits -> bits <> 24 ->
  Forall (fun kv => 0 <= snd kv < 2 ^ 24) d ->
  exists d', adjustcolordicttopal d b = Ok d' /\
    Forall2 (fun kv kv' => fst kv' = fst kv /\
      nearest_nonblack (map (pal_entry b) (range 0 (2 ^ bits))) (rgb_of (snd kv)) (snd kv')) d d'.
Proof.
  intros K d b w h bits W N Hd. unfold adjustcolordicttopal, getclrbits. rewrite (wf_rbits _ _ _ _ W). cbn [rbind].
  replace (bits <? 24) with true by (symmetry; apply Z.ltb_lt; destruct (wf_depth _ _ _ _ W) as [-> | [-> | [-> | ->]]]; lia).
  pose proof (getallRGBpal_ok _ _ _ _ W N) as G.
  assert (Hb : Forall rgb_ok (map (pal_entry b) (range 0 (2 ^ bits)))).
  { apply Forall_forall. intros p Hp. apply in_map_iff in Hp. destruct Hp as (i & <- & Hi). apply in_range in Hi. eapply pal_entry_ok; eauto. }
  induction d as [|[k c] d IH]; [exists []; split; [reflexivity|constructor]|].
  inversion Hd as [|a l H1 H2 E]; subst. cbn [snd] in H1. destruct (IH H2) as (d' & E' & F).
  assert (Hc : int2RGBarr c = Ok (rgb_of c)).
  { unfold int2RGBarr. rewrite int2RGB_of. pose proof (rgb_of_ok c H1) as B. destruct (rgb_of c) as [[r g] bl]. destruct B as (B1 & B2 & B3).
    cbn [fst snd] in B1, B2, B3. rewrite py_array_ok by (apply Forall_cons; [exact B1|apply Forall_cons; [exact B2|apply Forall_cons; [exact B3|constructor]]]). reflexivity. }
  eexists. split.
  - cbn [mapR fst snd]. rewrite Hc. cbn [rbind]. rewrite G at 1. cbn [rbind]. rewrite E'. reflexivity.
  - constructor; [|exact F]. cbn [fst snd]. split; [reflexivity|]. apply match_tuple; [|exact Hb]. now apply rgb_of_ok.
Qed.
Theorem C102_dict24 : forall (K : Type) (d : list (K * Z)) b w h, wf b w h 24 -> adjustcolordicttopal d b = Ok d.
Proof. intros K d b w h W. unfold adjustcolordicttopal, getclrbits. rewrite (wf_rbits _ _ _ _ W). reflexivity. Qed.
(** a colour outside 24 bits raises OverflowError *)
Theorem C102_dict_overflow : forall (K : Type) (k : K) c d b w h bits, wf b w h bits -> bits <> 24 -> ~ 0 <= c < 2 ^ 24 ->
  adjustcolordicttopal ((k, c) :: d) b = Err OverflowError.
Proof.
  intros K k c d b w h bits W N Hc. unfold adjustcolordicttopal, getclrbits. rewrite (wf_rbits _ _ _ _ W). cbn [rbind].
  replace (bits <? 24) with true by (symmetry; apply Z.ltb_lt; destruct (wf_depth _ _ _ _ W) as [-> | [-> | [-> | ->]]]; lia).
  cbn [mapR]. unfold int2RGBarr, int2RGB. cbn [fst snd]. unfold py_array. cbn [forallb].
  assert (E : Z.shiftr c 16 = c / 2 ^ 16) by (apply Z.shiftr_div_pow2; lia). rewrite E. clear E.
  replace (is_byte (c / 2 ^ 16)) with false; [reflexivity|]. symmetry. unfold is_byte. apply andb_false_iff. rewrite Z.leb_gt, Z.ltb_ge.
  destruct (Z.lt_ge_cases c 0) as [L|L].
  - left. apply Z.div_lt_upper_bound; lia.
  - right. apply Z.div_le_lower_bound; lia.
Qed.
(** the black entry is never chosen, not even for black *)
Theorem C102_black_refuted : exists b i, wf b 1 1 4 /\ pal_entry b i = (0, 0, 0) /\ 0 <= i < 16 /\
  adjustcolordicttopal [(0, 0)] b = Ok [(0, 1)] /\ pal_entry b 1 <> (0, 0, 0).
Proof.
  exists (blank 1 1 4), 0. split; [concrete_wf|]. split; [vm_compute; reflexivity|]. split; [lia|]. split; [vm_compute; reflexivity|]. vm_compute. discriminate.
Qed.
(** the brightness of the palette: [adj] is applied to every entry of the returned list *)
Theorem C102_brightness : forall adj b w h bits, wf b w h bits -> bits <> 24 ->
  RGBpalbrightnessadjust adj b = Ok (map (fun i => adj (pal_entry b i)) (range 0 (2 ^ bits))).
Proof. intros adj b w h bits W N. unfold RGBpalbrightnessadjust. rewrite (getallRGBpal_ok _ _ _ _ W N). cbn [rbind]. now rewrite map_map. Qed.
Example C102_ex : wf (sample 5 3 8) 5 3 8 /\ Forall (fun kv => 0 <= snd kv < 2 ^ 24) [(1, 16711680); (2, 255)] /\
  adjustcolordicttopal [(1, 16711680); (2, 255)] (sample 5 3 4) = Ok [(1, 9); (2, 12)].
Proof. split; [apply sample8_wf|]. split; [repeat constructor; cbn; lia|]. vm_compute. reflexivity. Qed.
Print Assumptions C102_dict.
Print Assumptions C102_dict24.
Print Assumptions C102_dict_overflow.
Print Assumptions C102_black_refuted.
Print Assumptions C102_brightness.

(** * C103 *)
(** One file per step of the palette cycle: cwd/newdir/i.bmp holds the image with its
    palette rotated by i entries; no other file changes. *)
Theorem C103_frames : forall exists_ cwd src newdir ow W b w h bits, files W src = Some b -> wf b w h bits -> bits = 4 \/ bits = 8 ->
  exists_ && negb ow = false ->
  exists W', colorcycle2dir exists_ cwd src newdir ow W = (Ok (Some tt), W') /\
    (forall i, 0 <= i < 2 ^ bits -> exists fr, files W' (framename cwd newdir (Z.to_nat i)) = Some fr /\ wf fr w h bits /\
       (forall k, 0 <= k < 2 ^ bits -> pal_entry fr k = pal_entry b ((k + i) mod 2 ^ bits)) /\
       (forall x y, inside w h x y -> pixel fr w h bits x y = pixel b w h bits x y)) /\
    (forall n, (forall i, 0 <= i < 2 ^ bits -> n <> framename cwd newdir (Z.to_nat i)) -> files W' n = files W n) /\
    con W' = con W ++ repeat Msaved (Z.to_nat (2 ^ bits)).
Proof.
  intros exists_ cwd src newdir ow W b w h bits Hf Wb Hb He. assert (N : bits <> 24) by lia. pose proof (C10_condition b w h bits Wb (or_introl N)) as Hl.
  destruct (cycle_run b w h bits (con W) Wb Hb) as (frames & b' & E & L & K).
  destruct (saveframes_run cwd newdir frames 0 W) as (W' & E' & F1 & F2 & C).
  assert (Ln : length frames = Z.to_nat (2 ^ bits)) by (unfold zlen in L; lia).
  exists W'. split; [|split; [|split]].
  - unfold colorcycle2dir, checklink. rewrite Hf.
    assert (T : (l <~ loadBMP src ;; _ <~ (if exists_ && negb ow then fraise ValueError else fret tt) ;; obmp <~ notNone l ;;
       r <~ callM obmp (itercolorcycle [] (fun fs => fun s => (Ok (fs ++ [mem s]), s))) ;; frames <~ notNone (fst r) ;; saveframes cwd newdir 0 frames) W = (Ok tt, W')).
    { rewrite (fbind_ok _ _ _ _ _ (load_wf src W b w h bits Hf Wb Hl)). rewrite He. destruct W as [fs cn].
      rewrite (fbind_ok _ _ _ tt (mkw fs cn) eq_refl). rewrite (fbind_ok _ _ _ b (mkw fs cn) eq_refl).
      rewrite (fbind_ok _ _ _ (Some frames, b') (mkw fs cn)) by (apply callM_ok; exact E).
      rewrite (fbind_ok _ _ _ frames (mkw fs cn) eq_refl). exact E'. }
    rewrite (fbind_ok _ _ _ _ _ T). reflexivity.
  - intros i Hi. destruct (nth_error frames (Z.to_nat i)) as [fr|] eqn:Q; [|apply nth_error_None in Q; lia].
    exists fr. specialize (F1 _ _ Q). specialize (K _ _ Q). rewrite Z2Nat.id in K by lia. destruct K as (K1 & K2 & _ & K4). auto.
  - intros n Hn. apply F2. intros k Hk. specialize (Hn (Z.of_nat k) ltac:(lia)). rewrite Nat2Z.id in Hn. exact Hn.
  - now rewrite C, Ln.
Qed.
(** the names of the frames are different *)
Theorem C103_names : forall cwd newdir i j, framename cwd newdir i = framename cwd newdir j -> i = j.
Proof. exact framename_inj. Qed.
Theorem C103_refused : forall exists_ cwd src newdir ow W b w h bits, files W src = Some b -> wf b w h bits -> 0 < w -> 0 < h ->
  (exists_ && negb ow = true ->
     colorcycle2dir exists_ cwd src newdir ow W = (Err ValueError, W)) /\
  (exists_ && negb ow = false -> bits = 1 \/ bits = 24 ->
     colorcycle2dir exists_ cwd src newdir ow W = (Err TypeError, mkw (files W) (con W ++ [Mnot4or8bit]))).
Proof.
  intros exists_ cwd src newdir ow W b w h bits Hf Wb Hw Hh. pose proof (C10_condition b w h bits Wb (or_intror (conj Hw Hh))) as Hl.
  split; intros He.
  - unfold colorcycle2dir, checklink. rewrite Hf. unfold fbind at 1. rewrite (fbind_ok _ _ _ _ _ (load_wf src W b w h bits Hf Wb Hl)). rewrite He. destruct W; reflexivity.
  - intros Hb. unfold colorcycle2dir, checklink. rewrite Hf. unfold fbind at 1. rewrite (fbind_ok _ _ _ _ _ (load_wf src W b w h bits Hf Wb Hl)). rewrite He.
    destruct W as [fs cn]. rewrite (fbind_ok _ _ _ tt (mkw fs cn) eq_refl). rewrite (fbind_ok _ _ _ b (mkw fs cn) eq_refl).
    rewrite (fbind_ok _ _ _ (None, b) (mkw fs (cn ++ [Mnot4or8bit]))); [reflexivity|]. apply callM_ok.
    unfold itercolorcycle, func4and8bitonly. rewrite (bind_ok _ _ _ _ _ (wf_geti_bits _ _ _ _ Wb _)). destruct Hb as [-> | ->]; reflexivity.
Qed.
Theorem C103_missing : forall exists_ cwd src newdir ow W, files W src = None ->
  colorcycle2dir exists_ cwd src newdir ow W = (Ok None, mkw (files W) (con W ++ [Mfilenotexist])).
Proof. intros exists_ cwd src newdir ow W H. unfold colorcycle2dir, checklink. now rewrite H. Qed.
Example C103_ex : wf (sample 5 3 4) 5 3 4 /\ framename "/d" "n" 12 = "/d/n/12.bmp"%string /\
  match files (snd (colorcycle2dir false "/d" "a" "n" false (mkw (fput nofiles "a" (sample 5 3 4)) []))) "/d/n/3.bmp"%string with
  | Some fr => pal_entry fr 15 = pal_entry (sample 5 3 4) 2 /\ rows fr 5 3 4 = rows (sample 5 3 4) 5 3 4 | None => False end.
Proof. split; [apply sample4_wf|]. split; [reflexivity|]. vm_compute. split; reflexivity. Qed.
Print Assumptions C103_frames.
Print Assumptions C103_names.
Print Assumptions C103_refused.
Print Assumptions C103_missing.
