(** Properties C32-C34, C39, C47: palette matching, buffers, vectors. *)
From Coq Require Import ZArith List Bool Lia.
From Verif Require Import PyBase PyFacts Spec Bmp BmpFacts PixelProofs Buffers HorizProofs Draw DrawProofs3 MathLib MiscProofs Concrete.
Import ListNotations.
Open Scope Z_scope.
Open Scope py_scope.

(** * C32 *)
(** a colour that occurs in the palette: its first index *)
Theorem C32_exact : forall rgb pal, In rgb pal ->
  exists n, matchRGBtopal true rgb pal = Z.of_nat n /\ nth_error pal n = Some rgb /\
    forall m, (m < n)%nat -> nth_error pal m <> Some rgb.
Proof.
  intros rgb pal Hin. unfold matchRGBtopal. pose proof (pal_index_spec rgb pal 0) as K.
  destruct (pal_index rgb pal 0) as [k|]; [|contradiction]. destruct K as (n & -> & E). exists n.
  split; [lia|exact E].
Qed.
(** otherwise the first of the nearest entries that are not black; the squared
    distances of byte triples are less than 442^2 *)
Theorem C32_nearest : forall rgb pal, ~ In rgb pal -> rgb <> (0, 0, 0) ->
  rgb_ok rgb -> Forall rgb_ok pal -> (exists p, In p pal /\ p <> (0, 0, 0)) ->
  exists n p, matchRGBtopal true rgb pal = Z.of_nat n /\ nth_error pal n = Some p /\ p <> (0, 0, 0) /\
    (forall q, In q pal -> q <> (0, 0, 0) -> rgb_dist2 rgb p <= rgb_dist2 rgb q) /\
    (forall j q, (j < n)%nat -> nth_error pal j = Some q -> q <> (0, 0, 0) -> rgb_dist2 rgb p < rgb_dist2 rgb q).
Proof.
  intros rgb pal Nin Nb Hr Hp (p0 & Hp0 & Np0).
  assert (D : forall u v, dist2 u v = rgb_dist2 u v)
    by (intros ((?, ?), ?) ((?, ?), ?); unfold dist2, rgb_dist2; ring).
  unfold matchRGBtopal. pose proof (pal_index_spec rgb pal 0) as K.
  destruct (pal_index rgb pal 0) as [k|].
  { destruct K as (n & _ & E & _). apply nth_error_In in E. contradiction. }
  assert (Nb' : true && rgb_eqb rgb (0, 0, 0) = false) by (cbn [andb]; now apply rgb_eqb_neq).
  destruct (pal_nearest_spec true rgb pal Nb' 0 0 (442 * 442)) as [[E Q]|(n & p & A1 & A2 & A3 & A4 & A5 & A6)].
  - exfalso. specialize (Q p0 Hp0 Np0). pose proof (proj1 (Forall_forall _ _) Hp p0 Hp0) as B.
    pose proof (dist2_small rgb p0 Hr B). lia.
  - exists n, p. rewrite A2. split; [lia|]. split; auto. split; auto. split.
    + intros q Hq Nq. rewrite <- !D. auto.
    + intros j q Hj Eq Nq. rewrite <- !D. eauto.
Qed.
(** black that is not in the palette, and palettes with black only: entry 0 *)
Theorem C32_black : forall pal, ~ In (0, 0, 0) pal -> matchRGBtopal true (0, 0, 0) pal = 0.
Proof.
  intros pal N. unfold matchRGBtopal. pose proof (pal_index_spec (0, 0, 0) pal 0) as K.
  destruct (pal_index (0, 0, 0) pal 0) as [k|].
  - destruct K as (n & _ & E & _). apply nth_error_In in E. contradiction.
  - apply pal_nearest_black.
Qed.
(** it is not the nearest of all entries *)
Theorem C32_nearest_refuted : exists rgb pal p q n, rgb_ok rgb /\ Forall rgb_ok pal /\ In p pal /\
  matchRGBtopal true rgb pal = Z.of_nat n /\ nth_error pal n = Some q /\ rgb_dist2 rgb p < rgb_dist2 rgb q.
Proof.
  exists (1, 1, 1), [(0, 0, 0); (255, 255, 255)], (0, 0, 0), (255, 255, 255), 1%nat.
  unfold rgb_ok, byte; cbn. split; [lia|]. split.
  - repeat constructor; cbn; lia.
  - repeat split; auto.
Qed.
Example C32_ex : matchRGBtopal true (200, 10, 10) [(0, 0, 0); (0, 255, 0); (255, 0, 0); (255, 0, 0)] = 2.
Proof. vm_compute; reflexivity. Qed.
Print Assumptions C32_exact.
Print Assumptions C32_nearest.
Print Assumptions C32_black.
Print Assumptions C32_nearest_refuted.

(** * C33 *)
(** pixel i of a buffer of the given depth, counted from the left *)
Definition bufpixel (buf : list Z) (bits i : Z) : Z :=
  if bits =? 24 then getz buf (3 * i) + 256 * getz buf (3 * i + 1) + 65536 * getz buf (3 * i + 2)
  else getz buf (i / (8 / bits)) / 2 ^ (8 - bits - bits * (i mod (8 / bits))) mod 2 ^ bits.
Definition bufcount (buf : list Z) (bits : Z) : Z := zlen buf * 8 / bits.

Theorem C33_flipbuf : forall buf bits, bytes buf -> bits = 4 \/ bits = 8 \/ bits = 24 ->
  (bits = 24 -> (3 | zlen buf)) ->
  exists buf', flipbuf buf bits = Ok buf' /\ zlen buf' = zlen buf /\
    forall i, 0 <= i < bufcount buf bits -> bufpixel buf' bits i = bufpixel buf bits (bufcount buf bits - 1 - i).
Proof.
  intros buf bits Hb HB H3. unfold flipbuf, bufpixel, bufcount. destruct HB as [->|[->|HB]].
  - change (4 =? 24) with false. change (4 =? 4) with true. change (4 =? 1) with false. cbn beta iota delta [rbind].
    destruct (flipnib_run (rev buf) (bytes_rev _ Hb)) as (l & E & B & L & G). rewrite E. cbn beta iota.
    rewrite zlen_rev in *. exists l. split; [reflexivity|]. split; [exact L|]. intros i Hi.
    change (8 / 4) with 2 in *. change (2 ^ 4) with 16.
    assert (Hn : zlen buf * 8 / 4 = 2 * zlen buf) by (replace (zlen buf * 8) with (2 * zlen buf * 4) by ring; apply Z.div_mul; lia).
    rewrite Hn in *. pose proof (Z.div_mod i 2 ltac:(lia)). pose proof (Z.mod_pos_bound i 2 ltac:(lia)).
    rewrite G, getz_rev by lia.
    replace ((2 * zlen buf - 1 - i) / 2) with (zlen buf - 1 - i / 2)
      by (apply (Z.div_unique_pos _ _ _ (1 - i mod 2)); lia).
    replace ((2 * zlen buf - 1 - i) mod 2) with (1 - i mod 2)
      by (apply (Z.mod_unique_pos _ _ (zlen buf - 1 - i / 2)); lia).
    pose proof (proj1 (bytes_getz buf) Hb (zlen buf - 1 - i / 2)) as Hv. unfold byte in Hv.
    set (v := getz buf (zlen buf - 1 - i / 2)) in *. unfold swapnib.
    pose proof (Z.div_mod v 16 ltac:(lia)). pose proof (Z.mod_pos_bound v 16 ltac:(lia)).
    assert (i mod 2 = 0 \/ i mod 2 = 1) as [-> | ->] by lia; cbn [Z.sub Z.mul Z.opp Z.add Z.pos_sub Pos.mul].
    + change (2 ^ (8 - 4 - 4 * 0)) with 16. change (2 ^ (8 - 4 - 4 * (1 - 0))) with 1.
      rewrite Z.div_1_r. rewrite Z.div_add_l by lia. rewrite (Z.div_small (v / 16)) by (pose proof (Z.div_pos v 16); lia).
      rewrite Z.add_0_r. now rewrite Z.mod_mod by lia.
    + change (2 ^ (8 - 4 - 4 * 1)) with 1. change (2 ^ (8 - 4 - 4 * (1 - 1))) with 16. rewrite Z.div_1_r.
      rewrite Z.add_comm, Z.mod_add by lia. reflexivity.
  - change (8 =? 24) with false. change (8 =? 4) with false. change (8 =? 1) with false. cbn beta iota delta [rbind].
    exists (rev buf). split; [reflexivity|]. split; [apply zlen_rev|].
    rewrite Z.div_mul by lia. change (8 / 8) with 1. intros i Hi. rewrite !Z.div_1_r, getz_rev by lia.
    rewrite !Z.mod_1_r. reflexivity.
  - subst bits. change (24 =? 24) with true. change (24 =? 4) with false. change (24 =? 1) with false.
    destruct (H3 eq_refl) as (n & Hn). destruct (flip24_run buf n ltac:(lia)) as (l & E & L & G).
    rewrite E. cbn beta iota delta [rbind]. exists l. split; [reflexivity|]. split; [exact L|].
    assert (Hc : zlen buf * 8 / 24 = n) by (rewrite Hn; replace (n * 3 * 8) with (n * 24) by ring; apply Z.div_mul; lia).
    rewrite Hc. intros i Hi.
    pose proof (G i 0 ltac:(lia) ltac:(lia)) as G0. rewrite !Z.add_0_r in G0.
    now rewrite G0, !G by lia.
Qed.
(** the same contents again when flipped twice *)
Theorem C33_involution : forall buf bits, bytes buf -> bits = 4 \/ bits = 8 \/ bits = 24 ->
  (bits = 24 -> (3 | zlen buf)) ->
  exists buf', flipbuf buf bits = Ok buf' /\ flipbuf buf' bits = Ok buf.
Proof.
  intros buf bits Hb HB H3. unfold flipbuf. destruct HB as [->|[->|HB]].
  - change (4 =? 24) with false. change (4 =? 4) with true. change (4 =? 1) with false. cbn beta iota delta [rbind].
    destruct (flipnib_run (rev buf) (bytes_rev _ Hb)) as (l & E & B & L & G). rewrite E. cbn beta iota.
    exists l. split; [reflexivity|].
    destruct (flipnib_run (rev l) (bytes_rev _ B)) as (l2 & E2 & B2 & L2 & G2). rewrite E2. cbn beta iota delta [rbind]. f_equal.
    rewrite zlen_rev in *. apply list_ext; [lia|]. intros i Hi. rewrite G2 by lia. rewrite getz_rev by lia.
    rewrite G by lia. rewrite getz_rev by lia. replace (zlen buf - 1 - (zlen l - 1 - i)) with i by lia.
    pose proof (proj1 (bytes_getz buf) Hb i) as Hv. unfold byte in Hv. unfold swapnib.
    set (v := getz buf i) in *. pose proof (Z.div_mod v 16 ltac:(lia)). pose proof (Z.mod_pos_bound v 16 ltac:(lia)).
    assert (v / 16 < 16) by (apply Z.div_lt_upper_bound; lia). assert (0 <= v / 16) by (apply Z.div_pos; lia).
    rewrite Z.div_add_l by lia. rewrite (Z.div_small (v / 16)) by lia.
    rewrite (Z.add_comm (v mod 16 * 16)), Z.mod_add by lia. rewrite Z.mod_small by lia. lia.
  - change (8 =? 24) with false. change (8 =? 4) with false. change (8 =? 1) with false. cbn beta iota delta [rbind].
    exists (rev buf). rewrite rev_involutive. auto.
  - subst bits. change (24 =? 24) with true. change (24 =? 4) with false. change (24 =? 1) with false.
    destruct (H3 eq_refl) as (n & Hn). destruct (flip24_run buf n ltac:(lia)) as (l & E & L & G).
    rewrite E. cbn beta iota delta [rbind]. exists l. split; [reflexivity|].
    destruct (flip24_run l n ltac:(lia)) as (l2 & E2 & L2 & G2). rewrite E2. cbn beta iota delta [rbind]. f_equal.
    apply list_ext; [lia|]. intros i Hi.
    pose proof (Z.div_mod i 3 ltac:(lia)) as Di. pose proof (Z.mod_pos_bound i 3 ltac:(lia)).
    rewrite Di. assert (0 <= i / 3 < n) by lia. rewrite G2, G by lia. f_equal. lia.
Qed.
(** 1-bit buffers: the right-most pixel of every byte becomes 0 *)
Theorem C33_flipbuf1 : forall buf, bytes buf ->
  exists buf', flipbuf buf 1 = Ok buf' /\ zlen buf' = zlen buf /\
    forall i, 0 <= i < bufcount buf 1 -> bufpixel buf' 1 i =
      if (bufcount buf 1 - 1 - i) mod 8 =? 7 then 0 else bufpixel buf 1 (bufcount buf 1 - 1 - i).
Proof.
  intros buf Hb. unfold flipbuf, bufpixel, bufcount. change (1 =? 24) with false. change (1 =? 4) with false.
  change (1 =? 1) with true. cbn beta iota delta [rbind].
  destruct (rotatebitsinbuf_run (rev buf) (bytes_rev _ Hb)) as (l & E & B & L & G). rewrite E.
  rewrite zlen_rev in *. exists l. split; [reflexivity|]. split; [exact L|]. rewrite Z.div_1_r. intros i Hi.
  change (8 / 1) with 8. change (2 ^ 1) with 2.
  pose proof (Z.div_mod i 8 ltac:(lia)). pose proof (Z.mod_pos_bound i 8 ltac:(lia)).
  replace ((zlen buf * 8 - 1 - i) / 8) with (zlen buf - 1 - i / 8)
    by (apply (Z.div_unique_pos _ _ _ (7 - i mod 8)); lia).
  replace ((zlen buf * 8 - 1 - i) mod 8) with (7 - i mod 8)
    by (apply (Z.mod_unique_pos _ _ (zlen buf - 1 - i / 8)); lia).
  rewrite G, getz_rev by lia. pose proof (proj1 (bytes_getz buf) Hb (zlen buf - 1 - i / 8)) as Hv.
  destruct (rotatebits_spec _ Hv) as [_ R].
  replace (8 - 1 - 1 * (i mod 8)) with (7 - i mod 8) by lia. rewrite R by lia.
  replace (7 - (7 - i mod 8)) with (i mod 8) by lia. replace (8 - 1 - 1 * (7 - i mod 8)) with (i mod 8) by lia.
  reflexivity.
Qed.
Example C33_ex : flipbuf [1;2;3;4;5;6;7;8;9] 24 = Ok [7;8;9;4;5;6;1;2;3] /\
  flipbuf [0x12; 0x34] 4 = Ok [0x43; 0x21] /\ flipbuf [192; 1] 1 = Ok [0; 3].
Proof. repeat split; vm_compute; reflexivity. Qed.
Print Assumptions C33_flipbuf.
Print Assumptions C33_involution.
Print Assumptions C33_flipbuf1.

(** * C34 *)
Lemma nth_error_map_range {A} (f : Z -> A) n i : 0 <= i < n ->
  nth_error (map f (range 0 n)) (Z.to_nat i) = Some (f i).
Proof.
  intros Hi. rewrite nth_error_map. unfold range. rewrite nth_error_map.
  rewrite (nth_error_nth' _ O) by (rewrite seq_length; lia). rewrite seq_nth by lia. cbn [option_map].
  do 2 f_equal. lia.
Qed.
(** for every buffer: two channels of len/2 items *)
Theorem C34_altsplitbuf : forall buf, exists a b, altsplitbuf buf = [a; b] /\
  zlen a = zlen buf / 2 /\ zlen b = zlen buf / 2 /\
  forall i, 0 <= i < zlen buf / 2 -> getz a i = getz buf (2 * i) /\ getz b i = getz buf (2 * i + 1).
Proof.
  intros buf. unfold altsplitbuf. pose proof (zlen_nonneg buf) as Hm.
  pose proof (Z.div_mod (zlen buf) 2 ltac:(lia)). pose proof (Z.mod_pos_bound (zlen buf) 2 ltac:(lia)).
  set (q := zlen buf / 2) in *. set (r := zlen buf mod 2) in *.
  assert (Hland : (if r =? 0 then zlen buf - Z.land (zlen buf) 1 else zlen buf) = zlen buf).
  { destruct (Z.eqb_spec r 0) as [E|E]; auto. change 1 with (Z.ones 1). rewrite Z.land_ones by lia.
    change (2 ^ 1) with 2. fold r. lia. }
  rewrite Hland.
  assert (K : zlen (py_xslice buf 0 (zlen buf - 1) 2) = q /\
    forall j, 0 <= j < q -> getz (py_xslice buf 0 (zlen buf - 1) 2) j = getz buf (2 * j + 0)).
  { destruct (Z.eq_dec (zlen buf) 0) as [E|E].
    - apply zlen_0_nil in E. subst buf. change q with 0. split; [reflexivity|]. intros; lia.
    - apply split_slice; lia. }
  assert (K' : zlen (py_xslice buf 1 (zlen buf) 2) = q /\
    forall j, 0 <= j < q -> getz (py_xslice buf 1 (zlen buf) 2) j = getz buf (2 * j + 1)).
  { destruct (Z.eq_dec (zlen buf) 0) as [E|E].
    - apply zlen_0_nil in E. subst buf. change q with 0. split; [reflexivity|]. intros; lia.
    - apply split_slice; lia. }
  destruct K as [K1 K2], K' as [K3 K4]. eexists _, _. split; [reflexivity|]. split; [exact K1|]. split; [exact K3|].
  intros i Hi. rewrite K2, K4 by lia. split; f_equal; lia.
Qed.
(** n channels: q items each, where q is the number of whole groups, one less
    if there is no rest and the buffer has odd length *)
Theorem C34_altsplitbufnway : forall buf n, 0 < n <= zlen buf ->
  let q := if (zlen buf mod n =? 0) && (zlen buf mod 2 =? 1) then zlen buf / n - 1 else zlen buf / n in
  zlen (map (fun c => zlen c) (altsplitbufnway buf n)) = n /\
  forall i, 0 <= i < n -> exists c, nth_error (altsplitbufnway buf n) (Z.to_nat i) = Some c /\
    zlen c = q /\ forall j, 0 <= j < q -> getz c j = getz buf (n * j + i).
Proof.
  intros buf n Hn q. unfold altsplitbufnway.
  set (m := if zlen buf mod n =? 0 then zlen buf - Z.land (zlen buf) 1 else zlen buf).
  split. { rewrite !zlen_map, zlen_range. lia. }
  intros i Hi. exists (py_xslice buf i (m - (n - 1 - i)) n). split.
  { rewrite nth_error_map_range by lia. reflexivity. }
  pose proof (Z.div_mod (zlen buf) n ltac:(lia)). pose proof (Z.mod_pos_bound (zlen buf) n ltac:(lia)).
  assert (Hq1 : 1 <= zlen buf / n) by (apply Z.div_le_lower_bound; lia).
  assert (Hland : Z.land (zlen buf) 1 = zlen buf mod 2)
    by (change 1 with (Z.ones 1) at 1; rewrite Z.land_ones by lia; reflexivity).
  pose proof (Z.mod_pos_bound (zlen buf) 2 ltac:(lia)).
  unfold m, q. rewrite Hland. clear m q Hland.
  set (L := zlen buf) in *. set (u := L / n) in *. set (r := L mod n) in *. set (p := L mod 2) in *.
  clearbody u r p.
  destruct (Z.eqb_spec r 0) as [E|E]; cbn [andb]; [destruct (Z.eqb_spec p 1) as [E2|E2]|].
  - apply split_slice; fold L; try nia. 
  - apply split_slice; fold L; try nia.
  - apply split_slice; fold L; try nia.
Qed.
Theorem C34_altsplitbuf3way : forall buf,
  let q := if (zlen buf mod 3 =? 0) && (zlen buf mod 2 =? 1) then zlen buf / 3 - 1 else zlen buf / 3 in
  exists b g r, altsplitbuf3way buf = [b; g; r] /\ zlen b = q /\ zlen g = q /\ zlen r = q /\
  forall i, 0 <= i < q -> getz b i = getz buf (3 * i) /\ getz g i = getz buf (3 * i + 1) /\ getz r i = getz buf (3 * i + 2).
Proof.
  intros buf q. assert (E : altsplitbuf3way buf = altsplitbufnway buf 3).
  { unfold altsplitbuf3way, altsplitbufnway. change (range 0 3) with [0; 1; 2]. cbn [map].
    replace (3 - 1 - 0) with 2 by lia. replace (3 - 1 - 1) with 1 by lia. replace (3 - 1 - 2) with 0 by lia.
    now rewrite Z.sub_0_r. }
  pose proof (zlen_nonneg buf). destruct (Z.leb_spec 3 (zlen buf)) as [L|L].
  - destruct (C34_altsplitbufnway buf 3 ltac:(lia)) as [_ K]. fold q in K.
    destruct (K 0 ltac:(lia)) as (b & Eb & Lb & Gb). destruct (K 1 ltac:(lia)) as (g & Eg & Lg & Gg).
    destruct (K 2 ltac:(lia)) as (r & Er & Lr & Gr). rewrite E. exists b, g, r.
    split.
    { unfold altsplitbufnway in *. change (range 0 3) with [0; 1; 2] in *. cbn [map] in *.
      change (Z.to_nat 0) with 0%nat in Eb. change (Z.to_nat 1) with 1%nat in Eg.
      change (Z.to_nat 2) with 2%nat in Er. cbn [nth_error] in *. congruence. }
    split; auto. split; auto. split; auto. intros i Hi. rewrite Gb, Gg, Gr by lia. rewrite Z.add_0_r. auto.
  - assert (Hq : q = 0). { unfold q. rewrite Z.div_small by lia. destruct (Z.eqb_spec (zlen buf mod 3) 0) as [Z0|]; cbn [andb]; auto.
      rewrite Z.mod_small in Z0 by lia. rewrite Z0. reflexivity. }
    rewrite Hq. exists [], [], []. split; [|repeat split; auto; lia].
    destruct buf as [|x [|y [|z t]]]; [vm_compute; reflexivity..|].
    rewrite !zlen_cons in L. pose proof (zlen_nonneg t). lia.
Qed.
(** nothing is lost when the length is even, the last pixel is when it is odd *)
Theorem C34_lost_refuted : exists buf b g r, zlen buf = 9 /\ altsplitbuf3way buf = [b; g; r] /\
  zlen b + zlen g + zlen r = 6.
Proof. exists [1;2;3;4;5;6;7;8;9], [1;4], [2;5], [3;6]. repeat split. Qed.
(** fewer items than channels: a channel can get an item of another place *)
Theorem C34_short_refuted : exists buf n c, zlen buf < n /\ In c (altsplitbufnway buf n) /\ 0 < zlen c.
Proof. exists [1; 2], 4, [1]. repeat split. vm_compute. auto. Qed.
Example C34_ex : altsplitbuf3way [1;2;3;4;5;6] = [[1;4]; [2;5]; [3;6]] /\
  altsplitbufnway [1;2;3;4;5;6;7;8] 4 = [[1;5]; [2;6]; [3;7]; [4;8]].
Proof. split; vm_compute; reflexivity. Qed.
Print Assumptions C34_altsplitbuf.
Print Assumptions C34_altsplitbufnway.
Print Assumptions C34_altsplitbuf3way.
Print Assumptions C34_lost_refuted.
Print Assumptions C34_short_refuted.

(** * C39 *)
Lemma cross3 u1 u2 u3 v1 v2 v3 :
  crossprod3d [u1; u2; u3] [v1; v2; v3] = [u2 * v3 - u3 * v2; u3 * v1 - u1 * v3; u1 * v2 - u2 * v1].
Proof. reflexivity. Qed.
Theorem C39_crossprod : forall u1 u2 u3 v1 v2 v3 n,
  crossprod3d [u1; u2; u3] [v1; v2; v3] = n ->
  zlen n = 3 /\ dotprod n [u1; u2; u3] = 0 /\ dotprod n [v1; v2; v3] = 0 /\
  crossprod3d [v1; v2; v3] [u1; u2; u3] = scalarmulvect n (-1) /\
  dotprod n n = dotprod [u1; u2; u3] [u1; u2; u3] * dotprod [v1; v2; v3] [v1; v2; v3]
                - dotprod [u1; u2; u3] [v1; v2; v3] * dotprod [u1; u2; u3] [v1; v2; v3].
Proof.
  intros u1 u2 u3 v1 v2 v3 n <-. rewrite !cross3.
  unfold dotprod, py_sum, mulvect, scalarmulvect. cbn [zipwith fold_left map].
  split; [reflexivity|]. split; [ring|]. split; [ring|]. split; [|ring]. f_equal; [ring|]. f_equal; [ring|]. f_equal. ring.
Qed.
(** the normal of a triangle is orthogonal to its sides *)
Theorem C39_getnormvec : forall x1 y1 z1 x2 y2 z2 x3 y3 z3 n,
  getnormvec [x1; y1; z1] [x2; y2; z2] [x3; y3; z3] = n ->
  dotprod n [x2 - x1; y2 - y1; z2 - z1] = 0 /\ dotprod n [x3 - x1; y3 - y1; z3 - z1] = 0 /\
  dotprod n [x3 - x2; y3 - y2; z3 - z2] = 0.
Proof.
  intros x1 y1 z1 x2 y2 z2 x3 y3 z3 n <-. unfold getnormvec, subvect. cbn [zipwith].
  destruct (C39_crossprod (x2 - x1) (y2 - y1) (z2 - z1) (x3 - x1) (y3 - y1) (z3 - z1) _ eq_refl) as (_ & A & B & _).
  split; [exact A|]. split; [exact B|]. revert A B.
  set (n := crossprod3d _ _).
  assert (E : exists a b c, n = [a; b; c]) by (unfold n; rewrite cross3; eauto).
  destruct E as (a & b & c & ->). unfold dotprod, py_sum, mulvect. cbn [zipwith fold_left]. intros; lia.
Qed.
(** det3D is the determinant exactly when its wrong last term agrees *)
Theorem C39_det3D : forall a b c d e f g h i,
  det3D [a; b; c] [d; e; f] [g; h; i] =
  dotprod [a; b; c] (crossprod3d [d; e; f] [g; h; i]) + c * e * (g - d).
Proof.
  intros. rewrite cross3. unfold dotprod, py_sum, mulvect. cbn [zipwith fold_left].
  change (det3D [a; b; c] [d; e; f] [g; h; i]) with
    (a * e * i + b * f * g + c * d * h - a * f * h - b * d * i - c * e * d). ring.
Qed.
Theorem C39_det3D_refuted : exists u v w, zlen u = 3 /\ zlen v = 3 /\ zlen w = 3 /\ u = v /\ det3D u v w <> 0.
Proof. exists [1; 1; 1], [1; 1; 1], [2; 0; 0]. repeat split. vm_compute; discriminate. Qed.
Theorem C39_isorthogonal : forall u v, isorthogonal u v = true <->
  (forall i, 0 <= i < Z.min (zlen u) (zlen v) -> getz u i = 0 \/ getz v i = 0).
Proof.
  induction u as [|a u IH]; intros v.
  - split; [|reflexivity]. intros _ i Hi. change (zlen (@nil Z)) with 0 in Hi. pose proof (zlen_nonneg v). lia.
  - destruct v as [|b v].
    + split; [|reflexivity]. intros _ i Hi. change (zlen (@nil Z)) with 0 in Hi. pose proof (zlen_nonneg (a :: u)). lia.
    + change (isorthogonal (a :: u) (b :: v)) with ((a * b =? 0) && isorthogonal u v).
      rewrite andb_true_iff, Z.eqb_eq, IH, !zlen_cons. pose proof (zlen_nonneg u). pose proof (zlen_nonneg v). split.
      * intros [Hab Hi] i Hr. rewrite (getz_cons a), (getz_cons b). destruct (Z.eqb_spec i 0); [nia|]. apply Hi. lia.
      * intros Hi. split.
        -- specialize (Hi 0 ltac:(lia)). rewrite (getz_cons a), (getz_cons b) in Hi. change (0 =? 0) with true in Hi. destruct Hi as [-> | ->]; ring.
        -- intros i Hr. specialize (Hi (i + 1) ltac:(lia)). rewrite (getz_cons a), (getz_cons b) in Hi.
           destruct (Z.eqb_spec (i + 1) 0); [lia|]. now replace (i + 1 - 1) with i in Hi by lia.
Qed.
Theorem C39_isorthogonal_refuted : exists u v, zlen u = zlen v /\ dotprod u v = 0 /\ isorthogonal u v = false.
Proof. exists [1; 1], [1; -1]. repeat split. Qed.
Example C39_ex : crossprod3d [1; 2; 3] [4; 5; 6] = [-3; 6; -3].
Proof. reflexivity. Qed.
Print Assumptions C39_crossprod.
Print Assumptions C39_getnormvec.
Print Assumptions C39_det3D.
Print Assumptions C39_det3D_refuted.
Print Assumptions C39_isorthogonal.
Print Assumptions C39_isorthogonal_refuted.

(** * C47 *)
Lemma pivotcol_run vlist i : 0 <= i -> (forall v, In v vlist -> i < zlen v) ->
  pivotcol vlist i = Ok (map (fun v => getz v i) vlist).
Proof.
  intros Hi. induction vlist as [|v t IH]; intros H; cbn [pivotcol map]; auto.
  destruct (Z.ltb_spec i (zlen v)) as [L|L]; [|pose proof (H v (or_introl eq_refl)); lia].
  rewrite IH by (intros; apply H; now right). reflexivity.
Qed.
Lemma res_map_run {A B} (f : A -> res B) (g : A -> B) l : (forall a, In a l -> f a = Ok (g a)) ->
  res_map f l = Ok (map g l).
Proof.
  induction l as [|a t IH]; intros H; cbn [res_map map]; auto.
  rewrite (H a) by now left. cbn [rbind]. rewrite IH by (intros; apply H; now right). reflexivity.
Qed.
Lemma map_getz_range v : map (fun i => getz v i) (range 0 (zlen v)) = v.
Proof.
  apply list_ext; [rewrite zlen_map, zlen_range; pose proof (zlen_nonneg v); lia|].
  intros i Hi. rewrite zlen_map, zlen_range in Hi. rewrite getz_map by (rewrite zlen_range; lia).
  rewrite getz_range by lia. now rewrite Z.add_0_l.
Qed.
Lemma getz_mapl (f : list Z -> Z) l j : 0 <= j < zlen l -> getz (map f l) j = f (nth (Z.to_nat j) l []).
Proof.
  intros Hj. unfold getz. destruct (Z.ltb_spec j 0); [lia|].
  rewrite (nth_indep _ 0 (f [])) by (rewrite map_length; unfold zlen in Hj; lia). apply map_nth.
Qed.
Lemma map_nth_seq {A} (l : list A) d : map (fun i => nth i l d) (seq 0 (length l)) = l.
Proof.
  induction l as [|a l IH]; cbn [length seq map nth]; auto. f_equal.
  rewrite <- seq_shift, map_map. exact IH.
Qed.
(** a table of n rows of w > 0 items becomes its transpose; twice, itself *)
Theorem C47_pivotlist : forall vlist w, vlist <> [] -> 0 < w -> (forall v, In v vlist -> zlen v = w) ->
  exists t, pivotlist vlist = Ok t /\ zlen t = w /\
    (forall i, 0 <= i < w -> nth_error t (Z.to_nat i) = Some (map (fun v => getz v i) vlist)) /\
    pivotlist t = Ok vlist.
Proof.
  intros vlist w Hne Hw Hv.
  assert (P : pivotlist vlist = Ok (map (fun i => map (fun v => getz v i) vlist) (range 0 w))).
  { unfold pivotlist. destruct vlist as [|v0 t]; [contradiction|]. rewrite (Hv v0) by now left.
    apply res_map_run. intros i Hi. apply in_range in Hi. apply pivotcol_run; [lia|]. intros v Hin. rewrite Hv; auto; lia. }
  exists (map (fun i => map (fun v => getz v i) vlist) (range 0 w)). split; [exact P|].
  split; [rewrite zlen_map, zlen_range; lia|]. split.
  - intros i Hi. now rewrite nth_error_map_range by lia.
  - assert (R : range 0 w = 0 :: range 1 w) by (apply range_cons; lia).
    assert (F : pivotlist (map (fun i => map (fun v => getz v i) vlist) (range 0 w)) =
      res_map (pivotcol (map (fun i => map (fun v => getz v i) vlist) (range 0 w))) (range 0 (zlen vlist))).
    { rewrite R. cbn [map]. unfold pivotlist at 1. now rewrite zlen_map. }
    rewrite F. clear F.
    rewrite (res_map_run _ (fun j => nth (Z.to_nat j) vlist [])).
    + f_equal. clear. rewrite <- (map_nth_seq vlist []) at 2. unfold range. rewrite map_map.
      replace (Z.to_nat (zlen vlist - 0)) with (length vlist) by (unfold zlen; lia).
      apply map_ext. intros a. f_equal. lia.
    + intros j Hj. apply in_range in Hj. rewrite pivotcol_run; [|lia|].
      * f_equal. rewrite map_map. rewrite <- (map_getz_range (nth (Z.to_nat j) vlist [])).
        assert (L : zlen (nth (Z.to_nat j) vlist []) = w) by (apply Hv; apply nth_In; unfold zlen in Hj; lia).
        rewrite L. apply map_ext. intros i. now rewrite getz_mapl by lia.
      * intros v Hin. apply in_map_iff in Hin. destruct Hin as (i & <- & _). rewrite zlen_map. lia.
Qed.
(** vectors of the same length: translation back and forth *)
Theorem C47_trans : forall vlist u, (forall v, In v vlist -> zlen v = zlen u) ->
  trans (trans vlist u) (scalarmulvect u (-1)) = vlist /\
  map (fun v => subvect v u) (trans vlist u) = vlist.
Proof.
  intros vlist u Hv.
  assert (K : forall u v, zlen v = zlen u -> addvect (addvect v u) (scalarmulvect u (-1)) = v /\ subvect (addvect v u) u = v).
  { clear. induction u as [|a u IH]; intros [|b v] L; rewrite ?zlen_cons, ?zlen_nil in L; auto;
      try (pose proof (zlen_nonneg u)); try (pose proof (zlen_nonneg v)); try lia.
    destruct (IH v ltac:(lia)) as [E1 E2].
    change (addvect (addvect (b :: v) (a :: u)) (scalarmulvect (a :: u) (-1))) with
      (b + a + a * -1 :: addvect (addvect v u) (scalarmulvect u (-1))).
    change (subvect (addvect (b :: v) (a :: u)) (a :: u)) with (b + a - a :: subvect (addvect v u) u).
    rewrite E1, E2. split; f_equal; lia. }
  unfold trans. rewrite !map_map. split; rewrite <- (map_id vlist) at 2; apply map_ext_in; intros v Hin; now apply K, Hv.
Qed.
(** centerpoint is inside the bounding box, at equal distance from the corners
    up to one unit *)
Theorem C47_centerpoint : forall x1 y1 x2 y2 cx cy, centerpoint x1 y1 x2 y2 = (cx, cy) ->
  in_box x1 y1 x2 y2 cx cy = true /\ 0 <= (x2 - cx) - (cx - x1) <= 1 /\ 0 <= (y2 - cy) - (cy - y1) <= 1.
Proof.
  intros x1 y1 x2 y2 cx cy E. unfold centerpoint in E. rewrite !Z.shiftr_div_pow2 in E by lia.
  change (2 ^ 1) with 2 in E. inversion E.
  pose proof (Z.div_mod (x2 - x1) 2 ltac:(lia)). pose proof (Z.mod_pos_bound (x2 - x1) 2 ltac:(lia)).
  pose proof (Z.div_mod (y2 - y1) 2 ltac:(lia)). pose proof (Z.mod_pos_bound (y2 - y1) 2 ltac:(lia)).
  unfold in_box. rewrite !andb_true_iff, !Z.leb_le. lia.
Qed.
Example C47_ex : pivotlist [[1; 2; 3]; [4; 5; 6]] = Ok [[1; 4]; [2; 5]; [3; 6]] /\
  trans [[1; 2]; [3; 4]] [10; 20] = [[11; 22]; [13; 24]] /\ centerpoint 10 3 2 8 = (6, 5).
Proof. repeat split; vm_compute; reflexivity. Qed.
Print Assumptions C47_pivotlist.
Print Assumptions C47_trans.
Print Assumptions C47_centerpoint.
