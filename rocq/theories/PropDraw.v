(** Properties C22-C28: rectangles, lines, circles and discs. *)
From Coq Require Import ZArith List Bool Lia.
From Verif Require Import PyBase PyFacts Spec Bmp BmpFacts PixelProofs PlotList HeaderProofs Buffers Region
  Raster Geometry GeomProofs Draw VertProofs DrawProofs DrawProofs2 DrawProofs3 DrawProofs4 Concrete.
Import ListNotations.
Open Scope Z_scope.
Open Scope py_scope.

(** * C22 *)
Theorem C22_filledrect24 : forall b w h x1 y1 x2 y2 c o, wf b w h 24 ->
  inside w h x1 y1 -> inside w h x2 y2 -> 0 <= c < 2 ^ 24 ->
  exists b', filledrect x1 y1 x2 y2 c (mkst b o) = (Ok (Some tt), mkst b' o) /\
    repainted b b' w h 24 (fun x y => if in_box x1 y1 x2 y2 x y then c else pixel b w h 24 x y).
Proof. intros. now apply rect24. Qed.
Theorem C22_filledrect1 : forall b w h x1 y1 x2 y2 c o, wf b w h 1 ->
  inside w h x1 y1 -> inside w h x2 y2 ->
  exists b', filledrect x1 y1 x2 y2 c (mkst b o) = (Ok (Some tt), mkst b' o) /\
    repainted b b' w h 1 (fun x y => if in_box x1 y1 x2 y2 x y then (if 0 <? c then 1 else 0) else pixel b w h 1 x y).
Proof. intros. now apply rect1. Qed.
Theorem C22_filledrect4 : forall b w h x1 y1 x2 y2 c o, wf b w h 4 ->
  inside w h x1 y1 -> inside w h x2 y2 -> Z.min x1 x2 mod 2 = 0 -> Z.max x1 x2 mod 2 = 1 ->
  exists b', filledrect x1 y1 x2 y2 c (mkst b o) = (Ok (Some tt), mkst b' o) /\
    repainted b b' w h 4 (fun x y => if in_box x1 y1 x2 y2 x y then c mod 16 else pixel b w h 4 x y).
Proof. intros. now apply rect4. Qed.

Lemma map_nth_range {A} (f : Z -> A) n k p : nth_error (map f (range 0 n)) k = Some p ->
  0 <= Z.of_nat k < n /\ p = f (Z.of_nat k).
Proof.
  intros E.
  assert (L : (k < length (map f (range 0 n)))%nat) by (apply nth_error_Some; congruence).
  unfold range in *. rewrite !map_length, seq_length in L.
  rewrite map_map in E. rewrite nth_error_map in E.
  destruct (nth_error (seq 0 (Z.to_nat (n - 0))) k) as [m|] eqn:Em; [|discriminate].
  assert (m = k). { apply (nth_error_nth _ _ O) in Em. rewrite seq_nth in Em by lia. lia. }
  subst m. cbn [option_map] in E. rewrite Z.add_0_l in E. split; [lia|]. congruence.
Qed.
Lemma dist2_spec u v : dist2 u v = rgb_dist2 u v.
Proof. destruct u as ((?, ?), ?), v as ((?, ?), ?). unfold dist2, rgb_dist2. ring. Qed.
Lemma int2RGB_of c : int2RGB c = rgb_of c.
Proof. unfold int2RGB, rgb_of. now rewrite !land255, shiftr8, shiftr16. Qed.
Lemma pal_entry_ok b w h bits i : wf b w h bits -> rgb_ok (pal_entry b i).
Proof. intros W. unfold rgb_ok, pal_entry. cbn [fst snd]. repeat split; eapply wf_byte; eauto. Qed.

(** On 8-bit bitmaps the colour argument is taken as a 24-bit colour and
    replaced by the nearest palette entry that is not black. *)
Theorem C22_filledrect8 : forall b w h x1 y1 x2 y2 c o, wf b w h 8 ->
  inside w h x1 y1 -> inside w h x2 y2 -> 0 <= c < 2 ^ 24 ->
  exists b' v, 0 <= v < 256 /\
    (forall i, 0 <= i < 256 -> pal_entry b i <> (0, 0, 0) ->
       pal_entry b v <> (0, 0, 0) /\
       rgb_dist2 (rgb_of c) (pal_entry b v) <= rgb_dist2 (rgb_of c) (pal_entry b i)) /\
    filledrect x1 y1 x2 y2 c (mkst b o) = (Ok (Some tt), mkst b' o) /\
    repainted b b' w h 8 (fun x y => if in_box x1 y1 x2 y2 x y then v else pixel b w h 8 x y).
Proof.
  intros b w h x1 y1 x2 y2 c o W H1 H2 Hc.
  set (pal := map (pal_entry b) (range 0 256)).
  assert (Hv : 0 <= matchRGBtopal false (int2RGB c) pal < 256 /\
    (forall i, 0 <= i < 256 -> pal_entry b i <> (0, 0, 0) ->
       pal_entry b (matchRGBtopal false (int2RGB c) pal) <> (0, 0, 0) /\
       rgb_dist2 (rgb_of c) (pal_entry b (matchRGBtopal false (int2RGB c) pal)) <= rgb_dist2 (rgb_of c) (pal_entry b i))).
  { unfold matchRGBtopal. rewrite int2RGB_of.
    assert (Hrgb : rgb_ok (rgb_of c)).
    { unfold rgb_ok, rgb_of, byte. cbn [fst snd].
      pose proof (Z.mod_pos_bound (c / 256) 256 ltac:(lia)). pose proof (Z.mod_pos_bound c 256 ltac:(lia)).
      assert (0 <= c / 65536 < 256) by (split; [apply Z.div_pos; lia|apply Z.div_lt_upper_bound; lia]). lia. }
    destruct (pal_nearest_spec false (rgb_of c) pal eq_refl 0 0 (442 * 442)) as [[E K]|(k & p & A1 & A2 & A3 & A4 & A5 & _)].
    - rewrite E. split; [lia|]. intros i Hi Nb. exfalso.
      assert (442 * 442 <= dist2 (rgb_of c) (pal_entry b i)).
      { apply K; auto. apply in_map. apply in_range. lia. }
      pose proof (dist2_small (rgb_of c) (pal_entry b i) Hrgb (pal_entry_ok b w h 8 i W)). lia.
    - rewrite A2, Z.add_0_l. apply map_nth_range in A1. destruct A1 as [B1 B2]. split; [lia|].
      intros i Hi Nb. rewrite <- B2. split; [exact A3|]. rewrite <- !dist2_spec. apply A5; auto.
      apply in_map. apply in_range. lia. }
  destruct Hv as [Hv1 Hv2].
  destruct (rect8 b w h 8 x1 y1 x2 y2 c W H1 H2 (matchRGBtopal false (int2RGB c) pal) o eq_refl eq_refl Hv1) as (b' & E & R).
  exists b', (matchRGBtopal false (int2RGB c) pal). auto.
Qed.
Theorem C22_outside : forall b w h bits x1 y1 x2 y2 c o, wf b w h bits ->
  ~ (inside w h x1 y1 /\ inside w h x2 y2) ->
  filledrect x1 y1 x2 y2 c (mkst b o) = (Ok None, mkst b (o ++ [Mregionoutofbounds])).
Proof.
  intros. unfold filledrect. rewrite (bind_ok _ _ _ _ _ (run_rd _ _ _ _ (wf_ry _ _ _ _ H))).
  unfold filledrect_fuel. now apply (guard_false _ w h bits).
Qed.
(** 4-bit rectangles that do not cover whole bytes lose their last column *)
Theorem C22_filledrect4_refuted : exists b w h x1 y1 x2 y2 c x y, wf b w h 4 /\
  inside w h x1 y1 /\ inside w h x2 y2 /\ 0 <= c < 16 /\ in_box x1 y1 x2 y2 x y = true /\
  outcome (filledrect x1 y1 x2 y2 c) b = Ok (Some tt) /\
  pixel (after (filledrect x1 y1 x2 y2 c) b) w h 4 x y <> c.
Proof.
  exists (blank 6 3 4), 6, 3, 0, 0, 2, 2, 5, 2, 1. split; [concrete_wf|].
  unfold inside. repeat split; try lia; vm_compute; try reflexivity; discriminate.
Qed.
Example C22_ex : rows (after (filledrect 3 2 1 1 70000) (blank 5 4 24)) 5 4 24 =
  [[0;0;0;0;0]; [0;70000;70000;70000;0]; [0;70000;70000;70000;0]; [0;0;0;0;0]].
Proof. vm_compute; reflexivity. Qed.
Example C22_ex8 : rows (after (filledrect 3 2 1 1 (255 * 65536)) (blank 5 4 8)) 5 4 8 =
  let v := matchRGBtopal false (255, 0, 0) (map (pal_entry (blank 5 4 8)) (range 0 256)) in
  [[0;0;0;0;0]; [0;v;v;v;0]; [0;v;v;v;0]; [0;0;0;0;0]].
Proof. vm_compute; reflexivity. Qed.
Example C22_ex1 : rows (after (filledrect 9 2 3 1 7) (blank 11 3 1)) 11 3 1 =
  [[0;0;0;0;0;0;0;0;0;0;0]; [0;0;0;1;1;1;1;1;1;1;0]; [0;0;0;1;1;1;1;1;1;1;0]].
Proof. vm_compute; reflexivity. Qed.
Example C22_ex4 : rows (after (filledrect 5 2 2 1 7) (blank 6 3 4)) 6 3 4 =
  [[0;0;0;0;0;0]; [0;0;7;7;7;7]; [0;0;7;7;7;7]].
Proof. vm_compute; reflexivity. Qed.
Print Assumptions C22_filledrect24.
Print Assumptions C22_filledrect8.
Print Assumptions C22_filledrect4.
Print Assumptions C22_filledrect1.
Print Assumptions C22_outside.
Print Assumptions C22_filledrect4_refuted.

(** * C23 *)
Theorem C23_horiline : forall b w h bits y x1 x2 c o, wf b w h bits -> bits <> 4 -> storable bits c ->
  0 <= y < h -> (bits = 8 -> -1079 <= Z.max x1 x2) -> (bits = 24 -> -19 <= Z.max x1 x2) ->
  exists b', horiline y x1 x2 c (mkst b o) = (Ok tt, mkst b' o) /\
    repainted b b' w h bits (fun x' y' => if in_box x1 y x2 y x' y' then reduce bits c else pixel b w h bits x' y').
Proof.
  intros b w h bits y x1 x2 c o W N4 Hs Hy H8 H24.
  destruct (wf_depth _ _ _ _ W) as [E|[E|[E|E]]].
  - now apply hori_bit.
  - contradiction.
  - apply hori_bytes; auto. rewrite E. change (data_off 8) with 1078; change (pbytes 8) with 1. specialize (H8 E). lia.
  - apply hori_bytes; auto. rewrite E. change (data_off 24) with 54; change (pbytes 24) with 3. specialize (H24 E). lia.
Qed.
(** 4 bit: with xa, xb the ends clipped to the image, the line is complete only
    if xa is even and xb odd; otherwise its last pixel is missing, and a single
    pixel at an odd place is drawn one column to the left *)
Theorem C23_horiline4 : forall b w h y x1 x2 c o, wf b w h 4 -> 0 <= y < h -> 0 < w ->
  Z.min x1 x2 < w -> 0 <= Z.max x1 x2 ->
  let xa := Z.max (Z.min x1 x2) 0 in
  let xb := Z.min (Z.max x1 x2) (w - 1) in
  exists b', horiline y x1 x2 c (mkst b o) = (Ok tt, mkst b' o) /\
    repainted b b' w h 4 (fun x' y' =>
      if (y' =? y) &&
         (if (xa mod 2 =? 0) && (xb mod 2 =? 1) then (xa <=? x') && (x' <=? xb)
          else if (xa =? xb) && (xa mod 2 =? 1) then x' =? xa - 1
          else (xa <=? x') && (x' <=? xb - 1))
      then c mod 16 else pixel b w h 4 x' y').
Proof. intros. now apply hori4. Qed.
Theorem C23_row_outside : forall b w h bits y x1 x2 c o, wf b w h bits -> ~ 0 <= y < h ->
  horiline y x1 x2 c (mkst b o) = (Ok tt, mkst b (o ++ [Mlineoutofbnd])).
Proof. intros b w h bits y x1 x2 c o W Hy. now apply (hori_out b w h bits). Qed.
(** a line wholly to the left of the image can delete bytes of the array *)
Theorem C23_left_refuted : exists b w h y x1 x2 c, wf b w h 24 /\ 0 <= y < h /\ 0 <= c < 2 ^ 24 /\
  x1 < 0 /\ x2 < 0 /\ outcome (horiline y x1 x2 c) b = Ok tt /\ zlen (after (horiline y x1 x2 c) b) < zlen b.
Proof.
  exists (blank 5 3 24), 5, 3, 2, (-30), (-25), 7. split; [concrete_wf|].
  repeat split; try lia; vm_compute; reflexivity.
Qed.
(** and a 4-bit one to the right of it can raise an exception *)
Theorem C23_right4_refuted : exists b w h y x1 x2 c, wf b w h 4 /\ 0 <= y < h /\ 0 <= c < 16 /\
  outcome (horiline y x1 x2 c) b = Err IndexError.
Proof.
  exists (blank 6 3 4), 6, 3, 0, 9, 12, 7. split; [concrete_wf|]. repeat split; try lia.
Qed.
Example C23_ex : rows (after (horiline 1 9 2 70000) (blank 5 3 24)) 5 3 24 =
  [[0;0;0;0;0]; [0;0;70000;70000;70000]; [0;0;0;0;0]].
Proof. vm_compute; reflexivity. Qed.
Example C23_ex4 : rows (after (horiline 1 2 5 7 ;;; horiline 0 1 4 3 ;;; horiline 2 5 5 9) (blank 6 3 4)) 6 3 4 =
  [[0;3;3;3;0;0]; [0;0;7;7;7;7]; [0;0;0;0;9;0]].
Proof. vm_compute; reflexivity. Qed.
Print Assumptions C23_horiline.
Print Assumptions C23_horiline4.
Print Assumptions C23_row_outside.
Print Assumptions C23_left_refuted.
Print Assumptions C23_right4_refuted.

(** * C24 *)
Theorem C24_vertline : forall b w h bits x y1 y2 c o, wf b w h bits -> storable bits c ->
  (bits = 8 \/ bits = 24 -> 0 <= x < w /\ 0 < h /\ Z.min y1 y2 <= h) ->
  exists b', vertline x y1 y2 c (mkst b o) = (Ok tt, mkst b' o) /\
    repainted b b' w h bits (fun x' y' => if in_box x y1 x y2 x' y' then reduce bits c else pixel b w h bits x' y').
Proof.
  intros b w h bits x y1 y2 c o W Hs Hm.
  assert (HB : (bits = 1 \/ bits = 4) \/ (bits = 8 \/ bits = 24))
    by (destruct (wf_depth _ _ _ _ W) as [?|[?|[?|?]]]; auto).
  destruct HB as [HB|HB]; [now apply vert_points|]. destruct (Hm HB) as (Hx & Hh & Hy).
  apply vert_bytes; auto.
  pose proof (stride_nonneg w bits ltac:(lia) (wf_depth _ _ _ _ W)) as K0.
  assert (K1 : 54 <= data_off bits) by (destruct HB as [-> | ->]; vm_compute; discriminate).
  assert (K2 : pbytes bits <= 3) by (destruct HB as [-> | ->]; vm_compute; discriminate).
  assert (K3 : 0 <= (h - Z.min y1 y2) * stride w bits) by (apply Z.mul_nonneg_nonneg; lia).
  assert (K4 : 0 <= x * pbytes bits) by (apply Z.mul_nonneg_nonneg; [lia|destruct HB as [-> | ->]; vm_compute; discriminate]).
  lia.
Qed.
Theorem C24_column_outside : forall b w h bits x y1 y2 c o, wf b w h bits -> bits = 8 \/ bits = 24 -> ~ 0 <= x < w ->
  vertline x y1 y2 c (mkst b o) = (Ok tt, mkst b (o ++ [Mlineoutofbnd])).
Proof. intros b w h bits x y1 y2 c o W Hb Hx. now apply (vert_out b w h bits). Qed.
(** a line wholly below the image can delete bytes of the array *)
Theorem C24_below_refuted : exists b w h x y1 y2 c, wf b w h 24 /\ 0 <= x < w /\ 0 <= c < 2 ^ 24 /\
  outcome (vertline x y1 y2 c) b = Ok tt /\ zlen (after (vertline x y1 y2 c) b) < zlen b.
Proof.
  exists (blank 5 3 24), 5, 3, 1, 9, 7, 7. split; [concrete_wf|].
  repeat split; try lia; vm_compute; reflexivity.
Qed.
Example C24_ex : rows (after (vertline 3 9 1 70000) (blank 5 3 24)) 5 3 24 =
  [[0;0;0;0;0]; [0;0;0;70000;0]; [0;0;0;70000;0]].
Proof. vm_compute; reflexivity. Qed.
Print Assumptions C24_vertline.
Print Assumptions C24_column_outside.
Print Assumptions C24_below_refuted.

(** * C25 *)
Lemma nth_range_app {A} (f : Z -> A) m q i : 0 <= m ->
  nth_error (map f (range 0 (m + 1)) ++ [q]) i =
  if Z.of_nat i <=? m then Some (f (Z.of_nat i)) else if Z.of_nat i =? m + 1 then Some q else None.
Proof.
  intros Hm. assert (L : length (map f (range 0 (m + 1))) = Z.to_nat (m + 1)).
  { unfold range. rewrite !map_length, seq_length. f_equal. lia. }
  destruct (Z.leb_spec (Z.of_nat i) m).
  - rewrite nth_error_app1 by lia.
    destruct (nth_error (map f (range 0 (m + 1))) i) as [p|] eqn:E.
    + apply map_nth_range in E. destruct E as [_ ->]. reflexivity.
    + apply nth_error_None in E. lia.
  - rewrite nth_error_app2 by lia. rewrite L. destruct (Z.eqb_spec (Z.of_nat i) (m + 1)).
    + replace (i - Z.to_nat (m + 1))%nat with O by lia. reflexivity.
    + apply nth_error_None. cbn. lia.
Qed.
(** every segment: number of points, connectedness, end and distance from the
    ideal line (at most one pixel along the shorter axis) *)
Theorem C25_iterline : forall x1 y1 x2 y2,
  let l := iterline (x1, y1) (x2, y2) in
  let dx := x2 - x1 in let dy := y2 - y1 in
  let m := Z.max (Z.abs dx) (Z.abs dy) in
  zlen l = m + 2 /\
  (forall i xa ya xb yb, nth_error l i = Some (xa, ya) -> nth_error l (S i) = Some (xb, yb) ->
     Z.abs (xb - xa) <= 1 /\ Z.abs (yb - ya) <= 1) /\
  last l (x1, y1) = (x2, y2) /\
  (forall x y, In (x, y) l -> Z.abs (dx * (y - y1) - dy * (x - x1)) <= m).
Proof.
  intros x1 y1 x2 y2 l dx dy m.
  destruct (iterline_props x1 y1 x2 y2) as (f & E & P1 & P2 & P3 & _). fold l dx dy m in E, P2, P3.
  assert (Hm : 0 <= m) by (unfold m; lia). rewrite E. split; [|split; [|split]].
  - rewrite zlen_app. unfold zlen, range. rewrite !map_length, seq_length. cbn. lia.
  - intros i xa ya xb yb. rewrite !nth_range_app by auto. rewrite Nat2Z.inj_succ. intros Ea Eb.
    destruct (Z.leb_spec (Z.of_nat i) m) as [L|L].
    + inversion Ea as [Ea']. destruct (Z.leb_spec (Z.succ (Z.of_nat i)) m) as [L'|L'].
      * inversion Eb as [Eb']. pose proof (P1 (Z.of_nat i)) as K. unfold near in K.
        replace (Z.of_nat i + 1) with (Z.succ (Z.of_nat i)) in K by lia. rewrite Ea', Eb' in K. exact K.
      * destruct (Z.eqb_spec (Z.succ (Z.of_nat i)) (m + 1)); [|discriminate].
        inversion Eb; subst. replace (Z.of_nat i) with m in Ea' by lia. rewrite Ea' in P2. exact P2.
    + destruct (Z.leb_spec (Z.succ (Z.of_nat i)) m); [lia|].
      destruct (Z.eqb_spec (Z.succ (Z.of_nat i)) (m + 1)); [lia|discriminate].
  - apply last_last.
  - intros x y Hin. apply in_app_iff in Hin. destruct Hin as [Hin|[Hin|[]]].
    + apply in_range_map in Hin. destruct Hin as (i & Hi & Ei). destruct (P3 i ltac:(lia)) as [K _].
      rewrite Ei in K. exact K.
    + inversion Hin; subst. fold dx dy. replace (dx * dy - dy * dx) with 0 by ring. cbn. lia.
Qed.
(** segments that are not exact diagonals: begin at p1, stay in the bounding
    box, nearer than one pixel, and are the set [on_line] *)
Theorem C25_nondiagonal : forall x1 y1 x2 y2,
  let l := iterline (x1, y1) (x2, y2) in
  let dx := x2 - x1 in let dy := y2 - y1 in
  Z.abs dx <> Z.abs dy ->
  nth_error l 0 = Some (x1, y1) /\
  (forall x y, In (x, y) l -> in_box x1 y1 x2 y2 x y = true /\
     Z.abs (dx * (y - y1) - dy * (x - x1)) < Z.max (Z.abs dx) (Z.abs dy)) /\
  (forall x y, In (x, y) l <-> on_line x1 y1 x2 y2 x y = true).
Proof.
  intros x1 y1 x2 y2 l dx dy Hd.
  destruct (iterline_props x1 y1 x2 y2) as (f & E & P1 & P2 & P3 & _ & P4 & _). fold l dx dy in E, P2, P3, P4.
  set (m := Z.max (Z.abs dx) (Z.abs dy)) in *. assert (Hm : 0 < m) by (unfold m; lia).
  destruct (P4 (or_introl Hd)) as (F0 & Fm & Fb). rewrite E. split; [|split].
  - rewrite nth_range_app by lia. cbn [Z.of_nat]. destruct (Z.leb_spec 0 m); [|lia]. now rewrite F0.
  - assert (K : forall x y, In (x, y) (map f (range 0 (m + 1)) ++ [(x2, y2)]) -> exists i, 0 <= i <= m /\ f i = (x, y)).
    { intros x y Hin. apply in_app_iff in Hin. destruct Hin as [Hin|[Hin|[]]].
      - apply in_range_map in Hin. destruct Hin as (i & Hi & Ei). exists i. split; auto; lia.
      - exists m. split; [lia|]. now rewrite Fm. }
    intros x y Hin. destruct (K x y Hin) as (i & Hi & Ei). split.
    + specialize (Fb i Hi). rewrite Ei in Fb. exact Fb.
    + destruct (P3 i Hi) as [_ Q]. specialize (Q Hd). rewrite Ei in Q. exact Q.
  - intros x y. rewrite <- E. apply iterline_on_line. left. exact Hd.
Qed.
(** exact diagonals: the first point is missing and one outside the bounding
    box is produced *)
Theorem C25_diagonal : forall x1 y1 x2 y2,
  let l := iterline (x1, y1) (x2, y2) in
  Z.abs (x2 - x1) = Z.abs (y2 - y1) -> x1 <> x2 ->
  (forall x y, In (x, y) l <->
     (x = x2 /\ y = y2) \/
     (Z.min x1 x2 <= x <= Z.max x1 x2 /\ y = y1 + Z.sgn (y2 - y1) * (Z.abs (x - x1) + 1))) /\
  ~ In (x1, y1) l /\
  In (x2, y2 + Z.sgn (y2 - y1)) l /\ in_box x1 y1 x2 y2 x2 (y2 + Z.sgn (y2 - y1)) = false.
Proof.
  intros x1 y1 x2 y2 l Hd Hne.
  assert (K : forall x y, In (x, y) l <->
     (x = x2 /\ y = y2) \/
     (Z.min x1 x2 <= x <= Z.max x1 x2 /\ y = y1 + Z.sgn (y2 - y1) * (Z.abs (x - x1) + 1))).
  { intros x y. now apply iterline_diag. }
  split; [exact K|]. rewrite !K.
  destruct (Z.sgn_spec (y2 - y1)) as [[Hs ->]|[[Hs ->]|[Hs ->]]]; [|lia|].
  - split; [lia|]. split; [right; lia|]. unfold in_box. apply andb_false_iff. right.
    apply andb_false_iff. right. apply Z.leb_gt. lia.
  - split; [lia|]. split; [right; lia|]. unfold in_box. apply andb_false_iff. right.
    apply andb_false_iff. left. apply Z.leb_gt. lia.
Qed.
Example C25_ex : iterline (1, 1) (6, 3) = [(1,1); (2,1); (3,2); (4,2); (5,3); (6,3); (6,3)] /\
  iterline (1, 1) (3, 3) = [(1,2); (2,3); (3,4); (3,3)].
Proof. split; vm_compute; reflexivity. Qed.
Print Assumptions C25_iterline.
Print Assumptions C25_nondiagonal.
Print Assumptions C25_diagonal.

(** * C26 *)
Theorem C26_line : forall b w h bits x1 y1 x2 y2 c o, wf b w h bits -> 0 < w -> 0 < h -> 0 <= c < 2 ^ bits ->
  let u1 := Z.max 0 (Z.min x1 (w - 1)) in let v1 := Z.max 0 (Z.min y1 (h - 1)) in
  let u2 := Z.max 0 (Z.min x2 (w - 1)) in let v2 := Z.max 0 (Z.min y2 (h - 1)) in
  Z.abs (u2 - u1) <> Z.abs (v2 - v1) \/ (u1 = u2 /\ v1 = v2) ->
  bits <> 4 \/ u1 = u2 \/ v1 <> v2 ->
  exists b', line x1 y1 x2 y2 c (mkst b o) = (Ok tt, mkst b' o) /\
    repainted b b' w h bits (fun x y => if on_line u1 v1 u2 v2 x y then c else pixel b w h bits x y).
Proof. intros. now apply line_run. Qed.
(** an exact diagonal that does not end in the first or last row of the image *)
Theorem C26_diagonal : forall b w h bits x1 y1 x2 y2 c o, wf b w h bits -> 0 <= c < 2 ^ bits ->
  inside w h x1 y1 -> inside w h x2 y2 -> Z.abs (x2 - x1) = Z.abs (y2 - y1) -> x1 <> x2 ->
  inside w h x2 (y2 + Z.sgn (y2 - y1)) ->
  exists b', line x1 y1 x2 y2 c (mkst b o) = (Ok tt, mkst b' o) /\
    repainted b b' w h bits (fun x y =>
      if ((x =? x2) && (y =? y2)) ||
         (((Z.min x1 x2 <=? x) && (x <=? Z.max x1 x2)) && (y =? y1 + Z.sgn (y2 - y1) * (Z.abs (x - x1) + 1)))
      then c else pixel b w h bits x y).
Proof.
  intros b w h bits x1 y1 x2 y2 c o W Hc H1 H2 Hd Hne [_ H3]. destruct H1 as [H1 H1'], H2 as [H2 H2'].
  assert (E : forall z n, 0 <= z < n -> Z.max 0 (Z.min z (n - 1)) = z) by (clear; intros; lia).
  pose proof (line_diag b w h bits x1 y1 x2 y2 c W) as K.
  rewrite (E x1 w H1), (E x2 w H2), (E y1 h H1'), (E y2 h H2') in K.
  apply K; auto; [clear - H1; lia|clear - H1'; lia].
Qed.
(** diagonals ending in the last row overwrite the header, those ending in the
    first row make the array longer or raise an exception *)
Theorem C26_diagonal_refuted :
  (exists b w h x1 y1 x2 y2 c i, wf b w h 24 /\ inside w h x1 y1 /\ inside w h x2 y2 /\ 0 <= c < 2 ^ 24 /\
     outcome (line x1 y1 x2 y2 c) b = Ok tt /\ 0 <= i < data_off 24 /\
     getz (after (line x1 y1 x2 y2 c) b) i <> getz b i) /\
  (exists b w h x1 y1 x2 y2 c, wf b w h 24 /\ inside w h x1 y1 /\ inside w h x2 y2 /\ 0 <= c < 2 ^ 24 /\
     outcome (line x1 y1 x2 y2 c) b = Ok tt /\ zlen b < zlen (after (line x1 y1 x2 y2 c) b)) /\
  (exists b w h x1 y1 x2 y2 c, wf b w h 8 /\ inside w h x1 y1 /\ inside w h x2 y2 /\ 0 <= c < 256 /\
     outcome (line x1 y1 x2 y2 c) b = Err IndexError).
Proof.
  split; [|split].
  - exists (blank 5 3 24), 5, 3, 0, 0, 2, 2, 70000, 44. split; [concrete_wf|].
    unfold inside. change (data_off 24) with 54. repeat split; try lia; vm_compute; try reflexivity; discriminate.
  - exists (blank 5 3 24), 5, 3, 0, 2, 2, 0, 70000. split; [concrete_wf|].
    unfold inside. repeat split; try lia; vm_compute; try reflexivity; discriminate.
  - exists (blank 5 3 8), 5, 3, 0, 2, 2, 0, 7. split; [concrete_wf|].
    unfold inside. repeat split; try lia.
Qed.
Example C26_ex : rows (after (line (-4) 0 4 2 9) (blank 5 3 8)) 5 3 8 =
  [[9;0;0;0;0]; [0;9;9;0;0]; [0;0;0;9;9]].
Proof. vm_compute; reflexivity. Qed.
Example C26_ex_diagonal : rows (after (line 0 0 2 2 9) (blank 5 4 8)) 5 4 8 =
  [[0;0;0;0;0]; [9;0;0;0;0]; [0;9;9;0;0]; [0;0;9;0;0]].
Proof. vm_compute; reflexivity. Qed.
Print Assumptions C26_line.
Print Assumptions C26_diagonal.
Print Assumptions C26_diagonal_refuted.

(** * C27 *)
Theorem C27_itercircle : forall x y r, 0 <= r ->
  exists l, itercircle x y r = Ok l /\
    forall x' y', In (x', y') l <-> on_ring r (x' - x) (y' - y) = true.
Proof.
  intros x y r Hr. destruct (itercircle_run x y r Hr) as (l & E & Hl). exists l. split; auto.
  intros x' y'. now rewrite <- pt_in_iff, Hl.
Qed.
Theorem C27_itercircle_negative : forall x y r, r < 0 -> itercircle x y r = Ok [].
Proof. exact itercircle_neg. Qed.
(** what the set [on_ring] looks like: within the square of the radius, with the
    eight symmetries, no further from the ideal circle than half a pixel along
    the longer axis, with a point in every column, and one radius wide *)
Theorem C27_ring : forall r dx dy, 0 <= r ->
  (on_ring r dx dy = true -> Z.abs dx <= r /\ Z.abs dy <= r /\
     Z.abs (dx * dx + dy * dy - r * r) <= Z.max (Z.abs dx) (Z.abs dy)) /\
  (on_ring r (- dx) dy = on_ring r dx dy /\ on_ring r dx (- dy) = on_ring r dx dy /\
   on_ring r dy dx = on_ring r dx dy) /\
  (Z.abs dx <= r -> exists dy', on_ring r dx dy' = true) /\
  on_ring r r 0 = true.
Proof.
  intros r dx dy Hr. split; [|split; [|split]].
  - intros H. apply ring_circle in H. pose proof (on_circle_bound r _ Hr H) as B. cbn [fst snd] in B.
    unfold on_circle, cerr in H. cbn [fst snd] in H. rewrite !Z.abs_square in H. lia.
  - unfold on_ring. rewrite !Z.abs_opp, !Z.mul_opp_opp. repeat split; auto.
    rewrite (Z.max_comm (Z.abs dy)), (Z.add_comm (dy * dy)). reflexivity.
  - intros Hx. destruct (itercirclepart_run r Hr) as (l & _ & _ & Hl & Hcol).
    destruct (Hcol (Z.abs dx) ltac:(lia)) as (d & Hd). apply Hl in Hd. exists d. apply ring_circle.
    replace (Z.abs d) with d; auto. unfold on_circle in Hd. cbn [fst snd] in Hd. lia.
  - unfold on_ring. rewrite andb_true_iff, !Z.leb_le. lia.
Qed.
Theorem C27_circle : forall b w h bits x y r c o, wf b w h bits -> 0 <= r ->
  (bits = 8 \/ bits = 24 -> 0 <= c < 2 ^ bits) ->
  exists b', circle x y r c false (mkst b o) = (Ok tt, mkst b' o) /\
    repainted b b' w h bits (fun x' y' =>
      if on_ring r (x' - x) (y' - y) then reduce bits c else pixel b w h bits x' y').
Proof. intros. now apply circle_run. Qed.
Example C27_ex : rows (after (circle 3 2 2 9 false) (blank 7 5 4)) 7 5 4 =
  [[0;0;9;9;9;0;0]; [0;9;0;0;0;9;0]; [0;9;0;0;0;9;0]; [0;9;0;0;0;9;0]; [0;0;9;9;9;0;0]].
Proof. vm_compute; reflexivity. Qed.
Example C27_ex_clipped : rows (after (circle 0 1 2 70000 false) (blank 4 3 24)) 4 3 24 =
  [[0;0;70000;0]; [0;0;70000;0]; [0;0;70000;0]].
Proof. vm_compute; reflexivity. Qed.
(** the colour is not reduced on 8-bit bitmaps *)
Theorem C27_colour8_refuted : exists b w h x y r c, wf b w h 8 /\ inside w h x y /\ 0 <= r /\ 0 <= c /\
  outcome (circle x y r c false) b = Err OverflowError /\ outcome (plotxybit x y c) b = Ok tt.
Proof. exists (blank 5 3 8), 5, 3, 2, 1, 1, 300. split; [concrete_wf|]. unfold inside. repeat split; try lia. Qed.
Print Assumptions C27_itercircle.
Print Assumptions C27_itercircle_negative.
Print Assumptions C27_ring.
Print Assumptions C27_circle.
Print Assumptions C27_colour8_refuted.

(** * C28 *)
Theorem C28_filledcircle : forall b w h bits x y r c o, wf b w h bits -> 0 <= r -> storable bits c ->
  bits = 8 \/ bits = 24 -> (bits = 8 -> -1079 <= x) -> (bits = 24 -> -19 <= x) ->
  exists b', filledcircle x y r c (mkst b o) = (Ok tt, mkst b' o) /\
    repainted b b' w h bits (fun x' y' =>
      if in_disc r (x' - x) (y' - y) then reduce bits c else pixel b w h bits x' y').
Proof.
  intros b w h bits x y r c o W Hr Hs Hb H8 H24. apply disc_bytes; auto.
  destruct Hb as [E|E]; rewrite E; [change (data_off 8) with 1078; change (pbytes 8) with 1|
    change (data_off 24) with 54; change (pbytes 24) with 3]; [specialize (H8 E)|specialize (H24 E)]; lia.
Qed.
Theorem C28_filledcircle1 : forall b w h x y r c o, wf b w h 1 -> 0 <= r ->
  exists b' o', filledcircle x y r c (mkst b o) = (Ok tt, mkst b' o') /\
    repainted b b' w h 1 (fun x' y' =>
      if in_disc r (x' - x) (y' - y) then (if 0 <? c then 1 else 0) else pixel b w h 1 x' y').
Proof. intros. apply disc1; auto. intros E; discriminate. Qed.
Theorem C28_negative : forall b w h bits x y r c o, wf b w h bits -> r < 0 ->
  filledcircle x y r c (mkst b o) = (Ok tt, mkst b o).
Proof. intros. now apply (disc_neg b w h bits). Qed.
(** the disc contains every pixel within the radius, none that is a full pixel
    further out, and the outline of the same radius *)
Theorem C28_disc : forall r dx dy, 0 <= r ->
  (dx * dx + dy * dy <= r * r -> in_disc r dx dy = true) /\
  (in_disc r dx dy = true -> dx * dx + dy * dy < (r + 1) * (r + 1) /\ Z.abs dx <= r /\ Z.abs dy <= r) /\
  (on_ring r dx dy = true -> in_disc r dx dy = true).
Proof.
  intros r dx dy Hr. unfold on_ring, in_disc. rewrite andb_true_iff, !Z.leb_le.
  set (m := Z.max (Z.abs dx) (Z.abs dy)). split; [lia|]. split; [|tauto].
  intros H. assert (Z.abs dx <= m /\ Z.abs dy <= m) by (unfold m; lia).
  assert (Hm : m * m <= dx * dx + dy * dy).
  { unfold m. destruct (Z.max_spec (Z.abs dx) (Z.abs dy)) as [[_ ->]|[_ ->]]; rewrite Z.abs_square.
    - pose proof (Z.square_nonneg dx). lia.
    - pose proof (Z.square_nonneg dy). lia. }
  assert (m <= r) by nia. split; [nia|lia].
Qed.
(** the generator of half widths: every row once *)
Theorem C28_rows : forall r, 0 <= r ->
  exists l, itercirclepartlineedge r = Ok l /\ NoDup (map snd l) /\
    (forall v, In v (map snd l) <-> 0 <= v <= r) /\
    (forall hw v, In (hw, v) l -> 0 <= hw <= r /\ forall p, 0 <= p -> (p <= hw <-> in_disc r p v = true)).
Proof.
  intros r Hr. destruct (itercirclepartlineedge_run r Hr) as (l & E & N & Hrow & Hl).
  exists l. split; auto. split; auto. split; auto. intros hw v Hin. destruct (Hl hw v Hin) as [H1 H2].
  split; [apply (on_circle_bound r (hw, v)); auto|]. intros p Hp. now apply (disc_row r hw v).
Qed.
(** a disc centred far to the left deletes bytes; on 4-bit bitmaps the right
    edge is missing *)
Theorem C28_left_refuted : exists b w h x y r c, wf b w h 24 /\ 0 <= r /\ 0 <= c < 2 ^ 24 /\
  outcome (filledcircle x y r c) b = Ok tt /\ zlen (after (filledcircle x y r c) b) < zlen b.
Proof.
  exists (blank 5 3 24), 5, 3, (-25), 2, 1, 7. split; [concrete_wf|].
  repeat split; try lia; vm_compute; reflexivity.
Qed.
Theorem C28_filledcircle4_refuted : exists b w h x y r c x' y', wf b w h 4 /\ 0 <= r /\ 0 <= c < 16 /\
  inside w h x' y' /\ in_disc r (x' - x) (y' - y) = true /\
  outcome (filledcircle x y r c) b = Ok tt /\ pixel (after (filledcircle x y r c) b) w h 4 x' y' <> c.
Proof.
  exists (blank 8 6 4), 8, 6, 3, 3, 1, 9, 4, 3. split; [concrete_wf|].
  unfold inside. repeat split; try lia; vm_compute; try reflexivity; discriminate.
Qed.
Example C28_ex : rows (after (filledcircle 3 2 2 9) (blank 7 5 8)) 7 5 8 =
  [[0;0;9;9;9;0;0]; [0;9;9;9;9;9;0]; [0;9;9;9;9;9;0]; [0;9;9;9;9;9;0]; [0;0;9;9;9;0;0]].
Proof. vm_compute; reflexivity. Qed.
Example C28_ex1 : rows (after (filledcircle (-1) 0 3 9) (blank 4 5 1)) 4 5 1 =
  [[1;1;1;0]; [1;1;1;0]; [1;1;0;0]; [1;0;0;0]; [0;0;0;0]].
Proof. vm_compute; reflexivity. Qed.
Print Assumptions C28_filledcircle.
Print Assumptions C28_filledcircle1.
Print Assumptions C28_negative.
Print Assumptions C28_disc.
Print Assumptions C28_rows.
Print Assumptions C28_left_refuted.
Print Assumptions C28_filledcircle4_refuted.
