(** Properties C80-C81: reduced and pixelated images. *)
From Coq Require Import ZArith List Bool Lia.
From Verif Require Import PyBase PyFacts Spec SpecImage Bmp BmpFacts Buffers Region Raster FilterProofs Circle CircProofs2 CircProofs3 Shrink ShrinkProofs ShrinkProofs2 Concrete.
Import ListNotations.
Open Scope Z_scope.
Open Scope py_scope.

(** a rounding for the examples: half up *)
Definition half_up (n s : Z) : Z := (2 * s + n * n) / (2 * (n * n)).
Lemma half_up_range n s : 0 < n -> 0 <= s <= 255 * (n * n) -> 0 <= half_up n s < 256.
Proof.
  intros Hn Hs. assert (0 < n * n) by nia. unfold half_up. split; [apply Z.div_pos; lia|apply Z.div_lt_upper_bound; lia].
Qed.

(** * C80 *)
(** Each pixel of the reduced image is the channel-wise mean of an n x n square; the
    squares fill the image from the bottom left corner.  The columns that need the last
    column of an image of odd width are black instead. *)
Theorem C80_shrink : forall rnd b w h n o, wf b w h 24 -> 0 < n -> 0 < w -> 0 < h ->
  (forall s, 0 <= s <= 255 * (n * n) -> 0 <= rnd n s < 256) ->
  exists nb, resizeNtimessmaller rnd n (mkst b o) = (Ok (Some nb), mkst b o) /\ wf nb (w / n) (h / n) 24 /\
    forall x y, inside (w / n) (h / n) x y ->
      pixel nb (w / n) (h / n) 24 x y =
        if (w mod 2 =? 1) && (x * n + n =? w) then 0 else square_mean (rnd n) b w h n (x * n) (h mod n + y * n).
Proof.
  intros rnd b w h n o W Hn Hw Hh HB. destruct (shrink_run rnd b w h n W Hn Hw Hh HB o) as (nb & E & Wn & P).
  exists nb. split; [exact E|]. split; [exact Wn|]. intros x y I. rewrite P by exact I.
  assert (Q : (x <? (w - w mod 2) / n) = negb ((w mod 2 =? 1) && (x * n + n =? w))).
  { destruct I as [[Hx1 Hx2] _].
    assert (Hx3 : x * n + n <= w) by (pose proof (Z.mul_div_le w n ltac:(lia)); nia).
    pose proof (Z.mod_pos_bound w 2 ltac:(lia)) as M.
    destruct (Z.ltb_spec x ((w - w mod 2) / n)) as [L|L]; symmetry; [apply negb_true_iff|apply negb_false_iff].
    - assert (x * n + n <= w - w mod 2) by (pose proof (Z.mul_div_le (w - w mod 2) n ltac:(lia)); nia).
      destruct (Z.eqb_spec (w mod 2) 1); [|reflexivity]. destruct (Z.eqb_spec (x * n + n) w); [lia|reflexivity].
    - assert (w - w mod 2 < x * n + n).
      { destruct (Z.le_gt_cases (x * n + n) (w - w mod 2)) as [K|K]; [|lia]. exfalso.
        assert (x + 1 <= (w - w mod 2) / n) by (apply Z.div_le_lower_bound; [lia|]; nia). lia. }
      apply andb_true_iff. rewrite !Z.eqb_eq. lia. }
  rewrite Q. now destruct ((w mod 2 =? 1) && (x * n + n =? w)).
Qed.
Theorem C80_even_width : forall rnd b w h n o, wf b w h 24 -> 0 < n -> 0 < w -> 0 < h -> w mod 2 = 0 -> h mod n = 0 ->
  (forall s, 0 <= s <= 255 * (n * n) -> 0 <= rnd n s < 256) ->
  exists nb, resizeNtimessmaller rnd n (mkst b o) = (Ok (Some nb), mkst b o) /\ wf nb (w / n) (h / n) 24 /\
    forall x y, inside (w / n) (h / n) x y -> pixel nb (w / n) (h / n) 24 x y = square_mean (rnd n) b w h n (x * n) (y * n).
Proof.
  intros rnd b w h n o W Hn Hw Hh He Hm HB. destruct (C80_shrink rnd b w h n o W Hn Hw Hh HB) as (nb & E & Wn & P).
  exists nb. split; [exact E|]. split; [exact Wn|]. intros x y I. now rewrite P, He, Hm by exact I.
Qed.
(** other depths, and size 0 *)
Theorem C80_refused : forall rnd b w h bits n o, wf b w h bits ->
  (bits <> 24 -> resizeNtimessmaller rnd n (mkst b o) = (Ok None, mkst b (o ++ [Mnot24bit]))) /\
  (bits = 24 -> resizeNtimessmaller rnd 0 (mkst b o) = (Err ZeroDivisionError, mkst b o)).
Proof.
  intros rnd b w h bits n o W. split; intros Hb; unfold resizeNtimessmaller, func24bitonly.
  - rewrite (bind_ok _ _ _ _ _ (wf_geti_bits _ _ _ _ W _)). replace (bits =? 24) with false by lia. reflexivity.
  - rewrite (bind_ok _ _ _ _ _ (wf_geti_bits _ _ _ _ W _)). subst bits. cbn [Z.eqb Pos.eqb negb].
    unfold withSome. rewrite bind_assoc, (bind_ok _ _ _ _ _ (wf_geti_bits _ _ _ _ W _)).
    assert (Em : getmaxxy b = Ok (w, h)).
    { unfold getmaxxy, getmaxx, getmaxy. rewrite (wf_rx _ _ _ _ W), (wf_ry _ _ _ _ W). reflexivity. }
    rewrite bind_assoc, (bind_ok _ _ _ _ _ (run_rd _ _ _ _ Em)). reflexivity.
Qed.
(** the intended contract, all squares counted from the top left and all columns, fails *)
Theorem C80_top_left_refuted : exists b w h n nb x y,
  wf b w h 24 /\ 0 < n /\ resizeNtimessmaller half_up n (mkst b []) = (Ok (Some nb), mkst b []) /\ inside (w / n) (h / n) x y /\
  w mod 2 = 0 /\ pixel nb (w / n) (h / n) 24 x y <> square_mean (half_up n) b w h n (x * n) (y * n).
Proof.
  exists (sample24 2 3), 2, 3, 2, (match outcome (resizeNtimessmaller half_up 2) (sample24 2 3) with Ok (Some b) => b | _ => [] end), 0, 0.
  split; [concrete_wf|]. split; [reflexivity|]. split; [vm_compute; reflexivity|]. split; [vm_compute; intuition congruence|].
  split; [reflexivity|]. vm_compute. congruence.
Qed.
Theorem C80_odd_width_refuted : exists b w h n nb,
  wf b w h 24 /\ 0 < n /\ h mod n = 0 /\ w mod n = 0 /\ resizeNtimessmaller half_up n (mkst b []) = (Ok (Some nb), mkst b []) /\
  (forall x y, inside w h x y -> 0 < pixel b w h 24 x y) /\ pixel nb (w / n) (h / n) 24 0 0 = 0.
Proof.
  exists (sample24 3 3), 3, 3, 3, (match outcome (resizeNtimessmaller half_up 3) (sample24 3 3) with Ok (Some b) => b | _ => [] end).
  split; [concrete_wf|]. split; [reflexivity|]. split; [reflexivity|]. split; [reflexivity|]. split; [vm_compute; reflexivity|].
  split; [|vm_compute; reflexivity]. intros x y [Hx Hy].
  assert (X : x = 0 \/ x = 1 \/ x = 2) by lia. assert (Y : y = 0 \/ y = 1 \/ y = 2) by lia.
  destruct X as [-> | [-> | ->]], Y as [-> | [-> | ->]]; vm_compute; reflexivity.
Qed.
Example C80_ex : (0 < 2 /\ wf (sample24 4 2) 4 2 24 /\ forall s, 0 <= s <= 255 * (2 * 2) -> 0 <= half_up 2 s < 256) /\
  match outcome (resizeNtimessmaller half_up 2) (sample24 4 2) with
  | Ok (Some nb) => rows nb 2 1 24 = [[square_mean (half_up 2) (sample24 4 2) 4 2 2 0 0; square_mean (half_up 2) (sample24 4 2) 4 2 2 2 0]] /\
      square_mean (half_up 2) (sample24 4 2) 4 2 2 0 0 <> square_mean (half_up 2) (sample24 4 2) 4 2 2 2 0
  | _ => False
  end.
Proof.
  split; [split; [reflexivity|split; [concrete_wf|intros s; apply half_up_range; reflexivity]]|].
  vm_compute. split; [reflexivity|congruence].
Qed.
Print Assumptions C80_shrink.
Print Assumptions C80_even_width.
Print Assumptions C80_refused.
Print Assumptions C80_top_left_refuted.
Print Assumptions C80_odd_width_refuted.

(** * C81 *)
Theorem C81_pixelate : forall rnd b w h n o, wf b w h 24 -> 0 < n -> n <= w -> n <= h -> (w / n) mod 2 = 0 ->
  (forall s, 0 <= s <= 255 * (n * n) -> 0 <= rnd n s < 256) ->
  exists nb, pixelizenxn rnd n (mkst b o) = (Ok nb, mkst b o) /\ wf nb (w / n * n) (h / n * n) 24 /\
    forall x y, inside (w / n * n) (h / n * n) x y ->
      pixel nb (w / n * n) (h / n * n) 24 x y = square_mean (rnd n) b w h n (x / n * n) (h mod n + y / n * n).
Proof. intros rnd b w h n o W Hn Hw Hh He HB. apply pixelize_run; auto; lia. Qed.
(** so squares are uniform *)
Theorem C81_blocks : forall rnd b w h n o, wf b w h 24 -> 0 < n -> n <= w -> n <= h -> (w / n) mod 2 = 0 ->
  (forall s, 0 <= s <= 255 * (n * n) -> 0 <= rnd n s < 256) ->
  exists nb, pixelizenxn rnd n (mkst b o) = (Ok nb, mkst b o) /\
    forall i j dx dy, inside (w / n) (h / n) i j -> 0 <= dx < n -> 0 <= dy < n ->
      pixel nb (w / n * n) (h / n * n) 24 (i * n + dx) (j * n + dy) = pixel nb (w / n * n) (h / n * n) 24 (i * n) (j * n).
Proof.
  intros rnd b w h n o W Hn Hw Hh He HB. destruct (C81_pixelate rnd b w h n o W Hn Hw Hh He HB) as (nb & E & Wn & P).
  exists nb. split; [exact E|]. intros i j dx dy [Hi Hj] Hdx Hdy.
  rewrite !P by (unfold inside; nia). f_equal.
  - f_equal. rewrite Z.div_mul, Z.div_add_l, Z.div_small by lia. lia.
  - do 2 f_equal. rewrite Z.div_mul, Z.div_add_l, Z.div_small by lia. lia.
Qed.
Theorem C81_refused : forall rnd b w h bits n o, wf b w h bits -> 0 < w -> 0 < h ->
  (bits <> 24 -> pixelizenxn rnd n (mkst b o) = (Err TypeError, mkst b (o ++ [Mnot24bit]))) /\
  (bits = 24 -> pixelizenxn rnd 0 (mkst b o) = (Err ZeroDivisionError, mkst b o)) /\
  (bits = 24 -> 0 < n -> w < n \/ h < n -> (forall s, 0 <= s <= 255 * (n * n) -> 0 <= rnd n s < 256) ->
     pixelizenxn rnd n (mkst b o) = (Err TypeError, mkst b (o ++ [Mregionoutofbounds]))).
Proof.
  intros rnd b w h bits n o W Hw Hh. destruct (C80_refused rnd b w h bits n o W) as [A B]. split; [|split].
  - intros Hb. unfold pixelizenxn. now rewrite (bind_ok _ _ _ _ _ (A Hb)).
  - intros Hb. unfold pixelizenxn. now rewrite (bind_err _ _ _ _ _ (B Hb)).
  - intros -> Hn Hs HB. now apply (pixelize_empty rnd b w h).
Qed.
(** in a disc *)
Theorem C81_disc : forall rnd b w h o x y r n, wf b w h 24 -> 0 < n -> w mod n = 0 -> h mod n = 0 -> (w / n) mod 2 = 0 ->
  (forall s, 0 <= s <= 255 * (n * n) -> 0 <= rnd n s < 256) ->
  0 <= r -> inside w h (x - r) (y - r) -> inside w h (x + r) (y + r) ->
  exists b', pixelizenxncircregion rnd x y r n (mkst b o) = (Ok (Some tt), mkst b' o) /\
    repainted b b' w h 24 (fun px py => if disc_part w 24 r x y px py
      then square_mean (rnd n) b w h n (px / n * n) (py / n * n) else pixel b w h 24 px py).
Proof. intros rnd b w h o x y r n W Hn Mw Mh He HB Hr I1 I2. unfold inside in *. apply pixelcircle_run; auto; lia. Qed.
Theorem C81_disc_refused : forall rnd b w h bits o x y r n, wf b w h bits -> 0 <= r ->
  (bits <> 24 -> pixelizenxncircregion rnd x y r n (mkst b o) = (Ok None, mkst b (o ++ [Mnot24bit]))) /\
  (bits = 24 -> ~ (inside w h (x - r) (y - r) /\ inside w h (x + r) (y + r)) ->
     pixelizenxncircregion rnd x y r n (mkst b o) = (Ok None, mkst b (o ++ [Mregionoutofbounds]))).
Proof.
  intros rnd b w h bits o x y r n W Hr. unfold pixelizenxncircregion. rewrite (cguard24_run b w h bits) by auto. split.
  - intros Hb. replace (bits =? 24) with false by lia. reflexivity.
  - intros -> H. cbn [Z.eqb Pos.eqb].
    replace (((0 <=? x - r) && (x + r <? w)) && ((0 <=? y - r) && (y + r <? h))) with false; [reflexivity|].
    symmetry. apply not_true_iff_false. intros K. apply H. unfold inside. lia.
Qed.
(** The intended contract, an image of the same size, fails when n does not divide it,
    and an odd number of squares leaves the last ones black. *)
Theorem C81_size_refuted : exists b w h n nb, wf b w h 24 /\ 0 < n <= w /\ n <= h /\
  pixelizenxn half_up n (mkst b []) = (Ok nb, mkst b []) /\ le_field nb 18 4 < w.
Proof.
  exists (sample24 5 2), 5, 2, 2, (match outcome (pixelizenxn half_up 2) (sample24 5 2) with Ok b => b | _ => [] end).
  split; [concrete_wf|]. split; [split; [reflexivity|vm_compute; congruence]|]. split; [vm_compute; congruence|].
  split; [vm_compute; reflexivity|]. vm_compute. reflexivity.
Qed.
Theorem C81_odd_refuted : exists b w h n nb, wf b w h 24 /\ 0 < n /\ w mod n = 0 /\ h mod n = 0 /\
  pixelizenxn half_up n (mkst b []) = (Ok nb, mkst b []) /\
  square_mean (half_up n) b w h n 0 0 <> 0 /\ pixel nb w h 24 0 0 = 0.
Proof.
  exists (sample24 2 2), 2, 2, 2, (match outcome (pixelizenxn half_up 2) (sample24 2 2) with Ok b => b | _ => [] end).
  split; [concrete_wf|]. split; [reflexivity|]. split; [reflexivity|]. split; [reflexivity|]. split; [vm_compute; reflexivity|].
  split; vm_compute; congruence.
Qed.
(** When n does not divide the height the disc can reach below the pixelated image: bytes
    are then deleted from the bitmap. *)
Theorem C81_disc_refuted : exists b w h x y r n b',
  wf b w h 24 /\ 0 < n <= w /\ n <= h /\ 0 <= r /\ inside w h (x - r) (y - r) /\ inside w h (x + r) (y + r) /\
  pixelizenxncircregion half_up x y r n (mkst b []) = (Ok (Some tt), mkst b' []) /\ zlen b' < zlen b.
Proof.
  exists (sample24 9 9), 9, 9, 4, 4, 4, 5, (after (pixelizenxncircregion half_up 4 4 4 5) (sample24 9 9)).
  split; [concrete_wf|]. split; [split; [reflexivity|vm_compute; congruence]|]. split; [vm_compute; congruence|].
  split; [vm_compute; congruence|]. split; [vm_compute; intuition congruence|]. split; [vm_compute; intuition congruence|].
  split; vm_compute; reflexivity.
Qed.
Example C81_ex : (wf (sample24 4 2) 4 2 24 /\ (4 / 2) mod 2 = 0) /\
  match outcome (pixelizenxn half_up 2) (sample24 4 2) with
  | Ok nb => match rows nb 4 2 24 with
             | [[p; q; r; s]; l] => p = q /\ r = s /\ p <> r /\ l = [p; q; r; s] /\ p = square_mean (half_up 2) (sample24 4 2) 4 2 2 0 0
             | _ => False
             end
  | _ => False
  end.
Proof. split; [split; [concrete_wf|reflexivity]|]. vm_compute. repeat split; congruence. Qed.
Example C81_disc_ex : (wf (sample24 4 4) 4 4 24 /\ inside 4 4 (1 - 1) (1 - 1) /\ inside 4 4 (1 + 1) (1 + 1)) /\
  rows (after (pixelizenxncircregion half_up 1 1 1 2) (sample24 4 4)) 4 4 24 <> rows (sample24 4 4) 4 4 24 /\
  outcome (pixelizenxncircregion half_up 1 1 1 2) (sample24 4 4) = Ok (Some tt).
Proof.
  split; [split; [concrete_wf|split; vm_compute; intuition congruence]|]. split; [vm_compute; congruence|vm_compute; reflexivity].
Qed.
Print Assumptions C81_pixelate.
Print Assumptions C81_blocks.
Print Assumptions C81_refused.
Print Assumptions C81_disc.
Print Assumptions C81_disc_refused.
Print Assumptions C81_size_refuted.
Print Assumptions C81_odd_refuted.
Print Assumptions C81_disc_refuted.
