(** Lines, filled rectangles and circles (proofs). *)
From Coq Require Import ZArith List Bool Lia.
From Verif Require Import PyBase PyFacts Spec Bmp BmpFacts PixelProofs PlotList HeaderProofs Buffers Region Raster VertProofs HorizProofs IterProofs RectProofs RectProofs2 Geometry GeomProofs Draw.
Import ListNotations.
Open Scope Z_scope.
Open Scope py_scope.
Ltac Zify.zify_post_hook ::= Z.to_euclidean_division_equations.

(** ** generic *)
Lemma forM_ext_inv {A} (P : st -> Prop) (l : list A) (f g : A -> M unit) :
  (forall a s, In a l -> P s -> f a s = g a s /\ exists s', g a s = (Ok tt, s') /\ P s') ->
  forall s, P s -> forM l f s = forM l g s.
Proof.
  induction l as [|a l IH]; intros H s HP; auto.
  rewrite !forM_cons. unfold bind. destruct (H a s) as (E & s' & E' & HP'); [cbn; auto|auto|].
  rewrite E, E'. apply IH; auto. intros; apply H; cbn; auto.
Qed.

Lemma paint_forM {A} (l : list A) (f : A -> M unit) (S : A -> Z -> Z -> bool) w h bits c quiet :
  (forall a b o, In a l -> wf b w h bits ->
     exists b' o', f a (mkst b o) = (Ok tt, mkst b' o') /\ (quiet = true -> o' = o) /\
       repainted b b' w h bits (fun x y => if S a x y then c else pixel b w h bits x y)) ->
  forall b o, wf b w h bits ->
  exists b' o', forM l f (mkst b o) = (Ok tt, mkst b' o') /\ (quiet = true -> o' = o) /\
    repainted b b' w h bits (fun x y => if existsb (fun a => S a x y) l then c else pixel b w h bits x y).
Proof.
  induction l as [|a l IH]; intros H b o W.
  - exists b, o. split; [reflexivity|]. split; auto. cbn. now apply repainted_refl.
  - destruct (H a b o) as (b1 & o1 & E1 & Q1 & R1); [cbn; auto|auto|].
    destruct (IH (fun a' b' o' Hin => H a' b' o' (or_intror Hin)) b1 o1) as (b2 & o2 & E2 & Q2 & R2);
      [apply R1|].
    exists b2, o2. rewrite forM_cons, (bind_ok _ _ _ _ _ E1). split; auto.
    split; [intros; rewrite Q2, Q1; auto|].
    eapply repainted_ext; [|eapply repainted_trans; [exact R1|exact R2]].
    intros x y Hin. cbn [existsb]. rewrite (proj2 (proj2 R1)) by auto.
    destruct (S a x y), (existsb (fun a0 => S a0 x y) l); reflexivity.
Qed.

Lemma getmaxxy_ok b w h bits : wf b w h bits -> getmaxxy b = Ok (w, h).
Proof. intros W. unfold getmaxxy. rewrite (wf_rx _ _ _ _ W), (wf_ry _ _ _ _ W). reflexivity. Qed.

(** ** buffers of one colour *)
Lemma rep_list_spec (v : list Z) n : 0 <= n ->
  zlen (rep_list v n) = n * zlen v /\ (bytes v -> bytes (rep_list v n)) /\
  forall i j, 0 <= i < n -> 0 <= j < zlen v -> getz (rep_list v n) (i * zlen v + j) = getz v j.
Proof.
  intros Hn. unfold rep_list. remember (Z.to_nat n) as m eqn:Em.
  assert (n = Z.of_nat m) as -> by lia. clear Em Hn.
  pose proof (zlen_nonneg v) as Hv.
  induction m as [|m (IL & IB & IG)]; cbn [rep_list_nat].
  - split; [reflexivity|]. split; [constructor|]. intros; lia.
  - split; [rewrite zlen_app, IL; lia|]. split; [intros; apply bytes_app; auto|].
    intros i j Hi Hj. rewrite getz_app by nia.
    destruct (Z.eq_dec i 0) as [->|].
    + destruct (Z.ltb_spec (0 * zlen v + j) (zlen v)); [f_equal; lia|lia].
    + destruct (Z.ltb_spec (i * zlen v + j) (zlen v)); [nia|].
      replace (i * zlen v + j - zlen v) with ((i - 1) * zlen v + j) by ring. apply IG; lia.
Qed.

Lemma rgb_bytes c : 0 <= c < 2 ^ 24 -> bytes [Z.land c 255; Z.land (Z.shiftr c 8) 255; Z.shiftr c 16].
Proof. intros. rewrite !land255, shiftr8, shiftr16. apply bytes3; unfold byte; lia. Qed.
Lemma rgb_val c : 0 <= c -> 
  Z.land c 255 + 256 * Z.land (Z.shiftr c 8) 255 + 65536 * Z.shiftr c 16 = c.
Proof. intros. rewrite !land255, shiftr8, shiftr16. lia. Qed.

Definition solid (bits c n : Z) : list Z :=
  if bits =? 24 then rep_list [Z.land c 255; Z.land (Z.shiftr c 8) 255; Z.shiftr c 16] n
  else repz (c mod 256) n.
Lemma solid_spec bits c n : bits = 8 \/ bits = 24 -> storable bits c -> 0 <= n ->
  bytes (solid bits c n) /\ zlen (solid bits c n) = n * pbytes bits /\
  forall i, 0 <= i < n -> rowpix bits (getz (solid bits c n)) i = reduce bits c.
Proof.
  intros [-> | ->] Hs Hn; unfold solid, pbytes, reduce; cbn [Z.eqb Pos.eqb].
  - assert (B : bytes (repz (c mod 256) n)).
    { unfold bytes, repz. apply Forall_forall. intros v Hv. apply repeat_spec in Hv. subst. unfold byte. lia. }
    split; auto. split; [rewrite zlen_repz; lia|].
    intros i Hi. rewrite rowpix8 by (now apply bytes_getz). rewrite getz_repz by lia. reflexivity.
  - specialize (Hs eq_refl).
    destruct (rep_list_spec [Z.land c 255; Z.land (Z.shiftr c 8) 255; Z.shiftr c 16] n Hn) as (L & B & G).
    split; [apply B, rgb_bytes; auto|]. split; [rewrite L; unfold zlen; cbn; lia|].
    intros i Hi. unfold rowpix. cbn [Z.eqb Pos.eqb].
    change (zlen [Z.land c 255; Z.land (Z.shiftr c 8) 255; Z.shiftr c 16]) with 3 in G.
    replace (3 * i) with (i * 3 + 0) at 1 by lia. replace (3 * i) with (i * 3) by lia.
    rewrite !G by lia. cbn [getz Z.ltb Z.compare]. apply (rgb_val c). lia.
Qed.

(** ** one horizontal run of pixels *)
Definition in_span (xa xb y x' y' : Z) : bool := (y' =? y) && ((xa <=? x') && (x' <=? xb)).

Lemma span_run b w h bits xa xb y c buf : wf b w h bits -> bits = 8 \/ bits = 24 ->
  0 <= y < h -> 0 <= xa -> xa <= xb + 1 -> xb < w ->
  bytes buf -> zlen buf = (xb - xa + 1) * pbytes bits ->
  (forall i, 0 <= i < xb - xa + 1 -> rowpix bits (getz buf) i = c) ->
  repainted b (py_slice_set b (baddr w h bits xa y) (baddr w h bits xa y + zlen buf) buf) w h bits
    (fun x' y' => if in_span xa xb y x' y' then c else pixel b w h bits x' y').
Proof.
  intros W Hb Hy Hxa Hxab Hxb Bb Lb Hc. rewrite baddr_rowaddr.
  assert (HS : w * pbytes bits <= stride w bits).
  { destruct (Z.eq_dec w 0) as [->|]; [pose proof (stride_nonneg 0 bits ltac:(lia) (wf_depth _ _ _ _ W)); lia|].
    destruct (row_fit w bits (w - 1) (wf_depth _ _ _ _ W) ltac:(lia)) as [_ R].
    destruct Hb as [-> | ->]; [change (pbytes 8) with 1 in *|change (pbytes 24) with 3 in *]; lia. }
  assert (Hk : xa * bits / 8 = xa * pbytes bits).
  { destruct Hb as [-> | ->]; [change (pbytes 8) with 1|change (pbytes 24) with 3]; lia. }
  rewrite Hk.
  assert (Hp : 0 < pbytes bits) by (destruct Hb as [-> | ->]; reflexivity).
  eapply rastered_repainted.
  - apply (row_set b w h bits y (xa * pbytes bits) (zlen buf)); auto; try nia.
  - intros x' y' Hin. cbn beta. unfold in_rowpart, in_span.
    destruct (Z.eqb_spec y' y) as [->|N]; cbn [andb]; [|now rewrite pixel_raster].
    destruct ((xa <=? x') && (x' <=? xb)) eqn:C.
    + apply andb_true_iff in C. destruct C as [C1 C2]. apply Z.leb_le in C1, C2.
      rewrite <- (Hc (x' - xa)) by lia. unfold rowpix.
      destruct Hb as [-> | ->]; cbn [Z.eqb Pos.eqb]; rewrite Lb;
        [change (pbytes 8) with 1|change (pbytes 24) with 3].
      * replace (x' * 8 / 8) with x' by lia. replace ((x' - xa) * 8 / 8) with (x' - xa) by lia.
        replace ((x' - xa) * 8 mod 8) with (x' * 8 mod 8) by lia. bcases; try lia.
        replace (x' - xa * 1) with (x' - xa) by lia. reflexivity.
      * bcases; try lia. f_equal; [f_equal|]; [f_equal; lia| |]; f_equal; f_equal; lia.
    + rewrite pixel_raster. apply (rowpix_ext bits w); [apply W|apply Hin|].
      intros k Hk1 Hk2. apply andb_false_iff in C. rewrite Lb.
      assert (Hx' : x' * bits / 8 = x' * pbytes bits).
      { destruct Hb as [-> | ->]; [change (pbytes 8) with 1|change (pbytes 24) with 3]; lia. }
      rewrite Hx' in Hk2.
      destruct ((xa * pbytes bits <=? k) && (k <? xa * pbytes bits + (xb - xa + 1) * pbytes bits)) eqn:C'; auto.
      exfalso. apply andb_true_iff in C'. destruct C' as [C1 C2]. apply Z.leb_le in C1. apply Z.ltb_lt in C2.
      destruct C as [C|C]; apply Z.leb_gt in C; nia.
Qed.

Lemma slice_set_id l s e : 0 <= e <= s -> py_slice_set l s e [] = l.
Proof.
  intros H. unfold py_slice_set, clampi. bcases; try lia. rewrite Z.max_l by lia. apply firstn_skipn.
Qed.

(** ** horiline *)
Section Hori.
  Variables (b : list Z) (w h bits y x1 x2 c : Z).
  Hypothesis W : wf b w h bits.
  Hypothesis Hs : storable bits c.
  Let xa := Z.max (Z.min x1 x2) 0.
  Let xb := Z.min (Z.max x1 x2) (w - 1).

  Lemma hori_out o : ~ 0 <= y < h ->
    horiline y x1 x2 c (mkst b o) = (Ok tt, mkst b (o ++ [Mlineoutofbnd])).
  Proof.
    intros Hy. unfold horiline. rewrite (bind_ok _ _ _ _ _ (wf_geti_bits _ _ _ _ W _)).
    rewrite (bind_ok _ _ _ _ _ (run_rd _ _ _ _ (getmaxxy_ok _ _ _ _ W))). cbn [fst snd].
    unfold isinrange. replace ((y >? -1) && (y <? h)) with false by (bcases; auto; lia). reflexivity.
  Qed.

  Lemma hori_start o : 0 <= y < h ->
    horiline y x1 x2 c (mkst b o) =
    (let dx := xb - xa + 1 in let s := baddr w h bits xa y in
     if bits =? 24 then
      buf <- lift (py_array (rep_list [Z.land c 255; Z.land (Z.shiftr c 8) 255; Z.shiftr c 16] dx)) ;;
      slice_set s (s + dx * 3) buf
     else if bits =? 8 then
      buf <- lift (py_array (repz (Z.land c 255) dx)) ;; slice_set s (s + dx) buf
     else if bits =? 4 then
      let dx := Z.shiftr dx 1 in
      let e := s + dx in
      let color := Z.land c 15 in
      let c2 := Z.shiftl color 4 + color in
      c1 <- (if Z.land xa 1 =? 1 then v <- geti s ;; ret (Z.land v 240) else ret (-1)) ;;
      buf <- lift (py_array (repz c2 dx)) ;;
      slice_set s e buf ;;;
      (if negb (c1 =? -1) then v <- geti s ;; seti s (c1 + Z.land v 15) else ret tt) ;;;
      (if Z.land xb 1 =? 1 then plotxybit (xb - 1) y color else ret tt)
     else if bits =? 1 then forM (range xa (xb + 1)) (fun x => plotxybit x y c)
     else ret tt) (mkst b o).
  Proof.
    intros Hy. unfold horiline. rewrite (bind_ok _ _ _ _ _ (wf_geti_bits _ _ _ _ W _)).
    rewrite (bind_ok _ _ _ _ _ (run_rd _ _ _ _ (getmaxxy_ok _ _ _ _ W))). cbn [fst snd].
    unfold isinrange. replace ((y >? -1) && (y <? h)) with true by (bcases; auto; lia).
    assert (E1 : swapif x1 x2 (x1 >? x2) = (Z.min x1 x2, Z.max x1 x2)).
    { unfold swapif. rewrite Z.gtb_ltb. destruct (Z.ltb_spec x2 x1); f_equal; lia. }
    rewrite E1.
    assert (Ea : setmin (Z.min x1 x2) 0 = xa) by (unfold setmin, xa; bcase; lia).
    assert (Eb : setmax (Z.max x1 x2) (w - 1) = xb).
    { unfold setmax, xb. rewrite Z.gtb_ltb. bcase; lia. }
    rewrite Ea, Eb.
    rewrite (bind_ok _ _ _ _ _ (run_rd _ _ _ _ (wf_offsethd _ _ _ _ W _ _))). reflexivity.
  Qed.

  (** 8 and 24 bit; lines that miss the image are harmless unless far to the left *)
  Lemma hori_bytes o : bits = 8 \/ bits = 24 -> 0 <= y < h ->
    0 <= data_off bits + (Z.max x1 x2 + 1) * pbytes bits ->
    exists b', horiline y x1 x2 c (mkst b o) = (Ok tt, mkst b' o) /\
      repainted b b' w h bits (fun x' y' =>
        if in_box x1 y x2 y x' y' then reduce bits c else pixel b w h bits x' y').
  Proof.
    intros Hb Hy Hsafe. rewrite hori_start by auto. cbv zeta.
    destruct (rowaddr_bounds _ _ _ _ y W Hy) as [B1 B2].
    assert (Hbox : forall x' y', inside w h x' y' -> in_span xa xb y x' y' = in_box x1 y x2 y x' y').
    { intros x' y' (H1 & H2). unfold in_span, in_box, xa, xb. bcases; auto; lia. }
    destruct (Z.le_gt_cases xa (xb + 1)) as [L|L].
    - destruct (solid_spec bits c (xb - xa + 1) Hb Hs ltac:(lia)) as (S1 & S2 & S3).
      pose proof (span_run b w h bits xa xb y (reduce bits c) (solid bits c (xb - xa + 1)) W Hb Hy
         ltac:(unfold xa; lia) L ltac:(unfold xb; lia) S1 S2 S3) as R.
      exists (py_slice_set b (baddr w h bits xa y)
         (baddr w h bits xa y + zlen (solid bits c (xb - xa + 1))) (solid bits c (xb - xa + 1))).
      split; [|eapply repainted_ext; [|exact R]; intros; cbn beta; rewrite <- Hbox; auto].
      rewrite S2. unfold solid, pbytes in *. destruct Hb as [Eb|Eb]; rewrite Eb in *; cbn [Z.eqb Pos.eqb] in *.
      + rewrite !land255. rewrite (bind_ok _ _ _ _ _ (run_lift _ _ _ _ (py_array_ok _ S1))).
        rewrite run_slice_set. now rewrite Z.mul_1_r.
      + rewrite (bind_ok _ _ _ _ _ (run_lift _ _ _ _ (py_array_ok _ S1))). now rewrite run_slice_set.
    - assert (E0 : forall l : list Z, py_slice_set b (baddr w h bits xa y)
          (baddr w h bits xa y + (xb - xa + 1) * pbytes bits) [] = b).
      { intros _. rewrite baddr_rowaddr. apply slice_set_id.
        assert (0 <= data_off bits) by (destruct Hb as [-> | ->]; vm_compute; discriminate).
        pose proof (wf_wrange _ _ _ _ W). clear Hbox Hs. unfold xa, xb in *. destruct Hb as [Eb | Eb]; rewrite Eb in *;
         [change (pbytes 8) with 1 in *|change (pbytes 24) with 3 in *]; lia. }
      exists b. split; [|eapply repainted_ext; [|apply repainted_refl; auto]].
      + unfold pbytes in E0. destruct Hb as [Eb|Eb]; rewrite Eb in *; cbn [Z.eqb Pos.eqb] in *.
        * unfold repz. replace (Z.to_nat (xb - xa + 1)) with O by lia. cbn [repeat].
          mred. cbn [py_array forallb]. rewrite Z.mul_1_r in E0. rewrite E0; [reflexivity|exact []].
        * unfold rep_list. replace (Z.to_nat (xb - xa + 1)) with O by lia. cbn [rep_list_nat].
          mred. cbn [py_array forallb]. rewrite E0; [reflexivity|exact []].
      + intros x' y' Hin. cbn beta. rewrite <- Hbox by auto. unfold in_span.
        destruct ((y' =? y) && ((xa <=? x') && (x' <=? xb))) eqn:C; auto.
        rewrite !andb_true_iff, !Z.leb_le in C. lia.
  Qed.

  Lemma hori_bit o : bits = 1 -> 0 <= y < h ->
    exists b', horiline y x1 x2 c (mkst b o) = (Ok tt, mkst b' o) /\
      repainted b b' w h bits (fun x' y' =>
        if in_box x1 y x2 y x' y' then reduce bits c else pixel b w h bits x' y').
  Proof.
    intros Hb Hy. rewrite hori_start by auto. cbv zeta.
    replace (bits =? 24) with false by lia. replace (bits =? 8) with false by lia.
    replace (bits =? 4) with false by lia. replace (bits =? 1) with true by (bcases; auto; lia).
    destruct (points_run (map (fun x => (x, y)) (range xa (xb + 1))) c b w h bits o W Hs) as (b' & E & R).
    rewrite forM_map in E. cbn [fst snd] in E. exists b'. split; [exact E|].
    eapply repainted_ext; [|exact R]. intros x' y' Hin. cbn beta.
    replace (in_box x1 y x2 y x' y') with (pt_in (map (fun x => (x, y)) (range xa (xb + 1))) x' y'); auto.
    apply eq_true_iff_eq. rewrite pt_in_iff, in_map_iff. unfold in_box, xa, xb, inside in *. split.
    - intros (x & Q & Hx). inversion Q; subst. apply in_range in Hx. bcases; auto; lia.
    - intros C. rewrite !andb_true_iff, !Z.leb_le in C. exists x'. split; [f_equal; lia|]. apply in_range. lia.
  Qed.
End Hori.

(** the pixels of the row painted by horiline in terms of the clipped ends *)
Definition span4 (xa xb x : Z) : bool :=
  if (xa mod 2 =? 0) && (xb mod 2 =? 1) then (xa <=? x) && (x <=? xb)
  else if (xa =? xb) && (xa mod 2 =? 1) then x =? xa - 1
  else (xa <=? x) && (x <=? xb - 1).

Lemma plot4_even b w h o x y c : wf b w h 4 -> inside w h x y -> x mod 2 = 0 ->
  plotxybit x y c (mkst b o) =
  seti (baddr w h 4 x y) (Z.shiftl (Z.land c 15) 4 + Z.land (getz b (baddr w h 4 x y)) 15) (mkst b o).
Proof.
  intros W Hin Hx. unfold plotxybit. mred. rewrite (wf_inbnd_true _ _ _ _ W) by auto. mred.
  rewrite (wf_rbits _ _ _ _ W). mred. cbn [Z.eqb Pos.eqb].
  destruct (baddr_bounds _ _ _ _ W x y Hin) as [B1 B2]. change (pbytes 4) with 1 in *.
  change (data_off 4) with 118 in *.
  mred. rewrite (wf_bmof _ _ _ _ W) by auto with bmp. mred.
  replace (Z.shiftr x 1 + (h - y - 1) * stride w 4 + 118) with (baddr w h 4 x y)
    by (unfold baddr; rewrite shiftr1; change (data_off 4) with 118; lia).
  rewrite py_get_in by lia. mred. rewrite land1, Hx. reflexivity.
Qed.

Lemma hori4 b w h y x1 x2 c o : wf b w h 4 -> 0 <= y < h -> 0 < w ->
  Z.min x1 x2 < w -> 0 <= Z.max x1 x2 ->
  let xa := Z.max (Z.min x1 x2) 0 in
  let xb := Z.min (Z.max x1 x2) (w - 1) in
  exists b', horiline y x1 x2 c (mkst b o) = (Ok tt, mkst b' o) /\
    repainted b b' w h 4 (fun x' y' =>
      if (y' =? y) && span4 xa xb x' then c mod 16 else pixel b w h 4 x' y').
Proof.
  intros W Hy Hw Hm1 Hm2 xa xb.
  rewrite (hori_start b w h 4 y x1 x2 c W) by auto. cbn [Z.eqb Pos.eqb]. cbv zeta.
  fold xa xb.
  assert (Ha : 0 <= xa <= xb) by (unfold xa, xb; lia).
  assert (Hb : xb < w) by (unfold xb; lia). clearbody xa xb. clear Hm1 Hm2 x1 x2.
  set (c2 := Z.shiftl (Z.land c 15) 4 + Z.land c 15).
  assert (Hc2 : byte c2 /\ c2 / 16 = c mod 16 /\ c2 mod 16 = c mod 16).
  { unfold c2, byte. rewrite shiftl4, land15. lia. }
  set (n := Z.shiftr (xb - xa + 1) 1).
  assert (Hn : n = (xb - xa + 1) / 2) by apply shiftr1.
  set (s := baddr w h 4 xa y).
  assert (Hwx : inside w h xa y) by (unfold inside; lia).
  destruct (baddr_bounds _ _ _ _ W xa y Hwx) as [B1 B2]. fold s in B1, B2.
  change (pbytes 4) with 1 in B2. change (data_off 4) with 118 in B1.
  assert (Hbyte : forall l, wf l w h 4 -> forall i, byte (getz l i)) by (intros; eapply wf_byte; eauto).
  (* the saved nibble *)
  set (old := getz b s).
  assert (E1 : exists c1, (if Z.land xa 1 =? 1 then v <- geti s ;; ret (Z.land v 240) else ret (-1)) (mkst b o)
     = (Ok c1, mkst b o) /\ c1 = if xa mod 2 =? 1 then Z.land old 240 else -1).
  { rewrite land1. destruct (xa mod 2 =? 1); [|eexists; split; reflexivity].
    rewrite (bind_ok _ _ _ _ _ (run_geti b o s ltac:(lia))). eexists; split; reflexivity. }
  destruct E1 as (c1 & E1 & Ec1). rewrite (bind_ok _ _ _ _ _ E1). clear E1.
  (* the run of bytes *)
  assert (Bb : bytes (repz c2 n)).
  { unfold bytes, repz. apply Forall_forall. intros v Hv. apply repeat_spec in Hv. subst. apply Hc2. }
  assert (Ln : zlen (repz c2 n) = n) by (rewrite zlen_repz; lia).
  rewrite (bind_ok _ _ _ _ _ (run_lift _ _ _ _ (py_array_ok _ Bb))).
  rewrite (bind_ok _ _ _ _ _ (run_slice_set _ _ _ _ _)).
  assert (Hst : xa / 2 + n <= stride w 4) by (unfold stride; lia).
  set (b1 := py_slice_set b s (s + n) (repz c2 n)).
  assert (R1 : repainted b b1 w h 4 (fun x' y' =>
     if (y' =? y) && ((xa / 2 <=? x' / 2) && (x' / 2 <? xa / 2 + n)) then c mod 16 else pixel b w h 4 x' y')).
  { pose proof (row_set b w h 4 y (xa / 2) n (repz c2 n) W Hy ltac:(lia) ltac:(lia) Hst Ln Bb) as Rr.
    replace (rowaddr w h 4 y + xa / 2) with s in Rr by (unfold s; rewrite baddr_rowaddr; lia).
    eapply rastered_repainted; [exact Rr|]. intros x' y' Hin. cbn beta. unfold in_rowpart.
    destruct ((y' =? y) && ((xa / 2 <=? x' / 2) && (x' / 2 <? xa / 2 + n))) eqn:C.
    - unfold rowpix. cbn [Z.eqb Pos.eqb]. replace (x' * 4 / 8) with (x' / 2) by lia.
      cbn beta. rewrite C. rewrite getz_repz by (rewrite !andb_true_iff, Z.leb_le, Z.ltb_lt in C; lia).
      replace ((x' * 4) mod 8) with (4 * (x' mod 2)) by lia.
      assert (x' mod 2 = 0 \/ x' mod 2 = 1) as [-> | ->] by lia.
      + change (2 ^ (8 - 4 - 4 * 0)) with 16. change (2 ^ 4) with 16. lia.
      + change (2 ^ (8 - 4 - 4 * 1)) with 1. change (2 ^ 4) with 16. lia.
    - rewrite pixel_raster. unfold rowpix. cbn [Z.eqb Pos.eqb]. replace (x' * 4 / 8) with (x' / 2) by lia.
      now rewrite C. }
  assert (W1 : wf b1 w h 4) by apply R1.
  (* the left nibble is put back *)
  assert (E2 : exists b2, (if negb (c1 =? -1) then v <- geti s ;; seti s (c1 + Z.land v 15) else ret tt) (mkst b1 o)
     = (Ok tt, mkst b2 o) /\ repainted b b2 w h 4 (fun x' y' =>
       if (y' =? y) && ((xa <=? x') && (x' / 2 <? xa / 2 + n)) then c mod 16 else pixel b w h 4 x' y')).
  { rewrite Ec1. destruct (Z.eqb_spec (xa mod 2) 1) as [Eo|Eo].
    - assert (Hi' : inside w h (xa - 1) y) by (unfold inside; lia).
      assert (Es : s = baddr w h 4 (xa - 1) y) by (unfold s, baddr; lia).
      assert (L1 : zlen b1 = zlen b) by (apply R1).
      destruct (plot_inside b1 w h 4 o (xa - 1) y (old / 16) W1 Hi') as (b2 & E & R2);
        [intros; discriminate|].
      rewrite (plot4_even b1 w h o (xa - 1) y (old / 16) W1 Hi' ltac:(lia)) in E. rewrite <- Es in E.
      pose proof (Hbyte b W s) as Ho. fold old in Ho.
      replace (Z.land old 240) with (Z.shiftl (Z.land (old / 16) 15) 4)
        by (rewrite shiftl4, land15, land240 by auto; unfold byte in Ho; lia).
      destruct (Z.eqb_spec (Z.shiftl (Z.land (old / 16) 15) 4) (-1)) as [Q|_];
        [exfalso; rewrite shiftl4, land15 in Q; lia|]. cbn [negb].
      rewrite (bind_ok _ _ _ _ _ (run_geti b1 o s ltac:(lia))).
      exists b2. split; [exact E|].
      eapply repainted_ext; [|eapply repainted_trans; [exact R1|exact R2]].
      intros x' y' Hin. unfold put_px, reduce. cbn [Z.eqb Pos.eqb]. change (2 ^ 4) with 16.
      destruct (Z.eqb_spec x' (xa - 1)) as [->|Nx].
      + destruct (Z.eqb_spec y' y) as [->|Ny]; cbn [andb].
        * replace (xa <=? xa - 1) with false by lia. cbn [andb].
          rewrite pixel_4 by (apply Hbyte; auto). rewrite <- Es. fold old.
          replace ((xa - 1) mod 2) with 0 by lia. cbn [Z.eqb]. unfold byte in Ho. lia.
        * rewrite (proj2 (proj2 R1)) by auto. cbn beta. destruct (Z.eqb_spec y' y); [lia|]. reflexivity.
      + cbn [andb]. rewrite (proj2 (proj2 R1)) by auto. cbn beta. destruct (y' =? y); auto. cbn [andb].
        replace (xa / 2 <=? x' / 2) with (xa <=? x'); auto. clear - Nx Eo. bcases; auto; lia.
    - exists b1. cbn [Z.eqb negb]. split; [reflexivity|]. eapply repainted_ext; [|exact R1].
      intros x' y' Hin. cbn beta. replace (xa / 2 <=? x' / 2) with (xa <=? x'); auto.
      clear - Eo. bcases; auto; lia. }
  destruct E2 as (b2 & E2 & R2). rewrite (bind_ok _ _ _ _ _ E2). clear E2.
  assert (W2 : wf b2 w h 4) by apply R2.
  rewrite land1. destruct (Z.eqb_spec (xb mod 2) 1) as [Eo|Eo].
  - destruct (plot_any b2 w h 4 o (xb - 1) y (Z.land c 15) W2) as (b3 & E3 & R3); [intros; discriminate|].
    exists b3. split; [exact E3|].
    eapply repainted_ext; [|eapply repainted_trans; [exact R2|exact R3]].
    intros x' y' Hin. unfold put_px, reduce. cbn [Z.eqb Pos.eqb]. change (2 ^ 4) with 16.
    rewrite land15. replace ((c mod 16) mod 16) with (c mod 16) by lia.
    rewrite (proj2 (proj2 R2)) by auto. cbn beta. unfold span4.
    destruct (Z.eqb_spec y' y) as [->|]; [|now rewrite andb_false_r]. cbn [andb]. rewrite andb_true_r.
    assert (Q : (if x' =? xb - 1 then true else (xa <=? x') && (x' / 2 <? xa / 2 + n)) =
      (if (xa mod 2 =? 0) && (xb mod 2 =? 1) then (xa <=? x') && (x' <=? xb)
       else if (xa =? xb) && (xa mod 2 =? 1) then x' =? xa - 1 else (xa <=? x') && (x' <=? xb - 1))).
    { clear - Ha Hn Eo. clearbody n. subst n. 
      destruct (Z.eqb_spec xa xb) as [->|N1].
      - replace (xb mod 2 =? 0) with false by lia. replace (xb mod 2 =? 1) with true by lia. cbn [andb].
        bcases; auto; lia.
      - replace (xb mod 2 =? 1) with true by lia. cbn [andb].
        assert (xa mod 2 = 0 \/ xa mod 2 = 1) as [Em|Em] by lia; rewrite Em; cbn [Z.eqb andb]; bcases; auto; lia. }
    rewrite <- Q. destruct (x' =? xb - 1); reflexivity.
  - exists b2. split; [reflexivity|]. eapply repainted_ext; [|exact R2].
    intros x' y' Hin. cbn beta. unfold span4. destruct (y' =? y); auto. cbn [andb].
    replace (xb mod 2 =? 1) with false by lia. rewrite andb_false_r.
    assert (Q : (xa <=? x') && (x' / 2 <? xa / 2 + n) =
       (if (xa =? xb) && (xa mod 2 =? 1) then x' =? xa - 1 else (xa <=? x') && (x' <=? xb - 1))).
    { clear - Ha Hn Eo. clearbody n. subst n.
      replace ((xa =? xb) && (xa mod 2 =? 1)) with false by (bcases; auto; lia).
      assert (xa mod 2 = 0 \/ xa mod 2 = 1) as [Em|Em] by lia; bcases; auto; lia. }
    now rewrite <- Q.
Qed.

(** ** vertline *)
Lemma filteri_all (f : Z -> bool) l : forall i, (forall j, i <= j -> f j = true) -> filteri_from f i l = l.
Proof.
  induction l as [|a l IH]; intros i H; cbn [filteri_from]; auto.
  rewrite H by lia. f_equal. apply IH. intros; apply H; lia.
Qed.
Lemma xslice_del_none l s e k : k <> 1 -> 0 <= s -> 0 <= e <= s -> py_xslice_set l s e k [] = Ok l.
Proof.
  intros Hk H0 H. unfold py_xslice_set. destruct (Z.eqb_spec k 1); [lia|].
  cbn [zlen length Z.of_nat Z.eqb]. f_equal. apply filteri_all. intros j Hj.
  apply negb_true_iff. unfold in_xslice.
  assert (clampi (zlen l) e <= clampi (zlen l) s) by (clear - H0 H; unfold clampi; bcases; lia).
  destruct (Z.leb_spec (clampi (zlen l) s) j); auto.
  destruct (Z.ltb_spec j (clampi (zlen l) e)); auto. lia.
Qed.
Lemma bytes_repz v n : byte v -> bytes (repz v n).
Proof. intros H. unfold bytes, repz. apply Forall_forall. intros x Hx. apply repeat_spec in Hx. now subst. Qed.

Section Vert.
  Variables (b : list Z) (w h bits x y1 y2 c : Z).
  Hypothesis W : wf b w h bits.
  Hypothesis Hs : storable bits c.
  Let ya := Z.max (Z.min y1 y2) 0.
  Let yb := Z.min (Z.max y1 y2) (h - 1).

  Lemma vert_points o : bits = 1 \/ bits = 4 ->
    exists b', vertline x y1 y2 c (mkst b o) = (Ok tt, mkst b' o) /\
      repainted b b' w h bits (fun x' y' =>
        if in_box x y1 x y2 x' y' then reduce bits c else pixel b w h bits x' y').
  Proof.
    intros Hb. unfold vertline. rewrite (bind_ok _ _ _ _ _ (wf_geti_bits _ _ _ _ W _)).
    replace (negb ((bits =? 24) || (bits =? 8))) with true by (bcases; auto; lia).
    assert (E1 : swapif y1 y2 (y1 >? y2) = (Z.min y1 y2, Z.max y1 y2)).
    { unfold swapif. rewrite Z.gtb_ltb. destruct (Z.ltb_spec y2 y1); f_equal; lia. }
    rewrite E1.
    destruct (points_run (map (fun y => (x, y)) (range (Z.min y1 y2) (Z.max y1 y2 + 1))) c b w h bits o W Hs) as (b' & E & R).
    rewrite forM_map in E. cbn [fst snd] in E. exists b'. split; [exact E|].
    eapply repainted_ext; [|exact R]. intros x' y' Hin. cbn beta.
    replace (in_box x y1 x y2 x' y') with
      (pt_in (map (fun y => (x, y)) (range (Z.min y1 y2) (Z.max y1 y2 + 1))) x' y'); auto.
    apply eq_true_iff_eq. rewrite pt_in_iff, in_map_iff. unfold in_box, inside in *. split.
    - intros (y & Q & Hy). inversion Q; subst. apply in_range in Hy. bcases; auto; lia.
    - intros C. rewrite !andb_true_iff, !Z.leb_le in C. exists y'. split; [f_equal; lia|]. apply in_range. lia.
  Qed.

  Lemma vert_out o : bits = 8 \/ bits = 24 -> ~ 0 <= x < w ->
    vertline x y1 y2 c (mkst b o) = (Ok tt, mkst b (o ++ [Mlineoutofbnd])).
  Proof.
    intros Hb Hx. unfold vertline. rewrite (bind_ok _ _ _ _ _ (wf_geti_bits _ _ _ _ W _)).
    replace (negb ((bits =? 24) || (bits =? 8))) with false by (bcases; auto; lia).
    rewrite (bind_ok _ _ _ _ _ (run_rd _ _ _ _ (wf_rxchr _ _ _ _ W))).
    rewrite (bind_ok _ _ _ _ _ (run_rd _ _ _ _ (getmaxxy_ok _ _ _ _ W))). cbn [fst snd].
    unfold isinrange. replace ((x >? -1) && (x <? w)) with false by (bcases; auto; lia). reflexivity.
  Qed.

  (** lines that miss the image are harmless unless far below it *)
  Lemma vert_bytes o : bits = 8 \/ bits = 24 -> 0 <= x < w -> 0 < h ->
    pbytes bits <= data_off bits + (h - Z.min y1 y2) * stride w bits + x * pbytes bits + 1 ->
    exists b', vertline x y1 y2 c (mkst b o) = (Ok tt, mkst b' o) /\
      repainted b b' w h bits (fun x' y' =>
        if in_box x y1 x y2 x' y' then reduce bits c else pixel b w h bits x' y').
  Proof.
    intros Hb Hx Hh Hsafe. unfold vertline. rewrite (bind_ok _ _ _ _ _ (wf_geti_bits _ _ _ _ W _)).
    replace (negb ((bits =? 24) || (bits =? 8))) with false by (bcases; auto; lia).
    rewrite (bind_ok _ _ _ _ _ (run_rd _ _ _ _ (wf_rxchr _ _ _ _ W))).
    rewrite (bind_ok _ _ _ _ _ (run_rd _ _ _ _ (getmaxxy_ok _ _ _ _ W))). cbn [fst snd].
    unfold isinrange. replace ((x >? -1) && (x <? w)) with true by (bcases; auto; lia).
    assert (E1 : swapif y1 y2 (y1 >? y2) = (Z.min y1 y2, Z.max y1 y2)).
    { unfold swapif. rewrite Z.gtb_ltb. destruct (Z.ltb_spec y2 y1); f_equal; lia. }
    rewrite E1.
    assert (Ea : setmin (Z.min y1 y2) 0 = ya) by (unfold setmin, ya; bcase; lia).
    assert (Eb : setmax (Z.max y1 y2) (h - 1) = yb).
    { unfold setmax, yb. rewrite Z.gtb_ltb. bcase; lia. }
    rewrite Ea, Eb. unfold int2RGB.
    rewrite (bind_ok _ _ _ _ _ (run_rd _ _ _ _ (wf_offsethd _ _ _ _ W _ _))).
    rewrite (bind_ok _ _ _ _ _ (run_rd _ _ _ _ (wf_offsethd _ _ _ _ W _ _))). cbv zeta.
    rewrite !baddr_rowaddr.
    assert (Hk : x * bits / 8 = x * pbytes bits).
    { destruct Hb as [-> | ->]; [change (pbytes 8) with 1|change (pbytes 24) with 3]; lia. }
    rewrite Hk. set (k := x * pbytes bits) in *.
    destruct (row_fit w bits x (wf_depth _ _ _ _ W) Hx) as [R1 R2]. rewrite Hk in R1, R2.
    pose proof (stride_pos w bits (wf_depth _ _ _ _ W) ltac:(lia)) as H4.
    assert (Hbox : forall x' y', inside w h x' y' ->
      in_box x y1 x y2 x' y' = (x' =? x) && ((ya <=? y') && (y' <=? yb))).
    { intros x' y' (H1 & H2). unfold in_box, ya, yb. bcases; auto; lia. }
    destruct (Z.le_gt_cases ya yb) as [L|L].
    - assert (Hya : 0 <= ya <= yb /\ yb < h) by (unfold ya, yb in *; lia).
      assert (CS : forall b1 t e v, wf b1 w h bits -> 0 <= t < pbytes bits -> byte v ->
         rowaddr w h bits ya + (k + t) < e <= rowaddr w h bits ya + (k + t) + stride w bits ->
         exists b2, py_xslice_set b1 (rowaddr w h bits yb + k + t) e (stride w bits) (repz v (yb - ya + 1)) = Ok b2 /\
           rastered b1 b2 w h bits (fun k' y' => if (k' =? k + t) && ((ya <=? y') && (y' <=? yb)) then v
              else raster b1 w h bits k' y')).
      { intros b1 t e v W1 Ht Hv He.
        destruct (col_set b1 w h bits ya yb (k + t) e W1 Hya ltac:(lia) He (repz v (yb - ya + 1))) as (b2 & E & R).
        - rewrite zlen_repz. lia. - now apply bytes_repz.
        - exists b2. rewrite <- Z.add_assoc. split; auto. eapply rastered_ext; [|exact R]. intros k' y' Hk' Hy'.
          cbn beta. destruct ((k' =? k + t) && ((ya <=? y') && (y' <=? yb))) eqn:C; auto.
          rewrite !andb_true_iff, !Z.leb_le in C. apply getz_repz. lia. }
      destruct (Z.eqb_spec bits 24) as [E24|N24].
      + assert (Ek : k = x * 3) by (unfold k; rewrite E24; reflexivity). clearbody k.
        assert (Hp : pbytes bits = 3) by (rewrite E24; reflexivity). rewrite Hp in *.
        specialize (Hs E24).
        assert (Hbs : byte (Z.land c 255) /\ byte (Z.land (Z.shiftr c 8) 255) /\ byte (Z.shiftr c 16)).
        { rewrite !land255, shiftr8, shiftr16. unfold byte. lia. }
        destruct Hbs as (V0 & V1 & V2).
        destruct (CS b 0 (rowaddr w h bits ya + k + stride w bits - 2) (Z.land c 255)) as (b1 & X1 & Q1); auto; try lia.
        destruct (CS b1 1 (rowaddr w h bits ya + k + stride w bits - 1) (Z.land (Z.shiftr c 8) 255)) as (b2 & X2 & Q2); auto; try lia.
        { apply Q1. }
        destruct (CS b2 2 (rowaddr w h bits ya + k + stride w bits) (Z.shiftr c 16)) as (b3 & X3 & Q3); auto; try lia.
        { apply Q2. }
        rewrite Z.add_0_r in X1.
        rewrite (bind_ok _ _ _ _ _ (run_lift _ _ _ _ (py_array_ok _ (bytes_repz _ _ V0)))).
        rewrite (bind_ok _ _ _ _ _ (run_xslice_set _ _ _ _ _ _ _ X1)).
        rewrite (bind_ok _ _ _ _ _ (run_lift _ _ _ _ (py_array_ok _ (bytes_repz _ _ V1)))).
        rewrite (bind_ok _ _ _ _ _ (run_xslice_set _ _ _ _ _ _ _ X2)).
        rewrite (bind_ok _ _ _ _ _ (run_lift _ _ _ _ (py_array_ok _ (bytes_repz _ _ V2)))).
        rewrite (run_xslice_set _ _ _ _ _ _ _ X3).
        exists b3. split; [reflexivity|].
        eapply rastered_repainted; [eapply rastered_trans; [eapply rastered_trans; [exact Q1|exact Q2]|exact Q3]|].
        intros x' y' Hin. rewrite Hbox by auto. cbn beta.
        pose proof (row_fit w bits x' (wf_depth _ _ _ _ W) (proj1 Hin)) as [F1 F2].
        assert (Hk' : x' * bits / 8 = 3 * x') by (rewrite E24; lia). rewrite Hk' in F1, F2; rewrite Hp in F2.
        assert (G2 : forall j, 0 <= j < 3 -> raster b2 w h bits (3 * x' + j) y' =
          if (3 * x' + j =? k + 1) && ((ya <=? y') && (y' <=? yb)) then Z.land (Z.shiftr c 8) 255
          else if (3 * x' + j =? k + 0) && ((ya <=? y') && (y' <=? yb)) then Z.land c 255
          else raster b w h bits (3 * x' + j) y').
        { intros j Hj. rewrite (proj2 (proj2 Q2)) by (try lia; apply Hin).
          rewrite (proj2 (proj2 Q1)) by (try lia; apply Hin). reflexivity. }
        pose proof (G2 0 ltac:(lia)) as G20. rewrite Z.add_0_r in G20.
        rewrite pixel_raster. unfold rowpix. rewrite E24 in *. cbn [Z.eqb Pos.eqb]. cbn beta.
        rewrite G20, !G2 by lia. clear Hk; subst k.
        destruct (Z.eqb_spec x' x) as [->|Nx].
        * replace (3 * x =? x * 3 + 2) with false by lia. replace (3 * x + 1 =? x * 3 + 2) with false by lia.
          replace (3 * x + 2 =? x * 3 + 2) with true by (bcases; auto; lia).
          replace (3 * x =? x * 3 + 1) with false by lia. replace (3 * x + 1 =? x * 3 + 1) with true by (bcases; auto; lia).
          replace (3 * x + 2 =? x * 3 + 1) with false by lia.
          replace (3 * x =? x * 3 + 0) with true by lia. replace (3 * x + 1 =? x * 3 + 0) with false by lia.
          replace (3 * x + 2 =? x * 3 + 0) with false by lia. cbn [andb].
          destruct ((ya <=? y') && (y' <=? yb)); auto. unfold reduce. cbn [Z.eqb Pos.eqb].
          apply rgb_val. lia.
        * replace (3 * x' =? x * 3 + 2) with false by lia. replace (3 * x' + 1 =? x * 3 + 2) with false by lia.
          replace (3 * x' + 2 =? x * 3 + 2) with false by lia.
          replace (3 * x' =? x * 3 + 1) with false by lia. replace (3 * x' + 1 =? x * 3 + 1) with false by lia.
          replace (3 * x' + 2 =? x * 3 + 1) with false by lia.
          replace (3 * x' =? x * 3 + 0) with false by lia. replace (3 * x' + 1 =? x * 3 + 0) with false by lia.
          replace (3 * x' + 2 =? x * 3 + 0) with false by lia. reflexivity.
      + assert (E8 : bits = 8) by lia.
        assert (Ek : k = x * 1) by (unfold k; rewrite E8; reflexivity). clearbody k.
        assert (Hp : pbytes bits = 1) by (rewrite E8; reflexivity). rewrite Hp in *.
        assert (V : byte (c mod 256)) by (unfold byte; lia).
        destruct (CS b 0 (rowaddr w h bits ya + k + stride w bits) (c mod 256)) as (b1 & X1 & Q1); auto; try lia.
        rewrite Z.add_0_r in X1.
        rewrite (bind_ok _ _ _ _ _ (run_lift _ _ _ _ (py_array_ok _ (bytes_repz _ _ V)))).
        rewrite (run_xslice_set _ _ _ _ _ _ _ X1).
        exists b1. split; [reflexivity|].
        eapply rastered_repainted; [exact Q1|]. intros x' y' Hin. rewrite Hbox by auto.
        rewrite pixel_raster. rewrite E8 in *. rewrite rowpix8.
        2:{ cbn beta. destruct ((x' =? k + 0) && _); auto. apply (wf_byte _ _ _ _ _ W). }
        rewrite rowpix8 by (apply (wf_byte _ _ _ _ _ W)). clear Hk; subst k.
        replace (x * 1 + 0) with x by lia. reflexivity.
    - assert (E0 : repz (Z.land c 255) (yb - ya + 1) = [] /\ repz (Z.land (Z.shiftr c 8) 255) (yb - ya + 1) = []
        /\ repz (Z.shiftr c 16) (yb - ya + 1) = [] /\ repz (c mod 256) (yb - ya + 1) = []).
      { unfold repz. replace (Z.to_nat (yb - ya + 1)) with O by lia. auto. }
      destruct E0 as (-> & -> & -> & ->).
      assert (Hp : pbytes bits = 1 \/ pbytes bits = 3) by (destruct Hb as [-> | ->]; auto).
      assert (Hd : 0 <= data_off bits) by (pose proof (data_off_ge bits (wf_depth _ _ _ _ W)); lia).
      assert (D : forall t, 0 <= t < pbytes bits -> py_xslice_set b (rowaddr w h bits yb + k + t)
           (rowaddr w h bits ya + k + stride w bits - (pbytes bits - 1) + t) (stride w bits) [] = Ok b).
      { intros t Ht. apply xslice_del_none; [lia| |].
        - unfold rowaddr. assert (yb <= h - 1) by (unfold yb; lia). nia.
        - unfold rowaddr.
          assert (Hyy : (ya = 0 /\ yb < 0) \/ (yb = h - 1 /\ h <= ya /\ ya = Z.min y1 y2))
            by (unfold ya, yb in *; lia).
          destruct Hyy as [(-> & K)|(-> & K & K')].
          + nia.
          + rewrite <- K' in Hsafe. nia. }
      exists b. split.
      + mred. cbn [py_array forallb]. mred. destruct (Z.eqb_spec bits 24) as [E24|N24].
        * assert (Hp3 : pbytes bits = 3) by (rewrite E24; reflexivity). rewrite Hp3 in D.
          pose proof (D 0 ltac:(lia)) as D0. pose proof (D 1 ltac:(lia)) as D1. pose proof (D 2 ltac:(lia)) as D2.
          rewrite Z.add_0_r in D0.
          replace (rowaddr w h bits ya + k + stride w bits - (3 - 1) + 0) with (rowaddr w h bits ya + k + stride w bits - 2) in D0 by lia.
          replace (rowaddr w h bits ya + k + stride w bits - (3 - 1) + 1) with (rowaddr w h bits ya + k + stride w bits - 1) in D1 by lia.
          replace (rowaddr w h bits ya + k + stride w bits - (3 - 1) + 2) with (rowaddr w h bits ya + k + stride w bits) in D2 by lia.
          mred. unfold xslice_set, wr. mred. cbn [mem out]. 
          unfold bind, lift, ret. cbn [mem out]. rewrite D0. cbn [mem out]. rewrite D1. cbn [mem out]. rewrite D2. reflexivity.
        * assert (E8 : bits = 8) by lia.
          assert (Hp1 : pbytes bits = 1) by (rewrite E8; reflexivity). rewrite Hp1 in D.
          pose proof (D 0 ltac:(lia)) as D0. rewrite Z.add_0_r in D0.
          replace (rowaddr w h bits ya + k + stride w bits - (1 - 1) + 0) with (rowaddr w h bits ya + k + stride w bits) in D0 by lia.
          unfold bind, lift, xslice_set, wr. cbn [mem out]. rewrite D0. reflexivity.
      + eapply repainted_ext; [|apply repainted_refl; auto]. intros x' y' Hin. cbn beta.
        rewrite Hbox by auto. replace ((ya <=? y') && (y' <=? yb)) with false by (bcases; auto; lia).
        now rewrite andb_false_r.
  Qed.
End Vert.
