(** Pixelation (proofs). *)
From Coq Require Import ZArith List Bool Lia.
From Verif Require Import PyBase PyFacts Spec SpecImage Bmp BmpFacts HeaderProofs PixelProofs PlotList Buffers Region Raster VertProofs RectProofs HorizProofs
  UpProofs ResizeProofs Geometry GeomProofs Draw DrawProofs DrawProofs4 Filters FilterProofs FilterProofs2 Circle
  CircProofs CircProofs2 CircProofs3 CircProofs4 CircProofs5 Shrink ShrinkProofs.
Import ListNotations.
Open Scope Z_scope.
Open Scope py_scope.
Ltac Zify.zify_post_hook ::= Z.to_euclidean_division_equations.

Lemma pixelize_run rnd b w h n o : wf b w h 24 -> 0 < n <= h -> n <= w -> byte_rnd rnd n -> (w / n) mod 2 = 0 ->
  exists nb, pixelizenxn rnd n (mkst b o) = (Ok nb, mkst b o) /\ wf nb (w / n * n) (h / n * n) 24 /\
    forall x y, inside (w / n * n) (h / n * n) x y ->
      pixel nb (w / n * n) (h / n * n) 24 x y = square_mean (rnd n) b w h n (x / n * n) (h mod n + y / n * n).
Proof.
  intros W Hn Hw HB He. unfold pixelizenxn.
  destruct (shrink_run rnd b w h n W ltac:(lia) ltac:(lia) ltac:(lia) HB o) as (sb & Es & Ws & Ps).
  rewrite (bind_ok _ _ _ _ _ Es).
  assert (Nx : 0 < w / n) by (apply Z.div_str_pos; lia). assert (Ny : 0 < h / n) by (apply Z.div_str_pos; lia).
  assert (WB : w < 2 ^ 24 /\ h < 2 ^ 24) by (destruct W; tauto).
  assert (Lw : w / n * n <= w) by (pose proof (Z.mul_div_le w n ltac:(lia)); lia).
  assert (Lh : h / n * n <= h) by (pose proof (Z.mul_div_le h n ltac:(lia)); lia).
  destruct (resize_run sb (w / n) (h / n) 24 n Ws) with (o := o) as (nb & En & Wn & Pn & _); try lia.
  { right. auto. }
  exists nb. split; [|split; [exact Wn|]].
  - unfold on_src. cbn [out mem]. now rewrite En.
  - intros x y I. rewrite Pn by exact I. destruct I as [Ix Iy].
    assert (Bx : 0 <= x / n < w / n) by (split; [apply Z.div_pos; lia|apply Z.div_lt_upper_bound; lia]).
    assert (By : 0 <= y / n < h / n) by (split; [apply Z.div_pos; lia|apply Z.div_lt_upper_bound; lia]).
    rewrite Ps by (split; auto).
    assert (EP : (w - w mod 2) / n = w / n).
    { destruct (Z.eq_dec (w mod 2) 0) as [E|E]; [rewrite E; f_equal; ring|].
      assert (E1 : w mod 2 = 1) by (clear - E; lia). rewrite E1. clear - He E1 Hn Nx.
      assert (M : w mod n <> 0).
      { intros M. apply Z.div_exact in M; [|lia]. set (q := w / n) in *. clearbody q.
        assert (exists k, q = 2 * k) as [k ->] by (exists (q / 2); lia). rewrite M in E1. replace (n * (2 * k)) with (0 + n * k * 2) in E1 by ring.
        rewrite Z.mod_add in E1 by lia. discriminate E1. }
      pose proof (Z.mod_pos_bound w n ltac:(lia)) as B.
      symmetry. apply (Z.div_unique (w - 1) n (w / n) (w mod n - 1)); [lia|]. pose proof (Z.div_mod w n ltac:(lia)). lia. }
    rewrite EP. replace (x / n <? w / n) with true; [reflexivity|]. symmetry. apply Z.ltb_lt. apply Bx.
Qed.

Lemma pixelcircle_run rnd b w h o x y r n : wf b w h 24 -> 0 < n -> byte_rnd rnd n -> w mod n = 0 -> h mod n = 0 -> (w / n) mod 2 = 0 ->
  0 <= r -> 0 <= x - r -> x + r < w -> 0 <= y - r -> y + r < h ->
  exists b', pixelizenxncircregion rnd x y r n (mkst b o) = (Ok (Some tt), mkst b' o) /\
    repainted b b' w h 24 (fun px py => if disc_part w 24 r x y px py
      then square_mean (rnd n) b w h n (px / n * n) (py / n * n) else pixel b w h 24 px py).
Proof.
  intros W Hn HB Mw Mh He Hr X1 X2 Y1 Y2. unfold pixelizenxncircregion. rewrite (cguard24_run b w h 24) by auto.
  cbn [Z.eqb Pos.eqb].
  replace (((0 <=? x - r) && (x + r <? w)) && ((0 <=? y - r) && (y + r <? h))) with true by (clear - X1 X2 Y1 Y2; lia).
  unfold withSome.
  assert (Ew : w / n * n = w) by (pose proof (Z.div_mod w n ltac:(lia)); lia).
  assert (Eh : h / n * n = h) by (pose proof (Z.div_mod h n ltac:(lia)); lia).
  assert (Lw : n <= w) by (apply Z.div_exact in Mw; [|lia]; assert (0 < w / n) by (destruct (Z.le_gt_cases (w / n) 0) as [K|K]; [|lia]; clear - K Ew X1 X2 Hr Hn; nia); clear - H Ew Hn; nia).
  assert (Lh : n <= h) by (apply Z.div_exact in Mh; [|lia]; assert (0 < h / n) by (destruct (Z.le_gt_cases (h / n) 0) as [K|K]; [|lia]; clear - K Eh Y1 Y2 Hr Hn; nia); clear - H Eh Hn; nia).
  destruct (pixelize_run rnd b w h n o W ltac:(lia) Lw HB He) as (nb & En & Wn & Pn). rewrite Ew, Eh in Wn, Pn.
  rewrite bind_assoc, (bind_ok _ _ _ _ _ En).
  destruct (itercirclepartlineedge_run r Hr) as (l & El & _).
  rewrite bind_assoc, (bind_ok _ _ _ _ _ (run_lift _ _ _ _ El)).
  pose proof (wf_depth _ _ _ _ W) as Hd.
  pose (V := fun k y' => raster nb w h 24 k y').
  match goal with |- exists b', (bind (forM l ?bd) _) _ = _ /\ _ =>
    destruct (in_loop b w h 24 r x y o l W Hr El X1 X2 V bd) as (b' & E & R) end.
  - intros a v b1 Ha Hv Hin W1 H1. cbn [fst snd mirror]. unfold mirror.
    repeat rewrite (bind_ok _ _ _ _ _ (run_lift _ _ _ _ (wf_offsethd _ _ _ _ Wn _ _))). rewrite ?baddr_rowaddr. offs W1. kbfold 24.
    destruct (part_get nb w h 24 r x Wn Hr X1 X2 nb a (y - v) Wn Ha ltac:(clear - Y1 Y2 Hv; lia)) as (La & Ba & Ga).
    destruct (part_get nb w h 24 r x Wn Hr X1 X2 nb a (y + v) Wn Ha ltac:(clear - Y1 Y2 Hv; lia)) as (Lb & Bb & Gb).
    set (ua := py_slice nb (rowaddr w h 24 (y - v) + _) _) in *.
    set (ub := py_slice nb (rowaddr w h 24 (y + v) + _) _) in *.
    destruct (two_put b w h 24 r x y o W Hr X1 X2 Y1 Y2 b1 V a v ua ub W1 Ha Hv) as (b3 & b4 & E3 & W3 & E4 & R4);
      [rewrite La; reflexivity|exact Ba|rewrite Lb; reflexivity|exact Bb|exact Ga|exact Gb|].
    exists b4. split; [|exact R4]. rewrite (bind_ok _ _ _ _ _ E3). offs W3. kbfold 24. exact E4.
  - exists b'. split; [now rewrite (bind_ok _ _ _ _ _ E)|].
    apply (disc_repaint b w h 24 r x y l W Hr El b' V _ R). intros px py I D. unfold V.
    rewrite <- pixel_raster, Pn by exact I. now rewrite Mh, Z.add_0_l.
Qed.

(** blocks larger than the image *)
Lemma pixelize_empty rnd b w h n o : wf b w h 24 -> 0 < w -> 0 < h -> 0 < n -> w < n \/ h < n -> byte_rnd rnd n ->
  pixelizenxn rnd n (mkst b o) = (Err TypeError, mkst b (o ++ [Mregionoutofbounds])).
Proof.
  intros W Hw Hh Hn Hs HB. unfold pixelizenxn.
  destruct (shrink_run rnd b w h n W Hn Hw Hh HB o) as (sb & Es & Ws & _). rewrite (bind_ok _ _ _ _ _ Es).
  unfold on_src. cbn [out mem]. unfold resizeNtimesbigger.
  rewrite (bind_ok _ _ _ _ _ (wf_geti_bits _ _ _ _ Ws _)).
  assert (Em : getmaxxy sb = Ok (w / n, h / n)).
  { unfold getmaxxy, getmaxx, getmaxy. rewrite (wf_rx _ _ _ _ Ws), (wf_ry _ _ _ _ Ws). reflexivity. }
  rewrite (bind_ok _ _ _ _ _ (run_rd _ _ _ _ Em)). cbv zeta.
  assert (WB : w < 2 ^ 24 /\ h < 2 ^ 24) by (destruct W; tauto).
  assert (Lw : 0 <= w / n * n <= w) by (pose proof (Z.mul_div_le w n ltac:(lia)); assert (0 <= w / n) by (apply Z.div_pos; lia); nia).
  assert (Lh : 0 <= h / n * n <= h) by (pose proof (Z.mul_div_le h n ltac:(lia)); assert (0 <= h / n) by (apply Z.div_pos; lia); nia).
  destruct (newBMP_wf (w / n * n) (h / n * n) 24 ltac:(unfold valid_depth; auto)) as (nb & En & Wn & _); [lia|lia|].
  rewrite (bind_ok _ _ _ _ _ (run_lift _ _ _ _ En)).
  unfold building. cbn [mem out].
  change (24 <? 24) with false. cbv iota. rewrite (bind_ok _ _ _ _ _ (eq_refl : ret tt (mkst nb o) = (Ok tt, mkst nb o))).
  rewrite (bind_ok _ _ _ _ _ (run_rd _ _ _ _ (wf_offset _ _ _ _ Wn _ _))).
  rewrite (bind_ok _ _ _ _ _ (run_rd _ _ _ _ (wf_rxchr _ _ _ _ Wn))).
  unfold itercopyrect, from, on_src.
  assert (EG : forall A (f : M A) q, entirerectinboundary 0 0 (w / n - 1) (h / n - 1) f (mkst sb q) = (Ok None, mkst sb (q ++ [Mregionoutofbounds]))).
  { intros A f q. apply guard_false with (w := w / n) (h := h / n) (bits := 24); auto. unfold inside.
    destruct Hs as [Hs|Hs]; [rewrite (Z.div_small w n) by lia|rewrite (Z.div_small h n) by lia]; lia. }
  unfold bind at 1 2. rewrite EG. reflexivity.
Qed.
