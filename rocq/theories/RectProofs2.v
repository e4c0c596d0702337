(** Inverting a rectangle, upgrading to 24 bit (proofs). *)
From Coq Require Import ZArith List Bool Lia.
From Verif Require Import PyBase PyFacts Spec Bmp BmpFacts PixelProofs HeaderProofs PalProofs Buffers Region Raster VertProofs RectProofs.
Import ListNotations.
Open Scope Z_scope.
Open Scope py_scope.
Ltac Zify.zify_post_hook ::= Z.to_euclidean_division_equations.

(** ** invertregion *)
Lemma lxor_small bits v : bits = 1 \/ bits = 4 -> 0 <= v < 2 ^ bits -> Z.lxor v (2 ^ bits - 1) = 2 ^ bits - 1 - v.
Proof.
  intros Hb Hv.
  assert (S : forall v, 0 <= v < 16 -> (Z.lxor v 15 =? 15 - v) = true) by (apply forall_below; vm_compute; reflexivity).
  assert (S1 : forall v, 0 <= v < 2 -> (Z.lxor v 1 =? 1 - v) = true) by (apply forall_below; vm_compute; reflexivity).
  destruct Hb as [-> | ->]; apply Z.eqb_eq.
  - apply S1. exact Hv.
  - apply S. exact Hv.
Qed.
Lemma reduce_id bits v : valid_depth bits -> 0 <= v < 2 ^ bits -> reduce bits v = v.
Proof.
  intros [-> | [-> | [-> | ->]]] H; unfold reduce; cbn [Z.eqb Pos.eqb]; auto; try (apply Z.mod_small; auto).
  change (2 ^ 1) with 2 in H. bcases; lia.
Qed.

Section Inv.
  Variables (b : list Z) (w h bits x1 y1 x2 y2 : Z).
  Hypothesis W : wf b w h bits.
  Hypothesis I1 : inside w h x1 y1.
  Hypothesis I2 : inside w h x2 y2.
  Let xa := lo x1 x2. Let xb := hi x1 x2. Let ya := lo y1 y2. Let yb := hi y1 y2.

  Lemma inv_small o : bits < 8 ->
    exists b', itergetcolorfromrectregion own xa ya xb yb tt
        (fun _ v => let '(x, y, _) := v in
           k <- rd (getxybit x y) ;; plotxybit x y (Z.lxor k (2 ^ bits - 1))) (mkst b o) = (Ok tt, mkst b' o) /\
      repainted b b' w h bits (fun x y => if in_rect x1 y1 x2 y2 x y then 2 ^ bits - 1 - pixel b w h bits x y
                                          else pixel b w h bits x y).
  Proof.
    intros Hb. assert (Hd : bits = 1 \/ bits = 4) by (pose proof (wf_depth _ _ _ _ W); unfold valid_depth in *; lia).
    assert (Hxy : 0 <= xa <= xb /\ xb < w /\ 0 <= ya <= yb /\ yb < h)
      by (unfold inside, xa, xb, ya, yb, lo, hi in *; lia).
    destruct (pixrect_inv (B := unit) own mem w h bits xa ya xb yb
      (fun x y _ s => exists b', s = mkst b' o /\ repainted b b' w h bits (fun i j =>
          if in_rect x1 y1 x2 y2 i j && ((j <? y) || ((j =? y) && (i <? x))) then 2 ^ bits - 1 - pixel b w h bits i j
          else pixel b w h bits i j)) tt
      (fun _ v => let '(x, y, _) := v in
           k <- rd (getxybit x y) ;; plotxybit x y (Z.lxor k (2 ^ bits - 1))) (mkst b o)) as ([] & s' & E & b' & -> & R).
    - apply own_reads.
    - intros x y _ s (b' & -> & R). apply R.
    - split; lia.
    - split; lia.
    - exists b. split; auto. eapply repainted_ext; [|apply repainted_refl; auto].
      intros i j _. unfold in_rect. fold xa xb ya yb. unfold lo. bcases; auto; lia.
    - intros x y _ s Hx Hy (b' & -> & R). unfold lo, hi in Hx, Hy. cbn [mem].
      assert (Hin : inside w h x y) by (split; lia).
      rewrite (bind_ok _ _ _ _ _ (run_rd _ _ _ _ (getxybit_inside _ _ _ _ x y (proj1 R) Hin))).
      rewrite (proj2 (proj2 R)) by auto. cbn beta.
      replace ((y <? y) || ((y =? y) && (x <? x))) with false by (bcases; auto; lia). rewrite andb_false_r.
      pose proof (pixel_range _ _ _ _ x y W) as Hp.
      rewrite lxor_small by auto.
      destruct (plot_inside b' w h bits o x y (2 ^ bits - 1 - pixel b w h bits x y)) as (n2 & E & R2); auto.
      + apply R.
      + intro; lia.
      + exists tt, (mkst n2 o). split; [exact E|]. exists n2. split; auto.
        eapply repainted_trans; [exact R|]. eapply repainted_ext; [|exact R2].
        intros i j Hij. unfold put_px. rewrite (proj2 (proj2 R)) by auto. cbn beta.
        rewrite reduce_id by (first [lia|apply W]).
        unfold in_rect. fold xa xb ya yb.
        destruct (Z.eqb_spec i x) as [->|N1], (Z.eqb_spec j y) as [->|N2]; cbn [andb]; bcases; auto; lia.
    - intros y _ s Hy (b' & -> & R). exists b'. split; auto. eapply repainted_ext; [|exact R].
      intros i j _. unfold in_rect. fold xa xb ya yb. unfold lo, hi in *. cbn beta. bcases; auto; lia.
    - exists b'. split; [exact E|]. eapply repainted_ext; [|exact R]. intros i j _.
      unfold in_rect. fold xa xb ya yb. unfold lo, hi in *. cbn beta. bcases; auto; lia.
  Qed.

  Lemma inv_big o : bits = 8 \/ bits = 24 ->
    exists b', (itercopyrect own xa ya xb yb (baddr w h bits xa yb - data_off bits)
        (fun offset buf =>
           a <- lift (invertbitsinbuffer buf) ;;
           BMPbitBLTput offset a ;;; ret (offset + stride w bits)) ;;; ret tt) (mkst b o) = (Ok tt, mkst b' o) /\
      repainted b b' w h bits (fun x y => if in_rect x1 y1 x2 y2 x y then 2 ^ bits - 1 - pixel b w h bits x y
                                          else pixel b w h bits x y).
  Proof.
    intros Hb.
    assert (Hxy : 0 <= xa <= xb /\ xb < w /\ 0 <= ya <= yb /\ yb < h)
      by (unfold inside, xa, xb, ya, yb, lo, hi in *; lia).
    pose proof (aligned_8_24 bits xa xb Hb) as HA.
    destruct (aligned_fit w bits xa xb (wf_depth _ _ _ _ W)) as (F1 & F2 & F3); try lia.
    remember (xa * bits / 8) as k eqn:Ek. remember ((xb + 1) * bits / 8 - k) as n eqn:En.
    destruct (itercopyrect_inv own mem w h bits xa ya xb yb
      (fun i off s => off = (h - 1 - (yb - i)) * stride w bits + k /\ exists b', s = mkst b' o /\
         rastered b b' w h bits (fun k' j =>
           if incols k n k' && ((yb - i <? j) && (j <=? yb)) then 255 - raster b w h bits k' j
           else raster b w h bits k' j)) (baddr w h bits xa yb - data_off bits)
      (fun offset buf =>
           a <- lift (invertbitsinbuffer buf) ;;
           BMPbitBLTput offset a ;;; ret (offset + stride w bits)) (mkst b o))
      as (off & s' & E & _ & b' & -> & R).
    - apply own_reads.
    - intros i a s (_ & b' & -> & R). apply R.
    - split; lia.
    - split; lia.
    - now apply aligned_8_24.
    - split. { rewrite baddr_rowaddr. unfold rowaddr. rewrite <- Ek. ring. }
      exists b. split; auto. eapply rastered_ext; [|apply rastered_refl; auto].
      intros k' j Hk Hj. cbn beta.
      replace ((yb - 0 <? j) && (j <=? yb)) with false by (clear; bcases; auto; lia). now rewrite andb_false_r.
    - intros i off s buf Hi (-> & b' & -> & R) L1 L2 L3.
      replace (lo xa xb) with xa in * by (unfold lo; lia). replace (hi xa xb) with xb in * by (unfold hi; lia).
      replace (lo ya yb) with ya in * by (unfold lo; lia). replace (hi ya yb) with yb in * by (unfold hi; lia).
      rewrite <- Ek in L1, L3. rewrite <- En in L1, L3. cbn [mem] in L3.
      assert (Hinv : bytes (map (fun b => Z.lxor b 255) buf)).
      { apply Forall_map. eapply Forall_impl; [|exact L2]. intros v Hv. cbn beta. rewrite lxor255 by auto.
        unfold byte in *. lia. }
      unfold invertbitsinbuffer. rewrite (bind_ok _ _ _ _ _ (run_lift _ _ _ _ (py_array_ok _ Hinv))).
      destruct (bltput_row b' w h bits o (yb - i) k (map (fun b => Z.lxor b 255) buf)) as (n2 & E & R2).
      + apply R.
      + lia.
      + lia.
      + rewrite zlen_map, L1. lia.
      + auto.
      + rewrite (bind_ok _ _ _ _ _ E). eexists _, _. split; [reflexivity|]. split; [ring|].
        exists n2. split; auto. eapply rastered_trans; [exact R|]. eapply rastered_ext; [|exact R2].
        intros k' j Hk' Hj. cbn beta. rewrite (proj2 (proj2 R)) by auto.
        unfold in_rowpart. rewrite zlen_map, L1. unfold incols.
        destruct (Z.eqb_spec j (yb - i)) as [->|N]; cbn [andb].
        * destruct ((k <=? k') && (k' <? k + n)) eqn:C; cbn [andb]; auto.
          apply andb_true_iff in C. destruct C as [C1 C2]. apply Z.leb_le in C1. apply Z.ltb_lt in C2.
          rewrite getz_map by lia. rewrite L3 by lia. replace (k + (k' - k)) with k' by lia.
          rewrite (proj2 (proj2 R)) by auto. cbn beta. unfold incols.
          replace (yb - i <? yb - i) with false by lia. rewrite andb_false_r.
          rewrite lxor255 by (apply (wf_byte _ _ _ _ _ W)). bcases; auto; lia.
        * replace (yb - (i + 1) <? j) with (yb - i <? j) by lia. reflexivity.
    - exists b'. rewrite (bind_ok _ _ _ _ _ E). split; [reflexivity|].
      eapply rastered_repainted; [exact R|]. intros x y (Hx & Hy). cbn beta.
      replace (lo ya yb) with ya by (unfold lo; lia). replace (hi ya yb) with yb by (unfold hi; lia).
      rewrite pixel_raster. unfold in_rect. fold xa xb ya yb.
      rewrite <- rowpix_invert; [|apply W|intros; apply (wf_byte _ _ _ _ _ W)].
      transitivity (rowpix bits (fun k' => if ((xa <=? x) && (x <=? xb)) && ((ya <=? y) && (y <=? yb))
         then 255 - raster b w h bits k' y else raster b w h bits k' y) x).
      + apply (rowpix_ext bits w); auto. apply W. intros k' Hk' Hk2. cbn beta.
        subst n. subst k. rewrite (aligned_cols bits xa xb x k' (wf_depth _ _ _ _ W) HA Hk2).
        bcases; auto; lia.
      + destruct (((xa <=? x) && (x <=? xb)) && ((ya <=? y) && (y <=? yb))); reflexivity.
  Qed.
End Inv.

Lemma invertregion_run b w h bits o x1 y1 x2 y2 : wf b w h bits -> inside w h x1 y1 -> inside w h x2 y2 ->
  exists b', invertregion x1 y1 x2 y2 (mkst b o) = (Ok (Some tt), mkst b' o) /\
    repainted b b' w h bits (fun x y => if in_rect x1 y1 x2 y2 x y then 2 ^ bits - 1 - pixel b w h bits x y
                                        else pixel b w h bits x y).
Proof.
  intros W I1 I2. unfold invertregion. rewrite (guard_true _ _ _ _ _ _ _ _ _ _ W I1 I2). rewrite sortrec.
  unfold withSome. rewrite bind_assoc, (bind_ok _ _ _ _ _ (wf_geti_bits _ _ _ _ W _)).
  destruct (Z.ltb_spec bits 8) as [Hb|Hb].
  - rewrite bind_assoc, (bind_ok _ _ _ _ _ (run_rd _ _ _ _ (wf_rcolors _ _ _ _ W))).
    destruct (inv_small b w h bits x1 y1 x2 y2 W I1 I2 o Hb) as (b' & E & R).
    exists b'. rewrite (bind_ok _ _ _ _ _ E). split; [reflexivity|exact R].
  - assert (Hb' : bits = 8 \/ bits = 24) by (pose proof (wf_depth _ _ _ _ W); unfold valid_depth in *; lia).
    destruct (inv_big b w h bits x1 y1 x2 y2 W I1 I2 o Hb') as (b' & E & R).
    exists b'. rewrite bind_assoc.
    assert (Eo : (if bits =? 24 then o24bmof (lo x1 x2) (hi y1 y2) else o8bmof (lo x1 x2) (hi y1 y2)) b =
                 Ok (baddr w h bits (lo x1 x2) (hi y1 y2) - data_off bits)).
    { clear - W Hb'. unfold o24bmof, o8bmof, baddr.
      destruct Hb' as [Eb|Eb]; rewrite Eb; cbn [Z.eqb Pos.eqb];
        rewrite (wf_bmof _ _ _ _ W) by (unfold valid_depth; lia); f_equal; lia. }
    rewrite (bind_ok _ _ _ _ _ (run_rd _ _ _ _ Eo)).
    rewrite bind_assoc, (bind_ok _ _ _ _ _ (run_rd _ _ _ _ (wf_rxchr _ _ _ _ W))).
    rewrite (bind_ok _ _ _ _ _ E). split; [reflexivity|exact R].
Qed.

Lemma invertregion_out b w h bits o x1 y1 x2 y2 : wf b w h bits ->
  ~ (inside w h x1 y1 /\ inside w h x2 y2) ->
  invertregion x1 y1 x2 y2 (mkst b o) = (Ok None, mkst b (o ++ [Mregionoutofbounds])).
Proof. intros W N. now apply (guard_false _ w h bits). Qed.
