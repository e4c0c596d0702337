(** Circular regions that lie entirely in the image: flips, erasures, copies
    (proofs). *)
From Coq Require Import ZArith List Bool Lia.
From Verif Require Import PyBase PyFacts Spec Bmp BmpFacts PixelProofs PlotList Buffers Region Raster VertProofs RectProofs HorizProofs
  UpProofs ResizeProofs Geometry GeomProofs Draw DrawProofs DrawProofs4 Filters FilterProofs FilterProofs2 Circle
  CircProofs CircProofs2 CircProofs3.
Import ListNotations.
Open Scope Z_scope.
Open Scope py_scope.
Ltac Zify.zify_post_hook ::= Z.to_euclidean_division_equations.

Section In.
  Variables (b : list Z) (w h bits r x y : Z) (o : list msg) (l : list (Z * Z)).
  Hypothesis W : wf b w h bits.
  Hypothesis Hr : 0 <= r.
  Hypothesis El : itercirclepartlineedge r = Ok l.
  Hypothesis X1 : 0 <= x - r.
  Hypothesis X2 : x + r < w.
  Hypothesis Y1 : 0 <= y - r.
  Hypothesis Y2 : y + r < h.
  Let Hd : valid_depth bits := wf_depth _ _ _ _ W.
  Notation ra := (rowaddr w h bits).
  Notation cp := (cp l w bits x y).

  Lemma in_loop V body :
    (forall a v b1, 0 <= a <= r -> 0 <= v <= r -> In (a, v) l -> wf b1 w h bits ->
      (forall k y', 0 <= k < stride w bits -> 0 <= y' < h -> Z.abs (y' - y) = v -> raster b1 w h bits k y' = raster b w h bits k y') ->
      exists b2, body (a, v) (mkst b1 o) = (Ok tt, mkst b2 o) /\
        rastered b1 b2 w h bits (fun k y' => if (Z.abs (y' - y) =? v) && ((kb bits (x - a) <=? k) && (k <? kb bits (x + a)))
          then V k y' else raster b1 w h bits k y')) ->
    exists b', forM l body (mkst b o) = (Ok tt, mkst b' o) /\
      rastered b b' w h bits (fun k y' => if cp k y' then V k y' else raster b w h bits k y').
  Proof.
    intros HS.
    destruct (keyed_loop b w h bits o snd (fun _ y' => Z.abs (y' - y))
      (fun k y' => if cp k y' then V k y' else raster b w h bits k y') body l) as (b' & E & R).
    - apply (disc_facts r l Hr El).
    - intros [a v] b1 Hin W1 H1. destruct (in_hw r l Hr El _ Hin) as (Ha & Hv & Eh). cbn [fst snd] in Ha, Hv, Eh.
      destruct (HS a v b1 Ha Hv Hin W1 H1) as (b2 & E2 & R2). exists b2. split; [exact E2|].
      eapply rastered_ext; [|exact R2]. intros k y' Hk Hy. cbn beta. cbn [snd].
      destruct (Z.eqb_spec (Z.abs (y' - y)) v) as [E|N]; cbn [andb]; auto.
      unfold CircProofs.cp, klo, khi. rewrite E, Eh. rewrite Z.max_r, Z.min_r by (clear - X1 X2 Ha; lia).
      destruct (_ && _); auto.
    - exact W.
    - exists b'. split; [exact E|]. apply (rows_all b w h bits r x y l W Hr El). exact R.
  Qed.

  (** two rows given new contents *)
  Lemma two_put b1 V a v u1 u2 : wf b1 w h bits -> 0 <= a <= r -> 0 <= v <= r ->
    zlen u1 = kb bits (x + a) - kb bits (x - a) -> bytes u1 ->
    zlen u2 = kb bits (x + a) - kb bits (x - a) -> bytes u2 ->
    (forall i, 0 <= i < kb bits (x + a) - kb bits (x - a) -> getz u1 i = V (kb bits (x - a) + i) (y - v)) ->
    (forall i, 0 <= i < kb bits (x + a) - kb bits (x - a) -> getz u2 i = V (kb bits (x - a) + i) (y + v)) ->
    exists b2 b3, slice_set (ra (y - v) + kb bits (x - a)) (ra (y - v) + kb bits (x + a)) u1 (mkst b1 o) = (Ok tt, mkst b2 o) /\
      wf b2 w h bits /\ slice_set (ra (y + v) + kb bits (x - a)) (ra (y + v) + kb bits (x + a)) u2 (mkst b2 o) = (Ok tt, mkst b3 o) /\
      rastered b1 b3 w h bits (fun k y' => if (Z.abs (y' - y) =? v) && ((kb bits (x - a) <=? k) && (k <? kb bits (x + a)))
          then V k y' else raster b1 w h bits k y').
  Proof.
    intros W1 Ha Hv L1 B1 L2 B2 G1 G2.
    pose proof (kb_fit w bits (x - a) Hd ltac:(lia)) as K1. pose proof (kb_fit w bits (x + a) Hd ltac:(lia)) as K2.
    pose proof (kb_mono bits (x - a) (x + a) Hd ltac:(lia)) as K3.
    destruct (rowaddr_bounds _ _ _ _ (y - v) W1 ltac:(lia)) as [A1 _]. destruct (rowaddr_bounds _ _ _ _ (y + v) W1 ltac:(lia)) as [A2 _].
    pose proof (data_off_ge bits Hd) as D.
    set (k1 := kb bits (x - a)) in *. set (k2 := kb bits (x + a)) in *. clearbody k1 k2.
    destruct (put_part b1 w h bits o (y - v) k1 k2 u1 W1) as (b2 & E2 & R2); [lia|lia|lia|lia|lia|auto|].
    pose proof (rastered_wf _ _ _ _ _ _ R2) as W2.
    destruct (put_part b2 w h bits o (y + v) k1 k2 u2 W2) as (b3 & E3 & R3); [lia|lia|lia|lia|lia|auto|].
    exists b2, b3. split; [exact E2|]. split; [exact W2|]. split; [exact E3|].
    eapply rastered_trans; [exact R2|]. eapply rastered_ext; [|exact R3]. intros k y' Hk Hy. cbn beta.
    rewrite (proj2 (proj2 R2)) by auto. cbn beta.
    destruct ((k1 <=? k) && (k <? k2)) eqn:C; rewrite ?andb_true_r, ?andb_false_r; auto.
    destruct (Z.eqb_spec y' (y + v)) as [->|N2].
    - replace (Z.abs (y + v - y) =? v) with true by (clear - Hv; lia).
      rewrite G2 by (clear - C; lia). f_equal. clear. lia.
    - destruct (Z.eqb_spec y' (y - v)) as [->|N1].
      + replace (Z.abs (y - v - y) =? v) with true by (clear - Hv; lia).
        rewrite G1 by (clear - C; lia). f_equal. clear. lia.
      + replace (Z.abs (y' - y) =? v) with false by (clear - N1 N2; lia). reflexivity.
  Qed.
  Lemma part_get b1 a yy : wf b1 w h bits -> 0 <= a <= r -> 0 <= yy < h ->
    let u := py_slice b1 (ra yy + kb bits (x - a)) (ra yy + kb bits (x + a)) in
    zlen u = kb bits (x + a) - kb bits (x - a) /\ bytes u /\
    forall i, 0 <= i < kb bits (x + a) - kb bits (x - a) -> getz u i = raster b1 w h bits (kb bits (x - a) + i) yy.
  Proof.
    intros W1 Ha Hy u.
    pose proof (kb_fit w bits (x - a) Hd ltac:(lia)) as K1. pose proof (kb_fit w bits (x + a) Hd ltac:(lia)) as K2.
    pose proof (kb_mono bits (x - a) (x + a) Hd ltac:(lia)) as K3.
    destruct (row_get b1 w h bits yy (kb bits (x - a)) (kb bits (x + a) - kb bits (x - a)) W1 Hy ltac:(lia) ltac:(lia) ltac:(lia)) as (A & B & C).
    replace (ra yy + kb bits (x - a) + (kb bits (x + a) - kb bits (x - a))) with (ra yy + kb bits (x + a)) in A, B, C by ring. auto.
  Qed.
End In.

Ltac offs W1 :=
  repeat rewrite (bind_ok _ _ _ _ _ (run_rd _ _ _ _ (wf_offsethd _ _ _ _ W1 _ _))); rewrite ?baddr_rowaddr.
Ltac kbfold bits := repeat match goal with |- context [?c * bits / 8] => change (c * bits / 8) with (kb bits c) end.

(** ** vertical flips *)
Section Vert.
  Variables (b : list Z) (w h bits r x y : Z) (o : list msg) (t : vtrans).
  Hypothesis W : wf b w h bits.
  Hypothesis Hr : 0 <= r.
  Hypothesis X1 : 0 <= x - r.
  Hypothesis X2 : x + r < w.
  Hypothesis Y1 : 0 <= y - r.
  Hypothesis Y2 : y + r < h.
  Hypothesis Y3 : y + r < w.
  Lemma vertcirc_run : exists b', verttransformincircregion x y r t (mkst b o) = (Ok (Some tt), mkst b' o) /\
    repainted b b' w h bits (fun px py => if disc_part w bits r x y px py then pixel b w h bits px (vsource t y y py)
      else pixel b w h bits px py).
  Proof.
    destruct (itercirclepartlineedge_run r Hr) as (l & El & _). pose proof (wf_depth _ _ _ _ W) as Hd.
    unfold verttransformincircregion. rewrite (cguard_run b w h bits) by auto.
    replace (((0 <=? x - r) && (x + r <? w)) && ((0 <=? y - r) && (y + r <? w))) with true by (clear - X1 X2 Y1 Y3; lia).
    unfold withSome. rewrite bind_assoc, (bind_ok _ _ _ _ _ (run_lift _ _ _ _ El)).
    match goal with |- exists b', (bind (forM l ?bd) _) _ = _ /\ _ =>
      destruct (in_loop b w h bits r x y o l W Hr El X1 X2 (fun k y' => raster b w h bits k (vsource t y y y')) bd) as (b' & E & R) end.
    - intros a v b1 Ha Hv Hin W1 H1. cbn [fst snd mirror]. unfold mirror. offs W1. kbfold bits.
      destruct (part_get b w h bits r x W Hr X1 X2 b1 a (y - v) W1 Ha ltac:(clear - Y1 Y2 Hv; lia)) as (La & Ba & Ga).
      destruct (part_get b w h bits r x W Hr X1 X2 b1 a (y + v) W1 Ha ltac:(clear - Y1 Y2 Hv; lia)) as (Lb & Bb & Gb).
      pose proof (kb_fit w bits (x - a) Hd ltac:(clear - X1 X2 Ha; lia)) as K1.
      pose proof (kb_fit w bits (x + a) Hd ltac:(clear - X1 X2 Ha; lia)) as K2.
      set (ua := py_slice b1 (rowaddr w h bits (y - v) + _) _) in *. set (ub := py_slice b1 (rowaddr w h bits (y + v) + _) _) in *.
      assert (Ga' : forall i, 0 <= i < kb bits (x + a) - kb bits (x - a) -> getz ua i = raster b w h bits (kb bits (x - a) + i) (y - v)).
      { intros i Hi. rewrite Ga by auto. apply H1; [clear - K1 K2 Hi; lia|clear - Y1 Y2 Hv; lia|clear - Hv; lia]. }
      assert (Gb' : forall i, 0 <= i < kb bits (x + a) - kb bits (x - a) -> getz ub i = raster b w h bits (kb bits (x - a) + i) (y + v)).
      { intros i Hi. rewrite Gb by auto. apply H1; [clear - K1 K2 Hi; lia|clear - Y1 Y2 Hv; lia|clear - Hv; lia]. }
      destruct (rowaddr_bounds _ _ _ _ (y - v) W1 ltac:(clear - Y1 Y2 Hv; lia)) as [A1 _].
      destruct (rowaddr_bounds _ _ _ _ (y + v) W1 ltac:(clear - Y1 Y2 Hv; lia)) as [A2 _].
      pose proof (data_off_ge bits Hd) as D.
      destruct t; cbn [circvswap vsource].
      + rewrite (bind_ok _ _ _ _ _ (run_slice _ _ _ _)), (bind_ok _ _ _ _ _ (run_slice _ _ _ _)). fold ua ub.
        destruct (two_put b w h bits r x y o W Hr X1 X2 Y1 Y2 b1 (fun k y' => raster b w h bits k (y + y - y')) a v ub ua W1 Ha Hv Lb Bb La Ba)
          as (b2 & b3 & E2 & _ & E3 & R3).
        * intros i Hi. rewrite Gb' by auto. f_equal. clear. lia.
        * intros i Hi. rewrite Ga' by auto. f_equal. clear. lia.
        * exists b3. split; [now rewrite (bind_ok _ _ _ _ _ E2)|exact R3].
      + rewrite (bind_ok _ _ _ _ _ (run_slice _ _ _ _)). fold ua.
        destruct (put_part b1 w h bits o (y + v) (kb bits (x - a)) (kb bits (x + a)) ua W1) as (b2 & E2 & R2);
          [clear - Y1 Y2 Hv; lia|clear - K1; lia|clear - K2; lia|clear - A2 D K2; lia|clear - La K1 K2; pose proof (zlen_nonneg ua); lia|exact Ba|].
        exists b2. split; [exact E2|]. eapply rastered_ext; [|exact R2]. intros k y' Hk Hy. cbn beta.
        destruct ((kb bits (x - a) <=? k) && (k <? kb bits (x + a))) eqn:C; rewrite ?andb_true_r, ?andb_false_r; auto.
        destruct (Z.eqb_spec (Z.abs (y' - y)) v) as [E|N].
        * destruct (Z.eqb_spec y' (y + v)) as [->|N2].
          -- rewrite Ga' by (clear - C; lia). f_equal; clear - Hv; lia.
          -- rewrite H1 by auto. f_equal; clear - E N2; lia.
        * replace (y' =? y + v) with false by (clear - N Hv; lia). reflexivity.
      + rewrite (bind_ok _ _ _ _ _ (run_slice _ _ _ _)). fold ub.
        destruct (put_part b1 w h bits o (y - v) (kb bits (x - a)) (kb bits (x + a)) ub W1) as (b2 & E2 & R2);
          [clear - Y1 Y2 Hv; lia|clear - K1; lia|clear - K2; lia|clear - A1 D K2; lia|clear - Lb K1 K2; pose proof (zlen_nonneg ub); lia|exact Bb|].
        exists b2. split; [exact E2|]. eapply rastered_ext; [|exact R2]. intros k y' Hk Hy. cbn beta.
        destruct ((kb bits (x - a) <=? k) && (k <? kb bits (x + a))) eqn:C; rewrite ?andb_true_r, ?andb_false_r; auto.
        destruct (Z.eqb_spec (Z.abs (y' - y)) v) as [E|N].
        * destruct (Z.eqb_spec y' (y - v)) as [->|N2].
          -- rewrite Gb' by (clear - C; lia). f_equal; clear - Hv; lia.
          -- rewrite H1 by auto. f_equal; clear - E N2; lia.
        * replace (y' =? y - v) with false by (clear - N Hv; lia). reflexivity.
    - exists b'. split; [now rewrite (bind_ok _ _ _ _ _ E)|].
      apply (disc_repaint b w h bits r x y l W Hr El b' _ _ R). intros px py _ _. now rewrite pixel_raster.
  Qed.
End Vert.

(** ** erased lines *)
Section Erase.
  Variables (b : list Z) (w h bits r x y n k0 pat : Z) (o : list msg).
  Hypothesis W : wf b w h bits.
  Hypothesis Hr : 0 <= r.
  Hypothesis X1 : 0 <= x - r.
  Hypothesis X2 : x + r < w.
  Hypothesis Y1 : 0 <= y - r.
  Hypothesis Y2 : y + r < h.
  Hypothesis Y3 : y + r < w.
  Lemma erasecirc_run : n <> 0 ->
    exists b', erasealternatehorizontallinesincircregion x y r n k0 pat (mkst b o) = (Ok (Some tt), mkst b' o) /\
    repainted b b' w h bits (fun px py => if disc_part w bits r x y px py && (py mod n =? k0) then patpix bits (pat mod 256) px
      else pixel b w h bits px py).
  Proof.
    intros Hn.
    destruct (itercirclepartlineedge_run r Hr) as (l & El & _). pose proof (wf_depth _ _ _ _ W) as Hd.
    unfold erasealternatehorizontallinesincircregion. rewrite (cguard_run b w h bits) by auto.
    replace (((0 <=? x - r) && (x + r <? w)) && ((0 <=? y - r) && (y + r <? w))) with true by (clear - X1 X2 Y1 Y3; lia).
    unfold withSome. cbv zeta. rewrite land255. rewrite bind_assoc, (bind_ok _ _ _ _ _ (run_lift _ _ _ _ El)).
    assert (Bp : byte (pat mod 256)) by (unfold byte; lia). set (p := pat mod 256) in *. clearbody p.
    match goal with |- exists b', (bind (forM l ?bd) _) _ = _ /\ _ =>
      destruct (in_loop b w h bits r x y o l W Hr El X1 X2 (fun k y' => if y' mod n =? k0 then p else raster b w h bits k y') bd) as (b' & E & R) end.
    - intros a v b1 Ha Hv Hin W1 H1. cbn [fst snd mirror]. unfold mirror. offs W1. kbfold bits.
      replace (n =? 0) with false by (clear - Hn; lia).
      pose proof (kb_fit w bits (x - a) Hd ltac:(clear - X1 X2 Ha; lia)) as K1.
      pose proof (kb_fit w bits (x + a) Hd ltac:(clear - X1 X2 Ha; lia)) as K2.
      pose proof (kb_mono bits (x - a) (x + a) Hd ltac:(clear - Ha; lia)) as K3.
      pose proof (data_off_ge bits Hd) as D.
      set (k1 := kb bits (x - a)) in *. set (k2 := kb bits (x + a)) in *. clearbody k1 k2.
      assert (ONE : forall yy b2, wf b2 w h bits -> 0 <= yy < h ->
        exists b3, (if yy mod n =? k0 then
            a <- lift (py_array (repz p (rowaddr w h bits yy + k2 - (rowaddr w h bits yy + k1)))) ;;
            slice_set (rowaddr w h bits yy + k1) (rowaddr w h bits yy + k2) a else ret tt) (mkst b2 o) = (Ok tt, mkst b3 o) /\
          rastered b2 b3 w h bits (fun k y' => if ((y' =? yy) && (yy mod n =? k0)) && ((k1 <=? k) && (k <? k2)) then p else raster b2 w h bits k y')).
      { intros yy b2 W2 Hy. destruct (rowaddr_bounds _ _ _ _ yy W2 Hy) as [A1 _].
        destruct (yy mod n =? k0).
        - replace (rowaddr w h bits yy + k2 - (rowaddr w h bits yy + k1)) with (k2 - k1) by ring.
          rewrite (bind_ok _ _ _ _ _ (run_lift _ _ _ _ (py_array_ok _ (ResizeProofs.bytes_repz p (k2 - k1) Bp)))).
          destruct (put_part b2 w h bits o yy k1 k2 (repz p (k2 - k1)) W2 Hy) as (b3 & E3 & R3);
            [lia|lia|lia|apply zlen_repz|now apply ResizeProofs.bytes_repz|].
          exists b3. split; [exact E3|]. eapply rastered_ext; [|exact R3]. intros k y' _ _. cbn beta.
          rewrite andb_true_r. destruct ((y' =? yy) && ((k1 <=? k) && (k <? k2))) eqn:C; auto.
          apply getz_repz. clear - C. lia.
        - exists b2. split; [reflexivity|]. eapply rastered_ext; [|now apply rastered_refl]. intros k y' _ _. cbn beta.
          now rewrite andb_false_r. }
      destruct (ONE (y - v) b1 W1 ltac:(clear - Y1 Y2 Hv; lia)) as (b2 & E2 & R2).
      destruct (ONE (y + v) b2 (rastered_wf _ _ _ _ _ _ R2) ltac:(clear - Y1 Y2 Hv; lia)) as (b3 & E3 & R3).
      exists b3. rewrite (bind_ok _ _ _ _ _ E2). split; [exact E3|].
      eapply rastered_trans; [exact R2|]. eapply rastered_ext; [|exact R3]. intros k y' Hk Hy. cbn beta.
      rewrite (proj2 (proj2 R2)) by auto. cbn beta.
      destruct ((k1 <=? k) && (k <? k2)) eqn:C; rewrite ?andb_true_r, ?andb_false_r; auto.
      destruct (Z.eqb_spec (Z.abs (y' - y)) v) as [E|N].
      + assert (y' = y + v \/ y' = y - v) as [-> | ->] by (clear - E; lia).
        * rewrite Z.eqb_refl. cbn [andb]. destruct ((y + v) mod n =? k0) eqn:M; auto.
          destruct (Z.eqb_spec (y + v) (y - v)) as [E'|]; cbn [andb]; [|apply H1; auto].
          rewrite <- E', M. apply H1; auto.
        * rewrite Z.eqb_refl. cbn [andb]. destruct ((y - v) mod n =? k0) eqn:M.
          -- destruct (y - v =? y + v), ((y + v) mod n =? k0); reflexivity.
          -- destruct (Z.eqb_spec (y - v) (y + v)) as [E'|]; cbn [andb]; [|apply H1; auto].
             rewrite <- E', M. apply H1; auto.
      + replace (y' =? y + v) with false by (clear - N Hv; lia). replace (y' =? y - v) with false by (clear - N Hv; lia). reflexivity.
    - exists b'. split; [now rewrite (bind_ok _ _ _ _ _ E)|].
      pose proof (disc_repaint b w h bits r x y l W Hr El b' _
        (fun px py => if py mod n =? k0 then patpix bits p px else pixel b w h bits px py) R) as RP.
      assert (RP' : forall px py : Z, inside w h px py -> disc_part w bits r x y px py = true ->
         rowpix bits (fun k => if py mod n =? k0 then p else raster b w h bits k py) px =
         (if py mod n =? k0 then patpix bits p px else pixel b w h bits px py)).
      { intros px py _ _. rewrite pixel_raster. now destruct (py mod n =? k0). }
      specialize (RP RP'). destruct RP as (A1 & A2 & A3). split; [exact A1|]. split; [exact A2|].
      intros px py Hp. rewrite A3 by auto. destruct (disc_part w bits r x y px py); cbn [andb]; reflexivity.
  Qed.
  Lemma erasecirc_zero : n = 0 ->
    erasealternatehorizontallinesincircregion x y r n k0 pat (mkst b o) = (Err ZeroDivisionError, mkst b o).
  Proof.
    intros ->. destruct (itercirclepartlineedge_run r Hr) as (l & El & _ & Hv & _).
    unfold erasealternatehorizontallinesincircregion. rewrite (cguard_run b w h bits) by auto.
    replace (((0 <=? x - r) && (x + r <? w)) && ((0 <=? y - r) && (y + r <? w))) with true by (clear - X1 X2 Y1 Y3; lia).
    unfold withSome. cbv zeta. rewrite bind_assoc, (bind_ok _ _ _ _ _ (run_lift _ _ _ _ El)).
    destruct l as [|[a v] l].
    - exfalso. apply (proj2 (Hv 0)). lia.
    - apply bind_err. rewrite forM_cons. apply bind_err. cbn [fst snd mirror]. unfold mirror. offs W. reflexivity.
  Qed.
End Erase.
