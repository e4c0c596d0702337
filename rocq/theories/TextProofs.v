(** Drawing of patterns (proofs): sequences of painting steps, and the loops of
    the pattern functions as loops over rows and columns. *)
From Coq Require Import ZArith List Bool Lia.
From Verif Require Import PyBase PyFacts Spec SpecText Bmp BmpFacts PixelProofs PlotList HeaderProofs Buffers Region
  Raster Geometry GeomProofs Draw VertProofs DrawProofs DrawProofs2 DrawProofs3 DrawProofs4 Text.
Import ListNotations.
Open Scope Z_scope.
Open Scope py_scope.
Ltac Zify.zify_post_hook ::= Z.to_euclidean_division_equations.

(** ** painting steps *)
Section Draws.
  Variables (R : list msg -> list msg -> Prop) (b0 : list Z) (w h bits : Z).
  Hypothesis Rrefl : forall o, R o o.
  Hypothesis Rtrans : forall o1 o2 o3, R o1 o2 -> R o2 o3 -> R o1 o3.

  (** on every bitmap with the header of b0 the action succeeds and paints the
      pixels where f gives a colour *)
  Definition draws (act : M unit) (f : Z -> Z -> option Z) : Prop :=
    forall b o, wf b w h bits -> same_header b0 b bits ->
    exists b' o', act (mkst b o) = (Ok tt, mkst b' o') /\ R o o' /\
      repainted b b' w h bits (fun px py => match f px py with Some v => v | None => pixel b w h bits px py end).

  Lemma same_header_trans a b c : same_header a b bits -> same_header b c bits -> same_header a c bits.
  Proof.
    intros [L1 H1] [L2 H2]. split; [congruence|]. intros i Hi. rewrite H2, H1; auto.
  Qed.
  Lemma draws_ext act f g : (forall px py, inside w h px py -> f px py = g px py) -> draws act f -> draws act g.
  Proof.
    intros E D b o W S. destruct (D b o W S) as (b' & o' & E1 & E2 & E3). exists b', o'. split; auto. split; auto.
    eapply repainted_ext; [|exact E3]. intros px py H. cbn beta. now rewrite E.
  Qed.
  Lemma draws_act act act' f : (forall s, act s = act' s) -> draws act' f -> draws act f.
  Proof. intros E D b o W S. rewrite E. now apply D. Qed.
  Lemma draws_none : draws (ret tt) (fun _ _ => None).
  Proof. intros b o W S. exists b, o. split; [reflexivity|]. split; auto. now apply repainted_refl. Qed.
  Lemma draws_seq a1 a2 f g : draws a1 f -> draws a2 g ->
    draws (a1 ;;; a2) (fun px py => match g px py with Some v => Some v | None => f px py end).
  Proof.
    intros D1 D2 b o W S. destruct (D1 b o W S) as (b1 & o1 & E1 & E2 & E3).
    destruct (D2 b1 o1) as (b2 & o2 & F1 & F2 & F3); [apply E3|eapply same_header_trans; [exact S|apply E3]|].
    exists b2, o2. split; [unfold bind; now rewrite E1, F1|]. split; [eauto|].
    eapply repainted_ext; [|eapply repainted_trans; [exact E3|exact F3]].
    intros px py H. cbn beta. destruct (g px py); auto. now rewrite (proj2 (proj2 E3)).
  Qed.
  Lemma forM_snoc {A} (l : list A) a act (s : st) : forM (l ++ [a]) act s = (forM l act ;;; act a) s.
  Proof.
    unfold forM. rewrite foldM_app. unfold bind.
    destruct (foldM (fun _ a => act a) tt l s) as [[u|e] s']; auto. cbn [foldM]. unfold bind.
    destruct (act a s') as [[[]|e] s'']; auto.
  Qed.
  (** a loop over a list: later steps paint over earlier ones *)
  Lemma draws_list {A} (l : list A) act f : (forall a, In a l -> draws (act a) (f a)) ->
    draws (forM l act)
      (fun px py => fold_left (fun acc a => match f a px py with Some v => Some v | None => acc end) l None).
  Proof.
    induction l as [|a l IH] using rev_ind; intros H.
    - apply draws_none.
    - assert (IH' : draws (forM l act) (fun px py =>
        fold_left (fun acc a => match f a px py with Some v => Some v | None => acc end) l None))
        by (apply IH; intros; apply H; apply in_or_app; auto).
      assert (Ha : draws (act a) (f a)) by (apply H; apply in_or_app; cbn; auto).
      eapply draws_act; [apply forM_snoc|eapply draws_ext; [|exact (draws_seq _ _ _ _ IH' Ha)]].
      intros px py _. cbn beta. now rewrite fold_left_app.
  Qed.
  (** a loop over a range whose steps paint disjoint sets of pixels *)
  Lemma draws_range n act f F K : 0 <= n -> (forall i, 0 <= i < n -> draws (act i) (f i)) ->
    (forall i px py, 0 <= i < n -> inside w h px py -> f i px py = if K px py =? i then F px py else None) ->
    (forall px py, inside w h px py -> ~ 0 <= K px py < n -> F px py = None) ->
    draws (forM (range 0 n) act) F.
  Proof.
    intros Hn D Hf HF.
    assert (G : 0 <= n -> n <= n -> draws (forM (range 0 n) act) (fun px py => if (0 <=? K px py) && (K px py <? n) then F px py else None)).
    { generalize n at 1 2 4 5. intros m Hm. revert m Hm. apply (natlike_ind (fun m => m <= n -> draws (forM (range 0 m) act) (fun px py => if (0 <=? K px py) && (K px py <? m) then F px py else None))).
      - intros _. rewrite range_nil by lia. eapply draws_ext; [|apply draws_none].
        intros px py _. cbn beta. destruct (Z.leb_spec 0 (K px py)), (Z.ltb_spec (K px py) 0); auto; lia.
      - intros k Hk IH Hle. unfold Z.succ in *. rewrite range_snoc by lia.
        eapply draws_act; [apply forM_snoc|eapply draws_ext; [|exact (draws_seq _ _ _ _ (IH ltac:(lia)) (D k ltac:(lia)))]].
        intros px py Hin. cbn beta. rewrite (Hf k px py) by (auto; lia). destruct (Z.eqb_spec (K px py) k) as [E|E].
        + destruct (Z.leb_spec 0 (K px py)), (Z.ltb_spec (K px py) k), (Z.ltb_spec (K px py) (k + 1)); try lia. cbn [andb].
          destruct (F px py); auto.
        + destruct (Z.leb_spec 0 (K px py)), (Z.ltb_spec (K px py) k), (Z.ltb_spec (K px py) (k + 1)); try lia; auto. }
    eapply draws_ext; [|exact (G Hn ltac:(lia))]. intros px py Hin. cbn beta.
    destruct (Z.leb_spec 0 (K px py)), (Z.ltb_spec (K px py) n); cbn [andb]; auto; symmetry; apply HF; auto; lia.
  Qed.
  (** rows and columns of a pattern *)
  Lemma draws_cells n act (lit : Z -> Z -> bool) (cx cy : Z -> Z -> Z) (hit : Z -> Z -> Z -> Z -> bool) val (I J : Z -> Z -> Z) :
    0 <= n ->
    (forall i j, 0 <= i < n -> 0 <= j < 8 -> lit i j = true ->
       draws (act i j) (fun px py => if hit (cx i j) (cy i j) px py then Some (val i) else None)) ->
    (forall i j px py, 0 <= i < n -> 0 <= j < 8 -> hit (cx i j) (cy i j) px py = true -> I px py = i /\ J px py = j) ->
    draws (forM (range 0 n) (fun i => forM (range 0 8) (fun j => if lit i j then act i j else ret tt)))
      (fun px py => let i := I px py in let j := J px py in
         if ((((0 <=? i) && (i <? n)) && ((0 <=? j) && (j <? 8))) && lit i j) && hit (cx i j) (cy i j) px py
         then Some (val i) else None).
  Proof.
    intros Hn D Inv.
    set (F := fun px py => let i := I px py in let j := J px py in
         if ((((0 <=? i) && (i <? n)) && ((0 <=? j) && (j <? 8))) && lit i j) && hit (cx i j) (cy i j) px py
         then Some (val i) else None).
    apply (draws_range n _ (fun i px py => if I px py =? i then F px py else None) F I Hn); auto.
    2: { intros px py _ H. unfold F. cbv zeta. destruct (Z.leb_spec 0 (I px py)), (Z.ltb_spec (I px py) n); auto; lia. }
    intros i Hi.
    apply (draws_range 8 _ (fun j px py => if J px py =? j then if I px py =? i then F px py else None else None) _ J); auto; [lia| |].
    2: { intros px py _ H. unfold F. cbv zeta. destruct (I px py =? i); auto.
         destruct (Z.leb_spec 0 (J px py)), (Z.ltb_spec (J px py) 8); try lia; cbn [andb]; now rewrite ?andb_false_r, ?andb_false_l. }
    intros j Hj. destruct (lit i j) eqn:El.
    - eapply draws_ext; [|exact (D i j Hi Hj El)]. intros px py _. cbn beta. unfold F. cbv zeta.
      destruct (hit (cx i j) (cy i j) px py) eqn:Eh.
      + destruct (Inv i j px py Hi Hj Eh) as [-> ->]. rewrite !Z.eqb_refl, El, Eh.
        destruct (Z.leb_spec 0 i), (Z.ltb_spec i n), (Z.leb_spec 0 j), (Z.ltb_spec j 8); try lia. reflexivity.
      + destruct (Z.eqb_spec (J px py) j) as [-> |]; auto. destruct (Z.eqb_spec (I px py) i) as [-> |]; auto.
        now rewrite Eh, andb_false_r.
    - eapply draws_ext; [|apply draws_none]. intros px py _. cbn beta. unfold F. cbv zeta.
      destruct (Z.eqb_spec (J px py) j) as [-> |]; auto. destruct (Z.eqb_spec (I px py) i) as [-> |]; auto.
      now rewrite El, andb_false_r.
  Qed.
End Draws.

(** ** loops whose variables have a closed form *)
Lemma while_for {S} (v : Z -> S) n cond body act : 0 <= n ->
  (forall k s, 0 <= k < n -> cond (v k) = true /\ body (v k) s = bind (act k) (fun _ => ret (v (k + 1))) s) ->
  cond (v n) = false ->
  forall s, whileM (Z.to_nat n) cond body (v 0) s = bind (forM (range 0 n) act) (fun _ => ret (v n)) s.
Proof.
  intros Hn Hb He.
  assert (G : forall m k s, Z.of_nat m = n - k -> 0 <= k ->
    whileM m cond body (v k) s = bind (forM (range k n) act) (fun _ => ret (v n)) s).
  { induction m as [|m IH]; intros k s Hk H0.
    - replace k with n by lia. rewrite range_nil by lia. cbn [whileM]. now rewrite He.
    - destruct (Hb k s ltac:(lia)) as [C B]. cbn [whileM]. rewrite C. unfold bind at 1. rewrite B.
      rewrite range_cons by lia. unfold forM. cbn [foldM]. unfold bind.
      destruct (act k s) as [[u|e] s']; auto. cbn. fold (forM (range (k + 1) n) act). destruct u.
      rewrite IH by lia. reflexivity. }
  intros s. apply G; lia.
Qed.
Lemma fold_for {S} (v : Z -> S) (l : list Z) step act :
  (forall k s, 0 <= k < zlen l -> step (v k) (getz l k) s = bind (act k) (fun _ => ret (v (k + 1))) s) ->
  forall s, foldM step (v 0) l s = bind (forM (range 0 (zlen l)) act) (fun _ => ret (v (zlen l))) s.
Proof.
  intros Hb.
  assert (G : forall r k s, 0 <= k -> k + zlen r = zlen l -> (forall i, 0 <= i < zlen r -> getz r i = getz l (k + i)) ->
    foldM step (v k) r s = bind (forM (range k (zlen l)) act) (fun _ => ret (v (zlen l))) s).
  { induction r as [|a r IH]; intros k s H0 Hk Hr.
    - rewrite zlen_nil in Hk. rewrite range_nil by lia. cbn. now replace k with (zlen l) by lia.
    - rewrite zlen_cons in *. pose proof (zlen_nonneg r).
      assert (Ea : a = getz l k) by (rewrite <- (Z.add_0_r k), <- Hr by lia; reflexivity).
      cbn [foldM]. unfold bind at 1. rewrite Ea, Hb by lia. rewrite range_cons by lia.
      unfold forM. cbn [foldM]. unfold bind. destruct (act k s) as [[u|e] s']; auto. destruct u. cbn.
      fold (forM (range (k + 1) (zlen l)) act). rewrite IH; [reflexivity|lia|lia|].
      intros i Hi. replace (k + 1 + i) with (k + (i + 1)) by lia. rewrite <- Hr by lia.
      now rewrite !getz_nth, Z2Nat.inj_add by lia; rewrite Nat.add_comm. }
  intros s. apply (G l 0); [lia|lia|]. intros i Hi. now rewrite Z.add_0_l.
Qed.

(** ** one row of a pattern *)
Lemma mask_bit k bits : 0 <= k < 8 -> (Z.land (Z.shiftr 128 k) bits >? 0) = Z.testbit bits (7 - k).
Proof.
  intros Hk. assert (E : Z.shiftr 128 k = 2 ^ (7 - k)).
  { change 128 with (2 ^ 7). rewrite Z.shiftr_div_pow2 by lia. rewrite Z.pow_sub_r by lia. reflexivity. }
  rewrite E, Z.land_comm, Z.gtb_ltb. destruct (Z.testbit bits (7 - k)) eqn:T.
  - apply Z.ltb_lt. assert (H : Z.land bits (2 ^ (7 - k)) <> 0).
    { intros H. apply (f_equal (fun z => Z.testbit z (7 - k))) in H.
      rewrite Z.land_spec, T, Z.pow2_bits_true, Z.bits_0 in H by lia. discriminate. }
    assert (0 <= Z.land bits (2 ^ (7 - k))) by (apply Z.land_nonneg; right; apply Z.pow_nonneg; lia). lia.
  - apply Z.ltb_ge. apply Z.eq_le_incl. apply Z.bits_inj'. intros m Hm. rewrite Z.land_spec, Z.bits_0.
    rewrite Z.pow2_bits_eqb by lia. destruct (Z.eqb_spec (7 - k) m) as [<- |]; [now rewrite T|now rewrite andb_false_r].
Qed.
Lemma plotrow_for fn scale inc bits x y c s :
  plotrow fn scale inc bits x y c s =
  forM (range 0 8) (fun j => if Z.testbit bits (7 - j) then plotcell fn scale inc (x + j * scale) y c else ret tt) s.
Proof.
  unfold plotrow. unfold bind at 1.
  pose proof (while_for (fun k => (Z.shiftr 128 k, x + k * scale)) 8
    (fun v => fst v >? 0)
    (fun v => (if Z.land (fst v) bits >? 0 then plotcell fn scale inc (snd v) y c else ret tt) ;;;
              ret (Z.shiftr (fst v) 1, snd v + scale))
    (fun j => if Z.testbit bits (7 - j) then plotcell fn scale inc (x + j * scale) y c else ret tt) ltac:(lia)) as K.
  cbn beta in K. change (Z.shiftr 128 0) with 128 in K. replace (x + 0 * scale) with x in K by lia.
  change (Z.to_nat 8) with 8%nat in K. rewrite K; clear K.
  - unfold bind. destruct (forM (range 0 8) _ s) as [[u|e] s']; auto. destruct u. reflexivity.
  - intros k s' Hk. cbn [fst snd]. rewrite mask_bit by auto. rewrite Z.shiftr_shiftr by lia.
    replace (x + (k + 1) * scale) with (x + k * scale + scale) by ring. split; [|reflexivity].
    apply Z.gtb_lt. change 128 with (2 ^ 7). rewrite Z.shiftr_div_pow2, <- Z.pow_sub_r by lia. apply Z.pow_pos_nonneg; lia.
  - reflexivity.
Qed.
Lemma plotcolumn_for fn scale inc bits x y c s :
  plotcolumn fn scale inc bits x y c s =
  forM (range 0 8) (fun j => if Z.testbit bits (7 - j) then plotcell fn scale inc x (y - j * scale) c else ret tt) s.
Proof.
  unfold plotcolumn. unfold bind at 1.
  pose proof (while_for (fun k => (Z.shiftr 128 k, y - k * scale)) 8
    (fun v => fst v >? 0)
    (fun v => (if Z.land (fst v) bits >? 0 then plotcell fn scale inc x (snd v) c else ret tt) ;;;
              ret (Z.shiftr (fst v) 1, snd v - scale))
    (fun j => if Z.testbit bits (7 - j) then plotcell fn scale inc x (y - j * scale) c else ret tt) ltac:(lia)) as K.
  cbn beta in K. change (Z.shiftr 128 0) with 128 in K. replace (y - 0 * scale) with y in K by lia.
  change (Z.to_nat 8) with 8%nat in K. rewrite K; clear K.
  - unfold bind. destruct (forM (range 0 8) _ s) as [[u|e] s']; auto. destruct u. reflexivity.
  - intros k s' Hk. cbn [fst snd]. rewrite mask_bit by auto. rewrite Z.shiftr_shiftr by lia.
    replace (y - (k + 1) * scale) with (y - k * scale - scale) by ring. split; [|reflexivity].
    apply Z.gtb_lt. change 128 with (2 ^ 7). rewrite Z.shiftr_div_pow2, <- Z.pow_sub_r by lia. apply Z.pow_pos_nonneg; lia.
  - reflexivity.
Qed.
