(** Operations on circular regions: loops over the rows of a disc (proofs). *)
From Coq Require Import ZArith List Bool Lia.
From Verif Require Import PyBase PyFacts Spec Bmp BmpFacts PixelProofs PlotList Buffers Region Raster VertProofs RectProofs HorizProofs
  Geometry GeomProofs Draw DrawProofs DrawProofs4 Filters FilterProofs FilterProofs2 Circle.
Import ListNotations.
Open Scope Z_scope.
Open Scope py_scope.
Ltac Zify.zify_post_hook ::= Z.to_euclidean_division_equations.

(** ** empty slices *)
Lemma slice_empty l s e : 0 <= e <= s -> py_slice l s e = [].
Proof.
  intros H. unfold py_slice, sub. rewrite !clampi_min by lia.
  replace (Z.to_nat (Z.min e (zlen l) - Z.min s (zlen l))) with O by lia. reflexivity.
Qed.
Lemma slice_set_empty l s e : 0 <= e <= s -> py_slice_set l s e [] = l.
Proof.
  intros H. unfold py_slice_set. rewrite !clampi_min by lia. cbv zeta.
  replace (Z.max (Z.min s (zlen l)) (Z.min e (zlen l))) with (Z.min s (zlen l)) by lia. apply firstn_skipn.
Qed.

(** ** loops whose steps touch disjoint cells *)
Lemma keyed_loop (b : list Z) (w h bits : Z) (o : list msg) (kf : Z * Z -> Z) (key F : Z -> Z -> Z) (body : Z * Z -> M unit) l :
  NoDup (map kf l) ->
  (forall p b1, In p l -> wf b1 w h bits ->
     (forall k y, 0 <= k < stride w bits -> 0 <= y < h -> key k y = kf p -> raster b1 w h bits k y = raster b w h bits k y) ->
     exists b2, body p (mkst b1 o) = (Ok tt, mkst b2 o) /\
       rastered b1 b2 w h bits (fun k y => if key k y =? kf p then F k y else raster b1 w h bits k y)) ->
  wf b w h bits ->
  exists b', forM l body (mkst b o) = (Ok tt, mkst b' o) /\
    rastered b b' w h bits (fun k y => if memz (key k y) (map kf l) then F k y else raster b w h bits k y).
Proof.
  intros ND HS W0.
  assert (G : forall b1, wf b1 w h bits ->
     (forall k y, 0 <= k < stride w bits -> 0 <= y < h -> In (key k y) (map kf l) -> raster b1 w h bits k y = raster b w h bits k y) ->
     exists b', forM l body (mkst b1 o) = (Ok tt, mkst b' o) /\
       rastered b1 b' w h bits (fun k y => if memz (key k y) (map kf l) then F k y else raster b1 w h bits k y)).
  { clear W0. induction l as [|p l IH]; intros b1 W1 H1.
    - exists b1. split; [reflexivity|]. now apply rastered_refl.
    - cbn [map] in ND. inversion ND as [|? ? NI ND']; subst.
      destruct (HS p b1 (or_introl eq_refl) W1) as (b2 & E2 & R2).
      { intros k y Hk Hy E. apply H1; auto. cbn [map]. left. auto. }
      destruct (IH ND' (fun q b1 H => HS q b1 (or_intror H)) b2 (rastered_wf _ _ _ _ _ _ R2)) as (b3 & E3 & R3).
      { intros k y Hk Hy I. rewrite (proj2 (proj2 R2)) by auto.
        destruct (Z.eqb_spec (key k y) (kf p)) as [E|N]; [exfalso; rewrite E in I; now apply NI|]. apply H1; auto. right. exact I. }
      exists b3. rewrite forM_cons, (bind_ok _ _ _ _ _ E2). split; [exact E3|].
      eapply rastered_trans; [exact R2|]. eapply rastered_ext; [|exact R3]. intros k y Hk Hy. cbn beta.
      rewrite (proj2 (proj2 R2)) by auto. cbn [map]. unfold memz. cbn [existsb]. fold (memz (key k y) (map kf l)).
      destruct (memz (key k y) (map kf l)) eqn:M; [now rewrite orb_true_r|]. rewrite orb_false_r. reflexivity. }
  apply (G b W0). auto.
Qed.

(** ** the rows of a disc *)
Definition kb (bits c : Z) : Z := c * bits / 8.
Lemma kb_mono bits a c : valid_depth bits -> a <= c -> kb bits a <= kb bits c.
Proof. unfold kb. intros [-> | [-> | [-> | ->]]] H; lia. Qed.
Lemma kb_fit w bits a : valid_depth bits -> 0 <= a < w -> 0 <= kb bits a < stride w bits.
Proof. intros Hd Ha. destruct (row_fit w bits a Hd Ha) as [A B]. unfold kb, pbytes in *. destruct (bits =? 24); lia. Qed.
Lemma kb3 a c : (kb 24 c - kb 24 a) mod 3 = 0.
Proof. unfold kb. replace (c * 24 / 8 - a * 24 / 8) with ((c - a) * 3) by lia. apply Z.mod_mul. lia. Qed.

(** half width of the disc in the rows at distance v *)
Definition hwid (l : list (Z * Z)) (v : Z) : Z :=
  match find (fun p => snd p =? v) l with Some p => fst p | None => -1 end.
Lemma hwid_in l a v : NoDup (map snd l) -> In (a, v) l -> hwid l v = a.
Proof.
  intros ND Hin. unfold hwid. induction l as [|[a' v'] l IH]; [destruct Hin|].
  cbn [find snd]. cbn [map snd] in ND. inversion ND as [|? ? NI ND']; subst.
  destruct Hin as [E|Hin].
  - inversion E; subst. rewrite Z.eqb_refl. reflexivity.
  - destruct (Z.eqb_spec v' v) as [->|]; [|now apply IH]. exfalso. apply NI. apply (in_map snd) in Hin. exact Hin.
Qed.
Lemma hwid_out l v : ~ In v (map snd l) -> hwid l v = -1.
Proof.
  intros H. unfold hwid. destruct (find _ l) as [[a v']|] eqn:E; auto. apply find_some in E. destruct E as [E1 E2].
  cbn [snd] in E2. apply Z.eqb_eq in E2. subst. exfalso. apply H. now apply (in_map snd) in E1.
Qed.

Section Disc.
  Variables (r : Z) (l : list (Z * Z)).
  Hypothesis Hr : 0 <= r.
  Hypothesis El : itercirclepartlineedge r = Ok l.
  Lemma disc_facts : NoDup (map snd l) /\ (forall v, In v (map snd l) <-> 0 <= v <= r) /\
    (forall hw v, In (hw, v) l -> on_circle r (hw, v) /\ forall a, on_circle r (a, v) -> a <= hw).
  Proof.
    destruct (itercirclepartlineedge_run r Hr) as (l' & E & A). rewrite El in E. inversion E; subst. exact A.
  Qed.
  Lemma hwid_disc dx dy : Z.abs dx <= hwid l (Z.abs dy) <-> in_disc r dx dy = true.
  Proof.
    destruct disc_facts as (ND & Hv & Hl). rewrite in_disc_abs.
    destruct (Z.le_gt_cases (Z.abs dy) r) as [L|L].
    - pose proof (proj2 (Hv (Z.abs dy)) ltac:(lia)) as I. apply in_map_iff in I. destruct I as ([a v] & E & I).
      cbn [snd] in E. subst v. rewrite (hwid_in l a) by auto. destruct (Hl _ _ I) as [H1 H2].
      apply (disc_row r a (Z.abs dy) (Z.abs dx)); auto. lia.
    - rewrite (hwid_out l) by (rewrite Hv; lia). rewrite disc_far by lia. split; [lia|discriminate].
  Qed.
  Lemma hwid_range v : -1 <= hwid l v <= r.
  Proof.
    destruct disc_facts as (ND & Hv & Hl). destruct (in_dec Z.eq_dec v (map snd l)) as [I|N].
    - apply in_map_iff in I. destruct I as ([a v'] & E & I). cbn [snd] in E. subst v'. rewrite (hwid_in l a) by auto.
      destruct (Hl _ _ I) as [H _]. apply on_circle_bound in H; auto. cbn [fst] in H. lia.
    - rewrite hwid_out by auto. lia.
  Qed.
  Lemma in_hw p : In p l -> 0 <= fst p <= r /\ 0 <= snd p <= r /\ hwid l (snd p) = fst p.
  Proof.
    destruct disc_facts as (ND & Hv & Hl). destruct p as [a v]. intros I. cbn [fst snd].
    destruct (Hl _ _ I) as [H _]. apply on_circle_bound in H; auto. cbn [fst snd] in H.
    rewrite (hwid_in l a) by auto. lia.
  Qed.
  Lemma mem_rows v : memz v (map snd l) = (0 <=? v) && (v <=? r).
  Proof.
    destruct disc_facts as (ND & Hv & Hl). apply eq_true_iff_eq. rewrite memz_in, Hv, andb_true_iff, !Z.leb_le. reflexivity.
  Qed.

  (** the bytes treated in row y' *)
  Variables (w h bits x y : Z).
  Hypothesis Hd : valid_depth bits.
  Definition klo (y' : Z) : Z := kb bits (Z.max 0 (x - hwid l (Z.abs (y' - y)))).
  Definition khi (y' : Z) : Z := kb bits (Z.min (w - 1) (x + hwid l (Z.abs (y' - y)))).
  Definition cp (k y' : Z) : bool := (klo y' <=? k) && (k <? khi y').

  Lemma kb_byte a c px k : valid_depth bits -> 0 <= px -> px * bits / 8 <= k < px * bits / 8 + pbytes bits ->
    (kb bits a <= k < kb bits c) <->
    (let pp := if bits <? 8 then 8 / bits else 1 in let n := (px / pp + 1) * pp in a <= n - 1 /\ n <= c).
  Proof.
    intros Hd' Hp Hk. unfold kb, pbytes in *. clear Hd.
    destruct Hd' as [-> | [-> | [-> | ->]]]; cbn [Z.eqb Pos.eqb Z.ltb Z.compare Pos.compare Pos.compare_cont] in *;
      change (8 / 1) with 8; change (8 / 4) with 2; cbv zeta; lia.
  Qed.
  Lemma cp_pix px py k : 0 <= px < w -> px * bits / 8 <= k < px * bits / 8 + pbytes bits ->
    cp k py = disc_part w bits r x y px py.
  Proof.
    intros Hp Hk. apply eq_true_iff_eq. unfold cp, disc_part.
    rewrite !andb_true_iff, Z.leb_le, !Z.ltb_lt. rewrite <- !hwid_disc.
    pose proof (kb_byte (Z.max 0 (x - hwid l (Z.abs (py - y)))) (Z.min (w - 1) (x + hwid l (Z.abs (py - y)))) px k Hd ltac:(lia) Hk) as K.
    fold (klo py) in K. fold (khi py) in K. rewrite K. clear K. cbv zeta.
    set (pp := if bits <? 8 then 8 / bits else 1). assert (0 < pp) by (unfold pp; destruct Hd as [-> | [-> | [-> | ->]]]; reflexivity).
    assert (Hn : 0 < (px / pp + 1) * pp) by (assert (0 <= px / pp) by (apply Z.div_pos; lia); nia).
    set (n := (px / pp + 1) * pp) in *. clearbody n. set (a := hwid l (Z.abs (py - y))) in *. clearbody a.
    clear - Hn. lia.
  Qed.
  (** a row pair at distance v of the centre *)
  Lemma dist_rows v y' : 0 <= v -> Z.abs (y' - y) = v <-> y' = y - v \/ y' = y + v.
  Proof. intros. lia. Qed.
End Disc.

(** ** one row part replaced *)
Lemma put_part b w h bits o yy k1 k2 v : wf b w h bits -> 0 <= yy < h -> 0 <= k1 -> k2 <= stride w bits ->
  0 <= rowaddr w h bits yy + k2 -> zlen v = Z.max 0 (k2 - k1) -> bytes v ->
  exists b', slice_set (rowaddr w h bits yy + k1) (rowaddr w h bits yy + k2) v (mkst b o) = (Ok tt, mkst b' o) /\
    rastered b b' w h bits (fun k y' => if (y' =? yy) && ((k1 <=? k) && (k <? k2)) then getz v (k - k1) else raster b w h bits k y').
Proof.
  intros W Hy H1 H2 H3 Hl Hb. rewrite run_slice_set. eexists. split; [reflexivity|].
  destruct (Z.le_gt_cases k1 k2) as [L|L].
  - pose proof (row_set b w h bits yy k1 (k2 - k1) v W Hy H1 ltac:(lia) ltac:(lia) ltac:(lia) Hb) as R.
    replace (rowaddr w h bits yy + k1 + (k2 - k1)) with (rowaddr w h bits yy + k2) in R by ring.
    eapply rastered_ext; [|exact R]. intros k y' _ _. unfold in_rowpart. replace (k1 + (k2 - k1)) with k2 by ring. reflexivity.
  - assert (v = []) by (apply zlen_0_nil; lia). subst v. rewrite slice_set_empty by lia.
    eapply rastered_ext; [|apply rastered_refl; exact W]. intros k y' _ _.
    replace ((k1 <=? k) && (k <? k2)) with false by (clear - L; lia). now rewrite andb_false_r.
Qed.
Lemma get_part b w h bits o yy k1 k2 : wf b w h bits -> 0 <= yy < h -> 0 <= k1 -> k2 <= stride w bits ->
  0 <= rowaddr w h bits yy + k2 ->
  exists v, slice (rowaddr w h bits yy + k1) (rowaddr w h bits yy + k2) (mkst b o) = (Ok v, mkst b o) /\
    zlen v = Z.max 0 (k2 - k1) /\ bytes v /\ forall i, 0 <= i < k2 - k1 -> getz v i = raster b w h bits (k1 + i) yy.
Proof.
  intros W Hy H1 H2 H3. rewrite run_slice. eexists. split; [reflexivity|].
  destruct (Z.le_gt_cases k1 k2) as [L|L].
  - destruct (row_get b w h bits yy k1 (k2 - k1) W Hy H1 ltac:(lia) ltac:(lia)) as (A & B & C).
    replace (rowaddr w h bits yy + k1 + (k2 - k1)) with (rowaddr w h bits yy + k2) in A, B, C by ring.
    split; [lia|]. split; auto.
  - rewrite slice_empty by lia. split; [change (zlen (@nil Z)) with 0; lia|]. split; [constructor|]. intros; lia.
Qed.

(** a function on row parts: byte i of the result is [P n C i], where n is the
    length and C the contents *)
Definition partfun (bits : Z) (f : list Z -> res (list Z)) (P : Z -> (Z -> Z) -> Z -> Z) : Prop :=
  forall v C, bytes v -> (bits = 24 -> zlen v mod 3 = 0) -> (forall i, 0 <= i < zlen v -> getz v i = C i) ->
    exists v', f v = Ok v' /\ bytes v' /\ zlen v' = zlen v /\ forall i, 0 <= i < zlen v -> getz v' i = P (zlen v) C i.

Lemma onbuf_part f T : onbuf f T -> partfun 24 f (fun n C i => T (n <=? 3 * (i / 3) + 3) (i mod 3)
   (C (3 * (i / 3))) (C (3 * (i / 3) + 1)) (C (3 * (i / 3) + 2))).
Proof.
  intros H v C Bv Hv HC. destruct (H v Bv (Hv eq_refl)) as (v' & E & B & L & G). exists v'.
  split; [exact E|]. split; [exact B|]. split; [exact L|]. intros i Hi. rewrite G by auto.
  specialize (Hv eq_refl). rewrite !HC by (clear - Hi Hv; lia). reflexivity.
Qed.
Lemma invert_part bits : partfun bits invertbitsinbuffer (fun _ C i => 255 - C i).
Proof.
  intros v C Bv _ HC. unfold invertbitsinbuffer.
  assert (B : bytes (map (fun b => Z.lxor b 255) v)).
  { apply Forall_forall. intros a Ha. apply in_map_iff in Ha. destruct Ha as (c & <- & Hc).
    pose proof (proj1 (Forall_forall _ _) Bv c Hc) as Hb. rewrite lxor255 by auto. unfold byte in *. lia. }
  rewrite py_array_ok by auto. eexists. split; [reflexivity|]. split; [exact B|]. split; [apply zlen_map|].
  intros i Hi. rewrite getz_map by auto. rewrite lxor255 by (now apply bytes_getz). now rewrite HC.
Qed.

Lemma mapslice_part b w h bits o f P yy k1 k2 : wf b w h bits -> 0 <= yy < h -> 0 <= k1 -> k2 <= stride w bits ->
  0 <= rowaddr w h bits yy + k2 -> (bits = 24 -> (k2 - k1) mod 3 = 0) -> partfun bits f P ->
  exists b', mapslice f (rowaddr w h bits yy + k1) (rowaddr w h bits yy + k2) (mkst b o) = (Ok tt, mkst b' o) /\
    rastered b b' w h bits (fun k y' => if (y' =? yy) && ((k1 <=? k) && (k <? k2))
       then P (k2 - k1) (fun i => raster b w h bits (k1 + i) yy) (k - k1) else raster b w h bits k y').
Proof.
  intros W Hy H1 H2 H3 H4 Hf. unfold mapslice.
  destruct (get_part b w h bits o yy k1 k2 W Hy H1 H2 H3) as (v & E & Lv & Bv & Gv).
  rewrite (bind_ok _ _ _ _ _ E).
  destruct (Hf v (fun i => raster b w h bits (k1 + i) yy) Bv) as (v' & E' & B' & L' & G').
  { intros Eb. rewrite Lv. specialize (H4 Eb). clear - H4. destruct (Z.max_spec 0 (k2 - k1)) as [[_ ->]|[_ ->]]; [exact H4|reflexivity]. }
  { intros i Hi. apply Gv. lia. }
  rewrite (bind_ok _ _ _ _ _ (run_lift _ _ _ _ E')).
  destruct (put_part b w h bits o yy k1 k2 v' W Hy H1 H2 H3 ltac:(lia) B') as (b' & E2 & R). exists b'. split; [exact E2|].
  eapply rastered_ext; [|exact R]. intros k y' _ _. cbn beta.
  destruct (Z.eqb_spec y' yy); cbn [andb]; auto.
  destruct ((k1 <=? k) && (k <? k2)) eqn:C; auto. rewrite G' by (clear - C Lv; lia). rewrite Lv.
  replace (Z.max 0 (k2 - k1)) with (k2 - k1) by (clear - C; lia). reflexivity.
Qed.
