(** Palettes from colour factors, fractals (proofs). *)
From Coq Require Import ZArith String List Bool Lia.
From Verif Require Import PyBase PyFacts Spec Palette Bmp BmpFacts Raster PixelProofs HeaderProofs PalProofs PlotList
  Region Geometry Draw Circle Shapes ShapeProofs DrawProofs3 Files FileProofs Wrappers WrapProofs Fractal.
Import ListNotations.
Open Scope Z_scope.
Open Scope py_scope.
Ltac Zify.zify_post_hook ::= Z.to_euclidean_division_equations.

(** ** lists *)
Lemma put_nth_length {A} k (a : A) l : length (put_nth k a l) = length l.
Proof. revert k. induction l; intros [|k]; cbn; auto. Qed.
Lemma put_nth_same {A} k (a d : A) l : (k < length l)%nat -> nth k (put_nth k a l) d = a.
Proof. revert k. induction l; intros [|k] H; cbn in *; auto; try lia. apply IHl. lia. Qed.
Lemma put_nth_other {A} k j (a d : A) l : k <> j -> nth j (put_nth k a l) d = nth j l d.
Proof. revert k j. induction l; intros [|k] [|j] H; cbn; auto; try congruence. Qed.
Lemma put_nth_Forall {A} (P : A -> Prop) k a l : P a -> Forall P l -> Forall P (put_nth k a l).
Proof. intros Ha Hl. revert k. induction Hl; intros [|k]; cbn; auto. Qed.

(** writes at different places all stay *)
Lemma fold_put {A} (pos : Z -> nat) (val : Z -> A) is l0 d :
  NoDup is -> (forall i j, In i is -> In j is -> pos i = pos j -> i = j) ->
  (forall i, In i is -> (pos i < length l0)%nat) ->
  let l := fold_left (fun v i => put_nth (pos i) (val i) v) is l0 in
  length l = length l0 /\ forall i, In i is -> nth (pos i) l d = val i.
Proof.
  induction is as [|a is IH] using rev_ind; intros Hn Hinj Hlen; cbn zeta.
  - split; [reflexivity|]. intros i [].
  - rewrite fold_left_app. cbn [fold_left]. apply NoDup_remove in Hn. rewrite app_nil_r in Hn. destruct Hn as [Hn Ha].
    destruct IH as [L V]; auto.
    { intros i j Hi Hj. apply Hinj; apply in_app_iff; auto. }
    { intros i Hi. apply Hlen, in_app_iff; auto. }
    split; [now rewrite put_nth_length|]. intros i Hi. apply in_app_iff in Hi. destruct Hi as [Hi|[->|[]]].
    + rewrite put_nth_other; auto. intros E. apply Ha. replace a with i; auto.
      apply Hinj; auto; apply in_app_iff; cbn; auto.
    + apply put_nth_same. rewrite L. apply Hlen, in_app_iff. cbn; auto.
Qed.
Lemma NoDup_range a b : NoDup (range a b).
Proof.
  unfold range. apply FinFun.Injective_map_NoDup; [|apply seq_NoDup]. intros i j H. lia.
Qed.

(** ** palettes *)
Definition three_depths (bits : Z) : Prop := bits = 1 \/ bits = 4 \/ bits = 8.
Lemma depth_three bits : valid_depth bits -> bits <> 24 -> three_depths bits.
Proof. unfold valid_depth, three_depths. lia. Qed.
Lemma palsteps_ok bits : three_depths bits ->
  palsteps bits = Ok (map (fun i => i * (255 / (2 ^ bits - 1))) (range 0 (2 ^ bits))).
Proof. intros [-> | [-> | ->]]; vm_compute; reflexivity. Qed.

Lemma concat_bgra pal i : 0 <= i < zlen pal -> forall k, 0 <= k < 4 ->
  getz (List.concat (RGB2BGRAlist pal)) (4 * i + k) = if k =? 3 then 0 else triple_at (nthpal pal i) k.
Proof.
  revert i. induction pal as [|[[r g] b] pal IH]; intros i Hi k Hk. { unfold zlen in Hi. cbn in Hi. lia. }
  rewrite zlen_cons in Hi. cbn [RGB2BGRAlist map List.concat]. fold (RGB2BGRAlist pal).
  destruct (Z.eq_dec i 0) as [->|N].
  - assert (k = 0 \/ k = 1 \/ k = 2 \/ k = 3) as [-> | [-> | [-> | ->]]] by lia; reflexivity.
  - replace (4 * i + k) with (4 + (4 * (i - 1) + k)) by lia.
    assert (E : forall l j, 0 <= j -> getz ([b; g; r; 0] ++ l) (4 + j) = getz l j).
    { intros l j Hj. unfold getz. replace (4 + j <? 0) with false by (symmetry; apply Z.ltb_ge; lia).
      replace (j <? 0) with false by (symmetry; apply Z.ltb_ge; lia).
      replace (Z.to_nat (4 + j)) with (4 + Z.to_nat j)%nat by lia. reflexivity. }
    rewrite E by lia. rewrite IH by lia. unfold nthpal. replace (Z.to_nat i) with (S (Z.to_nat (i - 1))) by lia. reflexivity.
Qed.
Lemma zlen_bgra pal : zlen (List.concat (RGB2BGRAlist pal)) = 4 * zlen pal.
Proof.
  induction pal as [|[[r g] b] pal IH]; [reflexivity|]. cbn [RGB2BGRAlist map List.concat]. fold (RGB2BGRAlist pal).
  rewrite zlen_app, IH, (zlen_cons (r, g, b)). change (zlen [b; g; r; 0]) with 4. lia.
Qed.
Lemma bytes_bgra pal : Forall byte3 pal -> bytes (List.concat (RGB2BGRAlist pal)).
Proof.
  induction 1 as [|[[r g] b] pal (Hr & Hg & Hb) Hp IH]; [constructor|]. cbn [RGB2BGRAlist map List.concat]. fold (RGB2BGRAlist pal).
  repeat (constructor; auto). unfold byte. lia.
Qed.
Lemma bgra_ok b w h bits o pal : wf b w h bits -> bits <> 24 -> zlen pal = 2 ^ bits -> Forall byte3 pal ->
  exists b', setbmppalwithBGRAlist (RGB2BGRAlist pal) (mkst b o) = (Ok tt, mkst b' o) /\ wf b' w h bits /\
    getallRGBpal b' = Ok pal /\
    (forall i, i < 54 \/ data_off bits <= i -> getz b' i = getz b i) /\
    (forall x y, inside w h x y -> pixel b' w h bits x y = pixel b w h bits x y).
Proof.
  intros W N Hl Hp.
  assert (Eo : data_off bits = 54 + 4 * 2 ^ bits).
  { unfold data_off. destruct (Z.eqb_spec bits 24); [contradiction|reflexivity]. }
  pose proof (wf_pal_len _ _ _ _ W N) as Hz. pose proof (zlen_bgra pal) as Lc. pose proof (bytes_bgra pal Hp) as Bc.
  unfold setbmppalwithBGRAlist. rewrite (bind_ok _ _ _ _ _ (run_rd _ _ _ _ (wf_rcolors _ _ _ _ W))).
  replace (zlen (RGB2BGRAlist pal)) with (2 ^ bits) by (unfold RGB2BGRAlist; rewrite zlen_map; lia). rewrite Z.eqb_refl.
  rewrite (bind_ok _ _ _ _ _ (run_lift _ _ _ _ (py_array_ok _ Bc))). rewrite run_slice_set.
  set (c := List.concat (RGB2BGRAlist pal)) in *. set (b' := py_slice_set b bmppal (bmppal + zlen c) c).
  unfold bmppal in *. pose proof (zlen_nonneg pal) as Hn.
  assert (G : forall i, getz b' i = if (54 <=? i) && (i <? 54 + zlen c) then getz c (i - 54) else getz b i).
  { intros i. apply getz_slice_set; lia. }
  assert (Lb : zlen b' = zlen b) by (apply zlen_slice_set; lia).
  assert (F : forall i, i < 54 \/ data_off bits <= i -> getz b' i = getz b i).
  { intros i Hi. rewrite G. bcases; auto; lia. }
  destruct (wf_pal_frame b b' w h bits) as [W' P]; auto. { apply bytes_slice_set; auto. apply W. }
  exists b'. split; [reflexivity|]. split; [exact W'|]. split; [|split; [exact F|exact P]].
  rewrite (getallRGBpal_ok _ _ _ _ W' N). f_equal. rewrite <- Hl. apply (map_range_nth _ _ (0, 0, 0)). intros i Hi.
  change (nth (Z.to_nat i) pal (0, 0, 0)) with (nthpal pal i). unfold pal_entry. rewrite !G.
  replace ((54 <=? 54 + 4 * i + 2) && (54 + 4 * i + 2 <? 54 + zlen c)) with true by (symmetry; apply andb_true_iff; lia).
  replace ((54 <=? 54 + 4 * i + 1) && (54 + 4 * i + 1 <? 54 + zlen c)) with true by (symmetry; apply andb_true_iff; lia).
  replace ((54 <=? 54 + 4 * i) && (54 + 4 * i <? 54 + zlen c)) with true by (symmetry; apply andb_true_iff; lia).
  replace (54 + 4 * i + 2 - 54) with (4 * i + 2) by lia. replace (54 + 4 * i + 1 - 54) with (4 * i + 1) by lia.
  replace (54 + 4 * i - 54) with (4 * i + 0) by lia. unfold c. rewrite !concat_bgra by lia.
  destruct (nthpal pal i) as [[r g] bl]. reflexivity.
Qed.

Lemma wf_rclr b w h bits o : wf b w h bits -> rd getclrbits (mkst b o) = (Ok bits, mkst b o).
Proof. intros W. apply run_rd. exact (wf_rbits _ _ _ _ W). Qed.

Lemma mono_run b w h bits o rnd : wf b w h bits -> bits <> 24 -> (forall c, 0 <= c < 256 -> byte3 (rnd c)) ->
  let pal := map (fun i => rnd (i * (255 / (2 ^ bits - 1)))) (range 0 (2 ^ bits)) in
  exists b', setBMP2monochrome rnd (mkst b o) = (Ok pal, mkst b' o) /\ wf b' w h bits /\ getallRGBpal b' = Ok pal /\
    (forall i, i < 54 \/ data_off bits <= i \/ (i - 54) mod 4 = 3 -> getz b' i = getz b i) /\
    (forall x y, inside w h x y -> pixel b' w h bits x y = pixel b w h bits x y).
Proof.
  intros W N Hr pal. pose proof (depth_three bits (wf_depth _ _ _ _ W) N) as D.
  assert (Lp : zlen pal = 2 ^ bits).
  { unfold pal. rewrite zlen_map, zlen_range. destruct D as [-> | [-> | ->]]; reflexivity. }
  assert (Bp : Forall byte3 pal).
  { apply Forall_forall. intros p Hp. apply in_map_iff in Hp. destruct Hp as (i & <- & Hi). apply in_range in Hi. apply Hr.
    destruct D as [-> | [-> | ->]]; cbn in *; lia. }
  destruct (setbmppal_ok b w h bits o pal W N Lp Bp) as (b' & E & W' & G & F & P & _).
  exists b'. unfold setBMP2monochrome. rewrite (bind_ok _ _ _ _ _ (wf_rclr _ _ _ _ _ W)).
  unfold monochromepal. rewrite palsteps_ok by exact D. cbn [rbind]. rewrite map_map. fold pal.
  rewrite (bind_ok _ _ _ pal (mkst b o)) by reflexivity. rewrite (bind_ok _ _ _ _ _ E). auto.
Qed.
Lemma mono_24 b w h o rnd : wf b w h 24 -> setBMP2monochrome rnd (mkst b o) = (Err ValueError, mkst b o).
Proof.
  intros W. unfold setBMP2monochrome. rewrite (bind_ok _ _ _ _ _ (wf_rclr _ _ _ _ _ W)). reflexivity.
Qed.

Lemma invshift_list rnd bits mult shift : three_depths bits ->
  monoinverseshiftableBGRApal rnd bits mult shift =
  Ok (RGB2BGRAlist (map (fun i => rnd (((255 - i * (255 / (2 ^ bits - 1))) * mult + shift) mod 256)) (range 0 (2 ^ bits)))).
Proof.
  intros D. unfold monoinverseshiftableBGRApal. rewrite palsteps_ok by exact D. cbn [rbind]. unfold RGB2BGRAlist.
  rewrite !map_map. reflexivity.
Qed.
Lemma invshift_run b w h bits o rnd mult shift : wf b w h bits -> bits <> 24 -> (forall c, 0 <= c < 256 -> byte3 (rnd c)) ->
  let pal := map (fun i => rnd (((255 - i * (255 / (2 ^ bits - 1))) * mult + shift) mod 256)) (range 0 (2 ^ bits)) in
  exists b', setBMP2invshiftedmonochrome rnd mult shift (mkst b o) = (Ok (RGB2BGRAlist pal), mkst b' o) /\
    wf b' w h bits /\ getallRGBpal b' = Ok pal /\
    (forall i, i < 54 \/ data_off bits <= i -> getz b' i = getz b i) /\
    (forall x y, inside w h x y -> pixel b' w h bits x y = pixel b w h bits x y).
Proof.
  intros W N Hr pal. pose proof (depth_three bits (wf_depth _ _ _ _ W) N) as D.
  assert (Lp : zlen pal = 2 ^ bits).
  { unfold pal. rewrite zlen_map, zlen_range. destruct D as [-> | [-> | ->]]; reflexivity. }
  assert (Bp : Forall byte3 pal).
  { apply Forall_forall. intros p Hp. apply in_map_iff in Hp. destruct Hp as (i & <- & Hi). apply Hr. lia. }
  destruct (bgra_ok b w h bits o pal W N Lp Bp) as (b' & E & W' & G & F & P).
  exists b'. unfold setBMP2invshiftedmonochrome. rewrite (bind_ok _ _ _ _ _ (wf_rclr _ _ _ _ _ W)).
  rewrite (bind_ok _ _ _ _ _ (run_lift _ _ _ _ (invshift_list rnd bits mult shift D))). fold pal.
  rewrite (bind_ok _ _ _ _ _ E). auto.
Qed.

(** the two-colour palette *)
Lemma dichro_ok mix c1 bits : three_depths bits -> let n := 2 ^ bits in
  let pal := dichromaticpal mix c1 n 3 0 in
  zlen pal = n /\ forall i, 0 <= i < n -> nthpal pal ((3 * (n - i)) mod n) = mix i n.
Proof.
  intros D n pal.
  assert (Hn : n = 2 \/ n = 16 \/ n = 256) by (unfold n; destruct D as [-> | [-> | ->]]; cbn; auto).
  destruct (fold_put (fun i => Z.to_nat (((n - i) * 3 + 0) mod n)) (fun i => mix i n) (range 0 n)
              (repeat (int2RGB c1) (Z.to_nat n)) (0, 0, 0)) as [L V].
  - apply NoDup_range.
  - intros i j Hi Hj E. apply in_range in Hi, Hj. clear - Hn Hi Hj E.
    destruct Hn as [-> | [-> | ->]]; lia.
  - intros i Hi. apply in_range in Hi. rewrite repeat_length. clear - Hn Hi. destruct Hn as [-> | [-> | ->]]; lia.
  - split.
    + unfold pal, dichromaticpal, zlen. rewrite L, repeat_length. lia.
    + intros i Hi. unfold nthpal. rewrite <- (V i) by (now apply in_range).
      replace ((n - i) * 3 + 0) with (3 * (n - i)) by lia. reflexivity.
Qed.
Lemma dichro_bytes mix c1 n : byte3 (int2RGB c1) -> (forall i, 0 <= i < n -> byte3 (mix i n)) ->
  Forall byte3 (dichromaticpal mix c1 n 3 0).
Proof.
  intros H0 Hm. unfold dichromaticpal.
  assert (K : forall is l, Forall byte3 l -> (forall i, In i is -> 0 <= i < n) ->
    Forall byte3 (fold_left (fun v i => put_nth (Z.to_nat (((n - i) * 3 + 0) mod n)) (mix i n) v) is l)).
  { induction is as [|a is IH]; intros l Hl Hi; cbn [fold_left]; auto. apply IH.
    - apply put_nth_Forall; auto. apply Hm, Hi. cbn; auto.
    - intros i H. apply Hi. cbn; auto. }
  apply K. - apply Forall_forall. intros p Hp. apply repeat_spec in Hp. now subst. - intros i Hi. now apply in_range in Hi.
Qed.
Lemma dichro_run b w h bits o mix c1 : wf b w h bits -> bits <> 24 -> 0 <= c1 < 2 ^ 24 ->
  (forall i, 0 <= i < 2 ^ bits -> byte3 (mix i (2 ^ bits))) ->
  exists b' pal, setBMP2dichromaticpal mix c1 (mkst b o) = (Ok (RGB2BGRAlist pal), mkst b' o) /\
    wf b' w h bits /\ getallRGBpal b' = Ok pal /\
    (forall i, 0 <= i < 2 ^ bits -> pal_entry b' ((3 * (2 ^ bits - i)) mod 2 ^ bits) = mix i (2 ^ bits)) /\
    (forall i, i < 54 \/ data_off bits <= i -> getz b' i = getz b i) /\
    (forall x y, inside w h x y -> pixel b' w h bits x y = pixel b w h bits x y).
Proof.
  intros W N Hc Hm. pose proof (depth_three bits (wf_depth _ _ _ _ W) N) as D.
  destruct (dichro_ok mix c1 bits D) as [L V]. set (pal := dichromaticpal mix c1 (2 ^ bits) 3 0) in *.
  assert (Bp : Forall byte3 pal).
  { apply dichro_bytes; auto. rewrite rgb_of_int. pose proof (rgb_of_ok c1 Hc) as K.
    destruct (rgb_of c1) as [[r g] bl]. unfold rgb_ok, byte3, byte in *. exact K. }
  destruct (bgra_ok b w h bits o pal W N L Bp) as (b' & E & W' & G & F & P).
  exists b', pal. unfold setBMP2dichromaticpal. rewrite (bind_ok _ _ _ _ _ (run_rd _ _ _ _ (wf_rcolors _ _ _ _ W))).
  fold pal. rewrite (bind_ok _ _ _ _ _ E). split; [reflexivity|]. split; [exact W'|]. split; [exact G|]. split; [|auto].
  intros i Hi. rewrite <- (V i Hi). set (k := (3 * (2 ^ bits - i)) mod 2 ^ bits).
  assert (Hk : 0 <= k < 2 ^ bits) by (apply Z.mod_pos_bound; lia).
  rewrite (getallRGBpal_ok _ _ _ _ W' N) in G. injection G as G. rewrite <- G. unfold nthpal.
  rewrite (nth_indep _ _ (pal_entry b' 0)).
  - rewrite map_nth. f_equal. unfold range. rewrite Z.sub_0_r. rewrite (nth_indep _ _ (0 + Z.of_nat 0)%Z) by (rewrite map_length, seq_length; lia).
    rewrite (map_nth (fun i : nat => 0 + Z.of_nat i)). rewrite seq_nth by lia. lia.
  - rewrite map_length. unfold range. rewrite map_length, seq_length. lia.
Qed.
