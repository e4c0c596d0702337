(** Integer fields, palettes, creation of bitmaps (proofs). *)
From Coq Require Import ZArith List Bool Lia.
From Verif Require Import PyBase PyFacts Spec Palette Bmp BmpFacts PixelProofs.
Import ListNotations.
Open Scope Z_scope.
Open Scope py_scope.
Ltac Zify.zify_post_hook ::= Z.to_euclidean_division_equations.

(** ** writeint *)
Definition field_bytes (b b' : list Z) (off n v : Z) : Prop :=
  zlen b' = zlen b /\
  forall i, getz b' i = if (off <=? i) && (i <? off + n) then (v / 256 ^ (i - off)) mod 256 else getz b i.

Lemma writeint_run b o off cnt v : 0 <= off -> 1 <= cnt -> off + cnt - 1 <= zlen b -> bytes b ->
  exists b', writeint off cnt v (mkst b o) = (Ok tt, mkst b' o) /\ field_bytes b b' off (cnt - 1) v /\ bytes b'.
Proof.
  intros Ho Hc Hl Hb. unfold writeint.
  destruct (foldM_range_inv
    (fun i v' s => v' = v / 256 ^ i /\ out s = o /\ field_bytes b (mem s) off i v /\ bytes (mem s))
    (fun v i => seti (off + i) (Z.land v 255) ;;; ret (Z.shiftr v 8)) 0 (cnt - 1) v (mkst b o))
    as (v' & s' & E & Ev & Eo & F & Hb').
  - lia.
  - cbn [mem out]. repeat split; auto.
    + now rewrite Z.pow_0_r, Z.div_1_r.
    + intros i. bcases; auto; lia.
  - intros i v' [m o'] Hi (Ev & Eo & (Fl & Fg) & Hm). cbn [mem out] in *. subst o'.
    rewrite (bind_ok _ _ _ tt (mkst (upd m (Z.to_nat (off + i)) (v' mod 256)) o)).
    2:{ rewrite land255. apply run_seti; [lia|unfold byte; lia]. }
    cbn [ret]. eexists _, _; split; [reflexivity|]. cbn [mem out].
    split.
    { rewrite shiftr8, Ev, Z.div_div by lia. rewrite Z.pow_add_r by lia. reflexivity. }
    split; auto. split.
    + split; [now rewrite zlen_upd|]. intros j. rewrite getz_upd by lia. rewrite Fg.
      bcases; auto; try lia. subst j. replace (off + i - off) with i by lia. now rewrite Ev.
    + apply bytes_upd; auto. unfold byte; lia.
  - rewrite (bind_ok _ _ _ _ _ E). cbn [ret]. destruct s' as [m o']. cbn [mem out] in *. subst o'.
    exists m. auto.
Qed.
Lemma field_bytes_le b b' off n v : field_bytes b b' off n v -> 0 <= off -> 0 <= n ->
  forall k i, 0 <= i -> i + Z.of_nat k = n ->
  le_field b' (off + i) k = (v / 256 ^ i) mod 256 ^ Z.of_nat k.
Proof.
  intros (_ & F) Ho Hn. induction k; intros i Hi Hk; cbn [le_field].
  - cbn [Z.of_nat]. rewrite Z.pow_0_r. now rewrite Z.mod_1_r.
  - rewrite F. replace (off + i + 1) with (off + (i + 1)) by lia. rewrite IHk by lia.
    replace ((off <=? off + i) && (off + i <? off + n)) with true
      by (symmetry; apply andb_true_intro; split; [apply Z.leb_le|apply Z.ltb_lt]; lia).
    replace (off + i - off) with i by lia.
    rewrite Nat2Z.inj_succ, Z.pow_succ_r by lia. rewrite Z.rem_mul_r by lia.
    rewrite Z.div_div by lia. rewrite Z.pow_add_r by lia. reflexivity.
Qed.
Lemma field_bytes_read b b' off n v : field_bytes b b' off n v -> 0 <= off -> 0 <= n ->
  off + n <= zlen b -> readint off (n + 1) b' = Ok (v mod 256 ^ n).
Proof.
  intros F Ho Hn Hl. destruct F as (Fl & Fg). rewrite readint_spec by lia. f_equal.
  replace (n + 1 - 1) with n by lia. replace off with (off + 0) by lia.
  rewrite (field_bytes_le b b' off n v); auto; try lia.
  - rewrite Z.pow_0_r, Z.div_1_r, Z2Nat.id by lia. reflexivity.
  - split; auto.
Qed.
Lemma int2buf_len n v : 0 <= n -> zlen (int2buf n v) = n.
Proof. intros; unfold int2buf. rewrite zlen_map, zlen_range. lia. Qed.
Lemma int2buf_get n v i : 0 <= i < n -> getz (int2buf n v) i = (v / 256 ^ i) mod 256.
Proof.
  intros. unfold int2buf. rewrite getz_map by (rewrite zlen_range; lia).
  rewrite getz_range by lia. rewrite land255, Z.shiftr_div_pow2 by lia.
  replace (2 ^ ((0 + i) * 8)) with (256 ^ i); auto.
  rewrite Z.add_0_l, Z.mul_comm, Z.pow_mul_r by lia. reflexivity.
Qed.
Lemma le_int2buf n v : forall k i, 0 <= i -> i + Z.of_nat k <= n ->
  le_field (int2buf n v) i k = (v / 256 ^ i) mod 256 ^ Z.of_nat k.
Proof.
  induction k; intros i Hi Hk; cbn [le_field].
  - cbn [Z.of_nat]. rewrite Z.pow_0_r. now rewrite Z.mod_1_r.
  - rewrite IHk, int2buf_get by lia. rewrite Nat2Z.inj_succ, Z.pow_succ_r by lia.
    rewrite Z.rem_mul_r by lia. rewrite Z.div_div by lia. rewrite Z.pow_add_r by lia. reflexivity.
Qed.
Lemma buf2int_int2buf n v : 1 <= n -> buf2int (int2buf n v) = Ok (v mod 256 ^ (n - 1)).
Proof.
  intros. unfold buf2int. rewrite int2buf_len by lia. rewrite sum_le_spec by (rewrite ?int2buf_len; lia).
  f_equal. rewrite Z.mul_0_r, Z.pow_0_r, Z.mul_1_l. rewrite le_int2buf by lia.
  rewrite Z.pow_0_r, Z.div_1_r, Z2Nat.id by lia. reflexivity.
Qed.

(** ** palettes *)
Definition triple_at (p : Z * Z * Z) (k : Z) : Z :=
  let '(r, g, b) := p in if k =? 0 then b else if k =? 1 then g else r.
Definition nthpal (pal : list (Z * Z * Z)) (i : Z) : Z * Z * Z := nth (Z.to_nat i) pal (0, 0, 0).
Definition byte3 (p : Z * Z * Z) : Prop := let '(r, g, b) := p in byte r /\ byte g /\ byte b.

Definition pal_stored (b b' : list Z) (pal : list (Z * Z * Z)) (n : Z) : Prop :=
  zlen b' = zlen b /\
  forall i, getz b' i = if (54 <=? i) && (i <? 54 + 4 * n) && negb ((i - 54) mod 4 =? 3)
                        then triple_at (nthpal pal ((i - 54) / 4)) ((i - 54) mod 4) else getz b i.

Lemma setbmppal_run b o pal bits : py_get b bmpcolorbits = Ok bits -> valid_depth bits ->
  bytes b -> zlen pal = 2 ^ bits -> 54 + 4 * 2 ^ bits <= zlen b -> Forall byte3 pal ->
  exists b', setbmppal pal (mkst b o) = (Ok tt, mkst b' o) /\ pal_stored b b' pal (zlen pal) /\ bytes b'.
Proof.
  intros Hbits Hd Hb Hlen Hz Hp. unfold setbmppal.
  assert (E0 : rd getmaxcolors (mkst b o) = (Ok (2 ^ bits), mkst b o)).
  { apply run_rd. unfold getmaxcolors. rewrite Hbits. cbn [rbind]. f_equal.
    rewrite Z.shiftl_mul_pow2; [lia|]. destruct Hd as [-> | [-> | [-> | ->]]]; lia. }
  rewrite (bind_ok _ _ _ _ _ E0).
  replace (zlen pal =? 2 ^ bits) with true by (rewrite Hlen; symmetry; apply Z.eqb_refl).
  destruct (foldM_list_inv (fun done s x => s = 54 + 4 * zlen done /\ out x = o /\
      pal_stored b (mem x) pal (zlen done) /\ bytes (mem x))
     (fun s p => let '(r, g, b) := p in
             a <- lift (py_array [b; g; r]) ;;
             slice_set s (s + 3) a ;;; ret (s + 4)) pal bmppal (mkst b o))
    as (s' & x' & E & Es & Eo & F & Hb').
  - cbn [mem out]. unfold zlen; cbn [length Z.of_nat]. repeat split; auto.
    intros i. bcases; auto; lia.
  - intros done [[r g] bb] todo s [m o'] El (Es & Eo & (Fl & Fg) & Hm). cbn [mem out] in *. subst o' s.
    assert (byte3 (r, g, bb)) as (Hr & Hg & Hbb).
    { rewrite Forall_forall in Hp. apply Hp. rewrite El. apply in_elt. }
    assert (H3 : bytes [bb; g; r]) by (now apply bytes3).
    rewrite (bind_ok _ _ _ [bb; g; r] (mkst m o)) by (apply run_lift, py_array_ok; auto).
    rewrite (bind_ok _ _ _ _ _ (run_slice_set _ _ _ _ _)). cbn [ret].
    assert (Hd2 : zlen done < zlen pal).
    { rewrite El, zlen_app, zlen_cons. pose proof (zlen_nonneg todo). lia. }
    pose proof (zlen_nonneg done).
    assert (En : nthpal pal (zlen done) = (r, g, bb)).
    { unfold nthpal. rewrite El. replace (Z.to_nat (zlen done)) with (length done) by (unfold zlen; lia).
      rewrite app_nth2, Nat.sub_diag; auto. }
    eexists _, _; split; [reflexivity|]. cbn [mem out].
    rewrite zlen_app, zlen_cons, zlen_nil. repeat split; auto; try lia.
    + rewrite zlen_slice_set; auto; try lia. unfold zlen; cbn; lia.
    + intros i. rewrite getz_slice_set by (try lia; unfold zlen; cbn; lia). rewrite Fg.
      destruct (Z.leb_spec (54 + 4 * zlen done) i); destruct (Z.ltb_spec i (54 + 4 * zlen done + 3)); cbn [andb].
      * replace ((i - 54) / 4) with (zlen done) by lia. rewrite En. unfold triple_at.
        assert (i - (54 + 4 * zlen done) = 0 \/ i - (54 + 4 * zlen done) = 1 \/ i - (54 + 4 * zlen done) = 2) as [K|[K|K]] by lia;
          rewrite K; rewrite ?getz3_0, ?getz3_1, ?getz3_2; bcases; auto; lia.
      * bcases; auto; lia.
      * bcases; auto; lia.
      * lia.
    + apply bytes_slice_set; auto.
  - rewrite (bind_ok _ _ _ _ _ E). cbn [ret]. destruct x' as [m o']. cbn [mem out] in *. subst o'.
    exists m. split; auto.
Qed.

Lemma setbmppal_wronglen b w h bits o pal : wf b w h bits -> zlen pal <> 2 ^ bits ->
  setbmppal pal (mkst b o) = (Ok tt, mkst b o).
Proof.
  intros W N. unfold setbmppal.
  rewrite (bind_ok _ _ _ _ _ (run_rd _ _ _ _ (wf_rcolors _ _ _ _ W))).
  destruct (Z.eqb_spec (zlen pal) (2 ^ bits)); [contradiction|reflexivity].
Qed.

Lemma mapR_ok {A B} (f : A -> res B) (g : A -> B) l : (forall a, In a l -> f a = Ok (g a)) ->
  mapR f l = Ok (map g l).
Proof.
  induction l; intros H; cbn [mapR map]; auto. rewrite H by (left; auto). cbn [rbind].
  rewrite IHl by (intros; apply H; right; auto). reflexivity.
Qed.
Lemma getRGBpal_ok b c : 0 <= c -> 54 + 4 * c + 2 < zlen b -> getRGBpal c b = Ok (pal_entry b c).
Proof.
  intros. unfold getRGBpal, bmppal, pal_entry. rewrite shiftl2. rewrite !py_get_in by lia. cbn [rbind].
  now rewrite (Z.mul_comm c 4).
Qed.
Lemma wf_pal_len b w h bits : wf b w h bits -> bits <> 24 -> 54 + 4 * 2 ^ bits <= zlen b.
Proof.
  intros W N. pose proof (wf_len _ _ _ _ W). pose proof (wf_wrange _ _ _ _ W).
  pose proof (wf_hrange _ _ _ _ W). pose proof (stride_nonneg w bits ltac:(lia) (wf_depth _ _ _ _ W)).
  unfold data_off in *. destruct (Z.eqb_spec bits 24); [lia|]. nia.
Qed.
Lemma getallRGBpal_ok b w h bits : wf b w h bits -> bits <> 24 ->
  getallRGBpal b = Ok (map (pal_entry b) (range 0 (2 ^ bits))).
Proof.
  intros W N. unfold getallRGBpal. rewrite (wf_rcolors _ _ _ _ W). cbn [rbind].
  apply mapR_ok. intros c Hc. apply in_range in Hc. pose proof (wf_pal_len _ _ _ _ W N).
  apply getRGBpal_ok; lia.
Qed.

Lemma map_range_nth {A} (f : Z -> A) (l : list A) d :
  (forall i, 0 <= i < zlen l -> f i = nth (Z.to_nat i) l d) -> map f (range 0 (zlen l)) = l.
Proof.
  intros H. apply (nth_ext _ _ d d).
  - rewrite map_length. pose proof (zlen_range 0 (zlen l)) as E. unfold zlen in *. lia.
  - intros n Hn. rewrite map_length in Hn. unfold range in *. rewrite map_length, seq_length in Hn.
    rewrite map_map. rewrite (nth_indep _ d (f (0 + Z.of_nat 0)%Z)) by (rewrite map_length, seq_length; lia).
    rewrite (map_nth (fun i : nat => f (0 + Z.of_nat i))). rewrite seq_nth by lia.
    rewrite H by lia. f_equal. lia.
Qed.

Lemma pal_stored_entries b b' pal : pal_stored b b' pal (zlen pal) ->
  map (pal_entry b') (range 0 (zlen pal)) = pal.
Proof.
  intros (Hl & Hg). apply (map_range_nth _ _ (0, 0, 0)). intros i Hi.
  unfold pal_entry. rewrite !Hg. change (nth (Z.to_nat i) pal (0, 0, 0)) with (nthpal pal i).
  replace ((54 + 4 * i + 2 - 54) / 4) with i by lia.
  replace ((54 + 4 * i + 1 - 54) / 4) with i by lia.
  replace ((54 + 4 * i - 54) / 4) with i by lia.
  replace ((54 + 4 * i + 2 - 54) mod 4) with 2 by lia.
  replace ((54 + 4 * i + 1 - 54) mod 4) with 1 by lia.
  replace ((54 + 4 * i - 54) mod 4) with 0 by lia.
  destruct (nthpal pal i) as [[r g] b0]. cbn [triple_at Z.eqb Pos.eqb negb]. bcases; auto; lia.
Qed.

(** a change confined to bytes 54 .. data_off-1 keeps the bitmap well formed
    and all pixels *)
Lemma wf_pal_frame b b' w h bits : wf b w h bits -> bytes b' -> zlen b' = zlen b ->
  (forall i, i < 54 \/ data_off bits <= i -> getz b' i = getz b i) ->
  wf b' w h bits /\ forall x y, inside w h x y -> pixel b' w h bits x y = pixel b w h bits x y.
Proof.
  intros W Hb Hl Hg. pose proof (data_off_ge bits (wf_depth _ _ _ _ W)) as Hd. split.
  - constructor; try apply W; auto.
    + rewrite Hl. apply W.
    + rewrite !Hg by lia. apply W.
    + rewrite Hl, <- (wf_size _ _ _ _ W). apply le_field_ext. intros; apply Hg; lia.
    + rewrite <- (wf_off _ _ _ _ W). apply le_field_ext. intros; apply Hg; lia.
    + rewrite <- (wf_width _ _ _ _ W). apply le_field_ext. intros; apply Hg; lia.
    + rewrite <- (wf_height _ _ _ _ W). apply le_field_ext. intros; apply Hg; lia.
    + rewrite <- (wf_bpp _ _ _ _ W). apply le_field_ext. intros; apply Hg; lia.
  - intros x y Hin. destruct (baddr_bounds _ _ _ _ W x y Hin) as [B1 B2]. unfold pixel.
    assert (E : data_off bits + (h - 1 - y) * stride w bits + x * bits / 8 = baddr w h bits x y) by reflexivity.
    destruct (Z.eqb_spec bits 24) as [->|N].
    + replace (x * 24 / 8) with (3 * x) in E by lia. rewrite E. rewrite !Hg by lia. reflexivity.
    + rewrite E. now rewrite Hg by lia.
Qed.

(** ** newBMP *)
Lemma stdpal_ok bits : bits = 1 \/ bits = 4 \/ bits = 8 ->
  exists pal, getdefaultbitpal bits = Ok pal /\ zlen pal = 2 ^ bits /\ Forall byte3 pal.
Proof.
  assert (K : forall pal, forallb (fun p => let '(r, g, b) := p in is_byte r && is_byte g && is_byte b) pal = true
     -> Forall byte3 pal).
  { intros pal H. apply Forall_forall. intros [[r g] b] Hi. rewrite forallb_forall in H.
    specialize (H _ Hi). cbn in H. rewrite !andb_true_iff, !is_byte_iff in H. cbn. tauto. }
  intros [-> | [-> | ->]]; eexists; (split; [reflexivity|]); (split; [reflexivity|]);
    apply K; vm_compute; reflexivity.
Qed.

Lemma getz_zero n i : getz (repz 0 n) i = 0.
Proof.
  destruct (Z.ltb_spec i 0); [now apply getz_neg|]. destruct (Z.ltb_spec i n).
  - apply getz_repz; lia.
  - apply getz_big. rewrite zlen_repz. lia.
Qed.

(** The bytes of a new bitmap in front of its palette. *)
Definition hdr_byte (f hd x y bits i : Z) : Z :=
  if i =? 0 then 66 else if i =? 1 then 77
  else if (2 <=? i) && (i <? 9) then (f / 256 ^ (i - 2)) mod 256
  else if (10 <=? i) && (i <? 13) then (hd / 256 ^ (i - 10)) mod 256
  else if i =? 14 then 40
  else if (18 <=? i) && (i <? 21) then (x / 256 ^ (i - 18)) mod 256
  else if (22 <=? i) && (i <? 25) then (y / 256 ^ (i - 22)) mod 256
  else if i =? 28 then bits else 0.

Lemma setmeta_ok f hd x y bits pal : valid_depth bits ->
  hd = data_off bits -> hd <= f -> (bits <> 24 -> getdefaultbitpal bits = Ok pal /\ zlen pal = 2 ^ bits /\ Forall byte3 pal) ->
  exists b, setmeta f hd x y bits = Ok b /\ bytes b /\ zlen b = f /\
    (forall i, i < 54 \/ hd <= i -> getz b i = hdr_byte f hd x y bits i) /\
    (bits <> 24 -> map (pal_entry b) (range 0 (2 ^ bits)) = pal) /\
    (forall i, 54 <= i < hd -> (i - 54) mod 4 = 3 -> getz b i = 0).
Proof.
  intros Hd Ehd Hf Hpal. pose proof (data_off_ge bits Hd) as Hoff.
  assert (Hbb : byte bits) by (unfold byte; destruct Hd as [-> | [-> | [-> | ->]]]; lia).
  unfold setmeta, setmeta_body.
  set (b0 := repz 0 f).
  assert (L0 : zlen b0 = f) by (unfold b0; rewrite zlen_repz; lia).
  assert (B0 : bytes b0).
  { apply bytes_getz. intros i. unfold b0. rewrite getz_zero. unfold byte; lia. }
  assert (G0 : forall i, getz b0 i = 0) by (intros; apply getz_zero).
  clearbody b0.
  rewrite (bind_ok _ _ _ _ _ (run_slice_set _ _ _ _ _)).
  set (b1 := py_slice_set b0 0 2 bmpheaderid).
  assert (L1 : zlen b1 = f) by (unfold b1; rewrite zlen_slice_set; auto; unfold zlen in *; cbn; lia).
  assert (B1 : bytes b1).
  { apply bytes_slice_set; auto. unfold bmpheaderid. repeat constructor; unfold byte; lia. }
  assert (G1 : forall i, getz b1 i = if i =? 0 then 66 else if i =? 1 then 77 else 0).
  { intros i. unfold b1. rewrite getz_slice_set by (try lia; unfold zlen; cbn; lia). rewrite G0.
    destruct (Z.eqb_spec i 0); [subst; reflexivity|]. destruct (Z.eqb_spec i 1); [subst; reflexivity|].
    bcases; auto; lia. }
  clearbody b1.
  unfold setflsz, sethdsz, setx, sety, bmpfilesize, bmphdrsize, bmpx, bmpy, bmpcolorbits.
  destruct (writeint_run b1 [] 2 8 f) as (b2 & E2 & (L2 & G2) & B2); auto; try lia.
  rewrite (bind_ok _ _ _ _ _ E2). clear E2.
  destruct (writeint_run b2 [] 10 4 hd) as (b3 & E3 & (L3 & G3) & B3); auto; try lia.
  rewrite (bind_ok _ _ _ _ _ E3). clear E3.
  destruct (writeint_run b3 [] 18 4 x) as (b4 & E4 & (L4 & G4) & B4); auto; try lia.
  rewrite (bind_ok _ _ _ _ _ E4). clear E4.
  destruct (writeint_run b4 [] 22 4 y) as (b5 & E5 & (L5 & G5) & B5); auto; try lia.
  rewrite (bind_ok _ _ _ _ _ E5). clear E5.
  rewrite (bind_ok _ _ _ _ _ (run_seti b5 [] 28 bits ltac:(lia) Hbb)).
  set (b6 := upd b5 (Z.to_nat 28) bits).
  assert (L6 : zlen b6 = f) by (unfold b6; rewrite zlen_upd; lia).
  assert (B6 : bytes b6) by (now apply bytes_upd).
  assert (G6 : forall i, getz b6 i = if i =? 28 then bits else getz b5 i) by (intros; apply getz_upd; lia).
  clearbody b6.
  rewrite (bind_ok _ _ _ _ _ (run_seti b6 [] 14 40 ltac:(lia) ltac:(unfold byte; lia))).
  set (b7 := upd b6 (Z.to_nat 14) 40).
  assert (L7 : zlen b7 = f) by (unfold b7; rewrite zlen_upd; lia).
  assert (B7 : bytes b7) by (apply bytes_upd; auto; unfold byte; lia).
  assert (G7 : forall i, getz b7 i = if i =? 14 then 40 else getz b6 i) by (intros; apply getz_upd; lia).
  clearbody b7.
  assert (GG : forall i, getz b7 i = hdr_byte f hd x y bits i).
  { intros i. unfold hdr_byte. rewrite G7, G6, G5, G4, G3, G2, G1.
    replace (22 + (4 - 1)) with 25 by lia. replace (18 + (4 - 1)) with 21 by lia.
    replace (10 + (4 - 1)) with 13 by lia. replace (2 + (8 - 1)) with 9 by lia.
    destruct (Z.eqb_spec i 14); [subst; reflexivity|].
    destruct (Z.eqb_spec i 28); [subst; reflexivity|].
    bcases; auto; lia. }
  clear G7 G6 G5 G4 G3 G2 G1.
  destruct (Z.ltb_spec bits 24) as [Hb|Hb].
  - assert (N : bits <> 24) by lia. destruct (Hpal N) as (Ep & Lp & Hp3).
    rewrite (bind_ok _ _ _ _ _ (run_lift _ _ _ _ Ep)).
    assert (Eh : hd = 54 + 4 * 2 ^ bits).
    { rewrite Ehd. unfold data_off. destruct (Z.eqb_spec bits 24); [lia|reflexivity]. }
    destruct (setbmppal_run b7 [] pal bits) as (b8 & E8 & S8 & B8); auto; try lia.
    { unfold bmpcolorbits. rewrite py_get_in by lia. rewrite GG. reflexivity. }
    rewrite E8. cbn [mem]. exists b8. split; [reflexivity|]. split; auto.
    pose proof S8 as (L8 & G8). split; [lia|].
    split; [|split].
    + intros i Hi. rewrite G8, GG. bcases; auto; lia.
    + intros _. rewrite <- Lp. eapply pal_stored_entries; eauto.
    + intros i Hi Hm. rewrite G8. rewrite Hm. change (3 =? 3) with true. cbn [negb].
      rewrite andb_false_r. rewrite GG. unfold hdr_byte. bcases; auto; lia.
  - assert (bits = 24) by (destruct Hd as [-> | [-> | [-> | ->]]]; lia). subst bits.
    cbn [ret mem]. exists b7. split; [reflexivity|]. split; auto. split; auto.
    change (data_off 24) with 54 in Ehd.
    split; [|split].
    + intros; apply GG.
    + intros N; now elim N.
    + intros; lia.
Qed.

Lemma pow256_3 : 256 ^ 3 = 2 ^ 24. Proof. reflexivity. Qed.

Lemma newBMP_wf x y bits : valid_depth bits -> 0 <= x < 2 ^ 24 -> 0 <= y < 2 ^ 24 ->
  exists b, newBMP x y bits = Ok b /\ wf b x y bits /\
    (forall i j, inside x y i j -> pixel b x y bits i j = 0) /\
    (bits <> 24 -> exists pal, getdefaultbitpal bits = Ok pal /\ getallRGBpal b = Ok pal) /\
    (forall i, data_off bits <= i -> getz b i = 0).
Proof.
  intros Hd Hx Hy. unfold newBMP, bmmeta, getbmflsz.
  rewrite xbytes_stride by auto. cbn [rbind]. rewrite headersizedict_ok by auto. cbn [rbind].
  pose proof (data_off_ge bits Hd) as Ho. pose proof (stride_nonneg x bits ltac:(lia) Hd) as Hs.
  set (f := stride x bits * y + data_off bits).
  assert (Hpal : exists pal, bits <> 24 -> getdefaultbitpal bits = Ok pal /\ zlen pal = 2 ^ bits /\ Forall byte3 pal).
  { destruct (Z.eq_dec bits 24) as [->|N].
    - exists []. congruence.
    - destruct (stdpal_ok bits) as (pal & K); [unfold valid_depth in Hd; lia|]. exists pal. auto. }
  destruct Hpal as (pal & Hpal).
  destruct (setmeta_ok f (data_off bits) x y bits pal Hd eq_refl ltac:(nia) Hpal)
    as (b & E & B & L & G & P & _).
  rewrite E. exists b. split; auto.
  assert (Hbits : hdr_byte f (data_off bits) x y bits 28 = bits) by reflexivity.
  assert (Hf : 0 <= f < 2 ^ 56).
  { unfold f. assert (0 <= stride x bits < 2 ^ 27) by (unfold stride; destruct Hd as [-> | [-> | [-> | ->]]]; lia). nia. }
  assert (W : wf b x y bits).
  { constructor; auto.
    - lia.
    - split; rewrite G by lia; reflexivity.
    - rewrite L. assert (F : field_bytes b b 2 7 f).
      { split; auto. intros i. bcase; bcase; cbn [andb]; auto. rewrite G by lia.
        unfold hdr_byte. bcases; auto; lia. }
      change 8%nat with (7 + 1)%nat. rewrite le_field_app. replace 2 with (2 + 0) by lia.
      rewrite (field_bytes_le b b 2 7 f F) by lia. rewrite Z.pow_0_r, Z.div_1_r.
      cbn [le_field]. rewrite G by lia. change (hdr_byte f (data_off bits) x y bits (2 + 0 + Z.of_nat 7)) with 0.
      change (Z.of_nat 7) with 7. change (256 ^ 7) with (2 ^ 56). rewrite Z.mod_small by lia. lia.
    - assert (F : field_bytes b b 10 3 (data_off bits)).
      { split; auto. intros i. bcase; bcase; cbn [andb]; auto. rewrite G by lia.
        unfold hdr_byte. bcases; auto; lia. }
      change 4%nat with (3 + 1)%nat. rewrite le_field_app. replace 10 with (10 + 0) by lia.
      rewrite (field_bytes_le b b 10 3 _ F) by lia. rewrite Z.pow_0_r, Z.div_1_r.
      cbn [le_field]. rewrite G by lia. change (hdr_byte f (data_off bits) x y bits (10 + 0 + Z.of_nat 3)) with 0.
      change (Z.of_nat 3) with 3. rewrite pow256_3. rewrite Z.mod_small by lia. lia.
    - assert (F : field_bytes b b 18 3 x).
      { split; auto. intros i. bcase; bcase; cbn [andb]; auto. rewrite G by lia.
        unfold hdr_byte. bcases; auto; lia. }
      change 4%nat with (3 + 1)%nat. rewrite le_field_app. replace 18 with (18 + 0) by lia.
      rewrite (field_bytes_le b b 18 3 _ F) by lia. rewrite Z.pow_0_r, Z.div_1_r.
      cbn [le_field]. rewrite G by lia. change (hdr_byte f (data_off bits) x y bits (18 + 0 + Z.of_nat 3)) with 0.
      change (Z.of_nat 3) with 3. rewrite pow256_3. rewrite Z.mod_small by lia. lia.
    - assert (F : field_bytes b b 22 3 y).
      { split; auto. intros i. bcase; bcase; cbn [andb]; auto. rewrite G by lia.
        unfold hdr_byte. bcases; auto; lia. }
      change 4%nat with (3 + 1)%nat. rewrite le_field_app. replace 22 with (22 + 0) by lia.
      rewrite (field_bytes_le b b 22 3 _ F) by lia. rewrite Z.pow_0_r, Z.div_1_r.
      cbn [le_field]. rewrite G by lia. change (hdr_byte f (data_off bits) x y bits (22 + 0 + Z.of_nat 3)) with 0.
      change (Z.of_nat 3) with 3. rewrite pow256_3. rewrite Z.mod_small by lia. lia.
    - cbn [le_field]. rewrite !G by lia. rewrite Hbits.
      change (hdr_byte f (data_off bits) x y bits (28 + 1)) with 0. lia. }
  assert (Z0 : forall i, data_off bits <= i -> getz b i = 0).
  { intros i Hi. rewrite G by lia. unfold hdr_byte. bcases; auto; lia. }
  split; auto. split; [|split; auto].
  - intros i j Hin. destruct (baddr_bounds _ _ _ _ W i j Hin) as [K1 K2]. unfold pixel.
    unfold baddr in K1. destruct (Z.eqb_spec bits 24) as [->|N].
    + replace (i * 24 / 8) with (3 * i) in K1 by lia. rewrite !Z0 by lia. reflexivity.
    + rewrite Z0 by lia. rewrite Z.div_0_l; auto.
      apply Z.pow_nonzero; [lia|]. destruct Hd as [-> | [-> | [-> | ->]]]; lia.
  - intros N. destruct (Hpal N) as (Ep & _ & _). exists pal. split; auto.
    rewrite (getallRGBpal_ok _ _ _ _ W N). f_equal. auto.
Qed.

(** other depths *)
Lemma newBMP_baddepth x y bits : ~ valid_depth bits -> exists e, newBMP x y bits = Err e.
Proof.
  intros Hd. unfold newBMP, bmmeta, getbmflsz.
  destruct (xbytes x bits) as [v|e] eqn:E; cbn [rbind]; [|eauto].
  assert (bmpheadersizedict bits = Err KeyError) as ->; [|cbn; eauto].
  unfold bmpheadersizedict, valid_depth in *. bcases; auto; lia.
Qed.
