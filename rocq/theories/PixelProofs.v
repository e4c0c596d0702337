(** getxybit and plotxybit against the format specification (proofs). *)
From Coq Require Import ZArith List Bool Lia.
From Verif Require Import PyBase PyFacts Spec Bmp BmpFacts.
Import ListNotations.
Open Scope Z_scope.
Ltac Zify.zify_post_hook ::= Z.to_euclidean_division_equations.

Ltac mred := cbn [bind rd wr geti seti slice slice_set xslice xslice_set lift ret raise print
                  mem out rbind withSome negb andb orb].

Lemma valid_1 : valid_depth 1. Proof. unfold valid_depth; lia. Qed.
Lemma valid_4 : valid_depth 4. Proof. unfold valid_depth; lia. Qed.
Lemma valid_8 : valid_depth 8. Proof. unfold valid_depth; lia. Qed.
Lemma valid_24 : valid_depth 24. Proof. unfold valid_depth; lia. Qed.
Global Hint Resolve valid_1 valid_4 valid_8 valid_24 : bmp.

Definition inside_dec w h x y : {inside w h x y} + {~ inside w h x y}.
Proof.
  destruct (Z_le_dec 0 x), (Z_lt_dec x w), (Z_le_dec 0 y), (Z_lt_dec y h);
    (left; unfold inside; lia) || (right; unfold inside; lia).
Defined.

Lemma wf_byte b w h bits i : wf b w h bits -> byte (getz b i).
Proof. intros W. apply bytes_getz. apply W. Qed.

(** ** bit facts *)
Lemma nib_hi_set : forall v c, byte v -> 0 <= c < 16 ->
  byte (Z.shiftl c 4 + Z.land v 15) /\ (Z.shiftl c 4 + Z.land v 15) / 16 = c
  /\ (Z.shiftl c 4 + Z.land v 15) mod 16 = v mod 16.
Proof. intros v c Hv Hc. unfold byte in *. rewrite shiftl4, land15. lia. Qed.
Lemma land240 : forall v, byte v -> Z.land v 240 = v / 16 * 16.
Proof.
  intros v Hv.
  pose proof (forall_below (fun v => Z.land v 240 =? v / 16 * 16) 256 ltac:(vm_compute; reflexivity) v Hv).
  now apply Z.eqb_eq.
Qed.
Lemma nib_lo_set : forall v c, byte v -> 0 <= c < 16 ->
  byte (Z.land v 240 + c) /\ (Z.land v 240 + c) / 16 = v / 16 /\ (Z.land v 240 + c) mod 16 = c.
Proof. intros v c Hv Hc. rewrite land240 by auto. unfold byte in *. lia. Qed.

Definition bit_of (v k : Z) : Z := (v / 2 ^ (7 - k)) mod 2.

Lemma bit_set_sweep : forall v k j, byte v -> 0 <= k < 8 -> 0 <= j < 8 ->
  byte (Z.lor v (Z.shiftl 1 (7 - k))) /\
  bit_of (Z.lor v (Z.shiftl 1 (7 - k))) j = if j =? k then 1 else bit_of v j.
Proof.
  intros v k j Hv Hk Hj.
  pose proof (forall_below3 (fun v k j => is_byte (Z.lor v (Z.shiftl 1 (7 - k))) &&
    (bit_of (Z.lor v (Z.shiftl 1 (7 - k))) j =? if j =? k then 1 else bit_of v j)) 256 8 8
    ltac:(vm_compute; reflexivity) v k j Hv Hk Hj) as H. cbn beta in H.
  apply andb_true_iff in H. destruct H as [H1 H2]. split.
  - now apply is_byte_iff. - now apply Z.eqb_eq.
Qed.
Lemma bit_clear_sweep : forall v k j, byte v -> 0 <= k < 8 -> 0 <= j < 8 ->
  let b := if Z.land v (Z.shiftl 1 (7 - k)) =? Z.shiftl 1 (7 - k)
           then Z.lxor v (Z.shiftl 1 (7 - k)) else v in
  byte b /\ bit_of b j = if j =? k then 0 else bit_of v j.
Proof.
  intros v k j Hv Hk Hj.
  pose proof (forall_below3 (fun v k j =>
    let b := if Z.land v (Z.shiftl 1 (7 - k)) =? Z.shiftl 1 (7 - k)
           then Z.lxor v (Z.shiftl 1 (7 - k)) else v in
    is_byte b && (bit_of b j =? if j =? k then 0 else bit_of v j)) 256 8 8
    ltac:(vm_compute; reflexivity) v k j Hv Hk Hj) as H. cbn beta zeta in H |- *.
  apply andb_true_iff in H. destruct H as [H1 H2]. split.
  - now apply is_byte_iff. - now apply Z.eqb_eq.
Qed.
Lemma bit_get_sweep : forall v k, byte v -> 0 <= k < 8 ->
  Z.shiftr (Z.land v (Z.shiftl 1 (7 - k))) (7 - k) = bit_of v k.
Proof.
  intros v k Hv Hk.
  pose proof (forall_below2 (fun v k => Z.shiftr (Z.land v (Z.shiftl 1 (7 - k))) (7 - k) =? bit_of v k)
   256 8 ltac:(vm_compute; reflexivity) v k Hv Hk) as H. now apply Z.eqb_eq.
Qed.
Lemma land240_shift v : byte v -> Z.shiftr (Z.land v 240) 4 = v / 16.
Proof.
  intros Hv. pose proof (forall_below (fun v => Z.shiftr (Z.land v 240) 4 =? v / 16) 256
    ltac:(vm_compute; reflexivity) v Hv) as H. now apply Z.eqb_eq.
Qed.

(** ** getxybit *)
Lemma getxybit_inside b w h bits x y : wf b w h bits -> inside w h x y ->
  getxybit x y b = Ok (pixel b w h bits x y).
Proof.
  intros W Hin. unfold getxybit. rewrite (wf_inbnd_true _ _ _ _ W) by auto. cbn [rbind].
  rewrite (wf_offsethd _ _ _ _ W), (wf_rbits _ _ _ _ W). cbn [rbind].
  destruct (baddr_bounds _ _ _ _ W x y Hin) as [B1 B2].
  pose proof (data_off_ge bits (wf_depth _ _ _ _ W)) as D.
  assert (Hb : forall i, byte (getz b i)) by (intros; eapply wf_byte; eauto).
  destruct (wf_depth _ _ _ _ W) as [-> | [-> | [-> | ->]]]; cbn [Z.eqb Pos.eqb];
    [change (pbytes 1) with 1 in *|change (pbytes 4) with 1 in *
    |change (pbytes 8) with 1 in *|change (pbytes 24) with 3 in *].
  - rewrite py_get_in by lia. cbn [rbind]. f_equal. rewrite pixel_1.
    apply (bit_get_sweep _ (x mod 8)); auto. lia.
  - rewrite py_get_in by lia. cbn [rbind]. f_equal. rewrite pixel_4 by auto.
    rewrite land1, land15, land240_shift by auto. reflexivity.
  - rewrite py_get_in by lia. f_equal. now rewrite pixel_8.
  - rewrite !py_get_in by lia. cbn [rbind]. f_equal. rewrite pixel_24.
    unfold RGB2int. rewrite shiftl8, shiftl16. lia.
Qed.
Lemma getxybit_outside b w h bits x y : wf b w h bits -> ~ inside w h x y ->
  getxybit x y b = Ok (-1).
Proof. intros W Hin. unfold getxybit. now rewrite (wf_inbnd_false _ _ _ _ W). Qed.

(** pixel values are colours of the depth *)
Lemma pixel_range b w h bits x y : wf b w h bits -> 0 <= pixel b w h bits x y < 2 ^ bits.
Proof.
  intros W. assert (Hb : forall i, byte (getz b i)) by (intros; eapply wf_byte; eauto).
  destruct (wf_depth _ _ _ _ W) as [-> | [-> | [-> | ->]]].
  - rewrite pixel_1. lia.
  - rewrite pixel_4 by auto. pose proof (Hb (baddr w h 4 x y)). unfold byte in *.
    change (2 ^ 4) with 16. bcase; lia.
  - rewrite pixel_8 by auto. apply Hb.
  - rewrite pixel_24. pose proof (Hb (baddr w h 24 x y)). pose proof (Hb (baddr w h 24 x y + 1)).
    pose proof (Hb (baddr w h 24 x y + 2)). unfold byte in *. lia.
Qed.

(** ** plotxybit *)
Definition put_px (f : Z -> Z -> Z) (x y c : Z) : Z -> Z -> Z :=
  fun x' y' => if (x' =? x) && (y' =? y) then c else f x' y'.

Lemma plot_outside b w h bits o x y c : wf b w h bits -> ~ inside w h x y ->
  plotxybit x y c (mkst b o) = (Ok tt, mkst b o).
Proof. intros W Hin. unfold plotxybit. mred. rewrite (wf_inbnd_false _ _ _ _ W) by auto. reflexivity. Qed.

(** one byte of the pixel data replaced *)
Lemma upd_frame b w h bits j v : wf b w h bits -> data_off bits <= j < zlen b -> byte v ->
  wf (upd b (Z.to_nat j) v) w h bits /\ same_header b (upd b (Z.to_nat j) v) bits.
Proof.
  intros W Hj Hv. pose proof (data_off_ge bits (wf_depth _ _ _ _ W)).
  assert (S : same_header b (upd b (Z.to_nat j) v) bits).
  { split; [apply zlen_upd|]. intros i Hi. rewrite getz_upd by lia. bcase; auto. lia. }
  split; auto. eapply wf_frame; eauto. apply bytes_upd; auto. apply W.
Qed.
Lemma slice_frame b w h bits s e v : wf b w h bits -> data_off bits <= s <= e -> e <= zlen b ->
  zlen v = e - s -> bytes v ->
  wf (py_slice_set b s e v) w h bits /\ same_header b (py_slice_set b s e v) bits.
Proof.
  intros W Hj He Hv Hb. pose proof (data_off_ge bits (wf_depth _ _ _ _ W)).
  assert (S : same_header b (py_slice_set b s e v) bits).
  { split; [apply zlen_slice_set; lia|]. intros i Hi. rewrite getz_slice_set by lia. bcases; auto; lia. }
  split; auto. eapply wf_frame; eauto. apply bytes_slice_set; auto. apply W.
Qed.

Lemma getz3_0 a b c : getz [a; b; c] 0 = a. Proof. reflexivity. Qed.
Lemma getz3_1 a b c : getz [a; b; c] 1 = b. Proof. reflexivity. Qed.
Lemma getz3_2 a b c : getz [a; b; c] 2 = c. Proof. reflexivity. Qed.
Lemma bytes3 a b c : byte a -> byte b -> byte c -> bytes [a; b; c].
Proof. intros; repeat constructor; auto; unfold byte in *; lia. Qed.

Lemma plot_inside b w h bits o x y c : wf b w h bits -> inside w h x y -> storable bits c ->
  exists b', plotxybit x y c (mkst b o) = (Ok tt, mkst b' o) /\
    repainted b b' w h bits (put_px (pixel b w h bits) x y (reduce bits c)).
Proof.
  intros W Hin Hc. unfold plotxybit. mred. rewrite (wf_inbnd_true _ _ _ _ W) by auto. mred.
  rewrite (wf_rbits _ _ _ _ W). mred.
  destruct (baddr_bounds _ _ _ _ W x y Hin) as [B1 B2].
  pose proof (data_off_ge bits (wf_depth _ _ _ _ W)) as D.
  assert (Hb : forall i, byte (getz b i)) by (intros; eapply wf_byte; eauto).
  unfold put_px, reduce, storable in *.
  destruct (wf_depth _ _ _ _ W) as [E | [E | [E | E]]]; subst bits; cbn [Z.eqb Pos.eqb] in *;
    [change (pbytes 1) with 1 in *; change (data_off 1) with 62 in *
    |change (pbytes 4) with 1 in *; change (data_off 4) with 118 in *
    |change (pbytes 8) with 1 in *; change (data_off 8) with 1078 in *
    |change (pbytes 24) with 3 in *; change (data_off 24) with 54 in *].
  - mred. rewrite (wf_bmof _ _ _ _ W) by auto with bmp. mred.
    replace (Z.shiftr x 3 + (h - y - 1) * stride w 1 + 62) with (baddr w h 1 x y)
      by (unfold baddr; rewrite shiftr3; change (data_off 1) with 62; lia).
    rewrite py_get_in by lia. mred.
    assert (Hv : byte (getz b (baddr w h 1 x y))) by auto.
    set (v := getz b (baddr w h 1 x y)) in *.
    assert (Hx8 : 0 <= x mod 8 < 8) by lia.
    assert (exists nv, (if (if c >? 0 then 1 else 0) =? 1 then Z.lor v (Z.shiftl 1 (7 - x mod 8))
       else if (Z.land v (Z.shiftl 1 (7 - x mod 8)) =? Z.shiftl 1 (7 - x mod 8)) && ((if c >? 0 then 1 else 0) =? 0)
            then Z.lxor v (Z.shiftl 1 (7 - x mod 8)) else v) = nv /\ byte nv /\
        forall j, 0 <= j < 8 -> bit_of nv j = if j =? x mod 8 then (if 0 <? c then 1 else 0) else bit_of v j)
      as (nv & Env & Hnv & Hbit).
    { rewrite !Z.gtb_ltb. destruct (Z.ltb_spec 0 c); cbn [Z.eqb Pos.eqb andb].
      - eexists; split; [reflexivity|]. split.
        + apply (bit_set_sweep v (x mod 8) 0); auto; lia.
        + intros j Hj. apply (bit_set_sweep v (x mod 8) j); auto; lia.
      - rewrite andb_true_r. eexists; split; [reflexivity|]. split.
        + apply (bit_clear_sweep v (x mod 8) 0); auto; lia.
        + intros j Hj. apply (bit_clear_sweep v (x mod 8) j); auto; lia. }
    rewrite Env. rewrite run_seti by (auto; lia). eexists; split; [reflexivity|].
    destruct (upd_frame b w h 1 (baddr w h 1 x y) nv W) as [W' S']; auto; [change (data_off 1) with 62; lia|].
    split; [exact W'|split; [exact S'|]]. intros x' y' Hin'.
    rewrite !pixel_1. rewrite getz_upd by lia.
    destruct (Z.eqb_spec (baddr w h 1 x' y') (baddr w h 1 x y)) as [E|N].
    + apply baddr_inj in E; auto with bmp. destruct E as [-> E]. rewrite Z.eqb_refl, andb_true_r.
      change ((nv / 2 ^ (7 - x' mod 8)) mod 2) with (bit_of nv (x' mod 8)).
      rewrite Hbit by lia.
      replace (x' mod 8 =? x mod 8) with (x' =? x) by (bcases; auto; lia).
      destruct (Z.eqb_spec x' x); auto. unfold bit_of, v.
      replace (baddr w h 1 x' y) with (baddr w h 1 x y) by (unfold baddr; lia). reflexivity.
    + assert ((x' =? x) && (y' =? y) = false) as ->; auto.
      bcases; auto. subst. congruence.
  - mred. rewrite (wf_bmof _ _ _ _ W) by auto with bmp. mred.
    replace (Z.shiftr x 1 + (h - y - 1) * stride w 4 + 118) with (baddr w h 4 x y)
      by (unfold baddr; rewrite shiftr1; change (data_off 4) with 118; lia).
    rewrite py_get_in by lia. mred.
    assert (Hv : byte (getz b (baddr w h 4 x y))) by auto.
    set (v := getz b (baddr w h 4 x y)) in *.
    assert (Hc' : 0 <= Z.land c 15 < 16) by (rewrite land15; lia).
    assert (exists nv, (if Z.land x 1 =? 1
       then seti (baddr w h 4 x y) (Z.land v 240 + Z.land c 15)
       else seti (baddr w h 4 x y) (Z.shiftl (Z.land c 15) 4 + Z.land v 15)) (mkst b o)
        = (Ok tt, mkst (upd b (Z.to_nat (baddr w h 4 x y)) nv) o) /\ byte nv /\
        nv / 16 = (if x mod 2 =? 1 then v / 16 else c mod 16) /\
        nv mod 16 = (if x mod 2 =? 1 then c mod 16 else v mod 16)) as (nv & E & Hnv & Hhi & Hlo).
    { rewrite land1. destruct (Z.eqb_spec (x mod 2) 1); cbn [mem out].
      - destruct (nib_lo_set v (Z.land c 15)) as (K1 & K2 & K3); auto.
        exists (Z.land v 240 + Z.land c 15). rewrite run_seti by (auto; lia).
        rewrite land15 in *. auto.
      - destruct (nib_hi_set v (Z.land c 15)) as (K1 & K2 & K3); auto.
        exists (Z.shiftl (Z.land c 15) 4 + Z.land v 15). rewrite run_seti by (auto; lia).
        rewrite (land15 c) in *. auto. }
    exists (upd b (Z.to_nat (baddr w h 4 x y)) nv). split; [exact E|]. clear E.
    destruct (upd_frame b w h 4 (baddr w h 4 x y) nv W) as [W' S']; auto; [change (data_off 4) with 118; lia|].
    split; [exact W'|split; [exact S'|]]. intros x' y' Hin'.
    rewrite !pixel_4 by (auto; rewrite getz_upd by lia; bcase; auto). rewrite getz_upd by lia.
    destruct (Z.eqb_spec (baddr w h 4 x' y') (baddr w h 4 x y)) as [E|N].
    + pose proof E as E0. apply baddr_inj in E; auto with bmp. destruct E as [-> E]. rewrite Z.eqb_refl, andb_true_r.
      rewrite Hhi, Hlo, E0. fold v. change (2 ^ 4) with 16. bcases; auto; lia.
    + assert ((x' =? x) && (y' =? y) = false) as ->; auto.
      bcases; auto. subst. congruence.
  - mred. rewrite (wf_bmof _ _ _ _ W) by auto with bmp. mred.
    replace (x + (h - y - 1) * stride w 8 + 1078) with (baddr w h 8 x y)
      by (unfold baddr; change (data_off 8) with 1078; lia).
    rewrite land255. rewrite run_seti by (unfold byte; lia).
    eexists; split; [reflexivity|].
    destruct (upd_frame b w h 8 (baddr w h 8 x y) (c mod 256) W) as [W' S'];
      [change (data_off 8) with 1078; lia|unfold byte; lia|].
    split; [exact W'|split; [exact S'|]]. intros x' y' Hin'.
    rewrite !pixel_8 by (auto; rewrite getz_upd by lia; bcase; auto; unfold byte; lia).
    rewrite getz_upd by lia.
    destruct (Z.eqb_spec (baddr w h 8 x' y') (baddr w h 8 x y)) as [E|N].
    + pose proof E as E0. apply baddr_inj in E; auto with bmp. destruct E as [-> E].
      rewrite Z.eqb_refl, andb_true_r. change (2 ^ 8) with 256. bcase; auto; lia.
    + assert ((x' =? x) && (y' =? y) = false) as ->; auto.
      bcases; auto. subst. congruence.
  - mred. rewrite (wf_bmof _ _ _ _ W) by auto with bmp. mred.
    replace (x * 3 + (h - y - 1) * stride w 24 + 54) with (baddr w h 24 x y)
      by (unfold baddr; change (data_off 24) with 54; lia).
    specialize (Hc eq_refl).
    rewrite !land255, shiftr8, shiftr16.
    assert (H3 : bytes [c mod 256; (c / 256) mod 256; c / 65536]).
    { apply bytes3; unfold byte; lia. }
    rewrite py_array_ok by auto. mred.
    eexists; split; [reflexivity|].
    destruct (slice_frame b w h 24 (baddr w h 24 x y) (baddr w h 24 x y + 3)
      [c mod 256; (c / 256) mod 256; c / 65536] W) as [W' S']; auto;
      try (change (data_off 24) with 54; lia); [unfold zlen; cbn; lia|].
    split; [exact W'|split; [exact S'|]]. intros x' y' Hin'.
    rewrite !pixel_24. rewrite !getz_slice_set by (auto; try lia; unfold zlen; cbn; lia).
    destruct (Z.eqb_spec x' x) as [->|Nx]; [destruct (Z.eqb_spec y' y) as [->|Ny]|]; cbn [andb].
    + bcases; try lia.
      replace (baddr w h 24 x y - baddr w h 24 x y) with 0 by lia.
      replace (baddr w h 24 x y + 1 - baddr w h 24 x y) with 1 by lia.
      replace (baddr w h 24 x y + 2 - baddr w h 24 x y) with 2 by lia.
      rewrite getz3_0, getz3_1, getz3_2. lia.
    + destruct (baddr_disj24 w h x y x y' Hin Hin') as [K|K]; [congruence| |]; bcases; auto; lia.
    + destruct (baddr_disj24 w h x y x' y' Hin Hin') as [K|K]; [congruence| |]; bcases; auto; lia.
Qed.

(** a colour that does not fit in 24 bits *)
Lemma plot_overflow b w h o x y c : wf b w h 24 -> inside w h x y -> ~ (0 <= c < 2 ^ 24) ->
  plotxybit x y c (mkst b o) = (Err OverflowError, mkst b o).
Proof.
  intros W Hin Hc. unfold plotxybit. mred. rewrite (wf_inbnd_true _ _ _ _ W) by auto. mred.
  rewrite (wf_rbits _ _ _ _ W). mred. cbn [Z.eqb Pos.eqb].
  mred. rewrite (wf_bmof _ _ _ _ W) by auto with bmp. mred.
  assert (E : py_array [Z.land c 255; Z.land (Z.shiftr c 8) 255; Z.shiftr c 16] = Err OverflowError).
  { unfold py_array. cbn [forallb]. rewrite (is_byte_false (Z.shiftr c 16)).
    - now rewrite !andb_false_r.
    - rewrite shiftr16. unfold byte. lia. }
  rewrite E. reflexivity.
Qed.

(** in one statement: any coordinates *)
Definition plotted (w h bits : Z) (f : Z -> Z -> Z) (x y c : Z) : Z -> Z -> Z :=
  if inside_dec w h x y then put_px f x y (reduce bits c) else f.

Lemma plot_any b w h bits o x y c : wf b w h bits -> storable bits c ->
  exists b', plotxybit x y c (mkst b o) = (Ok tt, mkst b' o) /\
    repainted b b' w h bits (put_px (pixel b w h bits) x y (reduce bits c)).
Proof.
  intros W Hc. destruct (inside_dec w h x y) as [Hin|Hin].
  - apply plot_inside; auto.
  - exists b. split; [eapply plot_outside; eauto|].
    eapply repainted_ext; [|apply repainted_refl; auto].
    intros x' y' Hin'. unfold put_px. bcases; auto. subst; contradiction.
Qed.
