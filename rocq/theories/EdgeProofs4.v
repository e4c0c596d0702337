(** Files written by the scans, and one file per frame (proofs). *)
From Coq Require Import ZArith String List Bool Lia DecimalString DecimalNat.
From Verif Require Import PyBase PyFacts Spec SpecEdges Bmp BmpFacts PixelProofs PlotList Buffers Region Raster HeaderProofs PalProofs IterProofs
  Geometry Draw DrawProofs3 ShapeProofs Shapes Files FileProofs Wrappers WrapProofs Fractal FractProofs FractProofs3 Edges EdgeProofs EdgeProofs2 EdgeProofs3
  PropCore PropWrap.
Import ListNotations.
Open Scope Z_scope.
Open Scope py_scope.

Lemma clink_timer {A} src (f : F A) W b : files W src = Some b ->
  checklink src (functimer f) W = match f (mkw (files W) (con W ++ [Mtext])) with
    | (Ok _, V) => (Ok (Some tt), mkw (files V) (con V ++ [Mdone])) | (Err e, V) => (Err e, V) end.
Proof.
  intros H. unfold checklink, functimer. rewrite H. unfold fbind, fprint, fret.
  destruct (f (mkw (files W) (con W ++ [Mtext]))) as [[a|e] V]; reflexivity.
Qed.
Lemma load_text src W b w h bits : files W src = Some b -> wf b w h bits -> 54 < zlen b ->
  loadBMP src (mkw (files W) (con W ++ [Mtext])) = (Ok (Some b), mkw (files W) (con W ++ [Mtext])).
Proof. intros Hf Wb Hl. exact (load_wf src (mkw (files W) (con W ++ [Mtext])) b w h bits Hf Wb Hl). Qed.
Lemma fbind_ok {A B} (m : F A) (k : A -> F B) W a W' : m W = (Ok a, W') -> fbind m k W = k a W'.
Proof. intros H. unfold fbind. now rewrite H. Qed.
Lemma fbind_err {A B} (m : F A) (k : A -> F B) W e W' : m W = (Err e, W') -> fbind m k W = (Err e, W').
Proof. intros H. unfold fbind. now rewrite H. Qed.
Lemma callM_ok {A} bmp (f : M A) W a b' o' : f (mkst bmp (con W)) = (Ok a, mkst b' o') -> callM bmp f W = (Ok (a, b'), mkw (files W) o').
Proof. intros H. unfold callM. now rewrite H. Qed.

Lemma reduce_file near mono rnd newbits src dst W sb w h nb0 nb pal : files W src = Some sb -> wf sb w h 24 -> 54 < zlen sb -> newbits <> 24 ->
  newBMP w h newbits = Ok nb0 -> wf nb w h newbits ->
  (if newbits >? 1 then match mono with Some f => setBMP2monochrome f | None => setnewpalfromsourcebmp near sb end else ret [])
    (mkst nb0 (con W ++ [Mtext])) = (Ok pal, mkst nb (con W ++ [Mtext])) ->
  exists W' nb', reduce24bitimagebits near mono rnd newbits src dst W = (Ok (Some tt), W') /\ only_file W W' dst nb' /\
    con W' = con W ++ [Mtext; Msaved; Mdone] /\
    repainted nb nb' w h newbits (fun x y => reduce newbits
      (if newbits =? 1 then rnd x y else matchRGBtopal false (rgb_of (pixel sb w h 24 x y)) pal)).
Proof.
  intros Hf Ws Hl N En Wn Hp. set (V := mkw (files W) (con W ++ [Mtext])).
  assert (Sg : iterimageRGB sb = Ok (rgball sb w h 24)) by (apply scan_good; [exact Ws|apply Z.mod_1_r]).
  destruct (paint_scan sb w h nb newbits (con W ++ [Mtext])
    (fun x y c => if newbits =? 1 then rnd x y else matchRGBtopal false c pal) Ws Wn N) as (nb' & Ep & R).
  eexists _, nb'. unfold reduce24bitimagebits. rewrite (clink_timer _ _ _ _ Hf). fold V.
  rewrite (fbind_ok _ _ _ _ _ (load_text src W sb w h 24 Hf Ws Hl)). fold V.
  rewrite (fbind_ok _ _ V sb V eq_refl).
  rewrite (fbind_ok _ _ V 24 V) by (unfold flift; now rewrite (wf_rbits _ _ _ _ Ws)). cbn [Z.eqb Pos.eqb negb].
  rewrite (fbind_ok _ _ V nb0 V) by (unfold flift, CopyBMPxydim2newBMP, getmaxx, getmaxy; rewrite (wf_rx _ _ _ _ Ws), (wf_ry _ _ _ _ Ws); cbn [rbind]; now rewrite En).
  rewrite (fbind_ok _ _ V (tt, nb') (mkw (files V) (con V))).
  2:{ apply callM_ok. cbn [con V]. rewrite (bind_ok _ _ _ _ _ Hp). rewrite (bind_ok _ _ _ _ _ (run_lift _ _ _ _ Sg)). exact Ep. }
  cbn. split; [reflexivity|]. split; [apply only_fput|]. split; [now rewrite <- !app_assoc|].
  eapply repainted_ext; [|exact R]. intros x y I. reflexivity.
Qed.

(** ** names of frames *)
Lemma append_inj_l (s t u : string) : (s ++ t = s ++ u -> t = u)%string.
Proof. induction s as [|c s IH]; cbn; auto. intros H. injection H. auto. Qed.
Lemma append_length' (s t : string) : String.length (s ++ t)%string = (String.length s + String.length t)%nat.
Proof. induction s as [|c s IH]; cbn; auto. Qed.
Lemma append_inj_r (t : string) : forall s u, (s ++ t = u ++ t -> s = u)%string.
Proof.
  induction s as [|c s IH]; intros [|d u] H; cbn in H; auto.
  - exfalso. apply (f_equal String.length) in H. cbn in H. rewrite append_length' in H. lia.
  - exfalso. apply (f_equal String.length) in H. cbn in H. rewrite append_length' in H. lia.
  - injection H as -> H. f_equal. auto.
Qed.
Lemma to_uint_some n : Nat.to_uint n <> Decimal.Nil.
Proof.
  intros H. pose proof (Unsigned.of_to n) as K. rewrite H in K. cbn in K. subst n. discriminate.
Qed.
Lemma str_nat_inj i j : str_nat i = str_nat j -> i = j.
Proof.
  unfold str_nat. intros H. apply (f_equal NilZero.uint_of_string) in H.
  rewrite !NilZero.usu in H by apply to_uint_some. injection H as H. apply (f_equal Nat.of_uint) in H.
  now rewrite !Unsigned.of_to in H.
Qed.
Lemma framename_inj cwd d i j : framename cwd d i = framename cwd d j -> i = j.
Proof.
  unfold framename. intros H. do 4 apply append_inj_l in H. now apply append_inj_r, str_nat_inj in H.
Qed.

Lemma saveframes_run cwd d frames : forall i W, exists W', saveframes cwd d i frames W = (Ok tt, W') /\
  (forall k fr, nth_error frames k = Some fr -> files W' (framename cwd d (i + k)) = Some fr) /\
  (forall n, (forall k, (k < length frames)%nat -> n <> framename cwd d (i + k)) -> files W' n = files W n) /\
  con W' = con W ++ repeat Msaved (length frames).
Proof.
  induction frames as [|fr t IH]; intros i W.
  - exists W. cbn. split; [reflexivity|]. split; [intros [|k]; discriminate|]. split; [auto|]. now rewrite app_nil_r.
  - destruct (IH (S i) (mkw (fput (files W) (framename cwd d i) fr) (con W ++ [Msaved]))) as (W' & E & F1 & F2 & C).
    exists W'. split; [exact E|]. split; [|split].
    + intros [|k] g Hk; cbn in Hk.
      * injection Hk as <-. rewrite Nat.add_0_r. rewrite F2; [apply fput_same|].
        intros k Hk K. apply framename_inj in K. lia.
      * rewrite Nat.add_succ_r. now apply F1.
    + intros n Hn. rewrite F2.
      * apply fput_other. specialize (Hn 0%nat). cbn in Hn. rewrite Nat.add_0_r in Hn. apply Hn. lia.
      * intros k Hk. specialize (Hn (S k)). cbn [length] in Hn. rewrite Nat.add_succ_r in Hn. apply Hn. lia.
    + rewrite C. cbn. now rewrite <- app_assoc.
Qed.

(** ** the palette cycle *)
Definition cycled (b : list Z) (w h bits i : Z) (fr : list Z) : Prop :=
  wf fr w h bits /\ (forall k, 0 <= k < 2 ^ bits -> pal_entry fr k = pal_entry b ((k + i) mod 2 ^ bits)) /\
  (forall j, j < 54 \/ data_off bits <= j -> getz fr j = getz b j) /\
  (forall x y, inside w h x y -> pixel fr w h bits x y = pixel b w h bits x y).
Definition frame_body (fs : list (list Z)) : M (list (list Z)) := fun s => (Ok (fs ++ [mem s]), s).
Lemma cycle_fold b w h bits o : bits = 4 \/ bits = 8 -> forall l i fs c, cycled b w h bits i c -> 0 <= i ->
  exists ext c', foldM (fun fs (_ : Z) => palshift 1 ;;; frame_body fs) fs l (mkst c o) = (Ok (fs ++ ext), mkst c' o) /\
    length ext = length l /\ forall k fr, nth_error ext k = Some fr -> cycled b w h bits (i + 1 + Z.of_nat k) fr.
Proof.
  intros Hb. assert (Hp : 0 < 2 ^ bits) by (destruct Hb as [-> | ->]; reflexivity).
  induction l as [|z l IH]; intros i fs c Hc Hi.
  - exists [], c. cbn. rewrite app_nil_r. split; [reflexivity|]. split; [reflexivity|]. intros [|k]; discriminate.
  - destruct Hc as (Wc & Pc & Hd & Px). destruct (C09_palshift c w h bits o 1 Wc Hb) as (c1 & E & W1 & P1 & H1 & X1).
    assert (Hc1 : cycled b w h bits (i + 1) c1).
    { split; [exact W1|]. split; [|split].
      - intros k Hk. rewrite P1, Pc by (try apply Z.mod_pos_bound; lia). f_equal. change (Z.abs 1) with 1.
        rewrite Zplus_mod_idemp_l. f_equal. lia.
      - intros j Hj. rewrite H1, Hd; auto.
      - intros x y I. rewrite X1, Px; auto. }
    destruct (IH (i + 1) (fs ++ [c1]) c1 Hc1 ltac:(lia)) as (ext & c' & E' & L & K).
    exists (c1 :: ext), c'. split; [|split].
    + cbn [foldM]. unfold bind at 1. unfold bind at 1. rewrite E. unfold frame_body at 1. cbn [mem]. rewrite E', <- app_assoc. reflexivity.
    + cbn. now rewrite L.
    + intros [|k] fr Hk; cbn in Hk.
      * injection Hk as <-. now replace (i + 1 + Z.of_nat 0) with (i + 1) by lia.
      * replace (i + 1 + Z.of_nat (S k)) with (i + 1 + 1 + Z.of_nat k) by lia. now apply K.
Qed.
Lemma cycle_run b w h bits o : wf b w h bits -> bits = 4 \/ bits = 8 ->
  exists frames b', itercolorcycle [] frame_body (mkst b o) = (Ok (Some frames), mkst b' o) /\ zlen frames = 2 ^ bits /\
    forall k fr, nth_error frames k = Some fr -> cycled b w h bits (Z.of_nat k) fr.
Proof.
  intros W Hb. assert (Hp : 1 < 2 ^ bits) by (destruct Hb as [-> | ->]; reflexivity).
  assert (C0 : cycled b w h bits 0 b).
  { split; [exact W|]. split; [|auto]. intros k Hk. now rewrite Z.add_0_r, Z.mod_small. }
  destruct (cycle_fold b w h bits o Hb (range 0 (2 ^ bits - 1)) 0 [b] b C0 ltac:(lia)) as (ext & b' & E & L & K).
  exists (b :: ext), b'. split; [|split].
  - unfold itercolorcycle, func4and8bitonly.
    rewrite (bind_ok _ _ _ _ _ (wf_geti_bits _ _ _ _ W o)).
    replace (negb ((bits =? 4) || (bits =? 8))) with false by (destruct Hb as [-> | ->]; reflexivity).
    unfold withSome. unfold bind at 1. rewrite (bind_ok _ _ _ _ _ (run_rd _ _ _ _ (wf_rcolors _ _ _ _ W))).
    cbv zeta. unfold bind at 1. unfold frame_body at 1. cbn [mem app] in *. rewrite E. reflexivity.
  - rewrite zlen_cons. unfold zlen. rewrite L. fold (zlen (range 0 (2 ^ bits - 1))). rewrite zlen_range. lia.
  - intros [|k] fr Hk; cbn in Hk; [injection Hk as <-; exact C0|].
    replace (Z.of_nat (S k)) with (0 + 1 + Z.of_nat k) by lia. now apply K.
Qed.
