(** Properties C10, C11, C36, C38: files. *)
From Coq Require Import ZArith List Bool Lia String.
From Verif Require Import PyBase PyFacts Spec Bmp BmpFacts PixelProofs HeaderProofs PalProofs
  Files FileProofs Concrete.
Import ListNotations.
Open Scope Z_scope.
Open Scope py_scope.

Definition nofiles : fsys := fun _ => None.

(** * C10 *)
Theorem C10_save_load : forall name b w h bits W, wf b w h bits -> 54 < zlen b ->
  exists W', saveBMP name (Some b) W = (Ok tt, W') /\ loadBMP name W' = (Ok (Some b), W') /\
    forall other, other <> name -> files W' other = files W other.
Proof.
  intros name b w h bits W Wf Hl. eexists. split; [reflexivity|]. split.
  - apply (loadBMP_wf _ _ _ w h bits); auto. apply fput_same.
  - intros other N. now apply fput_other.
Qed.
(** every bitmap with a palette or with at least one pixel qualifies *)
Theorem C10_condition : forall b w h bits, wf b w h bits -> bits <> 24 \/ (0 < w /\ 0 < h) -> 54 < zlen b.
Proof.
  intros b w h bits W H. rewrite (wf_len _ _ _ _ W).
  pose proof (stride_nonneg w bits ltac:(apply W) (wf_depth _ _ _ _ W)). pose proof (wf_hrange _ _ _ _ W).
  destruct H as [H|[Ha Hb]].
  - enough (54 < data_off bits) by nia. destruct (wf_depth _ _ _ _ W) as [-> | [-> | [-> | ->]]];
      try congruence; vm_compute; reflexivity.
  - pose proof (data_off_ge bits (wf_depth _ _ _ _ W)). enough (0 < stride w bits) by nia.
    pose proof (row_fit w bits 0 (wf_depth _ _ _ _ W) ltac:(lia)). unfold pbytes in *.
    destruct (bits =? 24); lia.
Qed.
(** without it the round trip fails: a 24-bit bitmap without pixels *)
Theorem C10_empty_refuted : exists b, newBMP 0 7 24 = Ok b /\ wf b 0 7 24 /\
  forall name W, fst (loadBMP name (snd (saveBMP name (Some b) W))) = Ok (Some []).
Proof.
  eexists. split; [vm_compute; reflexivity|]. split; [concrete_wf|].
  intros name W. unfold loadBMP, checklink, saveBMP. cbn [snd files].
  unfold fbind, readall. cbn [files]. rewrite fput_same. vm_compute; reflexivity.
Qed.
Example C10_ex : fst (loadBMP "a.bmp" (snd (saveBMP "a.bmp" (Some (sample 5 3 4)) (mkw nofiles []))))
  = Ok (Some (sample 5 3 4)).
Proof. vm_compute; reflexivity. Qed.
Print Assumptions C10_save_load.
Print Assumptions C10_condition.
Print Assumptions C10_empty_refuted.

(** * C11 *)
Theorem C11_loadBMP : forall name W,
  match files W name with
  | None => loadBMP name W = (Ok None, mkw (files W) (con W ++ [Mfilenotexist]))
  | Some d =>
      let declared := le_field d 2 8 in
      ((getz d 0 = 66 /\ getz d 1 = 77) /\ 54 < declared < 2 ^ 63 ->
          loadBMP name W = (Ok (Some (firstn (Z.to_nat declared) d)), W)) /\
      ((getz d 0 = 66 /\ getz d 1 = 77) /\ 2 ^ 63 <= declared -> loadBMP name W = (Err OverflowError, W)) /\
      (~ (getz d 0 = 66 /\ getz d 1 = 77) \/ declared <= 54 ->
          loadBMP name W = (Ok (Some []), mkw (files W) (con W ++ [MnotBMP])))
  end.
Proof.
  intros name W. destruct (files W name) as [d|] eqn:E; [|now apply loadBMP_missing].
  cbv zeta. split; [|split].
  - intros (H1 & H2). rewrite (loadBMP_good _ _ _ E H1) by lia. rewrite (proj2 (Z.ltb_lt _ _)) by lia. reflexivity.
  - intros (H1 & H2). rewrite (loadBMP_good _ _ _ E H1) by lia. rewrite (proj2 (Z.ltb_ge _ _)) by lia. reflexivity.
  - intros H. apply (loadBMP_bad _ _ _ E). unfold has_sig. lia.
Qed.
Theorem C11_no_file_changed : forall name W, files (snd (loadBMP name W)) = files W.
Proof. exact loadBMP_files. Qed.
(** a file with junk behind the declared end loads without the junk *)
Example C11_ex : fst (loadBMP "a.bmp" (mkw (fput nofiles "a.bmp" (sample 5 3 4 ++ [1; 2; 3])) []))
  = Ok (Some (sample 5 3 4)).
Proof. vm_compute; reflexivity. Qed.
Print Assumptions C11_loadBMP.
Print Assumptions C11_no_file_changed.

(** * C36: two-file operations around an arbitrary transform *)
Definition reported_missing (W : world) : res (option unit) * world :=
  (Ok None, mkw (files W) (con W ++ [Mfilenotexist])).

Theorem C36_source_missing : forall (A : Type) src dst (f : M A) g W, files W src = None ->
  usebyreffnsv src dst f W = reported_missing W /\ use24btbyreffnsv src dst f W = reported_missing W /\
  usefnsv src dst g W = reported_missing W /\ usefn2regsv src dst g W = reported_missing W /\
  use24btfnwithparnsv src dst g W = reported_missing W.
Proof.
  intros A src dst f g W H. repeat split;
    [apply usebyref_missing|apply use24_missing|apply usefnsv_missing|apply usefn2regsv_missing
    |apply use24par_missing]; auto.
Qed.
(** in-place transform of a well-formed source *)
Theorem C36_in_place : forall (A : Type) src dst (f : M A) W b w h bits,
  files W src = Some b -> wf b w h bits -> 54 < zlen b ->
  let r := usebyreffnsv src dst f W in
  match f (mkst b (con W)) with
  | (Ok _, s) => fst r = Ok (Some tt) /\ files (snd r) dst = Some (mem s) /\
                 (forall n, n <> dst -> files (snd r) n = files W n)
  | (Err e, s) => fst r = Err e /\ files (snd r) = files W
  end.
Proof.
  intros A src dst f W b w h bits H Wf Hl r. unfold r.
  assert (L : loadBMP src W = (Ok (Some b), mkw (files W) (con W))).
  { rewrite (loadBMP_wf _ _ _ _ _ _ H Wf Hl). destruct W; reflexivity. }
  rewrite (usebyref_run src dst f W b b (con W) H L).
  destruct (f (mkst b (con W))) as [[a|e] s]; cbn [fst snd files]; auto.
  split; auto. split; [apply fput_same|]. intros n N. now apply fput_other.
Qed.
Theorem C36_in_place_24bit : forall (A : Type) src dst (f : M A) W b w h bits,
  files W src = Some b -> wf b w h bits -> 54 < zlen b ->
  let r := use24btbyreffnsv src dst f W in
  if bits =? 24 then
  match f (mkst b (con W)) with
  | (Ok _, s) => fst r = Ok (Some tt) /\ files (snd r) dst = Some (mem s) /\
                 (forall n, n <> dst -> files (snd r) n = files W n)
  | (Err e, s) => fst r = Err e /\ files (snd r) = files W
  end
  else r = (Ok (Some tt), mkw (files W) (con W ++ [Mnot24bit])).
Proof.
  intros A src dst f W b w h bits H Wf Hl r. unfold r.
  assert (L : loadBMP src W = (Ok (Some b), mkw (files W) (con W))).
  { rewrite (loadBMP_wf _ _ _ _ _ _ H Wf Hl). destruct W; reflexivity. }
  rewrite (use24_run src dst f W b b (con W) bits H L (wf_rbits _ _ _ _ Wf)).
  destruct (bits =? 24); auto.
  destruct (f (mkst b (con W))) as [[a|e] s]; cbn [fst snd files]; auto.
  split; auto. split; [apply fput_same|]. intros n N. now apply fput_other.
Qed.
(** transform that returns a new bitmap.  The region wrapper leaves everything
    alone when the transform returns None ... *)
Theorem C36_new_bitmap_region : forall src dst (f : M (option (list Z))) W b w h bits,
  files W src = Some b -> wf b w h bits -> 54 < zlen b ->
  let r := usefn2regsv src dst f W in
  match f (mkst b (con W)) with
  | (Ok (Some b'), s) => fst r = Ok (Some tt) /\ files (snd r) dst = Some b' /\
                 (forall n, n <> dst -> files (snd r) n = files W n)
  | (Ok None, s) => fst r = Ok (Some tt) /\ files (snd r) = files W
  | (Err e, s) => fst r = Err e /\ files (snd r) = files W
  end.
Proof.
  intros src dst f W b w h bits H Wf Hl r. unfold r.
  assert (L : loadBMP src W = (Ok (Some b), mkw (files W) (con W))).
  { rewrite (loadBMP_wf _ _ _ _ _ _ H Wf Hl). destruct W; reflexivity. }
  rewrite (usefn2regsv_run src dst f W b b (con W) H L).
  destruct (f (mkst b (con W))) as [[[a|]|e] s]; cbn [fst snd files]; auto.
  split; auto. split; [apply fput_same|]. intros n N. now apply fput_other.
Qed.
(** ... but the plain one then empties the destination and raises TypeError *)
Theorem C36_new_bitmap : forall src dst (f : M (option (list Z))) W b w h bits,
  files W src = Some b -> wf b w h bits -> 54 < zlen b ->
  let r := usefnsv src dst f W in
  match f (mkst b (con W)) with
  | (Ok (Some b'), s) => fst r = Ok (Some tt) /\ files (snd r) dst = Some b' /\
                 (forall n, n <> dst -> files (snd r) n = files W n)
  | (Ok None, s) => fst r = Err TypeError /\ files (snd r) dst = Some [] /\
                 (forall n, n <> dst -> files (snd r) n = files W n)
  | (Err e, s) => fst r = Err e /\ files (snd r) = files W
  end.
Proof.
  intros src dst f W b w h bits H Wf Hl r. unfold r.
  assert (L : loadBMP src W = (Ok (Some b), mkw (files W) (con W))).
  { rewrite (loadBMP_wf _ _ _ _ _ _ H Wf Hl). destruct W; reflexivity. }
  rewrite (usefnsv_run src dst f W b b (con W) H L).
  destruct (f (mkst b (con W))) as [[[a|]|e] s]; cbn [fst snd files]; auto;
  (split; auto; split; [apply fput_same|]; intros n N; now apply fput_other).
Qed.
(** for every content of the source, no other file than dst ever changes *)
Theorem C36_frame : forall (A : Type) src dst (f : M A) g W n, n <> dst ->
  files (snd (usebyreffnsv src dst f W)) n = files W n /\
  files (snd (use24btbyreffnsv src dst f W)) n = files W n /\
  files (snd (usefnsv src dst g W)) n = files W n /\
  files (snd (usefn2regsv src dst g W)) n = files W n /\
  files (snd (use24btfnwithparnsv src dst g W)) n = files W n.
Proof.
  intros A src dst f g W n N. destruct (files W src) as [d|] eqn:E.
  2:{ rewrite (usebyref_missing src dst f W E), (use24_missing src dst f W E), (usefnsv_missing src dst g W E),
      (usefn2regsv_missing src dst g W E), (use24par_missing src dst g W E). auto. }
  destruct (load_exists src W d E) as [(b & l & L)|L].
  - rewrite (usebyref_run src dst f W d b l E L), (usefnsv_run src dst g W d b l E L),
      (usefn2regsv_run src dst g W d b l E L).
    split; [destruct (f (mkst b l)) as [[a|e] s]; cbn; auto; now apply fput_other|].
    split.
    { destruct (py_get b bmpcolorbits) as [bits|e] eqn:B.
      - rewrite (use24_run src dst f W d b l bits E L B). destruct (bits =? 24); auto.
        destruct (f (mkst b l)) as [[a|e] s]; cbn; auto; now apply fput_other.
      - unfold use24btbyreffnsv, checklink. rewrite E. unfold fbind at 1 2. rewrite L.
        cbn [notNone]. unfold fbind, fret, flift. rewrite B. reflexivity. }
    split; [destruct (g (mkst b l)) as [[[a|]|e] s]; cbn; auto; now apply fput_other|].
    split; [destruct (g (mkst b l)) as [[[a|]|e] s]; cbn; auto; now apply fput_other|].
    destruct (py_get b bmpcolorbits) as [bits|e] eqn:B.
    + rewrite (use24par_run src dst g W d b l bits E L B). destruct (bits =? 24); auto.
      destruct (g (mkst b l)) as [[[a|]|e] s]; cbn; auto; now apply fput_other.
    + unfold use24btfnwithparnsv, checklink. rewrite E. unfold fbind at 1 2. rewrite L.
      cbn [notNone]. unfold fbind, fret, flift. rewrite B. reflexivity.
  - unfold usebyreffnsv, use24btbyreffnsv, usefnsv, usefn2regsv, use24btfnwithparnsv, checklink.
    rewrite E. unfold fbind. rewrite L. auto.
Qed.
Example C36_ex : let W := mkw (fput nofiles "a.bmp" (sample 5 3 4)) [] in
  let W' := snd (usebyreffnsv "a.bmp" "b.bmp" (plotxybit 0 0 7) W) in
  files W' "a.bmp"%string = Some (sample 5 3 4) /\
  files W' "b.bmp"%string = Some (after (plotxybit 0 0 7) (sample 5 3 4)).
Proof. vm_compute; auto. Qed.
Print Assumptions C36_source_missing.
Print Assumptions C36_in_place.
Print Assumptions C36_in_place_24bit.
Print Assumptions C36_new_bitmap_region.
Print Assumptions C36_new_bitmap.
Print Assumptions C36_frame.

(** * C38 *)
Theorem C38_imagediff : forall f1 f2 fd W a b w h bits,
  files W f1 = Some a -> files W f2 = Some b -> wf a w h bits -> wf b w h bits -> 54 < zlen a ->
  exists c W', imagediff f1 f2 fd W = (Ok (Some tt), W') /\ files W' fd = Some c /\
    (forall n, n <> fd -> files W' n = files W n) /\ wf c w h bits /\
    (forall i, 0 <= i < 2 ^ bits -> bits <> 24 -> pal_entry c i = pal_entry a i) /\
    (forall x y, inside w h x y ->
       pixel c w h bits x y = Z.lxor (pixel a w h bits x y) (pixel b w h bits x y) /\
       (pixel c w h bits x y = 0 <-> pixel a w h bits x y = pixel b w h bits x y) /\
       Z.lxor (pixel c w h bits x y) (pixel a w h bits x y) = pixel b w h bits x y).
Proof.
  intros f1 f2 fd W a b w h bits H1 H2 Wa Wb Hl.
  destruct (imagecomp_ok Z.lxor xorb f1 f2 fd W a b w h bits bitwise_xor H1 H2 Wa Wb Hl)
    as (c & l & E & (Wc & Hp & Hx)).
  exists c, (mkw (fput (files W) fd c) l). split; [exact E|]. split; [apply fput_same|].
  split; [intros n N; now apply fput_other|]. split; auto. split.
  - intros i Hi N. unfold pal_entry.
    assert (data_off bits = 54 + 4 * 2 ^ bits).
    { unfold data_off. now rewrite (proj2 (Z.eqb_neq bits 24)). }
    rewrite !Hp by lia. reflexivity.
  - intros x y Hin. rewrite (Hx x y Hin). split; auto. split.
    + apply Z.lxor_eq_0_iff.
    + rewrite Z.lxor_comm, <- Z.lxor_assoc, Z.lxor_nilpotent, Z.lxor_0_l. reflexivity.
Qed.
Theorem C38_symmetric : forall f1 f2 fd W a b w h bits,
  files W f1 = Some a -> files W f2 = Some b -> wf a w h bits -> wf b w h bits -> 54 < zlen a ->
  exists c c' W1 W2, imagediff f1 f2 fd W = (Ok (Some tt), W1) /\ imagediff f2 f1 fd W = (Ok (Some tt), W2) /\
    files W1 fd = Some c /\ files W2 fd = Some c' /\
    forall x y, inside w h x y -> pixel c w h bits x y = pixel c' w h bits x y.
Proof.
  intros f1 f2 fd W a b w h bits H1 H2 Wa Wb Hl.
  assert (Hl2 : 54 < zlen b) by (rewrite (wf_len _ _ _ _ Wb), <- (wf_len _ _ _ _ Wa); auto).
  destruct (C38_imagediff f1 f2 fd W a b w h bits H1 H2 Wa Wb Hl) as (c & W1 & E1 & F1 & _ & _ & _ & P1).
  destruct (C38_imagediff f2 f1 fd W b a w h bits H2 H1 Wb Wa Hl2) as (c' & W2 & E2 & F2 & _ & _ & _ & P2).
  exists c, c', W1, W2. repeat (split; auto). intros x y Hin.
  rewrite (proj1 (P1 x y Hin)), (proj1 (P2 x y Hin)). apply Z.lxor_comm.
Qed.
Theorem C38_showsimilar : forall f1 f2 fd W a b w h bits,
  files W f1 = Some a -> files W f2 = Some b -> wf a w h bits -> wf b w h bits -> 54 < zlen a ->
  exists c W', showsimilarparts f1 f2 fd W = (Ok (Some tt), W') /\ files W' fd = Some c /\
    (forall n, n <> fd -> files W' n = files W n) /\ wf c w h bits /\
    (forall x y, inside w h x y ->
       pixel c w h bits x y = Z.land (pixel a w h bits x y) (pixel b w h bits x y)).
Proof.
  intros f1 f2 fd W a b w h bits H1 H2 Wa Wb Hl.
  destruct (imagecomp_ok Z.land andb f1 f2 fd W a b w h bits bitwise_and H1 H2 Wa Wb Hl)
    as (c & l & E & (Wc & Hp & Hx)).
  exists c, (mkw (fput (files W) fd c) l). split; [exact E|]. split; [apply fput_same|].
  split; [intros n N; now apply fput_other|]. split; auto.
Qed.
Theorem C38_incomparable : forall func f1 f2 fd W a b wa ha ka wb hb kb,
  files W f1 = Some a -> files W f2 = Some b -> wf a wa ha ka -> wf b wb hb kb ->
  54 < zlen a -> 54 < zlen b -> (wa, ha, ka) <> (wb, hb, kb) ->
  imagecomp f1 f2 fd func W = (Ok (Some tt), mkw (files W) (con W ++ [Mcantcompare])).
Proof. exact imagecomp_differ. Qed.
Example C38_ex :
  let W := mkw (fput (fput nofiles "a" (sample 5 3 4)) "b" (after (plotxybit 3 1 2) (sample 5 3 4))) [] in
  let c := files (snd (imagediff "a" "b" "c" W)) "c"%string in
  match c with Some c => rows c 5 3 4 = [[0;0;0;0;0]; [0;0;0;1;0]; [0;0;0;0;0]] | None => False end.
Proof. vm_compute; reflexivity. Qed.
Print Assumptions C38_imagediff.
Print Assumptions C38_symmetric.
Print Assumptions C38_showsimilar.
Print Assumptions C38_incomparable.
