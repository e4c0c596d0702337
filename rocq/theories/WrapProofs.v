(** File-to-file functions (proofs). *)
From Coq Require Import ZArith List Bool Lia String.
From Verif Require Import PyBase PyFacts Spec Bmp BmpFacts HeaderProofs PalProofs PixelProofs Files FileProofs Wrappers.
Import ListNotations.
Open Scope Z_scope.
Open Scope py_scope.

(** the file [name] now holds [c], the others what they held *)
Definition only_file (W W' : world) (name : string) (c : list Z) : Prop :=
  files W' name = Some c /\ forall n, n <> name -> files W' n = files W n.

Lemma only_fput W name c l : only_file W (mkw (fput (files W) name c) l) name c.
Proof. split; [apply fput_same|]. intros n N. now apply fput_other. Qed.

Section Wrap.
  Context (src dst : string) (W : world) (b : list Z) (w h bits : Z).
  Hypothesis (Hf : files W src = Some b) (Wb : wf b w h bits) (Hl : 54 < zlen b).
  Let W1 := mkw (files W) (con W ++ [Mtext]).

  Lemma wload : loadBMP src W1 = (Ok (Some b), mkw (files W1) (con W ++ [Mtext])).
  Proof. exact (loadBMP_wf src W1 b w h bits Hf Wb Hl). Qed.
  Lemma timer_run {A} (f : F A) : functimer f W = match f W1 with
    | (Ok _, V) => (Ok tt, mkw (files V) (con V ++ [Mdone])) | (Err e, V) => (Err e, V) end.
  Proof. unfold functimer, fbind, fprint. fold W1. destruct (f W1) as [[a|e] V]; reflexivity. Qed.

  Lemma by_ref {A} (m : M A) a b' o' : m (mkst b (con W ++ [Mtext])) = (Ok a, mkst b' o') ->
    exists W', functimer (usebyreffnsv src dst m) W = (Ok tt, W') /\ only_file W W' dst b' /\ con W' = o' ++ [Msaved; Mdone].
  Proof.
    intros E. rewrite timer_run, (usebyref_run src dst m W1 b b _ Hf wload), E. eexists. split; [reflexivity|].
    split; [exact (only_fput W _ _ _)|]. cbn [con]. now rewrite <- app_assoc.
  Qed.
  Lemma by_ref_err {A} (m : M A) e b' o' : m (mkst b (con W ++ [Mtext])) = (Err e, mkst b' o') ->
    functimer (usebyreffnsv src dst m) W = (Err e, mkw (files W) o').
  Proof. intros E. rewrite timer_run, (usebyref_run src dst m W1 b b _ Hf wload), E. reflexivity. Qed.

  Lemma by_ref24 {A} (m : M A) a b' o' : bits = 24 -> m (mkst b (con W ++ [Mtext])) = (Ok a, mkst b' o') ->
    exists W', functimer (use24btbyreffnsv src dst m) W = (Ok tt, W') /\ only_file W W' dst b' /\ con W' = o' ++ [Msaved; Mdone].
  Proof.
    intros Hb E. rewrite timer_run, (use24_run src dst m W1 b b _ bits Hf wload (wf_rbits _ _ _ _ Wb)).
    rewrite (proj2 (Z.eqb_eq bits 24)) by auto. rewrite E. eexists. split; [reflexivity|].
    split; [exact (only_fput W _ _ _)|]. cbn [con]. now rewrite <- app_assoc.
  Qed.
  Lemma by_ref24_other {A} (m : M A) : bits <> 24 ->
    functimer (use24btbyreffnsv src dst m) W = (Ok tt, mkw (files W) (con W ++ [Mtext; Mnot24bit; Mdone])).
  Proof.
    intros Hb. rewrite timer_run, (use24_run src dst m W1 b b _ bits Hf wload (wf_rbits _ _ _ _ Wb)).
    rewrite (proj2 (Z.eqb_neq bits 24)) by auto. cbn [files con]. now rewrite <- !app_assoc.
  Qed.
  Lemma by_ref24_err {A} (m : M A) e b' o' : bits = 24 -> m (mkst b (con W ++ [Mtext])) = (Err e, mkst b' o') ->
    functimer (use24btbyreffnsv src dst m) W = (Err e, mkw (files W) o').
  Proof.
    intros Hb E. rewrite timer_run, (use24_run src dst m W1 b b _ bits Hf wload (wf_rbits _ _ _ _ Wb)).
    rewrite (proj2 (Z.eqb_eq bits 24)) by auto. rewrite E. reflexivity.
  Qed.

  Lemma by_fn m nb b' o' : m (mkst b (con W ++ [Mtext])) = (Ok (Some nb), mkst b' o') ->
    exists W', functimer (usefnsv src dst m) W = (Ok tt, W') /\ only_file W W' dst nb /\ con W' = o' ++ [Msaved; Mdone].
  Proof.
    intros E. rewrite timer_run, (usefnsv_run src dst m W1 b b _ Hf wload), E. eexists. split; [reflexivity|].
    split; [exact (only_fput W _ _ _)|]. cbn [con]. now rewrite <- app_assoc.
  Qed.
  Lemma by_fn_none m b' o' : m (mkst b (con W ++ [Mtext])) = (Ok None, mkst b' o') ->
    exists W', functimer (usefnsv src dst m) W = (Err TypeError, W') /\ only_file W W' dst [] /\ con W' = o'.
  Proof.
    intros E. rewrite timer_run, (usefnsv_run src dst m W1 b b _ Hf wload), E. eexists. split; [reflexivity|].
    split; [exact (only_fput W _ _ _)|]. reflexivity.
  Qed.
  Lemma by_par24 m nb b' o' : bits = 24 -> m (mkst b (con W ++ [Mtext])) = (Ok (Some nb), mkst b' o') ->
    exists W', functimer (use24btfnwithparnsv src dst m) W = (Ok tt, W') /\ only_file W W' dst nb /\ con W' = o' ++ [Msaved; Mdone].
  Proof.
    intros Hb E. rewrite timer_run, (use24par_run src dst m W1 b b _ bits Hf wload (wf_rbits _ _ _ _ Wb)).
    rewrite (proj2 (Z.eqb_eq bits 24)) by auto. rewrite E. eexists. split; [reflexivity|].
    split; [exact (only_fput W _ _ _)|]. cbn [con]. now rewrite <- app_assoc.
  Qed.
  Lemma by_par24_other m : bits <> 24 ->
    functimer (use24btfnwithparnsv src dst m) W = (Ok tt, mkw (files W) (con W ++ [Mtext; Mnot24bit; Mdone])).
  Proof.
    intros Hb. rewrite timer_run, (use24par_run src dst m W1 b b _ bits Hf wload (wf_rbits _ _ _ _ Wb)).
    rewrite (proj2 (Z.eqb_neq bits 24)) by auto. cbn [files con]. now rewrite <- !app_assoc.
  Qed.
End Wrap.

Lemma wrap_missing (src dst : string) W (f : F (option unit)) : files W src = None ->
  (forall V, files V src = None -> f V = missing_result V) ->
  functimer f W = (Ok tt, mkw (files W) (con W ++ [Mtext; Mfilenotexist; Mdone])).
Proof.
  intros H Hf. unfold functimer, fbind, fprint. rewrite Hf by exact H. unfold missing_result. cbn [files con]. now rewrite <- !app_assoc.
Qed.

(** ** palettes *)
Lemma setpal_run b w h bits o (f : Z * Z * Z -> Z * Z * Z) : wf b w h bits -> bits <> 24 ->
  (forall c, byte3 c -> byte3 (f c)) ->
  exists b', (p <- rd getallRGBpal ;; setbmppal (map f p)) (mkst b o) = (Ok tt, mkst b' o) /\ wf b' w h bits /\
    (forall i, 0 <= i < 2 ^ bits -> pal_entry b' i = f (pal_entry b i)) /\
    (forall i, i < 54 \/ data_off bits <= i -> getz b' i = getz b i) /\
    (forall x y, inside w h x y -> pixel b' w h bits x y = pixel b w h bits x y).
Proof.
  intros W N Hf. rewrite (bind_ok _ _ _ _ _ (run_rd _ _ _ _ (getallRGBpal_ok b w h bits W N))).
  set (p := map f _). pose proof (wf_depth _ _ _ _ W) as Hd.
  assert (L : zlen p = 2 ^ bits).
  { unfold p. rewrite !zlen_map, zlen_range. assert (0 < 2 ^ bits) by (apply Z.pow_pos_nonneg; [lia|destruct Hd as [-> | [-> | [-> | ->]]]; lia]). lia. }
  assert (B : Forall byte3 p).
  { unfold p. apply Forall_forall. intros c Hc. apply in_map_iff in Hc. destruct Hc as (e & <- & He). apply Hf.
    apply in_map_iff in He. destruct He as (i & <- & Hi). apply in_range in Hi.
    unfold pal_entry, byte3, byte. repeat split; eapply wf_byte; eauto. }
  destruct (setbmppal_ok b w h bits o p W N L B) as (b' & E & W' & G & H & P & _). exists b'.
  split; [exact E|]. split; [exact W'|]. split; [|split; [intros i Hi; apply H; tauto|exact P]].
  intros i Hi. rewrite (getallRGBpal_ok b' w h bits W' N) in G. inversion G as [G']. unfold p in G'. rewrite map_map in G'.
  assert (Hin : In i (range 0 (2 ^ bits))) by (apply in_range; exact Hi).
  exact (ext_in_map G' i Hin).
Qed.
