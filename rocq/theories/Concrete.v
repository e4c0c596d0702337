(** Concrete bitmaps for the examples that show hypotheses are satisfiable
    and for counterexamples: a decidable form of [wf] and a few images. *)
From Coq Require Import ZArith List Bool Lia.
From Verif Require Import PyBase PyFacts Spec Bmp.
Import ListNotations.
Open Scope Z_scope.

Definition wfb (b : list Z) (w h bits : Z) : bool :=
  ((bits =? 1) || (bits =? 4) || (bits =? 8) || (bits =? 24)) &&
  ((0 <=? w) && (w <? 2 ^ 24)) && ((0 <=? h) && (h <? 2 ^ 24)) &&
  forallb is_byte b && (zlen b =? data_off bits + h * stride w bits) &&
  ((getz b 0 =? 66) && (getz b 1 =? 77)) && (le_field b 2 8 =? zlen b) &&
  (le_field b 10 4 =? data_off bits) && (le_field b 18 4 =? w) &&
  (le_field b 22 4 =? h) && (le_field b 28 2 =? bits).

Lemma wfb_sound b w h bits : wfb b w h bits = true -> wf b w h bits.
Proof.
  unfold wfb. rewrite !andb_true_iff, !orb_true_iff, !Z.leb_le, !Z.ltb_lt, !Z.eqb_eq.
  intros ((((((((((Hd & Hw) & Hh) & Hb) & Hl) & Hs) & Hf) & Ho) & Hx) & Hy) & Hp).
  constructor; auto.
  - unfold valid_depth. tauto.
  - apply Forall_forall. intros v Hv. rewrite forallb_forall in Hb. now apply is_byte_iff, Hb.
Qed.

Definition get_ok {A} (r : res A) (d : A) : A := match r with Ok a => a | Err _ => d end.
(** final array of a run *)
Definition after {A} (m : M A) (b : list Z) : list Z := mem (snd (run m b)).
Definition outcome {A} (m : M A) (b : list Z) : res A := fst (run m b).
Definition blank (w h bits : Z) : list Z := get_ok (newBMP w h bits) [].

(** a w x h bitmap whose pixel (x,y) is (7x + 13y + 1) mod 2^bits *)
Definition sample (w h bits : Z) : list Z :=
  after (forM (range 0 h) (fun y => forM (range 0 w) (fun x =>
           plotxybit x y ((7 * x + 13 * y + 1) mod 2 ^ bits)))) (blank w h bits).
(** the same, 24 bit with three different channels *)
Definition sample24 (w h : Z) : list Z :=
  after (forM (range 0 h) (fun y => forM (range 0 w) (fun x =>
           plotxybit x y ((7 * x + 13 * y + 1) mod 256 + 256 * ((5 * x + 3 * y) mod 256)
                          + 65536 * ((200 + x + 11 * y) mod 256))))) (blank w h 24).
(** pixels as a list of rows, for readable examples *)
Definition rows (b : list Z) (w h bits : Z) : list (list Z) :=
  map (fun y => map (fun x => pixel b w h bits x y) (range 0 w)) (range 0 h).

Ltac concrete_wf := apply wfb_sound; vm_compute; reflexivity.

Lemma sample24_wf : wf (sample24 5 3) 5 3 24. Proof. concrete_wf. Qed.
Lemma sample8_wf : wf (sample 5 3 8) 5 3 8. Proof. concrete_wf. Qed.
Lemma sample4_wf : wf (sample 5 3 4) 5 3 4. Proof. concrete_wf. Qed.
Lemma sample1_wf : wf (sample 11 3 1) 11 3 1. Proof. concrete_wf. Qed.
