(** Specification of Fourier transforms over a ring. *)
From Coq Require Import List.
Import ListNotations.

Fixpoint rpow {R : Type} (one : R) (mul : R -> R -> R) (w : R) (n : nat) : R :=
  match n with O => one | S k => mul w (rpow one mul w k) end.
(** f 0 + ... + f (n - 1) *)
Fixpoint rsum {R : Type} (zero : R) (add : R -> R -> R) (f : nat -> R) (n : nat) : R :=
  match n with O => zero | S k => add (rsum zero add f k) (f k) end.
(** n * a *)
Definition times {R : Type} (zero : R) (add : R -> R -> R) (n : nat) (a : R) : R := rsum zero add (fun _ => a) n.
