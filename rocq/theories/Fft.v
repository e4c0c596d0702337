(** Discrete Fourier transforms, mathlib.py.  The numbers are elements of an arbitrary
    commutative ring instead of complex floats: rounding is not modelled. *)
From Coq Require Import List PeanoNat.
Import ListNotations.

(** v[::2] and v[1::2] *)
Fixpoint evens {A} (v : list A) : list A :=
  match v with a :: _ :: t => a :: evens t | _ => v end.
Definition odds {A} (v : list A) : list A := match v with [] => [] | _ :: t => evens t end.
(** v[i] = a *)
Fixpoint put {A} (v : list A) (i : nat) (a : A) : list A :=
  match v, i with
  | [], _ => []
  | _ :: t, O => a :: t
  | b :: t, S j => b :: put t j a
  end.

(** mathlib.py:1491-1517.  [fn m n] stands for fn(tau * m / n); the list is changed in
    place, here it is returned (the recursive calls work on copies; the argument tmp is
    not used).  [fuel] bounds the depth of the recursion; the length of v is enough. *)
Fixpoint applyfft {R : Type} (zero : R) (add sub mul : R -> R -> R) (fn : nat -> nat -> R) (fuel : nat) (v : list R) : list R :=
  match fuel with
  | O => v
  | S fuel' =>
      let n := length v in
      if 1 <? n then
        let l := Nat.div2 n in
        let ve := applyfft zero add sub mul fn fuel' (evens v) in
        let vo := applyfft zero add sub mul fn fuel' (odds v) in
        fold_left (fun v m =>
            let w := mul (fn m n) (nth m vo zero) in
            let vm := nth m ve zero in
            put (put v m (add vm w)) (m + l) (sub vm w)) (seq 0 l) v
      else v
  end.
(** mathlib.py:1520-1535 and 1538-1553; fn is exp(-i a) in the one and exp(i a) in the
    other *)
Definition fft {R : Type} (zero : R) (add sub mul : R -> R -> R) (fftfn : nat -> nat -> R) (v : list R) : list R :=
  applyfft zero add sub mul fftfn (length v) v.
Definition ifft {R : Type} (zero : R) (add sub mul : R -> R -> R) (ifftfn : nat -> nat -> R) (v : list R) : list R :=
  applyfft zero add sub mul ifftfn (length v) v.
