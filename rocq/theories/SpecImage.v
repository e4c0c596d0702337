(** Independent specification of operations that average blocks of pixels.
    Nothing here refers to the code in /repo. *)
From Coq Require Import ZArith List.
From Verif Require Import PyBase Spec.
Import ListNotations.
Open Scope Z_scope.

Definition total (l : list Z) : Z := fold_right Z.add 0 l.
(** sum of f over the n x n square with the top left corner (x, y) *)
Definition square_sum (f : Z -> Z -> Z) (n x y : Z) : Z :=
  total (map (fun i => total (map (fun j => f (x + i) (y + j)) (range 0 n))) (range 0 n)).
(** The colour whose channels are the rounded means of the channels of a square of
    a 24-bit image; [rnd s] is the rounding of s / n^2. *)
Definition square_mean (rnd : Z -> Z) (b : list Z) (w h n x y : Z) : Z :=
  let ch (k : Z) := rnd (square_sum (fun u v => pixel b w h 24 u v / 256 ^ k mod 256) n x y) in
  rgb24 (ch 2, ch 1, ch 0).
