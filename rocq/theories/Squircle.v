(** Drawings of squircles.  Paths are relative to /repo/pythonbmp. *)
From Coq Require Import ZArith Reals List.
From Verif Require Import PyBase Bmp Shapes Sweeps.

(** BITMAPlib.py:3483-3510; the vertices are those of exact arithmetic *)
Definition squircle (x y r color : Z) : M unit := plotpoly (itersquircle x y r) color.
