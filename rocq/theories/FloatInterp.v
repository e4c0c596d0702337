(** mathlib.py: interpolation with the rounding of floats (IEEE binary64, round to nearest even), as in Floats.v
    ([flerp]).  Signs of zeros, infinities and not-a-numbers are left out.  Paths are relative to /repo/pythonbmp. *)
From Coq Require Import ZArith Reals List Bool.
From Verif Require Import PyBase Bmp Coords Floats.
Open Scope R_scope.

(** mathlib.py:1693-1714 *)
Definition finvlerp (a b v : R) : R :=
  let d := fl (b - a) in if negb (req d 0) then fl (fl (v - a) / d) else 1.
(** mathlib.py:1740-1763 *)
Definition fsmoothstep (a b v : R) : R :=
  let v := finvlerp a b v in
  fl (fl (v * v) * fl (3 - fl (2 * v))).
(** mathlib.py:1766-1789 *)
Definition fsmootherstep (a b v : R) : R :=
  let v := finvlerp a b v in
  fl (fl (fl (v * v) * v) * fl (fl (v * fl (fl (v * 6) - 15)) + 10)).
(** mathlib.py:1792-1815 *)
Definition fsmootheststep (a b v : R) : R :=
  let v := finvlerp a b v in
  fl (fl (fl (fl (v * v) * v) * v) * fl (fl (v * fl (fl (v * fl (fl (-20 * v) + 70)) - 84)) + 35)).
(** mathlib.py:1834-1894 *)
Definition fsmoothsteplerp (a b f : R) : R := flerp a b (fsmoothstep a b (flerp a b f)).
Definition fsmoothersteplerp (a b f : R) : R := flerp a b (fsmootherstep a b (flerp a b f)).
Definition fsmootheststeplerp (a b f : R) : R := flerp a b (fsmootheststep a b (flerp a b f)).
