(** Means, deviations, slopes and correlations of integers with the rounding of floats (IEEE binary64,
    round to nearest even), as in Floats.v.  Paths are relative to /repo/pythonbmp. *)
From Coq Require Import ZArith Reals List Bool.
From Verif Require Import PyBase Bmp Geometry MathLib Solids Coords Floats.
Import ListNotations.
Open Scope R_scope.
Open Scope py_scope.

(** round(s * (1 / n ** 2)), bufresize.py:256-263 with mathlib.py:271: the [rnd] of Shrink.v *)
Definition fshrink (n s : Z) : Z := rround (fl (IZR s * fl (1 / IZR (n ^ 2)))).
(** a / b of integers *)
Definition fquot (a b : Z) : res R := if (b =? 0)%Z then Err ZeroDivisionError else Ok (fl (IZR a / IZR b)).
(** mathlib.py:275-285 *)
Definition fmean (v : list Z) : res R := fquot (py_sum v) (zlen v).
(** mathlib.py:318-331 *)
Definition fvariance (v : list Z) : res (list R) :=
  let! ave := fmean v in Ok (map (fun n => fl (fl (IZR n) - ave)) v).
(** mathlib.py:443-462 *)
Definition fLSMslope (XYdata : list (list Z)) : res R :=
  let! XY := pivotlist XYdata in
  let N := zlen XYdata in
  let! X := item XY 0 in
  let! Y := item XY 1 in
  let EX := py_sum X in
  let EY := py_sum Y in
  let EXY := py_sum (mulvect X Y) in
  let EsqX := py_sum (mulvect X X) in
  fquot (N * EXY - EX * EY) (N * EsqX - EX ^ 2).
(** mathlib.py:483-520; the root of an integer is that of the next float *)
Definition fPearsonsR (XYdata : list (list Z)) : res R :=
  let! XY := pivotlist XYdata in
  let N := zlen XYdata in
  let! X := item XY 0 in
  let! Y := item XY 1 in
  let EX := py_sum X in
  let EY := py_sum Y in
  let EXY := py_sum (mulvect X Y) in
  let EsqX := py_sum (mulvect X X) in
  let EsqY := py_sum (mulvect Y Y) in
  let root := fl (sqrt (fl (IZR (Z.abs (N * EsqX - EX ^ 2) * Z.abs (N * EsqY - EY ^ 2))))) in
  if req root 0 then Err ZeroDivisionError
  else Ok (fl (fl (IZR (N * EXY - EX * EY)) / root)).
