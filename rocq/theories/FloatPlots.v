(** Points of scatter plots with the rounding of floats (IEEE binary64, round to nearest even), as in Floats.v.
    Paths are relative to /repo/pythonbmp. *)
From Coq Require Import ZArith Reals List Bool.
From Verif Require Import PyBase Bmp Draw Shapes Solids Exact Buffers Plots Coords Floats Floats3.
Import ListNotations.
Open Scope R_scope.
Open Scope py_scope.

(** BITMAPlib.py:7255-7256: x = xo + ((x - xvst) / xvstp) * xs, y = yo - ((y - yvst) / yvstp) * ys *)
Definition fplacex (o s : Z) (q : R) : R := fl (IZR o + fl (q * IZR s)).
Definition fplacey (o s : Z) (q : R) : R := fl (IZR o - fl (q * IZR s)).
(** BITMAPlib.py:7230-7261, for integers x and y *)
Definition fscreen (x y : Z) (a : axes) : M (R * R) :=
  qx <- lift (fquot (x - fst (ax_starts a)) (fst (ax_vsteps a))) ;;
  qy <- lift (fquot (y - snd (ax_starts a)) (snd (ax_vsteps a))) ;;
  let x := fplacex (fst (ax_origin a)) (fst (ax_steps a)) qx in
  let y := fplacey (snd (ax_origin a)) (snd (ax_steps a)) qy in
  if rlt (IZR (fst (ax_limits a))) x || rlt y (IZR (snd (ax_limits a))) then
    print Mregionoutofbounds ;;; ret (-1, -1)
  else ret (x, y).
(** the loop, BITMAPlib.py:7307-7315 with 3327-3347 and 1838-1857 *)
Definition fscatterpoint (a : axes) (v : list Z) : M unit :=
  r <- lift (item v 2) ;;
  x <- lift (item v 0) ;;
  y <- lift (item v 1) ;;
  w <- fscreen x y a ;;
  c <- lift (item v 3) ;;
  if (r >? 1)%Z then
    f <- lift (item v 4) ;; circle (rround (fst w)) (rround (snd w)) (setmax r 5) c (negb (f =? 0)%Z)
  else plotxybit (rround (fst w)) (rround (snd w)) c.
(** BITMAPlib.py:7264-7332 without the line *)
Definition fXYscatter (XYdata : list (list Z)) (a : axes) : M unit := forM XYdata (fscatterpoint a).
