(** Points of iterated functions, over the real numbers in place of floats. *)
From Coq Require Import ZArith Reals Lra Lia List Bool.
From Verif Require Import PyBase Bmp Region Geometry Fractal Coords Sweeps.
Import ListNotations.
Open Scope py_scope.
Open Scope R_scope.

(** (a, b, c, d, e, f) is the map (x, y) -> (a x + b y + e, c x + d y + f) *)
Definition affine : Type := R * R * R * R * R * R.
(** four maps and the first three of the bounds of the random number *)
Definition ifsparam : Type := (affine * affine * affine * affine) * (R * R * R).
(** fractals.py:54-74 *)
Definition fernparam : ifsparam :=
  (((0, 0, 0, 16 / 100, 0, 0), (2 / 10, - (26 / 100), 23 / 100, 22 / 100, 0, 16 / 10),
    (- (15 / 100), 28 / 100, 26 / 100, 24 / 100, 0, 44 / 100), (85 / 100, 4 / 100, - (4 / 100), 85 / 100, 0, 16 / 10)),
   (9 / 1000, 73 / 1000, 137 / 1000)).
Definition treeparam : ifsparam :=
  (((0, 2 / 10, 0, 5 / 10, 0, 0), (1 / 10, 0, 0, 1 / 10, 0, 2 / 10),
    (42 / 100, - (42 / 100), 42 / 100, 42 / 100, 0, 2 / 10), (42 / 100, 42 / 100, - (42 / 100), 42 / 100, 0, 2 / 10)),
   (5 / 100, 2 / 10, 6 / 10)).
Definition cantortreeparam : ifsparam :=
  (((1 / 3, 0, 0, 1 / 3, 0, 0), (1 / 3, 0, 0, 1 / 3, 1, 0), (2 / 3, 0, 0, 2 / 3, 5 / 10, 5 / 10), (0, 0, 0, 0, 0, 0)), (1 / 3, 2 / 3, 1)).
Definition sierpinskitriangleparam : ifsparam :=
  (((5 / 10, 0, 0, 5 / 10, 0, 0), (5 / 10, 0, 0, 5 / 10, 1, 0), (5 / 10, 0, 0, 5 / 10, 5 / 10, 5 / 10), (0, 0, 0, 0, 0, 0)), (1 / 3, 2 / 3, 1)).
(** fractals.py:136-145: one pass of the loop with the random number j *)
Definition ifsstep (t : ifsparam) (j : R) (z : R * R) : R * R :=
  let '((m0, m1, m2, m3), (p0, p1, p2)) := t in
  let '(a, b, c, d, e, f) := if rlt j p0 then m0 else if rlt j p1 then m1 else if rlt j p2 then m2 else m3 in
  let '(x, y) := z in
  (a * x + b * y + e, c * x + d * y + f).
(** the points (x, y) of the loop; js are the results of random() *)
Fixpoint ifsorbit (t : ifsparam) (z : R * R) (js : list R) : list (R * R) :=
  match js with [] => [] | j :: js => let z := ifsstep t j z in z :: ifsorbit t z js end.
(** fractals.py:107-147: the points (px, py); the test of line 148 is in Fractal.IFS.  The parameters are those of
    four maps, as in getIFSparams, and js are the maxiter results of random() *)
Definition ifspoints (t : ifsparam) (x1 y1 x2 y2 xscale yscale xoffset yoffset : Z) (js : list R) : list (Z * Z) :=
  let '(x1, y1, x2, y2) := sortrecpoints x1 y1 x2 y2 in
  let dy := (y2 - y1)%Z in
  map (fun z => (rtrunc (fst z * IZR xscale + IZR xoffset + IZR x1), rtrunc (IZR dy - snd z * IZR yscale + IZR yoffset + IZR y1)))
      (ifsorbit t (IZR x1, IZR y1) js).
(** BITMAPlib.py:10641-10671 *)
Definition drawIFS (t : ifsparam) (x1 y1 x2 y2 xscale yscale xoffset yoffset color : Z) (js : list R) : M unit :=
  IFS (ifspoints t x1 y1 x2 y2 xscale yscale xoffset yoffset js) x1 y1 x2 y2 color.
(** BITMAPlib.py:13128-13150 *)
Definition drawfern (x1 y1 x2 y2 color : Z) (js : list R) : M (option unit) :=
  let y := (Z.abs (y2 - y1) / 10)%Z in
  fern (ifspoints fernparam x1 y1 x2 y2 y y (Z.abs (x2 - x1) / 2) 0 js) x1 y1 x2 y2 color.
