(** Shading of the faces of solids with the rounding of floats; [sm] stands for the sum of a list of floats by the
    interpreter, which is plain before Python 3.12 and compensated from there on.
    Paths are relative to /repo/pythonbmp. *)
From Coq Require Import ZArith Reals List Bool.
From Verif Require Import PyBase Bmp Region Geometry Draw Shapes Edges Solids Coords Floats Floats2 FloatSweeps.
Import ListNotations.
Open Scope Z_scope.
Open Scope py_scope.

(** sum(l) for a list of floats before Python 3.12 *)
Definition plainsum (l : list R) : R := fold_left (fun s x => fl (s + x)%R) l 0%R.
(** one step of the compensated sum of floats from Python 3.12 on *)
Definition compstep (sc : R * R) (x : R) : R * R :=
  let (s, c) := sc in
  let t := fl (s + x)%R in
  (t, fl (c + (if rle (Rabs x) (Rabs s) then fl (fl (s - t) + x) else fl (fl (x - t) + s)))%R).
(** sum(l) for a list of floats from Python 3.12 on *)
Definition compsum (l : list R) : R := let (s, c) := fold_left compstep l (0, 0)%R in fl (s + c)%R.
(** mathlib.py:704-715 for floats; the same for integers whose squares sum to no more than 2^53 *)
Definition fmag sm (v : list R) : R := fl (sqrt (sm (map (fun i => fl (i * i)%R) v))).
(** mathlib.py:686-701 with mulvect for floats *)
Definition fdot sm (a b : list R) : R := sm (map (fun p => fl (fst p * snd p)%R) (combine a b)).
(** mathlib.py:787-803 for floats *)
Definition fcosine sm (a b : list R) : res R := fdiv (fdot sm a b) (fl (fmag sm a * fmag sm b)%R).
(** BITMAPlib.py:6880-6886: the luminosity of a face with the normal n *)
Definition flum sm (n : R * R * R) : res Z :=
  let '(x, y, z) := n in
  if req x 0 && req y 0 && req z 0 then Ok 127
  else let! c := fcosine sm [x; y; z] [0; 0; 1]%R in Ok (rtrunc (fl (c * 128)%R) + 127).
(** colors.py:90-115: the colour for a luminosity *)
Definition fmixed (lum : Z) (f : rfactor3) : Z := let '(r, g, b) := fcolormix lum f in RGB2int r g b.
(** BITMAPlib.py:6857-6891 *)
Definition fplotpolyfillist sm (f : rfactor3) (polylist : list (list (Z * Z))) (normlist : list (R * R * R)) : M unit :=
  forM (combine (range 0 (zlen polylist)) polylist) (fun ip =>
    n <- lift (item normlist (fst ip)) ;;
    lum <- lift (flum sm n) ;;
    c <- depthcolor (fmixed lum f) ;;
    plotpolyfill (snd ip) c).
(** BITMAPlib.py:6894-6925 *)
Definition fplot3d sm (f : rfactor3) (sides : list (list (Z * Z)) * list (R * R * R)) (issolid showoutline : bool) (outlinecolor : Z) : M unit :=
  (if issolid then fplotpolyfillist sm f (fst sides) (snd sides) else ret tt) ;;;
  (if showoutline then plotpolylist (fst sides) outlinecolor else ret tt).
