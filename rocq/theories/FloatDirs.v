(** Lengths, directions and angles of vectors of integers with the rounding of floats (IEEE binary64, round to nearest
    even), as in Floats.v.  Sums and products of integers are exact; a root or a quotient converts its integers.  [mac] and
    [mat] stand for the arccosine and arctangent of the C library.  Integers too large for a float, infinities and signs
    of zeros are left out.  Paths are relative to /repo/pythonbmp. *)
From Coq Require Import ZArith Reals List Bool.
From Verif Require Import PyBase Bmp Geometry Solids MathLib Coords Floats Floats3 FloatSweeps FloatTurns.
Import ListNotations.
Open Scope R_scope.

(** mathlib.py:179-191, 194-205 *)
Fixpoint zzip (f : Z -> Z -> Z) (u v : list Z) : list Z :=
  match u, v with i :: u, j :: v => f i j :: zzip f u v | _, _ => [] end.
(** mathlib.py:687-701 *)
Definition zdotprod (u v : list Z) : Z := fold_left Z.add (zzip Z.mul u v) 0%Z.
(** mathlib.py:704-714 *)
Definition fvmag (v : list Z) : R := fl (sqrt (fl (IZR (fold_left Z.add (map (fun i => i * i)%Z v) 0%Z)))).
(** mathlib.py:717-730 *)
Definition fdist (u v : list Z) : R := fvmag (zzip Z.sub u v).
(** mathlib.py:787-802 *)
Definition fcosaffin (u v : list Z) : res R := fdiv (fl (IZR (zdotprod u v))) (fl (fvmag u * fvmag v)).
(** mathlib.py:805-824 *)
Definition fdircos (v : list Z) : res (list R) := let mag := fvmag v in res_map (fun i => fdiv (fl (IZR i)) mag) v.
(** mathlib.py:827-841; acos raises ValueError outside -1..1 *)
Definition facos (mac : R -> R) (d : R) : res R := if rle (-1) d && rle d 1 then Ok (mac d) else Err ValueError.
Definition fdiracos mac (dcos : list R) : res (list R) := res_map (facos mac) dcos.
(** mathlib.py:861-890 *)
Definition frect2sphericalcoord3D (mat mac : R -> R) (v : Z * Z * Z) : res (R * R * R) :=
  let '(x, y, z) := v in
  let p := fvmag [x; y; z] in
  let! q := fquot y x in
  let! c := fdiv (fl (IZR z)) p in
  let! phi := facos mac c in
  Ok (p, mat q, phi).
(** mathlib.py:1004-1017 *)
Definition fpolarcoordangle2D mac (v : Z * Z) : res R :=
  let '(x, y) := v in
  let! c := fcosaffin [x; y] [0; -1]%Z in
  let! a := facos mac c in
  Ok (if (x <? 0)%Z then fl (fl (2 * fl PI) - a) else a).
(** mathlib.py:1020-1037 *)
Definition frect2polarcoord2Dwithcenter mac (vcen vpnt : Z * Z) : res (R * R) :=
  let v := (fst vpnt - fst vcen, snd vpnt - snd vcen)%Z in
  let! a := fpolarcoordangle2D mac v in
  Ok (fvmag [fst v; snd v], a).
(** primitives2D.py:598-630 *)
Definition farcpoint mac (c : Z * Z) (sa ea : R) (p : Z * Z) : res (list (Z * Z)) :=
  let tol := fl (3 / 100) in
  let! pc := frect2polarcoord2Dwithcenter mac c p in
  let a := snd pc in
  Ok (if rle sa a && rle a ea
      then p :: (if rlt (Rabs (fl (a - sa))) tol || rlt (Rabs (fl (a - ea))) tol then iterline c p else [])
      else []).
Definition farcvertangles mac (x y r : Z) (startdegangle enddegangle : R) : res (list (Z * Z)) :=
  let! pts := itercircle x y r in
  let! l := res_map (farcpoint mac (x, y) (fradians startdegangle) (fradians enddegangle)) pts in
  Ok (List.concat l).
