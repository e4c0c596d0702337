(** mathlib.py and primitives2D.py: coordinates, angles, rotations, regular polygons and
    arrowheads.  Numbers are real numbers in place of floats.  Paths are relative to
    /repo/pythonbmp. *)
From Coq Require Import ZArith Reals List Bool.
From Verif Require Import PyBase Bmp Geometry Shapes Solids Exact MathLib.
Import ListNotations.
Open Scope Z_scope.
Open Scope py_scope.

(** Python's comparisons, division, round (to the nearest integer, the even one of two) and
    int (towards 0) *)
Definition rlt (x y : R) : bool := if Rlt_dec x y then true else false.
Definition rle (x y : R) : bool := if Rle_dec x y then true else false.
Definition req (x y : R) : bool := if Req_EM_T x y then true else false.
Definition rdiv (x y : R) : res R := if req y 0 then Err ZeroDivisionError else Ok (x / y)%R.
Definition rround (x : R) : Z :=
  let n := Int_part x in
  let d := (x - IZR n)%R in
  if rlt d (1 / 2) then n else if rlt (1 / 2) d then n + 1 else if Z.even n then n else n + 1.
Definition rtrunc (x : R) : Z := if rlt x 0 then - Int_part (- x) else Int_part x.
(** math.radians and math.degrees *)
Definition radians (d : R) : R := (d * PI / 180)%R.
Definition degrees (a : R) : R := (a * 180 / PI)%R.

(** mathlib.py:179-191, 194-205, 687-701, 704-714, 717-730, 234-251 *)
Fixpoint rzip (f : R -> R -> R) (u v : list R) : list R :=
  match u, v with i :: s, j :: t => f i j :: rzip f s t | _, _ => [] end.
Definition rsubvect := rzip Rminus.
Definition rmulvect := rzip Rmult.
Definition rsum (l : list R) : R := fold_left Rplus l 0%R.
Definition dotprod (u v : list R) : R := rsum (rmulvect u v).
Definition vmag (v : list R) : R := sqrt (rsum (map (fun i => (i * i)%R) v)).
Definition dist (u v : list R) : R := vmag (rsubvect u v).
Definition scalardivvect (v : list R) (s : R) : res (list R) := res_map (fun i => rdiv i s) v.
(** mathlib.py:787-802 *)
Definition cosaffin (u v : list R) : res R := rdiv (dotprod u v) (vmag u * vmag v).
(** mathlib.py:805-824; the same list as normvec, mathlib.py:1556-1573 *)
Definition dircos (v : list R) : res (list R) := let mag := vmag v in res_map (fun i => rdiv i mag) v.
Definition normvec (v : list R) : res (list R) := scalardivvect v (vmag v).
(** mathlib.py:827-841; acos raises ValueError outside -1..1 *)
Definition pyacos (d : R) : res R := if rle (-1) d && rle d 1 then Ok (acos d) else Err ValueError.
Definition diracos (dcos : list R) : res (list R) := res_map pyacos dcos.
(** mathlib.py:844-858 *)
Definition dirdeg (raddir : list R) : list R := map degrees raddir.

(** mathlib.py:861-890 *)
Definition rect2sphericalcoord3D (v : R * R * R) : res (R * R * R) :=
  let '(x, y, z) := v in
  let p := vmag [x; y; z] in
  let! q := rdiv y x in
  let! c := rdiv z p in
  let! phi := pyacos c in
  Ok (p, atan q, phi).
(** mathlib.py:893-922 *)
Definition spherical2rectcoord3D (s : R * R * R) : R * R * R :=
  let '(p, theta, phi) := s in
  let sinphi := sin phi in
  (p * sinphi * cos theta, p * sinphi * sin theta, p * cos phi)%R.
(** mathlib.py:925-943 *)
Definition rect2cylindricalcoord3D (v : R * R * R) : res (R * R * R) :=
  let '(x, y, z) := v in
  let! q := rdiv y x in
  Ok (vmag [x; y; z], atan q, z).
(** mathlib.py:946-964 *)
Definition cylindrical2rectcoord3D (c : R * R * R) : R * R * R :=
  let '(r, theta, z) := c in (r * cos theta, r * sin theta, z)%R.
(** mathlib.py:967-985 *)
Definition polar2rectcoord2D (p : R * R) : R * R := let '(r, theta) := p in (r * cos theta, r * sin theta)%R.
(** mathlib.py:988-1001 *)
Definition rect2polarcoord2D (v : R * R) : res (R * R) :=
  let '(x, y) := v in
  let! q := rdiv y x in
  Ok (vmag [x; y], atan q).
(** mathlib.py:1004-1017 *)
Definition polarcoordangle2D (v : R * R) : res R :=
  let '(x, y) := v in
  let! c := cosaffin [x; y] [0; -1]%R in
  let! a := pyacos c in
  Ok (if rlt x 0 then (2 * PI - a)%R else a).
(** mathlib.py:1020-1037 *)
Definition rect2polarcoord2Dwithcenter (vcen vpnt : R * R) : res (R * R) :=
  let v := ((fst vpnt - fst vcen)%R, (snd vpnt - snd vcen)%R) in
  let! a := polarcoordangle2D v in
  Ok (vmag [fst v; snd v], a).
(** mathlib.py:1040-1052 *)
Definition computerotvec (degrot : R) : R * R := let a := radians degrot in (sin a, cos a).
(** mathlib.py:1055-1070 *)
Definition rotvec2D (v rotvec : R * R) : R * R :=
  let '(x, y) := v in
  let '(a, b) := rotvec in
  (x * b - y * a, x * a + y * b)%R.
(** mathlib.py:566-578 *)
Definition slope (u v : R * R) : res R := rdiv (snd v - snd u) (fst v - fst u).
(** mathlib.py:1192-1208; iif evaluates its condition where u[0] = v[0].  The two constants
    stand for pi / 2 and 3 pi / 2. *)
Definition anglebetween2Dlines (u v : R * R) : res R :=
  if negb (req (fst u) (fst v)) then let! s := slope u v in Ok (atan s)
  else Ok (if rlt (fst u) (fst v) then PI / 2 else 3 * PI / 2)%R.

(** primitives2D.py:480-510 *)
Definition floatregpolygonvert (cx cy r sides : Z) (angle : R) : res (list (R * R)) :=
  let angle := radians angle in
  let! anginc := if sides =? 0 then Err ZeroDivisionError else Ok (360 / sides) in
  let! angs := rangeby 0 360 anginc in
  Ok (map (fun a => let ang := (angle + radians (IZR a))%R in
                    (IZR cx - IZR r * sin ang, IZR cy - IZR r * cos ang)%R) angs).
(** primitives2D.py:513-536 *)
Definition regpolygonvert (cx cy r sides : Z) (angle : R) : res (list (Z * Z)) :=
  let! v := floatregpolygonvert cx cy r sides angle in
  Ok (map (fun p => (rround (fst p), rround (snd p))) v).

(** primitives2D.py:1284-1320: the two ends of the head of an arrow from u to v; 0.3927 stands
    for pi / 8.  cmath.rect(r, a) is (r cos a, r sin a). *)
Definition hadd (v : R * R) (hm a : R) : R * R := (fst v + hm * cos a, snd v + hm * sin a)%R.
Definition hsub (v : R * R) (hm a : R) : R * R := (fst v - hm * cos a, snd v - hm * sin a)%R.
Definition arrowends (u v : R * R) (headsize : R) : res ((R * R) * (R * R)) :=
  let vm := vmag [fst u - fst v; snd u - snd v]%R in
  let anginc := (PI / 8)%R in
  let hm := if req headsize 0 then (vm / 5)%R else headsize in
  let! a := anglebetween2Dlines u v in
  let a1 := (a - anginc)%R in
  let a2 := (a + anginc)%R in
  let add := (hadd v hm a1, hadd v hm a2) in
  let sub := (hsub v hm a1, hsub v hm a2) in
  let u0 := fst u in let u1 := snd u in
  let v0 := fst v in let v1 := snd v in
  Ok (if rlt u0 v0 && rlt u1 v1 then sub
      else if rlt v0 u0 && rlt v1 u1 then add
      else if req v1 u1 && rlt u0 v0 then sub
      else if req v1 u1 && rlt v0 u0 then add
      else if req v0 u0 && rlt v1 u1 then sub
      else if req v0 u0 && rlt u1 v1 then add
      else if rlt u0 v0 && rlt v1 u1 then sub
      else add).
(** the points of the screen *)
Definition real (p : Z * Z) : R * R := (IZR (fst p), IZR (snd p)).
Definition arrowhead (u v : Z * Z) (headsize : Z) : res ((Z * Z) * (Z * Z)) :=
  let! e := arrowends (real u) (real v) (IZR headsize) in
  let r p := (rround (fst p), rround (snd p)) in
  Ok (r (fst e), r (snd e)).

(** primitives2D.py:598-630 with the angles of mathlib.py:1004-1037 *)
Definition arcpoint (c : Z * Z) (sa ea : R) (p : Z * Z) : res (list (Z * Z)) :=
  let tol := (3 / 100)%R in
  let! pc := rect2polarcoord2Dwithcenter (real c) (real p) in
  let a := snd pc in
  Ok (if rle sa a && rle a ea
      then p :: (if rlt (Rabs (a - sa)) tol || rlt (Rabs (a - ea)) tol then iterline c p else [])
      else []).
Definition arcvertangles (x y r : Z) (startdegangle enddegangle : R) : res (list (Z * Z)) :=
  let! pts := itercircle x y r in
  let! l := res_map (arcpoint (x, y) (radians startdegangle) (radians enddegangle)) pts in
  Ok (List.concat l).
(** charts.py:34-58 for integer amounts: the angles of the slices, their colours, amounts and
    percentages.  The index of the large slice is not included. *)
Record pieitem := mkitem { pi_start : R; pi_end : R; pi_colour : Z; pi_amount : Z; pi_percent : R }.
Fixpoint pieitems (tot : Z) (sa : R) (l : list (Z * Z)) : res (list pieitem) :=
  match l with
  | [] => Ok []
  | d :: t =>
      let! p := rdiv (IZR (fst d)) (IZR tot) in
      let ea := (sa + p * 360)%R in
      let! rest := pieitems tot ea t in
      Ok (mkitem sa ea (snd d) (fst d) (p * 100)%R :: rest)
  end.
Definition genpiechartdata (l : list (Z * Z)) : res (list pieitem) :=
  pieitems (fold_left Z.add (map fst l) 0) 0%R l.
