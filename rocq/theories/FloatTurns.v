(** Angles in degrees with the rounding of floats (IEEE binary64, round to nearest even), as in Floats.v: rotations,
    regular polygons, flowers and the projection of solids.  The cosine and sine of the C library are the arbitrary
    functions mc and ms, and sq stands for its pow(x, 2.0).  Signs of zeros, infinities and not-a-numbers are left out.
    Paths are relative to /repo/pythonbmp. *)
From Coq Require Import ZArith Reals List Bool.
From Verif Require Import PyBase Bmp Geometry Shapes Solids Exact MathLib Coords Sweeps Vertices Floats FloatSweeps.
Import ListNotations.
Open Scope R_scope.

(** math.radians: x * (pi / 180), the quotient being a constant of the interpreter *)
Definition fradians (x : R) : R := fl (x * fl (fl PI / 180)).
(** mathlib.py:1040-1052 *)
Definition fcomputerotvec (mc ms : R -> R) (degrot : R) : R * R := let a := fradians degrot in (ms a, mc a).
(** mathlib.py:1055-1070 *)
Definition frotvec2D (v rotvec : R * R) : R * R :=
  let '(x, y) := v in
  let '(a, b) := rotvec in
  (fl (fl (x * b) - fl (y * a)), fl (fl (x * a) + fl (y * b))).
(** primitives2D.py:480-510; the product of an integer and a complex number adds products with zero, which change
    nothing *)
Definition ffloatregpolygonvert mc ms (cx cy r sides : Z) (angle : R) : res (list (R * R)) :=
  let angle := fradians angle in
  let! anginc := if (sides =? 0)%Z then Err ZeroDivisionError else Ok (360 / sides)%Z in
  let! angs := rangeby 0 360 anginc in
  Ok (map (fun a => let ang := fl (angle + fradians (IZR a)) in
                    (fl (fl (IZR cx) - fl (IZR r * ms ang)), fl (fl (IZR cy) - fl (IZR r * mc ang)))) angs).
(** primitives2D.py:513-536 *)
Definition fregpolygonvert mc ms (cx cy r sides : Z) (angle : R) : res (list (Z * Z)) :=
  let! v := ffloatregpolygonvert mc ms cx cy r sides angle in
  Ok (map (fun p => (rround (fst p), rround (snd p))) v).

(** solids3D.py:265-283 *)
Definition frotvec3D mc ms (roll pitch yaw : R) : (R * R) * (R * R) * (R * R) :=
  (fcomputerotvec mc ms roll, fcomputerotvec mc ms pitch, fcomputerotvec mc ms yaw).
(** solids3D.py:314-329 for one point *)
Definition frotated (rotvec : (R * R) * (R * R) * (R * R)) (dispvec p : vec) : vec :=
  let '((sroll, croll), (spitch, cpitch), (syaw, cyaw)) := rotvec in
  let '(dx, dy, dz) := dispvec in
  let '(px, py, pz) := p in
  let x1 := fl (fl (- cyaw * px) - fl (syaw * pz)) in
  let y1 := fl (fl (croll * py) - fl (sroll * x1)) in
  let z1 := fl (fl (- syaw * px) + fl (cyaw * pz)) in
  let x := fl (fl (croll * x1) + fl (sroll * py)) in
  let y := fl (fl (spitch * z1) + fl (cpitch * y1)) in
  let z := fl (fl (cpitch * z1) - fl (spitch * y1)) in
  (fl (x + dx), fl (y + dy), fl (z + dz)).
(** solids3D.py:287-332 *)
Definition fperspective (vlist : list vec) (rotvec : (R * R) * (R * R) * (R * R)) (dispvec : vec) (d : R) : res (list vec * list (R * R)) :=
  let! l := res_map (fun p =>
      let '(x, y, z) := frotated rotvec dispvec p in
      let! a := fdiv (fl (- d * x)) z in
      let! b := fdiv (fl (- d * y)) z in
      Ok ((x, y, z), (a, b))) vlist in
  Ok (map fst l, map snd l).

(** primitives2D.py:1230-1251, 1254-1267 *)
Definition fflowerpoint mc ms sq (cx cy r petals : Z) (angrot : R) (a : Z) : R * R :=
  let p := fl (IZR petals / 2) in
  let ang := fradians (fl (IZR a / IZR petals)) in
  let f := fl (sq (mc (fl (p * ang))) * IZR r) in
  let rang := fl (ang + fradians angrot) in
  (fl (IZR cx - fl (f * ms rang)), fl (IZR cy - fl (f * mc rang))).
Definition fiterflower mc ms sq (cx cy r petals : Z) (angrot : R) : list (Z * Z) :=
  map (fun a => ctrunc (fflowerpoint mc ms sq cx cy r petals angrot a)) (range 0 (360 * petals)).
