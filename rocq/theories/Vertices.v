(** solids3D.py: vertices of solids and their projection, over the real numbers in place of
    floats.  Paths are relative to /repo/pythonbmp. *)
From Coq Require Import ZArith Reals List Bool.
From Verif Require Import PyBase Bmp MathLib Solids Coords.
Import ListNotations.
Open Scope Z_scope.
Open Scope py_scope.

Definition vec := (R * R * R)%type.
(** mathlib.py:149-160, 179-190 for three coordinates *)
Definition vadd (u v : vec) : vec := let '(a, b, c) := u in let '(x, y, z) := v in (a + x, b + y, c + z)%R.
Definition vsub (u v : vec) : vec := let '(a, b, c) := u in let '(x, y, z) := v in (a - x, b - y, c - z)%R.
(** p in plist *)
Definition veq (u v : vec) : bool := let '(a, b, c) := u in let '(x, y, z) := v in (req a x && req b y) && req c z.
(** solids3D.py:82-102 *)
Definition tetrahedravert (x : R) : list vec :=
  let x_sqr := (x ^ 2)%R in
  let halfx := (x / 2)%R in
  [(0, 0, 0); (halfx, sqrt (x_sqr / 2), 0); (x, 0, 0); (halfx, halfx, sqrt (3 / 8 * x_sqr))]%R.
(** solids3D.py:105-127 *)
Definition cubevert (x : R) : list vec :=
  [(0, 0, 0); (0, x, 0); (x, x, 0); (x, 0, 0); (0, x, x); (0, 0, x); (x, 0, x); (x, x, x)]%R.
(** solids3D.py:130-152 *)
Definition hexahedravert (x : R) : list vec :=
  let x_sqr := (x ^ 2)%R in
  let halfx := (x / 2)%R in
  let z := sqrt (3 / 8 * x_sqr) in
  [(0, 0, 0); (halfx, sqrt (x_sqr / 2), 0); (x, 0, 0); (halfx, halfx, z); (halfx, halfx, - z)]%R.
(** solids3D.py:155-176 *)
Definition octahedravert (x : R) : list vec :=
  let halfx := (x / 2)%R in
  [(halfx, halfx, halfx); (0, 0, 0); (x, 0, 0); (x, x, 0); (0, x, 0); (halfx, halfx, - halfx)]%R.
(** mathlib.py:1172-1189 *)
Definition adddimz (l : list (R * R)) (value : R) : list vec := map (fun v => (fst v, snd v, value)) l.
(** math.sqrt of a float *)
Definition pysqrt (x : R) : res R := if rlt x 0 then Err ValueError else Ok (sqrt x).
(** solids3D.py:179-202, the vertices, for an integer x; dist(u, v) ** 2 *)
Definition dist2D (u v : R * R) : R := dist [fst u; snd u] [fst v; snd v].
Definition decahedvert (x : Z) : res (list vec) :=
  let! pts := regpolygonvert 0 0 x 5 0 in
  let pts := map real pts in
  let! p0 := item pts 0 in let! p1 := item pts 1 in
  let! z := pysqrt (dist2D p0 p1 ^ 2 - IZR x ^ 2) in
  Ok ([(0, 0, - z)%R] ++ adddimz pts 0 ++ [(0, 0, z)%R]).
(** solids3D.py:217-244, the vertices, for an integer x *)
Definition icosahedvert (x : Z) : res (list vec) :=
  let! pts := floatregpolygonvert 0 0 x 5 0 in
  let! pts1 := floatregpolygonvert 0 0 x 5 36 in
  let! p0 := item pts 0 in let! p1 := item pts 1 in
  let! z := pysqrt (dist2D p0 p1 ^ 2 - IZR x ^ 2) in
  let z1 := (2 * IZR x - z)%R in
  Ok ([(0, 0, - z)%R] ++ adddimz pts 0 ++ adddimz pts1 (z1 - z) ++ [(0, 0, z1)%R]).
(** solids3D.py:265-283 *)
Definition rotvec3D (roll pitch yaw : R) : (R * R) * (R * R) * (R * R) := (computerotvec roll, computerotvec pitch, computerotvec yaw).
(** solids3D.py:314-329 for one point *)
Definition rotated (rotvec : (R * R) * (R * R) * (R * R)) (dispvec p : vec) : vec :=
  let '((sroll, croll), (spitch, cpitch), (syaw, cyaw)) := rotvec in
  let '(dx, dy, dz) := dispvec in
  let '(px, py, pz) := p in
  let x1 := (- cyaw * px - syaw * pz)%R in
  let y1 := (croll * py - sroll * x1)%R in
  let z1 := (- syaw * px + cyaw * pz)%R in
  let x := (croll * x1 + sroll * py)%R in
  let y := (spitch * z1 + cpitch * y1)%R in
  let z := (cpitch * z1 - spitch * y1)%R in
  (x + dx, y + dy, z + dz)%R.
(** solids3D.py:287-332 *)
Definition perspective (vlist : list vec) (rotvec : (R * R) * (R * R) * (R * R)) (dispvec : vec) (d : R) : res (list vec * list (R * R)) :=
  let! l := res_map (fun p =>
      let '(x, y, z) := rotated rotvec dispvec p in
      let! a := rdiv (- d * x) z in
      let! b := rdiv (- d * y) z in
      Ok ((x, y, z), (a, b))) vlist in
  Ok (map fst l, map snd l).
(** solids3D.py:450-486 for an integer step *)
Definition spherevert (vcen : vec) (r : R) (deganglestep : Z) : res (list vec) :=
  let! thetas := rangeby 0 360 deganglestep in
  let! phis := rangeby 0 180 deganglestep in
  let add plist p := if existsb (veq p) plist then plist else plist ++ [p] in
  let plist := fold_left (fun plist theta => fold_left (fun plist phi =>
      add plist (vadd vcen (spherical2rectcoord3D (r, radians (IZR theta), radians (IZR phi))))) phis plist) thetas [] in
  Ok (add plist (0, 0, - r)%R).
(** solids3D.py:615-629, the vertices of a cylinder for an integer step *)
Definition cylindervert (vcen : vec) (r zlen : R) (deganglestep : Z) : res (list vec) :=
  let z := (zlen / 2)%R in
  let! thetas := rangeby 0 (360 + Z.shiftl deganglestep 1) deganglestep in
  Ok (flat_map (fun theta => [vadd vcen (cylindrical2rectcoord3D (r, radians (IZR theta), - z)%R);
                              vadd vcen (cylindrical2rectcoord3D (r, radians (IZR theta), z)%R)]) thetas).
(** solids3D.py:668-677, the vertices of a cone for an integer step *)
Definition conevert (vcen : vec) (r zlen : R) (deganglestep : Z) : res (list vec) :=
  let z := (zlen / 2)%R in
  let! thetas := rangeby 0 (360 + Z.shiftl deganglestep 1) deganglestep in
  Ok (vsub vcen (0, 0, z)%R :: map (fun theta => vadd vcen (cylindrical2rectcoord3D (r, radians (IZR theta), z)%R)) thetas).
