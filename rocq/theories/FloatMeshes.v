(** Spheres, cylinders and cones with the rounding of floats; mc and ms are the cosine and sine of the C library.
    Signs of zeros, infinities and not-a-numbers are left out.  Paths are relative to /repo/pythonbmp. *)
From Coq Require Import ZArith Reals List Bool.
From Verif Require Import PyBase Bmp MathLib Solids Coords Vertices Meshes Floats FloatTurns.
Import ListNotations.
Open Scope R_scope.
Open Scope py_scope.

(** mathlib.py:149-160 for triples *)
Definition fvadd (u v : vec) : vec := let '(a, b, c) := u in let '(x, y, z) := v in (fl (a + x), fl (b + y), fl (c + z)).
(** mathlib.py:179-191 for triples *)
Definition fvsub (u v : vec) : vec := let '(a, b, c) := u in let '(x, y, z) := v in (fl (a - x), fl (b - y), fl (c - z)).
(** mathlib.py:946-964 *)
Definition fcylindrical2rectcoord3D (mc ms : R -> R) (c : vec) : vec := let '(r, theta, z) := c in (fl (r * mc theta), fl (r * ms theta), z).
(** mathlib.py:893-922 *)
Definition fspherical2rectcoord3D (mc ms : R -> R) (s : vec) : vec :=
  let '(p, theta, phi) := s in
  let sinphi := ms phi in
  (fl (fl (p * sinphi) * mc theta), fl (fl (p * sinphi) * ms theta), fl (p * mc phi)).
(** solids3D.py:450-486 for an integer step *)
Definition fspherevert mc ms (vcen : vec) (r : R) (deganglestep : Z) : res (list vec) :=
  let! thetas := rangeby 0 360 deganglestep in
  let! phis := rangeby 0 180 deganglestep in
  let add plist p := if existsb (veq p) plist then plist else plist ++ [p] in
  let plist := fold_left (fun plist theta => fold_left (fun plist phi =>
      add plist (fvadd vcen (fspherical2rectcoord3D mc ms (r, fradians (IZR theta), fradians (IZR phi))))) phis plist) thetas [] in
  Ok (add plist (0, 0, - r)).
(** solids3D.py:591-639 for an integer step *)
Definition fcylindervertandsurface mc ms (vcen : vec) (r zlen : R) (deganglestep : Z) : res (list vec * list (list Z)) :=
  let z := fl (zlen / 2) in
  let! thetas := rangeby 0 (360 + Z.shiftl deganglestep 1) deganglestep in
  let! surf := cylindersurface deganglestep in
  Ok (flat_map (fun theta => [fvadd vcen (fcylindrical2rectcoord3D mc ms (r, fradians (IZR theta), - z));
                              fvadd vcen (fcylindrical2rectcoord3D mc ms (r, fradians (IZR theta), z))]) thetas, surf).
(** solids3D.py:642-680 for an integer step *)
Definition fconevertandsurface mc ms (vcen : vec) (r zlen : R) (deganglestep : Z) : res (list vec * list (list Z)) :=
  let z := fl (zlen / 2) in
  let! thetas := rangeby 0 (360 + Z.shiftl deganglestep 1) deganglestep in
  let! surf := conesurface deganglestep in
  Ok (fvsub vcen (0, 0, z) :: map (fun theta => fvadd vcen (fcylindrical2rectcoord3D mc ms (r, fradians (IZR theta), z))) thetas, surf).
(** solids3D.py:564-588 with 490-514 for an integer step *)
Definition fspherevertandsurface mc ms (vcen : vec) (r : R) (deganglestep : Z) : res (list vec * list (list Z)) :=
  let! s := fspherevert mc ms vcen r deganglestep in
  let! f := genspheresurfaces (map snd (rzlevelcoords s)) in
  Ok (s, f).
