(** solids3D.py: the vertices and surfaces of spheres, cylinders and cones together, over the real
    numbers in place of floats.  Paths are relative to /repo/pythonbmp. *)
From Coq Require Import ZArith Reals List Bool.
From Verif Require Import PyBase Bmp MathLib Solids Coords Vertices.
Import ListNotations.
Open Scope Z_scope.
Open Scope py_scope.

(** solids3D.py:490-514 as in Solids.v but for real coordinates: the dictionary as the list of its
    items *)
Fixpoint raddlevel (z : R) (i : Z) (zord : list (R * list Z)) : list (R * list Z) :=
  match zord with
  | [] => [(z, [i])]
  | (z', l) :: t => if req z' z then (z', l ++ [i]) :: t else (z', l) :: raddlevel z i t
  end.
Definition rzlevelcoords (vs : list vec) : list (R * list Z) :=
  fold_left (fun zord p => raddlevel (snd p) (indexof veq vs p) zord) vs [].
(** solids3D.py:564-588 for an integer step *)
Definition spherevertandsurface (vcen : vec) (r : R) (deganglestep : Z) : res (list vec * list (list Z)) :=
  let! s := spherevert vcen r deganglestep in
  let! f := genspheresurfaces (map snd (rzlevelcoords s)) in
  Ok (s, f).
(** solids3D.py:591-639 for an integer step *)
Definition cylindervertandsurface (vcen : vec) (r zlen : R) (deganglestep : Z) : res (list vec * list (list Z)) :=
  let! plist := cylindervert vcen r zlen deganglestep in
  let! surf := cylindersurface deganglestep in
  Ok (plist, surf).
(** solids3D.py:642-680 for an integer step *)
Definition conevertandsurface (vcen : vec) (r zlen : R) (deganglestep : Z) : res (list vec * list (list Z)) :=
  let! plist := conevert vcen r zlen deganglestep in
  let! surf := conesurface deganglestep in
  Ok (plist, surf).
