(** Hidden faces, normals and drawings of solids with the rounding of floats.
    Paths are relative to /repo/pythonbmp. *)
From Coq Require Import ZArith Reals List Bool.
From Verif Require Import PyBase Bmp Region Geometry Draw Shapes Edges Fractal Solids MathLib Coords Sweeps Vertices Floats Floats2 FloatSweeps FloatTurns FloatShade.
Import ListNotations.
Open Scope R_scope.
Open Scope py_scope.

(** solids3D.py:720-748; points are triples *)
Definition fsurfacetest (p1 p2 p3 : vec) : R :=
  let '(x1, y1, z1) := p1 in
  let '(x2, y2, z2) := p2 in
  let '(x3, y3, z3) := p3 in
  fl (fl (fl (x1 * fl (fl (y3 * z2) - fl (y2 * z3))) - fl (x2 * fl (fl (y3 * z1) - fl (y1 * z3)))) -
      fl (x3 * fl (fl (y1 * z2) - fl (y2 * z1)))).
(** mathlib.py:179-191 for triples *)
Definition fsubvect (a b : vec) : vec :=
  let '(x1, y1, z1) := a in
  let '(x2, y2, z2) := b in
  (fl (x1 - x2), fl (y1 - y2), fl (z1 - z2)).
(** mathlib.py:640-662 for triples *)
Definition fcrossprod3d (a b : vec) : vec :=
  let '(x1, y1, z1) := a in
  let '(x2, y2, z2) := b in
  (fl (fl (y1 * z2) - fl (z1 * y2)), fl (fl (z1 * x2) - fl (x1 * z2)), fl (fl (x1 * y2) - fl (y1 * x2))).
(** mathlib.py:665-684 *)
Definition fgetnormvec (p1 p2 p3 : vec) : vec := fcrossprod3d (fsubvect p2 p1) (fsubvect p3 p1).
(** solids3D.py:415-447 with mathlib.py:149-176; the translation is by integers *)
Definition fgensides (plist : list vec) (slist : list (R * R)) (transvect : Z * Z) (sides : list (list Z))
    : res (list (list (R * R)) * list vec) :=
  fold_left (fun r sidepts =>
      let! acc := r in
      match sidepts with
      | s0 :: s1 :: s2 :: _ =>
          let! a := item plist s0 in let! b := item plist s1 in let! c := item plist s2 in
          if rle (fsurfacetest a b c) 0 then
            let! poly := mapR (fun i => let! p := item slist i in Ok (fl (fst p + IZR (fst transvect)), fl (snd p + IZR (snd transvect)))) sidepts in
            Ok (fst acc ++ [poly], snd acc ++ [fgetnormvec a b c])
          else Ok acc
      | _ => Err ValueError
      end) sides (Ok ([], [])).
(** mathlib.py:120-131 for pairs; faces and outlines are drawn between rounded points, solids3D.py:400-412 and
    BITMAPlib.py:2328-2344 *)
Definition roundpoint (p : R * R) : Z * Z := (rround (fst p), rround (snd p)).
(** BITMAPlib.py:6928-6974 *)
Definition fplot3Dsolid sm (vertices : list vec) (surfaces : list (list Z)) (issolid : bool) (f : rfactor3) (showoutline : bool) (outlinecolor : Z)
    (rotvect : (R * R) * (R * R) * (R * R)) (transvect3D : vec) (d : R) (transvect : Z * Z) : M unit :=
  p <- lift (fperspective vertices rotvect transvect3D d) ;;
  sides <- lift (fgensides (fst p) (snd p) transvect surfaces) ;;
  fplot3d sm f (map (map roundpoint) (fst sides), snd sides) issolid showoutline outlinecolor.
