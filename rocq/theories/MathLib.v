(** mathlib.py, vectors of integers.  Python numbers may also be floats; the
    model covers integers. *)
From Coq Require Import ZArith List Bool.
From Verif Require Import PyBase Bmp.
Import ListNotations.
Open Scope Z_scope.
Open Scope py_scope.

(** [f(i, j) for i, j in zip(u, v)]: stops at the shorter list *)
Fixpoint zipwith (f : Z -> Z -> Z) (u v : list Z) : list Z :=
  match u, v with
  | a :: u, b :: v => f a b :: zipwith f u v
  | _, _ => []
  end.
(** mathlib.py:149-160 *)
Definition addvect := zipwith Z.add.
(** mathlib.py:179-191 *)
Definition subvect := zipwith Z.sub.
(** mathlib.py:194-205 *)
Definition mulvect := zipwith Z.mul.
(** mathlib.py:1249-1261 *)
Definition xorvect := zipwith Z.lxor.
(** mathlib.py:1264-1276 *)
Definition andvect := zipwith Z.land.
(** mathlib.py:1293-1305 *)
Definition orvect := zipwith Z.lor.
(** mathlib.py:163-176 *)
Definition trans (vlist : list (list Z)) (u : list Z) : list (list Z) := map (fun v => addvect v u) vlist.
(** mathlib.py:214-231 *)
Definition scalarmulvect (v : list Z) (k : Z) : list Z := map (fun s => s * k) v.
(** sum() *)
Definition py_sum (v : list Z) : Z := fold_left Z.add v 0.
(** mathlib.py:687-701 *)
Definition dotprod (u v : list Z) : Z := py_sum (mulvect u v).
(** mathlib.py:599-610 *)
Definition vectiszero (v : list Z) : bool := forallb (fun u => u =? 0) v.
(** mathlib.py:613-636 *)
Definition isorthogonal (u v : list Z) : bool := vectiszero (mulvect u v).
(** mathlib.py:639-662 *)
Definition crossprod3d (u v : list Z) : list Z :=
  if (zlen u =? 3) && (zlen v =? 3) then
    [getz u 1 * getz v 2 - getz u 2 * getz v 1;
     getz u 2 * getz v 0 - getz u 0 * getz v 2;
     getz u 0 * getz v 1 - getz u 1 * getz v 0]
  else [0; 0; 0].
(** mathlib.py:665-684 *)
Definition getnormvec (p1 p2 p3 : list Z) : list Z := crossprod3d (subvect p2 p1) (subvect p3 p1).
(** mathlib.py:764-784, for lists of at least three items (shorter ones raise
    IndexError); the last factor is a2[0], not a3[0] *)
Definition det3D (a1 a2 a3 : list Z) : Z :=
  getz a1 0 * getz a2 1 * getz a3 2 +
  getz a1 1 * getz a2 2 * getz a3 0 +
  getz a1 2 * getz a2 0 * getz a3 1 -
  getz a1 0 * getz a2 2 * getz a3 1 -
  getz a1 1 * getz a2 0 * getz a3 2 -
  getz a1 2 * getz a2 1 * getz a2 0.
(** mathlib.py:1394-1405 *)
Definition centerpoint (x1 y1 x2 y2 : Z) : Z * Z :=
  (Z.shiftr (x2 - x1) 1 + x1, Z.shiftr (y2 - y1) 1 + y1).
(** mathlib.py:303-315: v[i] raises IndexError if a row is shorter than the
    first, and so does vlist[0] on the empty list *)
Fixpoint pivotcol (vlist : list (list Z)) (i : Z) : res (list Z) :=
  match vlist with
  | [] => Ok []
  | v :: t => if i <? zlen v then (let! r := pivotcol t i in Ok (getz v i :: r)) else Err IndexError
  end.
Fixpoint res_map {A B} (f : A -> res B) (l : list A) : res (list B) :=
  match l with
  | [] => Ok []
  | a :: t => let! b := f a in let! r := res_map f t in Ok (b :: r)
  end.
Definition pivotlist (vlist : list (list Z)) : res (list (list Z)) :=
  match vlist with
  | [] => Err IndexError
  | v :: _ => res_map (pivotcol vlist) (range 0 (zlen v))
  end.
