(** Newton's method and the functions of Newton's fractal over the complex numbers of [Cplx]. *)
From Coq Require Import ZArith Reals Lra Lia List Bool.
From Verif Require Import PyBase Bmp MathLib Region Geometry Fractal Coords Cplx Escape.
Import ListNotations.
Open Scope py_scope.
Open Scope Z_scope.

(** mathlib.py:1456-1469, passes i, i + 1, ... of the loop; (None, None) is [None]. *)
Fixpoint newton_from (f fprime : C -> C) (tol : R) (n : nat) (i : Z) (x : C) : option (C * Z) :=
  match n with
  | O => None
  | S n => if ceq (fprime x) (0, 0)%R then None else
           let dx := cmul (f x) (cinv (fprime x)) in
           if rlt (cabs dx) tol then Some (x, i) else newton_from f fprime tol n (i + 1) (csub x dx)
  end.
(** mathlib.py:1435-1469 *)
Definition newtonmethod (x0 : C) (f fprime : C -> C) (maxiter : Z) (tol : R) : option (C * Z) :=
  newton_from f fprime tol (Z.to_nat maxiter) 0 x0.
(** fractals.py:86-104; the keys in tenths *)
Definition funcparamdict : list (Z * ((C -> C) * (C -> C))) :=
  let c := rtoc in
  [(30, (fun z => csub (cmul (cmul z z) z) (c 1%R), fun z => cmul (c 3%R) (cmul z z)));
   (40, (fun z => csub (cmul (cmul (cmul z z) z) z) (c 1%R), fun z => cmul (c 4%R) (cmul (cmul z z) z)));
   (41, (fun z => csub (cmul (cmul (cmul z z) z) z) z, fun z => csub (cmul (c 4%R) (cmul (cmul z z) z)) (c 1%R)));
   (50, (fun z => csub (cmul (cmul (cmul (cmul z z) z) z) z) (c 1%R), fun z => cmul (c 5%R) (cmul (cmul (cmul z z) z) z)));
   (51, (fun z => csub (cmul (cmul (cmul (cmul z z) z) z) z) z, fun z => csub (cmul (c 5%R) (cmul (cmul (cmul z z) z) z)) (c 1%R)));
   (53, (fun z => csub (cmul (cmul (cmul (cmul z z) z) z) z) (cmul (cmul z z) z),
         fun z => csub (cmul (c 5%R) (cmul (cmul (cmul z z) z) z)) (cmul (c 3%R) (cmul z z))));
   (60, (fun z => csub (cmul (cmul (cmul (cmul (cmul z z) z) z) z) z) (c 1%R), fun z => cmul (c 6%R) (cmul (cmul (cmul (cmul z z) z) z) z)));
   (63, (fun z => csub (csub (cmul (cmul (cmul (cmul (cmul z z) z) z) z) z) (cmul (cmul z z) z)) (c 1%R),
         fun z => csub (cmul (c 6%R) (cmul (cmul (cmul (cmul z z) z) z) z)) (cmul (c 3%R) (cmul z z))))].
(** fractals.py:413-427, with the default tol = 1.e-8 of newtonmethod *)
Definition newton (P Q : R) (d : (C -> C) * (C -> C)) (maxiter : Z) : option (C * Z) :=
  newtonmethod (P, Q) (fst d) (snd d) maxiter (1 / 10 ^ 8)%R.
(** fractals.py:1852-1877 with 933-962: one pass of the loops *)
Definition newtonat (x1 y1 x2 y2 : Z) (d : (C -> C) * (C -> C)) (domain : R * R * R * R) (maxiter x y : Z) : res (option (C * Z)) :=
  let '(Pmax, Pmin, Qmax, Qmin) := domain in
  let '(x1, y1, x2, y2) := sortrecpoints x1 y1 x2 y2 in
  let! dp := rdiv (Pmax - Pmin) (IZR (x2 - x1)) in
  let! dq := rdiv (Qmax - Qmin) (IZR (y2 - y1)) in
  Ok (newton (Pmin + IZR (x - x1) * dp)%R (Qmin + IZR (y - y1) * dq)%R d maxiter).
(** BITMAPlib.py:9234, 9242-9246: tol = 10e-3 *)
Definition rootnear (t rt : C) : bool := rlt (cabs (csub t rt)) (1 / 100).
(** BITMAPlib.py:9206-9256 *)
Definition newtonsbmp (x1 y1 x2 y2 : Z) (d : (C -> C) * (C -> C)) (domain : R * R * R * R) (n : Z) (mix : Z -> Z -> Z) (maxiter : Z) : M (list C) :=
  newtonsfractal rootnear (newtonat x1 y1 x2 y2 d domain maxiter) n mix x1 y1 x2 y2.
