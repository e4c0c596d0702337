(** primitives2D.py: parametric curves with the rounding of floats (IEEE binary64, round to nearest even), as in
    Floats.v.  [mc] and [ms] stand for the cosine and sine of the C library.  Signs of zeros, infinities and
    not-a-numbers are left out.  Paths are relative to /repo/pythonbmp. *)
From Coq Require Import ZArith Reals List Bool.
From Verif Require Import PyBase Bmp MathLib Coords Sweeps Floats FloatEscape.
Import ListNotations.
Open Scope R_scope.
Open Scope py_scope.

(** the loops [while t < lim: ...; t += delta], for at most [fuel] passes *)
Fixpoint fsweep {A} (fuel : nat) (f : R -> A) (delta lim t : R) : res (list A) :=
  if rlt t lim then
    match fuel with
    | O => Err Diverges
    | S n => let! l := fsweep n f delta lim (fl (t + delta)) in Ok (f t :: l)
    end
  else Ok [].
(** x / y *)
Definition fdiv (x y : R) : res R := if req y 0 then Err ZeroDivisionError else Ok (fl (x / y)).
(** cmath.rect, with its special case for the angle 0 *)
Definition frect (mc ms : R -> R) (r a : R) : R * R := if req a 0 then (r, 0) else (fl (r * mc a), fl (r * ms a)).
(** primitives2D.py:926, 1056, 1124, 1190: complex(x, y) *)
Definition fpoint (x y : Z) : R * R := (fl (IZR x), fl (IZR y)).

(** primitives2D.py:899-932 *)
Definition fspirographpoint mc ms (x y : Z) (r e d f a : R) : R * R :=
  fcadd (fcmul (r, 0) (fcadd (frect mc ms d a) (frect mc ms e (fl (a * f))))) (fpoint x y).
Definition fiterspirograph mc ms fuel (x y : Z) (r l k delta lim : R) : res (list (Z * Z)) :=
  let e := fl (l * k) in
  let d := fl (1 - k) in
  let! f := fdiv d k in
  fsweep fuel (fun a => cround (fspirographpoint mc ms x y r e d f a)) delta lim 0.
(** primitives2D.py:962-993 *)
Definition fiterlissajouscurve mc ms fuel (x y : Z) (a b c d e delta lim : R) : res (list (Z * Z)) :=
  fsweep fuel (fun t => (x + rround (fl (a * mc (fl (fl (c * t) + e)))), y + rround (fl (b * ms (fl (d * t)))))%Z) delta lim 0.
(** primitives2D.py:1027-1063: z *= a * z * t * 1j *)
Definition finvolutepoint mc ms (x y : Z) (a t : R) : R * R :=
  let z := frect mc ms 1 t in
  fcadd (fcmul z (fcmul (fcmul (fcmul (a, 0) z) (t, 0)) (0, 1))) (fpoint x y).
Definition fitercircleinvolute mc ms fuel (x y : Z) (a delta lim : R) : res (list (Z * Z)) :=
  fsweep fuel (fun t => cround (finvolutepoint mc ms x y a t)) delta lim 0.
(** primitives2D.py:1098-1130 *)
Definition fepicycloidpoint mc ms (x y : Z) (p b c t : R) : R * R :=
  fcadd (fcsub (frect mc ms p t) (frect mc ms b (fl (c * t)))) (fpoint x y).
Definition fiterepicycloid mc ms fuel (x y : Z) (a b delta lim : R) : res (list (Z * Z)) :=
  let p := fl (a + b) in
  let! q := fdiv a b in
  let c := fl (q + 1) in
  fsweep fuel (fun t => cround (fepicycloidpoint mc ms x y p b c t)) delta lim 0.
(** primitives2D.py:1160-1196 *)
Definition fiterhypotrochoid mc ms fuel (x y : Z) (a b c delta lim : R) : res (list (Z * Z)) :=
  let p := fl (a - b) in
  let! q := fdiv a b in
  let d := fl (q + 1) in
  fsweep fuel (fun t => cround (fepicycloidpoint mc ms x y p c d t)) delta lim 0.
