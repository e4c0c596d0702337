(** fractals.py: escape times with the rounding of floats (IEEE binary64, round to nearest even), as in Floats.v.
    Signs of zeros, infinities and not-a-numbers are left out.  Paths are relative to /repo/pythonbmp. *)
From Coq Require Import ZArith Reals List Bool.
From Verif Require Import PyBase Bmp Region Geometry MathLib Fractal Coords Sweeps Floats.
Import ListNotations.
Open Scope R_scope.
Open Scope py_scope.

(** Operations of complex numbers; every real operation is rounded. *)
Definition fcadd (a b : R * R) : R * R := (fl (fst a + fst b), fl (snd a + snd b)).
Definition fcsub (a b : R * R) : R * R := (fl (fst a - fst b), fl (snd a - snd b)).
Definition fcmul (a b : R * R) : R * R :=
  (fl (fl (fst a * fst b) - fl (snd a * snd b)), fl (fl (fst a * snd b) + fl (snd a * fst b))).
Definition fcconj (a : R * R) : R * R := (fst a, - snd a).
(** z ** d for an integer d of 1 to 100: CPython's loop over the bits of d with r = 1, p = z at first *)
Fixpoint fcpowu (d : positive) (r p : R * R) : R * R :=
  match d with
  | xH => fcmul r p
  | xO d => fcpowu d r (fcmul p p)
  | xI d => fcpowu d (fcmul r p) (fcmul p p)
  end.
Definition fcpow (z : R * R) (d : positive) : R * R := fcpowu d (1, 0) z.
(** abs(z) > 2; [hyp] stands for abs of complex numbers, the function hypot of the C library *)
Definition fout2 (hyp : R * R -> R) (z : R * R) : bool := rlt 2 (hyp z).
(** fractals.py:265-285; the int 0 at first is 0 + 0j *)
Definition fmultibrot hyp (P Q : R) (d : positive) (maxiter : Z) : res Z :=
  escapetime (fun z => Ok (fcadd (fcpow z d) (P, Q))) (fout2 hyp) (0, 0) maxiter.
(** fractals.py:430-451 *)
Definition fmultijulia (P Q : R) (c : R * R) (d : positive) (maxiter : Z) : res Z :=
  escapetime (fun z => Ok (fcadd (fcpow z d) c)) (fun z => rlt 4 (fst (fcmul z (fcconj z)))) (P, Q) maxiter.
(** fractals.py:810-829 *)
Definition fmulticorn hyp (P Q : R) (d : positive) (maxiter : Z) : res Z :=
  escapetime (fun z => Ok (fcadd (fcpow (fcconj z) d) (P, Q))) (fout2 hyp) (0, 0) maxiter.
(** fractals.py:244-262 *)
Definition flambdafn hyp (P Q : R) (c : R * R) (maxiter : Z) : res Z :=
  escapetime (fun z => Ok (fcmul (fcmul c z) (fcsub (1, 0) z))) (fout2 hyp) (P, Q) maxiter.
(** fractals.py:832-850 *)
Definition fbarnsleytree hyp (P Q : R) (d : R * R) (maxiter : Z) : res Z :=
  escapetime (fun z => Ok (fcmul d (fcsub z (rsign (fst z), 0)))) (fout2 hyp) (P, Q) maxiter.
(** fractals.py:853-874 *)
Definition fmarekdragon (P Q d : R) (maxiter lim : Z) : res Z :=
  limitedescape (fun zs : (R * R) * R => let z := fcmul (fst zs) (fcadd (d, 0) (fst zs)) in Ok (z, fl (snd zs + Rabs (snd z))))
    (fun zs => rlt (IZR lim) (snd zs)) ((P, Q), 0) lim maxiter.
(** fractals.py:895-902 with 905-930: the value at a pixel; the domain is (Pmax, Pmin, Qmax, Qmin) *)
Definition fcoord (lo hi : R) (n j : Z) : R := fl (lo + fl (IZR j * fl (fl (hi - lo) / IZR n))).
Definition fvalueat (x1 y1 x2 y2 : Z) (func : R -> R -> res Z) (domain : R * R * R * R) (x y : Z) : res Z :=
  let '(Pmax, Pmin, Qmax, Qmin) := domain in
  let '(x1, y1, x2, y2) := sortrecpoints x1 y1 x2 y2 in
  if (x2 - x1 =? 0)%Z || (y2 - y1 =? 0)%Z then Err ZeroDivisionError
  else func (fcoord Pmin Pmax (x2 - x1) (x - x1)) (fcoord Qmin Qmax (y2 - y1) (y - y1)).
(** BITMAPlib.py:9259-9286, 10511-10539 *)
Definition fmandelbrotbmp hyp x1 y1 x2 y2 domain (f : factors) maxiter : M unit :=
  plotmultifractal (fvalueat x1 y1 x2 y2 (fun P Q => fmultibrot hyp P Q 2 maxiter) domain) f x1 y1 x2 y2.
Definition ftricornbmp hyp x1 y1 x2 y2 domain (f : factors) maxiter : M unit :=
  plotmultifractal (fvalueat x1 y1 x2 y2 (fun P Q => fmulticorn hyp P Q 2 maxiter) domain) f x1 y1 x2 y2.
