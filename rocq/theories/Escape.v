(** fractals.py: the values of fractals over the complex numbers with real coordinates in
    place of floats, for integer exponents.  Paths are relative to /repo/pythonbmp. *)
From Coq Require Import ZArith Reals List Bool.
From Verif Require Import PyBase Bmp Region Geometry MathLib Fractal Coords Sweeps Cplx.
Import ListNotations.
Open Scope Z_scope.
Open Scope py_scope.

(** abs(z) > 2 *)
Definition out2 (z : C) : bool := rlt 2 (cabs z).
(** fractals.py:265-285 *)
Definition multibrot (P Q : R) (d maxiter : Z) : res Z :=
  let c := (P, Q) in
  escapetime (fun z => let! p := cpow z d in Ok (cadd p c)) out2 (0, 0)%R maxiter.
(** fractals.py:430-451 *)
Definition multijulia (P Q : R) (c : C) (d maxiter : Z) : res Z :=
  escapetime (fun z => let! p := cpow z d in Ok (cadd p c)) (fun z => rlt 4 (re (cmul z (cconj z)))) (P, Q) maxiter.
(** fractals.py:810-829 *)
Definition multicorn (P Q : R) (d maxiter : Z) : res Z :=
  let c := (P, Q) in
  escapetime (fun z => let! p := cpow (cconj z) d in Ok (cadd p c)) out2 (0, 0)%R maxiter.
(** fractals.py:244-262 *)
Definition lambdafn (P Q : R) (c : C) (maxiter : Z) : res Z :=
  escapetime (fun z => Ok (cmul (cmul c z) (csub (rtoc 1) z))) out2 (P, Q) maxiter.
(** fractals.py:832-850 *)
Definition barnsleytree (P Q : R) (d : C) (maxiter : Z) : res Z :=
  escapetime (fun z => Ok (cmul d (csub z (rtoc (rsign (re z)))))) out2 (P, Q) maxiter.
(** fractals.py:785-807: the test for 0 stands before the step, so the loop is written out *)
Fixpoint ngon_from (c : C) (n : Z) (k : nat) (i : Z) (z : C) (maxiter : Z) : res Z :=
  match k with
  | O => Ok maxiter
  | S k =>
      if ceq z (0, 0)%R then Ok i
      else
        let! p := cpow z n in
        let! z := cdiv (cadd p c) z in
        if out2 z then Ok i else ngon_from c n k (i + 1) z maxiter
  end.
Definition ngonfunc (P Q : R) (c : C) (n maxiter : Z) : res Z := ngon_from c n (Z.to_nat maxiter) 0 (P, Q) maxiter.
(** fractals.py:223-241 *)
Definition spiraljulia (P Q : R) (c : C) (maxiter : Z) : res Z :=
  escapetime (fun z => Ok (ctan (cadd (cmul z z) c))) out2 (P, Q) maxiter.
(** fractals.py:177-197, 200-220; the state is (z, s) *)
Definition sumescape (f : C -> C) (g : R -> R) (P Q : R) (maxiter lim : Z) (size : R -> R) : res Z :=
  limitedescape (fun zs : C * R => let z := f (fst zs) in Ok (z, (snd zs + g (im z))%R))
    (fun zs => rlt (IZR lim) (size (snd zs))) ((P, Q), 0%R) lim maxiter.
Definition sinjulia (P Q : R) (c : C) (maxiter lim : Z) : res Z :=
  sumescape (fun z => cmul c (csin z)) (fun x => x) P Q maxiter lim Rabs.
Definition cosjulia (P Q : R) (c : C) (maxiter lim : Z) : res Z :=
  sumescape (fun z => cmul c (ccos z)) (fun x => x) P Q maxiter lim Rabs.
(** fractals.py:853-874 *)
Definition marekdragon (P Q : R) (d : C) (maxiter lim : Z) : res Z :=
  sumescape (fun z => cmul z (cadd d z)) Rabs P Q maxiter lim (fun s => s).
(** fractals.py:454-480 with the functions of 483-505, 533-705, 733-755: [g z] is the summand
    beside z ** d + c *)
Definition biomorph (step : C -> res C) (P Q a : R) (maxiter : Z) : res Z :=
  biomorphfunc step (fun z => rlt a (Rabs (re z))) (fun z => rlt a (Rabs (im z))) (P, Q) maxiter.
Definition biomorphstep (g : C -> C) (d : Z) (c : C) (z : C) : res C :=
  let! p := cpow z d in Ok (cadd (cadd (g z) p) c).
Definition multibiomorph (P Q : R) (c : C) (d maxiter : Z) (a : R) : res Z :=
  biomorph (fun z => let! p := cpow z d in Ok (cadd p c)) P Q a maxiter.
Definition multisinbiomorph P Q c d maxiter a : res Z := biomorph (biomorphstep csin d c) P Q a maxiter.
Definition multicosbiomorph P Q c d maxiter a : res Z := biomorph (biomorphstep ccos d c) P Q a maxiter.
Definition multisinhbiomorph P Q c d maxiter a : res Z := biomorph (biomorphstep csinh d c) P Q a maxiter.
Definition multicoshbiomorph P Q c d maxiter a : res Z := biomorph (biomorphstep ccosh d c) P Q a maxiter.
Definition multitanbiomorph P Q c d maxiter a : res Z := biomorph (biomorphstep ctan d c) P Q a maxiter.
Definition multitanhbiomorph P Q c d maxiter a : res Z := biomorph (biomorphstep ctanh d c) P Q a maxiter.
Definition multiexpbiomorph P Q c d maxiter a : res Z := biomorph (biomorphstep cexp d c) P Q a maxiter.
Definition multizconjugatebiomorph (P Q : R) (c : C) (d maxiter : Z) (a : R) : res Z :=
  biomorph (fun z => let! p := cpow (cconj z) d in Ok (cadd p c)) P Q a maxiter.
(** x ** d of floats for an integer d *)
Definition rpowz (x : R) (d : Z) : res R :=
  if (d <? 0) && req x 0 then Err ZeroDivisionError else Ok (powerRZ x d).
(** fractals.py:288-302, 305-319, 339-356, 359-376 *)
Definition multicircle (P Q : R) (d maxiter : Z) : res Z :=
  let! p := cpow (P, Q) d in pymod (rround (cabs p)) maxiter.
Definition multihyperbola (P Q : R) (d maxiter : Z) : res Z :=
  let! p := rpowz P d in let! q := rpowz Q d in pymod (rround (Rabs (p - q))) maxiter.
Definition astroid (P Q r : R) (maxiter : Z) : res Z :=
  let P := (P * P)%R in let Q := (Q * Q)%R in let r := (r * r)%R in
  pymod (rround (Rabs ((P + Q - r) ^ 3 + 27 * P * Q * r))) maxiter.
Definition lemniscate (P Q r : R) (maxiter : Z) : res Z :=
  let r := (r * r)%R in let P := (P * P)%R in let Q := (Q * Q)%R in
  pymod (rtrunc (Rabs ((P + Q) ^ 2 - 2 * r * (P - Q)))) maxiter.

(** fractals.py:877-902; the domain is (Pmax, Pmin, Qmax, Qmin) *)
Definition mapfractaldomain (x1 y1 x2 y2 : Z) (domain : R * R * R * R) : res (list (R * Z) * list (R * Z)) :=
  let '(Pmax, Pmin, Qmax, Qmin) := domain in
  let '(x1, y1, x2, y2) := sortrecpoints x1 y1 x2 y2 in
  let! dp := rdiv (Pmax - Pmin) (IZR (x2 - x1)) in
  let! dq := rdiv (Qmax - Qmin) (IZR (y2 - y1)) in
  Ok (map (fun x => (Pmin + IZR (x - x1) * dp, x)%R) (range x1 x2),
      map (fun y => (Qmin + IZR (y - y1) * dq, y)%R) (range y1 y2)).
(** fractals.py:905-930, 933-962; [func P Q] has the other arguments *)
Definition itermultifractal (x1 y1 x2 y2 : Z) (func : R -> R -> res Z) (domain : R * R * R * R) : res (list (Z * Z * Z)) :=
  let! m := mapfractaldomain x1 y1 x2 y2 domain in
  res_map (fun q : (R * Z) * (R * Z) => let! v := func (fst (fst q)) (fst (snd q)) in Ok (snd (fst q), snd (snd q), v))
    (flat_map (fun Qy => map (fun Px => (Px, Qy)) (fst m)) (snd m)).
(** fractals.py:965-985, 988-1010, 1013-1033 and with any exponent 1036-1058, 1356-1380, 1734-1756 *)
Definition itermandelbrot x1 y1 x2 y2 domain maxiter := itermultifractal x1 y1 x2 y2 (fun P Q => multibrot P Q 2 maxiter) domain.
Definition iterjulia x1 y1 x2 y2 c domain maxiter := itermultifractal x1 y1 x2 y2 (fun P Q => multijulia P Q c 2 maxiter) domain.
Definition itertricorn x1 y1 x2 y2 domain maxiter := itermultifractal x1 y1 x2 y2 (fun P Q => multicorn P Q 2 maxiter) domain.
(** The value at a pixel for plotmultifractal (BITMAPlib.py:9092-9203), which runs the loop over
    the pixels itself: one pass of the loops above. *)
Definition valueat (x1 y1 x2 y2 : Z) (func : R -> R -> res Z) (domain : R * R * R * R) (x y : Z) : res Z :=
  let '(Pmax, Pmin, Qmax, Qmin) := domain in
  let '(x1, y1, x2, y2) := sortrecpoints x1 y1 x2 y2 in
  let! dp := rdiv (Pmax - Pmin) (IZR (x2 - x1)) in
  let! dq := rdiv (Qmax - Qmin) (IZR (y2 - y1)) in
  func (Pmin + IZR (x - x1) * dp)%R (Qmin + IZR (y - y1) * dq)%R.
(** BITMAPlib.py:9259-9286, 9988-10018, 10511-10539 *)
Definition mandelbrotbmp x1 y1 x2 y2 domain (f : factors) maxiter : M unit :=
  plotmultifractal (valueat x1 y1 x2 y2 (fun P Q => multibrot P Q 2 maxiter) domain) f x1 y1 x2 y2.
Definition juliabmp x1 y1 x2 y2 c domain (f : factors) maxiter : M unit :=
  plotmultifractal (valueat x1 y1 x2 y2 (fun P Q => multijulia P Q c 2 maxiter) domain) f x1 y1 x2 y2.
Definition tricornbmp x1 y1 x2 y2 domain (f : factors) maxiter : M unit :=
  plotmultifractal (valueat x1 y1 x2 y2 (fun P Q => multicorn P Q 2 maxiter) domain) f x1 y1 x2 y2.

(** x % m of a float and an integer *)
Definition rmod (x : R) (m : Z) : res R :=
  if m =? 0 then Err ZeroDivisionError else Ok (x - IZR (Int_part (x / IZR m)) * IZR m)%R.
(** fractals.py:322-336 *)
Definition multisuperellipse (P Q : R) (d maxiter : Z) : res R :=
  let! p := rpowz P d in let! q := rpowz Q d in rmod (Rabs (p + q)) maxiter.
(** fractals.py:1109-1130 *)
Definition superellipseat (x1 y1 x2 y2 : Z) (domain : R * R * R * R) (d maxiter x y : Z) : res R :=
  let '(Pmax, Pmin, Qmax, Qmin) := domain in
  let '(x1, y1, x2, y2) := sortrecpoints x1 y1 x2 y2 in
  let! dp := rdiv (Pmax - Pmin) (IZR (x2 - x1)) in
  let! dq := rdiv (Qmax - Qmin) (IZR (y2 - y1)) in
  multisuperellipse (Pmin + IZR (x - x1) * dp)%R (Qmin + IZR (y - y1) * dq)%R d maxiter.
(** The bodies of the loops in BITMAPlib.py:9124-9145 for a float c and three factors; [mix lum] is
    colormix(lum, RGBfactors).  Storing a float in an array and & of a float raise TypeError. *)
Definition realpoint (mix : R -> Z) (bits x y : Z) (c : R) : M unit :=
  if bits =? 24 then lum <- lift (rmod ((255 - c) * 20) 256) ;; plotxybit x y (mix lum)
  else if bits =? 8 then s <- rd (o8bmofhd x y) ;; _ <- geti s ;; raise TypeError
  else if bits =? 4 then i <- rd (isinBMPrectbnd x y) ;; if i then raise TypeError else ret tt
  else r <- lift (rmod c 2) ;; plotxybit x y (if rlt 0 r then 1 else 0).
(** BITMAPlib.py:9385-9414 with 9092-9145 for three factors *)
Definition multisuperellipsebmp (mix : R -> Z) (x1 y1 x2 y2 : Z) (domain : R * R * R * R) (d maxiter : Z) : M unit :=
  bits <- geti bmpcolorbits ;;
  pts <- lift (fractalpoints x1 y1 x2 y2) ;;
  forM pts (fun p => c <- lift (superellipseat x1 y1 x2 y2 domain d maxiter (fst p) (snd p)) ;; realpoint mix bits (fst p) (snd p) c).
