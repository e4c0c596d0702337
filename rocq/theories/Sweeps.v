(** primitives2D.py: parametric curves.  Numbers are real numbers in place of floats, complex
    numbers pairs of them; generators are lists.  Paths are relative to /repo/pythonbmp. *)
From Coq Require Import ZArith Reals List Bool.
From Verif Require Import PyBase Bmp MathLib Coords.
Import ListNotations.
Open Scope Z_scope.
Open Scope py_scope.

(** cmath.rect and complex sums *)
Definition crect (r a : R) : R * R := (r * cos a, r * sin a)%R.
Definition cadd (z w : R * R) : R * R := (fst z + fst w, snd z + snd w)%R.
Definition csub (z w : R * R) : R * R := (fst z - fst w, snd z - snd w)%R.
Definition cmul (z w : R * R) : R * R := (fst z * fst w - snd z * snd w, fst z * snd w + snd z * fst w)%R.
Definition cscale (r : R) (z : R * R) : R * R := (r * fst z, r * snd z)%R.
Definition cround (z : R * R) : Z * Z := (rround (fst z), rround (snd z)).
Definition ctrunc (z : R * R) : Z * Z := (rtrunc (fst z), rtrunc (snd z)).

(** the loops [while t < lim: ...; t += delta], for at most [fuel] passes *)
Fixpoint sweep {A} (fuel : nat) (f : R -> A) (delta lim t : R) : res (list A) :=
  if rlt t lim then
    match fuel with
    | O => Err Diverges
    | S n => let! l := sweep n f delta lim (t + delta)%R in Ok (f t :: l)
    end
  else Ok [].

(** primitives2D.py:899-932, 935-959 *)
Definition spirographpoint (x y : Z) (r l k a : R) : R * R :=
  let e := (l * k)%R in
  let d := (1 - k)%R in
  let f := (d / k)%R in
  cadd (cscale r (cadd (crect d a) (crect e (a * f)))) (real (x, y)).
Definition iterspirograph fuel (x y : Z) (r l k delta lim : R) : res (list (Z * Z)) :=
  let! _ := rdiv (1 - k) k in
  sweep fuel (fun a => cround (spirographpoint x y r l k a)) delta lim 0.
(** primitives2D.py:962-993, 996-1024 *)
Definition iterlissajouscurve fuel (x y : Z) (a b c d e delta lim : R) : res (list (Z * Z)) :=
  sweep fuel (fun t => (x + rround (a * cos (c * t + e)), y + rround (b * sin (d * t)))) delta lim 0.
(** primitives2D.py:1027-1063, 1066-1095 *)
Definition involutepoint (x y : Z) (a t : R) : R * R :=
  let z := crect 1 t in
  let z := cmul z (cmul (cscale a (cscale t z)) (0, 1)%R) in
  cadd z (real (x, y)).
Definition itercircleinvolute fuel (x y : Z) (a delta lim : R) : res (list (Z * Z)) :=
  sweep fuel (fun t => cround (involutepoint x y a t)) delta lim 0.
(** primitives2D.py:1098-1130, 1133-1157 *)
Definition epicycloidpoint (x y : Z) (a b t : R) : R * R :=
  let p := (a + b)%R in
  let c := (a / b + 1)%R in
  cadd (csub (crect p t) (crect b (c * t))) (real (x, y)).
Definition iterepicycloid fuel (x y : Z) (a b delta lim : R) : res (list (Z * Z)) :=
  let! _ := rdiv a b in
  sweep fuel (fun t => cround (epicycloidpoint x y a b t)) delta lim 0.
(** primitives2D.py:1160-1196, 1199-1227 *)
Definition hypotrochoidpoint (x y : Z) (a b c t : R) : R * R :=
  let p := (a - b)%R in
  let d := (a / b + 1)%R in
  cadd (csub (crect p t) (crect c (d * t))) (real (x, y)).
Definition iterhypotrochoid fuel (x y : Z) (a b c delta lim : R) : res (list (Z * Z)) :=
  let! _ := rdiv a b in
  sweep fuel (fun t => cround (hypotrochoidpoint x y a b c t)) delta lim 0.

(** primitives2D.py:1230-1251, 1254-1267 *)
Definition flowerpoint (cx cy r petals : Z) (angrot : R) (a : Z) : R * R :=
  let p := (IZR petals / 2)%R in
  let ang := radians (IZR a / IZR petals) in
  let f := (cos (p * ang) ^ 2 * IZR r)%R in
  let rang := (ang + radians angrot)%R in
  (IZR cx - f * sin rang, IZR cy - f * cos rang)%R.
Definition iterflower (cx cy r petals : Z) (angrot : R) : list (Z * Z) :=
  map (fun a => ctrunc (flowerpoint cx cy r petals angrot a)) (range 0 (360 * petals)).

(** x ** p for x >= 0 and p > 0 *)
Definition rpow (x p : R) : R := if req x 0 then 0%R else Rpower x p.
(** mathlib.py:424-440 *)
Definition rsign (w : R) : R := if rlt 0 w then 1%R else if rlt w 0 then (-1)%R else 0%R.
(** primitives2D.py:1359-1380, 1383-1399, for positive m and n *)
Definition superellipsepoint (a b m n t : R) : R * R :=
  let p := (2 / m)%R in
  let q := (2 / n)%R in
  (rpow (Rabs (cos t)) p * a * rsign (cos t), rpow (Rabs (sin t)) q * b * rsign (sin t))%R.
Definition itersuperellipse (cx cy : Z) (a b m n : R) : list (Z * Z) :=
  map (fun i => let z := superellipsepoint a b m n (radians (IZR i)) in (cx + rtrunc (fst z), cy + rtrunc (snd z))) (range 0 360).
(** primitives2D.py:1323-1338, 1341-1356 *)
Definition itersquircle (x y r : Z) : list (Z * Z) := itersuperellipse x y (IZR r) (IZR r) 4 4.

(** primitives2D.py:1402-1420, 1423-1437 *)
Definition gearpoint (cx cy a b n : Z) (t : R) : R * R :=
  cadd (crect (IZR a + IZR b * tanh (IZR b * sin (IZR n * t))) t) (real (cx, cy)).
Definition itergearcurve (cx cy a b n : Z) : list (Z * Z) :=
  map (fun i => ctrunc (gearpoint cx cy a b n (radians (IZR i)))) (range 0 360).

(** primitives2D.py:1440-1457, 1460-1472; the constant stands for pi / 180 *)
Fixpoint cornusteps (n : nat) (k : R) (i : Z) (z : R * R) : list (R * R) :=
  match n with
  | O => []
  | S n => let t := radians (IZR i) in
           let z := cadd z (crect k (t * t)) in
           z :: cornusteps n k (i + 1) z
  end.
Definition itercornuspiral (cx cy r : Z) : list (Z * Z) :=
  map ctrunc (cornusteps 360 (radians (IZR r)) 0 (real (cx, cy))).

(** primitives2D.py:1475-1493, 1496-1508 *)
Definition heartpoint (t : R) : R * R :=
  (16 * sin t ^ 3, 13 * cos t - 5 * cos (2 * t) - 2 * cos (3 * t) - cos (4 * t))%R.
Definition iterheartcurve (cx cy s : Z) : list (Z * Z) :=
  map (fun i => let z := heartpoint (radians (IZR i)) in (cx + rtrunc (IZR s * fst z), cy - rtrunc (IZR s * snd z))) (range 0 360).

(** primitives2D.py:1511-1537, 1540-1553.  The real part of the square root of a negative
    number is 0, as Coq's [sqrt]. *)
Definition eggheight (a b : R) (x : Z) : Z :=
  let k := (a - b)%R in
  rtrunc (sqrt (k - 2 * IZR x + sqrt (4 * b * IZR x + k)) * sqrt (IZR x) / sqrt 2).
Definition itereggcurve (cx cy a : Z) (b : R) : list (Z * Z) :=
  let k := (IZR a - b)%R in
  let c := Z.shiftr a 1 in
  if rlt 0 k then
    List.concat (map (fun x =>
      let y := eggheight (IZR a) b x in
      if 0 <? y then let px := cx + x - c in [(px, cy - y); (px, cy + y)] else []) (range 0 a))
  else [].
