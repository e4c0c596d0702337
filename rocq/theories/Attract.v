(** Lists of points of attractors and their pictures, over real and complex numbers in place of
    floats ([Cplx]). *)
From Coq Require Import ZArith Reals Lra Lia List Bool.
From Verif Require Import PyBase Bmp MathLib Region Geometry Files Fractal Coords Sweeps Cplx Escape.
Import ListNotations.
Open Scope py_scope.
Open Scope R_scope.

(** n passes of a loop that stores what each pass computes from the last *)
Fixpoint passes {A} (step : A -> A) (n : nat) (s : A) : list A :=
  match n with O => [] | S n => let s := step s in s :: passes step n s end.
(** fractals.py:1969-1984 *)
Definition ikedastep (a b k p : R) (z : C) : C :=
  cadd (rtoc a) (cmul (cmul (rtoc b) z) (cexp (csub (cmul cI (rtoc k)) (cmul (cmul cI (rtoc p)) (cinv (rtoc (1 + cabs (cmul z z)))))))).
Definition ikedaattractorlist (a b k p : R) (n : Z) : list C := passes (ikedastep a b k p) (Z.to_nat n) (0, 0).
(** fractals.py:1987-2003 *)
Definition nattractorlist (a b c d : R) (n : Z) : list (R * R) :=
  passes (fun s => let x := a * sin (a * snd s) + b * cos (b * fst s) in (x, c * sin (c * x) + d * cos (d * snd s))) (Z.to_nat n) (0, 0).
(** fractals.py:2006-2036; the state is (x, y), g *)
Definition gumowskif (a x : R) : R := a * x + 2 * (1 - a) * x * x * / ((1 + x * x) * (1 + x * x)).
Definition gumowskimiraattractorlist (x y a b : R) (n : Z) : list (R * R) :=
  map fst (passes (fun s : R * R * R => let '(x, y, g) := s in let x' := b * y + g in let g' := gumowskif a x' in (x', g' - x, g')) (Z.to_nat n) (x, y, gumowskif a x)).
(** fractals.py:2039-2060, 2063-2084, 2087-2114 *)
Definition peterdejongattractorlist (a b c d : R) (n : Z) : list (R * R) :=
  passes (fun s => (sin (a * snd s) - cos (b * fst s), sin (c * fst s) - cos (d * snd s))) (Z.to_nat n) (0, 0).
Definition cliffordattractorlist (a b c d : R) (n : Z) : list (R * R) :=
  passes (fun s => (sin (a * snd s) + c * cos (a * fst s), sin (b * fst s) + d * cos (b * snd s))) (Z.to_nat n) (0, 0).
Definition fractaldreamattractorlist (a b c d : R) (n : Z) : list (R * R) :=
  passes (fun s => (sin (b * snd s) + c * sin (b * fst s), sin (a * fst s) + d * sin (a * snd s))) (Z.to_nat n) (1 / 10, 1 / 10).
(** fractals.py:2117-2138; sign: mathlib.py:424-440 *)
Definition hopalongattractorlist (a b c : R) (n : Z) : list (R * R) :=
  passes (fun s => (snd s - rsign (fst s) * sqrt (Rabs (b * fst s - c)), a - fst s)) (Z.to_nat n) (0, 0).
(** fractals.py:2141-2171 *)
Definition iconstep (a b g o l : R) (d : Z) (z : C) : res C :=
  let! p := cpow z (d - 1) in
  let c := cconj z in
  Ok (csub (cadd (cmul (rtoc (a * cabs (cmul z c) + l + b * (re z * re p - im z * im p))) z) (cconj (cmul (rtoc g) p))) (cmul (cmul (rtoc o) c) cI)).
Fixpoint iconpasses (step : C -> res C) (n : nat) (z : C) : res (list C) :=
  match n with O => Ok [] | S n => let! z := step z in let! v := iconpasses step n z in Ok (z :: v) end.
Definition symmetriciconattractorlist (x y a b g o l : R) (d n : Z) : res (list C) := iconpasses (iconstep a b g o l d) (Z.to_nat n) (x, y).
(** fractals.py:2174-2201; the state is (x, y), t *)
Definition duffingattractorlist (x y t dt a b w : R) (n : Z) : list (R * R) :=
  map fst (passes (fun s : R * R * R => let '(x, y, t) := s in
    let dx := y * dt in let dy := (x - x ^ 3 - a * y + b * cos (w * t)) * dt in (x + dx, y + dy, t + dt)) (Z.to_nat n) (x, y, t)).

(** mathlib.py:1576-1588, 1591-1602: min and max of a list *)
Definition rminlist (l : list R) : res R := match l with [] => Err ValueError | a :: l => Ok (fold_left Rmin l a) end.
Definition rmaxlist (l : list R) : res R := match l with [] => Err ValueError | a :: l => Ok (fold_left Rmax l a) end.
Definition rdomainbounds (v : list (R * R)) : res (R * R * R * R) :=
  let p := map fst v in let q := map snd v in
  let! x0 := rminlist p in let! x1 := rmaxlist p in let! y0 := rminlist q in let! y1 := rmaxlist q in Ok (x0, x1, y0, y1).
(** mathlib.py:1618-1636, 1639-1658: the pairs (column, row) of the bins, counted by Fractal.histogram2D *)
Definition rcells (v : list (R * R)) (xbins ybins : Z) : res (list (Z * Z)) :=
  let! bnd := rdomainbounds v in
  let '(xmin, xmax, ymin, ymax) := bnd in
  let! xs := rdiv (xmax - xmin) (IZR (xbins - 1)) in
  let! ys := rdiv (ymax - ymin) (IZR (ybins - 1)) in
  res_map (fun z => let! r := rdiv (snd z - ymin) ys in let! c := rdiv (fst z - xmin) xs in Ok (rtrunc c, rtrunc r)) v.
(** BITMAPlib.py:12640-12661, 12664-12685 *)
Definition rscale (m d v : Z) : Z := rtrunc (IZR v * (IZR (m - 1) / IZR d)).
Definition drawattractor (v : list (R * R)) (x y bits : Z) : F (list Z) :=
  cells <~ flift (rcells v x y) ;; plotattractor rscale cells x y bits.
(** BITMAPlib.py:12688-12865 *)
Definition ikedaattractor (x y bits : Z) (a b k p : R) (n : Z) := drawattractor (ikedaattractorlist a b k p n) x y bits.
Definition nattractor (x y bits : Z) (a b c d : R) (n : Z) := drawattractor (nattractorlist a b c d n) x y bits.
Definition peterdejongattractor (x y bits : Z) (a b c d : R) (n : Z) := drawattractor (peterdejongattractorlist a b c d n) x y bits.
Definition duffingattractor (x y bits : Z) (a b w dt : R) (n : Z) := drawattractor (duffingattractorlist 0 0 0 dt a b w n) x y bits.
Definition hopalongattractor (x y bits : Z) (a b c : R) (n : Z) := drawattractor (hopalongattractorlist a b c n) x y bits.
Definition symmetriciconattractor (x y bits : Z) (ox oy a b g o l : R) (d n : Z) : F (list Z) :=
  v <~ flift (symmetriciconattractorlist ox oy a b g o l d n) ;; drawattractor v x y bits.
Definition cliffordattractor (x y bits : Z) (a b c d : R) (n : Z) := drawattractor (cliffordattractorlist a b c d n) x y bits.
Definition fractaldreamattractor (x y bits : Z) (a b c d : R) (n : Z) := drawattractor (fractaldreamattractorlist a b c d n) x y bits.
Definition gumowskimiraattractor (x y bits : Z) (ox oy a b : R) (n : Z) := drawattractor (gumowskimiraattractorlist ox oy a b n) x y bits.
