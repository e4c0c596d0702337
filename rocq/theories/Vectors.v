(** mathlib.py and primitives2D.py: lists of points, bounds, distances, spirals.  Numbers are
    integers or rational numbers in place of floats.  Paths are relative to /repo/pythonbmp. *)
From Coq Require Import ZArith QArith List Bool.
From Verif Require Import PyBase Bmp MathLib Fractal Exact Colours.
Import ListNotations.
Open Scope Z_scope.
Open Scope py_scope.

(** mathlib.py:1308-1319; reduce raises TypeError on an empty list *)
Definition addvectinlist (vlist : list (list Z)) : res (list Z) :=
  match vlist with [] => Err TypeError | v :: t => Ok (fold_left addvect t v) end.
(** mathlib.py:1339-1358, for lists of at least three items *)
Definition addvecttripletlist (t : list Z * list Z * list Z) : list Z :=
  let '(u, v, w) := t in addvect (addvect u v) w.
(** mathlib.py:1361-1379 *)
Definition addvectlist (v1 v2 : list (list Z)) : list (list Z) := map (fun p => addvect (fst p) (snd p)) (combine v1 v2).
(** mathlib.py:1105-1122 *)
Definition mirrorvec (vcen v : list Z) : list (list Z) := [subvect vcen v; addvect vcen v].

(** mathlib.py:1591-1602 (and 1576-1588 with the real and imaginary parts); min and max raise
    ValueError on an empty list and return the first of equal items *)
Definition qmin_list (l : list Q) : res Q :=
  match l with [] => Err ValueError | a :: t => Ok (fold_left (fun m q => if negb (Qle_bool m q) then q else m) t a) end.
Definition qmax_list (l : list Q) : res Q :=
  match l with [] => Err ValueError | a :: t => Ok (fold_left (fun m q => if negb (Qle_bool q m) then q else m) t a) end.
Definition getdomainbounds (v : list (Q * Q)) : res (Q * Q * Q * Q) :=
  let p := map fst v in
  let q := map snd v in
  let! xmin := qmin_list p in
  let! xmax := qmax_list p in
  let! ymin := qmin_list q in
  let! ymax := qmax_list q in
  Ok (xmin, xmax, ymin, ymax).
(** mathlib.py:1618-1636: the cells of the points, then their counts (Fractal.histogram2D).
    With one bin the division by xbins - 1 raises, and so does the division by a bin size
    of 0. *)
Definition pycell (z low size : Q) : res Z :=
  if Qeq_bool size 0 then Err ZeroDivisionError else Ok (qtrunc ((z - low) / size)).
Definition binsize (low high : Q) (bins : Z) : res Q :=
  if bins =? 1 then Err ZeroDivisionError else Ok ((high - low) / inject_Z (bins - 1))%Q.
Definition cellsof (v : list (Q * Q)) (xbins ybins : Z) : res (list (Z * Z)) :=
  let! bnd := getdomainbounds v in
  let '(xmin, xmax, ymin, ymax) := bnd in
  let! xs := binsize xmin xmax xbins in
  let! ys := binsize ymin ymax ybins in
  res_map (fun z => let! r := pycell (snd z) ymin ys in let! c := pycell (fst z) xmin xs in Ok (c, r)) v.
Definition histogram (v : list (Q * Q)) (xbins ybins : Z) : res (list (list Z)) :=
  let! cells := cellsof v xbins ybins in histogram2D cells xbins ybins.

(** primitives2D.py:793-822 *)
Definition listinrecbnd (xylist : list (Z * Z)) (xmin ymin xmax ymax : Z) : bool :=
  let fix loop l := match l with
                    | [] => true
                    | (x, y) :: t => if Bool.eqb (isinrectbnd x y xmin ymin xmax ymax) false then true (* break *) else loop t
                    end in
  loop xylist.

(** mathlib.py:733-750; [dist u v] is their distance, squared so that it is an integer;
    list.index finds the first equal item *)
Fixpoint index_of (v : Z * Z) (l : list (Z * Z)) : Z :=
  match l with
  | [] => 0
  | u :: t => if (fst u =? fst v) && (snd u =? snd v) then 0 else 1 + index_of v t
  end.
Definition same (u v : Z * Z) : bool := (fst u =? fst v) && (snd u =? snd v).
Definition distancetable (dist : Z * Z -> Z * Z -> Z) (vertlist : list (Z * Z)) : list (Z * Z * Z) :=
  List.concat (map (fun v =>
    map (fun u => (index_of v vertlist, index_of u vertlist, dist u v)) (filter (fun u => negb (same u v)) vertlist)) vertlist).
(** mathlib.py:753-761: the counts in the order of first occurrence *)
Fixpoint bump (d : Z) (l : list (Z * Z)) : list (Z * Z) :=
  match l with
  | [] => [(d, 1)]
  | (k, n) :: t => if k =? d then (k, n + 1) :: t else (k, n) :: bump d t
  end.
Definition countdist (distlist : list (Z * Z * Z)) : list (Z * Z) := fold_left (fun d i => bump (snd i) d) distlist [].

(** primitives2D.py:711-750, for an integer growth factor *)
Fixpoint spiralturns (turns : nat) (x y step inc growth : Z) : list (Z * Z) :=
  match turns with
  | O => []
  | S n =>
      let x1 := x + step in
      let y1 := y + (step + inc) in
      let x2 := x1 - (step + inc + inc) in
      let y2 := y1 - (step + inc + inc + inc) in
      (x1, y) :: (x1, y1) :: (x2, y1) :: (x2, y2) :: spiralturns n x2 y2 (step + inc + inc + inc + inc) (inc * growth) growth
  end.
Definition spiralcontrolpointsvert (x y step growth turns : Z) : list (Z * Z) :=
  (x, y) :: spiralturns (Z.to_nat turns) x y step step growth.
