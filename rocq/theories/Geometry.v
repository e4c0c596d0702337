(** Model of the integer point generators of primitives2D.py and of the helpers
    of mathlib.py they use.  A generator is modelled as the list of the points it
    yields; [Err Diverges] stands for a generator that never ends.
    Paths are relative to /repo/pythonbmp. *)
From Coq Require Import ZArith List Bool.
From Verif Require Import PyBase Bmp.
Import ListNotations.
Open Scope Z_scope.
Open Scope py_scope.

(** while cond(s): yield ...; s = ... *)
Fixpoint gen_while {S A} (fuel : nat) (cond : S -> bool) (body : S -> list A * S) (s : S)
  : res (list A * S) :=
  if cond s then
    match fuel with
    | O => Err Diverges
    | Datatypes.S n =>
        let (ys, s') := body s in
        let! r := gen_while n cond body s' in
        Ok (ys ++ fst r, snd r)
    end
  else Ok ([], s).

(** mathlib.py:424-440 *)
Definition sign (v : Z) : Z := if v >? 0 then 1 else if v =? 0 then 0 else -1.

(** mathlib.py:1125-1135 *)
Definition mirror (pt delta : Z) : Z * Z := (pt - delta, pt + delta).

(** mathlib.py:1225-1246 *)
Definition mirror1stquad (x y : Z) (v : Z * Z) : list (Z * Z) :=
  let (xmin, xmax) := mirror x (fst v) in
  let (ymin, ymax) := mirror y (snd v) in
  [(xmin, ymax); (xmax, ymax); (xmin, ymin); (xmax, ymin)].

(** primitives2D.py:157-196.  The two symmetric branches are one loop each; the
    loop variables x, y, px, py are carried explicitly. *)
Fixpoint iterline_x (n : nat) (dxabs dyabs sdx sdy y px py : Z) : list (Z * Z) :=
  match n with
  | O => []
  | S n' =>
      let y := y + dyabs in
      let (y, py) := if y >=? dxabs then (y - dxabs, py + sdy) else (y, py) in
      (px, py) :: iterline_x n' dxabs dyabs sdx sdy y (px + sdx) py
  end.
Fixpoint iterline_y (n : nat) (dxabs dyabs sdx sdy x px py : Z) : list (Z * Z) :=
  match n with
  | O => []
  | S n' =>
      let x := x + dxabs in
      let (x, px) := if x >=? dyabs then (x - dyabs, px + sdx) else (x, px) in
      (px, py) :: iterline_y n' dxabs dyabs sdx sdy x px (py + sdy)
  end.
Definition iterline (p1 p2 : Z * Z) : list (Z * Z) :=
  let dx := fst p2 - fst p1 in
  let dy := snd p2 - snd p1 in
  let sdx := sign dx in
  let sdy := sign dy in
  let dxabs := Z.abs dx in
  let dyabs := Z.abs dy in
  (if dxabs >=? dyabs
   then iterline_x (Z.to_nat (dxabs + 1)) dxabs dyabs sdx sdy 0 (fst p1) (snd p1)
   else iterline_y (Z.to_nat (dyabs + 1)) dxabs dyabs sdx sdy 0 (fst p1) (snd p1))
  ++ [p2].

(** The initial decision variable of the three circle generators,
    primitives2D.py:67-71, 100-104 and 137-141. *)
Definition circ_d0 (r : Z) : Z :=
  let r_sqr := r * r in
  Z.shiftl r_sqr 1 * ((r - 1) * r) + r_sqr + Z.shiftl r_sqr 1 * (1 - r_sqr).

(** primitives2D.py:52-80 *)
Definition itercirclepart_body (r : Z) (s : Z * Z * Z) : list (Z * Z) * (Z * Z * Z) :=
  let '(row, col, d) := s in
  let r_sqr := r * r in
  let ys := (col, row) :: (if row =? col then [] else [(row, col)]) in
  let (row, d) :=
    if d >=? 0 then (row - 1, d - Z.shiftl r_sqr 2 * (row - 1)) else (row, d) in
  (ys, (row, col + 1, d + Z.shiftl r_sqr 1 * (3 + Z.shiftl col 1))).
Definition itercirclepart (r : Z) : res (list (Z * Z)) :=
  let! g := gen_while (Z.to_nat (r + 1)) (fun '(row, col, d) => row >=? col)
                      (itercirclepart_body r) (r, 0, circ_d0 r) in
  Ok (fst g).

(** primitives2D.py:311-326 *)
Definition itercircle (x y r : Z) : res (list (Z * Z)) :=
  let! l := itercirclepart r in Ok (flat_map (mirror1stquad x y) l).

(** [v in l] for a list of integers *)
Definition memz (v : Z) (l : list Z) : bool := existsb (Z.eqb v) l.

(** primitives2D.py:83-117 *)
Definition itercirclepartlineedge_body (r : Z) (s : Z * Z * Z * list Z)
  : list (Z * Z) * (Z * Z * Z * list Z) :=
  let '(row, col, d, y) := s in
  let r_sqr := r * r in
  let (ys1, y) := if memz col y then ([], y) else ([(row, col)], y ++ [col]) in
  let '(ys2, y, row, d) :=
    if d >=? 0 then
      let (ys2, y) := if memz row y then ([], y) else ([(col, row)], y ++ [row]) in
      (ys2, y, row - 1, d - Z.shiftl r_sqr 2 * (row - 1))
    else ([], y, row, d) in
  (ys1 ++ ys2, (row, col + 1, d + Z.shiftl r_sqr 1 * (3 + Z.shiftl col 1), y)).
Definition itercirclepartlineedge (r : Z) : res (list (Z * Z)) :=
  let! g := gen_while (Z.to_nat (r + 1)) (fun '(row, col, d, y) => row >=? col)
                      (itercirclepartlineedge_body r) (r, 0, circ_d0 r, []) in
  Ok (fst g).

(** primitives2D.py:120-154 *)
Definition itercirclepartvertlineedge_body (r : Z) (s : Z * Z * Z * list Z)
  : list (Z * Z) * (Z * Z * Z * list Z) :=
  let '(row, col, d, x) := s in
  let r_sqr := r * r in
  let (ys1, x) := if memz col x then ([], x) else ([(col, row)], x ++ [col]) in
  let (ys2, x) := if memz row x then ([], x) else ([(row, col)], x ++ [row]) in
  let (row, d) :=
    if d >=? 0 then (row - 1, d - Z.shiftl r_sqr 2 * (row - 1)) else (row, d) in
  (ys1 ++ ys2, (row, col + 1, d + Z.shiftl r_sqr 1 * (3 + Z.shiftl col 1), x)).
Definition itercirclepartvertlineedge (r : Z) : res (list (Z * Z)) :=
  let! g := gen_while (Z.to_nat (r + 1)) (fun '(row, col, d, x) => row >=? col)
                      (itercirclepartvertlineedge_body r) (r, 0, circ_d0 r, []) in
  Ok (fst g).

(** primitives2D.py:228-266; the number of turns of each [while] loop is bounded
    by a fuel argument. *)
Definition iterellipsepart_body1 (b a : Z) (s : Z * Z * Z) : list (Z * Z) * (Z * Z * Z) :=
  let '(row, col, d) := s in
  let (row', d) :=
    if d >=? 0 then (row - 1, d - Z.shiftl (a * a) 2 * (row - 1)) else (row, d) in
  ([(col, row)], (row', col + 1, d + Z.shiftl (b * b) 1 * (3 + Z.shiftl col 1))).
Definition iterellipsepart_body2 (b a : Z) (s : Z * Z * Z) : list (Z * Z) * (Z * Z * Z) :=
  let '(row, col, d) := s in
  let (col', d) :=
    if d >=? 0 then (col + 1, d - Z.shiftl (b * b) 2 * (col + 1)) else (col, d) in
  ([(col, row)], (row - 1, col', d + Z.shiftl (a * a) 1 * (3 + Z.shiftl row 1))).
Definition iterellipsepart_fuel (fuel : nat) (b a : Z) : res (list (Z * Z)) :=
  let a_sqr := a * a in
  let b_sqr := b * b in
  let d := Z.shiftl a_sqr 1 * ((b - 1) * b) + a_sqr + Z.shiftl b_sqr 1 * (1 - a_sqr) in
  let! g1 := gen_while fuel (fun '(row, col, d) => row * a_sqr >=? col * b_sqr)
                       (iterellipsepart_body1 b a) (b, 0, d) in
  let '(row, col, _) := snd g1 in
  let d := Z.shiftl b_sqr 1 * ((col - 1) * col) + Z.shiftl a_sqr 1 * (row * (row - 2) + 1)
           + (1 - Z.shiftl a_sqr 1) * b_sqr in
  let! g2 := gen_while fuel (fun '(row, col, d) => row >? -1)
                       (iterellipsepart_body2 b a) (row, col, d) in
  Ok (fst g1 ++ fst g2).
