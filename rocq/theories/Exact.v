(** Statistics, interpolation, Bezier curves and B-splines.  Floats are replaced by
    rational numbers: rounding errors, infinities and nan are not modelled. *)
From Coq Require Import ZArith QArith Qround List Bool.
From Verif Require Import PyBase Bmp Geometry MathLib Solids.
Import ListNotations.
Open Scope Q_scope.
Open Scope py_scope.

(** a / b *)
Definition qdiv (a b : Q) : res Q := if Qeq_bool b 0 then Err ZeroDivisionError else Ok (a / b).
(** sum() *)
Definition qtotal (v : list Q) : Q := fold_left Qplus v 0.

(** ** Statistics of integers *)

(** mathlib.py:275-285 *)
Definition mean (v : list Z) : res Q := qdiv (inject_Z (py_sum v)) (inject_Z (zlen v)).
(** mathlib.py:318-331 *)
Definition variance (v : list Z) : res (list Q) :=
  let! ave := mean v in Ok (map (fun n => inject_Z n - ave) v).
(** mathlib.py:443-462; an item of the table that is missing raises IndexError *)
Definition LSMslope (XYdata : list (list Z)) : res Q :=
  let! XY := pivotlist XYdata in
  let N := zlen XYdata in
  let! X := item XY 0 in
  let! Y := item XY 1 in
  let EX := py_sum X in
  let EY := py_sum Y in
  let EXY := py_sum (mulvect X Y) in
  let EsqX := py_sum (mulvect X X) in
  qdiv (inject_Z (N * EXY - EX * EY)) (inject_Z (N * EsqX - EX ^ 2)).
(** mathlib.py:465-480 *)
Definition LSMYint (XYdata : list (list Z)) : res Q :=
  let! XY := pivotlist XYdata in
  let! X := item XY 0 in let! meanX := mean X in
  let! Y := item XY 1 in let! meanY := mean Y in
  let! m := LSMslope XYdata in
  Ok (meanY - m * meanX).
(** mathlib.py:483-520; [root] stands for sqrt *)
Definition PearsonsR (root : Q -> Q) (XYdata : list (list Z)) : res Q :=
  let! XY := pivotlist XYdata in
  let N := zlen XYdata in
  let! X := item XY 0 in
  let! Y := item XY 1 in
  let EX := py_sum X in
  let EY := py_sum Y in
  let EXY := py_sum (mulvect X Y) in
  let EsqX := py_sum (mulvect X X) in
  let EsqY := py_sum (mulvect Y Y) in
  qdiv (inject_Z (N * EXY - EX * EY)) (root (inject_Z (Z.abs (N * EsqX - EX ^ 2) * Z.abs (N * EsqY - EY ^ 2)))).
(** mathlib.py:523-545 *)
Definition Rsquare (root : Q -> Q) (XYdata : list (list Z)) : res Q := let! r := PearsonsR root XYdata in Ok (r * r).
(** mathlib.py:553-563 *)
Definition StdDev (root : Q -> Q) (v : list Z) : res Q :=
  let! vr := variance v in
  let! q := qdiv (qtotal (map (fun d => d * d) vr)) (inject_Z (zlen v)) in
  Ok (root q).
(** mathlib.py:581-596 *)
Definition coefvar (root : Q -> Q) (v : list Z) : res Q :=
  let! s := StdDev root v in let! m := mean v in qdiv s m.

(** ** Interpolation *)

(** mathlib.py:1673-1690 *)
Definition lerp (a b f : Q) : Q := (1 - f) * a + f * b.
(** mathlib.py:1693-1714 *)
Definition invlerp (a b v : Q) : Q :=
  let d := b - a in if negb (Qeq_bool d 0) then (v - a) / d else 1.
(** mathlib.py:1717-1737 *)
Definition clamp (x a b : Q) : Q :=
  let x := if negb (Qle_bool a x) then a else x in
  if negb (Qle_bool x b) then b else x.
(** mathlib.py:1740-1763, 1766-1789, 1792-1815 *)
Definition smoothstep (a b v : Q) : Q :=
  let d := b - a in
  let v := if negb (Qeq_bool d 0) then (v - a) / d else 1 in
  v * v * (3 - 2 * v).
Definition smootherstep (a b v : Q) : Q :=
  let d := b - a in
  let v := if negb (Qeq_bool d 0) then (v - a) / d else 1 in
  v * v * v * (v * (v * 6 - 15) + 10).
Definition smootheststep (a b v : Q) : Q :=
  let d := b - a in
  let v := if negb (Qeq_bool d 0) then (v - a) / d else 1 in
  v * v * v * v * (v * (v * (-20 * v + 70) - 84) + 35).
(** mathlib.py:1834-1894 *)
Definition smoothsteplerp (a b f : Q) : Q := lerp a b (smoothstep a b (lerp a b f)).
Definition smoothersteplerp (a b f : Q) : Q := lerp a b (smootherstep a b (lerp a b f)).
Definition smootheststeplerp (a b f : Q) : Q := lerp a b (smootheststep a b (lerp a b f)).

(** ** Curves *)

(** round(): to the nearest integer, halves to the even one *)
Definition qround (q : Q) : Z :=
  let f := Qfloor q in
  match Qcompare (q - inject_Z f) (1 # 2) with
  | Lt => f
  | Gt => (f + 1)%Z
  | Eq => if Z.even f then f else (f + 1)%Z
  end.
(** mathlib.py:120-131 *)
Definition roundvect (v : Q * Q) : Z * Z := (qround (fst v), qround (snd v)).
(** addvect and scalarmulvect for pairs, mathlib.py:149-160 and 214-231 *)
Definition plus2 (u v : Q * Q) : Q * Q := (fst u + fst v, snd u + snd v).
Definition scale2 (p : Z * Z) (c : Q) : Q * Q := (inject_Z (fst p) * c, inject_Z (snd p) * c).
(** math.comb *)
Fixpoint comb (n i : nat) : Z :=
  match n, i with
  | _, O => 1%Z
  | O, S _ => 0%Z
  | S n', S i' => (comb n' i' + comb n' (S i'))%Z
  end.
(** u ** i *)
Fixpoint qpow (u : Q) (i : nat) : Q := match i with O => 1 | S k => u * qpow u k end.
(** primitives2D.py:329-331 *)
Definition bezierblend (i n : nat) (u : Q) : Q := inject_Z (comb n i) * qpow u i * qpow (1 - u) (n - i).
(** the loop over j, primitives2D.py:357-363 *)
Definition bezierpoint (pntlist : list (Z * Z)) (i : nat) (u : Q) : Q * Q :=
  fold_left (fun v j => plus2 v (scale2 (nth j pntlist (0, 0)%Z) (bezierblend j (i - 1) u))) (seq 0 i) (0, 0).
(** primitives2D.py:334-366; the state of the loops is the last point w and the points
    yielded so far *)
Definition iterbeziercurve (pntlist : list (Z * Z)) : res (list (Z * Z)) :=
  match pntlist with
  | [] => Err IndexError
  | p0 :: _ =>
      let cnt := length pntlist in
      let klim := (4 * cnt)%nat in
      Ok (snd (fold_left (fun s i =>
          if (cnt <=? i + 1)%nat (* i > cnt - 2 *) then
            fold_left (fun s k =>
                let v := bezierpoint pntlist i (inject_Z (Z.of_nat k) / inject_Z (Z.of_nat klim)) in
                (v, snd s ++ iterline (roundvect v) (roundvect (fst s)))) (seq 0 klim) s
          else s) (seq 0 cnt) ((inject_Z (fst p0), inject_Z (snd p0)), [])))
  end.
(** primitives2D.py:449-457 *)
Definition bsplineblend (u : Q) : Q * Q * Q * Q :=
  let u2 := u * u in
  let u3 := u * u * u in
  let d := u3 / 6 in
  let f := 1 / 6 in
  let a := - d + u2 / 2 - u / 2 + f in
  let b := u3 / 2 - u2 + 2 / 3 in
  let c := (- u3 + u2 + u) / 2 + f in
  (a, b, c, d).
(** pntlist[k % cnt if curveback else setmax(k, mx)] *)
Definition controlpoint (pntlist : list (Z * Z)) (curveback : bool) (k : nat) : Z * Z :=
  let cnt := length pntlist in
  nth (if curveback then Nat.modulo k cnt else Nat.min k (cnt - 1)) pntlist (0, 0)%Z.
(** primitives2D.py:389-425 ([while i < ilim] as a loop over a range) *)
Definition iterbspline (pntlist : list (Z * Z)) (isclosed curveback : bool) : res (list (Z * Z)) :=
  match pntlist with
  | [] => Err IndexError
  | p0 :: _ =>
      let cnt := length pntlist in
      let klim := (4 * cnt)%nat in
      let ilim := (cnt + if isclosed then 2 else 0)%nat in
      Ok (snd (fold_left (fun s i =>
          fold_left (fun s k =>
              let '(a, b, c, d) := bsplineblend (inject_Z (Z.of_nat k) / inject_Z (Z.of_nat klim)) in
              let at_ j := controlpoint pntlist curveback (i + j) in
              let v := plus2 (plus2 (plus2 (plus2 (0, 0) (scale2 (at_ 0%nat) a)) (scale2 (at_ 1%nat) b)) (scale2 (at_ 2%nat) c)) (scale2 (at_ 3%nat) d) in
              (v, if (1 <? i)%nat then snd s ++ iterline (roundvect v) (roundvect (fst s)) else snd s)) (seq 0 klim) s)
        (seq 0 ilim) ((inject_Z (fst p0), inject_Z (snd p0)), [])))
  end.
