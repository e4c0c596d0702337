(** Small helpers of mathlib.py, colors.py, charts.py and proctimer.py.  Paths are relative to
    /repo/pythonbmp. *)
From Coq Require Import ZArith QArith Reals String Ascii List Bool.
From Verif Require Import PyBase Bmp MathLib Exact Colours Coords.
Import ListNotations.
Open Scope Z_scope.
Open Scope py_scope.

(** ** Elapsed time *)
(** str(n) of a non-negative integer *)
Definition digitchar (d : Z) : ascii := ascii_of_nat (Z.to_nat (48 + d)).
Fixpoint decimal_from (fuel : nat) (n : Z) : string :=
  match fuel with
  | O => EmptyString
  | S fuel => if n <? 10 then String (digitchar n) EmptyString else (decimal_from fuel (n / 10) ++ String (digitchar (n mod 10)) EmptyString)%string
  end.
Definition decimal (n : Z) : string := decimal_from (S (Z.to_nat (Z.log2 n))) n.
(** s.zfill(2) *)
Definition zfill2 (s : string) : string :=
  match s with
  | EmptyString => "00"
  | String c EmptyString => String "0" s
  | _ => s
  end.
(** proctimer.py:34-54; [t] is process_time_ns() - inittime *)
Definition hhmmsselaspedtime (t : Z) : string :=
  let '(secs, ns) := (t / 1000000000, t mod 1000000000) in
  let '(mins, secs) := (secs / 60, secs mod 60) in
  let '(hrs, mins) := (mins / 60, mins mod 60) in
  (zfill2 (decimal hrs) ++ ":" ++ zfill2 (decimal mins) ++ ":" ++ zfill2 (decimal secs) ++ "." ++ decimal ns)%string.

(** ** Ranges of luminosity *)
(** colors.py:43-58 *)
Definition getdefaultlumrange : list (string * (Z * Z)) :=
  [("maxdesc", (255, 0)); ("maxasc", (0, 255)); ("middesc", (192, 64)); (" midasc", (64, 192));
   ("upperdesc", (255, 128)); ("upperasc", (128, 255)); ("lowerdesc", (128, 0)); ("lowerasc", (0, 128))]%string.
(** d[key] *)
Fixpoint dictitem {A} (d : list (string * A)) (key : string) : res A :=
  match d with
  | [] => Err KeyError
  | (k, v) :: d => if String.eqb k key then Ok v else dictitem d key
  end.

(** ** Vectors *)
(** mathlib.py:41-56, 82-102, 134-146, 1279-1290, 1322-1336, 1382-1391 *)
Definition setmaxvec (vlist : list Z) (maxval : Z) : list Z := map (fun v => Z.min v maxval) vlist.
Definition intsetminmaxvec (vlist : list Q) (minval maxval : Z) : list Z := map (fun v => intsetminmax v minval maxval) vlist.
Definition roundvectlist (vlist : list (list Q)) : list (list Z) := map (map qround) vlist.
Definition bitmaskvect (v : list Z) (bitmask : Z) : list Z := map (fun b => Z.land b bitmask) v.
Definition addvectpairlist (vpair : list Z * list Z) : list Z := addvect (fst vpair) (snd vpair).
Definition swapxy (v : list Z) : res (list Z) :=
  match v with x :: y :: _ => Ok [y; x] | _ => Err IndexError end.
(** mathlib.py:208-211, 288-300 *)
Definition divvect (u v : list Z) : res (list Q) :=
  res_map (fun p => qdiv (inject_Z (fst p)) (inject_Z (snd p))) (combine u v).
Definition meanlist (vlist : list (list Z)) : res (list Q) := res_map mean vlist.
(** mathlib.py:1073-1086, 1089-1102 *)
Definition mirrorx (p : Z * Z) (x : Z) : (Z * Z) * (Z * Z) := ((fst p - x, snd p), (fst p + x, snd p)).
Definition mirrory (p : Z * Z) (y : Z) : (Z * Z) * (Z * Z) := ((fst p, snd p - y), (fst p, snd p + y)).
(** mathlib.py:1138-1153, 1156-1169; [rnd] gives what the calls of randint return *)
Definition randomvect (r : Z * Z * Z) : list Z := let '(a, b, c) := r in [a; b; c].
Definition addrndtovert (vertlist : list (list Z)) (rnd : nat -> Z * Z * Z) : list (list Z) :=
  map (fun p => addvect (snd p) (randomvect (rnd (fst p)))) (combine (seq 0 (List.length vertlist)) vertlist).
(** mathlib.py:1472-1484 for integers; without end for n < 0 *)
Fixpoint tower (x : Z) (n : nat) : Z := match n with O => 1 | S n => x ^ tower x n end.
Definition tetration (x n : Z) : res Z := if n <? 0 then Err Diverges else Ok (tower x (Z.to_nat n)).
(** charts.py:20-31 *)
Definition getdatalisttotal {A} (dlist : list (Z * A)) : Z := py_sum (map fst dlist).

(** ** Statistics *)
(** mathlib.py:548-550; sqrt of a negative number raises ValueError *)
Definition TTest (root : Q -> Q) (XYdata : list (list Z)) : res Q :=
  let! r := PearsonsR root XYdata in
  let! q := qdiv (inject_Z (zlen XYdata - 2)) (1 - r * r)%Q in
  if negb (Qle_bool 0 q) then Err ValueError else Ok (r * root q)%Q.

(** ** Real numbers in place of floats *)
(** mathlib.py:1740-1763 for a = 0, b = 1; 1818-1831, where asin raises ValueError outside -1 ... 1 *)
Definition smoothstep01 (v : R) : R := (v * v * (3 - 2 * v))%R.
Definition invsmoothstep (x : R) : res R :=
  let a := (1 - 2 * x)%R in
  if rlt a (-1) || rlt 1 a then Err ValueError else Ok (1 / 2 - sin (asin a / 3))%R.
(** x ** y of floats for 0 <= x *)
Definition floatpow (x y : R) : res R :=
  if req x 0 then (if rlt y 0 then Err ZeroDivisionError else Ok (if req y 0 then 1 else 0)%R) else Ok (Rpower x y).
(** colors.py:880-893 *)
Definition gammabyteR (lumbyte : Z) (gamma : R) : res Z :=
  let! p := floatpow (IZR lumbyte / 255) gamma in Ok (rtrunc (p * 255)%R).
