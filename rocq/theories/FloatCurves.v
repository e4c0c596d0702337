(** Nearest colours and B-splines with the rounding of floats.  As in Floats.v every operation is rounded to a double.
    Paths are relative to /repo/pythonbmp. *)
From Coq Require Import ZArith QArith Reals List Bool.
From Verif Require Import PyBase Bmp Geometry Draw Solids Exact Coords Floats.
Import ListNotations.
Open Scope R_scope.

(** mathlib.py:703-730 for colours *)
Definition frgbdist (u v : Z * Z * Z) : R := fl (sqrt (IZR (dist2 u v))).
(** colors.py:272-303, as in Draw.v but with the distances themselves *)
Fixpoint fpal_nearest (islist : bool) (rgb : Z * Z * Z) (pal : list (Z * Z * Z)) (i c : Z) (d : R) : Z :=
  match pal with
  | [] => c
  | p :: t =>
      let '(c, d) :=
        if negb (rgb_eqb p (0, 0, 0)%Z) && negb (islist && rgb_eqb rgb (0, 0, 0)%Z) then
          let newd := frgbdist rgb p in
          if rlt newd d then (i, newd) else (c, d)
        else (c, d) in
      fpal_nearest islist rgb t (i + 1) c d
  end.
Definition fmatchRGBtopal (islist : bool) (rgb : Z * Z * Z) (pal : list (Z * Z * Z)) : Z :=
  match (if islist then pal_index rgb pal 0 else None) with
  | Some c => c
  | None => fpal_nearest islist rgb pal 0 0 442
  end.
(** dist(u, v) < similaritythreshold and > similaritythreshold for a square of the distance, BITMAPlib.py:1214-1215,
    7366-7368, 7398 *)
Definition fnear (threshold : Z) (d : Z) : bool := rlt (fl (sqrt (IZR d))) (IZR threshold).
Definition ffar (threshold : Z) (d : Z) : bool := rlt (IZR threshold) (fl (sqrt (IZR d))).

(** primitives2D.py:449-457 *)
Definition fbsplineblend (u : R) : R * R * R * R :=
  let u2 := fl (u * u) in
  let u3 := fl (fl (u * u) * u) in
  let d := fl (u3 / 6) in
  let f := fl (1 / 6) in
  let a := fl (fl (fl (- d + fl (u2 / 2)) - fl (u / 2)) + f) in
  let b := fl (fl (fl (u3 / 2) - u2) + fl (2 / 3)) in
  let c := fl (fl (fl (fl (- u3 + u2) + u) / 2) + f) in
  (a, b, c, d).
(** mathlib.py:120-131, 149-160, 214-231 for pairs *)
Definition froundvect (v : R * R) : Z * Z := (rround (fst v), rround (snd v)).
Definition fplus2 (u v : R * R) : R * R := (fl (fst u + fst v), fl (snd u + snd v)).
Definition fscale2 (p : Z * Z) (c : R) : R * R := (fl (IZR (fst p) * c), fl (IZR (snd p) * c)).
(** primitives2D.py:389-425 ([while i < ilim] as a loop over a range) *)
Definition fiterbspline (pntlist : list (Z * Z)) (isclosed curveback : bool) : res (list (Z * Z)) :=
  match pntlist with
  | [] => Err IndexError
  | p0 :: _ =>
      let cnt := length pntlist in
      let klim := (4 * cnt)%nat in
      let ilim := (cnt + if isclosed then 2 else 0)%nat in
      Ok (snd (fold_left (fun s i =>
          fold_left (fun s k =>
              let '(a, b, c, d) := fbsplineblend (fl (IZR (Z.of_nat k) / IZR (Z.of_nat klim))) in
              let at_ j := controlpoint pntlist curveback (i + j) in
              let v := fplus2 (fplus2 (fplus2 (fplus2 (0, 0) (fscale2 (at_ 0%nat) a)) (fscale2 (at_ 1%nat) b)) (fscale2 (at_ 2%nat) c)) (fscale2 (at_ 3%nat) d) in
              (v, if (1 <? i)%nat then snd s ++ iterline (froundvect v) (froundvect (fst s)) else snd s)) (seq 0 klim) s)
        (seq 0 ilim) ((IZR (fst p0), IZR (snd p0)), [])))
  end.
