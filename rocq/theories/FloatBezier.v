(** Bezier curves and the base and range of brightness with the rounding of floats (IEEE binary64, round to nearest
    even), as in Floats.v.  [pw] stands for the power of the C library.  Signs of zeros, infinities and overflows are left
    out.  Paths are relative to /repo/pythonbmp. *)
From Coq Require Import ZArith Reals List Bool.
From Verif Require Import PyBase Bmp Geometry Draw Solids Exact Coords Floats FloatCurves.
Import ListNotations.
Open Scope R_scope.

(** primitives2D.py:329-331; the product of an integer and a float converts the integer *)
Definition fbezierblend (pw : R -> nat -> R) (i n : nat) (u : R) : R :=
  fl (fl (fl (IZR (comb n i)) * pw u i) * pw (fl (1 - u)) (n - i)%nat).
(** the loop over j, primitives2D.py:357-363 *)
Definition fbezierpoint pw (pntlist : list (Z * Z)) (i : nat) (u : R) : R * R :=
  fold_left (fun v j => fplus2 v (fscale2 (nth j pntlist (0, 0)%Z) (fbezierblend pw j (i - 1) u))) (seq 0 i) (0, 0).
(** primitives2D.py:334-366, as in Exact.v *)
Definition fiterbeziercurve pw (pntlist : list (Z * Z)) : res (list (Z * Z)) :=
  match pntlist with
  | [] => Err IndexError
  | p0 :: _ =>
      let cnt := length pntlist in
      let klim := (4 * cnt)%nat in
      Ok (snd (fold_left (fun s i =>
          if (cnt <=? i + 1)%nat (* i > cnt - 2 *) then
            fold_left (fun s k =>
                let v := fbezierpoint pw pntlist i (fl (IZR (Z.of_nat k) / IZR (Z.of_nat klim))) in
                (v, snd s ++ iterline (froundvect v) (froundvect (fst s)))) (seq 0 klim) s
          else s) (seq 0 cnt) ((IZR (fst p0), IZR (snd p0)), [])))
  end.

(** colors.py:896-930 for one of the three factors: intscalarmulvect, scalarmulvect and subvect,
    mathlib.py:179-191, 214-231 and 254-272 *)
Definition fbaseandrange (lmin lmax : Z) (f : R) : Z * R :=
  let base := rround (fl (f * IZR lmin)) in
  (base, fl (fl (f * IZR lmax) - IZR base)).
(** colors.py:896-930 *)
Definition fRGBfactorstoBaseandRange (lumrange : Z * Z) (rgbfactors : R * R * R) : (Z * Z * Z) * (R * R * R) :=
  let '(r, g, b) := rgbfactors in
  let h := fbaseandrange (fst lumrange) (snd lumrange) in
  ((fst (h r), fst (h g), fst (h b)), (snd (h r), snd (h g), snd (h b))).
