(** Colours with the rounding of floats (IEEE binary64, round to nearest even): the functions of
    Colours.v again, with every operation rounded.  A float is modelled by its value; infinities are
    left out, the theorems have bounded arguments.  Paths are relative to /repo/pythonbmp. *)
From Coq Require Import ZArith Reals List Bool.
From Flocq Require Import Core.
From Verif Require Import PyBase Bmp Buffers Colours Coords.
Open Scope R_scope.

(** the float next to x; of two at the same distance the one with the even mantissa *)
Definition fl (x : R) : R := round radix2 (FLT_exp (-1074) 53) ZnearestE x.
Definition float (x : R) : Prop := fl x = x.

(** int(a / b) and round(a / b) of integers *)
Definition intquot (a b : Z) : Z := rtrunc (fl (IZR a / IZR b)).
Definition roundquot (a b : Z) : Z := rround (fl (IZR a / IZR b)).

Notation rfactor3 := (R * R * R)%type.
(** colors.py:194-222 with mathlib.py:120-131, 214-231 *)
Definition fRGBfactors2RGB (f : rfactor3) (bytelum : R) : rgb :=
  let '(r, g, b) := f in (rround (fl (r * bytelum)), rround (fl (g * bytelum)), rround (fl (b * bytelum))).
(** colors.py:306-331 *)
Definition fRGBtoRGBfactorsandlum (c : rgb) : rfactor3 * Z :=
  let '(r, g, b) := c in
  let lum := Z.max (Z.max r g) b in
  let lum := if (lum =? 0)%Z then 1%Z else lum in
  ((fl (IZR r / IZR lum), fl (IZR g / IZR lum), fl (IZR b / IZR lum)), lum).
(** colors.py:576-589 *)
Definition fmonochrome (c : rgb) : rgb :=
  let '(r, g, b) := c in let v := roundquot (r + g + b) 3 in (v, v, v).
(** colors.py:592-606 and 880-893; [pow] stands for x ** gamma *)
Definition fgammacorrectbyte (pow : R -> R) (lumbyte : Z) : Z := rtrunc (fl (pow (fl (IZR lumbyte / 255)) * 255)).
(** colors.py:609-628 *)
Definition fgammacorrect (pow : R -> R) (c : rgb) : rgb :=
  let (f, lum) := fRGBtoRGBfactorsandlum c in
  setminmax3 (fRGBfactors2RGB f (IZR (fgammacorrectbyte pow lum))) 0 255.
(** 1 + (percentadj / 100) *)
Definition percent (percentadj : R) : R := fl (1 + fl (percentadj / 100)).
(** colors.py:631-655 *)
Definition fbrightnessadjust (percentadj : R) (c : rgb) : rgb :=
  let (f, lum) := fRGBtoRGBfactorsandlum c in
  setminmax3 (fRGBfactors2RGB f (fl (IZR lum * percent percentadj))) 0 255.
(** colors.py:658-687 for integers *)
Definition fthresholdadjust (lumrange : Z * Z) (c : rgb) : rgb :=
  let (f, lum) := fRGBtoRGBfactorsandlum c in
  let l0 := Z.max (Z.min (fst lumrange) 255) 0 in
  let l1 := Z.max (Z.min (snd lumrange) 255) 0 in
  let (l0, l1) := if (l0 >? l1)%Z then (l1, l0) else (l0, l1) in
  fRGBfactors2RGB f (IZR (setminmax lum l0 l1)).
(** round(v * (1 + percentadj / 100)), colors.py:969 with mathlib.py:271, clamped *)
Definition fbrightbyte (percentadj : R) (v : Z) : Z := setminmax (rround (fl (IZR v * percent percentadj))) 0 255.
(** round(v * f), colors.py:715-716 and 798-800 with mathlib.py:271 *)
Definition ffilterbyte (f : R) (v : Z) : Z := rround (fl (IZR v * f)).
(** int((a / lum) * v), colors.py:1000-1008 *)
Definition fthresholdbyte (a lum v : Z) : Z := rtrunc (fl (fl (IZR a / IZR lum) * IZR v)).
(** int(v * (int(((lum / 255) ** gamma) * 255) / lum)), colors.py:850-856 *)
Definition fgammabyte (pow : R -> R) (lum v : Z) : Z :=
  rtrunc (fl (IZR v * fl (IZR (fgammacorrectbyte pow lum) / IZR lum))).
(** int((b + g + r) / 3), colors.py:743 *)
Definition fgreybyte (b g r : Z) : Z := intquot (b + g + r) 3.
(** colors.py:90-115 *)
Definition fcolormix (lum : Z) (f : rfactor3) : rgb :=
  let '(r, g, b) := f in (rtrunc (fl (r * IZR lum)), rtrunc (fl (g * IZR lum)), rtrunc (fl (b * IZR lum))).
(** mathlib.py:1673-1690 *)
Definition flerp (a b f : R) : R := fl (fl (fl (1 - f) * a) + fl (f * b)).
(** colors.py:1105-1113: the colour at i / n of the way from c1 to c2 *)
Definition fblend (c1 c2 : rgb) (i n : Z) : rgb :=
  let '(r, g, b) := c1 in
  let '(x, y, z) := c2 in
  let j := fl (IZR i / IZR n) in
  (rround (flerp (IZR r) (IZR x) j), rround (flerp (IZR g) (IZR y) j), rround (flerp (IZR b) (IZR z) j)).
