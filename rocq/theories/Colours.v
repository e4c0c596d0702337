(** Single colours: adjustments, mixtures, HSL values and the default palette of 4 bits.
    Floats are replaced by rational numbers: rounding errors are not modelled.  Paths are
    relative to /repo/pythonbmp. *)
From Coq Require Import ZArith QArith Qround Qminmax Qabs List Bool.
From Verif Require Import PyBase Bmp Buffers Exact.
Import ListNotations.
Open Scope Z_scope.

(** a colour [r, g, b] and a triple of factors *)
Notation rgb := (Z * Z * Z)%type.
Notation factor3 := (Q * Q * Q)%type.

(** int() of a float *)
Definition qtrunc (q : Q) : Z := if Qle_bool 0 q then Qfloor q else Qceiling q.
(** setminmaxvec, mathlib.py:59-79 *)
Definition setminmax3 (c : rgb) (minval maxval : Z) : rgb :=
  let '(r, g, b) := c in (setminmax r minval maxval, setminmax g minval maxval, setminmax b minval maxval).
(** intsetminmax, mathlib.py:403-421 *)
Definition intsetminmax (val : Q) (minval maxval : Z) : Z := Z.max (Z.min (qround val) maxval) minval.

(** colors.py:194-222 *)
Definition RGBfactors2RGB (f : factor3) (bytelum : Q) : rgb :=
  let '(r, g, b) := f in (qround (r * bytelum), qround (g * bytelum), qround (b * bytelum)).
(** colors.py:306-331 *)
Definition RGBtoRGBfactorsandlum (c : rgb) : factor3 * Z :=
  let '(r, g, b) := c in
  let lum := Z.max (Z.max r g) b in
  let lum := if lum =? 0 then 1 else lum in
  ((inject_Z r / inject_Z lum, inject_Z g / inject_Z lum, inject_Z b / inject_Z lum)%Q, lum).
(** colors.py:592-606 and 880-893; [pow x] stands for x ** gamma *)
Definition gammacorrectbyte (pow : Q -> Q) (lumbyte : Z) : Z := qtrunc (pow (inject_Z lumbyte / 255) * 255)%Q.
(** colors.py:609-628 *)
Definition gammacorrect (pow : Q -> Q) (c : rgb) : rgb :=
  let (f, lum) := RGBtoRGBfactorsandlum c in
  setminmax3 (RGBfactors2RGB f (inject_Z (gammacorrectbyte pow lum))) 0 255.
(** colors.py:631-655 *)
Definition brightnessadjust (percentadj : Q) (c : rgb) : rgb :=
  let (f, lum) := RGBtoRGBfactorsandlum c in
  setminmax3 (RGBfactors2RGB f (inject_Z lum * (1 + percentadj / 100))%Q) 0 255.
(** colors.py:658-687; the limits are rational numbers *)
Definition thresholdadjust (lumrange : Q * Q) (c : rgb) : rgb :=
  let (f, lum) := RGBtoRGBfactorsandlum c in
  let l0 := intsetminmax (fst lumrange) 0 255 in
  let l1 := intsetminmax (snd lumrange) 0 255 in
  let (l0, l1) := if l0 >? l1 then (l1, l0) else (l0, l1) in
  RGBfactors2RGB f (inject_Z (setminmax lum l0 l1)).
(** colors.py:690-716 *)
Definition colorfilter (f : factor3) (c : rgb) : rgb :=
  let '(fr, fg, fb) := f in let '(r, g, b) := c in
  (intsetminmax (inject_Z r * fr) 0 255, intsetminmax (inject_Z g * fg) 0 255, intsetminmax (inject_Z b * fb) 0 255).

(** The products in the loops over the bytes of 24-bit images, which are arbitrary
    functions in Filters.v. *)
(** round(v * (1 + percentadj / 100)), colors.py:969 with mathlib.py:271 *)
Definition brightbyte (percentadj : Q) (v : Z) : Z := qround (inject_Z v * (1 + percentadj / 100)).
(** round(v * f), colors.py:798-800 with mathlib.py:271 *)
Definition filterbyte (f : Q) (v : Z) : Z := qround (inject_Z v * f).
(** int((a / lum) * v), colors.py:1000-1008 *)
Definition thresholdbyte (a lum v : Z) : Z := qtrunc (inject_Z a / inject_Z lum * inject_Z v).
(** int(v * (int(((lum / 255) ** gamma) * 255) / lum)), colors.py:850-856 *)
Definition gammabyte (pow : Q -> Q) (lum v : Z) : Z :=
  qtrunc (inject_Z v * (inject_Z (gammacorrectbyte pow lum) / inject_Z lum)).

(** ** Mixtures *)

(** colors.py:90-115 *)
Definition mixcolor (lum : Q) (f : factor3) : Z :=
  let '(r, g, b) := f in RGB2int (qtrunc (r * lum)) (qtrunc (g * lum)) (qtrunc (b * lum)).
(** colors.py:1133-1155 *)
Definition interpolateRGB (f : Q -> Q -> Q -> Q) (r1 r2 g1 g2 b1 b2 v : Q) : rgb :=
  (qround (f r1 r2 v), qround (f g1 g2 v), qround (f b1 b2 v)).
(** the colour of a row or column in filleddichromaticgradrect, BITMAPlib.py:2232-2247, and
    of a ring in graddichromiccircle, 3615-3620 *)
Definition dichromatic (fn : Q -> Q -> Q -> Q) (c1 c2 n d : Z) : Z :=
  let '(r1, g1, b1) := int2RGB c1 in
  let '(r2, g2, b2) := int2RGB c2 in
  let '(r, g, b) := interpolateRGB fn (inject_Z r1) (inject_Z r2) (inject_Z g1) (inject_Z g2) (inject_Z b1) (inject_Z b2)
                      (inject_Z n / inject_Z d) in
  RGB2int r g b.
(** the colour of a row or column in filledgradrect, BITMAPlib.py:2176-2199 *)
Definition lumgradient (fn : Q -> Q -> Q -> Q) (lumrange : Z * Z) (f : factor3) (n d : Z) : Z :=
  let '(fr, fg, fb) := f in
  let l1 := inject_Z (fst lumrange) in
  let l2 := inject_Z (snd lumrange) in
  let '(r, g, b) := interpolateRGB fn (fr * l1) (fr * l2) (fg * l1) (fg * l2) (fb * l1) (fb * l2)
                      (inject_Z n / inject_Z d) in
  RGB2int r g b.
(** the colour of a layer in gradthickroundline and gradthickcircle, BITMAPlib.py:2450-2454 and
    3557-3560, with range2baseanddelta, mathlib.py:105-117, 1423-1432 *)
Definition layercolor (lumrange : Z * Z) (f : factor3) (i n : Z) : Z :=
  let lum1 := fst lumrange in
  let lumrang := snd lumrange - fst lumrange in
  mixcolor (inject_Z (qtrunc (inject_Z lum1 + inject_Z (lumrang * i) / inject_Z n))) f.
(** the colour of a ring in gradcircle, BITMAPlib.py:3587-3591, and of a layer in
    gradthickplotpoly, 6733-6737 *)
Definition ringcolor (fn : Q -> Q -> Q -> Q) (lumrange : Z * Z) (f : factor3) (i n : Z) : Z :=
  mixcolor (inject_Z (qtrunc (fn (inject_Z (fst lumrange)) (inject_Z (snd lumrange)) (inject_Z i / inject_Z n)%Q))) f.
(** colors.py:412-417: the entry of brightness c in a palette of one hue *)
Definition shade (f : factor3) (c : Z) : rgb := RGBfactors2RGB f (inject_Z c).
(** colors.py:1105-1113: the colour at i / n of the way from c1 to c2 *)
Definition blend (c1 c2 i n : Z) : rgb :=
  let '(r, g, b) := int2RGB c1 in
  let '(x, y, z) := int2RGB c2 in
  let j := (inject_Z i / inject_Z n)%Q in
  (qround (lerp (inject_Z r) (inject_Z x) j), qround (lerp (inject_Z g) (inject_Z y) j), qround (lerp (inject_Z b) (inject_Z z) j)).

(** ** HSL *)

(** colors.py:1063-1080: hue in sixths of the circle, saturation and luminosity *)
Definition hsl (r g b : Q) : Q * Q * Q :=
  let hi := Qmax (Qmax r g) b in
  let lo := Qmin (Qmin r g) b in
  let lum := ((hi + lo) / 2)%Q in
  if Qeq_bool hi lo then (0%Q, 0%Q, lum)
  else
    let c := (hi - lo)%Q in
    let sat := (c / (1 - Qabs (2 * lum - 1)))%Q in
    let hue := (if Qeq_bool hi r then (g - b) / c + (if negb (Qle_bool b g) then 6 else 0)
                else if Qeq_bool hi g then (b - r) / c + 2
                else (r - g) / c + 4)%Q in
    (hue, sat, lum).
(** colors.py:1049-1084 *)
Definition RGB2HSL (r g b : Z) : rgb :=
  let '(hue, sat, lum) := hsl (inject_Z r / 255) (inject_Z g / 255) (inject_Z b / 255) in
  (qround (hue * 60), qround (sat * 100), qround (lum * 100)).

(** ** The default palette of 4 bits *)

(** colors.py:241-269 *)
Definition matchRGBtodefault4bitpal (c : rgb) : Z :=
  let '(r, g, b) := c in
  let r := Z.shiftr r 6 in
  let g := Z.shiftr g 6 in
  let b := Z.shiftr b 6 in
  let color := if (r >? 1) || (g >? 1) || (b >? 1) then 8 else 0 in
  let color := if r >=? 1 then color + 4 else color in
  let color := if g >=? 1 then color + 2 else color in
  if b >=? 1 then color + 1 else color.
(** colors.py:353-382; [i], [j], [k] are the results of randint(0, r), randint(0, g) and
    randint(0, b) *)
Definition probplotRGBto4bitpal (i j k : Z) (c : rgb) : Z :=
  let '(r, g, b) := c in
  let color := 0 in
  let color := if qround (inject_Z i / 256) =? 1 then color + 4 else color in
  let color := if qround (inject_Z j / 256) =? 1 then color + 2 else color in
  let color := if qround (inject_Z k / 256) =? 1 then color + 1 else color in
  let r := Z.shiftr r 6 in
  let g := Z.shiftr g 6 in
  let b := Z.shiftr b 6 in
  if (r >? 1) || (g >? 1) || (b >? 1) then color + 8 else color.
