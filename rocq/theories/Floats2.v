(** Gradients, distances and pie charts with the rounding of floats.  As in Floats.v every operation is rounded to a
    double.  Paths are relative to /repo/pythonbmp. *)
From Coq Require Import ZArith Reals List Bool.
From Verif Require Import PyBase Bmp Buffers Colours Coords Floats.
Import ListNotations.
Open Scope R_scope.

(** int(lum1 + (lumrang * i / n)) with lum1, lumrang from range2baseanddelta, BITMAPlib.py:2450-2454, 3557-3560;
    mathlib.py:1472-1484 *)
Definition fgradbase (lum1 lum2 i n : Z) : Z := rtrunc (fl (IZR lum1 + fl (IZR ((lum2 - lum1) * i) / IZR n))).
(** int(lerp(l1, l2, i / n)), BITMAPlib.py:3590, 3711, 3864, 6736, 6772 *)
Definition fgradlerp (l1 l2 i n : Z) : Z := rtrunc (flerp (IZR l1) (IZR l2) (fl (IZR i / IZR n))).
(** int(255 * (r - i) / j) with j = r >> 1, BITMAPlib.py:3639-3650 *)
Definition forblum (r i : Z) : Z := intquot (255 * (r - i)) (Z.shiftr r 1).
(** colors.py:1133-1160 with lerp *)
Definition finterpolateRGB (r1 r2 g1 g2 b1 b2 : Z) (v : R) : rgb :=
  (rround (flerp (IZR r1) (IZR r2) v), rround (flerp (IZR g1) (IZR g2) v), rround (flerp (IZR b1) (IZR b2) v)).
(** the k-th value of lum in the loop lum += dlum *)
Fixpoint flums (lum dlum : R) (k : nat) : R :=
  match k with O => lum | Datatypes.S k => fl (flums lum dlum k + dlum) end.
(** the percentage for the k-th row from the bottom, BITMAPlib.py:12364-12370 *)
Definition fvertlum (l0 l1 y1 y2 : Z) (k : nat) : R := flums (IZR l1) (fl (IZR (l0 - l1) / IZR (y2 - y1))) k.
(** mathlib.py:703-733 for integer coordinates in the plane *)
Definition fdist (p q : Z * Z) : R :=
  let dx := (fst p - fst q)%Z in let dy := (snd p - snd q)%Z in fl (sqrt (IZR (dx * dx + dy * dy))).

(** dlist.index(d) *)
Fixpoint index_of (d : Z * Z) (l : list (Z * Z)) : Z :=
  match l with
  | [] => 0
  | e :: t => if ((fst d =? fst e) && (snd d =? snd e))%Z then 0 else 1 + index_of d t
  end.
(** charts.py:34-58 for integer amounts *)
Fixpoint fpieitems (dlist : list (Z * Z)) (tot : Z) (sa : R) (big : Z) (l : list (Z * Z)) : list pieitem * Z :=
  match l with
  | [] => ([], big)
  | d :: t =>
      let p := fl (IZR (fst d) / IZR tot) in
      let ea := fl (sa + fl (p * 360)) in
      let p := fl (p * 100) in
      let big := if rle 50 p then index_of d dlist else big in
      let (rest, big) := fpieitems dlist tot ea big t in
      (mkitem sa ea (snd d) (fst d) p :: rest, big)
  end.
Definition fgenpiechartdata (dlist : list (Z * Z)) : res (list pieitem * Z) :=
  let tot := fold_left Z.add (map fst dlist) 0%Z in
  match dlist with
  | [] => Ok ([], (-1)%Z)
  | _ => if (tot =? 0)%Z then Err ZeroDivisionError else Ok (fpieitems dlist tot 0 (-1) dlist)
  end.
