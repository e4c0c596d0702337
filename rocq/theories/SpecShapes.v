(** Independent specification of composite shapes: segments, thickened sets of
    pixels, layers of colour.  Nothing here refers to the code in /repo. *)
From Coq Require Import ZArith List Bool.
From Verif Require Import PyBase Spec.
Import ListNotations.
Open Scope Z_scope.

(** Segments that are exact diagonals, both ends different. *)
Definition is_diagonal (x1 y1 x2 y2 : Z) : bool := (Z.abs (x2 - x1) =? Z.abs (y2 - y1)) && negb (x1 =? x2).

(** The pixels the rasteriser visits between two points: those of [on_line], or,
    for an exact diagonal, the pixels one row further along and the end point. *)
Definition seg_points (x1 y1 x2 y2 x y : Z) : bool :=
  if is_diagonal x1 y1 x2 y2 then
    ((x =? x2) && (y =? y2)) ||
    (((Z.min x1 x2 <=? x) && (x <=? Z.max x1 x2)) && (y =? y1 + Z.sgn (y2 - y1) * (Z.abs (x - x1) + 1)))
  else on_line x1 y1 x2 y2 x y.

(** nearest number in 0..n-1 *)
Definition into (n v : Z) : Z := Z.max 0 (Z.min v (n - 1)).

(** The pixels of a line whose end points are first moved into the image. *)
Definition seg_hit (w h : Z) (u v : Z * Z) (x y : Z) : bool :=
  seg_points (into w (fst u)) (into h (snd u)) (into w (fst v)) (into h (snd v)) x y.

(** Lines that can be drawn: not horizontal on 4-bit bitmaps, and exact diagonals
    have a row of the image left behind their end point. *)
Definition seg_fits (w h bits : Z) (u v : Z * Z) : Prop :=
  let x1 := into w (fst u) in let y1 := into h (snd u) in
  let x2 := into w (fst v) in let y2 := into h (snd v) in
  (bits = 4 -> x1 = x2 \/ y1 <> y2) /\
  (is_diagonal x1 y1 x2 y2 = true -> 0 <= y2 + Z.sgn (y2 - y1) < h).

(** neighbouring vertices *)
Definition edges (vs : list (Z * Z)) : list ((Z * Z) * (Z * Z)) := combine vs (tl vs).
(** all edges of a closed polygon *)
Definition closed_edges (vs : list (Z * Z)) : list ((Z * Z) * (Z * Z)) :=
  match vs with [] => [] | u :: _ => edges vs ++ [(u, last vs u)] end.
Definition any_edge (hit : Z * Z -> Z * Z -> Z -> Z -> bool) (es : list ((Z * Z) * (Z * Z))) (x y : Z) : bool :=
  existsb (fun e => hit (fst e) (snd e) x y) es.

(** The set S drawn with a round pen of radius p: every pixel in the disc of
    radius p around a pixel of S. *)
Definition dilate (p : Z) (S : Z -> Z -> bool) (x y : Z) : bool :=
  existsb (fun dx => existsb (fun dy => S (x - dx) (y - dy) && in_disc p dx dy)
                             (range (- p) (p + 1))) (range (- p) (p + 1)).
Definition thick_seg (p : Z) (u v : Z * Z) : Z -> Z -> bool :=
  dilate p (seg_points (fst u) (snd u) (fst v) (snd v)).
Definition thick_ring (p x y r : Z) : Z -> Z -> bool := dilate p (fun u v => on_ring r (u - x) (v - y)).

(** Round pens can be used where the depth is not 4 and the pen is not too far to
    the left of the image. *)
Definition pen_at (bits x : Z) : Prop :=
  bits <> 4 /\ (bits = 8 -> -1079 <= x) /\ (bits = 24 -> -19 <= x).

(** Layers n, n-1, ..., m painted in this order: the smallest one that covers the
    pixel is seen. *)
Definition top_layer (hit : Z -> Z -> Z -> bool) (m n x y : Z) : option Z :=
  find (fun i => hit i x y) (range m (n + 1)).

(** The colour number v shows the 24-bit colour c: the colour itself, or the
    nearest palette entry that is not black. *)
Definition shows (b : list Z) (bits c v : Z) : Prop :=
  if bits =? 24 then v = c
  else 0 <= v < 2 ^ bits /\
       forall i, 0 <= i < 2 ^ bits -> pal_entry b i <> (0, 0, 0) ->
         pal_entry b v <> (0, 0, 0) /\
         rgb_dist2 (rgb_of c) (pal_entry b v) <= rgb_dist2 (rgb_of c) (pal_entry b i).

(** The ellipse with half axes a (horizontal) and b (vertical) around the origin:
    negative inside, positive outside. *)
Definition ell (b a x y : Z) : Z := b * b * (x * x) + a * a * (y * y) - a * a * (b * b).
(** y is the row of the ellipse in column x, rounded: the ellipse passes between
    the rows y - 1/2 and y + 1/2. *)
Definition ell_row (b a x y : Z) : Prop := ell b a x y + ell b a x (y - 1) < 0 <= ell b a x (y + 1) + ell b a x y.
(** one step along the first quadrant of an outline that starts at the top *)
Definition down_right (p q : Z * Z) : Prop :=
  fst p <= fst q <= fst p + 1 /\ snd p - 1 <= snd q <= snd p /\ p <> q.

(** The parallelogram swept by the line from p1 to p2 when p1 moves to p3 along
    the pixels of that segment. *)
Definition swept (w h : Z) (p1 p2 p3 : Z * Z) (x y : Z) : bool :=
  existsb (fun u => existsb (fun v =>
      seg_points (fst p1) (snd p1) (fst p3) (snd p3) u v &&
      seg_hit w h (u, v) (u + (fst p2 - fst p1), v + (snd p2 - snd p1)) x y)
    (range (Z.min (snd p1) (snd p3) - 1) (Z.max (snd p1) (snd p3) + 2)))
    (range (Z.min (fst p1) (fst p3)) (Z.max (fst p1) (fst p3) + 1)).

(** The pixels of a first-quadrant outline l mirrored around (cx, cy), and the
    horizontal spans between mirrored pixels. *)
Definition mirrored (l : list (Z * Z)) (cx cy x y : Z) : bool :=
  existsb (fun p => (fst p =? Z.abs (x - cx)) && (snd p =? Z.abs (y - cy))) l.
Definition spanned (l : list (Z * Z)) (cx cy x y : Z) : bool :=
  existsb (fun p => (Z.abs (x - cx) <=? fst p) && (snd p =? Z.abs (y - cy))) l.
