(** Independent specification of axes and scatter plots.  Nothing here refers to the
    code in /repo. *)
From Coq Require Import ZArith QArith List Bool.
From Verif Require Import PyBase Spec SpecText SpecShapes SpecExact.
Import ListNotations.
Open Scope Z_scope.

(** t is the decimal representation of n: a minus sign if n is negative, then the
    digits without leading zeros *)
Definition decimal (n : Z) (t : list Z) : Prop :=
  exists ds, t = (if n <? 0 then [45] else []) ++ map (Z.add 48) ds /\
    ds <> [] /\ Forall (fun d => 0 <= d < 10) ds /\ (hd 0 ds = 0 -> ds = [0]) /\
    fold_left (fun a d => 10 * a + d) ds 0 = Z.abs n.

(** The number of marks that lie k pixels apart on the first d of a distance, beginning at 0 *)
Definition marks (d k : Z) : Z := if d <=? 0 then 0 else (d - 1) / k + 1.

(** The pixel (px, py) after the text t has been written over a pixel [old] at (x, y) in
    single pixels of value v *)
Definition written (font : list Z) (v : Z) (t : list Z) (x y old px py : Z) : Z :=
  text_over (upright (box_hit 0) 1) font (fun col _ => x + col * step_x 1 0) (fun _ ln => y + ln * step_y font 1 0)
    (fun _ => v) t old px py.

(** The grid of the area between the origin and the limits: columns are counted from the
    left edge, rows from the top edge; the right and the bottom edge are left out *)
Definition on_grid (ox oy xl yl xs ys px py : Z) : bool :=
  in_box ox oy xl yl px py &&
  ((negb (px =? Z.max ox xl) && ((px - Z.min ox xl) mod xs =? 0)) ||
   (negb (py =? Z.max oy yl) && ((py - Z.min oy yl) mod ys =? 0))).
(** Ticks of four pixels, downwards from the x axis and to the left from the y axis *)
Definition on_ticks (ox oy xl yl xs ys px py : Z) : bool :=
  (((ox <=? px) && (px <? xl)) && ((px - ox) mod xs =? 0) && ((oy <=? py) && (py <=? oy + 3))) ||
  (((yl <? py) && (py <=? oy)) && ((oy - py) mod ys =? 0) && ((ox - 3 <=? px) && (px <=? ox))).

(** Where the value x of an axis lies on the screen, the value [start] being at [origin]
    and [pixels] pixels being a step of [step] *)
Definition place (origin pixels start step : Z) (x : Q) : Q :=
  (inject_Z origin + (x - inject_Z start) * (inject_Z pixels / inject_Z step))%Q.
(** An area of the screen with a scale on both sides *)
Record plot_area := area { origin_x : Z; origin_y : Z; pixels_x : Z; pixels_y : Z; limit_x : Z; limit_y : Z;
  start_x : Z; start_y : Z; value_x : Z; value_y : Z }.
Definition place_x (a : plot_area) (x : Q) : Q := place (origin_x a) (pixels_x a) (start_x a) (value_x a) x.
Definition place_y (a : plot_area) (y : Q) : Q := place (origin_y a) (- pixels_y a) (start_y a) (value_y a) y.
(** not beyond the right and the upper limit *)
Definition in_view (a : plot_area) (x y : Q) : bool :=
  Qle_bool (place_x a x) (inject_Z (limit_x a)) && Qle_bool (inject_Z (limit_y a)) (place_y a y).
(** p is the pixel for the values (x, y): the nearest one, or the one above and to the left
    of the image if the point is beyond a limit *)
Definition at_pixel (a : plot_area) (x y : Q) (p : Z * Z) : Prop :=
  if in_view a x y then SpecExact.nearest (place_x a x) (fst p) /\ SpecExact.nearest (place_y a y) (snd p) else p = (-1, -1).
(** The mark for a point at p: a disc or a circle of at most 5 pixels, or a pixel *)
Definition mark (p : Z * Z) (r f px py : Z) : bool :=
  if 1 <? r then
    if f =? 0 then on_ring (Z.min r 5) (px - fst p) (py - snd p) else in_disc (Z.min r 5) (px - fst p) (py - snd p)
  else (px =? fst p) && (py =? snd p).
(** A point of a scatter plot: values, radius, colour, 0 for an open circle *)
Record datum := point { d_x : Z; d_y : Z; d_r : Z; d_c : Z; d_f : Z }.
Definition d_row (d : datum) : list Z := [d_x d; d_y d; d_r d; d_c d; d_f d].
(** The pixel (px, py) after the marks of the points have been drawn in turn *)
Definition marked (spot : datum -> Z * Z) (data : list datum) (px py old : Z) : Z :=
  fold_left (fun v d => if mark (spot d) (d_r d) (d_f d) px py then d_c d else v) data old.
Definition d_in_view (a : plot_area) (d : datum) : bool := in_view a (inject_Z (d_x d)) (inject_Z (d_y d)).
