(** Axes and scatter plots.  Screen coordinates are integers; the values along the axes
    are integers in XYaxis and rational numbers in the scatter plot, floats are not
    modelled. *)
From Coq Require Import ZArith QArith List Bool.
From Verif Require Import PyBase Bmp Draw SpecText Text Fonts Shapes Solids Exact Buffers.
Import ListNotations.
Open Scope Z_scope.
Open Scope py_scope.

(** str() of an integer, as code points: the decimal digits, the fuel is their number *)
Fixpoint digits (fuel : nat) (n : Z) : list Z :=
  match fuel with
  | O => []
  | S f => (if n <? 10 then [] else digits f (n / 10)) ++ [48 + n mod 10]
  end.
Definition strint (n : Z) : list Z :=
  (if n <? 0 then [45] else []) ++ digits (Z.to_nat (Z.log2 (Z.abs n) + 1)) (Z.abs n).

(** primitives2D.py:539-556, 559-576 *)
Definition horizontalvert (y x1 x2 dx : Z) : res (list (Z * Z)) :=
  let! xs := rangeby x1 x2 dx in Ok (map (fun x => (x, y)) xs).
Definition verticalvert (x y1 y2 dy : Z) : res (list (Z * Z)) :=
  let! ys := rangeby y1 y2 dy in Ok (map (fun y => (x, y)) ys).

(** primitives2D.py:1270-1320.  [head u v headsize] stands for the two ends of the
    arrowhead, which are computed with trigonometric functions (1284-1318). *)
Definition iterdrawvec (head : Z * Z -> Z * Z -> Z -> (Z * Z) * (Z * Z)) (u v : Z * Z) (headsize : Z) : list ((Z * Z) * (Z * Z)) :=
  let '(p, q) := head u v headsize in [(u, v); (v, p); (v, q)].
(** BITMAPlib.py:2369-2396 *)
Definition drawvec head (u v : Z * Z) (headsize color : Z) (penradius : option Z) : M unit :=
  forM (iterdrawvec head u v headsize) (fun ab =>
    match penradius with
    | Some p => thickroundline (fst ab) (snd ab) p color
    | None => linevec (fst ab) (snd ab) color
    end).

(** list.index: the first position of an equal element *)
Fixpoint index_of (v : Z * Z) (l : list (Z * Z)) : Z :=
  match l with
  | [] => 0
  | u :: t => if (fst u =? fst v) && (snd u =? snd v) then 0 else 1 + index_of v t
  end.
(** BITMAPlib.py:7073-7102; valstart and valstep are integers *)
Definition numbervert (vlist : list (Z * Z)) (xadj yadj scale valstart valstep pixspace spacebetweenchar : Z) (color : SpecText.colour)
    (fontbuf : list Z) (suppresszero suppresslastnum rightjustify : bool) : M unit :=
  let maxv := zlen vlist - 1 in
  forM vlist (fun v =>
    let i := index_of v vlist in
    let plot := if i >? 0 then true else negb suppresszero in
    let plot := if (i =? maxv) && suppresslastnum then false else plot in
    let stval := strint (valstart + i * valstep) in
    let rjust := if rightjustify then Z.shiftl (zlen stval - 1) 3 else 0 in
    if plot then
      plotstring (fst v + xadj - rjust) (snd v + yadj) stval scale pixspace spacebetweenchar color fontbuf
    else ret tt).

(** what XYaxis returns: origin, steps, xylimits, xyvalstarts, xysteps and the highest values *)
Record axes := mkaxes { ax_origin : Z * Z; ax_steps : Z * Z; ax_limits : Z * Z;
  ax_starts : Z * Z; ax_vsteps : Z * Z; ax_max : Z * Z }.
(** BITMAPlib.py:7154-7227 (xygridvec, 7048-7070, inlined) *)
Definition XYaxis head (origin steps xylimits xyvalstarts xysteps : Z * Z) (color textcolor : Z) (showgrid : bool) (gridcolor : Z) : M axes :=
  hvert <- lift (horizontalvert (snd origin) (fst origin) (fst xylimits) (fst steps)) ;;
  vvert <- lift (verticalvert (fst origin) (snd origin) (snd xylimits) (- snd steps)) ;;
  (if showgrid then
     xygrid (fst origin) (snd origin) (fst xylimits) (snd xylimits) (fst steps) (snd steps) gridcolor
   else ret tt) ;;;
  drawvec head origin (fst origin, snd xylimits) 10 color None ;;;
  drawvec head origin (fst xylimits, snd origin) 10 color None ;;;
  vertlinevert hvert 5 (-2) color ;;;
  horilinevert vvert (-3) 0 color ;;;
  numbervert vvert (-15) (-4) 1 (snd xyvalstarts) (snd xysteps) 0 0 (One textcolor) font8x14 false false true ;;;
  numbervert hvert (-4) 7 1 (fst xyvalstarts) (fst xysteps) 0 0 (One textcolor) font8x14 false false false ;;;
  ret (mkaxes origin steps xylimits xyvalstarts xysteps
    (fst xyvalstarts + (zlen hvert - 1) * fst xysteps, snd xyvalstarts + (zlen vvert - 1) * snd xysteps)).

(** BITMAPlib.py:7230-7261, in rational numbers *)
Definition userdef2Dcooordsys2screenxy (x y : Q) (a : axes) : M (Q * Q) :=
  qx <- lift (qdiv (x - inject_Z (fst (ax_starts a))) (inject_Z (fst (ax_vsteps a)))) ;;
  qy <- lift (qdiv (y - inject_Z (snd (ax_starts a))) (inject_Z (snd (ax_vsteps a)))) ;;
  let x := (inject_Z (fst (ax_origin a)) + qx * inject_Z (fst (ax_steps a)))%Q in
  let y := (inject_Z (snd (ax_origin a)) - qy * inject_Z (snd (ax_steps a)))%Q in
  if negb (Qle_bool x (inject_Z (fst (ax_limits a)))) || negb (Qle_bool (inject_Z (snd (ax_limits a))) y) then
    print Mregionoutofbounds ;;; ret ((-1, -1)%Q)
  else ret (x, y).
(** BITMAPlib.py:3327-3347, 1838-1857 *)
Definition circlevec (v : Q * Q) (r color : Z) (isfilled : bool) : M unit :=
  circle (fst (roundvect v)) (snd (roundvect v)) r color isfilled.
Definition plotvecxypoint (v : Q * Q) (c : Z) : M unit :=
  plotxybit (fst (roundvect v)) (snd (roundvect v)) c.
(** the loop, BITMAPlib.py:7307-7315; the rows are lists [x, y, r, colour, isfilled] of
    integers, False and True being 0 and 1 *)
Definition scatterpoint (a : axes) (v : list Z) : M unit :=
  r <- lift (item v 2) ;;
  x <- lift (item v 0) ;;
  y <- lift (item v 1) ;;
  w <- userdef2Dcooordsys2screenxy (inject_Z x) (inject_Z y) a ;;
  c <- lift (item v 3) ;;
  if r >? 1 then
    f <- lift (item v 4) ;; circlevec w (setmax r 5) c (negb (f =? 0))
  else plotvecxypoint w c.
(** BITMAPlib.py:7264-7332; linevec (2327-2344) rounds both ends *)
Definition XYscatterplot (XYdata : list (list Z)) (a : axes) (showLinearRegLine : bool) (reglinecolor : Z) : M unit :=
  forM XYdata (scatterpoint a) ;;;
  if showLinearRegLine then
    m <- lift (LSMslope XYdata) ;;
    b <- lift (LSMYint XYdata) ;;
    let xmin := inject_Z (fst (ax_starts a)) in
    let xmax := inject_Z (fst (ax_max a)) in
    let ymin := (xmin * m + b)%Q in
    let ymax := (xmax * m + b)%Q in
    u <- userdef2Dcooordsys2screenxy xmin ymin a ;;
    w <- userdef2Dcooordsys2screenxy xmax ymax a ;;
    w <- (if Qeq_bool (fst w) (-1) && Qeq_bool (snd w) (-1) then
            let ymax := inject_Z (snd (ax_max a)) in
            xmax <- lift (qdiv (ymax - b) m) ;;
            userdef2Dcooordsys2screenxy xmax ymax a
          else ret w) ;;
    linevec (roundvect u) (roundvect w) reglinecolor
  else ret tt.
