(** Model of the composite drawing functions of BITMAPlib.py: polylines,
    polygons, thick lines and circles, gradients, grids and ellipses.  Paths are
    relative to /repo/pythonbmp.  Colours computed with floating point
    (interpolateRGB, colormix) are arbitrary functions of the loop counters;
    vertices are integers, for which roundvect does nothing. *)
From Coq Require Import ZArith List Bool.
From Verif Require Import PyBase Bmp Buffers Region Geometry Draw Filters Circle.
Import ListNotations.
Open Scope Z_scope.
Open Scope py_scope.

(** [if bmp[bmpcolorbits] != 24: c = matchRGBtopal(int2RGBarr(c), getallRGBpal(bmp))],
    BITMAPlib.py:2184-2187, 2195-2198, 2455-2458, 3561-3563, 3592-3595, 3641-3644,
    3650-3653, 3866-3869, 6738-6741, 6774-6777, 7009-7012.  An array never equals
    a list, so the match is the one for tuples (see matchRGBtopal). *)
Definition depthcolor (c : Z) : M Z :=
  bits <- geti bmpcolorbits ;;
  if bits =? 24 then ret c
  else
    let '(r, g, b) := int2RGB c in
    _ <- lift (py_array [r; g; b]) ;;
    pal <- rd getallRGBpal ;;
    ret (matchRGBtopal false (r, g, b) pal).

(** ** Gradient rectangles *)

(** BITMAPlib.py:2138-2199.  [col n d] stands for
    RGB2int( *interpolateRGB(fn, r1, r2, g1, g2, b1, b2, n / d)); the guard makes
    x and y non-negative, so setminmax(x / dx, 0.0, 1.0) is min(x, dx) / dx. *)
Definition filledgradrect (col : Z -> Z -> Z) (x1 y1 x2 y2 direction : Z) : M (option unit) :=
  func8and24bitonlyandentirerectinboundary x1 y1 x2 y2 (
    let '(x1, y1, x2, y2) := sortrecpoints x1 y1 x2 y2 in
    let dx := x2 - x1 + 1 in
    let dy := y2 - y1 + 1 in
    if direction =? 0 then
      forM (range x1 (x2 + 1)) (fun x =>
        c <- depthcolor (col (Z.min x dx) dx) ;; vertline x y1 y2 c)
    else
      forM (range y1 (y2 + 1)) (fun y =>
        c <- depthcolor (col (Z.min y dy) dy) ;; horiline y x1 x2 c)).
(** BITMAPlib.py:2110-2135 *)
Definition fillbackgroundwithgrad (col : Z -> Z -> Z) (direction : Z) : M (option unit) :=
  wholeimage (fun x1 y1 x2 y2 => filledgradrect col x1 y1 x2 y2 direction).
(** BITMAPlib.py:2203-2247; [col] as above *)
Definition filleddichromaticgradrect (col : Z -> Z -> Z) (x1 y1 x2 y2 direction : Z) : M (option unit) :=
  func24bitonlyandentirerectinboundary x1 y1 x2 y2 (
    let '(x1, y1, x2, y2) := sortrecpoints x1 y1 x2 y2 in
    let dx := x2 - x1 + 1 in
    let dy := y2 - y1 + 1 in
    if direction =? 0 then
      forM (range x1 (x2 + 1)) (fun x => vertline x y1 y2 (col (Z.min x dx) dx))
    else
      forM (range y1 (y2 + 1)) (fun y => horiline y x1 x2 (col (Z.min y dy) dy))).
(** BITMAPlib.py:2250-2276 *)
Definition fillbackgroundwithdichromaticgrad (col : Z -> Z -> Z) (direction : Z) : M (option unit) :=
  wholeimage (fun x1 y1 x2 y2 => filleddichromaticgradrect col x1 y1 x2 y2 direction).

(** ** Lines between points *)

(** BITMAPlib.py:2308-2324, 2327-2344 *)
Definition linevec (u v : Z * Z) (color : Z) : M unit := line (fst u) (snd u) (fst v) (snd v) color.
(** BITMAPlib.py:2399-2418 *)
Definition thickroundline (p1 p2 : Z * Z) (penradius color : Z) : M unit :=
  forM (iterline p1 p2) (fun p => circle (fst p) (snd p) penradius color true).
(** the loop [for i in range(vertcount): if i > 0: f(vertlist[i - 1], vertlist[i])] *)
Fixpoint segments (vs : list (Z * Z)) : list ((Z * Z) * (Z * Z)) :=
  match vs with
  | u :: (v :: _) as t => (u, v) :: segments t
  | _ => []
  end.
(** BITMAPlib.py:6782-6815 *)
Definition plotlines (vs : list (Z * Z)) (color penradius : Z) : M unit :=
  if penradius <=? 1 then forM (segments vs) (fun s => linevec (fst s) (snd s) color)
  else forM (segments vs) (fun s => thickroundline (fst s) (snd s) penradius color).
(** the closing line between vertlist[0] and vertlist[-1]; IndexError when empty *)
Definition closing (f : Z * Z -> Z * Z -> M unit) (vs : list (Z * Z)) : M unit :=
  match vs with [] => raise IndexError | u :: _ => f u (last vs u) end.
(** BITMAPlib.py:6818-6834 *)
Definition plotpoly (vs : list (Z * Z)) (color : Z) : M unit :=
  plotlines vs color 1 ;;; closing (fun u v => linevec u v color) vs.
(** BITMAPlib.py:6837-6854 *)
Definition plotpolylist (l : list (list (Z * Z))) (color : Z) : M unit :=
  forM l (fun vs => plotpoly vs color).
(** BITMAPlib.py:6680-6706 *)
Definition thickplotpoly (vs : list (Z * Z)) (penradius color : Z) : M unit :=
  forM (segments vs) (fun s => thickroundline (fst s) (snd s) penradius color) ;;;
  closing (fun u v => thickroundline u v penradius color) vs.
(** BITMAPlib.py:3916-3934 with primitives2D.py:460-477 *)
Definition recvert (x1 y1 x2 y2 : Z) : list (Z * Z) := [(x1, y1); (x2, y1); (x2, y2); (x1, y2)].
Definition rectangle (x1 y1 x2 y2 color : Z) : M unit := plotpoly (recvert x1 y1 x2 y2) color.

(** range(n, 0, -1) *)
Definition countdown (n : Z) : list Z := rev (range 1 (n + 1)).
(** BITMAPlib.py:2421-2459; [col i] stands for colormix(int(lum1 + lumrang * i / penradius), RGBfactors) *)
Definition gradthickroundline (col : Z -> Z) (p1 p2 : Z * Z) (penradius : Z) : M unit :=
  forM (countdown penradius) (fun i => c <- depthcolor (col i) ;; thickroundline p1 p2 i c).
(** BITMAPlib.py:6709-6742; [col i] stands for colormix(int(fn(l1, l2, i / penradius)), RGBfactors) *)
Definition gradthickplotpoly (col : Z -> Z) (vs : list (Z * Z)) (penradius : Z) : M unit :=
  forM (countdown penradius) (fun i => c <- depthcolor (col i) ;; thickplotpoly vs i c).
(** BITMAPlib.py:6745-6778 *)
Definition gradplotlines (col : Z -> Z) (vs : list (Z * Z)) (penradius : Z) : M unit :=
  forM (countdown penradius) (fun i => c <- depthcolor (col i) ;; plotlines vs c i).
(** BITMAPlib.py:2347-2366 with primitives2D.py:199-225 *)
Definition filledparallelogram (p1 p2 p3 : Z * Z) (color : Z) : M unit :=
  let q := (fst p3 + (fst p2 - fst p1), snd p3 + (snd p2 - snd p1)) in
  forM (combine (iterline p1 p3) (iterline p2 q)) (fun s => linevec (fst s) (snd s) color).

(** ** Points *)

(** BITMAPlib.py:1878-1900; also the loops of beziercurve, bspline (BITMAPlib.py:3986-4032)
    over the points of the curve *)
Definition plotxypointlist (vs : list (Z * Z)) (penradius color : Z) : M unit :=
  forM vs (fun v => roundpen (fst v) (snd v) penradius color).
(** BITMAPlib.py:6977-7014 *)
Definition gradvert (col : Z -> Z) (vs : list (Z * Z)) (penradius : Z) : M unit :=
  forM (countdown penradius) (fun i => c <- depthcolor (col i) ;; plotxypointlist vs i c).
(** BITMAPlib.py:1929-1945 with 1804-1835 *)
Definition swapcolors (p1 p2 : Z * Z) : M unit :=
  c <- rd (getxybit (fst p1) (snd p1)) ;;
  d <- rd (getxybit (fst p2) (snd p2)) ;;
  plotxybit (fst p1) (snd p1) d ;;;
  plotxybit (fst p2) (snd p2) c.

(** ** Grids *)

(** range(a, b, k); a negative step gives nothing as a <= b here *)
Definition pyrange3 (a b k : Z) : res (list Z) :=
  if k =? 0 then Err ValueError else if k <? 0 then Ok [] else Ok (range_step a b k).
(** BITMAPlib.py:7018-7045, 7048-7070 *)
Definition xygrid (x1 y1 x2 y2 xstep ystep color : Z) : M unit :=
  let '(x1, y1, x2, y2) := sortrecpoints x1 y1 x2 y2 in
  xs <- lift (pyrange3 x1 x2 xstep) ;;
  forM xs (fun x => vertline x y1 y2 color) ;;;
  ys <- lift (pyrange3 y1 y2 ystep) ;;
  forM ys (fun y => horiline y x1 x2 color).
(** BITMAPlib.py:7105-7126, 7129-7151 *)
Definition vertlinevert (vs : list (Z * Z)) (linelen yadj color : Z) : M unit :=
  forM vs (fun v => vertline (fst v) (snd v) (snd v + linelen + yadj) color).
Definition horilinevert (vs : list (Z * Z)) (linelen xadj color : Z) : M unit :=
  forM vs (fun v => horiline (snd v) (fst v) (fst v + linelen + xadj) color).

(** ** Circles *)

(** BITMAPlib.py:3513-3531; the generator is run to its end before the loop *)
Definition thickcircle (x y r penradius color : Z) : M unit :=
  pts <- lift (itercircle x y r) ;;
  forM pts (fun p => circle (fst p) (snd p) penradius color true).
(** BITMAPlib.py:3534-3564 *)
Definition gradthickcircle (col : Z -> Z) (x y r penradius : Z) : M unit :=
  forM (countdown penradius) (fun i => c <- depthcolor (col i) ;; thickcircle x y r i c).
(** BITMAPlib.py:3567-3596, 13097-13100 *)
Definition gradcircle (col : Z -> Z) (x y r : Z) : M unit :=
  forM (countdown (r - 1)) (fun i => c <- depthcolor (col i) ;; thickcircle x y i 2 c).
(** BITMAPlib.py:3599-3620, 13101-13103 *)
Definition graddichromiccircle (col : Z -> Z) (x y r : Z) : M (option unit) :=
  func24bitonly (forM (countdown (r - 1)) (fun i => thickcircle x y i 2 (col i))).
(** BITMAPlib.py:3623-3654; [c0] stands for colormix(255, RGBfactors) and [col i] for
    colormix(int(255 * (r - i) / j), RGBfactors); range(r - 1, j, -1) *)
Definition orb (c0 : Z) (col : Z -> Z) (x y r : Z) : M unit :=
  let j := Z.shiftr r 1 in
  c <- depthcolor c0 ;;
  filledcircle x y j c ;;;
  forM (rev (range (j + 1) r)) (fun i => c <- depthcolor (col i) ;; thickcircle x y i 2 c).
(** BITMAPlib.py:13106-13125; the guard only checks that x, y, r are integers *)
Definition thickencirclearea (col : Z -> Z) (x y r : Z) : M unit := gradthickcircle col x y r 8.

(** ** Ellipses *)

(** primitives2D.py:228-266 with enough turns for both loops whenever they end
    (see iterellipsepart_fuel) *)
Definition iterellipsepart (b a : Z) : res (list (Z * Z)) :=
  iterellipsepart_fuel (Z.to_nat (a * a + b * b + 2)) b a.
(** primitives2D.py:269-283 *)
Definition iterellipse (x y b a : Z) : res (list (Z * Z)) :=
  let! l := iterellipsepart b a in Ok (flat_map (mirror1stquad x y) l).
(** primitives2D.py:852-876 *)
Definition entireellipseisinboundary (x y minx maxx miny maxy b a : Z) : bool :=
  (isinrange (x - b) maxx minx && isinrange (x + b) maxx minx) &&
  (isinrange (y - a) maxy miny && isinrange (y + a) maxy miny).
(** BITMAPlib.py:3721-3780 *)
Definition filledellipse (x y b a color : Z) : M unit :=
  bits <- geti bmpcolorbits ;;
  pts <- lift (iterellipsepart b a) ;;
  if bits <? 8 then
    forM pts (fun v =>
      let (x1, x2) := mirror x (fst v) in
      let (y1, y2) := mirror y (snd v) in
      horiline y1 x1 x2 color ;;; horiline y2 x1 x2 color)
  else
    m <- rd getmaxxy ;;
    let (mx, my) := (fst m, snd m) in
    if bits =? 24 then
      forM pts (fun v =>
        let (x1, x2) := mirror x (fst v) in
        let (y1, y2) := mirror y (snd v) in
        let x1 := setmin x1 0 in
        let x2 := setmax x2 (mx - 1) in
        let dx := x2 - x1 + 1 in
        let '(cr, cg, cb) := int2RGB color in
        colorbuf <- lift (py_array (rep_list [cb; cg; cr] dx)) ;;
        let lbuf := dx * 3 in
        (if isinrange y2 my (-1) then
           s <- rd (o24bmofhd x1 y2) ;; slice_set s (s + lbuf) colorbuf else ret tt) ;;;
        (if isinrange y1 my (-1) then
           s <- rd (o24bmofhd x1 y1) ;; slice_set s (s + lbuf) colorbuf else ret tt))
    else if bits =? 8 then
      forM pts (fun v =>
        let (x1, x2) := mirror x (fst v) in
        let (y1, y2) := mirror y (snd v) in
        let x1 := setmin x1 0 in
        let x2 := setmax x2 (mx - 1) in
        let dx := x2 - x1 + 1 in
        colorbuf <- lift (py_array (repz (Z.land color 255) dx)) ;;
        (if isinrange y2 my (-1) then
           s <- rd (o8bmofhd x1 y2) ;; slice_set s (s + dx) colorbuf else ret tt) ;;;
        (if isinrange y1 my (-1) then
           s <- rd (o8bmofhd x1 y1) ;; slice_set s (s + dx) colorbuf else ret tt))
    else ret tt.
(** BITMAPlib.py:3783-3833 *)
Definition ellipse (x y b a color : Z) (isfilled : bool) : M unit :=
  if isfilled then filledellipse x y b a color
  else
    m <- rd getmaxxy ;;
    bits <- geti bmpcolorbits ;;
    let dobndcheck := negb (entireellipseisinboundary x y (-1) (fst m) (-1) (snd m) b a) in
    pts <- lift (iterellipse x y b a) ;;
    if bits =? 24 then
      color <- lift (int2BGRarr color) ;;
      forM pts (fun p =>
        inb <- (if dobndcheck then rd (isinBMPrectbnd (fst p) (snd p)) else ret true) ;;
        if inb then s <- rd (bmoffsethd (fst p) (snd p)) ;; slice_set s (s + 3) color
        else ret tt)
    else if bits =? 8 then
      forM pts (fun p =>
        inb <- (if dobndcheck then rd (isinBMPrectbnd (fst p) (snd p)) else ret true) ;;
        if inb then s <- rd (bmoffsethd (fst p) (snd p)) ;; seti s color else ret tt)
    else
      forM pts (fun p => plotxybit (fst p) (snd p) color).
(** BITMAPlib.py:3836-3871 *)
Definition gradellipse (col : Z -> Z) (x y b a : Z) : M unit :=
  let r := Z.max a b in
  let a := a - r in
  let b := b - r in
  forM (countdown r) (fun i => c <- depthcolor (col i) ;; ellipse x y (b + i) (a + i) c true).
(** BITMAPlib.py:3657-3680, 3683-3718; [pts] stands for the rounded points of
    iterellipserot, primitives2D.py:286-308 *)
Definition thickellipserot (pts : list (Z * Z)) (penradius color : Z) : M unit :=
  forM pts (fun p => circle (fst p) (snd p) penradius color true).
Definition gradthickellipserot (col : Z -> Z) (pts : list (Z * Z)) (penradius : Z) : M unit :=
  forM (countdown penradius) (fun i => c <- depthcolor (col i) ;; thickellipserot pts i c).

(** ** Brightness gradients in circles and on whole images *)

(** BITMAPlib.py:3070-3105.  [g i] stands for the brightness function with
    lum = l + i * dl; dl raises for r = 0.  The right-hand side is evaluated
    before either slice is stored. *)
Definition vertbrightnessgrad2circregion (g : Z -> Z -> Z) (x y r : Z) : M (option unit) :=
  func24bitonlyandentirecircleinboundary x y r (
    (if r =? 0 then raise ZeroDivisionError else ret tt) ;;;
    let b := y - r in
    pts <- lift (itercirclepartlineedge r) ;;
    forM pts (fun v =>
      let (x1, x2) := mirror x (fst v) in
      let (y1, y2) := mirror y (snd v) in
      s1 <- rd (bmoffsethd x1 y1) ;;
      e1 <- rd (bmoffsethd x2 y1) ;;
      s2 <- rd (bmoffsethd x1 y2) ;;
      e2 <- rd (bmoffsethd x2 y2) ;;
      a1 <- slice s1 e1 ;; a1 <- lift (applybrightnessadjtoBGRbuf (g (y1 - b)) a1) ;;
      a2 <- slice s2 e2 ;; a2 <- lift (applybrightnessadjtoBGRbuf (g (y2 - b)) a2) ;;
      slice_set s1 e1 a1 ;;; slice_set s2 e2 a2)).
(** BITMAPlib.py:1589-1636 *)
Definition fnwithpar2vertslice (func : list Z -> res (list Z)) (x y1 y2 : Z) : M unit :=
  bits <- geti bmpcolorbits ;;
  r <- rd xchrcnt ;;
  m <- rd getmaxxy ;;
  let (mx, my) := (fst m, snd m) in
  if isinrange x mx (-1) then
    let (y1, y2) := swapif y1 y2 (y1 >? y2) in
    let y1 := setmin y1 0 in
    let y2 := setmax y2 (my - 1) in
    s <- rd (bmoffsethd x y2) ;;
    e <- rd (bmoffsethd x y1) ;;
    let e := e + r in
    if bits =? 24 then
      a <- xslice s (e - 2) r ;; a <- lift (func a) ;; xslice_set s (e - 2) r a ;;;
      a <- xslice (s + 1) (e - 1) r ;; a <- lift (func a) ;; xslice_set (s + 1) (e - 1) r a ;;;
      a <- xslice (s + 2) e r ;; a <- lift (func a) ;; xslice_set (s + 2) e r a
    else
      a <- xslice s e r ;; a <- lift (func a) ;; xslice_set s e r a
  else print Mlineoutofbnd.
(** BITMAPlib.py:3108-3140; [g] as above *)
Definition horibrightnessgrad2circregion (g : Z -> Z -> Z) (x y r : Z) : M (option unit) :=
  func24bitonlyandentirecircleinboundary x y r (
    (if r =? 0 then raise ZeroDivisionError else ret tt) ;;;
    let b := x - r in
    pts <- lift (itercirclepartvertlineedge r) ;;
    forM pts (fun v =>
      let (x1, x2) := mirror x (fst v) in
      let (y1, y2) := mirror y (snd v) in
      fnwithpar2vertslice (applybrightnessadjtoBGRbuf (g (x1 - b))) x1 y1 y2 ;;;
      if negb (x1 =? x2) then
        fnwithpar2vertslice (applybrightnessadjtoBGRbuf (g (x2 - b))) x2 y1 y2
      else ret tt)).
(** BITMAPlib.py:8843-8862, 9073-9089 *)
Definition horizontalbrightnessgradto24bitimage (g : Z -> Z -> Z) : M (option unit) :=
  wholeimage (horizontalbrightnessgradto24bitregion g).
Definition verticalbrightnessgradto24bitimage (g : Z -> Z -> Z) : M (option unit) :=
  wholeimage (verticalbrightnessgradto24bitregion g).
