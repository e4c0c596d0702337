(** Model of the line, rectangle and circle drawing functions of BITMAPlib.py.
    Paths are relative to /repo/pythonbmp. *)
From Coq Require Import ZArith List Bool.
From Verif Require Import PyBase Bmp Buffers Region Geometry.
Import ListNotations.
Open Scope Z_scope.
Open Scope py_scope.

(** colors.py:272-303.  [islist] tells whether the RGB argument is a list (as in
    plotRGBxybit) or a tuple (as in filledrect): palette entries are lists, and a
    tuple never equals a list, so [RGB in pal] is False and [RGB != [0,0,0]] is
    True for a tuple.  The distances (mathlib.py:704-730, square roots of sums of
    squares) are compared through their squares: math.sqrt is monotone and
    separates the integers that occur, at most 3*255^2 < 442^2. *)
Definition dist2 (u v : Z * Z * Z) : Z :=
  let '(a, b, c) := u in let '(a', b', c') := v in
  (a - a') * (a - a') + (b - b') * (b - b') + (c - c') * (c - c').
Definition rgb_eqb (u v : Z * Z * Z) : bool :=
  let '(a, b, c) := u in let '(a', b', c') := v in (a =? a') && (b =? b') && (c =? c').
Fixpoint pal_index (rgb : Z * Z * Z) (pal : list (Z * Z * Z)) (i : Z) : option Z :=
  match pal with
  | [] => None
  | p :: t => if rgb_eqb p rgb then Some i else pal_index rgb t (i + 1)
  end.
Fixpoint pal_nearest (islist : bool) (rgb : Z * Z * Z) (pal : list (Z * Z * Z)) (i c d : Z) : Z :=
  match pal with
  | [] => c
  | p :: t =>
      let '(c, d) :=
        if negb (rgb_eqb p (0, 0, 0)) && negb (islist && rgb_eqb rgb (0, 0, 0)) then
          let newd := dist2 rgb p in
          if newd <? d then (i, newd) else (c, d)
        else (c, d) in
      pal_nearest islist rgb t (i + 1) c d
  end.
Definition matchRGBtopal (islist : bool) (rgb : Z * Z * Z) (pal : list (Z * Z * Z)) : Z :=
  match (if islist then pal_index rgb pal 0 else None) with
  | Some c => c
  | None => pal_nearest islist rgb pal 0 0 (442 * 442)
  end.

(** BITMAPlib.py:2006-2057 *)
Definition horiline (y x1 x2 color : Z) : M unit :=
  bits <- geti bmpcolorbits ;;
  m <- rd getmaxxy ;;
  let (mx, my) := (fst m, snd m) in
  if isinrange y my (-1) then
    let (x1, x2) := swapif x1 x2 (x1 >? x2) in
    let x1 := setmin x1 0 in
    let x2 := setmax x2 (mx - 1) in
    let dx := x2 - x1 + 1 in
    s <- rd (bmoffsethd x1 y) ;;
    if bits =? 24 then
      let e := s + dx * 3 in
      let '(r, g, b) := int2RGB color in
      buf <- lift (py_array (rep_list [b; g; r] dx)) ;;
      slice_set s e buf
    else if bits =? 8 then
      let e := s + dx in
      buf <- lift (py_array (repz (Z.land color 255) dx)) ;;
      slice_set s e buf
    else if bits =? 4 then
      let dx := Z.shiftr dx 1 in
      let e := s + dx in
      let color := Z.land color 15 in
      let c2 := Z.shiftl color 4 + color in
      c1 <- (if Z.land x1 1 =? 1 then v <- geti s ;; ret (Z.land v 240) else ret (-1)) ;;
      buf <- lift (py_array (repz c2 dx)) ;;
      slice_set s e buf ;;;
      (if negb (c1 =? -1) then v <- geti s ;; seti s (c1 + Z.land v 15) else ret tt) ;;;
      (if Z.land x2 1 =? 1 then plotxybit (x2 - 1) y color else ret tt)
    else if bits =? 1 then
      forM (range x1 (x2 + 1)) (fun x => plotxybit x y color)
    else ret tt
  else print Mlineoutofbnd.

(** BITMAPlib.py:2060-2107 *)
Definition vertline (x y1 y2 color : Z) : M unit :=
  bits <- geti bmpcolorbits ;;
  if negb ((bits =? 24) || (bits =? 8)) then
    let (y1, y2) := swapif y1 y2 (y1 >? y2) in
    forM (range y1 (y2 + 1)) (fun y => plotxybit x y color)
  else
    r <- rd xchrcnt ;;
    m <- rd getmaxxy ;;
    let (mx, my) := (fst m, snd m) in
    if isinrange x mx (-1) then
      let (y1, y2) := swapif y1 y2 (y1 >? y2) in
      let y1 := setmin y1 0 in
      let y2 := setmax y2 (my - 1) in
      let dy := y2 - y1 + 1 in
      let '(cr, cg, cb) := int2RGB color in
      s <- rd (bmoffsethd x y2) ;;
      e0 <- rd (bmoffsethd x y1) ;;
      let e := e0 + r in
      if bits =? 24 then
        b0 <- lift (py_array (repz cb dy)) ;; xslice_set s (e - 2) r b0 ;;;
        b1 <- lift (py_array (repz cg dy)) ;; xslice_set (s + 1) (e - 1) r b1 ;;;
        b2 <- lift (py_array (repz cr dy)) ;; xslice_set (s + 2) e r b2
      else
        b0 <- lift (py_array (repz (color mod 256) dy)) ;; xslice_set s e r b0
    else print Mlineoutofbnd.

(** BITMAPlib.py:1948-2003 *)
Definition line (x1 y1 x2 y2 color : Z) : M unit :=
  m <- rd bottomrightcoord ;;
  let (mx, my) := (fst m, snd m) in
  let x1 := setminmax x1 0 mx in
  let x2 := setminmax x2 0 mx in
  let y1 := setminmax y1 0 my in
  let y2 := setminmax y2 0 my in
  if x1 =? x2 then vertline x1 y1 y2 color
  else if y1 =? y2 then horiline y1 x1 x2 color
  else
    bits <- geti bmpcolorbits ;;
    if bits =? 24 then
      buf <- lift (int2BGRarr color) ;;
      forM (iterline (x1, y1) (x2, y2)) (fun p =>
        s <- rd (bmoffsethd (fst p) (snd p)) ;; slice_set s (s + 3) buf)
    else if bits =? 8 then
      let color := Z.land color 255 in
      forM (iterline (x1, y1) (x2, y2)) (fun p =>
        s <- rd (bmoffsethd (fst p) (snd p)) ;; seti s color)
    else if bits =? 4 then
      let color := if color >? 15 then Z.land color 15 else color in
      forM (iterline (x1, y1) (x2, y2)) (fun p =>
        s <- rd (bmoffsethd (fst p) (snd p)) ;;
        v <- geti s ;;
        if Z.land (fst p) 1 =? 1 then seti s (Z.land v 240 + color)
        else seti s (Z.shiftl color 4 + Z.land v 15))
    else if bits =? 1 then
      let color := if color >? 1 then Z.land color 1 else color in
      forM (iterline (x1, y1) (x2, y2)) (fun p => plotxybit (fst p) (snd p) color)
    else ret tt.

(** BITMAPlib.py:3937-3983 below the guard; the [while] loop gets fuel. *)
Definition filledrect_body (fuel : nat) (x1 y1 x2 y2 color : Z) : M unit :=
  bits <- geti bmpcolorbits ;;
  let '(x1, y1, x2, y2) := sortrecpoints x1 y1 x2 y2 in
  if negb ((bits =? 8) || (bits =? 24)) then
    forM (range y1 (y2 + 1)) (fun y => horiline y x1 x2 color)
  else
    let dx := x2 - x1 + 1 in
    r <- rd xchrcnt ;;
    let '(cr, cg, cb) := int2RGB color in
    buf <- (if bits =? 24 then lift (py_array (rep_list [cb; cg; cr] dx))
            else pal <- rd getallRGBpal ;;
                 lift (py_array (repz (matchRGBtopal false (int2RGB color) pal) dx))) ;;
    offset <- rd (bmoffsethd x1 y2) ;;
    lim <- rd (bmoffsethd x2 y1) ;;
    let bufsize := zlen buf in
    fsize <- rd flsz ;;
    whileM fuel (fun offset => (offset <=? lim) && (offset + bufsize <=? fsize))
      (fun offset => slice_set offset (offset + bufsize) buf ;;; ret (offset + r)) offset ;;;
    ret tt.
Definition filledrect_fuel (fuel : nat) (x1 y1 x2 y2 color : Z) : M (option unit) :=
  entirerectinboundary x1 y1 x2 y2 (filledrect_body fuel x1 y1 x2 y2 color).
(** with as many turns as the image can have rows *)
Definition filledrect (x1 y1 x2 y2 color : Z) : M (option unit) :=
  h <- rd getmaxy ;; filledrect_fuel (Z.to_nat (h + 1)) x1 y1 x2 y2 color.

(** BITMAPlib.py:3350-3409 *)
Definition filledcircle (x y r color : Z) : M unit :=
  bits <- geti bmpcolorbits ;;
  pts <- lift (itercirclepartlineedge r) ;;
  if bits <? 8 then
    forM pts (fun v =>
      let (x1, x2) := mirror x (fst v) in
      let (y1, y2) := mirror y (snd v) in
      horiline y1 x1 x2 color ;;; horiline y2 x1 x2 color)
  else
    m <- rd getmaxxy ;;
    let xmax := fst m - 1 in
    let ymax := snd m in
    if bits =? 24 then
      forM pts (fun v =>
        let (x1, x2) := mirror x (fst v) in
        let (y1, y2) := mirror y (snd v) in
        let x1 := setmin x1 0 in
        let x2 := setmax x2 xmax in
        let dx := x2 - x1 + 1 in
        let '(cr, cg, cb) := int2RGB color in
        colorbuf <- lift (py_array (rep_list [cb; cg; cr] dx)) ;;
        let lbuf := dx * 3 in
        (if isinrange y2 ymax (-1) then
           s <- rd (o24bmofhd x1 y2) ;; slice_set s (s + lbuf) colorbuf else ret tt) ;;;
        (if isinrange y1 ymax (-1) then
           s <- rd (o24bmofhd x1 y1) ;; slice_set s (s + lbuf) colorbuf else ret tt))
    else if bits =? 8 then
      forM pts (fun v =>
        let (x1, x2) := mirror x (fst v) in
        let (y1, y2) := mirror y (snd v) in
        let x1 := setmin x1 0 in
        let x2 := setmax x2 xmax in
        let dx := x2 - x1 + 1 in
        colorbuf <- lift (py_array (repz (Z.land color 255) dx)) ;;
        (if isinrange y2 ymax (-1) then
           s <- rd (o8bmofhd x1 y2) ;; slice_set s (s + dx) colorbuf else ret tt) ;;;
        (if isinrange y1 ymax (-1) then
           s <- rd (o8bmofhd x1 y1) ;; slice_set s (s + dx) colorbuf else ret tt))
    else ret tt.

(** primitives2D.py:825-849 *)
Definition entirecircleisinboundary (x y minx maxx miny maxy r : Z) : bool :=
  (isinrange (x - r) maxx minx && isinrange (x + r) maxx minx) &&
  (isinrange (y - r) maxy miny && isinrange (y + r) maxy miny).

(** BITMAPlib.py:3412-3479.  The generators are run to their end before the
    first store; their points do not depend on the bitmap. *)
Definition circle (x y r color : Z) (isfilled : bool) : M unit :=
  if isfilled then filledcircle x y r color
  else
    m <- rd getmaxxy ;;
    bits <- geti bmpcolorbits ;;
    let dobndcheck :=
      negb (entirecircleisinboundary x y (-1) (fst m) (-1) (snd m) r) in
    if bits =? 24 then
      color <- lift (int2BGRarr color) ;;
      if dobndcheck then
        pts <- lift (itercircle x y r) ;;
        forM pts (fun p =>
          inb <- rd (isinBMPrectbnd (fst p) (snd p)) ;;
          if inb then s <- rd (bmoffsethd (fst p) (snd p)) ;; slice_set s (s + 3) color
          else ret tt)
      else
        pts <- lift (itercirclepart r) ;;
        forM pts (fun p =>
          let (x1, x2) := mirror x (fst p) in
          let (y1, y2) := mirror y (snd p) in
          s1 <- rd (bmoffsethd x1 y1) ;;
          s2 <- rd (bmoffsethd x2 y2) ;;
          s3 <- rd (bmoffsethd x1 y2) ;;
          s4 <- rd (bmoffsethd x2 y1) ;;
          slice_set s1 (s1 + 3) color ;;; slice_set s2 (s2 + 3) color ;;;
          slice_set s3 (s3 + 3) color ;;; slice_set s4 (s4 + 3) color)
    else if bits =? 8 then
      if dobndcheck then
        pts <- lift (itercircle x y r) ;;
        forM pts (fun p =>
          inb <- rd (isinBMPrectbnd (fst p) (snd p)) ;;
          if inb then s <- rd (bmoffsethd (fst p) (snd p)) ;; seti s color else ret tt)
      else
        pts <- lift (itercirclepart r) ;;
        forM pts (fun p =>
          let (x1, x2) := mirror x (fst p) in
          let (y1, y2) := mirror y (snd p) in
          s1 <- rd (bmoffsethd x1 y1) ;; seti s1 color ;;;
          s2 <- rd (bmoffsethd x2 y2) ;; seti s2 color ;;;
          s3 <- rd (bmoffsethd x1 y2) ;; seti s3 color ;;;
          s4 <- rd (bmoffsethd x2 y1) ;; seti s4 color)
    else
      pts <- lift (itercircle x y r) ;;
      forM pts (fun p => plotxybit (fst p) (snd p) color).

(** BITMAPlib.py:1903-1926 *)
Definition roundpen (x y penradius color : Z) : M unit :=
  if penradius <=? 1 then plotxybit x y color
  else circle x y penradius color true.

(** BITMAPlib.py:1639-1663; [rgb] is a list here *)
Definition plotRGBxybit (x y r g b : Z) : M unit :=
  inb <- rd (isinBMPrectbnd x y) ;;
  if inb then
    bits <- geti bmpcolorbits ;;
    if bits =? 24 then
      offset <- rd (o24bmofhd x y) ;;
      a <- lift (py_array [b; g; r]) ;;
      slice_set offset (offset + 3) a
    else
      pal <- rd getallRGBpal ;;
      plotxybit x y (matchRGBtopal true (r, g, b) pal)
  else ret tt.
