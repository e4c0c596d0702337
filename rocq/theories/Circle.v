(** Model of the operations on circular regions, BITMAPlib.py.  Paths are
    relative to /repo/pythonbmp.  The generators of the circle's rows and columns
    do not depend on the bitmap; they are run before the loop. *)
From Coq Require Import ZArith List Bool.
From Verif Require Import PyBase Bmp Buffers Region Geometry Draw Filters.
Import ListNotations.
Open Scope Z_scope.
Open Scope py_scope.

(** ** Guards, paramchecks.py; the arguments are integers *)

(** paramchecks.py:331-361: both limits are read from the width field *)
Definition entirecircleinboundary {A} (x y r : Z) (f : M A) : M (option A) :=
  w <- rd (readint bmpx 4) ;;
  h <- rd (readint bmpx 4) ;;
  if entirecircleisinboundary x y (-1) w (-1) h r then withSome f
  else print Mregionoutofbounds ;;; ret None.
(** paramchecks.py:143-177 *)
Definition func24bitonlyandentirecircleinboundary {A} (x y r : Z) (f : M A) : M (option A) :=
  bits <- geti bmpcolorbits ;;
  if negb (bits =? 24) then print Mnot24bit ;;; ret None
  else
    w <- rd (readint bmpx 4) ;;
    h <- rd (readint bmpy 4) ;;
    if entirecircleisinboundary x y (-1) w (-1) h r then withSome f
    else print Mregionoutofbounds ;;; ret None.
(** paramchecks.py:180-215 *)
Definition func8and24bitonlyandentirecircleinboundary {A} (x y r : Z) (f : M A) : M (option A) :=
  bits <- geti bmpcolorbits ;;
  if negb ((bits =? 24) || (bits =? 8)) then print Mnot24or8bit ;;; ret None
  else
    w <- rd (readint bmpx 4) ;;
    h <- rd (readint bmpy 4) ;;
    if entirecircleisinboundary x y (-1) w (-1) h r then withSome f
    else print Mregionoutofbounds ;;; ret None.
(** paramchecks.py:56-80 *)
Definition intcircleparam24bitonly {A} (f : M A) : M (option A) := func24bitonly f.

(** ** Applying a function to the rows of a circle *)

(** bmp[s: e] = func(bmp[s: e]) *)
Definition mapslice (func : list Z -> res (list Z)) (s e : Z) : M unit :=
  v <- slice s e ;; v <- lift (func v) ;; slice_set s e v.

(** the first branch of BITMAPlib.py:2483-2496, 2539-2554, 2693-2705 *)
Definition circrows_in (func : list Z -> res (list Z)) (x y : Z) (pts : list (Z * Z)) : M unit :=
  forM pts (fun v =>
    let (x1, x2) := mirror x (fst v) in
    let (y1, y2) := mirror y (snd v) in
    s1 <- rd (bmoffsethd x1 y1) ;;
    e1 <- rd (bmoffsethd x2 y1) ;;
    s2 <- rd (bmoffsethd x1 y2) ;;
    e2 <- rd (bmoffsethd x2 y2) ;;
    mapslice func s1 e1 ;;;
    if negb (y1 =? y2) then mapslice func s2 e2 else ret tt).

(** the second branch, BITMAPlib.py:2497-2512 ([tup] is true: line 2506 makes s2
    a tuple, so that bmp[s2: e2] raises TypeError), 2555-2572, 2706-2721 *)
Definition circrows_out (tup : bool) (func : list Z -> res (list Z)) (x y xmax ymax : Z) (pts : list (Z * Z)) : M unit :=
  forM pts (fun v =>
    let (x1, x2) := mirror x (fst v) in
    let (y1, y2) := mirror y (snd v) in
    let x1 := setmin x1 0 in
    let x2 := setmax x2 (xmax - 1) in
    (if isinrange y2 ymax (-1) then
       s2 <- rd (bmoffsethd x1 y2) ;;
       e2 <- rd (bmoffsethd x2 y2) ;;
       if tup then raise TypeError else mapslice func s2 e2
     else ret tt) ;;;
    (if isinrange y1 ymax (-1) && negb (y2 =? y1) then
       s1 <- rd (bmoffsethd x1 y1) ;;
       e1 <- rd (bmoffsethd x2 y1) ;;
       mapslice func s1 e1
     else ret tt)).

Definition usefn2circreg (tup : bool) (func : list Z -> res (list Z)) (x y r : Z) : M unit :=
  xmax <- rd getmaxx ;;
  ymax <- rd getmaxy ;;
  pts <- lift (itercirclepartlineedge r) ;;
  if entirecircleisinboundary x y (-1) xmax (-1) ymax r then circrows_in func x y pts
  else circrows_out tup func x y xmax ymax pts.

(** BITMAPlib.py:2462-2512 *)
Definition usenopar24btfn2circreg (x y r : Z) (func : list Z -> res (list Z)) : M (option unit) :=
  intcircleparam24bitonly (usefn2circreg true func x y r).
(** BITMAPlib.py:2515-2572; the parameter of [func] is part of the function *)
Definition use24btfn2circreg (x y r : Z) (func : list Z -> res (list Z)) : M (option unit) :=
  intcircleparam24bitonly (usefn2circreg false func x y r).
(** BITMAPlib.py:2670-2721 *)
Definition usenoparfn2circreg (x y r : Z) (func : list Z -> res (list Z)) : M unit :=
  usefn2circreg false func x y r.

(** BITMAPlib.py:3224-3239 *)
Definition monocircle (x y r : Z) := usenopar24btfn2circreg x y r monochromefiltertoBGRbuf.
(** BITMAPlib.py:3242-3262 *)
Definition colorfiltercircregion (fr fg fb : Z -> Z) (x y r : Z) :=
  use24btfn2circreg x y r (colorfiltertoBGRbuf fr fg fb).
(** BITMAPlib.py:3265-3284 *)
Definition gammacorrectcircregion (g : Z -> Z -> Z) (x y r : Z) := use24btfn2circreg x y r (gammaBGRbuf g).
(** BITMAPlib.py:3287-3306 *)
Definition brightnessadjcircregion (g : Z -> Z) (x y r : Z) :=
  use24btfn2circreg x y r (applybrightnessadjtoBGRbuf g).
(** BITMAPlib.py:9010-9029 *)
Definition thresholdadjcircregion (g : Z -> Z -> Z -> Z) (l0 l1 x y r : Z) :=
  use24btfn2circreg x y r (applythresholdadjtoBGRbuf g l0 l1).
(** BITMAPlib.py:3309-3324 *)
Definition invertbitsincircregion (x y r : Z) := usenoparfn2circreg x y r invertbitsinbuffer.

(** ** Flips and mirrors *)

(** the local functions of BITMAPlib.py:2935-2947 *)
Definition circvswap (t : vtrans) (s1 e1 s2 e2 : Z) : M unit :=
  match t with
  | TF => a <- slice s2 e2 ;; b <- slice s1 e1 ;; slice_set s1 e1 a ;;; slice_set s2 e2 b
  | TT => a <- slice s1 e1 ;; slice_set s2 e2 a
  | TB => a <- slice s2 e2 ;; slice_set s1 e1 a
  end.
(** BITMAPlib.py:2911-2957 *)
Definition verttransformincircregion (x y r : Z) (t : vtrans) : M (option unit) :=
  entirecircleinboundary x y r (
    pts <- lift (itercirclepartlineedge r) ;;
    forM pts (fun v =>
      let (x1, x2) := mirror x (fst v) in
      let (y1, y2) := mirror y (snd v) in
      s1 <- rd (bmoffsethd x1 y1) ;;
      e1 <- rd (bmoffsethd x2 y1) ;;
      s2 <- rd (bmoffsethd x1 y2) ;;
      e2 <- rd (bmoffsethd x2 y2) ;;
      circvswap t s1 e1 s2 e2)).
(** BITMAPlib.py:2893-2908, 2960-2975, 2978-2994 *)
Definition flipvertcircregion (x y r : Z) := verttransformincircregion x y r TF.
Definition mirrortopincircregion (x y r : Z) := verttransformincircregion x y r TT.
Definition mirrorbottomincircregion (x y r : Z) := verttransformincircregion x y r TB.

Inductive htrans : Set := XF | XR | XL.
(** the local functions of BITMAPlib.py:2811-2831 *)
Definition circhswap24 (t : htrans) (s1 e1 s2 e2 k : Z) : M unit :=
  match t with
  | XF =>
      a2 <- xslice s2 (e2 - 2) k ;; a1 <- xslice s1 (e1 - 2) k ;;
      b2 <- xslice (s2 + 1) (e2 - 1) k ;; b1 <- xslice (s1 + 1) (e1 - 1) k ;;
      c2 <- xslice (s2 + 2) e2 k ;; c1 <- xslice (s1 + 2) e1 k ;;
      xslice_set s1 (e1 - 2) k a2 ;;; xslice_set s2 (e2 - 2) k a1 ;;;
      xslice_set (s1 + 1) (e1 - 1) k b2 ;;; xslice_set (s2 + 1) (e2 - 1) k b1 ;;;
      xslice_set (s1 + 2) e1 k c2 ;;; xslice_set (s2 + 2) e2 k c1
  | XR =>
      a2 <- xslice s2 (e2 - 2) k ;; b2 <- xslice (s2 + 1) (e2 - 1) k ;; c2 <- xslice (s2 + 2) e2 k ;;
      xslice_set s1 (e1 - 2) k a2 ;;; xslice_set (s1 + 1) (e1 - 1) k b2 ;;; xslice_set (s1 + 2) e1 k c2
  | XL =>
      a1 <- xslice s1 (e1 - 2) k ;; b1 <- xslice (s1 + 1) (e1 - 1) k ;; c1 <- xslice (s1 + 2) e1 k ;;
      xslice_set s2 (e2 - 2) k a1 ;;; xslice_set (s2 + 1) (e2 - 1) k b1 ;;; xslice_set (s2 + 2) e2 k c1
  end.
Definition circhswap8 (t : htrans) (s1 e1 s2 e2 k : Z) : M unit :=
  match t with
  | XF => a2 <- xslice s2 e2 k ;; a1 <- xslice s1 e1 k ;; xslice_set s1 e1 k a2 ;;; xslice_set s2 e2 k a1
  | XR => a2 <- xslice s2 e2 k ;; xslice_set s1 e1 k a2
  | XL => a1 <- xslice s1 e1 k ;; xslice_set s2 e2 k a1
  end.
(** BITMAPlib.py:2789-2853 *)
Definition horitransformincircregion (x y r : Z) (t : htrans) : M (option unit) :=
  func8and24bitonlyandentirecircleinboundary x y r (
    bits <- geti bmpcolorbits ;;
    pts <- lift (itercirclepartvertlineedge r) ;;
    forM pts (fun v =>
      let (x1, x2) := mirror x (fst v) in
      let (y1, y2) := mirror y (snd v) in
      k <- rd xchrcnt ;;
      s1 <- rd (bmoffsethd x1 y2) ;;
      e1 <- rd (bmoffsethd x1 y1) ;;
      s2 <- rd (bmoffsethd x2 y2) ;;
      e2 <- rd (bmoffsethd x2 y1) ;;
      if bits =? 8 then circhswap8 t s1 (e1 + k) s2 (e2 + k) k
      else circhswap24 t s1 (e1 + k) s2 (e2 + k) k)).
(** BITMAPlib.py:2770-2786, 2856-2871, 2874-2890 *)
Definition fliphoricircregion (x y r : Z) := horitransformincircregion x y r XF.
Definition mirrorleftincircregion (x y r : Z) := horitransformincircregion x y r XL.
Definition mirrorrightincircregion (x y r : Z) := horitransformincircregion x y r XR.
(** BITMAPlib.py:2997-3067 *)
Definition mirrortopleftincircregion (x y r : Z) : M unit :=
  mirrorleftincircregion x y r ;;; mirrortopincircregion x y r ;;; ret tt.
Definition mirrortoprightincircregion (x y r : Z) : M unit :=
  mirrorrightincircregion x y r ;;; mirrortopincircregion x y r ;;; ret tt.
Definition mirrorbottomleftincircregion (x y r : Z) : M unit :=
  mirrorleftincircregion x y r ;;; mirrorbottomincircregion x y r ;;; ret tt.
Definition mirrorbottomrightincircregion (x y r : Z) : M unit :=
  mirrorrightincircregion x y r ;;; mirrorbottomincircregion x y r ;;; ret tt.

(** BITMAPlib.py:2724-2767.  [b[4]] is None if the column is outside, which
    raises TypeError; the first branch reads a transposed copy. *)
Definition flipXYcircregion (x y r : Z) : M (option unit) :=
  entirecircleinboundary x y r (
    bits <- geti bmpcolorbits ;;
    pts <- lift (itercirclepartlineedge r) ;;
    if negb ((bits =? 24) || (bits =? 8)) then
      n <- flipXY ;;
      forM pts (fun v =>
        let (x3, x4) := mirror y (fst v) in
        let (y3, y4) := mirror x (snd v) in
        let (x1, x2) := mirror x (fst v) in
        let (y1, y2) := mirror y (snd v) in
        s <- lift (bmoffsethd x3 y3 n) ;; e <- lift (bmoffsethd x4 y3 n) ;;
        a <- rd (bmoffsethd x1 y1) ;; c <- rd (bmoffsethd x2 y1) ;;
        slice_set a c (py_slice n s e) ;;;
        s <- lift (bmoffsethd x3 y4 n) ;; e <- lift (bmoffsethd x4 y4 n) ;;
        a <- rd (bmoffsethd x1 y2) ;; c <- rd (bmoffsethd x2 y2) ;;
        slice_set a c (py_slice n s e))
    else
      buf <- foldM (fun acc v =>
          let (x1, x2) := mirror x (fst v) in
          let (y1, y2) := mirror y (snd v) in
          let (x3, x4) := mirror x (snd v) in
          let (y3, y4) := mirror y (fst v) in
          a <- vertBMPbitBLTget x3 y3 y4 ;;
          c <- vertBMPbitBLTget x4 y3 y4 ;;
          ret (acc ++ [(x1, y1, x2 + 1, y2, a, c)])) [] pts ;;
      forM buf (fun q =>
        let '(x1, y1, x2, y2, p, q) := q in
        s <- rd (bmoffsethd x1 y1) ;; e <- rd (bmoffsethd x2 y1) ;;
        match p with None => raise TypeError | Some p => slice_set s e p end ;;;
        s <- rd (bmoffsethd x1 y2) ;; e <- rd (bmoffsethd x2 y2) ;;
        match q with None => raise TypeError | Some q => slice_set s e q end)).

(** ** Copies *)

(** BITMAPlib.py:2575-2600: colour depth, radius, pairs of rows *)
Definition circbuf : Type := Z * Z * list (list Z * list Z).
Definition copycircregion2buf (x y r : Z) : M (option circbuf) :=
  entirecircleinboundary x y r (
    bits <- rd getclrbits ;;
    pts <- lift (itercirclepartlineedge r) ;;
    rows <- foldM (fun acc v =>
        let (x1, x2) := mirror x (fst v) in
        let (y1, y2) := mirror y (snd v) in
        s1 <- rd (bmoffsethd x1 y1) ;; e1 <- rd (bmoffsethd x2 y1) ;; a <- slice s1 e1 ;;
        s2 <- rd (bmoffsethd x1 y2) ;; e2 <- rd (bmoffsethd x2 y2) ;; b <- slice s2 e2 ;;
        ret (acc ++ [(a, b)])) [] pts ;;
    ret (bits, r, rows)).
(** one iteration of the loop in BITMAPlib.py:2630-2636; list indexing raises
    IndexError when the buffer has fewer entries (the index is never negative) *)
Definition pastecirc_row (x y : Z) (rows : list (list Z * list Z)) (i : Z) (v : Z * Z) : M unit :=
  let (x1, x2) := mirror x (fst v) in
  let (y1, y2) := mirror y (snd v) in
  match nth_error rows (Z.to_nat i) with
  | None => raise IndexError
  | Some (a, b) =>
      s <- rd (bmoffsethd x1 y1) ;; e <- rd (bmoffsethd x2 y1) ;; slice_set s e a ;;;
      s <- rd (bmoffsethd x1 y2) ;; e <- rd (bmoffsethd x2 y2) ;; slice_set s e b
  end.
(** BITMAPlib.py:2603-2640; raising a string is a TypeError *)
Definition pastecirularbuf (x y : Z) (buf : option circbuf) : M unit :=
  match buf with
  | None => print Minvalidbuf
  | Some (cbits, r, rows) =>
      w <- rd getmaxx ;;
      h <- rd getmaxy ;;
      if entirecircleisinboundary x y (-1) w (-1) h r then
        bits <- rd getclrbits ;;
        if bits =? cbits then
          pts <- lift (itercirclepartlineedge r) ;;
          foldM (fun i v => pastecirc_row x y rows i v ;;; ret (i + 1)) 0 pts ;;; ret tt
        else raise TypeError
      else print Mregionoutofbounds
  end.
(** BITMAPlib.py:2643-2667 *)
Definition copycircregion (x y r nx ny : Z) : M unit :=
  buf <- copycircregion2buf x y r ;; pastecirularbuf nx ny buf.

(** ** Lines and outlines *)

(** BITMAPlib.py:7857-7910 *)
Definition erasealternatehorizontallinesincircregion (x y r n k bytepat : Z) : M (option unit) :=
  entirecircleinboundary x y r (
    let bytepat := Z.land bytepat 255 in
    pts <- lift (itercirclepartlineedge r) ;;
    forM pts (fun v =>
      let (x1, x2) := mirror x (fst v) in
      let (y1, y2) := mirror y (snd v) in
      s1 <- rd (bmoffsethd x1 y1) ;;
      e1 <- rd (bmoffsethd x2 y1) ;;
      s2 <- rd (bmoffsethd x1 y2) ;;
      e2 <- rd (bmoffsethd x2 y2) ;;
      if n =? 0 then raise ZeroDivisionError
      else
        (if y1 mod n =? k then a <- lift (py_array (repz bytepat (e1 - s1))) ;; slice_set s1 e1 a else ret tt) ;;;
        (if y2 mod n =? k then a <- lift (py_array (repz bytepat (e2 - s2))) ;; slice_set s2 e2 a else ret tt))).
(** BITMAPlib.py:7913-7930 *)
Definition eraseeverynthhorizontallineinccircregion (x y r n : Z) :=
  erasealternatehorizontallinesincircregion x y r n 0 0.

(** bmp[s: e] = array('B', xorvect(bmp[s: e], bmp[s + d: e + d])) *)
Definition xorslice (d s e : Z) : M unit :=
  u <- slice s e ;; v <- slice (s + d) (e + d) ;;
  a <- lift (py_array (xorvect u v)) ;; slice_set s e a.
(** BITMAPlib.py:3142-3221 *)
Definition outlinecircregion (x y r : Z) : M unit :=
  bits <- geti bmpcolorbits ;;
  xmax <- rd getmaxx ;;
  ymax <- rd getmaxy ;;
  pts <- lift (itercirclepartlineedge r) ;;
  let d := if bits =? 24 then 3 else 1 in
  if entirecircleisinboundary x y (-1) xmax (-1) ymax r then
    forM pts (fun v =>
      let (x1, x2) := mirror x (fst v) in
      let (y1, y2) := mirror y (snd v) in
      s1 <- rd (bmoffsethd x1 y1) ;;
      e1 <- rd (bmoffsethd x2 y1) ;;
      s2 <- rd (bmoffsethd x1 y2) ;;
      e2 <- rd (bmoffsethd x2 y2) ;;
      xorslice d s1 e1 ;;;
      if negb (y1 =? y2) then xorslice d s2 e2 else ret tt)
  else
    forM pts (fun v =>
      let (x1, x2) := mirror x (fst v) in
      let (y1, y2) := mirror y (snd v) in
      let x1 := setmin x1 0 in
      let x2 := setmax x2 (xmax - 1) in
      (if isinrange y2 ymax (-1) then
         s2 <- rd (bmoffsethd x1 y2) ;; e2 <- rd (bmoffsethd x2 y2) ;; xorslice d s2 e2
       else ret tt) ;;;
      (if isinrange y1 ymax (-1) && negb (y2 =? y1) then
         s1 <- rd (bmoffsethd x1 y1) ;; e1 <- rd (bmoffsethd x2 y1) ;; xorslice d s1 e1
       else ret tt)).

(** BITMAPlib.py:12411-12437 *)
Definition magnifyNtimescircregion (x y r n : Z) : M (option unit) :=
  func24bitonlyandentirecircleinboundary x y r (
    b <- resizeNtimesbigger n ;;
    pts <- lift (itercirclepartlineedge r) ;;
    forM pts (fun v =>
      let (x1, x2) := mirror x (fst v) in
      let (y1, y2) := mirror y (snd v) in
      let (x3, x4) := mirror (x * n) (fst v) in
      let (y3, y4) := mirror (y * n) (snd v) in
      s3 <- lift (bmoffsethd x3 y3 b) ;; e3 <- lift (bmoffsethd x4 y3 b) ;;
      s4 <- lift (bmoffsethd x3 y4 b) ;; e4 <- lift (bmoffsethd x4 y4 b) ;;
      s1 <- rd (bmoffsethd x1 y1) ;; e1 <- rd (bmoffsethd x2 y1) ;;
      slice_set s1 e1 (py_slice b s3 e3) ;;;
      s2 <- rd (bmoffsethd x1 y2) ;; e2 <- rd (bmoffsethd x2 y2) ;;
      slice_set s2 e2 (py_slice b s4 e4))).
