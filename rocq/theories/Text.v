(** Model of text plotting: 8-pixel-wide patterns, strings, and text images
    saved to a file.  Paths are relative to /repo/pythonbmp.
    A string is the list of its code points; 10 is '\n' and 9 is '\t'.  A font is
    the list of the numbers in its array; its first item is the height. *)
From Coq Require Import ZArith List Bool String.
From Verif Require Import PyBase SpecText Bmp Buffers Region Geometry Draw Files.
Import ListNotations.
Open Scope Z_scope.
Open Scope py_scope.

(** fonts.py:1569-1582 *)
Definition getcharfont (charbuf : list Z) (character : Z) : res (list Z) :=
  let! l := py_get charbuf 0 in
  let start := character * l + 1 in
  mapR (fun i => py_get charbuf i) (range start (start + l)).

(** The colour argument is an int, or a list or tuple of ints: type [colour] of
    SpecText.v.  (Any other type draws nothing in the functions that look at the
    type; left out.) *)
(** The branches for an int and for a list share the rest of their text; the
    colour of a row is [color], or [color[colorind]] with an index that starts
    again when it reaches [len(color)]. *)
Definition rowcolor (color : colour) (colorind : Z) : res Z :=
  match color with One c => Ok c | Many l => py_get l colorind end.
Definition nextind (color : colour) (colorind : Z) : Z :=
  match color with
  | One _ => colorind
  | Many l => if colorind + 1 =? zlen l then 0 else colorind + 1
  end.

(** What is drawn for a bit that is set (4181-4184 and the same elsewhere) *)
Definition plotcell (fn : Z -> Z -> Z -> Z -> M unit) (scale inc x y color : Z) : M unit :=
  if (scale =? 1) || (inc <=? 0) then plotxybit x y color else fn x y inc color.

(** BITMAPlib.py:4177-4188: one row of a pattern, left to right; the loop ends
    when the mask has been shifted out, after 8 turns. *)
Definition plotrow (fn : Z -> Z -> Z -> Z -> M unit) (scale inc bits x y color : Z) : M unit :=
  whileM 8 (fun v => fst v >? 0)
    (fun v => (if Z.land (fst v) bits >? 0 then plotcell fn scale inc (snd v) y color else ret tt) ;;;
              ret (Z.shiftr (fst v) 1, snd v + scale))
    (128, x) ;;;
  ret tt.

(** BITMAPlib.py:4150-4208 *)
Definition plot8bitpatternwithfn (x y : Z) (bitpattern : list Z) (scale pixspace : Z) (color : colour)
    (fn : Z -> Z -> Z -> Z -> M unit) : M unit :=
  let inc := scale - 1 - pixspace in
  foldM (fun v bits =>
      cl <- lift (rowcolor color (snd v)) ;;
      plotrow fn scale inc bits x (fst v) cl ;;;
      ret (fst v + scale, nextind color (snd v)))
    (y, 0) bitpattern ;;;
  ret tt.

(** BITMAPlib.py:4211-4279 *)
Definition plotitalic8bitpatternwithfn (x y : Z) (bitpattern : list Z) (scale pixspace : Z) (color : colour)
    (fn : Z -> Z -> Z -> Z -> M unit) : M unit :=
  let inc := scale - 1 - pixspace in
  let i := Z.shiftr scale 1 in
  let h := zlen bitpattern in
  let x := if scale >? 1 then x + i * h else x + Z.shiftr h 1 in
  foldM (fun v bits =>
      let '(x, y, colorind) := v in
      cl <- lift (rowcolor color colorind) ;;
      plotrow fn scale inc bits x y cl ;;;
      let y := y + scale in
      let x := x - i in
      let x := if (y mod 2 =? 0) && (scale =? 1) then x - 1 else x in
      ret (x, y, nextind color colorind))
    (x, y, 0) bitpattern ;;;
  ret tt.

(** BITMAPlib.py:4699-4764; the index runs from the last row to the first *)
Definition plot8bitpatternupsidedownwithfn (x y : Z) (bitpattern : list Z) (scale pixspace : Z) (color : colour)
    (fn : Z -> Z -> Z -> Z -> M unit) : M unit :=
  let inc := scale - 1 - pixspace in
  foldM (fun v bits =>
      cl <- lift (rowcolor color (snd v)) ;;
      plotrow fn scale inc bits x (fst v) cl ;;;
      ret (fst v + scale, nextind color (snd v)))
    (y, 0) (rev bitpattern) ;;;
  ret tt.

(** BITMAPlib.py:4282-4352; the index runs from the last row to the first *)
Definition plotitalic8bitpatternupsidedownwithfn (x y : Z) (bitpattern : list Z) (scale pixspace : Z)
    (color : colour) (fn : Z -> Z -> Z -> Z -> M unit) : M unit :=
  let inc := scale - 1 - pixspace in
  let j := Z.shiftr scale 1 in
  foldM (fun v bits =>
      let '(x, y, colorind) := v in
      cl <- lift (rowcolor color colorind) ;;
      plotrow fn scale inc bits x y cl ;;;
      let y := y + scale in
      let x := x - j in
      let x := if (y mod 2 =? 0) && (scale =? 1) then x - 1 else x in
      ret (x, y, nextind color colorind))
    (x, y, 0) (rev bitpattern) ;;;
  ret tt.

(** BITMAPlib.py:4035-4073; only int colours are handled *)
Definition plotrotated8bitpatternwithfn (x y : Z) (bitpattern : list Z) (scale pixspace color : Z)
    (fn : Z -> Z -> Z -> Z -> M unit) : M unit :=
  let inc := scale - 1 - pixspace in
  foldM (fun y bits =>
      plotrow fn scale inc (rotatebits bits) x y color ;;; ret (y + scale))
    y bitpattern ;;;
  ret tt.

(** BITMAPlib.py:4076-4147 *)
Definition plotrotateditalic8bitpatternwithfn (x y : Z) (bitpattern : list Z) (scale pixspace : Z)
    (color : colour) (fn : Z -> Z -> Z -> Z -> M unit) : M unit :=
  let inc := scale - 1 - pixspace in
  let i := Z.shiftr scale 1 in
  let h := zlen bitpattern in
  let x := if scale >? 1 then x + i * h else x + Z.shiftr h 1 in
  foldM (fun v bits =>
      let '(x, y, colorind) := v in
      let bits := rotatebits bits in
      cl <- lift (rowcolor color colorind) ;;
      plotrow fn scale inc bits x y cl ;;;
      let y := y + scale in
      let x := x - i in
      let x := if (y mod 2 =? 0) && (scale =? 1) then x - 1 else x in
      ret (x, y, nextind color colorind))
    (x, y, 0) bitpattern ;;;
  ret tt.

(** BITMAPlib.py:4851-4864, 4869-4884: one row of a pattern, plotted upwards.
    With a list of colours [colorind] is advanced for every bit. *)
Definition plotcolumn (fn : Z -> Z -> Z -> Z -> M unit) (scale inc bits x y color : Z) : M unit :=
  whileM 8 (fun v => fst v >? 0)
    (fun v => (if Z.land (fst v) bits >? 0 then plotcell fn scale inc x (snd v) color else ret tt) ;;;
              ret (Z.shiftr (fst v) 1, snd v - scale))
    (128, y) ;;;
  ret tt.
Definition nextind8 (color : colour) (colorind : Z) : Z :=
  Nat.iter 8 (nextind color) colorind.

(** BITMAPlib.py:4825-4884.  The colour index is advanced inside the loop over
    the bits (4880-4882) and read before it (4871), so it moves 8 steps a row. *)
Definition plot8bitpatternsidewaywithfn (x y : Z) (bitpattern : list Z) (scale pixspace : Z) (color : colour)
    (fn : Z -> Z -> Z -> Z -> M unit) : M unit :=
  let inc := scale - 1 - pixspace in
  foldM (fun v bits =>
      cl <- lift (rowcolor color (snd v)) ;;
      plotcolumn fn scale inc bits (fst v) y cl ;;;
      ret (fst v + scale, nextind8 color (snd v)))
    (x, 0) bitpattern ;;;
  ret tt.

(** BITMAPlib.py:4887-4951 *)
Definition plotitalic8bitpatternsidewaywithfn (x y : Z) (bitpattern : list Z) (scale pixspace : Z)
    (color : colour) (fn : Z -> Z -> Z -> Z -> M unit) : M unit :=
  let inc := scale - 1 - pixspace in
  let i := Z.shiftr scale 1 in
  foldM (fun v bits =>
      let '(x, y, colorind) := v in
      cl <- lift (rowcolor color colorind) ;;
      plotcolumn fn scale inc bits x y cl ;;;
      let x := x + scale in
      let y := y + i in
      let y := if (x mod 2 =? 0) && (scale =? 1) then y - 1 else y in
      ret (x, y, nextind color colorind))
    (x, y, 0) bitpattern ;;;
  ret tt.

(** BITMAPlib.py:4380-4382 and the same lambda elsewhere *)
Definition plotsquare (x y inc color : Z) : M unit :=
  filledrect x y (x + inc) (y + inc) color ;;; ret tt.
(** BITMAPlib.py:4416-4436 *)
Definition plotcircinsqr (x y d color : Z) : M unit :=
  let d := Z.shiftr d 1 in filledcircle (x + d) (y + d) d color.

(** BITMAPlib.py:4355-4413, 4551-4608, 4639-4667, 4767-4795, 4953-5010 *)
Definition plot8bitpattern x y p scale pixspace color :=
  plot8bitpatternwithfn x y p scale pixspace color plotsquare.
Definition plotitalic8bitpattern x y p scale pixspace color :=
  plotitalic8bitpatternwithfn x y p scale pixspace color plotsquare.
Definition plotreverseditalic8bitpattern x y p scale pixspace color :=
  plotrotateditalic8bitpatternwithfn x y p scale pixspace color plotsquare.
Definition plotupsidedownitalic8bitpattern x y p scale pixspace color :=
  plotitalic8bitpatternupsidedownwithfn x y p scale pixspace color plotsquare.
Definition plotrotated8bitpattern x y p scale pixspace color :=
  plotrotated8bitpatternwithfn x y p scale pixspace color plotsquare.
Definition plot8bitpatternupsidedown x y p scale pixspace color :=
  plot8bitpatternupsidedownwithfn x y p scale pixspace color plotsquare.
Definition plot8bitpatternsideway x y p scale pixspace color :=
  plot8bitpatternsidewaywithfn x y p scale pixspace color plotsquare.
Definition plotitalic8bitpatternsideway x y p scale pixspace color :=
  plotitalic8bitpatternsidewaywithfn x y p scale pixspace color plotsquare.
(** BITMAPlib.py:4439-4548, 4611-4636, 4670-4696, 4798-4822, 5013-5066 *)
Definition plot8bitpatternasdots x y p scale pixspace color :=
  plot8bitpatternwithfn x y p scale pixspace color plotcircinsqr.
Definition plotitalic8bitpatternasdots x y p scale pixspace color :=
  plotitalic8bitpatternwithfn x y p scale pixspace color plotcircinsqr.
Definition plotreverseditalic8bitpatternasdots x y p scale pixspace color :=
  plotrotateditalic8bitpatternwithfn x y p scale pixspace color plotcircinsqr.
Definition plotupsidedownitalic8bitpatternasdots x y p scale pixspace color :=
  plotitalic8bitpatternupsidedownwithfn x y p scale pixspace color plotcircinsqr.
Definition plotrotated8bitpatternasdots x y p scale pixspace color :=
  plotrotated8bitpatternwithfn x y p scale pixspace color plotcircinsqr.
Definition plot8bitpatternupsidedownasdots x y p scale pixspace color :=
  plot8bitpatternupsidedownwithfn x y p scale pixspace color plotcircinsqr.
Definition plot8bitpatternsidewaywithdots x y p scale pixspace color :=
  plot8bitpatternsidewaywithfn x y p scale pixspace color plotcircinsqr.
Definition plotitalic8bitpatternsidewayasdots x y p scale pixspace color :=
  plotitalic8bitpatternsidewaywithfn x y p scale pixspace color plotcircinsqr.

(** chartools.py:17-45 *)
Definition enumletters (st : list Z) : list Z := st.
Definition enumreverseletters (st : list Z) : list Z := rev st.

(** The type of the functions that draw one character *)
Definition renderer := Z -> Z -> list Z -> Z -> Z -> colour -> M unit.
(** plotrotated8bitpattern takes an int; a list of colours is passed on to
    plotxybit or filledrect, which cannot use it.  Simplified: the TypeError is
    raised even when no pixel inside the image is set. *)
Definition intcolour (f : Z -> Z -> list Z -> Z -> Z -> Z -> M unit) : renderer :=
  fun x y p scale pixspace color =>
    match color with One c => f x y p scale pixspace c | Many _ => raise TypeError end.

(** BITMAPlib.py:5112-5122: the loop over the characters *)
Definition plotchars (ox x y : Z) (chars : list Z) (xstep ystep scale pixspace : Z) (color : colour)
    (fontbuf : list Z) (render : renderer) : M unit :=
  foldM (fun v c =>
      if c =? 10 then ret (ox, snd v + ystep)
      else if c =? 9 then ret (fst v + Z.shiftl xstep 2, snd v)
      else
        p <- lift (getcharfont fontbuf c) ;;
        render (fst v) (snd v) p scale pixspace color ;;;
        ret (fst v + xstep, snd v))
    (x, y) chars ;;;
  ret tt.
(** BITMAPlib.py:5069-5122 *)
Definition plotstringfunc (x y : Z) (str2plot : list Z) (scale pixspace spacebetweenchar : Z) (color : colour)
    (fontbuf : list Z) (orderfunc : list Z -> list Z) (render : renderer) : M unit :=
  let spacebetweenchar := if spacebetweenchar =? 0 then 1 else spacebetweenchar in
  let xstep := Z.shiftl scale 3 + spacebetweenchar in
  h <- lift (py_get fontbuf 0) ;;
  let ystep := h * scale + spacebetweenchar in
  plotchars x x y (orderfunc str2plot) xstep ystep scale pixspace color fontbuf render.

(** BITMAPlib.py:6257-6301 *)
Definition plotstringsidewayfn (x y : Z) (str2plot : list Z) (scale pixspace spacebetweenchar : Z)
    (color : colour) (fontbuf : list Z) (render : renderer) : M unit :=
  let spacebetweenchar := if spacebetweenchar =? 0 then 1 else spacebetweenchar in
  let oy := y in
  let xstep := Z.shiftl scale 3 + spacebetweenchar in
  h <- lift (py_get fontbuf 0) ;;
  let ystep := h * scale + spacebetweenchar in
  foldM (fun v c =>
      if c =? 10 then ret (fst v + ystep, oy)
      else if c =? 9 then ret (fst v, snd v - Z.shiftl xstep 2)
      else
        p <- lift (getcharfont fontbuf c) ;;
        render (fst v) (snd v) p scale pixspace color ;;;
        ret (fst v, snd v - xstep))
    (x, y) (enumletters str2plot) ;;;
  ret tt.

(** BITMAPlib.py:6481-6491: the loop over the characters *)
Definition plotcharsvertical (oy x y : Z) (chars : list Z) (xstep ystep scale pixspace : Z) (color : colour)
    (fontbuf : list Z) (render : renderer) : M unit :=
  foldM (fun v c =>
      if c =? 10 then ret (fst v + xstep, oy)
      else if c =? 9 then ret (fst v, snd v + Z.shiftl ystep 2)
      else
        p <- lift (getcharfont fontbuf c) ;;
        render (fst v) (snd v) p scale pixspace color ;;;
        ret (fst v, snd v + ystep))
    (x, y) chars ;;;
  ret tt.
(** BITMAPlib.py:6444-6491 *)
Definition plotstringverticalwithfn (x y : Z) (str2plot : list Z) (scale pixspace spacebetweenchar : Z)
    (color : colour) (fontbuf : list Z) (render : renderer) : M unit :=
  let spacebetweenchar := if spacebetweenchar =? 0 then 1 else spacebetweenchar in
  let xstep := Z.shiftl scale 3 + spacebetweenchar in
  h <- lift (py_get fontbuf 0) ;;
  let ystep := h * scale + spacebetweenchar in
  plotcharsvertical y x y (enumletters str2plot) xstep ystep scale pixspace color fontbuf render.

(** BITMAPlib.py:5283-5319, 5406-5439, 5652-5683, 5854-5887, 5890-5957,
    5960-5992, 6079-6254, 6304-6335, 6338-6441, 6494-6633 *)
Definition plotstring x y s scale pixspace sp color font :=
  plotstringfunc x y s scale pixspace sp color font enumletters plot8bitpattern.
Definition plotitalicstring x y s scale pixspace sp color font :=
  plotstringfunc x y s scale pixspace sp color font enumletters plotitalic8bitpattern.
Definition plotstringasdots x y s scale pixspace sp color font :=
  plotstringfunc x y s scale pixspace sp color font enumletters plot8bitpatternasdots.
Definition plotitalicstringasdots x y s scale pixspace sp color font :=
  plotstringfunc x y s scale pixspace sp color font enumletters plotitalic8bitpatternasdots.
Definition plotreverseditalicstringasdots x y s scale pixspace sp color font :=
  plotstringfunc x y s scale pixspace sp color font enumreverseletters plotreverseditalic8bitpatternasdots.
Definition plotreverseditalicstring x y s scale pixspace sp color font :=
  plotstringfunc x y s scale pixspace sp color font enumreverseletters plotreverseditalic8bitpattern.
Definition plotstringupsidedown x y s scale pixspace sp color font :=
  plotstringfunc x y s scale pixspace sp color font enumreverseletters plot8bitpatternupsidedown.
Definition plotupsidedownitalicstring x y s scale pixspace sp color font :=
  plotstringfunc x y s scale pixspace sp color font enumreverseletters plotupsidedownitalic8bitpattern.
Definition plotupsidedownitalicstringasdots x y s scale pixspace sp color font :=
  plotstringfunc x y s scale pixspace sp color font enumreverseletters plotupsidedownitalic8bitpatternasdots.
Definition plotstringupsidedownasdots x y s scale pixspace sp color font :=
  plotstringfunc x y s scale pixspace sp color font enumletters plot8bitpatternupsidedownasdots.
Definition plotreversestring x y s scale pixspace sp color font :=
  plotstringfunc x y s scale pixspace sp color font enumreverseletters (intcolour plotrotated8bitpattern).
Definition plotreversestringasdots x y s scale pixspace sp color font :=
  plotstringfunc x y s scale pixspace sp color font enumreverseletters (intcolour plotrotated8bitpatternasdots).
Definition plotstringsideway x y s scale pixspace sp color font :=
  plotstringsidewayfn x y s scale pixspace sp color font plot8bitpatternsideway.
Definition plotitalicstringsidewayasdots x y s scale pixspace sp color font :=
  plotstringsidewayfn x y s scale pixspace sp color font plotitalic8bitpatternsidewayasdots.
Definition plotitalicstringsideway x y s scale pixspace sp color font :=
  plotstringsidewayfn x y s scale pixspace sp color font plotitalic8bitpatternsideway.
Definition plotstringsidewayasdots x y s scale pixspace sp color font :=
  plotstringsidewayfn x y s scale pixspace sp color font plot8bitpatternsidewaywithdots.
Definition plotstringvertical x y s scale pixspace sp color font :=
  plotstringverticalwithfn x y s scale pixspace sp color font plot8bitpattern.
Definition plotstringverticalasdots x y s scale pixspace sp color font :=
  plotstringverticalwithfn x y s scale pixspace sp color font plot8bitpatternasdots.
Definition plotitalicstringverticalasdots x y s scale pixspace sp color font :=
  plotstringverticalwithfn x y s scale pixspace sp color font plotitalic8bitpatternasdots.
Definition plotitalicstringvertical x y s scale pixspace sp color font :=
  plotstringverticalwithfn x y s scale pixspace sp color font plotitalic8bitpattern.

(** textgraphics.py:17-30.  str.split('\n'); a text without '\n' gives one line
    in both branches.  [max(l, key=len)] is some longest line; only its length is
    used. *)
Fixpoint splitlines (text : list Z) : list (list Z) :=
  match text with
  | [] => [[]]
  | c :: t =>
      if c =? 10 then [] :: splitlines t
      else match splitlines t with
           | l :: r => (c :: l) :: r
           | [] => [[c]]
           end
  end.
Definition replacetabs (text : list Z) : list Z :=
  flat_map (fun c => if c =? 9 then [32; 32; 32; 32] else [c]) text.
Definition computetextrowandcolcnt (text : list Z) : Z * Z :=
  let l := splitlines (replacetabs text) in
  (fold_left (fun m s => Z.max m (zlen s)) l 0, zlen l).

(** BITMAPlib.py:5125-5199.  [italic] tells whether the name of the rendering
    function contains "italic" (5178); it follows from [render] in the code. *)
Definition plotstringfunc2file (file : string) (str2plot : list Z) (scale pixspace spacebetweenchar : Z)
    (color : colour) (fontbuf : list Z) (orderfunc : list Z -> list Z) (render : renderer) (italic : bool)
    (backgroundcolor bitdepth : Z) : F unit :=
  let spacebetweenchar := if spacebetweenchar =? 0 then 1 else spacebetweenchar in
  let x := scale in let y := scale in
  let xstep := Z.shiftl scale 3 + spacebetweenchar in
  h <~ flift (py_get fontbuf 0) ;;
  let ystep := h * scale + spacebetweenchar in
  let (row, col) := computetextrowandcolcnt str2plot in
  let pad := Z.shiftl scale 1 in
  let mx := row * xstep + pad in
  let my := col * ystep + pad in
  let mx := if italic then (if scale >? 1 then mx + h * Z.shiftr scale 1 else mx + Z.shiftr h 1) else mx in
  bmp <~ flift (newBMP mx my bitdepth) ;;
  r <~ callM bmp (
    (if backgroundcolor >? 0 then filledrect 0 0 (mx - 1) (my - 1) backgroundcolor ;;; ret tt else ret tt) ;;;
    plotchars x x y (orderfunc str2plot) xstep ystep scale pixspace color fontbuf render) ;;
  saveBMP file (Some (snd r)).

(** BITMAPlib.py:5202-5279 *)
Definition plotstringverticalwithfn2file (file : string) (str2plot : list Z)
    (scale pixspace spacebetweenchar : Z) (color : colour) (fontbuf : list Z)
    (orderfunc : list Z -> list Z) (render : renderer) (italic : bool) (backgroundcolor bitdepth : Z) : F unit :=
  let spacebetweenchar := if spacebetweenchar =? 0 then 1 else spacebetweenchar in
  h <~ flift (py_get fontbuf 0) ;;
  let xstep := Z.shiftl scale 3 + spacebetweenchar in
  let ystep := h * scale + spacebetweenchar in
  let x := scale in let y := scale in
  let (row, col) := computetextrowandcolcnt str2plot in
  let pad := Z.shiftl scale 1 in
  let mx := col * xstep + pad in
  let my := row * ystep + pad in
  let mx := if italic then (if scale >? 1 then mx + h * Z.shiftr scale 1 else mx + Z.shiftr h 1) else mx in
  bmp <~ flift (newBMP mx my bitdepth) ;;
  r <~ callM bmp (
    (if backgroundcolor >? 0 then filledrect 0 0 (mx - 1) (my - 1) backgroundcolor ;;; ret tt else ret tt) ;;;
    plotcharsvertical y x y (orderfunc str2plot) xstep ystep scale pixspace color fontbuf render) ;;
  saveBMP file (Some (snd r)).

(** BITMAPlib.py:5322-5403, 5442-5649, 5686-5851, 5995-6076 *)
Definition plotstring2file f s scale pixspace sp color font bg bits :=
  plotstringfunc2file f s scale pixspace sp color font enumletters plot8bitpattern false bg bits.
Definition plotverticalstring2file f s scale pixspace sp color font bg bits :=
  plotstringverticalwithfn2file f s scale pixspace sp color font enumletters plot8bitpattern false bg bits.
Definition plotitalicstring2file f s scale pixspace sp color font bg bits :=
  plotstringfunc2file f s scale pixspace sp color font enumletters plotitalic8bitpattern true bg bits.
Definition plotverticalitalicstring2file f s scale pixspace sp color font bg bits :=
  plotstringverticalwithfn2file f s scale pixspace sp color font enumletters plotitalic8bitpattern true bg bits.
Definition plotreverseditalicstring2file f s scale pixspace sp color font bg bits :=
  plotstringfunc2file f s scale pixspace sp color font enumreverseletters plotreverseditalic8bitpattern true bg bits.
Definition plotverticalstringasdots2file f s scale pixspace sp color font bg bits :=
  plotstringverticalwithfn2file f s scale pixspace sp color font enumletters plot8bitpatternasdots false bg bits.
Definition plotverticalitalicstringasdots2file f s scale pixspace sp color font bg bits :=
  plotstringverticalwithfn2file f s scale pixspace sp color font enumletters plotitalic8bitpatternasdots true bg bits.
Definition plotstringasdots2file f s scale pixspace sp color font bg bits :=
  plotstringfunc2file f s scale pixspace sp color font enumletters plot8bitpatternasdots false bg bits.
Definition plotitalicstringasdots2file f s scale pixspace sp color font bg bits :=
  plotstringfunc2file f s scale pixspace sp color font enumletters plotitalic8bitpatternasdots true bg bits.
Definition plotreversedstring2file f s scale pixspace sp color font bg bits :=
  plotstringfunc2file f s scale pixspace sp color font enumreverseletters (intcolour plotrotated8bitpattern) false bg bits.
Definition plotreversedstringasdots2file f s scale pixspace sp color font bg bits :=
  plotstringfunc2file f s scale pixspace sp color font enumreverseletters (intcolour plotrotated8bitpatternasdots)
    false bg bits.
Definition plotupsidedownstring2file f s scale pixspace sp color font bg bits :=
  plotstringfunc2file f s scale pixspace sp color font enumreverseletters plot8bitpatternupsidedown false bg bits.
Definition plotupsidedownstringasdots2file f s scale pixspace sp color font bg bits :=
  plotstringfunc2file f s scale pixspace sp color font enumreverseletters plot8bitpatternupsidedownasdots false bg bits.

(** textgraphics.py:53-77 *)
Definition plot8bitpatternastext (bitpattern : list Z) (onechar zerochar : list Z) : list Z :=
  flat_map (fun bits =>
      flat_map (fun mask => if Z.land mask bits >? 0 then onechar else zerochar)
        [128; 64; 32; 16; 8; 4; 2; 1] ++ [10])
    bitpattern.
