(** Model of the 24-bit filters of colors.py and of the functions of
    BITMAPlib.py that apply them to rectangles.  Paths are relative to
    /repo/pythonbmp.  The float arithmetic of the filters is not modelled: where
    a byte is replaced by a rounded product the model takes an arbitrary function
    on integers instead. *)
From Coq Require Import ZArith List Bool.
From Verif Require Import PyBase Bmp Buffers Region.
Import ListNotations.
Open Scope Z_scope.
Open Scope py_scope.

(** colors.py:775-801, 804-826.  [fr], [fg], [fb] stand for
    round(v * rgbfactors[0..2]) (mathlib.py:254-272).  The right-hand sides are
    built before the first store. *)
Definition colorfiltertoBGRbuf (fr fg fb : Z -> Z) (buf : list Z) : res (list Z) :=
  let m := zlen buf - 1 in
  let! vb := py_array (map fb (py_xslice buf 0 (m - 2) 3)) in
  let! vg := py_array (map fg (py_xslice buf 1 (m - 1) 3)) in
  let! vr := py_array (map fr (py_xslice buf 2 m 3)) in
  let! buf := py_xslice_set buf 0 (m - 2) 3 vb in
  let! buf := py_xslice_set buf 1 (m - 1) 3 vg in
  py_xslice_set buf 2 m 3 vr.

(** max of the three bytes from i on, colors.py:847 and 994; max of an empty
    slice raises ValueError *)
Definition maxbyte (buf : list Z) (i : Z) : res Z :=
  match py_slice buf i (i + 3) with
  | [] => Err ValueError
  | a :: t => Ok (fold_left Z.max t a)
  end.

(** for i in range(0, len(buf), 3): the loops of colors.py:846-856, 993-1008 *)
Definition everypixel (f : Z -> list Z -> res (list Z)) (buf : list Z) : res (list Z) :=
  fold_left (fun r i => let! buf := r in f i buf) (range_step 0 (zlen buf) 3) (Ok buf).

(** colors.py:829-856, 859-877.  [g lum v] stands for
    int(v * (int(((lum / 255) ** gamma) * 255) / lum)). *)
Definition gammaBGRbuf (g : Z -> Z -> Z) (buf : list Z) : res (list Z) :=
  everypixel (fun i buf =>
    let! lum := maxbyte buf i in
    let lum := if lum =? 0 then 1 else lum in
    let! a := py_get buf i in
    let! buf := py_set buf i (Z.land (g lum a) 255) in
    let! a := py_get buf (i + 1) in
    let! buf := py_set buf (i + 1) (Z.land (g lum a) 255) in
    let! a := py_get buf (i + 2) in
    py_set buf (i + 2) (Z.land (g lum a) 255)) buf.

(** colors.py:948-969; [g] stands for round(v * (1 + percentadj / 100)) *)
Definition applybrightnessadjtoBGRbuf (g : Z -> Z) (buf : list Z) : res (list Z) :=
  py_array (map (fun v => setminmax (g v) 0 255) buf).

(** colors.py:972-1009; [g a lum v] stands for int((a / lum) * v).  The limits
    are swapped once, whatever iteration does it.  f is 1 exactly if neither
    condition applies: a / lum differs from 1 as a <> lum. *)
Definition applythresholdadjtoBGRbuf (g : Z -> Z -> Z -> Z) (l0 l1 : Z) (buf : list Z) : res (list Z) :=
  let lummin := Z.land l0 255 in
  let lummax := Z.land l1 255 in
  let (lummin, lummax) := swapif lummin lummax (lummin >? lummax) in
  everypixel (fun i buf =>
    let! lum := maxbyte buf i in
    let f := if lum >? 0 then
               if lum >? lummax then Some lummax
               else if lum <? lummin then Some lummin else None
             else None in
    match f with
    | None => Ok buf
    | Some t =>
        let! a := py_get buf i in
        let! buf := py_set buf i (g t lum a) in
        let! a := py_get buf (i + 1) in
        let! buf := py_set buf (i + 1) (g t lum a) in
        let! a := py_get buf (i + 2) in
        py_set buf (i + 2) (g t lum a)
    end) buf.

(** ** Rectangles *)

(** BITMAPlib.py:12241-12269, 12272-12302, 12305-12335: the three functions
    differ only in whether [func] changes the row or returns a new one *)
Definition use24bitfn2reg (func : list Z -> res (list Z)) (x1 y1 x2 y2 : Z) : M (option unit) :=
  func24bitonlyandentirerectinboundary x1 y1 x2 y2 (
    let '(x1, y1, x2, y2) := sortrecpoints x1 y1 x2 y2 in
    offset <- rd (o24bmof x1 y2) ;;
    r <- rd xchrcnt ;;
    itercopyrect own x1 y1 x2 y2 offset (fun offset buf =>
      a <- lift (func buf) ;;
      BMPbitBLTput offset a ;;; ret (offset + r)) ;;; ret tt).

(** BITMAPlib.py:8803-8823 *)
Definition monofilterto24bitregion := use24bitfn2reg monochromefiltertoBGRbuf.
(** BITMAPlib.py:8826-8840 *)
Definition monofilterto24bitimage : M (option unit) := wholeimage monofilterto24bitregion.
(** BITMAPlib.py:8901-8932, 8935-8957 *)
Definition colorfilterto24bitregion (fr fg fb : Z -> Z) := use24bitfn2reg (colorfiltertoBGRbuf fr fg fb).
Definition colorfilterto24bitimage (fr fg fb : Z -> Z) : M (option unit) :=
  wholeimage (colorfilterto24bitregion fr fg fb).
(** BITMAPlib.py:8960-8982, 9032-9050 *)
Definition brightnesseadjto24bitregion (g : Z -> Z) := use24bitfn2reg (applybrightnessadjtoBGRbuf g).
Definition brightnesseadjto24bitimage (g : Z -> Z) : M (option unit) :=
  wholeimage (brightnesseadjto24bitregion g).
(** BITMAPlib.py:8985-9007, 9053-9070 *)
Definition thresholdadjto24bitregion (g : Z -> Z -> Z -> Z) (l0 l1 : Z) :=
  use24bitfn2reg (applythresholdadjtoBGRbuf g l0 l1).
Definition thresholdadjto24bitimage (g : Z -> Z -> Z -> Z) (l0 l1 : Z) : M (option unit) :=
  wholeimage (thresholdadjto24bitregion g l0 l1).
(** BITMAPlib.py:12546-12566, 12569-12583 *)
Definition gammaadjto24bitregion (g : Z -> Z -> Z) := use24bitfn2reg (gammaBGRbuf g).
Definition gammaadjto24bitimage (g : Z -> Z -> Z) : M (option unit) :=
  wholeimage (gammaadjto24bitregion g).

(** BITMAPlib.py:12338-12370.  [g i] stands for the brightness function with
    lum = lumrange[1] + i * dlum; computing dlum raises for a single row. *)
Definition verticalbrightnessgradto24bitregion (g : Z -> Z -> Z) (x1 y1 x2 y2 : Z) : M (option unit) :=
  func24bitonlyandentirerectinboundary x1 y1 x2 y2 (
    let '(x1, y1, x2, y2) := sortrecpoints x1 y1 x2 y2 in
    offset <- rd (o24bmof x1 y2) ;;
    r <- rd xchrcnt ;;
    (if y2 - y1 =? 0 then raise ZeroDivisionError else ret tt) ;;;
    itercopyrect own x1 y1 x2 y2 (offset, 0) (fun p buf =>
      let '(offset, i) := p in
      a <- lift (applybrightnessadjtoBGRbuf (g i) buf) ;;
      BMPbitBLTput offset a ;;; ret (offset + r, i + 1)) ;;; ret tt).

(** BITMAPlib.py:12373-12408.  [g i] stands for the brightness function with
    lum = lumrange[0] + i * dl. *)
Definition horizontalbrightnessgradto24bitregion (g : Z -> Z -> Z) (x1 y1 x2 y2 : Z) : M (option unit) :=
  func24bitonlyandentirerectinboundary x1 y1 x2 y2 (
    r <- rd xchrcnt ;;
    let '(x1, y1, x2, y2) := sortrecpoints x1 y1 x2 y2 in
    (if x2 - x1 =? 0 then raise ZeroDivisionError else ret tt) ;;;
    forM (range x1 (x2 + 1)) (fun x =>
      let f := applybrightnessadjtoBGRbuf (g (x - x1)) in
      s <- rd (bmoffsethd x y2) ;;
      e <- rd (bmoffsethd x y1) ;;
      vb <- xslice s (e - 2) r ;; vb <- lift (f vb) ;;
      vg <- xslice (s + 1) (e - 1) r ;; vg <- lift (f vg) ;;
      vr <- xslice (s + 2) e r ;; vr <- lift (f vr) ;;
      xslice_set s (e - 2) r vb ;;; xslice_set (s + 1) (e - 1) r vg ;;; xslice_set (s + 2) e r vr)).

(** ** Outlines *)

(** mathlib.py:1249-1261 *)
Fixpoint xorvect (u v : list Z) : list Z :=
  match u, v with
  | i :: u, j :: v => Z.lxor i j :: xorvect u v
  | _, _ => []
  end.

(** BITMAPlib.py:12586-12602 with func = xorvect, 12605-12622.  [None] is the
    empty list oldbuf starts with; an array is never equal to a list, so the test
    oldbuf != [] fails in the first iteration only.  The loop runs at least once
    (both corners are inside). *)
Definition outlineregion (x1 y1 x2 y2 : Z) : M (option unit) :=
  entirerectinboundary x1 y1 x2 y2 (
    offset <- rd (bmoffset x1 y2) ;;
    r <- rd xchrcnt ;;
    p <- itercopyrect own x1 y1 x2 y2 (offset, None) (fun p buf =>
        let '(offset, oldbuf) := p in
        match oldbuf with
        | None => ret (offset, Some buf)
        | Some old =>
            a <- lift (py_array (xorvect buf old)) ;;
            BMPbitBLTput offset a ;;; ret (offset + r, Some buf)
        end) ;;
    let '(offset, oldbuf) := p in
    match oldbuf with
    | None => raise UnboundLocalError
    | Some buf => a <- lift (py_array (xorvect buf buf)) ;; BMPbitBLTput offset a
    end).
(** BITMAPlib.py:12625-12637 *)
Definition outline : M (option unit) := wholeimage outlineregion.
