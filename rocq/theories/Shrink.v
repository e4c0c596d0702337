(** Model of the reduction and pixelation of 24-bit bitmaps. *)
From Coq Require Import ZArith List Bool.
From Verif Require Import PyBase Bmp Buffers Region MathLib Geometry Draw Circle.
Import ListNotations.
Open Scope Z_scope.
Open Scope py_scope.

(** mathlib.py:1308-1319: functools.reduce without a start value *)
Definition addvectinlist (vlist : list (list Z)) : res (list Z) :=
  match vlist with
  | [] => Err TypeError
  | u :: t => Ok (fold_left addvect t u)
  end.

(** bufresize.py:243-263.  [rnd n s] stands for round(s * (1 / n ** 2)), see
    intscalarmulvect, mathlib.py:254-272 *)
Definition resizesmaller24bitbuf (rnd : Z -> Z -> Z) (buf : list (list Z)) : res (list Z) :=
  let n := zlen buf in
  if n =? 0 then Err ZeroDivisionError
  else
    let! s := addvectinlist buf in
    match altsplitbuf3way s with
    | [b; g; r] =>
        let! b := addvectinlist (altsplitbufnway b n) in
        let! g := addvectinlist (altsplitbufnway g n) in
        let! r := addvectinlist (altsplitbufnway r n) in
        makeBGRbuf (map (rnd n) b) (map (rnd n) g) (map (rnd n) r)
    | _ => Err ValueError
    end.

(** BITMAPlib.py:12465-12505.  The loop's variables are offset, bufl, i and y;
    [stop] is set by the break, after which nothing is done any more (the row
    the generator would produce next is not observable). *)
Definition resizeNtimessmaller (rnd : Z -> Z -> Z) (n : Z) : M (option (list Z)) :=
  func24bitonly (
    bits <- geti bmpcolorbits ;;
    m <- rd getmaxxy ;;
    let '(mx, my) := m in
    if n =? 0 then raise ZeroDivisionError
    else
      let nx := mx / n in
      let ny := my / n in
      nbmp <- lift (newBMP nx ny bits) ;;
      let mx := mx - 1 in
      let my := my - 1 in
      let ny := ny - 1 in
      building nbmp (fun bmp =>
        offset <- rd (o24bmof 0 ny) ;;
        r <- rd xchrcnt ;;
        itercopyrect (from bmp) 0 0 mx my (offset, [], 1, 0, false)
          (fun q buf =>
             let '(offset, bufl, i, y, stop) := q in
             if stop : bool then ret q
             else
               let j := i mod n in
               let bufl := bufl ++ [buf] in
               if j =? 0 then
                 nbuf <- lift (resizesmaller24bitbuf rnd bufl) ;;
                 BMPbitBLTput offset nbuf ;;;
                 let y := y + 1 in
                 if y >? ny then ret (offset + r, [], i, y, true)
                 else ret (offset + r, [], i + 1, y, false)
               else ret (offset, bufl, i + 1, y, false)) ;;;
        ret tt)).

(** BITMAPlib.py:12508-12522.  For another depth resizeNtimessmaller returns None
    and indexing None raises TypeError. *)
Definition pixelizenxn (rnd : Z -> Z -> Z) (n : Z) : M (list Z) :=
  m <- resizeNtimessmaller rnd n ;;
  match m with
  | None => raise TypeError
  | Some nb => on_src nb (resizeNtimesbigger n)
  end.

(** BITMAPlib.py:12440-12462 *)
Definition pixelizenxncircregion (rnd : Z -> Z -> Z) (x y r n : Z) : M (option unit) :=
  func24bitonlyandentirecircleinboundary x y r (
    b <- pixelizenxn rnd n ;;
    pts <- lift (itercirclepartlineedge r) ;;
    forM pts (fun v =>
      let (x1, x2) := mirror x (fst v) in
      let (y1, y2) := mirror y (snd v) in
      s3 <- lift (bmoffsethd x1 y1 b) ;; e3 <- lift (bmoffsethd x2 y1 b) ;;
      s4 <- lift (bmoffsethd x1 y2 b) ;; e4 <- lift (bmoffsethd x2 y2 b) ;;
      s1 <- rd (bmoffsethd x1 y1) ;; e1 <- rd (bmoffsethd x2 y1) ;;
      slice_set s1 e1 (py_slice b s3 e3) ;;;
      s2 <- rd (bmoffsethd x1 y2) ;; e2 <- rd (bmoffsethd x2 y2) ;;
      slice_set s2 e2 (py_slice b s4 e4))).
