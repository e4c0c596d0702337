(** Model of whole-image and region operations of BITMAPlib.py.  Paths are
    relative to /repo/pythonbmp.  Progress output (the strings printed while an
    image is traversed) is left out; error messages are kept. *)
From Coq Require Import ZArith List Bool.
From Verif Require Import PyBase Bmp Buffers.
Import ListNotations.
Open Scope Z_scope.
Open Scope py_scope.

(** ** Two bitmaps *)

(** How a generator looks at its bitmap: the bitmap being modified, or another
    one that does not change meanwhile. *)
Definition view : Type := forall A, M A -> M A.
Definition own : view := fun A m => m.
Definition from (src : list Z) : view := fun A m => on_src src m.

(** Build another bitmap: [m] runs on the new array [nb] and is given the
    current bitmap, which it cannot change; its final array is returned. *)
Definition building (nb : list Z) (m : list Z -> M unit) : M (list Z) :=
  fun s => match m (mem s) (mkst nb (out s)) with
           | (Ok _, s') => (Ok (mem s'), mkst (mem s) (out s'))
           | (Err e, s') => (Err e, mkst (mem s) (out s'))
           end.

(** primitives2D.py:753-769 *)
Definition sortrecpoints (x1 y1 x2 y2 : Z) : Z * Z * Z * Z :=
  let (x1, x2) := swapif x1 x2 (x1 >? x2) in
  let (y1, y2) := swapif y1 y2 (y1 >? y2) in
  (x1, y1, x2, y2).

(** ** Iterators *)

(** BITMAPlib.py:2279-2305 as the loop [for buf in itercopyrect(...): body].
    A rejected call returns None, and iterating None raises TypeError.  The
    fuel lim - offset + 1 suffices whenever the row size is positive. *)
Definition itercopyrect {B} (v : view) (x1 y1 x2 y2 : Z) (b0 : B) (body : B -> list Z -> M B) : M B :=
  g <- v _ (entirerectinboundary x1 y1 x2 y2 (
         let '(x1, y1, x2, y2) := sortrecpoints x1 y1 x2 y2 in
         bufsize <- rd (adjustxbufsize x1 x2) ;;
         r <- rd xchrcnt ;;
         offset <- rd (bmoffset x1 y2) ;;
         l <- rd (bmoffset x2 y1) ;;
         ret (bufsize, r, offset, l + r))) ;;
  match g with
  | None => raise TypeError
  | Some (bufsize, r, offset, lim) =>
      p <- whileM (Z.to_nat (lim - offset + 1))
             (fun p => let '(_, offset) := p in offset + bufsize <=? lim)
             (fun p => let '(b, offset) := p in
                buf <- v _ (BMPbitBLTget offset bufsize) ;;
                b <- body b buf ;;
                ret (b, offset + r))
             (b0, offset) ;;
      ret (fst p)
  end.

(** BITMAPlib.py:8694-8721 as the loop over it *)
Definition itergetcolorfromrectregion {B} (v : view) (x1 y1 x2 y2 : Z) (b0 : B)
    (body : B -> Z * Z * Z -> M B) : M B :=
  g <- v _ (entirerectinboundary x1 y1 x2 y2 (ret tt)) ;;
  match g with
  | None => raise TypeError
  | Some _ =>
      let '(x1, y1, x2, y2) := sortrecpoints x1 y1 x2 y2 in
      foldM (fun b y => foldM (fun b x =>
          c <- v _ (rd (getxybit x y)) ;; body b (x, y, c)) b (range x1 (x2 + 1)))
        b0 (range y1 (y2 + 1))
  end.

(** The items a generator yields from one step of the while loop in
    BITMAPlib.py:7659-7688 and the new x. *)
Definition iic_step (b : list Z) (bits mx x y offset : Z) : res (list (Z * Z * Z) * Z) :=
  if bits =? 1 then
    let! c := py_get b offset in
    Ok (fold_left (fun p bit => let '(items, x) := p in
            (if x <? mx then items ++ [(x, y, Z.shiftr (Z.land c (Z.shiftl 1 bit)) bit)] else items, x + 1))
          [7; 6; 5; 4; 3; 2; 1; 0] ([], x))
  else if bits =? 4 then
    let! c := py_get b offset in
    Ok ((if x <? mx then [(x, y, c / 16)] else []) ++
        (if x + 1 <? mx then [(x + 1, y, c mod 16)] else []), x + 2)
  else if bits =? 8 then
    if x <? mx then let! c := py_get b offset in Ok ([(x, y, c)], x + 1) else Ok ([], x + 1)
  else if bits =? 24 then
    if x <? mx then
      let! r := py_get b (offset + 2) in let! g := py_get b (offset + 1) in
      let! bl := py_get b offset in
      Ok ([(x, y, Z.shiftl r 16 + Z.shiftl g 8 + bl)], x + 1)
    else Ok ([], x + 1)
  else Ok ([], x).

(** BITMAPlib.py:7659-7688, the while loop; one unit of fuel per byte is enough
    as the offset grows *)
Fixpoint iic_loop (fuel : nat) (b : list Z) (bits mx pb doff x y offset : Z) : res (list (Z * Z * Z)) :=
  if offset <? zlen b then
    match fuel with
    | O => Err Diverges
    | S fuel =>
        let! p := iic_step b bits mx x y offset in
        let '(items, x) := p in
        let '(x, y, offset) := if x >=? mx then (0, y - 1, offset + pb) else (x, y, offset) in
        let! rest := iic_loop fuel b bits mx pb doff x y (offset + doff) in
        Ok (items ++ rest)
    end
  else Ok [].

(** BITMAPlib.py:7626-7691: the list of ((x,y),c) items.  The generator works on
    a copy of the pixel bytes taken at the start, so the items do not depend on
    what the loop body does.  On malformed arrays an exception comes after the
    items already yielded; here it replaces them. *)
Definition iterimagecolor (l : list Z) : res (list (Z * Z * Z)) :=
  let! h := getmaxy l in
  let! b := getBMPimgbytes l in
  let! mx := getmaxx l in
  let! bits := py_get l bmpcolorbits in
  let! pb := pdbytes mx bits in
  iic_loop (length b) b bits mx pb (if bits =? 24 then 3 else 1) 0 (h - 1) 0.

(** ** Histogram *)

(** dictionary of counts in insertion order, BITMAPlib.py:1180-1184 *)
Fixpoint count_color (d : list (Z * Z)) (c : Z) : list (Z * Z) :=
  match d with
  | [] => [(c, 1)]
  | (k, n) :: t => if k =? c then (k, n + 1) :: t else (k, n) :: count_color t c
  end.
(** list comparison of the [count, colour] pairs *)
Definition pair_le (a b : Z * Z) : bool :=
  (fst a <? fst b) || ((fst a =? fst b) && (snd a <=? snd b)).
(** list.sort: the result does not depend on the algorithm since the order is
    total; insertion sort *)
Fixpoint insert_sorted (a : Z * Z) (l : list (Z * Z)) : list (Z * Z) :=
  match l with
  | [] => [a]
  | b :: t => if pair_le a b then a :: l else b :: insert_sorted a t
  end.
Definition sort_pairs (l : list (Z * Z)) : list (Z * Z) := fold_right insert_sorted [] l.
(** dicttools.py:17-33 *)
Definition dict2descorderlist (d : list (Z * Z)) : list (Z * Z) :=
  rev (sort_pairs (map (fun kv => (snd kv, fst kv)) d)).
(** BITMAPlib.py:1166-1185: list of (count, colour) *)
Definition colorhistogram (l : list Z) : res (list (Z * Z)) :=
  let! items := iterimagecolor l in
  Ok (dict2descorderlist (fold_left (fun d v => count_color d (snd v)) items [])).

(** ** Whole image *)

(** BITMAPlib.py:7781-7795 *)
Definition invertimagebits : M unit :=
  offset <- rd hdsz ;;
  maxoffset <- rd flsz ;;
  whileM (Z.to_nat (maxoffset - offset))
    (fun offset => offset <? maxoffset)
    (fun offset => b <- geti offset ;; seti offset (Z.lxor b 255) ;;; ret (offset + 1))
    offset ;;; ret tt.

(** BITMAPlib.py:7798-7838.  The fuel suffices whenever the row size is
    positive. *)
Definition erasealternatehorizontallines (n k bytepat : Z) : M unit :=
  bufsize <- rd xchrcnt ;;
  s1 <- rd hdsz ;;
  f <- rd flsz ;;
  let s2 := f - bufsize in
  let bytepat := Z.land bytepat 255 in
  blank <- lift (py_array (repz bytepat bufsize)) ;;
  whileM (Z.to_nat (s2 - s1))
    (fun p => let '(s2, _) := p in s2 >? s1)
    (fun p => let '(s2, i) := p in
       (if n =? 0 then raise ZeroDivisionError
        else if i mod n =? k then slice_set s2 (s2 + bufsize) blank else ret tt) ;;;
       ret (s2 - bufsize, i + 1))
    (s2, 1) ;;; ret tt.

(** BITMAPlib.py:7841-7854 *)
Definition eraseeverynthhorizontalline (n : Z) : M unit := erasealternatehorizontallines n 0 0.

(** BITMAPlib.py:7933-7982 *)
Definition erasealternatehorizontallinesinregion (x1 y1 x2 y2 n k bytepat : Z) : M (option unit) :=
  entirerectinboundary x1 y1 x2 y2 (
    let bytepat := Z.land bytepat 255 in
    let '(x1, y1, x2, y2) := sortrecpoints x1 y1 x2 y2 in
    bufsize <- rd (adjustxbufsize x1 x2) ;;
    r <- rd xchrcnt ;;
    s1 <- rd (bmoffsethd x1 y2) ;;
    s2 <- rd (bmoffsethd x1 y1) ;;
    blank <- lift (py_array (repz bytepat bufsize)) ;;
    whileM (Z.to_nat (s2 - s1))
      (fun p => let '(s2, _) := p in s2 >? s1)
      (fun p => let '(s2, i) := p in
         (if n =? 0 then raise ZeroDivisionError
          else if i mod n =? k then slice_set s2 (s2 + bufsize) blank else ret tt) ;;;
         ret (s2 - r, i + 1))
      (s2, 1) ;;; ret tt).

Inductive vtrans : Set := TF | TT | TB.

(** one step of the loops in BITMAPlib.py:8027-8050 and 8120-8147: the local
    functions _F, _T, _B *)
Definition vswap (t : vtrans) (s1 s2 bufsize : Z) : M unit :=
  match t with
  | TF => a <- slice s2 (s2 + bufsize) ;; b <- slice s1 (s1 + bufsize) ;;
          slice_set s1 (s1 + bufsize) a ;;; slice_set s2 (s2 + bufsize) b
  | TT => a <- slice s2 (s2 + bufsize) ;; slice_set s1 (s1 + bufsize) a
  | TB => a <- slice s1 (s1 + bufsize) ;; slice_set s2 (s2 + bufsize) a
  end.

(** BITMAPlib.py:8011-8050.  The fuel suffices whenever the row size is
    positive. *)
Definition verttrans (t : vtrans) : M unit :=
  bufsize <- rd xchrcnt ;;
  s1 <- rd hdsz ;;
  f <- rd flsz ;;
  let s2 := f - bufsize in
  whileM (Z.to_nat (s2 - s1))
    (fun p => let '(s1, s2) := p in s1 <? s2)
    (fun p => let '(s1, s2) := p in
       vswap t s1 s2 bufsize ;;; ret (s1 + bufsize, s2 - bufsize))
    (s1, s2) ;;; ret tt.

(** BITMAPlib.py:8053-8064, 8067-8078, 8081-8092 *)
Definition flipvertical : M unit := verttrans TF.
Definition mirrortop : M unit := verttrans TT.
Definition mirrorbottom : M unit := verttrans TB.

(** BITMAPlib.py:8095-8147 *)
Definition verttransregion (x1 y1 x2 y2 : Z) (t : vtrans) : M (option unit) :=
  entirerectinboundary x1 y1 x2 y2 (
    let '(x1, y1, x2, y2) := sortrecpoints x1 y1 x2 y2 in
    bufsize <- rd (adjustxbufsize x1 x2) ;;
    r <- rd xchrcnt ;;
    s1 <- rd (bmoffsethd x1 y2) ;;
    s2 <- rd (bmoffsethd x1 y1) ;;
    whileM (Z.to_nat (s2 - s1))
      (fun p => let '(s1, s2) := p in s1 <? s2)
      (fun p => let '(s1, s2) := p in
         vswap t s1 s2 bufsize ;;; ret (s1 + r, s2 - r))
      (s1, s2) ;;; ret tt).

(** BITMAPlib.py:8150-8167, 8170-8188, 8191-8210 *)
Definition flipverticalregion (x1 y1 x2 y2 : Z) := verttransregion x1 y1 x2 y2 TF.
Definition mirrorbottominregion (x1 y1 x2 y2 : Z) := verttransregion x1 y1 x2 y2 TB.
Definition mirrortopinregion (x1 y1 x2 y2 : Z) := verttransregion x1 y1 x2 y2 TT.

(** BITMAPlib.py:1929-1945 (with 1804-1835) *)
Definition swapcolors (x1 y1 x2 y2 : Z) : M unit :=
  c <- rd (getxybit x1 y1) ;;
  d <- rd (getxybit x2 y2) ;;
  plotxybit x1 y1 d ;;;
  plotxybit x2 y2 c.

(** BITMAPlib.py:8212-8242: the outer while runs over x1 = x1 .. m, where
    m = x1 + ((x2-x1) >> 1) was computed before, and x2 goes down with it; the
    inner while is the range y1 .. y2 *)
Definition fliphorzontalpixelbased (x1 y1 x2 y2 : Z) : M (option unit) :=
  entirerectinboundary x1 y1 x2 y2 (
    let m := x1 + Z.shiftr (x2 - x1) 1 in
    forM (range x1 (m + 1)) (fun x =>
      forM (range y1 (y2 + 1)) (fun y => swapcolors x y (x2 - (x - x1)) y))).
(** BITMAPlib.py:8245-8273 *)
Definition fliphverticalalpixelbased (x1 y1 x2 y2 : Z) : M (option unit) :=
  entirerectinboundary x1 y1 x2 y2 (
    let m := y1 + Z.shiftr (y2 - y1) 1 in
    forM (range y1 (m + 1)) (fun y =>
      forM (range x1 (x2 + 1)) (fun x => swapcolors x y x (y2 - (y - y1))))).

(** BITMAPlib.py:8276-8308; the fuel suffices as dx > 0 *)
Definition horizontalbulkswap (x1 y1 x2 y2 : Z) (swapfunc : Z -> Z -> Z -> Z -> Z -> M unit) : M (option unit) :=
  entirerectinboundary x1 y1 x2 y2 (
    bits <- geti bmpcolorbits ;;
    dx <- lift (if bits =? 24 then Ok 1 else if bits =? 8 then Ok 1
                else if bits =? 4 then Ok 2 else if bits =? 1 then Ok 8 else Err KeyError) ;;
    r <- rd xchrcnt ;;
    let (y1, y2) := swapif y1 y2 (y1 >? y2) in
    let (x1, x2) := swapif x1 x2 (x1 >? x2) in
    whileM (Z.to_nat (x2 - x1))
      (fun p => let '(x1, x2) := p in x1 <? x2)
      (fun p => let '(x1, x2) := p in
         a <- rd (bmoffsethd x1 y2) ;;
         b <- rd (bmoffsethd x1 y1) ;;
         c <- rd (bmoffsethd x2 y2) ;;
         d <- rd (bmoffsethd x2 y1) ;;
         swapfunc a (b + r) c (d + r) r ;;;
         ret (x1 + dx, x2 - dx))
      (x1, x2) ;;; ret tt).

(** the selection by depth in BITMAPlib.py:8345-8351 and the like *)
Definition bydepth {A} (f24 f8 f4 f1 : A) : M A :=
  bits <- geti bmpcolorbits ;;
  lift (if bits =? 24 then Ok f24 else if bits =? 8 then Ok f8
        else if bits =? 4 then Ok f4 else if bits =? 1 then Ok f1 else Err KeyError).

(** BITMAPlib.py:8311-8351 *)
Definition fliphorizontalregion (x1 y1 x2 y2 : Z) : M (option unit) :=
  f <- bydepth
    (fun s1 e1 s2 e2 r =>
       a2 <- xslice s2 (e2 - 2) r ;; a1 <- xslice s1 (e1 - 2) r ;;
       b2 <- xslice (s2 + 1) (e2 - 1) r ;; b1 <- xslice (s1 + 1) (e1 - 1) r ;;
       c2 <- xslice (s2 + 2) e2 r ;; c1 <- xslice (s1 + 2) e1 r ;;
       xslice_set s1 (e1 - 2) r a2 ;;; xslice_set s2 (e2 - 2) r a1 ;;;
       xslice_set (s1 + 1) (e1 - 1) r b2 ;;; xslice_set (s2 + 1) (e2 - 1) r b1 ;;;
       xslice_set (s1 + 2) e1 r c2 ;;; xslice_set (s2 + 2) e2 r c1)
    (fun s1 e1 s2 e2 r =>
       a2 <- xslice s2 e2 r ;; a1 <- xslice s1 e1 r ;;
       xslice_set s1 e1 r a2 ;;; xslice_set s2 e2 r a1)
    (fun s1 e1 s2 e2 r =>
       a2 <- xslice s2 e2 r ;; a2 <- lift (flipnibbleinbuf a2) ;;
       a1 <- xslice s1 e1 r ;; a1 <- lift (flipnibbleinbuf a1) ;;
       xslice_set s1 e1 r a2 ;;; xslice_set s2 e2 r a1)
    (fun s1 e1 s2 e2 r =>
       a2 <- xslice s2 e2 r ;; a2 <- lift (rotatebitsinbuf a2) ;;
       a1 <- xslice s1 e1 r ;; a1 <- lift (rotatebitsinbuf a1) ;;
       xslice_set s1 e1 r a2 ;;; xslice_set s2 e2 r a1) ;;
  horizontalbulkswap x1 y1 x2 y2 f.

(** BITMAPlib.py:8354-8391 *)
Definition mirrorleftinregion (x1 y1 x2 y2 : Z) : M (option unit) :=
  f <- bydepth
    (fun s1 e1 s2 e2 r =>
       a <- xslice s1 (e1 - 2) r ;; b <- xslice (s1 + 1) (e1 - 1) r ;; c <- xslice (s1 + 2) e1 r ;;
       xslice_set s2 (e2 - 2) r a ;;; xslice_set (s2 + 1) (e2 - 1) r b ;;; xslice_set (s2 + 2) e2 r c)
    (fun s1 e1 s2 e2 r => a <- xslice s1 e1 r ;; xslice_set s2 e2 r a)
    (fun s1 e1 s2 e2 r => a <- xslice s1 e1 r ;; a <- lift (flipnibbleinbuf a) ;; xslice_set s2 e2 r a)
    (fun s1 e1 s2 e2 r => a <- xslice s1 e1 r ;; a <- lift (rotatebitsinbuf a) ;; xslice_set s2 e2 r a) ;;
  horizontalbulkswap x1 y1 x2 y2 f.

(** BITMAPlib.py:8394-8431 *)
Definition mirrorrightinregion (x1 y1 x2 y2 : Z) : M (option unit) :=
  f <- bydepth
    (fun s1 e1 s2 e2 r =>
       a <- xslice s2 (e2 - 2) r ;; b <- xslice (s2 + 1) (e2 - 1) r ;; c <- xslice (s2 + 2) e2 r ;;
       xslice_set s1 (e1 - 2) r a ;;; xslice_set (s1 + 1) (e1 - 1) r b ;;; xslice_set (s1 + 2) e1 r c)
    (fun s1 e1 s2 e2 r => a <- xslice s2 e2 r ;; xslice_set s1 e1 r a)
    (fun s1 e1 s2 e2 r => a <- xslice s2 e2 r ;; a <- lift (flipnibbleinbuf a) ;; xslice_set s1 e1 r a)
    (fun s1 e1 s2 e2 r => a <- xslice s2 e2 r ;; a <- lift (rotatebitsinbuf a) ;; xslice_set s1 e1 r a) ;;
  horizontalbulkswap x1 y1 x2 y2 f.

(** the whole image as a region: getmaxx(bmp) - 1, getmaxy(bmp) - 1 *)
Definition wholeimage {A} (f : Z -> Z -> Z -> Z -> M A) : M A :=
  w <- rd getmaxx ;; h <- rd getmaxy ;; f 0 0 (w - 1) (h - 1).

(** BITMAPlib.py:8434-8448, 8451-8465, 8638-8652 *)
Definition mirrorleft : M (option unit) := wholeimage mirrorleftinregion.
Definition mirrorright : M (option unit) := wholeimage mirrorrightinregion.
Definition fliphorizontal : M (option unit) := wholeimage fliphorizontalregion.

(** BITMAPlib.py:8468-8489, 8492-8513, 8516-8537, 8540-8561 *)
Definition mirrortopleftinregion (x1 y1 x2 y2 : Z) : M unit :=
  mirrorleftinregion x1 y1 x2 y2 ;;; mirrortopinregion x1 y1 x2 y2 ;;; ret tt.
Definition mirrortoprightinregion (x1 y1 x2 y2 : Z) : M unit :=
  mirrorrightinregion x1 y1 x2 y2 ;;; mirrortopinregion x1 y1 x2 y2 ;;; ret tt.
Definition mirrorbottomleftinregion (x1 y1 x2 y2 : Z) : M unit :=
  mirrorleftinregion x1 y1 x2 y2 ;;; mirrorbottominregion x1 y1 x2 y2 ;;; ret tt.
Definition mirrorbottomrightinregion (x1 y1 x2 y2 : Z) : M unit :=
  mirrorrightinregion x1 y1 x2 y2 ;;; mirrorbottominregion x1 y1 x2 y2 ;;; ret tt.

(** BITMAPlib.py:8564-8579, 8582-8597, 8600-8616, 8619-8635 *)
Definition mirrortopleft : M unit :=
  w <- rd getmaxx ;; h <- rd getmaxy ;;
  mirrorleftinregion 0 0 (w - 1) ((h - 1) / 2) ;;; mirrortop.
Definition mirrortopright : M unit :=
  w <- rd getmaxx ;; h <- rd getmaxy ;;
  mirrorrightinregion 0 0 (w - 1) ((h - 1) / 2) ;;; mirrortop.
Definition mirrorbottomleft : M unit :=
  h <- rd getmaxy ;; w <- rd getmaxx ;;
  mirrorleftinregion 0 ((h - 1) / 2) (w - 1) (h - 1) ;;; mirrorbottom.
Definition mirrorbottomright : M unit :=
  h <- rd getmaxy ;; w <- rd getmaxx ;;
  mirrorrightinregion 0 ((h - 1) / 2) (w - 1) (h - 1) ;;; mirrorbottom.

(** ** New bitmaps from old ones *)

(** BITMAPlib.py:1555-1586 *)
Definition vertBMPbitBLTget (x y1 y2 : Z) : M (option (list Z)) :=
  bits <- geti bmpcolorbits ;;
  r <- rd xchrcnt ;;
  m <- rd getmaxxy ;;
  if isinrange x (fst m) (-1) then
    let (y1, y2) := swapif y1 y2 (y1 >? y2) in
    let y1 := setmin y1 0 in
    let y2 := setmax y2 (snd m - 1) in
    s <- rd (bmoffsethd x y2) ;;
    e <- rd (bmoffsethd x y1) ;;
    let e := e + r in
    if bits =? 24 then
      b <- xslice s (e - 2) r ;; g <- xslice (s + 1) (e - 1) r ;; rr <- xslice (s + 2) e r ;;
      buf <- lift (makeBGRbuf b g rr) ;; ret (Some buf)
    else buf <- xslice s e r ;; ret (Some buf)
  else print Mlineoutofbnd ;;; ret None.

(** BITMAPlib.py:8655-8691; array('B', None) raises TypeError *)
Definition flipXY : M (list Z) :=
  mx <- rd getmaxy ;;
  my <- rd getmaxx ;;
  bits <- geti bmpcolorbits ;;
  nbmp <- lift (newBMP mx my bits) ;;
  building nbmp (fun bmp =>
    if (bits =? 8) || (bits =? 24) then
      r <- rd xchrcnt ;;
      let mx := mx - 1 in
      (if bits <? 24 then copyRGBpal bmp else ret tt) ;;;
      foldM (fun offset y =>
          o <- on_src bmp (vertBMPbitBLTget y 0 mx) ;;
          match o with
          | None => raise TypeError
          | Some buf => BMPbitBLTput offset buf ;;; ret (offset + r)
          end)
        0 (range 0 my) ;;; ret tt
    else
      copyRGBpal bmp ;;;
      items <- lift (iterimagecolor bmp) ;;
      forM items (fun v => let '(x, y, c) := v in plotxybit y x c)).

(** BITMAPlib.py:8724-8760 (subvect and intplotvecxypoint inlined) *)
Definition crop (x1 y1 x2 y2 : Z) : M (option (list Z)) :=
  entirerectinboundary x1 y1 x2 y2 (
    let '(x1, y1, x2, y2) := sortrecpoints x1 y1 x2 y2 in
    bits <- geti bmpcolorbits ;;
    nbmp <- lift (newBMP (x2 - x1 + 1) (y2 - y1 + 1) bits) ;;
    building nbmp (fun bmp =>
      if bits <? 8 then
        copyRGBpal bmp ;;;
        itergetcolorfromrectregion (from bmp) x1 y1 x2 y2 tt
          (fun _ v => let '(x, y, c) := v in plotxybit (x - x1) (y - y1) c)
      else
        r <- rd xchrcnt ;;
        itercopyrect (from bmp) x1 y1 x2 y2 0
          (fun offset buf => BMPbitBLTput offset buf ;;; ret (offset + r)) ;;; ret tt)).

(** BITMAPlib.py:8763-8800 *)
Definition invertregion (x1 y1 x2 y2 : Z) : M (option unit) :=
  entirerectinboundary x1 y1 x2 y2 (
    let '(x1, y1, x2, y2) := sortrecpoints x1 y1 x2 y2 in
    bits <- geti bmpcolorbits ;;
    if bits <? 8 then
      m <- rd getmaxcolors ;;
      let c := m - 1 in
      itergetcolorfromrectregion own x1 y1 x2 y2 tt
        (fun _ v => let '(x, y, _) := v in
           k <- rd (getxybit x y) ;; plotxybit x y (Z.lxor k c))
    else
      offset <- rd (if bits =? 24 then o24bmof x1 y2 else o8bmof x1 y2) ;;
      r <- rd xchrcnt ;;
      itercopyrect own x1 y1 x2 y2 offset
        (fun offset buf =>
           a <- lift (invertbitsinbuffer buf) ;;
           BMPbitBLTput offset a ;;; ret (offset + r)) ;;; ret tt).

(** BITMAPlib.py:7478-7488 *)
Definition getBGRpalbuf (l : list Z) : res (list Z) :=
  let! h := hdsz l in Ok (py_slice l bmppal h).
(** BITMAPlib.py:7491-7520 *)
Definition convertbufto24bit (buf pal : list Z) (bits : Z) : res (list Z) :=
  py_array (flat_map (fun b =>
    if bits =? 8 then let s := Z.shiftl b 2 in py_slice pal s (s + 3)
    else if bits =? 4 then
      let s1 := Z.shiftl (b / 16) 2 in
      let s2 := Z.shiftl (b mod 16) 2 in
      py_slice pal s1 (s1 + 3) ++ py_slice pal s2 (s2 + 3)
    else if bits =? 1 then
      flat_map (fun i => let s := Z.shiftl i 2 in py_slice pal s (s + 3)) (enumbits b)
    else []) buf).
(** BITMAPlib.py:7523-7551.  A 24-bit bitmap is returned itself. *)
Definition upgradeto24bitimage : M (list Z) :=
  bits <- geti bmpcolorbits ;;
  if bits =? 24 then print Mis24bit ;;; rd (fun bmp => Ok bmp)
  else
    nbmp <- rd (CopyBMPxydim2newBMP 24) ;;
    bgrpal <- rd getBGRpalbuf ;;
    w <- rd getmaxx ;;
    h <- rd getmaxy ;;
    let mx := w - 1 in
    let my := h - 1 in
    nb <- building nbmp (fun bmp =>
      offset <- rd (bmoffset 0 my) ;;
      r <- rd xchrcnt ;;
      itercopyrect (from bmp) 0 0 mx my offset
        (fun offset buf =>
           a <- lift (convertbufto24bit buf bgrpal bits) ;;
           BMPbitBLTput offset a ;;; ret (offset + r)) ;;; ret tt) ;;
    ret nb.

(** BITMAPlib.py:8865-8898 *)
Definition resizeNtimesbigger (n : Z) : M (list Z) :=
  bits <- geti bmpcolorbits ;;
  m <- rd getmaxxy ;;
  let '(mx, my) := m in
  let nx := mx * n in
  let ny := my * n in
  nbmp <- lift (newBMP nx ny bits) ;;
  let mx := mx - 1 in
  let my := my - 1 in
  let ny := ny - 1 in
  building nbmp (fun bmp =>
    (if bits <? 24 then copyRGBpal bmp else ret tt) ;;;
    offset <- rd (bmoffset 0 ny) ;;
    r <- rd xchrcnt ;;
    itercopyrect (from bmp) 0 0 mx my offset
      (fun offset buf =>
         nbuf <- lift (resizebufNtimesbigger buf n bits) ;;
         foldM (fun offset _ => BMPbitBLTput offset nbuf ;;; ret (offset + r)) offset (range 0 n)) ;;;
    ret tt).

(** ** Copy and paste *)

(** BITMAPlib.py:7694-7717 *)
Definition copyrect (x1 y1 x2 y2 : Z) : M (option (list Z)) :=
  entirerectinboundary x1 y1 x2 y2 (
    bits <- geti bmpcolorbits ;;
    let '(x1, y1, x2, y2) := sortrecpoints x1 y1 x2 y2 in
    n <- rd (adjustxbufsize x1 x2) ;;
    itercopyrect own x1 y1 x2 y2
      ([bits] ++ int2buf 2 (x2 - x1 + 2) ++ int2buf 2 (y2 - y1 + 1) ++ int2buf 2 n)
      (fun retval buf => ret (retval ++ buf))).

(** BITMAPlib.py:7720-7756.  The loop diverges when br = 0; the fuel is a
    parameter so that this can be stated for every amount of it. *)
Definition pasterect_fuel (fuel : nat) (buf : list Z) (x1 y1 : Z) : M unit :=
  bits <- geti bmpcolorbits ;;
  b0 <- lift (py_get buf 0) ;;
  if negb (bits =? b0) then print Mbitsnotequal
  else
    dx <- lift (buf2int (py_slice buf 1 3)) ;;
    dy <- lift (buf2int (py_slice buf 3 5)) ;;
    let x2 := x1 + dx in
    let y2 := y1 + dy in
    r <- rd xchrcnt ;;
    ok <- rd (listinBMPrecbnd [(x1, y1); (x2, y2)]) ;;
    if ok : bool then
      offset <- rd (bmoffset x1 y2) ;;
      br <- lift (buf2int (py_slice buf 5 7)) ;;
      let bufsize := zlen buf in
      whileM fuel
        (fun p => let '(startoff, _, _) := p in startoff <? bufsize)
        (fun p => let '(startoff, endoff, offset) := p in
           BMPbitBLTput offset (py_slice buf startoff endoff) ;;;
           ret (endoff, endoff + br, offset + r))
        (7, br + 7, offset) ;;; ret tt
    else print Mregionoutofbounds.
(** as many turns as bytes in the buffer: enough whenever the loop ends *)
Definition pasterect (buf : list Z) (x1 y1 : Z) : M unit :=
  pasterect_fuel (Z.to_nat (zlen buf)) buf x1 y1.

(** BITMAPlib.py:7759-7778 with colors.py:61-73; [None] stands for the -1
    returned for an invalid buffer *)
Definition convertselection2BMP (buf : list Z) : M (option (list Z)) :=
  bits <- lift (py_get buf 0) ;;
  if negb ((bits =? 1) || (bits =? 4) || (bits =? 8) || (bits =? 24)) then
    print Minvalidbuf ;;; ret None
  else
    dx <- lift (buf2int (py_slice buf 1 3)) ;;
    dy <- lift (buf2int (py_slice buf 3 5)) ;;
    nbmp <- lift (newBMP (dx + 1) (dy + 1) bits) ;;
    nb <- building nbmp (fun _ => pasterect buf 0 0) ;;
    ret (Some nb).
