(** Model of the core of pythonbmp: integer fields, header accessors, pixel
    addressing, creation, palettes, block transfers, single pixels.
    Every definition cites the lines it models; paths are relative to
    /repo/pythonbmp.  A bitmap is the state of the monad [M] (or an explicit
    [list Z] for read-only functions). *)
From Coq Require Import ZArith List Bool.
From Verif Require Import PyBase Palette.
Import ListNotations.
Open Scope Z_scope.
Open Scope py_scope.

Notation "'let!' x := r 'in' k" := (rbind r (fun x => k))
  (at level 61, x name, r at level 60, k at level 61, right associativity) : py_scope.

(** ** bmpconstants.py:20-31 *)
Definition bmpheaderid : list Z := [66; 77].
Definition bmpfilesize : Z := 2.
Definition bmphdrsize : Z := 10.
Definition bmpcolorbits : Z := 28.
Definition bmpx : Z := 18.
Definition bmpy : Z := 22.
Definition bmppal : Z := 54.
Definition bmpheadersizedict (bits : Z) : res Z :=
  if bits =? 1 then Ok 62 else if bits =? 4 then Ok 118
  else if bits =? 8 then Ok 1078 else if bits =? 24 then Ok 54 else Err KeyError.

(** ** inttools.py *)

(** inttools.py:19-42 *)
Definition writeint (offset cnt value : Z) : M unit :=
  foldM (fun v i => seti (offset + i) (Z.land v 255) ;;; ret (Z.shiftr v 8))
        value (range 0 (cnt - 1)) ;;; ret tt.

(** the generator expression in inttools.py:63 and :92 *)
Fixpoint sum_le (l : list Z) (off i : Z) (n : nat) : res Z :=
  match n with
  | O => Ok 0
  | S n' =>
      let! b := py_get l (off + i) in
      let! t := sum_le l off (i + 1) n' in
      Ok (Z.shiftl b (Z.shiftl i 3) + t)
  end.

(** inttools.py:45-63 *)
Definition readint (offset cnt : Z) (l : list Z) : res Z :=
  sum_le l offset 0 (Z.to_nat (cnt - 1)).

(** inttools.py:66-78 *)
Definition int2buf (cnt value : Z) : list Z :=
  map (fun i => Z.land (Z.shiftr value (i * 8)) 255) (range 0 cnt).

(** inttools.py:81-92 *)
Definition buf2int (buf : list Z) : res Z :=
  sum_le buf 0 0 (Z.to_nat (zlen buf - 1)).

(** ** conditionaltools.py:40-57 *)
Definition swapif {A} (a b : A) (c : bool) : A * A := if c then (b, a) else (a, b).

(** ** Header accessors, BITMAPlib.py *)

(** BITMAPlib.py:381-391 *)
Definition getmaxx (l : list Z) : res Z := readint bmpx 4 l.
(** BITMAPlib.py:408-418 *)
Definition getmaxy (l : list Z) : res Z := readint bmpy 4 l.
(** BITMAPlib.py:421-432 *)
Definition getmaxxy (l : list Z) : res (Z * Z) :=
  let! x := readint bmpx 4 l in let! y := readint bmpy 4 l in Ok (x, y).
(** BITMAPlib.py:435-447 *)
Definition bottomrightcoord (l : list Z) : res (Z * Z) :=
  let! x := readint bmpx 4 l in let! y := readint bmpy 4 l in Ok (x - 1, y - 1).
(** BITMAPlib.py:450-461 *)
Definition centercoord (l : list Z) : res (Z * Z) :=
  let! x := readint bmpx 4 l in let! y := readint bmpy 4 l in
  Ok (Z.shiftr (x - 1) 1, Z.shiftr (y - 1) 1).
(** BITMAPlib.py:464-481; also the lambda [f] of paramchecks.py:28-30.  Simplified: both
    fields are read before the tests, so on an array too short for the height
    field this raises where Python's short-circuit [and] may return False. *)
Definition isinBMPrectbnd (x y : Z) (l : list Z) : res bool :=
  let! w := readint bmpx 4 l in let! h := readint bmpy 4 l in
  Ok ((x <? w) && (y <? h) && ((x >? -1) && (y >? -1))).
(** BITMAPlib.py:484-503: the loop breaks at the first outside point, then
    True is returned in every case *)
Fixpoint listinBMPrecbnd (xylist : list (Z * Z)) (l : list Z) : res bool :=
  match xylist with
  | [] => Ok true
  | (x, y) :: t =>
      let! b := isinBMPrectbnd x y l in
      if b then listinBMPrecbnd t l else Ok true
  end.
(** BITMAPlib.py:506-517 *)
Definition getclrbits (l : list Z) : res Z := py_get l bmpcolorbits.
(** BITMAPlib.py:536-550 *)
Definition setflsz (size : Z) : M unit := writeint bmpfilesize 8 size.
(** BITMAPlib.py:553-565 *)
Definition flsz (l : list Z) : res Z := readint bmpfilesize 8 l.
(** BITMAPlib.py:568-582 *)
Definition sethdsz (size : Z) : M unit := writeint bmphdrsize 4 size.
(** BITMAPlib.py:585-595 *)
Definition hdsz (l : list Z) : res Z := readint bmphdrsize 4 l.
(** BITMAPlib.py:367-378 and 394-405 *)
Definition setx (x : Z) : M unit := writeint bmpx 4 x.
Definition sety (y : Z) : M unit := writeint bmpy 4 y.
(** BITMAPlib.py:598-608 *)
Definition getmaxcolors (l : list Z) : res Z :=
  let! b := py_get l bmpcolorbits in Ok (Z.shiftl 1 b).
(** BITMAPlib.py:850-863 *)
Definition getmaxxyandbits (l : list Z) : res ((Z * Z) * Z) :=
  let! x := readint bmpx 4 l in let! y := readint bmpy 4 l in let! b := py_get l bmpcolorbits in
  Ok ((x, y), b).

(** BITMAPlib.py:866-889 *)
Definition xbytes (x bits : Z) : res Z :=
  let! xb := (if bits <=? 8 then
              if bits =? 0 then Err ZeroDivisionError
              else let xperbyte := 8 / bits in
                   Ok (x / xperbyte + (if x mod xperbyte >? 0 then 1 else 0))
            else if bits =? 24 then Ok (x * 3) else Err UnboundLocalError) in
  let rem := Z.land xb 3 in
  Ok (if rem >? 0 then xb + (4 - rem) else xb).

(** BITMAPlib.py:892-913 *)
Definition pdbytes (x bits : Z) : res Z :=
  let! xb := (if bits <=? 8 then
              if bits =? 0 then Err ZeroDivisionError
              else let xperbyte := 8 / bits in
                   Ok (x / xperbyte + (if x mod xperbyte >? 0 then 1 else 0))
            else if bits =? 24 then Ok (x * 3) else Err UnboundLocalError) in
  let rem := Z.land xb 3 in
  Ok (if rem >? 0 then 4 - rem else 0).

(** BITMAPlib.py:520-533 *)
Definition xchrcnt (l : list Z) : res Z :=
  let! x := readint bmpx 4 l in let! b := py_get l bmpcolorbits in xbytes x b.

(** The common shape of BITMAPlib.py:611-778: column bytes [xo] plus
    (height - y - 1) * row size, plus header size [hd]. *)
Definition bmof (xo bits hd y : Z) (l : list Z) : res Z :=
  let! h := readint bmpy 4 l in let! w := readint bmpx 4 l in let! r := xbytes w bits in
  Ok (xo + (h - y - 1) * r + hd).
(** BITMAPlib.py:611-627, 650-668, 695-712, 715-732 *)
Definition o24bmof (x y : Z) := bmof (x * 3) 24 0 y.
Definition o8bmof (x y : Z) := bmof x 8 0 y.
Definition o4bmof (x y : Z) := bmof (Z.shiftr x 1) 4 0 y.
Definition o1bmof (x y : Z) := bmof (Z.shiftr x 3) 1 0 y.
(** BITMAPlib.py:630-647, 671-692, 735-755, 758-778 *)
Definition o24bmofhd (x y : Z) := bmof (x * 3) 24 54 y.
Definition o8bmofhd (x y : Z) := bmof x 8 1078 y.
Definition o4bmofhd (x y : Z) := bmof (Z.shiftr x 1) 4 118 y.
Definition o1bmofhd (x y : Z) := bmof (Z.shiftr x 3) 1 62 y.

(** BITMAPlib.py:799-830 (_getBMofffunc and _BMoffset) *)
Definition bmoffset (x y : Z) (l : list Z) : res Z :=
  let! bits := py_get l bmpcolorbits in
  if bits =? 24 then o24bmof x y l else if bits =? 8 then o8bmof x y l
  else if bits =? 4 then o4bmof x y l else if bits =? 1 then o1bmof x y l
  else Err KeyError.
(** BITMAPlib.py:781-796 and 833-847 (_getBMoffhdfunc and _BMoffsethd) *)
Definition bmoffsethd (x y : Z) (l : list Z) : res Z :=
  let! bits := py_get l bmpcolorbits in
  if bits =? 24 then o24bmofhd x y l else if bits =? 8 then o8bmofhd x y l
  else if bits =? 4 then o4bmofhd x y l else if bits =? 1 then o1bmofhd x y l
  else Err KeyError.

(** BITMAPlib.py:916-929 *)
Definition getbmflsz (x y bits : Z) : res Z :=
  let! xb := xbytes x bits in let! hd := bmpheadersizedict bits in Ok (xb * y + hd).

(** BITMAPlib.py:932-948 *)
Definition bmmeta (x y bits : Z) : res (Z * Z * Z * Z * Z) :=
  let! f := getbmflsz x y bits in let! hd := bmpheadersizedict bits in Ok (f, hd, x, y, bits).

(** ** Palettes *)

(** colors.py:76-87, bmppal.py:20-301 *)
Definition getdefaultbitpal (bits : Z) : res (list (Z * Z * Z)) :=
  if bits =? 1 then Ok stdpal1 else if bits =? 4 then Ok stdpal4
  else if bits =? 8 then Ok stdpal8 else Err KeyError.

(** BITMAPlib.py:994-1012.  Entries are triples, so the unpacking in the for
    statement cannot fail. *)
Definition setbmppal (pallist : list (Z * Z * Z)) : M unit :=
  m <- rd getmaxcolors ;;
  if zlen pallist =? m then
    foldM (fun s p => let '(r, g, b) := p in
             a <- lift (py_array [b; g; r]) ;;
             slice_set s (s + 3) a ;;; ret (s + 4))
          bmppal pallist ;;; ret tt
  else ret tt.

(** BITMAPlib.py:1015-1035, entries restricted to triples *)
Definition setbmppalwithBGRlist (pallist : list (Z * Z * Z)) : M unit :=
  m <- rd getmaxcolors ;;
  if zlen pallist =? m then
    foldM (fun s p => let '(b, g, r) := p in
             a <- lift (py_array [b; g; r]) ;;
             slice_set s (s + 3) a ;;; ret (s + 4))
          bmppal pallist ;;; ret tt
  else ret tt.

(** BITMAPlib.py:1038-1056; ravel2D (mathlib.py) is concatenation, [concat] *)
Definition setbmppalwithBGRAlist (pallist : list (list Z)) : M unit :=
  m <- rd getmaxcolors ;;
  if zlen pallist =? m then
    let p := concat pallist in
    a <- lift (py_array p) ;;
    slice_set bmppal (bmppal + zlen p) a
  else ret tt.

(** BITMAPlib.py:1075-1089 *)
Definition getRGBpal (c : Z) (l : list Z) : res (Z * Z * Z) :=
  let i := bmppal + Z.shiftl c 2 in
  let! r := py_get l (i + 2) in let! g := py_get l (i + 1) in let! b := py_get l i in Ok (r, g, b).

(** a list comprehension whose element expression can raise *)
Fixpoint mapR {A B} (f : A -> res B) (l : list A) : res (list B) :=
  match l with
  | [] => Ok []
  | a :: t => let! b := f a in let! r := mapR f t in Ok (b :: r)
  end.

(** BITMAPlib.py:1059-1072 *)
Definition getallRGBpal (l : list Z) : res (list (Z * Z * Z)) :=
  let! colors := getmaxcolors l in
  mapR (fun c => getRGBpal c l) (range 0 colors).

(** BITMAPlib.py:1092-1108 *)
Definition setRGBpal (c r g b : Z) : M unit :=
  let s := bmppal + Z.shiftl c 2 in
  a <- lift (py_array [b; g; r]) ;;
  slice_set s (s + 3) a.

(** ** Guards, paramchecks.py.  Arguments are integers, so the [type(...) == int]
    tests succeed.  The guarded function returns a value of type A; a rejected
    call prints and returns None. *)

Definition withSome {A} (m : M A) : M (option A) := a <- m ;; ret (Some a).

(** paramchecks.py:83-101 *)
Definition func24bitonly {A} (f : M A) : M (option A) :=
  bits <- geti bmpcolorbits ;;
  if negb (bits =? 24) then print Mnot24bit ;;; ret None else withSome f.
(** paramchecks.py:218-236 *)
Definition func8and24bitonly {A} (f : M A) : M (option A) :=
  bits <- geti bmpcolorbits ;;
  if negb ((bits =? 24) || (bits =? 8)) then print Mnot24or8bit ;;; ret None else withSome f.
(** paramchecks.py:239-257 *)
Definition func4and8bitonly {A} (f : M A) : M (option A) :=
  bits <- geti bmpcolorbits ;;
  if negb ((bits =? 4) || (bits =? 8)) then print Mnot4or8bit ;;; ret None else withSome f.
(** paramchecks.py:298-328 *)
Definition entirerectinboundary {A} (x1 y1 x2 y2 : Z) (f : M A) : M (option A) :=
  b1 <- rd (isinBMPrectbnd x1 y1) ;;
  b2 <- rd (isinBMPrectbnd x2 y2) ;;
  if negb (b1 && b2) then print Mregionoutofbounds ;;; ret None else withSome f.
(** paramchecks.py:104-140 *)
Definition func24bitonlyandentirerectinboundary {A} (x1 y1 x2 y2 : Z) (f : M A) : M (option A) :=
  bits <- geti bmpcolorbits ;;
  if negb (bits =? 24) then print Mnot24bit ;;; ret None
  else
    b1 <- rd (isinBMPrectbnd x1 y1) ;;
    b2 <- rd (isinBMPrectbnd x2 y2) ;;
    if b1 && b2 then withSome f else print Mregionoutofbounds ;;; ret None.
(** paramchecks.py:260-295 *)
Definition func8and24bitonlyandentirerectinboundary {A} (x1 y1 x2 y2 : Z) (f : M A) : M (option A) :=
  bits <- geti bmpcolorbits ;;
  if negb ((bits =? 24) || (bits =? 8)) then print Mnot24or8bit ;;; ret None
  else
    b1 <- rd (isinBMPrectbnd x1 y1) ;;
    b2 <- rd (isinBMPrectbnd x2 y2) ;;
    if b1 && b2 then withSome f else print Mregionoutofbounds ;;; ret None.

(** BITMAPlib.py:1111-1128.  The right-hand side is read before either slice is
    stored, left target first. *)
Definition palshift (shift0 : Z) : M (option unit) :=
  func4and8bitonly (
    m <- rd getmaxcolors ;;
    let shift := Z.abs shift0 mod m in
    let e := (m - shift) * 4 + bmppal in
    let shift := shift * 4 in
    let p := bmppal + shift in
    let q := e + shift in
    a <- slice bmppal p ;;
    b <- slice p q ;;
    slice_set e q a ;;;
    slice_set bmppal e b).

(** BITMAPlib.py:1131-1147: the generator as its for loop; [body] runs at each
    yield *)
Definition itercolorcycle {B} (b0 : B) (body : B -> M B) : M (option B) :=
  func4and8bitonly (
    mc <- rd getmaxcolors ;;
    let m := mc - 1 in
    b <- body b0 ;;
    foldM (fun b _ => palshift 1 ;;; body b) b (range 0 m)).

(** ** Creation *)

(** BITMAPlib.py:1262-1289 after the allocation in line 1278 *)
Definition setmeta_body (filesize hdrsize x y bits : Z) : M unit :=
  slice_set 0 2 bmpheaderid ;;;
  setflsz filesize ;;;
  sethdsz hdrsize ;;;
  setx x ;;;
  sety y ;;;
  seti bmpcolorbits bits ;;;
  seti 14 40 ;;;
  if bits <? 24 then
    pal <- lift (getdefaultbitpal bits) ;;
    setbmppal pal
  else ret tt.

(** BITMAPlib.py:1262-1289: the array is local, so only the outcome counts *)
Definition setmeta (filesize hdrsize x y bits : Z) : res (list Z) :=
  match setmeta_body filesize hdrsize x y bits (mkst (repz 0 filesize) []) with
  | (Ok _, s) => Ok (mem s)
  | (Err e, _) => Err e
  end.

(** BITMAPlib.py:1407-1421 *)
Definition newBMP (x y colorbits : Z) : res (list Z) :=
  let! m := bmmeta x y colorbits in
  let '(f, hd, x, y, bits) := m in setmeta f hd x y bits.

(** BITMAPlib.py:1424-1439 *)
Definition CopyBMPxydim2newBMP (newbits : Z) (l : list Z) : res (list Z) :=
  let! x := getmaxx l in let! y := getmaxy l in newBMP x y newbits.

(** BITMAPlib.py:951-963 *)
Definition isdefaultpal (l : list Z) : res bool :=
  let! bits := getclrbits l in let! d := getdefaultbitpal bits in let! p := getallRGBpal l in
  Ok ((zlen d =? zlen p) &&
      forallb (fun ab => let '((r, g, b), (r', g', b')) := ab in
                 (r =? r') && (g =? g') && (b =? b')) (combine d p)).

(** BITMAPlib.py:966-976 *)
Definition getBMPimgbytes (l : list Z) : res (list Z) :=
  let! h := hdsz l in let! f := flsz l in Ok (py_slice l h f).
(** BITMAPlib.py:979-991 *)
Definition setBMPimgbytes (buf : list Z) : M unit :=
  h <- rd hdsz ;; f <- rd flsz ;; slice_set h f buf.

(** BITMAPlib.py:1226-1240 *)
Definition copyBMPhdr (l : list Z) : res (list Z) :=
  let! hd := hdsz l in let! f := flsz l in
  Ok (py_slice_set (repz 0 f) 0 hd (py_slice l 0 hd)).

(** BITMAPlib.py:1243-1259: run on the destination, source as argument *)
Definition copyRGBpal (src : list Z) : M unit :=
  l <- lift (hdsz src) ;;
  slice_set bmppal l (py_slice src bmppal l).

(** ** Block transfers *)

(** BITMAPlib.py:1503-1524 *)
Definition BMPbitBLTput (offset : Z) (arraybuf : list Z) : M unit :=
  hdrsize <- rd hdsz ;;
  let bufsize := zlen arraybuf in
  let startoff := hdrsize + offset in
  let endoff := startoff + bufsize in
  f <- rd flsz ;;
  if (offset >=? 0) && (endoff <=? f) then slice_set startoff endoff arraybuf
  else print Minvalidoffset.

(** BITMAPlib.py:1527-1552 *)
Definition BMPbitBLTget (offset bufsize : Z) : M (list Z) :=
  hdrsize <- rd hdsz ;;
  let startoff := hdrsize + offset in
  let endoff := startoff + bufsize in
  f <- rd flsz ;;
  if ((offset >=? 0) && (bufsize >? 0)) && (endoff <=? f) then slice startoff endoff
  else print Minvalidoffset ;;; ret [].

(** ** Colours as integers, colors.py *)

(** colors.py:118-129 *)
Definition int2RGB (i : Z) : Z * Z * Z :=
  (Z.shiftr i 16, Z.land (Z.shiftr i 8) 255, Z.land i 255).
(** colors.py:132-145 *)
Definition int2RGBlist (i : Z) : list Z :=
  [Z.shiftr i 16; Z.land (Z.shiftr i 8) 255; Z.land i 255].
(** colors.py:148-160 *)
Definition int2BGRarr (i : Z) : res (list Z) :=
  py_array [Z.land i 255; Z.land (Z.shiftr i 8) 255; Z.shiftr i 16].
(** colors.py:163-176 *)
Definition int2RGBarr (i : Z) : res (list Z) :=
  py_array [Z.shiftr i 16; Z.land (Z.shiftr i 8) 255; Z.land i 255].
(** colors.py:178-191 *)
Definition RGB2BGRarr (r g b : Z) : res (list Z) := py_array [b; g; r].
(** colors.py:225-238 *)
Definition RGB2int (r g b : Z) : Z := b + Z.shiftl g 8 + Z.shiftl r 16.

(** ** Single pixels *)

(** BITMAPlib.py:1666-1721 *)
Definition plotxybit (x y c : Z) : M unit :=
  inb <- rd (isinBMPrectbnd x y) ;;
  if negb inb then ret tt
  else
    bits <- geti bmpcolorbits ;;
    if bits =? 24 then
      offset <- rd (bmof (x * 3) 24 54 y) ;;
      a <- lift (py_array [Z.land c 255; Z.land (Z.shiftr c 8) 255; Z.shiftr c 16]) ;;
      slice_set offset (offset + 3) a
    else if bits =? 8 then
      offset <- rd (bmof x 8 1078 y) ;;
      seti offset (Z.land c 255)
    else if bits =? 4 then
      offset <- rd (bmof (Z.shiftr x 1) 4 118 y) ;;
      let c := Z.land c 15 in
      v <- geti offset ;;
      if Z.land x 1 =? 1 then seti offset (Z.land v 240 + c)
      else seti offset (Z.shiftl c 4 + Z.land v 15)
    else if bits =? 1 then
      offset <- rd (bmof (Z.shiftr x 3) 1 62 y) ;;
      b <- geti offset ;;
      let mask := Z.shiftl 1 (7 - x mod 8) in
      let c := if c >? 0 then 1 else 0 in
      let b := if c =? 1 then Z.lor b mask
               else if (Z.land b mask =? mask) && (c =? 0) then Z.lxor b mask else b in
      seti offset b
    else ret tt.

(** BITMAPlib.py:1724-1756 *)
Definition getxybit (x y : Z) (l : list Z) : res Z :=
  let! inb := isinBMPrectbnd x y l in
  if inb : bool then
    let! offset := bmoffsethd x y l in
    let! bits := py_get l bmpcolorbits in
    if bits =? 1 then
      let mask := 7 - x mod 8 in
      let! v := py_get l offset in
      Ok (Z.shiftr (Z.land v (Z.shiftl 1 mask)) mask)
    else if bits =? 4 then
      let! v := py_get l offset in
      Ok (if Z.land x 1 =? 1 then Z.land v 15 else Z.shiftr (Z.land v 240) 4)
    else if bits =? 8 then py_get l offset
    else if bits =? 24 then
      let! r := py_get l (offset + 2) in let! g := py_get l (offset + 1) in let! b := py_get l offset in
      Ok (RGB2int r g b)
    else Ok 0
  else Ok (-1).
