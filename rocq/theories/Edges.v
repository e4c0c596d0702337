(** Model of the scans of an image by colour: RGB values of pixels, neighbours, edges,
    colour regions, reduced palettes, and of the functions that save one bitmap per
    frame.  Paths are relative to /repo/pythonbmp.
    Colour distances (mathlib.py:704-730, the square root of a sum of squares) are only
    compared with a threshold.  The comparison is an arbitrary predicate on the squared
    distance: [near d] stands for sqrt(d) < threshold, [far d] for sqrt(d) > threshold.
    The progress messages of the scans are left out. *)
From Coq Require Import ZArith String List Bool DecimalString.
From Verif Require Import PyBase Bmp Region Geometry Draw Circle Shapes Files Wrappers Fractal.
Import ListNotations.
Open Scope Z_scope.
Open Scope py_scope.

(** ** Colours of single pixels *)

(** BITMAPlib.py:1775-1801; None is the empty list returned for a point outside *)
Definition getRGBxybit (x y : Z) (l : list Z) : res (option (Z * Z * Z)) :=
  let! inb := isinBMPrectbnd x y l in
  if inb : bool then
    let! bits := getclrbits l in
    if bits =? 24 then
      let! i := o24bmofhd x y l in
      let! r := py_get l (i + 2) in let! g := py_get l (i + 1) in let! b := py_get l i in
      Ok (Some (r, g, b))
    else
      let! c := getxybit x y l in
      let! p := getRGBpal c l in Ok (Some p)
  else Ok None.
(** BITMAPlib.py:1759-1772, 1804-1817, 1820-1835, 1860-1875 *)
Definition getRGBxybitvec (v : Z * Z) := getRGBxybit (fst v) (snd v).
Definition getxybitvec (v : Z * Z) := getxybit (fst v) (snd v).
Definition intplotvecxypoint (v : Z * Z) (c : Z) : M unit := plotxybit (fst v) (snd v) c.
Definition plotRGBxybitvec (v : Z * Z) (rgb : Z * Z * Z) : M unit :=
  let '(r, g, b) := rgb in plotRGBxybit (fst v) (snd v) r g b.

(** ** All pixels *)

(** [p[c]] of a palette for c >= 0 *)
Definition pal_at (p : list (Z * Z * Z)) (c : Z) : res (Z * Z * Z) :=
  match nth_error p (Z.to_nat c) with Some v => Ok v | None => Err IndexError end.
(** BITMAPlib.py:7590-7613: the items one step of the loop yields and the new x *)
Definition iir_step (p : list (Z * Z * Z)) (b : list Z) (bits mx x y offset : Z) : res (list (Z * Z * (Z * Z * Z)) * Z) :=
  if bits =? 1 then
    let! c := py_get b offset in
    fold_left (fun r bit =>
        let! q := r in
        let '(items, x) := q in
        if x <? mx then
          let! v := pal_at p (Z.shiftr (Z.land c (Z.shiftl 1 bit)) bit) in
          Ok (items ++ [(x, y, v)], x + 1)
        else Ok (items, x + 1))
      [7; 6; 5; 4; 3; 2; 1; 0] (Ok ([], x))
  else if bits =? 4 then
    let! c := py_get b offset in
    let! i0 := (if x <? mx then let! v := pal_at p (c / 16) in Ok [(x, y, v)] else Ok []) in
    let! i1 := (if x + 1 <? mx then let! v := pal_at p (c mod 16) in Ok [(x + 1, y, v)] else Ok []) in
    Ok (i0 ++ i1, x + 2)
  else if bits =? 8 then
    if x <? mx then
      let! c := py_get b offset in let! v := pal_at p c in Ok ([(x, y, v)], x + 1)
    else Ok ([], x + 1)
  else if bits =? 24 then
    if x <? mx then
      let! r := py_get b (offset + 2) in let! g := py_get b (offset + 1) in
      let! bl := py_get b offset in
      Ok ([(x, y, (r, g, bl))], x + 1)
    else Ok ([], x + 1)
  else Ok ([], x).
(** BITMAPlib.py:7589-7620, the while loop; one unit of fuel per byte is enough as the
    offset grows.  Unlike iterimagecolor the row ends only where x = mx exactly. *)
Fixpoint iir_loop (fuel : nat) (p : list (Z * Z * Z)) (b : list Z) (bits mx pb doff x y offset : Z)
    : res (list (Z * Z * (Z * Z * Z))) :=
  if offset <? zlen b then
    match fuel with
    | O => Err Diverges
    | S fuel =>
        let! q := iir_step p b bits mx x y offset in
        let '(items, x) := q in
        let '(x, y, offset) := if x =? mx then (0, y - 1, offset + pb) else (x, y, offset) in
        let! rest := iir_loop fuel p b bits mx pb doff x y (offset + doff) in
        Ok (items ++ rest)
    end
  else Ok [].
(** BITMAPlib.py:7554-7623: the list of ((x, y), (r, g, b)) items, computed on copies of
    the pixel bytes and of the palette.  Exceptions as in [iterimagecolor]. *)
Definition iterimageRGB (l : list Z) : res (list (Z * Z * (Z * Z * Z))) :=
  let! h := getmaxy l in
  let! b := getBMPimgbytes l in
  let! mx := getmaxx l in
  let! bits := py_get l bmpcolorbits in
  let! pb := pdbytes mx bits in
  let! p := (if bits <? 24 then getallRGBpal l else Ok []) in
  iir_loop (length b) p b bits mx pb (if bits <? 24 then 1 else 3) 0 (h - 1) 0.

(** ** Neighbours and edges *)

(** primitives2D.py:649-688, 691-708 *)
Definition itergetneighbors (v : Z * Z) (mx my : Z) (includecenter : bool) : list (Z * Z) :=
  let (x, y) := v in
  if (x >? -1) && (y >? -1) then
    let lx := x - 1 in let ty := y - 1 in let rx := x + 1 in let by_ := y + 1 in
    (if ty >? 0 then [(x, ty)] else []) ++
    (if includecenter then [v] else []) ++
    (if by_ <? my then [(x, by_)] else []) ++
    (if lx >? 0 then
       (if ty >? 0 then [(lx, ty)] else []) ++ [(lx, y)] ++ (if by_ <? my then [(lx, by_)] else [])
     else []) ++
    (if rx <? mx then
       (if ty >? 0 then [(rx, ty)] else []) ++ [(rx, y)] ++ (if by_ <? my then [(rx, by_)] else [])
     else [])
  else [].
(** BITMAPlib.py:7335-7339 *)
Definition getneighborcolorlist (v : Z * Z) (l : list Z) : res (list (option (Z * Z * Z))) :=
  let! mx := getmaxx l in let! my := getmaxy l in
  mapR (fun u => getRGBxybitvec u l) (itergetneighbors v mx my true).

(** BITMAPlib.py:7364-7370: the first neighbour in the list that is far from colour c.
    The distance to the colour of a point outside would be 0 (zip stops at once). *)
Fixpoint first_far (far : Z -> bool) (c : Z * Z * Z) (us : list (Z * Z)) (l : list Z) : res (list (Z * Z)) :=
  match us with
  | [] => Ok []
  | u :: t =>
      let! r := getRGBxybitvec u l in
      let d := match r with Some q => dist2 q c | None => 0 end in
      if far d then Ok [u] else first_far far c t l
  end.
(** BITMAPlib.py:7342-7370, 7427-7444 *)
Definition getimagedgevert (far : Z -> bool) (l : list Z) : res (list (Z * Z)) :=
  let! m := getmaxxy l in
  let! items := iterimageRGB l in
  let! us := mapR (fun i => let '(x, y, c) := i in
    first_far far c (itergetneighbors (x, y) (fst m) (snd m) false) l) items in
  Ok (List.concat us).
(** BITMAPlib.py:7447-7475 *)
Definition plotimgedges (far : Z -> bool) (edgeradius edgecolor : Z) : M unit :=
  vs <- rd (getimagedgevert far) ;;
  plotxypointlist vs edgeradius edgecolor.
(** BITMAPlib.py:7373-7399, 7402-7424 *)
Definition getimageregionbyRGB (near : Z -> bool) (rgb : Z * Z * Z) (l : list Z) : res (list (Z * Z)) :=
  let! items := iterimageRGB l in
  Ok (map fst (filter (fun i => near (dist2 rgb (snd i))) items)).

(** BITMAPlib.py:13923-13967 *)
Definition imgregionbyRGB2file (near : Z -> bool) (edgeradius edgecolor : Z) (rgb : Z * Z * Z) (showedgeonly : bool)
    (src dst : string) : F (option unit) :=
  checklink src (functimer (
    l <~ loadBMP src ;;
    bmp <~ notNone l ;;
    edge <~ flift (getimageregionbyRGB near rgb bmp) ;;
    bmp <~ (if showedgeonly then flift (copyBMPhdr bmp) else fret bmp) ;;
    r <~ callM bmp (plotxypointlist edge edgeradius edgecolor) ;;
    _ <~ saveBMP dst (Some (snd r)) ;;
    fprint Msaved)).
(** primitives2D.py:633-646 with mathlib.py:303-315: the bounding box; vlist[0] of an
    empty list raises IndexError *)
Definition rectboundarycoords (vs : list (Z * Z)) : res ((Z * Z) * (Z * Z)) :=
  match vs with
  | [] => Err IndexError
  | (x, y) :: t =>
      Ok (fold_left (fun m v => (Z.min (fst m) (fst v), Z.min (snd m) (snd v))) t (x, y),
          fold_left (fun m v => (Z.max (fst m) (fst v), Z.max (snd m) (snd v))) t (x, y))
  end.
(** BITMAPlib.py:14500-14523; there is no test that the file exists, so
    getmaxxy(None) raises TypeError *)
Definition autocropimg2file (far : Z -> bool) (src dst : string) : F unit :=
  functimer (
    l <~ loadBMP src ;;
    bmp <~ notNone l ;;
    vs <~ flift (getimagedgevert far bmp) ;;
    r <~ flift (rectboundarycoords vs) ;;
    cropBMPandsaveusingrectbnd (fst r) (snd r) src dst).

(** ** Palettes *)

(** BITMAPlib.py:1188-1223 from line 1210 on; palcnt is the length of newpal *)
Fixpoint newpal_loop (near : Z -> bool) (colors : Z) (chist : list (Z * Z)) (newpal : list (Z * Z * Z)) : list (Z * Z * Z) :=
  match chist with
  | [] => newpal
  | (_, c) :: t =>
      let rgb := int2RGB c in
      let newpal := if existsb (fun p => near (dist2 p rgb)) newpal then newpal else newpal ++ [rgb] in
      if zlen newpal =? colors then newpal else newpal_loop near colors t newpal
  end.
Definition makenewpalfromcolorhist (near : Z -> bool) (chist : list (Z * Z)) (colors : Z) : list (Z * Z * Z) :=
  newpal_loop near colors chist [(0, 0, 0)].
(** BITMAPlib.py:1292-1323, run on the new bitmap *)
Definition setnewpalfromsourcebmp (near : Z -> bool) (sourcebmp : list Z) : M (list (Z * Z * Z)) :=
  hist <- lift (colorhistogram sourcebmp) ;;
  m <- rd getmaxcolors ;;
  let newpal := makenewpalfromcolorhist near hist m in
  setbmppal newpal ;;; ret newpal.
(** BITMAPlib.py:13860-13920.  [mono] holds the rounded products of RGBfactors when
    usemonopal is set; [rnd x y] stands for the random number probplotRGBto1bit
    (colors.py:334-350) draws for the pixel.  The scan yields tuples, which never equal
    the lists of a palette, hence [matchRGBtopal false]. *)
Definition reduce24bitimagebits (near : Z -> bool) (mono : option (Z -> Z * Z * Z)) (rnd : Z -> Z -> Z) (newbits : Z)
    (src dst : string) : F (option unit) :=
  checklink src (functimer (
    l <~ loadBMP src ;;
    sbmp <~ notNone l ;;
    bits <~ flift (py_get sbmp bmpcolorbits) ;;
    if negb (bits =? 24) then fprint Mnot24bit
    else
      bmp <~ flift (CopyBMPxydim2newBMP newbits sbmp) ;;
      r <~ callM bmp (
        newpal <- (if newbits >? 1 then
                     match mono with
                     | Some f => setBMP2monochrome f
                     | None => setnewpalfromsourcebmp near sbmp
                     end
                   else ret []) ;;
        items <- lift (iterimageRGB sbmp) ;;
        forM items (fun i => let '(x, y, c) := i in
          intplotvecxypoint (x, y) (if newbits =? 1 then rnd x y else matchRGBtopal false c newpal))) ;;
      _ <~ saveBMP dst (Some (snd r)) ;;
      fprint Msaved)).
(** BITMAPlib.py:12525-12543; the dictionary is the list of its items and int2RGBarr
    (colors.py:163-176) raises OverflowError outside 24 bits.  An array never equals a
    list, hence [matchRGBtopal false]. *)
Definition int2RGBarr (i : Z) : res (Z * Z * Z) :=
  let '(r, g, b) := int2RGB i in let! _ := py_array [r; g; b] in Ok (r, g, b).
Definition adjustcolordicttopal {K} (colordict : list (K * Z)) (l : list Z) : res (list (K * Z)) :=
  let! bits := getclrbits l in
  if bits <? 24 then
    mapR (fun kv => let! c := int2RGBarr (snd kv) in let! p := getallRGBpal l in
                    Ok (fst kv, matchRGBtopal false c p)) colordict
  else Ok colordict.
(** BITMAPlib.py:1326-1342; [adj] stands for brightnessadjust(c, percentadj) *)
Definition RGBpalbrightnessadjust (adj : Z * Z * Z -> Z * Z * Z) (l : list Z) : res (list (Z * Z * Z)) :=
  let! p := getallRGBpal l in Ok (map adj p).

(** ** Frames *)

(** str(i) of a number from enumerate *)
Definition str_nat (n : nat) : string := NilZero.string_of_uint (Nat.to_uint n).
Definition framename (cwd newdir : string) (i : nat) : string :=
  (cwd ++ "/" ++ newdir ++ "/" ++ str_nat i ++ ".bmp")%string.
(** BITMAPlib.py:13431-13436 for the bitmaps the generator yields, in this order *)
Fixpoint saveframes (cwd newdir : string) (i : nat) (frames : list (list Z)) : F unit :=
  match frames with
  | [] => fret tt
  | bmp :: t =>
      _ <~ saveBMP (framename cwd newdir i) (Some bmp) ;;
      _ <~ fprint Msaved ;;
      saveframes cwd newdir (S i) t
  end.
(** BITMAPlib.py:13404-13436 and 1150-1163, without directories: [direxist] says whether
    mkdir raises FileExistsError, which is shown as ValueError.  The frames do not depend
    on the files written, so they are computed first; enumerate(None) raises TypeError. *)
Definition colorcycle2dir (direxist : bool) (cwd src newdir : string) (overwritedir : bool) : F (option unit) :=
  checklink src (
    l <~ loadBMP src ;;
    _ <~ (if direxist && negb overwritedir then fraise ValueError else fret tt) ;;
    obmp <~ notNone l ;;
    r <~ callM obmp (itercolorcycle [] (fun fs => fun s => (Ok (fs ++ [mem s]), s))) ;;
    frames <~ notNone (fst r) ;;
    saveframes cwd newdir 0 frames).

(** ** Shaded discs in files *)

(** BITMAPlib.py:13072-13103 (the decorator intcircleparam leaves integers as they are): three factors, two colours or a list of another length;
    [grad i], [mix i] stand for the colour of the ring of radius i *)
Inductive spherecol := Sfactors (grad : Z -> Z) | Scolors (mix : Z -> Z) | Sothers.
Definition sphere (cs : spherecol) (x y r : Z) : M unit :=
  match cs with
  | Sfactors grad => gradcircle grad x y r
  | Scolors mix => graddichromiccircle mix x y r ;;; ret tt
  | Sothers => ret tt
  end.
(** BITMAPlib.py:13603-13637; no test that the file exists: bmp[bmpcolorbits] of None
    raises TypeError *)
Definition use24btclrfnwithmultpar2circreg {A} (src dst : string) (func : M A) : F unit :=
  l <~ loadBMP src ;;
  bmp <~ notNone l ;;
  bits <~ flift (py_get bmp bmpcolorbits) ;;
  if negb (bits =? 24) then fprint Mnot24bit
  else
    r <~ callM bmp func ;;
    _ <~ saveBMP dst (Some (snd r)) ;;
    fprint Msaved.
(** BITMAPlib.py:15281-15311 *)
Definition sphere2file (cs : spherecol) (x y r : Z) (src dst : string) : F unit :=
  functimer (use24btclrfnwithmultpar2circreg src dst (sphere cs x y r)).
(** BITMAPlib.py:15020-15043 *)
Definition fern2file (pts : list (Z * Z)) (x1 y1 x2 y2 color : Z) (src dst : string) : F unit :=
  functimer (usebyreffnsv src dst (fern pts x1 y1 x2 y2 color)).
(** BITMAPlib.py:12101-12144.  [vs cx cy] stands for the vertices of the snowflake. *)
Definition savekochsnowflake2file (vs : Z -> Z -> list (Z * Z)) (file : string) (r bitdepth color backgroundcolor penradius : Z) : F unit :=
  functimer (
    let x := Z.shiftl r 1 + Z.shiftl penradius 1 + 2 in
    bmp <~ flift (newBMP x x bitdepth) ;;
    let x := x - 1 in
    q <~ callM bmp (
      (if backgroundcolor >? 0 then filledrect 0 0 x x backgroundcolor ;;; ret tt else ret tt) ;;;
      let l := vs (Z.shiftr x 1) (Z.shiftr x 1) in
      if penradius >? 1 then thickplotpoly l penradius color else plotpoly l color) ;;
    saveBMP file (Some (snd q))).

(** ** An image as text *)

(** textgraphics.py:33-50: a star for each bit set, most significant first *)
Definition plotbitsastext (v : Z) : list Z :=
  map (fun m => if Z.land m v =? 0 then 32 else 42) [128; 64; 32; 16; 8; 4; 2; 1].
(** BITMAPlib.py:12180-12208: the characters printed on each line *)
Definition plotbmpastext (l : list Z) : res (list (list Z)) :=
  let! bits := getclrbits l in
  let! h := getmaxy l in
  let! r := xchrcnt l in
  let! offset := hdsz l in
  mapR (fun y =>
    let! cs := mapR (fun x =>
      let i := offset + r * y + x in
      if bits =? 1 then let! v := py_get l i in Ok (plotbitsastext v)
      else if bits =? 4 then let! v := py_get l i in Ok [97 + v / 16; 97 + v mod 16]
      else if bits =? 8 then let! v := py_get l i in Ok [v]
      else Ok []) (range 0 r) in
    Ok (List.concat cs)) (rev (range 1 h)).
