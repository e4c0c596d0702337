(** Model of the functions on pixel buffers: bufferflip.py, buffersplit.py,
    bufresize.py, the buffer functions of colors.py and the bit helpers of
    mathlib.py they use.  Paths are relative to /repo/pythonbmp.  A buffer is an
    [array('B')], i.e. a [list Z] of bytes; functions that mutate their argument
    are modelled as returning the new contents. *)
From Coq Require Import ZArith List Bool.
From Verif Require Import PyBase Bmp.
Import ListNotations.
Open Scope Z_scope.
Open Scope py_scope.

(** ** mathlib.py *)

(** mathlib.py:354-365, 368-379, 382-400 *)
Definition setmax (val maxval : Z) : Z := if val >? maxval then maxval else val.
Definition setmin (val minval : Z) : Z := if val <? minval then minval else val.
Definition setminmax (val minval maxval : Z) : Z :=
  let val := if val >? maxval then maxval else val in
  if val <? minval then minval else val.
(** mathlib.py:334-351 *)
Definition isinrange (value highlimit lowlimit : Z) : bool :=
  (value >? lowlimit) && (value <? highlimit).

(** mathlib.py:1211-1222: the range stops before 0, so bit 0 is left out *)
Definition rotatebits (bits : Z) : Z :=
  fold_left (fun acc bit =>
      acc + Z.shiftl (Z.shiftr (Z.land bits (Z.shiftl 1 bit)) bit) (7 - bit))
    [7; 6; 5; 4; 3; 2; 1] 0.

(** mathlib.py:1408-1420 *)
Definition enumbits (byteval : Z) : list Z :=
  map (fun bit => Z.shiftr (Z.land byteval (Z.shiftl 1 bit)) bit) [7; 6; 5; 4; 3; 2; 1; 0].

(** ** bufferflip.py *)

(** bufferflip.py:22-34 *)
Definition rotatebitsinbuf (buf : list Z) : res (list Z) := py_array (map rotatebits buf).
(** bufferflip.py:37-48 *)
Definition flipnibbleinbuf (buf : list Z) : res (list Z) :=
  py_array (map (fun b => Z.shiftr b 4 + Z.shiftl (b mod 16) 4) buf).
(** colors.py:1012-1025: both right-hand sides are read before the stores *)
Definition RGB2BGRbuf (buf : list Z) : res (list Z) :=
  let m := zlen buf in
  let a := py_xslice buf 2 m 3 in
  let b := py_xslice buf 0 (m - 2) 3 in
  let! buf := py_xslice_set buf 0 (m - 2) 3 a in
  py_xslice_set buf 2 m 3 b.
(** bufferflip.py:51-62 *)
Definition flip24bitbuf (buf : list Z) : res (list Z) := RGB2BGRbuf (rev buf).
(** bufferflip.py:65-84 *)
Definition flipbuf (buf : list Z) (bits : Z) : res (list Z) :=
  let! buf := (if bits =? 24 then flip24bitbuf buf else Ok (rev buf)) in
  let! buf := (if bits =? 4 then flipnibbleinbuf buf else Ok buf) in
  if bits =? 1 then rotatebitsinbuf buf else Ok buf.

(** ** buffersplit.py.  The slices have positive steps; a stop of m-1 or m-2
    that is negative counts from the end, as in Python. *)

(** buffersplit.py:17-32 *)
Definition altsplitbuf (buf : list Z) : list (list Z) :=
  let m := zlen buf in
  let m := if m mod 2 =? 0 then m - Z.land m 1 else m in
  [py_xslice buf 0 (m - 1) 2; py_xslice buf 1 m 2].
(** buffersplit.py:35-53 *)
Definition altsplitbuf3way (buf : list Z) : list (list Z) :=
  let m := zlen buf in
  let m := if m mod 3 =? 0 then m - Z.land m 1 else m in
  [py_xslice buf 0 (m - 2) 3; py_xslice buf 1 (m - 1) 3; py_xslice buf 2 m 3].
(** buffersplit.py:56-79, for n > 0; the loop variable j is n-1-i *)
Definition altsplitbufnway (buf : list Z) (n : Z) : list (list Z) :=
  let m := zlen buf in
  let m := if m mod n =? 0 then m - Z.land m 1 else m in
  map (fun i => py_xslice buf i (m - (n - 1 - i)) n) (range 0 n).

(** ** colors.py *)

(** zip of three lists, then [b,g,r] per item (colors.py:1028-1046 with
    mathlib.py:1661-1670) *)
Fixpoint interleave3 (b g r : list Z) : list Z :=
  match b, g, r with
  | x :: b, y :: g, z :: r => x :: y :: z :: interleave3 b g r
  | _, _, _ => []
  end.
(** colors.py:1028-1046 *)
Definition makeBGRbuf (b g r : list Z) : res (list Z) := py_array (interleave3 b g r).
(** colors.py:933-945 *)
Definition invertbitsinbuffer (buf : list Z) : res (list Z) :=
  py_array (map (fun b => Z.lxor b 255) buf).
(** the list comprehension of colors.py:742-749; int((b+g+r)/3) is floor
    division: the operands are small and non-negative *)
Fixpoint means3 (b g r : list Z) : list Z :=
  match b, g, r with
  | x :: b, y :: g, z :: r => (x + y + z) / 3 :: means3 b g r
  | _, _, _ => []
  end.
(** colors.py:719-750: chained assignment stores left to right *)
Definition monochromefiltertoBGRbuf (buf : list Z) : res (list Z) :=
  let m := zlen buf in
  let! v := py_array (means3 (py_xslice buf 0 (m - 2) 3) (py_xslice buf 1 (m - 1) 3) (py_xslice buf 2 m 3)) in
  let! buf := py_xslice_set buf 0 (m - 2) 3 v in
  let! buf := py_xslice_set buf 1 (m - 1) 3 v in
  py_xslice_set buf 2 m 3 v.

(** ** bufresize.py *)

(** bufresize.py:32-53 *)
Definition adjustbufsize (bufsize bits : Z) : Z :=
  if bits =? 1 then Z.shiftr bufsize 3
  else if bits =? 24 then bufsize * 3
  else if bits =? 4 then Z.shiftr bufsize 1 else bufsize.
(** bufresize.py:56-76 *)
Definition adjustxbufsize (x1 x2 : Z) (l : list Z) : res Z :=
  let! bits := py_get l 28 in Ok (adjustbufsize (x2 - x1 + 1) bits).

(** bufresize.py:79-102: the while loop over i = 1 .. len(blist) as a fold over
    the items, with i carried along.  Shift counts are 7 - i mod 8 >= 0. *)
Definition packbitlisttobuf (blist : list Z) : list Z :=
  let '(_, _, retval) :=
    fold_left (fun st v =>
      let '(i, b, retval) := st in
      let m := i mod 8 in
      let b := b + Z.shiftl v (7 - m) in
      if (m =? 0) && (i >? 1) then (i + 1, 0, retval ++ [b]) else (i + 1, b, retval))
      blist (1, 0, []) in retval.
(** bufresize.py:105-120 *)
Definition resizebitpattenNtimesbigger (byteval n : Z) : list Z :=
  flat_map (fun bit => repz bit n) (enumbits byteval).
(** bufresize.py:123-140 *)
Definition resize1bitbufNtimesbigger (buf : list Z) (n : Z) : res (list Z) :=
  py_array (flat_map (fun b => packbitlisttobuf (resizebitpattenNtimesbigger b n)) buf).
(** bufresize.py:143-157 *)
Definition unpack4bitbuf (buf : list Z) : list Z :=
  flat_map (fun b => [Z.shiftr b 4; Z.land b 15]) buf.
(** bufresize.py:160-180 *)
Definition unpack4bitbufresizeNtimesbigger (buf : list Z) (n : Z) : list Z :=
  flat_map (fun b => repz (Z.shiftr b 4) n ++ repz (Z.land b 15) n) buf.
(** bufresize.py:182-203: the while loop takes the items two at a time and
    drops a single last one *)
Fixpoint pack4bitbuf (l : list Z) : list Z :=
  match l with
  | a :: b :: t => (Z.shiftl a 4 + b) :: pack4bitbuf t
  | _ => []
  end.
(** bufresize.py:206-221 *)
Definition resize4bitbufNtimesbigger (buf : list Z) (n : Z) : res (list Z) :=
  py_array (pack4bitbuf (unpack4bitbufresizeNtimesbigger buf n)).
(** bufresize.py:224-240 *)
Definition resize8bitbufNtimesbigger (buf : list Z) (n : Z) : res (list Z) :=
  py_array (flat_map (fun b => repz b n) buf).
(** bufresize.py:266-281; altsplitbuf3way returns three slices *)
Definition resize24bitbufNtimesbigger (buf : list Z) (n : Z) : res (list Z) :=
  match altsplitbuf3way buf with
  | [b; g; r] =>
      let! b := resize8bitbufNtimesbigger b n in
      let! g := resize8bitbufNtimesbigger g n in
      let! r := resize8bitbufNtimesbigger r n in
      makeBGRbuf b g r
  | _ => Err TypeError
  end.
(** bufresize.py:284-303 *)
Definition resizebufNtimesbigger (buf : list Z) (n bits : Z) : res (list Z) :=
  if bits =? 24 then resize24bitbufNtimesbigger buf n
  else if bits =? 8 then resize8bitbufNtimesbigger buf n
  else if bits =? 4 then resize4bitbufNtimesbigger buf n
  else if bits =? 1 then resize1bitbufNtimesbigger buf n
  else Err KeyError.
