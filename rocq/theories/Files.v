(** Model of files: loading, saving, the two-file wrappers and image
    comparison.  Paths are relative to /repo/pythonbmp.
    A file system is a partial map from names to byte contents.  Simplified:
    no directories, permissions, links or I/O errors; a crash in the middle of
    a write is not modelled; [f.read(n)] of a huge [n] does not exhaust memory. *)
From Coq Require Import ZArith List Bool String.
From Verif Require Import PyBase Bmp.
Import ListNotations.
Open Scope Z_scope.
Open Scope py_scope.

Definition fsys := string -> option (list Z).
Record world := mkw { files : fsys; con : list msg }.

Definition fput (f : fsys) (name : string) (data : list Z) : fsys :=
  fun n => if string_dec n name then Some data else f n.

(** Effects on files: same shape as the monad [M] of PyBase.v. *)
Definition F (A : Type) : Type := world -> res A * world.
Definition fret {A} (a : A) : F A := fun w => (Ok a, w).
Definition fraise {A} (e : exn) : F A := fun w => (Err e, w).
Definition fbind {A B} (m : F A) (k : A -> F B) : F B :=
  fun w => match m w with (Ok a, w') => k a w' | (Err e, w') => (Err e, w') end.
Definition flift {A} (r : res A) : F A := fun w => (r, w).
Definition fprint (m : msg) : F unit := fun w => (Ok tt, mkw (files w) (con w ++ [m])).
Notation "x <~ m ;; k" := (fbind m (fun x => k))
  (at level 61, m at next level, right associativity) : py_scope.

(** Call an in-place operation on a bitmap held in a local variable; returns
    its result and the array it left behind. *)
Definition callM {A} (bmp : list Z) (f : M A) : F (A * list Z) :=
  fun w => match f (mkst bmp (con w)) with
           | (Ok a, s) => (Ok (a, mem s), mkw (files w) (out s))
           | (Err e, s) => (Err e, mkw (files w) (out s))
           end.

(** chartools.py:48-63 (enumletters 17-29): the i-th byte counts 256^i *)
Fixpoint char2int_from (place : Z) (l : list Z) : Z :=
  match l with [] => 0 | c :: t => c * 256 ^ place + char2int_from (place + 1) t end.
Definition char2int (l : list Z) : Z := char2int_from 0 l.

(** fileutils.py:26-43 *)
Definition checklink {A} (name : string) (f : F A) : F (option A) :=
  fun w => match files w name with
           | Some _ => (a <~ f ;; fret (Some a)) w
           | None => (_ <~ fprint Mfilenotexist ;; fret None) w
           end.
(** fileutils.py:46-64 *)
Definition checklinks {A} (name1 name2 : string) (f : F A) : F (option A) :=
  fun w => match files w name1, files w name2 with
           | Some _, Some _ => (a <~ f ;; fret (Some a)) w
           | _, _ => (_ <~ fprint Mfilenotexist ;; fret None) w
           end.

(** Python's == on two byte strings *)
Definition zlist_eqb (a b : list Z) : bool :=
  if list_eq_dec Z.eq_dec a b then true else false.

(** open(filename,'rb') and reading everything; only called on existing files,
    a missing one would be FileNotFoundError, here shown as ValueError *)
Definition readall (name : string) : F (list Z) :=
  fun w => match files w name with Some d => (Ok d, w) | None => (Err ValueError, w) end.

(** f.read(n): OverflowError when n does not fit ssize_t *)
Definition fread (n : Z) (d : list Z) : res (list Z) :=
  if n <? 2 ^ 63 then Ok (py_slice d 0 n) else Err OverflowError.

(** BITMAPlib.py:1442-1467 *)
Definition loadBMP (filename : string) : F (option (list Z)) :=
  checklink filename (
    d <~ readall filename ;;
    if negb (zlist_eqb (py_slice d 0 2) [66; 77]) then
      _ <~ fprint MnotBMP ;; fret []
    else
      let fsize := char2int (py_slice d 2 10) in
      if fsize >? 54 then flift (fread fsize d)
      else _ <~ fprint MnotBMP ;; fret []).

(** BITMAPlib.py:1485-1500.  open(...,'wb') empties the file before f.write
    looks at its argument, so writing None leaves an empty file and raises
    TypeError.  ensurePaintWrapperInPath (1470-1482) changes only the
    environment variable PATH and is left out. *)
Definition saveBMP (filename : string) (bmp : option (list Z)) : F unit :=
  fun w => match bmp with
           | Some d => (Ok tt, mkw (fput (files w) filename d) (con w))
           | None => (Err TypeError, mkw (fput (files w) filename []) (con w))
           end.

(** Indexing a variable that may hold None raises TypeError. *)
Definition notNone {A} (o : option A) : F A :=
  match o with Some a => fret a | None => fraise TypeError end.

(** The shape shared by _usebyreffnwithpar2regnsv, _usebyreffn2regnsv,
    _usebyreffnsv, _usebyreffnwithparnsv, _usefn2circreg, _usefnwithpar2circreg
    (BITMAPlib.py:13153-13182, 13259-13289, 13325-13348, 13351-13376,
    13470-13497, 13500-13531): [func] is the operation with its arguments. *)
Definition usebyreffnsv {A} (src dst : string) (func : M A) : F (option unit) :=
  checklink src (
    l <~ loadBMP src ;;
    bmp <~ notNone l ;;
    r <~ callM bmp func ;;
    _ <~ saveBMP dst (Some (snd r)) ;;
    fprint Msaved).

(** The 24-bit variants _use24btbyrefclrfn2regnsv, _usebyref24btfn2regnsv,
    _use24btclrfntocircregion, _use24btclrfnwithpar2circreg, _use24btclrfn
    (BITMAPlib.py:13185-13256, 13534-13600, 13690-13719). *)
Definition use24btbyreffnsv {A} (src dst : string) (func : M A) : F (option unit) :=
  checklink src (
    l <~ loadBMP src ;;
    bmp <~ notNone l ;;
    bits <~ flift (py_get bmp bmpcolorbits) ;;
    if negb (bits =? 24) then fprint Mnot24bit
    else
      r <~ callM bmp func ;;
      _ <~ saveBMP dst (Some (snd r)) ;;
      fprint Msaved).

(** BITMAPlib.py:13379-13401; [func] returns a new bitmap or None *)
Definition usefnsv (src dst : string) (func : M (option (list Z))) : F (option unit) :=
  checklink src (
    l <~ loadBMP src ;;
    bmp <~ notNone l ;;
    r <~ callM bmp func ;;
    _ <~ saveBMP dst (fst r) ;;
    fprint Msaved).

(** BITMAPlib.py:13292-13322 *)
Definition usefn2regsv (src dst : string) (func : M (option (list Z))) : F (option unit) :=
  checklink src (
    l <~ loadBMP src ;;
    bmp <~ notNone l ;;
    r <~ callM bmp func ;;
    match fst r with
    | Some b => _ <~ saveBMP dst (Some b) ;; fprint Msaved
    | None => fret tt
    end).

(** BITMAPlib.py:13439-13467 *)
Definition use24btfnwithparnsv (src dst : string) (func : M (option (list Z))) : F (option unit) :=
  checklink src (
    l <~ loadBMP src ;;
    bmp <~ notNone l ;;
    bits <~ flift (py_get bmp bmpcolorbits) ;;
    if negb (bits =? 24) then fprint Mnot24bit
    else
      r <~ callM bmp func ;;
      _ <~ saveBMP dst (fst r) ;;
      fprint Msaved).

(** mathlib.py:1249-1261: zip stops at the shorter list *)
Fixpoint zipwith (f : Z -> Z -> Z) (u v : list Z) : list Z :=
  match u, v with a :: u', b :: v' => f a b :: zipwith f u' v' | _, _ => [] end.
Definition xorvect (u v : list Z) : list Z := zipwith Z.lxor u v.
(** mathlib.py:1264-1276 and 1293-1305 *)
Definition andvect (u v : list Z) : list Z := zipwith Z.land u v.
Definition orvect (u v : list Z) : list Z := zipwith Z.lor u v.

Definition Zpair_eqb (a b : (Z * Z) * Z) : bool :=
  let '((x, y), k) := a in let '((x', y'), k') := b in (x =? x') && (y =? y') && (k =? k').

(** Python's != on two lists of triples *)
Definition pal_eqb (p q : list (Z * Z * Z)) : bool :=
  if list_eq_dec (fun a b : Z * Z * Z =>
       ltac:(repeat decide equality) : {a = b} + {a <> b}) p q then true else false.

(** BITMAPlib.py:13817-13857 *)
Definition imagecomp (file1 file2 diff_file : string)
    (func : list Z -> list Z -> list Z) : F (option unit) :=
  checklinks file1 file2 (
    l1 <~ loadBMP file1 ;;
    l2 <~ loadBMP file2 ;;
    bmp1 <~ notNone l1 ;;
    bmp2 <~ notNone l2 ;;
    s1 <~ flift (getmaxxyandbits bmp1) ;;
    s2 <~ flift (getmaxxyandbits bmp2) ;;
    if negb (Zpair_eqb s1 s2) then fprint Mcantcompare
    else
      let bits := snd s1 in
      nbmp <~ flift (CopyBMPxydim2newBMP bits bmp1) ;;
      nbmp <~ (if bits <? 24 then
                 pal1 <~ flift (getallRGBpal bmp1) ;;
                 pal2 <~ flift (getallRGBpal bmp2) ;;
                 _ <~ (if negb (pal_eqb pal1 pal2) then fprint Mdiffpal else fret tt) ;;
                 r <~ callM nbmp (copyRGBpal bmp1) ;; fret (snd r)
               else fret nbmp) ;;
      i1 <~ flift (getBMPimgbytes bmp1) ;;
      i2 <~ flift (getBMPimgbytes bmp2) ;;
      a <~ flift (py_array (func i1 i2)) ;;
      r <~ callM nbmp (setBMPimgbytes a) ;;
      _ <~ saveBMP diff_file (Some (snd r)) ;;
      fprint Msaved).

(** BITMAPlib.py:15112-15127 *)
Definition imagediff (file1 file2 diff_file : string) : F (option unit) :=
  imagecomp file1 file2 diff_file xorvect.
(** BITMAPlib.py:15131-15148 *)
Definition showsimilarparts (file1 file2 diff_file : string) : F (option unit) :=
  imagecomp file1 file2 diff_file andvect.
