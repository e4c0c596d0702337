(** The fragment of Python that the model needs: integers, [array('B')] with
    CPython's index and slice rules, exceptions, console messages, loops.

    This file models the language, not /repo; the rules are those of CPython's
    Modules/arraymodule.c and Objects/sliceobject.c.  Simplifications: items are
    unbounded [Z] with an explicit range check on every store; memory exhaustion
    is not modelled. *)
From Coq Require Import ZArith List Bool.
Import ListNotations.
Open Scope Z_scope.

(** Exceptions.  [Diverges] is not a Python exception: it is the outcome of a
    [while] loop whose fuel ran out. *)
Inductive exn : Set :=
  IndexError | ValueError | OverflowError | KeyError | TypeError
| ZeroDivisionError | UnboundLocalError | Diverges.

Inductive res (A : Type) : Type :=
| Ok (a : A)
| Err (e : exn).
Arguments Ok {A} a.
Arguments Err {A} e.

Definition rbind {A B} (r : res A) (f : A -> res B) : res B :=
  match r with Ok a => f a | Err e => Err e end.

(** Console messages: the keys of the dictionary in pythonbmp/messages.py:6-40
    that the modelled code prints, plus [Mtext] for progress output. *)
Inductive msg : Set :=
  MnotBMP | Mnot24bit | Mis24bit | Mnot24or8bit | Mnot4or8bit | Mregionoutofbounds
| Mlineoutofbnd | Minvalidoffset | Mbitsnotequal | Minvalidbuf | Mfilenotexist
| Mcantcompare | Mdiffpal | Mdone | Msaved | Munequalbuflen | Mnotrect | Mtext.

(** ** Arrays of bytes *)
Definition zlen {A} (l : list A) : Z := Z.of_nat (length l).

(** Total read, used by specifications; 0 outside the array. *)
Definition getz (l : list Z) (i : Z) : Z :=
  if i <? 0 then 0 else nth (Z.to_nat i) l 0.

Definition is_byte (v : Z) : bool := (0 <=? v) && (v <? 256).
Definition byte (v : Z) : Prop := 0 <= v < 256.

Fixpoint upd (l : list Z) (n : nat) (v : Z) : list Z :=
  match l, n with
  | [], _ => []
  | _ :: t, O => v :: t
  | a :: t, S n' => a :: upd t n' v
  end.

(** l[i] *)
Definition py_get (l : list Z) (i : Z) : res Z :=
  let n := zlen l in
  let j := if i <? 0 then i + n else i in
  if (0 <=? j) && (j <? n) then Ok (getz l j) else Err IndexError.

(** l[i] = v : the index is checked before the value *)
Definition py_set (l : list Z) (i v : Z) : res (list Z) :=
  let n := zlen l in
  let j := if i <? 0 then i + n else i in
  if (0 <=? j) && (j <? n) then
    if is_byte v then Ok (upd l (Z.to_nat j) v) else Err OverflowError
  else Err IndexError.

(** Slice bound adjustment for a positive step. *)
Definition clampi (n i : Z) : Z :=
  if i <? 0 then Z.max 0 (i + n) else Z.min i n.

Definition sub (l : list Z) (s e : Z) : list Z :=
  firstn (Z.to_nat (e - s)) (skipn (Z.to_nat s) l).

(** l[s:e] *)
Definition py_slice (l : list Z) (s e : Z) : list Z :=
  sub l (clampi (zlen l) s) (clampi (zlen l) e).

(** l[s:e] = v (v an array, so its items are bytes already) *)
Definition py_slice_set (l : list Z) (s e : Z) (v : list Z) : list Z :=
  let s' := clampi (zlen l) s in
  let e' := Z.max s' (clampi (zlen l) e) in
  firstn (Z.to_nat s') l ++ v ++ skipn (Z.to_nat e') l.

(** range(a,b) and range(a,b,k) for k > 0 *)
Definition range (a b : Z) : list Z :=
  map (fun i => a + Z.of_nat i) (seq 0 (Z.to_nat (b - a))).

Definition stepcount (s e k : Z) : Z :=
  if e <=? s then 0 else (e - s - 1) / k + 1.

Definition range_step (a b k : Z) : list Z :=
  map (fun i => a + i * k) (range 0 (stepcount a b k)).

(** l[s:e:k], k > 0 *)
Definition py_xslice (l : list Z) (s e k : Z) : list Z :=
  let s' := clampi (zlen l) s in
  let e' := clampi (zlen l) e in
  map (getz l) (range_step s' e' k).

Fixpoint mapi_from (f : Z -> Z -> Z) (i : Z) (l : list Z) : list Z :=
  match l with [] => [] | a :: t => f i a :: mapi_from f (i + 1) t end.

Fixpoint filteri_from (f : Z -> bool) (i : Z) (l : list Z) : list Z :=
  match l with
  | [] => []
  | a :: t => if f i then a :: filteri_from f (i + 1) t else filteri_from f (i + 1) t
  end.

Definition in_xslice (s e k i : Z) : bool :=
  (s <=? i) && (i <? e) && ((i - s) mod k =? 0).

(** l[s:e:k] = v, k > 0.  For k = 1 this is a plain slice assignment; for
    k > 1 an empty [v] deletes the items (arraymodule.c, array_ass_subscr) and
    any other length mismatch raises ValueError. *)
Definition py_xslice_set (l : list Z) (s e k : Z) (v : list Z) : res (list Z) :=
  if k =? 1 then Ok (py_slice_set l s e v)
  else
    let s' := clampi (zlen l) s in
    let e' := clampi (zlen l) e in
    if zlen v =? 0 then
      Ok (filteri_from (fun i => negb (in_xslice s' e' k i)) 0 l)
    else if stepcount s' e' k =? zlen v then
      Ok (mapi_from (fun i a => if in_xslice s' e' k i then getz v ((i - s') / k) else a) 0 l)
    else Err ValueError.

(** array('B', l) *)
Definition py_array (l : list Z) : res (list Z) :=
  if forallb is_byte l then Ok l else Err OverflowError.

(** [v] * n *)
Definition repz (v : Z) (n : Z) : list Z := repeat v (Z.to_nat n).

(** l * n for a list *)
Fixpoint rep_list_nat {A} (l : list A) (n : nat) : list A :=
  match n with O => [] | S n' => l ++ rep_list_nat l n' end.
Definition rep_list {A} (l : list A) (n : Z) : list A := rep_list_nat l (Z.to_nat n).

(** ** Effects: one mutable array plus console output *)
Record st := mkst { mem : list Z; out : list msg }.

Definition M (A : Type) : Type := st -> res A * st.

Definition ret {A} (a : A) : M A := fun s => (Ok a, s).
Definition raise {A} (e : exn) : M A := fun s => (Err e, s).
Definition bind {A B} (m : M A) (f : A -> M B) : M B :=
  fun s => match m s with
           | (Ok a, s') => f a s'
           | (Err e, s') => (Err e, s')
           end.
Declare Scope py_scope.
Delimit Scope py_scope with py.
Notation "x <- m ;; k" := (bind m (fun x => k))
  (at level 61, m at next level, right associativity) : py_scope.
Notation "m ;;; k" := (bind m (fun _ => k))
  (at level 61, right associativity) : py_scope.
Open Scope py_scope.

Definition print (m : msg) : M unit := fun s => (Ok tt, mkst (mem s) (out s ++ [m])).

(** read-only computation on the array *)
Definition rd {A} (f : list Z -> res A) : M A := fun s => (f (mem s), s).
(** replace the array by the result of a partial function of it *)
Definition wr (f : list Z -> res (list Z)) : M unit :=
  fun s => match f (mem s) with
           | Ok b => (Ok tt, mkst b (out s))
           | Err e => (Err e, s)
           end.
Definition lift {A} (r : res A) : M A := fun s => (r, s).

Definition geti (i : Z) : M Z := rd (fun l => py_get l i).
Definition seti (i v : Z) : M unit := wr (fun l => py_set l i v).
Definition slice (s e : Z) : M (list Z) := rd (fun l => Ok (py_slice l s e)).
Definition slice_set (s e : Z) (v : list Z) : M unit := wr (fun l => Ok (py_slice_set l s e v)).
Definition xslice (s e k : Z) : M (list Z) := rd (fun l => Ok (py_xslice l s e k)).
Definition xslice_set (s e k : Z) (v : list Z) : M unit := wr (fun l => py_xslice_set l s e k v).

(** Run a reader of another bitmap [src]; console output is shared, changes of
    [src] are discarded (only used for code that does not change it). *)
Definition on_src {A} (src : list Z) (m : M A) : M A :=
  fun s => let (r, s') := m (mkst src (out s)) in (r, mkst (mem s) (out s')).

(** for a in l: loop-carried variables in the accumulator *)
Fixpoint foldM {A B} (f : B -> A -> M B) (b : B) (l : list A) : M B :=
  match l with
  | [] => ret b
  | a :: t => bind (f b a) (fun b' => foldM f b' t)
  end.
Definition forM {A} (l : list A) (f : A -> M unit) : M unit :=
  foldM (fun _ a => f a) tt l.

(** while cond(b): b = body(b) *)
Fixpoint whileM {B} (fuel : nat) (cond : B -> bool) (body : B -> M B) (b : B) : M B :=
  if cond b then
    match fuel with
    | O => raise Diverges
    | S n => bind (body b) (fun b' => whileM n cond body b')
    end
  else ret b.

Definition run {A} (m : M A) (b : list Z) : res A * st := m (mkst b []).
