(** Specifications for colours computed with rational numbers. *)
From Coq Require Import ZArith QArith Qabs Qminmax List Bool.
From Verif Require Import SpecExact.
Import ListNotations.
Open Scope Q_scope.

(** z is q rounded: a nearest integer, the even one of two *)
Definition rounds (q : Q) (z : Z) : Prop :=
  nearest q z /\ (inject_Z z - q == 1 # 2 \/ q - inject_Z z == 1 # 2 -> Z.even z = true).
(** z is q up to 1 *)
Definition close (q : Q) (z : Z) : Prop := inject_Z z - 1 <= q <= inject_Z z + 1.
Definition clamped (lo hi z : Z) : Z := Z.max lo (Z.min hi z).

(** three bytes *)
Definition bytes3 (c : Z * Z * Z) : Prop :=
  let '(r, g, b) := c in (0 <= r < 256 /\ 0 <= g < 256 /\ 0 <= b < 256)%Z.
(** a relation between the components of two colours *)
Definition each (P : Z -> Z -> Prop) (c d : Z * Z * Z) : Prop :=
  let '(r, g, b) := c in let '(x, y, z) := d in P r x /\ P g y /\ P b z.
Definition brightest (c : Z * Z * Z) : Z := let '(r, g, b) := c in Z.max r (Z.max g b).
(** the factors of a hue *)
Definition unit3 (f : Q * Q * Q) : Prop :=
  let '(r, g, b) := f in 0 <= r <= 1 /\ 0 <= g <= 1 /\ 0 <= b <= 1.

(** The usual conversion from hue (in sixths of the circle), saturation and luminosity:
    the level of a primary colour that is [d] sixths from full *)
Definition level (d : Q) : Q := Qmax 0 (Qmin 1 (2 - d)).
Definition channel (s l lev : Q) : Q := l + s * (lev - (1 # 2)) * (1 - Qabs (2 * l - 1)).
Definition hsl_red (h s l : Q) : Q := channel s l (level (Qmin (Qabs h) (Qabs (6 - h)))).
Definition hsl_green (h s l : Q) : Q := channel s l (level (Qabs (h - 2))).
Definition hsl_blue (h s l : Q) : Q := channel s l (level (Qabs (h - 4))).

(** A function that interpolates between a (at 0) and b (at 1) without turning back. *)
Definition eases (fn : Q -> Q -> Q -> Q) : Prop := forall a b,
  fn a b 0 == a /\ fn a b 1 == b /\
  forall f f', 0 <= f -> f <= f' -> f' <= 1 -> (a <= b -> fn a b f <= fn a b f') /\ (b <= a -> fn a b f' <= fn a b f).
(** v lies between a and b, in either order *)
Definition zmid (a b v : Z) : Prop := (a <= v <= b \/ b <= v <= a)%Z.
