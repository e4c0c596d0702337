(** Specifications for the functions on rational numbers. *)
From Coq Require Import ZArith QArith List Bool.
Import ListNotations.
Open Scope Q_scope.

(** f 0 + ... + f (n - 1) and the sum over a list *)
Fixpoint qsum (f : nat -> Q) (n : nat) : Q := match n with O => 0 | S k => qsum f k + f k end.
Fixpoint lsum {A} (f : A -> Q) (l : list A) : Q := match l with [] => 0 | a :: t => f a + lsum f t end.
(** the sum of the squared distances of the points from the line y = m x + b *)
Definition squares (m b : Q) (l : list (Z * Z)) : Q :=
  lsum (fun p => (inject_Z (snd p) - (m * inject_Z (fst p) + b)) * (inject_Z (snd p) - (m * inject_Z (fst p) + b))) l.
(** de Casteljau: the point at t of the curve with control values p 0 ... p n *)
Fixpoint casteljau (p : nat -> Q) (n : nat) (t : Q) : Q :=
  match n with
  | O => p O
  | S k => (1 - t) * casteljau p k t + t * casteljau (fun i => p (S i)) k t
  end.
(** z is an integer nearest to q *)
Definition nearest (q : Q) (z : Z) : Prop := inject_Z z - (1 # 2) <= q <= inject_Z z + (1 # 2).
(** the rows of a table that start with the coordinates of the points *)
Definition table_of (pts : list (Z * Z)) (rows : list (list Z)) : Prop :=
  exists k : nat, Forall2 (fun row p => exists t, row = fst p :: snd p :: t /\ length t = k) rows pts.
(** v lies between a and b, in either order *)
Definition amid (a b v : Q) : Prop := a <= v <= b \/ b <= v <= a.
(** Cox and de Boor: the B-spline of degree k over the knots i, i + 1, ..., i + k + 1 *)
Fixpoint cox (k : nat) (i x : Q) : Q :=
  match k with
  | O => if Qle_bool i x && negb (Qle_bool (i + 1) x) then 1 else 0
  | S j => let n := inject_Z (Z.of_nat k) in
           (x - i) / n * cox j i x + (i + n + 1 - x) / n * cox j (i + 1) x
  end.
