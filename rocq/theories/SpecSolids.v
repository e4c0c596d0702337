(** Independent specification of filled polygons, sectors and surfaces of solids.
    Nothing here refers to the code in /repo. *)
From Coq Require Import ZArith List Bool.
From Verif Require Import PyBase Spec SpecShapes.
Import ListNotations.
Open Scope Z_scope.

(** The edges of a closed polygon, the last one back to the first vertex. *)
Definition ring_edges (vs : list (Z * Z)) : list ((Z * Z) * (Z * Z)) :=
  match vs with [] => [] | u :: _ => edges vs ++ [(last vs u, u)] end.
(** The pixels of the outline of a polygon. *)
Definition outline (vs : list (Z * Z)) (x y : Z) : Prop :=
  any_edge (fun u v => seg_points (fst u) (snd u) (fst v) (snd v)) (ring_edges vs) x y = true.
(** The pixel lies between two pixels of S in its row (or is one of them). *)
Definition between (S : Z -> Z -> Prop) (x y : Z) : Prop :=
  exists x1 x2, x1 <= x <= x2 /\ S x1 y /\ S x2 y.

(** The pixels of a sector: the selected pixels of the ring around (x, y) and the
    radii to those of them that are selected as ends. *)
Definition sector (sel ends : Z * Z -> bool) (x y r u v : Z) : Prop :=
  exists p q, on_ring r (p - x) (q - y) = true /\ sel (p, q) = true /\
    ((u, v) = (p, q) \/ ends (p, q) = true /\ seg_points x y p q u v = true).

(** Directed edges of a face and of a list of faces. *)
Definition face_edges (f : list Z) : list (Z * Z) :=
  match f with [] => [] | a :: t => combine f (t ++ [a]) end.
Definition surface_edges (fs : list (list Z)) : list (Z * Z) := flat_map face_edges fs.
Definition edge_eq_dec : forall e f : Z * Z, {e = f} + {e <> f}.
Proof. decide equality; apply Z.eq_dec. Defined.
(** How often the faces run from vertex a to vertex b. *)
Definition runs (fs : list (list Z)) (a b : Z) : nat := count_occ edge_eq_dec (surface_edges fs) (a, b).
(** No border: every edge is run through as often in one direction as in the other. *)
Definition closed (fs : list (list Z)) : Prop := forall a b, runs fs a b = runs fs b a.
(** ... and each edge separates two faces. *)
Definition simple (fs : list (list Z)) : Prop := forall a b, (runs fs a b <= 1)%nat.

(** Vectors of space. *)
Definition vec := (Z * Z * Z)%type.
Definition minus3 (u v : vec) : vec :=
  let '(a, b, c) := u in let '(d, e, f) := v in (a - d, b - e, c - f).
Definition dot3 (u v : vec) : Z :=
  let '(a, b, c) := u in let '(d, e, f) := v in a * d + b * e + c * f.
Definition cross3 (u v : vec) : vec :=
  let '(a, b, c) := u in let '(d, e, f) := v in (b * f - c * e, c * d - a * f, a * e - b * d).
(** the normal of the plane through u, v, w *)
Definition normal (u v w : vec) : vec := cross3 (minus3 v u) (minus3 w u).
(** The face through u, v, w turns its outer side away from the point z or contains it. *)
Definition behind (u v w z : vec) : Prop := dot3 (normal u v w) (minus3 z u) <= 0.
(** Each face of a solid has all vertices behind it and its own in its plane: the solid
    is convex and its faces are oriented outwards. *)
Definition outward (vs : list vec) (fs : list (list Z)) : Prop :=
  forall f, In f fs -> exists i j k t u v w, f = i :: j :: k :: t /\
    nth_error vs (Z.to_nat i) = Some u /\ nth_error vs (Z.to_nat j) = Some v /\ nth_error vs (Z.to_nat k) = Some w /\
    forall m z, nth_error vs m = Some z ->
      dot3 (normal u v w) (minus3 z u) <= 0 /\ (dot3 (normal u v w) (minus3 z u) = 0 <-> In (Z.of_nat m) f).
(** The same with all vertices in front of each face: the faces are oriented inwards. *)
Definition inward (vs : list vec) (fs : list (list Z)) : Prop :=
  forall f, In f fs -> exists i j k t u v w, f = i :: j :: k :: t /\
    nth_error vs (Z.to_nat i) = Some u /\ nth_error vs (Z.to_nat j) = Some v /\ nth_error vs (Z.to_nat k) = Some w /\
    forall m z, nth_error vs m = Some z ->
      0 <= dot3 (normal u v w) (minus3 z u) /\ (dot3 (normal u v w) (minus3 z u) = 0 <-> In (Z.of_nat m) f).
