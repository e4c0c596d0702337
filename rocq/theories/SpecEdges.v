(** Independent notions for scans of an image by colour. *)
From Coq Require Import ZArith List Bool.
From Verif Require Import PyBase Spec.
Import ListNotations.
Open Scope Z_scope.

(** The colour a viewer shows for a pixel. *)
Definition shown (b : list Z) (w h bits x y : Z) : Z * Z * Z :=
  if bits =? 24 then rgb_of (pixel b w h bits x y) else pal_entry b (pixel b w h bits x y).

(** Bitmaps whose rows end at a byte boundary (every 8-bit and 24-bit bitmap). *)
Definition byte_rows (w bits : Z) : Prop := bits < 8 -> (w * bits) mod 8 = 0.

(** The neighbours of (x, y) that are looked at: at most one step away in each
    direction, never in column 0 when coming from column 1, nor in row 0 from row 1. *)
Definition looked_at (w h x y u v : Z) : Prop :=
  Z.abs (u - x) <= 1 /\ Z.abs (v - y) <= 1 /\ (u, v) <> (x, y) /\
  u < w /\ v < h /\ (u < x -> 0 < u) /\ (v < y -> 0 < v).

(** The order in which the neighbours of a pixel are compared with it, and the first of
    them whose colour is far from that of the pixel. *)
Definition around (x y : Z) : list (Z * Z) :=
  [(x, y - 1); (x, y + 1); (x - 1, y - 1); (x - 1, y); (x - 1, y + 1); (x + 1, y - 1); (x + 1, y); (x + 1, y + 1)].
Definition looks (w h x y u v : Z) : bool :=
  (u <? w) && (v <? h) && (negb (u <? x) || (0 <? u)) && (negb (v <? y) || (0 <? v)).
Definition edge_seen (far : Z -> bool) (b : list Z) (w h bits x y : Z) : option (Z * Z) :=
  find (fun u => looks w h x y (fst u) (snd u) &&
                 far (rgb_dist2 (shown b w h bits (fst u) (snd u)) (shown b w h bits x y))) (around x y).
Definition opt_list {A} (o : option A) : list A := match o with Some a => [a] | None => [] end.

(** A palette of at most n colours for a 24-bit image, chosen by frequency: black
    first, no two entries near each other; every further entry is a colour of the
    image such that all more frequent colours are near an entry before it (or equal to
    one); and if there is room left, every colour of the image is near an entry (or
    equal to one). *)
Definition covered (near : Z -> bool) (q c : Z * Z * Z) : Prop := near (rgb_dist2 q c) = true \/ q = c.
Definition frequent_pal (near : Z -> bool) (b : list Z) (w h n : Z) (pal : list (Z * Z * Z)) : Prop :=
  nth_error pal 0 = Some (0, 0, 0) /\ zlen pal <= n /\
  (forall i j p q, (i < j)%nat -> nth_error pal i = Some p -> nth_error pal j = Some q -> near (rgb_dist2 p q) = false) /\
  (forall k p, (0 < k)%nat -> nth_error pal k = Some p ->
     exists c, p = rgb_of c /\ 0 < pixels_of_color b w h 24 c /\
       forall c', pixels_of_color b w h 24 c < pixels_of_color b w h 24 c' ->
         exists j q, (j < k)%nat /\ nth_error pal j = Some q /\ covered near q (rgb_of c')) /\
  (zlen pal < n -> forall c, 0 < pixels_of_color b w h 24 c -> exists q, In q pal /\ covered near q (rgb_of c)).

(** index of a nearest palette entry that is not black; 0 if there is none *)
Definition nearest_nonblack (pal : list (Z * Z * Z)) (c : Z * Z * Z) (k : Z) : Prop :=
  (exists p, 0 <= k /\ nth_error pal (Z.to_nat k) = Some p /\ p <> (0, 0, 0) /\
     forall q, In q pal -> q <> (0, 0, 0) -> rgb_dist2 c p <= rgb_dist2 c q) \/
  (k = 0 /\ forall q, In q pal -> q = (0, 0, 0)).
