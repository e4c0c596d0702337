(** Independent specification: what a BMP file is and which pixels it shows.
    Nothing here refers to the code in /repo; the layout is that of the BMP
    format (BITMAPFILEHEADER, BITMAPINFOHEADER of 40 bytes, uncompressed,
    bottom-up). *)
From Coq Require Import ZArith List Bool.
From Verif Require Import PyBase.
Import ListNotations.
Open Scope Z_scope.

(** n-byte little-endian field at offset off *)
Fixpoint le_field (b : list Z) (off : Z) (n : nat) : Z :=
  match n with
  | O => 0
  | S n' => getz b off + 256 * le_field b (off + 1) n'
  end.

Definition valid_depth (bits : Z) : Prop := bits = 1 \/ bits = 4 \/ bits = 8 \/ bits = 24.

(** bytes per row: whole 32-bit words *)
Definition stride (w bits : Z) : Z := (w * bits + 31) / 32 * 4.

(** where the pixel data start: 54 bytes of headers and, below 24 bit, a
    palette of 2^bits entries of 4 bytes *)
Definition data_off (bits : Z) : Z := 54 + (if bits =? 24 then 0 else 4 * 2 ^ bits).

(** A well-formed bitmap file of w x h pixels and the given depth (sizes are
    limited to 2^24-1 because the code handles 3-byte dimensions only). *)
Record wf (b : list Z) (w h bits : Z) : Prop := {
  wf_depth : valid_depth bits;
  wf_wrange : 0 <= w < 2 ^ 24;
  wf_hrange : 0 <= h < 2 ^ 24;
  wf_bytes : Forall byte b;
  wf_len : zlen b = data_off bits + h * stride w bits;
  wf_sig : getz b 0 = 66 /\ getz b 1 = 77;
  wf_size : le_field b 2 8 = zlen b;
  wf_off : le_field b 10 4 = data_off bits;
  wf_width : le_field b 18 4 = w;
  wf_height : le_field b 22 4 = h;
  wf_bpp : le_field b 28 2 = bits
}.

(** The pixel in column x (from the left) and row y (from the top). *)
Definition pixel (b : list Z) (w h bits x y : Z) : Z :=
  let row := data_off bits + (h - 1 - y) * stride w bits in
  if bits =? 24 then
    getz b (row + 3 * x) + 256 * getz b (row + 3 * x + 1) + 65536 * getz b (row + 3 * x + 2)
  else
    (getz b (row + x * bits / 8) / 2 ^ (8 - bits - (x * bits) mod 8)) mod 2 ^ bits.

Definition inside (w h x y : Z) : Prop := 0 <= x < w /\ 0 <= y < h.

(** Palette entry i as (red, green, blue). *)
Definition pal_entry (b : list Z) (i : Z) : Z * Z * Z :=
  (getz b (54 + 4 * i + 2), getz b (54 + 4 * i + 1), getz b (54 + 4 * i)).

(** Length and every byte in front of the pixel data (headers, palette) agree. *)
Definition same_header (b b' : list Z) (bits : Z) : Prop :=
  zlen b' = zlen b /\ forall i, 0 <= i < data_off bits -> getz b' i = getz b i.

(** b' is b with its pixels replaced by f: still a well-formed bitmap of the
    same size and depth, same headers and palette. *)
Definition repainted (b b' : list Z) (w h bits : Z) (f : Z -> Z -> Z) : Prop :=
  wf b' w h bits /\ same_header b b' bits /\
  forall x y, inside w h x y -> pixel b' w h bits x y = f x y.

(** The value a colour number takes in a bitmap of the given depth. *)
Definition reduce (bits c : Z) : Z :=
  if bits =? 1 then (if 0 <? c then 1 else 0)
  else if bits =? 24 then c else c mod 2 ^ bits.

(** A colour that can be stored at the given depth without an exception. *)
Definition storable (bits c : Z) : Prop := bits = 24 -> 0 <= c < 2 ^ 24.

(** The closed rectangle with these two opposite corners, in any order. *)
Definition in_box (x1 y1 x2 y2 x y : Z) : bool :=
  ((Z.min x1 x2 <=? x) && (x <=? Z.max x1 x2)) && ((Z.min y1 y2 <=? y) && (y <=? Z.max y1 y2)).

(** How many pixels have colour c. *)
Definition pixels_of_color (b : list Z) (w h bits c : Z) : Z :=
  Z.of_nat (length (filter (fun p => pixel b w h bits (fst p) (snd p) =? c)
                           (list_prod (range 0 w) (range 0 h)))).

(** The lattice circle of radius r around the origin: the larger of the two
    distances is the exact one of the ideal circle, rounded to the nearest
    integer ((m-1/2)^2 < r^2-n^2 < (m+1/2)^2 for the larger distance m and the
    smaller n), and the disc it encloses. *)
Definition on_ring (r dx dy : Z) : bool :=
  let m := Z.max (Z.abs dx) (Z.abs dy) in
  (r * r <=? dx * dx + dy * dy + m) && (dx * dx + dy * dy <=? r * r + Z.max 0 (m - 1)).
Definition in_disc (r dx dy : Z) : bool :=
  let m := Z.max (Z.abs dx) (Z.abs dy) in dx * dx + dy * dy <=? r * r + Z.max 0 (m - 1).

(** The pixels of the straight segment between two points, exact diagonals
    excepted: along the longer axis one pixel per column (or row), at the height
    of the ideal line in the next column, rounded towards the first point. *)
Definition on_line (x1 y1 x2 y2 x y : Z) : bool :=
  let dx := x2 - x1 in let dy := y2 - y1 in
  in_box x1 y1 x2 y2 x y &&
  (if Z.abs dy <=? Z.abs dx
   then y =? y1 + Z.sgn dy * ((Z.abs (x - x1) + 1) * Z.abs dy / Z.abs dx)
   else x =? x1 + Z.sgn dx * ((Z.abs (y - y1) + 1) * Z.abs dx / Z.abs dy)).

(** Red, green and blue of a 24-bit colour number, and the squared distance of
    two such colours. *)
Definition rgb_of (c : Z) : Z * Z * Z := (c / 65536, c / 256 mod 256, c mod 256).
Definition rgb_dist2 (u v : Z * Z * Z) : Z :=
  let '(r, g, b) := u in let '(r', g', b') := v in
  (r - r') ^ 2 + (g - g') ^ 2 + (b - b') ^ 2.
(** The 24-bit colour number with the given channels. *)
Definition rgb24 (p : Z * Z * Z) : Z := let '(r, g, b) := p in b + 256 * g + 65536 * r.

(** The pixels of the disc around (x, y) that the row-wise operations on circular
    regions reach: a row is treated up to but not including the byte of its last
    pixel.  A pixel counts if the last pixel in its byte and the pixel after that
    one are in the disc and in the image. *)
Definition disc_part (w bits r x y px py : Z) : bool :=
  let pp := if bits <? 8 then 8 / bits else 1 in
  let n := (px / pp + 1) * pp in
  (in_disc r (n - 1 - x) (py - y) && in_disc r (n - x) (py - y)) && (n <? w).

(** The pixels that the column-wise operations on circular regions reach: those of
    the disc, except a ring pixel whose neighbour towards the horizontal diameter
    is a ring pixel too. *)
Definition col_part (r dx dy : Z) : bool :=
  in_disc r dx dy && ((dy =? 0) || negb (on_ring r dx (Z.abs dy - 1))).
