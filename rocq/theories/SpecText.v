(** Independent specification of text images: which pixels the drawing of a
    bit pattern covers, and where the characters of a text go.  Nothing here
    refers to the code in /repo. *)
From Coq Require Import ZArith List Bool.
From Verif Require Import PyBase Spec.
Import ListNotations.
Open Scope Z_scope.

(** A colour argument: one colour number, or a list of them used for the rows in
    turn. *)
Inductive colour := One (c : Z) | Many (l : list Z).
Definition colour_of_row (color : colour) (i : Z) : Z :=
  match color with One c => c | Many l => getz l (i mod zlen l) end.
(** A colour argument that can be used at the given depth *)
Definition colour_ok (bits : Z) (color : colour) : Prop :=
  match color with One c => storable bits c | Many l => l <> [] /\ Forall (storable bits) l end.

(** The bit in row i (from the top) and column j (from the left) of a pattern of
    8-bit rows: the leftmost column is the highest bit. *)
Definition bit_set (pat : list Z) (i j : Z) : bool :=
  (((0 <=? i) && (i <? zlen pat)) && ((0 <=? j) && (j <? 8))) && Z.testbit (getz pat i) (7 - j).

(** The pixels drawn for one bit at (x, y): a square of d+1 pixels a side, either
    drawn only if it is wholly inside the image or always, or a disc of
    diameter d. *)
Definition square_hit (d w h x y px py : Z) : bool :=
  in_box x y (x + d) (y + d) px py && (((0 <=? x) && (x + d <? w)) && ((0 <=? y) && (y + d <? h))).
Definition box_hit (d x y px py : Z) : bool := in_box x y (x + d) (y + d) px py.
Definition dot_hit (d x y px py : Z) : bool :=
  in_disc (d / 2) (px - (x + d / 2)) (py - (y + d / 2)).

(** The pixels of an upright pattern (with the bits [lit]) whose row i begins at (ox i, y + i * scale)
    and whose bits are [scale] pixels apart: the row and column of the only bit
    that can cover the pixel are found by division. *)
Definition glyph_at (hit : Z -> Z -> Z -> Z -> bool) (lit : Z -> Z -> bool) (scale : Z) (ox : Z -> Z) (y px py : Z) : bool :=
  let i := (py - y) / scale in
  let j := (px - ox i) / scale in
  lit i j && hit (ox i + j * scale) (y + i * scale) px py.
(** The same for a pattern turned by 90 degrees to the left: row i is the column
    that begins at (x + i * scale, oy i) and goes upwards. *)
Definition side_glyph_at (hit : Z -> Z -> Z -> Z -> bool) (lit : Z -> Z -> bool) (scale x : Z) (oy : Z -> Z) (px py : Z) : bool :=
  let i := (px - x) / scale in
  let j := - ((py - oy i) / scale) in
  lit i j && hit (x + i * scale) (oy i - j * scale) px py.

(** Shift of row i of a slanted pattern: half the scale per row, at scale 1 one
    pixel for every even line number passed. *)
Definition slant (scale y i : Z) : Z :=
  if scale =? 1 then (y + i) / 2 - y / 2 else scale / 2 * i.

(** How far the first row of a slanted pattern of n rows is moved to the right *)
Definition lead (scale n : Z) : Z := if scale =? 1 then n / 2 else scale / 2 * n.

(** The styles: for a pattern placed at (x, y), the index of the colour with
    which the pixel (px, py) is drawn, if it is. *)
Definition ink hit lit scale ox y px py : option Z :=
  if glyph_at hit lit scale ox y px py then Some ((py - y) / scale) else None.
Definition style := list Z -> Z -> Z -> Z -> Z -> option Z.
Definition upright hit scale : style := fun pat x y =>
  ink hit (bit_set pat) scale (fun _ => x) y.
Definition upside_down hit scale : style := fun pat => upright hit scale (rev pat).
(** left and right exchanged, without the column that would come first *)
Definition mirror_bit (pat : list Z) (i j : Z) : bool := (0 <? j) && bit_set pat i (7 - j).
Definition mirrored hit scale : style := fun pat x y =>
  ink hit (mirror_bit pat) scale (fun _ => x) y.
Definition italic hit scale : style := fun pat x y =>
  ink hit (bit_set pat) scale (fun i => x + lead scale (zlen pat) - slant scale y i) y.
Definition mirrored_italic hit scale : style := fun pat x y =>
  ink hit (mirror_bit pat) scale (fun i => x + lead scale (zlen pat) - slant scale y i) y.
(** upside down and slanted: row i is moved to the left of x *)
Definition upside_down_italic hit scale : style := fun pat x y =>
  ink hit (bit_set (rev pat)) scale (fun i => x - slant scale y i) y.
(** sideways: the colour index moves on by eight from row to row *)
Definition sideways hit scale : style := fun pat x y px py =>
  if side_glyph_at hit (bit_set pat) scale x (fun _ => y) px py then Some (8 * ((px - x) / scale)) else None.
(** sideways and slanted: downwards, at scale 1 upwards *)
Definition sideways_italic hit scale : style := fun pat x y px py =>
  if side_glyph_at hit (bit_set pat) scale x
       (fun i => y + (if scale =? 1 then - slant scale x i else slant scale x i)) px py
  then Some ((px - x) / scale) else None.

(** A font is its height and then the rows of the characters 0, 1, 2, ... *)
Definition font_height (font : list Z) : Z := getz font 0.
Definition glyph (font : list Z) (c : Z) : list Z :=
  map (fun i => getz font (1 + c * font_height font + i)) (range 0 (font_height font)).
Definition in_font (font : list Z) (c : Z) : Prop :=
  0 <= c /\ 1 + (c + 1) * font_height font <= zlen font.

(** Where the characters of a text go, as (character, column, line), starting at
    the given column and line: '\n' (10) begins a new line, '\t' (9) skips four
    columns. *)
Fixpoint layout (text : list Z) (column line : Z) : list (Z * Z * Z) :=
  match text with
  | [] => []
  | c :: t =>
      if c =? 10 then layout t 0 (line + 1)
      else if c =? 9 then layout t (column + 4) line
      else (c, column, line) :: layout t (column + 1) line
  end.

(** The pixel (px, py) after the characters of a text have been drawn over a
    pixel [old], the character in column [col] of line [ln] at
    (X col ln, Y col ln): later characters are drawn over earlier ones. *)
Definition text_over (G : style) (font : list Z) (X Y : Z -> Z -> Z) (value : Z -> Z) (text : list Z) (old px py : Z) : Z :=
  fold_left (fun v t => let '(c, col, ln) := t in
      match G (glyph font c) (X col ln) (Y col ln) px py with Some i => value i | None => v end)
    (layout text 0 0) old.
(** Distances between characters: [sp] pixels are left free, with 0 read as 1 *)
Definition gap (sp : Z) : Z := if sp =? 0 then 1 else sp.
Definition step_x (scale sp : Z) : Z := 8 * scale + gap sp.
Definition step_y (font : list Z) (scale sp : Z) : Z := font_height font * scale + gap sp.

(** v is a best match for the colour c among the palette entries that are not
    black *)
Definition nearest (b : list Z) (c v : Z) : Prop :=
  0 <= v < 256 /\
  forall i, 0 <= i < 256 -> pal_entry b i <> (0, 0, 0) ->
    pal_entry b v <> (0, 0, 0) /\ rgb_dist2 (rgb_of c) (pal_entry b v) <= rgb_dist2 (rgb_of c) (pal_entry b i).
(** The pixel value v that squares of more than one pixel get for the colour c *)
Definition square_value (b : list Z) (bits d c v : Z) : Prop :=
  if (bits =? 8) && (0 <? d) then 0 <= c < 2 ^ 24 -> nearest b c v else v = reduce bits c.

(** The number of columns a text needs, starting at the given column, and its
    number of lines *)
Fixpoint text_columns (text : list Z) (column : Z) : Z :=
  match text with
  | [] => column
  | c :: t =>
      if c =? 10 then Z.max column (text_columns t 0)
      else text_columns t (if c =? 9 then column + 4 else column + 1)
  end.
Definition text_lines (text : list Z) : Z := 1 + zlen (filter (Z.eqb 10) text).
