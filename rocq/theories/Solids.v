(** Model of filled polygons, arcs, pie charts and solids: solids3D.py, charts.py and
    their callers in BITMAPlib.py.  Paths are relative to /repo/pythonbmp.  Vertices
    are integers, for which roundvect does nothing; angles, projections and shades,
    computed with floating point, are arbitrary functions. *)
From Coq Require Import ZArith List Bool.
From Verif Require Import PyBase Bmp Region Geometry Draw Circle Shapes Files Wrappers Fractal Edges MathLib.
Import ListNotations.
Open Scope Z_scope.
Open Scope py_scope.

(** ** Filled polygons *)

(** [[x, y] in l] for a list of points *)
Definition haspoint (l : list (Z * Z)) (p : Z * Z) : bool :=
  existsb (fun q => (fst q =? fst p) && (snd q =? snd p)) l.
(** [if p not in px: px.append(p)] *)
Definition addnew (px : list (Z * Z)) (p : Z * Z) : list (Z * Z) := if haspoint px p then px else px ++ [p].
(** solids3D.py:380-412; vertlist[0] of an empty list raises IndexError *)
Definition polyboundary (vs : list (Z * Z)) : res (list (Z * Z)) :=
  let px := fold_left (fun px s => fold_left addnew (iterline (fst s) (snd s)) px) (segments vs) [] in
  match vs with
  | [] => Err IndexError
  | u :: _ => Ok (fold_left addnew (iterline (last vs u) u) px)
  end.
(** solids3D.py:336-377; the dictionary as the list of its items, [] for the empty
    list returned for points outside *)
Definition fillpolydata (polybnd : list (Z * Z)) (xlim ylim : Z) : M (list (Z * list Z)) :=
  r <- lift (rectboundarycoords polybnd) ;;
  let minx := fst (fst r) in let miny := snd (fst r) in
  let maxx := fst (snd r) + 1 in let maxy := snd (snd r) + 1 in
  if ((minx >=? 0) && (miny >=? 0)) && ((maxx <=? xlim) && (maxy <=? ylim)) then
    ret (map (fun y => (y, filter (fun x => haspoint polybnd (x, y)) (range minx maxx))) (range miny maxy))
  else
    print Mregionoutofbounds ;;; ret [].
(** [b[j - 1], b[j]] for j in range(1, len(b)) *)
Definition pairs (b : list Z) : list (Z * Z) := combine b (tl b).
(** BITMAPlib.py:6650-6656 *)
Definition fillrow (y : Z) (b : list Z) (color : Z) : M unit :=
  match b with
  | [x] => plotxybit x y color
  | _ => forM (pairs b) (fun s => horiline y (fst s) (snd s) color)
  end.
(** BITMAPlib.py:6636-6656 *)
Definition fillboundary (d : list (Z * list Z)) (color : Z) : M unit :=
  forM d (fun e => fillrow (fst e) (snd e) color).
(** the arguments getmaxx(bmp), getmaxy(bmp) and the two calls, BITMAPlib.py:6675-6677
    and 3909-3913 *)
Definition fillpoints (bnd : list (Z * Z)) (color : Z) : M unit :=
  xlim <- rd getmaxx ;;
  ylim <- rd getmaxy ;;
  d <- fillpolydata bnd xlim ylim ;;
  fillboundary d color.
(** BITMAPlib.py:6659-6677 *)
Definition plotpolyfill (vs : list (Z * Z)) (color : Z) : M unit :=
  bnd <- lift (polyboundary vs) ;;
  fillpoints bnd color.

(** ** Arcs and pie charts *)

(** primitives2D.py:598-630 with mathlib.py:1004-1037.  [sel p] stands for the test
    that the angle of p is between the two given ones, [ends p] for the test that it is
    near one of them.  The angle of the centre itself is a division by zero. *)
Definition arcvert (sel ends : Z * Z -> bool) (x y r : Z) : res (list (Z * Z)) :=
  let! pts := itercircle x y r in
  if haspoint pts (x, y) then Err ZeroDivisionError
  else Ok (flat_map (fun p => if sel p then p :: (if ends p then iterline (x, y) p else []) else []) pts).
(** BITMAPlib.py:3875-3913; showoutline is not used *)
Definition drawarc (sel ends : Z * Z -> bool) (x y r color : Z) (showoutline : bool) (fillcolor : Z) (isfilled : bool) : M unit :=
  av <- lift (arcvert sel ends x y r) ;;
  forM av (fun p => plotxybit (fst p) (snd p) color) ;;;
  if isfilled then fillpoints av fillcolor else ret tt.
(** one item of the data of a pie chart: the number, the colour, whether it is at least
    half of the total (charts.py:51-55), and the tests of [arcvert] for its angles *)
Record pieslice := mkslice { amount : Z; colour : Z; half : bool; within : Z * Z -> bool; atend : Z * Z -> bool }.
(** charts.py:34-58 for integers: the total 0 is a division by zero.  [big] is the index
    of the last item that is at least a half (or of an equal one before it, which has
    the same colour). *)
Definition bigslice (l : list pieslice) : option Z :=
  fold_left (fun acc s => if half s then Some (colour s) else acc) l None.
(** BITMAPlib.py:12211-12238 (the returned lists are left out) *)
Definition piechart (l : list pieslice) (x y r : Z) : M unit :=
  if (fold_left Z.add (map amount l) 0 =? 0) && negb (zlen l =? 0) then raise ZeroDivisionError
  else
    match bigslice l with Some c => circle x y r c true | None => ret tt end ;;;
    forM l (fun s => if half s then ret tt
                     else drawarc (within s) (atend s) x y r (colour s) true (colour s) true).

(** ** Solids *)

(** [l[i]] for an integer i *)
Definition item {A} (l : list A) (i : Z) : res A :=
  let i := if i <? 0 then i + zlen l else i in
  if i <? 0 then Err IndexError
  else match nth_error l (Z.to_nat i) with Some v => Ok v | None => Err IndexError end.
(** BITMAPlib.py:6857-6891.  [col n] stands for the colour mixed for the normal n. *)
Definition plotpolyfillist {N} (col : N -> Z) (polylist : list (list (Z * Z))) (normlist : list N) : M unit :=
  forM (combine (range 0 (zlen polylist)) polylist) (fun ip =>
    n <- lift (item normlist (fst ip)) ;;
    c <- depthcolor (col n) ;;
    plotpolyfill (snd ip) c).
(** BITMAPlib.py:6894-6925 *)
Definition plot3d {N} (col : N -> Z) (sides : list (list (Z * Z)) * list N) (issolid showoutline : bool) (outlinecolor : Z) : M unit :=
  (if issolid then plotpolyfillist col (fst sides) (snd sides) else ret tt) ;;;
  (if showoutline then plotpolylist (fst sides) outlinecolor else ret tt).

(** solids3D.py:720-748 *)
Definition surfacetest (p1 p2 p3 : list Z) : res Z :=
  match p1, p2, p3 with
  | [x1; y1; z1], [x2; y2; z2], [x3; y3; z3] =>
      Ok (x1 * (y3 * z2 - y2 * z3) - x2 * (y3 * z1 - y1 * z3) - x3 * (y1 * z2 - y2 * z1))
  | _, _, _ => Err ValueError
  end.
(** solids3D.py:415-447 for integer coordinates; points of the projection are pairs *)
Definition gensides (plist : list (list Z)) (slist : list (Z * Z)) (transvect : Z * Z) (sides : list (list Z))
    : res (list (list (Z * Z)) * list (list Z)) :=
  fold_left (fun r sidepts =>
      let! acc := r in
      match sidepts with
      | s0 :: s1 :: s2 :: _ =>
          let! u := item plist s0 in let! v := item plist s1 in let! w := item plist s2 in
          let! t := surfacetest u v w in
          if t <=? 0 then
            let! poly := mapR (fun i => let! p := item slist i in Ok (fst p + fst transvect, snd p + snd transvect)) sidepts in
            Ok (fst acc ++ [poly], snd acc ++ [getnormvec u v w])
          else Ok acc
      | _ => Err ValueError
      end) sides (Ok ([], [])).
(** solids3D.py:314-329, the first list of perspective, for integers *)
Definition rotate (rotvec : (Z * Z) * (Z * Z) * (Z * Z)) (dispvec : Z * Z * Z) (p : Z * Z * Z) : Z * Z * Z :=
  let '((sroll, croll), (spitch, cpitch), (syaw, cyaw)) := rotvec in
  let '(dx, dy, dz) := dispvec in
  let '(px, py, pz) := p in
  let x1 := - cyaw * px - syaw * pz in
  let y1 := croll * py - sroll * x1 in
  let z1 := - syaw * px + cyaw * pz in
  let x := croll * x1 + sroll * py in
  let y := spitch * z1 + cpitch * y1 in
  let z := cpitch * z1 - spitch * y1 in
  (x + dx, y + dy, z + dz).
(** BITMAPlib.py:6928-6974.  [rotated] and [projected] stand for the two lists
    perspective (solids3D.py:287-332) returns, with integer coordinates. *)
Definition plot3Dsolid (col : list Z -> Z) (rotated : list (list Z)) (projected : list (Z * Z)) (surfaces : list (list Z))
    (issolid showoutline : bool) (outlinecolor : Z) (transvect : Z * Z) : M unit :=
  sides <- lift (gensides rotated projected transvect surfaces) ;;
  plot3d col sides issolid showoutline outlinecolor.

(** solids3D.py:47-79, 203-212, 245-264 *)
Definition tetrahedra : list (list Z) := [[2; 1; 0]; [2; 3; 1]; [0; 3; 2]; [3; 0; 1]].
Definition cube : list (list Z) := [[1; 2; 3; 0]; [5; 6; 7; 4]; [0; 3; 6; 5]; [4; 7; 2; 1]; [4; 1; 0; 5]; [2; 7; 6; 3]].
Definition hexahedra : list (list Z) := [[2; 3; 1]; [0; 3; 2]; [3; 0; 1]; [1; 4; 2]; [2; 4; 0]; [1; 0; 4]].
Definition octahedra : list (list Z) :=
  [[1; 2; 0]; [4; 1; 0]; [3; 4; 0]; [2; 3; 0]; [2; 1; 5]; [1; 4; 5]; [4; 3; 5]; [3; 2; 5]].
Definition decahedra : list (list Z) :=
  [[1; 2; 0]; [5; 1; 0]; [3; 4; 0]; [2; 3; 0]; [4; 5; 0]; [2; 1; 6]; [1; 5; 6]; [4; 3; 6]; [3; 2; 6]; [5; 4; 6]].
Definition icosahedra : list (list Z) :=
  [[1; 2; 0]; [5; 1; 0]; [3; 4; 0]; [2; 3; 0]; [4; 5; 0]; [2; 1; 6]; [1; 5; 10]; [4; 3; 8]; [3; 2; 7]; [5; 4; 9];
   [6; 7; 2]; [7; 8; 3]; [8; 9; 4]; [9; 10; 5]; [10; 6; 1]; [7; 6; 11]; [9; 8; 11]; [8; 7; 11]; [10; 9; 11]; [6; 10; 11]].
(** solids3D.py:105-127 *)
Definition cubevert (x : Z) : list (list Z) :=
  [[0; 0; 0]; [0; x; 0]; [x; x; 0]; [x; 0; 0]; [0; x; x]; [0; 0; x]; [x; 0; x]; [x; x; x]].
(** solids3D.py:155-176 for an even length 2 * halfx *)
Definition octahedravert (halfx : Z) : list (list Z) :=
  let x := 2 * halfx in
  [[halfx; halfx; halfx]; [0; 0; 0]; [x; 0; 0]; [x; x; 0]; [0; x; 0]; [halfx; halfx; - halfx]].

(** solids3D.py:82-102 and 130-152 for an even length 2 * halfx; y and z stand for the
    two roots *)
Definition tetrahedravert (halfx y z : Z) : list (list Z) :=
  [[0; 0; 0]; [halfx; y; 0]; [2 * halfx; 0; 0]; [halfx; halfx; z]].
Definition hexahedravert (halfx y z : Z) : list (list Z) :=
  [[0; 0; 0]; [halfx; y; 0]; [2 * halfx; 0; 0]; [halfx; halfx; z]; [halfx; halfx; - z]].

(** range(a, b, k) *)
Definition rangeby (a b k : Z) : res (list Z) :=
  if k =? 0 then Err ValueError
  else if 0 <? k then Ok (range_step a b k)
  else Ok (map (fun i => a + i * k) (range 0 (stepcount b a (- k)))).
(** solids3D.py:591-639, the surfaces: [top] in reverse order, the sides, [bottom]; the
    vertices are numbered, their coordinates are left out *)
Definition cylindersurface (deganglestep : Z) : res (list (list Z)) :=
  let! thetas := rangeby 0 (360 + 2 * deganglestep) deganglestep in
  let is := map (fun k => 2 * k) (range 0 (zlen thetas)) in
  Ok ([rev is] ++ map (fun i => [i; i + 1; i - 2 + 1; i - 2]) (filter (fun i => 2 <? i) is) ++ [map (fun i => i + 1) is]).
(** solids3D.py:642-680, the surfaces *)
Definition conesurface (deganglestep : Z) : res (list (list Z)) :=
  let! thetas := rangeby 0 (360 + 2 * deganglestep) deganglestep in
  let is := range 1 (1 + zlen thetas) in
  Ok (map (fun i => [0; i; i - 1]) (filter (fun i => 2 <? i) is) ++ [is]).

(** solids3D.py:490-514: the dictionary as the list of its items; the index of the first
    point equal to p *)
Fixpoint indexof {A} (eqb : A -> A -> bool) (l : list A) (a : A) : Z :=
  match l with [] => 0 | b :: t => if eqb b a then 0 else 1 + indexof eqb t a end.
Definition point3_eqb (p q : Z * Z * Z) : bool :=
  ((fst (fst p) =? fst (fst q)) && (snd (fst p) =? snd (fst q))) && (snd p =? snd q).
Fixpoint addlevel (z i : Z) (zord : list (Z * list Z)) : list (Z * list Z) :=
  match zord with
  | [] => [(z, [i])]
  | (z', l) :: t => if z' =? z then (z', l ++ [i]) :: t else (z', l) :: addlevel z i t
  end.
Definition zlevelcoords (vs : list (Z * Z * Z)) : list (Z * list Z) :=
  fold_left (fun zord p => addlevel (snd p) (indexof point3_eqb vs p) zord) vs [].
(** the loop [for i in range(lpts): j = 0 if i == maxp else i + 1] *)
Definition ringloop {A} (lpts : Z) (f : Z -> Z -> res A) : res (list A) :=
  mapR (fun i => f i (if i =? lpts - 1 then 0 else i + 1)) (range 0 lpts).
(** solids3D.py:517-561; [lv] are the values vl[zl[0]], vl[zl[1]], ... *)
Definition genspheresurfaces (lv : list (list Z)) : res (list (list Z)) :=
  let levels := zlen lv - 1 in
  let! l0 := item lv 0 in let! northpole := item l0 0 in
  let! ln := item lv levels in let! southpole := item ln 0 in
  let! npts := item lv 1 in
  let! spts := item lv (levels - 1) in
  let! caps := ringloop (zlen npts) (fun i j =>
    let! nj := item npts j in let! ni := item npts i in
    let! si := item spts i in let! sj := item spts j in
    Ok [[northpole; nj; ni]; [southpole; si; sj]]) in
  let! bands :=
    (if levels >? 2 then
       mapR (fun k =>
         let! pts := item lv k in
         let! adj := item lv (k + 1) in
         ringloop (zlen pts) (fun i j =>
           if zlen adj =? 0 then Err ZeroDivisionError
           else
             let! aj := item adj (j mod zlen adj) in let! ai := item adj (i mod zlen adj) in
             let! pi := item pts i in let! pj := item pts j in
             Ok [aj; ai; pi; pj])) (range 1 (levels - 1))
     else Ok []) in
  Ok (concat caps ++ concat bands).

(** solids3D.py:683-717 *)
Definition surfplot3Dvertandsurface (x1 y1 x2 y2 step : Z) (fnxy : Z -> Z -> Z) : res (list (Z * Z * Z) * list (list Z)) :=
  let! ys := rangeby y1 y2 step in
  let! xs := rangeby x1 x2 step in
  let vlist := flat_map (fun y => map (fun x => (x, y, fnxy x y)) xs) ys in
  let dx := Z.abs (x2 - x1) / step in
  let dx1 := dx - 1 in
  let vl := zlen vlist in
  let! surf := mapR (fun v =>
    let i := indexof point3_eqb vlist v in
    let idx := i + dx in
    let idx1 := idx + 1 in
    if vl - idx1 >=? 0 then
      if dx =? 0 then Err ZeroDivisionError
      else Ok (if i mod dx <? dx1 then [[idx; idx1; i + 1; i]] else [])
    else Ok []) vlist in
  Ok (vlist, concat surf).
