(** Model of palettes computed from colour factors, of fractals, attractors and
    recursive curves.  Paths are relative to /repo/pythonbmp.  Everything computed
    with floating point or random numbers is an arbitrary function: the value of a
    fractal at a pixel, round(factor * luminosity), colormix, lerp. *)
From Coq Require Import ZArith List Bool String.
From Verif Require Import PyBase Bmp Region Geometry Draw Circle Shapes Files Wrappers.
Import ListNotations.
Open Scope Z_scope.
Open Scope py_scope.

(** ** Palettes *)

(** [range(0, 256, inc)] of colors.py:410-412, 448-450, 487-489, 526-528, 565-567 *)
Definition palsteps (bits : Z) : res (list Z) :=
  pyrange3 0 256 (Z.shiftr 256 bits + (if bits =? 4 then 1 else if bits =? 1 then 127 else 0)).
(** colors.py:385-417.  [rnd c] stands for
    [round(r * c), round(g * c), round(b * c)]. *)
Definition monochromepal (rnd : Z -> Z * Z * Z) (bits : Z) : res (list (Z * Z * Z)) :=
  let! cs := palsteps bits in Ok (map rnd cs).
(** colors.py:420-455 *)
Definition monoshiftablepal (rnd : Z -> Z * Z * Z) (bits mult shift : Z) : res (list (Z * Z * Z)) :=
  let! cs := palsteps bits in Ok (map (fun c => rnd ((c * mult + shift) mod 256)) cs).
(** colors.py:458-494 *)
Definition monoinverseshiftablepal (rnd : Z -> Z * Z * Z) (bits mult shift : Z) : res (list (Z * Z * Z)) :=
  let! cs := palsteps bits in Ok (map (fun c => rnd (((255 - c) * mult + shift) mod 256)) cs).
(** colors.py:497-533 *)
Definition monoinverseshiftableBGRpal (rnd : Z -> Z * Z * Z) (bits mult shift : Z) : res (list (Z * Z * Z)) :=
  let! cs := palsteps bits in
  Ok (map (fun c => let '(r, g, b) := rnd (((255 - c) * mult + shift) mod 256) in (b, g, r)) cs).
(** colors.py:536-573 *)
Definition monoinverseshiftableBGRApal (rnd : Z -> Z * Z * Z) (bits mult shift : Z) : res (list (list Z)) :=
  let! cs := palsteps bits in
  Ok (map (fun c => let '(r, g, b) := rnd (((255 - c) * mult + shift) mod 256) in [b; g; r; 0]) cs).

(** [l[k] = a] for 0 <= k < len(l) *)
Fixpoint put_nth {A} (k : nat) (a : A) (l : list A) : list A :=
  match l, k with
  | [], _ => []
  | _ :: t, O => a :: t
  | x :: t, S k => x :: put_nth k a t
  end.
(** colors.py:1087-1114.  [mix i n] stands for the rounded colour at i / n of the way
    from c1 to c2; (r, g, b) = int2RGB(c1). *)
Definition dichromaticpal (mix : Z -> Z -> Z * Z * Z) (c1 n mult shift : Z) : list (Z * Z * Z) :=
  fold_left (fun v i => put_nth (Z.to_nat (((n - i) * mult + shift) mod n)) (mix i n) v)
            (range 0 n) (repeat (int2RGB c1) (Z.to_nat n)).
(** colors.py:1117-1130 *)
Definition RGB2BGRAlist (l : list (Z * Z * Z)) : list (list Z) :=
  map (fun p => let '(r, g, b) := p in [b; g; r; 0]) l.

(** BITMAPlib.py:1345-1363 *)
Definition setBMP2monochrome (rnd : Z -> Z * Z * Z) : M (list (Z * Z * Z)) :=
  bits <- rd getclrbits ;;
  newpal <- lift (monochromepal rnd bits) ;;
  setbmppal newpal ;;; ret newpal.
(** BITMAPlib.py:1366-1385 *)
Definition setBMP2invshiftedmonochrome (rnd : Z -> Z * Z * Z) (mult shift : Z) : M (list (list Z)) :=
  bits <- rd getclrbits ;;
  newpal <- lift (monoinverseshiftableBGRApal rnd bits mult shift) ;;
  setbmppalwithBGRAlist newpal ;;; ret newpal.
(** BITMAPlib.py:1388-1404 *)
Definition setBMP2dichromaticpal (mix : Z -> Z -> Z * Z * Z) (c1 : Z) : M (list (list Z)) :=
  m <- rd getmaxcolors ;;
  let newpal := RGB2BGRAlist (dichromaticpal mix c1 m 3 0) in
  setbmppalwithBGRAlist newpal ;;; ret newpal.

(** The argument called rgbfactors: three factors, two colours, or a list of another
    length. *)
Inductive factors :=
| Three (rnd : Z -> Z * Z * Z) (mix : Z -> Z)
| Two (mix : Z -> Z -> Z * Z * Z) (c1 : Z)
| Others.
Definition three (f : factors) : bool := match f with Three _ _ => true | _ => false end.
(** colors.py:90-115: [mix lum] of three factors; the unpacking of a list of another
    length raises ValueError *)
Definition colormix (f : factors) (lum : Z) : res Z :=
  match f with Three _ mix => Ok (mix lum) | _ => Err ValueError end.
(** the palette set in BITMAPlib.py:10726-10731 and 11322-11328 *)
Definition factorpal (f : factors) : M unit :=
  match f with
  | Three rnd _ => _ <- setBMP2invshiftedmonochrome rnd 20 0 ;; ret tt
  | Two mix c1 => _ <- setBMP2dichromaticpal mix c1 ;; ret tt
  | Others => ret tt
  end.
(** BITMAPlib.py:10708-10732 *)
Definition newBMPwithPAL (x y bitdepth : Z) (f : factors) : F (list Z) :=
  bmp <~ flift (newBMP x y bitdepth) ;;
  if bitdepth <? 24 then r <~ callM bmp (factorpal f) ;; fret (snd r) else fret bmp.

(** ** Fractals *)

(** The loops of fractals.py:877-902 and 927-930, 959-962: dp and dq are quotients by
    the width and the height. *)
Definition fractalpoints (x1 y1 x2 y2 : Z) : res (list (Z * Z)) :=
  let '(x1, y1, x2, y2) := sortrecpoints x1 y1 x2 y2 in
  if (x2 - x1 =? 0) || (y2 - y1 =? 0) then Err ZeroDivisionError
  else Ok (flat_map (fun y => map (fun x => (x, y)) (range x1 x2)) (range y1 y2)).

(** the bodies of the loops in BITMAPlib.py:9124-9145, 9182-9203 *)
Definition fractalpoint (f : factors) (bits maxcolors x y c : Z) : M unit :=
  if bits =? 24 then
    color <- lift (colormix f (((255 - c) * 20) mod 256)) ;; plotxybit x y color
  else if (bits =? 8) && three f then s <- rd (o8bmofhd x y) ;; seti s c
  else if (bits =? 4) && three f then plotxybit x y c
  else if bits =? 1 then plotxybit x y (c mod maxcolors)
  else plotxybit x y ((maxcolors - 1 - c) mod maxcolors).

(** BITMAPlib.py:9092-9145, 9148-9203.  [val x y] is the value of the fractal at the
    point that belongs to the pixel (the iterators of fractals.py:905-930, 933-962,
    965-1807 call itermultifractal or itermultifractalcomplexpar with one function of
    fractals.py).  Also
    mandelbrot, multibrot, multicircle, multihyperbola, astroidfractal,
    lemniscatefractal, xorfractal, xordivfractal, tetrationfractal, sinjulia, cosjulia,
    spiraljulia, lambdafractal (9259-9382, 9417-9702), julia, multijulia, ngonfractal,
    multibiomorphvariant, multibiomorphphasevariant, multibiomorph, multisinbiomorph,
    multicosbiomorph, multicoshbiomorph, multisinhbiomorph, multiexpbiomorph,
    multi2ndtetrationbiomorph, multizconjugatebiomorph, multitanbiomorph,
    multitanhbiomorph (9988-10508), tricorn, multicorn, barnsleytree, marekdragon
    (10511-10638), which pass their arguments on.  Simplified: values are integers,
    which leaves out multisuperellipse (9385-9414). *)
Definition plotmultifractal (val : Z -> Z -> res Z) (f : factors) (x1 y1 x2 y2 : Z) : M unit :=
  maxcolors <- rd getmaxcolors ;;
  bits <- geti bmpcolorbits ;;
  pts <- lift (fractalpoints x1 y1 x2 y2) ;;
  forM pts (fun p => c <- lift (val (fst p) (snd p)) ;; fractalpoint f bits maxcolors (fst p) (snd p) c).

(** The loop [for i in range(n): z = step(z); if out(z): return found(z, i)] followed by
    [return maxiter]. *)
Fixpoint escape_from {S} (step : S -> res S) (out : S -> bool) (found : S -> Z -> res Z)
    (n : nat) (i : Z) (z : S) (maxiter : Z) : res Z :=
  match n with
  | O => Ok maxiter
  | Datatypes.S n =>
      let! z := step z in
      if out z then found z i else escape_from step out found n (i + 1) z maxiter
  end.
(** fractals.py:223-241, 244-262, 265-285, 430-451, 810-829, 832-850: spiraljulia,
    lambdafn, multibrot, multijulia, multicorn, barnsleytree.  785-807: ngonfunc, whose
    test for 0 before the step makes the step stay at a value that is out. *)
Definition escapetime {S} (step : S -> res S) (out : S -> bool) (z : S) (maxiter : Z) : res Z :=
  escape_from step out (fun _ i => Ok i) (Z.to_nat maxiter) 0 z maxiter.
(** Python's % on integers *)
Definition pymod (a b : Z) : res Z := if b =? 0 then Err ZeroDivisionError else Ok (a mod b).
(** fractals.py:152-174 (lim = d), 177-197, 200-220, 853-874: tetrationfn, sinjulia,
    cosjulia, marekdragon *)
Definition limitedescape {S} (step : S -> res S) (out : S -> bool) (z : S) (lim maxiter : Z) : res Z :=
  escape_from step out (fun _ i => pymod i maxiter) (Z.to_nat lim) 0 z maxiter.
(** fractals.py:454-480: one large coordinate ends the loop, two large ones give the
    number of the iteration.  Used by 483-755. *)
Definition biomorphfunc {S} (step : S -> res S) (re im : S -> bool) (z : S) (maxiter : Z) : res Z :=
  escape_from step (fun z => re z || im z)
    (fun z i => if re z && im z then Ok i else Ok maxiter) (Z.to_nat maxiter) 0 z maxiter.
(** fractals.py:758-782; [size] is round(abs(z)) *)
Definition multibiomorphvariant {S} (step : S -> res S) (out : S -> bool) (size : S -> Z) (z : S) (maxiter : Z) : res Z :=
  escape_from step out (fun z _ => pymod (size z) maxiter) (Z.to_nat maxiter) 0 z maxiter.
(** fractals.py:288-319, 339-376: multicircle, multihyperbola, astroid, lemniscate;
    [v] is the rounded value *)
Definition modvalue (v maxiter : Z) : res Z := pymod v maxiter.
(** fractals.py:379-410; P and Q are int(P) and int(Q) *)
Definition xorfn (P Q d maxiter : Z) : res Z :=
  let! r := pymod (Z.lxor P Q) d in pymod r maxiter.
Definition xordivfn (P Q d maxiter : Z) : res Z :=
  if d =? 0 then Err ZeroDivisionError else pymod (Z.lxor P Q / d) maxiter.

(** The first root of the list near to rt: [for tst_rt in roots: if abs(tst_rt - rt) < tol]
    with [break]. *)
Fixpoint nearroot {R} (near : R -> R -> bool) (rt : R) (roots : list R) : option nat :=
  match roots with
  | [] => None
  | t :: l => if near t rt then Some O else match nearroot near rt l with Some k => Some (S k) | None => None end
  end.
(** BITMAPlib.py:9206-9256 (iternewtonsfractal: fractals.py:1852-1877).  [val x y] is
    what newtonmethod (mathlib.py:1435-1469) returns: None, or a root and the number of
    iterations.  RGBfactorslist has n entries; [mix k lum] is colormix with the k-th one.
    Simplified: roots.index(rt) finds rt where it has just been found or appended. *)
Definition newtonsfractal {R} (near : R -> R -> bool) (val : Z -> Z -> res (option (R * Z)))
    (n : Z) (mix : Z -> Z -> Z) (x1 y1 x2 y2 : Z) : M (list R) :=
  maxcolors <- rd getmaxcolors ;;
  pts <- lift (fractalpoints x1 y1 x2 y2) ;;
  foldM (fun roots p =>
    let '(x, y) := p in
    v <- lift (val x y) ;;
    match v with
    | None => ret roots
    | Some (rt, c) =>
        let '(roots, k) := match nearroot near rt roots with
                           | Some k => (roots, Z.of_nat k)
                           | None => (roots ++ [rt], zlen roots)
                           end in
        bits <- geti bmpcolorbits ;;
        (if bits =? 24 then
           if k <? n then plotxybit x y (mix k (((255 - c) * 20) mod 256)) else raise IndexError
         else plotxybit x y (maxcolors - 1 - c mod maxcolors)) ;;;
        ret roots
    end) [] pts.

(** ** Fractals in files *)

(** BITMAPlib.py:10735-10772, 10775-10814, 11285-11332, 11335-11376 with the functions
    of BITMAPlib.py:9705-9985, 10817-11282, 11379-12011 that call them. *)
Definition savefractal2file (val : Z -> Z -> res Z) (f : factors) (file : string) (x y bitdepth : Z) : F unit :=
  functimer (
    bmp <~ newBMPwithPAL x y bitdepth f ;;
    r <~ callM bmp (plotmultifractal val f 0 0 x y) ;;
    saveBMP file (Some (snd r))).
(** BITMAPlib.py:12014-12053 by way of 11285-11332.  The palette functions get the list
    of lists of factors: three lists cannot be rounded, two are no colours (TypeError). *)
Definition savenewtonsfractal2file {R} (near : R -> R -> bool) (val : Z -> Z -> res (option (R * Z)))
    (n : Z) (mix : Z -> Z -> Z) (file : string) (x y bitdepth : Z) : F unit :=
  functimer (
    bmp <~ flift (newBMP x y bitdepth) ;;
    _ <~ (if (bitdepth <? 24) && ((n =? 3) || (n =? 2)) then fraise TypeError else fret tt) ;;
    r <~ callM bmp (newtonsfractal near val n mix 0 0 x y) ;;
    saveBMP file (Some (snd r))).

(** ** Points from iterated functions, flowers *)

(** primitives2D.py:772-790 *)
Definition isinrectbnd (x y xmin ymin xmax ymax : Z) : bool :=
  ((x <? xmax) && (y <? ymax)) && ((x >? xmin) && (y >? ymin)).
(** BITMAPlib.py:10641-10671 with iterIFS, fractals.py:107-149.  [pts] are the points
    (px, py) the random process computes. *)
Definition IFS (pts : list (Z * Z)) (x1 y1 x2 y2 color : Z) : M unit :=
  let '(x1, y1, x2, y2) := sortrecpoints x1 y1 x2 y2 in
  forM (filter (fun p => isinrectbnd (fst p) (snd p) x1 y1 x2 y2) pts)
       (fun p => plotxybit (fst p) (snd p) color).
(** BITMAPlib.py:13128-13150 *)
Definition fern (pts : list (Z * Z)) (x1 y1 x2 y2 color : Z) : M (option unit) :=
  entirerectinboundary x1 y1 x2 y2 (IFS pts x1 y1 x2 y2 color).

(** BITMAPlib.py:10674-10705.  [pts] are the points of iterflower
    (primitives2D.py:1230-1251) and [col x y] is the result of colormix. *)
Definition plotflower (pts : list (Z * Z)) (col : Z -> Z -> Z) : M unit :=
  maxcolors <- rd getmaxcolors ;;
  forM pts (fun p =>
    let '(x, y) := p in
    bits <- geti bmpcolorbits ;;
    plotxybit x y (if bits =? 24 then col x y else maxcolors - 1 - col x y mod maxcolors)).
(** BITMAPlib.py:12147-12177: [pts] and [col] for every radius *)
Definition plotfilledflower (pts : Z -> list (Z * Z)) (col : Z -> Z -> Z -> Z) (r : Z) : M unit :=
  forM (map (fun i => r - i) (range 0 (r - 2))) (fun nr => plotflower (pts nr) (col nr)).

(** ** Attractors *)

(** mathlib.py:1605-1615, 1618-1636, 1639-1658.  [cells] are the pairs (column, row) of
    bins; the float quotients are never negative, so an index is not taken from the end. *)
Definition histogram2D (cells : list (Z * Z)) (xbins ybins : Z) : res (list (list Z)) :=
  fold_left (fun h p =>
    let! h := h in
    let '(x, y) := p in
    if ((0 <=? x) && (x <? xbins)) && ((0 <=? y) && (y <? ybins)) then
      Ok (put_nth (Z.to_nat y)
            (put_nth (Z.to_nat x) (getz (nth (Z.to_nat y) h []) x + 1) (nth (Z.to_nat y) h [])) h)
    else Err IndexError)
    cells (Ok (map (fun _ => map (fun _ => 0) (range 0 xbins)) (range 0 ybins))).
Definition minlist (l : list Z) : res Z :=
  match l with [] => Err ValueError | a :: t => Ok (fold_left Z.min t a) end.
Definition maxlist (l : list Z) : res Z :=
  match l with [] => Err ValueError | a :: t => Ok (fold_left Z.max t a) end.
(** BITMAPlib.py:12640-12661, 12664-12685.  [scale m d v] is
    int(v * ((m - 1) / d)).  Also 12688-12866, which compute the points. *)
Definition plotattractor (scale : Z -> Z -> Z -> Z) (cells : list (Z * Z)) (x y bits : Z) : F (list Z) :=
  h <~ flift (histogram2D cells x y) ;;
  minval <~ flift (minlist (List.concat h)) ;;
  bmp <~ flift (newBMP x y bits) ;;
  m <~ flift (getmaxcolors bmp) ;;
  maxval <~ flift (maxlist (List.concat h)) ;;
  if maxval - minval =? 0 then fraise ZeroDivisionError else
  r <~ callM bmp (
    forM (range 0 y) (fun q => forM (range 0 x) (fun p =>
      plotxybit p q (scale m (maxval - minval) (getz (nth (Z.to_nat q) h []) p - minval))))) ;;
  fret (snd r).
(** BITMAPlib.py:12868-13069 *)
Definition saveattractor2file (scale : Z -> Z -> Z -> Z) (cells : list (Z * Z)) (file : string) (x y bits : Z) : F unit :=
  functimer (
    bmp <~ plotattractor scale cells x y bits ;;
    saveBMP file (Some bmp)).

(** ** Hilbert's and Koch's curves *)

(** fractals.py:1810-1849.  The coordinates are halved n times and once more at the end;
    here they are integers in units of 2^-(n+1), for which floats are exact as long as
    they fit in 53 bits.  [roundunit n] rounds such a number to the nearest integer, ties
    to even. *)
Definition roundunit (n : nat) (v : Z) : Z :=
  let d := 2 ^ (Z.of_nat n + 1) in
  let q := v / d in
  let r := v mod d in
  if 2 * r <? d then q else if 2 * r >? d then q + 1 else if Z.even q then q else q + 1.
Fixpoint hilbert_units (n : nat) (u0 u1 v0 v1 v2 v3 : Z) : list (Z * Z) :=
  match n with
  | O => [(u0 + (v0 + v2) / 2, u1 + (v1 + v3) / 2)]
  | S n =>
      let i := v2 in let j := v3 in
      let v0 := v0 / 2 in let v1 := v1 / 2 in let v2 := v2 / 2 in let v3 := v3 / 2 in
      hilbert_units n u0 u1 v2 v3 v0 v1 ++
      hilbert_units n (u0 + v0) (u1 + v1) v0 v1 v2 v3 ++
      hilbert_units n (u0 + (v0 + v2)) (u1 + (v1 + v3)) v0 v1 v2 v3 ++
      hilbert_units n (u0 + (v0 + i)) (u1 + (v1 + j)) (- v2) (- v3) (- v0) (- v1)
  end.
Definition hilbertvert (u : Z * Z) (v : Z * Z * Z * Z) (n : nat) : list (Z * Z) :=
  let d := 2 ^ (Z.of_nat n + 1) in
  let '(v0, v1, v2, v3) := v in
  map (fun p => (roundunit n (fst p), roundunit n (snd p)))
      (hilbert_units n (fst u * d) (snd u * d) (v0 * d) (v1 * d) (v2 * d) (v3 * d)).
(** BITMAPlib.py:12056-12098 *)
Definition savehilbertcurve2file (file : string) (x y : Z) (order : nat)
    (bitdepth color backgroundcolor penradius orientation : Z) : F unit :=
  functimer (
    bmp <~ flift (newBMP x y bitdepth) ;;
    let x := x - 1 in
    let y := y - 1 in
    r <~ callM bmp (
      (if backgroundcolor >? 0 then _ <- filledrect 0 0 x y backgroundcolor ;; ret tt else ret tt) ;;;
      let o := if orientation =? 1 then (0, x, y, 0) else (x, 0, 0, y) in
      plotlines (hilbertvert (0, 0) o order) color penradius) ;;
    saveBMP file (Some (snd r))).

(** fractals.py:1910-1942.  Points of any type; [koch u v] (fractals.py:1880-1907)
    computes the three points between u and v. *)
Definition kochcurvevert {P} (koch : P -> P -> P * P * P) (zero u v : P) (n : nat) : list P :=
  let size := (4 ^ n)%nat in
  let p := put_nth size v (put_nth 0 u (repeat zero (size + 1))) in
  fst (fold_left (fun pl _ =>
    let '(p, l) := pl in
    let seg := (size / l)%nat in
    let j := (l / 4)%nat in
    let p := fold_left (fun p s =>
      let i := (s * l)%nat in
      let '(a, b, c) := koch (nth i p zero) (nth (i + l) p zero) in
      put_nth (i + j * 3) c (put_nth (i + l / 2) b (put_nth (i + j) a p)))
      (seq 0 seg) p in
    (p, j)) (seq 0 n) (p, size)).
(** fractals.py:1945-1966; the corners come from regpolygonvert *)
Definition kochsnowflakevert {P} (koch : P -> P -> P * P * P) (zero a b c : P) (n : nat) : list P :=
  kochcurvevert koch zero a b n ++ kochcurvevert koch zero b c n ++ kochcurvevert koch zero c a n.
