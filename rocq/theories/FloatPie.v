(** Arcs and pie charts drawn from angles with the rounding of floats; [mac] stands for the arccosine of the C library.
    Paths are relative to /repo/pythonbmp. *)
From Coq Require Import ZArith Reals List Bool.
From Verif Require Import PyBase Bmp Region Geometry Draw Circle Shapes Edges Solids Coords Floats Floats2 FloatDirs.
Import ListNotations.
Open Scope Z_scope.
Open Scope py_scope.

(** BITMAPlib.py:3875-3913; showoutline is not used *)
Definition fdrawarc mac (x y r : Z) (startdegangle enddegangle : R) (color : Z) (showoutline : bool) (fillcolor : Z) (isfilled : bool) : M unit :=
  av <- lift (farcvertangles mac x y r startdegangle enddegangle) ;;
  forM av (fun p => plotxybit (fst p) (snd p) color) ;;;
  if isfilled then fillpoints av fillcolor else ret tt.
(** BITMAPlib.py:12211-12238 for integer amounts (the returned lists are left out) *)
Definition fpiechart mac (x y r : Z) (dataandcolorlist : list (Z * Z)) : M unit :=
  v <- lift (fgenpiechartdata dataandcolorlist) ;;
  (if snd v >? -1 then a <- lift (item (fst v) (snd v)) ;; circle x y r (pi_colour a) true else ret tt) ;;;
  forM (fst v) (fun a =>
    if rlt (pi_percent a) 50
    then fdrawarc mac x y r (pi_start a) (pi_end a) (pi_colour a) true (pi_colour a) true
    else ret tt).
