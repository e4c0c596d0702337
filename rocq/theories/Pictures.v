(** BITMAPlib.py: the functions that paint one fractal each.  Coordinates are real numbers and
    exponents integers, as in [Escape].  Paths are relative to /repo/pythonbmp. *)
From Coq Require Import ZArith Reals List Bool.
From Verif Require Import PyBase Bmp Region Geometry MathLib Fractal Coords Sweeps Cplx Escape.
Import ListNotations.
Open Scope Z_scope.
Open Scope py_scope.

(** fractals.py:758-782 *)
Definition variant (P Q : R) (c : C) (d maxiter : Z) (a : R) : res Z :=
  multibiomorphvariant (fun z => let! p := cpow z d in Ok (cadd p c)) (fun z => rlt a (Rabs (re z)) || rlt a (Rabs (im z)))
    (fun z => rround (cabs z)) (P, Q) maxiter.
(** fractals.py:508-530; [pw z] stands for z ** (d + abs(phase(z))) *)
Definition phasevariant (pw : C -> C) (P Q : R) (c : C) (maxiter : Z) (a : R) : res Z :=
  biomorph (fun z => Ok (cadd (pw z) c)) P Q a maxiter.
(** fractals.py:708-730; [zz z] stands for z ** z *)
Definition multi2ndtetration (zz : C -> C) (P Q : R) (c : C) (d maxiter : Z) (a : R) : res Z :=
  biomorph (biomorphstep zz d c) P Q a maxiter.
(** fractals.py:152-174; [zz z] stands for z ** z, None for OverflowError *)
Fixpoint tetration_from (zz : C -> option C) (n : nat) (i : Z) (z : C) (y : R) (d maxiter : Z) : res Z :=
  match n with
  | O => Ok maxiter
  | S n =>
      match zz z with
      | None => pymod i maxiter
      | Some z =>
          let y := (y + im z)%R in
          if rlt (IZR d) (Rabs y) then pymod i maxiter else tetration_from zz n (i + 1) z y d maxiter
      end
  end.
Definition tetrationfn (zz : C -> option C) (P Q : R) (d maxiter : Z) : res Z :=
  tetration_from zz (Z.to_nat d) 0 (P, Q) 0 d maxiter.
(** fractals.py:379-410 *)
Definition xorat (P Q : R) (d maxiter : Z) : res Z := xorfn (rtrunc P) (rtrunc Q) d maxiter.
Definition xordivat (P Q : R) (d maxiter : Z) : res Z := xordivfn (rtrunc P) (rtrunc Q) d maxiter.

(** The arguments that all of the functions below have. *)
Record canvas := mkcanvas { cx1 : Z; cy1 : Z; cx2 : Z; cy2 : Z; cdomain : R * R * R * R; cfactors : factors; cmaxiter : Z }.
(** BITMAPlib.py:9092-9145 and 9148-9203, with the iterators of fractals.py:905-962 *)
Definition draw (k : canvas) (func : R -> R -> Z -> res Z) : M unit :=
  plotmultifractal (valueat (cx1 k) (cy1 k) (cx2 k) (cy2 k) (fun P Q => func P Q (cmaxiter k)) (cdomain k)) (cfactors k) (cx1 k) (cy1 k) (cx2 k) (cy2 k).
(** BITMAPlib.py:9289-9318 with fractals.py:1036-1058 *)
Definition multibrotbmp k d : M unit := draw k (fun P Q m => multibrot P Q d m).
(** BITMAPlib.py:9321-9350 with fractals.py:1061-1082 *)
Definition multicirclebmp k d : M unit := draw k (fun P Q m => multicircle P Q d m).
(** BITMAPlib.py:9353-9382 with fractals.py:1085-1106 *)
Definition multihyperbolabmp k d : M unit := draw k (fun P Q m => multihyperbola P Q d m).
(** BITMAPlib.py:9417-9446 with fractals.py:1133-1154 *)
Definition astroidbmp k r : M unit := draw k (fun P Q m => astroid P Q r m).
(** BITMAPlib.py:9449-9478 with fractals.py:1157-1178 *)
Definition lemniscatebmp k r : M unit := draw k (fun P Q m => lemniscate P Q r m).
(** BITMAPlib.py:9481-9510 with fractals.py:1206-1228 *)
Definition xorbmp k d : M unit := draw k (fun P Q m => xorat P Q d m).
(** BITMAPlib.py:9513-9542 with fractals.py:1231-1253 *)
Definition xordivbmp k d : M unit := draw k (fun P Q m => xordivat P Q d m).
(** BITMAPlib.py:9545-9574 with fractals.py:1181-1203 *)
Definition tetrationbmp zz k d : M unit := draw k (fun P Q m => tetrationfn zz P Q d m).
(** BITMAPlib.py:9577-9606 with fractals.py:1256-1278 *)
Definition sinjuliabmp k c : M unit := draw k (fun P Q m => sinjulia P Q c m 50).
(** BITMAPlib.py:9609-9638 with fractals.py:1281-1303 *)
Definition cosjuliabmp k c : M unit := draw k (fun P Q m => cosjulia P Q c m 50).
(** BITMAPlib.py:9641-9670 with fractals.py:1306-1328 *)
Definition spiraljuliabmp k c : M unit := draw k (fun P Q m => spiraljulia P Q c m).
(** BITMAPlib.py:9673-9702 with fractals.py:1331-1353 *)
Definition lambdabmp k c : M unit := draw k (fun P Q m => lambdafn P Q c m).
(** BITMAPlib.py:10021-10053 with fractals.py:1356-1380 *)
Definition multijuliabmp k c d : M unit := draw k (fun P Q m => multijulia P Q c d m).
(** BITMAPlib.py:10056-10088 with fractals.py:1383-1407 *)
Definition ngonbmp k c n : M unit := draw k (fun P Q m => ngonfunc P Q c n m).
(** BITMAPlib.py:10091-10123 with fractals.py:1410-1434 *)
Definition biomorphvariantbmp k c d : M unit := draw k (fun P Q m => variant P Q c d m 5).
(** BITMAPlib.py:10126-10158 with fractals.py:1464-1488 *)
Definition phasevariantbmp pw k c : M unit := draw k (fun P Q m => phasevariant pw P Q c m 5).
(** BITMAPlib.py:10161-10193 with fractals.py:1437-1461 *)
Definition multibiomorphbmp k c d : M unit := draw k (fun P Q m => multibiomorph P Q c d m 5).
(** BITMAPlib.py:10196-10368, 10441-10508 with fractals.py:1491-1677 *)
Definition multisinbiomorphbmp k c d : M unit := draw k (fun P Q m => multisinbiomorph P Q c d m 5).
Definition multicosbiomorphbmp k c d : M unit := draw k (fun P Q m => multicosbiomorph P Q c d m 5).
Definition multicoshbiomorphbmp k c d : M unit := draw k (fun P Q m => multicoshbiomorph P Q c d m 5).
Definition multisinhbiomorphbmp k c d : M unit := draw k (fun P Q m => multisinhbiomorph P Q c d m 5).
Definition multiexpbiomorphbmp k c d : M unit := draw k (fun P Q m => multiexpbiomorph P Q c d m 5).
Definition multitanbiomorphbmp k c d : M unit := draw k (fun P Q m => multitanbiomorph P Q c d m 5).
Definition multitanhbiomorphbmp k c d : M unit := draw k (fun P Q m => multitanhbiomorph P Q c d m 5).
(** BITMAPlib.py:10371-10403 with fractals.py:1680-1704 *)
Definition multi2ndtetrationbmp zz k c d : M unit := draw k (fun P Q m => multi2ndtetration zz P Q c d m 5).
(** BITMAPlib.py:10406-10438 with fractals.py:1707-1731 *)
Definition multizconjugatebmp k c d : M unit := draw k (fun P Q m => multizconjugatebiomorph P Q c d m 5).
(** BITMAPlib.py:10542-10572 with fractals.py:1734-1756 *)
Definition multicornbmp k d : M unit := draw k (fun P Q m => multicorn P Q d m).
(** BITMAPlib.py:10575-10605 with fractals.py:1759-1781 *)
Definition barnsleytreebmp k d : M unit := draw k (fun P Q m => barnsleytree P Q d m).
(** BITMAPlib.py:10608-10638 with fractals.py:1784-1807 *)
Definition marekdragonbmp k d : M unit := draw k (fun P Q m => marekdragon P Q d m 65).
