(** Model of the functions that apply an operation to a file and save the result in
    another one.  Paths are relative to /repo/pythonbmp.  As in Filters.v and Shapes.v
    float computations are arbitrary integer functions, here the first parameters. *)
From Coq Require Import ZArith List Bool String.
From Verif Require Import PyBase Bmp Region Geometry Draw Filters Circle Text Shapes Shrink Files.
Import ListNotations.
Open Scope Z_scope.
Open Scope py_scope.

(** proctimer.py:57-75.  [Mtext] is the announcement, [Mdone] the time needed.  The
    functions below do not return what the wrapped function returns. *)
Definition functimer {A} (f : F A) : F unit :=
  _ <~ fprint Mtext ;;
  _ <~ f ;;
  fprint Mdone.

(** BITMAPlib.py:7985-8008 *)
Definition eraseeverynthhorilineinregion (x1 y1 x2 y2 n : Z) : M (option unit) :=
  erasealternatehorizontallinesinregion x1 y1 x2 y2 n 0 0.

(** ** Whole images *)

(** BITMAPlib.py:13970-13986 *)
Definition invertbits2file (src dst : string) : F unit :=
  functimer (usebyreffnsv src dst invertimagebits).
(** BITMAPlib.py:13989-14005 *)
Definition flipvertical2file (src dst : string) : F unit :=
  functimer (usebyreffnsv src dst flipvertical).
(** BITMAPlib.py:14008-14024 *)
Definition mirrortop2file (src dst : string) : F unit :=
  functimer (usebyreffnsv src dst mirrortop).
(** BITMAPlib.py:14027-14043 *)
Definition mirrortopleft2file (src dst : string) : F unit :=
  functimer (usebyreffnsv src dst mirrortopleft).
(** BITMAPlib.py:14046-14064 *)
Definition mirrortopright2file (src dst : string) : F unit :=
  functimer (usebyreffnsv src dst mirrortopright).
(** BITMAPlib.py:14067-14083 *)
Definition mirrorbottomleft2file (src dst : string) : F unit :=
  functimer (usebyreffnsv src dst mirrorbottomleft).
(** BITMAPlib.py:14086-14102 *)
Definition mirrorbottomright2file (src dst : string) : F unit :=
  functimer (usebyreffnsv src dst mirrorbottomright).
(** BITMAPlib.py:14105-14122 *)
Definition mirrorbottom2file (src dst : string) : F unit :=
  functimer (usebyreffnsv src dst mirrorbottom).
(** BITMAPlib.py:14125-14141 *)
Definition mirrorleft2file (src dst : string) : F unit :=
  functimer (usebyreffnsv src dst mirrorleft).
(** BITMAPlib.py:14144-14160 *)
Definition mirrorright2file (src dst : string) : F unit :=
  functimer (usebyreffnsv src dst mirrorright).
(** BITMAPlib.py:14163-14179 *)
Definition fliphorizontal2file (src dst : string) : F unit :=
  functimer (usebyreffnsv src dst fliphorizontal).
(** BITMAPlib.py:15093-15108 *)
Definition outline2file (src dst : string) : F unit :=
  functimer (usebyreffnsv src dst outline).
(** BITMAPlib.py:14201-14220 *)
Definition palshift2file (shift : Z) (src dst : string) : F unit :=
  functimer (usebyreffnsv src dst (palshift shift)).
(** BITMAPlib.py:15046-15065 *)
Definition eraseeverynthhoriline2file (n : Z) (src dst : string) : F unit :=
  functimer (usebyreffnsv src dst (eraseeverynthhorizontalline n)).
(** BITMAPlib.py:14182-14198 *)
Definition flipXY2file (src dst : string) : F unit :=
  functimer (usefnsv src dst (withSome flipXY)).
(** BITMAPlib.py:14800-14816 *)
Definition upgradeto24bitimage2file (src dst : string) : F unit :=
  functimer (usefnsv src dst (withSome upgradeto24bitimage)).
(** BITMAPlib.py:14740-14757 *)
Definition pixelizenxntofile (rnd : Z -> Z -> Z) (n : Z) (src dst : string) : F unit :=
  functimer (use24btfnwithparnsv src dst (withSome (pixelizenxn rnd n))).
(** BITMAPlib.py:14760-14777 *)
Definition resizeNtimessmaller2file (rnd : Z -> Z -> Z) (n : Z) (src dst : string) : F unit :=
  functimer (use24btfnwithparnsv src dst (resizeNtimessmaller rnd n)).
(** BITMAPlib.py:14780-14797 *)
Definition resizeNtimesbigger2file (n : Z) (src dst : string) : F unit :=
  functimer (use24btfnwithparnsv src dst (withSome (resizeNtimesbigger n))).
(** BITMAPlib.py:15878-15901 *)
Definition horizontalbrightnessgrad2file (g : Z -> Z -> Z) (src dst : string) : F unit :=
  functimer (use24btbyreffnsv src dst (horizontalbrightnessgradto24bitimage g)).
(** BITMAPlib.py:15935-15958 *)
Definition verticalbrightnessgrad2file (g : Z -> Z -> Z) (src dst : string) : F unit :=
  functimer (use24btbyreffnsv src dst (verticalbrightnessgradto24bitimage g)).

(** ** Rectangles *)

(** BITMAPlib.py:14223-14246 *)
Definition flipverticalregion2file (x1 y1 x2 y2 : Z) (src dst : string) : F unit :=
  functimer (usebyreffnsv src dst (flipverticalregion x1 y1 x2 y2)).
(** BITMAPlib.py:14249-14271 *)
Definition fliphorizontalregion2file (x1 y1 x2 y2 : Z) (src dst : string) : F unit :=
  functimer (usebyreffnsv src dst (fliphorizontalregion x1 y1 x2 y2)).
(** BITMAPlib.py:14274-14297 *)
Definition mirrorleftinregion2file (x1 y1 x2 y2 : Z) (src dst : string) : F unit :=
  functimer (usebyreffnsv src dst (mirrorleftinregion x1 y1 x2 y2)).
(** BITMAPlib.py:14300-14322 *)
Definition mirrorrightinregion2file (x1 y1 x2 y2 : Z) (src dst : string) : F unit :=
  functimer (usebyreffnsv src dst (mirrorrightinregion x1 y1 x2 y2)).
(** BITMAPlib.py:14325-14348 *)
Definition mirrortopinregion2file (x1 y1 x2 y2 : Z) (src dst : string) : F unit :=
  functimer (usebyreffnsv src dst (mirrortopinregion x1 y1 x2 y2)).
(** BITMAPlib.py:14351-14373 *)
Definition mirrorbottominregion2file (x1 y1 x2 y2 : Z) (src dst : string) : F unit :=
  functimer (usebyreffnsv src dst (mirrorbottominregion x1 y1 x2 y2)).
(** BITMAPlib.py:14376-14398 *)
Definition mirrortopleftinregion2file (x1 y1 x2 y2 : Z) (src dst : string) : F unit :=
  functimer (usebyreffnsv src dst (mirrortopleftinregion x1 y1 x2 y2)).
(** BITMAPlib.py:14401-14423 *)
Definition mirrortoprightinregion2file (x1 y1 x2 y2 : Z) (src dst : string) : F unit :=
  functimer (usebyreffnsv src dst (mirrortoprightinregion x1 y1 x2 y2)).
(** BITMAPlib.py:14426-14448 *)
Definition mirrorbottomleftinregion2file (x1 y1 x2 y2 : Z) (src dst : string) : F unit :=
  functimer (usebyreffnsv src dst (mirrorbottomleftinregion x1 y1 x2 y2)).
(** BITMAPlib.py:14451-14473 *)
Definition mirrorbottomrightinregion2file (x1 y1 x2 y2 : Z) (src dst : string) : F unit :=
  functimer (usebyreffnsv src dst (mirrorbottomrightinregion x1 y1 x2 y2)).
(** BITMAPlib.py:14476-14497 *)
Definition invertregion2file (x1 y1 x2 y2 : Z) (src dst : string) : F unit :=
  functimer (usebyreffnsv src dst (invertregion x1 y1 x2 y2)).
(** BITMAPlib.py:15068-15090 *)
Definition outlineregion2file (x1 y1 x2 y2 : Z) (src dst : string) : F unit :=
  functimer (usebyreffnsv src dst (outlineregion x1 y1 x2 y2)).
(** BITMAPlib.py:14869-14895 *)
Definition eraseeverynthhorilineinregion2file (x1 y1 x2 y2 : Z) (n : Z) (src dst : string) : F unit :=
  functimer (usebyreffnsv src dst (eraseeverynthhorilineinregion x1 y1 x2 y2 n)).
(** BITMAPlib.py:14898-14922 *)
Definition rectangle2file (x1 y1 x2 y2 : Z) (color : Z) (src dst : string) : F unit :=
  functimer (usebyreffnsv src dst (rectangle x1 y1 x2 y2 color)).
(** BITMAPlib.py:14925-14949 *)
Definition filledrect2file (x1 y1 x2 y2 : Z) (color : Z) (src dst : string) : F unit :=
  functimer (usebyreffnsv src dst (filledrect x1 y1 x2 y2 color)).
(** BITMAPlib.py:14952-14986 *)
Definition filledgradrect2file (col : Z -> Z -> Z) (x1 y1 x2 y2 : Z) (direction : Z) (src dst : string) : F unit :=
  functimer (usebyreffnsv src dst (filledgradrect col x1 y1 x2 y2 direction)).
(** BITMAPlib.py:14989-15017 *)
Definition filleddichromaticgradrect2file (col : Z -> Z -> Z) (x1 y1 x2 y2 : Z) (direction : Z) (src dst : string) : F unit :=
  functimer (usebyreffnsv src dst (filleddichromaticgradrect col x1 y1 x2 y2 direction)).
(** BITMAPlib.py:14575-14605 *)
Definition adjustbrightnessinregion2file (g : Z -> Z) (x1 y1 x2 y2 : Z) (src dst : string) : F unit :=
  functimer (use24btbyreffnsv src dst (brightnesseadjto24bitregion g x1 y1 x2 y2)).
(** BITMAPlib.py:14608-14636 *)
Definition adjustthresholdinregion2file (g : Z -> Z -> Z -> Z) (l0 l1 : Z) (x1 y1 x2 y2 : Z) (src dst : string) : F unit :=
  functimer (use24btbyreffnsv src dst (thresholdadjto24bitregion g l0 l1 x1 y1 x2 y2)).
(** BITMAPlib.py:14682-14711 *)
Definition colorfilterinregion2file (fr fg fb : Z -> Z) (x1 y1 x2 y2 : Z) (src dst : string) : F unit :=
  functimer (use24btbyreffnsv src dst (colorfilterto24bitregion fr fg fb x1 y1 x2 y2)).
(** BITMAPlib.py:14714-14737 *)
Definition monofilterinregion2file (x1 y1 x2 y2 : Z) (src dst : string) : F unit :=
  functimer (use24btbyreffnsv src dst (monofilterto24bitregion x1 y1 x2 y2)).
(** BITMAPlib.py:14840-14866 *)
Definition gammaadjtoregion2file (g : Z -> Z -> Z) (x1 y1 x2 y2 : Z) (src dst : string) : F unit :=
  functimer (use24btbyreffnsv src dst (gammaadjto24bitregion g x1 y1 x2 y2)).
(** BITMAPlib.py:15904-15932 *)
Definition horizontalbrightnessgradregion2file (g : Z -> Z -> Z) (x1 y1 x2 y2 : Z) (src dst : string) : F unit :=
  functimer (use24btbyreffnsv src dst (horizontalbrightnessgradto24bitregion g x1 y1 x2 y2)).
(** BITMAPlib.py:15961-15990 *)
Definition verticalbrightnessgradregion2file (g : Z -> Z -> Z) (x1 y1 x2 y2 : Z) (src dst : string) : F unit :=
  functimer (use24btbyreffnsv src dst (verticalbrightnessgradto24bitregion g x1 y1 x2 y2)).

(** ** Discs *)

(** BITMAPlib.py:15175-15195 *)
Definition invertbitsincircregion2file (x y r : Z) (src dst : string) : F unit :=
  functimer (usebyreffnsv src dst (invertbitsincircregion x y r)).
(** BITMAPlib.py:15486-15506 *)
Definition flipvertcircregion2file (x y r : Z) (src dst : string) : F unit :=
  functimer (usebyreffnsv src dst (flipvertcircregion x y r)).
(** BITMAPlib.py:15728-15748 *)
Definition fliphoricircregion2file (x y r : Z) (src dst : string) : F unit :=
  functimer (usebyreffnsv src dst (fliphoricircregion x y r)).
(** BITMAPlib.py:15537-15557 *)
Definition mirrortopincircregion2file (x y r : Z) (src dst : string) : F unit :=
  functimer (usebyreffnsv src dst (mirrortopincircregion x y r)).
(** BITMAPlib.py:15560-15581 *)
Definition mirrorbottomincircregion2file (x y r : Z) (src dst : string) : F unit :=
  functimer (usebyreffnsv src dst (mirrorbottomincircregion x y r)).
(** BITMAPlib.py:15584-15605 *)
Definition mirrorleftincircregion2file (x y r : Z) (src dst : string) : F unit :=
  functimer (usebyreffnsv src dst (mirrorleftincircregion x y r)).
(** BITMAPlib.py:15608-15629 *)
Definition mirrorrightincircregion2file (x y r : Z) (src dst : string) : F unit :=
  functimer (usebyreffnsv src dst (mirrorrightincircregion x y r)).
(** BITMAPlib.py:15632-15653 *)
Definition mirrortopleftincircregion2file (x y r : Z) (src dst : string) : F unit :=
  functimer (usebyreffnsv src dst (mirrortopleftincircregion x y r)).
(** BITMAPlib.py:15656-15677 *)
Definition mirrorbottomleftincircregion2file (x y r : Z) (src dst : string) : F unit :=
  functimer (usebyreffnsv src dst (mirrorbottomleftincircregion x y r)).
(** BITMAPlib.py:15680-15701 *)
Definition mirrortoprightincircregion2file (x y r : Z) (src dst : string) : F unit :=
  functimer (usebyreffnsv src dst (mirrortoprightincircregion x y r)).
(** BITMAPlib.py:15704-15725 *)
Definition mirrorbottomrightincircregion2file (x y r : Z) (src dst : string) : F unit :=
  functimer (usebyreffnsv src dst (mirrorbottomrightincircregion x y r)).
(** BITMAPlib.py:15751-15771 *)
Definition outlinecircregion2file (x y r : Z) (src dst : string) : F unit :=
  functimer (usebyreffnsv src dst (outlinecircregion x y r)).
(** BITMAPlib.py:15774-15794 *)
Definition flipXYcircregion2file (x y r : Z) (src dst : string) : F unit :=
  functimer (usebyreffnsv src dst (flipXYcircregion x y r)).
(** BITMAPlib.py:15151-15172 *)
Definition monochromecircregion2file (x y r : Z) (src dst : string) : F unit :=
  functimer (use24btbyreffnsv src dst (monocircle x y r)).
(** BITMAPlib.py:15198-15222 *)
Definition colorfiltercircregion2file (fr fg fb : Z -> Z) (x y r : Z) (src dst : string) : F unit :=
  functimer (use24btbyreffnsv src dst (colorfiltercircregion fr fg fb x y r)).
(** BITMAPlib.py:15225-15249 *)
Definition thresholdadjcircregion2file (g : Z -> Z -> Z -> Z) (l0 l1 : Z) (x y r : Z) (src dst : string) : F unit :=
  functimer (use24btbyreffnsv src dst (thresholdadjcircregion g l0 l1 x y r)).
(** BITMAPlib.py:15252-15278 *)
Definition gammacorrectcircregion2file (g : Z -> Z -> Z) (x y r : Z) (src dst : string) : F unit :=
  functimer (use24btbyreffnsv src dst (gammacorrectcircregion g x y r)).
(** BITMAPlib.py:15391-15422 *)
Definition brightnessadjcircregion2file (g : Z -> Z) (x y r : Z) (src dst : string) : F unit :=
  functimer (use24btbyreffnsv src dst (brightnessadjcircregion g x y r)).
(** BITMAPlib.py:15425-15453 *)
Definition vertbrightnessgrad2circregion2file (g : Z -> Z -> Z) (x y r : Z) (src dst : string) : F unit :=
  functimer (use24btbyreffnsv src dst (vertbrightnessgrad2circregion g x y r)).
(** BITMAPlib.py:15456-15483 *)
Definition horibrightnessgrad2circregion2file (g : Z -> Z -> Z) (x y r : Z) (src dst : string) : F unit :=
  functimer (use24btbyreffnsv src dst (horibrightnessgrad2circregion g x y r)).
(** BITMAPlib.py:15365-15388 *)
Definition thickencirclearea2file (col : Z -> Z) (x y r : Z) (src dst : string) : F unit :=
  functimer (use24btbyreffnsv src dst (thickencirclearea col x y r)).
(** BITMAPlib.py:15314-15337 *)
Definition filledcircle2file (x y r : Z) (color : Z) (src dst : string) : F unit :=
  functimer (usebyreffnsv src dst (filledcircle x y r color)).
(** BITMAPlib.py:15340-15362 *)
Definition circle2file (x y r : Z) (color : Z) (src dst : string) : F unit :=
  functimer (usebyreffnsv src dst (circle x y r color false)).
(** BITMAPlib.py:15509-15534 *)
Definition eraseeverynthhorilineinccircregion2file (x y r : Z) (n : Z) (src dst : string) : F unit :=
  functimer (usebyreffnsv src dst (eraseeverynthhorizontallineinccircregion x y r n)).
(** BITMAPlib.py:15797-15821 *)
Definition magnifyNtimescircregion2file (x y r : Z) (n : Z) (src dst : string) : F unit :=
  functimer (usebyreffnsv src dst (magnifyNtimescircregion x y r n)).
(** BITMAPlib.py:15824-15848 *)
Definition pixelizenxncircregion2file (rnd : Z -> Z -> Z) (x y r : Z) (n : Z) (src dst : string) : F unit :=
  functimer (usebyreffnsv src dst (pixelizenxncircregion rnd x y r n)).
(** BITMAPlib.py:15851-15875 *)
Definition copycircregion2file (x y r : Z) (nx ny : Z) (src dst : string) : F unit :=
  functimer (usebyreffnsv src dst (copycircregion x y r nx ny)).

(** ** Colour adjustments: the palette, or the pixels of a 24-bit image *)

(** BITMAPlib.py:13640-13687 and 13722-13759.  [pal] is func(c, funcparam) on colours,
    [img] the function for 24-bit images that the name of func selects (all callers have
    one). *)
Definition useclradjfn (src dst : string) (pal : Z * Z * Z -> Z * Z * Z) (img : M (option unit)) : F (option unit) :=
  usebyreffnsv src dst (
    bits <- geti bmpcolorbits ;;
    if negb (bits =? 24) then
      p <- rd getallRGBpal ;; setbmppal (map pal p)
    else img ;;; ret tt).

(** colors.py:576-589: round(mean(rgb)); thirds are never halfway, so this is exact *)
Definition monochrome (c : Z * Z * Z) : Z * Z * Z :=
  let '(r, g, b) := c in let m := (2 * (r + g + b) + 3) / 6 in (m, m, m).
(** BITMAPlib.py:14663-14679 *)
Definition monochrome2file (src dst : string) : F unit :=
  functimer (useclradjfn src dst monochrome monofilterto24bitimage).
(** BITMAPlib.py:14526-14548 *)
Definition adjustbrightness2file (pal : Z * Z * Z -> Z * Z * Z) (g : Z -> Z) (src dst : string) : F unit :=
  functimer (useclradjfn src dst pal (brightnesseadjto24bitimage g)).
(** BITMAPlib.py:14551-14572 *)
Definition thresholdadjust2file (pal : Z * Z * Z -> Z * Z * Z) (g : Z -> Z -> Z -> Z) (l0 l1 : Z) (src dst : string) : F unit :=
  functimer (useclradjfn src dst pal (thresholdadjto24bitimage g l0 l1)).
(** BITMAPlib.py:14639-14660 *)
Definition colorfilter2file (pal : Z * Z * Z -> Z * Z * Z) (fr fg fb : Z -> Z) (src dst : string) : F unit :=
  functimer (useclradjfn src dst pal (colorfilterto24bitimage fr fg fb)).
(** BITMAPlib.py:14819-14837 *)
Definition gammaadj2file (pal : Z * Z * Z -> Z * Z * Z) (g : Z -> Z -> Z) (src dst : string) : F unit :=
  functimer (useclradjfn src dst pal (gammaadjto24bitimage g)).

(** ** Crops *)

(** BITMAPlib.py:13762-13784 *)
Definition cropBMPandsave (x1 y1 x2 y2 : Z) (src dst : string) : F (option unit) :=
  checklink src (_ <~ usefn2regsv src dst (crop x1 y1 x2 y2) ;; fret tt).
(** BITMAPlib.py:13787-13814; rectbnd is a list of two points *)
Definition cropBMPandsaveusingrectbnd (p q : Z * Z) (src dst : string) : F (option unit) :=
  checklink src (_ <~ usefn2regsv src dst (crop (fst p) (snd p) (fst q + 1) (snd q + 1)) ;; fret tt).
