# Formal model of Python_BMP

Source: TechnoTanuki/Python_BMP, `/repo` (read as text only, never run).
Prover: Coq 8.16.1 with its standard library and, for C139 to C141 and C143 to C155, Flocq.  All Coq files are in `rocq/theories`.
Build: `cd rocq && coq_makefile -f _CoqProject -o Makefile && make -j4`.

The property texts are in `properties.jsonl`, the theorems that establish them in
`MANIFEST.json` (written by `tools/manifest.py` from the theorem names), the experiments with
wrong programs in `seeded/LOG.jsonl`.

## Trusted base

1. **Coq's kernel** (8.16.1), including its virtual machine for the witnesses closed by
   `vm_compute`.
2. **Assumptions.**  Below every property theorem stands `Print Assumptions`.  No axiom is declared in
   this development.  C01-C125 answer *Closed under the global context*.  The theorems about real
   numbers (C126 and later, files `Coords.v`, `RealProofs.v` and those that use them) depend on the axioms of the standard
   library's real numbers and on no others:
   `ClassicalDedekindReals.sig_forall_dec`, `ClassicalDedekindReals.sig_not_dec`,
   `FunctionalExtensionality.functional_extensionality_dep` and `Classical_Prop.classic`.
   C139 to C141 and C143 to C155 use the definition of rounding and lemmas of the Flocq library (`Flocq.Core`, `Flocq.Prop.Relative`, `Flocq.Prop.Plus_error`, `Flocq.Prop.Sterbenz`), which add no
   axioms.
   (`coqchk` also lists the seven sealed
   fields `Under_rel`, `Under_rel_from_rel`, `Under_relE`, `over_rel`, `over_rel_done`,
   `Over_rel`, `under_rel_done` of `Coq.ssr.ssrunder.Under_rel`: the library is loaded with
   `ZifyBool`, no theorem depends on it.  It lists as well the sealed fields of `RbaseSymbolsImpl` (`R`, `R0`, `R1`,
   `Rplus`, `Rmult`, `Ropp`, `Rlt`, `Rabst`, `Rrepr`, `Rquot1`, `Rquot2`, `R0_def`, ...) and `RinvImpl` (`Rinv`,
   `Rinv_def`) of `Coq.Reals.Rdefinitions`; these are definitions sealed by a signature.)
3. **The reading of the code.**  The theorems are about the Gallina definitions in the model
   files listed below.  Each carries a comment with the file and lines it models and the
   simplifications made there.  Nothing ties them to the code but that reading.
4. **The rules of CPython in `PyBase.v`**: integers, `array('B')` indexing, slicing and
   (extended) slice assignment, exceptions.

## How things are modelled

* **Python values.**  Integers are `Z`; an `array('B')` is a `list Z`; indexing, slicing,
  slice assignment and extended slice assignment follow CPython (negative indices wrap, slice
  bounds are clamped, assigning to a plain slice may change the length, assigning an array of
  another length to an extended slice raises `ValueError`, assigning an *empty* array to an
  extended slice deletes the items, storing a number outside 0..255 raises `OverflowError`).
* **Effects.**  A function that mutates a bitmap is a state transformer on (array, console
  messages) that returns a value or raises an exception; the state at the time of an exception
  is kept.  `while` loops carry fuel; running out of fuel is the outcome `Diverges`, so a theorem
  that shows another outcome also shows termination.  Generators are modelled by their `for`
  loop: the body runs at each `yield`, so lazily read data is read at the right time.  Generators
  whose items do not depend on the bitmap are lists of points.
* **Two bitmaps.**  Functions that read one bitmap and write another run on the new array and
  read the other one through `on_src`/`from`; it cannot change meanwhile.
* **Specification.**  `Spec.v` says, without the model's helpers, what a well-formed BMP file is
  (`wf b w h bits`), what its pixels and palette entries are (`pixel`, `pal_entry`, decoded from
  the BMP format definition), and what it means that exactly a set of pixels was repainted
  (`repainted`: same length, header and palette; every pixel of the image is what the given
  function says).  Property theorems relate the API functions of the model to that.
* **Files.**  A file system is a map from names to optional contents.

Well-formedness `wf` is met by every bitmap `newBMP` makes with both dimensions below 2^24
(C02) and preserved by every operation proved correct; `readint` with its field width of 4 reads
only three bytes, so larger dimensions are truncated.

## What is modelled

| file | contents | source |
|---|---|---|
| `PyBase.v` | arrays, slices, effects, loops | CPython |
| `Bmp.v` | header fields, row sizes, offsets, palettes, palette shifting, guards, creation, block transfers, colour integers, `plotxybit`, `getxybit` | inttools.py, conditionaltools.py, paramchecks.py, colors.py, BITMAPlib.py 367-1756 |
| `Palette.v` | default palettes | bmppal.py |
| `Buffers.v` | buffer flips, splits, enlargement, filters | bufferflip.py, buffersplit.py, bufresize.py, colors.py |
| `Region.v` | iterators, histogram, flips, mirrors, erasing, transposition, crop, inversion, upgrade, enlargement, copy/paste | BITMAPlib.py |
| `Geometry.v` | line, circle, disc and ellipse point generators | primitives2D.py, mathlib.py |
| `Draw.v` | `horiline`, `vertline`, `line`, `filledrect`, `circle`, `filledcircle`, palette matching, `plotRGBxybit` | BITMAPlib.py, colors.py |
| `Filters.v` | 24-bit filters and gradients on rectangles, `outlineregion` (the rounded float products are arbitrary integer functions) | colors.py, BITMAPlib.py 8803-9070, 12241-12637 |
| `Circle.v` | guards and operations on circular regions | paramchecks.py, BITMAPlib.py 2462-3324, 7857-7930, 12411-12437 |
| `Text.v` | bit patterns, strings, text images, patterns as text (`SpecText.v`: their specification) | BITMAPlib.py 3811-6076, chartools.py, textgraphics.py |
| `Fonts.v` | the six fonts | fonts.py |
| `Shapes.v` | polylines, polygons, round pens, layered gradients, ellipses, grids, gradients in circles (colours computed with floats are arbitrary integer functions; `SpecShapes.v`: their specification) | BITMAPlib.py 1589-1636, 1878-2459, 3070-3140, 3513-3871, 6680-7151, primitives2D.py |
| `Shrink.v` | reduction and pixelation (`SpecImage.v`: means of squares; the rounded float quotient is an arbitrary function) | BITMAPlib.py 12440-12522, bufresize.py 243-263, mathlib.py |
| `Files.v` | `loadBMP`, `saveBMP`, file-to-file wrappers, `imagecomp` | BITMAPlib.py, fileutils.py, chartools.py |
| `Wrappers.v` | the functions from file to file, colour adjustment of palettes, saved crops | BITMAPlib.py 13640-13814, 13929-15990 |
| `Fractal.v` | computed palettes, fractals, Newton's fractal, iterated functions, flowers, attractors, Hilbert's and Koch's curves (the values of fractals, mixed colours and orbits are arbitrary functions) | BITMAPlib.py 1345-1404, 9092-12111, 12147-12177, 12640-13150, fractals.py, colors.py 385-573, 1087-1130, mathlib.py 1605-1658 |
| `Edges.v` | scans by colour, neighbours, edges, regions of a colour, palettes by frequency, reduction of the depth, frames of a colour cycle, balls, ferns and snowflakes in files, bitmaps as text (`SpecEdges.v`: their specification; comparisons of float distances with a threshold are arbitrary predicates) | BITMAPlib.py 1188-1342, 1759-1875, 7335-7623, 12101-12208, 12525-12543, 13073-13103, 13404-13436, 13603-13637, 13860-13967, 14500-14523, 15020-15043, 15281-15311, primitives2D.py 633-708, textgraphics.py 33-50 |
| `Solids.v` | filled polygons, arcs, pie charts, painted faces, visible sides, tables and surfaces of the solids, surface plots (`SpecSolids.v`: their specification; tests of angles are arbitrary predicates, the colours mixed for normals arbitrary functions, coordinates integers) | BITMAPlib.py 3875-3913, 6636-6677, 6857-6974, 12211-12238, primitives2D.py 598-630, solids3D.py except 267-332, 449-487 |
| `Fft.v` | `fft`, `ifft` over any commutative ring in place of complex floats (`SpecFft.v`) | mathlib.py 1491-1553 |
| `Exact.v` | statistics, interpolation, Bezier curves and B-splines over the rational numbers in place of floats (`SpecExact.v`) | mathlib.py 275-596, 1673-1894; primitives2D.py 329-457 |
| `Plots.v` | axes, arrows, numbers at points, scatter plots (`SpecPlots.v`; the ends of arrowheads are an arbitrary function, the values of axes integers, plotted coordinates rational numbers in place of floats) | BITMAPlib.py 1838-1857, 2369-2396, 3327-3347, 7048-7332; primitives2D.py 539-576, 1270-1320 |
| `Colours.v` | single colours over the rational numbers in place of floats: adjustments, the products of the filters, mixtures, entries of computed palettes, HSL values, matching to 4 bits (`SpecColours.v`; powers are an arbitrary function) | colors.py 90-115, 194-269, 306-382, 412-417, 592-716, 798-800, 850-856, 880-893, 969, 1000-1008, 1049-1084, 1105-1113, 1133-1155; mathlib.py 59-79, 105-117, 271, 403-421; BITMAPlib.py 2176-2247, 2450-2454, 3557-3620, 6733-6737 |
| `Vectors.v` | lists of points: sums, bounds, histograms, tables of distances, spirals | mathlib.py 733-761, 1105-1122, 1308-1379, 1576-1636; primitives2D.py 711-750, 793-822 |
| `Coords.v` | coordinates, angles, directions, rotations, arrowheads, regular polygons, arcs and slices over the real numbers in place of floats | mathlib.py 179-251, 566-578, 687-730, 787-1070, 1192-1208, 1556-1573; primitives2D.py 480-536, 598-630, 1284-1320; charts.py 34-58 |
| `Sweeps.v` | spirographs, Lissajous curves, involutes, epicycloids, hypotrochoids, flowers, superellipses, squircles, gears, Cornu spirals, hearts and eggs over the real numbers in place of floats; loops over a growing parameter with a bound on their passes, for every bound that is large enough; the real part of the square root of a negative number is 0 | primitives2D.py 899-1267, 1323-1553; mathlib.py 424-440 |
| `Vertices.v` | vertices of the solids, rotation and perspective projection over the real numbers in place of floats | solids3D.py 82-332, 450-486, 591-680; mathlib.py |
| `Cplx.v`, `Escape.v` | complex numbers as pairs of real numbers in place of floats; fractals, biomorphs, sums, n-gons and level curves for integer exponents, the maps of rectangles to domains, pictures of the Mandelbrot, Julia and tricorn sets and of superellipses | fractals.py 177-410, 430-902, 965-1058; BITMAPlib.py 9092-9145, 9259-9286, 9385-9414, 9988-10018, 10511-10539 |
| `Newton.v` | Newton's method and the functions of Newton's fractal over the complex numbers of `Cplx.v` | mathlib.py 1435-1469; fractals.py 86-104, 413-427, 1852-1877; BITMAPlib.py 9206-9256 |
| `Attract.v` | lists of points of attractors over the real numbers, and their pictures by counting points in cells | fractals.py 1969-2201; mathlib.py 1576-1658; BITMAPlib.py 12640-12865 |
| `Ifs.v` | points of iterated functions over the real numbers for any random numbers (four maps, as in getIFSparams) | fractals.py 54-74, 107-149; BITMAPlib.py 10641-10671, 13128-13150 |
| `Pictures.v` | the functions that paint one fractal each, for the values of `Escape.v`; any functions in place of z ** z and z ** (d + abs(phase(z))) | fractals.py 152-174, 379-410, 508-530, 708-730, 758-782, 1036-1807; BITMAPlib.py 9289-9382, 9417-9702, 10021-10508, 10542-10638 |
| `Helpers.v` | elapsed time, ranges of luminosity, small vector functions, t-test, inverse smooth step and gamma of a byte; rational or real numbers in place of floats, the results of random calls are arbitrary | proctimer.py 34-54; colors.py 43-58, 880-893; charts.py 20-31; mathlib.py 41-102, 134-146, 208-211, 288-300, 548-550, 1073-1169, 1279-1336, 1382-1391, 1472-1484, 1818-1831 |
| `Fourier.v` | `fft`, `ifft` with `fftfn`, `ifftfn` over the complex numbers of `Cplx.v` | mathlib.py 1487-1553 |
| `Floats.v` | the functions on colours of `Colours.v` with every operation rounded to a double (Flocq's rounding to nearest even); infinities and not-a-numbers are left out, the power of gamma is any function | colors.py 90-115, 194-222, 306-331, 576-687, 715-716, 743, 798-800, 850-856, 880-893, 969, 1000-1008, 1105-1113; mathlib.py 1673-1690 |
| `Floats2.v` | luminosities of gradients, interpolated colours, distances of points and pie charts with every operation rounded to a double | BITMAPlib.py 2450-2454, 3557-3560, 3590, 3639-3650, 3711, 3864, 6736, 6772, 12364-12370; colors.py 1133-1160; mathlib.py 703-733, 1472-1484; charts.py 34-58 |
| `FloatCurves.v` | nearest palette entries, similarity thresholds and B-splines with every operation rounded to a double | colors.py 272-303; mathlib.py 120-131, 149-160, 214-231, 717-730; BITMAPlib.py 1214-1215, 7366-7368, 7398; primitives2D.py 389-425, 449-457 |
| `Meshes.v` | vertices and surfaces of spheres, cylinders and cones together, over the real numbers and for integer steps | solids3D.py 490-514, 564-680 |
| `Floats3.v` | means of squares of pixels and statistics of integers with every operation rounded to a double | bufresize.py 256-263; mathlib.py 271, 275-285, 318-331, 443-462, 483-520 |
| `FloatPlots.v` | points of scatter plots, with integer data, every operation rounded to a double; the regression line is left out | BITMAPlib.py 1838-1857, 3327-3347, 7230-7261, 7307-7315 |
| `FloatEscape.v` | escape times of fractals, and pictures of Mandelbrot's set and of tricorns, every operation rounded to a double; the length of complex numbers, hypot of the C library, is an arbitrary function; infinities and signs of zeros are left out | fractals.py 244-285, 430-451, 810-874, 895-930; BITMAPlib.py 9259-9286, 10511-10539 |
| `FloatSweeps.v` | spirographs, Lissajous curves, circle involutes, epicycloids and hypotrochoids, every operation rounded to a double; cosine and sine of the C library are arbitrary functions; infinities and signs of zeros are left out | primitives2D.py 899-932, 962-993, 1027-1063, 1098-1130, 1160-1196 |
| `FloatInterp.v` | inverse linear interpolation, the three smooth steps and the interpolations through them, every operation rounded to a double; infinities and signs of zeros are left out | mathlib.py 1693-1714, 1740-1815, 1834-1894 |
| `FloatTurns.v` | degrees to radians, rotations in 2D and 3D, regular polygons, flowers and perspective, every operation rounded to a double; the cosine, sine and square of the C library are parameters; infinities and signs of zeros are left out | mathlib.py 1040-1070; primitives2D.py 480-536, 1230-1267; solids3D.py 265-332 |
| `FloatBezier.v` | Bezier curves and the base and range of brightness, every operation rounded to a double; the power of the C library is a parameter; infinities, overflow and signs of zeros are left out | primitives2D.py 329-366; colors.py 896-930; mathlib.py 120-131, 149-160, 179-191, 214-231, 254-272 |
| `FloatDirs.v` | lengths, direction cosines, angles and arcs, every operation rounded to a double; arccosine and arctangent of the C library are parameters; integers too large for a float and signs of zeros are left out | mathlib.py 179-205, 687-730, 787-841, 861-890, 1004-1037; primitives2D.py 598-630 |
| `FloatPie.v` | arcs and pie charts drawn from rounded angles; the arccosine of the C library is a parameter; integer amounts | BITMAPlib.py 3875-3913, 12211-12238 |
| `FloatShade.v` | luminosity and colour of the faces of solids from float normals; plain and compensated sums of floats; the sum is a parameter of the rest | BITMAPlib.py 6857-6925, mathlib.py 686-715, 787-803, colors.py 90-115 |
| `FloatSolid.v` | the test for hidden faces, normals, faces and drawings of solids, every operation rounded to a double; points are triples, the translation on the screen is by integers | solids3D.py 415-447, 720-748; mathlib.py 120-131, 149-191, 640-684; BITMAPlib.py 6928-6974 |
| `ColourNames.v` | the nine dictionaries of names of colours, every entry; a literal of a factor is the double next to it | colordict.py, X11colordict.py, XKCDcolordict.py |
| `FloatMeshes.v` | vertices with faces of spheres, cylinders and cones, every operation rounded to a double; steps are integers | solids3D.py 450-514, 564-680; mathlib.py 893-922, 946-964 |
| `Squircle.v` | drawings of squircles, with the exact vertices of `Sweeps.v` | BITMAPlib.py 3483-3510 |
| `MathLib.v` | integer vectors | mathlib.py |

Not modelled: the rounding errors of floating point numbers outside `Floats.v`, `Floats2.v`, `Floats3.v`, `FloatCurves.v`, `FloatPlots.v`, `FloatEscape.v`, `FloatSweeps.v`, `FloatInterp.v`, `FloatTurns.v`, `FloatBezier.v`, `FloatDirs.v`, `FloatPie.v`, `FloatShade.v`, `FloatSolid.v` and `FloatMeshes.v` (where a result depends on them only
through a final rounding, the model computes with rational or real numbers; otherwise the value is an arbitrary
function or a parameter), fractals with exponents that are not integers or with towers of powers, random numbers, progress output, the paint integration and `PATH` handling, directories and I/O
errors, arguments that are not integers (the guards' type tests).

## How the properties are proved

C01 by induction on the field width.  C02-C07: byte-level frame lemmas for arrays, bit
extraction facts by a sweep over the 256 bytes lifted to all bytes, then induction over
histories.  C08-C09: slice lemmas on the palette area.  C10-C11, C36, C38: file system model, for
an arbitrary transform.  C12: slice lemmas.  C13-C14: loop invariants over the iterator; the
histogram by counting.  C15-C22, C29-C30, C37, C41-C46: loop invariants stated on pixels.
C23-C24: slice lemmas.  C25-C28: invariants of the integer rasterisers for all integers.
C48-C52: a filter acts on a row pixel by pixel (`onbuf`), then the loop over the rows of the
rectangle.  C53-C61: the circle's rows and columns come from C27/C28's rasteriser; each loop
iteration treats the two rows (columns) at one distance from the centre, and distances do not
repeat.  C62-C68: every cell drawing is a repainting given by a partial function of the
pixel (`draws`); patterns, strings and files are folds of such functions over the bits and the
layout of the text.  C71-C79: each drawing is a fold of such repaintings; the
layers of a gradient are shown to cover each other in order.  C75: invariants of the two loops of
the ellipse rasteriser in terms of the ellipse equation, for all half axes.  C80-C81: sums over
rows and column residues, an invariant of the row loop, then C45 for the enlargement.
C82-C86: the in-memory theorems composed with the file system lemmas of C36.  C87-C93: loops in which every step paints its own point (`forM_paint`); C89 by induction over the orbit.
C94: Hilbert's recursion acts on grid cells by four isometries (`hcells`).  C95: invariant over the
levels of the in-place subdivision.  C96-C99: the scan is C13's iteration composed with the palette;
edges and regions are filters of the scan.  C100: an invariant of the selection loop.
C101-C105: the scan, the file system lemmas and the drawing theorems composed.  C106-C109: rows of a set of
points as hulls, then folds of repaintings.  C110: identities of polynomials.  C111: sums of an
antisymmetric function over the edges of the faces telescope to 0 (`SurfProofs.v`), tables by
computation.  C112: a grid as one list.  C113: induction over the levels of the transform.  C114: normal
equations and Cauchy-Schwarz.  C115: differences of the polynomials as sums of products of nonnegative
numbers.  C116: Bernstein's form against de Casteljau's recursion; the loops as one sequence of
points.  C117-C118: the drawings of grids, lines, ticks and texts composed as one fold of repaintings.
C119-C124: rational arithmetic with rounding specified as a nearest integer, the even one of two; C120
through C85, C121 through C71 and C74, C122 through C87; C123 by the position of the hue in its sixth.
C125: induction over the lists; the histogram through C93's counts.
C126-C127: the sine and cosine of the angle of a slope from its tangent and sign; angles in [0, 2 pi) are
determined by sine and cosine; Cauchy-Schwarz by induction over vectors.
C128-C129: loops by the least number of steps that reaches the limit; rolling by the derivatives of the
curves; hearts by a polynomial in the cosine.
C130: rotations as products of three plane rotations; the sides of the solids by the cosines of 36 and 72 degrees.
C131: outside the circle of radius 2 the absolute value grows by a constant factor.  C132: induction over the
loops; conjugation and rotation commute with the maps.
C133: a point at a distance from all roots has a long step; explicit roots; C91 for the picture.
C134: induction over the passes; bounds of sine and cosine; powers of roots of unity; C93 for the picture.
C135: induction over the random numbers; the fern by a polygon of 32 half planes that the maps take into itself, checked by computation with Farkas' lemma; C92 for the picture.
C136: C88 for the pictures with the values of C131 and C132; bits of integers modulo a power of 2.
C137: the digits by induction; the sine of three times an angle; monotone powers.
C138: C113 with the roots of unity on the circle; sums over a full turn.
C139: error bounds of Flocq; the witnesses by integer arithmetic.
C140: the same, with margins between a fraction and the integers around it.
C141: squares of distances that differ have square roots that differ after rounding; error bounds of the four weights.
C142: the normal of a face points to the middle of its cell; its product with a vertex is a sum of differences of cosines that are never positive.
C143: error bounds; the rounded root of a rounded square is the number itself, so by monotony no coefficient exceeds 1.
C144: the error, times the value step, is below 1/4, while the distances from limits and halves, times the step, are multiples of 1/2.
C145: rounding commutes with the sign, so that the loops run alike; on the real axis invariants kept by rounding; coordinates are exact over 2^k rows.
C146: sums of doubles have relative errors only, so the error of the parameter grows with the square of the number of steps; error bounds for the points.
C147: error bounds for sums and products; the upper bound of smoothstep by Sterbenz's lemma; witnesses by computing with fractions m / 2^k.
C148: error bounds for sums and products carried from the angle to the point; the boxes by monotony of rounding.
C149: relative errors of the blending functions, which are nonnegative and add up to 1 (Bernstein's form of de Casteljau's construction).
C150: rounding keeps a quotient of a component and the length inside -1..1, and the arccosine grows at most like the square root of the error (`angle_gap`).
C151: the chart is that of C108 for slices chosen by rounded angles; these meet exactly, and rim points stay 1e-6 away from a full turn.
C152: both sums are right to 40 units in the last place, so 128 times the cosine is right to 1e-12 and truncation stays in -128..128; drawings are those of C109.
C153: forward error bounds of the test and the normals in powers of the size of the solid; the drawing is that of C152 for the faces that are kept.
C154: the names of a family are the same lists, so that entries found are in the same row; each row is checked by computation, and factors within half a millionth of the colour give the bounds for every luminosity.
C155: faces do not depend on the coordinates; vertices by the error bounds of C148; the convex solids are those of C142.  For spheres the faces depend on which vertices and which z are equal floats: points of the grid are further apart (sin(pi / 2q) >= 1 / q) than twice the error, so the same are equal as without rounding.
C156: C72 for the vertices of C129; for radii 8 to 15 the vertices next to the tips are one step away on both axes (bounds of the sine of a degree), so the defect of exact diagonals (C72) shows.
C31-C34, C39, C47: arithmetic and list lemmas.  C35, C40: for an arbitrary guarded action.

Where the code does not do what its documentation says, the property states the exact domain
on which it holds, and a `..._refuted` theorem gives a concrete counterexample computed in the
model.

## Findings

Deviations of the code from its documentation, each visible in a theorem (named in brackets)
or noticed while reading (marked *read*).

* `buf2int` ignores the last byte, so `buf2int(int2buf(n,v))` is `v mod 256^(n-1)`
  [`C01_buf2int_refuted`].  As a consequence `copyrect` buffers carry their sizes modulo 256:
  `pasterect` puts the rectangle one row too low, and never returns when the row size is a
  multiple of 256 [`C30_never_ends`, `C30_in_place_refuted`]; `convertselection2BMP` returns a
  bitmap two columns too wide and one row too high [`C46_size_refuted`].
* A 24-bit bitmap without pixels (54 bytes) can be saved but not loaded [`C10_empty_refuted`].
* `saveBMP(None)` empties the destination before it raises; wrappers whose transform returns
  `None` therefore destroy an existing destination file [`C36_new_bitmap`].
* `listinBMPrecbnd` always answers True [`C40_refuted`] (so does `listinrecbnd`, *read*).
* `rotatebits` drops bit 0: flipping 1-bit buffers or images loses every eighth pixel
  [`C17_1bit_refuted`, `C33_flipbuf1`].
* `fliphorizontal` on 4-bit bitmaps of odd width is wrong [`C17_4bit_odd_refuted`];
  `mirrorleft`/`mirrorright` on 4-bit bitmaps swap the two middle pixels unless the width is a
  multiple of 4 [`C41_4bit_refuted`].
* The region operations that work on bytes are wrong for 1- and 4-bit rectangles that do not
  start and end on byte boundaries [`C42_unaligned_refuted`].
* `crop` of an 8-bit bitmap loses the palette [`C20_palette_refuted`].
* `flipXY` transposes along one diagonal for 1/4 bit and along the other for 8/24 bit [C21].
* `filledrect` on 8-bit bitmaps takes the colour as RGB and passes a tuple to `matchRGBtopal`,
  so an exact palette match is never found and black never chosen [`C22_filledrect8`]; on 4-bit
  bitmaps the last column is missing unless it ends on a byte [`C22_filledrect4_refuted`].
* `horiline` far to the left of an 8/24-bit image deletes bytes from the array
  [`C23_left_refuted`]; on 4-bit bitmaps it paints the wrong pixels at the ends
  [`C23_horiline4`] and can raise or paint a pixel when wholly to the right
  [`C23_right4_refuted`].  `filledcircle` inherits the first [`C28_left_refuted`].
* `vertline` wholly below an 8/24-bit image deletes bytes [`C24_below_refuted`].
* `iterline` on exact diagonals skips the first point and overshoots by one [`C25_diagonal`], so
  `line()` can write outside the image: into the header, past the end, or with an IndexError
  [`C26_diagonal_refuted`].
* `circle` on 8-bit bitmaps does not reduce the colour and raises for colours above 255
  [`C27_colour8_refuted`].
* `upgradeto24bitimage` loses the last columns of 4-bit bitmaps of odd width and 1-bit ones whose
  width is not a multiple of 8 [`C29_4bit_odd_refuted`, `C29_1bit_refuted`].
* `resizeNtimesbigger` on odd 24-bit widths and on 1-bit bitmaps [`C45_odd_width_refuted`,
  `C45_1bit_refuted`].
* `altsplitbuf3way`/`altsplitbufnway` drop the last group for odd lengths
  [`C34_lost_refuted`].
* `erasealternatehorizontallines` never erases the bottom row [`C37_bottom_row_refuted`].
* `matchRGBtopal` never chooses a black entry for a colour near black [`C32_nearest_refuted`].
* `det3D` uses `a2[0]` for `a3[0]` in the last product [`C39_det3D_refuted`]; `isorthogonal`
  tests every product instead of their sum [`C39_isorthogonal_refuted`].
* The pixel-based flips silently do nothing when the corners are not top-left, bottom-right
  [`C43_unsorted`].
* `newBMP` truncates dimensions of 2^24 and more, writes 0 into biPlanes and accepts negative
  dimensions (*read*; C02 states the domain).
* `setbmppal` silently ignores palettes of another length [`C08_wrong_count`].
* `entirecircleinboundary` compares the vertical extent with the width: circles in tall images are
  refused [`C53_tall_image_refuted`], circles below wide images are accepted and overwrite the
  header [`C53_wide_image_refuted`].
* The row-wise circle operations stop before the last byte of every row
  [`C54_last_pixel_refuted`]; the column-wise ones skip some circumference pixels
  [`C55_disc_refuted`].
* `flipXYcircregion` rotates 8/24-bit discs instead of transposing them
  [`C57_transpose_refuted`].
* `monocircle` raises TypeError for circles partly outside: a stray comma makes the offset a
  tuple [`C56_mono_offscreen_refuted`].  Circles far to the left of the image get negative
  slice ends, which count from the end of the array [`C56_far_left_refuted`].
* `pastecirularbuf` raises a string, that is TypeError, for another depth [`C58_other_depth`].
* `colorfiltertoBGRbuf` leaves the last pixel of each row unfiltered [`C49_last_column_refuted`]
  and raises OverflowError for products above 255 [`C49_overflow_refuted`].
* The horizontal brightness gradient omits the top row [`C51_top_row_refuted`]; one row or column
  raises ZeroDivisionError [`C51_single_row`, `C51_single_column`].
* `outlineregion` computes its write offset from the unsorted corners [`C52_unsorted_refuted`].
* Text: squares that cross the image border are dropped, not clipped
  [`C62_clipping_refuted`]; 4-bit squares are wrong unless aligned [`C62_four_bit_refuted`];
  mirrored text loses the column of bit 0 (`rotatebits`) [`C62_mirror_refuted`]; the colour list
  of sideways text advances by eight [`C62_sideways_colours_refuted`]; on 8-bit bitmaps the same
  colour argument is a palette index at scale 1 and for dots, but a 24-bit colour for larger
  squares [`C63_index_refuted`]; upside-down text as dots is not reversed
  [`C65_order_refuted`]; `font8x14sanserif` is shifted by one row
  [`C67_sanserif_shift_refuted`].  Italics slant differently with the parity of y at scale 1,
  sideways italics drift in opposite directions at scale 1 and above (both in the styles of
  `SpecText.v`).  `plotrotated8bitpattern` accepts only a single colour: a list raises
  TypeError (*read*).
* Gradient rectangles take the position in the image, not in the rectangle
  [`C71_one_colour`]; the middle of `orb` is hidden by its rings, which are larger than its radius
  [`C74_orb_hidden_refuted`].
* `rectangle` and polygons beside the image leave a trace at its border
  [`C72_outside_refuted`].
* `iterellipsepart` misses or passes the half axis a [`C75_width_refuted`], is not the circle for
  a = b [`C75_circle_refuted`] and never ends for a = b = 0 [`C75_point_never_ends`].  `ellipse` tests
  the box with the half axes exchanged, so outlines wrap around the image borders
  [`C76_swapped_refuted`, `C76_overshoot_refuted`]; tall gradient ellipses spill over their
  outline [`C76_tall_gradient_refuted`].
* `filledparallelogram` with two diagonal sides has holes [`C77_holes_refuted`].
* `xygrid` omits the lines at the far sides [`C78_frame_refuted`].
* `swapcolors` with a point outside raises or paints colour 255 [`C79_outside_refuted`].
* `resizeNtimessmaller` drops the top rows instead of the bottom ones when n does not divide the
  height [`C80_top_left_refuted`] and gives a black column for odd widths
  [`C80_odd_width_refuted`]; `pixelizenxn` returns a smaller image when n does not divide the size
  [`C81_size_refuted`] and black squares when their number per row is odd
  [`C81_odd_refuted`]; `pixelizenxncircregion` then reads beside the smaller image and can delete
  bytes of the bitmap [`C81_disc_refuted`].
* `monochrome` rounds the grey of palettes to the nearest integer, the 24-bit filter rounds down
  [`C85_grey_refuted`].
* `cropBMPandsaveusingrectbnd` adds a column and a row and therefore refuses the whole image
  [`C86_crop_bound`, `C86_crop_bound_refuted`].
* 8-bit fractals store their values without a bounds or range check [`C88_limits_refuted`];
  `multisuperellipse` returns floats, so 4- and 8-bit versions raise TypeError (*read*; not in the
  model).  `savenewtonsfractal2file` raises TypeError for palette depths with two or three factor
  lists [`C91_palette_refuted`].  Palettes round the mixed colour, `colormix` truncates it, so the
  8-bit picture can differ by one from the 24-bit one (*read*; the hypothesis of
  `C90_same_picture`).
* `savehilbertcurve2file` with orientation 1 exchanges width and height
  [`C94_orientation_refuted`].
* `iterimageRGB` yields only the bottom row when rows do not end on a byte boundary
  [`C96_all_pixels_refuted`].  `itergetneighbors` never looks at row (column) 0 from row (column) 1
  [`C97_complete_refuted`].
* `autocropimg2file` adds a column and a row to the bounding box, so edges that reach the last
  column or row are refused [`C99_autocrop_refuted`]; a uniform image raises IndexError
  [`C99_autocrop_plain`], a missing file TypeError [`C99_autocrop_missing`].
* `setnewpalfromsourcebmp` does not store a palette that is not full [`C100_stored_refuted`];
  `reduce24bitimagebits` then shows the image with the wrong colours, and black pixels get an entry
  that is not black [`C101_colors_refuted`].  On a paletted source `setnewpalfromsourcebmp` takes
  palette numbers for colours (*read*).  `adjustcolordicttopal` never matches black
  [`C102_black_refuted`].
* `colorcycle2dir` of a 1- or 24-bit bitmap raises TypeError [`C103_refused`];
  `_use24btclrfnwithmultpar2circreg` does not check that the file exists [`C104_sphere_refused`].
* `plotbmpastext` omits the bottom row and prints empty lines for 24-bit bitmaps
  [`C105_all_rows_refuted`, `C105_text`].
* `plotpolyfill` fills notches [`C106_concave_refuted`], refuses polygons inside the image when a
  diagonal overshoots [`C106_diagonal_refuted`] and misses pixels on 4-bit bitmaps
  [`C106_four_bit_refuted`].  A filled `drawarc` paints over its outline and ignores `showoutline`
  [`C107_filled`]; arcs without a ring pixel raise IndexError [`C107_none`], which stops pie charts
  with a thin slice [`C108_thin`]; of two halves of a pie only the last is visible
  [`C108_halves_refuted`].
* The faces of the tetrahedron, the hexahedron and the sphere are oriented inwards, those of the
  cube and the octahedron outwards, while all of them are drawn with the same test
  [`C111_tetrahedron_refuted`, `C111_hexahedron_refuted`, `C111_sphere_refuted`,
  `C110_tetrahedron_refuted`]; spheres are oriented inwards for every step, cylinders and cones outwards
  [`C142_sphere`, `C142_cylinder`, `C142_cone`].  The tetrahedron's edges differ in length, and `spherevert` puts the
  south pole at `[0, 0, -r]` whatever the centre (*read*).  Cylinders and cones have a hole when the
  step does not divide 360 [`C111_cylinder_refuted`].
* `surfplot3Dvertandsurface` joins points of different rows when the step does not divide the width
  [`C112_uneven_refuted`] and raises ZeroDivisionError when it exceeds it [`C112_narrow`].
* `ifft` does not divide by the length, so it is the inverse of `fft` only up to that factor
  [`C113_inverse`]; for odd lengths the last item is left out of the transform [`C113_odd_last`].
* `smoothstep` and its relatives are not clamped outside their interval [`C115_clamped_refuted`].
* `iterbeziercurve` ignores the last control point [`C116_bezier_last_ignored`,
  `C116_bezier_end_refuted`] and joins a single point to the origin
  [`C116_bezier_single_refuted`]; `iterbspline` without `curveback` ignores the first control point
  [`C116_bspline_first_ignored`, `C116_bspline_start_refuted`].
* `XYaxis` counts the rows of the grid from the top and the ticks from the origin, so they do not
  meet unless the height is a multiple of the step [`C117_grid_refuted`].
* `XYscatterplot`: points beyond the limits become marks at (-1, -1), which reach into the corner
  [`C118_corner_refuted`]; points below or left of the axes are drawn outside the plot
  [`C118_below_refuted`]; a falling regression line that begins above the plot is drawn from the
  corner [`C118_regression_refuted`].
* The filters of palettes round, those of 24-bit images truncate (threshold, gamma, monochrome), so the
  same picture gets different colours at different depths; factors above 1 are limited in palettes and
  raise OverflowError in 24-bit images [`C120_depth_refuted`].
* Gradients over the whole image never reach the second colour [`C121_second_colour_refuted`].
* `RGB2HSL` returns the hue 360 for reds with a trace of blue [`C123_hue_360_refuted`].
* `matchRGBtodefault4bitpal` numbers the colours with red as bit 2, the default palette has red as
  bit 0: the matched entry shows red as blue [`C124_shown`, `C124_colour_refuted`].
* `listinrecbnd` leaves its loop at the first point outside and then returns True all the same
  [`C125_listinrecbnd`, `C125_listinrecbnd_refuted`].
* `histogram2D` raises ZeroDivisionError for one bin or for points on one horizontal or vertical line
  [`C125_histogram_flat`].
* `rect2polarcoord2D` and `rect2sphericalcoord3D` use `atan(y / x)`: points left of the y axis come back on
  the other side of the origin, points on it raise [`C126_polar`, `C126_polar_refuted`, `C126_spherical`].
* `rect2cylindricalcoord3D` returns the distance from the origin as the radius
  [`C126_cylindrical`, `C126_cylindrical_refuted`].
* `regpolygonvert` steps by `360 // sides` degrees: 7 sides give 8 vertices
  [`C126_polygon`, `C126_polygon_sides_refuted`]; more than 360 sides raise ValueError.
* `iterhypotrochoid` turns the pen by `a / b + 1` instead of `a / b - 1` the other way and `iterspirograph` adds
  the sine instead of subtracting it: neither is drawn by a rolling circle
  [`C128_hypotrochoid_refuted`, `C128_spirograph_refuted`].
* `itercircleinvolute` multiplies (`z *= ...`) where an involute adds: it draws an Archimedean spiral from
  the centre [`C128_involute`, `C128_involute_refuted`].
* Steps that are not positive make the sweeping generators endless [`C128_endless`].
* `itereggcurve` uses `a - b` where the egg curve has its square: the egg is too short, for a = 100, b = 0 a
  circle of diameter 55 [`C129_egg`, `C129_egg_refuted`].
* The sides of `tetrahedravert`, `hexahedravert` and `octahedravert` do not all have the given length
  [`C130_tetrahedra_refuted`, `C130_hexahedra_refuted`, `C130_octahedra`, `C130_octahedra_refuted`]; the two
  rings of the icosahedron are too close [`C130_icosahedra`, `C130_icosahedra_refuted`].
* `spherevert` adds `[0, 0, -r]` without the centre [`C130_sphere`, `C130_sphere_refuted`].
* `perspective` shows the mirror image and raises ZeroDivisionError for vertices in the plane z = 0
  [`C130_perspective`].
* The circle of radius 2 is too small for `multijulia` with |c| > 2, `lambdafn` with |c| < 1 and `barnsleytree`
  with |d| < 2: points with bounded orbits count as escaped [`C131_julia_refuted`, `C131_lambda_refuted`,
  `C131_tree_refuted`].
* The function `multisuperellipse` of fractals.py gives floats: on 4-bit and 8-bit bitmaps the picture raises
  TypeError [`C132_superellipse_refuted`].
* Newton's method gives up where the derivative is 0 before it looks at the value: the threefold root 0 of
  z^5 - z^3 is not found from 0 itself [`C133_multiple_refuted`].
* `symmetriciconattractorlist` multiplies the coefficient o by i times the conjugate of z in place of z: icons with
  o other than 0 are not symmetric under rotation [`C134_icon_rotation`, `C134_icon_rotation_refuted`].
* `xorfn` cuts coordinates towards 0: the columns and rows around 0 are twice as wide [`C136_xor_refuted`].
* `hhmmsselaspedtime` does not pad the nanoseconds: 1.000000005 s reads 00:00:01.5 [`C137_time_refuted`].
* `getdefaultlumrange` has the key ' midasc' with a space in front: 'midasc' raises KeyError [`C137_lumranges_refuted`].
* `gammacorrectbyte` with a negative gamma raises ZeroDivisionError for 0 and leaves 0..255 for other bytes
  [`C137_gamma_refuted`].
* `colormix` and the threshold and gamma of 24-bit pictures cut off the product of rounded quotients: a channel 1 of a
  colour with luminosity 49 becomes 0 [`C139_threshold_refuted`, `C139_mix_refuted`, `C139_gamma_refuted`].
* `gradcircle` and the other gradients that cut off lerp: from 255 to 255 some rings are 254 [`C140_lerp_refuted`].
* `genpiechartdata`: the last slice of amounts 1, 4, 2 ends before 360 degrees [`C140_pie_refuted`].
* `resizeNtimessmaller` multiplies by the rounded 1 / n**2: for n = 14 the mean 1.5 becomes 1, not 2 [`C143_half_refuted`].
* `XYscatterplot`: a value on the limit of an axis may be refused: 97, with 15 pixels for a step of 3 from 20 on, is at 505, but
  compares greater than the limit 505 [`C144_limit_refuted`].
* `mandelbrot`: by rounding, 1/4 + 2^-54 never leaves although it is not in the set [`C145_cusp_refuted`].
* `iterspirograph` and the like: by rounding, ten steps of 0.1 up to 1 become eleven [`C146_extra_refuted`], and the loop never ends if
  the limit is more than 2^55 steps away [`C146_endless`].
* `lerp` between equal ends can give more than either [`C147_lerp_refuted`], `smoothstep` can decrease [`C147_order_refuted`], and
  `smootherstep` and `smootheststep` can exceed 1 [`C147_above_refuted`]; all by a few units in the last place.
* `RGBfactorstoBaseandRange` can give a negative range, since the base is rounded up [`C149_brightness_refuted`].
* `cosaffin` of (1, 1, 1) with itself is 1.0000000000000002, for which `acos` raises ValueError [`C150_cosine_refuted`].
* A face whose normal is (0, 0, -5) gets luminosity -1, and filling it raises OverflowError at 8 and 24 bits; this happens for solids placed behind the viewer [`C152_away_refuted`].
* A face that is seen from behind, but almost edge on, may be drawn: its test is rounded to 0 [`C153_edge_refuted`].
* In `X11colordict.py` 15 names are listed twice with shifted values and the last one counts: `darkred` is (143, 188, 143), `darkgray` is (85, 107, 47); the factors of `darkblue` are those of dark goldenrod; the HSL entry of `aqua` is not that of its colour [`C154_shifted_refuted`].
* `colormix(255, factors)` of X11 and XKCD names can lose one in each part, as factors have six digits: `snow` gives (255, 249, 249) for (255, 250, 250) [`C154_digits_refuted`].
* A squircle of radius 8 to 15 is drawn without its rightmost point (x + r, y) and with a pixel at (x, y + r + 1) outside of its square: the sides next to the tips are exact diagonals, which are drawn one row off [`C156_tip_refuted`].
