{"id": "C01", "title": "Header integers survive a write/read round trip", "statement": "writeint(off,n,a,v) followed by readint(off,n,a) returns v modulo 256^(n-1) (so v itself whenever 0 <= v < 256^(n-1)), every byte of the array outside off..off+n-2 keeps its value, the length of the array is unchanged; and buf2int(int2buf(n,v)) returns only v mod 256^(n-1), i.e. the top byte of an n-byte buffer is always lost.", "quantifier": "every array, every offset at which the field fits, every field width n >= 1 and every integer v", "why_tests_cant": "unbounded integers, widths, offsets and array contents", "anchors": ["pythonbmp/inttools.py: writeint, readint, int2buf, buf2int"]}
{"id": "C02", "title": "A new bitmap is exactly the blank bitmap that was asked for", "statement": "newBMP(x,y,bits) for bits in {1,4,8,24} and 0 <= x,y < 2^24 returns an array that starts with 'BM', whose reported width, height, colour depth, palette offset and file size are x, y, bits, the standard header size and the real length of the array; that length is header + y * (smallest multiple of 4 bytes holding x pixels); every pixel reads 0 and the palette is the built-in default palette of that depth.", "quantifier": "all widths and heights below 2^24 and all four depths", "why_tests_cant": "about 2^48 sizes per depth", "anchors": ["pythonbmp/BITMAPlib.py: newBMP, _setmeta, _bmmeta, _getbmflsz, _xbytes, getmaxxy, getallRGBpal", "pythonbmp/bmppal.py: bmpstdpal"]}
{"id": "C03", "title": "Unsupported colour depths never produce a bitmap", "statement": "newBMP with a depth other than 1, 4, 8 or 24 always raises an exception, for every width and height, and never returns an array.", "quantifier": "all integers as depth, all integers as width and height", "why_tests_cant": "infinitely many depths and sizes", "anchors": ["pythonbmp/BITMAPlib.py: newBMP, _xbytes, _getbmflsz", "pythonbmp/bmpconstants.py: bmpheadersizedict"]}
{"id": "C04", "title": "Reading a pixel decodes the BMP format", "statement": "On every well-formed bitmap getxybit(bmp,x,y) inside the image equals the value obtained by decoding the file bytes according to the BMP format (bottom-up rows padded to 32 bits, most significant bits first below 8 bits, BGR byte order for 24 bits) and is -1 for every coordinate outside the image.", "quantifier": "every well-formed bitmap of every size and depth, every integer x and y", "why_tests_cant": "unbounded image sizes and contents", "anchors": ["pythonbmp/BITMAPlib.py: getxybit, isinBMPrectbnd, _BMoffsethd"]}
{"id": "C05", "title": "A plotted pixel reads back", "statement": "After plotxybit(bmp,x,y,c) with (x,y) inside the image, getxybit(bmp,x,y) returns the colour reduced to the depth of the bitmap: c itself for 24 bit (0 <= c < 2^24), c mod 256 for 8 bit, c mod 16 for 4 bit, 1 or 0 for 1 bit according to c > 0.", "quantifier": "every well-formed bitmap, every pixel, every colour", "why_tests_cant": "all images times all colours", "anchors": ["pythonbmp/BITMAPlib.py: plotxybit, getxybit"]}
{"id": "C06", "title": "Plotting a pixel changes nothing else", "statement": "plotxybit(bmp,x,y,c) keeps the length of the array, every header and palette byte and the value of every other pixel; for coordinates outside the image it changes nothing at all; with a 24-bit colour outside 0..2^24-1 it raises OverflowError and leaves the array untouched.", "quantifier": "every well-formed bitmap, all integer coordinates and colours, all other pixels", "why_tests_cant": "quantifies over all pairs of pixels of all images", "anchors": ["pythonbmp/BITMAPlib.py: plotxybit"]}
{"id": "C07", "title": "Any history of plots behaves like a map from coordinates to colours", "statement": "After any sequence of plotxybit calls the image is still well formed with the same dimensions, header and palette, and each pixel reads as the last in-bounds colour plotted there (reduced to the depth), or its original value if it was never plotted.", "quantifier": "every finite sequence of plot calls with arbitrary (even out of range) coordinates, every starting bitmap", "why_tests_cant": "all histories", "anchors": ["pythonbmp/BITMAPlib.py: plotxybit, getxybit"]}
{"id": "C08", "title": "Palette entries written are palette entries read", "statement": "setbmppal with exactly 2^bits entries of bytes makes getallRGBpal return that list and changes no pixel and no other header field; with any other number of entries it changes nothing; setRGBpal(c,r,g,b) makes getRGBpal(c) return [r,g,b] and leaves all other entries and all pixels alone.", "quantifier": "every well-formed bitmap of depth 1, 4 or 8, every palette list, every index", "why_tests_cant": "all palettes times all bitmaps", "anchors": ["pythonbmp/BITMAPlib.py: setbmppal, getallRGBpal, setRGBpal, getRGBpal, setbmppalwithBGRlist, setbmppalwithBGRAlist"]}
{"id": "C09", "title": "palshift rotates the palette and nothing else", "statement": "On a 4- or 8-bit bitmap with m palette entries palshift(bmp,s) moves entry (i+|s|) mod m to entry i, for every integer s, changes no pixel index and no other header byte; shifting by s and then by t equals shifting by |s|+|t|; shifting m times by one is the identity. On 1- and 24-bit bitmaps it only reports an error.", "quantifier": "every well-formed bitmap, every integer shift", "why_tests_cant": "all palettes and all shifts", "anchors": ["pythonbmp/BITMAPlib.py: palshift, itercolorcycle", "pythonbmp/paramchecks.py: func4and8bitonly"]}
{"id": "C10", "title": "Saving and loading a bitmap is the identity", "statement": "For every well-formed bitmap of more than 54 bytes (every bitmap with a palette or with at least one pixel), loadBMP after saveBMP to the same file name returns the identical array, whatever the file system held before, and saveBMP changes no other file. A 24-bit bitmap without pixels is exactly 54 bytes long and loads as the empty array: witnessed.", "quantifier": "every well-formed bitmap, every file system state, every file name", "why_tests_cant": "all images and file system states", "anchors": ["pythonbmp/BITMAPlib.py: loadBMP, saveBMP", "pythonbmp/chartools.py: char2int"]}
{"id": "C11", "title": "loadBMP never returns bytes the file does not declare", "statement": "For every existing file loadBMP returns either the empty array (when the file does not start with 'BM' or declares a size of at most 54 bytes) or exactly the prefix of the file of the declared length (the whole file when it is shorter than declared); a declared size of 2^63 or more raises OverflowError; for a missing file it returns None; in no case is any file changed.", "quantifier": "every file content and every file system state", "why_tests_cant": "all byte strings", "anchors": ["pythonbmp/BITMAPlib.py: loadBMP", "pythonbmp/fileutils.py: checklink"]}
{"id": "C12", "title": "Block transfers stay inside the pixel data", "statement": "BMPbitBLTput(bmp,off,buf) on a well-formed bitmap never changes the length of the array or any header or palette byte: if the block does not fit inside the pixel data it reports an error and changes nothing, otherwise exactly the addressed bytes become buf and BMPbitBLTget of the same block returns buf.", "quantifier": "every well-formed bitmap, every integer offset, every buffer", "why_tests_cant": "all offsets and buffers", "anchors": ["pythonbmp/BITMAPlib.py: BMPbitBLTput, BMPbitBLTget"]}
{"id": "C13", "title": "Iterating an image visits every pixel once with its colour", "statement": "iterimagecolor yields exactly width*height items; for every coordinate inside the image exactly one of them carries it, together with the value getxybit reports there, at every depth and width (including widths that are not a multiple of the pixels per byte).", "quantifier": "every well-formed bitmap of every depth and size", "why_tests_cant": "all image sizes", "anchors": ["pythonbmp/BITMAPlib.py: iterimagecolor"]}
{"id": "C14", "title": "The colour histogram counts every pixel", "statement": "colorhistogram lists each colour that occurs in the image exactly once, with the number of pixels of that colour, in descending order of that number; the counts add up to width*height.", "quantifier": "every well-formed bitmap", "why_tests_cant": "all image contents", "anchors": ["pythonbmp/BITMAPlib.py: colorhistogram, iterimagecolor", "pythonbmp/dicttools.py: dict2descorderlist"]}
{"id": "C15", "title": "flipvertical turns the image upside down", "statement": "After flipvertical every pixel (x,y) has the value formerly at (x, height-1-y); header and palette are unchanged; applying it twice restores the array byte for byte.", "quantifier": "every well-formed bitmap", "why_tests_cant": "all image contents and sizes", "anchors": ["pythonbmp/BITMAPlib.py: flipvertical, verttrans"]}
{"id": "C16", "title": "mirrortop and mirrorbottom copy one half onto the other", "statement": "After mirrortop every pixel (x,y) has the value formerly at (x, min(y,height-1-y)); after mirrorbottom the one formerly at (x, max(y,height-1-y)); both are idempotent and leave header and palette alone.", "quantifier": "every well-formed bitmap", "why_tests_cant": "all image contents and sizes", "anchors": ["pythonbmp/BITMAPlib.py: mirrortop, mirrorbottom, verttrans"]}
{"id": "C17", "title": "fliphorizontal mirrors left and right", "statement": "After fliphorizontal on an 8- or 24-bit bitmap, or a 4-bit one of even width, every pixel (x,y) has the value formerly at (width-1-x,y) and a second call restores the array byte for byte; header and palette are unchanged. A bitmap without pixels is only reported. For 4-bit bitmaps of odd width and for 1-bit bitmaps the claim is false: concrete images lose pixels.", "quantifier": "every well-formed bitmap of those depths and widths; witnesses for the others", "why_tests_cant": "all image contents and sizes", "anchors": ["pythonbmp/BITMAPlib.py: fliphorizontal, fliphorizontalregion, horizontalbulkswap", "pythonbmp/bufferflip.py: rotatebits, flipnibbleinbyte"]}
{"id": "C18", "title": "Inverting an image is an involution that complements every pixel", "statement": "invertimagebits replaces every pixel value v by 2^bits-1-v, leaves header and palette unchanged, and applied twice restores the array byte for byte.", "quantifier": "every well-formed bitmap", "why_tests_cant": "all image contents", "anchors": ["pythonbmp/BITMAPlib.py: invertimagebits", "pythonbmp/colors.py: invertbitsinbuffer"]}
{"id": "C19", "title": "invertregion complements exactly the requested rectangle", "statement": "For corners inside the image (in any order) invertregion complements every pixel of the closed rectangle and no other pixel; twice is the identity on pixels; when a corner lies outside the image it reports an error and changes nothing.", "quantifier": "every well-formed bitmap, all integer corners", "why_tests_cant": "all images and all rectangles", "anchors": ["pythonbmp/BITMAPlib.py: invertregion, itercopyrect", "pythonbmp/paramchecks.py: entirerectinboundary"]}
{"id": "C20", "title": "crop returns exactly the selected rectangle", "statement": "crop(bmp,x1,y1,x2,y2) with both corners inside the image returns a well-formed bitmap of size (|x2-x1|+1) x (|y2-y1|+1) and the same depth whose pixel (i,j) equals pixel (min x+i, min y+j) of the source, and the source is not modified; the palette is carried over for depths 1 and 4 but for 8-bit sources the result has the default palette.", "quantifier": "every well-formed bitmap, all rectangles", "why_tests_cant": "all images and all rectangles", "anchors": ["pythonbmp/BITMAPlib.py: crop, itercopyrect, copyRGBpal"]}
{"id": "C21", "title": "flipXY exchanges rows and columns", "statement": "flipXY returns a bitmap of size height x width holding every source pixel exactly once: for 1- and 4-bit images pixel (x,y) moves to (y,x); for 8- and 24-bit images it moves to (height-1-y, width-1-x). Applying flipXY twice gives back the original pixels at every depth.", "quantifier": "every well-formed bitmap", "why_tests_cant": "all image contents and sizes", "anchors": ["pythonbmp/BITMAPlib.py: flipXY, vertBMPbitBLTget"]}
{"id": "C22", "title": "filledrect paints exactly the rectangle", "statement": "With both corners inside the image, in any order, filledrect paints every pixel of the closed rectangle and changes no other pixel, header or palette byte: on 24-bit bitmaps with the colour itself, on 1-bit bitmaps with 1 iff the colour is positive, on 4-bit bitmaps whose rectangle covers whole bytes with the colour modulo 16, and on 8-bit bitmaps with the palette index whose entry is nearest to the 24-bit colour among all non-black entries. With a corner outside it reports and changes nothing. On 4-bit bitmaps other rectangles are not filled completely: witnessed.", "quantifier": "every well-formed bitmap of any size, all integer corners and colours; a witness for the 4-bit defect", "why_tests_cant": "all images and rectangles", "anchors": ["pythonbmp/BITMAPlib.py: filledrect", "pythonbmp/paramchecks.py: entirerectinboundary"]}
{"id": "C23", "title": "Horizontal lines", "statement": "horiline(bmp,y,x1,x2,c) with 0 <= y < height paints exactly the pixels of row y with x between x1 and x2 that lie in the image, for any order of x1 and x2, on 1-bit bitmaps for all x, on 8-bit bitmaps if the larger x is at least -1079 and on 24-bit bitmaps if it is at least -19; below these bounds a line wholly left of the image can delete bytes of the array (witnessed). With y outside the image it prints a message and changes nothing. On 4-bit bitmaps the painted set is the requested one only if it starts at an even and ends at an odd x; otherwise the last pixel is missing (and a one-pixel line at odd x paints its left neighbour); off-screen to the right it can raise IndexError (witnessed).", "quantifier": "every well-formed bitmap, all integers y, x1, x2 and storable colours; witnesses for the defects", "why_tests_cant": "all images and coordinates", "anchors": ["pythonbmp/BITMAPlib.py: horiline"]}
{"id": "C24", "title": "Vertical lines", "statement": "vertline(bmp,x,y1,y2,c) paints exactly the pixels of column x with y between y1 and y2 that lie in the image and changes nothing else: on 1- and 4-bit bitmaps for all integers, on 8- and 24-bit bitmaps if x is a column of the image and the range does not start below the image. For x outside an 8- or 24-bit image it prints a message and changes nothing. A line wholly below the image can delete bytes of the array: witnessed.", "quantifier": "every well-formed bitmap, all integers x, y1, y2 and storable colours; a witness for the defect", "why_tests_cant": "all images and coordinates", "anchors": ["pythonbmp/BITMAPlib.py: vertline"]}
{"id": "C25", "title": "Line rasterisation: connected, complete and within a pixel of the line", "statement": "iterline(p1,p2) produces max(|dx|,|dy|)+2 points, successive points differ by at most one in each coordinate, the last point is p2, and each point is at most one pixel (along the shorter axis) from the ideal line. If |dx| and |dy| differ, the first point is p1, all points lie in the bounding box, the distance is less than one pixel and the set of points is one per column (or row, if steep), at the height the ideal line has one column further, rounded towards p1. For exact diagonals the set is known exactly: p1 is never produced and a point outside the bounding box is.", "quantifier": "all integer end points, of any distance", "why_tests_cant": "all pairs of points in the plane", "anchors": ["pythonbmp/primitives2D.py: iterline"]}
{"id": "C26", "title": "line() stays inside the image, except on exact diagonals", "statement": "line() clamps both end points to the image and, unless the clamped segment is an exact diagonal (or a horizontal line on a 4-bit bitmap), paints exactly the pixels iterline produces for them (one per column, or row if steep, at the height the ideal line has one column further, rounded towards the first point) with the colour and changes no other pixel, header or palette byte. On an exact diagonal that does not end in the first or last row it paints exactly the set iterline produces; if it ends there, there are inputs inside the image for which it overwrites header bytes, makes the array longer, or raises IndexError.", "quantifier": "every well-formed bitmap, all integer end points, all colours of the depth; witnesses for the diagonal defects", "why_tests_cant": "all images and end points", "anchors": ["pythonbmp/BITMAPlib.py: line", "pythonbmp/primitives2D.py: iterline"]}
{"id": "C27", "title": "Circle outlines", "statement": "itercircle(x,y,r) terminates and produces exactly the points of the midpoint circle: the offsets (a,b) with |a^2+b^2-r^2| within max(|a|,|b|) on the respective side. The set lies in the square |a|,|b| <= r, has all eight symmetries, meets every column -r..r, and circle() paints exactly those of its points that lie in the image, for every centre (also outside), changing nothing else. A negative radius gives nothing. Unlike plotxybit, circle() does not reduce the colour on 8-bit bitmaps: witnessed.", "quantifier": "every radius, every integer centre, every well-formed bitmap, all colours of the depth", "why_tests_cant": "all radii", "anchors": ["pythonbmp/primitives2D.py: itercirclepart, itercircle, iterthickcircle"]}
{"id": "C28", "title": "Filled circles", "statement": "itercirclepartlineedge(r) produces each row 0..r exactly once with the half width of the midpoint disc, and filledcircle paints exactly the pixels (a,b) of the image with a^2+b^2 <= r^2 + max(0, max(|a|,|b|)-1), a and b the offsets from the centre: every pixel within the radius, none a full pixel further out, and the outline circle() would draw. This holds on 1-bit bitmaps for every centre, on 8-bit bitmaps for centres x >= -1079 and on 24-bit bitmaps for x >= -19; further left it can delete bytes, and on 4-bit bitmaps pixels are missing: both witnessed. A negative radius changes nothing.", "quantifier": "every radius, every integer centre within the stated bounds, every well-formed bitmap", "why_tests_cant": "all radii", "anchors": ["pythonbmp/primitives2D.py: itercirclepartlineedge", "pythonbmp/BITMAPlib.py: filledcircle"]}
{"id": "C29", "title": "Upgrading to 24 bit preserves every colour", "statement": "upgradeto24bitimage of an 8-bit bitmap (any width), a 4-bit one of even width or a 1-bit one whose width is a multiple of 8 returns a 24-bit bitmap of the same size in which every pixel is the palette colour of the source pixel; the source is not modified. For the other widths the last columns are lost: witnessed. For a 24-bit source a message is printed and the bitmap is returned as it is.", "quantifier": "every well-formed bitmap of those widths; witnesses otherwise", "why_tests_cant": "all image contents, palettes and sizes", "anchors": ["pythonbmp/BITMAPlib.py: upgradeto24bitimage, convertbufto24bit, itercopyrect"]}
{"id": "C30", "title": "Copy and paste of a rectangle", "statement": "When a rectangle whose rows start and end on byte boundaries (every rectangle of an 8- or 24-bit bitmap), with fewer than 256 bytes per row and fewer than 256 rows, is copied with copyrect and pasted with pasterect at (px,py) into a bitmap of the same depth that has room for it one row lower, exactly the pixels of rows py+1..py+rows and columns px..px+cols-1 are replaced by the rectangle (one row too low). When a copied row is a multiple of 256 bytes long, pasterect never terminates.", "quantifier": "all pairs of well-formed bitmaps, all rectangles and target positions within those limits", "why_tests_cant": "all images and rectangles", "anchors": ["pythonbmp/BITMAPlib.py: copyrect, pasterect", "pythonbmp/inttools.py: buf2int"]}
{"id": "C31", "title": "Colour integer and channel triples correspond", "statement": "RGB2int(*int2RGB(c)) = c for every integer c, and int2RGB(RGB2int(r,g,b)) = (r,g,b) for all bytes g,b; int2BGRarr succeeds exactly for 0 <= c < 2^24 and yields the bytes b,g,r.", "quantifier": "all integers", "why_tests_cant": "unbounded integers / 2^24 colours", "anchors": ["pythonbmp/colors.py: int2RGB, RGB2int, int2RGBlist, int2BGRarr"]}
{"id": "C32", "title": "Palette matching picks a nearest colour", "statement": "matchRGBtopal(rgb,pal) with rgb a list returns the first index of rgb when it occurs in the palette; otherwise, for a non-black rgb, the first index whose colour is nearest to rgb among all non-black palette entries; for black not in the palette 0. It is not the nearest of all entries: near-black colours can be matched to white (witnessed).", "quantifier": "all palettes and colours of bytes, of every length", "why_tests_cant": "all palettes", "anchors": ["pythonbmp/colors.py: matchRGBtopal", "pythonbmp/mathlib.py: dist"]}
{"id": "C33", "title": "Buffer reversal is an involution", "statement": "flipbuf reverses the order of the pixels of a 4-bit, 8-bit or 24-bit buffer (length a multiple of 3) and applied twice gives the buffer back; for 1-bit buffers the pixels are reversed but the right-most pixel of every byte becomes 0.", "quantifier": "all buffers of every length", "why_tests_cant": "all buffers", "anchors": ["pythonbmp/bufferflip.py: flipbuf, flip24bitbuf, flip8bitbuf, flip4bitbuf, rotatebits, flipnibbleinbyte"]}
{"id": "C34", "title": "Channel splitting", "statement": "altsplitbuf gives the items at even and at odd places, len/2 of each. altsplitbufnway(buf,n) with n at most the length gives n channels, channel i holding the items i, i+n, i+2n, ...: as many as there are whole groups of n, but one less if n divides the length and the length is odd (so the last pixel is lost; witnessed). altsplitbuf3way is the case n=3 for every length. With more channels than items a channel can get an item it should not have: witnessed.", "quantifier": "all buffers of every length, every number of channels", "why_tests_cant": "all buffer lengths", "anchors": ["pythonbmp/buffersplit.py: altsplitbuf, altsplitbuf3way, altsplitbufnway"]}
{"id": "C35", "title": "Region operations are guarded", "statement": "Every operation behind a bounds guard (entirerectinboundary and its 24-bit/8-bit variants) called with a corner outside the image, or on the wrong depth, prints one message, changes nothing and returns None - whatever the guarded operation does.", "quantifier": "every bitmap, all corners, every guarded operation", "why_tests_cant": "all operations and arguments", "anchors": ["pythonbmp/paramchecks.py: entirerectinboundary, func24bitonly, func24bitonlyandentirerectinboundary, func8and24bitonlyandentirerectinboundary"]}
{"id": "C36", "title": "File to file operations never touch other files", "statement": "A two-file operation (load, transform, save) either leaves the whole file system unchanged (source missing, or the transform raises) or changes only the destination file, which then holds the transformed bitmap; the source is unchanged unless it is also the destination. When a transform that builds a new bitmap returns None, the plain wrapper raises TypeError and leaves an empty destination file, the region wrapper changes nothing.", "quantifier": "every file system state, every pair of names, every transform", "why_tests_cant": "all file system states", "anchors": ["pythonbmp/BITMAPlib.py: _usebyreffnsv and the *2file wrappers"]}
{"id": "C37", "title": "Erasing alternate lines", "statement": "erasealternatehorizontallines(n,k,pattern) replaces every row y with (y+1) mod n = k by the byte pattern, except that the bottom row is never erased even when it is selected; other rows, header and palette are unchanged; eraseeverynthhorizontalline is the case k = 0 with blanks; the region version does the same relative to the rectangle when its rows start and end on byte boundaries; n = 0 raises ZeroDivisionError and changes nothing.", "quantifier": "every well-formed bitmap, every period n other than 0, every phase and pattern", "why_tests_cant": "all images and periods", "anchors": ["pythonbmp/BITMAPlib.py: erasealternatehorizontallines, eraseeverynthhorizontalline"]}
{"id": "C38", "title": "Image comparison is exact", "statement": "The exclusive-or image of two bitmaps of equal size and depth is blank exactly when their pixel bytes agree; it is symmetric, and xoring it with one image gives the other.", "quantifier": "all pairs of well-formed bitmaps of equal dimensions", "why_tests_cant": "all pairs of images", "anchors": ["pythonbmp/BITMAPlib.py: imagecomp", "pythonbmp/mathlib.py: xorvect"]}
{"id": "C39", "title": "Determinants and orthogonality", "statement": "crossprod3d(u,v) is orthogonal to u and v, changes sign when they are exchanged and satisfies Lagrange's identity; getnormvec is orthogonal to all sides of the triangle; det3D differs from the determinant by exactly a1[2]*a2[1]*(a3[0]-a2[0]) (a wrong factor in one term), so it can be non-zero for equal rows: witnessed; isorthogonal holds exactly for vectors whose products vanish componentwise, so orthogonal vectors can be rejected: witnessed.", "quantifier": "all integer vectors", "why_tests_cant": "all vectors", "anchors": ["pythonbmp/mathlib.py: crossprod3d, det3D, isorthogonal"]}
{"id": "C40", "title": "The boundary test for lists of points accepts everything", "statement": "listinBMPrecbnd returns True for every list of points, including lists with points outside the image, so it never protects its callers.", "quantifier": "every bitmap and list of points", "why_tests_cant": "all lists", "anchors": ["pythonbmp/BITMAPlib.py: listinBMPrecbnd", "pythonbmp/primitives2D.py: listinrecbnd"]}
{"id": "C41", "title": "mirrorleft and mirrorright copy one half onto the other", "statement": "After mirrorleft on an 8- or 24-bit bitmap, or a 4-bit one whose width is a multiple of 4, every pixel (x,y) has the value formerly at (min(x,width-1-x),y); after mirrorright the one formerly at (max(x,width-1-x),y); header and palette are unchanged. For other even widths of 4-bit bitmaps the two middle pixels are exchanged: witnessed.", "quantifier": "every well-formed bitmap of those depths and widths; witness for the others", "why_tests_cant": "all image contents and sizes", "anchors": ["pythonbmp/BITMAPlib.py: mirrorleft, mirrorright, mirrorleftinregion, mirrorrightinregion, _horizontalbulkswap"]}
{"id": "C42", "title": "Region flips and mirrors act exactly inside the rectangle", "statement": "For corners inside the image, in any order, flipverticalregion, mirrortopinregion, mirrorbottominregion (rectangles on byte boundaries), fliphorizontalregion (8 and 24 bit, and 4 bit on byte boundaries) and mirrorleftinregion/mirrorrightinregion (8 and 24 bit, and 4 bit on byte boundaries with an even number of bytes) move the pixels inside the rectangle as their names say and change no other pixel, header or palette byte; fliphorizontalregion is its own inverse byte for byte; with a corner outside they only report. On rectangles that do not start on a byte boundary pixels outside the rectangle change: witnessed.", "quantifier": "every well-formed bitmap, all integer corners", "why_tests_cant": "all images and rectangles", "anchors": ["pythonbmp/BITMAPlib.py: flipverticalregion, mirrortopinregion, mirrorbottominregion, fliphorizontalregion, mirrorleftinregion, mirrorrightinregion"]}
{"id": "C43", "title": "Pixel-based flips are exact at every depth", "statement": "fliphorzontalpixelbased and fliphverticalalpixelbased with corners inside the image and in top-left, bottom-right order flip exactly the pixels of the rectangle, at every depth and alignment; with the corners in another order they silently do nothing. swapcolors exchanges exactly two pixels.", "quantifier": "every well-formed bitmap of every depth, all rectangles", "why_tests_cant": "all images, rectangles and depths", "anchors": ["pythonbmp/BITMAPlib.py: fliphorzontalpixelbased, fliphverticalalpixelbased, swapcolors"]}
{"id": "C44", "title": "Corner mirrors replicate one quadrant", "statement": "mirrortopleft, mirrortopright, mirrorbottomleft and mirrorbottomright (8 and 24 bit, and 4 bit with width a multiple of 4) give every pixel the value of its reflection in the named quadrant; the region versions do so inside the rectangle only. Header and palette are unchanged.", "quantifier": "every well-formed bitmap of those depths and widths, every rectangle", "why_tests_cant": "all image contents and sizes", "anchors": ["pythonbmp/BITMAPlib.py: mirrortopleft, mirrortopright, mirrorbottomleft, mirrorbottomright and their inregion versions"]}
{"id": "C45", "title": "Integer enlargement repeats every pixel n x n times", "statement": "resizeNtimesbigger(bmp,n), n >= 1, on an 8-bit bitmap or a 4- or 24-bit one of even width returns a well-formed bitmap n times as wide and high whose pixel (x,y) is the source pixel (x div n, y div n), with the source palette, and does not modify the source. For 24-bit bitmaps of odd width the last column is wrong, for 1-bit bitmaps the bits of every byte are rotated: witnessed.", "quantifier": "every well-formed bitmap of those depths and widths, every factor with a result below 2^24 in each direction; witnesses for the others", "why_tests_cant": "all images, sizes and factors", "anchors": ["pythonbmp/BITMAPlib.py: resizeNtimesbigger", "pythonbmp/bufresize.py, pythonbmp/buffersplit.py"]}
{"id": "C46", "title": "convertselection2BMP returns a padded, shifted copy", "statement": "For a rectangle on byte boundaries with fewer than 255 columns, fewer than 256 rows and fewer than 256 bytes per row, convertselection2BMP of its copyrect buffer returns a bitmap two columns wider and one row higher than the selection, whose first row and last two columns are blank and whose other pixels are the selection; so it never has the size of the selection (witnessed).", "quantifier": "every well-formed bitmap and every such rectangle", "why_tests_cant": "all images and rectangles", "anchors": ["pythonbmp/BITMAPlib.py: convertselection2BMP, copyrect, pasterect"]}
{"id": "C47", "title": "Tables, translations and centre points", "statement": "pivotlist transposes a rectangular table, and applied twice gives it back; trans(vlist,u) is undone by translating by -u and by subvect; centerpoint lies in the bounding box and at the same distance from both corners up to one unit, for corners in any order.", "quantifier": "all tables of integers with at least one row and column; all vectors of equal length; all integer corners", "why_tests_cant": "Unit tests look at a few tables and points; the inverse laws and the rounding for negative extents are claims about all of them.", "anchors": ["pythonbmp/mathlib.py: pivotlist, trans, addvect, subvect, centerpoint"]}
{"id": "C48", "title": "The monochrome filter averages the channels of exactly the given rectangle", "statement": "monofilterto24bitregion on a 24-bit bitmap with both corners inside, given in any order, replaces every pixel (r,g,b) of the rectangle by (m,m,m) with m = (r+g+b) div 3 and changes nothing else; applying it again changes nothing; monofilterto24bitimage does it to the whole image. Other depths and corners outside are refused with a message and leave the bitmap as it is.", "quantifier": "every well-formed 24-bit bitmap, every pair of corners; refusals for every bitmap", "why_tests_cant": "a per-pixel claim about all images, sizes and rectangles", "anchors": ["pythonbmp/BITMAPlib.py: monofilterto24bitregion, monofilterto24bitimage, _usenopar24btfn2reg", "pythonbmp/colors.py: monochromefiltertoBGRbuf", "pythonbmp/paramchecks.py: func24bitonlyandentirerectinboundary"]}
{"id": "C49", "title": "The colour filter scales the channels of the rectangle except its last column", "statement": "colorfilterto24bitregion/-image with factors that keep every byte in 0..255 apply the channel functions to every pixel of the rectangle but those in its right-most column, which stay unchanged (witnessed), and change nothing else; with larger factors they can raise OverflowError (witnessed). Other depths and corners outside are refused.", "quantifier": "every well-formed 24-bit bitmap, every rectangle, every triple of functions from bytes to bytes (the rounded products are among them)", "why_tests_cant": "all images and all factors", "anchors": ["pythonbmp/BITMAPlib.py: colorfilterto24bitregion, colorfilterto24bitimage", "pythonbmp/colors.py: colorfiltertoBGRbuf, applycolorfiltertoBGRbuf"]}
{"id": "C50", "title": "Brightness, gamma and threshold act pixelwise on exactly the rectangle", "statement": "brightnesseadjto24bitregion replaces every channel v in the rectangle by g(v) clamped to 0..255; gammaadjto24bitregion by g(lum,v) mod 256, lum the largest channel (1 for black); thresholdadjto24bitregion leaves black pixels and pixels whose largest channel is between the limits, given in any order, and scales the others by g(t,lum,v) with t the nearer limit. Nothing else changes; the image versions are the region versions on the full rectangle; other depths and corners outside are refused.", "quantifier": "every well-formed 24-bit bitmap and rectangle; g an arbitrary function of integers in place of the floating point expression", "why_tests_cant": "all images, rectangles and adjustment functions", "anchors": ["pythonbmp/BITMAPlib.py: brightnesseadjto24bitregion, thresholdadjto24bitregion, gammaadjto24bitregion and the -image versions", "pythonbmp/colors.py: applybrightnessadjtoBGRbuf, applythresholdadjtoBGRbuf, applygammaBGRbuf, gammaBGRbuf"]}
{"id": "C51", "title": "Brightness gradients use the step of the row or column", "statement": "verticalbrightnessgradto24bitregion applies to every pixel of the rectangle the brightness function of its distance from the bottom row; horizontalbrightnessgradto24bitregion the function of its distance from the left column, but leaves the top row of the rectangle unchanged (witnessed). A rectangle of a single row respectively column raises ZeroDivisionError and changes nothing.", "quantifier": "every well-formed 24-bit bitmap, every rectangle, every family of functions", "why_tests_cant": "all images, rectangles and gradients", "anchors": ["pythonbmp/BITMAPlib.py: verticalbrightnessgradto24bitregion, horizontalbrightnessgradto24bitregion"]}
{"id": "C52", "title": "outline XORs every pixel with the one above it", "statement": "outlineregion with the corners given top-left, bottom-right on byte boundaries replaces every pixel of the rectangle by its XOR with the original pixel above it, makes its first row 0 and changes nothing else; outline does so for the whole image (rows of whole bytes). With corners in another order pixels outside the rectangle change (witnessed). Corners outside the image are refused.", "quantifier": "every well-formed bitmap of every depth, every such rectangle", "why_tests_cant": "all images and rectangles, in-place overwriting of rows that are read later", "anchors": ["pythonbmp/BITMAPlib.py: outlineregion, outline", "pythonbmp/mathlib.py: xorvect"]}
{"id": "C53", "title": "Which circles the circular-region functions accept", "statement": "The horizontal circle transforms and magnifyNtimescircregion refuse, with a message and without a change, exactly the circles that do not fit in the image. The vertical transforms, flipXYcircregion, copycircregion2buf and the line eraser compare the rows with the width instead: they refuse circles inside a tall image and accept circles below a wide one, where they overwrite header bytes (both witnessed).", "quantifier": "every well-formed bitmap, every centre and radius >= 0", "why_tests_cant": "all sizes and positions; the tests use square-ish images", "anchors": ["pythonbmp/paramchecks.py: entirecircleinboundary, func24bitonlyandentirecircleinboundary, func8and24bitonlyandentirecircleinboundary"]}
{"id": "C54", "title": "Vertical flips and mirrors in a circle", "statement": "For a circle inside the image (and y+r < width, see C53) flipvertcircregion, mirrortopincircregion and mirrorbottomincircregion exchange respectively copy the pixels of the disc with those mirrored at its horizontal diameter, except those of the last byte of each row of the disc (at 8 and 24 bits: the right-most pixel of each row, witnessed); nothing else changes, and flipping twice restores the image.", "quantifier": "every well-formed bitmap of every depth and every such circle", "why_tests_cant": "all images, centres and radii; an involution law", "anchors": ["pythonbmp/BITMAPlib.py: flipvertcircregion, mirrortopincircregion, mirrorbottomincircregion, _verttransformincircregion", "pythonbmp/primitives2D.py: itercirclepartlineedge"]}
{"id": "C55", "title": "Horizontal flips and mirrors in a circle", "statement": "For a circle inside an 8- or 24-bit image fliphoricircregion, mirrorleftincircregion and mirrorrightincircregion exchange respectively copy the pixels of the disc with those mirrored at its vertical diameter, except circumference pixels whose neighbour towards the horizontal diameter is on the circumference too (witnessed); nothing else changes, flipping twice restores the image. Lower depths are refused.", "quantifier": "every well-formed bitmap and every such circle", "why_tests_cant": "all images, centres and radii; an involution law", "anchors": ["pythonbmp/BITMAPlib.py: fliphoricircregion, mirrorleftincircregion, mirrorrightincircregion, _horitransformincircregion", "pythonbmp/primitives2D.py: itercirclepartvertlineedge"]}
{"id": "C56", "title": "Inversion and colour filters in a circle", "statement": "invertbitsincircregion, for any circle whose centre is not far to the left of the image, clips the circle and complements the pixels of the disc except the last byte of each row; twice restores the image. The 24-bit filters (brightness, gamma, colour) apply their function to the same pixels (the colour filter to one pixel less per row); monocircle does so for circles inside the image but raises TypeError when the circle is partly outside (witnessed). A circle far to the left changes pixels although it does not meet the image (witnessed).", "quantifier": "every well-formed bitmap, every centre and radius in the stated domain, every filter function", "why_tests_cant": "all images and circles including clipped ones", "anchors": ["pythonbmp/BITMAPlib.py: invertbitsincircregion, monocircle, colorfiltercircregion, gammacorrectcircregion, brightnessadjcircregion, _usenoparfn2circreg, _usenopar24btfn2circreg, _use24btfn2circreg"]}
{"id": "C57", "title": "flipXYcircregion rotates or transposes the disc", "statement": "flipXYcircregion on 8- and 24-bit bitmaps turns the whole disc by a quarter turn (pixel (x+dx,y+dy) becomes the old (x+dy,y-dx)), so four applications restore the image and it is not a transposition (witnessed); on 1- and 4-bit bitmaps, if x-y is a whole number of bytes, it transposes the disc except the last byte of each row. Nothing else changes.", "quantifier": "every well-formed bitmap, every circle inside with y+r < width", "why_tests_cant": "all images, centres and radii; an order-4 law", "anchors": ["pythonbmp/BITMAPlib.py: flipXYcircregion, vertBMPbitBLTget, flipXY"]}
{"id": "C58", "title": "Copying circular regions", "statement": "copycircregion2buf and pastecirularbuf move the disc around (x,y) of one bitmap to (nx,ny) of another of the same depth, except the last byte of each row, if the displacement is a whole number of bytes; the source bitmap and all other pixels of the destination stay the same; copycircregion does so within one bitmap even if the discs overlap. A buffer of another depth raises TypeError; a destination outside prints a message; both leave the bitmap as it is.", "quantifier": "every pair of well-formed bitmaps and circles in the stated domain", "why_tests_cant": "all images and positions, overlapping discs", "anchors": ["pythonbmp/BITMAPlib.py: copycircregion2buf, pastecirularbuf, copycircregion"]}
{"id": "C59", "title": "Erasing lines in a circle", "statement": "erasealternatehorizontallinesincircregion(x,y,r,n,k,pat) fills the rows py with py mod n = k of the disc, except the last byte of each, with the byte pattern pat mod 256 (decoded at the pixel's place in its byte) and changes nothing else; n = 0 raises ZeroDivisionError and changes nothing.", "quantifier": "every well-formed bitmap, every circle inside with y+r < width, every n, k, pattern", "why_tests_cant": "all images and parameters", "anchors": ["pythonbmp/BITMAPlib.py: erasealternatehorizontallinesincircregion, eraseeverynthhorizontallineinccircregion"]}
{"id": "C60", "title": "outlinecircregion XORs with the following byte", "statement": "outlinecircregion replaces every pixel of the disc clipped to the image, except the last byte of each row, by its XOR with the pixel one byte (24-bit: one pixel) to the right, and changes nothing else.", "quantifier": "every well-formed bitmap of every depth, every circle whose centre is not far to the left", "why_tests_cant": "all images and circles including clipped ones", "anchors": ["pythonbmp/BITMAPlib.py: outlinecircregion"]}
{"id": "C61", "title": "magnifyNtimescircregion magnifies about the centre", "statement": "For a circle inside a 24-bit bitmap of even width, magnifyNtimescircregion(x,y,r,n) replaces every pixel (px,py) of the disc, except the last of each row, by the original pixel (x + (px-x) div n, y + (py-y) div n) and changes nothing else. Other depths are refused.", "quantifier": "every well-formed 24-bit bitmap of even width, every circle inside, every n >= 1 with products below 2^24", "why_tests_cant": "all images, circles and factors", "anchors": ["pythonbmp/BITMAPlib.py: magnifyNtimescircregion, resizeNtimesbigger"]}
{"id": "C62", "title": "Bit patterns are drawn bit by bit with squares", "statement": "plot8bitpattern and its upside-down, mirrored, italic, mirrored italic, upside-down italic, sideways and italic sideways versions repaint exactly the pixels covered by the squares of the set bits - side scale-pixspace (at least 1), placed every scale pixels - with the colour of the row (a single colour or a list used cyclically) and change nothing else. Squares larger than one pixel that are not wholly inside the image are left out with a message each; a pattern that fits is drawn completely and silently. 4-bit bitmaps are right only for squares covering whole bytes; mirrored patterns lose the column of bit 0; sideways patterns advance eight colours per row (all witnessed).", "quantifier": "every well-formed bitmap, every position (also outside), pattern of bytes, scale >= 1, pixspace >= 0, colour or colour list", "why_tests_cant": "all patterns, positions, scales and colour lists; clipping at every edge", "anchors": ["pythonbmp/BITMAPlib.py: plot8bitpattern, plot8bitpatternupsidedown, plotrotated8bitpattern, plotitalic8bitpattern, plotreverseditalic8bitpattern, plotupsidedownitalic8bitpattern, plot8bitpatternsideway, plotitalic8bitpatternsideway and the -withfn functions they use"]}
{"id": "C63", "title": "Bit patterns are drawn bit by bit with dots", "statement": "The ...asdots versions repaint exactly the pixels of the discs of diameter max(0, scale-1-pixspace) in the cells of the set bits with the colour of the row, clipped to the image, silently, and change nothing else. On 8-bit bitmaps dots and single pixels take the colour as palette index, squares take it as 24-bit colour (witnessed).", "quantifier": "every well-formed 8- or 24-bit bitmap (every depth if the dots are single pixels), every pattern, position not far to the left, scale >= 1, pixspace >= 0", "why_tests_cant": "all patterns, positions, scales and colours", "anchors": ["pythonbmp/BITMAPlib.py: plot8bitpatternasdots, plot8bitpatternupsidedownasdots, plotrotated8bitpatternasdots, plotitalic8bitpatternasdots, plotreverseditalic8bitpatternasdots, plotupsidedownitalic8bitpatternasdots, plot8bitpatternsidewaywithdots, plotitalic8bitpatternsidewayasdots"]}
{"id": "C64", "title": "Strings are set on a grid", "statement": "plotstring and its italic, mirrored, upside-down, vertical and sideways versions draw the glyph of every character in its cell - column*(8*scale+space), line*(height*scale+space) from the start, the axes exchanged for vertical text, turned for sideways text; newline begins a line, tab skips four columns, mirrored and upside-down text is set in reverse order, a space of 0 counts as 1 - later characters over earlier ones, and change nothing else. Text that fits in the image is drawn completely and silently; otherwise every square crossing the edge is left out with a message.", "quantifier": "every well-formed bitmap, every text of characters in the font, every font of bytes, position, scale >= 1, pixspace >= 0, space, colour or colour list", "why_tests_cant": "all texts, fonts, positions and scales", "anchors": ["pythonbmp/BITMAPlib.py: plotstring, plotitalicstring, plotreversestring, plotreverseditalicstring, plotstringupsidedown, plotupsidedownitalicstring, plotstringvertical, plotitalicstringvertical, plotstringsideway, plotitalicstringsideway, plotstringfunc, plotstringsidewayfn, plotstringverticalwithfn", "pythonbmp/chartools.py: enumletters, enumreverseletters", "pythonbmp/fonts.py: getcharfont"]}
{"id": "C65", "title": "Strings of dots are set on the same grid", "statement": "The ...asdots versions of the string functions draw the dots of every glyph in the same cells, clipped to the image and silently, and change nothing else; only upside-down text as dots is not set in reverse order (witnessed).", "quantifier": "every well-formed 8- or 24-bit bitmap (every depth for single-pixel dots), every text of characters in the font, position not far to the left, scale, spaces >= 0", "why_tests_cant": "all texts, fonts, positions and scales", "anchors": ["pythonbmp/BITMAPlib.py: plotstringasdots, plotitalicstringasdots, plotreverseditalicstringasdots, plotstringupsidedownasdots, plotupsidedownitalicstringasdots, plotstringverticalasdots, plotitalicstringverticalasdots, plotstringsidewayasdots, plotitalicstringsidewayasdots"]}
{"id": "C66", "title": "A character that is not in the font stops the drawing", "statement": "Every string function raises IndexError at the first character (in drawing order) beyond the font; the characters before it have been drawn exactly as if the text ended there.", "quantifier": "all string functions, texts, fonts, positions, bitmaps", "why_tests_cant": "all texts; the state after an exception", "anchors": ["pythonbmp/BITMAPlib.py: plotstring and the other string functions", "pythonbmp/fonts.py: getcharfont"]}
{"id": "C67", "title": "Fonts and patterns as text", "statement": "Each of the six fonts consists of its height (8 or 14) and glyphs of that many bytes for exactly the characters 0 to 255; getcharfont returns them; only the characters 0, 32 and 255 are blank and all others differ from each other. (The 8x14 sans serif table is shifted by one row, witnessed.) plot8bitpatternastext renders a pattern as one line of eight characters and a newline per row, from which every bit can be read back.", "quantifier": "all characters of all fonts; all patterns and characters", "why_tests_cant": "32 thousand table entries, pairwise differences; all patterns", "anchors": ["pythonbmp/fonts.py: font8x8, font8x8thin, font8x8sanserif, font8x14, font8x14thin, font8x14sanserif, getcharfont", "pythonbmp/textgraphics.py: plot8bitpatternastext"]}
{"id": "C68", "title": "Text images have the right size and contents", "statement": "plotstring2file and its italic, mirrored, upside-down, vertical and dotted versions create a file, and print nothing: a well-formed bitmap with the default palette, columns*(8*scale+space) + 2*scale wide (more by the slant for italics) and lines*(height*scale+space) + 2*scale high (columns and lines exchanged for vertical text), in the background colour, with the complete text drawn inside a margin of scale pixels.", "quantifier": "every text of characters in the font, every font of bytes, scale >= 1, spaces >= 0, colours, background, depths 1, 8 and 24 (dots: 8 and 24), sizes below 2^24", "why_tests_cant": "all texts and parameters; that no text is ever cut off", "anchors": ["pythonbmp/BITMAPlib.py: plotstring2file, plotitalicstring2file, plotreversedstring2file, plotreverseditalicstring2file, plotupsidedownstring2file, plotverticalstring2file, plotverticalitalicstring2file, plotstringasdots2file, plotitalicstringasdots2file, plotupsidedownstringasdots2file, plotreversedstringasdots2file, plotverticalstringasdots2file, plotverticalitalicstringasdots2file", "pythonbmp/textgraphics.py: computetextrowandcolcnt"]}
{"id": "C69", "title": "Mirroring a quarter of a disc", "statement": "mirrortopleftincircregion and its three siblings change a disc inside an 8- or 24-bit image as follows and nothing else: first the rows of the disc are mirrored up or down, then its columns left or right, so the named quarter appears in all four (up to the boundary pixels of C54 and C55). With other depths only the vertical part happens and the message for the depth is printed; a disc outside prints the boundary message twice and changes nothing.", "quantifier": "all 8/24-bit bitmaps and discs inside; all depths and discs outside", "why_tests_cant": "all images and radii", "anchors": ["pythonbmp/BITMAPlib.py: mirrortopleftincircregion, mirrortoprightincircregion, mirrorbottomleftincircregion, mirrorbottomrightincircregion"]}
{"id": "C70", "title": "Gradients and thresholds in discs", "statement": "vertbrightnessgrad2circregion and horibrightnessgrad2circregion apply to every pixel of the disc the brightness function of its distance from the top (left) end of the disc, clamped to 0..255, and leave all other pixels alone; radius 0 raises ZeroDivisionError; other depths and discs outside are refused with a message. thresholdadjcircregion applies its threshold function pixel by pixel. The gradients of whole images are those of the rectangle of the image. (Some circumference pixels are skipped, witnessed.)", "quantifier": "all 24-bit bitmaps, all discs inside, all brightness functions", "why_tests_cant": "all images, radii and functions", "anchors": ["pythonbmp/BITMAPlib.py: vertbrightnessgrad2circregion, horibrightnessgrad2circregion, thresholdadjcircregion, verticalbrightnessgradto24bitimage, horizontalbrightnessgradto24bitimage, fnwithpar2vertslice"]}
{"id": "C71", "title": "Gradient rectangles and backgrounds", "statement": "filledgradrect (8/24 bit) and filleddichromaticgradrect (24 bit) repaint exactly the rectangle; the colour depends only on the column (direction 0) or row: it is the gradient colour number min(x, n) of n = width, x counted from the image border, on 8-bit bitmaps the nearest non-black palette entry. So a rectangle at least its own width away from the border gets a single colour. Backgrounds are the rectangle of the whole image. Other depths and corners outside are refused with a message and no change.", "quantifier": "all bitmaps, rectangles inside, directions and colour functions", "why_tests_cant": "all sizes, positions and functions", "anchors": ["pythonbmp/BITMAPlib.py: filledgradrect, filleddichromaticgradrect, fillbackgroundwithgrad, fillbackgroundwithdichromaticgrad"]}
{"id": "C72", "title": "Polylines, polygons and rectangles", "statement": "plotlines with pen radius at most 1 paints exactly the pixels of the segments between neighbouring vertices, plotpoly also the closing segment, plotpolylist those of all polygons, rectangle exactly the four sides; end points are first moved to the nearest pixel of the image. An empty polygon raises IndexError without change; an empty polyline does nothing. (A rectangle beside the image leaves a trace on its border, witnessed.)", "quantifier": "all bitmaps, all vertex lists whose segments fit (no horizontal ones on 4-bit bitmaps, exact diagonals not ending at the last row)", "why_tests_cant": "all vertex lists; exactness of the pixel set", "anchors": ["pythonbmp/BITMAPlib.py: plotlines, plotpoly, plotpolylist, rectangle, linevec"]}
{"id": "C73", "title": "Round pens", "statement": "thickroundline, plotlines and plotxypointlist with a pen radius above 1, thickplotpoly, thickcircle and thickellipserot paint exactly the union of the discs of the pen's radius around the pixels of the thin figure, clipped to the image, in one colour, and nothing else. A pen of radius 0 paints the thin figure.", "quantifier": "all bitmaps of depth 1, 8, 24, all figures not too far left of the image, all pen radii", "why_tests_cant": "all figures, radii and clippings", "anchors": ["pythonbmp/BITMAPlib.py: thickroundline, plotlines, thickplotpoly, thickcircle, plotxypointlist, thickellipserot"]}
{"id": "C74", "title": "Gradient pens, rings and orbs", "statement": "The gradient versions paint layers from the thickest to the thinnest pen: each pixel ends with the colour of the thinnest layer that covers it (on palette bitmaps the nearest non-black entry), pixels in no layer keep their colour. gradcircle consists of rings of radius 1 to r-1 drawn with a pen of radius 2, orb of those from r/2+1 on over a disc of radius r/2. graddichromiccircle refuses other depths with a message. (The middle of the orb is mostly hidden and the orb extends beyond its radius, witnessed.)", "quantifier": "all bitmaps of depth 1, 8, 24, all figures, pen radii and colour functions", "why_tests_cant": "all figures and colour functions; the order of the layers", "anchors": ["pythonbmp/BITMAPlib.py: gradthickroundline, gradthickplotpoly, gradplotlines, gradvert, gradthickcircle, thickencirclearea, gradcircle, graddichromiccircle, orb, gradthickellipserot"]}
{"id": "C75", "title": "The ellipse outline", "statement": "For positive half axes iterellipsepart ends and yields a connected outline of the first quadrant: it starts at (0, b), each step goes one right, one down or both, every row from b to 0 is visited, no point leaves 0 <= y <= b, and the points of the flat part are in the row nearest to the ellipse in their column. b = 0 gives the centre alone, b < 0 nothing; a = b = 0 never ends. (The outline may miss or pass the half axis a, with a = b it is not the circle, and a = 0 is not a vertical line: witnessed.)", "quantifier": "all half axes", "why_tests_cant": "all half axes; termination", "anchors": ["pythonbmp/primitives2D.py: iterellipsepart"]}
{"id": "C76", "title": "Drawing ellipses", "statement": "The outline is the quadrant of C75 mirrored into all four, the filled ellipse the horizontal spans between mirrored points; exactly these pixels, clipped to the image, get the colour. A gradient ellipse at least as wide as high shows for each pixel the colour of the smallest of the nested filled ellipses that covers it. (Outlines are only correct if those that pass the box test are really inside: the half axes are exchanged in the test and the outline may pass its box, so pixels appear elsewhere; gradient ellipses higher than wide spill over: witnessed.)", "quantifier": "all bitmaps, centres, half axes a, b > 0, colours", "why_tests_cant": "all half axes and positions", "anchors": ["pythonbmp/BITMAPlib.py: ellipse, filledellipse, gradellipse", "pythonbmp/primitives2D.py: entireellipseisinboundary, iterellipse"]}
{"id": "C77", "title": "Parallelograms", "statement": "filledparallelogram(p1,p2,p3) paints exactly the pixels of the segments from p to p + (p2-p1) for the pixels p of the segment p1 to p3; segments keep their shape when both ends are moved. (With two diagonal sides this leaves holes, witnessed.)", "quantifier": "all bitmaps and triples of points whose segments fit", "why_tests_cant": "all shapes", "anchors": ["pythonbmp/BITMAPlib.py: filledparallelogram", "pythonbmp/primitives2D.py: iterparallelogram, iterline"]}
{"id": "C78", "title": "Grids and line lists", "statement": "xygrid paints exactly the columns at multiples of xstep and rows at multiples of ystep from the first corner, within the box, without the lines at the far sides; a zero step raises ValueError before any change, negative steps draw nothing. vertlinevert and horilinevert paint exactly one line of the given length from each vertex. Lines outside the image only print a message.", "quantifier": "all bitmaps of depth 1, 8, 24, all boxes, steps and vertex lists with the stated reach", "why_tests_cant": "all boxes and steps", "anchors": ["pythonbmp/BITMAPlib.py: xygrid, xygridvec, vertlinevert, horilinevert"]}
{"id": "C79", "title": "Swapping two pixels", "statement": "swapcolors exchanges the colours of two pixels of the image and changes nothing else; doing it twice restores the image. (With a point outside it raises OverflowError for 24-bit bitmaps and paints colour 255 for 8-bit ones, witnessed.)", "quantifier": "all bitmaps, all pairs of pixels inside", "why_tests_cant": "all images and pairs", "anchors": ["pythonbmp/BITMAPlib.py: swapcolors, plotxybitvec, getxybitvec"]}
{"id": "C80", "title": "Reducing an image", "statement": "resizeNtimessmaller returns a new 24-bit bitmap of size (w div n) x (h div n) and leaves the original alone; every pixel is the channel-wise rounded mean of an n x n square of the original, the squares being counted from the bottom left corner. A square that needs the last column of an image of odd width gives black instead. Other depths print a message and give None, n = 0 raises ZeroDivisionError before anything else. (Counting from the top left fails when n does not divide the height, witnessed.)", "quantifier": "all non-empty 24-bit bitmaps, all n > 0, all roundings that map mean values to bytes; all depths", "why_tests_cant": "all images, sizes and factors", "anchors": ["pythonbmp/BITMAPlib.py: resizeNtimessmaller", "pythonbmp/bufresize.py: resizesmaller24bitbuf"]}
{"id": "C81", "title": "Pixelating an image or a disc", "statement": "pixelizenxn returns a new bitmap of uniform n x n squares, each with the mean colour of the corresponding square of the original; when the number of squares per row is even this is exact. pixelizenxncircregion gives the pixels of the disc the colours of the pixelated image and changes nothing else when n divides both dimensions and the number of squares per row is even. Other depths and squares larger than the image raise TypeError after the message. (If n does not divide the size the result is smaller than the image, and bytes may be deleted from the bitmap by the circular version; an odd number of squares leaves the last ones black: witnessed.)", "quantifier": "all 24-bit bitmaps, all n with an even number of squares per row, all discs inside", "why_tests_cant": "all images, sizes, factors and discs", "anchors": ["pythonbmp/BITMAPlib.py: pixelizenxn, pixelizenxncircregion"]}
{"id": "C82", "title": "Whole-image functions from file to file", "statement": "The file-to-file versions of the flips, mirrors, inversion, outline, line deletion, transposition, palette shift, upgrade to 24 bits and resizing read the source file, write exactly one file - the destination - and leave all others alone (source and destination may be the same); the destination holds the image transformed as the in-memory function promises, and the console shows the announcement, the confirmation and the elapsed time. Upgrading a 24-bit file writes it unchanged to the destination and says that it already has 24 bits.", "quantifier": "all file systems, names and well-formed bitmaps with pixels in the domain of the in-memory function", "why_tests_cant": "all file contents and names", "anchors": ["pythonbmp/BITMAPlib.py: flipvertical2file, fliphorizontal2file, mirrortop2file \u2026 mirrorbottomright2file, invertbits2file, outline2file, eraseeverynthhoriline2file, flipXY2file, upgradeto24bitimage2file, palshift2file, resizeNtimesbigger2file, resizeNtimessmaller2file, pixelizenxntofile"]}
{"id": "C83", "title": "Rectangle functions from file to file", "statement": "The file-to-file versions of the operations on rectangles change exactly the destination file; its pixels are those of the source with the rectangle flipped, mirrored, inverted, outlined, filled, shaded or filtered and the rest unchanged. A rectangle not inside the image saves an unchanged copy after a message; the functions for 24-bit images write nothing for other depths; a brightness gradient over a single row or column raises ZeroDivisionError before anything is written.", "quantifier": "all file systems, bitmaps and rectangles, all colour functions giving bytes", "why_tests_cant": "all file contents, names and rectangles", "anchors": ["pythonbmp/BITMAPlib.py: flipverticalregion2file \u2026 mirrorbottomrightinregion2file, invertregion2file, outlineregion2file, eraseeverynthhorilineinregion2file, rectangle2file, filledrect2file, filledgradrect2file, filleddichromaticgradrect2file, adjustbrightnessinregion2file, adjustthresholdinregion2file, colorfilterinregion2file, monofilterinregion2file, gammaadjtoregion2file, horizontalbrightnessgradregion2file, verticalbrightnessgradregion2file"]}
{"id": "C84", "title": "Disc functions from file to file", "statement": "The file-to-file versions of the operations on discs change exactly the destination file; its pixels are those of the source with the disc (as far as the in-memory function treats it) moved, inverted, outlined, filtered, magnified, pixelated, copied or filled, the rest unchanged. Discs that do not fit save an unchanged copy after a message; the functions for 24-bit images write nothing for other depths.", "quantifier": "all file systems, 8- and 24-bit bitmaps and discs inside, all colour functions giving bytes", "why_tests_cant": "all file contents, names and discs", "anchors": ["pythonbmp/BITMAPlib.py: invertbitsincircregion2file \u2026 copycircregion2file (15151-15875)"]}
{"id": "C85", "title": "Colour adjustments from file to file", "statement": "monochrome2file, adjustbrightness2file, thresholdadjust2file, colorfilter2file and gammaadj2file map every palette entry of a palette image and leave its pixel indices alone, and map the pixels of a 24-bit image one by one; only the destination file changes. The grey of a palette entry is the mean rounded to the nearest integer, that of a 24-bit pixel the mean rounded down, so the same picture gets different greys (witnessed).", "quantifier": "all file systems and bitmaps, all colour functions giving bytes", "why_tests_cant": "all file contents and palettes", "anchors": ["pythonbmp/BITMAPlib.py: _useclradjfn, monochrome2file, adjustbrightness2file, thresholdadjust2file, colorfilter2file, gammaadj2file", "pythonbmp/colors.py: monochrome"]}
{"id": "C86", "title": "Missing sources and saved crops", "statement": "Every file-to-file function reports a missing source file and changes no file. cropBMPandsave writes the cropped image to the destination and nothing else, and nothing at all when the rectangle leaves the image. cropBMPandsaveusingrectbnd includes one more column and row than the rectangle given, and refuses the full image (witnessed).", "quantifier": "all file systems, names, parameters, bitmaps and rectangles", "why_tests_cant": "all file systems", "anchors": ["pythonbmp/BITMAPlib.py: _usebyreffnsv, cropBMPandsave, cropBMPandsaveusingrectbnd", "pythonbmp/fileutils.py: checklink"]}
{"id": "C87", "title": "Computed palettes", "statement": "setBMP2monochrome, setBMP2invshiftedmonochrome and setBMP2dichromaticpal store exactly the palette their arguments describe - entry i of a monochrome palette is the colour for luminosity i*255/(2^bits-1), reversed, multiplied and shifted modulo 256 for the second function; for the third the entry 3*(n-i) mod n is the colour i/n of the way between the two colours, so each mixed colour has exactly one entry -, return that palette, and change neither pixels nor other header bytes. 24-bit bitmaps are refused with ValueError and stay as they are.", "quantifier": "all well-formed bitmaps of 1, 4 and 8 bits, all colour functions giving bytes, all multipliers and shifts", "why_tests_cant": "all palettes and factors", "anchors": ["pythonbmp/BITMAPlib.py: setBMP2monochrome, setBMP2invshiftedmonochrome, setBMP2dichromaticpal", "pythonbmp/colors.py: monochromepal, monoinverseshiftableBGRApal, dichromaticpal, RGB2BGRAlist"]}
{"id": "C88", "title": "Fractals paint exactly their rectangle", "statement": "A fractal changes exactly the pixels of its rectangle without the last column and row (in whatever order the corners are given, clipped to the image) and each one gets the colour of the value of the fractal there: the mix for luminosity (255-v)*20 mod 256 in 24-bit bitmaps, v modulo the number of colours with three factors, the reversed index otherwise. An empty rectangle raises ZeroDivisionError before anything is painted. Values above 255 stop 8-bit fractals with OverflowError, 24-bit bitmaps need three factors, and an 8-bit fractal that leaves the image paints pixels outside its rectangle (witnessed).", "quantifier": "all value functions, factors, bitmaps and rectangles", "why_tests_cant": "any value function", "anchors": ["pythonbmp/BITMAPlib.py: _plotmultifractal, _plotmultifractalcomplexpar, mandelbrot, multibrot, julia, multijulia, tricorn, multicorn and the other fractals that call them", "pythonbmp/fractals.py: itermultifractal, itermultifractalcomplexpar"]}
{"id": "C89", "title": "Escape times", "statement": "The escape-time functions return the number of the first step that leaves the bound, or maxiter if none of maxiter steps does; biomorphs count a step only when both coordinates are large; all of them return values between 0 and maxiter, so that maxiter up to 255 always fits an 8-bit bitmap.", "quantifier": "all step functions, bounds, starting values and iteration limits", "why_tests_cant": "all orbits", "anchors": ["pythonbmp/fractals.py: multibrot, multijulia, multicorn, barnsleytree, spiraljulia, lambdafn, ngonfunc, tetrationfn, sinjulia, cosjulia, marekdragon, biomorphfunc, multibiomorphvariant, multicircle, multihyperbola, astroid, lemniscate, xorfn, xordivfn"]}
{"id": "C90", "title": "Fractals saved to files", "statement": "The functions that save a fractal write one file: a well-formed bitmap of the requested size and depth whose palette is the one the factors describe and whose pixels have the colours of the values. With factors that are mixed alike for palettes and 24-bit colours, the 8-bit file and the 24-bit file show the same picture.", "quantifier": "all value functions, factors, sizes below 2^24, depths, file systems and names", "why_tests_cant": "all sizes and functions", "anchors": ["pythonbmp/BITMAPlib.py: newBMPwithPAL, _savefractal2file, _savefractalcomplexpar2file and the functions that call them"]}
{"id": "C91", "title": "Newton's fractal", "statement": "Each root found gets its own factor, in the order in which the roots are found; no two of them are near each other; a pixel takes the factor of the first root near its own and its brightness from the number of iterations; pixels without a root keep their colour. Fewer factors than roots stop 24-bit fractals with IndexError. Saved to a file this is the only file changed; with two or three factors and a palette depth the saving function raises TypeError and writes nothing.", "quantifier": "all root functions with reflexive nearness, factors, bitmaps and rectangles", "why_tests_cant": "all polynomials", "anchors": ["pythonbmp/BITMAPlib.py: newtonsfractal, savenewtonsfractal2file", "pythonbmp/fractals.py: iternewtonsfractal"]}
{"id": "C92", "title": "Ferns and flowers", "statement": "Points of iterated function systems are drawn exactly where they fall strictly inside the rectangle; fern refuses rectangles that leave the image. A flower paints exactly the points of its outline, with reversed colour numbers below 24 bits; a filled flower draws the radii from r down to 3, so the smallest radius that reaches a pixel decides its colour.", "quantifier": "all point sequences, outlines, colours and bitmaps", "why_tests_cant": "random and computed points", "anchors": ["pythonbmp/BITMAPlib.py: IFS, fern, plotflower, plotfilledflower", "pythonbmp/fractals.py: iterIFS"]}
{"id": "C93", "title": "Attractors", "statement": "An attractor is a new bitmap of the requested size whose pixel shows how many points of the orbit fall on it, minus the smallest such count and scaled by the difference to the largest. An orbit that meets all pixels equally often raises ZeroDivisionError, a point outside raises IndexError. The saving functions change only their file.", "quantifier": "all orbits, scalings, sizes below 2^24 and depths", "why_tests_cant": "all orbits", "anchors": ["pythonbmp/BITMAPlib.py: _plotattractor, the attractors and their 2file functions", "pythonbmp/mathlib.py: histogram2D"]}
{"id": "C94", "title": "Hilbert's curve", "statement": "The curve of order n visits each cell of a 2^n x 2^n grid once, from the first corner to the next one along the side, every step to a neighbouring cell; its vertices are the rounded centres of the cells. The saved 24-bit image shows exactly the segments between consecutive centres on the background. The other orientation exchanges width and height, so that in images that are not square part of the curve lies outside (witnessed).", "quantifier": "all orders, sizes below 2^24, colours, backgrounds, file systems", "why_tests_cant": "the recursion is unbounded", "anchors": ["pythonbmp/BITMAPlib.py: savehilbertcurve2file", "pythonbmp/fractals.py: hilbertvert"]}
{"id": "C95", "title": "Koch's curve and snowflake", "statement": "Koch's curve of order n has 4^n+1 points, starts and ends at the given points, and at each level the three inner points of each segment are the subdivision of its ends. The snowflake is the three curves over the sides of the triangle.", "quantifier": "all subdivision functions, points and orders", "why_tests_cant": "the subdivision is repeated without bound", "anchors": ["pythonbmp/fractals.py: kochcurvevert, kochsnowflakevert, koch"]}
{"id": "C96", "title": "Scanning the colours of an image", "statement": "iterimageRGB yields every pixel exactly once, with the colour a viewer shows for it, from the bottom row to the top and from left to right, for every 8- and 24-bit bitmap and every 1- and 4-bit bitmap whose rows end at a byte boundary. With other widths it yields the bottom row only (witnessed). getRGBxybit gives the colour shown at a point and the empty list outside.", "quantifier": "all well-formed bitmaps and all points", "why_tests_cant": "all sizes and depths", "anchors": ["pythonbmp/BITMAPlib.py: iterimageRGB, getRGBxybit, getRGBxybitvec"]}
{"id": "C97", "title": "Neighbours of a pixel", "statement": "itergetneighbors yields each neighbour at most once, only points of the image, and all neighbours in the image for pixels not in column 1 or row 1; from there column 0 and row 0 are left out (witnessed). With includecenter the point itself is added. getneighborcolorlist gives their colours in the same order.", "quantifier": "all image sizes and points", "why_tests_cant": "all positions and sizes", "anchors": ["pythonbmp/primitives2D.py: itergetneighbors, getneighborlist", "pythonbmp/BITMAPlib.py: getneighborcolorlist"]}
{"id": "C98", "title": "Regions of a colour", "statement": "getimageregionbyRGB lists exactly the pixels whose colour is within the threshold of the given one, without repetition. imgregionbyRGB2file saves the image (or a black one with the same header and palette) in which exactly the pixels under the pen at those points have the edge colour; no other file changes and a missing source is only reported.", "quantifier": "all thresholds (any predicate on the colour distance), colours, pens, bitmaps whose rows end at a byte boundary, file systems", "why_tests_cant": "all images and thresholds", "anchors": ["pythonbmp/BITMAPlib.py: getimageregionbyRGB, iterimageregionvertbyRGB, imgregionbyRGB2file, copyBMPhdr"]}
{"id": "C99", "title": "Edges and cropping at the edges", "statement": "getimagedgevert lists, for each pixel in scan order, the first looked-at neighbour whose colour is farther than the threshold; so every listed point lies in the image next to a pixel of a far colour, and the list is empty exactly when no pixel has a far neighbour among those looked at. plotimgedges paints exactly the pixels under the pen at those points. autocropimg2file saves the bounding box of the edges enlarged by one column and one row when that fits the image, otherwise prints that the region is out of bounds and saves nothing (witnessed); without edges it raises IndexError, for a missing file TypeError.", "quantifier": "all thresholds (any predicate on the colour distance), bitmaps whose rows end at a byte boundary, pens and file systems", "why_tests_cant": "all images and thresholds", "anchors": ["pythonbmp/BITMAPlib.py: iterimagedgevert, getimagedgevert, plotimgedges, autocropimg2file", "pythonbmp/primitives2D.py: rectboundarycoords"]}
{"id": "C100", "title": "Palettes chosen by frequency", "statement": "makenewpalfromcolorhist chooses at most the requested number of colours: black first, no two near each other, every further one a colour of the image such that all more frequent colours are near (or equal to) an earlier entry, and if there is room left every colour of the image is near (or equal to) an entry. setnewpalfromsourcebmp stores it in the other bitmap when it is full and leaves that bitmap unchanged otherwise (a palette that is not full is returned but not stored: witnessed).", "quantifier": "all 24-bit images, thresholds (any predicate) and palette sizes", "why_tests_cant": "all images", "anchors": ["pythonbmp/BITMAPlib.py: makenewpalfromcolorhist, setnewpalfromsourcebmp"]}
{"id": "C101", "title": "Reduction of the colour depth", "statement": "reduce24bitimagebits saves a well-formed bitmap of the same size and the new depth. With 4 or 8 bits every pixel has the number of a nearest entry that is not black, of the palette chosen by frequency or of the monochrome palette; the chosen palette is the one of the file only when it is full, otherwise the file has the default palette. With one bit every pixel has the drawn colour number. Images of other depths are refused and missing files reported, without writing. Images with few colours, and black pixels, therefore change their colours (witnessed).", "quantifier": "all 24-bit files, thresholds, palettes, random choices, file systems", "why_tests_cant": "all images", "anchors": ["pythonbmp/BITMAPlib.py: reduce24bitimagebits, CopyBMPxydim2newBMP"]}
{"id": "C102", "title": "Colours matched to the palette", "statement": "adjustcolordicttopal keeps the keys and replaces each 24-bit colour by the number of a nearest palette entry that is not black; 24-bit bitmaps leave the dictionary as it is; a colour outside 24 bits raises OverflowError. Black is never matched to a black entry (witnessed). RGBpalbrightnessadjust returns the adjusted colour of every palette entry in order.", "quantifier": "all dictionaries and bitmaps", "why_tests_cant": "all palettes and colours", "anchors": ["pythonbmp/BITMAPlib.py: adjustcolordicttopal, RGBpalbrightnessadjust", "pythonbmp/colors.py: matchRGBtopal, int2RGBarr"]}
{"id": "C103", "title": "Colour cycle in files", "statement": "colorcycle2dir writes exactly one file per palette entry, with different names; file i is the image with its palette rotated by i entries. An existing directory without permission to overwrite raises before anything is written; 1- and 24-bit bitmaps raise TypeError; a missing file is reported.", "quantifier": "all 4- and 8-bit files, directory names and file systems (mkdir itself is not modelled)", "why_tests_cant": "all images", "anchors": ["pythonbmp/BITMAPlib.py: colorcycle2dir, itercolorcycle, _usefndirsv"]}
{"id": "C104", "title": "Balls, ferns and snowflakes in files", "statement": "sphere2file saves the 24-bit image with rings of radius 1 to r-1, each in its own colour, inner ones on top; other depths are refused, a missing file raises TypeError. fern2file saves the image with the points of the fern strictly inside the rectangle. savekochsnowflake2file saves a square bitmap of 2r+2p+2 pixels in the background colour in which exactly the pixels of the closed polygon through the vertices have the pen colour. Only the destination changes.", "quantifier": "all colour functions, positions, sizes below 2^24, vertex lists and file systems", "why_tests_cant": "all sizes and positions", "anchors": ["pythonbmp/BITMAPlib.py: sphere, sphere2file, _use24btclrfnwithmultpar2circreg, fern2file, savekochsnowflake2file"]}
{"id": "C105", "title": "Bitmaps as text", "statement": "plotbmpastext prints one line per image row from the top, except the bottom row (witnessed): the character in column x is a star or blank for the bit, the letter 'a'+n for a 4-bit pixel n, the character n for an 8-bit pixel n; lines of 24-bit bitmaps are empty.", "quantifier": "all well-formed bitmaps", "why_tests_cant": "all images", "anchors": ["pythonbmp/BITMAPlib.py: plotbmpastext", "pythonbmp/textgraphics.py: plotbitsastext"]}
{"id": "C106", "title": "Filled polygons", "statement": "plotpolyfill paints in every row all pixels from the first to the last pixel of the outline and nothing else; a polygon whose outline leaves the image is not painted but reported, the empty list raises IndexError. A rectangle is painted exactly. Notches are filled too, exact diagonals overshoot so that polygons inside the image are refused, and 4-bit bitmaps miss pixels (all witnessed).", "quantifier": "all bitmaps of 1, 8 and 24 bits, all vertex lists and colours", "why_tests_cant": "all polygons", "anchors": ["pythonbmp/BITMAPlib.py: plotpolyfill, fillboundary", "pythonbmp/solids3D.py: polyboundary, fillpolydata"]}
{"id": "C107", "title": "Arcs and sectors", "statement": "drawarc without filling paints exactly the pixels of the ring between the two angles and the radii at its ends. Filled, every row of this outline is painted from end to end in the fill colour, outline included (the outline colour and showoutline have no effect); partly outside the image only the outline is painted and a message printed; with no pixel between the angles filling raises IndexError; radius 0 raises ZeroDivisionError.", "quantifier": "all bitmaps, centres, radii, colours and all pairs of angles (any selection of ring pixels)", "why_tests_cant": "all radii and angles", "anchors": ["pythonbmp/BITMAPlib.py: drawarc", "pythonbmp/primitives2D.py: arcvert"]}
{"id": "C108", "title": "Pie charts", "statement": "piechart paints each slice of less than half in its own rows, later ones on top, over a disc in the colour of the last slice of at least a half. An empty list changes nothing; a total of 0 raises ZeroDivisionError; a slice too thin for a ring pixel raises IndexError. Of two halves only the second is visible (witnessed).", "quantifier": "all charts, centres, radii and depths except 4 bits", "why_tests_cant": "all charts", "anchors": ["pythonbmp/BITMAPlib.py: piechart"]}
{"id": "C109", "title": "Painted faces", "statement": "plotpolyfillist paints the faces in order, each wholly or (if it leaves the image) not at all with a message, in the colour for its normal as the bitmap can show it; fewer colours than faces raise IndexError after the painted ones. plot3d paints outlines over the faces.", "quantifier": "all lists of faces, colour functions and bitmaps of 1, 8 and 24 bits", "why_tests_cant": "all solids", "anchors": ["pythonbmp/BITMAPlib.py: plotpolyfillist, plot3d, plot3Dsolid"]}
{"id": "C110", "title": "Visible sides of a solid", "statement": "surfacetest is minus the scalar product of a side's normal with its first vertex, independent of the vertex a side begins with, and changes its sign when the side is reversed. gensides keeps exactly the sides with a test of at most 0, in order, moved by the given vector, with their normals; indices out of range raise IndexError. For a convex solid with outward sides that is turned and moved, a side is kept exactly if its plane separates the solid from the viewer or contains the viewer. The sides of the tetrahedron are oriented inwards, so the hidden ones are kept (witnessed).", "quantifier": "all integer vertex lists, sides, positions and turns (any sines and cosines)", "why_tests_cant": "all solids and positions", "anchors": ["pythonbmp/solids3D.py: surfacetest, gensides, perspective", "pythonbmp/mathlib.py: getnormvec"]}
{"id": "C111", "title": "Surfaces without a border", "statement": "The faces of the tetrahedron, cube, hexahedron, octahedron, decahedron and icosahedron meet two at each edge, in opposite directions. Cube and octahedron are convex with all faces oriented outwards, for every size; tetrahedron, hexahedron and sphere are oriented inwards (proved). Cylinders and cones close when the step divides 360 and have one side per step; otherwise there is a hole (witnessed). Spheres close for rings of equal length, with one face for each pair of neighbours. A step of 0 raises ValueError.", "quantifier": "all sizes, all steps dividing 360, all spheres with rings of equal length", "why_tests_cant": "all sizes and steps", "anchors": ["pythonbmp/solids3D.py: tetrahedravert, cubevert, octahedravert, hexahedravert, decahedvertandsurface, icosahedvertandsurface, cylindervertandsurface, conevertandsurface, zlevelcoords, genspheresurfaces"]}
{"id": "C112", "title": "Surface plots", "statement": "surfplot3Dvertandsurface lists the points of the graph over the grid row by row and one face for each cell of the grid, without repetition, when the step divides the width. Otherwise faces join points that are not neighbours (witnessed); a step larger than the width raises ZeroDivisionError, a step of 0 ValueError.", "quantifier": "all functions, rectangles and steps dividing the width", "why_tests_cant": "all functions and grids", "anchors": ["pythonbmp/solids3D.py: surfplot3Dvertandsurface"]}
{"id": "C113", "title": "Fourier transform", "statement": "For lists whose length is a power of two fft is the discrete Fourier transform: entry j is the sum of the items times the powers i j of the root of unity. ifft after fft gives the list times its length (there is no division by the length). With an odd length the last item stays as it is.", "quantifier": "all lists of length 2^k over every commutative ring with a root of unity (floats replaced by ring elements)", "why_tests_cant": "all lengths and values", "anchors": ["pythonbmp/mathlib.py: _applyfft, fft, ifft"]}
{"id": "C114", "title": "Statistics", "statement": "mean times the number of items is the sum, nothing raises ZeroDivisionError; variance returns the deviations, which add up to 0; StdDev is the root of the mean square deviation, 0 only for equal items. LSMslope and LSMYint give the one line with the least sum of squared distances, so data on a line give that line back; they raise ZeroDivisionError exactly if all x are equal. PearsonsR is the sum of products of deviations over the root of the product of their sums of squares and lies between -1 and 1; Rsquare is its square.", "quantifier": "all lists of integers and all tables of points with further columns; exact rational arithmetic, any root function", "why_tests_cant": "optimality over all lines for all data", "anchors": ["pythonbmp/mathlib.py: mean, variance, StdDev, coefvar, LSMslope, LSMYint, PearsonsR, Rsquare"]}
{"id": "C115", "title": "Interpolation", "statement": "lerp and invlerp are inverse to each other and lerp stays between its ends; clamp returns the nearest value in [a, b]. smoothstep, smootherstep and smootheststep rise strictly from 0 at a to 1 at b, whichever is larger, and are symmetric about the middle; outside they are not clamped (witnessed), for a = b they are 1. The interpolations with a smooth step run strictly from a to b.", "quantifier": "all rational ends and values", "why_tests_cant": "strict monotonicity for all values", "anchors": ["pythonbmp/mathlib.py: lerp, invlerp, clamp, smoothstep, smootherstep, smootheststep, smoothsteplerp, smoothersteplerp, smootheststeplerp"]}
{"id": "C116", "title": "Bezier curves and B-splines", "statement": "iterbeziercurve joins by segments the points nearest to the Bezier curve at the multiples of 1/(4n), starting in the first control point, and stays in every rectangle around the control points but for one row. The last control point of n has no effect on it, and a single point is joined to the origin (proved and witnessed). iterbspline joins the points nearest to the uniform cubic B-spline (Cox and de Boor); its weights are not negative and add up to 1; closed with curveback it ends where it began, open it ends in the last control point. Without curveback the first control point has no effect. The empty list raises IndexError.", "quantifier": "all lists of control points; exact rational arithmetic", "why_tests_cant": "all lists of control points", "anchors": ["pythonbmp/primitives2D.py: iterbeziercurve, _bezierblend, iterbspline, _bsplineblend"]}
{"id": "C117", "title": "Axes", "statement": "XYaxis draws, from bottom to top: the grid if asked for, both arrows with ticks every step pixels from the origin, the numbers start + i step beside the i-th mark of the y axis (to the left, moved by 8 pixels per further digit) and below the i-th mark of the x axis, in decimal; it returns its parameters and the highest values shown, and reports only lines out of bounds. drawvec draws the line and the two arms of the head, thin or with a round pen. numbervert leaves out the first or the last number when told to. A step of 0 raises ValueError before anything is drawn. The rows of the grid are counted from the upper limit, so they miss the ticks unless the height is a multiple of the step (witnessed).", "quantifier": "all bitmaps of 1, 8 and 24 bits, origins, limits, positive steps, integer values, colours and arrowheads", "why_tests_cant": "all positions, sizes and values; every pixel of the image", "anchors": ["pythonbmp/BITMAPlib.py: XYaxis, numbervert, drawvec, xygridvec, vertlinevert, horilinevert", "pythonbmp/primitives2D.py: iterdrawvec, horizontalvert, verticalvert"]}
{"id": "C118", "title": "Scatter plots", "statement": "userdef2Dcooordsys2screenxy maps values to coordinates by the linear scale that takes start + i step to the i-th mark of the axis; it is strictly monotone, and a step of 0 raises ZeroDivisionError. Beyond the right or upper limit it prints a message and returns (-1, -1). XYscatterplot draws at the nearest pixel a pixel, circle or disc of at most 5 pixels, later points over earlier ones, with one message per point beyond a limit. The regression line joins the ends of the line of least squares, cut at the highest y; points with one x only raise ZeroDivisionError after the marks are drawn, and so does a horizontal line beyond the limit. Witnessed defects: a point beyond the limits leaves a mark in the corner of the image, points below or left of the axes are drawn outside the plot, a falling line that begins above the plot is drawn from the corner.", "quantifier": "all bitmaps of 1, 8 and 24 bits, tables of integer data, axes and colours; rational arithmetic in place of floats", "why_tests_cant": "all data and scales; optimality over all lines", "anchors": ["pythonbmp/BITMAPlib.py: userdef2Dcooordsys2screenxy, XYscatterplot, circlevec, plotvecxypoint"]}
{"id": "C119", "title": "Adjustments of one colour", "statement": "brightnessadjust gives each component times (1 + p / 100), rounded and limited to 0..255; p = 0 changes nothing, and a larger p or larger components never give smaller ones. thresholdadjust brings the largest component into the limits (in either order), scales the others in proportion, leaves colours within the limits as they are and black black. colorfilter multiplies each component by its factor, rounds and limits. gammacorrect scales a colour so that its largest component v becomes the integer part of 255 (v / 255) ** gamma. All results are bytes.", "quantifier": "all colours of three bytes, percentages, limits, factors and power functions on 0..1; rational arithmetic in place of floats", "why_tests_cant": "2^24 colours times all parameters", "anchors": ["pythonbmp/colors.py: brightnessadjust, thresholdadjust, colorfilter, gammacorrect, gammacorrectbyte, RGBtoRGBfactorsandlum, RGBfactors2RGB", "pythonbmp/mathlib.py: intsetminmax, setminmaxvec"]}
{"id": "C120", "title": "Adjustments of image files do not depend on the depth", "statement": "adjustbrightness2file, colorfilter2file, thresholdadjust2file, gammaadj2file and monochrome2file write a bitmap in which the colour shown at every pixel is the adjustment of the colour shown there before, whether the file has a palette or 24 bits per pixel: exactly for brightness and for filters with factors in 0..1 (but the filter omits the last column at 24 bits), within 1 for the others, because palettes are rounded and 24-bit pixels truncated (witnessed). A filter with a factor above 1 limits in a palette and raises OverflowError in a 24-bit image (witnessed).", "quantifier": "all files of all depths and sizes, percentages, limits and factors; rational arithmetic in place of floats", "why_tests_cant": "every pixel of every image, all depths", "anchors": ["pythonbmp/BITMAPlib.py: adjustbrightness2file, colorfilter2file, thresholdadjust2file, gammaadj2file, monochrome2file", "pythonbmp/colors.py: applybrightnessadjtoBGRbuf, applycolorfiltertoBGRbuf, applythresholdadjtoBGRbuf, applygammaBGRbuf, monochromefiltertoBGRbuf"]}
{"id": "C121", "title": "Gradients between colours and brightnesses", "statement": "With lerp or any of the smooth steps, the colours of a gradient from c1 to c2 have components that are the rounded interpolations, lie between those of c1 and c2, never turn back, and are c1 at 0 and c2 at the end; so do the pixels of filleddichromaticgradrect, fillbackgroundwithdichromaticgrad and graddichromiccircle. Brightness gradients of one hue give the hue at the first and last brightness at the ends; layers and rings are truncated to a brightness between the two ends and to components within 1 of the hue times that brightness. The background never reaches c2: the last column of n is (n - 1) / n of the way (witnessed).", "quantifier": "all colours, brightnesses, factors in 0..1, sizes and positions; the four interpolating functions (and any monotone one); rational arithmetic in place of floats", "why_tests_cant": "all colours and positions; monotonicity over the whole range", "anchors": ["pythonbmp/BITMAPlib.py: filleddichromaticgradrect, filledgradrect, fillbackgroundwithdichromaticgrad, graddichromiccircle, gradcircle, gradthickcircle, gradthickroundline, gradthickplotpoly", "pythonbmp/colors.py: interpolateRGB, colormix", "pythonbmp/mathlib.py: lerp, smoothsteplerp, smoothersteplerp, smootheststeplerp, range2baseanddelta"]}
{"id": "C122", "title": "Palettes of one hue and of two colours", "statement": "setBMP2monochrome with factors in 0..1 makes entry i of a palette of n colours the hue times 255 i / (n - 1), rounded, with black first; setBMP2dichromaticpal makes entry 3 (n - i) mod n the rounded mixture at i / n of the way from c1 to c2, with c1 first. The pixels are left alone.", "quantifier": "all bitmaps of 1, 4 and 8 bits, factors and colours; rational arithmetic in place of floats", "why_tests_cant": "all sizes, colours and factors", "anchors": ["pythonbmp/BITMAPlib.py: setBMP2monochrome, setBMP2dichromaticpal", "pythonbmp/colors.py: monochromepal, dichromaticpal, RGBfactors2RGB"]}
{"id": "C123", "title": "HSL values", "statement": "RGB2HSL rounds, to degrees and percent, a hue in [0, 360), a saturation and a luminosity in [0, 1] from which the usual conversion gives back exactly the three components. Greys give hue and saturation 0. The rounded hue can be 360 (witnessed).", "quantifier": "all colours of three bytes; rational arithmetic in place of floats", "why_tests_cant": "2^24 colours; exactness of the inverse conversion", "anchors": ["pythonbmp/colors.py: RGB2HSL"]}
{"id": "C124", "title": "Matching to the default palette of 4 bits", "statement": "matchRGBtodefault4bitpal returns 4 for red, 2 for green and 1 for blue components of at least 64, plus 8 if some component is at least 128. In a new 4-bit image of any size that entry shows the colour with red and blue exchanged, each component 0, 128 or 255, so it is not the nearest entry (witnessed). probplotRGBto4bitpal does the same with drawn numbers above 128, so colours with all components below 128 always become black.", "quantifier": "all colours of three bytes, image sizes and draws", "why_tests_cant": "2^24 colours, all draws", "anchors": ["pythonbmp/colors.py: matchRGBtodefault4bitpal, probplotRGBto4bitpal", "pythonbmp/BITMAPlib.py: newBMP", "pythonbmp/bmppal.py: bmpstdpal"]}
{"id": "C125", "title": "Lists of points", "statement": "addvectinlist gives the sums of the components, as long as the shortest vector, in any order of the list (TypeError for none). getdomainbounds contains every point and each bound is a coordinate of one (ValueError for none). histogram2D with at least two bins each way counts every point exactly once, in the cell of half-open intervals of length (max - min) / (bins - 1) that contains it, and raises ZeroDivisionError for one bin or points on one horizontal or vertical line. listinrecbnd returns True whatever the points are (witnessed). distancetable of different points lists every ordered pair of them once with their positions; countdist gives each distance with the number of its occurrences. A spiral of n turns has 4 n + 1 points and legs right, up, left and down in turn, each longer than the one before by the step, which is multiplied by the growth factor after each turn.", "quantifier": "all lists of points or vectors, bins, steps, growth factors and turns; rational numbers in place of floats in the histogram, integers elsewhere, the distance an arbitrary function", "why_tests_cant": "all lists of all lengths; every cell of every histogram", "anchors": ["pythonbmp/mathlib.py: addvectinlist, addvectlist, addvecttripletlist, mirrorvec, getdomainbounds, getcomplexdomainbounds, histogram2D, histogram2Dcomplex, distancetable, countdist", "pythonbmp/primitives2D.py: listinrecbnd, isinrectbnd, spiralcontrolpointsvert"]}
{"id": "C126", "title": "Coordinates, directions, arrowheads and regular polygons", "statement": "Polar and spherical coordinates of points with x > 0 convert back to the point; for x < 0 they convert back with x and y negated and for x = 0 the conversion raises ZeroDivisionError (witnessed). rect2cylindricalcoord3D uses the length of all three coordinates, so it can be undone only where z = 0 (witnessed). rect2polarcoord2Dwithcenter gives the distance and the one angle in [0, 2 pi), clockwise from the top, of every point but the centre. Rotations keep distances and their angles add. dircos and normvec give a vector of length 1 that gives the vector back; the inverse cosines are its angles. cosaffin lies in -1..1 and is 0 exactly for perpendicular vectors; dist is a metric. The barbs of an arrow start at its tip, have the given length (a fifth of the arrow by default) and point back along it, turned by 22.5 degrees to either side, for every direction of the arrow. A regular polygon has its vertices on the circle, each turned from the one before by 360 // sides degrees; it has as many vertices as sides and closes exactly if sides divides 360, otherwise more (witnessed); sides above 360 raise ValueError, 0 ZeroDivisionError.", "quantifier": "all points, vectors of all lengths, angles, arrows, radii and numbers of sides; real numbers in place of floats", "why_tests_cant": "all real coordinates and angles", "anchors": ["pythonbmp/mathlib.py: rect2polarcoord2D, polar2rectcoord2D, rect2sphericalcoord3D, spherical2rectcoord3D, rect2cylindricalcoord3D, cylindrical2rectcoord3D, polarcoordangle2D, rect2polarcoord2Dwithcenter, computerotvec, rotvec2D, dircos, diracos, normvec, scalardivvect, cosaffin, vmag, dist, slope, anglebetween2Dlines", "pythonbmp/primitives2D.py: iterdrawvec, floatregpolygonvert, regpolygonvert"]}
{"id": "C127", "title": "Angles of arcs and pie charts", "statement": "arcvert selects the points of the circle seen from its centre under an angle (clockwise from the top) between the two given ones, and joins to the centre those within 0.03 of one of them. The slices of a pie chart follow each other from 0 to 360 degrees, each with its share of them; if no amount is negative every point but the centre lies in a slice, and in two of them only at their common end. A total of 0 raises ZeroDivisionError.", "quantifier": "all circles, angles and lists of integer amounts; real numbers in place of floats", "why_tests_cant": "all lists, all points", "anchors": ["pythonbmp/primitives2D.py: arcvert", "pythonbmp/charts.py: genpiechartdata, getdatalisttotal", "pythonbmp/mathlib.py: rect2polarcoord2Dwithcenter, polarcoordangle2D"]}
{"id": "C128", "title": "Curves swept by an angle", "statement": "For a positive step the generators give one point for each multiple of the step below the limit and stop; for a step that is not positive they never stop (unless the limit is not positive, then there are no points). A Lissajous curve stays within a of its centre sideways and b up and down, and its points are the nearest pixels. An epicycloid is the path of a point of a circle of radius b rolling round one of radius a: it starts at (a, 0), stays at distance b from the centre of the rolling circle and always moves at right angles to the line to the point of contact. Spirographs and hypotrochoids keep the right distance from the centre of the inner circle, and so stay within their radius, but they turn the wrong way: they are not paths of a rolling circle (witnessed). itercircleinvolute gives the Archimedean spiral of radius a t at the angle 2 t + 90 degrees, which starts in the centre; an involute has no point inside its circle (witnessed). An inner radius of 0 raises ZeroDivisionError.", "quantifier": "all centres, radii, parameters, steps and limits; real numbers in place of floats", "why_tests_cant": "all real parameters, derivatives", "anchors": ["pythonbmp/primitives2D.py: iterspirograph, spirographvert, iterlissajouscurve, lissajouscurvevert, itercircleinvolute, circleinvolutevert, iterepicycloid, epicycloidvert, iterhypotrochoid, hypotrochoidvert"]}
{"id": "C129", "title": "Flowers, superellipses, squircles, gears, Cornu spirals, hearts and eggs", "statement": "A flower has 360 points for each petal; point a is at distance r (1 + cos a) / 2 from the centre, so the petals have length r, are 360 / petals degrees apart and meet in the centre. The 360 points of a superellipse are the integer parts of points of |x/a|^m + |y/b|^n = 1, so they lie inside it; they are symmetric about both axes. Those of a squircle satisfy x^4 + y^4 <= r^4, with the four points on the axes at distance r. A gear has one point at each degree at a distance between a - |b| and a + |b| that repeats n times. A Cornu spiral takes steps of the length of one degree of the circle of radius r in the direction of the square of the degrees. A heart is symmetric, spans 16 s to each side, 12 s above and 17 s below the centre, with the notch 5 s above and the tip 17 s below. An egg is symmetric and, for a - b >= 1, lies within the egg curve of length a, but does not fill it: columns the curve meets have no points (witnessed).", "quantifier": "all centres, sizes and positive exponents; real numbers in place of floats", "why_tests_cant": "all real parameters", "anchors": ["pythonbmp/primitives2D.py: iterflower, flowervert, itersuperellipse, superellipsevert, itersquircle, squirclevert, itergearcurve, gearcurvevert, itercornuspiral, cornuspiralvert, iterheartcurve, heartcurvevert, itereggcurve, eggcurvevert"]}
{"id": "C130", "title": "Vertices of solids and their projection", "statement": "perspective moves all vertices by one mirror image of space: distances are kept, orientation is reversed (without rotation x becomes -x), the origin goes to the displacement; then it projects each vertex along the line through the viewpoint at the origin onto the plane z = -d. It raises ZeroDivisionError exactly if a moved vertex lies in the plane z = 0. All sides of cubevert have the given length. The sides of tetrahedravert, hexahedravert and octahedravert do not (those from the equator of the octahedron to its tips have sqrt(3)/2 of it) and those of icosahedvert have two lengths (refuted, with the exact lengths). decahedvert has a ring of five rounded points and two tips as far from the ring as its first two points are from each other. spherevert gives each point of the grid of longitudes and latitudes once, together with [0, 0, -r], which is on the sphere only if the centre is the origin; with a step that divides 180 and the centre at the origin it has 2 + 360/step (180/step - 1) points. cylindervert and conevert give the points of the circles at the multiples of step below 360 + 2 step in order, so with a step that divides 360 the first points come again at the end. A step of 0 raises ValueError.", "quantifier": "all sizes, angles, displacements, screen distances, centres and steps; real numbers in place of floats", "why_tests_cant": "all real rotations and sizes", "anchors": ["pythonbmp/solids3D.py: perspective, rotvec3D, tetrahedravert, cubevert, hexahedravert, octahedravert, decahedvert, icosahedvert, spherevert, cylindervert, conevert", "pythonbmp/mathlib.py: addvect, subvect, rotvec3D, adddimz"]}
{"id": "C131", "title": "Fractals and the sets they show", "statement": "multibrot, multijulia, multicorn, lambdafn and barnsleytree give the number of iterations of z^d + c, conj(z)^d + c, c z (1 - z) and d (z - sign(Re z)) that stay within the circle of radius 2, at most maxiter; the value is the same for every larger maxiter. A point is in the Mandelbrot set (or the multibrot or multicorn set of a degree of 2 or more, or the Julia set of a constant of absolute value at most 2) exactly if its value is maxiter for every maxiter. A point with a smaller value is outside: its orbit is unbounded. This also holds for lambdafn with |c| >= 1 and barnsleytree with |d| >= 2, but not for Julia sets with |c| > 2, lambdafn with |c| < 1 and barnsleytree with |d| < 2, for which fixed points count as escaped (refuted). The pictures are symmetric about the real axis (for real constants) and by the rotations by the roots of unity of order d - 1 (multibrot), d + 1 (multicorn) and d (multijulia). The iterators give each pixel of the sorted rectangle without its right and upper edges once, row by row, with the value of the point that the linear map of the rectangle to the domain gives; a Mandelbrot picture of a domain symmetric about the real axis is its own mirror image. mandelbrot, julia and tricorn paint the colour of this value and nothing else; an empty rectangle raises ZeroDivisionError.", "quantifier": "all points, constants, integer exponents of 0 or more, numbers of iterations, rectangles, domains and bitmaps; real numbers in place of floats", "why_tests_cant": "boundedness of an orbit is about infinitely many iterations", "anchors": ["pythonbmp/fractals.py: multibrot, multijulia, multicorn, lambdafn, barnsleytree, mapfractaldomain, itermultifractal, itermandelbrot, iterjulia, itertricorn", "pythonbmp/BITMAPlib.py: mandelbrot, julia, tricorn"]}
{"id": "C132", "title": "Biomorphs, sums, n-gons and level curves", "statement": "The biomorph functions give the first iteration of g(z) + z^d + c (g = sin, cos, sinh, cosh, tan, tanh, exp), z^d + c and conj(z)^d + c at which the absolute value of a coordinate exceeds the limit, if both do there, and maxiter otherwise; for a real c they are symmetric about the real axis. sinjulia, cosjulia and marekdragon add up the imaginary parts of the orbit of c sin z, c cos z and z (c + z) until the sum is too large; they are symmetric about the origin (sin, cos), about the real axis (sin, cos with real c), and marekdragon with the conjugate of c is the mirror image. ngonfunc counts the iterations of (z^n + c)/z within the circle of radius 2, and stops at 0; for n >= 3 and |c| <= 4 a point outside has an unbounded orbit; a rotation by an n-th root of unity keeps the value. multicircle is the rounded power of the distance from the origin modulo m; multihyperbola the rounded |P^d - Q^d|, symmetric in P and Q and 0 on the diagonal; astroid is 0 on the astroid; lemniscate is the integer part of |(d1 d2)^2 - r^4| for the distances d1, d2 to the foci. multisuperellipse paints the colour of |P^d + Q^d| modulo m on 24-bit bitmaps and the evenness of it on 1-bit bitmaps; on 4-bit and 8-bit bitmaps it raises TypeError and paints nothing (refuted).", "quantifier": "all points, constants, integer exponents of 0 or more, limits, rectangles and bitmaps; real numbers in place of floats", "why_tests_cant": "symmetries and level curves are about all real points", "anchors": ["pythonbmp/fractals.py: multibiomorph, multisinbiomorph, multicosbiomorph, multisinhbiomorph, multicoshbiomorph, multitanbiomorph, multitanhbiomorph, multiexpbiomorph, multizconjugatebiomorph, sinjulia, cosjulia, marekdragon, ngonfunc, multicircle, multihyperbola, multisuperellipse, astroid, lemniscate", "pythonbmp/BITMAPlib.py: multisuperellipse"]}
{"id": "C133", "title": "Newton's method and Newton's fractal", "statement": "newtonmethod follows the points of Newton's method and returns the first one whose step is shorter than tol with its index, and (None, None) if a derivative before is 0 or no step of the first maxiter points is that short; a start at a simple root is returned at once. Each pair of funcparamdict is the polynomial of its key and its complex derivative. Whatever newton returns for them is within 6/10^8 of a root of the polynomial. From within 1/4 of a root of z^3 - 1 it finds this root within 40 iterations. The result of the conjugate start is the conjugate, and for z^n - 1 a rotation of the start by an n-th root of unity rotates the result. The threefold root 0 of z^5 - z^3 is not found from itself (refuted). newtonsfractal returns at most as many roots as the degree, near different roots of the polynomial; a pixel shows the factor of the root its point leads to and the number of iterations, and pixels whose points lead nowhere and those outside the rectangle keep their colours.", "quantifier": "all starts, numbers of iterations and tolerances, all functions of the table, rectangles, domains and bitmaps; real numbers in place of floats", "why_tests_cant": "accuracy of a root is about all starting points", "anchors": ["pythonbmp/fractals.py: newton, funcparamdict, iternewtonsfractal", "pythonbmp/mathlib.py: newtonmethod", "pythonbmp/BITMAPlib.py: newtonsfractal"]}
{"id": "C134", "title": "Attractors", "statement": "The lists of the Ikeda, N, Gumowski-Mira, Peter de Jong, Clifford, fractal dream, hopalong and symmetric icon attractors are the first n points of the orbits of their maps, without the start; duffingattractorlist is Euler's method for the driven Duffing oscillator. The points of the N, de Jong, Clifford and dream attractors are within bounds given by the coefficients, those of the Ikeda attractor within |a| / (1 - |b|) of 0 if |b| < 1. Icons of degree d < 1 from 0 raise ZeroDivisionError. A rotation of the start by a d-th root of unity rotates an icon with o = 0 (refuted in general: o is multiplied by the conjugate), and icons with o = 0 mirror with the start. Whatever the nine pictures return shows for every pixel the number of points in its cell of the smallest rectangle round the points, scaled from the smallest and the largest number in a cell to the colours; no points raise ValueError, and a width or height of 1, points on a line along an axis or equal numbers in all cells raise ZeroDivisionError.", "quantifier": "all coefficients, starts, numbers of points, sizes up to 2^24 and depths; real numbers in place of floats", "why_tests_cant": "orbits are about all coefficients and numbers of points", "anchors": ["pythonbmp/fractals.py: ikedaattractorlist, nattractorlist, gumowskimiraattractorlist, peterdejongattractorlist, cliffordattractorlist, fractaldreamattractorlist, hopalongattractorlist, symmetriciconattractorlist, duffingattractorlist", "pythonbmp/mathlib.py: getdomainbounds, histogram2D", "pythonbmp/BITMAPlib.py: plotattractor, ikedaattractor, nattractor, peterdejongattractor, duffingattractor, hopalongattractor, symmetriciconattractor, cliffordattractor, fractaldreamattractor, gumowskimiraattractor"]}
{"id": "C135", "title": "Iterated functions: fern, tree, Cantor tree and Sierpinski's triangle", "statement": "IFS draws with the parameters of getIFSparams the pixels strictly inside the rectangle that the points of the chain fall on, its first coordinate scaled to the right and its second scaled upwards from the lower edge, and no others; the chain starts with the coordinates of the upper left corner and takes for each random number the map of its range (the fourth maps of the Cantor tree and of Sierpinski's triangle are never taken). Chains of the same random numbers approach each other by a factor of 0.86, 0.6, 2/3 and 1/2 per point, so that the picture forgets its start. A chain from inside the triangle (0, 0), (2, 0), (1, 1) stays in it, and after k points it is in none of the holes of the first k sizes. The chains of the Cantor tree and of the tree stay in a triangle and in a box. The fern from (0, 0) has -2.184 <= x <= 2.66 and 0 <= y <= 9.999. fern draws it in a tenth of the height of the rectangle: no point after the first few is cut off if half the width is 2.661 tenths of the height or more; corners outside the bitmap change nothing but print a message.", "quantifier": "all random numbers, rectangles, scales, offsets, colours and bitmaps; real numbers in place of floats", "why_tests_cant": "random numbers are about all sequences of them", "anchors": ["pythonbmp/fractals.py: getIFSparams, iterIFS", "pythonbmp/BITMAPlib.py: IFS, fern"]}
{"id": "C136", "title": "Pictures of all fractals", "statement": "Each function that paints one fractal (multibrot, multicorn, multijulia, lambdafractal, barnsleytree, spiraljulia, ngonfractal, the biomorphs, multicircle, multihyperbola, astroidfractal, lemniscatefractal, sinjulia, cosjulia, marekdragon, tetrationfractal, xorfractal, xordivfractal) shows at every pixel of the rectangle, without its last column and row, the colour of the value of its own function at the point of the domain that belongs to the pixel, and changes nothing else. If the domain is symmetric about the real axis and constants are real, rows at the same distance from the middle are the same; if it is symmetric about both axes, a half turn leaves the pictures of even Julia sets and n-gons, odd multibrots and multicorns, level curves, Barnsley's tree, sine, cosine and spiral Julia sets as they are. With one unit of the domain per pixel xorfractal shows (x xor y) mod d; it is symmetric and 0 on the diagonal, and for d = 2^n every row of 2^n pixels shows each of 0 ... 2^n - 1 once and repeats after 2^n pixels; coordinates between -1 and 1 all count as 0. Rectangles without area and divisors 0 raise ZeroDivisionError.", "quantifier": "all rectangles, domains, bitmaps, colours, integer exponents, constants and numbers of iterations; real numbers in place of floats; any functions in place of the powers z ** z and z ** (d + abs(phase(z)))", "why_tests_cant": "about every point of the plane and every picture", "anchors": ["pythonbmp/fractals.py: xorfn, xordivfn, tetrationfn, multibiomorphvariant, itermultifractal, itermultifractalcomplexpar and the iterators 1036-1807", "pythonbmp/BITMAPlib.py: multibrot ... lambdafractal, multijulia ... multitanhbiomorph, multicorn, barnsleytree, marekdragon"]}
{"id": "C137", "title": "Elapsed time, inverse smooth step, t-test, gamma and small vector helpers", "statement": "hhmmsselaspedtime shows hours, minutes below 60 and seconds below 60 with two digits (hours with two or more) and then the nanoseconds, and the four numbers add up to the time; the nanoseconds are not padded, so that 1.000000005 s reads 00:00:01.5. The named ranges of getdefaultlumrange lie in 0..255, each name gives its entry and each range occurs in reverse too, but 'midasc' raises KeyError since the key starts with a space. invsmoothstep is the inverse of smoothstep from 0 to 1 in both directions and raises ValueError elsewhere. TTest gives the t with t^2 (1 - r^2) = r^2 (n - 2) and the sign of r, ZeroDivisionError for a perfect correlation, and passes on errors of the correlation. gammacorrectbyte with a gamma above 0 is the truncated 255 (l/255)^gamma, stays in 0..255, is monotone, keeps 0 and 255, is the identity for 1, darkens above 1 and brightens below 1; a negative gamma gives ZeroDivisionError for 0 and values above 255 for others. Clamping, rounding, masking, sums, means, quotients, mirrored points, random displacement, tetration and totals of lists meet their arithmetic meaning.", "quantifier": "all times from 0, all real x, rows of integers, bytes and gamma; real or rational numbers in place of floats; any values of the random numbers within their bounds", "why_tests_cant": "about every time, table, byte and real number", "anchors": ["pythonbmp/proctimer.py: hhmmsselaspedtime", "pythonbmp/colors.py: getdefaultlumrange, gammacorrectbyte", "pythonbmp/mathlib.py: setmaxvec, intsetminmaxvec, roundvectlist, bitmaskvect, divvect, meanlist, mirrorx, mirrory, addrndtovert, tetration, TTest, invsmoothstep", "pythonbmp/charts.py: getdatalisttotal"]}
{"id": "C138", "title": "Fourier transforms of complex numbers", "statement": "For a list of 2^k complex numbers fft leaves in entry j the sum of v_i (cos a - i sin a) with a = 2 pi i j / 2^k, and ifft the same with the other sign; each after the other multiplies the list by 2^k. The squares of the absolute values of the transform add up to 2^k times those of the list. The transform is linear; entry 0 is the sum; for real numbers entry 2^k - j is the conjugate of entry j; moving the list round by s turns entry j by s j steps; the product of two transforms is the transform of the circular convolution; a list that turns f times round the circle gives 2^k in entry f and 0 elsewhere; no entry exceeds the sum of the absolute values.", "quantifier": "all k, all lists of 2^k complex numbers; real numbers in place of floats", "why_tests_cant": "about all lists of all lengths 2^k", "anchors": ["pythonbmp/mathlib.py: applyfft, fftfn, ifftfn, fft, ifft"]}
{"id": "C139", "title": "Colours survive the rounding of floats", "statement": "With every operation rounded to the next IEEE double: int(a / b) and round(a / b) of integers up to 2^50 are what exact arithmetic gives, so averages of channels are exact. A colour split into factors and luminosity and put back is the same colour; brightness 0 percent changes no colour, -100 percent gives black; a threshold around the luminosity changes nothing. Adjusted and filtered bytes stay bytes, keep their order, and are the rounded exact value unless that is within a billionth of a tie; a filter of 1 changes nothing, of 0 gives 0. Thresholds and colour mixes that cut off instead of rounding are exact or, only where the exact value is an integer, one too small ((1 / 49) * 49). Gamma 1 leaves all bytes and pixels as they are; every gamma keeps the order and the ends. A blend of two colours has the colours at its ends and stays between them.", "quantifier": "all bytes, all percentages from -100 to 10000, all factors from 0 to 100, all integers up to 2^50, all functions from [0, 1] to itself in place of the power", "why_tests_cant": "tests compare single values; rounding errors show for few of all combinations", "anchors": ["pythonbmp/colors.py: RGBfactors2RGB, RGBtoRGBfactorsandlum, monochrome, gammacorrectbyte, gammacorrect, brightnessadjust, thresholdadjust, applybrightnessadjtoBGRbuf, applythresholdadjtoBGRbuf, applygammaBGRbuf, applycolorfiltertoBGRbuf, applymonochromefiltertoBGRbuf, colormix", "pythonbmp/mathlib.py: lerp"]}
{"id": "C140", "title": "Gradients, distances and pie charts survive the rounding of floats", "statement": "With every operation rounded to the next IEEE double: gradients by base and range have exactly the luminosity of exact arithmetic without its fraction; gradients by linear interpolation have it or, only where it is an integer, one less (a gradient from 255 to 255 has rings of 254), are never above the ends and exact at the ends; the rings of an orb are bytes that grow towards the middle; interpolated colours lie between the ends for every float from 0 to 1 and are the rounded exact value up to a billionth; the percentages of a brightness gradient add up right to a trillionth for each row and keep their order. Comparing the distance of two points with an integer gives the same as comparing squares, and cut off or rounded it is the integer square root or the nearest integer. Slices of a pie chart begin where the one before ends, are right up to a trillionth for each slice (the last may end just before 360), and the large slice is one with at least half of the total, if there is any.", "quantifier": "all bytes, all gradients of up to 2^20 steps, all floats from 0 to 1, all points up to 2^24 apart, all lists of up to a million amounts with a total up to 2^50", "why_tests_cant": "rounding errors show for few of all combinations", "anchors": ["pythonbmp/BITMAPlib.py: gradthickroundline, gradthickcircle, gradcircle, gradthickellipserot, gradellipse, gradthickplotpoly, gradplotlines, orb, filleddichromaticgradrect, verticalbrightnessgradto24bitregion", "pythonbmp/mathlib.py: lerp, vmag, dist", "pythonbmp/colors.py: interpolateRGB", "pythonbmp/charts.py: genpiechartdata"]}
{"id": "C141", "title": "Nearest colours, similarity thresholds and B-splines survive the rounding of floats", "statement": "With every operation rounded to the next IEEE double: the palette entry that is found for a colour is the one that exact squares of distances give, ties included, and of two entries the one with the smaller square is strictly nearer; a colour is within a similarity threshold exactly if the threshold is positive and the square of the distance is below its square, and beyond it exactly if the threshold is negative or the square is above. A B-spline joins its points as in exact arithmetic; each point is that of the uniform cubic B-spline rounded to an integer up to a millionth, lies in the box of its four control points, a closed curve that turns back ends where it began and an open one in its last control point; no point of the curve leaves the box of the control points by more than a row.", "quantifier": "all byte colours, palettes and integer thresholds, all lists of control points with coordinates up to a million", "why_tests_cant": "a distance or curve point that rounds the wrong way shows for few of all combinations", "anchors": ["pythonbmp/colors.py: matchRGBtopal", "pythonbmp/mathlib.py: dist, addvect, scalarmulvect, roundvect", "pythonbmp/BITMAPlib.py: makenewpalfromcolorhist, iterimagedgevert, iterimageregionvertbyRGB", "pythonbmp/primitives2D.py: iterbspline, _bsplineblend"]}
{"id": "C142", "title": "Spheres, cylinders and cones are convex polyhedra without a border", "statement": "Over the real numbers, for a step of degrees that divides the circle: each face of the mesh has at least three corners, all in one plane, all vertices are on one side of that plane and those in the plane are the corners of the face, so the mesh is a convex polyhedron and a face is hidden exactly if its normal turns away from the viewer; the edges cancel in pairs once vertices at the same place are identified. The faces of cylinders and cones run counterclockwise seen from outside, those of spheres clockwise. A cylinder with n sides has n + 2 faces, a cone n + 1, a sphere around the origin with q steps from pole to pole 2q*q faces and 2 + 2q(q - 1) distinct vertices, all at distance r. A step of zero raises ValueError.", "quantifier": "all radii, lengths and centres (spheres: around the origin), all steps that divide 360 into at least three (spheres: 180 into at least two)", "why_tests_cant": "a face with the wrong corner or turn shows for particular steps and views only", "anchors": ["pythonbmp/solids3D.py: spherevertandsurface, spherevert, zlevelcoords, genspheresurfaces, cylindervertandsurface, conevertandsurface"]}
{"id": "C143", "title": "Shrinking, means, slopes and correlations stay right with the rounding of doubles", "statement": "With every operation rounded to a double: shrinking and pixelating 24-bit pictures gives for each channel an integer nearest to the mean of its square, between the least and the greatest of the square, and keeps uniform squares (but for columns that need the last column of a picture of odd width, see C80, C81); where the reduced picture has an even width, pixelating twice is pixelating once. Halves need not round to even. The mean is the double next to the exact mean and lies between least and greatest item; deviations have the sign of item less mean and are zero for equal items; both raise ZeroDivisionError for no items. The least squares slope is the double next to the exact slope, exactly m for points on a line with integer slope m, and raises ZeroDivisionError if all x are equal. Pearson's coefficient is between -1 and 1, exactly 1 or -1 for points on a rising or falling line, and raises ZeroDivisionError if all x or all y are equal.", "quantifier": "all pictures and factors up to 2^20; all lists of integers (bounds: items up to 2^53; Pearson: (n*M)^2 up to 2^53)", "why_tests_cant": "a coefficient above 1 or a channel of 256 by rounding shows for particular sums only", "anchors": ["pythonbmp/bufresize.py: resizesmaller24bitbuf", "pythonbmp/BITMAPlib.py: resizeNtimessmaller, pixelizenxn", "pythonbmp/mathlib.py: intscalarmulvect, mean, variance, LSMslope, PearsonsR"]}
{"id": "C144", "title": "Points of scatter plots with the rounding of doubles", "statement": "With every operation rounded to a double, for integer data: a point whose coordinates are on ticks of the axes, or else neither halfway between two pixels nor exactly on a limit, is drawn exactly as in exact arithmetic (C118), with the same messages, and so is a plot of such points. In any case the pixel is one nearest to the exact place, values on ticks are exact, and points that are shown keep their order along both axes and stay within the limits. A value exactly on the limit but not on a tick may be refused as out of bounds, and a value halfway between two pixels may take either.", "quantifier": "all axes with origin, steps and value steps up to 2^20 and data up to 2^26 from the start of the axis (order: all numbers)", "why_tests_cant": "a point that jumps or vanishes by rounding shows for particular steps and values only", "anchors": ["pythonbmp/BITMAPlib.py: userdef2Dcooordsys2screenxy, XYscatterplot, circlevec, plotvecxypoint"]}
{"id": "C145", "title": "Fractals with the rounding of doubles", "statement": "With every operation rounded to a double: the escape time of any point is an integer of 0 to maxiter; Mandelbrot's set and its powers, tricorns, Marek's dragon, and the sets of Julia, lambda and Barnsley for real constants give equal times for mirrored points P+Qi and P-Qi, and the sets of Julia for even powers and Barnsley's tree equal times for opposite points. On the real axis mandelbrot never lets doubles of [-2, 1/4] leave, however many rounds, lets those beyond 2 leave at once, and those from 1/4 + 2^-49 to 2 leave after finitely many rounds; between these some points that are not in the set never leave, such as 1/4 + 2^-54. Off the axis no point of the disc of radius 0.24 ever leaves Mandelbrot's set or the tricorn, no point of the disc of radius 0.45 leaves Julia's set for such a constant, the point i never leaves Mandelbrot's set but leaves the tricorn at the third round, both agree on the real axis, and every point longer than 2 leaves at once. A picture whose domain is symmetric, with a bound a/2^s, drawn over 2^k rows, is exactly its own mirror image (except for its first row).", "quantifier": "all doubles P, Q, all constants, all exponents of 1 to 100, all numbers of rounds, all pictures", "why_tests_cant": "rounding might break the symmetry of a picture or let a point of the set leave at some round far out; tests look at few points and rounds", "anchors": ["pythonbmp/fractals.py: multibrot, multijulia, multicorn, lambdafn, barnsleytree, marekdragon, mapfractaldomain, itermultifractal", "pythonbmp/BITMAPlib.py: mandelbrot, tricorn"]}
{"id": "C146", "title": "Curves swept by an angle with the rounding of doubles", "statement": "With every operation rounded to a double and a cosine and sine that are right up to an ulp: spirographs, Lissajous curves, circle involutes, epicycloids and hypotrochoids have as many points as in exact arithmetic, or one more or less, and exactly as many unless the limit is within N*N*delta/2^53 of a multiple of the step; the parameter of point k is within k*k*delta/2^53 of k times the step and below the limit; each point is within half a pixel and a millionth of the curve at that parameter. Lissajous curves never leave their box. For steps a/2^s the parameters are exact. The loop ends if the limit is at most 2^51 steps away and never ends if it is more than 2^55 steps away. Ten steps of 0.1 up to 1 become eleven. A rolling circle of radius zero, or k of zero, raises ZeroDivisionError.", "quantifier": "all curves with up to 2^20 steps, sizes up to 4096 pixels, angles up to 65536 and centres up to 2^20; all steps and limits for ending", "why_tests_cant": "sums of rounded steps drift: points are lost, doubled, or the loop hangs for particular steps only", "anchors": ["pythonbmp/primitives2D.py: iterspirograph, iterlissajouscurve, itercircleinvolute, iterepicycloid, iterhypotrochoid"]}
{"id": "C147", "title": "Interpolation with the rounding of doubles", "statement": "With every operation rounded to a double: lerp from a to b gives exactly a at 0 and exactly b at 1, grows with both ends, is within 6*B/2^53 (and an absolute 3/2^60) of the exact value for ends up to B, and rounds to an integer between integer ends. invlerp is exactly 0 at a and 1 at b, stays between 0 and 1, never decreases on the way from a to b, is within 5/2^53 of the exact fraction, and is 1 if a equals b. For integers rounding lerp(a, b, invlerp(a, b, v)) gives v back. smoothstep stays between 0 and 1; smootherstep and smootheststep are never negative; all are exactly 0 at a and 1 at b and within 1e-13, 1e-12 and 1e-11 of their polynomials. The three steplerps run exactly from a to b and round to integers between integer ends. What does not hold: lerp from 3 to 3 can give more than 3, smoothstep can decrease, and the other two can exceed 1.", "quantifier": "all doubles a, b, v, and f between 0 and 1, without overflow; integers up to 2^47 for rounding and 65536 for the steplerps", "why_tests_cant": "an off-by-one colour appears for a few of 2^62 fractions only", "anchors": ["pythonbmp/mathlib.py: lerp, invlerp, smoothstep, smootherstep, smootheststep, smoothsteplerp, smoothersteplerp, smootheststeplerp"]}
{"id": "C148", "title": "Turning by degrees with the rounding of doubles", "statement": "With every operation rounded to a double, and a cosine and sine of the C library right to 2^-52 and at most 1 in size: math.radians is odd, never decreases and is within B/1e17 of the exact angle for degrees up to B; turning a point in the plane is right to a millionth, and turning by 0 changes nothing. A regular polygon of 1 to 360 sides has 359 // (360 // sides) + 1 vertices, each within half a pixel and a millionth of its place on the circle and never outside the square around it; 0 sides raise ZeroDivisionError, more than 360 ValueError, and fewer than 0 give no vertices. The perspective of a list of vertices keeps their order and number: each is turned by yaw, roll and pitch and moved, right to a millionth, and its picture is off by at most two millionths of the distance d plus its own size, over the depth; a vertex at the origin that is not moved in depth raises ZeroDivisionError. A flower has 360 points for each petal, each cut off towards 0 from a place within a millionth of its curve and never outside the square around its circle.", "quantifier": "all centres up to 2^20, radii up to 65536 (flowers 4096), degrees up to 65536, coordinates up to 65536 with depth at least 1, and 1 to 1024 petals", "why_tests_cant": "a pixel outside the box would depend on one bit of one cosine", "anchors": ["pythonbmp/mathlib.py: computerotvec, rotvec2D", "pythonbmp/primitives2D.py: floatregpolygonvert, regpolygonvert, iterflower", "pythonbmp/solids3D.py: rotvec3D, perspective"]}
{"id": "C149", "title": "Bezier curves and brightness ranges with the rounding of doubles", "statement": "With every operation rounded to a double, and a power of the C library that is exact at 0 and 1 and right to 2^-52 of its value: iterbeziercurve of n + 2 control points joins 4 (n + 2) points by segments, starting exactly in the first control point; each is within half a pixel and a millionth of the Bezier curve of the first n + 1 control points (de Casteljau's construction) at its fraction, and inside every rectangle around the control points. The last control point has no effect, a single point is joined to the origin, and no points raise IndexError. RGBfactorstoBaseandRange gives bases between 0 and the least brightness that are the rounded product of factor and least brightness, and ranges that add up with them to the product of factor and greatest brightness, right to 1e-12; the range can be negative.", "quantifier": "2 to 64 control points with coordinates up to 65536; factors between 0 and 1 and brightnesses from 0 to 255", "why_tests_cant": "binomials up to 10^18 multiply powers as small as 2^-490; whether a vertex leaves the hull shows for a few inputs only", "anchors": ["pythonbmp/primitives2D.py: _bezierblend, iterbeziercurve", "pythonbmp/colors.py: RGBfactorstoBaseandRange"]}
{"id": "C150", "title": "Lengths, directions, angles and arcs with the rounding of doubles", "statement": "With every operation rounded to a double, and an arccosine of the C library that is 0 at 1, never negative and right to 2^-50: vmag of a vector of integers is the nearest double to its length, exact for whole lengths, never below one of the components, 0 only for the null vector, and in the order of the sums of squares; dist is symmetric and 0 only for equal points. dircos of a nonzero vector gives one number between -1 and 1 for each component, right to 2.5e-16, so that diracos never raises; the null vector raises ZeroDivisionError. rect2sphericalcoord3D raises ZeroDivisionError exactly for x = 0. rect2polarcoord2Dwithcenter gives the clockwise angle from the top right to 3.4e-8, exactly 0 straight up, and raises ZeroDivisionError for the centre itself. An arc has every point of the circle with an angle between the given ones and 5e-8 away from both, and no point beyond them by more than 5e-8. cosaffin of a vector with itself can be above 1.", "quantifier": "all vectors of integers with a sum of squares up to 2^53; circles of radius up to 2^25 and angles up to 65536 degrees", "why_tests_cant": "acos turns one unit in the last place into 1e-8 of angle near the vertical; a cosine beyond 1 shows for a few vectors only", "anchors": ["pythonbmp/mathlib.py: vmag, dist, cosaffin, dircos, diracos, rect2sphericalcoord3D, polarcoordangle2D, rect2polarcoord2Dwithcenter", "pythonbmp/primitives2D.py: arcvert"]}
{"id": "C151", "title": "Pie charts with the rounding of doubles", "statement": "With every operation rounded to a double, and an arccosine of the C library that is 0 at 1, never negative and right to 2^-50: piechart draws one slice for each amount, in its colour; the disc is filled in advance for amounts of at least half of the total, decided exactly; the k-th slice has the points of the rim with a clockwise angle between the shares of the first k and k + 1 amounts, up to 1e-7 radians; and although the last slice may end before 360 degrees, every point of the rim is in a slice. A chart that fits the picture and is drawn without an error leaves no pixel of its rim unpainted. No data draw nothing, and a total of 0 raises ZeroDivisionError.", "quantifier": "all lists of up to a million integer amounts that are not negative with a total up to 2^50; radii of 1 to 2^20; all colours; 1, 8 and 24 bits", "why_tests_cant": "the sum of the rounded shares can miss 360 degrees, and acos is inexact where it matters; whether a gap opens at the top depends on both errors", "anchors": ["pythonbmp/charts.py: genpiechartdata", "pythonbmp/BITMAPlib.py: piechart, drawarc", "pythonbmp/primitives2D.py: arcvert"]}
{"id": "C152", "title": "Shading of faces with the rounding of doubles", "statement": "With every operation rounded to a double, and sums that are plain or compensated: plotpolyfillist gives a face whose normal has length 1 or more a luminosity of -1 to 255 that is 127 + 128 times the cosine of the angle to the axis of view, cut off to 127 by at most one; a face turned further to the viewer by more than 1e-13 in the cosine is never darker; a face seen straight has 255, one seen edge on and one without a normal 127. The parts of its colour are the factors times that luminosity, cut off to an integer by at most one and never more than it; so faces that are not turned away are always painted, in the order given, with colours every picture can hold. A face turned straight away has luminosity -1 and raises OverflowError.", "quantifier": "all float normals of length at least 1 and zero normals; all factors in 0..1; all polygons; 1, 8 and 24 bits", "why_tests_cant": "the shading goes through a square root, a quotient, a product and a truncation of floats; the range of bytes is left only for a single direction; and sum of floats differs between Python versions", "anchors": ["pythonbmp/BITMAPlib.py: plotpolyfillist, plot3d", "pythonbmp/mathlib.py: cosaffin, vmag, dotprod", "pythonbmp/colors.py: colormix"]}
{"id": "C153", "title": "Hidden faces and drawings of solids with the rounding of doubles", "statement": "With every operation rounded to a double: for vertices with coordinates up to B, surfacetest is right up to 40 u B^3 and getnormvec up to 60 u B^2 in each part, u being 2^-53, and both are exact for whole coordinates up to 65536. So gensides keeps, in their order, all faces the viewer sees from the front by more than that error and leaves out all seen from behind by more than it; the luminosity of a face follows the cosine of its true normal; and plot3Dsolid fills each kept face that is not turned away, later ones on top, between the rounded points of the perspective, with outlines last. A hidden face seen almost edge on may be kept.", "quantifier": "all vertices, rotations and translations with a perspective; all tables of faces with three or more vertices that exist; all factors in 0..1; 1, 8 and 24 bits", "why_tests_cant": "whether a face is drawn depends on the sign of a sum of rounded products, which can cancel; no set of solids shows how large the error can be", "anchors": ["pythonbmp/solids3D.py: surfacetest, gensides, perspective", "pythonbmp/mathlib.py: getnormvec, crossprod3d", "pythonbmp/BITMAPlib.py: plot3Dsolid, plot3d, plotpolyfillist"]}
{"id": "C154", "title": "Names of colours", "statement": "Each family of names of colours (plain, X11, XKCD) has three dictionaries. A name is in all three or in none (KeyError). The packed colours have 24 bits; RGB2HSL of the colour is the entry for HSL; the factors are in 0..1, and RGBfactors2RGB(factors, 255) is the colour itself; colormix(lum, factors) is, in each part, the colour times lum / 255 rounded down, or one less where that is whole, and for plain names it is exactly the colour at 255. Exceptions: of X11, aqua's HSL and darkblue's factors are those of other colours, and two hues are off by one degree; one hue of XKCD is. Names listed twice keep the value of the last, so darkred and darkgray of X11 are greens.", "quantifier": "all names, that is all strings; all luminosities of 0 to 255", "why_tests_cant": "a test looks at a few of the 1600 names and luminosities; whether six decimal digits suffice for each part depends on rounding to doubles and truncation", "anchors": ["pythonbmp/colordict.py: getcolorname2HSLdict, getcolorname2RGBdict, getRGBfactors", "pythonbmp/X11colordict.py: getX11colorname2HSLdict, getX11colorname2RGBdict, getX11RGBfactors", "pythonbmp/XKCDcolordict.py: getXKCDcolorname2HSLdict, getXKCDcolorname2RGBdict, getXKCDRGBfactors", "pythonbmp/colors.py: colormix, RGBfactors2RGB, RGB2HSL"]}
{"id": "C155", "title": "Spheres, cylinders and cones with the rounding of doubles", "statement": "With every operation rounded to a double, and a cosine and sine that are right to one unit in the last place: cylindervertandsurface and conevertandsurface give exactly the faces they would without rounding, and each vertex is within a millionth of its place; so for a step that divides 360 they are a convex solid without border but for that. The vertices of spherevert are all different, the south pole (0, 0, -r) is one of them, each other one is within a millionth of a point of the sphere whose angles are multiples of the step, and each such point has its vertex. All vertices of one angle phi have exactly the same z, as zlevelcoords needs, and the north pole is one vertex. Around the origin, for a radius from 1 and a step that divides 180 into at least two parts, spherevertandsurface gives exactly the faces of the exact mesh, which is a closed convex polyhedron, and each vertex is within a millionth of the vertex with the same index there. A step of 0 raises ValueError.", "quantifier": "all centres within 2^20, all radii and heights up to 65536, all integer steps (up to 30000 for cylinders and cones)", "why_tests_cant": "slices and duplicates are found by comparing floats, which may fail by rounding at some radius or angle no test has; no test covers all radii", "anchors": ["pythonbmp/solids3D.py: spherevert, spherevertandsurface, cylindervertandsurface, conevertandsurface", "pythonbmp/mathlib.py: spherical2rectcoord3D, cylindrical2rectcoord3D, addvect, subvect"]}
{"id": "C156", "title": "Drawings of squircles", "statement": "squircle paints, in the colour given, exactly the segments between neighbouring vertices of the 360 of C129 and the closing one, and changes nothing else. All of it lies in the square of radius r around the centre, with one more row above and below; each vertex but the first is painted, so are the points at distance r above, below and to the left of the centre. Radius 0 paints exactly one pixel. (For radii from 8 to 15 the fourth of these points, to the right, is left out though it is a vertex, and a pixel outside of the square is painted, proved for all of them.)", "quantifier": "all bitmaps but those of 4 bits (radius 0: all), all positions with the square and a row above and below in the image, all radii, all colours the bitmap can store", "why_tests_cant": "which pixels the segments of a curve with irrational vertices hit cannot be settled by samples; a test with one radius misses the radii that lose a tip", "anchors": ["pythonbmp/BITMAPlib.py: squircle, plotpoly", "pythonbmp/primitives2D.py: itersquircle, squirclevert, itersuperellipse"]}
