-Q theories Verif
theories/PyBase.v
theories/PyFacts.v
theories/Spec.v
theories/Palette.v
theories/Bmp.v
theories/BmpFacts.v
theories/PixelProofs.v
theories/PlotList.v
theories/HeaderProofs.v
theories/PalProofs.v
theories/Files.v
theories/FileProofs.v
theories/Buffers.v
theories/Region.v
theories/Raster.v
theories/VertProofs.v
theories/HorizProofs.v
theories/IterProofs.v
theories/RectProofs.v
theories/RectProofs2.v
theories/UpProofs.v
theories/ResizeProofs.v
theories/PasteProofs.v
theories/TransProofs.v
theories/SwapProofs.v
theories/Geometry.v
theories/GeomProofs.v
theories/Draw.v
theories/DrawProofs.v
theories/DrawProofs2.v
theories/DrawProofs3.v
theories/DrawProofs4.v
theories/MathLib.v
theories/MiscProofs.v
theories/Filters.v
theories/Circle.v
theories/FilterProofs.v
theories/FilterProofs2.v
theories/CircProofs.v
theories/CircProofs2.v
theories/CircProofs3.v
theories/CircProofs4.v
theories/CircProofs5.v
theories/CircProofs6.v
theories/CircProofs7.v
theories/SpecText.v
theories/Text.v
theories/Fonts.v
theories/TextProofs.v
theories/TextProofs2.v
theories/TextProofs3.v
theories/TextProofs4.v
theories/TextProofs5.v
theories/TextProofs6.v
theories/TextProofs7.v
theories/TextProofs8.v
theories/TextProofs9.v
theories/Shapes.v
theories/SpecShapes.v
theories/ShapeProofs.v
theories/ShapeProofs2.v
theories/ShapeProofs3.v
theories/CircProofs8.v
theories/EllProofs.v
theories/EllProofs2.v
theories/ShapeProofs4.v
theories/Concrete.v
theories/PropCore.v
theories/PropFiles.v
theories/PropRegion.v
theories/PropDraw.v
theories/PropMisc.v
theories/PropFilter.v
theories/PropCircle.v
theories/PropText.v
theories/PropShapes.v
theories/SpecImage.v
theories/Shrink.v
theories/ShrinkProofs.v
theories/ShrinkProofs2.v
theories/PropShrink.v
theories/Wrappers.v
theories/WrapProofs.v
theories/PropWrap.v
theories/Fractal.v
theories/FractProofs.v
theories/FractProofs2.v
theories/FractProofs3.v
theories/FractProofs4.v
theories/FractProofs5.v
theories/PropFractal.v
theories/PropFractal2.v
theories/SpecEdges.v
theories/Edges.v
theories/EdgeProofs.v
theories/EdgeProofs2.v
theories/EdgeProofs3.v
theories/EdgeProofs4.v
theories/PropEdges.v
theories/PropEdges2.v
theories/PropEdges3.v
theories/SpecSolids.v
theories/Solids.v
theories/SolidProofs.v
theories/SolidProofs2.v
theories/SolidProofs3.v
theories/SurfProofs.v
theories/SurfProofs2.v
theories/PropSolids.v
theories/PropSolids2.v
theories/SpecFft.v
theories/Fft.v
theories/FftProofs.v
theories/PropFft.v
theories/SpecExact.v
theories/Exact.v
theories/SpecPlots.v
theories/Plots.v
theories/PlotProofs.v
theories/PlotProofs2.v
theories/PropPlots.v
theories/ExactProofs.v
theories/PropExact.v
theories/CurveProofs.v
theories/PropCurves.v
theories/SpecColours.v
theories/Colours.v
theories/ColourProofs.v
theories/PropColours.v
theories/PropColours2.v
theories/PropColours3.v
theories/Vectors.v
theories/PropVectors.v
theories/Coords.v
theories/RealProofs.v
theories/PropCoords.v
theories/PropArcs.v
theories/Sweeps.v
theories/PropSweeps.v
theories/PropOutlines.v
theories/Vertices.v
theories/PropVertices.v
theories/Cplx.v
theories/Escape.v
theories/EscapeProofs.v
theories/PropEscape.v
theories/PropBiomorph.v
theories/Newton.v
theories/NewtonProofs.v
theories/PropNewton.v
theories/Attract.v
theories/PropAttract.v
theories/Ifs.v
theories/PropIfs.v
theories/Pictures.v
theories/PropPictures.v
theories/Helpers.v
theories/PropHelpers.v
theories/Fourier.v
theories/PropFourier.v
theories/Floats.v
theories/FloatProofs.v
theories/PropFloats.v
theories/Floats2.v
theories/PropFloats2.v
theories/FloatCurves.v
theories/PropFloatCurves.v
theories/Meshes.v
theories/PropMeshes.v
theories/Floats3.v
theories/PropFloats3.v
theories/FloatPlots.v
theories/PropFloatPlots.v
theories/FloatEscape.v
theories/PropFloatEscape.v
theories/FloatSweeps.v
theories/PropFloatSweeps.v
theories/FloatInterp.v
theories/PropFloatInterp.v
theories/FloatTurns.v
theories/PropFloatTurns.v
theories/FloatBezier.v
theories/PropFloatBezier.v
theories/FloatDirs.v
theories/PropFloatDirs.v
theories/PropFloatEscape2.v
theories/FloatPie.v
theories/PropFloatPie.v
theories/FloatShade.v
theories/PropFloatShade.v
theories/FloatSolid.v
theories/PropFloatSolid.v
theories/ColourNames.v
theories/PropColourNames.v
theories/FloatMeshes.v
theories/PropFloatMeshes.v
theories/PropFloatMeshes2.v
theories/Squircle.v
theories/PropSquircle.v
