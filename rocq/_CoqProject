-Q theories Verif
theories/Num.v
theories/NumProofs.v
theories/Py.v
theories/NdArray.v
theories/NumpyLib.v
theories/Utils.v
theories/ScipyWrap.v
theories/SortProofs.v
theories/EvalProofs.v
theories/NdProofs.v
theories/InterpProofs.v
theories/IntegralProofs.v
theories/BinProofs.v
theories/HistPdf.v
theories/InterpPdf.v
theories/QuantPdf.v
theories/Spec.v
theories/HistProofs.v
theories/HistTheorems.v
theories/TableProofs.v
theories/InterpPdfProofs.v
theories/GridTheorems.v
theories/IrrTheorems.v
theories/EvalTheorems.v
theories/QuantTheorems.v
theories/MixmodPdf.v
theories/MixmodTheorems.v
theories/Sampling.v
theories/SamplingTheorems.v
theories/Packing.v
theories/PackedPdf.v
theories/PackingTheorems.v
theories/PackedTheorems.v
theories/Sparse.v
theories/SparseTheorems.v
theories/Values.v
theories/Ensemble.v
theories/Classes.v
theories/Kinds.v
theories/KindProofs.v
theories/EnsembleProofs.v
theories/KindInputs.v
theories/ReachProofs.v
theories/AppendProofs.v
theories/EnsembleTheorems.v
theories/EnsembleRefuted.v
theories/RowProofs.v
theories/IntegrateTheorems.v
theories/Registry.v
theories/RegistryTheorems.v
theories/Convert.v
theories/ConvertTheorems.v
theories/ConvertRefuted.v
theories/ConvertExamples.v
theories/Hdf5.v
theories/RangeProofs.v
theories/Hdf5Proofs.v
theories/WriteProofs.v
theories/Hdf5Theorems.v
theories/IterProofs.v
theories/ChunkProofs.v
theories/Hdf5Examples.v
theories/Hdf5Refuted.v
theories/Metrics.v
theories/MetricsProofs.v
theories/BrierProofs.v
theories/KldProofs.v
theories/MetricsTheorems.v
theories/MetricsExamples.v
theories/MatrixTheorems.v
theories/Fit.v
theories/FitProofs.v
theories/FitTheorems.v
theories/FitExamples.v
theories/PointMetrics.v
theories/PointProofs.v
theories/PointTheorems.v
theories/PointExamples.v
theories/Pit.v
theories/PitTheorems.v
theories/PitExamples.v
theories/MetricRegistry.v
theories/MetricRegistryTheorems.v
theories/Moments.v
theories/MomentTheorems.v
theories/MomentGrid.v
theories/Profile.v
theories/ProfileTheorems.v
theories/Shapes.v
theories/ShapeTheorems.v
theories/EdgeTheorems.v
theories/Derived.v
theories/DerivedTheorems.v
theories/Digest.v
theories/DigestTheorems.v
theories/DigestExamples.v
theories/DigestPit.v
theories/SplinePdf.v
theories/SplineProofs.v
theories/SplineMath.v
theories/SplineXy.v
theories/SplineTheorems.v
theories/SplineXyTheorems.v
theories/SplineExamples.v
theories/Alloc.v
theories/AllocTheorems.v
theories/DictFile.v
theories/DictFileTheorems.v
theories/Rbpe.v
theories/RbpeMath.v
theories/RbpeTheorems.v
theories/Heap.v
theories/HeapProofs.v
theories/HeapTheorems.v
theories/HeapSharing.v
theories/SampleConvert.v
theories/SampleConvertTheorems.v
theories/SampleConvertExamples.v
theories/Gauss.v
theories/GaussTheorems.v
theories/Logs.v
theories/LogTheorems.v
theories/SplineConvert.v
theories/SplineConvertTheorems.v
theories/SparseConvert.v
theories/SparseConvertTheorems.v
theories/SparseConvertExamples.v
theories/Float.v
theories/FloatProofs.v
theories/FloatHist.v
theories/FloatMachine.v
theories/FloatTheorems.v
theories/FloatExamples.v
theories/FloatGrid.v
theories/FloatPack.v
theories/FloatNorm.v
theories/MetricObjects.v
theories/MetricObjectTheorems.v
theories/RowShapeTheorems.v
theories/FitChecks.v
theories/FitCheckTheorems.v
theories/FloatCdf.v
theories/FloatCdfTheorems.v
theories/FreezeProofs.v
theories/UncheckedTheorems.v
theories/PitMeta.v
theories/PitVariance.v
theories/PitMetaProofs.v
theories/PitMetaTheorems.v
theories/PitMetaExamples.v
theories/SparseShapes.v
theories/SparseShapesTheorems.v
theories/SparseShapesExamples.v
theories/Voigt.v
theories/SparseMadeTheorems.v
theories/FloatInterp.v
theories/FloatInterpTheorems.v
theories/FloatSlice.v
theories/FloatSliceTheorems.v
theories/FloatPpf.v
theories/FloatPpfTheorems.v
theories/FloatDens.v
theories/FloatDensTheorems.v
theories/FloatIppfTheorems.v
theories/PairwiseProofs.v
theories/FloatMixTheorems.v
theories/CdeTheorems.v
theories/FitBounds.v
theories/FitBoundTheorems.v
theories/NormTheorems.v
theories/VoigtConvert.v
theories/VoigtConvertTheorems.v
theories/CommuteTheorems.v
theories/MetricSelectTheorems.v
theories/ScaleTheorems.v
theories/UnitTheorems.v
theories/UnitMetricTheorems.v
theories/MixSameTheorems.v
theories/KnotTheorems.v
theories/SplitBinTheorems.v
theories/ModeTheorems.v
theories/UnitConvertTheorems.v
theories/UnitQuantTheorems.v
theories/Plotting.v
theories/PlottingTheorems.v
theories/PlotNative.v
theories/PlotNativeTheorems.v
theories/PlotHist.v
theories/PlotHistTheorems.v
theories/PlotQuant.v
theories/PlotQuantTheorems.v
theories/PlotIrr.v
theories/PlotIrrTheorems.v
theories/Prop_Hist.v
theories/Prop_Eval.v
theories/Prop_Interp.v
theories/Prop_Quant.v
theories/Prop_Mixmod.v
theories/Prop_Sampling.v
theories/Prop_Packing.v
theories/Prop_Sparse.v
theories/Prop_Ensemble.v
theories/Prop_EnsembleRefuted.v
theories/Prop_Integrate.v
theories/Prop_Registry.v
theories/Prop_Convert.v
theories/Prop_Hdf5.v
theories/Prop_Hdf5Refuted.v
theories/Prop_Metrics.v
theories/Prop_Fit.v
theories/Prop_Point.v
theories/Prop_Pit.v
theories/Prop_MetricRegistry.v
theories/Prop_Moment.v
theories/Prop_Profile.v
theories/Prop_Shape.v
theories/Prop_Edge.v
theories/Prop_Derived.v
theories/Prop_Digest.v
theories/Prop_Spline.v
theories/Prop_Alloc.v
theories/Prop_DictFile.v
theories/Prop_Rbpe.v
theories/Prop_Heap.v
theories/Prop_SampleConvert.v
theories/Prop_Gauss.v
theories/Prop_Log.v
theories/Prop_SplineConvert.v
theories/Prop_SparseConvert.v
theories/Prop_Float.v
theories/Prop_MetricObjects.v
theories/Prop_Shapes.v
theories/Prop_FloatCdf.v
theories/Prop_Unchecked.v
theories/Prop_PitMeta.v
theories/Prop_SparseShapes.v
theories/Prop_SparseMade.v
theories/Prop_FloatInterp.v
theories/Prop_FloatSlice.v
theories/Prop_FloatPpf.v
theories/Prop_FloatDens.v
theories/Prop_FloatIppf.v
theories/Prop_FloatMix.v
theories/Prop_Cde.v
theories/Prop_FitBounds.v
theories/Prop_Norm.v
theories/Prop_VoigtConvert.v
theories/Prop_Commute.v
theories/Prop_MetricSelect.v
theories/Prop_Units.v
theories/Prop_UnitMetrics.v
theories/Prop_MixSame.v
theories/Prop_Knots.v
theories/Prop_SplitBin.v
theories/Prop_Mode.v
theories/Prop_UnitConvert.v
theories/Prop_UnitQuant.v
theories/Prop_Plotting.v
theories/Prop_PlotNative.v
theories/Prop_PlotHist.v
theories/Prop_PlotQuant.v
theories/Prop_PlotIrr.v
