-Q theories Verif
theories/Base.v
theories/Histogram.v
theories/HistogramSpec.v
theories/HistogramProofs.v
theories/HistogramFinal.v
theories/HistogramProps.v
theories/SortLib.v
theories/Cplx.v
theories/ArrayMatch.v
theories/ArrayMatchProofs.v
theories/Utils1.v
theories/Utils1Spec.v
theories/Utils1Proofs.v
theories/ArrayMatchProps.v
theories/Utils1Props.v
theories/WeightInvert.v
theories/WeightInvertSpec.v
theories/WeightInvertProofs.v
theories/WeightInvertProps.v
theories/NpArr.v
theories/Rebin.v
theories/RebinProofs.v
theories/RebinProps.v
theories/PyIndex.v
theories/GridLoc.v
theories/GridSpec.v
theories/GridLocProofs.v
theories/SumLib.v
theories/GridCountProofs.v
theories/GridLocProps.v
theories/GridLenProps.v
theories/VisGrid.v
theories/VisGridBoxProofs.v
theories/VisGridSpec.v
theories/VisGridProofs.v
theories/VisGridLinProofs.v
theories/VisGridProps.v
theories/VisGrid2Props.v
theories/Filter.v
theories/FilterProofs.v
theories/FilterProps.v
theories/VisWeights.v
theories/VisWeightsSpec.v
theories/VisWeightsProofs.v
theories/SplitWeightsProofs.v
theories/VisWeightsProps.v
theories/VisSplitProps.v
theories/Flagging.v
theories/FlaggingSpec.v
theories/FlaggingProofs.v
theories/VisFlagProofs.v
theories/FlaggingProps.v
theories/ResMean.v
theories/ResMeanSpec.v
theories/ResMeanProofs.v
theories/ResMeanProps.v
theories/CalApply.v
theories/CalApplySpec.v
theories/CalApplyProofs.v
theories/AutoProofs.v
theories/CalApplyProps.v
theories/AdaptGain.v
theories/AdaptGainSpec.v
theories/AdaptGainProofs.v
theories/AdaptGainProps.v
theories/Solver.v
theories/SolverSpec.v
theories/SolverProofs.v
theories/SolverProps.v
theories/CalFlag.v
theories/CalFlagSpec.v
theories/CalFlagProofs.v
theories/CalFlagProps.v
theories/Bandpass.v
theories/BandpassSpec.v
theories/BandpassProofs.v
theories/BandpassProps.v
theories/ModelFlag.v
theories/ModelFlagSpec.v
theories/ModelFlagProofs.v
theories/ModelFlagProps.v
theories/Obs.v
theories/ObsSpec.v
theories/ObsProofs.v
theories/ObsProps.v
theories/H5IO.v
theories/H5IOSpec.v
theories/H5IOProofs.v
theories/H5IOProps.v
theories/Setup.v
theories/SetupSpec.v
theories/SetupProps.v
theories/Pipeline.v
theories/PipelineSpec.v
theories/PipelineProofs.v
theories/PipelineProps.v
theories/RegionGrow.v
theories/RegionGrowSpec.v
theories/RegionGrowProofs.v
theories/RegionGrowProps.v
theories/Sky.v
theories/SkyProps.v
theories/HealpixCnv.v
theories/HealpixCnvSpec.v
theories/HealpixCnvProofs.v
theories/HealpixCnvProps.v
theories/HealpixExport.v
theories/HealpixExportSpec.v
theories/HealpixExportProofs.v
theories/HealpixExportProps.v
theories/CalAuto.v
theories/CalAutoSpec.v
theories/CalAutoProofs.v
theories/CalAutoProps.v
theories/Calibrate.v
theories/CalibrateSpec.v
theories/CalibrateProofs.v
theories/CalibrateProps.v
theories/Polyfit.v
theories/PolyfitSpec.v
theories/PolyfitProofs.v
theories/PolyfitProps.v
theories/QuMixing.v
theories/QuMixingSpec.v
theories/QuMixingProps.v
theories/CalSub.v
theories/CalSubSpec.v
theories/CalSubProofs.v
theories/CalSubProps.v
theories/UvHeader.v
theories/UvHeaderSpec.v
theories/UvHeaderProofs.v
theories/UvHeaderProps.v
theories/Layout.v
theories/LayoutSpec.v
theories/LayoutProofs.v
theories/LayoutProps.v
theories/ObsFull.v
theories/ObsFullSpec.v
theories/ObsFullProofs.v
theories/ObsFullProps.v
theories/DirtyImage.v
theories/DirtyImageSpec.v
theories/DirtyImageProofs.v
theories/DirtyImageProps.v
theories/Quickview.v
theories/QuickviewSpec.v
theories/QuickviewProofs.v
theories/QuickviewProps.v
theories/Beam.v
theories/BeamSpec.v
theories/BeamProofs.v
theories/BeamProps.v
theories/ExportSize.v
theories/ExportSizeSpec.v
theories/ExportSizeProofs.v
theories/ExportSizeProps.v
theories/Kernel.v
theories/KernelSpec.v
theories/KernelProofs.v
theories/KernelProps.v
theories/TransferBp.v
theories/TransferBpSpec.v
theories/TransferBpProofs.v
theories/TransferBpProps.v
theories/RecDict.v
theories/RecDictSpec.v
theories/RecDictProofs.v
theories/RecDictProps.v
theories/ModelRead.v
theories/ModelReadSpec.v
theories/ModelReadProofs.v
theories/ModelReadProps.v
theories/CrossPol.v
theories/CrossPolSpec.v
theories/CrossPolProofs.v
theories/CrossPolProps.v
theories/PlotCal.v
theories/PlotCalSpec.v
theories/PlotCalProofs.v
theories/PlotCalProps.v
theories/Reflect.v
theories/ReflectSpec.v
theories/ReflectProofs.v
theories/ReflectProps.v
theories/HealpixSel.v
theories/HealpixSelSpec.v
theories/HealpixSelProofs.v
theories/HealpixSelProps.v
theories/Slant.v
theories/SlantSpec.v
theories/SlantProofs.v
theories/SlantProps.v
theories/OptionsBase.v
theories/OptionsTable.v
theories/Options.v
theories/OptionsSpec.v
theories/OptionsProofs.v
theories/OptionsProps.v
theories/OutDir.v
theories/OutDirSpec.v
theories/OutDirProofs.v
theories/OutDirProps.v
theories/ColorImg.v
theories/ColorImgSpec.v
theories/ColorImgProofs.v
theories/ColorImgProps.v
theories/BeamFile.v
theories/BeamFileSpec.v
theories/BeamFileProofs.v
theories/BeamFileProps.v
theories/PointingBp.v
theories/PointingBpSpec.v
theories/PointingBpProofs.v
theories/PointingBpProps.v
theories/ModelExport.v
theories/ModelExportSpec.v
theories/ModelExportProofs.v
theories/ModelExportProps.v
theories/GitInfo.v
theories/GitInfoSpec.v
theories/GitInfoProps.v
