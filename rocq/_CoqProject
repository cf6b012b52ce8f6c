-Q theories Verif
theories/Base/Base.v
theories/Base/Num.v
theories/Base/BaseFacts.v
theories/Model/Demosaic.v
theories/Model/Rebin.v
theories/Model/Shift.v
theories/Spec/SumSpec.v
theories/Proofs/DemosaicFacts.v
theories/Proofs/RebinFacts.v
theories/Proofs/SumFacts.v
theories/Proofs/ShiftFacts.v
theories/Proofs/RebinAlg.v
theories/Proofs/DemosaicLoops.v
theories/Model/Ifov.v
theories/Model/Stokes.v
theories/Spec/MosaicSpec.v
theories/Proofs/MosaicFacts.v
theories/Spec/Terminates.v
theories/Spec/StokesSpec.v
theories/Proofs/StokesFacts.v
theories/Proofs/MosaicProps.v
theories/Proofs/StokesProps.v
theories/Properties/P_Mosaic.v
theories/Properties/P_Stokes.v
theories/Model/Pol.v
theories/Proofs/PolFacts.v
theories/Properties/P_Pol.v
theories/Model/Codec.v
theories/Spec/CodecSpec.v
theories/Proofs/CodecFacts.v
theories/Proofs/BinaryFacts.v
theories/Proofs/RawFacts.v
theories/Model/Paths.v
theories/Model/Fs.v
theories/Spec/FsSpec.v
theories/Proofs/PathFacts.v
theories/Proofs/FsFacts.v
theories/Proofs/FsProps.v
theories/Proofs/FsMerge.v
theories/Proofs/FsSave.v
theories/Proofs/FsSet.v
theories/Properties/P_Codec.v
theories/Properties/P_Files.v
theories/Model/Angles.v
theories/Spec/AngleSpec.v
theories/Proofs/AngleFacts.v
theories/Proofs/FloatFacts.v
theories/Properties/P_Angles.v
theories/Base/Bcast.v
theories/Spec/PixelSpec.v
theories/Model/Utils.v
theories/Proofs/UtilFacts.v
theories/Properties/P_Pixels.v
theories/Model/Roi.v
theories/Spec/RoiSpec.v
theories/Proofs/RoiFacts.v
theories/Proofs/MaskFacts.v
theories/Model/Nrgf.v
theories/Proofs/NrgfFacts.v
theories/Spec/OcculterSpec.v
theories/Proofs/OcculterFacts.v
theories/Properties/P_Roi.v
theories/Model/Demodulate.v
theories/Spec/DemodSpec.v
theories/Proofs/DemodFacts.v
theories/Model/DemodFit.v
theories/Proofs/FitFacts.v
theories/Spec/FitSpec.v
theories/Proofs/GridFacts.v
theories/Proofs/InvertFacts.v
theories/Model/DemodLoad.v
theories/Spec/LoadSpec.v
theories/Proofs/LoadFacts.v
theories/Proofs/FamilyFacts.v
theories/Model/Calibrate.v
theories/Spec/CalibSpec.v
theories/Proofs/CalibFacts.v
theories/Properties/P_Demod.v
theories/Model/ImageObj.v
theories/Spec/ImageSpec.v
theories/Proofs/ObjFacts.v
theories/Proofs/ObjInv.v
theories/Proofs/ObjExec.v
theories/Proofs/ObjViews.v
theories/Proofs/ObjMore.v
theories/Proofs/ObjWitness.v
theories/Properties/P_Images.v
theories/Model/LinRoi.v
theories/Spec/LineSpec.v
theories/Proofs/LineFacts.v
theories/Properties/P_Lines.v
theories/Model/Errors.v
theories/Spec/ErrorSpec.v
theories/Proofs/ErrorFacts.v
theories/Properties/P_Errors.v
theories/Model/Congrid.v
theories/Spec/InterpSpec.v
theories/Proofs/CongridFacts.v
theories/Properties/P_Congrid.v
theories/Spec/ChenSpec.v
theories/Proofs/ChenFacts.v
theories/Properties/P_Chen.v
theories/Model/Histogram.v
theories/Spec/HistSpec.v
theories/Proofs/HistFacts.v
theories/Properties/P_Histogram.v
theories/Model/Keywords.v
theories/Spec/KeywordSpec.v
theories/Proofs/KeywordFacts.v
theories/Properties/P_Keywords.v
theories/Model/Cleaning.v
theories/Model/FileInit.v
theories/Spec/CleanSpec.v
theories/Spec/FilesSpec.v
theories/Proofs/CleanFacts.v
theories/Proofs/FilesFacts.v
theories/Properties/P_Cleaning.v
theories/Properties/P_Loading.v
theories/Model/PolarLine.v
theories/Spec/RaySpec.v
theories/Proofs/PolarLineFacts.v
theories/Proofs/PolarInnerFacts.v
theories/Properties/P_Rays.v
theories/Model/Construct.v
theories/Spec/ConstructSpec.v
theories/Proofs/ConstructFacts.v
theories/Properties/P_Construct.v
theories/Model/ChenFit.v
theories/Spec/ChenFitSpec.v
theories/Proofs/ChenFitFacts.v
theories/Properties/P_ChenFit.v
theories/Model/Limits.v
theories/Spec/LimitSpec.v
theories/Proofs/LimitFacts.v
theories/Properties/P_Limits.v
theories/Spec/DirSpec.v
theories/Proofs/DirFacts.v
theories/Properties/P_Dirs.v
theories/Model/DemodTurn.v
theories/Spec/TurnSpec.v
theories/Proofs/TurnFacts.v
theories/Properties/P_Turns.v
theories/Model/OcculterSearch.v
theories/Spec/SearchSpec.v
theories/Proofs/SearchFacts.v
theories/Properties/P_Search.v
theories/Model/Show.v
theories/Spec/ShowSpec.v
theories/Proofs/ShowFacts.v
theories/Properties/P_Show.v
theories/Model/Save.v
theories/Proofs/SaveFacts.v
theories/Properties/P_Save.v
theories/Model/DemodCov.v
theories/Spec/CovSpec.v
theories/Proofs/CovFacts.v
theories/Spec/PipeSpec.v
theories/Proofs/PipeFacts.v
theories/Proofs/PipeCase.v
theories/Properties/P_Pipe.v
theories/Spec/FloatSpec.v
theories/Proofs/ExactFacts.v
theories/Proofs/ExactFiles.v
theories/Properties/P_Exact.v
theories/Proofs/MaskObj.v
theories/Properties/P_Masking.v
theories/Proofs/RoundFacts.v
theories/Proofs/RoundImages.v
theories/Properties/P_Rounding.v
theories/Proofs/RoundPol.v
theories/Properties/P_RoundPol.v
theories/Proofs/RoundDemod.v
theories/Properties/P_RoundDemod.v
theories/Spec/BlurSpec.v
theories/Proofs/BlurFacts.v
theories/Proofs/NrgfMore.v
theories/Properties/P_Blur.v
theories/Properties/P_Profile.v
theories/Model/Meta.v
theories/Spec/MetaSpec.v
theories/Proofs/MetaFacts.v
theories/Properties/P_Meta.v
theories/Model/Glob.v
theories/Spec/GlobSpec.v
theories/Proofs/GlobFacts.v
theories/Properties/P_Glob.v
theories/Spec/ChisqSpec.v
theories/Proofs/ChisqFacts.v
theories/Properties/P_Chisq.v
theories/Spec/CorrSpec.v
theories/Proofs/CorrFacts.v
theories/Properties/P_Corr.v
theories/Model/IntData.v
theories/Spec/IntSpec.v
theories/Proofs/IntFacts.v
theories/Properties/P_Int.v
theories/Model/ShowDemod.v
theories/Spec/FigureSpec.v
theories/Proofs/ShowDemodFacts.v
theories/Properties/P_ShowDemod.v
theories/Spec/NearSpec.v
theories/Proofs/NearFacts.v
theories/Properties/P_Near.v
theories/Spec/BinSpec.v
theories/Proofs/BinFacts.v
theories/Properties/P_Bin.v
theories/Model/PolFloat.v
theories/Spec/AngleErr.v
theories/Proofs/AngleErrFacts.v
theories/Properties/P_AngleErr.v
theories/Spec/LocalSpec.v
theories/Proofs/LocalFacts.v
theories/Properties/P_Local.v
theories/Model/AnglesFloat.v
theories/Spec/AngleArraySpec.v
theories/Proofs/AnglesFloatFacts.v
theories/Properties/P_AngleArray.v
theories/Spec/ObserveSpec.v
theories/Proofs/ObserveFacts.v
theories/Properties/P_Observe.v
theories/Proofs/ResampleFacts.v
theories/Properties/P_Resample.v
theories/Proofs/LineCompare.v
theories/Proofs/LineFloatFacts.v
theories/Model/FlatFloat.v
theories/Spec/CorrectSpec.v
theories/Proofs/CorrectFloatFacts.v
theories/Properties/P_CorrectFloat.v
theories/Spec/OrderSpec.v
theories/Proofs/OrderFacts.v
theories/Properties/P_Order.v
theories/Spec/SymmetrySpec.v
theories/Proofs/SymmetryFacts.v
theories/Properties/P_Symmetry.v
theories/Spec/LeastSpec.v
theories/Proofs/LeastFacts.v
theories/Properties/P_Least.v
theories/Model/MeanFloat.v
theories/Spec/MeanSpec.v
theories/Proofs/MeanFacts.v
theories/Proofs/ObserveFloatFacts.v
theories/Properties/P_ObserveFloat.v
theories/Spec/UnitSpec.v
theories/Proofs/UnitFacts.v
theories/Properties/P_Units.v
theories/Spec/NoiseSpec.v
theories/Proofs/NoiseFacts.v
theories/Properties/P_Noise.v
theories/Proofs/ReachFacts.v
theories/Properties/P_Reach.v
theories/Model/Cache.v
theories/Spec/CacheSpec.v
theories/Proofs/CacheFacts.v
theories/Properties/P_Cache.v
theories/Model/NrgfFloat.v
theories/Spec/RingSpec.v
theories/Proofs/RingFacts.v
theories/Properties/P_Ring.v
theories/Model/Pixels.v
theories/Spec/StoreSpec.v
theories/Proofs/StoreFacts.v
theories/Properties/P_Store.v
theories/Spec/MissingSpec.v
theories/Proofs/MissingFacts.v
theories/Properties/P_Missing.v
theories/Spec/LineSymmetry.v
theories/Proofs/LineSymFacts.v
theories/Properties/P_LineSym.v
theories/Proofs/TwiceFacts.v
theories/Properties/P_Twice.v
theories/Spec/RawPolSpec.v
theories/Proofs/RawPolFacts.v
theories/Properties/P_RawPol.v
theories/Spec/ResampleError.v
theories/Proofs/ResampleFloat.v
theories/Properties/P_ResampleFloat.v
theories/Model/Reload.v
theories/Spec/ReloadSpec.v
theories/Proofs/ReloadFacts.v
theories/Properties/P_Reload.v
theories/Model/Operators.v
theories/Spec/OperatorSpec.v
theories/Proofs/OperatorFacts.v
theories/Properties/P_Operator.v
theories/Proofs/RelFacts.v
theories/Spec/ErrorFloatSpec.v
theories/Proofs/ErrorFloatFacts.v
theories/Properties/P_ErrorFloat.v
theories/Model/IntTypes.v
theories/Spec/IntTypeSpec.v
theories/Proofs/IntTypeFacts.v
theories/Proofs/IntMixFacts.v
theories/Properties/P_IntType.v
theories/Proofs/PiFacts.v
theories/Model/PolarFloat.v
theories/Spec/SectorSpec.v
theories/Proofs/SectorFacts.v
theories/Properties/P_Sector.v
theories/Proofs/FourFacts.v
theories/Spec/IfovSpec.v
theories/Proofs/IfovFloatFacts.v
theories/Properties/P_IfovFloat.v
theories/Model/NrgfSector.v
theories/Spec/SectorFilterSpec.v
theories/Proofs/SectorFilterFacts.v
theories/Properties/P_SectorFilter.v
theories/Model/CongridKind.v
theories/Spec/PickSpec.v
theories/Proofs/PickFacts.v
theories/Properties/P_Pick.v
theories/Model/CongridNd.v
theories/Spec/TensorSpec.v
theories/Proofs/TensorFacts.v
theories/Properties/P_Tensor.v
theories/Spec/PolErrSpec.v
theories/Proofs/PolErrFacts.v
theories/Properties/P_PolErr.v
theories/Model/CalibDebug.v
theories/Spec/DebugSpec.v
theories/Proofs/DebugFacts.v
theories/Properties/P_Debug.v
theories/Spec/EndSpec.v
theories/Proofs/EndFacts.v
theories/Properties/P_End.v
theories/Model/Kinds.v
theories/Spec/KindSpec.v
theories/Proofs/KindFacts.v
theories/Properties/P_Kind.v
theories/Model/MedianFilter.v
theories/Spec/MedianSpec.v
theories/Proofs/MedianFacts.v
theories/Properties/P_Median.v
theories/Model/Rotate.v
theories/Spec/RotateSpec.v
theories/Proofs/RotateFacts.v
theories/Properties/P_Rotate.v
theories/Spec/ThresholdSpec.v
theories/Proofs/ThresholdFacts.v
theories/Properties/P_Threshold.v
theories/Spec/BinFloatSpec.v
theories/Proofs/BinFloatFacts.v
theories/Proofs/FourTimesFacts.v
theories/Properties/P_BinFloat.v
theories/Spec/ExposureSpec.v
theories/Proofs/ExposureFacts.v
theories/Properties/P_Exposure.v
