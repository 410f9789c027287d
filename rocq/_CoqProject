-Q theories Verif
theories/Base.v
theories/BaseFacts.v
theories/Sum.v
theories/Mem.v
theories/MemSpec.v
theories/MemFacts.v
theories/MemFacts2.v
theories/Checks.v
theories/ChecksFacts.v
theories/MemFacts3.v
theories/Prop_Mem.v
theories/Timer.v
theories/TimerSpec.v
theories/TimerFacts.v
theories/Prop_Timer.v
theories/TaskPool.v
theories/TaskPoolSpec.v
theories/TaskPoolFacts.v
theories/Prop_TaskPool.v
theories/Clamp.v
theories/ClampSpec.v
theories/ClampFacts.v
theories/ClampFacts2.v
theories/Select.v
theories/SelectSpec.v
theories/SelectFacts.v
theories/SelectFacts2.v
theories/Prop_Clamp.v
theories/CRing.v
theories/Loops.v
theories/Cplx.v
theories/Subgrid.v
theories/SubgridSpec.v
theories/SubgridFacts.v
theories/GridUtils.v
theories/GridUtilsSpec.v
theories/GridUtilsFacts.v
theories/Flmn.v
theories/FlmnSpec.v
theories/FlmnFacts.v
theories/Prop_Subgrid.v
theories/Prop_GridUtils.v
theories/QNum.v
theories/Tiled.v
theories/TiledSpec.v
theories/TiledFacts.v
theories/Prop_Tiled.v
theories/Hogbom.v
theories/HogbomSpec.v
theories/HogbomFacts.v
theories/Prop_Hogbom.v
theories/MsClean.v
theories/MsCleanSpec.v
theories/MsCleanFacts.v
theories/Prop_MsClean.v
theories/Fft.v
theories/FftSpec.v
theories/FftFacts.v
theories/FftFacts2.v
theories/FftFacts3.v
theories/Prop_Fft.v
theories/PadSize.v
theories/PadSizeSpec.v
theories/PadSizeFacts.v
theories/Prop_PadSize.v
theories/FftConv.v
theories/FftConvSpec.v
theories/FftConvFacts.v
theories/FftConvFacts2.v
theories/Prop_FftConv.v
theories/Swiftly.v
theories/SwiftlySpec.v
theories/SwiftlyFacts.v
theories/SwiftlyFacts2.v
theories/SwiftlyFacts3.v
theories/SwiftlyFacts4.v
theories/SwiftlyFacts5.v
theories/SwiftlyFacts6.v
theories/SwiftlyFacts7.v
theories/SwiftlyFacts8.v
theories/Prop_Swiftly.v
theories/WTower.v
theories/WTowerSpec.v
theories/WTowerFacts.v
theories/WTowerFacts2.v
theories/WTowerFacts3.v
theories/WTowerFacts4.v
theories/Prop_WTower.v
theories/WTowerDrv.v
theories/WTowerDrvSpec.v
theories/WTowerDrvFacts.v
theories/WTowerDrvFacts2.v
theories/WTowerDrvFacts3.v
theories/Prop_WTowerDrv.v
theories/WHeight.v
theories/WHeightFacts.v
theories/Prop_WHeight.v
theories/Pswf.v
theories/PswfFacts.v
theories/Prop_Pswf.v
theories/Sets.v
theories/Dft.v
theories/DftSpec.v
theories/DftFacts.v
theories/DftFacts2.v
theories/Prop_Dft.v
theories/PhaseRotate.v
theories/PhaseRotateSpec.v
theories/PhaseRotateFacts.v
theories/Prop_PhaseRotate.v
theories/ContigSpec.v
theories/Prop_Contig.v
theories/Flagger.v
theories/FlaggerSpec.v
theories/FlaggerFacts.v
theories/FlaggerFacts2.v
theories/FlaggerFacts3.v
theories/FlaggerReal.v
theories/Prop_Flagger.v
theories/Weighting.v
theories/WeightingSpec.v
theories/WeightingFacts.v
theories/Prop_Weighting.v
theories/DegridCustom.v
theories/DegridCustomSpec.v
theories/DegridCustomFacts.v
theories/Prop_DegridCustom.v
theories/GoodSize.v
theories/GoodSizeSpec.v
theories/GoodSizeFacts.v
theories/EsParams.v
theories/EsParamsSpec.v
theories/EsParamsFacts.v
theories/Prop_EsParams.v
theories/Legendre.v
theories/LegendreSpec.v
theories/LegendreFacts.v
theories/Prop_Legendre.v
theories/SphericalWave.v
theories/SphericalWaveSpec.v
theories/SphericalWaveFacts.v
theories/SphericalWaveFacts2.v
theories/Prop_SphericalWave.v
theories/Station.v
theories/StationSpec.v
theories/StationFacts.v
theories/Prop_Station.v
theories/Atomics.v
theories/AtomicsFacts.v
theories/Prop_Atomics.v
theories/Logging.v
theories/LoggingSpec.v
theories/LoggingFacts.v
theories/Prop_Logging.v
theories/Examples.v
theories/ExamplesSpec.v
theories/ExamplesFacts.v
theories/Prop_Examples.v
theories/ClampApi.v
theories/FailSpec.v
theories/Prop_Failures.v
theories/Prop_ClampApi.v
theories/Gpu.v
theories/GpuFacts.v
theories/EsKernels.v
theories/EsKernelsSpec.v
theories/EsKernelsFacts.v
theories/EsKernelsFacts2.v
theories/GpuFacts2.v
theories/EsKernelsFacts3.v
theories/EsScreenSpec.v
theories/EsScreenFacts.v
theories/EsScreenFacts2.v
theories/EsPipe.v
theories/EsPipeSpec.v
theories/EsPipeFacts.v
theories/EsPipeFacts2.v
theories/EsPipeFacts3.v
theories/Prop_EsPipe.v
theories/EsPlan.v
theories/EsPlanSpec.v
theories/EsPlanFacts.v
theories/EsPlanFacts2.v
theories/Prop_EsPlan.v
theories/EsBuffers.v
theories/EsBuffersSpec.v
theories/EsBuffersFacts.v
theories/EsBuffersFacts2.v
theories/Prop_EsBuffers.v
theories/LegendreBounds.v
theories/CosQ.v
theories/Plane.v
theories/CosZ.v
theories/LegendreZ.v
theories/QuadratureCells.v
theories/QuadratureFacts.v
theories/QuadratureTables.v
theories/QuadratureSpec.v
theories/QuadratureFacts2.v
theories/Prop_Quadrature.v
theories/EsPlanFacts3.v
theories/CorrectionCells.v
theories/CorrectionTables.v
theories/CorrectionFacts.v
theories/CorrectionFacts2.v
theories/Prop_Correction.v
theories/GpuBlock.v
theories/GpuBlockFacts.v
theories/HogbomGpu.v
theories/HogbomGpuSpec.v
theories/HogbomGpuFacts.v
theories/HogbomGpuFacts2.v
theories/HogbomGpuRuns.v
theories/HogbomGpuFacts3.v
theories/Prop_HogbomGpu.v
theories/GpuLaunch.v
theories/GpuLaunchFacts.v
theories/GpuSpec.v
theories/DftGpu.v
theories/DftGpuSpec.v
theories/DftGpuFacts.v
theories/Prop_DftGpu.v
theories/PhaseRotateGpu.v
theories/PhaseRotateGpuFacts.v
theories/Prop_PhaseRotateGpu.v
theories/GpuAddFacts.v
theories/WeightingGpu.v
theories/WeightingGpuSpec.v
theories/WeightingGpuFacts.v
theories/Prop_WeightingGpu.v
theories/GpuView.v
theories/GpuViewFacts.v
theories/GridUtilsGpu.v
theories/GridUtilsGpuSpec.v
theories/GridUtilsGpuFacts.v
theories/Prop_GridUtilsGpu.v
theories/GpuCas.v
theories/GpuCasSpec.v
theories/GpuCasFacts.v
theories/BoundsGpu.v
theories/BoundsGpuSpec.v
theories/BoundsGpuFacts.v
theories/Prop_BoundsGpu.v
theories/SumDiffGpu.v
theories/SumDiffGpuFacts.v
theories/SumDiffGpuRuns.v
theories/Prop_SumDiffGpu.v
theories/ElementGpu.v
theories/ElementGpuSpec.v
theories/ElementGpuFacts.v
theories/Prop_ElementGpu.v
theories/ClampGpu.v
theories/ClampGpuSpec.v
theories/ClampGpuFacts.v
theories/Prop_ClampGpu.v
theories/GpuBlockFacts2.v
theories/StationGpu.v
theories/StationGpuSpec.v
theories/StationGpuFacts.v
theories/StationGpuFacts2.v
theories/StationGpuFacts3.v
theories/Prop_StationGpu.v
theories/DipoleGpu.v
theories/DipoleGpuSpec.v
theories/Prop_DipoleGpu.v
theories/WTowerGpu.v
theories/WTowerGpuSpec.v
theories/WTowerGpuFacts.v
theories/WTowerGpuFacts2.v
theories/Prop_WTowerGpu.v
theories/DegridCustomGpu.v
theories/DegridCustomGpuSpec.v
theories/DegridCustomGpuFacts.v
theories/Prop_DegridCustomGpu.v
theories/GpuBlockFacts3.v
theories/PrefixGpu.v
theories/PrefixGpuFacts.v
theories/Prop_PrefixGpu.v
theories/GpuFetch.v
theories/GpuFetchFacts.v
theories/TiledGpu.v
theories/TiledGpuSpec.v
theories/TiledGpuFacts.v
theories/TiledGpuFacts2.v
theories/Prop_TiledGpu.v
theories/GpuAtom.v
theories/GpuAtomFacts.v
theories/OptWeightGpu.v
theories/OptWeightGpuSpec.v
theories/OptWeightGpuFacts.v
theories/Prop_OptWeightGpu.v
theories/FftConvGpuSpec.v
theories/FftConvGpu.v
theories/FftConvGpuFacts.v
theories/FftConvGpuFacts2.v
theories/Prop_FftConvGpu.v
theories/Direct.v
theories/DirectSpec.v
theories/DirectFacts.v
theories/DirectFacts2.v
theories/DirectFacts3.v
theories/Prop_Direct.v
theories/VectorAddGpu.v
theories/VectorAddGpuSpec.v
theories/VectorAddGpuFacts.v
theories/Prop_VectorAddGpu.v
theories/HogbomSky.v
theories/HogbomSkySpec.v
theories/HogbomSkyFacts.v
theories/Prop_HogbomSky.v
theories/WStack.v
theories/WStackSpec.v
theories/WStackFacts.v
theories/WStackFacts2.v
theories/Prop_WStack.v
theories/WStackSpec2.v
theories/WStackFacts3.v
theories/Prop_WStack2.v
theories/SharedAdd.v
theories/SharedAddSpec.v
theories/SharedAddFacts.v
theories/SharedAddSpec2.v
theories/SharedAddFacts2.v
theories/Prop_SharedAdd.v
theories/Prop_SharedAdd2.v
theories/HogbomSkyGpu.v
theories/HogbomSkyGpuSpec.v
theories/HogbomSkyGpuFacts.v
theories/Prop_HogbomSkyGpu.v
theories/Mutex.v
theories/MutexSpec.v
theories/MutexFacts.v
theories/Prop_Mutex.v
