-Q theories Verif
theories/Admission.v
theories/AdmissionFacts.v
theories/AdmissionSpec.v
theories/ApiFrames.v
theories/ApiLemmas.v
theories/ApiSpec.v
theories/Args.v
theories/ArgsLemmas.v
theories/ArgsSpec.v
theories/Audio.v
theories/AudioChan.v
theories/AudioChanFacts.v
theories/AudioChanLemmas.v
theories/AudioChanLemmas2.v
theories/AudioChanLemmas3.v
theories/AudioChanSpec.v
theories/AudioLemmas.v
theories/AudioLemmas2.v
theories/AudioQuantLemmas.v
theories/AudioSpec.v
theories/Average.v
theories/AverageFrames.v
theories/AverageLemmas.v
theories/AverageNear.v
theories/AverageSpec.v
theories/Blank.v
theories/BlankLemmas.v
theories/BlankNum.v
theories/BlankSpec.v
theories/BoxBlur.v
theories/BoxBlurDiv.v
theories/BoxBlurFrames.v
theories/BoxBlurPlanes.v
theories/BoxBlurRows.v
theories/BoxBlurSpec.v
theories/Cache.v
theories/CacheLemmas.v
theories/CacheLemmas2.v
theories/CacheLemmas3.v
theories/CacheSpec.v
theories/ClipProp.v
theories/ClipPropLemmas.v
theories/Common.v
theories/ConvSimd.v
theories/ConvSimdFacts.v
theories/ConvSimdLanes.v
theories/ConvSimdPlanes.v
theories/ConvSimdRoom.v
theories/ConvSimdScan.v
theories/Convert.v
theories/ConvertFacts.v
theories/ConvertLemmas.v
theories/ConvertRound.v
theories/ConvertSpec.v
theories/EnvConfig.v
theories/EnvConfigFacts.v
theories/EnvConfigSpec.v
theories/Eval.v
theories/EvalFacts.v
theories/EvalLemmas.v
theories/EvalRun.v
theories/EvalSpec.v
theories/Expr.v
theories/ExprCode.v
theories/ExprFilter.v
theories/ExprFilterFacts.v
theories/ExprFilterSpec.v
theories/ExprParse.v
theories/ExprSpec.v
theories/ExprSyntax.v
theories/Format.v
theories/FormatLemmas.v
theories/FormatLemmas2.v
theories/FormatSpec.v
theories/Fourcc.v
theories/FourccFacts.v
theories/FourccSpec.v
theories/Frame.v
theories/FrameFacts.v
theories/FrameGeom.v
theories/FrameLemmas.v
theories/FrameOps.v
theories/FrameSim.v
theories/FrameSpec.v
theories/Generic.v
theories/GenericCast.v
theories/GenericFacts.v
theories/GenericFloat.v
theories/GenericFrames.v
theories/GenericLemmas.v
theories/GenericLevels.v
theories/GenericMedian.v
theories/GenericOps.v
theories/GenericPlanes.v
theories/GenericSimd.v
theories/GenericSimdEdges.v
theories/GenericSimdFacts.v
theories/GenericSimdFloat.v
theories/GenericSimdLanes.v
theories/GenericSimdOps.v
theories/GenericSimdPlanes.v
theories/GenericSimdRows.v
theories/GenericSingle.v
theories/GenericSpec.v
theories/Graph.v
theories/GraphFacts.v
theories/GraphLemmas.v
theories/GraphSpec.v
theories/GraphWalk.v
theories/Half.v
theories/HalfLemmas.v
theories/HalfSpec.v
theories/ImageSpec.v
theories/Json.v
theories/JsonLemmas.v
theories/JsonSpec.v
theories/Lifetime.v
theories/LifetimeFacts.v
theories/LifetimeLemmas.v
theories/Linear.v
theories/LinearLemmas.v
theories/LinearSpec.v
theories/Log.v
theories/LogLemmas.v
theories/LogSpec.v
theories/Lut.v
theories/Lut2Frames.v
theories/LutFacts.v
theories/LutFrames.v
theories/LutLemmas.v
theories/LutNeon.v
theories/LutNeonFacts.v
theories/MapAlias.v
theories/MapFacts.v
theories/MapLemmas.v
theories/MapLemmas2.v
theories/MapLemmas3.v
theories/MapModel.v
theories/MapSim.v
theories/MapSpec.v
theories/Memory.v
theories/MemoryLemmas.v
theories/Merge.v
theories/MergeFacts.v
theories/MergeLemmas.v
theories/MergeLemmas2.v
theories/MergeSimd.v
theories/MergeSimdLanes.v
theories/MergeSimdLemmas.v
theories/MergeSimdLemmas2.v
theories/MergeSpec.v
theories/Mix.v
theories/MixBuild.v
theories/MixFinal.v
theories/MixLemmas.v
theories/MixLoud.v
theories/MixSpec.v
theories/NodeCache.v
theories/NodeCacheLemmas.v
theories/Opt.v
theories/OptLemmas.v
theories/OptSpec.v
theories/P_Admission.v
theories/P_Api.v
theories/P_Args.v
theories/P_Audio.v
theories/P_Average.v
theories/P_Blank.v
theories/P_BoxBlur.v
theories/P_Cache.v
theories/P_ClipProp.v
theories/P_ConvSimd.v
theories/P_Convert.v
theories/P_EnvConfig.v
theories/P_Eval.v
theories/P_Expr.v
theories/P_ExprFilter.v
theories/P_Format.v
theories/P_Fourcc.v
theories/P_Frame.v
theories/P_Generic.v
theories/P_GenericSimd.v
theories/P_Graph.v
theories/P_Half.v
theories/P_Json.v
theories/P_Lifetime.v
theories/P_Linear.v
theories/P_Log.v
theories/P_Lut.v
theories/P_LutNeon.v
theories/P_Map.v
theories/P_Merge.v
theories/P_Mix.v
theories/P_Opt.v
theories/P_Pipe.v
theories/P_PlaneStats.v
theories/P_Plugin.v
theories/P_Props.v
theories/P_PyCall.v
theories/P_PyMap.v
theories/P_PySlice.v
theories/P_Rational.v
theories/P_Reorder.v
theories/P_Resample.v
theories/P_ResizeColour.v
theories/P_ResizeFields.v
theories/P_ResizeSar.v
theories/P_Rw.v
theories/P_Sched.v
theories/P_ScriptEval.v
theories/P_Spatial.v
theories/P_SquareSimd.v
theories/P_Text.v
theories/P_Time.v
theories/P_Wave.v
theories/P_Y4m.v
theories/Pipe.v
theories/PipeLemmas.v
theories/PipeSpec.v
theories/Pixel.v
theories/PixelLemmas.v
theories/PixelSpec.v
theories/PlaneMem.v
theories/PlaneStats.v
theories/PlaneStatsAvx.v
theories/PlaneStatsAvxWord.v
theories/PlaneStatsFrames.v
theories/PlaneStatsLemmas.v
theories/PlaneStatsSpec.v
theories/PlaneStatsVec.v
theories/PlaneStatsWord.v
theories/Plugin.v
theories/PluginLemmas.v
theories/PluginSpec.v
theories/Props.v
theories/PropsLemmas.v
theories/PropsSpec.v
theories/PyCall.v
theories/PyCallFacts.v
theories/PyCallSpec.v
theories/PyMap.v
theories/PyMapFacts.v
theories/PyMapSpec.v
theories/PySlice.v
theories/PySliceFacts.v
theories/PySliceSpec.v
theories/Rational.v
theories/Reorder.v
theories/ReorderLemmas.v
theories/ReorderLemmas2.v
theories/ReorderPat.v
theories/ReorderSpec.v
theories/ReqPat.v
theories/Resample.v
theories/ResampleBank.v
theories/ResampleLemmas.v
theories/ResampleSpec.v
theories/Resize.v
theories/ResizeColour.v
theories/ResizeColour2.v
theories/ResizeFields.v
theories/ResizeSar.v
theories/ResizeSpec.v
theories/Rw.v
theories/RwAlg.v
theories/RwDriver.v
theories/RwFacts.v
theories/RwPow.v
theories/RwRat.v
theories/RwReal.v
theories/RwSound.v
theories/RwSound2.v
theories/RwSpec.v
theories/RwSyntax.v
theories/SMap.v
theories/Sched.v
theories/SchedFacts.v
theories/SchedHist.v
theories/SchedInv.v
theories/SchedOrder.v
theories/SchedSerial.v
theories/SchedSpec.v
theories/SchedStep.v
theories/SchedThreads.v
theories/ScriptEval.v
theories/ScriptEvalFacts.v
theories/ScriptEvalSpec.v
theories/Simd.v
theories/Soft.v
theories/SoftAdd.v
theories/SoftBounds.v
theories/SoftErr.v
theories/SoftLe.v
theories/SoftLemmas.v
theories/SoftNum.v
theories/SoftRound.v
theories/SoftVal.v
theories/Spatial.v
theories/SpatialFacts.v
theories/SpatialFields.v
theories/SpatialFrames.v
theories/SpatialLemmas.v
theories/SpatialShuffle.v
theories/SpatialStack.v
theories/SquareSimd.v
theories/SquareSimdFacts.v
theories/SquareSimdFloat.v
theories/SquareSimdLanes.v
theories/SquareSimdPlanes.v
theories/Sums.v
theories/Text.v
theories/TextDraw.v
theories/TextFacts.v
theories/TextFrame.v
theories/TextLemmas.v
theories/TextSpec.v
theories/Time.v
theories/TimeLemmas.v
theories/TimeSpec.v
theories/Transpose.v
theories/TransposeFrames.v
theories/TransposeLemmas.v
theories/Wave.v
theories/WaveLemmas.v
theories/WaveSpec.v
theories/Y4m.v
theories/Y4mLemmas.v
theories/Y4mSpec.v
