-Q theories Verif
theories/Num.v
theories/Mem.v
theories/DataStructure.v
theories/Correlator.v
theories/Sacf.v
theories/B64.v
theories/XR.v
theories/MemFacts.v
theories/Spec.v
theories/Api.v
theories/DSFacts.v
theories/CorrFacts.v
theories/LoopFacts.v
theories/MainFacts.v
theories/Laws.v
theories/B64Facts.v
theories/SpecR.v
theories/Laws2.v
theories/ConstrFacts.v
theories/SelFacts.v
theories/SelThms.v
theories/FastFacts.v
theories/TimeFacts.v
theories/GridFacts.v
theories/SafeFacts.v
theories/DefaultFacts.v
theories/OverrunFacts.v
theories/Examples.v
theories/WeightFacts.v
theories/WeightAcc.v
theories/ValFacts.v
theories/ExactFacts.v
theories/GridVals.v
theories/FastCall.v
theories/CountFacts.v
theories/NanFacts.v
theories/InfFacts.v
theories/GridCall.v
theories/ValThms.v
theories/FastThms.v
theories/StateFacts.v
theories/RelFacts.v
theories/UnsortedFacts.v
theories/ItFacts.v
theories/ItThms.v
theories/AffineFacts.v
theories/ScaleFacts.v
theories/NegFacts.v
theories/FileReader.v
theories/SpecFile.v
theories/FileFacts.v
theories/DecFacts.v
theories/FileThms.v
theories/FileVals.v
theories/FileExamples.v
theories/PyBind.v
theories/SpecPy.v
theories/PyFacts.v
theories/AccFacts.v
theories/OffFacts.v
theories/AccThms.v
theories/SimFacts.v
theories/FixedFacts.v
theories/AccExact.v
theories/FixedThms.v
theories/Pow2Facts.v
theories/Pow2Core.v
theories/Pow2Thms.v
theories/ShiftFacts.v
theories/ValPow2.v
theories/ValPow2Thms.v
theories/SpecExt.v
theories/IntTimes.v
theories/CropFacts.v
theories/IntIndex.v
theories/IntIndexFacts.v
theories/Props15_Exactness.v
theories/Props01_Construction.v
theories/Props02_Lags.v
theories/Props03_Selection.v
theories/Props04_Weights.v
theories/Props05_Values.v
theories/Props06_Calls.v
theories/Props07_Invariance.v
theories/Props08_Files.v
theories/Props09_Python.v
theories/Props10_Iterators.v
theories/Props11_Fast.v
theories/Props12_Settings.v
theories/Props13_Limits.v
theories/Props14_Accuracy.v
theories/Props16_Pow2.v
theories/Session.v
theories/SpecSess.v
theories/SessFacts.v
theories/SessThms.v
theories/SessRuns.v
theories/SessPlain.v
theories/RebindFacts.v
theories/Props17_Session.v
theories/Props18_Units.v
theories/Props19_Range.v
theories/GridSums.v
theories/AlphaFacts.v
theories/RepoTests.v
theories/Props20_Series.v
theories/Leak.v
theories/LeakFacts.v
theories/Props21_Leaks.v
theories/SpecText.v
theories/TextFacts.v
theories/Props22_Layout.v
theories/PairBounds.v
theories/SpecTime.v
theories/TimeCloseFacts.v
theories/TimeJump.v
theories/Props23_Bounds.v
theories/IntSize.v
theories/IntSizeFacts.v
theories/Props24_Sizes.v
theories/SignalFacts.v
theories/SignalFacts2.v
theories/Props25_Signals.v
theories/PyCall.v
theories/SpecCall.v
theories/PyCallFacts.v
theories/Props26_Keywords.v
theories/Props27_Signals2.v
theories/Contract.v
theories/ContractFacts.v
theories/ContractAcc.v
theories/ContractThms.v
theories/LagNan.v
theories/Props28_Contraction.v
theories/Alloc.v
theories/AllocFacts.v
theories/AllocState.v
theories/AllocThms.v
theories/Props29_Memory.v
theories/Build.v
theories/SpecBuild.v
theories/BuildFacts.v
theories/Props30_Build.v
theories/Threads.v
theories/SpecThreads.v
theories/ThreadFacts.v
theories/ThreadShared.v
theories/ThreadSame.v
theories/Props31_Threads.v
theories/Interrupt.v
theories/InterruptFacts.v
theories/Props32_Interrupt.v
theories/FileErrors.v
theories/SpecStream.v
theories/FileErrorFacts.v
theories/Props33_Streams.v
theories/LoadAlloc.v
theories/LoadAllocFacts.v
theories/Props34_Loading.v
theories/LagNumber.v
theories/LagNumber64.v
theories/SpecDigits.v
theories/DigitFacts.v
theories/Props35_Numbers.v
theories/Props36_Rebind.v
theories/Props37_TimesClose.v
theories/AnyTimes.v
theories/AnyTimesVal.v
theories/Props38_AnyTimes.v
theories/Cost.v
theories/CostFacts.v
theories/CostMain.v
theories/Props39_Cost.v
theories/SpecShuffle.v
theories/ShuffleFacts.v
theories/ShuffleMain.v
theories/Props40_Shuffle.v
theories/SpecGaps.v
theories/GapFacts.v
theories/GapExample.v
theories/GapFloat.v
theories/Props41_Gaps.v
theories/PyMore.v
theories/Props42_Python2.v
theories/SpecNear.v
theories/NearFacts.v
theories/NearExample.v
theories/NearFloat.v
theories/Props43_Near.v
theories/SpecFast.v
theories/FastAny.v
theories/FastExample.v
theories/Props44_FastAny.v
theories/SpecRotate.v
theories/RotateFacts.v
theories/Props45_Rotate.v
theories/AnyTimesFast.v
theories/Props46_FastTimes.v
theories/SpecOutlier.v
theories/OutlierFacts.v
theories/OutlierFloat.v
theories/Props47_Outlier.v
theories/SineFacts.v
theories/SineFloat.v
theories/Props48_Sine.v
theories/SpecEven.v
theories/EvenFacts.v
theories/EvenSine.v
theories/EvenExample.v
theories/EvenFloat.v
theories/Props49_NearlyEven.v
theories/DecimalFacts.v
theories/DecimalRound.v
theories/DecimalPlain.v
theories/DecimalReturns.v
theories/DecimalSine.v
theories/PeriodFacts.v
theories/DecimalLine.v
theories/Props50_Decimal.v
theories/Props51_Period.v
theories/Props52_DecimalSignals.v
