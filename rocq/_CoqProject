-Q theories Verif
theories/Base.v
theories/Num.v
theories/Samplers.v
theories/Adapt.v
theories/Settings.v
theories/Simulator.v
theories/Demo.v
theories/SamplerFacts.v
theories/RunSpec.v
theories/RunFacts.v
theories/RunLift.v
theories/SessionFacts.v
theories/ResumeFacts.v
theories/RunThms.v
theories/DemoRuns.v
theories/RVec.v
theories/BalanceSpec.v
theories/BalanceFacts.v
theories/DRFacts.v
theories/InfFacts.v
theories/NaNFacts.v
theories/NaNRun.v
theories/DemoNaN.v
theories/DemoReal.v
theories/AcceptThms.v
theories/Prop_Run.v
theories/Prop_Accept.v
theories/RMat.v
theories/StatSpec.v
theories/CovFacts.v
theories/CholFacts.v
theories/AdaptFacts.v
theories/RamFacts.v
theories/RamExact.v
theories/InitFacts.v
theories/AdaptRun.v
theories/AdaptThms.v
theories/InitThms.v
theories/CleanFacts.v
theories/DemoRealRun.v
theories/DemoAdapt.v
theories/ResumedStats.v
theories/DemoResumed.v
theories/AdaptProps.v
theories/Prop_Adapt.v
theories/GammaSpec.v
theories/SettingsFacts.v
theories/VarFacts.v
theories/SettingsThms.v
theories/Procedures.v
theories/ProcFacts.v
theories/ParamFacts.v
theories/SettingsProps.v
theories/DemoSettings.v
theories/DemoVar.v
theories/Prop_Settings.v
theories/LogSpec.v
theories/LogFacts.v
theories/LogThms.v
theories/Names.v
theories/ChainFiles.v
theories/ChainFileFacts.v
theories/ResumeLogs.v
theories/RestartFacts.v
theories/Results.v
theories/Parallel.v
theories/ParallelSpec.v
theories/StreamLocal.v
theories/ParallelFacts.v
theories/LoadFacts.v
theories/ParallelReal.v
theories/ParallelProps.v
theories/DemoParallel.v
theories/Prop_Parallel.v
theories/ResultSpec.v
theories/ResultFacts.v
theories/ResultThms.v
theories/MergeFacts.v
theories/ReadOrder.v
theories/LogProps.v
theories/DemoLogs.v
theories/Prop_Logs.v
theories/ChainStats.v
theories/PlotUtil.v
theories/StatsSpec.v
theories/StatsFacts.v
theories/BatchFacts.v
theories/BatchReal.v
theories/GewekeFacts.v
theories/GewekeReal.v
theories/QuantSpec.v
theories/QuantFacts.v
theories/UtilFacts.v
theories/Propagation.v
theories/PredInt.v
theories/PropagFacts.v
theories/BandFacts.v
theories/Dft.v
theories/Summary.v
theories/SummaryFacts.v
theories/SummaryThms.v
theories/Prop_Stats.v
theories/Prop_Summary.v
theories/Prop_Post.v
theories/TwinSpec.v
theories/TwinFacts.v
theories/ContFacts.v
theories/SplitFacts.v
theories/Prop_Twin.v
theories/Display.v
theories/DisplaySpec.v
theories/DisplayFacts.v
theories/ProgressFacts.v
theories/Prop_Display.v
theories/PlotCurves.v
theories/CurveSpec.v
theories/CurveFacts.v
theories/EllipseFacts.v
theories/Prop_Curves.v
theories/Colours.v
theories/ColourFacts.v
theories/Prop_Colours.v
theories/CholLoop.v
theories/CholLoopFacts.v
theories/Prop_CholLoop.v
theories/Deprecated.v
theories/Prop_Deprecated.v
theories/Serial.v
theories/SerialFacts.v
theories/Prop_Serial.v
theories/Custom.v
theories/CustomSpec.v
theories/CustomFacts.v
theories/CustomRun.v
theories/CustomChange.v
theories/CustomLogs.v
theories/CustomDemo.v
theories/Prop_Custom.v
theories/Opening.v
theories/OpeningFacts.v
theories/Prop_Opening.v
theories/PredData.v
theories/Prop_PredData.v
theories/Panels.v
theories/PanelFacts.v
theories/Prop_Panels.v
theories/ScaleNum.v
theories/ScaleSpec.v
theories/ScaleFacts.v
theories/ScaleRun.v
theories/Prop_Scale.v
theories/NoiseFacts.v
theories/NoisePred.v
theories/Prop_Noise.v
theories/OriginSpec.v
theories/OriginFacts.v
theories/OriginAdapt.v
theories/OriginRun.v
theories/OriginSession.v
theories/Prop_Origin.v
theories/CompleteSpec.v
theories/CompleteFacts.v
theories/CompleteRun.v
theories/CompleteResume.v
theories/Prop_Complete.v
theories/UnitSpec.v
theories/UnitNum.v
theories/UnitFacts.v
theories/UnitAdapt.v
theories/UnitCov.v
theories/UnitRun.v
theories/UnitSession.v
theories/UnitExact.v
theories/Prop_Units.v
theories/NameSpec.v
theories/Prop_Names.v
theories/IntervalPlots.v
theories/Prop_IntervalPlots.v
theories/NumberSpec.v
theories/NumberFacts.v
theories/NumberRun.v
theories/NumberSession.v
theories/Prop_Numbers.v
theories/ReachSpec.v
theories/ReachFacts.v
theories/ReachRun.v
theories/Prop_Reach.v
theories/IntervalFigures.v
theories/FigureSpec.v
theories/FigureFacts.v
theories/Prop_Figures.v
theories/FixedSpec.v
theories/FixedFacts.v
theories/FixedRun.v
theories/FixedSession.v
theories/Prop_Fixed.v
theories/LimitsSpec.v
theories/LimitsFacts.v
theories/Prop_Limits.v
theories/GivenSpec.v
theories/GivenFacts.v
theories/Prop_Given.v
theories/PostSpec.v
theories/PostFacts.v
theories/PostRun.v
theories/Prop_Posterior.v
theories/SwitchSpec.v
theories/SwitchFacts.v
theories/Prop_Switch.v
theories/IdleSpec.v
theories/IdleFacts.v
theories/Prop_Idle.v
theories/KnownSpec.v
theories/KnownFacts.v
theories/Prop_Known.v
