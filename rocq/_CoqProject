-Q theories Verif
theories/F64.v
theories/F64Order.v
theories/Base.v
theories/F64Alg.v
theories/F64Real.v
theories/Builders.v
theories/Types.v
theories/Filters.v
theories/Runner.v
theories/Observer.v
theories/Env.v
theories/ScatterSearch.v
theories/Codec.v
theories/Checkpoint.v
theories/Oqnlp.v
theories/Spec.v
theories/SpecStage1.v
theories/SpecStage2.v
theories/BasicP.v
theories/SolverP.v
theories/Wp.v
theories/Actions.v
theories/RunP.v
theories/SetP.v
theories/LeaderP.v
theories/EnvSpec.v
theories/DistP.v
theories/GreedyP.v
theories/SampleP.v
theories/Stage1P.v
theories/Stage1Q.v
theories/SqrtP.v
theories/SpecRepro.v
theories/SchedP.v
theories/Stage1R.v
theories/ExpandP.v
theories/DemoStage1.v
theories/Properties_Stage1.v
theories/Demo.v
theories/SetP2.v
theories/FrameP.v
theories/FilterP.v
theories/CountP.v
theories/EmitsP.v
theories/TargetP.v
theories/HoareP.v
theories/SearchP.v
theories/WaitP.v
theories/ClockP.v
theories/SimP.v
theories/ClockFreeP.v
theories/ObsFreeP.v
theories/Demo2.v
theories/Stage2P.v
theories/BatchP.v
theories/StartP.v
theories/SpecObserver.v
theories/ObserverP.v
theories/SeqP.v
theories/SeqP2.v
theories/SeqP3.v
theories/SeqP4.v
theories/AllP.v
theories/BatchSaveP.v
theories/CallbacksP.v
theories/CallsP.v
theories/Stage1CountP.v
theories/Stage2EvalsP.v
theories/SpecCheckpoint.v
theories/SpecSave.v
theories/CodecP.v
theories/CheckpointP.v
theories/SaveP.v
theories/ResumeP.v
theories/DemoCp.v
theories/Properties_Basic.v
theories/Properties_Set.v
theories/Properties_Stage2.v
theories/Properties_Observer.v
theories/Properties_Checkpoint.v
theories/PyRegistry.v
theories/SpecPy.v
theories/PyRegistryP.v
theories/PyBind.v
theories/SpecPyBind.v
theories/PyBindP.v
theories/Properties_Py.v
theories/Report.v
theories/SpecReport.v
theories/ReportP.v
theories/Properties_Report.v
theories/PyProblem.v
theories/Properties_PyProblem.v
theories/PyLocks.v
theories/SpecLocks.v
theories/PyLocksP.v
theories/Properties_PyLocks.v
theories/SpecPanic.v
theories/SpecSession.v
theories/NoPanicP.v
theories/SessionP.v
theories/DemoSession.v
theories/Properties_Session.v
theories/Features.v
theories/SpecFeatures.v
theories/FeaturesP.v
theories/FeaturesQ.v
theories/FeaturesR.v
theories/FeaturesS.v
theories/DemoFeatures.v
theories/Properties_Features.v
theories/NoArgmin.v
theories/NoArgminP.v
theories/Bars.v
theories/BarsP.v
theories/Timing.v
theories/SpecTiming.v
theories/TimingP.v
theories/ElapsedP.v
theories/Properties_Timing.v
theories/Properties_Bars.v
theories/Properties_NoArgmin.v
theories/PyFactory.v
theories/SpecPyFactory.v
theories/PyFactoryP.v
theories/Properties_PyFactory.v
theories/Verbose.v
theories/SpecVerbose.v
theories/VerboseP.v
theories/VerboseLinesP.v
theories/Properties_Verbose.v
theories/SpecShown.v
theories/ShownP.v
theories/Properties_Shown.v
theories/ObsInvP.v
theories/PyObserver.v
theories/SpecPyObserver.v
theories/PyObserverP.v
theories/Properties_PyObserver.v
theories/SpecValues.v
theories/ValuesP.v
theories/MembersP.v
theories/Properties_Values.v
theories/SpecErrors.v
theories/ErrorsP.v
theories/Properties_Errors.v
theories/ReproP.v
theories/Properties_Repro.v
theories/SpecWhere.v
theories/WhereP.v
theories/Properties_Where.v
theories/SpecCost.v
theories/CostP.v
theories/Properties_Cost.v
theories/AgainP.v
theories/Properties_Again.v
theories/FinishP.v
theories/Properties_Finish.v
theories/SpecSolved.v
theories/SolvedP.v
theories/Properties_Solved.v
theories/SpecDeriv.v
theories/DerivP.v
theories/Properties_Deriv.v
theories/SpecLoss.v
theories/LossP.v
theories/BatchLossP.v
theories/KeepAllP.v
theories/Properties_Loss.v
theories/SpecShown1.v
theories/Shown1P.v
theories/Properties_Shown1.v
theories/CounterP.v
theories/Properties_Counter.v
theories/SpecBest.v
theories/BestP.v
theories/Properties_Best.v
theories/SpecMore.v
theories/MoreP.v
theories/MoreP2.v
theories/Properties_More.v
theories/SpecAim.v
theories/AimP.v
theories/Properties_Aim.v
theories/SpecLimit.v
theories/LimitP.v
theories/Properties_Limit.v
theories/SpecUnsaved.v
theories/UnsavedP.v
theories/Properties_Unsaved.v
theories/SpecExcluding.v
theories/ExcludingP.v
theories/Properties_Excluding.v
theories/SpecFactor.v
theories/FactorP.v
theories/Properties_Factor.v
theories/SpecWait.v
theories/WaitLongP.v
theories/Properties_Wait.v
theories/SpecBatchless.v
theories/BatchlessP.v
theories/Properties_Batchless.v
