-Q theories Verif

theories/Base.v
theories/FloatModel.v
theories/Rng.v
theories/GaModel.v
theories/GaComponents.v
theories/StopModel.v
theories/PsoModel.v
theories/PsoComponents.v
theories/StatModel.v
theories/LogModel.v
theories/TestFuncModel.v
theories/Logic.v
theories/FloatFacts.v
theories/SpecGa.v
theories/GaBest.v
theories/GaFacts.v
theories/GaSafety.v
theories/GaTheorems.v
theories/GaMore.v
theories/DemoGa.v
theories/GaProofs.v
theories/Prop_Ga.v
theories/SpecSel.v
theories/SelFacts.v
theories/SelProofs.v
theories/KillFacts.v
theories/Prop_Selection.v
theories/SpecRand.v
theories/RandFacts.v
theories/PairFacts.v
theories/CreateFacts.v
theories/SpecInt.v
theories/SumFacts.v
theories/IntFacts.v
theories/Prop_Int.v
theories/Prop_Mean.v
theories/Prop_Dev.v
theories/SpecBits.v
theories/BitFacts.v
theories/MutFacts.v
theories/ArithFacts.v
theories/CrossFacts.v
theories/DemoFloats.v
theories/DemoLibm.v
theories/Prop_Components.v
theories/SpecPso.v
theories/PsoFacts.v
theories/PsoRuns.v
theories/PsoSafety.v
theories/PsoProofs.v
theories/SpecRun.v
theories/LoopFacts.v
theories/SpecStop.v
theories/StopProofs.v
theories/SpecBox.v
theories/BoxFacts.v
theories/DemoPso.v
theories/DemoStop.v
theories/Prop_Pso.v
theories/StopRuns.v
theories/Prop_Stop.v
theories/PostFacts.v
theories/SatFacts.v
theories/SpecReal.v
theories/VelFacts.v
theories/SpeedFacts.v
theories/SpecDev.v
theories/DevFacts.v
theories/SpecStill.v
theories/WithinRuns.v
theories/StillFacts.v
theories/Prop_Still.v
theories/SpecPace.v
theories/PaceFacts.v
theories/EscapeFacts.v
theories/Prop_Escape.v
theories/SpecClosed.v
theories/ClosedFacts.v
theories/SpecWork.v
theories/WorkFacts.v
theories/Prop_Closed.v
theories/Prop_Work.v
theories/SpecVel.v
theories/CalcFacts.v
theories/Prop_PsoComponents.v
theories/SpecTotal.v
theories/TotalFacts.v
theories/PsoTotal.v
theories/GaTotal.v
theories/SpecStandard.v
theories/PsoStandard.v
theories/GaStandard.v
theories/Prop_Standard.v
theories/Prop_GaStandard.v
theories/SpecStat.v
theories/SpecMean.v
theories/SpecSpeed.v
theories/StatFacts.v
theories/Prop_Stat.v
theories/SpecLog.v
theories/RunRel.v
theories/LogRuns.v
theories/TwinFacts.v
theories/LogFacts.v
theories/DemoLog.v
theories/PrintFacts.v
theories/Prop_Log.v
theories/Prop_Print.v
theories/SpecTest.v
theories/SchwefelFacts.v
theories/TestFacts.v
theories/Prop_TestFunc.v
theories/RangeFacts.v
theories/SpecAccuracy.v
theories/AccFacts.v
theories/Prop_Range.v
theories/SpecReplay.v
theories/ReplayFacts.v
theories/Prop_Replay.v
theories/SpecConfig.v
theories/Prop_Config.v
theories/SpecSettle.v
theories/SettleFacts.v
theories/DemoSettle.v
theories/Prop_Settle.v
theories/ExampleModel.v
theories/StatProgramModel.v
theories/SpecBudget.v
theories/BudgetFacts.v
theories/ApartFacts.v
theories/SpecStatProgram.v
theories/StatProgramFacts.v
theories/EndsFacts.v
theories/FuelFacts.v
theories/TraceFacts.v
theories/StatRunFacts.v
theories/StatProgramRuns.v
theories/StatTestFacts.v
theories/RosenTestFacts.v
theories/DemoStatProgram.v
theories/AssertFacts.v
theories/Prop_StatProgram.v
theories/Prop_Budget.v
theories/SpecExample.v
theories/ExampleFacts.v
theories/ExampleRuns.v
theories/ExampleAsserts.v
theories/DemoExample.v
theories/Prop_Example.v
theories/ApiModel.v
theories/SpecApi.v
theories/ApiFacts.v
theories/AgentFacts.v
theories/DemoApi.v
theories/Prop_Api.v
theories/SpecPossible.v
theories/SpecOrder.v
theories/OrderFacts.v
theories/OrderComponents.v
theories/DemoOrder.v
theories/UnitTestModel.v
theories/SpecUnitTests.v
theories/UnitTestFacts.v
theories/Prop_UnitTests.v
theories/Prop_Order.v
theories/PossibleFacts.v
theories/PossibleRuns.v
theories/Prop_Possible.v
theories/PaceRuns.v
theories/Prop_Pace.v
theories/SpecSettings.v
theories/SettingFacts.v
theories/DemoSettings.v
theories/Prop_Settings.v
theories/StatOutputModel.v
theories/SpecOutput.v
theories/OutputFacts.v
theories/DemoOutput.v
theories/Prop_Output.v
theories/RastriginFacts.v
theories/RastriginTest.v
theories/DemoRastrigin.v
theories/SpecNear.v
theories/NearFacts.v
theories/AccTest.v
theories/NearTest.v
theories/DemoTrig.v
theories/DemoNear.v
theories/Prop_Accuracy.v
theories/Prop_Near.v
theories/SpecStuck.v
theories/StuckFacts.v
theories/Prop_Stuck.v
theories/SpecWorst.v
theories/WorstFacts.v
theories/WorstRuns.v
theories/DemoWorst.v
theories/Prop_Worst.v
theories/SpecSteady.v
theories/SteadyFacts.v
theories/SteadyRuns.v
theories/LimitFacts.v
theories/FlatRuns.v
theories/DemoLimit.v
theories/Prop_Limit.v
theories/DemoSteady.v
theories/Prop_Steady.v
