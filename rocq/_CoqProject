-Q theories Verif
theories/RMath.v
theories/RLib.v
theories/DLib.v
theories/Num.v
theories/Base.v
theories/Elements.v
theories/Integrate.v
theories/Eom.v
theories/Convergence.v
theories/Lyapunov.v
theories/Symbolic.v
theories/SymKep.v
theories/SymMee.v
theories/Perturb.v
theories/PlotHelper.v
theories/RSpec.v
theories/Qlaw.v
theories/Export.v
theories/PlotMethods.v
theories/Trace.v
theories/Spec.v
theories/XSpec.v
theories/SolveProofs.v
theories/ExitProofs.v
theories/GateProofs.v
theories/StateProofs.v
theories/ElemProofs.v
theories/ConvProofs.v
theories/PtrbProofs.v
theories/PlotProofs.v
theories/IntegProofs.v
theories/FehlSpec.v
theories/FehlProofs.v
theories/DiffProofs.v
theories/CtlProofs.v
theories/LawSpec.v
theories/KepQ.v
theories/MeeQ.v
theories/LawProofs.v
theories/NanProofs.v
theories/SingProofs.v
theories/LawRuns.v
theories/GaussSpec.v
theories/ExportSpec.v
theories/GaussProofs.v
theories/GaussRuns.v
theories/MaxSpec.v
theories/MaxProofs.v
theories/MaxRuns.v
theories/EffSpec.v
theories/EffProofs.v
theories/EffRuns.v
theories/SundProofs.v
theories/SundRuns.v
theories/XTrace.v
theories/XProofs.v
theories/XSolve.v
theories/ExportProofs.v
theories/PlotMProofs.v
theories/TrajSpec.v
theories/TrajProofs.v
theories/CoastProofs.v
theories/EllSpec.v
theories/NanSpec.v
theories/XLaw.v
theories/NanRun.v
theories/Sim.v
theories/Runs.v
theories/XRuns.v
theories/ExportRuns.v
theories/TrajRuns.v
theories/GateRuns.v
theories/RunSpec.v
theories/RunProofs.v
theories/XReason.v
theories/RunReals.v
theories/XEnergy.v
theories/RunDefaults.v
theories/RunRuns.v
theories/Prop_Exit.v
theories/Prop_Books.v
theories/Prop_Gate.v
theories/RotProofs.v
theories/Prop_Elem.v
theories/UnitSpec.v
theories/UnitProofs.v
theories/Prop_Ptrb.v
theories/Prop_Plot.v
theories/Prop_Integ.v
theories/Prop_Law.v
theories/Prop_Gauss.v
theories/Prop_Max.v
theories/Prop_Eff.v
theories/Prop_Export.v
theories/Prop_PlotM.v
theories/Prop_Run.v
theories/ScaleSpec.v
theories/DimProofs.v
theories/ScaleProofs.v
theories/SymRun.v
theories/ScaleSolve.v
theories/ScaleCases.v
theories/TurnSpec.v
theories/TurnProofs.v
theories/TurnSolve.v
theories/TurnCases.v
theories/Prop_Sym.v
theories/DvSpec.v
theories/DvProofs.v
theories/Prop_Dv.v
theories/InvSpec.v
theories/ElemInv.v
theories/Prop_Inv.v
theories/CutSpec.v
theories/CutProofs.v
theories/CutRuns.v
theories/Prop_Cut.v
theories/WeightSpec.v
theories/WeightProofs.v
theories/WeightSolve.v
theories/FinSpec.v
theories/FinProofs.v
theories/FinRuns.v
theories/Prop_Weight.v
theories/Prop_Fin.v
theories/ZeroSpec.v
theories/ZeroProofs.v
theories/ZeroSolve.v
theories/ZeroRuns.v
theories/ZeroCase.v
theories/Prop_Zero.v
theories/RestartSpec.v
theories/RestartProofs.v
theories/RestartRuns.v
theories/Prop_Restart.v
theories/DescProofs.v
theories/DescRuns.v
theories/Prop_Desc.v
theories/EtaSpec.v
theories/EtaProofs.v
theories/EtaRuns.v
theories/Prop_Eta.v
theories/MirrorSpec.v
theories/MirrorProofs.v
theories/MirrorSolve.v
theories/FlatProofs.v
theories/MirrorRuns.v
theories/Prop_Mirror.v
theories/SkySpec.v
theories/SkyProofs.v
theories/SkyFin.v
theories/SkyRuns.v
theories/Prop_Sky.v
theories/PlaneSpec.v
theories/PlaneProofs.v
theories/PlaneRuns.v
theories/HideProofs.v
theories/HideRuns.v
theories/Prop_Plane.v
theories/Report.v
theories/ReportSpec.v
theories/ReportProofs.v
theories/SettingsProofs.v
theories/ReportRuns.v
theories/Prop_Report.v
theories/Float64.v
theories/FloatSpec.v
theories/FloatProofs.v
theories/FloatMono.v
theories/FloatRun.v
theories/FloatRuns.v
theories/Prop_Float.v
theories/FloatDuty.v
theories/FloatTerm.v
theories/FloatTermRuns.v
theories/Prop_FloatTerm.v
theories/Json.v
theories/JsonSpec.v
theories/JsonProofs.v
theories/JsonRuns.v
theories/Prop_Json.v
theories/FloatBatt.v
theories/FloatBattRuns.v
theories/Prop_FloatBatt.v
theories/BudgetProofs.v
theories/Prop_Budget.v
theories/LocalSpec.v
theories/LocalProofs.v
theories/Prop_Local.v
theories/ErrSpec.v
theories/FloatErr.v
theories/FloatErrRuns.v
theories/Prop_FloatErr.v
theories/NanCount.v
theories/NanCountRuns.v
theories/Prop_NanCount.v
theories/BackSpec.v
theories/FloatBack.v
theories/FloatBackRuns.v
theories/Prop_FloatBack.v
theories/FloatMirror.v
theories/FloatMirrorRuns.v
theories/Prop_FloatMirror.v
theories/FloatFloor.v
theories/FloatFloorRuns.v
theories/Prop_FloatFloor.v
theories/FloatSame.v
theories/FloatSameRuns.v
theories/Prop_FloatSame.v
