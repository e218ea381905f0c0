-Q theories Verif
theories/Prelude.v
theories/SafetyModel.v
theories/SafetySpec.v
theories/SafetyActionModel.v
theories/SafetyRaceModel.v
theories/SafetyProofs.v
theories/SafetyProofs2.v
theories/SafetyProofs3.v
theories/SafetyExamples.v
theories/PropSafety.v
theories/Num.v
theories/TaskModel.v
theories/TaskSpec.v
theories/TaskProofs.v
theories/PropTask.v
theories/SeqModel.v
theories/SeqSpec.v
theories/SeqProofs.v
theories/SeqProofs2.v
theories/SeqProofs3.v
theories/SeqProofs4.v
theories/SeqProofs5.v
theories/SeqExamples.v
theories/PropSeq.v
theories/NumOrd.v
theories/CtrlModel.v
theories/CtrlSpec.v
theories/CtrlProofs.v
theories/CtrlProofs2.v
theories/CtrlExamples.v
theories/PropCtrl.v
theories/CtrlModel2.v
theories/CtrlSpec2.v
theories/CtrlProofs3.v
theories/CtrlProofs4.v
theories/CtrlProofs5.v
theories/CtrlExamples2.v
theories/PropCtrl2.v
theories/NumDbl.v
theories/NumX.v
theories/PlanModel.v
theories/PlanModel2.v
theories/PlanSpec.v
theories/PlanProofs.v
theories/PlanProofs2.v
theories/PlanProofs3.v
theories/PlanProofs4.v
theories/PlanProofs5.v
theories/PlanProofs6.v
theories/PlanProofs7.v
theories/PlanProofs8.v
theories/PlanProofs9.v
theories/PlanMain.v
theories/PlanExamples.v
theories/PlanExamples2.v
theories/PropPlan.v
theories/MatModel.v
theories/MatProofs.v
theories/MatProofs2.v
theories/MatProofs3.v
theories/MatProofs4.v
theories/RingId.v
theories/MatRing.v
theories/MatInv.v
theories/MatRank.v
theories/MatCross.v
theories/MatMain.v
theories/MatRot.v
theories/PropMat.v
theories/PropMat2.v
theories/HalModel.v
theories/HalSpec.v
theories/HalProofs.v
theories/HalExamples.v
theories/ScaleModel.v
theories/ScaleSpec.v
theories/ScaleProofs.v
theories/ScaleExamples.v
theories/KeyModel.v
theories/KeyProofs.v
theories/PropHal.v
theories/ConfModel.v
theories/ConfSpec.v
theories/ConfProofs.v
theories/ConfDouble.v
theories/PropConf.v
theories/LogModel.v
theories/LogSpec.v
theories/LogProofs.v
theories/PropLog.v
theories/SockModel.v
theories/SockSpec.v
theories/SockProofs.v
theories/PropSock.v
theories/FrameModel.v
theories/FrameSpec.v
theories/FrameProofs.v
theories/PropFrame.v
theories/FrameMain.v
theories/PropFrame2.v
theories/PolyModel.v
theories/PolyProofs.v
theories/PolyMain.v
theories/PropPoly.v
theories/ZModel.v
theories/ZSpec.v
theories/ZProofs.v
theories/ZMain.v
theories/PropZ.v
theories/KalmanModel.v
theories/KalmanProofs.v
theories/KalmanMain.v
theories/PropKalman.v
theories/BusModel.v
theories/BusSpec.v
theories/NumDbl2.v
theories/BusProofs.v
theories/BusProofs2.v
theories/BusProofs3.v
theories/BusProofs4.v
theories/PropBus.v
theories/InputModel.v
theories/InputSpec.v
theories/InputProofs.v
theories/InputProofs2.v
theories/PropInput.v
theories/CorrModel.v
theories/CorrSpec.v
theories/CorrProofs.v
theories/PropCorr.v
theories/PrettyModel.v
theories/PrettyProofs.v
theories/PropPretty.v
theories/RosModel.v
theories/RosSpec.v
theories/RosProofs.v
theories/RosProofs2.v
theories/PropRos.v
theories/UiModel.v
theories/UiSpec.v
theories/UiProofs.v
theories/PropUi.v
theories/DevModel.v
theories/DevSpec.v
theories/DevProofs.v
theories/PropDev.v
theories/PixyModel.v
theories/PixySpec.v
theories/PixyProofs.v
theories/PropPixy.v
theories/MiscModel.v
theories/MiscSpec.v
theories/MiscProofs.v
theories/PropMisc.v
theories/ParModel.v
theories/ParSpec.v
theories/ParProofs.v
theories/PropPar.v
theories/IdevModel.v
theories/IdevSpec.v
theories/IdevProofs.v
theories/PropIdev.v
theories/JsonModel.v
theories/JsonSpec.v
theories/JsonProofs.v
theories/JsonProofs2.v
theories/PropJson.v
theories/CursesModel.v
theories/CursesSpec.v
theories/CursesProofs.v
theories/PropCurses.v
theories/SensModel.v
theories/SensSpec.v
theories/SensProofs.v
theories/PropSens.v
theories/NumDbl3.v
theories/DblModel.v
theories/DblSpec.v
theories/DblProofs.v
theories/DblProofs2.v
theories/DblProofs3.v
theories/DblProofs4.v
theories/DblProofs5.v
theories/DblProofs6.v
theories/DblExamples.v
theories/PropDbl.v
theories/NetModel.v
theories/NetSpec.v
theories/NetProofs.v
theories/NetProofs2.v
theories/NetProofs3.v
theories/NetExamples.v
theories/PropNet.v
theories/DblSpec2.v
theories/DblProofs7.v
theories/DblProofs8.v
theories/DblNet.v
theories/DblNet2.v
theories/DblExamples2.v
theories/PropDbl2.v
theories/OdrvModel.v
theories/OdrvSpec.v
theories/OdrvProofs.v
theories/OdrvProofs2.v
theories/PropOdrv.v
theories/SyncModel.v
theories/SyncSpec.v
theories/SyncProofs.v
theories/SyncProofs2.v
theories/PropSync.v
theories/RaceModel.v
theories/RaceSpec.v
theories/RaceProofs.v
theories/RaceProofs2.v
theories/RaceProofs3.v
theories/RaceProofs4.v
theories/RaceProofs5.v
theories/RaceProofs6.v
theories/PropRace.v
theories/VecModel.v
theories/VecSpec.v
theories/VecProofs.v
theories/VecProofs2.v
theories/PropVec.v
theories/MatModel2.v
theories/MatSpec2.v
theories/MatProofs6.v
theories/MatExamples6.v
theories/PropMat3.v
theories/OdomModel.v
theories/OdomSpec.v
theories/OdomProofs.v
theories/PropOdom.v
theories/MockModel.v
theories/MockSpec.v
theories/MockProofs.v
theories/MockProofs2.v
theories/PropMock.v
theories/Sys1Model.v
theories/Sys1Spec.v
theories/Sys1Proofs.v
theories/Sys1Proofs2.v
theories/Sys1Proofs3.v
theories/Sys1Proofs4.v
theories/PropSys1.v
theories/CanxModel.v
theories/CanxSpec.v
theories/CanxProofs.v
theories/CanxProofs2.v
theories/CanxProofs3.v
theories/PropCanx.v
theories/SigModel.v
theories/SigSpec.v
theories/SigProofs.v
theories/SigProofs2.v
theories/PropSig.v
theories/Sys3Model.v
theories/Sys3Spec.v
theories/Sys3Proofs.v
theories/PropSys3.v
theories/Sys2Model.v
theories/Sys2Spec.v
theories/Sys2Proofs.v
theories/Sys2Proofs2.v
theories/PropSys2.v
theories/TracModel.v
theories/TracSpec.v
theories/TracProofs.v
theories/TracProofs2.v
theories/PropTrac.v
theories/TrexModel.v
theories/TrexSpec.v
theories/TrexProofs.v
theories/TrexProofs2.v
theories/PropTrex.v
theories/PeriModel.v
theories/PeriSpec.v
theories/PeriProofs.v
theories/PeriProofs2.v
theories/PropPeri.v
theories/Can1Model.v
theories/Can1Spec.v
theories/Can1Proofs.v
theories/PropCan1.v
theories/MultModel.v
theories/MultSpec.v
theories/MultProofs.v
theories/PropMult.v
theories/SubxModel.v
theories/SubxSpec.v
theories/SubxProofs.v
theories/PropSubx.v
