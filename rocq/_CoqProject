-Q theories Verif
theories/Base.v
theories/BaseLemmas.v
theories/HistoryModel.v
theories/HistorySpec.v
theories/HistoryProofs.v
theories/HistoryXIn.v
theories/HistoryInv.v
theories/HistoryInv2.v
theories/HistoryRun.v
theories/HistoryRun2.v
theories/HistoryRun3.v
theories/HistoryStore.v
theories/HistoryKill.v
theories/HistoryFacts.v
theories/HistoryExamples.v
theories/PropsHistory.v
theories/RsetModel.v
theories/RsetSpec.v
theories/RsetProofs.v
theories/RsetLayout.v
theories/RsetWalk.v
theories/RsetGroups.v
theories/SchedModel.v
theories/SchedSpec.v
theories/SchedProofs.v
theories/SchedTeam.v
theories/SchedRun.v
theories/SchedServe.v
theories/SchedSingle.v
theories/SchedFacts.v
theories/SchedIdle.v
theories/PropsResources.v
theories/WorkModel.v
theories/AllocModel.v
theories/AllocSpec.v
theories/AllocProofs.v
theories/AllocLoops.v
theories/AllocFacts.v
theories/AllocFast.v
theories/AllocPersis.v
theories/AllocPrio.v
theories/PropsAlloc.v
theories/ManagerModel.v
theories/ManagerSpec.v
theories/ManagerProofs.v
theories/ManagerMsg.v
theories/ManagerRun.v
theories/ManagerInv.v
theories/ManagerFinal.v
theories/ManagerEnd.v
theories/ManagerRes.v
theories/ManagerFacts.v
theories/ManagerExamples.v
theories/PropsManager.v
theories/CommsModel.v
theories/WorkerModel.v
theories/WorkerSpec.v
theories/WorkerProofs.v
theories/WorkerFrames.v
theories/SystemModel.v
theories/SystemSpec.v
theories/SystemProofs.v
theories/SystemExamples.v
theories/PropsWorker.v
theories/ExecutorModel.v
theories/ExecutorSpec.v
theories/ExecutorProofs.v
theories/PropsExecutor.v
theories/MpiModel.v
theories/MpiSpec.v
theories/MpiProofs.v
theories/MpiLayout.v
theories/MpiGpu.v
theories/PropsMpi.v
theories/TextModel.v
theories/TextProofs.v
theories/LabelModel.v
theories/LabelSpec.v
theories/LabelProofs.v
theories/PropsLabels.v
theories/EnvModel.v
theories/EnvSpec.v
theories/EnvProofs.v
theories/PropsEnv.v
theories/LocModel.v
theories/LocSpec.v
theories/PropsLoc.v
theories/SaveModel.v
theories/SaveSpec.v
theories/SaveProofs.v
theories/PropsSave.v
theories/MapModel.v
theories/MapSpec.v
theories/MapProofs.v
theories/PropsMap.v
theories/DriverModel.v
theories/DriverSpec.v
theories/DriverProofs.v
theories/PropsDriver.v
theories/GenObjModel.v
theories/GenObjSpec.v
theories/GenObjProofs.v
theories/PropsGenObj.v
theories/ManagerPin.v
theories/PropsIds.v
theories/ConvModel.v
theories/ConvSpec.v
theories/ConvProofs.v
theories/ConvInv.v
theories/ConvExamples.v
theories/PropsConv.v
theories/DrivenModel.v
theories/DrivenSpec.v
theories/DrivenProofs.v
theories/DrivenInv.v
theories/DrivenPoints.v
theories/DrivenRes.v
theories/DrivenSets.v
theories/PropsDriven.v
theories/PropsDrivenRes.v
theories/DrivenGens.v
theories/PropsDrivenGens.v
theories/DrivenOrders.v
theories/PropsDrivenOrders.v
theories/HistoryBack.v
theories/DrivenTrace.v
theories/DrivenEnds.v
theories/DrivenEnds2.v
theories/PropsDrivenEnds.v
theories/SpecsModel.v
theories/SpecsSpec.v
theories/SpecsProofs.v
theories/PropsSpecs.v
theories/AllocModel2.v
theories/AllocSpec2.v
theories/AllocMore.v
theories/AllocMore2.v
theories/AllocMore3.v
theories/AllocMore4.v
theories/AllocMore5.v
theories/AllocMore6.v
theories/AllocMore7.v
theories/PropsAlloc2.v
theories/PropsAlloc3.v
theories/DrivenModel2.v
theories/DrivenSets2.v
theories/DrivenSpec2.v
theories/DrivenPending.v
theories/DrivenCareful2.v
theories/PropsDriven2.v
theories/FileModel.v
theories/FileSpec.v
theories/FileProofs.v
theories/FileOps.v
theories/FileCalc.v
theories/FileBack.v
theories/FileReturn.v
theories/FileReturn2.v
theories/FileReturn3.v
theories/PropsFiles.v
theories/ProcGenModel.v
theories/ProcGenSpec.v
theories/ProcGenProofs.v
theories/ProcGenSample.v
theories/ProcGenRun.v
theories/ProcGenFinal.v
theories/PropsProcGen.v
theories/ThreadGenModel.v
theories/ThreadGenSpec.v
theories/ThreadGenProofs.v
theories/PropsThreadGen.v
theories/AposmmModel.v
theories/AposmmSpec.v
theories/AposmmDist.v
theories/AposmmProofs.v
theories/AposmmReach.v
theories/AposmmMinima.v
theories/AposmmTotal.v
theories/PropsAposmm.v
theories/LocalOptModel.v
theories/LocalOptSpec.v
theories/LocalOptProofs.v
theories/PropsLocalOpt.v
theories/SamplerModel.v
theories/SamplerSpec.v
theories/PropsSampler.v
theories/PointsModel.v
theories/PropsPoints.v
theories/CalibModel.v
theories/CalibSpec.v
theories/PropsCalib.v
theories/GridModel.v
theories/PropsGrid.v
theories/FdModel.v
theories/FdSpec.v
theories/PropsFd.v
theories/EnsembleModel.v
theories/PropsEnsemble.v
theories/KillSpec.v
theories/KillProofs.v
theories/PropsKill.v
theories/PersisEndsSpec.v
theories/PersisHist.v
theories/PersisTrace.v
theories/PersisEnds.v
theories/PersisCall.v
theories/PersisTurn.v
theories/PersisTurn2.v
theories/PersisRun.v
theories/PropsPersisEnds.v
theories/TcpModel.v
theories/TcpProofs.v
theories/PropsTcp.v
theories/SimWrapModel.v
theories/PropsSimWrap.v
theories/PlatformModel.v
theories/PropsPlatform.v
theories/PropsNode.v
theories/CommandModel.v
theories/PropsCommand.v
theories/ShareModel.v
theories/PropsShare.v
theories/LogModel.v
theories/PropsLog.v
theories/AxModel.v
theories/PropsAx.v
theories/LocalRunModel.v
theories/PropsLocalRun.v
theories/GenInitModel.v
theories/PropsGenInit.v
theories/CancelModel.v
theories/CancelProofs.v
theories/PropsCancel.v
theories/OutputModel.v
theories/PropsOutput.v
theories/StreamModel.v
theories/PropsStream.v
theories/ReplayModel.v
theories/PropsReplay.v
theories/SimFuncModel.v
theories/PropsSimFunc.v
theories/HelloModel.v
theories/PropsHello.v
theories/LiveModel.v
theories/PropsLive.v
theories/SampleObjModel.v
theories/PropsSampleObj.v
theories/BoreholeModel.v
theories/PropsBorehole.v
theories/ChwirutModel.v
theories/PropsChwirut.v
theories/MultiPointModel.v
theories/PropsMultiPoint.v
theories/RunCheckModel.v
theories/PropsRunCheck.v
theories/SlotNameModel.v
theories/PropsSlotName.v
