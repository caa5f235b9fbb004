-Q theories Verif
theories/PyBase.v
theories/PyProofs.v
theories/GridModel.v
theories/GridSpec.v
theories/GridProofs.v
theories/GridProofs2.v
theories/MDPModel.v
theories/MDPSpec.v
theories/MDPProofs.v
theories/MDPProofs2.v
theories/MDPProofs3.v
theories/MDPProofs4.v
theories/GridProps.v
theories/MDPProps.v
theories/ActionModel.v
theories/ActionSpec.v
theories/ActionProofs.v
theories/SoftmaxModel.v
theories/SoftmaxProofs.v
theories/RSum.v
theories/ActionProps.v
theories/EnvModel.v
theories/PlanProps.v
theories/EnvSpec.v
theories/StepSpec.v
theories/EnvProofs.v
theories/EnvProofs2.v
theories/EnvProofs3.v
theories/EnvProofs4.v
theories/EnvProofs5.v
theories/EnvProps.v
theories/StepProps.v
theories/ProbaProps.v
theories/VIModel.v
theories/VISpec.v
theories/VIProofs.v
theories/VIProofs2.v
theories/VIProps.v
theories/VIEnvProps.v
theories/MCTSModel.v
theories/MCTSSpec.v
theories/MCTSProofs.v
theories/MCTSProofs2.v
theories/MCTSProofs3.v
theories/MCTSProps.v
theories/MCTSWalk.v
theories/MCTSEaten.v
theories/MCTSCache.v
theories/MCTSFit.v
theories/VIFit.v
theories/MCTSRun.v
theories/SRModel.v
theories/SRSpec.v
theories/LinProofs.v
theories/SRProofs.v
theories/SRProps.v
theories/PLModel.v
theories/PLSpec.v
theories/PLAngles.v
theories/PLProofs.v
theories/PLProps.v
theories/PLProps2.v
theories/PLExamples.v
theories/IRLModel.v
theories/IRLVisit.v
theories/IRLPolicy.v
theories/IRLMatch.v
theories/IRLExpect.v
theories/IRLMaxEnt.v
theories/IRLFit.v
theories/IRLProps.v
theories/IRLIgnore.v
theories/IRLEye.v
theories/IRLLook.v
theories/IRLGrids.v
theories/HypModel.v
theories/HypProofs.v
theories/HypObs.v
theories/HypRun.v
theories/HypProps.v
theories/HypProps2.v
theories/HypProps3.v
theories/PlotModel.v
theories/PlotProofs.v
theories/PlotProps.v
theories/PlotProps2.v
theories/IOModel.v
theories/IOProofs.v
theories/IOProps.v
theories/WorldModel.v
theories/WorldProofs.v
theories/WorldProofs2.v
theories/WorldProofs3.v
theories/WorldProps.v
theories/WorldProps2.v
theories/WorldProps3.v
theories/WorldSearch.v
theories/FitProps.v
theories/MCTSKept.v
theories/VIBest.v
theories/MCTSEnv.v
theories/WorldNew.v
theories/QuerySpec.v
theories/QueryModel.v
theories/QueryProofs.v
theories/QueryProps.v
theories/SetModel.v
theories/SetSpec.v
theories/SetProofs.v
theories/SetProps.v
theories/HistModel.v
theories/HistProps.v
theories/VIWalkSpec.v
theories/VIWalk.v
theories/MCTSTries.v
theories/MCTSBound.v
theories/MarkProps.v
theories/HeapModel.v
theories/HeapProps.v
theories/GoalSpec.v
theories/GoalProps.v
theories/SetRewardSpec.v
theories/SetReward.v
theories/SetRewardProps.v
theories/AgainSpec.v
theories/Again.v
theories/AgainProps.v
theories/RngModel.v
theories/RngSpec.v
theories/RngProps.v
theories/RngSearch.v
theories/NullProps.v
theories/VIInv.v
theories/VIScale.v
theories/VIMono.v
theories/VIAnytime.v
theories/VIReturn.v
theories/JourneyProps.v
theories/MCTSOpp.v
theories/IRLOrder.v
theories/SoftmaxLimit.v
theories/Schedule.v
theories/VISymm.v
theories/VIShift.v
theories/IRLFeat.v
theories/SightModel.v
theories/SightProps.v
theories/TDObjModel.v
theories/TDObjProps.v
theories/Witness.v
theories/CoordProps.v
theories/ShadeModel.v
theories/ShadeProps.v
theories/PlotMoreModel.v
theories/PlotMore.v
theories/Decided.v
theories/ArgModel.v
theories/ArgProps.v
theories/IOFresh.v
theories/ProbaPlace.v
theories/Tastes.v
theories/FailProps.v
theories/Flagged.v
theories/Restated.v
theories/KindModel.v
theories/KindProps.v
theories/Own.v
theories/RoundModel.v
theories/RoundSpec.v
theories/RoundProofs.v
theories/RoundProps.v
theories/RoundExample.v
theories/RoundWalk.v
theories/OverModel.v
theories/OverProps.v
theories/OverExample.v
theories/SoftRoundSpec.v
theories/SoftRoundModel.v
theories/SoftRound.v
theories/SoftRound2.v
theories/SoftRoundExample.v
theories/SoftRoundWalk.v
theories/PLRoundModel.v
theories/PLRound.v
theories/PLRound2.v
theories/PLRoundExample.v
theories/MCTSRoundModel.v
theories/MCTSRound.v
theories/MCTSRoundStats.v
theories/OverRound.v
theories/IEEEModel.v
theories/SimRound.v
theories/SimMDP.v
theories/IEEE.v
theories/IEEEExample.v
theories/SimEnv.v
theories/IEEEEnv.v
theories/IEEESearch.v
theories/IEEESearchExample.v
theories/IEEEPolicy.v
theories/IEEEGreedy.v
theories/IEEEDecide.v
theories/IEEEQuery.v
