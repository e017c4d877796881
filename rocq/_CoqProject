-Q theories Verif
theories/MApi.v
theories/MBind.v
theories/MBody.v
theories/MBuf.v
theories/MCFL.v
theories/MCat.v
theories/MChan.v
theories/MCur.v
theories/MCurve.v
theories/MDetach.v
theories/MEnd.v
theories/MErr.v
theories/MFFT.v
theories/MFast.v
theories/MFill.v
theories/MFreq.v
theories/MFull.v
theories/MIC.v
theories/MIO.v
theories/MIOFile.v
theories/MInterp.v
theories/MLine.v
theories/MLog.v
theories/MMat.v
theories/MMex.v
theories/MNodes.v
theories/MObj.v
theories/MOut.v
theories/MPM.v
theories/MPack.v
theories/MParse.v
theories/MPath.v
theories/MPy.v
theories/MPyL.v
theories/MQuery.v
theories/MRod.v
theories/MRodS.v
theories/MScheme.v
theories/MSeafloor.v
theories/MSet.v
theories/MSetup.v
theories/MSpec.v
theories/MStateOps.v
theories/MStep.v
theories/MStepF.v
theories/MStr.v
theories/MSwitch.v
theories/MSys.v
theories/MTime.v
theories/MVec.v
theories/MVtk.v
theories/MWaves.v
theories/PApi.v
theories/PBend.v
theories/PBendC.v
theories/PBendU.v
theories/PBind.v
theories/PBindB.v
theories/PBody.v
theories/PBodyB.v
theories/PBodyC.v
theories/PBodyD.v
theories/PBodyE.v
theories/PBodyW.v
theories/PBuf.v
theories/PCFL.v
theories/PCat.v
theories/PCatB.v
theories/PCatC.v
theories/PCatD.v
theories/PCatE.v
theories/PCatF.v
theories/PCatG.v
theories/PCatH.v
theories/PChan.v
theories/PCur.v
theories/PCurB.v
theories/PCurC.v
theories/PCurD.v
theories/PCurve.v
theories/PDemo.v
theories/PDetach.v
theories/PDetachB.v
theories/PEnd.v
theories/PEndB.v
theories/PEndC.v
theories/PEndM.v
theories/PErr.v
theories/PEuler.v
theories/PExt.v
theories/PExtB.v
theories/PExtC.v
theories/PFFT.v
theories/PFFTB.v
theories/PFFTC.v
theories/PFFTD.v
theories/PFFTE.v
theories/PFast.v
theories/PFill.v
theories/PFillB.v
theories/PFrame.v
theories/PFrameB.v
theories/PFrameC.v
theories/PFrameD.v
theories/PFrameE.v
theories/PFrameF.v
theories/PFrameG.v
theories/PFrameH.v
theories/PFrameI.v
theories/PFreq.v
theories/PFull.v
theories/PFullB.v
theories/PFullC.v
theories/PFullD.v
theories/PFullE.v
theories/PIC.v
theories/PICb.v
theories/PICc.v
theories/PIO.v
theories/PIOFile.v
theories/PInterp.v
theories/PLine.v
theories/PLineB.v
theories/PLineD.v
theories/PLineE.v
theories/PLineU.v
theories/PLog.v
theories/PMat.v
theories/PMex.v
theories/PMor.v
theories/PMorB.v
theories/PNodes.v
theories/PObj.v
theories/POut.v
theories/POutb.v
theories/PPM.v
theories/PPack.v
theories/PParse.v
theories/PParse2.v
theories/PParse3.v
theories/PParse4.v
theories/PPart.v
theories/PPartB.v
theories/PPartC.v
theories/PPartD.v
theories/PPartE.v
theories/PPartF.v
theories/PPartG.v
theories/PPath.v
theories/PPy.v
theories/PPyB.v
theories/PPyC.v
theories/PPyD.v
theories/PPyE.v
theories/PPyL.v
theories/PQuery.v
theories/PRate.v
theories/PRigid.v
theories/PRod.v
theories/PRodB.v
theories/PRodC.v
theories/PRodS.v
theories/PRodT.v
theories/PScheme.v
theories/PSchemeApp.v
theories/PSchemeEq.v
theories/PSchemeNm.v
theories/PSchemeNmB.v
theories/PSchemeOrd.v
theories/PSchemeSys.v
theories/PSchemeTot.v
theories/PSeafloor.v
theories/PSet.v
theories/PSetup.v
theories/PShort.v
theories/PSpec.v
theories/PSpecB.v
theories/PState.v
theories/PStateOps.v
theories/PStep.v
theories/PStepDemo.v
theories/PStepF.v
theories/PStepInv.v
theories/PStepJ.v
theories/PStr.v
theories/PSwitch.v
theories/PSymm.v
theories/PTime.v
theories/PVtk.v
theories/PWaves.v
theories/PWavesB.v
theories/SApi.v
theories/SBend.v
theories/SBendU.v
theories/SBind.v
theories/SBody.v
theories/SBodyW.v
theories/SBuf.v
theories/SCat.v
theories/SChan.v
theories/SCur.v
theories/SCurve.v
theories/SDetach.v
theories/SEnd.v
theories/SEndM.v
theories/SFFT.v
theories/SFill.v
theories/SFrame.v
theories/SFreq.v
theories/SFull.v
theories/SIC.v
theories/SIO.v
theories/SInterp.v
theories/SLine.v
theories/SLineD.v
theories/SLineU.v
theories/SLog.v
theories/SMat.v
theories/SMex.v
theories/SMor.v
theories/SNodes.v
theories/SObj.v
theories/SOut.v
theories/SPM.v
theories/SParse.v
theories/SPart.v
theories/SPath.v
theories/SPy.v
theories/SPyL.v
theories/SQuery.v
theories/SRod.v
theories/SRodS.v
theories/SScheme.v
theories/SSeafloor.v
theories/SSet.v
theories/SSetup.v
theories/SSpec.v
theories/SSpecB.v
theories/SStateOps.v
theories/SStep.v
theories/SSwitch.v
theories/STime.v
theories/SVtk.v
theories/SWaves.v
theories/SWavesG.v
theories/TApi.v
theories/TBend.v
theories/TBendC.v
theories/TBendU.v
theories/TBind.v
theories/TBody.v
theories/TBodyW.v
theories/TBuf.v
theories/TCat.v
theories/TChan.v
theories/TCur.v
theories/TDetach.v
theories/TEnd.v
theories/TEndM.v
theories/TErr.v
theories/TExt.v
theories/TExtB.v
theories/TExtC.v
theories/TFFT.v
theories/TFast.v
theories/TFill.v
theories/TFrame.v
theories/TFreq.v
theories/TFull.v
theories/TIC.v
theories/TIO.v
theories/TInterp.v
theories/TLine.v
theories/TLineD.v
theories/TLineU.v
theories/TLog.v
theories/TMat.v
theories/TMex.v
theories/TMor.v
theories/TNodes.v
theories/TOut.v
theories/TPM.v
theories/TPack.v
theories/TParse.v
theories/TPart.v
theories/TPath.v
theories/TPin.v
theories/TPy.v
theories/TPyL.v
theories/TQuery.v
theories/TRate.v
theories/TRod.v
theories/TRodS.v
theories/TScheme.v
theories/TSchemeNm.v
theories/TSet.v
theories/TSetup.v
theories/TShort.v
theories/TSpec.v
theories/TSpecB.v
theories/TState.v
theories/TStep.v
theories/TStepF.v
theories/TStr.v
theories/TSwitch.v
theories/TTime.v
theories/TVtk.v
theories/TWaves.v
