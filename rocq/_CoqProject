-Q theories Verif
theories/Base.v
theories/Tensor.v
theories/PyDict.v
theories/MActivations.v
theories/MKernels.v
theories/MCommon.v
theories/MCca.v
theories/MRd.v
theories/MNca.v
theories/MConfig.v
theories/MConfigs.v
theories/SGrid.v
theories/SCca.v
theories/SRd.v
theories/SNca.v
theories/PTensor.v
theories/PStep.v
theories/PCca.v
theories/PSym.v
theories/PDyn.v
theories/PEqv.v
theories/PCode.v
theories/PStepX.v
theories/SKern.v
theories/SConfig.v
theories/SLife.v
theories/PAct.v
theories/PKern.v
theories/PKernX.v
theories/PKernY.v
theories/PRd.v
theories/PNca.v
theories/PConfig.v
theories/PConfigX.v
theories/PConfigY.v
theories/PConfigZ.v
theories/PConfigW.v
theories/PConfigV.v
theories/PLife.v
theories/PGlider.v
theories/PBundle.v
theories/Examples.v
theories/TDyn.v
theories/TKern.v
theories/TRd.v
theories/TNca.v
theories/TConfig.v
theories/TLife.v
theories/MText.v
theories/MLibrarian.v
theories/SText.v
theories/SLibrarian.v
theories/PText.v
theories/PLibrarian.v
theories/TLibrarian.v
theories/MUtils.v
theories/SUtils.v
theories/PUtils.v
theories/TUtils.v
theories/MCppn.v
theories/SCppn.v
theories/PCppn.v
theories/TCppn.v
theories/MEvo.v
theories/SEvo.v
theories/PEvo.v
theories/PEvoX.v
theories/MCoevo.v
theories/PCoevo.v
theories/TEvo.v
theories/MMpi.v
theories/SMpi.v
theories/PMpi.v
theories/TMpi.v
theories/MWrap.v
theories/SWrap.v
theories/PWrap.v
theories/TWrap.v
theories/MAnalyze.v
theories/SAnalyze.v
theories/PAnalyze.v
theories/PAnalyzeX.v
theories/PAnalyzeY.v
theories/TAnalyze.v
theories/MDispatch.v
theories/SDispatch.v
theories/PDispatch.v
theories/TDispatch.v
theories/MPredict.v
theories/SPredict.v
theories/PPredict.v
theories/PPredictX.v
theories/PPredictY.v
theories/TPredict.v
theories/MClone.v
theories/SClone.v
theories/PClone.v
theories/TClone.v
theories/MNcaConf.v
theories/SNcaConf.v
theories/PNcaConf.v
theories/TNcaConf.v
theories/SDefaults.v
theories/PDefaults.v
theories/TDefaults.v
theories/TErrors.v
theories/MApp.v
theories/MGrad.v
theories/SGrad.v
theories/PGrad.v
theories/TGrad.v
theories/SApp.v
theories/PApp.v
theories/TApp.v
theories/MHalt.v
theories/SHalt.v
theories/PHalt.v
theories/THalt.v
theories/MWrapNew.v
theories/SWrapNew.v
theories/PWrapNew.v
theories/TWrapNew.v
theories/MNote.v
theories/SNote.v
theories/PNote.v
theories/TNote.v
theories/MMulti.v
theories/SMulti.v
theories/PMulti.v
theories/PMultiX.v
theories/TMulti.v
theories/MFork.v
theories/SFork.v
theories/PFork.v
theories/TFork.v
theories/MTool.v
theories/STool.v
theories/PTool.v
theories/TTool.v
theories/MMeta.v
theories/SMeta.v
theories/TMeta.v
theories/MPatterns.v
theories/SPuffer.v
theories/PPuffer.v
theories/PPufferX.v
theories/PPufferY.v
theories/TPuffer.v
theories/SLip.v
theories/PLip.v
theories/PLipX.v
theories/PLipY.v
theories/TLip.v
theories/SFlow.v
theories/PFlow.v
theories/PFlowX.v
theories/PFlowY.v
theories/TFlow.v
theories/STests.v
theories/PTests.v
theories/TTests.v
theories/MModes.v
theories/SModes.v
theories/PModes.v
theories/TModes.v
theories/MFilm.v
theories/SFilm.v
theories/PFilm.v
theories/TFilm.v
theories/PGif.v
theories/TGif.v
theories/MDevice.v
theories/SDevice.v
theories/PDevice.v
theories/TDevice.v
theories/SFade.v
theories/PFade.v
theories/PFadeX.v
theories/TFade.v
theories/MPredObj.v
theories/SPredObj.v
theories/PPredObj.v
theories/PPredObjX.v
theories/PPredObjY.v
theories/PPredObjZ.v
theories/TPredObj.v
theories/MFloat.v
theories/SFloat.v
theories/PFloat.v
theories/PFloatX.v
theories/PFloatY.v
theories/PFloatC.v
theories/PFloatG.v
theories/PFloatZ.v
theories/TFloat.v
theories/SRound.v
theories/PFloatE.v
theories/PFloatR.v
theories/PFloatD.v
theories/PFloatH.v
theories/TRound.v
theories/MFloatRd.v
theories/SFloatRd.v
theories/PFloatRd.v
theories/PFloatRdE.v
theories/TFloatRd.v
theories/SExact.v
theories/PExact.v
theories/TExact.v
theories/SFloatN.v
theories/PFloatN.v
theories/PFloatM.v
theories/TFloatN.v
theories/MSeed.v
theories/SSeed.v
theories/PSeed.v
theories/PSeedX.v
theories/TSeed.v
theories/MElite.v
theories/SElite.v
theories/PElite.v
theories/PEliteX.v
theories/PEliteY.v
theories/PEliteZ.v
theories/PEliteW.v
theories/TElite.v
