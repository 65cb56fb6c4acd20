-Q theories Verif
theories/PyBase.v
theories/ProofPyBase.v
theories/PyFloat.v
theories/ProofFloat.v
theories/ModelFortran.v
theories/ModelRecords.v
theories/ModelTape.v
theories/ModelNum.v
theories/ModelRecipe.v
theories/ModelInterp.v
theories/SpecFields.v
theories/SpecFloat.v
theories/SpecLibm.v
theories/ProofFields.v
theories/ProofFloatText.v
theories/ProofLibm.v
theories/ProofRecords.v
theories/ProofFloatWrite.v
theories/ProofFloatRound.v
theories/SpecTape.v
theories/ProofTape.v
theories/ProofTapeWrite.v
theories/ProofTapeParse.v
theories/SpecReject.v
theories/ProofReject.v
theories/SpecTapeEx.v
theories/ProofTapeEx.v
theories/ModelParser.v
theories/SpecInterp.v
theories/SpecInterpEx.v
theories/ModelPath.v
theories/ProofInterp.v
theories/ProofInterpFrame.v
theories/ProofInterpCtl.v
theories/ProofInterpSec.v
theories/ProofInterpMono.v
theories/ProofInterpOpt.v
theories/ProofInterpGrow.v
theories/ProofInterpMap.v
theories/ProofInterpWrite.v
theories/SpecPath.v
theories/ProofPath.v
theories/ProofPathStr.v
theories/ProofInterpEx.v
theories/ThmFields.v
theories/ThmFloat.v
theories/ThmRecords.v
theories/ThmTape.v
theories/ThmReject.v
theories/ThmInterp.v
theories/ThmMapping.v
theories/ThmWrite.v
theories/ThmPath.v
theories/ModelTools.v
theories/ModelLibrary.v
theories/SpecTools.v
theories/SpecLibrary.v
theories/ProofTools.v
theories/ProofRing.v
theories/ProofDesc.v
theories/ProofLibrary.v
theories/ProofDir.v
theories/ProofDirCount.v
theories/ProofDirFile.v
theories/ProofLocate.v
theories/ProofToolsEx.v
theories/ThmTools.v
theories/ModelTracking.v
theories/SpecTracking.v
theories/ProofTracking.v
theories/ThmTracking.v
theories/ModelMatch.v
theories/SpecMatch.v
theories/ProofMatch.v
theories/ThmMatch.v
theories/ModelFiles.v
theories/ModelCpp.v
theories/SpecCpp.v
theories/ProofAccept.v
theories/ProofCpp.v
theories/ProofCppWrite.v
theories/ThmCpp.v
theories/ProofCppVec.v
theories/ProofCppFloat.v
theories/ThmCppNumbers.v
theories/SpecFiles.v
theories/ProofFiles.v
theories/ProofLookup.v
theories/ThmFiles.v
theories/SpecRound.v
theories/ProofRound1.v
theories/ProofRound2.v
theories/ProofRound3.v
theories/ProofRound4.v
theories/ProofThird.v
theories/ProofRound5.v
theories/ProofRound6.v
theories/ProofRound7.v
theories/ProofRound8.v
theories/ProofLook.v
theories/ProofRecipe.v
theories/ProofRound9.v
theories/ProofClosed.v
theories/ModelRecipes.v
theories/SpecKinds.v
theories/ProofKinds.v
theories/ThmRound.v
theories/ModelSolve.v
theories/SpecSolve.v
theories/ProofSolve.v
theories/ProofSolve2.v
theories/ThmSolve.v
theories/ModelRegistry.v
theories/SpecControl.v
theories/ProofControl.v
theories/ThmControl.v
theories/SpecSign.v
theories/ProofSign.v
theories/ProofSign2.v
theories/SpecFile.v
theories/ProofFile.v
theories/ProofFile2.v
theories/ProofFileEx.v
theories/ThmSign.v
theories/ThmFile.v
theories/ThmDir.v
theories/ThmLibrary.v
theories/SpecAbbrev.v
theories/ProofAbbrev.v
theories/ProofAbbrev2.v
theories/ProofAbbrev3.v
theories/ProofAbbrev4.v
theories/ProofAbbrev5.v
theories/ThmAbbrev.v
theories/ProofRoundAbbrev.v
theories/ThmRoundAbbrev.v
theories/ModelCppTab.v
theories/SpecCppTab.v
theories/ProofCppTab.v
theories/ProofCppCheck.v
theories/ThmCppTab.v
theories/ModelCppRead.v
theories/SpecCppRead.v
theories/ProofCppRead.v
theories/ProofCppReadEx.v
theories/ProofCppFile.v
theories/ThmCppRead.v
theories/ModelCppArr.v
theories/SpecCppArr.v
theories/ProofCppArr.v
theories/ThmCppArr.v
theories/ModelCppGen.v
theories/SpecCppGen.v
theories/ProofCppGenRead.v
theories/ProofCppGenMap.v
theories/ProofCppGenEval.v
theories/ProofCppGenReg.v
theories/ProofCppGenSec.v
theories/ProofCppGenRun.v
theories/ProofCppGenTop.v
theories/ThmCppGen.v
theories/ModelCppWrite.v
theories/SpecCppWrite.v
theories/ProofCppWriteEval.v
theories/ProofCppWriteBase.v
theories/ProofCppWriteRec.v
theories/ProofCppWriteRun.v
theories/ModelCppWriteFile.v
theories/ModelCppParser.v
theories/SpecCppParser.v
theories/ProofCppParser.v
theories/ProofCppWriteTop.v
theories/ThmCppWrite.v
theories/ThmCppParser.v
theories/ModelCli.v
theories/SpecCli.v
theories/ProofCli.v
theories/ThmCli.v
theories/ModelCommands.v
theories/SpecCommands.v
theories/ProofCommands.v
theories/ThmCommands.v
theories/ModelEndfFloat.v
theories/SpecEndfFloat.v
theories/ThmEndfFloat.v
theories/ModelCppFile.v
theories/ThmCppFile.v
