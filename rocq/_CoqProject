-Q theories Verif
theories/Base.v
theories/Position.v
theories/Num.v
theories/TokenTypes.v
theories/Errors.v
theories/Token.v
theories/Operations.v
theories/SavedData.v
theories/Variables.v
theories/InputHistory.v
theories/SyntaxTree.v
theories/Commands.v
theories/Calculate.v
theories/Editor.v
theories/SpecLex.v
theories/ProofsPosition.v
theories/ProofsLex.v
theories/ProofsLex2.v
theories/PropertiesLex.v
theories/SpecGrammar.v
theories/ProofsParse.v
theories/ProofsParse2.v
theories/ProofsParse3.v
theories/PropertiesParse.v
theories/ProofsNum.v
theories/ProofsRoot.v
theories/SpecEval.v
theories/ProofsRoot2.v
theories/ProofsPower.v
theories/ProofsText.v
theories/ProofsEval.v
theories/ProofsEval2.v
theories/ProofsEval3.v
theories/PropertiesEval.v
theories/SpecPrint.v
theories/ProofsPrint.v
theories/ProofsPrint2.v
theories/PropertiesPrint.v
theories/Sessions.v
theories/SpecHistory.v
theories/ProofsDb.v
theories/ProofsDb2.v
theories/ProofsDb3.v
theories/ProofsDb4.v
theories/ProofsDb5.v
theories/PropertiesDb.v
theories/SpecEditor.v
theories/ProofsEditor.v
theories/ProofsEditor2.v
theories/ProofsEditor3.v
theories/ProofsEditor4.v
theories/PropertiesEditor.v
theories/SpecCalc.v
theories/ProofsCalc.v
theories/ProofsCalc2.v
theories/ProofsCalc3.v
theories/ProofsCalc4.v
theories/ProofsCalc5.v
theories/ProofsCalc6.v
theories/ProofsCalc7.v
theories/ProofsCalc8.v
theories/ProofsCalc9.v
theories/ProofsCalc10.v
theories/PropertiesCalc.v
theories/SpecCommands.v
theories/ProofsCommands.v
theories/ProofsCommands2.v
theories/PropertiesCommands.v
theories/ProofsCalm.v
theories/ProofsPrint3.v
theories/ProofsCalm2.v
theories/SpecSession.v
theories/ProofsSession.v
theories/ProofsSession2.v
theories/PropertiesSession.v
theories/ProofsTouch.v
theories/SpecData.v
theories/ProofsTouch2.v
theories/ProofsData.v
theories/PropertiesData.v
theories/ProofsComplaints.v
theories/SpecSyntax.v
theories/ProofsSyntax.v
theories/ProofsSyntax2.v
theories/Main.v
theories/SpecMain.v
theories/ProofsMain.v
theories/ProofsRestart.v
theories/ProofsRestart2.v
theories/ProofsRestart3.v
theories/ProofsRestart4.v
theories/ProofsMain2.v
theories/PropertiesMain.v
theories/ProofsMain3.v
theories/SpecTerminal.v
theories/ProofsTerminal.v
theories/ProofsKept.v
theories/ProofsTerminal2.v
theories/ProofsTerminal3.v
theories/PropertiesTerminal.v
theories/ProofsTerminal4.v
theories/ProofsTerminal5.v
theories/ProofsTerminal6.v
theories/ProofsTerminal7.v
theories/ProofsTerminal8.v
theories/ProofsTerminal9.v
theories/Io.v
theories/SpecIo.v
theories/ProofsIo.v
theories/ProofsIo2.v
theories/PropertiesIo.v
theories/Together.v
theories/SpecTogether.v
theories/ProofsTogether.v
theories/ProofsTogether2.v
theories/PropertiesTogether.v
theories/Kill.v
theories/ProofsKill.v
theories/SpecKill.v
theories/ProofsKill2.v
theories/ProofsKill3.v
theories/PropertiesKill.v
theories/SpecOrder.v
theories/ProofsOrder.v
theories/ProofsOrder2.v
theories/ProofsOrder3.v
theories/PropertiesOrder.v
theories/SpecResize.v
theories/ProofsResize.v
theories/ProofsResize2.v
theories/PropertiesResize.v
theories/CommandLine.v
theories/SpecCommandLine.v
theories/ProofsCommandLine.v
theories/ProofsCommandLine2.v
theories/ProofsCommandLine3.v
theories/PropertiesCommandLine.v
theories/ProofsKept2.v
theories/SpecScroll.v
theories/ProofsScroll.v
theories/PropertiesScroll.v
theories/Interleave.v
theories/SpecInterleave.v
theories/ProofsInterleave.v
theories/ProofsInterleave2.v
theories/ProofsInterleave3.v
theories/PropertiesInterleave.v
theories/ProofsInterleave4.v
theories/ProofsInterleave5.v
theories/ProofsInterleave6.v
theories/ProofsInterleave7.v
theories/ProofsInterleave8.v
theories/ProofsInterleave9.v
theories/ProofsInterleave10.v
theories/ProofsInterleave11.v
theories/ProofsInterleave12.v
theories/PropertiesInterleave2.v
theories/SpecDecimal.v
theories/ProofsShow.v
theories/ProofsPrint4.v
theories/ProofsPure.v
theories/SpecCompose.v
theories/ProofsCompose.v
theories/ProofsCompose2.v
theories/PropertiesCompose.v
theories/SpecSettings.v
theories/ProofsSettings.v
theories/SpecReentry.v
theories/ProofsReentry.v
theories/PropertiesReentry.v
theories/SpecDamage.v
theories/ProofsDamage.v
theories/ProofsDamage2.v
theories/PropertiesDamage.v
theories/ProofsDamage3.v
theories/SpecLaws.v
theories/ProofsLaws.v
theories/ProofsLaws2.v
theories/ProofsLaws3.v
theories/PropertiesLaws.v
theories/SpecNotation.v
theories/ProofsNotation.v
theories/ProofsNotation2.v
theories/PropertiesNotation.v
theories/SpecRounds.v
theories/ProofsRounds.v
theories/PropertiesRounds.v
theories/SpecSize.v
theories/ProofsSize.v
theories/PropertiesSize.v
theories/SpecCalls.v
theories/ProofsCalls.v
theories/ProofsCalls2.v
theories/PropertiesCalls.v
theories/ProofsCause.v
theories/SpecCause.v
theories/ProofsCause2.v
theories/ProofsCause3.v
theories/PropertiesCause.v
theories/SpecMemory.v
theories/ProofsMemory.v
theories/ProofsMemory2.v
theories/PropertiesMemory.v
theories/Report.v
theories/SpecReport.v
theories/ProofsReport.v
theories/PropertiesReport.v
theories/SpecProfile.v
theories/ProofsProfile.v
theories/PropertiesProfile.v
theories/SpecLines.v
theories/ProofsLines.v
theories/PropertiesLines.v
theories/SpecAccount.v
theories/ProofsAccount.v
theories/PropertiesAccount.v
theories/SpecUnrelated.v
theories/ProofsUnrelated.v
theories/PropertiesUnrelated.v
theories/SpecAccuracy.v
theories/ProofsAccuracy.v
theories/PropertiesAccuracy.v
