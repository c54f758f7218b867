-Q theories Verif
theories/PyStr.v
theories/PyFloat.v
theories/Tokeniser.v
theories/Ast.v
theories/Parser.v
theories/Render.v
theories/Validate.v
theories/Api.v
theories/RepoTests.v
theories/PyTokens.v
theories/FileHandler.v
theories/FileTests.v
theories/Lib.v
theories/AstLib.v
theories/RenderEq.v
theories/SpecTok.v
theories/ProofTok.v
theories/ProofTok2.v
theories/ProofTok3.v
theories/PropTok.v
theories/SpecApi.v
theories/ProofApi.v
theories/PropApi.v
theories/SpecVal.v
theories/ProofVal.v
theories/ProofVal2.v
theories/PropVal.v
theories/SpecFile.v
theories/ProofFile.v
theories/ProofFile2.v
theories/ProofFile3.v
theories/PropFile.v
theories/SpecRun.v
theories/ProofRun.v
theories/ProofRun2.v
theories/ProofRun3.v
theories/PropRun.v
theories/ProofTerm.v
theories/ProofFuel.v
theories/ProofParse.v
theories/PropParse.v
theories/Ideal.v
theories/Digits.v
theories/Grammar.v
theories/Scan.v
theories/GramTok.v
theories/GramExpr.v
theories/GramHead.v
theories/GramTail.v
theories/GramStmt.v
theories/LexText.v
theories/GramUp.v
theories/GramAlike.v
theories/GramText.v
theories/GramRender.v
theories/GramExp2.v
theories/GramFrom.v
theories/GramPrint.v
theories/SpecRound.v
theories/GramEntry.v
theories/GramCase.v
theories/GramRound.v
theories/GramLits.v
theories/GramInt.v
theories/PropRound.v
theories/SpecLayout.v
theories/ProofLayout.v
theories/GramNest.v
theories/ProofBreak.v
theories/PropLayout.v
theories/SpecAnswer.v
theories/ProofAnswer.v
theories/PropAnswer.v
theories/SpecScope.v
theories/ProofScope.v
theories/PropScope.v
theories/SpecSame.v
theories/ProofSame.v
theories/PropSame.v
theories/SpecStable.v
theories/ProofStable.v
theories/PropStable.v
theories/SpecSource.v
theories/SourceCheck.v
theories/ProofSource.v
theories/ProofSource2.v
theories/PropSource.v
theories/SpecTidy.v
theories/ProofTidy.v
theories/ProofTidy2.v
theories/PropTidy.v
theories/Cost.v
theories/CostLib.v
theories/SpecCost.v
theories/ProofCost.v
theories/ProofCost2.v
theories/PropCost.v
theories/ParseCost.v
theories/SpecParseCost.v
theories/ProofParseCost.v
theories/ProofParseCost2.v
theories/ProofParseCost3.v
theories/ProofParseCost4.v
theories/ProofParseCost5.v
theories/PropParseCost.v
theories/SpecReport.v
theories/ProofReport.v
theories/PropReport.v
theories/SpecRaise.v
theories/ProofRaise.v
theories/ProofRaise2.v
theories/PropRaise.v
theories/PyTokenize.v
theories/TokenizeTests.v
theories/SpecTokenize.v
theories/ProofLex.v
theories/ProofLex2.v
theories/ProofTokenize.v
theories/ProofTokenize2.v
theories/ProofTokenize3.v
theories/ProofTokenize4.v
theories/ProofInside.v
theories/ProofTokenize5.v
theories/ProofTokenize6.v
theories/PropTokenize.v
theories/SpecTaken.v
theories/ProofTaken.v
theories/ProofSpelled.v
theories/ProofSpelled2.v
theories/ProofSpelled3.v
theories/PropTaken.v
theories/Args.v
theories/SpecArgs.v
theories/ProofArgs.v
theories/ProofArgs2.v
theories/ProofArgs3.v
theories/ProofArgs4.v
theories/PropArgs.v
theories/SpecLine.v
theories/ProofLine.v
theories/ProofLine2.v
theories/PropLine.v
theories/SpecModes.v
theories/ProofModes.v
theories/ProofModes2.v
theories/ProofModes3.v
theories/ProofModes4.v
theories/ProofModes5.v
theories/ProofModes6.v
theories/PropModes.v
theories/SpecNested.v
theories/ProofNested.v
theories/PropNested.v
theories/SpecVerdict.v
theories/ProofAgain.v
theories/ProofVerdict.v
theories/ProofVerdict2.v
theories/PropVerdict.v
theories/SpecStuck.v
theories/ProofStuck.v
theories/PropStuck.v
theories/SpecFailed.v
theories/ProofFailed.v
theories/PropFailed.v
theories/SpecTables.v
theories/ProofTables.v
theories/PropTables.v
theories/SpecExact.v
theories/ProofExact.v
theories/PropExact.v
theories/SpecNamed.v
theories/ProofNamed.v
theories/PropNamed.v
theories/SpecSays.v
theories/ProofSays.v
theories/ProofSaid.v
theories/PropSays.v
theories/SpecLost.v
theories/SpecDerived.v
theories/ProofLost.v
theories/PropLost.v
theories/PropDerived.v
