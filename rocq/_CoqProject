-Q theories Verif

theories/Base.v
theories/ModelUtil.v
theories/ModelEnums.v
theories/ModelBitflag.v
theories/ModelSchemas.v
theories/ModelTags.v
theories/ModelTlv.v
theories/ModelValues.v
theories/ModelProcess.v
theories/ModelDisplay.v
theories/ModelMain.v
theories/ModelCli.v
theories/SpecUtil.v
theories/ProofsUtil.v
theories/PropertiesUtil.v
theories/SpecTlv.v
theories/ProofsBer.v
theories/ProofsGrammar.v
theories/PropertiesBer.v
theories/SpecIngenico.v
theories/ProofsIngenico.v
theories/PropertiesIngenico.v
theories/SpecCodes.v
theories/SpecValues.v
theories/ProofsValues.v
theories/PropertiesValues.v
theories/SpecTags.v
theories/SpecProcess.v
theories/ProofsProcess.v
theories/PropertiesProcess.v
theories/SpecDisplay.v
theories/ProofsDisplay.v
theories/ProofsDiagram.v
theories/ProofsScreens.v
theories/ProofsLayout.v
theories/PropertiesDisplay.v
theories/SpecMain.v
theories/ProofsMain.v
theories/PropertiesMain.v
theories/SpecCli.v
theories/ProofsCli.v
theories/PropertiesCli.v
theories/SpecPictures.v
theories/ProofsPictures.v
theories/PropertiesPictures.v
theories/SpecMasking.v
theories/PropertiesMasking.v
theories/SpecReading.v
theories/PropertiesReading.v
theories/ModelTerminal.v
theories/SpecTerminal.v
theories/ProofsTerminal.v
theories/PropertiesTerminal.v
theories/ModelWords.v
theories/ModelEnv.v
theories/SpecEnv.v
theories/SpecWords.v
theories/ProofsWords.v
theories/PropertiesWords.v
theories/ProofsEnv.v
theories/PropertiesEnv.v
theories/SpecTells.v
theories/ProofsTells.v
theories/PropertiesTells.v
theories/SpecSame.v
theories/PropertiesSame.v
theories/ModelCost.v
theories/SpecCost.v
theories/ProofsCost.v
theories/PropertiesCost.v
theories/ModelFiles.v
theories/SpecFiles.v
theories/ProofsFiles.v
theories/PropertiesFiles.v
theories/SpecBuilds.v
theories/ProofsBuilds.v
theories/PropertiesBuilds.v
theories/SpecJoin.v
theories/PropertiesJoin.v
theories/PropertiesSize.v
theories/ModelStdout.v
theories/SpecStdout.v
theories/ProofsStdout.v
theories/PropertiesStdout.v
theories/PropertiesCut.v
theories/SpecCopied.v
theories/PropertiesCopied.v
theories/SpecHidden.v
theories/PropertiesHidden.v
theories/SpecScope.v
theories/PropertiesScope.v
theories/SpecWrap.v
theories/PropertiesWrap.v
theories/SpecFormats.v
theories/PropertiesFormats.v
theories/ModelOs.v
theories/SpecOs.v
theories/PropertiesOs.v
theories/SpecWidth.v
theories/ProofsWidth.v
theories/PropertiesWidth.v
theories/ModelBuild.v
theories/SpecBuild.v
theories/PropertiesBuild.v
theories/SpecQuiet.v
theories/PropertiesQuiet.v
theories/SpecOverrun.v
theories/ProofsOverrun.v
theories/PropertiesOverrun.v
theories/SpecMatters.v
theories/PropertiesMatters.v
theories/SpecTopbit.v
theories/ProofsTopbit.v
theories/PropertiesTopbit.v
theories/ModelSystem.v
theories/PropertiesSystem.v
theories/ModelStack.v
theories/SpecStack.v
theories/ProofsStack.v
theories/PropertiesStack.v
theories/SpecColumns.v
theories/PropertiesColumns.v
theories/SpecAlarms.v
theories/PropertiesAlarms.v
theories/SpecSlips.v
theories/PropertiesSlips.v
theories/PropertiesMore.v
theories/SpecBreaks.v
theories/PropertiesBreaks.v
theories/SpecSorted.v
theories/PropertiesSorted.v
theories/SpecBehind.v
theories/PropertiesBehind.v
theories/SpecOptions.v
theories/PropertiesOptions.v
theories/SpecReserved.v
theories/PropertiesReserved.v
theories/SpecSettled.v
theories/PropertiesSettled.v
theories/SpecMatch.v
theories/PropertiesMatch.v
theories/SpecNotation.v
theories/PropertiesNotation.v
theories/SpecFront.v
theories/PropertiesFront.v
theories/SpecExplain.v
theories/PropertiesExplain.v
theories/SpecAround.v
theories/PropertiesAround.v
theories/ModelUncalled.v
theories/SpecUncalled.v
theories/PropertiesUncalled.v
theories/SpecReach.v
theories/PropertiesReach.v
theories/SpecTwice.v
theories/PropertiesTwice.v
theories/SpecRules.v
theories/PropertiesRules.v
theories/SpecListed.v
theories/PropertiesListed.v
theories/SpecService.v
theories/PropertiesService.v
theories/SpecCoded.v
theories/PropertiesCoded.v
theories/PropertiesRuns.v
theories/SpecIssuer.v
theories/PropertiesIssuer.v
theories/SpecNames.v
theories/PropertiesNames.v
theories/SpecStatements.v
theories/PropertiesStatements.v
theories/SpecOutline.v
theories/PropertiesOutline.v
theories/SpecVerified.v
theories/PropertiesVerified.v
theories/PropertiesColoured.v
theories/SpecWarned.v
theories/PropertiesWarned.v
theories/SpecStrip.v
theories/PropertiesStrip.v
theories/PropertiesHead.v
theories/PropertiesSpent.v
theories/Tests.v
theories/Assumptions.v
