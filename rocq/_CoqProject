-Q theories Verif
theories/Base.v
theories/Hash.v
theories/Cookie.v
theories/SpecNames.v
theories/CookieProofs.v
theories/BuildStep.v
theories/BuildStepProofs.v
theories/Pool.v
theories/PoolInv.v
theories/SpecPool.v
theories/PoolProofs.v
theories/SpecSteps.v
theories/PropertiesNames.v
theories/PropertiesSteps.v
theories/PropertiesPool.v
theories/FileSys.v
theories/Frugal.v
theories/Deps.v
theories/Log.v
theories/SpecFiles.v
theories/FrugalProofs.v
theories/PropertiesFrugal.v
theories/PoolOwn.v
theories/Build.v
theories/SpecBuild.v
theories/BuildProofs.v
theories/CompileProofs.v
theories/StepProofs.v
theories/MomentProofs.v
theories/LinkProofs.v
theories/SpecHistory.v
theories/HistoryProofs.v
theories/RebuildProofs.v
theories/Plan.v
theories/SpecPlan.v
theories/PlanProofs.v
theories/SucceedProofs.v
theories/Drive.v
theories/Toy.v
theories/BuildTheorems.v
theories/PropertiesBuild.v
theories/Pipe.v
theories/PipeProofs.v
theories/Cmd.v
theories/SpecCmd.v
theories/CmdProofs.v
theories/Main.v
theories/PropertiesCmd.v
theories/SpecMain.v
theories/MainProofs.v
theories/PropertiesMain.v
theories/PoolSettled.v
theories/LogProofs.v
theories/PropertiesLog.v
theories/Vfs.v
theories/Install.v
theories/SpecInstall.v
theories/VfsProofs.v
theories/PathProofs.v
theories/InstallProofs.v
theories/InstallAll.v
theories/OwnerProofs.v
theories/PropertiesInstall.v
theories/FlAst.v
theories/FlState.v
theories/FlInterp.v
theories/FlMonad.v
theories/SpecFlamingo.v
theories/FlEqProofs.v
theories/SpecScript.v
theories/FlOpProofs.v
theories/FlExprProofs.v
theories/FlMemberProofs.v
theories/SpecFrame.v
theories/FlFrame.v
theories/FlBalance.v
theories/FlHigherProofs.v
theories/FlSeqProofs.v
theories/FlClaims.v
theories/PropertiesScript.v
theories/SpecScope.v
theories/FlScopeProofs.v
theories/FlAssignProofs.v
theories/FlReturnProofs.v
theories/FlScopeClaims.v
theories/PropertiesScope.v
theories/FlErrorProofs.v
theories/FlFuel.v
theories/SpecImport.v
theories/FlImportProofs.v
theories/PropertiesImport.v
theories/Bob.v
theories/FlExternProofs.v
theories/BobProofs.v
theories/SpecBob.v
theories/BobCallProofs.v
theories/BobMethodProofs.v
theories/BobInstanceProofs.v
theories/BobScriptProofs.v
theories/Project.v
theories/SpecProject.v
theories/ProjectProofs.v
theories/BobFailProofs.v
theories/PropertiesBob.v
theories/RecipeProofs.v
theories/GrowProofs.v
theories/ListProofs.v
theories/PropertiesProject.v
theories/SpecSettled.v
theories/SettledProofs.v
theories/PropertiesSettled.v
theories/SpecSafe.v
theories/SafeInv.v
theories/SafeProofs.v
theories/PropertiesSafe.v
theories/SpecDeliver.v
theories/DeliverProofs.v
theories/PropertiesDeliver.v
theories/ApartProofs.v
theories/OutsideProofs.v
theories/PropertiesOutside.v
theories/SpecKept.v
theories/KeptProofs.v
theories/PropertiesKept.v
theories/Ground.v
theories/GroundProofs.v
theories/PropertiesGround.v
theories/Fts.v
theories/SpecList.v
theories/FtsProofs.v
theories/PropertiesList.v
theories/SpecCall.v
theories/FlCallProofs.v
theories/PropertiesCall.v
theories/SpecPrint.v
theories/FlPrintProofs.v
theories/PropertiesPrint.v
theories/SpecEnd.v
theories/EndProofs.v
theories/PropertiesEnd.v
theories/SpecInstance.v
theories/FlInstanceProofs.v
theories/PropertiesInstance.v
theories/FlTables.v
theories/FlParse.v
theories/FlRead.v
theories/SpecLex.v
theories/LexProofs.v
theories/PropertiesLex.v
theories/FlSources.v
theories/SpecGrammar.v
theories/ParseProofs.v
theories/PropertiesParse.v
theories/SpecSyntax.v
theories/ReadGrammar.v
theories/ReadProofs.v
theories/SyntaxProofs.v
theories/PropertiesSyntax.v
theories/BuildFile.v
theories/SpecText.v
theories/TextProofs.v
theories/PropertiesText.v
theories/Command.v
theories/SpecCommand.v
theories/CommandProofs.v
theories/PropertiesCommand.v
theories/Jobs.v
theories/SpecJobs.v
theories/JobsProofs.v
theories/PropertiesJobs.v
theories/Utf8.v
theories/SpecUtf8.v
theories/Utf8Proofs.v
theories/PropertiesUtf8.v
theories/Term.v
theories/SpecTerm.v
theories/TermProofs.v
theories/PropertiesTerm.v
theories/Debug.v
theories/SpecDebug.v
theories/DebugProofs.v
theories/DebugTheorems.v
theories/PropertiesDebug.v
theories/Together.v
theories/SpecTogether.v
theories/TogetherProofs.v
theories/TogetherTheorems.v
theories/PropertiesTogether.v
theories/SpecBesides.v
theories/BesidesProofs.v
theories/ToyBesides.v
theories/PropertiesBesides.v
theories/SpecOps.v
theories/FlTotalProofs.v
theories/PropertiesOps.v
theories/AloneProofs.v
theories/Telling.v
theories/SpecTelling.v
theories/TellingProofs.v
theories/PropertiesTelling.v
theories/SpecResume.v
theories/ResumeProofs.v
theories/PropertiesResume.v
theories/TwiceProofs.v
theories/OrderProofs.v
theories/PropertiesOrder.v
