-Q theories Verif
theories/PyBase.v
theories/PyFacts.v
theories/Shlex.v
theories/IniView.v
theories/IniRead.v
theories/ExcControl.v
theories/Debuggable.v
theories/TypedProp.v
theories/Cpe.v
theories/SpecBase.v
theories/BaseProofs.v
theories/PropertiesBase.v
theories/SpecText.v
theories/SpecFile.v
theories/SpecShell.v
theories/FileProofs.v
theories/ShellProofs.v
theories/SpecWalk.v
theories/MeaningProofs.v
theories/Refine.v
theories/RefineRoot.v
theories/RefineOk.v
theories/SpecRun.v
theories/RunProofs.v
theories/Trace.v
theories/SpecParse.v
theories/WalkProofs.v
theories/ParseProofs.v
theories/ParseProofs2.v
theories/ParseProofs3.v
theories/ParseProofs4.v
theories/SpecApi.v
theories/ApiProofs.v
theories/ApiProofs2.v
theories/ApiProofs3.v
theories/ApiProofs4.v
theories/Samples.v
theories/SamplesApi.v
theories/ApiProofs5.v
theories/ApiProofs6.v
theories/ApiProofs7.v
theories/PropertiesParse.v
theories/PropertiesApi.v
theories/SpecStop.v
theories/StopProofs.v
theories/SpecRead.v
theories/ReadProofs.v
theories/ReadProofs2.v
theories/PropertiesShell.v
theories/ReadProofs3.v
theories/ReadProofs4.v
theories/ReadProofs5.v
theories/ReadProofs6.v
theories/PropertiesRead.v
theories/SpecValue.v
theories/ValueProofs.v
theories/PropertiesValue.v
theories/SpecOps.v
theories/OpsProofs.v
theories/PropertiesOps.v
theories/SpecUnroll.v
theories/UnrollProofs.v
theories/UnrollProofs2.v
theories/SamplesUnroll.v
theories/PropertiesUnroll.v
theories/SpecReload.v
theories/ReloadProofs.v
theories/ReloadProofs2.v
theories/BlindProofs.v
theories/ReloadProofs3.v
theories/PropertiesReload.v
theories/EnvVar.v
theories/SetEnv.v
theories/SpecEnv.v
theories/EnvProofs.v
theories/SpecSetEnv.v
theories/SetEnvProofs.v
theories/SetEnvProofs2.v
theories/SetEnvProofs3.v
theories/PropertiesEnv.v
theories/PropertiesSetEnv.v
theories/Regex.v
theories/Keyword.v
theories/KeywordFile.v
theories/SpecKeyword.v
theories/SpecFlags.v
theories/KeywordText.v
theories/RegexProofs.v
theories/KeywordProofs.v
theories/KeywordFileProofs.v
theories/FlagsProofs.v
theories/FlagsProofs2.v
theories/FlagsProofs3.v
theories/PropertiesKeyword.v
theories/DetSys.v
theories/EnvKeyword.v
theories/LoadEnv.v
theories/SpecSystem.v
theories/SearchProofs.v
theories/SystemProofs.v
theories/EnvNameProofs.v
theories/SpecLoadEnv.v
theories/LoadEnvProofs.v
theories/GenConfigProofs.v
theories/FixedProofs.v
theories/PropertiesLoadEnv.v
theories/Bash.v
theories/SpecBash.v
theories/BashProofs.v
theories/BashTextProofs.v
theories/PropertiesBash.v
theories/PyScript.v
theories/PyScriptProofs.v
theories/PropertiesPyScript.v
theories/ModuleHelper.v
theories/SpecModule.v
theories/ModuleProofs.v
theories/PropertiesModule.v
theories/LoadRun.v
theories/SpecLoadRun.v
theories/LoadRunProofs.v
theories/LoadRunProofs2.v
theories/LoadRunProofs3.v
theories/PropertiesLoadRun.v
theories/GenRun.v
theories/SpecGenRun.v
theories/GenRunProofs.v
theories/PropertiesGenRun.v
theories/TopLevel.v
theories/SpecTop.v
theories/TopProofs.v
theories/TopProofs2.v
theories/TopProofs3.v
theories/TopProofs4.v
theories/PropertiesTop.v
theories/LoadSh.v
theories/SpecSh.v
theories/ShProofs.v
theories/ShProofs2.v
theories/GenSh.v
theories/SpecGenSh.v
theories/GenShProofs.v
theories/GenShProofs2.v
theories/PropertiesSh.v
theories/PropertiesGenSh.v
theories/ArgParse.v
theories/SpecArgs.v
theories/ArgProofs.v
theories/ArgProofs2.v
theories/ArgProofs3.v
theories/ArgProofs4.v
theories/PropertiesArgs.v
theories/Programs.v
theories/SpecPrograms.v
theories/ProgProofs.v
theories/ProgProofs2.v
theories/ProgProofs3.v
theories/ProgProofs4.v
theories/PropertiesPrograms.v
theories/Messages.v
theories/SpecMessages.v
theories/MsgProofs.v
theories/MsgProofs2.v
theories/MsgProofs3.v
theories/MsgProofs4.v
theories/PropertiesMessages.v
theories/Printers.v
theories/SpecPrint.v
theories/PrintProofs.v
theories/PropertiesPrint.v
theories/QuietProofs.v
theories/SpecReport.v
theories/ReportProofs.v
theories/PropertiesReport.v
theories/DefaultProofs.v
theories/PropertiesDefault.v
theories/SpecLocal.v
theories/LocalProofs.v
theories/PasteProofs.v
theories/LocalEnvProofs.v
theories/PropertiesLocal.v
theories/SpecCost.v
theories/CostProofs.v
theories/PropertiesCost.v
theories/SpecLevels.v
theories/LevelsProofs.v
theories/PropertiesLevels.v
theories/SpecOrder.v
theories/OrderProofs.v
theories/SamplesOrder.v
theories/PropertiesOrder.v
theories/SpecNames.v
theories/NameProofs.v
theories/SamplesNames.v
theories/PropertiesNames.v
theories/RepoData.v
theories/RepoSetEnvTests.v
theories/RepoCpeTests.v
theories/FileObjects.v
theories/SpecObjects.v
theories/ObjectProofs.v
theories/ObjectProofs2.v
theories/ObjectProofs3.v
theories/PropertiesObjects.v
theories/RepoToolTests.v
theories/RepoBaseTests.v
theories/Sharing.v
theories/SpecSharing.v
theories/SharingProofs.v
theories/SharingProofs2.v
theories/PropertiesSharing.v
theories/Errors.v
theories/SpecErrors.v
theories/ErrorProofs.v
theories/ErrorProofs2.v
theories/ErrorProofs3.v
theories/ErrorProofs4.v
theories/ErrorProofs5.v
theories/PropertiesErrors.v
theories/SpecLayout.v
theories/LayoutProofs.v
theories/LayoutProofs2.v
theories/PropertiesLayout.v
theories/FilePrograms.v
theories/SpecFilePrograms.v
theories/FileProgProofs.v
theories/FileProgProofs2.v
theories/FileProgProofs3.v
theories/LayoutProofs3.v
theories/PropertiesFilePrograms.v
theories/SpecParts.v
theories/PartsProofs.v
theories/PartsProofs2.v
theories/PartsProofs3.v
theories/PropertiesParts.v
theories/Texts.v
theories/SpecTexts.v
theories/TextsProofs.v
theories/TextsProofs2.v
theories/TextsProofs3.v
theories/TextsProofs4.v
theories/PropertiesTexts.v
theories/SpecRename.v
theories/RenameProofs.v
theories/RenameProofs2.v
theories/PropertiesRename.v
theories/Views.v
theories/SpecViews.v
theories/ViewsProofs.v
theories/ViewsProofs2.v
theories/ViewsProofs3.v
theories/ViewsProofs4.v
theories/PropertiesViews.v
theories/Reentrant.v
theories/SpecReentrant.v
theories/ReentrantProofs.v
theories/ReentrantProofs2.v
theories/ReentrantProofs3.v
theories/SamplesReentrant.v
theories/PropertiesReentrant.v
theories/SpecNested.v
theories/NestedProofs.v
theories/SamplesNested.v
theories/PropertiesNested.v
theories/SpecSound.v
theories/SoundProofs.v
theories/SamplesSound.v
theories/PropertiesSound.v
theories/SpecTruth.v
theories/TruthProofs.v
theories/SamplesTruth.v
theories/PropertiesTruth.v
theories/SpecQuiet.v
theories/CalmProofs.v
theories/SamplesQuiet.v
theories/PropertiesQuiet.v
theories/LastingProofs.v
theories/LastingProofs2.v
theories/SamplesLasting.v
theories/PropertiesLasting.v
