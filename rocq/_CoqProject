-Q theories Verif
theories/Base.v
theories/Events.v
theories/HwModel.v
theories/RmModel.v
theories/RmSys.v
theories/RmSpec.v
theories/HwProofs.v
theories/RmProofs.v
theories/RmInv.v
theories/RmAvail.v
theories/RmCycle.v
theories/RmGroup.v
theories/RmTurn.v
theories/RmRw.v
theories/RmMode.v
theories/RmMain.v
theories/RmSpec2.v
theories/RmExact.v
theories/RmWitness.v
theories/Props_Rm.v
theories/ChainModel.v
theories/ChainProofs.v
theories/CmModel.v
theories/CmPrim.v
theories/ChainSpec.v
theories/CmTopo.v
theories/ChainMain.v
theories/CmWitness.v
theories/Props_Chain.v
theories/CmInv.v
theories/CmExcl.v
theories/CmReach.v
theories/CmSpec.v
theories/CmSwitch.v
theories/CmOutcome.v
theories/CmLoad.v
theories/CmCache.v
theories/CmIntact.v
theories/Props_Cm.v
theories/LimitsModel.v
theories/FloatOrder.v
theories/FloatReal.v
theories/LimitsSpec.v
theories/LimitsProofs.v
theories/LimitsMain.v
theories/LimitsHist.v
theories/Props_Limits.v
theories/TransModel.v
theories/TransSpec.v
theories/TransProofs.v
theories/TransMain.v
theories/Props_Trans.v
theories/LexModel.v
theories/LexSpec.v
theories/LexProofs.v
theories/Props_Lex.v
theories/HandleModel.v
theories/HandleSpec.v
theories/HandleProofs.v
theories/Props_Handle.v
theories/StatsModel.v
theories/StatsSpec.v
theories/StatsProofs.v
theories/Props_Stats.v
theories/OrderedModel.v
theories/OrderedSpec.v
theories/OrderedProofs.v
theories/Props_Ordered.v
theories/ParserModel.v
theories/ParserSpec.v
theories/ParserProofs.v
theories/Props_Parser.v
theories/InitHwModel.v
theories/InitHwSpec.v
theories/InitHwProofs.v
theories/Props_InitHw.v
theories/TimingModel.v
theories/TimingSpec.v
theories/TimingProofs.v
theories/Props_Timing.v
theories/FollowSpec.v
theories/CmFollow.v
theories/Props_Follow.v
theories/CmLeak.v
theories/UpdateSpec.v
theories/CmDeact.v
theories/CmErr.v
theories/CmFallback.v
theories/CmHwErr.v
theories/Props_Update.v
theories/RtModel.v
theories/RtSpec.v
theories/RtProofs.v
theories/RtLive.v
theories/RtWitness.v
theories/Props_Rt.v
theories/MockModel.v
theories/MockSpec.v
theories/MockProofs.v
theories/MockMain.v
theories/MockMode.v
theories/Props_Mock.v
theories/CmRefs.v
theories/DoneSpec.v
theories/CmDone.v
theories/Props_Done.v
theories/LifeSpec.v
theories/CmLife.v
theories/CmCycle.v
theories/Props_Life.v
theories/PassSpec.v
theories/LimitsPass.v
theories/LimitsSoft.v
theories/Props_Pass.v
theories/TellSpec.v
theories/CmTell.v
theories/CmTell2.v
theories/CmTell3.v
theories/Props_Tell.v
theories/ExportSpec.v
theories/CmExport.v
theories/CmExport2.v
theories/CmExport3.v
theories/CmExport4.v
theories/CmExport5.v
theories/CmExport6.v
theories/CmExport7.v
theories/Props_Export.v
theories/CmAvail.v
theories/ListModel.v
theories/ListSpec.v
theories/ListProofs.v
theories/Props_List.v
theories/CmCache2.v
theories/AcceptSpec.v
theories/CmAccept.v
theories/Props_Accept.v
theories/BestSpec.v
theories/CmPend.v
theories/CmBest.v
theories/CmBystander.v
theories/Props_Best.v
theories/ReloadModel.v
theories/ReloadSpec.v
theories/CmReload.v
theories/CmReload2.v
theories/Props_Reload.v
theories/ChainedSpec.v
theories/CmChained.v
theories/CmChained2.v
theories/CmChained3.v
theories/CmChained4.v
theories/CmChained5.v
theories/Props_Chained.v
theories/KindsSpec.v
theories/CmKinds.v
theories/Props_Kinds.v
theories/SemModel.v
theories/SemSpec.v
theories/SemProofs.v
theories/SemMain.v
theories/Props_Sem.v
theories/SatModel.v
theories/SatSpec.v
theories/SatProofs.v
theories/SatMain.v
theories/SatMain2.v
theories/SatMain3.v
theories/Props_Sat.v
theories/ParamModel.v
theories/ParamSpec.v
theories/ParamProofs.v
theories/ParamMain.v
theories/Props_Param.v
theories/EnforceModel.v
theories/EnforceSpec.v
theories/EnforceProofs.v
theories/EnforceMain.v
theories/EnforceHist.v
theories/EnforceFlag.v
theories/Props_Enforce.v
theories/LoadModel.v
theories/LoadSpec.v
theories/LoadProofs.v
theories/LoadMain.v
theories/Props_Load.v
theories/ChainableModel.v
theories/ChainableSpec.v
theories/ChainableProofs.v
theories/Props_Chainable.v
theories/LcidModel.v
theories/LcidSpec.v
theories/LcidProofs.v
theories/Props_Lcid.v
theories/ArrayModel.v
theories/ArraySpec.v
theories/ArrayProofs.v
theories/Props_Array.v
theories/XmlTypes.v
theories/XmlModel.v
theories/XmlSpec.v
theories/XmlProofs.v
theories/XmlProofs2.v
theories/XmlProofs3.v
theories/XmlProofs4.v
theories/XmlProofs5.v
theories/Props_Xml.v
theories/AsyncModel.v
theories/AsyncSpec.v
theories/AsyncProofs.v
theories/AsyncLife.v
theories/Props_Async.v
theories/BringupModel.v
theories/BringupSpec.v
theories/BringupProofs.v
theories/Props_Bringup.v
theories/ShutModel.v
theories/ShutSpec.v
theories/ShutProofs.v
theories/ShutProofs2.v
theories/Props_Shut.v
theories/DefaultModel.v
theories/DefaultSpec.v
theories/DefaultProofs.v
theories/DefaultProofs2.v
theories/DefaultProofs3.v
theories/DefaultProofs4.v
theories/DefaultProofs5.v
theories/DefaultProofs6.v
theories/Props_Default.v
theories/RefExclSpec.v
theories/CmRefExcl.v
theories/Props_RefExcl.v
theories/DiagModel.v
theories/DiagSpec.v
theories/DiagProofs.v
theories/DiagProofs2.v
theories/Props_Diag.v
theories/ByNameModel.v
theories/ByNameSpec.v
theories/ByNameProofs.v
theories/ByNameMain.v
theories/Props_ByName.v
theories/FallbackSpec.v
theories/CmFallback2.v
theories/Props_Fallback.v
theories/SpawnModel.v
theories/SpawnSpec.v
theories/SpawnProofs.v
theories/SpawnMain.v
theories/SpawnWhy.v
theories/Props_Spawn.v
theories/ToolsModel.v
theories/ToolsSpec.v
theories/ToolsProofs.v
theories/Props_Tools.v
theories/FilesModel.v
theories/FilesSpec.v
theories/FilesProofs.v
theories/Props_Files.v
theories/Props_Restart.v
