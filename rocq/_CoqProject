-Q theories Verif
theories/Base.v
theories/BaseFacts.v
theories/AlignedModel.v
theories/AlignedFacts.v
theories/HeapModel.v
theories/HeapFacts.v
theories/QuickPoolModel.v
theories/QuickPoolInv.v
theories/QuickPoolFacts.v
theories/QuickPoolOps.v
theories/QuickPoolFree.v
theories/QuickPoolMain.v
theories/QuickPoolSpec.v
theories/QuickPoolThms.v
theories/QuickPoolThms2.v
theories/QuickPoolThms3.v
theories/QuickPoolRun.v
theories/QuickPoolThms4.v
theories/Props_QuickPool.v
theories/StratModel.v
theories/StratFacts.v
theories/WrapModel.v
theories/WrapFacts.v
theories/LeafFacts.v
theories/QuickPoolStrat.v
theories/QuickPoolStratFacts.v
theories/DynPoolModel.v
theories/DynPoolInv.v
theories/DynPoolFacts.v
theories/DynPoolOps.v
theories/DynPoolFree.v
theories/DynPoolMain.v
theories/DynPoolView.v
theories/DynPoolStratFacts.v
theories/FixedPoolModel.v
theories/FixedPoolFacts.v
theories/MixedPoolModel.v
theories/MixedPoolFacts.v
theories/DynPoolSpec.v
theories/DynPoolThms.v
theories/DynPoolRun.v
theories/Props_DynPool.v
theories/GlobalModel.v
theories/GlobalSpec.v
theories/GlobalFacts.v
theories/StratSpec.v
theories/StratThms.v
theories/FixedPoolThms.v
theories/MixedPoolSpec.v
theories/MixedPoolThms.v
theories/StratRun.v
theories/FixedMallocPoolModel.v
theories/FixedMallocPoolFacts.v
theories/FixedMallocPoolRun.v
theories/Props_Pools.v
theories/NamingModel.v
theories/NamingSpec.v
theories/NamingFacts.v
theories/GlobalRun.v
theories/GlobalIdle.v
theories/Props_Strategies.v
theories/Props_Mixed.v
theories/MapModel.v
theories/MapSpec.v
theories/MapFacts.v
theories/MapThms.v
theories/AllocMapThms.v
theories/JudyModel.v
theories/JudyFacts.v
theories/JudyUpdate.v
theories/MapRun.v
theories/MapMain.v
theories/Props_Map.v
theories/GlobalFrame.v
theories/SystemModel.v
theories/OpsModel.v
theories/SystemSpec.v
theories/SystemFacts.v
theories/SystemMain.v
theories/SystemThms.v
theories/OpsSpec.v
theories/OpsFacts.v
theories/OpsThms.v
theories/SystemRun.v
theories/OpsRun.v
theories/Props_System.v
theories/Props_Ops.v
theories/RegistryModel.v
theories/RegistrySpec.v
theories/RegistryFacts.v
theories/RegistryThms.v
theories/RegistryRun.v
theories/Props_Registry.v
theories/SegModel.v
theories/SegSpec.v
theories/SegFacts.v
theories/SegInv.v
theories/SegOps.v
theories/SegFree.v
theories/SegMain.v
theories/SegRun.v
theories/Props_Seg.v
theories/MiscModel.v
theories/MiscFacts.v
theories/DeviceModel.v
theories/DeviceSpec.v
theories/DeviceFacts.v
theories/FileModel.v
theories/FileSpec.v
theories/FileFacts.v
theories/Props_Misc.v
theories/Props_Device.v
theories/Props_File.v
theories/ConcModel.v
theories/ConcSpec.v
theories/ConcFacts.v
theories/ConcMain.v
theories/Props_Conc.v
theories/BlockPoolModel.v
theories/BlockPoolFacts.v
theories/BlockPoolRun.v
theories/Props_BlockPool.v
theories/OpTableModel.v
theories/OpTableSpec.v
theories/OpTableFacts.v
theories/Props_OpTable.v
theories/LooseSpec.v
theories/LooseFacts.v
theories/LooseRun.v
theories/TeardownModel.v
theories/TeardownSpec.v
theories/TeardownFacts.v
theories/Props_Loose.v
theories/Props_Teardown.v
theories/CatalogModel.v
theories/CatalogSpec.v
theories/CatalogFacts.v
theories/CatalogIds.v
theories/Props_Catalog.v
theories/GpuModel.v
theories/GpuSpec.v
theories/GpuFacts.v
theories/Props_Gpu.v
theories/ConstModel.v
theories/ConstSpec.v
theories/ConstFacts.v
theories/Props_Const.v
theories/NullModel.v
theories/NullSpec.v
theories/NullFacts.v
theories/Props_Null.v
theories/ReplayModel.v
theories/ReplaySpec.v
theories/ReplayFacts.v
theories/Props_Replay.v
theories/AsyncModel.v
theories/AsyncSpec.v
theories/AsyncFacts.v
theories/Props_Async.v
theories/LogModel.v
theories/LogSpec.v
theories/LogFacts.v
theories/Props_Log.v
theories/PlaceModel.v
theories/PlaceSpec.v
theories/PlaceFacts.v
theories/Props_Place.v
theories/SanModel.v
theories/SanSpec.v
theories/SanFacts.v
theories/SanQuick.v
theories/SanDyn.v
theories/SanErase.v
theories/SanInst.v
theories/Props_San.v
theories/CfModel.v
theories/CfSpec.v
theories/CfFacts.v
theories/Props_Cf.v
theories/VendModel.v
theories/VendSpec.v
theories/VendFacts.v
theories/Props_Vend.v
theories/JsonModel.v
theories/StoreModel.v
theories/JsonSpec.v
theories/Utf8Facts.v
theories/JsonFacts.v
theories/ParseFacts.v
theories/StoreFacts.v
theories/TornFacts.v
theories/Props_Json.v
theories/TraceModel.v
theories/TraceFacts.v
theories/Props_Trace.v
theories/DiffModel.v
theories/DiffSpec.v
theories/DiffFacts.v
theories/Props_Diff.v
theories/SqlModel.v
theories/SqlSpec.v
theories/SqlFacts.v
theories/Props_Sql.v
theories/IsoSpec.v
theories/ParamFacts.v
theories/IsoFacts.v
theories/Props_Iso.v
theories/RaceModel.v
theories/RaceSpec.v
theories/RaceFacts.v
theories/RaceWitness.v
theories/Props_Race.v
theories/ShmModel.v
theories/ShmSpec.v
theories/ShmFacts.v
theories/Props_Shm.v
theories/BtModel.v
theories/BtSpec.v
theories/BtFacts.v
theories/Props_Bt.v
theories/MpiModel.v
theories/MpiSpec.v
theories/MpiFacts.v
theories/Props_Mpi.v
theories/UseModel.v
theories/UseSpec.v
theories/UseFacts.v
theories/Props_Use.v
theories/ToolModel.v
theories/ToolSpec.v
theories/ToolFacts.v
theories/Props_Tool.v
theories/PrintModel.v
theories/PrintSpec.v
theories/PrintFacts.v
theories/Props_Print.v
theories/TraitsModel.v
theories/TraitsSpec.v
theories/TraitsFacts.v
theories/Props_Traits.v
theories/PercentModel.v
theories/PercentSpec.v
theories/PercentFacts.v
theories/Props_Percent.v
theories/TreeModel.v
theories/TreeSpec.v
theories/TreeFacts.v
theories/Props_Tree.v
theories/PlotModel.v
theories/PlotSpec.v
theories/PlotFacts.v
theories/Props_Plot.v
theories/ExtModel.v
theories/ExtSpec.v
theories/ExtFacts.v
theories/ExtRun.v
theories/Props_Ext.v
theories/IdSpec.v
theories/IdFacts.v
theories/Props_Id.v
theories/MirrorModel.v
theories/MirrorSpec.v
theories/MirrorFacts.v
theories/MirrorRun.v
theories/Props_Mirror.v
theories/SummaryModel.v
theories/SummarySpec.v
theories/SummaryFacts.v
theories/Props_Summary.v
theories/ThreadLogModel.v
theories/ThreadLogSpec.v
theories/ThreadLogFacts.v
theories/Props_ThreadLog.v
theories/ForkModel.v
theories/ForkSpec.v
theories/ForkFacts.v
theories/ForkRun.v
theories/Props_Fork.v
theories/LexSpec.v
theories/LexFacts.v
theories/GrammarSpec.v
theories/GrammarFacts.v
theories/Props_Grammar.v
