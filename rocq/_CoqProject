-Q theories Verif
theories/PyBase.v
theories/PyBaseFacts.v
theories/PyNum.v
theories/IntervalsModel.v
theories/IntervalsSpec.v
theories/IntervalsProofs.v
theories/IntervalsProps.v
theories/LoopModel.v
theories/LoopSpec.v
theories/LoopProofs.v
theories/LoopProps.v
theories/AstModel.v
theories/AstSpec.v
theories/AstProofs.v
theories/AstProps.v
theories/UnitModel.v
theories/PyNumFacts.v
theories/UnitSpec.v
theories/UnitProofs.v
theories/UnitProps.v
theories/CleanModel.v
theories/CleanSpec.v
theories/CleanProofs.v
theories/CleanProps.v
theories/LockModel.v
theories/LockSpec.v
theories/LockProofs.v
theories/LockProps.v
theories/DeadlockModel.v
theories/DeadlockSpec.v
theories/DeadlockProofs.v
theories/DeadlockProps.v
theories/PyStr.v
theories/ConstModel.v
theories/ConstSpec.v
theories/ConstProofs.v
theories/ConstProps.v
theories/PathModel.v
theories/PathSpec.v
theories/PathProofs.v
theories/PathProps.v
theories/LCModel.v
theories/LCSpec.v
theories/LCProofs.v
theories/LCProps.v
theories/SimModel.v
theories/SimSpec.v
theories/SimProofs.v
theories/SimProps.v
theories/BwModel.v
theories/BwSpec.v
theories/BwProofs.v
theories/BwProps.v
theories/PyText.v
theories/CtrModel.v
theories/CtrSpec.v
theories/CtrProofs.v
theories/CtrProps.v
theories/MachModel.v
theories/MachSpec.v
theories/MachProofs.v
theories/MachProps.v
theories/BenchModel.v
theories/BenchSpec.v
theories/BenchProofs.v
theories/BenchProps.v
theories/PyInt.v
theories/IncModel.v
theories/IncSpec.v
theories/IncProofs.v
theories/IncProps.v
theories/MarkModel.v
theories/MarkSpec.v
theories/MarkProofs.v
theories/MarkProps.v
theories/EcmModel.v
theories/EcmSpec.v
theories/EcmProofs.v
theories/EcmProps.v
theories/RoofModel.v
theories/RoofSpec.v
theories/RoofProofs.v
theories/RoofProps.v
theories/RangeModel.v
theories/RangeSpec.v
theories/RangeProofs.v
theories/RangeProps.v
theories/DefineModel.v
theories/DefineSpec.v
theories/DefineProofs.v
theories/DefineProps.v
theories/PyVal.v
theories/IdentModel.v
theories/IdentSpec.v
theories/IdentProofs.v
theories/IdentProps.v
theories/TileModel.v
theories/TileSpec.v
theories/TileProofs.v
theories/TileProps.v
theories/JsonModel.v
theories/JsonSpec.v
theories/JsonProofs.v
theories/JsonProps.v
theories/MergeModel.v
theories/MergeSpec.v
theories/MergeProofs.v
theories/MergeProps.v
theories/StoreModel.v
theories/StoreSpec.v
theories/StoreProofs.v
theories/StoreProps.v
theories/TraceModel.v
theories/TraceSpec.v
theories/TraceProofs.v
theories/TraceProps.v
theories/FrontModel.v
theories/FrontPoly.v
theories/FrontSpec.v
theories/FrontProofs.v
theories/FrontDistance.v
theories/FrontProps.v
theories/A64Model.v
theories/A64Spec.v
theories/A64Proofs.v
theories/A64Props.v
theories/PyDict.v
theories/PyFloat.v
theories/PerfModel.v
theories/PerfSpec.v
theories/PerfProofs.v
theories/PerfProps.v
theories/GenModel.v
theories/GenSpec.v
theories/GenProofs.v
theories/GenProps.v
theories/ToolModel.v
theories/ToolSpec.v
theories/ToolProofs.v
theories/ToolProps.v
theories/PipeModel.v
theories/PipeSpec.v
theories/PipeProofs.v
theories/PipeProps.v
theories/PyRegex.v
theories/PhenoModel.v
theories/PhenoSpec.v
theories/PhenoProofs.v
theories/PhenoProps.v
theories/TopoModel.v
theories/TopoSpec.v
theories/TopoProofs.v
theories/TopoProps.v
theories/RegionModel.v
theories/RegionSpec.v
theories/RegionProofs.v
theories/RegionProps.v
theories/LifeModel.v
theories/LifeSpec.v
theories/LifeProofs.v
theories/LifeProps.v
theories/ArgsModel.v
theories/ArgsSpec.v
theories/ArgsProofs.v
theories/ArgsProps.v
theories/OmpModel.v
theories/OmpSpec.v
theories/OmpProofs.v
theories/OmpProps.v
theories/LruSpec.v
theories/LruProofs.v
theories/LruLink.v
theories/LruProps.v
theories/CodeModel.v
theories/CodeSpec.v
theories/CodeProofs.v
theories/CodeProps.v
theories/TmplModel.v
theories/TmplSpec.v
theories/TmplProofs.v
theories/TmplProps.v
theories/FlowModel.v
theories/FlowSpec.v
theories/FlowProofs.v
theories/FlowLink.v
theories/FlowProps.v
theories/InitModel.v
theories/InitSpec.v
theories/InitProofs.v
theories/InitProps.v
theories/ReportModel.v
theories/ReportSpec.v
theories/ReportProofs.v
theories/ReportProps.v
theories/CsimModel.v
theories/CsimSpec.v
theories/CsimProofs.v
theories/CsimLink.v
theories/CsimProps.v
theories/DescModel.v
theories/DescSpec.v
theories/DescProofs.v
theories/DescProps.v
theories/IacaModel.v
theories/IacaSpec.v
theories/IacaProofs.v
theories/IacaProps.v
theories/AloneModel.v
theories/AloneSpec.v
theories/AloneProofs.v
theories/AloneProps.v
theories/EvictSpec.v
theories/EvictProofs.v
theories/EvictProps.v
theories/StillSpec.v
theories/StillProofs.v
theories/StillProps.v
theories/HierSpec.v
theories/HierProofs.v
theories/HierLink.v
theories/HierProps.v
theories/HierSimProps.v
theories/InfoModel.v
theories/InfoSpec.v
theories/InfoProofs.v
theories/InfoProps.v
theories/SetsSpec.v
theories/SetsProofs.v
theories/SetsFlow.v
theories/SetsProps.v
theories/VolModel.v
theories/VolSpec.v
theories/VolProofs.v
theories/VolProps.v
theories/SynModel.v
theories/SynSpec.v
theories/SynProofs.v
theories/SynProps.v
theories/CmdModel.v
theories/CmdSpec.v
theories/CmdProofs.v
theories/CmdProps.v
theories/DistModel.v
theories/DistSpec.v
theories/DistProofs.v
theories/DistProps.v
theories/CtxModel.v
theories/CtxSpec.v
theories/CtxProofs.v
theories/CtxProps.v
theories/WrapModel.v
theories/WrapSpec.v
theories/WrapProofs.v
theories/WrapProps.v
theories/DeclModel.v
theories/DeclSpec.v
theories/DeclProofs.v
theories/DeclProps.v
