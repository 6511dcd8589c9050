-Q theories Verif
theories/Base.v
theories/DecompModel.v
theories/DecompSpec.v
theories/DecompProofs.v
theories/DecompProperties.v
theories/NumEncModel.v
theories/NumEncSpec.v
theories/CharEncModel.v
theories/LayoutModel.v
theories/CharEncProofs.v
theories/LayoutProofs.v
theories/LayoutProperties.v
theories/CharEncProperties.v
theories/NumEncProofs.v
theories/NumEncProperties.v
theories/DataIOModel.v
theories/DataIOProperties.v
theories/DataIOProofs.v
theories/DoubleModel.v
theories/RuleModel.v
theories/RuleProofs.v
theories/RuleProperties.v
theories/ParamModel.v
theories/ParamProofs.v
theories/HeaderProofs.v
theories/ScalarProofs.v
theories/ParamProperties.v
theories/FileSpec.v
theories/FileModel.v
theories/FileProofs.v
theories/WriteSpec.v
theories/WriteProofs.v
theories/FileProperties.v
theories/ReadProofs.v
theories/OpenProofs.v
theories/TraceProperties.v
theories/MetaProperties.v
theories/OrderProperties.v
theories/CrashProperties.v
theories/SortSpec.v
theories/CompProofs.v
theories/SortModel.v
theories/SortProofs.v
theories/SortProperties.v
theories/CommModel.v
theories/CommProperties.v
theories/MinMaxModel.v
theories/MinMaxProofs.v
theories/MinMaxProperties.v
theories/GatherModel.v
theories/GatherProofs.v
theories/GatherProperties.v
theories/FlowModel.v
theories/FlowProofs.v
theories/FlowProperties.v
theories/FloatModel.v
theories/SignalModel.v
theories/FloatProofs.v
theories/SignalSpec.v
theories/SignalProofs.v
theories/SignalProperties.v
theories/GainProperties.v
theories/UtilModel.v
theories/UtilSpec.v
theories/RepModel.v
theories/UtilProperties.v
theories/RepProperties.v
theories/StdProperties.v
theories/RepSmallProperties.v
theories/FourDModel.v
theories/FourDSpec.v
theories/FourDProofs.v
theories/FourDProperties.v
theories/FourDEdgeProperties.v
theories/ToolModel.v
theories/ToolProperties.v
theories/ExtentProperties.v
theories/ReduceProperties.v
theories/FilterModel.v
theories/FilterSpec.v
theories/FilterProofs.v
theories/FilterAlgebra.v
theories/FilterExact.v
theories/FilterProperties.v
theories/FilterRunProperties.v
theories/FourDLineProperties.v
theories/QueryModel.v
theories/QueryProperties.v
theories/CacheModel.v
theories/CacheProperties.v
theories/AngleModel.v
theories/AngleProperties.v
theories/DecimalProofs.v
theories/DecimalSpec.v
theories/DecimalProperties.v
theories/KmlModel.v
theories/KmlSpec.v
theories/KmlProperties.v
theories/ExampleModel.v
theories/CopySpec.v
theories/CopyProofs.v
theories/ExampleProofs.v
theories/CopyProperties.v
theories/CopyCaseProperties.v
theories/SetFileModel.v
theories/SetFileSpec.v
theories/SetFileProofs.v
theories/SetOutProofs.v
theories/SetFileProperties.v
theories/SetSortModel.v
theories/SetSortSpec.v
theories/SetSortProofs.v
theories/SetSortProperties.v
theories/SetOpsModel.v
theories/SetOpsSpec.v
theories/SetOpsProofs.v
theories/SetOpsProperties.v
theories/EdgeProperties.v
theories/MemoryModel.v
theories/MemoryProperties.v
theories/CreateModel.v
theories/CreateSpec.v
theories/PieceProofs.v
theories/CreateProofs.v
theories/CreateProperties.v
theories/ModModel.v
theories/ModSpec.v
theories/ModProofs.v
theories/ModOptProofs.v
theories/ModProperties.v
theories/OwnModel.v
theories/OwnSpec.v
theories/OwnProperties.v
theories/CreateCModel.v
theories/CreateCSpec.v
theories/CreateCProofs.v
theories/CreateCProperties.v
theories/OwnProofs.v
theories/ExTwoModel.v
theories/ExTwoProperties.v
theories/ExOneModel.v
theories/ExOneProofs.v
theories/ExOneProperties.v
theories/VerifyModel.v
theories/VerifyProofs.v
theories/VerifyProperties.v
theories/ResortProofs.v
theories/ResortProperties.v
theories/ExtremeSpec.v
theories/ExtremeModel.v
theories/ExtremeProofs.v
theories/ExtremeRows.v
theories/ExtremeProperties.v
theories/MultiSortSpec.v
theories/MultiSortProofs.v
theories/MultiSortProperties.v
theories/MultiRankProofs.v
theories/MultiRankProperties.v
theories/SetExtremeModel.v
theories/SetExtremeSpec.v
theories/SetExtremeProofs.v
theories/SetExtremeProperties.v
theories/SetOrderProofs.v
theories/SixteenthProofs.v
theories/SetLeadProperties.v
theories/AssessModel.v
theories/AssessSpec.v
theories/AssessProofs.v
theories/AssessProperties.v
theories/AnalysisModel.v
theories/AnalysisSpec.v
theories/AnalysisProofs.v
theories/AnalysisProperties.v
theories/FlushProperties.v
theories/MadeProperties.v
