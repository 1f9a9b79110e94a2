-Q theories Verif
theories/Base.v
theories/StdOrd.v
theories/LruModel.v
theories/LruSpec.v
theories/LruProofs.v
theories/LruFailSpec.v
theories/LruFailProofs.v
theories/LruProps.v
theories/LruPerfSpec.v
theories/LruPerfProofs.v
theories/LruTightProofs.v
theories/LruPerfProps.v
theories/ListModel.v
theories/ListSpec.v
theories/ListProofs.v
theories/ListProps.v
theories/SetModel.v
theories/SetSpec.v
theories/SetProofs.v
theories/SetProps.v
theories/MapModel.v
theories/MapSpec.v
theories/MapProofs.v
theories/MapProps.v
theories/StreamModel.v
theories/StlioModel.v
theories/StlioSpec.v
theories/StlioProofs.v
theories/StlioProps.v
theories/WordModel.v
theories/WordSpec.v
theories/WordProofs.v
theories/WordProps.v
theories/RangeModel.v
theories/RangeSpec.v
theories/RangeProofs.v
theories/RangeProps.v
theories/IterModel.v
theories/IterSpec.v
theories/IterProofs.v
theories/IterProps.v
theories/VariantModel.v
theories/VariantProofs.v
theories/VariantProps.v
theories/HandleModel.v
theories/HandleSpec.v
theories/HandleProofs.v
theories/HandleProps.v
theories/LazyModel.v
theories/LazySpec.v
theories/LazyProofs.v
theories/LazyProps.v
theories/LazyThreadModel.v
theories/LazyThreadSpec.v
theories/LazyThreadProofs.v
theories/LazyThreadProps.v
theories/LazyDepsModel.v
theories/LazyDepsSpec.v
theories/LazyDepsProofs.v
theories/LazyDepsProps.v
theories/FloatProofs.v
theories/StopwatchModel.v
theories/StopwatchSpec.v
theories/StopwatchProofs.v
theories/StopwatchProps.v
theories/RandomModel.v
theories/RandomSpec.v
theories/RandomProofs.v
theories/RandomProps.v
theories/MacroModel.v
theories/MacroSpec.v
theories/MacroProofs.v
theories/MacroReport.v
theories/MacroProps.v
theories/TestModel.v
theories/TestSpec.v
theories/TestProofs.v
theories/TestEval.v
theories/TestConstruct.v
theories/TestProps.v
theories/LogSpec.v
theories/LogProofs.v
theories/LogBlocks.v
theories/LogProps.v
theories/TupleModel.v
theories/TupleSpec.v
theories/TupleProofs.v
theories/TupleProps.v
theories/TraceModel.v
theories/TraceSpec.v
theories/TraceProofs.v
theories/TraceProps.v
theories/ArrayModel.v
theories/ArraySpec.v
theories/ArrayProofs.v
theories/ArrayStep.v
theories/ArrayThms.v
theories/ArrayComplement.v
theories/ArrayPrograms.v
theories/ArrayProps.v
theories/SharedModel.v
theories/SharedSpec.v
theories/SharedProofs.v
theories/SharedProps.v
theories/WriterModel.v
theories/WriterSpec.v
theories/WriterProofs.v
theories/WriterProps.v
theories/CleanModel.v
theories/CleanSpec.v
theories/CleanProofs.v
theories/CleanProps.v
theories/ThreadModel.v
theories/ThreadSpec.v
theories/ThreadProofs.v
theories/ThreadLogic.v
theories/ThreadMain.v
theories/ThreadProps.v
theories/KeysModel.v
theories/KeysSpec.v
theories/KeysProofs.v
theories/KeysProps.v
theories/FailModel.v
theories/FailSpec.v
theories/FailProofs.v
theories/FailProps.v
theories/SyncModel.v
theories/SyncSpec.v
theories/SyncProofs.v
theories/SyncProps.v
theories/LruSyncModel.v
theories/LruSyncSpec.v
theories/LruSyncProofs.v
theories/LruSyncProps.v
theories/RandomUnitsModel.v
theories/RandomUnitsSpec.v
theories/RandomUnitsProofs.v
theories/RandomUnitsProps.v
theories/MaskModel.v
theories/MaskSpec.v
theories/MaskProofs.v
theories/MaskProps.v
theories/OutModel.v
theories/OutSpec.v
theories/OutProofs.v
theories/OutProps.v
theories/OwnModel.v
theories/OwnSpec.v
theories/OwnProofs.v
theories/OwnProps.v
theories/MetaModel.v
theories/MetaSpec.v
theories/MetaProofs.v
theories/MetaProps.v
theories/StringModel.v
theories/StringSpec.v
theories/StringProofs.v
theories/StringProps.v
theories/HandleMakeModel.v
theories/HandleMakeSpec.v
theories/HandleMakeProofs.v
theories/HandleMakeProps.v
theories/SharedSyncModel.v
theories/SharedSyncSpec.v
theories/ApartProofs.v
theories/SharedSyncProofs.v
theories/SharedSyncProps.v
theories/GroupModel.v
theories/GroupSpec.v
theories/GroupProofs.v
theories/GroupProps.v
theories/LruRecSpec.v
theories/LruRecProofs.v
theories/LruRecProps.v
theories/OverModel.v
theories/OverSpec.v
theories/OverProofs.v
theories/OverProps.v
theories/VisitModel.v
theories/VisitProofs.v
theories/VisitProps.v
theories/MakeModel.v
theories/MakeProofs.v
theories/MakeProps.v
theories/PrintModel.v
theories/PrintSpec.v
theories/PrintProofs.v
theories/PrintProps.v
theories/UsingModel.v
theories/UsingProofs.v
theories/UsingProps.v
theories/WordAppendModel.v
theories/WordAppendSpec.v
theories/WordAppendProofs.v
theories/WordAppendProps.v
theories/LruRefModel.v
theories/LruRefSpec.v
theories/LruRefProofs.v
theories/LruRefProps.v
theories/AlgoModel.v
theories/AlgoSpec.v
theories/AlgoProofs.v
theories/AlgoProps.v
theories/TreeModel.v
theories/TreeSpec.v
theories/TreeProofs.v
theories/TreeProps.v
theories/FillModel.v
theories/FillProofs.v
theories/FillProps.v
theories/CallModel.v
theories/CallSpec.v
theories/CallProofs.v
theories/CallProps.v
theories/BraceModel.v
theories/BraceSpec.v
theories/BraceProofs.v
theories/BraceProps.v
theories/DelimSpec.v
theories/DelimProofs.v
theories/DelimProps.v
theories/CastModel.v
theories/CastProofs.v
theories/CastProps.v
theories/TraceMemModel.v
theories/TraceMemSpec.v
theories/TraceMemProofs.v
theories/TraceMemProps.v
theories/UnitsModel.v
theories/UnitsSpec.v
theories/UnitsProofs.v
theories/UnitsProps.v
theories/TupleMoreModel.v
theories/TupleMoreSpec.v
theories/TupleMoreProofs.v
theories/TupleMoreProps.v
theories/ArgsModel.v
theories/ArgsSpec.v
theories/ArgsProofs.v
theories/ArgsProps.v
theories/PlaceModel.v
theories/PlaceSpec.v
theories/PlaceProofs.v
theories/PlaceProps.v
theories/NamedModel.v
theories/NamedSpec.v
theories/NamedProofs.v
theories/NamedProps.v
theories/WordCompareModel.v
theories/WordCompareSpec.v
theories/WordCompareProofs.v
theories/WordCompareProps.v
theories/CalleeModel.v
theories/CalleeSpec.v
theories/CalleeProofs.v
theories/CalleeProps.v
theories/AlignModel.v
theories/AlignSpec.v
theories/AlignProofs.v
theories/AlignProps.v
theories/ResultModel.v
theories/ResultSpec.v
theories/ResultProofs.v
theories/ResultProps.v
theories/WatchMoreModel.v
theories/WatchMoreSpec.v
theories/WatchMoreProofs.v
theories/WatchMoreProps.v
theories/ConvModel.v
theories/ConvSpec.v
theories/ConvProofs.v
theories/ConvProps.v
theories/ReportModel.v
theories/ReportSpec.v
theories/ReportProofs.v
theories/ReportProps.v
theories/ArrListModel.v
theories/ArrListSpec.v
theories/ArrListProofs.v
theories/ArrListProps.v
theories/InitModel.v
theories/InitSpec.v
theories/InitProofs.v
theories/InitProps.v
theories/FreeModel.v
theories/FreeProofs.v
theories/FreeProps.v
theories/LiftModel.v
theories/LiftSpec.v
theories/LiftProofs.v
theories/LiftProps.v
theories/RangeAlgoModel.v
theories/RangeAlgoSpec.v
theories/RangeAlgoProofs.v
theories/RangeAlgoProps.v
theories/ArrayRefSpec.v
theories/ArrayRefProofs.v
theories/ArrayRefProps.v
theories/LruLifeModel.v
theories/LruLifeSpec.v
theories/LruLifeProofs.v
theories/LruLifeProps.v
theories/MixModel.v
theories/MixSpec.v
theories/MixProofs.v
theories/MixProps.v
theories/ArithModel.v
theories/ArithSpec.v
theories/ArithProofs.v
theories/ArithProps.v
theories/CanModel.v
theories/CanSpec.v
theories/CanProofs.v
theories/CanProps.v
theories/StrAssignModel.v
theories/StrAssignProofs.v
theories/StrAssignProps.v
theories/UniqueSpec.v
theories/UniqueProofs.v
theories/UniqueProps.v
theories/LruRoomSpec.v
theories/LruRoomProofs.v
theories/LruRoomProps.v
theories/WordTreeProofs.v
theories/WordTreeProps.v
theories/NumeralSpec.v
theories/NumeralProofs.v
theories/NumeralProps.v
theories/ExprSpec.v
theories/ExprProofs.v
theories/ExprProps.v
theories/RevModel.v
theories/RevProofs.v
theories/RevProps.v
theories/LinkModel.v
theories/LinkSpec.v
theories/LinkProofs.v
theories/LinkProps.v
theories/ImageModel.v
theories/ImageSpec.v
theories/ImageProofs.v
theories/ImageProps.v
theories/DerefModel.v
theories/DerefProofs.v
theories/DerefProps.v
theories/AssignModel.v
theories/AssignSpec.v
theories/AssignProofs.v
theories/AssignProps.v
theories/FpioModel.v
theories/FpioSpec.v
theories/FpioProofs.v
theories/FpioProps.v
theories/NumStrModel.v
theories/NumStrSpec.v
theories/NumStrProofs.v
theories/NumStrProps.v
theories/SetKeepSpec.v
theories/SetKeepProofs.v
theories/SetKeepProps.v
theories/PairTextModel.v
theories/PairTextSpec.v
theories/PairTextProofs.v
theories/PairTextProps.v
