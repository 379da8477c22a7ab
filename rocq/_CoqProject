-Q theories Verif
theories/GoBase.v
theories/GoBaseFacts.v
theories/NameModel.v
theories/NameSpec.v
theories/NameProofs.v
theories/NameProps.v
theories/TreeModel.v
theories/TreeSpec.v
theories/TreeProofs.v
theories/TreeProps.v
theories/CatalogModel.v
theories/CatalogSpec.v
theories/CatalogProofs.v
theories/CatalogProps.v
theories/PersistModel.v
theories/PersistSpec.v
theories/PersistProofs.v
theories/PersistProps.v
theories/ScriptModel.v
theories/ScriptSpec.v
theories/ScriptProofs.v
theories/ScriptProps.v
theories/TxModel.v
theories/TxSpec.v
theories/TxProofs.v
theories/TxProps.v
theories/ParamModel.v
theories/ParamSpec.v
theories/ParamProofs.v
theories/ParamProps.v
theories/UdfModel.v
theories/UdfSpec.v
theories/UdfProofs.v
theories/UdfProps.v
theories/MergeModel.v
theories/MergeSpec.v
theories/MergeProofs.v
theories/MergeProps.v
theories/CalendarModel.v
theories/CalendarFacts.v
theories/DateModel.v
theories/DateSpec.v
theories/DateProofs.v
theories/DateProps.v
theories/ValueModel.v
theories/ValueFacts.v
theories/CompareSpec.v
theories/CompareProofs.v
theories/CompareProps.v
theories/FloatFacts.v
theories/IntModel.v
theories/IntProofs.v
theories/IntProps.v
theories/LogicModel.v
theories/LogicSpec.v
theories/LogicProofs.v
theories/LogicProps.v
theories/BitsModel.v
theories/BitsSpec.v
theories/BitsProofs.v
theories/BitsProps.v
theories/ExtremeModel.v
theories/ExtremeProofs.v
theories/ExtremeProps.v
theories/ArrayFnModel.v
theories/ArrayFnSpec.v
theories/ArrayFnProofs.v
theories/ArrayFnProps.v
theories/DecModel.v
theories/DecFacts.v
theories/CastModel.v
theories/CastSpec.v
theories/CastProofs.v
theories/CastProps.v
theories/NumericModel.v
theories/NumericProofs.v
theories/NumericProps.v
theories/InstantModel.v
theories/InstantFacts.v
theories/TimeTextModel.v
theories/TimeTextSpec.v
theories/TimeTextProofs.v
theories/TimeTextProps.v
theories/Utf8Model.v
theories/Utf8Facts.v
theories/StrModel.v
theories/StrSpec.v
theories/StrProofs.v
theories/StrProps.v
theories/EncModel.v
theories/EncProofs.v
theories/EncProps.v
theories/ClockTextModel.v
theories/ClockTextSpec.v
theories/ClockTextProofs.v
theories/ClockTextProps.v
theories/CodecModel.v
theories/CodecSpec.v
theories/CodecProofs.v
theories/CodecProps.v
theories/TrimModel.v
theories/TrimSpec.v
theories/TrimProps.v
theories/RegisterModel.v
theories/RegisterProps.v
theories/LikeModel.v
theories/LikeSpec.v
theories/LikeProps.v
theories/NetModel.v
theories/NetProps.v
theories/AggModel.v
theories/AggSpec.v
theories/AggProofs.v
theories/AggProps.v
theories/WindowModel.v
theories/WindowSpec.v
theories/WindowProofs.v
theories/WindowProps.v
theories/CreateProofs.v
theories/CreateProps.v
theories/PartModel.v
theories/PartSpec.v
theories/PartProofs.v
theories/PartProps.v
theories/ZoneModel.v
theories/ZoneSpec.v
theories/ZoneProofs.v
theories/ZoneProps.v
theories/IntervalModel.v
theories/IntervalSpec.v
theories/IntervalProofs.v
theories/IntervalProps.v
theories/GroupModel.v
theories/GroupSpec.v
theories/GroupProofs.v
theories/GroupProps.v
theories/WildModel.v
theories/WildSpec.v
theories/WildProofs.v
theories/WildProps.v
theories/QueryModel.v
theories/QuerySpec.v
theories/QueryProofs.v
theories/QueryProps.v
theories/TimeFmtModel.v
theories/TimeFmtSpec.v
theories/TimeFmtProofs.v
theories/TimeFmtProps.v
theories/FormatModel.v
theories/FormatSpec.v
theories/FormatProofs.v
theories/FormatProps.v
theories/ScanModel.v
theories/ScanSpec.v
theories/ScanProofs.v
theories/ScanProps.v
theories/JsonModel.v
theories/JsonSpec.v
theories/JsonProofs.v
theories/JsonProps.v
theories/JsonDocSpec.v
theories/AcceptSpec.v
theories/AcceptProofs.v
theories/AcceptProps.v
theories/RowsModel.v
theories/RowsSpec.v
theories/RowsProofs.v
theories/RowsProps.v
theories/ConvertModel.v
theories/ConvertSpec.v
theories/ConvertProofs.v
theories/ConvertProps.v
theories/CrashModel.v
theories/CrashSpec.v
theories/CrashProofs.v
theories/CrashProps.v
theories/RegexModel.v
theories/RegexSpec.v
theories/RegexProofs.v
theories/RegexProps.v
theories/NowModel.v
theories/NowSpec.v
theories/NowProofs.v
theories/NowProps.v
theories/RaceModel.v
theories/RaceSpec.v
theories/RaceProofs.v
theories/RaceProps.v
theories/PrepModel.v
theories/PrepSpec.v
theories/PrepProofs.v
theories/PrepProps.v
theories/DmlModel.v
theories/DmlSpec.v
theories/DmlProofs.v
theories/DmlProps.v
theories/WinAggModel.v
theories/WinAggSpec.v
theories/WinAggProofs.v
theories/WinAggProps.v
theories/JsModel.v
theories/JsSpec.v
theories/JsProofs.v
theories/JsProps.v
theories/TsArrayModel.v
theories/TsArraySpec.v
theories/TsArrayProofs.v
theories/TsArrayProps.v
theories/WithModel.v
theories/WithSpec.v
theories/WithProofs.v
theories/WithProps.v
theories/ApproxModel.v
theories/ApproxSpec.v
theories/ApproxProofs.v
theories/ApproxProps.v
theories/MathModel.v
theories/MathSpec.v
theories/MathProofs.v
theories/MathProps.v
theories/MiscModel.v
theories/MiscSpec.v
theories/MiscProofs.v
theories/MiscProps.v
theories/TextModel.v
theories/TextSpec.v
theories/TextProofs.v
theories/TextProps.v
theories/GapModel.v
theories/GapSpec.v
theories/GapProofs.v
theories/GapProps.v
theories/ClauseModel.v
theories/ClauseSpec.v
theories/ClauseProofs.v
theories/ClauseProps.v
theories/WinStatModel.v
theories/WinStatSpec.v
theories/WinStatProofs.v
theories/WinStatProps.v
theories/TmplModel.v
theories/TmplSpec.v
theories/TmplProofs.v
theories/TmplProps.v
theories/ConcatModel.v
theories/ConcatSpec.v
theories/ConcatProofs.v
theories/ConcatProps.v
theories/ViewModel.v
theories/ViewSpec.v
theories/ViewProofs.v
theories/ViewProps.v
theories/NestModel.v
theories/NestSpec.v
theories/NestProofs.v
theories/NestProps.v
theories/CtasModel.v
theories/CtasSpec.v
theories/CtasProofs.v
theories/CtasProps.v
theories/SpecTextModel.v
theories/SpecTextSpec.v
theories/SpecTextProofs.v
theories/SpecTextProps.v
theories/ArrSubModel.v
theories/ArrSubSpec.v
theories/ArrSubProofs.v
theories/ArrSubProps.v
theories/OverModel.v
theories/OverSpec.v
theories/OverProofs.v
theories/OverProps.v
theories/TyTextSpec.v
theories/TyTextProofs.v
theories/TyTextProps.v
