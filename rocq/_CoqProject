-Q theories Verif
theories/Common.v
theories/ListAux.v
theories/Base64Model.v
theories/Base64Spec.v
theories/Base64Proofs.v
theories/Base64Props.v
theories/MD5Model.v
theories/MD5Spec.v
theories/MD5Proofs.v
theories/MD5Props.v
theories/IntToStrModel.v
theories/IntToStrSpec.v
theories/IntToStrProofs.v
theories/IntToStrProps.v
theories/ObfModel.v
theories/ObfSpec.v
theories/ObfProofs.v
theories/ObfProps.v
theories/LevModel.v
theories/LevSpec.v
theories/LevProofs.v
theories/LevProps.v
theories/StrModel.v
theories/StrSpec.v
theories/StrProofs.v
theories/StrProps.v
theories/ContModel.v
theories/ContProofs.v
theories/ContProps.v
theories/CInt.v
theories/MathModel.v
theories/MathSpec.v
theories/MathProofs.v
theories/MathProps.v
theories/VecModel.v
theories/VecSpec.v
theories/VecProofs.v
theories/VecProps.v
theories/BimapModel.v
theories/BimapSpec.v
theories/BimapProofs.v
theories/BimapProps.v
theories/MemModel.v
theories/MemSpec.v
theories/MemProofs.v
theories/MemHeapProofs.v
theories/MemRunProofs.v
theories/MemProps.v
theories/TickerModel.v
theories/TickerSpec.v
theories/TickerProofs.v
theories/TickerProps.v
theories/TimelineModel.v
theories/TimelineSpec.v
theories/TimelineProofs.v
theories/TimelineProps.v
theories/TimelineMgrModel.v
theories/TimelineMgrSpec.v
theories/TimelineMgrProofs.v
theories/TimelineMgrProps.v
theories/CmdModel.v
theories/CmdSpec.v
theories/CmdProofs.v
theories/CmdProps.v
theories/JsonNumModel.v
theories/JsonModel.v
theories/JsonSpec.v
theories/JsonNumProofs.v
theories/JsonExactProofs.v
theories/JsonProofs.v
theories/JsonReadProofs.v
theories/JsonTextProofs.v
theories/JsonWriteProofs.v
theories/JsonSafeProofs.v
theories/JsonObjProofs.v
theories/JsonProps.v
theories/JsonCnvModel.v
theories/JsonCnvSpec.v
theories/JsonCnvProofs.v
theories/JsonCnvTextProofs.v
theories/JsonCnvProps.v
theories/JsonSlotModel.v
theories/JsonSlotSpec.v
theories/JsonSlotProofs.v
theories/JsonSlotProps.v
theories/TplModel.v
theories/TplSpec.v
theories/TplProofs.v
theories/TplExpandProofs.v
theories/TplLoopProofs.v
theories/TplProps.v
theories/PathModel.v
theories/PathSpec.v
theories/PathProofs.v
theories/ScanProofs.v
theories/PathProps.v
theories/EaseModel.v
theories/EaseSpec.v
theories/EaseProofs.v
theories/EaseProps.v
theories/MplModel.v
theories/MplSpec.v
theories/MplProofs.v
theories/MplProps.v
theories/TupModel.v
theories/TupSpec.v
theories/TupProofs.v
theories/TupProps.v
theories/StrfModel.v
theories/StrfSpec.v
theories/StrfProofs.v
theories/StrfProps.v
theories/LogModel.v
theories/LogSpec.v
theories/LogProofs.v
theories/LogProps.v
theories/BenchModel.v
theories/RoundProofs.v
theories/BenchSpec.v
theories/BenchProofs.v
theories/BenchProps.v
theories/UnionModel.v
theories/UnionSpec.v
theories/UnionProofs.v
theories/UnionProps.v
theories/EnumModel.v
theories/EnumSpec.v
theories/EnumProofs.v
theories/EnumProps.v
theories/PcgModel.v
theories/PcgSpec.v
theories/PcgProofs.v
theories/PcgTopProofs.v
theories/PcgOutProofs.v
theories/PcgShufProofs.v
theories/PcgProps.v
theories/RndModel.v
theories/RndSpec.v
theories/RndProofs.v
theories/RndProps.v
theories/RangeModel.v
theories/RangeSpec.v
theories/RangeProofs.v
theories/RangeProps.v
theories/JsonAccModel.v
theories/JsonAccSpec.v
theories/JsonAccProofs.v
theories/JsonAccProps.v
theories/U128Model.v
theories/U128Spec.v
theories/U128Proofs.v
theories/U128Props.v
theories/MD5SineSpec.v
theories/MD5Sine.v
theories/PermModel.v
theories/PermSpec.v
theories/PermProofs.v
theories/PermTopProofs.v
theories/PermProps.v
theories/EaseRModel.v
theories/EaseRSpec.v
theories/EaseRProofs.v
theories/EaseRProps.v
theories/Round32Proofs.v
theories/CastModel.v
theories/CastSpec.v
theories/CastProofs.v
theories/Cast32Proofs.v
theories/CastProps.v
theories/ExtModel.v
theories/ExtSpec.v
theories/ExtCycleProofs.v
theories/ExtProofs.v
theories/ExtDrawProofs.v
theories/ExtPeriodProofs.v
theories/ExtKdProofs.v
theories/ExtJumpProofs.v
theories/ExtTopProofs.v
theories/ExtBackProofs.v
theories/ExtNamedProofs.v
theories/ExtProps.v
theories/RealSpec.v
theories/RealProofs.v
theories/RealTextProofs.v
theories/RealProps.v
theories/PcgIoModel.v
theories/PcgIoSpec.v
theories/PcgIoProofs.v
theories/PcgIoBigProofs.v
theories/PcgIoTextProofs.v
theories/PcgIoHexProofs.v
theories/PcgIoAllProofs.v
theories/PcgIoProps.v
theories/SeedModel.v
theories/SeedSpec.v
theories/SeedProofs.v
theories/SeedEngProofs.v
theories/SeedTopProofs.v
theories/EqModel.v
theories/EqSpec.v
theories/EqProofs.v
theories/SeedProps.v
theories/EqProps.v
theories/GrowModel.v
theories/GrowSpec.v
theories/GrowProofs.v
theories/GrowBadProofs.v
theories/GrowProps.v
theories/FltModel.v
theories/FltSpec.v
theories/Flt32Proofs.v
theories/FltGapProofs.v
theories/Flt32ReadProofs.v
theories/Flt64ReadProofs.v
theories/FltTextProofs.v
theories/Flt32TopProofs.v
theories/Flt64TopProofs.v
theories/FltProps.v
theories/FilesModel.v
theories/FilesSpec.v
theories/FilesProofs.v
theories/FilesProps.v
theories/HelpModel.v
theories/HelpSpec.v
theories/HelpProofs.v
theories/HelpTextProofs.v
theories/HelpTopProofs.v
theories/HelpProps.v
theories/AngleModel.v
theories/AngleSpec.v
theories/FloatOpsProofs.v
theories/AngleProofs.v
theories/AngleMoreProofs.v
theories/AngleProps.v
theories/ClockModel.v
theories/ClockSpec.v
theories/ClockProofs.v
theories/ClockStuckProofs.v
theories/ClockLineProofs.v
theories/ClockProps.v
theories/ObfFloatModel.v
theories/ObfFloatSpec.v
theories/ObfFloatProofs.v
theories/ObfFloatHistProofs.v
theories/ObfFloatProps.v
theories/RecVecModel.v
theories/RecVecSpec.v
theories/RecVecProofs.v
theories/RecVecStepProofs.v
theories/RecVecHistProofs.v
theories/RecVecProps.v
theories/TlMoveModel.v
theories/TlMoveProofs.v
theories/TlMoveProps.v
theories/RadModel.v
theories/RadSpec.v
theories/RadProofs.v
theories/RadProps.v
theories/EaseFModel.v
theories/EaseFProofs.v
theories/EaseFSpec.v
theories/EaseFErrProofs.v
theories/EaseFProps.v
theories/ReMgrModel.v
theories/ReMgrSpec.v
theories/ReMgrProofs.v
theories/ReMgrProps.v
theories/IterModel.v
theories/IterSpec.v
theories/IterProofs.v
theories/IterProps.v
theories/JsonDbgModel.v
theories/JsonDbgProofs.v
theories/JsonDbgSpec.v
theories/JsonDbgProps.v
theories/ConModel.v
theories/ConSpec.v
theories/ConProofs.v
theories/ConProps.v
theories/StrfLookSpec.v
theories/StrfLookProofs.v
theories/StrfLookProps.v
theories/BmWorldModel.v
theories/BmWorldSpec.v
theories/BmWorldProofs.v
theories/BmWorldProps.v
theories/FltHexSpec.v
theories/FltHexProofs.v
theories/PollModel.v
theories/PollSpec.v
theories/PollProofs.v
theories/PollBadProofs.v
theories/PollProps.v
theories/JsonShapeModel.v
theories/JsonShapeSpec.v
theories/JsonShapeProofs.v
theories/JsonShapeProps.v
theories/JsonMutModel.v
theories/JsonMutSpec.v
theories/JsonMutProofs.v
theories/JsonMacProofs.v
theories/JsonMutProps.v
theories/VmWorldModel.v
theories/VmWorldSpec.v
theories/VmWorldProofs.v
theories/VmWorldProps.v
theories/EmplModel.v
theories/EmplSpec.v
theories/EmplProofs.v
theories/EmplProps.v
