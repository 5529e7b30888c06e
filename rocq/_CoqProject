-Q theories Verif
theories/Base.v
theories/BitLemmas.v
theories/ListLemmas.v
theories/StrLit.v
theories/Base64Model.v
theories/Base64Spec.v
theories/Base64Proofs.v
theories/Base64Props.v
theories/SerialModel.v
theories/SerialSpec.v
theories/SerialProofs.v
theories/SpanModel.v
theories/DeserModel.v
theories/DeserSpec.v
theories/DeserProofs.v
theories/SerialProps.v
theories/DeserProps.v
theories/SpanProofs.v
theories/SpanProps.v
theories/UnicodeModel.v
theories/UnicodeSpec.v
theories/UnicodeProofs.v
theories/UnicodeProps.v
theories/TreeModel.v
theories/TreeSpec.v
theories/TreeProofs.v
theories/TreeEditProofs.v
theories/TreeProps.v
theories/TreeMoreModel.v
theories/TreeMoreSpec.v
theories/TreeMoreProofs.v
theories/TreeMoreProps.v
theories/TreeMemModel.v
theories/TreeMemSpec.v
theories/TreeMemProofs.v
theories/TreeMemProps.v
theories/TextModel.v
theories/TextSpec.v
theories/TextProofs.v
theories/TextProps.v
theories/LogModel.v
theories/LogSpec.v
theories/LogProofs.v
theories/LogProps.v
theories/MetaModel.v
theories/MetaProofs.v
theories/MetaProps.v
theories/SortModel.v
theories/SortSpec.v
theories/SortProofs.v
theories/SortProps.v
theories/SortEffModel.v
theories/SortEffSpec.v
theories/SortEffProofs.v
theories/SortEffProps.v
theories/WrapModel.v
theories/WrapSpec.v
theories/WrapProofs.v
theories/WrapSpecProofs.v
theories/WrapProps.v
theories/UtilModel.v
theories/UtilSpec.v
theories/UtilProofs.v
theories/UtilProps.v
theories/StringModel.v
theories/StringSpec.v
theories/StringProofs.v
theories/FormatModel.v
theories/FormatProofs.v
theories/StringProps.v
theories/ParserModel.v
theories/ParserSpec.v
theories/ParserCallSpec.v
theories/ParserProofs.v
theories/ParserProps.v
theories/FlagsModel.v
theories/FlagsSpec.v
theories/FlagsProofs.v
theories/FlagsProps.v
theories/SignalModel.v
theories/SignalSpec.v
theories/SignalProofs.v
theories/SignalProps.v
theories/SignalNestSpec.v
theories/SignalNestProofs.v
theories/SignalNestProps.v
theories/SignalCopyModel.v
theories/SignalCopySpec.v
theories/SignalCopyProofs.v
theories/SignalCopyProps.v
theories/ConfigModel.v
theories/ConfigSpec.v
theories/ConfigProofs.v
theories/ConfigProps.v
theories/SpinModel.v
theories/SpinSpec.v
theories/SpinProofs.v
theories/SpinProps.v
theories/RaiiModel.v
theories/RaiiSpec.v
theories/RaiiProofs.v
theories/RaiiProps.v
theories/SingletonEndModel.v
theories/SingletonEndSpec.v
theories/SingletonEndProofs.v
theories/SingletonEndProps.v
theories/RefModel.v
theories/RefSpec.v
theories/RefProofs.v
theories/RefProps.v
theories/RefMoreModel.v
theories/RefMoreSpec.v
theories/RefMoreProofs.v
theories/RefMoreProps.v
theories/DeepModel.v
theories/DeepSpec.v
theories/DeepProofs.v
theories/DeepProps.v
theories/LinqModel.v
theories/LinqSpec.v
theories/LinqProofs.v
theories/LinqProps.v
theories/LinqEffModel.v
theories/LinqEffSpec.v
theories/LinqEffProofs.v
theories/LinqEffProps.v
theories/MiscModel.v
theories/MiscSpec.v
theories/MiscProofs.v
theories/EnumModel.v
theories/EnumSpec.v
theories/EnumProofs.v
theories/EnumProps.v
theories/MiscProps.v
theories/ExceptModel.v
theories/ExceptSpec.v
theories/ExceptProofs.v
theories/ExceptProps.v
theories/DebugModel.v
theories/DebugSpec.v
theories/DebugProofs.v
theories/DebugProps.v
theories/FloatSpec.v
theories/FloatTable.v
theories/FloatPlatform.v
theories/FloatComputeModel.v
theories/FloatCerts.v
theories/FloatTableChecks.v
theories/FloatTableProofs.v
theories/FloatRoundProofs.v
theories/FloatPortableProofs.v
theories/FloatComputeProofs.v
theories/FloatTieProofs.v
theories/FloatEiselProofs.v
theories/FloatParseModel.v
theories/FloatTextSpec.v
theories/FloatSwarProofs.v
theories/FloatLexProofs.v
theories/FloatNamesProofs.v
theories/FloatFastModel.v
theories/FloatFastProofs.v
theories/FloatFastProps.v
theories/FloatBigintModel.v
theories/FloatBigintSpec.v
theories/FloatBigintProofs.v
theories/FloatDigitModel.v
theories/FloatDecideProofs.v
theories/FloatMantissaProofs.v
theories/FloatErrorProofs.v
theories/FloatDigitProofs.v
theories/FloatSlowProofs.v
theories/FloatSlowProps.v
theories/FloatFromSpec.v
theories/FloatFromModel.v
theories/FloatFromProofs.v
theories/FloatLawsProofs.v
theories/FloatFromProps.v
theories/FloatCharsModel.v
theories/FloatCharsProofs.v
theories/FloatCharsProps.v
theories/FloatProps.v
theories/MathModel.v
theories/MathSpec.v
theories/MathRealProofs.v
theories/MathProofs.v
theories/MathAngleProofs.v
theories/MathConstProofs.v
theories/MathIntProofs.v
theories/MathPowProofs.v
theories/MathDirectedProofs.v
theories/MathProps.v
theories/ConstModel.v
theories/ConstProps.v
theories/ConfText.v
theories/ConfTree.v
theories/ConfMisc.v
theories/SpinMemModel.v
theories/SpinMemSpec.v
theories/SpinMemProofs.v
theories/SpinMemProps.v
theories/OverloadModel.v
theories/OverloadSpec.v
theories/OverloadProofs.v
theories/OverloadProps.v
theories/ViewModel.v
theories/ViewSpec.v
theories/ViewProofs.v
theories/ViewProps.v
theories/PlatformModel.v
theories/PlatformSpec.v
theories/PlatformProofs.v
theories/PlatformProps.v
theories/TreeLoopModel.v
theories/TreeLoopSpec.v
theories/TreeLoopProofs.v
theories/TreeLoopProps.v
theories/ViewLoopModel.v
theories/ViewLoopSpec.v
theories/ViewLoopProofs.v
theories/ViewLoopProps.v
theories/ExceptAllocModel.v
theories/ExceptAllocSpec.v
theories/ExceptAllocProofs.v
theories/ExceptAllocProps.v
theories/ExceptPtrModel.v
theories/ExceptPtrSpec.v
theories/ExceptPtrProofs.v
theories/ExceptPtrProps.v
theories/ContainsModel.v
theories/ContainsSpec.v
theories/ContainsProofs.v
theories/ContainsProps.v
