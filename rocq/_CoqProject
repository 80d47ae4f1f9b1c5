-Q theories Verif
theories/Base.v
theories/TextEncodingModel.v
theories/TextEncodingSpec.v
theories/TextEncodingProofs.v
theories/TextEncodingProps.v
theories/UtilModel.v
theories/UtilSpec.v
theories/UtilProofs.v
theories/UtilProps.v
theories/StringViewModel.v
theories/StringViewSpec.v
theories/StringViewProofs.v
theories/StringViewProps.v
theories/NumTextModel.v
theories/NumTextSpec.v
theories/NumTextProofs.v
theories/NumTextProps.v
theories/ScanModel.v
theories/ScanSpec.v
theories/ScanProofs.v
theories/ScanProps.v
theories/VarintModel.v
theories/VarintProofs.v
theories/VarintProps.v
theories/EscapeModel.v
theories/EscapeSpec.v
theories/EscapeProofs.v
theories/EscapeProps.v
theories/DateTimeModel.v
theories/DateTimeSpec.v
theories/DateTimeProofs.v
theories/DateTimeProps.v
theories/ListUpd.v
theories/SortModel.v
theories/SortSpec.v
theories/SortProofs.v
theories/SortProps.v
theories/ArrayModel.v
theories/ArraySpec.v
theories/ArrayProofs.v
theories/ArrayProps.v
theories/PoolModel.v
theories/PoolSpec.v
theories/PoolProofs.v
theories/PoolProps.v
theories/HashMapModel.v
theories/HashMapSpec.v
theories/HashMapProofs.v
theories/HashMapProps.v
theories/HashMapSim.v
theories/LabelModel.v
theories/LabelSpec.v
theories/LabelProofs.v
theories/LabelProps.v
theories/BTreeModel.v
theories/BTreeSpec.v
theories/BTreeProofs.v
theories/BTreeProps.v
theories/SequenceModel.v
theories/SequenceSpec.v
theories/SequenceProofs.v
theories/SequenceProps.v
theories/OutStreamModel.v
theories/OutStreamSpec.v
theories/OutStreamProofs.v
theories/OutStreamProps.v
theories/Txt.v
theories/PathModel.v
theories/PathSpec.v
theories/PathProofs.v
theories/PathProps.v
theories/InStreamModel.v
theories/InStreamSpec.v
theories/InStreamProofs.v
theories/InStreamProps.v
theories/TextConvModel.v
theories/TextConvSpec.v
theories/TextConvProofs.v
theories/TextConvProps.v
theories/NewLineModel.v
theories/NewLineSpec.v
theories/NewLineProofs.v
theories/NewLineProps.v
theories/FileLocModel.v
theories/FileLocSpec.v
theories/FileLocProofs.v
theories/FileLocProps.v
theories/LiquidModel.v
theories/LiquidSpec.v
theories/LiquidProofs.v
theories/LiquidProps.v
theories/PylonModel.v
theories/PylonSpec.v
theories/PylonProofs.v
theories/PylonProps.v
theories/PylonNodeModel.v
theories/PylonNodeSpec.v
theories/PylonNodeProofs.v
theories/PylonNodeHistory.v
theories/PylonNodeMore.v
theories/PylonNodeProps.v
theories/WeakMemModel.v
theories/WeakMemProofs.v
theories/LockModel.v
theories/LockSpec.v
theories/LockProofs.v
theories/LockProps.v
theories/PylonGrammar.v
theories/PylonGrammarProofs.v
theories/RefCountModel.v
theories/RefCountSpec.v
theories/RefCountProofs.v
theories/RefOrderModel.v
theories/RefOrderProofs.v
theories/RefCountProps.v
theories/DualRefModel.v
theories/DualRefSpec.v
theories/DualRefProofs.v
theories/DualRefProps.v
theories/FsModel.v
theories/FsSpec.v
theories/FsProofs.v
theories/FsSaveProofs.v
theories/FsProps.v
theories/WalkSpec.v
theories/WalkProofs.v
theories/RemoveProofs.v
theories/VirtualProofs.v
theories/WalkProps.v
theories/BuildModel.v
theories/BuildSpec.v
theories/BuildProofs.v
theories/InstSpec.v
theories/InstProofs.v
theories/BuildProps.v
theories/CookModel.v
theories/CookSpec.v
theories/CookProofs.v
theories/CookInv.v
theories/CookRun.v
theories/CookSession.v
theories/CookHistory.v
theories/CookFinal.v
theories/CookProps.v
theories/TraceModel.v
theories/TraceSpec.v
theories/TraceProofs.v
theories/TraceInv.v
theories/TraceFinal.v
theories/TraceProps.v
theories/SyncModel.v
theories/SyncSpec.v
theories/SyncProofs.v
theories/SyncProps.v
theories/TextFormatModel.v
theories/TextFormatSpec.v
theories/TextFormatProofs.v
theories/TextFormatLoad.v
theories/TextFormatFiles.v
theories/TextFormatDetect.v
theories/TextFormatProps.v
theories/HashModel.v
theories/HashSpec.v
theories/HashProofs.v
theories/HasherProofs.v
theories/HashProps.v
theories/WebModel.v
theories/WebSpec.v
theories/WebProofs.v
theories/WebFileProofs.v
theories/WebProps.v
theories/MarkdownModel.v
theories/MarkdownSpec.v
theories/MarkdownProofs.v
theories/MarkdownWrite.v
theories/MarkdownHtml.v
theories/MarkdownProps.v
theories/MarkdownBlockSpec.v
theories/MarkdownBlocks.v
theories/MarkdownTree.v
theories/MarkdownBlockProps.v
theories/MarkdownLayoutSpec.v
theories/MarkdownLayout.v
theories/MarkdownSource.v
theories/PersistModel.v
theories/PersistSpec.v
theories/PersistSchema.v
theories/PersistWriteProofs.v
theories/PersistReadProofs.v
theories/PersistProofs.v
theories/PersistNum.v
theories/PersistRound.v
theories/PersistSave.v
theories/PersistValue.v
theories/PersistRefute.v
theories/PersistProps.v
theories/CrowbarModel.v
theories/CrowbarSpec.v
theories/CrowbarProofs.v
theories/CrowbarRun.v
theories/CrowbarSim.v
theories/CrowbarMain.v
theories/CrowbarMono.v
theories/CrowbarProps.v
theories/CrowbarParse.v
theories/CrowbarText.v
theories/CrowbarTok.v
theories/CrowbarEnds.v
theories/CrowbarRead.v
theories/CrowbarReadFile.v
theories/CrowbarSafe.v
theories/CrowbarParseProps.v
theories/PylonReflectModel.v
theories/PylonReflectSpec.v
theories/PylonReflectProofs.v
theories/PylonReflectSafe.v
theories/PylonReflectProps.v
theories/CppTokModel.v
theories/CppTokSpec.v
theories/CppTokProofs.v
theories/CppTokLoc.v
theories/CppTokRead.v
theories/CppTokProps.v
theories/CppSkipModel.v
theories/CppSkipSpec.v
theories/CppSkipProofs.v
theories/CppSkipMore.v
theories/CppSkipProps.v
theories/OwnModel.v
theories/OwnSpec.v
theories/OwnProofs.v
theories/OwnMore.v
theories/OwnProps.v
theories/ImageModel.v
theories/ImageSpec.v
theories/ImageProofs.v
theories/ImageProps.v
theories/CMakeModel.v
theories/CMakeSpec.v
theories/CMakeProofs.v
theories/CMakeProps.v
theories/ToolModel.v
theories/ToolSpec.v
theories/ToolProofs.v
theories/ToolProps.v
theories/MathModel.v
theories/MathSpec.v
theories/MathProofs.v
theories/MathMore.v
theories/MathAxis.v
theories/MathProps.v
theories/NamesModel.v
theories/NamesSpec.v
theories/NamesProofs.v
theories/NamesMore.v
theories/NamesWrite.v
theories/NamesProps.v
theories/RepoModel.v
theories/RepoSpec.v
theories/RepoProofs.v
theories/RepoReg.v
theories/RepoProps.v
theories/AudioModel.v
theories/AudioSpec.v
theories/AudioProofs.v
theories/AudioMore.v
theories/AudioProps.v
theories/LoadModel.v
theories/LoadSpec.v
theories/LoadProofs.v
theories/LoadProps.v
theories/DocNamesModel.v
theories/DocNamesSpec.v
theories/DocNamesProofs.v
theories/DocNamesMore.v
theories/DocNamesProps.v
theories/TitleModel.v
theories/TitleSpec.v
theories/TitleProofs.v
theories/TitleMore.v
theories/TitleProps.v
theories/ConvertModel.v
theories/ConvertSpec.v
theories/ConvertProofs.v
theories/ConvertProps.v
theories/CommandModel.v
theories/CommandSpec.v
theories/CommandProofs.v
theories/CommandProps.v
theories/SubstModel.v
theories/SubstSpec.v
theories/SubstProofs.v
theories/SubstProps.v
theories/InlModel.v
theories/InlSpec.v
theories/InlProofs.v
theories/InlProps.v
theories/SubstMore.v
