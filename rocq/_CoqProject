-Q theories Verif
theories/Py.v
theories/PyLemmas.v
theories/NumHeaderModel.v
theories/NumHeaderSpec.v
theories/NumHeaderProofs.v
theories/NumHeaderProps.v
theories/RmfModel.v
theories/RmfSpec.v
theories/RmfProofs.v
theories/RmfProps.v
theories/SocketModel.v
theories/SocketProofs.v
theories/SocketProps.v
theories/FileModel.v
theories/FileProofs.v
theories/FileProps.v
theories/FileMapSpec.v
theories/FileMapProofs.v
theories/FileMapProps.v
theories/ManagerModel.v
theories/ManagerSpec.v
theories/ManagerProofs.v
theories/ManagerProps.v
theories/ConcModel.v
theories/ConcProps.v
theories/TypesModel.v
theories/CompilerModel.v
theories/VmModel.v
theories/TypesSpec.v
theories/TypesProofs.v
theories/CompilerProofs.v
theories/VmProofs.v
theories/VmPackProofs.v
theories/VmUnpackProofs.v
theories/VmSafeProofs.v
theories/CompilerProps.v
theories/VmProps.v
theories/TextModel.v
theories/SigModel.v
theories/AttrModel.v
theories/NodeModel.v
theories/ParserModel.v
theories/NodeDataModel.v
theories/NodeDataSpec.v
theories/NodeDataProofs.v
theories/NodeInitProofs.v
theories/NodeDataProps.v
theories/TextProofs.v
theories/SigSpec.v
theories/SigProofs.v
theories/SigProps.v
theories/AttrSpec.v
theories/AttrProofs.v
theories/AttrProps.v
theories/AutosarModel.v
theories/AutosarSpec.v
theories/AutosarProofs.v
theories/AutosarProps.v
theories/NodeSpec.v
theories/NodeProofs.v
theories/ElemTextProofs.v
theories/ParserSpec.v
theories/ParserProofs.v
theories/RoundTripProofs.v
theories/LoadProofs.v
theories/MirrorProofs.v
theories/FinalizeProofs.v
theories/MergeSpec.v
theories/ExtendProofs.v
theories/ParserProps.v
theories/NodeProps.v
theories/ClientModel.v
theories/ClientSpec.v
theories/ClientProofs.v
theories/ClientProps.v
theories/NetModel.v
theories/NetSpec.v
theories/NetProofs.v
theories/NetProps.v
theories/GrammarSpec.v
theories/GrammarProofs.v
theories/GrammarProps.v
theories/FloatModel.v
theories/FloatSpec.v
theories/FloatProofs.v
theories/TesterModel.v
theories/TesterSpec.v
theories/TesterProofs.v
theories/TesterProps.v
theories/ImportSpec.v
theories/ImportProofs.v
theories/ImportProps.v
theories/GenModel.v
theories/GenSpec.v
theories/GenProofs.v
theories/GenProofs2.v
theories/GenProofs3.v
theories/GenProofs4.v
theories/GenProofs5.v
theories/GenTexts.v
theories/GenProps.v
theories/FilesModel.v
theories/FilesSpec.v
theories/FilesProofs.v
theories/FilesProofs2.v
theories/FilesProps.v
theories/ToolsModel.v
theories/ToolsSpec.v
theories/ToolsProofs.v
theories/ToolsProofs2.v
theories/ToolsProofs3.v
theories/ToolsProofs4.v
theories/ToolsProps.v
theories/VmBackSpec.v
theories/VmBackProofs.v
theories/VmBackProps.v
theories/ReadySpec.v
theories/ReadyProofs.v
theories/ReadyProps.v
theories/PrintSpec.v
theories/PrintProofs.v
theories/PrintProps.v
theories/GenFilesModel.v
theories/GenFilesSpec.v
theories/GenFilesProofs.v
theories/GenFilesProps.v
theories/ComModel.v
theories/ComSpec.v
theories/ComProofs.v
theories/ComProps.v
theories/CTextSpec.v
theories/CTextProofs.v
theories/CFileSpec.v
theories/CFileProofs.v
theories/CFileProofs2.v
theories/CFitSpec.v
theories/CFileProofs3.v
theories/CTextProps.v
theories/CLinkSpec.v
theories/CLinkProofs.v
theories/CLinkProofs2.v
theories/CLinkProps.v
theories/VmLeftModel.v
theories/VmLeftSpec.v
theories/VmLeftProofs.v
theories/VmLeftProps.v
theories/NodeLeftModel.v
theories/NodeLeftSpec.v
theories/NodeLeftProofs.v
theories/NodeLeftProps.v
theories/MergeOkSpec.v
theories/MergeOkProofs.v
theories/MergeOkProps.v
theories/GenReuseSpec.v
theories/GenReuseProofs.v
theories/GenReuseProps.v
theories/WriterModel.v
theories/WriterSpec.v
theories/WriterProofs.v
theories/WriterProps.v
theories/MergeOrderSpec.v
theories/MergeOrderProofs.v
theories/MergeOrderProps.v
theories/MirrorMergeProps.v
theories/SplitJoinSpec.v
theories/SplitJoinProps.v
theories/JoinOrderProps.v
theories/JoinOkSpec.v
theories/JoinOkProps.v
theories/SplitOkProps.v
theories/TextOkSpec.v
theories/TextOkProps.v
theories/MirrorJoinSpec.v
theories/MirrorJoinProps.v
theories/VmArraySpec.v
theories/VmArrayProps.v
theories/VmTrimSpec.v
theories/VmTrimProps.v
theories/CompactSpec.v
theories/CompactProps.v
