-Q theories Verif

theories/Base.v
theories/BaseProof.v
theories/CryptoModel.v
theories/CryptoSpec.v
theories/CryptoProof.v
theories/WidthModel.v
theories/WidthProof.v
theories/FuzzyModel.v
theories/LikeSpec.v
theories/FuzzyProof.v
theories/LikeProof.v
theories/CryptoProps.v
theories/OpeModel.v
theories/OpeProof.v
theories/OpeSamplerProof.v
theories/OpeProps.v
theories/EncodeModel.v
theories/EncodeProof.v
theories/EncodeProps.v
theories/PaillierModel.v
theories/NumTheory.v
theories/PaillierProof.v
theories/PaillierProps.v
theories/JsonModel.v
theories/RewriteModel.v
theories/SqlSpec.v
theories/EncSpec.v
theories/JsonProof.v
theories/WhereProof.v
theories/StmtSpec.v
theories/SimProof.v
theories/StmtProof.v
theories/UpdateProof.v
theories/SelectProof.v
theories/HistoryProof.v
theories/RewriteExample.v
theories/RewriteSpec.v
theories/RewriteProof.v
theories/QueryProof.v
theories/JoinProof.v
theories/RewriteProps.v
theories/CreateModel.v
theories/CreateSpec.v
theories/CreateProof.v
theories/DeclProof.v
theories/CreateProps.v
theories/MetaModel.v
theories/MetaSpec.v
theories/MetaProof.v
theories/MetaProps.v
theories/ExecModel.v
theories/ExecSpec.v
theories/ExecProof.v
theories/ExecProps.v
theories/SteadyModel.v
theories/SteadySpec.v
theories/SteadyProof.v
theories/SteadyFrame.v
theories/SteadyProps.v
theories/PoolModel.v
theories/PoolSpec.v
theories/PoolProof.v
theories/PoolFrame.v
theories/PoolRaw.v
theories/PoolTop.v
theories/PoolEnd.v
theories/PoolProps.v
theories/OxtModel.v
theories/OxtSpec.v
theories/OxtProof.v
theories/OxtProps.v
theories/DotsModel.v
theories/DotsSpec.v
theories/DotsProof.v
theories/DotsProps.v
theories/SqlLex.v
theories/SqlRead.v
theories/FmtModel.v
theories/FmtSpec.v
theories/FmtLexProof.v
theories/FmtExprProof.v
theories/FmtReadProof.v
theories/FmtProof.v
theories/FmtNameProof.v
theories/FmtClauseProof.v
theories/FmtProps.v
theories/JsonText.v
theories/JsonTextProof.v
theories/FrontModel.v
theories/FrontSpec.v
theories/FrontProof.v
theories/FrontProps.v
theories/ClassifyModel.v
theories/ClassifySpec.v
theories/ClassifyProof.v
theories/ClassifyProps.v
theories/ScrubModel.v
theories/ScrubSpec.v
theories/ScrubProof.v
theories/ScrubProps.v
theories/OfflineModel.v
theories/OfflineProof.v
theories/OfflineProps.v
theories/RotateModel.v
theories/RotateProps.v
theories/SysSpec.v
theories/SysProof.v
theories/SysProps.v
theories/UsageSpec.v
theories/UsageProof.v
theories/UsageProps.v
theories/InfixModel.v
theories/InfixSpec.v
theories/InfixProof.v
theories/InfixProps.v
theories/OperModel.v
theories/OperSpec.v
theories/OperProof.v
theories/OperCondProof.v
theories/OperProps.v
theories/LitModel.v
theories/LitSpec.v
theories/LitProof.v
theories/LitProps.v
theories/ValuesModel.v
theories/ValuesSpec.v
theories/ValuesProof.v
theories/ValuesProps.v
theories/EndSpec.v
theories/EndParseProof.v
theories/EndTruthProof.v
theories/EndAssocProof.v
theories/EndMaskProof.v
theories/EndLexProof.v
theories/EndProof.v
theories/EndProps.v
theories/AlterModel.v
theories/AlterSpec.v
theories/AlterProof.v
theories/AlterRewriteProof.v
theories/AlterProps.v
theories/TextSpec.v
theories/TextValueProof.v
theories/TextExecProof.v
theories/TextShapeProof.v
theories/TextReadProof.v
theories/TextFormatProof.v
theories/TextProof.v
theories/TextProps.v
theories/SysTextSpec.v
theories/SysTextProof.v
theories/SysTextProps.v
theories/GramModel.v
theories/GramSpec.v
theories/GramNumProof.v
theories/GramSimProof.v
theories/GramTextProof.v
theories/GramLexProof.v
theories/GramStmtProof.v
theories/GramProps.v
theories/FullModel.v
theories/FullSpec.v
theories/GramCheckProof.v
theories/FullProof.v
theories/FullProps.v
theories/DirectSpec.v
theories/DirectLexProof.v
theories/DirectReadProof.v
theories/DirectCmdProof.v
theories/DirectProof.v
theories/DirectProps.v
theories/DdlSpec.v
theories/DdlProof.v
theories/DdlJsonProof.v
theories/DdlTableProof.v
theories/DdlProps.v
theories/AppSysSpec.v
theories/AppReadProof.v
theories/AppSysProof.v
theories/AppSysProps.v
theories/TypeModel.v
theories/TypeSpec.v
theories/TypeLexProof.v
theories/TypeWordProof.v
theories/TypeTextProof.v
theories/TypeProof.v
theories/TypeProps.v
theories/EngineModel.v
theories/EngineSpec.v
theories/EngineTblProof.v
theories/EngineProof.v
theories/EngineLineProof.v
theories/EngineWordProof.v
theories/EngineProps.v
theories/EngineSqlModel.v
theories/EngineSqlProof.v
theories/EngineSqlProps.v
theories/WhiteModel.v
theories/WhiteSpec.v
theories/WhiteProof.v
theories/WhiteProps.v
theories/RegexModel.v
theories/RegexSpec.v
theories/RegexProof.v
theories/RegexProps.v
theories/NumModel.v
theories/NumSpec.v
theories/NumProof.v
theories/NumProps.v
theories/PatModel.v
theories/PatSpec.v
theories/PatProof.v
theories/PatProps.v
theories/RangeModel.v
theories/RangeSpec.v
theories/RangeProof.v
theories/RangeProps.v
theories/OneOfModel.v
theories/OneOfSpec.v
theories/OneOfProof.v
theories/OneOfProps.v
theories/ErrPosModel.v
theories/ErrPosSpec.v
theories/ErrPosProof.v
theories/ErrPosProps.v
theories/GeneralModel.v
theories/GeneralProof.v
theories/GeneralProps.v
theories/CloseModel.v
theories/CloseProps.v
theories/NotInModel.v
theories/NotInSpec.v
theories/NotInProps.v
theories/WhiteTokenModel.v
theories/WhiteTokenProps.v
theories/LineTokenModel.v
theories/LineTokenProps.v
theories/SkipToModel.v
theories/SkipToProps.v
theories/BehindModel.v
theories/BehindProps.v
theories/MatchAllModel.v
theories/MatchAllProps.v
