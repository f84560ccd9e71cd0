-Q theories Verif
theories/Str.v
theories/Keyword.v
theories/Lexer.v
theories/LexSpec.v
theories/StrFacts.v
theories/LexFacts.v
theories/Ast.v
theories/AstPos.v
theories/Prog.v
theories/Items.v
theories/ParserCommon.v
theories/ParserExpr.v
theories/ParserQuery.v
theories/ParserTable.v
theories/ParserAlter.v
theories/ParserView.v
theories/ParserSystem.v
theories/Parser.v
theories/LexRun.v
theories/LexGrammar.v
theories/LexTokens.v
theories/LexProps.v
theories/PropertiesLexer.v
theories/Source.v
theories/GoSet.v
theories/ErrorRender.v
theories/SourceFacts.v
theories/SetFacts.v
theories/ErrorFacts.v
theories/PropertiesSource.v
theories/RunFacts.v
theories/ItemsFacts.v
theories/AstSubs.v
theories/Hoare.v
theories/PrecSpec.v
theories/SpanSpec.v
theories/Walk.v
theories/Visitor.v
theories/WalkSpec.v
theories/WalkFacts.v
theories/Spec.v
theories/SpecTac.v
theories/SpecCommon.v
theories/SpecTypes.v
theories/SpecArgs.v
theories/SpecOperand.v
theories/SpecPrec.v
theories/SpecQuery.v
theories/SpecTable.v
theories/SpecDict.v
theories/SpecAlter.v
theories/SpecView.v
theories/SpecSystem.v
theories/SpecParse.v
theories/ParserApi.v
theories/FuelFacts.v
theories/ParseFacts.v
theories/PropertiesParser.v
theories/PropertiesWalk.v
theories/Retry.v
theories/RetryFacts.v
theories/Lazy.v
theories/LazyFacts.v
theories/PropertiesState.v
theories/StmtsFacts.v
theories/LayoutSpec.v
theories/LayoutFacts.v
theories/LayoutParse.v
theories/LexClass.v
theories/PropertiesLayout.v
theories/ChainSpec.v
theories/ChainFacts.v
theories/ChainParse.v
theories/PropertiesChain.v
theories/Format.v
theories/FormatSpec.v
theories/FormatFacts.v
theories/FormatSafe.v
theories/BracketFacts.v
theories/PropertiesFormat.v
theories/Main.v
theories/MainSpec.v
theories/PropertiesMain.v
theories/Strip.v
theories/StripFacts.v
theories/Exec.v
theories/RoundSpec.v
theories/RoundExec.v
theories/RoundBase.v
theories/RoundExpr.v
theories/RoundOps.v
theories/RoundPrim.v
theories/RoundClause.v
theories/RoundFrom.v
theories/RoundQuery.v
theories/RoundAll.v
theories/RoundStmt.v
theories/RoundText.v
theories/RoundLex.v
theories/PropertiesRound.v
theories/RoundMoreSpec.v
theories/RoundMoreText.v
theories/RoundMoreParse.v
theories/RoundMoreStmt.v
theories/RoundMore.v
theories/PropertiesMore.v
theories/RoundDdlSpec.v
theories/RoundDdlText.v
theories/RoundDdlParse.v
theories/RoundDdlCols.v
theories/RoundDdlAlter.v
theories/RoundDdlCreate.v
theories/RoundAccess.v
theories/RoundDdl.v
theories/PropertiesDdl.v
theories/PropertiesAccess.v
theories/RoundScript.v
theories/PropertiesScript.v
theories/Recase.v
theories/CaseSpec.v
theories/CaseRel.v
theories/CaseFold.v
theories/CaseItem.v
theories/CaseCommon.v
theories/CaseExpr.v
theories/CaseQuery.v
theories/CaseTable.v
theories/CaseAlter.v
theories/CaseView.v
theories/CaseSystem.v
theories/CaseStmt.v
theories/CaseText.v
theories/PropertiesCase.v
theories/Words.v
theories/KeepSpec.v
theories/KeepLogic.v
theories/KeepTac.v
theories/KeepCommon.v
theories/KeepExpr.v
theories/KeepQuery.v
theories/KeepTable.v
theories/KeepAlter.v
theories/KeepView.v
theories/KeepSystem.v
theories/KeepStmt.v
theories/KeepText.v
theories/PropertiesKeep.v
theories/WriteSpec.v
theories/WriteLogic.v
theories/WriteTac.v
theories/WriteCommon.v
theories/WriteExpr.v
theories/WriteQuery.v
theories/WriteTable.v
theories/WriteAlter.v
theories/WriteView.v
theories/WriteSystem.v
theories/WriteStmt.v
theories/FormatKeep.v
theories/FormatFound.v
theories/PropertiesWrite.v
theories/SemiSpec.v
theories/SemiLogic.v
theories/SemiTac.v
theories/SemiCommon.v
theories/SemiExpr.v
theories/SemiQuery.v
theories/SemiTable.v
theories/SemiAlter.v
theories/SemiView.v
theories/SemiSystem.v
theories/SemiStmt.v
theories/SemiText.v
theories/SemiMemo.v
theories/SemiCompose.v
theories/PropertiesSemi.v
