(** Proofs for C43: the functions of ParserTable.v. *)
From Coq Require Import String List Arith Bool.
From Verif Require Import Str Keyword Lexer Ast AstPos AstSubs Prog RunFacts ParserCommon ParserExpr ParserQuery ParserTable ParserAlter ParserView ParserSystem Parser SemiLogic SemiTac SemiCommon SemiExpr SemiQuery.
Import ListNotations.
Local Open Scope string_scope.
Local Open Scope nat_scope.

Section Semi.
  Context `{Tails} {f : nat} (Hc : calls f).
  Local Notation safe p := (forall pre m, fines pre -> @at_ _ f pre m _ p).

  Lemma s_closedLoop p : safe p -> safe (closedLoop p).
  Proof. clear - Hc. intros. unfold closedLoop. go. Qed.
  Local Hint Extern 0 (at_ _ _ (closedLoop _)) => (apply s_closedLoop; first [assumption | reflexivity | intros; solve [go]]) : semi.
  Lemma s_tryParseClusterClause  : safe tryParseClusterClause.
  Proof. clear - Hc. intros. unfold tryParseClusterClause. go. Qed.
  Local Hint Resolve s_tryParseClusterClause : semi.
  Lemma s_tryParseCompressionLevel  : safe tryParseCompressionLevel.
  Proof. clear - Hc. intros. unfold tryParseCompressionLevel. go. Qed.
  Local Hint Resolve s_tryParseCompressionLevel : semi.
  Lemma s_tryParseCompressionCodecs  : safe tryParseCompressionCodecs.
  Proof. clear - Hc. intros. unfold tryParseCompressionCodecs. go. Qed.
  Local Hint Resolve s_tryParseCompressionCodecs : semi.
  Lemma s_tryParsePrimaryKeyClause  : safe tryParsePrimaryKeyClause.
  Proof. clear - Hc. intros. unfold tryParsePrimaryKeyClause. go. Qed.
  Local Hint Resolve s_tryParsePrimaryKeyClause : semi.
  Lemma s_tryParseTableOrderByClause  : safe tryParseTableOrderByClause.
  Proof. clear - Hc. intros. unfold tryParseTableOrderByClause. go. Qed.
  Local Hint Resolve s_tryParseTableOrderByClause : semi.
  Lemma s_tryParseTTLPolicy  : safe tryParseTTLPolicy.
  Proof. clear - Hc. intros. unfold tryParseTTLPolicy. go. Qed.
  Local Hint Resolve s_tryParseTTLPolicy : semi.
  Lemma s_parseTTLExpr (p : pos) : safe (parseTTLExpr p).
  Proof. clear - Hc. intros. unfold parseTTLExpr. go. Qed.
  Local Hint Resolve s_parseTTLExpr : semi.
  Lemma s_parseTTLClause (p : pos) (allowMultiValues : bool) : safe (parseTTLClause p allowMultiValues).
  Proof. clear - Hc. intros. unfold parseTTLClause. go. Qed.
  Local Hint Resolve s_parseTTLClause : semi.
  Lemma s_tryParseTTLClause (allowMultiValues : bool) : safe (tryParseTTLClause allowMultiValues).
  Proof. clear - Hc. intros. unfold tryParseTTLClause. go. Qed.
  Local Hint Resolve s_tryParseTTLClause : semi.
  Lemma s_tryParseSampleByClause  : safe tryParseSampleByClause.
  Proof. clear - Hc. intros. unfold tryParseSampleByClause. go. Qed.
  Local Hint Resolve s_tryParseSampleByClause : semi.
  Lemma s_parseDestinationClause  : safe parseDestinationClause.
  Proof. clear - Hc. intros. unfold parseDestinationClause. go. Qed.
  Local Hint Resolve s_parseDestinationClause : semi.
  Lemma s_parseEngineExpr (p : pos) : safe (parseEngineExpr p).
  Proof. clear - Hc. intros. unfold parseEngineExpr. go. Qed.
  Local Hint Resolve s_parseEngineExpr : semi.
  Lemma s_tryParseEngineExpr  : safe tryParseEngineExpr.
  Proof. clear - Hc. intros. unfold tryParseEngineExpr. go. Qed.
  Local Hint Resolve s_tryParseEngineExpr : semi.
  Lemma s_tryParseProjectionOrderBy  : safe tryParseProjectionOrderBy.
  Proof. clear - Hc. intros. unfold tryParseProjectionOrderBy. go. Qed.
  Local Hint Resolve s_tryParseProjectionOrderBy : semi.
  Lemma s_parseProjectionSelect  : safe parseProjectionSelect.
  Proof. clear - Hc. intros. unfold parseProjectionSelect. go. Qed.
  Local Hint Resolve s_parseProjectionSelect : semi.
  Lemma s_parseTableProjection (p : pos) (includeProjectionKeyword : bool) : safe (parseTableProjection p includeProjectionKeyword).
  Proof. clear - Hc. intros. unfold parseTableProjection. go. Qed.
  Local Hint Resolve s_parseTableProjection : semi.
  Lemma s_parseTableIndex (p : pos) : safe (parseTableIndex p).
  Proof. clear - Hc. intros. unfold parseTableIndex. go. Qed.
  Local Hint Resolve s_parseTableIndex : semi.
  Lemma s_parseTableColumnExpr (p : pos) : safe (parseTableColumnExpr p).
  Proof. clear - Hc. intros. unfold parseTableColumnExpr. go. Qed.
  Local Hint Resolve s_parseTableColumnExpr : semi.
  Lemma s_tryParseTableColumnExpr  : safe tryParseTableColumnExpr.
  Proof. clear - Hc. intros. unfold tryParseTableColumnExpr. go. Qed.
  Local Hint Resolve s_tryParseTableColumnExpr : semi.
  Lemma s_parseTableColumns  : safe parseTableColumns.
  Proof. clear - Hc. intros. unfold parseTableColumns. go. Qed.
  Local Hint Resolve s_parseTableColumns : semi.
  Lemma s_parseTableSchemaClause  : safe parseTableSchemaClause.
  Proof. clear - Hc. intros. unfold parseTableSchemaClause. go. Qed.
  Local Hint Resolve s_parseTableSchemaClause : semi.
  Lemma s_parseCreateDatabase (p : pos) : safe (parseCreateDatabase p).
  Proof. clear - Hc. intros. unfold parseCreateDatabase. go. Qed.
  Local Hint Resolve s_parseCreateDatabase : semi.
  Lemma s_parseNamedCollectionParam  : safe parseNamedCollectionParam.
  Proof. clear - Hc. intros. unfold parseNamedCollectionParam. go. Qed.
  Local Hint Resolve s_parseNamedCollectionParam : semi.
  Lemma s_parseCreateNamedCollection (p : pos) : safe (parseCreateNamedCollection p).
  Proof. clear - Hc. intros. unfold parseCreateNamedCollection. go. Qed.
  Local Hint Resolve s_parseCreateNamedCollection : semi.
  Lemma s_parseCreateTable (p : pos) (orReplace : bool) : safe (parseCreateTable p orReplace).
  Proof. clear - Hc. intros. unfold parseCreateTable. go. Qed.
  Local Hint Resolve s_parseCreateTable : semi.
  Lemma s_parseCreateFunction (p : pos) (orReplace : bool) : safe (parseCreateFunction p orReplace).
  Proof. clear - Hc. intros. unfold parseCreateFunction. go. Qed.
  Local Hint Resolve s_parseCreateFunction : semi.
  Lemma s_parseDictionaryAttribute  : safe parseDictionaryAttribute.
  Proof. clear - Hc. intros. unfold parseDictionaryAttribute. go. Qed.
  Local Hint Resolve s_parseDictionaryAttribute : semi.
  Lemma s_parseDictionarySchemaClause  : safe parseDictionarySchemaClause.
  Proof. clear - Hc. intros. unfold parseDictionarySchemaClause. go. Qed.
  Local Hint Resolve s_parseDictionarySchemaClause : semi.
  Lemma s_parseDictionaryPrimaryKeyClause  : safe parseDictionaryPrimaryKeyClause.
  Proof. clear - Hc. intros. unfold parseDictionaryPrimaryKeyClause. go. Qed.
  Local Hint Resolve s_parseDictionaryPrimaryKeyClause : semi.
  Lemma s_parseDictionaryArgExprs  : safe parseDictionaryArgExprs.
  Proof. clear - Hc. intros. unfold parseDictionaryArgExprs. go. Qed.
  Local Hint Resolve s_parseDictionaryArgExprs : semi.
  Lemma s_body_DictArg (p : pos) : safe (body_DictArg p).
  Proof. clear - Hc. intros. unfold body_DictArg. go. Qed.
  Local Hint Resolve s_body_DictArg : semi.
  Lemma s_parseDictionarySourceClause  : safe parseDictionarySourceClause.
  Proof. clear - Hc. intros. unfold parseDictionarySourceClause. go. Qed.
  Local Hint Resolve s_parseDictionarySourceClause : semi.
  Lemma s_parseDictionaryLifetimeClause  : safe parseDictionaryLifetimeClause.
  Proof. clear - Hc. intros. unfold parseDictionaryLifetimeClause. go. Qed.
  Local Hint Resolve s_parseDictionaryLifetimeClause : semi.
  Lemma s_parseDictionaryLayoutClause  : safe parseDictionaryLayoutClause.
  Proof. clear - Hc. intros. unfold parseDictionaryLayoutClause. go. Qed.
  Local Hint Resolve s_parseDictionaryLayoutClause : semi.
  Lemma s_parseDictionaryRangeClause  : safe parseDictionaryRangeClause.
  Proof. clear - Hc. intros. unfold parseDictionaryRangeClause. go. Qed.
  Local Hint Resolve s_parseDictionaryRangeClause : semi.
  Lemma s_parseDictionarySettingsClause  : safe parseDictionarySettingsClause.
  Proof. clear - Hc. intros. unfold parseDictionarySettingsClause. go. Qed.
  Local Hint Resolve s_parseDictionarySettingsClause : semi.
  Lemma s_parseDictionaryEngineClause  : safe parseDictionaryEngineClause.
  Proof. clear - Hc. intros. unfold parseDictionaryEngineClause. go. Qed.
  Local Hint Resolve s_parseDictionaryEngineClause : semi.
  Lemma s_parseCreateDictionary (p : pos) (orReplace : bool) : safe (parseCreateDictionary p orReplace).
  Proof. clear - Hc. intros. unfold parseCreateDictionary. go. Qed.
  Local Hint Resolve s_parseCreateDictionary : semi.
  Lemma s_parseUseStmt (p : pos) : safe (parseUseStmt p).
  Proof. clear - Hc. intros. unfold parseUseStmt. go. Qed.
  Local Hint Resolve s_parseUseStmt : semi.
  Lemma s_parseShowStmt (p : pos) : safe (parseShowStmt p).
  Proof. clear - Hc. intros. unfold parseShowStmt. go. Qed.
  Local Hint Resolve s_parseShowStmt : semi.
  Lemma s_parseDescribeStmt (p : pos) : safe (parseDescribeStmt p).
  Proof. clear - Hc. intros. unfold parseDescribeStmt. go. Qed.
  Local Hint Resolve s_parseDescribeStmt : semi.
  Lemma s_parseTruncateTable (p : pos) : safe (parseTruncateTable p).
  Proof. clear - Hc. intros. unfold parseTruncateTable. go. Qed.
  Local Hint Resolve s_parseTruncateTable : semi.
  Lemma s_parseDeleteClause (p : pos) : safe (parseDeleteClause p).
  Proof. clear - Hc. intros. unfold parseDeleteClause. go. Qed.
  Local Hint Resolve s_parseDeleteClause : semi.
  Lemma s_parseColumnNamesExpr  : safe parseColumnNamesExpr.
  Proof. clear - Hc. intros. unfold parseColumnNamesExpr. go. Qed.
  Local Hint Resolve s_parseColumnNamesExpr : semi.
  Lemma s_parseTypedPlaceholder  : safe parseTypedPlaceholder.
  Proof. clear - Hc. intros. unfold parseTypedPlaceholder. go. Qed.
  Local Hint Resolve s_parseTypedPlaceholder : semi.
  Lemma s_body_AssignValues (p : pos) : safe (body_AssignValues p).
  Proof. clear - Hc. intros. unfold body_AssignValues. go. Qed.
  Local Hint Resolve s_body_AssignValues : semi.
  Lemma s_parseInsertStmt (p : pos) : safe (parseInsertStmt p).
  Proof. clear - Hc. intros. unfold parseInsertStmt. go. Qed.
  Local Hint Resolve s_parseInsertStmt : semi.
  Lemma s_parseTargetPair  : safe parseTargetPair.
  Proof. clear - Hc. intros. unfold parseTargetPair. go. Qed.
  Local Hint Resolve s_parseTargetPair : semi.
  Lemma s_parseRenameStmt (p : pos) : safe (parseRenameStmt p).
  Proof. clear - Hc. intros. unfold parseRenameStmt. go. Qed.
  Local Hint Resolve s_parseRenameStmt : semi.
End Semi.
Global Hint Resolve s_tryParseClusterClause s_tryParseCompressionLevel s_tryParseCompressionCodecs s_tryParsePrimaryKeyClause s_tryParseTableOrderByClause s_tryParseTTLPolicy s_parseTTLExpr s_parseTTLClause s_tryParseTTLClause s_tryParseSampleByClause s_parseDestinationClause s_parseEngineExpr s_tryParseEngineExpr s_tryParseProjectionOrderBy s_parseProjectionSelect s_parseTableProjection s_parseTableIndex s_parseTableColumnExpr s_tryParseTableColumnExpr s_parseTableColumns s_parseTableSchemaClause s_parseCreateDatabase s_parseNamedCollectionParam s_parseCreateNamedCollection s_parseCreateTable s_parseCreateFunction s_parseDictionaryAttribute s_parseDictionarySchemaClause s_parseDictionaryPrimaryKeyClause s_parseDictionaryArgExprs s_body_DictArg s_parseDictionarySourceClause s_parseDictionaryLifetimeClause s_parseDictionaryLayoutClause s_parseDictionaryRangeClause s_parseDictionarySettingsClause s_parseDictionaryEngineClause s_parseCreateDictionary s_parseUseStmt s_parseShowStmt s_parseDescribeStmt s_parseTruncateTable s_parseDeleteClause s_parseColumnNamesExpr s_parseTypedPlaceholder s_body_AssignValues s_parseInsertStmt s_parseTargetPair s_parseRenameStmt : semi.
Global Hint Extern 0 (at_ _ _ (closedLoop _)) => (apply s_closedLoop; first [assumption | reflexivity | intros; solve [go]]) : semi.
