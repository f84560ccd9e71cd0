(** Proofs for C42: the functions of ParserTable.v. *)
From Coq Require Import String List Arith Bool.
From Verif Require Import Str Keyword Lexer Ast AstPos AstSubs Prog RunFacts ParserCommon ParserExpr ParserQuery ParserTable ParserAlter ParserView ParserSystem Parser Words WriteLogic WriteTac WriteCommon WriteExpr WriteQuery.
Import ListNotations.
Local Open Scope string_scope.
Local Open Scope nat_scope.

Section Write.
  Context {f : nat} (Hc : calls f).
  Local Notation gives := (@WriteLogic.gives f _).

  Lemma w_closedLoop p : gives good p -> gives good (closedLoop p).
  Proof. clear - Hc. intros H0. unfold closedLoop. go. Qed.
  Local Hint Extern 0 (WriteLogic.gives _ (closedLoop _)) => (apply w_closedLoop; first [assumption | solve [go]]) : tell.
  Lemma w_tryParseClusterClause  : gives good tryParseClusterClause.
  Proof. clear - Hc. intros. unfold tryParseClusterClause. go. Qed.
  Local Hint Resolve w_tryParseClusterClause : tell.
  Lemma w_tryParseCompressionLevel  : gives good tryParseCompressionLevel.
  Proof. clear - Hc. intros. unfold tryParseCompressionLevel. go. Qed.
  Local Hint Resolve w_tryParseCompressionLevel : tell.
  Lemma w_tryParseCompressionCodecs  : gives good tryParseCompressionCodecs.
  Proof. clear - Hc. intros. unfold tryParseCompressionCodecs. push; match goal with |- context [if ?c then "LIKE" else _] => destruct c end; val. Qed.
  Local Hint Resolve w_tryParseCompressionCodecs : tell.
  Lemma w_tryParsePrimaryKeyClause  : gives good tryParsePrimaryKeyClause.
  Proof. clear - Hc. intros. unfold tryParsePrimaryKeyClause. go. Qed.
  Local Hint Resolve w_tryParsePrimaryKeyClause : tell.
  Lemma w_tryParseTableOrderByClause  : gives good tryParseTableOrderByClause.
  Proof. clear - Hc. intros. unfold tryParseTableOrderByClause. go. Qed.
  Local Hint Resolve w_tryParseTableOrderByClause : tell.
  Lemma w_tryParseTTLPolicy  : gives good tryParseTTLPolicy.
  Proof. clear - Hc. intros. unfold tryParseTTLPolicy. go. Qed.
  Local Hint Resolve w_tryParseTTLPolicy : tell.
  Lemma w_parseTTLExpr (p : pos) : gives good (parseTTLExpr p).
  Proof. clear - Hc. intros. unfold parseTTLExpr. go. Qed.
  Local Hint Resolve w_parseTTLExpr : tell.
  Lemma w_parseTTLClause (p : pos) (allowMultiValues : bool) : gives good (parseTTLClause p allowMultiValues).
  Proof. clear - Hc. intros. unfold parseTTLClause. go. Qed.
  Local Hint Resolve w_parseTTLClause : tell.
  Lemma w_tryParseTTLClause (allowMultiValues : bool) : gives good (tryParseTTLClause allowMultiValues).
  Proof. clear - Hc. intros. unfold tryParseTTLClause. go. Qed.
  Local Hint Resolve w_tryParseTTLClause : tell.
  Lemma w_tryParseSampleByClause  : gives good tryParseSampleByClause.
  Proof. clear - Hc. intros. unfold tryParseSampleByClause. go. Qed.
  Local Hint Resolve w_tryParseSampleByClause : tell.
  Lemma w_parseDestinationClause  : gives (fun e => ok e /\ exists p t, ok t /\ e = EDestinationClause p t ENil) parseDestinationClause.
  Proof. clear - Hc. intros. unfold parseDestinationClause. go. split; [val|]. do 2 eexists. split; [eassumption|reflexivity]. Qed.
  Local Hint Resolve w_parseDestinationClause : tell.
  Lemma w_parseEngineExpr (p : pos) : gives good (parseEngineExpr p).
  Proof. clear - Hc. intros. unfold parseEngineExpr. go. Qed.
  Local Hint Resolve w_parseEngineExpr : tell.
  Lemma w_tryParseEngineExpr  : gives good tryParseEngineExpr.
  Proof. clear - Hc. intros. unfold tryParseEngineExpr. go. Qed.
  Local Hint Resolve w_tryParseEngineExpr : tell.
  Lemma w_tryParseProjectionOrderBy  : gives good tryParseProjectionOrderBy.
  Proof. clear - Hc. intros. unfold tryParseProjectionOrderBy. go. Qed.
  Local Hint Resolve w_tryParseProjectionOrderBy : tell.
  Lemma w_parseProjectionSelect  : gives good parseProjectionSelect.
  Proof. clear - Hc. intros. unfold parseProjectionSelect. go. Qed.
  Local Hint Resolve w_parseProjectionSelect : tell.
  Lemma w_parseTableProjection (p : pos) (includeProjectionKeyword : bool) : gives good (parseTableProjection p includeProjectionKeyword).
  Proof. clear - Hc. intros. unfold parseTableProjection. go. Qed.
  Local Hint Resolve w_parseTableProjection : tell.
  Lemma w_parseTableIndex (p : pos) : gives good (parseTableIndex p).
  Proof. clear - Hc. intros. unfold parseTableIndex. go. Qed.
  Local Hint Resolve w_parseTableIndex : tell.
  Lemma w_parseTableColumnExpr (p : pos) : gives good (parseTableColumnExpr p).
  Proof. clear - Hc. intros. unfold parseTableColumnExpr. go. Qed.
  Local Hint Resolve w_parseTableColumnExpr : tell.
  Lemma w_tryParseTableColumnExpr  : gives good tryParseTableColumnExpr.
  Proof. clear - Hc. intros. unfold tryParseTableColumnExpr. go. Qed.
  Local Hint Resolve w_tryParseTableColumnExpr : tell.
  Lemma w_parseTableColumns  : gives good parseTableColumns.
  Proof. clear - Hc. intros. unfold parseTableColumns. go. Qed.
  Local Hint Resolve w_parseTableColumns : tell.
  Lemma w_parseTableSchemaClause  : gives good parseTableSchemaClause.
  Proof. clear - Hc. intros. unfold parseTableSchemaClause. go. Qed.
  Local Hint Resolve w_parseTableSchemaClause : tell.
  Lemma w_parseCreateDatabase (p : pos) : gives good (parseCreateDatabase p).
  Proof. clear - Hc. intros. unfold parseCreateDatabase. go. Qed.
  Local Hint Resolve w_parseCreateDatabase : tell.
  Lemma w_parseNamedCollectionParam  : gives good parseNamedCollectionParam.
  Proof. clear - Hc. intros. unfold parseNamedCollectionParam. go. Qed.
  Local Hint Resolve w_parseNamedCollectionParam : tell.
  Lemma w_parseCreateNamedCollection (p : pos) : gives good (parseCreateNamedCollection p).
  Proof. clear - Hc. intros. unfold parseCreateNamedCollection. go. Qed.
  Local Hint Resolve w_parseCreateNamedCollection : tell.
  Lemma w_parseCreateTable (p : pos) (orReplace : bool) : gives good (parseCreateTable p orReplace).
  Proof. clear - Hc. intros. unfold parseCreateTable. go. Qed.
  Local Hint Resolve w_parseCreateTable : tell.
  Lemma w_parseCreateFunction (p : pos) (orReplace : bool) : gives good (parseCreateFunction p orReplace).
  Proof. clear - Hc. intros. unfold parseCreateFunction. go. Qed.
  Local Hint Resolve w_parseCreateFunction : tell.
  Lemma w_parseDictionaryAttribute  : gives good parseDictionaryAttribute.
  Proof. clear - Hc. intros. unfold parseDictionaryAttribute. go. Qed.
  Local Hint Resolve w_parseDictionaryAttribute : tell.
  Lemma w_parseDictionarySchemaClause  : gives good parseDictionarySchemaClause.
  Proof. clear - Hc. intros. unfold parseDictionarySchemaClause. go. Qed.
  Local Hint Resolve w_parseDictionarySchemaClause : tell.
  Lemma w_parseDictionaryPrimaryKeyClause  : gives good parseDictionaryPrimaryKeyClause.
  Proof. clear - Hc. intros. unfold parseDictionaryPrimaryKeyClause. go. Qed.
  Local Hint Resolve w_parseDictionaryPrimaryKeyClause : tell.
  Lemma w_parseDictionaryArgExprs  : gives good parseDictionaryArgExprs.
  Proof. clear - Hc. intros. unfold parseDictionaryArgExprs. go. Qed.
  Local Hint Resolve w_parseDictionaryArgExprs : tell.
  Lemma w_body_DictArg (p : pos) : gives good (body_DictArg p).
  Proof. clear - Hc. intros. unfold body_DictArg. go. Qed.
  Local Hint Resolve w_body_DictArg : tell.
  Lemma w_parseDictionarySourceClause  : gives good parseDictionarySourceClause.
  Proof. clear - Hc. intros. unfold parseDictionarySourceClause. go. Qed.
  Local Hint Resolve w_parseDictionarySourceClause : tell.
  Lemma w_parseDictionaryLifetimeClause  : gives good parseDictionaryLifetimeClause.
  Proof. clear - Hc. intros. unfold parseDictionaryLifetimeClause. push; match goal with |- context [if ?c then "LIKE" else _] => destruct c end; val. Qed.
  Local Hint Resolve w_parseDictionaryLifetimeClause : tell.
  Lemma w_parseDictionaryLayoutClause  : gives good parseDictionaryLayoutClause.
  Proof. clear - Hc. intros. unfold parseDictionaryLayoutClause. go. Qed.
  Local Hint Resolve w_parseDictionaryLayoutClause : tell.
  Lemma w_parseDictionaryRangeClause  : gives good parseDictionaryRangeClause.
  Proof. clear - Hc. intros. unfold parseDictionaryRangeClause. go. Qed.
  Local Hint Resolve w_parseDictionaryRangeClause : tell.
  Lemma w_parseDictionarySettingsClause  : gives (fun e => ok e /\ exists p q l, e = ESettingsClause p q l) parseDictionarySettingsClause.
  Proof. clear - Hc. intros. unfold parseDictionarySettingsClause. push. Qed.
  Local Hint Resolve w_parseDictionarySettingsClause : tell.
  Lemma w_parseDictionaryEngineClause  : gives good parseDictionaryEngineClause.
  Proof. clear - Hc. intros. unfold parseDictionaryEngineClause. go. Qed.
  Local Hint Resolve w_parseDictionaryEngineClause : tell.
  Lemma w_parseCreateDictionary (p : pos) (orReplace : bool) : gives good (parseCreateDictionary p orReplace).
  Proof. clear - Hc. intros. unfold parseCreateDictionary. go. Qed.
  Local Hint Resolve w_parseCreateDictionary : tell.
  Lemma w_parseUseStmt (p : pos) : gives good (parseUseStmt p).
  Proof. clear - Hc. intros. unfold parseUseStmt. go. Qed.
  Local Hint Resolve w_parseUseStmt : tell.
  Lemma w_parseShowStmt (p : pos) : gives good (parseShowStmt p).
  Proof. clear - Hc. intros. unfold parseShowStmt. push; match goal with |- context [if ?c then "LIKE" else _] => destruct c end; val. Qed.
  Local Hint Resolve w_parseShowStmt : tell.
  Lemma w_parseDescribeStmt (p : pos) : gives good (parseDescribeStmt p).
  Proof. clear - Hc. intros. unfold parseDescribeStmt. go. Qed.
  Local Hint Resolve w_parseDescribeStmt : tell.
  Lemma w_parseTruncateTable (p : pos) : gives good (parseTruncateTable p).
  Proof. clear - Hc. intros. unfold parseTruncateTable. go. Qed.
  Local Hint Resolve w_parseTruncateTable : tell.
  Lemma w_parseDeleteClause (p : pos) : gives good (parseDeleteClause p).
  Proof. clear - Hc. intros. unfold parseDeleteClause. go. Qed.
  Local Hint Resolve w_parseDeleteClause : tell.
  Lemma w_parseColumnNamesExpr  : gives good parseColumnNamesExpr.
  Proof. clear - Hc. intros. unfold parseColumnNamesExpr. go. Qed.
  Local Hint Resolve w_parseColumnNamesExpr : tell.
  Lemma w_parseTypedPlaceholder  : gives good parseTypedPlaceholder.
  Proof. clear - Hc. intros. unfold parseTypedPlaceholder. go. Qed.
  Local Hint Resolve w_parseTypedPlaceholder : tell.
  Lemma w_body_AssignValues (p : pos) : gives good (body_AssignValues p).
  Proof. clear - Hc. intros. unfold body_AssignValues. go. Qed.
  Local Hint Resolve w_body_AssignValues : tell.
  Lemma w_parseInsertStmt (p : pos) : gives good (parseInsertStmt p).
  Proof. clear - Hc. intros. unfold parseInsertStmt. push; match goal with |- context [if ?c then "LIKE" else _] => destruct c end; val. Qed.
  Local Hint Resolve w_parseInsertStmt : tell.
  Lemma w_parseTargetPair  : gives good parseTargetPair.
  Proof. clear - Hc. intros. unfold parseTargetPair. go. Qed.
  Local Hint Resolve w_parseTargetPair : tell.
  Lemma w_parseRenameStmt (p : pos) : gives good (parseRenameStmt p).
  Proof. clear - Hc. intros. unfold parseRenameStmt. go. Qed.
  Local Hint Resolve w_parseRenameStmt : tell.
End Write.
Global Hint Resolve w_tryParseClusterClause w_tryParseCompressionLevel w_tryParseCompressionCodecs w_tryParsePrimaryKeyClause w_tryParseTableOrderByClause w_tryParseTTLPolicy w_parseTTLExpr w_parseTTLClause w_tryParseTTLClause w_tryParseSampleByClause w_parseDestinationClause w_parseEngineExpr w_tryParseEngineExpr w_tryParseProjectionOrderBy w_parseProjectionSelect w_parseTableProjection w_parseTableIndex w_parseTableColumnExpr w_tryParseTableColumnExpr w_parseTableColumns w_parseTableSchemaClause w_parseCreateDatabase w_parseNamedCollectionParam w_parseCreateNamedCollection w_parseCreateTable w_parseCreateFunction w_parseDictionaryAttribute w_parseDictionarySchemaClause w_parseDictionaryPrimaryKeyClause w_parseDictionaryArgExprs w_body_DictArg w_parseDictionarySourceClause w_parseDictionaryLifetimeClause w_parseDictionaryLayoutClause w_parseDictionaryRangeClause w_parseDictionarySettingsClause w_parseDictionaryEngineClause w_parseCreateDictionary w_parseUseStmt w_parseShowStmt w_parseDescribeStmt w_parseTruncateTable w_parseDeleteClause w_parseColumnNamesExpr w_parseTypedPlaceholder w_body_AssignValues w_parseInsertStmt w_parseTargetPair w_parseRenameStmt : tell.
Global Hint Extern 0 (WriteLogic.gives _ (closedLoop _)) => (apply w_closedLoop; first [assumption | solve [go]]) : tell.
