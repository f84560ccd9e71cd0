(** Proofs for C41: the functions of ParserTable.v. *)
From Coq Require Import String List Arith Bool Lia ZArith.
From Verif Require Import Str Keyword Lexer Ast AstPos AstSubs Prog RunFacts ParserCommon ParserExpr ParserQuery ParserTable ParserAlter ParserView ParserSystem Parser Words KeepSpec KeepLogic KeepTac KeepCommon KeepExpr KeepQuery.
Import ListNotations.
Local Open Scope string_scope.
Local Open Scope Z_scope.

Lemma ident_name_w `{Word} e : ws (ident_name e) <= cnt e.
Proof. destruct e; try (change (ident_name _) with ""; rewrite (ws_const "" eq_refl); apply cnt_nonneg). cbn [ident_name cnt]. lia. Qed.

Section Keep.
  Context `{Word} {f : nat} (Hc : calls f).
  Local Notation bal := (@KeepLogic.bal _ f).


  Lemma b_closedLoop p s : (forall s, bal s 0 p) -> bal s 0 (closedLoop p).
  Proof. clear - Hc. intros H0. unfold closedLoop. kstep. Qed.
  Local Hint Extern 0 (KeepLogic.bal _ _ (closedLoop _)) => (apply b_closedLoop; intros ?; solve [kstep]) : keep.
  Lemma b_tryParseClusterClause  s : bal s (0) tryParseClusterClause.
  Proof. clear - Hc. unfold tryParseClusterClause. kstep. Qed.
  Local Hint Resolve b_tryParseClusterClause : keep.
  Lemma b_tryParseCompressionLevel  s : bal s (0) tryParseCompressionLevel.
  Proof. clear - Hc. unfold tryParseCompressionLevel. kstep. Qed.
  Local Hint Resolve b_tryParseCompressionLevel : keep.
  Lemma b_tryParseCompressionCodecs s : bal s 0 tryParseCompressionCodecs.
  Proof.
    clear - Hc. unfold tryParseCompressionCodecs. apply bal_bind_pos. eapply bal_bind; [kstep; fail|]. intros b s1. destruct b; [|kstep]. apply bal_bind_expTk. intros ? ?. cbv beta.
    eapply bal_bind; [kstep; fail|]. intros e s2. refine (bal_bind _ _ 0 _ _ _ _); [kstep|]. intros [x y] s3. cbv beta iota. destruct (is_nil y) eqn:E; cbn [negb andb]; kstep.
  Qed.
  Local Hint Resolve b_tryParseCompressionCodecs : keep.
  Lemma b_tryParsePrimaryKeyClause  s : bal s (0) tryParsePrimaryKeyClause.
  Proof. clear - Hc. unfold tryParsePrimaryKeyClause. kstep. Qed.
  Local Hint Resolve b_tryParsePrimaryKeyClause : keep.
  Lemma b_tryParseTableOrderByClause  s : bal s (0) tryParseTableOrderByClause.
  Proof. clear - Hc. unfold tryParseTableOrderByClause. kstep. Qed.
  Local Hint Resolve b_tryParseTableOrderByClause : keep.
  Lemma b_tryParseTTLPolicy  s : bal s (0) tryParseTTLPolicy.
  Proof. clear - Hc. unfold tryParseTTLPolicy. kstep. Qed.
  Local Hint Resolve b_tryParseTTLPolicy : keep.
  Lemma b_parseTTLExpr (p : pos) s : bal s (0) (parseTTLExpr p).
  Proof. clear - Hc. unfold parseTTLExpr. kstep. Qed.
  Local Hint Resolve b_parseTTLExpr : keep.
  Lemma b_parseTTLClause (p : pos) (allowMultiValues : bool) s : bal s (0) (parseTTLClause p allowMultiValues).
  Proof. clear - Hc. unfold parseTTLClause. kstep. Qed.
  Local Hint Resolve b_parseTTLClause : keep.
  Lemma b_tryParseTTLClause (allowMultiValues : bool) s : bal s (0) (tryParseTTLClause allowMultiValues).
  Proof. clear - Hc. unfold tryParseTTLClause. kstep. Qed.
  Local Hint Resolve b_tryParseTTLClause : keep.
  Lemma b_tryParseSampleByClause  s : bal s (0) tryParseSampleByClause.
  Proof. clear - Hc. unfold tryParseSampleByClause. kstep. Qed.
  Local Hint Resolve b_tryParseSampleByClause : keep.
  Lemma b_parseDestinationClause  s : bal s (0) parseDestinationClause.
  Proof. clear - Hc. unfold parseDestinationClause. kstep. Qed.
  Local Hint Resolve b_parseDestinationClause : keep.
  Lemma b_parseEngineExpr (p : pos) s : bal s 0 (parseEngineExpr p).
  Proof.
    clear - Hc. unfold parseEngineExpr. apply bal_cur with (k := fun it => bind (if kw it "ENGINE" then skip else Fail (ExpKw it "ENGINE")) _). intros Ho.
    destruct (kw (here s) "ENGINE") eqn:E; [|kstep]. pose proof (lossy_kw _ _ Ho E eq_refl) as Ht. kstep. pose proof (ident_name_w a0). lia.
  Qed.
  Local Hint Resolve b_parseEngineExpr : keep.
  Lemma b_tryParseEngineExpr  s : bal s (0) tryParseEngineExpr.
  Proof. clear - Hc. unfold tryParseEngineExpr. kstep. Qed.
  Local Hint Resolve b_tryParseEngineExpr : keep.
  Lemma b_tryParseProjectionOrderBy  s : bal s (0) tryParseProjectionOrderBy.
  Proof. clear - Hc. unfold tryParseProjectionOrderBy. kstep. Qed.
  Local Hint Resolve b_tryParseProjectionOrderBy : keep.
  Lemma b_parseProjectionSelect  s : bal s (0) parseProjectionSelect.
  Proof. clear - Hc. unfold parseProjectionSelect. kstep. Qed.
  Local Hint Resolve b_parseProjectionSelect : keep.
  Lemma b_parseTableProjection (p : pos) (includeProjectionKeyword : bool) s : bal s (0) (parseTableProjection p includeProjectionKeyword).
  Proof. clear - Hc. unfold parseTableProjection. kstep. Qed.
  Local Hint Resolve b_parseTableProjection : keep.
  Lemma b_parseTableIndex (p : pos) s : bal s (0) (parseTableIndex p).
  Proof. clear - Hc. unfold parseTableIndex. kstep. Qed.
  Local Hint Resolve b_parseTableIndex : keep.
  Lemma b_parseTableColumnExpr (p : pos) s : bal s (0) (parseTableColumnExpr p).
  Proof. clear - Hc. unfold parseTableColumnExpr. kstep. Qed.
  Local Hint Resolve b_parseTableColumnExpr : keep.
  Lemma b_tryParseTableColumnExpr  s : bal s (0) tryParseTableColumnExpr.
  Proof. clear - Hc. unfold tryParseTableColumnExpr. kstep. Qed.
  Local Hint Resolve b_tryParseTableColumnExpr : keep.
  Lemma b_parseTableColumns  s : bal s (0) parseTableColumns.
  Proof. clear - Hc. unfold parseTableColumns. kstep. Qed.
  Local Hint Resolve b_parseTableColumns : keep.
  Lemma b_parseTableSchemaClause  s : bal s (0) parseTableSchemaClause.
  Proof. clear - Hc. unfold parseTableSchemaClause. kstep. Qed.
  Local Hint Resolve b_parseTableSchemaClause : keep.
  Lemma b_parseCreateDatabase (p : pos) s : bal s (0) (parseCreateDatabase p).
  Proof. clear - Hc. unfold parseCreateDatabase. kstep. Qed.
  Local Hint Resolve b_parseCreateDatabase : keep.
  Lemma b_parseNamedCollectionParam  s : bal s (0) parseNamedCollectionParam.
  Proof. clear - Hc. unfold parseNamedCollectionParam. kstep. Qed.
  Local Hint Resolve b_parseNamedCollectionParam : keep.
  Lemma b_parseCreateNamedCollection (p : pos) s : bal s (0) (parseCreateNamedCollection p).
  Proof. clear - Hc. unfold parseCreateNamedCollection. kstep. Qed.
  Local Hint Resolve b_parseCreateNamedCollection : keep.
  Lemma b_parseCreateTable (p : pos) (orReplace : bool) s : bal s (0) (parseCreateTable p orReplace).
  Proof. clear - Hc. unfold parseCreateTable. kstep. Qed.
  Local Hint Resolve b_parseCreateTable : keep.
  Lemma b_parseCreateFunction (p : pos) (orReplace : bool) s : bal s (0) (parseCreateFunction p orReplace).
  Proof. clear - Hc. unfold parseCreateFunction. kstep. Qed.
  Local Hint Resolve b_parseCreateFunction : keep.
  Lemma b_parseDictionaryAttribute  s : bal s (0) parseDictionaryAttribute.
  Proof. clear - Hc. unfold parseDictionaryAttribute. kstep. Qed.
  Local Hint Resolve b_parseDictionaryAttribute : keep.
  Lemma b_parseDictionarySchemaClause  s : bal s (0) parseDictionarySchemaClause.
  Proof. clear - Hc. unfold parseDictionarySchemaClause. kstep. Qed.
  Local Hint Resolve b_parseDictionarySchemaClause : keep.
  Lemma b_parseDictionaryPrimaryKeyClause  s : bal s (0) parseDictionaryPrimaryKeyClause.
  Proof. clear - Hc. unfold parseDictionaryPrimaryKeyClause. kstep. Qed.
  Local Hint Resolve b_parseDictionaryPrimaryKeyClause : keep.
  Lemma b_parseDictionaryArgExprs  s : bal s (0) parseDictionaryArgExprs.
  Proof. clear - Hc. unfold parseDictionaryArgExprs. kstep. Qed.
  Local Hint Resolve b_parseDictionaryArgExprs : keep.
  Lemma b_body_DictArg (p : pos) s : bal s (0) (body_DictArg p).
  Proof. clear - Hc. unfold body_DictArg. kstep. Qed.
  Local Hint Resolve b_body_DictArg : keep.
  Lemma b_parseDictionarySourceClause  s : bal s (0) parseDictionarySourceClause.
  Proof. clear - Hc. unfold parseDictionarySourceClause. kstep. Qed.
  Local Hint Resolve b_parseDictionarySourceClause : keep.
  Lemma b_parseDictionaryLifetimeClause  s : bal s (0) parseDictionaryLifetimeClause.
  Proof. clear - Hc. unfold parseDictionaryLifetimeClause. kstep. Qed.
  Local Hint Resolve b_parseDictionaryLifetimeClause : keep.
  Lemma b_parseDictionaryLayoutClause  s : bal s (0) parseDictionaryLayoutClause.
  Proof. clear - Hc. unfold parseDictionaryLayoutClause. kstep. Qed.
  Local Hint Resolve b_parseDictionaryLayoutClause : keep.
  Lemma b_parseDictionaryRangeClause  s : bal s (0) parseDictionaryRangeClause.
  Proof. clear - Hc. unfold parseDictionaryRangeClause. kstep. Qed.
  Local Hint Resolve b_parseDictionaryRangeClause : keep.
  Lemma b_parseDictionarySettingsClause  s : bal s (0) parseDictionarySettingsClause.
  Proof. clear - Hc. unfold parseDictionarySettingsClause. kstep. Qed.
  Local Hint Resolve b_parseDictionarySettingsClause : keep.
  Lemma b_parseDictionaryEngineClause  s : bal s (0) parseDictionaryEngineClause.
  Proof. clear - Hc. unfold parseDictionaryEngineClause. kstep. Qed.
  Local Hint Resolve b_parseDictionaryEngineClause : keep.
  Lemma b_parseCreateDictionary (p : pos) (orReplace : bool) s : bal s (0) (parseCreateDictionary p orReplace).
  Proof. clear - Hc. unfold parseCreateDictionary. kstep. Qed.
  Local Hint Resolve b_parseCreateDictionary : keep.
  Lemma b_parseUseStmt (p : pos) s : bal s (0) (parseUseStmt p).
  Proof. clear - Hc. unfold parseUseStmt. kstep. Qed.
  Local Hint Resolve b_parseUseStmt : keep.
  Lemma b_parseShowStmt (p : pos) s : bal s (0) (parseShowStmt p).
  Proof. clear - Hc. unfold parseShowStmt. kstep. Qed.
  Local Hint Resolve b_parseShowStmt : keep.
  Lemma b_parseDescribeStmt (p : pos) s : bal s (0) (parseDescribeStmt p).
  Proof. clear - Hc. unfold parseDescribeStmt. kstep. Qed.
  Local Hint Resolve b_parseDescribeStmt : keep.
  Lemma b_parseTruncateTable (p : pos) s : bal s (0) (parseTruncateTable p).
  Proof. clear - Hc. unfold parseTruncateTable. kstep. Qed.
  Local Hint Resolve b_parseTruncateTable : keep.
  Lemma b_parseDeleteClause (p : pos) s : bal s (0) (parseDeleteClause p).
  Proof. clear - Hc. unfold parseDeleteClause. kstep. Qed.
  Local Hint Resolve b_parseDeleteClause : keep.
  Lemma b_parseColumnNamesExpr  s : bal s (0) parseColumnNamesExpr.
  Proof. clear - Hc. unfold parseColumnNamesExpr. kstep. Qed.
  Local Hint Resolve b_parseColumnNamesExpr : keep.
  Lemma b_parseTypedPlaceholder  s : bal s (0) parseTypedPlaceholder.
  Proof. clear - Hc. unfold parseTypedPlaceholder. kstep. Qed.
  Local Hint Resolve b_parseTypedPlaceholder : keep.
  Lemma b_body_AssignValues (p : pos) s : bal s (0) (body_AssignValues p).
  Proof. clear - Hc. unfold body_AssignValues. kstep. Qed.
  Local Hint Resolve b_body_AssignValues : keep.
  Lemma b_parseInsertStmt (p : pos) s : bal s (0) (parseInsertStmt p).
  Proof. clear - Hc. unfold parseInsertStmt. kstep. Qed.
  Local Hint Resolve b_parseInsertStmt : keep.
  Lemma b_parseTargetPair  s : bal s (0) parseTargetPair.
  Proof. clear - Hc. unfold parseTargetPair. kstep. Qed.
  Local Hint Resolve b_parseTargetPair : keep.
  Lemma b_parseRenameStmt (p : pos) s : bal s (0) (parseRenameStmt p).
  Proof. clear - Hc. unfold parseRenameStmt. kstep. Qed.
  Local Hint Resolve b_parseRenameStmt : keep.
End Keep.
Global Hint Resolve b_tryParseClusterClause b_tryParseCompressionLevel b_tryParseCompressionCodecs b_tryParsePrimaryKeyClause b_tryParseTableOrderByClause b_tryParseTTLPolicy b_parseTTLExpr b_parseTTLClause b_tryParseTTLClause b_tryParseSampleByClause b_parseDestinationClause b_parseEngineExpr b_tryParseEngineExpr b_tryParseProjectionOrderBy b_parseProjectionSelect b_parseTableProjection b_parseTableIndex b_parseTableColumnExpr b_tryParseTableColumnExpr b_parseTableColumns b_parseTableSchemaClause b_parseCreateDatabase b_parseNamedCollectionParam b_parseCreateNamedCollection b_parseCreateTable b_parseCreateFunction b_parseDictionaryAttribute b_parseDictionarySchemaClause b_parseDictionaryPrimaryKeyClause b_parseDictionaryArgExprs b_body_DictArg b_parseDictionarySourceClause b_parseDictionaryLifetimeClause b_parseDictionaryLayoutClause b_parseDictionaryRangeClause b_parseDictionarySettingsClause b_parseDictionaryEngineClause b_parseCreateDictionary b_parseUseStmt b_parseShowStmt b_parseDescribeStmt b_parseTruncateTable b_parseDeleteClause b_parseColumnNamesExpr b_parseTypedPlaceholder b_body_AssignValues b_parseInsertStmt b_parseTargetPair b_parseRenameStmt : keep.
Global Hint Extern 0 (KeepLogic.bal _ _ (closedLoop _)) => (apply b_closedLoop; first [assumption | intros ?; solve [kstep]]) : keep.
