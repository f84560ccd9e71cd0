(** Proofs for C24: the functions of ParserTable.v on two inputs that are the same up to the spelling of keywords. *)
From Coq Require Import String List Arith Bool Lia ZArith.
From Verif Require Import Str Keyword Lexer Ast AstPos AstSubs Prog RunFacts ParserCommon ParserExpr ParserQuery ParserTable ParserAlter ParserView ParserSystem Parser Recase CaseRel CaseFold CaseItem CaseCommon CaseExpr CaseQuery.
Import ListNotations.
Local Open Scope string_scope.
Local Open Scope nat_scope.

Lemma sim_sub {f A} (F G : Rel A) (p q : prog A) : (forall x y, @rl _ F x y -> @rl _ G x y) -> @sim f A F p q -> @sim f A G p q.
Proof.
  intros H Hp s t Hs. specialize (Hp s t Hs). destruct (run body (S f) p s), (run body (S f) q t); cbn [orel] in *; try contradiction; intuition auto.
Qed.

Section Case.
  Context {f : nat} (Hc : calls f).
  Local Notation sim := (@CaseRel.sim f _ _).

  Lemma c_ifKw {A} {F : Rel A} k (a a1 b b1 : prog A) : @CaseRel.sim f A F a a1 -> @CaseRel.sim f A F b b1 -> @CaseRel.sim f A F (ifKw k a b) (ifKw k a1 b1).
  Proof. clear - Hc. intros H1 H2. unfold ifKw. refine (sim_bind _ _ _ _ _ _); [step|]. intro_rel. destruct b0; assumption. Qed.
  Local Hint Extern 0 (CaseRel.sim (ifKw _ _ _) (ifKw _ _ _)) => (apply c_ifKw; step) : case.
  Lemma c_closedLoop p p1 : sim p p1 -> sim (closedLoop p) (closedLoop p1).
  Proof. clear - Hc. intros H. unfold closedLoop. step. Qed.
  Local Hint Extern 0 (CaseRel.sim (closedLoop _) (closedLoop _)) => (apply c_closedLoop; step) : case.
  Lemma c_tryParseClusterClause  : sim (tryParseClusterClause) (tryParseClusterClause).
  Proof. clear - Hc. intros. unfold tryParseClusterClause. step. Qed.
  Local Hint Resolve c_tryParseClusterClause : case.
  Lemma c_tryParseCompressionLevel  : sim (tryParseCompressionLevel) (tryParseCompressionLevel).
  Proof. clear - Hc. intros. unfold tryParseCompressionLevel. step. Qed.
  Local Hint Resolve c_tryParseCompressionLevel : case.
  Lemma c_tryParseCompressionCodecs  : sim (tryParseCompressionCodecs) (tryParseCompressionCodecs).
  Proof. clear - Hc. intros. unfold tryParseCompressionCodecs. step. Qed.
  Local Hint Resolve c_tryParseCompressionCodecs : case.
  Lemma c_tryParsePrimaryKeyClause  : sim (tryParsePrimaryKeyClause) (tryParsePrimaryKeyClause).
  Proof. clear - Hc. intros. unfold tryParsePrimaryKeyClause. step. Qed.
  Local Hint Resolve c_tryParsePrimaryKeyClause : case.
  Lemma c_tryParseTableOrderByClause  : sim (tryParseTableOrderByClause) (tryParseTableOrderByClause).
  Proof. clear - Hc. intros. unfold tryParseTableOrderByClause. step. Qed.
  Local Hint Resolve c_tryParseTableOrderByClause : case.
  Lemma c_tryParseTTLPolicy  : sim (tryParseTTLPolicy) (tryParseTTLPolicy).
  Proof. clear - Hc. intros. unfold tryParseTTLPolicy. step. Qed.
  Local Hint Resolve c_tryParseTTLPolicy : case.
  Lemma c_parseTTLExpr (p : pos) : sim (parseTTLExpr p) (parseTTLExpr p).
  Proof. clear - Hc. intros. unfold parseTTLExpr. step. Qed.
  Local Hint Resolve c_parseTTLExpr : case.
  Lemma c_parseTTLClause (p : pos) (allowMultiValues : bool) : sim (parseTTLClause p allowMultiValues) (parseTTLClause p allowMultiValues).
  Proof. clear - Hc. intros. unfold parseTTLClause. step. Qed.
  Local Hint Resolve c_parseTTLClause : case.
  Lemma c_tryParseTTLClause (allowMultiValues : bool) : sim (tryParseTTLClause allowMultiValues) (tryParseTTLClause allowMultiValues).
  Proof. clear - Hc. intros. unfold tryParseTTLClause. step. Qed.
  Local Hint Resolve c_tryParseTTLClause : case.
  Lemma c_tryParseSampleByClause  : sim (tryParseSampleByClause) (tryParseSampleByClause).
  Proof. clear - Hc. intros. unfold tryParseSampleByClause. step. Qed.
  Local Hint Resolve c_tryParseSampleByClause : case.
  Lemma c_parseDestinationClause  : sim (parseDestinationClause) (parseDestinationClause).
  Proof. clear - Hc. intros. unfold parseDestinationClause. step. Qed.
  Local Hint Resolve c_parseDestinationClause : case.
  Lemma c_parseEngineExpr (p : pos) : sim (parseEngineExpr p) (parseEngineExpr p).
  Proof. clear - Hc. intros. unfold parseEngineExpr. step. Qed.
  Local Hint Resolve c_parseEngineExpr : case.
  Lemma c_tryParseEngineExpr  : sim (tryParseEngineExpr) (tryParseEngineExpr).
  Proof. clear - Hc. intros. unfold tryParseEngineExpr. step. Qed.
  Local Hint Resolve c_tryParseEngineExpr : case.
  Lemma c_tryParseProjectionOrderBy  : sim (tryParseProjectionOrderBy) (tryParseProjectionOrderBy).
  Proof. clear - Hc. intros. unfold tryParseProjectionOrderBy. step. Qed.
  Local Hint Resolve c_tryParseProjectionOrderBy : case.
  Lemma c_parseProjectionSelect  : sim (parseProjectionSelect) (parseProjectionSelect).
  Proof. clear - Hc. intros. unfold parseProjectionSelect. step. Qed.
  Local Hint Resolve c_parseProjectionSelect : case.
  Lemma c_parseTableProjection (p : pos) (includeProjectionKeyword : bool) : sim (parseTableProjection p includeProjectionKeyword) (parseTableProjection p includeProjectionKeyword).
  Proof. clear - Hc. intros. unfold parseTableProjection. step. Qed.
  Local Hint Resolve c_parseTableProjection : case.
  Lemma c_parseTableIndex (p : pos) : sim (parseTableIndex p) (parseTableIndex p).
  Proof. clear - Hc. intros. unfold parseTableIndex. step. Qed.
  Local Hint Resolve c_parseTableIndex : case.
  Lemma c_parseTableColumnExpr (p : pos) : sim (parseTableColumnExpr p) (parseTableColumnExpr p).
  Proof. clear - Hc. intros. unfold parseTableColumnExpr. step. Qed.
  Local Hint Resolve c_parseTableColumnExpr : case.
  Lemma c_tryParseTableColumnExpr  : sim (tryParseTableColumnExpr) (tryParseTableColumnExpr).
  Proof. clear - Hc. intros. unfold tryParseTableColumnExpr. step. Qed.
  Local Hint Resolve c_tryParseTableColumnExpr : case.
  Lemma c_parseTableColumns  : sim (parseTableColumns) (parseTableColumns).
  Proof. clear - Hc. intros. unfold parseTableColumns. step. Qed.
  Local Hint Resolve c_parseTableColumns : case.
  Lemma c_parseTableSchemaClause  : sim (parseTableSchemaClause) (parseTableSchemaClause).
  Proof. clear - Hc. intros. unfold parseTableSchemaClause. step. Qed.
  Local Hint Resolve c_parseTableSchemaClause : case.
  Lemma c_parseCreateDatabase (p : pos) : sim (parseCreateDatabase p) (parseCreateDatabase p).
  Proof. clear - Hc. intros. unfold parseCreateDatabase. step. Qed.
  Local Hint Resolve c_parseCreateDatabase : case.
  Lemma c_parseNamedCollectionParam  : sim (parseNamedCollectionParam) (parseNamedCollectionParam).
  Proof. clear - Hc. intros. unfold parseNamedCollectionParam. step. Qed.
  Local Hint Resolve c_parseNamedCollectionParam : case.
  Lemma c_parseCreateNamedCollection (p : pos) : sim (parseCreateNamedCollection p) (parseCreateNamedCollection p).
  Proof. clear - Hc. intros. unfold parseCreateNamedCollection. step. Qed.
  Local Hint Resolve c_parseCreateNamedCollection : case.
  Lemma c_parseCreateTable (p : pos) (orReplace : bool) : sim (parseCreateTable p orReplace) (parseCreateTable p orReplace).
  Proof. clear - Hc. intros. unfold parseCreateTable. step. Qed.
  Local Hint Resolve c_parseCreateTable : case.
  Lemma c_parseCreateFunction (p : pos) (orReplace : bool) : sim (parseCreateFunction p orReplace) (parseCreateFunction p orReplace).
  Proof. clear - Hc. intros. unfold parseCreateFunction. step. Qed.
  Local Hint Resolve c_parseCreateFunction : case.
  Lemma c_parseDictionaryAttribute  : sim (parseDictionaryAttribute) (parseDictionaryAttribute).
  Proof. clear - Hc. intros. unfold parseDictionaryAttribute. step. Qed.
  Local Hint Resolve c_parseDictionaryAttribute : case.
  Lemma c_parseDictionarySchemaClause  : sim (parseDictionarySchemaClause) (parseDictionarySchemaClause).
  Proof. clear - Hc. intros. unfold parseDictionarySchemaClause. step. Qed.
  Local Hint Resolve c_parseDictionarySchemaClause : case.
  Lemma c_parseDictionaryPrimaryKeyClause  : sim (parseDictionaryPrimaryKeyClause) (parseDictionaryPrimaryKeyClause).
  Proof. clear - Hc. intros. unfold parseDictionaryPrimaryKeyClause. step. Qed.
  Local Hint Resolve c_parseDictionaryPrimaryKeyClause : case.
  Lemma c_parseDictionaryArgExprs  : sim (parseDictionaryArgExprs) (parseDictionaryArgExprs).
  Proof. clear - Hc. intros. unfold parseDictionaryArgExprs. step. Qed.
  Local Hint Resolve c_parseDictionaryArgExprs : case.
  Lemma c_body_DictArg (p : pos) : sim (body_DictArg p) (body_DictArg p).
  Proof. clear - Hc. intros. unfold body_DictArg. step. Qed.
  Local Hint Resolve c_body_DictArg : case.
  Lemma c_parseDictionarySourceClause  : sim (parseDictionarySourceClause) (parseDictionarySourceClause).
  Proof. clear - Hc. intros. unfold parseDictionarySourceClause. step. Qed.
  Local Hint Resolve c_parseDictionarySourceClause : case.
  Lemma c_parseDictionaryLifetimeClause  : sim (parseDictionaryLifetimeClause) (parseDictionaryLifetimeClause).
  Proof. clear - Hc. intros. unfold parseDictionaryLifetimeClause. step. Qed.
  Local Hint Resolve c_parseDictionaryLifetimeClause : case.
  Lemma c_parseDictionaryLayoutClause  : sim (parseDictionaryLayoutClause) (parseDictionaryLayoutClause).
  Proof. clear - Hc. intros. unfold parseDictionaryLayoutClause. step. Qed.
  Local Hint Resolve c_parseDictionaryLayoutClause : case.
  Lemma c_parseDictionaryRangeClause  : sim (parseDictionaryRangeClause) (parseDictionaryRangeClause).
  Proof. clear - Hc. intros. unfold parseDictionaryRangeClause. step. Qed.
  Local Hint Resolve c_parseDictionaryRangeClause : case.
  Lemma c_parseDictionarySettingsClause  : sim (parseDictionarySettingsClause) (parseDictionarySettingsClause).
  Proof. clear - Hc. intros. unfold parseDictionarySettingsClause. step. Qed.
  Local Hint Resolve c_parseDictionarySettingsClause : case.
  Lemma c_parseDictionaryEngineClause  : sim (parseDictionaryEngineClause) (parseDictionaryEngineClause).
  Proof. clear - Hc. intros. unfold parseDictionaryEngineClause. step. Qed.
  Local Hint Resolve c_parseDictionaryEngineClause : case.
  Lemma c_parseCreateDictionary (p : pos) (orReplace : bool) : sim (parseCreateDictionary p orReplace) (parseCreateDictionary p orReplace).
  Proof. clear - Hc. intros. unfold parseCreateDictionary. step. Qed.
  Local Hint Resolve c_parseCreateDictionary : case.
  Lemma c_parseUseStmt (p : pos) : sim (parseUseStmt p) (parseUseStmt p).
  Proof. clear - Hc. intros. unfold parseUseStmt. step. Qed.
  Local Hint Resolve c_parseUseStmt : case.
  Lemma c_parseShowStmt (p : pos) : sim (parseShowStmt p) (parseShowStmt p).
  Proof.
    clear - Hc. unfold parseShowStmt. do 2 (refine (sim_bind _ _ _ _ _ _); [step|]; intro_rel).
    match goal with |- CaseRel.sim (if ?b then _ else _) _ => destruct b end; [step|].
    match goal with |- CaseRel.sim (if ?b then _ else _) _ => destruct b end; [|step].
    do 10 (refine (sim_bind _ _ _ _ _ _); [step|]; intro_rel).
    refine (@sim_bind _ expr _ (fun a b => fmt a = fmt b) _ _ _ _ _ _ _).
    - match goal with |- CaseRel.sim (if ?b then _ else _) _ => destruct b end; [|apply sim_ret; reflexivity].
      do 2 (refine (sim_bind _ _ _ _ _ _); [step|]; intro_rel).
      match goal with |- CaseRel.sim (if ?b then _ else _) (if ?c then _ else _) => replace c with b by same; destruct b end.
      + apply (sim_sub Rel_expr); [intros x y; apply fmt_rel|step].
      + match goal with |- CaseRel.sim (if ?b then _ else _) (if ?c then _ else _) => replace c with b by same; destruct b end; [|step].
        refine (sim_bind _ _ _ _ _ _); [step|]; intro_rel. apply sim_ret. cbv [rl]. cbn [fmt]. f_equal. assumption.
    - intros x y Hf. refine (sim_bind _ _ _ _ _ _); [step|]; intro_rel. apply sim_ret. cbv [rl Rel_expr]. cbn [fold]. fold (fmt x) (fmt y). change (fmt x = fmt y) in Hf. f_equal; same.
  Qed.
  Local Hint Resolve c_parseShowStmt : case.
  Lemma c_parseDescribeStmt (p : pos) : sim (parseDescribeStmt p) (parseDescribeStmt p).
  Proof. clear - Hc. intros. unfold parseDescribeStmt. step. Qed.
  Local Hint Resolve c_parseDescribeStmt : case.
  Lemma c_parseTruncateTable (p : pos) : sim (parseTruncateTable p) (parseTruncateTable p).
  Proof. clear - Hc. intros. unfold parseTruncateTable. step. Qed.
  Local Hint Resolve c_parseTruncateTable : case.
  Lemma c_parseDeleteClause (p : pos) : sim (parseDeleteClause p) (parseDeleteClause p).
  Proof. clear - Hc. intros. unfold parseDeleteClause. step. Qed.
  Local Hint Resolve c_parseDeleteClause : case.
  Lemma c_parseColumnNamesExpr  : sim (parseColumnNamesExpr) (parseColumnNamesExpr).
  Proof. clear - Hc. intros. unfold parseColumnNamesExpr. step. Qed.
  Local Hint Resolve c_parseColumnNamesExpr : case.
  Lemma c_parseTypedPlaceholder  : sim (parseTypedPlaceholder) (parseTypedPlaceholder).
  Proof. clear - Hc. intros. unfold parseTypedPlaceholder. step. Qed.
  Local Hint Resolve c_parseTypedPlaceholder : case.
  Lemma c_body_AssignValues (p : pos) : sim (body_AssignValues p) (body_AssignValues p).
  Proof. clear - Hc. intros. unfold body_AssignValues. step. Qed.
  Local Hint Resolve c_body_AssignValues : case.
  Lemma c_parseInsertStmt (p : pos) : sim (parseInsertStmt p) (parseInsertStmt p).
  Proof. clear - Hc. intros. unfold parseInsertStmt. step. Qed.
  Local Hint Resolve c_parseInsertStmt : case.
  Lemma c_parseTargetPair  : sim (parseTargetPair) (parseTargetPair).
  Proof. clear - Hc. intros. unfold parseTargetPair. step. Qed.
  Local Hint Resolve c_parseTargetPair : case.
  Lemma c_parseRenameStmt (p : pos) : sim (parseRenameStmt p) (parseRenameStmt p).
  Proof. clear - Hc. intros. unfold parseRenameStmt. step. Qed.
  Local Hint Resolve c_parseRenameStmt : case.
End Case.
Global Hint Resolve c_tryParseClusterClause c_tryParseCompressionLevel c_tryParseCompressionCodecs c_tryParsePrimaryKeyClause c_tryParseTableOrderByClause c_tryParseTTLPolicy c_parseTTLExpr c_parseTTLClause c_tryParseTTLClause c_tryParseSampleByClause c_parseDestinationClause c_parseEngineExpr c_tryParseEngineExpr c_tryParseProjectionOrderBy c_parseProjectionSelect c_parseTableProjection c_parseTableIndex c_parseTableColumnExpr c_tryParseTableColumnExpr c_parseTableColumns c_parseTableSchemaClause c_parseCreateDatabase c_parseNamedCollectionParam c_parseCreateNamedCollection c_parseCreateTable c_parseCreateFunction c_parseDictionaryAttribute c_parseDictionarySchemaClause c_parseDictionaryPrimaryKeyClause c_parseDictionaryArgExprs c_body_DictArg c_parseDictionarySourceClause c_parseDictionaryLifetimeClause c_parseDictionaryLayoutClause c_parseDictionaryRangeClause c_parseDictionarySettingsClause c_parseDictionaryEngineClause c_parseCreateDictionary c_parseUseStmt c_parseShowStmt c_parseDescribeStmt c_parseTruncateTable c_parseDeleteClause c_parseColumnNamesExpr c_parseTypedPlaceholder c_body_AssignValues c_parseInsertStmt c_parseTargetPair c_parseRenameStmt : case.
Global Hint Extern 0 (sim (ifKw _ _ _) (ifKw _ _ _)) => (apply c_ifKw; first [assumption | step]) : case.
Global Hint Extern 0 (sim (closedLoop _) (closedLoop _)) => (apply c_closedLoop; first [assumption | step]) : case.
