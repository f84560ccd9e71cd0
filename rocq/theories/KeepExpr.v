(** Proofs for C41: the functions of ParserExpr.v. *)
From Coq Require Import String List Arith Bool Lia ZArith.
From Verif Require Import Str Keyword Lexer Ast AstPos AstSubs Prog RunFacts ParserCommon ParserExpr ParserQuery ParserTable ParserAlter ParserView ParserSystem Parser Words KeepSpec KeepLogic KeepTac KeepCommon.
Import ListNotations.
Local Open Scope string_scope.
Local Open Scope Z_scope.

From Verif Require CaseExpr.
Lemma one_name_w `{Word} e n : CaseExpr.one_name e = Some n -> cnt e = ws n.
Proof.
  unfold CaseExpr.one_name, CaseExpr.one_path. destruct e; try discriminate. match goal with |- match match ?l with _ => _ end with _ => _ end = _ -> _ => destruct l as [|x [|y l]]; try discriminate end.
  unfold CaseExpr.as_name. destruct x; try discriminate. intros E. injection E as <-. cbn [cnt map]. rewrite zsum_cons, zsum_nil. lia.
Qed.

Section Keep.
  Context `{Word} {f : nat} (Hc : calls f).
  Local Notation bal := (@KeepLogic.bal _ f).

  Lemma b_orM p q : (forall s, bal s 0 p) -> (forall s, bal s 0 q) -> forall s, bal s 0 (orM p q).
  Proof. clear - Hc. intros H1 H2 s. unfold orM. eapply bal_bind; [apply H1|]. intros b s'. cbv beta. sizes. destruct b; [kstep|]. eapply bal_eq; [apply H2|lia]. Qed.
  Local Hint Extern 0 (KeepLogic.bal _ _ (orM _ _)) => (apply b_orM; [intros ?; solve [kstep]|intros ?; solve [kstep]]) : keep.
  Lemma b_anyM {X} (g : X -> prog bool) l : (forall x s, bal s 0 (g x)) -> forall s, bal s 0 (anyM g l).
  Proof. clear - Hc. intros H1. induction l as [|x l IH]; intros s; cbn [anyM]; [kstep|]. apply b_orM; [apply H1|exact IH]. Qed.
  Local Hint Extern 0 (KeepLogic.bal _ _ (anyM _ _)) => (apply b_anyM; intros ? ?; solve [kstep]) : keep.
  Lemma b_commaLoop stop p : (forall s, bal s 0 p) -> forall s, bal s 0 (commaLoop stop p).
  Proof. clear - Hc. intros H1 s. unfold commaLoop. kstep. Qed.
  Local Hint Extern 0 (KeepLogic.bal _ _ (commaLoop _ _)) => (apply b_commaLoop; intros ?; solve [kstep]) : keep.
  Lemma b_sepTail sep acc p : leaf sep = false -> (forall s, bal s 0 p) -> forall s, bal s (zsum (map cnt acc)) (sepTail sep acc p).
  Proof. clear - Hc. intros H0 H1 s. pose proof (fun s => b_tryTkb (f:=f) sep s H0) as H2. unfold sepTail. kstep. Qed.
  Local Hint Extern 0 (KeepLogic.bal _ _ (sepTail _ _ _)) => (apply b_sepTail; [reflexivity|intros ?; solve [kstep]]) : keep.
  Lemma b_tryParseColumnComment (p : pos) s : bal s (0) (tryParseColumnComment p).
  Proof. clear - Hc. unfold tryParseColumnComment. kstep. Qed.
  Local Hint Resolve b_tryParseColumnComment : keep.
  Lemma b_peekTk (k : kind) s : bal s (0) (peekTk k).
  Proof. clear - Hc. unfold peekTk. kstep. Qed.
  Local Hint Resolve b_peekTk : keep.
  Lemma b_peekKw (keyword : string) s : bal s (0) (peekKw keyword).
  Proof. clear - Hc. unfold peekKw. kstep. Qed.
  Local Hint Resolve b_peekKw : keep.
  Lemma b_peekIsClauseStarter  s : bal s (0) peekIsClauseStarter.
  Proof. clear - Hc. unfold peekIsClauseStarter. kstep. Qed.
  Local Hint Resolve b_peekIsClauseStarter : keep.
  Lemma b_peekIsEndOfStatement  s : bal s (0) peekIsEndOfStatement.
  Proof. clear - Hc. unfold peekIsEndOfStatement. kstep. Qed.
  Local Hint Resolve b_peekIsEndOfStatement : keep.
  Lemma b_peekIsExpressionContinuation  s : bal s (0) peekIsExpressionContinuation.
  Proof. clear - Hc. unfold peekIsExpressionContinuation. kstep. Qed.
  Local Hint Resolve b_peekIsExpressionContinuation : keep.
  Lemma b_keywordIsSelectItemIdentifier  s : bal s (0) keywordIsSelectItemIdentifier.
  Proof. clear - Hc. unfold keywordIsSelectItemIdentifier. kstep. Qed.
  Local Hint Resolve b_keywordIsSelectItemIdentifier : keep.
  Lemma b_isSelectItemTerminator  s : bal s (0) isSelectItemTerminator.
  Proof. clear - Hc. unfold isSelectItemTerminator. kstep. Qed.
  Local Hint Resolve b_isSelectItemTerminator : keep.
  Lemma b_grab  s : bal s (0) grab.
  Proof. clear - Hc. unfold grab. kstep. Qed.
  Local Hint Resolve b_grab : keep.
  Lemma b_grabIf (l : list string) s : bal s (0) (grabIf l).
  Proof. clear - Hc. unfold grabIf. kstep. Qed.
  Local Hint Resolve b_grabIf : keep.
  Lemma b_parseJoinType  s : bal s (0) parseJoinType.
  Proof. clear - Hc. unfold parseJoinType. kstep. Qed.
  Local Hint Resolve b_parseJoinType : keep.
  Lemma b_parseJoinModifiers  s : bal s (0) parseJoinModifiers.
  Proof. clear - Hc. unfold parseJoinModifiers. kstep. Qed.
  Local Hint Resolve b_parseJoinModifiers : keep.
  Lemma b_peekJoinAfterLocality  s : bal s (0) peekJoinAfterLocality.
  Proof. clear - Hc. unfold peekJoinAfterLocality. kstep. Qed.
  Local Hint Resolve b_peekJoinAfterLocality : keep.
  Lemma b_getNextPrecedence  s : bal s (0) getNextPrecedence.
  Proof. clear - Hc. unfold getNextPrecedence. kstep. Qed.
  Local Hint Resolve b_getNextPrecedence : keep.
  Lemma b_parseColumnType  s : bal s (0) parseColumnType.
  Proof. clear - Hc. unfold parseColumnType. kstep. Qed.
  Local Hint Resolve b_parseColumnType : keep.
  Lemma b_parseColumnPropertyType  s : bal s (0) parseColumnPropertyType.
  Proof. clear - Hc. unfold parseColumnPropertyType. kstep. Qed.
  Local Hint Resolve b_parseColumnPropertyType : keep.
  Lemma b_parseComplexType (name : Ast.expr) (p : pos) s : bal s (cnt name) (parseComplexType name p).
  Proof. clear - Hc. unfold parseComplexType. kstep. Qed.
  Local Hint Resolve b_parseComplexType : keep.
  Lemma b_parseEnumValueExpr  s : bal s (0) parseEnumValueExpr.
  Proof. clear - Hc. unfold parseEnumValueExpr. kstep. Qed.
  Local Hint Resolve b_parseEnumValueExpr : keep.
  Lemma b_parseEnumType (name : Ast.expr) (p : pos) s : bal s (cnt name) (parseEnumType name p).
  Proof. clear - Hc. unfold parseEnumType. kstep. rewrite CaseExpr.enum_end_match. kstep. Qed.
  Local Hint Resolve b_parseEnumType : keep.
  Lemma b_parseColumnTypeWithParams (name : Ast.expr) (p : pos) s : bal s (cnt name) (parseColumnTypeWithParams name p).
  Proof. clear - Hc. unfold parseColumnTypeWithParams. kstep. Qed.
  Local Hint Resolve b_parseColumnTypeWithParams : keep.
  Lemma b_parseJSONPath  s : bal s (0) parseJSONPath.
  Proof. clear - Hc. unfold parseJSONPath. kstep. Qed.
  Local Hint Resolve b_parseJSONPath : keep.
  Lemma b_parseJSONOption s : bal s 0 parseJSONOption.
  Proof.
    clear - Hc. unfold parseJSONOption. kstep. rewrite CaseExpr.one_name_match. destruct (CaseExpr.one_name a0) eqn:E; [|kstep].
    assert (F : forall k, never k = true -> String.eqb s0 k = true -> cnt a0 = 0).
    { intros k Hk Ek. apply String.eqb_eq in Ek. subst s0. rewrite (one_name_w _ _ E). now apply ws_const. }
    destruct (String.eqb s0 "max_dynamic_types") eqn:E1; [pose proof (F "max_dynamic_types" eq_refl E1); kstep|].
    destruct (String.eqb s0 "max_dynamic_paths") eqn:E2; [pose proof (F "max_dynamic_paths" eq_refl E2); kstep|kstep].
  Qed.
  Local Hint Resolve b_parseJSONOption : keep.
  Lemma b_parseJSONType (name : Ast.expr) (p : pos) s : bal s (cnt name) (parseJSONType name p).
  Proof. clear - Hc. unfold parseJSONType. kstep. Qed.
  Local Hint Resolve b_parseJSONType : keep.
  Lemma b_nestedField (name : Ast.expr) (columnType : Ast.expr) s : bal s (cnt name + cnt columnType) (nestedField name columnType).
  Proof. clear - Hc. unfold nestedField. kstep. Qed.
  Local Hint Resolve b_nestedField : keep.
  Lemma b_parseNestedTypeFieldWithName  s : bal s (0) parseNestedTypeFieldWithName.
  Proof. clear - Hc. unfold parseNestedTypeFieldWithName. kstep. Qed.
  Local Hint Resolve b_parseNestedTypeFieldWithName : keep.
  Lemma b_parseNestedTypeFieldsWithNames (columnName : Ast.expr) s : bal s (cnt columnName) (parseNestedTypeFieldsWithNames columnName).
  Proof. clear - Hc. unfold parseNestedTypeFieldsWithNames. kstep. Qed.
  Local Hint Resolve b_parseNestedTypeFieldsWithNames : keep.
  Lemma b_parseNestedTypeFieldsWithoutNames (columnType : Ast.expr) s : bal s (cnt columnType) (parseNestedTypeFieldsWithoutNames columnType).
  Proof. clear - Hc. unfold parseNestedTypeFieldsWithoutNames. kstep. Qed.
  Local Hint Resolve b_parseNestedTypeFieldsWithoutNames : keep.
  Lemma b_parseNestedTypeFields  s : bal s (0) parseNestedTypeFields.
  Proof. clear - Hc. unfold parseNestedTypeFields. kstep. Qed.
  Local Hint Resolve b_parseNestedTypeFields : keep.
  Lemma b_parseNestedType (name : Ast.expr) (p : pos) s : bal s (cnt name) (parseNestedType name p).
  Proof. clear - Hc. unfold parseNestedType. kstep. Qed.
  Local Hint Resolve b_parseNestedType : keep.
  Lemma b_body_ColumnTypeArgs (ident : Ast.expr) s : bal s (cnt ident) (body_ColumnTypeArgs ident).
  Proof. clear - Hc. unfold body_ColumnTypeArgs. kstep. Qed.
  Local Hint Resolve b_body_ColumnTypeArgs : keep.
  Lemma b_parseColumnsExpr  s : bal s (0) parseColumnsExpr.
  Proof. clear - Hc. unfold parseColumnsExpr. kstep. Qed.
  Local Hint Resolve b_parseColumnsExpr : keep.
  Lemma b_parseColumnExprListWithTerm (term : option kind) (p : pos) s : bal s (0) (parseColumnExprListWithTerm term p).
  Proof. clear - Hc. unfold parseColumnExprListWithTerm. kstep. Qed.
  Local Hint Resolve b_parseColumnExprListWithTerm : keep.
  Lemma b_parseColumnExprListWithLParen  s : bal s (0) parseColumnExprListWithLParen.
  Proof. clear - Hc. unfold parseColumnExprListWithLParen. kstep. Qed.
  Local Hint Resolve b_parseColumnExprListWithLParen : keep.
  Lemma b_parseColumnExprListWithSquareBracket  s : bal s (0) parseColumnExprListWithSquareBracket.
  Proof. clear - Hc. unfold parseColumnExprListWithSquareBracket. kstep. Qed.
  Local Hint Resolve b_parseColumnExprListWithSquareBracket : keep.
  Lemma b_parseColumnExprList  s : bal s (0) parseColumnExprList.
  Proof. clear - Hc. unfold parseColumnExprList. kstep. Qed.
  Local Hint Resolve b_parseColumnExprList : keep.
  Lemma b_parseColumnArgList  s : bal s (0) parseColumnArgList.
  Proof. clear - Hc. unfold parseColumnArgList. kstep. Qed.
  Local Hint Resolve b_parseColumnArgList : keep.
  Lemma b_tryColumnArgList  s : bal s (0) tryColumnArgList.
  Proof. clear - Hc. unfold tryColumnArgList. kstep. Qed.
  Local Hint Resolve b_tryColumnArgList : keep.
  Lemma b_parseFunctionParams  s : bal s (0) parseFunctionParams.
  Proof. clear - Hc. unfold parseFunctionParams. kstep. Qed.
  Local Hint Resolve b_parseFunctionParams : keep.
  Lemma b_parseFunctionExpr  s : bal s (0) parseFunctionExpr.
  Proof. clear - Hc. unfold parseFunctionExpr. kstep. Qed.
  Local Hint Resolve b_parseFunctionExpr : keep.

  Lemma b_parseKeywordArgModifier (form : keywordArgForm) (slot : nat) s : bal s (0) (parseKeywordArgModifier form slot).
  Proof. clear - Hc. unfold parseKeywordArgModifier. kstep. Qed.
  Local Hint Resolve b_parseKeywordArgModifier : keep.
  Lemma b_parseKeywordArgItem (form : keywordArgForm) (slot : nat) (allowSeparators : bool) s : bal s (0) (parseKeywordArgItem form slot allowSeparators).
  Proof. clear - Hc. unfold parseKeywordArgItem. kstep. Qed.
  Local Hint Resolve b_parseKeywordArgItem : keep.
  Lemma b_parseKeywordArgFunctionParams (form : keywordArgForm) s : bal s (0) (parseKeywordArgFunctionParams form).
  Proof. clear - Hc. unfold parseKeywordArgFunctionParams. kstep. Qed.
  Local Hint Resolve b_parseKeywordArgFunctionParams : keep.
  Lemma b_parseMapLiteral  s : bal s (0) parseMapLiteral.
  Proof. clear - Hc. unfold parseMapLiteral. kstep. Qed.
  Local Hint Resolve b_parseMapLiteral : keep.
  Lemma b_parseQueryParam  s : bal s (0) parseQueryParam.
  Proof. clear - Hc. unfold parseQueryParam. kstep. Qed.
  Local Hint Resolve b_parseQueryParam : keep.
  Lemma b_parseArrayParams  s : bal s (0) parseArrayParams.
  Proof. clear - Hc. unfold parseArrayParams. kstep. Qed.
  Local Hint Resolve b_parseArrayParams : keep.
  Lemma b_parseColumnStar  s : bal s (0) parseColumnStar.
  Proof. clear - Hc. unfold parseColumnStar. kstep. Qed.
  Local Hint Resolve b_parseColumnStar : keep.
  Lemma b_parseInterval (requireKeyword : bool) s : bal s (0) (parseInterval requireKeyword).
  Proof. clear - Hc. unfold parseInterval. kstep. Qed.
  Local Hint Resolve b_parseInterval : keep.
  Lemma b_parseFrameDirection  s : bal s (0) parseFrameDirection.
  Proof. clear - Hc. unfold parseFrameDirection. kstep. Qed.
  Local Hint Resolve b_parseFrameDirection : keep.
  Lemma b_parseFrameDirectionWithEnd  s : bal s (0) parseFrameDirectionWithEnd.
  Proof. clear - Hc. unfold parseFrameDirectionWithEnd. kstep. Qed.
  Local Hint Resolve b_parseFrameDirectionWithEnd : keep.
  Lemma b_parseFrameCurrentRow s : bal s (- hc (here s)) parseFrameCurrentRow.
  Proof. clear - Hc. unfold parseFrameCurrentRow. kstep. Qed.
  Local Hint Resolve b_parseFrameCurrentRow : keep.
  Lemma b_parseFrameUnbounded s : bal s (- hc (here s)) parseFrameUnbounded.
  Proof. clear - Hc. unfold parseFrameUnbounded. kstep. Qed.
  Local Hint Resolve b_parseFrameUnbounded : keep.
  Lemma b_parseFrameNumber  s : bal s (0) parseFrameNumber.
  Proof. clear - Hc. unfold parseFrameNumber. kstep. Qed.
  Local Hint Resolve b_parseFrameNumber : keep.
  Lemma b_parseFrameParam  s : bal s (0) parseFrameParam.
  Proof. clear - Hc. unfold parseFrameParam. kstep. Qed.
  Local Hint Resolve b_parseFrameParam : keep.
  Lemma b_parseFrameInterval  s : bal s (0) parseFrameInterval.
  Proof. clear - Hc. unfold parseFrameInterval. kstep. Qed.
  Local Hint Resolve b_parseFrameInterval : keep.
  Lemma b_parseFrameExtent  s : bal s (0) parseFrameExtent.
  Proof. clear - Hc. unfold parseFrameExtent. kstep. Qed.
  Local Hint Resolve b_parseFrameExtent : keep.
  Lemma b_parseWindowFrameClause (p : pos) s : bal s (0) (parseWindowFrameClause p).
  Proof. clear - Hc. unfold parseWindowFrameClause. kstep. Qed.
  Local Hint Resolve b_parseWindowFrameClause : keep.
  Lemma b_tryParseWindowFrameClause  s : bal s (0) tryParseWindowFrameClause.
  Proof. clear - Hc. unfold tryParseWindowFrameClause. kstep. Qed.
  Local Hint Resolve b_tryParseWindowFrameClause : keep.
  Lemma b_tryParsePartitionByClause (p : pos) s : bal s (0) (tryParsePartitionByClause p).
  Proof. clear - Hc. unfold tryParsePartitionByClause. kstep. Qed.
  Local Hint Resolve b_tryParsePartitionByClause : keep.
  Lemma b_tryKwExpr (k : string) (p : pos) s : bal s (0) (tryKwExpr k p).
  Proof. clear - Hc. unfold tryKwExpr. kstep. Qed.
  Local Hint Resolve b_tryKwExpr : keep.
  Lemma b_parseFillClause (fillPos : pos) s : bal s (0) (parseFillClause fillPos).
  Proof. clear - Hc. unfold parseFillClause. kstep. Qed.
  Local Hint Resolve b_parseFillClause : keep.
  Lemma b_parseInterpolateClause (interpolatePos : pos) s : bal s (0) (parseInterpolateClause interpolatePos).
  Proof. clear - Hc. unfold parseInterpolateClause. kstep. Qed.
  Local Hint Resolve b_parseInterpolateClause : keep.
  Lemma b_parseOrderExpr (p : pos) s : bal s (0) (parseOrderExpr p).
  Proof. clear - Hc. unfold parseOrderExpr. kstep. Qed.
  Local Hint Resolve b_parseOrderExpr : keep.
  Lemma b_parseOrderByClause (p : pos) s : bal s (0) (parseOrderByClause p).
  Proof. clear - Hc. unfold parseOrderByClause. kstep. Qed.
  Local Hint Resolve b_parseOrderByClause : keep.
  Lemma b_tryParseOrderByClause (p : pos) s : bal s (0) (tryParseOrderByClause p).
  Proof. clear - Hc. unfold tryParseOrderByClause. kstep. Qed.
  Local Hint Resolve b_tryParseOrderByClause : keep.
  Lemma b_canParseWindowNameInParens  s : bal s (0) canParseWindowNameInParens.
  Proof. clear - Hc. unfold canParseWindowNameInParens. kstep. Qed.
  Local Hint Resolve b_canParseWindowNameInParens : keep.
  Lemma b_parseWindowCondition  s : bal s (0) parseWindowCondition.
  Proof. clear - Hc. unfold parseWindowCondition. kstep. Qed.
  Local Hint Resolve b_parseWindowCondition : keep.
  Lemma b_parseIdentOrFunction  s : bal s (0) parseIdentOrFunction.
  Proof. clear - Hc. unfold parseIdentOrFunction. kstep. Qed.
  Local Hint Resolve b_parseIdentOrFunction : keep.
  Lemma b_parseColumnCastExpr (p : pos) s : bal s (0) (parseColumnCastExpr p).
  Proof.
    clear - Hc. unfold parseColumnCastExpr. apply bal_bind_expKw. intros ?. eapply bal_bind; [apply b_expTk; nonleaf|]. intros u s1. cbv beta.
    eapply bal_bind; [solve [eauto with keep]|]. intros e s2. cbv beta. apply bal_bind_pos. cbv beta. apply bal_bind_cur. intros Ho. destruct (_ || _) eqn:E; [|kstep].
    unfold grab. apply bal_assoc. apply bal_bind_str. intros t _ _. apply bal_assoc. apply bal_bind_skip. intros _. kstep.
  Qed.
  Local Hint Resolve b_parseColumnCastExpr : keep.
  Lemma b_parseColumnCaseExpr (p : pos) s : bal s (0) (parseColumnCaseExpr p).
  Proof. clear - Hc. unfold parseColumnCaseExpr. kstep. Qed.
  Local Hint Resolve b_parseColumnCaseExpr : keep.
  Lemma b_parseExtractFrom (ident : Ast.expr) s : bal s (cnt ident) (parseExtractFrom ident).
  Proof. clear - Hc. unfold parseExtractFrom. kstep. Qed.
  Local Hint Resolve b_parseExtractFrom : keep.
  Lemma b_parseColumnExtractExpr (p : pos) s : bal s 0 (parseColumnExtractExpr p).
  Proof.
    clear - Hc. unfold parseColumnExtractExpr. kstep. eapply bal_bind; [apply b_commaLoop|intros ? ?; kstep]. intros s'. kstep. rewrite CaseExpr.as_name_match. kstep.
  Qed.
  Local Hint Resolve b_parseColumnExtractExpr : keep.
  Lemma b_parseSubQuery  s : bal s (0) parseSubQuery.
  Proof. clear - Hc. unfold parseSubQuery. kstep. Qed.
  Local Hint Resolve b_parseSubQuery : keep.
  Lemma b_parseIntervalOrIdent  s : bal s (0) parseIntervalOrIdent.
  Proof. clear - Hc. unfold parseIntervalOrIdent. kstep. Qed.
  Local Hint Resolve b_parseIntervalOrIdent : keep.
  Lemma b_parseColumnExpr (p : pos) s : bal s (0) (parseColumnExpr p).
  Proof. clear - Hc. unfold parseColumnExpr. kstep. Qed.
  Local Hint Resolve b_parseColumnExpr : keep.
  Lemma b_parseUnaryExpr (p : pos) s : bal s (0) (parseUnaryExpr p).
  Proof. clear - Hc. unfold parseUnaryExpr. kstep. Qed.
  Local Hint Resolve b_parseUnaryExpr : keep.
  Lemma b_parseTernaryExpr (condition : Ast.expr) s : bal s (cnt condition) (parseTernaryExpr condition).
  Proof. clear - Hc. unfold parseTernaryExpr. kstep. Qed.
  Local Hint Resolve b_parseTernaryExpr : keep.
  Lemma b_parseBetweenClause (expr : Ast.expr) (not : bool) s : bal s (cnt expr) (parseBetweenClause expr not).
  Proof. clear - Hc. unfold parseBetweenClause. kstep. Qed.
  Local Hint Resolve b_parseBetweenClause : keep.
  Lemma b_parseSubExprHere (prec : nat) s : bal s (0) (parseSubExprHere prec).
  Proof. clear - Hc. unfold parseSubExprHere. kstep. Qed.
  Local Hint Resolve b_parseSubExprHere : keep.
  Lemma b_parseInfix (expr : Ast.expr) (precedence : nat) s : bal s (cnt expr) (parseInfix expr precedence).
  Proof. clear - Hc. unfold parseInfix. kstep. Qed.
  Local Hint Resolve b_parseInfix : keep.
  Lemma b_parseInfixLoop (e : Ast.expr) (precedence : nat) s : bal s (cnt e) (parseInfixLoop e precedence).
  Proof. clear - Hc. unfold parseInfixLoop. kstep. Qed.
  Local Hint Resolve b_parseInfixLoop : keep.
  Lemma b_body_SubExpr (p : pos) (precedence : nat) s : bal s (0) (body_SubExpr p precedence).
  Proof. clear - Hc. unfold body_SubExpr. kstep. Qed.
  Local Hint Resolve b_body_SubExpr : keep.
End Keep.
Global Hint Resolve b_tryParseColumnComment b_peekTk b_peekKw b_peekIsClauseStarter b_peekIsEndOfStatement b_peekIsExpressionContinuation b_keywordIsSelectItemIdentifier b_isSelectItemTerminator b_grab b_grabIf b_parseJoinType b_parseJoinModifiers b_peekJoinAfterLocality b_getNextPrecedence b_parseColumnType b_parseColumnPropertyType b_parseComplexType b_parseEnumValueExpr b_parseEnumType b_parseColumnTypeWithParams b_parseJSONPath b_parseJSONOption b_parseJSONType b_nestedField b_parseNestedTypeFieldWithName b_parseNestedTypeFieldsWithNames b_parseNestedTypeFieldsWithoutNames b_parseNestedTypeFields b_parseNestedType b_body_ColumnTypeArgs b_parseColumnsExpr b_parseColumnExprListWithTerm b_parseColumnExprListWithLParen b_parseColumnExprListWithSquareBracket b_parseColumnExprList b_parseColumnArgList b_tryColumnArgList b_parseFunctionParams b_parseFunctionExpr b_parseKeywordArgModifier b_parseKeywordArgItem b_parseKeywordArgFunctionParams b_parseMapLiteral b_parseQueryParam b_parseArrayParams b_parseColumnStar b_parseInterval b_parseFrameDirection b_parseFrameDirectionWithEnd b_parseFrameCurrentRow b_parseFrameUnbounded b_parseFrameNumber b_parseFrameParam b_parseFrameInterval b_parseFrameExtent b_parseWindowFrameClause b_tryParseWindowFrameClause b_tryParsePartitionByClause b_tryKwExpr b_parseFillClause b_parseInterpolateClause b_parseOrderExpr b_parseOrderByClause b_tryParseOrderByClause b_canParseWindowNameInParens b_parseWindowCondition b_parseIdentOrFunction b_parseColumnCastExpr b_parseColumnCaseExpr b_parseExtractFrom b_parseColumnExtractExpr b_parseSubQuery b_parseIntervalOrIdent b_parseColumnExpr b_parseUnaryExpr b_parseTernaryExpr b_parseBetweenClause b_parseSubExprHere b_parseInfix b_parseInfixLoop b_body_SubExpr : keep.
Global Hint Extern 0 (KeepLogic.bal _ _ (orM _ _)) => (apply b_orM; first [assumption | intros ?; solve [kstep]]) : keep.
Global Hint Extern 0 (KeepLogic.bal _ _ (anyM _ _)) => (apply b_anyM; first [assumption | intros ? ?; solve [kstep]]) : keep.
Global Hint Extern 0 (KeepLogic.bal _ _ (commaLoop _ _)) => (apply b_commaLoop; first [assumption | intros ?; solve [kstep]]) : keep.
Global Hint Extern 0 (KeepLogic.bal _ _ (sepTail _ _ _)) => (apply b_sepTail; first [assumption | reflexivity | intros ?; solve [kstep]]) : keep.
