(** Proofs for C43: the functions of ParserExpr.v. *)
From Coq Require Import String List Arith Bool.
From Verif Require Import Str Keyword Lexer Ast AstPos AstSubs Prog RunFacts ParserCommon ParserExpr ParserQuery ParserTable ParserAlter ParserView ParserSystem Parser SemiLogic SemiTac SemiCommon.
Import ListNotations.
Local Open Scope string_scope.
Local Open Scope nat_scope.
From Verif Require CaseExpr.
Section Semi.
  Context `{Tails} {f : nat} (Hc : calls f).
  Local Notation safe p := (forall pre m, fines pre -> @at_ _ f pre m _ p).

  Lemma s_commaLoop stop p : safe p -> safe (commaLoop stop p).
  Proof. clear - Hc. intros. unfold commaLoop. go. Qed.
  Local Hint Extern 0 (at_ _ _ (commaLoop _ _)) => (apply s_commaLoop; first [assumption | reflexivity | intros; solve [go]]) : semi.
  Lemma s_sepTail sep acc p : String.eqb ";" sep = false -> safe p -> safe (sepTail sep acc p).
  Proof. clear - Hc. intros. unfold sepTail. go. Qed.
  Local Hint Extern 0 (at_ _ _ (sepTail _ _ _)) => (apply s_sepTail; first [assumption | reflexivity | intros; solve [go]]) : semi.
  Lemma s_tryParseColumnComment (p : pos) : safe (tryParseColumnComment p).
  Proof. clear - Hc. intros. unfold tryParseColumnComment. go. Qed.
  Local Hint Resolve s_tryParseColumnComment : semi.
  Lemma s_keywordIsSelectItemIdentifier  : safe keywordIsSelectItemIdentifier.
  Proof. clear - Hc. intros. unfold keywordIsSelectItemIdentifier. go. Qed.
  Local Hint Resolve s_keywordIsSelectItemIdentifier : semi.
  Lemma s_isSelectItemTerminator  : safe isSelectItemTerminator.
  Proof. clear - Hc. intros. unfold isSelectItemTerminator. go. Qed.
  Local Hint Resolve s_isSelectItemTerminator : semi.
  Lemma s_grabIf (l : list string) : safe (grabIf l).
  Proof. clear - Hc. intros. unfold grabIf. go. Qed.
  Local Hint Resolve s_grabIf : semi.
  Lemma s_parseJoinType  : safe parseJoinType.
  Proof. clear - Hc. intros. unfold parseJoinType. go. Qed.
  Local Hint Resolve s_parseJoinType : semi.
  Lemma s_parseJoinModifiers  : safe parseJoinModifiers.
  Proof. clear - Hc. intros. unfold parseJoinModifiers. go. Qed.
  Local Hint Resolve s_parseJoinModifiers : semi.
  Lemma s_peekJoinAfterLocality  : safe peekJoinAfterLocality.
  Proof. clear - Hc. intros. unfold peekJoinAfterLocality. go. Qed.
  Local Hint Resolve s_peekJoinAfterLocality : semi.
  Lemma s_getNextPrecedence  : safe getNextPrecedence.
  Proof. clear - Hc. intros. unfold getNextPrecedence. go. Qed.
  Local Hint Resolve s_getNextPrecedence : semi.
  Lemma s_parseColumnType  : safe parseColumnType.
  Proof. clear - Hc. intros. unfold parseColumnType. go. Qed.
  Local Hint Resolve s_parseColumnType : semi.
  Lemma s_parseColumnPropertyType  : safe parseColumnPropertyType.
  Proof. clear - Hc. intros. unfold parseColumnPropertyType. go. Qed.
  Local Hint Resolve s_parseColumnPropertyType : semi.
  Lemma s_parseComplexType (name : Ast.expr) (p : pos) : safe (parseComplexType name p).
  Proof. clear - Hc. intros. unfold parseComplexType. go. Qed.
  Local Hint Resolve s_parseComplexType : semi.
  Lemma s_parseEnumValueExpr  : safe parseEnumValueExpr.
  Proof. clear - Hc. intros. unfold parseEnumValueExpr. go. Qed.
  Local Hint Resolve s_parseEnumValueExpr : semi.
  Lemma s_parseEnumType (name : Ast.expr) (p : pos) : safe (parseEnumType name p).
  Proof. clear - Hc. intros. unfold parseEnumType. go. rewrite CaseExpr.enum_end_match. go. Qed.
  Local Hint Resolve s_parseEnumType : semi.
  Lemma s_parseColumnTypeWithParams (name : Ast.expr) (p : pos) : safe (parseColumnTypeWithParams name p).
  Proof. clear - Hc. intros. unfold parseColumnTypeWithParams. go. Qed.
  Local Hint Resolve s_parseColumnTypeWithParams : semi.
  Lemma s_parseJSONPath  : safe parseJSONPath.
  Proof. clear - Hc. intros. unfold parseJSONPath. go. Qed.
  Local Hint Resolve s_parseJSONPath : semi.
  Lemma s_parseJSONOption  : safe parseJSONOption.
  Proof. clear - Hc. intros. unfold parseJSONOption. go. rewrite CaseExpr.one_name_match. go. Qed.
  Local Hint Resolve s_parseJSONOption : semi.
  Lemma s_parseJSONType (name : Ast.expr) (p : pos) : safe (parseJSONType name p).
  Proof. clear - Hc. intros. unfold parseJSONType. go. Qed.
  Local Hint Resolve s_parseJSONType : semi.
  Lemma s_nestedField (name : Ast.expr) (columnType : Ast.expr) : safe (nestedField name columnType).
  Proof. clear - Hc. intros. unfold nestedField. go. Qed.
  Local Hint Resolve s_nestedField : semi.
  Lemma s_parseNestedTypeFieldWithName  : safe parseNestedTypeFieldWithName.
  Proof. clear - Hc. intros. unfold parseNestedTypeFieldWithName. go. Qed.
  Local Hint Resolve s_parseNestedTypeFieldWithName : semi.
  Lemma s_parseNestedTypeFieldsWithNames (columnName : Ast.expr) : safe (parseNestedTypeFieldsWithNames columnName).
  Proof. clear - Hc. intros. unfold parseNestedTypeFieldsWithNames. go. Qed.
  Local Hint Resolve s_parseNestedTypeFieldsWithNames : semi.
  Lemma s_parseNestedTypeFieldsWithoutNames (columnType : Ast.expr) : safe (parseNestedTypeFieldsWithoutNames columnType).
  Proof. clear - Hc. intros. unfold parseNestedTypeFieldsWithoutNames. go. Qed.
  Local Hint Resolve s_parseNestedTypeFieldsWithoutNames : semi.
  Lemma s_parseNestedTypeFields  : safe parseNestedTypeFields.
  Proof. clear - Hc. intros. unfold parseNestedTypeFields. go. Qed.
  Local Hint Resolve s_parseNestedTypeFields : semi.
  Lemma s_parseNestedType (name : Ast.expr) (p : pos) : safe (parseNestedType name p).
  Proof. clear - Hc. intros. unfold parseNestedType. go. Qed.
  Local Hint Resolve s_parseNestedType : semi.
  Lemma s_body_ColumnTypeArgs (ident : Ast.expr) : safe (body_ColumnTypeArgs ident).
  Proof. clear - Hc. intros. unfold body_ColumnTypeArgs. go. Qed.
  Local Hint Resolve s_body_ColumnTypeArgs : semi.
  Lemma s_parseColumnsExpr  : safe parseColumnsExpr.
  Proof. clear - Hc. intros. unfold parseColumnsExpr. go. Qed.
  Local Hint Resolve s_parseColumnsExpr : semi.
  Lemma s_parseColumnExprListWithTerm (term : option kind) (p : pos) : safe (parseColumnExprListWithTerm term p).
  Proof. clear - Hc. intros. unfold parseColumnExprListWithTerm. go. Qed.
  Local Hint Resolve s_parseColumnExprListWithTerm : semi.
  Lemma s_parseColumnExprListWithLParen  : safe parseColumnExprListWithLParen.
  Proof. clear - Hc. intros. unfold parseColumnExprListWithLParen. go. Qed.
  Local Hint Resolve s_parseColumnExprListWithLParen : semi.
  Lemma s_parseColumnExprListWithSquareBracket  : safe parseColumnExprListWithSquareBracket.
  Proof. clear - Hc. intros. unfold parseColumnExprListWithSquareBracket. go. Qed.
  Local Hint Resolve s_parseColumnExprListWithSquareBracket : semi.
  Lemma s_parseColumnExprList  : safe parseColumnExprList.
  Proof. clear - Hc. intros. unfold parseColumnExprList. go. Qed.
  Local Hint Resolve s_parseColumnExprList : semi.
  Lemma s_parseColumnArgList  : safe parseColumnArgList.
  Proof. clear - Hc. intros. unfold parseColumnArgList. go. Qed.
  Local Hint Resolve s_parseColumnArgList : semi.
  Lemma s_tryColumnArgList  : safe tryColumnArgList.
  Proof. clear - Hc. intros. unfold tryColumnArgList. go. Qed.
  Local Hint Resolve s_tryColumnArgList : semi.
  Lemma s_parseFunctionParams  : safe parseFunctionParams.
  Proof. clear - Hc. intros. unfold parseFunctionParams. go. Qed.
  Local Hint Resolve s_parseFunctionParams : semi.
  Lemma s_parseFunctionExpr  : safe parseFunctionExpr.
  Proof. clear - Hc. intros. unfold parseFunctionExpr. go. Qed.
  Local Hint Resolve s_parseFunctionExpr : semi.
  Lemma s_parseKeywordArgModifier (form : keywordArgForm) (slot : nat) : safe (parseKeywordArgModifier form slot).
  Proof. clear - Hc. intros. unfold parseKeywordArgModifier. go. Qed.
  Local Hint Resolve s_parseKeywordArgModifier : semi.
  Lemma s_parseKeywordArgItem (form : keywordArgForm) (slot : nat) (allowSeparators : bool) : safe (parseKeywordArgItem form slot allowSeparators).
  Proof. clear - Hc. intros. unfold parseKeywordArgItem. go. Qed.
  Local Hint Resolve s_parseKeywordArgItem : semi.
  Lemma s_parseKeywordArgFunctionParams (form : keywordArgForm) : safe (parseKeywordArgFunctionParams form).
  Proof. clear - Hc. intros. unfold parseKeywordArgFunctionParams. go. Qed.
  Local Hint Resolve s_parseKeywordArgFunctionParams : semi.
  Lemma s_parseMapLiteral  : safe parseMapLiteral.
  Proof. clear - Hc. intros. unfold parseMapLiteral. go. Qed.
  Local Hint Resolve s_parseMapLiteral : semi.
  Lemma s_parseQueryParam  : safe parseQueryParam.
  Proof. clear - Hc. intros. unfold parseQueryParam. go. Qed.
  Local Hint Resolve s_parseQueryParam : semi.
  Lemma s_parseArrayParams  : safe parseArrayParams.
  Proof. clear - Hc. intros. unfold parseArrayParams. go. Qed.
  Local Hint Resolve s_parseArrayParams : semi.
  Lemma s_parseColumnStar  : safe parseColumnStar.
  Proof. clear - Hc. intros. unfold parseColumnStar. go. Qed.
  Local Hint Resolve s_parseColumnStar : semi.
  Lemma s_parseInterval (requireKeyword : bool) : safe (parseInterval requireKeyword).
  Proof. clear - Hc. intros. unfold parseInterval. go. Qed.
  Local Hint Resolve s_parseInterval : semi.
  Lemma s_parseFrameDirection  : safe parseFrameDirection.
  Proof. clear - Hc. intros. unfold parseFrameDirection. go. Qed.
  Local Hint Resolve s_parseFrameDirection : semi.
  Lemma s_parseFrameDirectionWithEnd  : safe parseFrameDirectionWithEnd.
  Proof. clear - Hc. intros. unfold parseFrameDirectionWithEnd. go. Qed.
  Local Hint Resolve s_parseFrameDirectionWithEnd : semi.
  Lemma s_parseFrameCurrentRow  : forall pre m, fines pre -> nosemi (cur pre) -> @at_ _ f pre m _ parseFrameCurrentRow.
  Proof. clear - Hc. intros. unfold parseFrameCurrentRow. go. Qed.
  Local Hint Resolve s_parseFrameCurrentRow : semi.
  Lemma s_parseFrameUnbounded  : forall pre m, fines pre -> nosemi (cur pre) -> @at_ _ f pre m _ parseFrameUnbounded.
  Proof. clear - Hc. intros. unfold parseFrameUnbounded. go. Qed.
  Local Hint Resolve s_parseFrameUnbounded : semi.
  Lemma s_parseFrameNumber  : safe parseFrameNumber.
  Proof. clear - Hc. intros. unfold parseFrameNumber. go. Qed.
  Local Hint Resolve s_parseFrameNumber : semi.
  Lemma s_parseFrameParam  : safe parseFrameParam.
  Proof. clear - Hc. intros. unfold parseFrameParam. go. Qed.
  Local Hint Resolve s_parseFrameParam : semi.
  Lemma s_parseFrameInterval  : safe parseFrameInterval.
  Proof. clear - Hc. intros. unfold parseFrameInterval. go. Qed.
  Local Hint Resolve s_parseFrameInterval : semi.
  Lemma s_parseFrameExtent  : safe parseFrameExtent.
  Proof. clear - Hc. intros. unfold parseFrameExtent. go. Qed.
  Local Hint Resolve s_parseFrameExtent : semi.
  Lemma s_parseWindowFrameClause (p : pos) : safe (parseWindowFrameClause p).
  Proof. clear - Hc. intros. unfold parseWindowFrameClause. go. Qed.
  Local Hint Resolve s_parseWindowFrameClause : semi.
  Lemma s_tryParseWindowFrameClause  : safe tryParseWindowFrameClause.
  Proof. clear - Hc. intros. unfold tryParseWindowFrameClause. go. Qed.
  Local Hint Resolve s_tryParseWindowFrameClause : semi.
  Lemma s_tryParsePartitionByClause (p : pos) : safe (tryParsePartitionByClause p).
  Proof. clear - Hc. intros. unfold tryParsePartitionByClause. go. Qed.
  Local Hint Resolve s_tryParsePartitionByClause : semi.
  Lemma s_tryKwExpr (k : string) (p : pos) : safe (tryKwExpr k p).
  Proof. clear - Hc. intros. unfold tryKwExpr. go. Qed.
  Local Hint Resolve s_tryKwExpr : semi.
  Lemma s_parseFillClause (fillPos : pos) : safe (parseFillClause fillPos).
  Proof. clear - Hc. intros. unfold parseFillClause. go. Qed.
  Local Hint Resolve s_parseFillClause : semi.
  Lemma s_parseInterpolateClause (interpolatePos : pos) : safe (parseInterpolateClause interpolatePos).
  Proof. clear - Hc. intros. unfold parseInterpolateClause. go. Qed.
  Local Hint Resolve s_parseInterpolateClause : semi.
  Lemma s_parseOrderExpr (p : pos) : safe (parseOrderExpr p).
  Proof. clear - Hc. intros. unfold parseOrderExpr. go. Qed.
  Local Hint Resolve s_parseOrderExpr : semi.
  Lemma s_parseOrderByClause (p : pos) : safe (parseOrderByClause p).
  Proof. clear - Hc. intros. unfold parseOrderByClause. go. Qed.
  Local Hint Resolve s_parseOrderByClause : semi.
  Lemma s_tryParseOrderByClause (p : pos) : safe (tryParseOrderByClause p).
  Proof. clear - Hc. intros. unfold tryParseOrderByClause. go. Qed.
  Local Hint Resolve s_tryParseOrderByClause : semi.
  Lemma s_canParseWindowNameInParens  : safe canParseWindowNameInParens.
  Proof. clear - Hc. intros. unfold canParseWindowNameInParens. go. Qed.
  Local Hint Resolve s_canParseWindowNameInParens : semi.
  Lemma s_parseWindowCondition  : safe parseWindowCondition.
  Proof. clear - Hc. intros. unfold parseWindowCondition. go. Qed.
  Local Hint Resolve s_parseWindowCondition : semi.
  Lemma s_parseIdentOrFunction  : safe parseIdentOrFunction.
  Proof. clear - Hc. intros. unfold parseIdentOrFunction. go. Qed.
  Local Hint Resolve s_parseIdentOrFunction : semi.
  Lemma s_parseColumnCastExpr (p : pos) : safe (parseColumnCastExpr p).
  Proof. clear - Hc. intros. unfold parseColumnCastExpr. go. Qed.
  Local Hint Resolve s_parseColumnCastExpr : semi.
  Lemma s_parseColumnCaseExpr (p : pos) : safe (parseColumnCaseExpr p).
  Proof. clear - Hc. intros. unfold parseColumnCaseExpr. go. Qed.
  Local Hint Resolve s_parseColumnCaseExpr : semi.
  Lemma s_parseExtractFrom (ident : Ast.expr) : safe (parseExtractFrom ident).
  Proof. clear - Hc. intros. unfold parseExtractFrom. go. Qed.
  Local Hint Resolve s_parseExtractFrom : semi.
  Lemma s_parseColumnExtractExpr (p : pos) : safe (parseColumnExtractExpr p).
  Proof. clear - Hc. intros. unfold parseColumnExtractExpr. go. apply s_bind; [apply s_commaLoop; [intros; go; rewrite CaseExpr.as_name_match; go | assumption] | intros; go]. Qed.
  Local Hint Resolve s_parseColumnExtractExpr : semi.
  Lemma s_parseSubQuery  : safe parseSubQuery.
  Proof. clear - Hc. intros. unfold parseSubQuery. go. Qed.
  Local Hint Resolve s_parseSubQuery : semi.
  Lemma s_parseIntervalOrIdent  : safe parseIntervalOrIdent.
  Proof. clear - Hc. intros. unfold parseIntervalOrIdent. go. Qed.
  Local Hint Resolve s_parseIntervalOrIdent : semi.
  Lemma s_parseColumnExpr (p : pos) : safe (parseColumnExpr p).
  Proof. clear - Hc. intros. unfold parseColumnExpr. go. Qed.
  Local Hint Resolve s_parseColumnExpr : semi.
  Lemma s_parseUnaryExpr (p : pos) : safe (parseUnaryExpr p).
  Proof. clear - Hc. intros. unfold parseUnaryExpr. go. Qed.
  Local Hint Resolve s_parseUnaryExpr : semi.
  Lemma s_parseTernaryExpr (condition : Ast.expr) : safe (parseTernaryExpr condition).
  Proof. clear - Hc. intros. unfold parseTernaryExpr. go. Qed.
  Local Hint Resolve s_parseTernaryExpr : semi.
  Lemma s_parseBetweenClause (expr : Ast.expr) (not : bool) : safe (parseBetweenClause expr not).
  Proof. clear - Hc. intros. unfold parseBetweenClause. go. Qed.
  Local Hint Resolve s_parseBetweenClause : semi.
  Lemma s_parseSubExprHere (prec : nat) : safe (parseSubExprHere prec).
  Proof. clear - Hc. intros. unfold parseSubExprHere. go. Qed.
  Local Hint Resolve s_parseSubExprHere : semi.
  Lemma s_parseInfix (expr : Ast.expr) (precedence : nat) : safe (parseInfix expr precedence).
  Proof. clear - Hc. intros. unfold parseInfix. go. Qed.
  Local Hint Resolve s_parseInfix : semi.
  Lemma s_parseInfixLoop (e : Ast.expr) (precedence : nat) : safe (parseInfixLoop e precedence).
  Proof. clear - Hc. intros. unfold parseInfixLoop. go. Qed.
  Local Hint Resolve s_parseInfixLoop : semi.
  Lemma s_body_SubExpr (p : pos) (precedence : nat) : safe (body_SubExpr p precedence).
  Proof. clear - Hc. intros. unfold body_SubExpr. go. Qed.
  Local Hint Resolve s_body_SubExpr : semi.
End Semi.
Global Hint Resolve s_tryParseColumnComment s_keywordIsSelectItemIdentifier s_isSelectItemTerminator s_grabIf s_parseJoinType s_parseJoinModifiers s_peekJoinAfterLocality s_getNextPrecedence s_parseColumnType s_parseColumnPropertyType s_parseComplexType s_parseEnumValueExpr s_parseEnumType s_parseColumnTypeWithParams s_parseJSONPath s_parseJSONOption s_parseJSONType s_nestedField s_parseNestedTypeFieldWithName s_parseNestedTypeFieldsWithNames s_parseNestedTypeFieldsWithoutNames s_parseNestedTypeFields s_parseNestedType s_body_ColumnTypeArgs s_parseColumnsExpr s_parseColumnExprListWithTerm s_parseColumnExprListWithLParen s_parseColumnExprListWithSquareBracket s_parseColumnExprList s_parseColumnArgList s_tryColumnArgList s_parseFunctionParams s_parseFunctionExpr s_parseKeywordArgModifier s_parseKeywordArgItem s_parseKeywordArgFunctionParams s_parseMapLiteral s_parseQueryParam s_parseArrayParams s_parseColumnStar s_parseInterval s_parseFrameDirection s_parseFrameDirectionWithEnd s_parseFrameCurrentRow s_parseFrameUnbounded s_parseFrameNumber s_parseFrameParam s_parseFrameInterval s_parseFrameExtent s_parseWindowFrameClause s_tryParseWindowFrameClause s_tryParsePartitionByClause s_tryKwExpr s_parseFillClause s_parseInterpolateClause s_parseOrderExpr s_parseOrderByClause s_tryParseOrderByClause s_canParseWindowNameInParens s_parseWindowCondition s_parseIdentOrFunction s_parseColumnCastExpr s_parseColumnCaseExpr s_parseExtractFrom s_parseColumnExtractExpr s_parseSubQuery s_parseIntervalOrIdent s_parseColumnExpr s_parseUnaryExpr s_parseTernaryExpr s_parseBetweenClause s_parseSubExprHere s_parseInfix s_parseInfixLoop s_body_SubExpr : semi.
Global Hint Extern 0 (at_ _ _ (commaLoop _ _)) => (apply s_commaLoop; first [assumption | reflexivity | intros; solve [go]]) : semi.
Global Hint Extern 0 (at_ _ _ (sepTail _ _ _)) => (apply s_sepTail; first [assumption | reflexivity | intros; solve [go]]) : semi.
