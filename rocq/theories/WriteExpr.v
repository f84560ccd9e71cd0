(** Proofs for C42: the functions of ParserExpr.v. *)
From Coq Require Import String List Arith Bool.
From Verif Require Import Str Keyword Lexer Ast AstPos AstSubs Prog RunFacts ParserCommon ParserExpr ParserQuery ParserTable ParserAlter ParserView ParserSystem Parser Words WriteLogic WriteTac WriteCommon.
Import ListNotations.
Local Open Scope string_scope.
Local Open Scope nat_scope.
From Verif Require CaseExpr.
Section Write.
  Context {f : nat} (Hc : calls f).
  Local Notation gives := (@WriteLogic.gives f _).

  Lemma w_commaLoop stop p : gives good p -> gives good (commaLoop stop p).
  Proof. clear - Hc. intros H1. unfold commaLoop. go. Qed.
  Local Hint Extern 0 (WriteLogic.gives _ (commaLoop _ _)) => (apply w_commaLoop; solve [go]) : tell.
  Lemma w_sepTail sep acc p : Forall ok acc -> gives good p -> gives good (sepTail sep acc p).
  Proof. clear - Hc. intros H0 H1. unfold sepTail. go. Qed.
  Local Hint Extern 0 (WriteLogic.gives _ (sepTail _ _ _)) => (apply w_sepTail; [solve [val] | solve [go]]) : tell.
  Lemma w_tryParseColumnComment (p : pos) : gives good (tryParseColumnComment p).
  Proof. clear - Hc. intros. unfold tryParseColumnComment. go. Qed.
  Local Hint Resolve w_tryParseColumnComment : tell.
  Lemma w_parseColumnType  : gives (fun e => ok e /\ is_nil e = false) parseColumnType.
  Proof. clear - Hc. intros. unfold parseColumnType. go. Qed.
  Local Hint Resolve w_parseColumnType : tell.
  Lemma w_parseColumnPropertyType  : gives good parseColumnPropertyType.
  Proof. clear - Hc. intros. unfold parseColumnPropertyType. go. Qed.
  Local Hint Resolve w_parseColumnPropertyType : tell.
  Lemma w_parseComplexType (name : Ast.expr) (p : pos) : ok name -> gives (fun e => ok e /\ is_nil e = false) (parseComplexType name p).
  Proof. clear - Hc. intros. unfold parseComplexType. go. Qed.
  Local Hint Resolve w_parseComplexType : tell.
  Lemma w_parseEnumValueExpr  : gives good parseEnumValueExpr.
  Proof. clear - Hc. intros. unfold parseEnumValueExpr. go. Qed.
  Local Hint Resolve w_parseEnumValueExpr : tell.
  Lemma w_parseEnumType (name : Ast.expr) (p : pos) : ok name -> gives (fun e => ok e /\ is_nil e = false) (parseEnumType name p).
  Proof. clear - Hc. intros. unfold parseEnumType. go. rewrite CaseExpr.enum_end_match. go. Qed.
  Local Hint Resolve w_parseEnumType : tell.
  Lemma w_parseColumnTypeWithParams (name : Ast.expr) (p : pos) : ok name -> gives (fun e => ok e /\ is_nil e = false) (parseColumnTypeWithParams name p).
  Proof. clear - Hc. intros. unfold parseColumnTypeWithParams. go. Qed.
  Local Hint Resolve w_parseColumnTypeWithParams : tell.
  Lemma w_parseJSONPath  : gives (fun e => ok e /\ is_nil e = false) parseJSONPath.
  Proof. clear - Hc. intros. unfold parseJSONPath. go. Qed.
  Local Hint Resolve w_parseJSONPath : tell.
  Lemma w_parseJSONOption  : gives good parseJSONOption.
  Proof. clear - Hc. intros. unfold parseJSONOption. go. rewrite CaseExpr.one_name_match. go. Qed.
  Local Hint Resolve w_parseJSONOption : tell.
  Lemma w_parseJSONType (name : Ast.expr) (p : pos) : ok name -> gives (fun e => ok e /\ is_nil e = false) (parseJSONType name p).
  Proof. clear - Hc. intros. unfold parseJSONType. go. Qed.
  Local Hint Resolve w_parseJSONType : tell.
  Lemma w_nestedField (name : Ast.expr) (columnType : Ast.expr) : ok name -> ok columnType -> gives good (nestedField name columnType).
  Proof. clear - Hc. intros. unfold nestedField. go. Qed.
  Local Hint Resolve w_nestedField : tell.
  Lemma w_parseNestedTypeFieldWithName  : gives good parseNestedTypeFieldWithName.
  Proof. clear - Hc. intros. unfold parseNestedTypeFieldWithName. go. Qed.
  Local Hint Resolve w_parseNestedTypeFieldWithName : tell.
  Lemma w_parseNestedTypeFieldsWithNames (columnName : Ast.expr) : ok columnName -> gives good (parseNestedTypeFieldsWithNames columnName).
  Proof. clear - Hc. intros. unfold parseNestedTypeFieldsWithNames. go. Qed.
  Local Hint Resolve w_parseNestedTypeFieldsWithNames : tell.
  Lemma w_parseNestedTypeFieldsWithoutNames (columnType : Ast.expr) : ok columnType -> gives good (parseNestedTypeFieldsWithoutNames columnType).
  Proof. clear - Hc. intros. unfold parseNestedTypeFieldsWithoutNames. go. Qed.
  Local Hint Resolve w_parseNestedTypeFieldsWithoutNames : tell.
  Lemma w_parseNestedTypeFields  : gives good parseNestedTypeFields.
  Proof. clear - Hc. intros. unfold parseNestedTypeFields. go. Qed.
  Local Hint Resolve w_parseNestedTypeFields : tell.
  Lemma w_parseNestedType (name : Ast.expr) (p : pos) : ok name -> gives (fun e => ok e /\ is_nil e = false) (parseNestedType name p).
  Proof. clear - Hc. intros. unfold parseNestedType. go. Qed.
  Local Hint Resolve w_parseNestedType : tell.
  Lemma w_body_ColumnTypeArgs (ident : Ast.expr) : ok ident -> gives (fun e => ok e /\ is_nil e = false) (body_ColumnTypeArgs ident).
  Proof. clear - Hc. intros. unfold body_ColumnTypeArgs. go. Qed.
  Local Hint Resolve w_body_ColumnTypeArgs : tell.
  Lemma w_parseColumnsExpr  : gives good parseColumnsExpr.
  Proof. clear - Hc. intros. unfold parseColumnsExpr. go. Qed.
  Local Hint Resolve w_parseColumnsExpr : tell.
  Lemma w_parseColumnExprListWithTerm (term : option kind) (p : pos) : gives (fun e => ok e /\ exists p q b l, e = EColumnExprList p q b l) (parseColumnExprListWithTerm term p).
  Proof. clear - Hc. intros. unfold parseColumnExprListWithTerm. go. Qed.
  Local Hint Resolve w_parseColumnExprListWithTerm : tell.
  Lemma w_parseColumnExprListWithLParen  : gives good parseColumnExprListWithLParen.
  Proof. clear - Hc. intros. unfold parseColumnExprListWithLParen. go. Qed.
  Local Hint Resolve w_parseColumnExprListWithLParen : tell.
  Lemma w_parseColumnExprListWithSquareBracket  : gives (fun e => ok e /\ exists p q b l, e = EColumnExprList p q b l) parseColumnExprListWithSquareBracket.
  Proof. clear - Hc. intros. unfold parseColumnExprListWithSquareBracket. go. Qed.
  Local Hint Resolve w_parseColumnExprListWithSquareBracket : tell.
  Lemma w_parseColumnExprList  : gives good parseColumnExprList.
  Proof. clear - Hc. intros. unfold parseColumnExprList. go. Qed.
  Local Hint Resolve w_parseColumnExprList : tell.
  Lemma w_parseColumnArgList  : gives good parseColumnArgList.
  Proof. clear - Hc. intros. unfold parseColumnArgList. go. Qed.
  Local Hint Resolve w_parseColumnArgList : tell.
  Lemma w_tryColumnArgList  : gives good tryColumnArgList.
  Proof. clear - Hc. intros. unfold tryColumnArgList. go. Qed.
  Local Hint Resolve w_tryColumnArgList : tell.
  Lemma w_parseFunctionParams  : gives good parseFunctionParams.
  Proof. clear - Hc. intros. unfold parseFunctionParams. go. Qed.
  Local Hint Resolve w_parseFunctionParams : tell.
  Lemma w_parseFunctionExpr  : gives good parseFunctionExpr.
  Proof. clear - Hc. intros. unfold parseFunctionExpr. go. Qed.
  Local Hint Resolve w_parseFunctionExpr : tell.
  Lemma w_parseKeywordArgModifier (form : keywordArgForm) (slot : nat) : gives good (parseKeywordArgModifier form slot).
  Proof. clear - Hc. intros. unfold parseKeywordArgModifier. go. Qed.
  Local Hint Resolve w_parseKeywordArgModifier : tell.
  Lemma w_parseKeywordArgItem (form : keywordArgForm) (slot : nat) (allowSeparators : bool) : gives good (parseKeywordArgItem form slot allowSeparators).
  Proof. clear - Hc. intros. unfold parseKeywordArgItem. go. Qed.
  Local Hint Resolve w_parseKeywordArgItem : tell.
  Lemma w_parseKeywordArgFunctionParams (form : keywordArgForm) : gives good (parseKeywordArgFunctionParams form).
  Proof. clear - Hc. intros. unfold parseKeywordArgFunctionParams. go. Qed.
  Local Hint Resolve w_parseKeywordArgFunctionParams : tell.
  Lemma w_parseMapLiteral  : gives good parseMapLiteral.
  Proof. clear - Hc. intros. unfold parseMapLiteral. go. Qed.
  Local Hint Resolve w_parseMapLiteral : tell.
  Lemma w_parseQueryParam  : gives good parseQueryParam.
  Proof. clear - Hc. intros. unfold parseQueryParam. go. Qed.
  Local Hint Resolve w_parseQueryParam : tell.
  Lemma w_parseArrayParams  : gives good parseArrayParams.
  Proof. clear - Hc. intros. unfold parseArrayParams. go. Qed.
  Local Hint Resolve w_parseArrayParams : tell.
  Lemma w_parseColumnStar  : gives good parseColumnStar.
  Proof. clear - Hc. intros. unfold parseColumnStar. go. Qed.
  Local Hint Resolve w_parseColumnStar : tell.
  Lemma w_parseInterval (requireKeyword : bool) : gives good (parseInterval requireKeyword).
  Proof. clear - Hc. intros. unfold parseInterval. go. Qed.
  Local Hint Resolve w_parseInterval : tell.
  Lemma w_parseFrameDirectionWithEnd  : gives good parseFrameDirectionWithEnd.
  Proof. clear - Hc. intros. unfold parseFrameDirectionWithEnd. go. Qed.
  Local Hint Resolve w_parseFrameDirectionWithEnd : tell.
  Lemma w_parseFrameCurrentRow  : gives good parseFrameCurrentRow.
  Proof. clear - Hc. intros. unfold parseFrameCurrentRow. go. Qed.
  Local Hint Resolve w_parseFrameCurrentRow : tell.
  Lemma w_parseFrameUnbounded  : gives good parseFrameUnbounded.
  Proof. clear - Hc. intros. unfold parseFrameUnbounded. go. Qed.
  Local Hint Resolve w_parseFrameUnbounded : tell.
  Lemma w_parseFrameNumber  : gives good parseFrameNumber.
  Proof. clear - Hc. intros. unfold parseFrameNumber. go. Qed.
  Local Hint Resolve w_parseFrameNumber : tell.
  Lemma w_parseFrameParam  : gives good parseFrameParam.
  Proof. clear - Hc. intros. unfold parseFrameParam. go. Qed.
  Local Hint Resolve w_parseFrameParam : tell.
  Lemma w_parseFrameInterval  : gives good parseFrameInterval.
  Proof. clear - Hc. intros. unfold parseFrameInterval. go. Qed.
  Local Hint Resolve w_parseFrameInterval : tell.
  Lemma w_parseFrameExtent  : gives good parseFrameExtent.
  Proof. clear - Hc. intros. unfold parseFrameExtent. go. Qed.
  Local Hint Resolve w_parseFrameExtent : tell.
  Lemma w_parseWindowFrameClause (p : pos) : gives good (parseWindowFrameClause p).
  Proof. clear - Hc. intros. unfold parseWindowFrameClause. go. Qed.
  Local Hint Resolve w_parseWindowFrameClause : tell.
  Lemma w_tryParseWindowFrameClause  : gives good tryParseWindowFrameClause.
  Proof. clear - Hc. intros. unfold tryParseWindowFrameClause. go. Qed.
  Local Hint Resolve w_tryParseWindowFrameClause : tell.
  Lemma w_tryParsePartitionByClause (p : pos) : gives good (tryParsePartitionByClause p).
  Proof. clear - Hc. intros. unfold tryParsePartitionByClause. go. Qed.
  Local Hint Resolve w_tryParsePartitionByClause : tell.
  Lemma w_tryKwExpr (k : string) (p : pos) : gives good (tryKwExpr k p).
  Proof. clear - Hc. intros. unfold tryKwExpr. go. Qed.
  Local Hint Resolve w_tryKwExpr : tell.
  Lemma w_parseFillClause (fillPos : pos) : gives good (parseFillClause fillPos).
  Proof. clear - Hc. intros. unfold parseFillClause. go. Qed.
  Local Hint Resolve w_parseFillClause : tell.
  Lemma w_parseInterpolateClause (interpolatePos : pos) : gives good (parseInterpolateClause interpolatePos).
  Proof. clear - Hc. intros. unfold parseInterpolateClause. go. Qed.
  Local Hint Resolve w_parseInterpolateClause : tell.
  Lemma w_parseOrderExpr (p : pos) : gives good (parseOrderExpr p).
  Proof. clear - Hc. intros. unfold parseOrderExpr. go. Qed.
  Local Hint Resolve w_parseOrderExpr : tell.
  Lemma w_parseOrderByClause (p : pos) : gives good (parseOrderByClause p).
  Proof. clear - Hc. intros. unfold parseOrderByClause. go. Qed.
  Local Hint Resolve w_parseOrderByClause : tell.
  Lemma w_tryParseOrderByClause (p : pos) : gives good (tryParseOrderByClause p).
  Proof. clear - Hc. intros. unfold tryParseOrderByClause. go. Qed.
  Local Hint Resolve w_tryParseOrderByClause : tell.
  Lemma w_parseWindowCondition  : gives good parseWindowCondition.
  Proof. clear - Hc. intros. unfold parseWindowCondition. go. Qed.
  Local Hint Resolve w_parseWindowCondition : tell.
  Lemma w_parseIdentOrFunction  : gives good parseIdentOrFunction.
  Proof. clear - Hc. intros. unfold parseIdentOrFunction. go. Qed.
  Local Hint Resolve w_parseIdentOrFunction : tell.
  Lemma w_parseColumnCastExpr (p : pos) : gives good (parseColumnCastExpr p).
  Proof. clear - Hc. intros. unfold parseColumnCastExpr. go. Qed.
  Local Hint Resolve w_parseColumnCastExpr : tell.
  Lemma w_parseColumnCaseExpr (p : pos) : gives good (parseColumnCaseExpr p).
  Proof. clear - Hc. intros. unfold parseColumnCaseExpr. go. Qed.
  Local Hint Resolve w_parseColumnCaseExpr : tell.
  Lemma w_parseExtractFrom (ident : Ast.expr) : ok ident -> gives good (parseExtractFrom ident).
  Proof. clear - Hc. intros. unfold parseExtractFrom. go. Qed.
  Local Hint Resolve w_parseExtractFrom : tell.
  Lemma w_parseColumnExtractExpr (p : pos) : gives good (parseColumnExtractExpr p).
  Proof. clear - Hc. intros. unfold parseColumnExtractExpr. go. apply (g_bind _ _ good); [apply w_commaLoop; go; rewrite CaseExpr.as_name_match; go | intros; clean; go]. Qed.
  Local Hint Resolve w_parseColumnExtractExpr : tell.
  Lemma w_parseSubQuery  : gives good parseSubQuery.
  Proof. clear - Hc. intros. unfold parseSubQuery. go. Qed.
  Local Hint Resolve w_parseSubQuery : tell.
  Lemma w_parseIntervalOrIdent  : gives good parseIntervalOrIdent.
  Proof. clear - Hc. intros. unfold parseIntervalOrIdent. go. Qed.
  Local Hint Resolve w_parseIntervalOrIdent : tell.
  Lemma w_parseColumnExpr (p : pos) : gives good (parseColumnExpr p).
  Proof. clear - Hc. intros. unfold parseColumnExpr. go. Qed.
  Local Hint Resolve w_parseColumnExpr : tell.
  Lemma w_parseUnaryExpr (p : pos) : gives good (parseUnaryExpr p).
  Proof. clear - Hc. intros. unfold parseUnaryExpr. go. Qed.
  Local Hint Resolve w_parseUnaryExpr : tell.
  Lemma w_parseTernaryExpr (condition : Ast.expr) : ok condition -> gives good (parseTernaryExpr condition).
  Proof. clear - Hc. intros. unfold parseTernaryExpr. go. Qed.
  Local Hint Resolve w_parseTernaryExpr : tell.
  Lemma w_parseBetweenClause (expr : Ast.expr) (not : bool) : ok expr -> gives good (parseBetweenClause expr not).
  Proof. clear - Hc. intros. unfold parseBetweenClause. go. Qed.
  Local Hint Resolve w_parseBetweenClause : tell.
  Lemma w_parseSubExprHere (prec : nat) : gives good (parseSubExprHere prec).
  Proof. clear - Hc. intros. unfold parseSubExprHere. go. Qed.
  Local Hint Resolve w_parseSubExprHere : tell.
  Lemma w_parseInfix (expr : Ast.expr) (precedence : nat) : ok expr -> gives good (parseInfix expr precedence).
  Proof. clear - Hc. intros. unfold parseInfix. go. Qed.
  Local Hint Resolve w_parseInfix : tell.
  Lemma w_parseInfixLoop (e : Ast.expr) (precedence : nat) : ok e -> gives good (parseInfixLoop e precedence).
  Proof. clear - Hc. intros. unfold parseInfixLoop. go. Qed.
  Local Hint Resolve w_parseInfixLoop : tell.
  Lemma w_body_SubExpr (p : pos) (precedence : nat) : gives good (body_SubExpr p precedence).
  Proof. clear - Hc. intros. unfold body_SubExpr. go. Qed.
  Local Hint Resolve w_body_SubExpr : tell.
End Write.
Global Hint Resolve w_tryParseColumnComment w_parseColumnType w_parseColumnPropertyType w_parseComplexType w_parseEnumValueExpr w_parseEnumType w_parseColumnTypeWithParams w_parseJSONPath w_parseJSONOption w_parseJSONType w_nestedField w_parseNestedTypeFieldWithName w_parseNestedTypeFieldsWithNames w_parseNestedTypeFieldsWithoutNames w_parseNestedTypeFields w_parseNestedType w_body_ColumnTypeArgs w_parseColumnsExpr w_parseColumnExprListWithTerm w_parseColumnExprListWithLParen w_parseColumnExprListWithSquareBracket w_parseColumnExprList w_parseColumnArgList w_tryColumnArgList w_parseFunctionParams w_parseFunctionExpr w_parseKeywordArgModifier w_parseKeywordArgItem w_parseKeywordArgFunctionParams w_parseMapLiteral w_parseQueryParam w_parseArrayParams w_parseColumnStar w_parseInterval w_parseFrameDirectionWithEnd w_parseFrameCurrentRow w_parseFrameUnbounded w_parseFrameNumber w_parseFrameParam w_parseFrameInterval w_parseFrameExtent w_parseWindowFrameClause w_tryParseWindowFrameClause w_tryParsePartitionByClause w_tryKwExpr w_parseFillClause w_parseInterpolateClause w_parseOrderExpr w_parseOrderByClause w_tryParseOrderByClause w_parseWindowCondition w_parseIdentOrFunction w_parseColumnCastExpr w_parseColumnCaseExpr w_parseExtractFrom w_parseColumnExtractExpr w_parseSubQuery w_parseIntervalOrIdent w_parseColumnExpr w_parseUnaryExpr w_parseTernaryExpr w_parseBetweenClause w_parseSubExprHere w_parseInfix w_parseInfixLoop w_body_SubExpr : tell.
Global Hint Extern 0 (WriteLogic.gives _ (commaLoop _ _)) => (apply w_commaLoop; first [assumption | solve [go]]) : tell.
Global Hint Extern 0 (WriteLogic.gives _ (sepTail _ _ _)) => (apply w_sepTail; first [assumption | solve [val] | solve [go]]) : tell.
