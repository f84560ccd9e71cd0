(** Proofs for C24: the functions of ParserExpr.v on two inputs that are the same up to the spelling of keywords. *)
From Coq Require Import String List Arith Bool Lia ZArith.
From Verif Require Import Str Keyword Lexer Ast AstPos AstSubs Prog RunFacts ParserCommon ParserExpr ParserQuery ParserTable ParserAlter ParserView ParserSystem Parser Recase CaseRel CaseFold CaseItem CaseCommon.
Import ListNotations.
Local Open Scope string_scope.
Local Open Scope nat_scope.

(** ** Matches on the shape of a tree *)

Definition enum_end (e : expr) : option pos := match e with EEnumValue _ (ENumberLiteral _ p _ _) => Some p | _ => None end.
Lemma enum_end_match {A} (e : expr) (k : pos -> A) (z : A) :
  match e with EEnumValue _ (ENumberLiteral _ p _ _) => k p | _ => z end = match enum_end e with Some p => k p | None => z end.
Proof. destruct e; try reflexivity. cbn [enum_end]. match goal with |- match ?x with _ => _ end = _ => now destruct x end. Qed.
Lemma enum_end_rel a b : fold a = fold b -> enum_end a = enum_end b.
Proof.
  assert (E : forall e, enum_end (fold e) = enum_end e).
  { intros e. destruct e; try reflexivity. cbn [fold enum_end]. match goal with |- match fold ?x with _ => _ end = _ => now destruct x end. }
  intros H. now rewrite <- (E a), H, E.
Qed.

Lemma recase_recase s : recase (recase s) = recase s.
Proof. unfold recase at 1. rewrite upper_recase. unfold recase. destruct (_ && _); [now rewrite ?upper_upper|reflexivity]. Qed.
Definition as_name (e : expr) : option string := match e with EIdent n _ _ _ => Some n | _ => None end.
Lemma as_name_match {A} (e : expr) (k : string -> A) (z : A) : match e with EIdent n _ _ _ => k n | _ => z end = match as_name e with Some n => k n | None => z end.
Proof. now destruct e. Qed.
Lemma as_name_rel a b : fold a = fold b -> option_map recase (as_name a) = option_map recase (as_name b).
Proof.
  assert (E : forall e, option_map recase (as_name (fold e)) = option_map recase (as_name e)).
  { intros e. destruct e; try reflexivity. cbn [fold as_name option_map]. destruct (_ <=? 1); [now rewrite recase_recase|reflexivity]. }
  intros H. now rewrite <- (E a), H, E.
Qed.
Definition one_path (e : expr) : option expr := match e with EJSONPath [x] => Some x | _ => None end.
Definition one_name (e : expr) : option string := match one_path e with Some x => as_name x | None => None end.
Lemma one_name_match {A} (e : expr) (k : string -> A) (z : A) : match e with EJSONPath [EIdent n _ _ _] => k n | _ => z end = match one_name e with Some n => k n | None => z end.
Proof.
  unfold one_name. destruct e; try reflexivity. cbn [one_path]. match goal with |- match ?l with _ => _ end = _ => destruct l as [|x [|y l]]; [reflexivity| |] end.
  - now destruct x.
  - now destruct x.
Qed.
Lemma one_name_rel a b : fold a = fold b -> option_map recase (one_name a) = option_map recase (one_name b).
Proof.
  assert (E : forall e, one_path (fold e) = option_map fold (one_path e)).
  { intros e. destruct e; try reflexivity. cbn [fold one_path]. match goal with |- match map fold ?l with _ => _ end = _ => now destruct l as [|x [|y l]] end. }
  intros H. unfold one_name. pose proof (E a) as Ea. rewrite H, E in Ea. destruct (one_path a) as [x|], (one_path b) as [y|]; try discriminate; [|reflexivity].
  apply as_name_rel. cbn in Ea. congruence.
Qed.

Section Case.
  Context {f : nat} (Hc : calls f).
  Local Notation sim := (@CaseRel.sim f _ _).

  Lemma c_orM p p1 q q1 : sim p p1 -> sim q q1 -> sim (orM p q) (orM p1 q1).
  Proof. clear - Hc. intros H1 H2. unfold orM. step. Qed.
  Local Hint Extern 0 (CaseRel.sim (orM _ _) (orM _ _)) => (apply c_orM; step) : case.
  Lemma c_anyM {X} (g : X -> prog bool) l : (forall x, sim (g x) (g x)) -> sim (anyM g l) (anyM g l).
  Proof. clear - Hc. intros H. induction l as [|x l IH]; cbn [anyM]; [step|]. apply c_orM; [apply H|exact IH]. Qed.
  Local Hint Extern 0 (CaseRel.sim (anyM _ _) (anyM _ _)) => (apply c_anyM; intros; step) : case.
  Lemma c_commaLoop stop stop1 p p1 : (forall i j, nit i = nit j -> stop i = stop1 j) -> sim p p1 -> sim (commaLoop stop p) (commaLoop stop1 p1).
  Proof.
    clear - Hc. intros H1 H2. unfold commaLoop, loop. refine (sim_loop _ _ _ _ _ _ _ _ _); [related| |intro_rel; step]. intro_rel. refine (sim_bind _ _ _ _ _ _); [step|]. intro_rel.
    rewrite (H1 _ _ H0). step.
  Qed.
  Local Hint Extern 0 (CaseRel.sim (commaLoop _ _) (commaLoop _ _)) => (apply c_commaLoop; [intros; cbv beta; same|step]) : case.
  Lemma c_sepTail sep acc acc1 p p1 : map fold acc = map fold acc1 -> sim p p1 -> sim (sepTail sep acc p) (sepTail sep acc1 p1).
  Proof. clear - Hc. intros H1 H2. unfold sepTail, loop. step. Qed.
  Local Hint Extern 0 (CaseRel.sim (sepTail _ _ _) (sepTail _ _ _)) => (apply c_sepTail; [same|step]) : case.
  Lemma c_tryParseColumnComment (p : pos) : sim (tryParseColumnComment p) (tryParseColumnComment p).
  Proof. clear - Hc. intros. unfold tryParseColumnComment. step. Qed.
  Local Hint Resolve c_tryParseColumnComment : case.
  Lemma c_peekTk (k : kind) : sim (peekTk k) (peekTk k).
  Proof. clear - Hc. intros. unfold peekTk. step. Qed.
  Local Hint Resolve c_peekTk : case.
  Lemma c_peekKw (keyword : string) : sim (peekKw keyword) (peekKw keyword).
  Proof. clear - Hc. intros. unfold peekKw. step. Qed.
  Local Hint Resolve c_peekKw : case.
  Lemma c_peekIsClauseStarter  : sim (peekIsClauseStarter) (peekIsClauseStarter).
  Proof. clear - Hc. intros. unfold peekIsClauseStarter. step. Qed.
  Local Hint Resolve c_peekIsClauseStarter : case.
  Lemma c_peekIsEndOfStatement  : sim (peekIsEndOfStatement) (peekIsEndOfStatement).
  Proof. clear - Hc. intros. unfold peekIsEndOfStatement. step. Qed.
  Local Hint Resolve c_peekIsEndOfStatement : case.
  Lemma c_peekIsExpressionContinuation  : sim (peekIsExpressionContinuation) (peekIsExpressionContinuation).
  Proof. clear - Hc. intros. unfold peekIsExpressionContinuation. step. Qed.
  Local Hint Resolve c_peekIsExpressionContinuation : case.
  Lemma c_keywordIsSelectItemIdentifier  : sim (keywordIsSelectItemIdentifier) (keywordIsSelectItemIdentifier).
  Proof. clear - Hc. intros. unfold keywordIsSelectItemIdentifier. step. Qed.
  Local Hint Resolve c_keywordIsSelectItemIdentifier : case.
  Lemma c_isSelectItemTerminator  : sim (isSelectItemTerminator) (isSelectItemTerminator).
  Proof. clear - Hc. intros. unfold isSelectItemTerminator. step. Qed.
  Local Hint Resolve c_isSelectItemTerminator : case.
  Lemma c_grab  : sim (grab) (grab).
  Proof. clear - Hc. intros. unfold grab. step. Qed.
  Local Hint Resolve c_grab : case.
  Lemma c_grabIf (l : list string) : sim (grabIf l) (grabIf l).
  Proof. clear - Hc. intros. unfold grabIf. step. Qed.
  Local Hint Resolve c_grabIf : case.
  Lemma c_parseJoinType  : sim (parseJoinType) (parseJoinType).
  Proof. clear - Hc. intros. unfold parseJoinType. step. Qed.
  Local Hint Resolve c_parseJoinType : case.
  Lemma c_parseJoinModifiers  : sim (parseJoinModifiers) (parseJoinModifiers).
  Proof. clear - Hc. intros. unfold parseJoinModifiers. step. Qed.
  Local Hint Resolve c_parseJoinModifiers : case.
  Lemma c_peekJoinAfterLocality  : sim (peekJoinAfterLocality) (peekJoinAfterLocality).
  Proof. clear - Hc. intros. unfold peekJoinAfterLocality. step. Qed.
  Local Hint Resolve c_peekJoinAfterLocality : case.
  Lemma c_getNextPrecedence  : sim (getNextPrecedence) (getNextPrecedence).
  Proof. clear - Hc. intros. unfold getNextPrecedence. step. Qed.
  Local Hint Resolve c_getNextPrecedence : case.
  Lemma c_parseColumnType  : sim (parseColumnType) (parseColumnType).
  Proof. clear - Hc. intros. unfold parseColumnType. step. Qed.
  Local Hint Resolve c_parseColumnType : case.
  Lemma c_parseColumnPropertyType  : sim (parseColumnPropertyType) (parseColumnPropertyType).
  Proof. clear - Hc. intros. unfold parseColumnPropertyType. step. Qed.
  Local Hint Resolve c_parseColumnPropertyType : case.
  Lemma c_parseComplexType (name name1 : Ast.expr) (p : pos) : fold name = fold name1 -> sim (parseComplexType name p) (parseComplexType name1 p).
  Proof. clear - Hc. intros. unfold parseComplexType. step. Qed.
  Local Hint Resolve c_parseComplexType : case.
  Lemma c_parseEnumValueExpr  : sim (parseEnumValueExpr) (parseEnumValueExpr).
  Proof. clear - Hc. intros. unfold parseEnumValueExpr. step. Qed.
  Local Hint Resolve c_parseEnumValueExpr : case.
  Lemma c_parseEnumType (name name1 : expr) (p : pos) : fold name = fold name1 -> sim (parseEnumType name p) (parseEnumType name1 p).
  Proof.
    clear - Hc. intros H. unfold parseEnumType. refine (sim_bind _ _ _ _ _ _); [step|]. intro_rel. refine (sim_bind _ _ _ _ _ _); [|intro_rel; step].
    pose proof (last_rel _ _ ENil H0) as E. rewrite !enum_end_match, (enum_end_rel _ _ E). step.
  Qed.
  Local Hint Resolve c_parseEnumType : case.
  Lemma c_parseColumnTypeWithParams (name name1 : Ast.expr) (p : pos) : fold name = fold name1 -> sim (parseColumnTypeWithParams name p) (parseColumnTypeWithParams name1 p).
  Proof. clear - Hc. intros. unfold parseColumnTypeWithParams. step. Qed.
  Local Hint Resolve c_parseColumnTypeWithParams : case.
  Lemma c_parseJSONPath  : sim (parseJSONPath) (parseJSONPath).
  Proof. clear - Hc. intros. unfold parseJSONPath. step. Qed.
  Local Hint Resolve c_parseJSONPath : case.
  Lemma c_parseJSONOption : sim parseJSONOption parseJSONOption.
  Proof.
    clear - Hc. unfold parseJSONOption. step. rewrite !one_name_match. pose proof (one_name_rel _ _ H0) as E.
    destruct (one_name a0), (one_name b1); try discriminate E; [|step]. cbn [option_map] in E. assert (recase s = recase s0) by congruence. step.
  Qed.
  Local Hint Resolve c_parseJSONOption : case.
  Lemma c_parseJSONType (name name1 : Ast.expr) (p : pos) : fold name = fold name1 -> sim (parseJSONType name p) (parseJSONType name1 p).
  Proof. clear - Hc. intros. unfold parseJSONType. step. Qed.
  Local Hint Resolve c_parseJSONType : case.
  Lemma c_nestedField (name name1 : Ast.expr) (columnType columnType1 : Ast.expr) : fold name = fold name1 -> fold columnType = fold columnType1 -> sim (nestedField name columnType) (nestedField name1 columnType1).
  Proof. clear - Hc. intros. unfold nestedField. step. Qed.
  Local Hint Resolve c_nestedField : case.
  Lemma c_parseNestedTypeFieldWithName  : sim (parseNestedTypeFieldWithName) (parseNestedTypeFieldWithName).
  Proof. clear - Hc. intros. unfold parseNestedTypeFieldWithName. step. Qed.
  Local Hint Resolve c_parseNestedTypeFieldWithName : case.
  Lemma c_parseNestedTypeFieldsWithNames (columnName columnName1 : Ast.expr) : fold columnName = fold columnName1 -> sim (parseNestedTypeFieldsWithNames columnName) (parseNestedTypeFieldsWithNames columnName1).
  Proof. clear - Hc. intros. unfold parseNestedTypeFieldsWithNames. step. Qed.
  Local Hint Resolve c_parseNestedTypeFieldsWithNames : case.
  Lemma c_parseNestedTypeFieldsWithoutNames (columnType columnType1 : Ast.expr) : fold columnType = fold columnType1 -> sim (parseNestedTypeFieldsWithoutNames columnType) (parseNestedTypeFieldsWithoutNames columnType1).
  Proof. clear - Hc. intros. unfold parseNestedTypeFieldsWithoutNames. step. Qed.
  Local Hint Resolve c_parseNestedTypeFieldsWithoutNames : case.
  Lemma c_parseNestedTypeFields  : sim (parseNestedTypeFields) (parseNestedTypeFields).
  Proof. clear - Hc. intros. unfold parseNestedTypeFields. step. Qed.
  Local Hint Resolve c_parseNestedTypeFields : case.
  Lemma c_parseNestedType (name name1 : Ast.expr) (p : pos) : fold name = fold name1 -> sim (parseNestedType name p) (parseNestedType name1 p).
  Proof. clear - Hc. intros. unfold parseNestedType. step. Qed.
  Local Hint Resolve c_parseNestedType : case.
  Lemma c_body_ColumnTypeArgs (ident ident1 : Ast.expr) : fold ident = fold ident1 -> sim (body_ColumnTypeArgs ident) (body_ColumnTypeArgs ident1).
  Proof. clear - Hc. intros. unfold body_ColumnTypeArgs. step. Qed.
  Local Hint Resolve c_body_ColumnTypeArgs : case.
  Lemma c_parseColumnsExpr  : sim (parseColumnsExpr) (parseColumnsExpr).
  Proof. clear - Hc. intros. unfold parseColumnsExpr. step. Qed.
  Local Hint Resolve c_parseColumnsExpr : case.
  Lemma c_parseColumnExprListWithTerm (term : option kind) (p : pos) : sim (parseColumnExprListWithTerm term p) (parseColumnExprListWithTerm term p).
  Proof. clear - Hc. intros. unfold parseColumnExprListWithTerm. step. Qed.
  Local Hint Resolve c_parseColumnExprListWithTerm : case.
  Lemma c_parseColumnExprListWithLParen  : sim (parseColumnExprListWithLParen) (parseColumnExprListWithLParen).
  Proof. clear - Hc. intros. unfold parseColumnExprListWithLParen. step. Qed.
  Local Hint Resolve c_parseColumnExprListWithLParen : case.
  Lemma c_parseColumnExprListWithSquareBracket  : sim (parseColumnExprListWithSquareBracket) (parseColumnExprListWithSquareBracket).
  Proof. clear - Hc. intros. unfold parseColumnExprListWithSquareBracket. step. Qed.
  Local Hint Resolve c_parseColumnExprListWithSquareBracket : case.
  Lemma c_parseColumnExprList  : sim (parseColumnExprList) (parseColumnExprList).
  Proof. clear - Hc. intros. unfold parseColumnExprList. step. Qed.
  Local Hint Resolve c_parseColumnExprList : case.
  Lemma c_parseColumnArgList  : sim (parseColumnArgList) (parseColumnArgList).
  Proof. clear - Hc. intros. unfold parseColumnArgList. step. Qed.
  Local Hint Resolve c_parseColumnArgList : case.
  Lemma c_tryColumnArgList  : sim (tryColumnArgList) (tryColumnArgList).
  Proof. clear - Hc. intros. unfold tryColumnArgList. step. Qed.
  Local Hint Resolve c_tryColumnArgList : case.
  Lemma c_parseFunctionParams  : sim (parseFunctionParams) (parseFunctionParams).
  Proof. clear - Hc. intros. unfold parseFunctionParams. step. Qed.
  Local Hint Resolve c_parseFunctionParams : case.
  Lemma c_parseFunctionExpr  : sim (parseFunctionExpr) (parseFunctionExpr).
  Proof. clear - Hc. intros. unfold parseFunctionExpr. step. Qed.
  Local Hint Resolve c_parseFunctionExpr : case.
  Lemma c_consumeOrFail  : sim (consumeOrFail) (consumeOrFail).
  Proof. clear - Hc. intros. unfold consumeOrFail. step. Qed.
  Local Hint Resolve c_consumeOrFail : case.
  Lemma c_parseKeywordArgModifier (form : keywordArgForm) (slot : nat) : sim (parseKeywordArgModifier form slot) (parseKeywordArgModifier form slot).
  Proof. clear - Hc. intros. unfold parseKeywordArgModifier. step. Qed.
  Local Hint Resolve c_parseKeywordArgModifier : case.
  Lemma c_parseKeywordArgItem (form : keywordArgForm) (slot : nat) (allowSeparators : bool) : sim (parseKeywordArgItem form slot allowSeparators) (parseKeywordArgItem form slot allowSeparators).
  Proof. clear - Hc. intros. unfold parseKeywordArgItem. step. Qed.
  Local Hint Resolve c_parseKeywordArgItem : case.
  Lemma c_parseKeywordArgFunctionParams (form : keywordArgForm) : sim (parseKeywordArgFunctionParams form) (parseKeywordArgFunctionParams form).
  Proof. clear - Hc. intros. unfold parseKeywordArgFunctionParams. step. Qed.
  Local Hint Resolve c_parseKeywordArgFunctionParams : case.
  Lemma c_parseMapLiteral  : sim (parseMapLiteral) (parseMapLiteral).
  Proof. clear - Hc. intros. unfold parseMapLiteral. step. Qed.
  Local Hint Resolve c_parseMapLiteral : case.
  Lemma c_parseQueryParam  : sim (parseQueryParam) (parseQueryParam).
  Proof. clear - Hc. intros. unfold parseQueryParam. step. Qed.
  Local Hint Resolve c_parseQueryParam : case.
  Lemma c_parseArrayParams  : sim (parseArrayParams) (parseArrayParams).
  Proof. clear - Hc. intros. unfold parseArrayParams. step. Qed.
  Local Hint Resolve c_parseArrayParams : case.
  Lemma c_parseColumnStar  : sim (parseColumnStar) (parseColumnStar).
  Proof. clear - Hc. intros. unfold parseColumnStar. step. Qed.
  Local Hint Resolve c_parseColumnStar : case.
  Lemma c_parseInterval (requireKeyword : bool) : sim (parseInterval requireKeyword) (parseInterval requireKeyword).
  Proof. clear - Hc. intros. unfold parseInterval. step. Qed.
  Local Hint Resolve c_parseInterval : case.
  Lemma c_parseFrameDirection  : sim (parseFrameDirection) (parseFrameDirection).
  Proof. clear - Hc. intros. unfold parseFrameDirection. step. Qed.
  Local Hint Resolve c_parseFrameDirection : case.
  Lemma c_parseFrameDirectionWithEnd  : sim (parseFrameDirectionWithEnd) (parseFrameDirectionWithEnd).
  Proof. clear - Hc. intros. unfold parseFrameDirectionWithEnd. step. Qed.
  Local Hint Resolve c_parseFrameDirectionWithEnd : case.
  Lemma c_parseFrameCurrentRow  : sim (parseFrameCurrentRow) (parseFrameCurrentRow).
  Proof. clear - Hc. intros. unfold parseFrameCurrentRow. step. Qed.
  Local Hint Resolve c_parseFrameCurrentRow : case.
  Lemma c_parseFrameUnbounded  : sim (parseFrameUnbounded) (parseFrameUnbounded).
  Proof. clear - Hc. intros. unfold parseFrameUnbounded. step. Qed.
  Local Hint Resolve c_parseFrameUnbounded : case.
  Lemma c_parseFrameNumber  : sim (parseFrameNumber) (parseFrameNumber).
  Proof. clear - Hc. intros. unfold parseFrameNumber. step. Qed.
  Local Hint Resolve c_parseFrameNumber : case.
  Lemma c_parseFrameParam  : sim (parseFrameParam) (parseFrameParam).
  Proof. clear - Hc. intros. unfold parseFrameParam. step. Qed.
  Local Hint Resolve c_parseFrameParam : case.
  Lemma c_parseFrameInterval  : sim (parseFrameInterval) (parseFrameInterval).
  Proof. clear - Hc. intros. unfold parseFrameInterval. step. Qed.
  Local Hint Resolve c_parseFrameInterval : case.
  Lemma c_parseFrameExtent  : sim (parseFrameExtent) (parseFrameExtent).
  Proof. clear - Hc. intros. unfold parseFrameExtent. step. Qed.
  Local Hint Resolve c_parseFrameExtent : case.
  Lemma c_parseWindowFrameClause (p : pos) : sim (parseWindowFrameClause p) (parseWindowFrameClause p).
  Proof. clear - Hc. intros. unfold parseWindowFrameClause. step. Qed.
  Local Hint Resolve c_parseWindowFrameClause : case.
  Lemma c_tryParseWindowFrameClause  : sim (tryParseWindowFrameClause) (tryParseWindowFrameClause).
  Proof. clear - Hc. intros. unfold tryParseWindowFrameClause. step. Qed.
  Local Hint Resolve c_tryParseWindowFrameClause : case.
  Lemma c_tryParsePartitionByClause (p : pos) : sim (tryParsePartitionByClause p) (tryParsePartitionByClause p).
  Proof. clear - Hc. intros. unfold tryParsePartitionByClause. step. Qed.
  Local Hint Resolve c_tryParsePartitionByClause : case.
  Lemma c_tryKwExpr (k : string) (p : pos) : sim (tryKwExpr k p) (tryKwExpr k p).
  Proof. clear - Hc. intros. unfold tryKwExpr. step. Qed.
  Local Hint Resolve c_tryKwExpr : case.
  Lemma c_parseFillClause (fillPos : pos) : sim (parseFillClause fillPos) (parseFillClause fillPos).
  Proof. clear - Hc. intros. unfold parseFillClause. step. Qed.
  Local Hint Resolve c_parseFillClause : case.
  Lemma c_parseInterpolateClause (interpolatePos : pos) : sim (parseInterpolateClause interpolatePos) (parseInterpolateClause interpolatePos).
  Proof. clear - Hc. intros. unfold parseInterpolateClause. step. Qed.
  Local Hint Resolve c_parseInterpolateClause : case.
  Lemma c_parseOrderExpr (p : pos) : sim (parseOrderExpr p) (parseOrderExpr p).
  Proof. clear - Hc. intros. unfold parseOrderExpr. step. Qed.
  Local Hint Resolve c_parseOrderExpr : case.
  Lemma c_parseOrderByClause (p : pos) : sim (parseOrderByClause p) (parseOrderByClause p).
  Proof. clear - Hc. intros. unfold parseOrderByClause. step. Qed.
  Local Hint Resolve c_parseOrderByClause : case.
  Lemma c_tryParseOrderByClause (p : pos) : sim (tryParseOrderByClause p) (tryParseOrderByClause p).
  Proof. clear - Hc. intros. unfold tryParseOrderByClause. step. Qed.
  Local Hint Resolve c_tryParseOrderByClause : case.
  Lemma c_canParseWindowNameInParens  : sim (canParseWindowNameInParens) (canParseWindowNameInParens).
  Proof. clear - Hc. intros. unfold canParseWindowNameInParens. step. Qed.
  Local Hint Resolve c_canParseWindowNameInParens : case.
  Lemma c_parseWindowCondition  : sim (parseWindowCondition) (parseWindowCondition).
  Proof. clear - Hc. intros. unfold parseWindowCondition. step. Qed.
  Local Hint Resolve c_parseWindowCondition : case.
  Lemma c_parseIdentOrFunction  : sim (parseIdentOrFunction) (parseIdentOrFunction).
  Proof. clear - Hc. intros. unfold parseIdentOrFunction. step. Qed.
  Local Hint Resolve c_parseIdentOrFunction : case.
  Lemma c_parseColumnCastExpr (p : pos) : sim (parseColumnCastExpr p) (parseColumnCastExpr p).
  Proof. clear - Hc. intros. unfold parseColumnCastExpr. step. Qed.
  Local Hint Resolve c_parseColumnCastExpr : case.
  Lemma c_parseColumnCaseExpr (p : pos) : sim (parseColumnCaseExpr p) (parseColumnCaseExpr p).
  Proof. clear - Hc. intros. unfold parseColumnCaseExpr. step. Qed.
  Local Hint Resolve c_parseColumnCaseExpr : case.
  Lemma c_parseExtractFrom (ident ident1 : Ast.expr) : fold ident = fold ident1 -> sim (parseExtractFrom ident) (parseExtractFrom ident1).
  Proof. clear - Hc. intros. unfold parseExtractFrom. step. Qed.
  Local Hint Resolve c_parseExtractFrom : case.
  Lemma c_parseColumnExtractExpr (p : pos) : sim (parseColumnExtractExpr p) (parseColumnExtractExpr p).
  Proof.
    clear - Hc. unfold parseColumnExtractExpr. refine (sim_bind _ _ _ _ _ _); [step|]. intro_rel. refine (sim_bind _ _ _ _ _ _); [step|]. intro_rel.
    refine (sim_bind _ _ _ _ _ _); [|intro_rel; step]. apply c_commaLoop; [intros; now apply eof_rel|]. refine (sim_bind _ _ _ _ _ _); [step|]. intro_rel.
    refine (sim_bind _ _ _ _ _ _); [step|]. intro_rel. rewrite !as_name_match. pose proof (as_name_rel _ _ H) as E.
    destruct (as_name a1) as [x|], (as_name b1) as [y|]; try discriminate E; [|step]. cbn [option_map] in E. assert (recase x = recase y) by congruence. step.
  Qed.
  Local Hint Resolve c_parseColumnExtractExpr : case.
  Lemma c_parseSubQuery  : sim (parseSubQuery) (parseSubQuery).
  Proof. clear - Hc. intros. unfold parseSubQuery. step. Qed.
  Local Hint Resolve c_parseSubQuery : case.
  Lemma c_parseIntervalOrIdent  : sim (parseIntervalOrIdent) (parseIntervalOrIdent).
  Proof. clear - Hc. intros. unfold parseIntervalOrIdent. step. Qed.
  Local Hint Resolve c_parseIntervalOrIdent : case.
  Lemma c_parseColumnExpr (p : pos) : sim (parseColumnExpr p) (parseColumnExpr p).
  Proof. clear - Hc. intros. unfold parseColumnExpr. step. Qed.
  Local Hint Resolve c_parseColumnExpr : case.
  Lemma c_parseUnaryExpr (p : pos) : sim (parseUnaryExpr p) (parseUnaryExpr p).
  Proof. clear - Hc. intros. unfold parseUnaryExpr. step. Qed.
  Local Hint Resolve c_parseUnaryExpr : case.
  Lemma c_parseTernaryExpr (condition condition1 : Ast.expr) : fold condition = fold condition1 -> sim (parseTernaryExpr condition) (parseTernaryExpr condition1).
  Proof. clear - Hc. intros. unfold parseTernaryExpr. step. Qed.
  Local Hint Resolve c_parseTernaryExpr : case.
  Lemma c_parseBetweenClause (expr expr1 : Ast.expr) (not : bool) : fold expr = fold expr1 -> sim (parseBetweenClause expr not) (parseBetweenClause expr1 not).
  Proof. clear - Hc. intros. unfold parseBetweenClause. step. Qed.
  Local Hint Resolve c_parseBetweenClause : case.
  Lemma c_parseSubExprHere (prec : nat) : sim (parseSubExprHere prec) (parseSubExprHere prec).
  Proof. clear - Hc. intros. unfold parseSubExprHere. step. Qed.
  Local Hint Resolve c_parseSubExprHere : case.
  Lemma c_parseInfix (expr expr1 : Ast.expr) (precedence : nat) : fold expr = fold expr1 -> sim (parseInfix expr precedence) (parseInfix expr1 precedence).
  Proof. clear - Hc. intros. unfold parseInfix. step. Qed.
  Local Hint Resolve c_parseInfix : case.
  Lemma c_parseInfixLoop (e e1 : Ast.expr) (precedence : nat) : fold e = fold e1 -> sim (parseInfixLoop e precedence) (parseInfixLoop e1 precedence).
  Proof. clear - Hc. intros. unfold parseInfixLoop. step. Qed.
  Local Hint Resolve c_parseInfixLoop : case.
  Lemma c_body_SubExpr (p : pos) (precedence : nat) : sim (body_SubExpr p precedence) (body_SubExpr p precedence).
  Proof. clear - Hc. intros. unfold body_SubExpr. step. Qed.
  Local Hint Resolve c_body_SubExpr : case.
End Case.
Global Hint Resolve c_tryParseColumnComment c_peekTk c_peekKw c_peekIsClauseStarter c_peekIsEndOfStatement c_peekIsExpressionContinuation c_keywordIsSelectItemIdentifier c_isSelectItemTerminator c_grab c_grabIf c_parseJoinType c_parseJoinModifiers c_peekJoinAfterLocality c_getNextPrecedence c_parseColumnType c_parseColumnPropertyType c_parseComplexType c_parseEnumValueExpr c_parseEnumType c_parseColumnTypeWithParams c_parseJSONPath c_parseJSONOption c_parseJSONType c_nestedField c_parseNestedTypeFieldWithName c_parseNestedTypeFieldsWithNames c_parseNestedTypeFieldsWithoutNames c_parseNestedTypeFields c_parseNestedType c_body_ColumnTypeArgs c_parseColumnsExpr c_parseColumnExprListWithTerm c_parseColumnExprListWithLParen c_parseColumnExprListWithSquareBracket c_parseColumnExprList c_parseColumnArgList c_tryColumnArgList c_parseFunctionParams c_parseFunctionExpr c_consumeOrFail c_parseKeywordArgModifier c_parseKeywordArgItem c_parseKeywordArgFunctionParams c_parseMapLiteral c_parseQueryParam c_parseArrayParams c_parseColumnStar c_parseInterval c_parseFrameDirection c_parseFrameDirectionWithEnd c_parseFrameCurrentRow c_parseFrameUnbounded c_parseFrameNumber c_parseFrameParam c_parseFrameInterval c_parseFrameExtent c_parseWindowFrameClause c_tryParseWindowFrameClause c_tryParsePartitionByClause c_tryKwExpr c_parseFillClause c_parseInterpolateClause c_parseOrderExpr c_parseOrderByClause c_tryParseOrderByClause c_canParseWindowNameInParens c_parseWindowCondition c_parseIdentOrFunction c_parseColumnCastExpr c_parseColumnCaseExpr c_parseExtractFrom c_parseColumnExtractExpr c_parseSubQuery c_parseIntervalOrIdent c_parseColumnExpr c_parseUnaryExpr c_parseTernaryExpr c_parseBetweenClause c_parseSubExprHere c_parseInfix c_parseInfixLoop c_body_SubExpr : case.
Global Hint Extern 0 (sim (commaLoop _ _) (commaLoop _ _)) => (apply c_commaLoop; first [assumption | solve [intros; cbv beta; same] | step]) : case.
Global Hint Extern 0 (sim (sepTail _ _ _) (sepTail _ _ _)) => (apply c_sepTail; first [assumption | solve [same] | step]) : case.
Global Hint Extern 0 (sim (orM _ _) (orM _ _)) => (apply c_orM; first [assumption | step]) : case.
Global Hint Extern 0 (sim (anyM _ _) (anyM _ _)) => (apply c_anyM; first [assumption | intros; step]) : case.
