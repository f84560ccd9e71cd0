(** Proofs for C43: the functions of ParserCommon.v. *)
From Coq Require Import String List Arith Bool.
From Verif Require Import Str Keyword Lexer Ast AstPos AstSubs Prog RunFacts ParserCommon ParserExpr ParserQuery ParserTable ParserAlter ParserView ParserSystem Parser SemiLogic SemiTac.
Import ListNotations.
Local Open Scope string_scope.
Local Open Scope nat_scope.

Section Semi.
  Context `{Tails} {f : nat} (Hc : calls f).
  Local Notation safe p := (forall pre m, fines pre -> @at_ _ f pre m _ p).

  Lemma s_tryTk (k : kind) : String.eqb ";" k = false -> safe (tryTk k).
  Proof. clear - Hc. intros. unfold tryTk. go. Qed.
  Local Hint Resolve s_tryTk : semi.
  Lemma s_tryTkb (k : kind) : String.eqb ";" k = false -> safe (tryTkb k).
  Proof. clear - Hc. intros. unfold tryTkb. go. Qed.
  Local Hint Resolve s_tryTkb : semi.
  Lemma s_expTk (k : kind) : String.eqb ";" k = false -> safe (expTk k).
  Proof. clear - Hc. intros. unfold expTk. go. Qed.
  Local Hint Resolve s_expTk : semi.
  Lemma s_expKw (keyword : string) : safe (expKw keyword).
  Proof. clear - Hc. intros. unfold expKw. go. Qed.
  Local Hint Resolve s_expKw : semi.
  Lemma s_try_keywords l : safe (try_keywords l).
  Proof. clear - Hc. induction l as [|k l IH]; intros; cbn [try_keywords]; go. Qed.
  Local Hint Resolve s_try_keywords : semi.
  Lemma s_tryKws (l : list string) : safe (tryKws l).
  Proof. clear - Hc. intros. unfold tryKws. go. Qed.
  Local Hint Resolve s_tryKws : semi.
  Lemma s_tryKw (k : string) : safe (tryKw k).
  Proof. clear - Hc. intros. unfold tryKw. go. Qed.
  Local Hint Resolve s_tryKw : semi.
  Lemma s_tryParseIdent  : safe tryParseIdent.
  Proof. clear - Hc. intros. unfold tryParseIdent. go. Qed.
  Local Hint Resolve s_tryParseIdent : semi.
  Lemma s_parseAnyKeyword  : safe parseAnyKeyword.
  Proof. clear - Hc. intros. unfold parseAnyKeyword. go. Qed.
  Local Hint Resolve s_parseAnyKeyword : semi.
  Lemma s_parseIdent  : safe parseIdent.
  Proof. clear - Hc. intros. unfold parseIdent. go. Qed.
  Local Hint Resolve s_parseIdent : semi.
  Lemma s_parseIdentOrStar  : safe parseIdentOrStar.
  Proof. clear - Hc. intros. unfold parseIdentOrStar. go. Qed.
  Local Hint Resolve s_parseIdentOrStar : semi.
  Lemma s_parseIdentOrString  : safe parseIdentOrString.
  Proof. clear - Hc. intros. unfold parseIdentOrString. go. Qed.
  Local Hint Resolve s_parseIdentOrString : semi.
  Lemma s_tryParseDotIdent  : safe tryParseDotIdent.
  Proof. clear - Hc. intros. unfold tryParseDotIdent. go. Qed.
  Local Hint Resolve s_tryParseDotIdent : semi.
  Lemma s_tryParseDotIdentOrString  : safe tryParseDotIdentOrString.
  Proof. clear - Hc. intros. unfold tryParseDotIdentOrString. go. Qed.
  Local Hint Resolve s_tryParseDotIdentOrString : semi.
  Lemma s_parseString (p : pos) : safe (parseString p).
  Proof. clear - Hc. intros. unfold parseString. go. Qed.
  Local Hint Resolve s_parseString : semi.
  Lemma s_parseStringHere  : safe parseStringHere.
  Proof. clear - Hc. intros. unfold parseStringHere. go. Qed.
  Local Hint Resolve s_parseStringHere : semi.
  Lemma s_parseUUID  : safe parseUUID.
  Proof. clear - Hc. intros. unfold parseUUID. go. Qed.
  Local Hint Resolve s_parseUUID : semi.
  Lemma s_tryParseUUID  : safe tryParseUUID.
  Proof. clear - Hc. intros. unfold tryParseUUID. go. Qed.
  Local Hint Resolve s_tryParseUUID : semi.
  Lemma s_tryParseComment  : safe tryParseComment.
  Proof. clear - Hc. intros. unfold tryParseComment. go. Qed.
  Local Hint Resolve s_tryParseComment : semi.
  Lemma s_tryParseIfExists  : safe tryParseIfExists.
  Proof. clear - Hc. intros. unfold tryParseIfExists. go. Qed.
  Local Hint Resolve s_tryParseIfExists : semi.
  Lemma s_tryParseIfNotExists  : safe tryParseIfNotExists.
  Proof. clear - Hc. intros. unfold tryParseIfNotExists. go. Qed.
  Local Hint Resolve s_tryParseIfNotExists : semi.
  Lemma s_tryParseNull (p : pos) : safe (tryParseNull p).
  Proof. clear - Hc. intros. unfold tryParseNull. go. Qed.
  Local Hint Resolve s_tryParseNull : semi.
  Lemma s_tryParseNotNull (p : pos) : safe (tryParseNotNull p).
  Proof. clear - Hc. intros. unfold tryParseNotNull. go. Qed.
  Local Hint Resolve s_tryParseNotNull : semi.
  Lemma s_parseNumber (p : pos) : safe (parseNumber p).
  Proof. clear - Hc. intros. unfold parseNumber. go. Qed.
  Local Hint Resolve s_parseNumber : semi.
  Lemma s_parseNumberHere  : safe parseNumberHere.
  Proof. clear - Hc. intros. unfold parseNumberHere. go. Qed.
  Local Hint Resolve s_parseNumberHere : semi.
  Lemma s_parseDecimal (p : pos) : safe (parseDecimal p).
  Proof. clear - Hc. intros. unfold parseDecimal. go. destruct a; sstep. Qed.
  Local Hint Resolve s_parseDecimal : semi.
  Lemma s_parseLiteral (p : pos) : safe (parseLiteral p).
  Proof. clear - Hc. intros. unfold parseLiteral. go. Qed.
  Local Hint Resolve s_parseLiteral : semi.
  Lemma s_parseLiteralHere  : safe parseLiteralHere.
  Proof. clear - Hc. intros. unfold parseLiteralHere. go. Qed.
  Local Hint Resolve s_parseLiteralHere : semi.
  Lemma s_parseNestedIdentifier  : safe parseNestedIdentifier.
  Proof. clear - Hc. intros. unfold parseNestedIdentifier. go. Qed.
  Local Hint Resolve s_parseNestedIdentifier : semi.
  Lemma s_parseFormat (p : pos) : safe (parseFormat p).
  Proof. clear - Hc. intros. unfold parseFormat. go. Qed.
  Local Hint Resolve s_parseFormat : semi.
  Lemma s_tryParseFormat (p : pos) : safe (tryParseFormat p).
  Proof. clear - Hc. intros. unfold tryParseFormat. go. Qed.
  Local Hint Resolve s_tryParseFormat : semi.
  Lemma s_parseRatioExpr (p : pos) : safe (parseRatioExpr p).
  Proof. clear - Hc. intros. unfold parseRatioExpr. go. Qed.
  Local Hint Resolve s_parseRatioExpr : semi.
  Lemma s_endOf (e : Ast.expr) : safe (endOf e).
  Proof. clear - Hc. intros. unfold endOf. go. Qed.
  Local Hint Resolve s_endOf : semi.
  Lemma s_posOf (e : Ast.expr) : safe (posOf e).
  Proof. clear - Hc. intros. unfold posOf. go. Qed.
  Local Hint Resolve s_posOf : semi.
  Lemma s_lastEnd (d : pos) (items : list expr) : safe (lastEnd d items).
  Proof. clear - Hc. intros. unfold lastEnd. go. Qed.
  Local Hint Resolve s_lastEnd : semi.
  Lemma s_endOr (e : Ast.expr) (d : pos) : safe (endOr e d).
  Proof. clear - Hc. intros. unfold endOr. go. Qed.
  Local Hint Resolve s_endOr : semi.
  Lemma s_parseSubExpr (p : pos) (prec : nat) : safe (parseSubExpr p prec).
  Proof. clear - Hc. intros. unfold parseSubExpr. go. Qed.
  Local Hint Resolve s_parseSubExpr : semi.
  Lemma s_parseExpr (p : pos) : safe (parseExpr p).
  Proof. clear - Hc. intros. unfold parseExpr. go. Qed.
  Local Hint Resolve s_parseExpr : semi.
  Lemma s_parseExprHere  : safe parseExprHere.
  Proof. clear - Hc. intros. unfold parseExprHere. go. Qed.
  Local Hint Resolve s_parseExprHere : semi.
  Lemma s_parseSelectQuery  : safe parseSelectQuery.
  Proof. clear - Hc. intros. unfold parseSelectQuery. go. Qed.
  Local Hint Resolve s_parseSelectQuery : semi.
  Lemma s_parseColumnTypeArgs (ident : Ast.expr) : safe (parseColumnTypeArgs ident).
  Proof. clear - Hc. intros. unfold parseColumnTypeArgs. go. Qed.
  Local Hint Resolve s_parseColumnTypeArgs : semi.
  Lemma s_parseJoinRightExpr (p : pos) : safe (parseJoinRightExpr p).
  Proof. clear - Hc. intros. unfold parseJoinRightExpr. go. Qed.
  Local Hint Resolve s_parseJoinRightExpr : semi.
  Lemma s_parseTableArgExpr (p : pos) : safe (parseTableArgExpr p).
  Proof. clear - Hc. intros. unfold parseTableArgExpr. go. Qed.
  Local Hint Resolve s_parseTableArgExpr : semi.
  Lemma s_parseDictionaryArgExpr (p : pos) : safe (parseDictionaryArgExpr p).
  Proof. clear - Hc. intros. unfold parseDictionaryArgExpr. go. Qed.
  Local Hint Resolve s_parseDictionaryArgExpr : semi.
  Lemma s_parseAssignmentValues (p : pos) : safe (parseAssignmentValues p).
  Proof. clear - Hc. intros. unfold parseAssignmentValues. go. Qed.
  Local Hint Resolve s_parseAssignmentValues : semi.
End Semi.
Global Hint Resolve s_tryTk s_tryTkb s_expTk s_expKw s_try_keywords s_tryKws s_tryKw s_tryParseIdent s_parseAnyKeyword s_parseIdent s_parseIdentOrStar s_parseIdentOrString s_tryParseDotIdent s_tryParseDotIdentOrString s_parseString s_parseStringHere s_parseUUID s_tryParseUUID s_tryParseComment s_tryParseIfExists s_tryParseIfNotExists s_tryParseNull s_tryParseNotNull s_parseNumber s_parseNumberHere s_parseDecimal s_parseLiteral s_parseLiteralHere s_parseNestedIdentifier s_parseFormat s_tryParseFormat s_parseRatioExpr s_endOf s_posOf s_lastEnd s_endOr s_parseSubExpr s_parseExpr s_parseExprHere s_parseSelectQuery s_parseColumnTypeArgs s_parseJoinRightExpr s_parseTableArgExpr s_parseDictionaryArgExpr s_parseAssignmentValues : semi.
