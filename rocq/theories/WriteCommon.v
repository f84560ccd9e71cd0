(** Proofs for C42: the functions of ParserCommon.v. *)
From Coq Require Import String List Arith Bool.
From Verif Require Import Str Keyword Lexer Ast AstPos AstSubs Prog RunFacts ParserCommon ParserExpr ParserQuery ParserTable ParserAlter ParserView ParserSystem Parser Words WriteLogic WriteTac.
Import ListNotations.
Local Open Scope string_scope.
Local Open Scope nat_scope.

Section Write.
  Context {f : nat} (Hc : calls f).
  Local Notation gives := (@WriteLogic.gives f _).

  Lemma w_tryParseIdent  : gives good tryParseIdent.
  Proof. clear - Hc. intros. unfold tryParseIdent. go. Qed.
  Local Hint Resolve w_tryParseIdent : tell.
  Lemma w_parseAnyKeyword  : gives good parseAnyKeyword.
  Proof. clear - Hc. intros. unfold parseAnyKeyword. go. Qed.
  Local Hint Resolve w_parseAnyKeyword : tell.
  Lemma w_parseIdent  : gives (fun e => ok e /\ exists n q a b, e = EIdent n q a b) parseIdent.
  Proof. clear - Hc. intros. unfold parseIdent. unfold ident_of. go. Qed.
  Local Hint Resolve w_parseIdent : tell.
  Lemma w_parseIdentOrStar  : gives good parseIdentOrStar.
  Proof. clear - Hc. intros. unfold parseIdentOrStar. go. Qed.
  Local Hint Resolve w_parseIdentOrStar : tell.
  Lemma w_parseIdentOrString  : gives good parseIdentOrString.
  Proof. clear - Hc. intros. unfold parseIdentOrString. go. Qed.
  Local Hint Resolve w_parseIdentOrString : tell.
  Lemma w_tryParseDotIdent  : gives good tryParseDotIdent.
  Proof. clear - Hc. intros. unfold tryParseDotIdent. go. Qed.
  Local Hint Resolve w_tryParseDotIdent : tell.
  Lemma w_tryParseDotIdentOrString  : gives good tryParseDotIdentOrString.
  Proof. clear - Hc. intros. unfold tryParseDotIdentOrString. go. Qed.
  Local Hint Resolve w_tryParseDotIdentOrString : tell.
  Lemma w_parseString (p : pos) : gives (fun e => ok e /\ exists p q s, e = EStringLiteral p q s) (parseString p).
  Proof. clear - Hc. intros. unfold parseString. go. Qed.
  Local Hint Resolve w_parseString : tell.
  Lemma w_parseStringHere  : gives (fun e => ok e /\ exists p q s, e = EStringLiteral p q s) parseStringHere.
  Proof. clear - Hc. intros. unfold parseStringHere. go. Qed.
  Local Hint Resolve w_parseStringHere : tell.
  Lemma w_parseUUID  : gives good parseUUID.
  Proof. clear - Hc. intros. unfold parseUUID. go. Qed.
  Local Hint Resolve w_parseUUID : tell.
  Lemma w_tryParseUUID  : gives good tryParseUUID.
  Proof. clear - Hc. intros. unfold tryParseUUID. go. Qed.
  Local Hint Resolve w_tryParseUUID : tell.
  Lemma w_tryParseComment  : gives good tryParseComment.
  Proof. clear - Hc. intros. unfold tryParseComment. go. Qed.
  Local Hint Resolve w_tryParseComment : tell.
  Lemma w_tryParseNull (p : pos) : gives (fun e => ok e /\ texts e = []) (tryParseNull p).
  Proof. clear - Hc. intros. unfold tryParseNull. go. Qed.
  Local Hint Resolve w_tryParseNull : tell.
  Lemma w_tryParseNotNull (p : pos) : gives (fun e => ok e /\ texts e = []) (tryParseNotNull p).
  Proof. clear - Hc. intros. unfold tryParseNotNull. go. Qed.
  Local Hint Resolve w_tryParseNotNull : tell.
  Lemma w_parseNumber (p : pos) : gives (fun e => ok e /\ exists p q s b, e = ENumberLiteral p q s b) (parseNumber p).
  Proof. clear - Hc. intros. unfold parseNumber. go. Qed.
  Local Hint Resolve w_parseNumber : tell.
  Lemma w_parseNumberHere  : gives (fun e => ok e /\ exists p q s b, e = ENumberLiteral p q s b) parseNumberHere.
  Proof. clear - Hc. intros. unfold parseNumberHere. go. Qed.
  Local Hint Resolve w_parseNumberHere : tell.
  Lemma w_parseDecimal (p : pos) : gives (fun e => ok e /\ exists p q s b, e = ENumberLiteral p q s b) (parseDecimal p).
  Proof. clear - Hc. intros. unfold parseDecimal. go. Qed.
  Local Hint Resolve w_parseDecimal : tell.
  Lemma w_parseLiteral (p : pos) : gives good (parseLiteral p).
  Proof. clear - Hc. intros. unfold parseLiteral. go. Qed.
  Local Hint Resolve w_parseLiteral : tell.
  Lemma w_parseLiteralHere  : gives good parseLiteralHere.
  Proof. clear - Hc. intros. unfold parseLiteralHere. go. Qed.
  Local Hint Resolve w_parseLiteralHere : tell.
  Lemma w_parseNestedIdentifier  : gives good parseNestedIdentifier.
  Proof. clear - Hc. intros. unfold parseNestedIdentifier. go. Qed.
  Local Hint Resolve w_parseNestedIdentifier : tell.
  Lemma w_parseFormat (p : pos) : gives good (parseFormat p).
  Proof. clear - Hc. intros. unfold parseFormat. go. Qed.
  Local Hint Resolve w_parseFormat : tell.
  Lemma w_tryParseFormat (p : pos) : gives good (tryParseFormat p).
  Proof. clear - Hc. intros. unfold tryParseFormat. go. Qed.
  Local Hint Resolve w_tryParseFormat : tell.
  Lemma w_parseRatioExpr (p : pos) : gives good (parseRatioExpr p).
  Proof. clear - Hc. intros. unfold parseRatioExpr. go. Qed.
  Local Hint Resolve w_parseRatioExpr : tell.
  Lemma w_parseSubExpr (p : pos) (prec : nat) : gives good (parseSubExpr p prec).
  Proof. clear - Hc. intros. unfold parseSubExpr. go. Qed.
  Local Hint Resolve w_parseSubExpr : tell.
  Lemma w_parseExpr (p : pos) : gives good (parseExpr p).
  Proof. clear - Hc. intros. unfold parseExpr. go. Qed.
  Local Hint Resolve w_parseExpr : tell.
  Lemma w_parseExprHere  : gives good parseExprHere.
  Proof. clear - Hc. intros. unfold parseExprHere. go. Qed.
  Local Hint Resolve w_parseExprHere : tell.
  Lemma w_parseSelectQuery  : gives good parseSelectQuery.
  Proof. clear - Hc. intros. unfold parseSelectQuery. go. Qed.
  Local Hint Resolve w_parseSelectQuery : tell.
  Lemma w_parseColumnTypeArgs (ident : Ast.expr) : ok ident -> gives (fun e => ok e /\ is_nil e = false) (parseColumnTypeArgs ident).
  Proof. clear - Hc. intros. unfold parseColumnTypeArgs. go. Qed.
  Local Hint Resolve w_parseColumnTypeArgs : tell.
  Lemma w_parseJoinRightExpr (p : pos) : gives (fun e => All tells e /\ joined e) (parseJoinRightExpr p).
  Proof. clear - Hc. intros. unfold parseJoinRightExpr. go. Qed.
  Local Hint Resolve w_parseJoinRightExpr : tell.
  Lemma w_parseTableArgExpr (p : pos) : gives good (parseTableArgExpr p).
  Proof. clear - Hc. intros. unfold parseTableArgExpr. go. Qed.
  Local Hint Resolve w_parseTableArgExpr : tell.
  Lemma w_parseDictionaryArgExpr (p : pos) : gives good (parseDictionaryArgExpr p).
  Proof. clear - Hc. intros. unfold parseDictionaryArgExpr. go. Qed.
  Local Hint Resolve w_parseDictionaryArgExpr : tell.
  Lemma w_parseAssignmentValues (p : pos) : gives good (parseAssignmentValues p).
  Proof. clear - Hc. intros. unfold parseAssignmentValues. go. Qed.
  Local Hint Resolve w_parseAssignmentValues : tell.
End Write.
Global Hint Resolve w_tryParseIdent w_parseAnyKeyword w_parseIdent w_parseIdentOrStar w_parseIdentOrString w_tryParseDotIdent w_tryParseDotIdentOrString w_parseString w_parseStringHere w_parseUUID w_tryParseUUID w_tryParseComment w_tryParseNull w_tryParseNotNull w_parseNumber w_parseNumberHere w_parseDecimal w_parseLiteral w_parseLiteralHere w_parseNestedIdentifier w_parseFormat w_tryParseFormat w_parseRatioExpr w_parseSubExpr w_parseExpr w_parseExprHere w_parseSelectQuery w_parseColumnTypeArgs w_parseJoinRightExpr w_parseTableArgExpr w_parseDictionaryArgExpr w_parseAssignmentValues : tell.
