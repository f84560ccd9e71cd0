(** Proofs for C24: the functions of ParserCommon.v on two inputs that are the same up to the spelling of keywords. *)
From Coq Require Import String List Arith Bool Lia ZArith.
From Verif Require Import Str Keyword Lexer Ast AstPos AstSubs Prog RunFacts ParserCommon ParserExpr ParserQuery ParserTable ParserAlter ParserView ParserSystem Parser Recase CaseRel CaseFold CaseItem.
Import ListNotations.
Local Open Scope string_scope.
Local Open Scope nat_scope.

Definition num_base (e : expr) : option nat := match e with ENumberLiteral _ _ _ b => Some b | _ => None end.

Section Case.
  Context {f : nat} (Hc : calls f).
  Local Notation sim := (@CaseRel.sim f _ _).

  Lemma c_cur_item  : sim (cur_item) (cur_item).
  Proof. clear - Hc. intros. unfold cur_item. step. Qed.
  Local Hint Resolve c_cur_item : case.
  Lemma c_pos_  : sim (pos_) (pos_).
  Proof. clear - Hc. intros. unfold pos_. step. Qed.
  Local Hint Resolve c_pos_ : case.
  Lemma c_end_  : sim (end_) (end_).
  Proof. clear - Hc. intros. unfold end_. step. Qed.
  Local Hint Resolve c_end_ : case.
  Lemma c_eof_  : sim (eof_) (eof_).
  Proof. clear - Hc. intros. unfold eof_. step. Qed.
  Local Hint Resolve c_eof_ : case.
  Lemma c_skip  : sim (skip) (skip).
  Proof. clear - Hc. intros. unfold skip. step. Qed.
  Local Hint Resolve c_skip : case.
  Lemma c_cur_str  : sim (cur_str) (cur_str).
  Proof. clear - Hc. intros. unfold cur_str. step. Qed.
  Local Hint Resolve c_cur_str : case.

  Lemma c_tryTk (k : kind) : sim (tryTk k) (tryTk k).
  Proof. clear - Hc. intros. unfold tryTk. step. Qed.
  Local Hint Resolve c_tryTk : case.
  Lemma c_tryTkb (k : kind) : sim (tryTkb k) (tryTkb k).
  Proof. clear - Hc. intros. unfold tryTkb. step. Qed.
  Local Hint Resolve c_tryTkb : case.
  Lemma c_expTk (k : kind) : sim (expTk k) (expTk k).
  Proof. clear - Hc. intros. unfold expTk. step. Qed.
  Local Hint Resolve c_expTk : case.
  Lemma c_expKw (keyword : string) : sim (expKw keyword) (expKw keyword).
  Proof. clear - Hc. intros. unfold expKw. step. Qed.
  Local Hint Resolve c_expKw : case.
  Lemma c_try_keywords l : sim (try_keywords l) (try_keywords l).
  Proof. clear - Hc. induction l as [|k l IH]; cbn [try_keywords]; step. Qed.
  Local Hint Resolve c_try_keywords : case.
  Lemma c_tryKws (l : list string) : sim (tryKws l) (tryKws l).
  Proof. clear - Hc. intros. unfold tryKws. step. Qed.
  Local Hint Resolve c_tryKws : case.
  Lemma c_tryKw (k : string) : sim (tryKw k) (tryKw k).
  Proof. clear - Hc. intros. unfold tryKw. step. Qed.
  Local Hint Resolve c_tryKw : case.
  Lemma c_tryParseIdent  : sim (tryParseIdent) (tryParseIdent).
  Proof. clear - Hc. intros. unfold tryParseIdent. step. Qed.
  Local Hint Resolve c_tryParseIdent : case.
  Lemma c_parseAnyKeyword  : sim (parseAnyKeyword) (parseAnyKeyword).
  Proof. clear - Hc. intros. unfold parseAnyKeyword. step. Qed.
  Local Hint Resolve c_parseAnyKeyword : case.
  Lemma c_parseIdent  : sim (parseIdent) (parseIdent).
  Proof. clear - Hc. intros. unfold parseIdent. step. Qed.
  Local Hint Resolve c_parseIdent : case.
  Lemma c_parseIdentOrStar  : sim (parseIdentOrStar) (parseIdentOrStar).
  Proof. clear - Hc. intros. unfold parseIdentOrStar. step. Qed.
  Local Hint Resolve c_parseIdentOrStar : case.
  Lemma c_parseIdentOrString  : sim (parseIdentOrString) (parseIdentOrString).
  Proof. clear - Hc. intros. unfold parseIdentOrString. step. Qed.
  Local Hint Resolve c_parseIdentOrString : case.
  Lemma c_tryParseDotIdent  : sim (tryParseDotIdent) (tryParseDotIdent).
  Proof. clear - Hc. intros. unfold tryParseDotIdent. step. Qed.
  Local Hint Resolve c_tryParseDotIdent : case.
  Lemma c_tryParseDotIdentOrString  : sim (tryParseDotIdentOrString) (tryParseDotIdentOrString).
  Proof. clear - Hc. intros. unfold tryParseDotIdentOrString. step. Qed.
  Local Hint Resolve c_tryParseDotIdentOrString : case.
  Lemma c_parseString (p : pos) : sim (parseString p) (parseString p).
  Proof. clear - Hc. intros. unfold parseString. step. Qed.
  Local Hint Resolve c_parseString : case.
  Lemma c_parseStringHere  : sim (parseStringHere) (parseStringHere).
  Proof. clear - Hc. intros. unfold parseStringHere. step. Qed.
  Local Hint Resolve c_parseStringHere : case.
  Lemma c_parseUUID  : sim (parseUUID) (parseUUID).
  Proof. clear - Hc. intros. unfold parseUUID. step. Qed.
  Local Hint Resolve c_parseUUID : case.
  Lemma c_tryParseUUID  : sim (tryParseUUID) (tryParseUUID).
  Proof. clear - Hc. intros. unfold tryParseUUID. step. Qed.
  Local Hint Resolve c_tryParseUUID : case.
  Lemma c_tryParseComment  : sim (tryParseComment) (tryParseComment).
  Proof. clear - Hc. intros. unfold tryParseComment. step. Qed.
  Local Hint Resolve c_tryParseComment : case.
  Lemma c_tryParseIfExists  : sim (tryParseIfExists) (tryParseIfExists).
  Proof. clear - Hc. intros. unfold tryParseIfExists. step. Qed.
  Local Hint Resolve c_tryParseIfExists : case.
  Lemma c_tryParseIfNotExists  : sim (tryParseIfNotExists) (tryParseIfNotExists).
  Proof. clear - Hc. intros. unfold tryParseIfNotExists. step. Qed.
  Local Hint Resolve c_tryParseIfNotExists : case.
  Lemma c_tryParseNull (p : pos) : sim (tryParseNull p) (tryParseNull p).
  Proof. clear - Hc. intros. unfold tryParseNull. step. Qed.
  Local Hint Resolve c_tryParseNull : case.
  Lemma c_tryParseNotNull (p : pos) : sim (tryParseNotNull p) (tryParseNotNull p).
  Proof. clear - Hc. intros. unfold tryParseNotNull. step. Qed.
  Local Hint Resolve c_tryParseNotNull : case.
  Lemma c_parseNumber (p : pos) : sim (parseNumber p) (parseNumber p).
  Proof. clear - Hc. intros. unfold parseNumber. step. Qed.
  Local Hint Resolve c_parseNumber : case.
  Lemma c_parseNumberHere  : sim (parseNumberHere) (parseNumberHere).
  Proof. clear - Hc. intros. unfold parseNumberHere. step. Qed.
  Local Hint Resolve c_parseNumberHere : case.
  Lemma c_parseDecimal (p : pos) : sim (parseDecimal p) (parseDecimal p).
  Proof.
    clear - Hc. unfold parseDecimal. refine (sim_bind _ _ _ _ _ _); [step|]. intros a b H. norm H.
    assert (B : forall e, num_base (fold e) = num_base e) by (intros e; now destruct e).
    assert (E : forall (n : expr) (k : nat -> prog expr) (z : prog expr), match n with ENumberLiteral _ _ _ b => k b | _ => z end = match num_base n with Some b => k b | None => z end)
      by (intros n k z; now destruct n).
    rewrite !E, <- (B a), <- (B b), H. step.
  Qed.
  Local Hint Resolve c_parseDecimal : case.
  Lemma c_parseLiteral (p : pos) : sim (parseLiteral p) (parseLiteral p).
  Proof. clear - Hc. intros. unfold parseLiteral. step. Qed.
  Local Hint Resolve c_parseLiteral : case.
  Lemma c_parseLiteralHere  : sim (parseLiteralHere) (parseLiteralHere).
  Proof. clear - Hc. intros. unfold parseLiteralHere. step. Qed.
  Local Hint Resolve c_parseLiteralHere : case.
  Lemma c_parseNestedIdentifier  : sim (parseNestedIdentifier) (parseNestedIdentifier).
  Proof. clear - Hc. intros. unfold parseNestedIdentifier. step. Qed.
  Local Hint Resolve c_parseNestedIdentifier : case.
  Lemma c_parseFormat (p : pos) : sim (parseFormat p) (parseFormat p).
  Proof. clear - Hc. intros. unfold parseFormat. step. Qed.
  Local Hint Resolve c_parseFormat : case.
  Lemma c_tryParseFormat (p : pos) : sim (tryParseFormat p) (tryParseFormat p).
  Proof. clear - Hc. intros. unfold tryParseFormat. step. Qed.
  Local Hint Resolve c_tryParseFormat : case.
  Lemma c_parseRatioExpr (p : pos) : sim (parseRatioExpr p) (parseRatioExpr p).
  Proof. clear - Hc. intros. unfold parseRatioExpr. step. Qed.
  Local Hint Resolve c_parseRatioExpr : case.
  Lemma c_endOf (e e1 : Ast.expr) : fold e = fold e1 -> sim (endOf e) (endOf e1).
  Proof. clear - Hc. intros. unfold endOf. step. Qed.
  Local Hint Resolve c_endOf : case.
  Lemma c_posOf (e e1 : Ast.expr) : fold e = fold e1 -> sim (posOf e) (posOf e1).
  Proof. clear - Hc. intros. unfold posOf. step. Qed.
  Local Hint Resolve c_posOf : case.
  Lemma c_lastEnd (d : pos) (items items1 : list expr) : map fold items = map fold items1 -> sim (lastEnd d items) (lastEnd d items1).
  Proof. clear - Hc. intros H. unfold lastEnd. pose proof (last_rel _ _ ENil H). destruct items, items1; try discriminate; step. Qed.
  Local Hint Resolve c_lastEnd : case.
  Lemma c_endOr (e e1 : Ast.expr) (d : pos) : fold e = fold e1 -> sim (endOr e d) (endOr e1 d).
  Proof. clear - Hc. intros. unfold endOr. step. Qed.
  Local Hint Resolve c_endOr : case.
  Lemma c_parseSubExpr (p : pos) (prec : nat) : sim (parseSubExpr p prec) (parseSubExpr p prec).
  Proof. clear - Hc. intros. unfold parseSubExpr. step. Qed.
  Local Hint Resolve c_parseSubExpr : case.
  Lemma c_parseExpr (p : pos) : sim (parseExpr p) (parseExpr p).
  Proof. clear - Hc. intros. unfold parseExpr. step. Qed.
  Local Hint Resolve c_parseExpr : case.
  Lemma c_parseExprHere  : sim (parseExprHere) (parseExprHere).
  Proof. clear - Hc. intros. unfold parseExprHere. step. Qed.
  Local Hint Resolve c_parseExprHere : case.
  Lemma c_parseSelectQuery  : sim (parseSelectQuery) (parseSelectQuery).
  Proof. clear - Hc. intros. unfold parseSelectQuery. step. Qed.
  Local Hint Resolve c_parseSelectQuery : case.
  Lemma c_parseColumnTypeArgs (ident ident1 : Ast.expr) : fold ident = fold ident1 -> sim (parseColumnTypeArgs ident) (parseColumnTypeArgs ident1).
  Proof. clear - Hc. intros. unfold parseColumnTypeArgs. step. Qed.
  Local Hint Resolve c_parseColumnTypeArgs : case.
  Lemma c_parseJoinRightExpr (p : pos) : sim (parseJoinRightExpr p) (parseJoinRightExpr p).
  Proof. clear - Hc. intros. unfold parseJoinRightExpr. step. Qed.
  Local Hint Resolve c_parseJoinRightExpr : case.
  Lemma c_parseTableArgExpr (p : pos) : sim (parseTableArgExpr p) (parseTableArgExpr p).
  Proof. clear - Hc. intros. unfold parseTableArgExpr. step. Qed.
  Local Hint Resolve c_parseTableArgExpr : case.
  Lemma c_parseDictionaryArgExpr (p : pos) : sim (parseDictionaryArgExpr p) (parseDictionaryArgExpr p).
  Proof. clear - Hc. intros. unfold parseDictionaryArgExpr. step. Qed.
  Local Hint Resolve c_parseDictionaryArgExpr : case.
  Lemma c_parseAssignmentValues (p : pos) : sim (parseAssignmentValues p) (parseAssignmentValues p).
  Proof. clear - Hc. intros. unfold parseAssignmentValues. step. Qed.
  Local Hint Resolve c_parseAssignmentValues : case.

End Case.
Global Hint Resolve c_cur_item c_pos_ c_end_ c_eof_ c_skip c_cur_str c_tryTk c_tryTkb c_expTk c_expKw c_try_keywords c_tryKws c_tryKw c_tryParseIdent c_parseAnyKeyword c_parseIdent c_parseIdentOrStar c_parseIdentOrString c_tryParseDotIdent c_tryParseDotIdentOrString c_parseString c_parseStringHere c_parseUUID c_tryParseUUID c_tryParseComment c_tryParseIfExists c_tryParseIfNotExists c_tryParseNull c_tryParseNotNull c_parseNumber c_parseNumberHere c_parseDecimal c_parseLiteral c_parseLiteralHere c_parseNestedIdentifier c_parseFormat c_tryParseFormat c_parseRatioExpr c_endOf c_posOf c_lastEnd c_endOr c_parseSubExpr c_parseExpr c_parseExprHere c_parseSelectQuery c_parseColumnTypeArgs c_parseJoinRightExpr c_parseTableArgExpr c_parseDictionaryArgExpr c_parseAssignmentValues : case.
