(** Proofs for C41: the functions of ParserCommon.v. *)
From Coq Require Import String List Arith Bool Lia ZArith.
From Verif Require Import Str Keyword Lexer Ast AstPos AstSubs Prog RunFacts ParserCommon ParserExpr ParserQuery ParserTable ParserAlter ParserView ParserSystem Parser Words KeepSpec KeepLogic KeepTac.
Import ListNotations.
Local Open Scope string_scope.
Local Open Scope Z_scope.

Section Keep.
  Context `{Word} {f : nat} (Hc : calls f).
  Local Notation bal := (@KeepLogic.bal _ f).








  Lemma b_tryTk (k : kind) s : leaf k = false -> bal s 0 (tryTk k).
  Proof. clear - Hc. intros Hk. unfold tryTk. kstep. all: rewrite (tk_w _ _ H0 Heqb Hk); lia. Qed.
  Local Hint Extern 0 (KeepLogic.bal _ _ (tryTk _)) => (apply b_tryTk; nonleaf) : keep.
  Lemma b_tryTkb (k : kind) s : leaf k = false -> bal s 0 (tryTkb k).
  Proof. clear - Hc. intros Hk. unfold tryTkb. kstep. all: rewrite (tk_w _ _ H0 Heqb Hk); lia. Qed.
  Local Hint Extern 0 (KeepLogic.bal _ _ (tryTkb _)) => (apply b_tryTkb; nonleaf) : keep.
  Lemma b_expTk (k : kind) s : leaf k = false -> bal s 0 (expTk k).
  Proof. clear - Hc. intros Hk. unfold expTk. kstep. intros Hw a s' E. injection E as <- <-. split; [now apply wf_advance|]. rewrite (left_advance s Hw), (tk_w _ _ H0 Heqb Hk). sizes. near. Qed.
  Local Hint Extern 0 (KeepLogic.bal _ _ (expTk _)) => (apply b_expTk; nonleaf) : keep.
  Lemma b_expKw (k : string) s : bal s 0 (expKw k).
  Proof. clear - Hc. unfold expKw. kstep. intros Hw a s' E. injection E as <- <-. split; [now apply wf_advance|]. rewrite (left_advance s Hw), (kw_w _ _ H0 Heqb). sizes. near. Qed.
  Local Hint Resolve b_expKw : keep.
  Lemma b_try_keywords l s : bal s 0 (try_keywords l).
  Proof. clear - Hc. revert s. induction l as [|k l IH]; intros s; cbn [try_keywords]; kstep. Qed.
  Local Hint Resolve b_try_keywords : keep.
  Lemma b_tryKws (l : list string) s : bal s (0) (tryKws l).
  Proof. clear - Hc. unfold tryKws. kstep. Qed.
  Local Hint Resolve b_tryKws : keep.
  Lemma b_tryKw (k : string) s : bal s (0) (tryKw k).
  Proof. clear - Hc. unfold tryKw. kstep. Qed.
  Local Hint Resolve b_tryKw : keep.
  Lemma b_tryParseIdent  s : bal s (0) tryParseIdent.
  Proof. clear - Hc. unfold tryParseIdent. kstep. Qed.
  Local Hint Resolve b_tryParseIdent : keep.
  Lemma b_parseAnyKeyword  s : bal s (0) parseAnyKeyword.
  Proof. clear - Hc. unfold parseAnyKeyword. kstep. Qed.
  Local Hint Resolve b_parseAnyKeyword : keep.
  Lemma b_parseIdent  s : bal s (0) parseIdent.
  Proof. clear - Hc. unfold parseIdent. kstep. Qed.
  Local Hint Resolve b_parseIdent : keep.
  Lemma b_parseIdentOrStar  s : bal s (0) parseIdentOrStar.
  Proof. clear - Hc. unfold parseIdentOrStar. kstep. Qed.
  Local Hint Resolve b_parseIdentOrStar : keep.
  Lemma b_parseIdentOrString  s : bal s (0) parseIdentOrString.
  Proof. clear - Hc. unfold parseIdentOrString. kstep. Qed.
  Local Hint Resolve b_parseIdentOrString : keep.
  Lemma b_tryParseDotIdent  s : bal s (0) tryParseDotIdent.
  Proof. clear - Hc. unfold tryParseDotIdent. kstep. Qed.
  Local Hint Resolve b_tryParseDotIdent : keep.
  Lemma b_tryParseDotIdentOrString  s : bal s (0) tryParseDotIdentOrString.
  Proof. clear - Hc. unfold tryParseDotIdentOrString. kstep. Qed.
  Local Hint Resolve b_tryParseDotIdentOrString : keep.
  Lemma b_parseString (p : pos) s : bal s (0) (parseString p).
  Proof. clear - Hc. unfold parseString. kstep. Qed.
  Local Hint Resolve b_parseString : keep.
  Lemma b_parseStringHere  s : bal s (0) parseStringHere.
  Proof. clear - Hc. unfold parseStringHere. kstep. Qed.
  Local Hint Resolve b_parseStringHere : keep.
  Lemma b_parseUUID  s : bal s (0) parseUUID.
  Proof. clear - Hc. unfold parseUUID. kstep. Qed.
  Local Hint Resolve b_parseUUID : keep.
  Lemma b_tryParseUUID  s : bal s (0) tryParseUUID.
  Proof. clear - Hc. unfold tryParseUUID. kstep. Qed.
  Local Hint Resolve b_tryParseUUID : keep.
  Lemma b_tryParseComment  s : bal s (0) tryParseComment.
  Proof. clear - Hc. unfold tryParseComment. kstep. Qed.
  Local Hint Resolve b_tryParseComment : keep.
  Lemma b_tryParseIfExists  s : bal s (0) tryParseIfExists.
  Proof. clear - Hc. unfold tryParseIfExists. kstep. Qed.
  Local Hint Resolve b_tryParseIfExists : keep.
  Lemma b_tryParseIfNotExists  s : bal s (0) tryParseIfNotExists.
  Proof. clear - Hc. unfold tryParseIfNotExists. kstep. Qed.
  Local Hint Resolve b_tryParseIfNotExists : keep.
  Lemma b_tryParseNull (p : pos) s : bal s (0) (tryParseNull p).
  Proof. clear - Hc. unfold tryParseNull. kstep. Qed.
  Local Hint Resolve b_tryParseNull : keep.
  Lemma b_tryParseNotNull (p : pos) s : bal s (0) (tryParseNotNull p).
  Proof. clear - Hc. unfold tryParseNotNull. kstep. Qed.
  Local Hint Resolve b_tryParseNotNull : keep.
  Lemma b_parseNumber (p : pos) s : bal s (0) (parseNumber p).
  Proof. clear - Hc. unfold parseNumber. kstep. Qed.
  Local Hint Resolve b_parseNumber : keep.
  Lemma b_parseNumberHere  s : bal s (0) parseNumberHere.
  Proof. clear - Hc. unfold parseNumberHere. kstep. Qed.
  Local Hint Resolve b_parseNumberHere : keep.
  Lemma b_parseDecimal (p : pos) s : bal s 0 (parseDecimal p).
  Proof. clear - Hc. unfold parseDecimal. kstep. destruct a; try apply bal_panic. kstep. Qed.
  Local Hint Resolve b_parseDecimal : keep.
  Lemma b_parseLiteral (p : pos) s : bal s (0) (parseLiteral p).
  Proof. clear - Hc. unfold parseLiteral. kstep. Qed.
  Local Hint Resolve b_parseLiteral : keep.
  Lemma b_parseLiteralHere  s : bal s (0) parseLiteralHere.
  Proof. clear - Hc. unfold parseLiteralHere. kstep. Qed.
  Local Hint Resolve b_parseLiteralHere : keep.
  Lemma b_parseNestedIdentifier  s : bal s (0) parseNestedIdentifier.
  Proof. clear - Hc. unfold parseNestedIdentifier. kstep. Qed.
  Local Hint Resolve b_parseNestedIdentifier : keep.
  Lemma b_parseFormat (p : pos) s : bal s (0) (parseFormat p).
  Proof. clear - Hc. unfold parseFormat. kstep. Qed.
  Local Hint Resolve b_parseFormat : keep.
  Lemma b_tryParseFormat (p : pos) s : bal s (0) (tryParseFormat p).
  Proof. clear - Hc. unfold tryParseFormat. kstep. Qed.
  Local Hint Resolve b_tryParseFormat : keep.
  Lemma b_parseRatioExpr (p : pos) s : bal s (0) (parseRatioExpr p).
  Proof. clear - Hc. unfold parseRatioExpr. kstep. Qed.
  Local Hint Resolve b_parseRatioExpr : keep.


  Lemma b_lastEnd d l s : bal s 0 (lastEnd d l).
  Proof. clear - Hc. unfold lastEnd, endOf. destruct l; kstep. Qed.
  Local Hint Resolve b_lastEnd : keep.
  Lemma b_endOr e d s : bal s 0 (endOr e d).
  Proof. clear - Hc. unfold endOr, endOf. kstep. Qed.
  Local Hint Resolve b_endOr : keep.
  Lemma b_parseSubExpr (p : pos) (prec : nat) s : bal s (0) (parseSubExpr p prec).
  Proof. clear - Hc. unfold parseSubExpr. kstep. Qed.
  Local Hint Resolve b_parseSubExpr : keep.
  Lemma b_parseExpr (p : pos) s : bal s (0) (parseExpr p).
  Proof. clear - Hc. unfold parseExpr. kstep. Qed.
  Local Hint Resolve b_parseExpr : keep.
  Lemma b_parseExprHere  s : bal s (0) parseExprHere.
  Proof. clear - Hc. unfold parseExprHere. kstep. Qed.
  Local Hint Resolve b_parseExprHere : keep.
  Lemma b_parseSelectQuery  s : bal s (0) parseSelectQuery.
  Proof. clear - Hc. unfold parseSelectQuery. kstep. Qed.
  Local Hint Resolve b_parseSelectQuery : keep.
  Lemma b_parseColumnTypeArgs (ident : Ast.expr) s : bal s (cnt ident) (parseColumnTypeArgs ident).
  Proof. clear - Hc. unfold parseColumnTypeArgs. kstep. Qed.
  Local Hint Resolve b_parseColumnTypeArgs : keep.
  Lemma b_parseJoinRightExpr (p : pos) s : bal s (0) (parseJoinRightExpr p).
  Proof. clear - Hc. unfold parseJoinRightExpr. kstep. Qed.
  Local Hint Resolve b_parseJoinRightExpr : keep.
  Lemma b_parseTableArgExpr (p : pos) s : bal s (0) (parseTableArgExpr p).
  Proof. clear - Hc. unfold parseTableArgExpr. kstep. Qed.
  Local Hint Resolve b_parseTableArgExpr : keep.
  Lemma b_parseDictionaryArgExpr (p : pos) s : bal s (0) (parseDictionaryArgExpr p).
  Proof. clear - Hc. unfold parseDictionaryArgExpr. kstep. Qed.
  Local Hint Resolve b_parseDictionaryArgExpr : keep.
  Lemma b_parseAssignmentValues (p : pos) s : bal s (0) (parseAssignmentValues p).
  Proof. clear - Hc. unfold parseAssignmentValues. kstep. Qed.
  Local Hint Resolve b_parseAssignmentValues : keep.
(* TODO loop [('s', 'S'), ('body', 'S -> prog (S + B)')] *)
End Keep.
Global Hint Resolve b_expKw b_try_keywords b_tryKws b_tryKw b_tryParseIdent b_parseAnyKeyword b_parseIdent b_parseIdentOrStar b_parseIdentOrString b_tryParseDotIdent b_tryParseDotIdentOrString b_parseString b_parseStringHere b_parseUUID b_tryParseUUID b_tryParseComment b_tryParseIfExists b_tryParseIfNotExists b_tryParseNull b_tryParseNotNull b_parseNumber b_parseNumberHere b_parseDecimal b_parseLiteral b_parseLiteralHere b_parseNestedIdentifier b_parseFormat b_tryParseFormat b_parseRatioExpr b_lastEnd b_endOr b_parseSubExpr b_parseExpr b_parseExprHere b_parseSelectQuery b_parseColumnTypeArgs b_parseJoinRightExpr b_parseTableArgExpr b_parseDictionaryArgExpr b_parseAssignmentValues : keep.
Global Hint Extern 0 (KeepLogic.bal _ _ (tryTk _)) => (apply b_tryTk; nonleaf) : keep.
Global Hint Extern 0 (KeepLogic.bal _ _ (tryTkb _)) => (apply b_tryTkb; nonleaf) : keep.
Global Hint Extern 0 (KeepLogic.bal _ _ (expTk _)) => (apply b_expTk; nonleaf) : keep.
