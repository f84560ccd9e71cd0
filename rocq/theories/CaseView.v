(** Proofs for C24: the functions of ParserView.v on two inputs that are the same up to the spelling of keywords. *)
From Coq Require Import String List Arith Bool Lia ZArith.
From Verif Require Import Str Keyword Lexer Ast AstPos AstSubs Prog RunFacts ParserCommon ParserExpr ParserQuery ParserTable ParserAlter ParserView ParserSystem Parser Recase CaseRel CaseFold CaseItem CaseCommon CaseExpr CaseQuery CaseTable.
Import ListNotations.
Local Open Scope string_scope.
Local Open Scope nat_scope.

Section Case.
  Context {f : nat} (Hc : calls f).
  Local Notation sim := (@CaseRel.sim f _ _).

  Lemma c_tryParseModifier_eq : @CaseRel.sim f string (@eq string) tryParseModifier tryParseModifier.
  Proof. clear - Hc. unfold tryParseModifier. step. Qed.
  Lemma c_tryParseModifier : sim tryParseModifier tryParseModifier.
  Proof. clear - Hc. unfold tryParseModifier. step. Qed.
  Local Hint Resolve c_tryParseModifier_eq c_tryParseModifier : case.
  Lemma c_parseDropDatabase (p : pos) : sim (parseDropDatabase p) (parseDropDatabase p).
  Proof. clear - Hc. intros. unfold parseDropDatabase. step. Qed.
  Local Hint Resolve c_parseDropDatabase : case.
  Lemma c_parseDropStmt (p : pos) : sim (parseDropStmt p) (parseDropStmt p).
  Proof. clear - Hc. intros. unfold parseDropStmt. step. Qed.
  Local Hint Resolve c_parseDropStmt : case.
  Lemma c_tryParseRefreshExpr  : sim (tryParseRefreshExpr) (tryParseRefreshExpr).
  Proof. clear - Hc. intros. unfold tryParseRefreshExpr. step. Qed.
  Local Hint Resolve c_tryParseRefreshExpr : case.
  Lemma c_parseCreateMaterializedView (p : pos) : sim (parseCreateMaterializedView p) (parseCreateMaterializedView p).
  Proof. clear - Hc. intros. unfold parseCreateMaterializedView. step. Qed.
  Local Hint Resolve c_parseCreateMaterializedView : case.
  Lemma c_parseCreateView (p : pos) (orReplace : bool) : sim (parseCreateView p orReplace) (parseCreateView p orReplace).
  Proof. clear - Hc. intros. unfold parseCreateView. step. Qed.
  Local Hint Resolve c_parseCreateView : case.
  Lemma c_tryParseWithTimeout  : sim (tryParseWithTimeout) (tryParseWithTimeout).
  Proof. clear - Hc. intros. unfold tryParseWithTimeout. step. Qed.
  Local Hint Resolve c_tryParseWithTimeout : case.
  Lemma c_parseCreateLiveView (p : pos) : sim (parseCreateLiveView p) (parseCreateLiveView p).
  Proof. clear - Hc. intros. unfold parseCreateLiveView. step. Qed.
  Local Hint Resolve c_parseCreateLiveView : case.
End Case.
Global Hint Resolve c_tryParseModifier_eq c_tryParseModifier c_parseDropDatabase c_parseDropStmt c_tryParseRefreshExpr c_parseCreateMaterializedView c_parseCreateView c_tryParseWithTimeout c_parseCreateLiveView : case.
