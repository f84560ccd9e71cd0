(** Proofs for C43: the functions of ParserView.v. *)
From Coq Require Import String List Arith Bool.
From Verif Require Import Str Keyword Lexer Ast AstPos AstSubs Prog RunFacts ParserCommon ParserExpr ParserQuery ParserTable ParserAlter ParserView ParserSystem Parser SemiLogic SemiTac SemiCommon SemiExpr SemiQuery SemiTable SemiAlter.
Import ListNotations.
Local Open Scope string_scope.
Local Open Scope nat_scope.

Section Semi.
  Context `{Tails} {f : nat} (Hc : calls f).
  Local Notation safe p := (forall pre m, fines pre -> @at_ _ f pre m _ p).

  Lemma s_tryParseModifier  : safe tryParseModifier.
  Proof. clear - Hc. intros. unfold tryParseModifier. go. Qed.
  Local Hint Resolve s_tryParseModifier : semi.
  Lemma s_parseDropDatabase (p : pos) : safe (parseDropDatabase p).
  Proof. clear - Hc. intros. unfold parseDropDatabase. go. Qed.
  Local Hint Resolve s_parseDropDatabase : semi.
  Lemma s_parseDropStmt (p : pos) : safe (parseDropStmt p).
  Proof. clear - Hc. intros. unfold parseDropStmt. go. Qed.
  Local Hint Resolve s_parseDropStmt : semi.
  Lemma s_tryParseRefreshExpr  : safe tryParseRefreshExpr.
  Proof. clear - Hc. intros. unfold tryParseRefreshExpr. go. Qed.
  Local Hint Resolve s_tryParseRefreshExpr : semi.
  Lemma s_parseCreateMaterializedView (p : pos) : safe (parseCreateMaterializedView p).
  Proof. clear - Hc. intros. unfold parseCreateMaterializedView. go. Qed.
  Local Hint Resolve s_parseCreateMaterializedView : semi.
  Lemma s_parseCreateView (p : pos) (orReplace : bool) : safe (parseCreateView p orReplace).
  Proof. clear - Hc. intros. unfold parseCreateView. go. Qed.
  Local Hint Resolve s_parseCreateView : semi.
  Lemma s_tryParseWithTimeout  : safe tryParseWithTimeout.
  Proof. clear - Hc. intros. unfold tryParseWithTimeout. go. Qed.
  Local Hint Resolve s_tryParseWithTimeout : semi.
  Lemma s_parseCreateLiveView (p : pos) : safe (parseCreateLiveView p).
  Proof. clear - Hc. intros. unfold parseCreateLiveView. go. Qed.
  Local Hint Resolve s_parseCreateLiveView : semi.
End Semi.
Global Hint Resolve s_tryParseModifier s_parseDropDatabase s_parseDropStmt s_tryParseRefreshExpr s_parseCreateMaterializedView s_parseCreateView s_tryParseWithTimeout s_parseCreateLiveView : semi.
