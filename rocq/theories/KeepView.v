(** Proofs for C41: the functions of ParserView.v. *)
From Coq Require Import String List Arith Bool Lia ZArith.
From Verif Require Import Str Keyword Lexer Ast AstPos AstSubs Prog RunFacts ParserCommon ParserExpr ParserQuery ParserTable ParserAlter ParserView ParserSystem Parser Words KeepSpec KeepLogic KeepTac KeepCommon KeepExpr KeepQuery KeepTable KeepAlter.
Import ListNotations.
Local Open Scope string_scope.
Local Open Scope Z_scope.

Section Keep.
  Context `{Word} {f : nat} (Hc : calls f).
  Local Notation bal := (@KeepLogic.bal _ f).

  Lemma b_tryParseModifier  s : bal s (0) tryParseModifier.
  Proof. clear - Hc. unfold tryParseModifier. kstep. Qed.
  Local Hint Resolve b_tryParseModifier : keep.
  Lemma b_parseDropDatabase (p : pos) s : bal s (0) (parseDropDatabase p).
  Proof. clear - Hc. unfold parseDropDatabase. kstep. Qed.
  Local Hint Resolve b_parseDropDatabase : keep.
  Lemma b_parseDropStmt (p : pos) s : bal s (0) (parseDropStmt p).
  Proof. clear - Hc. unfold parseDropStmt. kstep. Qed.
  Local Hint Resolve b_parseDropStmt : keep.
  Lemma b_tryParseRefreshExpr  s : bal s (0) tryParseRefreshExpr.
  Proof. clear - Hc. unfold tryParseRefreshExpr. kstep. Qed.
  Local Hint Resolve b_tryParseRefreshExpr : keep.
  Lemma b_parseCreateMaterializedView (p : pos) s : bal s (0) (parseCreateMaterializedView p).
  Proof. clear - Hc. unfold parseCreateMaterializedView. kstep. Qed.
  Local Hint Resolve b_parseCreateMaterializedView : keep.
  Lemma b_parseCreateView (p : pos) (orReplace : bool) s : bal s (0) (parseCreateView p orReplace).
  Proof. clear - Hc. unfold parseCreateView. kstep. Qed.
  Local Hint Resolve b_parseCreateView : keep.
  Lemma b_tryParseWithTimeout  s : bal s (0) tryParseWithTimeout.
  Proof. clear - Hc. unfold tryParseWithTimeout. kstep. Qed.
  Local Hint Resolve b_tryParseWithTimeout : keep.
  Lemma b_parseCreateLiveView (p : pos) s : bal s (0) (parseCreateLiveView p).
  Proof. clear - Hc. unfold parseCreateLiveView. kstep. Qed.
  Local Hint Resolve b_parseCreateLiveView : keep.
End Keep.
Global Hint Resolve b_tryParseModifier b_parseDropDatabase b_parseDropStmt b_tryParseRefreshExpr b_parseCreateMaterializedView b_parseCreateView b_tryParseWithTimeout b_parseCreateLiveView : keep.
