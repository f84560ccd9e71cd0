(** Proofs for C43: the functions of Parser.v. *)
From Coq Require Import String List Arith Bool.
From Verif Require Import Str Keyword Lexer Ast AstPos AstSubs Prog RunFacts ParserCommon ParserExpr ParserQuery ParserTable ParserAlter ParserView ParserSystem Parser SemiLogic SemiTac SemiCommon SemiExpr SemiQuery SemiTable SemiAlter SemiView SemiSystem.
Import ListNotations.
Local Open Scope string_scope.
Local Open Scope nat_scope.

Section Semi.
  Context `{Tails} {f : nat} (Hc : calls f).
  Local Notation safe p := (forall pre m, fines pre -> @at_ _ f pre m _ p).

  Lemma s_parseDDL (p : pos) : safe (parseDDL p).
  Proof. clear - Hc. intros. unfold parseDDL. go. Qed.
  Local Hint Resolve s_parseDDL : semi.
  Lemma s_parseStmtBody  : safe parseStmtBody.
  Proof. clear - Hc. intros. unfold parseStmtBody. go. Qed.
  Local Hint Resolve s_parseStmtBody : semi.
  Lemma s_parseStmt  : safe parseStmt.
  Proof. clear - Hc. intros. unfold parseStmt. go. Qed.
  Local Hint Resolve s_parseStmt : semi.
End Semi.
Global Hint Resolve s_parseDDL s_parseStmtBody s_parseStmt : semi.

(** All recursive calls. *)
Lemma all_calls `{Tails} f : calls f.
Proof.
  induction f as [|f Hc]; intros n pre m Hp; [exact I|]. change (at_ (f := f) pre m (body n)). destruct n; cbn [body]; solve [eauto 3 with semi nocore].
Qed.

Lemma stmt_same `{Tails} f pre m : fines pre -> same f parseStmt pre m.
Proof. intros Hp. destruct f as [|f]; [exact I|]. exact (s_parseStmt (all_calls f) pre m Hp). Qed.
