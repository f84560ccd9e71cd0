(** Proofs for C24: the functions of Parser.v on two inputs that are the same up to the spelling of keywords. *)
From Coq Require Import String List Arith Bool Lia ZArith.
From Verif Require Import Str Keyword Lexer Ast AstPos AstSubs Prog RunFacts ParserCommon ParserExpr ParserQuery ParserTable ParserAlter ParserView ParserSystem Parser Recase CaseRel CaseFold CaseItem CaseCommon CaseExpr CaseQuery CaseTable CaseAlter CaseView CaseSystem.
Import ListNotations.
Local Open Scope string_scope.
Local Open Scope nat_scope.

Section Case.
  Context {f : nat} (Hc : calls f).
  Local Notation sim := (@CaseRel.sim f _ _).

  Lemma c_parseDDL (p : pos) : sim (parseDDL p) (parseDDL p).
  Proof. clear - Hc. intros. unfold parseDDL. step. Qed.
  Local Hint Resolve c_parseDDL : case.
  Lemma c_parseStmtBody  : sim (parseStmtBody) (parseStmtBody).
  Proof. clear - Hc. intros. unfold parseStmtBody. step. Qed.
  Local Hint Resolve c_parseStmtBody : case.
  Lemma c_parseStmt  : sim (parseStmt) (parseStmt).
  Proof. clear - Hc. intros. unfold parseStmt. step. Qed.
  Local Hint Resolve c_parseStmt : case.
  Lemma c_ParseStmts  : sim (ParseStmts) (ParseStmts).
  Proof. clear - Hc. intros. unfold ParseStmts. step. Qed.
  Local Hint Resolve c_ParseStmts : case.

End Case.
Global Hint Resolve c_parseDDL c_parseStmtBody c_parseStmt c_ParseStmts : case.
