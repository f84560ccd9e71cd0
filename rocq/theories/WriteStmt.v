(** Proofs for C42: the functions of Parser.v. *)
From Coq Require Import String List Arith Bool.
From Verif Require Import Str Keyword Lexer Ast AstPos AstSubs Prog Items RunFacts ParserCommon ParserExpr ParserQuery ParserTable ParserAlter ParserView ParserSystem Parser ErrorRender ParserApi Words WriteLogic WriteTac WriteCommon WriteExpr WriteQuery WriteTable WriteAlter WriteView WriteSystem.
Import ListNotations.
Local Open Scope string_scope.
Local Open Scope nat_scope.

Section Write.
  Context {f : nat} (Hc : calls f).
  Local Notation gives := (@WriteLogic.gives f _).
  Lemma w_parseDDL (p : pos) : gives good (parseDDL p).
  Proof. clear - Hc. unfold parseDDL. go. Qed.
  Local Hint Resolve w_parseDDL : tell.
  Lemma w_parseStmtBody : gives good parseStmtBody.
  Proof. clear - Hc. unfold parseStmtBody. go. Qed.
  Local Hint Resolve w_parseStmtBody : tell.
  Lemma w_parseStmt : gives good parseStmt.
  Proof. clear - Hc. unfold parseStmt. go. Qed.
  Local Hint Resolve w_parseStmt : tell.
  Lemma w_ParseStmts : gives good ParseStmts.
  Proof. clear - Hc. unfold ParseStmts. go. Qed.
End Write.

(** All recursive calls. *)
Lemma all_calls f : calls f.
Proof.
  induction f as [|f Hc]; intros n s e s' Hn E; [discriminate E|]. revert s e s' E.
  change (WriteLogic.gives (f := f) (nq n) (body n)). destruct n; cbn [body npre] in *; (eapply g_weak; [solve [eauto 3 with tell nocore]|intros ? Hx; exact Hx]).
Qed.

Lemma parsed_ok inp l sp : parse_stmts inp = Parsed l sp -> Forall ok l.
Proof.
  unfold parse_stmts, parse_stmts_fuel. destruct (states inp) as [its| |]; try discriminate. destruct (init_pstate _) as [s|]; try discriminate.
  unfold parse_fuel. rewrite Nat.add_0_r, <- plus_n_Sm. destruct (run body _ ParseStmts s) as [stmts s'|? ?|?|] eqn:E; try discriminate.
  - intros H. injection H as <- _. exact (w_ParseStmts (all_calls _) _ _ _ E).
  - destruct (wrapError _ _ _ _); discriminate.
Qed.
