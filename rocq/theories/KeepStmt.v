(** Proofs for C41: the functions of Parser.v. *)
From Coq Require Import String List Arith Bool Lia ZArith.
From Verif Require Import Str Keyword Lexer Ast AstPos AstSubs Prog RunFacts ParserCommon ParserExpr ParserQuery ParserTable ParserAlter ParserView ParserSystem Parser Words KeepSpec KeepLogic KeepTac KeepCommon KeepExpr KeepQuery KeepTable KeepAlter KeepView KeepSystem StmtsFacts.
Import ListNotations.
Local Open Scope string_scope.
Local Open Scope Z_scope.

Section Keep.
  Context `{Word} {f : nat} (Hc : calls f).
  Local Notation bal := (@KeepLogic.bal _ f).

  Lemma b_parseDDL (p : pos) s : bal s 0 (parseDDL p).
  Proof. clear - Hc. unfold parseDDL. kstep. Qed.
  Local Hint Resolve b_parseDDL : keep.
  Lemma b_parseStmtBody s : bal s 0 parseStmtBody.
  Proof. clear - Hc. unfold parseStmtBody. kstep. Qed.
  Local Hint Resolve b_parseStmtBody : keep.

  (** The format after a statement is read and forgotten. *)
  Lemma b_parseStmt s : bal s 0 parseStmt.
  Proof.
    clear - Hc. unfold parseStmt. eapply bal_bind; [apply b_parseStmtBody|]. intros e s1.
    unfold tryParseFormatHere. apply bal_assoc, bal_bind_pos. unfold tryParseFormat. apply bal_assoc, bal_bind_cur. intros Ho.
    destruct (kw (here s1) "FORMAT") eqn:E; [pose proof (lossy_kw _ _ Ho E eq_refl) as Ht|]; kstep.
  Qed.

  Lemma between_w i : okit i -> between i -> hc i = 0.
  Proof.
    intros [_ Ho] Hb. unfold between in Hb. destruct (it_tok i) as [t|] eqn:E; [|now apply hc_none]. rewrite (hc_some _ _ E). apply (proj1 (proj1 (Ho t eq_refl))). now rewrite Hb.
  Qed.

  Lemma stmts_keep n : forall acc s y s', wf s -> between (here s) -> iter body (S f) stmts_body n acc s = ROk y s' ->
    wf s' /\ near (zsum (map cnt y) + left s') (left s + zsum (map cnt acc)).
  Proof.
    induction n as [|n IH]; intros acc s y s' Hw Hb Hi; [discriminate|]. rewrite iter_S in Hi.
    pose proof (wf_advance s Hw) as Hw1. pose proof (left_advance s Hw) as Hl. rewrite (between_w _ (wf_here s Hw) Hb) in Hl.
    set (s1 := advance s) in *. unfold stmts_body, consumeOrFail in Hi. cbn [bind] in Hi. rewrite run_Consume in Hi. fold s1 in Hi.
    destruct (it_err (here s1)); [rewrite ?run_Fail in Hi; discriminate|]. unfold cur_item in Hi. cbn [bind] in Hi. rewrite run_Cur in Hi.
    destruct (it_eof (here s1)).
    - rewrite run_Ret in Hi. injection Hi as <- <-. split; [exact Hw1|near].
    - destruct (tk (here s1) ";") eqn:Es.
      + rewrite run_Ret in Hi. destruct (IH acc s1 y s' Hw1 (tk_semi _ Es) Hi) as [A B]. split; [exact A|near].
      + rewrite run_bind in Hi. destruct (run body (S f) parseStmt s1) as [e s2| | |] eqn:Ep; try discriminate. cbn [andThen] in Hi.
        rewrite run_Ret in Hi. destruct (b_parseStmt s1 Hw1 e s2 Ep) as [Hw2 He]. change (size e) with (cnt e) in He.
        destruct (IH _ s2 y s' Hw2 (parseStmt_end _ _ _ _ Ep) Hi) as [A B]. split; [exact A|]. rewrite map_app, zsum_app in B.
        rewrite map_cons, map_nil_w, zsum_cons, zsum_nil in B. near.
  Qed.
  Lemma ParseStmts_keep s y s' : wf s -> between (here s) -> run body (S f) ParseStmts s = ROk y s' ->
    wf s' /\ near (zsum (map cnt y) + left s') (left s).
  Proof.
    intros Hw Hb Hr. unfold ParseStmts, loop in Hr. rewrite run_Loop in Hr.
    destruct (iter body (S f) _ (S f) [] s) as [y0 s0| | |] eqn:E; try discriminate. cbn [andThen] in Hr. rewrite run_Ret in Hr.
    injection Hr as <- <-. destruct (stmts_keep (S f) [] s y0 s0 Hw Hb E) as [A B]. split; [exact A|]. rewrite map_nil_w, zsum_nil in B. near.
  Qed.
End Keep.

(** All recursive calls. *)
Lemma all_calls `{Word} f : calls f.
Proof.
  induction f as [|f Hc]; intros n s; [intros _ a s' E; discriminate E|].
  change (KeepLogic.bal (f := f) s (nsize n) (body n)). destruct n; cbn [body nsize]; eauto with keep.
Qed.
