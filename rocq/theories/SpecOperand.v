(** Specifications of the functions of ParserExpr.v on operands. *)
From Coq Require Import String List Arith Bool Lia ZArith.
From Verif Require Import Str Keyword Lexer Ast AstPos AstSubs PrecSpec SpanSpec Prog Items ItemsFacts RunFacts
  ParserCommon ParserExpr ParserQuery ParserTable ParserAlter ParserView ParserSystem Parser Hoare Spec SpecTac SpecCommon SpecTypes SpecArgs.
Import ListNotations.
Local Open Scope string_scope.
Local Open Scope nat_scope.

Section Operands.
  Context `{Calls}.

  Lemma canParseWindowNameInParens_ok : spec 0 canParseWindowNameInParens (fun _ => false) (fun _ => True).
  Proof. unfold canParseWindowNameInParens. do 2 stp. case_if (negb (tks (here s) [KIdent; KKeyword])); [go|]. case_if (negb (tk (here s) KKeyword)); [go|].
    apply wp_Attempt; [|intros; apply wp_Fail; assumption|assumption].
    assert (Hr : forall (b : bool) (s' : pstate), wp (Ret b) (restore s s') (fun (_ : bool) (s'0 : pstate) => wfs s'0 /\ len s'0 <= len s /\ (false = true -> len s'0 < len s) /\ True)).
    { intros b s'. apply wp_Ret. repeat split; try discriminate; [now apply wfs_restore | apply le_n]. }
    case_if (kws (here s) ["PARTITION"; "ORDER"]); [|case_if (kws (here s) ["ROWS"; "RANGE"])]; steps; apply wp_Ret, Hr. Qed.
  Hint Resolve canParseWindowNameInParens_ok : spec.
  Lemma parseWindowCondition_ok : spec 0 parseWindowCondition (fun _ => true) na.
  Proof. unfold parseWindowCondition. go. Qed.
  Hint Resolve parseWindowCondition_ok : spec.
  Lemma keywordArgFunctions_ok name form : keywordArgFunctions name = Some form -> okform form.
  Proof.
    unfold keywordArgFunctions. intros E. repeat (destruct (String.eqb _ _)); cbn [orb] in E; try discriminate;
      injection E as <-; repeat split; cbn; auto; intros m Hm; tauto.
  Qed.
  Hint Extern 1 (okform _) => eapply keywordArgFunctions_ok; eassumption : spec.
  Lemma parseIdentOrFunction_ok : spec 3 parseIdentOrFunction (fun _ => true) na.
  Proof. unfold parseIdentOrFunction. go. Qed.
  Hint Resolve parseIdentOrFunction_ok : spec.
  Lemma parseColumnCastExpr_ok p : pok p -> spec 0 (parseColumnCastExpr p) (fun _ => true) na.
  Proof. intros ?. unfold parseColumnCastExpr. go. Qed.
  Hint Resolve parseColumnCastExpr_ok : spec.
  Lemma parseColumnCaseExpr_ok p : pok p -> spec 0 (parseColumnCaseExpr p) (fun _ => true) na.
  Proof. intros ?. unfold parseColumnCaseExpr. go. Qed.
  Hint Resolve parseColumnCaseExpr_ok : spec.
  Lemma parseExtractFrom_ok ident : isid ident -> spec 0 (parseExtractFrom ident) (fun _ => true) nn.
  Proof. intros ?. unfold parseExtractFrom. go. Qed.
  Hint Resolve parseExtractFrom_ok : spec.
  Lemma nn_isid n q p1 p2 : nn (EIdent n q p1 p2) -> isid (EIdent n q p1 p2).
  Proof. intros Hn. destruct (nn_local _ Hn) as (Hp & _). cbn in Hp. inversion Hp as [|? ? H1 Hp']; subst. inversion Hp'; subst. now apply isid_mk. Qed.
  Lemma parseColumnExtractExpr_ok p : pok p -> spec 0 (parseColumnExtractExpr p) (fun _ => true) na.
  Proof. intros ?. unfold parseColumnExtractExpr. do 3 stp.
    eapply use_spec; [eapply commaLoop_ok with (rk := 5) (str := fun _ => true) (P := nn) | assumption | lia | intros ? ? ? ? ? ?; clean; go].
    intros s1 Hw Hl. do 2 stp.
    match goal with |- wp (match ?e with _ => _ end) ?s0 ?Q => assert (Hd : wp (Ret e) s0 Q) by go end.
    destruct a; try exact Hd. match goal with |- wp (if ?c then _ else _) _ _ => case_if c end; [|exact Hd].
    match goal with H : nn (EIdent _ _ _ _) |- _ => apply nn_isid in H; clean end. go. Qed.
  Hint Resolve parseColumnExtractExpr_ok : spec.
  Lemma parseSubQuery_ok : spec 3 parseSubQuery (fun _ => true) na.
  Proof. unfold parseSubQuery. go. Qed.
  Hint Resolve parseSubQuery_ok : spec.
  Lemma parseIntervalOrIdent_ok : spec 3 parseIntervalOrIdent (fun _ => true) na.
  Proof. unfold parseIntervalOrIdent. stp. apply wp_TryInterval; [| |assumption].
    - eapply post_conseq; [apply (calls NInterval I s); [assumption | cbn [rank]; lia]|].
      intros a s' (H3 & H4 & H5 & H6). apply wp_Ret. specialize (H5 eq_refl). val.
    - intros s' Hw Hl. go. Qed.
  Hint Resolve parseIntervalOrIdent_ok : spec.
  Lemma parseColumnExpr_ok p : pok p -> spec 3 (parseColumnExpr p) (fun _ => true) na.
  Proof. intros ?. unfold parseColumnExpr. stp. apply (cut_weak _ _ _ _ _ _ (fun _ => True)); [unfold orM at 1; go | cbv beta; intros; clean]. go. Qed.
  Hint Resolve parseColumnExpr_ok : spec.
End Operands.
#[export] Hint Resolve canParseWindowNameInParens_ok parseWindowCondition_ok parseIdentOrFunction_ok parseColumnCastExpr_ok parseColumnCaseExpr_ok parseExtractFrom_ok parseColumnExtractExpr_ok parseSubQuery_ok parseIntervalOrIdent_ok parseColumnExpr_ok : spec.
