(** Specifications of the functions of ParserView.v. *)
From Coq Require Import String List Arith Bool Lia ZArith.
From Verif Require Import Str Keyword Lexer Ast AstPos AstSubs PrecSpec SpanSpec Prog Items ItemsFacts RunFacts
  ParserCommon ParserExpr ParserQuery ParserTable ParserAlter ParserView ParserSystem Parser Hoare Spec SpecTac SpecCommon SpecTypes SpecArgs SpecOperand SpecPrec SpecQuery SpecTable SpecDict SpecAlter.
Import ListNotations.
Local Open Scope string_scope.
Local Open Scope nat_scope.

Section Views.
  Context `{Calls}.

  Lemma tryParseModifier_ok : spec 0 tryParseModifier (fun _ => false) (fun _ => True).
  Proof. unfold tryParseModifier. unfold ifKw, whenKw; go. Qed.
  Hint Resolve tryParseModifier_ok : spec.
  Lemma parseDropDatabase_ok p : pok p -> spec 0 (parseDropDatabase p) (fun _ => true) nn.
  Proof. intros ?. unfold parseDropDatabase. unfold ifKw, whenKw; go. Qed.
  Hint Resolve parseDropDatabase_ok : spec.
  Lemma parseDropStmt_ok p : pok p -> spec 0 (parseDropStmt p) (fun _ => true) nn.
  Proof. intros ?. unfold parseDropStmt. unfold ifKw, whenKw; go. Qed.
  Hint Resolve parseDropStmt_ok : spec.
  Lemma tryParseRefreshExpr_ok : spec 0 tryParseRefreshExpr (fun e => negb (is_nil e)) mb.
  Proof. unfold tryParseRefreshExpr. unfold ifKw, whenKw; go. Qed.
  Hint Resolve tryParseRefreshExpr_ok : spec.
  Lemma parseCreateMaterializedView_ok p : pok p -> spec 0 (parseCreateMaterializedView p) (fun _ => true) nn.
  Proof. intros ?. unfold parseCreateMaterializedView. unfold ifKw.
    repeat (lazymatch goal with |- wp (bind (if kw _ "TO" then _ else _) _) _ _ => fail | |- _ => stp end).
    apply (cut_weak _ _ _ _ _ _ (fun x => (mb (fst (fst (fst x))) /\ mb (snd (fst (fst x)))) /\ mb (snd (fst x)) /\ pok (snd x))).
    { stp; [|go]. unfold parseDestinationClause.
      repeat (lazymatch goal with |- wp (bind (if tk _ _ then _ else _) _) _ _ => fail | |- _ => stp end).
      apply (cut_weak _ _ _ _ _ _ nn); [|cbv beta; intros; go].
      stp; [|go]. stp. apply wp_Ret. split; [assumption | split; [lia|]]. cbn [set_dest_schema]. nnt. }
    cbv beta; intros ? ? ? ? ?; clean. go. Qed.
  Hint Resolve parseCreateMaterializedView_ok : spec.
  Lemma parseCreateView_ok p b : pok p -> spec 0 (parseCreateView p b) (fun _ => true) nn.
  Proof. intros ?. unfold parseCreateView. unfold ifKw, whenKw; go. Qed.
  Hint Resolve parseCreateView_ok : spec.
  Lemma tryParseWithTimeout_ok : spec 0 tryParseWithTimeout (fun e => negb (is_nil e)) mb.
  Proof. unfold tryParseWithTimeout. unfold ifKw, whenKw; go. Qed.
  Hint Resolve tryParseWithTimeout_ok : spec.
  Lemma parseCreateLiveView_ok p : pok p -> spec 0 (parseCreateLiveView p) (fun _ => true) nn.
  Proof. intros ?. unfold parseCreateLiveView. unfold ifKw, whenKw; go. Qed.
  Hint Resolve parseCreateLiveView_ok : spec.
End Views.
#[export] Hint Resolve tryParseModifier_ok parseDropDatabase_ok parseDropStmt_ok tryParseRefreshExpr_ok parseCreateMaterializedView_ok parseCreateView_ok tryParseWithTimeout_ok parseCreateLiveView_ok : spec.
