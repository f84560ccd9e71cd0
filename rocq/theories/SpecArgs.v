(** Specifications of the functions of ParserExpr.v on lists and arguments. *)
From Coq Require Import String List Arith Bool Lia ZArith.
From Verif Require Import Str Keyword Lexer Ast AstPos AstSubs PrecSpec SpanSpec Prog Items ItemsFacts RunFacts
  ParserCommon ParserExpr ParserQuery ParserTable ParserAlter ParserView ParserSystem Parser Hoare Spec SpecTac SpecCommon SpecTypes.
Import ListNotations.
Local Open Scope string_scope.
Local Open Scope nat_scope.

Section Args.
  Context `{Calls}.

  Hint Extern 1 (spec _ (commaLoop _ _) _ _) => eapply commaLoop_ok : spec.
  Lemma body_ColumnTypeArgs_ok ident : isid ident -> spec 1 (body_ColumnTypeArgs ident) (fun _ => false) na.
  Proof. intros ?. unfold body_ColumnTypeArgs. go. Qed.
  Hint Resolve body_ColumnTypeArgs_ok : spec.
  Lemma parseColumnsExpr_ok : spec 5 parseColumnsExpr (fun _ => true) nn.
  Proof. unfold parseColumnsExpr. go. Qed.
  Hint Resolve parseColumnsExpr_ok : spec.
  Lemma parseColumnExprListWithTerm_ok term p : pok p -> spec 6 (parseColumnExprListWithTerm term p) (fun _ => false) na.
  Proof. intros ?. unfold parseColumnExprListWithTerm. go. Qed.
  Hint Resolve parseColumnExprListWithTerm_ok : spec.
  Lemma parseColumnExprListWithLParen_ok : spec 6 parseColumnExprListWithLParen (fun _ => false) na.
  Proof. unfold parseColumnExprListWithLParen. go. Qed.
  Hint Resolve parseColumnExprListWithLParen_ok : spec.
  Lemma parseColumnExprListWithSquareBracket_ok : spec 6 parseColumnExprListWithSquareBracket (fun _ => false) na.
  Proof. unfold parseColumnExprListWithSquareBracket. go. Qed.
  Hint Resolve parseColumnExprListWithSquareBracket_ok : spec.
  Lemma parseColumnExprList_ok : spec 6 parseColumnExprList (fun _ => false) na.
  Proof. unfold parseColumnExprList. go. Qed.
  Hint Resolve parseColumnExprList_ok : spec.
  Lemma parseColumnArgList_ok : spec 0 parseColumnArgList (fun _ => true) na.
  Proof. unfold parseColumnArgList. go. Qed.
  Hint Resolve parseColumnArgList_ok : spec.
  Lemma tryColumnArgList_ok : spec 0 tryColumnArgList (fun e => negb (is_nil e)) mb.
  Proof. unfold tryColumnArgList. go. Qed.
  Hint Resolve tryColumnArgList_ok : spec.
  Lemma parseFunctionParams_ok : spec 0 parseFunctionParams (fun _ => true) isparams.
  Proof. unfold parseFunctionParams. go. Qed.
  Hint Resolve parseFunctionParams_ok : spec.
  Lemma parseFunctionExpr_ok : spec 0 parseFunctionExpr (fun _ => true) na.
  Proof. unfold parseFunctionExpr. go. Qed.
  Hint Resolve parseFunctionExpr_ok : spec.
  Lemma keyword_op s (l r : list string) : wfs s -> kws (here s) l = true -> (forall m, In m l -> In m r) -> map upper r = r ->
    exists t, it_tok (here s) = Some t /\ In (tok_to_string t) r.
  Proof.
    intros Hw E Hs Hr. unfold kws in E. apply existsb_exists in E as (m & Hm & E). unfold kw in E.
    destruct (it_tok (here s)) as [t|]; [|discriminate]. exists t. split; [reflexivity|].
    apply andb_prop in E as [E1 E2]. unfold tok_to_string. rewrite E1. unfold equal_fold in E2. apply String.eqb_eq in E2. rewrite E2.
    rewrite <- Hr. apply in_map. auto.
  Qed.
  Lemma parseKeywordArgModifier_ok form slot : okform form -> spec 5 (parseKeywordArgModifier form slot) (fun _ => true) (fun x => nn (fst x)).
  Proof. intros ?. unfold parseKeywordArgModifier. do 2 stp. case_if (negb (slot =? 0) || negb (kws (here s) (Modifiers form))); [go|].
    destruct H1 as (Hm & _ & _). destruct (keyword_op s _ _ H2 ltac:(eassumption) Hm eq_refl) as (t & Ht & Hin).
    apply wp_bind. eapply wp_conseq; [apply orM_stays; [apply peekTk_stays | apply peekTk_stays | exact H2]|].
    intros b s' (Hw & Hl & [->|Hn]); cbv beta.
    - destruct b; [go|]. stp. unfold cur_to_string. cbn [bind]. apply wp_Cur. rewrite Ht. steps. leaf. cbn [fst].
      mknn.
      destruct Hin as [<-|[<-|[<-|[]]]]; exact I.
    - destruct b; [go|]. stp. unfold cur_to_string. cbn [bind]. apply wp_Cur. rewrite Hn. go. Qed.
  Hint Resolve parseKeywordArgModifier_ok : spec.
  Lemma parseKeywordArgItem_ok form slot allow : okform form -> spec 5 (parseKeywordArgItem form slot allow) (fun _ => true) (fun x => nn (fst x)).
  Proof. intros ?. unfold parseKeywordArgItem. do 2 stp. case_match a.
    apply (bind_loop _ _ _ _ _ _ _ _ (fun x => nn (fst x)) (fun x => nn (fst x))); [assumption | assumption | lia | |]; cbv beta.
    - intros [x c] s0 Hw Hl Hx. cbn [fst] in Hx. cbv beta iota. stp. destruct (nth_error (Separators form) (slot + c)) as [sep|] eqn:En; [|go].
        case_if (allow && kw (here s0) sep); [|go].
        destruct H1 as (_ & Hm & _). apply nth_error_In in En. destruct (keyword_op s0 [sep] ["FROM"; "FOR"; "PLACING"] ltac:(assumption)) as (t & Ht & Hin).
        { unfold kws. cbn [existsb]. now rewrite orb_false_r. }
        { intros m [<-|[]]. auto. }
        { reflexivity. }
        unfold cur_to_string. cbn [bind]. apply wp_Cur. rewrite Ht. steps. leaf. cbn [fst].
        mknn.
        destruct Hin as [<-|[<-|[<-|[]]]]; exact I.
    - intros [x c] s0 Hw Hl Hx. cbn [fst] in Hx. cbv beta iota. case_if (negb b && (c =? 0)); [go|].
      case_if (RequireModifier form && negb b); [go|]. case_if (slot + c <? RequiredSeparators form); [|go].
      destruct (nth_error (Separators form) (slot + c)) eqn:En; [go|]. exfalso. apply nth_error_None in En. destruct H1 as (_ & _ & Hr).
      apply Nat.ltb_lt in Heqb2. lia. Qed.
  Hint Resolve parseKeywordArgItem_ok : spec.
  Hint Extern 1 (okform _) => assumption : spec.
  Lemma parseKeywordArgFunctionParams_ok form : okform form -> spec 0 (parseKeywordArgFunctionParams form) (fun _ => true) isparams.
  Proof. intros ?. unfold parseKeywordArgFunctionParams. do 5 stp. lp (fun x : list expr * nat * bool * bool => Forall nn (fst (fst (fst x)))) (Forall nn). go. Qed.
  Hint Resolve parseKeywordArgFunctionParams_ok : spec.
End Args.
#[export] Hint Resolve body_ColumnTypeArgs_ok parseColumnsExpr_ok parseColumnExprListWithTerm_ok parseColumnExprListWithLParen_ok parseColumnExprListWithSquareBracket_ok parseColumnExprList_ok parseColumnArgList_ok tryColumnArgList_ok parseFunctionParams_ok parseFunctionExpr_ok parseKeywordArgModifier_ok parseKeywordArgItem_ok parseKeywordArgFunctionParams_ok : spec.
#[export] Hint Extern 1 (spec _ (commaLoop _ _) _ _) => eapply commaLoop_ok : spec.
#[export] Hint Extern 1 (okform _) => assumption : spec.
Section Windows.
  Context `{Calls}.

  Lemma parseMapLiteral_ok : spec 0 parseMapLiteral (fun _ => true) na.
  Proof. unfold parseMapLiteral. do 3 stp.
    eapply use_spec; [eapply commaLoop_ok with (rk := 0) (str := fun _ => true) (P := iskv); go | assumption | lia | intros ? ? ? ? ? ?; clean]. go. Qed.
  Hint Resolve parseMapLiteral_ok : spec.
  Lemma parseQueryParam_ok : spec 0 parseQueryParam (fun _ => true) na.
  Proof. unfold parseQueryParam. go. Qed.
  Hint Resolve parseQueryParam_ok : spec.
  Lemma parseArrayParams_ok : spec 0 parseArrayParams (fun _ => true) na.
  Proof. unfold parseArrayParams. go. Qed.
  Hint Resolve parseArrayParams_ok : spec.
  Lemma parseColumnStar_ok : spec 0 parseColumnStar (fun _ => true) isid.
  Proof. unfold parseColumnStar. go. Qed.
  Hint Resolve parseColumnStar_ok : spec.
  Lemma parseInterval_ok b : spec 5 (parseInterval b) (fun _ => true) na.
  Proof. unfold parseInterval. go. Qed.
  Hint Resolve parseInterval_ok : spec.
  Lemma parseFrameDirection_ok : spec 0 parseFrameDirection (fun _ => true) (fun _ => True).
  Proof. unfold parseFrameDirection. go. Qed.
  Hint Resolve parseFrameDirection_ok : spec.
  Lemma parseFrameDirectionWithEnd_ok : spec 0 parseFrameDirectionWithEnd (fun _ => true) (fun x => pok (snd x)).
  Proof. unfold parseFrameDirectionWithEnd. go. Qed.
  Hint Resolve parseFrameDirectionWithEnd_ok : spec.
  Lemma parseFrameCurrentRow_ok : spec 0 parseFrameCurrentRow (fun _ => true) na.
  Proof. unfold parseFrameCurrentRow. go. Qed.
  Hint Resolve parseFrameCurrentRow_ok : spec.
  Lemma parseFrameUnbounded_ok : spec 0 parseFrameUnbounded (fun _ => true) na.
  Proof. unfold parseFrameUnbounded. go. Qed.
  Hint Resolve parseFrameUnbounded_ok : spec.
  Lemma parseFrameNumber_ok : spec 0 parseFrameNumber (fun _ => true) na.
  Proof. unfold parseFrameNumber. go. Qed.
  Hint Resolve parseFrameNumber_ok : spec.
  Lemma parseFrameParam_ok : spec 0 parseFrameParam (fun _ => true) na.
  Proof. unfold parseFrameParam. go. Qed.
  Hint Resolve parseFrameParam_ok : spec.
  Lemma parseFrameInterval_ok : spec 5 parseFrameInterval (fun _ => true) na.
  Proof. unfold parseFrameInterval. go. Qed.
  Hint Resolve parseFrameInterval_ok : spec.
  Lemma parseFrameExtent_ok : spec 5 parseFrameExtent (fun _ => true) na.
  Proof. unfold parseFrameExtent. go. Qed.
  Hint Resolve parseFrameExtent_ok : spec.
  Lemma parseWindowFrameClause_ok p : pok p -> spec 0 (parseWindowFrameClause p) (fun _ => true) na.
  Proof. intros ?. unfold parseWindowFrameClause. go. Qed.
  Hint Resolve parseWindowFrameClause_ok : spec.
  Lemma tryParseWindowFrameClause_ok : spec 0 tryParseWindowFrameClause (fun e => negb (is_nil e)) mb.
  Proof. unfold tryParseWindowFrameClause. go. Qed.
  Hint Resolve tryParseWindowFrameClause_ok : spec.
  Lemma tryParsePartitionByClause_ok p : pok p -> spec 0 (tryParsePartitionByClause p) (fun e => negb (is_nil e)) mb.
  Proof. intros ?. unfold tryParsePartitionByClause. go. Qed.
  Hint Resolve tryParsePartitionByClause_ok : spec.
  Lemma tryKwExpr_ok k p : pok p -> spec 0 (tryKwExpr k p) (fun e => negb (is_nil e)) mb.
  Proof. intros ?. unfold tryKwExpr. go. Qed.
  Hint Resolve tryKwExpr_ok : spec.
  Lemma parseFillClause_ok p : pok p -> pok (PPlus p 4) -> spec 0 (parseFillClause p) (fun _ => false) na.
  Proof. intros ? ?. unfold parseFillClause. go. Qed.
  Hint Resolve parseFillClause_ok : spec.
  Lemma parseInterpolateClause_ok p : pok p -> pok (PPlus p 11) -> spec 0 (parseInterpolateClause p) (fun _ => false) na.
  Proof. intros ? ?. unfold parseInterpolateClause. stp. stp; [|go].
    eapply use_spec; [eapply commaLoop_ok with (rk := 0) (str := fun _ => true) (P := nn); go | assumption | lia | intros ? ? ? ? ? ?; clean]. go. Qed.
  Hint Resolve parseInterpolateClause_ok : spec.
  Lemma parseOrderExpr_ok p : pok p -> spec 5 (parseOrderExpr p) (fun _ => true) nn.
  Proof. intros ?. unfold parseOrderExpr. go. Qed.
  Hint Resolve parseOrderExpr_ok : spec.
  Lemma parseOrderByClause_ok p : pok p -> spec 5 (parseOrderByClause p) (fun _ => false) na.
  Proof. intros ?. unfold parseOrderByClause. go. Qed.
  Hint Resolve parseOrderByClause_ok : spec.
  Lemma tryParseOrderByClause_ok p : pok p -> spec 0 (tryParseOrderByClause p) (fun e => negb (is_nil e)) mb.
  Proof. intros ?. unfold tryParseOrderByClause. go. Qed.
  Hint Resolve tryParseOrderByClause_ok : spec.
End Windows.
#[export] Hint Resolve parseMapLiteral_ok parseQueryParam_ok parseArrayParams_ok parseColumnStar_ok parseInterval_ok parseFrameDirection_ok parseFrameDirectionWithEnd_ok parseFrameCurrentRow_ok parseFrameUnbounded_ok parseFrameNumber_ok parseFrameParam_ok parseFrameInterval_ok parseFrameExtent_ok parseWindowFrameClause_ok tryParseWindowFrameClause_ok tryParsePartitionByClause_ok tryKwExpr_ok parseFillClause_ok parseInterpolateClause_ok parseOrderExpr_ok parseOrderByClause_ok tryParseOrderByClause_ok : spec.
