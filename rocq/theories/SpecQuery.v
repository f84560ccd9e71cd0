(** Specifications of the functions of ParserQuery.v. *)
From Coq Require Import String List Arith Bool Lia ZArith.
From Verif Require Import Str Keyword Lexer Ast AstPos AstSubs PrecSpec SpanSpec Prog Items ItemsFacts RunFacts
  ParserCommon ParserExpr ParserQuery ParserTable ParserAlter ParserView ParserSystem Parser Hoare Spec SpecTac SpecCommon SpecTypes SpecArgs SpecOperand SpecPrec.
Import ListNotations.
Local Open Scope string_scope.
Local Open Scope nat_scope.

Section TableArgs.
  Context `{Calls}.

  Lemma parseTableArgList_ok p : pok p -> spec 0 (parseTableArgList p) (fun _ => true) na.
  Proof. intros ?. unfold parseTableArgList. do 2 stp.
    eapply use_spec; [eapply commaLoop_ok with (rk := 9) (str := fun _ => false) (P := nn) | assumption | lia | intros ? ? ? ? ? ?; clean; go].
    intros s1 Hw Hl. stp. apply wp_bind. match goal with |- wp (if ?c then _ else _) _ _ => destruct c eqn:Ec end; [|apply wp_Ret; cbv iota; go].
    assert (Ht : it_tok (here s1) <> None) by (intros Hn; unfold cur_kind in Ec; rewrite Hn in Ec; discriminate).
    apply wp_peek; [assumption | |].
    - intros [t|] _; apply wp_Ret; [destruct (String.eqb _ _)|]; go.
    - intros m s2 Hw2 Hl2 Hm Hx. apply wp_Ret. go. Qed.
  Hint Resolve parseTableArgList_ok : spec.
  Lemma parseTableArgPrimaryExpr_ok p : pok p -> spec 7 (parseTableArgPrimaryExpr p) (fun _ => false) na.
  Proof. intros ?. unfold parseTableArgPrimaryExpr. go. Qed.
  Hint Resolve parseTableArgPrimaryExpr_ok : spec.
  Lemma body_TableArg_ok p : pok p -> spec 8 (body_TableArg p) (fun _ => false) nn.
  Proof.
    intros Hp s Hw Hl. unfold body_TableArg. eapply use_spec; [apply parseTableArgPrimaryExpr_ok; exact Hp | exact Hw | lia |].
    intros e s1 Hw1 Hl1 _ (He & Ha & Hb). unfold closed in *. pose proof (np_max s1).
    eapply wp_conseq; [apply parseInfixLoop_wp; auto; unfold PrecedenceUnknown; lia|]. cbv beta.
    intros e' s' (Hx1 & Hx2 & Hx3 & _). conjs; auto; [lia | discriminate].
  Qed.
  Lemma parseTableIdentifier_ok : spec 0 parseTableIdentifier (fun _ => true) istbl.
  Proof. unfold parseTableIdentifier. go. Qed.
  Hint Resolve parseTableIdentifier_ok : spec.
  Lemma aliasExpr_ok e alias : nn e -> isid alias -> spec 0 (aliasExpr e alias) (fun _ => false) (fun x => nn (fst x) /\ pok (snd x)).
  Proof. intros ? ?. unfold aliasExpr. clean. go. Qed.
  Hint Resolve aliasExpr_ok : spec.
End TableArgs.
#[export] Hint Resolve parseTableArgList_ok parseTableArgPrimaryExpr_ok parseTableIdentifier_ok aliasExpr_ok : spec.
Section Joins.
  Context `{Calls}.

  Lemma parseTableExpr_ok p : pok p -> spec 3 (parseTableExpr p) (fun _ => true) nn.
  Proof. intros ?. unfold parseTableExpr. do 2 stp.
    apply (cut_strict _ _ _ _ _ _ nn); [go | cbv beta; intros e s1 Hw1 Hl1 He].
    do 2 stp. apply (cut_weak _ _ _ _ _ _ (fun x => nn (fst x) /\ pok (snd x))); [go | cbv beta; intros [e2 q] s3 Hw3 Hl3 [He2 Hq]; cbn [fst snd] in *].
    stp; [|go].
    match goal with |- wp _ ?s0 ?Q => assert (Hd : wp (do tableEnd1 <- endOf e2 ;; Ret (ETableExpr p tableEnd1 ENil e2 true)) s0 Q) by go;
      assert (Hf : forall m, wp (Fail (Msg m)) s0 Q) by (intros; exact I) end.
    clear - Hd Hf. destruct e2; first [exact Hd | apply Hf]. Qed.
  Hint Resolve parseTableExpr_ok : spec.
  Lemma parseSampleClause_ok p : pok p -> spec 0 (parseSampleClause p) (fun _ => true) nn.
  Proof. intros ?. unfold parseSampleClause. go. Qed.
  Hint Resolve parseSampleClause_ok : spec.
  Lemma tryParseSampleClause_ok : spec 0 tryParseSampleClause (fun e => negb (is_nil e)) mb.
  Proof. unfold tryParseSampleClause. unfold whenKw. go. Qed.
  Hint Resolve tryParseSampleClause_ok : spec.
  Lemma parseJoinTableExpr_ok : spec 3 parseJoinTableExpr (fun _ => true) nn.
  Proof. unfold parseJoinTableExpr. go. Qed.
  Hint Resolve parseJoinTableExpr_ok : spec.
  Lemma tryParseJoinConstraints_ok : spec 0 tryParseJoinConstraints (fun e => negb (is_nil e)) mb.
  Proof. unfold tryParseJoinConstraints. go. Qed.
  Hint Resolve tryParseJoinConstraints_ok : spec.
  Lemma parseJoinExpr_ok p : pok p -> spec 3 (parseJoinExpr p) (fun _ => true) nn.
  Proof. intros ?. unfold parseJoinExpr. go. Qed.
  Hint Resolve parseJoinExpr_ok : spec.
  Lemma body_JoinRight_ok p : pok p -> spec 1 (body_JoinRight p) (fun e => negb (is_nil e)) mb.
  Proof. intros ?. unfold body_JoinRight. stp. stp; [go|].
    eapply use_spec; [apply parseJoinModifiers_ok | assumption | lia | intros ? ? ? ? _ _]. go. Qed.
  Hint Resolve body_JoinRight_ok : spec.
  Lemma parseFromClause_ok p : pok p -> spec 0 (parseFromClause p) (fun _ => true) nn.
  Proof. intros ?. unfold parseFromClause. go. Qed.
  Hint Resolve parseFromClause_ok : spec.
  Lemma tryParseFromClause_ok : spec 0 tryParseFromClause (fun e => negb (is_nil e)) mb.
  Proof. unfold tryParseFromClause. unfold whenKw. go. Qed.
  Hint Resolve tryParseFromClause_ok : spec.
End Joins.
#[export] Hint Resolve parseTableExpr_ok parseSampleClause_ok tryParseSampleClause_ok parseJoinTableExpr_ok tryParseJoinConstraints_ok parseJoinExpr_ok body_JoinRight_ok parseFromClause_ok tryParseFromClause_ok : spec.
Section Clauses.
  Context `{Calls}.

  Lemma parseCTEStmt_ok : spec 5 parseCTEStmt (fun _ => true) nn.
  Proof. unfold parseCTEStmt. go. Qed.
  Hint Resolve parseCTEStmt_ok : spec.
  Lemma parseWithClause_ok p : pok p -> spec 0 (parseWithClause p) (fun _ => true) nn.
  Proof. intros ?. unfold parseWithClause. go. Qed.
  Hint Resolve parseWithClause_ok : spec.
  Lemma tryParseWithClause_ok p : pok p -> spec 0 (tryParseWithClause p) (fun e => negb (is_nil e)) mb.
  Proof. intros ?. unfold tryParseWithClause. go. Qed.
  Hint Resolve tryParseWithClause_ok : spec.
  Lemma parseTopClause_ok p : pok p -> spec 0 (parseTopClause p) (fun _ => true) nn.
  Proof. intros ?. unfold parseTopClause. go. Qed.
  Hint Resolve parseTopClause_ok : spec.
  Lemma tryParseTopClause_ok : spec 0 tryParseTopClause (fun e => negb (is_nil e)) mb.
  Proof. unfold tryParseTopClause. unfold whenKw. go. Qed.
  Hint Resolve tryParseTopClause_ok : spec.
  Lemma parseDistinctOn_ok p : pok p -> spec 0 (parseDistinctOn p) (fun _ => true) nn.
  Proof. intros ?. unfold parseDistinctOn. go. Qed.
  Hint Resolve parseDistinctOn_ok : spec.
  Lemma tryParseDistinctOn_ok : spec 0 tryParseDistinctOn (fun e => negb (is_nil e)) mb.
  Proof. unfold tryParseDistinctOn. unfold whenKw. go. Qed.
  Hint Resolve tryParseDistinctOn_ok : spec.
  Lemma parseSelectItem_ok : spec 5 parseSelectItem (fun _ => true) nn.
  Proof. unfold parseSelectItem. go. Qed.
  Hint Resolve parseSelectItem_ok : spec.
  Lemma parseSelectItems_ok : spec 6 parseSelectItems (fun _ => false) (Forall nn).
  Proof. unfold parseSelectItems. go. Qed.
  Hint Resolve parseSelectItems_ok : spec.
  Lemma parsePrewhereClause_ok p : pok p -> spec 0 (parsePrewhereClause p) (fun _ => true) nn.
  Proof. intros ?. unfold parsePrewhereClause. go. Qed.
  Hint Resolve parsePrewhereClause_ok : spec.
  Lemma tryParsePrewhereClause_ok : spec 0 tryParsePrewhereClause (fun e => negb (is_nil e)) mb.
  Proof. unfold tryParsePrewhereClause. unfold whenKw. go. Qed.
  Hint Resolve tryParsePrewhereClause_ok : spec.
  Lemma parseWhereClause_ok p : pok p -> spec 0 (parseWhereClause p) (fun _ => true) nn.
  Proof. intros ?. unfold parseWhereClause. go. Qed.
  Hint Resolve parseWhereClause_ok : spec.
  Lemma tryParseWhereClause_ok : spec 0 tryParseWhereClause (fun e => negb (is_nil e)) mb.
  Proof. unfold tryParseWhereClause. unfold whenKw. go. Qed.
  Hint Resolve tryParseWhereClause_ok : spec.
  Lemma parseGroupByClause_ok p : pok p -> spec 0 (parseGroupByClause p) (fun _ => true) nn.
  Proof. intros ?. unfold parseGroupByClause. do 4 stp.
    apply (cut_weak _ _ _ _ _ _ (fun x => mb (snd (fst x)) /\ pok (snd x))); [go | cbv beta; intros ? ? ? ? ?; clean]. do 3 stp.
    lp (fun x : pos * bool * bool * bool => pok (fst (fst (fst x)))) (fun x : pos * bool * bool * bool => pok (fst (fst (fst x)))). go. Qed.
  Hint Resolve parseGroupByClause_ok : spec.
  Lemma tryParseGroupByClause_ok : spec 0 tryParseGroupByClause (fun e => negb (is_nil e)) mb.
  Proof. unfold tryParseGroupByClause. unfold whenKw. go. Qed.
  Hint Resolve tryParseGroupByClause_ok : spec.
  Lemma parseHavingClause_ok p : pok p -> spec 0 (parseHavingClause p) (fun _ => true) nn.
  Proof. intros ?. unfold parseHavingClause. go. Qed.
  Hint Resolve parseHavingClause_ok : spec.
  Lemma tryParseHavingClause_ok : spec 0 tryParseHavingClause (fun e => negb (is_nil e)) mb.
  Proof. unfold tryParseHavingClause. unfold whenKw. go. Qed.
  Hint Resolve tryParseHavingClause_ok : spec.
  Lemma iswin_ended e : iswin e -> ended e.
  Proof. intros ?. clean. split; [goodt | endt]. Qed.
  Lemma parseWindowClause_ok p : pok p -> spec 0 (parseWindowClause p) (fun _ => true) nn.
  Proof. intros ?. unfold parseWindowClause. do 2 stp.
    eapply use_spec; [eapply commaLoop_ok with (rk := 0) (str := fun _ => true) (P := iswin); go | assumption | lia | intros ? ? ? ? ? ?; clean].
    assert (Forall ended a) by (eapply Forall_impl; [|eassumption]; apply iswin_ended).
    apply bind_lastEnd_part; [pokt | assumption | intros ? ?; cbv beta]. go. Qed.
  Hint Resolve parseWindowClause_ok : spec.
  Lemma tryParseWindowClause_ok : spec 0 tryParseWindowClause (fun e => negb (is_nil e)) mb.
  Proof. unfold tryParseWindowClause. unfold whenKw. go. Qed.
  Hint Resolve tryParseWindowClause_ok : spec.
  Lemma parseLimitClause_wp p s : pok p -> wfs s -> 10 * len s <= fl -> kws (here s) ["LIMIT"; "OFFSET"] = true ->
    wp (parseLimitClause p) s (fun e s' => wfs s' /\ len s' < len s /\ nn e).
  Proof.
    intros Hp Hw Hl Hk. unfold parseLimitClause. apply bind_tryKw; [exact Hw | |]; cbv beta iota.
    - intros E s1 Hw1 Hl1. apply (cut_weak _ _ _ _ _ _ (fun x => nn (fst x) /\ mb (snd x))); [go | cbv beta; intros ? ? ? ? ?; clean]. go.
    - intros E. apply bind_assoc_wp, bind_tryKw; [exact Hw | |]; cbv beta iota.
      + intros E2 s1 Hw1 Hl1. go.
      + intros E2. unfold kws in Hk. cbn [existsb] in Hk. rewrite E, E2 in Hk. discriminate.
  Qed.
  Lemma kws_l it k l : kw it k = true -> In k l -> kws it l = true.
  Proof. intros E Hi. unfold kws. apply existsb_exists. eauto. Qed.
  Lemma tryParseLimitAfterLimitByClause_ok : spec 0 tryParseLimitAfterLimitByClause (fun e => negb (is_nil e)) mb.
  Proof. unfold tryParseLimitAfterLimitByClause. unfold whenKw. do 2 stp. stp; [|go].
    eapply wp_conseq; [apply parseLimitClause_wp; [pokt | assumption | lia | eapply kws_l; [eassumption | now left]]|]. cbv beta; intros; clean; val. Qed.
  Hint Resolve tryParseLimitAfterLimitByClause_ok : spec.
  Lemma tryParseLimitClause_ok : spec 0 tryParseLimitClause (fun e => negb (is_nil e)) mb.
  Proof. unfold tryParseLimitClause. do 2 stp. stp; [|go].
    eapply wp_conseq; [apply parseLimitClause_wp; [pokt | assumption | lia | assumption]|]. cbv beta; intros; clean; val. Qed.
  Hint Resolve tryParseLimitClause_ok : spec.
  Lemma tryParseLimitByClause_ok : spec 0 tryParseLimitByClause (fun e => negb (is_nil e)) mb.
  Proof. unfold tryParseLimitByClause. unfold whenKw, parseLimitByClause. do 2 stp. stp; [|go].
    apply wp_bind. eapply wp_conseq; [apply parseLimitClause_wp; [pokt | assumption | lia | eapply kws_l; [eassumption | now left]]|]. cbv beta; intros; clean; go. Qed.
  Hint Resolve tryParseLimitByClause_ok : spec.
  Lemma parseSettingsExpr_ok : spec 0 parseSettingsExpr (fun _ => true) nn.
  Proof. unfold parseSettingsExpr. go. Qed.
  Hint Resolve parseSettingsExpr_ok : spec.
  Lemma parseSettingsList_ok : spec 0 parseSettingsList (fun _ => true) (fun l => Forall nn l /\ l <> []).
  Proof. unfold parseSettingsList. go. Qed.
  Hint Resolve parseSettingsList_ok : spec.
  Lemma parseSettingsClause_ok p : pok p -> spec 0 (parseSettingsClause p) (fun _ => true) nn.
  Proof. intros ?. unfold parseSettingsClause. go. Qed.
  Hint Resolve parseSettingsClause_ok : spec.
  Lemma tryParseSettingsClause_ok : spec 0 tryParseSettingsClause (fun e => negb (is_nil e)) mb.
  Proof. unfold tryParseSettingsClause. go. Qed.
  Hint Resolve tryParseSettingsClause_ok : spec.
  Lemma tryParseOrderByClauseHere_ok : spec 0 tryParseOrderByClauseHere (fun e => negb (is_nil e)) mb.
  Proof. unfold tryParseOrderByClauseHere. go. Qed.
  Hint Resolve tryParseOrderByClauseHere_ok : spec.
  Lemma tryParseFormatHere_ok : spec 0 tryParseFormatHere (fun e => negb (is_nil e)) mb.
  Proof. unfold tryParseFormatHere. go. Qed.
  Hint Resolve tryParseFormatHere_ok : spec.
  Definition finishes (f : expr -> expr -> expr -> expr -> expr) : Prop := forall a b c d, mb a -> mb b -> mb c -> mb d -> na (f a b c d).
  Lemma parseSelectStmt_ok : spec 0 parseSelectStmt (fun _ => true) finishes.
  Proof. unfold parseSelectStmt. repeat (lazymatch goal with |- wp (bind (if negb (is_nil _) then bind (endOf _) _ else _) _) _ _ => fail | |- _ => stp end).
    apply (cut_weak _ _ _ _ _ _ (fun x => mb (fst (fst x)) /\ mb (snd (fst x)) /\ pok (snd x))).
    - match goal with |- wp (if negb (is_nil ?e) then _ else _) _ _ => case_if (negb (is_nil e)) end; [go|]. stp.
      match goal with |- wp (match ?e with _ => _ end) ?s0 ?Q => assert (Hd : forall q, pok q -> wp (Ret (ENil, e, q)) s0 Q) by (intros; go) end.
      match goal with |- wp (match ?e with _ => _ end) _ _ => destruct e; try (apply Hd; assumption) end. go.
    - cbv beta; intros ? ? ? ? ?; clean. steps. leaf. intros; nat_. Qed.
  Hint Resolve parseSelectStmt_ok : spec.
  Lemma body_SelectQuery_ok : spec 1 body_SelectQuery (fun _ => true) na.
  Proof. unfold body_SelectQuery. repeat (lazymatch goal with |- wp (bind (if _ then bind (tryKw "ALL") _ else _) _) _ _ => fail | |- _ => stp end).
    apply (cut_weak _ _ _ _ _ _ na); [|cbv beta; intros ? ? ? ? ?; clean; go].
    match goal with Hf : finishes _ |- _ => rename Hf into Hfin end. steps; leaf; apply Hfin; mbt. Qed.
  Hint Resolve body_SelectQuery_ok : spec.
  Lemma parseExplainStmt_ok p : pok p -> spec 0 (parseExplainStmt p) (fun _ => true) nn.
  Proof. intros ?. unfold parseExplainStmt. go. Qed.
  Hint Resolve parseExplainStmt_ok : spec.
End Clauses.
#[export] Hint Resolve parseCTEStmt_ok parseWithClause_ok tryParseWithClause_ok parseTopClause_ok tryParseTopClause_ok parseDistinctOn_ok tryParseDistinctOn_ok parseSelectItem_ok parseSelectItems_ok parsePrewhereClause_ok tryParsePrewhereClause_ok parseWhereClause_ok tryParseWhereClause_ok parseGroupByClause_ok tryParseGroupByClause_ok parseHavingClause_ok tryParseHavingClause_ok parseWindowClause_ok tryParseWindowClause_ok tryParseLimitAfterLimitByClause_ok tryParseLimitClause_ok tryParseLimitByClause_ok parseSettingsExpr_ok parseSettingsList_ok parseSettingsClause_ok tryParseSettingsClause_ok tryParseOrderByClauseHere_ok tryParseFormatHere_ok parseSelectStmt_ok body_SelectQuery_ok parseExplainStmt_ok : spec.
