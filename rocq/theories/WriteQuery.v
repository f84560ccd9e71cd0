(** Proofs for C42: the functions of ParserQuery.v. *)
From Coq Require Import String List Arith Bool.
From Verif Require Import Str Keyword Lexer Ast AstPos AstSubs Prog RunFacts ParserCommon ParserExpr ParserQuery ParserTable ParserAlter ParserView ParserSystem Parser Words WriteLogic WriteTac WriteCommon WriteExpr.
Import ListNotations.
Local Open Scope string_scope.
Local Open Scope nat_scope.

From Verif Require CaseQuery.
Definition at_most_one (a b c d : expr) : Prop := a = ENil /\ b = ENil /\ c = ENil \/ a = ENil /\ b = ENil /\ d = ENil \/ a = ENil /\ c = ENil /\ d = ENil \/ b = ENil /\ c = ENil /\ d = ENil.
Global Instance G_query : Good (expr -> expr -> expr -> expr -> expr) := fun g => forall a b c d, ok a -> ok b -> ok c -> ok d -> at_most_one a b c d -> ok (g a b c d).
Lemma ok_table d t : ok (ETableIdentifier d t) -> ok d /\ ok t.
Proof. intros [HA HS]. inversion HA as [? Ht Hs]; subst. cbn [tells subs] in *. rewrite !Forall_cons_iff in *. split; split; tauto. Qed.

Section Write.
  Context {f : nat} (Hc : calls f).
  Local Notation gives := (@WriteLogic.gives f _).

  Lemma w_whenKw k (g : pos -> prog expr) : (forall p, gives good (g p)) -> gives good (whenKw k g).
  Proof. clear - Hc. intros H0. unfold whenKw. go. Qed.
  Local Hint Extern 0 (WriteLogic.gives _ (whenKw _ _)) => (apply w_whenKw; intros ?; solve [go]) : tell.
  Lemma w_parseTableArgList (p : pos) : gives good (parseTableArgList p).
  Proof. clear - Hc. intros. unfold parseTableArgList. go. Qed.
  Local Hint Resolve w_parseTableArgList : tell.
  Lemma w_parseTableArgPrimaryExpr (p : pos) : gives good (parseTableArgPrimaryExpr p).
  Proof. clear - Hc. intros. unfold parseTableArgPrimaryExpr. go. Qed.
  Local Hint Resolve w_parseTableArgPrimaryExpr : tell.
  Lemma w_body_TableArg (p : pos) : gives good (body_TableArg p).
  Proof. clear - Hc. intros. unfold body_TableArg. go. Qed.
  Local Hint Resolve w_body_TableArg : tell.
  Lemma w_parseTableIdentifier  : gives good parseTableIdentifier.
  Proof. clear - Hc. intros. unfold parseTableIdentifier. go. Qed.
  Local Hint Resolve w_parseTableIdentifier : tell.
  Lemma w_aliasExpr (e : Ast.expr) (alias : Ast.expr) : ok e -> ok alias -> gives good (aliasExpr e alias).
  Proof. clear - Hc. intros. unfold aliasExpr. go. Qed.
  Local Hint Resolve w_aliasExpr : tell.
  Lemma w_parseTableExpr (p : pos) : gives good (parseTableExpr p).
  Proof. clear - Hc. intros. unfold parseTableExpr. go; [rewrite CaseQuery.as_table_match; destruct (CaseQuery.as_table a0) as [[d t]|] eqn:E; [|go]; assert (ok d /\ ok t) by (destruct a0; try discriminate E; injection E as -> ->; eapply ok_table; eassumption); clean; go | rewrite CaseQuery.final_match; go]. Qed.
  Local Hint Resolve w_parseTableExpr : tell.
  Lemma w_parseSampleClause (p : pos) : gives good (parseSampleClause p).
  Proof. clear - Hc. intros. unfold parseSampleClause. go. Qed.
  Local Hint Resolve w_parseSampleClause : tell.
  Lemma w_tryParseSampleClause  : gives good tryParseSampleClause.
  Proof. clear - Hc. intros. unfold tryParseSampleClause. go. Qed.
  Local Hint Resolve w_tryParseSampleClause : tell.
  Lemma w_parseJoinTableExpr  : gives good parseJoinTableExpr.
  Proof. clear - Hc. intros. unfold parseJoinTableExpr. go. Qed.
  Local Hint Resolve w_parseJoinTableExpr : tell.
  Lemma w_tryParseJoinConstraints  : gives good tryParseJoinConstraints.
  Proof. clear - Hc. intros. unfold tryParseJoinConstraints. go. Qed.
  Local Hint Resolve w_tryParseJoinConstraints : tell.
  Lemma w_parseJoinExpr (p : pos) : gives good (parseJoinExpr p).
  Proof. clear - Hc. intros. unfold parseJoinExpr. go. Qed.
  Local Hint Resolve w_parseJoinExpr : tell.
  Lemma w_body_JoinRight (p : pos) : gives (fun e => All tells e /\ joined e) (body_JoinRight p).
  Proof. clear - Hc. intros. unfold body_JoinRight. push. Qed.
  Local Hint Resolve w_body_JoinRight : tell.
  Lemma w_parseFromClause (p : pos) : gives good (parseFromClause p).
  Proof. clear - Hc. intros. unfold parseFromClause. go. Qed.
  Local Hint Resolve w_parseFromClause : tell.
  Lemma w_tryParseFromClause  : gives good tryParseFromClause.
  Proof. clear - Hc. intros. unfold tryParseFromClause. go. Qed.
  Local Hint Resolve w_tryParseFromClause : tell.
  Lemma w_parseCTEStmt  : gives good parseCTEStmt.
  Proof. clear - Hc. intros. unfold parseCTEStmt. go. Qed.
  Local Hint Resolve w_parseCTEStmt : tell.
  Lemma w_parseWithClause (p : pos) : gives (fun e => ok e /\ exists p q l, e = EWithClause p q l) (parseWithClause p).
  Proof. clear - Hc. intros. unfold parseWithClause. go. Qed.
  Local Hint Resolve w_parseWithClause : tell.
  Lemma w_tryParseWithClause (p : pos) : gives (fun e => ok e /\ (e = ENil \/ exists p q l, e = EWithClause p q l)) (tryParseWithClause p).
  Proof. clear - Hc. intros. unfold tryParseWithClause. unfold whenKw. go. Qed.
  Local Hint Resolve w_tryParseWithClause : tell.
  Lemma w_parseTopClause (p : pos) : gives good (parseTopClause p).
  Proof. clear - Hc. intros. unfold parseTopClause. go. Qed.
  Local Hint Resolve w_parseTopClause : tell.
  Lemma w_tryParseTopClause  : gives good tryParseTopClause.
  Proof. clear - Hc. intros. unfold tryParseTopClause. go. Qed.
  Local Hint Resolve w_tryParseTopClause : tell.
  Lemma w_parseDistinctOn (p : pos) : gives good (parseDistinctOn p).
  Proof. clear - Hc. intros. unfold parseDistinctOn. go. Qed.
  Local Hint Resolve w_parseDistinctOn : tell.
  Lemma w_tryParseDistinctOn  : gives good tryParseDistinctOn.
  Proof. clear - Hc. intros. unfold tryParseDistinctOn. go. Qed.
  Local Hint Resolve w_tryParseDistinctOn : tell.
  Lemma w_parseSelectItem  : gives good parseSelectItem.
  Proof. clear - Hc. intros. unfold parseSelectItem. go. Qed.
  Local Hint Resolve w_parseSelectItem : tell.
  Lemma w_parseSelectItems  : gives good parseSelectItems.
  Proof. clear - Hc. intros. unfold parseSelectItems. go. Qed.
  Local Hint Resolve w_parseSelectItems : tell.
  Lemma w_parsePrewhereClause (p : pos) : gives good (parsePrewhereClause p).
  Proof. clear - Hc. intros. unfold parsePrewhereClause. go. Qed.
  Local Hint Resolve w_parsePrewhereClause : tell.
  Lemma w_tryParsePrewhereClause  : gives good tryParsePrewhereClause.
  Proof. clear - Hc. intros. unfold tryParsePrewhereClause. go. Qed.
  Local Hint Resolve w_tryParsePrewhereClause : tell.
  Lemma w_parseWhereClause (p : pos) : gives good (parseWhereClause p).
  Proof. clear - Hc. intros. unfold parseWhereClause. go. Qed.
  Local Hint Resolve w_parseWhereClause : tell.
  Lemma w_tryParseWhereClause  : gives good tryParseWhereClause.
  Proof. clear - Hc. intros. unfold tryParseWhereClause. go. Qed.
  Local Hint Resolve w_tryParseWhereClause : tell.
  Lemma w_parseGroupByClause (p : pos) : gives good (parseGroupByClause p).
  Proof. clear - Hc. intros. unfold parseGroupByClause. go. Qed.
  Local Hint Resolve w_parseGroupByClause : tell.
  Lemma w_tryParseGroupByClause  : gives good tryParseGroupByClause.
  Proof. clear - Hc. intros. unfold tryParseGroupByClause. go. Qed.
  Local Hint Resolve w_tryParseGroupByClause : tell.
  Lemma w_parseHavingClause (p : pos) : gives good (parseHavingClause p).
  Proof. clear - Hc. intros. unfold parseHavingClause. go. Qed.
  Local Hint Resolve w_parseHavingClause : tell.
  Lemma w_tryParseHavingClause  : gives good tryParseHavingClause.
  Proof. clear - Hc. intros. unfold tryParseHavingClause. go. Qed.
  Local Hint Resolve w_tryParseHavingClause : tell.
  Lemma w_parseWindowClause (p : pos) : gives good (parseWindowClause p).
  Proof. clear - Hc. intros. unfold parseWindowClause. go. Qed.
  Local Hint Resolve w_parseWindowClause : tell.
  Lemma w_tryParseWindowClause  : gives good tryParseWindowClause.
  Proof. clear - Hc. intros. unfold tryParseWindowClause. go. Qed.
  Local Hint Resolve w_tryParseWindowClause : tell.
  Lemma w_parseLimitClause (p : pos) : gives good (parseLimitClause p).
  Proof. clear - Hc. intros. unfold parseLimitClause. go. Qed.
  Local Hint Resolve w_parseLimitClause : tell.
  Lemma w_tryParseLimitAfterLimitByClause  : gives good tryParseLimitAfterLimitByClause.
  Proof. clear - Hc. intros. unfold tryParseLimitAfterLimitByClause. go. Qed.
  Local Hint Resolve w_tryParseLimitAfterLimitByClause : tell.
  Lemma w_tryParseLimitClause  : gives good tryParseLimitClause.
  Proof. clear - Hc. intros. unfold tryParseLimitClause. go. Qed.
  Local Hint Resolve w_tryParseLimitClause : tell.
  Lemma w_parseLimitByClause (p : pos) : gives good (parseLimitByClause p).
  Proof. clear - Hc. intros. unfold parseLimitByClause. go. Qed.
  Local Hint Resolve w_parseLimitByClause : tell.
  Lemma w_tryParseLimitByClause  : gives good tryParseLimitByClause.
  Proof. clear - Hc. intros. unfold tryParseLimitByClause. go. Qed.
  Local Hint Resolve w_tryParseLimitByClause : tell.
  Lemma w_parseSettingsExpr  : gives good parseSettingsExpr.
  Proof. clear - Hc. intros. unfold parseSettingsExpr. go. Qed.
  Local Hint Resolve w_parseSettingsExpr : tell.
  Lemma w_parseSettingsList  : gives good parseSettingsList.
  Proof. clear - Hc. intros. unfold parseSettingsList. go. Qed.
  Local Hint Resolve w_parseSettingsList : tell.
  Lemma w_parseSettingsClause (p : pos) : gives (fun e => ok e /\ exists p q l, e = ESettingsClause p q l) (parseSettingsClause p).
  Proof. clear - Hc. intros. unfold parseSettingsClause. go. Qed.
  Local Hint Resolve w_parseSettingsClause : tell.
  Lemma w_tryParseSettingsClause  : gives good tryParseSettingsClause.
  Proof. clear - Hc. intros. unfold tryParseSettingsClause. go. Qed.
  Local Hint Resolve w_tryParseSettingsClause : tell.
  Lemma w_tryParseOrderByClauseHere  : gives good tryParseOrderByClauseHere.
  Proof. clear - Hc. intros. unfold tryParseOrderByClauseHere. go. Qed.
  Local Hint Resolve w_tryParseOrderByClauseHere : tell.
  Lemma w_tryParseFormatHere  : gives good tryParseFormatHere.
  Proof. clear - Hc. intros. unfold tryParseFormatHere. go. Qed.
  Local Hint Resolve w_tryParseFormatHere : tell.
  Lemma w_parseSelectStmt  : gives good parseSelectStmt.
  Proof. clear - Hc. intros. unfold parseSelectStmt. go; [rewrite CaseQuery.limit_by_match; go|]. intros ? ? ? ? ? ? ? ? Ho. unfold at_most_one in Ho. val. Qed.
  Local Hint Resolve w_parseSelectStmt : tell.
  Lemma w_body_SelectQuery  : gives good body_SelectQuery.
  Proof. clear - Hc. intros. unfold body_SelectQuery. go. all: match goal with |- _ (_ _ _ _ _) => apply H; first [exact ok_nil | assumption | unfold at_most_one; tauto] end. Qed.
  Local Hint Resolve w_body_SelectQuery : tell.
  Lemma w_parseExplainStmt (p : pos) : gives good (parseExplainStmt p).
  Proof. clear - Hc. intros. unfold parseExplainStmt. go. Qed.
  Local Hint Resolve w_parseExplainStmt : tell.
End Write.
Global Hint Resolve w_parseTableArgList w_parseTableArgPrimaryExpr w_body_TableArg w_parseTableIdentifier w_aliasExpr w_parseTableExpr w_parseSampleClause w_tryParseSampleClause w_parseJoinTableExpr w_tryParseJoinConstraints w_parseJoinExpr w_body_JoinRight w_parseFromClause w_tryParseFromClause w_parseCTEStmt w_parseWithClause w_tryParseWithClause w_parseTopClause w_tryParseTopClause w_parseDistinctOn w_tryParseDistinctOn w_parseSelectItem w_parseSelectItems w_parsePrewhereClause w_tryParsePrewhereClause w_parseWhereClause w_tryParseWhereClause w_parseGroupByClause w_tryParseGroupByClause w_parseHavingClause w_tryParseHavingClause w_parseWindowClause w_tryParseWindowClause w_parseLimitClause w_tryParseLimitAfterLimitByClause w_tryParseLimitClause w_parseLimitByClause w_tryParseLimitByClause w_parseSettingsExpr w_parseSettingsList w_parseSettingsClause w_tryParseSettingsClause w_tryParseOrderByClauseHere w_tryParseFormatHere w_parseSelectStmt w_body_SelectQuery w_parseExplainStmt : tell.
Global Hint Extern 0 (WriteLogic.gives _ (whenKw _ _)) => (apply w_whenKw; first [assumption | intros ?; solve [go]]) : tell.
