(** Proofs for C43: the functions of ParserQuery.v. *)
From Coq Require Import String List Arith Bool.
From Verif Require Import Str Keyword Lexer Ast AstPos AstSubs Prog RunFacts ParserCommon ParserExpr ParserQuery ParserTable ParserAlter ParserView ParserSystem Parser SemiLogic SemiTac SemiCommon SemiExpr.
Import ListNotations.
Local Open Scope string_scope.
Local Open Scope nat_scope.
From Verif Require CaseQuery.
Section Semi.
  Context `{Tails} {f : nat} (Hc : calls f).
  Local Notation safe p := (forall pre m, fines pre -> @at_ _ f pre m _ p).

  Lemma s_whenKw k (g : pos -> prog expr) : (forall p, safe (g p)) -> safe (whenKw k g).
  Proof. clear - Hc. intros. unfold whenKw. go. Qed.
  Local Hint Extern 0 (at_ _ _ (whenKw _ _)) => (apply s_whenKw; first [assumption | reflexivity | intros; solve [go]]) : semi.
  Lemma s_parseTableArgList (p : pos) : safe (parseTableArgList p).
  Proof. clear - Hc. intros. unfold parseTableArgList. go. Qed.
  Local Hint Resolve s_parseTableArgList : semi.
  Lemma s_parseTableArgPrimaryExpr (p : pos) : safe (parseTableArgPrimaryExpr p).
  Proof. clear - Hc. intros. unfold parseTableArgPrimaryExpr. go. Qed.
  Local Hint Resolve s_parseTableArgPrimaryExpr : semi.
  Lemma s_body_TableArg (p : pos) : safe (body_TableArg p).
  Proof. clear - Hc. intros. unfold body_TableArg. go. Qed.
  Local Hint Resolve s_body_TableArg : semi.
  Lemma s_parseTableIdentifier  : safe parseTableIdentifier.
  Proof. clear - Hc. intros. unfold parseTableIdentifier. go. Qed.
  Local Hint Resolve s_parseTableIdentifier : semi.
  Lemma s_aliasExpr (e : Ast.expr) (alias : Ast.expr) : safe (aliasExpr e alias).
  Proof. clear - Hc. intros. unfold aliasExpr. go. Qed.
  Local Hint Resolve s_aliasExpr : semi.
  Lemma s_parseTableExpr (p : pos) : safe (parseTableExpr p).
  Proof. clear - Hc. intros. unfold parseTableExpr. go; [rewrite CaseQuery.as_table_match; go | rewrite CaseQuery.final_match; go]. Qed.
  Local Hint Resolve s_parseTableExpr : semi.
  Lemma s_parseSampleClause (p : pos) : safe (parseSampleClause p).
  Proof. clear - Hc. intros. unfold parseSampleClause. go. Qed.
  Local Hint Resolve s_parseSampleClause : semi.
  Lemma s_tryParseSampleClause  : safe tryParseSampleClause.
  Proof. clear - Hc. intros. unfold tryParseSampleClause. go. Qed.
  Local Hint Resolve s_tryParseSampleClause : semi.
  Lemma s_parseJoinTableExpr  : safe parseJoinTableExpr.
  Proof. clear - Hc. intros. unfold parseJoinTableExpr. go. Qed.
  Local Hint Resolve s_parseJoinTableExpr : semi.
  Lemma s_tryParseJoinConstraints  : safe tryParseJoinConstraints.
  Proof. clear - Hc. intros. unfold tryParseJoinConstraints. go. Qed.
  Local Hint Resolve s_tryParseJoinConstraints : semi.
  Lemma s_parseJoinExpr (p : pos) : safe (parseJoinExpr p).
  Proof. clear - Hc. intros. unfold parseJoinExpr. go. Qed.
  Local Hint Resolve s_parseJoinExpr : semi.
  Lemma s_body_JoinRight (p : pos) : safe (body_JoinRight p).
  Proof. clear - Hc. intros. unfold body_JoinRight. go. Qed.
  Local Hint Resolve s_body_JoinRight : semi.
  Lemma s_parseFromClause (p : pos) : safe (parseFromClause p).
  Proof. clear - Hc. intros. unfold parseFromClause. go. Qed.
  Local Hint Resolve s_parseFromClause : semi.
  Lemma s_tryParseFromClause  : safe tryParseFromClause.
  Proof. clear - Hc. intros. unfold tryParseFromClause. go. Qed.
  Local Hint Resolve s_tryParseFromClause : semi.
  Lemma s_parseCTEStmt  : safe parseCTEStmt.
  Proof. clear - Hc. intros. unfold parseCTEStmt. go. Qed.
  Local Hint Resolve s_parseCTEStmt : semi.
  Lemma s_parseWithClause (p : pos) : safe (parseWithClause p).
  Proof. clear - Hc. intros. unfold parseWithClause. go. Qed.
  Local Hint Resolve s_parseWithClause : semi.
  Lemma s_tryParseWithClause (p : pos) : safe (tryParseWithClause p).
  Proof. clear - Hc. intros. unfold tryParseWithClause. go. Qed.
  Local Hint Resolve s_tryParseWithClause : semi.
  Lemma s_parseTopClause (p : pos) : safe (parseTopClause p).
  Proof. clear - Hc. intros. unfold parseTopClause. go. Qed.
  Local Hint Resolve s_parseTopClause : semi.
  Lemma s_tryParseTopClause  : safe tryParseTopClause.
  Proof. clear - Hc. intros. unfold tryParseTopClause. go. Qed.
  Local Hint Resolve s_tryParseTopClause : semi.
  Lemma s_parseDistinctOn (p : pos) : safe (parseDistinctOn p).
  Proof. clear - Hc. intros. unfold parseDistinctOn. go. Qed.
  Local Hint Resolve s_parseDistinctOn : semi.
  Lemma s_tryParseDistinctOn  : safe tryParseDistinctOn.
  Proof. clear - Hc. intros. unfold tryParseDistinctOn. go. Qed.
  Local Hint Resolve s_tryParseDistinctOn : semi.
  Lemma s_parseSelectItem  : safe parseSelectItem.
  Proof. clear - Hc. intros. unfold parseSelectItem. go. Qed.
  Local Hint Resolve s_parseSelectItem : semi.
  Lemma s_parseSelectItems  : safe parseSelectItems.
  Proof. clear - Hc. intros. unfold parseSelectItems. go. Qed.
  Local Hint Resolve s_parseSelectItems : semi.
  Lemma s_parsePrewhereClause (p : pos) : safe (parsePrewhereClause p).
  Proof. clear - Hc. intros. unfold parsePrewhereClause. go. Qed.
  Local Hint Resolve s_parsePrewhereClause : semi.
  Lemma s_tryParsePrewhereClause  : safe tryParsePrewhereClause.
  Proof. clear - Hc. intros. unfold tryParsePrewhereClause. go. Qed.
  Local Hint Resolve s_tryParsePrewhereClause : semi.
  Lemma s_parseWhereClause (p : pos) : safe (parseWhereClause p).
  Proof. clear - Hc. intros. unfold parseWhereClause. go. Qed.
  Local Hint Resolve s_parseWhereClause : semi.
  Lemma s_tryParseWhereClause  : safe tryParseWhereClause.
  Proof. clear - Hc. intros. unfold tryParseWhereClause. go. Qed.
  Local Hint Resolve s_tryParseWhereClause : semi.
  Lemma s_parseGroupByClause (p : pos) : safe (parseGroupByClause p).
  Proof. clear - Hc. intros. unfold parseGroupByClause. do 2 (apply s_bind; [sfind|intros]). unfold cur_item. cbn [bind]. apply s_cur. cbv beta. apply s_bind; [|intros; go]. destruct (kws _ _) eqn:?; [go|]. apply s_bind_tryKws; [assumption|apply s_try_keywords; assumption|intros; go|intros; go]. Qed.
  Local Hint Resolve s_parseGroupByClause : semi.
  Lemma s_tryParseGroupByClause  : safe tryParseGroupByClause.
  Proof. clear - Hc. intros. unfold tryParseGroupByClause. go. Qed.
  Local Hint Resolve s_tryParseGroupByClause : semi.
  Lemma s_parseHavingClause (p : pos) : safe (parseHavingClause p).
  Proof. clear - Hc. intros. unfold parseHavingClause. go. Qed.
  Local Hint Resolve s_parseHavingClause : semi.
  Lemma s_tryParseHavingClause  : safe tryParseHavingClause.
  Proof. clear - Hc. intros. unfold tryParseHavingClause. go. Qed.
  Local Hint Resolve s_tryParseHavingClause : semi.
  Lemma s_parseWindowClause (p : pos) : safe (parseWindowClause p).
  Proof. clear - Hc. intros. unfold parseWindowClause. go. Qed.
  Local Hint Resolve s_parseWindowClause : semi.
  Lemma s_tryParseWindowClause  : safe tryParseWindowClause.
  Proof. clear - Hc. intros. unfold tryParseWindowClause. go. Qed.
  Local Hint Resolve s_tryParseWindowClause : semi.
  Lemma s_parseLimitClause (p : pos) : safe (parseLimitClause p).
  Proof. clear - Hc. intros. unfold parseLimitClause. go. Qed.
  Local Hint Resolve s_parseLimitClause : semi.
  Lemma s_tryParseLimitAfterLimitByClause  : safe tryParseLimitAfterLimitByClause.
  Proof. clear - Hc. intros. unfold tryParseLimitAfterLimitByClause. go. Qed.
  Local Hint Resolve s_tryParseLimitAfterLimitByClause : semi.
  Lemma s_tryParseLimitClause  : safe tryParseLimitClause.
  Proof. clear - Hc. intros. unfold tryParseLimitClause. go. Qed.
  Local Hint Resolve s_tryParseLimitClause : semi.
  Lemma s_parseLimitByClause (p : pos) : safe (parseLimitByClause p).
  Proof. clear - Hc. intros. unfold parseLimitByClause. go. Qed.
  Local Hint Resolve s_parseLimitByClause : semi.
  Lemma s_tryParseLimitByClause  : safe tryParseLimitByClause.
  Proof. clear - Hc. intros. unfold tryParseLimitByClause. go. Qed.
  Local Hint Resolve s_tryParseLimitByClause : semi.
  Lemma s_parseSettingsExpr  : safe parseSettingsExpr.
  Proof. clear - Hc. intros. unfold parseSettingsExpr. go. Qed.
  Local Hint Resolve s_parseSettingsExpr : semi.
  Lemma s_parseSettingsList  : safe parseSettingsList.
  Proof. clear - Hc. intros. unfold parseSettingsList. go. Qed.
  Local Hint Resolve s_parseSettingsList : semi.
  Lemma s_parseSettingsClause (p : pos) : safe (parseSettingsClause p).
  Proof. clear - Hc. intros. unfold parseSettingsClause. go. Qed.
  Local Hint Resolve s_parseSettingsClause : semi.
  Lemma s_tryParseSettingsClause  : safe tryParseSettingsClause.
  Proof. clear - Hc. intros. unfold tryParseSettingsClause. go. Qed.
  Local Hint Resolve s_tryParseSettingsClause : semi.
  Lemma s_tryParseOrderByClauseHere  : safe tryParseOrderByClauseHere.
  Proof. clear - Hc. intros. unfold tryParseOrderByClauseHere. go. Qed.
  Local Hint Resolve s_tryParseOrderByClauseHere : semi.
  Lemma s_tryParseFormatHere  : safe tryParseFormatHere.
  Proof. clear - Hc. intros. unfold tryParseFormatHere. go. Qed.
  Local Hint Resolve s_tryParseFormatHere : semi.
  Lemma s_parseSelectStmt  : safe parseSelectStmt.
  Proof. clear - Hc. intros. unfold parseSelectStmt. go. rewrite CaseQuery.limit_by_match; go. Qed.
  Local Hint Resolve s_parseSelectStmt : semi.
  Lemma s_body_SelectQuery  : safe body_SelectQuery.
  Proof. clear - Hc. intros. unfold body_SelectQuery. go. Qed.
  Local Hint Resolve s_body_SelectQuery : semi.
  Lemma s_parseExplainStmt (p : pos) : safe (parseExplainStmt p).
  Proof. clear - Hc. intros. unfold parseExplainStmt. go. Qed.
  Local Hint Resolve s_parseExplainStmt : semi.
End Semi.
Global Hint Resolve s_parseTableArgList s_parseTableArgPrimaryExpr s_body_TableArg s_parseTableIdentifier s_aliasExpr s_parseTableExpr s_parseSampleClause s_tryParseSampleClause s_parseJoinTableExpr s_tryParseJoinConstraints s_parseJoinExpr s_body_JoinRight s_parseFromClause s_tryParseFromClause s_parseCTEStmt s_parseWithClause s_tryParseWithClause s_parseTopClause s_tryParseTopClause s_parseDistinctOn s_tryParseDistinctOn s_parseSelectItem s_parseSelectItems s_parsePrewhereClause s_tryParsePrewhereClause s_parseWhereClause s_tryParseWhereClause s_parseGroupByClause s_tryParseGroupByClause s_parseHavingClause s_tryParseHavingClause s_parseWindowClause s_tryParseWindowClause s_parseLimitClause s_tryParseLimitAfterLimitByClause s_tryParseLimitClause s_parseLimitByClause s_tryParseLimitByClause s_parseSettingsExpr s_parseSettingsList s_parseSettingsClause s_tryParseSettingsClause s_tryParseOrderByClauseHere s_tryParseFormatHere s_parseSelectStmt s_body_SelectQuery s_parseExplainStmt : semi.
Global Hint Extern 0 (at_ _ _ (whenKw _ _)) => (apply s_whenKw; first [assumption | reflexivity | intros; solve [go]]) : semi.
