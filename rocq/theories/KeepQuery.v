(** Proofs for C41: the functions of ParserQuery.v. *)
From Coq Require Import String List Arith Bool Lia ZArith.
From Verif Require Import Str Keyword Lexer Ast AstPos AstSubs Prog RunFacts ParserCommon ParserExpr ParserQuery ParserTable ParserAlter ParserView ParserSystem Parser Words KeepSpec KeepLogic KeepTac KeepCommon KeepExpr.
Import ListNotations.
Local Open Scope string_scope.
Local Open Scope Z_scope.

From Verif Require CaseQuery.
Global Instance W_query `{Word} : Weigh (expr -> expr -> expr -> expr -> expr) := fun g => cnt (g ENil ENil ENil ENil).

Section Keep.
  Context `{Word} {f : nat} (Hc : calls f).
  Local Notation bal := (@KeepLogic.bal _ f).

  Lemma b_whenKw k (g : pos -> prog expr) s : (forall p, okit (here s) -> kw (here s) k = true -> bal s 0 (g p)) -> bal s 0 (whenKw k g).
  Proof. clear - Hc. intros H0. unfold whenKw. kstep. Qed.
  Local Hint Extern 0 (KeepLogic.bal _ _ (whenKw _ _)) => (apply b_whenKw; intros ? ? ?; solve [kstep]) : keep.
  Lemma b_parseTableArgList (p : pos) s : bal s (0) (parseTableArgList p).
  Proof. clear - Hc. unfold parseTableArgList. kstep. Qed.
  Local Hint Resolve b_parseTableArgList : keep.
  Lemma b_parseTableArgPrimaryExpr (p : pos) s : bal s (0) (parseTableArgPrimaryExpr p).
  Proof. clear - Hc. unfold parseTableArgPrimaryExpr. kstep. Qed.
  Local Hint Resolve b_parseTableArgPrimaryExpr : keep.
  Lemma b_body_TableArg (p : pos) s : bal s (0) (body_TableArg p).
  Proof. clear - Hc. unfold body_TableArg. kstep. Qed.
  Local Hint Resolve b_body_TableArg : keep.
  Lemma b_parseTableIdentifier  s : bal s (0) parseTableIdentifier.
  Proof. clear - Hc. unfold parseTableIdentifier. kstep. Qed.
  Local Hint Resolve b_parseTableIdentifier : keep.
  Lemma b_aliasExpr (e : Ast.expr) (alias : Ast.expr) s : bal s (cnt e + cnt alias) (aliasExpr e alias).
  Proof. clear - Hc. unfold aliasExpr. kstep. Qed.
  Local Hint Resolve b_aliasExpr : keep.
  Lemma b_parseTableExpr (p : pos) s : bal s 0 (parseTableExpr p).
  Proof.
    clear - Hc. unfold parseTableExpr. apply bal_bind_cur. intros ?. refine (bal_bind _ _ 0 _ _ _ _).
    - destruct (_ || _); [|kstep]. eapply bal_bind; [kstep; fail|]. intros e s1. apply bal_bind_cur. intros ?. rewrite CaseQuery.as_table_match.
      destruct (CaseQuery.as_table e) as [[d t]|] eqn:E; [|kstep]. assert (F : cnt e = cnt d + cnt t) by (destruct e; try discriminate E; injection E as -> ->; reflexivity). kstep.
    - intros e s1. cbv beta. apply bal_bind_end_of. intros q. eapply bal_bind; [kstep; fail|]. intros b s2. refine (bal_bind _ _ (cnt e) _ _ _ _); [destruct b; kstep; fail|].
      intros [x y] s3. cbv beta iota. kstep. rewrite CaseQuery.final_match. destruct (CaseQuery.final_kind x) as [|[|n]]; kstep.
  Qed.
  Local Hint Resolve b_parseTableExpr : keep.
  Lemma b_parseSampleClause (p : pos) s : bal s (0) (parseSampleClause p).
  Proof. clear - Hc. unfold parseSampleClause. kstep. Qed.
  Local Hint Resolve b_parseSampleClause : keep.
  Lemma b_tryParseSampleClause  s : bal s (0) tryParseSampleClause.
  Proof. clear - Hc. unfold tryParseSampleClause. kstep. Qed.
  Local Hint Resolve b_tryParseSampleClause : keep.
  Lemma b_parseJoinTableExpr  s : bal s (0) parseJoinTableExpr.
  Proof. clear - Hc. unfold parseJoinTableExpr. kstep. Qed.
  Local Hint Resolve b_parseJoinTableExpr : keep.
  Lemma b_tryParseJoinConstraints  s : bal s (0) tryParseJoinConstraints.
  Proof. clear - Hc. unfold tryParseJoinConstraints. kstep. Qed.
  Local Hint Resolve b_tryParseJoinConstraints : keep.
  Lemma b_parseJoinExpr (p : pos) s : bal s (0) (parseJoinExpr p).
  Proof. clear - Hc. unfold parseJoinExpr. kstep. Qed.
  Local Hint Resolve b_parseJoinExpr : keep.
  Lemma b_body_JoinRight (p : pos) s : bal s 0 (body_JoinRight p).
  Proof.
    clear - Hc. unfold body_JoinRight. eapply bal_bind; [kstep; fail|]. intros b s1. destruct b; [kstep|]. eapply bal_bind; [kstep; fail|]. intros m s2. apply bal_bind_cur. intros Ho.
    destruct (negb (is_empty m) && negb (kw (here s2) "JOIN")) eqn:E; [kstep|]. apply bal_bind_tryKw; intros Ek; cbv beta zeta; [kstep|]. rewrite Ek, andb_true_r in E. apply negb_false_iff in E. kstep.
  Qed.
  Local Hint Resolve b_body_JoinRight : keep.
  Lemma b_parseFromClause (p : pos) s : bal s (0) (parseFromClause p).
  Proof. clear - Hc. unfold parseFromClause. kstep. Qed.
  Local Hint Resolve b_parseFromClause : keep.
  Lemma b_tryParseFromClause  s : bal s (0) tryParseFromClause.
  Proof. clear - Hc. unfold tryParseFromClause. kstep. Qed.
  Local Hint Resolve b_tryParseFromClause : keep.
  Lemma b_parseCTEStmt  s : bal s (0) parseCTEStmt.
  Proof. clear - Hc. unfold parseCTEStmt. kstep. Qed.
  Local Hint Resolve b_parseCTEStmt : keep.
  Lemma b_parseWithClause (p : pos) s : bal s (0) (parseWithClause p).
  Proof. clear - Hc. unfold parseWithClause. kstep. Qed.
  Local Hint Resolve b_parseWithClause : keep.
  Lemma b_tryParseWithClause (p : pos) s : bal s (0) (tryParseWithClause p).
  Proof. clear - Hc. unfold tryParseWithClause. kstep. Qed.
  Local Hint Resolve b_tryParseWithClause : keep.
  Lemma b_parseTopClause (p : pos) s : bal s (0) (parseTopClause p).
  Proof. clear - Hc. unfold parseTopClause. kstep. Qed.
  Local Hint Resolve b_parseTopClause : keep.
  Lemma b_tryParseTopClause  s : bal s (0) tryParseTopClause.
  Proof. clear - Hc. unfold tryParseTopClause. kstep. Qed.
  Local Hint Resolve b_tryParseTopClause : keep.
  Lemma b_parseDistinctOn (p : pos) s : bal s (0) (parseDistinctOn p).
  Proof. clear - Hc. unfold parseDistinctOn. kstep. Qed.
  Local Hint Resolve b_parseDistinctOn : keep.
  Lemma b_tryParseDistinctOn  s : bal s (0) tryParseDistinctOn.
  Proof. clear - Hc. unfold tryParseDistinctOn. kstep. Qed.
  Local Hint Resolve b_tryParseDistinctOn : keep.
  Lemma b_parseSelectItem  s : bal s (0) parseSelectItem.
  Proof. clear - Hc. unfold parseSelectItem. kstep. Qed.
  Local Hint Resolve b_parseSelectItem : keep.
  Lemma b_parseSelectItems  s : bal s (0) parseSelectItems.
  Proof. clear - Hc. unfold parseSelectItems. kstep. Qed.
  Local Hint Resolve b_parseSelectItems : keep.
  Lemma b_parsePrewhereClause (p : pos) s : bal s (0) (parsePrewhereClause p).
  Proof. clear - Hc. unfold parsePrewhereClause. kstep. Qed.
  Local Hint Resolve b_parsePrewhereClause : keep.
  Lemma b_tryParsePrewhereClause  s : bal s (0) tryParsePrewhereClause.
  Proof. clear - Hc. unfold tryParsePrewhereClause. kstep. Qed.
  Local Hint Resolve b_tryParsePrewhereClause : keep.
  Lemma b_parseWhereClause (p : pos) s : bal s (0) (parseWhereClause p).
  Proof. clear - Hc. unfold parseWhereClause. kstep. Qed.
  Local Hint Resolve b_parseWhereClause : keep.
  Lemma b_tryParseWhereClause  s : bal s (0) tryParseWhereClause.
  Proof. clear - Hc. unfold tryParseWhereClause. kstep. Qed.
  Local Hint Resolve b_tryParseWhereClause : keep.
  Lemma bal_bind_tryKws {A} {F : Weigh A} s c l (m : bool -> prog A) :
    (forall s', bal s' c (m true)) -> (forall s', here s' = here s -> rest s' = rest s -> bal s' c (m false)) -> bal s c (bind (tryKws l) m).
  Proof.
    clear - Hc. intros H1 H2. unfold tryKws. cbn [bind]. refine (bal_attempt _ _ 0 _ _ _ _ _ _ _ _).
    - apply b_try_keywords.
    - intros a s1 Hk. cbv beta iota in Hk. subst a. cbn [bind]. eapply bal_eq; [apply H1|sizes; lia].
    - intros a s1 Hk Ha Hb. cbv beta iota in Hk. subst a. cbn [bind]. now apply H2.
    - intros e s1 _ c'. cbn [bind]. apply bal_fail.
    - intros e s1 He. discriminate He.
  Qed.
  Lemma b_parseGroupByClause (p : pos) s : bal s 0 (parseGroupByClause p).
  Proof.
    clear - Hc. unfold parseGroupByClause. do 2 (apply bal_bind_expKw; intros ?). apply bal_bind_cur. intros ?. cbv beta. refine (bal_bind _ _ 0 _ _ _ _); [|intros ? ?; kstep].
    destruct (kws _ _) eqn:E; [kstep|]. apply bal_bind_tryKws; [intros ?; kstep|]. intros s1 Ha Hb. destruct (kw _ "ALL") eqn:Ek; [|kstep]. apply bal_bind_skip. intros ?. rewrite Ha. kstep.
  Qed.
  Local Hint Resolve b_parseGroupByClause : keep.
  Lemma b_tryParseGroupByClause  s : bal s (0) tryParseGroupByClause.
  Proof. clear - Hc. unfold tryParseGroupByClause. kstep. Qed.
  Local Hint Resolve b_tryParseGroupByClause : keep.
  Lemma b_parseHavingClause (p : pos) s : bal s (0) (parseHavingClause p).
  Proof. clear - Hc. unfold parseHavingClause. kstep. Qed.
  Local Hint Resolve b_parseHavingClause : keep.
  Lemma b_tryParseHavingClause  s : bal s (0) tryParseHavingClause.
  Proof. clear - Hc. unfold tryParseHavingClause. kstep. Qed.
  Local Hint Resolve b_tryParseHavingClause : keep.
  Lemma b_parseWindowClause (p : pos) s : bal s (0) (parseWindowClause p).
  Proof. clear - Hc. unfold parseWindowClause. kstep. Qed.
  Local Hint Resolve b_parseWindowClause : keep.
  Lemma b_tryParseWindowClause  s : bal s (0) tryParseWindowClause.
  Proof. clear - Hc. unfold tryParseWindowClause. kstep. Qed.
  Local Hint Resolve b_tryParseWindowClause : keep.
  Lemma b_parseLimitClause (p : pos) s : bal s (0) (parseLimitClause p).
  Proof. clear - Hc. unfold parseLimitClause. kstep. Qed.
  Local Hint Resolve b_parseLimitClause : keep.
  Lemma b_tryParseLimitAfterLimitByClause  s : bal s (0) tryParseLimitAfterLimitByClause.
  Proof. clear - Hc. unfold tryParseLimitAfterLimitByClause. kstep. Qed.
  Local Hint Resolve b_tryParseLimitAfterLimitByClause : keep.
  Lemma b_tryParseLimitClause  s : bal s (0) tryParseLimitClause.
  Proof. clear - Hc. unfold tryParseLimitClause. kstep. Qed.
  Local Hint Resolve b_tryParseLimitClause : keep.
  Lemma b_parseLimitByClause (p : pos) s : bal s (0) (parseLimitByClause p).
  Proof. clear - Hc. unfold parseLimitByClause. kstep. Qed.
  Local Hint Resolve b_parseLimitByClause : keep.
  Lemma b_tryParseLimitByClause  s : bal s (0) tryParseLimitByClause.
  Proof. clear - Hc. unfold tryParseLimitByClause. kstep. Qed.
  Local Hint Resolve b_tryParseLimitByClause : keep.
  Lemma b_parseSettingsExpr  s : bal s (0) parseSettingsExpr.
  Proof. clear - Hc. unfold parseSettingsExpr. kstep. Qed.
  Local Hint Resolve b_parseSettingsExpr : keep.
  Lemma b_parseSettingsList  s : bal s (0) parseSettingsList.
  Proof. clear - Hc. unfold parseSettingsList. kstep. Qed.
  Local Hint Resolve b_parseSettingsList : keep.
  Lemma b_parseSettingsClause (p : pos) s : bal s (0) (parseSettingsClause p).
  Proof. clear - Hc. unfold parseSettingsClause. kstep. Qed.
  Local Hint Resolve b_parseSettingsClause : keep.
  Lemma b_tryParseSettingsClause  s : bal s (0) tryParseSettingsClause.
  Proof. clear - Hc. unfold tryParseSettingsClause. kstep. Qed.
  Local Hint Resolve b_tryParseSettingsClause : keep.
  Lemma b_tryParseOrderByClauseHere  s : bal s (0) tryParseOrderByClauseHere.
  Proof. clear - Hc. unfold tryParseOrderByClauseHere. kstep. Qed.
  Local Hint Resolve b_tryParseOrderByClauseHere : keep.
  Lemma b_tryParseFormatHere  s : bal s (0) tryParseFormatHere.
  Proof. clear - Hc. unfold tryParseFormatHere. kstep. Qed.
  Local Hint Resolve b_tryParseFormatHere : keep.
  Definition linear (g : Ast.expr -> Ast.expr -> Ast.expr -> Ast.expr -> Ast.expr) : Prop := forall a b c d, cnt (g a b c d) = size g + cnt a + cnt b + cnt c + cnt d.
  Lemma linear_select : rets linear parseSelectStmt.
  Proof.
    clear - Hc. unfold parseSelectStmt. repeat first [apply rets_bind; intros ?; cbv beta]. match goal with |- rets _ (match ?x with _ => _ end) => destruct x as [[? ?] ?] end.
    repeat first [apply rets_bind; intros ?; cbv beta]. apply rets_ret. intros ? ? ? ?. cbv [size W_query]. cbn [cnt]. lia.
  Qed.
  Lemma b_parseSelectStmt s : bal s 0 parseSelectStmt.
  Proof.
    clear - Hc. unfold parseSelectStmt. kstep. rewrite CaseQuery.limit_by_match. destruct (CaseQuery.limit_by a21); kstep. all: cbv [W_query]; wsolve.
  Qed.
  Local Hint Resolve b_parseSelectStmt : keep.
  Lemma b_body_SelectQuery s : bal s 0 body_SelectQuery.
  Proof.
    clear - Hc. unfold body_SelectQuery. apply bal_bind_cur. intros Ho. destruct (_ && _); [kstep|]. eapply bal_bind; [kstep; fail|]. intros hp s1.
    refine (bal_bind_rets _ _ 0 linear _ _ _ linear_select _); [kstep|]. intros g s2 Hg. kstep. all: rewrite Hg; wsolve.
  Qed.
  Local Hint Resolve b_body_SelectQuery : keep.
  Lemma b_parseExplainStmt (p : pos) s : bal s (0) (parseExplainStmt p).
  Proof. clear - Hc. unfold parseExplainStmt. kstep. Qed.
  Local Hint Resolve b_parseExplainStmt : keep.
End Keep.
Global Hint Resolve b_parseTableArgList b_parseTableArgPrimaryExpr b_body_TableArg b_parseTableIdentifier b_aliasExpr b_parseTableExpr b_parseSampleClause b_tryParseSampleClause b_parseJoinTableExpr b_tryParseJoinConstraints b_parseJoinExpr b_body_JoinRight b_parseFromClause b_tryParseFromClause b_parseCTEStmt b_parseWithClause b_tryParseWithClause b_parseTopClause b_tryParseTopClause b_parseDistinctOn b_tryParseDistinctOn b_parseSelectItem b_parseSelectItems b_parsePrewhereClause b_tryParsePrewhereClause b_parseWhereClause b_tryParseWhereClause b_parseGroupByClause b_tryParseGroupByClause b_parseHavingClause b_tryParseHavingClause b_parseWindowClause b_tryParseWindowClause b_parseLimitClause b_tryParseLimitAfterLimitByClause b_tryParseLimitClause b_parseLimitByClause b_tryParseLimitByClause b_parseSettingsExpr b_parseSettingsList b_parseSettingsClause b_tryParseSettingsClause b_tryParseOrderByClauseHere b_tryParseFormatHere b_parseSelectStmt b_body_SelectQuery b_parseExplainStmt : keep.
Global Hint Extern 0 (KeepLogic.bal _ _ (whenKw _ _)) => (apply b_whenKw; first [assumption | intros ? ? ?; solve [kstep]]) : keep.
