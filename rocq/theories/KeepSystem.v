(** Proofs for C41: the functions of ParserSystem.v. *)
From Coq Require Import String List Arith Bool Lia ZArith.
From Verif Require Import Str Keyword Lexer Ast AstPos AstSubs Prog RunFacts ParserCommon ParserExpr ParserQuery ParserTable ParserAlter ParserView ParserSystem Parser Words KeepSpec KeepLogic KeepTac KeepCommon KeepExpr KeepQuery KeepTable KeepAlter KeepView.
Import ListNotations.
Local Open Scope string_scope.
Local Open Scope Z_scope.

Section Keep.
  Context `{Word} {f : nat} (Hc : calls f).
  Local Notation bal := (@KeepLogic.bal _ f).

  Lemma b_curEnd  s : bal s (0) curEnd.
  Proof. clear - Hc. unfold curEnd. kstep. Qed.
  Local Hint Resolve b_curEnd : keep.
  Lemma b_commaList p s : (forall s, bal s 0 p) -> bal s 0 (commaList p).
  Proof. clear - Hc. intros H0. unfold commaList. eapply bal_bind; [apply H0|]. intros x s1. eapply bal_eq; [apply b_sepTail; [reflexivity|exact H0]|wsolve]. Qed.
  Local Hint Extern 0 (KeepLogic.bal _ _ (commaList _)) => (apply b_commaList; intros ?; solve [kstep]) : keep.
  Lemma b_parseSetStmt (p : pos) s : bal s (0) (parseSetStmt p).
  Proof. clear - Hc. unfold parseSetStmt. kstep. Qed.
  Local Hint Resolve b_parseSetStmt : keep.
  Lemma b_parseSettingsStmt (p : pos) s : bal s (0) (parseSettingsStmt p).
  Proof. clear - Hc. unfold parseSettingsStmt. kstep. Qed.
  Local Hint Resolve b_parseSettingsStmt : keep.
  Lemma b_parseSystemFlushExpr (p : pos) s : bal s (0) (parseSystemFlushExpr p).
  Proof. clear - Hc. unfold parseSystemFlushExpr. kstep. Qed.
  Local Hint Resolve b_parseSystemFlushExpr : keep.
  Lemma b_parseSystemReloadExpr (p : pos) s : bal s (0) (parseSystemReloadExpr p).
  Proof. clear - Hc. unfold parseSystemReloadExpr. kstep. Qed.
  Local Hint Resolve b_parseSystemReloadExpr : keep.
  Lemma b_parseSystemSyncExpr (p : pos) s : bal s (0) (parseSystemSyncExpr p).
  Proof. clear - Hc. unfold parseSystemSyncExpr. kstep. Qed.
  Local Hint Resolve b_parseSystemSyncExpr : keep.
  Lemma b_parseSystemCtrlExpr (p : pos) s : bal s (0) (parseSystemCtrlExpr p).
  Proof. clear - Hc. unfold parseSystemCtrlExpr. kstep. Qed.
  Local Hint Resolve b_parseSystemCtrlExpr : keep.
  Lemma b_parseSystemDropExpr (p : pos) s : bal s (0) (parseSystemDropExpr p).
  Proof. clear - Hc. unfold parseSystemDropExpr. kstep. Qed.
  Local Hint Resolve b_parseSystemDropExpr : keep.
  Lemma b_parseSystemStmt (p : pos) s : bal s (0) (parseSystemStmt p).
  Proof. clear - Hc. unfold parseSystemStmt. kstep. Qed.
  Local Hint Resolve b_parseSystemStmt : keep.
  Lemma b_parseDeduplicateClause (p : pos) s : bal s (0) (parseDeduplicateClause p).
  Proof. clear - Hc. unfold parseDeduplicateClause. kstep. Qed.
  Local Hint Resolve b_parseDeduplicateClause : keep.
  Lemma b_tryParseDeduplicateClause  s : bal s (0) tryParseDeduplicateClause.
  Proof. clear - Hc. unfold tryParseDeduplicateClause. kstep. Qed.
  Local Hint Resolve b_tryParseDeduplicateClause : keep.
  Lemma b_parseOptimizeStmt (p : pos) s : bal s (0) (parseOptimizeStmt p).
  Proof. clear - Hc. unfold parseOptimizeStmt. kstep. Qed.
  Local Hint Resolve b_parseOptimizeStmt : keep.
  Lemma b_parseCheckStmt (p : pos) s : bal s (0) (parseCheckStmt p).
  Proof. clear - Hc. unfold parseCheckStmt. kstep. Qed.
  Local Hint Resolve b_parseCheckStmt : keep.
  Lemma b_parseRoleName  s : bal s (0) parseRoleName.
  Proof. clear - Hc. unfold parseRoleName. kstep. Qed.
  Local Hint Resolve b_parseRoleName : keep.
  Lemma b_parseRoleSetting  s : bal s (0) parseRoleSetting.
  Proof. clear - Hc. unfold parseRoleSetting. kstep. Qed.
  Local Hint Resolve b_parseRoleSetting : keep.
  Lemma b_parseRoleSettings  s : bal s (0) parseRoleSettings.
  Proof. clear - Hc. unfold parseRoleSettings. kstep. Qed.
  Local Hint Resolve b_parseRoleSettings : keep.
  Lemma b_tryParseRoleSettings  s : bal s (0) tryParseRoleSettings.
  Proof. clear - Hc. unfold tryParseRoleSettings. kstep. Qed.
  Local Hint Resolve b_tryParseRoleSettings : keep.
  Lemma b_parseCreateModifiers  s : bal s (0) parseCreateModifiers.
  Proof. clear - Hc. unfold parseCreateModifiers. kstep. Qed.
  Local Hint Resolve b_parseCreateModifiers : keep.
  Lemma b_parseCreateRole (p : pos) s : bal s (0) (parseCreateRole p).
  Proof. clear - Hc. unfold parseCreateRole. kstep. Qed.
  Local Hint Resolve b_parseCreateRole : keep.
  Lemma b_parseAuthenticationClause  s : bal s (0) parseAuthenticationClause.
  Proof. clear - Hc. unfold parseAuthenticationClause. kstep. Qed.
  Local Hint Resolve b_parseAuthenticationClause : keep.
  Lemma b_parseHostClause  s : bal s (0) parseHostClause.
  Proof. clear - Hc. unfold parseHostClause. kstep. Qed.
  Local Hint Resolve b_parseHostClause : keep.
  Lemma b_parseHostClauses  s : bal s (0) parseHostClauses.
  Proof. clear - Hc. unfold parseHostClauses. kstep. Qed.
  Local Hint Resolve b_parseHostClauses : keep.
  Lemma b_parseDefaultRoleClause  s : bal s (0) parseDefaultRoleClause.
  Proof. clear - Hc. unfold parseDefaultRoleClause. kstep. Qed.
  Local Hint Resolve b_parseDefaultRoleClause : keep.
  Lemma b_parseGranteesClause  s : bal s (0) parseGranteesClause.
  Proof. clear - Hc. unfold parseGranteesClause. kstep. Qed.
  Local Hint Resolve b_parseGranteesClause : keep.
  Lemma b_parseUserNames  s : bal s (0) parseUserNames.
  Proof. clear - Hc. unfold parseUserNames. kstep. Qed.
  Local Hint Resolve b_parseUserNames : keep.
  Lemma b_parseDefaultClause u s : tight = false -> bal s (size u) (parseDefaultClause u).
  Proof. clear - Hc. intros Ht. unfold parseDefaultClause. kstep. Qed.
  Local Hint Resolve b_parseDefaultClause : keep.
  Lemma b_parseOptionalClauses u s : tight = false -> bal s (size u) (parseOptionalClauses u).
  Proof. clear - Hc. intros Ht. unfold parseOptionalClauses. kstep. Qed.
  Local Hint Resolve b_parseOptionalClauses : keep.
  Lemma b_parseCreateUser p s : bal s 0 (parseCreateUser p).
  Proof.
    clear - Hc. unfold parseCreateUser. apply bal_cur with (k := fun it => bind (if kw it "USER" then skip else Fail (ExpKw it "USER")) _). intros Ho.
    destruct (kw (here s) "USER") eqn:E; [|kstep]. pose proof (lossy_kw _ _ Ho E eq_refl) as Ht. kstep.
  Qed.
  Local Hint Resolve b_parseCreateUser : keep.
  Lemma b_parserDropUserOrRole p s : bal s 0 (parserDropUserOrRole p).
  Proof.
    clear - Hc. unfold parserDropUserOrRole. apply bal_bind_cur. intros Ho.
    destruct (kws (here s) ["USER"; "ROLE"]) eqn:E; [|kstep]. pose proof (lossy_kws _ _ Ho E eq_refl) as Ht. kstep.
  Qed.
  Local Hint Resolve b_parserDropUserOrRole : keep.
  Lemma b_privilege p l s : bal s (zsum (map ws l)) (privilege p l).
  Proof. clear - Hc. unfold privilege. kstep. Qed.
  Local Hint Resolve b_privilege : keep.
  Lemma b_parsePrivilegeSelectOrInsert (p : pos) s : bal s (0) (parsePrivilegeSelectOrInsert p).
  Proof. clear - Hc. unfold parsePrivilegeSelectOrInsert. kstep. Qed.
  Local Hint Resolve b_parsePrivilegeSelectOrInsert : keep.
  Lemma b_parsePrivilegeAlter (p : pos) s : bal s (0) (parsePrivilegeAlter p).
  Proof. clear - Hc. unfold parsePrivilegeAlter. kstep. Qed.
  Local Hint Resolve b_parsePrivilegeAlter : keep.
  Lemma b_parsePrivilegeCreate (p : pos) s : bal s (0) (parsePrivilegeCreate p).
  Proof. clear - Hc. unfold parsePrivilegeCreate. kstep. Qed.
  Local Hint Resolve b_parsePrivilegeCreate : keep.
  Lemma b_parsePrivilegeDrop (p : pos) s : bal s (0) (parsePrivilegeDrop p).
  Proof. clear - Hc. unfold parsePrivilegeDrop. kstep. Qed.
  Local Hint Resolve b_parsePrivilegeDrop : keep.
  Lemma b_parsePrivilegeShow (p : pos) s : bal s (0) (parsePrivilegeShow p).
  Proof. clear - Hc. unfold parsePrivilegeShow. kstep. Qed.
  Local Hint Resolve b_parsePrivilegeShow : keep.
  Lemma b_parsePrivilegeSystem (p : pos) s : bal s (0) (parsePrivilegeSystem p).
  Proof. clear - Hc. unfold parsePrivilegeSystem. kstep. Qed.
  Local Hint Resolve b_parsePrivilegeSystem : keep.
  Lemma b_parsePrivilegeClause s : bal s 0 parsePrivilegeClause.
  Proof.
    clear - Hc. unfold parsePrivilegeClause. kstep. split_bools. rewrite (named_w (here s) "dictGet") by first [assumption | reflexivity]. lia.
  Qed.
  Local Hint Resolve b_parsePrivilegeClause : keep.
  Lemma b_parsePrivilegeRoles  s : bal s (0) parsePrivilegeRoles.
  Proof. clear - Hc. unfold parsePrivilegeRoles. kstep. Qed.
  Local Hint Resolve b_parsePrivilegeRoles : keep.
  Lemma b_parseGrantOption s : bal s 0 parseGrantOption.
  Proof. clear - Hc. unfold parseGrantOption. apply bal_bind_expKw. intros ?. eapply bal_bind_rets; [solve [eauto with keep]|exact rets_any|]. intros e s1 He. cbv beta in He |- *. kstep. Qed.
  Local Hint Resolve b_parseGrantOption : keep.
  Lemma b_parseGrantOptions  s : bal s (0) parseGrantOptions.
  Proof. clear - Hc. unfold parseGrantOptions. kstep. Qed.
  Local Hint Resolve b_parseGrantOptions : keep.
  Lemma b_parseGrantSource  s : bal s (0) parseGrantSource.
  Proof. clear - Hc. unfold parseGrantSource. kstep. Qed.
  Local Hint Resolve b_parseGrantSource : keep.
  Lemma b_parseGrantPrivilegeStmt (p : pos) s : bal s (0) (parseGrantPrivilegeStmt p).
  Proof. clear - Hc. unfold parseGrantPrivilegeStmt. kstep. Qed.
  Local Hint Resolve b_parseGrantPrivilegeStmt : keep.
  Lemma b_parseRoleRenamePair  s : bal s (0) parseRoleRenamePair.
  Proof. clear - Hc. unfold parseRoleRenamePair. kstep. Qed.
  Local Hint Resolve b_parseRoleRenamePair : keep.
  Lemma b_parseAlterRole (p : pos) s : bal s (0) (parseAlterRole p).
  Proof. clear - Hc. unfold parseAlterRole. kstep. Qed.
  Local Hint Resolve b_parseAlterRole : keep.
End Keep.
Global Hint Resolve b_curEnd b_parseSetStmt b_parseSettingsStmt b_parseSystemFlushExpr b_parseSystemReloadExpr b_parseSystemSyncExpr b_parseSystemCtrlExpr b_parseSystemDropExpr b_parseSystemStmt b_parseDeduplicateClause b_tryParseDeduplicateClause b_parseOptimizeStmt b_parseCheckStmt b_parseRoleName b_parseRoleSetting b_parseRoleSettings b_tryParseRoleSettings b_parseCreateModifiers b_parseCreateRole b_parseAuthenticationClause b_parseHostClause b_parseHostClauses b_parseDefaultRoleClause b_parseGranteesClause b_parseUserNames b_parseDefaultClause b_parseOptionalClauses b_parseCreateUser b_parserDropUserOrRole b_privilege b_parsePrivilegeSelectOrInsert b_parsePrivilegeAlter b_parsePrivilegeCreate b_parsePrivilegeDrop b_parsePrivilegeShow b_parsePrivilegeSystem b_parsePrivilegeClause b_parsePrivilegeRoles b_parseGrantOption b_parseGrantOptions b_parseGrantSource b_parseGrantPrivilegeStmt b_parseRoleRenamePair b_parseAlterRole : keep.
Global Hint Extern 0 (KeepLogic.bal _ _ (commaList _)) => (apply b_commaList; first [assumption | intros ?; solve [kstep]]) : keep.
