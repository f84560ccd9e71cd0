(** Proofs for C42: the functions of ParserSystem.v. *)
From Coq Require Import String List Arith Bool.
From Verif Require Import Str Keyword Lexer Ast AstPos AstSubs Prog RunFacts ParserCommon ParserExpr ParserQuery ParserTable ParserAlter ParserView ParserSystem Parser Words WriteLogic WriteTac WriteCommon WriteExpr WriteQuery WriteTable WriteAlter WriteView.
Import ListNotations.
Local Open Scope string_scope.
Local Open Scope nat_scope.

Section Write.
  Context {f : nat} (Hc : calls f).
  Local Notation gives := (@WriteLogic.gives f _).

  Lemma w_commaList p : gives good p -> gives good (commaList p).
  Proof. clear - Hc. intros H0. unfold commaList. go. Qed.
  Local Hint Extern 0 (WriteLogic.gives _ (commaList _)) => (apply w_commaList; first [assumption | solve [go]]) : tell.
  Lemma w_parseSetStmt (p : pos) : gives good (parseSetStmt p).
  Proof. clear - Hc. intros. unfold parseSetStmt. go. Qed.
  Local Hint Resolve w_parseSetStmt : tell.
  Lemma w_parseSettingsStmt (p : pos) : gives good (parseSettingsStmt p).
  Proof. clear - Hc. intros. unfold parseSettingsStmt. go. Qed.
  Local Hint Resolve w_parseSettingsStmt : tell.
  Lemma w_parseSystemFlushExpr (p : pos) : gives good (parseSystemFlushExpr p).
  Proof. clear - Hc. intros. unfold parseSystemFlushExpr. go. Qed.
  Local Hint Resolve w_parseSystemFlushExpr : tell.
  Lemma w_parseSystemReloadExpr (p : pos) : gives good (parseSystemReloadExpr p).
  Proof. clear - Hc. intros. unfold parseSystemReloadExpr. go. Qed.
  Local Hint Resolve w_parseSystemReloadExpr : tell.
  Lemma w_parseSystemSyncExpr (p : pos) : gives good (parseSystemSyncExpr p).
  Proof. clear - Hc. intros. unfold parseSystemSyncExpr. go. Qed.
  Local Hint Resolve w_parseSystemSyncExpr : tell.
  Lemma w_parseSystemCtrlExpr (p : pos) : gives good (parseSystemCtrlExpr p).
  Proof. clear - Hc. intros. unfold parseSystemCtrlExpr. go. Qed.
  Local Hint Resolve w_parseSystemCtrlExpr : tell.
  Lemma w_parseSystemDropExpr (p : pos) : gives good (parseSystemDropExpr p).
  Proof. clear - Hc. intros. unfold parseSystemDropExpr. go. Qed.
  Local Hint Resolve w_parseSystemDropExpr : tell.
  Lemma w_parseSystemStmt (p : pos) : gives good (parseSystemStmt p).
  Proof. clear - Hc. intros. unfold parseSystemStmt. go. Qed.
  Local Hint Resolve w_parseSystemStmt : tell.
  Lemma w_parseDeduplicateClause (p : pos) : gives good (parseDeduplicateClause p).
  Proof. clear - Hc. intros. unfold parseDeduplicateClause. go. Qed.
  Local Hint Resolve w_parseDeduplicateClause : tell.
  Lemma w_tryParseDeduplicateClause  : gives good tryParseDeduplicateClause.
  Proof. clear - Hc. intros. unfold tryParseDeduplicateClause. go. Qed.
  Local Hint Resolve w_tryParseDeduplicateClause : tell.
  Lemma w_parseOptimizeStmt (p : pos) : gives good (parseOptimizeStmt p).
  Proof. clear - Hc. intros. unfold parseOptimizeStmt. go. Qed.
  Local Hint Resolve w_parseOptimizeStmt : tell.
  Lemma w_parseCheckStmt (p : pos) : gives good (parseCheckStmt p).
  Proof. clear - Hc. intros. unfold parseCheckStmt. go. Qed.
  Local Hint Resolve w_parseCheckStmt : tell.
  Lemma w_parseRoleName  : gives good parseRoleName.
  Proof. clear - Hc. intros. unfold parseRoleName. go. Qed.
  Local Hint Resolve w_parseRoleName : tell.
  Lemma w_parseRoleSetting  : gives good parseRoleSetting.
  Proof. clear - Hc. intros. unfold parseRoleSetting. go. Qed.
  Local Hint Resolve w_parseRoleSetting : tell.
  Lemma w_parseRoleSettings  : gives good parseRoleSettings.
  Proof. clear - Hc. intros. unfold parseRoleSettings. go. Qed.
  Local Hint Resolve w_parseRoleSettings : tell.
  Lemma w_tryParseRoleSettings  : gives good tryParseRoleSettings.
  Proof. clear - Hc. intros. unfold tryParseRoleSettings. go. Qed.
  Local Hint Resolve w_tryParseRoleSettings : tell.
  Lemma w_parseCreateRole (p : pos) : gives good (parseCreateRole p).
  Proof. clear - Hc. intros. unfold parseCreateRole. go. Qed.
  Local Hint Resolve w_parseCreateRole : tell.
  Lemma w_parseAuthenticationClause  : gives good parseAuthenticationClause.
  Proof. clear - Hc. intros. unfold parseAuthenticationClause. go. Qed.
  Local Hint Resolve w_parseAuthenticationClause : tell.
  Lemma w_parseHostClause  : gives good parseHostClause.
  Proof. clear - Hc. intros. unfold parseHostClause. go. Qed.
  Local Hint Resolve w_parseHostClause : tell.
  Lemma w_parseHostClauses  : gives good parseHostClauses.
  Proof. clear - Hc. intros. unfold parseHostClauses. go. Qed.
  Local Hint Resolve w_parseHostClauses : tell.
  Lemma w_parseDefaultRoleClause  : gives good parseDefaultRoleClause.
  Proof. clear - Hc. intros. unfold parseDefaultRoleClause. go. Qed.
  Local Hint Resolve w_parseDefaultRoleClause : tell.
  Lemma w_parseGranteesClause  : gives good parseGranteesClause.
  Proof. clear - Hc. intros. unfold parseGranteesClause. push. Qed.
  Local Hint Resolve w_parseGranteesClause : tell.
  Lemma w_parseUserNames  : gives good parseUserNames.
  Proof. clear - Hc. intros. unfold parseUserNames. go. Qed.
  Local Hint Resolve w_parseUserNames : tell.
  Lemma w_parseDefaultClause (u : user_acc) : good u -> gives good (parseDefaultClause u).
  Proof. clear - Hc. intros. unfold parseDefaultClause. go. Qed.
  Local Hint Extern 0 (WriteLogic.gives _ (parseDefaultClause _)) => (eapply w_parseDefaultClause; first [assumption | solve [val]]) : tell.
  Lemma w_parseOptionalClauses (u : user_acc) : good u -> gives good (parseOptionalClauses u).
  Proof. clear - Hc. intros. unfold parseOptionalClauses. go. Qed.
  Local Hint Extern 0 (WriteLogic.gives _ (parseOptionalClauses _)) => (eapply w_parseOptionalClauses; first [assumption | solve [val]]) : tell.
  Lemma w_parseCreateUser (p : pos) : gives good (parseCreateUser p).
  Proof. clear - Hc. intros. unfold parseCreateUser. go. Qed.
  Local Hint Resolve w_parseCreateUser : tell.
  Lemma w_parserDropUserOrRole (p : pos) : gives good (parserDropUserOrRole p).
  Proof. clear - Hc. intros. unfold parserDropUserOrRole. go. Qed.
  Local Hint Resolve w_parserDropUserOrRole : tell.
  Lemma w_privilege (p : pos) (keywords : list string) : gives good (privilege p keywords).
  Proof. clear - Hc. intros. unfold privilege. go. Qed.
  Local Hint Resolve w_privilege : tell.
  Lemma w_parsePrivilegeSelectOrInsert (p : pos) : gives good (parsePrivilegeSelectOrInsert p).
  Proof. clear - Hc. intros. unfold parsePrivilegeSelectOrInsert. go. Qed.
  Local Hint Resolve w_parsePrivilegeSelectOrInsert : tell.
  Lemma w_parsePrivilegeAlter (p : pos) : gives good (parsePrivilegeAlter p).
  Proof. clear - Hc. intros. unfold parsePrivilegeAlter. go. Qed.
  Local Hint Resolve w_parsePrivilegeAlter : tell.
  Lemma w_parsePrivilegeCreate (p : pos) : gives good (parsePrivilegeCreate p).
  Proof. clear - Hc. intros. unfold parsePrivilegeCreate. go. Qed.
  Local Hint Resolve w_parsePrivilegeCreate : tell.
  Lemma w_parsePrivilegeDrop (p : pos) : gives good (parsePrivilegeDrop p).
  Proof. clear - Hc. intros. unfold parsePrivilegeDrop. go. Qed.
  Local Hint Resolve w_parsePrivilegeDrop : tell.
  Lemma w_parsePrivilegeShow (p : pos) : gives good (parsePrivilegeShow p).
  Proof. clear - Hc. intros. unfold parsePrivilegeShow. go. Qed.
  Local Hint Resolve w_parsePrivilegeShow : tell.
  Lemma w_parsePrivilegeSystem (p : pos) : gives good (parsePrivilegeSystem p).
  Proof. clear - Hc. intros. unfold parsePrivilegeSystem. go. Qed.
  Local Hint Resolve w_parsePrivilegeSystem : tell.
  Lemma w_parsePrivilegeClause  : gives good parsePrivilegeClause.
  Proof. clear - Hc. intros. unfold parsePrivilegeClause. go. Qed.
  Local Hint Resolve w_parsePrivilegeClause : tell.
  Lemma w_parsePrivilegeRoles  : gives good parsePrivilegeRoles.
  Proof. clear - Hc. intros. unfold parsePrivilegeRoles. go. Qed.
  Local Hint Resolve w_parsePrivilegeRoles : tell.
  Lemma w_parseGrantSource  : gives good parseGrantSource.
  Proof. clear - Hc. intros. unfold parseGrantSource. go. Qed.
  Local Hint Resolve w_parseGrantSource : tell.
  Lemma w_parseGrantPrivilegeStmt (p : pos) : gives good (parseGrantPrivilegeStmt p).
  Proof. clear - Hc. intros. unfold parseGrantPrivilegeStmt. go. Qed.
  Local Hint Resolve w_parseGrantPrivilegeStmt : tell.
  Lemma w_parseRoleRenamePair  : gives good parseRoleRenamePair.
  Proof. clear - Hc. intros. unfold parseRoleRenamePair. go. Qed.
  Local Hint Resolve w_parseRoleRenamePair : tell.
  Lemma w_parseAlterRole (p : pos) : gives good (parseAlterRole p).
  Proof. clear - Hc. intros. unfold parseAlterRole. go. Qed.
  Local Hint Resolve w_parseAlterRole : tell.
End Write.
Global Hint Resolve w_parseSetStmt w_parseSettingsStmt w_parseSystemFlushExpr w_parseSystemReloadExpr w_parseSystemSyncExpr w_parseSystemCtrlExpr w_parseSystemDropExpr w_parseSystemStmt w_parseDeduplicateClause w_tryParseDeduplicateClause w_parseOptimizeStmt w_parseCheckStmt w_parseRoleName w_parseRoleSetting w_parseRoleSettings w_tryParseRoleSettings w_parseCreateRole w_parseAuthenticationClause w_parseHostClause w_parseHostClauses w_parseDefaultRoleClause w_parseGranteesClause w_parseUserNames w_parseDefaultClause w_parseOptionalClauses w_parseCreateUser w_parserDropUserOrRole w_privilege w_parsePrivilegeSelectOrInsert w_parsePrivilegeAlter w_parsePrivilegeCreate w_parsePrivilegeDrop w_parsePrivilegeShow w_parsePrivilegeSystem w_parsePrivilegeClause w_parsePrivilegeRoles w_parseGrantSource w_parseGrantPrivilegeStmt w_parseRoleRenamePair w_parseAlterRole : tell.
Global Hint Extern 0 (WriteLogic.gives _ (commaList _)) => (apply w_commaList; first [assumption | solve [go]]) : tell.
