(** Proofs for C24: the functions of ParserSystem.v on two inputs that are the same up to the spelling of keywords. *)
From Coq Require Import String List Arith Bool Lia ZArith.
From Verif Require Import Str Keyword Lexer Ast AstPos AstSubs Prog RunFacts ParserCommon ParserExpr ParserQuery ParserTable ParserAlter ParserView ParserSystem Parser Recase CaseRel CaseFold CaseItem CaseCommon CaseExpr CaseQuery CaseTable CaseAlter CaseView.
Import ListNotations.
Local Open Scope string_scope.
Local Open Scope nat_scope.


Section Case.
  Context {f : nat} (Hc : calls f).
  Local Notation sim := (@CaseRel.sim f _ _).

  Lemma c_curEnd  : sim (curEnd) (curEnd).
  Proof. clear - Hc. intros. unfold curEnd. step. Qed.
  Local Hint Resolve c_curEnd : case.
  Lemma c_commaList p p1 : sim p p1 -> sim (commaList p) (commaList p1).
  Proof. clear - Hc. intros H. unfold commaList. step. Qed.
  Local Hint Extern 0 (CaseRel.sim (commaList _) (commaList _)) => (apply c_commaList; step) : case.
  Lemma c_parseSetStmt (p : pos) : sim (parseSetStmt p) (parseSetStmt p).
  Proof. clear - Hc. intros. unfold parseSetStmt. step. Qed.
  Local Hint Resolve c_parseSetStmt : case.
  Lemma c_parseSettingsStmt (p : pos) : sim (parseSettingsStmt p) (parseSettingsStmt p).
  Proof. clear - Hc. intros. unfold parseSettingsStmt. step. Qed.
  Local Hint Resolve c_parseSettingsStmt : case.
  Lemma c_parseSystemFlushExpr (p : pos) : sim (parseSystemFlushExpr p) (parseSystemFlushExpr p).
  Proof. clear - Hc. intros. unfold parseSystemFlushExpr. step. Qed.
  Local Hint Resolve c_parseSystemFlushExpr : case.
  Lemma c_parseSystemReloadExpr (p : pos) : sim (parseSystemReloadExpr p) (parseSystemReloadExpr p).
  Proof. clear - Hc. intros. unfold parseSystemReloadExpr. step. Qed.
  Local Hint Resolve c_parseSystemReloadExpr : case.
  Lemma c_parseSystemSyncExpr (p : pos) : sim (parseSystemSyncExpr p) (parseSystemSyncExpr p).
  Proof. clear - Hc. intros. unfold parseSystemSyncExpr. step. Qed.
  Local Hint Resolve c_parseSystemSyncExpr : case.
  Lemma c_parseSystemCtrlExpr (p : pos) : sim (parseSystemCtrlExpr p) (parseSystemCtrlExpr p).
  Proof. clear - Hc. intros. unfold parseSystemCtrlExpr. step. Qed.
  Local Hint Resolve c_parseSystemCtrlExpr : case.
  Lemma c_parseSystemDropExpr (p : pos) : sim (parseSystemDropExpr p) (parseSystemDropExpr p).
  Proof. clear - Hc. intros. unfold parseSystemDropExpr. step. Qed.
  Local Hint Resolve c_parseSystemDropExpr : case.
  Lemma c_parseSystemStmt (p : pos) : sim (parseSystemStmt p) (parseSystemStmt p).
  Proof. clear - Hc. intros. unfold parseSystemStmt. step. Qed.
  Local Hint Resolve c_parseSystemStmt : case.
  Lemma c_parseDeduplicateClause (p : pos) : sim (parseDeduplicateClause p) (parseDeduplicateClause p).
  Proof. clear - Hc. intros. unfold parseDeduplicateClause. step. Qed.
  Local Hint Resolve c_parseDeduplicateClause : case.
  Lemma c_tryParseDeduplicateClause  : sim (tryParseDeduplicateClause) (tryParseDeduplicateClause).
  Proof. clear - Hc. intros. unfold tryParseDeduplicateClause. step. Qed.
  Local Hint Resolve c_tryParseDeduplicateClause : case.
  Lemma c_parseOptimizeStmt (p : pos) : sim (parseOptimizeStmt p) (parseOptimizeStmt p).
  Proof. clear - Hc. intros. unfold parseOptimizeStmt. step. Qed.
  Local Hint Resolve c_parseOptimizeStmt : case.
  Lemma c_parseCheckStmt (p : pos) : sim (parseCheckStmt p) (parseCheckStmt p).
  Proof. clear - Hc. intros. unfold parseCheckStmt. step. Qed.
  Local Hint Resolve c_parseCheckStmt : case.
  Lemma c_parseRoleName  : sim (parseRoleName) (parseRoleName).
  Proof. clear - Hc. intros. unfold parseRoleName. step. Qed.
  Local Hint Resolve c_parseRoleName : case.
  Lemma c_parseRoleSetting  : sim (parseRoleSetting) (parseRoleSetting).
  Proof. clear - Hc. intros. unfold parseRoleSetting. step. Qed.
  Local Hint Resolve c_parseRoleSetting : case.
  Lemma c_parseRoleSettings  : sim (parseRoleSettings) (parseRoleSettings).
  Proof. clear - Hc. intros. unfold parseRoleSettings. step. Qed.
  Local Hint Resolve c_parseRoleSettings : case.
  Lemma c_tryParseRoleSettings  : sim (tryParseRoleSettings) (tryParseRoleSettings).
  Proof. clear - Hc. intros. unfold tryParseRoleSettings. step. Qed.
  Local Hint Resolve c_tryParseRoleSettings : case.
  Lemma c_parseCreateModifiers  : sim (parseCreateModifiers) (parseCreateModifiers).
  Proof. clear - Hc. intros. unfold parseCreateModifiers. step. Qed.
  Local Hint Resolve c_parseCreateModifiers : case.
  Lemma c_parseCreateRole (p : pos) : sim (parseCreateRole p) (parseCreateRole p).
  Proof. clear - Hc. intros. unfold parseCreateRole. step. Qed.
  Local Hint Resolve c_parseCreateRole : case.
  Lemma c_parseAuthenticationClause  : sim (parseAuthenticationClause) (parseAuthenticationClause).
  Proof. clear - Hc. intros. unfold parseAuthenticationClause. step. Qed.
  Local Hint Resolve c_parseAuthenticationClause : case.
  Lemma c_parseHostClause  : sim (parseHostClause) (parseHostClause).
  Proof. clear - Hc. intros. unfold parseHostClause. step. Qed.
  Local Hint Resolve c_parseHostClause : case.
  Lemma c_parseHostClauses  : sim (parseHostClauses) (parseHostClauses).
  Proof. clear - Hc. intros. unfold parseHostClauses. step. Qed.
  Local Hint Resolve c_parseHostClauses : case.
  Lemma c_parseDefaultRoleClause  : sim (parseDefaultRoleClause) (parseDefaultRoleClause).
  Proof. clear - Hc. intros. unfold parseDefaultRoleClause. step. Qed.
  Local Hint Resolve c_parseDefaultRoleClause : case.
  Lemma c_parseGranteesClause  : sim (parseGranteesClause) (parseGranteesClause).
  Proof. clear - Hc. intros. unfold parseGranteesClause. step. Qed.
  Local Hint Resolve c_parseGranteesClause : case.
  Lemma c_parseUserNames  : sim (parseUserNames) (parseUserNames).
  Proof. clear - Hc. intros. unfold parseUserNames. step. Qed.
  Local Hint Resolve c_parseUserNames : case.
  Lemma c_parseDefaultClause (u u1 : user_acc) : rl u u1 -> sim (parseDefaultClause u) (parseDefaultClause u1).
  Proof. clear - Hc. intros H. norm H. unfold parseDefaultClause. step. Qed.
  Local Hint Resolve c_parseDefaultClause : case.
  Lemma c_parseOptionalClauses (u u1 : user_acc) : rl u u1 -> sim (parseOptionalClauses u) (parseOptionalClauses u1).
  Proof. clear - Hc. intros H. norm H. unfold parseOptionalClauses. step. Qed.
  Local Hint Resolve c_parseOptionalClauses : case.
  Lemma c_parseCreateUser (p : pos) : sim (parseCreateUser p) (parseCreateUser p).
  Proof. clear - Hc. intros. unfold parseCreateUser. step. Qed.
  Local Hint Resolve c_parseCreateUser : case.
  Lemma c_parserDropUserOrRole (p : pos) : sim (parserDropUserOrRole p) (parserDropUserOrRole p).
  Proof. clear - Hc. intros. unfold parserDropUserOrRole. step. Qed.
  Local Hint Resolve c_parserDropUserOrRole : case.
  Lemma c_privilege p k k1 : map recase k = map recase k1 -> sim (privilege p k) (privilege p k1).
  Proof. clear - Hc. intros H. unfold privilege. step. Qed.
  Local Hint Resolve c_privilege : case.
  Lemma c_parsePrivilegeSelectOrInsert (p : pos) : sim (parsePrivilegeSelectOrInsert p) (parsePrivilegeSelectOrInsert p).
  Proof. clear - Hc. intros. unfold parsePrivilegeSelectOrInsert. step. Qed.
  Local Hint Resolve c_parsePrivilegeSelectOrInsert : case.
  Lemma c_parsePrivilegeAlter (p : pos) : sim (parsePrivilegeAlter p) (parsePrivilegeAlter p).
  Proof. clear - Hc. intros. unfold parsePrivilegeAlter. step. Qed.
  Local Hint Resolve c_parsePrivilegeAlter : case.
  Lemma c_parsePrivilegeCreate (p : pos) : sim (parsePrivilegeCreate p) (parsePrivilegeCreate p).
  Proof. clear - Hc. intros. unfold parsePrivilegeCreate. step. Qed.
  Local Hint Resolve c_parsePrivilegeCreate : case.
  Lemma c_parsePrivilegeDrop (p : pos) : sim (parsePrivilegeDrop p) (parsePrivilegeDrop p).
  Proof. clear - Hc. intros. unfold parsePrivilegeDrop. step. Qed.
  Local Hint Resolve c_parsePrivilegeDrop : case.
  Lemma c_parsePrivilegeShow (p : pos) : sim (parsePrivilegeShow p) (parsePrivilegeShow p).
  Proof. clear - Hc. intros. unfold parsePrivilegeShow. step. Qed.
  Local Hint Resolve c_parsePrivilegeShow : case.
  Lemma c_parsePrivilegeSystem (p : pos) : sim (parsePrivilegeSystem p) (parsePrivilegeSystem p).
  Proof. clear - Hc. intros. unfold parsePrivilegeSystem. step. Qed.
  Local Hint Resolve c_parsePrivilegeSystem : case.
  Lemma c_parsePrivilegeClause  : sim (parsePrivilegeClause) (parsePrivilegeClause).
  Proof. clear - Hc. intros. unfold parsePrivilegeClause. step. Qed.
  Local Hint Resolve c_parsePrivilegeClause : case.
  Lemma c_parsePrivilegeRoles  : sim (parsePrivilegeRoles) (parsePrivilegeRoles).
  Proof. clear - Hc. intros. unfold parsePrivilegeRoles. step. Qed.
  Local Hint Resolve c_parsePrivilegeRoles : case.
  Lemma c_parseGrantOption  : sim (parseGrantOption) (parseGrantOption).
  Proof. clear - Hc. intros. unfold parseGrantOption. step. Qed.
  Local Hint Resolve c_parseGrantOption : case.
  Lemma c_parseGrantOptions  : sim (parseGrantOptions) (parseGrantOptions).
  Proof. clear - Hc. intros. unfold parseGrantOptions. step. Qed.
  Local Hint Resolve c_parseGrantOptions : case.
  Lemma c_parseGrantSource  : sim (parseGrantSource) (parseGrantSource).
  Proof. clear - Hc. intros. unfold parseGrantSource. step. Qed.
  Local Hint Resolve c_parseGrantSource : case.
  Lemma c_parseGrantPrivilegeStmt (p : pos) : sim (parseGrantPrivilegeStmt p) (parseGrantPrivilegeStmt p).
  Proof. clear - Hc. intros. unfold parseGrantPrivilegeStmt. step. Qed.
  Local Hint Resolve c_parseGrantPrivilegeStmt : case.
  Lemma c_parseRoleRenamePair  : sim (parseRoleRenamePair) (parseRoleRenamePair).
  Proof. clear - Hc. intros. unfold parseRoleRenamePair. step. Qed.
  Local Hint Resolve c_parseRoleRenamePair : case.
  Lemma c_parseAlterRole (p : pos) : sim (parseAlterRole p) (parseAlterRole p).
  Proof. clear - Hc. intros. unfold parseAlterRole. step. Qed.
  Local Hint Resolve c_parseAlterRole : case.
End Case.
Global Hint Resolve c_curEnd c_parseSetStmt c_parseSettingsStmt c_parseSystemFlushExpr c_parseSystemReloadExpr c_parseSystemSyncExpr c_parseSystemCtrlExpr c_parseSystemDropExpr c_parseSystemStmt c_parseDeduplicateClause c_tryParseDeduplicateClause c_parseOptimizeStmt c_parseCheckStmt c_parseRoleName c_parseRoleSetting c_parseRoleSettings c_tryParseRoleSettings c_parseCreateModifiers c_parseCreateRole c_parseAuthenticationClause c_parseHostClause c_parseHostClauses c_parseDefaultRoleClause c_parseGranteesClause c_parseUserNames c_parseDefaultClause c_parseOptionalClauses c_parseCreateUser c_parserDropUserOrRole c_privilege c_parsePrivilegeSelectOrInsert c_parsePrivilegeAlter c_parsePrivilegeCreate c_parsePrivilegeDrop c_parsePrivilegeShow c_parsePrivilegeSystem c_parsePrivilegeClause c_parsePrivilegeRoles c_parseGrantOption c_parseGrantOptions c_parseGrantSource c_parseGrantPrivilegeStmt c_parseRoleRenamePair c_parseAlterRole : case.
Global Hint Extern 0 (sim (commaList _) (commaList _)) => (apply c_commaList; first [assumption | step]) : case.
