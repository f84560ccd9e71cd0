(** Proofs for C43: the functions of ParserSystem.v. *)
From Coq Require Import String List Arith Bool.
From Verif Require Import Str Keyword Lexer Ast AstPos AstSubs Prog RunFacts ParserCommon ParserExpr ParserQuery ParserTable ParserAlter ParserView ParserSystem Parser SemiLogic SemiTac SemiCommon SemiExpr SemiQuery SemiTable SemiAlter SemiView.
Import ListNotations.
Local Open Scope string_scope.
Local Open Scope nat_scope.

Section Semi.
  Context `{Tails} {f : nat} (Hc : calls f).
  Local Notation safe p := (forall pre m, fines pre -> @at_ _ f pre m _ p).

  Lemma s_curEnd  : safe curEnd.
  Proof. clear - Hc. intros. unfold curEnd. go. Qed.
  Local Hint Resolve s_curEnd : semi.
  Lemma s_commaList p : safe p -> safe (commaList p).
  Proof. clear - Hc. intros. unfold commaList. go. Qed.
  Local Hint Extern 0 (at_ _ _ (commaList _)) => (apply s_commaList; first [assumption | reflexivity | intros; solve [go]]) : semi.
  Lemma s_parseSetStmt (p : pos) : safe (parseSetStmt p).
  Proof. clear - Hc. intros. unfold parseSetStmt. go. Qed.
  Local Hint Resolve s_parseSetStmt : semi.
  Lemma s_parseSettingsStmt (p : pos) : safe (parseSettingsStmt p).
  Proof. clear - Hc. intros. unfold parseSettingsStmt. go. Qed.
  Local Hint Resolve s_parseSettingsStmt : semi.
  Lemma s_parseSystemFlushExpr (p : pos) : safe (parseSystemFlushExpr p).
  Proof. clear - Hc. intros. unfold parseSystemFlushExpr. go. Qed.
  Local Hint Resolve s_parseSystemFlushExpr : semi.
  Lemma s_parseSystemReloadExpr (p : pos) : safe (parseSystemReloadExpr p).
  Proof. clear - Hc. intros. unfold parseSystemReloadExpr. go. Qed.
  Local Hint Resolve s_parseSystemReloadExpr : semi.
  Lemma s_parseSystemSyncExpr (p : pos) : safe (parseSystemSyncExpr p).
  Proof. clear - Hc. intros. unfold parseSystemSyncExpr. go. Qed.
  Local Hint Resolve s_parseSystemSyncExpr : semi.
  Lemma s_parseSystemCtrlExpr (p : pos) : safe (parseSystemCtrlExpr p).
  Proof. clear - Hc. intros. unfold parseSystemCtrlExpr. go. Qed.
  Local Hint Resolve s_parseSystemCtrlExpr : semi.
  Lemma s_parseSystemDropExpr (p : pos) : safe (parseSystemDropExpr p).
  Proof. clear - Hc. intros. unfold parseSystemDropExpr. go. Qed.
  Local Hint Resolve s_parseSystemDropExpr : semi.
  Lemma s_parseSystemStmt (p : pos) : safe (parseSystemStmt p).
  Proof. clear - Hc. intros. unfold parseSystemStmt. go. Qed.
  Local Hint Resolve s_parseSystemStmt : semi.
  Lemma s_parseDeduplicateClause (p : pos) : safe (parseDeduplicateClause p).
  Proof. clear - Hc. intros. unfold parseDeduplicateClause. go. Qed.
  Local Hint Resolve s_parseDeduplicateClause : semi.
  Lemma s_tryParseDeduplicateClause  : safe tryParseDeduplicateClause.
  Proof. clear - Hc. intros. unfold tryParseDeduplicateClause. go. Qed.
  Local Hint Resolve s_tryParseDeduplicateClause : semi.
  Lemma s_parseOptimizeStmt (p : pos) : safe (parseOptimizeStmt p).
  Proof. clear - Hc. intros. unfold parseOptimizeStmt. go. Qed.
  Local Hint Resolve s_parseOptimizeStmt : semi.
  Lemma s_parseCheckStmt (p : pos) : safe (parseCheckStmt p).
  Proof. clear - Hc. intros. unfold parseCheckStmt. go. Qed.
  Local Hint Resolve s_parseCheckStmt : semi.
  Lemma s_parseRoleName  : safe parseRoleName.
  Proof. clear - Hc. intros. unfold parseRoleName. go. Qed.
  Local Hint Resolve s_parseRoleName : semi.
  Lemma s_parseRoleSetting  : safe parseRoleSetting.
  Proof. clear - Hc. intros. unfold parseRoleSetting. go. Qed.
  Local Hint Resolve s_parseRoleSetting : semi.
  Lemma s_parseRoleSettings  : safe parseRoleSettings.
  Proof. clear - Hc. intros. unfold parseRoleSettings. go. Qed.
  Local Hint Resolve s_parseRoleSettings : semi.
  Lemma s_tryParseRoleSettings  : safe tryParseRoleSettings.
  Proof. clear - Hc. intros. unfold tryParseRoleSettings. go. Qed.
  Local Hint Resolve s_tryParseRoleSettings : semi.
  Lemma s_parseCreateModifiers  : safe parseCreateModifiers.
  Proof. clear - Hc. intros. unfold parseCreateModifiers. go. Qed.
  Local Hint Resolve s_parseCreateModifiers : semi.
  Lemma s_parseCreateRole (p : pos) : safe (parseCreateRole p).
  Proof. clear - Hc. intros. unfold parseCreateRole. go. Qed.
  Local Hint Resolve s_parseCreateRole : semi.
  Lemma s_parseAuthenticationClause  : safe parseAuthenticationClause.
  Proof. clear - Hc. intros. unfold parseAuthenticationClause. go. Qed.
  Local Hint Resolve s_parseAuthenticationClause : semi.
  Lemma s_parseHostClause  : safe parseHostClause.
  Proof. clear - Hc. intros. unfold parseHostClause. go. Qed.
  Local Hint Resolve s_parseHostClause : semi.
  Lemma s_parseHostClauses  : safe parseHostClauses.
  Proof. clear - Hc. intros. unfold parseHostClauses. go. Qed.
  Local Hint Resolve s_parseHostClauses : semi.
  Lemma s_parseDefaultRoleClause  : safe parseDefaultRoleClause.
  Proof. clear - Hc. intros. unfold parseDefaultRoleClause. go. Qed.
  Local Hint Resolve s_parseDefaultRoleClause : semi.
  Lemma s_parseGranteesClause  : safe parseGranteesClause.
  Proof. clear - Hc. intros. unfold parseGranteesClause. go. Qed.
  Local Hint Resolve s_parseGranteesClause : semi.
  Lemma s_parseUserNames  : safe parseUserNames.
  Proof. clear - Hc. intros. unfold parseUserNames. go. Qed.
  Local Hint Resolve s_parseUserNames : semi.
  Lemma s_parseDefaultClause (u : user_acc) : forall pre m, fines pre -> nosemi (cur pre) -> @at_ _ f pre m _ (parseDefaultClause u).
  Proof. clear - Hc. intros. unfold parseDefaultClause. go. Qed.
  Local Hint Resolve s_parseDefaultClause : semi.
  Lemma s_parseOptionalClauses (u : user_acc) : safe (parseOptionalClauses u).
  Proof. clear - Hc. intros. unfold parseOptionalClauses. go. Qed.
  Local Hint Resolve s_parseOptionalClauses : semi.
  Lemma s_parseCreateUser (p : pos) : safe (parseCreateUser p).
  Proof. clear - Hc. intros. unfold parseCreateUser. go. Qed.
  Local Hint Resolve s_parseCreateUser : semi.
  Lemma s_parserDropUserOrRole (p : pos) : safe (parserDropUserOrRole p).
  Proof. clear - Hc. intros. unfold parserDropUserOrRole. go. Qed.
  Local Hint Resolve s_parserDropUserOrRole : semi.
  Lemma s_privilege (p : pos) (keywords : list string) : safe (privilege p keywords).
  Proof. clear - Hc. intros. unfold privilege. go. Qed.
  Local Hint Resolve s_privilege : semi.
  Lemma s_parsePrivilegeSelectOrInsert (p : pos) : forall pre m, fines pre -> nosemi (cur pre) -> @at_ _ f pre m _ (parsePrivilegeSelectOrInsert p).
  Proof. clear - Hc. intros. unfold parsePrivilegeSelectOrInsert. go. Qed.
  Local Hint Resolve s_parsePrivilegeSelectOrInsert : semi.
  Lemma s_parsePrivilegeAlter (p : pos) : safe (parsePrivilegeAlter p).
  Proof. clear - Hc. intros. unfold parsePrivilegeAlter. go. Qed.
  Local Hint Resolve s_parsePrivilegeAlter : semi.
  Lemma s_parsePrivilegeCreate (p : pos) : safe (parsePrivilegeCreate p).
  Proof. clear - Hc. intros. unfold parsePrivilegeCreate. go. Qed.
  Local Hint Resolve s_parsePrivilegeCreate : semi.
  Lemma s_parsePrivilegeDrop (p : pos) : safe (parsePrivilegeDrop p).
  Proof. clear - Hc. intros. unfold parsePrivilegeDrop. go. Qed.
  Local Hint Resolve s_parsePrivilegeDrop : semi.
  Lemma s_parsePrivilegeShow (p : pos) : safe (parsePrivilegeShow p).
  Proof. clear - Hc. intros. unfold parsePrivilegeShow. go. Qed.
  Local Hint Resolve s_parsePrivilegeShow : semi.
  Lemma s_parsePrivilegeSystem (p : pos) : safe (parsePrivilegeSystem p).
  Proof. clear - Hc. intros. unfold parsePrivilegeSystem. go. Qed.
  Local Hint Resolve s_parsePrivilegeSystem : semi.
  Lemma s_parsePrivilegeClause  : safe parsePrivilegeClause.
  Proof. clear - Hc. intros. unfold parsePrivilegeClause. go. Qed.
  Local Hint Resolve s_parsePrivilegeClause : semi.
  Lemma s_parsePrivilegeRoles  : safe parsePrivilegeRoles.
  Proof. clear - Hc. intros. unfold parsePrivilegeRoles. go. Qed.
  Local Hint Resolve s_parsePrivilegeRoles : semi.
  Lemma s_parseGrantOption  : safe parseGrantOption.
  Proof. clear - Hc. intros. unfold parseGrantOption. go. Qed.
  Local Hint Resolve s_parseGrantOption : semi.
  Lemma s_parseGrantOptions  : safe parseGrantOptions.
  Proof. clear - Hc. intros. unfold parseGrantOptions. go. Qed.
  Local Hint Resolve s_parseGrantOptions : semi.
  Lemma s_parseGrantSource  : safe parseGrantSource.
  Proof. clear - Hc. intros. unfold parseGrantSource. go. Qed.
  Local Hint Resolve s_parseGrantSource : semi.
  Lemma s_parseGrantPrivilegeStmt (p : pos) : safe (parseGrantPrivilegeStmt p).
  Proof. clear - Hc. intros. unfold parseGrantPrivilegeStmt. go. Qed.
  Local Hint Resolve s_parseGrantPrivilegeStmt : semi.
  Lemma s_parseRoleRenamePair  : safe parseRoleRenamePair.
  Proof. clear - Hc. intros. unfold parseRoleRenamePair. go. Qed.
  Local Hint Resolve s_parseRoleRenamePair : semi.
  Lemma s_parseAlterRole (p : pos) : safe (parseAlterRole p).
  Proof. clear - Hc. intros. unfold parseAlterRole. go. Qed.
  Local Hint Resolve s_parseAlterRole : semi.
End Semi.
Global Hint Resolve s_curEnd s_parseSetStmt s_parseSettingsStmt s_parseSystemFlushExpr s_parseSystemReloadExpr s_parseSystemSyncExpr s_parseSystemCtrlExpr s_parseSystemDropExpr s_parseSystemStmt s_parseDeduplicateClause s_tryParseDeduplicateClause s_parseOptimizeStmt s_parseCheckStmt s_parseRoleName s_parseRoleSetting s_parseRoleSettings s_tryParseRoleSettings s_parseCreateModifiers s_parseCreateRole s_parseAuthenticationClause s_parseHostClause s_parseHostClauses s_parseDefaultRoleClause s_parseGranteesClause s_parseUserNames s_parseDefaultClause s_parseOptionalClauses s_parseCreateUser s_parserDropUserOrRole s_privilege s_parsePrivilegeSelectOrInsert s_parsePrivilegeAlter s_parsePrivilegeCreate s_parsePrivilegeDrop s_parsePrivilegeShow s_parsePrivilegeSystem s_parsePrivilegeClause s_parsePrivilegeRoles s_parseGrantOption s_parseGrantOptions s_parseGrantSource s_parseGrantPrivilegeStmt s_parseRoleRenamePair s_parseAlterRole : semi.
Global Hint Extern 0 (at_ _ _ (commaList _)) => (apply s_commaList; first [assumption | reflexivity | intros; solve [go]]) : semi.
