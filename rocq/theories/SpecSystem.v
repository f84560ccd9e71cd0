(** Specifications of the functions of ParserSystem.v. *)
From Coq Require Import String List Arith Bool Lia ZArith.
From Verif Require Import Str Keyword Lexer Ast AstPos AstSubs PrecSpec SpanSpec Prog Items ItemsFacts RunFacts
  ParserCommon ParserExpr ParserQuery ParserTable ParserAlter ParserView ParserSystem Parser Hoare Spec SpecTac SpecCommon SpecTypes SpecArgs SpecOperand SpecPrec SpecQuery SpecTable SpecDict SpecAlter SpecView.
Import ListNotations.
Local Open Scope string_scope.
Local Open Scope nat_scope.

Section Systems.
  Context `{Calls}.

  Lemma curEnd_ok : spec 0 curEnd (fun _ => false) pok.
  Proof. unfold curEnd. intros s Hw _. apply wp_Cur. destruct (it_tok (here s)) eqn:E; [apply wp_Ret; repeat split; [exact Hw | lia | discriminate | pokt] | apply wp_Panic; panict]. Qed.
  Hint Resolve curEnd_ok : spec.
  Lemma parseSetStmt_ok p : pok p -> spec 0 (parseSetStmt p) (fun _ => true) nn.
  Proof. intros ?. unfold parseSetStmt. unfold ifKw, whenKw, commaList, privilege; go. Qed.
  Hint Resolve parseSetStmt_ok : spec.
  Lemma parseSettingsStmt_ok p : pok p -> spec 0 (parseSettingsStmt p) (fun _ => true) nn.
  Proof. intros ?. unfold parseSettingsStmt. unfold ifKw, whenKw, commaList, privilege; go. Qed.
  Hint Resolve parseSettingsStmt_ok : spec.
  Lemma parseSystemFlushExpr_ok p : pok p -> spec 0 (parseSystemFlushExpr p) (fun _ => true) nn.
  Proof. intros ?. unfold parseSystemFlushExpr. unfold ifKw, whenKw, commaList, privilege; go. Qed.
  Hint Resolve parseSystemFlushExpr_ok : spec.
  Lemma parseSystemReloadExpr_ok p : pok p -> spec 0 (parseSystemReloadExpr p) (fun _ => true) nn.
  Proof. intros ?. unfold parseSystemReloadExpr. unfold ifKw. stp. stp. stp.
    apply (cut_strict _ _ _ _ _ _ (fun x => pok (snd (fst x)))); [go | cbv beta; intros ? ? ? ? ?; clean].
    repeat (lazymatch goal with |- wp (bind (if _ then _ else _) _) _ _ => fail | |- _ => stp end).
    apply (cut_weak _ _ _ _ _ _ (fun x => mb (fst (fst x)) /\ mb (snd (fst x)) /\ pok (snd x))); [go | cbv beta; intros ? ? ? ? ?; clean].
    go. Qed.
  Hint Resolve parseSystemReloadExpr_ok : spec.
  Lemma parseSystemSyncExpr_ok p : pok p -> spec 0 (parseSystemSyncExpr p) (fun _ => true) nn.
  Proof. intros ?. unfold parseSystemSyncExpr. unfold ifKw, whenKw, commaList, privilege; go. Qed.
  Hint Resolve parseSystemSyncExpr_ok : spec.
  Lemma parseSystemCtrlExpr_ok p : pok p -> spec 0 (parseSystemCtrlExpr p) (fun _ => true) nn.
  Proof. intros ?. unfold parseSystemCtrlExpr. unfold ifKw. stp. stp.
    destruct (kw (here s) "START") eqn:K1; [|destruct (kw (here s) "STOP") eqn:K2]; cbn [negb andb]; go. Qed.
  Hint Resolve parseSystemCtrlExpr_ok : spec.
  Lemma parseSystemDropExpr_ok p : pok p -> spec 0 (parseSystemDropExpr p) (fun _ => true) nn.
  Proof. intros ?. unfold parseSystemDropExpr. unfold ifKw, whenKw, commaList, privilege; go. Qed.
  Hint Resolve parseSystemDropExpr_ok : spec.
  Lemma parseSystemStmt_ok p : pok p -> spec 0 (parseSystemStmt p) (fun _ => true) nn.
  Proof. intros ?. unfold parseSystemStmt. unfold ifKw, whenKw, commaList, privilege; go. Qed.
  Hint Resolve parseSystemStmt_ok : spec.
  Lemma parseDeduplicateClause_ok p : pok p -> pok (PPlus p 11) -> spec 0 (parseDeduplicateClause p) (fun _ => true) nn.
  Proof. intros ? ?. unfold parseDeduplicateClause. unfold ifKw, whenKw, commaList, privilege; go. Qed.
  Hint Resolve parseDeduplicateClause_ok : spec.
  Lemma tryParseDeduplicateClause_ok : spec 0 tryParseDeduplicateClause (fun e => negb (is_nil e)) mb.
  Proof. unfold tryParseDeduplicateClause. unfold ifKw, whenKw, commaList, privilege; go. Qed.
  Hint Resolve tryParseDeduplicateClause_ok : spec.
  Lemma parseOptimizeStmt_ok p : pok p -> spec 0 (parseOptimizeStmt p) (fun _ => true) nn.
  Proof. intros ?. unfold parseOptimizeStmt. unfold ifKw, whenKw, commaList, privilege; go. Qed.
  Hint Resolve parseOptimizeStmt_ok : spec.
  Lemma parseCheckStmt_ok p : pok p -> spec 0 (parseCheckStmt p) (fun _ => true) gd.
  Proof. intros ?. unfold parseCheckStmt. unfold tryParsePartitionClause, whenKw.
    repeat (lazymatch goal with |- wp (bind (if kw _ "PARTITION" then _ else _) _) _ _ => fail | |- _ => stp end).
    apply (cut_weak _ _ _ _ _ _ (fun a => a = ENil \/ ispart a)).
    - stp; [|go]. eapply use_tail; [apply parsePartitionClause_part; val | assumption | lia | cbv beta; intros; auto].
    - cbv beta. intros a s1 ? ? [-> | Ha]; [go|]. pose proof (ispart_gd _ Ha). destruct Ha as [? | (q & ? & ->)]; go. Qed.
  Hint Resolve parseCheckStmt_ok : spec.
End Systems.
#[export] Hint Resolve curEnd_ok parseSetStmt_ok parseSettingsStmt_ok parseSystemFlushExpr_ok parseSystemReloadExpr_ok parseSystemSyncExpr_ok parseSystemCtrlExpr_ok parseSystemDropExpr_ok parseSystemStmt_ok parseDeduplicateClause_ok tryParseDeduplicateClause_ok parseOptimizeStmt_ok parseCheckStmt_ok : spec.
Section Roles.
  Context `{Calls}.

  Lemma parseRoleName_ok : spec 0 parseRoleName (fun _ => true) nn.
  Proof. unfold parseRoleName. unfold ifKw, whenKw, commaList, privilege; go. Qed.
  Hint Resolve parseRoleName_ok : spec.
  Definition ispair (e : expr) : Prop := exists n op v, e = ESettingPair n op v /\ isid n /\ mb v.
  Lemma ispair_gd e : ispair e -> gd e.
  Proof.
    intros (n & op & v & -> & Hn & Hv). clean. split; [|reflexivity]. apply mk_good; [constructor | exact I | | kindt | gapt | fillt | cbn [subs]; goods].
    intros Hw. destruct Hv as [-> | Hv]; [discriminate Hw|]. split; [discriminate | exact (nn_end v Hv)].
  Qed.
  Lemma ispair_pos e : ispair e -> pos_of e <> None.
  Proof. intros (n & op & v & -> & Hn & Hv). clean. discriminate. Qed.
  Lemma last_ispair l : Forall ispair l -> l <> [] -> ispair (last l ENil).
  Proof.
    induction l as [|a l IH]; intros Hl Hn; [congruence|]. inversion Hl as [|? ? Ha Hl']; subst.
    destruct l as [|b l]; [exact Ha|]. apply IH; [assumption | discriminate].
  Qed.
  Lemma last_map_end l : last (map end_of l) None = end_of (last l ENil).
  Proof. induction l as [|a [|b l] IH]; [reflexivity | reflexivity | exact IH]. Qed.
  Lemma roleSetting_gd l m : Forall ispair l -> (m = ENil \/ isid m) -> gd (ERoleSetting l m).
  Proof.
    intros Hl Hm. pose proof (Forall_impl gd ispair_gd Hl). split; [|reflexivity]. pose proof (mb_isid _ Hm).
    apply mk_good; [constructor | exact I | | kindt | gapt | fillt | cbn [subs]; goods].
    intros Hw. split.
    - cbn [pos_of]. destruct l as [|a l]; [|inversion Hl; subst; now apply ispair_pos].
      destruct Hm as [-> | Hm]; [discriminate Hw | clean; discriminate].
    - cbn [end_of]. destruct Hm as [-> | Hm]; [|clean; discriminate]. cbn [is_nil negb]. rewrite last_map_end.
      cbn [wants] in Hw. destruct l as [|a l]; [discriminate Hw|].
      pose proof (last_ispair (a :: l) Hl ltac:(discriminate)) as Hi. destruct Hi as (n & op & v & E & Hn & Hv). rewrite E in *.
      cbn [end_of]. destruct Hv as [-> | Hv]; [discriminate Hw | exact (nn_end v Hv)].
  Qed.
  Lemma parseRoleSetting_ok : spec 1 parseRoleSetting (fun _ => false) gd.
  Proof. unfold parseRoleSetting. intros s Hw Hl.
    apply (tail_loop _ _ _ _ _ _ (Forall ispair) gd); [assumption | val | lia | | intros; val]; cbv beta.
    intros l s0 Hw0 Hl0 Hp. steps; leaf; first [apply roleSetting_gd; val | apply Forall_snoc'; [assumption | eexists _, _, _; split; [reflexivity | split; val]]]. Qed.
  Hint Resolve parseRoleSetting_ok : spec.
  Lemma parseRoleSettings_ok : spec 2 parseRoleSettings (fun _ => false) (Forall gd).
  Proof. unfold parseRoleSettings. unfold ifKw, whenKw, commaList, privilege; go. Qed.
  Hint Resolve parseRoleSettings_ok : spec.
  Lemma tryParseRoleSettings_ok : spec 0 tryParseRoleSettings (fun _ => false) (Forall gd).
  Proof. unfold tryParseRoleSettings. unfold ifKw, whenKw, commaList, privilege; go. Qed.
  Hint Resolve tryParseRoleSettings_ok : spec.
  Lemma bind_lastEnd_good B d l (f : pos -> prog B) s Q : pok d -> Forall good l -> (forall p, pok p -> wp (f p) s Q) -> wp (bind (lastEnd d l) f) s Q.
  Proof.
    intros Hd Hl Hf. unfold lastEnd. destruct l as [|a l]; [now apply bind_Ret, Hf|].
    apply bind_endOf_good; [|exact Hf]. now apply last_good.
  Qed.
  Lemma parseCreateModifiers_ok : spec 0 parseCreateModifiers (fun _ => false) (fun _ => True).
  Proof. unfold parseCreateModifiers. unfold ifKw, whenKw, commaList, privilege; go. Qed.
  Hint Resolve parseCreateModifiers_ok : spec.
  Lemma parseCreateRole_ok p : pok p -> spec 0 (parseCreateRole p) (fun _ => true) nn.
  Proof. intros ?. unfold parseCreateRole. unfold ifKw, commaList; go. apply bind_lastEnd_good; [pokt | goods | intros ? ?; cbv beta]. go. Qed.
  Hint Resolve parseCreateRole_ok : spec.
  Lemma parseAuthenticationClause_ok : spec 0 parseAuthenticationClause (fun _ => true) nn.
  Proof. unfold parseAuthenticationClause. unfold ifKw, whenKw, commaList, privilege; go. Qed.
  Hint Resolve parseAuthenticationClause_ok : spec.
  Lemma parseHostClause_ok : spec 0 parseHostClause (fun _ => true) nn.
  Proof. unfold parseHostClause. unfold ifKw, whenKw, commaList, privilege; go. Qed.
  Hint Resolve parseHostClause_ok : spec.
  Lemma parseHostClauses_ok : spec 0 parseHostClauses (fun _ => true) (fun l => Forall nn l /\ l <> []).
  Proof. unfold parseHostClauses. unfold ifKw, whenKw, commaList, privilege; go. Qed.
  Hint Resolve parseHostClauses_ok : spec.
  Lemma parseDefaultRoleClause_ok : spec 0 parseDefaultRoleClause (fun _ => true) nn.
  Proof. unfold parseDefaultRoleClause. unfold ifKw, whenKw, commaList, privilege; go. Qed.
  Hint Resolve parseDefaultRoleClause_ok : spec.
  Lemma parseGranteesClause_ok : spec 0 parseGranteesClause (fun _ => true) nn.
  Proof. unfold parseGranteesClause. unfold ifKw, commaList.
    repeat (lazymatch goal with |- wp (bind (bind (tryKw "ANY") _) _) _ _ => fail | |- _ => stp end).
    apply (cut_weak _ _ _ _ _ _ (fun x => Forall nn (snd (fst x)) /\ pok (snd x))); [go | cbv beta; intros ? ? ? ? ?; clean].
    repeat (lazymatch goal with |- wp (bind (bind (tryKw "EXCEPT") _) _) _ _ => fail | |- _ => stp end).
    apply (cut_weak _ _ _ _ _ _ (fun x => Forall nn (fst x) /\ pok (snd x))); [go | cbv beta; intros ? ? ? ? ?; clean].
    go. Qed.
  Hint Resolve parseGranteesClause_ok : spec.
  Lemma parseUserNames_ok : spec 0 parseUserNames (fun _ => true) (fun l => Forall nn l /\ l <> []).
  Proof. unfold parseUserNames. unfold ifKw, whenKw, commaList, privilege; go. Qed.
  Hint Resolve parseUserNames_ok : spec.
End Roles.
#[export] Hint Resolve parseRoleName_ok parseRoleSetting_ok parseRoleSettings_ok tryParseRoleSettings_ok parseCreateModifiers_ok parseCreateRole_ok parseAuthenticationClause_ok parseHostClause_ok parseHostClauses_ok parseDefaultRoleClause_ok parseGranteesClause_ok parseUserNames_ok : spec.
Section Users.
  Context `{Calls}.

  Definition okuser (u : user_acc) : Prop :=
    pok (u_end u) /\ mb (u_auth u) /\ Forall nn (u_hosts u) /\ mb (u_defaultRole u) /\ mb (u_defaultDb u) /\
    mb (u_grantees u) /\ mb (u_valid u) /\ Forall gd (u_settings u).
  Lemma okuser_mk a b c d e f g h i : pok a -> mb b -> Forall nn c -> mb d -> mb e -> mb g -> mb h -> Forall gd i ->
    okuser (mkUser a b c d e f g h i).
  Proof. unfold okuser. cbn. tauto. Qed.
  Lemma parseOptionalClauses_ok u : okuser u -> spec 1 (parseOptionalClauses u) (fun _ => false) okuser.
  Proof.
    intros Hu s Hw Hl. unfold parseOptionalClauses.
    apply (tail_loop _ _ _ _ _ _ okuser okuser); [assumption | assumption | lia | | intros; val]; cbv beta.
    intros v s0 ? ? (? & ? & ? & ? & ? & ? & ? & ?). unfold parseDefaultClause, ifKw. steps;
    try (apply bind_lastEnd_good; [pokt | goods | intros ? ?; cbv beta]);
    (apply wp_Ret; cbv beta iota; split; [assumption | split; [lia | first [apply okuser_mk; val | repeat split; assumption]]]).
  Qed.
  Lemma parseCreateUser_ok p : pok p -> spec 0 (parseCreateUser p) (fun _ => true) nn.
  Proof. intros ?. unfold parseCreateUser. repeat (lazymatch goal with |- wp (bind (parseOptionalClauses _) _) _ _ => fail | |- _ => stp end).
    eapply use_spec; [apply parseOptionalClauses_ok; apply okuser_mk; val | assumption | lia | cbv beta; intros u ? ? ? ? (? & ? & ? & ? & ? & ? & ? & ?); go]. Qed.
  Hint Resolve parseCreateUser_ok : spec.
  Lemma parserDropUserOrRole_ok p : pok p -> spec 0 (parserDropUserOrRole p) (fun _ => true) nn.
  Proof. intros ?. unfold parserDropUserOrRole. unfold ifKw, whenKw, commaList, privilege; go. Qed.
  Hint Resolve parserDropUserOrRole_ok : spec.
  Lemma parsePrivilegeAlter_ok p : pok p -> spec 0 (parsePrivilegeAlter p) (fun _ => false) nn.
  Proof. intros ?. unfold parsePrivilegeAlter. unfold ifKw, whenKw, commaList, privilege; go. Qed.
  Hint Resolve parsePrivilegeAlter_ok : spec.
  Lemma parsePrivilegeCreate_ok p : pok p -> spec 0 (parsePrivilegeCreate p) (fun _ => false) nn.
  Proof. intros ?. unfold parsePrivilegeCreate. unfold ifKw, whenKw, commaList, privilege; go. Qed.
  Hint Resolve parsePrivilegeCreate_ok : spec.
  Lemma parsePrivilegeDrop_ok p : pok p -> spec 0 (parsePrivilegeDrop p) (fun _ => false) nn.
  Proof. intros ?. unfold parsePrivilegeDrop. unfold ifKw, whenKw, commaList, privilege; go. Qed.
  Hint Resolve parsePrivilegeDrop_ok : spec.
  Lemma parsePrivilegeShow_ok p : pok p -> spec 0 (parsePrivilegeShow p) (fun _ => false) nn.
  Proof. intros ?. unfold parsePrivilegeShow. unfold ifKw, whenKw, commaList, privilege; go. Qed.
  Hint Resolve parsePrivilegeShow_ok : spec.
  Lemma parsePrivilegeSystem_ok p : pok p -> spec 0 (parsePrivilegeSystem p) (fun _ => false) nn.
  Proof. intros ?. unfold parsePrivilegeSystem. unfold ifKw, whenKw, commaList, privilege; go. Qed.
  Hint Resolve parsePrivilegeSystem_ok : spec.
  Lemma parsePrivilegeClause_ok : spec 0 parsePrivilegeClause (fun _ => false) nn.
  Proof. unfold parsePrivilegeClause. unfold parsePrivilegeSelectOrInsert, ifKw, privilege. go. Qed.
  Hint Resolve parsePrivilegeClause_ok : spec.
  Lemma parsePrivilegeRoles_ok : spec 0 parsePrivilegeRoles (fun _ => false) (fun l => Forall isid l /\ l <> []).
  Proof. unfold parsePrivilegeRoles. unfold ifKw, whenKw, commaList, privilege; go. Qed.
  Hint Resolve parsePrivilegeRoles_ok : spec.
  Lemma parseGrantOption_ok : spec 0 parseGrantOption (fun _ => true) (fun _ => True).
  Proof. unfold parseGrantOption. unfold ifKw, whenKw, commaList, privilege; go. Qed.
  Hint Resolve parseGrantOption_ok : spec.
  Lemma parseGrantOptions_ok : spec 1 parseGrantOptions (fun _ => false) (fun _ => True).
  Proof. unfold parseGrantOptions. intros s Hw Hl.
    apply (tail_loop _ _ _ _ _ _ (fun _ => True) (fun _ => True)); [assumption | exact I | lia | | intros; val]; cbv beta.
    intros l s0 ? ? _. go. Qed.
  Hint Resolve parseGrantOptions_ok : spec.
  Lemma parseGrantSource_ok : spec 0 parseGrantSource (fun _ => false) nn.
  Proof. unfold parseGrantSource. unfold ifKw, whenKw, commaList, privilege; go. Qed.
  Hint Resolve parseGrantSource_ok : spec.
  Lemma parseGrantPrivilegeStmt_ok p : pok p -> spec 0 (parseGrantPrivilegeStmt p) (fun _ => true) nn.
  Proof. intros ?. unfold parseGrantPrivilegeStmt. unfold commaList. go.
    match goal with Hf : Forall isid ?a |- _ => assert (Forall nn a) by (eapply Forall_impl; [|exact Hf]; cbv beta; intros; clean; nnt) end.
    go. Qed.
  Hint Resolve parseGrantPrivilegeStmt_ok : spec.
  Lemma parseRoleRenamePair_ok : spec 0 parseRoleRenamePair (fun _ => true) nn.
  Proof. unfold parseRoleRenamePair. unfold ifKw, whenKw, commaList, privilege; go. Qed.
  Hint Resolve parseRoleRenamePair_ok : spec.
  Lemma parseAlterRole_ok p : pok p -> spec 0 (parseAlterRole p) (fun _ => true) nn.
  Proof. intros ?. unfold parseAlterRole. unfold ifKw, commaList; go. apply bind_lastEnd_good; [pokt | goods | intros ? ?; cbv beta]. go. Qed.
  Hint Resolve parseAlterRole_ok : spec.
End Users.
#[export] Hint Resolve parseCreateUser_ok parserDropUserOrRole_ok parsePrivilegeAlter_ok parsePrivilegeCreate_ok parsePrivilegeDrop_ok parsePrivilegeShow_ok parsePrivilegeSystem_ok parsePrivilegeClause_ok parsePrivilegeRoles_ok parseGrantOption_ok parseGrantOptions_ok parseGrantSource_ok parseGrantPrivilegeStmt_ok parseRoleRenamePair_ok parseAlterRole_ok : spec.
Section Statements.
  Context `{Calls}.

  (** A statement of the parser is a node. *)
  Definition stm (e : expr) : Prop := gd e.
  Lemma nn_stm e : nn e -> stm e.
  Proof. exact (nn_gd e). Qed.
  Lemma kws_app it a b : kws it (a ++ b)%list = kws it a || kws it b.
  Proof. unfold kws. apply existsb_app. Qed.
  Lemma kws_cons it a b : kws it (a :: b) = kw it a || kws it b.
  Proof. reflexivity. Qed.
  Lemma stmt_nn p s : wfs s -> spec 3 p (fun _ => true) nn -> 10 * len s + 3 <= fl ->
    wp p s (fun e s' => wfs s' /\ len s' <= len s /\ (true = true -> len s' < len s) /\ stm e).
  Proof. intros Hw Hp Hl. eapply wp_conseq; [apply Hp; assumption|]. cbv beta. intros e s' (? & ? & ? & ?). auto using nn_stm. Qed.
  Ltac st := apply stmt_nn; [assumption | eapply spec_conseq; [solve [eauto 3 with spec nocore] | lia | auto | solve [auto using na_nn]] | lia].
  Lemma parseDDL_ok p s : pok p -> kws (here s) ["CREATE"; "ATTACH"; "ALTER"; "DROP"; "DETACH"; "TRUNCATE"; "RENAME"] = true ->
    wfs s -> 10 * len s + 3 <= fl -> wp (parseDDL p) s (fun e s' => wfs s' /\ len s' <= len s /\ (true = true -> len s' < len s) /\ nn e).
  Proof.
    intros Hp Hk Hw Hl. unfold parseDDL. go. exfalso.
    repeat match goal with E : kws _ (_ :: _) = false |- _ => rewrite kws_cons in E; apply orb_false_elim in E; destruct E end.
    rewrite !kws_cons in Hk. change (kws (here s) []) with false in Hk.
    repeat match goal with E : kw _ _ = false |- _ => rewrite E in Hk; clear E end. discriminate Hk.
  Qed.
  Lemma parseStmtBody_ok : spec 3 parseStmtBody (fun _ => true) stm.
  Proof. unfold parseStmtBody. stp. stp. stp.
    { eapply wp_conseq; [apply parseDDL_ok; [val | assumption | assumption | lia]|]. cbv beta. intros e s' (? & ? & ? & ?). auto using nn_stm. }
    repeat (stp; [first [st | eapply use_tail; [apply parseCheckStmt_ok; val | assumption | lia | cbv beta; intros; auto]]|]). all: go. Qed.
  Hint Resolve parseStmtBody_ok : spec.
  Lemma parseStmt_ok : spec 3 parseStmt (fun _ => true) stm.
  Proof. unfold parseStmt. unfold ifKw, whenKw, commaList, privilege; go. Qed.
  Hint Resolve parseStmt_ok : spec.
End Statements.
#[export] Hint Resolve parseStmtBody_ok parseStmt_ok : spec.
