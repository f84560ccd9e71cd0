(** Specifications of the dictionary and other statement functions of ParserTable.v. *)
From Coq Require Import String List Arith Bool Lia ZArith.
From Verif Require Import Str Keyword Lexer Ast AstPos AstSubs PrecSpec SpanSpec Prog Items ItemsFacts RunFacts
  ParserCommon ParserExpr ParserQuery ParserTable ParserAlter ParserView ParserSystem Parser Hoare Spec SpecTac SpecCommon SpecTypes SpecArgs SpecOperand SpecPrec SpecQuery SpecTable.
Import ListNotations.
Local Open Scope string_scope.
Local Open Scope nat_scope.

Section Dictionaries.
  Context `{Calls}.

  Definition okattr (a : attr_acc) : Prop := mb (d_default a) /\ mb (d_expression a) /\ pok (d_end a).
  Lemma okattr_mk a b h i o p : mb a -> mb b -> pok p -> okattr (mkAttr a b h i o p).
  Proof. unfold okattr. cbn. tauto. Qed.
  Definition okdict (k : dict_acc) : Prop := mb (k_source k) /\ mb (k_lifetime k) /\ mb (k_layout k) /\ mb (k_range k) /\ mb (k_settings k).
  Lemma okdict_mk a b c d e : mb a -> mb b -> mb c -> mb d -> mb e -> okdict (mkDict a b c d e).
  Proof. unfold okdict. cbn. tauto. Qed.
  Lemma parseDictionaryAttribute_ok : spec 0 parseDictionaryAttribute (fun _ => true) nn.
  Proof. unfold parseDictionaryAttribute. unfold ifKw.
    repeat (lazymatch goal with |- wp (bind (loop _ _) _) _ _ => fail | |- _ => stp end).
    apply (bind_loop _ _ _ _ _ _ _ _ okattr okattr); [assumption | apply okattr_mk; val | lia | |]; cbv beta.
    - intros g s0 ? ? (? & ? & ?). steps; (apply wp_Ret; cbv beta iota; split; [assumption | split; [lia | first [apply okattr_mk; val | repeat split; assumption]]]).
    - intros g s0 ? ? (? & ? & ?). go. Qed.
  Hint Resolve parseDictionaryAttribute_ok : spec.
  Lemma parseDictionarySchemaClause_ok : spec 0 parseDictionarySchemaClause (fun _ => true) nn.
  Proof. unfold parseDictionarySchemaClause. go. Qed.
  Hint Resolve parseDictionarySchemaClause_ok : spec.
  Lemma parseDictionaryPrimaryKeyClause_ok : spec 0 parseDictionaryPrimaryKeyClause (fun _ => true) nn.
  Proof. unfold parseDictionaryPrimaryKeyClause. go. Qed.
  Hint Resolve parseDictionaryPrimaryKeyClause_ok : spec.
  Lemma parseDictionaryArgExprs_ok : spec 9 parseDictionaryArgExprs (fun _ => false) (Forall gd).
  Proof. unfold parseDictionaryArgExprs. go. Qed.
  Hint Resolve parseDictionaryArgExprs_ok : spec.
  Lemma body_DictArg_ok p : pok p -> spec 8 (body_DictArg p) (fun _ => true) gd.
  Proof. intros ?. unfold body_DictArg. 
    repeat (lazymatch goal with |- wp (bind (if _ || tk _ KFloat then _ else _) _) _ _ => fail | |- _ => stp end).
    assert (Hf : forall i, isid i -> good (EFunctionExpr i ENil)).
    { intros. clean. apply mk_good; [repeat constructor | exact I | discriminate | kindt | reflexivity | fillt | cbn [subs]; goods]. }
    apply (cut_weak _ _ _ _ _ _ (fun a => nn a \/ exists i, isid i /\ a = EFunctionExpr i ENil)); cbv beta.
    - go. apply wp_Ret. split; [assumption | split; [lia | right]]. exists (EIdent x3 x4 x5 x6). split; [val | reflexivity].
    - intros a s1 ? ? [? | (i & Hi & ->)]; [go|]. specialize (Hf i Hi). destruct Hi as (n & qt & p1 & p2 & -> & ? & ?). apply wp_Ret.
      split; [assumption | split; [lia | split; [lia|]]]. split; [|reflexivity]. apply mk_good; [cbn; repeat constructor; assumption | exact I | discriminate | kindt | gapt | fillt | cbn [subs]; goods; assumption]. Qed.
  Hint Resolve body_DictArg_ok : spec.
  Lemma parseDictionarySourceClause_ok : spec 0 parseDictionarySourceClause (fun _ => true) nn.
  Proof. unfold parseDictionarySourceClause. go. Qed.
  Hint Resolve parseDictionarySourceClause_ok : spec.
  Lemma parseDictionaryLifetimeClause_ok : spec 0 parseDictionaryLifetimeClause (fun _ => true) nn.
  Proof. unfold parseDictionaryLifetimeClause. 
    repeat (lazymatch goal with |- wp (bind (if kws _ _ then _ else _) _) _ _ => fail | |- _ => stp end).
    apply (cut_weak _ _ _ _ _ _ (fun x => mb (fst (fst x)) /\ mb (snd (fst x)) /\ mb (snd x))); [|cbv beta; intros ? ? ? ? ?; clean; go].
    destruct (kw (here s'0) "MIN"); go. Qed.
  Hint Resolve parseDictionaryLifetimeClause_ok : spec.
  Lemma parseDictionaryLayoutClause_ok : spec 0 parseDictionaryLayoutClause (fun _ => true) nn.
  Proof. unfold parseDictionaryLayoutClause. go. Qed.
  Hint Resolve parseDictionaryLayoutClause_ok : spec.
  Lemma parseDictionaryRangeClause_ok : spec 0 parseDictionaryRangeClause (fun _ => true) nn.
  Proof. unfold parseDictionaryRangeClause. 
    repeat (lazymatch goal with |- wp (bind (if kw _ _ then _ else _) _) _ _ => fail | |- _ => stp end).
    apply (cut_weak _ _ _ _ _ _ (fun x => isid (fst x) /\ isid (snd x))); [go|cbv beta; intros ? ? ? ? ?; clean; go]. Qed.
  Hint Resolve parseDictionaryRangeClause_ok : spec.
  Lemma parseDictionarySettingsClause_ok : spec 0 parseDictionarySettingsClause (fun _ => true) nn.
  Proof. unfold parseDictionarySettingsClause. go. Qed.
  Hint Resolve parseDictionarySettingsClause_ok : spec.
  Lemma parseDictionaryEngineClause_ok : spec 1 parseDictionaryEngineClause (fun _ => false) nn.
  Proof. unfold parseDictionaryEngineClause. 
    repeat (lazymatch goal with |- wp (bind (loop _ _) _) _ _ => fail | |- _ => stp end).
    apply (bind_loop _ _ _ _ _ _ _ _ okdict okdict); [assumption | apply okdict_mk; val | lia | |]; cbv beta.
    - intros g s0 ? ? (? & ? & ? & ? & ?). steps; (apply wp_Ret; cbv beta iota; split; [assumption | split; [lia | first [apply okdict_mk; val | repeat split; assumption]]]).
    - intros g s0 ? ? (? & ? & ? & ? & ?). go. Qed.
  Hint Resolve parseDictionaryEngineClause_ok : spec.
  Lemma parseCreateDictionary_ok p b : pok p -> spec 0 (parseCreateDictionary p b) (fun _ => true) nn.
  Proof. intros ?. unfold parseCreateDictionary. go. Qed.
  Hint Resolve parseCreateDictionary_ok : spec.
End Dictionaries.
#[export] Hint Resolve parseDictionaryAttribute_ok parseDictionarySchemaClause_ok parseDictionaryPrimaryKeyClause_ok parseDictionaryArgExprs_ok body_DictArg_ok parseDictionarySourceClause_ok parseDictionaryLifetimeClause_ok parseDictionaryLayoutClause_ok parseDictionaryRangeClause_ok parseDictionarySettingsClause_ok parseDictionaryEngineClause_ok parseCreateDictionary_ok : spec.
Section Others.
  Context `{Calls}.

  Lemma parseUseStmt_ok p : pok p -> spec 0 (parseUseStmt p) (fun _ => true) nn.
  Proof. intros ?. unfold parseUseStmt. go. Qed.
  Hint Resolve parseUseStmt_ok : spec.
  Lemma parseShowStmt_ok p : pok p -> spec 0 (parseShowStmt p) (fun _ => true) nn.
  Proof. intros ?. unfold parseShowStmt. go. Qed.
  Hint Resolve parseShowStmt_ok : spec.
  Lemma parseDescribeStmt_ok p : pok p -> spec 0 (parseDescribeStmt p) (fun _ => true) nn.
  Proof. intros ?. unfold parseDescribeStmt. go. Qed.
  Hint Resolve parseDescribeStmt_ok : spec.
  Lemma parseTruncateTable_ok p : pok p -> spec 0 (parseTruncateTable p) (fun _ => true) nn.
  Proof. intros ?. unfold parseTruncateTable. go. Qed.
  Hint Resolve parseTruncateTable_ok : spec.
  Lemma parseDeleteClause_ok p : pok p -> spec 0 (parseDeleteClause p) (fun _ => true) nn.
  Proof. intros ?. unfold parseDeleteClause. go. Qed.
  Hint Resolve parseDeleteClause_ok : spec.
  Lemma parseColumnNamesExpr_ok : spec 0 parseColumnNamesExpr (fun _ => true) nn.
  Proof. unfold parseColumnNamesExpr. go. Qed.
  Hint Resolve parseColumnNamesExpr_ok : spec.
  Lemma parseTypedPlaceholder_ok : spec 0 parseTypedPlaceholder (fun _ => true) nn.
  Proof. unfold parseTypedPlaceholder. go. Qed.
  Hint Resolve parseTypedPlaceholder_ok : spec.
  Lemma body_AssignValues_ok p : pok p -> spec 8 (body_AssignValues p) (fun _ => true) nn.
  Proof. intros ?. unfold body_AssignValues. stp. stp.
    eapply use_spec; [apply (closedLoop_ok 9 _ (fun _ => false) nn); go | assumption | lia | cbv beta; intros ? ? ? ? ? ?; go]. Qed.
  Hint Resolve body_AssignValues_ok : spec.
  Lemma parseInsertStmt_ok p : pok p -> spec 0 (parseInsertStmt p) (fun _ => true) nn.
  Proof. intros ?. unfold parseInsertStmt. go. Qed.
  Hint Resolve parseInsertStmt_ok : spec.
  Lemma parseTargetPair_ok : spec 0 parseTargetPair (fun _ => true) istarget.
  Proof. unfold parseTargetPair. go. Qed.
  Hint Resolve parseTargetPair_ok : spec.
  Lemma istarget_ended e : istarget e -> ended e.
  Proof. intros ?. clean. split; [goodt | endt]. Qed.
  Lemma parseRenameStmt_ok p : pok p -> spec 0 (parseRenameStmt p) (fun _ => true) nn.
  Proof. intros ?. unfold parseRenameStmt. unfold ifKw. go.
    all: apply bind_endOf_part; [apply last_ended; [eapply Forall_impl; [apply istarget_ended | eassumption] | assumption] | intros ? ?; cbv beta; go]. Qed.
  Hint Resolve parseRenameStmt_ok : spec.
End Others.
#[export] Hint Resolve parseUseStmt_ok parseShowStmt_ok parseDescribeStmt_ok parseTruncateTable_ok parseDeleteClause_ok parseColumnNamesExpr_ok parseTypedPlaceholder_ok body_AssignValues_ok parseInsertStmt_ok parseTargetPair_ok parseRenameStmt_ok : spec.
