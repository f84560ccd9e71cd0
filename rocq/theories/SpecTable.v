(** Specifications of the functions of ParserTable.v. *)
From Coq Require Import String List Arith Bool Lia ZArith.
From Verif Require Import Str Keyword Lexer Ast AstPos AstSubs PrecSpec SpanSpec Prog Items ItemsFacts RunFacts
  ParserCommon ParserExpr ParserQuery ParserTable ParserAlter ParserView ParserSystem Parser Hoare Spec SpecTac SpecCommon SpecTypes SpecArgs SpecOperand SpecPrec SpecQuery.
Import ListNotations.
Local Open Scope string_scope.
Local Open Scope nat_scope.

Section Clauses.
  Context `{Calls}.

  Lemma closedLoop_ok rk p str (P : expr -> Prop) : spec rk p str P -> spec (S rk) (closedLoop p) (fun _ => false) (Forall P).
  Proof.
    intros Hp s Hw Hl. unfold closedLoop. apply tail_loop with (PX := Forall P) (PY := Forall P); auto; [lia| |].
    - intros acc s' Hw' Hl' Ha. apply bind_eof. destruct (it_eof (here s')); [apply wp_Ret; auto|].
      apply bind_tryTkb; [exact Hw' | reflexivity | |]; cbv beta iota.
      + intros _ s1 Hw1 Hl1. apply wp_Ret. repeat split; auto; lia.
      + intros _. eapply use_spec; [exact Hp | exact Hw' | lia |]. intros x s2 Hw2 Hl2 _ Hx.
        assert (Hs : Forall P (acc ++ [x])%list) by (apply Forall_app; auto).
        apply bind_tryTkb; [exact Hw2 | reflexivity | |]; cbv beta iota; intros; apply wp_Ret; repeat split; auto; lia.
    - intros acc s' Hw' Hl' Ha. repeat split; auto. discriminate.
  Qed.
  Hint Extern 1 (spec _ (closedLoop _) _ _) => eapply closedLoop_ok : spec.
  Lemma tryParseClusterClause_ok : spec 0 tryParseClusterClause (fun e => negb (is_nil e)) mb.
  Proof. unfold tryParseClusterClause. go. Qed.
  Hint Resolve tryParseClusterClause_ok : spec.
  Lemma tryParseCompressionLevel_ok : spec 0 tryParseCompressionLevel (fun _ => false) mb.
  Proof. unfold tryParseCompressionLevel. go. Qed.
  Hint Resolve tryParseCompressionLevel_ok : spec.
  Lemma tryParseCompressionCodecs_ok : spec 0 tryParseCompressionCodecs (fun e => negb (is_nil e)) mb.
  Proof. unfold tryParseCompressionCodecs. go. Qed.
  Hint Resolve tryParseCompressionCodecs_ok : spec.
  Lemma tryParsePrimaryKeyClause_ok : spec 0 tryParsePrimaryKeyClause (fun e => negb (is_nil e)) mb.
  Proof. unfold tryParsePrimaryKeyClause. go. Qed.
  Hint Resolve tryParsePrimaryKeyClause_ok : spec.
  Lemma tryParseTableOrderByClause_ok : spec 0 tryParseTableOrderByClause (fun e => negb (is_nil e)) mb.
  Proof. unfold tryParseTableOrderByClause. go. Qed.
  Hint Resolve tryParseTableOrderByClause_ok : spec.
  Lemma tryParseTTLPolicy_ok : spec 0 tryParseTTLPolicy (fun _ => false) mb.
  Proof. unfold tryParseTTLPolicy. unfold ifKw. go. Qed.
  Hint Resolve tryParseTTLPolicy_ok : spec.
  Lemma parseTTLExpr_ok p : pok p -> spec 5 (parseTTLExpr p) (fun _ => true) nn.
  Proof. intros ?. unfold parseTTLExpr. go. Qed.
  Hint Resolve parseTTLExpr_ok : spec.
  Lemma parseTTLClause_ok p allow : pok p -> spec 5 (parseTTLClause p allow) (fun _ => true) (fun l => Forall nn l /\ l <> []).
  Proof. intros ?. unfold parseTTLClause. go. Qed.
  Hint Resolve parseTTLClause_ok : spec.
  Lemma tryParseTTLClause_ok allow : spec 0 (tryParseTTLClause allow) (fun e => negb (is_nil e)) mb.
  Proof. unfold tryParseTTLClause. go. Qed.
  Hint Resolve tryParseTTLClause_ok : spec.
  Lemma tryParseSampleByClause_ok : spec 0 tryParseSampleByClause (fun e => negb (is_nil e)) mb.
  Proof. unfold tryParseSampleByClause. go. Qed.
  Hint Resolve tryParseSampleByClause_ok : spec.
  Lemma parseDestinationClause_ok : spec 0 parseDestinationClause (fun _ => true) nn.
  Proof. unfold parseDestinationClause. go. Qed.
  Hint Resolve parseDestinationClause_ok : spec.
  Definition okeng (g : engine_acc) : Prop := mb (g_primary g) /\ mb (g_partition g) /\ mb (g_sample g) /\ mb (g_ttl g) /\ mb (g_settings g) /\ mb (g_order g) /\ pok (g_end g).
  Lemma okeng_mk a b c d e f p : mb a -> mb b -> mb c -> mb d -> mb e -> mb f -> pok p -> okeng (mkEng a b c d e f p).
  Proof. unfold okeng. cbn. tauto. Qed.
  Lemma parseEngineExpr_ok p : pok p -> spec 0 (parseEngineExpr p) (fun _ => true) nn.
  Proof. intros ?. unfold parseEngineExpr. unfold tryParseTableOrderByClause, tryParsePartitionByClause, tryParsePrimaryKeyClause, tryParseSampleByClause, tryParseTTLClause, tryParseSettingsClause.
    repeat (lazymatch goal with |- wp (bind (loop _ _) _) _ _ => fail | |- _ => stp end).
    apply (bind_loop _ _ _ _ _ _ _ _ okeng okeng); [assumption | apply okeng_mk; val | lia | |]; cbv beta.
    - intros g s0 ? ? (? & ? & ? & ? & ? & ? & ?). steps; (apply wp_Ret; cbv beta iota; split; [assumption | split; [lia | first [apply okeng_mk; val | repeat split; assumption]]]).
    - intros g s0 ? ? (? & ? & ? & ? & ? & ? & ?). go. Qed.
  Hint Resolve parseEngineExpr_ok : spec.
  Lemma tryParseEngineExpr_ok : spec 0 tryParseEngineExpr (fun e => negb (is_nil e)) mb.
  Proof. unfold tryParseEngineExpr. unfold whenKw. go. Qed.
  Hint Resolve tryParseEngineExpr_ok : spec.
End Clauses.
#[export] Hint Resolve tryParseClusterClause_ok tryParseCompressionLevel_ok tryParseCompressionCodecs_ok tryParsePrimaryKeyClause_ok tryParseTableOrderByClause_ok tryParseTTLPolicy_ok parseTTLExpr_ok parseTTLClause_ok tryParseTTLClause_ok tryParseSampleByClause_ok parseDestinationClause_ok parseEngineExpr_ok tryParseEngineExpr_ok : spec.
#[export] Hint Extern 1 (spec _ (closedLoop _) _ _) => eapply closedLoop_ok : spec.
Section Creates.
  Context `{Calls}.

  Lemma tryParseProjectionOrderBy_ok : spec 0 tryParseProjectionOrderBy (fun e => negb (is_nil e)) mb.
  Proof. unfold tryParseProjectionOrderBy. go. Qed.
  Hint Resolve tryParseProjectionOrderBy_ok : spec.
  Lemma parseProjectionSelect_ok : spec 0 parseProjectionSelect (fun _ => true) nn.
  Proof. unfold parseProjectionSelect. go. Qed.
  Hint Resolve parseProjectionSelect_ok : spec.
  Lemma parseTableProjection_ok p incl : pok p -> spec 0 (parseTableProjection p incl) (fun _ => true) nn.
  Proof. intros ?. unfold parseTableProjection. go. Qed.
  Hint Resolve parseTableProjection_ok : spec.
  Lemma parseTableIndex_ok p : pok p -> spec 0 (parseTableIndex p) (fun _ => true) nn.
  Proof. intros ?. unfold parseTableIndex. go. Qed.
  Hint Resolve parseTableIndex_ok : spec.
  Lemma parseTableColumnExpr_ok p : pok p -> spec 0 (parseTableColumnExpr p) (fun _ => true) nn.
  Proof. intros ?. unfold parseTableColumnExpr. unfold ifKw.
    repeat (lazymatch goal with |- wp (bind (bind (tryKw "DEFAULT") _) _) _ _ => fail
      | |- wp (bind (tryParseNull _) _) _ _ => apply bind_tryParseNull; [assumption | intros ? ? ? ? ?]
      | |- _ => stp end).
    apply (cut_weak _ _ _ _ _ _ (fun x => mb (fst (fst x)) /\ mb (snd (fst x)) /\ mb (snd x))); [go | cbv beta; intros ? ? ? ? ?; clean]. go. Qed.
  Hint Resolve parseTableColumnExpr_ok : spec.
  Lemma tryParseTableColumnExpr_ok : spec 0 tryParseTableColumnExpr (fun e => negb (is_nil e)) mb.
  Proof. unfold tryParseTableColumnExpr. go. Qed.
  Hint Resolve tryParseTableColumnExpr_ok : spec.
  Lemma parseTableColumns_ok : spec 1 parseTableColumns (fun _ => false) (Forall nn).
  Proof. unfold parseTableColumns. stp.
    apply (tail_loop _ _ _ _ _ _ (Forall nn) (Forall nn)); [assumption | val | lia | | intros; val]; cbv beta.
    intros acc s0 Hw Hl Ha. stp. stp; [go|]. apply (cut_weak _ _ _ _ _ _ mb); [go|]. cbv beta zeta. intros c s1 Hw1 Hl1 [->|Hc]; [|rewrite (nn_nil c Hc)]; cbn [is_nil]; go. Qed.
  Hint Resolve parseTableColumns_ok : spec.
  Lemma parseTableSchemaClause_ok : spec 0 parseTableSchemaClause (fun e => negb (is_nil e)) mb.
  Proof. unfold parseTableSchemaClause. unfold tryParseDotIdent. go. Qed.
  Hint Resolve parseTableSchemaClause_ok : spec.
  Lemma parseCreateDatabase_ok p : pok p -> spec 0 (parseCreateDatabase p) (fun _ => true) nn.
  Proof. intros ?. unfold parseCreateDatabase. go. Qed.
  Hint Resolve parseCreateDatabase_ok : spec.
  Lemma parseNamedCollectionParam_ok : spec 0 parseNamedCollectionParam (fun _ => true) nn.
  Proof. unfold parseNamedCollectionParam. go. Qed.
  Hint Resolve parseNamedCollectionParam_ok : spec.
  Lemma parseCreateNamedCollection_ok p : pok p -> spec 0 (parseCreateNamedCollection p) (fun _ => true) nn.
  Proof. intros ?. unfold parseCreateNamedCollection. go. Qed.
  Hint Resolve parseCreateNamedCollection_ok : spec.
  Lemma parseCreateTable_ok p b : pok p -> spec 0 (parseCreateTable p b) (fun _ => true) nn.
  Proof. intros ?. unfold parseCreateTable. go. Qed.
  Hint Resolve parseCreateTable_ok : spec.
  Lemma parseCreateFunction_ok p b : pok p -> spec 0 (parseCreateFunction p b) (fun _ => true) nn.
  Proof. intros ?. unfold parseCreateFunction. go. Qed.
  Hint Resolve parseCreateFunction_ok : spec.
End Creates.
#[export] Hint Resolve tryParseProjectionOrderBy_ok parseProjectionSelect_ok parseTableProjection_ok parseTableIndex_ok parseTableColumnExpr_ok tryParseTableColumnExpr_ok parseTableColumns_ok parseTableSchemaClause_ok parseCreateDatabase_ok parseNamedCollectionParam_ok parseCreateNamedCollection_ok parseCreateTable_ok parseCreateFunction_ok : spec.
