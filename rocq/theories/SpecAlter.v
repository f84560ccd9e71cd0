(** Specifications of the functions of ParserAlter.v. *)
From Coq Require Import String List Arith Bool Lia ZArith.
From Verif Require Import Str Keyword Lexer Ast AstPos AstSubs PrecSpec SpanSpec Prog Items ItemsFacts RunFacts
  ParserCommon ParserExpr ParserQuery ParserTable ParserAlter ParserView ParserSystem Parser Hoare Spec SpecTac SpecCommon SpecTypes SpecArgs SpecOperand SpecPrec SpecQuery SpecTable SpecDict.
Import ListNotations.
Local Open Scope string_scope.
Local Open Scope nat_scope.

Section Alter.
  Context `{Calls}.

  Lemma tryParseAfterClause_ok : spec 0 tryParseAfterClause (fun e => negb (is_nil e)) mb.
  Proof. unfold tryParseAfterClause. unfold ifKw. go. Qed.
  Hint Resolve tryParseAfterClause_ok : spec.
  Lemma partition_nn p e b : pok p -> nn e -> nn (EPartitionClause p e ENil b).
  Proof.
    intros Hp He. apply mk_nn; [cbn; posl | exact I | | endt | endt | kindt | gapt | fillt | cbn [subs]; goods].
    cbn [wants]. destruct e; try reflexivity. destruct He as [_ He]. discriminate He.
  Qed.
  Hint Resolve partition_nn : nodes.
  (** [PARTITION ALL] is a node whose end cannot be taken. *)
  Definition ispart (e : expr) : Prop := nn e \/ exists p, pok p /\ e = EPartitionClause p ENil ENil true.
  Lemma ispart_gd e : ispart e -> gd e.
  Proof. intros [? | (p & ? & ->)]; [now apply nn_gd|]. split; [|reflexivity]. apply mk_good; [cbn; posl | exact I | discriminate | kindt | gapt | fillt | cbn [subs]; goods]. Qed.
  Lemma parsePartitionClause_part p : pok p -> spec 0 (parsePartitionClause p) (fun _ => true) ispart.
  Proof. intros ?. unfold parsePartitionClause, ifKw. steps; leaf; first [left; nnt | right; eauto]. Qed.
  Lemma parsePartitionClause_ok p : pok p -> spec 0 (parsePartitionClause p) (fun _ => true) gd.
  Proof. intros ?. unfold parsePartitionClause. intros s Hw Hl. eapply wp_conseq; [apply (parsePartitionClause_part p); assumption|]. cbv beta. intros e s' (? & ? & ? & ?). auto using ispart_gd. Qed.
  Hint Resolve parsePartitionClause_ok : spec.
  Lemma tryParsePartitionClause_ok : spec 0 tryParsePartitionClause (fun e => negb (is_nil e)) mg.
  Proof. unfold tryParsePartitionClause. unfold whenKw. go. Qed.
  Hint Resolve tryParsePartitionClause_ok : spec.
  Lemma parseAlterTableAddColumn_ok p : pok p -> spec 0 (parseAlterTableAddColumn p) (fun _ => true) nn.
  Proof. intros ?. unfold parseAlterTableAddColumn. unfold ifKw, whenKw; go. Qed.
  Hint Resolve parseAlterTableAddColumn_ok : spec.
  Lemma parseAlterTableAddIndex_ok p : pok p -> spec 0 (parseAlterTableAddIndex p) (fun _ => true) nn.
  Proof. intros ?. unfold parseAlterTableAddIndex. unfold ifKw, whenKw; go. Qed.
  Hint Resolve parseAlterTableAddIndex_ok : spec.
  Lemma parseAlterTableAddProjection_ok p : pok p -> spec 0 (parseAlterTableAddProjection p) (fun _ => true) nn.
  Proof. intros ?. unfold parseAlterTableAddProjection. unfold ifKw, whenKw; go. Qed.
  Hint Resolve parseAlterTableAddProjection_ok : spec.
  Lemma parseAlterTableAdd_ok p : pok p -> spec 0 (parseAlterTableAdd p) (fun _ => true) nn.
  Proof. intros ?. unfold parseAlterTableAdd. unfold ifKw, whenKw; go. Qed.
  Hint Resolve parseAlterTableAdd_ok : spec.
  Lemma parseAlterTableDropClause_ok p : pok p -> spec 0 (parseAlterTableDropClause p) (fun _ => true) nn.
  Proof. intros ?. unfold parseAlterTableDropClause. unfold ifKw, whenKw; go. Qed.
  Hint Resolve parseAlterTableDropClause_ok : spec.
  Lemma parseAlterTableDropPartition_ok p : pok p -> spec 0 (parseAlterTableDropPartition p) (fun _ => true) nn.
  Proof. intros ?. unfold parseAlterTableDropPartition. unfold ifKw, whenKw; go. Qed.
  Hint Resolve parseAlterTableDropPartition_ok : spec.
  Lemma parseAlterTableDrop_ok p : pok p -> spec 0 (parseAlterTableDrop p) (fun _ => true) nn.
  Proof. intros ?. unfold parseAlterTableDrop. unfold ifKw, whenKw; go. Qed.
  Hint Resolve parseAlterTableDrop_ok : spec.
  Lemma parseAlterTableDetachPartition_ok p : pok p -> spec 0 (parseAlterTableDetachPartition p) (fun _ => true) nn.
  Proof. intros ?. unfold parseAlterTableDetachPartition. unfold ifKw, whenKw; go. Qed.
  Hint Resolve parseAlterTableDetachPartition_ok : spec.
  Lemma parseAlterTableAttachPartition_ok p : pok p -> spec 0 (parseAlterTableAttachPartition p) (fun _ => true) gd.
  Proof. intros ?. unfold parseAlterTableAttachPartition. unfold ifKw. stp. stp. stp.
    eapply use_spec; [apply parsePartitionClause_part; val | assumption | lia | cbv beta; intros ? ? ? ? ? Hpart; clean].
    pose proof (ispart_gd _ Hpart). destruct Hpart as [? | (q & ? & ->)]; [go|].
    steps. match goal with Hm : mb _ |- _ => destruct Hm as [-> | Hm] end; go. Qed.
  Hint Resolve parseAlterTableAttachPartition_ok : spec.
  Lemma parseAlterTableFreezePartition_ok p : pok p -> spec 0 (parseAlterTableFreezePartition p) (fun _ => true) nn.
  Proof. intros ?. unfold parseAlterTableFreezePartition. unfold ifKw, whenKw; go. Qed.
  Hint Resolve parseAlterTableFreezePartition_ok : spec.
  Lemma parseAlterTableRemoveTTL_ok p : pok p -> spec 0 (parseAlterTableRemoveTTL p) (fun _ => true) nn.
  Proof. intros ?. unfold parseAlterTableRemoveTTL. unfold ifKw, whenKw; go. Qed.
  Hint Resolve parseAlterTableRemoveTTL_ok : spec.
  Lemma parseAlterTableClearClause_ok p : pok p -> spec 0 (parseAlterTableClearClause p) (fun _ => true) nn.
  Proof. intros ?. unfold parseAlterTableClearClause. unfold ifKw, whenKw; go. Qed.
  Hint Resolve parseAlterTableClearClause_ok : spec.
  Lemma parseAlterTableClear_ok p : pok p -> spec 0 (parseAlterTableClear p) (fun _ => true) nn.
  Proof. intros ?. unfold parseAlterTableClear. unfold ifKw, whenKw; go. Qed.
  Hint Resolve parseAlterTableClear_ok : spec.
  Lemma parseAlterTableRenameColumn_ok p : pok p -> spec 0 (parseAlterTableRenameColumn p) (fun _ => true) nn.
  Proof. intros ?. unfold parseAlterTableRenameColumn. unfold ifKw, whenKw; go. Qed.
  Hint Resolve parseAlterTableRenameColumn_ok : spec.
  Lemma tryParseRemovePropertyTypeExpr_ok : spec 0 tryParseRemovePropertyTypeExpr (fun e => negb (is_nil e)) mb.
  Proof. unfold tryParseRemovePropertyTypeExpr. unfold ifKw, whenKw; go. Qed.
  Hint Resolve tryParseRemovePropertyTypeExpr_ok : spec.
  Lemma parseAlterTableModifyColumn_ok p : pok p -> spec 0 (parseAlterTableModifyColumn p) (fun _ => true) nn.
  Proof. intros ?. unfold parseAlterTableModifyColumn. unfold ifKw, whenKw; go. Qed.
  Hint Resolve parseAlterTableModifyColumn_ok : spec.
  Lemma parseAlterTableModify_ok p : pok p -> spec 0 (parseAlterTableModify p) (fun _ => true) nn.
  Proof. intros ?. unfold parseAlterTableModify. unfold ifKw, whenKw; go. Qed.
  Hint Resolve parseAlterTableModify_ok : spec.
  Lemma parseAlterTableReplacePartition_ok p : pok p -> spec 0 (parseAlterTableReplacePartition p) (fun _ => true) nn.
  Proof. intros ?. unfold parseAlterTableReplacePartition. unfold ifKw, whenKw; go. Qed.
  Hint Resolve parseAlterTableReplacePartition_ok : spec.
  Lemma parseAlterTableMaterialize_ok p : pok p -> spec 0 (parseAlterTableMaterialize p) (fun _ => true) nn.
  Proof. intros ?. unfold parseAlterTableMaterialize. unfold ifKw, whenKw; go. Qed.
  Hint Resolve parseAlterTableMaterialize_ok : spec.
  Lemma parseAlterTableReset_ok p : pok p -> spec 0 (parseAlterTableReset p) (fun _ => true) nn.
  Proof. intros ?. unfold parseAlterTableReset. go. match goal with Hf : Forall isid ?a |- _ => assert (Forall nn a) by (eapply Forall_impl; [|exact Hf]; cbv beta; intros; clean; nnt) end. go. Qed.
  Hint Resolve parseAlterTableReset_ok : spec.
  Lemma parseAlterTableDelete_ok p : pok p -> spec 0 (parseAlterTableDelete p) (fun _ => true) nn.
  Proof. intros ?. unfold parseAlterTableDelete. unfold ifKw, whenKw; go. Qed.
  Hint Resolve parseAlterTableDelete_ok : spec.
  Lemma parseUpdateAssignment_ok : spec 0 parseUpdateAssignment (fun _ => true) nn.
  Proof. unfold parseUpdateAssignment. go.
    eapply use_spec; [apply parseSubExpr_ok; [val | apply Nat.leb_le; reflexivity] | assumption | lia | cbv beta; intros ? ? ? ? ? ?; clean; go]. Qed.
  Hint Resolve parseUpdateAssignment_ok : spec.
  Lemma parseAlterTableUpdate_ok p : pok p -> spec 0 (parseAlterTableUpdate p) (fun _ => true) nn.
  Proof. intros ?. unfold parseAlterTableUpdate. unfold ifKw, whenKw; go. Qed.
  Hint Resolve parseAlterTableUpdate_ok : spec.
  Lemma parseAlterTableItem_ok : spec 0 parseAlterTableItem (fun _ => true) gd.
  Proof. unfold parseAlterTableItem. unfold ifKw, whenKw; go. Qed.
  Hint Resolve parseAlterTableItem_ok : spec.
  Lemma parseAlterTable_ok p : pok p -> spec 0 (parseAlterTable p) (fun _ => true) nn.
  Proof. intros ?. unfold parseAlterTable. go.
    match goal with Hf : Forall gd ?l |- _ => pose proof (last_good l (Forall_gd_good l Hf)) end. go. Qed.
  Hint Resolve parseAlterTable_ok : spec.
End Alter.
#[export] Hint Resolve tryParseAfterClause_ok parsePartitionClause_ok tryParsePartitionClause_ok parseAlterTableAddColumn_ok parseAlterTableAddIndex_ok parseAlterTableAddProjection_ok parseAlterTableAdd_ok parseAlterTableDropClause_ok parseAlterTableDropPartition_ok parseAlterTableDrop_ok parseAlterTableDetachPartition_ok parseAlterTableAttachPartition_ok parseAlterTableFreezePartition_ok parseAlterTableRemoveTTL_ok parseAlterTableClearClause_ok parseAlterTableClear_ok parseAlterTableRenameColumn_ok tryParseRemovePropertyTypeExpr_ok parseAlterTableModifyColumn_ok parseAlterTableModify_ok parseAlterTableReplacePartition_ok parseAlterTableMaterialize_ok parseAlterTableReset_ok parseAlterTableDelete_ok parseUpdateAssignment_ok parseAlterTableUpdate_ok parseAlterTableItem_ok parseAlterTable_ok : spec.
#[export] Hint Resolve partition_nn : nodes.
