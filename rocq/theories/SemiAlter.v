(** Proofs for C43: the functions of ParserAlter.v. *)
From Coq Require Import String List Arith Bool.
From Verif Require Import Str Keyword Lexer Ast AstPos AstSubs Prog RunFacts ParserCommon ParserExpr ParserQuery ParserTable ParserAlter ParserView ParserSystem Parser SemiLogic SemiTac SemiCommon SemiExpr SemiQuery SemiTable.
Import ListNotations.
Local Open Scope string_scope.
Local Open Scope nat_scope.

Section Semi.
  Context `{Tails} {f : nat} (Hc : calls f).
  Local Notation safe p := (forall pre m, fines pre -> @at_ _ f pre m _ p).

  Lemma s_tryParseAfterClause  : safe tryParseAfterClause.
  Proof. clear - Hc. intros. unfold tryParseAfterClause. go. Qed.
  Local Hint Resolve s_tryParseAfterClause : semi.
  Lemma s_parsePartitionClause (p : pos) : safe (parsePartitionClause p).
  Proof. clear - Hc. intros. unfold parsePartitionClause. go. Qed.
  Local Hint Resolve s_parsePartitionClause : semi.
  Lemma s_tryParsePartitionClause  : safe tryParsePartitionClause.
  Proof. clear - Hc. intros. unfold tryParsePartitionClause. go. Qed.
  Local Hint Resolve s_tryParsePartitionClause : semi.
  Lemma s_parseAlterTableAddColumn (p : pos) : safe (parseAlterTableAddColumn p).
  Proof. clear - Hc. intros. unfold parseAlterTableAddColumn. go. Qed.
  Local Hint Resolve s_parseAlterTableAddColumn : semi.
  Lemma s_parseAlterTableAddIndex (p : pos) : safe (parseAlterTableAddIndex p).
  Proof. clear - Hc. intros. unfold parseAlterTableAddIndex. go. Qed.
  Local Hint Resolve s_parseAlterTableAddIndex : semi.
  Lemma s_parseAlterTableAddProjection (p : pos) : safe (parseAlterTableAddProjection p).
  Proof. clear - Hc. intros. unfold parseAlterTableAddProjection. go. Qed.
  Local Hint Resolve s_parseAlterTableAddProjection : semi.
  Lemma s_parseAlterTableAdd (p : pos) : safe (parseAlterTableAdd p).
  Proof. clear - Hc. intros. unfold parseAlterTableAdd. go. Qed.
  Local Hint Resolve s_parseAlterTableAdd : semi.
  Lemma s_parseAlterTableDropClause (p : pos) : safe (parseAlterTableDropClause p).
  Proof. clear - Hc. intros. unfold parseAlterTableDropClause. go. Qed.
  Local Hint Resolve s_parseAlterTableDropClause : semi.
  Lemma s_parseAlterTableDropPartition (p : pos) : safe (parseAlterTableDropPartition p).
  Proof. clear - Hc. intros. unfold parseAlterTableDropPartition. go. Qed.
  Local Hint Resolve s_parseAlterTableDropPartition : semi.
  Lemma s_parseAlterTableDrop (p : pos) : safe (parseAlterTableDrop p).
  Proof. clear - Hc. intros. unfold parseAlterTableDrop. go. Qed.
  Local Hint Resolve s_parseAlterTableDrop : semi.
  Lemma s_parseAlterTableDetachPartition (p : pos) : safe (parseAlterTableDetachPartition p).
  Proof. clear - Hc. intros. unfold parseAlterTableDetachPartition. go. Qed.
  Local Hint Resolve s_parseAlterTableDetachPartition : semi.
  Lemma s_parseAlterTableAttachPartition (p : pos) : safe (parseAlterTableAttachPartition p).
  Proof. clear - Hc. intros. unfold parseAlterTableAttachPartition. go. Qed.
  Local Hint Resolve s_parseAlterTableAttachPartition : semi.
  Lemma s_parseAlterTableFreezePartition (p : pos) : safe (parseAlterTableFreezePartition p).
  Proof. clear - Hc. intros. unfold parseAlterTableFreezePartition. go. Qed.
  Local Hint Resolve s_parseAlterTableFreezePartition : semi.
  Lemma s_parseAlterTableRemoveTTL (p : pos) : safe (parseAlterTableRemoveTTL p).
  Proof. clear - Hc. intros. unfold parseAlterTableRemoveTTL. go. Qed.
  Local Hint Resolve s_parseAlterTableRemoveTTL : semi.
  Lemma s_parseAlterTableClearClause (p : pos) : safe (parseAlterTableClearClause p).
  Proof. clear - Hc. intros. unfold parseAlterTableClearClause. go. Qed.
  Local Hint Resolve s_parseAlterTableClearClause : semi.
  Lemma s_parseAlterTableClear (p : pos) : safe (parseAlterTableClear p).
  Proof. clear - Hc. intros. unfold parseAlterTableClear. go. Qed.
  Local Hint Resolve s_parseAlterTableClear : semi.
  Lemma s_parseAlterTableRenameColumn (p : pos) : safe (parseAlterTableRenameColumn p).
  Proof. clear - Hc. intros. unfold parseAlterTableRenameColumn. go. Qed.
  Local Hint Resolve s_parseAlterTableRenameColumn : semi.
  Lemma s_tryParseRemovePropertyTypeExpr  : safe tryParseRemovePropertyTypeExpr.
  Proof. clear - Hc. intros. unfold tryParseRemovePropertyTypeExpr. go. Qed.
  Local Hint Resolve s_tryParseRemovePropertyTypeExpr : semi.
  Lemma s_parseAlterTableModifyColumn (p : pos) : safe (parseAlterTableModifyColumn p).
  Proof. clear - Hc. intros. unfold parseAlterTableModifyColumn. go. Qed.
  Local Hint Resolve s_parseAlterTableModifyColumn : semi.
  Lemma s_parseAlterTableModify (p : pos) : safe (parseAlterTableModify p).
  Proof. clear - Hc. intros. unfold parseAlterTableModify. go. Qed.
  Local Hint Resolve s_parseAlterTableModify : semi.
  Lemma s_parseAlterTableReplacePartition (p : pos) : safe (parseAlterTableReplacePartition p).
  Proof. clear - Hc. intros. unfold parseAlterTableReplacePartition. go. Qed.
  Local Hint Resolve s_parseAlterTableReplacePartition : semi.
  Lemma s_parseAlterTableMaterialize (p : pos) : safe (parseAlterTableMaterialize p).
  Proof. clear - Hc. intros. unfold parseAlterTableMaterialize. go. Qed.
  Local Hint Resolve s_parseAlterTableMaterialize : semi.
  Lemma s_parseAlterTableReset (p : pos) : safe (parseAlterTableReset p).
  Proof. clear - Hc. intros. unfold parseAlterTableReset. go. Qed.
  Local Hint Resolve s_parseAlterTableReset : semi.
  Lemma s_parseAlterTableDelete (p : pos) : safe (parseAlterTableDelete p).
  Proof. clear - Hc. intros. unfold parseAlterTableDelete. go. Qed.
  Local Hint Resolve s_parseAlterTableDelete : semi.
  Lemma s_parseUpdateAssignment  : safe parseUpdateAssignment.
  Proof. clear - Hc. intros. unfold parseUpdateAssignment. go. Qed.
  Local Hint Resolve s_parseUpdateAssignment : semi.
  Lemma s_parseAlterTableUpdate (p : pos) : safe (parseAlterTableUpdate p).
  Proof. clear - Hc. intros. unfold parseAlterTableUpdate. go. Qed.
  Local Hint Resolve s_parseAlterTableUpdate : semi.
  Lemma s_parseAlterTableItem  : safe parseAlterTableItem.
  Proof. clear - Hc. intros. unfold parseAlterTableItem. go. Qed.
  Local Hint Resolve s_parseAlterTableItem : semi.
  Lemma s_parseAlterTable (p : pos) : safe (parseAlterTable p).
  Proof. clear - Hc. intros. unfold parseAlterTable. go. Qed.
  Local Hint Resolve s_parseAlterTable : semi.
End Semi.
Global Hint Resolve s_tryParseAfterClause s_parsePartitionClause s_tryParsePartitionClause s_parseAlterTableAddColumn s_parseAlterTableAddIndex s_parseAlterTableAddProjection s_parseAlterTableAdd s_parseAlterTableDropClause s_parseAlterTableDropPartition s_parseAlterTableDrop s_parseAlterTableDetachPartition s_parseAlterTableAttachPartition s_parseAlterTableFreezePartition s_parseAlterTableRemoveTTL s_parseAlterTableClearClause s_parseAlterTableClear s_parseAlterTableRenameColumn s_tryParseRemovePropertyTypeExpr s_parseAlterTableModifyColumn s_parseAlterTableModify s_parseAlterTableReplacePartition s_parseAlterTableMaterialize s_parseAlterTableReset s_parseAlterTableDelete s_parseUpdateAssignment s_parseAlterTableUpdate s_parseAlterTableItem s_parseAlterTable : semi.
