(** Proofs for C42: the functions of ParserAlter.v. *)
From Coq Require Import String List Arith Bool.
From Verif Require Import Str Keyword Lexer Ast AstPos AstSubs Prog RunFacts ParserCommon ParserExpr ParserQuery ParserTable ParserAlter ParserView ParserSystem Parser Words WriteLogic WriteTac WriteCommon WriteExpr WriteQuery WriteTable.
Import ListNotations.
Local Open Scope string_scope.
Local Open Scope nat_scope.

Section Write.
  Context {f : nat} (Hc : calls f).
  Local Notation gives := (@WriteLogic.gives f _).

  Lemma w_tryParseAfterClause  : gives good tryParseAfterClause.
  Proof. clear - Hc. intros. unfold tryParseAfterClause. go. Qed.
  Local Hint Resolve w_tryParseAfterClause : tell.
  Lemma w_parsePartitionClause (p : pos) : gives good (parsePartitionClause p).
  Proof. clear - Hc. intros. unfold parsePartitionClause. go. Qed.
  Local Hint Resolve w_parsePartitionClause : tell.
  Lemma w_tryParsePartitionClause  : gives good tryParsePartitionClause.
  Proof. clear - Hc. intros. unfold tryParsePartitionClause. go. Qed.
  Local Hint Resolve w_tryParsePartitionClause : tell.
  Lemma w_parseAlterTableAddColumn (p : pos) : gives good (parseAlterTableAddColumn p).
  Proof. clear - Hc. intros. unfold parseAlterTableAddColumn. go. Qed.
  Local Hint Resolve w_parseAlterTableAddColumn : tell.
  Lemma w_parseAlterTableAddIndex (p : pos) : gives good (parseAlterTableAddIndex p).
  Proof. clear - Hc. intros. unfold parseAlterTableAddIndex. go. Qed.
  Local Hint Resolve w_parseAlterTableAddIndex : tell.
  Lemma w_parseAlterTableAddProjection (p : pos) : gives good (parseAlterTableAddProjection p).
  Proof. clear - Hc. intros. unfold parseAlterTableAddProjection. go. Qed.
  Local Hint Resolve w_parseAlterTableAddProjection : tell.
  Lemma w_parseAlterTableAdd (p : pos) : gives good (parseAlterTableAdd p).
  Proof. clear - Hc. intros. unfold parseAlterTableAdd. go. Qed.
  Local Hint Resolve w_parseAlterTableAdd : tell.
  Lemma w_parseAlterTableDropClause (p : pos) : gives good (parseAlterTableDropClause p).
  Proof. clear - Hc. intros. unfold parseAlterTableDropClause. go. Qed.
  Local Hint Resolve w_parseAlterTableDropClause : tell.
  Lemma w_parseAlterTableDropPartition (p : pos) : gives good (parseAlterTableDropPartition p).
  Proof. clear - Hc. intros. unfold parseAlterTableDropPartition. go. Qed.
  Local Hint Resolve w_parseAlterTableDropPartition : tell.
  Lemma w_parseAlterTableDrop (p : pos) : gives good (parseAlterTableDrop p).
  Proof. clear - Hc. intros. unfold parseAlterTableDrop. go. Qed.
  Local Hint Resolve w_parseAlterTableDrop : tell.
  Lemma w_parseAlterTableDetachPartition (p : pos) : gives good (parseAlterTableDetachPartition p).
  Proof. clear - Hc. intros. unfold parseAlterTableDetachPartition. go. Qed.
  Local Hint Resolve w_parseAlterTableDetachPartition : tell.
  Lemma w_parseAlterTableAttachPartition (p : pos) : gives good (parseAlterTableAttachPartition p).
  Proof. clear - Hc. intros. unfold parseAlterTableAttachPartition. go. Qed.
  Local Hint Resolve w_parseAlterTableAttachPartition : tell.
  Lemma w_parseAlterTableFreezePartition (p : pos) : gives good (parseAlterTableFreezePartition p).
  Proof. clear - Hc. intros. unfold parseAlterTableFreezePartition. go. Qed.
  Local Hint Resolve w_parseAlterTableFreezePartition : tell.
  Lemma w_parseAlterTableRemoveTTL (p : pos) : gives good (parseAlterTableRemoveTTL p).
  Proof. clear - Hc. intros. unfold parseAlterTableRemoveTTL. go. Qed.
  Local Hint Resolve w_parseAlterTableRemoveTTL : tell.
  Lemma w_parseAlterTableClearClause (p : pos) : gives good (parseAlterTableClearClause p).
  Proof. clear - Hc. intros. unfold parseAlterTableClearClause. go. Qed.
  Local Hint Resolve w_parseAlterTableClearClause : tell.
  Lemma w_parseAlterTableClear (p : pos) : gives good (parseAlterTableClear p).
  Proof. clear - Hc. intros. unfold parseAlterTableClear. go. Qed.
  Local Hint Resolve w_parseAlterTableClear : tell.
  Lemma w_parseAlterTableRenameColumn (p : pos) : gives good (parseAlterTableRenameColumn p).
  Proof. clear - Hc. intros. unfold parseAlterTableRenameColumn. go. Qed.
  Local Hint Resolve w_parseAlterTableRenameColumn : tell.
  Lemma w_tryParseRemovePropertyTypeExpr  : gives good tryParseRemovePropertyTypeExpr.
  Proof. clear - Hc. intros. unfold tryParseRemovePropertyTypeExpr. go. Qed.
  Local Hint Resolve w_tryParseRemovePropertyTypeExpr : tell.
  Lemma w_parseAlterTableModifyColumn (p : pos) : gives good (parseAlterTableModifyColumn p).
  Proof. clear - Hc. intros. unfold parseAlterTableModifyColumn. go. Qed.
  Local Hint Resolve w_parseAlterTableModifyColumn : tell.
  Lemma w_parseAlterTableModify (p : pos) : gives good (parseAlterTableModify p).
  Proof. clear - Hc. intros. unfold parseAlterTableModify. go. Qed.
  Local Hint Resolve w_parseAlterTableModify : tell.
  Lemma w_parseAlterTableReplacePartition (p : pos) : gives good (parseAlterTableReplacePartition p).
  Proof. clear - Hc. intros. unfold parseAlterTableReplacePartition. go. Qed.
  Local Hint Resolve w_parseAlterTableReplacePartition : tell.
  Lemma w_parseAlterTableMaterialize (p : pos) : gives good (parseAlterTableMaterialize p).
  Proof. clear - Hc. intros. unfold parseAlterTableMaterialize. go. Qed.
  Local Hint Resolve w_parseAlterTableMaterialize : tell.
  Lemma w_parseAlterTableReset (p : pos) : gives good (parseAlterTableReset p).
  Proof. clear - Hc. intros. unfold parseAlterTableReset. go. Qed.
  Local Hint Resolve w_parseAlterTableReset : tell.
  Lemma w_parseAlterTableDelete (p : pos) : gives good (parseAlterTableDelete p).
  Proof. clear - Hc. intros. unfold parseAlterTableDelete. go. Qed.
  Local Hint Resolve w_parseAlterTableDelete : tell.
  Lemma w_parseUpdateAssignment  : gives good parseUpdateAssignment.
  Proof. clear - Hc. intros. unfold parseUpdateAssignment. go. Qed.
  Local Hint Resolve w_parseUpdateAssignment : tell.
  Lemma w_parseAlterTableUpdate (p : pos) : gives good (parseAlterTableUpdate p).
  Proof. clear - Hc. intros. unfold parseAlterTableUpdate. go. Qed.
  Local Hint Resolve w_parseAlterTableUpdate : tell.
  Lemma w_parseAlterTableItem  : gives good parseAlterTableItem.
  Proof. clear - Hc. intros. unfold parseAlterTableItem. go. Qed.
  Local Hint Resolve w_parseAlterTableItem : tell.
  Lemma w_parseAlterTable (p : pos) : gives good (parseAlterTable p).
  Proof. clear - Hc. intros. unfold parseAlterTable. go. Qed.
  Local Hint Resolve w_parseAlterTable : tell.
End Write.
Global Hint Resolve w_tryParseAfterClause w_parsePartitionClause w_tryParsePartitionClause w_parseAlterTableAddColumn w_parseAlterTableAddIndex w_parseAlterTableAddProjection w_parseAlterTableAdd w_parseAlterTableDropClause w_parseAlterTableDropPartition w_parseAlterTableDrop w_parseAlterTableDetachPartition w_parseAlterTableAttachPartition w_parseAlterTableFreezePartition w_parseAlterTableRemoveTTL w_parseAlterTableClearClause w_parseAlterTableClear w_parseAlterTableRenameColumn w_tryParseRemovePropertyTypeExpr w_parseAlterTableModifyColumn w_parseAlterTableModify w_parseAlterTableReplacePartition w_parseAlterTableMaterialize w_parseAlterTableReset w_parseAlterTableDelete w_parseUpdateAssignment w_parseAlterTableUpdate w_parseAlterTableItem w_parseAlterTable : tell.
