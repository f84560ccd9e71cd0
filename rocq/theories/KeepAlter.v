(** Proofs for C41: the functions of ParserAlter.v. *)
From Coq Require Import String List Arith Bool Lia ZArith.
From Verif Require Import Str Keyword Lexer Ast AstPos AstSubs Prog RunFacts ParserCommon ParserExpr ParserQuery ParserTable ParserAlter ParserView ParserSystem Parser Words KeepSpec KeepLogic KeepTac KeepCommon KeepExpr KeepQuery KeepTable.
Import ListNotations.
Local Open Scope string_scope.
Local Open Scope Z_scope.

Section Keep.
  Context `{Word} {f : nat} (Hc : calls f).
  Local Notation bal := (@KeepLogic.bal _ f).

  Lemma b_tryParseAfterClause  s : bal s (0) tryParseAfterClause.
  Proof. clear - Hc. unfold tryParseAfterClause. kstep. Qed.
  Local Hint Resolve b_tryParseAfterClause : keep.
  Lemma b_parsePartitionClause (p : pos) s : bal s (0) (parsePartitionClause p).
  Proof. clear - Hc. unfold parsePartitionClause. kstep. Qed.
  Local Hint Resolve b_parsePartitionClause : keep.
  Lemma b_tryParsePartitionClause  s : bal s (0) tryParsePartitionClause.
  Proof. clear - Hc. unfold tryParsePartitionClause. kstep. Qed.
  Local Hint Resolve b_tryParsePartitionClause : keep.
  Lemma b_parseAlterTableAddColumn (p : pos) s : bal s (0) (parseAlterTableAddColumn p).
  Proof. clear - Hc. unfold parseAlterTableAddColumn. kstep. Qed.
  Local Hint Resolve b_parseAlterTableAddColumn : keep.
  Lemma b_parseAlterTableAddIndex (p : pos) s : bal s (0) (parseAlterTableAddIndex p).
  Proof. clear - Hc. unfold parseAlterTableAddIndex. kstep. Qed.
  Local Hint Resolve b_parseAlterTableAddIndex : keep.
  Lemma b_parseAlterTableAddProjection (p : pos) s : bal s (0) (parseAlterTableAddProjection p).
  Proof. clear - Hc. unfold parseAlterTableAddProjection. kstep. Qed.
  Local Hint Resolve b_parseAlterTableAddProjection : keep.
  Lemma b_parseAlterTableAdd (p : pos) s : bal s (0) (parseAlterTableAdd p).
  Proof. clear - Hc. unfold parseAlterTableAdd. kstep. Qed.
  Local Hint Resolve b_parseAlterTableAdd : keep.
  Lemma b_parseAlterTableDropClause (p : pos) s : bal s (0) (parseAlterTableDropClause p).
  Proof. clear - Hc. unfold parseAlterTableDropClause. kstep. Qed.
  Local Hint Resolve b_parseAlterTableDropClause : keep.
  Lemma b_parseAlterTableDropPartition (p : pos) s : bal s (0) (parseAlterTableDropPartition p).
  Proof. clear - Hc. unfold parseAlterTableDropPartition. kstep. Qed.
  Local Hint Resolve b_parseAlterTableDropPartition : keep.
  Lemma b_parseAlterTableDrop (p : pos) s : bal s (0) (parseAlterTableDrop p).
  Proof. clear - Hc. unfold parseAlterTableDrop. kstep. Qed.
  Local Hint Resolve b_parseAlterTableDrop : keep.
  Lemma b_parseAlterTableDetachPartition (p : pos) s : bal s (0) (parseAlterTableDetachPartition p).
  Proof. clear - Hc. unfold parseAlterTableDetachPartition. kstep. Qed.
  Local Hint Resolve b_parseAlterTableDetachPartition : keep.
  Lemma b_parseAlterTableAttachPartition (p : pos) s : bal s (0) (parseAlterTableAttachPartition p).
  Proof. clear - Hc. unfold parseAlterTableAttachPartition. kstep. Qed.
  Local Hint Resolve b_parseAlterTableAttachPartition : keep.
  Lemma b_parseAlterTableFreezePartition (p : pos) s : bal s (0) (parseAlterTableFreezePartition p).
  Proof. clear - Hc. unfold parseAlterTableFreezePartition. kstep. Qed.
  Local Hint Resolve b_parseAlterTableFreezePartition : keep.
  Lemma b_parseAlterTableRemoveTTL (p : pos) s : bal s (0) (parseAlterTableRemoveTTL p).
  Proof. clear - Hc. unfold parseAlterTableRemoveTTL. kstep. Qed.
  Local Hint Resolve b_parseAlterTableRemoveTTL : keep.
  Lemma b_parseAlterTableClearClause (p : pos) s : bal s (0) (parseAlterTableClearClause p).
  Proof. clear - Hc. unfold parseAlterTableClearClause. kstep. Qed.
  Local Hint Resolve b_parseAlterTableClearClause : keep.
  Lemma b_parseAlterTableClear (p : pos) s : bal s (0) (parseAlterTableClear p).
  Proof. clear - Hc. unfold parseAlterTableClear. kstep. Qed.
  Local Hint Resolve b_parseAlterTableClear : keep.
  Lemma b_parseAlterTableRenameColumn (p : pos) s : bal s (0) (parseAlterTableRenameColumn p).
  Proof. clear - Hc. unfold parseAlterTableRenameColumn. kstep. Qed.
  Local Hint Resolve b_parseAlterTableRenameColumn : keep.
  Lemma b_tryParseRemovePropertyTypeExpr  s : bal s (0) tryParseRemovePropertyTypeExpr.
  Proof. clear - Hc. unfold tryParseRemovePropertyTypeExpr. kstep. Qed.
  Local Hint Resolve b_tryParseRemovePropertyTypeExpr : keep.
  Lemma b_parseAlterTableModifyColumn (p : pos) s : bal s (0) (parseAlterTableModifyColumn p).
  Proof. clear - Hc. unfold parseAlterTableModifyColumn. kstep. Qed.
  Local Hint Resolve b_parseAlterTableModifyColumn : keep.
  Lemma b_parseAlterTableModify (p : pos) s : bal s (0) (parseAlterTableModify p).
  Proof. clear - Hc. unfold parseAlterTableModify. kstep. Qed.
  Local Hint Resolve b_parseAlterTableModify : keep.
  Lemma b_parseAlterTableReplacePartition (p : pos) s : bal s (0) (parseAlterTableReplacePartition p).
  Proof. clear - Hc. unfold parseAlterTableReplacePartition. kstep. Qed.
  Local Hint Resolve b_parseAlterTableReplacePartition : keep.
  Lemma b_parseAlterTableMaterialize (p : pos) s : bal s (0) (parseAlterTableMaterialize p).
  Proof. clear - Hc. unfold parseAlterTableMaterialize. kstep. Qed.
  Local Hint Resolve b_parseAlterTableMaterialize : keep.
  Lemma b_parseAlterTableReset (p : pos) s : bal s (0) (parseAlterTableReset p).
  Proof. clear - Hc. unfold parseAlterTableReset. kstep. Qed.
  Local Hint Resolve b_parseAlterTableReset : keep.
  Lemma b_parseAlterTableDelete (p : pos) s : bal s (0) (parseAlterTableDelete p).
  Proof. clear - Hc. unfold parseAlterTableDelete. kstep. Qed.
  Local Hint Resolve b_parseAlterTableDelete : keep.
  Lemma b_parseUpdateAssignment  s : bal s (0) parseUpdateAssignment.
  Proof. clear - Hc. unfold parseUpdateAssignment. kstep. Qed.
  Local Hint Resolve b_parseUpdateAssignment : keep.
  Lemma b_parseAlterTableUpdate (p : pos) s : bal s (0) (parseAlterTableUpdate p).
  Proof. clear - Hc. unfold parseAlterTableUpdate. kstep. Qed.
  Local Hint Resolve b_parseAlterTableUpdate : keep.
  Lemma b_parseAlterTableItem  s : bal s (0) parseAlterTableItem.
  Proof. clear - Hc. unfold parseAlterTableItem. kstep. Qed.
  Local Hint Resolve b_parseAlterTableItem : keep.
  Lemma b_parseAlterTable (p : pos) s : bal s (0) (parseAlterTable p).
  Proof. clear - Hc. unfold parseAlterTable. kstep. Qed.
  Local Hint Resolve b_parseAlterTable : keep.
End Keep.
Global Hint Resolve b_tryParseAfterClause b_parsePartitionClause b_tryParsePartitionClause b_parseAlterTableAddColumn b_parseAlterTableAddIndex b_parseAlterTableAddProjection b_parseAlterTableAdd b_parseAlterTableDropClause b_parseAlterTableDropPartition b_parseAlterTableDrop b_parseAlterTableDetachPartition b_parseAlterTableAttachPartition b_parseAlterTableFreezePartition b_parseAlterTableRemoveTTL b_parseAlterTableClearClause b_parseAlterTableClear b_parseAlterTableRenameColumn b_tryParseRemovePropertyTypeExpr b_parseAlterTableModifyColumn b_parseAlterTableModify b_parseAlterTableReplacePartition b_parseAlterTableMaterialize b_parseAlterTableReset b_parseAlterTableDelete b_parseUpdateAssignment b_parseAlterTableUpdate b_parseAlterTableItem b_parseAlterTable : keep.
