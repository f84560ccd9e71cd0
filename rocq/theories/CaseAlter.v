(** Proofs for C24: the functions of ParserAlter.v on two inputs that are the same up to the spelling of keywords. *)
From Coq Require Import String List Arith Bool Lia ZArith.
From Verif Require Import Str Keyword Lexer Ast AstPos AstSubs Prog RunFacts ParserCommon ParserExpr ParserQuery ParserTable ParserAlter ParserView ParserSystem Parser Recase CaseRel CaseFold CaseItem CaseCommon CaseExpr CaseQuery CaseTable.
Import ListNotations.
Local Open Scope string_scope.
Local Open Scope nat_scope.

Section Case.
  Context {f : nat} (Hc : calls f).
  Local Notation sim := (@CaseRel.sim f _ _).

  Lemma c_tryParseAfterClause  : sim (tryParseAfterClause) (tryParseAfterClause).
  Proof. clear - Hc. intros. unfold tryParseAfterClause. step. Qed.
  Local Hint Resolve c_tryParseAfterClause : case.
  Lemma c_parsePartitionClause (p : pos) : sim (parsePartitionClause p) (parsePartitionClause p).
  Proof. clear - Hc. intros. unfold parsePartitionClause. step. Qed.
  Local Hint Resolve c_parsePartitionClause : case.
  Lemma c_tryParsePartitionClause  : sim (tryParsePartitionClause) (tryParsePartitionClause).
  Proof. clear - Hc. intros. unfold tryParsePartitionClause. step. Qed.
  Local Hint Resolve c_tryParsePartitionClause : case.
  Lemma c_parseAlterTableAddColumn (p : pos) : sim (parseAlterTableAddColumn p) (parseAlterTableAddColumn p).
  Proof. clear - Hc. intros. unfold parseAlterTableAddColumn. step. Qed.
  Local Hint Resolve c_parseAlterTableAddColumn : case.
  Lemma c_parseAlterTableAddIndex (p : pos) : sim (parseAlterTableAddIndex p) (parseAlterTableAddIndex p).
  Proof. clear - Hc. intros. unfold parseAlterTableAddIndex. step. Qed.
  Local Hint Resolve c_parseAlterTableAddIndex : case.
  Lemma c_parseAlterTableAddProjection (p : pos) : sim (parseAlterTableAddProjection p) (parseAlterTableAddProjection p).
  Proof. clear - Hc. intros. unfold parseAlterTableAddProjection. step. Qed.
  Local Hint Resolve c_parseAlterTableAddProjection : case.
  Lemma c_parseAlterTableAdd (p : pos) : sim (parseAlterTableAdd p) (parseAlterTableAdd p).
  Proof. clear - Hc. intros. unfold parseAlterTableAdd. step. Qed.
  Local Hint Resolve c_parseAlterTableAdd : case.
  Lemma c_parseAlterTableDropClause (p : pos) : sim (parseAlterTableDropClause p) (parseAlterTableDropClause p).
  Proof. clear - Hc. intros. unfold parseAlterTableDropClause. step. Qed.
  Local Hint Resolve c_parseAlterTableDropClause : case.
  Lemma c_parseAlterTableDropPartition (p : pos) : sim (parseAlterTableDropPartition p) (parseAlterTableDropPartition p).
  Proof. clear - Hc. intros. unfold parseAlterTableDropPartition. step. Qed.
  Local Hint Resolve c_parseAlterTableDropPartition : case.
  Lemma c_parseAlterTableDrop (p : pos) : sim (parseAlterTableDrop p) (parseAlterTableDrop p).
  Proof. clear - Hc. intros. unfold parseAlterTableDrop. step. Qed.
  Local Hint Resolve c_parseAlterTableDrop : case.
  Lemma c_parseAlterTableDetachPartition (p : pos) : sim (parseAlterTableDetachPartition p) (parseAlterTableDetachPartition p).
  Proof. clear - Hc. intros. unfold parseAlterTableDetachPartition. step. Qed.
  Local Hint Resolve c_parseAlterTableDetachPartition : case.
  Lemma c_parseAlterTableAttachPartition (p : pos) : sim (parseAlterTableAttachPartition p) (parseAlterTableAttachPartition p).
  Proof. clear - Hc. intros. unfold parseAlterTableAttachPartition. step. Qed.
  Local Hint Resolve c_parseAlterTableAttachPartition : case.
  Lemma c_parseAlterTableFreezePartition (p : pos) : sim (parseAlterTableFreezePartition p) (parseAlterTableFreezePartition p).
  Proof. clear - Hc. intros. unfold parseAlterTableFreezePartition. step. Qed.
  Local Hint Resolve c_parseAlterTableFreezePartition : case.
  Lemma c_parseAlterTableRemoveTTL (p : pos) : sim (parseAlterTableRemoveTTL p) (parseAlterTableRemoveTTL p).
  Proof. clear - Hc. intros. unfold parseAlterTableRemoveTTL. step. Qed.
  Local Hint Resolve c_parseAlterTableRemoveTTL : case.
  Lemma c_parseAlterTableClearClause (p : pos) : sim (parseAlterTableClearClause p) (parseAlterTableClearClause p).
  Proof. clear - Hc. intros. unfold parseAlterTableClearClause. step. Qed.
  Local Hint Resolve c_parseAlterTableClearClause : case.
  Lemma c_parseAlterTableClear (p : pos) : sim (parseAlterTableClear p) (parseAlterTableClear p).
  Proof. clear - Hc. intros. unfold parseAlterTableClear. step. Qed.
  Local Hint Resolve c_parseAlterTableClear : case.
  Lemma c_parseAlterTableRenameColumn (p : pos) : sim (parseAlterTableRenameColumn p) (parseAlterTableRenameColumn p).
  Proof. clear - Hc. intros. unfold parseAlterTableRenameColumn. step. Qed.
  Local Hint Resolve c_parseAlterTableRenameColumn : case.
  Lemma c_tryParseRemovePropertyTypeExpr  : sim (tryParseRemovePropertyTypeExpr) (tryParseRemovePropertyTypeExpr).
  Proof. clear - Hc. intros. unfold tryParseRemovePropertyTypeExpr. step. Qed.
  Local Hint Resolve c_tryParseRemovePropertyTypeExpr : case.
  Lemma c_parseAlterTableModifyColumn (p : pos) : sim (parseAlterTableModifyColumn p) (parseAlterTableModifyColumn p).
  Proof. clear - Hc. intros. unfold parseAlterTableModifyColumn. step. Qed.
  Local Hint Resolve c_parseAlterTableModifyColumn : case.
  Lemma c_parseAlterTableModify (p : pos) : sim (parseAlterTableModify p) (parseAlterTableModify p).
  Proof. clear - Hc. intros. unfold parseAlterTableModify. step. Qed.
  Local Hint Resolve c_parseAlterTableModify : case.
  Lemma c_parseAlterTableReplacePartition (p : pos) : sim (parseAlterTableReplacePartition p) (parseAlterTableReplacePartition p).
  Proof. clear - Hc. intros. unfold parseAlterTableReplacePartition. step. Qed.
  Local Hint Resolve c_parseAlterTableReplacePartition : case.
  Lemma c_parseAlterTableMaterialize (p : pos) : sim (parseAlterTableMaterialize p) (parseAlterTableMaterialize p).
  Proof. clear - Hc. intros. unfold parseAlterTableMaterialize. step. Qed.
  Local Hint Resolve c_parseAlterTableMaterialize : case.
  Lemma c_parseAlterTableReset (p : pos) : sim (parseAlterTableReset p) (parseAlterTableReset p).
  Proof. clear - Hc. intros. unfold parseAlterTableReset. step. Qed.
  Local Hint Resolve c_parseAlterTableReset : case.
  Lemma c_parseAlterTableDelete (p : pos) : sim (parseAlterTableDelete p) (parseAlterTableDelete p).
  Proof. clear - Hc. intros. unfold parseAlterTableDelete. step. Qed.
  Local Hint Resolve c_parseAlterTableDelete : case.
  Lemma c_parseUpdateAssignment  : sim (parseUpdateAssignment) (parseUpdateAssignment).
  Proof. clear - Hc. intros. unfold parseUpdateAssignment. step. Qed.
  Local Hint Resolve c_parseUpdateAssignment : case.
  Lemma c_parseAlterTableUpdate (p : pos) : sim (parseAlterTableUpdate p) (parseAlterTableUpdate p).
  Proof. clear - Hc. intros. unfold parseAlterTableUpdate. step. Qed.
  Local Hint Resolve c_parseAlterTableUpdate : case.
  Lemma c_parseAlterTableItem  : sim (parseAlterTableItem) (parseAlterTableItem).
  Proof. clear - Hc. intros. unfold parseAlterTableItem. step. Qed.
  Local Hint Resolve c_parseAlterTableItem : case.
  Lemma c_parseAlterTable (p : pos) : sim (parseAlterTable p) (parseAlterTable p).
  Proof. clear - Hc. intros. unfold parseAlterTable. step. Qed.
  Local Hint Resolve c_parseAlterTable : case.
End Case.
Global Hint Resolve c_tryParseAfterClause c_parsePartitionClause c_tryParsePartitionClause c_parseAlterTableAddColumn c_parseAlterTableAddIndex c_parseAlterTableAddProjection c_parseAlterTableAdd c_parseAlterTableDropClause c_parseAlterTableDropPartition c_parseAlterTableDrop c_parseAlterTableDetachPartition c_parseAlterTableAttachPartition c_parseAlterTableFreezePartition c_parseAlterTableRemoveTTL c_parseAlterTableClearClause c_parseAlterTableClear c_parseAlterTableRenameColumn c_tryParseRemovePropertyTypeExpr c_parseAlterTableModifyColumn c_parseAlterTableModify c_parseAlterTableReplacePartition c_parseAlterTableMaterialize c_parseAlterTableReset c_parseAlterTableDelete c_parseUpdateAssignment c_parseAlterTableUpdate c_parseAlterTableItem c_parseAlterTable : case.
