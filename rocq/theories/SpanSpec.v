(** Specification for C35: the nodes on which [Pos] and [End] are claimed to be defined. It
    mentions the syntax tree only, not the parser. *)
From Coq Require Import String List.
From Verif Require Import Ast.

(** Not the parts that are not [Expr] in Go (they have no [Pos] and [End]), and not the
    shapes for which [End] dereferences a nil field: a setting without value, [f()] as an
    argument of a dictionary source, role settings ending in a setting without value,
    [PARTITION ALL], and the statements that end with one of these; CHECK TABLE without
    partition. *)
Definition wants (e : expr) : bool :=
  match e with
  | ENil | EKeyValue _ _ | EJSONPath _ | EJSONTypeHint _ _ | EJSONOption _ _ _ _ _ => false
  | ESettingPair _ _ ENil | EFunctionExpr _ ENil => false
  | ERoleSetting l ENil => match last l ENil with ENil | ESettingPair _ _ ENil => false | _ => true end
  | EPartitionClause _ ENil ENil _ => false
  | EAlterTableAttachPartition _ (EPartitionClause _ ENil ENil _) ENil => false
  | EDictionaryArgExpr _ _ (EFunctionExpr _ ENil) _ _ _ => false
  | ECheckStmt _ _ ENil | ECheckStmt _ _ (EPartitionClause _ ENil ENil _) => false
  | _ => true
  end.
