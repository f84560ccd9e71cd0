(** Model of parser/format.go.

    A [FormatSQL] method is a sequence of calls on the formatter; which calls it makes
    depends on the node and on the mode only, never on what was written before. [steps]
    lists the calls of the method of one node; [fmt] replaces the calls of [WriteExpr] by the
    calls that they lead to; [play] is the formatter itself, byte by byte. *)
From Coq Require Import String Ascii List Arith Bool.
From Verif Require Import Str Lexer Ast AstPos AstSubs.
Import ListNotations.
Local Open Scope list_scope.
Local Open Scope nat_scope.

(** ** The calls that a FormatSQL method makes *)

(** [SExpr] is format.go:77-82 [WriteExpr] for a field of interface type, which skips nil. [SPtr] is the same
    for a field of pointer type (or a method call on it): there a nil pointer makes a non-nil interface value, and the
    method of the node panics on it. [SCompact] is format.go:2630-2635: the compact text of a
    node, with a blank before it when it does not start with a parenthesis. [SPanic]: a nil dereference. *)
Inductive step : Type :=
| SW (s : string)
| SBreak
| SNewLine
| SIndent
| SDedent
| SExpr (e : expr)
| SPtr (e : expr)
| SCompact (e : expr)
| SPanic.

Definition when (c : bool) (l : list step) : list step := if c then l else [].

(** An unguarded access to a field of [e]. *)
Definition need (e : expr) (l : list step) : list step := if is_nil e then [SPanic] else l.

(** [for i, x := range l], where the body gets [i == 0] and [i == len(l)-1]. *)
Fixpoint each_from {A} (first : bool) (f : bool -> bool -> A -> list step) (l : list A) : list step :=
  match l with
  | [] => []
  | x :: r => f first (is_empty r) x ++ each_from false f r
  end.
Definition each {A} (f : bool -> bool -> A -> list step) (l : list A) : list step := each_from true f l.

(** Fields of the nodes below a node. *)
Definition ColumnExprList_Items (e : expr) : list expr := match e with EColumnExprList _ _ _ Items => Items | _ => [] end.
Definition DestinationClause_TableSchema (e : expr) : expr := match e with EDestinationClause _ _ TableSchema => TableSchema | _ => ENil end.
Definition JSONTypeHint_Path (e : expr) : expr := match e with EJSONTypeHint Path _ => Path | _ => ENil end.
Definition JSONTypeHint_Type (e : expr) : expr := match e with EJSONTypeHint _ Type_ => Type_ | _ => ENil end.
Definition KeyValue_Key (e : expr) : expr := match e with EKeyValue Key _ => Key | _ => ENil end.
Definition KeyValue_Value (e : expr) : expr := match e with EKeyValue _ Value => Value | _ => ENil end.
Definition NumberLiteral_Literal (e : expr) : string := match e with ENumberLiteral _ _ Literal _ => Literal | _ => "" end.
Definition SettingsClause_Items (e : expr) : list expr := match e with ESettingsClause _ _ Items => Items | _ => [] end.
Definition StringLiteral_Literal (e : expr) : string := match e with EStringLiteral _ _ Literal => Literal | _ => "" end.
Definition TargetPair_New (e : expr) : expr := match e with ETargetPair _ New => New | _ => ENil end.
Definition TargetPair_Old (e : expr) : expr := match e with ETargetPair Old _ => Old | _ => ENil end.
Definition WithClause_CTEs (e : expr) : list expr := match e with EWithClause _ _ CTEs => CTEs | _ => [] end.

(** format.go:2655 and alike: the double quote character. *)
Definition dquote : string := String (ch 34) "".

(** format.go:120-127 [isLogicalOp]. *)
Definition logical_op (op : string) : bool := String.eqb op "AND" || String.eqb op "OR".

(** format.go:129-134 [isLogicalBinaryOp]. *)
Definition is_logical (e : expr) : bool := match e with EBinaryOperation _ op _ _ _ => logical_op op | _ => false end.

(** format.go:136-144 [writeLogicalOperand]. *)
Definition logical_operand (e : expr) : list step := if is_logical e then [SExpr e] else [SIndent; SExpr e; SDedent].

(** format.go:149-157 [writeOperatorPrefix]. *)
Definition operator_prefix (HasGlobal HasNot : bool) : list step := when HasGlobal [SW "GLOBAL "] ++ when HasNot [SW "NOT "].

(** The type assertion of format.go:182 and 594. *)
Definition is_select (e : expr) : bool := match e with ESelectQuery _ _ _ _ _ _ _ _ _ _ _ _ _ _ _ _ _ _ _ _ _ _ _ => true | _ => false end.

(** format.go:1272-1295: the clauses that are present, with breaks between them. *)
Definition between_breaks (l : list expr) : list step := each (fun first _ x => when (negb first) [SBreak] ++ [SPtr x]) l.

(** format.go:1817-1832: the group of an option, in the order in which the groups are written. *)
Definition json_group (e : expr) : nat :=
  match e with
  | EJSONOption SkipPath SkipRegex MaxDynamicPaths MaxDynamicTypes Column =>
      if negb (is_nil MaxDynamicPaths) || negb (is_nil MaxDynamicTypes) then 1
      else if negb (is_nil Column) then 2
      else if negb (is_nil SkipPath) || negb (is_nil SkipRegex) then 3
      else 1
  | _ => 1
  end.

(** format.go:1875-1901 [writeJoinSQL]. *)
Fixpoint join_steps (e : expr) : list step :=
  match e with
  | EJoinExpr _ Left Right Modifiers Constraints =>
      (if is_empty Modifiers then [SW ","; SExpr Left]
       else [SBreak; SW (String.concat " " Modifiers); SIndent; SBreak; SExpr Left]
            ++ when (negb (is_nil Constraints)) [SW " "; SExpr Constraints] ++ [SDedent])
      ++ when (negb (is_nil Right)) (join_steps Right)
  | _ => [SW ","; SExpr e]
  end.

(** format.go:159-2895: the calls of [FormatSQL]. Generated from the method bodies, except for the
    methods with local variables (BinaryOperation, BetweenClause, Ident, DictionaryEngineClause, JSONOption, JSONOptions,
    JoinExpr, TableIndex, WindowExpr, TopClause). [b] is [formatter.mode == FormatModeBeautify]. KeyValue and
    JSONTypeHint have no such method. *)
Definition steps (b : bool) (e : expr) : list step :=
  match e with
  | ENil | EKeyValue _ _ | EJSONTypeHint _ _ => [SPanic]
  | ESelectItem Expr Modifiers Alias => (* format.go:2276-2286 *)
      [SExpr Expr] ++ each (fun _ _ x => [SW " "; SPtr x]) Modifiers ++ when (negb (is_nil Alias)) [SW " AS "; SPtr Alias]
  | EOperationExpr _ Kind => (* format.go:2027-2029 *)
      [SW (upper Kind)]
  | ETernaryOperation Condition TrueExpr FalseExpr => (* format.go:2688-2694 *)
      [SExpr Condition; SW " ? "; SExpr TrueExpr; SW " : "; SExpr FalseExpr]
  | EBinaryOperation LeftExpr Operation RightExpr HasGlobal HasNot => (* format.go:159-179 *)
      if logical_op Operation && b then
        logical_operand LeftExpr ++ [SNewLine] ++ operator_prefix HasGlobal HasNot ++ [SW Operation; SNewLine] ++ logical_operand RightExpr
      else
        [SExpr LeftExpr] ++ when (negb (String.eqb Operation "::")) [SW " "] ++ operator_prefix HasGlobal HasNot ++ [SW Operation]
        ++ when (negb (String.eqb Operation "::")) [SW " "] ++ [SExpr RightExpr]
  | EIndexOperation Object Operation Index => (* format.go:1677-1681 *)
      [SExpr Object; SW Operation; SExpr Index]
  | EJoinTableExpr Table _ SampleRatio HasFinal => (* format.go:1903-1912 *)
      [SPtr Table] ++ when (negb (is_nil SampleRatio)) [SW " "; SPtr SampleRatio] ++ when (HasFinal) [SW " FINAL"]
  | EAlterTable _ _ TableIdentifier OnCluster AlterExprs => (* format.go:219-233 *)
      [SW "ALTER TABLE "; SPtr TableIdentifier] ++ when (negb (is_nil OnCluster)) [SBreak; SPtr OnCluster]
      ++ each (fun _ last x => [SBreak; SExpr x] ++ when (negb last) [SW ","]) AlterExprs
  | EAlterTableAttachPartition _ Partition From => (* format.go:275-282 *)
      [SW "ATTACH "; SPtr Partition] ++ when (negb (is_nil From)) [SW " FROM "; SPtr From]
  | EAlterTableDetachPartition _ Partition Settings => (* format.go:333-340 *)
      [SW "DETACH "; SPtr Partition] ++ when (negb (is_nil Settings)) [SBreak; SPtr Settings]
  | EAlterTableDropPartition _ HasDetached Partition Settings => (* format.go:358-368 *)
      [SW "DROP "] ++ when (HasDetached) [SW "DETACHED "] ++ [SPtr Partition]
      ++ when (negb (is_nil Settings)) [SBreak; SPtr Settings]
  | EAlterTableMaterializeProjection _ _ IfExists ProjectionName Partition => (* format.go:401-414 *)
      [SW "MATERIALIZE PROJECTION"] ++ when (IfExists) [SW " IF EXISTS"] ++ [SW " "; SPtr ProjectionName]
      ++ when (negb (is_nil Partition)) [SBreak; SW "IN "; SPtr Partition]
  | EAlterTableMaterializeIndex _ _ IfExists IndexName Partition => (* format.go:386-399 *)
      [SW "MATERIALIZE INDEX"] ++ when (IfExists) [SW " IF EXISTS"] ++ [SW " "; SPtr IndexName]
      ++ when (negb (is_nil Partition)) [SBreak; SW "IN "; SPtr Partition]
  | EAlterTableFreezePartition _ _ Partition => (* format.go:378-384 *)
      [SW "FREEZE"] ++ when (negb (is_nil Partition)) [SW " "; SPtr Partition]
  | EAlterTableAddColumn _ _ Column IfNotExists After Settings => (* format.go:235-249 *)
      [SW "ADD COLUMN "] ++ when (IfNotExists) [SW "IF NOT EXISTS "] ++ [SPtr Column]
      ++ when (negb (is_nil After)) [SW " AFTER "; SPtr After] ++ when (negb (is_nil Settings)) [SBreak; SPtr Settings]
  | EAlterTableAddIndex _ _ Index IfNotExists After => (* format.go:251-261 *)
      [SW "ADD "] ++ when (IfNotExists) [SW "IF NOT EXISTS "] ++ [SPtr Index]
      ++ when (negb (is_nil After)) [SW " AFTER "; SPtr After]
  | EProjectionOrderByClause _ Columns => (* format.go:2145-2148 *)
      [SW "ORDER BY "; SPtr Columns]
  | EProjectionSelectStmt _ _ With SelectColumns GroupBy OrderBy => (* format.go:2150-2167 *)
      [SW "("] ++ when (negb (is_nil With)) [SPtr With; SW " "] ++ [SW "SELECT "; SPtr SelectColumns]
      ++ when (negb (is_nil GroupBy)) [SW " "; SPtr GroupBy] ++ when (negb (is_nil OrderBy)) [SW " "; SPtr OrderBy]
      ++ [SW ")"]
  | ETableProjection IncludeProjectionKeyword _ Identifier Select => (* format.go:2646-2653 *)
      when (IncludeProjectionKeyword) [SW "PROJECTION "] ++ [SPtr Identifier; SW " "; SPtr Select]
  | EAlterTableAddProjection _ _ IfNotExists TableProjection After => (* format.go:263-273 *)
      [SW "ADD PROJECTION "] ++ when (IfNotExists) [SW "IF NOT EXISTS "] ++ [SPtr TableProjection]
      ++ when (negb (is_nil After)) [SW " AFTER "; SPtr After]
  | EAlterTableDropColumn _ ColumnName IfExists => (* format.go:342-348 *)
      [SW "DROP COLUMN "] ++ when (IfExists) [SW "IF EXISTS "] ++ [SPtr ColumnName]
  | EAlterTableDropIndex _ IndexName IfExists => (* format.go:350-356 *)
      [SW "DROP INDEX "] ++ when (IfExists) [SW "IF EXISTS "] ++ [SPtr IndexName]
  | EAlterTableDropProjection _ ProjectionName IfExists => (* format.go:370-376 *)
      [SW "DROP PROJECTION "] ++ when (IfExists) [SW "IF EXISTS "] ++ [SPtr ProjectionName]
  | EAlterTableRemoveTTL _ _ => (* format.go:460-462 *)
      [SW "REMOVE TTL"]
  | EAlterTableClearColumn _ _ IfExists ColumnName PartitionExpr => (* format.go:284-296 *)
      [SW "CLEAR COLUMN "] ++ when (IfExists) [SW "IF EXISTS "] ++ [SPtr ColumnName]
      ++ when (negb (is_nil PartitionExpr)) [SBreak; SW "IN "; SPtr PartitionExpr]
  | EAlterTableClearIndex _ _ IfExists IndexName PartitionExpr => (* format.go:298-310 *)
      [SW "CLEAR INDEX "] ++ when (IfExists) [SW "IF EXISTS "] ++ [SPtr IndexName]
      ++ when (negb (is_nil PartitionExpr)) [SBreak; SW "IN "; SPtr PartitionExpr]
  | EAlterTableClearProjection _ _ IfExists ProjectionName PartitionExpr => (* format.go:312-324 *)
      [SW "CLEAR PROJECTION "] ++ when (IfExists) [SW "IF EXISTS "] ++ [SPtr ProjectionName]
      ++ when (negb (is_nil PartitionExpr)) [SBreak; SW "IN "; SPtr PartitionExpr]
  | EAlterTableRenameColumn _ IfExists OldColumnName NewColumnName => (* format.go:464-472 *)
      [SW "RENAME COLUMN "] ++ when (IfExists) [SW "IF EXISTS "] ++ [SPtr OldColumnName; SW " TO "; SPtr NewColumnName]
  | EAlterTableModifyQuery _ _ SelectExpr => (* format.go:427-433 *)
      [SW "MODIFY QUERY"; SIndent; SBreak; SPtr SelectExpr; SDedent]
  | EAlterTableModifyOrderBy _ _ OrderBy => (* format.go:435-438 *)
      [SW "MODIFY ORDER BY "; SExpr OrderBy]
  | EAlterTableModifyTTL _ _ TTL => (* format.go:455-458 *)
      [SW "MODIFY "; SPtr TTL]
  | EAlterTableModifyColumn _ _ IfExists Column RemovePropertyType => (* format.go:416-425 *)
      [SW "MODIFY COLUMN "] ++ when (IfExists) [SW "IF EXISTS "] ++ [SPtr Column]
      ++ when (negb (is_nil RemovePropertyType)) [SPtr RemovePropertyType]
  | EAlterTableModifySetting _ _ Settings => (* format.go:440-453 *)
      [SW "MODIFY SETTING"; SIndent] ++ each (fun first _ x => (if first then [SBreak] else [SW ","; SBreak])
      ++ [SPtr x]) Settings ++ [SDedent]
  | EAlterTableResetSetting _ _ Settings => (* format.go:481-494 *)
      [SW "RESET SETTING"; SIndent] ++ each (fun first _ x => (if first then [SBreak] else [SW ","; SBreak])
      ++ [SPtr x]) Settings ++ [SDedent]
  | EAlterTableReplacePartition _ Partition Table => (* format.go:474-479 *)
      [SW "REPLACE "; SPtr Partition; SW " FROM "; SPtr Table]
  | EAlterTableDelete _ _ WhereClause => (* format.go:326-331 *)
      [SW "DELETE"; SBreak; SW "WHERE "; SExpr WhereClause]
  | EAlterTableUpdate _ _ Assignments InPartition WhereClause => (* format.go:496-517 *)
      [SW "UPDATE"; SIndent] ++ each (fun first _ x => (if first then [SBreak] else [SW ","; SBreak])
      ++ [SPtr x]) Assignments ++ [SDedent] ++ when (negb (is_nil InPartition)) [SBreak; SW "IN "; SPtr InPartition]
      ++ [SBreak; SW "WHERE "; SExpr WhereClause]
  | EUpdateAssignment _ Column Expr => (* format.go:2751-2755 *)
      [SPtr Column; SW " = "; SExpr Expr]
  | ERemovePropertyType _ PropertyType => (* format.go:2202-2205 *)
      [SW " REMOVE "; SExpr PropertyType]
  | ETableIndex _ Name ColumnExpr ColumnType Granularity => (* format.go:2626-2644 *)
      [SW "INDEX"; SW " "; SPtr Name; SCompact ColumnExpr; SW " "; SW "TYPE"; SW " "; SExpr ColumnType; SW " "; SW "GRANULARITY"; SW " "; SPtr Granularity]
  | EIdent Name QuoteType _ _ => (* format.go:1658-1675 *)
      if QuoteType =? QBackTicks then [SW "`"; SW Name; SW "`"]
      else if QuoteType =? QDouble then [SW dquote; SW Name; SW dquote]
      else if QuoteType =? QSingle then [SW "'"; SW Name; SW "'"]
      else [SW Name]
  | EUUID Value => (* format.go:2740-2743 *)
      [SW "UUID "; SPtr Value]
  | ECreateDatabase _ _ Name IfNotExists OnCluster Engine Comment => (* format.go:775-793 *)
      [SW "CREATE DATABASE "] ++ when (IfNotExists) [SW "IF NOT EXISTS "] ++ [SExpr Name]
      ++ when (negb (is_nil OnCluster)) [SW " "; SPtr OnCluster] ++ when (negb (is_nil Engine)) [SBreak; SPtr Engine]
      ++ when (negb (is_nil Comment)) [SW " COMMENT "; SPtr Comment]
  | ECreateTable _ _ OrReplace Name IfNotExists UUID OnCluster TableSchema Engine SubQuery TableFunction HasTemporary Comment => (* format.go:1026-1071 *)
      [SW "CREATE"] ++ when (OrReplace) [SW " OR REPLACE"] ++ when (HasTemporary) [SW " TEMPORARY"] ++ [SW " TABLE "]
      ++ when (IfNotExists) [SW "IF NOT EXISTS "] ++ [SPtr Name] ++ when (negb (is_nil UUID)) [SW " "; SPtr UUID]
      ++ when (negb (is_nil OnCluster)) [SW " "; SPtr OnCluster]
      ++ when (negb (is_nil TableSchema)) [SBreak; SPtr TableSchema] ++ when (negb (is_nil Engine)) [SBreak; SPtr Engine]
      ++ when (negb (is_nil SubQuery)) [SBreak; SW "AS "; SPtr SubQuery]
      ++ when (negb (is_nil TableFunction)) [SBreak; SW "AS "; SPtr TableFunction]
      ++ when (negb (is_nil Comment)) [SBreak; SW "COMMENT "; SPtr Comment]
  | ECreateMaterializedView _ _ Name IfNotExists OnCluster Refresh RandomizeFor DependsOn Settings HasAppend Engine TableSchema HasEmpty Destination SubQuery Populate Comment Definer SQLSecurity => (* format.go:888-972 *)
      [SW "CREATE MATERIALIZED VIEW "] ++ when (IfNotExists) [SW "IF NOT EXISTS "] ++ [SPtr Name]
      ++ when (negb (is_nil OnCluster)) [SBreak; SPtr OnCluster] ++ when (negb (is_nil Refresh)) [SBreak; SPtr Refresh]
      ++ when (negb (is_nil RandomizeFor)) [SBreak; SW "RANDOMIZE FOR "; SPtr RandomizeFor]
      ++ when (negb (is_empty DependsOn)) ([SBreak; SW "DEPENDS ON "]
      ++ each (fun first _ x => when (negb first) [SW ", "] ++ [SPtr x]) DependsOn)
      ++ when (negb (is_nil Settings)) [SBreak; SPtr Settings] ++ when (HasAppend) [SBreak; SW "APPEND"]
      ++ when (negb (is_nil TableSchema)) [SBreak; SPtr TableSchema] ++ when (negb (is_nil Engine)) [SBreak; SPtr Engine]
      ++ when (negb (is_nil Destination)) ([SBreak; SPtr Destination]
      ++ when (negb (is_nil (DestinationClause_TableSchema Destination))) [SBreak; SPtr (DestinationClause_TableSchema Destination)])
      ++ when (HasEmpty) [SBreak; SW "EMPTY"] ++ when (negb (is_nil Definer)) [SBreak; SW "DEFINER = "; SPtr Definer]
      ++ when (negb (String.eqb SQLSecurity "")) [SBreak; SW "SQL SECURITY "; SW SQLSecurity]
      ++ when (Populate) [SBreak; SW "POPULATE"]
      ++ when (negb (is_nil SubQuery)) [SBreak; SW "AS"; SIndent; SBreak; SPtr SubQuery; SDedent]
      ++ when (negb (is_nil Comment)) [SBreak; SW "COMMENT "; SPtr Comment]
  | ECreateView _ _ OrReplace Name IfNotExists UUID OnCluster TableSchema Comment SubQuery => (* format.go:1136-1170 *)
      [SW "CREATE"] ++ when (OrReplace) [SW " OR REPLACE"] ++ [SW " VIEW "] ++ when (IfNotExists) [SW "IF NOT EXISTS "]
      ++ [SPtr Name] ++ when (negb (is_nil UUID)) [SW " "; SPtr UUID]
      ++ when (negb (is_nil OnCluster)) [SW " "; SPtr OnCluster]
      ++ when (negb (is_nil TableSchema)) [SW " "; SPtr TableSchema]
      ++ when (negb (is_nil Comment)) [SW " COMMENT "; SPtr Comment]
      ++ when (negb (is_nil SubQuery)) [SW " AS "; SPtr SubQuery]
  | ECreateFunction _ OrReplace IfNotExists FunctionName OnCluster Params Expr => (* format.go:834-852 *)
      [SW "CREATE"] ++ when (OrReplace) [SW " OR REPLACE"] ++ [SW " FUNCTION "]
      ++ when (IfNotExists) [SW "IF NOT EXISTS "] ++ [SPtr FunctionName]
      ++ when (negb (is_nil OnCluster)) [SW " "; SPtr OnCluster] ++ [SW " AS "; SPtr Params; SW " -> "; SExpr Expr]
  | ERoleName Name Scope OnCluster => (* format.go:2223-2233 *)
      [SExpr Name] ++ when (negb (is_nil Scope)) [SW "@"; SPtr Scope]
      ++ when (negb (is_nil OnCluster)) [SW " "; SPtr OnCluster]
  | ESettingPair Name Operation Value => (* format.go:2410-2420 *)
      [SPtr Name] ++ when (negb (is_nil Value)) ((if String.eqb Operation "=" then [SW Operation] else [SW " "])
      ++ [SExpr Value])
  | ERoleSetting SettingPairs Modifier => (* format.go:2243-2256 *)
      each (fun first _ x => when (negb first) [SBreak] ++ [SPtr x]) SettingPairs
      ++ when (negb (is_nil Modifier)) (when (negb (is_empty SettingPairs)) [SBreak] ++ [SPtr Modifier])
  | ECreateRole _ _ IfNotExists OrReplace RoleNames AccessStorageType Settings => (* format.go:993-1024 *)
      [SW "CREATE ROLE "] ++ when (IfNotExists) [SW "IF NOT EXISTS "] ++ when (OrReplace) [SW "OR REPLACE "]
      ++ each (fun first _ x => when (negb first) [SW ", "] ++ [SPtr x]) RoleNames
      ++ when (negb (is_nil AccessStorageType)) [SW " IN "; SPtr AccessStorageType]
      ++ when (negb (is_empty Settings)) ([SBreak; SW "SETTINGS"; SIndent]
      ++ each (fun first _ x => when (negb first) [SW ","] ++ [SBreak; SPtr x]) Settings ++ [SDedent])
  | EAuthenticationClause _ _ NotIdentified AuthType AuthValue LdapServer KerberosRealm IsKerberos => (* format.go:541-568 *)
      (if NotIdentified then [SW "NOT IDENTIFIED"] else [SW "IDENTIFIED"]
      ++ when (negb (String.eqb AuthType "")) [SW " WITH "; SW AuthType]
      ++ when (negb (is_nil AuthValue)) [SW " BY "; SPtr AuthValue]
      ++ when (negb (is_nil LdapServer)) [SBreak; SW "WITH ldap SERVER "; SPtr LdapServer]
      ++ when (IsKerberos) ([SBreak; SW "WITH kerberos"]
      ++ when (negb (is_nil KerberosRealm) && negb (String.eqb (StringLiteral_Literal KerberosRealm) "")) [SW " REALM "; SPtr KerberosRealm]))
  | EHostClause _ _ HostType HostValue => (* format.go:1649-1656 *)
      [SW "HOST "; SW HostType] ++ when (negb (is_nil HostValue)) [SW " "; SPtr HostValue]
  | EDefaultRoleClause _ _ Roles None_ => (* format.go:1184-1196 *)
      [SW "DEFAULT ROLE "] ++ (if None_ then [SW "NONE"] else each (fun first _ x => when (negb first) [SW ", "]
      ++ [SPtr x]) Roles)
  | EGranteesClause _ _ Grantees ExceptUsers Any None_ => (* format.go:1589-1613 *)
      [SW "GRANTEES "]
      ++ (if Any then [SW "ANY"] else if None_ then [SW "NONE"] else each (fun first _ x => when (negb first) [SW ", "]
      ++ [SPtr x]) Grantees) ++ when (negb (is_empty ExceptUsers)) ([SBreak; SW "EXCEPT "]
      ++ each (fun first _ x => when (negb first) [SW ", "] ++ [SPtr x]) ExceptUsers)
  | ECreateUser _ _ IfNotExists OrReplace UserNames Authentication ValidUntil Hosts DefaultRole DefaultDatabase DefaultDbNone Grantees Settings => (* format.go:1073-1134 *)
      [SW "CREATE USER "] ++ when (IfNotExists) [SW "IF NOT EXISTS "] ++ when (OrReplace) [SW "OR REPLACE "]
      ++ each (fun first _ x => when (negb first) [SW ", "] ++ [SPtr x]) UserNames
      ++ when (negb (is_nil Authentication)) [SBreak; SPtr Authentication]
      ++ when (negb (is_nil ValidUntil)) [SBreak; SW "VALID UNTIL "; SPtr ValidUntil]
      ++ when (negb (is_empty Hosts)) ([SBreak] ++ each (fun first _ x => when (negb first) [SW ", "] ++ [SPtr x]) Hosts)
      ++ when (negb (is_nil DefaultRole)) [SBreak; SPtr DefaultRole]
      ++ (if negb (is_nil DefaultDatabase) then [SBreak; SW "DEFAULT DATABASE "; SPtr DefaultDatabase] else if DefaultDbNone then [SBreak; SW "DEFAULT DATABASE NONE"] else [])
      ++ when (negb (is_nil Grantees)) [SBreak; SPtr Grantees]
      ++ when (negb (is_empty Settings)) ([SBreak; SW "SETTINGS"; SIndent] ++ each (fun _ last x => [SBreak; SPtr x]
      ++ when (negb last) [SW ","]) Settings ++ [SDedent])
  | EAlterRole _ _ IfExists RoleRenamePairs Settings => (* format.go:193-217 *)
      [SW "ALTER ROLE "] ++ when (IfExists) [SW "IF EXISTS "] ++ each (fun first _ x => when (negb first) [SW ", "]
      ++ [SPtr x]) RoleRenamePairs ++ when (negb (is_empty Settings)) ([SBreak; SW "SETTINGS"; SIndent]
      ++ each (fun first _ x => when (negb first) [SW ","] ++ [SBreak; SPtr x]) Settings ++ [SDedent])
  | ERoleRenamePair RoleName NewName _ => (* format.go:2235-2241 *)
      [SPtr RoleName] ++ when (negb (is_nil NewName)) [SW " RENAME TO "; SExpr NewName]
  | EDestinationClause _ TableIdentifier _ => (* format.go:1220-1223 *)
      [SW "TO "; SPtr TableIdentifier]
  | EConstraintClause _ Constraint Expr => (* format.go:769-773 *)
      [SPtr Constraint; SW " "; SExpr Expr]
  | ENullLiteral _ => (* format.go:2009-2011 *)
      [SW "NULL"]
  | ENotNullLiteral _ _ => (* format.go:2005-2007 *)
      [SW "NOT NULL"]
  | ENestedIdentifier Ident DotIdent => (* format.go:1975-1983 *)
      (if negb (is_nil DotIdent) then [SPtr Ident; SW "."; SPtr DotIdent] else [SPtr Ident])
  | EPath Fields => (* format.go:2110-2117 *)
      each (fun first _ x => when (negb first) [SW "."] ++ [SPtr x]) Fields
  | ETableIdentifier Database Table => (* format.go:2618-2624 *)
      when (negb (is_nil Database)) [SPtr Database; SW "."] ++ [SPtr Table]
  | ETableSchemaClause _ _ Columns AliasTable TableFunction => (* format.go:2655-2680 *)
      when (negb (is_empty Columns)) ([SW "("; SIndent]
      ++ each (fun first _ x => (if first then [SNewLine] else [SW ","; SBreak]) ++ [SExpr x]) Columns
      ++ [SDedent; SNewLine; SW ")"]) ++ when (negb (is_nil AliasTable)) [SW " AS "; SPtr AliasTable]
      ++ when (negb (is_nil TableFunction)) [SW " AS "; SPtr TableFunction]
  | ETableArgListExpr _ _ Args => (* format.go:2591-2600 *)
      [SW "("] ++ each (fun first _ x => when (negb first) [SW ", "] ++ [SExpr x]) Args ++ [SW ")"]
  | ETableFunctionExpr Name Args => (* format.go:2613-2616 *)
      [SExpr Name; SPtr Args]
  | EClusterClause _ Expr => (* format.go:645-648 *)
      [SW "ON CLUSTER "; SExpr Expr]
  | EPartitionClause _ Expr ID All => (* format.go:2099-2108 *)
      [SW "PARTITION "] ++ (if negb (is_nil ID) then [SPtr ID] else if All then [SW "ALL"] else [SExpr Expr])
  | EPartitionByClause _ Expr => (* format.go:2094-2097 *)
      [SW "PARTITION BY "; SExpr Expr]
  | EPrimaryKeyClause _ Expr => (* format.go:2128-2131 *)
      [SW "PRIMARY KEY "; SExpr Expr]
  | ESampleByClause _ Expr => (* format.go:2258-2261 *)
      [SW "SAMPLE BY "; SExpr Expr]
  | ETTLPolicyRuleAction _ _ Action Codec => (* format.go:2583-2589 *)
      [SW Action] ++ when (negb (is_nil Codec)) [SW " "; SPtr Codec]
  | ERefreshExpr _ Frequency Interval Offset => (* format.go:2189-2200 *)
      [SW "REFRESH "; SW Frequency] ++ when (negb (is_nil Interval)) [SW " "; SPtr Interval]
      ++ when (negb (is_nil Offset)) [SW " OFFSET "; SPtr Offset]
  | ETTLPolicyRule _ ToVolume ToDisk Action => (* format.go:2571-2581 *)
      (if negb (is_nil ToVolume) then [SW "TO VOLUME "; SPtr ToVolume] else if negb (is_nil ToDisk) then [SW "TO DISK "; SPtr ToDisk] else if negb (is_nil Action) then [SPtr Action] else [])
  | ETTLPolicy Item Where GroupBy => (* format.go:2556-2569 *)
      when (negb (is_nil Item)) [SPtr Item] ++ when (negb (is_nil Where)) [SW " "; SPtr Where]
      ++ when (negb (is_nil GroupBy)) [SW " "; SPtr GroupBy]
  | ETTLExpr _ Expr Policy => (* format.go:2548-2554 *)
      [SExpr Expr] ++ when (negb (is_nil Policy)) [SW " "; SPtr Policy]
  | ETTLClause _ _ Items => (* format.go:2538-2546 *)
      [SW "TTL "] ++ each (fun first _ x => when (negb first) [SW ", "] ++ [SPtr x]) Items
  | EFill _ From To Step Staleness => (* format.go:1519-1537 *)
      [SW "WITH FILL"] ++ when (negb (is_nil From)) [SW " FROM "; SExpr From]
      ++ when (negb (is_nil To)) [SW " TO "; SExpr To] ++ when (negb (is_nil Step)) [SW " STEP "; SExpr Step]
      ++ when (negb (is_nil Staleness)) [SW " STALENESS "; SExpr Staleness]
  | EOrderExpr _ Expr Alias Direction Fill => (* format.go:2069-2083 *)
      [SExpr Expr] ++ when (negb (is_nil Alias)) [SW " AS "; SPtr Alias]
      ++ when (negb (String.eqb Direction "")) [SW " "; SW Direction] ++ when (negb (is_nil Fill)) [SW " "; SPtr Fill]
  | EInterpolateItem Column Expr => (* format.go:1732-1738 *)
      [SPtr Column] ++ when (negb (is_nil Expr)) [SW " AS "; SExpr Expr]
  | EInterpolateClause _ _ Items => (* format.go:1718-1730 *)
      [SW "INTERPOLATE"] ++ when (negb (is_empty Items)) ([SW " ("] ++ each (fun _ last x => [SPtr x]
      ++ when (negb last) [SW ", "]) Items ++ [SW ")"])
  | EOrderByClause _ _ Items Interpolate => (* format.go:2050-2067 *)
      [SW "ORDER BY"; SIndent] ++ each (fun first _ x => (if first then [SBreak] else [SW ","; SBreak])
      ++ [SExpr x]) Items ++ when (negb (is_nil Interpolate)) [SBreak; SPtr Interpolate] ++ [SDedent]
  | ESettingExpr _ Name Expr => (* format.go:2404-2408 *)
      [SPtr Name; SW "="; SExpr Expr]
  | ESettingsClause _ _ Items => (* format.go:2422-2435 *)
      [SW "SETTINGS"; SIndent] ++ each (fun first _ x => (if first then [SBreak] else [SW ","; SBreak]) ++ [SPtr x]) Items
      ++ [SDedent]
  | EParamExprList _ _ Items ColumnArgList => (* format.go:2085-2092 *)
      [SW "("; SPtr Items; SW ")"] ++ when (negb (is_nil ColumnArgList)) [SPtr ColumnArgList]
  | EMapLiteral _ _ KeyValues => (* format.go:1938-1951 *)
      [SW "{"] ++ each (fun first _ x => when (negb first) [SW ", "]
      ++ [SPtr (KeyValue_Key x); SW ": "; SExpr (KeyValue_Value x)]) KeyValues ++ [SW "}"]
  | ENamedParameterExpr _ Name Value => (* format.go:1964-1968 *)
      [SPtr Name; SW "="; SExpr Value]
  | EQueryParam _ _ Name Type_ => (* format.go:2173-2179 *)
      [SW "{"; SPtr Name; SW ": "; SExpr Type_; SW "}"]
  | EArrayParamList _ _ Items => (* format.go:519-528 *)
      [SW "["] ++ need Items (each (fun first _ x => when (negb first) [SW ", "]
      ++ [SExpr x]) (ColumnExprList_Items Items)) ++ [SW "]"]
  | EObjectParams Object Params => (* format.go:2017-2020 *)
      [SExpr Object; SPtr Params]
  | EFunctionExpr Name Params => (* format.go:1552-1555 *)
      [SPtr Name; SPtr Params]
  | EWindowFunctionExpr Function _ OverExpr => (* format.go:2872-2876 *)
      [SPtr Function; SW " OVER "; SExpr OverExpr]
  | ETypedPlaceholder _ _ Name Type_ => (* format.go:2732-2738 *)
      [SW "{"; SPtr Name; SW ":"; SExpr Type_; SW "}"]
  | EColumnExpr Expr Alias => (* format.go:698-704 *)
      [SExpr Expr] ++ when (negb (is_nil Alias)) [SW " AS "; SPtr Alias]
  | EColumnDef _ _ Name Type_ NotNull Nullable DefaultExpr MaterializedExpr AliasExpr Codec TTL Comment _ => (* format.go:661-696 *)
      [SPtr Name] ++ when (negb (is_nil Type_)) [SW " "; SExpr Type_]
      ++ (if negb (is_nil NotNull) then [SW " NOT NULL"] else if negb (is_nil Nullable) then [SW " NULL"] else [])
      ++ when (negb (is_nil DefaultExpr)) [SW " DEFAULT "; SExpr DefaultExpr]
      ++ when (negb (is_nil MaterializedExpr)) [SW " MATERIALIZED "; SExpr MaterializedExpr]
      ++ when (negb (is_nil AliasExpr)) [SW " ALIAS "; SExpr AliasExpr] ++ when (negb (is_nil Codec)) [SW " "; SPtr Codec]
      ++ when (negb (is_nil TTL)) [SW " "; SPtr TTL] ++ when (negb (is_nil Comment)) [SW " COMMENT "; SPtr Comment]
  | EScalarType Name => (* format.go:2272-2274 *)
      [SPtr Name]
  | EJSONPath Idents => (* format.go:1765-1772 *)
      each (fun first _ x => when (negb first) [SW "."] ++ [SPtr x]) Idents
  | EJSONOption SkipPath SkipRegex MaxDynamicPaths MaxDynamicTypes Column => (* format.go:1774-1807 *)
      when (negb (is_nil SkipPath)) [SW "SKIP "; SPtr SkipPath]
      ++ when (negb (is_nil SkipRegex)) [SW " SKIP REGEXP "; SPtr SkipRegex]
      ++ when (negb (is_nil MaxDynamicPaths)) [SW "max_dynamic_paths"; SW "="; SPtr MaxDynamicPaths]
      ++ when (negb (is_nil MaxDynamicTypes)) [SW "max_dynamic_types"; SW "="; SPtr MaxDynamicTypes]
      ++ when (negb (is_nil Column) && negb (is_nil (JSONTypeHint_Path Column)) && negb (is_nil (JSONTypeHint_Type Column)))
           (when (negb (is_nil SkipPath) || negb (is_nil SkipRegex) || negb (is_nil MaxDynamicPaths) || negb (is_nil MaxDynamicTypes)) [SW " "]
            ++ [SPtr (JSONTypeHint_Path Column); SW " "; SExpr (JSONTypeHint_Type Column)])
  | EJSONOptions _ _ Items => (* format.go:1809-1849 *)
      [SW "("]
      ++ each (fun first _ x => when (negb first) [SW ", "] ++ [SPtr x])
           (filter (fun x => json_group x =? 1) Items ++ filter (fun x => json_group x =? 2) Items ++ filter (fun x => json_group x =? 3) Items)
      ++ [SW ")"]
  | EJSONType Name Options => (* format.go:1851-1856 *)
      [SPtr Name] ++ when (negb (is_nil Options)) [SPtr Options]
  | EPropertyType Name => (* format.go:2169-2171 *)
      [SPtr Name]
  | ETypeWithParams _ _ Name Params => (* format.go:2720-2730 *)
      [SPtr Name; SW "("] ++ each (fun first _ x => when (negb first) [SW ", "] ++ [SExpr x]) Params ++ [SW ")"]
  | EComplexType _ _ Name Params => (* format.go:734-744 *)
      [SPtr Name; SW "("] ++ each (fun first _ x => when (negb first) [SW ", "] ++ [SExpr x]) Params ++ [SW ")"]
  | ENestedType _ _ Name Columns => (* format.go:1985-1997 *)
      [SPtr Name; SW "("] ++ each (fun _ last x => [SExpr x] ++ when (negb last) [SW ", "]) Columns ++ [SW ")"]
  | ECompressionCodec _ _ Type_ TypeLevel Name Level => (* format.go:746-767 *)
      [SW "CODEC("] ++ when (negb (is_nil Type_)) ([SPtr Type_]
      ++ when (negb (is_nil TypeLevel)) [SW "("; SPtr TypeLevel; SW ")"] ++ [SW ","; SW " "])
      ++ when (negb (is_nil Name)) ([SPtr Name] ++ when (negb (is_nil Level)) [SW "("; SPtr Level; SW ")"]) ++ [SW ")"]
  | ENumberLiteral _ _ Literal _ => (* format.go:2013-2015 *)
      [SW Literal]
  | EStringLiteral _ _ Literal => (* format.go:2474-2478 *)
      [SW "'"; SW Literal; SW "'"]
  | EBoolLiteral _ _ Literal => (* format.go:587-589 *)
      [SW Literal]
  | EPlaceHolder _ _ Type_ => (* format.go:2119-2121 *)
      [SW Type_]
  | ERatioExpr Numerator Denominator => (* format.go:2181-2187 *)
      [SPtr Numerator] ++ when (negb (is_nil Denominator)) [SW "/"; SPtr Denominator]
  | EEnumValue Name Value => (* format.go:1495-1499 *)
      [SPtr Name; SW "="; SPtr Value]
  | EEnumType Name _ _ Values => (* format.go:1482-1493 *)
      [SPtr Name; SW "("] ++ each (fun first _ x => when (negb first) [SW ", "] ++ [SPtr x]) Values ++ [SW ")"]
  | EIntervalExpr IntervalPos Expr Unit => (* format.go:1740-1747 *)
      when (negb (is_pzero IntervalPos)) [SW "INTERVAL "] ++ [SExpr Expr; SW " "; SPtr Unit]
  | EEngineExpr _ _ Name Params PrimaryKey PartitionBy SampleBy TTL Settings OrderBy => (* format.go:1450-1480 *)
      [SW "ENGINE = "; SW Name] ++ when (negb (is_nil Params)) [SPtr Params]
      ++ when (negb (is_nil OrderBy)) [SBreak; SPtr OrderBy]
      ++ when (negb (is_nil PartitionBy)) [SBreak; SPtr PartitionBy]
      ++ when (negb (is_nil PrimaryKey)) [SBreak; SPtr PrimaryKey]
      ++ when (negb (is_nil SampleBy)) [SBreak; SPtr SampleBy] ++ when (negb (is_nil TTL)) [SBreak; SPtr TTL]
      ++ when (negb (is_nil Settings)) [SBreak; SPtr Settings]
  | EColumnTypeExpr Name => (* format.go:730-732 *)
      [SPtr Name]
  | EColumnArgList _ _ _ Items => (* format.go:650-659 *)
      [SW "("] ++ each (fun first _ x => when (negb first) [SW ", "] ++ [SExpr x]) Items ++ [SW ")"]
  | EColumnExprList _ _ HasDistinct Items => (* format.go:706-716 *)
      when (HasDistinct) [SW "DISTINCT "] ++ each (fun _ last x => [SExpr x] ++ when (negb last) [SW ", "]) Items
  | EWhenClause _ _ When Then _ Else => (* format.go:2767-2776 *)
      [SW "WHEN "; SExpr When; SW " THEN "; SExpr Then] ++ when (negb (is_nil Else)) [SW " ELSE "; SExpr Else]
  | ECaseExpr _ _ Expr Whens _ Else => (* format.go:603-622 *)
      [SW "CASE"] ++ when (negb (is_nil Expr)) [SW " "; SExpr Expr] ++ [SIndent]
      ++ each (fun _ _ x => [SBreak; SPtr x]) Whens ++ when (negb (is_nil Else)) [SBreak; SW "ELSE "; SExpr Else]
      ++ [SDedent; SBreak; SW "END"]
  | ECastExpr _ Expr Separator _ AsType => (* format.go:624-634 *)
      [SW "CAST("; SExpr Expr] ++ (if String.eqb Separator "," then [SW ", "] else [SW " AS "]) ++ [SExpr AsType; SW ")"]
  | EWithClause _ _ CTEs => (* format.go:2878-2886 *)
      [SW "WITH "] ++ each (fun first _ x => when (negb first) [SW ", "] ++ [SPtr x]) CTEs
  | ETopClause _ _ Number WithTies => (* format.go:2696-2702 *)
      need Number [SW "TOP "; SW (NumberLiteral_Literal Number)] ++ when WithTies [SW " WITH TIES"]
  | ECreateLiveView _ _ Name IfNotExists _ OnCluster Destination TableSchema WithTimeout SubQuery => (* format.go:854-886 *)
      [SW "CREATE LIVE VIEW "] ++ when (IfNotExists) [SW "IF NOT EXISTS "] ++ [SPtr Name]
      ++ when (negb (is_nil OnCluster)) [SBreak; SPtr OnCluster]
      ++ when (negb (is_nil WithTimeout)) [SBreak; SPtr WithTimeout]
      ++ when (negb (is_nil Destination)) [SBreak; SPtr Destination]
      ++ when (negb (is_nil TableSchema)) [SBreak; SPtr TableSchema]
      ++ when (negb (is_nil SubQuery)) [SBreak; SW "AS "; SPtr SubQuery]
  | ECreateDictionary _ _ OrReplace Name IfNotExists UUID OnCluster Schema Engine Comment => (* format.go:795-832 *)
      [SW "CREATE "] ++ when (OrReplace) [SW "OR REPLACE "] ++ [SW "DICTIONARY "]
      ++ when (IfNotExists) [SW "IF NOT EXISTS "] ++ [SPtr Name] ++ when (negb (is_nil UUID)) [SBreak; SPtr UUID]
      ++ when (negb (is_nil OnCluster)) [SBreak; SPtr OnCluster] ++ when (negb (is_nil Schema)) [SBreak; SPtr Schema]
      ++ when (negb (is_nil Engine)) [SBreak; SPtr Engine]
      ++ when (negb (is_nil Comment)) [SBreak; SW "COMMENT "; SPtr Comment]
  | ECreateNamedCollection _ _ Name IfNotExists OnCluster Params => (* format.go:974-991 *)
      [SW "CREATE NAMED COLLECTION "] ++ when (IfNotExists) [SW "IF NOT EXISTS "] ++ [SPtr Name]
      ++ when (negb (is_nil OnCluster)) [SW " "; SPtr OnCluster] ++ [SW " AS "]
      ++ each (fun first _ x => when (negb first) [SW ", "] ++ [SPtr x]) Params
  | ENamedCollectionParam _ Name Value Overridable NotOverridable => (* format.go:1953-1962 *)
      [SPtr Name; SW " = "; SExpr Value]
      ++ (if NotOverridable then [SW " NOT OVERRIDABLE"] else if Overridable then [SW " OVERRIDABLE"] else [])
  | EDictionarySchemaClause _ Attributes _ => (* format.go:1355-1370 *)
      [SW "("; SIndent] ++ each (fun first _ x => (if first then [SNewLine] else [SW ","; SBreak]) ++ [SPtr x]) Attributes
      ++ [SDedent; SNewLine; SW ")"]
  | EDictionaryAttribute _ _ Name Type_ Default Expression Hierarchical Injective IsObjectId => (* format.go:1242-1269 *)
      [SPtr Name; SW " "; SExpr Type_] ++ when (negb (is_nil Default)) [SW " DEFAULT "; SExpr Default]
      ++ when (negb (is_nil Expression)) [SW " EXPRESSION "; SExpr Expression] ++ when (Hierarchical) [SW " HIERARCHICAL"]
      ++ when (Injective) [SW " INJECTIVE"] ++ when (IsObjectId) [SW " IS_OBJECT_ID"]
  | EDictionaryEngineClause _ PrimaryKey Source Lifetime Layout Range Settings => (* format.go:1271-1309 *)
      between_breaks (filter (fun c => negb (is_nil c)) [PrimaryKey; Source; Lifetime; Layout; Range])
      ++ when (negb (is_nil Settings))
           (when (existsb (fun c => negb (is_nil c)) [PrimaryKey; Source; Lifetime; Layout; Range]) [SBreak]
            ++ [SW "SETTINGS("] ++ each (fun first _ x => when (negb first) [SW ", "] ++ [SPtr x]) (SettingsClause_Items Settings) ++ [SW ")"])
  | EDictionaryPrimaryKeyClause _ Keys _ => (* format.go:1337-1340 *)
      [SW "PRIMARY KEY "; SPtr Keys]
  | EDictionarySourceClause _ Source Args _ => (* format.go:1372-1383 *)
      [SW "SOURCE("; SPtr Source; SW "("] ++ each (fun first _ x => when (negb first) [SW " "] ++ [SPtr x]) Args
      ++ [SW "))"]
  | EDictionaryArgExpr _ Name Value Args LParenPos _ => (* format.go:1225-1240 *)
      [SPtr Name] ++ (if negb (negb (is_pzero LParenPos)) then [SW " "; SExpr Value] else [SW "("]
      ++ each (fun first _ x => when (negb first) [SW " "] ++ [SPtr x]) Args ++ [SW ")"])
  | EDictionaryLifetimeClause _ Min Max Value _ => (* format.go:1324-1335 *)
      [SW "LIFETIME("]
      ++ (if negb (is_nil Value) then [SPtr Value] else if negb (is_nil Min) && negb (is_nil Max) then [SW "MIN "; SPtr Min; SW " MAX "; SPtr Max] else [])
      ++ [SW ")"]
  | EDictionaryLayoutClause _ Layout Args _ => (* format.go:1311-1322 *)
      [SW "LAYOUT("; SPtr Layout; SW "("] ++ each (fun first _ x => when (negb first) [SW " "] ++ [SPtr x]) Args
      ++ [SW "))"]
  | EDictionaryRangeClause _ Min Max _ => (* format.go:1342-1353 *)
      [SW "RANGE("; SW "MIN "] ++ when (negb (is_nil Min)) [SPtr Min] ++ when (negb (is_nil Max)) [SW " MAX "; SPtr Max]
      ++ [SW ")"]
  | EWithTimeoutClause _ Expr Number => (* format.go:2888-2895 *)
      [SW "WITH TIMEOUT "] ++ (if negb (is_nil Number) then [SPtr Number] else [SExpr Expr])
  | ETableExpr _ _ Alias Expr HasFinal => (* format.go:2602-2611 *)
      [SExpr Expr] ++ when (negb (is_nil Alias)) [SW " "; SPtr Alias] ++ when (HasFinal) [SW " FINAL"]
  | EOnClause _ On => (* format.go:2022-2025 *)
      [SW "ON "; SPtr On]
  | EUsingClause _ Using => (* format.go:2762-2765 *)
      [SW "USING "; SPtr Using]
  | EJoinExpr _ Left Right _ _ => (* format.go:1868-1873 *)
      [SExpr Left] ++ when (negb (is_nil Right)) (join_steps Right)
  | EJoinConstraintClause _ On Using => (* format.go:1858-1866 *)
      (if negb (is_nil On) then [SW "ON "; SPtr On] else [SW "USING "; SPtr Using])
  | EFromClause _ Expr => (* format.go:1544-1550 *)
      [SW "FROM"; SIndent; SBreak; SExpr Expr; SDedent]
  | EIsNullExpr _ _ Expr => (* format.go:1760-1763 *)
      [SExpr Expr; SW " IS NULL"]
  | EIsNotNullExpr _ _ Expr => (* format.go:1755-1758 *)
      [SExpr Expr; SW " IS NOT NULL"]
  | EAliasExpr Expr _ Alias => (* format.go:181-191 *)
      (if is_select Expr then [SW "("; SExpr Expr; SW ")"] else [SExpr Expr]) ++ [SW " AS "; SExpr Alias]
  | EWhereClause _ Expr => (* format.go:2778-2789 *)
      [SW "WHERE"] ++ (if is_logical Expr then [SBreak; SExpr Expr] else [SIndent; SBreak; SExpr Expr; SDedent])
  | EPrewhereClause _ Expr => (* format.go:2123-2126 *)
      [SW "PREWHERE "; SExpr Expr]
  | EGroupByClause _ _ AggregateType Expr WithCube WithRollup WithTotals => (* format.go:1615-1642 *)
      [SW "GROUP BY"; SIndent] ++ when (negb (String.eqb AggregateType "")) [SBreak; SW AggregateType]
      ++ when (negb (is_nil Expr)) (when (String.eqb AggregateType "") [SBreak] ++ [SExpr Expr])
      ++ when (WithCube) [SBreak; SW "WITH CUBE"] ++ when (WithRollup) [SBreak; SW "WITH ROLLUP"]
      ++ when (WithTotals) [SBreak; SW "WITH TOTALS"] ++ [SDedent]
  | EHavingClause _ Expr => (* format.go:1644-1647 *)
      [SW "HAVING "; SExpr Expr]
  | ELimitClause _ Limit Offset => (* format.go:1924-1936 *)
      when (negb (is_nil Limit)) ([SW "LIMIT "; SExpr Limit] ++ when (negb (is_nil Offset)) [SW " "])
      ++ when (negb (is_nil Offset)) [SW "OFFSET "; SExpr Offset]
  | ELimitByClause Limit ByExpr => (* format.go:1914-1922 *)
      when (negb (is_nil Limit)) [SPtr Limit] ++ when (negb (is_nil ByExpr)) [SW " BY "; SPtr ByExpr]
  | EWindowExpr _ _ WindowName PartitionBy OrderBy Frame => (* format.go:2807-2835 *)
      [SW "("]
      ++ each (fun first _ x => when (negb first) [SW " "] ++ [SPtr x]) (filter (fun c => negb (is_nil c)) [WindowName; PartitionBy; OrderBy; Frame])
      ++ [SW ")"]
  | EWindowDefinition Name _ Expr => (* format.go:2791-2795 *)
      [SPtr Name; SW " AS "; SPtr Expr]
  | EWindowClause _ _ Windows => (* format.go:2797-2805 *)
      [SW "WINDOW "] ++ each (fun _ last x => [SPtr x] ++ when (negb last) [SW ", "]) Windows
  | EWindowFrameClause _ Type_ Extend => (* format.go:2837-2841 *)
      [SW Type_; SW " "; SExpr Extend]
  | EWindowFrameExtendExpr Expr Direction _ => (* format.go:2847-2853 *)
      [SExpr Expr] ++ when (negb (String.eqb Direction "")) [SW " "; SW Direction]
  | EBetweenClause Expr Not Between _ And => (* format.go:570-585 *)
      when (negb (is_nil Expr)) [SExpr Expr; SW " "] ++ [SW (if Not : bool then "NOT BETWEEN " else "BETWEEN "); SExpr Between; SW " AND "; SExpr And]
  | EWindowFrameCurrentRow _ _ => (* format.go:2843-2845 *)
      [SW "CURRENT ROW"]
  | EWindowFrameUnbounded _ _ Direction => (* format.go:2867-2870 *)
      [SW "UNBOUNDED "; SW Direction]
  | EWindowFrameNumber Number _ Direction => (* format.go:2855-2859 *)
      [SPtr Number; SW " "; SW Direction]
  | EWindowFrameParam Param _ Direction => (* format.go:2861-2865 *)
      [SPtr Param; SW " "; SW Direction]
  | ESelectQuery _ _ With Top HasDistinct DistinctOn SelectItems From Window Prewhere Where GroupBy _ Having OrderBy LimitBy Limit Settings Format UnionAll UnionDistinct Except Intersect => (* format.go:2288-2392 *)
      when (negb (is_nil With)) ([SW "WITH"; SIndent]
      ++ (each (fun first _ x => (if first then [SBreak] else [SW ","; SBreak]) ++ [SPtr x]) (WithClause_CTEs With))
      ++ [SDedent; SBreak]) ++ [SW "SELECT"] ++ when (HasDistinct) ([SW " DISTINCT"]
      ++ when (negb (is_nil DistinctOn)) [SW " "; SPtr DistinctOn]) ++ when (negb (is_nil Top)) [SW " "; SPtr Top]
      ++ [SIndent] ++ each (fun first _ x => (if first then [SBreak] else [SW ","; SBreak]) ++ [SPtr x]) SelectItems
      ++ [SDedent] ++ when (negb (is_nil From)) [SBreak; SPtr From] ++ when (negb (is_nil Window)) [SBreak; SPtr Window]
      ++ when (negb (is_nil Prewhere)) [SBreak; SPtr Prewhere] ++ when (negb (is_nil Where)) [SBreak; SPtr Where]
      ++ when (negb (is_nil GroupBy)) [SBreak; SPtr GroupBy] ++ when (negb (is_nil Having)) [SBreak; SPtr Having]
      ++ when (negb (is_nil OrderBy)) [SBreak; SPtr OrderBy] ++ when (negb (is_nil LimitBy)) [SBreak; SPtr LimitBy]
      ++ when (negb (is_nil Limit)) [SBreak; SPtr Limit] ++ when (negb (is_nil Settings)) [SBreak; SPtr Settings]
      ++ when (negb (is_nil Format)) [SBreak; SPtr Format]
      ++ (if negb (is_nil UnionAll) then [SBreak; SW "UNION ALL"; SBreak; SPtr UnionAll] else if negb (is_nil UnionDistinct) then [SBreak; SW "UNION DISTINCT"; SBreak; SPtr UnionDistinct] else if negb (is_nil Except) then [SBreak; SW "EXCEPT"; SBreak; SPtr Except] else if negb (is_nil Intersect) then [SBreak; SW "INTERSECT"; SBreak; SPtr Intersect] else [])
  | EDistinctOn Idents _ _ => (* format.go:1385-1394 *)
      [SW "ON ("] ++ each (fun first _ x => when (negb first) [SW ", "] ++ [SPtr x]) Idents ++ [SW ")"]
  | ESubQuery HasParen Select => (* format.go:2480-2488 *)
      when (HasParen) [SW "("] ++ [SPtr Select] ++ when (HasParen) [SW ")"]
  | ENotExpr _ Expr => (* format.go:1999-2003 *)
      [SW "NOT"; SW " "; SExpr Expr]
  | ENegateExpr _ Expr => (* format.go:1970-1973 *)
      [SW "-"; SExpr Expr]
  | EGlobalInOperation _ Expr => (* format.go:1557-1560 *)
      [SW "GLOBAL "; SExpr Expr]
  | EIntervalFrom Interval _ FromExpr => (* format.go:1749-1753 *)
      [SPtr Interval; SW " FROM "; SExpr FromExpr]
  | EExtractExpr _ _ Parameters => (* format.go:1508-1517 *)
      [SW "EXTRACT("] ++ each (fun first _ x => when (negb first) [SW ", "] ++ [SExpr x]) Parameters ++ [SW ")"]
  | EDropDatabase _ _ Name IfExists OnCluster Modifier => (* format.go:1396-1409 *)
      [SW "DROP DATABASE "] ++ when (IfExists) [SW "IF EXISTS "] ++ [SPtr Name]
      ++ when (negb (is_nil OnCluster)) [SW " "; SPtr OnCluster] ++ when (negb (String.eqb Modifier "")) [SW (" "
      ++ Modifier)]
  | EDropStmt _ _ DropTarget Name IfExists OnCluster IsTemporary Modifier => (* format.go:1411-1428 *)
      [SW "DROP "] ++ when (IsTemporary) [SW "TEMPORARY "] ++ [SW (DropTarget ++ " ")]
      ++ when (IfExists) [SW "IF EXISTS "] ++ [SPtr Name] ++ when (negb (is_nil OnCluster)) [SW " "; SPtr OnCluster]
      ++ when (negb (String.eqb Modifier "")) [SW (" " ++ Modifier)]
  | EDropUserOrRole _ Target _ Names IfExists Modifier From => (* format.go:1430-1448 *)
      [SW ("DROP " ++ Target ++ " ")] ++ when (IfExists) [SW "IF EXISTS "]
      ++ each (fun first _ x => when (negb first) [SW ", "] ++ [SPtr x]) Names
      ++ when (negb (String.eqb Modifier "")) [SW (" " ++ Modifier)] ++ when (negb (is_nil From)) [SW " FROM "; SPtr From]
  | EUseStmt _ _ Database => (* format.go:2757-2760 *)
      [SW "USE "; SPtr Database]
  | ECTEStmt _ Expr Alias => (* format.go:591-601 *)
      [SExpr Expr; SW " AS "] ++ (if is_select Alias then [SW "("; SExpr Alias; SW ")"] else [SExpr Alias])
  | ESetStmt _ Settings => (* format.go:2394-2402 *)
      [SW "SET "] ++ need Settings (each (fun first _ x => when (negb first) [SW ", "]
      ++ [SPtr x]) (SettingsClause_Items Settings))
  | EFormatClause _ Format => (* format.go:1539-1542 *)
      [SW "FORMAT "; SPtr Format]
  | EOptimizeStmt _ _ Table OnCluster Partition HasFinal Deduplicate => (* format.go:2031-2048 *)
      [SW "OPTIMIZE TABLE "; SPtr Table] ++ when (negb (is_nil OnCluster)) [SW " "; SPtr OnCluster]
      ++ when (negb (is_nil Partition)) [SW " "; SPtr Partition] ++ when (HasFinal) [SW " FINAL"]
      ++ when (negb (is_nil Deduplicate)) [SPtr Deduplicate]
  | EDeduplicateClause _ By Except => (* format.go:1172-1182 *)
      [SW " DEDUPLICATE"] ++ when (negb (is_nil By)) [SW " BY "; SPtr By]
      ++ when (negb (is_nil Except)) [SW " EXCEPT "; SPtr Except]
  | ESystemStmt _ Expr => (* format.go:2527-2531 *)
      [SW "SYSTEM"; SW " "; SExpr Expr]
  | ESystemFlushExpr _ _ Logs Distributed => (* format.go:2505-2512 *)
      [SW "FLUSH "] ++ (if Logs then [SW "LOGS"] else [SPtr Distributed])
  | ESystemReloadExpr _ _ OnCluster Dictionary Type_ => (* format.go:2514-2525 *)
      [SW "RELOAD "; SW Type_] ++ when (negb (is_nil OnCluster)) [SW " "; SPtr OnCluster]
      ++ when (negb (is_nil Dictionary)) [SW " "; SPtr Dictionary]
  | ESystemSyncExpr _ Cluster => (* format.go:2533-2536 *)
      [SW "SYNC "; SPtr Cluster]
  | ESystemCtrlExpr _ _ Command Type_ Cluster => (* format.go:2490-2498 *)
      [SW Command; SW " "; SW Type_] ++ when (negb (is_nil Cluster)) [SW " "; SPtr Cluster]
  | ESystemDropExpr _ _ Type_ => (* format.go:2500-2503 *)
      [SW "DROP "; SW Type_]
  | ETruncateTable _ _ IsTemporary IfExists Name OnCluster => (* format.go:2704-2718 *)
      [SW "TRUNCATE "] ++ when (IsTemporary) [SW "TEMPORARY "] ++ [SW "TABLE "] ++ when (IfExists) [SW "IF EXISTS "]
      ++ [SPtr Name] ++ when (negb (is_nil OnCluster)) [SW " "; SPtr OnCluster]
  | ESampleClause _ Ratio Offset => (* format.go:2263-2270 *)
      [SW "SAMPLE "; SPtr Ratio] ++ when (negb (is_nil Offset)) [SW " OFFSET "; SPtr Offset]
  | EDeleteClause _ Table OnCluster WhereExpr => (* format.go:1198-1209 *)
      [SW "DELETE FROM "; SPtr Table] ++ when (negb (is_nil OnCluster)) [SW " "; SPtr OnCluster]
      ++ when (negb (is_nil WhereExpr)) [SW " WHERE "; SExpr WhereExpr]
  | EColumnNamesExpr _ _ ColumnNames => (* format.go:718-728 *)
      [SW "("] ++ each (fun first _ x => when (negb first) [SW ", "] ++ [SPtr x]) ColumnNames ++ [SW ")"]
  | EAssignmentValues _ _ Values => (* format.go:530-539 *)
      [SW "("] ++ each (fun first _ x => when (negb first) [SW ", "] ++ [SExpr x]) Values ++ [SW ")"]
  | EInsertStmt _ Format HasTableKeyword Table ColumnNames Values SelectExpr => (* format.go:1683-1716 *)
      [SW "INSERT INTO "] ++ when (HasTableKeyword) [SW "TABLE "] ++ [SExpr Table]
      ++ when (negb (is_nil ColumnNames)) [SBreak; SIndent; SPtr ColumnNames; SDedent]
      ++ when (negb (is_nil Format)) [SW " "; SPtr Format]
      ++ (if negb (is_nil SelectExpr) then [SBreak; SPtr SelectExpr] else if negb (is_empty Values) then [SBreak; SW "VALUES"; SIndent]
      ++ each (fun _ last x => [SBreak; SPtr x] ++ when (negb last) [SW ","]) Values ++ [SDedent] else [])
  | ECheckStmt _ Table Partition => (* format.go:636-643 *)
      [SW "CHECK TABLE "; SPtr Table] ++ when (negb (is_nil Partition)) [SW " "; SPtr Partition]
  | EUnaryExpr _ Kind Expr => (* format.go:2745-2749 *)
      [SW Kind; SW " "; SExpr Expr]
  | ERenameStmt _ _ RenameTarget TargetPairList OnCluster => (* format.go:2207-2221 *)
      [SW ("RENAME " ++ RenameTarget ++ " ")] ++ each (fun first _ x => when (negb first) [SW ", "]
      ++ [SPtr (TargetPair_Old x); SW " TO "; SPtr (TargetPair_New x)]) TargetPairList
      ++ when (negb (is_nil OnCluster)) [SW " "; SPtr OnCluster]
  | ETargetPair Old New => (* format.go:2682-2686 *)
      [SPtr Old; SW " TO "; SPtr New]
  | EExplainStmt _ Type_ Statement => (* format.go:1501-1506 *)
      [SW "EXPLAIN "; SW Type_; SW " "; SExpr Statement]
  | EPrivilegeClause _ _ Keywords Params => (* format.go:2133-2143 *)
      each (fun first _ x => when (negb first) [SW " "] ++ [SW x]) Keywords ++ when (negb (is_nil Params)) [SPtr Params]
  | EGrantPrivilegeStmt _ _ OnCluster Privileges On To WithOptions => (* format.go:1562-1587 *)
      [SW "GRANT "] ++ when (negb (is_nil OnCluster)) [SW " "; SPtr OnCluster]
      ++ each (fun first _ x => when (negb first) [SW ", "] ++ [SPtr x]) Privileges ++ [SW " ON "; SPtr On; SW " TO "]
      ++ each (fun first _ x => when (negb first) [SW ", "] ++ [SPtr x]) To ++ each (fun _ _ x => [SW (" WITH " ++ x
      ++ " OPTION")]) WithOptions
  | EShowStmt _ _ ShowType Target NotLike LikeType LikePattern Limit OutFile Format => (* format.go:2437-2472 *)
      [SW "SHOW "; SW ShowType] ++ when (negb (is_nil Target)) [SW " "; SPtr Target]
      ++ when (negb (String.eqb LikeType "") && negb (is_nil LikePattern)) ((if NotLike then [SW " NOT "] else [SW " "])
      ++ [SW LikeType; SW " "; SExpr LikePattern]) ++ when (negb (is_nil Limit)) [SW " LIMIT "; SExpr Limit]
      ++ when (negb (is_nil OutFile)) [SW " INTO OUTFILE "; SPtr OutFile]
      ++ when (negb (is_nil Format)) [SW " FORMAT "; SPtr Format]
  | EDescribeStmt _ _ DescribeType Target => (* format.go:1211-1218 *)
      [SW "DESCRIBE "] ++ when (negb (String.eqb DescribeType "")) [SW DescribeType; SW " "] ++ [SPtr Target]
  end.

(** ** The calls that reach the formatter *)

Inductive ev : Type :=
| W (s : string)   (* WriteString, and WriteByte for a string of one byte *)
| Brk | NL | Ind | Ded.

(** A value, a panic, or (modelling device) fuel exhausted. *)
Inductive fres (A : Type) : Type := FOk (a : A) | FPanic | FFuel.
Arguments FOk {A} a.
Arguments FPanic {A}.
Arguments FFuel {A}.

(** ** The formatter *)

(** format.go:18-25 [Formatter]: the indentation level and [lineStart]. The builder is only
    appended to: the functions below return what they append. *)
Record fstate := mkFS { level : nat; line_start : bool }.

(** format.go:27-33 [NewFormatter]. *)
Definition fs_init : fstate := mkFS 0 true.

Section Formatter.
  (** The mode ([true] is FormatModeBeautify), and the indentation (format.go:35-45 [WithBeautify], [WithIndent]). *)
  Variables (b : bool) (indent : string).

  (** format.go:47-55 [writeIndentIfNeeded]. *)
  Definition write_indent (s : fstate) : string * fstate :=
    if line_start s then (repeat_str indent (level s), mkFS (level s) false) else ("", s)%string.

  (** format.go:63-75 [WriteByte]. *)
  Definition write_byte (c : ascii) (s : fstate) : string * fstate :=
    if b then
      if Ascii.eqb c (ch 10) then (String (ch 10) "", mkFS (level s) true)
      else let (i, s') := write_indent s in ((i ++ String c "")%string, s')
    else (String c "", s).

  (** format.go:57-61 [WriteString]. *)
  Fixpoint write_string (t : string) (s : fstate) : string * fstate :=
    match t with
    | "" => (""%string, s)
    | String c r => let (x, s1) := write_byte c s in let (y, s2) := write_string r s1 in ((x ++ y)%string, s2)
    end%string.

  (** format.go:84-89 [NewLine]. *)
  Definition new_line (s : fstate) : string * fstate := if b then write_byte (ch 10) s else (""%string, s).

  (** format.go:91-97 [Break]. *)
  Definition do_break (s : fstate) : string * fstate := if b then new_line s else write_byte " " s.

  (** The calls; format.go:99-107 [Indent] and [Dedent]. *)
  Definition play1 (x : ev) (s : fstate) : string * fstate :=
    match x with
    | W t => write_string t s
    | Brk => do_break s
    | NL => new_line s
    | Ind => (""%string, mkFS (S (level s)) (line_start s))
    | Ded => (""%string, mkFS (pred (level s)) (line_start s))
    end.

  Fixpoint play (l : list ev) (s : fstate) : string * fstate :=
    match l with
    | [] => (""%string, s)
    | x :: r => let (t, s1) := play1 x s in let (u, s2) := play r s1 in ((t ++ u)%string, s2)
    end.
End Formatter.

(** What a formatter that starts afresh returns. *)
Definition render (b : bool) (indent : string) (l : list ev) : string := fst (play b indent l fs_init).

(** ** Recursion *)

Definition fbind {A B} (x : fres A) (f : A -> fres B) : fres B :=
  match x with FOk a => f a | FPanic => FPanic | FFuel => FFuel end.

Section Steps.
  Variable rec : bool -> expr -> fres (list ev).

  (** format.go:2630-2635. *)
  Definition compact_text (l : list ev) : list ev :=
    let t := render false "  " l in
    (match t with String c _ => if Ascii.eqb c "(" then [] else [W " "] | ""%string => [] end) ++ [W t].

  Definition run_step (b : bool) (x : step) : fres (list ev) :=
    match x with
    | SW s => FOk [W s]
    | SBreak => FOk [Brk]
    | SNewLine => FOk [NL]
    | SIndent => FOk [Ind]
    | SDedent => FOk [Ded]
    | SExpr e => if is_nil e then FOk [] else rec b e
    | SPtr e => if is_nil e then FPanic else rec b e
    | SCompact e => if is_nil e then FPanic else fbind (rec false e) (fun l => FOk (compact_text l))
    | SPanic => FPanic
    end.

  Fixpoint run_steps (b : bool) (l : list step) : fres (list ev) :=
    match l with
    | [] => FOk []
    | x :: r => fbind (run_step b x) (fun t => fbind (run_steps b r) (fun u => FOk (t ++ u)))
    end.
End Steps.

(** The calls that [FormatSQL] of a node makes in the end. The fuel bounds the depth of the tree. *)
Fixpoint fmt_fuel (n : nat) (b : bool) (e : expr) : fres (list ev) :=
  match n with
  | O => FFuel
  | S m => run_steps (fmt_fuel m) b (steps b e)
  end.
Definition fmt (b : bool) (e : expr) : fres (list ev) := fmt_fuel (esize e) b e.

(** format.go:114-118 [Format]. *)
Definition Format (e : expr) : fres string :=
  if is_nil e then FOk ""%string else fbind (fmt false e) (fun l => FOk (render false "  " l)).

(** [NewFormatter().WithBeautify().WithIndent(indent)], [WriteExpr], [String]. *)
Definition Beautify (indent : string) (e : expr) : fres string :=
  if is_nil e then FOk ""%string else fbind (fmt true e) (fun l => FOk (render true indent l)).
