(** The syntax tree. Generated from the struct definitions of parser/ast.go: one
    constructor of [expr] per Go struct, with the same fields in the same order.
    Go's nil (pointer or interface) is [ENil]. Simplifications: a field
    that Go types as a pointer to a particular struct, as an interface or as a
    struct value has type [expr] here; nil and empty slices are both [nil];
    [TokenKind] and [OrderDirection] are strings, [int] fields are [nat]. *)
From Coq Require Import String List Arith ZArith.
From Verif Require Import Str.
Import ListNotations.

(** Positions are symbolic: [PStart i] / [PEnd i] are the values of [Parser.Pos()]
    and [Parser.End()] (parser_common.go:58-71) when the parser looks at item [i]
    of the input; [PZero] is the zero value of a field that was never assigned;
    [PPlus] is Go arithmetic on positions. [resolve_pos] in Items.v gives the
    number. *)
Inductive pos : Type :=
| PZero
| PStart (i : nat)
| PEnd (i : nat)
| PPlus (p : pos) (d : Z).

Unset Elimination Schemes.
(** All node kinds; the argument names are the Go field names. *)
Inductive expr : Type :=
| ENil
(** ast.go:23-28 *)
| ESelectItem (Expr : expr) (Modifiers : list expr) (Alias : expr)
(** ast.go:63-66 *)
| EOperationExpr (OperationPos : pos) (Kind : string)
(** ast.go:82-86 *)
| ETernaryOperation (Condition : expr) (TrueExpr : expr) (FalseExpr : expr)
(** ast.go:111-117 *)
| EBinaryOperation (LeftExpr : expr) (Operation : string) (RightExpr : expr) (HasGlobal : bool)
    (HasNot : bool)
(** ast.go:139-143 *)
| EIndexOperation (Object : expr) (Operation : string) (Index : expr)
(** ast.go:165-170 *)
| EJoinTableExpr (Table : expr) (StatementEnd : pos) (SampleRatio : expr) (HasFinal : bool)
(** ast.go:199-205 *)
| EAlterTable (AlterPos : pos) (StatementEnd : pos) (TableIdentifier : expr) (OnCluster : expr)
    (AlterExprs : list expr)
(** ast.go:239-244 *)
| EAlterTableAttachPartition (AttachPos : pos) (Partition : expr) (From : expr)
(** ast.go:275-279 *)
| EAlterTableDetachPartition (DetachPos : pos) (Partition : expr) (Settings : expr)
(** ast.go:307-312 *)
| EAlterTableDropPartition (DropPos : pos) (HasDetached : bool) (Partition : expr)
    (Settings : expr)
(** ast.go:343-349 *)
| EAlterTableMaterializeProjection (MaterializedPos : pos) (StatementEnd : pos)
    (IfExists : bool) (ProjectionName : expr) (Partition : expr)
(** ast.go:377-383 *)
| EAlterTableMaterializeIndex (MaterializedPos : pos) (StatementEnd : pos) (IfExists : bool)
    (IndexName : expr) (Partition : expr)
(** ast.go:411-415 *)
| EAlterTableFreezePartition (FreezePos : pos) (StatementEnd : pos) (Partition : expr)
(** ast.go:440-448 *)
| EAlterTableAddColumn (AddPos : pos) (StatementEnd : pos) (Column : expr) (IfNotExists : bool)
    (After : expr) (Settings : expr)
(** ast.go:484-491 *)
| EAlterTableAddIndex (AddPos : pos) (StatementEnd : pos) (Index : expr) (IfNotExists : bool)
    (After : expr)
(** ast.go:519-522 *)
| EProjectionOrderByClause (OrderByPos : pos) (Columns : expr)
(** ast.go:543-550 *)
| EProjectionSelectStmt (LeftParenPos : pos) (RightParenPos : pos) (With : expr)
    (SelectColumns : expr) (GroupBy : expr) (OrderBy : expr)
(** ast.go:585-590 *)
| ETableProjection (IncludeProjectionKeyword : bool) (ProjectionPos : pos) (Identifier : expr)
    (Select : expr)
(** ast.go:612-619 *)
| EAlterTableAddProjection (AddPos : pos) (StatementEnd : pos) (IfNotExists : bool)
    (TableProjection : expr) (After : expr)
(** ast.go:647-651 *)
| EAlterTableDropColumn (DropPos : pos) (ColumnName : expr) (IfExists : bool)
(** ast.go:674-678 *)
| EAlterTableDropIndex (DropPos : pos) (IndexName : expr) (IfExists : bool)
(** ast.go:701-705 *)
| EAlterTableDropProjection (DropPos : pos) (ProjectionName : expr) (IfExists : bool)
(** ast.go:728-731 *)
| EAlterTableRemoveTTL (RemovePos : pos) (StatementEnd : pos)
(** ast.go:751-758 *)
| EAlterTableClearColumn (ClearPos : pos) (StatementEnd : pos) (IfExists : bool)
    (ColumnName : expr) (PartitionExpr : expr)
(** ast.go:786-793 *)
| EAlterTableClearIndex (ClearPos : pos) (StatementEnd : pos) (IfExists : bool)
    (IndexName : expr) (PartitionExpr : expr)
(** ast.go:821-828 *)
| EAlterTableClearProjection (ClearPos : pos) (StatementEnd : pos) (IfExists : bool)
    (ProjectionName : expr) (PartitionExpr : expr)
(** ast.go:856-862 *)
| EAlterTableRenameColumn (RenamePos : pos) (IfExists : bool) (OldColumnName : expr)
    (NewColumnName : expr)
(** ast.go:888-892 *)
| EAlterTableModifyQuery (ModifyPos : pos) (StatementEnd : pos) (SelectExpr : expr)
(** ast.go:915-919 *)
| EAlterTableModifyOrderBy (ModifyPos : pos) (StatementEnd : pos) (OrderBy : expr)
(** ast.go:942-946 *)
| EAlterTableModifyTTL (ModifyPos : pos) (StatementEnd : pos) (TTL : expr)
(** ast.go:969-976 *)
| EAlterTableModifyColumn (ModifyPos : pos) (StatementEnd : pos) (IfExists : bool)
    (Column : expr) (RemovePropertyType : expr)
(** ast.go:1004-1008 *)
| EAlterTableModifySetting (ModifyPos : pos) (StatementEnd : pos) (Settings : list expr)
(** ast.go:1033-1037 *)
| EAlterTableResetSetting (ResetPos : pos) (StatementEnd : pos) (Settings : list expr)
(** ast.go:1062-1066 *)
| EAlterTableReplacePartition (ReplacePos : pos) (Partition : expr) (Table : expr)
(** ast.go:1092-1096 *)
| EAlterTableDelete (DeletePos : pos) (StatementEnd : pos) (WhereClause : expr)
(** ast.go:1119-1125 *)
| EAlterTableUpdate (UpdatePos : pos) (StatementEnd : pos) (Assignments : list expr)
    (InPartition : expr) (WhereClause : expr)
(** ast.go:1158-1162 *)
| EUpdateAssignment (AssignmentPos : pos) (Column : expr) (Expr : expr)
(** ast.go:1184-1188 *)
| ERemovePropertyType (RemovePos : pos) (PropertyType : expr)
(** ast.go:1207-1214 *)
| ETableIndex (IndexPos : pos) (Name : expr) (ColumnExpr : expr) (ColumnType : expr)
    (Granularity : expr)
(** ast.go:1242-1247 *)
| EIdent (Name : string) (QuoteType : nat) (NamePos : pos) (NameEnd : pos)
(** ast.go:1263-1265 *)
| EUUID (Value : expr)
(** ast.go:1286-1294 *)
| ECreateDatabase (CreatePos : pos) (StatementEnd : pos) (Name : expr) (IfNotExists : bool)
    (OnCluster : expr) (Engine : expr) (Comment : expr)
(** ast.go:1334-1348 *)
| ECreateTable (CreatePos : pos) (StatementEnd : pos) (OrReplace : bool) (Name : expr)
    (IfNotExists : bool) (UUID : expr) (OnCluster : expr) (TableSchema : expr) (Engine : expr)
    (SubQuery : expr) (TableFunction : expr) (HasTemporary : bool) (Comment : expr)
(** ast.go:1406-1426 *)
| ECreateMaterializedView (CreatePos : pos) (StatementEnd : pos) (Name : expr)
    (IfNotExists : bool) (OnCluster : expr) (Refresh : expr) (RandomizeFor : expr)
    (DependsOn : list expr) (Settings : expr) (HasAppend : bool) (Engine : expr)
    (TableSchema : expr) (HasEmpty : bool) (Destination : expr) (SubQuery : expr)
    (Populate : bool) (Comment : expr) (Definer : expr) (SQLSecurity : string)
(** ast.go:1507-1518 *)
| ECreateView (CreatePos : pos) (StatementEnd : pos) (OrReplace : bool) (Name : expr)
    (IfNotExists : bool) (UUID : expr) (OnCluster : expr) (TableSchema : expr) (Comment : expr)
    (SubQuery : expr)
(** ast.go:1566-1574 *)
| ECreateFunction (CreatePos : pos) (OrReplace : bool) (IfNotExists : bool)
    (FunctionName : expr) (OnCluster : expr) (Params : expr) (Expr : expr)
(** ast.go:1608-1612 *)
| ERoleName (Name : expr) (Scope : expr) (OnCluster : expr)
(** ast.go:1647-1651 *)
| ESettingPair (Name : expr) (Operation : string) (Value : expr)
(** ast.go:1675-1678 *)
| ERoleSetting (SettingPairs : list expr) (Modifier : expr)
(** ast.go:1710-1718 *)
| ECreateRole (CreatePos : pos) (StatementEnd : pos) (IfNotExists : bool) (OrReplace : bool)
    (RoleNames : list expr) (AccessStorageType : expr) (Settings : list expr)
(** ast.go:1753-1762 *)
| EAuthenticationClause (AuthPos : pos) (AuthEnd : pos) (NotIdentified : bool)
    (AuthType : string) (AuthValue : expr) (LdapServer : expr) (KerberosRealm : expr)
    (IsKerberos : bool)
(** ast.go:1793-1798 *)
| EHostClause (HostPos : pos) (HostEnd : pos) (HostType : string) (HostValue : expr)
(** ast.go:1819-1824 *)
| EDefaultRoleClause (DefaultPos : pos) (DefaultEnd : pos) (Roles : list expr) (None : bool)
(** ast.go:1845-1852 *)
| EGranteesClause (GranteesPos : pos) (GranteesEnd : pos) (Grantees : list expr)
    (ExceptUsers : list expr) (Any : bool) (None : bool)
(** ast.go:1878-1892 *)
| ECreateUser (CreatePos : pos) (StatementEnd : pos) (IfNotExists : bool) (OrReplace : bool)
    (UserNames : list expr) (Authentication : expr) (ValidUntil : expr) (Hosts : list expr)
    (DefaultRole : expr) (DefaultDatabase : expr) (DefaultDbNone : bool) (Grantees : expr)
    (Settings : list expr)
(** ast.go:1952-1958 *)
| EAlterRole (AlterPos : pos) (StatementEnd : pos) (IfExists : bool)
    (RoleRenamePairs : list expr) (Settings : list expr)
(** ast.go:1988-1992 *)
| ERoleRenamePair (RoleName : expr) (NewName : expr) (StatementEnd : pos)
(** ast.go:2016-2020 *)
| EDestinationClause (ToPos : pos) (TableIdentifier : expr) (TableSchema : expr)
(** ast.go:2047-2051 *)
| EConstraintClause (ConstraintPos : pos) (Constraint : expr) (Expr : expr)
(** ast.go:2073-2075 *)
| ENullLiteral (NullPos : pos)
(** ast.go:2091-2094 *)
| ENotNullLiteral (NotPos : pos) (NullLiteral : expr)
(** ast.go:2113-2116 *)
| ENestedIdentifier (Ident : expr) (DotIdent : expr)
(** ast.go:2143-2145 *)
| EPath (Fields : list expr)
(** ast.go:2172-2175 *)
| ETableIdentifier (Database : expr) (Table : expr)
(** ast.go:2202-2208 *)
| ETableSchemaClause (SchemaPos : pos) (SchemaEnd : pos) (Columns : list expr)
    (AliasTable : expr) (TableFunction : expr)
(** ast.go:2239-2243 *)
| ETableArgListExpr (LeftParenPos : pos) (RightParenPos : pos) (Args : list expr)
(** ast.go:2264-2267 *)
| ETableFunctionExpr (Name : expr) (Args : expr)
(** ast.go:2289-2292 *)
| EClusterClause (OnPos : pos) (Expr : expr)
(** ast.go:2311-2316 *)
| EPartitionClause (PartitionPos : pos) (Expr : expr) (ID : expr) (All : bool)
(** ast.go:2345-2348 *)
| EPartitionByClause (PartitionPos : pos) (Expr : expr)
(** ast.go:2367-2370 *)
| EPrimaryKeyClause (PrimaryPos : pos) (Expr : expr)
(** ast.go:2389-2392 *)
| ESampleByClause (SamplePos : pos) (Expr : expr)
(** ast.go:2411-2416 *)
| ETTLPolicyRuleAction (ActionPos : pos) (ActionEnd : pos) (Action : string) (Codec : expr)
(** ast.go:2440-2445 *)
| ERefreshExpr (RefreshPos : pos) (Frequency : string) (Interval : expr) (Offset : expr)
(** ast.go:2474-2479 *)
| ETTLPolicyRule (RulePos : pos) (ToVolume : expr) (ToDisk : expr) (Action : expr)
(** ast.go:2516-2520 *)
| ETTLPolicy (Item : expr) (Where : expr) (GroupBy : expr)
(** ast.go:2563-2567 *)
| ETTLExpr (TTLPos : pos) (Expr : expr) (Policy : expr)
(** ast.go:2591-2595 *)
| ETTLClause (TTLPos : pos) (ListEnd : pos) (Items : list expr)
(** ast.go:2616-2622 *)
| EFill (FillPos : pos) (From : expr) (To : expr) (Step : expr) (Staleness : expr)
(** ast.go:2670-2676 *)
| EOrderExpr (OrderPos : pos) (Expr : expr) (Alias : expr) (Direction : string) (Fill : expr)
(** ast.go:2711-2714 *)
| EInterpolateItem (Column : expr) (Expr : expr)
(** ast.go:2741-2745 *)
| EInterpolateClause (InterpolatePos : pos) (ListEnd : pos) (Items : list expr)
(** ast.go:2766-2771 *)
| EOrderByClause (OrderPos : pos) (ListEnd : pos) (Items : list expr) (Interpolate : expr)
(** ast.go:2800-2804 *)
| ESettingExpr (SettingsPos : pos) (Name : expr) (Expr : expr)
(** ast.go:2826-2830 *)
| ESettingsClause (SettingsPos : pos) (ListEnd : pos) (Items : list expr)
(** ast.go:2851-2856 *)
| EParamExprList (LeftParenPos : pos) (RightParenPos : pos) (Items : expr)
    (ColumnArgList : expr)
(** ast.go:2880-2883 *)
| EKeyValue (Key : expr) (Value : expr)
(** ast.go:2885-2889 *)
| EMapLiteral (LBracePos : pos) (RBracePos : pos) (KeyValues : list expr)
(** ast.go:2913-2917 *)
| ENamedParameterExpr (NamePos : pos) (Name : expr) (Value : expr)
(** ast.go:2939-2944 *)
| EQueryParam (LBracePos : pos) (RBracePos : pos) (Name : expr) (Type_ : expr)
(** ast.go:2966-2970 *)
| EArrayParamList (LeftBracketPos : pos) (RightBracketPos : pos) (Items : expr)
(** ast.go:2989-2992 *)
| EObjectParams (Object : expr) (Params : expr)
(** ast.go:3014-3017 *)
| EFunctionExpr (Name : expr) (Params : expr)
(** ast.go:3039-3043 *)
| EWindowFunctionExpr (Function : expr) (OverPos : pos) (OverExpr : expr)
(** ast.go:3065-3070 *)
| ETypedPlaceholder (LeftBracePos : pos) (RightBracePos : pos) (Name : expr) (Type_ : expr)
(** ast.go:3092-3095 *)
| EColumnExpr (Expr : expr) (Alias : expr)
(** ast.go:3122-3139 *)
| EColumnDef (NamePos : pos) (ColumnEnd : pos) (Name : expr) (Type_ : expr) (NotNull : expr)
    (Nullable : expr) (DefaultExpr : expr) (MaterializedExpr : expr) (AliasExpr : expr)
    (Codec : expr) (TTL : expr) (Comment : expr) (CompressionCodec : expr)
(** ast.go:3213-3215 *)
| EScalarType (Name : expr)
(** ast.go:3238-3240 *)
| EJSONPath (Idents : list expr)
(** ast.go:3257-3260 *)
| EJSONTypeHint (Path : expr) (Type_ : expr)
(** ast.go:3277-3284 *)
| EJSONOption (SkipPath : expr) (SkipRegex : expr) (MaxDynamicPaths : expr)
    (MaxDynamicTypes : expr) (Column : expr)
(** ast.go:3314-3318 *)
| EJSONOptions (LParen : pos) (RParen : pos) (Items : list expr)
(** ast.go:3340-3343 *)
| EJSONType (Name : expr) (Options : expr)
(** ast.go:3372-3374 *)
| EPropertyType (Name : expr)
(** ast.go:3397-3402 *)
| ETypeWithParams (LeftParenPos : pos) (RightParenPos : pos) (Name : expr) (Params : list expr)
(** ast.go:3430-3435 *)
| EComplexType (LeftParenPos : pos) (RightParenPos : pos) (Name : expr) (Params : list expr)
(** ast.go:3463-3468 *)
| ENestedType (LeftParenPos : pos) (RightParenPos : pos) (Name : expr) (Columns : list expr)
(** ast.go:3496-3503 *)
| ECompressionCodec (CodecPos : pos) (RightParenPos : pos) (Type_ : expr) (TypeLevel : expr)
    (Name : expr) (Level : expr)
(** ast.go:3543-3548 *)
| ENumberLiteral (NumPos : pos) (NumEnd : pos) (Literal : string) (Base : nat)
(** ast.go:3564-3568 *)
| EStringLiteral (LiteralPos : pos) (LiteralEnd : pos) (Literal : string)
(** ast.go:3584-3588 *)
| EBoolLiteral (LiteralPos : pos) (LiteralEnd : pos) (Literal : string)
(** ast.go:3604-3608 *)
| EPlaceHolder (PlaceholderPos : pos) (PlaceHolderEnd : pos) (Type_ : string)
(** ast.go:3624-3628 *)
| ERatioExpr (Numerator : expr) (Denominator : expr)
(** ast.go:3655-3658 *)
| EEnumValue (Name : expr) (Value : expr)
(** ast.go:3680-3685 *)
| EEnumType (Name : expr) (ListPos : pos) (ListEnd : pos) (Values : list expr)
(** ast.go:3713-3719 *)
| EIntervalExpr (IntervalPos : pos) (Expr : expr) (Unit : expr)
(** ast.go:3745-3756 *)
| EEngineExpr (EnginePos : pos) (EngineEnd : pos) (Name : string) (Params : expr)
    (PrimaryKey : expr) (PartitionBy : expr) (SampleBy : expr) (TTL : expr) (Settings : expr)
    (OrderBy : expr)
(** ast.go:3807-3809 *)
| EColumnTypeExpr (Name : expr)
(** ast.go:3828-3833 *)
| EColumnArgList (Distinct : bool) (LeftParenPos : pos) (RightParenPos : pos)
    (Items : list expr)
(** ast.go:3854-3859 *)
| EColumnExprList (ListPos : pos) (ListEnd : pos) (HasDistinct : bool) (Items : list expr)
(** ast.go:3880-3887 *)
| EWhenClause (WhenPos : pos) (ThenPos : pos) (When : expr) (Then : expr) (ElsePos : pos)
    (Else : expr)
(** ast.go:3917-3924 *)
| ECaseExpr (CasePos : pos) (EndPos : pos) (Expr : expr) (Whens : list expr) (ElsePos : pos)
    (Else : expr)
(** ast.go:3955-3961 *)
| ECastExpr (CastPos : pos) (Expr : expr) (Separator : string) (AsPos : pos) (AsType : expr)
(** ast.go:3983-3987 *)
| EWithClause (WithPos : pos) (EndPos : pos) (CTEs : list expr)
(** ast.go:4008-4013 *)
| ETopClause (TopPos : pos) (TopEnd : pos) (Number : expr) (WithTies : bool)
(** ast.go:4032-4043 *)
| ECreateLiveView (CreatePos : pos) (StatementEnd : pos) (Name : expr) (IfNotExists : bool)
    (UUID : expr) (OnCluster : expr) (Destination : expr) (TableSchema : expr)
    (WithTimeout : expr) (SubQuery : expr)
(** ast.go:4096-4107 *)
| ECreateDictionary (CreatePos : pos) (StatementEnd : pos) (OrReplace : bool) (Name : expr)
    (IfNotExists : bool) (UUID : expr) (OnCluster : expr) (Schema : expr) (Engine : expr)
    (Comment : expr)
(** ast.go:4155-4162 *)
| ECreateNamedCollection (CreatePos : pos) (StatementEnd : pos) (Name : expr)
    (IfNotExists : bool) (OnCluster : expr) (Params : list expr)
(** ast.go:4195-4201 *)
| ENamedCollectionParam (ParamPos : pos) (Name : expr) (Value : expr) (Overridable : bool)
    (NotOverridable : bool)
(** ast.go:4223-4227 *)
| EDictionarySchemaClause (SchemaPos : pos) (Attributes : list expr) (RParenPos : pos)
(** ast.go:4248-4258 *)
| EDictionaryAttribute (NamePos : pos) (AttrEnd : pos) (Name : expr) (Type_ : expr)
    (Default : expr) (Expression : expr) (Hierarchical : bool) (Injective : bool)
    (IsObjectId : bool)
(** ast.go:4290-4298 *)
| EDictionaryEngineClause (EnginePos : pos) (PrimaryKey : expr) (Source : expr)
    (Lifetime : expr) (Layout : expr) (Range : expr) (Settings : expr)
(** ast.go:4362-4366 *)
| EDictionaryPrimaryKeyClause (PrimaryKeyPos : pos) (Keys : expr) (RParenPos : pos)
(** ast.go:4385-4390 *)
| EDictionarySourceClause (SourcePos : pos) (Source : expr) (Args : list expr) (RParenPos : pos)
(** ast.go:4414-4424 *)
| EDictionaryArgExpr (ArgPos : pos) (Name : expr) (Value : expr) (Args : list expr)
    (LParenPos : pos) (RParenPos : pos)
(** ast.go:4460-4466 *)
| EDictionaryLifetimeClause (LifetimePos : pos) (Min : expr) (Max : expr) (Value : expr)
    (RParenPos : pos)
(** ast.go:4497-4502 *)
| EDictionaryLayoutClause (LayoutPos : pos) (Layout : expr) (Args : list expr) (RParenPos : pos)
(** ast.go:4526-4531 *)
| EDictionaryRangeClause (RangePos : pos) (Min : expr) (Max : expr) (RParenPos : pos)
(** ast.go:4553-4557 *)
| EWithTimeoutClause (WithTimeoutPos : pos) (Expr : expr) (Number : expr)
(** ast.go:4589-4595 *)
| ETableExpr (TablePos : pos) (TableEnd : pos) (Alias : expr) (Expr : expr) (HasFinal : bool)
(** ast.go:4619-4622 *)
| EOnClause (OnPos : pos) (On : expr)
(** ast.go:4641-4644 *)
| EUsingClause (UsingPos : pos) (Using : expr)
(** ast.go:4663-4669 *)
| EJoinExpr (JoinPos : pos) (Left : expr) (Right : expr) (Modifiers : list string)
    (Constraints : expr)
(** ast.go:4705-4709 *)
| EJoinConstraintClause (ConstraintPos : pos) (On : expr) (Using : expr)
(** ast.go:4738-4741 *)
| EFromClause (FromPos : pos) (Expr : expr)
(** ast.go:4760-4764 *)
| EIsNullExpr (IsPos : pos) (NullEnd : pos) (Expr : expr)
(** ast.go:4783-4787 *)
| EIsNotNullExpr (IsPos : pos) (NullEnd : pos) (Expr : expr)
(** ast.go:4806-4810 *)
| EAliasExpr (Expr : expr) (AliasPos : pos) (Alias : expr)
(** ast.go:4832-4835 *)
| EWhereClause (WherePos : pos) (Expr : expr)
(** ast.go:4854-4857 *)
| EPrewhereClause (PrewherePos : pos) (Expr : expr)
(** ast.go:4876-4884 *)
| EGroupByClause (GroupByPos : pos) (GroupByEnd : pos) (AggregateType : string) (Expr : expr)
    (WithCube : bool) (WithRollup : bool) (WithTotals : bool)
(** ast.go:4905-4908 *)
| EHavingClause (HavingPos : pos) (Expr : expr)
(** ast.go:4927-4931 *)
| ELimitClause (LimitPos : pos) (Limit : expr) (Offset : expr)
(** ast.go:4960-4963 *)
| ELimitByClause (Limit : expr) (ByExpr : expr)
(** ast.go:4995-5002 *)
| EWindowExpr (LeftParenPos : pos) (RightParenPos : pos) (WindowName : expr)
    (PartitionBy : expr) (OrderBy : expr) (Frame : expr)
(** ast.go:5038-5042 *)
| EWindowDefinition (Name : expr) (AsPos : pos) (Expr : expr)
(** ast.go:5058-5062 *)
| EWindowClause (WindowPos : pos) (EndPos : pos) (Windows : list expr)
(** ast.go:5099-5103 *)
| EWindowFrameClause (FramePos : pos) (Type_ : string) (Extend : expr)
(** ast.go:5122-5126 *)
| EWindowFrameExtendExpr (Expr : expr) (Direction : string) (EndPos : pos)
(** ast.go:5148-5154 *)
| EBetweenClause (Expr : expr) (Not : bool) (Between : expr) (AndPos : pos) (And : expr)
(** ast.go:5184-5187 *)
| EWindowFrameCurrentRow (CurrentPos : pos) (RowEnd : pos)
(** ast.go:5203-5207 *)
| EWindowFrameUnbounded (UnboundedPos : pos) (UnboundedEnd : pos) (Direction : string)
(** ast.go:5223-5227 *)
| EWindowFrameNumber (Number : expr) (EndPos : pos) (Direction : string)
(** ast.go:5246-5250 *)
| EWindowFrameParam (Param : expr) (EndPos : pos) (Direction : string)
(** ast.go:5269-5293 *)
| ESelectQuery (SelectPos : pos) (StatementEnd : pos) (With : expr) (Top : expr)
    (HasDistinct : bool) (DistinctOn : expr) (SelectItems : list expr) (From : expr)
    (Window : expr) (Prewhere : expr) (Where : expr) (GroupBy : expr) (WithTotal : bool)
    (Having : expr) (OrderBy : expr) (LimitBy : expr) (Limit : expr) (Settings : expr)
    (Format : expr) (UnionAll : expr) (UnionDistinct : expr) (Except : expr) (Intersect : expr)
(** ast.go:5406-5410 *)
| EDistinctOn (Idents : list expr) (DistinctOnPos : pos) (DistinctOnEnd : pos)
(** ast.go:5431-5434 *)
| ESubQuery (HasParen : bool) (Select : expr)
(** ast.go:5455-5458 *)
| ENotExpr (NotPos : pos) (Expr : expr)
(** ast.go:5477-5480 *)
| ENegateExpr (NegatePos : pos) (Expr : expr)
(** ast.go:5499-5502 *)
| EGlobalInOperation (GlobalPos : pos) (Expr : expr)
(** ast.go:5521-5525 *)
| EIntervalFrom (Interval : expr) (FromPos : pos) (FromExpr : expr)
(** ast.go:5549-5553 *)
| EExtractExpr (ExtractPos : pos) (ExtractEnd : pos) (Parameters : list expr)
(** ast.go:5574-5581 *)
| EDropDatabase (DropPos : pos) (StatementEnd : pos) (Name : expr) (IfExists : bool)
    (OnCluster : expr) (Modifier : string)
(** ast.go:5609-5619 *)
| EDropStmt (DropPos : pos) (StatementEnd : pos) (DropTarget : string) (Name : expr)
    (IfExists : bool) (OnCluster : expr) (IsTemporary : bool) (Modifier : string)
(** ast.go:5648-5656 *)
| EDropUserOrRole (DropPos : pos) (Target : string) (StatementEnd : pos) (Names : list expr)
    (IfExists : bool) (Modifier : string) (From : expr)
(** ast.go:5686-5690 *)
| EUseStmt (UsePos : pos) (StatementEnd : pos) (Database : expr)
(** ast.go:5709-5713 *)
| ECTEStmt (CTEPos : pos) (Expr : expr) (Alias : expr)
(** ast.go:5735-5738 *)
| ESetStmt (SetPos : pos) (Settings : expr)
(** ast.go:5757-5760 *)
| EFormatClause (FormatPos : pos) (Format : expr)
(** ast.go:5779-5787 *)
| EOptimizeStmt (OptimizePos : pos) (StatementEnd : pos) (Table : expr) (OnCluster : expr)
    (Partition : expr) (HasFinal : bool) (Deduplicate : expr)
(** ast.go:5821-5825 *)
| EDeduplicateClause (DeduplicatePos : pos) (By : expr) (Except : expr)
(** ast.go:5856-5859 *)
| ESystemStmt (SystemPos : pos) (Expr : expr)
(** ast.go:5878-5883 *)
| ESystemFlushExpr (FlushPos : pos) (StatementEnd : pos) (Logs : bool) (Distributed : expr)
(** ast.go:5904-5910 *)
| ESystemReloadExpr (ReloadPos : pos) (StatementEnd : pos) (OnCluster : expr)
    (Dictionary : expr) (Type_ : string)
(** ast.go:5936-5939 *)
| ESystemSyncExpr (SyncPos : pos) (Cluster : expr)
(** ast.go:5958-5964 *)
| ESystemCtrlExpr (CtrlPos : pos) (StatementEnd : pos) (Command : string) (Type_ : string)
    (Cluster : expr)
(** ast.go:5985-5989 *)
| ESystemDropExpr (DropPos : pos) (StatementEnd : pos) (Type_ : string)
(** ast.go:6005-6012 *)
| ETruncateTable (TruncatePos : pos) (StatementEnd : pos) (IsTemporary : bool) (IfExists : bool)
    (Name : expr) (OnCluster : expr)
(** ast.go:6040-6044 *)
| ESampleClause (SamplePos : pos) (Ratio : expr) (Offset : expr)
(** ast.go:6071-6076 *)
| EDeleteClause (DeletePos : pos) (Table : expr) (OnCluster : expr) (WhereExpr : expr)
(** ast.go:6105-6109 *)
| EColumnNamesExpr (LeftParenPos : pos) (RightParenPos : pos) (ColumnNames : list expr)
(** ast.go:6130-6134 *)
| EAssignmentValues (LeftParenPos : pos) (RightParenPos : pos) (Values : list expr)
(** ast.go:6155-6163 *)
| EInsertStmt (InsertPos : pos) (Format : expr) (HasTableKeyword : bool) (Table : expr)
    (ColumnNames : expr) (Values : list expr) (SelectExpr : expr)
(** ast.go:6216-6220 *)
| ECheckStmt (CheckPos : pos) (Table : expr) (Partition : expr)
(** ast.go:6244-6248 *)
| EUnaryExpr (UnaryPos : pos) (Kind : string) (Expr : expr)
(** ast.go:6267-6274 *)
| ERenameStmt (RenamePos : pos) (StatementEnd : pos) (RenameTarget : string)
    (TargetPairList : list expr) (OnCluster : expr)
(** ast.go:6307-6310 *)
| ETargetPair (Old : expr) (New : expr)
(** ast.go:6332-6336 *)
| EExplainStmt (ExplainPos : pos) (Type_ : string) (Statement : expr)
(** ast.go:6355-6360 *)
| EPrivilegeClause (PrivilegePos : pos) (PrivilegeEnd : pos) (Keywords : list string)
    (Params : expr)
(** ast.go:6381-6389 *)
| EGrantPrivilegeStmt (GrantPos : pos) (StatementEnd : pos) (OnCluster : expr)
    (Privileges : list expr) (On : expr) (To : list expr) (WithOptions : list string)
(** ast.go:6427-6440 *)
| EShowStmt (ShowPos : pos) (StatementEnd : pos) (ShowType : string) (Target : expr)
    (NotLike : bool) (LikeType : string) (LikePattern : expr) (Limit : expr) (OutFile : expr)
    (Format : expr)
(** ast.go:6497-6502 *)
| EDescribeStmt (DescribePos : pos) (StatementEnd : pos) (DescribeType : string) (Target : expr)
.
Set Elimination Schemes.
