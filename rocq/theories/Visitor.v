(** Model of the [Accept] methods of parser/ast.go and of parser/ast_visitor.go. *)
From Coq Require Import String List Arith Bool.
From Verif Require Import Ast AstPos AstSubs Walk.
Import ListNotations.
Local Open Scope list_scope.
Local Open Scope nat_scope.

(** A child on which [Accept] is called: under a nil check, or without. *)
Inductive child : Type := Opt (e : expr) | Must (e : expr).

(** The children on which the [Accept] method of a node calls [Accept], in order. The JSON
    helpers (ast.go:3242-3338, [accept]) check for nil everywhere. The elements of
    [EnumType.Values] and [ColumnNamesExpr.ColumnNames] and the keys of a map are stored by
    value, so they never are nil. *)
Definition accept_children (e : expr) : list child :=
  match e with
  | ESelectItem Expr Modifiers Alias => (* ast.go:44-61 *)
      [Must Expr] ++ map Must Modifiers ++ [Opt Alias]
  | ETernaryOperation Condition TrueExpr FalseExpr => (* ast.go:96-109 *)
      [Must TrueExpr; Must FalseExpr; Must Condition]
  | EBinaryOperation LeftExpr _ RightExpr _ _ => (* ast.go:127-137 *)
      [Must LeftExpr; Must RightExpr]
  | EIndexOperation Object _ Index => (* ast.go:145-155 *)
      [Must Object; Must Index]
  | EJoinTableExpr Table _ SampleRatio _ => (* ast.go:172-184 *)
      [Must Table; Opt SampleRatio]
  | EAlterTable _ _ TableIdentifier OnCluster AlterExprs => (* ast.go:219-237 *)
      [Must TableIdentifier; Opt OnCluster] ++ map Must AlterExprs
  | EAlterTableAttachPartition _ Partition From => (* ast.go:261-273 *)
      [Must Partition; Opt From]
  | EAlterTableDetachPartition _ Partition Settings => (* ast.go:293-305 *)
      [Must Partition; Opt Settings]
  | EAlterTableDropPartition _ _ Partition Settings => (* ast.go:329-341 *)
      [Must Partition; Opt Settings]
  | EAlterTableMaterializeProjection _ _ _ ProjectionName Partition => (* ast.go:363-375 *)
      [Must ProjectionName; Opt Partition]
  | EAlterTableMaterializeIndex _ _ _ IndexName Partition => (* ast.go:397-409 *)
      [Must IndexName; Opt Partition]
  | EAlterTableFreezePartition _ _ Partition => (* ast.go:429-438 *)
      [Opt Partition]
  | EAlterTableAddColumn _ _ Column _ After Settings => (* ast.go:465-482 *)
      [Must Column; Opt After; Opt Settings]
  | EAlterTableAddIndex _ _ Index _ After => (* ast.go:505-517 *)
      [Must Index; Opt After]
  | EProjectionOrderByClause _ Columns => (* ast.go:532-541 *)
      [Opt Columns]
  | EProjectionSelectStmt _ _ With SelectColumns GroupBy OrderBy => (* ast.go:561-583 *)
      [Opt With; Must SelectColumns; Opt GroupBy; Opt OrderBy]
  | ETableProjection _ _ Identifier Select => (* ast.go:600-610 *)
      [Must Identifier; Must Select]
  | EAlterTableAddProjection _ _ _ TableProjection After => (* ast.go:633-645 *)
      [Must TableProjection; Opt After]
  | EAlterTableDropColumn _ ColumnName _ => (* ast.go:665-672 *)
      [Must ColumnName]
  | EAlterTableDropIndex _ IndexName _ => (* ast.go:692-699 *)
      [Must IndexName]
  | EAlterTableDropProjection _ ProjectionName _ => (* ast.go:719-726 *)
      [Must ProjectionName]
  | EAlterTableClearColumn _ _ _ ColumnName PartitionExpr => (* ast.go:772-784 *)
      [Must ColumnName; Opt PartitionExpr]
  | EAlterTableClearIndex _ _ _ IndexName PartitionExpr => (* ast.go:807-819 *)
      [Must IndexName; Opt PartitionExpr]
  | EAlterTableClearProjection _ _ _ ProjectionName PartitionExpr => (* ast.go:842-854 *)
      [Must ProjectionName; Opt PartitionExpr]
  | EAlterTableRenameColumn _ _ OldColumnName NewColumnName => (* ast.go:876-886 *)
      [Must OldColumnName; Must NewColumnName]
  | EAlterTableModifyQuery _ _ SelectExpr => (* ast.go:906-913 *)
      [Must SelectExpr]
  | EAlterTableModifyOrderBy _ _ OrderBy => (* ast.go:933-940 *)
      [Must OrderBy]
  | EAlterTableModifyTTL _ _ TTL => (* ast.go:960-967 *)
      [Must TTL]
  | EAlterTableModifyColumn _ _ _ Column RemovePropertyType => (* ast.go:990-1002 *)
      [Must Column; Opt RemovePropertyType]
  | EAlterTableModifySetting _ _ Settings => (* ast.go:1022-1031 *)
      map Must Settings
  | EAlterTableResetSetting _ _ Settings => (* ast.go:1051-1060 *)
      map Must Settings
  | EAlterTableReplacePartition _ Partition Table => (* ast.go:1080-1090 *)
      [Must Partition; Must Table]
  | EAlterTableDelete _ _ WhereClause => (* ast.go:1110-1117 *)
      [Must WhereClause]
  | EAlterTableUpdate _ _ Assignments InPartition WhereClause => (* ast.go:1139-1156 *)
      map Must Assignments ++ [Opt InPartition; Must WhereClause]
  | EUpdateAssignment _ Column Expr => (* ast.go:1172-1182 *)
      [Must Column; Must Expr]
  | ERemovePropertyType _ PropertyType => (* ast.go:1198-1205 *)
      [Must PropertyType]
  | ETableIndex _ Name ColumnExpr ColumnType Granularity => (* ast.go:1224-1240 *)
      [Must Name; Must ColumnExpr; Must ColumnType; Must Granularity]
  | EUUID Value => (* ast.go:1275-1284 *)
      [Opt Value]
  | ECreateDatabase _ _ Name _ OnCluster Engine Comment => (* ast.go:1308-1332 *)
      [Opt Name; Opt OnCluster; Opt Engine; Opt Comment]
  | ECreateTable _ _ _ Name _ UUID OnCluster TableSchema Engine SubQuery TableFunction _ Comment => (* ast.go:1362-1404 *)
      [Must Name; Opt UUID; Opt OnCluster; Opt TableSchema; Opt Engine; Opt SubQuery; Opt TableFunction; Opt Comment]
  | ECreateMaterializedView _ _ Name _ OnCluster Refresh RandomizeFor DependsOn Settings _ Engine TableSchema _ Destination SubQuery _ Comment Definer _ => (* ast.go:1440-1505 *)
      [Must Name; Opt OnCluster; Opt Refresh; Opt RandomizeFor] ++ map Must DependsOn ++ [Opt Settings; Opt TableSchema; Opt Engine; Opt Destination; Opt SubQuery; Opt Definer; Opt Comment]
  | ECreateView _ _ _ Name _ UUID OnCluster TableSchema Comment SubQuery => (* ast.go:1532-1564 *)
      [Must Name; Opt UUID; Opt OnCluster; Opt TableSchema; Opt Comment; Opt SubQuery]
  | ECreateFunction _ _ _ FunctionName OnCluster Params Expr => (* ast.go:1588-1606 *)
      [Must FunctionName; Opt OnCluster; Must Params; Must Expr]
  | ERoleName Name Scope OnCluster => (* ast.go:1628-1645 *)
      [Must Name; Opt Scope; Opt OnCluster]
  | ESettingPair Name _ Value => (* ast.go:1661-1673 *)
      [Must Name; Opt Value]
  | ERoleSetting SettingPairs Modifier => (* ast.go:1694-1708 *)
      map Must SettingPairs ++ [Opt Modifier]
  | ECreateRole _ _ _ _ RoleNames AccessStorageType Settings => (* ast.go:1732-1751 *)
      map Must RoleNames ++ [Opt AccessStorageType] ++ map Must Settings
  | EAuthenticationClause _ _ _ _ AuthValue LdapServer KerberosRealm _ => (* ast.go:1772-1791 *)
      [Opt AuthValue; Opt LdapServer; Opt KerberosRealm]
  | EHostClause _ _ _ HostValue => (* ast.go:1808-1817 *)
      [Opt HostValue]
  | EDefaultRoleClause _ _ Roles _ => (* ast.go:1834-1843 *)
      map Must Roles
  | EGranteesClause _ _ Grantees ExceptUsers _ _ => (* ast.go:1862-1876 *)
      map Must Grantees ++ map Must ExceptUsers
  | ECreateUser _ _ _ _ UserNames Authentication ValidUntil Hosts DefaultRole DefaultDatabase _ Grantees Settings => (* ast.go:1906-1950 *)
      map Must UserNames ++ [Opt Authentication; Opt ValidUntil] ++ map Must Hosts ++ [Opt DefaultRole; Opt DefaultDatabase; Opt Grantees] ++ map Must Settings
  | EAlterRole _ _ _ RoleRenamePairs Settings => (* ast.go:1972-1986 *)
      map Must RoleRenamePairs ++ map Must Settings
  | ERoleRenamePair RoleName NewName _ => (* ast.go:2002-2014 *)
      [Must RoleName; Opt NewName]
  | EDestinationClause _ TableIdentifier TableSchema => (* ast.go:2033-2045 *)
      [Must TableIdentifier; Opt TableSchema]
  | EConstraintClause _ Constraint Expr => (* ast.go:2061-2071 *)
      [Must Constraint; Must Expr]
  | ENotNullLiteral _ NullLiteral => (* ast.go:2104-2111 *)
      [Must NullLiteral]
  | ENestedIdentifier Ident DotIdent => (* ast.go:2129-2141 *)
      [Must Ident; Opt DotIdent]
  | EPath Fields => (* ast.go:2161-2170 *)
      map Must Fields
  | ETableIdentifier Database Table => (* ast.go:2188-2200 *)
      [Opt Database; Must Table]
  | ETableSchemaClause _ _ Columns AliasTable TableFunction => (* ast.go:2218-2237 *)
      map Must Columns ++ [Opt AliasTable; Opt TableFunction]
  | ETableArgListExpr _ _ Args => (* ast.go:2253-2262 *)
      map Must Args
  | ETableFunctionExpr Name Args => (* ast.go:2277-2287 *)
      [Must Name; Must Args]
  | EClusterClause _ Expr => (* ast.go:2302-2309 *)
      [Must Expr]
  | EPartitionClause _ Expr ID _ => (* ast.go:2329-2343 *)
      [Opt Expr; Opt ID]
  | EPartitionByClause _ Expr => (* ast.go:2358-2365 *)
      [Must Expr]
  | EPrimaryKeyClause _ Expr => (* ast.go:2380-2387 *)
      [Must Expr]
  | ESampleByClause _ Expr => (* ast.go:2402-2409 *)
      [Must Expr]
  | ETTLPolicyRuleAction _ _ _ Codec => (* ast.go:2429-2438 *)
      [Opt Codec]
  | ERefreshExpr _ _ Interval Offset => (* ast.go:2458-2472 *)
      [Opt Interval; Opt Offset]
  | ETTLPolicyRule _ ToVolume ToDisk Action => (* ast.go:2495-2514 *)
      [Opt ToVolume; Opt ToDisk; Opt Action]
  | ETTLPolicy Item Where GroupBy => (* ast.go:2542-2561 *)
      [Opt Item; Opt Where; Opt GroupBy]
  | ETTLExpr _ Expr Policy => (* ast.go:2577-2589 *)
      [Must Expr; Opt Policy]
  | ETTLClause _ _ Items => (* ast.go:2605-2614 *)
      map Must Items
  | EFill _ From To Step Staleness => (* ast.go:2644-2668 *)
      [Opt From; Opt To; Opt Step; Opt Staleness]
  | EOrderExpr _ Expr Alias _ Fill => (* ast.go:2692-2709 *)
      [Must Expr; Opt Alias; Opt Fill]
  | EInterpolateItem Column Expr => (* ast.go:2727-2739 *)
      [Must Column; Opt Expr]
  | EInterpolateClause _ _ Items => (* ast.go:2755-2764 *)
      map Must Items
  | EOrderByClause _ _ Items Interpolate => (* ast.go:2784-2798 *)
      map Must Items ++ [Opt Interpolate]
  | ESettingExpr _ Name Expr => (* ast.go:2814-2824 *)
      [Must Name; Must Expr]
  | ESettingsClause _ _ Items => (* ast.go:2840-2849 *)
      map Must Items
  | EParamExprList _ _ Items ColumnArgList => (* ast.go:2866-2878 *)
      [Must Items; Opt ColumnArgList]
  | EMapLiteral _ _ KeyValues => (* ast.go:2899-2911 *)
      map Must (flat_map key_value KeyValues)
  | ENamedParameterExpr _ Name Value => (* ast.go:2927-2937 *)
      [Must Name; Must Value]
  | EQueryParam _ _ Name Type_ => (* ast.go:2954-2964 *)
      [Must Name; Must Type_]
  | EArrayParamList _ _ Items => (* ast.go:2980-2987 *)
      [Must Items]
  | EObjectParams Object Params => (* ast.go:3002-3012 *)
      [Must Object; Must Params]
  | EFunctionExpr Name Params => (* ast.go:3027-3037 *)
      [Must Name; Must Params]
  | EWindowFunctionExpr Function _ OverExpr => (* ast.go:3053-3063 *)
      [Must Function; Must OverExpr]
  | ETypedPlaceholder _ _ Name Type_ => (* ast.go:3080-3090 *)
      [Must Name; Must Type_]
  | EColumnExpr Expr Alias => (* ast.go:3108-3120 *)
      [Must Expr; Opt Alias]
  | EColumnDef _ _ Name Type_ NotNull Nullable DefaultExpr MaterializedExpr AliasExpr Codec TTL Comment CompressionCodec => (* ast.go:3149-3206 *)
      [Must Name; Opt Type_; Opt NotNull; Opt Nullable; Opt DefaultExpr; Opt MaterializedExpr; Opt AliasExpr; Opt Codec; Opt TTL; Opt Comment; Opt CompressionCodec]
  | EScalarType Name => (* ast.go:3225-3232 *)
      [Must Name]
  | EJSONType Name Options => (* ast.go:3360-3370 *)
      [Must Name] ++ map Opt (json_options Options)
  | EPropertyType Name => (* ast.go:3384-3391 *)
      [Must Name]
  | ETypeWithParams _ _ Name Params => (* ast.go:3412-3424 *)
      [Must Name] ++ map Must Params
  | EComplexType _ _ Name Params => (* ast.go:3445-3457 *)
      [Must Name] ++ map Must Params
  | ENestedType _ _ Name Columns => (* ast.go:3478-3490 *)
      [Must Name] ++ map Must Columns
  | ECompressionCodec _ _ Type_ TypeLevel Name Level => (* ast.go:3513-3537 *)
      [Opt Type_; Opt TypeLevel; Opt Name; Opt Level]
  | ERatioExpr Numerator Denominator => (* ast.go:3641-3653 *)
      [Must Numerator; Opt Denominator]
  | EEnumValue Name Value => (* ast.go:3668-3678 *)
      [Must Name; Must Value]
  | EEnumType Name _ _ Values => (* ast.go:3695-3707 *)
      [Must Name] ++ map Must Values
  | EIntervalExpr _ Expr Unit => (* ast.go:3732-3742 *)
      [Must Expr; Must Unit]
  | EEngineExpr _ _ _ Params PrimaryKey PartitionBy SampleBy TTL Settings OrderBy => (* ast.go:3766-3805 *)
      [Opt Params; Opt PrimaryKey; Opt PartitionBy; Opt SampleBy; Opt TTL; Opt Settings; Opt OrderBy]
  | EColumnTypeExpr Name => (* ast.go:3819-3826 *)
      [Must Name]
  | EColumnArgList _ _ _ Items => (* ast.go:3843-3852 *)
      map Must Items
  | EColumnExprList _ _ _ Items => (* ast.go:3869-3878 *)
      map Must Items
  | EWhenClause _ _ When Then _ Else => (* ast.go:3900-3915 *)
      [Must When; Must Then; Opt Else]
  | ECaseExpr _ _ Expr Whens _ Else => (* ast.go:3934-3953 *)
      [Opt Expr] ++ map Must Whens ++ [Opt Else]
  | ECastExpr _ Expr _ _ AsType => (* ast.go:3971-3981 *)
      [Must Expr; Must AsType]
  | EWithClause _ _ CTEs => (* ast.go:3997-4006 *)
      map Must CTEs
  | ETopClause _ _ Number _ => (* ast.go:4023-4030 *)
      [Must Number]
  | ECreateLiveView _ _ Name _ UUID OnCluster Destination TableSchema WithTimeout SubQuery => (* ast.go:4057-4094 *)
      [Must Name; Opt UUID; Opt OnCluster; Opt Destination; Opt TableSchema; Opt WithTimeout; Opt SubQuery]
  | ECreateDictionary _ _ _ Name _ UUID OnCluster Schema Engine Comment => (* ast.go:4121-4153 *)
      [Must Name; Opt UUID; Opt OnCluster; Opt Schema; Opt Engine; Opt Comment]
  | ECreateNamedCollection _ _ Name _ OnCluster Params => (* ast.go:4176-4193 *)
      [Must Name; Opt OnCluster] ++ map Must Params
  | ENamedCollectionParam _ Name Value _ _ => (* ast.go:4211-4221 *)
      [Must Name; Must Value]
  | EDictionarySchemaClause _ Attributes _ => (* ast.go:4237-4246 *)
      map Must Attributes
  | EDictionaryAttribute _ _ Name Type_ Default Expression _ _ _ => (* ast.go:4268-4288 *)
      [Must Name; Must Type_; Opt Default; Opt Expression]
  | EDictionaryEngineClause _ PrimaryKey Source Lifetime Layout Range Settings => (* ast.go:4326-4360 *)
      [Opt PrimaryKey; Opt Source; Opt Lifetime; Opt Layout; Opt Range; Opt Settings]
  | EDictionaryPrimaryKeyClause _ Keys _ => (* ast.go:4376-4383 *)
      [Must Keys]
  | EDictionarySourceClause _ Source Args _ => (* ast.go:4400-4412 *)
      [Must Source] ++ map Must Args
  | EDictionaryArgExpr _ Name Value Args _ _ => (* ast.go:4441-4458 *)
      [Must Name; Opt Value] ++ map Must Args
  | EDictionaryLifetimeClause _ Min Max Value _ => (* ast.go:4476-4495 *)
      [Opt Value; Opt Min; Opt Max]
  | EDictionaryLayoutClause _ Layout Args _ => (* ast.go:4512-4524 *)
      [Must Layout] ++ map Must Args
  | EDictionaryRangeClause _ Min Max _ => (* ast.go:4541-4551 *)
      [Must Min; Must Max]
  | EWithTimeoutClause _ Expr Number => (* ast.go:4573-4587 *)
      [Opt Expr; Opt Number]
  | ETableExpr _ _ Alias Expr _ => (* ast.go:4605-4617 *)
      [Must Expr; Opt Alias]
  | EOnClause _ On => (* ast.go:4632-4639 *)
      [Must On]
  | EUsingClause _ Using => (* ast.go:4654-4661 *)
      [Must Using]
  | EJoinExpr _ Left Right _ Constraints => (* ast.go:4686-4703 *)
      [Must Left; Opt Right; Opt Constraints]
  | EJoinConstraintClause _ On Using => (* ast.go:4722-4736 *)
      [Opt On; Opt Using]
  | EFromClause _ Expr => (* ast.go:4751-4758 *)
      [Must Expr]
  | EIsNullExpr _ _ Expr => (* ast.go:4774-4781 *)
      [Must Expr]
  | EIsNotNullExpr _ _ Expr => (* ast.go:4797-4804 *)
      [Must Expr]
  | EAliasExpr Expr _ Alias => (* ast.go:4820-4830 *)
      [Must Expr; Must Alias]
  | EWhereClause _ Expr => (* ast.go:4845-4852 *)
      [Must Expr]
  | EPrewhereClause _ Expr => (* ast.go:4867-4874 *)
      [Must Expr]
  | EGroupByClause _ _ _ Expr _ _ _ => (* ast.go:4894-4903 *)
      [Opt Expr]
  | EHavingClause _ Expr => (* ast.go:4918-4925 *)
      [Must Expr]
  | ELimitClause _ Limit Offset => (* ast.go:4944-4958 *)
      [Opt Limit; Opt Offset]
  | ELimitByClause Limit ByExpr => (* ast.go:4979-4993 *)
      [Opt Limit; Opt ByExpr]
  | EWindowExpr _ _ WindowName PartitionBy OrderBy Frame => (* ast.go:5012-5036 *)
      [Opt WindowName; Opt PartitionBy; Opt OrderBy; Opt Frame]
  | EWindowClause _ _ Windows => (* ast.go:5078-5097 *)
      map Opt (flat_map window_parts Windows)
  | EWindowFrameClause _ _ Extend => (* ast.go:5113-5120 *)
      [Must Extend]
  | EWindowFrameExtendExpr Expr _ _ => (* ast.go:5139-5146 *)
      [Must Expr]
  | EBetweenClause Expr _ Between _ And => (* ast.go:5167-5182 *)
      [Opt Expr; Must Between; Must And]
  | EWindowFrameNumber Number _ _ => (* ast.go:5237-5244 *)
      [Must Number]
  | EWindowFrameParam Param _ _ => (* ast.go:5260-5267 *)
      [Must Param]
  | ESelectQuery _ _ With Top _ DistinctOn SelectItems From Window Prewhere Where GroupBy _ Having OrderBy LimitBy Limit Settings Format UnionAll UnionDistinct Except Intersect => (* ast.go:5303-5404 *)
      [Opt With; Opt DistinctOn; Opt Top] ++ map Must SelectItems ++ [Opt From; Opt Window; Opt Prewhere; Opt Where; Opt GroupBy; Opt Having; Opt OrderBy; Opt LimitBy; Opt Limit; Opt Settings; Opt Format; Opt UnionAll; Opt UnionDistinct; Opt Except; Opt Intersect]
  | EDistinctOn Idents _ _ => (* ast.go:5420-5429 *)
      map Must Idents
  | ESubQuery _ Select => (* ast.go:5444-5453 *)
      [Opt Select]
  | ENotExpr _ Expr => (* ast.go:5468-5475 *)
      [Must Expr]
  | ENegateExpr _ Expr => (* ast.go:5490-5497 *)
      [Must Expr]
  | EGlobalInOperation _ Expr => (* ast.go:5512-5519 *)
      [Must Expr]
  | EIntervalFrom Interval _ FromExpr => (* ast.go:5535-5547 *)
      [Opt Interval; Must FromExpr]
  | EExtractExpr _ _ Parameters => (* ast.go:5563-5572 *)
      map Must Parameters
  | EDropDatabase _ _ Name _ OnCluster _ => (* ast.go:5595-5607 *)
      [Must Name; Opt OnCluster]
  | EDropStmt _ _ _ Name _ OnCluster _ _ => (* ast.go:5633-5646 *)
      [Must Name; Opt OnCluster]
  | EDropUserOrRole _ _ _ Names _ _ From => (* ast.go:5670-5684 *)
      map Must Names ++ [Opt From]
  | EUseStmt _ _ Database => (* ast.go:5700-5707 *)
      [Must Database]
  | ECTEStmt _ Expr Alias => (* ast.go:5723-5733 *)
      [Must Expr; Must Alias]
  | ESetStmt _ Settings => (* ast.go:5748-5755 *)
      [Must Settings]
  | EFormatClause _ Format => (* ast.go:5770-5777 *)
      [Must Format]
  | EOptimizeStmt _ _ Table OnCluster Partition _ Deduplicate => (* ast.go:5797-5819 *)
      [Must Table; Opt OnCluster; Opt Partition; Opt Deduplicate]
  | EDeduplicateClause _ By Except => (* ast.go:5840-5854 *)
      [Opt By; Opt Except]
  | ESystemStmt _ Expr => (* ast.go:5869-5876 *)
      [Must Expr]
  | ESystemFlushExpr _ _ _ Distributed => (* ast.go:5893-5902 *)
      [Opt Distributed]
  | ESystemReloadExpr _ _ OnCluster Dictionary _ => (* ast.go:5920-5934 *)
      [Opt OnCluster; Opt Dictionary]
  | ESystemSyncExpr _ Cluster => (* ast.go:5949-5956 *)
      [Must Cluster]
  | ESystemCtrlExpr _ _ _ _ Cluster => (* ast.go:5974-5983 *)
      [Opt Cluster]
  | ETruncateTable _ _ _ _ Name OnCluster => (* ast.go:6026-6038 *)
      [Must Name; Opt OnCluster]
  | ESampleClause _ Ratio Offset => (* ast.go:6057-6069 *)
      [Must Ratio; Opt Offset]
  | EDeleteClause _ Table OnCluster WhereExpr => (* ast.go:6086-6103 *)
      [Must Table; Opt OnCluster; Opt WhereExpr]
  | EColumnNamesExpr _ _ ColumnNames => (* ast.go:6119-6128 *)
      map Must ColumnNames
  | EAssignmentValues _ _ Values => (* ast.go:6144-6153 *)
      map Must Values
  | EInsertStmt _ Format _ Table ColumnNames Values SelectExpr => (* ast.go:6187-6214 *)
      [Must Table; Opt ColumnNames; Opt Format] ++ map Must Values ++ [Opt SelectExpr]
  | ECheckStmt _ Table Partition => (* ast.go:6230-6242 *)
      [Must Table; Opt Partition]
  | EUnaryExpr _ _ Expr => (* ast.go:6258-6265 *)
      [Must Expr]
  | ERenameStmt _ _ _ TargetPairList OnCluster => (* ast.go:6288-6305 *)
      map Must (flat_map pair_parts TargetPairList) ++ [Opt OnCluster]
  | ETargetPair Old New => (* ast.go:6320-6330 *)
      [Must Old; Must New]
  | EExplainStmt _ _ Statement => (* ast.go:6346-6353 *)
      [Must Statement]
  | EPrivilegeClause _ _ _ Params => (* ast.go:6370-6379 *)
      [Opt Params]
  | EGrantPrivilegeStmt _ _ OnCluster Privileges On To _ => (* ast.go:6403-6425 *)
      [Opt OnCluster] ++ map Must Privileges ++ [Must On] ++ map Must To
  | EShowStmt _ _ _ Target _ _ LikePattern Limit OutFile Format => (* ast.go:6466-6495 *)
      [Opt Target; Opt LikePattern; Opt Limit; Opt OutFile; Opt Format]
  | EDescribeStmt _ _ _ Target => (* ast.go:6512-6519 *)
      [Must Target]
  | _ => []
  end.

Section Accept.
  (** The visitor: [Enter], [Leave] and the [Visit...] method for the type of the node;
      [true] means that it returns no error. *)
  Context {St : Type}.
  Variables (enter leave : St -> expr -> St) (visit : St -> expr -> St * bool).

  (** The calls of [Accept] on the children, in order; an error ends them. [None] is a Go
      panic. Calling [Accept] on a nil field is one (for a field of type *Ident, or of a
      literal type, it would not panic but visit the nil pointer). *)
  Fixpoint accept_seq (a : expr -> St -> option (St * bool)) (l : list child) (s : St) : option (St * bool) :=
    match l with
    | [] => Some (s, true)
    | ch :: r =>
        let res := match ch with
                   | Opt c => if is_nil c then Some (s, true) else a c s
                   | Must c => if is_nil c then None else a c s
                   end in
        match res with
        | Some (s1, true) => accept_seq a r s1
        | _ => res
        end
    end.

  (** The [Accept] methods, with fuel for the depth of the tree. [Leave] is deferred. *)
  Fixpoint accept_fuel (n : nat) (e : expr) (s : St) : option (St * bool) :=
    match n with
    | O => Some (s, true)
    | S m =>
        match accept_seq (accept_fuel m) (accept_children e) (enter s e) with
        | None => None
        | Some (s1, false) => Some (leave s1 e, false)
        | Some (s1, true) => let (s2, b) := visit s1 e in Some (leave s2 e, b)
        end
    end.

  Definition Accept (e : expr) (s : St) : option (St * bool) := accept_fuel (esize e) e s.
End Accept.

(** ast_visitor.go:207-1585 [DefaultASTVisitor]: [Enter] and [Leave] do nothing, every
    [Visit...] method calls [Visit]. *)
Definition AcceptDefault {St} (visit : St -> expr -> St * bool) : expr -> St -> option (St * bool) :=
  Accept (fun s _ => s) (fun s _ => s) visit.
