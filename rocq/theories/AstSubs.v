(** Generic views of the syntax tree (generated from the same struct definitions as
    Ast.v): the nodes and the positions held in the fields of a node, in field order.
    Nil fields are included, as [ENil]. *)
From Coq Require Import String List Arith Lia.
From Verif Require Import Str Ast.
Import ListNotations.
Local Open Scope nat_scope.

(** The nodes held in the fields of a node. *)
Definition subs (e : expr) : list expr :=
  match e with
  | ENil => []
  | ESelectItem Expr Modifiers Alias => [Expr] ++ Modifiers ++ [Alias]
  | EOperationExpr _ _ => []
  | ETernaryOperation Condition TrueExpr FalseExpr => [Condition; TrueExpr; FalseExpr]
  | EBinaryOperation LeftExpr _ RightExpr _ _ => [LeftExpr; RightExpr]
  | EIndexOperation Object _ Index => [Object; Index]
  | EJoinTableExpr Table _ SampleRatio _ => [Table; SampleRatio]
  | EAlterTable _ _ TableIdentifier OnCluster AlterExprs => [TableIdentifier; OnCluster] ++ AlterExprs
  | EAlterTableAttachPartition _ Partition From => [Partition; From]
  | EAlterTableDetachPartition _ Partition Settings => [Partition; Settings]
  | EAlterTableDropPartition _ _ Partition Settings => [Partition; Settings]
  | EAlterTableMaterializeProjection _ _ _ ProjectionName Partition => [ProjectionName; Partition]
  | EAlterTableMaterializeIndex _ _ _ IndexName Partition => [IndexName; Partition]
  | EAlterTableFreezePartition _ _ Partition => [Partition]
  | EAlterTableAddColumn _ _ Column _ After Settings => [Column; After; Settings]
  | EAlterTableAddIndex _ _ Index _ After => [Index; After]
  | EProjectionOrderByClause _ Columns => [Columns]
  | EProjectionSelectStmt _ _ With SelectColumns GroupBy OrderBy => [With; SelectColumns; GroupBy; OrderBy]
  | ETableProjection _ _ Identifier Select => [Identifier; Select]
  | EAlterTableAddProjection _ _ _ TableProjection After => [TableProjection; After]
  | EAlterTableDropColumn _ ColumnName _ => [ColumnName]
  | EAlterTableDropIndex _ IndexName _ => [IndexName]
  | EAlterTableDropProjection _ ProjectionName _ => [ProjectionName]
  | EAlterTableRemoveTTL _ _ => []
  | EAlterTableClearColumn _ _ _ ColumnName PartitionExpr => [ColumnName; PartitionExpr]
  | EAlterTableClearIndex _ _ _ IndexName PartitionExpr => [IndexName; PartitionExpr]
  | EAlterTableClearProjection _ _ _ ProjectionName PartitionExpr => [ProjectionName; PartitionExpr]
  | EAlterTableRenameColumn _ _ OldColumnName NewColumnName => [OldColumnName; NewColumnName]
  | EAlterTableModifyQuery _ _ SelectExpr => [SelectExpr]
  | EAlterTableModifyOrderBy _ _ OrderBy => [OrderBy]
  | EAlterTableModifyTTL _ _ TTL => [TTL]
  | EAlterTableModifyColumn _ _ _ Column RemovePropertyType => [Column; RemovePropertyType]
  | EAlterTableModifySetting _ _ Settings => Settings
  | EAlterTableResetSetting _ _ Settings => Settings
  | EAlterTableReplacePartition _ Partition Table => [Partition; Table]
  | EAlterTableDelete _ _ WhereClause => [WhereClause]
  | EAlterTableUpdate _ _ Assignments InPartition WhereClause => Assignments ++ [InPartition; WhereClause]
  | EUpdateAssignment _ Column Expr => [Column; Expr]
  | ERemovePropertyType _ PropertyType => [PropertyType]
  | ETableIndex _ Name ColumnExpr ColumnType Granularity => [Name; ColumnExpr; ColumnType; Granularity]
  | EIdent _ _ _ _ => []
  | EUUID Value => [Value]
  | ECreateDatabase _ _ Name _ OnCluster Engine Comment => [Name; OnCluster; Engine; Comment]
  | ECreateTable _ _ _ Name _ UUID OnCluster TableSchema Engine SubQuery TableFunction _ Comment => [Name; UUID; OnCluster; TableSchema; Engine; SubQuery; TableFunction; Comment]
  | ECreateMaterializedView _ _ Name _ OnCluster Refresh RandomizeFor DependsOn Settings _ Engine TableSchema _ Destination SubQuery _ Comment Definer _ => [Name; OnCluster; Refresh; RandomizeFor] ++ DependsOn ++ [Settings; Engine; TableSchema; Destination; SubQuery; Comment; Definer]
  | ECreateView _ _ _ Name _ UUID OnCluster TableSchema Comment SubQuery => [Name; UUID; OnCluster; TableSchema; Comment; SubQuery]
  | ECreateFunction _ _ _ FunctionName OnCluster Params Expr => [FunctionName; OnCluster; Params; Expr]
  | ERoleName Name Scope OnCluster => [Name; Scope; OnCluster]
  | ESettingPair Name _ Value => [Name; Value]
  | ERoleSetting SettingPairs Modifier => SettingPairs ++ [Modifier]
  | ECreateRole _ _ _ _ RoleNames AccessStorageType Settings => RoleNames ++ [AccessStorageType] ++ Settings
  | EAuthenticationClause _ _ _ _ AuthValue LdapServer KerberosRealm _ => [AuthValue; LdapServer; KerberosRealm]
  | EHostClause _ _ _ HostValue => [HostValue]
  | EDefaultRoleClause _ _ Roles _ => Roles
  | EGranteesClause _ _ Grantees ExceptUsers _ _ => Grantees ++ ExceptUsers
  | ECreateUser _ _ _ _ UserNames Authentication ValidUntil Hosts DefaultRole DefaultDatabase _ Grantees Settings => UserNames ++ [Authentication; ValidUntil] ++ Hosts ++ [DefaultRole; DefaultDatabase; Grantees] ++ Settings
  | EAlterRole _ _ _ RoleRenamePairs Settings => RoleRenamePairs ++ Settings
  | ERoleRenamePair RoleName NewName _ => [RoleName; NewName]
  | EDestinationClause _ TableIdentifier TableSchema => [TableIdentifier; TableSchema]
  | EConstraintClause _ Constraint Expr => [Constraint; Expr]
  | ENullLiteral _ => []
  | ENotNullLiteral _ NullLiteral => [NullLiteral]
  | ENestedIdentifier Ident DotIdent => [Ident; DotIdent]
  | EPath Fields => Fields
  | ETableIdentifier Database Table => [Database; Table]
  | ETableSchemaClause _ _ Columns AliasTable TableFunction => Columns ++ [AliasTable; TableFunction]
  | ETableArgListExpr _ _ Args => Args
  | ETableFunctionExpr Name Args => [Name; Args]
  | EClusterClause _ Expr => [Expr]
  | EPartitionClause _ Expr ID _ => [Expr; ID]
  | EPartitionByClause _ Expr => [Expr]
  | EPrimaryKeyClause _ Expr => [Expr]
  | ESampleByClause _ Expr => [Expr]
  | ETTLPolicyRuleAction _ _ _ Codec => [Codec]
  | ERefreshExpr _ _ Interval Offset => [Interval; Offset]
  | ETTLPolicyRule _ ToVolume ToDisk Action => [ToVolume; ToDisk; Action]
  | ETTLPolicy Item Where GroupBy => [Item; Where; GroupBy]
  | ETTLExpr _ Expr Policy => [Expr; Policy]
  | ETTLClause _ _ Items => Items
  | EFill _ From To Step Staleness => [From; To; Step; Staleness]
  | EOrderExpr _ Expr Alias _ Fill => [Expr; Alias; Fill]
  | EInterpolateItem Column Expr => [Column; Expr]
  | EInterpolateClause _ _ Items => Items
  | EOrderByClause _ _ Items Interpolate => Items ++ [Interpolate]
  | ESettingExpr _ Name Expr => [Name; Expr]
  | ESettingsClause _ _ Items => Items
  | EParamExprList _ _ Items ColumnArgList => [Items; ColumnArgList]
  | EKeyValue Key Value => [Key; Value]
  | EMapLiteral _ _ KeyValues => KeyValues
  | ENamedParameterExpr _ Name Value => [Name; Value]
  | EQueryParam _ _ Name Type_ => [Name; Type_]
  | EArrayParamList _ _ Items => [Items]
  | EObjectParams Object Params => [Object; Params]
  | EFunctionExpr Name Params => [Name; Params]
  | EWindowFunctionExpr Function _ OverExpr => [Function; OverExpr]
  | ETypedPlaceholder _ _ Name Type_ => [Name; Type_]
  | EColumnExpr Expr Alias => [Expr; Alias]
  | EColumnDef _ _ Name Type_ NotNull Nullable DefaultExpr MaterializedExpr AliasExpr Codec TTL Comment CompressionCodec => [Name; Type_; NotNull; Nullable; DefaultExpr; MaterializedExpr; AliasExpr; Codec; TTL; Comment; CompressionCodec]
  | EScalarType Name => [Name]
  | EJSONPath Idents => Idents
  | EJSONTypeHint Path Type_ => [Path; Type_]
  | EJSONOption SkipPath SkipRegex MaxDynamicPaths MaxDynamicTypes Column => [SkipPath; SkipRegex; MaxDynamicPaths; MaxDynamicTypes; Column]
  | EJSONOptions _ _ Items => Items
  | EJSONType Name Options => [Name; Options]
  | EPropertyType Name => [Name]
  | ETypeWithParams _ _ Name Params => [Name] ++ Params
  | EComplexType _ _ Name Params => [Name] ++ Params
  | ENestedType _ _ Name Columns => [Name] ++ Columns
  | ECompressionCodec _ _ Type_ TypeLevel Name Level => [Type_; TypeLevel; Name; Level]
  | ENumberLiteral _ _ _ _ => []
  | EStringLiteral _ _ _ => []
  | EBoolLiteral _ _ _ => []
  | EPlaceHolder _ _ _ => []
  | ERatioExpr Numerator Denominator => [Numerator; Denominator]
  | EEnumValue Name Value => [Name; Value]
  | EEnumType Name _ _ Values => [Name] ++ Values
  | EIntervalExpr _ Expr Unit => [Expr; Unit]
  | EEngineExpr _ _ _ Params PrimaryKey PartitionBy SampleBy TTL Settings OrderBy => [Params; PrimaryKey; PartitionBy; SampleBy; TTL; Settings; OrderBy]
  | EColumnTypeExpr Name => [Name]
  | EColumnArgList _ _ _ Items => Items
  | EColumnExprList _ _ _ Items => Items
  | EWhenClause _ _ When Then _ Else => [When; Then; Else]
  | ECaseExpr _ _ Expr Whens _ Else => [Expr] ++ Whens ++ [Else]
  | ECastExpr _ Expr _ _ AsType => [Expr; AsType]
  | EWithClause _ _ CTEs => CTEs
  | ETopClause _ _ Number _ => [Number]
  | ECreateLiveView _ _ Name _ UUID OnCluster Destination TableSchema WithTimeout SubQuery => [Name; UUID; OnCluster; Destination; TableSchema; WithTimeout; SubQuery]
  | ECreateDictionary _ _ _ Name _ UUID OnCluster Schema Engine Comment => [Name; UUID; OnCluster; Schema; Engine; Comment]
  | ECreateNamedCollection _ _ Name _ OnCluster Params => [Name; OnCluster] ++ Params
  | ENamedCollectionParam _ Name Value _ _ => [Name; Value]
  | EDictionarySchemaClause _ Attributes _ => Attributes
  | EDictionaryAttribute _ _ Name Type_ Default Expression _ _ _ => [Name; Type_; Default; Expression]
  | EDictionaryEngineClause _ PrimaryKey Source Lifetime Layout Range Settings => [PrimaryKey; Source; Lifetime; Layout; Range; Settings]
  | EDictionaryPrimaryKeyClause _ Keys _ => [Keys]
  | EDictionarySourceClause _ Source Args _ => [Source] ++ Args
  | EDictionaryArgExpr _ Name Value Args _ _ => [Name; Value] ++ Args
  | EDictionaryLifetimeClause _ Min Max Value _ => [Min; Max; Value]
  | EDictionaryLayoutClause _ Layout Args _ => [Layout] ++ Args
  | EDictionaryRangeClause _ Min Max _ => [Min; Max]
  | EWithTimeoutClause _ Expr Number => [Expr; Number]
  | ETableExpr _ _ Alias Expr _ => [Alias; Expr]
  | EOnClause _ On => [On]
  | EUsingClause _ Using => [Using]
  | EJoinExpr _ Left Right _ Constraints => [Left; Right; Constraints]
  | EJoinConstraintClause _ On Using => [On; Using]
  | EFromClause _ Expr => [Expr]
  | EIsNullExpr _ _ Expr => [Expr]
  | EIsNotNullExpr _ _ Expr => [Expr]
  | EAliasExpr Expr _ Alias => [Expr; Alias]
  | EWhereClause _ Expr => [Expr]
  | EPrewhereClause _ Expr => [Expr]
  | EGroupByClause _ _ _ Expr _ _ _ => [Expr]
  | EHavingClause _ Expr => [Expr]
  | ELimitClause _ Limit Offset => [Limit; Offset]
  | ELimitByClause Limit ByExpr => [Limit; ByExpr]
  | EWindowExpr _ _ WindowName PartitionBy OrderBy Frame => [WindowName; PartitionBy; OrderBy; Frame]
  | EWindowDefinition Name _ Expr => [Name; Expr]
  | EWindowClause _ _ Windows => Windows
  | EWindowFrameClause _ _ Extend => [Extend]
  | EWindowFrameExtendExpr Expr _ _ => [Expr]
  | EBetweenClause Expr _ Between _ And => [Expr; Between; And]
  | EWindowFrameCurrentRow _ _ => []
  | EWindowFrameUnbounded _ _ _ => []
  | EWindowFrameNumber Number _ _ => [Number]
  | EWindowFrameParam Param _ _ => [Param]
  | ESelectQuery _ _ With Top _ DistinctOn SelectItems From Window Prewhere Where GroupBy _ Having OrderBy LimitBy Limit Settings Format UnionAll UnionDistinct Except Intersect => [With; Top; DistinctOn] ++ SelectItems ++ [From; Window; Prewhere; Where; GroupBy; Having; OrderBy; LimitBy; Limit; Settings; Format; UnionAll; UnionDistinct; Except; Intersect]
  | EDistinctOn Idents _ _ => Idents
  | ESubQuery _ Select => [Select]
  | ENotExpr _ Expr => [Expr]
  | ENegateExpr _ Expr => [Expr]
  | EGlobalInOperation _ Expr => [Expr]
  | EIntervalFrom Interval _ FromExpr => [Interval; FromExpr]
  | EExtractExpr _ _ Parameters => Parameters
  | EDropDatabase _ _ Name _ OnCluster _ => [Name; OnCluster]
  | EDropStmt _ _ _ Name _ OnCluster _ _ => [Name; OnCluster]
  | EDropUserOrRole _ _ _ Names _ _ From => Names ++ [From]
  | EUseStmt _ _ Database => [Database]
  | ECTEStmt _ Expr Alias => [Expr; Alias]
  | ESetStmt _ Settings => [Settings]
  | EFormatClause _ Format => [Format]
  | EOptimizeStmt _ _ Table OnCluster Partition _ Deduplicate => [Table; OnCluster; Partition; Deduplicate]
  | EDeduplicateClause _ By Except => [By; Except]
  | ESystemStmt _ Expr => [Expr]
  | ESystemFlushExpr _ _ _ Distributed => [Distributed]
  | ESystemReloadExpr _ _ OnCluster Dictionary _ => [OnCluster; Dictionary]
  | ESystemSyncExpr _ Cluster => [Cluster]
  | ESystemCtrlExpr _ _ _ _ Cluster => [Cluster]
  | ESystemDropExpr _ _ _ => []
  | ETruncateTable _ _ _ _ Name OnCluster => [Name; OnCluster]
  | ESampleClause _ Ratio Offset => [Ratio; Offset]
  | EDeleteClause _ Table OnCluster WhereExpr => [Table; OnCluster; WhereExpr]
  | EColumnNamesExpr _ _ ColumnNames => ColumnNames
  | EAssignmentValues _ _ Values => Values
  | EInsertStmt _ Format _ Table ColumnNames Values SelectExpr => [Format; Table; ColumnNames] ++ Values ++ [SelectExpr]
  | ECheckStmt _ Table Partition => [Table; Partition]
  | EUnaryExpr _ _ Expr => [Expr]
  | ERenameStmt _ _ _ TargetPairList OnCluster => TargetPairList ++ [OnCluster]
  | ETargetPair Old New => [Old; New]
  | EExplainStmt _ _ Statement => [Statement]
  | EPrivilegeClause _ _ _ Params => [Params]
  | EGrantPrivilegeStmt _ _ OnCluster Privileges On To _ => [OnCluster] ++ Privileges ++ [On] ++ To
  | EShowStmt _ _ _ Target _ _ LikePattern Limit OutFile Format => [Target; LikePattern; Limit; OutFile; Format]
  | EDescribeStmt _ _ _ Target => [Target]
  end.

(** The positions stored in a node. *)
Definition poss (e : expr) : list pos :=
  match e with
  | ENil => []
  | EOperationExpr OperationPos _ => [OperationPos]
  | EJoinTableExpr _ StatementEnd _ _ => [StatementEnd]
  | EAlterTable AlterPos StatementEnd _ _ _ => [AlterPos; StatementEnd]
  | EAlterTableAttachPartition AttachPos _ _ => [AttachPos]
  | EAlterTableDetachPartition DetachPos _ _ => [DetachPos]
  | EAlterTableDropPartition DropPos _ _ _ => [DropPos]
  | EAlterTableMaterializeProjection MaterializedPos StatementEnd _ _ _ => [MaterializedPos; StatementEnd]
  | EAlterTableMaterializeIndex MaterializedPos StatementEnd _ _ _ => [MaterializedPos; StatementEnd]
  | EAlterTableFreezePartition FreezePos StatementEnd _ => [FreezePos; StatementEnd]
  | EAlterTableAddColumn AddPos StatementEnd _ _ _ _ => [AddPos; StatementEnd]
  | EAlterTableAddIndex AddPos StatementEnd _ _ _ => [AddPos; StatementEnd]
  | EProjectionOrderByClause OrderByPos _ => [OrderByPos]
  | EProjectionSelectStmt LeftParenPos RightParenPos _ _ _ _ => [LeftParenPos; RightParenPos]
  | ETableProjection _ ProjectionPos _ _ => [ProjectionPos]
  | EAlterTableAddProjection AddPos StatementEnd _ _ _ => [AddPos; StatementEnd]
  | EAlterTableDropColumn DropPos _ _ => [DropPos]
  | EAlterTableDropIndex DropPos _ _ => [DropPos]
  | EAlterTableDropProjection DropPos _ _ => [DropPos]
  | EAlterTableRemoveTTL RemovePos StatementEnd => [RemovePos; StatementEnd]
  | EAlterTableClearColumn ClearPos StatementEnd _ _ _ => [ClearPos; StatementEnd]
  | EAlterTableClearIndex ClearPos StatementEnd _ _ _ => [ClearPos; StatementEnd]
  | EAlterTableClearProjection ClearPos StatementEnd _ _ _ => [ClearPos; StatementEnd]
  | EAlterTableRenameColumn RenamePos _ _ _ => [RenamePos]
  | EAlterTableModifyQuery ModifyPos StatementEnd _ => [ModifyPos; StatementEnd]
  | EAlterTableModifyOrderBy ModifyPos StatementEnd _ => [ModifyPos; StatementEnd]
  | EAlterTableModifyTTL ModifyPos StatementEnd _ => [ModifyPos; StatementEnd]
  | EAlterTableModifyColumn ModifyPos StatementEnd _ _ _ => [ModifyPos; StatementEnd]
  | EAlterTableModifySetting ModifyPos StatementEnd _ => [ModifyPos; StatementEnd]
  | EAlterTableResetSetting ResetPos StatementEnd _ => [ResetPos; StatementEnd]
  | EAlterTableReplacePartition ReplacePos _ _ => [ReplacePos]
  | EAlterTableDelete DeletePos StatementEnd _ => [DeletePos; StatementEnd]
  | EAlterTableUpdate UpdatePos StatementEnd _ _ _ => [UpdatePos; StatementEnd]
  | EUpdateAssignment AssignmentPos _ _ => [AssignmentPos]
  | ERemovePropertyType RemovePos _ => [RemovePos]
  | ETableIndex IndexPos _ _ _ _ => [IndexPos]
  | EIdent _ _ NamePos NameEnd => [NamePos; NameEnd]
  | ECreateDatabase CreatePos StatementEnd _ _ _ _ _ => [CreatePos; StatementEnd]
  | ECreateTable CreatePos StatementEnd _ _ _ _ _ _ _ _ _ _ _ => [CreatePos; StatementEnd]
  | ECreateMaterializedView CreatePos StatementEnd _ _ _ _ _ _ _ _ _ _ _ _ _ _ _ _ _ => [CreatePos; StatementEnd]
  | ECreateView CreatePos StatementEnd _ _ _ _ _ _ _ _ => [CreatePos; StatementEnd]
  | ECreateFunction CreatePos _ _ _ _ _ _ => [CreatePos]
  | ECreateRole CreatePos StatementEnd _ _ _ _ _ => [CreatePos; StatementEnd]
  | EAuthenticationClause AuthPos AuthEnd _ _ _ _ _ _ => [AuthPos; AuthEnd]
  | EHostClause HostPos HostEnd _ _ => [HostPos; HostEnd]
  | EDefaultRoleClause DefaultPos DefaultEnd _ _ => [DefaultPos; DefaultEnd]
  | EGranteesClause GranteesPos GranteesEnd _ _ _ _ => [GranteesPos; GranteesEnd]
  | ECreateUser CreatePos StatementEnd _ _ _ _ _ _ _ _ _ _ _ => [CreatePos; StatementEnd]
  | EAlterRole AlterPos StatementEnd _ _ _ => [AlterPos; StatementEnd]
  | ERoleRenamePair _ _ StatementEnd => [StatementEnd]
  | EDestinationClause ToPos _ _ => [ToPos]
  | EConstraintClause ConstraintPos _ _ => [ConstraintPos]
  | ENullLiteral NullPos => [NullPos]
  | ENotNullLiteral NotPos _ => [NotPos]
  | ETableSchemaClause SchemaPos SchemaEnd _ _ _ => [SchemaPos; SchemaEnd]
  | ETableArgListExpr LeftParenPos RightParenPos _ => [LeftParenPos; RightParenPos]
  | EClusterClause OnPos _ => [OnPos]
  | EPartitionClause PartitionPos _ _ _ => [PartitionPos]
  | EPartitionByClause PartitionPos _ => [PartitionPos]
  | EPrimaryKeyClause PrimaryPos _ => [PrimaryPos]
  | ESampleByClause SamplePos _ => [SamplePos]
  | ETTLPolicyRuleAction ActionPos ActionEnd _ _ => [ActionPos; ActionEnd]
  | ERefreshExpr RefreshPos _ _ _ => [RefreshPos]
  | ETTLPolicyRule RulePos _ _ _ => [RulePos]
  | ETTLExpr TTLPos _ _ => [TTLPos]
  | ETTLClause TTLPos ListEnd _ => [TTLPos; ListEnd]
  | EFill FillPos _ _ _ _ => [FillPos]
  | EOrderExpr OrderPos _ _ _ _ => [OrderPos]
  | EInterpolateClause InterpolatePos ListEnd _ => [InterpolatePos; ListEnd]
  | EOrderByClause OrderPos ListEnd _ _ => [OrderPos; ListEnd]
  | ESettingExpr SettingsPos _ _ => [SettingsPos]
  | ESettingsClause SettingsPos ListEnd _ => [SettingsPos; ListEnd]
  | EParamExprList LeftParenPos RightParenPos _ _ => [LeftParenPos; RightParenPos]
  | EMapLiteral LBracePos RBracePos _ => [LBracePos; RBracePos]
  | ENamedParameterExpr NamePos _ _ => [NamePos]
  | EQueryParam LBracePos RBracePos _ _ => [LBracePos; RBracePos]
  | EArrayParamList LeftBracketPos RightBracketPos _ => [LeftBracketPos; RightBracketPos]
  | EWindowFunctionExpr _ OverPos _ => [OverPos]
  | ETypedPlaceholder LeftBracePos RightBracePos _ _ => [LeftBracePos; RightBracePos]
  | EColumnDef NamePos ColumnEnd _ _ _ _ _ _ _ _ _ _ _ => [NamePos; ColumnEnd]
  | EJSONOptions LParen RParen _ => [LParen; RParen]
  | ETypeWithParams LeftParenPos RightParenPos _ _ => [LeftParenPos; RightParenPos]
  | EComplexType LeftParenPos RightParenPos _ _ => [LeftParenPos; RightParenPos]
  | ENestedType LeftParenPos RightParenPos _ _ => [LeftParenPos; RightParenPos]
  | ECompressionCodec CodecPos RightParenPos _ _ _ _ => [CodecPos; RightParenPos]
  | ENumberLiteral NumPos NumEnd _ _ => [NumPos; NumEnd]
  | EStringLiteral LiteralPos LiteralEnd _ => [LiteralPos; LiteralEnd]
  | EBoolLiteral LiteralPos LiteralEnd _ => [LiteralPos; LiteralEnd]
  | EPlaceHolder PlaceholderPos PlaceHolderEnd _ => [PlaceholderPos; PlaceHolderEnd]
  | EEnumType _ ListPos ListEnd _ => [ListPos; ListEnd]
  | EIntervalExpr IntervalPos _ _ => [IntervalPos]
  | EEngineExpr EnginePos EngineEnd _ _ _ _ _ _ _ _ => [EnginePos; EngineEnd]
  | EColumnArgList _ LeftParenPos RightParenPos _ => [LeftParenPos; RightParenPos]
  | EColumnExprList ListPos ListEnd _ _ => [ListPos; ListEnd]
  | EWhenClause WhenPos ThenPos _ _ ElsePos _ => [WhenPos; ThenPos; ElsePos]
  | ECaseExpr CasePos EndPos _ _ ElsePos _ => [CasePos; EndPos; ElsePos]
  | ECastExpr CastPos _ _ AsPos _ => [CastPos; AsPos]
  | EWithClause WithPos EndPos _ => [WithPos; EndPos]
  | ETopClause TopPos TopEnd _ _ => [TopPos; TopEnd]
  | ECreateLiveView CreatePos StatementEnd _ _ _ _ _ _ _ _ => [CreatePos; StatementEnd]
  | ECreateDictionary CreatePos StatementEnd _ _ _ _ _ _ _ _ => [CreatePos; StatementEnd]
  | ECreateNamedCollection CreatePos StatementEnd _ _ _ _ => [CreatePos; StatementEnd]
  | ENamedCollectionParam ParamPos _ _ _ _ => [ParamPos]
  | EDictionarySchemaClause SchemaPos _ RParenPos => [SchemaPos; RParenPos]
  | EDictionaryAttribute NamePos AttrEnd _ _ _ _ _ _ _ => [NamePos; AttrEnd]
  | EDictionaryEngineClause EnginePos _ _ _ _ _ _ => [EnginePos]
  | EDictionaryPrimaryKeyClause PrimaryKeyPos _ RParenPos => [PrimaryKeyPos; RParenPos]
  | EDictionarySourceClause SourcePos _ _ RParenPos => [SourcePos; RParenPos]
  | EDictionaryArgExpr ArgPos _ _ _ LParenPos RParenPos => [ArgPos; LParenPos; RParenPos]
  | EDictionaryLifetimeClause LifetimePos _ _ _ RParenPos => [LifetimePos; RParenPos]
  | EDictionaryLayoutClause LayoutPos _ _ RParenPos => [LayoutPos; RParenPos]
  | EDictionaryRangeClause RangePos _ _ RParenPos => [RangePos; RParenPos]
  | EWithTimeoutClause WithTimeoutPos _ _ => [WithTimeoutPos]
  | ETableExpr TablePos TableEnd _ _ _ => [TablePos; TableEnd]
  | EOnClause OnPos _ => [OnPos]
  | EUsingClause UsingPos _ => [UsingPos]
  | EJoinExpr JoinPos _ _ _ _ => [JoinPos]
  | EJoinConstraintClause ConstraintPos _ _ => [ConstraintPos]
  | EFromClause FromPos _ => [FromPos]
  | EIsNullExpr IsPos NullEnd _ => [IsPos; NullEnd]
  | EIsNotNullExpr IsPos NullEnd _ => [IsPos; NullEnd]
  | EAliasExpr _ AliasPos _ => [AliasPos]
  | EWhereClause WherePos _ => [WherePos]
  | EPrewhereClause PrewherePos _ => [PrewherePos]
  | EGroupByClause GroupByPos GroupByEnd _ _ _ _ _ => [GroupByPos; GroupByEnd]
  | EHavingClause HavingPos _ => [HavingPos]
  | ELimitClause LimitPos _ _ => [LimitPos]
  | EWindowExpr LeftParenPos RightParenPos _ _ _ _ => [LeftParenPos; RightParenPos]
  | EWindowDefinition _ AsPos _ => [AsPos]
  | EWindowClause WindowPos EndPos _ => [WindowPos; EndPos]
  | EWindowFrameClause FramePos _ _ => [FramePos]
  | EWindowFrameExtendExpr _ _ EndPos => [EndPos]
  | EBetweenClause _ _ _ AndPos _ => [AndPos]
  | EWindowFrameCurrentRow CurrentPos RowEnd => [CurrentPos; RowEnd]
  | EWindowFrameUnbounded UnboundedPos UnboundedEnd _ => [UnboundedPos; UnboundedEnd]
  | EWindowFrameNumber _ EndPos _ => [EndPos]
  | EWindowFrameParam _ EndPos _ => [EndPos]
  | ESelectQuery SelectPos StatementEnd _ _ _ _ _ _ _ _ _ _ _ _ _ _ _ _ _ _ _ _ _ => [SelectPos; StatementEnd]
  | EDistinctOn _ DistinctOnPos DistinctOnEnd => [DistinctOnPos; DistinctOnEnd]
  | ENotExpr NotPos _ => [NotPos]
  | ENegateExpr NegatePos _ => [NegatePos]
  | EGlobalInOperation GlobalPos _ => [GlobalPos]
  | EIntervalFrom _ FromPos _ => [FromPos]
  | EExtractExpr ExtractPos ExtractEnd _ => [ExtractPos; ExtractEnd]
  | EDropDatabase DropPos StatementEnd _ _ _ _ => [DropPos; StatementEnd]
  | EDropStmt DropPos StatementEnd _ _ _ _ _ _ => [DropPos; StatementEnd]
  | EDropUserOrRole DropPos _ StatementEnd _ _ _ _ => [DropPos; StatementEnd]
  | EUseStmt UsePos StatementEnd _ => [UsePos; StatementEnd]
  | ECTEStmt CTEPos _ _ => [CTEPos]
  | ESetStmt SetPos _ => [SetPos]
  | EFormatClause FormatPos _ => [FormatPos]
  | EOptimizeStmt OptimizePos StatementEnd _ _ _ _ _ => [OptimizePos; StatementEnd]
  | EDeduplicateClause DeduplicatePos _ _ => [DeduplicatePos]
  | ESystemStmt SystemPos _ => [SystemPos]
  | ESystemFlushExpr FlushPos StatementEnd _ _ => [FlushPos; StatementEnd]
  | ESystemReloadExpr ReloadPos StatementEnd _ _ _ => [ReloadPos; StatementEnd]
  | ESystemSyncExpr SyncPos _ => [SyncPos]
  | ESystemCtrlExpr CtrlPos StatementEnd _ _ _ => [CtrlPos; StatementEnd]
  | ESystemDropExpr DropPos StatementEnd _ => [DropPos; StatementEnd]
  | ETruncateTable TruncatePos StatementEnd _ _ _ _ => [TruncatePos; StatementEnd]
  | ESampleClause SamplePos _ _ => [SamplePos]
  | EDeleteClause DeletePos _ _ _ => [DeletePos]
  | EColumnNamesExpr LeftParenPos RightParenPos _ => [LeftParenPos; RightParenPos]
  | EAssignmentValues LeftParenPos RightParenPos _ => [LeftParenPos; RightParenPos]
  | EInsertStmt InsertPos _ _ _ _ _ _ => [InsertPos]
  | ECheckStmt CheckPos _ _ => [CheckPos]
  | EUnaryExpr UnaryPos _ _ => [UnaryPos]
  | ERenameStmt RenamePos StatementEnd _ _ _ => [RenamePos; StatementEnd]
  | EExplainStmt ExplainPos _ _ => [ExplainPos]
  | EPrivilegeClause PrivilegePos PrivilegeEnd _ _ => [PrivilegePos; PrivilegeEnd]
  | EGrantPrivilegeStmt GrantPos StatementEnd _ _ _ _ _ => [GrantPos; StatementEnd]
  | EShowStmt ShowPos StatementEnd _ _ _ _ _ _ _ _ => [ShowPos; StatementEnd]
  | EDescribeStmt DescribePos StatementEnd _ _ => [DescribePos; StatementEnd]
  | _ => []
  end.

Fixpoint esize (e : expr) : nat :=
  match e with
  | ENil => 1
  | ESelectItem Expr Modifiers Alias => S (esize Expr + list_sum (map esize Modifiers) + esize Alias)
  | EOperationExpr _ _ => S (0)
  | ETernaryOperation Condition TrueExpr FalseExpr => S (esize Condition + esize TrueExpr + esize FalseExpr)
  | EBinaryOperation LeftExpr _ RightExpr _ _ => S (esize LeftExpr + esize RightExpr)
  | EIndexOperation Object _ Index => S (esize Object + esize Index)
  | EJoinTableExpr Table _ SampleRatio _ => S (esize Table + esize SampleRatio)
  | EAlterTable _ _ TableIdentifier OnCluster AlterExprs => S (esize TableIdentifier + esize OnCluster + list_sum (map esize AlterExprs))
  | EAlterTableAttachPartition _ Partition From => S (esize Partition + esize From)
  | EAlterTableDetachPartition _ Partition Settings => S (esize Partition + esize Settings)
  | EAlterTableDropPartition _ _ Partition Settings => S (esize Partition + esize Settings)
  | EAlterTableMaterializeProjection _ _ _ ProjectionName Partition => S (esize ProjectionName + esize Partition)
  | EAlterTableMaterializeIndex _ _ _ IndexName Partition => S (esize IndexName + esize Partition)
  | EAlterTableFreezePartition _ _ Partition => S (esize Partition)
  | EAlterTableAddColumn _ _ Column _ After Settings => S (esize Column + esize After + esize Settings)
  | EAlterTableAddIndex _ _ Index _ After => S (esize Index + esize After)
  | EProjectionOrderByClause _ Columns => S (esize Columns)
  | EProjectionSelectStmt _ _ With SelectColumns GroupBy OrderBy => S (esize With + esize SelectColumns + esize GroupBy + esize OrderBy)
  | ETableProjection _ _ Identifier Select => S (esize Identifier + esize Select)
  | EAlterTableAddProjection _ _ _ TableProjection After => S (esize TableProjection + esize After)
  | EAlterTableDropColumn _ ColumnName _ => S (esize ColumnName)
  | EAlterTableDropIndex _ IndexName _ => S (esize IndexName)
  | EAlterTableDropProjection _ ProjectionName _ => S (esize ProjectionName)
  | EAlterTableRemoveTTL _ _ => S (0)
  | EAlterTableClearColumn _ _ _ ColumnName PartitionExpr => S (esize ColumnName + esize PartitionExpr)
  | EAlterTableClearIndex _ _ _ IndexName PartitionExpr => S (esize IndexName + esize PartitionExpr)
  | EAlterTableClearProjection _ _ _ ProjectionName PartitionExpr => S (esize ProjectionName + esize PartitionExpr)
  | EAlterTableRenameColumn _ _ OldColumnName NewColumnName => S (esize OldColumnName + esize NewColumnName)
  | EAlterTableModifyQuery _ _ SelectExpr => S (esize SelectExpr)
  | EAlterTableModifyOrderBy _ _ OrderBy => S (esize OrderBy)
  | EAlterTableModifyTTL _ _ TTL => S (esize TTL)
  | EAlterTableModifyColumn _ _ _ Column RemovePropertyType => S (esize Column + esize RemovePropertyType)
  | EAlterTableModifySetting _ _ Settings => S (list_sum (map esize Settings))
  | EAlterTableResetSetting _ _ Settings => S (list_sum (map esize Settings))
  | EAlterTableReplacePartition _ Partition Table => S (esize Partition + esize Table)
  | EAlterTableDelete _ _ WhereClause => S (esize WhereClause)
  | EAlterTableUpdate _ _ Assignments InPartition WhereClause => S (list_sum (map esize Assignments) + esize InPartition + esize WhereClause)
  | EUpdateAssignment _ Column Expr => S (esize Column + esize Expr)
  | ERemovePropertyType _ PropertyType => S (esize PropertyType)
  | ETableIndex _ Name ColumnExpr ColumnType Granularity => S (esize Name + esize ColumnExpr + esize ColumnType + esize Granularity)
  | EIdent _ _ _ _ => S (0)
  | EUUID Value => S (esize Value)
  | ECreateDatabase _ _ Name _ OnCluster Engine Comment => S (esize Name + esize OnCluster + esize Engine + esize Comment)
  | ECreateTable _ _ _ Name _ UUID OnCluster TableSchema Engine SubQuery TableFunction _ Comment => S (esize Name + esize UUID + esize OnCluster + esize TableSchema + esize Engine + esize SubQuery + esize TableFunction + esize Comment)
  | ECreateMaterializedView _ _ Name _ OnCluster Refresh RandomizeFor DependsOn Settings _ Engine TableSchema _ Destination SubQuery _ Comment Definer _ => S (esize Name + esize OnCluster + esize Refresh + esize RandomizeFor + list_sum (map esize DependsOn) + esize Settings + esize Engine + esize TableSchema + esize Destination + esize SubQuery + esize Comment + esize Definer)
  | ECreateView _ _ _ Name _ UUID OnCluster TableSchema Comment SubQuery => S (esize Name + esize UUID + esize OnCluster + esize TableSchema + esize Comment + esize SubQuery)
  | ECreateFunction _ _ _ FunctionName OnCluster Params Expr => S (esize FunctionName + esize OnCluster + esize Params + esize Expr)
  | ERoleName Name Scope OnCluster => S (esize Name + esize Scope + esize OnCluster)
  | ESettingPair Name _ Value => S (esize Name + esize Value)
  | ERoleSetting SettingPairs Modifier => S (list_sum (map esize SettingPairs) + esize Modifier)
  | ECreateRole _ _ _ _ RoleNames AccessStorageType Settings => S (list_sum (map esize RoleNames) + esize AccessStorageType + list_sum (map esize Settings))
  | EAuthenticationClause _ _ _ _ AuthValue LdapServer KerberosRealm _ => S (esize AuthValue + esize LdapServer + esize KerberosRealm)
  | EHostClause _ _ _ HostValue => S (esize HostValue)
  | EDefaultRoleClause _ _ Roles _ => S (list_sum (map esize Roles))
  | EGranteesClause _ _ Grantees ExceptUsers _ _ => S (list_sum (map esize Grantees) + list_sum (map esize ExceptUsers))
  | ECreateUser _ _ _ _ UserNames Authentication ValidUntil Hosts DefaultRole DefaultDatabase _ Grantees Settings => S (list_sum (map esize UserNames) + esize Authentication + esize ValidUntil + list_sum (map esize Hosts) + esize DefaultRole + esize DefaultDatabase + esize Grantees + list_sum (map esize Settings))
  | EAlterRole _ _ _ RoleRenamePairs Settings => S (list_sum (map esize RoleRenamePairs) + list_sum (map esize Settings))
  | ERoleRenamePair RoleName NewName _ => S (esize RoleName + esize NewName)
  | EDestinationClause _ TableIdentifier TableSchema => S (esize TableIdentifier + esize TableSchema)
  | EConstraintClause _ Constraint Expr => S (esize Constraint + esize Expr)
  | ENullLiteral _ => S (0)
  | ENotNullLiteral _ NullLiteral => S (esize NullLiteral)
  | ENestedIdentifier Ident DotIdent => S (esize Ident + esize DotIdent)
  | EPath Fields => S (list_sum (map esize Fields))
  | ETableIdentifier Database Table => S (esize Database + esize Table)
  | ETableSchemaClause _ _ Columns AliasTable TableFunction => S (list_sum (map esize Columns) + esize AliasTable + esize TableFunction)
  | ETableArgListExpr _ _ Args => S (list_sum (map esize Args))
  | ETableFunctionExpr Name Args => S (esize Name + esize Args)
  | EClusterClause _ Expr => S (esize Expr)
  | EPartitionClause _ Expr ID _ => S (esize Expr + esize ID)
  | EPartitionByClause _ Expr => S (esize Expr)
  | EPrimaryKeyClause _ Expr => S (esize Expr)
  | ESampleByClause _ Expr => S (esize Expr)
  | ETTLPolicyRuleAction _ _ _ Codec => S (esize Codec)
  | ERefreshExpr _ _ Interval Offset => S (esize Interval + esize Offset)
  | ETTLPolicyRule _ ToVolume ToDisk Action => S (esize ToVolume + esize ToDisk + esize Action)
  | ETTLPolicy Item Where GroupBy => S (esize Item + esize Where + esize GroupBy)
  | ETTLExpr _ Expr Policy => S (esize Expr + esize Policy)
  | ETTLClause _ _ Items => S (list_sum (map esize Items))
  | EFill _ From To Step Staleness => S (esize From + esize To + esize Step + esize Staleness)
  | EOrderExpr _ Expr Alias _ Fill => S (esize Expr + esize Alias + esize Fill)
  | EInterpolateItem Column Expr => S (esize Column + esize Expr)
  | EInterpolateClause _ _ Items => S (list_sum (map esize Items))
  | EOrderByClause _ _ Items Interpolate => S (list_sum (map esize Items) + esize Interpolate)
  | ESettingExpr _ Name Expr => S (esize Name + esize Expr)
  | ESettingsClause _ _ Items => S (list_sum (map esize Items))
  | EParamExprList _ _ Items ColumnArgList => S (esize Items + esize ColumnArgList)
  | EKeyValue Key Value => S (esize Key + esize Value)
  | EMapLiteral _ _ KeyValues => S (list_sum (map esize KeyValues))
  | ENamedParameterExpr _ Name Value => S (esize Name + esize Value)
  | EQueryParam _ _ Name Type_ => S (esize Name + esize Type_)
  | EArrayParamList _ _ Items => S (esize Items)
  | EObjectParams Object Params => S (esize Object + esize Params)
  | EFunctionExpr Name Params => S (esize Name + esize Params)
  | EWindowFunctionExpr Function _ OverExpr => S (esize Function + esize OverExpr)
  | ETypedPlaceholder _ _ Name Type_ => S (esize Name + esize Type_)
  | EColumnExpr Expr Alias => S (esize Expr + esize Alias)
  | EColumnDef _ _ Name Type_ NotNull Nullable DefaultExpr MaterializedExpr AliasExpr Codec TTL Comment CompressionCodec => S (esize Name + esize Type_ + esize NotNull + esize Nullable + esize DefaultExpr + esize MaterializedExpr + esize AliasExpr + esize Codec + esize TTL + esize Comment + esize CompressionCodec)
  | EScalarType Name => S (esize Name)
  | EJSONPath Idents => S (list_sum (map esize Idents))
  | EJSONTypeHint Path Type_ => S (esize Path + esize Type_)
  | EJSONOption SkipPath SkipRegex MaxDynamicPaths MaxDynamicTypes Column => S (esize SkipPath + esize SkipRegex + esize MaxDynamicPaths + esize MaxDynamicTypes + esize Column)
  | EJSONOptions _ _ Items => S (list_sum (map esize Items))
  | EJSONType Name Options => S (esize Name + esize Options)
  | EPropertyType Name => S (esize Name)
  | ETypeWithParams _ _ Name Params => S (esize Name + list_sum (map esize Params))
  | EComplexType _ _ Name Params => S (esize Name + list_sum (map esize Params))
  | ENestedType _ _ Name Columns => S (esize Name + list_sum (map esize Columns))
  | ECompressionCodec _ _ Type_ TypeLevel Name Level => S (esize Type_ + esize TypeLevel + esize Name + esize Level)
  | ENumberLiteral _ _ _ _ => S (0)
  | EStringLiteral _ _ _ => S (0)
  | EBoolLiteral _ _ _ => S (0)
  | EPlaceHolder _ _ _ => S (0)
  | ERatioExpr Numerator Denominator => S (esize Numerator + esize Denominator)
  | EEnumValue Name Value => S (esize Name + esize Value)
  | EEnumType Name _ _ Values => S (esize Name + list_sum (map esize Values))
  | EIntervalExpr _ Expr Unit => S (esize Expr + esize Unit)
  | EEngineExpr _ _ _ Params PrimaryKey PartitionBy SampleBy TTL Settings OrderBy => S (esize Params + esize PrimaryKey + esize PartitionBy + esize SampleBy + esize TTL + esize Settings + esize OrderBy)
  | EColumnTypeExpr Name => S (esize Name)
  | EColumnArgList _ _ _ Items => S (list_sum (map esize Items))
  | EColumnExprList _ _ _ Items => S (list_sum (map esize Items))
  | EWhenClause _ _ When Then _ Else => S (esize When + esize Then + esize Else)
  | ECaseExpr _ _ Expr Whens _ Else => S (esize Expr + list_sum (map esize Whens) + esize Else)
  | ECastExpr _ Expr _ _ AsType => S (esize Expr + esize AsType)
  | EWithClause _ _ CTEs => S (list_sum (map esize CTEs))
  | ETopClause _ _ Number _ => S (esize Number)
  | ECreateLiveView _ _ Name _ UUID OnCluster Destination TableSchema WithTimeout SubQuery => S (esize Name + esize UUID + esize OnCluster + esize Destination + esize TableSchema + esize WithTimeout + esize SubQuery)
  | ECreateDictionary _ _ _ Name _ UUID OnCluster Schema Engine Comment => S (esize Name + esize UUID + esize OnCluster + esize Schema + esize Engine + esize Comment)
  | ECreateNamedCollection _ _ Name _ OnCluster Params => S (esize Name + esize OnCluster + list_sum (map esize Params))
  | ENamedCollectionParam _ Name Value _ _ => S (esize Name + esize Value)
  | EDictionarySchemaClause _ Attributes _ => S (list_sum (map esize Attributes))
  | EDictionaryAttribute _ _ Name Type_ Default Expression _ _ _ => S (esize Name + esize Type_ + esize Default + esize Expression)
  | EDictionaryEngineClause _ PrimaryKey Source Lifetime Layout Range Settings => S (esize PrimaryKey + esize Source + esize Lifetime + esize Layout + esize Range + esize Settings)
  | EDictionaryPrimaryKeyClause _ Keys _ => S (esize Keys)
  | EDictionarySourceClause _ Source Args _ => S (esize Source + list_sum (map esize Args))
  | EDictionaryArgExpr _ Name Value Args _ _ => S (esize Name + esize Value + list_sum (map esize Args))
  | EDictionaryLifetimeClause _ Min Max Value _ => S (esize Min + esize Max + esize Value)
  | EDictionaryLayoutClause _ Layout Args _ => S (esize Layout + list_sum (map esize Args))
  | EDictionaryRangeClause _ Min Max _ => S (esize Min + esize Max)
  | EWithTimeoutClause _ Expr Number => S (esize Expr + esize Number)
  | ETableExpr _ _ Alias Expr _ => S (esize Alias + esize Expr)
  | EOnClause _ On => S (esize On)
  | EUsingClause _ Using => S (esize Using)
  | EJoinExpr _ Left Right _ Constraints => S (esize Left + esize Right + esize Constraints)
  | EJoinConstraintClause _ On Using => S (esize On + esize Using)
  | EFromClause _ Expr => S (esize Expr)
  | EIsNullExpr _ _ Expr => S (esize Expr)
  | EIsNotNullExpr _ _ Expr => S (esize Expr)
  | EAliasExpr Expr _ Alias => S (esize Expr + esize Alias)
  | EWhereClause _ Expr => S (esize Expr)
  | EPrewhereClause _ Expr => S (esize Expr)
  | EGroupByClause _ _ _ Expr _ _ _ => S (esize Expr)
  | EHavingClause _ Expr => S (esize Expr)
  | ELimitClause _ Limit Offset => S (esize Limit + esize Offset)
  | ELimitByClause Limit ByExpr => S (esize Limit + esize ByExpr)
  | EWindowExpr _ _ WindowName PartitionBy OrderBy Frame => S (esize WindowName + esize PartitionBy + esize OrderBy + esize Frame)
  | EWindowDefinition Name _ Expr => S (esize Name + esize Expr)
  | EWindowClause _ _ Windows => S (list_sum (map esize Windows))
  | EWindowFrameClause _ _ Extend => S (esize Extend)
  | EWindowFrameExtendExpr Expr _ _ => S (esize Expr)
  | EBetweenClause Expr _ Between _ And => S (esize Expr + esize Between + esize And)
  | EWindowFrameCurrentRow _ _ => S (0)
  | EWindowFrameUnbounded _ _ _ => S (0)
  | EWindowFrameNumber Number _ _ => S (esize Number)
  | EWindowFrameParam Param _ _ => S (esize Param)
  | ESelectQuery _ _ With Top _ DistinctOn SelectItems From Window Prewhere Where GroupBy _ Having OrderBy LimitBy Limit Settings Format UnionAll UnionDistinct Except Intersect => S (esize With + esize Top + esize DistinctOn + list_sum (map esize SelectItems) + esize From + esize Window + esize Prewhere + esize Where + esize GroupBy + esize Having + esize OrderBy + esize LimitBy + esize Limit + esize Settings + esize Format + esize UnionAll + esize UnionDistinct + esize Except + esize Intersect)
  | EDistinctOn Idents _ _ => S (list_sum (map esize Idents))
  | ESubQuery _ Select => S (esize Select)
  | ENotExpr _ Expr => S (esize Expr)
  | ENegateExpr _ Expr => S (esize Expr)
  | EGlobalInOperation _ Expr => S (esize Expr)
  | EIntervalFrom Interval _ FromExpr => S (esize Interval + esize FromExpr)
  | EExtractExpr _ _ Parameters => S (list_sum (map esize Parameters))
  | EDropDatabase _ _ Name _ OnCluster _ => S (esize Name + esize OnCluster)
  | EDropStmt _ _ _ Name _ OnCluster _ _ => S (esize Name + esize OnCluster)
  | EDropUserOrRole _ _ _ Names _ _ From => S (list_sum (map esize Names) + esize From)
  | EUseStmt _ _ Database => S (esize Database)
  | ECTEStmt _ Expr Alias => S (esize Expr + esize Alias)
  | ESetStmt _ Settings => S (esize Settings)
  | EFormatClause _ Format => S (esize Format)
  | EOptimizeStmt _ _ Table OnCluster Partition _ Deduplicate => S (esize Table + esize OnCluster + esize Partition + esize Deduplicate)
  | EDeduplicateClause _ By Except => S (esize By + esize Except)
  | ESystemStmt _ Expr => S (esize Expr)
  | ESystemFlushExpr _ _ _ Distributed => S (esize Distributed)
  | ESystemReloadExpr _ _ OnCluster Dictionary _ => S (esize OnCluster + esize Dictionary)
  | ESystemSyncExpr _ Cluster => S (esize Cluster)
  | ESystemCtrlExpr _ _ _ _ Cluster => S (esize Cluster)
  | ESystemDropExpr _ _ _ => S (0)
  | ETruncateTable _ _ _ _ Name OnCluster => S (esize Name + esize OnCluster)
  | ESampleClause _ Ratio Offset => S (esize Ratio + esize Offset)
  | EDeleteClause _ Table OnCluster WhereExpr => S (esize Table + esize OnCluster + esize WhereExpr)
  | EColumnNamesExpr _ _ ColumnNames => S (list_sum (map esize ColumnNames))
  | EAssignmentValues _ _ Values => S (list_sum (map esize Values))
  | EInsertStmt _ Format _ Table ColumnNames Values SelectExpr => S (esize Format + esize Table + esize ColumnNames + list_sum (map esize Values) + esize SelectExpr)
  | ECheckStmt _ Table Partition => S (esize Table + esize Partition)
  | EUnaryExpr _ _ Expr => S (esize Expr)
  | ERenameStmt _ _ _ TargetPairList OnCluster => S (list_sum (map esize TargetPairList) + esize OnCluster)
  | ETargetPair Old New => S (esize Old + esize New)
  | EExplainStmt _ _ Statement => S (esize Statement)
  | EPrivilegeClause _ _ _ Params => S (esize Params)
  | EGrantPrivilegeStmt _ _ OnCluster Privileges On To _ => S (esize OnCluster + list_sum (map esize Privileges) + esize On + list_sum (map esize To))
  | EShowStmt _ _ _ Target _ _ LikePattern Limit OutFile Format => S (esize Target + esize LikePattern + esize Limit + esize OutFile + esize Format)
  | EDescribeStmt _ _ _ Target => S (esize Target)
  end.

Lemma list_sum_cons x l : list_sum (x :: l) = x + list_sum l.
Proof. reflexivity. Qed.

Lemma list_sum_in (l : list expr) c : In c l -> esize c <= list_sum (map esize l).
Proof. induction l as [|x l IH]; intros H; [destruct H|]. cbn [map]. rewrite list_sum_cons. destruct H as [->|H]; [lia|]. apply IH in H. lia. Qed.

Lemma subs_size e : esize e = S (list_sum (map esize (subs e))).
Proof.
  destruct e; cbn [esize subs]; rewrite ?map_app, ?list_sum_app; cbn [map]; rewrite ?list_sum_cons;
    change (list_sum []) with 0; lia.
Qed.

Lemma subs_lt e c : In c (subs e) -> esize c < esize e.
Proof. intros H. rewrite (subs_size e). apply list_sum_in in H. lia. Qed.

(** Induction over the tree. *)
Lemma expr_rect_subs (P : expr -> Prop) : (forall e, (forall c, In c (subs e) -> P c) -> P e) -> forall e, P e.
Proof.
  intros H e. remember (esize e) as n eqn:En. revert e En.
  induction n as [n IH] using lt_wf_ind. intros e ->. apply H. intros c Hc. eapply IH; [|reflexivity]. now apply subs_lt.
Qed.

(** [e] is a node of the tree [t]. *)
Inductive node_of : expr -> expr -> Prop :=
| node_self t : node_of t t
| node_sub t c e : In c (subs t) -> node_of c e -> node_of t e.

(** All nodes of a tree satisfy [P]. *)
Inductive All (P : expr -> Prop) : expr -> Prop :=
| All_intro e : P e -> Forall (All P) (subs e) -> All P e.

Lemma All_nodes P t : All P t <-> forall e, node_of t e -> P e.
Proof.
  split.
  - intros H e Hn. revert H. induction Hn as [t|t c e Hc Hn IH]; intros H; inversion H as [x H1 H2]; subst; [exact H1|].
    apply IH. rewrite Forall_forall in H2. now apply H2.
  - revert t. apply (expr_rect_subs (fun t => (forall e, node_of t e -> P e) -> All P t)). intros t IH H. constructor.
    + apply H. constructor.
    + apply Forall_forall. intros c Hc. apply IH; [exact Hc|]. intros e He. apply H. econstructor; eassumption.
Qed.
