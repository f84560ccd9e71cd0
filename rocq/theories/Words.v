(** The strings of a syntax tree, for C41. Generated from the struct definitions of parser/ast.go, as Ast.v is. *)
From Coq Require Import String List.
From Verif Require Import Str Ast.
Import ListNotations.
Local Open Scope list_scope.

(** All strings held in the fields of a tree, except the name of an infix operator, the sign in a setting of a role, the word between the arguments of CAST and the name of the cache in SYSTEM DROP. *)
Fixpoint texts (e : expr) : list string :=
  match e with
  | ENil => []
  | ESelectItem xExpr xModifiers xAlias => texts xExpr ++ flat_map texts xModifiers ++ texts xAlias
  | EOperationExpr _ xKind => [xKind]
  | ETernaryOperation xCondition xTrueExpr xFalseExpr => texts xCondition ++ texts xTrueExpr ++ texts xFalseExpr
  | EBinaryOperation xLeftExpr _ xRightExpr _ _ => texts xLeftExpr ++ texts xRightExpr
  | EIndexOperation xObject xOperation xIndex => texts xObject ++ [xOperation] ++ texts xIndex
  | EJoinTableExpr xTable _ xSampleRatio _ => texts xTable ++ texts xSampleRatio
  | EAlterTable _ _ xTableIdentifier xOnCluster xAlterExprs => texts xTableIdentifier ++ texts xOnCluster ++ flat_map texts xAlterExprs
  | EAlterTableAttachPartition _ xPartition xFrom => texts xPartition ++ texts xFrom
  | EAlterTableDetachPartition _ xPartition xSettings => texts xPartition ++ texts xSettings
  | EAlterTableDropPartition _ _ xPartition xSettings => texts xPartition ++ texts xSettings
  | EAlterTableMaterializeProjection _ _ _ xProjectionName xPartition => texts xProjectionName ++ texts xPartition
  | EAlterTableMaterializeIndex _ _ _ xIndexName xPartition => texts xIndexName ++ texts xPartition
  | EAlterTableFreezePartition _ _ xPartition => texts xPartition
  | EAlterTableAddColumn _ _ xColumn _ xAfter xSettings => texts xColumn ++ texts xAfter ++ texts xSettings
  | EAlterTableAddIndex _ _ xIndex _ xAfter => texts xIndex ++ texts xAfter
  | EProjectionOrderByClause _ xColumns => texts xColumns
  | EProjectionSelectStmt _ _ xWith xSelectColumns xGroupBy xOrderBy => texts xWith ++ texts xSelectColumns ++ texts xGroupBy ++ texts xOrderBy
  | ETableProjection _ _ xIdentifier xSelect => texts xIdentifier ++ texts xSelect
  | EAlterTableAddProjection _ _ _ xTableProjection xAfter => texts xTableProjection ++ texts xAfter
  | EAlterTableDropColumn _ xColumnName _ => texts xColumnName
  | EAlterTableDropIndex _ xIndexName _ => texts xIndexName
  | EAlterTableDropProjection _ xProjectionName _ => texts xProjectionName
  | EAlterTableRemoveTTL _ _ => []
  | EAlterTableClearColumn _ _ _ xColumnName xPartitionExpr => texts xColumnName ++ texts xPartitionExpr
  | EAlterTableClearIndex _ _ _ xIndexName xPartitionExpr => texts xIndexName ++ texts xPartitionExpr
  | EAlterTableClearProjection _ _ _ xProjectionName xPartitionExpr => texts xProjectionName ++ texts xPartitionExpr
  | EAlterTableRenameColumn _ _ xOldColumnName xNewColumnName => texts xOldColumnName ++ texts xNewColumnName
  | EAlterTableModifyQuery _ _ xSelectExpr => texts xSelectExpr
  | EAlterTableModifyOrderBy _ _ xOrderBy => texts xOrderBy
  | EAlterTableModifyTTL _ _ xTTL => texts xTTL
  | EAlterTableModifyColumn _ _ _ xColumn xRemovePropertyType => texts xColumn ++ texts xRemovePropertyType
  | EAlterTableModifySetting _ _ xSettings => flat_map texts xSettings
  | EAlterTableResetSetting _ _ xSettings => flat_map texts xSettings
  | EAlterTableReplacePartition _ xPartition xTable => texts xPartition ++ texts xTable
  | EAlterTableDelete _ _ xWhereClause => texts xWhereClause
  | EAlterTableUpdate _ _ xAssignments xInPartition xWhereClause => flat_map texts xAssignments ++ texts xInPartition ++ texts xWhereClause
  | EUpdateAssignment _ xColumn xExpr => texts xColumn ++ texts xExpr
  | ERemovePropertyType _ xPropertyType => texts xPropertyType
  | ETableIndex _ xName xColumnExpr xColumnType xGranularity => texts xName ++ texts xColumnExpr ++ texts xColumnType ++ texts xGranularity
  | EIdent xName _ _ _ => [xName]
  | EUUID xValue => texts xValue
  | ECreateDatabase _ _ xName _ xOnCluster xEngine xComment => texts xName ++ texts xOnCluster ++ texts xEngine ++ texts xComment
  | ECreateTable _ _ _ xName _ xUUID xOnCluster xTableSchema xEngine xSubQuery xTableFunction _ xComment => texts xName ++ texts xUUID ++ texts xOnCluster ++ texts xTableSchema ++ texts xEngine ++ texts xSubQuery ++ texts xTableFunction ++ texts xComment
  | ECreateMaterializedView _ _ xName _ xOnCluster xRefresh xRandomizeFor xDependsOn xSettings _ xEngine xTableSchema _ xDestination xSubQuery _ xComment xDefiner xSQLSecurity => texts xName ++ texts xOnCluster ++ texts xRefresh ++ texts xRandomizeFor ++ flat_map texts xDependsOn ++ texts xSettings ++ texts xEngine ++ texts xTableSchema ++ texts xDestination ++ texts xSubQuery ++ texts xComment ++ texts xDefiner ++ [xSQLSecurity]
  | ECreateView _ _ _ xName _ xUUID xOnCluster xTableSchema xComment xSubQuery => texts xName ++ texts xUUID ++ texts xOnCluster ++ texts xTableSchema ++ texts xComment ++ texts xSubQuery
  | ECreateFunction _ _ _ xFunctionName xOnCluster xParams xExpr => texts xFunctionName ++ texts xOnCluster ++ texts xParams ++ texts xExpr
  | ERoleName xName xScope xOnCluster => texts xName ++ texts xScope ++ texts xOnCluster
  | ESettingPair xName _ xValue => texts xName ++ texts xValue
  | ERoleSetting xSettingPairs xModifier => flat_map texts xSettingPairs ++ texts xModifier
  | ECreateRole _ _ _ _ xRoleNames xAccessStorageType xSettings => flat_map texts xRoleNames ++ texts xAccessStorageType ++ flat_map texts xSettings
  | EAuthenticationClause _ _ _ xAuthType xAuthValue xLdapServer xKerberosRealm _ => [xAuthType] ++ texts xAuthValue ++ texts xLdapServer ++ texts xKerberosRealm
  | EHostClause _ _ xHostType xHostValue => [xHostType] ++ texts xHostValue
  | EDefaultRoleClause _ _ xRoles _ => flat_map texts xRoles
  | EGranteesClause _ _ xGrantees xExceptUsers _ _ => flat_map texts xGrantees ++ flat_map texts xExceptUsers
  | ECreateUser _ _ _ _ xUserNames xAuthentication xValidUntil xHosts xDefaultRole xDefaultDatabase _ xGrantees xSettings => flat_map texts xUserNames ++ texts xAuthentication ++ texts xValidUntil ++ flat_map texts xHosts ++ texts xDefaultRole ++ texts xDefaultDatabase ++ texts xGrantees ++ flat_map texts xSettings
  | EAlterRole _ _ _ xRoleRenamePairs xSettings => flat_map texts xRoleRenamePairs ++ flat_map texts xSettings
  | ERoleRenamePair xRoleName xNewName _ => texts xRoleName ++ texts xNewName
  | EDestinationClause _ xTableIdentifier xTableSchema => texts xTableIdentifier ++ texts xTableSchema
  | EConstraintClause _ xConstraint xExpr => texts xConstraint ++ texts xExpr
  | ENullLiteral _ => []
  | ENotNullLiteral _ xNullLiteral => texts xNullLiteral
  | ENestedIdentifier xIdent xDotIdent => texts xIdent ++ texts xDotIdent
  | EPath xFields => flat_map texts xFields
  | ETableIdentifier xDatabase xTable => texts xDatabase ++ texts xTable
  | ETableSchemaClause _ _ xColumns xAliasTable xTableFunction => flat_map texts xColumns ++ texts xAliasTable ++ texts xTableFunction
  | ETableArgListExpr _ _ xArgs => flat_map texts xArgs
  | ETableFunctionExpr xName xArgs => texts xName ++ texts xArgs
  | EClusterClause _ xExpr => texts xExpr
  | EPartitionClause _ xExpr xID _ => texts xExpr ++ texts xID
  | EPartitionByClause _ xExpr => texts xExpr
  | EPrimaryKeyClause _ xExpr => texts xExpr
  | ESampleByClause _ xExpr => texts xExpr
  | ETTLPolicyRuleAction _ _ xAction xCodec => [xAction] ++ texts xCodec
  | ERefreshExpr _ xFrequency xInterval xOffset => [xFrequency] ++ texts xInterval ++ texts xOffset
  | ETTLPolicyRule _ xToVolume xToDisk xAction => texts xToVolume ++ texts xToDisk ++ texts xAction
  | ETTLPolicy xItem xWhere xGroupBy => texts xItem ++ texts xWhere ++ texts xGroupBy
  | ETTLExpr _ xExpr xPolicy => texts xExpr ++ texts xPolicy
  | ETTLClause _ _ xItems => flat_map texts xItems
  | EFill _ xFrom xTo xStep xStaleness => texts xFrom ++ texts xTo ++ texts xStep ++ texts xStaleness
  | EOrderExpr _ xExpr xAlias xDirection xFill => texts xExpr ++ texts xAlias ++ [xDirection] ++ texts xFill
  | EInterpolateItem xColumn xExpr => texts xColumn ++ texts xExpr
  | EInterpolateClause _ _ xItems => flat_map texts xItems
  | EOrderByClause _ _ xItems xInterpolate => flat_map texts xItems ++ texts xInterpolate
  | ESettingExpr _ xName xExpr => texts xName ++ texts xExpr
  | ESettingsClause _ _ xItems => flat_map texts xItems
  | EParamExprList _ _ xItems xColumnArgList => texts xItems ++ texts xColumnArgList
  | EKeyValue xKey xValue => texts xKey ++ texts xValue
  | EMapLiteral _ _ xKeyValues => flat_map texts xKeyValues
  | ENamedParameterExpr _ xName xValue => texts xName ++ texts xValue
  | EQueryParam _ _ xName xType_ => texts xName ++ texts xType_
  | EArrayParamList _ _ xItems => texts xItems
  | EObjectParams xObject xParams => texts xObject ++ texts xParams
  | EFunctionExpr xName xParams => texts xName ++ texts xParams
  | EWindowFunctionExpr xFunction _ xOverExpr => texts xFunction ++ texts xOverExpr
  | ETypedPlaceholder _ _ xName xType_ => texts xName ++ texts xType_
  | EColumnExpr xExpr xAlias => texts xExpr ++ texts xAlias
  | EColumnDef _ _ xName xType_ xNotNull xNullable xDefaultExpr xMaterializedExpr xAliasExpr xCodec xTTL xComment xCompressionCodec => texts xName ++ texts xType_ ++ texts xNotNull ++ texts xNullable ++ texts xDefaultExpr ++ texts xMaterializedExpr ++ texts xAliasExpr ++ texts xCodec ++ texts xTTL ++ texts xComment ++ texts xCompressionCodec
  | EScalarType xName => texts xName
  | EJSONPath xIdents => flat_map texts xIdents
  | EJSONTypeHint xPath xType_ => texts xPath ++ texts xType_
  | EJSONOption xSkipPath xSkipRegex xMaxDynamicPaths xMaxDynamicTypes xColumn => texts xSkipPath ++ texts xSkipRegex ++ texts xMaxDynamicPaths ++ texts xMaxDynamicTypes ++ texts xColumn
  | EJSONOptions _ _ xItems => flat_map texts xItems
  | EJSONType xName xOptions => texts xName ++ texts xOptions
  | EPropertyType xName => texts xName
  | ETypeWithParams _ _ xName xParams => texts xName ++ flat_map texts xParams
  | EComplexType _ _ xName xParams => texts xName ++ flat_map texts xParams
  | ENestedType _ _ xName xColumns => texts xName ++ flat_map texts xColumns
  | ECompressionCodec _ _ xType_ xTypeLevel xName xLevel => texts xType_ ++ texts xTypeLevel ++ texts xName ++ texts xLevel
  | ENumberLiteral _ _ xLiteral _ => [xLiteral]
  | EStringLiteral _ _ xLiteral => [xLiteral]
  | EBoolLiteral _ _ xLiteral => [xLiteral]
  | EPlaceHolder _ _ xType_ => [xType_]
  | ERatioExpr xNumerator xDenominator => texts xNumerator ++ texts xDenominator
  | EEnumValue xName xValue => texts xName ++ texts xValue
  | EEnumType xName _ _ xValues => texts xName ++ flat_map texts xValues
  | EIntervalExpr _ xExpr xUnit => texts xExpr ++ texts xUnit
  | EEngineExpr _ _ xName xParams xPrimaryKey xPartitionBy xSampleBy xTTL xSettings xOrderBy => [xName] ++ texts xParams ++ texts xPrimaryKey ++ texts xPartitionBy ++ texts xSampleBy ++ texts xTTL ++ texts xSettings ++ texts xOrderBy
  | EColumnTypeExpr xName => texts xName
  | EColumnArgList _ _ _ xItems => flat_map texts xItems
  | EColumnExprList _ _ _ xItems => flat_map texts xItems
  | EWhenClause _ _ xWhen xThen _ xElse => texts xWhen ++ texts xThen ++ texts xElse
  | ECaseExpr _ _ xExpr xWhens _ xElse => texts xExpr ++ flat_map texts xWhens ++ texts xElse
  | ECastExpr _ xExpr _ _ xAsType => texts xExpr ++ texts xAsType
  | EWithClause _ _ xCTEs => flat_map texts xCTEs
  | ETopClause _ _ xNumber _ => texts xNumber
  | ECreateLiveView _ _ xName _ xUUID xOnCluster xDestination xTableSchema xWithTimeout xSubQuery => texts xName ++ texts xUUID ++ texts xOnCluster ++ texts xDestination ++ texts xTableSchema ++ texts xWithTimeout ++ texts xSubQuery
  | ECreateDictionary _ _ _ xName _ xUUID xOnCluster xSchema xEngine xComment => texts xName ++ texts xUUID ++ texts xOnCluster ++ texts xSchema ++ texts xEngine ++ texts xComment
  | ECreateNamedCollection _ _ xName _ xOnCluster xParams => texts xName ++ texts xOnCluster ++ flat_map texts xParams
  | ENamedCollectionParam _ xName xValue _ _ => texts xName ++ texts xValue
  | EDictionarySchemaClause _ xAttributes _ => flat_map texts xAttributes
  | EDictionaryAttribute _ _ xName xType_ xDefault xExpression _ _ _ => texts xName ++ texts xType_ ++ texts xDefault ++ texts xExpression
  | EDictionaryEngineClause _ xPrimaryKey xSource xLifetime xLayout xRange xSettings => texts xPrimaryKey ++ texts xSource ++ texts xLifetime ++ texts xLayout ++ texts xRange ++ texts xSettings
  | EDictionaryPrimaryKeyClause _ xKeys _ => texts xKeys
  | EDictionarySourceClause _ xSource xArgs _ => texts xSource ++ flat_map texts xArgs
  | EDictionaryArgExpr _ xName xValue xArgs _ _ => texts xName ++ texts xValue ++ flat_map texts xArgs
  | EDictionaryLifetimeClause _ xMin xMax xValue _ => texts xMin ++ texts xMax ++ texts xValue
  | EDictionaryLayoutClause _ xLayout xArgs _ => texts xLayout ++ flat_map texts xArgs
  | EDictionaryRangeClause _ xMin xMax _ => texts xMin ++ texts xMax
  | EWithTimeoutClause _ xExpr xNumber => texts xExpr ++ texts xNumber
  | ETableExpr _ _ xAlias xExpr _ => texts xAlias ++ texts xExpr
  | EOnClause _ xOn => texts xOn
  | EUsingClause _ xUsing => texts xUsing
  | EJoinExpr _ xLeft xRight xModifiers xConstraints => texts xLeft ++ texts xRight ++ xModifiers ++ texts xConstraints
  | EJoinConstraintClause _ xOn xUsing => texts xOn ++ texts xUsing
  | EFromClause _ xExpr => texts xExpr
  | EIsNullExpr _ _ xExpr => texts xExpr
  | EIsNotNullExpr _ _ xExpr => texts xExpr
  | EAliasExpr xExpr _ xAlias => texts xExpr ++ texts xAlias
  | EWhereClause _ xExpr => texts xExpr
  | EPrewhereClause _ xExpr => texts xExpr
  | EGroupByClause _ _ xAggregateType xExpr _ _ _ => [xAggregateType] ++ texts xExpr
  | EHavingClause _ xExpr => texts xExpr
  | ELimitClause _ xLimit xOffset => texts xLimit ++ texts xOffset
  | ELimitByClause xLimit xByExpr => texts xLimit ++ texts xByExpr
  | EWindowExpr _ _ xWindowName xPartitionBy xOrderBy xFrame => texts xWindowName ++ texts xPartitionBy ++ texts xOrderBy ++ texts xFrame
  | EWindowDefinition xName _ xExpr => texts xName ++ texts xExpr
  | EWindowClause _ _ xWindows => flat_map texts xWindows
  | EWindowFrameClause _ xType_ xExtend => [xType_] ++ texts xExtend
  | EWindowFrameExtendExpr xExpr xDirection _ => texts xExpr ++ [xDirection]
  | EBetweenClause xExpr _ xBetween _ xAnd => texts xExpr ++ texts xBetween ++ texts xAnd
  | EWindowFrameCurrentRow _ _ => []
  | EWindowFrameUnbounded _ _ xDirection => [xDirection]
  | EWindowFrameNumber xNumber _ xDirection => texts xNumber ++ [xDirection]
  | EWindowFrameParam xParam _ xDirection => texts xParam ++ [xDirection]
  | ESelectQuery _ _ xWith xTop _ xDistinctOn xSelectItems xFrom xWindow xPrewhere xWhere xGroupBy _ xHaving xOrderBy xLimitBy xLimit xSettings xFormat xUnionAll xUnionDistinct xExcept xIntersect => texts xWith ++ texts xTop ++ texts xDistinctOn ++ flat_map texts xSelectItems ++ texts xFrom ++ texts xWindow ++ texts xPrewhere ++ texts xWhere ++ texts xGroupBy ++ texts xHaving ++ texts xOrderBy ++ texts xLimitBy ++ texts xLimit ++ texts xSettings ++ texts xFormat ++ texts xUnionAll ++ texts xUnionDistinct ++ texts xExcept ++ texts xIntersect
  | EDistinctOn xIdents _ _ => flat_map texts xIdents
  | ESubQuery _ xSelect => texts xSelect
  | ENotExpr _ xExpr => texts xExpr
  | ENegateExpr _ xExpr => texts xExpr
  | EGlobalInOperation _ xExpr => texts xExpr
  | EIntervalFrom xInterval _ xFromExpr => texts xInterval ++ texts xFromExpr
  | EExtractExpr _ _ xParameters => flat_map texts xParameters
  | EDropDatabase _ _ xName _ xOnCluster xModifier => texts xName ++ texts xOnCluster ++ [xModifier]
  | EDropStmt _ _ xDropTarget xName _ xOnCluster _ xModifier => [xDropTarget] ++ texts xName ++ texts xOnCluster ++ [xModifier]
  | EDropUserOrRole _ xTarget _ xNames _ xModifier xFrom => [xTarget] ++ flat_map texts xNames ++ [xModifier] ++ texts xFrom
  | EUseStmt _ _ xDatabase => texts xDatabase
  | ECTEStmt _ xExpr xAlias => texts xExpr ++ texts xAlias
  | ESetStmt _ xSettings => texts xSettings
  | EFormatClause _ xFormat => texts xFormat
  | EOptimizeStmt _ _ xTable xOnCluster xPartition _ xDeduplicate => texts xTable ++ texts xOnCluster ++ texts xPartition ++ texts xDeduplicate
  | EDeduplicateClause _ xBy xExcept => texts xBy ++ texts xExcept
  | ESystemStmt _ xExpr => texts xExpr
  | ESystemFlushExpr _ _ _ xDistributed => texts xDistributed
  | ESystemReloadExpr _ _ xOnCluster xDictionary xType_ => texts xOnCluster ++ texts xDictionary ++ [xType_]
  | ESystemSyncExpr _ xCluster => texts xCluster
  | ESystemCtrlExpr _ _ xCommand xType_ xCluster => [xCommand] ++ [xType_] ++ texts xCluster
  | ESystemDropExpr _ _ _ => []
  | ETruncateTable _ _ _ _ xName xOnCluster => texts xName ++ texts xOnCluster
  | ESampleClause _ xRatio xOffset => texts xRatio ++ texts xOffset
  | EDeleteClause _ xTable xOnCluster xWhereExpr => texts xTable ++ texts xOnCluster ++ texts xWhereExpr
  | EColumnNamesExpr _ _ xColumnNames => flat_map texts xColumnNames
  | EAssignmentValues _ _ xValues => flat_map texts xValues
  | EInsertStmt _ xFormat _ xTable xColumnNames xValues xSelectExpr => texts xFormat ++ texts xTable ++ texts xColumnNames ++ flat_map texts xValues ++ texts xSelectExpr
  | ECheckStmt _ xTable xPartition => texts xTable ++ texts xPartition
  | EUnaryExpr _ xKind xExpr => [xKind] ++ texts xExpr
  | ERenameStmt _ _ xRenameTarget xTargetPairList xOnCluster => [xRenameTarget] ++ flat_map texts xTargetPairList ++ texts xOnCluster
  | ETargetPair xOld xNew => texts xOld ++ texts xNew
  | EExplainStmt _ xType_ xStatement => [xType_] ++ texts xStatement
  | EPrivilegeClause _ _ xKeywords xParams => xKeywords ++ texts xParams
  | EGrantPrivilegeStmt _ _ xOnCluster xPrivileges xOn xTo xWithOptions => texts xOnCluster ++ flat_map texts xPrivileges ++ texts xOn ++ flat_map texts xTo ++ xWithOptions
  | EShowStmt _ _ xShowType xTarget _ xLikeType xLikePattern xLimit xOutFile xFormat => [xShowType] ++ texts xTarget ++ [xLikeType] ++ texts xLikePattern ++ texts xLimit ++ texts xOutFile ++ texts xFormat
  | EDescribeStmt _ _ xDescribeType xTarget => [xDescribeType] ++ texts xTarget
  end.
