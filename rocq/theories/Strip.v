(** The syntax tree without its positions. Generated from the struct definitions of parser/ast.go, as Ast.v is.
    [strip t = strip u] says that [t] and [u] are the same tree up to positions. *)
From Coq Require Import String List.
From Verif Require Import Ast.

(** Two positions also tell whether something was written: the keyword of an [IntervalExpr], the parenthesis of a
    [DictionaryArgExpr]. That much of them is kept. *)
Definition set_pos (p : pos) : pos := match p with PZero => PZero | _ => PStart 0 end.

Fixpoint strip (e : expr) : expr :=
  match e with
  | ENil => ENil
  | ESelectItem xExpr xModifiers xAlias =>
      ESelectItem (strip xExpr) (map strip xModifiers) (strip xAlias)
  | EOperationExpr _ xKind =>
      EOperationExpr PZero xKind
  | ETernaryOperation xCondition xTrueExpr xFalseExpr =>
      ETernaryOperation (strip xCondition) (strip xTrueExpr) (strip xFalseExpr)
  | EBinaryOperation xLeftExpr xOperation xRightExpr xHasGlobal xHasNot =>
      EBinaryOperation (strip xLeftExpr) xOperation (strip xRightExpr) xHasGlobal xHasNot
  | EIndexOperation xObject xOperation xIndex =>
      EIndexOperation (strip xObject) xOperation (strip xIndex)
  | EJoinTableExpr xTable _ xSampleRatio xHasFinal =>
      EJoinTableExpr (strip xTable) PZero (strip xSampleRatio) xHasFinal
  | EAlterTable _ _ xTableIdentifier xOnCluster xAlterExprs =>
      EAlterTable PZero PZero (strip xTableIdentifier) (strip xOnCluster) (map strip xAlterExprs)
  | EAlterTableAttachPartition _ xPartition xFrom =>
      EAlterTableAttachPartition PZero (strip xPartition) (strip xFrom)
  | EAlterTableDetachPartition _ xPartition xSettings =>
      EAlterTableDetachPartition PZero (strip xPartition) (strip xSettings)
  | EAlterTableDropPartition _ xHasDetached xPartition xSettings =>
      EAlterTableDropPartition PZero xHasDetached (strip xPartition) (strip xSettings)
  | EAlterTableMaterializeProjection _ _ xIfExists xProjectionName xPartition =>
      EAlterTableMaterializeProjection PZero PZero xIfExists (strip xProjectionName) (strip xPartition)
  | EAlterTableMaterializeIndex _ _ xIfExists xIndexName xPartition =>
      EAlterTableMaterializeIndex PZero PZero xIfExists (strip xIndexName) (strip xPartition)
  | EAlterTableFreezePartition _ _ xPartition =>
      EAlterTableFreezePartition PZero PZero (strip xPartition)
  | EAlterTableAddColumn _ _ xColumn xIfNotExists xAfter xSettings =>
      EAlterTableAddColumn PZero PZero (strip xColumn) xIfNotExists (strip xAfter) (strip xSettings)
  | EAlterTableAddIndex _ _ xIndex xIfNotExists xAfter =>
      EAlterTableAddIndex PZero PZero (strip xIndex) xIfNotExists (strip xAfter)
  | EProjectionOrderByClause _ xColumns =>
      EProjectionOrderByClause PZero (strip xColumns)
  | EProjectionSelectStmt _ _ xWith xSelectColumns xGroupBy xOrderBy =>
      EProjectionSelectStmt PZero PZero (strip xWith) (strip xSelectColumns) (strip xGroupBy) (strip xOrderBy)
  | ETableProjection xIncludeProjectionKeyword _ xIdentifier xSelect =>
      ETableProjection xIncludeProjectionKeyword PZero (strip xIdentifier) (strip xSelect)
  | EAlterTableAddProjection _ _ xIfNotExists xTableProjection xAfter =>
      EAlterTableAddProjection PZero PZero xIfNotExists (strip xTableProjection) (strip xAfter)
  | EAlterTableDropColumn _ xColumnName xIfExists =>
      EAlterTableDropColumn PZero (strip xColumnName) xIfExists
  | EAlterTableDropIndex _ xIndexName xIfExists =>
      EAlterTableDropIndex PZero (strip xIndexName) xIfExists
  | EAlterTableDropProjection _ xProjectionName xIfExists =>
      EAlterTableDropProjection PZero (strip xProjectionName) xIfExists
  | EAlterTableRemoveTTL _ _ =>
      EAlterTableRemoveTTL PZero PZero
  | EAlterTableClearColumn _ _ xIfExists xColumnName xPartitionExpr =>
      EAlterTableClearColumn PZero PZero xIfExists (strip xColumnName) (strip xPartitionExpr)
  | EAlterTableClearIndex _ _ xIfExists xIndexName xPartitionExpr =>
      EAlterTableClearIndex PZero PZero xIfExists (strip xIndexName) (strip xPartitionExpr)
  | EAlterTableClearProjection _ _ xIfExists xProjectionName xPartitionExpr =>
      EAlterTableClearProjection PZero PZero xIfExists (strip xProjectionName) (strip xPartitionExpr)
  | EAlterTableRenameColumn _ xIfExists xOldColumnName xNewColumnName =>
      EAlterTableRenameColumn PZero xIfExists (strip xOldColumnName) (strip xNewColumnName)
  | EAlterTableModifyQuery _ _ xSelectExpr =>
      EAlterTableModifyQuery PZero PZero (strip xSelectExpr)
  | EAlterTableModifyOrderBy _ _ xOrderBy =>
      EAlterTableModifyOrderBy PZero PZero (strip xOrderBy)
  | EAlterTableModifyTTL _ _ xTTL =>
      EAlterTableModifyTTL PZero PZero (strip xTTL)
  | EAlterTableModifyColumn _ _ xIfExists xColumn xRemovePropertyType =>
      EAlterTableModifyColumn PZero PZero xIfExists (strip xColumn) (strip xRemovePropertyType)
  | EAlterTableModifySetting _ _ xSettings =>
      EAlterTableModifySetting PZero PZero (map strip xSettings)
  | EAlterTableResetSetting _ _ xSettings =>
      EAlterTableResetSetting PZero PZero (map strip xSettings)
  | EAlterTableReplacePartition _ xPartition xTable =>
      EAlterTableReplacePartition PZero (strip xPartition) (strip xTable)
  | EAlterTableDelete _ _ xWhereClause =>
      EAlterTableDelete PZero PZero (strip xWhereClause)
  | EAlterTableUpdate _ _ xAssignments xInPartition xWhereClause =>
      EAlterTableUpdate PZero PZero (map strip xAssignments) (strip xInPartition) (strip xWhereClause)
  | EUpdateAssignment _ xColumn xExpr =>
      EUpdateAssignment PZero (strip xColumn) (strip xExpr)
  | ERemovePropertyType _ xPropertyType =>
      ERemovePropertyType PZero (strip xPropertyType)
  | ETableIndex _ xName xColumnExpr xColumnType xGranularity =>
      ETableIndex PZero (strip xName) (strip xColumnExpr) (strip xColumnType) (strip xGranularity)
  | EIdent xName xQuoteType _ _ =>
      EIdent xName xQuoteType PZero PZero
  | EUUID xValue =>
      EUUID (strip xValue)
  | ECreateDatabase _ _ xName xIfNotExists xOnCluster xEngine xComment =>
      ECreateDatabase PZero PZero (strip xName) xIfNotExists (strip xOnCluster) (strip xEngine) (strip xComment)
  | ECreateTable _ _ xOrReplace xName xIfNotExists xUUID xOnCluster xTableSchema xEngine xSubQuery xTableFunction xHasTemporary xComment =>
      ECreateTable PZero PZero xOrReplace (strip xName) xIfNotExists (strip xUUID) (strip xOnCluster) (strip xTableSchema) (strip xEngine) (strip xSubQuery) (strip xTableFunction) xHasTemporary (strip xComment)
  | ECreateMaterializedView _ _ xName xIfNotExists xOnCluster xRefresh xRandomizeFor xDependsOn xSettings xHasAppend xEngine xTableSchema xHasEmpty xDestination xSubQuery xPopulate xComment xDefiner xSQLSecurity =>
      ECreateMaterializedView PZero PZero (strip xName) xIfNotExists (strip xOnCluster) (strip xRefresh) (strip xRandomizeFor) (map strip xDependsOn) (strip xSettings) xHasAppend (strip xEngine) (strip xTableSchema) xHasEmpty (strip xDestination) (strip xSubQuery) xPopulate (strip xComment) (strip xDefiner) xSQLSecurity
  | ECreateView _ _ xOrReplace xName xIfNotExists xUUID xOnCluster xTableSchema xComment xSubQuery =>
      ECreateView PZero PZero xOrReplace (strip xName) xIfNotExists (strip xUUID) (strip xOnCluster) (strip xTableSchema) (strip xComment) (strip xSubQuery)
  | ECreateFunction _ xOrReplace xIfNotExists xFunctionName xOnCluster xParams xExpr =>
      ECreateFunction PZero xOrReplace xIfNotExists (strip xFunctionName) (strip xOnCluster) (strip xParams) (strip xExpr)
  | ERoleName xName xScope xOnCluster =>
      ERoleName (strip xName) (strip xScope) (strip xOnCluster)
  | ESettingPair xName xOperation xValue =>
      ESettingPair (strip xName) xOperation (strip xValue)
  | ERoleSetting xSettingPairs xModifier =>
      ERoleSetting (map strip xSettingPairs) (strip xModifier)
  | ECreateRole _ _ xIfNotExists xOrReplace xRoleNames xAccessStorageType xSettings =>
      ECreateRole PZero PZero xIfNotExists xOrReplace (map strip xRoleNames) (strip xAccessStorageType) (map strip xSettings)
  | EAuthenticationClause _ _ xNotIdentified xAuthType xAuthValue xLdapServer xKerberosRealm xIsKerberos =>
      EAuthenticationClause PZero PZero xNotIdentified xAuthType (strip xAuthValue) (strip xLdapServer) (strip xKerberosRealm) xIsKerberos
  | EHostClause _ _ xHostType xHostValue =>
      EHostClause PZero PZero xHostType (strip xHostValue)
  | EDefaultRoleClause _ _ xRoles xNone =>
      EDefaultRoleClause PZero PZero (map strip xRoles) xNone
  | EGranteesClause _ _ xGrantees xExceptUsers xAny xNone =>
      EGranteesClause PZero PZero (map strip xGrantees) (map strip xExceptUsers) xAny xNone
  | ECreateUser _ _ xIfNotExists xOrReplace xUserNames xAuthentication xValidUntil xHosts xDefaultRole xDefaultDatabase xDefaultDbNone xGrantees xSettings =>
      ECreateUser PZero PZero xIfNotExists xOrReplace (map strip xUserNames) (strip xAuthentication) (strip xValidUntil) (map strip xHosts) (strip xDefaultRole) (strip xDefaultDatabase) xDefaultDbNone (strip xGrantees) (map strip xSettings)
  | EAlterRole _ _ xIfExists xRoleRenamePairs xSettings =>
      EAlterRole PZero PZero xIfExists (map strip xRoleRenamePairs) (map strip xSettings)
  | ERoleRenamePair xRoleName xNewName _ =>
      ERoleRenamePair (strip xRoleName) (strip xNewName) PZero
  | EDestinationClause _ xTableIdentifier xTableSchema =>
      EDestinationClause PZero (strip xTableIdentifier) (strip xTableSchema)
  | EConstraintClause _ xConstraint xExpr =>
      EConstraintClause PZero (strip xConstraint) (strip xExpr)
  | ENullLiteral _ =>
      ENullLiteral PZero
  | ENotNullLiteral _ xNullLiteral =>
      ENotNullLiteral PZero (strip xNullLiteral)
  | ENestedIdentifier xIdent xDotIdent =>
      ENestedIdentifier (strip xIdent) (strip xDotIdent)
  | EPath xFields =>
      EPath (map strip xFields)
  | ETableIdentifier xDatabase xTable =>
      ETableIdentifier (strip xDatabase) (strip xTable)
  | ETableSchemaClause _ _ xColumns xAliasTable xTableFunction =>
      ETableSchemaClause PZero PZero (map strip xColumns) (strip xAliasTable) (strip xTableFunction)
  | ETableArgListExpr _ _ xArgs =>
      ETableArgListExpr PZero PZero (map strip xArgs)
  | ETableFunctionExpr xName xArgs =>
      ETableFunctionExpr (strip xName) (strip xArgs)
  | EClusterClause _ xExpr =>
      EClusterClause PZero (strip xExpr)
  | EPartitionClause _ xExpr xID xAll =>
      EPartitionClause PZero (strip xExpr) (strip xID) xAll
  | EPartitionByClause _ xExpr =>
      EPartitionByClause PZero (strip xExpr)
  | EPrimaryKeyClause _ xExpr =>
      EPrimaryKeyClause PZero (strip xExpr)
  | ESampleByClause _ xExpr =>
      ESampleByClause PZero (strip xExpr)
  | ETTLPolicyRuleAction _ _ xAction xCodec =>
      ETTLPolicyRuleAction PZero PZero xAction (strip xCodec)
  | ERefreshExpr _ xFrequency xInterval xOffset =>
      ERefreshExpr PZero xFrequency (strip xInterval) (strip xOffset)
  | ETTLPolicyRule _ xToVolume xToDisk xAction =>
      ETTLPolicyRule PZero (strip xToVolume) (strip xToDisk) (strip xAction)
  | ETTLPolicy xItem xWhere xGroupBy =>
      ETTLPolicy (strip xItem) (strip xWhere) (strip xGroupBy)
  | ETTLExpr _ xExpr xPolicy =>
      ETTLExpr PZero (strip xExpr) (strip xPolicy)
  | ETTLClause _ _ xItems =>
      ETTLClause PZero PZero (map strip xItems)
  | EFill _ xFrom xTo xStep xStaleness =>
      EFill PZero (strip xFrom) (strip xTo) (strip xStep) (strip xStaleness)
  | EOrderExpr _ xExpr xAlias xDirection xFill =>
      EOrderExpr PZero (strip xExpr) (strip xAlias) xDirection (strip xFill)
  | EInterpolateItem xColumn xExpr =>
      EInterpolateItem (strip xColumn) (strip xExpr)
  | EInterpolateClause _ _ xItems =>
      EInterpolateClause PZero PZero (map strip xItems)
  | EOrderByClause _ _ xItems xInterpolate =>
      EOrderByClause PZero PZero (map strip xItems) (strip xInterpolate)
  | ESettingExpr _ xName xExpr =>
      ESettingExpr PZero (strip xName) (strip xExpr)
  | ESettingsClause _ _ xItems =>
      ESettingsClause PZero PZero (map strip xItems)
  | EParamExprList _ _ xItems xColumnArgList =>
      EParamExprList PZero PZero (strip xItems) (strip xColumnArgList)
  | EKeyValue xKey xValue =>
      EKeyValue (strip xKey) (strip xValue)
  | EMapLiteral _ _ xKeyValues =>
      EMapLiteral PZero PZero (map strip xKeyValues)
  | ENamedParameterExpr _ xName xValue =>
      ENamedParameterExpr PZero (strip xName) (strip xValue)
  | EQueryParam _ _ xName xType_ =>
      EQueryParam PZero PZero (strip xName) (strip xType_)
  | EArrayParamList _ _ xItems =>
      EArrayParamList PZero PZero (strip xItems)
  | EObjectParams xObject xParams =>
      EObjectParams (strip xObject) (strip xParams)
  | EFunctionExpr xName xParams =>
      EFunctionExpr (strip xName) (strip xParams)
  | EWindowFunctionExpr xFunction _ xOverExpr =>
      EWindowFunctionExpr (strip xFunction) PZero (strip xOverExpr)
  | ETypedPlaceholder _ _ xName xType_ =>
      ETypedPlaceholder PZero PZero (strip xName) (strip xType_)
  | EColumnExpr xExpr xAlias =>
      EColumnExpr (strip xExpr) (strip xAlias)
  | EColumnDef _ _ xName xType_ xNotNull xNullable xDefaultExpr xMaterializedExpr xAliasExpr xCodec xTTL xComment xCompressionCodec =>
      EColumnDef PZero PZero (strip xName) (strip xType_) (strip xNotNull) (strip xNullable) (strip xDefaultExpr) (strip xMaterializedExpr) (strip xAliasExpr) (strip xCodec) (strip xTTL) (strip xComment) (strip xCompressionCodec)
  | EScalarType xName =>
      EScalarType (strip xName)
  | EJSONPath xIdents =>
      EJSONPath (map strip xIdents)
  | EJSONTypeHint xPath xType_ =>
      EJSONTypeHint (strip xPath) (strip xType_)
  | EJSONOption xSkipPath xSkipRegex xMaxDynamicPaths xMaxDynamicTypes xColumn =>
      EJSONOption (strip xSkipPath) (strip xSkipRegex) (strip xMaxDynamicPaths) (strip xMaxDynamicTypes) (strip xColumn)
  | EJSONOptions _ _ xItems =>
      EJSONOptions PZero PZero (map strip xItems)
  | EJSONType xName xOptions =>
      EJSONType (strip xName) (strip xOptions)
  | EPropertyType xName =>
      EPropertyType (strip xName)
  | ETypeWithParams _ _ xName xParams =>
      ETypeWithParams PZero PZero (strip xName) (map strip xParams)
  | EComplexType _ _ xName xParams =>
      EComplexType PZero PZero (strip xName) (map strip xParams)
  | ENestedType _ _ xName xColumns =>
      ENestedType PZero PZero (strip xName) (map strip xColumns)
  | ECompressionCodec _ _ xType_ xTypeLevel xName xLevel =>
      ECompressionCodec PZero PZero (strip xType_) (strip xTypeLevel) (strip xName) (strip xLevel)
  | ENumberLiteral _ _ xLiteral xBase =>
      ENumberLiteral PZero PZero xLiteral xBase
  | EStringLiteral _ _ xLiteral =>
      EStringLiteral PZero PZero xLiteral
  | EBoolLiteral _ _ xLiteral =>
      EBoolLiteral PZero PZero xLiteral
  | EPlaceHolder _ _ xType_ =>
      EPlaceHolder PZero PZero xType_
  | ERatioExpr xNumerator xDenominator =>
      ERatioExpr (strip xNumerator) (strip xDenominator)
  | EEnumValue xName xValue =>
      EEnumValue (strip xName) (strip xValue)
  | EEnumType xName _ _ xValues =>
      EEnumType (strip xName) PZero PZero (map strip xValues)
  | EIntervalExpr xIntervalPos xExpr xUnit =>
      EIntervalExpr (set_pos xIntervalPos) (strip xExpr) (strip xUnit)
  | EEngineExpr _ _ xName xParams xPrimaryKey xPartitionBy xSampleBy xTTL xSettings xOrderBy =>
      EEngineExpr PZero PZero xName (strip xParams) (strip xPrimaryKey) (strip xPartitionBy) (strip xSampleBy) (strip xTTL) (strip xSettings) (strip xOrderBy)
  | EColumnTypeExpr xName =>
      EColumnTypeExpr (strip xName)
  | EColumnArgList xDistinct _ _ xItems =>
      EColumnArgList xDistinct PZero PZero (map strip xItems)
  | EColumnExprList _ _ xHasDistinct xItems =>
      EColumnExprList PZero PZero xHasDistinct (map strip xItems)
  | EWhenClause _ _ xWhen xThen _ xElse =>
      EWhenClause PZero PZero (strip xWhen) (strip xThen) PZero (strip xElse)
  | ECaseExpr _ _ xExpr xWhens _ xElse =>
      ECaseExpr PZero PZero (strip xExpr) (map strip xWhens) PZero (strip xElse)
  | ECastExpr _ xExpr xSeparator _ xAsType =>
      ECastExpr PZero (strip xExpr) xSeparator PZero (strip xAsType)
  | EWithClause _ _ xCTEs =>
      EWithClause PZero PZero (map strip xCTEs)
  | ETopClause _ _ xNumber xWithTies =>
      ETopClause PZero PZero (strip xNumber) xWithTies
  | ECreateLiveView _ _ xName xIfNotExists xUUID xOnCluster xDestination xTableSchema xWithTimeout xSubQuery =>
      ECreateLiveView PZero PZero (strip xName) xIfNotExists (strip xUUID) (strip xOnCluster) (strip xDestination) (strip xTableSchema) (strip xWithTimeout) (strip xSubQuery)
  | ECreateDictionary _ _ xOrReplace xName xIfNotExists xUUID xOnCluster xSchema xEngine xComment =>
      ECreateDictionary PZero PZero xOrReplace (strip xName) xIfNotExists (strip xUUID) (strip xOnCluster) (strip xSchema) (strip xEngine) (strip xComment)
  | ECreateNamedCollection _ _ xName xIfNotExists xOnCluster xParams =>
      ECreateNamedCollection PZero PZero (strip xName) xIfNotExists (strip xOnCluster) (map strip xParams)
  | ENamedCollectionParam _ xName xValue xOverridable xNotOverridable =>
      ENamedCollectionParam PZero (strip xName) (strip xValue) xOverridable xNotOverridable
  | EDictionarySchemaClause _ xAttributes _ =>
      EDictionarySchemaClause PZero (map strip xAttributes) PZero
  | EDictionaryAttribute _ _ xName xType_ xDefault xExpression xHierarchical xInjective xIsObjectId =>
      EDictionaryAttribute PZero PZero (strip xName) (strip xType_) (strip xDefault) (strip xExpression) xHierarchical xInjective xIsObjectId
  | EDictionaryEngineClause _ xPrimaryKey xSource xLifetime xLayout xRange xSettings =>
      EDictionaryEngineClause PZero (strip xPrimaryKey) (strip xSource) (strip xLifetime) (strip xLayout) (strip xRange) (strip xSettings)
  | EDictionaryPrimaryKeyClause _ xKeys _ =>
      EDictionaryPrimaryKeyClause PZero (strip xKeys) PZero
  | EDictionarySourceClause _ xSource xArgs _ =>
      EDictionarySourceClause PZero (strip xSource) (map strip xArgs) PZero
  | EDictionaryArgExpr _ xName xValue xArgs xLParenPos _ =>
      EDictionaryArgExpr PZero (strip xName) (strip xValue) (map strip xArgs) (set_pos xLParenPos) PZero
  | EDictionaryLifetimeClause _ xMin xMax xValue _ =>
      EDictionaryLifetimeClause PZero (strip xMin) (strip xMax) (strip xValue) PZero
  | EDictionaryLayoutClause _ xLayout xArgs _ =>
      EDictionaryLayoutClause PZero (strip xLayout) (map strip xArgs) PZero
  | EDictionaryRangeClause _ xMin xMax _ =>
      EDictionaryRangeClause PZero (strip xMin) (strip xMax) PZero
  | EWithTimeoutClause _ xExpr xNumber =>
      EWithTimeoutClause PZero (strip xExpr) (strip xNumber)
  | ETableExpr _ _ xAlias xExpr xHasFinal =>
      ETableExpr PZero PZero (strip xAlias) (strip xExpr) xHasFinal
  | EOnClause _ xOn =>
      EOnClause PZero (strip xOn)
  | EUsingClause _ xUsing =>
      EUsingClause PZero (strip xUsing)
  | EJoinExpr _ xLeft xRight xModifiers xConstraints =>
      EJoinExpr PZero (strip xLeft) (strip xRight) xModifiers (strip xConstraints)
  | EJoinConstraintClause _ xOn xUsing =>
      EJoinConstraintClause PZero (strip xOn) (strip xUsing)
  | EFromClause _ xExpr =>
      EFromClause PZero (strip xExpr)
  | EIsNullExpr _ _ xExpr =>
      EIsNullExpr PZero PZero (strip xExpr)
  | EIsNotNullExpr _ _ xExpr =>
      EIsNotNullExpr PZero PZero (strip xExpr)
  | EAliasExpr xExpr _ xAlias =>
      EAliasExpr (strip xExpr) PZero (strip xAlias)
  | EWhereClause _ xExpr =>
      EWhereClause PZero (strip xExpr)
  | EPrewhereClause _ xExpr =>
      EPrewhereClause PZero (strip xExpr)
  | EGroupByClause _ _ xAggregateType xExpr xWithCube xWithRollup xWithTotals =>
      EGroupByClause PZero PZero xAggregateType (strip xExpr) xWithCube xWithRollup xWithTotals
  | EHavingClause _ xExpr =>
      EHavingClause PZero (strip xExpr)
  | ELimitClause _ xLimit xOffset =>
      ELimitClause PZero (strip xLimit) (strip xOffset)
  | ELimitByClause xLimit xByExpr =>
      ELimitByClause (strip xLimit) (strip xByExpr)
  | EWindowExpr _ _ xWindowName xPartitionBy xOrderBy xFrame =>
      EWindowExpr PZero PZero (strip xWindowName) (strip xPartitionBy) (strip xOrderBy) (strip xFrame)
  | EWindowDefinition xName _ xExpr =>
      EWindowDefinition (strip xName) PZero (strip xExpr)
  | EWindowClause _ _ xWindows =>
      EWindowClause PZero PZero (map strip xWindows)
  | EWindowFrameClause _ xType_ xExtend =>
      EWindowFrameClause PZero xType_ (strip xExtend)
  | EWindowFrameExtendExpr xExpr xDirection _ =>
      EWindowFrameExtendExpr (strip xExpr) xDirection PZero
  | EBetweenClause xExpr xNot xBetween _ xAnd =>
      EBetweenClause (strip xExpr) xNot (strip xBetween) PZero (strip xAnd)
  | EWindowFrameCurrentRow _ _ =>
      EWindowFrameCurrentRow PZero PZero
  | EWindowFrameUnbounded _ _ xDirection =>
      EWindowFrameUnbounded PZero PZero xDirection
  | EWindowFrameNumber xNumber _ xDirection =>
      EWindowFrameNumber (strip xNumber) PZero xDirection
  | EWindowFrameParam xParam _ xDirection =>
      EWindowFrameParam (strip xParam) PZero xDirection
  | ESelectQuery _ _ xWith xTop xHasDistinct xDistinctOn xSelectItems xFrom xWindow xPrewhere xWhere xGroupBy xWithTotal xHaving xOrderBy xLimitBy xLimit xSettings xFormat xUnionAll xUnionDistinct xExcept xIntersect =>
      ESelectQuery PZero PZero (strip xWith) (strip xTop) xHasDistinct (strip xDistinctOn) (map strip xSelectItems) (strip xFrom) (strip xWindow) (strip xPrewhere) (strip xWhere) (strip xGroupBy) xWithTotal (strip xHaving) (strip xOrderBy) (strip xLimitBy) (strip xLimit) (strip xSettings) (strip xFormat) (strip xUnionAll) (strip xUnionDistinct) (strip xExcept) (strip xIntersect)
  | EDistinctOn xIdents _ _ =>
      EDistinctOn (map strip xIdents) PZero PZero
  | ESubQuery xHasParen xSelect =>
      ESubQuery xHasParen (strip xSelect)
  | ENotExpr _ xExpr =>
      ENotExpr PZero (strip xExpr)
  | ENegateExpr _ xExpr =>
      ENegateExpr PZero (strip xExpr)
  | EGlobalInOperation _ xExpr =>
      EGlobalInOperation PZero (strip xExpr)
  | EIntervalFrom xInterval _ xFromExpr =>
      EIntervalFrom (strip xInterval) PZero (strip xFromExpr)
  | EExtractExpr _ _ xParameters =>
      EExtractExpr PZero PZero (map strip xParameters)
  | EDropDatabase _ _ xName xIfExists xOnCluster xModifier =>
      EDropDatabase PZero PZero (strip xName) xIfExists (strip xOnCluster) xModifier
  | EDropStmt _ _ xDropTarget xName xIfExists xOnCluster xIsTemporary xModifier =>
      EDropStmt PZero PZero xDropTarget (strip xName) xIfExists (strip xOnCluster) xIsTemporary xModifier
  | EDropUserOrRole _ xTarget _ xNames xIfExists xModifier xFrom =>
      EDropUserOrRole PZero xTarget PZero (map strip xNames) xIfExists xModifier (strip xFrom)
  | EUseStmt _ _ xDatabase =>
      EUseStmt PZero PZero (strip xDatabase)
  | ECTEStmt _ xExpr xAlias =>
      ECTEStmt PZero (strip xExpr) (strip xAlias)
  | ESetStmt _ xSettings =>
      ESetStmt PZero (strip xSettings)
  | EFormatClause _ xFormat =>
      EFormatClause PZero (strip xFormat)
  | EOptimizeStmt _ _ xTable xOnCluster xPartition xHasFinal xDeduplicate =>
      EOptimizeStmt PZero PZero (strip xTable) (strip xOnCluster) (strip xPartition) xHasFinal (strip xDeduplicate)
  | EDeduplicateClause _ xBy xExcept =>
      EDeduplicateClause PZero (strip xBy) (strip xExcept)
  | ESystemStmt _ xExpr =>
      ESystemStmt PZero (strip xExpr)
  | ESystemFlushExpr _ _ xLogs xDistributed =>
      ESystemFlushExpr PZero PZero xLogs (strip xDistributed)
  | ESystemReloadExpr _ _ xOnCluster xDictionary xType_ =>
      ESystemReloadExpr PZero PZero (strip xOnCluster) (strip xDictionary) xType_
  | ESystemSyncExpr _ xCluster =>
      ESystemSyncExpr PZero (strip xCluster)
  | ESystemCtrlExpr _ _ xCommand xType_ xCluster =>
      ESystemCtrlExpr PZero PZero xCommand xType_ (strip xCluster)
  | ESystemDropExpr _ _ xType_ =>
      ESystemDropExpr PZero PZero xType_
  | ETruncateTable _ _ xIsTemporary xIfExists xName xOnCluster =>
      ETruncateTable PZero PZero xIsTemporary xIfExists (strip xName) (strip xOnCluster)
  | ESampleClause _ xRatio xOffset =>
      ESampleClause PZero (strip xRatio) (strip xOffset)
  | EDeleteClause _ xTable xOnCluster xWhereExpr =>
      EDeleteClause PZero (strip xTable) (strip xOnCluster) (strip xWhereExpr)
  | EColumnNamesExpr _ _ xColumnNames =>
      EColumnNamesExpr PZero PZero (map strip xColumnNames)
  | EAssignmentValues _ _ xValues =>
      EAssignmentValues PZero PZero (map strip xValues)
  | EInsertStmt _ xFormat xHasTableKeyword xTable xColumnNames xValues xSelectExpr =>
      EInsertStmt PZero (strip xFormat) xHasTableKeyword (strip xTable) (strip xColumnNames) (map strip xValues) (strip xSelectExpr)
  | ECheckStmt _ xTable xPartition =>
      ECheckStmt PZero (strip xTable) (strip xPartition)
  | EUnaryExpr _ xKind xExpr =>
      EUnaryExpr PZero xKind (strip xExpr)
  | ERenameStmt _ _ xRenameTarget xTargetPairList xOnCluster =>
      ERenameStmt PZero PZero xRenameTarget (map strip xTargetPairList) (strip xOnCluster)
  | ETargetPair xOld xNew =>
      ETargetPair (strip xOld) (strip xNew)
  | EExplainStmt _ xType_ xStatement =>
      EExplainStmt PZero xType_ (strip xStatement)
  | EPrivilegeClause _ _ xKeywords xParams =>
      EPrivilegeClause PZero PZero xKeywords (strip xParams)
  | EGrantPrivilegeStmt _ _ xOnCluster xPrivileges xOn xTo xWithOptions =>
      EGrantPrivilegeStmt PZero PZero (strip xOnCluster) (map strip xPrivileges) (strip xOn) (map strip xTo) xWithOptions
  | EShowStmt _ _ xShowType xTarget xNotLike xLikeType xLikePattern xLimit xOutFile xFormat =>
      EShowStmt PZero PZero xShowType (strip xTarget) xNotLike xLikeType (strip xLikePattern) (strip xLimit) (strip xOutFile) (strip xFormat)
  | EDescribeStmt _ _ xDescribeType xTarget =>
      EDescribeStmt PZero PZero xDescribeType (strip xTarget)
  end.
