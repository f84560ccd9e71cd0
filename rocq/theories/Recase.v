(** Spelling, for C24: the words whose letter case does not matter, in upper case. [fold] is generated from the struct
    definitions of parser/ast.go, as Ast.v is. *)
From Coq Require Import String List Arith Bool.
From Verif Require Import Str Keyword Ast.
Import ListNotations.
Local Open Scope string_scope.
Local Open Scope nat_scope.

(** The keywords that the parser compares byte by byte in some place:
    parser_query.go:359-360 ([ARRAY]), parse_system.go:439-462 ([NONE], [MIN], [MAX]), parse_system.go:814-822 ([ROLE], [DATABASE]). *)
Definition cased : list string := ["ARRAY"; "NONE"; "MIN"; "MAX"; "ROLE"; "DATABASE"].

(** A keyword other than these in upper case; any other string as it is. *)
Definition recase (s : string) : string := if is_keyword (upper s) && negb (str_in (upper s) cased) then upper s else s.

(** The tree with [recase] applied to the unquoted names and the other strings in which the parser records the spelling of a
    keyword: [fold t = fold u] says that [t] and [u] are the same tree, positions, literals and quoted names included, up to
    the letter case of names that spell a keyword and of recorded keywords. [QuoteType] is 1 for a name without quotes and 0 where none is set (lexer.go:50-55).
    SYSTEM DROP (parse_system.go:201-239) records two keywords in one string; SHOW DATABASES (parser_table.go:1681-1704) records
    a format name that may be a keyword as a string literal. *)
Fixpoint fold (e : expr) : expr :=
  match e with
  | ENil => ENil
  | ESelectItem xExpr xModifiers xAlias =>
      ESelectItem (fold xExpr) (map fold xModifiers) (fold xAlias)
  | EOperationExpr xOperationPos xKind =>
      EOperationExpr xOperationPos xKind
  | ETernaryOperation xCondition xTrueExpr xFalseExpr =>
      ETernaryOperation (fold xCondition) (fold xTrueExpr) (fold xFalseExpr)
  | EBinaryOperation xLeftExpr xOperation xRightExpr xHasGlobal xHasNot =>
      EBinaryOperation (fold xLeftExpr) xOperation (fold xRightExpr) xHasGlobal xHasNot
  | EIndexOperation xObject xOperation xIndex =>
      EIndexOperation (fold xObject) xOperation (fold xIndex)
  | EJoinTableExpr xTable xStatementEnd xSampleRatio xHasFinal =>
      EJoinTableExpr (fold xTable) xStatementEnd (fold xSampleRatio) xHasFinal
  | EAlterTable xAlterPos xStatementEnd xTableIdentifier xOnCluster xAlterExprs =>
      EAlterTable xAlterPos xStatementEnd (fold xTableIdentifier) (fold xOnCluster) (map fold xAlterExprs)
  | EAlterTableAttachPartition xAttachPos xPartition xFrom =>
      EAlterTableAttachPartition xAttachPos (fold xPartition) (fold xFrom)
  | EAlterTableDetachPartition xDetachPos xPartition xSettings =>
      EAlterTableDetachPartition xDetachPos (fold xPartition) (fold xSettings)
  | EAlterTableDropPartition xDropPos xHasDetached xPartition xSettings =>
      EAlterTableDropPartition xDropPos xHasDetached (fold xPartition) (fold xSettings)
  | EAlterTableMaterializeProjection xMaterializedPos xStatementEnd xIfExists xProjectionName xPartition =>
      EAlterTableMaterializeProjection xMaterializedPos xStatementEnd xIfExists (fold xProjectionName) (fold xPartition)
  | EAlterTableMaterializeIndex xMaterializedPos xStatementEnd xIfExists xIndexName xPartition =>
      EAlterTableMaterializeIndex xMaterializedPos xStatementEnd xIfExists (fold xIndexName) (fold xPartition)
  | EAlterTableFreezePartition xFreezePos xStatementEnd xPartition =>
      EAlterTableFreezePartition xFreezePos xStatementEnd (fold xPartition)
  | EAlterTableAddColumn xAddPos xStatementEnd xColumn xIfNotExists xAfter xSettings =>
      EAlterTableAddColumn xAddPos xStatementEnd (fold xColumn) xIfNotExists (fold xAfter) (fold xSettings)
  | EAlterTableAddIndex xAddPos xStatementEnd xIndex xIfNotExists xAfter =>
      EAlterTableAddIndex xAddPos xStatementEnd (fold xIndex) xIfNotExists (fold xAfter)
  | EProjectionOrderByClause xOrderByPos xColumns =>
      EProjectionOrderByClause xOrderByPos (fold xColumns)
  | EProjectionSelectStmt xLeftParenPos xRightParenPos xWith xSelectColumns xGroupBy xOrderBy =>
      EProjectionSelectStmt xLeftParenPos xRightParenPos (fold xWith) (fold xSelectColumns) (fold xGroupBy) (fold xOrderBy)
  | ETableProjection xIncludeProjectionKeyword xProjectionPos xIdentifier xSelect =>
      ETableProjection xIncludeProjectionKeyword xProjectionPos (fold xIdentifier) (fold xSelect)
  | EAlterTableAddProjection xAddPos xStatementEnd xIfNotExists xTableProjection xAfter =>
      EAlterTableAddProjection xAddPos xStatementEnd xIfNotExists (fold xTableProjection) (fold xAfter)
  | EAlterTableDropColumn xDropPos xColumnName xIfExists =>
      EAlterTableDropColumn xDropPos (fold xColumnName) xIfExists
  | EAlterTableDropIndex xDropPos xIndexName xIfExists =>
      EAlterTableDropIndex xDropPos (fold xIndexName) xIfExists
  | EAlterTableDropProjection xDropPos xProjectionName xIfExists =>
      EAlterTableDropProjection xDropPos (fold xProjectionName) xIfExists
  | EAlterTableRemoveTTL xRemovePos xStatementEnd => EAlterTableRemoveTTL xRemovePos xStatementEnd
  | EAlterTableClearColumn xClearPos xStatementEnd xIfExists xColumnName xPartitionExpr =>
      EAlterTableClearColumn xClearPos xStatementEnd xIfExists (fold xColumnName) (fold xPartitionExpr)
  | EAlterTableClearIndex xClearPos xStatementEnd xIfExists xIndexName xPartitionExpr =>
      EAlterTableClearIndex xClearPos xStatementEnd xIfExists (fold xIndexName) (fold xPartitionExpr)
  | EAlterTableClearProjection xClearPos xStatementEnd xIfExists xProjectionName xPartitionExpr =>
      EAlterTableClearProjection xClearPos xStatementEnd xIfExists (fold xProjectionName) (fold xPartitionExpr)
  | EAlterTableRenameColumn xRenamePos xIfExists xOldColumnName xNewColumnName =>
      EAlterTableRenameColumn xRenamePos xIfExists (fold xOldColumnName) (fold xNewColumnName)
  | EAlterTableModifyQuery xModifyPos xStatementEnd xSelectExpr =>
      EAlterTableModifyQuery xModifyPos xStatementEnd (fold xSelectExpr)
  | EAlterTableModifyOrderBy xModifyPos xStatementEnd xOrderBy =>
      EAlterTableModifyOrderBy xModifyPos xStatementEnd (fold xOrderBy)
  | EAlterTableModifyTTL xModifyPos xStatementEnd xTTL =>
      EAlterTableModifyTTL xModifyPos xStatementEnd (fold xTTL)
  | EAlterTableModifyColumn xModifyPos xStatementEnd xIfExists xColumn xRemovePropertyType =>
      EAlterTableModifyColumn xModifyPos xStatementEnd xIfExists (fold xColumn) (fold xRemovePropertyType)
  | EAlterTableModifySetting xModifyPos xStatementEnd xSettings =>
      EAlterTableModifySetting xModifyPos xStatementEnd (map fold xSettings)
  | EAlterTableResetSetting xResetPos xStatementEnd xSettings =>
      EAlterTableResetSetting xResetPos xStatementEnd (map fold xSettings)
  | EAlterTableReplacePartition xReplacePos xPartition xTable =>
      EAlterTableReplacePartition xReplacePos (fold xPartition) (fold xTable)
  | EAlterTableDelete xDeletePos xStatementEnd xWhereClause =>
      EAlterTableDelete xDeletePos xStatementEnd (fold xWhereClause)
  | EAlterTableUpdate xUpdatePos xStatementEnd xAssignments xInPartition xWhereClause =>
      EAlterTableUpdate xUpdatePos xStatementEnd (map fold xAssignments) (fold xInPartition) (fold xWhereClause)
  | EUpdateAssignment xAssignmentPos xColumn xExpr =>
      EUpdateAssignment xAssignmentPos (fold xColumn) (fold xExpr)
  | ERemovePropertyType xRemovePos xPropertyType =>
      ERemovePropertyType xRemovePos (fold xPropertyType)
  | ETableIndex xIndexPos xName xColumnExpr xColumnType xGranularity =>
      ETableIndex xIndexPos (fold xName) (fold xColumnExpr) (fold xColumnType) (fold xGranularity)
  | EIdent xName xQuoteType xNamePos xNameEnd =>
      EIdent (if xQuoteType <=? 1 then recase xName else xName) xQuoteType xNamePos xNameEnd
  | EUUID xValue =>
      EUUID (fold xValue)
  | ECreateDatabase xCreatePos xStatementEnd xName xIfNotExists xOnCluster xEngine xComment =>
      ECreateDatabase xCreatePos xStatementEnd (fold xName) xIfNotExists (fold xOnCluster) (fold xEngine) (fold xComment)
  | ECreateTable xCreatePos xStatementEnd xOrReplace xName xIfNotExists xUUID xOnCluster xTableSchema xEngine xSubQuery xTableFunction xHasTemporary xComment =>
      ECreateTable xCreatePos xStatementEnd xOrReplace (fold xName) xIfNotExists (fold xUUID) (fold xOnCluster) (fold xTableSchema) (fold xEngine) (fold xSubQuery) (fold xTableFunction) xHasTemporary (fold xComment)
  | ECreateMaterializedView xCreatePos xStatementEnd xName xIfNotExists xOnCluster xRefresh xRandomizeFor xDependsOn xSettings xHasAppend xEngine xTableSchema xHasEmpty xDestination xSubQuery xPopulate xComment xDefiner xSQLSecurity =>
      ECreateMaterializedView xCreatePos xStatementEnd (fold xName) xIfNotExists (fold xOnCluster) (fold xRefresh) (fold xRandomizeFor) (map fold xDependsOn) (fold xSettings) xHasAppend (fold xEngine) (fold xTableSchema) xHasEmpty (fold xDestination) (fold xSubQuery) xPopulate (fold xComment) (fold xDefiner) (recase xSQLSecurity)
  | ECreateView xCreatePos xStatementEnd xOrReplace xName xIfNotExists xUUID xOnCluster xTableSchema xComment xSubQuery =>
      ECreateView xCreatePos xStatementEnd xOrReplace (fold xName) xIfNotExists (fold xUUID) (fold xOnCluster) (fold xTableSchema) (fold xComment) (fold xSubQuery)
  | ECreateFunction xCreatePos xOrReplace xIfNotExists xFunctionName xOnCluster xParams xExpr =>
      ECreateFunction xCreatePos xOrReplace xIfNotExists (fold xFunctionName) (fold xOnCluster) (fold xParams) (fold xExpr)
  | ERoleName xName xScope xOnCluster =>
      ERoleName (fold xName) (fold xScope) (fold xOnCluster)
  | ESettingPair xName xOperation xValue =>
      ESettingPair (fold xName) xOperation (fold xValue)
  | ERoleSetting xSettingPairs xModifier =>
      ERoleSetting (map fold xSettingPairs) (fold xModifier)
  | ECreateRole xCreatePos xStatementEnd xIfNotExists xOrReplace xRoleNames xAccessStorageType xSettings =>
      ECreateRole xCreatePos xStatementEnd xIfNotExists xOrReplace (map fold xRoleNames) (fold xAccessStorageType) (map fold xSettings)
  | EAuthenticationClause xAuthPos xAuthEnd xNotIdentified xAuthType xAuthValue xLdapServer xKerberosRealm xIsKerberos =>
      EAuthenticationClause xAuthPos xAuthEnd xNotIdentified (recase xAuthType) (fold xAuthValue) (fold xLdapServer) (fold xKerberosRealm) xIsKerberos
  | EHostClause xHostPos xHostEnd xHostType xHostValue =>
      EHostClause xHostPos xHostEnd (recase xHostType) (fold xHostValue)
  | EDefaultRoleClause xDefaultPos xDefaultEnd xRoles xNone =>
      EDefaultRoleClause xDefaultPos xDefaultEnd (map fold xRoles) xNone
  | EGranteesClause xGranteesPos xGranteesEnd xGrantees xExceptUsers xAny xNone =>
      EGranteesClause xGranteesPos xGranteesEnd (map fold xGrantees) (map fold xExceptUsers) xAny xNone
  | ECreateUser xCreatePos xStatementEnd xIfNotExists xOrReplace xUserNames xAuthentication xValidUntil xHosts xDefaultRole xDefaultDatabase xDefaultDbNone xGrantees xSettings =>
      ECreateUser xCreatePos xStatementEnd xIfNotExists xOrReplace (map fold xUserNames) (fold xAuthentication) (fold xValidUntil) (map fold xHosts) (fold xDefaultRole) (fold xDefaultDatabase) xDefaultDbNone (fold xGrantees) (map fold xSettings)
  | EAlterRole xAlterPos xStatementEnd xIfExists xRoleRenamePairs xSettings =>
      EAlterRole xAlterPos xStatementEnd xIfExists (map fold xRoleRenamePairs) (map fold xSettings)
  | ERoleRenamePair xRoleName xNewName xStatementEnd =>
      ERoleRenamePair (fold xRoleName) (fold xNewName) xStatementEnd
  | EDestinationClause xToPos xTableIdentifier xTableSchema =>
      EDestinationClause xToPos (fold xTableIdentifier) (fold xTableSchema)
  | EConstraintClause xConstraintPos xConstraint xExpr =>
      EConstraintClause xConstraintPos (fold xConstraint) (fold xExpr)
  | ENullLiteral xNullPos => ENullLiteral xNullPos
  | ENotNullLiteral xNotPos xNullLiteral =>
      ENotNullLiteral xNotPos (fold xNullLiteral)
  | ENestedIdentifier xIdent xDotIdent =>
      ENestedIdentifier (fold xIdent) (fold xDotIdent)
  | EPath xFields =>
      EPath (map fold xFields)
  | ETableIdentifier xDatabase xTable =>
      ETableIdentifier (fold xDatabase) (fold xTable)
  | ETableSchemaClause xSchemaPos xSchemaEnd xColumns xAliasTable xTableFunction =>
      ETableSchemaClause xSchemaPos xSchemaEnd (map fold xColumns) (fold xAliasTable) (fold xTableFunction)
  | ETableArgListExpr xLeftParenPos xRightParenPos xArgs =>
      ETableArgListExpr xLeftParenPos xRightParenPos (map fold xArgs)
  | ETableFunctionExpr xName xArgs =>
      ETableFunctionExpr (fold xName) (fold xArgs)
  | EClusterClause xOnPos xExpr =>
      EClusterClause xOnPos (fold xExpr)
  | EPartitionClause xPartitionPos xExpr xID xAll =>
      EPartitionClause xPartitionPos (fold xExpr) (fold xID) xAll
  | EPartitionByClause xPartitionPos xExpr =>
      EPartitionByClause xPartitionPos (fold xExpr)
  | EPrimaryKeyClause xPrimaryPos xExpr =>
      EPrimaryKeyClause xPrimaryPos (fold xExpr)
  | ESampleByClause xSamplePos xExpr =>
      ESampleByClause xSamplePos (fold xExpr)
  | ETTLPolicyRuleAction xActionPos xActionEnd xAction xCodec =>
      ETTLPolicyRuleAction xActionPos xActionEnd xAction (fold xCodec)
  | ERefreshExpr xRefreshPos xFrequency xInterval xOffset =>
      ERefreshExpr xRefreshPos (recase xFrequency) (fold xInterval) (fold xOffset)
  | ETTLPolicyRule xRulePos xToVolume xToDisk xAction =>
      ETTLPolicyRule xRulePos (fold xToVolume) (fold xToDisk) (fold xAction)
  | ETTLPolicy xItem xWhere xGroupBy =>
      ETTLPolicy (fold xItem) (fold xWhere) (fold xGroupBy)
  | ETTLExpr xTTLPos xExpr xPolicy =>
      ETTLExpr xTTLPos (fold xExpr) (fold xPolicy)
  | ETTLClause xTTLPos xListEnd xItems =>
      ETTLClause xTTLPos xListEnd (map fold xItems)
  | EFill xFillPos xFrom xTo xStep xStaleness =>
      EFill xFillPos (fold xFrom) (fold xTo) (fold xStep) (fold xStaleness)
  | EOrderExpr xOrderPos xExpr xAlias xDirection xFill =>
      EOrderExpr xOrderPos (fold xExpr) (fold xAlias) xDirection (fold xFill)
  | EInterpolateItem xColumn xExpr =>
      EInterpolateItem (fold xColumn) (fold xExpr)
  | EInterpolateClause xInterpolatePos xListEnd xItems =>
      EInterpolateClause xInterpolatePos xListEnd (map fold xItems)
  | EOrderByClause xOrderPos xListEnd xItems xInterpolate =>
      EOrderByClause xOrderPos xListEnd (map fold xItems) (fold xInterpolate)
  | ESettingExpr xSettingsPos xName xExpr =>
      ESettingExpr xSettingsPos (fold xName) (fold xExpr)
  | ESettingsClause xSettingsPos xListEnd xItems =>
      ESettingsClause xSettingsPos xListEnd (map fold xItems)
  | EParamExprList xLeftParenPos xRightParenPos xItems xColumnArgList =>
      EParamExprList xLeftParenPos xRightParenPos (fold xItems) (fold xColumnArgList)
  | EKeyValue xKey xValue =>
      EKeyValue (fold xKey) (fold xValue)
  | EMapLiteral xLBracePos xRBracePos xKeyValues =>
      EMapLiteral xLBracePos xRBracePos (map fold xKeyValues)
  | ENamedParameterExpr xNamePos xName xValue =>
      ENamedParameterExpr xNamePos (fold xName) (fold xValue)
  | EQueryParam xLBracePos xRBracePos xName xType_ =>
      EQueryParam xLBracePos xRBracePos (fold xName) (fold xType_)
  | EArrayParamList xLeftBracketPos xRightBracketPos xItems =>
      EArrayParamList xLeftBracketPos xRightBracketPos (fold xItems)
  | EObjectParams xObject xParams =>
      EObjectParams (fold xObject) (fold xParams)
  | EFunctionExpr xName xParams =>
      EFunctionExpr (fold xName) (fold xParams)
  | EWindowFunctionExpr xFunction xOverPos xOverExpr =>
      EWindowFunctionExpr (fold xFunction) xOverPos (fold xOverExpr)
  | ETypedPlaceholder xLeftBracePos xRightBracePos xName xType_ =>
      ETypedPlaceholder xLeftBracePos xRightBracePos (fold xName) (fold xType_)
  | EColumnExpr xExpr xAlias =>
      EColumnExpr (fold xExpr) (fold xAlias)
  | EColumnDef xNamePos xColumnEnd xName xType_ xNotNull xNullable xDefaultExpr xMaterializedExpr xAliasExpr xCodec xTTL xComment xCompressionCodec =>
      EColumnDef xNamePos xColumnEnd (fold xName) (fold xType_) (fold xNotNull) (fold xNullable) (fold xDefaultExpr) (fold xMaterializedExpr) (fold xAliasExpr) (fold xCodec) (fold xTTL) (fold xComment) (fold xCompressionCodec)
  | EScalarType xName =>
      EScalarType (fold xName)
  | EJSONPath xIdents =>
      EJSONPath (map fold xIdents)
  | EJSONTypeHint xPath xType_ =>
      EJSONTypeHint (fold xPath) (fold xType_)
  | EJSONOption xSkipPath xSkipRegex xMaxDynamicPaths xMaxDynamicTypes xColumn =>
      EJSONOption (fold xSkipPath) (fold xSkipRegex) (fold xMaxDynamicPaths) (fold xMaxDynamicTypes) (fold xColumn)
  | EJSONOptions xLParen xRParen xItems =>
      EJSONOptions xLParen xRParen (map fold xItems)
  | EJSONType xName xOptions =>
      EJSONType (fold xName) (fold xOptions)
  | EPropertyType xName =>
      EPropertyType (fold xName)
  | ETypeWithParams xLeftParenPos xRightParenPos xName xParams =>
      ETypeWithParams xLeftParenPos xRightParenPos (fold xName) (map fold xParams)
  | EComplexType xLeftParenPos xRightParenPos xName xParams =>
      EComplexType xLeftParenPos xRightParenPos (fold xName) (map fold xParams)
  | ENestedType xLeftParenPos xRightParenPos xName xColumns =>
      ENestedType xLeftParenPos xRightParenPos (fold xName) (map fold xColumns)
  | ECompressionCodec xCodecPos xRightParenPos xType_ xTypeLevel xName xLevel =>
      ECompressionCodec xCodecPos xRightParenPos (fold xType_) (fold xTypeLevel) (fold xName) (fold xLevel)
  | ENumberLiteral xNumPos xNumEnd xLiteral xBase =>
      ENumberLiteral xNumPos xNumEnd xLiteral xBase
  | EStringLiteral xLiteralPos xLiteralEnd xLiteral =>
      EStringLiteral xLiteralPos xLiteralEnd xLiteral
  | EBoolLiteral xLiteralPos xLiteralEnd xLiteral =>
      EBoolLiteral xLiteralPos xLiteralEnd (recase xLiteral)
  | EPlaceHolder xPlaceholderPos xPlaceHolderEnd xType_ =>
      EPlaceHolder xPlaceholderPos xPlaceHolderEnd xType_
  | ERatioExpr xNumerator xDenominator =>
      ERatioExpr (fold xNumerator) (fold xDenominator)
  | EEnumValue xName xValue =>
      EEnumValue (fold xName) (fold xValue)
  | EEnumType xName xListPos xListEnd xValues =>
      EEnumType (fold xName) xListPos xListEnd (map fold xValues)
  | EIntervalExpr xIntervalPos xExpr xUnit =>
      EIntervalExpr xIntervalPos (fold xExpr) (fold xUnit)
  | EEngineExpr xEnginePos xEngineEnd xName xParams xPrimaryKey xPartitionBy xSampleBy xTTL xSettings xOrderBy =>
      EEngineExpr xEnginePos xEngineEnd (recase xName) (fold xParams) (fold xPrimaryKey) (fold xPartitionBy) (fold xSampleBy) (fold xTTL) (fold xSettings) (fold xOrderBy)
  | EColumnTypeExpr xName =>
      EColumnTypeExpr (fold xName)
  | EColumnArgList xDistinct xLeftParenPos xRightParenPos xItems =>
      EColumnArgList xDistinct xLeftParenPos xRightParenPos (map fold xItems)
  | EColumnExprList xListPos xListEnd xHasDistinct xItems =>
      EColumnExprList xListPos xListEnd xHasDistinct (map fold xItems)
  | EWhenClause xWhenPos xThenPos xWhen xThen xElsePos xElse =>
      EWhenClause xWhenPos xThenPos (fold xWhen) (fold xThen) xElsePos (fold xElse)
  | ECaseExpr xCasePos xEndPos xExpr xWhens xElsePos xElse =>
      ECaseExpr xCasePos xEndPos (fold xExpr) (map fold xWhens) xElsePos (fold xElse)
  | ECastExpr xCastPos xExpr xSeparator xAsPos xAsType =>
      ECastExpr xCastPos (fold xExpr) (recase xSeparator) xAsPos (fold xAsType)
  | EWithClause xWithPos xEndPos xCTEs =>
      EWithClause xWithPos xEndPos (map fold xCTEs)
  | ETopClause xTopPos xTopEnd xNumber xWithTies =>
      ETopClause xTopPos xTopEnd (fold xNumber) xWithTies
  | ECreateLiveView xCreatePos xStatementEnd xName xIfNotExists xUUID xOnCluster xDestination xTableSchema xWithTimeout xSubQuery =>
      ECreateLiveView xCreatePos xStatementEnd (fold xName) xIfNotExists (fold xUUID) (fold xOnCluster) (fold xDestination) (fold xTableSchema) (fold xWithTimeout) (fold xSubQuery)
  | ECreateDictionary xCreatePos xStatementEnd xOrReplace xName xIfNotExists xUUID xOnCluster xSchema xEngine xComment =>
      ECreateDictionary xCreatePos xStatementEnd xOrReplace (fold xName) xIfNotExists (fold xUUID) (fold xOnCluster) (fold xSchema) (fold xEngine) (fold xComment)
  | ECreateNamedCollection xCreatePos xStatementEnd xName xIfNotExists xOnCluster xParams =>
      ECreateNamedCollection xCreatePos xStatementEnd (fold xName) xIfNotExists (fold xOnCluster) (map fold xParams)
  | ENamedCollectionParam xParamPos xName xValue xOverridable xNotOverridable =>
      ENamedCollectionParam xParamPos (fold xName) (fold xValue) xOverridable xNotOverridable
  | EDictionarySchemaClause xSchemaPos xAttributes xRParenPos =>
      EDictionarySchemaClause xSchemaPos (map fold xAttributes) xRParenPos
  | EDictionaryAttribute xNamePos xAttrEnd xName xType_ xDefault xExpression xHierarchical xInjective xIsObjectId =>
      EDictionaryAttribute xNamePos xAttrEnd (fold xName) (fold xType_) (fold xDefault) (fold xExpression) xHierarchical xInjective xIsObjectId
  | EDictionaryEngineClause xEnginePos xPrimaryKey xSource xLifetime xLayout xRange xSettings =>
      EDictionaryEngineClause xEnginePos (fold xPrimaryKey) (fold xSource) (fold xLifetime) (fold xLayout) (fold xRange) (fold xSettings)
  | EDictionaryPrimaryKeyClause xPrimaryKeyPos xKeys xRParenPos =>
      EDictionaryPrimaryKeyClause xPrimaryKeyPos (fold xKeys) xRParenPos
  | EDictionarySourceClause xSourcePos xSource xArgs xRParenPos =>
      EDictionarySourceClause xSourcePos (fold xSource) (map fold xArgs) xRParenPos
  | EDictionaryArgExpr xArgPos xName xValue xArgs xLParenPos xRParenPos =>
      EDictionaryArgExpr xArgPos (fold xName) (fold xValue) (map fold xArgs) xLParenPos xRParenPos
  | EDictionaryLifetimeClause xLifetimePos xMin xMax xValue xRParenPos =>
      EDictionaryLifetimeClause xLifetimePos (fold xMin) (fold xMax) (fold xValue) xRParenPos
  | EDictionaryLayoutClause xLayoutPos xLayout xArgs xRParenPos =>
      EDictionaryLayoutClause xLayoutPos (fold xLayout) (map fold xArgs) xRParenPos
  | EDictionaryRangeClause xRangePos xMin xMax xRParenPos =>
      EDictionaryRangeClause xRangePos (fold xMin) (fold xMax) xRParenPos
  | EWithTimeoutClause xWithTimeoutPos xExpr xNumber =>
      EWithTimeoutClause xWithTimeoutPos (fold xExpr) (fold xNumber)
  | ETableExpr xTablePos xTableEnd xAlias xExpr xHasFinal =>
      ETableExpr xTablePos xTableEnd (fold xAlias) (fold xExpr) xHasFinal
  | EOnClause xOnPos xOn =>
      EOnClause xOnPos (fold xOn)
  | EUsingClause xUsingPos xUsing =>
      EUsingClause xUsingPos (fold xUsing)
  | EJoinExpr xJoinPos xLeft xRight xModifiers xConstraints =>
      EJoinExpr xJoinPos (fold xLeft) (fold xRight) (map recase xModifiers) (fold xConstraints)
  | EJoinConstraintClause xConstraintPos xOn xUsing =>
      EJoinConstraintClause xConstraintPos (fold xOn) (fold xUsing)
  | EFromClause xFromPos xExpr =>
      EFromClause xFromPos (fold xExpr)
  | EIsNullExpr xIsPos xNullEnd xExpr =>
      EIsNullExpr xIsPos xNullEnd (fold xExpr)
  | EIsNotNullExpr xIsPos xNullEnd xExpr =>
      EIsNotNullExpr xIsPos xNullEnd (fold xExpr)
  | EAliasExpr xExpr xAliasPos xAlias =>
      EAliasExpr (fold xExpr) xAliasPos (fold xAlias)
  | EWhereClause xWherePos xExpr =>
      EWhereClause xWherePos (fold xExpr)
  | EPrewhereClause xPrewherePos xExpr =>
      EPrewhereClause xPrewherePos (fold xExpr)
  | EGroupByClause xGroupByPos xGroupByEnd xAggregateType xExpr xWithCube xWithRollup xWithTotals =>
      EGroupByClause xGroupByPos xGroupByEnd (recase xAggregateType) (fold xExpr) xWithCube xWithRollup xWithTotals
  | EHavingClause xHavingPos xExpr =>
      EHavingClause xHavingPos (fold xExpr)
  | ELimitClause xLimitPos xLimit xOffset =>
      ELimitClause xLimitPos (fold xLimit) (fold xOffset)
  | ELimitByClause xLimit xByExpr =>
      ELimitByClause (fold xLimit) (fold xByExpr)
  | EWindowExpr xLeftParenPos xRightParenPos xWindowName xPartitionBy xOrderBy xFrame =>
      EWindowExpr xLeftParenPos xRightParenPos (fold xWindowName) (fold xPartitionBy) (fold xOrderBy) (fold xFrame)
  | EWindowDefinition xName xAsPos xExpr =>
      EWindowDefinition (fold xName) xAsPos (fold xExpr)
  | EWindowClause xWindowPos xEndPos xWindows =>
      EWindowClause xWindowPos xEndPos (map fold xWindows)
  | EWindowFrameClause xFramePos xType_ xExtend =>
      EWindowFrameClause xFramePos (recase xType_) (fold xExtend)
  | EWindowFrameExtendExpr xExpr xDirection xEndPos =>
      EWindowFrameExtendExpr (fold xExpr) (recase xDirection) xEndPos
  | EBetweenClause xExpr xNot xBetween xAndPos xAnd =>
      EBetweenClause (fold xExpr) xNot (fold xBetween) xAndPos (fold xAnd)
  | EWindowFrameCurrentRow xCurrentPos xRowEnd => EWindowFrameCurrentRow xCurrentPos xRowEnd
  | EWindowFrameUnbounded xUnboundedPos xUnboundedEnd xDirection =>
      EWindowFrameUnbounded xUnboundedPos xUnboundedEnd (recase xDirection)
  | EWindowFrameNumber xNumber xEndPos xDirection =>
      EWindowFrameNumber (fold xNumber) xEndPos (recase xDirection)
  | EWindowFrameParam xParam xEndPos xDirection =>
      EWindowFrameParam (fold xParam) xEndPos (recase xDirection)
  | ESelectQuery xSelectPos xStatementEnd xWith xTop xHasDistinct xDistinctOn xSelectItems xFrom xWindow xPrewhere xWhere xGroupBy xWithTotal xHaving xOrderBy xLimitBy xLimit xSettings xFormat xUnionAll xUnionDistinct xExcept xIntersect =>
      ESelectQuery xSelectPos xStatementEnd (fold xWith) (fold xTop) xHasDistinct (fold xDistinctOn) (map fold xSelectItems) (fold xFrom) (fold xWindow) (fold xPrewhere) (fold xWhere) (fold xGroupBy) xWithTotal (fold xHaving) (fold xOrderBy) (fold xLimitBy) (fold xLimit) (fold xSettings) (fold xFormat) (fold xUnionAll) (fold xUnionDistinct) (fold xExcept) (fold xIntersect)
  | EDistinctOn xIdents xDistinctOnPos xDistinctOnEnd =>
      EDistinctOn (map fold xIdents) xDistinctOnPos xDistinctOnEnd
  | ESubQuery xHasParen xSelect =>
      ESubQuery xHasParen (fold xSelect)
  | ENotExpr xNotPos xExpr =>
      ENotExpr xNotPos (fold xExpr)
  | ENegateExpr xNegatePos xExpr =>
      ENegateExpr xNegatePos (fold xExpr)
  | EGlobalInOperation xGlobalPos xExpr =>
      EGlobalInOperation xGlobalPos (fold xExpr)
  | EIntervalFrom xInterval xFromPos xFromExpr =>
      EIntervalFrom (fold xInterval) xFromPos (fold xFromExpr)
  | EExtractExpr xExtractPos xExtractEnd xParameters =>
      EExtractExpr xExtractPos xExtractEnd (map fold xParameters)
  | EDropDatabase xDropPos xStatementEnd xName xIfExists xOnCluster xModifier =>
      EDropDatabase xDropPos xStatementEnd (fold xName) xIfExists (fold xOnCluster) (recase xModifier)
  | EDropStmt xDropPos xStatementEnd xDropTarget xName xIfExists xOnCluster xIsTemporary xModifier =>
      EDropStmt xDropPos xStatementEnd (recase xDropTarget) (fold xName) xIfExists (fold xOnCluster) xIsTemporary (recase xModifier)
  | EDropUserOrRole xDropPos xTarget xStatementEnd xNames xIfExists xModifier xFrom =>
      EDropUserOrRole xDropPos (recase xTarget) xStatementEnd (map fold xNames) xIfExists (recase xModifier) (fold xFrom)
  | EUseStmt xUsePos xStatementEnd xDatabase =>
      EUseStmt xUsePos xStatementEnd (fold xDatabase)
  | ECTEStmt xCTEPos xExpr xAlias =>
      ECTEStmt xCTEPos (fold xExpr) (fold xAlias)
  | ESetStmt xSetPos xSettings =>
      ESetStmt xSetPos (fold xSettings)
  | EFormatClause xFormatPos xFormat =>
      EFormatClause xFormatPos (fold xFormat)
  | EOptimizeStmt xOptimizePos xStatementEnd xTable xOnCluster xPartition xHasFinal xDeduplicate =>
      EOptimizeStmt xOptimizePos xStatementEnd (fold xTable) (fold xOnCluster) (fold xPartition) xHasFinal (fold xDeduplicate)
  | EDeduplicateClause xDeduplicatePos xBy xExcept =>
      EDeduplicateClause xDeduplicatePos (fold xBy) (fold xExcept)
  | ESystemStmt xSystemPos xExpr =>
      ESystemStmt xSystemPos (fold xExpr)
  | ESystemFlushExpr xFlushPos xStatementEnd xLogs xDistributed =>
      ESystemFlushExpr xFlushPos xStatementEnd xLogs (fold xDistributed)
  | ESystemReloadExpr xReloadPos xStatementEnd xOnCluster xDictionary xType_ =>
      ESystemReloadExpr xReloadPos xStatementEnd (fold xOnCluster) (fold xDictionary) (recase xType_)
  | ESystemSyncExpr xSyncPos xCluster =>
      ESystemSyncExpr xSyncPos (fold xCluster)
  | ESystemCtrlExpr xCtrlPos xStatementEnd xCommand xType_ xCluster =>
      ESystemCtrlExpr xCtrlPos xStatementEnd xCommand xType_ (fold xCluster)
  | ESystemDropExpr xDropPos xStatementEnd xType_ =>
      ESystemDropExpr xDropPos xStatementEnd (upper xType_)
  | ETruncateTable xTruncatePos xStatementEnd xIsTemporary xIfExists xName xOnCluster =>
      ETruncateTable xTruncatePos xStatementEnd xIsTemporary xIfExists (fold xName) (fold xOnCluster)
  | ESampleClause xSamplePos xRatio xOffset =>
      ESampleClause xSamplePos (fold xRatio) (fold xOffset)
  | EDeleteClause xDeletePos xTable xOnCluster xWhereExpr =>
      EDeleteClause xDeletePos (fold xTable) (fold xOnCluster) (fold xWhereExpr)
  | EColumnNamesExpr xLeftParenPos xRightParenPos xColumnNames =>
      EColumnNamesExpr xLeftParenPos xRightParenPos (map fold xColumnNames)
  | EAssignmentValues xLeftParenPos xRightParenPos xValues =>
      EAssignmentValues xLeftParenPos xRightParenPos (map fold xValues)
  | EInsertStmt xInsertPos xFormat xHasTableKeyword xTable xColumnNames xValues xSelectExpr =>
      EInsertStmt xInsertPos (fold xFormat) xHasTableKeyword (fold xTable) (fold xColumnNames) (map fold xValues) (fold xSelectExpr)
  | ECheckStmt xCheckPos xTable xPartition =>
      ECheckStmt xCheckPos (fold xTable) (fold xPartition)
  | EUnaryExpr xUnaryPos xKind xExpr =>
      EUnaryExpr xUnaryPos xKind (fold xExpr)
  | ERenameStmt xRenamePos xStatementEnd xRenameTarget xTargetPairList xOnCluster =>
      ERenameStmt xRenamePos xStatementEnd (recase xRenameTarget) (map fold xTargetPairList) (fold xOnCluster)
  | ETargetPair xOld xNew =>
      ETargetPair (fold xOld) (fold xNew)
  | EExplainStmt xExplainPos xType_ xStatement =>
      EExplainStmt xExplainPos (recase xType_) (fold xStatement)
  | EPrivilegeClause xPrivilegePos xPrivilegeEnd xKeywords xParams =>
      EPrivilegeClause xPrivilegePos xPrivilegeEnd (map recase xKeywords) (fold xParams)
  | EGrantPrivilegeStmt xGrantPos xStatementEnd xOnCluster xPrivileges xOn xTo xWithOptions =>
      EGrantPrivilegeStmt xGrantPos xStatementEnd (fold xOnCluster) (map fold xPrivileges) (fold xOn) (map fold xTo) (map recase xWithOptions)
  | EShowStmt xShowPos xStatementEnd xShowType xTarget xNotLike xLikeType xLikePattern xLimit xOutFile xFormat =>
      EShowStmt xShowPos xStatementEnd (recase xShowType) (fold xTarget) xNotLike (recase xLikeType) (fold xLikePattern) (fold xLimit) (fold xOutFile) (match xFormat with EStringLiteral a b s => EStringLiteral a b (recase s) | _ => fold xFormat end)
  | EDescribeStmt xDescribePos xStatementEnd xDescribeType xTarget =>
      EDescribeStmt xDescribePos xStatementEnd (recase xDescribeType) (fold xTarget)
  end.
