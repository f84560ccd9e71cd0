(** The [Pos] and [End] methods of the syntax tree. Generated from the method
    bodies of parser/ast.go; the line of each method is cited at its case. [None]
    is a nil dereference (or an index out of range), that is a Go panic, or a
    node type without the method. Comparisons of a position with 0 become a test
    for the unassigned [PZero]: the fields concerned are never assigned offset 0,
    because a keyword precedes them. *)
From Coq Require Import String List ZArith Bool.
From Verif Require Import Str Ast.
Import ListNotations.
Local Open Scope Z_scope.

Definition is_nil (e : expr) : bool := match e with ENil => true | _ => false end.
Definition is_pzero (p : pos) : bool := match p with PZero => true | _ => false end.
Definition is_empty {A} (l : list A) : bool := match l with [] => true | _ => false end.

Fixpoint pos_of (e : expr) : option pos :=
  match e with
  | ESelectItem Expr _ _ => (* ast.go:30-32 *)
      pos_of Expr
  | EOperationExpr OperationPos _ => (* ast.go:68-70 *)
      Some OperationPos
  | ETernaryOperation Condition _ _ => (* ast.go:88-90 *)
      pos_of Condition
  | EBinaryOperation LeftExpr _ _ _ _ => (* ast.go:119-121 *)
      pos_of LeftExpr
  | EIndexOperation Object _ _ => (* ast.go:157-159 *)
      pos_of Object
  | EJoinTableExpr Table _ _ _ => (* ast.go:186-188 *)
      pos_of Table
  | EAlterTable AlterPos _ _ _ _ => (* ast.go:207-209 *)
      Some AlterPos
  | EAlterTableAttachPartition AttachPos _ _ => (* ast.go:246-248 *)
      Some AttachPos
  | EAlterTableDetachPartition DetachPos _ _ => (* ast.go:281-283 *)
      Some DetachPos
  | EAlterTableDropPartition DropPos _ _ _ => (* ast.go:314-316 *)
      Some DropPos
  | EAlterTableMaterializeProjection MaterializedPos _ _ _ _ => (* ast.go:351-353 *)
      Some MaterializedPos
  | EAlterTableMaterializeIndex MaterializedPos _ _ _ _ => (* ast.go:385-387 *)
      Some MaterializedPos
  | EAlterTableFreezePartition FreezePos _ _ => (* ast.go:417-419 *)
      Some FreezePos
  | EAlterTableAddColumn AddPos _ _ _ _ _ => (* ast.go:450-452 *)
      Some AddPos
  | EAlterTableAddIndex AddPos _ _ _ _ => (* ast.go:493-495 *)
      Some AddPos
  | EProjectionOrderByClause OrderByPos _ => (* ast.go:524-526 *)
      Some OrderByPos
  | EProjectionSelectStmt LeftParenPos _ _ _ _ _ => (* ast.go:552-555 *)
      Some LeftParenPos
  | ETableProjection _ ProjectionPos _ _ => (* ast.go:592-594 *)
      Some ProjectionPos
  | EAlterTableAddProjection AddPos _ _ _ _ => (* ast.go:621-623 *)
      Some AddPos
  | EAlterTableDropColumn DropPos _ _ => (* ast.go:653-655 *)
      Some DropPos
  | EAlterTableDropIndex DropPos _ _ => (* ast.go:680-682 *)
      Some DropPos
  | EAlterTableDropProjection DropPos _ _ => (* ast.go:707-709 *)
      Some DropPos
  | EAlterTableRemoveTTL RemovePos _ => (* ast.go:733-735 *)
      Some RemovePos
  | EAlterTableClearColumn ClearPos _ _ _ _ => (* ast.go:760-762 *)
      Some ClearPos
  | EAlterTableClearIndex ClearPos _ _ _ _ => (* ast.go:795-797 *)
      Some ClearPos
  | EAlterTableClearProjection ClearPos _ _ _ _ => (* ast.go:830-832 *)
      Some ClearPos
  | EAlterTableRenameColumn RenamePos _ _ _ => (* ast.go:864-866 *)
      Some RenamePos
  | EAlterTableModifyQuery ModifyPos _ _ => (* ast.go:894-896 *)
      Some ModifyPos
  | EAlterTableModifyOrderBy ModifyPos _ _ => (* ast.go:921-923 *)
      Some ModifyPos
  | EAlterTableModifyTTL ModifyPos _ _ => (* ast.go:948-950 *)
      Some ModifyPos
  | EAlterTableModifyColumn ModifyPos _ _ _ _ => (* ast.go:978-980 *)
      Some ModifyPos
  | EAlterTableModifySetting ModifyPos _ _ => (* ast.go:1010-1012 *)
      Some ModifyPos
  | EAlterTableResetSetting ResetPos _ _ => (* ast.go:1039-1041 *)
      Some ResetPos
  | EAlterTableReplacePartition ReplacePos _ _ => (* ast.go:1068-1070 *)
      Some ReplacePos
  | EAlterTableDelete DeletePos _ _ => (* ast.go:1098-1100 *)
      Some DeletePos
  | EAlterTableUpdate UpdatePos _ _ _ _ => (* ast.go:1127-1129 *)
      Some UpdatePos
  | EUpdateAssignment AssignmentPos _ _ => (* ast.go:1164-1166 *)
      Some AssignmentPos
  | ERemovePropertyType RemovePos _ => (* ast.go:1190-1192 *)
      Some RemovePos
  | ETableIndex IndexPos _ _ _ _ => (* ast.go:1216-1218 *)
      Some IndexPos
  | EIdent _ _ NamePos _ => (* ast.go:1249-1251 *)
      Some NamePos
  | EUUID Value => (* ast.go:1267-1269 *)
      match Value with EStringLiteral v _ _ => Some v | _ => None end
  | ECreateDatabase CreatePos _ _ _ _ _ _ => (* ast.go:1296-1298 *)
      Some CreatePos
  | ECreateTable CreatePos _ _ _ _ _ _ _ _ _ _ _ _ => (* ast.go:1350-1352 *)
      Some CreatePos
  | ECreateMaterializedView CreatePos _ _ _ _ _ _ _ _ _ _ _ _ _ _ _ _ _ _ => (* ast.go:1428-1430 *)
      Some CreatePos
  | ECreateView CreatePos _ _ _ _ _ _ _ _ _ => (* ast.go:1520-1522 *)
      Some CreatePos
  | ECreateFunction CreatePos _ _ _ _ _ _ => (* ast.go:1580-1582 *)
      Some CreatePos
  | ERoleName Name _ _ => (* ast.go:1614-1616 *)
      pos_of Name
  | ESettingPair Name _ _ => (* ast.go:1653-1655 *)
      match Name with EIdent _ _ v _ => Some v | _ => None end
  | ERoleSetting SettingPairs Modifier => (* ast.go:1680-1685 *)
      if negb (is_empty SettingPairs) then hd None (map pos_of SettingPairs)
      else match Modifier with EIdent _ _ v _ => Some v | _ => None end
  | ECreateRole CreatePos _ _ _ _ _ _ => (* ast.go:1720-1722 *)
      Some CreatePos
  | EAuthenticationClause AuthPos _ _ _ _ _ _ _ => (* ast.go:1764-1766 *)
      Some AuthPos
  | EHostClause HostPos _ _ _ => (* ast.go:1800-1802 *)
      Some HostPos
  | EDefaultRoleClause DefaultPos _ _ _ => (* ast.go:1826-1828 *)
      Some DefaultPos
  | EGranteesClause GranteesPos _ _ _ _ _ => (* ast.go:1854-1856 *)
      Some GranteesPos
  | ECreateUser CreatePos _ _ _ _ _ _ _ _ _ _ _ _ => (* ast.go:1894-1896 *)
      Some CreatePos
  | EAlterRole AlterPos _ _ _ _ => (* ast.go:1960-1962 *)
      Some AlterPos
  | ERoleRenamePair RoleName _ _ => (* ast.go:1994-1996 *)
      pos_of RoleName
  | EDestinationClause ToPos _ _ => (* ast.go:2022-2024 *)
      Some ToPos
  | EConstraintClause ConstraintPos _ _ => (* ast.go:2053-2055 *)
      Some ConstraintPos
  | ENullLiteral NullPos => (* ast.go:2077-2079 *)
      Some NullPos
  | ENotNullLiteral NotPos _ => (* ast.go:2096-2098 *)
      Some NotPos
  | ENestedIdentifier Ident _ => (* ast.go:2118-2120 *)
      pos_of Ident
  | EPath Fields => (* ast.go:2147-2152 *)
      if negb (is_empty Fields) then hd None (map pos_of Fields)
      else Some PZero
  | ETableIdentifier Database Table => (* ast.go:2177-2182 *)
      if negb (is_nil Database) then pos_of Database
      else pos_of Table
  | ETableSchemaClause SchemaPos _ _ _ _ => (* ast.go:2210-2212 *)
      Some SchemaPos
  | ETableArgListExpr LeftParenPos _ _ => (* ast.go:2245-2247 *)
      Some LeftParenPos
  | ETableFunctionExpr Name _ => (* ast.go:2269-2271 *)
      pos_of Name
  | EClusterClause OnPos _ => (* ast.go:2294-2296 *)
      Some OnPos
  | EPartitionClause PartitionPos _ _ _ => (* ast.go:2318-2320 *)
      Some PartitionPos
  | EPartitionByClause PartitionPos _ => (* ast.go:2350-2352 *)
      Some PartitionPos
  | EPrimaryKeyClause PrimaryPos _ => (* ast.go:2372-2374 *)
      Some PrimaryPos
  | ESampleByClause SamplePos _ => (* ast.go:2394-2396 *)
      Some SamplePos
  | ETTLPolicyRuleAction ActionPos _ _ _ => (* ast.go:2418-2420 *)
      Some ActionPos
  | ERefreshExpr RefreshPos _ _ _ => (* ast.go:2447-2449 *)
      Some RefreshPos
  | ETTLPolicyRule RulePos _ _ _ => (* ast.go:2481-2483 *)
      Some RulePos
  | ETTLPolicy Item Where GroupBy => (* ast.go:2522-2530 *)
      if negb (is_nil Item) then pos_of Item
      else if negb (is_nil Where) then pos_of Where
      else pos_of GroupBy
  | ETTLExpr TTLPos _ _ => (* ast.go:2569-2571 *)
      Some TTLPos
  | ETTLClause TTLPos _ _ => (* ast.go:2597-2599 *)
      Some TTLPos
  | EFill FillPos _ _ _ _ => (* ast.go:2624-2626 *)
      Some FillPos
  | EOrderExpr OrderPos _ _ _ _ => (* ast.go:2678-2680 *)
      Some OrderPos
  | EInterpolateItem Column _ => (* ast.go:2716-2718 *)
      pos_of Column
  | EInterpolateClause InterpolatePos _ _ => (* ast.go:2747-2749 *)
      Some InterpolatePos
  | EOrderByClause OrderPos _ _ _ => (* ast.go:2773-2775 *)
      Some OrderPos
  | ESettingExpr SettingsPos _ _ => (* ast.go:2806-2808 *)
      Some SettingsPos
  | ESettingsClause SettingsPos _ _ => (* ast.go:2832-2834 *)
      Some SettingsPos
  | EParamExprList LeftParenPos _ _ _ => (* ast.go:2858-2860 *)
      Some LeftParenPos
  | EMapLiteral LBracePos _ _ => (* ast.go:2891-2893 *)
      Some LBracePos
  | ENamedParameterExpr NamePos _ _ => (* ast.go:2919-2921 *)
      Some NamePos
  | EQueryParam LBracePos _ _ _ => (* ast.go:2946-2948 *)
      Some LBracePos
  | EArrayParamList LeftBracketPos _ _ => (* ast.go:2972-2974 *)
      Some LeftBracketPos
  | EObjectParams Object _ => (* ast.go:2994-2996 *)
      pos_of Object
  | EFunctionExpr Name _ => (* ast.go:3019-3021 *)
      match Name with EIdent _ _ v _ => Some v | _ => None end
  | EWindowFunctionExpr Function _ _ => (* ast.go:3045-3047 *)
      pos_of Function
  | ETypedPlaceholder LeftBracePos _ _ _ => (* ast.go:3072-3074 *)
      Some LeftBracePos
  | EColumnExpr Expr _ => (* ast.go:3097-3099 *)
      pos_of Expr
  | EColumnDef _ _ Name _ _ _ _ _ _ _ _ _ _ => (* ast.go:3141-3143 *)
      pos_of Name
  | EScalarType Name => (* ast.go:3217-3219 *)
      match Name with EIdent _ _ v _ => Some v | _ => None end
  | EJSONOptions LParen _ _ => (* ast.go:3320-3322 *)
      Some LParen
  | EJSONType Name _ => (* ast.go:3345-3347 *)
      match Name with EIdent _ _ v _ => Some v | _ => None end
  | EPropertyType Name => (* ast.go:3376-3378 *)
      match Name with EIdent _ _ v _ => Some v | _ => None end
  | ETypeWithParams _ _ Name _ => (* ast.go:3404-3406 *)
      match Name with EIdent _ _ v _ => Some v | _ => None end
  | EComplexType _ _ Name _ => (* ast.go:3437-3439 *)
      match Name with EIdent _ _ v _ => Some v | _ => None end
  | ENestedType _ _ Name _ => (* ast.go:3470-3472 *)
      match Name with EIdent _ _ v _ => Some v | _ => None end
  | ECompressionCodec CodecPos _ _ _ _ _ => (* ast.go:3505-3507 *)
      Some CodecPos
  | ENumberLiteral NumPos _ _ _ => (* ast.go:3550-3552 *)
      Some NumPos
  | EStringLiteral LiteralPos _ _ => (* ast.go:3570-3572 *)
      Some LiteralPos
  | EBoolLiteral LiteralPos _ _ => (* ast.go:3590-3592 *)
      Some LiteralPos
  | EPlaceHolder PlaceholderPos _ _ => (* ast.go:3610-3612 *)
      Some PlaceholderPos
  | ERatioExpr Numerator _ => (* ast.go:3630-3632 *)
      match Numerator with ENumberLiteral v _ _ _ => Some v | _ => None end
  | EEnumValue Name _ => (* ast.go:3660-3662 *)
      pos_of Name
  | EEnumType _ ListPos _ _ => (* ast.go:3687-3689 *)
      Some ListPos
  | EIntervalExpr IntervalPos Expr _ => (* ast.go:3721-3726 *)
      if negb (is_pzero IntervalPos) then Some IntervalPos
      else pos_of Expr
  | EEngineExpr EnginePos _ _ _ _ _ _ _ _ _ => (* ast.go:3758-3760 *)
      Some EnginePos
  | EColumnTypeExpr Name => (* ast.go:3811-3813 *)
      match Name with EIdent _ _ v _ => Some v | _ => None end
  | EColumnArgList _ LeftParenPos _ _ => (* ast.go:3835-3837 *)
      Some LeftParenPos
  | EColumnExprList ListPos _ _ _ => (* ast.go:3861-3863 *)
      Some ListPos
  | EWhenClause WhenPos _ _ _ _ _ => (* ast.go:3889-3891 *)
      Some WhenPos
  | ECaseExpr CasePos _ _ _ _ _ => (* ast.go:3926-3928 *)
      Some CasePos
  | ECastExpr CastPos _ _ _ _ => (* ast.go:3963-3965 *)
      Some CastPos
  | EWithClause WithPos _ _ => (* ast.go:3989-3991 *)
      Some WithPos
  | ETopClause TopPos _ _ _ => (* ast.go:4015-4017 *)
      Some TopPos
  | ECreateLiveView CreatePos _ _ _ _ _ _ _ _ _ => (* ast.go:4049-4051 *)
      Some CreatePos
  | ECreateDictionary CreatePos _ _ _ _ _ _ _ _ _ => (* ast.go:4113-4115 *)
      Some CreatePos
  | ECreateNamedCollection CreatePos _ _ _ _ _ => (* ast.go:4164-4166 *)
      Some CreatePos
  | ENamedCollectionParam ParamPos _ _ _ _ => (* ast.go:4203-4205 *)
      Some ParamPos
  | EDictionarySchemaClause SchemaPos _ _ => (* ast.go:4229-4231 *)
      Some SchemaPos
  | EDictionaryAttribute NamePos _ _ _ _ _ _ _ _ => (* ast.go:4260-4262 *)
      Some NamePos
  | EDictionaryEngineClause EnginePos _ _ _ _ _ _ => (* ast.go:4300-4302 *)
      Some EnginePos
  | EDictionaryPrimaryKeyClause PrimaryKeyPos _ _ => (* ast.go:4368-4370 *)
      Some PrimaryKeyPos
  | EDictionarySourceClause SourcePos _ _ _ => (* ast.go:4392-4394 *)
      Some SourcePos
  | EDictionaryArgExpr ArgPos _ _ _ _ _ => (* ast.go:4426-4428 *)
      Some ArgPos
  | EDictionaryLifetimeClause LifetimePos _ _ _ _ => (* ast.go:4468-4470 *)
      Some LifetimePos
  | EDictionaryLayoutClause LayoutPos _ _ _ => (* ast.go:4504-4506 *)
      Some LayoutPos
  | EDictionaryRangeClause RangePos _ _ _ => (* ast.go:4533-4535 *)
      Some RangePos
  | EWithTimeoutClause WithTimeoutPos _ _ => (* ast.go:4559-4561 *)
      Some WithTimeoutPos
  | ETableExpr TablePos _ _ _ _ => (* ast.go:4597-4599 *)
      Some TablePos
  | EOnClause OnPos _ => (* ast.go:4624-4626 *)
      Some OnPos
  | EUsingClause UsingPos _ => (* ast.go:4646-4648 *)
      Some UsingPos
  | EJoinExpr JoinPos _ _ _ _ => (* ast.go:4671-4673 *)
      Some JoinPos
  | EJoinConstraintClause ConstraintPos _ _ => (* ast.go:4711-4713 *)
      Some ConstraintPos
  | EFromClause FromPos _ => (* ast.go:4743-4745 *)
      Some FromPos
  | EIsNullExpr _ _ Expr => (* ast.go:4766-4768 *)
      pos_of Expr
  | EIsNotNullExpr _ _ Expr => (* ast.go:4789-4791 *)
      pos_of Expr
  | EAliasExpr _ AliasPos _ => (* ast.go:4812-4814 *)
      Some AliasPos
  | EWhereClause WherePos _ => (* ast.go:4837-4839 *)
      Some WherePos
  | EPrewhereClause PrewherePos _ => (* ast.go:4859-4861 *)
      Some PrewherePos
  | EGroupByClause GroupByPos _ _ _ _ _ _ => (* ast.go:4886-4888 *)
      Some GroupByPos
  | EHavingClause HavingPos _ => (* ast.go:4910-4912 *)
      Some HavingPos
  | ELimitClause LimitPos _ _ => (* ast.go:4933-4935 *)
      Some LimitPos
  | ELimitByClause Limit _ => (* ast.go:4965-4967 *)
      pos_of Limit
  | EWindowExpr LeftParenPos _ _ _ _ _ => (* ast.go:5004-5006 *)
      Some LeftParenPos
  | EWindowDefinition Name _ _ => (* ast.go:5044-5049 *)
      if is_nil Name then Some PZero
      else pos_of Name
  | EWindowClause WindowPos _ _ => (* ast.go:5064-5066 *)
      Some WindowPos
  | EWindowFrameClause FramePos _ _ => (* ast.go:5105-5107 *)
      Some FramePos
  | EWindowFrameExtendExpr Expr _ _ => (* ast.go:5128-5130 *)
      pos_of Expr
  | EBetweenClause Expr _ Between _ _ => (* ast.go:5156-5161 *)
      if negb (is_nil Expr) then pos_of Expr
      else pos_of Between
  | EWindowFrameCurrentRow CurrentPos _ => (* ast.go:5189-5191 *)
      Some CurrentPos
  | EWindowFrameUnbounded UnboundedPos _ _ => (* ast.go:5209-5211 *)
      Some UnboundedPos
  | EWindowFrameNumber Number _ _ => (* ast.go:5229-5231 *)
      pos_of Number
  | EWindowFrameParam Param _ _ => (* ast.go:5252-5254 *)
      pos_of Param
  | ESelectQuery SelectPos _ _ _ _ _ _ _ _ _ _ _ _ _ _ _ _ _ _ _ _ _ _ => (* ast.go:5295-5297 *)
      Some SelectPos
  | EDistinctOn _ DistinctOnPos _ => (* ast.go:5412-5414 *)
      Some DistinctOnPos
  | ESubQuery _ Select => (* ast.go:5436-5438 *)
      pos_of Select
  | ENotExpr NotPos _ => (* ast.go:5460-5462 *)
      Some NotPos
  | ENegateExpr NegatePos _ => (* ast.go:5482-5484 *)
      Some NegatePos
  | EGlobalInOperation GlobalPos _ => (* ast.go:5504-5506 *)
      Some GlobalPos
  | EIntervalFrom Interval _ _ => (* ast.go:5527-5529 *)
      match Interval with EIdent _ _ v _ => Some v | _ => None end
  | EExtractExpr ExtractPos _ _ => (* ast.go:5555-5557 *)
      Some ExtractPos
  | EDropDatabase DropPos _ _ _ _ _ => (* ast.go:5583-5585 *)
      Some DropPos
  | EDropStmt DropPos _ _ _ _ _ _ _ => (* ast.go:5621-5623 *)
      Some DropPos
  | EDropUserOrRole DropPos _ _ _ _ _ _ => (* ast.go:5658-5660 *)
      Some DropPos
  | EUseStmt UsePos _ _ => (* ast.go:5692-5694 *)
      Some UsePos
  | ECTEStmt CTEPos _ _ => (* ast.go:5715-5717 *)
      Some CTEPos
  | ESetStmt SetPos _ => (* ast.go:5740-5742 *)
      Some SetPos
  | EFormatClause FormatPos _ => (* ast.go:5762-5764 *)
      Some FormatPos
  | EOptimizeStmt OptimizePos _ _ _ _ _ _ => (* ast.go:5789-5791 *)
      Some OptimizePos
  | EDeduplicateClause DeduplicatePos _ _ => (* ast.go:5827-5829 *)
      Some DeduplicatePos
  | ESystemStmt SystemPos _ => (* ast.go:5861-5863 *)
      Some SystemPos
  | ESystemFlushExpr FlushPos _ _ _ => (* ast.go:5885-5887 *)
      Some FlushPos
  | ESystemReloadExpr ReloadPos _ _ _ _ => (* ast.go:5912-5914 *)
      Some ReloadPos
  | ESystemSyncExpr SyncPos _ => (* ast.go:5941-5943 *)
      Some SyncPos
  | ESystemCtrlExpr CtrlPos _ _ _ _ => (* ast.go:5966-5968 *)
      Some CtrlPos
  | ESystemDropExpr DropPos _ _ => (* ast.go:5991-5993 *)
      Some DropPos
  | ETruncateTable TruncatePos _ _ _ _ _ => (* ast.go:6014-6016 *)
      Some TruncatePos
  | ESampleClause SamplePos _ _ => (* ast.go:6046-6048 *)
      Some SamplePos
  | EDeleteClause DeletePos _ _ _ => (* ast.go:6078-6080 *)
      Some DeletePos
  | EColumnNamesExpr LeftParenPos _ _ => (* ast.go:6111-6113 *)
      Some LeftParenPos
  | EAssignmentValues LeftParenPos _ _ => (* ast.go:6136-6138 *)
      Some LeftParenPos
  | EInsertStmt InsertPos _ _ _ _ _ _ => (* ast.go:6165-6167 *)
      Some InsertPos
  | ECheckStmt CheckPos _ _ => (* ast.go:6222-6224 *)
      Some CheckPos
  | EUnaryExpr UnaryPos _ _ => (* ast.go:6250-6252 *)
      Some UnaryPos
  | ERenameStmt RenamePos _ _ _ _ => (* ast.go:6276-6278 *)
      Some RenamePos
  | ETargetPair Old _ => (* ast.go:6312-6314 *)
      pos_of Old
  | EExplainStmt ExplainPos _ _ => (* ast.go:6338-6340 *)
      Some ExplainPos
  | EPrivilegeClause PrivilegePos _ _ _ => (* ast.go:6362-6364 *)
      Some PrivilegePos
  | EGrantPrivilegeStmt GrantPos _ _ _ _ _ _ => (* ast.go:6391-6393 *)
      Some GrantPos
  | EShowStmt ShowPos _ _ _ _ _ _ _ _ _ => (* ast.go:6442-6444 *)
      Some ShowPos
  | EDescribeStmt DescribePos _ _ _ => (* ast.go:6504-6506 *)
      Some DescribePos
  | _ => None
  end.

Fixpoint end_of (e : expr) : option pos :=
  match e with
  | ESelectItem Expr Modifiers Alias => (* ast.go:34-42 *)
      if negb (is_nil Alias) then end_of Alias
      else if negb (is_empty Modifiers) then last (map end_of Modifiers) None
      else end_of Expr
  | EOperationExpr OperationPos Kind => (* ast.go:72-74 *)
      Some (PPlus OperationPos (Z.of_nat (String.length Kind)))
  | ETernaryOperation _ _ FalseExpr => (* ast.go:92-94 *)
      end_of FalseExpr
  | EBinaryOperation _ _ RightExpr _ _ => (* ast.go:123-125 *)
      end_of RightExpr
  | EIndexOperation _ _ Index => (* ast.go:161-163 *)
      end_of Index
  | EJoinTableExpr _ StatementEnd _ _ => (* ast.go:190-192 *)
      Some StatementEnd
  | EAlterTable _ StatementEnd _ _ _ => (* ast.go:211-213 *)
      Some StatementEnd
  | EAlterTableAttachPartition _ Partition From => (* ast.go:250-255 *)
      if negb (is_nil From) then end_of From
      else end_of Partition
  | EAlterTableDetachPartition _ Partition _ => (* ast.go:285-287 *)
      end_of Partition
  | EAlterTableDropPartition _ _ Partition Settings => (* ast.go:318-323 *)
      if negb (is_nil Settings) then end_of Settings
      else end_of Partition
  | EAlterTableMaterializeProjection _ StatementEnd _ _ _ => (* ast.go:355-357 *)
      Some StatementEnd
  | EAlterTableMaterializeIndex _ StatementEnd _ _ _ => (* ast.go:389-391 *)
      Some StatementEnd
  | EAlterTableFreezePartition _ StatementEnd _ => (* ast.go:421-423 *)
      Some StatementEnd
  | EAlterTableAddColumn _ StatementEnd _ _ _ Settings => (* ast.go:454-459 *)
      if negb (is_nil Settings) then end_of Settings
      else Some StatementEnd
  | EAlterTableAddIndex _ StatementEnd _ _ _ => (* ast.go:497-499 *)
      Some StatementEnd
  | EProjectionOrderByClause _ Columns => (* ast.go:528-530 *)
      end_of Columns
  | EProjectionSelectStmt _ RightParenPos _ _ _ _ => (* ast.go:557-559 *)
      Some RightParenPos
  | ETableProjection _ _ _ Select => (* ast.go:596-598 *)
      end_of Select
  | EAlterTableAddProjection _ StatementEnd _ _ _ => (* ast.go:625-627 *)
      Some StatementEnd
  | EAlterTableDropColumn _ ColumnName _ => (* ast.go:657-659 *)
      end_of ColumnName
  | EAlterTableDropIndex _ IndexName _ => (* ast.go:684-686 *)
      end_of IndexName
  | EAlterTableDropProjection _ ProjectionName _ => (* ast.go:711-713 *)
      end_of ProjectionName
  | EAlterTableRemoveTTL _ StatementEnd => (* ast.go:737-739 *)
      Some StatementEnd
  | EAlterTableClearColumn _ StatementEnd _ _ _ => (* ast.go:764-766 *)
      Some StatementEnd
  | EAlterTableClearIndex _ StatementEnd _ _ _ => (* ast.go:799-801 *)
      Some StatementEnd
  | EAlterTableClearProjection _ StatementEnd _ _ _ => (* ast.go:834-836 *)
      Some StatementEnd
  | EAlterTableRenameColumn _ _ _ NewColumnName => (* ast.go:868-870 *)
      end_of NewColumnName
  | EAlterTableModifyQuery _ StatementEnd _ => (* ast.go:898-900 *)
      Some StatementEnd
  | EAlterTableModifyOrderBy _ StatementEnd _ => (* ast.go:925-927 *)
      Some StatementEnd
  | EAlterTableModifyTTL _ StatementEnd _ => (* ast.go:952-954 *)
      Some StatementEnd
  | EAlterTableModifyColumn _ StatementEnd _ _ _ => (* ast.go:982-984 *)
      Some StatementEnd
  | EAlterTableModifySetting _ StatementEnd _ => (* ast.go:1014-1016 *)
      Some StatementEnd
  | EAlterTableResetSetting _ StatementEnd _ => (* ast.go:1043-1045 *)
      Some StatementEnd
  | EAlterTableReplacePartition _ _ Table => (* ast.go:1072-1074 *)
      end_of Table
  | EAlterTableDelete _ StatementEnd _ => (* ast.go:1102-1104 *)
      Some StatementEnd
  | EAlterTableUpdate _ StatementEnd _ _ _ => (* ast.go:1131-1133 *)
      Some StatementEnd
  | EUpdateAssignment _ _ Expr => (* ast.go:1168-1170 *)
      end_of Expr
  | ERemovePropertyType _ PropertyType => (* ast.go:1194-1196 *)
      end_of PropertyType
  | ETableIndex _ _ _ _ Granularity => (* ast.go:1220-1222 *)
      end_of Granularity
  | EIdent _ _ _ NameEnd => (* ast.go:1253-1255 *)
      Some NameEnd
  | EUUID Value => (* ast.go:1271-1273 *)
      match Value with EStringLiteral _ v _ => Some v | _ => None end
  | ECreateDatabase _ StatementEnd _ _ _ _ _ => (* ast.go:1300-1302 *)
      Some StatementEnd
  | ECreateTable _ StatementEnd _ _ _ _ _ _ _ _ _ _ _ => (* ast.go:1354-1356 *)
      Some StatementEnd
  | ECreateMaterializedView _ StatementEnd _ _ _ _ _ _ _ _ _ _ _ _ _ _ _ _ _ => (* ast.go:1432-1434 *)
      Some StatementEnd
  | ECreateView _ StatementEnd _ _ _ _ _ _ _ _ => (* ast.go:1524-1526 *)
      Some StatementEnd
  | ECreateFunction _ _ _ _ _ _ Expr => (* ast.go:1584-1586 *)
      end_of Expr
  | ERoleName Name Scope OnCluster => (* ast.go:1618-1626 *)
      if negb (is_nil Scope) then end_of Scope
      else if negb (is_nil OnCluster) then end_of OnCluster
      else end_of Name
  | ESettingPair _ _ Value => (* ast.go:1657-1659 *)
      end_of Value
  | ERoleSetting SettingPairs Modifier => (* ast.go:1687-1692 *)
      if negb (is_nil Modifier) then match Modifier with EIdent _ _ _ v => Some v | _ => None end
      else last (map end_of SettingPairs) None
  | ECreateRole _ StatementEnd _ _ _ _ _ => (* ast.go:1724-1726 *)
      Some StatementEnd
  | EAuthenticationClause _ AuthEnd _ _ _ _ _ _ => (* ast.go:1768-1770 *)
      Some AuthEnd
  | EHostClause _ HostEnd _ _ => (* ast.go:1804-1806 *)
      Some HostEnd
  | EDefaultRoleClause _ DefaultEnd _ _ => (* ast.go:1830-1832 *)
      Some DefaultEnd
  | EGranteesClause _ GranteesEnd _ _ _ _ => (* ast.go:1858-1860 *)
      Some GranteesEnd
  | ECreateUser _ StatementEnd _ _ _ _ _ _ _ _ _ _ _ => (* ast.go:1898-1900 *)
      Some StatementEnd
  | EAlterRole _ StatementEnd _ _ _ => (* ast.go:1964-1966 *)
      Some StatementEnd
  | ERoleRenamePair _ _ StatementEnd => (* ast.go:1998-2000 *)
      Some StatementEnd
  | EDestinationClause _ TableIdentifier TableSchema => (* ast.go:2026-2031 *)
      if negb (is_nil TableSchema) then end_of TableSchema
      else end_of TableIdentifier
  | EConstraintClause _ _ Expr => (* ast.go:2057-2059 *)
      end_of Expr
  | ENullLiteral NullPos => (* ast.go:2081-2083 *)
      Some (PPlus NullPos 4)
  | ENotNullLiteral _ NullLiteral => (* ast.go:2100-2102 *)
      end_of NullLiteral
  | ENestedIdentifier Ident DotIdent => (* ast.go:2122-2127 *)
      if negb (is_nil DotIdent) then end_of DotIdent
      else end_of Ident
  | EPath Fields => (* ast.go:2154-2159 *)
      if negb (is_empty Fields) then last (map end_of Fields) None
      else Some PZero
  | ETableIdentifier _ Table => (* ast.go:2184-2186 *)
      end_of Table
  | ETableSchemaClause _ SchemaEnd _ _ _ => (* ast.go:2214-2216 *)
      Some SchemaEnd
  | ETableArgListExpr _ RightParenPos _ => (* ast.go:2249-2251 *)
      Some RightParenPos
  | ETableFunctionExpr _ Args => (* ast.go:2273-2275 *)
      end_of Args
  | EClusterClause _ Expr => (* ast.go:2298-2300 *)
      end_of Expr
  | EPartitionClause _ Expr ID _ => (* ast.go:2322-2327 *)
      if negb (is_nil ID) then match ID with EStringLiteral _ v _ => Some v | _ => None end
      else end_of Expr
  | EPartitionByClause _ Expr => (* ast.go:2354-2356 *)
      end_of Expr
  | EPrimaryKeyClause _ Expr => (* ast.go:2376-2378 *)
      end_of Expr
  | ESampleByClause _ Expr => (* ast.go:2398-2400 *)
      end_of Expr
  | ETTLPolicyRuleAction _ ActionEnd _ Codec => (* ast.go:2422-2427 *)
      if negb (is_nil Codec) then end_of Codec
      else Some ActionEnd
  | ERefreshExpr _ _ Interval Offset => (* ast.go:2451-2456 *)
      if negb (is_nil Offset) then end_of Offset
      else end_of Interval
  | ETTLPolicyRule _ ToVolume ToDisk Action => (* ast.go:2485-2493 *)
      if negb (is_nil Action) then end_of Action
      else if negb (is_nil ToDisk) then match ToDisk with EStringLiteral _ v _ => Some v | _ => None end
      else match ToVolume with EStringLiteral _ v _ => Some v | _ => None end
  | ETTLPolicy Item Where GroupBy => (* ast.go:2532-2540 *)
      if negb (is_nil GroupBy) then end_of GroupBy
      else if negb (is_nil Where) then end_of Where
      else end_of Item
  | ETTLExpr _ Expr _ => (* ast.go:2573-2575 *)
      end_of Expr
  | ETTLClause _ ListEnd _ => (* ast.go:2601-2603 *)
      Some ListEnd
  | EFill FillPos From To Step Staleness => (* ast.go:2628-2642 *)
      if negb (is_nil Staleness) then end_of Staleness
      else if negb (is_nil Step) then end_of Step
      else if negb (is_nil To) then end_of To
      else if negb (is_nil From) then end_of From
      else Some (PPlus FillPos 4)
  | EOrderExpr _ Expr Alias _ Fill => (* ast.go:2682-2690 *)
      if negb (is_nil Fill) then end_of Fill
      else if negb (is_nil Alias) then end_of Alias
      else end_of Expr
  | EInterpolateItem Column Expr => (* ast.go:2720-2725 *)
      if negb (is_nil Expr) then end_of Expr
      else end_of Column
  | EInterpolateClause _ ListEnd _ => (* ast.go:2751-2753 *)
      Some ListEnd
  | EOrderByClause _ ListEnd _ Interpolate => (* ast.go:2777-2782 *)
      if negb (is_nil Interpolate) then end_of Interpolate
      else Some ListEnd
  | ESettingExpr _ _ Expr => (* ast.go:2810-2812 *)
      end_of Expr
  | ESettingsClause _ ListEnd _ => (* ast.go:2836-2838 *)
      Some ListEnd
  | EParamExprList _ RightParenPos _ _ => (* ast.go:2862-2864 *)
      Some RightParenPos
  | EMapLiteral _ RBracePos _ => (* ast.go:2895-2897 *)
      Some RBracePos
  | ENamedParameterExpr _ _ Value => (* ast.go:2923-2925 *)
      end_of Value
  | EQueryParam _ RBracePos _ _ => (* ast.go:2950-2952 *)
      Some RBracePos
  | EArrayParamList _ RightBracketPos _ => (* ast.go:2976-2978 *)
      Some RightBracketPos
  | EObjectParams _ Params => (* ast.go:2998-3000 *)
      end_of Params
  | EFunctionExpr _ Params => (* ast.go:3023-3025 *)
      match Params with EParamExprList _ v _ _ => Some v | _ => None end
  | EWindowFunctionExpr _ _ OverExpr => (* ast.go:3049-3051 *)
      end_of OverExpr
  | ETypedPlaceholder _ RightBracePos _ _ => (* ast.go:3076-3078 *)
      Some RightBracePos
  | EColumnExpr Expr Alias => (* ast.go:3101-3106 *)
      if negb (is_nil Alias) then match Alias with EIdent _ _ _ v => Some v | _ => None end
      else end_of Expr
  | EColumnDef _ ColumnEnd _ _ _ _ _ _ _ _ _ _ _ => (* ast.go:3145-3147 *)
      Some ColumnEnd
  | EScalarType Name => (* ast.go:3221-3223 *)
      match Name with EIdent _ _ _ v => Some v | _ => None end
  | EJSONOptions _ RParen _ => (* ast.go:3324-3326 *)
      Some RParen
  | EJSONType Name Options => (* ast.go:3349-3354 *)
      if negb (is_nil Options) then match Options with EJSONOptions _ v _ => Some v | _ => None end
      else match Name with EIdent _ _ _ v => Some v | _ => None end
  | EPropertyType Name => (* ast.go:3380-3382 *)
      match Name with EIdent _ _ _ v => Some v | _ => None end
  | ETypeWithParams _ RightParenPos _ _ => (* ast.go:3408-3410 *)
      Some RightParenPos
  | EComplexType _ RightParenPos _ _ => (* ast.go:3441-3443 *)
      Some RightParenPos
  | ENestedType _ RightParenPos _ _ => (* ast.go:3474-3476 *)
      Some RightParenPos
  | ECompressionCodec _ RightParenPos _ _ _ _ => (* ast.go:3509-3511 *)
      Some RightParenPos
  | ENumberLiteral _ NumEnd _ _ => (* ast.go:3554-3556 *)
      Some NumEnd
  | EStringLiteral _ LiteralEnd _ => (* ast.go:3574-3576 *)
      Some LiteralEnd
  | EBoolLiteral _ LiteralEnd _ => (* ast.go:3594-3596 *)
      Some LiteralEnd
  | EPlaceHolder _ PlaceHolderEnd _ => (* ast.go:3614-3616 *)
      Some PlaceHolderEnd
  | ERatioExpr Numerator Denominator => (* ast.go:3634-3639 *)
      if negb (is_nil Denominator) then match Denominator with ENumberLiteral _ v _ _ => Some v | _ => None end
      else match Numerator with ENumberLiteral _ v _ _ => Some v | _ => None end
  | EEnumValue _ Value => (* ast.go:3664-3666 *)
      end_of Value
  | EEnumType _ _ ListEnd _ => (* ast.go:3691-3693 *)
      Some ListEnd
  | EIntervalExpr _ _ Unit => (* ast.go:3728-3730 *)
      end_of Unit
  | EEngineExpr _ EngineEnd _ _ _ _ _ _ _ _ => (* ast.go:3762-3764 *)
      Some EngineEnd
  | EColumnTypeExpr Name => (* ast.go:3815-3817 *)
      match Name with EIdent _ _ _ v => Some v | _ => None end
  | EColumnArgList _ _ RightParenPos _ => (* ast.go:3839-3841 *)
      Some RightParenPos
  | EColumnExprList _ ListEnd _ _ => (* ast.go:3865-3867 *)
      Some ListEnd
  | EWhenClause _ _ _ Then _ Else => (* ast.go:3893-3898 *)
      if negb (is_nil Else) then end_of Else
      else end_of Then
  | ECaseExpr _ EndPos _ _ _ _ => (* ast.go:3930-3932 *)
      Some EndPos
  | ECastExpr _ _ _ _ AsType => (* ast.go:3967-3969 *)
      end_of AsType
  | EWithClause _ EndPos _ => (* ast.go:3993-3995 *)
      Some EndPos
  | ETopClause _ TopEnd _ _ => (* ast.go:4019-4021 *)
      Some TopEnd
  | ECreateLiveView _ StatementEnd _ _ _ _ _ _ _ _ => (* ast.go:4053-4055 *)
      Some StatementEnd
  | ECreateDictionary _ StatementEnd _ _ _ _ _ _ _ _ => (* ast.go:4117-4119 *)
      Some StatementEnd
  | ECreateNamedCollection _ StatementEnd _ _ _ _ => (* ast.go:4168-4170 *)
      Some StatementEnd
  | ENamedCollectionParam _ _ Value _ _ => (* ast.go:4207-4209 *)
      end_of Value
  | EDictionarySchemaClause _ _ RParenPos => (* ast.go:4233-4235 *)
      Some (PPlus RParenPos 1)
  | EDictionaryAttribute _ AttrEnd _ _ _ _ _ _ _ => (* ast.go:4264-4266 *)
      Some AttrEnd
  | EDictionaryEngineClause EnginePos PrimaryKey Source Lifetime Layout Range Settings => (* ast.go:4304-4324 *)
      if negb (is_nil Settings) then end_of Settings
      else if negb (is_nil Range) then end_of Range
      else if negb (is_nil Layout) then end_of Layout
      else if negb (is_nil Lifetime) then end_of Lifetime
      else if negb (is_nil Source) then end_of Source
      else if negb (is_nil PrimaryKey) then end_of PrimaryKey
      else Some EnginePos
  | EDictionaryPrimaryKeyClause _ _ RParenPos => (* ast.go:4372-4374 *)
      Some (PPlus RParenPos 1)
  | EDictionarySourceClause _ _ _ RParenPos => (* ast.go:4396-4398 *)
      Some (PPlus RParenPos 1)
  | EDictionaryArgExpr _ _ Value _ _ RParenPos => (* ast.go:4430-4435 *)
      if negb (is_nil Value) then end_of Value
      else Some (PPlus RParenPos 1)
  | EDictionaryLifetimeClause _ _ _ _ RParenPos => (* ast.go:4472-4474 *)
      Some (PPlus RParenPos 1)
  | EDictionaryLayoutClause _ _ _ RParenPos => (* ast.go:4508-4510 *)
      Some (PPlus RParenPos 1)
  | EDictionaryRangeClause _ _ _ RParenPos => (* ast.go:4537-4539 *)
      Some (PPlus RParenPos 1)
  | EWithTimeoutClause WithTimeoutPos Expr Number => (* ast.go:4563-4571 *)
      if negb (is_nil Number) then end_of Number
      else if negb (is_nil Expr) then end_of Expr
      else Some WithTimeoutPos
  | ETableExpr _ TableEnd _ _ _ => (* ast.go:4601-4603 *)
      Some TableEnd
  | EOnClause _ On => (* ast.go:4628-4630 *)
      end_of On
  | EUsingClause _ Using => (* ast.go:4650-4652 *)
      end_of Using
  | EJoinExpr _ Left Right _ Constraints => (* ast.go:4675-4684 *)
      if negb (is_nil Right) then end_of Right
      else if negb (is_nil Constraints) then end_of Constraints
      else end_of Left
  | EJoinConstraintClause _ On Using => (* ast.go:4715-4720 *)
      if negb (is_nil On) then end_of On
      else end_of Using
  | EFromClause _ Expr => (* ast.go:4747-4749 *)
      end_of Expr
  | EIsNullExpr _ NullEnd _ => (* ast.go:4770-4772 *)
      Some NullEnd
  | EIsNotNullExpr _ NullEnd _ => (* ast.go:4793-4795 *)
      Some NullEnd
  | EAliasExpr _ _ Alias => (* ast.go:4816-4818 *)
      end_of Alias
  | EWhereClause _ Expr => (* ast.go:4841-4843 *)
      end_of Expr
  | EPrewhereClause _ Expr => (* ast.go:4863-4865 *)
      end_of Expr
  | EGroupByClause _ GroupByEnd _ _ _ _ _ => (* ast.go:4890-4892 *)
      Some GroupByEnd
  | EHavingClause _ Expr => (* ast.go:4914-4916 *)
      end_of Expr
  | ELimitClause _ Limit Offset => (* ast.go:4937-4942 *)
      if negb (is_nil Offset) then end_of Offset
      else end_of Limit
  | ELimitByClause Limit ByExpr => (* ast.go:4969-4977 *)
      if negb (is_nil ByExpr) then end_of ByExpr
      else if negb (is_nil Limit) then end_of Limit
      else end_of Limit
  | EWindowExpr _ RightParenPos _ _ _ _ => (* ast.go:5008-5010 *)
      Some RightParenPos
  | EWindowDefinition _ _ Expr => (* ast.go:5051-5056 *)
      if is_nil Expr then Some PZero
      else end_of Expr
  | EWindowClause WindowPos EndPos Windows => (* ast.go:5068-5076 *)
      if negb (is_pzero EndPos) then Some EndPos
      else if is_empty Windows then Some WindowPos
      else last (map end_of Windows) None
  | EWindowFrameClause _ _ Extend => (* ast.go:5109-5111 *)
      end_of Extend
  | EWindowFrameExtendExpr Expr _ EndPos => (* ast.go:5132-5137 *)
      if negb (is_pzero EndPos) then Some EndPos
      else end_of Expr
  | EBetweenClause _ _ _ _ And => (* ast.go:5163-5165 *)
      end_of And
  | EWindowFrameCurrentRow _ RowEnd => (* ast.go:5193-5195 *)
      Some RowEnd
  | EWindowFrameUnbounded _ UnboundedEnd _ => (* ast.go:5213-5215 *)
      Some UnboundedEnd
  | EWindowFrameNumber _ EndPos _ => (* ast.go:5233-5235 *)
      Some EndPos
  | EWindowFrameParam _ EndPos _ => (* ast.go:5256-5258 *)
      Some EndPos
  | ESelectQuery _ StatementEnd _ _ _ _ _ _ _ _ _ _ _ _ _ _ _ _ _ _ _ _ _ => (* ast.go:5299-5301 *)
      Some StatementEnd
  | EDistinctOn _ _ DistinctOnEnd => (* ast.go:5416-5418 *)
      Some DistinctOnEnd
  | ESubQuery _ Select => (* ast.go:5440-5442 *)
      end_of Select
  | ENotExpr _ Expr => (* ast.go:5464-5466 *)
      end_of Expr
  | ENegateExpr _ Expr => (* ast.go:5486-5488 *)
      end_of Expr
  | EGlobalInOperation _ Expr => (* ast.go:5508-5510 *)
      end_of Expr
  | EIntervalFrom _ _ FromExpr => (* ast.go:5531-5533 *)
      end_of FromExpr
  | EExtractExpr _ ExtractEnd _ => (* ast.go:5559-5561 *)
      Some ExtractEnd
  | EDropDatabase _ StatementEnd _ _ _ _ => (* ast.go:5587-5589 *)
      Some StatementEnd
  | EDropStmt _ StatementEnd _ _ _ _ _ _ => (* ast.go:5625-5627 *)
      Some StatementEnd
  | EDropUserOrRole _ _ StatementEnd _ _ _ _ => (* ast.go:5662-5664 *)
      Some StatementEnd
  | EUseStmt _ _ Database => (* ast.go:5696-5698 *)
      end_of Database
  | ECTEStmt _ Expr _ => (* ast.go:5719-5721 *)
      end_of Expr
  | ESetStmt _ Settings => (* ast.go:5744-5746 *)
      end_of Settings
  | EFormatClause _ Format => (* ast.go:5766-5768 *)
      end_of Format
  | EOptimizeStmt _ StatementEnd _ _ _ _ _ => (* ast.go:5793-5795 *)
      Some StatementEnd
  | EDeduplicateClause DeduplicatePos By Except => (* ast.go:5831-5838 *)
      if negb (is_nil By) then end_of By
      else if negb (is_nil Except) then end_of Except
      else Some (PPlus DeduplicatePos 11)
  | ESystemStmt _ Expr => (* ast.go:5865-5867 *)
      end_of Expr
  | ESystemFlushExpr _ StatementEnd _ _ => (* ast.go:5889-5891 *)
      Some StatementEnd
  | ESystemReloadExpr _ StatementEnd _ _ _ => (* ast.go:5916-5918 *)
      Some StatementEnd
  | ESystemSyncExpr _ Cluster => (* ast.go:5945-5947 *)
      end_of Cluster
  | ESystemCtrlExpr _ StatementEnd _ _ _ => (* ast.go:5970-5972 *)
      Some StatementEnd
  | ESystemDropExpr _ StatementEnd _ => (* ast.go:5995-5997 *)
      Some StatementEnd
  | ETruncateTable _ StatementEnd _ _ _ _ => (* ast.go:6018-6020 *)
      Some StatementEnd
  | ESampleClause _ Ratio Offset => (* ast.go:6050-6055 *)
      if negb (is_nil Offset) then end_of Offset
      else end_of Ratio
  | EDeleteClause _ _ _ WhereExpr => (* ast.go:6082-6084 *)
      end_of WhereExpr
  | EColumnNamesExpr _ RightParenPos _ => (* ast.go:6115-6117 *)
      Some RightParenPos
  | EAssignmentValues _ RightParenPos _ => (* ast.go:6140-6142 *)
      Some RightParenPos
  | EInsertStmt _ Format _ Table ColumnNames Values SelectExpr => (* ast.go:6169-6185 *)
      if negb (is_nil SelectExpr) then end_of SelectExpr
      else if negb (is_empty Values) then last (map end_of Values) None
      else if negb (is_nil Format) then end_of Format
      else if negb (is_nil ColumnNames) then end_of ColumnNames
      else end_of Table
  | ECheckStmt _ _ Partition => (* ast.go:6226-6228 *)
      end_of Partition
  | EUnaryExpr _ _ Expr => (* ast.go:6254-6256 *)
      end_of Expr
  | ERenameStmt _ StatementEnd _ _ _ => (* ast.go:6280-6282 *)
      Some StatementEnd
  | ETargetPair _ New => (* ast.go:6316-6318 *)
      end_of New
  | EExplainStmt _ _ Statement => (* ast.go:6342-6344 *)
      end_of Statement
  | EPrivilegeClause _ PrivilegeEnd _ _ => (* ast.go:6366-6368 *)
      Some PrivilegeEnd
  | EGrantPrivilegeStmt _ StatementEnd _ _ _ _ _ => (* ast.go:6395-6397 *)
      Some StatementEnd
  | EShowStmt _ StatementEnd _ Target _ _ LikePattern Limit OutFile Format => (* ast.go:6446-6464 *)
      if negb (is_nil Format) then end_of Format
      else if negb (is_nil OutFile) then end_of OutFile
      else if negb (is_nil Limit) then end_of Limit
      else if negb (is_nil LikePattern) then end_of LikePattern
      else if negb (is_nil Target) then end_of Target
      else Some StatementEnd
  | EDescribeStmt _ _ _ Target => (* ast.go:6508-6510 *)
      end_of Target
  | _ => None
  end.

