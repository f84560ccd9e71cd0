(** Model of parser/walk.go. *)
From Coq Require Import String List Arith Bool.
From Verif Require Import Ast AstPos AstSubs.
Import ListNotations.
Local Open Scope list_scope.
Local Open Scope nat_scope.

(** ** The children of a node, in the order in which [Walk] visits them *)

(** walk.go:1384-1392: the key and the value of an entry of a map literal (not an [Expr]). *)
Definition key_value (e : expr) : list expr := match e with EKeyValue Key Value => [Key; Value] | _ => [] end.

(** walk.go:395-406: name and expression of a window definition (not an [Expr]). *)
Definition window_parts (e : expr) : list expr := match e with EWindowDefinition Name _ Expr => [Name; Expr] | _ => [] end.

(** walk.go:594-602: the two tables of a pair. The pair itself is not visited. *)
Definition pair_parts (e : expr) : list expr := match e with ETargetPair Old New => [Old; New] | _ => [] end.

(** walk.go:1631-1641 [walkJSONPath]. *)
Definition json_path (e : expr) : list expr := match e with EJSONPath Idents => Idents | _ => [] end.

(** walk.go:1621-1629 [walkJSONTypeHint]. *)
Definition json_hint (e : expr) : list expr := match e with EJSONTypeHint Path Type_ => json_path Path ++ [Type_] | _ => [] end.

(** walk.go:1602-1619 [walkJSONOption]. *)
Definition json_option (e : expr) : list expr :=
  match e with
  | EJSONOption SkipPath SkipRegex MaxDynamicPaths MaxDynamicTypes Column =>
      json_path SkipPath ++ [SkipRegex; MaxDynamicPaths; MaxDynamicTypes] ++ json_hint Column
  | _ => []
  end.

(** walk.go:1590-1600 [walkJSONOptions]. *)
Definition json_options (e : expr) : list expr := match e with EJSONOptions _ _ Items => flat_map json_option Items | _ => [] end.

(** walk.go:20-1586: the cases of the type switch in [Walk]. The cases without children
    (Ident, the literals, ...) are left to the default. *)
Definition walk_children (e : expr) : list expr :=
  match e with
  | ESelectQuery _ _ With Top _ DistinctOn SelectItems From Window Prewhere Where GroupBy _ Having OrderBy LimitBy Limit Settings Format UnionAll UnionDistinct Except Intersect => (* walk.go:21-80 *)
      [With; DistinctOn; Top] ++ SelectItems ++ [From; Window; Prewhere; Where; GroupBy; Having; OrderBy; LimitBy; Limit; Settings; UnionAll; UnionDistinct; Except; Intersect; Format]
  | ESubQuery _ Select => (* walk.go:81-84 *)
      [Select]
  | ESelectItem Expr Modifiers Alias => (* walk.go:85-96 *)
      [Expr] ++ Modifiers ++ [Alias]
  | ETableExpr _ _ Alias Expr _ => (* walk.go:97-103 *)
      [Expr; Alias]
  | EAliasExpr Expr _ Alias => (* walk.go:104-110 *)
      [Expr; Alias]
  | EFunctionExpr Name Params => (* walk.go:111-117 *)
      [Name; Params]
  | ETableIdentifier Database Table => (* walk.go:118-124 *)
      [Database; Table]
  | ENotNullLiteral _ NullLiteral => (* walk.go:135-138 *)
      [NullLiteral]
  | EColumnExpr Expr Alias => (* walk.go:139-145 *)
      [Expr; Alias]
  | EBinaryOperation LeftExpr _ RightExpr _ _ => (* walk.go:146-152 *)
      [LeftExpr; RightExpr]
  | EWhenClause _ _ When Then _ Else => (* walk.go:153-162 *)
      [When; Then; Else]
  | ECaseExpr _ _ Expr Whens _ Else => (* walk.go:163-174 *)
      [Expr] ++ Whens ++ [Else]
  | ECastExpr _ Expr _ _ AsType => (* walk.go:175-181 *)
      [Expr; AsType]
  | EPath Fields => (* walk.go:182-187 *)
      Fields
  | EWithClause _ _ CTEs => (* walk.go:188-193 *)
      CTEs
  | ECTEStmt _ Expr Alias => (* walk.go:194-200 *)
      [Expr; Alias]
  | EFromClause _ Expr => (* walk.go:201-204 *)
      [Expr]
  | EJoinExpr _ Left Right _ Constraints => (* walk.go:205-214 *)
      [Left; Right; Constraints]
  | EJoinTableExpr Table _ SampleRatio _ => (* walk.go:215-221 *)
      [Table; SampleRatio]
  | EOnClause _ On => (* walk.go:222-225 *)
      [On]
  | EUsingClause _ Using => (* walk.go:226-229 *)
      [Using]
  | EWhereClause _ Expr => (* walk.go:230-233 *)
      [Expr]
  | EPrewhereClause _ Expr => (* walk.go:234-237 *)
      [Expr]
  | EGroupByClause _ _ _ Expr _ _ _ => (* walk.go:238-241 *)
      [Expr]
  | EHavingClause _ Expr => (* walk.go:242-245 *)
      [Expr]
  | EOrderByClause _ _ Items Interpolate => (* walk.go:246-254 *)
      Items ++ [Interpolate]
  | EOrderExpr _ Expr Alias _ Fill => (* walk.go:255-264 *)
      [Expr; Alias; Fill]
  | EFill _ From To Step Staleness => (* walk.go:265-277 *)
      [From; To; Step; Staleness]
  | EInterpolateClause _ _ Items => (* walk.go:278-283 *)
      Items
  | EInterpolateItem Column Expr => (* walk.go:284-290 *)
      [Column; Expr]
  | ELimitClause _ Limit Offset => (* walk.go:291-297 *)
      [Limit; Offset]
  | ELimitByClause Limit ByExpr => (* walk.go:298-304 *)
      [Limit; ByExpr]
  | ESettingsClause _ _ Items => (* walk.go:305-310 *)
      Items
  | ESettingExpr _ Name Expr => (* walk.go:311-317 *)
      [Name; Expr]
  | EFormatClause _ Format => (* walk.go:318-321 *)
      [Format]
  | EInsertStmt _ Format _ Table ColumnNames Values SelectExpr => (* walk.go:322-339 *)
      [Table; ColumnNames; Format] ++ Values ++ [SelectExpr]
  | EColumnNamesExpr _ _ ColumnNames => (* walk.go:340-345 *)
      ColumnNames
  | EAssignmentValues _ _ Values => (* walk.go:346-351 *)
      Values
  | ETableFunctionExpr Name Args => (* walk.go:352-358 *)
      [Name; Args]
  | ETableArgListExpr _ _ Args => (* walk.go:359-364 *)
      Args
  | ENestedIdentifier Ident DotIdent => (* walk.go:365-371 *)
      [Ident; DotIdent]
  | EArrayParamList _ _ Items => (* walk.go:372-375 *)
      [Items]
  | EColumnExprList _ _ _ Items => (* walk.go:376-381 *)
      Items
  | EParamExprList _ _ Items ColumnArgList => (* walk.go:382-388 *)
      [Items; ColumnArgList]
  | EColumnArgList _ _ _ Items => (* walk.go:389-394 *)
      Items
  | EWindowClause _ _ Windows => (* walk.go:395-406 *)
      flat_map window_parts Windows
  | EWindowExpr _ _ WindowName PartitionBy OrderBy Frame => (* walk.go:407-419 *)
      [WindowName; PartitionBy; OrderBy; Frame]
  | EPartitionByClause _ Expr => (* walk.go:420-423 *)
      [Expr]
  | EWindowFrameClause _ _ Extend => (* walk.go:424-427 *)
      [Extend]
  | EWindowFrameExtendExpr Expr _ _ => (* walk.go:428-431 *)
      [Expr]
  | EBetweenClause Expr _ Between _ And => (* walk.go:432-441 *)
      [Expr; Between; And]
  | EWindowFrameNumber Number _ _ => (* walk.go:446-449 *)
      [Number]
  | EWindowFrameParam Param _ _ => (* walk.go:450-453 *)
      [Param]
  | ETopClause _ _ Number _ => (* walk.go:454-457 *)
      [Number]
  | ESampleClause _ Ratio Offset => (* walk.go:458-464 *)
      [Ratio; Offset]
  | ERatioExpr Numerator Denominator => (* walk.go:465-471 *)
      [Numerator; Denominator]
  | EIntervalExpr _ Expr Unit => (* walk.go:472-478 *)
      [Expr; Unit]
  | EDropStmt _ _ _ Name _ OnCluster _ _ => (* walk.go:479-485 *)
      [Name; OnCluster]
  | EDropDatabase _ _ Name _ OnCluster _ => (* walk.go:486-492 *)
      [Name; OnCluster]
  | EDropUserOrRole _ _ _ Names _ _ From => (* walk.go:493-501 *)
      Names ++ [From]
  | ETruncateTable _ _ _ _ Name OnCluster => (* walk.go:502-508 *)
      [Name; OnCluster]
  | ECheckStmt _ Table Partition => (* walk.go:509-515 *)
      [Table; Partition]
  | EOptimizeStmt _ _ Table OnCluster Partition _ Deduplicate => (* walk.go:516-528 *)
      [Table; OnCluster; Partition; Deduplicate]
  | EDeduplicateClause _ By Except => (* walk.go:529-535 *)
      [By; Except]
  | ESystemStmt _ Expr => (* walk.go:536-539 *)
      [Expr]
  | ESystemFlushExpr _ _ _ Distributed => (* walk.go:540-543 *)
      [Distributed]
  | ESystemReloadExpr _ _ OnCluster Dictionary _ => (* walk.go:544-550 *)
      [OnCluster; Dictionary]
  | ESystemSyncExpr _ Cluster => (* walk.go:551-554 *)
      [Cluster]
  | ESystemCtrlExpr _ _ _ _ Cluster => (* walk.go:555-558 *)
      [Cluster]
  | EUseStmt _ _ Database => (* walk.go:561-564 *)
      [Database]
  | ESetStmt _ Settings => (* walk.go:565-568 *)
      [Settings]
  | EExplainStmt _ _ Statement => (* walk.go:569-572 *)
      [Statement]
  | EGrantPrivilegeStmt _ _ OnCluster Privileges On To _ => (* walk.go:573-589 *)
      Privileges ++ [On] ++ To ++ [OnCluster]
  | EPrivilegeClause _ _ _ Params => (* walk.go:590-593 *)
      [Params]
  | ERenameStmt _ _ _ TargetPairList OnCluster => (* walk.go:594-605 *)
      flat_map pair_parts TargetPairList ++ [OnCluster]
  | EDeleteClause _ Table OnCluster WhereExpr => (* walk.go:606-615 *)
      [Table; OnCluster; WhereExpr]
  | ECreateDatabase _ _ Name _ OnCluster Engine Comment => (* walk.go:616-628 *)
      [Name; OnCluster; Engine; Comment]
  | ECreateTable _ _ _ Name _ UUID OnCluster TableSchema Engine SubQuery TableFunction _ Comment => (* walk.go:629-653 *)
      [Name; UUID; OnCluster; TableSchema; Engine; SubQuery; TableFunction; Comment]
  | ECreateView _ _ _ Name _ UUID OnCluster TableSchema Comment SubQuery => (* walk.go:654-672 *)
      [Name; UUID; OnCluster; TableSchema; Comment; SubQuery]
  | ECreateMaterializedView _ _ Name _ OnCluster Refresh RandomizeFor DependsOn Settings _ Engine TableSchema _ Destination SubQuery _ Comment Definer _ => (* walk.go:673-711 *)
      [Name; OnCluster; Refresh; RandomizeFor] ++ DependsOn ++ [Settings; TableSchema; Engine; Destination; SubQuery; Comment; Definer]
  | ECreateLiveView _ _ Name _ UUID OnCluster Destination TableSchema WithTimeout SubQuery => (* walk.go:712-733 *)
      [Name; UUID; OnCluster; Destination; TableSchema; WithTimeout; SubQuery]
  | ECreateDictionary _ _ _ Name _ UUID OnCluster Schema Engine Comment => (* walk.go:734-752 *)
      [Name; UUID; OnCluster; Schema; Engine; Comment]
  | ECreateFunction _ _ _ FunctionName OnCluster Params Expr => (* walk.go:753-765 *)
      [FunctionName; OnCluster; Params; Expr]
  | ECreateNamedCollection _ _ Name _ OnCluster Params => (* walk.go:766-777 *)
      [Name; OnCluster] ++ Params
  | ENamedCollectionParam _ Name Value _ _ => (* walk.go:778-784 *)
      [Name; Value]
  | ECreateRole _ _ _ _ RoleNames AccessStorageType Settings => (* walk.go:785-798 *)
      RoleNames ++ [AccessStorageType] ++ Settings
  | ECreateUser _ _ _ _ UserNames Authentication ValidUntil Hosts DefaultRole DefaultDatabase _ Grantees Settings => (* walk.go:799-829 *)
      UserNames ++ [Authentication; ValidUntil] ++ Hosts ++ [DefaultRole; DefaultDatabase; Grantees] ++ Settings
  | EAlterTable _ _ TableIdentifier OnCluster AlterExprs => (* walk.go:830-841 *)
      [TableIdentifier; OnCluster] ++ AlterExprs
  | EAlterTableAttachPartition _ Partition From => (* walk.go:842-848 *)
      [Partition; From]
  | EAlterTableDetachPartition _ Partition Settings => (* walk.go:849-855 *)
      [Partition; Settings]
  | EAlterTableDropPartition _ _ Partition Settings => (* walk.go:856-862 *)
      [Partition; Settings]
  | EAlterTableMaterializeProjection _ _ _ ProjectionName Partition => (* walk.go:863-869 *)
      [ProjectionName; Partition]
  | EAlterTableMaterializeIndex _ _ _ IndexName Partition => (* walk.go:870-876 *)
      [IndexName; Partition]
  | EAlterTableFreezePartition _ _ Partition => (* walk.go:877-880 *)
      [Partition]
  | EAlterTableAddColumn _ _ Column _ After Settings => (* walk.go:881-890 *)
      [Column; After; Settings]
  | EAlterTableAddIndex _ _ Index _ After => (* walk.go:891-897 *)
      [Index; After]
  | EAlterTableAddProjection _ _ _ TableProjection After => (* walk.go:898-904 *)
      [TableProjection; After]
  | EAlterTableDropColumn _ ColumnName _ => (* walk.go:905-908 *)
      [ColumnName]
  | EAlterTableDropIndex _ IndexName _ => (* walk.go:909-912 *)
      [IndexName]
  | EAlterTableDropProjection _ ProjectionName _ => (* walk.go:913-916 *)
      [ProjectionName]
  | EAlterTableClearColumn _ _ _ ColumnName PartitionExpr => (* walk.go:919-925 *)
      [ColumnName; PartitionExpr]
  | EAlterTableClearIndex _ _ _ IndexName PartitionExpr => (* walk.go:926-932 *)
      [IndexName; PartitionExpr]
  | EAlterTableClearProjection _ _ _ ProjectionName PartitionExpr => (* walk.go:933-939 *)
      [ProjectionName; PartitionExpr]
  | EAlterTableRenameColumn _ _ OldColumnName NewColumnName => (* walk.go:940-946 *)
      [OldColumnName; NewColumnName]
  | EAlterTableModifyQuery _ _ SelectExpr => (* walk.go:947-950 *)
      [SelectExpr]
  | EAlterTableModifyOrderBy _ _ OrderBy => (* walk.go:951-954 *)
      [OrderBy]
  | EAlterTableModifyTTL _ _ TTL => (* walk.go:955-958 *)
      [TTL]
  | EAlterTableModifyColumn _ _ _ Column RemovePropertyType => (* walk.go:959-965 *)
      [Column; RemovePropertyType]
  | EAlterTableModifySetting _ _ Settings => (* walk.go:966-971 *)
      Settings
  | EAlterTableResetSetting _ _ Settings => (* walk.go:972-977 *)
      Settings
  | EAlterTableReplacePartition _ Partition Table => (* walk.go:978-984 *)
      [Partition; Table]
  | EAlterTableDelete _ _ WhereClause => (* walk.go:985-988 *)
      [WhereClause]
  | EAlterTableUpdate _ _ Assignments InPartition WhereClause => (* walk.go:989-1000 *)
      Assignments ++ [InPartition; WhereClause]
  | EUpdateAssignment _ Column Expr => (* walk.go:1001-1007 *)
      [Column; Expr]
  | EAlterRole _ _ _ RoleRenamePairs Settings => (* walk.go:1008-1018 *)
      RoleRenamePairs ++ Settings
  | ERoleRenamePair RoleName NewName _ => (* walk.go:1019-1025 *)
      [RoleName; NewName]
  | ETableSchemaClause _ _ Columns AliasTable TableFunction => (* walk.go:1026-1037 *)
      Columns ++ [AliasTable; TableFunction]
  | EColumnDef _ _ Name Type_ NotNull Nullable DefaultExpr MaterializedExpr AliasExpr Codec TTL Comment CompressionCodec => (* walk.go:1038-1071 *)
      [Name; Type_; NotNull; Nullable; DefaultExpr; MaterializedExpr; AliasExpr; Codec; TTL; Comment; CompressionCodec]
  | EScalarType Name => (* walk.go:1072-1075 *)
      [Name]
  | EJSONType Name Options => (* walk.go:1076-1082 *)
      [Name] ++ json_options Options
  | EPropertyType Name => (* walk.go:1083-1086 *)
      [Name]
  | ETypeWithParams _ _ Name Params => (* walk.go:1087-1095 *)
      [Name] ++ Params
  | EComplexType _ _ Name Params => (* walk.go:1096-1104 *)
      [Name] ++ Params
  | ENestedType _ _ Name Columns => (* walk.go:1105-1113 *)
      [Name] ++ Columns
  | ECompressionCodec _ _ Type_ TypeLevel Name Level => (* walk.go:1114-1126 *)
      [Type_; TypeLevel; Name; Level]
  | EEngineExpr _ _ _ Params PrimaryKey PartitionBy SampleBy TTL Settings OrderBy => (* walk.go:1127-1148 *)
      [Params; PrimaryKey; PartitionBy; SampleBy; TTL; Settings; OrderBy]
  | EPrimaryKeyClause _ Expr => (* walk.go:1149-1152 *)
      [Expr]
  | ESampleByClause _ Expr => (* walk.go:1153-1156 *)
      [Expr]
  | ETTLClause _ _ Items => (* walk.go:1157-1162 *)
      Items
  | ETTLExpr _ Expr Policy => (* walk.go:1163-1169 *)
      [Expr; Policy]
  | ETTLPolicy Item Where GroupBy => (* walk.go:1170-1179 *)
      [Item; Where; GroupBy]
  | ETTLPolicyRule _ ToVolume ToDisk Action => (* walk.go:1180-1189 *)
      [ToVolume; ToDisk; Action]
  | ETTLPolicyRuleAction _ _ _ Codec => (* walk.go:1190-1193 *)
      [Codec]
  | ERefreshExpr _ _ Interval Offset => (* walk.go:1194-1200 *)
      [Interval; Offset]
  | EDestinationClause _ TableIdentifier TableSchema => (* walk.go:1201-1207 *)
      [TableIdentifier; TableSchema]
  | EConstraintClause _ Constraint Expr => (* walk.go:1208-1214 *)
      [Constraint; Expr]
  | ERoleName Name Scope OnCluster => (* walk.go:1215-1224 *)
      [Name; Scope; OnCluster]
  | ESettingPair Name _ Value => (* walk.go:1225-1231 *)
      [Name; Value]
  | ERoleSetting SettingPairs Modifier => (* walk.go:1232-1240 *)
      SettingPairs ++ [Modifier]
  | EAuthenticationClause _ _ _ _ AuthValue LdapServer KerberosRealm _ => (* walk.go:1241-1250 *)
      [AuthValue; LdapServer; KerberosRealm]
  | EHostClause _ _ _ HostValue => (* walk.go:1251-1254 *)
      [HostValue]
  | EDefaultRoleClause _ _ Roles _ => (* walk.go:1255-1260 *)
      Roles
  | EGranteesClause _ _ Grantees ExceptUsers _ _ => (* walk.go:1261-1271 *)
      Grantees ++ ExceptUsers
  | EWithTimeoutClause _ Expr Number => (* walk.go:1272-1278 *)
      [Expr; Number]
  | EDictionarySchemaClause _ Attributes _ => (* walk.go:1279-1284 *)
      Attributes
  | EDictionaryAttribute _ _ Name Type_ Default Expression _ _ _ => (* walk.go:1285-1297 *)
      [Name; Type_; Default; Expression]
  | EDictionaryEngineClause _ PrimaryKey Source Lifetime Layout Range Settings => (* walk.go:1298-1316 *)
      [PrimaryKey; Source; Lifetime; Layout; Range; Settings]
  | EDictionaryPrimaryKeyClause _ Keys _ => (* walk.go:1317-1320 *)
      [Keys]
  | EDictionarySourceClause _ Source Args _ => (* walk.go:1321-1329 *)
      [Source] ++ Args
  | EDictionaryArgExpr _ Name Value Args _ _ => (* walk.go:1330-1341 *)
      [Name; Value] ++ Args
  | EDictionaryLifetimeClause _ Min Max Value _ => (* walk.go:1342-1351 *)
      [Value; Min; Max]
  | EDictionaryLayoutClause _ Layout Args _ => (* walk.go:1352-1360 *)
      [Layout] ++ Args
  | EDictionaryRangeClause _ Min Max _ => (* walk.go:1361-1367 *)
      [Min; Max]
  | ETypedPlaceholder _ _ Name Type_ => (* walk.go:1370-1376 *)
      [Name; Type_]
  | EQueryParam _ _ Name Type_ => (* walk.go:1377-1383 *)
      [Name; Type_]
  | EMapLiteral _ _ KeyValues => (* walk.go:1384-1392 *)
      flat_map key_value KeyValues
  | ENamedParameterExpr _ Name Value => (* walk.go:1393-1399 *)
      [Name; Value]
  | EObjectParams Object Params => (* walk.go:1400-1406 *)
      [Object; Params]
  | EWindowFunctionExpr Function _ OverExpr => (* walk.go:1407-1413 *)
      [Function; OverExpr]
  | ENotExpr _ Expr => (* walk.go:1414-1417 *)
      [Expr]
  | ENegateExpr _ Expr => (* walk.go:1418-1421 *)
      [Expr]
  | EGlobalInOperation _ Expr => (* walk.go:1422-1425 *)
      [Expr]
  | EExtractExpr _ _ Parameters => (* walk.go:1426-1431 *)
      Parameters
  | EIntervalFrom Interval _ FromExpr => (* walk.go:1432-1438 *)
      [Interval; FromExpr]
  | EIsNullExpr _ _ Expr => (* walk.go:1439-1442 *)
      [Expr]
  | EIsNotNullExpr _ _ Expr => (* walk.go:1443-1446 *)
      [Expr]
  | ETernaryOperation Condition TrueExpr FalseExpr => (* walk.go:1447-1456 *)
      [Condition; TrueExpr; FalseExpr]
  | EIndexOperation Object _ Index => (* walk.go:1457-1463 *)
      [Object; Index]
  | ETableIndex _ Name ColumnExpr ColumnType Granularity => (* walk.go:1466-1478 *)
      [Name; ColumnExpr; ColumnType; Granularity]
  | EProjectionOrderByClause _ Columns => (* walk.go:1479-1482 *)
      [Columns]
  | EProjectionSelectStmt _ _ With SelectColumns GroupBy OrderBy => (* walk.go:1483-1495 *)
      [With; SelectColumns; GroupBy; OrderBy]
  | ETableProjection _ _ Identifier Select => (* walk.go:1496-1502 *)
      [Identifier; Select]
  | ERemovePropertyType _ PropertyType => (* walk.go:1503-1506 *)
      [PropertyType]
  | EEnumType Name _ _ Values => (* walk.go:1507-1515 *)
      [Name] ++ Values
  | EEnumValue Name Value => (* walk.go:1516-1522 *)
      [Name; Value]
  | EClusterClause _ Expr => (* walk.go:1523-1526 *)
      [Expr]
  | EPartitionClause _ Expr ID _ => (* walk.go:1527-1533 *)
      [Expr; ID]
  | EUUID Value => (* walk.go:1534-1537 *)
      [Value]
  | EColumnTypeExpr Name => (* walk.go:1538-1541 *)
      [Name]
  | EUnaryExpr _ _ Expr => (* walk.go:1542-1545 *)
      [Expr]
  | EJoinConstraintClause _ On Using => (* walk.go:1546-1552 *)
      [On; Using]
  | ETargetPair Old New => (* walk.go:1553-1559 *)
      [Old; New]
  | EShowStmt _ _ _ Target _ _ LikePattern Limit OutFile Format => (* walk.go:1560-1575 *)
      [Target; LikePattern; Limit; OutFile; Format]
  | EDescribeStmt _ _ _ Target => (* walk.go:1576-1579 *)
      [Target]
  | EDistinctOn Idents _ _ => (* walk.go:1580-1585 *)
      Idents
  | _ => []
  end.

Section Walk.
  (** The callback, with the state it may read and write. *)
  Context {St : Type}.
  Variable fn : St -> expr -> St * bool.

  (** A sequence of [if !Walk(child, fn) { return false }]. *)
  Fixpoint walk_seq (w : expr -> St -> St * bool) (l : list expr) (s : St) : St * bool :=
    match l with
    | [] => (s, true)
    | c :: r => let (s1, b) := w c s in if b then walk_seq w r s1 else (s1, false)
    end.

  (** walk.go:12-1588 [Walk], with fuel for the depth of the tree. *)
  Fixpoint walk_fuel (n : nat) (e : expr) (s : St) : St * bool :=
    match n with
    | O => (s, true)
    | S m =>
        if is_nil e then (s, true)
        else let (s1, b) := fn s e in
             if b then walk_seq (walk_fuel m) (walk_children e) s1 else (s1, false)
    end.

  Definition Walk (e : expr) (s : St) : St * bool := walk_fuel (esize e) e s.
End Walk.

(** walk.go:1646-1673 [WalkWithBreak]. The state carries whether the inner callback has
    been called: its first call is for the root, the only node for which [child == node]
    (node pointers are compared, and no node is below itself). *)
Definition WalkWithBreak {St} (fn : St -> expr -> St * bool) (node : expr) (s : St) : St * bool :=
  if is_nil node then (s, true)
  else
    let (s1, b) := fn s node in
    if negb b then (s1, false)
    else
      let inner := fun (x : St * bool * bool) child =>
        let '(s, called, continueWalk) := x in
        if negb called then ((s, true, continueWalk), true)
        else let (s', b) := fn s child in
             if negb b then ((s', true, false), false) else ((s', true, continueWalk), true) in
      let '(s2, _, continueWalk) := fst (Walk inner node (s1, false, true)) in
      (s2, continueWalk).

(** walk.go:1677-1687 [Find]; the second component is whether there is a match. *)
Definition Find (root : expr) (predicate : expr -> bool) : expr * bool :=
  let found := fst (WalkWithBreak (fun found node => if predicate node then (node, false) else (found, true)) root ENil) in
  (found, negb (is_nil found)).

(** walk.go:1690-1699 [FindAll]. *)
Definition FindAll (root : expr) (predicate : expr -> bool) : list expr :=
  fst (Walk (fun matches node => (if predicate node then matches ++ [node] else matches, true)) root []).
