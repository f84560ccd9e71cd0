(** Proofs for C41: a logic in which the occurrences of a word in the input and in the tree are balanced. *)
From Coq Require Import String List Arith Bool Lia ZArith.
From Verif Require Import Str Keyword Lexer LayoutSpec Ast AstPos AstSubs Prog RunFacts ParserCommon ParserExpr Parser Words KeepSpec.
Import ListNotations.
Local Open Scope string_scope.
Local Open Scope Z_scope.

(** ** Weights *)

(** The word whose occurrences are counted. *)
Class Word := { word : string; word_plain : plain word; tight : bool }.

Definition zsum (l : list Z) : Z := fold_right Z.add 0 l.
Lemma zsum_app a b : zsum (a ++ b) = zsum a + zsum b.
Proof. unfold zsum. induction a as [|x a IH]; cbn [fold_right app]; [reflexivity|]. rewrite IH. lia. Qed.

Section Weights.
  Context `{Word}.
  Definition ws (s : string) : Z := if String.eqb (undot s) word then 1 else 0.
  Fixpoint cnt (e : expr) : Z :=
    match e with
  | ENil => 0
    | ESelectItem xExpr xModifiers xAlias => cnt xExpr + zsum (map cnt xModifiers) + cnt xAlias
    | EOperationExpr _ xKind => ws xKind
    | ETernaryOperation xCondition xTrueExpr xFalseExpr => cnt xCondition + cnt xTrueExpr + cnt xFalseExpr
    | EBinaryOperation xLeftExpr _ xRightExpr _ _ => cnt xLeftExpr + cnt xRightExpr
    | EIndexOperation xObject xOperation xIndex => cnt xObject + ws xOperation + cnt xIndex
    | EJoinTableExpr xTable _ xSampleRatio _ => cnt xTable + cnt xSampleRatio
    | EAlterTable _ _ xTableIdentifier xOnCluster xAlterExprs => cnt xTableIdentifier + cnt xOnCluster + zsum (map cnt xAlterExprs)
    | EAlterTableAttachPartition _ xPartition xFrom => cnt xPartition + cnt xFrom
    | EAlterTableDetachPartition _ xPartition xSettings => cnt xPartition + cnt xSettings
    | EAlterTableDropPartition _ _ xPartition xSettings => cnt xPartition + cnt xSettings
    | EAlterTableMaterializeProjection _ _ _ xProjectionName xPartition => cnt xProjectionName + cnt xPartition
    | EAlterTableMaterializeIndex _ _ _ xIndexName xPartition => cnt xIndexName + cnt xPartition
    | EAlterTableFreezePartition _ _ xPartition => cnt xPartition
    | EAlterTableAddColumn _ _ xColumn _ xAfter xSettings => cnt xColumn + cnt xAfter + cnt xSettings
    | EAlterTableAddIndex _ _ xIndex _ xAfter => cnt xIndex + cnt xAfter
    | EProjectionOrderByClause _ xColumns => cnt xColumns
    | EProjectionSelectStmt _ _ xWith xSelectColumns xGroupBy xOrderBy => cnt xWith + cnt xSelectColumns + cnt xGroupBy + cnt xOrderBy
    | ETableProjection _ _ xIdentifier xSelect => cnt xIdentifier + cnt xSelect
    | EAlterTableAddProjection _ _ _ xTableProjection xAfter => cnt xTableProjection + cnt xAfter
    | EAlterTableDropColumn _ xColumnName _ => cnt xColumnName
    | EAlterTableDropIndex _ xIndexName _ => cnt xIndexName
    | EAlterTableDropProjection _ xProjectionName _ => cnt xProjectionName
    | EAlterTableRemoveTTL _ _ => 0
    | EAlterTableClearColumn _ _ _ xColumnName xPartitionExpr => cnt xColumnName + cnt xPartitionExpr
    | EAlterTableClearIndex _ _ _ xIndexName xPartitionExpr => cnt xIndexName + cnt xPartitionExpr
    | EAlterTableClearProjection _ _ _ xProjectionName xPartitionExpr => cnt xProjectionName + cnt xPartitionExpr
    | EAlterTableRenameColumn _ _ xOldColumnName xNewColumnName => cnt xOldColumnName + cnt xNewColumnName
    | EAlterTableModifyQuery _ _ xSelectExpr => cnt xSelectExpr
    | EAlterTableModifyOrderBy _ _ xOrderBy => cnt xOrderBy
    | EAlterTableModifyTTL _ _ xTTL => cnt xTTL
    | EAlterTableModifyColumn _ _ _ xColumn xRemovePropertyType => cnt xColumn + cnt xRemovePropertyType
    | EAlterTableModifySetting _ _ xSettings => zsum (map cnt xSettings)
    | EAlterTableResetSetting _ _ xSettings => zsum (map cnt xSettings)
    | EAlterTableReplacePartition _ xPartition xTable => cnt xPartition + cnt xTable
    | EAlterTableDelete _ _ xWhereClause => cnt xWhereClause
    | EAlterTableUpdate _ _ xAssignments xInPartition xWhereClause => zsum (map cnt xAssignments) + cnt xInPartition + cnt xWhereClause
    | EUpdateAssignment _ xColumn xExpr => cnt xColumn + cnt xExpr
    | ERemovePropertyType _ xPropertyType => cnt xPropertyType
    | ETableIndex _ xName xColumnExpr xColumnType xGranularity => cnt xName + cnt xColumnExpr + cnt xColumnType + cnt xGranularity
    | EIdent xName _ _ _ => ws xName
    | EUUID xValue => cnt xValue
    | ECreateDatabase _ _ xName _ xOnCluster xEngine xComment => cnt xName + cnt xOnCluster + cnt xEngine + cnt xComment
    | ECreateTable _ _ _ xName _ xUUID xOnCluster xTableSchema xEngine xSubQuery xTableFunction _ xComment => cnt xName + cnt xUUID + cnt xOnCluster + cnt xTableSchema + cnt xEngine + cnt xSubQuery + cnt xTableFunction + cnt xComment
    | ECreateMaterializedView _ _ xName _ xOnCluster xRefresh xRandomizeFor xDependsOn xSettings _ xEngine xTableSchema _ xDestination xSubQuery _ xComment xDefiner xSQLSecurity => cnt xName + cnt xOnCluster + cnt xRefresh + cnt xRandomizeFor + zsum (map cnt xDependsOn) + cnt xSettings + cnt xEngine + cnt xTableSchema + cnt xDestination + cnt xSubQuery + cnt xComment + cnt xDefiner + ws xSQLSecurity
    | ECreateView _ _ _ xName _ xUUID xOnCluster xTableSchema xComment xSubQuery => cnt xName + cnt xUUID + cnt xOnCluster + cnt xTableSchema + cnt xComment + cnt xSubQuery
    | ECreateFunction _ _ _ xFunctionName xOnCluster xParams xExpr => cnt xFunctionName + cnt xOnCluster + cnt xParams + cnt xExpr
    | ERoleName xName xScope xOnCluster => cnt xName + cnt xScope + cnt xOnCluster
    | ESettingPair xName _ xValue => cnt xName + cnt xValue
    | ERoleSetting xSettingPairs xModifier => zsum (map cnt xSettingPairs) + cnt xModifier
    | ECreateRole _ _ _ _ xRoleNames xAccessStorageType xSettings => zsum (map cnt xRoleNames) + cnt xAccessStorageType + zsum (map cnt xSettings)
    | EAuthenticationClause _ _ _ xAuthType xAuthValue xLdapServer xKerberosRealm _ => ws xAuthType + cnt xAuthValue + cnt xLdapServer + cnt xKerberosRealm
    | EHostClause _ _ xHostType xHostValue => ws xHostType + cnt xHostValue
    | EDefaultRoleClause _ _ xRoles _ => zsum (map cnt xRoles)
    | EGranteesClause _ _ xGrantees xExceptUsers _ _ => zsum (map cnt xGrantees) + zsum (map cnt xExceptUsers)
    | ECreateUser _ _ _ _ xUserNames xAuthentication xValidUntil xHosts xDefaultRole xDefaultDatabase _ xGrantees xSettings => zsum (map cnt xUserNames) + cnt xAuthentication + cnt xValidUntil + zsum (map cnt xHosts) + cnt xDefaultRole + cnt xDefaultDatabase + cnt xGrantees + zsum (map cnt xSettings)
    | EAlterRole _ _ _ xRoleRenamePairs xSettings => zsum (map cnt xRoleRenamePairs) + zsum (map cnt xSettings)
    | ERoleRenamePair xRoleName xNewName _ => cnt xRoleName + cnt xNewName
    | EDestinationClause _ xTableIdentifier xTableSchema => cnt xTableIdentifier + cnt xTableSchema
    | EConstraintClause _ xConstraint xExpr => cnt xConstraint + cnt xExpr
    | ENullLiteral _ => 0
    | ENotNullLiteral _ xNullLiteral => cnt xNullLiteral
    | ENestedIdentifier xIdent xDotIdent => cnt xIdent + cnt xDotIdent
    | EPath xFields => zsum (map cnt xFields)
    | ETableIdentifier xDatabase xTable => cnt xDatabase + cnt xTable
    | ETableSchemaClause _ _ xColumns xAliasTable xTableFunction => zsum (map cnt xColumns) + cnt xAliasTable + cnt xTableFunction
    | ETableArgListExpr _ _ xArgs => zsum (map cnt xArgs)
    | ETableFunctionExpr xName xArgs => cnt xName + cnt xArgs
    | EClusterClause _ xExpr => cnt xExpr
    | EPartitionClause _ xExpr xID _ => cnt xExpr + cnt xID
    | EPartitionByClause _ xExpr => cnt xExpr
    | EPrimaryKeyClause _ xExpr => cnt xExpr
    | ESampleByClause _ xExpr => cnt xExpr
    | ETTLPolicyRuleAction _ _ xAction xCodec => ws xAction + cnt xCodec
    | ERefreshExpr _ xFrequency xInterval xOffset => ws xFrequency + cnt xInterval + cnt xOffset
    | ETTLPolicyRule _ xToVolume xToDisk xAction => cnt xToVolume + cnt xToDisk + cnt xAction
    | ETTLPolicy xItem xWhere xGroupBy => cnt xItem + cnt xWhere + cnt xGroupBy
    | ETTLExpr _ xExpr xPolicy => cnt xExpr + cnt xPolicy
    | ETTLClause _ _ xItems => zsum (map cnt xItems)
    | EFill _ xFrom xTo xStep xStaleness => cnt xFrom + cnt xTo + cnt xStep + cnt xStaleness
    | EOrderExpr _ xExpr xAlias xDirection xFill => cnt xExpr + cnt xAlias + ws xDirection + cnt xFill
    | EInterpolateItem xColumn xExpr => cnt xColumn + cnt xExpr
    | EInterpolateClause _ _ xItems => zsum (map cnt xItems)
    | EOrderByClause _ _ xItems xInterpolate => zsum (map cnt xItems) + cnt xInterpolate
    | ESettingExpr _ xName xExpr => cnt xName + cnt xExpr
    | ESettingsClause _ _ xItems => zsum (map cnt xItems)
    | EParamExprList _ _ xItems xColumnArgList => cnt xItems + cnt xColumnArgList
    | EKeyValue xKey xValue => cnt xKey + cnt xValue
    | EMapLiteral _ _ xKeyValues => zsum (map cnt xKeyValues)
    | ENamedParameterExpr _ xName xValue => cnt xName + cnt xValue
    | EQueryParam _ _ xName xType_ => cnt xName + cnt xType_
    | EArrayParamList _ _ xItems => cnt xItems
    | EObjectParams xObject xParams => cnt xObject + cnt xParams
    | EFunctionExpr xName xParams => cnt xName + cnt xParams
    | EWindowFunctionExpr xFunction _ xOverExpr => cnt xFunction + cnt xOverExpr
    | ETypedPlaceholder _ _ xName xType_ => cnt xName + cnt xType_
    | EColumnExpr xExpr xAlias => cnt xExpr + cnt xAlias
    | EColumnDef _ _ xName xType_ xNotNull xNullable xDefaultExpr xMaterializedExpr xAliasExpr xCodec xTTL xComment xCompressionCodec => cnt xName + cnt xType_ + cnt xNotNull + cnt xNullable + cnt xDefaultExpr + cnt xMaterializedExpr + cnt xAliasExpr + cnt xCodec + cnt xTTL + cnt xComment + cnt xCompressionCodec
    | EScalarType xName => cnt xName
    | EJSONPath xIdents => zsum (map cnt xIdents)
    | EJSONTypeHint xPath xType_ => cnt xPath + cnt xType_
    | EJSONOption xSkipPath xSkipRegex xMaxDynamicPaths xMaxDynamicTypes xColumn => cnt xSkipPath + cnt xSkipRegex + cnt xMaxDynamicPaths + cnt xMaxDynamicTypes + cnt xColumn
    | EJSONOptions _ _ xItems => zsum (map cnt xItems)
    | EJSONType xName xOptions => cnt xName + cnt xOptions
    | EPropertyType xName => cnt xName
    | ETypeWithParams _ _ xName xParams => cnt xName + zsum (map cnt xParams)
    | EComplexType _ _ xName xParams => cnt xName + zsum (map cnt xParams)
    | ENestedType _ _ xName xColumns => cnt xName + zsum (map cnt xColumns)
    | ECompressionCodec _ _ xType_ xTypeLevel xName xLevel => cnt xType_ + cnt xTypeLevel + cnt xName + cnt xLevel
    | ENumberLiteral _ _ xLiteral _ => ws xLiteral
    | EStringLiteral _ _ xLiteral => ws xLiteral
    | EBoolLiteral _ _ xLiteral => ws xLiteral
    | EPlaceHolder _ _ xType_ => ws xType_
    | ERatioExpr xNumerator xDenominator => cnt xNumerator + cnt xDenominator
    | EEnumValue xName xValue => cnt xName + cnt xValue
    | EEnumType xName _ _ xValues => cnt xName + zsum (map cnt xValues)
    | EIntervalExpr _ xExpr xUnit => cnt xExpr + cnt xUnit
    | EEngineExpr _ _ xName xParams xPrimaryKey xPartitionBy xSampleBy xTTL xSettings xOrderBy => ws xName + cnt xParams + cnt xPrimaryKey + cnt xPartitionBy + cnt xSampleBy + cnt xTTL + cnt xSettings + cnt xOrderBy
    | EColumnTypeExpr xName => cnt xName
    | EColumnArgList _ _ _ xItems => zsum (map cnt xItems)
    | EColumnExprList _ _ _ xItems => zsum (map cnt xItems)
    | EWhenClause _ _ xWhen xThen _ xElse => cnt xWhen + cnt xThen + cnt xElse
    | ECaseExpr _ _ xExpr xWhens _ xElse => cnt xExpr + zsum (map cnt xWhens) + cnt xElse
    | ECastExpr _ xExpr _ _ xAsType => cnt xExpr + cnt xAsType
    | EWithClause _ _ xCTEs => zsum (map cnt xCTEs)
    | ETopClause _ _ xNumber _ => cnt xNumber
    | ECreateLiveView _ _ xName _ xUUID xOnCluster xDestination xTableSchema xWithTimeout xSubQuery => cnt xName + cnt xUUID + cnt xOnCluster + cnt xDestination + cnt xTableSchema + cnt xWithTimeout + cnt xSubQuery
    | ECreateDictionary _ _ _ xName _ xUUID xOnCluster xSchema xEngine xComment => cnt xName + cnt xUUID + cnt xOnCluster + cnt xSchema + cnt xEngine + cnt xComment
    | ECreateNamedCollection _ _ xName _ xOnCluster xParams => cnt xName + cnt xOnCluster + zsum (map cnt xParams)
    | ENamedCollectionParam _ xName xValue _ _ => cnt xName + cnt xValue
    | EDictionarySchemaClause _ xAttributes _ => zsum (map cnt xAttributes)
    | EDictionaryAttribute _ _ xName xType_ xDefault xExpression _ _ _ => cnt xName + cnt xType_ + cnt xDefault + cnt xExpression
    | EDictionaryEngineClause _ xPrimaryKey xSource xLifetime xLayout xRange xSettings => cnt xPrimaryKey + cnt xSource + cnt xLifetime + cnt xLayout + cnt xRange + cnt xSettings
    | EDictionaryPrimaryKeyClause _ xKeys _ => cnt xKeys
    | EDictionarySourceClause _ xSource xArgs _ => cnt xSource + zsum (map cnt xArgs)
    | EDictionaryArgExpr _ xName xValue xArgs _ _ => cnt xName + cnt xValue + zsum (map cnt xArgs)
    | EDictionaryLifetimeClause _ xMin xMax xValue _ => cnt xMin + cnt xMax + cnt xValue
    | EDictionaryLayoutClause _ xLayout xArgs _ => cnt xLayout + zsum (map cnt xArgs)
    | EDictionaryRangeClause _ xMin xMax _ => cnt xMin + cnt xMax
    | EWithTimeoutClause _ xExpr xNumber => cnt xExpr + cnt xNumber
    | ETableExpr _ _ xAlias xExpr _ => cnt xAlias + cnt xExpr
    | EOnClause _ xOn => cnt xOn
    | EUsingClause _ xUsing => cnt xUsing
    | EJoinExpr _ xLeft xRight xModifiers xConstraints => cnt xLeft + cnt xRight + zsum (map ws xModifiers) + cnt xConstraints
    | EJoinConstraintClause _ xOn xUsing => cnt xOn + cnt xUsing
    | EFromClause _ xExpr => cnt xExpr
    | EIsNullExpr _ _ xExpr => cnt xExpr
    | EIsNotNullExpr _ _ xExpr => cnt xExpr
    | EAliasExpr xExpr _ xAlias => cnt xExpr + cnt xAlias
    | EWhereClause _ xExpr => cnt xExpr
    | EPrewhereClause _ xExpr => cnt xExpr
    | EGroupByClause _ _ xAggregateType xExpr _ _ _ => ws xAggregateType + cnt xExpr
    | EHavingClause _ xExpr => cnt xExpr
    | ELimitClause _ xLimit xOffset => cnt xLimit + cnt xOffset
    | ELimitByClause xLimit xByExpr => cnt xLimit + cnt xByExpr
    | EWindowExpr _ _ xWindowName xPartitionBy xOrderBy xFrame => cnt xWindowName + cnt xPartitionBy + cnt xOrderBy + cnt xFrame
    | EWindowDefinition xName _ xExpr => cnt xName + cnt xExpr
    | EWindowClause _ _ xWindows => zsum (map cnt xWindows)
    | EWindowFrameClause _ xType_ xExtend => ws xType_ + cnt xExtend
    | EWindowFrameExtendExpr xExpr xDirection _ => cnt xExpr + ws xDirection
    | EBetweenClause xExpr _ xBetween _ xAnd => cnt xExpr + cnt xBetween + cnt xAnd
    | EWindowFrameCurrentRow _ _ => 0
    | EWindowFrameUnbounded _ _ xDirection => ws xDirection
    | EWindowFrameNumber xNumber _ xDirection => cnt xNumber + ws xDirection
    | EWindowFrameParam xParam _ xDirection => cnt xParam + ws xDirection
    | ESelectQuery _ _ xWith xTop _ xDistinctOn xSelectItems xFrom xWindow xPrewhere xWhere xGroupBy _ xHaving xOrderBy xLimitBy xLimit xSettings xFormat xUnionAll xUnionDistinct xExcept xIntersect => cnt xWith + cnt xTop + cnt xDistinctOn + zsum (map cnt xSelectItems) + cnt xFrom + cnt xWindow + cnt xPrewhere + cnt xWhere + cnt xGroupBy + cnt xHaving + cnt xOrderBy + cnt xLimitBy + cnt xLimit + cnt xSettings + cnt xFormat + cnt xUnionAll + cnt xUnionDistinct + cnt xExcept + cnt xIntersect
    | EDistinctOn xIdents _ _ => zsum (map cnt xIdents)
    | ESubQuery _ xSelect => cnt xSelect
    | ENotExpr _ xExpr => cnt xExpr
    | ENegateExpr _ xExpr => cnt xExpr
    | EGlobalInOperation _ xExpr => cnt xExpr
    | EIntervalFrom xInterval _ xFromExpr => cnt xInterval + cnt xFromExpr
    | EExtractExpr _ _ xParameters => zsum (map cnt xParameters)
    | EDropDatabase _ _ xName _ xOnCluster xModifier => cnt xName + cnt xOnCluster + ws xModifier
    | EDropStmt _ _ xDropTarget xName _ xOnCluster _ xModifier => ws xDropTarget + cnt xName + cnt xOnCluster + ws xModifier
    | EDropUserOrRole _ xTarget _ xNames _ xModifier xFrom => ws xTarget + zsum (map cnt xNames) + ws xModifier + cnt xFrom
    | EUseStmt _ _ xDatabase => cnt xDatabase
    | ECTEStmt _ xExpr xAlias => cnt xExpr + cnt xAlias
    | ESetStmt _ xSettings => cnt xSettings
    | EFormatClause _ xFormat => cnt xFormat
    | EOptimizeStmt _ _ xTable xOnCluster xPartition _ xDeduplicate => cnt xTable + cnt xOnCluster + cnt xPartition + cnt xDeduplicate
    | EDeduplicateClause _ xBy xExcept => cnt xBy + cnt xExcept
    | ESystemStmt _ xExpr => cnt xExpr
    | ESystemFlushExpr _ _ _ xDistributed => cnt xDistributed
    | ESystemReloadExpr _ _ xOnCluster xDictionary xType_ => cnt xOnCluster + cnt xDictionary + ws xType_
    | ESystemSyncExpr _ xCluster => cnt xCluster
    | ESystemCtrlExpr _ _ xCommand xType_ xCluster => ws xCommand + ws xType_ + cnt xCluster
    | ESystemDropExpr _ _ _ => 0
    | ETruncateTable _ _ _ _ xName xOnCluster => cnt xName + cnt xOnCluster
    | ESampleClause _ xRatio xOffset => cnt xRatio + cnt xOffset
    | EDeleteClause _ xTable xOnCluster xWhereExpr => cnt xTable + cnt xOnCluster + cnt xWhereExpr
    | EColumnNamesExpr _ _ xColumnNames => zsum (map cnt xColumnNames)
    | EAssignmentValues _ _ xValues => zsum (map cnt xValues)
    | EInsertStmt _ xFormat _ xTable xColumnNames xValues xSelectExpr => cnt xFormat + cnt xTable + cnt xColumnNames + zsum (map cnt xValues) + cnt xSelectExpr
    | ECheckStmt _ xTable xPartition => cnt xTable + cnt xPartition
    | EUnaryExpr _ xKind xExpr => ws xKind + cnt xExpr
    | ERenameStmt _ _ xRenameTarget xTargetPairList xOnCluster => ws xRenameTarget + zsum (map cnt xTargetPairList) + cnt xOnCluster
    | ETargetPair xOld xNew => cnt xOld + cnt xNew
    | EExplainStmt _ xType_ xStatement => ws xType_ + cnt xStatement
    | EPrivilegeClause _ _ xKeywords xParams => zsum (map ws xKeywords) + cnt xParams
    | EGrantPrivilegeStmt _ _ xOnCluster xPrivileges xOn xTo xWithOptions => cnt xOnCluster + zsum (map cnt xPrivileges) + cnt xOn + zsum (map cnt xTo) + zsum (map ws xWithOptions)
    | EShowStmt _ _ xShowType xTarget _ xLikeType xLikePattern xLimit xOutFile xFormat => ws xShowType + cnt xTarget + ws xLikeType + cnt xLikePattern + cnt xLimit + cnt xOutFile + cnt xFormat
    | EDescribeStmt _ _ xDescribeType xTarget => ws xDescribeType + cnt xTarget
    end.
  (** The token of an item. *)
  Definition tw (o : option tok) : Z := match o with Some t => ws (t_str t) | None => 0 end.
  Definition hc (i : item) : Z := tw (it_tok i).
  Definition left (s : pstate) : Z := zsum (map hc (here s :: rest s)).
End Weights.

Class Weigh `{Word} (A : Type) := size : A -> Z.
Global Instance W_expr `{Word} : Weigh expr := cnt.
Global Instance W_string `{Word} : Weigh string := ws.
Global Instance W_bool `{Word} : Weigh bool := fun _ => 0.
Global Instance W_pos `{Word} : Weigh pos := fun _ => 0.
Global Instance W_nat `{Word} : Weigh nat := fun _ => 0.
Global Instance W_unit `{Word} : Weigh unit := fun _ => 0.
Global Instance W_item `{Word} : Weigh item := fun _ => 0.
Global Instance W_list `{Word} A {F : Weigh A} : Weigh (list A) := fun l => zsum (map size l).
Global Instance W_option `{Word} A {F : Weigh A} : Weigh (option A) := fun o => match o with Some a => size a | None => 0 end.
Global Instance W_prod `{Word} A B {F : Weigh A} {G : Weigh B} : Weigh (A * B) := fun x => size (fst x) + size (snd x).
Global Instance W_sum `{Word} A B {F : Weigh A} {G : Weigh B} : Weigh (A + B) := fun x => match x with inl a => size a | inr b => size b end.

(** ** States *)

Section States.
  Context `{Word}.

  (** Only names and literals may be the word, and there is no lexical error. *)
  Definition okit (i : item) : Prop := it_err i = None /\ forall t, it_tok i = Some t ->
    ((leaf (t_kind t) = false -> ws (t_str t) = 0 /\ ws (upper (t_str t)) = 0) /\ (t_kind t = KInt -> undot (t_str t) = t_str t)) /\
    (tight = true -> lossy t = false).
  (** The last item is the end of the input. *)
  Definition wf (s : pstate) : Prop := Forall okit (here s :: rest s) /\ it_tok (last (rest s) (here s)) = None.

  Lemma wf_here s : wf s -> okit (here s).
  Proof. intros [H0 _]. now inversion H0. Qed.
  Lemma wf_advance s : wf s -> wf (advance s).
  Proof.
    intros [H0 H1]. unfold advance. destruct (rest s) as [|i r] eqn:E; [split; rewrite E; assumption|]. split; cbn [here rest].
    - now inversion H0.
    - clear - H1. cbn in H1. destruct r; [exact H1|]. revert H1. clear. generalize (here s). revert i i0. induction r as [|x r IH]; intros i j d H1; [exact H1|]. apply (IH i x d H1).
  Qed.
  Lemma wf_memo s s' : wf s -> wf (restore s s'). Proof. intros H0. exact H0. Qed.
  Lemma wf_note s s' : wf s -> wf (note_failure s s'). Proof. intros H0. exact H0. Qed.
  Lemma left_advance s : wf s -> left s = left (advance s) + hc (here s).
  Proof.
    intros [H0 H1]. unfold left, advance. destruct (rest s) as [|i r] eqn:E.
    - rewrite E. cbn in H1. cbn [map zsum fold_right]. unfold hc. rewrite H1. reflexivity.
    - cbn [here rest map zsum fold_right]. lia.
  Qed.
End States.

(** ** Programs *)

(** Running [p] from [s] adds [c] to the occurrences: those in the value and those in the items left after the run.
    Some may be lost if there are lossy keywords. *)
Definition near `{Word} (x y : Z) : Prop := x <= y /\ (tight = true -> x = y).
Lemma near_refl `{Word} x y : x = y -> near x y. Proof. intros ->. split; [lia|reflexivity]. Qed.
Ltac near :=
  unfold near in *; repeat match goal with H : _ /\ _ |- _ => destruct H end;
  first [exfalso; lia | split; [lia|let Ht := fresh in intros Ht; repeat match goal with H : tight = true -> _ |- _ => specialize (H Ht) end; lia]].
Definition balf `{Word} (n : nat) (s : pstate) (c : Z) {A} {F : Weigh A} (p : prog A) : Prop :=
  wf s -> forall a s', run body n p s = ROk a s' -> wf s' /\ near (size a + left s') (left s + c).

Definition nsize `{Word} (n : nt) : Z := match n with NColumnTypeArgs e => cnt e | _ => 0 end.
Definition calls `{Word} (f : nat) : Prop := forall n s, balf f s (nsize n) (body n).

Section Balance.
  Context `{Word} {f : nat}.

  Definition bal (s : pstate) (c : Z) {A} {F : Weigh A} (p : prog A) : Prop := balf (S f) s c p.

  Lemma bal_ret {A} {F : Weigh A} s c (a : A) : size a = c -> bal s c (Ret a).
  Proof. intros H0 Hw b s' E. injection E as <- <-. split; [exact Hw|near]. Qed.
  Lemma bal_near {A} {F : Weigh A} s c (a : A) : near (size a) c -> bal s c (Ret a).
  Proof. intros H0 Hw b s' E. injection E as <- <-. split; [exact Hw|near]. Qed.
  Lemma bal_loose {A} {F : Weigh A} s c (a : A) : tight = false -> size a <= c -> bal s c (Ret a).
  Proof. intros Ht H0. apply bal_near. split; [exact H0|congruence]. Qed.
  Lemma bal_fail {A} {F : Weigh A} s c e : bal s c (@Fail A e).
  Proof. intros Hw b s' E. discriminate E. Qed.
  Lemma bal_panic {A} {F : Weigh A} s c z : bal s c (@Panic A z).
  Proof. intros Hw b s' E. discriminate E. Qed.
  Lemma bal_eq {A} {F : Weigh A} s c c' (p : prog A) : bal s c p -> c = c' -> bal s c' p.
  Proof. now intros H0 <-. Qed.
  Lemma bal_bind {A B} {F : Weigh A} {G : Weigh B} s c c' (p : prog A) (k : A -> prog B) :
    bal s c' p -> (forall a s', bal s' (c - c' + size a) (k a)) -> bal s c (bind p k).
  Proof.
    intros H0 H1 Hw b s' E. rewrite run_bind in E. destruct (run body (S f) p s) as [a s1|e s1|z|] eqn:Ep; cbn [andThen] in E; try discriminate E.
    destruct (H0 Hw a s1 Ep) as [Hw1 E1]. destruct (H1 a s1 Hw1 b s' E) as [Hw2 E2]. split; [exact Hw2|near].
  Qed.
  Lemma bal_cur {A} {F : Weigh A} s c (k : item -> prog A) : (okit (here s) -> bal s c (k (here s))) -> bal s c (Cur k).
  Proof. intros H0 Hw. exact (H0 (wf_here s Hw) Hw). Qed.
  Lemma bal_consume {A} {F : Weigh A} s c (k : option string -> prog A) : (forall s', s' = advance s -> bal s' (c + hc (here s)) (k None)) -> bal s c (Consume k).
  Proof.
    intros H0 Hw b s' E. rewrite run_Consume in E. pose proof (wf_advance s Hw) as Hw1. destruct (wf_here _ Hw1) as [He _]. rewrite He in E.
    destruct (H0 _ eq_refl Hw1 b s' E) as [Hw2 E2]. split; [exact Hw2|]. rewrite (left_advance s Hw). near.
  Qed.
  (** The token after the current one. *)
  Definition next (s : pstate) : option tok := it_tok (here (advance s)).
  Lemma bal_peek {A} {F : Weigh A} s c (k : option tok + string -> prog A) : (okit (here (advance s)) -> bal s c (k (inl (next s)))) -> bal s c (Peek k).
  Proof.
    intros H0 Hw b s' E. rewrite run_Peek in E. pose proof (wf_advance s Hw) as Hw1. pose proof (wf_here _ Hw1) as Hk. pose proof (proj1 Hk) as He. unfold do_peek in E. rewrite He in E. cbn [fst snd] in E.
    exact (H0 Hk Hw b s' E).
  Qed.
  Lemma bal_call {A} {F : Weigh A} (Hc : calls f) s c n (k : expr -> prog A) : (forall a s', bal s' (c - nsize n + cnt a) (k a)) -> bal s c (Call n k).
  Proof.
    intros H1 Hw b s' E. rewrite run_Call in E. destruct (run body f (body n) s) as [a s1|e s1|z|] eqn:Ep; cbn [andThen] in E; try discriminate E.
    destruct (Hc n s Hw a s1 Ep) as [Hw1 E1]. destruct (H1 a s1 Hw1 b s' E) as [Hw2 E2]. split; [exact Hw2|]. change (size a) with (cnt a) in E1. near.
  Qed.
  Lemma bal_try {A} {F : Weigh A} (Hc : calls f) s c (yes : expr -> prog A) no :
    (forall a s', bal s' (c + cnt a) (yes a)) -> (forall s', bal s' c no) -> bal s c (TryInterval yes no).
  Proof.
    intros H1 H2 Hw b s' E. rewrite run_TryInterval in E. destruct (failed_before s); [exact (H2 s Hw b s' E)|].
    destruct (run body f (body NInterval) s) as [a s1|e s1|z|] eqn:Ep; try discriminate E.
    - destruct (Hc NInterval s Hw a s1 Ep) as [Hw1 E1]. destruct (H1 a s1 Hw1 b s' E) as [Hw2 E2]. split; [exact Hw2|]. change (size a) with (cnt a) in E1. cbn [nsize] in E1. near.
    - exact (H2 (note_failure s s1) Hw b s' E).
  Qed.
  Lemma bal_attempt {A B} {F : Weigh A} {G : Weigh B} s c c' (p : prog B) keep (k : err + B -> prog A) :
    bal s c' p -> (forall a s', keep (inr a) = true -> bal s' (c - c' + size a) (k (inr a))) ->
    (forall a s', keep (inr a) = false -> here s' = here s -> rest s' = rest s -> bal s' c (k (inr a))) ->
    (forall e s', keep (inl e) = true -> forall c, bal s' c (k (inl e))) ->
    (forall e s', keep (inl e) = false -> here s' = here s -> rest s' = rest s -> bal s' c (k (inl e))) -> bal s c (Attempt p keep k).
  Proof.
    intros H0 H1 H2 H3 H4 Hw b s' E. rewrite run_Attempt in E. destruct (run body (S f) p s) as [a s1|e s1|z|] eqn:Ep; try discriminate E.
    - destruct (H0 Hw a s1 Ep) as [Hw1 E1]. destruct (keep (inr a)) eqn:Ek.
      + destruct (H1 a s1 Ek Hw1 b s' E) as [Hw2 E2]. split; [exact Hw2|near].
      + exact (H2 a (restore s s1) Ek eq_refl eq_refl Hw b s' E).
    - destruct (keep (inl e)) eqn:Ek.
      + assert (Hw1 : wf s1).
        { assert (Hi : inv_out wf (run body (S f) p s)).
          { apply run_inv; [exact wf_advance|intros s0 x; exact x|intros s0 s2 x _; exact x|exact Hw]. }
          now rewrite Ep in Hi. }
        destruct (H3 e s1 Ek (size b + left s' - left s1 - 1) Hw1 b s' E) as [_ E3]. exfalso. near.
      + exact (H4 e (restore s s1) Ek eq_refl eq_refl Hw b s' E).
  Qed.
  (** The weight of the state of a loop is what is kept. *)
  Lemma bal_loop {A X Y} {F : Weigh A} {G : Weigh X} {K : Weigh Y} s c (x : X) (bd : X -> prog (X + Y)) (k : Y -> prog A) :
    (forall x s, bal s (size x) (bd x)) -> (forall y s, bal s (c - size x + size y) (k y)) -> bal s c (Loop x bd k).
  Proof.
    intros H0 H1 Hw b s' E. rewrite run_Loop in E.
    assert (Hi : forall n x s, wf s -> forall y s', iter body (S f) bd n x s = ROk y s' -> wf s' /\ near (size y + left s') (left s + size x)).
    { induction n as [|n IH]; intros u v Hv y v' Ev; [discriminate Ev|]. rewrite iter_S in Ev. destruct (run body (S f) (bd u) v) as [[z|z] v1|e v1|z|] eqn:Eb; try discriminate Ev.
      - destruct (H0 u v Hv _ _ Eb) as [Hv1 E1]. destruct (IH z v1 Hv1 y v' Ev) as [Hv2 E2]. split; [exact Hv2|]. change (size (inl z)) with (size z) in E1. near.
      - injection Ev as <- <-. exact (H0 u v Hv _ _ Eb). }
    destruct (iter body (S f) bd (S f) x s) as [y s1|e s1|z|] eqn:Ei; cbn [andThen] in E; try discriminate E.
    destruct (Hi _ _ _ Hw y s1 Ei) as [Hw1 E1]. destruct (H1 y s1 Hw1 b s' E) as [Hw2 E2]. split; [exact Hw2|near].
  Qed.
End Balance.
