(** Proofs for C42: what holds of the trees the parser builds. *)
From Coq Require Import String List Arith Bool.
From Verif Require Import Str Ast AstPos AstSubs Prog RunFacts ParserCommon ParserExpr ParserQuery ParserTable ParserAlter ParserView ParserSystem Parser Words.
Import ListNotations.
Local Open Scope string_scope.
Local Open Scope nat_scope.

(** ** Trees *)

(** [FormatSQL] writes all of it, not only its caller. *)
Definition alone (e : expr) : bool :=
  match e with
  | EJoinExpr _ _ _ (_ :: _) _ => false
  | EDestinationClause _ _ TableSchema => is_nil TableSchema
  | _ => true
  end.
Definition single (e : expr) : Prop := alone e = true.

(** What comes after the first table of a join. *)
Definition joined (e : expr) : Prop := single e \/ exists p l r m c, e = EJoinExpr p l r m c.

(** Of fields that [FormatSQL] takes for alternatives, one is set. *)
Definition tells (e : expr) : Prop :=
  match e with
  | EOperationExpr _ _ | EJoinConstraintClause _ _ _ => False
  | EAuthenticationClause _ _ NotIdentified AuthType AuthValue LdapServer KerberosRealm IsKerberos =>
      (NotIdentified = true -> AuthType = "" /\ AuthValue = ENil /\ LdapServer = ENil /\ KerberosRealm = ENil) /\
      (KerberosRealm = ENil \/ IsKerberos = true /\ exists p q s, KerberosRealm = EStringLiteral p q s) /\ single AuthValue /\ single LdapServer
  | EDefaultRoleClause _ _ Roles None_ => (None_ = true -> Roles = []) /\ Forall single Roles
  | EGranteesClause _ _ Grantees ExceptUsers Any None_ => (Any || None_ = true -> Grantees = []) /\ Forall single Grantees /\ Forall single ExceptUsers
  | ENotNullLiteral _ c => texts c = []
  | EPartitionClause _ Expr ID All_ => (ID = ENil \/ Expr = ENil) /\ (All_ = true -> Expr = ENil) /\ single Expr /\ single ID
  | ETTLPolicyRule _ a b c => (a = ENil /\ b = ENil \/ a = ENil /\ c = ENil \/ b = ENil /\ c = ENil) /\ single a /\ single b /\ single c
  | EColumnDef _ _ Name Type_ NotNull Nullable DefaultExpr MaterializedExpr AliasExpr Codec TTL Comment Compression =>
      texts NotNull = [] /\ texts Nullable = [] /\ Compression = ENil /\ Forall single [Name; Type_; DefaultExpr; MaterializedExpr; AliasExpr; Codec; TTL; Comment]
  | ECompressionCodec _ _ Type_ TypeLevel Name Level => (Type_ = ENil -> TypeLevel = ENil) /\ (Name = ENil -> Level = ENil) /\ Forall single [Type_; TypeLevel; Name; Level]
  | ETopClause _ _ Number _ => exists p q s b, Number = ENumberLiteral p q s b
  | EDictionaryEngineClause _ a b c d f Settings => Forall single [a; b; c; d; f] /\ (Settings = ENil \/ exists p q l, Settings = ESettingsClause p q l)
  | ESetStmt _ Settings => exists p q l, Settings = ESettingsClause p q l
  | EJSONTypeHint Path Type_ => is_nil Path = false /\ is_nil Type_ = false /\ single Path /\ single Type_
  | EArrayParamList _ _ Items => exists p q b l, Items = EColumnExprList p q b l
  | EDictionaryArgExpr _ Name Value Args LParenPos _ => (LParenPos = PZero /\ Args = [] \/ LParenPos <> PZero /\ Value = ENil) /\ single Name /\ single Value /\ Forall single Args
  | EDictionaryLifetimeClause _ Min Max Value _ => (Min = ENil /\ Max = ENil \/ is_nil Min = false /\ is_nil Max = false /\ Value = ENil) /\ Forall single [Min; Max; Value]
  | EWithTimeoutClause _ Expr Number => Expr = ENil /\ single Number
  | EJoinExpr _ Left Right Modifiers Constraints => (Modifiers = [] -> Constraints = ENil) /\ joined Right /\ single Left /\ single Constraints
  | ECreateMaterializedView _ _ Name _ OnCluster Refresh RandomizeFor DependsOn Settings _ Engine TableSchema _ Destination SubQuery _ Comment Definer _ =>
      (Destination = ENil \/ exists p t s, Destination = EDestinationClause p t s /\ single t /\ single s) /\
      Forall single [Name; OnCluster; Refresh; RandomizeFor; Settings; Engine; TableSchema; SubQuery; Comment; Definer] /\ Forall single DependsOn
  | EDestinationClause _ t _ => single t
  | ESelectQuery _ _ With _ _ _ _ _ _ _ _ _ _ _ _ _ _ _ _ a b c d =>
      (With = ENil \/ exists p q l, With = EWithClause p q l) /\
      (a = ENil /\ b = ENil /\ c = ENil \/ a = ENil /\ b = ENil /\ d = ENil \/ a = ENil /\ c = ENil /\ d = ENil \/ b = ENil /\ c = ENil /\ d = ENil) /\
      Forall single (subs e)
  | ESystemFlushExpr _ _ Logs c => (Logs = true -> c = ENil) /\ single c
  | EInsertStmt _ Format _ Table ColumnNames Values SelectExpr => (SelectExpr = ENil \/ Values = []) /\ Forall single [Format; Table; ColumnNames; SelectExpr] /\ Forall single Values
  | EShowStmt _ _ _ Target _ LikeType LikePattern Limit OutFile Format => (LikeType = "" /\ LikePattern = ENil \/ LikeType = "LIKE" \/ LikeType = "ILIKE") /\ Forall single [Target; LikePattern; Limit; OutFile; Format]
  | _ => Forall single (subs e)
  end.

Definition ok (e : expr) : Prop := All tells e /\ single e.

(** ** The values a program can return *)

Class Good (A : Type) := good : A -> Prop.
Global Instance G_expr : Good expr := ok.
Global Instance G_string : Good string := fun _ => True.
Global Instance G_bool : Good bool := fun _ => True.
Global Instance G_pos : Good pos := fun _ => True.
Global Instance G_nat : Good nat := fun _ => True.
Global Instance G_unit : Good unit := fun _ => True.
Global Instance G_item : Good item := fun _ => True.
Global Instance G_list A {F : Good A} : Good (list A) := Forall good.
Global Instance G_option A {F : Good A} : Good (option A) := fun o => match o with Some a => good a | None => True end.
Global Instance G_prod A B {F : Good A} {G : Good B} : Good (A * B) := fun x => good (fst x) /\ good (snd x).
Global Instance G_sum A B {F : Good A} {G : Good B} : Good (A + B) := fun x => match x with inl a => good a | inr b => good b end.
Global Instance G_engine : Good engine_acc := fun g => ok (g_primary g) /\ ok (g_partition g) /\ ok (g_sample g) /\ ok (g_ttl g) /\ ok (g_settings g) /\ ok (g_order g).
Global Instance G_attr : Good attr_acc := fun a => ok (d_default a) /\ ok (d_expression a).
Definition no_or_settings (e : expr) : Prop := e = ENil \/ exists p q l, e = ESettingsClause p q l.
Global Instance G_dict : Good dict_acc := fun k => ok (k_source k) /\ ok (k_lifetime k) /\ ok (k_layout k) /\ ok (k_range k) /\ ok (k_settings k) /\ no_or_settings (k_settings k).
Global Instance G_user : Good user_acc :=
  fun u => ok (u_auth u) /\ Forall ok (u_hosts u) /\ ok (u_defaultRole u) /\ ok (u_defaultDb u) /\ ok (u_grantees u) /\ ok (u_valid u) /\ Forall ok (u_settings u).

(** What the recursive methods return. *)
Definition nq (n : nt) (e : expr) : Prop := match n with NJoinRight _ => All tells e /\ joined e | NColumnTypeArgs _ => ok e /\ is_nil e = false | _ => ok e end.
Definition npre (n : nt) : Prop := match n with NColumnTypeArgs e => ok e | _ => True end.
Definition calls (f : nat) : Prop := forall n s e s', npre n -> run body f (body n) s = ROk e s' -> nq n e.

Section Rules.
  Context {f : nat} (Hc : calls f).

  Definition gives {A} (P : A -> Prop) (p : prog A) : Prop := forall s a s', run body (S f) p s = ROk a s' -> P a.

  Lemma g_ret A (P : A -> Prop) a : P a -> gives P (Ret a).
  Proof. intros H s b s' E. rewrite run_Ret in E. congruence. Qed.
  Lemma g_fail A (P : A -> Prop) e : gives P (Fail e).
  Proof. intros s b s' E. rewrite run_Fail in E. discriminate. Qed.
  Lemma g_panic A (P : A -> Prop) e : gives P (Panic e).
  Proof. intros s b s' E. rewrite run_Panic in E. discriminate. Qed.
  Lemma g_cur A (P : A -> Prop) k : (forall it, gives P (k it)) -> gives P (Cur k).
  Proof. intros H s b s' E. rewrite run_Cur in E. exact (H _ _ _ _ E). Qed.
  Lemma g_consume A (P : A -> Prop) k : (forall o, gives P (k o)) -> gives P (Consume k).
  Proof. intros H s b s' E. rewrite run_Consume in E. exact (H _ _ _ _ E). Qed.
  Lemma g_peek A (P : A -> Prop) k : (forall o, gives P (k o)) -> gives P (Peek k).
  Proof. intros H s b s' E. rewrite run_Peek in E. destruct (do_peek s). exact (H _ _ _ _ E). Qed.
  Lemma g_call A (P : A -> Prop) n k : npre n -> (forall e, nq n e -> gives P (k e)) -> gives P (Call n k).
  Proof. intros Hn H s b s' E. rewrite run_Call in E. destruct (run body f (body n) s) eqn:Ec; cbn [andThen] in E; try discriminate E. exact (H _ (Hc _ _ _ _ Hn Ec) _ _ _ E). Qed.
  Lemma g_interval A (P : A -> Prop) yes no : (forall e, ok e -> gives P (yes e)) -> gives P no -> gives P (TryInterval yes no).
  Proof.
    intros H1 H2 s b s' E. rewrite run_TryInterval in E. destruct (failed_before s); [exact (H2 _ _ _ E)|].
    destruct (run body f (body NInterval) s) eqn:Ec; try discriminate E; [exact (H1 _ (Hc NInterval _ _ _ I Ec) _ _ _ E)|exact (H2 _ _ _ E)].
  Qed.
  Lemma g_attempt A B (Q : B -> Prop) (P : A -> Prop) p keep k : gives Q p -> (forall e, gives P (k (inl e))) -> (forall a, Q a -> gives P (k (inr a))) -> gives P (Attempt p keep k).
  Proof.
    intros Hp H1 H2 s b s' E. rewrite run_Attempt in E. destruct (run body (S f) p s) eqn:Ec; try discriminate E; [exact (H2 _ (Hp _ _ _ Ec) _ _ _ E)|exact (H1 _ _ _ _ E)].
  Qed.
  Lemma g_loop A X Y (PX : X -> Prop) (PY : Y -> Prop) (P : A -> Prop) x bd k : PX x ->
    (forall x, PX x -> gives (fun r => match r with inl x' => PX x' | inr y => PY y end) (bd x)) -> (forall y, PY y -> gives P (k y)) -> gives P (Loop x bd k).
  Proof.
    intros Hx Hb Hk s b s' E. rewrite run_Loop in E.
    assert (G : forall n x s y s1, PX x -> iter body (S f) bd n x s = ROk y s1 -> PY y).
    { induction n as [|n IH]; intros x0 s0 y s1 H0 E0; [discriminate E0|]. rewrite iter_S in E0. destruct (run body (S f) (bd x0) s0) as [[x'|y'] s2|? ?|?|] eqn:Ec; try discriminate E0.
      - exact (IH _ _ _ _ (Hb _ H0 _ _ _ Ec) E0).
      - injection E0 as <- <-. exact (Hb _ H0 _ _ _ Ec). }
    destruct (iter body (S f) bd (S f) x s) as [y s1|? ?|?|] eqn:Ec; cbn [andThen] in E; try discriminate E. exact (Hk _ (G _ _ _ _ _ Hx Ec) _ _ _ E).
  Qed.
  Lemma g_bind A B (Q : A -> Prop) (P : B -> Prop) p k : gives Q p -> (forall a, Q a -> gives P (k a)) -> gives P (bind p k).
  Proof.
    intros Hp Hk s b s' E. rewrite run_bind in E. destruct (run body (S f) p s) as [a s1|? ?|?|] eqn:Ec; cbn [andThen] in E; try discriminate E. exact (Hk _ (Hp _ _ _ Ec) _ _ _ E).
  Qed.
  Lemma g_weak A (Q P : A -> Prop) p : gives Q p -> (forall a, Q a -> P a) -> gives P p.
  Proof. intros H1 H2 s a s' E. exact (H2 _ (H1 _ _ _ E)). Qed.
  Lemma g_and A (Q P : A -> Prop) p : gives Q p -> gives P p -> gives (fun a => Q a /\ P a) p.
  Proof. intros H1 H2 s a s' E. exact (conj (H1 _ _ _ E) (H2 _ _ _ E)). Qed.
  Lemma g_assoc A B C (P : C -> Prop) (p : prog A) (q : A -> prog B) (k : B -> prog C) : gives P (bind p (fun x => bind (q x) k)) -> gives P (bind (bind p q) k).
  Proof. intros H s b s' E. apply (H s b s'). rewrite <- E, !run_bind. destruct (run body (S f) p s); cbn [andThen]; try reflexivity. now rewrite run_bind. Qed.
End Rules.
