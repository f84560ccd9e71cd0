(** Specification for C25 and C26, continued: canonical texts of CREATE, ALTER TABLE, GRANT, and DROP USER or ROLE.
    [ddl e l]: the statement [e] is written as the symbols [l]. *)
From Coq Require Import String List Arith Bool.
From Verif Require Import Str Keyword Lexer LexSpec LexGrammar LexTokens LayoutSpec Ast AstPos PrecSpec Prog RoundSpec RoundMoreSpec.
Import ListNotations.
Local Open Scope string_scope.
Local Open Scope list_scope.
Local Open Scope nat_scope.

(** ** Column types *)

Inductive literal : expr -> list sym -> Prop :=
| Lit_number : forall e t, number_lit e t -> literal e [T t]
| Lit_string : forall e t, string_lit e t -> literal e [T t].
Inductive enum_value : expr -> list sym -> Prop :=
| Enum_value : forall e t n u, string_lit e t -> number_lit n u -> enum_value (EEnumValue e n) [T t; T (O "="); T u].

(** The name of a type: not REMOVE, which may follow the name of a column. *)
Definition type_name (e : expr) (t : tok) : Prop := plain_name e t /\ upper (t_str t) <> "REMOVE".
(** Type names whose arguments have a form of their own. *)
Definition special_types : list string := ["NESTED"; "TUPLE"; "JSON"; "QBIT"].

Inductive ctype : expr -> list sym -> Prop :=
| Ty_name : forall e t, type_name e t -> ctype (EScalarType e) [T t]
| Ty_params : forall p q e t es ls, type_name e t -> Forall2 literal es ls -> ctype (ETypeWithParams p q e es) (T t :: paren (sep_by comma ls))
| Ty_enum : forall p q e t es ls, type_name e t -> Forall2 enum_value es ls -> es <> [] -> ctype (EEnumType e p q es) (T t :: paren (sep_by comma ls))
| Ty_args : forall p q e t es ls, type_name e t -> ~ In (upper (t_str t)) special_types -> ctypes es ls -> es <> [] -> ctype (EComplexType p q e es) (T t :: paren (sep_by comma ls))
| Ty_tuple : forall p q e t es ls, type_name e t -> In (upper (t_str t)) ["NESTED"; "TUPLE"] -> ctypes es ls -> es <> [] -> ctype (ENestedType p q e es) (T t :: paren (sep_by comma ls))
| Ty_nested : forall p q e t es ls, type_name e t -> In (upper (t_str t)) ["NESTED"; "TUPLE"] -> fields es ls -> es <> [] -> ctype (ENestedType p q e es) (T t :: paren (sep_by comma ls))
with ctypes : list expr -> list (list sym) -> Prop :=
| Tys_nil : ctypes [] []
| Tys_cons : forall e l es ls, ctype e l -> ctypes es ls -> ctypes (e :: es) (l :: ls)
with fields : list expr -> list (list sym) -> Prop :=
| Fields_nil : fields [] []
| Fields_cons : forall p q n t e l es ls, plain_name n t -> ctype e l -> fields es ls ->
    fields (EColumnDef p q (ENestedIdentifier n ENil) e ENil ENil ENil ENil ENil ENil ENil ENil ENil :: es) ((T t :: Sp :: l) :: ls).
Scheme ctype_ind2 := Induction for ctype Sort Prop with ctypes_ind2 := Induction for ctypes Sort Prop with fields_ind2 := Induction for fields Sort Prop.
Combined Scheme ctype_mut from ctype_ind2, ctypes_ind2, fields_ind2.

(** ** Parts of a column *)

Inductive null_mark : expr -> expr -> list sym -> Prop :=
| Null0 : null_mark ENil ENil []
| Null_yes : forall p, null_mark ENil (ENullLiteral p) [Sp; T (K "NULL")]
| Null_no : forall p p', null_mark (ENotNullLiteral p (ENullLiteral p')) ENil (Sp :: words ["NOT"; "NULL"]).
Inductive default : expr -> expr -> expr -> list sym -> Prop :=
| Default0 : default ENil ENil ENil []
| Default_default : forall e l, says Expr e l -> default e ENil ENil (Sp :: T (K "DEFAULT") :: Sp :: l)
| Default_materialized : forall e l, says Expr e l -> default ENil e ENil (Sp :: T (K "MATERIALIZED") :: Sp :: l)
| Default_alias : forall e l, says Expr e l -> default ENil ENil e (Sp :: T (K "ALIAS") :: Sp :: l).

(** CODEC: some codecs take a level, and some of them come before a second one. *)
Definition first_codecs : list string := ["DELTA"; "DOUBLEDELTA"; "T64"; "GORILLA"; "GCD"].
Definition level_codecs : list string := ["ZSTD"; "LZ4HC"; "LH4"].
Inductive level : expr -> list sym -> Prop :=
| Level0 : level ENil []
| Level : forall e t, number_lit e t -> level e (paren [T t]).
Inductive codec : expr -> list sym -> Prop :=
| Codec0 : codec ENil []
| Codec_one : forall p q e t v l, plain_name e t -> level v l -> v = ENil \/ In (upper (t_str t)) (first_codecs ++ level_codecs) ->
    codec (ECompressionCodec p q ENil ENil e v) (Sp :: T (K "CODEC") :: paren (T t :: l))
| Codec_two : forall p q e t v l e' t' v' l', plain_name e t -> In (upper (t_str t)) first_codecs -> level v l -> plain_name e' t' -> level v' l' -> v' = ENil \/ In (upper (t_str t')) level_codecs ->
    codec (ECompressionCodec p q e v e' v') (Sp :: T (K "CODEC") :: paren ((T t :: l) ++ comma ++ T t' :: l')).

Inductive ttl_rule : expr -> list sym -> Prop :=
| Rule_disk : forall p e t, string_lit e t -> ttl_rule (ETTLPolicyRule p ENil e ENil) (words ["TO"; "DISK"] ++ [Sp; T t])
| Rule_volume : forall p e t, string_lit e t -> ttl_rule (ETTLPolicyRule p e ENil ENil) (words ["TO"; "VOLUME"] ++ [Sp; T t])
| Rule_delete : forall p p' q', ttl_rule (ETTLPolicyRule p ENil ENil (ETTLPolicyRuleAction p' q' "DELETE" ENil)) [T (K "DELETE")].
Inductive ttl_item : expr -> list sym -> Prop :=
| Ttl_expr : forall p e l, says Expr e l -> ttl_item (ETTLExpr p e ENil) l
| Ttl_rule : forall p e l r lr w lw, says Expr e l -> ttl_rule r lr -> says (Opt Where) w lw -> ttl_item (ETTLExpr p e (ETTLPolicy r w ENil)) (l ++ Sp :: lr ++ lw).
Inductive ttl : expr -> list sym -> Prop :=
| Ttl : forall p q es ls, Forall2 ttl_item es ls -> es <> [] -> ttl (ETTLClause p q es) (T (K "TTL") :: Sp :: sep_by comma ls).
Inductive column_ttl : expr -> list sym -> Prop :=
| Col_ttl0 : column_ttl ENil []
| Col_ttl : forall p q e l, ttl_item e l -> column_ttl (ETTLClause p q [e]) (Sp :: T (K "TTL") :: Sp :: l).

(** The comment of a column is written last, but not read after CODEC or TTL. *)
Inductive coldef : expr -> list sym -> Prop :=
| Coldef : forall p q n ln ty lt nn nl lnl d m a ld c lc t lttl k lk,
    column_name n ln -> ctype ty lt -> null_mark nn nl lnl -> default d m a ld -> codec c lc -> column_ttl t lttl -> after_words ["COMMENT"] k lk ->
    k = ENil \/ (c = ENil /\ t = ENil) ->
    coldef (EColumnDef p q n ty nn nl d m a c t k ENil) (ln ++ Sp :: lt ++ lnl ++ ld ++ lc ++ lttl ++ lk).

(** ** Parts of ALTER TABLE *)

Inductive in_partition : expr -> list sym -> Prop :=
| In_partition0 : in_partition ENil []
| In_partition : forall p e l, says Expr e l -> no_id l -> in_partition (EPartitionClause p e ENil false) (Sp :: words ["IN"; "PARTITION"] ++ Sp :: l).
Inductive from_table : expr -> list sym -> Prop :=
| From_table0 : from_table ENil []
| From_table : forall e l, table e l -> from_table e (Sp :: T (K "FROM") :: Sp :: l).
Inductive after_column : expr -> list sym -> Prop :=
| After_column0 : after_column ENil []
| After_column : forall e l, column_name e l -> after_column e (Sp :: T (K "AFTER") :: Sp :: l).
(** Only what binds more strongly than the comparisons. *)
Inductive assignment : expr -> list sym -> Prop :=
| Assignment : forall p c lc e l, column_name c lc -> says Expr e l -> 10 < as_right e ->
    assignment (EUpdateAssignment p c e) (lc ++ [Sp; T (O "="); Sp] ++ l).

(** [alter false]: what ends in a list, so that no other change can follow it. *)
Inductive alter : bool -> expr -> list sym -> Prop :=
| Al_drop_column : forall p n l (i : bool), column_name n l -> alter true (EAlterTableDropColumn p n i) (words ["DROP"; "COLUMN"] ++ flag i ["IF"; "EXISTS"] ++ Sp :: l)
| Al_drop_index : forall p n l (i : bool), column_name n l -> alter true (EAlterTableDropIndex p n i) (words ["DROP"; "INDEX"] ++ flag i ["IF"; "EXISTS"] ++ Sp :: l)
| Al_drop_projection : forall p n l (i : bool), column_name n l -> alter true (EAlterTableDropProjection p n i) (words ["DROP"; "PROJECTION"] ++ flag i ["IF"; "EXISTS"] ++ Sp :: l)
| Al_drop_partition : forall p (d : bool) p' e l s ls, says Expr e l -> says (Opt Settings) s ls ->
    alter (is_nil s) (EAlterTableDropPartition p d (EPartitionClause p' e ENil false) s) (T (K "DROP") :: flag d ["DETACHED"] ++ Sp :: T (K "PARTITION") :: Sp :: l ++ ls)
| Al_detach : forall p p' e l s ls, says Expr e l -> says (Opt Settings) s ls ->
    alter (is_nil s) (EAlterTableDetachPartition p (EPartitionClause p' e ENil false) s) (words ["DETACH"; "PARTITION"] ++ Sp :: l ++ ls)
| Al_attach : forall p p' e l f lf, says Expr e l -> no_id l -> from_table f lf ->
    alter true (EAlterTableAttachPartition p (EPartitionClause p' e ENil false) f) (words ["ATTACH"; "PARTITION"] ++ Sp :: l ++ lf)
| Al_freeze : forall p q p' e l, says Expr e l -> no_id l ->
    alter true (EAlterTableFreezePartition p q (EPartitionClause p' e ENil false)) (words ["FREEZE"; "PARTITION"] ++ Sp :: l)
| Al_remove_ttl : forall p q, alter true (EAlterTableRemoveTTL p q) (words ["REMOVE"; "TTL"])
| Al_clear_column : forall p q (i : bool) n l a la, column_name n l -> in_partition a la ->
    alter true (EAlterTableClearColumn p q i n a) (words ["CLEAR"; "COLUMN"] ++ flag i ["IF"; "EXISTS"] ++ Sp :: l ++ la)
| Al_clear_index : forall p q (i : bool) n l a la, column_name n l -> in_partition a la ->
    alter true (EAlterTableClearIndex p q i n a) (words ["CLEAR"; "INDEX"] ++ flag i ["IF"; "EXISTS"] ++ Sp :: l ++ la)
| Al_clear_projection : forall p q (i : bool) n l a la, column_name n l -> in_partition a la ->
    alter true (EAlterTableClearProjection p q i n a) (words ["CLEAR"; "PROJECTION"] ++ flag i ["IF"; "EXISTS"] ++ Sp :: l ++ la)
| Al_materialize_index : forall p q (i : bool) n l a la, column_name n l -> in_partition a la ->
    alter true (EAlterTableMaterializeIndex p q i n a) (words ["MATERIALIZE"; "INDEX"] ++ flag i ["IF"; "EXISTS"] ++ Sp :: l ++ la)
| Al_materialize_projection : forall p q (i : bool) n l a la, column_name n l -> in_partition a la ->
    alter true (EAlterTableMaterializeProjection p q i n a) (words ["MATERIALIZE"; "PROJECTION"] ++ flag i ["IF"; "EXISTS"] ++ Sp :: l ++ la)
| Al_rename : forall p (i : bool) a la b lb, column_name a la -> column_name b lb ->
    alter true (EAlterTableRenameColumn p i a b) (words ["RENAME"; "COLUMN"] ++ flag i ["IF"; "EXISTS"] ++ Sp :: la ++ [Sp; T (K "TO"); Sp] ++ lb)
| Al_order : forall p q e l, says Expr e l -> alter true (EAlterTableModifyOrderBy p q e) (words ["MODIFY"; "ORDER"; "BY"] ++ Sp :: l)
| Al_query : forall p q e l, says Query e l -> alter false (EAlterTableModifyQuery p q e) (words ["MODIFY"; "QUERY"] ++ Sp :: l)
| Al_setting : forall p q es ls, sayl Setting es ls -> es <> [] -> alter false (EAlterTableModifySetting p q es) (words ["MODIFY"; "SETTING"] ++ Sp :: sep_by comma ls)
| Al_ttl : forall p q t l, ttl t l -> alter false (EAlterTableModifyTTL p q t) (T (K "MODIFY") :: Sp :: l)
| Al_reset : forall p q es ts, Forall2 plain_name es ts -> es <> [] -> alter false (EAlterTableResetSetting p q es) (words ["RESET"; "SETTING"] ++ Sp :: sep_by comma (map (fun t => [T t]) ts))
| Al_replace : forall p p' e l t lt, says Expr e l -> no_id l -> table t lt ->
    alter true (EAlterTableReplacePartition p (EPartitionClause p' e ENil false) t) (words ["REPLACE"; "PARTITION"] ++ Sp :: l ++ [Sp; T (K "FROM"); Sp] ++ lt)
| Al_delete : forall p q e l, says Expr e l -> alter true (EAlterTableDelete p q e) (words ["DELETE"; "WHERE"] ++ Sp :: l)
| Al_update : forall p q es ls e l, Forall2 assignment es ls -> es <> [] -> says Expr e l ->
    alter true (EAlterTableUpdate p q es ENil e) (T (K "UPDATE") :: Sp :: sep_by comma ls ++ [Sp; T (K "WHERE"); Sp] ++ l)
| Al_add_column : forall p q c lc (i : bool) a la s ls, coldef c lc -> after_column a la -> says (Opt Settings) s ls ->
    alter (is_nil s) (EAlterTableAddColumn p q c i a s) (words ["ADD"; "COLUMN"] ++ flag i ["IF"; "NOT"; "EXISTS"] ++ Sp :: lc ++ la ++ ls)
| Al_modify_column : forall p q c lc (i : bool), coldef c lc ->
    alter true (EAlterTableModifyColumn p q i c ENil) (words ["MODIFY"; "COLUMN"] ++ flag i ["IF"; "EXISTS"] ++ Sp :: lc).

(** The changes of one statement. *)
Inductive alters : list expr -> list (list sym) -> Prop :=
| Alters_one : forall b e l, alter b e l -> alters [e] [l]
| Alters_more : forall e l es ls, alter true e l -> alters es ls -> alters (e :: es) (l :: ls).

(** ** Parts of CREATE *)

Inductive uuid : expr -> list sym -> Prop :=
| Uuid0 : uuid ENil []
| Uuid : forall e t, string_lit e t -> uuid (EUUID e) [Sp; T (K "UUID"); Sp; T t].
Inductive params : expr -> list sym -> Prop :=
| Params0 : params ENil []
| Params_some : forall e l, says Params e l -> params e l.
Inductive order_by : expr -> list sym -> Prop :=
| Order_by0 : order_by ENil []
| Order_by_one : forall p q e l, says Order e l -> order_by (EOrderByClause p q [e] ENil) (Sp :: words ["ORDER"; "BY"] ++ Sp :: l).
Inductive partition_by : expr -> list sym -> Prop :=
| Partition_by0 : partition_by ENil []
| Partition_by : forall p e l, columns e l -> partition_by (EPartitionByClause p e) (Sp :: words ["PARTITION"; "BY"] ++ Sp :: l).
Inductive primary_key : expr -> list sym -> Prop :=
| Primary_key0 : primary_key ENil []
| Primary_key : forall p e l, says Expr e l -> primary_key (EPrimaryKeyClause p e) (Sp :: words ["PRIMARY"; "KEY"] ++ Sp :: l).
Inductive sample_by : expr -> list sym -> Prop :=
| Sample_by0 : sample_by ENil []
| Sample_by : forall p e l, says Expr e l -> sample_by (ESampleByClause p e) (Sp :: words ["SAMPLE"; "BY"] ++ Sp :: l).
Inductive table_ttl : expr -> list sym -> Prop :=
| Table_ttl0 : table_ttl ENil []
| Table_ttl : forall e l, ttl e l -> table_ttl e (Sp :: l).

(** [engine false]: the last clause is a list in which AS would give a name. *)
Inductive engine : bool -> expr -> list sym -> Prop :=
| Engine0 : engine true ENil []
| Engine : forall p q n t ps lps pk lpk pb lpb sb lsb tt ltt se lse ob lob p1 q1,
    plain_name (EIdent n QUnquoted p1 q1) t -> params ps lps -> order_by ob lob -> partition_by pb lpb -> primary_key pk lpk -> sample_by sb lsb -> table_ttl tt ltt -> says (Opt Settings) se lse ->
    engine (negb (is_nil pk && is_nil sb && is_nil tt && is_nil se && negb (is_nil ob && is_nil pb))) (EEngineExpr p q n ps pk pb sb tt se ob)
      (Sp :: T (K "ENGINE") :: Sp :: T (O "=") :: Sp :: T t :: lps ++ lob ++ lpb ++ lpk ++ lsb ++ ltt ++ lse).

(** A column of a table: its name is not one of the words that begin something else there. *)
Definition no_member (l : list sym) : Prop := forall t r, toks l = t :: r -> t_kind t = KKeyword -> ~ In (upper (t_str t)) ["INDEX"; "CONSTRAINT"; "PROJECTION"].
Inductive schema : expr -> list sym -> Prop :=
| Schema0 : schema ENil []
| Schema : forall p q es ls, Forall2 coldef es ls -> Forall no_member ls -> es <> [] -> schema (ETableSchemaClause p q es ENil ENil) (Sp :: paren (sep_by comma ls)).

(** The query of CREATE TABLE and CREATE VIEW. A query in parentheses can be followed by a comment. *)
Inductive as_query : bool -> expr -> list sym -> Prop :=
| As_query0 : as_query true ENil []
| As_query : forall q l, says Query q l -> as_query false (ESubQuery false q) (Sp :: T (K "AS") :: Sp :: l)
| As_subquery : forall q l, says Query q l -> as_query true (ESubQuery true q) (Sp :: T (K "AS") :: Sp :: paren l).

Inductive overridable : bool -> bool -> list sym -> Prop :=
| Over0 : overridable false false []
| Over_yes : overridable true false [Sp; T (K "OVERRIDABLE")]
| Over_no : overridable false true (Sp :: words ["NOT"; "OVERRIDABLE"]).
Inductive collection_value : expr -> list sym -> Prop :=
| Coll_literal : forall e l, literal e l -> collection_value e l
| Coll_name : forall e t, plain_name e t -> collection_value e [T t].
Inductive collection_param : expr -> list sym -> Prop :=
| Coll_param : forall p n t v l o no lo, plain_name n t -> collection_value v l -> overridable o no lo ->
    collection_param (ENamedCollectionParam p n v o no) ([T t; Sp; T (O "="); Sp] ++ l ++ lo).

(** What follows TO or ENGINE in a materialized view. *)
Inductive view_target : expr -> expr -> expr -> bool -> list sym -> Prop :=
| Target_to : forall p t lt, table t lt -> view_target (EDestinationClause p t ENil) ENil ENil false (Sp :: T (K "TO") :: Sp :: lt)
| Target_engine : forall s ls b e l (pop : bool), schema s ls -> engine b e l -> e <> ENil -> b = true \/ pop = true -> view_target ENil s e pop (ls ++ l ++ flag pop ["POPULATE"]).

(** ** Privileges and roles *)

(** Privileges that are written with words alone. (Those of SYSTEM, and of indexes, are not written as they are read.) *)
Definition privilege_words : list (list string) :=
  [["ALTER"; "INDEX"]; ["ALTER"; "ORDER"; "BY"]; ["ALTER"; "SAMPLE"; "BY"]; ["ALTER"; "SETTINGS"]; ["ALTER"; "VIEW"; "MODIFY"]; ["ALTER"; "VIEW"; "REFRESH"]; ["ALTER"; "MOVE"; "PARTITION"]; ["ALTER"; "FREEZE"; "PARTITION"];
   ["CREATE"; "TEMPORARY"; "TABLE"]; ["CREATE"; "ROWS"; "POLICY"]; ["ALL"]; ["KILL"; "QUERY"]; ["ADMIN"; "OPTION"]; ["OPTIMIZE"]; ["TRUNCATE"]; ["ROLE"; "ADMIN"]]
  ++ map (fun w => ["ALTER"; w]) ["UPDATE"; "DELETE"; "USER"; "ROLE"; "QUOTA"]
  ++ flat_map (fun w => [["ALTER"; w; "COLUMN"]; ["ALTER"; w; "TTL"]]) ["ADD"; "DROP"; "MODIFY"; "CLEAR"; "COMMENT"; "RENAME"; "MATERIALIZED"]
  ++ map (fun w => ["CREATE"; w]) ["DATABASE"; "DICTIONARY"; "TABLE"; "FUNCTION"; "VIEW"; "USER"; "ROLE"; "QUOTA"]
  ++ map (fun w => ["DROP"; w]) ["DATABASE"; "DICTIONARY"; "USER"; "ROLE"; "QUOTA"; "TABLE"; "FUNCTION"; "VIEW"]
  ++ map (fun w => ["SHOW"; w]) ["DATABASES"; "DICTIONARIES"; "TABLES"; "COLUMNS"].
Inductive privilege_clause : expr -> list sym -> Prop :=
| Priv_words : forall p q ws, In ws privilege_words -> privilege_clause (EPrivilegeClause p q ws ENil) (words ws)
| Priv_columns : forall p q w e l, In w ["SELECT"; "INSERT"] -> params e l -> privilege_clause (EPrivilegeClause p q [w] e) (T (K w) :: l).

(** What the privileges are for: a name or a star. *)
Inductive star_name : expr -> tok -> Prop :=
| Star_name : forall e t, plain_name e t -> star_name e t
| Star : forall p q, star_name (EIdent "*" 0 p q) (O "*").
Inductive grant_on : expr -> list sym -> Prop :=
| Grant_on : forall e t, star_name e t -> grant_on (ETableIdentifier ENil e) [T t]
| Grant_on_in : forall d t e u, star_name d t -> star_name e u -> grant_on (ETableIdentifier d e) [T t; T (O "."); T u].

Inductive role_name : expr -> list sym -> Prop :=
| Role_name : forall e t c lc, plain_name e t -> cluster c lc -> role_name (ERoleName e ENil c) (T t :: lc)
| Role_string : forall e t c lc, string_lit e t -> cluster c lc -> role_name (ERoleName e ENil c) (T t :: lc).
Inductive role_from : expr -> list sym -> Prop :=
| Role_from0 : role_from ENil []
| Role_from : forall e t, plain_name e t -> role_from e [Sp; T (K "FROM"); Sp; T t].

Inductive access : expr -> list sym -> Prop :=
| Ac_grant : forall p q es ls o lo rs ts ws, Forall2 privilege_clause es ls -> es <> [] -> grant_on o lo -> Forall2 plain_name rs ts -> rs <> [] -> Forall (fun w => In w ["GRANT"; "ADMIN"]) ws ->
    access (EGrantPrivilegeStmt p q ENil es o rs ws)
      (T (K "GRANT") :: Sp :: sep_by comma ls ++ [Sp; T (K "ON"); Sp] ++ lo ++ [Sp; T (K "TO"); Sp] ++ sep_by comma (map (fun t => [T t]) ts) ++ flat_map (fun w => Sp :: words ["WITH"; w; "OPTION"]) ws)
| Ac_drop : forall p q k es ls (i : bool) m lm f lf, In k ["USER"; "ROLE"] -> Forall2 role_name es ls -> es <> [] -> modifier m lm -> role_from f lf -> m = "" \/ f = ENil ->
    access (EDropUserOrRole p k q es i m f) (words ["DROP"; k] ++ flag i ["IF"; "EXISTS"] ++ Sp :: sep_by comma ls ++ lm ++ lf).

Inductive ddl : expr -> list sym -> Prop :=
| Ddl_stmt : forall e l, stmt e l -> ddl e l
| Ddl_alter : forall p q t lt c lc es ls, table t lt -> cluster c lc -> alters es ls ->
    ddl (EAlterTable p q t c es) (words ["ALTER"; "TABLE"] ++ Sp :: lt ++ lc ++ Sp :: sep_by comma ls)
| Ddl_database : forall p q e t (i : bool) c lc b g lg k lk, plain_name e t -> cluster c lc -> engine b g lg -> after_words ["COMMENT"] k lk ->
    ddl (ECreateDatabase p q e i c g k) (words ["CREATE"; "DATABASE"] ++ flag i ["IF"; "NOT"; "EXISTS"] ++ Sp :: T t :: lc ++ lg ++ lk)
| Ddl_table : forall p q (r tmp i : bool) t lt u lu c lc s lsc b g lg bq sq lsq k lk,
    table t lt -> uuid u lu -> cluster c lc -> schema s lsc -> engine b g lg -> as_query bq sq lsq -> after_words ["COMMENT"] k lk ->
    sq = ENil \/ b = true -> k = ENil \/ bq = true ->
    ddl (ECreateTable p q r t i u c s g sq ENil tmp k)
      (T (K "CREATE") :: flag r ["OR"; "REPLACE"] ++ flag tmp ["TEMPORARY"] ++ Sp :: T (K "TABLE") :: flag i ["IF"; "NOT"; "EXISTS"] ++ Sp :: lt ++ lu ++ lc ++ lsc ++ lg ++ lsq ++ lk)
| Ddl_view : forall p q (r i : bool) t lt u lu c lc s lsc bq sq lsq k lk,
    table t lt -> uuid u lu -> cluster c lc -> schema s lsc -> after_words ["COMMENT"] k lk -> as_query bq sq lsq ->
    ddl (ECreateView p q r t i u c s k sq)
      (T (K "CREATE") :: flag r ["OR"; "REPLACE"] ++ Sp :: T (K "VIEW") :: flag i ["IF"; "NOT"; "EXISTS"] ++ Sp :: lt ++ lu ++ lc ++ lsc ++ lk ++ lsq)
| Ddl_materialized : forall p q (i : bool) t lt c lc d s g (pop : bool) lg bq sq lsq k lk,
    table t lt -> cluster c lc -> view_target d s g pop lg -> as_query bq sq lsq -> after_words ["COMMENT"] k lk ->
    k = ENil \/ bq = true ->
    ddl (ECreateMaterializedView p q t i c ENil ENil [] ENil false g s false d sq pop k ENil "")
      (words ["CREATE"; "MATERIALIZED"; "VIEW"] ++ flag i ["IF"; "NOT"; "EXISTS"] ++ Sp :: lt ++ lc ++ lg ++ lsq ++ lk)
| Ddl_function : forall p (r i : bool) n t c lc ps lps e l, plain_name n t -> cluster c lc -> says Params ps lps -> says Expr e l ->
    ddl (ECreateFunction p r i n c ps e)
      (T (K "CREATE") :: flag r ["OR"; "REPLACE"] ++ Sp :: T (K "FUNCTION") :: flag i ["IF"; "NOT"; "EXISTS"] ++ Sp :: T t :: lc ++ [Sp; T (K "AS"); Sp] ++ lps ++ [Sp; T (O "->"); Sp] ++ l)
| Ddl_collection : forall p q n t (i : bool) c lc es ls, plain_name n t -> cluster c lc -> Forall2 collection_param es ls -> es <> [] ->
    ddl (ECreateNamedCollection p q n i c es)
      (words ["CREATE"; "NAMED"; "COLLECTION"] ++ flag i ["IF"; "NOT"; "EXISTS"] ++ Sp :: T t :: lc ++ [Sp; T (K "AS"); Sp] ++ sep_by comma ls)
| Ddl_access : forall e l, access e l -> ddl e l.

(** A script: the tokens of statements, with a semicolon between any two of them, and any number of further semicolons. *)
Inductive script : list expr -> list tok -> Prop :=
| Script_nil : script [] []
| Script_semicolon : forall es ts, script es ts -> script es (O ";" :: ts)
| Script_last : forall e l, ddl e l -> script [e] (toks l)
| Script_next : forall e l es ts, ddl e l -> script es ts -> script (e :: es) (toks l ++ O ";" :: ts).
