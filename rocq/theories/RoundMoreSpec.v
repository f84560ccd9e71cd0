(** Specification for C25 and C26, continued: canonical texts of statements other than queries.
    [stmt e l]: the statement [e] is written as the symbols [l]. *)
From Coq Require Import String List Arith Bool.
From Verif Require Import Str Keyword Lexer LexSpec LexGrammar LexTokens LayoutSpec Ast PrecSpec Prog RoundSpec.
Import ListNotations.
Local Open Scope string_scope.
Local Open Scope list_scope.
Local Open Scope nat_scope.

(** A name of a table, a database or a cluster: not a reserved word, and not a word that the statements give a meaning where the name is expected. *)
Definition fixed : list string := reserved_keywords ++ ["IF"; "TABLE"; "FUNCTION"].
Definition plain_name (e : expr) (t : tok) : Prop := any_name e t /\ (t_kind t = KKeyword -> str_in (upper (t_str t)) fixed = false).

(** Words that are written or not. *)
Definition flag (b : bool) (ws : list string) : list sym := if b then Sp :: words ws else [].

Inductive table : expr -> list sym -> Prop :=
| Table0 : forall e t, plain_name e t -> table (ETableIdentifier ENil e) [T t]
| Table1 : forall d t e u, plain_name d t -> any_name e u -> table (ETableIdentifier d e) [T t; T (O "."); T u].

Inductive column_name : expr -> list sym -> Prop :=
| Column_name0 : forall e t, plain_name e t -> column_name (ENestedIdentifier e ENil) [T t]
| Column_name1 : forall d t e u, plain_name d t -> any_name e u -> column_name (ENestedIdentifier d e) [T t; T (O "."); T u].

Inductive cluster : expr -> list sym -> Prop :=
| Cluster0 : cluster ENil []
| Cluster_name : forall p e t, plain_name e t -> cluster (EClusterClause p e) (Sp :: words ["ON"; "CLUSTER"] ++ [Sp; T t])
| Cluster_string : forall p e t, string_lit e t -> cluster (EClusterClause p e) (Sp :: words ["ON"; "CLUSTER"] ++ [Sp; T t]).

(** SYNC and NO DELAY. *)
Inductive modifier : string -> list sym -> Prop :=
| Modifier0 : modifier "" []
| Modifier_sync : modifier "SYNC" [Sp; T (K "SYNC")]
| Modifier_delay : modifier "NO DELAY" (Sp :: words ["NO"; "DELAY"]).

(** PARTITION. An expression does not begin with the word ID. (OPTIMIZE ... PARTITION ALL panics: C15.) *)
Definition no_id (l : list sym) : Prop := forall t r, toks l = t :: r -> t_kind t = KKeyword -> upper (t_str t) <> "ID".
Inductive partition_expr : expr -> list sym -> Prop :=
| Partition0 : partition_expr ENil []
| Partition_expr : forall p e l, says Expr e l -> no_id l -> partition_expr (EPartitionClause p e ENil false) (Sp :: T (K "PARTITION") :: Sp :: l).
Inductive partition : expr -> list sym -> Prop :=
| Partition_one : forall e l, partition_expr e l -> partition e l
| Partition_all : forall p, partition (EPartitionClause p ENil ENil true) (Sp :: words ["PARTITION"; "ALL"]).

(** A list of columns. *)
Inductive columns : expr -> list sym -> Prop :=
| Columns : forall p q (d : bool) es ls, sayl Column es ls -> es <> [] -> columns (EColumnExprList p q d es) ((if d then [T (K "DISTINCT"); Sp] else []) ++ sep_by comma ls).

Inductive deduplicate : expr -> list sym -> Prop :=
| Dedup0 : deduplicate ENil []
| Dedup : forall p, deduplicate (EDeduplicateClause p ENil ENil) [Sp; T (K "DEDUPLICATE")]
| Dedup_by : forall p b lb, columns b lb -> deduplicate (EDeduplicateClause p b ENil) (Sp :: words ["DEDUPLICATE"; "BY"] ++ Sp :: lb)
| Dedup_except : forall p b lb x lx, columns b lb -> columns x lx ->
    deduplicate (EDeduplicateClause p b x) (Sp :: words ["DEDUPLICATE"; "BY"] ++ Sp :: lb ++ [Sp; T (K "EXCEPT"); Sp] ++ lx).

(** The rows of INSERT. *)
Definition no_paren (l : list sym) : Prop := forall t r, toks l = t :: r -> t_kind t <> "(".
Inductive value : expr -> list sym -> Prop :=
| Value_expr : forall e l, says Expr e l -> no_paren l -> value e l
| Value_row : forall p q es ls, values es ls -> es <> [] -> value (EAssignmentValues p q es) (paren (sep_by comma ls))
with values : list expr -> list (list sym) -> Prop :=
| Values_nil : values [] []
| Values_cons : forall e l es ls, value e l -> values es ls -> values (e :: es) (l :: ls).
Scheme value_ind2 := Induction for value Sort Prop with values_ind2 := Induction for values Sort Prop.
Combined Scheme value_mut from value_ind2, values_ind2.
Inductive row : expr -> list sym -> Prop :=
| Row : forall p q es ls, values es ls -> es <> [] -> row (EAssignmentValues p q es) (paren (sep_by comma ls)).

(** The columns and the source of INSERT: the three fields and what is written. *)
Inductive insert_columns : expr -> list sym -> Prop :=
| Ins_columns0 : insert_columns ENil []
| Ins_columns : forall p q es ls, Forall2 column_name es ls -> es <> [] -> insert_columns (EColumnNamesExpr p q es) (Sp :: paren (sep_by comma ls)).
Inductive insert_source : expr -> list expr -> expr -> list sym -> Prop :=
| Ins_none : insert_source ENil [] ENil []
| Ins_format : forall p n t, plain_name n t -> insert_source (EFormatClause p n) [] ENil [Sp; T (K "FORMAT"); Sp; T t]
| Ins_values : forall es ls, Forall2 row es ls -> es <> [] -> insert_source ENil es ENil (Sp :: T (K "VALUES") :: Sp :: sep_by comma ls)
| Ins_select : forall q l r, says Query q l -> toks l = K "SELECT" :: r -> insert_source ENil [] q (Sp :: l).

Inductive pair : expr -> list sym -> Prop :=
| Pair : forall a la b lb, table a la -> table b lb -> pair (ETargetPair a b) (la ++ [Sp; T (K "TO"); Sp] ++ lb).

(** The parts of SHOW DATABASES. *)
Inductive show_like : bool -> string -> expr -> list sym -> Prop :=
| Like0 : show_like false "" ENil []
| Like : forall (n : bool) w e l, In w ["LIKE"; "ILIKE"] -> says Expr e l -> show_like n w e (Sp :: (if n then [T (K "NOT"); Sp] else []) ++ T (K w) :: Sp :: l).
Inductive show_limit : expr -> list sym -> Prop :=
| Show_limit0 : show_limit ENil []
| Show_limit : forall e l, says Expr e l -> show_limit e (Sp :: T (K "LIMIT") :: Sp :: l).
Inductive after_words (ws : list string) : expr -> list sym -> Prop :=
| After0 : after_words ws ENil []
| After_string : forall e t, string_lit e t -> after_words ws e (Sp :: words ws ++ [Sp; T t]).

Inductive system : expr -> list sym -> Prop :=
| Sys_flush : forall p q, system (ESystemFlushExpr p q true ENil) (words ["FLUSH"; "LOGS"])
| Sys_reload : forall p q ws c lc, In ws [["DICTIONARIES"]; ["EMBEDDED"; "DICTIONARIES"]] -> cluster c lc ->
    system (ESystemReloadExpr p q c ENil (String.concat " " ws)) (words ("RELOAD" :: ws) ++ lc)
| Sys_dictionary : forall p q c lc d ld, cluster c lc -> table d ld ->
    system (ESystemReloadExpr p q c d "DICTIONARY") (words ["RELOAD"; "DICTIONARY"] ++ lc ++ Sp :: ld)
| Sys_cache : forall p q w, word w -> In (upper w) ["DNS"; "MARK"; "UNCOMPRESSED"; "FILESYSTEM"; "QUERY"] ->
    system (ESystemDropExpr p q (w ++ " CACHE")%string) (words ["DROP"; w; "CACHE"])
| Sys_compiled : forall p q, system (ESystemDropExpr p q "COMPILED EXPRESSION CACHE") (words ["DROP"; "COMPILED"; "EXPRESSION"; "CACHE"]).

Inductive stmt : expr -> list sym -> Prop :=
| St_query : forall e l, says Query e l -> stmt e l
| St_use : forall p q e t, plain_name e t -> stmt (EUseStmt p q e) [T (K "USE"); Sp; T t]
| St_set : forall p p' q es ls, sayl Setting es ls -> es <> [] -> stmt (ESetStmt p (ESettingsClause p' q es)) (T (K "SET") :: Sp :: sep_by comma ls)
| St_drop_database : forall p q e t (i : bool) c lc m lm, plain_name e t -> cluster c lc -> modifier m lm ->
    stmt (EDropDatabase p q e i c m) (words ["DROP"; "DATABASE"] ++ flag i ["IF"; "EXISTS"] ++ Sp :: T t :: lc ++ lm)
| St_drop : forall p q k (tmp : bool) e l (i : bool) c lc m lm, In k ["TABLE"; "VIEW"; "DICTIONARY"] -> tmp = false \/ k = "TABLE" -> table e l -> cluster c lc -> modifier m lm ->
    stmt (EDropStmt p q k e i c tmp m) (T (K "DROP") :: flag tmp ["TEMPORARY"] ++ Sp :: T (K k) :: flag i ["IF"; "EXISTS"] ++ Sp :: l ++ lc ++ lm)
| St_truncate : forall p q (tmp i : bool) e l c lc, table e l -> cluster c lc ->
    stmt (ETruncateTable p q tmp i e c) (T (K "TRUNCATE") :: flag tmp ["TEMPORARY"] ++ Sp :: T (K "TABLE") :: flag i ["IF"; "EXISTS"] ++ Sp :: l ++ lc)
| St_rename : forall p q k es ls c lc, In k ["TABLE"; "DATABASE"; "DICTIONARY"] -> Forall2 pair es ls -> es <> [] -> cluster c lc ->
    stmt (ERenameStmt p q k es c) (words ["RENAME"; k] ++ Sp :: sep_by comma ls ++ lc)
| St_delete : forall p e l c lc w lw, table e l -> cluster c lc -> says Expr w lw ->
    stmt (EDeleteClause p e c w) (words ["DELETE"; "FROM"] ++ Sp :: l ++ lc ++ [Sp; T (K "WHERE"); Sp] ++ lw)
| St_describe : forall p q (k : bool) e l, table e l ->
    stmt (EDescribeStmt p q (if k then "TABLE" else "") e) (T (K "DESCRIBE") :: flag k ["TABLE"] ++ Sp :: l)
| St_check : forall p e l a la, table e l -> partition a la -> stmt (ECheckStmt p e a) (words ["CHECK"; "TABLE"] ++ Sp :: l ++ la)
| St_optimize : forall p q e l c lc a la (f : bool) d ld, table e l -> cluster c lc -> partition_expr a la -> deduplicate d ld ->
    stmt (EOptimizeStmt p q e c a f d) (words ["OPTIMIZE"; "TABLE"] ++ Sp :: l ++ lc ++ la ++ flag f ["FINAL"] ++ ld)
| St_explain : forall p w q l, word w -> In (upper w) ["SYNTAX"; "PIPELINE"; "ESTIMATE"; "AST"] -> says Query q l ->
    stmt (EExplainStmt p w q) (words ["EXPLAIN"; w] ++ Sp :: l)
| St_insert : forall p f vs q (k : bool) e l cs lcs ls, table e l -> insert_columns cs lcs -> insert_source f vs q ls ->
    stmt (EInsertStmt p f k e cs vs q) (words ["INSERT"; "INTO"] ++ flag k ["TABLE"] ++ Sp :: l ++ lcs ++ ls)
| St_show_create : forall p q e l, table e l -> stmt (EShowStmt p q "CREATE TABLE" e false "" ENil ENil ENil ENil) (words ["SHOW"; "CREATE"; "TABLE"] ++ Sp :: l)
| St_show_tables : forall p q, stmt (EShowStmt p q "TABLES" ENil false "" ENil ENil ENil ENil) (words ["SHOW"; "TABLES"])
| St_show_databases : forall p q n w k lk m lm o lo f lf, show_like n w k lk -> show_limit m lm -> after_words ["INTO"; "OUTFILE"] o lo -> after_words ["FORMAT"] f lf ->
    stmt (EShowStmt p q "DATABASES" ENil n w k m o f) (words ["SHOW"; "DATABASES"] ++ lk ++ lm ++ lo ++ lf)
| St_system : forall p e l, system e l -> stmt (ESystemStmt p e) (T (K "SYSTEM") :: Sp :: l).
