(** Specification for C25 and C26: a grammar of canonical texts. [says k e l]: the tree [e]
    of the kind [k] is written as the symbols [l] (tokens and blanks). The grammar mentions
    neither the parser nor the formatter. *)
From Coq Require Import String Ascii List Arith Bool.
From Verif Require Import Str Keyword Lexer LexSpec LexGrammar LexTokens LayoutSpec Ast PrecSpec Prog.
Import ListNotations.
Local Open Scope string_scope.
Local Open Scope list_scope.
Local Open Scope nat_scope.

(** A symbol of a text: a token or a blank. *)
Inductive sym : Type := T (t : tok) | Sp.

(** A keyword, and an operator or a punctuation mark. *)
Definition K (w : string) : tok := mkTok KKeyword w 0 QUnquoted.
Definition O (w : string) : tok := mkTok w w 0 QNone.

Definition toks (l : list sym) : list tok := flat_map (fun s => match s with T t => [t] | Sp => [] end) l.

(** How a token is written. *)
Definition spell (t : tok) : string :=
  if String.eqb (t_kind t) KString then ("'" ++ t_str t ++ "'")%string
  else if t_quote t =? QBackTicks then ("`" ++ t_str t ++ "`")%string
  else if t_quote t =? QDouble then (String (ch 34) "" ++ t_str t ++ String (ch 34) "")%string
  else t_str t.

Fixpoint text (l : list sym) : string :=
  match l with [] => "" | T t :: r => spell t ++ text r | Sp :: r => " " ++ text r end%string.

(** Texts that can be read back as the same tokens: a number with a sign does not come after an operand, and a number does not come right before a dot. *)
Fixpoint fine (prev : option tok) (l : list sym) : Prop :=
  match l with
  | [] => True
  | Sp :: r => fine prev r
  | T t :: r =>
      (In (t_kind t) [KInt; KFloat] -> (head_is is_digit (t_str t) = true \/ ~ operand prev) /\ (forall r', r <> T (O ".") :: r')) /\ fine (Some t) r
  end.

(** ** Names and literals *)

Definition word_tok (w : string) : tok := mkTok (if is_keyword (upper w) then KKeyword else KIdent) w 0 QUnquoted.

(** Any word, and any quoted name. *)
Inductive any_name : expr -> tok -> Prop :=
| An_word : forall w p q, word w -> any_name (EIdent w QUnquoted p q) (word_tok w)
| An_back : forall s p q, free_of "`" s -> any_name (EIdent s QBackTicks p q) (mkTok KIdent s 0 QBackTicks)
| An_double : forall s p q, free_of (ch 34) s -> any_name (EIdent s QDouble p q) (mkTok KIdent s 0 QDouble).

(** Keywords that are not names of columns or functions. *)
Definition touchy : list string :=
  reserved_keywords ++ ["DATE"; "TIMESTAMP"; "CAST"; "EXTRACT"; "INTERSECT"; "END"; "TOP"; "ALL"; "CUBE"; "ROLLUP"; "GROUPING"].

(** A name that is not such a keyword; a name that is no keyword. *)
Definition free_name (e : expr) (t : tok) : Prop := any_name e t /\ (t_kind t = KKeyword -> str_in (upper (t_str t)) touchy = false).
Definition name (e : expr) (t : tok) : Prop := any_name e t /\ t_kind t = KIdent.

Inductive number_lit : expr -> tok -> Prop :=
| Number_lit : forall s b f p q, number s b f -> number_lit (ENumberLiteral p q s b) (mkTok (if f then KFloat else KInt) s b QNone).
Inductive string_lit : expr -> tok -> Prop :=
| String_lit : forall s p q, str_text s -> string_lit (EStringLiteral p q s) (mkTok KString s 0 QNone).
Inductive star : expr -> Prop := Star : forall p q, star (EIdent "*" 0 p q).

(** Functions whose arguments are written with keywords. *)
Definition keyword_args : list string := ["TRIM"; "SUBSTRING"; "OVERLAY"; "OVERLAYUTF8"].
Definition plain_function (e : expr) : Prop := match e with EIdent n _ _ _ => str_in (upper n) keyword_args = false | _ => False end.

(** ** Lists *)

Fixpoint sep_by (s : list sym) (ls : list (list sym)) : list sym :=
  match ls with [] => [] | [l] => l | l :: r => l ++ s ++ sep_by s r end.
Definition comma : list sym := [T (O ","); Sp].
Definition paren (l : list sym) : list sym := T (O "(") :: l ++ [T (O ")")].
Definition bracket (l : list sym) : list sym := T (O "[") :: l ++ [T (O "]")].

(** ** Operators *)

Definition word_ops : list string := ["OR"; "AND"; "LIKE"; "ILIKE"; "REGEXP"; "IN"].
Definition sign_ops : list string := ["="; "=="; "!="; "<>"; "<"; "<="; ">"; ">="; "||"; "+"; "-"; "*"; "/"; "%"].
Definition op_tok (op : string) : tok := if str_in op word_ops then K op else O op.

(** What may be followed by [ [ ] and by [.]: any operand but a name (for the dot, a path). *)
Fixpoint indexable (e : expr) : bool :=
  match e with
  | EFunctionExpr _ _ | EParamExprList _ _ _ _ | EArrayParamList _ _ _ | EObjectParams _ _ | EIndexOperation _ _ _ | EPath _
  | EStringLiteral _ _ _ | ENumberLiteral _ _ _ _ | ECaseExpr _ _ _ _ _ _ | ESubQuery _ _ | ENestedIdentifier _ _ => true
  | EBinaryOperation _ op r _ _ => String.eqb op "::" && indexable r
  | _ => false
  end.
Fixpoint dottable (e : expr) : bool :=
  match e with
  | EFunctionExpr _ _ | EParamExprList _ _ _ _ | EArrayParamList _ _ _ | EObjectParams _ _ | EIndexOperation _ _ _
  | EStringLiteral _ _ _ | ENumberLiteral _ _ _ _ | ECaseExpr _ _ _ _ _ _ | ESubQuery _ _ | ENestedIdentifier _ _ => true
  | EBinaryOperation _ op r _ _ => String.eqb op "::" && dottable r
  | _ => false
  end.

(** The operand of CASE does not begin with what could continue an expression. *)
Definition quiet (l : list sym) : bool :=
  match toks l with t :: _ => negb (str_in (t_kind t) ["+"; "-"; "*"]) && negb (String.eqb (t_kind t) KKeyword && String.eqb (t_str t) "NOT") | [] => false end.
Definition not_tuple (l : list sym) : bool := match toks l with t :: _ => negb (String.eqb (t_str t) "Tuple") | [] => false end.

(** The join words in front of JOIN. *)
Definition join_words : list (list string) :=
  [["CROSS"]; ["INNER"]; ["LEFT"]; ["RIGHT"]; ["FULL"]; ["LEFT"; "OUTER"]; ["RIGHT"; "OUTER"]; ["FULL"; "OUTER"];
   ["ANY"]; ["ALL"]; ["ANY"; "LEFT"]; ["ANY"; "INNER"]; ["ALL"; "LEFT"]; ["ASOF"]; ["ASOF"; "LEFT"]; ["SEMI"; "LEFT"];
   ["LEFT"; "ANY"]; ["LEFT"; "SEMI"]; ["LEFT"; "ANTI"]; ["LEFT"; "ASOF"]; ["INNER"; "ANY"]; ["RIGHT"; "ANY"]; []].
Definition words (ws : list string) : list sym := sep_by [Sp] (map (fun w => [T (K w)]) ws).

Definition is_comma_join (e : expr) : bool := match e with ENil => false | EJoinExpr _ _ _ (_ :: _) _ => false | _ => true end.

(** ** The grammar *)

Inductive sort : Type :=
| Prim | Expr | Params | Array | Column | When | Else
| Query | With | Cte | Item | Order | Table | Base | Aliased | Join | From | Constraint
| Prewhere | Where | GroupBy | Having | OrderBy | LimitBy | Limit | Setting | Settings | FormatC | NextQuery
| Opt (k : sort).

(** UNION, EXCEPT and INTERSECT: the four fields, the words and the query that follows. *)
Inductive set_op : expr -> expr -> expr -> expr -> list sym -> expr -> Prop :=
| Set_none : set_op ENil ENil ENil ENil [] ENil
| Set_all : forall q, q <> ENil -> set_op q ENil ENil ENil [Sp; T (K "UNION"); Sp; T (K "ALL"); Sp] q
| Set_distinct : forall q, q <> ENil -> set_op ENil q ENil ENil [Sp; T (K "UNION"); Sp; T (K "DISTINCT"); Sp] q
| Set_except : forall q, q <> ENil -> set_op ENil ENil q ENil [Sp; T (K "EXCEPT"); Sp] q
| Set_intersect : forall q, q <> ENil -> set_op ENil ENil ENil q [Sp; T (K "INTERSECT"); Sp] q.

Inductive says : sort -> expr -> list sym -> Prop :=
(* operands *)
| P_name : forall e t, free_name e t -> says Prim e [T t]
| P_number : forall e t, number_lit e t -> says Prim e [T t]
| P_string : forall e t, string_lit e t -> says Prim e [T t]
| P_star : forall e, star e -> says Prim e [T (O "*")]
| P_paren : forall e l, says Params e l -> says Prim e l
| P_call : forall n t ps l, free_name n t -> plain_function n -> says Params ps l -> says Prim (EFunctionExpr n ps) (T t :: l)
| P_array : forall e l, says Array e l -> says Prim e l
| P_index : forall n t a l, name n t -> says Array a l -> says Prim (EObjectParams n a) (T t :: l)
| P_field : forall n t i u, name n t -> number_lit i u -> t_kind u = KInt -> says Prim (EIndexOperation n "." i) [T t; T (O "."); T u]
| P_path : forall n t ns ts, name n t -> Forall2 any_name ns ts -> ns <> [] ->
    says Prim (EPath (n :: ns)) (sep_by [T (O ".")] ([T t] :: map (fun u => [T u]) ts))
| P_dotstar : forall n t s, name n t -> star s -> says Prim (ENestedIdentifier n s) [T t; T (O "."); T (O "*")]
| P_case : forall p q e le ws lws p' el lel, says (Opt Expr) e le -> le = [] \/ quiet le = true -> sayl When ws lws -> le <> [] \/ ws <> [] ->
    says Else el lel -> says Prim (ECaseExpr p q e ws p' el) (T (K "CASE") :: le ++ flat_map (cons Sp) lws ++ lel ++ [Sp; T (K "END")])
| P_subquery : forall q l r, says Query q l -> toks l = K "SELECT" :: r -> says Prim (ESubQuery true q) (paren l)
| S_when : forall p q c lc r lr p', says Expr c lc -> says Expr r lr ->
    says When (EWhenClause p q c r p' ENil) (T (K "WHEN") :: Sp :: lc ++ [Sp; T (K "THEN"); Sp] ++ lr)
| S_else0 : says Else ENil []
| S_else : forall e l, says Expr e l -> says Else e (Sp :: T (K "ELSE") :: Sp :: l)
| S_params : forall p q p' q' d es ls, sayl Column es ls ->
    says Params (EParamExprList p q (EColumnExprList p' q' d es) ENil) (paren ((if d then [T (K "DISTINCT"); Sp] else []) ++ sep_by comma ls))
| S_params2 : forall p q p' q' d es ls p2 q2 es2 ls2, sayl Column es ls -> sayl Expr es2 ls2 ->
    says Params (EParamExprList p q (EColumnExprList p' q' d es) (EColumnArgList false p2 q2 es2))
      (paren ((if d then [T (K "DISTINCT"); Sp] else []) ++ sep_by comma ls) ++ paren (sep_by comma ls2))
| S_array : forall p q p' q' es ls, sayl Column es ls ->
    says Array (EArrayParamList p q (EColumnExprList p' q' false es)) (bracket (sep_by comma ls))
| S_column : forall e l, says Expr e l -> says Column (EColumnExpr e ENil) l
| S_column_as : forall e l a t, says Expr e l -> any_name a t -> says Column (EColumnExpr e a) (l ++ [Sp; T (K "AS"); Sp; T t])
(* operators *)
| X_prim : forall e l, says Prim e l -> says Expr e l
| X_binary : forall a la op b lb, In op (word_ops ++ sign_ops) -> says Expr a la -> says Expr b lb ->
    says Expr (EBinaryOperation a op b false false) (la ++ [Sp; T (op_tok op); Sp] ++ lb)
| X_not_in : forall a la op b lb, In op ["LIKE"; "ILIKE"; "IN"] -> says Expr a la -> says Expr b lb ->
    says Expr (EBinaryOperation a ("NOT " ++ op) b false false) (la ++ [Sp; T (K "NOT"); Sp; T (K op); Sp] ++ lb)
| X_arrow : forall a la b lb, lv_ternary < as_left a -> says Expr a la -> says Expr b lb ->
    says Expr (EBinaryOperation a "->" b false false) (la ++ [Sp; T (O "->"); Sp] ++ lb)
| X_cast : forall a la b lb, says Expr a la -> says Expr b lb -> not_tuple lb = true ->
    says Expr (EBinaryOperation a "::" b false false) (la ++ [T (O "::")] ++ lb)
| X_between : forall (n : bool) a la b lb p c lc, says Expr a la -> says Expr b lb -> says Expr c lc ->
    says Expr (EBetweenClause a n b p c) (la ++ [Sp] ++ (if n then [T (K "NOT"); Sp] else []) ++ [T (K "BETWEEN"); Sp] ++ lb ++ [Sp; T (K "AND"); Sp] ++ lc)
| X_null : forall p q a la, says Expr a la -> says Expr (EIsNullExpr p q a) (la ++ [Sp; T (K "IS"); Sp; T (K "NULL")])
| X_not_null : forall p q a la, says Expr a la -> says Expr (EIsNotNullExpr p q a) (la ++ [Sp; T (K "IS"); Sp; T (K "NOT"); Sp; T (K "NULL")])
| X_ternary : forall a la b lb c lc, lv_ternary < as_left a -> says Expr a la -> says Expr b lb -> says Expr c lc ->
    says Expr (ETernaryOperation a b c) (la ++ [Sp; T (O "?"); Sp] ++ lb ++ [Sp; T (O ":"); Sp] ++ lc)
| X_not : forall p a la, says Expr a la -> says Expr (EUnaryExpr p "NOT" a) (T (K "NOT") :: Sp :: la)
| X_sign : forall p op a la, In op ["-"; "+"] -> says Prim a la -> says Expr (EUnaryExpr p op a) (T (O op) :: Sp :: la)
| X_index : forall o lo a l, indexable o = true -> says Expr o lo -> says Array a l -> says Expr (EObjectParams o a) (lo ++ l)
| X_field : forall o lo i t, dottable o = true -> says Expr o lo -> any_name i t \/ (number_lit i t /\ t_base t = 10) ->
    says Expr (EIndexOperation o "." i) (lo ++ [T (O "."); T t])
(* queries *)
| S_query : forall p q w lw d its ls f lf pw lpw wh lwh g lg h lh ob lob lb llb li lli se lse fo lfo ua ud ex is_ lset nq lnq,
    says With w lw -> sayl Item its ls -> its <> [] ->
    says (Opt From) f lf -> says (Opt Prewhere) pw lpw -> says (Opt Where) wh lwh -> says (Opt GroupBy) g lg -> says (Opt Having) h lh ->
    says (Opt OrderBy) ob lob -> says (Opt LimitBy) lb llb -> says (Opt Limit) li lli -> says (Opt Settings) se lse -> says (Opt FormatC) fo lfo ->
    set_op ua ud ex is_ lset nq -> says NextQuery nq lnq ->
    llb = [] \/ (forall r, toks lli <> K "OFFSET" :: r) ->
    ex = ENil \/ lf ++ lpw ++ lwh ++ lg ++ lh ++ lob ++ llb ++ lli ++ lse ++ lfo <> [] ->
    says Query (ESelectQuery p q w ENil d ENil its f ENil pw wh g false h ob lb li se fo ua ud ex is_)
      (lw ++ [T (K "SELECT")] ++ (if d then [Sp; T (K "DISTINCT")] else []) ++ Sp :: sep_by comma ls
       ++ lf ++ lpw ++ lwh ++ lg ++ lh ++ lob ++ llb ++ lli ++ lse ++ lfo ++ lset ++ lnq)
| S_next0 : says NextQuery ENil []
| S_next : forall q l, says Query q l -> says NextQuery q l
| S_with0 : says With ENil []
| S_with : forall p q cs ls, sayl Cte cs ls -> cs <> [] -> says With (EWithClause p q cs) (T (K "WITH") :: Sp :: sep_by comma ls ++ [Sp])
| S_cte : forall p e l q lq, says Expr e l -> says Query q lq -> says Cte (ECTEStmt p e q) (l ++ [Sp; T (K "AS"); Sp] ++ paren lq)
| S_cte_name : forall p e l a t, says Expr e l -> any_name a t -> says Cte (ECTEStmt p e a) (l ++ [Sp; T (K "AS"); Sp; T t])
| S_item : forall e l, says Expr e l -> says Item (ESelectItem e [] ENil) l
| S_item_as : forall e l a t, says Expr e l -> any_name a t -> says Item (ESelectItem e [] a) (l ++ [Sp; T (K "AS"); Sp; T t])
(* FROM *)
| S_table0 : forall e t, any_name e t -> (t_kind t = KKeyword -> is_reserved (upper (t_str t)) = false) -> says Base (ETableIdentifier ENil e) [T t]
| S_table1 : forall d t e u, any_name d t -> (t_kind t = KKeyword -> is_reserved (upper (t_str t)) = false) -> any_name e u ->
    says Base (ETableIdentifier d e) [T t; T (O "."); T u]
| S_table_query : forall q l, says Query q l -> says Base (ESubQuery true q) (paren l)
| S_alias0 : forall b l, says Base b l -> says Aliased b l
| S_alias : forall b l p a t, says Base b l -> any_name a t -> says Aliased (EAliasExpr b p a) (l ++ [Sp; T (K "AS"); Sp; T t])
| S_table : forall p q q' b l (fin : bool), says Aliased b l -> says Table (EJoinTableExpr (ETableExpr p q ENil b fin) q' ENil false) (l ++ if fin then [Sp; T (K "FINAL")] else [])
| S_from1 : forall p t l, says Table t l -> says From (EFromClause p t) (T (K "FROM") :: Sp :: l)
| S_from2 : forall p p' t l j lj, says Table t l -> says Join j lj -> j <> ENil -> says From (EFromClause p (EJoinExpr p' t j [] ENil)) (T (K "FROM") :: Sp :: l ++ lj)
| S_join0 : says Join ENil []
| S_comma1 : forall t l, says Table t l -> says Join t (T (O ",") :: l)
| S_comma2 : forall p t l j lj, says Table t l -> says Join j lj -> j <> ENil -> says Join (EJoinExpr p t j [] ENil) (T (O ",") :: l ++ lj)
| S_join : forall p ws t l c lc j lj, In ws join_words -> says Table t l -> says (Opt Constraint) c lc -> says Join j lj ->
    c = ENil \/ is_comma_join j = false ->
    says Join (EJoinExpr p t j (ws ++ ["JOIN"]) c) (Sp :: words (ws ++ ["JOIN"]) ++ Sp :: l ++ lc ++ lj)
| S_on : forall p p' q' es ls, sayl Column es ls -> es <> [] ->
    says Constraint (EOnClause p (EColumnExprList p' q' false es)) (T (K "ON") :: Sp :: sep_by comma ls)
| S_using : forall p p' q' es ls, sayl Column es ls -> es <> [] -> (forall t r, toks (sep_by comma ls) = t :: r -> t_kind t <> "(") ->
    says Constraint (EUsingClause p (EColumnExprList p' q' false es)) (T (K "USING") :: Sp :: sep_by comma ls)
(* other clauses *)
| S_prewhere : forall p e l, says Expr e l -> says Prewhere (EPrewhereClause p e) (T (K "PREWHERE") :: Sp :: l)
| S_where : forall p e l, says Expr e l -> says Where (EWhereClause p e) (T (K "WHERE") :: Sp :: l)
| S_group : forall p q p' q' es ls, sayl Column es ls -> es <> [] ->
    says GroupBy (EGroupByClause p q "" (EColumnExprList p' q' false es) false false false) (T (K "GROUP") :: Sp :: T (K "BY") :: Sp :: sep_by comma ls)
| S_having : forall p e l, says Column e l -> says Having (EHavingClause p e) (T (K "HAVING") :: Sp :: l)
| S_order : forall p e l d, says Expr e l -> In d [""; "ASC"; "DESC"] ->
    says Order (EOrderExpr p e ENil d ENil) (l ++ if String.eqb d "" then [] else [Sp; T (K d)])
| S_order_by : forall p q es ls, sayl Order es ls -> es <> [] ->
    says OrderBy (EOrderByClause p q es ENil) (T (K "ORDER") :: Sp :: T (K "BY") :: Sp :: sep_by comma ls)
| S_limit : forall p e l, says Expr e l -> says Limit (ELimitClause p e ENil) (T (K "LIMIT") :: Sp :: l)
| S_limit_offset : forall p e l o lo, says Expr e l -> says Expr o lo ->
    says Limit (ELimitClause p e o) (T (K "LIMIT") :: Sp :: l ++ [Sp; T (K "OFFSET"); Sp] ++ lo)
| S_offset : forall p o lo, says Expr o lo -> says Limit (ELimitClause p ENil o) (T (K "OFFSET") :: Sp :: lo)
| S_limit_by : forall m lm r p q es ls, says Limit m lm -> toks lm = K "LIMIT" :: r -> sayl Column es ls -> es <> [] ->
    says LimitBy (ELimitByClause m (EColumnExprList p q false es)) (lm ++ [Sp; T (K "BY"); Sp] ++ sep_by comma ls)
| S_setting : forall p n t v u, name n t -> (number_lit v u /\ t_kind u = KInt) \/ string_lit v u -> says Setting (ESettingExpr p n v) [T t; T (O "="); T u]
| S_settings : forall p q es ls, sayl Setting es ls -> es <> [] -> says Settings (ESettingsClause p q es) (T (K "SETTINGS") :: Sp :: sep_by comma ls)
| S_format : forall p n t, free_name n t -> says FormatC (EFormatClause p n) [T (K "FORMAT"); Sp; T t]
| O_none : forall k, says (Opt k) ENil []
| O_some : forall k e l, says k e l -> says (Opt k) e (Sp :: l)
with sayl : sort -> list expr -> list (list sym) -> Prop :=
| L_nil : forall k, sayl k [] []
| L_cons : forall k e l es ls, says k e l -> sayl k es ls -> sayl k (e :: es) (l :: ls).

Scheme says_ind2 := Induction for says Sort Prop with sayl_ind2 := Induction for sayl Sort Prop.
Combined Scheme says_mut from says_ind2, sayl_ind2.
