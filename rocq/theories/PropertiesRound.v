(** Properties C25 and C26: formatting and parsing again. *)
From Coq Require Import String Ascii List Arith Bool Lia.
From Verif Require Import Str Keyword Lexer LexSpec LexGrammar LexTokens LexProps LayoutSpec Ast AstPos AstSubs Strip StripFacts Prog Parser ParserApi ParseFacts
  PrecSpec Format FormatFacts RoundSpec RoundStmt RoundText RoundLex PropertiesParser.
Import ListNotations.
Local Open Scope string_scope.
Local Open Scope list_scope.
Local Open Scope nat_scope.

(** ** C25 *)

(** Not every statement: the text of a parsed statement may be rejected, ... *)
Theorem C25_refuted : exists inp t sp u e, parse_stmts inp = Parsed [t] sp /\ Format t = FOk u /\ parse_stmts u = Failed e.
Proof. exists "SELECT 1 . a". do 4 eexists. split; [vm_compute; reflexivity|]. split; [vm_compute; reflexivity|]. vm_compute. reflexivity. Qed.
Print Assumptions C25_refuted.

(** ... or be the text of another statement: DISTINCT and WITH TOTALS are dropped, and two numbers become one. *)
Theorem C25_changed_refuted : Forall (fun inp => exists t sp u t' sp', parse_stmts inp = Parsed [t] sp /\ Format t = FOk u /\ parse_stmts u = Parsed [t'] sp' /\ strip t' <> strip t)
  ["SELECT [DISTINCT a]"; "SELECT q(1)(DISTINCT b)"; "SELECT a WITH TOTALS"; "SELECT 1 .2"].
Proof. repeat (apply Forall_cons || apply Forall_nil); do 5 eexists; (split; [vm_compute; reflexivity|]); (split; [vm_compute; reflexivity|]); (split; [vm_compute; reflexivity|]); vm_compute; discriminate. Qed.
Print Assumptions C25_changed_refuted.

(** For a SELECT statement that is written as the canonical text [l] (RoundSpec.v) with no number where
    it would run into what is written before or after it, the formatted text is [text l], and it is parsed as the same statement
    up to positions. Missing: the statements and clauses that RoundSpec.v leaves out. *)
Theorem C25_partial : forall inp stmts sp t l,
  parse_stmts inp = Parsed stmts sp -> In t stmts -> says Query t l -> fine None l ->
  Format t = FOk (text l) /\ exists t' sp', parse_stmts (text l) = Parsed [t'] sp' /\ strip t' = strip t.
Proof.
  intros inp stmts sp t l Hp Ht Hs Hf. split; [now apply query_text|]. apply (source_parsed t l); [exact Hs| |now apply query_source with t].
  apply All_nodes. intros e He. eapply C21_precedence; eassumption.
Qed.
Print Assumptions C25_partial.

(** The same for a tree that need not come from the parser, provided that it respects the strength of the operators. *)
Theorem C25_tree_partial : forall t l, says Query t l -> All respects t -> fine None l ->
  Format t = FOk (text l) /\ exists t' sp', parse_stmts (text l) = Parsed [t'] sp' /\ strip t' = strip t.
Proof. intros t l Hs Ha Hf. split; [now apply query_text|]. apply (source_parsed t l); [exact Hs|exact Ha|now apply query_source with t]. Qed.
Print Assumptions C25_tree_partial.

(** Every text with the tokens of [l], whatever the layout between them, is parsed as that tree. *)
Theorem C25_layout_partial : forall t l s, says Query t l -> All respects t -> source None (toks l) true s ->
  exists t' sp', parse_stmts s = Parsed [t'] sp' /\ strip t' = strip t.
Proof. exact source_parsed. Qed.
Print Assumptions C25_layout_partial.

(** A query with most of the clauses meets the hypotheses. *)
Definition sample : string :=
  "select distinct a + 1 b, f(-2) from t as u LEFT join (select * from v) as w on x.y = z where not a in ('it''s', 3) and b between 1 and 2 group by a order by b desc limit 10".
Definition sample_text : string :=
  "SELECT DISTINCT a + 1 AS b, f(-2) FROM t AS u LEFT JOIN (SELECT * FROM v) AS w ON x.y = z WHERE NOT a IN ('it''s', 3) AND b BETWEEN 1 AND 2 GROUP BY a ORDER BY b DESC LIMIT 10".

Ltac w1 := split; [left; reflexivity|reflexivity].
Ltac nm := first [apply An_word; w1].
Ltac fnm := split; [nm|vm_compute; first [discriminate|reflexivity]].
Ltac num := first [apply (Number_lit _ 10 false); first [apply (N_dec "" _ false); [constructor|apply M_int; split; [discriminate|reflexivity]] | apply (N_dec "-" _ false); [constructor|apply M_int; split; [discriminate|reflexivity]]]].
Ltac sy :=
  match goal with
  | |- sayl _ [] _ => apply L_nil
  | |- sayl _ (_ :: _) _ => apply L_cons
  | |- says (Opt _) ENil _ => apply O_none
  | |- says (Opt _) _ _ => apply O_some
  | |- says With ENil _ => apply S_with0
  | |- says NextQuery ENil _ => apply S_next0
  | |- says Join ENil _ => apply S_join0
  | |- says Join (EJoinExpr _ _ _ (_ :: _) _) _ => apply S_join with (ws := ["LEFT"])
  | |- says Join _ _ => apply S_comma1
  | |- says From (EFromClause _ (EJoinExpr _ _ _ _ _)) _ => apply S_from2
  | |- says From _ _ => apply S_from1
  | |- says Query _ _ => eapply S_query
  | |- says Item (ESelectItem _ _ ENil) _ => apply S_item
  | |- says Item _ _ => apply S_item_as
  | |- says Column (EColumnExpr _ ENil) _ => apply S_column
  | |- says Table _ _ => apply S_table
  | |- says Aliased (EAliasExpr _ _ _) _ => apply S_alias
  | |- says Aliased _ _ => apply S_alias0
  | |- says Base (ESubQuery _ _) _ => apply S_table_query
  | |- says Base _ _ => eapply S_table0
  | |- says Constraint _ _ => apply S_on
  | |- says Where _ _ => apply S_where
  | |- says GroupBy _ _ => apply S_group
  | |- says OrderBy _ _ => apply S_order_by
  | |- says Order _ _ => apply S_order
  | |- says Limit _ _ => apply S_limit
  | |- says Expr (EBinaryOperation _ _ _ _ _) _ => apply X_binary
  | |- says Expr (EBetweenClause _ ?n _ _ _) _ => apply (X_between n)
  | |- says Expr (EUnaryExpr _ "NOT" _) _ => apply X_not
  | |- says Expr _ _ => apply X_prim
  | |- says Prim (EIdent "*" _ _ _) _ => apply P_star
  | |- says Prim (EIdent _ _ _ _) _ => eapply P_name
  | |- says Prim (ENumberLiteral _ _ _ _) _ => eapply P_number
  | |- says Prim (EStringLiteral _ _ _) _ => eapply P_string
  | |- says Prim (EFunctionExpr _ _) _ => eapply P_call
  | |- says Prim (EPath _) _ => eapply P_path
  | |- says Prim (EParamExprList _ _ _ _) _ => apply P_paren
  | |- says Params _ _ => eapply S_params
  | |- set_op _ _ _ _ _ _ => apply Set_none
  | |- free_name _ _ => fnm
  | |- name _ _ => fnm
  | |- any_name _ _ => nm
  | |- number_lit _ _ => num
  | |- string_lit _ _ => apply String_lit
  | |- str_text (String "'" (String "'" _)) => apply ST_quotes
  | |- str_text "" => apply ST_nil
  | |- str_text _ => apply ST_char
  | |- star _ => constructor
  | |- plain_function _ => reflexivity
  | |- Forall2 any_name _ _ => repeat constructor
  | |- In _ _ => vm_compute; tauto
  | |- _ <> _ => discriminate
  | |- ENil = ENil \/ _ => now left
  | |- _ \/ is_comma_join _ = false => first [now left | now right]
  | |- _ \/ (forall r, toks _ <> _) => first [now left | right; intros; vm_compute; discriminate]
  | |- t_kind _ = KKeyword -> _ => vm_compute; first [discriminate|reflexivity]
  end.

Example C25_case : exists t sp l, parse_stmts sample = Parsed [t] sp /\ says Query t l /\ fine None l /\ text l = sample_text.
Proof.
  do 3 eexists. split; [vm_compute; reflexivity|]. split; [repeat sy|].
  split; [apply fineb_ok; vm_compute; reflexivity|vm_compute; reflexivity].
Qed.

(** ** C26 *)

(** Whenever parsing the formatted text gives the statement back, formatting is idempotent: the text does not depend on positions. *)
Theorem C26_from_C25 : forall t t', strip t' = strip t -> Format t' = Format t /\ forall ind, Beautify ind t' = Beautify ind t.
Proof. intros t t' H. split; [|intros ind]; [rewrite <- (Format_strip t), <- (Format_strip t')|rewrite <- (Beautify_strip ind t), <- (Beautify_strip ind t')]; now rewrite H. Qed.
Print Assumptions C26_from_C25.

(** The text of the first formatting may be rejected. *)
Theorem C26_refuted : exists inp t sp u e, parse_stmts inp = Parsed [t] sp /\ Format t = FOk u /\ parse_stmts u = Failed e.
Proof. exact C25_refuted. Qed.
Print Assumptions C26_refuted.

Theorem C26_partial : forall inp stmts sp t l,
  parse_stmts inp = Parsed stmts sp -> In t stmts -> says Query t l -> fine None l ->
  exists u t' sp', Format t = FOk u /\ parse_stmts u = Parsed [t'] sp' /\ Format t' = FOk u.
Proof.
  intros inp stmts sp t l Hp Ht Hs Hf. destruct (C25_partial _ _ _ _ _ Hp Ht Hs Hf) as [H1 (t' & sp' & H2 & H3)].
  exists (text l), t', sp'. split; [exact H1|]. split; [exact H2|]. rewrite <- H1. now apply C26_from_C25.
Qed.
Print Assumptions C26_partial.
