(** Properties C25 and C26 for CREATE and ALTER TABLE, and all statements of PropertiesMore.v. *)
From Coq Require Import String Ascii List Arith Bool Lia.
From Verif Require Import Str Keyword Lexer LexSpec LexGrammar LexTokens LexProps LayoutSpec Ast AstPos AstSubs Strip StripFacts Prog Parser ParserApi ParseFacts
  PrecSpec Format FormatFacts RoundSpec RoundText RoundLex RoundMoreSpec RoundDdlSpec RoundDdlText RoundDdl PropertiesParser PropertiesRound PropertiesMore.
Import ListNotations.
Local Open Scope string_scope.
Local Open Scope list_scope.
Local Open Scope nat_scope.

(** ** C25 *)

(** Not for every CREATE and ALTER: the formatted text is rejected, ... *)
Theorem C25_ddl_rejected_refuted : Forall (fun inp => exists t sp u e, parse_stmts inp = Parsed [t] sp /\ Format t = FOk u /\ parse_stmts u = Failed e)
  ["ALTER TABLE t FREEZE "; "ALTER TABLE t ADD INDEX IF NOT EXISTS i (a) TYPE minmax GRANULARITY 1"; "CREATE TABLE t (a Int, CONSTRAINT c CHECK a > 0) ENGINE = M"; "CREATE TABLE t (a Int COMMENT 'x' CODEC(ZSTD)) ENGINE = m"].
Proof. repeat (apply Forall_cons || apply Forall_nil); do 4 eexists; (split; [vm_compute; reflexivity|]); (split; [vm_compute; reflexivity|]); vm_compute; reflexivity. Qed.
Print Assumptions C25_ddl_rejected_refuted.

(** ... or is another statement. *)
Theorem C25_ddl_words_refuted : Forall (fun inp => exists t sp u t' sp', parse_stmts inp = Parsed [t] sp /\ Format t = FOk u /\ parse_stmts u = Parsed [t'] sp' /\ strip t' <> strip t)
  ["CREATE TABLE t (a Int NULL NOT NULL) ENGINE = m"; "ALTER TABLE t ATTACH PARTITION ID '5'"].
Proof. repeat (apply Forall_cons || apply Forall_nil); do 5 eexists; (split; [vm_compute; reflexivity|]); (split; [vm_compute; reflexivity|]); (split; [vm_compute; reflexivity|]); vm_compute; discriminate. Qed.
Print Assumptions C25_ddl_words_refuted.

(** For a statement that is written as the canonical text [l] (RoundDdlSpec.v), the formatted text is [text l], and it is parsed as the same statement up to positions. *)
Theorem C25_ddl_partial : forall inp stmts sp t l,
  parse_stmts inp = Parsed stmts sp -> In t stmts -> ddl t l -> fine None l ->
  Format t = FOk (text l) /\ exists t' sp', parse_stmts (text l) = Parsed [t'] sp' /\ strip t' = strip t.
Proof.
  intros inp stmts sp t l Hp Ht Hs Hf. split; [now apply ddl_text|]. apply (ddl_parsed t l); [exact Hs| |now apply ddl_source with t].
  apply All_nodes. intros e He. eapply C21_precedence; eassumption.
Qed.
Print Assumptions C25_ddl_partial.

(** The same for a tree that need not come from the parser, provided that it respects the strength of the operators. *)
Theorem C25_ddl_tree_partial : forall t l, ddl t l -> All respects t -> fine None l ->
  Format t = FOk (text l) /\ exists t' sp', parse_stmts (text l) = Parsed [t'] sp' /\ strip t' = strip t.
Proof. intros t l Hs Ha Hf. split; [now apply ddl_text|]. apply (ddl_parsed t l); [exact Hs|exact Ha|now apply ddl_source with t]. Qed.
Print Assumptions C25_ddl_tree_partial.

(** Every text with the tokens of [l], whatever the layout between them, is parsed as that tree. *)
Theorem C25_ddl_layout_partial : forall t l s, ddl t l -> All respects t -> source None (toks l) true s ->
  exists t' sp', parse_stmts s = Parsed [t'] sp' /\ strip t' = strip t.
Proof. exact ddl_parsed. Qed.
Print Assumptions C25_ddl_layout_partial.

(** ** C26 *)
Theorem C26_ddl_partial : forall inp stmts sp t l,
  parse_stmts inp = Parsed stmts sp -> In t stmts -> ddl t l -> fine None l ->
  exists u t' sp', Format t = FOk u /\ parse_stmts u = Parsed [t'] sp' /\ Format t' = FOk u.
Proof.
  intros inp stmts sp t l Hp Ht Hs Hf. destruct (C25_ddl_partial _ _ _ _ _ Hp Ht Hs Hf) as [H1 (t' & sp' & H2 & H3)].
  exists (text l), t', sp'. split; [exact H1|]. split; [exact H2|]. rewrite <- H1. now apply C26_from_C25.
Qed.
Print Assumptions C26_ddl_partial.

(** Statements that meet the hypotheses. *)
Ltac sd :=
  match goal with
  | |- type_name _ _ => split; [split; [nm|vm_compute; first [discriminate|reflexivity]]|vm_compute; discriminate]
  | |- ctype (EScalarType _) _ => apply Ty_name
  | |- ctype (ETypeWithParams _ _ _ _) _ => apply Ty_params
  | |- ctype (EComplexType _ _ _ _) _ => apply Ty_args
  | |- ~ In _ special_types => vm_compute; intuition discriminate
  | |- ctypes [] _ => apply Tys_nil
  | |- ctypes _ _ => apply Tys_cons
  | |- literal (ENumberLiteral _ _ _ _) _ => apply Lit_number; num
  | |- null_mark ENil ENil _ => apply Null0
  | |- null_mark ENil _ _ => apply Null_yes
  | |- default ENil ENil ENil _ => apply Default0
  | |- default _ ENil ENil _ => apply Default_default
  | |- codec ENil _ => apply Codec0
  | |- codec (ECompressionCodec _ _ ENil ENil _ _) _ => eapply Codec_one
  | |- level ENil _ => apply Level0
  | |- level _ _ => apply Level; num
  | |- column_ttl ENil _ => apply Col_ttl0
  | |- after_words _ ENil _ => apply After0
  | |- coldef _ _ => eapply Coldef
  | |- uuid ENil _ => apply Uuid0
  | |- schema ENil _ => apply Schema0
  | |- schema _ _ => eapply Schema
  | |- Forall no_member [] => apply Forall_nil
  | |- Forall no_member _ => apply Forall_cons
  | |- no_member _ => intros ? ?; vm_compute; intros [=]; subst; discriminate
  | |- params ENil _ => apply Params0
  | |- params _ _ => apply Params_some
  | |- order_by ENil _ => apply Order_by0
  | |- order_by _ _ => apply Order_by_one
  | |- partition_by ENil _ => apply Partition_by0
  | |- partition_by _ _ => apply Partition_by
  | |- primary_key ENil _ => apply Primary_key0
  | |- primary_key _ _ => apply Primary_key
  | |- sample_by ENil _ => apply Sample_by0
  | |- table_ttl ENil _ => apply Table_ttl0
  | |- engine _ ENil _ => apply Engine0
  | |- engine _ _ _ => eapply Engine with (p1 := PZero) (q1 := PZero)
  | |- as_query _ ENil _ => apply As_query0
  | |- as_query _ (ESubQuery false _) _ => apply As_query
  | |- as_query _ _ _ => apply As_subquery
  | |- after_column ENil _ => apply After_column0
  | |- after_column _ _ => apply After_column
  | |- ?x = ENil \/ _ => first [left; reflexivity | right; reflexivity | right; vm_compute; tauto]
  | |- columns (EColumnExprList _ _ ?d _) _ => eapply (Columns _ _ d)
  | |- _ => sm
  end.
Example C25_alter_case : exists t sp l, parse_stmts "alter table d.t add column if not exists c Array(Int) default f(1) codec(ZSTD(3)) after b, drop column x" = Parsed [t] sp /\ ddl t l /\ fine None l
  /\ text l = "ALTER TABLE d.t ADD COLUMN IF NOT EXISTS c Array(Int) DEFAULT f(1) CODEC(ZSTD(3)) AFTER b, DROP COLUMN x".
Proof.
  do 3 eexists. split; [vm_compute; reflexivity|]. split; [eapply Ddl_alter; [repeat sd|repeat sd|]; eapply Alters_more; [eapply (Al_add_column _ _ _ _ true _ _ ENil); repeat sd|eapply Alters_one, (Al_drop_column _ _ _ false); repeat sd]|].
  split; [apply fineb_ok; vm_compute; reflexivity|vm_compute; reflexivity].
Qed.
Example C25_create_table_case : exists t sp l, parse_stmts "create or replace table d.t (a Int null, b Decimal(10, 2)) engine = MergeTree() order by a partition by b, c primary key (a, b) as select 1" = Parsed [t] sp /\ ddl t l /\ fine None l
  /\ text l = "CREATE OR REPLACE TABLE d.t (a Int NULL, b Decimal(10, 2)) ENGINE = MergeTree() ORDER BY a PARTITION BY b, c PRIMARY KEY (a, b) AS SELECT 1".
Proof.
  do 3 eexists. split; [vm_compute; reflexivity|]. split; [eapply (Ddl_table _ _ true false false); repeat sd|].
  split; [apply fineb_ok; vm_compute; reflexivity|vm_compute; reflexivity].
Qed.
Example C25_materialized_case : exists t sp l, parse_stmts "create materialized view if not exists v to d.t as select a from u" = Parsed [t] sp /\ ddl t l /\ fine None l
  /\ text l = "CREATE MATERIALIZED VIEW IF NOT EXISTS v TO d.t AS SELECT a FROM u".
Proof.
  do 3 eexists. split; [vm_compute; reflexivity|]. split; [eapply (Ddl_materialized _ _ true); [repeat sd|repeat sd|eapply Target_to; repeat sd|repeat sd|repeat sd|now left]|].
  split; [apply fineb_ok; vm_compute; reflexivity|vm_compute; reflexivity].
Qed.
