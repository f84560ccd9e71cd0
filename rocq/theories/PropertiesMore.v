(** Properties C25 and C26 for statements other than queries. *)
From Coq Require Import String Ascii List Arith Bool Lia.
From Verif Require Import Str Keyword Lexer LexSpec LexGrammar LexTokens LexProps LayoutSpec Ast AstPos AstSubs Strip StripFacts Prog Parser ParserApi ParseFacts
  PrecSpec Format FormatFacts RoundSpec RoundText RoundLex RoundMoreSpec RoundMoreText RoundMore PropertiesParser PropertiesRound.
Import ListNotations.
Local Open Scope string_scope.
Local Open Scope list_scope.
Local Open Scope nat_scope.

(** ** C25 *)

(** Not for every such statement: a word that changes the meaning of a statement is dropped, ... *)
Theorem C25_words_refuted : Forall (fun inp => exists t sp u t' sp', parse_stmts inp = Parsed [t] sp /\ Format t = FOk u /\ parse_stmts u = Parsed [t'] sp' /\ strip t' <> strip t)
  ["OPTIMIZE TABLE t PARTITION ID '5'"; "SHOW DATABASES NOT"].
Proof. repeat (apply Forall_cons || apply Forall_nil); do 5 eexists; (split; [vm_compute; reflexivity|]); (split; [vm_compute; reflexivity|]); (split; [vm_compute; reflexivity|]); vm_compute; discriminate. Qed.
Print Assumptions C25_words_refuted.

(** ... or so that the text is rejected. *)
Theorem C25_rejected_refuted : Forall (fun inp => exists t sp u e, parse_stmts inp = Parsed [t] sp /\ Format t = FOk u /\ parse_stmts u = Failed e)
  ["SYSTEM SYNC REPLICA t"; "SYSTEM FLUSH DISTRIBUTED t"].
Proof. repeat (apply Forall_cons || apply Forall_nil); do 4 eexists; (split; [vm_compute; reflexivity|]); (split; [vm_compute; reflexivity|]); vm_compute; reflexivity. Qed.
Print Assumptions C25_rejected_refuted.

(** For a statement that is written as the canonical text [l] (RoundMoreSpec.v), the formatted text is [text l], and it is parsed as the same statement up to positions. *)
Theorem C25_statement_partial : forall inp stmts sp t l,
  parse_stmts inp = Parsed stmts sp -> In t stmts -> stmt t l -> fine None l ->
  Format t = FOk (text l) /\ exists t' sp', parse_stmts (text l) = Parsed [t'] sp' /\ strip t' = strip t.
Proof.
  intros inp stmts sp t l Hp Ht Hs Hf. split; [now apply stmt_text|]. apply (stmt_parsed t l); [exact Hs| |now apply stmt_source with t].
  apply All_nodes. intros e He. eapply C21_precedence; eassumption.
Qed.
Print Assumptions C25_statement_partial.

(** The same for a tree that need not come from the parser, provided that it respects the strength of the operators. *)
Theorem C25_statement_tree_partial : forall t l, stmt t l -> All respects t -> fine None l ->
  Format t = FOk (text l) /\ exists t' sp', parse_stmts (text l) = Parsed [t'] sp' /\ strip t' = strip t.
Proof. intros t l Hs Ha Hf. split; [now apply stmt_text|]. apply (stmt_parsed t l); [exact Hs|exact Ha|now apply stmt_source with t]. Qed.
Print Assumptions C25_statement_tree_partial.

(** Every text with the tokens of [l], whatever the layout between them, is parsed as that tree. *)
Theorem C25_statement_layout_partial : forall t l s, stmt t l -> All respects t -> source None (toks l) true s ->
  exists t' sp', parse_stmts s = Parsed [t'] sp' /\ strip t' = strip t.
Proof. exact stmt_parsed. Qed.
Print Assumptions C25_statement_layout_partial.

(** ** C26 *)
Theorem C26_statement_partial : forall inp stmts sp t l,
  parse_stmts inp = Parsed stmts sp -> In t stmts -> stmt t l -> fine None l ->
  exists u t' sp', Format t = FOk u /\ parse_stmts u = Parsed [t'] sp' /\ Format t' = FOk u.
Proof.
  intros inp stmts sp t l Hp Ht Hs Hf. destruct (C25_statement_partial _ _ _ _ _ Hp Ht Hs Hf) as [H1 (t' & sp' & H2 & H3)].
  exists (text l), t', sp'. split; [exact H1|]. split; [exact H2|]. rewrite <- H1. now apply C26_from_C25.
Qed.
Print Assumptions C26_statement_partial.

(** Statements that meet the hypotheses. *)
Ltac sm :=
  match goal with
  | |- plain_name _ _ => split; [first [nm | apply An_back; reflexivity]|vm_compute; first [discriminate|reflexivity]]
  | |- table (ETableIdentifier ENil _) _ => eapply Table0
  | |- table _ _ => eapply Table1
  | |- cluster ENil _ => apply Cluster0
  | |- cluster _ _ => eapply Cluster_name
  | |- modifier _ _ => constructor
  | |- partition_expr _ _ => first [apply Partition0 | apply Partition_expr]
  | |- columns _ _ => eapply Columns
  | |- no_id _ => intros ? ?; vm_compute; intros [=]; subst; discriminate
  | |- no_paren _ => intros ? ?; vm_compute; intros [=]; subst; discriminate
  | |- column_name (ENestedIdentifier _ ENil) _ => eapply Column_name0
  | |- insert_columns _ _ => eapply Ins_columns
  | |- row _ _ => eapply Row
  | |- value (EAssignmentValues _ _ _) _ => eapply Value_row
  | |- value _ _ => eapply Value_expr
  | |- values [] _ => apply Values_nil
  | |- values _ _ => eapply Values_cons
  | |- Forall2 _ [] _ => apply Forall2_nil
  | |- Forall2 _ (_ :: _) _ => apply Forall2_cons
  | |- _ => sy
  end.
Example C25_insert_case : exists t sp l, parse_stmts "insert into `my db`.t (a, b) values (1, 'x'), (2, (3, f(y)))" = Parsed [t] sp /\ stmt t l /\ fine None l /\ text l = "INSERT INTO `my db`.t (a, b) VALUES (1, 'x'), (2, (3, f(y)))".
Proof.
  do 3 eexists. split; [vm_compute; reflexivity|]. split; [eapply (St_insert _ _ _ _ false); [repeat sm|repeat sm|eapply Ins_values; repeat sm]|].
  split; [apply fineb_ok; vm_compute; reflexivity|vm_compute; reflexivity].
Qed.
Example C25_drop_case : exists t sp l, parse_stmts "drop temporary table if exists d.t on cluster c no delay" = Parsed [t] sp /\ stmt t l /\ fine None l /\ text l = "DROP TEMPORARY TABLE IF EXISTS d.t ON CLUSTER c NO DELAY".
Proof.
  do 3 eexists. split; [vm_compute; reflexivity|]. split; [eapply St_drop; [cbn; tauto|now right|repeat sm..]|].
  split; [apply fineb_ok; vm_compute; reflexivity|vm_compute; reflexivity].
Qed.
Example C25_optimize_case : exists t sp l, parse_stmts "optimize table t partition (1, 2) final deduplicate by a, b" = Parsed [t] sp /\ stmt t l /\ fine None l /\ text l = "OPTIMIZE TABLE t PARTITION (1, 2) FINAL DEDUPLICATE BY a, b".
Proof.
  do 3 eexists. split; [vm_compute; reflexivity|]. split; [eapply St_optimize; [repeat sm..|apply Dedup_by; eapply Columns with (d := false); repeat sm]|].
  split; [apply fineb_ok; vm_compute; reflexivity|vm_compute; reflexivity].
Qed.
