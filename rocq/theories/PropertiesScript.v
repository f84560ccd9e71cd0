(** Properties C25 and C26 for scripts of several statements, each of one of the forms of PropertiesDdl.v. *)
From Coq Require Import String Ascii List Arith Bool Lia.
From Verif Require Import Str Keyword Lexer LexSpec LexGrammar LexTokens LexProps LayoutSpec Ast AstPos AstSubs Strip StripFacts Prog Parser ParserApi ParseFacts
  PrecSpec Format FormatFacts RoundSpec RoundText RoundLex RoundMoreSpec RoundDdlSpec RoundDdlText RoundDdl RoundScript PropertiesParser PropertiesRound PropertiesMore PropertiesDdl.
Import ListNotations.
Local Open Scope string_scope.
Local Open Scope list_scope.
Local Open Scope nat_scope.

(** ** C25 *)

(** The statements of a script, each formatted, joined with semicolons, are parsed as the same statements up to positions: as many of them, in the same order. *)
Theorem C25_script_partial : forall inp stmts sp ls,
  parse_stmts inp = Parsed stmts sp -> Forall2 ddl stmts ls -> Forall (fine None) ls ->
  Forall2 (fun t l => Format t = FOk (text l)) stmts ls /\
  exists stmts' sp', parse_stmts (String.concat "; " (map text ls)) = Parsed stmts' sp' /\ map strip stmts' = map strip stmts.
Proof.
  intros inp stmts sp ls Hp Hd Hf. split.
  - clear - Hd. induction Hd; constructor; [now apply ddl_text|assumption].
  - apply (script_parsed stmts (toks (sep_by [T (O ";"); Sp] ls))); [now apply joined_script| |now apply (joined_source stmts)].
    apply Forall_forall. intros t Ht. apply All_nodes. intros e He. eapply C21_precedence; eassumption.
Qed.
Print Assumptions C25_script_partial.

(** The same for trees that need not come from the parser, provided that they respect the strength of the operators. *)
Theorem C25_script_trees_partial : forall ts ls, Forall2 ddl ts ls -> Forall (All respects) ts -> Forall (fine None) ls ->
  Forall2 (fun t l => Format t = FOk (text l)) ts ls /\
  exists ts' sp', parse_stmts (String.concat "; " (map text ls)) = Parsed ts' sp' /\ map strip ts' = map strip ts.
Proof.
  intros ts ls Hd Ha Hf. split.
  - clear - Hd. induction Hd; constructor; [now apply ddl_text|assumption].
  - apply (script_parsed ts (toks (sep_by [T (O ";"); Sp] ls))); [now apply joined_script|exact Ha|now apply (joined_source ts)].
Qed.
Print Assumptions C25_script_trees_partial.

(** Every text with the tokens of the script, whatever the layout between them and however many semicolons there are before, between and after the statements, is parsed as those trees. *)
Theorem C25_script_layout_partial : forall ts toks s, script ts toks -> Forall (All respects) ts -> source None toks true s ->
  exists ts' sp', parse_stmts s = Parsed ts' sp' /\ map strip ts' = map strip ts.
Proof. exact script_parsed. Qed.
Print Assumptions C25_script_layout_partial.

(** ** C26 *)
Theorem C26_script_partial : forall inp stmts sp ls,
  parse_stmts inp = Parsed stmts sp -> Forall2 ddl stmts ls -> Forall (fine None) ls ->
  exists us stmts' sp', Forall2 (fun t u => Format t = FOk u) stmts us /\ parse_stmts (String.concat "; " us) = Parsed stmts' sp' /\ Forall2 (fun t u => Format t = FOk u) stmts' us.
Proof.
  intros inp stmts sp ls Hp Hd Hf. destruct (C25_script_partial _ _ _ _ Hp Hd Hf) as [H1 (stmts' & sp' & H2 & H3)].
  exists (map text ls), stmts', sp'. split; [|split; [exact H2|]].
  - clear - H1. induction H1; constructor; assumption.
  - clear - H1 H3. revert stmts' H3. induction H1 as [|t l ts ls H _ IH]; intros [|t' ts'] H3; try discriminate H3; [constructor|]. injection H3 as H3 H4. constructor; [|now apply IH].
    rewrite <- H. now apply C26_from_C25.
Qed.
Print Assumptions C26_script_partial.

(** A script that meets the hypotheses. *)
Example C25_script_case : exists stmts sp ls, parse_stmts "; use d;;alter table t drop column x;select 1;" = Parsed stmts sp /\ Forall2 ddl stmts ls /\ Forall (fine None) ls
  /\ map text ls = ["USE d"; "ALTER TABLE t DROP COLUMN x"; "SELECT 1"].
Proof.
  do 3 eexists. split; [vm_compute; reflexivity|]. split; [|split].
  - apply Forall2_cons; [apply Ddl_stmt, St_use; repeat sd|]. apply Forall2_cons; [eapply Ddl_alter; [repeat sd|repeat sd|]; eapply Alters_one, (Al_drop_column _ _ _ false); repeat sd|].
    apply Forall2_cons; [apply Ddl_stmt, St_query; repeat sd|apply Forall2_nil].
  - repeat apply Forall_cons; try apply Forall_nil; apply fineb_ok; vm_compute; reflexivity.
  - vm_compute. reflexivity.
Qed.
