(** Properties C25 and C26 for GRANT, and for DROP USER and DROP ROLE. *)
From Coq Require Import String Ascii List Arith Bool Lia.
From Verif Require Import Str Keyword Lexer LexSpec LexGrammar LexTokens LexProps LayoutSpec Ast AstPos AstSubs Strip StripFacts Prog Parser ParserApi ParseFacts
  PrecSpec Format FormatFacts RoundSpec RoundText RoundLex RoundMoreSpec RoundDdlSpec RoundDdlText RoundDdl PropertiesParser PropertiesRound PropertiesMore PropertiesDdl.
Import ListNotations.
Local Open Scope string_scope.
Local Open Scope list_scope.
Local Open Scope nat_scope.

(** ** C25 *)

(** Not for every one of them: a privilege of SYSTEM is written as one of SHOW, one for an index gets the word CONSTRAINT, the cluster runs into the privilege,
    and the modifier of DROP is written before FROM. All of these are rejected. *)
Theorem C25_access_refuted : Forall (fun inp => exists t sp u e, parse_stmts inp = Parsed [t] sp /\ Format t = FOk u /\ parse_stmts u = Failed e)
  ["GRANT SYSTEM SHUTDOWN ON a TO b"; "GRANT ALTER ADD INDEX ON a TO b"; "GRANT ON CLUSTER c SELECT ON a TO b"; "DROP USER u FROM s SYNC"].
Proof. repeat (apply Forall_cons || apply Forall_nil); do 4 eexists; (split; [vm_compute; reflexivity|]); (split; [vm_compute; reflexivity|]); vm_compute; reflexivity. Qed.
Print Assumptions C25_access_refuted.

(** For a statement that is written as the canonical text [l] ([access] in RoundDdlSpec.v), the formatted text is [text l], and it is parsed as the same statement up to positions.
    Missing: the cases above, words in lower case that are kept as they are written (as in [drop user]), hosts of users, and CREATE USER and ROLE. *)
Theorem C25_access_partial : forall inp stmts sp t l,
  parse_stmts inp = Parsed stmts sp -> In t stmts -> access t l -> fine None l ->
  Format t = FOk (text l) /\ exists t' sp', parse_stmts (text l) = Parsed [t'] sp' /\ strip t' = strip t.
Proof. intros inp stmts sp t l Hp Ht Hs Hf. eapply C25_ddl_partial; try eassumption. now apply Ddl_access. Qed.
Print Assumptions C25_access_partial.

(** ** C26 *)

Theorem C26_access_partial : forall inp stmts sp t l,
  parse_stmts inp = Parsed stmts sp -> In t stmts -> access t l -> fine None l ->
  exists u t' sp', Format t = FOk u /\ parse_stmts u = Parsed [t'] sp' /\ Format t' = FOk u.
Proof. intros inp stmts sp t l Hp Ht Hs Hf. eapply C26_ddl_partial; try eassumption. now apply Ddl_access. Qed.
Print Assumptions C26_access_partial.

(** ** Cases *)

Example C25_grant_case : exists t sp l, parse_stmts "grant alter ADD column, kill query, SELECT on d.* to u, v with GRANT option" = Parsed [t] sp /\ access t l /\ fine None l
  /\ text l = "GRANT ALTER ADD COLUMN, KILL QUERY, SELECT ON d.* TO u, v WITH GRANT OPTION".
Proof.
  do 3 eexists. split; [vm_compute; reflexivity|]. split.
  - eapply Ac_grant.
    + apply Forall2_cons; [apply Priv_words; vm_compute; repeat (first [now left|right])|]. apply Forall2_cons; [apply Priv_words; vm_compute; repeat (first [now left|right])|]. apply Forall2_cons; [apply Priv_columns; [now left|constructor]|apply Forall2_nil].
    + discriminate.
    + apply Grant_on_in; [apply Star_name; repeat sd|apply Star].
    + apply Forall2_cons; [repeat sd|]. apply Forall2_cons; [repeat sd|apply Forall2_nil].
    + discriminate.
    + repeat constructor.
  - split; [apply fineb_ok; vm_compute; reflexivity|vm_compute; reflexivity].
Qed.
Example C25_drop_user_case : exists t sp l, parse_stmts "drop USER if exists 'u', v from s" = Parsed [t] sp /\ access t l /\ fine None l
  /\ text l = "DROP USER IF EXISTS 'u', v FROM s".
Proof.
  do 3 eexists. split; [vm_compute; reflexivity|]. split.
  - eapply (Ac_drop _ _ _ _ _ true).
    + now left.
    + apply Forall2_cons; [apply Role_string; repeat sd|]. apply Forall2_cons; [apply Role_name; repeat sd|apply Forall2_nil].
    + discriminate.
    + repeat sd.
    + apply Role_from; repeat sd.
    + now left.
  - split; [apply fineb_ok; vm_compute; reflexivity|vm_compute; reflexivity].
Qed.
