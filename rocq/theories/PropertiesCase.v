(** Property C24: the letter case of keywords. *)
From Coq Require Import String Ascii List Arith Bool Lia.
From Verif Require Import Str Keyword Lexer LexSpec LexGrammar LexTokens LayoutSpec Ast Prog Parser ParserApi Recase CaseSpec CaseText.
Import ListNotations.
Local Open Scope string_scope.
Local Open Scope list_scope.
Local Open Scope nat_scope.

(** Not every keyword: with these the case decides whether the text is accepted. The texts of a pair are the same in upper case, the
    first is accepted, the second is rejected. *)
Theorem C24_refuted : Forall (fun '(s, s') => upper s = upper s' /\ (exists l sp, parse_stmts s = Parsed l sp) /\ exists e, parse_stmts s' = Failed e)
  [("SELECT a FROM t ARRAY JOIN [b]", "SELECT a FROM t array JOIN [b]"); ("CREATE USER u DEFAULT ROLE r", "CREATE USER u DEFAULT role r");
   ("CREATE USER u DEFAULT DATABASE d", "CREATE USER u DEFAULT database d"); ("CREATE ROLE r SETTINGS MIN 0", "CREATE ROLE r SETTINGS min 0");
   ("CREATE ROLE r SETTINGS MAX 0", "CREATE ROLE r SETTINGS max 0")].
Proof.
  repeat (apply Forall_cons || apply Forall_nil); (split; [vm_compute; reflexivity|]); (split; [do 2 eexists; vm_compute; reflexivity|]); eexists; vm_compute; reflexivity.
Qed.
Print Assumptions C24_refuted.

(** For the other keywords, anywhere in a text: the statements are the same up to the spelling of names and recorded keywords, with the
    same positions, or the same error is reported at the same place. Missing: the six words of [cased] (Recase.v). *)
Theorem C24_partial : forall s s', recased None s s' -> same_but_case (parse_stmts s) (parse_stmts s').
Proof. exact recased_same. Qed.
Print Assumptions C24_partial.

(** Acceptance alone. *)
Theorem C24_acceptance_partial : forall s s', recased None s s' ->
  ((exists l sp, parse_stmts s = Parsed l sp) <-> (exists l sp, parse_stmts s' = Parsed l sp)).
Proof.
  intros s s' H. pose proof (recased_same s s' H) as E. destruct (parse_stmts s) as [l sp|e|z|], (parse_stmts s') as [l' sp'|e'|z'|]; cbn [same_but_case] in E; try contradiction;
    split; intros (m & mp & Hm); try discriminate Hm; do 2 eexists; reflexivity.
Qed.
Print Assumptions C24_acceptance_partial.

(** What [recased] relates differs in letter case only. *)
Theorem C24_recased_upper : forall s s', recased None s s' -> upper s = upper s'.
Proof. exact (fun s s' => recased_upper None s s'). Qed.
Print Assumptions C24_recased_upper.

(** The hypotheses are met: a text with keywords in three places and one more as a name, and with a name and a string between them. *)
Example C24_case : recased None "SELECT date FROM t WHERE x 'from'" "select DATE From t wHERE x 'from'".
Proof.
  apply (RC_keyword None "" "SELECT" "select" " date FROM t WHERE x 'from'" " DATE From t wHERE x 'from'");
    [constructor | repeat split; now left | repeat split; now left | reflexivity | reflexivity | reflexivity | reflexivity | cbn; intuition discriminate |].
  apply (RC_keyword _ " " "date" "DATE" " FROM t WHERE x 'from'" " From t wHERE x 'from'");
    [repeat (constructor; try reflexivity) | repeat split; now left | repeat split; now left | reflexivity | reflexivity | reflexivity | reflexivity | cbn; intuition discriminate |].
  apply (RC_keyword _ " " "FROM" "From" " t WHERE x 'from'" " t wHERE x 'from'");
    [repeat (constructor; try reflexivity) | repeat split; now left | repeat split; now left | reflexivity | reflexivity | reflexivity | reflexivity | cbn; intuition discriminate |].
  apply (RC_same _ " " "t" (mkTok KIdent "t" 0 QUnquoted) " WHERE x 'from'" " wHERE x 'from'"); [repeat (constructor; try reflexivity) | apply L_word; [repeat split; now left | reflexivity] | apply L_word; [repeat split; now left | reflexivity] |].
  apply (RC_keyword _ " " "WHERE" "wHERE" " x 'from'" " x 'from'");
    [repeat (constructor; try reflexivity) | repeat split; now left | repeat split; now left | reflexivity | reflexivity | reflexivity | reflexivity | cbn; intuition discriminate |].
  apply RC_rest.
Qed.
