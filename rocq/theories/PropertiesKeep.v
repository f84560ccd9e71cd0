(** Property C41: names and literals are neither lost nor invented. *)
From Coq Require Import String Ascii List Arith Bool Lia.
From Verif Require Import Str Keyword Lexer LexSpec LexGrammar LexTokens Ast Prog Items Parser ErrorRender ParserApi LayoutSpec Words KeepSpec KeepText.
Import ListNotations.
Local Open Scope string_scope.
Local Open Scope nat_scope.

(** No name or literal is invented or doubled: a plain word occurs in the statements at most
    as often as it does among the names and literals of the input. *)
Theorem C41_not_invented : forall w ts closed src l sp, plain w -> source None ts closed src -> parse_stmts src = Parsed l sp ->
  tally w (flat_map texts l) <= tally w (leaves ts).
Proof. intros w ts closed src l sp Hp Hs Hr. exact (proj1 (kept w ts closed src l sp Hp Hs Hr)). Qed.
Print Assumptions C41_not_invented.

(** And none is lost, if no keyword of the input is one of ENGINE, USER, ROLE and FORMAT, and the
    input does not end in a statement of a single token; see [C41_refuted]. *)
Theorem C41_kept_partial : forall w ts closed src l sp, plain w -> source None ts closed src -> parse_stmts src = Parsed l sp ->
  Forall (fun t => lossy t = false) ts -> ~ lone ts closed ->
  tally w (flat_map texts l) = tally w (leaves ts).
Proof. intros w ts closed src l sp Hp Hs Hr. exact (proj2 (kept w ts closed src l sp Hp Hs Hr)). Qed.
Print Assumptions C41_kept_partial.

Ltac a_gap := repeat first [apply G_nil | apply G_ws1; [reflexivity|]].
Ltac a_word := apply L_word; [split; [left; reflexivity | reflexivity] | first [exact I | reflexivity]].
Ltac a_sign := apply L_one; [repeat split; try (vm_compute; lia); intros HH; vm_compute in HH; intuition discriminate | vm_compute; intuition discriminate | discriminate | discriminate | intros [HH|HH]; discriminate HH].
Ltac next_lexeme n m t :=
  lazymatch goal with |- source ?p _ _ ?s =>
    let g := eval vm_compute in (substring 0 n s) in
    let w := eval vm_compute in (substring n m s) in
    let r := eval vm_compute in (substring (n + m) (String.length s) s) in
    refine (S_lexeme p g w _ _ _ r _ _ _); [a_gap | t |]
  end.
Ltac the_end := apply (S_end _ ""); constructor; constructor.
Ltac a_plain := split; [discriminate|]; split; [vm_compute; reflexivity|]; split; [vm_compute; intuition discriminate|]; split; [|vm_compute; intuition discriminate];
  let HH := fresh in let HE := fresh in intros ? HE; try discriminate HE; injection HE as <-; intros HH; destruct HH as (_ & _ & _ & HH & _); discriminate HH.

Ltac lost t := split; [a_plain|]; do 4 eexists; split; [t|]; split; [vm_compute; reflexivity|]; vm_compute; lia.

(** Without those conditions names are lost: of two clauses of the same kind in the engine of a
    table and in CREATE USER the first; the second cluster of DROP ROLE; the format of a statement
    that is no query; and a single token at the end of the input. *)
Theorem C41_refuted : forall src w, In (src, w) [("CREATE TABLE t ENGINE=e ORDER BY c ORDER BY d", "c"); ("CREATE USER u DEFAULT DATABASE x DEFAULT DATABASE y", "x");
    ("DROP ROLE r ON CLUSTER a ON CLUSTER b", "b"); ("USE d FORMAT x", "x"); ("USE d;x", "x")] ->
  plain w /\ exists ts closed l sp, source None ts closed src /\ parse_stmts src = Parsed l sp /\ tally w (flat_map texts l) < tally w (leaves ts).
Proof.
  intros src w Hi. cbn [In] in Hi. destruct Hi as [[= <- <-]|[[= <- <-]|[[= <- <-]|[[= <- <-]|[[= <- <-]|[]]]]]].
  - lost ltac:(next_lexeme 0 6 a_word; next_lexeme 1 5 a_word; next_lexeme 1 1 a_word; next_lexeme 1 6 a_word; next_lexeme 0 1 a_sign; next_lexeme 0 1 a_word; next_lexeme 1 5 a_word; next_lexeme 1 2 a_word; next_lexeme 1 1 a_word; next_lexeme 1 5 a_word; next_lexeme 1 2 a_word; next_lexeme 1 1 a_word; the_end).
  - lost ltac:(next_lexeme 0 6 a_word; next_lexeme 1 4 a_word; next_lexeme 1 1 a_word; next_lexeme 1 7 a_word; next_lexeme 1 8 a_word; next_lexeme 1 1 a_word; next_lexeme 1 7 a_word; next_lexeme 1 8 a_word; next_lexeme 1 1 a_word; the_end).
  - lost ltac:(next_lexeme 0 4 a_word; next_lexeme 1 4 a_word; next_lexeme 1 1 a_word; next_lexeme 1 2 a_word; next_lexeme 1 7 a_word; next_lexeme 1 1 a_word; next_lexeme 1 2 a_word; next_lexeme 1 7 a_word; next_lexeme 1 1 a_word; the_end).
  - lost ltac:(next_lexeme 0 3 a_word; next_lexeme 1 1 a_word; next_lexeme 1 6 a_word; next_lexeme 1 1 a_word; the_end).
  - lost ltac:(next_lexeme 0 3 a_word; next_lexeme 1 1 a_word; next_lexeme 0 1 a_sign; next_lexeme 0 1 a_word; the_end).
Qed.
Print Assumptions C41_refuted.

(** A query that meets the conditions; [a] occurs three times in it. *)
Example C41_case : plain "a" /\ exists ts closed l sp, source None ts closed "SELECT a x,f(a) FROM t WHERE a" /\ parse_stmts "SELECT a x,f(a) FROM t WHERE a" = Parsed l sp /\
  forallb (fun t => negb (lossy t)) ts = true /\ ~ lone ts closed /\ tally "a" (leaves ts) = 3 /\ tally "a" (flat_map texts l) = 3.
Proof.
  split; [a_plain|]. do 4 eexists. split.
  - next_lexeme 0 6 a_word. next_lexeme 1 1 a_word. next_lexeme 1 1 a_word. next_lexeme 0 1 a_sign. next_lexeme 0 1 a_word. next_lexeme 0 1 a_sign. next_lexeme 0 1 a_word.
    next_lexeme 0 1 a_sign. next_lexeme 1 4 a_word. next_lexeme 1 1 a_word. next_lexeme 1 5 a_word. next_lexeme 1 1 a_word. the_end.
  - split; [vm_compute; reflexivity|]. split; [vm_compute; reflexivity|]. split; [intros [_ H]; vm_compute in H; discriminate H|]. split; vm_compute; reflexivity.
Qed.
