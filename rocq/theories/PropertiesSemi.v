(** Property C43: the statements of a script do not depend on each other. And what follows
    from the proof for C15 and C17. *)
From Coq Require Import String Ascii List Arith Bool Lia.
From Verif Require Import Str Keyword Lexer LexSpec LexGrammar LexTokens Ast Prog Items Parser ErrorRender ParserApi ParseFacts LayoutSpec LayoutParse SemiSpec SemiText SemiCompose
  PropertiesParser.
Import ListNotations.
Local Open Scope string_scope.
Local Open Scope list_scope.
Local Open Scope nat_scope.

(** ** C43 *)

(** [s] spells the tokens [a], a semicolon and the tokens [b]; [s1] spells [a] and a semicolon;
    [s2] spells semicolons, as many as there are tokens before [b], and [b]. The result for [s] is
    that for [s1] if this is an error or a crash; otherwise it is that for [s2], with the
    statements of [s1] in front. (The trees refer to tokens by number; the semicolons of [s2] give the
    tokens of [b] the numbers they have in [s].) *)
Theorem C43_compose : forall a b closed s s1 s2,
  source None (a ++ semicolon :: b) closed s -> (b = [] -> closed = false) ->
  source None (a ++ [semicolon]) false s1 ->
  source None (repeat semicolon (S (List.length a)) ++ b) closed s2 ->
  match parse_stmts s1, parse_stmts s2 with
  | Parsed l1 _, Parsed l2 _ => exists sp, parse_stmts s = Parsed (l1 ++ l2) sp
  | Parsed l1 _, r => same_outcome r (parse_stmts s)
  | r, _ => same_outcome r (parse_stmts s)
  end.
Proof.
  intros a b closed s s1 s2 H1 Hc H2 H3. pose proof (prefix_same _ _ _ _ _ H1 Hc H2) as Hp. destruct (parse_stmts s1) as [l1 sp1| | |] eqn:E; try exact Hp.
  pose proof (compose _ _ _ _ _ _ _ _ H1 Hc H2 H3 E) as Hq. now destruct (parse_stmts s2).
Qed.
Print Assumptions C43_compose.

(** In particular the statements before a semicolon are the same whatever follows it. *)
Theorem C43_before : forall a b b' closed closed' s s' l sp l' sp',
  source None (a ++ semicolon :: b) closed s -> (b = [] -> closed = false) -> parse_stmts s = Parsed l sp ->
  source None (a ++ semicolon :: b') closed' s' -> (b' = [] -> closed' = false) -> parse_stmts s' = Parsed l' sp' ->
  forall s1, source None (a ++ [semicolon]) false s1 -> exists l1 l2 l2' sp1, parse_stmts s1 = Parsed l1 sp1 /\ l = l1 ++ l2 /\ l' = l1 ++ l2'.
Proof.
  intros a b b' closed closed' s s' l sp l' sp' H1 Hc P1 H2 Hc' P2 s1 H3.
  pose proof (prefix_same _ _ _ _ _ H1 Hc H3) as Q1. pose proof (prefix_same _ _ _ _ _ H2 Hc' H3) as Q2. rewrite P1 in Q1. rewrite P2 in Q2.
  destruct (parse_stmts s1) as [l1 sp1| | |]; try contradiction. destruct Q1 as [l2 ->]. destruct Q2 as [l2' ->]. exists l1, l2, l2', sp1. auto.
Qed.
Print Assumptions C43_before.

Ltac a_gap := repeat first [apply G_nil | apply G_ws1; [reflexivity|]].
Ltac a_word := apply L_word; [split; [left; reflexivity | reflexivity] | first [exact I | reflexivity]].
Ltac a_sign := apply L_one; [repeat split; try (vm_compute; lia); intros HH; vm_compute in HH; intuition discriminate | vm_compute; intuition discriminate | discriminate | discriminate | intros [HH|HH]; discriminate HH].
Ltac next_lexeme n m t :=
  lazymatch goal with |- source ?p _ _ ?s =>
    let g := eval vm_compute in (substring 0 n s) in
    let w := eval vm_compute in (substring n m s) in
    let r := eval vm_compute in (substring (n + m) (String.length s) s) in
    refine (S_lexeme p g w _ _ _ r _ _ _); [a_gap | t |]
  end.
Ltac the_end g := apply (S_end _ g); constructor; a_gap.

(** [USE d; SET a b] is refused because of its second statement, [USE d; USE e] is not. *)
Example C43_case : exists a b b' s1 s2 s2' l1 l2 sp1 sp2 l sp e,
  source None (a ++ semicolon :: b) true "USE d; USE e" /\ source None (a ++ semicolon :: b') true "USE d; SET a b" /\
  source None (a ++ [semicolon]) false s1 /\ source None (repeat semicolon (S (List.length a)) ++ b) true s2 /\ source None (repeat semicolon (S (List.length a)) ++ b') true s2' /\
  parse_stmts s1 = Parsed l1 sp1 /\ parse_stmts s2 = Parsed l2 sp2 /\ parse_stmts "USE d; USE e" = Parsed l sp /\ List.length l1 = 1 /\ List.length l2 = 1 /\ l = l1 ++ l2 /\
  parse_stmts s2' = Failed e.
Proof.
  exists [mkTok KKeyword "USE" 0 QUnquoted; mkTok KIdent "d" 0 QUnquoted], [mkTok KKeyword "USE" 0 QUnquoted; mkTok KIdent "e" 0 QUnquoted],
    [mkTok KKeyword "SET" 0 QUnquoted; mkTok KIdent "a" 0 QUnquoted; mkTok KIdent "b" 0 QUnquoted], "USE d; ", ";;;USE e", ";;;SET a b".
  do 7 eexists. cbn [app repeat List.length].
  split; [next_lexeme 0 3 a_word; next_lexeme 1 1 a_word; next_lexeme 0 1 a_sign; next_lexeme 1 3 a_word; next_lexeme 1 1 a_word; the_end ""|].
  split; [next_lexeme 0 3 a_word; next_lexeme 1 1 a_word; next_lexeme 0 1 a_sign; next_lexeme 1 3 a_word; next_lexeme 1 1 a_word; next_lexeme 1 1 a_word; the_end ""|].
  split; [next_lexeme 0 3 a_word; next_lexeme 1 1 a_word; next_lexeme 0 1 a_sign; the_end " "|].
  split; [next_lexeme 0 1 a_sign; next_lexeme 0 1 a_sign; next_lexeme 0 1 a_sign; next_lexeme 0 3 a_word; next_lexeme 1 1 a_word; the_end ""|].
  split; [next_lexeme 0 1 a_sign; next_lexeme 0 1 a_sign; next_lexeme 0 1 a_sign; next_lexeme 0 3 a_word; next_lexeme 1 1 a_word; next_lexeme 1 1 a_word; the_end ""|].
  split; [vm_compute; reflexivity|]. split; [vm_compute; reflexivity|]. split; [vm_compute; reflexivity|]. split; [reflexivity|]. split; [reflexivity|]. split; [reflexivity|]. vm_compute; reflexivity.
Qed.

(** ** C15 *)

(** Five of the six crashes need the end of the input: when the last token of the input is a
    semicolon, only [End()] of a node without the field that it reads can crash. *)
Theorem C15_semicolon_partial : forall a closed s site, source None (a ++ [semicolon]) closed s -> parse_stmts s = Crashed site -> site = "End()".
Proof.
  intros a closed s site Hs Hc. pose proof (no_end_crash _ _ _ _ Hs Hc) as He. pose proof (C15_crash_sites_partial s site Hc) as Hi. cbn [In] in Hi.
  destruct Hi as [<-|[<-|[<-|[<-|[<-|[<-|[]]]]]]]; try reflexivity; discriminate He.
Qed.
Print Assumptions C15_semicolon_partial.

Example C15_semicolon_case : exists a, source None (a ++ [semicolon]) true "OPTIMIZE TABLE t PARTITION ALL;" /\ parse_stmts "OPTIMIZE TABLE t PARTITION ALL;" = Crashed "End()".
Proof.
  exists [mkTok KKeyword "OPTIMIZE" 0 QUnquoted; mkTok KKeyword "TABLE" 0 QUnquoted; mkTok KIdent "t" 0 QUnquoted; mkTok KKeyword "PARTITION" 0 QUnquoted; mkTok KKeyword "ALL" 0 QUnquoted].
  cbn [app]. split; [|vm_compute; reflexivity].
  next_lexeme 0 8 a_word. next_lexeme 1 5 a_word. next_lexeme 1 1 a_word. next_lexeme 1 9 a_word. next_lexeme 1 3 a_word. next_lexeme 0 1 a_sign. the_end "".
Qed.

(** ** C17 *)

(** An accepted input with layout after its last token gives as many statements as it has
    stretches of tokens without a semicolon. ([C17_refuted] is about an input that ends in a
    token.) *)
Theorem C17_count_partial : forall ts s l sp, source None ts false s -> parse_stmts s = Parsed l sp -> List.length l = runs false ts.
Proof. exact statements_count. Qed.
Print Assumptions C17_count_partial.

Example C17_count_case : exists ts l sp, source None ts false "USE d;;USE e; " /\ parse_stmts "USE d;;USE e; " = Parsed l sp /\ runs false ts = 2.
Proof.
  exists [mkTok KKeyword "USE" 0 QUnquoted; mkTok KIdent "d" 0 QUnquoted; semicolon; semicolon; mkTok KKeyword "USE" 0 QUnquoted; mkTok KIdent "e" 0 QUnquoted; semicolon].
  do 2 eexists. split; [|split; [vm_compute; reflexivity|reflexivity]].
  next_lexeme 0 3 a_word. next_lexeme 1 1 a_word. next_lexeme 0 1 a_sign. next_lexeme 0 1 a_sign. next_lexeme 0 3 a_word. next_lexeme 1 1 a_word. next_lexeme 0 1 a_sign. the_end " ".
Qed.
