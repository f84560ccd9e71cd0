(** Layout, malformed lexemes and lost statements: C06, C17, C18. *)
From Coq Require Import String Ascii List Arith Bool Lia.
From Verif Require Import Str Keyword Lexer LexSpec LexRun LexGrammar LexTokens Ast Prog Items Parser ErrorRender ParserApi
  LayoutSpec LayoutFacts LayoutParse LexClass StmtsFacts.
Import ListNotations.
Local Open Scope string_scope.
Local Open Scope nat_scope.

(** ** C06 *)

(** Every input is made of lexemes and layout, or starts so up to a text at which no
    lexeme starts. *)
Theorem C06_every_input : forall inp,
  (exists ts closed, source None ts closed inp) \/
  (exists ts g bad, begins None ts (g ++ bad) inp /\ gap g /\ (malformed (last_tok None ts) bad \/ unclosed bad)).
Proof. intros inp. exact (lexable _ inp None (le_n _)). Qed.
Print Assumptions C06_every_input.

(** The lexer reads exactly the tokens that a source spells. *)
Theorem C06_tokens : forall ts closed inp, source None ts closed inp ->
  forall k, exists s, requests inp k = LVal (s, None) /\
    option_map tok_of (cur s) = match k with 0 => None | S j => nth_error ts j end.
Proof. exact source_requests. Qed.
Print Assumptions C06_tokens.

(** Two sources with the same tokens give the same tree, error or crash; [closed] has to
    be the same, see [C06_trailing_refuted]. *)
Theorem C06_layout : forall ts closed s1 s2, source None ts closed s1 -> source None ts closed s2 ->
  same_outcome (parse_stmts s1) (parse_stmts s2).
Proof. exact source_same. Qed.
Print Assumptions C06_layout.

(** In particular when there is layout between any two lexemes. *)
Theorem C06_spaced : forall ts closed s1 s2, spaced None ts closed s1 -> spaced None ts closed s2 ->
  same_outcome (parse_stmts s1) (parse_stmts s2).
Proof. intros ts closed s1 s2 H1 H2. apply (source_same ts closed); now apply spaced_source. Qed.
Print Assumptions C06_spaced.

(** Layout after the last token does matter. *)
Theorem C06_trailing_refuted : exists ts s1 s2, source None ts true s1 /\ source None ts false s2 /\
  (exists sp, parse_stmts s1 = Parsed [] sp) /\ exists e, parse_stmts s2 = Failed e.
Proof.
  exists [mkTok KIdent "foo" 0 QUnquoted], "foo", "foo ". split; [|split; [|split]].
  - apply (S_lexeme None "" "foo" _ [] true ""); [constructor | apply (L_word None "foo" ""); [repeat split; now left | exact I] | apply (S_end _ ""); constructor; constructor].
  - apply (S_lexeme None "" "foo" _ [] false " "); [constructor | apply (L_word None "foo" " "); [repeat split; now left | reflexivity] |].
    apply (S_end _ " "). constructor. constructor; [reflexivity | constructor].
  - eexists. vm_compute. reflexivity.
  - eexists. vm_compute. reflexivity.
Qed.
Print Assumptions C06_trailing_refuted.

(** [a+1] and [a /*x*/ + ⏎ 1] are such sources. *)
Example C06_case : exists ts, source None ts true "a+1" /\ source None ts true ("a /*x*/ +" ++ String (ch 10) " 1").
Proof.
  exists [mkTok KIdent "a" 0 QUnquoted; mkTok "+" "+" 0 QNone; mkTok KInt "1" 10 QNone]. split.
  - apply (S_lexeme None "" "a" _ _ true "+1"); [constructor | apply (L_word None "a" "+1"); [repeat split; now left | reflexivity] |].
    apply (S_lexeme _ "" "+" _ _ true "1"); [constructor| |].
    + apply L_one; try discriminate.
      * repeat split; try (vm_compute; lia). intros H. vm_compute in H. intuition discriminate.
      * vm_compute. intuition discriminate.
      * left. cbn. auto.
    + apply (S_lexeme _ "" "1" _ _ true ""); [constructor| |apply (S_end _ ""); constructor; constructor].
      apply (L_number _ "1" 10 false ""); [apply (N_dec "" "1" false); [constructor | constructor; split; [discriminate | reflexivity]] | exact I | now left].
  - apply (S_lexeme None "" "a" _ _ true (" /*x*/ +" ++ String (ch 10) " 1")); [constructor | apply (L_word None "a"); [repeat split; now left | reflexivity] |].
    apply (S_lexeme _ " /*x*/ " "+" _ _ true (String (ch 10) " 1")).
    + constructor; [reflexivity|]. apply (G_block "x" " "); [|constructor; [reflexivity | constructor]].
      intros [|p [|q [|z a]]] b; discriminate.
    + apply L_one; try discriminate.
      * repeat split; try (vm_compute; lia). intros H. vm_compute in H. intuition discriminate.
      * vm_compute. intuition discriminate.
      * left. cbn. auto.
    + apply (S_lexeme _ (String (ch 10) " ") "1" _ _ true ""); [constructor; [reflexivity | constructor; [reflexivity | constructor]]| |apply (S_end _ ""); constructor; constructor].
      apply (L_number _ "1" 10 false ""); [apply (N_dec "" "1" false); [constructor | constructor; split; [discriminate | reflexivity]] | exact I | now left].
Qed.

(** ** C17 *)

(** A statement can be lost. *)
Theorem C17_refuted : exists inp s sp, requests inp 1 = LVal (s, None) /\ cur s <> None /\ parse_stmts inp = Parsed [] sp.
Proof. exists "SELECT". do 2 eexists. split; [vm_compute; reflexivity|]. split; [discriminate | vm_compute; reflexivity]. Qed.
Print Assumptions C17_refuted.

(** A part of a statement can be lost: the tree is the same for two output formats. *)
Theorem C17_format_refuted : exists stmts sp1 sp2,
  parse_stmts "DROP TABLE t FORMAT JSON" = Parsed stmts sp1 /\ parse_stmts "DROP TABLE t FORMAT CSV" = Parsed stmts sp2.
Proof. do 3 eexists. split; vm_compute; reflexivity. Qed.
Print Assumptions C17_format_refuted.

(** What is true: the returned statements were read, in order and one after the other, from
    disjoint segments of the input; outside the segments there are only semicolons, up to
    the first place that touches the end of the input; after that place there is no token.
    Missing: a token at that place itself is lost. *)
Theorem C17_segments_partial : forall inp stmts sp, parse_stmts inp = Parsed stmts sp ->
  exists its segs last, items_of inp = LVal its /\ stmts = map seg_stmt segs /\ parts its 0 segs last /\
    (exists it, nth_error its last = Some it /\ it_eof it = true) /\
    (forall j it, last < j -> nth_error its j = Some it -> it_tok it = None).
Proof. exact parsed_segments. Qed.
Print Assumptions C17_segments_partial.

(** No token is lost when the input ends with layout or a semicolon. *)
Theorem C17_no_loss_partial : forall inp stmts sp, parse_stmts inp = Parsed stmts sp ->
  (forall its it, items_of inp = LVal its -> In it its -> it_eof it = true -> between it) ->
  exists its segs, items_of inp = LVal its /\ stmts = map seg_stmt segs /\
    forall j it, nth_error its j = Some it -> in_stmt segs j \/ between it.
Proof.
  intros inp stmts sp H Hend. destruct (parsed_segments _ _ _ H) as (its & segs & last & H1 & H2 & H3 & (it0 & H4 & H5) & H6).
  exists its, segs. split; [exact H1|]. split; [exact H2|]. intros j it Hj. destruct (Nat.lt_trichotomy j last) as [Hlt|[->|Hgt]].
  - apply (parts_cover its last segs 0 H3 j it); [lia | exact Hj].
  - right. assert (it = it0) by congruence. subst it0. apply (Hend its); auto. exact (nth_error_In _ _ Hj).
  - right. unfold between. now rewrite (H6 j it Hgt Hj).
Qed.
Print Assumptions C17_no_loss_partial.

Example C17_case : exists stmts sp, parse_stmts "SELECT 1; SELECT 2 " = Parsed stmts sp /\ List.length stmts = 2 /\
  forall its it, items_of "SELECT 1; SELECT 2 " = LVal its -> In it its -> it_eof it = true -> between it.
Proof.
  do 2 eexists. split; [vm_compute; reflexivity|]. split; [reflexivity|]. intros its it H. vm_compute in H. injection H as <-.
  cbn [In]. intros H He. repeat (destruct H as [<-|H]; [try discriminate; exact I|]). destruct H.
Qed.

(** ** C18 *)

(** An unterminated comment or quoted identifier can go unnoticed. *)
Theorem C18_comment_refuted : unclosed "/* x" /\ exists stmts sp, parse_stmts "SELECT 1 /* x" = Parsed stmts sp.
Proof.
  split; [|do 2 eexists; vm_compute; reflexivity]. apply (U_comment " x"). intros [|p [|q [|z a]]] b; discriminate.
Qed.
Print Assumptions C18_comment_refuted.

Theorem C18_quoted_refuted : unclosed "`abc" /\ exists stmts sp, parse_stmts "SELECT 1 `abc" = Parsed stmts sp.
Proof. split; [|do 2 eexists; vm_compute; reflexivity]. apply (U_quoted "`" "abc"); [now left | reflexivity]. Qed.
Print Assumptions C18_quoted_refuted.

(** A malformed number, an unterminated string or a stray byte never goes unnoticed,
    whatever comes before it. Missing: comments and quoted identifiers. *)
Theorem C18_malformed_partial : forall ts g bad inp, begins None ts (g ++ bad) inp -> gap g -> malformed (last_tok None ts) bad ->
  forall stmts sp, parse_stmts inp <> Parsed stmts sp.
Proof. exact malformed_fails. Qed.
Print Assumptions C18_malformed_partial.

(** An input that parses is made of lexemes and layout, up to its end or up to an
    unterminated comment or quoted identifier. *)
Theorem C18_accepted_partial : forall inp stmts sp, parse_stmts inp = Parsed stmts sp ->
  (exists ts closed, source None ts closed inp) \/
  (exists ts g bad, begins None ts (g ++ bad) inp /\ gap g /\ unclosed bad).
Proof.
  intros inp stmts sp H. destruct (lexable _ inp None (le_n _)) as [Hs|(ts & g & bad & H1 & H2 & [H3|H3])]; [now left | | right; eauto 6].
  exfalso. exact (malformed_fails ts g bad inp H1 H2 H3 stmts sp H).
Qed.
Print Assumptions C18_accepted_partial.

Example C18_case : exists ts, begins None ts (" " ++ "'abc") "SELECT 'abc" /\ malformed (last_tok None ts) "'abc".
Proof.
  exists [mkTok KKeyword "SELECT" 0 QUnquoted]. split.
  - apply (B_lexeme None "" "SELECT" _ [] (" " ++ "'abc")); [constructor | apply (L_word None "SELECT"); [repeat split; now left | reflexivity] | apply B_nil].
  - apply (M_string _ "abc"). intros [|p [|q [|x [|y b]]]] r _ _; discriminate.
Qed.
