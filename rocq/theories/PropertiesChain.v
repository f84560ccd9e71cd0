(** Chains of binary operators: C22. *)
From Coq Require Import String Ascii List Arith Bool Lia.
From Verif Require Import Str Keyword Lexer LexSpec LexGrammar Ast AstSubs PrecSpec ChainSpec Prog Items Parser ErrorRender ParserApi ParseFacts
  LayoutSpec LayoutFacts LayoutParse ChainParse SpanSpec.
Import ListNotations.
Local Open Scope string_scope.
Local Open Scope nat_scope.

Lemma length_expected : forall ts id p c, length (expected id (Some p) ts c) = S (length ts).
Proof. induction ts as [|t ts IH]; intros id p c; [reflexivity|]. cbn [expected length]. now rewrite IH. Qed.

Lemma length_chain : forall l, length (chain_toks l) = 2 * length l.
Proof. induction l as [|[[op o] t] l IH]; [reflexivity|]. cbn [chain_toks length]. lia. Qed.

(** A SELECT of a chain of any length of operators of one level is parsed, and its tree is
    the one nested to the left. The input is given by its tokens, with any layout. The operand tokens are names and literals. *)
Theorem C22_chain : forall inp closed sel a l n,
  source None (sel :: a :: chain_toks l) closed inp -> t_kind sel = KKeyword -> upper (t_str sel) = "SELECT" ->
  atom a -> Forall (link n) l ->
  exists end_ sp, parse_stmts inp = Parsed
    [ESelectQuery (PStart 1) end_ ENil ENil false ENil [ESelectItem (left_tree (atom_tree 2 a) 3 l) [] ENil]
       ENil ENil ENil ENil ENil false ENil ENil ENil ENil ENil ENil ENil ENil ENil ENil] sp.
Proof.
  intros inp closed sel a l n Hs Hk Hu Ha Hl. destruct (source_states _ _ _ Hs) as (ls & El & Ei).
  pose proof (api_eq inp ls El 0) as Hp. rewrite Ei in Hp. cbn [expected] in Hp. unfold parse_items in Hp. cbn [init_pstate] in Hp.
  cbn [length] in Hp. rewrite length_expected, length_chain in Hp.
  assert (Hf : exists f, parse_fuel (S (S (S (S (2 * length l))))) = S (S (S (S f))) /\ length l <= f).
  { unfold parse_fuel. eexists (10 * S (S (S (S (2 * length l)))) + 6). lia. }
  destruct Hf as (f & Ef & Hf). rewrite Ef in Hp. destruct (whole_run n closed l a sel Hl Ha Hk Hu f [] Hf) as (se & E).
  exists se, (spans ls). unfold parse_stmts. rewrite Hp. unfold sel_item, a_item in E. cbn [expected] in E.
  match goal with |- context [run body ?F ParseStmts ?S] => replace (run body F ParseStmts S) with (ROk [chain_select l a se] (mkP (end_item (3 + 2 * length l)) [] [])) end.
  reflexivity.
Qed.
Print Assumptions C22_chain.

(** [SELECT a+1-b] is such an input. *)
Example C22_chain_case : exists sel a l, source None (sel :: a :: chain_toks l) true "SELECT a+1-b" /\ t_kind sel = KKeyword /\ upper (t_str sel) = "SELECT" /\
  atom a /\ Forall (link 12) l /\ length l = 2 /\
  left_tree (atom_tree 2 a) 3 l = EBinaryOperation (EBinaryOperation (EIdent "a" QUnquoted (PStart 2) (PEnd 2)) "+" (ENumberLiteral (PStart 4) (PEnd 4) "1" 10) false false)
    "-" (EIdent "b" QUnquoted (PStart 6) (PEnd 6)) false false.
Proof.
  exists (mkTok KKeyword "SELECT" 0 QUnquoted), (mkTok KIdent "a" 0 QUnquoted),
    [("+", mkTok "+" "+" 0 QNone, mkTok KInt "1" 10 QNone); ("-", mkTok "-" "-" 0 QNone, mkTok KIdent "b" 0 QUnquoted)].
  split; [|split; [reflexivity|split; [reflexivity|split; [now left|split; [|split; reflexivity]]]]].
  - apply (S_lexeme None "" "SELECT" _ _ true " a+1-b"); [constructor | apply (L_word None "SELECT" " a+1-b"); [repeat split; now left | reflexivity] |].
    apply (S_lexeme _ " " "a" _ _ true "+1-b"); [constructor; [reflexivity | constructor] | apply (L_word _ "a" "+1-b"); [repeat split; now left | reflexivity] |].
    apply (S_lexeme _ "" "+" _ _ true "1-b"); [constructor| |].
    { apply L_one; try discriminate.
      * repeat split; try (vm_compute; lia). intros H. vm_compute in H. intuition discriminate.
      * vm_compute. intuition discriminate.
      * left. cbn. auto. }
    apply (S_lexeme _ "" "1" _ _ true "-b"); [constructor| |].
    { apply (L_number _ "1" 10 false "-b"); [apply (N_dec "" "1" false); [constructor | constructor; split; [discriminate | reflexivity]] | split; [reflexivity | discriminate] | now left]. }
    apply (S_lexeme _ "" "-" _ _ true "b"); [constructor| |].
    { apply L_one; try discriminate.
      * repeat split; try (vm_compute; lia). intros H. vm_compute in H. intuition discriminate.
      * vm_compute. intuition discriminate.
      * intros _ [z H]. discriminate.
      * intros _. left. cbn. auto 20. }
    apply (S_lexeme _ "" "b" _ _ true ""); [constructor | apply (L_word _ "b" ""); [repeat split; now left | exact I] | apply (S_end _ ""); constructor; constructor].
  - constructor; [|constructor; [|constructor]]; (split; [left; split; [vm_compute; tauto | split; reflexivity] | split; [reflexivity | split; [vm_compute; tauto | discriminate]]]).
Qed.

(** The arrow is the exception: it associates to the right. *)
Theorem C22_arrow_refuted : exists stmts sp t a b c, parse_stmts "SELECT a->b->c " = Parsed stmts sp /\ In t stmts /\
  node_of t (EBinaryOperation a "->" (EBinaryOperation b "->" c false false) false false).
Proof.
  do 2 eexists. eexists. do 3 eexists. split; [vm_compute; reflexivity|]. split; [now left|].
  eapply node_sub; [apply (nth_error_In _ 3); reflexivity|]. eapply node_sub; [apply (nth_error_In _ 0); reflexivity|]. apply node_self.
Qed.
Print Assumptions C22_arrow_refuted.
