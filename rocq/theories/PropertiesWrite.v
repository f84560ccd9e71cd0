(** Property C42: formatting writes every name and literal of a statement. *)
From Coq Require Import String Ascii List Arith Bool Lia.
From Verif Require Import Str StrFacts Keyword Lexer LexSpec LexGrammar LexTokens Ast AstPos AstSubs Prog Items Parser ErrorRender ParserApi LayoutSpec WalkSpec ParseFacts Words KeepSpec PropertiesKeep Format FormatSpec WriteSpec WriteStmt FormatFound.
Import ListNotations.
Local Open Scope string_scope.
Local Open Scope nat_scope.

Local Notation texts := Words.texts.
Local Notation plain := KeepSpec.plain.

(** A plain word is found in the text of a statement at as many places as it has in the tree, unless
    the statement has a node of which the formatter leaves out a part; see [C42_refuted]. *)
Theorem C42_written_partial : forall w inp l sp t text, plain w -> parse_stmts inp = Parsed l sp -> In t l ->
  (forall e, node_of t e -> forgotten e = false) -> Format t = FOk text -> found (tally w (texts t)) w text.
Proof.
  intros w inp l sp t text Hw H Ht Hf. pose proof (parsed_ok _ _ _ H) as Ho. rewrite Forall_forall in Ho.
  destruct (parsed_shape _ _ _ _ H Ht) as (_ & Hk & _). apply format_found; auto.
Qed.
Print Assumptions C42_written_partial.

(** The same for the indented text, and words without a line break. *)
Theorem C42_beautified_partial : forall indent w inp l sp t text, plain w -> one_line w = true -> parse_stmts inp = Parsed l sp -> In t l ->
  (forall e, node_of t e -> forgotten e = false) -> Beautify indent t = FOk text -> found (tally w (texts t)) w text.
Proof.
  intros indent w inp l sp t text Hw H1 H Ht Hf. pose proof (parsed_ok _ _ _ H) as Ho. rewrite Forall_forall in Ho.
  destruct (parsed_shape _ _ _ _ H Ht) as (_ & Hk & _). apply beautify_found; auto.
Qed.
Print Assumptions C42_beautified_partial.

(** From the names and literals of the input to the text of the statements, with the conditions of
    [C41_kept_partial]. *)
Theorem C42_through_partial : forall w ts closed src l sp texts', plain w -> source None ts closed src -> parse_stmts src = Parsed l sp ->
  Forall (fun t => lossy t = false) ts -> ~ lone ts closed -> (forall t e, In t l -> node_of t e -> forgotten e = false) ->
  Forall2 (fun t text => Format t = FOk text) l texts' -> found (tally w (leaves ts)) w (String.concat "" texts').
Proof.
  intros w ts closed src l sp texts' Hw Hs H Hlo Hla Hf Hx. rewrite <- (C41_kept_partial w ts closed src l sp Hw Hs H Hlo Hla).
  apply texts_found. pose proof (fun t text Ht => C42_written_partial w src l sp t text Hw H Ht (fun e => Hf t e Ht)) as G. clear - Hx G.
  induction Hx as [|t x l0 xs H1 H2 IH]; constructor; [apply G; [now left|exact H1]|]. apply IH. intros t' text' Ht'. apply G. now right.
Qed.
Print Assumptions C42_through_partial.

(** The formatter forgets the UUID of a live view, and the names of ON without DISTINCT. *)
Theorem C42_refuted : forall src w, In (src, w) [("CREATE LIVE VIEW v UUID 'u' AS SELECT a", "u"); ("SELECT ON (a) b", "a")] ->
  plain w /\ exists t sp text, parse_stmts src = Parsed [t] sp /\ Format t = FOk text /\ 0 < tally w (texts t) /\ ~ found (tally w (texts t)) w text.
Proof.
  intros src w Hi. cbn [In] in Hi. destruct Hi as [[= <- <-]|[[= <- <-]|[]]]; (split; [a_plain|]); do 3 eexists; (split; [vm_compute; reflexivity|]); (split; [vm_compute; reflexivity|]).
  all: (split; [vm_compute; lia|]); apply not_found; vm_compute; [reflexivity|lia].
Qed.
Print Assumptions C42_refuted.

(** A statement that meets the conditions: [a] is found three times. *)
Example C42_case : plain "a" /\ exists t sp, parse_stmts "SELECT a x,f(a) FROM t WHERE a" = Parsed [t] sp /\ tally "a" (texts t) = 3 /\
  forallb (fun e => negb (forgotten e)) (nodes t) = true /\ Format t = FOk "SELECT a AS x, f(a) FROM t WHERE a".
Proof.
  split; [a_plain|]. do 2 eexists. split; [vm_compute; reflexivity|]. split; [vm_compute; reflexivity|]. split; [vm_compute; reflexivity|]. vm_compute; reflexivity.
Qed.
