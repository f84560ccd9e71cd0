(** Properties C13, C14, C15, C21, C22, C35 and C36: what holds of every run of the parser
    and of every tree it returns. *)
From Coq Require Import String Ascii List Arith Bool Lia ZArith.
From Verif Require Import Str Keyword Lexer LexSpec LexRun Ast AstPos AstSubs PrecSpec SpanSpec Prog Items ItemsFacts Source SourceFacts
  ErrorRender Parser ParserApi Hoare Spec ParseFacts.
Import ListNotations.
Local Open Scope string_scope.
Local Open Scope nat_scope.

(** ** C13 *)

(** The offset of an error lies in the input, and line and column are those of the offset:
    [a] is the text up to the start of the line, [b] the part of the line before the offset. *)
Theorem C13_error_position : forall inp pe, parse_stmts inp = Failed pe ->
  exists a b c, inp = a ++ b ++ c /\ pe_pos pe = String.length a + String.length b /\
    count_nl b = 0 /\ (a = "" \/ exists a', a = a' ++ String newline "") /\
    pe_line pe = 1 + count_nl a /\ pe_column pe = 1 + String.length b.
Proof.
  intros inp pe H. destruct (states_ok inp) as (l & Hl & _). pose proof (api_ok inp _ Hl) as Ha. rewrite H in Ha.
  destruct Ha as (H1 & H2 & _). destruct (offset_split inp (pe_pos pe) H1) as (a & b & c & Hi & Ho & Hb & Hn).
  exists a, b, c. rewrite Ho, Hi, (position_split a b c Hn Hb) in H2. injection H2 as H2 H3. auto 8.
Qed.
Print Assumptions C13_error_position.

(** The offset of an error is where a token that the lexer produced starts (the token the
    error is about), or where the lexer stands when it has none. *)
Theorem C13_error_token : forall inp pe, parse_stmts inp = Failed pe ->
  exists k s e, requests inp k = LVal (s, e) /\
    match cur s with
    | Some t => pe_pos pe = tpos t /\ pe_got pe = Some (tok_of t)
    | None => pe_pos pe = off s /\ pe_got pe = None
    end.
Proof.
  intros inp pe H. destruct (states_ok inp) as (l & Hl & _). pose proof (api_ok inp _ Hl) as Ha. rewrite H in Ha.
  destruct Ha as (_ & _ & it & Hin & Hp & Hg). apply In_nth_error in Hin as [k Hk].
  apply number_items_nth_inv in Hk as (s & e & E & ->). exists k, s, e. split; [exact (state_in inp _ Hl k s e E)|].
  unfold item_pos in Hp. cbn [item_of it_id it_tok Nat.add] in Hp, Hg. rewrite E in Hp. unfold state_pos in Hp.
  destruct (cur s); auto.
Qed.
Print Assumptions C13_error_token.

Example C13_case : exists pe, parse_stmts ("SELECT a" ++ String newline "FROM )") = Failed pe /\
  pe_pos pe = 14 /\ pe_line pe = 2 /\ pe_column pe = 6.
Proof. eexists. vm_compute. repeat split. Qed.

(** ** C14 *)

(** The parser ends on every input, and how much fuel the model has does not matter. *)
Theorem C14_terminates : forall inp, parse_stmts inp <> Diverged /\
  forall extra, parse_stmts_fuel extra inp = parse_stmts inp.
Proof.
  intros inp. destruct (states_ok inp) as (l & Hl & _). split.
  - pose proof (api_ok inp _ Hl) as Ha. intros E. now rewrite E in Ha.
  - intros extra. unfold parse_stmts. now rewrite !(api_eq inp _ Hl).
Qed.
Print Assumptions C14_terminates.

Example C14_case : exists stmts sp, parse_stmts "SELECT ((((1)))), [[a, b]] FROM (SELECT 1)" = Parsed stmts sp /\ stmts <> [].
Proof. eexists. eexists. vm_compute. split; [reflexivity | discriminate]. Qed.

(** ** C15 *)

(** The parser does crash. *)
Theorem C15_refuted : exists inp site, parse_stmts inp = Crashed site.
Proof. exists "SYSTEM RELOAD EMBEDDED". eexists. vm_compute. reflexivity. Qed.
Print Assumptions C15_refuted.

(** But only by six expressions of the source: reading [p.current().End] or
    [p.current().ToString()] without a current token, the peeked token (nil at the end of
    the input) in [parseColumnTypeArgs], [parseOrderExpr] and [parseDefaultClause], and
    calling [End()] on a node without the field that [End] reads. In particular no slice
    or index is out of range, and [wrapError] does not crash. *)
Theorem C15_crash_sites_partial : forall inp site, parse_stmts inp = Crashed site ->
  In site ["p.current().End"; "p.current().ToString()"; "parseColumnTypeArgs: peekToken.Kind";
           "parseOrderExpr: nextToken.ToString()"; "parseDefaultClause: nextToken.String"; "End()"].
Proof.
  intros inp site H. destruct (states_ok inp) as (l & Hl & _). pose proof (api_ok inp _ Hl) as Ha. now rewrite H in Ha.
Qed.
Print Assumptions C15_crash_sites_partial.

(** Each of the six is reached. *)
Example C15_site_1 : parse_stmts "CREATE USER u IDENTIFIED" = Crashed "p.current().End".
Proof. vm_compute. reflexivity. Qed.
Example C15_site_2 : parse_stmts "SELECT TRIM(BOTH 'abc" = Crashed "p.current().ToString()".
Proof. vm_compute. reflexivity. Qed.
Example C15_site_3 : parse_stmts "SELECT CAST(1 AS a('x'" = Crashed "parseColumnTypeArgs: peekToken.Kind".
Proof. vm_compute. reflexivity. Qed.
Example C15_site_4 : parse_stmts "SELECT a ORDER BY a AS" = Crashed "parseOrderExpr: nextToken.ToString()".
Proof. vm_compute. reflexivity. Qed.
Example C15_site_5 : parse_stmts "CREATE USER u DEFAULT" = Crashed "parseDefaultClause: nextToken.String".
Proof. vm_compute. reflexivity. Qed.
Example C15_site_6 : parse_stmts "OPTIMIZE TABLE t PARTITION ALL;" = Crashed "End()".
Proof. vm_compute. reflexivity. Qed.

(** ** C21 *)

(** Every node of every tree respects the strengths of the operators (PrecSpec.v). *)
Theorem C21_precedence : forall inp stmts sp t e,
  parse_stmts inp = Parsed stmts sp -> In t stmts -> node_of t e -> respects e.
Proof.
  intros inp stmts sp t e H Ht He. destruct (states_ok inp) as (l & Hl & _).
  destruct (api_nodes inp _ Hl stmts sp H) as [_ Hn]. now destruct (Hn t e Ht He) as [(_ & Hr & _) _].
Qed.
Print Assumptions C21_precedence.

(** For two binary operators: neither operand of an operator is an application of a weaker one. *)
Theorem C21_binary : forall inp stmts sp t l op r n g1 g2,
  parse_stmts inp = Parsed stmts sp -> In t stmts -> node_of t (EBinaryOperation l op r g1 g2) -> op_level op = Some n ->
  (forall a o b m h1 h2, l = EBinaryOperation a o b h1 h2 -> op_level o = Some m -> n <= m) /\
  (forall a o b m h1 h2, r = EBinaryOperation a o b h1 h2 -> op_level o = Some m -> n <= m).
Proof.
  intros inp stmts sp t l op r n g1 g2 H Ht He Hn. pose proof (C21_precedence _ _ _ _ _ H Ht He) as Hr.
  cbn [respects] in Hr. rewrite Hn in Hr. destruct Hr as [H1 H2]. split; intros a o b m h1 h2 -> Hm.
  - cbn [as_left] in H1. rewrite Hm in H1. lia.
  - cbn [as_right] in H2. rewrite Hm in H2. destruct (String.eqb op "->"); lia.
Qed.
Print Assumptions C21_binary.

(** ** C22 *)

(** The right operand of an operator is never an application of an operator of the same
    level, except for [->]: among operators of one level, trees are nested to the left. *)
Theorem C22_right_operand : forall inp stmts sp t l op r n g1 g2,
  parse_stmts inp = Parsed stmts sp -> In t stmts -> node_of t (EBinaryOperation l op r g1 g2) -> op_level op = Some n ->
  op <> "->" -> forall a o b m h1 h2, r = EBinaryOperation a o b h1 h2 -> op_level o = Some m -> n < m.
Proof.
  intros inp stmts sp t l op r n g1 g2 H Ht He Hn Ho a o b m h1 h2 -> Hm. pose proof (C21_precedence _ _ _ _ _ H Ht He) as Hr.
  cbn [respects] in Hr. rewrite Hn in Hr. destruct Hr as [_ H2]. apply String.eqb_neq in Ho. rewrite Ho in H2.
  cbn [as_right] in H2. rewrite Hm in H2. lia.
Qed.
Print Assumptions C22_right_operand.

(** [a + b * c - d] is [(a + (b * c)) - d]. *)
Example C22_case : exists stmts sp t a b c d g1 g2 g3 g4 g5 g6, parse_stmts "SELECT a + b * c - d " = Parsed stmts sp /\ In t stmts /\
  node_of t (EBinaryOperation (EBinaryOperation a "+" (EBinaryOperation b "*" c g1 g2) g3 g4) "-" d g5 g6).
Proof.
  do 13 eexists. split; [vm_compute; reflexivity|]. split; [now left|].
  eapply node_sub; [apply (nth_error_In _ 3); reflexivity|]. eapply node_sub; [apply (nth_error_In _ 0); reflexivity|]. apply node_self.
Qed.

(** ** C35 *)

(** [End] of a node can crash. *)
Theorem C35_refuted : exists inp stmts sp t e, parse_stmts inp = Parsed stmts sp /\ In t stmts /\ node_of t e /\
  is_nil e = false /\ node_end sp e = None.
Proof.
  exists "CHECK TABLE t ". eexists. eexists. eexists. eexists. split; [vm_compute; reflexivity|].
  split; [now left|]. split; [apply node_self|]. split; reflexivity.
Qed.
Print Assumptions C35_refuted.

(** But only for the shapes listed in SpanSpec.v. *)
Theorem C35_defined_partial : forall inp stmts sp t e, parse_stmts inp = Parsed stmts sp -> In t stmts -> node_of t e ->
  wants e = true -> node_pos sp e <> None /\ node_end sp e <> None.
Proof.
  intros inp stmts sp t e H Ht He Hw. destruct (states_ok inp) as (l & Hl & _).
  destruct (api_nodes inp _ Hl stmts sp H) as [_ Hn]. destruct (Hn t e Ht He) as [(_ & _ & Hx & _) _]. destruct (Hx Hw) as [H1 H2].
  unfold node_pos, node_end. split; [destruct (pos_of e) | destruct (end_of e)]; easy.
Qed.
Print Assumptions C35_defined_partial.

(** ** C36 *)

(** A node can end before it begins (here a CASE expression, whose end is always 0), and
    outside the input (here a WITH FILL without bounds). *)
Theorem C36_order_refuted : exists inp stmts sp t e p q, parse_stmts inp = Parsed stmts sp /\ In t stmts /\ node_of t e /\
  node_pos sp e = Some p /\ node_end sp e = Some q /\ (q < p)%Z.
Proof.
  exists "SELECT CASE WHEN 1 THEN 2 END ". do 2 eexists. eexists. eexists. exists 7%Z, 0%Z.
  split; [vm_compute; reflexivity|]. split; [now left|]. split.
  - eapply node_sub; [apply (nth_error_In _ 3); reflexivity|]. eapply node_sub; [apply (nth_error_In _ 0); reflexivity|]. apply node_self.
  - vm_compute. auto.
Qed.
Print Assumptions C36_order_refuted.

Theorem C36_end_refuted : exists inp stmts sp t q, parse_stmts inp = Parsed stmts sp /\ In t stmts /\
  node_end sp t = Some q /\ (Z.of_nat (String.length inp) + 1 < q)%Z.
Proof.
  exists "SELECT a ORDER BY a WITH FILL ". do 3 eexists. eexists.
  split; [vm_compute; reflexivity|]. split; [now left|]. vm_compute. auto.
Qed.
Print Assumptions C36_end_refuted.

(** [Pos] and [End] never are negative nor more than four bytes beyond the input. *)
Theorem C36_bounds_partial : forall inp stmts sp t e p, parse_stmts inp = Parsed stmts sp -> In t stmts -> node_of t e ->
  node_pos sp e = Some p \/ node_end sp e = Some p -> (0 <= p <= Z.of_nat (String.length inp) + 4)%Z.
Proof.
  intros inp stmts sp t e p H Ht He Hp. destruct (states_ok inp) as (l & Hl & _).
  destruct (api_nodes inp _ Hl stmts sp H) as [-> Hn]. destruct (Hn t e Ht He) as (_ & H1 & H2).
  unfold node_pos, node_end in Hp.
  destruct Hp as [Hp|Hp]; [destruct (pos_of e) as [q|] eqn:E | destruct (end_of e) as [q|] eqn:E]; try discriminate; injection Hp as <-;
    apply (pok_bounds inp _ Hl); auto.
Qed.
Print Assumptions C36_bounds_partial.

Example C36_case : exists stmts sp t, parse_stmts "SELECT a FROM t " = Parsed stmts sp /\ In t stmts /\ wants t = true /\
  node_pos sp t = Some 0%Z /\ node_end sp t = Some 15%Z.
Proof. do 3 eexists. split; [vm_compute; reflexivity|]. split; [now left|]. vm_compute. auto. Qed.
