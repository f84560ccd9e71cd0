(** Properties C16, C19, C20 and C23: the state of the parser. *)
From Coq Require Import String List Arith Bool Lia ZArith.
From Verif Require Import Str Keyword Lexer LexRun LexProps Ast Prog Items ItemsFacts RunFacts ParserCommon Parser ErrorRender ParserApi
  ParseFacts Retry RetryFacts Lazy LazyFacts PropertiesParser.
Import ListNotations.
Local Open Scope string_scope.
Local Open Scope nat_scope.
#[local] Arguments is_keyword : simpl never.
#[local] Arguments is_reserved : simpl never.
#[local] Arguments upper : simpl never.

(** ** C16 *)

(** Running the parser on the lexer, with tokens read on demand, looked ahead and read again
    after going back ([parse_lazy], Lazy.v), ends as running it on the list of all the tokens
    ([parse_stmts]): same statements with the same positions, same error, same crash. *)
Theorem C16_lazy : forall inp, exists f0, forall fuel, f0 <= fuel ->
  match parse_stmts inp with
  | Parsed stmts sp => parse_lazy fuel inp = LParsed stmts /\
      forall k, k < List.length sp -> nth k sp (0, 0)%Z = state_span (after inp k)
  | Failed pe => parse_lazy fuel inp = LFailed pe
  | Crashed site => parse_lazy fuel inp = LCrashed site
  | Diverged => False
  end.
Proof. exact lazy_parse_eq. Qed.
Print Assumptions C16_lazy.

(** An input with look-ahead, a failed INTERVAL attempt and a multi-word clause. *)
Example C16_case : exists t, parse_lazy 200 "SELECT interval + 1 FROM t LIMIT 1 BY a " = LParsed [t].
Proof. eexists. vm_compute. reflexivity. Qed.

(** ** C19 *)

(** The next tokens are these keywords, in any letter case. *)
Fixpoint next_are (words : list string) (s : pstate) : Prop :=
  match words with
  | [] => True
  | w :: r => (exists t, it_tok (here s) = Some t /\ t_kind t = KKeyword /\ upper (t_str t) = upper w) /\ next_are r (advance s)
  end.

Fixpoint past (n : nat) (s : pstate) : pstate :=
  match n with O => s | S m => past m (advance s) end.

Lemma kw_iff it w : kw it w = true <-> exists t, it_tok it = Some t /\ t_kind t = KKeyword /\ upper (t_str t) = upper w.
Proof.
  unfold kw, equal_fold. destruct (it_tok it) as [t|]; [|split; [discriminate | intros (t & H & _); discriminate]].
  rewrite andb_true_iff, !String.eqb_eq. split; [intros [H1 H2]; exists t; auto | intros (t' & H & H1 & H2); injection H as <-; auto].
Qed.

Lemma try_keywords_run body f : forall words s,
  (next_are words s /\ run body (S f) (try_keywords words) s = ROk true (past (List.length words) s)) \/
  (~ next_are words s /\ exists s', run body (S f) (try_keywords words) s = ROk false s' /\ memo s' = memo s).
Proof.
  induction words as [|w r IH]; intros s; [left; split; reflexivity || exact I|].
  cbn [try_keywords next_are List.length past]. unfold cur_item. cbn [bind]. rewrite run_Cur.
  destruct (kw (here s) w) eqn:E.
  - unfold skip. cbn [bind]. rewrite run_Consume. destruct (IH (advance s)) as [[H1 H2]|[H1 (s' & H2 & H3)]].
    + left. split; [split; [now apply kw_iff | exact H1] | exact H2].
    + right. split; [tauto|]. exists s'. split; [exact H2|]. rewrite H3. unfold advance. now destruct (rest s).
  - right. split; [intros [H _]; apply kw_iff in H; congruence|]. exists s. auto.
Qed.

(** [tryConsumeKeywords]: when the keywords are next it passes them all, and otherwise the
    parser is exactly where it was (lexer state and memo). It never fails. *)
Theorem C19_atomic : forall body f words s,
  (next_are words s /\ run body (S f) (tryKws words) s = ROk true (past (List.length words) s)) \/
  (~ next_are words s /\ run body (S f) (tryKws words) s = ROk false s).
Proof.
  intros body f words s. unfold tryKws. rewrite run_Attempt.
  destruct (try_keywords_run body f words s) as [[H1 H2]|[H1 (s' & H2 & H3)]]; rewrite H2; [left | right]; (split; [exact H1|]).
  - reflexivity.
  - cbn. unfold restore. rewrite H3. now destruct s.
Qed.
Print Assumptions C19_atomic.

(** "ORDER BY": both words, one of them, none. *)
Definition word_item (n : nat) (w : string) : item := mkItem n (Some (mkTok KKeyword w 0 QUnquoted)) false None.
Example C19_case :
  next_are ["ORDER"; "BY"] (mkP (word_item 1 "order") [word_item 2 "By"; word_item 3 "x"] []) /\
  ~ next_are ["ORDER"; "BY"] (mkP (word_item 1 "order") [word_item 2 "of"] []).
Proof.
  split; [repeat split; eexists; repeat split; reflexivity|]. intros (_ & (t & H & _ & H2) & _).
  injection H as <-. discriminate H2.
Qed.

(** ** C20 *)

(** Tokens that can be an identifier: identifiers, quoted or not, and keywords that are not
    reserved (keyword.go:279-329). *)
Definition name_token (t : tok) : Prop :=
  t_kind t = KIdent \/ (t_kind t = KKeyword /\ ~ In (upper (t_str t)) reserved_keywords).

Lemma tk_ident_iff it : tk it KIdent = true <-> exists t, it_tok it = Some t /\ name_token t.
Proof.
  unfold tk, tks, cur_kind. destruct (it_tok it) as [t|].
  - destruct (str_in (t_kind t) [KIdent]) eqn:E.
    + apply str_in_In in E. destruct E as [E|[]]. split; [|reflexivity]. intros _. exists t. split; [reflexivity | now left].
    + rewrite andb_true_r, andb_true_iff, negb_true_iff, String.eqb_eq. split.
      * intros [H1 H2]. exists t. split; [reflexivity|]. right. split; [exact H1|]. intros H. apply str_in_In in H.
        unfold is_reserved in H2. congruence.
      * intros (t' & H & Hn). injection H as <-. destruct Hn as [Hn|[H1 H2]].
        { rewrite Hn in E. discriminate E. }
        split; [exact H1|]. unfold is_reserved. destruct (str_in (upper (t_str t)) reserved_keywords) eqn:E2; [|reflexivity]. apply str_in_In in E2. contradiction.
  - split; [discriminate | intros (t & H & _); discriminate].
Qed.

(** [parseIdent]: such a token is passed, and the identifier records its text and its quotes;
    at any other token the call fails, saying that an identifier was expected, and passes nothing. *)
Theorem C20_ident : forall body f s,
  (exists t, it_tok (here s) = Some t /\ name_token t /\
     run body (S f) parseIdent s =
     ROk (EIdent (t_str t) (t_quote t) (PStart (it_id (here s))) (PEnd (it_id (here s)))) (advance s)) \/
  ((forall t, it_tok (here s) = Some t -> ~ name_token t) /\
     run body (S f) parseIdent s = RErr (ExpKind (here s) KIdent) s).
Proof.
  intros body f s. unfold parseIdent, expTk, cur_item, skip. cbn [bind]. rewrite !run_Cur.
  destruct (tk (here s) KIdent) eqn:E.
  - left. apply tk_ident_iff in E as (t & Ht & Hn). exists t. rewrite Ht. split; [reflexivity|]. split; [exact Hn|].
    cbn [bind]. rewrite run_Consume, run_Ret. reflexivity.
  - right. split; [|reflexivity]. intros t Ht Hn. assert (tk (here s) KIdent = true) by (apply tk_ident_iff; eauto). congruence.
Qed.
Print Assumptions C20_ident.

(** Where even reserved words are allowed as names ([parseAnyKeyword]), every identifier and
    every keyword is passed and recorded, and nothing else. *)
Theorem C20_any_word : forall body f s,
  (exists t, it_tok (here s) = Some t /\ (t_kind t = KIdent \/ t_kind t = KKeyword) /\
     run body (S f) parseAnyKeyword s =
     ROk (EIdent (t_str t) (t_quote t) (PStart (it_id (here s))) (PEnd (it_id (here s)))) (advance s)) \/
  ((forall t, it_tok (here s) = Some t -> t_kind t <> KIdent /\ t_kind t <> KKeyword) /\
     run body (S f) parseAnyKeyword s = RErr (ExpKind (here s) KIdent) s).
Proof.
  intros body f s. unfold parseAnyKeyword, cur_item, skip. cbn [bind]. rewrite run_Cur. cbn [bind].
  assert (Hi : tks (here s) [KIdent; KKeyword] = true <-> exists t, it_tok (here s) = Some t /\ (t_kind t = KIdent \/ t_kind t = KKeyword)).
  { unfold tks, cur_kind. destruct (it_tok (here s)) as [t|].
    - destruct (str_in (t_kind t) [KIdent; KKeyword]) eqn:E.
      + split; [|reflexivity]. intros _. apply str_in_In in E. destruct E as [E|[E|[]]]; exists t; auto.
      + assert (Hne : t_kind t <> KIdent /\ t_kind t <> KKeyword).
        { split; intros H; rewrite H in E; discriminate E. }
        split.
        * rewrite !andb_true_iff, String.eqb_eq. tauto.
        * intros (t' & H & Hk). injection H as <-. tauto.
    - split; [discriminate | intros (t & H & _); discriminate]. }
  destruct (tks (here s) [KIdent; KKeyword]) eqn:E.
  - left. destruct (proj1 Hi eq_refl) as (t & Ht & Hk). exists t. rewrite Ht. split; [reflexivity|]. split; [exact Hk|]. reflexivity.
  - right. split; [|reflexivity]. intros t Ht. split; intros Hk; assert (false = true) by (apply Hi; eauto); discriminate.
Qed.
Print Assumptions C20_any_word.

Example C20_case : name_token (mkTok KKeyword "Table" 0 QUnquoted) /\ ~ name_token (mkTok KKeyword "sElect" 0 QUnquoted).
Proof.
  split.
  - right. split; [reflexivity|]. intros H. apply str_in_In in H. discriminate H.
  - intros [H|[_ H]]; [discriminate H|]. apply H. apply str_in_In. reflexivity.
Qed.
(** In the language: [table] can name a table, [select] cannot unless quoted. *)
Example C20_case2 :
  (exists t, parse_stmts "USE Table " = Parsed [EUseStmt (PStart 1) (PEnd 2) (EIdent "Table" QUnquoted (PStart 2) (PEnd 2))] t) /\
  (exists t, parse_stmts "USE `select` " = Parsed [EUseStmt (PStart 1) (PEnd 2) (EIdent "select" QBackTicks (PStart 2) (PEnd 2))] t) /\
  (exists pe, parse_stmts "USE select " = Failed pe /\ pe_expected pe = [KIdent]).
Proof. repeat split; eexists; vm_compute; repeat split. Qed.

(** ** C23 *)

(** A parser that tries the operator reading of INTERVAL every time ([parse_stmts_retry],
    Retry.v) gives, with enough fuel, the same statements, error or crash. *)
Theorem C23_memo : forall inp, exists g0, forall g, g0 <= g -> parse_stmts_retry g inp = parse_stmts inp.
Proof. intros inp. apply parse_stmts_retry_eq. exact (proj1 (C14_terminates inp)). Qed.
Print Assumptions C23_memo.

(** The memo is used here: the attempt at the first [interval] fails after an attempt at the second one. *)
Example C23_case : exists t sp, parse_stmts "SELECT interval + interval FROM t " = Parsed [t] sp /\
  parse_stmts_retry 200 "SELECT interval + interval FROM t " = Parsed [t] sp.
Proof. eexists. eexists. split; vm_compute; reflexivity. Qed.
