(** Theorems about the lexer: C01-C05 and C07-C09. The vocabulary is [consume],
    [peek] (Lexer.v, the model of consumeToken and peekToken), [requests] (LexRun.v,
    iterating consumeToken from the initial state) and the lexeme grammars at the
    head of LexGrammar.v. *)
From Coq Require Import String Ascii List Arith Bool Lia.
From Verif Require Import Str Keyword Lexer LexRun LexGrammar LexTokens LexProps.
Import ListNotations.
Local Open Scope string_scope.
Local Open Scope nat_scope.

(** ** C01 *)

(** After at most [2 * length + 1] requests the lexer has no token and answers every
    further request alike. *)
Theorem C01_lexing_settles : forall inp, exists N, N <= 2 * String.length inp + 1 /\
  exists s e, cur s = None /\ forall k, N <= k -> requests inp k = LVal (s, e).
Proof. exact settles. Qed.
Print Assumptions C01_lexing_settles.

(** Each request moves forward, or drops the token, or has reached the final answer. *)
Theorem C01_lexing_progress : forall inp k s e, requests inp k = LVal (s, e) ->
  exists s' e', requests inp (S k) = LVal (s', e') /\
   (off s < off s'
    \/ (off s = off s' /\ cur s <> None /\ cur s' = None)
    \/ forall d, requests inp (S k + d) = LVal (s', e')).
Proof. exact progress. Qed.
Print Assumptions C01_lexing_progress.

Example C01_case : exists s, requests "a -- c" 1 = LVal (s, None) /\ cur s <> None /\
  requests "a -- c" 2 = LVal (mkL 6 None, None).
Proof. eexists. split; [vm_compute; reflexivity|]. split; [discriminate | vm_compute; reflexivity]. Qed.

(** ** C02 *)

Theorem C02_token_in_bounds : forall inp k s e t, requests inp k = LVal (s, e) -> cur s = Some t ->
  tpos t <= tend t /\ tend t <= String.length inp /\
  tstr t = String.substring (tpos t) (tend t - tpos t) inp.
Proof.
  intros inp k s e t H Ht. destruct (requests_tok _ _ _ _ _ H Ht) as (k' & s0 & e0 & _ & _ & H1 & H2 & H3 & _ & H4 & H5 & _).
  repeat split; [exact H2 | exact (Nat.le_trans _ _ _ H3 H4) | exact H5].
Qed.
Print Assumptions C02_token_in_bounds.

Example C02_case : exists s, requests "SELECT 'ab'" 2 = LVal (s, None) /\
  cur s = Some (mkToken 8 10 KString "ab" 0 QNone).
Proof. eexists. split; vm_compute; reflexivity. Qed.

(** ** C03 *)

Theorem C03_tokens_ordered : forall inp i j si ei sj ej ti tj, i < j ->
  requests inp i = LVal (si, ei) -> requests inp j = LVal (sj, ej) ->
  cur si = Some ti -> cur sj = Some tj ->
  tend ti <= tpos tj /\ tend ti <= off si.
Proof. exact order. Qed.
Print Assumptions C03_tokens_ordered.

Example C03_case : exists s1 s3 t1 t3, requests "a b c" 1 = LVal (s1, None) /\ requests "a b c" 3 = LVal (s3, None) /\
  cur s1 = Some t1 /\ cur s3 = Some t3 /\ tend t1 = 1 /\ tpos t3 = 4.
Proof. do 4 eexists. repeat split; vm_compute; reflexivity. Qed.

(** ** C04 *)

(** No request indexes outside the input (which would be [LPanic]) or fails to
    terminate ([LFuel]), and the offset stays within the input. *)
Theorem C04_lexer_in_bounds : forall inp k, exists s e, requests inp k = LVal (s, e) /\ off s <= String.length inp.
Proof. exact requests_ok. Qed.
Print Assumptions C04_lexer_in_bounds.

(** The index operations are really partial in the model. *)
Example C04_case : peekN "ab" 1 1 = LPanic /\ slice "ab" 1 0 2 = LPanic /\ peekN "ab" 1 0 = LVal "b"%char.
Proof. repeat split. Qed.

(** ** C05 *)

Theorem C05_peek_pure : forall inp s s' o, peek inp s = LVal (s', inl o) ->
  s' = s /\ exists s2, consume inp s = LVal (s2, None) /\ cur s2 = o.
Proof. exact peek_ok. Qed.
Print Assumptions C05_peek_pure.

Example C05_case : exists t, peek "a b" (mkL 1 None) = LVal (mkL 1 None, inl (Some t)) /\ tstr t = "b".
Proof. eexists. split; vm_compute; reflexivity. Qed.

(** A peek that fails is not pure: the state is left at the failure. *)
Theorem C05_failed_peek_pure_refuted : exists inp s s' e, peek inp s = LVal (s', inr e) /\ s' <> s.
Proof.
  exists "a `b", (mkL 1 (Some (mkToken 0 1 KIdent "a" 0 QUnquoted))). do 2 eexists. split; [vm_compute; reflexivity | discriminate].
Qed.
Print Assumptions C05_failed_peek_pure_refuted.

(** ** C07 *)

(** A word, in whatever case, is read as one token whose kind depends on its
    upper-case form only. *)
Theorem C07_word_kind : forall pre w r prev, word w -> word_end r ->
  exists t, consume (pre ++ w ++ r) (mkL (String.length pre) prev) = LVal (mkL (String.length pre + String.length w) (Some t), None) /\
    tstr t = w /\ tpos t = String.length pre /\
    (In (upper w) keywords -> tkind t = KKeyword) /\ (~ In (upper w) keywords -> tkind t = KIdent).
Proof.
  intros pre w r prev Hw Hr. rewrite (word_accept pre w r prev Hw Hr). eexists. split; [reflexivity|].
  cbn [tstr tpos tkind]. split; [reflexivity|]. split; [reflexivity|].
  split; intros H; [apply is_keyword_In in H as ->; reflexivity|].
  destruct (is_keyword (upper w)) eqn:E; [apply is_keyword_In in E; contradiction | reflexivity].
Qed.
Print Assumptions C07_word_kind.

(** In any run, a token is a keyword exactly when it is a bare (unquoted) word
    whose upper-case form is in the table; in particular quoted words never are. *)
Theorem C07_keyword_tokens : forall inp k s e t, requests inp k = LVal (s, e) -> cur s = Some t ->
  (tkind t = KKeyword <-> tquote t = QUnquoted /\ In (upper (tstr t)) keywords).
Proof.
  intros inp k s e t H Ht. rewrite <- is_keyword_In. exact (run_keyword inp k s e t H Ht).
Qed.
Print Assumptions C07_keyword_tokens.

Example C07_case : word "sElEcT" /\ In (upper "sElEcT") keywords /\ word "foo" /\ ~ In (upper "foo") keywords.
Proof.
  repeat split; auto.
  - apply is_keyword_In. vm_compute. reflexivity.
  - intros H. apply is_keyword_In in H. vm_compute in H. discriminate.
Qed.

(** ** C08 *)

(** The tokens after which a sign is an operator (lexer.go:347-357). *)
Definition ends_operand (prev : option token) : Prop :=
  match prev with Some t => In (tkind t) [KIdent; KKeyword; KInt; KFloat; KString; ")"; "]"] | None => False end.

Definition unsigned (n : string) : Prop := match n with String c _ => is_digit c = true | "" => False end.

Lemma ends_operand_iff prev : ~ ends_operand prev -> has_precedence_token prev = false.
Proof.
  intros H. destruct prev as [t|]; [|reflexivity]. cbn [has_precedence_token ends_operand] in *.
  destruct (str_in _ _) eqn:E; [|reflexivity]. apply str_in_In in E. contradiction.
Qed.

(** Every number token of a run is a literal of the grammar, with the right base
    and kind, and what follows cannot continue it. *)
Theorem C08_number_tokens : forall inp k s e t, requests inp k = LVal (s, e) -> cur s = Some t ->
  tkind t = KInt \/ tkind t = KFloat ->
  exists pre f r, inp = pre ++ tstr t ++ r /\ String.length pre = tpos t /\
    number (tstr t) (tbase t) f /\ (tkind t = KFloat <-> f = true) /\ number_end r.
Proof.
  intros inp k s e t H Ht Hk. destruct (run_number inp k s e t H Ht Hk) as (pre & f & r & H1 & H2 & H3 & H4 & H5).
  exists pre, f, r. rewrite H4. repeat split; auto; apply (number_kind_iff f).
Qed.
Print Assumptions C08_number_tokens.

(** A literal followed by something that cannot continue it is read whole. *)
Theorem C08_number_read : forall pre n base f r prev, number n base f -> number_end r ->
  unsigned n \/ ~ ends_operand prev ->
  consume (pre ++ n ++ r) (mkL (String.length pre) prev) =
  LVal (mkL (String.length pre + String.length n)
         (Some (mkToken (String.length pre) (String.length pre + String.length n) (if f then KFloat else KInt) n base QNone)), None).
Proof.
  intros pre n base f r prev Hn Hr Hp. apply number_accept; auto.
  destruct Hp as [Hp|Hp]; [left; destruct n; [destruct Hp | exact Hp] | right; now apply ends_operand_iff].
Qed.
Print Assumptions C08_number_read.

(** A text that starts like a number but is not such a literal is an error. *)
Theorem C08_number_rejected : forall pre c s prev,
  (is_digit c = true \/ (c = "+"%char \/ c = "-"%char) /\ unsigned s /\ ~ ends_operand prev) ->
  (forall n base f r, number n base f -> number_end r -> String c s <> n ++ r) ->
  exists e, consume (pre ++ String c s) (mkL (String.length pre) prev) = LVal (mkL (String.length pre) None, Some e).
Proof.
  intros pre c s prev Hc Hno. apply number_reject; auto.
  - destruct Hc as [Hc | (Hc & Hu & _)]; cbn; [now rewrite Hc|]. destruct s as [|d s]; [destruct Hu|]. cbn in Hu |- *. rewrite Hu.
    destruct Hc as [-> | ->]; reflexivity.
  - destruct Hc as [Hc | (_ & _ & Hp)]; [left; exact Hc | right; now apply ends_operand_iff].
Qed.
Print Assumptions C08_number_rejected.

Example C08_case_exp : number "1.5e-3" 10 true.
Proof.
  change "1.5e-3" with ("" ++ ("1" ++ "." ++ "5") ++ ("e" ++ "-" ++ "3")). eapply N_exp.
  - constructor.
  - constructor; [split; [discriminate | reflexivity] | reflexivity].
  - constructor; [auto | constructor | split; [discriminate | reflexivity]].
Qed.
Example C08_case_hex : number "-0xfF" 16 false.
Proof. change "-0xfF" with ("-" ++ "0x" ++ "fF"). constructor; [constructor | split; [discriminate | reflexivity]]. Qed.
(** The reject theorem applies: [1a] starts like a number and is none. *)
Example C08_case_reject : forall n base f r, number n base f -> number_end r -> "1a" <> n ++ r.
Proof.
  intros n base f r Hn Hr H. pose proof (C08_number_read "" n base f r None Hn Hr (or_intror (fun x => x))) as Hc.
  rewrite <- H in Hc. vm_compute in Hc. discriminate.
Qed.

(** ** C09 *)

Theorem C09_string_tokens : forall inp k s e t, requests inp k = LVal (s, e) -> cur s = Some t -> tkind t = KString ->
  exists pre r, inp = pre ++ "'" ++ tstr t ++ "'" ++ r /\ S (String.length pre) = tpos t /\
    str_text (tstr t) /\ ~ starts_with "'" r.
Proof. exact run_string. Qed.
Print Assumptions C09_string_tokens.

Theorem C09_string_read : forall pre b r prev, str_text b -> ~ starts_with "'" r ->
  consume (pre ++ "'" ++ b ++ "'" ++ r) (mkL (String.length pre) prev) =
  LVal (mkL (String.length pre + String.length b + 2)
         (Some (mkToken (String.length pre + 1) (String.length pre + 1 + String.length b) KString b 0 QNone)), None).
Proof. exact string_accept. Qed.
Print Assumptions C09_string_read.

Theorem C09_string_unterminated : forall pre s prev,
  (forall b r, str_text b -> ~ starts_with "'" r -> s <> b ++ "'" ++ r) ->
  exists e, consume (pre ++ "'" ++ s) (mkL (String.length pre) prev) = LVal (mkL (String.length pre) None, Some e).
Proof. exact string_reject. Qed.
Print Assumptions C09_string_unterminated.

Theorem C09_quoted_tokens : forall inp k s e t, requests inp k = LVal (s, e) -> cur s = Some t ->
  tquote t = QBackTicks \/ tquote t = QDouble ->
  exists pre q r, inp = pre ++ String q (tstr t ++ String q r) /\ S (String.length pre) = tpos t /\ free_of q (tstr t) /\
    tkind t = KIdent /\ (q = "`"%char /\ tquote t = QBackTicks \/ q = ch 34 /\ tquote t = QDouble).
Proof. exact run_quoted. Qed.
Print Assumptions C09_quoted_tokens.

Theorem C09_quoted_read : forall pre q b r prev, q = "`"%char \/ q = ch 34 -> free_of q b ->
  consume (pre ++ String q (b ++ String q r)) (mkL (String.length pre) prev) =
  LVal (mkL (String.length pre + String.length b + 2)
         (Some (mkToken (String.length pre + 1) (String.length pre + 1 + String.length b) KIdent b 0
                  (if Ascii.eqb q "`" then QBackTicks else QDouble))), None).
Proof. exact quoted_accept. Qed.
Print Assumptions C09_quoted_read.

Theorem C09_quoted_unterminated : forall pre q s prev, q = "`"%char \/ q = ch 34 -> free_of q s ->
  exists e, consume (pre ++ String q s) (mkL (String.length pre) prev) = LVal (mkL (String.length pre + 1) None, Some e).
Proof. exact quoted_reject. Qed.
Print Assumptions C09_quoted_unterminated.

(** [a''] has no end of literal in it. *)
Example C09_case_unterminated : forall b r, str_text b -> ~ starts_with "'" r -> "a''" <> b ++ "'" ++ r.
Proof.
  intros b r Hb Hr H. pose proof (C09_string_read "" b r None Hb Hr) as Hc. rewrite <- H in Hc. vm_compute in Hc. discriminate.
Qed.
Example C09_case : str_text "it''s \' ok" /\ ~ starts_with "'" ", 2" /\ free_of "`" "a'b".
Proof.
  split; [|split; [intros [r [=]] | reflexivity]].
  repeat (apply ST_esc || apply ST_quotes || (apply ST_char; [discriminate | discriminate |]) || apply ST_nil).
Qed.
