(** Proofs of the lexer properties stated in PropertiesLexer.v. *)
From Coq Require Import String Ascii List Arith Bool Lia.
From Verif Require Import Str Keyword Lexer LexSpec StrFacts LexFacts LexRun LexGrammar LexTokens.
Import ListNotations.
Local Open Scope string_scope.
Local Open Scope nat_scope.

#[local] Arguments is_keyword : simpl never.

Lemma settles inp : exists N, N <= 2 * String.length inp + 1 /\
  exists s e, cur s = None /\ forall k, N <= k -> requests inp k = LVal (s, e).
Proof.
  destruct (requests_settle inp (2 * String.length inp) 0 lex_init None eq_refl) as (N & HN & Hd).
  { cbn; lia. }
  exists N. split; [lia|]. destruct (requests_ok inp N) as (s & e & H & Hle). exists s, e. split.
  - destruct (cur s) as [t|] eqn:Ec; [|reflexivity].
    pose proof (Hd 1) as H1. rewrite H in H1. cbn [Nat.add] in H1.
    destruct (requests_tok _ _ _ _ _ H1 Ec) as (k & s0 & e0 & Hk & H0 & _ & _ & _ & Hlt & _).
    injection Hk as <-. rewrite H in H0. injection H0 as <- <-. lia.
  - intros k Hk. replace k with ((k - N) + N) by lia. now rewrite Hd, H.
Qed.

Lemma progress inp k s e : requests inp k = LVal (s, e) ->
  exists s' e', requests inp (S k) = LVal (s', e') /\
   (off s < off s'
    \/ (off s = off s' /\ cur s <> None /\ cur s' = None)
    \/ forall d, requests inp (S k + d) = LVal (s', e')).
Proof.
  intros H. destruct (requests_ok inp (S k)) as (s' & e' & H' & Hle). exists s', e'. split; [exact H'|].
  destruct (requests_ok inp k) as (s0 & e0 & H0 & Hle0). rewrite H in H0. injection H0 as <- <-.
  destruct (consume_ok inp s Hle0) as (s2 & e2 & Hc & Hm & Ht).
  assert (Hx : s2 = s' /\ e2 = e').
  { cbn in H'. rewrite H in H'. cbn in H'. rewrite Hc in H'. injection H'; auto. }
  destruct Hx as [-> ->].
  destruct (Nat.eq_dec (off s) (off s')) as [Heq|]; [|left; lia]. right.
  destruct (cur s') eqn:Ec'; [lia|]. destruct (cur s) eqn:Ec; [left; repeat split; congruence|]. right.
  intros d. replace (S k + d) with (S d + k) by lia. eapply requests_fixed; eauto.
Qed.

Lemma order inp i j si ei sj ej ti tj : i < j ->
  requests inp i = LVal (si, ei) -> requests inp j = LVal (sj, ej) -> cur si = Some ti -> cur sj = Some tj ->
  tend ti <= tpos tj /\ tend ti <= off si.
Proof.
  intros Hij Hi Hj Hti Htj.
  destruct (requests_tok _ _ _ _ _ Hi Hti) as (ki & s0 & e0 & _ & _ & H1 & H2 & H3 & _).
  destruct (requests_tok _ _ _ _ _ Hj Htj) as (kj & s1 & e1 & -> & H4 & H5 & H6 & H7 & _).
  pose proof (requests_mono inp i (kj - i) si ei s1 e1 Hi) as Hm.
  replace (kj - i + i) with kj in Hm by lia. specialize (Hm H4). lia.
Qed.

Lemma peek_ok inp s s' o : peek inp s = LVal (s', inl o) ->
  s' = s /\ exists s2, consume inp s = LVal (s2, None) /\ cur s2 = o.
Proof.
  unfold peek. destruct (consume inp s) as [[s2 [e|]]| |]; cbn; try discriminate.
  intros [= <- <-]. eauto.
Qed.

(** Error branches. *)
Lemma number_reject pre s prev :
  starts_number s = true -> (head_is is_digit s = true \/ has_precedence_token prev = false) ->
  (forall n base f r, number n base f -> number_end r -> s <> n ++ r) ->
  exists e, consume (pre ++ s) (mkL (String.length pre) prev) = LVal (mkL (String.length pre) None, Some e).
Proof.
  intros Hs Hp Hno.
  assert (Hc : consume (pre ++ s) (mkL (String.length pre) prev) = to_lout (String.length pre) (lex_number s)).
  { destruct s as [|c r]; [discriminate|]. cbn in Hs, Hp. destruct (is_digit c) eqn:Ed.
    - now apply consume_digit.
    - cbn in Hs. apply andb_true_iff in Hs as [H1 H2]. destruct Hp as [Hp|Hp]; [discriminate|]. now apply consume_signed. }
  rewrite Hc. destruct (lx_tok (lex_number s)) as [t|] eqn:Et.
  - destruct (lex_number_sound _ _ Hs Et) as (n & base & f & r & -> & H1 & H2). destruct (Hno n base f r H1 H2 eq_refl).
  - destruct (lex_number_err _ Et) as [e ->]. exists e. unfold to_lout. cbn. now rewrite Nat.add_0_r.
Qed.

Lemma number_accept pre n base f r prev : number n base f -> number_end r ->
  (head_is is_digit n = true \/ has_precedence_token prev = false) ->
  consume (pre ++ n ++ r) (mkL (String.length pre) prev) =
  LVal (mkL (String.length pre + String.length n)
         (Some (mkToken (String.length pre) (String.length pre + String.length n) (number_kind f) n base QNone)), None).
Proof.
  intros Hn Hr Hp.
  assert (Hh : forall sg m, sign sg -> (forall q, exists c u, m ++ q = String c u /\ is_digit c = true) ->
     n = sg ++ m -> exists c u, n ++ r = String c u /\ (is_digit c = true \/
        (is_sign c = true /\ head_is is_digit u = true /\ head_is is_digit n = false))).
  { intros sg m Hsg Hm ->. rewrite !sapp_assoc. destruct (Hm r) as (c & u & Hu & Hc). rewrite Hu. destruct Hsg; cbn [append].
    - exists c, u. auto.
    - exists "+"%char, (String c u). cbn. auto.
    - exists "-"%char, (String c u). cbn. auto. }
  assert (Hstart : exists c u, n ++ r = String c u /\ (is_digit c = true \/
        (is_sign c = true /\ head_is is_digit u = true /\ head_is is_digit n = false))).
  { destruct Hn as [sg hs Hs Hh2 | sg m f' Hs Hm | sg m f' x Hs Hm Hx]; eapply Hh; eauto; intros q.
    - cbn. eauto.
    - destruct (mantissa_head _ _ Hm) as (c & u & -> & Hc). cbn. eauto.
    - destruct (mantissa_head _ _ Hm) as (c & u & -> & Hc). cbn. eauto. }
  destruct Hstart as (c & u & Hcu & Hc).
  assert (He : consume (pre ++ n ++ r) (mkL (String.length pre) prev) = to_lout (String.length pre) (lex_number (n ++ r))).
  { rewrite Hcu. destruct Hc as [Hc | (H1 & H2 & H3)]; [now apply consume_digit|].
    destruct Hp as [Hp|Hp]; [congruence|]. now apply consume_signed. }
  rewrite He, (lex_number_complete n base f r Hn Hr). unfold to_lout, shift_tok. cbn. now rewrite Nat.add_0_r.
Qed.

Lemma string_accept pre b r prev : str_text b -> ~ starts_with "'" r ->
  consume (pre ++ "'" ++ b ++ "'" ++ r) (mkL (String.length pre) prev) =
  LVal (mkL (String.length pre + String.length b + 2)
         (Some (mkToken (String.length pre + 1) (String.length pre + 1 + String.length b) KString b 0 QNone)), None).
Proof.
  intros Hb Hr. cbn [append]. rewrite consume_squote, lex_string_complete by assumption.
  unfold to_lout, shift_tok. cbn [lx_len lx_tok lx_err option_map tpos tend tkind tstr tbase tquote].
  do 2 f_equal. f_equal; [lia|]. do 2 f_equal; lia.
Qed.

Lemma string_reject pre s prev : (forall b r, str_text b -> ~ starts_with "'" r -> s <> b ++ "'" ++ r) ->
  exists e, consume (pre ++ "'" ++ s) (mkL (String.length pre) prev) = LVal (mkL (String.length pre) None, Some e).
Proof.
  intros H. cbn [append]. rewrite consume_squote. unfold lex_string. cbn [sdrop Nat.add]. rewrite ?sdrop_0.
  pose proof (str_body_split _ s (le_n _)) as Hs. destruct (sdrop (str_body s) s) as [|c r].
  - eexists. unfold to_lout, lx_error. cbn. rewrite Nat.add_0_r. reflexivity.
  - destruct Hs as (b & Hb1 & Hb2 & Hb3 & _). destruct (H b r Hb2 Hb3 Hb1).
Qed.

Definition quote_code (q : ascii) : nat := if Ascii.eqb q "`" then QBackTicks else QDouble.

Lemma quoted_accept pre q b r prev : q = "`"%char \/ q = ch 34 -> free_of q b ->
  consume (pre ++ String q (b ++ String q r)) (mkL (String.length pre) prev) =
  LVal (mkL (String.length pre + String.length b + 2)
         (Some (mkToken (String.length pre + 1) (String.length pre + 1 + String.length b) KIdent b 0 (quote_code q))), None).
Proof.
  intros Hq Hb. rewrite consume_quote, lex_quoted_complete by assumption.
  unfold to_lout, shift_tok. cbn [lx_len lx_tok lx_err option_map tpos tend tkind tstr tbase tquote].
  do 2 f_equal. f_equal; [lia|]. unfold quote_code, backtick. do 2 f_equal; lia.
Qed.

Lemma quoted_reject pre q s prev : q = "`"%char \/ q = ch 34 -> free_of q s ->
  exists e, consume (pre ++ String q s) (mkL (String.length pre) prev) = LVal (mkL (String.length pre + 1) None, Some e).
Proof.
  intros Hq Hs. rewrite consume_quote by exact Hq. rewrite lex_quoted_none.
  - eexists. reflexivity.
  - intros b r Hb ->. unfold free_of in Hs. rewrite sall_app in Hs. apply andb_true_iff in Hs as [_ Hs]. cbn in Hs.
    rewrite Ascii.eqb_refl in Hs. discriminate.
Qed.

Lemma word_accept pre w r prev : word w -> word_end r ->
  consume (pre ++ w ++ r) (mkL (String.length pre) prev) =
  LVal (mkL (String.length pre + String.length w)
         (Some (mkToken (String.length pre) (String.length pre + String.length w)
                  (if is_keyword (upper w) then KKeyword else KIdent) w 0 QUnquoted)), None).
Proof.
  intros Hw Hr. rewrite consume_word, lex_bare_complete by assumption. unfold to_lout, shift_tok. cbn [lx_len lx_tok lx_err option_map tpos tend tkind tstr tbase tquote].
  now rewrite Nat.add_0_r.
Qed.

Lemma str_in_In x l : str_in x l = true <-> In x l.
Proof.
  induction l as [|y l IH]; cbn; [split; [discriminate | tauto]|].
  rewrite orb_true_iff, IH, String.eqb_eq. intuition congruence.
Qed.

Lemma is_keyword_In w : is_keyword w = true <-> In w keywords.
Proof. apply str_in_In. Qed.
