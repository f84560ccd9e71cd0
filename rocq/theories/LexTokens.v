(** The tokens of a run, by class. *)
From Coq Require Import String Ascii List Arith Bool Lia.
From Verif Require Import Str Keyword Lexer LexSpec StrFacts LexFacts LexRun LexGrammar.
Import ListNotations.
Local Open Scope string_scope.
Local Open Scope nat_scope.

#[local] Arguments is_keyword : simpl never.

Lemma lex_rest_inv c r t : lx_tok (lex_rest c (String c r)) = Some t ->
  (is_ident_start c = true /\ lex_rest c (String c r) = lex_bare (String c r)) \/
  (is_ident_start c = false /\ byte_of c < 128 /\ lex_rest c (String c r) = lx_simple 1 (String c "") (String c r)).
Proof.
  unfold lex_rest. destruct (is_ident_start c); [auto|]. destruct (Nat.leb_spec 128 (byte_of c)); [discriminate|]. auto.
Qed.

Lemma lex_token_inv prev s t : lx_tok (lex_token prev s) = Some t ->
   (starts_number s = true /\ lex_token prev s = lex_number s)
   \/ (exists q r, s = String q r /\ (q = backtick \/ q = dquote) /\ lex_token prev s = lex_quoted q s)
   \/ (exists r, s = String squote r /\ lex_token prev s = lex_string s)
   \/ (head_is (fun c => is_ident_start c || Ascii.eqb c "$") s = true /\ lex_token prev s = lex_bare s)
   \/ (exists n k, (n = 1 \/ n = 2) /\ String.length k <= 2 /\ lex_token prev s = lx_simple n k s).
Proof.
  destruct s as [|c r]; [discriminate|]. intros Ht.
  assert (Hr : lex_token prev (String c r) = lex_rest c (String c r) ->
     (head_is (fun c => is_ident_start c || Ascii.eqb c "$") (String c r) = true /\ lex_token prev (String c r) = lex_bare (String c r))
     \/ (exists n k, (n = 1 \/ n = 2) /\ String.length k <= 2 /\ lex_token prev (String c r) = lx_simple n k (String c r))).
  { intros He. rewrite He in Ht. apply lex_rest_inv in Ht as [[H1 H2] | (H1 & H2 & H3)].
    - left. split; [cbn; now rewrite H1 | now rewrite He].
    - right. exists 1, (String c ""). cbn [String.length]. split; [auto|]. split; [lia|]. now rewrite He. }
  unfold lex_token in *.
  assert (Hl2 : String.length (stake 2 (String c r)) <= 2) by apply stake_length_le.
  destruct (_ || Ascii.eqb c "|") eqn:C1.
  { destruct (head_is _ r) eqn:E; [|tauto]. do 4 right. exists 2, (stake 2 (String c r)). auto. }
  destruct (is_sign c) eqn:C2.
  { destruct (negb _ && head_is is_digit r) eqn:E.
    - left. apply andb_true_iff in E as [_ E]. cbn. rewrite C2, E. rewrite orb_true_r. auto.
    - destruct (head_is (fun d => Ascii.eqb d ">") r) eqn:E2; [|tauto]. do 4 right. exists 2, "->". auto. }
  destruct (is_digit c) eqn:C3; [left; cbn; rewrite C3; auto|].
  destruct (Ascii.eqb c backtick || Ascii.eqb c dquote) eqn:C4.
  { right; left. exists c, r. repeat split. apply orb_true_iff in C4 as [C4|C4]; apply Ascii.eqb_eq in C4; auto. }
  destruct (Ascii.eqb c "$") eqn:C5.
  { do 3 right; left. cbn [head_is]. rewrite C5, orb_true_r. auto. }
  destruct (Ascii.eqb c squote) eqn:C6.
  { right; right; left. apply Ascii.eqb_eq in C6. subst c. eauto. }
  destruct (Ascii.eqb c ":") eqn:C7.
  { destruct (head_is (fun d => Ascii.eqb d ":") r) eqn:E2; [|tauto]. do 4 right. exists 2, "::". auto. }
  destruct (Ascii.eqb c ".") eqn:C8; [|tauto].
  do 4 right. exists 1, ".". cbn [String.length]. auto.
Qed.

(** The request that made a token. *)
Lemma requests_lex inp k s e t : requests inp k = LVal (s, e) -> cur s = Some t ->
  exists o prev t0, lx_tok (lex_token prev (sdrop o inp)) = Some t0 /\ t = shift_tok o t0 /\ o <= String.length inp.
Proof.
  intros H Ht. destruct k as [|k]; [cbn in H; injection H as <- <-; discriminate|].
  destruct (requests_ok inp k) as (s0 & e0 & H0 & Hle). cbn [requests] in H. rewrite H0 in H. cbn [lbind fst] in H.
  rewrite consume_eq in H. unfold to_lout in H. injection H as Hs _. subst s. cbn [cur] in Ht.
  unfold lex1 in Ht. destruct (layout Plain (sdrop (off s0) inp)) as [j b] eqn:El. destruct b; [discriminate|].
  pose proof (layout_le _ _ _ _ El) as Hj. rewrite sdrop_length in Hj.
  unfold lx_shift in Ht. cbn [lx_tok] in Ht.
  destruct (lx_tok (lex_token (cur s0) (sdrop j (sdrop (off s0) inp)))) as [t0|] eqn:Et; [|discriminate].
  cbn in Ht. injection Ht as <-. exists (off s0 + j), (cur s0), t0. rewrite sdrop_sdrop in Et. split; [exact Et|]. split; [|lia].
  unfold shift_tok. cbn. f_equal; lia.
Qed.

Lemma short_kind k x : String.length k <= 2 -> In x [KIdent; KKeyword; KInt; KFloat; KString] -> k <> x.
Proof. intros H Hx ->. cbn in Hx. repeat (destruct Hx as [<- | Hx]; [cbn in H; lia|]). destruct Hx. Qed.

(** The number read at the start of a text. *)
Lemma number_tok s t : starts_number s = true -> lx_tok (lex_number s) = Some t ->
  exists n base f r, s = n ++ r /\ number n base f /\ number_end r /\
    t = mkToken 0 (String.length n) (number_kind f) n base QNone.
Proof.
  intros H Ht. destruct (lex_number_sound _ _ H Ht) as (n & base & f & r & -> & H1 & H2).
  exists n, base, f, r. repeat split; auto. rewrite (lex_number_complete n base f r H1 H2) in Ht. now injection Ht as <-.
Qed.

Lemma number_kind_iff f : (number_kind f = KFloat <-> f = true) /\ (number_kind f = KInt <-> f = false).
Proof. destruct f; cbn; split; split; intros; try reflexivity; discriminate. Qed.

Lemma stake_at o inp n r : o <= String.length inp -> sdrop o inp = n ++ r -> inp = stake o inp ++ n ++ r /\ String.length (stake o inp) = o.
Proof. intros Ho H. rewrite <- H, stake_sdrop, stake_length by exact Ho. auto. Qed.

(** Every number token of a run. *)
Lemma run_number inp k s e t : requests inp k = LVal (s, e) -> cur s = Some t -> tkind t = KInt \/ tkind t = KFloat ->
  exists pre f r, inp = pre ++ tstr t ++ r /\ String.length pre = tpos t /\ number (tstr t) (tbase t) f /\
    tkind t = number_kind f /\ number_end r.
Proof.
  intros H Hc Hk. destruct (requests_lex _ _ _ _ _ H Hc) as (o & prev & t0 & Ht & -> & Ho). cbn in Hk |- *.
  pose proof (lex_token_inv _ _ _ Ht) as [[H1 H2] | [(q & r & H1 & H2 & H3) | [(r & H1 & H2) | [[H1 H2] | (n & k0 & H1 & H2 & H3)]]]].
  - rewrite H2 in Ht. destruct (number_tok _ _ H1 Ht) as (n & base & f & r & Hs & Hn & Hr & ->). cbn.
    destruct (stake_at o inp n r Ho Hs) as [Hi Hl]. exists (stake o inp), f, r. rewrite Nat.add_0_r. auto 6.
  - rewrite H3 in Ht. unfold lex_quoted in Ht. destruct (sdrop _ (sdrop 1 _)); [discriminate|]. injection Ht as <-. cbn in Hk. destruct Hk; discriminate.
  - rewrite H2 in Ht. unfold lex_string in Ht. destruct (sdrop _ _); [discriminate|]. injection Ht as <-. cbn in Hk. destruct Hk; discriminate.
  - rewrite H2 in Ht. unfold lex_bare in Ht. injection Ht as <-. cbn in Hk. destruct (is_keyword _); destruct Hk; discriminate.
  - rewrite H3 in Ht. injection Ht as <-. cbn in Hk. destruct Hk as [Hk|Hk]; (eapply short_kind in Hk; [destruct Hk | exact H2 | cbn; tauto]).
Qed.

(** Every string token of a run. *)
Lemma run_string inp k s e t : requests inp k = LVal (s, e) -> cur s = Some t -> tkind t = KString ->
  exists pre r, inp = pre ++ "'" ++ tstr t ++ "'" ++ r /\ S (String.length pre) = tpos t /\ str_text (tstr t) /\ ~ starts_with "'" r.
Proof.
  intros H Hc Hk. destruct (requests_lex _ _ _ _ _ H Hc) as (o & prev & t0 & Ht & -> & Ho). cbn in Hk |- *.
  pose proof (lex_token_inv _ _ _ Ht) as [[H1 H2] | [(q & r & H1 & H2 & H3) | [(r & H1 & H2) | [[H1 H2] | (n & k0 & H1 & H2 & H3)]]]].
  - rewrite H2 in Ht. destruct (number_tok _ _ H1 Ht) as (n & base & f & r & Hs & Hn & Hr & ->). cbn in Hk. destruct f; discriminate.
  - rewrite H3 in Ht. unfold lex_quoted in Ht. destruct (sdrop _ (sdrop 1 _)); [discriminate|]. injection Ht as <-. discriminate.
  - rewrite H2, H1 in Ht. destruct (lex_string_sound _ _ Ht) as (b & r2 & -> & Hb & Hr & Htx & Hp).
    destruct (stake_at o inp "'" (b ++ String "'" r2) Ho) as [Hi Hl]; [exact H1|].
    exists (stake o inp), r2. rewrite Htx, Hp, Hl. repeat split; auto. lia.
  - rewrite H2 in Ht. unfold lex_bare in Ht. injection Ht as <-. cbn in Hk. destruct (is_keyword _); discriminate.
  - rewrite H3 in Ht. injection Ht as <-. cbn in Hk. eapply short_kind in Hk; [destruct Hk | exact H2 | cbn; tauto].
Qed.

(** Every quoted identifier of a run. *)
Lemma run_quoted inp k s e t : requests inp k = LVal (s, e) -> cur s = Some t -> tquote t = QBackTicks \/ tquote t = QDouble ->
  exists pre q r, inp = pre ++ String q (tstr t ++ String q r) /\ S (String.length pre) = tpos t /\ free_of q (tstr t) /\
    tkind t = KIdent /\ (q = "`"%char /\ tquote t = QBackTicks \/ q = ch 34 /\ tquote t = QDouble).
Proof.
  intros H Hc Hk. destruct (requests_lex _ _ _ _ _ H Hc) as (o & prev & t0 & Ht & -> & Ho). cbn in Hk |- *.
  pose proof (lex_token_inv _ _ _ Ht) as [[H1 H2] | [(q & r & H1 & H2 & H3) | [(r & H1 & H2) | [[H1 H2] | (n & k0 & H1 & H2 & H3)]]]].
  - rewrite H2 in Ht. destruct (number_tok _ _ H1 Ht) as (n & base & f & r & Hs & Hn & Hr & ->). cbn in Hk. destruct Hk; discriminate.
  - rewrite H3, H1 in Ht. destruct (lex_quoted_sound _ _ _ Ht) as (b & r2 & -> & Hb & Htx & Hp).
    destruct (stake_at o inp (String q "") (b ++ String q r2) Ho) as [Hi Hl]; [exact H1|].
    rewrite (lex_quoted_complete q b r2 Hb) in Ht. injection Ht as <-. cbn.
    exists (stake o inp), q, r2. rewrite Hl. cbn in Hi. repeat split; auto; [lia|].
    destruct H2 as [-> | ->]; [left | right]; split; reflexivity.
  - rewrite H2 in Ht. unfold lex_string in Ht. destruct (sdrop _ _); [discriminate|]. injection Ht as <-. cbn in Hk. destruct Hk; discriminate.
  - rewrite H2 in Ht. unfold lex_bare in Ht. injection Ht as <-. cbn in Hk. destruct Hk; discriminate.
  - rewrite H3 in Ht. injection Ht as <-. cbn in Hk. destruct Hk; discriminate.
Qed.

(** A bare word. *)
Definition word (w : string) : Prop :=
  match w with String c r => (is_ident_start c = true \/ c = "$"%char) /\ sall is_ident_part r = true | "" => False end.

Definition word_end (s : string) : Prop :=
  match s with "" => True | String c _ => is_ident_part c = false end.

Lemma start_part c : is_ident_start c = true -> is_ident_part c = true.
Proof.
  unfold is_ident_start, is_ident_part. destruct (is_digit c), (is_lower c), (is_upper c), (Ascii.eqb c "_"); cbn; try reflexivity; discriminate.
Qed.

Lemma start_not_dollar c : is_ident_start c = true -> Ascii.eqb c "$" = false.
Proof. intros H. destruct (Ascii.eqb_spec c "$"); [subst; discriminate | reflexivity]. Qed.

Lemma lex_bare_complete w r : word w -> word_end r ->
  lex_bare (w ++ r) = mkLx (String.length w)
    (Some (mkToken 0 (String.length w) (if is_keyword (upper w) then KKeyword else KIdent) w 0 QUnquoted)) None.
Proof.
  intros Hw Hr. destruct w as [|c w]; [destruct Hw|]. destruct Hw as [Hc Hw].
  assert (Hh : head_is is_ident_part r = false) by (destruct r; [reflexivity | exact Hr]).
  assert (Hn : (if head_is (fun d => Ascii.eqb d "$") (String c w ++ r) then S (span is_ident_part (sdrop 1 (String c w ++ r)))
                else span is_ident_part (String c w ++ r)) = String.length (String c w)).
  { cbn [append head_is]. destruct (Ascii.eqb c "$") eqn:E.
    - cbn [sdrop]. rewrite ?sdrop_0, span_app by auto. reflexivity.
    - destruct Hc as [Hc | ->]; [|discriminate]. cbn [span]. rewrite (start_part _ Hc). now rewrite span_app. }
  unfold lex_bare. rewrite Hn. rewrite stake_app_exact. reflexivity.
Qed.

Lemma lex_bare_sound s : head_is (fun c => is_ident_start c || Ascii.eqb c "$") s = true ->
  exists w r, s = w ++ r /\ word w /\ word_end r.
Proof.
  destruct s as [|c s]; [discriminate|]. cbn. intros Hc.
  destruct (span_split is_ident_part s) as (a & r & -> & Ha & Hr & _).
  exists (String c a), r. split; [reflexivity|]. split.
  - split; [|exact Ha]. apply orb_true_iff in Hc as [Hc|Hc]; [auto|]. apply Ascii.eqb_eq in Hc. auto.
  - destruct r; [exact I | exact Hr].
Qed.

(** Every bare word of a run. *)
Lemma run_word inp k s e t : requests inp k = LVal (s, e) -> cur s = Some t -> tquote t = QUnquoted ->
  exists pre r, inp = pre ++ tstr t ++ r /\ String.length pre = tpos t /\ word (tstr t) /\ word_end r /\
    tkind t = (if is_keyword (upper (tstr t)) then KKeyword else KIdent).
Proof.
  intros H Hc Hk. destruct (requests_lex _ _ _ _ _ H Hc) as (o & prev & t0 & Ht & -> & Ho). cbn in Hk |- *.
  pose proof (lex_token_inv _ _ _ Ht) as [[H1 H2] | [(q & r & H1 & H2 & H3) | [(r & H1 & H2) | [[H1 H2] | (n & k0 & H1 & H2 & H3)]]]].
  - rewrite H2 in Ht. destruct (number_tok _ _ H1 Ht) as (n & base & f & r & Hs & Hn & Hr & ->). discriminate.
  - rewrite H3 in Ht. unfold lex_quoted in Ht. destruct (sdrop _ (sdrop 1 _)); [discriminate|]. injection Ht as <-. cbn in Hk. destruct (Ascii.eqb q backtick); discriminate.
  - rewrite H2 in Ht. unfold lex_string in Ht. destruct (sdrop _ _); [discriminate|]. injection Ht as <-. discriminate.
  - rewrite H2 in Ht. destruct (lex_bare_sound _ H1) as (w & r & Hs & Hw & Hr). rewrite Hs, (lex_bare_complete w r Hw Hr) in Ht.
    injection Ht as <-. cbn. destruct (stake_at o inp w r Ho Hs) as [Hi Hl]. exists (stake o inp), r.
    rewrite Nat.add_0_r. auto 6.
  - rewrite H3 in Ht. injection Ht as <-. discriminate.
Qed.

(** Tokens of kind keyword are bare words. *)
Lemma run_keyword inp k s e t : requests inp k = LVal (s, e) -> cur s = Some t ->
  tkind t = KKeyword <-> (tquote t = QUnquoted /\ is_keyword (upper (tstr t)) = true).
Proof.
  intros H Hc. destruct (requests_lex _ _ _ _ _ H Hc) as (o & prev & t0 & Ht & -> & Ho). cbn.
  pose proof (lex_token_inv _ _ _ Ht) as [[H1 H2] | [(q & r & H1 & H2 & H3) | [(r & H1 & H2) | [[H1 H2] | (n & k0 & H1 & H2 & H3)]]]].
  - rewrite H2 in Ht. destruct (number_tok _ _ H1 Ht) as (n & base & f & r & Hs & Hn & Hr & ->). cbn. destruct f; split; try discriminate; intros [? _]; discriminate.
  - rewrite H3 in Ht. unfold lex_quoted in Ht. destruct (sdrop _ (sdrop 1 _)); [discriminate|]. injection Ht as <-. cbn.
    split; [discriminate|]. destruct (Ascii.eqb q backtick); intros [? _]; discriminate.
  - rewrite H2 in Ht. unfold lex_string in Ht. destruct (sdrop _ _); [discriminate|]. injection Ht as <-. cbn. split; [discriminate|]. intros [? _]; discriminate.
  - rewrite H2 in Ht. unfold lex_bare in Ht. injection Ht as <-. cbn. destruct (is_keyword _); split; auto; try discriminate. intros [_ ?]; discriminate.
  - rewrite H3 in Ht. injection Ht as <-. cbn. split; [|intros [? _]; discriminate]. intros Hk.
    eapply short_kind in Hk; [destruct Hk | exact H2 | cbn; tauto].
Qed.

(** * Requests at a known place *)

Lemma layout_none c r : byte_of c < 128 -> ws1 c = false ->
  (c = "-"%char -> head_is (fun d => Ascii.eqb d "-") r = false) ->
  (c = "/"%char -> head_is (fun d => Ascii.eqb d "*") r = false) ->
  layout Plain (String c r) = (0, false).
Proof.
  intros Hb Hw Hm Hs. cbn [layout]. rewrite Hw. destruct r as [|d r]; [reflexivity|].
  assert (H2 : forall x, ws2 c x = false) by (intros x; unfold ws2; destruct (Nat.eqb_spec (byte_of c) 194); [lia | reflexivity]).
  assert (H3 : forall x y, ws3 c x y = false) by
    (intros x y; unfold ws3; destruct (Nat.eqb_spec (byte_of c) 225); [lia|]; destruct (Nat.eqb_spec (byte_of c) 226); [lia|];
     destruct (Nat.eqb_spec (byte_of c) 227); [lia | reflexivity]).
  cbn in Hm, Hs. replace (Ascii.eqb c "-" && Ascii.eqb d "-") with false
    by (destruct (Ascii.eqb_spec c "-"); [rewrite Hm by assumption|]; reflexivity).
  replace (Ascii.eqb c "/" && Ascii.eqb d "*") with false
    by (destruct (Ascii.eqb_spec c "/"); [rewrite Hs by assumption|]; reflexivity).
  rewrite H2. destruct r as [|x r]; rewrite ?H3; reflexivity.
Qed.

Lemma consume_at pre s prev : layout Plain s = (0, false) ->
  consume (pre ++ s) (mkL (String.length pre) prev) = to_lout (String.length pre) (lex_token prev s).
Proof.
  intros Hl. rewrite consume_eq. cbn [off cur]. rewrite sdrop_app_exact. unfold lex1. rewrite Hl, sdrop_0.
  unfold lx_shift, to_lout. cbn. destruct (lx_tok _) as [t|]; cbn; [|reflexivity]. reflexivity.
Qed.

(** Bytes of the character classes. *)
Lemma digit_bytes c : is_digit c = true -> 48 <= byte_of c <= 57.
Proof. unfold is_digit. intros H. apply andb_true_iff in H as [H1 H2]. apply Nat.leb_le in H1, H2. lia. Qed.

Lemma start_bytes c : is_ident_start c = true -> 65 <= byte_of c <= 122.
Proof.
  unfold is_ident_start, is_lower, is_upper. intros H. apply orb_true_iff in H as [H|H].
  - apply orb_true_iff in H as [H|H]; apply andb_true_iff in H as [H1 H2]; apply Nat.leb_le in H1, H2; lia.
  - apply Ascii.eqb_eq in H. subst c. cbn. lia.
Qed.

Lemma ws1_bytes c : 33 <= byte_of c -> ws1 c = false.
Proof.
  intros H. unfold ws1. destruct (Nat.leb_spec (byte_of c) 13); [lia|]. destruct (Nat.eqb_spec (byte_of c) 32); [lia|]. now rewrite andb_false_r.
Qed.

Lemma byte_neq c d : byte_of c <> byte_of d -> Ascii.eqb c d = false.
Proof. intros H. apply Ascii.eqb_neq. congruence. Qed.

Lemma consume_digit pre c r prev : is_digit c = true ->
  consume (pre ++ String c r) (mkL (String.length pre) prev) = to_lout (String.length pre) (lex_number (String c r)).
Proof.
  intros Hc. pose proof (digit_bytes _ Hc) as Hb. rewrite consume_at.
  - unfold lex_token. unfold is_sign. rewrite Hc.
    rewrite (byte_neq c ">"), (byte_neq c "<"), (byte_neq c "!"), (byte_neq c "="), (byte_neq c "|"), (byte_neq c "+"), (byte_neq c "-") by (cbn; lia).
    reflexivity.
  - apply layout_none; [lia | apply ws1_bytes; lia | |]; intros ->; discriminate.
Qed.

Lemma consume_signed pre c r prev : is_sign c = true -> head_is is_digit r = true -> has_precedence_token prev = false ->
  consume (pre ++ String c r) (mkL (String.length pre) prev) = to_lout (String.length pre) (lex_number (String c r)).
Proof.
  intros Hc Hr Hp. rewrite consume_at.
  - unfold lex_token. rewrite Hc, Hp, Hr. unfold is_sign in Hc. apply orb_true_iff in Hc as [Hc|Hc]; apply Ascii.eqb_eq in Hc; subst c; reflexivity.
  - unfold is_sign in Hc. apply orb_true_iff in Hc as [Hc|Hc]; apply Ascii.eqb_eq in Hc; subst c; apply layout_none; try (cbn; lia); try reflexivity;
    intros; try discriminate. destruct r; [discriminate|]. cbn in Hr |- *. apply byte_neq. apply digit_bytes in Hr. cbn. lia.
Qed.

Lemma consume_squote pre s prev :
  consume (pre ++ String "'" s) (mkL (String.length pre) prev) = to_lout (String.length pre) (lex_string (String "'" s)).
Proof.
  rewrite consume_at; [reflexivity|]. apply layout_none; try (cbn; lia); try reflexivity; discriminate.
Qed.

Lemma consume_quote pre q s prev : q = "`"%char \/ q = ch 34 ->
  consume (pre ++ String q s) (mkL (String.length pre) prev) = to_lout (String.length pre) (lex_quoted q (String q s)).
Proof.
  intros [-> | ->]; (rewrite consume_at; [reflexivity|]); apply layout_none; try (vm_compute; lia); try reflexivity; discriminate.
Qed.

Lemma consume_word pre w r prev : word w -> word_end r ->
  consume (pre ++ w ++ r) (mkL (String.length pre) prev) = to_lout (String.length pre) (lex_bare (w ++ r)).
Proof.
  intros Hw Hr. destruct w as [|c w]; [destruct Hw|]. destruct Hw as [[Hc | ->] Hw]; cbn [append].
  - pose proof (start_bytes _ Hc) as Hb.
    assert (Hd : is_digit c = false) by (destruct (is_digit c) eqn:E; [apply digit_bytes in E; lia | reflexivity]).
    rewrite consume_at; [|apply layout_none; [lia | apply ws1_bytes; lia | |]; intros ->; discriminate].
    assert (Hx : forall d, is_ident_start d = false -> Ascii.eqb c d = false)
      by (intros d Hx; apply Ascii.eqb_neq; intros ->; congruence).
    unfold lex_token, is_sign. rewrite Hd.
    rewrite (Hx ">"%char), (Hx "<"%char), (Hx "!"%char), (Hx "="%char), (Hx "|"%char), (Hx "+"%char), (Hx "-"%char),
      (Hx backtick), (Hx dquote), (Hx "$"%char), (Hx squote), (Hx ":"%char), (Hx "."%char) by reflexivity.
    cbn [orb]. unfold lex_rest. now rewrite Hc.
  - rewrite consume_at; [reflexivity|]. apply layout_none; try (cbn; lia); try reflexivity; discriminate.
Qed.
