(** Runs of the lexer: what repeated consumeToken calls give. Small specification
    vocabulary for the lexer properties, plus the facts behind them. *)
From Coq Require Import String Ascii List Arith Bool Lia.
From Verif Require Import Str Keyword Lexer LexSpec StrFacts LexFacts Items.
Import ListNotations.
Local Open Scope string_scope.
Local Open Scope nat_scope.

(** The lexer after [k] requests for a token: its state and the error of the last
    request ([NewLexer] is lexer.go:88-90, a request is lexer.go:359 [consumeToken]). *)
Fixpoint requests (inp : string) (k : nat) : lres (lstate * option string) :=
  match k with
  | O => LVal (lex_init, None)
  | S m => let* r := requests inp m in consume inp (fst r)
  end.

(** * Facts about one request *)

Definition tok_ok (s : string) (len : nat) (t : token) : Prop :=
  tpos t <= tend t /\ tend t <= len /\ tstr t = stake (tend t - tpos t) (sdrop (tpos t) s).

Definition lx_ok (s : string) (r : lexed) : Prop :=
  lx_len r <= String.length s /\
  match lx_tok r with
  | Some t => 0 < lx_len r /\ tok_ok s (lx_len r) t /\ lx_err r = None
  | None => True
  end.

Lemma lx_simple_ok n k s : 0 < n -> n <= String.length s -> lx_ok s (lx_simple n k s).
Proof.
  intros H0 H. unfold lx_ok, tok_ok. cbn. rewrite Nat.sub_0_r, ?sdrop_0. repeat split; lia.
Qed.

Lemma lx_error_ok n e s : n <= String.length s -> lx_ok s (lx_error n e).
Proof. intros H. split; [exact H | exact I]. Qed.

Lemma starts_hex_len s : starts_hex s = true -> 2 <= String.length s.
Proof. destruct s as [|a [|b r]]; try discriminate. cbn. lia. Qed.

Lemma num_tail_pos : forall n base a b c s k f, String.length s <= n ->
  num_tail base a b c false s = inr (k, f, true) -> 0 < k.
Proof.
  intros n base a b c s k f Hn H. destruct s as [|x r]; [discriminate|]. cbn [num_tail] in H.
  assert (B : forall j q, 0 < j -> nbump j q = inr (k, f, true) -> 0 < k).
  { intros j [e|[[k' f'] d']] Hj Hq; [discriminate|]. cbn in Hq. injection Hq as <- _ _. lia. }
  repeat match type of H with
  | (if ?c then _ else _) = _ => destruct c
  | (match ?c with _ => _ end) = _ => destruct c
  end; try discriminate; try (injection H as <- _ _; lia); try (eapply B; [|exact H]; lia).
  all: match type of H with _ = inr (_, _, ?x) => idtac end; try (injection H; discriminate).
Qed.

Lemma lex_number_ok s : s <> "" -> lx_ok s (lex_number s).
Proof.
  intros Hs. unfold lex_number.
  set (i := if head_is is_sign s then 1 else 0).
  set (hex := starts_hex (sdrop i s)). set (i2 := if hex then i + 2 else i).
  set (bs := if hex then 16 else 10). cbv zeta.
  destruct (num_tail bs false false false false (sdrop i2 s)) as [e|[[k fl] hn]] eqn:En; cbn [nbump].
  { apply lx_error_ok. lia. }
  destruct (head_is is_ident_part (sdrop (i2 + k) s) || negb hn) eqn:Eb; [apply lx_error_ok; lia|].
  apply orb_false_iff in Eb as [_ Eb]. destruct hn; [|discriminate].
  pose proof (num_tail_pos _ _ _ _ _ _ _ _ (le_n _) En) as Hk0.
  pose proof (num_tail_le _ _ _ _ _ _ _ _ _ _ (le_n _) En) as Hk. rewrite sdrop_length in Hk.
  assert (Hle : i2 + k <= String.length s) by lia.
  unfold lx_ok, tok_ok. cbn. rewrite Nat.sub_0_r, ?sdrop_0. repeat split; lia.
Qed.

Lemma lex_quoted_ok q s : s <> "" -> lx_ok s (lex_quoted q s).
Proof.
  intros Hs. destruct s as [|c r]; [congruence|]. unfold lex_quoted. cbn [sdrop]. rewrite ?sdrop_0.
  set (n := span _ r). destruct (sdrop n r) as [|d r2] eqn:E; [apply lx_error_ok; cbn; lia|].
  pose proof (sdrop_length n r) as Hl. rewrite E in Hl. cbn [String.length] in Hl.
  unfold lx_ok, tok_ok. cbn. replace (n - 0) with n by lia. rewrite ?sdrop_0. repeat split; lia.
Qed.

Lemma lex_string_ok s : s <> "" -> lx_ok s (lex_string s).
Proof.
  intros Hs. destruct s as [|c r]; [congruence|]. unfold lex_string. cbn [sdrop Nat.add]. rewrite ?sdrop_0.
  set (n := str_body r). destruct (sdrop n r) as [|d r2] eqn:E; [apply lx_error_ok; cbn; lia|].
  pose proof (sdrop_length n r) as Hl. rewrite E in Hl. cbn [String.length] in Hl.
  unfold lx_ok, tok_ok. cbn. replace (n - 0) with n by lia. rewrite ?sdrop_0. repeat split; lia.
Qed.

Lemma lex_bare_ok s : head_is (fun c => is_ident_start c || Ascii.eqb c "$") s = true -> lx_ok s (lex_bare s).
Proof.
  intros Hs. destruct s as [|c r]; [discriminate|]. cbn [head_is] in Hs. unfold lex_bare.
  cbn [head_is]. set (n := if Ascii.eqb c "$" then _ else _).
  assert (Hn : 0 < n <= String.length (String c r)).
  { unfold n. destruct (Ascii.eqb c "$") eqn:E.
    - cbn [sdrop]. rewrite ?sdrop_0. pose proof (span_le is_ident_part r). cbn. lia.
    - rewrite orb_false_r in Hs. cbn [span].
      assert (Hp : is_ident_part c = true).
      { unfold is_ident_part, is_ident_start in *. destruct (is_digit c), (is_lower c), (is_upper c), (Ascii.eqb c "_"); try reflexivity; discriminate Hs. }
      rewrite Hp. pose proof (span_le is_ident_part r). cbn. lia. }
  clearbody n. cbv zeta. unfold lx_ok, tok_ok. cbn [lx_len lx_tok lx_err tpos tend tstr]. rewrite Nat.sub_0_r, ?sdrop_0.
  repeat split; lia.
Qed.

Lemma lex_rest_ok c r : lx_ok (String c r) (lex_rest c (String c r)).
Proof.
  unfold lex_rest. destruct (is_ident_start c) eqn:E.
  - apply lex_bare_ok. cbn. now rewrite E.
  - destruct (128 <=? byte_of c); [apply lx_error_ok; lia|]. apply lx_simple_ok; cbn; lia.
Qed.

Lemma lex_token_ok prev s : lx_ok s (lex_token prev s).
Proof.
  destruct s as [|c r]; [split; [cbn; lia | exact I]|]. unfold lex_token.
  assert (Hne : String c r <> "") by discriminate.
  assert (H2 : forall p k, head_is p r = true -> lx_ok (String c r) (lx_simple 2 k (String c r))).
  { intros p k Hp. destruct r; [discriminate|]. apply lx_simple_ok; cbn; lia. }
  repeat match goal with
  | |- lx_ok _ (if ?b then _ else _) => destruct b eqn:?
  end; eauto using lex_number_ok, lex_quoted_ok, lex_string_ok, lex_rest_ok.
  - apply lex_bare_ok. cbn [head_is]. apply orb_true_iff. now right.
  - apply lx_simple_ok; cbn; lia.
Qed.

Lemma layout_le : forall s m k b, layout m s = (k, b) -> k <= String.length s.
Proof.
  assert (H : forall n s, String.length s <= n -> forall m k b, layout m s = (k, b) -> k <= String.length s).
  { induction n as [|n IH]; intros s Hn m k b H.
    { destruct s; cbn in Hn; [|lia]. destruct m; cbn in H; inversion H; subst; cbn; lia. }
    destruct s as [|c0 r0]; [destruct m; cbn in H; inversion H; subst; cbn; lia|].
    cbn [String.length] in Hn |- *.
    assert (Step : forall j m' r, j + String.length r <= S (String.length r0) -> String.length r <= n ->
      bump j (layout m' r) = (k, b) -> k <= S (String.length r0)).
    { intros j m' r Hj Hr Hb. destruct (layout m' r) as [k' b'] eqn:El. unfold bump in Hb. cbn in Hb.
      injection Hb as <- ->. apply IH in El; lia. }
    destruct m; cbn [layout] in H;
    repeat match type of H with
    | (if ?c then _ else _) = _ => destruct c
    | match ?r with "" => _ | String _ _ => _ end = _ => destruct r; cbn [String.length] in *
    end; try (refine (Step _ _ _ _ _ H); cbn [String.length] in *; lia); inversion H; lia. }
  intros s m k b. apply (H _ _ (le_n _)).
Qed.

Lemma lex1_ok prev s : lx_ok s (lex1 prev s).
Proof.
  unfold lex1. destruct (layout Plain s) as [k b] eqn:El. pose proof (layout_le _ _ _ _ El) as Hk.
  destruct b; [now apply lx_error_ok|].
  destruct (lex_token_ok prev (sdrop k s)) as [H1 H2]. rewrite sdrop_length in H1.
  unfold lx_ok, lx_shift. cbn [lx_len lx_tok lx_err]. split; [lia|].
  destruct (lx_tok _) as [t|]; cbn [option_map]; [|exact I].
  destruct H2 as (Hp & (Ha & Hb & Hc) & He). unfold tok_ok, shift_tok. cbn [tpos tend tstr].
  repeat split; try lia; [|exact He].
  rewrite Hc, sdrop_sdrop. f_equal. lia.
Qed.

(** A request that reads nothing reads nothing again. *)
Lemma consume_ok inp s : off s <= String.length inp ->
  exists s' e, consume inp s = LVal (s', e) /\
    off s <= off s' <= String.length inp /\
    match cur s' with
    | Some t => off s <= tpos t /\ tpos t <= tend t /\ tend t <= off s' /\ off s < off s' /\
                tstr t = String.substring (tpos t) (tend t - tpos t) inp /\ e = None
    | None => True
    end.
Proof.
  intros Ho. rewrite consume_eq. set (r := lex1 (cur s) (sdrop (off s) inp)).
  destruct (lex1_ok (cur s) (sdrop (off s) inp)) as [H1 H2]. fold r in H1, H2. rewrite sdrop_length in H1.
  eexists _, _. split; [reflexivity|]. cbn [off cur]. split; [lia|].
  destruct (lx_tok r) as [t|]; cbn [option_map]; [|exact I].
  destruct H2 as (Hp & (Ha & Hb & Hc) & He). cbn. repeat split; try lia; [|exact He].
  rewrite Hc, substring_stake, sdrop_sdrop. f_equal. lia.
Qed.

Lemma requests_ok inp k : exists s e, requests inp k = LVal (s, e) /\ off s <= String.length inp.
Proof.
  induction k as [|k (s & e & H & Hle)]; cbn [requests].
  - exists lex_init, None. split; [reflexivity | cbn; lia].
  - rewrite H. cbn. destruct (consume_ok inp s Hle) as (s' & e' & Hc & Hle' & _).
    exists s', e'. rewrite Hc. split; [reflexivity | lia].
Qed.

Lemma requests_mono inp i : forall d s e s' e',
  requests inp i = LVal (s, e) -> requests inp (d + i) = LVal (s', e') -> off s <= off s'.
Proof.
  induction d as [|d IH]; intros s e s' e' H H'.
  - cbn in H'. rewrite H in H'. injection H' as <- _. lia.
  - cbn [Nat.add requests] in H'. destruct (requests_ok inp (d + i)) as (s1 & e1 & H1 & Hle).
    rewrite H1 in H'. cbn in H'. destruct (consume_ok inp s1 Hle) as (s2 & e2 & Hc & Hle2 & _).
    rewrite Hc in H'. injection H' as <- _. specialize (IH _ _ _ _ H H1). lia.
Qed.

Lemma requests_tok inp k s e t : requests inp k = LVal (s, e) -> cur s = Some t ->
  exists k' s0 e0, k = S k' /\ requests inp k' = LVal (s0, e0) /\ off s0 <= tpos t /\ tpos t <= tend t /\
    tend t <= off s /\ off s0 < off s /\ off s <= String.length inp /\
    tstr t = String.substring (tpos t) (tend t - tpos t) inp /\ e = None.
Proof.
  intros H Ht. destruct k as [|k]; [cbn in H; injection H as <- <-; discriminate|].
  destruct (requests_ok inp k) as (s0 & e0 & H0 & Hle). exists k, s0, e0.
  cbn [requests] in H. rewrite H0 in H. cbn in H.
  destruct (consume_ok inp s0 Hle) as (s' & e' & Hc & Hle' & Hm). rewrite Hc in H. injection H as -> ->.
  rewrite Ht in Hm. intuition lia.
Qed.

(** A state without token whose next request does not move is final. *)
Lemma requests_fixed inp k s e s' e' :
  requests inp k = LVal (s, e) -> cur s = None ->
  requests inp (S k) = LVal (s', e') -> off s' = off s ->
  forall d, requests inp (S d + k) = LVal (s', e').
Proof.
  intros H Hn H1 Ho. assert (Hs : s' = s).
  { cbn in H1. rewrite H in H1. cbn in H1.
    destruct (requests_ok inp k) as (s0 & e0 & H0 & Hle). rewrite H in H0. injection H0 as <- <-.
    destruct (consume_ok inp s Hle) as (s2 & e2 & Hc & _ & Hm). rewrite Hc in H1. injection H1 as -> ->.
    destruct (cur s') eqn:Ec; [lia|]. destruct s, s'; cbn in *; congruence. }
  subst s'. induction d as [|d IH]; [exact H1|].
  cbn [Nat.add requests] in IH |- *. cbn [requests] in H1. rewrite H in H1. cbn [lbind fst] in H1.
  rewrite IH. cbn [lbind fst]. exact H1.
Qed.

(** Every run ends up repeating one answer. *)
Lemma requests_settle inp : forall n k s e,
  requests inp k = LVal (s, e) ->
  2 * (String.length inp - off s) + (match cur s with Some _ => 1 | None => 0 end) <= n ->
  exists N, k <= N <= k + n + 1 /\ forall d, requests inp (d + N) = requests inp N.
Proof.
  induction n as [n IH] using lt_wf_ind. intros k s e H Hm.
  destruct (requests_ok inp k) as (s0 & e0 & H0 & Hle). rewrite H in H0. injection H0 as <- <-.
  destruct (requests_ok inp (S k)) as (s1 & e1 & H1 & Hle1).
  destruct (consume_ok inp s Hle) as (s2 & e2 & Hc & Ho & Hm2).
  assert (Hx : s2 = s1 /\ e2 = e1).
  { cbn in H1. rewrite H in H1. cbn in H1. rewrite Hc in H1. injection H1; auto. }
  destruct Hx as [-> ->].
  destruct (Nat.eq_dec (off s1) (off s)) as [Heq|Hne].
  - destruct (cur s1) eqn:Ec1; [lia|]. destruct (cur s) eqn:Ec.
    + destruct (IH (n - 1)) with (k := S k) (s := s1) (e := e1) as (N & HN & Hd); try lia; [exact H1 | rewrite Ec1; lia|].
      exists N. split; [lia | exact Hd].
    + exists (S k). split; [lia|]. intros d.
      rewrite H1. replace (d + S k) with (S d + k) by lia.
      eapply requests_fixed; eauto.
  - destruct (IH (n - 1)) with (k := S k) (s := s1) (e := e1) as (N & HN & Hd).
    + destruct (cur s), (cur s1); lia.
    + exact H1.
    + destruct (cur s), (cur s1); lia.
    + exists N. split; [|exact Hd]. destruct (cur s), (cur s1); lia.
Qed.
