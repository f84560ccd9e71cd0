(** The items of an input always exist; they are the answers of the lexer in order. *)
From Coq Require Import String Ascii List Arith Bool Lia.
From Verif Require Import Str Keyword Lexer LexSpec StrFacts LexFacts LexRun LexGrammar LexTokens Ast Prog Items Parser.
Import ListNotations.
Local Open Scope nat_scope.

(** [l] lists the states after [(s, e)], up to the final one, which repeats for ever. *)
Fixpoint chain (inp : string) (s : lstate) (e : option string) (l : list (lstate * option string)) : Prop :=
  match l with
  | [] => cur s = None /\ consume inp s = LVal (s, e)
  | (s', e') :: r => consume inp s = LVal (s', e') /\ chain inp s' e' r
  end.

Definition weight (inp : string) (s : lstate) : nat :=
  2 * (String.length inp - off s) + match cur s with Some _ => 1 | None => 0 end.

Lemma err_eqb_eq a b : err_eqb a b = true <-> a = b.
Proof.
  destruct a as [a|], b as [b|]; cbn; try (split; congruence). rewrite String.eqb_eq. split; congruence.
Qed.

Lemma states_from_ok inp : forall n s e, off s <= String.length inp -> weight inp s + 2 <= n ->
  exists l, states_from n inp s e = LVal l /\ chain inp s e l.
Proof.
  induction n as [|n IH]; intros s e Ho Hn; [lia|]. cbn [states_from].
  destruct (consume_ok inp s Ho) as (s' & e' & Hc & Ho' & Ht). rewrite Hc. cbn [lbind].
  destruct (stuck s s' e e') eqn:Es.
  - exists []. split; [reflexivity|]. unfold stuck in Es. destruct (cur s) eqn:Ecs; [discriminate|].
    apply andb_prop in Es as [E1 E2]. apply Nat.eqb_eq in E1. apply err_eqb_eq in E2. subst e'.
    assert (s' = s). { destruct s as [o c], s' as [o' c']. cbn in *. subst. destruct c'; [lia|]. reflexivity. }
    subst s'. split; [exact Ecs | exact Hc].
  - destruct (Nat.eq_dec (off s) (off s')) as [E|E].
    + destruct (cur s') as [t|] eqn:Ecs'; [lia|]. destruct (cur s) as [t|] eqn:Ecs.
      * destruct (IH s' e') as (l & Hl & Hch); [lia | unfold weight in *; rewrite Ecs, Ecs' in *; lia |].
        exists ((s', e') :: l). rewrite Hl. split; [reflexivity|]. split; assumption.
      * assert (s' = s). { destruct s as [o c], s' as [o' c']. cbn in *. subst. reflexivity. } subst s'.
        destruct n as [|n]; [lia|]. exists [(s, e')]. cbn [states_from]. rewrite Hc. cbn [lbind].
        assert (Hst : stuck s s e' e' = true).
        { unfold stuck. rewrite Ecs, Nat.eqb_refl. now apply err_eqb_eq. }
        rewrite Hst. repeat split; try assumption.
    + destruct (IH s' e') as (l & Hl & Hch); [lia | unfold weight in *; destruct (cur s), (cur s'); lia |].
      exists ((s', e') :: l). rewrite Hl. split; [reflexivity|]. split; assumption.
Qed.

Lemma states_ok inp : exists l, states inp = LVal ((lex_init, None) :: l) /\ chain inp lex_init None l.
Proof.
  unfold states. destruct (states_from_ok inp (2 * String.length inp + 4) lex_init None) as (l & Hl & Hc).
  - cbn. lia.
  - unfold weight. cbn. lia.
  - exists l. rewrite Hl. split; [reflexivity | exact Hc].
Qed.

Lemma chain_requests inp : forall l k s e, requests inp k = LVal (s, e) -> chain inp s e l ->
  forall d, requests inp (d + k) = LVal (nth d ((s, e) :: l) (last l (s, e))).
Proof.
  induction l as [|[s' e'] l IH]; intros k s e Hr Hc d.
  - destruct Hc as [_ Hc]. assert (H : forall d, requests inp (d + k) = LVal (s, e)).
    { induction d0 as [|d0 IHd]; [exact Hr|]. cbn [Nat.add requests]. rewrite IHd. exact Hc. }
    rewrite H. destruct d as [|[|d]]; reflexivity.
  - destruct Hc as [Hc Hch]. destruct d as [|d]; [exact Hr|].
    replace (S d + k) with (d + S k) by lia.
    assert (Hr' : requests inp (S k) = LVal (s', e')) by (cbn [requests]; rewrite Hr; exact Hc).
    rewrite (IH (S k) s' e' Hr' Hch d). f_equal. cbn [nth].
    replace (last ((s', e') :: l) (s, e)) with (last l (s', e')); [reflexivity|].
    clear. revert s' e'. induction l as [|[s2 e2] l IH]; intros s' e'; [reflexivity|].
    cbn [last]. rewrite IH. destruct l; reflexivity.
Qed.

(** The [k]-th state is the answer to the [k]-th request; past the end, the last one repeats. *)
Lemma states_requests inp l : states inp = LVal l ->
  forall k, requests inp k = LVal (nth k l (last l (lex_init, None))).
Proof.
  intros H k. destruct (states_ok inp) as (l' & Hl & Hc). rewrite Hl in H. injection H as <-.
  pose proof (chain_requests inp l' 0 lex_init None eq_refl Hc k) as Hr. rewrite Nat.add_0_r in Hr. rewrite Hr.
  f_equal. destruct l'; reflexivity.
Qed.

Lemma chain_last inp : forall l s e, chain inp s e l -> cur (fst (last l (s, e))) = None.
Proof.
  induction l as [|[s' e'] l IH]; intros s e H; [exact (proj1 H)|]. destruct H as [_ H]. apply IH in H.
  replace (last ((s', e') :: l) (s, e)) with (last l (s', e')); [exact H|].
  clear. destruct l as [|x l]; [reflexivity|]. change (last (x :: l) (s', e') = last (x :: l) (s, e)).
  revert x. induction l as [|y l IH]; intros x; [reflexivity|]. cbn [last]. exact (IH y).
Qed.

Lemma number_items_length inp l : forall id, List.length (number_items inp id l) = List.length l.
Proof. induction l as [|[s e] l IH]; intros id; cbn; [reflexivity|]. now rewrite IH. Qed.

Lemma number_items_nth inp l : forall id k s e, nth_error l k = Some (s, e) ->
  nth_error (number_items inp id l) k = Some (item_of inp (id + k) s e).
Proof.
  induction l as [|[s0 e0] l IH]; intros id k s e H; destruct k as [|k]; cbn in *; try discriminate.
  - injection H as <- <-. now rewrite Nat.add_0_r.
  - rewrite (IH (S id) k s e H). f_equal. f_equal. lia.
Qed.

Lemma number_items_nth_inv inp l : forall id k it, nth_error (number_items inp id l) k = Some it ->
  exists s e, nth_error l k = Some (s, e) /\ it = item_of inp (id + k) s e.
Proof.
  induction l as [|[s0 e0] l IH]; intros id k it H; destruct k as [|k]; cbn in *; try discriminate.
  - injection H as <-. exists s0, e0. now rewrite Nat.add_0_r.
  - destruct (IH (S id) k it H) as (s & e & H1 & ->). exists s, e. split; [exact H1|]. f_equal. lia.
Qed.

(** A state with a token was reached without an error. *)
Lemma chain_err inp : forall l s e, off s <= String.length inp -> chain inp s e l ->
  Forall (fun p => cur (fst p) = None \/ snd p = None) l.
Proof.
  induction l as [|[s' e'] l IH]; intros s e Ho H; [constructor|]. destruct H as [Hc H].
  destruct (consume_ok inp s Ho) as (s2 & e2 & Hc2 & Ho2 & Ht). rewrite Hc in Hc2. injection Hc2 as <- <-.
  constructor; [|now apply (IH s' e')]. cbn [fst snd]. destruct (cur s'); [right; tauto | now left].
Qed.

(** The text of a token that is not a name, number or string is its kind (but for [->]). *)
Definition plain_kinds : list kind := [KIdent; KKeyword; KInt; KFloat; KString; "->"%string].

#[local] Arguments is_keyword : simpl never.

Lemma lex_token_text prev s t : lx_tok (lex_token prev s) = Some t -> In (tkind t) plain_kinds \/ tkind t = tstr t.
Proof.
  assert (Hs : forall n s t, lx_tok (lx_simple n (stake n s) s) = Some t -> tkind t = tstr t).
  { intros n s0 t0 H. injection H as <-. reflexivity. }
  assert (Hb : forall s t, lx_tok (lex_bare s) = Some t -> In (tkind t) plain_kinds).
  { intros s0 t0 H. unfold lex_bare in H. injection H as <-. cbn [tkind]. destruct (is_keyword _); cbn; auto. }
  assert (Hr : forall c r t, lx_tok (lex_rest c (String c r)) = Some t -> In (tkind t) plain_kinds \/ tkind t = tstr t).
  { intros c r t0 H. unfold lex_rest in H. destruct (is_ident_start c); [left; now apply (Hb (String c r))|].
    destruct (128 <=? byte_of c); [discriminate|]. right. now apply (Hs 1 (String c r)). }
  assert (Hn : forall s t, lx_tok (lex_number s) = Some t -> In (tkind t) plain_kinds).
  { intros s0 t0 H. unfold lex_number in H. destruct (nbump _ _) as [e|[[n f] h]]; [discriminate|].
    destruct (_ || _); [discriminate|]. injection H as <-. cbn [tkind]. destruct f; cbn; auto. }
  destruct s as [|c r]; [discriminate|]. unfold lex_token. intros H.
  destruct (_ || Ascii.eqb c "|").
  { destruct (head_is _ r); [right; now apply (Hs 2 (String c r)) | now apply (Hr c r)]. }
  destruct (is_sign c).
  { destruct (negb _ && _); [left; now apply (Hn (String c r))|].
    destruct (head_is _ r); [left; injection H as <-; cbn; auto 10 | now apply (Hr c r)]. }
  destruct (is_digit c); [left; now apply (Hn (String c r))|].
  destruct (_ || _).
  { left. unfold lex_quoted in H. destruct (sdrop _ _); [discriminate|]. injection H as <-. cbn. auto. }
  destruct (Ascii.eqb c "$"); [left; now apply (Hb (String c r))|].
  destruct (Ascii.eqb c squote).
  { left. unfold lex_string in H. destruct (sdrop _ _); [discriminate|]. injection H as <-. cbn. auto 10. }
  destruct (Ascii.eqb c ":") eqn:E1.
  { destruct r as [|d r]; [now apply (Hr c ""%string)|]. cbn [head_is] in H.
    destruct (Ascii.eqb d ":") eqn:E2; [|now apply (Hr c (String d r))]. right. apply Ascii.eqb_eq in E1, E2. subst.
    injection H as <-. reflexivity. }
  destruct (Ascii.eqb c ".") eqn:E3; [|now apply (Hr c r)]. right. apply Ascii.eqb_eq in E3. subst. injection H as <-. reflexivity.
Qed.

Lemma requests_text inp k s e t : requests inp k = LVal (s, e) -> cur s = Some t -> In (tkind t) plain_kinds \/ tkind t = tstr t.
Proof.
  intros H Ht. destruct (requests_lex inp k s e t H Ht) as (o & prev & t0 & H1 & -> & _). exact (lex_token_text _ _ _ H1).
Qed.

Lemma sdrop_all inp n : String.length inp <= n -> sdrop n inp = ""%string.
Proof. intros H. pose proof (sdrop_length n inp). destruct (sdrop n inp); [reflexivity|]. cbn in *. lia. Qed.

(** At the end of the input there are no more tokens. *)
Lemma consume_eof inp s s' e : is_eof inp (off s) = true -> consume inp s = LVal (s', e) -> cur s' = None.
Proof.
  unfold is_eof. intros H. apply Nat.leb_le in H. rewrite consume_eq, sdrop_all by exact H.
  unfold to_lout, lex1. cbn. intros E. now injection E as <- <-.
Qed.

Lemma chain_nth inp : forall l s e k s1 e1 s2 e2, chain inp s e l ->
  nth_error ((s, e) :: l) k = Some (s1, e1) -> nth_error ((s, e) :: l) (S k) = Some (s2, e2) -> consume inp s1 = LVal (s2, e2).
Proof.
  induction l as [|[s' e'] l IH]; intros s e k s1 e1 s2 e2 Hc H1 H2; [destruct k; discriminate|].
  destruct Hc as [Hc Hch]. destruct k as [|k]; [cbn in H1, H2; congruence|].
  exact (IH s' e' k s1 e1 s2 e2 Hch H1 H2).
Qed.

(** What the parser relies on: the items are numbered from 0, the last one has no token, and
    neither has an item reached with an error. *)
Record good_items (its : list item) : Prop := {
  gi_ne : its <> [];
  gi_id : forall k it, nth_error its k = Some it -> it_id it = k;
  gi_last : forall it, nth_error its (List.length its - 1) = Some it -> it_tok it = None;
  gi_err : forall it, In it its -> it_tok it <> None -> it_err it = None;
  gi_text : forall it t, In it its -> it_tok it = Some t -> In (t_kind t) plain_kinds \/ t_kind t = t_str t;
  gi_eof : forall k i1 i2, nth_error its k = Some i1 -> nth_error its (S k) = Some i2 -> it_eof i1 = true -> it_tok i2 = None }.

Lemma items_good inp : exists its, items_of inp = LVal its /\ good_items its.
Proof.
  destruct (states_ok inp) as (l & Hl & Hc). unfold items_of. rewrite Hl. cbn [lbind].
  eexists. split; [reflexivity|]. constructor.
  - discriminate.
  - intros k it H. apply number_items_nth_inv in H as (s & e & _ & ->). reflexivity.
  - intros it H. rewrite number_items_length in H. apply number_items_nth_inv in H as (s & e & H & ->).
    cbn [item_of it_tok]. cbn [List.length] in H. rewrite Nat.sub_succ, Nat.sub_0_r in H.
    assert (E : last l (lex_init, None) = (s, e)).
    { clear Hc Hl. destruct l as [|x l]; [injection H as <- <-; reflexivity|]. cbn [List.length nth_error] in H.
      revert x H. induction l as [|y l IH]; intros x H; [cbn in H |- *; congruence|]. cbn [List.length nth_error] in H. exact (IH y H). }
    pose proof (chain_last inp l lex_init None Hc) as Hn. rewrite E in Hn. cbn in Hn. now rewrite Hn.
  - intros it Hin Ht. apply In_nth_error in Hin as [k Hk]. apply number_items_nth_inv in Hk as (s & e & Hk & ->).
    cbn [item_of it_tok it_err] in *. apply nth_error_In in Hk. destruct Hk as [Hk|Hk]; [injection Hk as <- <-; reflexivity|].
    pose proof (chain_err inp l lex_init None (Nat.le_0_l _) Hc) as Hf. rewrite Forall_forall in Hf. apply Hf in Hk. cbn in Hk.
    destruct Hk as [Hk|Hk]; [now rewrite Hk in Ht | exact Hk].
  - intros it t Hin Ht. apply In_nth_error in Hin as [k Hk]. apply number_items_nth_inv in Hk as (s & e & Hk & ->).
    pose proof (states_requests inp _ Hl k) as Hq. rewrite (nth_error_nth _ _ _ Hk) in Hq.
    cbn [item_of it_tok] in Ht. destruct (cur s) as [t0|] eqn:E; [|discriminate]. injection Ht as <-.
    exact (requests_text inp k s e t0 Hq E).
  - intros k i1 i2 H1 H2 He. apply number_items_nth_inv in H1 as (s1 & e1 & H1 & ->), H2 as (s2 & e2 & H2 & ->).
    cbn [item_of it_tok it_eof] in *. now rewrite (consume_eof inp s1 s2 e2 He (chain_nth inp l lex_init None k _ _ _ _ Hc H1 H2)).
Qed.
