(** What the specification of the parser says about [parse_stmts]. *)
From Coq Require Import String Ascii List Arith Bool Lia ZArith.
From Verif Require Import WalkSpec Str Keyword Lexer LexSpec StrFacts LexRun Ast AstPos AstSubs PrecSpec SpanSpec Prog Items ItemsFacts RunFacts FuelFacts
  Source SourceFacts ErrorRender ErrorFacts Parser ParserApi Hoare Spec SpecTac SpecSystem SpecParse.
Import ListNotations.
Local Open Scope nat_scope.

Section Input.
  Variable inp : string.
  Variable l : list (lstate * option string).
  Hypothesis Hl : states inp = LVal l.
  Let its := number_items inp 0 l.

  Lemma its_good_items : good_items its.
  Proof.
    destruct (items_good inp) as (x & Hx & Hg). unfold items_of in Hx. rewrite Hl in Hx. cbn [lbind] in Hx. injection Hx as <-. exact Hg.
  Qed.

  Lemma state_in k s e : nth_error l k = Some (s, e) -> requests inp k = LVal (s, e).
  Proof. intros H. rewrite (states_requests inp l Hl k). f_equal. now apply nth_error_nth. Qed.

  Lemma state_off k s e : nth_error l k = Some (s, e) -> off s <= String.length inp.
  Proof.
    intros H. apply state_in in H. destruct (requests_ok inp k) as (s' & e' & H' & Ho). rewrite H in H'. injection H' as <- <-. exact Ho.
  Qed.

  Lemma substring_len s : forall i n, i + n <= String.length s -> String.length (String.substring i n s) = n.
  Proof.
    induction s as [|c s IH]; intros i n H; cbn in H.
    - destruct i, n; try lia. reflexivity.
    - destruct i as [|i]; [|cbn; apply IH; lia]. destruct n as [|n]; [reflexivity|]. cbn. f_equal. apply IH. lia.
  Qed.

  Lemma state_tok k s e t : nth_error l k = Some (s, e) -> cur s = Some t ->
    tpos t <= tend t /\ tend t <= String.length inp /\ String.length (tstr t) = tend t - tpos t.
  Proof.
    intros H Ht. apply state_in in H. destruct (requests_tok inp k s e t H Ht) as (k' & s0 & e0 & _ & _ & H1 & H2 & H3 & H4 & H5 & H6 & _).
    repeat split; try lia. rewrite H6. apply substring_len. lia.
  Qed.

  Lemma span_nth i s e : nth_error l i = Some (s, e) -> nth i (spans l) (0, 0)%Z = state_span s.
  Proof. intros E. apply nth_error_nth. exact (map_nth_error (fun p => state_span (fst p)) i l E). Qed.

  Lemma span_bounds i : i < List.length l ->
    (0 <= fst (nth i (spans l) (0, 0)) <= Z.of_nat (String.length inp) /\
     0 <= snd (nth i (spans l) (0, 0)) <= Z.of_nat (String.length inp) + 1)%Z.
  Proof.
    intros Hi. destruct (nth_error l i) as [[s e]|] eqn:E; [|apply nth_error_None in E; lia].
    assert (Hn : nth i (spans l) (0, 0)%Z = state_span s) by exact (span_nth i s e E).
    rewrite Hn. unfold state_span. pose proof (state_off i s e E). destruct (cur s) as [t|] eqn:Et; cbn [fst snd]; [|lia].
    destruct (state_tok i s e t E Et) as (H1 & H2 & _). lia.
  Qed.

  Lemma span_wide i z : @wide (mkenv its its_good_items 0) i z ->
    (0 <= z /\ fst (nth i (spans l) (0, 0)) + z <= Z.of_nat (String.length inp))%Z.
  Proof.
    intros (it & t & Hi & Ht & Hz). cbn [Hoare.its mkenv] in Hi. unfold its in Hi. apply number_items_nth_inv in Hi as (s & e & E & ->).
    cbn [item_of it_tok] in Ht. destruct (cur s) as [t0|] eqn:Et; [|discriminate]. cbn in Ht. injection Ht as <-. cbn [tok_of t_str] in Hz.
    assert (Hn : nth i (spans l) (0, 0)%Z = state_span s) by exact (span_nth i s e E).
    rewrite Hn. unfold state_span. rewrite Et. cbn [fst]. destruct (state_tok i s e t0 E Et) as (H1 & H2 & H3). lia.
  Qed.

  Lemma pok_bounds : forall p, @pok (mkenv its its_good_items 0) p ->
    (0 <= resolve_pos (spans l) p <= Z.of_nat (String.length inp) + 4)%Z.
  Proof.
    assert (Hlen : List.length its = List.length l) by apply number_items_length.
    fix IH 1. intros [|i|i|q z] Hp; cbn [pok Hoare.its mkenv] in Hp; cbn [resolve_pos].
    - lia.
    - rewrite Hlen in Hp. pose proof (span_bounds i Hp). lia.
    - rewrite Hlen in Hp. pose proof (span_bounds i Hp). lia.
    - destruct q as [|i|i|q y]; try contradiction.
      + destruct Hp as [Hi Hp]. rewrite Hlen in Hi. pose proof (span_bounds i Hi). cbn [resolve_pos].
        destruct Hp as [Hp| ->]; [pose proof (span_wide i z Hp)|]; lia.
      + destruct Hp as (-> & -> & Hp). cbn [resolve_pos]. pose proof (IH q Hp). lia.
  Qed.

  Lemma item_pos_le it : In it its -> item_pos l it <= String.length inp.
  Proof.
    intros Hi. apply In_nth_error in Hi as [k Hk]. unfold its in Hk. apply number_items_nth_inv in Hk as (s & e & E & ->).
    unfold item_pos. cbn [item_of it_id Nat.add]. rewrite E. unfold state_pos. pose proof (state_off k s e E).
    destruct (cur s) as [t|] eqn:Et; [|lia]. destruct (state_tok k s e t E Et) as (H1 & H2 & _). lia.
  Qed.

  Lemma run_ends extra s : init_pstate its = Some s ->
    run body (parse_fuel (List.length l) + extra) ParseStmts s = parse_items its.
  Proof.
    intros Hs. pose proof (parse_items_ok its its_good_items) as Hp. unfold parse_items in *. rewrite Hs in *.
    replace (List.length its) with (List.length l) in * by (symmetry; apply number_items_length).
    apply run_more. intros E. now rewrite E in Hp.
  Qed.

  Lemma init_ok : exists s, init_pstate its = Some s /\ wfs (H := mkenv its its_good_items 0) s.
  Proof.
    assert (Hx : exists i r, its = i :: r).
    { pose proof (gi_ne _ its_good_items) as Hne. destruct its as [|i r]; [congruence | eauto]. }
    destruct Hx as (i & r & E). exists (mkP i r []). split; [now rewrite E|]. exists []. cbn. exact E.
  Qed.

  Lemma api_eq extra : parse_stmts_fuel extra inp =
    match parse_items its with
    | ROk stmts _ => Parsed stmts (spans l)
    | RErr e s' => match wrapError inp (item_pos l) e s' with Some pe => Failed pe | None => Crashed "position" end
    | RPanic z => Crashed z
    | ROOF => Diverged
    end.
  Proof.
    unfold parse_stmts_fuel. rewrite Hl. fold its. destruct init_ok as (s & Hs & _). rewrite Hs. now rewrite run_ends.
  Qed.

  Lemma api_ok :
    match parse_stmts inp with
    | Parsed stmts sp => sp = spans l /\ Forall (@stm (mkenv its its_good_items 0)) stmts
    | Failed pe => pe_pos pe <= String.length inp /\ Some (pe_line pe, pe_column pe) = position (newLineStarts inp) (pe_pos pe) /\
        exists it, In it its /\ pe_pos pe = item_pos l it /\ pe_got pe = it_tok it
    | Crashed z => In z panics
    | Diverged => False
    end.
  Proof.
    unfold parse_stmts. rewrite api_eq. pose proof (parse_items_ok its its_good_items) as Hp.
    assert (Hi : inv_out (fun s => wfs (H := mkenv its its_good_items 0) s) (parse_items its)).
    { unfold parse_items. destruct init_ok as (s & -> & Hw). apply run_inv; [| | |exact Hw].
      - intros s0. apply wfs_advance.
      - intros s0 [pre Ha]. exists pre. exact Ha.
      - intros s0 s1 Ha _. now apply wfs_restore. }
    destruct (parse_items its) as [stmts s|e s|z|]; cbn [post inv_out] in Hp, Hi; auto.
    destruct (wrapError_ok inp (item_pos l) e s) as (pe & -> & _ & _ & H3 & H4 & H5).
    assert (Hx : exists it, In it its /\ pe_pos (raw_error (item_pos l) e s) = item_pos l it /\ pe_got (raw_error (item_pos l) e s) = it_tok it).
    { destruct e; cbn [err_ok] in Hp; cbn [raw_error pe_pos pe_got]; try (eexists; split; [exact Hp | auto]; fail).
      exists (here s). split; [exact (wfs_in (H := mkenv its its_good_items 0) s Hi) | auto]. }
    destruct Hx as (it & Hin & Hpos & Hgot). rewrite H3, Hpos. split; [now apply item_pos_le|]. split; [rewrite H5; congruence|].
    exists it. repeat split; congruence.
  Qed.

  (** Every node of every statement. *)
  Lemma api_nodes stmts sp : parse_stmts inp = Parsed stmts sp ->
    sp = spans l /\ forall t e, In t stmts -> node_of t e -> @local (mkenv its its_good_items 0) e /\
      (forall p, pos_of e = Some p -> @pok (mkenv its its_good_items 0) p) /\
      (forall p, end_of e = Some p -> @pok (mkenv its its_good_items 0) p).
  Proof.
    intros H. pose proof api_ok as Ha. rewrite H in Ha. destruct Ha as [-> Ha]. split; [reflexivity|].
    intros t e Ht He. rewrite Forall_forall in Ha. destruct (Ha t Ht) as [Hg _]. unfold good in Hg.
    assert (Hge : good (H := mkenv its its_good_items 0) e).
    { unfold good. rewrite All_nodes in Hg |- *. intros x Hx. apply Hg. clear - He Hx. induction He as [|t c e Hc He IH]; [exact Hx|]. econstructor; eauto. }
    split; [now inversion Hge|]. apply pp_ends, good_pp, Hge.
  Qed.
End Input.

(** The statements are syntax nodes; the fields of their nodes are as their types say. *)
Lemma parsed_shape inp stmts sp t : parse_stmts inp = Parsed stmts sp -> In t stmts ->
  is_node t = true /\ All kinds t /\ All gapless t /\ All filled t.
Proof.
  intros H Ht. destruct (states_ok inp) as (l & Hl & _). pose proof (api_ok inp _ Hl) as Ha. rewrite H in Ha. destruct Ha as [_ Ha].
  rewrite Forall_forall in Ha. destruct (Ha t Ht) as [Hg Hn]. split; [exact Hn|]. unfold good in Hg. rewrite All_nodes in Hg.
  split; [|split]; apply All_nodes; intros e He; now destruct (Hg e He) as (_ & _ & _ & ? & ? & ?).
Qed.
