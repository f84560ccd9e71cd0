(** What the loop of [ParseStmts] reads. *)
From Coq Require Import String List Arith Bool Lia ZArith.
From Verif Require Import Str Keyword Lexer LexSpec StrFacts LexFacts LexRun LexProps Ast AstPos Prog Items ItemsFacts RunFacts ParserCommon ParserExpr ParserQuery Parser
  ErrorRender ParserApi Hoare Spec SpecTac SpecSystem SpecParse FuelFacts ParseFacts.
Import ListNotations.
Local Open Scope string_scope.
Local Open Scope nat_scope.

(** The item has no token, or the token is a semicolon. *)
Definition between (it : item) : Prop := match it_tok it with None => True | Some t => t_kind t = ";" end.

(** [parseStmt], started at item [a] of [its], gives [e] and stops at item [b]. *)
Definition reads (its : list item) (a : nat) (e : expr) (b : nat) : Prop :=
  exists fuel s s', nth_error its a = Some (here s) /\ rest s = skipn (S a) its /\
    run body fuel parseStmt s = ROk e s' /\ nth_error its b = Some (here s').

(** From item [k] on, up to item [last], the segments [segs] are read as statements; what
    lies outside them is semicolons. *)
Fixpoint parts (its : list item) (k : nat) (segs : list (nat * expr * nat)) (last : nat) : Prop :=
  match segs with
  | [] => k <= last /\ forall j it, k <= j < last -> nth_error its j = Some it -> between it
  | (a, e, b) :: r =>
      k <= a /\ a < b /\ (forall j it, k <= j < a -> nth_error its j = Some it -> between it) /\
      reads its a e b /\ (forall it, nth_error its b = Some it -> between it) /\ parts its b r last
  end.

Definition seg_stmt (x : nat * expr * nat) : expr := snd (fst x).

Lemma parts_back its k k' segs last : parts its k segs last -> k' <= k ->
  (forall j it, k' <= j < k -> nth_error its j = Some it -> between it) -> parts its k' segs last.
Proof.
  intros H Hk Hb. destruct segs as [|[[a e] b] r]; cbn [parts] in *.
  - destruct H as [H1 H2]. split; [lia|]. intros j it Hj Hn. destruct (Nat.lt_ge_cases j k); [apply (Hb j) | apply (H2 j)]; auto; lia.
  - destruct H as (H1 & H2 & H3 & H4). split; [lia|]. split; [exact H2|]. split; [|exact H4].
    intros j it Hj Hn. destruct (Nat.lt_ge_cases j k); [apply (Hb j) | apply (H3 j)]; auto; lia.
Qed.

Section Loop.
  Context `{Calls}.

  Lemma place_nth s : wfs s -> nth_error its (it_id (here s)) = Some (here s) /\ rest s = skipn (S (it_id (here s))) its /\
    it_id (here s) + len s + 1 = List.length its.
  Proof.
    intros [pre Hp]. assert (Hn : nth_error its (List.length pre) = Some (here s)) by (rewrite Hp, nth_error_app2, Nat.sub_diag; [reflexivity | lia]).
    rewrite (gi_id _ its_good _ _ Hn). split; [exact Hn|]. unfold len. split.
    - rewrite Hp. replace (S (List.length pre)) with (List.length (pre ++ [here s])) by (rewrite app_length; cbn; lia).
      replace (pre ++ here s :: rest s)%list with ((pre ++ [here s]) ++ rest s)%list by (rewrite <- app_assoc; reflexivity).
      now rewrite skipn_app, skipn_all, Nat.sub_diag.
    - rewrite Hp, app_length. cbn. lia.
  Qed.

  Lemma tk_semi it : tk it ";" = true -> between it.
  Proof.
    unfold tk, tks, cur_kind, between. destruct (it_tok it) as [t|]; [|trivial]. cbn [str_in existsb].
    destruct (String.eqb_spec (t_kind t) ";") as [E|E]; [auto|]. cbn. rewrite andb_false_r. discriminate.
  Qed.

  Lemma parseStmt_end fuel s e s' : run body fuel parseStmt s = ROk e s' -> between (here s').
  Proof.
    destruct fuel as [|fuel]; [discriminate|]. unfold parseStmt. rewrite run_bind.
    destruct (run body (S fuel) parseStmtBody s) as [e0 s0| | |]; try discriminate. cbn [andThen]. rewrite run_bind.
    destruct (run body (S fuel) tryParseFormatHere s0) as [e1 s1| | |]; try discriminate. cbn [andThen].
    unfold cur_item. cbn [bind]. rewrite run_Cur. destruct (no_tok (here s1)) eqn:En; cbn [negb andb].
    - intros [= <- <-]. unfold no_tok, between in *. now destruct (it_tok (here s1)).
    - destruct (tk (here s1) ";") eqn:Et; cbn [negb]; [|discriminate]. intros [= <- <-]. now apply tk_semi.
  Qed.

  Definition stmts_body (stmts : list expr) : prog (list expr + list expr) :=
    do! consumeOrFail ;;
    do it <- cur_item ;;
    if it_eof it then Ret (inr stmts)
    else if tk it ";" then Ret (inl stmts)
    else do stmt <- parseStmt ;; Ret (inl (stmts ++ [stmt])%list).

  Lemma stmts_loop : forall n acc s y s', wfs s -> 10 * len s + 3 <= fl -> between (here s) ->
    iter body (S fl) stmts_body n acc s = ROk y s' ->
    wfs s' /\ it_eof (here s') = true /\
    exists segs, y = (acc ++ map seg_stmt segs)%list /\ parts its (it_id (here s)) segs (it_id (here s')).
  Proof.
    induction n as [|n IH]; intros acc s y s' Hw Hf Hb Hi; [discriminate|]. rewrite iter_S in Hi.
    pose proof (place_nth s Hw) as (Hn & _ & Hx). pose proof (wfs_advance s Hw) as Hw1. pose proof (len_advance s) as Hla.
    set (s1 := advance s) in *. pose proof (place_nth s1 Hw1) as (Hn1 & Hr1 & Hx1).
    assert (Hgap : forall j it, it_id (here s) <= j < it_id (here s1) -> nth_error its j = Some it -> between it).
    { intros j it Hj Hnj. assert (j = it_id (here s)) as ->; [|congruence].
      assert (len s <= S (len s1)); [|lia]. unfold s1, advance, len. destruct (rest s); cbn; lia. }
    assert (Hle : it_id (here s) <= it_id (here s1)) by lia.
    unfold stmts_body, consumeOrFail in Hi. cbn [bind] in Hi. rewrite run_Consume in Hi. fold s1 in Hi.
    destruct (it_err (here s1)); [rewrite ?run_Fail in Hi; discriminate|]. unfold cur_item in Hi. cbn [bind] in Hi. rewrite run_Cur in Hi.
    destruct (it_eof (here s1)) eqn:Ee.
    - rewrite run_Ret in Hi. injection Hi as <- <-. split; [exact Hw1|]. split; [exact Ee|]. exists []. split; [now rewrite app_nil_r|].
      cbn [parts]. split; assumption.
    - destruct (tk (here s1) ";") eqn:Es.
      + rewrite run_Ret in Hi. destruct (IH acc s1 y s' Hw1 ltac:(lia) (tk_semi _ Es) Hi) as (A1 & A2 & segs & A3 & A4).
        split; [exact A1|]. split; [exact A2|]. exists segs. split; [exact A3|]. exact (parts_back _ _ _ _ _ A4 Hle Hgap).
      + rewrite run_bind in Hi. destruct (run body (S fl) parseStmt s1) as [e s2| | |] eqn:Ep; try discriminate. cbn [andThen] in Hi.
        rewrite run_Ret in Hi. pose proof (parseStmt_ok s1 Hw1 ltac:(lia)) as Hp. unfold wp in Hp. rewrite Ep in Hp. cbn [post] in Hp.
        destruct Hp as (Hw2 & Hl2 & Hlt & _). specialize (Hlt eq_refl).
        pose proof (place_nth s2 Hw2) as (Hn2 & _ & Hx2). pose proof (parseStmt_end _ _ _ _ Ep) as Hb2.
        destruct (IH _ s2 y s' Hw2 ltac:(lia) Hb2 Hi) as (A1 & A2 & segs & A3 & A4).
        split; [exact A1|]. split; [exact A2|]. exists ((it_id (here s1), e, it_id (here s2)) :: segs). split.
        * rewrite A3, <- app_assoc. reflexivity.
        * cbn [parts]. split; [exact Hle|]. split; [lia|]. split; [exact Hgap|].
          split; [exists (S fl), s1, s2; auto|]. split; [intros it Hit; congruence | exact A4].
  Qed.

  Lemma parse_stmts_parts s y s' : wfs s -> 10 * len s + 3 <= fl -> between (here s) -> run body (S fl) ParseStmts s = ROk y s' ->
    wfs s' /\ it_eof (here s') = true /\
    exists segs, y = map seg_stmt segs /\ parts its (it_id (here s)) segs (it_id (here s')).
  Proof.
    intros Hw Hf Hb Hr. unfold ParseStmts, loop in Hr. rewrite run_Loop in Hr.
    destruct (iter body (S fl) _ (S fl) [] s) as [y0 s0| | |] eqn:E; try discriminate. cbn [andThen] in Hr. rewrite run_Ret in Hr.
    injection Hr as <- <-. exact (stmts_loop (S fl) [] s y0 s0 Hw Hf Hb E).
  Qed.
End Loop.

(** The same for an input. *)
Lemma parsed_parts inp stmts sp : parse_stmts inp = Parsed stmts sp ->
  exists l last segs, states inp = LVal l /\ stmts = map seg_stmt segs /\ parts (number_items inp 0 l) 0 segs last /\
    exists s e, nth_error l last = Some (s, e) /\ off s = String.length inp.
Proof.
  intros H. destruct (states_ok inp) as (l0 & Hl & Hc). set (l := (lex_init, None) :: l0) in *.
  unfold parse_stmts in H. rewrite (api_eq inp l Hl) in H. unfold parse_items in H. set (its := number_items inp 0 l) in *.
  pose proof (its_good_items inp l Hl) as g. change (good_items its) in g.
  assert (Hi : exists r, its = item_of inp 0 lex_init None :: r) by (eexists; reflexivity). destruct Hi as [r Hi].
  assert (Hs : init_pstate its = Some (mkP (item_of inp 0 lex_init None) r [])) by (rewrite Hi; reflexivity).
  rewrite Hs in H. set (n := List.length its) in *. set (s0 := mkP (item_of inp 0 lex_init None) r []) in *.
  assert (Hw : @wfs (mkenv its g (10 * n + 9)) s0) by (exists []; exact Hi).
  assert (Hf : 10 * len s0 + 3 <= @fl (mkenv its g (10 * n + 9))).
  { unfold len, s0, n. cbn [rest fl mkenv]. rewrite Hi. cbn [List.length]. lia. }
  destruct (run body (parse_fuel n) ParseStmts s0) as [y s'|e s'|z|] eqn:E; try discriminate.
  2: { destruct (wrapError _ _ _ _); discriminate. }
  injection H as <- <-. unfold parse_fuel in E. replace (10 * n + 10) with (S (10 * n + 9)) in E by lia.
  destruct (@parse_stmts_parts _ (calls_ok its g (10 * n + 9)) s0 y s' Hw Hf I E) as (Hw' & He & segs & Hy & Hp).
  exists l, (it_id (here s')), segs. split; [exact Hl|]. split; [exact Hy|]. split; [exact Hp|].
  pose proof (@place_nth (mkenv its g (10 * n + 9)) s' Hw') as (Hn & _). cbn [Hoare.its mkenv] in Hn.
  apply number_items_nth_inv in Hn as (s & e & Hn & Heq). exists s, e. split; [exact Hn|].
  rewrite Heq in He. cbn [item_of it_eof] in He. unfold is_eof in He. apply Nat.leb_le in He.
  pose proof (states_requests inp l Hl (it_id (here s'))) as Hq. rewrite (nth_error_nth _ _ _ Hn) in Hq.
  destruct (requests_ok inp (it_id (here s'))) as (s2 & e2 & Hr2 & Ho). rewrite Hq in Hr2. injection Hr2 as <- <-. lia.
Qed.

(** Item [j] was read as part of one of the statements. *)
Definition in_stmt (segs : list (nat * expr * nat)) (j : nat) : Prop := exists a e b, In (a, e, b) segs /\ a <= j < b.

Lemma parts_cover its last segs : forall k, parts its k segs last ->
  forall j it, k <= j < last -> nth_error its j = Some it -> in_stmt segs j \/ between it.
Proof.
  induction segs as [|[[a e] b] r IH]; intros k H j it Hj Hn; cbn [parts] in H.
  - right. now apply (proj2 H j).
  - destruct H as (H1 & H2 & H3 & H4 & H5 & H6). destruct (Nat.lt_ge_cases j a) as [Ha|Ha]; [right; apply (H3 j); auto; lia|].
    destruct (Nat.lt_ge_cases j b) as [Hb|Hb]; [left; exists a, e, b; split; [now left | lia]|].
    destruct (IH b H6 j it ltac:(lia) Hn) as [(a' & e' & b' & Hin & Hab)|Hbt]; [left; exists a', e', b'; split; [now right | exact Hab] | now right].
Qed.

Lemma parsed_segments inp stmts sp : parse_stmts inp = Parsed stmts sp ->
  exists its segs last, items_of inp = LVal its /\ stmts = map seg_stmt segs /\ parts its 0 segs last /\
    (exists it, nth_error its last = Some it /\ it_eof it = true) /\
    (forall j it, last < j -> nth_error its j = Some it -> it_tok it = None).
Proof.
  intros H. destruct (parsed_parts _ _ _ H) as (l & last & segs & Hl & Hs & Hp & s & e & Hn & Ho).
  exists (number_items inp 0 l), segs, last. split; [unfold items_of; now rewrite Hl|]. split; [exact Hs|]. split; [exact Hp|].
  split.
  - exists (item_of inp last s e). split; [exact (number_items_nth inp l 0 last s e Hn)|]. cbn. unfold is_eof. apply Nat.leb_le. lia.
  - intros j it Hj Hit. apply number_items_nth_inv in Hit as (s' & e' & Hn' & ->). cbn [item_of it_tok].
    destruct j as [|j]; [lia|].
    assert (Hq : requests inp j = LVal (nth j l (List.last l (lex_init, None)))) by now apply states_requests.
    assert (Hq' : requests inp (S j) = LVal (s', e')) by (rewrite (states_requests inp l Hl (S j)), (nth_error_nth _ _ _ Hn'); reflexivity).
    destruct (nth j l (List.last l (lex_init, None))) as [s1 e1]. cbn [requests] in Hq'. rewrite Hq in Hq'. cbn [lbind fst] in Hq'.
    assert (Hql : requests inp last = LVal (s, e)) by (rewrite (states_requests inp l Hl last), (nth_error_nth _ _ _ Hn); reflexivity).
    replace j with (j - last + last) in Hq by lia. pose proof (requests_mono inp last (j - last) _ _ _ _ Hql Hq) as Hm.
    rewrite (consume_eof inp s1 s' e'); [reflexivity | unfold is_eof; apply Nat.leb_le; lia | exact Hq'].
Qed.
