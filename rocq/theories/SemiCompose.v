(** Proofs for C43: the statements before a semicolon and those after it. *)
From Coq Require Import String List Arith Bool Lia.
From Verif Require Import Str Keyword Lexer LexSpec StrFacts LexFacts LexRun LexGrammar LexTokens LexProps Ast Prog Items ItemsFacts RunFacts FuelFacts
  ParserCommon ParserExpr ParserQuery Parser Source SourceFacts ErrorRender ErrorFacts ParserApi ParseFacts LayoutSpec LayoutFacts StmtsFacts LayoutParse SemiLogic SemiStmt SemiSpec SemiText SemiMemo.
Import ListNotations.
Local Open Scope string_scope.
Local Open Scope list_scope.
Local Open Scope nat_scope.

Section Bound.
  Variable lim : nat.
  Definition early (i : item) : Prop := it_id i <= lim /\ it_eof i = false.
  Definition old (m : list nat) : Prop := Forall (fun n => n <= lim) m.
  Definition bounded (s : pstate) : Prop := Forall early (here s :: rest s) /\ old (memo s).

  Lemma run_bounded f A (p : prog A) s a s' : bounded s -> run body f p s = ROk a s' -> bounded s'.
  Proof.
    intros Hs E. assert (G : inv_out bounded (run body f p s)); [|now rewrite E in G].
    apply run_inv; [| | |exact Hs].
    - intros [h [|i r] m] [H1 H2]; cbn in *; split; auto. now inversion H1.
    - intros [h r m] [H1 H2]; cbn in *; split; auto. constructor; auto. inversion H1 as [|? ? [Hh _] _]. exact Hh.
    - intros s0 s1 [H1 _] [_ H2]. split; assumption.
  Qed.

  Context {T : Tails}.
  Variable f : nat.

  Definition to_nothing : Tails := {| semi := semi; tail1 := tail1; tail2 := []; semi_tok := semi_tok; semi_err := semi_err; semi_str := semi_str |}.

  Lemma st_early pre m : early semi -> Forall early pre -> old m -> bounded (st [] pre m).
  Proof. intros Hs Hp Hm. destruct pre as [|i r]; cbn; (split; [|exact Hm]); [repeat constructor; apply Hs|]. inversion Hp. constructor; [assumption|]. apply Forall_app. auto. Qed.
  Lemma st_bounded pre m : bounded (st [] pre m) -> Forall early pre /\ old m.
  Proof. intros [Hb Hm]. destruct pre as [|i r]; cbn in *; (split; [|exact Hm]); [constructor|]. inversion Hb as [|? ? H1 H2]; subst. apply Forall_app in H2 as [H2 _]. now constructor. Qed.

  Lemma body_bound acc i r m a s : fines r -> early semi -> Forall early (i :: r) -> old m ->
    run body (S f) (stmts_body acc) (st tail1 (i :: r) m) = ROk a s ->
    exists pre' m', s = st tail1 pre' m' /\ Forall early pre' /\ old m'.
  Proof.
    intros Hr Hs Hp Hm E. pose proof (@body_step to_nothing f acc i r m Hr) as H.
    change (@st to_nothing (@tail1 to_nothing) (i :: r) m) with (st tail1 (i :: r) m) in H. change (@st to_nothing (@tail2 to_nothing) (i :: r) m) with (st [] (i :: r) m) in H.
    rewrite E in H. destruct (run body (S f) (stmts_body acc) (st [] (i :: r) m)) as [a' s'| | |] eqn:E'; cbn [orel] in H; try contradiction.
    destruct H as [_ (pre' & m' & _ & H1 & H2)]. apply run_bounded in E'; [|now apply st_early]. rewrite H2 in E'. apply (st_bounded pre' m') in E' as [A B].
    exists pre', m'. auto.
  Qed.

  Lemma body_done acc s y s' : run body (S f) (stmts_body acc) s = ROk (inr y) s' -> it_eof (here (advance s)) = true.
  Proof.
    unfold stmts_body, consumeOrFail, cur_item. cbn [bind]. rewrite run_Consume. destruct (it_err _); [discriminate|]. cbn [bind]. rewrite run_Cur.
    destruct (it_eof _); [reflexivity|]. destruct (tk _ _); [discriminate|]. rewrite run_bind. destruct (run body (S f) parseStmt _); discriminate.
  Qed.

  Lemma st_inj t pre m pre' m' : st t pre m = st t pre' m' -> pre = pre' /\ m = m'.
  Proof.
    assert (L : forall pre m, here (st t pre m) :: rest (st t pre m) = pre ++ semi :: t) by (intros [|i r] m0; reflexivity).
    intros E. split; [|apply (f_equal memo) in E; now rewrite !memo_st in E]. pose proof (L pre m) as H1. rewrite E, L in H1. symmetry. now apply app_inv_tail in H1.
  Qed.

  Lemma loop_meets n : forall acc pre m, fines (tl pre) -> early semi -> Forall early pre -> old m ->
    (exists k acc' m', old m' /\ forall t, t = tail1 \/ t = tail2 -> iter body (S f) stmts_body n acc (st t pre m) = iter body (S f) stmts_body k acc' (st t [] m')) \/
    orel (iter body (S f) stmts_body n acc (st tail1 pre m)) (iter body (S f) stmts_body n acc (st tail2 pre m)) /\
      forall y s, iter body (S f) stmts_body n acc (st tail1 pre m) <> ROk y s.
  Proof.
    induction n as [|n IH]; intros acc pre m Hp Hs He Hm; [right; split; [exact I|discriminate]|]. destruct pre as [|i r]; [left; exists (S n), acc, m; auto|]. cbn [tl] in Hp.
    pose proof (body_step f acc i r m Hp) as Hb. setoid_rewrite iter_S. pose proof (fun a s => body_bound acc i r m a s Hp Hs He Hm) as Hbb. pose proof (body_done acc (st tail1 (i :: r) m)) as Hd.
    destruct (run body (S f) (stmts_body acc) (st tail1 (i :: r) m)) as [[x'|y] s1|e1 s1|z1|] eqn:E1,
      (run body (S f) (stmts_body acc) (st tail2 (i :: r) m)) as [[x2|y2] s2|e2 s2|z2|] eqn:E2; cbn [orel] in Hb; try contradiction;
      try (right; split; [exact Hb|discriminate]); destruct Hb as [Ex (pre' & m' & Hp' & -> & ->)]; try discriminate Ex.
    - injection Ex as <-. destruct (Hbb _ _ eq_refl) as (p2 & m2 & Est & He2 & Hm2). apply st_inj in Est as [<- <-].
      destruct (IH x' pre' m' (tl_fines _ Hp') Hs He2 Hm2) as [(k & acc' & m2 & Hm3 & Hk)|Ho]; [|now right].
      left. exists k, acc', m2. split; [exact Hm3|]. intros t [-> | ->]; rewrite ?E1, ?E2; apply Hk; auto.
    - exfalso. specialize (Hd _ _ eq_refl). rewrite advance_cons, here_st in Hd. destruct r as [|j r]; cbn in Hd; [rewrite (proj2 Hs) in Hd; discriminate|].
      inversion He as [|? ? _ H1]. inversion H1 as [|? ? [_ H2] _]. congruence.
  Qed.

  Lemma skip_semis t n : it_eof semi = false -> forall id i N m, iter body (S f) stmts_body (S n + N) [] (st t (i :: front id (repeat semicolon n)) m) = iter body (S f) stmts_body N [] (st t [] m).
  Proof.
    intros Hs. assert (G : forall i r N m, it_eof (cur r) = false -> cur_kind (cur r) = ";" -> it_err (cur r) = None ->
      iter body (S f) stmts_body (S N) [] (st t (i :: r) m) = iter body (S f) stmts_body N [] (st t r m)).
    { intros i r N m H1 H2 H3. rewrite iter_S. unfold stmts_body at 1. unfold consumeOrFail, cur_item. cbn [bind]. rewrite run_Consume, advance_cons, here_st, H3. cbn [bind].
      rewrite run_Cur, here_st, H1. assert (Hk : tk (cur r) ";" = true) by (unfold tk, tks; now rewrite H2). rewrite Hk, run_Ret. reflexivity. }
    induction n as [|n IH]; intros id i N m.
    - apply (G i [] N m); [exact Hs|exact semi_tok|exact semi_err].
    - cbn [repeat front Nat.add]. rewrite G by reflexivity. apply IH.
  Qed.
End Bound.

(** The first step only needs the states after it to agree. *)
Lemma loop_agree U f n acc s s' : agree U (advance s) (advance s') -> oagree U (iter body (S f) stmts_body n acc s) (iter body (S f) stmts_body n acc s').
Proof.
  intros Ha. destruct n as [|n]; [exact I|]. rewrite !iter_S.
  assert (H : oagree U (run body (S f) (stmts_body acc) s) (run body (S f) (stmts_body acc) s')).
  { unfold stmts_body, consumeOrFail. cbn [bind]. rewrite !run_Consume, <- (proj1 Ha). now apply run_agree. }
  destruct (run body (S f) (stmts_body acc) s) as [[x1|y1] s1|e1 s1|z1|], (run body (S f) (stmts_body acc) s') as [[x2|y2] s2|e2 s2|z2|]; cbn [oagree] in H; try contradiction; try exact H; destruct H as [E H]; try discriminate E.
  - injection E as <-. apply iter_agree; [|exact H]. intros. now apply run_agree.
  - injection E as <-. now split.
Qed.

Lemma front_early lim a : forall id, id + List.length a <= S lim -> Forall (early lim) (front id a).
Proof. induction a as [|t a IH]; intros id H; cbn [front List.length] in *; constructor; [split; cbn; [lia|reflexivity]|]. apply IH. lia. Qed.
Lemma expected_late ts : forall id prev closed i, In i (expected id prev ts closed) -> id <= it_id i.
Proof.
  induction ts as [|t ts IH]; intros id prev closed i; cbn [expected].
  - destruct prev; [|destruct closed]; cbn; intuition; subst; cbn; lia.
  - intros [<-|Hi]; [cbn; lia|]. apply IH in Hi. lia.
Qed.

Lemma stmts_run fu s : run body (S fu) ParseStmts s = iter body (S fu) stmts_body (S fu) [] s.
Proof.
  unfold ParseStmts, loop. rewrite run_Loop.
  change (fun stmts : list expr => do! consumeOrFail ;; do it <- cur_item ;; if it_eof it then Ret (inr stmts) else if tk it ";" then Ret (inl stmts)
    else do stmt <- parseStmt ;; Ret (inl (stmts ++ [stmt]))) with stmts_body.
  destruct (iter _ _ _ _ _ _); reflexivity.
Qed.

(** The result of a run of the loop. *)
Definition result_of (inp : string) (l : list (lstate * option string)) (r : outcome (list expr)) : result :=
  match r with
  | ROk stmts _ => Parsed stmts (spans l)
  | RErr e s' => match wrapError inp (item_pos l) e s' with Some pe => Failed pe | None => Crashed "position" end
  | RPanic z => Crashed z
  | ROOF => Diverged
  end.

Lemma result_run inp l i r extra fu : states inp = LVal l -> number_items inp 0 l = i :: r -> S fu = parse_fuel (List.length l) + extra ->
  parse_stmts inp = result_of inp l (iter body (S fu) stmts_body (S fu) [] (mkP i r [])) /\ iter body (S fu) stmts_body (S fu) [] (mkP i r []) <> ROOF.
Proof.
  intros E I Hf. pose proof (api_ok inp l E) as Ok. unfold parse_stmts in *. rewrite (api_eq inp l E) in *.
  assert (S1 : init_pstate (number_items inp 0 l) = Some (mkP i r [])) by (rewrite I; reflexivity).
  rewrite <- (run_ends inp l E extra _ S1), <- Hf, stmts_run in *. split; [reflexivity|]. intros X. now rewrite X in Ok.
Qed.

Lemma result_parsed inp l r y sp : result_of inp l r = Parsed y sp -> exists s, r = ROk y s.
Proof. destruct r; cbn; try discriminate; [intros [= -> _]; now eexists|]. destruct (wrapError _ _ _ _); discriminate. Qed.

Lemma compose a b closed s s1 s2 l1 sp1 : source None (a ++ semicolon :: b) closed s -> (b = [] -> closed = false) -> source None (a ++ [semicolon]) false s1 ->
  source None (repeat semicolon (S (List.length a)) ++ b) closed s2 -> parse_stmts s1 = Parsed l1 sp1 ->
  match parse_stmts s2 with
  | Parsed l2 _ => exists sp, parse_stmts s = Parsed (l1 ++ l2) sp
  | r => same_outcome r (parse_stmts s)
  end.
Proof.
  intros H1 Hcl H2 H3 P1. destruct (source_states _ _ _ H1) as (k1 & E1 & I1). destruct (source_states _ _ _ H2) as (k2 & E2 & I2). destruct (source_states _ _ _ H3) as (k3 & E3 & I3).
  assert (Hc : match b with [] => closed | _ => false end = false) by (destruct b; auto).
  destruct (expected_app a 1 None semicolon b closed) as [p1 X1]. destruct (expected_app a 1 None semicolon [] false) as [p2 X2].
  assert (Er : repeat semicolon (S (List.length a)) ++ b = repeat semicolon (List.length a) ++ semicolon :: b).
  { change (repeat semicolon (S (List.length a))) with (semicolon :: repeat semicolon (List.length a)). rewrite repeat_cons, <- app_assoc. reflexivity. }
  rewrite Er in *. clear Er.
  destruct (expected_app (repeat semicolon (List.length a)) 1 None semicolon b closed) as [p3 X3]. rewrite repeat_length in X3.
  cbn [expected] in X1, X2, X3. rewrite Hc in X1, X3. set (n := 1 + List.length a) in *. set (tl1 := expected (S n) (Some semicolon) b closed) in *. set (tl2 := [mkItem (S n) None true None]) in *.
  set (T := tails n false tl1 tl2).
  assert (Z : forall (u : list tok) t (c : bool), match u ++ semicolon :: t with [] => c | _ => false end = false) by (intros u t c; now destruct u).
  rewrite Z in I1, I2, I3. rewrite X1 in I1. rewrite X2 in I2. rewrite X3 in I3. clear X1 X2 X3 Z.
  set (i0 := mkItem 0 None false None) in *.
  set (q1 := parse_fuel (List.length k1)). set (q2 := parse_fuel (List.length k2)). set (q3 := parse_fuel (List.length k3)).
  assert (Hfu : exists fu, S fu = q1 + q2 + q3 /\ n <= S fu).
  { exists (q1 + q2 + q3 - 1). assert (L : List.length k2 = S n + 1).
    { rewrite <- (number_items_length s1 k2 0), I2. cbn [List.length]. rewrite app_length. cbn [List.length tl2].
      assert (Lf : forall u id, List.length (front id u) = List.length u) by (induction u; intros; cbn; auto). rewrite Lf. unfold n. cbn. lia. }
    unfold q1, q2, q3, parse_fuel. lia. }
  destruct Hfu as (fu & Hq & Hn).
  destruct (result_run s k1 _ _ (q2 + q3) fu E1 I1 ltac:(fold q1; lia)) as [R1 N1].
  destruct (result_run s1 k2 _ _ (q1 + q3) fu E2 I2 ltac:(fold q2; lia)) as [R2 N2].
  destruct (result_run s2 k3 _ _ (q1 + q2) fu E3 I3 ltac:(fold q3; lia)) as [R3 N3].
  assert (He : Forall (early n) (i0 :: front 1 a)) by (constructor; [split; cbn; [lia|reflexivity]|apply front_early; unfold n; lia]).
  assert (Hs : early n (@semi T)) by (split; cbn; [lia|reflexivity]).
  assert (Hf : fines (front 1 a)) by (apply front_fines; apply source_semi in H1; now apply Forall_app in H1).
  change (mkP i0 (front 1 a ++ mkItem n (Some semicolon) false None :: tl1) []) with (@st T (@tail1 T) (i0 :: front 1 a) []) in *.
  change (mkP i0 (front 1 a ++ mkItem n (Some semicolon) false None :: tl2) []) with (@st T (@tail2 T) (i0 :: front 1 a) []) in *.
  change (mkP i0 (front 1 (repeat semicolon (List.length a)) ++ mkItem n (Some semicolon) false None :: tl1) []) with (@st T (@tail1 T) (i0 :: front 1 (repeat semicolon (List.length a))) []) in *.
  assert (Hsk : iter body (S fu) stmts_body (S fu) [] (@st T (@tail1 T) (i0 :: front 1 (repeat semicolon (List.length a))) []) = iter body (S fu) stmts_body (S fu - n) [] (@st T (@tail1 T) [] [])).
  { rewrite <- (@skip_semis T fu (@tail1 T) (List.length a) eq_refl 1 i0). f_equal. unfold n. lia. }
  rewrite Hsk in *. clear Hsk. set (K := S fu - n) in *.
  rewrite P1 in R2. symmetry in R2. apply result_parsed in R2 as [s1' R2].
  destruct (@loop_meets n T fu (S fu) [] (i0 :: front 1 a) [] Hf Hs He ltac:(constructor)) as [(k & acc & m & Hm & Hk)|[Ho Hno]].
  2: { exfalso. rewrite R2 in Ho. destruct (iter body (S fu) stmts_body (S fu) [] (@st T (@tail1 T) (i0 :: front 1 a) [])) as [y' s'| | |] eqn:Ey; cbn [orel] in Ho; try contradiction. exact (Hno _ _ eq_refl). }
  rewrite (Hk _ (or_introl eq_refl)) in *. rewrite (Hk _ (or_intror eq_refl)) in *. clear Hk.
  destruct k as [|k]; [now destruct N1|].
  assert (Ea : iter body (S fu) stmts_body (S k) acc (@st T (@tail2 T) [] m) = ROk acc (mkP (mkItem (S n) None true None) [] m)) by (rewrite iter_S; reflexivity).
  rewrite Ea in R2. injection R2 as -> _. clear Ea N2.
  replace l1 with (l1 ++ []) in R1, N1 by apply app_nil_r. rewrite loop_prepend in R1, N1.
  assert (N1' : iter body (S fu) stmts_body (S k) [] (@st T (@tail1 T) [] m) <> ROOF) by (intros X; rewrite X in N1; now apply N1).
  assert (M1 := iter_mono fu _ _ stmts_body (S k) (K + S k) [] _ ltac:(lia) N1'). assert (M3 := iter_mono fu _ _ stmts_body K (K + S k) [] _ ltac:(lia) N3).
  assert (Hag : agree (fun x => n < x) (advance (@st T (@tail1 T) [] m)) (advance (@st T (@tail1 T) [] []))).
  { assert (Hl : Forall (fun i => n < it_id i) tl1) by (apply Forall_forall; intros i Hi; apply expected_late in Hi; exact Hi).
    assert (Hne : tl1 <> []) by (unfold tl1; destruct b; discriminate).
    cbn [st tail1 T tails]. destruct tl1 as [|j r]; [congruence|]. cbn [advance rest here memo]. split; [reflexivity|]. split; [reflexivity|]. split; [exact Hl|].
    intros x Hx. cbn [memo]. split; [|intros []]. intros Hin. unfold old in Hm. rewrite Forall_forall in Hm. apply Hm in Hin. lia. }
  pose proof (loop_agree _ fu (K + S k) [] _ _ Hag) as Hoa. rewrite M1, M3 in Hoa. rewrite R1, R3.
  destruct (iter body (S fu) stmts_body (S k) [] (@st T (@tail1 T) [] m)) as [y s'|e s'|z|], (iter body (S fu) stmts_body K [] (@st T (@tail1 T) [] [])) as [y2 s2'|e2 s2'|z2|];
    cbn [oagree] in Hoa; try contradiction; cbn [prepend result_of].
  - destruct Hoa as [<- _]. now eexists.
  - destruct Hoa as [<- Hoa]. set (x := match wrapError s2 _ _ _ with Some _ => _ | None => _ end).
    assert (G : same_outcome x (match wrapError s (item_pos k1) e s' with Some pe => Failed pe | None => Crashed "position" end))
      by (apply fails_same; symmetry; apply Hoa).
    destruct x eqn:Ex; [exfalso|exact G|exact G|exact G]. unfold x in Ex. clear - Ex. destruct (wrapError _ _ _ _); discriminate Ex.
  - now subst.
Qed.
