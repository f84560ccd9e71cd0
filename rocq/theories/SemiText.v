(** Proofs for C43 and C17: the statement loop and the text of the input. *)
From Coq Require Import String List Arith Bool Lia.
From Verif Require Import Str Keyword Lexer LexSpec StrFacts LexFacts LexRun LexGrammar LexTokens LexProps Ast Prog Items ItemsFacts RunFacts FuelFacts
  ParserCommon ParserExpr ParserQuery Parser Source SourceFacts ErrorRender ErrorFacts ParserApi ParseFacts LayoutSpec LayoutFacts StmtsFacts LayoutParse SemiLogic SemiStmt SemiSpec.
Import ListNotations.
Local Open Scope string_scope.
Local Open Scope list_scope.
Local Open Scope nat_scope.

Section Loop.
  Context `{Tails} (f : nat).

  Lemma advance_cons t i r m : advance (st t (i :: r) m) = st t r m.
  Proof. now destruct r. Qed.

  Lemma body_step acc i r m : fines r -> orel (run body (S f) (stmts_body acc) (st tail1 (i :: r) m)) (run body (S f) (stmts_body acc) (st tail2 (i :: r) m)).
  Proof.
    intros Hr. unfold stmts_body, consumeOrFail. cbn [bind]. rewrite !run_Consume, !advance_cons, !here_st.
    destruct (cur_fine _ Hr) as (_ & -> & _). unfold cur_item. cbn [bind]. rewrite !run_Cur, !here_st.
    destruct (it_eof (cur r)); [split; [reflexivity|now apply both_st]|]. destruct (tk (cur r) ";"); [split; [reflexivity|now apply both_st]|].
    rewrite !run_bind. apply orel_bind; [now apply stmt_same|]. intros e pre m' Hp. split; [reflexivity|now apply both_st].
  Qed.

  (** Both runs reach the semicolon with the same statements, or they end in the same way before. *)
  Lemma loop_same n : forall acc pre m, fines (tl pre) ->
    (exists k acc' m', forall t, t = tail1 \/ t = tail2 -> iter body (S f) stmts_body n acc (st t pre m) = iter body (S f) stmts_body k acc' (st t [] m')) \/
    orel (iter body (S f) stmts_body n acc (st tail1 pre m)) (iter body (S f) stmts_body n acc (st tail2 pre m)).
  Proof.
    induction n as [|n IH]; intros acc pre m Hp; [right; exact I|]. destruct pre as [|i r]; [left; exists (S n), acc, m; auto|]. cbn [tl] in Hp.
    pose proof (body_step acc i r m Hp) as Hb. setoid_rewrite iter_S.
    destruct (run body (S f) (stmts_body acc) (st tail1 (i :: r) m)) as [[x'|y] s1|e1 s1|z1|] eqn:E1,
      (run body (S f) (stmts_body acc) (st tail2 (i :: r) m)) as [[x2|y2] s2|e2 s2|z2|] eqn:E2; cbn [orel] in Hb; try contradiction;
      try (right; exact Hb); destruct Hb as [Ex (pre' & m' & Hp' & -> & ->)]; try discriminate Ex.
    - injection Ex as <-. destruct (IH x' pre' m' (tl_fines _ Hp')) as [(k & acc' & m2 & Hk)|Ho]; [|now right].
      left. exists k, acc', m2. intros t [-> | ->]; rewrite ?E1, ?E2; apply Hk; auto.
    - injection Ex as <-. right. split; [reflexivity|now apply both_st].
  Qed.
End Loop.

Lemma loop_grows f n : forall acc s y s', iter body (S f) stmts_body n acc s = ROk y s' -> exists l, y = acc ++ l.
Proof.
  induction n as [|n IH]; intros acc s y s' E; [discriminate|]. rewrite iter_S in E.
  assert (G : forall a s1, run body (S f) (stmts_body acc) s = ROk a s1 -> match a with inl x => exists l, x = acc ++ l | inr x => x = acc end).
  { intros a s1. unfold stmts_body, consumeOrFail, cur_item. cbn [bind]. rewrite run_Consume. destruct (it_err _); [discriminate|]. cbn [bind]. rewrite run_Cur.
    destruct (it_eof _); [intros [= <- _]; reflexivity|]. destruct (tk _ _); [intros [= <- _]; exists []; now rewrite app_nil_r|].
    rewrite run_bind. destruct (run body (S f) parseStmt _); try discriminate. cbn [andThen]. intros [= <- _]. now eexists. }
  destruct (run body (S f) (stmts_body acc) s) as [[x|x] s1| | |]; try discriminate; specialize (G _ _ eq_refl); cbv beta iota in G.
  - destruct G as [l ->]. destruct (IH _ _ _ _ E) as [l' ->]. exists (l ++ l'). now rewrite app_assoc.
  - injection E as <- _. exists []. now rewrite app_nil_r, G.
Qed.

(** ** The items *)
Fixpoint front (id : nat) (ts : list tok) : list item :=
  match ts with [] => [] | t :: r => mkItem id (Some t) false None :: front (S id) r end.

Lemma expected_app a : forall id prev t b closed, exists prev', expected id prev (a ++ t :: b) closed = front id a ++ expected (id + List.length a) prev' (t :: b) closed.
Proof.
  induction a as [|x a IH]; intros id prev t b closed; cbn [app front List.length].
  - exists prev. now rewrite Nat.add_0_r.
  - destruct (IH (S id) (Some x) t b closed) as [p E]. exists p. cbn [expected]. rewrite E, Nat.add_succ_r. destruct a; reflexivity.
Qed.
Lemma expected_open ts : forall id prev, exists n, expected id prev ts false = front id ts ++ [mkItem n None true None].
Proof.
  induction ts as [|x a IH]; intros id prev; cbn [expected front app]; [exists id; now destruct prev|].
  destruct (IH (S id) (Some x)) as [n ->]. exists n. now destruct a.
Qed.
Lemma front_app a : forall id b, front id (a ++ b) = front id a ++ front (id + List.length a) b.
Proof. induction a as [|x a IH]; intros id b; cbn [app front List.length]; [now rewrite Nat.add_0_r|]. now rewrite IH, Nat.add_succ_r. Qed.

Definition semi_ok (t : tok) : Prop := t_kind t = ";" -> t_str t = ";".
Lemma lexeme_semi prev w t r : lexeme prev w t r -> semi_ok t.
Proof.
  intros [n base fl r' _ _ _|b r' _ _|q b r' _ _|w' r' _ _|w' r' Hw|c r' _ _ _ _ _] Hk; cbn [t_kind t_str] in *.
  - destruct fl; discriminate Hk.
  - discriminate Hk.
  - discriminate Hk.
  - destruct (is_keyword _); discriminate Hk.
  - destruct (String.eqb w' "+>"); [discriminate Hk|exact Hk].
  - exact Hk.
Qed.
Lemma source_semi prev ts closed s : source prev ts closed s -> Forall semi_ok ts.
Proof. induction 1; constructor; [eapply lexeme_semi; eassumption|assumption]. Qed.
Lemma front_fines a : Forall semi_ok a -> forall id, Forall fine (front id a).
Proof.
  induction 1 as [|t a Ht _ IH]; intros id; cbn [front]; [constructor|]. constructor; [|apply IH].
  split; [discriminate|]. split; [reflexivity|]. cbn. intros t' [= <-]. exact Ht.
Qed.

Lemma fails_same inp l inp' l' e s s' : here s = here s' ->
  match match wrapError inp (item_pos l) e s with Some pe => Failed pe | None => Crashed "position" end,
        match wrapError inp' (item_pos l') e s' with Some pe => Failed pe | None => Crashed "position" end with
  | a, b => same_outcome a b
  end.
Proof.
  intros Hh. unfold wrapError. assert (Hz : forall l s, pe_line (raw_error (item_pos l) e s) = 0) by (destruct e; reflexivity). rewrite !Hz.
  cbn [Nat.eqb]. rewrite !position_ok. cbv zeta. cbn [same_outcome pe_got pe_expected pe_keyword pe_msg]. destruct e; cbn [raw_error pe_got pe_expected pe_keyword pe_msg]; rewrite ?Hh; repeat split.
Qed.

Definition tails (id : nat) (c : bool) (t1 t2 : list item) : Tails.
Proof. refine {| semi := mkItem id (Some semicolon) c None; tail1 := t1; tail2 := t2 |}; try reflexivity. cbn. intros t [= <-]. reflexivity. Defined.

Lemma prefix_same a b closed s s1 : source None (a ++ semicolon :: b) closed s -> (b = [] -> closed = false) -> source None (a ++ [semicolon]) false s1 ->
  match parse_stmts s1 with
  | Parsed l1 _ => match parse_stmts s with Parsed l _ => exists l2, l = l1 ++ l2 | Diverged => False | _ => True end
  | r => same_outcome r (parse_stmts s)
  end.
Proof.
  intros H1 Hcl H2. destruct (source_states _ _ _ H1) as (l1 & E1 & I1). destruct (source_states _ _ _ H2) as (l2 & E2 & I2).
  pose proof (api_ok s l1 E1) as Ok1. pose proof (api_ok s1 l2 E2) as Ok2.
  unfold parse_stmts in *. rewrite (api_eq s l1 E1) in *. rewrite (api_eq s1 l2 E2) in *.
  assert (Hc : match b with [] => closed | _ => false end = false) by (destruct b; auto).
  destruct (expected_app a 1 None semicolon b closed) as [p1 X1]. destruct (expected_app a 1 None semicolon [] false) as [p2 X2].
  cbn [expected] in X1, X2. rewrite Hc in X1. set (n := 1 + List.length a) in *.
  set (T := tails n false (expected (S n) (Some semicolon) b closed) [mkItem (S n) None true None]).
  assert (Z : forall t, match a ++ semicolon :: t with [] => closed | _ => false end = false) by (intros t; now destruct a).
  rewrite Z in I1. replace (match a ++ [semicolon] with [] => false | _ => false end) with false in I2 by (now destruct a). rewrite X1 in I1. rewrite X2 in I2. clear X1 X2.
  set (pre := mkItem 0 None false None :: front 1 a). set (fu := parse_fuel (List.length l1) + parse_fuel (List.length l2)).
  assert (S1 : init_pstate (number_items s 0 l1) = Some (@st T (@tail1 T) pre [])) by (rewrite I1; reflexivity).
  assert (S2 : init_pstate (number_items s1 0 l2) = Some (@st T (@tail2 T) pre [])) by (rewrite I2; reflexivity).
  rewrite <- (run_ends s l1 E1 (parse_fuel (List.length l2)) _ S1) in *. rewrite <- (run_ends s1 l2 E2 (parse_fuel (List.length l1)) _ S2) in *.
  replace (parse_fuel (List.length l2) + parse_fuel (List.length l1)) with fu in * by (unfold fu; lia). fold fu in Ok1 |- *.
  clearbody fu. assert (Hf : fines (tl pre)).
  { apply front_fines. apply source_semi in H1. now apply Forall_app in H1. }
  destruct fu as [|fu]; [contradiction Ok1|]. unfold ParseStmts, loop in *. rewrite !run_Loop in *. fold stmts_body in *.
  change (fun stmts : list expr => do! consumeOrFail ;; do it <- cur_item ;; if it_eof it then Ret (inr stmts) else if tk it ";" then Ret (inl stmts)
    else do stmt <- parseStmt ;; Ret (inl (stmts ++ [stmt]))) with stmts_body in *.
  destruct (@loop_same T fu (S fu) [] pre [] Hf) as [(k & acc & m & Hk)|Ho].
  - rewrite (Hk _ (or_introl eq_refl)) in *. rewrite (Hk _ (or_intror eq_refl)) in *. destruct k as [|k]; [contradiction Ok1|].
    assert (E : iter body (S fu) stmts_body (S k) acc (@st T (@tail2 T) [] m) = ROk acc (mkP (mkItem (S n) None true None) [] m)) by (rewrite iter_S; reflexivity).
    rewrite E in *. cbn [andThen] in *. rewrite run_Ret in *.
    destruct (iter body (S fu) stmts_body (S k) acc (@st T (@tail1 T) [] m)) as [y s'|e s'|z|] eqn:Ey; cbn [andThen] in *; try exact I; [|destruct (wrapError _ _ _ _); exact I|contradiction].
    rewrite run_Ret in *. exact (loop_grows _ _ _ _ _ _ Ey).
  - destruct (iter body (S fu) stmts_body (S fu) [] (@st T (@tail1 T) pre [])) as [y s'|e s'|z|], (iter body (S fu) stmts_body (S fu) [] (@st T (@tail2 T) pre [])) as [y2 s2|e2 s2|z2|];
      cbn [orel] in Ho; try contradiction; cbn [andThen] in *; rewrite ?run_Ret in *; try contradiction.
    + destruct Ho as [<- _]. exists []. now rewrite app_nil_r.
    + destruct Ho as [<- (pre' & m' & _ & -> & ->)]. set (x := match wrapError s1 _ _ _ with Some _ => _ | None => _ end).
      assert (G : same_outcome x (match wrapError s (item_pos l1) e (@st T (@tail1 T) pre' m') with Some pe => Failed pe | None => Crashed "position" end))
        by (apply fails_same; now rewrite !here_st).
      destruct x eqn:Ex; [exfalso|exact G|exact G|exact G]. unfold x in Ex. clear - Ex. destruct (wrapError _ _ _ _); discriminate Ex.
    + destruct Ho as [<- _]. reflexivity.
Qed.

(** ** The end of the input is needed for all crashes but one *)
Lemma no_end_crash a closed s z : source None (a ++ [semicolon]) closed s -> parse_stmts s = Crashed z -> str_in z ends = false.
Proof.
  intros H1 Hz. destruct (source_states _ _ _ H1) as (l1 & E1 & I1). pose proof (api_ok s l1 E1) as Ok1.
  unfold parse_stmts in *. rewrite (api_eq s l1 E1) in *.
  destruct (expected_app a 1 None semicolon [] closed) as [p1 X1]. cbn [expected] in X1. set (n := 1 + List.length a) in *.
  set (tl1 := [mkItem (S n) None true None]) in *. set (T := tails n closed tl1 tl1).
  replace (match a ++ [semicolon] with [] => closed | _ => false end) with false in I1 by (now destruct a). rewrite X1 in I1. clear X1.
  set (pre := mkItem 0 None false None :: front 1 a).
  assert (S1 : init_pstate (number_items s 0 l1) = Some (@st T tl1 pre [])) by (rewrite I1; reflexivity).
  rewrite <- (run_ends s l1 E1 0 _ S1) in *. set (fu := parse_fuel (List.length l1) + 0) in *. clearbody fu. assert (Hf : fines (tl pre)).
  { apply front_fines. apply source_semi in H1. now apply Forall_app in H1. }
  destruct fu as [|fu]; [contradiction Ok1|]. unfold ParseStmts, loop in *. rewrite !run_Loop in *.
  change (fun stmts : list expr => do! consumeOrFail ;; do it <- cur_item ;; if it_eof it then Ret (inr stmts) else if tk it ";" then Ret (inl stmts)
    else do stmt <- parseStmt ;; Ret (inl (stmts ++ [stmt]))) with stmts_body in *.
  destruct (@loop_same T fu (S fu) [] pre [] Hf) as [(k & acc & m & Hk)|Ho].
  - rewrite (Hk tl1 (or_introl eq_refl)) in *. destruct k as [|k]; [contradiction Ok1|]. rewrite iter_S in Hz.
    assert (E : run body (S fu) (stmts_body acc) (@st T tl1 [] m) = ROk (inr acc) (mkP (mkItem (S n) None true None) [] m)) by reflexivity.
    change (@tail1 T) with tl1 in Hz. rewrite E in Hz. discriminate Hz.
  - change (@tail1 T) with tl1 in Ho. change (@tail2 T) with tl1 in Ho.
    destruct (iter body (S fu) stmts_body (S fu) [] (@st T tl1 pre [])) as [y s'|e s'|z'|]; cbn [andThen orel] in *; try discriminate Hz.
    + unfold wrapError in Hz. rewrite position_ok in Hz. destruct (pe_line _ =? 0); discriminate Hz.
    + injection Hz as <-. apply Ho.
Qed.

(** ** How many statements there are *)

Lemma runs_closed u v t : t_kind t = ";" -> Forall (fun t => t_kind t <> ";") u -> runs true (u ++ t :: v) = runs false v.
Proof.
  intros Ht. induction 1 as [|x u Hx _ IH]; cbn [app runs]; [now rewrite Ht|]. apply String.eqb_neq in Hx. now rewrite Hx.
Qed.
Lemma runs_last u : Forall (fun t => t_kind t <> ";") u -> runs true u = 0.
Proof. induction 1 as [|x u Hx _ IH]; cbn [runs]; [reflexivity|]. apply String.eqb_neq in Hx. now rewrite Hx. Qed.

Lemma first_semi ts : Forall (fun t => t_kind t <> ";") ts \/ exists u t v, ts = u ++ t :: v /\ t_kind t = ";" /\ Forall (fun t => t_kind t <> ";") u.
Proof.
  induction ts as [|t r IH]; [left; constructor|]. destruct (String.eqb_spec (t_kind t) ";") as [E|E]; [right; exists [], t, r; auto|].
  destruct IH as [IH|(u & x & v & -> & Hx & Hu)]; [left; now constructor|]. right. exists (t :: u), x, v. auto.
Qed.

Lemma in_front a : forall id i, In i (front id a) -> exists t, In t a /\ it_tok i = Some t.
Proof. induction a as [|x a IH]; intros id i Hi; [contradiction|]. destruct Hi as [<-|Hi]; [exists x; cbn; auto|]. destruct (IH _ _ Hi) as (t & ? & ?). exists t. cbn. auto. Qed.

Definition suffix (L : list item) (s : pstate) : Prop := exists X, L = X ++ here s :: rest s.
Lemma suffix_advance L s : suffix L s -> suffix L (advance s).
Proof. intros [X E]. destruct s as [h [|i r] m]; cbn in *; [exists X; exact E|]. exists (X ++ [h]). rewrite <- app_assoc. exact E. Qed.
Lemma suffix_run L f A (p : prog A) s a s' : suffix L s -> run body f p s = ROk a s' -> suffix L s'.
Proof.
  intros Hs E. assert (G : inv_out (suffix L) (run body f p s)); [|now rewrite E in G].
  apply run_inv; [apply suffix_advance|intros s0 Hx; exact Hx|intros s0 s1 Hx _; exact Hx|exact Hs].
Qed.

Section Count.
  Variable fin : item.
  Hypothesis (fin_eof : it_eof fin = true) (fin_err : it_err fin = None).
  Variable f : nat.

  Definition left_ (s : pstate) (ts : list tok) : Prop := (exists id, rest s = front id ts ++ [fin]) \/ here s = fin /\ rest s = [] /\ ts = [].

  Lemma stmt_stops id t r m e s' : Forall semi_ok (t :: r) -> t_kind t <> ";" ->
    run body (S f) parseStmt (mkP (mkItem id (Some t) false None) (front (S id) r ++ [fin]) m) = ROk e s' ->
    exists ts, left_ s' ts /\ Forall semi_ok ts /\ runs true r = runs false ts.
  Proof.
    intros Hok Ht E. pose proof (parseStmt_end _ _ _ _ E) as Hb.
    assert (Hs : suffix (front id (t :: r) ++ [fin]) s') by (eapply suffix_run; [|exact E]; exists []; reflexivity).
    destruct (first_semi r) as [Hn|(u & x & v & -> & Hx & Hu)].
    - exists []. split; [|split; [constructor|now apply runs_last]]. right. destruct Hs as [X Hs].
      destruct (@exists_last _ (here s' :: rest s') ltac:(discriminate)) as (L & last & EL). rewrite EL, app_assoc in Hs. apply app_inj_tail in Hs as [Hs <-].
      destruct L as [|h L].
      + cbn [app] in EL. injection EL as -> ->. auto.
      + exfalso. cbn [app] in EL. injection EL as EL _. rewrite EL in Hb. assert (Hi : In h (front id (t :: r))) by (rewrite Hs; apply in_or_app; right; now left).
        destruct (in_front _ _ _ Hi) as (y & Hy & Hyt). unfold between in Hb. rewrite Hyt in Hb. destruct Hy as [<-|Hy]; [congruence|].
        rewrite Forall_forall in Hn. exact (Hn _ Hy Hb).
    - assert (Hxs : t_str x = ";") by (inversion Hok as [|? ? _ Hr]; apply Forall_app in Hr as [_ Hr]; inversion Hr; auto).
      exists v. split; [|split; [|now apply runs_closed]].
      2: { inversion Hok as [|? ? _ Hr]. apply Forall_app in Hr as [_ Hr]. now inversion Hr. }
      rewrite front_app in E. cbn [front] in E. rewrite <- app_assoc in E. cbn [app] in E.
      set (n := S id + List.length u) in *. set (tl1 := front (S n) v ++ [fin]) in *.
      assert (T : { T : Tails | @semi T = mkItem n (Some x) false None /\ @tail1 T = tl1 /\ @tail2 T = tl1 }).
      { unshelve eexists {| semi := mkItem n (Some x) false None; tail1 := tl1; tail2 := tl1 |}; cbn; auto. intros y [= <-]. exact Hxs. }
      destruct T as (T & Esemi & E1 & E2). set (pre := mkItem id (Some t) false None :: front (S id) u).
      assert (Hf : fines pre).
      { change pre with (front id (t :: u)). apply front_fines. inversion Hok as [|? ? ? Hr]. apply Forall_app in Hr as [Hr _]. now constructor. }
      pose proof (@stmt_same T (S f) pre m Hf) as Hsame. unfold same in Hsame. rewrite E1, E2 in Hsame. unfold st at 1 2 in Hsame. unfold pre in Hsame. rewrite Esemi, E in Hsame.
      destruct Hsame as [_ (pre' & m' & _ & -> & _)]. left. exists (S n). destruct pre' as [|i p']; [cbn; now rewrite E1|]. exfalso.
      destruct Hs as [X Hs]. cbn [st here rest] in Hs, Hb. rewrite Esemi, E1 in Hs.
      cbn [front app] in Hs. rewrite front_app in Hs. cbn [front] in Hs. rewrite <- app_assoc in Hs. cbn [app] in Hs. fold n tl1 in Hs.
      change (front id (t :: u) ++ mkItem n (Some x) false None :: tl1 = X ++ (i :: p') ++ mkItem n (Some x) false None :: tl1) in Hs.
      rewrite app_assoc in Hs. apply app_inv_tail in Hs.
      assert (Hi : In i (front id (t :: u))) by (rewrite Hs; apply in_or_app; right; now left).
      destruct (in_front _ _ _ Hi) as (y & Hy & Hyt). unfold between in Hb. rewrite Hyt in Hb. destruct Hy as [<-|Hy]; [congruence|].
      rewrite Forall_forall in Hu. exact (Hu _ Hy Hb).
  Qed.

  Lemma loop_count n : forall acc s ts y s', Forall semi_ok ts -> left_ s ts -> iter body (S f) stmts_body n acc s = ROk y s' ->
    List.length y = List.length acc + runs false ts.
  Proof.
    induction n as [|n IH]; intros acc s ts y s' Hok Hl E; [discriminate|]. rewrite iter_S in E.
    unfold stmts_body in E at 1. unfold consumeOrFail, cur_item in E. cbn [bind] in E. rewrite run_Consume in E.
    destruct ts as [|t r].
    - assert (Ha : here (advance s) = fin) by (destruct Hl as [[id Hl]|(Hh & Hl & _)]; unfold advance; rewrite Hl; auto).
      rewrite Ha, fin_err in E. cbn [bind] in E. rewrite run_Cur, Ha, fin_eof, run_Ret in E. injection E as <- _. cbn. lia.
    - destruct Hl as [[id Hl]|(_ & _ & Hl)]; [|discriminate Hl]. assert (Ha : advance s = mkP (mkItem id (Some t) false None) (front (S id) r ++ [fin]) (memo s)) by (unfold advance; rewrite Hl; reflexivity).
      rewrite Ha in E. cbn [here it_err bind] in E. rewrite run_Cur in E. cbn [here it_eof] in E. cbn [runs].
      destruct (String.eqb_spec (t_kind t) ";") as [Et|Et].
      + assert (Hk : tk (mkItem id (Some t) false None) ";" = true) by (unfold tk, tks, cur_kind; cbn [it_tok]; now rewrite Et).
        rewrite Hk, run_Ret in E. apply (IH _ _ r _ _) in E; [exact E|now inversion Hok|]. left. now eexists.
      + destruct (tk _ ";") eqn:Hk; [apply tk_semi in Hk; exfalso; exact (Et Hk)|]. rewrite run_bind in E.
        destruct (run body (S f) parseStmt _) as [e s2| | |] eqn:Es; try discriminate. cbn [andThen] in E. rewrite run_Ret in E.
        destruct (stmt_stops _ _ _ _ _ _ Hok Et Es) as (ts & Hl2 & Hok2 & Hr). rewrite (IH _ _ _ _ _ Hok2 Hl2 E), Hr, app_length. cbn. lia.
  Qed.
End Count.

Lemma statements_count ts s l sp : source None ts false s -> parse_stmts s = Parsed l sp -> List.length l = runs false ts.
Proof.
  intros H1 Hp. destruct (source_states _ _ _ H1) as (l1 & E1 & I1). unfold parse_stmts in Hp. rewrite (api_eq s l1 E1) in Hp.
  destruct (expected_open ts 1 None) as [n X]. rewrite X in I1. set (i0 := mkItem 0 None (match ts with [] => false | _ => false end) None) in I1.
  assert (S1 : init_pstate (number_items s 0 l1) = Some (mkP i0 (front 1 ts ++ [mkItem n None true None]) [])) by (rewrite I1; reflexivity).
  rewrite <- (run_ends s l1 E1 0 _ S1) in Hp. destruct (parse_fuel (List.length l1) + 0) as [|fu]; [discriminate Hp|].
  unfold ParseStmts, loop in Hp. rewrite run_Loop in Hp.
  change (fun stmts : list expr => do! consumeOrFail ;; do it <- cur_item ;; if it_eof it then Ret (inr stmts) else if tk it ";" then Ret (inl stmts)
    else do stmt <- parseStmt ;; Ret (inl (stmts ++ [stmt]))) with stmts_body in Hp.
  destruct (iter _ _ _ _ _ _) as [y s'|e s'|z|] eqn:E; cbn [andThen] in Hp; try discriminate; [|destruct (wrapError _ _ _ _); discriminate].
  rewrite run_Ret in Hp. injection Hp as <- _.
  eapply (loop_count (mkItem n None true None) eq_refl eq_refl) in E; [exact E|eapply source_semi; exact H1|left; now exists 1].
Qed.
