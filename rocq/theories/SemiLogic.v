(** Proofs for C43: the functions of the parser on two inputs that are the same up to a semicolon. *)
From Coq Require Import String List Arith Bool.
From Verif Require Import Str Keyword Lexer Ast AstPos AstSubs Prog RunFacts ParserCommon ParserExpr ParserQuery ParserTable ParserAlter ParserView ParserSystem Parser.
Import ListNotations.
Local Open Scope string_scope.
Local Open Scope nat_scope.

(** What follows the semicolon in the two inputs. *)
Class Tails := { semi : item; tail1 : list item; tail2 : list item; semi_tok : cur_kind semi = ";"; semi_err : it_err semi = None;
  semi_str : forall t, it_tok semi = Some t -> t_str t = ";" }.

Definition nosemi (it : item) : Prop := cur_kind it <> ";".
Definition fine (it : item) : Prop := it_tok it <> None /\ it_err it = None /\ forall t, it_tok it = Some t -> t_kind t = ";" -> t_str t = ";".

(** The crashes that need the end of the input. *)
Definition ends : list string :=
  ["p.current().End"; "p.current().ToString()"; "parseColumnTypeArgs: peekToken.Kind"; "parseOrderExpr: nextToken.ToString()"; "parseDefaultClause: nextToken.String"].

Section Logic.
  Context `{Tails}.

  (** The state in which the items [pre] and the semicolon are left. *)
  Definition st (t : list item) (pre : list item) (m : list nat) : pstate :=
    match pre with [] => mkP semi t m | i :: r => mkP i (r ++ semi :: t) m end.
  Definition cur (pre : list item) : item := hd semi pre.
  Definition fines : list item -> Prop := Forall fine.

  Definition both (s s' : pstate) : Prop := exists pre m, fines pre /\ s = st tail1 pre m /\ s' = st tail2 pre m.
  Definition orel {A} (r r' : outcome A) : Prop :=
    match r, r' with
    | ROk a s, ROk a' s' => a = a' /\ both s s'
    | RErr e s, RErr e' s' => e = e' /\ both s s'
    | RPanic z, RPanic z' => z = z' /\ str_in z ends = false
    | ROOF, ROOF => True
    | _, _ => False
    end.

  Lemma cur_fine pre : fines pre -> fine (cur pre).
  Proof.
    intros [|i r Hi Hr]; [|exact Hi]. split; [|split; [exact semi_err|intros t Ht _; exact (semi_str _ Ht)]]. intros E. pose proof semi_tok as Hs. unfold cur_kind in Hs. cbn in E. rewrite E in Hs. discriminate.
  Qed.
  Lemma tl_fines pre : fines pre -> fines (tl pre).
  Proof. intros [|i r Hi Hr]; [constructor|exact Hr]. Qed.
  Lemma here_st t pre m : here (st t pre m) = cur pre.
  Proof. now destruct pre. Qed.
  Lemma memo_st t pre m : memo (st t pre m) = m.
  Proof. now destruct pre. Qed.
  Lemma advance_st t pre m : nosemi (cur pre) -> advance (st t pre m) = st t (tl pre) m.
  Proof. destruct pre as [|i [|j r]]; [intros Hn; exfalso; exact (Hn semi_tok)| |]; reflexivity. Qed.
  Lemma restore_st t pre m pre' m' : restore (st t pre m) (st t pre' m') = st t pre m'.
  Proof. unfold restore. rewrite memo_st. now destruct pre. Qed.
  Lemma failed_st t t' pre m : failed_before (st t pre m) = failed_before (st t' pre m).
  Proof. unfold failed_before. now rewrite !here_st, !memo_st. Qed.
  Lemma note_st t pre m pre' m' : note_failure (st t pre m) (st t pre' m') =
    st t pre (match it_tok (cur pre) with Some _ => it_id (cur pre) :: m' | None => m' end).
  Proof. unfold note_failure. rewrite here_st, memo_st. now destruct pre. Qed.

  Definition same (f : nat) {A} (p : prog A) (pre : list item) (m : list nat) : Prop :=
    orel (run body f p (st tail1 pre m)) (run body f p (st tail2 pre m)).

  Definition calls (f : nat) : Prop := forall n pre m, fines pre -> same f (body n) pre m.

  Section Rules.
    Context {f : nat} (Hc : calls f).

    Definition at_ (pre : list item) (m : list nat) {A} (p : prog A) : Prop := same (S f) p pre m.

    Lemma both_st pre m : fines pre -> both (st tail1 pre m) (st tail2 pre m).
    Proof. intros. exists pre, m. auto. Qed.
    Lemma s_ret A pre m (a : A) : fines pre -> at_ pre m (Ret a).
    Proof. intros. split; [reflexivity|now apply both_st]. Qed.
    Lemma s_fail A pre m e : fines pre -> at_ pre m (@Fail A e).
    Proof. intros. split; [reflexivity|now apply both_st]. Qed.
    Lemma s_panic A pre m z : str_in z ends = false -> at_ pre m (@Panic A z).
    Proof. intros. now split. Qed.
    Lemma s_cur A pre m (k : item -> prog A) : at_ pre m (k (cur pre)) -> at_ pre m (Cur k).
    Proof. unfold at_, same. now rewrite !run_Cur, !here_st. Qed.
    Lemma s_consume A pre m (k : option string -> prog A) : fines pre -> nosemi (cur pre) -> at_ (tl pre) m (k None) -> at_ pre m (Consume k).
    Proof.
      unfold at_, same. intros Hp Hn. rewrite !run_Consume, !(advance_st _ _ _ Hn), !here_st.
      destruct (cur_fine _ (tl_fines _ Hp)) as (_ & -> & _). auto.
    Qed.
    Lemma s_peek A pre m (k : option tok + string -> prog A) : fines pre -> nosemi (cur pre) -> at_ pre m (k (inl (it_tok (cur (tl pre))))) -> at_ pre m (Peek k).
    Proof.
      unfold at_, same. intros Hp Hn. rewrite !run_Peek. unfold do_peek. rewrite !(advance_st _ _ _ Hn), !here_st.
      destruct (cur_fine _ (tl_fines _ Hp)) as (_ & -> & _). auto.
    Qed.
    Lemma orel_bind A B (r r' : outcome A) (k k' : A -> pstate -> outcome B) : orel r r' ->
      (forall a pre m, fines pre -> orel (k a (st tail1 pre m)) (k' a (st tail2 pre m))) -> orel (andThen r k) (andThen r' k').
    Proof.
      intros Hr Hk. destruct r, r'; cbn [andThen orel] in *; try contradiction; try exact Hr.
      destruct Hr as [<- (pre & m & Hp & -> & ->)]. now apply Hk.
    Qed.
    Lemma s_bind A B pre m (p : prog A) (k : A -> prog B) : at_ pre m p -> (forall a pre' m', fines pre' -> at_ pre' m' (k a)) -> at_ pre m (bind p k).
    Proof. unfold at_, same. intros H1 H2. rewrite !run_bind. apply orel_bind; auto. Qed.
    Lemma s_assoc A B C pre m (p : prog A) (q : A -> prog B) (k : B -> prog C) : at_ pre m (bind p (fun x => bind (q x) k)) -> at_ pre m (bind (bind p q) k).
    Proof.
      unfold at_, same. rewrite !run_bind. intros Hx.
      assert (E : forall t, andThen (andThen (run body (S f) p (st t pre m)) (fun a s' => run body (S f) (q a) s')) (fun a s' => run body (S f) (k a) s') =
        andThen (run body (S f) p (st t pre m)) (fun a s' => run body (S f) (bind (q a) k) s')).
      { intros t. destruct (run body (S f) p (st t pre m)); cbn [andThen]; try reflexivity. now rewrite run_bind. }
      rewrite !E. exact Hx.
    Qed.
    Lemma s_call A pre m n (k : expr -> prog A) : fines pre -> (forall e pre' m', fines pre' -> at_ pre' m' (k e)) -> at_ pre m (Call n k).
    Proof. unfold at_, same. intros Hp Hk. rewrite !run_Call. apply orel_bind; auto. apply Hc, Hp. Qed.
    Lemma s_interval A pre m (yes : expr -> prog A) no : fines pre -> (forall e pre' m', fines pre' -> at_ pre' m' (yes e)) -> (forall m', at_ pre m' no) -> at_ pre m (TryInterval yes no).
    Proof.
      unfold at_, same. intros Hp Hy Hn. rewrite !run_TryInterval, (failed_st tail1 tail2). destruct (failed_before _); [apply Hn|].
      pose proof (Hc NInterval pre m Hp) as Hi. unfold same in Hi.
      destruct (run body f (body NInterval) (st tail1 pre m)), (run body f (body NInterval) (st tail2 pre m)); cbn [orel] in Hi; try contradiction; try exact Hi.
      - destruct Hi as [<- (pre' & m' & Hp' & -> & ->)]. now apply Hy.
      - destruct Hi as [<- (pre' & m' & Hp' & -> & ->)]. rewrite !note_st. apply Hn.
    Qed.
    Lemma s_attempt A B pre m (p : prog B) keep (k : err + B -> prog A) : fines pre -> at_ pre m p -> (forall r pre' m', fines pre' -> at_ pre' m' (k r)) -> at_ pre m (Attempt p keep k).
    Proof.
      unfold at_, same. intros Hp H1 Hk. rewrite !run_Attempt.
      destruct (run body (S f) p (st tail1 pre m)), (run body (S f) p (st tail2 pre m)); cbn [orel] in H1; try contradiction; try exact H1;
        destruct H1 as [<- (pre' & m' & Hp' & -> & ->)]; rewrite !restore_st.
      - destruct (keep (inr a)); now apply Hk.
      - destruct (keep (inl e)); now apply Hk.
    Qed.
    Lemma s_bind_tryKws A pre m l (k : bool -> prog A) : fines pre -> at_ pre m (try_keywords l) -> (forall pre' m', fines pre' -> at_ pre' m' (k true)) ->
      (forall m', at_ pre m' (k false)) -> at_ pre m (bind (tryKws l) k).
    Proof.
      unfold at_, same. intros Hp H1 Hk Hn. unfold tryKws. cbn [bind]. rewrite !run_Attempt.
      destruct (run body (S f) (try_keywords l) (st tail1 pre m)) as [[]| | |], (run body (S f) (try_keywords l) (st tail2 pre m)) as [[]| | |]; cbn [orel] in H1; try contradiction; try exact H1;
        destruct H1 as [E (pre' & m' & Hp' & -> & ->)]; try discriminate E; rewrite ?restore_st; cbn [bind]; [now apply Hk|now apply Hn].
    Qed.
    Lemma s_loop A X Y pre m (x : X) (bd : X -> prog (X + Y)) (k : Y -> prog A) : fines pre -> (forall x pre' m', fines pre' -> at_ pre' m' (bd x)) ->
      (forall y pre' m', fines pre' -> at_ pre' m' (k y)) -> at_ pre m (Loop x bd k).
    Proof.
      unfold at_, same. intros Hp Hb Hk. rewrite !run_Loop. apply orel_bind; auto. generalize (S f) at 2 4 as n. intros n. revert x pre m Hp.
      induction n as [|n IH]; intros x pre m Hp; [exact I|]. rewrite !iter_S. pose proof (Hb x pre m Hp) as H1.
      destruct (run body (S f) (bd x) (st tail1 pre m)) as [[x'|y] s1| | |], (run body (S f) (bd x) (st tail2 pre m)) as [[x2|y2] s2| | |]; cbn [orel] in H1; try contradiction; try exact H1; destruct H1 as [E (pre' & m' & Hp' & -> & ->)]; try discriminate E.
      - injection E as <-. now apply IH.
      - injection E as <-. split; [reflexivity|now apply both_st].
    Qed.

    (** Programs that only look at the current token and the next. *)
    Definition pure {A} (p : prog A) : Prop := forall pre m, fines pre -> nosemi (cur pre) -> exists a, forall t, run body (S f) p (st t pre m) = ROk a (st t pre m).
    Lemma p_ret A (a : A) : pure (Ret a).
    Proof. intros pre m _ _. now exists a. Qed.
    Lemma p_cur A (k : item -> prog A) : (forall i, pure (k i)) -> pure (Cur k).
    Proof. intros Hk pre m Hp Hn. destruct (Hk (cur pre) pre m Hp Hn) as [a Ha]. exists a. intros t. now rewrite run_Cur, here_st. Qed.
    Lemma p_peek A (k : option tok + string -> prog A) : (forall r, pure (k r)) -> pure (Peek k).
    Proof.
      intros Hk pre m Hp Hn. destruct (Hk (inl (it_tok (cur (tl pre)))) pre m Hp Hn) as [a Ha]. exists a. intros t.
      rewrite run_Peek. unfold do_peek. rewrite !(advance_st _ _ _ Hn), !here_st. destruct (cur_fine _ (tl_fines _ Hp)) as (_ & -> & _). apply Ha.
    Qed.
    Lemma p_bind A B (p : prog A) (k : A -> prog B) : pure p -> (forall a, pure (k a)) -> pure (bind p k).
    Proof.
      intros Hp Hk pre m Hf Hn. destruct (Hp pre m Hf Hn) as [a Ha]. destruct (Hk a pre m Hf Hn) as [b Hb]. exists b. intros t.
      rewrite run_bind, Ha. apply Hb.
    Qed.
    Lemma s_pure A pre m (p : prog A) : pure p -> fines pre -> nosemi (cur pre) -> at_ pre m p.
    Proof. intros H1 H2 H3. destruct (H1 pre m H2 H3) as [a Ha]. unfold at_, same. rewrite !Ha. split; [reflexivity|now apply both_st]. Qed.
    Lemma s_pure_bind A B pre m (p : prog A) (k : A -> prog B) : pure p -> fines pre -> nosemi (cur pre) -> (forall a, at_ pre m (k a)) -> at_ pre m (bind p k).
    Proof. intros H1 H2 H3 H4. destruct (H1 pre m H2 H3) as [a Ha]. unfold at_, same. rewrite !run_bind, !Ha. apply H4. Qed.
  End Rules.
End Logic.
Opaque at_ pure.

Definition sm `{Tails} {f : nat} {A} (p : prog A) : Prop := forall pre m, fines pre -> @at_ _ f pre m A p.

(** ** Tokens that are no semicolon *)
Lemma kw_no it k : kw it k = true -> nosemi it.
Proof.
  unfold kw, nosemi, cur_kind. destruct (it_tok it); [|discriminate]. intros E. apply andb_true_iff in E. destruct E as [E _].
  apply String.eqb_eq in E. rewrite E. discriminate.
Qed.
Lemma kws_no it l : kws it l = true -> nosemi it.
Proof. unfold kws. intros E. apply existsb_exists in E. destruct E as (k & _ & E). exact (kw_no _ _ E). Qed.
Lemma tks_no it l : tks it l = true -> str_in ";" l = false -> nosemi it.
Proof.
  unfold tks, nosemi. destruct (str_in (cur_kind it) l) eqn:E; [intros _ E' E2; congruence|]. unfold cur_kind. destruct (it_tok it); [|discriminate].
  intros E1 _. rewrite !andb_true_iff in E1. destruct E1 as [[E1 _] _]. apply String.eqb_eq in E1. rewrite E1. discriminate.
Qed.
Lemma tk_no it k : tk it k = true -> String.eqb ";" k = false -> nosemi it.
Proof. intros E H. apply (tks_no _ _ E). cbn [str_in existsb]. now rewrite H. Qed.
Lemma kind_no it t k : it_tok it = Some t -> String.eqb (t_kind t) k = true -> String.eqb ";" k = false -> nosemi it.
Proof. unfold nosemi, cur_kind. intros -> E H. apply String.eqb_eq in E. rewrite E. now intros ->. Qed.
Lemma ckind_no it k : String.eqb (cur_kind it) k = true -> String.eqb ";" k = false -> nosemi it.
Proof. unfold nosemi. intros E H. apply String.eqb_eq in E. rewrite E. now intros ->. Qed.
Lemma str_no it t k : fine it -> it_tok it = Some t -> String.eqb (t_str t) k = true -> String.eqb ";" k = false -> nosemi it.
Proof. intros (_ & _ & F) E H Hk Hn. unfold cur_kind in Hn. rewrite E in Hn. rewrite (F _ E Hn) in H. congruence. Qed.
Lemma none_no it : fine it -> it_tok it = None -> False.
Proof. now intros [H _]. Qed.
