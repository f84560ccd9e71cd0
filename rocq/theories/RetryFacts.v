(** The memo of failed INTERVAL attempts does not change the outcome of a run. *)
From Coq Require Import String List Arith Bool Lia.
From Verif Require Import Str Lexer Ast Prog Items ItemsFacts RunFacts Parser ErrorRender ParserApi Retry.
Import ListNotations.
Local Open Scope nat_scope.

Section RetryEq.
  Variable body : nt -> prog expr.

  Definition niter (fuel : nat) {X Y} (bd : X -> prog (X + Y)) : nat -> X -> pstate -> outcome Y :=
    fix it (n : nat) (x : X) (s : pstate) : outcome Y :=
    match n with
    | O => ROOF
    | S m =>
        match retry body fuel (bd x) s with
        | ROk (inl x') s' => it m x' s'
        | ROk (inr y) s' => ROk y s'
        | RErr e s' => RErr e s'
        | RPanic site => RPanic site
        | ROOF => ROOF
        end
    end.

  Lemma retry_Attempt f A B (p : prog B) keep (k : err + B -> prog A) s :
    retry body (S f) (Attempt p keep k) s =
    match retry body (S f) p s with
    | ROk a s' => retry body (S f) (k (inr a)) (if keep (inr a) then s' else s)
    | RErr e s' => retry body (S f) (k (inl e)) (if keep (inl e) then s' else s)
    | RPanic z => RPanic z
    | ROOF => ROOF
    end.
  Proof. reflexivity. Qed.
  Lemma retry_TryInterval f A (yes : expr -> prog A) no s :
    retry body (S f) (TryInterval yes no) s =
    match retry body f (body NInterval) s with
    | ROk e s' => retry body (S f) (yes e) s'
    | RErr _ s' => retry body (S f) no s
    | RPanic z => RPanic z
    | ROOF => ROOF
    end.
  Proof. reflexivity. Qed.
  Lemma retry_Call f A n (k : expr -> prog A) s :
    retry body (S f) (Call n k) s = andThen (retry body f (body n) s) (fun e s' => retry body (S f) (k e) s').
  Proof. reflexivity. Qed.
  Lemma retry_Loop f A X Y (x : X) (bd : X -> prog (X + Y)) (k : Y -> prog A) s :
    retry body (S f) (Loop x bd k) s = andThen (niter (S f) bd (S f) x s) (fun y s' => retry body (S f) (k y) s').
  Proof. reflexivity. Qed.
  Lemma retry_Peek f A (k : option tok + string -> prog A) s :
    retry body (S f) (Peek k) s = retry body (S f) (k (fst (do_peek s))) (snd (do_peek s)).
  Proof. cbn. destruct (do_peek s). reflexivity. Qed.

  (** The lexer part of a state. *)
  Definition bare (s : pstate) : pstate := mkP (here s) (rest s) [].
  Definition bare_out {A} (r : outcome A) : outcome A :=
    match r with
    | ROk a s => ROk a (bare s)
    | RErr e s => RErr e (bare s)
    | RPanic z => RPanic z
    | ROOF => ROOF
    end.

  Lemma bare_advance s : bare (advance s) = advance (bare s).
  Proof. unfold advance. destruct s as [h [|i r] m]; reflexivity. Qed.
  Lemma bare_peek s : do_peek (bare s) = (fst (do_peek s), bare (snd (do_peek s))).
  Proof. unfold do_peek. rewrite <- bare_advance. cbn [here bare]. destruct (it_err (here (advance s))); reflexivity. Qed.

  Variable its : list item.
  Hypothesis its_id : forall k it, nth_error its k = Some it -> it_id it = k.

  (** The operator reading fails at this place, whenever there is fuel enough. *)
  Definition fails_at (i : item) (r : list item) : Prop :=
    exists e s' g0, forall g, g0 <= g -> retry body g (body NInterval) (mkP i r []) = RErr e s'.

  Definition place (i : item) (r : list item) : Prop := exists pre, its = (pre ++ i :: r)%list.

  (** A state is a place in the input, and the attempts noted in its memo do fail. *)
  Definition sound (s : pstate) : Prop :=
    place (here s) (rest s) /\ forall i r, place i r -> In (it_id i) (memo s) -> fails_at i r.

  Lemma place_inj i r i' r' : place i r -> place i' r' -> it_id i = it_id i' -> i = i' /\ r = r'.
  Proof.
    intros [p Hp] [p' Hp'] He.
    assert (Hn : nth_error its (List.length p) = Some i) by (rewrite Hp, nth_error_app2, Nat.sub_diag; [reflexivity | lia]).
    assert (Hn' : nth_error its (List.length p') = Some i') by (rewrite Hp', nth_error_app2, Nat.sub_diag; [reflexivity | lia]).
    apply its_id in Hn, Hn'. assert (Hl : List.length p = List.length p') by congruence.
    rewrite Hp in Hp'. clear Hp Hn Hn'. revert p' Hp' Hl. induction p as [|x p IH]; intros [|y p'] Hp Hl; try discriminate.
    - cbn in Hp. injection Hp as -> ->. auto.
    - cbn in Hp, Hl. injection Hp as _ Hp. injection Hl as Hl. now apply (IH p').
  Qed.

  Lemma sound_advance s : sound s -> sound (advance s).
  Proof.
    intros [[p Hp] Hm]. unfold advance. destruct (rest s) as [|i r] eqn:E; [split; [exists p; now rewrite E | exact Hm]|].
    split; [|exact Hm]. exists (p ++ [here s])%list. cbn. rewrite <- app_assoc. exact Hp.
  Qed.
  Lemma sound_peek s : sound s -> sound (snd (do_peek s)).
  Proof. intros H. unfold do_peek. destruct (it_err _); cbn; [now apply sound_advance | exact H]. Qed.
  Lemma sound_restore s s' : sound s -> sound s' -> sound (restore s s').
  Proof. intros [H1 _] [_ H2]. split; [exact H1 | exact H2]. Qed.

  (** From some fuel on, the run without memo ends in the same way. *)
  Definition same {A} (p : prog A) (s : pstate) (r : outcome A) : Prop :=
    (exists g0, forall g, g0 <= g -> retry body g p (bare s) = bare_out r) /\
    match r with ROk _ s' | RErr _ s' => sound s' | _ => True end.

  Lemma step g0 (P : nat -> Prop) : (forall g, g0 <= g -> P (S g)) -> forall g, S g0 <= g -> P g.
  Proof. intros H [|g] Hg; [lia|]. apply H. lia. Qed.

  Lemma retry_same : forall f A (p : prog A) s r, sound s -> run body f p s = r -> r <> ROOF -> same p s r.
  Proof.
    induction f as [|f IHf]; intros A p; [intros s r _ <- H; now destruct H|].
    induction p as [A a|A e|A z|A k IH|A k IH|A k IH|A yes IHy no IHn|A n k IH|A C p IHp keep k IH|A X Y x bd IHb k IH];
      intros s r Hs Hr Hn.
    - subst r. split; [|exact Hs]. exists 1. apply step. reflexivity.
    - subst r. split; [|exact Hs]. exists 1. apply step. reflexivity.
    - subst r. split; [|exact I]. exists 1. apply step. reflexivity.
    - rewrite run_Cur in Hr. destruct (IH _ s r Hs Hr Hn) as [[g0 Hg] H2]. split; [|exact H2].
      exists (S g0). apply step. intros g Hle. exact (Hg (S g) ltac:(lia)).
    - rewrite run_Consume in Hr. destruct (IH _ _ r (sound_advance _ Hs) Hr Hn) as [[g0 Hg] H2]. split; [|exact H2].
      exists (S g0). apply step. intros g Hle. specialize (Hg (S g) ltac:(lia)). rewrite bare_advance in Hg.
      rewrite <- Hg. change (retry body (S g) (Consume k) (bare s)) with
        (retry body (S g) (k (it_err (here (advance (bare s))))) (advance (bare s))). now rewrite <- bare_advance.
    - rewrite run_Peek in Hr. destruct (IH _ _ r (sound_peek _ Hs) Hr Hn) as [[g0 Hg] H2]. split; [|exact H2].
      exists (S g0). apply step. intros g Hle. rewrite retry_Peek, bare_peek. exact (Hg (S g) ltac:(lia)).
    - rewrite run_TryInterval in Hr. destruct (failed_before s) eqn:Ef.
      + (* noted before: the attempt would fail again *)
        destruct (IHn s r Hs Hr Hn) as [[g0 Hg] H2]. split; [|exact H2].
        unfold failed_before in Ef. apply existsb_exists in Ef as (j & Hj & Ej). apply Nat.eqb_eq in Ej. subst j.
        destruct Hs as [Hp Hm]. destruct (Hm _ _ Hp Hj) as (e & s' & g1 & Hf).
        exists (S (g0 + g1)). apply step. intros g Hle. rewrite retry_TryInterval. unfold bare at 1. rewrite Hf by lia.
        apply Hg. lia.
      + destruct (run body f (body NInterval) s) as [e s'|e s'|z|] eqn:E.
        * destruct (IHf _ _ _ _ Hs E) as [[g1 Hg1] Hs']; [discriminate|].
          destruct (IHy e s' r Hs' Hr Hn) as [[g0 Hg] H2]. split; [|exact H2].
          exists (S (g0 + g1)). apply step. intros g Hle. rewrite retry_TryInterval, Hg1 by lia. cbn [bare_out]. apply Hg. lia.
        * destruct (IHf _ _ _ _ Hs E) as [[g1 Hg1] Hs']; [discriminate|].
          assert (Hns : sound (note_failure s s')).
          { destruct Hs as [Hp _], Hs' as [_ Hm]. split; [exact Hp|]. intros i q Hpl Hin. unfold note_failure in Hin. cbn [memo] in Hin.
            destruct (it_tok (here s)); [|now apply Hm]. destruct Hin as [Hin|Hin]; [|now apply Hm].
            destruct (place_inj _ _ _ _ Hp Hpl Hin) as [<- <-]. exists e, (bare s'), g1. exact Hg1. }
          destruct (IHn _ r Hns Hr Hn) as [[g0 Hg] H2]. split; [|exact H2].
          exists (S (g0 + g1)). apply step. intros g Hle. rewrite retry_TryInterval, Hg1 by lia. cbn [bare_out]. apply Hg. lia.
        * destruct (IHf _ _ _ _ Hs E) as [[g1 Hg1] _]; [discriminate|]. subst r. split; [|exact I].
          exists (S g1). apply step. intros g Hle. rewrite retry_TryInterval, Hg1 by lia. reflexivity.
        * now destruct Hn.
    - rewrite run_Call in Hr. destruct (run body f (body n) s) as [e s'|e s'|z|] eqn:E; cbn [andThen] in Hr.
      + destruct (IHf _ _ _ _ Hs E) as [[g1 Hg1] Hs']; [discriminate|].
        destruct (IH e s' r Hs' Hr Hn) as [[g0 Hg] H2]. split; [|exact H2].
        exists (S (g0 + g1)). apply step. intros g Hle. rewrite retry_Call, Hg1 by lia. cbn [bare_out andThen]. apply Hg. lia.
      + destruct (IHf _ _ _ _ Hs E) as [[g1 Hg1] Hs']; [discriminate|]. subst r. split; [|exact Hs'].
        exists (S g1). apply step. intros g Hle. rewrite retry_Call, Hg1 by lia. reflexivity.
      + destruct (IHf _ _ _ _ Hs E) as [[g1 Hg1] _]; [discriminate|]. subst r. split; [|exact I].
        exists (S g1). apply step. intros g Hle. rewrite retry_Call, Hg1 by lia. reflexivity.
      + now destruct Hn.
    - rewrite run_Attempt in Hr. destruct (run body (S f) p s) as [a s'|e s'|z|] eqn:E.
      + destruct (IHp s _ Hs E) as [[g1 Hg1] Hs']; [discriminate|].
        assert (Hss : sound (if keep (inr a) then s' else restore s s')) by (destruct (keep (inr a)); [exact Hs' | now apply sound_restore]).
        destruct (IH _ _ r Hss Hr Hn) as [[g0 Hg] H2]. split; [|exact H2].
        exists (S (g0 + g1)). apply step. intros g Hle. rewrite retry_Attempt, Hg1 by lia. cbn [bare_out].
        specialize (Hg (S g) ltac:(lia)). destruct (keep (inr a)); exact Hg.
      + destruct (IHp s _ Hs E) as [[g1 Hg1] Hs']; [discriminate|].
        assert (Hss : sound (if keep (inl e) then s' else restore s s')) by (destruct (keep (inl e)); [exact Hs' | now apply sound_restore]).
        destruct (IH _ _ r Hss Hr Hn) as [[g0 Hg] H2]. split; [|exact H2].
        exists (S (g0 + g1)). apply step. intros g Hle. rewrite retry_Attempt, Hg1 by lia. cbn [bare_out].
        specialize (Hg (S g) ltac:(lia)). destruct (keep (inl e)); exact Hg.
      + destruct (IHp s _ Hs E) as [[g1 Hg1] _]; [discriminate|]. subst r. split; [|exact I].
        exists (S g1). apply step. intros g Hle. rewrite retry_Attempt, Hg1 by lia. reflexivity.
      + now destruct Hn.
    - rewrite run_Loop in Hr.
      assert (Hi : forall n x s r, sound s -> iter body (S f) bd n x s = r -> r <> ROOF ->
        (exists g0, forall g, g0 <= g -> forall m, n <= m -> niter g bd m x (bare s) = bare_out r) /\
        match r with ROk _ s' | RErr _ s' => sound s' | _ => True end).
      { clear x s r Hs Hr Hn. induction n as [|n IHi]; intros x s r Hs Hr Hn; [now rewrite <- Hr in Hn|]. rewrite iter_S in Hr.
        destruct (run body (S f) (bd x) s) as [[x'|y] s'|e s'|z|] eqn:E.
        - destruct (IHb x s _ Hs E) as [[g1 Hg1] Hs']; [discriminate|]. destruct (IHi x' s' r Hs' Hr Hn) as [[g0 Hg] H2].
          split; [|exact H2]. exists (g0 + g1). intros g Hle [|m] Hm; [lia|]. cbn [niter]. rewrite Hg1 by lia. cbn [bare_out].
          apply Hg; lia.
        - destruct (IHb x s _ Hs E) as [[g1 Hg1] Hs']; [discriminate|]. subst r. split; [|exact Hs'].
          exists g1. intros g Hle [|m] Hm; [lia|]. cbn [niter]. rewrite Hg1 by lia. reflexivity.
        - destruct (IHb x s _ Hs E) as [[g1 Hg1] Hs']; [discriminate|]. subst r. split; [|exact Hs'].
          exists g1. intros g Hle [|m] Hm; [lia|]. cbn [niter]. rewrite Hg1 by lia. reflexivity.
        - destruct (IHb x s _ Hs E) as [[g1 Hg1] _]; [discriminate|]. subst r. split; [|exact I].
          exists g1. intros g Hle [|m] Hm; [lia|]. cbn [niter]. rewrite Hg1 by lia. reflexivity.
        - now rewrite <- Hr in Hn. }
      destruct (iter body (S f) bd (S f) x s) as [y s'|e s'|z|] eqn:E; cbn [andThen] in Hr.
      + destruct (Hi _ x s _ Hs E) as [[g1 Hg1] Hs']; [discriminate|].
        destruct (IH y s' r Hs' Hr Hn) as [[g0 Hg] H2]. split; [|exact H2].
        exists (S (g0 + g1 + f)). apply step. intros g Hle. rewrite retry_Loop, Hg1 by lia. cbn [bare_out andThen]. apply Hg. lia.
      + destruct (Hi _ x s _ Hs E) as [[g1 Hg1] Hs']; [discriminate|]. subst r. split; [|exact Hs'].
        exists (S (g1 + f)). apply step. intros g Hle. rewrite retry_Loop, Hg1 by lia. reflexivity.
      + destruct (Hi _ x s _ Hs E) as [[g1 Hg1] _]; [discriminate|]. subst r. split; [|exact I].
        exists (S (g1 + f)). apply step. intros g Hle. rewrite retry_Loop, Hg1 by lia. reflexivity.
      + now destruct Hn.
  Qed.
End RetryEq.

Lemma wrapError_bare inp at_ e s : wrapError inp at_ e (bare s) = wrapError inp at_ e s.
Proof. destruct e; reflexivity. Qed.

Lemma parse_stmts_retry_eq inp : parse_stmts inp <> Diverged ->
  exists g0, forall g, g0 <= g -> parse_stmts_retry g inp = parse_stmts inp.
Proof.
  unfold parse_stmts, parse_stmts_fuel, parse_stmts_retry. destruct (states_ok inp) as (l & Hl & Hc).
  destruct (items_good inp) as (its & Hi & Hg). unfold items_of in Hi. rewrite Hl in Hi |- *. cbn [lbind] in Hi.
  assert (Hi' : number_items inp 0 ((lex_init, None) :: l) = its) by congruence. rewrite Hi'. destruct its as [|i r]; [now destruct (gi_ne _ Hg)|]. cbn [init_pstate].
  set (f := parse_fuel _ + 0). intros Hd.
  assert (Hs : sound body (i :: r) (mkP i r [])) by (split; [exists []; reflexivity | intros ? ? _ []]).
  pose proof (retry_same body (i :: r) (gi_id _ Hg) f _ ParseStmts (mkP i r []) _ Hs eq_refl) as Hx.
  destruct (run body f ParseStmts (mkP i r [])) as [st s'|e s'|z|]; [| | |now destruct Hd];
    (destruct Hx as [[g0 Hg0] _]; [discriminate|]); exists g0; intros g Hle; specialize (Hg0 g Hle);
    unfold bare at 1 in Hg0; cbn [here rest] in Hg0; rewrite Hg0; cbn [bare_out]; rewrite ?wrapError_bare; reflexivity.
Qed.
