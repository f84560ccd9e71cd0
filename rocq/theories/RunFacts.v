(** General facts about [run]. *)
From Coq Require Import String List Arith Bool Lia.
From Verif Require Import Str Lexer Ast Prog.
Import ListNotations.
Local Open Scope nat_scope.

Section RunFacts.
  Variable body : nt -> prog expr.

  (** The iterations of a [Loop]. *)
  Definition iter (fuel : nat) {X Y} (bd : X -> prog (X + Y)) : nat -> X -> pstate -> outcome Y :=
    fix it (n : nat) (x : X) (s : pstate) : outcome Y :=
    match n with
    | O => ROOF
    | S m =>
        match run body fuel (bd x) s with
        | ROk (inl x') s' => it m x' s'
        | ROk (inr y) s' => ROk y s'
        | RErr e s' => RErr e s'
        | RPanic site => RPanic site
        | ROOF => ROOF
        end
    end.

  Lemma iter_S fuel X Y (bd : X -> prog (X + Y)) n x s : iter fuel bd (S n) x s =
    match run body fuel (bd x) s with
    | ROk (inl x') s' => iter fuel bd n x' s'
    | ROk (inr y) s' => ROk y s'
    | RErr e s' => RErr e s'
    | RPanic site => RPanic site
    | ROOF => ROOF
    end.
  Proof. reflexivity. Qed.

  (** Continue after an outcome. *)
  Definition andThen {A B} (r : outcome A) (f : A -> pstate -> outcome B) : outcome B :=
    match r with
    | ROk a s => f a s
    | RErr e s => RErr e s
    | RPanic z => RPanic z
    | ROOF => ROOF
    end.

  Lemma run_0 A (p : prog A) s : run body 0 p s = ROOF.
  Proof. reflexivity. Qed.
  Lemma run_Ret f A (a : A) s : run body (S f) (Ret a) s = ROk a s.
  Proof. reflexivity. Qed.
  Lemma run_Fail f A e s : run body (S f) (@Fail A e) s = RErr e s.
  Proof. reflexivity. Qed.
  Lemma run_Panic f A z s : run body (S f) (@Panic A z) s = RPanic z.
  Proof. reflexivity. Qed.
  Lemma run_Cur f A (k : item -> prog A) s : run body (S f) (Cur k) s = run body (S f) (k (here s)) s.
  Proof. reflexivity. Qed.
  Lemma run_Consume f A (k : option string -> prog A) s :
    run body (S f) (Consume k) s = run body (S f) (k (it_err (here (advance s)))) (advance s).
  Proof. reflexivity. Qed.
  Lemma run_Peek f A (k : option tok + string -> prog A) s :
    run body (S f) (Peek k) s = run body (S f) (k (fst (do_peek s))) (snd (do_peek s)).
  Proof. cbn. destruct (do_peek s). reflexivity. Qed.
  Lemma run_TryInterval f A (yes : expr -> prog A) no s :
    run body (S f) (TryInterval yes no) s =
    if failed_before s then run body (S f) no s
    else match run body f (body NInterval) s with
         | ROk e s' => run body (S f) (yes e) s'
         | RErr _ s' => run body (S f) no (note_failure s s')
         | RPanic z => RPanic z
         | ROOF => ROOF
         end.
  Proof. reflexivity. Qed.
  Lemma run_Call f A n (k : expr -> prog A) s :
    run body (S f) (Call n k) s = andThen (run body f (body n) s) (fun e s' => run body (S f) (k e) s').
  Proof. reflexivity. Qed.
  Lemma run_Attempt f A B (p : prog B) keep (k : err + B -> prog A) s :
    run body (S f) (Attempt p keep k) s =
    match run body (S f) p s with
    | ROk a s' => run body (S f) (k (inr a)) (if keep (inr a) then s' else restore s s')
    | RErr e s' => run body (S f) (k (inl e)) (if keep (inl e) then s' else restore s s')
    | RPanic z => RPanic z
    | ROOF => ROOF
    end.
  Proof. reflexivity. Qed.
  Lemma run_Loop f A X Y (x : X) (bd : X -> prog (X + Y)) (k : Y -> prog A) s :
    run body (S f) (Loop x bd k) s = andThen (iter (S f) bd (S f) x s) (fun y s' => run body (S f) (k y) s').
  Proof. reflexivity. Qed.

  Lemma run_bind f A B (p : prog A) (q : A -> prog B) : forall s,
    run body f (bind p q) s = andThen (run body f p s) (fun a s' => run body f (q a) s').
  Proof.
    destruct f as [|f]; [intros s; reflexivity|].
    revert q. induction p as [A a|A e|A z|A k IH|A k IH|A k IH|A yes IHy no IHn|A n k IH|A C p IHp keep k IH|A X Y x bd IHb k IH];
      intros q s; cbn [bind].
    - reflexivity.
    - reflexivity.
    - reflexivity.
    - rewrite !run_Cur. apply IH.
    - rewrite !run_Consume. apply IH.
    - rewrite !run_Peek. apply IH.
    - rewrite !run_TryInterval. destruct (failed_before s); [apply IHn|].
      destruct (run body f (body NInterval) s) as [e s'|e s'|z|]; try reflexivity; [apply IHy | apply IHn].
    - rewrite !run_Call. destruct (run body f (body n) s) as [e s'|e s'|z|]; cbn [andThen]; try reflexivity. apply IH.
    - rewrite !run_Attempt. destruct (run body (S f) p s) as [a s'|e s'|z|]; try reflexivity; apply IH.
    - rewrite !run_Loop. destruct (iter (S f) bd (S f) x s) as [y s'|e s'|z|]; cbn [andThen]; try reflexivity. apply IH.
  Qed.

  (** ** An invariant of the state kept by all operations is kept by all programs. *)
  Section Inv.
    Variable I : pstate -> Prop.
    Hypothesis Iadv : forall s, I s -> I (advance s).
    Hypothesis Imemo : forall s, I s -> I (mkP (here s) (rest s) (it_id (here s) :: memo s)).
    Hypothesis Irest : forall s s', I s -> I s' -> I (restore s s').

    Definition inv_out {A} (r : outcome A) : Prop :=
      match r with ROk _ s => I s | RErr _ s => I s | _ => True end.

    Lemma inv_peek s : I s -> I (snd (do_peek s)).
    Proof. intros H. unfold do_peek. destruct (it_err (here (advance s))); cbn; auto. Qed.

    Lemma run_inv : forall f A (p : prog A) s, I s -> inv_out (run body f p s).
    Proof.
      induction f as [|f IHf]; intros A p; [intros s H; exact Coq.Init.Logic.I|].
      induction p as [A a|A e|A z|A k IH|A k IH|A k IH|A yes IHy no IHn|A n k IH|A C p IHp keep k IH|A X Y x bd IHb k IH]; intros s H.
      - exact H.
      - exact H.
      - exact Coq.Init.Logic.I.
      - rewrite run_Cur. now apply IH.
      - rewrite run_Consume. apply IH. auto.
      - rewrite run_Peek. apply IH. now apply inv_peek.
      - rewrite run_TryInterval. destruct (failed_before s); [now apply IHn|]. pose proof (IHf _ (body NInterval) s H) as Hn.
        destruct (run body f (body NInterval) s) as [e s'|e s'|z|]; try exact Hn; [now apply IHy | apply IHn].
        unfold note_failure. destruct (it_tok (here s)); [apply (Imemo (restore s s')) |]; now apply Irest.
      - rewrite run_Call. pose proof (IHf _ (body n) s H) as Hn.
        destruct (run body f (body n) s) as [e s'|e s'|z|]; cbn [andThen]; try exact Hn. now apply IH.
      - rewrite run_Attempt. pose proof (IHp s H) as Hp.
        destruct (run body (S f) p s) as [a s'|e s'|z|]; try exact Hp; apply IH; cbn in Hp.
        + destruct (keep (inr a)); auto.
        + destruct (keep (inl e)); auto.
      - rewrite run_Loop. assert (Hi : forall n x s, I s -> inv_out (iter (S f) bd n x s)).
        { induction n as [|n IHn]; intros x' s' Hs; [exact Coq.Init.Logic.I|]. rewrite iter_S. pose proof (IHb x' s' Hs) as Hb.
          destruct (run body (S f) (bd x') s') as [[x2|y] s2|e s2|z|]; try exact Hb. apply IHn. exact Hb. }
        pose proof (Hi (S f) x s H) as Hx. destruct (iter (S f) bd (S f) x s) as [y s'|e s'|z|]; cbn [andThen]; try exact Hx.
        now apply IH.
    Qed.
  End Inv.
End RunFacts.
