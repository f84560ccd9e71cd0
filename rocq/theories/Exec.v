(** Runs that end: rules for showing that a program ends in a given way when there is
    enough fuel. *)
From Coq Require Import String List Arith Bool Lia.
From Verif Require Import Str Keyword Lexer Ast AstPos Prog RunFacts FuelFacts ParserCommon ParserExpr Parser.
Import ListNotations.
Local Open Scope string_scope.
Local Open Scope nat_scope.

(** With enough fuel, [p] ends in a value and a state satisfying [Q]. *)
Definition Ends {A} (p : prog A) (s : pstate) (Q : A -> pstate -> Prop) : Prop :=
  exists f0 a s', (forall f, f0 <= f -> run body f p s = ROk a s') /\ Q a s'.

Lemma E_mono {A} (p : prog A) s (Q R : A -> pstate -> Prop) : Ends p s Q -> (forall a s', Q a s' -> R a s') -> Ends p s R.
Proof. intros (f0 & a & s' & H & HQ) HR. exists f0, a, s'. auto. Qed.

Ltac fuel f H := destruct f as [|f]; [exfalso; lia|].

Lemma E_ret {A} (a : A) s (Q : A -> pstate -> Prop) : Q a s -> Ends (Ret a) s Q.
Proof. intros H. exists 1, a, s. split; [|exact H]. intros f Hf. fuel f Hf. reflexivity. Qed.

Lemma E_bind {A B} (p : prog A) (q : A -> prog B) s Q : Ends p s (fun a s' => Ends (q a) s' Q) -> Ends (bind p q) s Q.
Proof.
  intros (f1 & a & s1 & H1 & f2 & b & s2 & H2 & HQ). exists (f1 + f2), b, s2. split; [|exact HQ].
  intros f Hf. rewrite run_bind, H1 by lia. cbn [andThen]. apply H2. lia.
Qed.

Lemma E_cur {A} (k : item -> prog A) s Q : Ends (k (here s)) s Q -> Ends (Cur k) s Q.
Proof. intros (f0 & a & s' & H & HQ). exists (S f0), a, s'. split; [|exact HQ]. intros f Hf. fuel f Hf. rewrite run_Cur. apply H. lia. Qed.

Lemma E_consume {A} (k : option string -> prog A) s Q : Ends (k (it_err (here (advance s)))) (advance s) Q -> Ends (Consume k) s Q.
Proof. intros (f0 & a & s' & H & HQ). exists (S f0), a, s'. split; [|exact HQ]. intros f Hf. fuel f Hf. rewrite run_Consume. apply H. lia. Qed.

Lemma E_peek {A} (k : option tok + string -> prog A) s Q : Ends (k (fst (do_peek s))) (snd (do_peek s)) Q -> Ends (Peek k) s Q.
Proof. intros (f0 & a & s' & H & HQ). exists (S f0), a, s'. split; [|exact HQ]. intros f Hf. fuel f Hf. rewrite run_Peek. apply H. lia. Qed.

Lemma E_call {A} n (k : expr -> prog A) s Q : Ends (body n) s (fun e s' => Ends (k e) s' Q) -> Ends (Call n k) s Q.
Proof.
  intros (f1 & a & s1 & H1 & f2 & b & s2 & H2 & HQ). exists (S (f1 + f2)), b, s2. split; [|exact HQ].
  intros f Hf. fuel f Hf. rewrite run_Call, H1 by lia. cbn [andThen]. apply H2. lia.
Qed.

Lemma E_attempt {A B} (p : prog B) (keep : err + B -> bool) (k : err + B -> prog A) s Q :
  Ends p s (fun b s' => Ends (k (inr b)) (if keep (inr b) then s' else restore s s') Q) -> Ends (Attempt p keep k) s Q.
Proof.
  intros (f1 & a & s1 & H1 & f2 & b & s2 & H2 & HQ). exists (S (f1 + f2)), b, s2. split; [|exact HQ].
  intros f Hf. fuel f Hf. rewrite run_Attempt, H1 by lia. apply H2. lia.
Qed.

Lemma E_interval {A} (yes : expr -> prog A) no s Q : failed_before s = false ->
  Ends (body NInterval) s (fun e s' => Ends (yes e) s' Q) -> Ends (TryInterval yes no) s Q.
Proof.
  intros Hf0 (f1 & a & s1 & H1 & f2 & b & s2 & H2 & HQ). exists (S (f1 + f2)), b, s2. split; [|exact HQ].
  intros f Hf. fuel f Hf. rewrite run_TryInterval, Hf0, H1 by lia. apply H2. lia.
Qed.

(** Loops: with enough iterations. *)
Definition Iters {X Y} (bd : X -> prog (X + Y)) (x : X) (s : pstate) (Q : Y -> pstate -> Prop) : Prop :=
  exists f0 y s', (forall f n, f0 <= f -> f0 <= n -> iter body f bd n x s = ROk y s') /\ Q y s'.

Lemma I_step {X Y} (bd : X -> prog (X + Y)) x s Q :
  Ends (bd x) s (fun r s' => match r with inl x' => Iters bd x' s' Q | inr y => Q y s' end) -> Iters bd x s Q.
Proof.
  intros (f1 & [x'|y] & s1 & H1 & H2).
  - destruct H2 as (f2 & y & s2 & H2 & HQ). exists (S (f1 + f2)), y, s2. split; [|exact HQ].
    intros f n Hf Hn. destruct n as [|n]; [lia|]. rewrite iter_S, H1 by lia. apply H2; lia.
  - exists (S f1), y, s1. split; [|exact H2]. intros f n Hf Hn. destruct n as [|n]; [lia|]. now rewrite iter_S, H1 by lia.
Qed.

Lemma E_loop {A X Y} (x : X) (bd : X -> prog (X + Y)) (k : Y -> prog A) s Q :
  Iters bd x s (fun y s' => Ends (k y) s' Q) -> Ends (Loop x bd k) s Q.
Proof.
  intros (f1 & a & s1 & H1 & f2 & b & s2 & H2 & HQ). exists (S (f1 + f2)), b, s2. split; [|exact HQ].
  intros f Hf. fuel f Hf. rewrite run_Loop, H1 by lia. cbn [andThen]. apply H2. lia.
Qed.

Lemma E_loop1 {X Y} (x : X) (bd : X -> prog (X + Y)) s Q :
  Ends (bd x) s (fun r s' => match r with inl x' => Ends (loop x' bd) s' Q | inr y => Q y s' end) -> Ends (loop x bd) s Q.
Proof.
  intros H. unfold loop in *. destruct H as (f1 & [x'|y] & s1 & H1 & H2).
  - destruct H2 as (f2 & y & s2 & H2 & HQ). exists (S (S (f1 + f2))), y, s2. split; [|exact HQ].
    intros f Hf. fuel f Hf. rewrite run_Loop, iter_S, H1 by lia.
    assert (Hx : run body f (Loop x' bd (fun b => Ret b)) s1 = ROk y s2) by (apply H2; lia).
    fuel f Hf. rewrite run_Loop in Hx. destruct (iter body (S f) bd (S f) x' s1) as [y' s'|e' s'|z|] eqn:E; cbn [andThen] in Hx; try discriminate.
    rewrite run_Ret in Hx. injection Hx as <- <-.
    assert (Hy : iter body (S (S f)) bd (S f) x' s1 = ROk y' s').
    { rewrite <- E. apply iter_more; [|lia|congruence]. intros. now apply run_stable. }
    rewrite Hy. cbn [andThen]. apply run_Ret.
  - exists (S f1), y, s1. split; [|exact H2]. intros f Hf. fuel f Hf. rewrite run_Loop, iter_S, H1 by lia. cbn [andThen]. apply run_Ret.
Qed.

(** ** States given by the remaining tokens *)

(** The items of the tokens [ts], the last of which ends the input, and of the end. *)
Definition item_at (id : nat) (t : tok) (r : list tok) : item :=
  mkItem id (Some t) (match r with [] => true | _ => false end) None.
Fixpoint items_at (id : nat) (ts : list tok) : list item :=
  match ts with
  | [] => [mkItem id None true None]
  | t :: r => item_at id t r :: items_at (S id) r
  end.
Definition st (id : nat) (ts : list tok) : pstate :=
  match ts with
  | [] => mkP (mkItem id None true None) [] []
  | t :: r => mkP (item_at id t r) (items_at (S id) r) []
  end.

Lemma adv id t r : advance (st id (t :: r)) = st (S id) r.
Proof. destruct r; reflexivity. Qed.
Lemma adv_end id : advance (st id []) = st id [].
Proof. reflexivity. Qed.
Lemma here_cons id t r : here (st id (t :: r)) = item_at id t r.
Proof. reflexivity. Qed.
Lemma here_err id ts : it_err (here (st id ts)) = None.
Proof. destruct ts; reflexivity. Qed.
Lemma here_tok id ts : it_tok (here (st id ts)) = hd_error ts.
Proof. destruct ts; reflexivity. Qed.
Lemma restore_st id ts id' ts' : restore (st id ts) (st id' ts') = st id ts.
Proof. destruct ts, ts'; reflexivity. Qed.
Lemma peek_st id t r : do_peek (st id (t :: r)) = (inl (hd_error r), st id (t :: r)).
Proof. unfold do_peek. rewrite adv, here_err, here_tok. reflexivity. Qed.
Lemma peek_end id : do_peek (st id []) = (inl None, st id []).
Proof. reflexivity. Qed.

(** Tests on a token. *)
Definition k1 (t : tok) (k : string) : bool := String.eqb (t_kind t) KKeyword && equal_fold (t_str t) k.
Definition t1 (t : tok) (l : list kind) : bool :=
  if str_in (t_kind t) l then true else String.eqb (t_kind t) KKeyword && str_in KIdent l && negb (is_reserved (upper (t_str t))).
Lemma kw_at id t r k : kw (item_at id t r) k = k1 t k.
Proof. reflexivity. Qed.
Lemma tks_at id t r l : tks (item_at id t r) l = t1 t l.
Proof. reflexivity. Qed.
Lemma tk_at id t r k : tk (item_at id t r) k = t1 t [k].
Proof. reflexivity. Qed.

(** A token of the list, or the end, comes next. *)
Definition heads (K : list tok) (ts : list tok) : Prop := match ts with [] => True | t :: _ => In t K end.

Lemma heads_kw K id ts k : heads K ts -> forallb (fun t => negb (k1 t k)) K = true -> kw (here (st id ts)) k = false.
Proof.
  destruct ts as [|t r]; [reflexivity|]. intros H Hf. rewrite forallb_forall in Hf. specialize (Hf t H). rewrite here_cons, kw_at.
  now apply negb_true_iff.
Qed.
Lemma heads_kws K id ts l : heads K ts -> forallb (fun t => negb (existsb (k1 t) l)) K = true -> kws (here (st id ts)) l = false.
Proof.
  destruct ts as [|t r]; [intros _ _; unfold kws; now induction l|]. intros H Hf. rewrite forallb_forall in Hf. specialize (Hf t H). rewrite here_cons.
  change (kws (item_at id t r) l) with (existsb (k1 t) l). now apply negb_true_iff.
Qed.
Lemma heads_tks K id ts l : heads K ts -> forallb (fun t => negb (t1 t l)) K = true -> str_in KEOF l = false -> tks (here (st id ts)) l = false.
Proof.
  destruct ts as [|t r]; [intros _ _ E; unfold tks, cur_kind; cbn [st here it_tok]; now rewrite E|]. intros H Hf _. rewrite forallb_forall in Hf. specialize (Hf t H). rewrite here_cons, tks_at.
  now apply negb_true_iff.
Qed.
Lemma heads_tk K id ts k : heads K ts -> forallb (fun t => negb (t1 t [k])) K = true -> String.eqb KEOF k = false -> tk (here (st id ts)) k = false.
Proof. intros H Hf E. apply (heads_tks K); auto. unfold str_in. cbn [existsb]. now rewrite E. Qed.

Definition tok_eqb (a b : tok) : bool :=
  String.eqb (t_kind a) (t_kind b) && String.eqb (t_str a) (t_str b) && Nat.eqb (t_base a) (t_base b) && Nat.eqb (t_quote a) (t_quote b).
Lemma tok_eqb_eq a b : tok_eqb a b = true -> a = b.
Proof.
  destruct a as [a1 a2 a3 a4], b as [b1 b2 b3 b4]. unfold tok_eqb. cbn [t_kind t_str t_base t_quote]. rewrite !andb_true_iff. intros [[[H1 H2] H3] H4].
  apply String.eqb_eq in H1, H2. apply Nat.eqb_eq in H3, H4. now subst.
Qed.
Lemma heads_incl K K' ts : heads K ts -> forallb (fun t => existsb (tok_eqb t) K') K = true -> heads K' ts.
Proof.
  destruct ts as [|t r]; [auto|]. cbn [heads]. intros H Hf. rewrite forallb_forall in Hf. specialize (Hf t H).
  apply existsb_exists in Hf as (x & Hx & E). apply tok_eqb_eq in E. now subst.
Qed.
