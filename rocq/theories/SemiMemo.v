(** Proofs for C43: the memo of failed INTERVAL attempts matters only at the items that are left. *)
From Coq Require Import String List Arith Bool Lia.
From Verif Require Import Str Keyword Lexer Ast Prog Items RunFacts FuelFacts ParserCommon ParserExpr ParserQuery Parser StmtsFacts.
Import ListNotations.
Local Open Scope list_scope.
Local Open Scope nat_scope.

Section Memo.
  Variable U : nat -> Prop.

  Definition agree (s s' : pstate) : Prop :=
    here s = here s' /\ rest s = rest s' /\ Forall (fun i => U (it_id i)) (here s :: rest s) /\ forall n, U n -> In n (memo s) <-> In n (memo s').
  Definition oagree {A} (r r' : outcome A) : Prop :=
    match r, r' with
    | ROk a s, ROk a' s' => a = a' /\ agree s s'
    | RErr e s, RErr e' s' => e = e' /\ agree s s'
    | RPanic z, RPanic z' => z = z'
    | ROOF, ROOF => True
    | _, _ => False
    end.

  Lemma agree_advance s s' : agree s s' -> agree (advance s) (advance s').
  Proof.
    intros (H1 & H2 & H3 & H4). destruct s as [h [|i r] m], s' as [h' r' m']; cbn in *; subst; repeat split; auto; try apply H4; auto. now inversion H3.
  Qed.
  Lemma agree_restore s s' t t' : agree s s' -> agree t t' -> agree (restore s t) (restore s' t').
  Proof. intros (H1 & H2 & H3 & H4) (_ & _ & _ & H5). unfold restore. repeat split; cbn; auto; apply H5; auto. Qed.
  Lemma agree_failed s s' : agree s s' -> failed_before s = failed_before s'.
  Proof.
    intros (H1 & H2 & H3 & H4). unfold failed_before. rewrite <- H1. inversion H3 as [|? ? Hu _]; subst. apply H4 in Hu.
    apply eq_true_iff_eq. rewrite !existsb_exists. split; intros (x & Hx & E); apply Nat.eqb_eq in E; subst; eexists; (split; [apply Hu; exact Hx|apply Nat.eqb_refl]).
  Qed.
  Lemma agree_note s s' t t' : agree s s' -> agree t t' -> agree (note_failure s t) (note_failure s' t').
  Proof.
    intros (H1 & H2 & H3 & H4) (_ & _ & _ & H5). unfold note_failure. rewrite <- H1. repeat split; cbn; auto; destruct (it_tok (here s)); cbn; try (apply H5; auto).
    - intros [Hn|Hn]; [now left|right; apply H5; auto].
    - intros [Hn|Hn]; [now left|right; apply H5; auto].
  Qed.
  Lemma agree_peek s s' : agree s s' -> fst (do_peek s) = fst (do_peek s') /\ agree (snd (do_peek s)) (snd (do_peek s')).
  Proof.
    intros H. pose proof (agree_advance _ _ H) as Ha. unfold do_peek. destruct (proj1 Ha). destruct (it_err _); cbn; auto.
  Qed.

  Lemma oagree_bind A B (r r' : outcome A) (k k' : A -> pstate -> outcome B) : oagree r r' ->
    (forall a s s', agree s s' -> oagree (k a s) (k' a s')) -> oagree (andThen r k) (andThen r' k').
  Proof. intros Hr Hk. destruct r, r'; cbn [andThen oagree] in *; try contradiction; try exact Hr. destruct Hr as [<- Hr]. now apply Hk. Qed.

  Lemma iter_agree f X Y (bd : X -> prog (X + Y)) : (forall x s s', agree s s' -> oagree (run body f (bd x) s) (run body f (bd x) s')) ->
    forall n x s s', agree s s' -> oagree (iter body f bd n x s) (iter body f bd n x s').
  Proof.
    intros Hb. destruct f as [|f]; [intros [|n] x s s' Hs; exact I|]. induction n as [|n IH]; intros x s s' Hs; [exact I|]. rewrite !iter_S. pose proof (Hb x s s' Hs) as H1.
    destruct (run body (S f) (bd x) s) as [[x1|y1] s1|e1 s1|z1|], (run body (S f) (bd x) s') as [[x2|y2] s2|e2 s2|z2|]; cbn [oagree] in H1; try contradiction; try exact H1; destruct H1 as [E H1]; try discriminate E.
    - injection E as <-. now apply IH.
    - injection E as <-. now split.
  Qed.

  Lemma run_agree : forall f A (p : prog A) s s', agree s s' -> oagree (run body f p s) (run body f p s').
  Proof.
    induction f as [|f IHf]; intros A p; [intros s s' _; exact I|].
    induction p as [A a|A e|A z|A k IH|A k IH|A k IH|A yes IHy no IHn|A n k IH|A C p IHp keep k IH|A X Y x bd IHb k IH]; intros s s' Hs.
    - now split.
    - now split.
    - reflexivity.
    - rewrite !run_Cur. rewrite <- (proj1 Hs). now apply IH.
    - rewrite !run_Consume. pose proof (agree_advance _ _ Hs) as Ha. rewrite <- (proj1 Ha). now apply IH.
    - rewrite !run_Peek. destruct (agree_peek _ _ Hs) as [E Ha]. rewrite <- E. now apply IH.
    - rewrite !run_TryInterval. rewrite <- (agree_failed _ _ Hs). destruct (failed_before s); [now apply IHn|].
      pose proof (IHf _ (body NInterval) s s' Hs) as Hn.
      destruct (run body f (body NInterval) s) as [e1 s1|e1 s1|z1|], (run body f (body NInterval) s') as [e2 s2|e2 s2|z2|]; cbn [oagree] in Hn; try contradiction; try exact Hn; destruct Hn as [<- Hn].
      + now apply IHy.
      + apply IHn. now apply agree_note.
    - rewrite !run_Call. apply oagree_bind; [now apply IHf|]. intros a t t' Ht. now apply IH.
    - rewrite !run_Attempt. pose proof (IHp s s' Hs) as Hp.
      destruct (run body (S f) p s) as [a1 s1|e1 s1|z1|], (run body (S f) p s') as [a2 s2|e2 s2|z2|]; cbn [oagree] in Hp; try contradiction; try exact Hp; destruct Hp as [<- Hp].
      + destruct (keep (inr a1)); apply IH; auto. now apply agree_restore.
      + destruct (keep (inl e1)); apply IH; auto. now apply agree_restore.
    - rewrite !run_Loop. apply oagree_bind; [|intros a t t' Ht; now apply IH]. apply iter_agree; auto.
  Qed.
End Memo.

(** More rounds of a loop change nothing once it has ended. *)
Lemma iter_mono f X Y (bd : X -> prog (X + Y)) : forall n m x s, n <= m -> iter body (S f) bd n x s <> ROOF -> iter body (S f) bd m x s = iter body (S f) bd n x s.
Proof.
  induction n as [|n IH]; intros m x s Hm Hr; [now destruct Hr|]. destruct m as [|m]; [lia|]. rewrite iter_S in Hr. rewrite !iter_S.
  destruct (run body (S f) (bd x) s) as [[x'|y] s'|e s'|z|]; try reflexivity. apply IH; [lia|exact Hr].
Qed.

(** What was read before is put in front. *)
Definition prepend (acc : list expr) (r : outcome (list expr)) : outcome (list expr) := match r with ROk y s => ROk (acc ++ y) s | _ => r end.

Lemma loop_prepend f n : forall acc0 acc s, iter body (S f) stmts_body n (acc0 ++ acc) s = prepend acc0 (iter body (S f) stmts_body n acc s).
Proof.
  induction n as [|n IH]; intros acc0 acc s; [reflexivity|]. rewrite !iter_S. unfold stmts_body at 1 3. unfold consumeOrFail, cur_item. cbn [bind]. rewrite !run_Consume.
  destruct (it_err _); [reflexivity|]. cbn [bind]. rewrite !run_Cur. destruct (it_eof _); [reflexivity|]. destruct (tk _ _); [apply IH|].
  rewrite !run_bind. destruct (run body (S f) parseStmt _) as [e s2| | |]; try reflexivity. cbn [andThen]. rewrite !run_Ret, <- app_assoc. apply IH.
Qed.
