(** Facts about GoSet.v. *)
From Coq Require Import List Bool Permutation.
From Verif Require Import GoSet.
Import ListNotations.

Section SetFacts.
  Context {T : Type}.
  Variable eqb : T -> T -> bool.
  Variable eqb_ok : forall x y, eqb x y = true <-> x = y.

  (** Membership after a history of operations, the latest first: what the last
      operation on [x] says, and the initial elements if there is none. *)
  Fixpoint present (init : list T) (latest_first : list (op T)) (x : T) : Prop :=
    match latest_first with
    | [] => In x init
    | Add y :: r => x = y \/ present init r x
    | Remove y :: r => x <> y /\ present init r x
    end.

  Lemma contains_In s x : contains eqb s x = true <-> In x s.
  Proof.
    unfold contains. rewrite existsb_exists. split.
    - intros (y & Hy & E). apply eqb_ok in E. now subst.
    - intros H. exists x. split; [exact H | now apply eqb_ok].
  Qed.

  Lemma add_In s x y : In y (add eqb s x) <-> y = x \/ In y s.
  Proof.
    unfold add. destruct (contains eqb s x) eqn:E.
    - apply contains_In in E. split; [now right|]. intros [->|H]; assumption.
    - rewrite in_app_iff. cbn. split; [intros [H|[<-|[]]] | intros [->|H]]; auto.
  Qed.

  Lemma add_NoDup s x : NoDup s -> NoDup (add eqb s x).
  Proof.
    intros H. unfold add. destruct (contains eqb s x) eqn:E; [exact H|].
    assert (Hn : ~ In x s) by (rewrite <- contains_In; congruence).
    apply (Permutation_NoDup (l := x :: s)); [|now constructor].
    now rewrite Permutation_app_comm.
  Qed.

  Lemma remove_In s x y : In y (remove eqb s x) <-> y <> x /\ In y s.
  Proof.
    unfold remove. rewrite filter_In. split; intros [H1 H2]; split; try assumption.
    - intros ->. rewrite (proj2 (eqb_ok x x) eq_refl) in H2. discriminate.
    - destruct (eqb x y) eqn:E; [|reflexivity]. apply eqb_ok in E. congruence.
  Qed.

  Lemma newSet_ok l : NoDup (newSet eqb l) /\ forall x, In x (newSet eqb l) <-> In x l.
  Proof.
    unfold newSet. assert (H : forall l s, NoDup s -> NoDup (fold_left (add eqb) l s) /\
      forall x, In x (fold_left (add eqb) l s) <-> In x l \/ In x s).
    { clear l. induction l as [|a l IH]; intros s Hs; cbn [fold_left].
      - split; [exact Hs|]. cbn. tauto.
      - destruct (IH _ (add_NoDup s a Hs)) as [H1 H2]. split; [exact H1|]. intros x. rewrite H2, add_In. cbn. intuition congruence. }
    destruct (H l [] (NoDup_nil _)) as [H1 H2]. split; [exact H1|]. intros x. rewrite H2. cbn. tauto.
  Qed.

  Lemma history_ok init ops :
    let s := fold_left (apply eqb) ops (newSet eqb init) in
    NoDup s /\ forall x, In x s <-> present init (rev ops) x.
  Proof.
    cbv zeta. induction ops as [|o ops IH] using rev_ind.
    - cbn. apply newSet_ok.
    - rewrite fold_left_app, rev_unit. cbn [fold_left present]. destruct IH as [H1 H2]. destruct o as [y|y]; cbn [apply].
      + split; [now apply add_NoDup|]. intros x. rewrite add_In, H2. tauto.
      + split; [unfold remove; now apply NoDup_filter|]. intros x. rewrite remove_In, H2. tauto.
  Qed.
End SetFacts.
