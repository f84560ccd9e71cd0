(** More fuel changes nothing once a run has ended. *)
From Coq Require Import String List Arith Bool Lia.
From Verif Require Import Str Lexer Ast Prog RunFacts.
Import ListNotations.
Local Open Scope nat_scope.

Section Fuel.
  Variable body : nt -> prog expr.

  Definition stable (f : nat) : Prop := forall A (p : prog A) s,
    run body f p s <> ROOF -> run body (S f) p s = run body f p s.

  Lemma iter_more f X Y (bd : X -> prog (X + Y)) :
    (forall x s, run body (S f) (bd x) s <> ROOF -> run body (S (S f)) (bd x) s = run body (S f) (bd x) s) ->
    forall n m x s, n <= m -> iter body (S f) bd n x s <> ROOF -> iter body (S (S f)) bd m x s = iter body (S f) bd n x s.
  Proof.
    intros Hb. induction n as [|n IH]; intros m x s Hm Hr; [now destruct Hr|]. destruct m as [|m]; [lia|].
    rewrite iter_S in Hr. rewrite !iter_S. destruct (run body (S f) (bd x) s) as [[x'|y] s'|e s'|z|] eqn:E.
    - rewrite Hb, E by congruence. apply IH; [lia | exact Hr].
    - now rewrite Hb, E by congruence.
    - now rewrite Hb, E by congruence.
    - now rewrite Hb, E by congruence.
    - now destruct Hr.
  Qed.

  Lemma run_stable : forall f, stable f.
  Proof.
    induction f as [|f IHf]; intros A p; [intros s H; now destruct H|].
    induction p as [A a|A e|A z|A k IH|A k IH|A k IH|A yes IHy no IHn|A n k IH|A C p IHp keep k IH|A X Y x bd IHb k IH]; intros s H.
    - reflexivity.
    - reflexivity.
    - reflexivity.
    - rewrite !run_Cur in *. now apply IH.
    - rewrite !run_Consume in *. now apply IH.
    - rewrite !run_Peek in *. now apply IH.
    - rewrite !run_TryInterval in *. destruct (failed_before s); [now apply IHn|].
      destruct (run body f (body NInterval) s) as [e s'|e s'|z|] eqn:E;
        try (rewrite IHf, E by congruence; try reflexivity); [now apply IHy | now apply IHn].
    - rewrite !run_Call in *. destruct (run body f (body n) s) as [e s'|e s'|z|] eqn:E; cbn [andThen] in H;
        try (rewrite IHf, E by congruence; cbn [andThen]; try reflexivity); now apply IH.
    - rewrite !run_Attempt in *. destruct (run body (S f) p s) as [a s'|e s'|z|] eqn:E;
        try (rewrite IHp, E by congruence; try reflexivity; now apply IH).
    - rewrite !run_Loop in *. destruct (iter body (S f) bd (S f) x s) as [y s'|e s'|z|] eqn:E; cbn [andThen] in H;
        try (rewrite (iter_more f X Y bd IHb (S f) (S (S f)) x s), E by (first [lia | congruence]); cbn [andThen]; try reflexivity);
        now apply IH.
  Qed.

  Lemma run_more A (p : prog A) s f d : run body f p s <> ROOF -> run body (f + d) p s = run body f p s.
  Proof.
    intros H. induction d as [|d IH]; [now rewrite Nat.add_0_r|]. rewrite Nat.add_succ_r.
    rewrite run_stable; [exact IH|]. now rewrite IH.
  Qed.
End Fuel.
