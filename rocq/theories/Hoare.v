(** A program logic for parser programs: [wp p s Q] says that running [p] from [s], with
    the recursive methods behaving as [calls_ok] says, ends (it does not run out of fuel);
    with a value only if [Q] holds, with an error only if the items in it are items of the
    input, and with a panic only at a place listed in [panics]. *)
From Coq Require Import String List Arith Bool Lia ZArith.
From Verif Require Import Str Keyword Lexer Ast AstPos AstSubs Prog Items ItemsFacts RunFacts ParserCommon ParserExpr Parser.
Import ListNotations.
Local Open Scope string_scope.
Local Open Scope nat_scope.

(** The items the parser has not passed. *)
Definition len (s : pstate) : nat := List.length (rest s).

(** The items of the input, and the fuel left. *)
Class Env := { its : list item; its_good : good_items its; fl : nat }.

(** The state is a place in the items of the input. *)
Definition wfs `{Env} (s : pstate) : Prop := exists pre, its = (pre ++ here s :: rest s)%list.

Definition err_ok `{Env} (e : err) : Prop :=
  match e with ExpKind i _ | ExpKw i _ | AtMsg i _ => In i its | Msg _ => True end.

(** The places where the parser can panic (see C15). *)
Definition panics : list string :=
  ["p.current().End"; "p.current().ToString()"; "parseColumnTypeArgs: peekToken.Kind"; "parseOrderExpr: nextToken.ToString()";
   "parseDefaultClause: nextToken.String"; "End()"].
Definition panic_ok (z : string) : Prop := In z panics.

Definition post `{Env} {A} (r : outcome A) (Q : A -> pstate -> Prop) : Prop :=
  match r with
  | ROk a s => Q a s
  | RErr e _ => err_ok e
  | RPanic z => panic_ok z
  | ROOF => False
  end.

Definition wp `{Env} {A} (p : prog A) (s : pstate) (Q : A -> pstate -> Prop) : Prop :=
  post (run body (S fl) p s) Q.

(** * States *)
Section States.
  Context `{Env}.

  Lemma wfs_in s : wfs s -> In (here s) its.
  Proof. intros [pre ->]. apply in_or_app. right. now left. Qed.

  Lemma wfs_advance s : wfs s -> wfs (advance s).
  Proof.
    intros [pre Hp]. unfold advance. destruct (rest s) as [|i r] eqn:E; [exists pre; now rewrite E|].
    exists (pre ++ [here s])%list. cbn. rewrite <- app_assoc. exact Hp.
  Qed.

  Lemma len_advance s : len (advance s) <= len s.
  Proof. unfold advance, len. destruct (rest s) eqn:E; cbn; rewrite ?E; cbn; lia. Qed.

  (** An item with a token is not the last one. *)
  Lemma tok_rest s : wfs s -> it_tok (here s) <> None -> rest s <> [].
  Proof.
    intros [pre Hp] Ht Hr. apply Ht. apply (gi_last _ its_good). rewrite Hp, Hr, app_length. cbn [List.length].
    replace (List.length pre + 1 - 1) with (List.length pre) by lia.
    rewrite nth_error_app2, Nat.sub_diag by lia. reflexivity.
  Qed.

  Lemma len_advance_lt s : wfs s -> it_tok (here s) <> None -> len (advance s) < len s.
  Proof.
    intros Hw Ht. pose proof (tok_rest s Hw Ht). unfold advance, len. destruct (rest s); [congruence|]. cbn. lia.
  Qed.

  Lemma wfs_restore s s' : wfs s -> wfs (restore s s').
  Proof. intros [pre Hp]. exists pre. exact Hp. Qed.
End States.

(** * Rules *)
Section Rules.
  Context `{Env}.

  Lemma post_conseq A (r : outcome A) (Q Q' : A -> pstate -> Prop) :
    post r Q -> (forall a s', Q a s' -> Q' a s') -> post r Q'.
  Proof. unfold post. destruct r; auto. Qed.

  Lemma wp_conseq A (p : prog A) s (Q Q' : A -> pstate -> Prop) :
    wp p s Q -> (forall a s', Q a s' -> Q' a s') -> wp p s Q'.
  Proof. unfold wp, post. destruct (run body (S fl) p s); auto. Qed.

  Lemma wp_Ret A (a : A) s (Q : A -> pstate -> Prop) : Q a s -> wp (Ret a) s Q.
  Proof. intros HQ. exact HQ. Qed.

  Lemma wp_Fail A e s (Q : A -> pstate -> Prop) : err_ok e -> wp (Fail e) s Q.
  Proof. intros HQ. exact HQ. Qed.

  Lemma wp_Panic A z s (Q : A -> pstate -> Prop) : panic_ok z -> wp (Panic z) s Q.
  Proof. intros HQ. exact HQ. Qed.

  Lemma wp_bind A B (p : prog A) (f : A -> prog B) s Q :
    wp p s (fun a s' => wp (f a) s' Q) -> wp (bind p f) s Q.
  Proof.
    unfold wp. rewrite run_bind. unfold post at 1. destruct (run body (S fl) p s); cbn [andThen]; auto.
  Qed.

  Lemma wp_Cur A (k : item -> prog A) s Q : wp (k (here s)) s Q -> wp (Cur k) s Q.
  Proof. intros HQ. exact HQ. Qed.

  Lemma wp_Consume A (k : option string -> prog A) s Q :
    wp (k (it_err (here (advance s)))) (advance s) Q -> wp (Consume k) s Q.
  Proof. intros HQ. exact HQ. Qed.

  Lemma wp_Peek A (k : option tok + string -> prog A) s Q :
    wp (k (fst (do_peek s))) (snd (do_peek s)) Q -> wp (Peek k) s Q.
  Proof. unfold wp. now rewrite run_Peek. Qed.

  Lemma wp_TryInterval A (yes : expr -> prog A) no s Q :
    post (run body fl (body NInterval) s) (fun e s' => wp (yes e) s' Q) ->
    (forall s', wfs s' -> len s' = len s -> wp no s' Q) ->
    wfs s ->
    wp (TryInterval yes no) s Q.
  Proof.
    intros H1 H2 Hw. unfold wp in *. rewrite run_TryInterval. destruct (failed_before s); [now apply H2|].
    destruct (run body fl (body NInterval) s) as [a s'|e s'|z|]; cbn in H1 |- *; auto.
  Qed.

  Lemma wp_Attempt A B (p : prog B) (keep : err + B -> bool) (k : err + B -> prog A) s Q :
    wp p s (fun a s' => wp (k (inr a)) (if keep (inr a) then s' else restore s s') Q) ->
    (forall e s', err_ok e -> wfs s' -> len s' <= len s -> wp (k (inl e)) (if keep (inl e) then s' else restore s s') Q) ->
    wfs s ->
    wp (Attempt p keep k) s Q.
  Proof.
    intros H1 H2 Hw. unfold wp in *. rewrite run_Attempt.
    assert (Hi : inv_out (fun s' => wfs s' /\ len s' <= len s) (run body (S fl) p s)).
    { apply run_inv.
      - intros s0 [Ha Hb]. split; [now apply wfs_advance|]. pose proof (len_advance s0). lia.
      - intros s0 [[pre Ha] Hb]. split; [exists pre; exact Ha | exact Hb].
      - intros s0 s1 [Ha Hb] _. split; [now apply wfs_restore | exact Hb].
      - split; [exact Hw | lia]. }
    destruct (run body (S fl) p s) as [a s'|e s'|z|]; cbn in H1, Hi |- *; auto. apply H2; tauto.
  Qed.

  (** A loop: [J] holds before each iteration, and each further iteration passes an item. *)
  Lemma wp_Loop A X Y (x : X) (bd : X -> prog (X + Y)) (k : Y -> prog A) s Q (J : X -> pstate -> Prop) (R : Y -> pstate -> Prop) :
    J x s -> len s + 1 <= fl ->
    (forall x s', J x s' -> len s' <= len s ->
       wp (bd x) s' (fun r s2 => match r with
                                 | inl x' => J x' s2 /\ len s2 < len s'
                                 | inr y => R y s2
                                 end)) ->
    (forall y s', R y s' -> wp (k y) s' Q) ->
    wp (Loop x bd k) s Q.
  Proof.
    intros HJ Hl Hb Hk. unfold wp. rewrite run_Loop.
    assert (Hi : forall n x s', J x s' -> len s' <= len s -> len s' < n -> post (iter body (S fl) bd n x s') R).
    { induction n as [|n IHn]; intros x' s' Hx' Hls Hn; [lia|]. rewrite iter_S.
      pose proof (Hb x' s' Hx' Hls) as Hw. unfold wp, post in Hw.
      destruct (run body (S fl) (bd x') s') as [[x2|y] s2|e s2|z|]; cbn; auto. destruct Hw as [H1 H2]. apply IHn; [exact H1 | lia | lia]. }
    pose proof (Hi (S fl) x s HJ (le_n _) ltac:(lia)) as Hx. unfold post in Hx.
    destruct (iter body (S fl) bd (S fl) x s) as [y s'|e s'|z|]; cbn [andThen]; auto. now apply Hk.
  Qed.
End Rules.
