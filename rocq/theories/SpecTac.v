(** Specifications of parser programs, and the tactics that prove them. *)
From Coq Require Import String List Arith Bool Lia ZArith.
From Verif Require Import Walk Visitor WalkSpec Str Keyword Lexer Ast AstPos AstSubs PrecSpec SpanSpec Prog Items ItemsFacts RunFacts
  ParserCommon ParserExpr ParserQuery Parser Hoare Spec.
Import ListNotations.
Local Open Scope string_scope.
Local Open Scope nat_scope.

(** The precedence that [getNextPrecedence] gives in a state (it makes no recursive calls). *)
Definition np (s : pstate) : nat :=
  match run body 1 getNextPrecedence s with ROk v _ => v | _ => 0 end.

Section SpecDefs.
  Context `{Env}.

  (** From any state, with enough fuel for the items left and [rk] recursive calls besides,
      [p] ends; with a value [a] only if [Q a], and then it has passed an item if [str a]. *)
  Definition spec (rk : nat) {A} (p : prog A) (str : A -> bool) (Q : A -> Prop) : Prop :=
    forall s, wfs s -> 10 * len s + rk <= fl ->
    wp p s (fun a s' => wfs s' /\ len s' <= len s /\ (str a = true -> len s' < len s) /\ Q a).

  (** How many calls can be pending with no item passed. *)
  Definition rank (n : nt) : nat :=
    match n with
    | NColumnTypeArgs _ | NSelectQuery | NJoinRight _ | NInterval => 1
    | NSubExpr _ _ => 4
    | NTableArg _ | NDictArg _ | NAssignValues _ => 8
    end.

  (** What the recursive methods expect and guarantee. *)
  Definition npre (n : nt) : Prop :=
    match n with
    | NSelectQuery | NInterval => True
    | NColumnTypeArgs ident => isid ident
    | NSubExpr p prec => pok p /\ prec <= 16
    | NJoinRight p | NTableArg p | NDictArg p | NAssignValues p => pok p
    end.
  Definition nstr (n : nt) (e : expr) : bool :=
    match n with
    | NSubExpr _ _ | NSelectQuery | NDictArg _ | NAssignValues _ | NInterval => true
    | NColumnTypeArgs _ | NTableArg _ => false
    | NJoinRight _ => negb (is_nil e)
    end.
  Definition npost (n : nt) (e : expr) (s' : pstate) : Prop :=
    match n with
    | NSubExpr _ prec => nn e /\ prec < as_right e /\ np s' <= prec /\ np s' <= as_left e
    | NSelectQuery | NColumnTypeArgs _ | NInterval => na e
    | NJoinRight _ => mb e
    | NTableArg _ | NAssignValues _ => nn e
    | NDictArg _ => gd e
    end.
End SpecDefs.

(** The recursive methods, with the fuel that is left, do what they should. *)
Class Calls `{Env} := calls : forall n, npre n -> forall s, wfs s -> 10 * len s + rank n + 1 <= fl ->
  post (run body fl (body n) s)
    (fun e s' => wfs s' /\ len s' <= len s /\ (nstr n e = true -> len s' < len s) /\ npost n e s').

(** * Rules *)
Section Rules.
  Context `{Env}.

  Lemma use_spec A B (p : prog A) (f : A -> prog B) s Q rk str P :
    spec rk p str P -> wfs s -> 10 * len s + rk <= fl ->
    (forall a s', wfs s' -> len s' <= len s -> (str a = true -> len s' < len s) -> P a -> wp (f a) s' Q) ->
    wp (bind p f) s Q.
  Proof.
    intros Hp Hw Hl Hf. apply wp_bind. eapply wp_conseq; [apply Hp; assumption|]. intros a s' (H1 & H2 & H3 & H4). auto.
  Qed.

  Lemma use_tail A (p : prog A) s (Q : A -> pstate -> Prop) rk str P :
    spec rk p str P -> wfs s -> 10 * len s + rk <= fl ->
    (forall a s', wfs s' -> len s' <= len s -> (str a = true -> len s' < len s) -> P a -> Q a s') ->
    wp p s Q.
  Proof.
    intros Hp Hw Hl Hf. eapply wp_conseq; [apply Hp; assumption|]. intros a s' (H1 & H2 & H3 & H4). auto.
  Qed.

  Lemma spec_conseq rk rk' A (p : prog A) str str' (P P' : A -> Prop) :
    spec rk p str P -> rk <= rk' -> (forall a, str' a = true -> str a = true) -> (forall a, P a -> P' a) -> spec rk' p str' P'.
  Proof.
    intros Hp Hr Hs HP s Hw Hl. eapply wp_conseq; [apply Hp; [assumption | lia]|].
    intros a s' (H1 & H2 & H3 & H4). repeat split; auto.
  Qed.

  Lemma cut_strict A B (p : prog A) (f : A -> prog B) s Q (P : A -> Prop) :
    wp p s (fun a s' => wfs s' /\ len s' < len s /\ P a) ->
    (forall a s', wfs s' -> len s' < len s -> P a -> wp (f a) s' Q) -> wp (bind p f) s Q.
  Proof. intros Hp Hf. apply wp_bind. eapply wp_conseq; [exact Hp|]. intros a s' (H1 & H2 & H3). auto. Qed.

  Lemma cut_weak A B (p : prog A) (f : A -> prog B) s Q (P : A -> Prop) :
    wp p s (fun a s' => wfs s' /\ len s' <= len s /\ P a) ->
    (forall a s', wfs s' -> len s' <= len s -> P a -> wp (f a) s' Q) -> wp (bind p f) s Q.
  Proof. intros Hp Hf. apply wp_bind. eapply wp_conseq; [exact Hp|]. intros a s' (H1 & H2 & H3). auto. Qed.

  Lemma bind_assoc_wp A B C (p : prog A) (f : A -> prog B) (g : B -> prog C) s Q :
    wp (bind p (fun x => bind (f x) g)) s Q -> wp (bind (bind p f) g) s Q.
  Proof.
    unfold wp. rewrite !run_bind. destruct (run body (S fl) p s); cbn [andThen]; auto. now rewrite run_bind.
  Qed.

  Lemma bind_Ret A B (a : A) (f : A -> prog B) s Q : wp (f a) s Q -> wp (bind (Ret a) f) s Q.
  Proof. auto. Qed.
  Lemma bind_Fail A B e (f : A -> prog B) s (Q : B -> pstate -> Prop) : err_ok e -> wp (bind (Fail e) f) s Q.
  Proof. auto. Qed.
  Lemma bind_cur B (f : item -> prog B) s Q : wp (f (here s)) s Q -> wp (bind cur_item f) s Q.
  Proof. auto. Qed.
  Lemma bind_pos B (f : pos -> prog B) s Q : wp (f (ipos (here s))) s Q -> wp (bind pos_ f) s Q.
  Proof. auto. Qed.
  Lemma bind_end B (f : pos -> prog B) s Q : wp (f (iend (here s))) s Q -> wp (bind end_ f) s Q.
  Proof. auto. Qed.
  Lemma bind_eof B (f : bool -> prog B) s Q : wp (f (it_eof (here s))) s Q -> wp (bind eof_ f) s Q.
  Proof. auto. Qed.

  Lemma bind_skip B (f : unit -> prog B) s Q : wfs s ->
    (forall s', wfs s' -> len s' <= len s -> (it_tok (here s) <> None -> len s' < len s) -> wp (f tt) s' Q) ->
    wp (bind skip f) s Q.
  Proof.
    intros Hw Hf. change (wp (f tt) (advance s) Q).
    apply Hf; [now apply wfs_advance | apply len_advance | intros; now apply len_advance_lt].
  Qed.
  Lemma tail_skip s (Q : unit -> pstate -> Prop) : wfs s ->
    (forall s', wfs s' -> len s' <= len s -> (it_tok (here s) <> None -> len s' < len s) -> Q tt s') ->
    wp skip s Q.
  Proof.
    intros Hw Hf. change (Q tt (advance s)).
    apply Hf; [now apply wfs_advance | apply len_advance | intros; now apply len_advance_lt].
  Qed.

  Lemma bind_consumeOrFail B (f : unit -> prog B) s Q : wfs s ->
    (forall s', wfs s' -> len s' <= len s -> (it_tok (here s) <> None -> len s' < len s) -> wp (f tt) s' Q) ->
    wp (bind consumeOrFail f) s Q.
  Proof.
    intros Hw Hf. unfold consumeOrFail. cbn [bind]. apply wp_Consume. destruct (it_err _); [exact I|].
    apply Hf; [now apply wfs_advance | apply len_advance | intros; now apply len_advance_lt].
  Qed.

  Lemma bind_cur_str B (f : string -> prog B) s Q : it_tok (here s) <> None -> (forall x, wp (f x) s Q) -> wp (bind cur_str f) s Q.
  Proof. intros Ht Hf. unfold cur_str. cbn [bind]. apply wp_Cur. destruct (it_tok (here s)); [apply Hf | congruence]. Qed.
  Lemma bind_cur_to_string B (f : string -> prog B) s Q : it_tok (here s) <> None -> (forall x, wp (f x) s Q) -> wp (bind cur_to_string f) s Q.
  Proof. intros Ht Hf. unfold cur_to_string. cbn [bind]. apply wp_Cur. destruct (it_tok (here s)); [apply Hf | congruence]. Qed.

  Lemma bind_grab B (f : string -> prog B) s Q : wfs s -> it_tok (here s) <> None ->
    (forall x s', wfs s' -> len s' < len s -> wp (f x) s' Q) -> wp (bind grab f) s Q.
  Proof.
    intros Hw Ht Hf. unfold grab. apply bind_assoc_wp, bind_cur_str; [exact Ht|]. intros x. apply bind_assoc_wp, bind_skip; [exact Hw|].
    intros s' H1 H2 H3. apply bind_Ret, Hf; auto.
  Qed.
  Lemma tail_grab s (Q : string -> pstate -> Prop) : wfs s -> it_tok (here s) <> None ->
    (forall x s', wfs s' -> len s' < len s -> Q x s') -> wp grab s Q.
  Proof.
    intros Hw Ht Hf. unfold grab. apply bind_cur_str; [exact Ht|]. intros x. apply bind_skip; [exact Hw|].
    intros s' H1 H2 H3. apply wp_Ret, Hf; auto.
  Qed.

  Lemma kw_none it k : it_tok it = None -> kw it k = false.
  Proof. unfold kw. now intros ->. Qed.
  Lemma kws_none it l : it_tok it = None -> kws it l = false.
  Proof. intros E. unfold kws. induction l as [|k l IH]; [reflexivity|]. cbn. now rewrite kw_none, IH. Qed.
  Lemma tks_none it l : it_tok it = None -> tks it l = str_in KEOF l.
  Proof. unfold tks, cur_kind. intros ->. now destruct (str_in KEOF l). Qed.
  Lemma tk_none it k : it_tok it = None -> tk it k = str_in KEOF [k].
  Proof. apply tks_none. Qed.
  Lemma kw_tok it k : kw it k = true -> it_tok it <> None.
  Proof. intros E Hn. now rewrite kw_none in E. Qed.
  Lemma tk_tok it k : tk it k = true -> str_in KEOF [k] = false -> it_tok it <> None.
  Proof. intros E Hk Hn. rewrite tk_none in E by exact Hn. congruence. Qed.

  Lemma bind_tryTkb B k (f : bool -> prog B) s Q : wfs s -> str_in KEOF [k] = false ->
    (tk (here s) k = true -> forall s', wfs s' -> len s' < len s -> wp (f true) s' Q) ->
    (tk (here s) k = false -> wp (f false) s Q) ->
    wp (bind (tryTkb k) f) s Q.
  Proof.
    intros Hw Hk H1 H2. unfold tryTkb. apply bind_assoc_wp, bind_cur. destruct (tk (here s) k) eqn:E.
    - apply bind_assoc_wp, bind_skip; [exact Hw|]. intros s' Ha Hb Hc. apply bind_Ret, H1; auto. eapply Hc, tk_tok; eassumption.
    - apply bind_Ret, H2. reflexivity.
  Qed.

  Lemma bind_tryTk B k (f : option item -> prog B) s Q : wfs s -> str_in KEOF [k] = false ->
    (tk (here s) k = true -> forall s', wfs s' -> len s' < len s -> wp (f (Some (here s))) s' Q) ->
    (tk (here s) k = false -> wp (f None) s Q) ->
    wp (bind (tryTk k) f) s Q.
  Proof.
    intros Hw Hk H1 H2. unfold tryTk. apply bind_assoc_wp, bind_cur. destruct (tk (here s) k) eqn:E.
    - apply bind_assoc_wp, bind_skip; [exact Hw|]. intros s' Ha Hb Hc. apply bind_Ret, H1; auto. eapply Hc, tk_tok; eassumption.
    - apply bind_Ret, H2. reflexivity.
  Qed.

  Lemma bind_tryKw B k (f : bool -> prog B) s Q : wfs s ->
    (kw (here s) k = true -> forall s', wfs s' -> len s' < len s -> wp (f true) s' Q) ->
    (kw (here s) k = false -> wp (f false) s Q) ->
    wp (bind (tryKw k) f) s Q.
  Proof.
    intros Hw H1 H2. unfold tryKw, tryKws. cbn [bind]. apply wp_Attempt.
    - cbn [try_keywords]. apply bind_cur. destruct (kw (here s) k) eqn:E.
      + apply bind_skip; [exact Hw|]. intros s' Ha Hb Hc. apply wp_Ret. apply H1; auto. eapply Hc, kw_tok; eassumption.
      + apply wp_Ret. replace (restore s s) with s by (now destruct s). now apply H2.
    - intros e s' He _ _. exact He.
    - exact Hw.
  Qed.

  Lemma try_keywords_wp l : forall s (Q : bool -> pstate -> Prop), wfs s ->
    (forall s', wfs s' -> len s' <= len s -> (l <> [] -> len s' < len s) -> Q true s') ->
    (forall s', wfs s' -> len s' <= len s -> Q false s') ->
    wp (try_keywords l) s Q.
  Proof.
    induction l as [|k l IH]; intros s Q Hw H1 H2; cbn [try_keywords].
    - apply wp_Ret, H1; auto. congruence.
    - apply bind_cur. destruct (kw (here s) k) eqn:E; [|apply wp_Ret, H2; auto].
      apply bind_skip; [exact Hw|]. intros s' Ha Hb Hc. specialize (Hc (kw_tok _ _ E)). apply IH; [exact Ha| |].
      + intros s2 Hd He _. apply H1; [assumption | lia | intros; lia].
      + intros s2 Hd He. apply H2; [assumption | lia].
  Qed.

  Lemma tryKws_ok k l : spec 0 (tryKws (k :: l)) (fun b => b) (fun _ => True).
  Proof.
    intros s Hw _. unfold tryKws. apply wp_Attempt; [|intros e s' He _ _; exact He|exact Hw].
    apply try_keywords_wp; [exact Hw| |].
    - intros s' H1 H2 H3. apply wp_Ret. repeat split; auto. intros _. apply H3. discriminate.
    - intros s' H1 H2. apply wp_Ret. repeat split; try discriminate; [now apply wfs_restore | apply le_n].
  Qed.
  Lemma tryKw_ok k : spec 0 (tryKw k) (fun b => b) (fun _ => True).
  Proof. apply tryKws_ok. Qed.
  Lemma tryTkb_ok k : str_in KEOF [k] = false -> spec 0 (tryTkb k) (fun b => b) (fun _ => True).
  Proof.
    intros Hk s Hw _. unfold tryTkb. apply bind_cur. destruct (tk (here s) k) eqn:E.
    - apply bind_skip; [exact Hw|]. intros s' Ha Hb Hc. apply wp_Ret. repeat split; auto. intros _. eapply Hc, tk_tok; eassumption.
    - apply wp_Ret. repeat split; auto. discriminate.
  Qed.
  Lemma tryTk_ok k : str_in KEOF [k] = false -> spec 0 (tryTk k) isSome oitem.
  Proof.
    intros Hk s Hw _. unfold tryTk. apply bind_cur. destruct (tk (here s) k) eqn:E.
    - apply bind_skip; [exact Hw|]. intros s' Ha Hb Hc. apply wp_Ret. repeat split; auto.
      + intros _. eapply Hc, tk_tok; eassumption.
      + now apply wfs_in.
    - apply wp_Ret. repeat split; auto. discriminate.
  Qed.
  Lemma expTk_ok k : str_in KEOF [k] = false -> spec 0 (expTk k) (fun _ => true) (fun _ => True).
  Proof.
    intros Hk s Hw _. unfold expTk. apply bind_cur. destruct (tk (here s) k) eqn:E.
    - apply tail_skip; [exact Hw|]. intros s' Ha Hb Hc. repeat split; auto. intros _. eapply Hc, tk_tok; eassumption.
    - apply wp_Fail. now apply wfs_in.
  Qed.
  Lemma expKw_ok k : spec 0 (expKw k) (fun _ => true) (fun _ => True).
  Proof.
    intros s Hw _. unfold expKw. apply bind_cur. destruct (kw (here s) k) eqn:E.
    - apply tail_skip; [exact Hw|]. intros s' Ha Hb Hc. repeat split; auto. intros _. eapply Hc, kw_tok; eassumption.
    - apply wp_Fail. now apply wfs_in.
  Qed.

  Lemma bind_expTk B k (f : unit -> prog B) s Q : wfs s -> str_in KEOF [k] = false ->
    (tk (here s) k = true -> forall s', wfs s' -> len s' < len s -> wp (f tt) s' Q) -> wp (bind (expTk k) f) s Q.
  Proof.
    intros Hw Hk Hf. unfold expTk. apply bind_assoc_wp, bind_cur. destruct (tk (here s) k) eqn:E.
    - apply bind_skip; [exact Hw|]. intros s' Ha Hb Hc. apply Hf; auto. eapply Hc, tk_tok; eassumption.
    - apply bind_Fail. now apply wfs_in.
  Qed.
  Lemma bind_expKw B k (f : unit -> prog B) s Q : wfs s ->
    (kw (here s) k = true -> forall s', wfs s' -> len s' < len s -> wp (f tt) s' Q) -> wp (bind (expKw k) f) s Q.
  Proof.
    intros Hw Hf. unfold expKw. apply bind_assoc_wp, bind_cur. destruct (kw (here s) k) eqn:E.
    - apply bind_skip; [exact Hw|]. intros s' Ha Hb Hc. apply Hf; auto. eapply Hc, kw_tok; eassumption.
    - apply bind_Fail. now apply wfs_in.
  Qed.

  (** Peeking leaves the state alone, or (after a lexical error) on an item without token. *)
  Lemma wp_peek A (k : option tok + string -> prog A) s Q : wfs s ->
    (forall o, it_tok (here (advance s)) = o -> wp (k (inl o)) s Q) ->
    (forall m s', wfs s' -> len s' <= len s -> it_tok (here s') = None -> it_err (here s') = Some m -> wp (k (inr m)) s' Q) ->
    wp (Peek k) s Q.
  Proof.
    intros Hw H1 H2. apply wp_Peek. unfold do_peek. destruct (it_err (here (advance s))) as [m|] eqn:E; cbn [fst snd]; [|now apply H1].
    pose proof (wfs_advance s Hw) as Hw'. apply H2; auto; [apply len_advance|].
    destruct (it_tok (here (advance s))) as [t|] eqn:Et; [|reflexivity].
    rewrite (gi_err _ its_good (here (advance s))) in E; [discriminate | now apply wfs_in | congruence].
  Qed.

  Lemma bind_endOf B e (f : pos -> prog B) s Q : nn e -> (forall p, pok p -> wp (f p) s Q) -> wp (bind (endOf e) f) s Q.
  Proof.
    intros Hn Hf. unfold endOf. pose proof (nn_end e Hn). destruct (end_of e) as [p|] eqn:E; [|congruence].
    cbn [bind]. apply Hf. destruct (pp_ends e (good_pp e (nn_good e Hn))) as [_ Hx]. now apply Hx.
  Qed.
  Lemma bind_endOf_good B e (f : pos -> prog B) s Q : good e -> (forall p, pok p -> wp (f p) s Q) -> wp (bind (endOf e) f) s Q.
  Proof.
    intros Hn Hf. unfold endOf. destruct (end_of e) as [p|] eqn:E; cbn [bind].
    - apply Hf. destruct (pp_ends e (good_pp e Hn)) as [_ Hx]. now apply Hx.
    - apply wp_Panic. cbn. auto 10.
  Qed.
  Lemma endOf_ok e : nn e -> spec 0 (endOf e) (fun _ => false) pok.
  Proof. intros Hn s Hw Hl. unfold endOf. pose proof (nn_end e Hn). destruct (end_of e) as [p|] eqn:E; [|congruence].
    apply wp_Ret. repeat split; auto; [discriminate|]. destruct (pp_ends e (good_pp e (nn_good e Hn))) as [_ Hx]. now apply Hx.
  Qed.
  Lemma bind_posOf B e (f : pos -> prog B) s Q : nn e -> (forall p, pok p -> wp (f p) s Q) -> wp (bind (posOf e) f) s Q.
  Proof.
    intros Hn Hf. unfold posOf. pose proof (nn_pos e Hn). destruct (pos_of e) as [p|] eqn:E; [|congruence].
    cbn [bind]. apply Hf. destruct (pp_ends e (good_pp e (nn_good e Hn))) as [Hx _]. now apply Hx.
  Qed.
  Lemma bind_lastEnd B d l (f : pos -> prog B) s Q : pok d -> Forall nn l -> (forall p, pok p -> wp (f p) s Q) -> wp (bind (lastEnd d l) f) s Q.
  Proof.
    intros Hd Hl Hf. unfold lastEnd. destruct l as [|a l]; [now apply bind_Ret, Hf|].
    apply bind_endOf; [|exact Hf]. apply last_nn; [exact Hl | discriminate].
  Qed.
  (** The same for the parts that are not syntax nodes. *)
  Definition ended (e : expr) : Prop := good e /\ end_of e <> None.
  Lemma bind_endOf_part B e (f : pos -> prog B) s Q : ended e -> (forall p, pok p -> wp (f p) s Q) -> wp (bind (endOf e) f) s Q.
  Proof.
    intros [Hg Hn] Hf. unfold endOf. destruct (end_of e) as [p|] eqn:E; [|congruence].
    cbn [bind]. apply Hf. destruct (pp_ends e (good_pp e Hg)) as [_ Hx]. now apply Hx.
  Qed.
  Lemma last_ended l : Forall ended l -> l <> [] -> ended (last l ENil).
  Proof.
    induction l as [|a l IH]; intros Hl Hn; [congruence|]. inversion Hl as [|? ? Ha Hl']; subst.
    destruct l as [|b l]; [exact Ha|]. apply IH; [assumption | discriminate].
  Qed.
  Lemma last_ended_end l : Forall ended l -> l <> [] -> last (map end_of l) None <> None.
  Proof.
    induction l as [|a l IH]; intros Hl Hn; [congruence|]. inversion Hl as [|? ? Ha Hl']; subst.
    destruct l as [|b l]; [exact (proj2 Ha)|]. apply IH; [assumption | discriminate].
  Qed.
  Lemma bind_lastEnd_part B d l (f : pos -> prog B) s Q : pok d -> Forall ended l -> (forall p, pok p -> wp (f p) s Q) -> wp (bind (lastEnd d l) f) s Q.
  Proof.
    intros Hd Hl Hf. unfold lastEnd. destruct l as [|a l]; [now apply bind_Ret, Hf|].
    apply bind_endOf_part; [|exact Hf]. apply last_ended; [exact Hl | discriminate].
  Qed.
  Lemma bind_endOr B e d (f : pos -> prog B) s Q : pok d -> mb e -> (forall p, pok p -> wp (f p) s Q) -> wp (bind (endOr e d) f) s Q.
  Proof.
    intros Hd [->|He] Hf; [now apply bind_Ret, Hf|]. unfold endOr. rewrite (nn_nil e He). now apply bind_endOf.
  Qed.
  Lemma bind_endOr_good B e d (f : pos -> prog B) s Q : pok d -> good e -> (forall p, pok p -> wp (f p) s Q) -> wp (bind (endOr e d) f) s Q.
  Proof.
    intros Hd He Hf. unfold endOr. destruct (is_nil e); [now apply bind_Ret, Hf|]. now apply bind_endOf_good.
  Qed.

  Lemma bind_loop A X Y (x : X) (bd : X -> prog (X + Y)) (f : Y -> prog A) s Q (PX : X -> Prop) (PY : Y -> Prop) :
    wfs s -> PX x -> len s + 1 <= fl ->
    (forall x s', wfs s' -> len s' <= len s -> PX x ->
       wp (bd x) s' (fun r s2 => match r with
                                 | inl x' => wfs s2 /\ len s2 < len s' /\ PX x'
                                 | inr y => wfs s2 /\ len s2 <= len s' /\ PY y
                                 end)) ->
    (forall y s', wfs s' -> len s' <= len s -> PY y -> wp (f y) s' Q) ->
    wp (bind (loop x bd) f) s Q.
  Proof.
    intros Hw Hx Hl Hb Hf. unfold loop. cbn [bind].
    apply (wp_Loop _ _ _ x bd _ s Q (fun x s' => wfs s' /\ len s' <= len s /\ PX x) (fun y s' => wfs s' /\ len s' <= len s /\ PY y)); auto.
    - intros x' s' (H1 & H2 & H3) _. eapply wp_conseq; [apply (Hb x' s'); assumption|].
      intros [x2|y] s2 (Ha & Hb' & Hc); repeat split; auto; lia.
    - intros y s' (H1 & H2 & H3). now apply Hf.
  Qed.

  Lemma tail_loop X Y (x : X) (bd : X -> prog (X + Y)) s (Q : Y -> pstate -> Prop) (PX : X -> Prop) (PY : Y -> Prop) :
    wfs s -> PX x -> len s + 1 <= fl ->
    (forall x s', wfs s' -> len s' <= len s -> PX x ->
       wp (bd x) s' (fun r s2 => match r with
                                 | inl x' => wfs s2 /\ len s2 < len s' /\ PX x'
                                 | inr y => wfs s2 /\ len s2 <= len s' /\ PY y
                                 end)) ->
    (forall y s', wfs s' -> len s' <= len s -> PY y -> Q y s') ->
    wp (loop x bd) s Q.
  Proof.
    intros Hw Hx Hl Hb Hf.
    apply (wp_Loop _ _ _ x bd _ s Q (fun x s' => wfs s' /\ len s' <= len s /\ PX x) (fun y s' => wfs s' /\ len s' <= len s /\ PY y)); auto.
    - intros x' s' (H1 & H2 & H3) _. eapply wp_conseq; [apply (Hb x' s'); assumption|].
      intros [x2|y] s2 (Ha & Hb' & Hc); repeat split; auto; lia.
    - intros y s' (H1 & H2 & H3). now apply wp_Ret, Hf.
  Qed.

  Lemma Forall_snoc {A} (P : A -> Prop) l x : Forall P l -> P x -> Forall P (l ++ [x])%list.
  Proof. intros Hl Hx. apply Forall_app. split; [exact Hl | now repeat constructor]. Qed.

  Lemma commaLoop_ok rk stop p str (P : expr -> Prop) : spec rk p str P -> spec (S rk) (commaLoop stop p) (fun _ => false) (Forall P).
  Proof.
    intros Hp s Hw Hl. unfold commaLoop. apply tail_loop with (PX := Forall P) (PY := Forall P); auto; [lia| |].
    - intros acc s' Hw' Hl' Ha. apply bind_cur. destruct (stop (here s')); [apply wp_Ret; auto|].
      eapply use_spec; [exact Hp | exact Hw' | lia |]. intros x s2 H1 H2 _ H3.
      apply bind_tryTkb; [exact H1 | reflexivity | |].
      + intros _ s3 H4 H5. apply wp_Ret. repeat split; auto; [lia | now apply Forall_snoc].
      + intros _. apply wp_Ret. repeat split; auto. now apply Forall_snoc.
    - intros y s' H1 H2 H3. repeat split; auto. discriminate.
  Qed.

  Lemma sepTail_ok rk sep acc p str (P : expr -> Prop) : str_in KEOF [sep] = false -> Forall P acc -> spec rk p str P ->
    spec (S rk) (sepTail sep acc p) (fun _ => false) (fun l => Forall P l /\ (acc <> [] -> l <> [])).
  Proof.
    intros Hk Hacc Hp s Hw Hl. unfold sepTail.
    apply tail_loop with (PX := fun l => Forall P l /\ (acc <> [] -> l <> [])) (PY := fun l => Forall P l /\ (acc <> [] -> l <> [])); auto; [lia| |].
    - intros l s' Hw' Hl' [Ha Hn]. apply bind_tryTkb; [exact Hw' | exact Hk | |].
      + intros _ s2 H1 H2. eapply use_spec; [exact Hp | exact H1 | lia |]. intros x s3 H3 H4 _ H5.
        apply wp_Ret. repeat split; auto; [lia | now apply Forall_snoc | intros _ E; now apply app_eq_nil in E].
      + intros _. now apply wp_Ret.
    - intros y s' H1 H2 H3. repeat split; auto; [discriminate | apply H3 | apply H3].
  Qed.
  Lemma sepTail1_ok rk sep x p str (P : expr -> Prop) : str_in KEOF [sep] = false -> spec rk p str P -> P x ->
    spec (S rk) (sepTail sep [x] p) (fun _ => false) (fun l => Forall P l /\ l <> []).
  Proof.
    intros Hk Hp Hx s Hw Hl. eapply wp_conseq; [eapply sepTail_ok; [exact Hk | constructor; [exact Hx | constructor] | exact Hp | exact Hw | exact Hl]|].
    cbv beta. intros a s' (H1 & H2 & H3 & H4 & H5). repeat split; auto. apply H5. discriminate.
  Qed.
End Rules.

(** * Tactics *)
Section Aux.
  Context `{Env}.
  Lemma hd_pos l : Forall nn l -> l <> [] -> hd None (map pos_of l) <> None.
  Proof. intros [|a l' Ha _] Hn; [congruence | exact (nn_pos a Ha)]. Qed.
  Lemma nn_some e : nn e -> negb (is_nil e) = true.
  Proof. intros Hn. now rewrite (nn_nil e Hn). Qed.
  Lemma gd_some e : gd e -> negb (is_nil e) = true.
  Proof. intros Hn. now rewrite (gd_nil e Hn). Qed.
  Lemma Forall_nn_good l : Forall nn l -> Forall good l.
  Proof. apply Forall_impl, nn_good. Qed.
  Lemma Forall_na_good l : Forall na l -> Forall good l.
  Proof. apply Forall_impl. intros e He. apply nn_good, na_nn, He. Qed.
  Lemma Forall_mb_good l : Forall mb l -> Forall good l.
  Proof. apply Forall_impl, mb_good. Qed.
  Lemma Forall_nn_gd l : Forall nn l -> Forall gd l.
  Proof. apply Forall_impl, nn_gd. Qed.
  Lemma Forall_na_gd l : Forall na l -> Forall gd l.
  Proof. apply Forall_impl. intros e He. apply nn_gd, na_nn, He. Qed.
  Lemma Forall_gd_good l : Forall gd l -> Forall good l.
  Proof. apply Forall_impl, gd_good. Qed.
  Lemma Forall_flat_gd (P : expr -> Prop) f l : (forall x, P x -> Forall gd (f x)) -> Forall P l -> Forall gd (flat_map f l).
  Proof. intros Hf Hl. rewrite Forall_forall in *. intros c Hc. apply in_flat_map in Hc as (x & Hx & Hc). specialize (Hf x (Hl x Hx)). rewrite Forall_forall in Hf. auto. Qed.
  Lemma jopt_good e : isjopt e -> good e.
  Proof. now intros []. Qed.
  Lemma Forall_jopt_fits l : Forall isjopt l -> Forall (fits SOption) l.
  Proof. apply Forall_impl. intros e [_ He]. now right. Qed.
  Lemma Forall_jopt_good l : Forall isjopt l -> Forall good l.
  Proof. apply Forall_impl. exact jopt_good. Qed.
  Lemma Forall_gd_fits l : Forall gd l -> Forall (fits SExpr) l.
  Proof. apply Forall_impl, fits_gd. Qed.
  Lemma Forall_mb_fits l : Forall mb l -> Forall (fits SExpr) l.
  Proof. apply Forall_impl, fits_mb. Qed.
  Lemma mb_nn e : nn e -> mb e.
  Proof. now right. Qed.
  Lemma isid_mk n q p1 p2 : pok p1 -> pok p2 -> isid (EIdent n q p1 p2).
  Proof. intros. exists n, q, p1, p2. auto. Qed.
  Lemma isstr_mk p1 p2 t : pok p1 -> pok p2 -> isstr (EStringLiteral p1 p2 t).
  Proof. intros. exists p1, p2, t. auto. Qed.
  Lemma isnum_mk p1 p2 t b : pok p1 -> pok p2 -> isnum (ENumberLiteral p1 p2 t b).
  Proof. intros. exists p1, p2, t, b. auto. Qed.
  Lemma isparams_mk p1 p2 a b : pok p1 -> pok p2 -> nn a -> mb b -> isparams (EParamExprList p1 p2 a b).
  Proof. intros. exists p1, p2, a, b. auto. Qed.
  Lemma isid_nn e : isid e -> nn e.
  Proof. intros (n & q & p1 & p2 & -> & ? & ?). apply mk_nn; try discriminate; try reflexivity; cbn; try constructor; auto. Qed.
  Lemma isstr_nn e : isstr e -> nn e.
  Proof. intros (p1 & p2 & t & -> & ? & ?). apply mk_nn; try discriminate; try reflexivity; cbn; try constructor; auto. Qed.
  Lemma isnum_nn e : isnum e -> nn e.
  Proof. intros (p1 & p2 & t & b & -> & ? & ?). apply mk_nn; try discriminate; try reflexivity; cbn; try constructor; auto. Qed.
  Lemma Forall_isid_nn l : Forall isid l -> Forall nn l.
  Proof. apply Forall_impl, isid_nn. Qed.
  Lemma Forall_isid_good l : Forall isid l -> Forall good l.
  Proof. intros. now apply Forall_nn_good, Forall_isid_nn. Qed.
  Lemma Forall_isid_gd l : Forall isid l -> Forall gd l.
  Proof. intros. now apply Forall_nn_gd, Forall_isid_nn. Qed.
  Lemma Forall_isid_some l : Forall isid l -> Forall (fun c => is_nil c = false) l.
  Proof. apply Forall_impl. now intros ? (? & ? & ? & ? & -> & _). Qed.
  Lemma Forall_jopt_some l : Forall isjopt l -> Forall (fun c => is_nil c = false) l.
  Proof. apply Forall_impl. intros e [_ He]. now destruct e. Qed.
  Lemma mb_isid e : e = ENil \/ isid e -> mb e.
  Proof. intros [He|He]; [now left | right; now apply isid_nn]. Qed.
  Lemma mb_isstr e : e = ENil \/ isstr e -> mb e.
  Proof. intros [He|He]; [now left | right; now apply isstr_nn]. Qed.
  Lemma mb_isnum e : e = ENil \/ isnum e -> mb e.
  Proof. intros [He|He]; [now left | right; now apply isnum_nn]. Qed.
  Lemma bind_Panic A B z (f : A -> prog B) s (Q : B -> pstate -> Prop) : panic_ok z -> wp (bind (Panic z) f) s Q.
  Proof. auto. Qed.
  Lemma Forall_snoc' {A} (P : A -> Prop) l x : Forall P l -> P x -> Forall P (l ++ [x])%list.
  Proof. apply Forall_snoc. Qed.
End Aux.

Create HintDb spec discriminated.
#[export] Hint Constants Opaque : spec.
#[export] Hint Variables Opaque : spec.

Ltac int := lazymatch goal with
  | |- In (here ?s) its => apply wfs_in; assumption
  | |- In _ its => assumption
  end.

(** There is a token, since a test of the current item succeeded. *)
Ltac hastok :=
  let Hn := fresh in
  lazymatch goal with
  | |- it_tok ?it <> None =>
      first
      [ assumption
      | intros Hn;
        match goal with
        | E : it_tok it = Some _ |- _ => congruence
        | E : _ = true |- _ =>
            lazymatch type of E with context [it] => idtac end;
            unfold matchClauseStarter, eofOr, exhausted, no_tok in E;
            rewrite ?kw_none, ?kws_none, ?tks_none, ?tk_none in E by exact Hn;
            rewrite ?Hn in E; cbv in E; discriminate E
        end ]
  end.

Ltac pokt := lazymatch goal with
  | |- pok (ipos _) => apply pok_ipos; int
  | |- pok (iend _) => apply pok_iend; int
  | |- pok PZero => exact I
  | |- pok (PPlus (PPlus _ _) _) => split; [reflexivity | split; [reflexivity | pokt]]
  | |- pok (PPlus (ipos ?it) _) => first
      [ match goal with E : kw it _ = true |- _ => apply (pok_kw it _ _ ltac:(int) E); reflexivity end
      | apply pok_rp; [int | assumption]
      | apply pok_four; int ]
  | |- pok (if ?c then _ else _) => destruct c; pokt
  | |- pok _ => assumption
  end.

(** Facts that came with a value. *)
Ltac clean1 := match goal with
  | H : true = true -> _ |- _ => specialize (H eq_refl)
  | H : false = true -> _ |- _ => clear H
  | H : false = true |- _ => discriminate H
  | H : true = false |- _ => discriminate H
  | H : negb (is_nil ENil) = true -> _ |- _ => clear H
  | H : negb (is_nil ?e) = true -> _, N : nn ?e |- _ => specialize (H (nn_some e N))
  | H : negb (is_nil ?e) = true -> _, N : gd ?e |- _ => specialize (H (gd_some e N))
  | H : isSome None = true -> _ |- _ => clear H
  | H : isSome (Some _) = true -> _ |- _ => specialize (H eq_refl)
  | H : True |- _ => clear H
  | H : oitem (Some _) |- _ => unfold oitem in H
  | H : oitem None |- _ => clear H
  | H : isid _ |- _ => destruct H as (? & ? & ? & ? & -> & ? & ?)
  | H : isstr _ |- _ => destruct H as (? & ? & ? & -> & ? & ?)
  | H : isnum _ |- _ => destruct H as (? & ? & ? & ? & -> & ? & ?)
  | H : isparams _ |- _ => destruct H as (? & ? & ? & ? & -> & ? & ? & ? & ?)
  | H : isenum _ |- _ => destruct H as (? & ? & -> & ? & ?)
  | H : isjpath _ |- _ => destruct H as (? & -> & ?)
  | H : istbl _ |- _ => destruct H as (? & ? & -> & ? & ?)
  | H : iskv _ |- _ => destruct H as (? & ? & -> & ? & ?)
  | H : istarget _ |- _ => destruct H as (? & ? & -> & ? & ?)
  | H : iswin _ |- _ => destruct H as (? & ? & ? & -> & ? & ? & ?)
  | H : _ /\ _ |- _ => destruct H
  | H : negb _ = true |- _ => apply negb_true_iff in H
  | H : negb _ = false |- _ => apply negb_false_iff in H
  | H : (_ && _)%bool = true |- _ => apply andb_prop in H
  | H : (_ || _)%bool = false |- _ => apply orb_false_elim in H
  | H1 : ?x = true, H2 : ?x = false |- _ => congruence
  end.
Ltac clean := cbv beta in *; repeat clean1.

Ltac posl := try match goal with |- Forall pok (if is_nil ?e then _ else _) => rewrite (nn_nil e) by assumption end;
  repeat (first [apply Forall_nil | apply Forall_cons; [pokt|]]).

Ltac head t := lazymatch t with ?f _ => head f | _ => t end.

(** Simplify conditions on nodes of which it is known whether they are nil. *)
Ltac nils :=
  repeat match goal with
  | H : mb ?e |- context [is_nil ?e] => destruct H as [-> | H]
  | H : mg ?e |- context [is_nil ?e] => destruct H as [-> | H]
  | H : gd ?e |- context [is_nil ?e] => rewrite (gd_nil e H)
  | H : ?e = ENil \/ isid ?e |- context [is_nil ?e] => destruct H as [-> | (? & ? & ? & ? & -> & ? & ?)]
  | H : ?e = ENil \/ isstr ?e |- context [is_nil ?e] => destruct H as [-> | (? & ? & ? & -> & ? & ?)]
  | H : ?e = ENil \/ isnum ?e |- context [is_nil ?e] => destruct H as [-> | (? & ? & ? & ? & -> & ? & ?)]
  | H : nn ?e |- context [is_nil ?e] => rewrite (nn_nil e H)
  | H : na ?e |- context [is_nil ?e] => rewrite (nn_nil e (na_nn e H))
  end; cbn [is_nil negb andb orb].

Create HintDb nodes.

Ltac respt := cbn [respects]; first [exact I | left; reflexivity | solve [apply Nat.leb_le; reflexivity]].

Ltac nnt := lazymatch goal with
  | |- nn ?e =>
      first
      [ assumption
      | apply na_nn; assumption
      | solve [auto 2 with nodes nocore]
      | apply last_nn; [assumption | first [assumption | discriminate | congruence]]
      | let h := head e in is_constructor h;
        apply mk_nn; [cbn [placed spots poss is_nil]; posl | respt | cbn [wants is_node sort_of]; reflexivity | endt | endt | kindt | gapt | fillt | cbn [subs]; goods] ]
  end
with gdt := lazymatch goal with
  | |- gd ?e => first [assumption | apply nn_gd; nnt | let h := head e in is_constructor h; split; [goodt | reflexivity]]
  end
with gds := lazymatch goal with
  | |- Forall gd [] => apply Forall_nil
  | |- Forall gd (_ :: _) => first [assumption | apply Forall_nn_gd; assumption | apply Forall_cons; [gdt | gds]]
  | |- Forall gd (_ ++ _)%list => apply Forall_app; split; gds
  | |- Forall gd (flat_map _ _) => match goal with HF : Forall _ ?l |- Forall _ (flat_map _ ?l) => solve [eapply Forall_flat_gd; [|exact HF]; intros ? ?; clean; cbn [key_value pair_parts]; gds] end
  | |- Forall gd (if ?c then _ else _) => destruct c; gds
  | |- Forall gd _ => first [assumption | apply Forall_nn_gd; assumption | apply Forall_na_gd; assumption | apply Forall_isid_gd; assumption
                            | match goal with HF : Forall _ ?l |- Forall _ ?l => solve [eapply Forall_impl; [|exact HF]; cbv beta; intros ? ?; clean; gdt] end]
  end
with kindt := cbn [kinds subs]; kindt2
with kindt2 := lazymatch goal with
  | |- True => exact I
  | |- _ /\ _ => split; kindt2
  | |- Forall (fits _) [] => apply Forall_nil
  | |- Forall (fits _) (_ :: _) => first [apply Forall_gd_fits; assumption | apply Forall_gd_fits, Forall_nn_gd; assumption | apply Forall_cons; kindt2]
  | |- Forall (fits _) (_ ++ _)%list => apply Forall_app; split; kindt2
  | |- Forall (fits SExpr) _ => first [apply Forall_gd_fits; gds | apply Forall_mb_fits; assumption]
  | |- Forall (fits SOption) _ => apply Forall_jopt_fits; assumption
  | |- Forall (fits _) _ => match goal with HF : Forall _ ?l |- Forall _ ?l => solve [eapply Forall_impl; [|exact HF]; cbv beta; intros ? ?; clean; kindt2] end
  | |- fits _ (if ?c then _ else _) => destruct c; kindt2
  | |- fits _ _ => first [left; reflexivity | right; reflexivity | apply fits_mg; assumption | apply fits_mb; mbt | apply fits_gd; gdt]
  end
with gapt :=
  repeat match goal with H : Forall _ (_ :: _) |- _ => pose proof (Forall_inv H); apply Forall_inv_tail in H; cbv beta in * end;
  cbn [gapless]; first [unfold no_gap; cbn [accept_children map app]; gapt2 | gapt2]
with gapt2 := lazymatch goal with
  | |- True => exact I
  | |- is_nil (if ?c then _ else _) = false => destruct c; gapt2
  | |- is_nil _ = false => first [reflexivity | assumption | apply gd_nil; gdt]
  | |- Forall _ [] => apply Forall_nil
  | |- Forall _ (_ :: _) => apply Forall_cons; gapt2
  | |- Forall _ (_ ++ _)%list => apply Forall_app; split; gapt2
  | |- Forall _ (map Opt _) => apply gap_opt
  | |- Forall _ (map Must _) => apply gap_must; gds
  end
with fillt := cbn [filled]; lazymatch goal with
  | |- True => exact I
  | |- is_nil _ = false => gapt2
  | |- _ /\ _ => split; gapt2
  | |- _ \/ _ => first [left; reflexivity | right; gapt2]
  | |- Forall _ _ => first [apply Forall_nil | apply Forall_jopt_some; assumption | apply Forall_isid_some; assumption
      | match goal with HF : Forall _ ?l |- Forall _ ?l => solve [eapply Forall_impl; [|exact HF]; cbv beta; intros ? ?; clean; gapt2] end
      | apply Forall_cons; [gapt2 | fillt]]
  end
with mbt := first [assumption | apply mb_isid; assumption | apply mb_isstr; assumption | apply mb_isnum; assumption | left; reflexivity | right; nnt]
with endt :=
  cbn [pos_of end_of]; nils;
  repeat match goal with
  | |- context [is_empty ?l] => is_var l; destruct l; cbn [is_empty negb]
  | |- (if ?c then _ else _) <> None => destruct c
  end;
  first [discriminate | apply nn_end; nnt | apply nn_pos; nnt
        | apply last_end; [assumption | first [assumption | discriminate | congruence]]
        | apply hd_pos; [assumption | first [assumption | discriminate | congruence]]
        | apply last_pos; [assumption | first [assumption | discriminate | congruence]]
        | apply last_ended_end; [assumption | first [assumption | discriminate | congruence]]]
with goodt := lazymatch goal with
  | |- good ENil => apply good_nil
  | |- good ?e =>
      first
      [ assumption
      | apply gd_good; assumption
      | apply mb_good; assumption
      | apply mg_good; assumption
      | apply mb_good, mb_isid; assumption
      | apply mb_good, mb_isstr; assumption
      | apply mb_good, mb_isnum; assumption
      | apply nn_good; nnt
      | let h := head e in is_constructor h;
        apply mk_good; [cbn [placed spots poss is_nil]; posl | respt
                       | cbn [wants]; first [discriminate | intros _; split; endt] | kindt | gapt | fillt | cbn [subs]; goods] ]
  end
with goods := lazymatch goal with
  | |- Forall good [] => apply Forall_nil
  | |- Forall good (_ :: _) => first [assumption | apply Forall_gd_good; assumption | apply Forall_nn_good; assumption | apply Forall_cons; [goodt | goods]]
  | |- Forall good (_ ++ _)%list => apply Forall_app; split; goods
  | |- Forall good (if ?c then _ else _) => destruct c; goods
  | |- Forall good _ => first [assumption | apply Forall_nn_good; assumption | apply Forall_gd_good; assumption | apply Forall_jopt_good; assumption | apply Forall_mb_good; assumption | apply Forall_na_good; assumption | apply Forall_isid_good; assumption
                              | match goal with HF : Forall _ ?l |- Forall _ ?l => solve [eapply Forall_impl; [|exact HF]; cbv beta; intros ? ?; clean; goodt] end]
  end.

Ltac nat_ := first [assumption | split; [nnt | split; reflexivity]].

Ltac val := cbv beta; lazymatch goal with
  | |- True => exact I
  | |- pok _ => pokt
  | |- nn (if ?c then _ else _) => destruct c; val
  | |- good (if ?c then _ else _) => destruct c; val
  | |- gd (if ?c then _ else _) => destruct c; val
  | |- mg (if ?c then _ else _) => destruct c; val
  | |- mb (if ?c then _ else _) => destruct c; val
  | |- nn _ => nnt
  | |- mb _ => mbt
  | |- na _ => nat_
  | |- good _ => goodt
  | |- isid _ => first [assumption | apply isid_mk; pokt | unfold ident_of; apply isid_mk; pokt]
  | |- isstr _ => first [assumption | apply isstr_mk; pokt]
  | |- isnum _ => first [assumption | apply isnum_mk; pokt]
  | |- isparams _ => first [assumption | apply isparams_mk; [pokt | pokt | nnt | mbt]]
  | |- isenum _ => first [assumption | eexists _, _; split; [reflexivity | split; val]]
  | |- istbl _ => first [assumption | eexists _, _; split; [reflexivity | split; val]]
  | |- isjpath _ => first [assumption | eexists _; split; [reflexivity | val]]
  | |- iskv _ => first [assumption | eexists _, _; split; [reflexivity | split; val]]
  | |- istarget _ => first [assumption | eexists _, _; split; [reflexivity | split; val]]
  | |- iswin _ => first [assumption | eexists _, _, _; split; [reflexivity | split; [|split]; val]]
  | |- isjopt _ => first [assumption | split; [goodt | reflexivity]]
  | |- gd _ => gdt
  | |- mg _ => first [assumption | left; reflexivity | apply mb_mg; mbt | right; gdt]
  | |- oitem None => exact I
  | |- oitem (Some _) => unfold oitem; int
  | |- In _ its => int
  | |- Forall good _ => goods
  | |- Forall gd _ => gds
  | |- Forall _ [] => apply Forall_nil
  | |- Forall _ (_ :: _) => first [assumption | apply Forall_cons; val]
  | |- Forall _ (_ ++ [_])%list => apply Forall_snoc'; val
  | |- Forall _ (_ ++ _)%list => apply Forall_app; split; val
  | |- Forall _ _ => first [assumption | eapply Forall_impl; [|eassumption]; cbv beta; intros; val]
  | |- _ /\ _ => split; val
  | |- _ \/ _ => first [assumption | left; val | right; val]
  | |- _ -> _ => let Hx := fresh in intros Hx; first [discriminate Hx | repeat match goal with H : ?A -> _, Hy : ?A |- _ => specialize (H Hy) end; val]
  | |- (_ ++ _)%list <> [] => let E := fresh in intros E; apply app_eq_nil in E; destruct E; discriminate
  | |- match (if ?c then _ else _) with inl _ => _ | inr _ => _ end => destruct c; cbv iota; val
  | |- match ?x with inl _ => _ | inr _ => _ end => destruct x; val
  | |- wfs _ => assumption
  | |- (_ < _)%nat => lia
  | |- (_ <= _)%nat => lia
  | |- _ => first [assumption | reflexivity | discriminate | congruence | lia]
  end.

Ltac case_if c :=
  first
  [ lazymatch c with true => idtac | false => idtac end
  | match goal with
    | H : c = true |- _ => rewrite H
    | H : c = false |- _ => rewrite H
    end
  | match c with context [is_nil ?e] =>
      match goal with
      | H : mb e |- _ => destruct H as [-> | H]; [| rewrite (nn_nil e H)]
      | H : e = ENil \/ _ |- _ => destruct H as [-> | H]; clean
      | H : nn e |- _ => rewrite (nn_nil e H)
      | H : na e |- _ => rewrite (nn_nil e (na_nn e H))
      end
    end; cbn [is_nil negb andb orb]
  | match c with context [is_nil ENil] => cbn [is_nil negb andb orb] end
  | match c with context [is_nil (EIdent _ _ _ _)] => cbn [is_nil negb andb orb] end
  | match c with context [is_empty ?l] => is_var l; destruct l; cbn [is_empty negb andb orb]; lazymatch goal with |- context [if c then _ else _] => fail | |- _ => idtac end end
  | is_var c; destruct c
  | destruct c eqn:? ];
  cbv iota; clean.

Ltac case_match x :=
  let T := type of x in
  lazymatch T with expr => fail 1 "manual match" | _ => idtac end;
  first [is_var x; destruct x | match goal with H : x = _ |- _ => rewrite H end | destruct x eqn:?]; cbv iota beta; cbn [fst snd] in *; clean;
  try match goal with
  | E : it_tok ?it = None |- _ => exfalso; assert (it_tok it <> None) by hastok; congruence
  end.

Ltac errt := lazymatch goal with
  | |- err_ok (Msg _) => exact I
  | |- err_ok (ExpKind _ _) => unfold err_ok; int
  | |- err_ok (ExpKw _ _) => unfold err_ok; int
  | |- err_ok (AtMsg _ _) => unfold err_ok; int
  | |- err_ok _ => assumption
  end.
Ltac panict := lazymatch goal with
  | |- panic_ok _ => unfold panic_ok, panics; cbn; solve [auto 8]
  end.

Ltac tokfact := match goal with
  | H : it_tok (here ?s) <> None -> ?R |- _ =>
      first [ let T := fresh in assert (T : it_tok (here s) <> None) by hastok; specialize (H T); clear T | clear H ]
  end.

Ltac specdb := solve [eauto 6 with spec nocore].

Ltac usespec := eapply use_spec; [specdb | assumption | lia | cbv beta; intros ? ? ? ? ? ?; clean].
Ltac usetail := eapply use_tail; [specdb | assumption | lia | cbv beta; intros ? ? ? ? ? ?; clean; val].

Ltac branchy f :=
  let t := eval cbv beta in (f true) in
  lazymatch t with
  | (if true then _ else _) => idtac
  | (if negb true then _ else _) => idtac
  | Ret (if true then _ else _) => idtac
  end.

Ltac stp :=
  lazymatch goal with
  | |- wp (let x := ?v in _) _ _ => cbv zeta
  | |- wp (bind ?p ?f) ?s ?Q =>
      lazymatch p with
      | bind _ _ => apply bind_assoc_wp
      | Ret _ => apply bind_Ret; cbv beta iota
      | Fail _ => apply bind_Fail; errt
      | Panic _ => apply bind_Panic; panict
      | cur_item => apply bind_cur; cbv beta
      | pos_ => apply bind_pos; cbv beta
      | end_ => apply bind_end; cbv beta
      | eof_ => apply bind_eof; cbv beta
      | skip => apply bind_skip; [assumption | intros ? ? ? ?; tokfact; cbv beta]
      | consumeOrFail => apply bind_consumeOrFail; [assumption | intros ? ? ? ?; tokfact; cbv beta]
      | cur_str => apply bind_cur_str; [hastok | intros ?; cbv beta]
      | cur_to_string => apply bind_cur_to_string; [hastok | intros ?; cbv beta]
      | grab => apply bind_grab; [assumption | hastok | intros ? ? ? ?; cbv beta]
      | tryTkb _ => first [ first [branchy f | match goal with E : tk (here s) _ = _ |- _ => lazymatch p with tryTkb ?k => lazymatch type of E with tk _ k = _ => idtac end end end]; apply bind_tryTkb; [assumption | reflexivity | intros ? ? ? ?; cbv beta iota; clean | intros ?; cbv beta iota; clean] | usespec ]
      | tryKw _ => first [ first [branchy f | match goal with E : kw (here s) _ = _ |- _ => lazymatch p with tryKw ?k => lazymatch type of E with kw _ k = _ => idtac end end end]; apply bind_tryKw; [assumption | intros ? ? ? ?; cbv beta iota; clean | intros ?; cbv beta iota; clean] | usespec ]
      | expTk _ => apply bind_expTk; [assumption | reflexivity | intros ? ? ? ?; cbv beta]
      | expKw _ => apply bind_expKw; [assumption | intros ? ? ? ?; cbv beta]
      | endOf _ => first [apply bind_endOf; [nnt | intros ? ?; cbv beta] | apply bind_endOf_good; [goodt | intros ? ?; cbv beta]]
      | posOf _ => apply bind_posOf; [nnt | intros ? ?; cbv beta]
      | lastEnd _ _ => apply bind_lastEnd; [pokt | val | intros ? ?; cbv beta]
      | endOr _ _ => first [apply bind_endOr; [pokt | mbt | intros ? ?; cbv beta] | apply bind_endOr_good; [pokt | goodt | intros ? ?; cbv beta]]
      | (if ?c then _ else _) =>
          first [ lazymatch c with true => cbv iota | false => cbv iota end | knowncond c; cbv iota; clean | docut p ]
      | match _ with _ => _ end => docut p
      | loop ?x _ => doloop x
      | commaLoop _ (bind _ _) => first [cml 0 (@nn _) | cml 6 (@nn _) | cml 9 (@nn _) | cml 0 (@gd _) | cml 9 (@gd _)]
      | _ => usespec
      end
  | |- wp ?p ?s ?Q =>
      lazymatch p with
      | Ret _ => apply wp_Ret; cbv beta iota; cbn [fst snd]; val
      | Fail _ => apply wp_Fail; errt
      | Panic _ => apply wp_Panic; panict
      | skip => apply tail_skip; [assumption | intros ? ? ? ?; tokfact; val]
      | grab => apply tail_grab; [assumption | hastok | intros ? ? ? ?; val]
      | Peek _ => apply wp_peek; [assumption | intros ? ?; cbv beta iota | intros ? ? ? ? ? ?; cbv beta iota]
      | (if ?c then _ else _) => case_if c
      | match ?x with _ => _ end => case_match x
      | loop ?x _ => doloop x
      | _ => usetail
      end
  | |- spec _ _ _ _ => intros ? ? ?
  end
with knowncond c :=
  match c with
  | context [is_nil ?e] =>
      first [ match goal with H : nn e |- _ => rewrite (nn_nil e H) end
            | match goal with H : na e |- _ => rewrite (nn_nil e (na_nn e H)) end
            | let h := head e in is_constructor h ];
      cbn [is_nil negb andb orb];
      lazymatch goal with |- wp (bind (if ?c then _ else _) _) _ _ => lazymatch c with true => idtac | false => idtac end | |- _ => idtac end
  | _ => match goal with
    | H : c = true |- _ => rewrite H
    | H : c = false |- _ => rewrite H
    end
  end
with docut p :=
  let T := type of p in
  lazymatch eval cbv beta in T with
  | prog expr =>
      lazymatch p with
      | context [Ret ENil] => first [trycut p (fun e : expr => e = ENil \/ isid e) | trycut p (fun e : expr => e = ENil \/ isstr e) | trycut p (@mb _) | trycut p (@gd _) | trycut p (@mg _) | trycut p (@good _)]
      | context [parseFunctionParams] => first [trycut p (@isparams _) | trycut p (@na _) | trycut p (@nn _)]
      | _ => first [trycut p (@isid _) | trycut p (@na _) | trycut p (@nn _) | trycut p (@mb _) | trycut p (@gd _) | trycut p (@mg _) | trycut p (@good _)]
      end
  | prog pos => trycut p (@pok _)
  | prog (list expr) => first [trycut p (fun l => Forall nn l /\ l <> []) | trycut p (Forall nn) | trycut p (Forall mb) | trycut p (Forall gd) | trycut p (Forall good)]
  | prog (option item) => trycut p (@oitem _)
  | prog (expr * expr) => first [trycut p (fun x => nn (fst x) /\ nn (snd x)) | trycut p (fun x => mb (fst x) /\ mb (snd x)) | trycut p (fun x => mg (fst x) /\ mg (snd x))]
  | prog (pos * expr) => first [trycut p (fun x => pok (fst x) /\ nn (snd x)) | trycut p (fun x => pok (fst x) /\ mb (snd x)) | trycut p (fun x => pok (fst x) /\ mg (snd x))]
  | prog (expr * pos) => first [trycut p (fun x => nn (fst x) /\ pok (snd x)) | trycut p (fun x => mb (fst x) /\ pok (snd x)) | trycut p (fun x => mg (fst x) /\ pok (snd x))]
  | prog (expr * expr * expr) => first [trycut p (fun x => nn (fst (fst x)) /\ nn (snd (fst x)) /\ nn (snd x)) | trycut p (fun x => mb (fst (fst x)) /\ mb (snd (fst x)) /\ mb (snd x))]
  | prog (expr * list expr * expr) => trycut p (fun x => mb (fst (fst x)) /\ Forall nn (snd (fst x)) /\ mb (snd x))
  | prog (string * expr) => first [trycut p (fun x : string * expr => nn (snd x)) | trycut p (fun x : string * expr => mb (snd x)) | trycut p (fun x : string * expr => mg (snd x))]
  | prog (expr * list expr) => trycut p (fun x => mb (fst x) /\ Forall nn (snd x))
  | prog (list expr * expr) => trycut p (fun x => Forall nn (fst x) /\ mb (snd x))
  | prog ?U => trycut p (fun _ : U => True)
  end
with trycut p P :=
  lazymatch p with
  | (if _ then _ else Ret _) => weakcut P
  | (if _ then Ret _ else _) => weakcut P
  | _ => first [ apply (cut_strict _ _ _ _ _ _ P); [solve [go] | cbv beta; intros ? ? ? ? ?; clean] | weakcut P ]
  end
with weakcut P := apply (cut_weak _ _ _ _ _ _ P); [solve [go] | cbv beta; intros ? ? ? ? ?; clean]
with cml r0 P0 := eapply use_spec; [apply (commaLoop_ok r0 _ _ (fun _ => false) P0); solve [go] | assumption | lia | cbv beta; intros ? ? ? ? ? ?; clean]
with lp PX PY :=
  first [ apply (bind_loop _ _ _ _ _ _ _ _ PX PY); [assumption | cbn [fst snd]; val | lia | cbv beta; intros ? ? ? ? ?; clean; solve [go] | cbv beta; intros ? ? ? ? ?; clean]
        | apply (tail_loop _ _ _ _ _ _ PX PY); [assumption | cbn [fst snd]; val | lia | cbv beta; intros ? ? ? ? ?; clean; solve [go] | cbv beta; intros ? ? ? ? ?; clean; val] ]
with doloop x :=
  let T := type of x in
  lazymatch T with
  | list expr =>
      first [ lp (fun l : list expr => Forall nn l /\ l <> []) (fun l : list expr => Forall nn l /\ l <> [])
            | lp (Forall nn) (Forall nn) | lp (Forall gd) (Forall gd) | lp (Forall good) (Forall good) ]
  end
with go := repeat stp.

(** Finish with a value; its predicate remains to be shown. *)
Ltac leaf := apply wp_Ret; cbv beta iota; (split; [assumption | split; [lia | try (split; [intros; lia |])]]).
Ltac steps := repeat (lazymatch goal with |- wp (Ret _) _ _ => fail | |- _ => stp end).
Ltac mknn := apply mk_nn; [cbn [placed spots poss is_nil]; posl | cbn [respects] | cbn [wants is_node sort_of]; try reflexivity | endt | endt | kindt | gapt | fillt | cbn [subs]; goods].
