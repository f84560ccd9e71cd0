(** Operator precedence: specifications of the functions of ParserExpr.v on operators. *)
From Coq Require Import String List Arith Bool Lia ZArith.
From Verif Require Import Str Keyword Lexer Ast AstPos AstSubs PrecSpec SpanSpec Prog Items ItemsFacts RunFacts
  ParserCommon ParserExpr ParserQuery Parser Hoare Spec SpecTac SpecCommon SpecTypes SpecArgs SpecOperand.
Import ListNotations.
Local Open Scope string_scope.
Local Open Scope nat_scope.

(** * Programs without calls and loops *)
Inductive simple : forall A, prog A -> Prop :=
| simple_Ret A (a : A) : simple A (Ret a)
| simple_Fail A e : simple A (Fail e)
| simple_Panic A z : simple A (Panic z)
| simple_Cur A k : (forall x, simple A (k x)) -> simple A (Cur k)
| simple_Consume A k : (forall x, simple A (k x)) -> simple A (Consume k)
| simple_Peek A k : (forall x, simple A (k x)) -> simple A (Peek k)
| simple_Attempt A B (p : prog B) keep k : simple B p -> (forall x, simple A (k x)) -> simple A (Attempt p keep k).
Arguments simple {A}.

Lemma simple_bind A B (p : prog A) (f : A -> prog B) : simple p -> (forall x, simple (f x)) -> simple (bind p f).
Proof. intros Hp Hf. induction Hp; cbn [bind]; try constructor; auto. Qed.

(** Such a program does not depend on the fuel, and leaves the memo alone. *)
Lemma simple_run A (p : prog A) : simple p -> forall f s,
  run body (S f) p s = run body 1 p s /\ (forall a s', run body 1 p s = ROk a s' -> memo s' = memo s) /\ (forall e s', run body 1 p s = RErr e s' -> memo s' = memo s).
Proof.
  assert (Hadv : forall s, memo (advance s) = memo s) by (intros s; unfold advance; now destruct (rest s)).
  induction 1 as [A a|A e|A z|A k Hk IH|A k Hk IH|A k Hk IH|A B p keep k Hp IHp Hk IH]; intros f s.
  - split; [reflexivity | split; intros; cbn in *; congruence].
  - split; [reflexivity | split; intros; cbn in *; congruence].
  - split; [reflexivity | split; intros; cbn in *; congruence].
  - exact (IH (here s) f s).
  - rewrite !run_Consume. destruct (IH (it_err (here (advance s))) f (advance s)) as (H1 & H2 & H3). repeat split; [exact H1 | |]; intros; rewrite <- (Hadv s); eauto.
  - rewrite !run_Peek. destruct (IH (fst (do_peek s)) f (snd (do_peek s))) as (H1 & H2 & H3).
    assert (Hm : memo (snd (do_peek s)) = memo s) by (unfold do_peek; destruct (it_err _); cbn [snd]; auto).
    repeat split; [exact H1 | |]; intros; rewrite <- Hm; eauto.
  - rewrite !run_Attempt. destruct (IHp f s) as (H1 & H2 & H3). rewrite H1.
    assert (Hr : forall s', memo (restore s s') = memo s') by reflexivity.
    destruct (run body 1 p s) as [a s'|e s'|z|]; [| |split; [reflexivity | split; intros; congruence] |split; [reflexivity | split; intros; congruence]].
    + specialize (H2 _ _ eq_refl). match goal with |- run _ _ _ ?x = _ /\ _ => destruct (IH (inr a) f x) as (H4 & H5 & H6); assert (Hm : memo x = memo s) by (destruct (keep _); auto) end.
      repeat split; [exact H4 | |]; intros; rewrite <- Hm; eauto.
    + specialize (H3 _ _ eq_refl). match goal with |- run _ _ _ ?x = _ /\ _ => destruct (IH (inl e) f x) as (H4 & H5 & H6); assert (Hm : memo x = memo s) by (destruct (keep _); auto) end.
      repeat split; [exact H4 | |]; intros; rewrite <- Hm; eauto.
Qed.

Ltac simp := repeat first
  [ progress intros
  | apply simple_bind
  | match goal with |- simple (if ?c then _ else _) => destruct c | |- simple (match ?c with _ => _ end) => destruct c end
  | constructor ].

Lemma simple_peekKw k : simple (peekKw k).
Proof. unfold peekKw, eof_. simp. Qed.
Lemma simple_anyM X (f : X -> prog bool) l : (forall x, simple (f x)) -> simple (anyM f l).
Proof. intros Hf. induction l; cbn [anyM]; [constructor|]. unfold orM. simp; auto. Qed.
Lemma simple_grab : simple grab.
Proof. unfold grab, cur_str, skip. simp. Qed.
Lemma simple_grabIf l : simple (grabIf l).
Proof. unfold grabIf, cur_item. simp. Qed.
Lemma simple_tryKw k : simple (tryKw k).
Proof. unfold tryKw, tryKws. constructor; [cbn [try_keywords]; unfold cur_item, skip; simp | simp]. Qed.
Lemma simple_parseJoinType : simple parseJoinType.
Proof.
  unfold parseJoinType. apply simple_bind; [apply simple_tryKw|]. intros [|]; [constructor|]. unfold cur_item.
  repeat first [ apply simple_grab | apply simple_grabIf | simp ].
Qed.
Lemma simple_peekJoinAfterLocality : simple peekJoinAfterLocality.
Proof.
  unfold peekJoinAfterLocality, parseJoinModifiers, cur_item, skip. repeat first [apply simple_parseJoinType | simp].
Qed.
Lemma simple_getNextPrecedence : simple getNextPrecedence.
Proof.
  unfold getNextPrecedence, cur_item. repeat first [apply simple_peekJoinAfterLocality | apply simple_peekKw | apply simple_anyM | simp].
Qed.

Lemma np_run f s v s' : run body (S f) getNextPrecedence s = ROk v s' -> v = np s.
Proof. destruct (simple_run _ _ simple_getNextPrecedence f s) as (-> & _ & _). unfold np. now intros ->. Qed.

Definition le16 (p : prog nat) : Prop := forall s, match run body 1 p s with ROk v _ => v <= 16 | _ => True end.
Lemma le16_Ret v : (v <=? 16) = true -> le16 (Ret v).
Proof. intros Hv s. apply Nat.leb_le in Hv. exact Hv. Qed.
Lemma le16_bind A (p : prog A) f : (forall x, le16 (f x)) -> le16 (bind p f).
Proof. intros Hf s. rewrite run_bind. destruct (run body 1 p s); cbn [andThen]; auto. apply Hf. Qed.

Lemma np_max s : np s <= 16.
Proof.
  assert (Hp : le16 getNextPrecedence).
  { unfold getNextPrecedence.
    repeat first [ apply le16_Ret; reflexivity | apply le16_bind; intros
                 | match goal with |- le16 (if ?c then _ else _) => destruct c | |- le16 (Ret (if ?c then _ else _)) => destruct c end ]. }
  specialize (Hp s). unfold np. destruct (run body 1 getNextPrecedence s); lia.
Qed.

Lemma np_none s : it_tok (here s) = None -> np s = 0.
Proof. destruct s as [[i t e er] r m]. cbn [here it_tok]. intros ->. reflexivity. Qed.

(** A symbol. *)
Lemma np_sym s t k n : it_tok (here s) = Some t -> t_kind t = k ->
  (forall i st b q e er r m, np (mkP (mkItem i (Some (mkTok k st b q)) e er) r m) = n) -> np s = n.
Proof. destruct s as [[i t' e er] r m]. cbn [here it_tok]. intros -> Hk Hn. destruct t as [k' st b q]. cbn in Hk. subst k'. apply Hn. Qed.

(** A keyword. *)
Lemma np_kw s k n : kw (here s) k = true ->
  (forall i st b q e er r m, upper st = upper k -> np (mkP (mkItem i (Some (mkTok KKeyword st b q)) e er) r m) = n) -> np s = n.
Proof.
  destruct s as [[i t' e er] r m]. cbn [here kw it_tok]. destruct t' as [[k' st b q]|]; [|discriminate]. cbn [t_kind t_str].
  intros E Hn. apply andb_prop in E as [E1 E2]. apply String.eqb_eq in E1. apply String.eqb_eq in E2. cbn [t_kind t_str] in E1, E2. subst k'. now apply Hn.
Qed.

Ltac npkw := intros ? ? ? ? ? ? ? ? Hu; unfold np, getNextPrecedence; cbn [cur_item bind run here];
  unfold kws, existsb, kw, equal_fold; cbn [it_tok t_kind t_str]; rewrite ?Hu; reflexivity.

Lemma np_OR s : kw (here s) "OR" = true -> np s = 3. Proof. intros E. apply (np_kw s _ _ E). npkw. Qed.
Lemma np_AND s : kw (here s) "AND" = true -> np s = 4. Proof. intros E. apply (np_kw s _ _ E). npkw. Qed.
Lemma np_IS s : kw (here s) "IS" = true -> np s = 7. Proof. intros E. apply (np_kw s _ _ E). npkw. Qed.
Lemma np_BETWEEN s : kw (here s) "BETWEEN" = true -> np s = 9. Proof. intros E. apply (np_kw s _ _ E). npkw. Qed.
Lemma np_LIKE s : kw (here s) "LIKE" = true -> np s = 9. Proof. intros E. apply (np_kw s _ _ E). npkw. Qed.
Lemma np_ILIKE s : kw (here s) "ILIKE" = true -> np s = 9. Proof. intros E. apply (np_kw s _ _ E). npkw. Qed.
Lemma np_REGEXP s : kw (here s) "REGEXP" = true -> np s = 9. Proof. intros E. apply (np_kw s _ _ E). npkw. Qed.
Lemma np_IN s : kw (here s) "IN" = true -> np s = 10. Proof. intros E. apply (np_kw s _ _ E). npkw. Qed.

Lemma kw_other it a b : kw it a = true -> String.eqb (upper a) (upper b) = false -> kw it b = false.
Proof.
  unfold kw. destruct (it_tok it) as [t|]; [|discriminate]. intros E Hn. apply andb_prop in E as [-> E]. unfold equal_fold in *.
  apply String.eqb_eq in E. now rewrite E.
Qed.
Lemma kw_kind it a : kw it a = true -> cur_kind it = KKeyword.
Proof.
  unfold kw, cur_kind. destruct (it_tok it) as [t|]; [|discriminate]. intros E. apply andb_prop in E as [E _]. now apply String.eqb_eq in E.
Qed.
Lemma kw_tks it a l : kw it a = true -> str_in KKeyword l = false -> str_in KIdent l = false -> tks it l = false.
Proof.
  intros E H1 H2. unfold tks. rewrite (kw_kind it a E), H1, H2. destruct (it_tok it); [|reflexivity]. now rewrite andb_false_r.
Qed.
Lemma peekKw_run k s : it_eof (here s) = false -> it_err (here (advance s)) = None -> run body 1 (peekKw k) s = ROk (kw (here (advance s)) k) s.
Proof.
  intros H1 H2. unfold peekKw. change (run body 1 (bind eof_ ?f) s) with (run body 1 (f (it_eof (here s))) s). cbv beta. rewrite H1.
  rewrite run_Peek. unfold do_peek. rewrite H2. cbn [fst snd]. unfold kw. now destruct (it_tok (here (advance s))).
Qed.

Section Prec.
  Context `{Env}.

  (** An item with a token comes only after one that is not at the end of the input. *)
  Lemma next_tok s : wfs s -> it_tok (here s) <> None -> it_tok (here (advance s)) <> None ->
    it_eof (here s) = false /\ it_err (here (advance s)) = None.
  Proof.
    intros Hw E1 E2. pose proof (tok_rest s Hw E1) as Hr. pose proof (wfs_in _ (wfs_advance s Hw)) as Hi2.
    split; [|exact (gi_err _ its_good _ Hi2 E2)]. destruct Hw as [pre Hp].
    destruct s as [h r m]. cbn [here rest] in *. destruct r as [|i2 r]; [congruence|]. cbn [advance rest here] in *.
    destruct (it_eof h) eqn:Ee; [|reflexivity]. exfalso. apply E2.
    apply (gi_eof _ its_good (List.length pre) h i2); [| | exact Ee]; rewrite Hp.
    - rewrite nth_error_app2, Nat.sub_diag by lia. reflexivity.
    - rewrite nth_error_app2 by lia. replace (S (List.length pre) - List.length pre) with 1 by lia. reflexivity.
  Qed.

  Lemma np_NOT s k n : wfs s -> kw (here s) "NOT" = true -> kw (here (advance s)) k = true ->
    (if String.eqb (upper k) "IN" then 10 else if existsb (fun x => String.eqb (upper k) (upper x)) ["LIKE"; "ILIKE"; "BETWEEN"] then 9 else 5) = n -> np s = n.
  Proof.
    intros Hw E1 E2 <-. destruct (next_tok s Hw (kw_tok _ _ E1) (kw_tok _ _ E2)) as [He Hr].
    assert (Hk : forall x, kw (here (advance s)) x = String.eqb (upper k) (upper x)).
    { intros x. destruct (String.eqb (upper k) (upper x)) eqn:Ex; [|exact (kw_other _ _ _ E2 Ex)].
      apply String.eqb_eq in Ex. unfold kw, equal_fold in *. destruct (it_tok (here (advance s))); [|discriminate]. now rewrite <- Ex. }
    unfold np, getNextPrecedence. change (run body 1 (bind cur_item ?f) s) with (run body 1 (f (here s)) s). cbv beta.
    rewrite (kw_other _ _ "OR" E1 eq_refl), (kw_other _ _ "AND" E1 eq_refl), (kw_other _ _ "IS" E1 eq_refl), E1. cbv iota.
    rewrite run_bind, peekKw_run, Hk by assumption. cbn [andThen]. change (upper "IN") with "IN". destruct (String.eqb (upper k) "IN"); [reflexivity|].
    rewrite run_bind. cbn [anyM]. unfold orM. rewrite run_bind, peekKw_run, Hk by assumption. cbn [andThen existsb].
    destruct (String.eqb (upper k) (upper "LIKE")); [reflexivity|]. rewrite run_bind, peekKw_run, Hk by assumption. cbn [andThen existsb orb].
    destruct (String.eqb (upper k) (upper "ILIKE")); [reflexivity|]. rewrite run_bind, peekKw_run, Hk by assumption. cbn [andThen existsb orb].
    destruct (String.eqb (upper k) (upper "BETWEEN")); reflexivity.
  Qed.

  (** GLOBAL. *)
  Lemma np_GLOBAL s : kw (here s) "GLOBAL" = true -> np s = 0 \/ np s = 10.
  Proof.
    intros E. unfold np, getNextPrecedence. change (run body 1 (bind cur_item ?f) s) with (run body 1 (f (here s)) s). cbv beta.
    rewrite (kw_other _ _ "OR" E eq_refl), (kw_other _ _ "AND" E eq_refl), (kw_other _ _ "IS" E eq_refl), (kw_other _ _ "NOT" E eq_refl).
    unfold tk, kws, existsb. rewrite !(kw_tks _ _ _ E) by reflexivity.
    rewrite (kw_other _ _ "BETWEEN" E eq_refl), (kw_other _ _ "LIKE" E eq_refl), (kw_other _ _ "ILIKE" E eq_refl), (kw_other _ _ "REGEXP" E eq_refl), (kw_other _ _ "IN" E eq_refl), E.
    cbn [orb]. rewrite run_bind. destruct (run body 1 peekJoinAfterLocality s) as [[|] s'|e s'|z|]; cbn; auto.
  Qed.

  Lemma getNextPrecedence_wp s (Q : nat -> pstate -> Prop) : wfs s -> 10 * len s <= fl ->
    (forall s2, wfs s2 -> len s2 <= len s -> (s2 = s \/ it_tok (here s2) = None) -> Q (np s) s2) -> wp getNextPrecedence s Q.
  Proof.
    intros Hw Hl HQ.
    assert (Hp : wp getNextPrecedence s (fun _ s2 => wfs s2 /\ len s2 <= len s /\ (s2 = s \/ it_tok (here s2) = None))).
    { unfold getNextPrecedence. apply bind_cur.
      repeat (match goal with
      | |- wp (Ret _) _ _ => apply wp_Ret; auto
      | |- wp (if kw _ "NOT" then _ else _) _ _ => destruct (kw (here s) "NOT") eqn:En
      | |- wp (if kw _ "GLOBAL" then _ else _) _ _ => destruct (kw (here s) "GLOBAL") eqn:Eg
      | |- wp (if ?c then _ else _) _ _ => destruct c
      end).
      - apply wp_bind. eapply wp_conseq; [apply peekKw_stays, Hw|]. intros b s' (H1 & H2 & H3). cbv beta. destruct b; [apply wp_Ret; auto|].
        apply wp_bind. eapply wp_conseq; [apply anyM_stays; [intros; apply peekKw_stays | exact H1]|]. intros b s2 (H4 & H5 & H6). apply wp_Ret.
        repeat split; [exact H4 | lia|]. destruct H6 as [->|H6]; auto.
      - apply wp_bind. pose proof (simple_run _ _ simple_peekJoinAfterLocality fl s) as (Hr & Hm & _).
        pose proof (peekJoinAfterLocality_wp s (fun _ s' => exists s0, s' = restore s s0) Hw Hl (fun _ s' _ _ => ex_intro _ s' eq_refl)) as Hx. unfold wp, post in *.
        rewrite Hr in *. destruct (run body 1 peekJoinAfterLocality s) as [b s'|e s'|z|]; auto. specialize (Hm _ _ eq_refl).
        destruct Hx as [s0 ->]. assert (Hs : restore s s0 = s) by (destruct s; cbn in *; unfold restore; cbn; congruence). rewrite Hs. cbn. auto. }
    unfold wp in *. pose proof (np_run fl s) as Hv. destruct (run body (S fl) getNextPrecedence s) as [v s2|e s2|z|]; cbn in *; auto.
    rewrite (Hv _ _ eq_refl). apply HQ; tauto.
  Qed.
End Prec.

Ltac conjs := repeat match goal with |- _ /\ _ => split end.

Section Infix.
  Context `{Calls}.

  Lemma tk_kind it k t : tk it k = true -> it_tok it = Some t -> str_in KIdent [k] = false -> t_kind t = k.
  Proof.
    unfold tk, tks, cur_kind. intros E Ht Hk. rewrite Ht in E. rewrite Hk, andb_false_r in E. cbn in E.
    destruct (String.eqb (t_kind t) k) eqn:Ek; [now apply String.eqb_eq|]. cbn in E. discriminate.
  Qed.

  Lemma np_tk s k n : tk (here s) k = true -> str_in KEOF [k] = false -> str_in KIdent [k] = false ->
    (forall i st b q e er r m, np (mkP (mkItem i (Some (mkTok k st b q)) e er) r m) = n) -> np s = n.
  Proof.
    intros E H1 H2 Hn. pose proof (tk_tok _ _ E H1) as Ht. destruct (it_tok (here s)) as [t|] eqn:Et; [|congruence].
    exact (np_sym s t k n Et (tk_kind _ _ _ E Et H2) Hn).
  Qed.

  (** The text of a binary operator, and its strength. *)
  Definition is_op (it : item) : bool :=
    tks it ["="; "<"; "<="; ">="; ">"; "!="; "<>"; "-"; "+"; "*"; "/"; "%"; "||"; "=="]
    || kws it ["IN"; "LIKE"; "ILIKE"; "REGEXP"; "AND"; "OR"].

  Lemma kws_in it l : kws it l = true -> exists k, In k l /\ kw it k = true.
  Proof. unfold kws. apply existsb_exists. Qed.
  Lemma tks_in it l : tks it l = true -> str_in KIdent l = false -> exists k, In k l /\ cur_kind it = k.
  Proof.
    unfold tks. destruct (str_in (cur_kind it) l) eqn:E.
    - intros _ _. unfold str_in in E. apply existsb_exists in E as (k & Hk & E). apply String.eqb_eq in E. eauto.
    - destruct (it_tok it); [|discriminate]. intros E2 H2. rewrite H2, andb_false_r in E2. discriminate.
  Qed.
  Lemma kw_text it k t : kw it k = true -> it_tok it = Some t -> tok_to_string t = upper k.
  Proof.
    unfold kw, tok_to_string, equal_fold. intros E Ht. rewrite Ht in E. apply andb_prop in E as [-> E]. now apply String.eqb_eq.
  Qed.
  Lemma sym_text it t k : In it its -> it_tok it = Some t -> t_kind t = k -> str_in k plain_kinds = false -> tok_to_string t = k.
  Proof.
    intros Hi Ht Hk Hn. assert (Hk2 : t_kind t = t_str t).
    { destruct (gi_text _ its_good it t Hi Ht) as [Hp|]; [|assumption]. exfalso.
      assert (E : str_in k plain_kinds = true); [|congruence]. unfold str_in. apply existsb_exists. exists (t_kind t). split; [exact Hp|]. rewrite Hk. apply String.eqb_refl. }
    unfold tok_to_string. rewrite <- Hk2, Hk. destruct (String.eqb k KKeyword) eqn:E; [|reflexivity].
    apply String.eqb_eq in E. subst k. rewrite E in Hn. discriminate.
  Qed.

  Lemma infix_op s : wfs s -> is_op (here s) = true ->
    exists t, it_tok (here s) = Some t /\ op_level (tok_to_string t) = Some (np s) /\ String.eqb (tok_to_string t) "->" = false.
  Proof.
    intros Hw E. unfold is_op in E. apply orb_prop in E as [E|E].
    - destruct (it_tok (here s)) as [t|] eqn:Et; [|rewrite tks_none in E by exact Et; discriminate].
      apply tks_in in E as (k & Hk & E); [|reflexivity]. unfold cur_kind in E. rewrite Et in E.
      exists t. split; [reflexivity|]. cbn [In] in Hk.
      repeat (destruct Hk as [<-|Hk]; [rewrite (sym_text _ _ _ (wfs_in _ Hw) Et E eq_refl); erewrite (np_sym s t _ _ Et E); [split; reflexivity | intros; reflexivity]|]).
      destruct Hk.
    - apply kws_in in E as (k & Hk & E). pose proof (kw_tok _ _ E) as Ht. destruct (it_tok (here s)) as [t|] eqn:Et; [|congruence].
      exists t. split; [reflexivity|]. rewrite (kw_text _ _ _ E Et). cbn [In] in Hk.
      destruct Hk as [<-|[<-|[<-|[<-|[<-|[<-|[]]]]]]].
      + now rewrite np_IN.
      + now rewrite np_LIKE.
      + now rewrite np_ILIKE.
      + now rewrite np_REGEXP.
      + now rewrite np_AND.
      + now rewrite np_OR.
  Qed.

  Lemma bind_sub B prec (f : expr -> prog B) s Q : prec <= 16 -> wfs s -> 10 * len s + 5 <= fl ->
    (forall e s', wfs s' -> len s' < len s -> nn e -> prec < as_right e -> np s' <= prec -> np s' <= as_left e -> wp (f e) s' Q) ->
    wp (bind (parseSubExprHere prec) f) s Q.
  Proof.
    intros Hp Hw Hl Hf. unfold parseSubExprHere. apply bind_assoc_wp, bind_pos. apply wp_bind. unfold parseSubExpr.
    apply wp_call; [split; [apply pok_ipos, wfs_in, Hw | exact Hp] | exact Hw | cbn [rank]; lia |].
    intros e s' H1 H2 H3 (H4 & H5 & H6 & H7). apply Hf; auto.
  Qed.

  Lemma binary_nn l op r b1 b2 n : nn l -> nn r -> op_level op = Some n -> n <= as_left l ->
    (if String.eqb op "->" then n <= as_right r else n < as_right r) -> nn (EBinaryOperation l op r b1 b2).
  Proof. intros Hl Hr Ho H1 H2. mknn. rewrite Ho. exact (conj H1 H2). Qed.

  Definition infix_post (e : expr) (s : pstate) (e' : expr) (s' : pstate) : Prop :=
    wfs s' /\ len s' < len s /\ nn e' /\ np s' <= as_left e' /\ (forall p0, p0 < np s -> p0 < as_right e -> p0 < as_right e').

  (** The step to the state after a token. *)
  Lemma skip_to B (f : unit -> prog B) s Q : wfs s -> it_tok (here s) <> None ->
    (wfs (advance s) -> len (advance s) < len s -> wp (f tt) (advance s) Q) -> wp (bind skip f) s Q.
  Proof. intros Hw Ht Hf. change (wp (f tt) (advance s) Q). apply Hf; [now apply wfs_advance | now apply len_advance_lt]. Qed.

  Lemma min_lt p a b : p < a -> p < b -> p < min a b. Proof. lia. Qed.

  Lemma binary_post e s op r b1 b2 s' : wfs s' -> len s' < len s -> nn e -> nn r -> op_level op = Some (np s) -> np s <= as_left e ->
    (if String.eqb op "->" then np s <= as_right r else np s < as_right r) -> np s' <= np s -> np s' <= as_left r ->
    infix_post e s (EBinaryOperation e op r b1 b2) s'.
  Proof.
    intros Hw Hl He Hr Ho H1 H2 H3 H4. pose proof (binary_nn e op r b1 b2 (np s) He Hr Ho H1 H2) as Hnn. unfold infix_post; conjs; auto.
    - cbn [as_left]. rewrite Ho. lia.
    - intros p0 Ha Hb. cbn [as_right]. rewrite Ho. now apply min_lt.
  Qed.

  Lemma between_post e s s1 not : wfs s1 -> len s1 <= len s -> 10 * len s <= fl -> nn e -> np s = 9 -> np s <= as_left e ->
    wp (parseBetweenClause e not) s1 (infix_post e s).
  Proof.
    intros Hw Hl Hf He Hn Hle. unfold parseBetweenClause. apply bind_expKw; [exact Hw|]. intros Ek s2 Hw2 Hl2.
    change (wp (bind (parseSubExprHere 9) (fun betweenExpr => do andPos <- pos_ ;; do! expKw "AND" ;;
      do andExpr <- parseSubExprHere 9 ;; Ret (EBetweenClause e not betweenExpr andPos andExpr))) s2 (infix_post e s)).
    apply bind_sub; [lia | exact Hw2 | lia |]. intros lo s3 Hw3 Hl3 Hlo Hrlo _ _. apply bind_pos. apply bind_expKw; [exact Hw3|]. intros _ s4 Hw4 Hl4.
    apply bind_sub; [lia | exact Hw4 | lia |]. intros hi s5 Hw5 Hl5 Hhi Hrhi H1 H2. apply wp_Ret.
    unfold infix_post; conjs; auto; try lia.
    - mknn. right. unfold lv_between. lia.
    - cbn [as_left]. unfold lv_between. lia.
    - intros p0 Ha Hb. cbn [as_right]. apply min_lt; [unfold lv_between; lia | exact Hb].
  Qed.

  Lemma parseInfix_wp e s : wfs s -> 10 * len s <= fl -> nn e -> 0 < np s -> np s <= as_left e ->
    wp (parseInfix e (np s)) s (infix_post e s).
  Proof.
    intros Hw Hl He Hpos Hle. unfold parseInfix. apply bind_cur. fold (is_op (here s)).
    destruct (is_op (here s)) eqn:E0; [|clear E0; destruct (tk (here s) "->") eqn:E1; [|destruct (tk (here s) "::") eqn:E2;
      [|destruct (kw (here s) "BETWEEN") eqn:E3; [|destruct (kw (here s) "GLOBAL") eqn:E4; [|destruct (tk (here s) ".") eqn:E5;
        [|destruct (kw (here s) "NOT") eqn:E6; [|destruct (tk (here s) "[") eqn:E7; [|destruct (tk (here s) "?") eqn:E8; [|destruct (kw (here s) "IS") eqn:E9]]]]]]]]].
    - destruct (infix_op s Hw E0) as (t & Et & Ho & Ha). unfold cur_to_string. cbn [bind]. apply wp_Cur. rewrite Et. cbn [bind].
      apply skip_to; [exact Hw | congruence |]. intros Hw1 Hl1. apply bind_sub; [apply np_max | exact Hw1 | lia |].
      intros r s' Hw' Hl' Hr H1 H2 H3. apply wp_Ret. apply binary_post; auto; try lia; now rewrite Ha.
    - assert (Hn : np s = 1) by (apply (np_tk s _ _ E1); reflexivity). rewrite Hn. change (1 - 1) with 0.
      apply skip_to; [exact Hw | exact (tk_tok _ _ E1 eq_refl) |]. intros Hw1 Hl1. apply bind_sub; [lia | exact Hw1 | lia |].
      intros r s' Hw' Hl' Hr H1 H2 H3. apply wp_Ret. apply binary_post; auto; try lia; rewrite ?Hn; try reflexivity; cbn; lia.
    - assert (Hn : np s = 16) by (apply (np_tk s _ _ E2); reflexivity).
      apply skip_to; [exact Hw | exact (tk_tok _ _ E2 eq_refl) |]. intros Hw1 Hl1. apply bind_cur. destruct (_ && _).
      + eapply use_spec; [apply parseIdent_ok | exact Hw1 | lia |]. intros name s2 Hw2 Hl2 _ Hid. apply bind_expTk; [exact Hw2 | reflexivity |].
        intros _ s3 Hw3 Hl3. apply bind_pos. eapply use_spec; [apply parseNestedType_ok; [exact Hid | pokt] | exact Hw3 | lia |].
        intros r s4 Hw4 Hl4 _ (Hr & Hr1 & Hr2). apply wp_Ret. pose proof (np_max s4). unfold closed in *.
        apply binary_post; auto; try lia; rewrite ?Hn; try reflexivity; cbn; lia.
      + apply bind_sub; [apply np_max | exact Hw1 | lia |]. intros r s' Hw' Hl' Hr H1 H2 H3. apply wp_Ret. apply binary_post; auto; try lia; rewrite ?Hn; try reflexivity; cbn; lia.
    - apply between_post; auto. now apply np_BETWEEN.
    - assert (Hn : np s = 10) by (destruct (np_GLOBAL s E4); lia).
      apply skip_to; [exact Hw | exact (kw_tok _ _ E4) |]. intros Hw1 Hl1. apply wp_bind. eapply use_tail; [apply tryKw_ok | exact Hw1 | lia |].
      intros b s2 Hw2 Hl2 _ _. apply bind_cur. destruct (kw (here s2) "IN") eqn:Ei; [|apply wp_Fail; exact I].
      apply skip_to; [exact Hw2 | exact (kw_tok _ _ Ei) |]. intros Hw3 Hl3. apply bind_sub; [apply np_max | exact Hw3 | lia |].
      intros r s' Hw' Hl' Hr H1 H2 H3. apply wp_Ret. apply binary_post; auto; try lia; rewrite ?Hn; try reflexivity; cbn; lia.
    - assert (Hn : np s = 15) by (apply (np_tk s _ _ E5); reflexivity).
      apply skip_to; [exact Hw | exact (tk_tok _ _ E5 eq_refl) |]. intros Hw1 Hl1. apply bind_cur.
      apply (cut_weak _ _ _ _ _ _ nn); [destruct (tks _ _); go|]. intros r s2 Hw2 Hl2 Hr. apply wp_Ret.
      unfold infix_post; conjs; auto; try lia.
      + mknn. unfold lv_dot. lia.
      + cbn [as_left]. pose proof (np_max s2). unfold closed. lia.
      + intros p0 Ha Hb. cbn [as_right]. destruct (is_name e); [unfold closed; lia|]. apply min_lt; [unfold lv_dot; lia | exact Hb].
    - apply skip_to; [exact Hw | exact (kw_tok _ _ E6) |]. intros Hw1 Hl1. apply bind_cur.
      destruct (kw (here (advance s)) "BETWEEN") eqn:Eb.
      + apply between_post; auto; [lia|]. eapply np_NOT; [exact Hw | exact E6 | exact Eb | reflexivity].
      + destruct (kws (here (advance s)) ["IN"; "LIKE"; "ILIKE"]) eqn:Ek; [|apply wp_Fail; exact I].
        apply kws_in in Ek as (k & Hk & Ek). pose proof (kw_tok _ _ Ek) as Ht. destruct (it_tok (here (advance s))) as [t|] eqn:Et; [|congruence].
        assert (Hn : op_level ("NOT " ++ upper k) = Some (np s) /\ String.eqb ("NOT " ++ upper k) "->" = false).
        { destruct Hk as [<-|[<-|[<-|[]]]]; (erewrite (np_NOT s _ _ Hw E6 Ek); [|reflexivity]); split; reflexivity. }
        destruct Hn as [Ho Ha]. unfold cur_to_string. cbn [bind]. apply wp_Cur. rewrite Et. cbn [bind]. rewrite (kw_text _ _ _ Ek Et).
        apply skip_to; [exact Hw1 | congruence |]. intros Hw2 Hl2. apply bind_sub; [apply np_max | exact Hw2 | lia |].
        intros r s' Hw' Hl' Hr H1 H2 H3. apply wp_Ret. apply binary_post; auto; try lia; now rewrite Ha.
    - assert (Hn : np s = 14) by (apply (np_tk s _ _ E7); reflexivity).
      eapply (cut_strict _ _ _ _ _ _ nn); [go|]. intros r s2 Hw2 Hl2 Hr. apply wp_Ret.
      unfold infix_post; conjs; auto; try lia.
      + mknn. unfold lv_bracket. lia.
      + cbn [as_left]. pose proof (np_max s2). unfold closed. lia.
      + intros p0 Ha Hb. cbn [as_right]. destruct (is_name e); [unfold closed; lia|]. apply min_lt; [unfold lv_bracket; lia | exact Hb].
    - assert (Hn : np s = 2) by (apply (np_tk s _ _ E8); reflexivity). unfold parseTernaryExpr.
      apply bind_expTk; [exact Hw | reflexivity |]. intros _ s1 Hw1 Hl1. eapply use_spec; [apply parseExprHere_ok | exact Hw1 | lia |].
      intros a s2 Hw2 Hl2 _ Ha. apply bind_expTk; [exact Hw2 | reflexivity |]. intros _ s3 Hw3 Hl3.
      change (wp (bind (parseSubExprHere 0) (fun falseExpr => Ret (ETernaryOperation e a falseExpr))) s3 (infix_post e s)).
      apply bind_sub; [lia | exact Hw3 | lia |]. intros r s' Hw' Hl' Hr H1 H2 H3. apply wp_Ret.
      unfold infix_post; conjs; auto; try lia.
      + mknn. unfold lv_ternary. lia.
      + intros p0 Hp0 Hb. cbn [as_right]. apply min_lt; [unfold lv_ternary; lia | exact Hb].
    - assert (Hn : np s = 7) by (now apply np_IS).
      apply skip_to; [exact Hw | exact (kw_tok _ _ E9) |]. intros Hw1 Hl1. apply wp_bind. eapply use_tail; [apply tryKw_ok | exact Hw1 | lia |].
      intros b s2 Hw2 Hl2 _ _. apply bind_end. apply bind_expKw; [exact Hw2|]. intros _ s3 Hw3 Hl3. pose proof (np_max s3).
      destruct b; apply wp_Ret; (unfold infix_post; conjs; auto; try lia;
        [mknn; unfold lv_is; lia | cbn [as_left]; unfold closed; lia |
         intros p0 Ha Hb; cbn [as_right]; apply min_lt; [unfold lv_is; lia | exact Hb]]).
    - apply wp_Fail. exact I.
  Qed.

  (** Without a token, the infix parser fails. *)
  Lemma parseInfix_none e n s Q : it_tok (here s) = None -> wp (parseInfix e n) s Q.
  Proof.
    intros Ht. unfold parseInfix. apply bind_cur. unfold tk. rewrite !tks_none by exact Ht. cbn [str_in existsb].
    unfold kws. cbn [existsb]. rewrite !kw_none by exact Ht. apply wp_Fail. exact I.
  Qed.

  Lemma parseUnaryExpr_wp p s : pok p -> wfs s -> 10 * len s + 4 <= fl ->
    wp (parseUnaryExpr p) s (fun e s' => wfs s' /\ len s' < len s /\ nn e /\ np s' <= as_left e /\ 16 < as_right e).
  Proof.
    intros Hp Hw Hl. unfold parseUnaryExpr. apply bind_cur. destruct (tks (here s) ["+"; "-"]) eqn:E1; [|destruct (kw (here s) "NOT") eqn:E2].
    - destruct (it_tok (here s)) as [t|] eqn:Et; [|rewrite tks_none in E1 by exact Et; discriminate].
      unfold cur_to_string. cbn [bind]. apply wp_Cur. rewrite Et. cbn [bind].
      apply skip_to; [exact Hw | congruence |]. intros Hw1 Hl1. apply bind_pos. eapply use_spec; [apply parseColumnExpr_ok; pokt | exact Hw1 | lia |].
      intros e s2 Hw2 Hl2 _ (He & He1 & He2). apply wp_Ret.
      assert (Hk : tok_to_string t = "+" \/ tok_to_string t = "-").
      { apply tks_in in E1 as (k & Hk & E); [|reflexivity]. unfold cur_kind in E. rewrite Et in E.
        destruct Hk as [<-|[<-|[]]]; [left | right]; exact (sym_text _ _ _ (wfs_in _ Hw) Et E eq_refl). }
      unfold infix_post; conjs; auto; try lia.
      + mknn. destruct Hk as [->| ->]; cbn; auto.
      + pose proof (np_max s2). destruct Hk as [->| ->]; change (np s2 <= 17); lia.
    - pose proof (kw_tok _ _ E2) as Ht. destruct (it_tok (here s)) as [t|] eqn:Et; [|congruence].
      unfold cur_to_string. cbn [bind]. apply wp_Cur. rewrite Et. cbn [bind]. rewrite (kw_text _ _ _ E2 Et). change (upper "NOT") with "NOT".
      apply skip_to; [exact Hw | congruence |]. intros Hw1 Hl1.
      change (wp (bind (parseSubExprHere 5) (fun x => Ret (EUnaryExpr p "NOT" x))) (advance s) (fun e s' => wfs s' /\ len s' < len s /\ nn e /\ np s' <= as_left e /\ 16 < as_right e)).
      apply bind_sub; [lia | exact Hw1 | lia |]. intros r s' Hw' Hl' Hr H1 H2 H3. apply wp_Ret.
      unfold infix_post; conjs; auto; try lia.
      + mknn. cbn. unfold lv_not. lia.
      + change (np s' <= min 5 (as_left r)). lia.
    - eapply use_tail; [apply parseColumnExpr_ok; exact Hp | exact Hw | lia |]. intros e s2 Hw2 Hl2 Hs (He & He1 & He2).
      pose proof (np_max s2). unfold closed in *. unfold infix_post; conjs; auto; try lia.
  Qed.

  Lemma parseInfixLoop_wp e prec s : wfs s -> 10 * len s + 1 <= fl -> nn e -> np s <= as_left e -> prec < as_right e ->
    wp (parseInfixLoop e prec) s (fun e s' => wfs s' /\ len s' <= len s /\ nn e /\ prec < as_right e /\ np s' <= prec /\ np s' <= as_left e).
  Proof.
    intros Hw1 Hl1 He Hn Hr. unfold parseInfixLoop, loop.
    eapply wp_Loop with (J := fun e s' => wfs s' /\ len s' <= len s /\ nn e /\ np s' <= as_left e /\ prec < as_right e).
    - unfold infix_post; conjs; auto.
    - lia.
    - clear e He Hn Hr. intros e s2 (Hw2 & Hl2 & He & Hn & Hr) _. apply bind_cur.
      destruct (exhausted (here s2)) eqn:Ex.
      { apply wp_Ret. assert (Ht : it_tok (here s2) = None) by (unfold exhausted, no_tok in Ex; destruct (it_tok (here s2)); [now rewrite andb_false_r in Ex | reflexivity]).
        cbv beta iota. pattern e, s2. instantiate (1 := fun e s' => wfs s' /\ len s' <= len s /\ nn e /\ prec < as_right e /\ np s' <= prec /\ np s' <= as_left e).
        cbv beta. rewrite (np_none s2 Ht). conjs; auto; lia. }
      apply wp_bind. apply getNextPrecedence_wp; [exact Hw2 | lia |]. intros s3 Hw3 Hl3 Hs3. cbv beta.
      destruct (np s2 <=? prec) eqn:En; [apply Nat.leb_le in En | apply Nat.leb_gt in En].
      + apply wp_Ret. conjs; auto; try lia; destruct Hs3 as [->|Ht]; try lia; rewrite (np_none s3 Ht); lia.
      + apply wp_bind. destruct Hs3 as [->|Ht]; [|apply parseInfix_none, Ht].
        eapply wp_conseq; [apply parseInfix_wp; auto; lia|]. intros e' s4 (H1 & H2 & H3 & H4 & H5). apply wp_Ret. conjs; auto; lia.
    - intros e' s' Hx. exact Hx.
  Qed.

  Lemma body_SubExpr_wp p prec s : pok p -> prec <= 16 -> wfs s -> 10 * len s + 4 <= fl ->
    wp (body_SubExpr p prec) s (fun e s' => wfs s' /\ len s' < len s /\ nn e /\ prec < as_right e /\ np s' <= prec /\ np s' <= as_left e).
  Proof.
    intros Hp Hpr Hw Hl. unfold body_SubExpr. apply wp_bind. eapply wp_conseq; [apply parseUnaryExpr_wp; assumption|]. cbv beta.
    intros e s1 (Hw1 & Hl1 & He & Hn & Hr). eapply wp_conseq; [apply parseInfixLoop_wp; auto; lia|]. cbv beta.
    intros e' s' (H1 & H2 & H3 & H4 & H5 & H6). conjs; auto; lia.
  Qed.
End Infix.
