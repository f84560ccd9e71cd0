(** Parsing on the lexer itself is parsing on the list of its states. *)
From Coq Require Import String Ascii List Arith Bool Lia ZArith.
From Verif Require Import Str Keyword Lexer LexSpec StrFacts LexFacts LexRun LexTokens LexProps Ast Prog Items ItemsFacts RunFacts
  Parser Source ErrorRender ParserApi Hoare Spec SpecTac SpecParse ParseFacts Lazy.
Import ListNotations.
Local Open Scope string_scope.
Local Open Scope nat_scope.
#[local] Arguments is_keyword : simpl never.

(** * A token starts before the place where the lexer stands after it *)
Lemma lex_token_pos prev s t : lx_tok (lex_token prev s) = Some t -> tpos t < lx_len (lex_token prev s).
Proof.
  intros H. destruct (lex_token_ok prev s) as [_ Hok]. rewrite H in Hok. destruct Hok as [H0 _].
  destruct (lex_token_inv prev s t H) as [[_ E]|[(q & r & _ & _ & E)|[(r & _ & E)|[[_ E]|(n & k & _ & _ & E)]]]];
    rewrite E in H, H0 |- *.
  - unfold lex_number in *. destruct (nbump _ _) as [e|[[n f] h]]; [discriminate|]. destruct (_ || _); [discriminate|].
    injection H as <-. cbn in *. exact H0.
  - unfold lex_quoted in *. destruct (sdrop _ _); [discriminate|]. injection H as <-. cbn. lia.
  - unfold lex_string in *. destruct (sdrop _ _); [discriminate|]. injection H as <-. cbn. lia.
  - unfold lex_bare in *. injection H as <-. cbn in *. exact H0.
  - unfold lx_simple in *. injection H as <-. cbn in *. exact H0.
Qed.

Lemma requests_pos inp k s e t : requests inp k = LVal (s, e) -> cur s = Some t -> tpos t < off s.
Proof.
  intros H Ht. destruct k as [|k]; [cbn in H; injection H as <- <-; discriminate|].
  destruct (requests_ok inp k) as (s0 & e0 & H0 & Hle). cbn [requests] in H. rewrite H0 in H. cbn [lbind fst] in H.
  rewrite consume_eq in H. unfold to_lout in H. injection H as Hs _. subst s. cbn [cur off] in *.
  unfold lex1 in *. destruct (layout Plain (sdrop (off s0) inp)) as [j b]. destruct b; [discriminate|].
  unfold lx_shift in *. cbn [lx_tok lx_len] in *.
  destruct (lx_tok (lex_token (cur s0) (sdrop j (sdrop (off s0) inp)))) as [t0|] eqn:Et; [|discriminate].
  cbn in Ht. injection Ht as <-. apply lex_token_pos in Et. unfold shift_tok. cbn. lia.
Qed.

Lemma requests_pos_lt inp i j si ei sj ej ti tj : i < j ->
  requests inp i = LVal (si, ei) -> requests inp j = LVal (sj, ej) -> cur si = Some ti -> cur sj = Some tj -> tpos ti < tpos tj.
Proof.
  intros Hij Hi Hj Hti Htj. pose proof (requests_pos _ _ _ _ _ Hi Hti) as Hp.
  destruct (requests_tok _ _ _ _ _ Hj Htj) as (kj & s1 & e1 & -> & H4 & H5 & _).
  pose proof (requests_mono inp i (kj - i) si ei s1 e1 Hi) as Hm. replace (kj - i + i) with kj in Hm by lia.
  specialize (Hm H4). lia.
Qed.

(** * The list of states *)
Fixpoint path (inp : string) (s : lstate) (e : option string) (l : list (lstate * option string)) : Prop :=
  match l with
  | [] => exists s' e', consume inp s = LVal (s', e') /\ stuck s s' e e' = true
  | (s', e') :: r => consume inp s = LVal (s', e') /\ stuck s s' e e' = false /\ path inp s' e' r
  end.

Lemma states_from_path inp : forall n s e l, states_from n inp s e = LVal l -> path inp s e l.
Proof.
  induction n as [|n IH]; intros s e l H; [discriminate|]. cbn [states_from] in H.
  destruct (consume inp s) as [[s' e']| |] eqn:Ec; cbn [lbind] in H; try discriminate.
  destruct (stuck s s' e e') eqn:Es; [injection H as <-; exists s', e'; auto|].
  destruct (states_from n inp s' e') as [r| |] eqn:Er; cbn [lbind] in H; try discriminate. injection H as <-.
  cbn [path]. auto.
Qed.

Lemma path_nth inp : forall l s e k s1 e1, path inp s e l -> nth_error ((s, e) :: l) k = Some (s1, e1) ->
  match nth_error ((s, e) :: l) (S k) with
  | Some (s2, e2) => consume inp s1 = LVal (s2, e2) /\ stuck s1 s2 e1 e2 = false
  | None => exists s2 e2, consume inp s1 = LVal (s2, e2) /\ stuck s1 s2 e1 e2 = true
  end.
Proof.
  induction l as [|[s' e'] l IH]; intros s e k s1 e1 Hp H.
  - destruct k as [|k]; [|destruct k; discriminate]. injection H as -> ->. exact Hp.
  - destruct Hp as (Hc & Hs & Hp). destruct k as [|k]; [injection H as -> ->; split; assumption|].
    exact (IH s' e' k s1 e1 Hp H).
Qed.

Lemma stuck_eq inp s s' e e' : off s <= String.length inp -> consume inp s = LVal (s', e') -> stuck s s' e e' = true -> s' = s /\ e' = e.
Proof.
  intros Ho Hc H. unfold stuck in H. destruct (cur s) eqn:Ecs; [discriminate|].
  apply andb_prop in H as [E1 E2]. apply Nat.eqb_eq in E1. apply err_eqb_eq in E2. split; [|congruence].
  destruct (consume_ok inp s Ho) as (s2 & e2 & Hc2 & _ & Ht). rewrite Hc in Hc2. injection Hc2 as <- <-.
  destruct s as [o c], s' as [o' c']. cbn in *. subst. destruct c'; [lia | reflexivity].
Qed.

Section LazyEq.
  Variable body : nt -> prog expr.
  Variable inp : string.

  Definition ziter (fuel : nat) {X Y} (bd : X -> prog (X + Y)) : nat -> X -> lazy -> zout Y :=
    fix it (n : nat) (x : X) (s : lazy) : zout Y :=
    match n with
    | O => ZOOF
    | S m =>
        match lazy_run body inp fuel (bd x) s with
        | ZOk (inl x') s' => it m x' s'
        | ZOk (inr y) s' => ZOk y s'
        | ZErr e s' => ZErr e s'
        | ZPanic site => ZPanic site
        | ZOOF => ZOOF
        end
    end.

  Lemma lazy_Consume f A (k : option string -> prog A) s :
    lazy_run body inp (S f) (Consume k) s = zlex (z_consume inp s) (fun s' => lazy_run body inp (S f) (k (z_err s')) s').
  Proof. reflexivity. Qed.
  Lemma lazy_Peek f A (k : option tok + string -> prog A) s :
    lazy_run body inp (S f) (Peek k) s = zlex (z_peek inp s) (fun r => lazy_run body inp (S f) (k (fst r)) (snd r)).
  Proof. reflexivity. Qed.
  Lemma lazy_TryInterval f A (yes : expr -> prog A) no s :
    lazy_run body inp (S f) (TryInterval yes no) s =
    if z_failed s then lazy_run body inp (S f) no s
    else match lazy_run body inp f (body NInterval) s with
         | ZOk e s' => lazy_run body inp (S f) (yes e) s'
         | ZErr _ s' => lazy_run body inp (S f) no (z_note s s')
         | ZPanic z => ZPanic z
         | ZOOF => ZOOF
         end.
  Proof. reflexivity. Qed.
  Lemma lazy_Call f A n (k : expr -> prog A) s :
    lazy_run body inp (S f) (Call n k) s =
    match lazy_run body inp f (body n) s with
    | ZOk e s' => lazy_run body inp (S f) (k e) s'
    | ZErr e s' => ZErr e s'
    | ZPanic z => ZPanic z
    | ZOOF => ZOOF
    end.
  Proof. reflexivity. Qed.
  Lemma lazy_Attempt f A B (p : prog B) keep (k : err + B -> prog A) s :
    lazy_run body inp (S f) (Attempt p keep k) s =
    match lazy_run body inp (S f) p s with
    | ZOk a s' => lazy_run body inp (S f) (k (inr a)) (if keep (inr a) then s' else z_restore s s')
    | ZErr e s' => lazy_run body inp (S f) (k (inl e)) (if keep (inl e) then s' else z_restore s s')
    | ZPanic z => ZPanic z
    | ZOOF => ZOOF
    end.
  Proof. reflexivity. Qed.
  Lemma lazy_Loop f A X Y (x : X) (bd : X -> prog (X + Y)) (k : Y -> prog A) s :
    lazy_run body inp (S f) (Loop x bd k) s =
    match ziter (S f) bd (S f) x s with
    | ZOk y s' => lazy_run body inp (S f) (k y) s'
    | ZErr e s' => ZErr e s'
    | ZPanic z => ZPanic z
    | ZOOF => ZOOF
    end.
  Proof. reflexivity. Qed.

  Variable l : list (lstate * option string).
  Hypothesis Hl : states inp = LVal l.

  Lemma state_after k s e : nth_error l k = Some (s, e) -> requests inp k = LVal (s, e).
  Proof. intros H. rewrite (states_requests inp l Hl k). now rewrite (nth_error_nth _ _ _ H). Qed.

  Lemma l_path k s e : nth_error l k = Some (s, e) ->
    match nth_error l (S k) with
    | Some (s2, e2) => consume inp s = LVal (s2, e2) /\ stuck s s2 e e2 = false
    | None => consume inp s = LVal (s, e) /\ stuck s s e e = true
    end.
  Proof.
    intros H. pose proof Hl as Hl'. unfold states in Hl'.
    destruct (states_from _ inp lex_init None) as [l0| |] eqn:E; cbn [lbind] in Hl'; try discriminate.
    apply states_from_path in E. assert (El : l = (lex_init, None) :: l0) by congruence. rewrite El in H |- *.
    pose proof (path_nth inp l0 _ _ k s e E H) as Hp. destruct (nth_error _ (S k)) as [[s2 e2]|]; [exact Hp|].
    destruct Hp as (s2 & e2 & Hc & Hs). rewrite <- El in H. apply state_after in H.
    destruct (requests_ok inp k) as (s0 & e0 & H0 & Ho). rewrite H in H0. injection H0 as <- <-.
    destruct (stuck_eq inp s s2 e e2 Ho Hc Hs) as [-> ->]. auto.
  Qed.

  (** The memos agree: one holds state numbers, the other the positions of their tokens. *)
  Definition same_memo (zm m : list nat) : Prop :=
    (forall k, In k m -> exists s e t, nth_error l k = Some (s, e) /\ cur s = Some t) /\
    (forall k s e t, nth_error l k = Some (s, e) -> cur s = Some t -> (In k m <-> In (tpos t) zm)).

  Definition same_place (z : lazy) (s : pstate) : Prop :=
    nth_error l (z_id z) = Some (z_lex z, z_err z) /\ here s = z_item inp z /\
    rest s = skipn (S (z_id z)) (number_items inp 0 l).

  Definition rel (z : lazy) (s : pstate) : Prop := same_place z s /\ same_memo (z_memo z) (memo s).

  Lemma skipn_cons A (x : list A) : forall k a, nth_error x k = Some a -> skipn k x = a :: skipn (S k) x.
  Proof. induction x as [|b x IH]; intros [|k] a H; try discriminate; [injection H as ->; reflexivity|]. exact (IH k a H). Qed.

  Lemma rel_consume z s : rel z s -> exists z', z_consume inp z = LVal z' /\ rel z' (advance s) /\ z_err z' = it_err (here (advance s)).
  Proof.
    intros [(H1 & H2 & H3) Hm]. unfold z_consume. pose proof (l_path _ _ _ H1) as Hp.
    destruct (nth_error l (S (z_id z))) as [[s2 e2]|] eqn:E.
    - destruct Hp as [-> Hs]. cbn [lbind]. rewrite Hs. eexists. split; [reflexivity|].
      pose proof (number_items_nth inp l 0 _ _ _ E) as Hn. cbn [Nat.add] in Hn.
      unfold advance. rewrite H3, (skipn_cons _ _ _ _ Hn). split; [|reflexivity].
      split; [|exact Hm]. repeat split; cbn [z_id z_lex z_err]; auto.
    - destruct Hp as [-> Hs]. cbn [lbind]. rewrite Hs. eexists. split; [reflexivity|].
      assert (Hr : skipn (S (z_id z)) (number_items inp 0 l) = []).
      { apply skipn_all2. rewrite number_items_length. now apply nth_error_None. }
      unfold advance. rewrite H3, Hr. split; [|rewrite H2; reflexivity].
      split; [|exact Hm]. repeat split; cbn [z_id z_lex z_err]; auto.
  Qed.

  Lemma rel_peek z s : rel z s -> exists r z', z_peek inp z = LVal (r, z') /\ r = fst (do_peek s) /\ rel z' (snd (do_peek s)).
  Proof.
    intros Hr. unfold z_peek. destruct (rel_consume z s Hr) as (z' & -> & Hr' & He). cbn [lbind]. rewrite He.
    unfold do_peek. destruct (it_err (here (advance s))); eexists _, _; (split; [reflexivity|]); (split; [|assumption]); cbn [fst].
    - reflexivity.
    - destruct Hr' as [(_ & -> & _) _]. reflexivity.
  Qed.

  Lemma rel_restore z s z' s' : rel z s -> rel z' s' -> rel (z_restore z z') (restore s s').
  Proof. intros [(H1 & H2 & H3) _] [_ Hm]. split; [repeat split; auto | exact Hm]. Qed.

  Lemma rel_failed z s : rel z s -> z_failed z = failed_before s.
  Proof.
    intros [(H1 & H2 & H3) [Hm1 Hm2]]. unfold z_failed, failed_before. rewrite H2. cbn [z_item item_of it_id].
    apply eq_true_iff_eq. destruct (cur (z_lex z)) as [t|] eqn:E.
    - rewrite !existsb_exists. pose proof (Hm2 _ _ _ _ H1 E) as Hi. split.
      + intros (x & Hx & Hq). apply Nat.eqb_eq in Hq. subst x. exists (z_id z). split; [tauto | apply Nat.eqb_refl].
      + intros (x & Hx & Hq). apply Nat.eqb_eq in Hq. subst x. exists (tpos t). split; [tauto | apply Nat.eqb_refl].
    - split; [discriminate|]. intros Hx. apply existsb_exists in Hx as (x & Hx & Hq). apply Nat.eqb_eq in Hq. subst x.
      destruct (Hm1 _ Hx) as (s0 & e0 & t & Hn & Ht). rewrite H1 in Hn. injection Hn as <- <-. congruence.
  Qed.

  Lemma rel_note z s z' s' : rel z s -> rel z' s' -> rel (z_note z z') (note_failure s s').
  Proof.
    intros [(H1 & H2 & H3) _] [_ [Hm1 Hm2]]. unfold z_note, note_failure. split; [repeat split; auto|].
    cbn [z_memo memo]. rewrite H2. cbn [z_item item_of it_tok it_id]. destruct (cur (z_lex z)) as [t|] eqn:E; cbn [option_map]; [|split; assumption].
    split.
    - intros k [<-|Hk]; [exists (z_lex z), (z_err z), t; auto | now apply Hm1].
    - intros k s0 e0 t0 Hn Ht. cbn [In]. rewrite (Hm2 _ _ _ _ Hn Ht).
      assert (Hx : z_id z = k <-> tpos t = tpos t0).
      { pose proof (state_after _ _ _ H1) as R1. pose proof (state_after _ _ _ Hn) as R2. split.
        - intros <-. rewrite H1 in Hn. injection Hn as <- <-. congruence.
        - intros Heq. destruct (Nat.lt_trichotomy (z_id z) k) as [Hlt|[He|Hlt]]; [|exact He|].
          + pose proof (requests_pos_lt _ _ _ _ _ _ _ _ _ Hlt R1 R2 E Ht). lia.
          + pose proof (requests_pos_lt _ _ _ _ _ _ _ _ _ Hlt R2 R1 Ht E). lia. }
      tauto.
  Qed.

  Definition same_out {A} (r : zout A) (r' : outcome A) : Prop :=
    match r, r' with
    | ZOk a z, ROk b s => a = b /\ rel z s
    | ZErr e z, RErr e' s => e = e' /\ rel z s
    | ZPanic x, RPanic y => x = y
    | ZOOF, ROOF => True
    | _, _ => False
    end.

  Lemma lazy_same : forall f A (p : prog A) z s, rel z s -> same_out (lazy_run body inp f p z) (run body f p s).
  Proof.
    induction f as [|f IHf]; intros A p; [intros z s _; exact I|].
    induction p as [A a|A e|A x|A k IH|A k IH|A k IH|A yes IHy no IHn|A n k IH|A C p IHp keep k IH|A X Y x bd IHb k IH];
      intros z s Hr.
    - split; [reflexivity | exact Hr].
    - split; [reflexivity | exact Hr].
    - reflexivity.
    - rewrite run_Cur. change (lazy_run body inp (S f) (Cur k) z) with (lazy_run body inp (S f) (k (z_item inp z)) z).
      pose proof Hr as [(_ & -> & _) _]. now apply IH.
    - rewrite run_Consume, lazy_Consume. destruct (rel_consume z s Hr) as (z' & -> & Hr' & He). cbn [zlex]. rewrite He. now apply IH.
    - rewrite run_Peek, lazy_Peek. destruct (rel_peek z s Hr) as (r & z' & -> & -> & Hr'). cbn [zlex fst snd]. now apply IH.
    - rewrite run_TryInterval, lazy_TryInterval, (rel_failed z s Hr). destruct (failed_before s); [now apply IHn|].
      pose proof (IHf _ (body NInterval) z s Hr) as Hc.
      destruct (lazy_run body inp f (body NInterval) z) as [a z'|e z'|x|], (run body f (body NInterval) s) as [b s'|e' s'|y|];
        cbn in Hc; try easy; try destruct Hc as [-> Hr'].
      + now apply IHy.
      + apply IHn. now apply rel_note.
    - rewrite run_Call, lazy_Call. pose proof (IHf _ (body n) z s Hr) as Hc.
      destruct (lazy_run body inp f (body n) z) as [a z'|e z'|x|], (run body f (body n) s) as [b s'|e' s'|y|];
        cbn in Hc; try easy; try destruct Hc as [-> Hr']. now apply IH.
    - rewrite run_Attempt, lazy_Attempt. pose proof (IHp z s Hr) as Hc.
      destruct (lazy_run body inp (S f) p z) as [a z'|e z'|x|], (run body (S f) p s) as [b s'|e' s'|y|];
        cbn [same_out] in Hc; try easy; destruct Hc as [-> Hr']; apply IH.
      + destruct (keep (inr b)); [exact Hr' | now apply rel_restore].
      + destruct (keep (inl e')); [exact Hr' | now apply rel_restore].
    - rewrite run_Loop, lazy_Loop.
      assert (Hi : forall n x z s, rel z s -> same_out (ziter (S f) bd n x z) (iter body (S f) bd n x s)).
      { clear x z s Hr. induction n as [|n IHi]; intros x z s Hr; [exact I|]. rewrite iter_S. cbn [ziter].
        pose proof (IHb x z s Hr) as Hc.
        destruct (lazy_run body inp (S f) (bd x) z) as [[a|a] z'|e z'|u|], (run body (S f) (bd x) s) as [[b|b] s'|e' s'|y|];
          cbn [same_out] in Hc; try easy; destruct Hc as [Heq Hr']; try discriminate.
        + injection Heq as <-. now apply IHi.
        + injection Heq as <-. split; [reflexivity | exact Hr']. }
      pose proof (Hi (S f) x z s Hr) as Hc.
      destruct (ziter (S f) bd (S f) x z) as [a z'|e z'|u|], (iter body (S f) bd (S f) x s) as [b s'|e' s'|y|];
        cbn [same_out] in Hc; try easy; destruct Hc as [-> Hr']; now apply IH.
  Qed.
End LazyEq.

Lemma after_eq inp l k s e : states inp = LVal l -> nth_error l k = Some (s, e) -> after inp k = s.
Proof. intros Hl H. unfold after. now rewrite (state_after inp l Hl k s e H). Qed.

Lemma item_pos_after inp l i : states inp = LVal l -> it_id i < List.length l -> item_pos l i = state_pos (after inp (it_id i)).
Proof.
  intros Hl Hi. unfold item_pos. destruct (nth_error l (it_id i)) as [[s e]|] eqn:E.
  - now rewrite (after_eq inp l _ s e Hl E).
  - apply nth_error_None in E. lia.
Qed.

Lemma lazy_parse_eq inp : exists f0, forall fuel, f0 <= fuel ->
  match parse_stmts inp with
  | Parsed stmts sp => parse_lazy fuel inp = LParsed stmts /\
      forall k, k < List.length sp -> nth k sp (0, 0)%Z = state_span (after inp k)
  | Failed pe => parse_lazy fuel inp = LFailed pe
  | Crashed site => parse_lazy fuel inp = LCrashed site
  | Diverged => False
  end.
Proof.
  destruct (states_ok inp) as (l0 & Hl & Hc). set (l := (lex_init, None) :: l0) in *.
  exists (parse_fuel (List.length l)). intros fuel Hf. unfold parse_stmts. rewrite (api_eq inp l Hl).
  destruct (init_ok inp l Hl) as (s & Hs & Hw).
  pose proof (run_ends inp l Hl (fuel - parse_fuel (List.length l)) s Hs) as Hr.
  replace (parse_fuel (List.length l) + (fuel - parse_fuel (List.length l))) with fuel in Hr by lia.
  assert (Hrel : rel inp l lazy_init s).
  { cbn in Hs. injection Hs as <-. split; [repeat split|]. cbn [lazy_init z_memo memo]. split; [intros ? [] | intros; reflexivity]. }
  pose proof (lazy_same body inp l Hl fuel _ ParseStmts lazy_init s Hrel) as Hz. rewrite Hr in Hz.
  pose proof (parse_items_ok _ (its_good_items inp l Hl)) as Hp. unfold parse_lazy.
  destruct (parse_items (number_items inp 0 l)) as [stmts s'|e s'|site|], (lazy_run body inp fuel ParseStmts lazy_init) as [stmts' z'|e' z'|site'|];
    cbn [same_out] in Hz; try easy.
  - destruct Hz as [-> _]. split; [reflexivity|]. intros k Hk. unfold spans in *. rewrite map_length in Hk.
    destruct (nth_error l k) as [[sk ek]|] eqn:E; [|apply nth_error_None in E; lia].
    rewrite (after_eq inp l k sk ek Hl E). apply nth_error_nth. now rewrite nth_error_map, E.
  - destruct Hz as [-> Hz]. cbn [post] in Hp.
    assert (Heq : raw_error (fun i => state_pos (after inp (it_id i))) e (mkP (z_item inp z') [] []) = raw_error (item_pos l) e s').
    { assert (Hin : forall i, In i (number_items inp 0 l) -> state_pos (after inp (it_id i)) = item_pos l i).
      { intros i Hi. symmetry. apply item_pos_after; [exact Hl|]. apply In_nth_error in Hi as [k Hk].
        rewrite (gi_id _ (its_good_items inp l Hl) k i Hk). rewrite <- (number_items_length inp l 0). apply nth_error_Some. congruence. }
      destruct e; cbn [err_ok its mkenv] in Hp; cbn [raw_error here]; rewrite ?Hin by exact Hp; try reflexivity.
      destruct Hz as [(H1 & H2 & _) _]. rewrite <- H2, Hin; [reflexivity|]. rewrite H2. apply (nth_error_In _ (z_id z')).
      unfold z_item. exact (number_items_nth inp l 0 _ _ _ H1). }
    unfold wrapError. cbv zeta. rewrite Heq. match goal with |- context [if ?c then ?a else ?b] => destruct (if c then a else b) as [[line col]|] end; reflexivity.
  - now rewrite Hz.
Qed.
