(** Running the parser over the tokens of a canonical text: rules for the small parsing functions. *)
From Coq Require Import String List Arith Bool Lia.
From Verif Require Import Str Keyword Lexer LexGrammar LexTokens Ast AstPos Strip Prog RunFacts FuelFacts ParserCommon ParserExpr ParserQuery Parser Exec PrecSpec RoundSpec.
Import ListNotations.
Local Open Scope string_scope.
Local Open Scope list_scope.
Local Open Scope nat_scope.

(** ** Tokens of symbols *)
Lemma toks_app a b : toks (a ++ b) = toks a ++ toks b.
Proof. unfold toks. now rewrite flat_map_app. Qed.
Lemma toks_T t l : toks (T t :: l) = t :: toks l.
Proof. reflexivity. Qed.
Lemma toks_Sp l : toks (Sp :: l) = toks l.
Proof. reflexivity. Qed.
Lemma toks_nil : toks [] = [].
Proof. reflexivity. Qed.
Global Opaque toks.

(** ** Results *)

(** The same tree up to positions, with an end. *)
Definition ok (e' e : expr) : Prop := strip e' = strip e /\ end_of e' <> None.
(** The same, possibly nil. *)
Definition okn (e' e : expr) : Prop := strip e' = strip e /\ (is_nil e' = true \/ end_of e' <> None).
Definition Got (e : expr) (ts : list tok) : expr -> pstate -> Prop := fun e' s' => ok e' e /\ exists id', s' = st id' ts.
Definition Gots (es : list expr) (ts : list tok) : list expr -> pstate -> Prop := fun es' s' => Forall2 ok es' es /\ exists id', s' = st id' ts.
Definition parses (p : prog expr) (e : expr) (l : list sym) (F : list tok -> Prop) : Prop :=
  forall id ts, F ts -> Ends p (st id (toks l ++ ts)) (Got e ts).

Lemma E_use {A} p e l F (q : expr -> prog A) id ts Q : parses p e l F -> F ts ->
  (forall e' id', ok e' e -> Ends (q e') (st id' ts) Q) -> Ends (bind p q) (st id (toks l ++ ts)) Q.
Proof. intros H HF Hq. apply E_bind. eapply E_mono; [apply H, HF|]. intros a s' (Ha & id' & ->). auto. Qed.

Lemma E_got e e' id ts : ok e' e -> Ends (Ret e') (st id ts) (Got e ts).
Proof. intros H. apply E_ret. split; eauto. Qed.

(** ** Steps *)
Lemma X_cur {A} (f : item -> prog A) s (Q : A -> pstate -> Prop) : Ends (f (here s)) s Q -> Ends (do it <- cur_item ;; f it) s Q.
Proof. intros H. apply E_bind. unfold cur_item. apply E_cur, E_ret. exact H. Qed.
Lemma X_pos {A} (f : pos -> prog A) s (Q : A -> pstate -> Prop) : Ends (f (ipos (here s))) s Q -> Ends (do p <- pos_ ;; f p) s Q.
Proof. intros H. apply E_bind. unfold pos_. apply E_cur, E_ret. exact H. Qed.
Lemma X_end {A} (f : pos -> prog A) s (Q : A -> pstate -> Prop) : Ends (f (iend (here s))) s Q -> Ends (do p <- end_ ;; f p) s Q.
Proof. intros H. apply E_bind. unfold end_. apply E_cur, E_ret. exact H. Qed.
Lemma X_ret {A} {B} (b : B) (f : B -> prog A) s (Q : A -> pstate -> Prop) : Ends (f b) s Q -> Ends (do x <- Ret b ;; f x) s Q.
Proof. intros H. exact H. Qed.
Lemma X_skip {A} id t r (q : prog A) (Q : A -> pstate -> Prop) : Ends q (st (S id) r) Q -> Ends (do! skip ;; q) (st id (t :: r)) Q.
Proof. intros H. apply E_bind. unfold skip. apply E_consume, E_ret. now rewrite adv. Qed.

Lemma X_tryTk_yes {A} id t r k (f : bool -> prog A) (Q : A -> pstate -> Prop) : t1 t [k] = true -> Ends (f true) (st (S id) r) Q -> Ends (do b <- tryTkb k ;; f b) (st id (t :: r)) Q.
Proof. intros Ht H. apply E_bind. unfold tryTkb. apply X_cur. rewrite here_cons, tk_at, Ht. apply X_skip. now apply E_ret. Qed.
Lemma X_tryTk_no {A} s k (f : bool -> prog A) (Q : A -> pstate -> Prop) : tk (here s) k = false -> Ends (f false) s Q -> Ends (do b <- tryTkb k ;; f b) s Q.
Proof. intros Ht H. apply E_bind. unfold tryTkb. apply X_cur. rewrite Ht. now apply E_ret. Qed.
Lemma X_expTk {A} id t r k (q : prog A) (Q : A -> pstate -> Prop) : t1 t [k] = true -> Ends q (st (S id) r) Q -> Ends (do! expTk k ;; q) (st id (t :: r)) Q.
Proof. intros Ht H. apply E_bind. unfold expTk. apply X_cur. rewrite here_cons, tk_at, Ht. unfold skip. apply E_consume, E_ret. now rewrite adv. Qed.
Lemma X_expKw {A} id t r k (q : prog A) (Q : A -> pstate -> Prop) : k1 t k = true -> Ends q (st (S id) r) Q -> Ends (do! expKw k ;; q) (st id (t :: r)) Q.
Proof. intros Ht H. apply E_bind. unfold expKw. apply X_cur. rewrite here_cons, kw_at, Ht. unfold skip. apply E_consume, E_ret. now rewrite adv. Qed.

Lemma X_tryKw_yes {A} id t r k (f : bool -> prog A) (Q : A -> pstate -> Prop) : k1 t k = true -> Ends (f true) (st (S id) r) Q -> Ends (do b <- tryKw k ;; f b) (st id (t :: r)) Q.
Proof.
  intros Ht H. apply E_bind. unfold tryKw, tryKws. apply E_attempt. cbn [try_keywords]. apply X_cur. rewrite here_cons, kw_at, Ht. apply X_skip.
  apply E_ret. now apply E_ret.
Qed.
Lemma X_tryKw_no {A} id ts k (f : bool -> prog A) (Q : A -> pstate -> Prop) : kw (here (st id ts)) k = false -> Ends (f false) (st id ts) Q -> Ends (do b <- tryKw k ;; f b) (st id ts) Q.
Proof.
  intros Ht H. apply E_bind. unfold tryKw, tryKws. apply E_attempt. cbn [try_keywords]. apply X_cur. rewrite Ht. apply E_ret. rewrite restore_st. now apply E_ret.
Qed.
Lemma X_tryKws_no {A} id ts k r (f : bool -> prog A) (Q : A -> pstate -> Prop) : kw (here (st id ts)) k = false -> Ends (f false) (st id ts) Q -> Ends (do b <- tryKws (k :: r) ;; f b) (st id ts) Q.
Proof.
  intros Ht H. apply E_bind. unfold tryKws. apply E_attempt. cbn [try_keywords]. apply X_cur. rewrite Ht. apply E_ret. rewrite restore_st. now apply E_ret.
Qed.

Lemma X_grab {A} id t r (f : string -> prog A) (Q : A -> pstate -> Prop) : Ends (f (t_str t)) (st (S id) r) Q -> Ends (do s <- grab ;; f s) (st id (t :: r)) Q.
Proof.
  intros H. apply E_bind. unfold grab. apply E_bind. unfold cur_str. apply E_cur. rewrite here_cons. cbn [it_tok item_at]. apply E_ret. apply X_skip. now apply E_ret.
Qed.
Lemma X_cur_to_string {A} id t r (f : string -> prog A) (Q : A -> pstate -> Prop) : Ends (f (tok_to_string t)) (st id (t :: r)) Q -> Ends (do s <- cur_to_string ;; f s) (st id (t :: r)) Q.
Proof. intros H. apply E_bind. unfold cur_to_string. apply E_cur. rewrite here_cons. cbn [it_tok item_at]. now apply E_ret. Qed.
Lemma X_call {A} n (f : expr -> prog A) s (Q : A -> pstate -> Prop) : Ends (body n) s (fun e s' => Ends (f e) s' Q) -> Ends (do e <- Call n (fun e => Ret e) ;; f e) s Q.
Proof. intros H. apply E_bind, E_call. eapply E_mono; [exact H|]. intros a s' H'. now apply E_ret. Qed.
Lemma X_endOf {A} e (f : pos -> prog A) s (Q : A -> pstate -> Prop) : end_of e <> None -> (forall p, Ends (f p) s Q) -> Ends (do p <- endOf e ;; f p) s Q.
Proof. intros He H. apply E_bind. unfold endOf. destruct (end_of e); [apply E_ret, H | congruence]. Qed.
Lemma X_endOr {A} e p (f : pos -> prog A) s (Q : A -> pstate -> Prop) : is_nil e = true \/ end_of e <> None -> (forall p, Ends (f p) s Q) -> Ends (do p <- endOr e p ;; f p) s Q.
Proof.
  intros He H. unfold endOr. destruct (is_nil e) eqn:E; [apply X_ret, H|]. destruct He; [discriminate|]. now apply X_endOf.
Qed.

(** ** Looking ahead *)
Definition pk (r : list tok) (k : kind) : bool := match r with [] => false | t :: _ => String.eqb (t_kind t) k end.
Definition pkw (r : list tok) (k : string) : bool := match r with [] => false | t :: _ => k1 t k end.

Lemma X_peekTk {A} id t r k (f : bool -> prog A) (Q : A -> pstate -> Prop) : Ends (f (pk r k)) (st id (t :: r)) Q -> Ends (do b <- peekTk k ;; f b) (st id (t :: r)) Q.
Proof.
  intros H. apply E_bind. unfold peekTk. apply E_bind. unfold eof_. apply E_cur, E_ret. rewrite here_cons. cbn [it_eof item_at].
  destruct r as [|u r]; [now apply E_ret|]. apply E_peek. rewrite peek_st. cbn [fst snd hd_error]. now apply E_ret.
Qed.
Lemma X_peekKw {A} id t r k (f : bool -> prog A) (Q : A -> pstate -> Prop) : Ends (f (pkw r k)) (st id (t :: r)) Q -> Ends (do b <- peekKw k ;; f b) (st id (t :: r)) Q.
Proof.
  intros H. apply E_bind. unfold peekKw. apply E_bind. unfold eof_. apply E_cur, E_ret. rewrite here_cons. cbn [it_eof item_at].
  destruct r as [|u r]; [now apply E_ret|]. apply E_peek. rewrite peek_st. cbn [fst snd hd_error]. now apply E_ret.
Qed.

(** Programs that only look. *)
Definition looks (p : prog bool) (s : pstate) (b : bool) : Prop := Ends p s (fun x s' => x = b /\ s' = s).
Lemma X_looks {A} p s b (f : bool -> prog A) Q : looks p s b -> Ends (f b) s Q -> Ends (do x <- p ;; f x) s Q.
Proof. intros H Hf. apply E_bind. eapply E_mono; [exact H|]. intros x s' [-> ->]. exact Hf. Qed.
Lemma looks_ret s b : looks (Ret b) s b.
Proof. apply E_ret. auto. Qed.
Lemma looks_eq p s b c : looks p s b -> b = c -> looks p s c.
Proof. now intros H ->. Qed.
Lemma looks_tk id t r k : looks (peekTk k) (st id (t :: r)) (pk r k).
Proof.
  unfold looks, peekTk. apply E_bind. unfold eof_. apply E_cur, E_ret. rewrite here_cons. cbn [it_eof item_at].
  destruct r as [|u r]; [now apply E_ret|]. apply E_peek. rewrite peek_st. cbn [fst snd hd_error]. now apply E_ret.
Qed.
Lemma looks_kw id t r k : looks (peekKw k) (st id (t :: r)) (pkw r k).
Proof.
  unfold looks, peekKw. apply E_bind. unfold eof_. apply E_cur, E_ret. rewrite here_cons. cbn [it_eof item_at].
  destruct r as [|u r]; [now apply E_ret|]. apply E_peek. rewrite peek_st. cbn [fst snd hd_error]. now apply E_ret.
Qed.
Lemma looks_or p q s a b : looks p s a -> looks q s b -> looks (orM p q) s (a || b).
Proof. intros Hp Hq. unfold orM. apply (X_looks _ _ _ _ _ Hp). destruct a; [apply looks_ret | exact Hq]. Qed.
Lemma looks_any {X} (f : X -> prog bool) (g : X -> bool) l s : (forall x, looks (f x) s (g x)) -> looks (anyM f l) s (existsb g l).
Proof. intros H. induction l as [|x l IH]; cbn [anyM existsb]; [apply looks_ret|]. now apply looks_or. Qed.

Lemma looks_cont id t r : looks peekIsExpressionContinuation (st id (t :: r)) (existsb (pk r) expressionContinuationTokenKinds || existsb (pkw r) expressionContinuationKeywords).
Proof. apply looks_or; apply looks_any; intros; [apply looks_tk | apply looks_kw]. Qed.

(** What [keywordIsSelectItemIdentifier] sees after a keyword. *)
Definition as_item (r : list tok) : bool :=
  pk r "," || (pkw r "AS" || (existsb (pkw r) clauseStarterKeywords
  || (existsb (pk r) expressionContinuationTokenKinds || existsb (pkw r) expressionContinuationKeywords))).
Lemma looks_item id t r : looks keywordIsSelectItemIdentifier (st id (t :: r)) (t1 t [KKeyword] && as_item r).
Proof.
  unfold looks, keywordIsSelectItemIdentifier. apply X_cur. rewrite here_cons, tk_at. destruct (t1 t [KKeyword]); [|now apply E_ret].
  unfold as_item. cbn [andb]. apply looks_or; [apply looks_tk|]. apply looks_or; [apply looks_kw|]. apply looks_or; [|apply looks_cont].
  apply looks_any. intros. apply looks_kw.
Qed.
Lemma looks_end id t r : looks peekIsEndOfStatement (st id (t :: r)) (match r with [] => true | u :: _ => String.eqb (t_kind u) ";" end).
Proof. unfold looks, peekIsEndOfStatement. apply E_peek. rewrite peek_st. cbn [fst snd]. destruct r; apply E_ret; auto. Qed.
Lemma looks_as id t r : looks
  (orM keywordIsSelectItemIdentifier (do it <- cur_item ;; if tk it KKeyword then orM peekIsEndOfStatement peekIsExpressionContinuation else Ret false))
  (st id (t :: r))
  (t1 t [KKeyword] && (as_item r || match r with [] => true | u :: _ => String.eqb (t_kind u) ";" end)).
Proof.
  eapply looks_eq; [apply looks_or; [apply looks_item|]|].
  - unfold looks. apply X_cur. rewrite here_cons, tk_at. instantiate (1 := t1 t [KKeyword] && (match r with [] => true | u :: _ => String.eqb (t_kind u) ";" end || (existsb (pk r) expressionContinuationTokenKinds || existsb (pkw r) expressionContinuationKeywords))).
    destruct (t1 t [KKeyword]); [|now apply E_ret]. apply looks_or; [apply looks_end | apply looks_cont].
  - destruct (t1 t [KKeyword]); [|reflexivity]. cbn [andb]. unfold as_item.
    destruct (pk r ","), (pkw r "AS"), (existsb (pkw r) clauseStarterKeywords), (existsb (pk r) expressionContinuationTokenKinds), (existsb (pkw r) expressionContinuationKeywords), (match r with [] => true | u :: _ => String.eqb (t_kind u) ";" end); reflexivity.
Qed.
