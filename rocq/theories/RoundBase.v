(** What a canonical text may start with and be followed by, and how the parser's tests on
    the current token come out there. *)
From Coq Require Import String List Arith Bool Lia.
From Verif Require Import Str Keyword Lexer LexGrammar LexTokens Ast AstPos Strip Prog RunFacts FuelFacts ParserCommon ParserExpr ParserQuery Parser Exec PrecSpec RoundSpec RoundExec.
Import ListNotations.
Local Open Scope string_scope.
Local Open Scope list_scope.
Local Open Scope nat_scope.

(** ** First tokens *)
Definition start_kinds : list kind := [KIdent; KInt; KFloat; KString; "("; "["; "*"; "+"; "-"].
Definition start (t : tok) : bool :=
  if String.eqb (t_kind t) KKeyword then tok_eqb t (K "NOT") || tok_eqb t (K "CASE") || negb (str_in (upper (t_str t)) touchy)
  else str_in (t_kind t) start_kinds.
Definition starts (l : list sym) : Prop := exists t r, toks l = t :: r /\ start t = true.
(** ... of an operand. *)
Definition pstart (t : tok) : bool := start t && negb (tok_eqb t (K "NOT")) && negb (str_in (t_kind t) ["+"; "-"]).
Definition pstarts (l : list sym) : Prop := exists t r, toks l = t :: r /\ pstart t = true.

Lemma pstarts_starts l : pstarts l -> starts l.
Proof. intros (t & r & H & Ht). exists t, r. split; [exact H|]. unfold pstart in Ht. rewrite !andb_true_iff in Ht. tauto. Qed.

Lemma tok_eqb_refl t : tok_eqb t t = true.
Proof. destruct t as [a b c d]. unfold tok_eqb. cbn [t_kind t_str t_base t_quote]. now rewrite !String.eqb_refl, !Nat.eqb_refl. Qed.

Lemma start_kw t k : start t = true -> str_in (upper k) touchy && negb (String.eqb (upper k) "NOT") && negb (String.eqb (upper k) "CASE") = true -> k1 t k = false.
Proof.
  unfold start, k1, equal_fold. destruct (String.eqb (t_kind t) KKeyword) eqn:E; [|reflexivity]. cbn [andb]. intros Ht Hk.
  rewrite !andb_true_iff, !negb_true_iff in Hk. destruct Hk as [[Hk H1] H2]. rewrite !orb_true_iff, negb_true_iff in Ht.
  destruct Ht as [[Ht|Ht]|Ht]; [apply tok_eqb_eq in Ht as ->..|].
  - cbn [t_str K]. now rewrite String.eqb_sym.
  - cbn [t_str K]. now rewrite String.eqb_sym.
  - destruct (String.eqb_spec (upper (t_str t)) (upper k)) as [Eq|]; [|reflexivity]. rewrite Eq in Ht. congruence.
Qed.
Lemma start_tks t l : start t = true -> forallb (fun k => negb (str_in k (KKeyword :: start_kinds))) l = true -> t1 t l = false.
Proof.
  unfold start, t1. intros Ht Hl. rewrite forallb_forall in Hl.
  assert (Hi : forall k, str_in k l = true -> str_in k (KKeyword :: start_kinds) = false).
  { intros k Hk. apply negb_true_iff, Hl. unfold str_in in Hk. apply existsb_exists in Hk as (x & Hx & E). apply String.eqb_eq in E. now subst. }
  destruct (str_in (t_kind t) l) eqn:E.
  - apply Hi in E. unfold str_in in E. cbn [existsb] in E. apply orb_false_iff in E as [E1 E2]. rewrite E1 in Ht. unfold str_in in Ht. congruence.
  - destruct (str_in KIdent l) eqn:E'; [apply Hi in E'; vm_compute in E'; discriminate|]. now rewrite andb_false_r.
Qed.

Lemma starts_kw l id ts k : starts l -> str_in (upper k) touchy && negb (String.eqb (upper k) "NOT") && negb (String.eqb (upper k) "CASE") = true -> kw (here (st id (toks l ++ ts))) k = false.
Proof. intros (t & r & -> & Ht) Hk. cbn [app]. rewrite here_cons, kw_at. now apply start_kw. Qed.
Lemma starts_kws l id ts ks : starts l -> forallb (fun k => str_in (upper k) touchy && negb (String.eqb (upper k) "NOT") && negb (String.eqb (upper k) "CASE")) ks = true -> kws (here (st id (toks l ++ ts))) ks = false.
Proof.
  intros (t & r & -> & Ht) Hk. cbn [app]. rewrite here_cons. change (existsb (k1 t) ks = false). rewrite forallb_forall in Hk.
  destruct (existsb (k1 t) ks) eqn:E; [|reflexivity]. apply existsb_exists in E as (k & Hi & E). rewrite start_kw in E; auto.
Qed.
Lemma starts_tks l id ts ks : starts l -> forallb (fun k => negb (str_in k (KKeyword :: start_kinds))) ks = true -> tks (here (st id (toks l ++ ts))) ks = false.
Proof. intros (t & r & -> & Ht) Hk. cbn [app]. rewrite here_cons, tks_at. now apply start_tks. Qed.
Lemma starts_tk l id ts k : starts l -> forallb (fun k => negb (str_in k (KKeyword :: start_kinds))) [k] = true -> tk (here (st id (toks l ++ ts))) k = false.
Proof. apply starts_tks. Qed.
Lemma starts_exhausted l id ts : starts l -> exhausted (here (st id (toks l ++ ts))) = false.
Proof. intros (t & r & -> & Ht). cbn [app]. rewrite here_cons. unfold exhausted. cbn [no_tok it_tok item_at]. apply andb_false_r. Qed.
Lemma starts_eof l id ts : starts l -> ts <> [] -> it_eof (here (st id (toks l ++ ts))) = false.
Proof. intros (t & r & -> & Ht) H. cbn [app]. rewrite here_cons. cbn [it_eof item_at]. destruct r; [destruct ts; [congruence|reflexivity]|reflexivity]. Qed.
Lemma pstarts_not l id ts : pstarts l -> kw (here (st id (toks l ++ ts))) "NOT" = false.
Proof.
  intros (t & r & -> & Ht). cbn [app]. rewrite here_cons, kw_at. unfold pstart in Ht. rewrite !andb_true_iff, !negb_true_iff in Ht. destruct Ht as [[Ht Hn] _].
  unfold start in Ht. unfold k1, equal_fold. destruct (String.eqb (t_kind t) KKeyword); [|reflexivity]. cbn [andb]. rewrite Hn in Ht. cbn [orb] in Ht. apply orb_true_iff in Ht as [Ht|Ht].
  - apply tok_eqb_eq in Ht as ->. reflexivity.
  - destruct (String.eqb_spec (upper (t_str t)) (upper "NOT")) as [E|]; [|reflexivity]. rewrite E in Ht. vm_compute in Ht. discriminate.
Qed.
Lemma pstarts_sign l id ts : pstarts l -> tks (here (st id (toks l ++ ts))) ["+"; "-"] = false.
Proof.
  intros (t & r & -> & Ht). cbn [app]. rewrite here_cons, tks_at. unfold pstart in Ht. rewrite !andb_true_iff, !negb_true_iff in Ht. destruct Ht as [_ Hn].
  unfold t1. rewrite Hn. replace (str_in KIdent ["+"; "-"]) with false by reflexivity. now rewrite andb_false_r.
Qed.

(** ** Following tokens *)
Definition ends0 : list tok :=
  map O [")"; "]"; ","; ":"; ";"] ++
  map K ["AS"; "FROM"; "PREWHERE"; "WHERE"; "GROUP"; "HAVING"; "ORDER"; "LIMIT"; "OFFSET"; "BY"; "SETTINGS"; "FORMAT"; "UNION"; "EXCEPT"; "INTERSECT";
         "WHEN"; "THEN"; "ELSE"; "END"; "ASC"; "DESC"; "CROSS"; "INNER"; "LEFT"; "RIGHT"; "FULL"; "ANY"; "ALL"; "ASOF"; "SEMI"; "JOIN";
         "FINAL"; "DEDUPLICATE"; "PARTITION"; "PRIMARY"; "SAMPLE"; "TTL"; "COMMENT"; "CODEC"; "INTO"; "AFTER"; "TO"; "DELETE"; "REMOVE"; "POPULATE"; "ON"].
Definition ops : list tok := map O (sign_ops ++ ["->"; "::"; "?"]) ++ map K (word_ops ++ ["NOT"; "IS"; "BETWEEN"]).
Definition stop : list tok := ends0 ++ ops.
Definition after : list tok := stop ++ [O "["; O "."].
Definition follow (e : expr) (ts : list tok) : Prop :=
  heads stop ts \/ (indexable e = true /\ exists r, ts = O "[" :: r) \/ (dottable e = true /\ exists r, ts = O "." :: r).
Lemma follow_after e ts : follow e ts -> heads after ts.
Proof.
  intros [H|[[_ [r ->]]|[_ [r ->]]]].
  - destruct ts; [exact I|]. cbn [heads] in *. apply in_or_app. now left.
  - cbn [heads]. apply in_or_app. right. cbn. auto.
  - cbn [heads]. apply in_or_app. right. cbn. auto.
Qed.
Lemma ends0_stop ts : heads ends0 ts -> heads stop ts.
Proof. destruct ts; [auto|]. cbn [heads]. intros H. apply in_or_app. now left. Qed.
Lemma stop_after ts : heads stop ts -> heads after ts.
Proof. destruct ts; [auto|]. cbn [heads]. intros H. apply in_or_app. now left. Qed.
Lemma heads_eof K id ts : heads K ts -> exhausted (here (st id ts)) = match ts with [] => true | _ => false end.
Proof. destruct ts; [reflexivity|]. intros _. rewrite here_cons. unfold exhausted. cbn [no_tok it_tok item_at]. apply andb_false_r. Qed.

(** ** Deciding tests *)
Ltac slv :=
  first
  [ reflexivity
  | eapply heads_kw; [eassumption | vm_compute; reflexivity]
  | eapply heads_kws; [eassumption | vm_compute; reflexivity]
  | eapply heads_tk; [eassumption | vm_compute; reflexivity | vm_compute; reflexivity]
  | eapply heads_tks; [eassumption | vm_compute; reflexivity | vm_compute; reflexivity]
  | eapply starts_kw; [eassumption | vm_compute; reflexivity]
  | eapply starts_kws; [eassumption | vm_compute; reflexivity]
  | eapply starts_tk; [eassumption | vm_compute; reflexivity]
  | eapply starts_tks; [eassumption | vm_compute; reflexivity]
  | eapply starts_exhausted; eassumption
  | eapply pstarts_not; eassumption
  | eapply pstarts_sign; eassumption
  | eassumption ].
Ltac dec b :=
  let H := fresh "Hb" in
  first [ assert (H : b = false) by slv | assert (H : b = true) by slv ]; rewrite ?H; clear H; cbn [andb orb negb]; cbv beta iota.
Ltac tst :=
  match goal with
  | |- context [kw (here ?s) ?k] => dec (kw (here s) k)
  | |- context [kws (here ?s) ?k] => dec (kws (here s) k)
  | |- context [tks (here ?s) ?k] => dec (tks (here s) k)
  | |- context [tk (here ?s) ?k] => dec (tk (here s) k)
  | |- context [exhausted (here ?s)] => dec (exhausted (here s))
  end.
(** Bring the tokens of a state into the form [t :: ... toks l ++ ... ++ ts]. *)
Ltac nrm := repeat first [rewrite toks_app | rewrite toks_T | rewrite toks_Sp | rewrite toks_nil | rewrite <- app_assoc | rewrite app_nil_l | rewrite <- app_comm_cons].

Ltac stp :=
  cbv beta iota;
  match goal with
  | |- Ends (bind cur_item _) _ _ => apply X_cur
  | |- Ends (bind pos_ _) _ _ => apply X_pos
  | |- Ends (bind end_ _) _ _ => apply X_end
  | |- Ends (bind (Ret _) _) _ _ => apply X_ret
  | |- Ends (bind skip _) (st _ (_ :: _)) _ => apply X_skip
  | |- Ends (bind grab _) (st _ (_ :: _)) _ => apply X_grab
  | |- Ends (bind cur_to_string _) (st _ (_ :: _)) _ => apply X_cur_to_string
  | |- Ends (bind (expTk _) _) (st _ (_ :: _)) _ => apply X_expTk; [solve [reflexivity | eassumption]|]
  | |- Ends (bind (expKw _) _) (st _ (_ :: _)) _ => apply X_expKw; [solve [reflexivity | eassumption]|]
  | |- Ends (bind (tryTkb _) _) _ _ => first [apply X_tryTk_yes; [solve [reflexivity | eassumption]|] | apply X_tryTk_no; [solve [slv]|]]
  | |- Ends (bind (tryKw _) _) _ _ => first [apply X_tryKw_yes; [solve [reflexivity]|] | apply X_tryKw_no; [solve [slv]|]]
  | |- Ends (bind (tryKws (_ :: _)) _) _ _ => apply X_tryKws_no; [solve [slv]|]
  | |- Ends (bind (peekTk _) _) _ _ => apply X_peekTk
  | |- Ends (bind (peekKw _) _) _ _ => apply X_peekKw
  | |- Ends (bind (bind _ _) _) _ _ => apply E_bind
  | |- Ends (bind (if _ then _ else _) _) _ _ => tst
  | |- Ends (if _ then _ else _) _ _ => tst
  end.

(** ** The level of the next operator *)
Definition lev1 (t : tok) : nat :=
  if k1 t "OR" then 3 else if k1 t "AND" then 4 else if k1 t "IS" then 7
  else if t1 t ["."] then 15 else if t1 t ["::"] then 16
  else if t1 t ["="; "<"; "<="; ">="; ">"; "=="; "!="; "<>"] then 8
  else if t1 t ["||"] then 11 else if t1 t ["+"; "-"] then 12 else if t1 t ["*"; "/"; "%"] then 13
  else if t1 t ["->"] then 1 else if t1 t ["("; "["] then 14
  else if existsb (k1 t) ["BETWEEN"; "LIKE"; "ILIKE"; "REGEXP"] then 9
  else if k1 t "IN" then 10 else if t1 t ["?"] then 2 else 0.
Definition lev (ts : list tok) : nat :=
  match ts with
  | [] => 0
  | t :: r => if k1 t "NOT" then (if pkw r "IN" then 10 else if existsb (pkw r) ["LIKE"; "ILIKE"; "BETWEEN"] then 9 else 5) else lev1 t
  end.

Lemma next_level {A} id ts (f : nat -> prog A) Q : heads after ts -> Ends (f (lev ts)) (st id ts) Q -> Ends (do n <- getNextPrecedence ;; f n) (st id ts) Q.
Proof.
  intros Hts H. apply E_bind. unfold getNextPrecedence. apply X_cur. destruct ts as [|t r]; [now apply E_ret|].
  assert (Hg : k1 t "GLOBAL" = false).
  { cbn [heads] in Hts. assert (Hf : forallb (fun t => negb (k1 t "GLOBAL")) after = true) by (vm_compute; reflexivity).
    rewrite forallb_forall in Hf. now apply negb_true_iff, Hf. }
  rewrite here_cons, !kw_at, !tk_at, !tks_at. change (kws (item_at id t r) ["BETWEEN"; "LIKE"; "ILIKE"; "REGEXP"]) with (existsb (k1 t) ["BETWEEN"; "LIKE"; "ILIKE"; "REGEXP"]).
  rewrite Hg. unfold lev, lev1 in H.
  destruct (k1 t "NOT") eqn:En.
  - assert (Ho : forall k, String.eqb "NOT" (upper k) = false -> k1 t k = false).
    { intros k Hk. unfold k1, equal_fold in *. destruct (String.eqb (t_kind t) KKeyword); [|reflexivity]. cbn [andb] in *. apply String.eqb_eq in En. rewrite En. exact Hk. }
    rewrite !Ho by reflexivity. apply (X_looks _ _ _ _ _ (looks_kw id t r "IN")). destruct (pkw r "IN"); [now apply E_ret|].
    eapply X_looks; [apply looks_any with (g := pkw r); intros; apply looks_kw|]. apply E_ret.
    destruct (existsb (pkw r) ["LIKE"; "ILIKE"; "BETWEEN"]); exact H.
  - cbv iota. unfold kind in *. repeat match goal with |- Ends (if ?b then _ else _) _ _ => destruct b; cbv iota; [apply E_ret; exact H|] end. now apply E_ret.
Qed.

Lemma lev_ends0 ts : heads ends0 ts -> lev ts = 0.
Proof.
  destruct ts as [|t r]; [reflexivity|]. cbn [heads]. intros H.
  assert (Hf : forallb (fun t => negb (k1 t "NOT") && (lev1 t =? 0)) ends0 = true) by (vm_compute; reflexivity).
  rewrite forallb_forall in Hf. specialize (Hf t H). apply andb_true_iff in Hf as [H1 H2]. apply negb_true_iff in H1. apply Nat.eqb_eq in H2.
  unfold lev. now rewrite H1.
Qed.

(** ** The infix loop *)
Lemma infix_stop e n id ts (Q : expr -> pstate -> Prop) : heads after ts -> lev ts <= n -> Q e (st id ts) -> Ends (parseInfixLoop e n) (st id ts) Q.
Proof.
  intros Hh Hl HQ. unfold parseInfixLoop. apply E_loop1. apply X_cur. rewrite (heads_eof _ _ _ Hh). destruct ts as [|t r]; [now apply E_ret|].
  apply next_level; [exact Hh|]. apply Nat.leb_le in Hl. rewrite Hl. now apply E_ret.
Qed.
Lemma infix_step e n id t r (Q : expr -> pstate -> Prop) : heads after (t :: r) -> n < lev (t :: r) ->
  Ends (parseInfix e (lev (t :: r))) (st id (t :: r)) (fun e' s' => Ends (parseInfixLoop e' n) s' Q) -> Ends (parseInfixLoop e n) (st id (t :: r)) Q.
Proof.
  intros Hh Hl HQ. unfold parseInfixLoop. apply E_loop1. apply X_cur. rewrite (heads_eof _ _ _ Hh).
  apply next_level; [exact Hh|]. destruct (Nat.leb_spec (lev (t :: r)) n); [lia|]. apply E_bind. eapply E_mono; [exact HQ|]. intros a s' H'. now apply E_ret.
Qed.
