(** Running the parser over canonical expressions. *)
From Coq Require Import String List Arith Bool Lia.
From Verif Require Import Str Keyword Lexer LexGrammar LexTokens Ast AstPos AstSubs Strip StripFacts Prog RunFacts FuelFacts ParserCommon ParserExpr ParserQuery Parser Exec PrecSpec RoundSpec RoundExec RoundBase.
Import ListNotations.
Local Open Scope string_scope.
Local Open Scope list_scope.
Local Open Scope nat_scope.

(** ** Names and literals *)
Lemma word_kind w : t_kind (word_tok w) = KKeyword \/ t_kind (word_tok w) = KIdent.
Proof. unfold word_tok. cbn [t_kind]. destruct (is_keyword (upper w)); auto. Qed.
Lemma name_kind e t : any_name e t -> t_kind t = KKeyword \/ t_kind t = KIdent.
Proof. intros []; [apply word_kind | auto | auto]. Qed.
Lemma name_any e t : any_name e t -> t1 t [KIdent; KKeyword] = true.
Proof. intros H. unfold t1. destruct (name_kind _ _ H) as [-> | ->]; reflexivity. Qed.
Lemma name_ident e t : name e t -> t1 t [KIdent] = true.
Proof. intros [H E]. unfold t1. now rewrite E. Qed.
Lemma name_not_kw e t k : name e t -> k1 t k = false.
Proof. intros [H E]. unfold k1. now rewrite E. Qed.
Lemma ident_ok it e t : any_name e t -> ok (ident_of it t) e.
Proof. intros []; split; try reflexivity; discriminate. Qed.
Lemma name_strip e : is_name (strip e) = is_name e.
Proof. destruct e; reflexivity. Qed.
Lemma is_name_eq e : is_name e = true -> exists n k p q, e = EIdent n k p q.
Proof. destruct e; intros H; try discriminate H. eauto. Qed.
Lemma any_is_name e t : any_name e t -> is_name e = true.
Proof. now intros []. Qed.
Lemma ok_ident e' e t : any_name e t -> ok e' e -> exists n k p q, e' = EIdent n k p q.
Proof. intros Hn [H _]. apply is_name_eq. rewrite <- name_strip, H, name_strip. eapply any_is_name, Hn. Qed.
Lemma reserved_touchy w : is_reserved w = true -> str_in w touchy = true.
Proof. unfold is_reserved, touchy, str_in. intros H. rewrite existsb_app, H. reflexivity. Qed.
Lemma free_ident e t : free_name e t -> t1 t [KIdent] = true.
Proof.
  intros [H E]. unfold t1. destruct (name_kind _ _ H) as [Hk|Hk]; rewrite Hk; [|reflexivity]. specialize (E Hk).
  replace (str_in KKeyword [KIdent]) with false by reflexivity. cbn [String.eqb].
  destruct (is_reserved (upper (t_str t))) eqn:Er; [apply reserved_touchy in Er; congruence|reflexivity].
Qed.
Lemma free_start e t : free_name e t -> pstart t = true.
Proof.
  intros [H E]. unfold pstart, start. destruct (name_kind _ _ H) as [Hk|Hk]; rewrite Hk.
  - rewrite (E Hk). replace (String.eqb KKeyword KKeyword) with true by reflexivity. rewrite orb_true_r. cbn [andb].
    replace (str_in KKeyword ["+"; "-"]) with false by reflexivity. rewrite andb_true_r. apply negb_true_iff. destruct (tok_eqb t (K "NOT")) eqn:Et; [|reflexivity].
    apply tok_eqb_eq in Et as ->. specialize (E Hk). vm_compute in E. discriminate.
  - replace (String.eqb KIdent KKeyword) with false by reflexivity. replace (str_in KIdent start_kinds) with true by reflexivity. cbn [andb].
    replace (str_in KIdent ["+"; "-"]) with false by reflexivity. rewrite andb_true_r. apply negb_true_iff. destruct (tok_eqb t (K "NOT")) eqn:Et; [|reflexivity].
    apply tok_eqb_eq in Et as ->. discriminate.
Qed.
Lemma name_free e t : name e t -> free_name e t.
Proof. intros [H E]. split; [exact H|]. rewrite E. discriminate. Qed.

Lemma any_keyword {A} e t id r (f : expr -> prog A) Q : any_name e t -> (forall e', ok e' e -> Ends (f e') (st (S id) r) Q) ->
  Ends (do e <- parseAnyKeyword ;; f e) (st id (t :: r)) Q.
Proof.
  intros Hn H. apply E_bind. unfold parseAnyKeyword. apply X_cur. rewrite here_cons, tks_at, (name_any _ _ Hn). apply X_skip. cbn [it_tok item_at].
  apply E_ret, H. now apply ident_ok.
Qed.
Lemma any_keyword_end e t id r : any_name e t -> Ends parseAnyKeyword (st id (t :: r)) (Got e r).
Proof.
  intros Hn. unfold parseAnyKeyword. apply X_cur. rewrite here_cons, tks_at, (name_any _ _ Hn). apply X_skip. cbn [it_tok item_at].
  apply E_got. now apply ident_ok.
Qed.
Lemma ident_tok {A} e t id r (f : expr -> prog A) Q : any_name e t -> t1 t [KIdent] = true -> (forall e', ok e' e -> Ends (f e') (st (S id) r) Q) ->
  Ends (do e <- parseIdent ;; f e) (st id (t :: r)) Q.
Proof.
  intros Hn Ht H. apply E_bind. unfold parseIdent. apply X_cur. apply X_expTk; [exact Ht|]. rewrite here_cons. cbn [it_tok item_at].
  apply E_ret, H. now apply ident_ok.
Qed.
Lemma ident_tok_end e t id r : any_name e t -> t1 t [KIdent] = true -> Ends parseIdent (st id (t :: r)) (Got e r).
Proof.
  intros Hn Ht. unfold parseIdent. apply X_cur. apply X_expTk; [exact Ht|]. rewrite here_cons. cbn [it_tok item_at].
  apply E_got. now apply ident_ok.
Qed.

Lemma number_kind e t : number_lit e t -> t1 t [KInt] = true \/ t1 t [KFloat] = true /\ t1 t [KInt] = false.
Proof. intros [s b [|] p q H]; [right|left]; try split; reflexivity. Qed.
Lemma number_pos p e t id r : number_lit e t -> Ends (parseNumber p) (st id (t :: r)) (Got e r).
Proof.
  intros H. unfold parseNumber. apply X_cur. rewrite here_cons, !tk_at. destruct H as [s b f p' q H].
  destruct f.
  - change (t1 (mkTok KFloat s b QNone) [KInt]) with false. change (t1 (mkTok KFloat s b QNone) [KFloat]) with true. cbv iota. apply X_expTk; [reflexivity|]. cbn [it_tok item_at].
    apply E_got. split; [reflexivity|discriminate].
  - change (t1 (mkTok KInt s b QNone) [KInt]) with true. cbv iota. apply X_expTk; [reflexivity|]. cbn [it_tok item_at].
    apply E_got. split; [reflexivity|discriminate].
Qed.
Lemma number_here e t id r : number_lit e t -> Ends parseNumberHere (st id (t :: r)) (Got e r).
Proof. intros H. unfold parseNumberHere. apply X_pos. now apply number_pos. Qed.
Lemma string_pos p e t id r : string_lit e t -> Ends (parseString p) (st id (t :: r)) (Got e r).
Proof.
  intros [s p' q H]. unfold parseString. apply X_cur. apply X_expTk; [reflexivity|]. rewrite here_cons. cbn [it_tok item_at]. apply E_got. split; [reflexivity|discriminate].
Qed.

(** ** Lists *)
Lemma ok_last es' es : Forall2 ok es' es -> es' <> [] -> end_of (last es' ENil) <> None.
Proof.
  intros H. induction H as [|x y l l' H1 H2 IH]; [congruence|]. intros _. destruct l as [|z l]; [apply H1|]. change (last (x :: z :: l) ENil) with (last (z :: l) ENil). apply IH. discriminate.
Qed.
Lemma X_lastEnd {A} p es' es (f : pos -> prog A) s Q : Forall2 ok es' es -> (forall p, Ends (f p) s Q) -> Ends (do p <- lastEnd p es' ;; f p) s Q.
Proof.
  intros H Hf. unfold lastEnd. destruct es' as [|x es']; [apply X_ret, Hf|]. apply X_endOf; [|exact Hf]. eapply ok_last; [exact H|discriminate].
Qed.
Lemma oks_strip es' es : Forall2 ok es' es -> map strip es' = map strip es.
Proof. induction 1 as [|x y l l' [H _] H2 IH]; [reflexivity|]. cbn [map]. congruence. Qed.

Lemma sep_cons s l l' ls : sep_by s (l :: l' :: ls) = l ++ s ++ sep_by s (l' :: ls).
Proof. reflexivity. Qed.

Lemma comma_items stp p (F G : list tok -> Prop) ts :
  (forall l id r, starts l -> G r -> stp (here (st id (toks l ++ r))) = false) ->
  (forall r, G (O "," :: r)) -> (forall r, F (O "," :: r)) -> G ts -> F ts -> (forall id, tk (here (st id ts)) "," = false) ->
  forall es ls, Forall2 (fun e l => starts l /\ parses p e l F) es ls ->
  forall e l acc acc0 id, starts l -> parses p e l F -> Forall2 ok acc acc0 ->
    Ends (loop acc (fun acc => do it <- cur_item ;; if stp it then Ret (inr acc) else do x <- p ;; do c <- tryTkb "," ;; Ret (if c then inl (acc ++ [x]) else inr (acc ++ [x]))))
      (st id (toks (sep_by comma (l :: ls)) ++ ts)) (Gots (acc0 ++ e :: es) ts).
Proof.
  intros Hs HG HF HGt HFt Hc es ls H. induction H as [|e2 l2 es ls [Hst2 Hp2] H IH]; intros e l acc acc0 id Hst Hp Hacc; apply E_loop1.
  - cbn [sep_by]. apply X_cur. rewrite Hs by assumption. eapply E_use; [exact Hp|exact HFt|]. intros e' id' He. apply X_tryTk_no; [apply Hc|]. apply E_ret.
    split; [|eauto]. apply Forall2_app; auto.
  - rewrite sep_cons. unfold comma at 1. nrm. apply X_cur. rewrite Hs by auto. eapply E_use; [exact Hp|apply HF|]. intros e' id' He. apply X_tryTk_yes; [reflexivity|]. apply E_ret.
    replace (acc0 ++ e :: e2 :: es) with ((acc0 ++ [e]) ++ e2 :: es) by now rewrite <- app_assoc. apply IH; [assumption..|]. apply Forall2_app; auto.
Qed.
Lemma comma_list stp p (F G : list tok -> Prop) es ls ts :
  (forall l id r, starts l -> G r -> stp (here (st id (toks l ++ r))) = false) ->
  (forall r, G (O "," :: r)) -> (forall r, F (O "," :: r)) -> G ts -> F ts -> (forall id, tk (here (st id ts)) "," = false) ->
  (es = [] -> forall id, stp (here (st id ts)) = true) ->
  Forall2 (fun e l => starts l /\ parses p e l F) es ls ->
  forall id, Ends (commaLoop stp p) (st id (toks (sep_by comma ls) ++ ts)) (Gots es ts).
Proof.
  intros Hs HG HF HGt HFt Hc Hn H id. unfold commaLoop. destruct H as [|e l es ls [Hst Hp] H].
  - apply E_loop1. cbn [sep_by]. rewrite toks_nil. cbn [app]. apply X_cur. rewrite Hn by reflexivity. apply E_ret. split; [constructor|eauto].
  - apply (comma_items stp p F G ts) with (acc0 := []); auto.
Qed.

(** ** Column lists *)
Definition ends2 : list tok :=
  map O [";"; ")"; "]"; ":"] ++
  map K ["FROM"; "PREWHERE"; "WHERE"; "GROUP"; "HAVING"; "ORDER"; "LIMIT"; "OFFSET"; "BY"; "SETTINGS"; "FORMAT"; "UNION"; "EXCEPT"; "INTERSECT";
         "WHEN"; "THEN"; "ELSE"; "END"; "ASC"; "DESC"; "CROSS"; "INNER"; "LEFT"; "RIGHT"; "FULL"; "ANY"; "ALL"; "ASOF"; "SEMI"; "JOIN";
         "PRIMARY"; "SAMPLE"; "TTL"; "COMMENT"; "POPULATE"].
Definition ends1 : list tok := O "," :: ends2.
Lemma ends1_0 ts : heads ends1 ts -> heads ends0 ts.
Proof. intros H. eapply heads_incl; [exact H|vm_compute; reflexivity]. Qed.
Lemma ends2_1 ts : heads ends2 ts -> heads ends1 ts.
Proof. destruct ts; [auto|]. intros H. now right. Qed.

Definition column (e : expr) (l : list sym) : Prop := starts l /\ parses parseColumnsExpr e l (heads ends1).

Lemma column_list term (d : bool) p es ls id ts :
  term = Some ")" \/ term = Some "]" \/ term = None -> Forall2 column es ls -> heads ends2 ts -> es <> [] \/ (exists k r, term = Some k /\ ts = O k :: r) ->
  Ends (parseColumnExprListWithTerm term p) (st id ((if d then [K "DISTINCT"] else []) ++ toks (sep_by comma ls) ++ ts))
    (fun x s' => (exists q es', x = EColumnExprList p q d es' /\ Forall2 ok es' es) /\ exists id', s' = st id' ts).
Proof.
  intros Ht H Hh Hn. unfold parseColumnExprListWithTerm.
  assert (HS : forall l id r, starts l -> True -> (exhausted (here (st id (toks l ++ r))) || match term with Some k => tk (here (st id (toks l ++ r))) k | None => false end) = false).
  { intros l i r Hl _. rewrite starts_exhausted by assumption. cbn [orb]. destruct Ht as [->|[->| ->]]; [slv|slv|reflexivity]. }
  assert (HE : es = [] -> forall id, (exhausted (here (st id ts)) || match term with Some k => tk (here (st id ts)) k | None => false end) = true).
  { intros -> i. destruct Hn as [Hn|(k & r & -> & ->)]; [congruence|]. rewrite here_cons, tk_at. destruct Ht as [Ht|[Ht|Ht]]; try discriminate Ht; injection Ht as ->; apply orb_true_r. }
  assert (Hlist : forall i, Ends (commaLoop (fun it => exhausted it || match term with Some k => tk it k | None => false end) parseColumnsExpr) (st i (toks (sep_by comma ls) ++ ts)) (Gots es ts)).
  { apply (comma_list _ _ (heads ends1) (fun _ => True)); auto.
    - intros r. now left.
    - now apply ends2_1.
    - intros i. slv. }
  assert (Hrest : forall i, Ends (do columnList <- commaLoop (fun it => exhausted it || match term with Some k => tk it k | None => false end) parseColumnsExpr ;; do listEnd <- lastEnd p columnList ;; Ret (EColumnExprList p listEnd d columnList))
     (st i (toks (sep_by comma ls) ++ ts)) (fun x s' => (exists q es', x = EColumnExprList p q d es' /\ Forall2 ok es' es) /\ exists id', s' = st id' ts)).
  { intros i. apply E_bind. eapply E_mono; [apply Hlist|]. intros es' s' (He & id' & ->). eapply X_lastEnd; [exact He|]. intros q. apply E_ret. split; eauto. }
  destruct d.
  - cbn [app]. apply X_tryKw_yes; [reflexivity|]. apply Hrest.
  - cbn [app]. apply X_tryKw_no; [|apply Hrest]. destruct H as [|e l es ls [Hst Hp] H].
    + cbn [sep_by]. rewrite toks_nil. cbn [app]. slv.
    + destruct H as [|e2 l2 es ls]; [slv|]. rewrite sep_cons, toks_app, <- app_assoc. slv.
Qed.

(** ** Expressions: the induction claim *)

(** Tokens at which the expression [e] may end, when it is parsed with the continuation [Q]. *)
Definition XP (e : expr) (l : list sym) : Prop :=
  starts l /\ 0 < as_right e /\ (forall m, 2 <= m <= 4 -> m < as_right e -> m < as_left e) /\
  forall p n id ts Q, n < as_right e -> lev ts <= as_left e -> (as_left e <= 2 -> lev ts = 0) -> follow e ts ->
    (forall e' id', ok e' e -> Ends (parseInfixLoop e' n) (st id' ts) Q) ->
    Ends (body_SubExpr p n) (st id (toks l ++ ts)) Q.

(** Parsed at a level at which what follows is not taken. *)
Lemma sub_expr {A} e l p n id ts (f : expr -> prog A) Q : XP e l -> n < as_right e -> lev ts <= as_left e -> (as_left e <= 2 -> lev ts = 0) -> lev ts <= n -> follow e ts ->
  (forall e' id', ok e' e -> Ends (f e') (st id' ts) Q) -> Ends (do e <- parseSubExpr p n ;; f e) (st id (toks l ++ ts)) Q.
Proof.
  intros (_ & _ & _ & H) Hr Hl H0 Hn Hf HQ. unfold parseSubExpr. apply X_call. cbn [body]. apply H; auto. intros e' id' He. apply infix_stop; auto. eapply follow_after, Hf.
Qed.
Lemma sub_here {A} e l n id ts (f : expr -> prog A) Q : XP e l -> n < as_right e -> lev ts <= as_left e -> (as_left e <= 2 -> lev ts = 0) -> lev ts <= n -> follow e ts ->
  (forall e' id', ok e' e -> Ends (f e') (st id' ts) Q) -> Ends (do e <- parseSubExprHere n ;; f e) (st id (toks l ++ ts)) Q.
Proof.
  intros (_ & _ & _ & H) Hr Hl H0 Hn Hf HQ. apply E_bind. unfold parseSubExprHere. apply X_pos. unfold parseSubExpr. apply E_call. cbn [body]. apply H; auto. intros e' id' He. apply infix_stop; auto.
  - eapply follow_after, Hf.
  - apply E_ret. auto.
Qed.
Lemma expr_at e l p : XP e l -> parses (parseExpr p) e l (heads ends0).
Proof.
  intros (_ & H1 & _ & H) id ts Hts. unfold parseExpr, parseSubExpr. apply E_call. cbn [body]. assert (Hl := lev_ends0 ts Hts). apply H; try lia.
  - left. now apply ends0_stop.
  - intros e' id' He. apply infix_stop; [now apply stop_after, ends0_stop | lia|]. now apply E_got.
Qed.
Lemma expr_here e l : XP e l -> parses parseExprHere e l (heads ends0).
Proof. intros H id ts Hts. unfold parseExprHere. apply X_pos. now apply expr_at. Qed.

Lemma column_plain e l : XP e l -> column (EColumnExpr e ENil) l.
Proof.
  intros H. split; [apply H|]. intros id ts Hts. unfold parseColumnsExpr. eapply E_use; [apply expr_here, H|now apply ends1_0|].
  intros e' id' [He He']. apply X_tryKw_no; [slv|]. apply E_got. split; [cbn [strip]; congruence|exact He'].
Qed.
Lemma starts_app l r : starts l -> starts (l ++ r).
Proof. intros (t & r' & E & Ht). exists t, (r' ++ toks r). now rewrite toks_app, E. Qed.
Lemma column_as e l a t : XP e l -> any_name a t -> column (EColumnExpr e a) (l ++ [Sp; T (K "AS"); Sp; T t]).
Proof.
  intros H Ha. split; [apply starts_app, H|]. intros id ts Hts. nrm. unfold parseColumnsExpr. eapply E_use; [apply expr_here, H| |].
  - cbn [heads]. apply in_or_app. right. now left.
  - intros e' id' [He He']. apply X_tryKw_yes; [reflexivity|]. eapply any_keyword; [exact Ha|]. intros a' [Ha1 Ha2]. apply E_got. split; [cbn [strip]; congruence|].
    destruct (ok_ident _ _ _ Ha (conj Ha1 Ha2)) as (n & k & p & q & ->). discriminate.
Qed.
