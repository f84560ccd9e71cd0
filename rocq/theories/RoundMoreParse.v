(** Running the parser over the parts of a canonical statement. *)
From Coq Require Import String List Arith Bool Lia.
From Verif Require Import Str Keyword Lexer LexSpec LexGrammar LexTokens Ast AstPos AstSubs Strip StripFacts Prog RunFacts FuelFacts ParserCommon ParserExpr ParserQuery ParserTable ParserView ParserAlter ParserSystem Parser Exec PrecSpec RoundSpec RoundExec RoundBase RoundExpr RoundOps RoundPrim RoundClause RoundFrom RoundQuery RoundAll RoundStmt RoundMoreSpec.
Import ListNotations.
Local Open Scope string_scope.
Local Open Scope list_scope.
Local Open Scope nat_scope.

Ltac wds := unfold flag, words in *; cbn [map sep_by app] in *.

(** ** Names *)
Lemma plain_kw e t k id r : plain_name e t -> str_in (upper k) fixed = true -> kw (here (st id (t :: r))) k = false.
Proof.
  intros [_ H] Hk. rewrite here_cons, kw_at. unfold k1, equal_fold. destruct (String.eqb_spec (t_kind t) KKeyword) as [E|]; [|reflexivity]. cbn [andb].
  destruct (String.eqb_spec (upper (t_str t)) (upper k)) as [E'|]; [|reflexivity]. rewrite <- E', (H E) in Hk. discriminate.
Qed.
Lemma fixed_reserved w : str_in w fixed = false -> is_reserved w = false.
Proof. unfold fixed, is_reserved, str_in. rewrite existsb_app. intros H. now apply orb_false_iff in H. Qed.
Lemma plain_ident e t : plain_name e t -> t1 t [KIdent] = true.
Proof. intros [H Hf]. eapply any_ident; [exact H|]. intros E. now apply fixed_reserved, Hf. Qed.
Lemma plain_tk e t id r : plain_name e t -> tk (here (st id (t :: r))) KIdent = true.
Proof. intros H. rewrite here_cons, tk_at. eapply plain_ident, H. Qed.
Lemma string_tk e t id r : string_lit e t -> tk (here (st id (t :: r))) KString = true.
Proof. intros []. reflexivity. Qed.
Lemma string_not e t id r : string_lit e t -> tk (here (st id (t :: r))) KIdent = false.
Proof. intros []. reflexivity. Qed.

Lemma table_start e l : table e l -> exists d t r, toks l = t :: r /\ plain_name d t.
Proof. intros [e' t H|d t e' u H _]; nrm; eauto. Qed.
Lemma table_kw e l k id ts : table e l -> str_in (upper k) fixed = true -> kw (here (st id (toks l ++ ts))) k = false.
Proof. intros H Hk. destruct (table_start _ _ H) as (d & t & r & -> & Ht). cbn [app]. eapply plain_kw; eassumption. Qed.

Ltac slv ::=
  first
  [ reflexivity
  | eapply heads_kw; [eassumption | vm_compute; reflexivity]
  | eapply heads_kws; [eassumption | vm_compute; reflexivity]
  | eapply heads_tk; [eassumption | vm_compute; reflexivity | vm_compute; reflexivity]
  | eapply heads_tks; [eassumption | vm_compute; reflexivity | vm_compute; reflexivity]
  | eapply starts_kw; [eassumption | vm_compute; reflexivity]
  | eapply starts_kws; [eassumption | vm_compute; reflexivity]
  | eapply starts_tk; [eassumption | vm_compute; reflexivity]
  | eapply starts_tks; [eassumption | vm_compute; reflexivity]
  | eapply starts_exhausted; eassumption
  | eapply plain_kw; [eassumption | vm_compute; reflexivity]
  | eapply table_kw; [eassumption | vm_compute; reflexivity]
  | eapply plain_tk; eassumption
  | eapply string_tk; eassumption
  | eapply string_not; eassumption
  | eassumption
  | match goal with H : forall i, _ = _ |- _ => apply H end ].
Ltac ends0_in := first [ exact I | eapply heads_incl; [eassumption | vm_compute; reflexivity] | cbn; tauto ].

(** ** Clauses *)
Lemma X_table {A} e l id ts (f : expr -> prog A) Q : table e l -> (forall i, tk (here (st i ts)) "." = false) ->
  (forall e' i, ok e' e -> Ends (f e') (st i ts) Q) -> Ends (do x <- parseTableIdentifier ;; f x) (st id (toks l ++ ts)) Q.
Proof.
  intros H Hd Hf. apply E_bind. unfold parseTableIdentifier. destruct H as [e t H|d t e u H He].
  - nrm. cbn [app]. eapply E_bind, E_mono; [eapply string_ident; [apply H|eapply plain_ident, H]|]. intros n s' ([E1 E2] & i & ->). unfold tryParseDotIdentOrString. stp. stp. apply E_ret. cbn [is_nil negb].
    apply E_ret, Hf. split; [cbn [strip]; congruence|exact E2].
  - nrm. cbn [app]. eapply E_bind, E_mono; [eapply string_ident; [apply H|eapply plain_ident, H]|]. intros n s' ([E1 E2] & i & ->). unfold tryParseDotIdentOrString. apply E_bind. stp. cbv beta iota.
    eapply E_mono; [apply any_string_ident, He|]. intros x s' (Hx & j & ->). rewrite (ok_nil _ _ Hx). cbn [negb]. apply E_ret, Hf. destruct Hx as [E3 E4]. split; [cbn [strip]; congruence|exact E4].
Qed.
Lemma X_plain {A} e t id r (f : expr -> prog A) Q : plain_name e t -> (forall e', ok e' e -> Ends (f e') (st (S id) r) Q) -> Ends (do x <- parseIdent ;; f x) (st id (t :: r)) Q.
Proof. intros H. eapply ident_tok; [apply H|eapply plain_ident, H]. Qed.
Lemma X_string {A} e t id r (f : expr -> prog A) Q : string_lit e t -> (forall e' i, ok e' e -> Ends (f e') (st i r) Q) -> Ends (do x <- parseStringHere ;; f x) (st id (t :: r)) Q.
Proof. intros H Hf. apply E_bind. unfold parseStringHere. apply X_pos. eapply E_mono; [apply string_pos, H|]. intros x s' (Hx & i & ->). now apply Hf. Qed.
Lemma X_cluster {A} c l id ts (f : expr -> prog A) Q : cluster c l -> (forall i, kw (here (st i ts)) "ON" = false) ->
  (forall c' i, okn c' c -> Ends (f c') (st i ts) Q) -> Ends (do x <- tryParseClusterClause ;; f x) (st id (toks l ++ ts)) Q.
Proof.
  intros H Ho Hf. apply E_bind. unfold tryParseClusterClause. destruct H as [|p e t H|p e t H]; wds; nrm; cbn [app].
  - repeat stp. apply E_ret, Hf, okn_nil.
  - repeat stp. apply E_bind. eapply E_mono; [eapply ident_tok_end; [apply H|eapply plain_ident, H]|]. intros x s' ([E1 E2] & i & ->). apply E_ret, Hf. split; [cbn [strip]; congruence|]. right. exact E2.
  - repeat stp. apply E_bind. unfold parseStringHere. apply X_pos. eapply E_mono; [apply string_pos, H|]. intros x s' ([E1 E2] & i & ->). apply E_ret, Hf. split; [cbn [strip]; congruence|]. right. exact E2.
Qed.
Lemma X_modifier {A} m l id ts (f : string -> prog A) Q : modifier m l -> (forall i k, kw (here (st i ts)) k = false) ->
  (forall i, Ends (f m) (st i ts) Q) -> Ends (do x <- tryParseModifier ;; f x) (st id (toks l ++ ts)) Q.
Proof.
  intros H Ho Hf. apply E_bind. unfold tryParseModifier, ifKw. destruct H; wds; nrm; cbn [app].
  - apply X_tryKw_no; [apply Ho|]. apply X_tryKw_no; [apply Ho|]. apply E_ret, Hf.
  - repeat stp. apply E_ret, Hf.
  - repeat stp. apply E_ret, Hf.
Qed.
Lemma X_if {A} (i : bool) id ts (f : bool -> prog A) Q : (forall j, kw (here (st j ts)) "IF" = false) ->
  (forall j, Ends (f i) (st j ts) Q) -> Ends (do x <- tryParseIfExists ;; f x) (st id (toks (flag i ["IF"; "EXISTS"]) ++ ts)) Q.
Proof. intros H Hf. apply E_bind. unfold tryParseIfExists. destruct i; wds; nrm; cbn [app]; repeat stp; apply E_ret, Hf. Qed.
Lemma X_flag {A} (b : bool) w id ts (f : bool -> prog A) Q : k1 (K w) w = true -> (forall j, kw (here (st j ts)) w = false) ->
  (forall j, Ends (f b) (st j ts) Q) -> Ends (do x <- tryKw w ;; f x) (st id (toks (flag b [w]) ++ ts)) Q.
Proof. intros Hw H Hf. destruct b; wds; nrm; cbn [app]; [apply X_tryKw_yes|apply X_tryKw_no]; auto. Qed.

Lemma no_id_kw e l id ts : XP e l -> no_id l -> kw (here (st id (toks l ++ ts))) "ID" = false.
Proof.
  intros ((t & r & E & _) & _) Hn. specialize (Hn t r E). rewrite E. cbn [app]. rewrite here_cons, kw_at. unfold k1, equal_fold. destruct (String.eqb_spec (t_kind t) KKeyword) as [Ek|]; [|reflexivity]. cbn [andb].
  destruct (String.eqb_spec (upper (t_str t)) (upper "ID")) as [E'|]; [|reflexivity]. now destruct (Hn Ek).
Qed.
Lemma XP_starts e l : XP e l -> starts l.
Proof. now intros [H _]. Qed.
Lemma X_partition1 {A} e l id ts (f : expr -> prog A) Q : partition_expr e l -> All respects e -> heads ends0 ts -> (forall i, kw (here (st i ts)) "PARTITION" = false) ->
  (forall c' i, okn c' e -> Ends (f c') (st i ts) Q) -> Ends (do x <- tryParsePartitionClause ;; f x) (st id (toks l ++ ts)) Q.
Proof.
  intros H Ha Ht Hp Hf. apply E_bind. unfold tryParsePartitionClause, whenKw. destruct H as [|p e l H Hi]; nrm; cbn [app].
  - repeat stp. apply E_ret, Hf, okn_nil.
  - kids. assert (HX : XP e l) by now apply (proj1 all_claims _ _ _ H). assert (Hst := XP_starts _ _ HX). stp. stp. unfold parsePartitionClause, ifKw. stp.
    apply X_tryKw_no; [eapply no_id_kw; eassumption|]. cbv iota. stp. eapply E_use; [apply expr_here, HX|exact Ht|]. intros x i [E1 E2]. apply E_ret, Hf. split; [cbn [strip]; congruence|]. right. exact E2.
Qed.
Lemma X_partition {A} e l id ts (f : expr -> prog A) Q : partition e l -> All respects e -> heads [O ";"] ts ->
  (forall c' i, strip c' = strip e -> Ends (f c') (st i ts) Q) -> Ends (do x <- tryParsePartitionClause ;; f x) (st id (toks l ++ ts)) Q.
Proof.
  intros H Ha Hts Hf. destruct H as [e l H|p].
  - eapply X_partition1; [exact H|exact Ha|eapply heads_incl; [exact Hts|reflexivity]|intros; slv|]. intros c i [E _]. now apply Hf.
  - apply E_bind. unfold tryParsePartitionClause, whenKw, parsePartitionClause, ifKw. wds. nrm. cbn [app]. repeat stp. apply E_ret. now apply Hf.
Qed.

Lemma columns_run e l id ts : columns e l -> All respects e -> heads ends2 ts ->
  Ends parseColumnExprList (st id (toks l ++ ts)) (fun c s' => okn c e /\ is_nil c = false /\ exists i, s' = st i ts).
Proof.
  intros [p q d es ls H Hn] Ha Ht. kids. apply (proj2 all_claims) in H; [|assumption]. unfold parseColumnExprList. apply X_pos.
  replace (toks ((if d then [T (K "DISTINCT"); Sp] else []) ++ sep_by comma ls) ++ ts) with ((if d then [K "DISTINCT"] else []) ++ toks (sep_by comma ls) ++ ts) by (destruct d; nrm; reflexivity).
  eapply E_mono; [apply (column_list None d _ es ls); [auto|exact H|exact Ht|auto]|]. intros x s' ((q' & es' & -> & He) & i & ->). split; [|eauto]. split; [cbn [strip]; now rewrite (oks_strip _ _ He)|]. right. discriminate.
Qed.
Lemma X_dedup {A} e l id ts (f : expr -> prog A) Q : deduplicate e l -> All respects e -> heads [O ";"] ts ->
  (forall c' i, okn c' e -> Ends (f c') (st i ts) Q) -> Ends (do x <- tryParseDeduplicateClause ;; f x) (st id (toks l ++ ts)) Q.
Proof.
  intros H Ha Hts Hf. apply E_bind. unfold tryParseDeduplicateClause, whenKw, parseDeduplicateClause, ifKw. destruct H as [|p|p b lb H|p b lb x lx H Hx]; wds; nrm; cbn [app].
  - repeat stp. apply E_ret, Hf, okn_nil.
  - repeat stp. apply E_ret, Hf. split; [reflexivity|]. right. discriminate.
  - kids. repeat stp. eapply E_bind, E_mono; [eapply columns_run; [exact H|assumption|eapply heads_incl; [exact Hts|reflexivity]]|]. intros c s' ([E1 E2] & En & i & ->). repeat stp. apply E_ret. apply E_ret, Hf. split; [cbn [strip]; congruence|]. right. cbn [end_of].
    rewrite En in *. cbn [negb]. destruct E2; [discriminate|assumption].
  - kids. repeat stp. eapply E_bind, E_mono; [eapply columns_run; [exact H|assumption|cbn; tauto]|]. intros c s' ([E1 E2] & En & i & ->). apply E_bind. stp. cbv iota.
    eapply E_mono; [eapply columns_run; [exact Hx|assumption|eapply heads_incl; [exact Hts|reflexivity]]|]. intros c' s' ([E3 E4] & _ & j & ->). apply E_ret, Hf. split; [cbn [strip]; congruence|]. right. cbn [end_of].
    rewrite En in *. cbn [negb]. destruct E2; [discriminate|assumption].
Qed.

(** ** INSERT *)
Lemma closed_items p (F : list tok -> Prop) ts : (forall r, F (O "," :: r)) -> (forall r, F (O ")" :: r)) ->
  forall es ls, Forall2 (fun e l => (exists t r, toks l = t :: r /\ t1 t [")"] = false) /\ parses p e l F) es ls ->
  forall e l acc acc0 id, (exists t r, toks l = t :: r /\ t1 t [")"] = false) -> parses p e l F -> Forall2 ok acc acc0 ->
    Ends (loop acc (fun acc => do e <- eof_ ;; if e then Ret (inr acc) else do r <- tryTkb ")" ;; if r then Ret (inr acc) else do x <- p ;; do c <- tryTkb "," ;; Ret (if c then inl (acc ++ [x]) else inr (acc ++ [x]))))
      (st id (toks (sep_by comma (l :: ls)) ++ O ")" :: ts)) (Gots (acc0 ++ e :: es) (O ")" :: ts)).
Proof.
  intros HF1 HF2 es ls H. induction H as [|e2 l2 es ls [Hst2 Hp2] H IH]; intros e l acc acc0 id (t & r & E & Ht) Hp Hacc; apply E_loop1.
  - cbn [sep_by]. assert (Hp' := fun i => Hp i (O ")" :: ts) (HF2 ts)). rewrite E in *. cbn [app] in *. unfold eof_. apply E_bind, E_cur, E_ret. rewrite here_cons. cbn [it_eof item_at].
    destruct (r ++ O ")" :: ts) as [|u r'] eqn:Er; [destruct r; discriminate Er|]. stp. eapply E_bind, E_mono; [apply Hp'|]. intros e' s' (He & i & ->). stp. apply E_ret. split; [|eauto]. apply Forall2_app; auto.
  - rewrite sep_cons. unfold comma at 1. nrm. assert (Hp' := fun i => Hp i (O "," :: toks (sep_by comma (l2 :: ls)) ++ O ")" :: ts) (HF1 _)). rewrite E in *. cbn [app] in *. unfold eof_. apply E_bind, E_cur, E_ret. rewrite here_cons. cbn [it_eof item_at].
    destruct (r ++ O "," :: toks (sep_by comma (l2 :: ls)) ++ O ")" :: ts) as [|u r'] eqn:Er; [destruct r; discriminate Er|]. stp. eapply E_bind, E_mono; [apply Hp'|]. intros e' s' (He & i & ->). stp. apply E_ret.
    replace (acc0 ++ e :: e2 :: es) with ((acc0 ++ [e]) ++ e2 :: es) by now rewrite <- app_assoc. apply IH; [assumption..|]. apply Forall2_app; auto.
Qed.
Lemma closed_list p (F : list tok -> Prop) es ls id ts : (forall r, F (O "," :: r)) -> (forall r, F (O ")" :: r)) -> es <> [] ->
  Forall2 (fun e l => (exists t r, toks l = t :: r /\ t1 t [")"] = false) /\ parses p e l F) es ls ->
  Ends (closedLoop p) (st id (toks (sep_by comma ls) ++ O ")" :: ts)) (Gots es (O ")" :: ts)).
Proof. intros H1 H2 Hn H. unfold closedLoop. destruct H as [|e l es ls [Hst Hp] H]; [congruence|]. apply (closed_items p F) with (acc0 := []); auto. Qed.

Lemma column_name_run e l : column_name e l -> (exists t r, toks l = t :: r /\ t1 t [")"] = false) /\ parses parseNestedIdentifier e l (heads [O ","; O ")"]).
Proof.
  assert (Hk : forall e t, plain_name e t -> t1 t [")"] = false).
  { intros d t [H _]. unfold t1. destruct (name_kind _ _ H) as [E|E]; rewrite E; cbn; [|reflexivity]. now rewrite ?andb_false_r. }
  intros H. split; [destruct H; nrm; eauto|]. intros id ts Ht. unfold parseNestedIdentifier, tryParseDotIdent. destruct H as [e t H|d t e u H He]; nrm; cbn [app].
  - eapply X_plain; [exact H|]. intros x [E1 E2]. stp. stp. apply E_ret. cbn [is_nil negb]. apply E_ret. split; [split; [cbn [strip]; congruence|exact E2]|eauto].
  - eapply X_plain; [exact H|]. intros x [E1 E2]. stp. stp. cbv iota. eapply E_mono; [apply any_keyword_end, He|]. intros y s' (Hy & i & ->). rewrite (ok_nil _ _ Hy). cbn [negb]. destruct Hy as [E3 E4]. apply E_ret. split; [|eauto]. split; [cbn [strip]; congruence|]. cbn [end_of]. rewrite (ok_nil y e) by (split; assumption). exact E4.
Qed.
Lemma X_ins_columns {A} e l id ts (f : expr -> prog A) Q : insert_columns e l -> (forall i, tk (here (st i ts)) "(" = false) ->
  (forall c' i, strip c' = strip e -> Ends (f c') (st i ts) Q) -> Ends (do it <- cur_item ;; do x <- (if tk it "(" then parseColumnNamesExpr else Ret ENil) ;; f x) (st id (toks l ++ ts)) Q.
Proof.
  intros H Ht Hf. destruct H as [|p q es ls H Hn]; unfold paren; nrm; cbn [app]; apply X_cur.
  - rewrite Ht. now apply X_ret, Hf.
  - apply E_bind. tst. unfold parseColumnNamesExpr. repeat stp. eapply E_bind, E_mono; [eapply (closed_list parseNestedIdentifier (heads [O ","; O ")"])); [now left|now (right; left)|exact Hn|]|].
    + eapply Forall2_imp; [|exact H]. intros; now apply column_name_run.
    + intros es' s' (He & i & ->). repeat stp. apply E_ret, Hf. cbn [strip]. now rewrite (oks_strip _ _ He).
Qed.

Definition value_prog : prog expr :=
  do it <- cur_item ;;
  if tk it "(" then parseAssignmentValues (ipos it)
  else if tk it "{" then parseTypedPlaceholder
  else parseExprHere.
Definition RowP (e : expr) (l : list sym) : Prop := (exists t r, toks l = O "(" :: t :: r) /\ forall p, parses (parseAssignmentValues p) e l (fun _ => True).
Definition ValP (e : expr) (l : list sym) : Prop := (exists t r, toks l = t :: r /\ t1 t [")"] = false) /\ parses value_prog e l (heads ends0).

Lemma row_ok p q es ls : Forall2 ValP es ls -> es <> [] -> RowP (EAssignmentValues p q es) (paren (sep_by comma ls)).
Proof.
  intros H Hn. split; [unfold paren; nrm; destruct (toks (sep_by comma ls)); cbn [app]; eauto|]. intros p0 id ts _. unfold parseAssignmentValues, paren. apply E_call. cbn [body]. unfold body_AssignValues. nrm. cbn [app]. stp.
  eapply E_bind, E_mono; [eapply (closed_list value_prog (heads ends0)); [cbn; tauto|cbn; tauto|exact Hn|exact H]|].
  intros es' s' (He & i & ->). repeat stp. apply E_ret. apply E_got. split; [cbn [strip]; now rewrite (oks_strip _ _ He)|discriminate].
Qed.
Lemma row_val e l : RowP e l -> ValP e l.
Proof.
  intros [(u & r & E) H]. split; [exists (O "("), (u :: r); split; [exact E|reflexivity]|]. intros id ts _. unfold value_prog. apply X_cur.
  replace (tk (here (st id (toks l ++ ts))) "(") with true by (rewrite E; reflexivity). now apply H.
Qed.
Lemma values_run : (forall e l, value e l -> All respects e -> ValP e l) /\ (forall es ls, values es ls -> Forall (All respects) es -> Forall2 ValP es ls).
Proof.
  apply value_mut.
  - intros e l H Hn Ha. assert (HX : XP e l) by now apply (proj1 all_claims _ _ _ H). destruct (XP_starts _ _ HX) as (t & r & E & Ht). split; [exists t, r; split; [exact E|]; now apply start_tks|].
    intros id ts Hts. unfold value_prog. apply X_cur. assert (Hst := XP_starts _ _ HX). assert (Hp : tk (here (st id (toks l ++ ts))) "(" = false).
    { rewrite E. cbn [app]. rewrite here_cons, tk_at. specialize (Hn t r E). unfold t1. cbn [str_in existsb]. destruct (String.eqb_spec (t_kind t) "("); [congruence|]. cbn. now rewrite ?andb_false_r. }
    rewrite Hp. tst. now apply expr_here.
  - intros p q es ls H IH Hn Ha. kids. apply row_val. now apply row_ok.
  - constructor.
  - intros e l es ls H IH1 H2 IH2 Ha. inversion Ha; subst. constructor; auto.
Qed.
Lemma row_run e l : row e l -> All respects e -> RowP e l.
Proof. intros [p q es ls H Hn] Ha. kids. apply row_ok; [now apply values_run|exact Hn]. Qed.
Lemma rows_run es ls : Forall2 row es ls -> Forall (All respects) es -> Forall2 RowP es ls.
Proof. induction 1; intros Ha; [constructor|]. inversion Ha; subst. constructor; auto. now apply row_run. Qed.

Lemma rows_loop es ls ts : heads [O ";"] ts -> Forall2 RowP es ls -> forall e l acc acc0 id, RowP e l -> Forall2 ok acc acc0 ->
  Ends (loop acc (fun acc => do it <- cur_item ;; if it_eof it then Ret (inr acc) else do x <- (do q <- pos_ ;; parseAssignmentValues q) ;; do c <- tryTkb "," ;; Ret (if c then inl (acc ++ [x]) else inr (acc ++ [x]))))
    (st id (toks (sep_by comma (l :: ls)) ++ ts)) (Gots (acc0 ++ e :: es) ts).
Proof.
  intros Hts.
  assert (Hgo : forall e l ts i, RowP e l -> Ends (do q <- pos_ ;; parseAssignmentValues q) (st i (toks l ++ ts)) (Got e ts)) by (intros e l ts1 i [_ H]; apply X_pos, H, I).
  assert (Hlong : forall e l ts i, RowP e l -> it_eof (here (st i (toks l ++ ts))) = false) by (intros e l ts1 i [(u & r & ->) H]; reflexivity).
  induction 1 as [|e2 l2 es ls H2 H IH]; intros e l acc acc0 id He Hacc; apply E_loop1; apply X_cur.
  - cbn [sep_by]. rewrite (Hlong e) by assumption. eapply E_bind, E_mono; [apply Hgo, He|]. intros e' s' (He' & i & ->). stp. apply E_ret. split; [|eauto]. apply Forall2_app; auto.
  - rewrite sep_cons. unfold comma at 1 2. nrm. rewrite (Hlong e) by assumption. eapply E_bind, E_mono; [apply Hgo, He|]. intros e' s' (He' & i & ->). stp. apply E_ret.
    replace (acc0 ++ e :: e2 :: es) with ((acc0 ++ [e]) ++ e2 :: es) by now rewrite <- app_assoc. apply IH; [assumption|]. apply Forall2_app; auto.
Qed.

(** ** Statements *)
Definition Fin (ts : list tok) (e : expr) : expr -> pstate -> Prop := fun e' s' => strip e' = strip e /\ exists i, s' = st i ts.
Ltac fin := apply E_ret; split; [cbn [strip map K t_str]; congruence|eauto].

Lemma X_ins_source {A} f0 vs q l id ts (f : expr * list expr * expr -> prog A) Q : insert_source f0 vs q l -> All respects f0 -> Forall (All respects) vs -> All respects q -> heads [O ";"] ts ->
  (forall f1 vs1 q1 i, strip f1 = strip f0 -> map strip vs1 = map strip vs -> strip q1 = strip q -> Ends (f (f1, vs1, q1)) (st i ts) Q) ->
  Ends (do it <- cur_item ;; do x <- 
    (if kw it "FORMAT" then do f <- parseFormat (ipos it) ;; Ret (f, [], ENil)
     else if kw it "VALUES" then
       do! skip ;;
       do values <- commaLoop it_eof (do q <- pos_ ;; parseAssignmentValues q) ;;
       Ret (ENil, values, ENil)
     else if kw it "SELECT" then do s <- parseSelectQuery ;; Ret (ENil, [], s)
     else Ret (ENil, [], ENil)) ;; f x) (st id (toks l ++ ts)) Q.
Proof.
  intros H A1 A2 A3 Hts Hf. destruct H as [|p n t H|es ls H Hn|q l r H E]; nrm; cbn [app]; apply X_cur.
  - repeat stp. now apply Hf.
  - apply E_bind. tst. unfold parseFormat. stp. stp. eapply X_plain; [exact H|]. intros x [E1 E2]. apply E_ret. apply E_ret, Hf; cbn [strip]; congruence.
  - apply E_bind. tst. tst. stp. unfold commaLoop. apply (rows_run es ls H) in A2. destruct A2 as [|e l es ls He A2]; [congruence|].
    eapply E_bind, E_mono; [eapply (rows_loop es ls ts Hts A2 e l [] [] _ He); constructor|]. intros es' s' (Hes & i & ->). apply E_ret, Hf; [reflexivity|now apply oks_strip|reflexivity].
  - assert (HQ : QP q l) by now apply (proj1 all_claims _ _ _ H). assert (Hq := query_plain _ _ HQ id ts (heads_incl _ [O ")"; O ";"] _ Hts eq_refl)). rewrite E in *. cbn [app] in *. apply E_bind. repeat tst. eapply E_bind, E_mono; [exact Hq|].
    intros x s' ([E1 E2] & i & ->). apply E_ret, Hf; congruence.
Qed.
(** What follows a clause. *)
Lemma heads_cluster c l C ts : cluster c l -> heads C ts -> heads (K "ON" :: C) (toks l ++ ts).
Proof. intros [|p e t H|p e t H] Ht; wds; nrm; cbn [app]; [now apply heads_cons|now left|now left]. Qed.
Lemma heads_modifier m l C ts : modifier m l -> heads C ts -> heads (K "SYNC" :: K "NO" :: C) (toks l ++ ts).
Proof. intros [] Ht; wds; nrm; cbn [app]; [now apply heads_cons, heads_cons|now left|now (right; left)]. Qed.
Lemma heads_partition1 e l C ts : partition_expr e l -> heads C ts -> heads (K "PARTITION" :: C) (toks l ++ ts).
Proof. intros [|p e' l' H Hi] Ht; nrm; cbn [app]; [now apply heads_cons|now left]. Qed.
Lemma heads_partition e l C ts : partition e l -> heads C ts -> heads (K "PARTITION" :: C) (toks l ++ ts).
Proof. intros [e' l' H|p] Ht; [eapply heads_partition1; eassumption|]. wds. nrm. now left. Qed.
Lemma heads_dedup e l C ts : deduplicate e l -> heads C ts -> heads (K "DEDUPLICATE" :: C) (toks l ++ ts).
Proof. intros [|p|p b lb H|p b lb x lx H Hx] Ht; wds; nrm; cbn [app]; [now apply heads_cons|now left..]. Qed.
Lemma heads_flag b w C ts : heads C ts -> heads (K w :: C) (toks (flag b [w]) ++ ts).
Proof. intros Ht. destruct b; wds; nrm; cbn [app]; [now left|now apply heads_cons]. Qed.
Lemma heads_ins_columns e l C ts : insert_columns e l -> heads C ts -> heads (O "(" :: C) (toks l ++ ts).
Proof. intros [|p q es ls H Hn] Ht; unfold paren; nrm; cbn [app]; [now apply heads_cons|now left]. Qed.
Lemma heads_source f vs q l ts : insert_source f vs q l -> heads [O ";"] ts -> heads [K "FORMAT"; K "VALUES"; K "SELECT"; O ";"] (toks l ++ ts).
Proof. intros [|p n t H|es ls H Hn|q' l' r H E] Hts; nrm; cbn [app]; [eapply heads_incl; [exact Hts|reflexivity]|now left|now (right; left)|]. rewrite E. cbn [app heads]. cbn. tauto. Qed.
Lemma heads_limit_ e l C ts : show_limit e l -> heads C ts -> heads (K "LIMIT" :: C) (toks l ++ ts).
Proof. intros [|e' l' H] Ht; nrm; cbn [app]; [now apply heads_cons|now left]. Qed.
Lemma heads_after w ws e l C ts : after_words (w :: ws) e l -> heads C ts -> heads (K w :: C) (toks l ++ ts).
Proof.
  intros [|e' t H] Ht; nrm; cbn [app]; [now apply heads_cons|]. unfold words. cbn [map]. destruct ws as [|w' ws]; [cbn [map sep_by]; nrm; now left|]. cbn [map]. rewrite sep_cons. nrm. now left.
Qed.

Lemma pair_run e l : pair e l -> parses parseTargetPair e l (heads [O ","; K "ON"; O ";"]).
Proof.
  intros [a la b lb Ha Hb] id ts Ht. unfold parseTargetPair. nrm. eapply X_table; [exact Ha|reflexivity|]. intros x i [E1 E2]. stp. eapply X_table; [exact Hb|intros; slv|]. intros y j [E3 E4].
  apply E_got. split; [cbn [strip]; congruence|exact E4].
Qed.
Lemma system_run {A} e l id ts (f : expr -> prog A) Q : system e l -> heads [O ";"] ts -> (forall e' i, strip e' = strip e -> Ends (f e') (st i ts) Q) ->
  Ends (do it <- cur_item ;; do x <-
    (if kw it "FLUSH" then parseSystemFlushExpr (ipos it)
     else if kw it "RELOAD" then parseSystemReloadExpr (ipos it)
     else if kw it "SYNC" then parseSystemSyncExpr (ipos it)
     else if kws it ["START"; "STOP"] then parseSystemCtrlExpr (ipos it)
     else if kw it "DROP" then parseSystemDropExpr (ipos it)
     else Fail (Msg "expected FLUSH|RELOAD|SYNC|START|STOP")) ;; f x) (st id (toks l ++ ts)) Q.
Proof.
  intros H Hts Hf. destruct H as [p q|p q ws c lc Hw H|p q c lc d ld H Hd|p q w Hw H|p q]; apply X_cur; apply E_bind.
  - wds. nrm. cbn [app]. repeat tst. unfold parseSystemFlushExpr. repeat stp. now apply E_ret, Hf.
  - destruct Hw as [<-|[<-|[]]]; wds; nrm; cbn [app]; repeat tst; unfold parseSystemReloadExpr, ifKw.
    + repeat stp. apply E_ret. cbv beta iota. eapply X_cluster; [exact H|intros; slv|]. intros c' i [E1 E2]. apply X_endOr; [exact E2|]. intros pe. cbv iota. apply X_ret. apply E_ret, Hf. cbn [strip String.concat append]. congruence.
    + repeat stp. unfold curEnd. apply E_bind, E_cur. rewrite here_cons. cbn [it_tok item_at]. apply E_ret. stp. apply E_ret. cbv beta iota. eapply X_cluster; [exact H|intros; slv|]. intros c' i [E1 E2]. apply X_endOr; [exact E2|]. intros pe. cbv iota. apply X_ret. apply E_ret, Hf. cbn [strip String.concat append]. congruence.
  - wds. nrm. cbn [app]. repeat tst. unfold parseSystemReloadExpr. repeat stp. apply E_ret. cbv beta iota. eapply X_cluster; [exact H|intros; slv|]. intros c' i [E1 E2]. apply X_endOr; [exact E2|]. intros pe. cbv iota. apply E_bind.
    eapply X_table; [exact Hd|intros; slv|]. intros d' j [E3 E4]. apply X_endOf; [exact E4|]. intros pe2. destruct (is_nil c') eqn:En.
    + unfold tryParseClusterClause. stp. repeat stp. apply E_ret. apply X_endOr; [auto|]. intros pe3. apply E_ret. apply E_ret, Hf. assert (Ec : strip c' = ENil) by (destruct c'; try discriminate En; reflexivity). cbn [strip]. congruence.
    + apply E_ret. apply E_ret, Hf. cbn [strip]. congruence.
  - wds. nrm. cbn [app].
    assert (Hk : forall k, str_in (upper k) ["DNS"; "MARK"; "UNCOMPRESSED"; "FILESYSTEM"; "QUERY"] = true -> True) by auto. clear Hk.
    repeat tst. unfold parseSystemDropExpr. stp. stp.
    assert (Hs : kws (here (st (S id) (K w :: K "CACHE" :: ts))) ["DNS"; "MARK"; "UNCOMPRESSED"; "FILESYSTEM"; "QUERY"] = true).
    { rewrite here_cons. change (existsb (k1 (K w)) ["DNS"; "MARK"; "UNCOMPRESSED"; "FILESYSTEM"; "QUERY"] = true). apply existsb_exists. exists (upper w). split; [exact H|]. unfold k1, equal_fold. cbn [K t_kind t_str]. cbn [String.eqb andb].
      repeat (destruct H as [<-|H]; [reflexivity|]). destruct H. }
    rewrite Hs. repeat stp. apply E_ret, Hf. reflexivity.
  - wds. nrm. cbn [app]. repeat tst. unfold parseSystemDropExpr. repeat stp. now apply E_ret, Hf.
Qed.

