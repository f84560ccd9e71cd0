(** Running the parser over a canonical FROM clause. *)
From Coq Require Import String List Arith Bool Lia.
From Verif Require Import Str Keyword Lexer LexGrammar LexTokens Ast AstPos AstSubs Strip StripFacts Prog RunFacts FuelFacts ParserCommon ParserExpr ParserQuery Parser Exec PrecSpec RoundSpec RoundExec RoundBase RoundExpr RoundOps RoundPrim RoundClause.
Import ListNotations.
Local Open Scope string_scope.
Local Open Scope list_scope.
Local Open Scope nat_scope.

(** ** Queries *)

(** A query without the optional parentheses around it. *)
Definition query_core : prog expr :=
  do selectStmt <- parseSelectStmt ;;
  do u <- tryKw "UNION" ;;
  if u then
    do a <- tryKw "ALL" ;;
    if a then do e <- parseSelectQuery ;; Ret (selectStmt e ENil ENil ENil)
    else
      do d <- tryKw "DISTINCT" ;;
      if d then do e <- parseSelectQuery ;; Ret (selectStmt ENil e ENil ENil)
      else Fail (Msg "expected ALL or DISTINCT, got %s")
  else
    do x <- tryKw "EXCEPT" ;;
    if x then do e <- parseSelectQuery ;; Ret (selectStmt ENil ENil e ENil)
    else
      do i <- tryKw "INTERSECT" ;;
      if i then do e <- parseSelectQuery ;; Ret (selectStmt ENil ENil ENil e)
      else Ret (selectStmt ENil ENil ENil ENil).
Definition QP (e : expr) (l : list sym) : Prop :=
  is_nil e = false /\ (exists r, toks l = K "SELECT" :: r \/ toks l = K "WITH" :: r) /\ parses query_core e l (heads [O ")"; O ";"]).

Lemma Ends_eq {A} (p q : prog A) s Q : (forall f, run body f p s = run body f q s) -> Ends q s Q -> Ends p s Q.
Proof. intros H (f0 & a & s' & Hr & HQ). exists f0, a, s'. split; [|exact HQ]. intros f Hf. rewrite H. auto. Qed.
Lemma E_bind_inv {A B} (p : prog A) (q : A -> prog B) s Q : Ends (bind p q) s Q -> Ends p s (fun a s' => Ends (q a) s' Q).
Proof.
  intros (f0 & b & s2 & H & HQ). pose proof (H f0 (le_n _)) as H0. rewrite run_bind in H0. destruct (run body f0 p s) as [a s'| | |] eqn:E; cbn [andThen] in H0; try discriminate H0.
  assert (Hm : forall f, f0 <= f -> run body f p s = ROk a s').
  { intros f Hf. rewrite <- E. replace f with (f0 + (f - f0)) by lia. apply run_more. congruence. }
  exists f0, a, s'. split; [exact Hm|].
  exists f0, b, s2. split; [|exact HQ]. intros f Hf. specialize (H f Hf). rewrite run_bind, (Hm f Hf) in H. exact H.
Qed.
Lemma then_assoc {A B C} (r : outcome A) (g : A -> pstate -> outcome B) (h : B -> pstate -> outcome C) :
  andThen (andThen r g) h = andThen r (fun a s => andThen (g a s) h).
Proof. destruct r; reflexivity. Qed.
Lemma then_ext {A B} (r : outcome A) (g h : A -> pstate -> outcome B) : (forall a s, g a s = h a s) -> andThen r g = andThen r h.
Proof. intros H. destruct r; cbn; auto. Qed.

Lemma query_plain e l : QP e l -> parses parseSelectQuery e l (heads [O ")"; O ";"]).
Proof.
  intros (_ & (r & E) & H) id ts Hts. unfold parseSelectQuery. apply E_call. cbn [body]. apply (E_mono _ _ (Got e ts)); [|intros x s' Hx; apply E_ret, Hx]. unfold body_SelectQuery. apply X_cur. specialize (H id ts Hts).
  assert (Hg : Ends (do q <- query_core ;; do! Ret tt ;; Ret q) (st id (toks l ++ ts)) (Got e ts)).
  { apply E_bind. eapply E_mono; [exact H|]. intros x s' Hx. apply X_ret, E_ret, Hx. }
  assert (Ht : tk (here (st id (toks l ++ ts))) "(" = false) by (destruct E as [E|E]; rewrite E; reflexivity).
  assert (Hk : negb (kw (here (st id (toks l ++ ts))) "SELECT") && negb (kw (here (st id (toks l ++ ts))) "WITH") = false) by (destruct E as [E|E]; rewrite E; reflexivity).
  rewrite Hk. cbn [andb]. apply X_tryTk_no; [exact Ht|]. cbv beta iota.
  eapply Ends_eq; [|exact Hg].
  intros f. unfold query_core. rewrite !run_bind, !then_assoc. apply then_ext. intros a s1. rewrite !run_bind, !then_assoc. apply then_ext. intros b s2. now rewrite !run_bind.
Qed.
Lemma query_paren e l : QP e l -> parses parseSelectQuery e (paren l) (fun _ => True).
Proof.
  intros (_ & _ & H) id ts _. unfold parseSelectQuery. apply E_call. cbn [body]. apply (E_mono _ _ (Got e ts)); [|intros x s' Hx; apply E_ret, Hx]. unfold body_SelectQuery, paren. nrm. apply X_cur. rewrite here_cons, !kw_at, !tk_at. cbv beta. change (t1 (O "(") ["("]) with true. cbn [negb]. rewrite andb_false_r. stp. cbn [app].
  specialize (H (S id) (O ")" :: ts) (or_introl eq_refl)).
  assert (Hg : Ends (do q <- query_core ;; do! expTk ")" ;; Ret q) (st (S id) (toks l ++ O ")" :: ts)) (Got e ts)).
  { apply E_bind. eapply E_mono; [exact H|]. intros x s' (Hx & i & ->). stp. apply E_got, Hx. }
  eapply Ends_eq; [|exact Hg].
  intros f. unfold query_core. rewrite !run_bind, !then_assoc. apply then_ext. intros a s1. rewrite !run_bind, !then_assoc. apply then_ext. intros b s2. now rewrite !run_bind.
Qed.
Lemma subquery_ok e l : QP e l -> parses parseSubQuery (ESubQuery true e) (paren l) (fun _ => True).
Proof.
  intros H id ts _. unfold parseSubQuery, paren. nrm. stp. cbn [app]. eapply E_use; [apply query_plain, H|now left|]. intros q i [E1 E2]. stp. apply E_got. split; [cbn [strip]; congruence|]. cbn [end_of]. exact E2.
Qed.

(** ** Tables *)
Definition base_prog (it : item) : prog expr :=
  if tk it KString || tk it KIdent then
    do tableIdentifier <- parseTableIdentifier ;;
    do it <- cur_item ;;
    match tableIdentifier with
    | (ETableIdentifier db tbl) =>
        if negb (is_nil db) || negb (tk it "(") then Ret tableIdentifier
        else
          do q <- pos_ ;;
          do tableArgs <- parseTableArgList q ;;
          Ret (ETableFunctionExpr tbl tableArgs)
    | _ => Panic "parseTableExpr"
    end
  else if tk it "(" then parseSubQuery
  else Fail (Msg "expect table name or subquery").

Definition plain_table (e : expr) : bool := match e with ETableIdentifier _ _ | ESubQuery _ _ | EAliasExpr _ _ _ => true | _ => false end.
Lemma plain_strip e : plain_table (strip e) = plain_table e.
Proof. destruct e; reflexivity. Qed.
Lemma plain_eq e : plain_table e = true -> (exists a b, e = ETableIdentifier a b) \/ (exists a b, e = ESubQuery a b) \/ exists a b c, e = EAliasExpr a b c.
Proof. destruct e; intros H; try discriminate H; eauto 10. Qed.

Definition c_base := K "AS" :: K "FINAL" :: c_table.
Definition BaseP (e : expr) (l : list sym) : Prop :=
  plain_table e = true /\ (exists t r, toks l = t :: r /\ (t1 t [KIdent] = true \/ t = O "(")) /\
  forall id ts, heads c_base ts -> Ends (base_prog (here (st id (toks l ++ ts)))) (st id (toks l ++ ts)) (Got e ts).

Lemma any_ident e t : any_name e t -> (t_kind t = KKeyword -> is_reserved (upper (t_str t)) = false) -> t1 t [KIdent] = true.
Proof. intros H Hr. unfold t1. destruct (name_kind _ _ H) as [E|E]; rewrite E; [|reflexivity]. cbn [str_in existsb]. rewrite (Hr E). reflexivity. Qed.
Lemma string_ident e t id r : any_name e t -> t1 t [KIdent] = true -> Ends parseIdentOrString (st id (t :: r)) (Got e r).
Proof. intros He Ht. unfold parseIdentOrString. apply X_cur. rewrite here_cons, tk_at, Ht. now apply ident_tok_end. Qed.
Lemma any_string_ident e t id r : any_name e t -> Ends (do it <- cur_item ;; if tk it KKeyword then parseAnyKeyword else parseIdentOrString) (st id (t :: r)) (Got e r).
Proof.
  intros He. apply X_cur. rewrite here_cons, tk_at. destruct (name_kind _ _ He) as [E|E].
  - replace (t1 t [KKeyword]) with true by (unfold t1; now rewrite E). now apply any_keyword_end.
  - replace (t1 t [KKeyword]) with false by (unfold t1; now rewrite E). apply string_ident; [exact He|]. unfold t1. now rewrite E.
Qed.
Lemma table0_ok e t : any_name e t -> (t_kind t = KKeyword -> is_reserved (upper (t_str t)) = false) -> BaseP (ETableIdentifier ENil e) [T t].
Proof.
  intros He Hr. assert (Ht := any_ident _ _ He Hr). split; [reflexivity|]. split; [exists t, []; nrm; auto|]. intros id ts Hts. nrm. cbn [app]. unfold base_prog. rewrite here_cons, !tk_at, Ht, orb_true_r.
  unfold parseTableIdentifier. apply E_bind. eapply E_bind, E_mono; [apply (string_ident _ _ _ _ He Ht)|]. intros n s' ([E1 E2] & i & ->). unfold tryParseDotIdentOrString. stp. stp. apply E_ret. cbn [is_nil negb].
  apply E_ret. stp. cbn [is_nil negb orb]. tst. apply E_got. split; [cbn [strip]; congruence|]. exact E2.
Qed.
Lemma table1_ok d t e u : any_name d t -> (t_kind t = KKeyword -> is_reserved (upper (t_str t)) = false) -> any_name e u -> BaseP (ETableIdentifier d e) [T t; T (O "."); T u].
Proof.
  intros Hd Hr He. assert (Ht := any_ident _ _ Hd Hr). split; [reflexivity|]. split; [exists t, [O "."; u]; nrm; auto|]. intros id ts Hts. nrm. cbn [app]. unfold base_prog. rewrite here_cons, !tk_at, Ht, orb_true_r.
  unfold parseTableIdentifier. apply E_bind. eapply E_bind, E_mono; [apply (string_ident _ _ _ _ Hd Ht)|]. intros n s' ([E1 E2] & i & ->). unfold tryParseDotIdentOrString. apply E_bind. stp. cbv beta iota.
  eapply E_mono; [apply any_string_ident, He|]. intros x s' (Hx & j & ->). rewrite (ok_nil _ _ Hx). cbn [negb]. apply E_ret. apply X_cur. cbv beta iota.
  destruct (ok_ident _ _ _ Hd (conj E1 E2)) as (n0 & k & p & q & ->). cbn [is_nil negb orb]. apply E_got. destruct Hx as [E3 E4]. split; [cbn [strip] in *; congruence|]. exact E4.
Qed.
Lemma table_query_ok q l : QP q l -> BaseP (ESubQuery true q) (paren l).
Proof.
  intros H. split; [reflexivity|]. split; [unfold paren; nrm; eauto 10|]. intros id ts Hts. unfold base_prog.
  replace (tk (here (st id (toks (paren l) ++ ts))) KString || tk (here (st id (toks (paren l) ++ ts))) KIdent) with false by (unfold paren; nrm; reflexivity).
  replace (tk (here (st id (toks (paren l) ++ ts))) "(") with true by (unfold paren; nrm; reflexivity). now apply subquery_ok.
Qed.

Definition AliasedP (e : expr) (l : list sym) : Prop :=
  BaseP e l \/ exists b l' p a t, e = EAliasExpr b p a /\ l = l' ++ [Sp; T (K "AS"); Sp; T t] /\ BaseP b l' /\ any_name a t.
Lemma aliased_start e l : AliasedP e l -> exists t r, toks l = t :: r /\ (t1 t [KIdent] = true \/ t = O "(").
Proof.
  intros [(_ & H & _)|(b & l' & p & a & t & -> & -> & (_ & (t0 & r & E & H) & _) & _)]; [exact H|]. nrm. rewrite E. cbn [app]. eauto.
Qed.
Definition c_alias := K "FINAL" :: c_table.
Lemma no_bare_alias id ts : heads c_alias ts -> tk (here (st id ts)) KIdent && negb (String.eqb (cur_kind (here (st id ts))) KKeyword) = false.
Proof.
  destruct ts as [|t r]; [reflexivity|]. cbn [heads]. rewrite here_cons, tk_at. intros H. assert (Hf : forallb (fun t => negb (t1 t [KIdent] && negb (String.eqb (t_kind t) KKeyword))) c_alias = true) by (vm_compute; reflexivity).
  rewrite forallb_forall in Hf. now apply negb_true_iff, Hf.
Qed.
Lemma X_end_table {A} e' e p q id ts (f : expr -> prog A) Q (fin : bool) : heads c_table ts -> ok e' e -> plain_table e = true ->
  (forall q' i, Ends (f (ETableExpr p q' ENil e' fin)) (st i ts) Q) ->
  Ends (do x <- (do b <- tryKw "FINAL" ;;
    if b then
      match e' with
      | (ETableFunctionExpr _ _) => Fail (Msg "table function doesn't support FINAL")
      | (ESelectQuery _ _ _ _ _ _ _ _ _ _ _ _ _ _ _ _ _ _ _ _ _ _ _) => Fail (Msg "subquery doesn't support FINAL")
      | _ =>
          do tableEnd <- endOf e' ;;
          Ret (ETableExpr p tableEnd ENil e' true)
      end
    else Ret (ETableExpr p q ENil e' false)) ;; f x) (st id ((if fin then [K "FINAL"] else []) ++ ts)) Q.
Proof.
  intros Hts [E1 E2] Hp H. apply E_bind. destruct fin; cbn [app].
  - stp. cbv beta iota. rewrite <- plain_strip, <- E1, plain_strip in Hp.
    assert (Hg : Ends (do tableEnd <- endOf e' ;; Ret (ETableExpr p tableEnd ENil e' true)) (st (S id) ts) (fun a s' => Ends (f a) s' Q)) by (apply X_endOf; [exact E2|]; intros q'; apply E_ret, H).
    destruct (plain_eq _ Hp) as [(a & b & ->)|[(a & b & ->)|(a & b & c & ->)]]; exact Hg.
  - stp. apply E_ret, H.
Qed.
Definition TableP (e : expr) (l : list sym) : Prop := is_comma_join e = true /\ parses parseJoinTableExpr e l (heads c_table).
Lemma table_ok p q q' e l (fin : bool) : AliasedP e l -> TableP (EJoinTableExpr (ETableExpr p q ENil e fin) q' ENil false) (l ++ if fin then [Sp; T (K "FINAL")] else []).
Proof.
  intros H. split; [reflexivity|]. intros id ts Hts. nrm. replace (toks (if fin then [Sp; T (K "FINAL")] else [])) with (if fin then [K "FINAL"] else []) by (destruct fin; now nrm).
  unfold parseJoinTableExpr. apply X_cur.
  assert (Hs : tk (here (st id (toks l ++ (if fin then [K "FINAL"] else []) ++ ts))) KIdent || tk (here (st id (toks l ++ (if fin then [K "FINAL"] else []) ++ ts))) KString || tk (here (st id (toks l ++ (if fin then [K "FINAL"] else []) ++ ts))) "(" = true).
  { destruct (aliased_start _ _ H) as (t & r & -> & Ht). cbn [app]. rewrite here_cons, !tk_at. destruct Ht as [-> | ->]; reflexivity. }
  rewrite Hs. clear Hs. unfold parseTableExpr. apply E_bind. apply X_cur. cbv beta. generalize (ipos (here (st id (toks l ++ (if fin then [K "FINAL"] else []) ++ ts)))). intros p0.
  fold (base_prog (here (st id (toks l ++ (if fin then [K "FINAL"] else []) ++ ts)))).
  assert (Ha : heads c_alias ((if fin then [K "FINAL"] else []) ++ ts)) by (destruct fin; cbn [app]; [now left|inc]).
  assert (Hend : forall e' q1 i, ok e' e -> plain_table e = true -> Ends (do b <- tryKw "FINAL" ;;
    if b then
      match e' with
      | (ETableFunctionExpr _ _) => Fail (Msg "table function doesn't support FINAL")
      | (ESelectQuery _ _ _ _ _ _ _ _ _ _ _ _ _ _ _ _ _ _ _ _ _ _ _) => Fail (Msg "subquery doesn't support FINAL")
      | _ =>
          do tableEnd <- endOf e' ;;
          Ret (ETableExpr p0 tableEnd ENil e' true)
      end
    else Ret (ETableExpr p0 q1 ENil e' false)) (st i ((if fin then [K "FINAL"] else []) ++ ts)) (fun a s' => Ends (do statementEnd <- endOf a ;;
    do it <- cur_item ;;
    do statementEnd <- (if kw it "FINAL" then do! skip ;; Ret (iend it) else Ret statementEnd) ;;
    do sampleRatio <- tryParseSampleClause ;;
    do statementEnd <- endOr sampleRatio statementEnd ;;
    Ret (EJoinTableExpr a statementEnd sampleRatio (kw it "FINAL"))) s' (Got (EJoinTableExpr (ETableExpr p q ENil e fin) q' ENil false) ts))).
  { intros e' q1 i Hok Hp. destruct Hok as [E1 E2].
    assert (Hx := X_end_table e' e p0 q1 i ts (fun a => do statementEnd <- endOf a ;;
      do it <- cur_item ;;
      do statementEnd <- (if kw it "FINAL" then do! skip ;; Ret (iend it) else Ret statementEnd) ;;
      do sampleRatio <- tryParseSampleClause ;;
      do statementEnd <- endOr sampleRatio statementEnd ;;
      Ret (EJoinTableExpr a statementEnd sampleRatio (kw it "FINAL"))) (Got (EJoinTableExpr (ETableExpr p q ENil e fin) q' ENil false) ts) fin Hts (conj E1 E2) Hp).
    apply E_bind_inv. apply Hx. intros q2 j. apply X_endOf; [discriminate|]. intros q3. apply X_cur. cbv beta. assert (Hk : kw (here (st j ts)) "FINAL" = false) by slv. rewrite Hk. apply X_ret. unfold tryParseSampleClause, whenKw. repeat stp. apply E_ret.
    apply X_endOr; [auto|]. intros q4. apply E_got. split; [cbn [strip]; congruence|discriminate]. }
  destruct H as [(Hp & _ & Hb)|(b & l' & p1 & a & t & -> & -> & (Hp & _ & Hb) & Han)].
  - apply E_bind. eapply E_mono; [apply Hb; eapply heads_incl; [exact Ha|vm_compute; reflexivity]|]. intros e' s' (Hok & i & ->). apply X_endOf; [apply Hok|]. intros q1.
    apply X_tryKw_no; [slv|]. cbv beta iota. apply E_bind, X_cur. cbv beta. rewrite no_bare_alias by exact Ha. apply E_ret. cbv beta iota. now apply Hend.
  - nrm. apply E_bind. eapply E_mono; [apply Hb; now left|]. intros e' s' ([E1 E2] & i & ->). apply X_endOf; [exact E2|]. intros q1. stp. cbv beta iota. apply E_bind. cbn [app]. eapply any_keyword; [exact Han|]. intros a' Ha'.
    destruct (ok_ident _ _ _ Han Ha') as (n & k & p2 & q2 & ->). unfold aliasExpr. apply E_bind. apply E_ret. apply X_endOf; [discriminate|]. intros q3. apply E_ret. apply (Hend (EAliasExpr e' p2 (EIdent n k p2 q2)) q3); [|reflexivity]. destruct Ha' as [E3 _]. split; [cbn [strip] in *; congruence|discriminate].
Qed.

(** ** Joins *)
Definition ConsP (e : expr) (l : list sym) : Prop :=
  is_nil e = false /\ (exists r, toks l = K "ON" :: r \/ toks l = K "USING" :: r) /\ parses tryParseJoinConstraints e l (heads c_join).
Lemma on_ok p p' q' es ls : Forall2 column es ls -> es <> [] -> ConsP (EOnClause p (EColumnExprList p' q' false es)) (T (K "ON") :: Sp :: sep_by comma ls).
Proof.
  intros Hc Hn. split; [reflexivity|]. split; [nrm; eauto|]. intros id ts Hts. nrm. unfold tryParseJoinConstraints. repeat stp. cbv beta iota. unfold parseColumnExprList. repeat stp.
  eapply E_mono; [apply (column_list None false) with (es := es); auto; inc|].
  intros x s' ((q1 & es' & -> & He) & id' & ->). apply E_got. split; [cbn [strip]; rewrite (oks_strip _ _ He); reflexivity|discriminate].
Qed.
Lemma using_ok p p' q' es ls : Forall2 column es ls -> es <> [] -> (forall t r, toks (sep_by comma ls) = t :: r -> t_kind t <> "(") -> ConsP (EUsingClause p (EColumnExprList p' q' false es)) (T (K "USING") :: Sp :: sep_by comma ls).
Proof.
  intros Hc Hn Hp. split; [reflexivity|]. split; [nrm; eauto|]. intros id ts Hts. nrm. unfold tryParseJoinConstraints. repeat stp. cbv beta iota.
  assert (Ht : forall i, tk (here (st i (toks (sep_by comma ls) ++ ts))) "(" = false).
  { intros i. destruct (columns_start es ls [] Hc Hn) as (l & (t & r & E & Ht) & El). rewrite app_nil_r in El. rewrite El, E in *. cbn [app]. rewrite here_cons, tk_at.
    unfold t1. cbn [str_in existsb]. rewrite andb_false_r, !orb_false_r. destruct (String.eqb_spec (t_kind t) "(") as [Ek|]; [|reflexivity]. exfalso. eapply Hp; eauto. }
  apply X_tryTk_no; [apply Ht|]. cbv beta iota. unfold parseColumnExprListWithLParen. repeat stp.
  eapply E_mono; [apply (column_list (Some ")") false) with (es := es); auto; inc|].
  intros x s' ((q1 & es' & -> & He) & id' & ->). stp. apply E_got. split; [cbn [strip]; rewrite (oks_strip _ _ He); reflexivity|discriminate].
Qed.

Lemma words_toks ws : toks (words ws) = map K ws.
Proof.
  unfold words. induction ws as [|w ws IH]; [reflexivity|]. cbn [map sep_by] in *. destruct ws as [|w2 ws]; [now nrm|]. cbn [map] in *. nrm. cbn [app]. now rewrite IH.
Qed.
Lemma join_modifiers ws r id : In ws join_words -> Ends parseJoinModifiers (st id (map K ws ++ K "JOIN" :: r)) (fun x s' => x = ws /\ exists id', s' = st id' (K "JOIN" :: r)).
Proof.
  intros H. unfold join_words in H. cbn [In] in H. unfold parseJoinModifiers, parseJoinType, grabIf.
  repeat match type of H with _ \/ _ => destruct H as [<-|H] end; [..|destruct H]; cbn [map app]; repeat first [stp | apply E_ret]; eauto.
Qed.
Lemma no_modifiers ts id : heads c_prewhere ts -> Ends parseJoinModifiers (st id ts) (fun x s' => x = [] /\ s' = st id ts).
Proof. intros Hts. unfold parseJoinModifiers, parseJoinType, grabIf. repeat stp. apply E_ret. auto. Qed.

Definition JoinP (e : expr) (l : list sym) : Prop :=
  (forall ts, heads c_prewhere ts -> heads c_comma (toks l ++ ts)) /\
  (is_comma_join e = false -> forall ts, heads c_prewhere ts -> heads c_join (toks l ++ ts)) /\
  forall p id ts, heads c_prewhere ts -> Ends (parseJoinRightExpr p) (st id (toks l ++ ts)) (fun e' s' => okn e' e /\ exists id', s' = st id' ts).
Lemma join0_ok : JoinP ENil [].
Proof.
  split; [intros; nrm; inc|]. split; [intros _ ts H; nrm; inc|]. intros p id ts Hts. nrm. unfold parseJoinRightExpr. apply E_call. cbn [body]. unfold body_JoinRight. stp. cbv beta iota.
  apply E_bind. eapply E_mono; [apply no_modifiers, Hts|]. intros x s' [-> ->]. apply X_cur. cbn [is_empty negb andb]. stp. apply E_ret, E_ret. split; [apply okn_nil|eauto].
Qed.
Lemma nil_eq e : is_nil e = true -> e = ENil.
Proof. destruct e; intros H; try discriminate H. reflexivity. Qed.
Lemma okn_nil_eq e' e : okn e' e -> is_nil e' = is_nil e.
Proof. intros [H _]. rewrite <- (nil_strip e'), H. apply nil_strip. Qed.

Lemma join_expr t l j lj p id ts : TableP t l -> JoinP j lj -> heads c_prewhere ts ->
  Ends (parseJoinExpr p) (st id (toks l ++ toks lj ++ ts)) (fun e' s' => (exists p', ok e' (if is_nil j then t else EJoinExpr p' t j [] ENil)) /\ exists id', s' = st id' ts).
Proof.
  intros [Ht0 Ht] (H1 & _ & H3) Hts. unfold parseJoinExpr. eapply E_use; [exact Ht|eapply heads_incl; [apply H1, Hts|vm_compute; reflexivity]|]. intros t' i Ht'. stp. apply E_bind. eapply E_mono; [apply H3, Hts|].
  intros j' s' (Hj & i' & ->). rewrite (okn_nil_eq _ _ Hj). destruct (is_nil j) eqn:Ej.
  - apply E_ret. split; [exists p; exact Ht'|eauto].
  - apply E_ret. split; [|eauto]. exists p. destruct Ht' as [E1 E2], Hj as [E3 E4]. split; [cbn [strip]; congruence|].
    cbn [end_of]. rewrite <- (nil_strip j), <- E3, nil_strip in Ej. rewrite Ej. cbn [negb]. destruct E4; [congruence|assumption].
Qed.
Lemma comma1_ok t l : TableP t l -> JoinP t (T (O ",") :: l).
Proof.
  intros H. split; [intros; nrm; now left|]. split; [destruct H; congruence|]. intros p id ts Hts. nrm. unfold parseJoinRightExpr. apply E_call. cbn [body]. unfold body_JoinRight. repeat stp. cbv beta iota. repeat stp.
  assert (Hj := join_expr t l ENil [] (ipos (here (st (S id) (toks l ++ ts)))) (S id) ts H join0_ok Hts). rewrite toks_nil in Hj. eapply E_mono; [exact Hj|]. intros e' s' ((p' & He) & i & ->). apply E_ret. split; [apply ok_okn, He|eauto].
Qed.
Lemma comma2_ok p t l j lj : TableP t l -> JoinP j lj -> j <> ENil -> JoinP (EJoinExpr p t j [] ENil) (T (O ",") :: l ++ lj).
Proof.
  intros H Hj Hn. split; [intros; nrm; now left|]. split; [discriminate|]. intros p0 id ts Hts. nrm. unfold parseJoinRightExpr. apply E_call. cbn [body]. unfold body_JoinRight. repeat stp. cbv beta iota. repeat stp.
  eapply E_mono; [apply (join_expr t l j lj _ _ _ H Hj Hts)|]. intros e' s' ((p' & He) & i & ->). apply E_ret. split; [|eauto].
  destruct (is_nil j) eqn:Ej; [apply nil_eq in Ej; contradiction|]. apply ok_okn. destruct He as [E1 E2]. split; [exact E1|exact E2].
Qed.
Lemma join_ok p ws t l c lc j lj : In ws join_words -> TableP t l -> opt ConsP c lc -> JoinP j lj -> c = ENil \/ is_comma_join j = false ->
  JoinP (EJoinExpr p t j (ws ++ ["JOIN"]) c) (Sp :: words (ws ++ ["JOIN"]) ++ Sp :: l ++ lc ++ lj).
Proof.
  intros Hw [Ht0 Ht] Hc (H1 & H2 & H3) Hcj.
  assert (Hh : forall r ts, heads c_join ((map K ws ++ K "JOIN" :: r) ++ ts)).
  { intros r ts. unfold join_words in Hw. cbn [In] in Hw. repeat match type of Hw with _ \/ _ => destruct Hw as [<-|Hw] end; [..|destruct Hw]; cbn [map app heads]; vm_compute; tauto. }
  assert (Hl : toks (Sp :: words (ws ++ ["JOIN"]) ++ Sp :: l ++ lc ++ lj) = map K ws ++ K "JOIN" :: toks l ++ toks lc ++ toks lj).
  { nrm. rewrite words_toks, map_app. cbn [map]. now rewrite <- app_assoc. }
  unfold JoinP. rewrite !Hl. split; [intros; apply heads_cons; apply Hh|]. split; [intros; apply Hh|]. intros p0 id ts Hts. unfold parseJoinRightExpr. apply E_call. cbn [body]. unfold body_JoinRight.
  assert (Hnc : forall i, tk (here (st i ((map K ws ++ K "JOIN" :: toks l ++ toks lc ++ toks lj) ++ ts))) "," = false).
  { intros i. eapply heads_tk; [apply Hh|vm_compute; reflexivity|vm_compute; reflexivity]. }
  apply X_tryTk_no; [apply Hnc|]. cbv beta iota. rewrite <- app_assoc. rewrite <- app_comm_cons. rewrite <- !app_assoc. apply E_bind. eapply E_mono; [apply join_modifiers, Hw|]. intros x s' (-> & i & ->). apply X_cur. cbv beta. rewrite here_cons at 1. rewrite kw_at. change (k1 (K "JOIN") "JOIN") with true. cbn [negb]. rewrite andb_false_r.
  stp. cbv beta iota zeta.
  replace (str_in "ARRAY" (ws ++ ["JOIN"])) with false.
  2:{ symmetry. assert (Hf : forallb (fun ws => negb (str_in "ARRAY" (ws ++ ["JOIN"]))) join_words = true) by (vm_compute; reflexivity). rewrite forallb_forall in Hf. apply negb_true_iff, Hf, Hw. }
  assert (Hcon : exists F, heads F (toks lj ++ ts) /\ heads c_table (toks lc ++ toks lj ++ ts) /\ forall i, Ends tryParseJoinConstraints (st i (toks lc ++ toks lj ++ ts)) (fun e' s' => okn e' c /\ exists id', s' = st id' (toks lj ++ ts))).
  { assert (Hcm := H1 ts Hts). destruct Hc as [[-> ->]|(lc' & -> & Hcn & (r & E) & Hc)].
    - exists c_comma. split; [exact Hcm|]. nrm. split; [inc|]. intros k. unfold tryParseJoinConstraints. repeat stp. apply E_ret. split; [apply okn_nil|eauto].
    - destruct Hcj as [->|Hcj]; [discriminate Hcn|]. assert (Hj := H2 Hcj ts Hts). exists c_join. split; [exact Hj|]. nrm. split; [destruct E as [-> | ->]; cbn [app heads]; vm_compute; tauto|]. intros k. eapply E_mono; [apply Hc, Hj|]. intros e' s' (He & q). split; [apply ok_okn, He|exact q]. }
  destruct Hcon as (F & _ & Htab & Hcon). eapply E_use; [exact Ht|exact Htab|]. intros t' i1 Ht'. apply E_bind. eapply E_mono; [apply Hcon|]. intros c' s' (Hc' & i2 & ->). stp. apply E_bind. eapply E_mono; [apply H3, Hts|]. intros j' s' (Hj' & i3 & ->).
  apply E_ret, E_ret. split; [|eauto]. destruct Ht' as [E1 E2], Hc' as [E3 E4], Hj' as [E5 E6]. split; [cbn [strip]; congruence|]. right. cbn [end_of].
  destruct (is_nil j') eqn:En; cbn [negb]; [|destruct E6; [congruence|assumption]]. destruct (is_nil c') eqn:Ec; cbn [negb]; [exact E2|]. destruct E4; [congruence|assumption].
Qed.
Lemma from1_ok p t l : TableP t l -> Clause "FROM" parseFromClause c_prewhere (EFromClause p t) (T (K "FROM") :: Sp :: l).
Proof.
  intros H. split; [nrm; eauto|]. intros q id ts Hts. nrm. unfold parseFromClause. repeat stp. apply E_bind.
  assert (Hj := join_expr t l ENil [] (ipos (here (st (S id) (toks l ++ ts)))) (S id) ts H join0_ok Hts). rewrite toks_nil in Hj. eapply E_mono; [exact Hj|]. intros e' s' ((p' & [E1 E2]) & i & ->). apply E_got. cbn [is_nil] in E1. split; [cbn [strip]; now rewrite E1|exact E2].
Qed.
Lemma from2_ok p p' t l j lj : TableP t l -> JoinP j lj -> j <> ENil -> Clause "FROM" parseFromClause c_prewhere (EFromClause p (EJoinExpr p' t j [] ENil)) (T (K "FROM") :: Sp :: l ++ lj).
Proof.
  intros H Hj Hn. split; [nrm; eauto|]. intros q id ts Hts. nrm. unfold parseFromClause. repeat stp. apply E_bind. eapply E_mono; [apply (join_expr t l j lj _ _ _ H Hj Hts)|]. intros e' s' ((p2 & [E1 E2]) & i & ->).
  destruct (is_nil j) eqn:Ej; [apply nil_eq in Ej; contradiction|]. apply E_got. split; [cbn [strip] in *; now rewrite E1|exact E2].
Qed.
