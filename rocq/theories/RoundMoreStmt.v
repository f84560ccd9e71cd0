(** Every canonical statement is parsed as the tree it spells. *)
From Coq Require Import String List Arith Bool Lia.
From Verif Require Import Str Keyword Lexer LexSpec LexGrammar LexTokens Ast AstPos AstSubs Strip StripFacts Prog RunFacts FuelFacts ParserCommon ParserExpr ParserQuery ParserTable ParserView ParserAlter ParserSystem Parser Exec PrecSpec RoundSpec RoundExec RoundBase RoundExpr RoundOps RoundPrim RoundClause RoundFrom RoundQuery RoundAll RoundStmt RoundMoreSpec RoundMoreParse.
Import ListNotations.
Local Open Scope string_scope.
Local Open Scope list_scope.
Local Open Scope nat_scope.

(** ** Dispatch *)
Ltac go := intros H; unfold parseStmtBody; apply X_cur; rewrite here_cons; cbv beta zeta; apply H.
Lemma go_drop id ts Q : (forall p, Ends (parseDDL p) (st id (K "DROP" :: ts)) Q) -> Ends parseStmtBody (st id (K "DROP" :: ts)) Q.
Proof. go. Qed.
Lemma go_truncate id ts Q : (forall p, Ends (parseDDL p) (st id (K "TRUNCATE" :: ts)) Q) -> Ends parseStmtBody (st id (K "TRUNCATE" :: ts)) Q.
Proof. go. Qed.
Lemma go_rename id ts Q : (forall p, Ends (parseDDL p) (st id (K "RENAME" :: ts)) Q) -> Ends parseStmtBody (st id (K "RENAME" :: ts)) Q.
Proof. go. Qed.
Lemma go_delete id ts Q : (forall p, Ends (parseDeleteClause p) (st id (K "DELETE" :: ts)) Q) -> Ends parseStmtBody (st id (K "DELETE" :: ts)) Q.
Proof. go. Qed.
Lemma go_insert id ts Q : (forall p, Ends (parseInsertStmt p) (st id (K "INSERT" :: ts)) Q) -> Ends parseStmtBody (st id (K "INSERT" :: ts)) Q.
Proof. go. Qed.
Lemma go_use id ts Q : (forall p, Ends (parseUseStmt p) (st id (K "USE" :: ts)) Q) -> Ends parseStmtBody (st id (K "USE" :: ts)) Q.
Proof. go. Qed.
Lemma go_set id ts Q : (forall p, Ends (parseSetStmt p) (st id (K "SET" :: ts)) Q) -> Ends parseStmtBody (st id (K "SET" :: ts)) Q.
Proof. go. Qed.
Lemma go_system id ts Q : (forall p, Ends (parseSystemStmt p) (st id (K "SYSTEM" :: ts)) Q) -> Ends parseStmtBody (st id (K "SYSTEM" :: ts)) Q.
Proof. go. Qed.
Lemma go_optimize id ts Q : (forall p, Ends (parseOptimizeStmt p) (st id (K "OPTIMIZE" :: ts)) Q) -> Ends parseStmtBody (st id (K "OPTIMIZE" :: ts)) Q.
Proof. go. Qed.
Lemma go_check id ts Q : (forall p, Ends (parseCheckStmt p) (st id (K "CHECK" :: ts)) Q) -> Ends parseStmtBody (st id (K "CHECK" :: ts)) Q.
Proof. go. Qed.
Lemma go_explain id ts Q : (forall p, Ends (parseExplainStmt p) (st id (K "EXPLAIN" :: ts)) Q) -> Ends parseStmtBody (st id (K "EXPLAIN" :: ts)) Q.
Proof. go. Qed.
Lemma go_show id ts Q : (forall p, Ends (parseShowStmt p) (st id (K "SHOW" :: ts)) Q) -> Ends parseStmtBody (st id (K "SHOW" :: ts)) Q.
Proof. go. Qed.
Lemma go_describe id ts Q : (forall p, Ends (parseDescribeStmt p) (st id (K "DESCRIBE" :: ts)) Q) -> Ends parseStmtBody (st id (K "DESCRIBE" :: ts)) Q.
Proof. go. Qed.
Lemma go_drop_database p id ts Q : Ends (parseDropDatabase p) (st (S id) (K "DATABASE" :: ts)) Q -> Ends (parseDDL p) (st id (K "DROP" :: K "DATABASE" :: ts)) Q.
Proof. intros H. unfold parseDDL. apply X_cur. rewrite here_cons. cbv beta. apply X_skip. apply X_cur. rewrite here_cons. exact H. Qed.
Lemma go_drop_ p id w ts Q : In w ["TEMPORARY"; "VIEW"; "DICTIONARY"; "TABLE"] -> Ends (parseDropStmt p) (st (S id) (K w :: ts)) Q -> Ends (parseDDL p) (st id (K "DROP" :: K w :: ts)) Q.
Proof. intros Hw H. unfold parseDDL. apply X_cur. rewrite here_cons. cbv beta. apply X_skip. apply X_cur. rewrite here_cons. repeat (destruct Hw as [<-|Hw]; [exact H|]). destruct Hw. Qed.
Lemma go_truncate_ p id ts Q : Ends (parseTruncateTable p) (st id (K "TRUNCATE" :: ts)) Q -> Ends (parseDDL p) (st id (K "TRUNCATE" :: ts)) Q.
Proof. intros H. unfold parseDDL. apply X_cur. rewrite here_cons. exact H. Qed.
Lemma go_rename_ p id ts Q : Ends (parseRenameStmt p) (st id (K "RENAME" :: ts)) Q -> Ends (parseDDL p) (st id (K "RENAME" :: ts)) Q.
Proof. intros H. unfold parseDDL. apply X_cur. rewrite here_cons. exact H. Qed.

(** ** SHOW DATABASES *)
Lemma X_limit {A} e l id ts (f : expr -> prog A) Q : show_limit e l -> All respects e -> heads ends0 ts -> (forall i, kw (here (st i ts)) "LIMIT" = false) ->
  (forall x i, strip x = strip e -> Ends (f x) (st i ts) Q) -> Ends (do it <- cur_item ;; do x <- (if kw it "LIMIT" then do! skip ;; parseExprHere else Ret ENil) ;; f x) (st id (toks l ++ ts)) Q.
Proof.
  intros H Ha Ht Hk Hf. destruct H as [|e l H]; nrm; cbn [app].
  - repeat stp. now apply Hf.
  - assert (HX : XP e l) by now apply (proj1 all_claims _ _ _ H). apply X_cur. apply E_bind. tst. stp. eapply E_mono; [apply expr_here; [exact HX|exact Ht]|]. intros x s' ([E _] & i & ->). now apply Hf.
Qed.
Lemma X_outfile {A} e l id ts (f : expr -> prog A) Q : after_words ["INTO"; "OUTFILE"] e l -> (forall i, kw (here (st i ts)) "INTO" = false) ->
  (forall x i, strip x = strip e -> Ends (f x) (st i ts) Q) -> Ends (do it <- cur_item ;; do x <- (if kw it "INTO" then do! skip ;; do! expKw "OUTFILE" ;; parseStringHere else Ret ENil) ;; f x) (st id (toks l ++ ts)) Q.
Proof.
  intros H Hk Hf. destruct H as [|e t H]; wds; nrm; cbn [app].
  - repeat stp. now apply Hf.
  - apply X_cur. apply E_bind. tst. stp. stp. unfold parseStringHere. stp. eapply E_mono; [apply string_pos, H|]. intros x s' ([E _] & i & ->). now apply Hf.
Qed.
Lemma X_format {A} e l id ts (f : expr -> prog A) Q : after_words ["FORMAT"] e l -> (forall i, kw (here (st i ts)) "FORMAT" = false) ->
  (forall x i, strip x = strip e -> Ends (f x) (st i ts) Q) -> Ends (do it <- cur_item ;; do x <-
      (if kw it "FORMAT" then
         do! skip ;;
         do it <- cur_item ;;
         if tk it KString then parseStringHere
         else if tk it KIdent then
           do s <- grab ;;
           Ret (EStringLiteral (ipos it) (iend it) s)
         else Fail (Msg "expected format specification after FORMAT, got %q")
       else Ret ENil) ;; f x) (st id (toks l ++ ts)) Q.
Proof.
  intros H Hk Hf. destruct H as [|e t H]; wds; nrm; cbn [app].
  - repeat stp. now apply Hf.
  - apply X_cur. apply E_bind. tst. stp. stp. rewrite (string_tk _ _ _ _ H). unfold parseStringHere. stp. eapply E_mono; [apply string_pos, H|]. intros x s' ([E _] & i & ->). now apply Hf.
Qed.
Lemma X_like {A} n w e l id ts (f : bool -> string * expr -> prog A) Q : show_like n w e l -> All respects e -> heads [K "LIMIT"; K "INTO"; K "FORMAT"; O ";"] ts ->
  (forall x i, strip x = strip e -> Ends (f n (w, x)) (st i ts) Q) ->
  Ends (do it <- cur_item ;;
    let notLike := kw it "NOT" in
    do! (if notLike then skip else Ret tt) ;;
    do it <- cur_item ;;
    do r <-
      (if kw it "LIKE" || kw it "ILIKE" then
         do! skip ;;
         do pattern <- parseExprHere ;;
         Ret (if kw it "LIKE" then "LIKE" else "ILIKE", pattern)
       else Ret ("", ENil)) ;; f notLike r) (st id (toks l ++ ts)) Q.
Proof.
  intros H Ha Ht Hf. destruct H as [|n w e l Hw H]; nrm; cbn [app].
  - stp. cbv zeta. assert (Hn : kw (here (st id ts)) "NOT" = false) by slv. rewrite Hn. repeat stp. now apply Hf.
  - assert (HX : XP e l) by now apply (proj1 all_claims _ _ _ H).
    assert (Hrest : forall j, Ends (do it <- cur_item ;; do r <- (if kw it "LIKE" || kw it "ILIKE" then do! skip ;; do pattern <- parseExprHere ;; Ret (if kw it "LIKE" then "LIKE" else "ILIKE", pattern) else Ret ("", ENil)) ;; f n r) (st j (K w :: toks l ++ ts)) Q).
    { intros j. stp. apply E_bind. assert (El : kw (here (st j (K w :: toks l ++ ts))) "LIKE" || kw (here (st j (K w :: toks l ++ ts))) "ILIKE" = true) by (destruct Hw as [<-|[<-|[]]]; reflexivity). rewrite El.
      stp. eapply E_use; [apply expr_here, HX|inc|]. intros x i [E _]. apply E_ret. replace (if kw (here (st j (K w :: toks l ++ ts))) "LIKE" then "LIKE" else "ILIKE") with w by (destruct Hw as [<-|[<-|[]]]; reflexivity). now apply Hf. }
    stp. cbv zeta. destruct n; nrm; cbn [app].
    + replace (kw (here (st id (K "NOT" :: K w :: toks l ++ ts))) "NOT") with true by reflexivity. stp. apply Hrest.
    + replace (kw (here (st id (K w :: toks l ++ ts))) "NOT") with false by (destruct Hw as [<-|[<-|[]]]; reflexivity). apply X_ret. apply Hrest.
Qed.

Definition show_rest (p : pos) (notLike : bool) (r : string * expr) : prog expr :=
  let '(likeType, likePattern) := r in
    do it <- cur_item ;;
    do limit <- (if kw it "LIMIT" then do! skip ;; parseExprHere else Ret ENil) ;;
    do it <- cur_item ;;
    do outFile <- (if kw it "INTO" then do! skip ;; do! expKw "OUTFILE" ;; parseStringHere else Ret ENil) ;;
    do it <- cur_item ;;
    do format <-
      (if kw it "FORMAT" then
         do! skip ;;
         do it <- cur_item ;;
         if tk it KString then parseStringHere
         else if tk it KIdent then
           do s <- grab ;;
           Ret (EStringLiteral (ipos it) (iend it) s)
         else Fail (Msg "expected format specification after FORMAT, got %q")
       else Ret ENil) ;;
    do statementEnd <- end_ ;;
    Ret (EShowStmt p statementEnd "DATABASES" ENil notLike likeType likePattern limit outFile format).

Lemma stmt_run e l id ts : heads [O ";"] ts -> stmt e l -> All respects e -> Ends parseStmtBody (st id (toks l ++ ts)) (Fin ts e).
Proof.
  intros Hts H Ha. destruct H.
  - (* queries *) unfold parseStmtBody. apply X_cur. cbv beta zeta. assert (HQ : QP e l) by now apply (proj1 all_claims _ _ _ H). assert (Hq := query_plain _ _ HQ id ts (heads_incl _ [O ")"; O ";"] _ Hts eq_refl)). destruct HQ as (_ & (r & E) & _).
    assert (Hk : kws (here (st id (toks l ++ ts))) ["CREATE"; "ATTACH"; "ALTER"; "DROP"; "DETACH"; "TRUNCATE"; "RENAME"] = false) by (destruct E as [E|E]; rewrite E; reflexivity).
    assert (Hs : kws (here (st id (toks l ++ ts))) ["SELECT"; "WITH"] = true) by (destruct E as [E|E]; rewrite E; reflexivity).
    rewrite Hk, Hs. eapply E_mono; [exact Hq|]. intros e' s' ([He _] & i & ->). split; eauto.
  - nrm. cbn [app]. apply go_use. intros p0. unfold parseUseStmt. stp. eapply X_plain; [exact H|]. intros x [E1 E2]. apply X_endOf; [exact E2|]. intros pe. fin.
  - kids. apply (proj2 all_claims) in H; [|assumption]. cbn [claim] in H. nrm. apply go_set. intros p0. unfold parseSetStmt. repeat stp. unfold parseSettingsClause, parseSettingsList.
    destruct H as [|e l es ls He H]; [congruence|]. rewrite sep_flat. nrm. apply E_bind, E_bind. eapply E_use; [exact He| |].
    { destruct ls; cbn [flat_map]; unfold comma; nrm; [cbn [app]; inc|now left]. }
    intros e' i Ee. eapply E_mono; [apply (sep_tail parseSettingsExpr (heads (O "," :: c_format))) with (es := es) (acc0 := [e]); auto|].
    + intros r. now left.
    + inc.
    + intros i0. slv.
    + intros es' s' (Hes & id' & ->). cbn [app] in Hes. assert (Hx : es' <> []) by (intros ->; inversion Hes). assert (Hl := ok_last _ _ Hes Hx). destruct es' as [|x es']; [congruence|]. cbn [is_empty]. apply X_endOf; [exact Hl|]. intros pe. apply E_ret. apply E_ret. split; [|eauto].
      cbn [strip]. now rewrite (oks_strip _ _ Hes).
  - (* DROP DATABASE *) assert (Hm := heads_modifier _ _ _ _ H1 Hts). assert (Hc := heads_cluster _ _ _ _ H0 Hm). unfold words. cbn [map sep_by]. nrm. cbn [app]. apply go_drop. intros p0. apply go_drop_database. unfold parseDropDatabase. stp.
    eapply X_if; [intros; slv|]. intros j. eapply X_plain; [exact H|]. intros x [E1 E2]. apply X_endOf; [exact E2|]. intros pe. eapply X_cluster; [exact H0|intros; slv|]. intros c' k [E3 E4]. apply X_endOr; [exact E4|]. intros pe2.
    eapply X_modifier; [exact H1|intros; slv|]. intros k2. stp. fin.
  - (* DROP *) assert (Hm := heads_modifier _ _ _ _ H3 Hts). assert (Hc := heads_cluster _ _ _ _ H2 Hm).
    assert (Hrest : forall p1 j, Ends (do isExists <- tryParseIfExists ;; do name <- parseTableIdentifier ;; do onCluster <- tryParseClusterClause ;; do modifier <- tryParseModifier ;; do statementEnd <- pos_ ;;
      Ret (EDropStmt p1 statementEnd k name isExists onCluster tmp modifier)) (st j (toks (flag i ["IF"; "EXISTS"]) ++ toks l ++ toks lc ++ toks lm ++ ts)) (Fin ts (EDropStmt p q k e i c tmp m))).
    { intros p0 j. eapply X_if; [intros; slv|]. intros j2. eapply X_table; [exact H1|intros; slv|]. intros x j3 [E1 E2]. eapply X_cluster; [exact H2|intros; slv|]. intros c' j4 [E3 E4]. eapply X_modifier; [exact H3|intros; slv|]. intros j5. stp. fin. }
    nrm. unfold flag at 1 2. destruct H0 as [-> | ->]; [|destruct tmp]; wds; nrm; cbn [app]; apply go_drop; intros p0.
    + destruct H as [<-|[<-|[<-|[]]]]; (apply go_drop_; [cbn; tauto|]); unfold parseDropStmt, ifKw; repeat stp; try apply E_ret; apply Hrest.
    + (apply go_drop_; [cbn; tauto|]); unfold parseDropStmt, ifKw; repeat stp. apply E_ret. apply Hrest.
    + (apply go_drop_; [cbn; tauto|]); unfold parseDropStmt, ifKw; repeat stp. apply E_ret. apply Hrest.
  - (* TRUNCATE *) assert (Hc := heads_cluster _ _ _ _ H0 Hts). nrm. apply go_truncate. intros p0. apply go_truncate_. unfold parseTruncateTable. stp.
    eapply X_flag; [reflexivity|reflexivity|]. intros j1. stp. eapply X_if; [intros; slv|]. intros j2. eapply X_table; [exact H|intros; slv|]. intros x j3 [E1 E2]. eapply X_cluster; [exact H0|intros; slv|]. intros c' j4 [E3 E4].
    apply X_endOf; [exact E2|]. intros pe. apply X_endOr; [exact E4|]. intros pe2. fin.
  - (* RENAME *) assert (Hc := heads_cluster _ _ _ _ H2 Hts).
    assert (Hrest : forall p1 j, Ends (do targetPair <- parseTargetPair ;; do pairs <- sepTail "," [targetPair] parseTargetPair ;; do statementEnd <- endOf (last pairs ENil) ;; do onCluster <- tryParseClusterClause ;; do statementEnd <- endOr onCluster statementEnd ;;
      Ret (ERenameStmt p1 statementEnd k pairs onCluster)) (st j (toks (sep_by comma ls) ++ toks lc ++ ts)) (Fin ts (ERenameStmt p q k es c))).
    { intros p0 j. destruct H0 as [|e l es ls He H0]; [congruence|]. rewrite sep_flat. nrm. eapply E_use; [apply pair_run, He| |].
      { destruct ls; cbn [flat_map]; unfold comma; nrm; [cbn [app]; inc|now left]. }
      intros e' i Ee. eapply E_bind, E_mono; [apply (sep_tail parseTargetPair (heads [O ","; K "ON"; O ";"])) with (es := es) (acc0 := [e]); auto|].
      - eapply Forall2_imp; [|exact H0]. intros; now apply pair_run.
      - intros r. now left.
      - inc.
      - intros i0. slv.
      - intros es' s' (Hes & id' & ->). cbn [app] in Hes. assert (Hx : es' <> []) by (intros ->; inversion Hes). apply X_endOf; [eapply ok_last; eassumption|]. intros pe. eapply X_cluster; [exact H2|intros; slv|]. intros c' j4 [E3 E4].
        apply X_endOr; [exact E4|]. intros pe2. apply E_ret. split; [|eauto]. cbn [strip]. rewrite (oks_strip _ _ Hes). congruence. }
    wds. nrm. destruct H as [<-|[<-|[<-|[]]]]; apply go_rename; intros p0; apply go_rename_; unfold parseRenameStmt, ifKw; repeat stp; apply E_ret; apply Hrest.
  - (* DELETE *) kids. assert (HX : XP w lw) by now apply (proj1 all_claims _ _ _ H1). wds. nrm. assert (Hc := heads_cluster _ _ [K "WHERE"] (K "WHERE" :: toks lw ++ ts) H0 (or_introl eq_refl)). apply go_delete. intros p0. unfold parseDeleteClause. repeat stp.
    eapply X_table; [exact H|intros; slv|]. intros x j3 [E1 E2]. eapply X_cluster; [exact H0|intros; slv|]. intros c' j4 [E3 E4]. stp. eapply E_use; [apply expr_here, HX|inc|]. intros x' i [E5 E6]. fin.
  - (* DESCRIBE *) nrm. destruct k; wds; nrm; cbn [app]; apply go_describe; intros p0; unfold parseDescribeStmt; repeat stp; cbv zeta; repeat stp; (eapply X_table; [exact H|intros; slv|]; intros x j [E1 E2]; apply X_endOf; [exact E2|]; intros pe; fin).
  - (* CHECK *) kids. assert (Hp := heads_partition _ _ _ _ H0 Hts). wds. nrm. apply go_check. intros p0. unfold parseCheckStmt. repeat stp. eapply X_table; [exact H|intros; slv|]. intros x j [E1 E2]. eapply X_partition; [exact H0|assumption|exact Hts|]. intros a' j2 E3. fin.
  - (* OPTIMIZE *) kids. assert (Hd := heads_dedup _ _ _ _ H2 Hts). assert (Hf := heads_flag f "FINAL" _ _ Hd). assert (Hp := heads_partition1 _ _ _ _ H1 Hf). assert (Hc := heads_cluster _ _ _ _ H0 Hp). unfold words. cbn [map sep_by]. nrm. apply go_optimize. intros p0. unfold parseOptimizeStmt. repeat stp.
    eapply X_table; [exact H|intros; slv|]. intros x j [E1 E2]. apply X_endOf; [exact E2|]. intros pe. eapply X_cluster; [exact H0|intros; slv|]. intros c' j2 [E3 E4]. apply X_endOr; [exact E4|]. intros pe2.
    eapply X_partition1; [exact H1|assumption|inc|intros; slv|]. intros a' j3 [E5 E6]. apply X_endOr; [exact E6|]. intros pe3. stp. eapply X_flag; [reflexivity|intros; slv|]. intros j4. cbv zeta.
    eapply X_dedup; [exact H2|assumption|exact Hts|]. intros d' j5 [E7 E8]. apply X_endOr; [exact E8|]. intros pe4. fin.
  - (* EXPLAIN *) kids. assert (HQ : QP q l) by now apply (proj1 all_claims _ _ _ H1). wds. nrm. apply go_explain. intros p0. unfold parseExplainStmt. stp. stp.
    assert (Hs : kws (here (st (S id) (K w :: toks l ++ ts))) ["SYNTAX"; "PIPELINE"; "ESTIMATE"; "AST"] = true).
    { rewrite here_cons. change (existsb (k1 (K w)) ["SYNTAX"; "PIPELINE"; "ESTIMATE"; "AST"] = true). apply existsb_exists. exists (upper w). split; [exact H0|]. unfold k1, equal_fold. cbn [K t_kind t_str]. cbn [String.eqb andb].
      repeat (destruct H0 as [<-|H0]; [reflexivity|]). destruct H0. }
    rewrite Hs. stp. eapply E_use; [apply query_plain, HQ|inc|]. intros q' i [E1 E2]. fin.
  - (* INSERT *) kids. assert (Hsr := heads_source _ _ _ _ _ H1 Hts). assert (Hcs := heads_ins_columns _ _ _ _ H0 Hsr). unfold words. cbn [map sep_by]. nrm. apply go_insert. intros p0. unfold parseInsertStmt. repeat stp.
    eapply X_flag; [reflexivity|intros; slv|]. intros j. stp. cbv iota. eapply X_table; [exact H|intros; slv|]. intros x j2 [E1 E2]. eapply X_ins_columns; [exact H0|intros; slv|]. intros c' j3 E3.
    eapply X_ins_source; [exact H1|assumption..|]. intros f1 vs1 q1 j4 E4 E5 E6. fin.
  - (* SHOW *) wds. nrm. apply go_show. intros p0. unfold parseShowStmt. repeat stp. eapply X_table; [exact H|intros; slv|]. intros x j [E1 E2]. stp. fin.
  - wds. nrm. apply go_show. intros p0. unfold parseShowStmt. repeat stp. fin.
  - kids. assert (Hf := heads_after _ _ _ _ _ _ H2 Hts). assert (Ho := heads_after _ _ _ _ _ _ H1 Hf). assert (Hm := heads_limit_ _ _ _ _ H0 Ho). unfold words. cbn [map sep_by]. nrm. apply go_show. intros p0. unfold parseShowStmt. do 5 stp.
    apply (X_like n w k lk _ _ (show_rest p0)); [exact H|assumption|exact Hm|]. intros k' i E1. unfold show_rest. eapply X_limit; [exact H0|assumption|inc|intros; slv|]. intros m' i2 E2. eapply X_outfile; [exact H1|intros; slv|]. intros o' i3 E3. eapply X_format; [exact H2|intros; slv|]. intros f' i4 E4. stp. fin.
  - (* SYSTEM *) kids. nrm. apply go_system. intros p0. unfold parseSystemStmt. stp. eapply system_run; [exact H|exact Hts|]. intros x i E. fin.
Qed.
