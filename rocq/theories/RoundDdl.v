(** A source that spells a canonical statement, CREATE and ALTER TABLE GRANT, DROP USER and ROLE included, is parsed as a list of one statement. *)
From Coq Require Import String List Arith Bool Lia.
From Verif Require Import Str Keyword Lexer LexSpec LexFacts LexRun LexGrammar LexTokens Ast AstPos AstSubs Strip StripFacts Prog Items ItemsFacts RunFacts FuelFacts ParserCommon ParserExpr ParserQuery ParserTable ParserView ParserAlter ParserSystem Parser ParserApi ParseFacts LayoutSpec LayoutFacts LayoutParse Exec PrecSpec RoundSpec RoundExec RoundBase RoundExpr RoundClause RoundFrom RoundQuery RoundAll RoundStmt RoundMoreSpec RoundMoreParse RoundMoreStmt RoundMore RoundDdlSpec RoundDdlParse RoundDdlCols RoundDdlAlter RoundDdlCreate RoundAccess.
Import ListNotations.
Local Open Scope string_scope.
Local Open Scope list_scope.
Local Open Scope nat_scope.

(** ** Dispatch *)
Lemma go_alter id ts Q : (forall p, Ends (parseAlterTable p) (st (S id) (K "TABLE" :: ts)) Q) -> Ends parseStmtBody (st id (K "ALTER" :: K "TABLE" :: ts)) Q.
Proof. intros H. unfold parseStmtBody. apply X_cur. rewrite here_cons. cbv beta zeta. unfold parseDDL. apply X_cur. rewrite here_cons. cbv beta. apply X_skip. apply X_cur. rewrite here_cons. apply H. Qed.
Lemma go_create (r : bool) id w ts Q : str_in w (if r then ["TEMPORARY"; "TABLE"; "VIEW"; "FUNCTION"] else ["NAMED"; "DATABASE"; "TABLE"; "TEMPORARY"; "FUNCTION"; "MATERIALIZED"; "VIEW"]) = true ->
  (forall p i, Ends (if kw (here (st i (K w :: ts))) "NAMED" then parseCreateNamedCollection p
    else if kw (here (st i (K w :: ts))) "DATABASE" then parseCreateDatabase p
    else if kw (here (st i (K w :: ts))) "DICTIONARY" then parseCreateDictionary p r
    else if kws (here (st i (K w :: ts))) ["TABLE"; "TEMPORARY"] then parseCreateTable p r
    else if kw (here (st i (K w :: ts))) "FUNCTION" then parseCreateFunction p r
    else if kw (here (st i (K w :: ts))) "MATERIALIZED" then parseCreateMaterializedView p
    else if kw (here (st i (K w :: ts))) "LIVE" then parseCreateLiveView p
    else if kw (here (st i (K w :: ts))) "VIEW" then parseCreateView p r
    else if kw (here (st i (K w :: ts))) "ROLE" then parseCreateRole p
    else if kw (here (st i (K w :: ts))) "USER" then parseCreateUser p
    else Fail (Msg "expected keyword: NAMED|DATABASE|DICTIONARY|TABLE|VIEW|ROLE|USER|FUNCTION|MATERIALIZED, but got %q")) (st i (K w :: ts)) Q) ->
  Ends parseStmtBody (st id (K "CREATE" :: toks (flag r ["OR"; "REPLACE"]) ++ K w :: ts)) Q.
Proof.
  intros Hw H. unfold parseStmtBody. apply X_cur. rewrite here_cons. cbv beta zeta. unfold parseDDL. apply X_cur. rewrite here_cons. cbv beta. apply X_skip. apply str_in_iff in Hw. destruct r; wds; nrm; cbn [app].
  - apply E_bind. unfold tryKws. apply E_attempt. cbn [try_keywords]. apply X_cur. rewrite here_cons, kw_at. replace (k1 (K "OR") "OR") with true by reflexivity. apply X_skip. apply X_cur. rewrite here_cons, kw_at. replace (k1 (K "REPLACE") "REPLACE") with true by reflexivity. apply X_skip. apply E_ret, E_ret. apply X_cur.
    match goal with |- Ends (if ?b then _ else _) _ _ => replace b with false by (repeat (destruct Hw as [<-|Hw]; [reflexivity|]); destruct Hw) end. apply H.
  - apply X_tryKws_no; [repeat (destruct Hw as [<-|Hw]; [reflexivity|]); destruct Hw|]. apply X_cur. cbn [andb]. apply H.
Qed.
Lemma go_grant id ts Q : (forall p, Ends (parseGrantPrivilegeStmt p) (st id (K "GRANT" :: ts)) Q) -> Ends parseStmtBody (st id (K "GRANT" :: ts)) Q.
Proof. go. Qed.
Lemma go_drop_role p id w ts Q : In w ["USER"; "ROLE"] -> Ends (parserDropUserOrRole p) (st (S id) (K w :: ts)) Q -> Ends (parseDDL p) (st id (K "DROP" :: K w :: ts)) Q.
Proof. intros Hw H. unfold parseDDL. apply X_cur. rewrite here_cons. cbv beta. apply X_skip. apply X_cur. rewrite here_cons. repeat (destruct Hw as [<-|Hw]; [exact H|]). destruct Hw. Qed.
Lemma access_run e l id ts : heads [O ";"] ts -> access e l -> All respects e -> Ends parseStmtBody (st id (toks l ++ ts)) (Fin ts e).
Proof.
  intros Hts [p q es ls o lo rs us ws Hp Hn Ho Hr Hrn Hw|p q k es ls i m lm f lf Hk Hr Hn Hm Hf Hor] Ha; unfold words at 1; cbn [map sep_by]; nrm; cbn [app]; nrm.
  - apply go_grant. intros p0. eapply grant_run; eassumption.
  - apply go_drop. intros p0. apply go_drop_role; [exact Hk|]. eapply drop_run; eassumption.
Qed.
Lemma access_led e l : access e l -> led l.
Proof.
  intros [p q es ls o lo rs us ws Hp Hn Ho Hr Hrn Hw|p q k es ls i m lm f lf Hk Hr Hn Hm Hf Hor]; unfold led.
  - destruct Hp as [|e0 l0 es ls H Hp]; [congruence|]. rewrite sep_flat. nrm. destruct H as [p1 q1 w1 H|p1 q1 w1 e1 l1 H _]; [|nrm; eauto].
    unfold privilege_words in H. cbn [app map flat_map] in H. repeat (destruct H as [<-|H]; [wds; nrm; cbn [app]; eauto|]). destruct H.
  - unfold words at 1. cbn [map sep_by]. nrm. cbn [app]. eauto.
Qed.
Lemma ddl_run e l id ts : heads [O ";"] ts -> ddl e l -> All respects e -> Ends parseStmtBody (st id (toks l ++ ts)) (Fin ts e).
Proof.
  intros Hts H Ha. destruct H.
  - now apply stmt_run.
  - unfold words. cbn [map sep_by]. nrm. cbn [app]. apply go_alter. intros p0. now apply alter_table_run.
  - unfold words. cbn [map sep_by]. nrm. cbn [app]. apply (go_create false); [reflexivity|]. intros p0 i0. repeat tst. eapply database_run; eassumption.
  - nrm. destruct tmp; [change (toks (flag true ["TEMPORARY"])) with [K "TEMPORARY"]|change (toks (flag false ["TEMPORARY"])) with (@nil tok)]; cbn [app].
    + apply go_create; [destruct r; reflexivity|]. intros p0 i0. repeat tst. apply (table_run p q r true i t lt u lu c lc s lsc b g lg bq sq lsq k lk); assumption.
    + apply go_create; [destruct r; reflexivity|]. intros p0 i0. repeat tst. apply (table_run p q r false i t lt u lu c lc s lsc b g lg bq sq lsq k lk); assumption.
  - nrm. apply go_create; [destruct r; reflexivity|]. intros p0 i0. repeat tst. eapply view_run; eassumption.
  - unfold words. cbn [map sep_by]. nrm. cbn [app]. apply (go_create false); [reflexivity|]. intros p0 i0. repeat tst. eapply materialized_run; eassumption.
  - nrm. cbn [app]. nrm. apply go_create; [destruct r; reflexivity|]. intros p0 i0. repeat tst. apply function_run; assumption.
  - unfold words. cbn [map sep_by]. nrm. cbn [app]. nrm. apply (go_create false); [reflexivity|]. intros p0 i0. repeat tst. eapply collection_run; eassumption.
  - now apply access_run.
Qed.

(** ** Statements and scripts *)
Lemma ddl_led e l : ddl e l -> All respects e -> led l.
Proof.
  intros H Ha. destruct H; [eapply stmt_led; eassumption|..|eapply access_led; eassumption]; unfold led; try (destruct r; try destruct tmp); wds; nrm; cbn [app]; eauto.
Qed.
Lemma ddl_end e l id ts : heads [O ";"] ts -> ddl e l -> All respects e -> Ends parseStmt (st id (toks l ++ ts)) (Fin ts e).
Proof.
  intros Hts H Ha. assert (Hr := ddl_run e l id ts Hts H Ha). unfold parseStmt. eapply E_bind, E_mono; [exact Hr|]. intros e' s' (He & i & ->). unfold tryParseFormatHere, tryParseFormat. apply E_bind.
  repeat stp. apply E_ret. apply X_cur.
  match goal with |- Ends (if ?b then _ else _) _ _ => replace b with false end; [apply E_ret; split; [exact He|now exists i]|].
  destruct ts as [|t r]; [reflexivity|]. destruct Hts as [<-|[]]. reflexivity.
Qed.
Lemma script_loop es ts : script es ts -> Forall (All respects) es -> forall acc s id, advance s = st id ts ->
  Ends (loop acc (fun stmts => do! consumeOrFail ;; do it <- cur_item ;; if it_eof it then Ret (inr stmts) else if tk it ";" then Ret (inl stmts) else do stmt <- parseStmt ;; Ret (inl (stmts ++ [stmt])))) s
    (fun es' _ => exists new, es' = acc ++ new /\ map strip new = map strip es).
Proof.
  assert (Hgo : forall e l ts id acc Q, ddl e l -> All respects e -> heads [O ";"] ts -> (forall e' i, strip e' = strip e -> Ends (Ret (inl (acc ++ [e']))) (st i ts) Q) ->
    Ends (do it <- cur_item ;; if it_eof it then Ret (inr acc) else if tk it ";" then Ret (inl acc) else do stmt <- parseStmt ;; Ret (@inl _ (list expr) (acc ++ [stmt]))) (st id (toks l ++ ts)) Q).
  { intros e l ts0 id acc Q Hd Ha Hts Hf. assert (H := ddl_end _ _ id _ Hts Hd Ha). apply X_cur. destruct (ddl_led _ _ Hd Ha) as (w & u & r & E). rewrite E in *. cbn [app] in *.
    replace (it_eof _) with false by reflexivity. replace (tk _ ";") with false by (rewrite here_cons, tk_at; unfold t1; cbn; now rewrite ?andb_false_r).
    eapply E_bind, E_mono; [exact H|]. intros e' s' (Hk & i & ->). now apply Hf. }
  induction 1 as [|es ts H IH|e l H|e l es ts H Hs IH]; intros Ha acc s id Hs0; apply E_loop1; (eapply X_consumeOrFail; [exact Hs0|]).
  - apply X_cur. cbn [st here it_eof]. apply E_ret. exists []. split; [now rewrite app_nil_r|reflexivity].
  - apply X_cur. rewrite here_cons. cbn [it_eof item_at]. destruct ts as [|t r].
    + apply E_ret. exists []. split; [now rewrite app_nil_r|]. inversion H; subst; [reflexivity| |]; exfalso.
      * match goal with Hd : ddl ?e ?l, Hn : toks ?l = [] |- _ => inversion Ha as [|? ? Ha1 _]; subst; destruct (ddl_led _ _ Hd Ha1) as (w & u & r & E); rewrite E in Hn; discriminate end.
      * match goal with Hd : ddl ?e ?l, Hn : toks ?l ++ _ = [] |- _ => destruct (toks l); discriminate Hn end.
    + replace (tk _ ";") with true by reflexivity. apply E_ret. eapply IH; [exact Ha|apply adv].
  - inversion Ha as [|? ? Ha1 _]; subst. rewrite <- (app_nil_r (toks l)). eapply Hgo; [exact H|exact Ha1|exact I|]. intros e' i He. apply E_ret. apply E_loop1. eapply X_consumeOrFail; [apply adv_end|]. apply X_cur. cbn [st here it_eof]. apply E_ret. exists [e']. split; [reflexivity|]. cbn [map]. now rewrite He.
  - inversion Ha as [|? ? Ha1 Ha2]; subst. eapply Hgo; [exact H|exact Ha1|now left|]. intros e' i He. apply E_ret. eapply E_mono; [eapply IH; [exact Ha2|apply adv]|]. intros es' s' (new & -> & Hn). exists (e' :: new). split; [now rewrite <- app_assoc|]. cbn [map]. now rewrite He, Hn.
Qed.
Lemma script_parsed es ts s : script es ts -> Forall (All respects) es -> source None ts true s ->
  exists es' sp, parse_stmts s = Parsed es' sp /\ map strip es' = map strip es.
Proof.
  intros Hs Ha Hsrc. destruct (source_states _ _ _ Hsrc) as (sts & Hsts & Hit).
  set (s0 := mkP (mkItem 0 None match ts with [] => true | _ => false end None) (match ts with [] => [] | _ => items_at 1 ts end) []).
  assert (H0 : init_pstate (number_items s 0 sts) = Some s0) by (rewrite Hit; destruct ts as [|t r]; [reflexivity|]; rewrite expected_items by discriminate; reflexivity).
  assert (Had : exists id, advance s0 = st id ts) by (destruct ts; [exists 0|exists 1]; reflexivity). destruct Had as (id & Had).
  destruct (script_loop _ _ Hs Ha [] s0 id Had) as (f0 & es' & s' & Hr & new & -> & He). cbn [app] in *.
  exists new, (spans sts). split; [|exact He]. unfold parse_stmts. rewrite (api_eq s sts Hsts).
  rewrite <- (run_ends s sts Hsts f0 s0 H0) by lia. unfold ParseStmts. now rewrite Hr by lia.
Qed.
Lemma ddl_parsed t l s : ddl t l -> All respects t -> source None (toks l) true s ->
  exists t' sp, parse_stmts s = Parsed [t'] sp /\ strip t' = strip t.
Proof.
  intros Hs Ha Hsrc. destruct (script_parsed [t] (toks l) s) as (es & sp & Hp & He); [now apply Script_last|auto|exact Hsrc|].
  destruct es as [|t' [|? ?]]; try discriminate He. injection He as He. eauto.
Qed.
