(** Canonical GRANT and DROP USER statements for C25 and C26: parsing. *)
From Coq Require Import String List Arith Bool Lia.
From Verif Require Import Str Keyword Lexer LexSpec LexGrammar LexTokens Ast AstPos AstSubs Strip StripFacts Prog RunFacts FuelFacts ParserCommon ParserExpr ParserQuery ParserTable ParserView ParserAlter ParserSystem Parser Exec PrecSpec RoundSpec RoundExec RoundBase RoundExpr RoundOps RoundPrim RoundClause RoundFrom RoundQuery RoundAll RoundStmt RoundMoreSpec RoundMoreParse RoundDdlSpec RoundDdlParse RoundDdlCols RoundDdlAlter RoundDdlCreate.
Import ListNotations.
Local Open Scope string_scope.
Local Open Scope list_scope.
Local Open Scope nat_scope.

(** ** Parsing *)
Ltac prv := cbv beta iota; match goal with
  | |- Ends (ifKw _ _ _) _ _ => unfold ifKw at 1; stp
  | |- Ends (parsePrivilegeAlter _) _ _ => unfold parsePrivilegeAlter
  | |- Ends (parsePrivilegeCreate _) _ _ => unfold parsePrivilegeCreate
  | |- Ends (parsePrivilegeDrop _) _ _ => unfold parsePrivilegeDrop
  | |- Ends (parsePrivilegeShow _) _ _ => unfold parsePrivilegeShow
  | |- Ends (parsePrivilegeSystem _) _ _ => unfold parsePrivilegeSystem
  | |- Ends (if ?b then _ else _) _ _ => first [replace b with false by reflexivity|replace b with true by reflexivity]
  | |- Ends (privilege _ _) _ _ => unfold privilege; apply E_got; split; [reflexivity|discriminate]
  | |- _ => stp
  end.
Lemma words_run p q ws : In ws privilege_words -> parses parsePrivilegeClause (EPrivilegeClause p q ws ENil) (words ws) (heads [O ","; K "ON"]).
Proof.
  intros H id ts Hts. unfold parsePrivilegeClause. unfold privilege_words in H. cbn [app map flat_map] in H.
  repeat (destruct H as [<-|H]; [wds; nrm; cbn [app]; apply X_cur; cbv zeta; repeat prv|]). destruct H.
Qed.
Lemma privilege_run e l : privilege_clause e l -> All respects e -> parses parsePrivilegeClause e l (heads [O ","; K "ON"]).
Proof.
  intros [p q ws H|p q w e' l' Hw H] Ha; [now apply words_run|]. intros id ts Hts. kids. nrm. unfold parsePrivilegeClause. apply X_cur. cbv zeta.
  assert (Hx : Ends (parsePrivilegeSelectOrInsert (ipos (here (st id (K w :: toks l' ++ ts))))) (st id (K w :: toks l' ++ ts)) (Got (EPrivilegeClause p q [w] e') ts)).
  { unfold parsePrivilegeSelectOrInsert. stp. stp. apply E_bind. destruct H as [|e1 l1 H].
    - nrm. cbn [app]. stp. apply E_ret. apply E_got. split; [reflexivity|discriminate].
    - assert (Hp : RP e1 l1) by (apply (proj1 all_claims _ _ _ H); assumption). destruct Hp as (_ & (t0 & r & Er & _) & Hp).
      match goal with |- Ends (if ?b then _ else _) _ _ => replace b with true by (rewrite Er; reflexivity) end. eapply E_mono; [apply Hp; inc|]. intros x s' ([E1 E2] & j & ->). apply E_got. split; [cbn [strip K t_str]; congruence|discriminate]. }
  destruct Hw as [<-|[<-|[]]]; repeat (match goal with |- Ends (if ?b then _ else _) _ _ => first [replace b with false by reflexivity|replace b with true by reflexivity] end); exact Hx.
Qed.
Lemma star_run e t id r : star_name e t -> Ends parseIdentOrStar (st id (t :: r)) (Got e r).
Proof.
  intros [e' t' H|p q]; unfold parseIdentOrStar; apply X_cur.
  - rewrite (plain_tk _ _ _ _ H). eapply ident_tok_end; [apply H|eapply plain_ident, H].
  - repeat tst. apply X_skip. rewrite here_cons. cbn [it_tok item_at]. apply E_got. split; [reflexivity|discriminate].
Qed.
Lemma on_run {A} e l id ts (f : expr -> prog A) Q : grant_on e l -> (forall i, tk (here (st i ts)) "." = false) -> (forall e' i, ok e' e -> Ends (f e') (st i ts) Q) ->
  Ends (do x <- parseGrantSource ;; f x) (st id (toks l ++ ts)) Q.
Proof.
  intros H Hd Hf. apply E_bind. unfold parseGrantSource. destruct H as [e t H|d t e u Hd0 H]; nrm; cbn [app].
  - eapply E_bind, E_mono; [apply star_run, H|]. intros x s' ([E1 E2] & i & ->). stp. cbv beta iota. apply E_ret, Hf. split; [cbn [strip]; congruence|exact E2].
  - eapply E_bind, E_mono; [apply star_run, Hd0|]. intros x s' ([E1 E2] & i & ->). stp. cbv beta iota. stp. apply E_bind.
    assert (Hx : Ends (if tk (here (st (S i) (u :: ts))) "*" then parseIdentOrStar else parseAnyKeyword) (st (S i) (u :: ts)) (Got e ts)).
    { destruct H as [e t' H|p q]; [|now apply star_run, Star]. replace (tk _ "*") with false; [apply any_keyword_end, H|]. rewrite here_cons, tk_at. symmetry. apply (any_not _ _ _ (proj1 H)); discriminate. }
    eapply E_mono; [exact Hx|]. intros y s' ([E3 E4] & j & ->). apply E_ret, Hf. split; [cbn [strip]; congruence|exact E4].
Qed.
Lemma options_run ws ts : Forall (fun w => In w ["GRANT"; "ADMIN"]) ws -> heads [O ";"] ts -> forall acc id,
  Ends (loop acc (fun acc => do it <- cur_item ;; if kw it "WITH" then do o <- parseGrantOption ;; Ret (inl (acc ++ [o])) else Ret (inr acc))) (st id (toks (flat_map (fun w => Sp :: words ["WITH"; w; "OPTION"]) ws) ++ ts)) (fun o s' => o = acc ++ ws /\ exists i, s' = st i ts).
Proof.
  intros H Hts. induction H as [|w ws Hw H IH]; intros acc id; apply E_loop1, X_cur; cbn [flat_map].
  - nrm. cbn [app]. tst. apply E_ret. rewrite app_nil_r. eauto.
  - wds. nrm. tst. unfold parseGrantOption. apply E_bind. stp.
    assert (Hn : any_name (EIdent w QUnquoted PZero PZero) (K w)) by (destruct Hw as [<-|[<-|[]]]; [apply (An_word "GRANT")|apply (An_word "ADMIN")]; (split; [now left|reflexivity])).
    eapply E_bind, E_mono; [apply any_keyword_end, Hn|]. intros x s' ([E1 E2] & i & ->). stp. apply E_ret, E_ret.
    replace (ident_name x) with w by (destruct x; try discriminate E1; cbn [strip ident_name] in *; congruence).
    eapply E_mono; [apply IH|]. intros o s' (-> & Hs). rewrite <- app_assoc. auto.
Qed.
Lemma role_run e l : role_name e l -> parses parseRoleName e l (heads [O ","; K "SYNC"; K "NO"; K "FROM"; O ";"]).
Proof.
  intros [e' t c lc H Hc|e' t c lc H Hc] id ts Hts; assert (Hh := heads_cluster _ _ _ _ Hc Hts); nrm; cbn [app]; unfold parseRoleName; apply X_cur.
  - rewrite (plain_tk _ _ _ _ H). eapply X_plain; [exact H|]. intros x [E1 E2]. stp. cbv beta iota. stp. eapply X_cluster; [exact Hc|intros; slv|]. intros c' j [E3 E4]. apply E_got. split; [cbn [strip]; congruence|]. cbn [end_of is_nil negb]. destruct (is_nil c'); cbn [negb]; [exact E2|destruct E4; [discriminate|assumption]].
  - rewrite (string_not _ _ _ _ H), (string_tk _ _ _ _ H). eapply X_string; [exact H|]. intros x i [E1 E2]. eapply X_cluster; [exact Hc|intros; slv|]. intros c' j [E3 E4]. apply E_got. split; [cbn [strip]; congruence|]. cbn [end_of is_nil negb]. destruct (is_nil c'); cbn [negb]; [exact E2|destruct E4; [discriminate|assumption]].
Qed.
Lemma X_comma_list {A} p (F : list tok -> Prop) es ls id ts (f : list expr -> prog A) Q : Forall2 (fun e l => parses p e l F) es ls -> es <> [] -> (forall r, F (O "," :: r)) -> F ts -> (forall i, tk (here (st i ts)) "," = false) ->
  (forall es' i, Forall2 ok es' es -> es' <> [] -> Ends (f es') (st i ts) Q) -> Ends (do xs <- commaList p ;; f xs) (st id (toks (sep_by comma ls) ++ ts)) Q.
Proof.
  intros H Hn HF Ht Hc Hf. apply E_bind. unfold commaList. destruct H as [|e l es ls He H]; [congruence|]. rewrite sep_flat. nrm. eapply E_use; [exact He| |].
  { destruct ls; cbn [flat_map]; unfold comma; nrm; [exact Ht|apply HF]. }
  intros x i Hx. eapply E_mono; [apply (sep_tail p F es ls H HF [x] [e]); auto|]. intros es' s' (Hes & j & ->). apply Hf; [exact Hes|]. intros ->. inversion Hes.
Qed.
Lemma grant_run p q es ls o lo rs rts ws p0 id ts : heads [O ";"] ts -> Forall2 privilege_clause es ls -> es <> [] -> grant_on o lo -> Forall2 plain_name rs rts -> rs <> [] -> Forall (fun w => In w ["GRANT"; "ADMIN"]) ws ->
  All respects (EGrantPrivilegeStmt p q ENil es o rs ws) ->
  Ends (parseGrantPrivilegeStmt p0) (st id (K "GRANT" :: toks (sep_by comma ls) ++ K "ON" :: toks lo ++ K "TO" :: toks (sep_by comma (map (fun t => [T t]) rts)) ++ toks (flat_map (fun w => Sp :: words ["WITH"; w; "OPTION"]) ws) ++ ts))
    (Fin ts (EGrantPrivilegeStmt p q ENil es o rs ws)).
Proof.
  intros Hts Hp Hn Ho Hr Hrn Hw Ha. kids.
  assert (Hps : Forall2 (fun e l => parses parsePrivilegeClause e l (heads [O ","; K "ON"])) es ls).
  { match goal with Hx : Forall (All respects) es |- _ => revert Hx end. clear - Hp. induction Hp as [|e l es ls H Hp IH]; intros Hx; constructor; inversion Hx; subst; auto. now apply privilege_run. }
  assert (Hstart : forall i k, In k ["ON"] -> kw (here (st i (toks (sep_by comma ls) ++ K "ON" :: toks lo ++ K "TO" :: toks (sep_by comma (map (fun t => [T t]) rts)) ++ toks (flat_map (fun w => Sp :: words ["WITH"; w; "OPTION"]) ws) ++ ts))) k = false).
  { intros i k Hk. destruct Hk as [<-|[]]. destruct Hp as [|e l es ls H Hp]; [congruence|]. rewrite sep_flat. nrm. destruct H as [p1 q1 w1 H|p1 q1 w1 e1 l1 H _].
    - unfold privilege_words in H. cbn [app map flat_map] in H. repeat (destruct H as [<-|H]; [reflexivity|]). destruct H.
    - nrm. destruct H as [<-|[<-|[]]]; reflexivity. }
  assert (Ht : heads [K "WITH"; O ";"] (toks (flat_map (fun w => Sp :: words ["WITH"; w; "OPTION"]) ws) ++ ts)) by (destruct ws; wds; cbn [flat_map]; nrm; cbn [app]; [now apply heads_cons|now left]).
  unfold parseGrantPrivilegeStmt. stp. apply E_bind. unfold tryParseClusterClause. stp. apply X_tryKw_no; [apply Hstart; now left|]. apply E_ret.
  eapply (X_comma_list parsePrivilegeClause); [exact Hps|exact Hn|intros r; now left|right; now left|reflexivity|]. intros es' i1 He Hne. apply X_endOf; [eapply ok_last; eassumption|]. intros pe. stp.
  eapply on_run; [exact Ho|reflexivity|]. intros o' i2 [E1 E2]. stp. unfold parsePrivilegeRoles. eapply (X_comma_list parseIdent (fun _ => True)); [apply plains_run, Hr|exact Hrn|now intros|exact I|intros; slv|].
  intros rs' i3 Hrs Hrn'. unfold lastEnd. destruct rs' as [|r0 rs']; [congruence|]. apply X_endOf; [eapply ok_last; eassumption|]. intros pe2. unfold parseGrantOptions. eapply E_bind, E_mono; [apply (options_run ws ts Hw Hts)|]. intros o2 s' (-> & i4 & ->). cbn [app]. stp.
  apply E_ret. split; [|eauto]. apply oks_strip in He, Hrs. cbn [strip]. congruence.
Qed.
Lemma drop_run p q k es ls (i : bool) m lm f lf p0 id ts : heads [O ";"] ts -> In k ["USER"; "ROLE"] -> Forall2 role_name es ls -> es <> [] -> modifier m lm -> role_from f lf -> m = "" \/ f = ENil ->
  Ends (parserDropUserOrRole p0) (st id (K k :: toks (flag i ["IF"; "EXISTS"]) ++ toks (sep_by comma ls) ++ toks lm ++ toks lf ++ ts)) (Fin ts (EDropUserOrRole p k q es i m f)).
Proof.
  intros Hts Hk Hr Hn Hm Hf Hor. unfold parserDropUserOrRole.
  assert (Hrs : Forall2 (fun e l => parses parseRoleName e l (heads [O ","; K "SYNC"; K "NO"; K "FROM"; O ";"])) es ls) by (clear - Hr; induction Hr; constructor; [now apply role_run|assumption]).
  assert (T1 : heads [K "FROM"; O ";"] (toks lf ++ ts)) by (destruct Hf; nrm; cbn [app]; [now apply heads_cons|now left]). assert (T2 := heads_modifier _ _ _ _ Hm T1).
  assert (Hif : forall j, kw (here (st j (toks (sep_by comma ls) ++ toks lm ++ toks lf ++ ts))) "IF" = false).
  { intros j. destruct Hr as [|e l es ls H Hr]; [congruence|]. rewrite sep_flat. nrm. destruct H as [e t c lc H _|e t c lc H _]; nrm; [eapply plain_kw; [exact H|reflexivity]|]. destruct H. reflexivity. }
  apply X_cur. replace (kws _ ["USER"; "ROLE"]) with true by (destruct Hk as [<-|[<-|[]]]; reflexivity). stp. eapply X_if; [exact Hif|]. intros j.
  eapply (X_comma_list parseRoleName); [exact Hrs|exact Hn|intros r; now left|inc|intros; slv|]. intros es' i1 He Hne. apply X_endOf; [eapply ok_last; eassumption|]. intros pe.
  apply E_bind. unfold tryParseClusterClause. stp. stp. apply E_ret. apply X_endOr; [now left|]. intros pe2. apply oks_strip in He.
  destruct Hor as [-> | ->].
  - inversion Hm; subst. clear T1 T2. nrm. cbn [app]. destruct Hf as [|e t Hf]; nrm; cbn [app]; apply E_bind; unfold ifKw; stp.
    + apply E_ret. unfold tryParseModifier. apply E_bind. unfold ifKw. stp. stp. apply E_ret, E_ret. split; [|eauto]. cbn [strip K t_str]. congruence.
    + apply E_last. eapply X_plain; [exact Hf|]. intros x [E1 E2]. apply E_ret. unfold tryParseModifier. apply E_bind. unfold ifKw. stp. stp. apply E_ret, E_ret. split; [|eauto]. cbn [strip K t_str]. congruence.
  - assert (T3 := heads_modifier _ _ _ _ Hm Hts). clear T1 T2. inversion Hf; subst; [|exfalso; match goal with Hp : plain_name ENil _ |- _ => destruct Hp as [Hp _]; inversion Hp end]. nrm. cbn [app]. apply E_bind. unfold ifKw. stp. apply E_ret. eapply X_modifier; [exact Hm|intros; destruct ts as [|t r]; [reflexivity|destruct Hts as [<-|[]]; reflexivity]|]. intros i2. apply E_ret. split; [|eauto]. cbn [strip K t_str]. congruence.
Qed.
