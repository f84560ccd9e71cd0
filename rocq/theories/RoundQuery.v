(** Running the parser over a canonical query. *)
From Coq Require Import String List Arith Bool Lia.
From Verif Require Import Str Keyword Lexer LexGrammar LexTokens Ast AstPos AstSubs Strip StripFacts Prog RunFacts FuelFacts ParserCommon ParserExpr ParserQuery Parser Exec PrecSpec RoundSpec RoundExec RoundBase RoundExpr RoundOps RoundPrim RoundClause RoundFrom.
Import ListNotations.
Local Open Scope string_scope.
Local Open Scope list_scope.
Local Open Scope nat_scope.

(** ** SELECT items *)
Definition clause_words : list string := ["FROM"; "PREWHERE"; "WHERE"; "GROUP"; "HAVING"; "ORDER"; "LIMIT"; "OFFSET"; "SETTINGS"; "FORMAT"].
Definition c_item : list tok := O "," :: map K clause_words ++ [O ")"; K "UNION"; K "INTERSECT"; O ";"].
Definition item_follow (ts : list tok) : Prop := heads c_item ts /\ forall r, ts = K "INTERSECT" :: r -> heads [K "SELECT"; K "WITH"] r.
Definition ItemP (e : expr) (l : list sym) : Prop := starts l /\ parses parseSelectItem e l item_follow.

Lemma X_no_modifiers {A} id ts (f : list expr -> prog A) Q : kws (here (st id ts)) ["EXCEPT"; "APPLY"; "REPLACE"] = false -> Ends (f []) (st id ts) Q ->
  Ends (do m <- loop [] (fun acc =>
    do it <- cur_item ;;
    if kws it ["EXCEPT"; "APPLY"; "REPLACE"] then
      do m <- parseFunctionExpr ;; Ret (inl (acc ++ [m])%list)
    else Ret (inr acc)) ;; f m) (st id ts) Q.
Proof. intros Hk H. apply E_bind. apply E_loop1. apply X_cur. rewrite Hk. apply E_ret. exact H. Qed.
Lemma item_ok e l : XP e l -> ItemP (ESelectItem e [] ENil) l.
Proof.
  intros H. split; [apply H|]. intros id ts [Hts Hi]. unfold parseSelectItem. eapply E_use; [apply expr_here, H|inc|]. intros e' i [E1 E2]. apply X_no_modifiers; [slv|]. stp. cbv beta iota.
  assert (Hg : Ends (Ret (ESelectItem e' [] ENil)) (st i ts) (Got (ESelectItem e [] ENil) ts)) by (apply E_got; split; [cbn [strip map]; congruence|exact E2]).
  stp. stp. destruct ts as [|t r].
  - change (tk (here (st i [])) KIdent) with false. cbv iota. apply E_ret, Hg.
  - rewrite here_cons, tk_at. destruct (tok_eqb t (K "INTERSECT")) eqn:Et.
    + apply tok_eqb_eq in Et as ->. change (t1 (K "INTERSECT") [KIdent]) with true. cbv iota. unfold isSelectItemTerminator. specialize (Hi r eq_refl). apply E_bind.
      apply (X_looks _ _ _ _ _ (looks_item i (K "INTERSECT") r)). replace (as_item r) with false. 2:{ destruct r as [|u r]; [reflexivity|]. cbn [heads] in Hi. destruct Hi as [<-|[<-|[]]]; reflexivity. }
      change (t1 (K "INTERSECT") [KKeyword]) with true. cbn [andb]. apply X_cur. rewrite here_cons. change (matchClauseStarter (item_at i (K "INTERSECT") r)) with true. apply E_ret. cbv iota. apply E_ret, Hg.
    + replace (t1 t [KIdent]) with false. 2:{ symmetry. cbn [heads] in Hts. assert (Hf : forallb (fun t => tok_eqb t (K "INTERSECT") || negb (t1 t [KIdent])) c_item = true) by (vm_compute; reflexivity). rewrite forallb_forall in Hf. specialize (Hf t Hts). rewrite Et in Hf. now apply negb_true_iff. }
      apply E_ret, Hg.
Qed.
Lemma item_as e l a t : XP e l -> any_name a t -> ItemP (ESelectItem e [] a) (l ++ [Sp; T (K "AS"); Sp; T t]).
Proof.
  intros H Ha. split; [apply starts_app, H|]. intros id ts [Hts Hi]. nrm. cbn [app]. unfold parseSelectItem. eapply E_use; [apply expr_here, H|cbn; auto 30|]. intros e' i [E1 E2]. apply X_no_modifiers; [reflexivity|]. stp. cbv beta iota.
  eapply any_keyword; [exact Ha|]. intros a' Ha'. apply E_got. destruct (ok_ident _ _ _ Ha Ha') as (n & k & p & q & ->). destruct Ha' as [E3 E4]. split; [cbn [strip map] in *; congruence|discriminate].
Qed.
Lemma items_start es ls : Forall2 ItemP es ls -> es <> [] -> starts (sep_by comma ls).
Proof.
  intros [|e l es' ls' [Hs _] H] Hn; [congruence|]. destruct ls' as [|l2 ls']; [exact Hs|]. rewrite sep_cons. now apply starts_app.
Qed.
Lemma not_terminator l id ts : starts l -> Ends isSelectItemTerminator (st id (toks l ++ ts)) (fun b s' => b = false /\ s' = st id (toks l ++ ts)).
Proof.
  intros Hl. assert (Hk : matchClauseStarter (here (st id (toks l ++ ts))) = false) by (apply starts_kws; [exact Hl|vm_compute; reflexivity]).
  destruct Hl as (t & r & E & Ht). rewrite E in *. cbn [app] in *. unfold isSelectItemTerminator. apply (X_looks _ _ _ _ _ (looks_item id t (r ++ ts))). destruct (t1 t [KKeyword] && as_item (r ++ ts)); [now apply E_ret|].
  apply X_cur. rewrite Hk. now apply E_ret.
Qed.
Lemma items_run es ls : Forall2 ItemP es ls -> es <> [] -> forall ts, item_follow ts -> (forall i, tk (here (st i ts)) "," = false) ->
  forall id, Ends parseSelectItems (st id (toks (sep_by comma ls) ++ ts)) (Gots es ts).
Proof.
  intros H Hn ts Hts Hc id. unfold parseSelectItems.
  assert (Hg : forall acc acc0, Forall2 ok acc acc0 -> forall id, Ends (loop acc (fun acc =>
    do it <- cur_item ;;
    if exhausted it then Ret (inr acc)
    else
      do x <- parseSelectItem ;;
      let acc := (acc ++ [x])%list in
      do c <- tryTkb "," ;;
      if c then
        do t <- isSelectItemTerminator ;;
        Ret (if t then inr acc else inl acc)
      else Ret (inr acc))) (st id (toks (sep_by comma ls) ++ ts)) (Gots (acc0 ++ es) ts)).
  { clear id. induction H as [|e l es ls [Hs He] H IH]; [congruence|]. intros acc acc0 Ha id. apply E_loop1.
    destruct H as [|e2 l2 es ls He2 H].
    - cbn [sep_by]. stp. stp. eapply E_use; [exact He|exact Hts|]. intros e' i Hok. cbv zeta. apply X_tryTk_no; [apply Hc|]. cbv iota. apply E_ret. split; [|eauto]. apply Forall2_app; auto.
    - rewrite sep_cons. unfold comma at 1. nrm. stp. stp. eapply E_use; [exact He|split; [now left|discriminate]|]. intros e' i Hok. cbv zeta. stp. cbv iota.
      apply E_bind. eapply E_mono; [apply not_terminator; apply (items_start (e2 :: es)); [now constructor|discriminate]|]. intros b s' [-> ->]. apply E_ret.
      replace (acc0 ++ e :: e2 :: es) with ((acc0 ++ [e]) ++ e2 :: es) by now rewrite <- app_assoc. apply IH; [discriminate|]. apply Forall2_app; auto. }
  apply (Hg [] []). constructor.
Qed.

(** ** WITH *)
Definition CteP (e : expr) (l : list sym) : Prop := parses parseCTEStmt e l (heads [O ","; K "SELECT"]).
Lemma cte_ok p e l q lq : XP e l -> QP q lq -> CteP (ECTEStmt p e q) (l ++ [Sp; T (K "AS"); Sp] ++ paren lq).
Proof.
  intros H Hq id ts Hts. nrm. unfold parseCTEStmt. stp. eapply E_use; [apply expr_at, H|cbn; auto 30|]. intros e' i [E1 E2]. stp. stp.
  replace (tk (here (st (S i) (toks (paren lq) ++ ts))) "(") with true by (unfold paren; nrm; reflexivity). eapply E_use; [apply query_paren, Hq|exact I|]. intros q' i' [E3 E4]. apply E_got. split; [cbn [strip]; congruence|exact E2].
Qed.
Lemma name_tk a t id r k : any_name a t -> str_in k [KIdent; KKeyword] = false -> tk (here (st id (t :: r))) k = false.
Proof.
  intros Ha Hk. rewrite here_cons, tk_at. unfold t1, str_in in *. cbn [existsb] in *. apply orb_false_iff in Hk as [H1 H2]. rewrite orb_false_r in H2. rewrite (String.eqb_sym KIdent), H1, !orb_false_r, andb_false_r.
  destruct (name_kind _ _ Ha) as [-> | ->]; rewrite String.eqb_sym; rewrite ?H1, ?H2; reflexivity.
Qed.
Lemma cte_name_ok p e l a t : XP e l -> any_name a t -> CteP (ECTEStmt p e a) (l ++ [Sp; T (K "AS"); Sp; T t]).
Proof.
  intros H Ha id ts Hts. nrm. cbn [app]. unfold parseCTEStmt. stp. eapply E_use; [apply expr_at, H|cbn; auto 30|]. intros e' i [E1 E2]. stp. stp. rewrite (name_tk _ _ _ _ "(" Ha eq_refl).
  eapply any_keyword; [exact Ha|]. intros a' [E3 E4]. apply E_got. split; [cbn [strip]; congruence|exact E2].
Qed.
Definition WithP (e : expr) (l : list sym) : Prop :=
  (e = ENil /\ l = []) \/ ((exists r, toks l = K "WITH" :: r) /\ forall p, parses (parseWithClause p) e l (heads [K "SELECT"])).
Lemma with_ok p q cs ls : Forall2 CteP cs ls -> cs <> [] -> WithP (EWithClause p q cs) (T (K "WITH") :: Sp :: sep_by comma ls ++ [Sp]).
Proof.
  intros H Hn. right. split; [nrm; eauto|]. intros p0 id ts Hts. nrm. unfold parseWithClause. stp. destruct H as [|e l es ls He H]; [congruence|]. rewrite sep_flat. nrm. eapply E_use; [exact He| |].
  { destruct ls; cbn [flat_map]; unfold comma; nrm; [cbn [app]; inc|now left]. }
  intros e' i Ee. apply E_bind. cbn [app]. eapply E_mono; [apply (sep_tail parseCTEStmt (heads [O ","; K "SELECT"])) with (es := es) (acc0 := [e]); auto|].
  - intros r. now left.
  - inc.
  - intros j. slv.
  - intros es' s' (Hes & id' & ->). cbn [app] in Hes. assert (Hx : es' <> []) by (intros ->; inversion Hes). assert (Hl := ok_last _ _ Hes Hx). apply X_endOf; [exact Hl|]. intros pe. apply E_got. split; [cbn [strip]; now rewrite (oks_strip _ _ Hes)|discriminate].
Qed.

(** ** Queries *)
Definition first_in (W : list string) (l : list sym) : Prop := l = [] \/ exists w r, In w W /\ toks l = K w :: r.
Lemma first_concat W ls : Forall (first_in W) ls -> concat ls <> [] -> exists w r, In w W /\ toks (concat ls) = K w :: r.
Proof.
  induction 1 as [|l ls [->|(w & r & Hw & E)] H IH]; cbn [concat]; [congruence|exact IH|]. intros _. exists w, (r ++ toks (concat ls)). split; [exact Hw|]. nrm. now rewrite E.
Qed.
Lemma opt_first w p F e l W : opt (Clause w p F) e l -> In w W -> first_in W l.
Proof. intros [[_ ->]|(l' & -> & (r & E) & _)] H; [now left|]. right. exists w, r. now nrm. Qed.
Lemma opt_first2 w p F e l W : opt (Clause2 w p F) e l -> In w W -> first_in W l.
Proof. intros [[_ ->]|(l' & -> & (r & E) & _)] H; [now left|]. right. exists w, r. now nrm. Qed.
Definition NextP (e : expr) (l : list sym) : Prop := (e = ENil /\ l = []) \/ QP e l.

Lemma X_distinct {A} (d : bool) l ts id (f : bool -> prog A) Q : starts l -> (forall i, Ends (f d) (st i (toks l ++ ts)) Q) ->
  Ends (do b <- tryKw "DISTINCT" ;; f b) (st id (toks (if d then [Sp; T (K "DISTINCT")] else []) ++ toks l ++ ts)) Q.
Proof. intros Hl H. destruct d; nrm; stp; apply H. Qed.

Lemma query_ok p q w lw (d : bool) its ls f lf pw lpw wh lwh g lg h lh ob lob lb llb li lli se lse fo lfo ua ud ex is_ lset nq lnq :
  WithP w lw -> Forall2 ItemP its ls -> its <> [] ->
  opt (Clause "FROM" parseFromClause c_prewhere) f lf -> opt (Clause "PREWHERE" parsePrewhereClause c_where) pw lpw -> opt (Clause "WHERE" parseWhereClause c_group) wh lwh ->
  opt (Clause "GROUP" parseGroupByClause c_having) g lg -> opt (Clause "HAVING" parseHavingClause c_order) h lh -> opt (Clause2 "ORDER" tryParseOrderByClauseHere c_limit) ob lob ->
  opt LimByP lb llb -> opt LimP li lli -> opt (Clause2 "SETTINGS" tryParseSettingsClause c_format) se lse -> opt (Clause2 "FORMAT" tryParseFormatHere c_set) fo lfo ->
  set_op ua ud ex is_ lset nq -> NextP nq lnq ->
  llb = [] \/ (forall r, toks lli <> K "OFFSET" :: r) ->
  ex = ENil \/ lf ++ lpw ++ lwh ++ lg ++ lh ++ lob ++ llb ++ lli ++ lse ++ lfo <> [] ->
  QP (ESelectQuery p q w ENil d ENil its f ENil pw wh g false h ob lb li se fo ua ud ex is_)
      (lw ++ [T (K "SELECT")] ++ (if d then [Sp; T (K "DISTINCT")] else []) ++ Sp :: sep_by comma ls
       ++ lf ++ lpw ++ lwh ++ lg ++ lh ++ lob ++ llb ++ lli ++ lse ++ lfo ++ lset ++ lnq).
Proof.
  intros Hw Hi Hin Hf Hpw Hwh Hg Hh Hob Hlb Hli Hse Hfo Hset Hnq Hlo Hex. split; [reflexivity|]. split.
  { destruct Hw as [[_ ->]|[(r & E) _]]; nrm; [eauto|]. rewrite E. cbn [app]. eauto. }
  intros id ts Hts.
  assert (Hset' : heads c_set (toks lset ++ toks lnq ++ ts)).
  { destruct Hset; nrm; cbn [app heads]; [|vm_compute; tauto..]. destruct Hnq as [[_ ->]|[Hn _]]; [nrm; inc|discriminate Hn]. }
  assert (Hfo' := heads_clause2 _ _ _ _ _ _ _ Hfo Hset'). assert (Hse' := heads_clause2 _ _ _ _ _ _ _ Hse Hfo').
  assert (Hli' := heads_limit _ _ _ _ _ Hlb Hli Hse'). assert (Hob' := heads_clause2 _ _ _ _ _ _ _ Hob Hli').
  assert (Hh' := heads_clause _ _ _ _ _ _ _ Hh Hob'). assert (Hg' := heads_clause _ _ _ _ _ _ _ Hg Hh').
  assert (Hwh' := heads_clause _ _ _ _ _ _ _ Hwh Hg'). assert (Hpw' := heads_clause _ _ _ _ _ _ _ Hpw Hwh').
  assert (Hf' := heads_clause _ _ _ _ _ _ _ Hf Hpw').
  assert (Hfirst : Forall (first_in clause_words) [lf; lpw; lwh; lg; lh; lob; llb; lli; lse; lfo]).
  { repeat apply Forall_cons; try apply Forall_nil; try (eapply opt_first; [eassumption|vm_compute; tauto]); try (eapply opt_first2; [eassumption|vm_compute; tauto]).
    - destruct Hlb as [[_ ->]|(l' & -> & _ & (r & E) & _)]; [now left|]. right. exists "LIMIT", r. nrm. split; [vm_compute; tauto|exact E].
    - destruct Hli as [[_ ->]|(l' & -> & _ & (r & [E|E]) & _)]; [now left|..]; right; [exists "LIMIT", r|exists "OFFSET", r]; nrm; (split; [vm_compute; tauto|exact E]). }
  assert (Hitem : item_follow (toks lf ++ toks lpw ++ toks lwh ++ toks lg ++ toks lh ++ toks lob ++ toks llb ++ toks lli ++ toks lse ++ toks lfo ++ toks lset ++ toks lnq ++ ts)
    /\ forall i, tk (here (st i (toks lf ++ toks lpw ++ toks lwh ++ toks lg ++ toks lh ++ toks lob ++ toks llb ++ toks lli ++ toks lse ++ toks lfo ++ toks lset ++ toks lnq ++ ts))) "," = false).
  { split; [|intros i; slv]. set (ls' := [lf; lpw; lwh; lg; lh; lob; llb; lli; lse; lfo]) in *.
    assert (Ec : lf ++ lpw ++ lwh ++ lg ++ lh ++ lob ++ llb ++ lli ++ lse ++ lfo = concat ls') by (cbn [concat ls']; now rewrite app_nil_r).
    replace (toks lf ++ toks lpw ++ toks lwh ++ toks lg ++ toks lh ++ toks lob ++ toks llb ++ toks lli ++ toks lse ++ toks lfo ++ toks lset ++ toks lnq ++ ts) with (toks (concat ls') ++ toks lset ++ toks lnq ++ ts).
    2:{ rewrite <- Ec. now nrm. }
    rewrite Ec in Hex. destruct (concat ls') as [|s0 c0] eqn:Ecs.
    - nrm. destruct Hex as [->|[]]; [|reflexivity]. inversion Hset; subst; nrm; cbn [app].
      + destruct Hnq as [[_ ->]|[Hn _]]; [|discriminate Hn]. nrm. split; [eapply heads_incl; [exact Hts|vm_compute; reflexivity]|]. intros r ->. cbn in Hts. destruct Hts as [Hts|[Hts|[]]]; discriminate Hts.
      + split; [vm_compute; tauto|discriminate].
      + split; [vm_compute; tauto|discriminate].
      + congruence.
      + split; [vm_compute; tauto|]. intros r Er. injection Er as <-. destruct Hnq as [[-> _]|(_ & (r & [E|E]) & _)]; [congruence|rewrite E; now left|rewrite E; right; now left].
    - rewrite <- Ecs. destruct (first_concat _ _ Hfirst) as (w0 & r0 & Hw0 & E0); [rewrite Ecs; discriminate|]. rewrite E0. cbn [app]. split.
      + cbn [heads]. right. apply in_or_app. left. now apply in_map.
      + intros r Er. injection Er as -> _. vm_compute in Hw0. repeat (destruct Hw0 as [Hw0|Hw0]; [discriminate Hw0|]). destruct Hw0. }
  destruct Hitem as [Hitem Hcomma]. assert (Hst := items_start _ _ Hi Hin).
  unfold query_core. apply E_bind. unfold parseSelectStmt. nrm. stp.
  apply E_bind. apply (E_mono _ _ (fun w' s' => okn w' w /\ exists i, s' = st i (K "SELECT" :: toks (if d then [Sp; T (K "DISTINCT")] else []) ++ toks (sep_by comma ls) ++ toks lf ++ toks lpw ++ toks lwh ++ toks lg ++ toks lh ++ toks lob ++ toks llb ++ toks lli ++ toks lse ++ toks lfo ++ toks lset ++ toks lnq ++ ts))).
  { unfold tryParseWithClause. apply X_cur. destruct Hw as [[-> ->]|[(r & E) Hw]].
    - nrm. tst. apply E_ret. split; [apply okn_nil|eauto].
    - replace (kw (here (st id (toks lw ++ K "SELECT" :: toks (if d then [Sp; T (K "DISTINCT")] else []) ++ toks (sep_by comma ls) ++ toks lf ++ toks lpw ++ toks lwh ++ toks lg ++ toks lh ++ toks lob ++ toks llb ++ toks lli ++ toks lse ++ toks lfo ++ toks lset ++ toks lnq ++ ts))) "WITH") with true by (rewrite E; reflexivity).
      eapply E_mono; [apply Hw; now left|]. intros w' s' (Hok & i & ->). split; [apply ok_okn, Hok|eauto]. }
  intros w' s' (Hw' & i0 & ->). stp.
  apply X_distinct; [exact Hst|]. intros i.
  unfold tryParseDistinctOn, whenKw. repeat stp. apply E_ret. unfold tryParseTopClause, whenKw. repeat stp. apply E_ret.
  apply E_bind. eapply E_mono; [apply (items_run _ _ Hi Hin _ Hitem Hcomma)|]. intros its' s' (Hits & i1 & ->). eapply X_lastEnd; [exact Hits|]. intros e1.
  eapply X_when; [exact Hf|exact Hpw'|slv|reflexivity|]. intros f' i2 Hf2. apply X_endOr; [apply Hf2|]. intros e2.
  eapply X_when; [exact Hpw|exact Hwh'|slv|reflexivity|]. intros pw' i3 Hpw2. apply X_endOr; [apply Hpw2|]. intros e3.
  eapply X_when; [exact Hwh|exact Hg'|slv|reflexivity|]. intros wh' i4 Hwh2. apply X_endOr; [apply Hwh2|]. intros e4.
  eapply X_when; [exact Hg|exact Hh'|slv|reflexivity|]. intros g' i5 Hg2. apply X_endOr; [apply Hg2|]. intros e5.
  apply X_tryKw_no; [slv|]. cbv iota. apply X_ret.
  eapply X_when; [exact Hh|exact Hob'|slv|reflexivity|]. intros h' i6 Hh2. apply X_endOr; [apply Hh2|]. intros e6.
  unfold tryParseWindowClause, whenKw. repeat stp. apply E_ret. apply X_endOr; [auto|]. intros e7.
  eapply X_opt; [exact Hob|exact Hli'|unfold tryParseOrderByClauseHere, tryParseOrderByClause; repeat stp; apply E_ret; auto|]. intros ob' i7 Hob2. apply X_endOr; [apply Hob2|]. intros e8.
  apply limits_run with (lb := lb) (li := li); [exact Hlb|exact Hli|exact Hlo|exact Hse'|]. intros lb' li' e9 i8 Hlb2 Hli2. cbv beta iota.
  eapply X_opt; [exact Hse|exact Hfo'|unfold tryParseSettingsClause; repeat stp; apply E_ret; auto|]. intros se' i9 Hse2. apply X_endOr; [apply Hse2|]. intros e10.
  eapply X_opt; [exact Hfo|exact Hset'|unfold tryParseFormatHere, tryParseFormat; repeat stp; apply E_ret; auto|]. intros fo' i10 Hfo2. apply X_endOr; [apply Hfo2|]. intros e11.
  apply E_ret.
  assert (Hfin : forall ua' ud' ex' is' i, okn ua' ua -> okn ud' ud -> okn ex' ex -> okn is' is_ -> Ends (Ret (ESelectQuery (ipos (here (st id (toks lw ++ K "SELECT" :: toks (if d then [Sp; T (K "DISTINCT")] else []) ++ toks (sep_by comma ls) ++ toks lf ++ toks lpw ++ toks lwh ++ toks lg ++ toks lh ++ toks lob ++ toks llb ++ toks lli ++ toks lse ++ toks lfo ++ toks lset ++ toks lnq ++ ts)))) e11 w' ENil d ENil its' f' ENil pw' wh' g' false h' ob' lb' li' se' fo' ua' ud' ex' is')) (st i ts)
    (Got (ESelectQuery p q w ENil d ENil its f ENil pw wh g false h ob lb li se fo ua ud ex is_) ts)).
  { intros ua' ud' ex' is' i' H1 H2 H3 H4. apply E_got. split; [|discriminate].
    cbn [strip map]. rewrite (oks_strip _ _ Hits). destruct Hw' as [-> _], Hf2 as [-> _], Hpw2 as [-> _], Hwh2 as [-> _], Hg2 as [-> _], Hh2 as [-> _], Hob2 as [-> _], Hlb2 as [-> _], Hli2 as [-> _], Hse2 as [-> _], Hfo2 as [-> _], H1 as [-> _], H2 as [-> _], H3 as [-> _], H4 as [-> _]. reflexivity. }
  clear - Hset Hnq Hts Hfin. revert Hfin.
  match goal with |- context [ipos ?x] => generalize (ipos x) end. intros p0 Hfin.
  destruct Hset as [|q0 Hq0|q0 Hq0|q0 Hq0|q0 Hq0]; nrm; cbn [app];
    (destruct Hnq as [[Hn ->]|Hq]; [|try (destruct Hq as [Hq _]; discriminate Hq)]); try contradiction; rewrite ?toks_nil; cbn [app];
    repeat stp; cbv iota; try (eapply E_use; [apply query_plain, Hq|exact Hts|]; intros x i [Hx1 Hx2]); apply Hfin; try apply okn_nil; split; auto.
Qed.
