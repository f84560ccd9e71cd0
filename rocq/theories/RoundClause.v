(** Running the parser over the clauses of a canonical query. *)
From Coq Require Import String List Arith Bool Lia.
From Verif Require Import Str Keyword Lexer LexGrammar LexTokens Ast AstPos AstSubs Strip StripFacts Prog RunFacts FuelFacts ParserCommon ParserExpr ParserQuery Parser Exec PrecSpec RoundSpec RoundExec RoundBase RoundExpr RoundOps RoundPrim.
Import ListNotations.
Local Open Scope string_scope.
Local Open Scope list_scope.
Local Open Scope nat_scope.

Lemma ok_nil e' e : ok e' e -> is_nil e' = false.
Proof. intros [_ H]. destruct e'; try reflexivity. exfalso. apply H. reflexivity. Qed.
Lemma ok_okn e' e : ok e' e -> okn e' e.
Proof. intros [H1 H2]. split; auto. Qed.
Lemma okn_nil : okn ENil ENil.
Proof. split; auto. Qed.

(** ** What may follow each clause *)
Definition c_set : list tok := [O ")"; K "UNION"; K "INTERSECT"; K "EXCEPT"; O ";"].
Definition c_format := K "FORMAT" :: c_set.
Definition c_settings := K "SETTINGS" :: c_format.
Definition c_limit := K "LIMIT" :: K "OFFSET" :: c_settings.
Definition c_order := K "ORDER" :: c_limit.
Definition c_having := K "HAVING" :: c_order.
Definition c_group := K "GROUP" :: c_having.
Definition c_where := K "WHERE" :: c_group.
Definition c_prewhere := K "PREWHERE" :: c_where.
Definition c_from := K "FROM" :: c_prewhere.
Definition j_starts : list tok := map K ["CROSS"; "INNER"; "LEFT"; "RIGHT"; "FULL"; "ANY"; "ALL"; "ASOF"; "SEMI"; "JOIN"].
Definition c_join := j_starts ++ c_prewhere.
Definition c_comma := O "," :: c_join.
Definition c_table := K "ON" :: K "USING" :: c_comma.

(** A clause: its keyword, and the function that parses it from there. *)
Definition Clause (w : string) (p : pos -> prog expr) (F : list tok) (e : expr) (l : list sym) : Prop :=
  (exists r, toks l = K w :: r) /\ forall q, parses (p q) e l (heads F).

Lemma heads_cons t C ts : heads C ts -> heads (t :: C) ts.
Proof. destruct ts; [auto|]. now right. Qed.
Lemma heads_clause w p F e l C ts : opt (Clause w p F) e l -> heads C ts -> heads (K w :: C) (toks l ++ ts).
Proof.
  intros [[_ ->]|(l' & -> & (r & E) & _)] H; nrm; [now apply heads_cons|]. rewrite E. now left.
Qed.

Lemma X_when {A} w p F e l id ts (f : expr -> prog A) Q : opt (Clause w p F) e l -> heads F ts -> kw (here (st id ts)) w = false -> k1 (K w) w = true ->
  (forall e' id', okn e' e -> Ends (f e') (st id' ts) Q) -> Ends (do x <- whenKw w p ;; f x) (st id (toks l ++ ts)) Q.
Proof.
  intros [[-> ->]|(l' & -> & (r & E) & H)] Hts Hw Hk Hf; apply E_bind; unfold whenKw; apply X_cur.
  - nrm. cbn [app]. rewrite Hw. apply E_ret, Hf, okn_nil.
  - nrm. assert (Hp := H (ipos (here (st id (toks l' ++ ts)))) id ts Hts). rewrite E in *. cbn [app] in *. rewrite here_cons, kw_at, Hk. eapply E_mono; [exact Hp|]. intros e' s' (He & id' & ->). apply Hf, ok_okn, He.
Qed.

(** ** Simple clauses *)
Ltac inc := eapply heads_incl; [eassumption | vm_compute; reflexivity].

Lemma prewhere_ok p e l : XP e l -> Clause "PREWHERE" parsePrewhereClause c_where (EPrewhereClause p e) (T (K "PREWHERE") :: Sp :: l).
Proof.
  intros H. split; [nrm; eauto|]. intros q id ts Hts. nrm. unfold parsePrewhereClause. repeat stp. eapply E_use; [apply expr_here, H|inc|]. intros e' i [E1 E2]. apply E_got. split; [cbn [strip]; congruence|exact E2].
Qed.
Lemma where_ok p e l : XP e l -> Clause "WHERE" parseWhereClause c_group (EWhereClause p e) (T (K "WHERE") :: Sp :: l).
Proof.
  intros H. split; [nrm; eauto|]. intros q id ts Hts. nrm. unfold parseWhereClause. repeat stp. eapply E_use; [apply expr_here, H|inc|]. intros e' i [E1 E2]. apply E_got. split; [cbn [strip]; congruence|exact E2].
Qed.
Lemma having_ok p e l : column e l -> Clause "HAVING" parseHavingClause c_order (EHavingClause p e) (T (K "HAVING") :: Sp :: l).
Proof.
  intros [Hs H]. split; [nrm; eauto|]. intros q id ts Hts. nrm. unfold parseHavingClause. repeat stp. eapply E_use; [apply H|inc|]. intros e' i [E1 E2]. apply E_got. split; [cbn [strip]; congruence|exact E2].
Qed.
Lemma columns_start es ls ts : Forall2 column es ls -> es <> [] -> exists l, starts l /\ toks (sep_by comma ls) ++ ts = toks l.
Proof.
  intros [|e l es' ls' [Hs _] H] Hn; [congruence|]. exists (sep_by comma (l :: ls') ++ map T ts). split.
  - destruct ls' as [|l2 ls']; [cbn [sep_by]; now apply starts_app|]. rewrite sep_cons, <- !app_assoc. now apply starts_app.
  - rewrite toks_app. f_equal. induction ts as [|t ts IH]; [reflexivity|]. cbn [map]. now rewrite toks_T, <- IH.
Qed.
Lemma X_tryKws_starts {A} l id k r (f : bool -> prog A) (Q : A -> pstate -> Prop) : starts l -> str_in (upper k) touchy && negb (String.eqb (upper k) "NOT") && negb (String.eqb (upper k) "CASE") = true ->
  Ends (f false) (st id (toks l)) Q -> Ends (do b <- tryKws (k :: r) ;; f b) (st id (toks l)) Q.
Proof. intros Hl Hk H. apply X_tryKws_no; [|exact H]. rewrite <- (app_nil_r (toks l)). now apply starts_kw. Qed.
Lemma group_ok p q p' q' es ls : Forall2 column es ls -> es <> [] ->
  Clause "GROUP" parseGroupByClause c_having (EGroupByClause p q "" (EColumnExprList p' q' false es) false false false) (T (K "GROUP") :: Sp :: T (K "BY") :: Sp :: sep_by comma ls).
Proof.
  intros H Hn. split; [nrm; eauto|]. intros q0 id ts Hts. nrm. unfold parseGroupByClause. repeat stp.
  destruct (columns_start es ls ts H Hn) as (l & Hl & El).
  assert (Hk : forall ks, forallb (fun k => str_in (upper k) touchy && negb (String.eqb (upper k) "NOT") && negb (String.eqb (upper k) "CASE")) ks = true -> forall i, kws (here (st i (toks (sep_by comma ls) ++ ts))) ks = false).
  { intros ks Hks i. rewrite El, <- (app_nil_r (toks l)). now apply starts_kws. }
  assert (Hk1 : forall k, str_in (upper k) touchy && negb (String.eqb (upper k) "NOT") && negb (String.eqb (upper k) "CASE") = true -> forall i, kw (here (st i (toks (sep_by comma ls) ++ ts))) k = false).
  { intros ks Hks i. rewrite El, <- (app_nil_r (toks l)). now apply starts_kw. }
  rewrite Hk by (vm_compute; reflexivity). apply E_bind. apply X_tryKws_no; [apply Hk1; vm_compute; reflexivity|]. rewrite Hk1 by (vm_compute; reflexivity).
  apply E_bind. unfold parseColumnExprListWithLParen. apply X_pos. eapply E_mono; [apply (column_list (Some ")") false) with (es := es); auto; inc|].
  intros x s' ((q1 & es' & -> & He) & id' & ->). apply E_ret. apply X_endOr; [right; discriminate|]. intros p1. apply E_bind. apply E_loop1. repeat stp. apply E_ret. apply E_got.
  split; [cbn [strip]; now rewrite (oks_strip _ _ He)|discriminate].
Qed.

(** ORDER BY, also in the engine of a table *)
Definition c_engine : list tok := map K ["PARTITION"; "PRIMARY"; "SAMPLE"; "TTL"; "COMMENT"; "POPULATE"].
Definition OrdP (e : expr) (l : list sym) : Prop := starts l /\ forall p, parses (parseOrderExpr p) e l (heads (O "," :: c_limit ++ c_engine)).
Lemma order_ok p e l d : XP e l -> In d [""; "ASC"; "DESC"] -> OrdP (EOrderExpr p e ENil d ENil) (l ++ if String.eqb d "" then [] else [Sp; T (K d)]).
Proof.
  intros H Hd. split; [apply starts_app, H|]. intros p0 id ts Hts. unfold parseOrderExpr.
  destruct Hd as [<-|[<-|[<-|[]]]]; cbn [String.eqb Ascii.eqb Bool.eqb]; nrm; cbn [app].
  - eapply E_use; [apply expr_at, H|inc|]. intros e' i [E1 E2]. repeat stp. destruct (kw (here (st i ts)) "TTL"); repeat stp; (apply E_got; split; [cbn [strip]; congruence|exact E2]).
  - eapply E_use; [apply expr_at, H|cbn; auto 50|]. intros e' i [E1 E2]. repeat stp. apply E_ret. repeat stp. apply E_got. split; [cbn [strip]; congruence|exact E2].
  - eapply E_use; [apply expr_at, H|cbn; auto 50|]. intros e' i [E1 E2]. repeat stp. apply E_ret. repeat stp. apply E_got. split; [cbn [strip]; congruence|exact E2].
Qed.
Lemma orders_run p es ls : Forall2 OrdP es ls -> forall e l acc acc0 id ts, OrdP e l -> Forall2 ok acc acc0 -> heads c_limit ts ->
  Ends (loop acc (fun acc => do e <- parseOrderExpr p ;; let acc := (acc ++ [e])%list in do it <- cur_item ;; if it_eof it then Ret (inr acc) else do c <- tryTkb "," ;; Ret (if c then inl acc else inr acc)))
    (st id (toks (sep_by comma (l :: ls)) ++ ts)) (Gots (acc0 ++ e :: es) ts).
Proof.
  intros H. induction H as [|e2 l2 es ls H1 H IH]; intros e l acc acc0 id ts [Hs He] Ha Hts; apply E_loop1.
  - cbn [sep_by]. eapply E_use; [apply He|inc|]. intros e' i E. cbv zeta. apply X_cur.
    assert (HF : Forall2 ok (acc ++ [e']) (acc0 ++ [e])) by (apply Forall2_app; auto).
    destruct (it_eof (here (st i ts))); [apply E_ret; split; eauto|]. stp. apply E_ret. split; eauto.
  - rewrite sep_cons. unfold comma at 1. nrm. eapply E_use; [apply He|cbn; auto|]. intros e' i E. cbv zeta. apply X_cur. rewrite here_cons.
    assert (Hne : exists t r, toks (sep_by comma (l2 :: ls)) ++ ts = t :: r).
    { destruct H1 as [(t & r & E2 & _) _]. destruct ls as [|l3 ls]; [cbn [sep_by]|rewrite sep_cons, toks_app]; rewrite E2; cbn [app]; eauto. }
    destruct Hne as (t & r & Ht). rewrite Ht. cbn [it_eof item_at]. rewrite <- Ht. stp. apply E_ret.
    replace (acc0 ++ e :: e2 :: es) with ((acc0 ++ [e]) ++ e2 :: es) by now rewrite <- app_assoc. apply IH; auto. apply Forall2_app; auto.
Qed.
Definition OrderByP (e : expr) (l : list sym) : Prop := (exists r, toks l = K "ORDER" :: r) /\ parses tryParseOrderByClauseHere e l (heads c_limit).
Lemma order_by_ok p q es ls : Forall2 OrdP es ls -> es <> [] -> OrderByP (EOrderByClause p q es ENil) (T (K "ORDER") :: Sp :: T (K "BY") :: Sp :: sep_by comma ls).
Proof.
  intros H Hn. split; [nrm; eauto|]. intros id ts Hts. nrm. unfold tryParseOrderByClauseHere, tryParseOrderByClause. repeat stp. unfold parseOrderByClause.
  destruct H as [|e l es ls He H]; [congruence|]. apply E_bind. eapply E_mono; [apply (orders_run _ es ls H e l [] []); auto|]. intros es' s' (Hes & id' & ->). cbn [app] in Hes.
  eapply X_lastEnd; [exact Hes|]. intros p1. repeat stp. apply E_got. split; [cbn [strip]; now rewrite (oks_strip _ _ Hes)|discriminate].
Qed.

(** A clause whose parsing function checks for its keyword itself. *)
Definition Clause2 (w : string) (p : prog expr) (F : list tok) (e : expr) (l : list sym) : Prop :=
  (exists r, toks l = K w :: r) /\ parses p e l (heads F).
Lemma heads_clause2 w p F e l C ts : opt (Clause2 w p F) e l -> heads C ts -> heads (K w :: C) (toks l ++ ts).
Proof. intros [[_ ->]|(l' & -> & (r & E) & _)] H; nrm; [now apply heads_cons|]. rewrite E. now left. Qed.
Lemma X_opt {A} w p F e l id ts (f : expr -> prog A) Q : opt (Clause2 w p F) e l -> heads F ts -> Ends p (st id ts) (fun x s' => x = ENil /\ s' = st id ts) ->
  (forall e' id', okn e' e -> Ends (f e') (st id' ts) Q) -> Ends (do x <- p ;; f x) (st id (toks l ++ ts)) Q.
Proof.
  intros [[-> ->]|(l' & -> & _ & H)] Hts Hp Hf; apply E_bind.
  - nrm. eapply E_mono; [exact Hp|]. intros x s' [-> ->]. apply Hf, okn_nil.
  - nrm. eapply E_mono; [apply H, Hts|]. intros e' s' (He & id' & ->). apply Hf, ok_okn, He.
Qed.

(** ** LIMIT *)
Definition LimP (e : expr) (l : list sym) : Prop :=
  (exists p a o, e = ELimitClause p a o) /\ (exists r, toks l = K "LIMIT" :: r \/ toks l = K "OFFSET" :: r) /\ forall q, parses (parseLimitClause q) e l (heads (K "BY" :: c_settings)).
Lemma limit_ok p e l : XP e l -> LimP (ELimitClause p e ENil) (T (K "LIMIT") :: Sp :: l).
Proof.
  intros H. split; [eauto|]. split; [nrm; eauto|]. intros q id ts Hts. nrm. unfold parseLimitClause. repeat stp. eapply E_use; [apply expr_here, H|inc|]. intros e' i [E1 E2]. repeat stp. apply E_ret. apply E_got.
  split; [cbn [strip]; congruence|exact E2].
Qed.
Lemma limit_offset_ok p e l o lo : XP e l -> XP o lo -> LimP (ELimitClause p e o) (T (K "LIMIT") :: Sp :: l ++ [Sp; T (K "OFFSET"); Sp] ++ lo).
Proof.
  intros H Ho. split; [eauto|]. split; [nrm; eauto|]. intros q id ts Hts. nrm. unfold parseLimitClause. repeat stp. eapply E_use; [apply expr_here, H|cbn; auto 50|]. intros e' i [E1 E2]. repeat stp.
  eapply E_use; [apply expr_here, Ho|inc|]. intros o' i2 Eo. apply E_ret. apply E_got. split; [destruct Eo; cbn [strip]; congruence|]. cbn [end_of]. rewrite (ok_nil _ _ Eo). apply Eo.
Qed.
Lemma offset_ok p o lo : XP o lo -> LimP (ELimitClause p ENil o) (T (K "OFFSET") :: Sp :: lo).
Proof.
  intros Ho. split; [eauto|]. split; [nrm; eauto|]. intros q id ts Hts. nrm. unfold parseLimitClause. repeat stp.
  eapply E_use; [apply expr_here, Ho|inc|]. intros o' i2 Eo. apply E_ret. apply E_got. split; [destruct Eo; cbn [strip]; congruence|]. cbn [end_of]. rewrite (ok_nil _ _ Eo). apply Eo.
Qed.
Definition LimByP (e : expr) (l : list sym) : Prop :=
  (exists m b, e = ELimitByClause m b) /\ (exists r, toks l = K "LIMIT" :: r) /\ forall q, parses (parseLimitByClause q) e l (heads c_limit).
Lemma limit_by_ok m lm r p q es ls : LimP m lm -> toks lm = K "LIMIT" :: r -> Forall2 column es ls -> es <> [] ->
  LimByP (ELimitByClause m (EColumnExprList p q false es)) (lm ++ [Sp; T (K "BY"); Sp] ++ sep_by comma ls).
Proof.
  intros (_ & _ & H) E Hc Hn. split; [eauto|]. split; [nrm; rewrite E; cbn [app]; eauto|]. intros q0 id ts Hts. nrm. unfold parseLimitByClause. eapply E_use; [apply H|cbn; auto|]. intros m' i [E1 E2]. repeat stp.
  apply E_bind. unfold parseColumnExprListWithLParen. apply X_pos. eapply E_mono; [apply (column_list (Some ")") false) with (es := es); auto; inc|].
  intros x s' ((q1 & es' & -> & He) & id' & ->). apply E_got. split; [cbn [strip]; rewrite E1, (oks_strip _ _ He); reflexivity|discriminate].
Qed.

Lemma strip_limit e' p a o : strip e' = strip (ELimitClause p a o) -> exists p' a' o', e' = ELimitClause p' a' o'.
Proof. destruct e'; intros H; cbn [strip] in H; try discriminate H. eauto. Qed.
Lemma strip_limit_by e' a o : strip e' = strip (ELimitByClause a o) -> exists a' o', e' = ELimitByClause a' o'.
Proof. destruct e'; intros H; cbn [strip] in H; try discriminate H. eauto. Qed.

Lemma heads_limit lb llb li lli ts : opt LimByP lb llb -> opt LimP li lli -> heads c_settings ts -> heads c_limit (toks llb ++ toks lli ++ ts).
Proof.
  intros [[_ ->]|(l' & -> & _ & (r & E) & _)] H2 Hts; nrm; [|rewrite E; now left].
  destruct H2 as [[_ ->]|(l2 & -> & _ & (r & [E|E]) & _)]; nrm; [now apply heads_cons, heads_cons|rewrite E; now left|rewrite E; right; now left].
Qed.

Lemma limits_run {A} lb llb li lli ts id se (f : expr * expr * pos -> prog A) Q : opt LimByP lb llb -> opt LimP li lli -> llb = [] \/ (forall r, toks lli <> K "OFFSET" :: r) -> heads c_settings ts ->
  (forall lb' li' se' id', okn lb' lb -> okn li' li -> Ends (f (lb', li', se')) (st id' ts) Q) ->
  Ends (do parsedLimitBy <- tryParseLimitByClause ;;
    do x <-
    (if negb (is_nil parsedLimitBy) then
       do statementEnd <- endOf parsedLimitBy ;;
       match parsedLimitBy with
       | (ELimitByClause _ _) =>
           do limit <- tryParseLimitAfterLimitByClause ;;
           do statementEnd <- endOr limit statementEnd ;;
           Ret (parsedLimitBy, limit, statementEnd)
       | _ => Ret (ENil, parsedLimitBy, statementEnd)
       end
     else
       do limit <- tryParseLimitClause ;;
       do statementEnd <- endOr limit se ;;
       Ret (ENil, limit, statementEnd)) ;; f x) (st id (toks llb ++ toks lli ++ ts)) Q.
Proof.
  intros H1 H2 Hs Hts Hf. unfold tryParseLimitByClause, whenKw.
  destruct H1 as [[-> ->]|(l' & -> & (m & b & ->) & (r & E) & H1)].
  - nrm. cbn [app]. destruct H2 as [[-> ->]|(l2 & -> & (p1 & a & o & ->) & (r & E) & H2)].
    + nrm. cbn [app]. apply E_bind. apply X_cur. cbv beta. tst. apply E_ret. cbn [is_nil negb]. apply E_bind. unfold tryParseLimitClause. apply E_bind. repeat stp. apply E_ret. apply X_endOr; [auto|]. intros p. apply E_ret. apply Hf; apply okn_nil.
    + nrm. apply E_bind. apply X_cur.
      assert (Hp : forall q i, Ends (parseLimitClause q) (st i (toks l2 ++ ts)) (Got (ELimitClause p1 a o) ts)) by (intros q i; apply H2; inc).
      destruct E as [E|E]; rewrite E in *; cbn [app] in *.
      * tst. unfold parseLimitByClause. apply E_bind. eapply E_mono; [apply Hp|]. intros e' s' ([E1 E2] & id' & ->). repeat stp. apply E_ret.
        destruct (strip_limit _ _ _ _ E1) as (p' & a' & o' & ->). cbn [is_nil negb]. apply E_bind. apply X_endOf; [exact E2|]. intros pe. apply E_ret. apply Hf; [apply okn_nil|]. split; auto.
      * tst. apply E_ret. cbn [is_nil negb]. apply E_bind, E_bind. unfold tryParseLimitClause. repeat stp. eapply E_mono; [apply Hp|]. intros e' s' ([E1 E2] & id' & ->). apply X_endOr; [auto|]. intros pe. apply E_ret. apply Hf; [apply okn_nil|]. split; auto.
  - nrm. assert (Hh2 : heads c_limit (toks lli ++ ts)) by (eapply (heads_limit ENil []); [now left|exact H2|exact Hts]).
    apply E_bind. apply X_cur. assert (Hp := H1 (ipos (here (st id (toks l' ++ toks lli ++ ts)))) id _ Hh2). rewrite E in *. cbn [app] in *. tst. eapply E_mono; [exact Hp|]. intros e' s' ([E1 E2] & id' & ->).
    destruct (strip_limit_by _ _ _ E1) as (a' & b' & ->). cbn [is_nil negb]. apply E_bind. apply X_endOf; [exact E2|]. intros pe.
    unfold tryParseLimitAfterLimitByClause, whenKw.
    destruct H2 as [[-> ->]|(l2 & -> & (p1 & a & o & ->) & (r2 & E') & H2)].
    + nrm. cbn [app]. clear Hh2 Hp. apply E_bind, X_cur. cbv beta. tst. apply E_ret. apply X_endOr; [auto|]. intros p. apply E_ret. apply Hf; [split; auto|apply okn_nil].
    + nrm. apply E_bind, X_cur. destruct E' as [E'|E']; [|exfalso; destruct Hs as [Hs|Hs]; [discriminate Hs|]; apply (Hs r2); now rewrite toks_Sp].
      assert (Hp2 : forall q i, Ends (parseLimitClause q) (st i (toks l2 ++ ts)) (Got (ELimitClause p1 a o) ts)) by (intros q i; apply H2; inc).
      rewrite E' in *. cbn [app] in *. tst. eapply E_mono; [apply Hp2|]. intros x s' ([E3 E4] & id'' & ->). apply X_endOr; [auto|]. intros p. apply E_ret. apply Hf; split; auto.
Qed.

(** ** SETTINGS and FORMAT *)
Lemma sep_flat l ls : sep_by comma (l :: ls) = l ++ flat_map (fun l => comma ++ l) ls.
Proof. revert l. induction ls as [|l2 ls IH]; intros l; [now rewrite app_nil_r|]. now rewrite sep_cons, IH. Qed.
Lemma sep_tail p (F : list tok -> Prop) es ls : Forall2 (fun e l => parses p e l F) es ls -> (forall r, F (O "," :: r)) -> forall acc acc0 id ts, Forall2 ok acc acc0 -> F ts -> (forall i, tk (here (st i ts)) "," = false) ->
  Ends (sepTail "," acc p) (st id (toks (flat_map (fun l => comma ++ l) ls) ++ ts)) (Gots (acc0 ++ es) ts).
Proof.
  intros H HF. unfold sepTail. induction H as [|e l es ls H1 H IH]; intros acc acc0 id ts Ha Hts Hc; apply E_loop1.
  - cbn [flat_map]. nrm. cbn [app]. apply X_tryTk_no; [apply Hc|]. apply E_ret. rewrite app_nil_r. split; eauto.
  - cbn [flat_map]. unfold comma at 1. nrm. stp. eapply E_use; [exact H1| |].
    + destruct ls; cbn [flat_map]; unfold comma; nrm; [exact Hts|apply HF].
    + intros e' i He. apply E_ret. replace (acc0 ++ e :: es) with ((acc0 ++ [e]) ++ es) by now rewrite <- app_assoc. apply IH; auto. apply Forall2_app; auto.
Qed.
Definition SetP (e : expr) (l : list sym) : Prop := parses parseSettingsExpr e l (heads (O "," :: c_format)).
Lemma setting_ok p n t v u : name n t -> (number_lit v u /\ t_kind u = KInt) \/ string_lit v u -> SetP (ESettingExpr p n v) [T t; T (O "="); T u].
Proof.
  intros Hn Hv id ts Hts. nrm. cbn [app]. unfold parseSettingsExpr. repeat stp. eapply ident_tok; [apply Hn|eapply name_ident, Hn|]. intros n' [E1 E2]. repeat stp.
  apply E_bind. rewrite here_cons, !tk_at. destruct Hv as [[Hv Hk]|Hv].
  - unfold t1. rewrite Hk. cbn [str_in existsb String.eqb orb]. repeat stp. eapply E_mono; [apply number_here, Hv|]. intros v' s' ([E3 E4] & i & ->). apply E_got. split; [cbn [strip]; congruence|exact E4].
  - assert (Hs : Ends parseStringHere (st (S (S id)) (u :: ts)) (Got v ts)) by (unfold parseStringHere; apply X_pos; now apply string_pos).
    replace (t1 u [KInt]) with false by (destruct Hv; reflexivity). replace (t1 u [KString]) with true by (destruct Hv; reflexivity). eapply E_mono; [exact Hs|]. intros v' s' ([E3 E4] & i & ->). apply E_got. split; [cbn [strip]; congruence|exact E4].
Qed.
Lemma Forall2_imp {A B} (P Q : A -> B -> Prop) l l' : (forall a b, P a b -> Q a b) -> Forall2 P l l' -> Forall2 Q l l'.
Proof. intros H. induction 1; constructor; auto. Qed.
Lemma settings_ok p q es ls : Forall2 SetP es ls -> es <> [] -> Clause2 "SETTINGS" tryParseSettingsClause c_format (ESettingsClause p q es) (T (K "SETTINGS") :: Sp :: sep_by comma ls).
Proof.
  intros H Hn. split; [nrm; eauto|]. intros id ts Hts. nrm. unfold tryParseSettingsClause. repeat stp. unfold parseSettingsClause, parseSettingsList.
  destruct H as [|e l es ls He H]; [congruence|]. rewrite sep_flat. nrm. apply E_bind. eapply E_use; [exact He| |].
  { destruct ls; cbn [flat_map]; unfold comma; nrm; [cbn [app]; inc|now left]. }
  intros e' i Ee. eapply E_mono; [apply (sep_tail parseSettingsExpr (heads (O "," :: c_format))) with (es := es) (acc0 := [e]); auto|].
  - intros r. now left.
  - inc.
  - intros j. slv.
  - intros es' s' (Hes & id' & ->). cbn [app] in Hes. assert (Hx : es' <> []) by (intros ->; inversion Hes). assert (Hl := ok_last _ _ Hes Hx). destruct es' as [|x es']; [congruence|]. cbn [is_empty]. apply X_endOf; [exact Hl|]. intros pe. apply E_got. split; [cbn [strip]; now rewrite (oks_strip _ _ Hes)|discriminate].
Qed.
Lemma format_ok p n t : free_name n t -> Clause2 "FORMAT" tryParseFormatHere c_set (EFormatClause p n) [T (K "FORMAT"); Sp; T t].
Proof.
  intros Hn. split; [nrm; eauto|]. intros id ts Hts. nrm. cbn [app]. unfold tryParseFormatHere, tryParseFormat. repeat stp. unfold parseFormat. repeat stp. eapply ident_tok; [apply Hn|eapply free_ident, Hn|].
  intros n' [E1 E2]. apply E_got. split; [cbn [strip]; congruence|exact E2].
Qed.
