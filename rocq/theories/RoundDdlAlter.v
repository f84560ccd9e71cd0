(** Every change of a canonical ALTER TABLE is parsed as the tree it spells. *)
From Coq Require Import String List Arith Bool Lia.
From Verif Require Import Str Keyword Lexer LexSpec LexGrammar LexTokens Ast AstPos AstSubs Strip StripFacts Prog RunFacts FuelFacts ParserCommon ParserExpr ParserQuery ParserTable ParserView ParserAlter ParserSystem Parser Exec PrecSpec RoundSpec RoundExec RoundBase RoundExpr RoundOps RoundPrim RoundClause RoundFrom RoundQuery RoundAll RoundStmt RoundMoreSpec RoundMoreParse RoundDdlSpec RoundDdlParse RoundDdlCols.
Import ListNotations.
Local Open Scope string_scope.
Local Open Scope list_scope.
Local Open Scope nat_scope.

Lemma Got_strip e e' ts x s : Got e ts x s -> strip e = strip e' -> Got e' ts x s.
Proof. intros [[E1 E2] H] E. split; [split; [congruence|exact E2]|exact H]. Qed.
Ltac fwd := change (words) with (fun ws => sep_by [Sp] (map (fun w => [T (K w)]) ws)); cbn [map sep_by app]; nrm; cbn [app].
Ltac by_run L := eapply E_mono; [eapply L; first [eassumption | cbn; tauto]|]; intros ?x ?s' Hg; eapply Got_strip; [exact Hg|reflexivity].
Lemma X_settings_end {A} s ls id ts (f : expr -> prog A) Q : says (Opt Settings) s ls -> All respects s -> afterwards (is_nil s) ts ->
  (forall s' i, okn s' s -> Ends (f s') (st i ts) Q) -> Ends (do x <- tryParseSettingsClause ;; f x) (st id (toks ls ++ ts)) Q.
Proof.
  intros H Ha Ht Hf. inversion H; subst.
  - change (heads [O ","; O ";"] ts) in Ht. nrm. cbn [app]. apply E_bind. unfold tryParseSettingsClause. repeat stp. apply E_ret, Hf, okn_nil.
  - match goal with Hw : says Settings _ _ |- _ => inversion Hw; subst end. change (heads [O ";"] ts) in Ht. eapply X_settings; [exact H|exact Ha|inc|exact Hf].
Qed.
Lemma settings_follow s ls ts : says (Opt Settings) s ls -> All respects s -> afterwards (is_nil s) ts -> heads [K "SETTINGS"; O ","; O ";"] (toks ls ++ ts).
Proof. intros H Ha Ht. eapply settings_heads; [exact H|exact Ha|]. unfold afterwards in Ht. destruct (is_nil s); [exact Ht|]. inc. Qed.
Ltac xp H := match type of H with says Expr ?e ?l => let HX := fresh "HX" in assert (HX : XP e l) by (apply (proj1 all_claims _ _ _ H); assumption); let Hst := fresh "Hst" in assert (Hst := XP_starts _ _ HX) end.
Lemma assignments_run es ls : Forall2 assignment es ls -> Forall (All respects) es -> Forall2 (fun e l => parses parseUpdateAssignment e l (heads [O ","; K "WHERE"])) es ls.
Proof. induction 1; intros Ha; [constructor|]. inversion Ha; subst. constructor; auto. now apply assignment_run. Qed.
Lemma X_after {A} a la id ts (f : expr -> prog A) Q : after_column a la -> (forall i, kw (here (st i ts)) "AFTER" = false) -> (forall i, tk (here (st i ts)) "." = false) ->
  (forall a' i, okn a' a -> Ends (f a') (st i ts) Q) -> Ends (do x <- tryParseAfterClause ;; f x) (st id (toks la ++ ts)) Q.
Proof.
  intros H Hk Hd Hf. apply E_bind. unfold tryParseAfterClause, ifKw. destruct H as [|e l H]; nrm; cbn [app].
  - repeat stp. apply E_ret, Hf, okn_nil.
  - repeat stp. apply E_last. eapply X_column; [exact H|exact Hd|]. intros x i Hx. apply E_ret. now apply Hf, ok_okn.
Qed.
Lemma coldef_if c lc id ts : coldef c lc -> kw (here (st id (toks lc ++ ts))) "IF" = false.
Proof. intros [p q n ln ty lt nn nl lnl d m a ld c' lc' t lttl k lk Hn _ _ _ _ _ _ _]. nrm. eapply column_kw; [exact Hn|reflexivity]. Qed.
Lemma alter_run b e l : alter b e l -> All respects e -> parses parseAlterTableItem e l (afterwards b).
Proof.
  intros H Ha id ts Ht. destruct H; try (change (heads [O ","; O ";"] ts) in Ht); try (change (heads [O ";"] ts) in Ht).
  - fwd. item. by_run (fun p => drop_run p "COLUMN").
  - fwd. item. by_run (fun p => drop_run p "INDEX").
  - fwd. item. by_run (fun p => drop_run p "PROJECTION").
  - (* DROP PARTITION *) kids. kids. xp H. assert (Hh := settings_follow _ _ _ H0 ltac:(assumption) Ht).
    fwd. item. unfold parseAlterTableDrop, parseAlterTableDropPartition. destruct d; wds; nrm; cbn [app]; repeat stp; cbv zeta; repeat tst; repeat stp.
    all: eapply E_use; [apply expr_here, HX|inc|]; intros x i [E1 E2]; eapply X_settings_end; [exact H0|assumption|exact Ht|]; intros s' j [E3 E4].
    all: apply E_got; split; [cbn [strip]; congruence|]; cbn [end_of]; destruct (is_nil s') eqn:En; cbn [negb]; [exact E2|]; destruct E4; [congruence|assumption].
  - (* DETACH *) kids. kids. xp H. assert (Hh := settings_follow _ _ _ H0 ltac:(assumption) Ht).
    fwd. item. stp. unfold parseAlterTableDetachPartition. repeat stp. eapply E_use; [apply expr_here, HX|inc|]; intros x i [E1 E2]; eapply X_settings_end; [exact H0|assumption|exact Ht|]; intros s' j [E3 E4]. got.
  - (* ATTACH *) kids. kids. assert (Hh := heads_from _ _ _ _ H1 Ht). fwd. item. unfold parseAlterTableAttachPartition. repeat stp. eapply (X_part e l p'); [assumption..|inc|]. intros x i [E1 E2]. eapply X_from; [exact H1|exact Ht|]. intros y j [E3 E4].
    apply E_got; split; [cbn [strip] in *; congruence|]; cbn [end_of]; destruct (is_nil y) eqn:En; cbn [negb]; [exact E2|]; destruct E4; [congruence|assumption].
  - (* FREEZE *) kids. kids. fwd. item. unfold parseAlterTableFreezePartition, whenKw. repeat stp. apply E_last. eapply (X_part e l p'); [assumption..|inc|]. intros x i [E1 E2]. apply E_ret. apply X_endOr; [now right|]. intros pe. got.
  - fwd. item. unfold parseAlterTableRemoveTTL. repeat stp. got.
  - kids. fwd. item. by_run (fun p => clear_run p "COLUMN").
  - kids. fwd. item. by_run (fun p => clear_run p "INDEX").
  - kids. fwd. item. by_run (fun p => clear_run p "PROJECTION").
  - kids. fwd. item. by_run (fun p => materialize_run p "INDEX").
  - kids. fwd. item. by_run (fun p => materialize_run p "PROJECTION").
  - (* RENAME *) fwd. item. unfold parseAlterTableRenameColumn. repeat stp. eapply X_if; [intros; slv|]. intros j. eapply X_column; [exact H|reflexivity|]. intros x j2 [E1 E2]. stp. eapply X_column; [exact H0|intros; slv|]. intros y j3 [E3 E4]. got.
  - (* MODIFY ORDER BY *) kids. xp H. fwd. item. unfold parseAlterTableModify. repeat stp. eapply E_use; [apply expr_here, HX|inc|]. intros x i [E1 E2]. apply X_endOf; [exact E2|]. intros pe. got.
  - (* MODIFY QUERY *) kids. assert (HQ : QP e l) by now apply (proj1 all_claims _ _ _ H). fwd. item. unfold parseAlterTableModify. repeat stp. eapply E_bind, E_mono; [apply (query_plain _ _ HQ); inc|]. intros x s' ([E1 E2] & i & ->). apply X_endOf; [exact E2|]. intros pe. got.
  - (* MODIFY SETTING *) kids. apply (proj2 all_claims) in H; [|assumption]. cbn [claim] in H. fwd. item. unfold parseAlterTableModify. repeat stp. unfold parseSettingsList. apply E_bind. eapply (X_list parseSettingsExpr (heads (O "," :: c_format))); [exact H|exact H0|intros r; now left|inc|intros; slv|].
    intros es' i He Hn. apply E_ret. apply X_endOf; [eapply ok_last; eassumption|]. intros pe. apply E_got. split; [cbn [strip]; now rewrite (oks_strip _ _ He)|discriminate].
  - (* MODIFY TTL *) destruct H as [p0 q0 es ls He Hn]. kids. kids. fwd. item. unfold parseAlterTableModify. repeat stp. eapply E_bind, E_mono; [eapply ttl_items_run; [exact He|exact Hn|assumption|inc|now left|right; intros; slv]|]. intros es' s' (Hes & i & ->).
    eapply X_lastEnd; [exact Hes|]. intros pe. apply X_endOf; [discriminate|]. intros pf. apply E_got. split; [cbn [strip]; now rewrite (oks_strip _ _ Hes)|discriminate].
  - (* RESET *) fwd. item. unfold parseAlterTableReset. repeat stp. eapply (X_list parseIdent (fun _ => True)); [apply plains_run, H|exact H0|now intros|exact I|intros; slv|].
    intros es' i He Hn. apply X_endOf; [eapply ok_last; eassumption|]. intros pe. apply E_got. split; [cbn [strip]; now rewrite (oks_strip _ _ He)|discriminate].
  - (* REPLACE PARTITION *) kids. kids. fwd. item. unfold parseAlterTableReplacePartition. repeat stp. eapply (X_part e l p'); [assumption..|repeat first [left; reflexivity|right]|]. intros x i [E1 E2]. stp. eapply X_table; [exact H1|intros; slv|]. intros y j [E3 E4]. got.
  - (* DELETE *) kids. xp H. fwd. item. unfold parseAlterTableDelete. repeat stp. eapply E_use; [apply expr_here, HX|inc|]. intros x i [E1 E2]. apply X_endOf; [exact E2|]. intros pe. got.
  - (* UPDATE *) kids. xp H1. fwd. item. unfold parseAlterTableUpdate. repeat stp. eapply (X_list parseUpdateAssignment (heads [O ","; K "WHERE"])); [|exact H0|intros r; now left|right; now left|reflexivity|].
    { now apply assignments_run. }
    intros es' i He Hn. apply E_bind. unfold ifKw. repeat stp. apply E_ret. repeat stp. eapply E_use; [apply expr_here, HX|inc|]. intros x j [E1 E2]. apply X_endOf; [exact E2|]. intros pe. apply E_got. split; [cbn [strip]; rewrite (oks_strip _ _ He); congruence|discriminate].
  - (* ADD COLUMN *) kids. assert (Hh := settings_follow _ _ _ H1 ltac:(assumption) Ht). assert (Hh2 := after_follow _ _ _ _ H0 Hh).
    fwd. item. unfold parseAlterTableAdd. repeat stp. unfold parseAlterTableAddColumn. repeat stp. eapply X_ifnot; [intros; eapply coldef_if; exact H|]. intros j. stp. eapply E_use; [eapply coldef_run; [exact H|assumption]|inc|]. intros c' i1 [E1 E2].
    apply X_endOf; [exact E2|]. intros p1. eapply X_after; [exact H0|intros; slv|intros; slv|]. intros a' i2 [E3 E4]. apply X_endOr; [exact E4|]. intros p2. eapply X_settings_end; [exact H1|assumption|exact Ht|]. intros s' i3 [E5 E6]. apply X_endOr; [exact E6|]. intros p3.
    apply E_got; split; [cbn [strip] in *; congruence|]; cbn [end_of]; destruct (is_nil s') eqn:En; cbn [negb]; [discriminate|]; destruct E6; [congruence|assumption].
  - (* MODIFY COLUMN *) kids. fwd. item. unfold parseAlterTableModify. repeat stp. unfold parseAlterTableModifyColumn. repeat stp. eapply X_if; [intros; eapply coldef_if; exact H|]. intros j. stp. eapply E_use; [eapply coldef_run; [exact H|assumption]|inc|]. intros c' i1 [E1 E2].
    apply X_endOf; [exact E2|]. intros p1. unfold tryParseRemovePropertyTypeExpr. repeat stp. apply E_ret. got.
Qed.
Lemma alter_long b e l : alter b e l -> long l.
Proof.
  intros H. unfold long. destruct H; unfold words; cbn [map sep_by app]; nrm; eauto.
  - destruct d; wds; nrm; cbn [app]; eauto.
  - destruct H. nrm. eauto.
  - destruct (toks (sep_by comma ls)); cbn [app]; eauto.
Qed.
Lemma alters_run es ls ts0 : heads [O ";"] ts0 -> alters es ls -> Forall (All respects) es -> forall acc acc0 id, Forall2 ok acc acc0 ->
  Ends (loop acc (fun acc => do it <- cur_item ;; if it_eof it then Ret (inr acc) else do x <- parseAlterTableItem ;; do c <- tryTkb "," ;; Ret (if c then inl (acc ++ [x]) else inr (acc ++ [x])))) (st id (toks (sep_by comma ls) ++ ts0)) (Gots (acc0 ++ es) ts0).
Proof.
  intros Hts.
  assert (Hlong : forall b e l ts i, alter b e l -> it_eof (here (st i (toks l ++ ts))) = false) by (intros b e l ts i H; destruct (alter_long _ _ _ H) as (t & u & r & ->); reflexivity).
  induction 1 as [b e l H|e l es ls H Hs IH]; intros Ha acc acc0 id Hacc; inversion Ha as [|? ? Ha1 Ha2]; subst; apply E_loop1, X_cur.
  - cbn [sep_by]. rewrite (Hlong b e) by assumption. eapply E_use; [eapply alter_run; eassumption|destruct b; [change (heads [O ","; O ";"] ts0); inc|exact Hts]|]. intros x i Hx. stp. apply E_ret. split; [|eauto]. apply Forall2_app; auto.
  - destruct ls as [|l2 ls]; [inversion Hs|]. rewrite sep_cons. unfold comma at 1 2. nrm. rewrite (Hlong true e) by assumption. eapply E_use; [eapply alter_run; eassumption|now left|]. intros x i Hx. stp. apply E_ret.
    replace (acc0 ++ e :: es) with ((acc0 ++ [e]) ++ es) by now rewrite <- app_assoc. apply IH; [assumption..|]. apply Forall2_app; auto.
Qed.
Lemma alters_start es ls : alters es ls -> exists w r, toks (sep_by comma ls) = K w :: r /\ In w ["DROP"; "DETACH"; "ATTACH"; "FREEZE"; "REMOVE"; "CLEAR"; "MATERIALIZE"; "RENAME"; "MODIFY"; "RESET"; "REPLACE"; "DELETE"; "UPDATE"; "ADD"].
Proof.
  assert (Hw : forall b e l, alter b e l -> forall k, exists w r, toks (l ++ k) = K w :: r /\ In w ["DROP"; "DETACH"; "ATTACH"; "FREEZE"; "REMOVE"; "CLEAR"; "MATERIALIZE"; "RENAME"; "MODIFY"; "RESET"; "REPLACE"; "DELETE"; "UPDATE"; "ADD"]).
  { intros b e l H k. destruct H; unfold words; cbn [map sep_by app]; nrm; eexists _, _; (split; [reflexivity|cbn; tauto]). }
  intros [b e l H|e l es' ls' H _]; [|]; rewrite sep_flat; eapply Hw; exact H.
Qed.
Lemma alter_table_run p q t lt c lc es ls p0 id ts : heads [O ";"] ts -> table t lt -> cluster c lc -> alters es ls -> All respects (EAlterTable p q t c es) ->
  Ends (parseAlterTable p0) (st id (K "TABLE" :: toks lt ++ toks lc ++ toks (sep_by comma ls) ++ ts)) (fun e s' => strip e = strip (EAlterTable p q t c es) /\ exists i, s' = st i ts).
Proof.
  intros Hts Ht Hc Hs Ha. kids. destruct (alters_start _ _ Hs) as (w & r & E & Hw). unfold parseAlterTable. stp.
  assert (Hon : forall i, kw (here (st i (K w :: r ++ ts))) "ON" = false) by (intros i; cbn in Hw; decompose [or] Hw; subst; reflexivity || contradiction).
  assert (Hdot : forall i, tk (here (st i (toks lc ++ K w :: r ++ ts))) "." = false) by (intros i; destruct Hc; wds; nrm; cbn [app]; cbn in Hw; decompose [or] Hw; subst; reflexivity || contradiction).
  rewrite E in *. cbn [app]. eapply X_table; [exact Ht|exact Hdot|]. intros t' i1 [E1 E2]. eapply X_cluster; [exact Hc|exact Hon|]. intros c' i2 [E3 E4].
  rewrite app_comm_cons, <- E. unfold commaLoop. eapply E_bind, E_mono; [apply (alters_run _ _ _ Hts Hs) with (acc0 := []); [assumption|constructor]|]. intros es' s' (Hes & i3 & ->). cbn [app] in Hes.
  destruct es' as [|x es'].
  { exfalso. inversion Hes; subst. inversion Hs. }
  apply X_endOf; [eapply ok_last; [exact Hes|discriminate]|]. intros pe. apply E_ret. split; [|eauto]. apply oks_strip in Hes. cbn [strip]. congruence.
Qed.
