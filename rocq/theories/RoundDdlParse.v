(** Running the parser over the parts of a canonical ALTER TABLE or CREATE. *)
From Coq Require Import String List Arith Bool Lia.
From Verif Require Import Str Keyword Lexer LexSpec LexGrammar LexTokens Ast AstPos AstSubs Strip StripFacts Prog RunFacts FuelFacts ParserCommon ParserExpr ParserQuery ParserTable ParserView ParserAlter ParserSystem Parser Exec PrecSpec RoundSpec RoundExec RoundBase RoundExpr RoundOps RoundPrim RoundClause RoundFrom RoundQuery RoundAll RoundStmt RoundMoreSpec RoundMoreParse RoundDdlSpec.
Import ListNotations.
Local Open Scope string_scope.
Local Open Scope list_scope.
Local Open Scope nat_scope.

(** ** Names *)
Lemma column_start e l : column_name e l -> exists d t r, toks l = t :: r /\ plain_name d t.
Proof. intros [e' t H|d t e' u H _]; nrm; eauto. Qed.
Lemma column_kw e l k id ts : column_name e l -> str_in (upper k) fixed = true -> kw (here (st id (toks l ++ ts))) k = false.
Proof. intros H Hk. destruct (column_start _ _ H) as (d & t & r & -> & Ht). cbn [app]. eapply plain_kw; eassumption. Qed.
Lemma column_tk e l id ts : column_name e l -> tk (here (st id (toks l ++ ts))) KIdent = true.
Proof. intros H. destruct (column_start _ _ H) as (d & t & r & -> & Ht). cbn [app]. eapply plain_tk, Ht. Qed.
Lemma X_column {A} e l id ts (f : expr -> prog A) Q : column_name e l -> (forall i, tk (here (st i ts)) "." = false) ->
  (forall e' i, ok e' e -> Ends (f e') (st i ts) Q) -> Ends (do x <- parseNestedIdentifier ;; f x) (st id (toks l ++ ts)) Q.
Proof.
  intros H Hd Hf. apply E_bind. unfold parseNestedIdentifier, tryParseDotIdent. destruct H as [e t H|d t e u H He]; nrm; cbn [app].
  - eapply X_plain; [exact H|]. intros x [E1 E2]. apply E_bind. apply X_tryTk_no; [apply Hd|]. apply E_ret. cbn [is_nil negb]. apply E_ret, Hf. split; [cbn [strip]; congruence|exact E2].
  - eapply X_plain; [exact H|]. intros x [E1 E2]. stp. stp. cbv iota. eapply E_mono; [apply any_keyword_end, He|]. intros y s' (Hy & i & ->). rewrite (ok_nil _ _ Hy). cbn [negb]. destruct Hy as [E3 E4]. apply E_ret, Hf. split; [cbn [strip]; congruence|]. cbn [end_of]. rewrite (ok_nil y e) by (split; assumption). exact E4.
Qed.
Ltac slv ::=
  first
  [ reflexivity
  | eapply heads_kw; [eassumption | vm_compute; reflexivity]
  | eapply heads_kws; [eassumption | vm_compute; reflexivity]
  | eapply heads_tk; [eassumption | vm_compute; reflexivity | vm_compute; reflexivity]
  | eapply heads_tks; [eassumption | vm_compute; reflexivity | vm_compute; reflexivity]
  | eapply starts_kw; [eassumption | vm_compute; reflexivity]
  | eapply starts_kws; [eassumption | vm_compute; reflexivity]
  | eapply starts_tk; [eassumption | vm_compute; reflexivity]
  | eapply starts_tks; [eassumption | vm_compute; reflexivity]
  | eapply starts_exhausted; eassumption
  | eapply plain_kw; [eassumption | vm_compute; reflexivity]
  | eapply table_kw; [eassumption | vm_compute; reflexivity]
  | eapply column_kw; [eassumption | vm_compute; reflexivity]
  | eapply plain_tk; eassumption
  | eapply column_tk; eassumption
  | eapply string_tk; eassumption
  | eapply string_not; eassumption
  | eassumption
  | match goal with H : forall i, _ = _ |- _ => apply H end ].

Lemma X_ifnot {A} (i : bool) id ts (f : bool -> prog A) Q : (forall j, kw (here (st j ts)) "IF" = false) ->
  (forall j, Ends (f i) (st j ts) Q) -> Ends (do x <- tryParseIfNotExists ;; f x) (st id (toks (flag i ["IF"; "NOT"; "EXISTS"]) ++ ts)) Q.
Proof. intros H Hf. apply E_bind. unfold tryParseIfNotExists. destruct i; wds; nrm; cbn [app]; repeat stp; apply E_ret, Hf. Qed.

Ltac claims H := match type of H with says ?k ?e ?l => assert (claim k e l) by (apply (proj1 all_claims _ _ _ H); assumption) end.

(** ** Clauses of ALTER TABLE *)
Lemma partition_at e l p p0 : says Expr e l -> no_id l -> All respects e -> parses (parsePartitionClause p0) (EPartitionClause p e ENil false) (T (K "PARTITION") :: Sp :: l) (heads ends0).
Proof.
  intros H Hi Ha id ts Ht. assert (HX : XP e l) by now apply (proj1 all_claims _ _ _ H). assert (Hst := XP_starts _ _ HX). unfold parsePartitionClause, ifKw. nrm. stp.
  apply X_tryKw_no; [eapply no_id_kw; eassumption|]. cbv iota. stp. eapply E_use; [apply expr_here, HX|exact Ht|]. intros x i [E1 E2]. apply E_got. split; [cbn [strip]; congruence|]. exact E2.
Qed.
Lemma X_settings {A} s ls id ts (f : expr -> prog A) Q : says (Opt Settings) s ls -> All respects s -> heads c_format ts ->
  (forall s' i, okn s' s -> Ends (f s') (st i ts) Q) -> Ends (do x <- tryParseSettingsClause ;; f x) (st id (toks ls ++ ts)) Q.
Proof.
  intros H Ha Ht Hf. apply (proj1 all_claims) in H; [|exact Ha]. cbn [claim] in H. eapply X_opt; [exact H|exact Ht| |exact Hf]. unfold tryParseSettingsClause. repeat stp. now apply E_ret.
Qed.
Lemma settings_heads s ls C ts : says (Opt Settings) s ls -> All respects s -> heads C ts -> heads (K "SETTINGS" :: C) (toks ls ++ ts).
Proof. intros H Ha Ht. apply (proj1 all_claims) in H; [|exact Ha]. cbn [claim] in H. eapply heads_clause2; eassumption. Qed.

Lemma X_in_partition {A} a la id ts (f : expr -> prog A) Q : in_partition a la -> All respects a -> heads [O ","; O ";"] ts ->
  (forall a' i, okn a' a -> Ends (f a') (st i ts) Q) -> Ends (do x <- ifKw "IN" tryParsePartitionClause (Ret ENil) ;; f x) (st id (toks la ++ ts)) Q.
Proof.
  intros H Ha Ht Hf. apply E_bind. unfold ifKw. destruct H as [|p e l H Hn]; wds; nrm; cbn [app].
  - repeat stp. apply E_ret, Hf, okn_nil.
  - kids. stp. cbv iota. unfold tryParsePartitionClause, whenKw. apply X_cur. tst.
    assert (Hp := partition_at e l p (ipos (here (st (S id) (K "PARTITION" :: toks l ++ ts)))) H Hn ltac:(assumption) (S id) ts ltac:(inc)). autorewrite with list in Hp. rewrite toks_T, toks_Sp in Hp. cbn [app] in Hp.
    eapply E_mono; [exact Hp|]. intros x s' (Hx & i & ->). apply Hf, ok_okn, Hx.
Qed.

(** ** Rules of TTL *)
Definition c_ttl : list tok := [O ","; O ")"; K "SETTINGS"; K "AS"; K "COMMENT"; K "POPULATE"; K "AFTER"; K "REMOVE"; O ";"].
Lemma X_where {A} w lw id ts (f : expr -> prog A) Q : says (Opt Where) w lw -> All respects w -> heads c_ttl ts ->
  (forall w' i, okn w' w -> Ends (f w') (st i ts) Q) -> Ends (do x <- tryParseWhereClause ;; f x) (st id (toks lw ++ ts)) Q.
Proof.
  intros H Ha Ht Hf. apply E_bind. unfold tryParseWhereClause, whenKw. inversion H; subst; nrm; cbn [app].
  - repeat stp. apply E_ret, Hf, okn_nil.
  - match goal with Hw : says Where _ _ |- _ => inversion Hw; subst end. kids. match goal with Hw : says Expr ?e ?l |- _ => assert (HX : XP e l) by now apply (proj1 all_claims _ _ _ Hw) end. nrm.
    apply X_cur. tst. unfold parseWhereClause. stp. eapply E_use; [apply expr_here, HX|inc|]. intros x i [E1 E2]. apply E_ret, Hf. split; [cbn [strip]; congruence|]. right. exact E2.
Qed.
Lemma where_heads w lw C ts : says (Opt Where) w lw -> heads C ts -> heads (K "WHERE" :: C) (toks lw ++ ts).
Proof. intros H Ht. inversion H; subst; nrm; cbn [app]; [now apply heads_cons|]. match goal with Hw : says Where _ _ |- _ => inversion Hw; subst end. nrm. now left. Qed.

Lemma ttl_item_run p e l : ttl_item e l -> All respects e -> parses (parseTTLExpr p) e l (heads c_ttl).
Proof.
  intros H Ha id ts Ht. unfold parseTTLExpr. destruct H as [p' e l H|p' e l r lr w lw H Hr Hw]; kids; assert (HX : XP e l) by now apply (proj1 all_claims _ _ _ H).
  - eapply E_use; [apply expr_at, HX|inc|]. intros x i [E1 E2]. unfold tryParseTTLPolicy. repeat stp. cbn [is_nil]. cbv iota. apply E_ret. apply E_got. split; [cbn [strip]; congruence|exact E2].
  - kids. assert (Hh := where_heads _ _ _ _ Hw Ht).
    nrm. eapply E_use; [apply expr_at, HX| |].
    { destruct Hr; wds; nrm; cbn [app heads]; cbn; tauto. }
    intros x i [E1 E2]. unfold tryParseTTLPolicy, ifKw.
    assert (Hrest : forall rule r j, is_nil rule = false -> strip rule = strip r -> Ends (if is_nil rule then Ret ENil else do where_ <- tryParseWhereClause ;; do groupBy <- tryParseGroupByClause ;; Ret (ETTLPolicy rule where_ groupBy)) (st j (toks lw ++ ts))
      (fun a s' => Ends (Ret (ETTLExpr p x a)) s' (Got (ETTLExpr p' e (ETTLPolicy r w ENil)) ts))).
    { intros rule r0 j Hn Er. rewrite Hn. eapply X_where; [exact Hw|assumption|exact Ht|]. intros w' j2 [E5 E6]. unfold tryParseGroupByClause, whenKw. repeat stp. apply E_ret. apply E_ret. apply E_got. split; [cbn [strip]; congruence|exact E2]. }
    destruct Hr as [p2 d t Hd|p2 d t Hd|p2 p3 q3]; wds; nrm; cbn [app].
    + repeat stp. eapply X_string; [exact Hd|]. intros y j [E3 E4]. apply E_ret. apply Hrest; [reflexivity|cbn [strip]; congruence].
    + repeat stp. eapply X_string; [exact Hd|]. intros y j [E3 E4]. apply E_ret. apply Hrest; [reflexivity|cbn [strip]; congruence].
    + repeat stp. unfold tryParseCompressionCodecs. repeat stp. apply E_ret. apply E_ret. apply Hrest; reflexivity.
Qed.
Lemma ttl_item_start e l : ttl_item e l -> All respects e -> exists t r, toks l = t :: r.
Proof. intros [p' e' l' H|p' e' l' r lr w lw H Hr Hw] Ha; kids; (assert (HX : XP e' l') by now apply (proj1 all_claims _ _ _ H)); destruct (XP_starts _ _ HX) as (t & r' & E & _); nrm; rewrite E; cbn [app]; eauto. Qed.
Lemma ttl_items_run p es ls id ts (b : bool) : Forall2 ttl_item es ls -> es <> [] -> Forall (All respects) es -> heads c_ttl ts -> b = true \/ length es = 1 -> b = false \/ (forall i, tk (here (st i ts)) "," = false) ->
  Ends (parseTTLClause p b) (st id (toks (sep_by comma ls) ++ ts)) (Gots es ts).
Proof.
  intros H Hn Ha Ht Hb Hc. unfold parseTTLClause. destruct H as [|e l es ls He H]; [congruence|]. inversion Ha as [|? ? Ha1 Ha2]; subst. rewrite sep_flat. nrm.
  eapply E_use; [eapply ttl_item_run; eassumption| |].
  { destruct ls; cbn [flat_map]; unfold comma; nrm; [exact Ht|now left]. }
  intros x i Hx. assert (Hacc : Forall2 ok [x] [e]) by (constructor; [exact Hx|constructor]). change (e :: es) with ([e] ++ es). clear Hn Ha He Hx. set (acc := [x]) in *. set (acc0 := [e]) in *. clearbody acc acc0.
  destruct b.
  - clear Hb. destruct Hc as [|Hc]; [discriminate|]. revert acc acc0 Hacc i. induction H as [|e2 l2 es ls H2 H IH]; intros acc acc0 Hacc i; apply E_loop1, X_cur.
    + cbn [flat_map]. nrm. cbn [app]. destruct (it_eof (here (st i ts))); cbn [andb negb]; cbv iota; [|apply X_tryTk_no; [apply Hc|]]; (apply E_ret; rewrite app_nil_r; split; eauto).
    + inversion Ha2 as [|? ? Ha1' Ha2']; subst. cbn [flat_map]. unfold comma at 1. nrm.
      replace (it_eof (here (st i (O "," :: toks l2 ++ toks (flat_map (fun l => comma ++ l) ls) ++ ts)))) with false by (destruct (ttl_item_start _ _ H2 Ha1') as (t & r & ->); reflexivity). cbn [andb negb]; cbv iota. stp. cbv iota.
      eapply E_use; [eapply ttl_item_run; eassumption| |].
      { destruct ls; cbn [flat_map]; unfold comma; nrm; [exact Ht|now left]. }
      intros y j Hy. apply E_ret. replace (acc0 ++ e2 :: es) with ((acc0 ++ [e2]) ++ es) by now rewrite <- app_assoc. apply IH; [assumption|]. apply Forall2_app; auto.
  - destruct Hb as [|Hb]; [discriminate|]. destruct H; [|discriminate Hb]. apply E_loop1, X_cur. cbn [flat_map andb]. nrm. cbn [app]. apply E_ret. rewrite app_nil_r. split; eauto.
Qed.
Lemma X_ttl {A} p q (b : bool) es ls id ts (f : expr -> prog A) Q : Forall2 ttl_item es ls -> es <> [] -> Forall (All respects) es -> heads c_ttl ts -> b = true \/ length es = 1 -> b = false \/ (forall i, tk (here (st i ts)) "," = false) ->
  (forall t' i, ok t' (ETTLClause p q es) -> Ends (f t') (st i ts) Q) -> Ends (do x <- tryParseTTLClause b ;; f x) (st id (K "TTL" :: toks (sep_by comma ls) ++ ts)) Q.
Proof.
  intros H Hn Ha Ht Hb Hc Hf. apply E_bind. unfold tryParseTTLClause. repeat stp. eapply E_bind, E_mono; [eapply ttl_items_run; eassumption|]. intros es' s' (He & i & ->). eapply X_lastEnd; [exact He|]. intros pe. apply E_ret, Hf. split; [cbn [strip]; now rewrite (oks_strip _ _ He)|discriminate].
Qed.
Lemma X_no_ttl {A} b id ts (f : expr -> prog A) Q : kw (here (st id ts)) "TTL" = false -> Ends (f ENil) (st id ts) Q -> Ends (do x <- tryParseTTLClause b ;; f x) (st id ts) Q.
Proof. intros H Hf. apply E_bind. unfold tryParseTTLClause. stp. apply X_tryKw_no; [exact H|]. now apply E_ret. Qed.

(** ** The changes of ALTER TABLE *)
Lemma E_last {A} (p : prog A) s Q : Ends (do x <- p ;; Ret x) s Q -> Ends p s Q.
Proof.
  intros (f0 & a & s' & H & HQ). exists (S f0), a, s'. split; [|exact HQ]. intros f Hf. assert (Hr := H f ltac:(lia)). rewrite run_bind in Hr. destruct f as [|f]; [lia|].
  destruct (run body (S f) p s); cbn [andThen] in Hr; try discriminate Hr. exact Hr.
Qed.
Lemma assignment_run e l : assignment e l -> All respects e -> parses parseUpdateAssignment e l (heads [O ","; K "WHERE"]).
Proof.
  intros [p c lc x lx Hc He Hl] Ha id ts Ht. kids. assert (HX : XP x lx) by now apply (proj1 all_claims _ _ _ He). unfold parseUpdateAssignment. nrm. stp. eapply X_column; [exact Hc|reflexivity|]. intros c' i [E1 E2]. stp. stp.
  assert (Hh : heads ends0 ts) by inc. assert (Hz := lev_ends0 ts Hh).
  eapply sub_expr; [exact HX|exact Hl|lia|lia|lia|left; now apply ends0_stop|]. intros e' j [E3 E4]. apply E_got. split; [cbn [strip]; congruence|exact E4].
Qed.
Lemma plain_run e t : plain_name e t -> parses parseIdent e [T t] (fun _ => True).
Proof. intros H id ts _. nrm. cbn [app]. eapply ident_tok_end; [apply H|eapply plain_ident, H]. Qed.
Lemma plains_run es ts : Forall2 plain_name es ts -> Forall2 (fun e l => parses parseIdent e l (fun _ => True)) es (map (fun t => [T t]) ts).
Proof. induction 1 as [|e t es ts H _ IH]; [constructor|]. cbn [map]. constructor; [now apply plain_run|exact IH]. Qed.
(** Lists with at least one element. *)
Lemma X_list {A} p (F : list tok -> Prop) es ls id ts (f : list expr -> prog A) Q : Forall2 (fun e l => parses p e l F) es ls -> es <> [] -> (forall r, F (O "," :: r)) -> F ts -> (forall i, tk (here (st i ts)) "," = false) ->
  (forall es' i, Forall2 ok es' es -> es' <> [] -> Ends (f es') (st i ts) Q) -> Ends (do x <- p ;; do xs <- sepTail "," [x] p ;; f xs) (st id (toks (sep_by comma ls) ++ ts)) Q.
Proof.
  intros H Hn HF Ht Hc Hf. destruct H as [|e l es ls He H]; [congruence|]. rewrite sep_flat. nrm. eapply E_use; [exact He| |].
  { destruct ls; cbn [flat_map]; unfold comma; nrm; [exact Ht|apply HF]. }
  intros x i Hx. eapply E_bind, E_mono; [apply (sep_tail p F es ls H HF [x] [e]); auto|]. intros es' s' (Hes & j & ->). apply Hf; [exact Hes|]. intros ->. inversion Hes.
Qed.
Definition afterwards (b : bool) (ts : list tok) : Prop := if b then heads [O ","; O ";"] ts else heads [O ";"] ts.
Definition long (l : list sym) : Prop := exists t u r, toks l = t :: u :: r.
Ltac item := unfold parseAlterTableItem; apply X_cur; cbv zeta; repeat tst.
Ltac got := apply E_got; (split; [cbn [strip K t_str] in *; congruence|first [eassumption | discriminate]]).
Lemma X_part {A} e l p p0 id ts (f : expr -> prog A) Q : says Expr e l -> no_id l -> All respects e -> heads ends0 ts ->
  (forall x i, ok x (EPartitionClause p e ENil false) -> Ends (f x) (st i ts) Q) -> Ends (do x <- parsePartitionClause p0 ;; f x) (st id (K "PARTITION" :: toks l ++ ts)) Q.
Proof. intros H Hn Ha Ht Hf. assert (Hp := partition_at e l p p0 H Hn Ha). pose proof (E_use _ _ _ _ f id ts Q Hp Ht Hf) as Hr. rewrite toks_T, toks_Sp in Hr. exact Hr. Qed.
Lemma okn_is_nil x e : okn x e -> is_nil x = is_nil e.
Proof. intros [H _]. now rewrite <- (nil_strip x), H, nil_strip. Qed.
Lemma X_from {A} e l id ts (f : expr -> prog A) Q : from_table e l -> heads [O ","; O ";"] ts ->
  (forall x i, okn x e -> Ends (f x) (st i ts) Q) -> Ends (do x <- ifKw "FROM" parseTableIdentifier (Ret ENil) ;; f x) (st id (toks l ++ ts)) Q.
Proof.
  intros H Ht Hf. apply E_bind. unfold ifKw. destruct H as [|e l H]; nrm; cbn [app].
  - repeat stp. apply E_ret, Hf, okn_nil.
  - stp. cbv iota. apply E_last. eapply X_table; [exact H|intros; slv|]. intros x i Hx. apply E_ret, Hf, ok_okn, Hx.
Qed.
Lemma heads_from e l C ts : from_table e l -> heads C ts -> heads (K "FROM" :: C) (toks l ++ ts).
Proof. intros [|e' l' H] Ht; nrm; cbn [app]; [now apply heads_cons|now left]. Qed.
Lemma heads_in e l C ts : in_partition e l -> heads C ts -> heads (K "IN" :: C) (toks l ++ ts).
Proof. intros [|p e' l' H Hi] Ht; wds; nrm; cbn [app]; [now apply heads_cons|now left]. Qed.

Lemma drop_run p (k : string) n l (i : bool) id ts : In k ["COLUMN"; "INDEX"; "PROJECTION"] -> column_name n l -> heads [O ","; O ";"] ts ->
  Ends (parseAlterTableDrop p) (st id (K "DROP" :: K k :: toks (flag i ["IF"; "EXISTS"]) ++ toks l ++ ts))
    (Got (if String.eqb k "COLUMN" then EAlterTableDropColumn p n i else if String.eqb k "INDEX" then EAlterTableDropIndex p n i else EAlterTableDropProjection p n i) ts).
Proof.
  intros Hk H Ht. unfold parseAlterTableDrop, parseAlterTableDropClause. destruct Hk as [<-|[<-|[<-|[]]]]; repeat stp.
  all: eapply X_if; [intros; slv|]; intros j; eapply X_column; [exact H|intros; slv|]; intros x j2 [E1 E2]; repeat tst; cbn [String.eqb Ascii.eqb Bool.eqb]; got.
Qed.
Lemma clear_run p (k : string) n l a la (i : bool) id ts : In k ["COLUMN"; "INDEX"; "PROJECTION"] -> column_name n l -> in_partition a la -> All respects a -> heads [O ","; O ";"] ts ->
  Ends (parseAlterTableClear p) (st id (K "CLEAR" :: K k :: toks (flag i ["IF"; "EXISTS"]) ++ toks l ++ toks la ++ ts))
    (Got (if String.eqb k "COLUMN" then EAlterTableClearColumn p p i n a else if String.eqb k "INDEX" then EAlterTableClearIndex p p i n a else EAlterTableClearProjection p p i n a) ts).
Proof.
  intros Hk H Hi Ha Ht. assert (Hh := heads_in _ _ _ _ Hi Ht). unfold parseAlterTableClear, parseAlterTableClearClause. destruct Hk as [<-|[<-|[<-|[]]]]; repeat stp.
  all: eapply X_if; [intros; slv|]; intros j; eapply X_column; [exact H|intros; slv|]; intros x j2 [E1 E2]; apply X_endOf; [exact E2|]; intros pe; (eapply X_in_partition; [exact Hi|exact Ha|exact Ht|]); intros a' j3 [E3 E4]; apply X_endOr; [exact E4|]; intros pe2; repeat tst; cbn [String.eqb Ascii.eqb Bool.eqb]; got.
Qed.
Lemma materialize_run p (k : string) n l a la (i : bool) id ts : In k ["INDEX"; "PROJECTION"] -> column_name n l -> in_partition a la -> All respects a -> heads [O ","; O ";"] ts ->
  Ends (parseAlterTableMaterialize p) (st id (K "MATERIALIZE" :: K k :: toks (flag i ["IF"; "EXISTS"]) ++ toks l ++ toks la ++ ts))
    (Got (if String.eqb k "INDEX" then EAlterTableMaterializeIndex p p i n a else EAlterTableMaterializeProjection p p i n a) ts).
Proof.
  intros Hk H Hi Ha Ht. assert (Hh := heads_in _ _ _ _ Hi Ht). unfold parseAlterTableMaterialize. destruct Hk as [<-|[<-|[]]]; repeat stp.
  all: eapply X_if; [intros; slv|]; intros j; eapply X_column; [exact H|intros; slv|]; intros x j2 [E1 E2]; apply X_endOf; [exact E2|]; intros pe; apply E_bind; unfold ifKw; destruct Hi as [|p' e' l' He Hn]; wds; nrm; cbn [app].
  1,3: clear Hh; repeat stp; apply E_ret; cbv beta iota; repeat tst; cbn [String.eqb Ascii.eqb Bool.eqb]; got.
  all: kids; stp; cbv iota; unfold tryParsePartitionClause, whenKw; apply E_bind; apply X_cur; tst.
  all: apply E_last; eapply (X_part e' l' p'); [exact He|exact Hn|assumption|inc|]; intros a' j3 [E3 E4]; apply E_ret; apply X_endOf; [exact E4|]; intros pe2; apply E_ret; cbv beta iota; repeat tst; cbn [String.eqb Ascii.eqb Bool.eqb]; got.
Qed.
