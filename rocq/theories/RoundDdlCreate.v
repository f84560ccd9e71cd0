(** Parsing of canonical CREATE statements for C25 and C26. *)
From Coq Require Import String List Arith Bool Lia.
From Verif Require Import Str Keyword Lexer LexSpec LexGrammar LexTokens Ast AstPos AstSubs Strip StripFacts Prog RunFacts FuelFacts ParserCommon ParserExpr ParserQuery ParserTable ParserView ParserAlter ParserSystem Parser Exec PrecSpec RoundSpec RoundExec RoundBase RoundExpr RoundOps RoundPrim RoundClause RoundFrom RoundQuery RoundAll RoundStmt RoundMoreSpec RoundMoreParse RoundDdlSpec RoundDdlParse RoundDdlCols RoundDdlAlter.
Import ListNotations.
Local Open Scope string_scope.
Local Open Scope list_scope.
Local Open Scope nat_scope.

(** ** Parts of CREATE *)
Lemma X_tryComment {A} k l id ts (f : expr -> prog A) Q : after_words ["COMMENT"] k l -> (forall i, kw (here (st i ts)) "COMMENT" = false) ->
  (forall k' i, okn k' k -> Ends (f k') (st i ts) Q) -> Ends (do x <- tryParseComment ;; f x) (st id (toks l ++ ts)) Q.
Proof.
  intros H Ht Hf. apply E_bind. unfold tryParseComment. destruct H as [|e t H]; wds; nrm; cbn [app].
  - repeat stp. apply E_ret, Hf, okn_nil.
  - repeat stp. apply E_last. eapply X_string; [exact H|]. intros x i Hx. apply E_ret. now apply Hf, ok_okn.
Qed.
Lemma X_uuid {A} u l id ts (f : expr -> prog A) Q : uuid u l -> (forall i, kw (here (st i ts)) "UUID" = false) ->
  (forall u' i, okn u' u -> Ends (f u') (st i ts) Q) -> Ends (do x <- tryParseUUID ;; f x) (st id (toks l ++ ts)) Q.
Proof.
  intros H Ht Hf. apply E_bind. unfold tryParseUUID, parseUUID. destruct H as [|e t H]; nrm; cbn [app].
  - repeat stp. apply E_ret, Hf, okn_nil.
  - repeat stp. eapply X_string; [exact H|]. intros x i [E1 E2]. apply E_ret, Hf. assert (Es : exists a b c, x = EStringLiteral a b c) by (destruct H; destruct x; try discriminate E1; eauto). destruct Es as (? & ? & ? & ->). split; [cbn [strip] in *; congruence|right; discriminate].
Qed.
Lemma heads_uuid u l C ts : uuid u l -> heads C ts -> heads (K "UUID" :: C) (toks l ++ ts).
Proof. intros [|e t H] Ht; nrm; cbn [app]; [now apply heads_cons|now left]. Qed.
Lemma heads_schema s l C ts : schema s l -> heads C ts -> heads (O "(" :: C) (toks l ++ ts).
Proof. intros [|p q es ls H Hm Hn] Ht; unfold paren; nrm; cbn [app]; [now apply heads_cons|now left]. Qed.
Lemma heads_engine b e l C ts : engine b e l -> heads C ts -> heads (K "ENGINE" :: C) (toks l ++ ts).
Proof. intros [|] Ht; nrm; cbn [app]; [now apply heads_cons|now left]. Qed.
Lemma heads_as b e l C ts : as_query b e l -> heads C ts -> heads (K "AS" :: C) (toks l ++ ts).
Proof. intros [| |] Ht; nrm; cbn [app]; [now apply heads_cons|now left|now left]. Qed.

(** *** Columns *)
Lemma member_kw l id ts w t r : no_member l -> toks l = t :: r -> In w ["INDEX"; "CONSTRAINT"; "PROJECTION"] -> kw (here (st id (toks l ++ ts))) w = false.
Proof.
  intros H E Hw. rewrite E, <- app_comm_cons, here_cons, kw_at. unfold k1, equal_fold. destruct (String.eqb_spec (t_kind t) KKeyword) as [Ek|]; [|reflexivity]. cbn [andb]. apply String.eqb_neq. intros Eu. apply (H t r E Ek). rewrite Eu. destruct Hw as [<-|[<-|[<-|[]]]]; vm_compute; tauto.
Qed.
Lemma table_columns es ls : Forall2 coldef es ls -> Forall no_member ls -> es <> [] -> Forall (All respects) es -> forall acc acc0 id ts, Forall2 ok acc acc0 ->
  Ends (loop acc (fun acc =>
    do it <- cur_item ;;
    if it_eof it then Ret (inr acc)
    else
      do column <-
        (if kw it "INDEX" then do! skip ;; parseTableIndex (ipos it)
         else if kw it "CONSTRAINT" then
           do! skip ;;
           do ident <- parseIdent ;;
           do! expKw "CHECK" ;;
           do e <- parseExprHere ;;
           Ret (EConstraintClause (ipos it) ident e)
         else if kw it "PROJECTION" then parseTableProjection (ipos it) true
         else tryParseTableColumnExpr) ;;
      let acc := if is_nil column then acc else (acc ++ [column])%list in
      do c <- tryTkb "," ;;
      Ret (if c then inl acc else inr acc))) (st id (toks (sep_by comma ls) ++ O ")" :: ts)) (Gots (acc0 ++ es) (O ")" :: ts)).
Proof.
  intros H Hm Hn. destruct H as [|e l es ls H1 H]; [congruence|]. clear Hn. revert e l H1 Hm.
  assert (Hone : forall e l id ts, coldef e l -> no_member l -> ts <> [] -> it_eof (here (st id (toks l ++ ts))) = false /\ kw (here (st id (toks l ++ ts))) "INDEX" = false /\ kw (here (st id (toks l ++ ts))) "CONSTRAINT" = false /\ kw (here (st id (toks l ++ ts))) "PROJECTION" = false /\ tk (here (st id (toks l ++ ts))) KIdent = true).
  { intros e l id ts Hc Hm Hts. assert (Hs : exists d t r, toks l = t :: r /\ plain_name d t).
    { destruct Hc as [p q n ln ty lt nn nl lnl d m a ld c' lc' t lttl k lk Hn _ _ _ _ _ _ _]. destruct (column_start _ _ Hn) as (d0 & t0 & r & E & Ht). nrm. rewrite E. cbn [app]. eauto. }
    destruct Hs as (d & t & r & E & Ht). repeat split; try (eapply member_kw; [exact Hm|exact E|cbn; tauto]).
    - rewrite E. cbn [app]. rewrite here_cons. cbn [it_eof item_at]. destruct (r ++ ts) eqn:Er; [|reflexivity]. apply app_eq_nil in Er. tauto.
    - rewrite E. cbn [app]. eapply plain_tk, Ht. }
  assert (Hgo : forall e l id ts, coldef e l -> All respects e -> heads c_col ts -> tk (here (st id (toks l ++ ts))) KIdent = true -> Ends tryParseTableColumnExpr (st id (toks l ++ ts)) (Got e ts)).
  { intros e l id ts Hc Ha Ht Hk. unfold tryParseTableColumnExpr. apply X_cur. rewrite Hk. now apply coldef_run. }
  induction H as [|e2 l2 es ls H2 H IH]; intros e l H1 Hm Ha acc acc0 id ts Hacc; inversion Hm as [|? ? Hm1 Hm2]; subst; inversion Ha as [|? ? Ha1 Ha2]; subst; apply E_loop1, X_cur.
  - cbn [sep_by]. destruct (Hone e l id (O ")" :: ts) H1 Hm1 ltac:(discriminate)) as (-> & -> & -> & -> & Hk). eapply E_bind, E_mono; [apply Hgo; [exact H1|exact Ha1|right; now left|exact Hk]|]. intros x s' (Hx & i & ->). rewrite (ok_nil _ _ Hx). assert (En : is_nil e = false) by (destruct H1; reflexivity). rewrite ?En. cbv zeta. stp. apply E_ret. split; [|eauto]. apply Forall2_app; auto.
  - rewrite sep_cons. unfold comma. nrm. match goal with |- context [it_eof (here (st ?i (toks l ++ ?r)))] => destruct (Hone e l i r H1 Hm1 ltac:(discriminate)) as (-> & -> & -> & -> & Hk) end. eapply E_bind, E_mono; [apply Hgo; [exact H1|exact Ha1|now left|exact Hk]|]. intros x s' (Hx & i & ->). rewrite (ok_nil _ _ Hx). assert (En : is_nil e = false) by (destruct H1; reflexivity). rewrite ?En. cbv zeta. stp. apply E_ret.
    replace (acc0 ++ e :: e2 :: es) with ((acc0 ++ [e]) ++ e2 :: es) by now rewrite <- app_assoc. apply IH; [assumption..|]. apply Forall2_app; auto.
Qed.
Definition as_ready (ts : list tok) : Prop := heads [K "ENGINE"; K "COMMENT"; O ";"] ts \/ exists u r, ts = K "AS" :: u :: r /\ In u [K "SELECT"; K "WITH"; O "("].
Lemma schema_run p q es ls id ts : Forall2 coldef es ls -> Forall no_member ls -> es <> [] -> Forall (All respects) es ->
  Ends parseTableSchemaClause (st id (O "(" :: toks (sep_by comma ls) ++ O ")" :: ts)) (Got (ETableSchemaClause p q es ENil ENil) ts).
Proof.
  intros H Hm Hn Ha. unfold parseTableSchemaClause. repeat stp. cbv zeta. repeat stp. unfold parseTableColumns. eapply E_bind, E_mono; [apply (table_columns es ls H Hm Hn Ha) with (acc0 := []); constructor|]. intros es' s' (Hes & i & ->). cbn [app] in Hes. repeat stp. apply E_got. split; [cbn [strip]; now rewrite (oks_strip _ _ Hes)|discriminate].
Qed.
Lemma X_schema {A} s l id ts (f : expr -> prog A) Q : schema s l -> All respects s -> as_ready ts ->
  (forall s' i, okn s' s -> Ends (f s') (st i ts) Q) -> Ends (do x <- parseTableSchemaClause ;; f x) (st id (toks l ++ ts)) Q.
Proof.
  intros H Ha Ht Hf. apply E_bind. destruct H as [|p q es ls H Hm Hn]; unfold paren; nrm; cbn [app].
  - unfold parseTableSchemaClause. apply X_cur. cbv zeta. destruct Ht as [Ht|(u & r & -> & Hu)].
    + repeat stp. apply E_ret, Hf, okn_nil.
    + repeat stp. destruct Hu as [<-|[<-|[<-|[]]]]; eapply X_looks; try (apply looks_or; [apply looks_kw|apply looks_or; [apply looks_kw|apply looks_tk]]); apply E_ret; (match goal with |- Ends (if ?b then _ else _) _ _ => replace b with false by reflexivity end); apply E_ret, Hf, okn_nil.
  - kids. eapply E_mono; [apply (schema_run p q es ls); assumption|]. intros x s' (Hx & i & ->). now apply Hf, ok_okn.
Qed.


(** *** Engines *)
Lemma setting_run p n t v u : name n t -> (number_lit v u /\ t_kind u = KInt) \/ string_lit v u -> parses parseSettingsExpr (ESettingExpr p n v) [T t; T (O "="); T u] (fun _ => True).
Proof.
  intros Hn Hv id ts Hts. nrm. cbn [app]. unfold parseSettingsExpr. repeat stp. eapply ident_tok; [apply Hn|eapply RoundExpr.name_ident, Hn|]. intros n' [E1 E2]. repeat stp.
  apply E_bind. rewrite here_cons, !tk_at. destruct Hv as [[Hv Hk]|Hv].
  - unfold t1. rewrite Hk. cbn [str_in existsb String.eqb orb]. repeat stp. eapply E_mono; [apply number_here, Hv|]. intros v' s' ([E3 E4] & i & ->). apply E_got. split; [cbn [strip]; congruence|exact E4].
  - assert (Hs : Ends parseStringHere (st (S (S id)) (u :: ts)) (Got v ts)) by (unfold parseStringHere; apply X_pos; now apply string_pos).
    replace (t1 u [KInt]) with false by (destruct Hv; reflexivity). replace (t1 u [KString]) with true by (destruct Hv; reflexivity). eapply E_mono; [exact Hs|]. intros v' s' ([E3 E4] & i & ->). apply E_got. split; [cbn [strip]; congruence|exact E4].
Qed.
Lemma settings_any es ls : sayl Setting es ls -> Forall2 (fun e l => parses parseSettingsExpr e l (fun _ => True)) es ls.
Proof. induction es as [|e es IH] in ls |- *; intros H; inversion H; subst; constructor; auto. match goal with Hs : says Setting _ _ |- _ => inversion Hs; subst end. now apply setting_run. Qed.
Lemma settings_here p q es ls id ts : sayl Setting es ls -> es <> [] -> (forall i, tk (here (st i ts)) "," = false) ->
  Ends tryParseSettingsClause (st id (K "SETTINGS" :: toks (sep_by comma ls) ++ ts)) (Got (ESettingsClause p q es) ts).
Proof.
  intros H0 Hn Hc. assert (H := settings_any _ _ H0). clear H0. unfold tryParseSettingsClause. repeat stp. unfold parseSettingsClause, parseSettingsList.
  destruct H as [|e l es ls He H]; [congruence|]. rewrite sep_flat. nrm. apply E_bind. eapply E_use; [exact He|exact I|].
  intros e' i Ee. eapply E_mono; [apply (sep_tail parseSettingsExpr (fun _ => True)) with (es := es) (acc0 := [e]); auto|].
  intros es' s' (Hes & id' & ->). cbn [app] in Hes. assert (Hx : es' <> []) by (intros ->; inversion Hes). assert (Hl := ok_last _ _ Hes Hx). destruct es' as [|x es']; [congruence|]. cbn [is_empty]. apply X_endOf; [exact Hl|]. intros pe. apply E_got. split; [cbn [strip]; now rewrite (oks_strip _ _ Hes)|discriminate].
Qed.

Definition eng_step (g : engine_acc) : prog (engine_acc + engine_acc) :=
      do it <- cur_item ;;
      if it_eof it then Ret (inr g)
      else if kw it "ORDER" then
        do x <- tryParseTableOrderByClause ;;
        do e <- endOf x ;;
        Ret (inl (mkEng (g_primary g) (g_partition g) (g_sample g) (g_ttl g) (g_settings g) x e))
      else if kw it "PARTITION" then
        do x <- tryParsePartitionByClause (ipos it) ;;
        do e <- endOf x ;;
        Ret (inl (mkEng (g_primary g) x (g_sample g) (g_ttl g) (g_settings g) (g_order g) e))
      else if kw it "PRIMARY" then
        do x <- tryParsePrimaryKeyClause ;;
        do e <- endOf x ;;
        Ret (inl (mkEng x (g_partition g) (g_sample g) (g_ttl g) (g_settings g) (g_order g) e))
      else if kw it "SAMPLE" then
        do x <- tryParseSampleByClause ;;
        do e <- endOf x ;;
        Ret (inl (mkEng (g_primary g) (g_partition g) x (g_ttl g) (g_settings g) (g_order g) e))
      else if kw it "TTL" then
        do x <- tryParseTTLClause true ;;
        do e <- endOf x ;;
        Ret (inl (mkEng (g_primary g) (g_partition g) (g_sample g) x (g_settings g) (g_order g) e))
      else if kw it "SETTINGS" then
        do x <- tryParseSettingsClause ;;
        do e <- endOf x ;;
        Ret (inl (mkEng (g_primary g) (g_partition g) (g_sample g) (g_ttl g) x (g_order g) e))
      else Ret (inr g).
Notation eng := (fun g => loop g eng_step).
Ltac ent := apply E_loop1; unfold eng_step at 1; apply X_cur; match goal with |- context [it_eof (here ?s)] => replace (it_eof (here s)) with false by (rewrite here_cons; reflexivity) end; repeat tst; cbv beta iota.
Lemma eng_order ob lob a b c d e pe id r Q : order_by ob lob -> All respects ob -> (ob <> ENil -> heads (c_limit ++ c_engine) r) ->
  (forall ob' i pe', okn ob' ob -> Ends (eng (mkEng a b c d e ob' pe')) (st i r) Q) -> Ends (eng (mkEng a b c d e ENil pe)) (st id (toks lob ++ r)) Q.
Proof.
  intros [|p q e0 l H] Ha Hr Hf; wds; nrm; cbn [app]; [apply Hf, okn_nil|]. assert (Hr' := Hr ltac:(discriminate)). kids. assert (Hc : OrdP e0 l) by (apply (proj1 all_claims _ _ _ H); assumption). destruct Hc as [_ Hc].
  ent. unfold tryParseTableOrderByClause. apply E_bind. repeat stp. eapply E_use; [apply Hc|now apply heads_cons|]. intros x i Hx. apply X_endOf; [apply Hx|]. intros p1. apply E_ret. apply X_endOf; [discriminate|]. intros p2. apply E_ret. cbn [g_primary g_partition g_sample g_ttl g_settings g_order]. apply Hf. split; [cbn [strip map]; destruct Hx as [-> _]; reflexivity|right; discriminate].
Qed.

Lemma eng_partition x lx a b c d o pe id r Q : partition_by x lx -> All respects x -> (x <> ENil -> heads ends2 r) ->
  (forall x' i pe', okn x' x -> Ends (eng (mkEng a x' b c d o pe')) (st i r) Q) -> Ends (eng (mkEng a ENil b c d o pe)) (st id (toks lx ++ r)) Q.
Proof.
  intros [|p e0 l H] Ha Hr Hf; wds; nrm; cbn [app]; [apply Hf, okn_nil|]. assert (Hr' := Hr ltac:(discriminate)). destruct H as [p0 q0 dd es ls H Hn]. kids. apply (proj2 all_claims) in H; [|assumption].
  ent. unfold tryParsePartitionByClause. apply E_bind. repeat stp. unfold parseColumnExprListWithLParen. apply E_bind, X_pos.
  match goal with |- Ends _ (st _ ?z) _ => replace z with ((if dd then [K "DISTINCT"] else []) ++ toks (sep_by comma ls) ++ r) by (destruct dd; nrm; reflexivity) end.
  eapply E_mono; [apply (column_list (Some ")") dd _ es ls); [auto|exact H|exact Hr'|auto]|]. intros y s' ((q' & es' & -> & He) & i & ->). apply E_ret. apply X_endOf; [discriminate|]. intros p2. apply E_ret. cbn [g_primary g_partition g_sample g_ttl g_settings g_order]. apply Hf. split; [cbn [strip]; now rewrite (oks_strip _ _ He)|right; discriminate].
Qed.
Lemma eng_primary x lx b c d e o pe id r Q : primary_key x lx -> All respects x -> heads ends0 r ->
  (forall x' i pe', okn x' x -> Ends (eng (mkEng x' b c d e o pe')) (st i r) Q) -> Ends (eng (mkEng ENil b c d e o pe)) (st id (toks lx ++ r)) Q.
Proof.
  intros [|p e0 l H] Ha Hr Hf; wds; nrm; cbn [app]; [apply Hf, okn_nil|]. kids. xp H.
  ent. unfold tryParsePrimaryKeyClause. apply E_bind. repeat stp. eapply E_use; [apply expr_here, HX|exact Hr|]. intros y i [E1 E2]. apply E_ret. apply X_endOf; [exact E2|]. intros p2. apply E_ret. cbn [g_primary g_partition g_sample g_ttl g_settings g_order]. apply Hf. split; [cbn [strip]; congruence|right; exact E2].
Qed.
Lemma eng_sample x lx a b d e o pe id r Q : sample_by x lx -> All respects x -> heads ends0 r ->
  (forall x' i pe', okn x' x -> Ends (eng (mkEng a b x' d e o pe')) (st i r) Q) -> Ends (eng (mkEng a b ENil d e o pe)) (st id (toks lx ++ r)) Q.
Proof.
  intros [|p e0 l H] Ha Hr Hf; wds; nrm; cbn [app]; [apply Hf, okn_nil|]. kids. xp H.
  ent. unfold tryParseSampleByClause. apply E_bind. repeat stp. eapply E_use; [apply expr_here, HX|exact Hr|]. intros y i [E1 E2]. apply E_ret. apply X_endOf; [exact E2|]. intros p2. apply E_ret. cbn [g_primary g_partition g_sample g_ttl g_settings g_order]. apply Hf. split; [cbn [strip]; congruence|right; exact E2].
Qed.
Lemma eng_ttl x lx a b c e o pe id r Q : table_ttl x lx -> All respects x -> heads c_ttl r -> (forall i, tk (here (st i r)) "," = false) ->
  (forall x' i pe', okn x' x -> Ends (eng (mkEng a b c x' e o pe')) (st i r) Q) -> Ends (eng (mkEng a b c ENil e o pe)) (st id (toks lx ++ r)) Q.
Proof.
  intros [|x0 l H] Ha Hr Hc Hf; nrm; cbn [app]; [apply Hf, okn_nil|]. destruct H as [p q es ls H Hn]. nrm. kids.
  assert (Hl : exists t r', toks (sep_by comma ls) ++ r = t :: r').
  { destruct H as [|e1 l1 es ls H1 H]; [congruence|]. rewrite sep_flat. nrm. match goal with Hs : Forall (All respects) (_ :: _) |- _ => inversion Hs; subst end. destruct (ttl_item_start _ _ H1 ltac:(assumption)) as (t & r' & ->). cbn [app]. eauto. }
  destruct Hl as (t & r' & E). apply E_loop1; unfold eng_step at 1; apply X_cur. rewrite E. match goal with |- context [it_eof (here ?s)] => replace (it_eof (here s)) with false by (rewrite here_cons; reflexivity) end; repeat tst; cbv beta iota. rewrite <- E.
  eapply (X_ttl p q); [exact H|exact Hn|assumption|exact Hr|auto|auto|]. intros y i [E1 E2]. apply X_endOf; [exact E2|]. intros p2. apply E_ret. cbn [g_primary g_partition g_sample g_ttl g_settings g_order]. apply Hf. split; [exact E1|right; exact E2].
Qed.
Lemma eng_settings x lx a b c d o pe id r Q : says (Opt Settings) x lx -> (forall i, tk (here (st i r)) "," = false) ->
  (forall x' i pe', okn x' x -> Ends (eng (mkEng a b c d x' o pe')) (st i r) Q) -> Ends (eng (mkEng a b c d ENil o pe)) (st id (toks lx ++ r)) Q.
Proof.
  intros H Hc Hf. inversion H; subst; nrm; cbn [app]; [apply Hf, okn_nil|]. match goal with Hs : says Settings _ _ |- _ => inversion Hs; subst end. nrm.
  assert (Hl : exists t r', toks (sep_by comma ls) ++ r = t :: r').
  { match goal with Hs : sayl Setting _ _ |- _ => inversion Hs; subst end; [congruence|]. match goal with Hs : says Setting _ _ |- _ => inversion Hs; subst end. rewrite sep_flat. nrm. cbn [app]. eauto. }
  destruct Hl as (t & r' & E). apply E_loop1; unfold eng_step at 1; apply X_cur. rewrite E. match goal with |- context [it_eof (here ?s)] => replace (it_eof (here s)) with false by (rewrite here_cons; reflexivity) end; repeat tst; cbv beta iota. rewrite <- E.
  eapply E_bind, E_mono; [apply (settings_here p q es ls); assumption|]. intros y s' ([E1 E2] & i & ->). apply X_endOf; [exact E2|]. intros p2. apply E_ret. cbn [g_primary g_partition g_sample g_ttl g_settings g_order]. apply Hf. split; [exact E1|right; exact E2].
Qed.
Lemma eng_stop g id ts (Q : engine_acc -> pstate -> Prop) : heads [K "AS"; K "COMMENT"; K "POPULATE"; O ";"] ts -> Q g (st id ts) -> Ends (eng g) (st id ts) Q.
Proof. intros Ht HQ. apply E_loop1; unfold eng_step at 1; apply X_cur. destruct (it_eof (here (st id ts))); [now apply E_ret|]. repeat tst. now apply E_ret. Qed.

Definition e_tail (b : bool) : list tok := if b then [K "AS"; K "COMMENT"; K "POPULATE"; O ";"] else [K "COMMENT"; K "POPULATE"; O ";"].
Lemma e_tail_as b ts : heads (e_tail b) ts -> heads [K "AS"; K "COMMENT"; K "POPULATE"; O ";"] ts.
Proof. intros H. destruct b; unfold e_tail in H; inc. Qed.
Lemma heads_order x l C ts : order_by x l -> heads C ts -> heads (K "ORDER" :: C) (toks l ++ ts).
Proof. intros [|p q e l' H] Ht; wds; nrm; cbn [app]; [now apply heads_cons|now left]. Qed.
Lemma heads_partition_by x l C ts : partition_by x l -> heads C ts -> heads (K "PARTITION" :: C) (toks l ++ ts).
Proof. intros [|p e l' H] Ht; wds; nrm; cbn [app]; [now apply heads_cons|now left]. Qed.
Lemma heads_primary x l C ts : primary_key x l -> heads C ts -> heads (K "PRIMARY" :: C) (toks l ++ ts).
Proof. intros [|p e l' H] Ht; wds; nrm; cbn [app]; [now apply heads_cons|now left]. Qed.
Lemma heads_sample x l C ts : sample_by x l -> heads C ts -> heads (K "SAMPLE" :: C) (toks l ++ ts).
Proof. intros [|p e l' H] Ht; wds; nrm; cbn [app]; [now apply heads_cons|now left]. Qed.
Lemma heads_ttl x l C ts : table_ttl x l -> heads C ts -> heads (K "TTL" :: C) (toks l ++ ts).
Proof. intros [|e l' H] Ht; nrm; cbn [app]; [now apply heads_cons|]. destruct H. nrm. now left. Qed.
Lemma heads_settings x l C ts : says (Opt Settings) x l -> heads C ts -> heads (K "SETTINGS" :: C) (toks l ++ ts).
Proof. intros H Ht. inversion H; subst; nrm; cbn [app]; [now apply heads_cons|]. match goal with Hs : says Settings _ _ |- _ => inversion Hs; subst end. nrm. now left. Qed.
(** What follows the lists of an engine. *)
Lemma heads_lists pk lpk sb lsb tt ltt se lse ts : primary_key pk lpk -> sample_by sb lsb -> table_ttl tt ltt -> says (Opt Settings) se lse ->
  heads (e_tail (negb (is_nil pk && is_nil sb && is_nil tt && is_nil se))) ts ->
  heads (map K ["PRIMARY"; "SAMPLE"; "TTL"; "SETTINGS"; "COMMENT"; "POPULATE"] ++ [O ";"]) (toks lpk ++ toks lsb ++ toks ltt ++ toks lse ++ ts).
Proof.
  intros H1 H2 H3 H4 Ht. destruct H1; wds; nrm; cbn [app]; [|now left]. destruct H2; wds; nrm; cbn [app]; [|now (right; left)]. destruct H3 as [|e l H3]; nrm; cbn [app]; [|destruct H3; nrm; now (right; right; left)].
  inversion H4; subst; nrm; cbn [app]; [cbn in Ht; inc|]. match goal with Hs : says Settings _ _ |- _ => inversion Hs; subst end. nrm. now (right; right; right; left).
Qed.
Lemma ident_strip n' n p q (t : tok) : ok n' (EIdent n QUnquoted p q) -> ident_name n' = n.
Proof. intros [E _]. destruct n'; try discriminate E. cbn [strip] in E. now inversion E. Qed.
Lemma engine_run b e l p0 id ts : engine b e l -> e <> ENil -> All respects e -> heads (e_tail b) ts -> Ends (parseEngineExpr p0) (st id (toks l ++ ts)) (Got e ts).
Proof.
  intros H He Ha Ht. assert (Has := e_tail_as _ _ Ht). destruct H as [|p q n t ps lps pk lpk pb lpb sb lsb tt ltt se lse ob lob p1 q1 Hn Hps Hob Hpb Hpk Hsb Htt Hse]; [congruence|]. clear He. kids. nrm.
  assert (T5 := heads_settings _ _ _ _ Hse Has). assert (T4 := heads_ttl _ _ _ _ Htt T5). assert (T3 := heads_sample _ _ _ _ Hsb T4). assert (T2 := heads_primary _ _ _ _ Hpk T3). assert (T1 := heads_partition_by _ _ _ _ Hpb T2). assert (T0 := heads_order _ _ _ _ Hob T1).
  assert (TL : ob <> ENil \/ pb <> ENil -> heads (map K ["PRIMARY"; "SAMPLE"; "TTL"; "SETTINGS"; "COMMENT"; "POPULATE"] ++ [O ";"]) (toks lpk ++ toks lsb ++ toks ltt ++ toks lse ++ ts)).
  { intros Hor. apply (heads_lists pk lpk sb lsb tt ltt se lse); auto. assert (En : is_nil ob && is_nil pb = false) by (destruct Hor as [Hx|Hx]; [destruct Hob|destruct Hpb]; try congruence; cbn [is_nil andb]; auto using andb_false_r). rewrite En in Ht. cbn [negb] in Ht. rewrite andb_true_r in Ht. exact Ht. }
  unfold parseEngineExpr. stp. stp. stp. rewrite (plain_tk _ _ _ _ Hn). eapply X_plain; [exact Hn|]. intros n' En. apply X_endOf; [apply En|]. intros pe. stp. apply E_bind.
  set (R := toks lob ++ toks lpb ++ toks lpk ++ toks lsb ++ toks ltt ++ toks lse ++ ts) in *.
  assert (Hpar : forall i, Ends (if tk (here (st i (toks lps ++ R))) "(" then parseFunctionParams else Ret ENil) (st i (toks lps ++ R)) (fun x s' => okn x ps /\ exists i, s' = st i R)).
  { intros i. destruct Hps as [|ps lps Hps].
    - nrm. stp. apply E_ret. split; [apply okn_nil|eauto].
    - assert (Hc : RP ps lps) by (apply (proj1 all_claims _ _ _ Hps); assumption). destruct Hc as (_ & (t0 & r0 & E & _) & Hc). assert (Hk : tk (here (st i (toks lps ++ R))) "(" = true) by (rewrite E; reflexivity). rewrite Hk. eapply E_mono; [apply Hc; inc|]. intros x s' (Hx & j & ->). split; [now apply ok_okn|eauto]. }
  eapply E_mono; [apply Hpar|]. intros ps' s' (Eps & i & ->). apply E_bind. subst R.
  apply (eng_order ob lob); [assumption|assumption| |].
  { intros Hx. assert (Hx2 := TL (or_introl Hx)). assert (Hx3 := heads_partition_by _ _ _ _ Hpb Hx2). inc. }
  intros ob' i1 pe1 Eob. apply (eng_partition pb lpb); [assumption|assumption| |].
  { intros Hx. assert (Hx2 := TL (or_intror Hx)). inc. }
  intros pb' i2 pe2 Epb. apply (eng_primary pk lpk); [assumption|assumption|inc|].
  intros pk' i3 pe3 Epk. apply (eng_sample sb lsb); [assumption|assumption|inc|].
  intros sb' i4 pe4 Esb. apply (eng_ttl tt ltt); [assumption|assumption|inc|intros j; slv|].
  intros tt' i5 pe5 Ett. apply (eng_settings se lse); [assumption|intros j; slv|].
  intros se' i6 pe6 Ese. apply eng_stop; [exact Has|]. apply E_got. cbn [g_primary g_partition g_sample g_ttl g_settings g_order g_end].
  split; [|discriminate]. cbn [strip]. rewrite (ident_strip _ _ _ _ t En). destruct Eps as [-> _], Eob as [-> _], Epb as [-> _], Epk as [-> _], Esb as [-> _], Ett as [-> _], Ese as [-> _]. reflexivity.
Qed.
Lemma X_engine {A} b e l id ts (f : expr -> prog A) Q : engine b e l -> All respects e -> heads (e_tail b) ts ->
  (forall e' i, okn e' e -> Ends (f e') (st i ts) Q) -> Ends (do x <- tryParseEngineExpr ;; f x) (st id (toks l ++ ts)) Q.
Proof.
  intros H Ha Ht Hf. apply E_bind. unfold tryParseEngineExpr, whenKw. assert (Has := e_tail_as _ _ Ht). destruct (is_nil e) eqn:En.
  - destruct H; [|discriminate]. nrm. cbn [app]. repeat stp. apply E_ret, Hf, okn_nil.
  - assert (Hk : forall i, kw (here (st i (toks l ++ ts))) "ENGINE" = true) by (intros i; destruct H; [discriminate|]; nrm; reflexivity). stp. rewrite Hk. 
    eapply E_mono; [eapply engine_run; [exact H|intros ->; discriminate|exact Ha|exact Ht]|]. intros x s' (Hx & i & ->). now apply Hf, ok_okn.
Qed.

(** *** Queries *)
Lemma query_of q l : says Query q l -> All respects q -> QP q l.
Proof. intros H Ha. apply (proj1 all_claims _ _ _ H); assumption. Qed.
Lemma sub_plain q l id ts : heads [O ";"] ts -> says Query q l -> All respects q -> Ends parseSubQuery (st id (toks l ++ ts)) (Got (ESubQuery false q) ts).
Proof.
  intros Hts H Ha. assert (Hq := query_of _ _ H Ha). unfold parseSubQuery. assert (Hk : forall i, tk (here (st i (toks l ++ ts))) "(" = false) by (intros i; destruct Hq as (_ & (r & [E|E]) & _); rewrite E; reflexivity).
  apply X_tryTk_no; [apply Hk|]. eapply E_use; [apply query_plain, Hq|inc|]. intros x i [E1 E2]. stp. apply E_got. split; [cbn [strip]; congruence|exact E2].
Qed.
Lemma sub_paren q l id ts : says Query q l -> All respects q -> Ends parseSubQuery (st id (O "(" :: toks l ++ O ")" :: ts)) (Got (ESubQuery true q) ts).
Proof.
  intros H Ha. assert (Hq := query_of _ _ H Ha). unfold parseSubQuery. stp. eapply E_use; [apply query_plain, Hq|now left|]. intros x i [E1 E2]. stp. apply E_got. split; [cbn [strip]; congruence|exact E2].
Qed.
Lemma as_some b e l : as_query b e l -> All respects e -> e <> ENil -> exists u r, toks l = K "AS" :: u :: r /\ In u [K "SELECT"; K "WITH"; O "("] /\
  forall id ts, b = true \/ heads [O ";"] ts -> Ends parseSubQuery (st id (u :: r ++ ts)) (Got e ts).
Proof.
  intros [|q l0 H|q l0 H] Ha Hn; [congruence| |]; kids.
  - assert (Hq := query_of _ _ H ltac:(assumption)). assert (Hp := fun id ts Hts => sub_plain q l0 id ts Hts H ltac:(assumption)). destruct Hq as (_ & (r & [E|E]) & _); nrm; rewrite E in *; eexists _, r; (split; [reflexivity|split; [cbn; tauto|]]); (intros id ts [Hb|Hb]; [discriminate|]); now apply Hp.
  - unfold paren. nrm. eexists _, _. split; [reflexivity|split; [cbn; tauto|]]. intros id ts _. nrm. now apply sub_paren.
Qed.
Lemma X_as_view {A} b e l id ts (f : expr -> prog A) Q : as_query b e l -> All respects e -> (b = true \/ heads [O ";"] ts) -> (forall i, kw (here (st i ts)) "AS" = false) ->
  (forall e' i, okn e' e -> Ends (f e') (st i ts) Q) -> Ends (do x <- ifKw "AS" parseSubQuery (Ret ENil) ;; f x) (st id (toks l ++ ts)) Q.
Proof.
  intros H Ha Hb Ht Hf. apply E_bind. unfold ifKw. destruct (is_nil e) eqn:En.
  - destruct H; try discriminate En. nrm. cbn [app]. repeat stp. apply E_ret, Hf, okn_nil.
  - destruct (as_some _ _ _ H Ha ltac:(intros ->; discriminate)) as (u & r & E & _ & Hs). rewrite E. cbn [app]. repeat stp. eapply E_mono; [apply Hs, Hb|]. intros x s' (Hx & i & ->). now apply Hf, ok_okn.
Qed.

(** *** Statements *)
Lemma comment_end k l : after_words ["COMMENT"] k l -> k = ENil -> toks l = [].
Proof. intros [|e t H] E; [reflexivity|]. subst. inversion H. Qed.
Lemma comment_last k lk b ts : heads [O ";"] ts -> after_words ["COMMENT"] k lk -> k = ENil \/ b = true -> b = true \/ heads [O ";"] (toks lk ++ ts).
Proof. intros Hts H [E|E]; [right|now left]. now rewrite (comment_end _ _ H E). Qed.
Lemma database_run p q e t (i : bool) c lc b g lg k lk p0 id ts : heads [O ";"] ts -> plain_name e t -> cluster c lc -> engine b g lg -> after_words ["COMMENT"] k lk -> All respects (ECreateDatabase p q e i c g k) ->
  Ends (parseCreateDatabase p0) (st id (K "DATABASE" :: toks (flag i ["IF"; "NOT"; "EXISTS"]) ++ t :: toks lc ++ toks lg ++ toks lk ++ ts)) (Fin ts (ECreateDatabase p q e i c g k)).
Proof.
  intros Hts Hn Hc Hg Hk Ha. kids. assert (T1 := heads_after _ _ _ _ _ _ Hk Hts). assert (T2 := heads_engine _ _ _ _ _ Hg T1). unfold parseCreateDatabase. stp. eapply X_ifnot; [intros; slv|]. intros j. eapply X_plain; [exact Hn|]. intros n' [E1 E2]. apply X_endOf; [exact E2|]. intros pe.
  eapply X_cluster; [exact Hc|intros; slv|]. intros c' j1 [E3 E4]. apply X_endOr; [exact E4|]. intros pe1. eapply X_engine; [exact Hg|assumption|destruct b; unfold e_tail; inc|]. intros g' j2 [E5 E6]. apply X_endOr; [exact E6|]. intros pe2. eapply X_tryComment; [exact Hk|intros; slv|]. intros k' j3 [E7 E8]. fin.
Qed.
Lemma table_run p q (r tmp i : bool) t lt u lu c lc s lsc b g lg bq sq lsq k lk p0 id ts : heads [O ";"] ts ->
    table t lt -> uuid u lu -> cluster c lc -> schema s lsc -> engine b g lg -> as_query bq sq lsq -> after_words ["COMMENT"] k lk ->
    sq = ENil \/ b = true -> k = ENil \/ bq = true -> All respects (ECreateTable p q r t i u c s g sq ENil tmp k) ->
  Ends (parseCreateTable p0 r) (st id (toks (flag tmp ["TEMPORARY"]) ++ K "TABLE" :: toks (flag i ["IF"; "NOT"; "EXISTS"]) ++ toks lt ++ toks lu ++ toks lc ++ toks lsc ++ toks lg ++ toks lsq ++ toks lk ++ ts))
    (Fin ts (ECreateTable p q r t i u c s g sq ENil tmp k)).
Proof.
  intros Hts Ht Hu Hc Hs Hg Hq Hk Hb Hbq Ha. kids. assert (T1 := heads_after _ _ _ _ _ _ Hk Hts). assert (T2 := heads_as _ _ _ _ _ Hq T1). assert (T3 := heads_engine _ _ _ _ _ Hg T2). assert (T4 := heads_schema _ _ _ _ Hs T3). assert (T5 := heads_cluster _ _ _ _ Hc T4). assert (T6 := heads_uuid _ _ _ _ Hu T5).
  unfold parseCreateTable. eapply X_flag; [reflexivity|reflexivity|]. intros j0. stp. eapply X_ifnot; [intros; slv|]. intros j1. eapply X_table; [exact Ht|intros; slv|]. intros t' j2 [E1 E2].
  eapply X_uuid; [exact Hu|intros; slv|]. intros u' j3 [E3 E4]. eapply X_cluster; [exact Hc|intros; slv|]. intros c' j4 [E5 E6].
  eapply X_schema; [exact Hs|assumption| |].
  { destruct (is_nil g) eqn:En.
    - destruct Hg; [|discriminate]. nrm. cbn [app]. destruct (is_nil sq) eqn:Eq.
      + left. destruct Hq; try discriminate Eq. nrm. cbn [app]. clear T2 T3 T4 T5 T6. inc.
      + right. destruct (as_some _ _ _ Hq ltac:(assumption) ltac:(intros ->; discriminate)) as (v & r0 & E & Hv & _). rewrite E. cbn [app]. eauto.
    - left. destruct Hg; [discriminate|]. nrm. now left. }
  intros s' j5 [E7 E8]. eapply X_engine; [exact Hg|assumption| |].
  { destruct Hb as [-> | ->]; [|unfold e_tail; inc]. inversion Hq; subst. nrm. cbn [app]. clear T2 T3 T4 T5 T6. destruct b; unfold e_tail; inc. }
  intros g' j6 [E9 E10]. apply X_endOr; [exact E10|]. intros pe1.
  assert (Hrest : forall sq' i9 pe0, okn sq' sq -> Ends (do statementEnd <- endOr sq' pe0 ;; do statementEnd <- endOr ENil statementEnd ;; do comment <- tryParseComment ;; Ret (ECreateTable p0 statementEnd r t' i u' c' s' g' sq' ENil tmp comment)) (st i9 (toks lk ++ ts)) (Fin ts (ECreateTable p q r t i u c s g sq ENil tmp k))).
  { intros sq' i0 pe0 [E11 E12]. apply X_endOr; [exact E12|]. intros pe2. apply X_endOr; [now left|]. intros pe3. eapply X_tryComment; [exact Hk|intros; slv|]. intros k' j7 [E13 E14]. fin. }
  destruct (is_nil sq) eqn:Eq.
  - destruct Hq; try discriminate Eq. nrm. cbn [app]. clear T2 T3 T4 T5 T6. stp. stp. cbv beta iota. apply Hrest, okn_nil.
  - destruct (as_some _ _ _ Hq ltac:(assumption) ltac:(intros ->; discriminate)) as (v & r0 & E & Hv & Hsub). rewrite E. cbn [app]. stp. cbv beta iota. apply E_bind. stp.
    match goal with |- Ends (if ?x then _ else _) _ _ => replace x with true by (cbn in Hv; destruct Hv as [<-|[<-|[<-|[]]]]; reflexivity) end. eapply E_bind, E_mono; [apply Hsub; eapply comment_last; [exact Hts|eassumption..]|]. intros x s0 (Hx & i9 & ->). apply E_ret. cbv beta iota. now apply Hrest, ok_okn.
Qed.
Lemma view_run p q (r i : bool) t lt u lu c lc s lsc bq sq lsq k lk p0 id ts : heads [O ";"] ts ->
    table t lt -> uuid u lu -> cluster c lc -> schema s lsc -> after_words ["COMMENT"] k lk -> as_query bq sq lsq -> All respects (ECreateView p q r t i u c s k sq) ->
  Ends (parseCreateView p0 r) (st id (K "VIEW" :: toks (flag i ["IF"; "NOT"; "EXISTS"]) ++ toks lt ++ toks lu ++ toks lc ++ toks lsc ++ toks lk ++ toks lsq ++ ts)) (Fin ts (ECreateView p q r t i u c s k sq)).
Proof.
  intros Hts Ht Hu Hc Hs Hk Hq Ha. kids. assert (T2 := heads_as _ _ _ _ _ Hq Hts). assert (T1 := heads_after _ _ _ _ _ _ Hk T2). assert (T4 := heads_schema _ _ _ _ Hs T1). assert (T5 := heads_cluster _ _ _ _ Hc T4). assert (T6 := heads_uuid _ _ _ _ Hu T5).
  unfold parseCreateView. stp. eapply X_ifnot; [intros; slv|]. intros j1. eapply X_table; [exact Ht|intros; slv|]. intros t' j2 [E1 E2].
  eapply X_uuid; [exact Hu|intros; slv|]. intros u' j3 [E3 E4]. eapply X_cluster; [exact Hc|intros; slv|]. intros c' j4 [E5 E6]. stp. apply E_bind.
  assert (Hrest : forall s' i9, okn s' s -> Ends (do comment <- tryParseComment ;; do subQuery <- ifKw "AS" parseSubQuery (Ret ENil) ;; do statementEnd <- endOr subQuery PZero ;; Ret (ECreateView p0 statementEnd r t' i u' c' s' comment subQuery)) (st i9 (toks lk ++ toks lsq ++ ts)) (Fin ts (ECreateView p q r t i u c s k sq))).
  { intros s' i9 [E7 E8]. eapply X_tryComment; [exact Hk|intros; slv|]. intros k' j7 [E13 E14]. eapply X_as_view; [exact Hq|assumption|now right|intros; slv|]. intros q' j8 [E9 E10]. apply X_endOr; [exact E10|]. intros pe. fin. }
  destruct Hs as [|p1 q1 es ls Hs Hm Hn].
  - nrm. cbn [app]. clear T4 T5 T6. stp. apply E_ret. apply Hrest, okn_nil.
  - unfold paren. nrm. cbn [app]. stp. kids. eapply E_mono; [apply (schema_run p1 q1 es ls); assumption|]. intros x s' (Hx & i9 & ->). now apply Hrest, ok_okn.
Qed.
Lemma heads_target d s g pop l ts : view_target d s g pop l -> heads (map K ["TO"; "ENGINE"] ++ [O "("]) (toks l ++ ts).
Proof.
  intros [p t lt H|s' ls b e l' pop' Hs Hg He Hb]; nrm; [now left|]. destruct Hs; unfold paren; nrm; cbn [app]; [|now (right; right; left)]. destruct Hg; [congruence|]. nrm. now (right; left).
Qed.
Definition view_tail (p0 : pos) t i c d s g (pe : pos) : prog expr :=
  do hasEmpty <- tryKw "EMPTY" ;;
  do definer <- ifKw "DEFINER" (do! expTk "=" ;; parseIdent) (Ret ENil) ;;
  do b <- tryKws ["SQL"; "SECURITY"] ;;
  do sqlSecurity <-
    (if b then
       do it <- cur_item ;;
       if kws it ["DEFINER"; "NONE"] then grab
       else Fail (Msg "expected DEFINER or NONE after SQL SECURITY, got %q")
     else Ret "") ;;
  do populate <- tryKw "POPULATE" ;;
  do! (if populate : bool then
        if negb (is_nil d) then Fail (Msg "POPULATE is only allowed when using ENGINE, not with TO clause")
        else if is_nil g then Fail (Msg "POPULATE requires ENGINE to be specified")
        else Ret tt
      else Ret tt) ;;
  do here <- pos_ ;;
  let statementEnd := if populate : bool then here else pe in
  do comment <- tryParseComment ;;
  do subQuery <- ifKw "AS" parseSubQuery (Ret ENil) ;;
  do statementEnd <- endOr subQuery statementEnd ;;
  do comment <- (if is_nil comment then tryParseComment else Ret comment) ;;
  Ret (ECreateMaterializedView p0 statementEnd t i c ENil ENil [] ENil false g s hasEmpty d subQuery populate comment definer sqlSecurity).
Lemma view_tail_run p q (i : bool) t t' c c' d d' s s' g g' (pop : bool) bq sq lsq k lk p0 id pe ts : heads [O ";"] ts -> strip t' = strip t -> strip c' = strip c -> strip d' = strip d -> strip s' = strip s -> strip g' = strip g ->
  (pop = true -> is_nil d' = true /\ is_nil g' = false) -> as_query bq sq lsq -> after_words ["COMMENT"] k lk -> k = ENil \/ bq = true -> All respects sq ->
  Ends (view_tail p0 t' i c' d' s' g' pe) (st id (toks (flag pop ["POPULATE"]) ++ toks lsq ++ toks lk ++ ts)) (Fin ts (ECreateMaterializedView p q t i c ENil ENil [] ENil false g s false d sq pop k ENil "")).
Proof.
  intros Hts E1 E2 E3 E4 E5 Hp Hq Hk Hb Ha. assert (T1 := heads_after _ _ _ _ _ _ Hk Hts). assert (T2 := heads_as _ _ _ _ _ Hq T1). assert (T3 := heads_flag pop "POPULATE" _ _ T2).
  unfold view_tail. unfold ifKw at 1. stp. stp. stp. apply E_ret. stp. stp. cbv beta iota. eapply X_flag; [reflexivity|intros; slv|]. intros j1. apply E_bind.
  assert (Hx : Ends (if pop then if negb (is_nil d') then Fail (Msg "POPULATE is only allowed when using ENGINE, not with TO clause") else if is_nil g' then Fail (Msg "POPULATE requires ENGINE to be specified") else Ret tt else Ret tt) (st j1 (toks lsq ++ toks lk ++ ts)) (fun _ s0 => s0 = st j1 (toks lsq ++ toks lk ++ ts))) by (destruct pop; [destruct (Hp eq_refl) as [-> ->]|]; now apply E_ret).
  eapply E_mono; [exact Hx|]. intros _ ? ->. stp. cbv zeta. clear Hx T3. destruct (is_nil sq) eqn:Eq.
  - destruct Hq; try discriminate Eq. nrm. cbn [app]. clear T2. eapply X_tryComment; [exact Hk|intros; slv|]. intros k' j2 [E6 E7]. apply E_bind. unfold ifKw. stp. apply E_ret. apply X_endOr; [now left|]. intros pe2. apply E_bind. destruct (is_nil k') eqn:Ek.
    + unfold tryParseComment. stp. apply E_ret. assert (Es : strip k = ENil) by (rewrite <- E6; destruct k'; try discriminate Ek; reflexivity). apply E_ret. split; [cbn [strip map]; rewrite Es; congruence|eauto].
    + apply E_ret. fin.
  - assert (HT : exists r0, toks lsq = K "AS" :: r0) by (destruct (as_some _ _ _ Hq Ha ltac:(intros ->; discriminate)) as (v & r0 & E & _); eauto). destruct HT as (r0 & ET).
    apply E_bind. unfold tryParseComment at 1. assert (Hn : forall j, kw (here (st j (toks lsq ++ toks lk ++ ts))) "COMMENT" = false) by (intros j; rewrite ET; reflexivity). apply X_tryKw_no; [apply Hn|]. apply E_ret.
    eapply (X_as_view bq sq lsq); [exact Hq|exact Ha|eapply comment_last; [exact Hts|eassumption..]|intros; slv|]. intros q' j3 [E6 E7]. apply X_endOr; [exact E7|]. intros pe2. cbn [is_nil]. eapply X_tryComment; [exact Hk|intros; slv|]. intros k' j4 [E8 E9]. fin.
Qed.

Lemma materialized_run p q (i : bool) t lt c lc d s g (pop : bool) lg bq sq lsq k lk p0 id ts : heads [O ";"] ts ->
    table t lt -> cluster c lc -> view_target d s g pop lg -> as_query bq sq lsq -> after_words ["COMMENT"] k lk -> k = ENil \/ bq = true ->
    All respects (ECreateMaterializedView p q t i c ENil ENil [] ENil false g s false d sq pop k ENil "") ->
  Ends (parseCreateMaterializedView p0) (st id (K "MATERIALIZED" :: K "VIEW" :: toks (flag i ["IF"; "NOT"; "EXISTS"]) ++ toks lt ++ toks lc ++ toks lg ++ toks lsq ++ toks lk ++ ts)) (Fin ts (ECreateMaterializedView p q t i c ENil ENil [] ENil false g s false d sq pop k ENil "")).
Proof.
  intros Hts Ht Hc Hv Hq Hk Hb Ha. kids. assert (T1 := heads_after _ _ _ _ _ _ Hk Hts). assert (T2 := heads_as _ _ _ _ _ Hq T1). assert (T3 := heads_target _ _ _ _ _ (toks lsq ++ toks lk ++ ts) Hv). assert (T4 := heads_cluster _ _ _ _ Hc T3).
  unfold parseCreateMaterializedView. stp. stp. eapply X_ifnot; [intros; slv|]. intros j1. eapply X_table; [exact Ht|intros; slv|]. intros t' j2 [E1 E2]. eapply X_cluster; [exact Hc|intros; slv|]. intros c' j3 [E3 E4].
  unfold tryParseRefreshExpr. stp. stp. stp. apply E_ret. stp. stp. stp. stp. unfold tryParseSettingsClause. stp. stp. stp. apply E_ret. stp. stp.
  match goal with |- Ends (bind _ ?f) _ _ => assert (Hrest : forall d' s' g' pe j, strip d' = strip d -> strip s' = strip s -> strip g' = strip g -> (pop = true -> is_nil d' = true /\ is_nil g' = false) -> Ends (f (d', s', g', pe)) (st j (toks (flag pop ["POPULATE"]) ++ toks lsq ++ toks lk ++ ts)) (Fin ts (ECreateMaterializedView p q t i c ENil ENil [] ENil false g s false d sq pop k ENil ""))) end.
  { intros. eapply (view_tail_run p q i t t' c c' d d' s s' g g' pop); eassumption. }
  apply E_bind. assert (T5 := heads_flag pop "POPULATE" _ _ T2). destruct Hv as [p1 tt1 lt1 HH1|s ls b e l pop Hsc Hg He Hp].
  - nrm. repeat stp. unfold parseDestinationClause. apply E_bind. stp. stp. eapply X_table; [exact HH1|intros; slv|]. intros x j [F1 F2]. apply E_ret. apply X_endOf; [exact F2|]. intros pe. stp. stp. stp. apply E_ret. apply (Hrest _ _ _ _ _); [cbn [strip]; congruence|reflexivity|reflexivity|discriminate].
  - nrm. assert (Htail : heads (e_tail b) (toks (flag pop ["POPULATE"]) ++ toks lsq ++ toks lk ++ ts)) by (destruct Hp as [-> | ->]; [unfold e_tail; inc|destruct b; unfold e_tail; wds; nrm; cbn [app]; [now (right; right; left)|now (right; left)]]).
    assert (Hk0 : forall j, kw (here (st j (toks l ++ toks (flag pop ["POPULATE"]) ++ toks lsq ++ toks lk ++ ts))) "ENGINE" = true) by (intros j; destruct Hg; [congruence|]; nrm; reflexivity).
    assert (Hk1 : forall j, kw (here (st j (toks l ++ toks (flag pop ["POPULATE"]) ++ toks lsq ++ toks lk ++ ts))) "TO" = false) by (intros j; destruct Hg; [congruence|]; nrm; reflexivity).
    assert (Hk2 : forall j, tk (here (st j (toks l ++ toks (flag pop ["POPULATE"]) ++ toks lsq ++ toks lk ++ ts))) "(" = false) by (intros j; destruct Hg; [congruence|]; nrm; reflexivity).
    assert (Hen : is_nil e = false) by (destruct Hg; [congruence|reflexivity]).
    destruct Hsc as [|p1 q1 es ls Hsd Hm Hn].
    + nrm. cbn [app]. rewrite Hk1, Hk2, Hk0. eapply E_bind, E_mono; [eapply engine_run; eassumption|]. intros x s' ([F1 F2] & j & ->). apply X_endOf; [exact F2|]. intros pe. apply E_ret. apply (Hrest _ _ _ _ _); [reflexivity|reflexivity|exact F1|]. intros _. split; [reflexivity|]. now rewrite <- (nil_strip x), F1, nil_strip.
    + unfold paren. nrm. cbn [app]. repeat tst. kids. eapply E_bind, E_mono; [apply (schema_run p1 q1 es ls); assumption|]. intros y s0 ([G1 G2] & j0 & ->). stp. rewrite Hk0. eapply E_bind, E_mono; [eapply engine_run; eassumption|]. intros x s' ([F1 F2] & j & ->). apply X_endOf; [exact F2|]. intros pe. apply E_ret. apply (Hrest _ _ _ _ _); [reflexivity|exact G1|exact F1|]. intros _. split; [reflexivity|]. now rewrite <- (nil_strip x), F1, nil_strip.
Qed.
Lemma function_run p (r i : bool) n t c lc ps lps e l p0 id ts : heads [O ";"] ts -> plain_name n t -> cluster c lc -> says Params ps lps -> says Expr e l -> All respects (ECreateFunction p r i n c ps e) ->
  Ends (parseCreateFunction p0 r) (st id (K "FUNCTION" :: toks (flag i ["IF"; "NOT"; "EXISTS"]) ++ t :: toks lc ++ K "AS" :: toks lps ++ O "->" :: toks l ++ ts)) (Fin ts (ECreateFunction p r i n c ps e)).
Proof.
  intros Hts Hn Hc Hps He Ha. kids. xp He. assert (Hp : RP ps lps) by (apply (proj1 all_claims _ _ _ Hps); assumption). destruct Hp as (_ & _ & Hp).
  unfold parseCreateFunction. stp. eapply X_ifnot; [intros; slv|]. intros j. eapply X_plain; [exact Hn|]. intros n' [E1 E2]. eapply X_cluster; [exact Hc|reflexivity|]. intros c' j1 [E3 E4]. stp. eapply E_use; [exact Hp| |].
  { cbn [heads]. vm_compute. repeat first [left; reflexivity|right]. }
  intros ps' j2 [E5 E6]. stp. eapply E_use; [apply expr_here, HX|inc|]. intros e' j3 [E7 E8]. fin.
Qed.

Lemma collection_param_run e l : collection_param e l -> parses parseNamedCollectionParam e l (heads [O ","; O ";"]).
Proof.
  intros [p n t v lv o no lo Hn Hv Ho] id ts Hts. unfold parseNamedCollectionParam. nrm. cbn [app]. stp. eapply X_plain; [exact Hn|]. intros n' [E1 E2]. stp. stp. apply E_bind.
  assert (Hval : forall i r, Ends (if tk (here (st i (toks lv ++ r))) KString || tk (here (st i (toks lv ++ r))) KInt || tk (here (st i (toks lv ++ r))) KFloat then parseLiteralHere else if tk (here (st i (toks lv ++ r))) KIdent then parseIdent else Fail (Msg "expected string, number or identifier in named collection parameter, got %s")) (st i (toks lv ++ r)) (Got v r)).
  { intros i r. destruct Hv as [v lv Hl|v u Hl].
    - assert (Hk : tk (here (st i (toks lv ++ r))) KString || tk (here (st i (toks lv ++ r))) KInt || tk (here (st i (toks lv ++ r))) KFloat = true) by (destruct Hl as [e' t' Hl|e' t' Hl]; nrm; cbn [app]; [destruct Hl as [? ? []]|destruct Hl]; reflexivity). rewrite Hk. now apply lit_run.
    - nrm. cbn [app]. rewrite (plain_tk _ _ _ _ Hl). rewrite here_cons, !tk_at. rewrite !(any_not _ _ _ (proj1 Hl)) by discriminate. cbn [orb]. apply E_last. eapply X_plain; [exact Hl|]. intros x Hx. now apply E_got. }
  eapply E_mono; [apply Hval|]. intros v' s' ([E3 E4] & i & ->). destruct Ho; wds; nrm; cbn [app]; repeat stp; try apply E_ret; cbv beta iota; apply E_got; (split; [cbn [strip]; congruence|exact E4]).
Qed.
Lemma collection_params es ls ts0 : heads [O ";"] ts0 -> Forall2 collection_param es ls -> es <> [] -> forall acc acc0 id, Forall2 ok acc acc0 ->
  Ends (loop acc (fun acc => do it <- cur_item ;; if it_eof it then Ret (inr acc) else do x <- parseNamedCollectionParam ;; do c <- tryTkb "," ;; Ret (if c then inl (acc ++ [x]) else inr (acc ++ [x])))) (st id (toks (sep_by comma ls) ++ ts0)) (Gots (acc0 ++ es) ts0).
Proof.
  intros Hts.
  assert (Hlong : forall e l ts i, collection_param e l -> it_eof (here (st i (toks l ++ ts))) = false) by (intros e l ts i []; nrm; reflexivity).
  intros H Hn. destruct H as [|e l es ls H1 H]; [congruence|]. clear Hn. revert e l H1. induction H as [|e2 l2 es ls H2 H IH]; intros e l H1 acc acc0 id Hacc; apply E_loop1, X_cur.
  - cbn [sep_by]. rewrite (Hlong e) by assumption. eapply E_use; [eapply collection_param_run; eassumption|inc|]. intros x i Hx. stp. apply E_ret. split; [|eauto]. apply Forall2_app; auto.
  - rewrite sep_cons. unfold comma at 1 2. nrm. rewrite (Hlong e) by assumption. eapply E_use; [eapply collection_param_run; eassumption|now left|]. intros x i Hx. stp. apply E_ret.
    replace (acc0 ++ e :: e2 :: es) with ((acc0 ++ [e]) ++ e2 :: es) by now rewrite <- app_assoc. apply IH; [assumption..|]. apply Forall2_app; auto.
Qed.
Lemma collection_run p q n t (i : bool) c lc es ls p0 id ts : heads [O ";"] ts -> plain_name n t -> cluster c lc -> Forall2 collection_param es ls -> es <> [] -> All respects (ECreateNamedCollection p q n i c es) ->
  Ends (parseCreateNamedCollection p0) (st id (K "NAMED" :: K "COLLECTION" :: toks (flag i ["IF"; "NOT"; "EXISTS"]) ++ t :: toks lc ++ K "AS" :: toks (sep_by comma ls) ++ ts)) (Fin ts (ECreateNamedCollection p q n i c es)).
Proof.
  intros Hts Hn Hc Hs Hne Ha. unfold parseCreateNamedCollection. stp. stp. eapply X_ifnot; [intros; slv|]. intros j. eapply X_plain; [exact Hn|]. intros n' [E1 E2]. eapply X_cluster; [exact Hc|reflexivity|]. intros c' j1 [E3 E4]. stp.
  unfold commaLoop. eapply E_bind, E_mono; [apply (collection_params _ _ _ Hts Hs Hne) with (acc0 := []); constructor|]. intros es' s' (Hes & i3 & ->). cbn [app] in Hes. destruct es' as [|x es']; [exfalso; inversion Hes; subst; congruence|]. cbn [is_empty negb].
  apply X_endOf; [eapply ok_last; [exact Hes|discriminate]|]. intros pe. apply E_ret. split; [|eauto]. apply oks_strip in Hes. cbn [strip]. congruence.
Qed.
