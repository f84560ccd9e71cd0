(** A source that spells a canonical query is parsed as a list of one statement: the query. *)
From Coq Require Import String List Arith Bool Lia.
From Verif Require Import Str Keyword Lexer LexSpec LexFacts LexRun LexGrammar LexTokens Ast AstPos AstSubs Strip StripFacts Prog Items ItemsFacts RunFacts FuelFacts ParserCommon ParserExpr ParserQuery Parser ParserApi ParseFacts LayoutSpec LayoutFacts LayoutParse Exec PrecSpec RoundSpec RoundExec RoundBase RoundExpr RoundOps RoundPrim RoundClause RoundFrom RoundQuery RoundAll.
Import ListNotations.
Local Open Scope string_scope.
Local Open Scope list_scope.
Local Open Scope nat_scope.

Lemma X_consumeOrFail {A} (f : unit -> prog A) s id ts Q : advance s = st id ts -> Ends (f tt) (st id ts) Q -> Ends (bind consumeOrFail f) s Q.
Proof. intros E H. apply E_bind. unfold consumeOrFail. apply E_consume. rewrite E, here_err. apply E_ret, H. Qed.

Lemma stmt_ok e l : QP e l -> parses parseStmt e l (fun ts => ts = []).
Proof.
  intros Hq id ts ->. assert (H := query_plain _ _ Hq id [] I). destruct Hq as (_ & (r & E) & _). unfold parseStmt. apply E_bind. unfold parseStmtBody. apply X_cur. cbv beta zeta.
  assert (Hk : kws (here (st id (toks l ++ []))) ["CREATE"; "ATTACH"; "ALTER"; "DROP"; "DETACH"; "TRUNCATE"; "RENAME"] = false) by (destruct E as [E|E]; rewrite E; reflexivity).
  assert (Hs : kws (here (st id (toks l ++ []))) ["SELECT"; "WITH"] = true) by (destruct E as [E|E]; rewrite E; reflexivity).
  rewrite Hk, Hs. eapply E_mono; [exact H|]. intros e' s' (He & i & ->). unfold tryParseFormatHere, tryParseFormat. apply E_bind.
  repeat stp. apply E_ret. apply X_cur. cbn. apply E_ret. split; [exact He|now exists i].
Qed.

Lemma stmts_ok e l s : QP e l -> 2 <= List.length (toks l) -> advance s = st 1 (toks l) ->
  Ends ParseStmts s (fun es _ => exists e', es = [e'] /\ strip e' = strip e).
Proof.
  intros Hq Hn Hs. unfold ParseStmts. apply E_loop1. eapply X_consumeOrFail; [exact Hs|]. apply X_cur. cbv beta.
  assert (H := stmt_ok _ _ Hq 1 [] eq_refl). rewrite app_nil_r in H.
  assert (He : it_eof (here (st 1 (toks l))) = false) by (destruct (toks l) as [|t [|u r]]; cbn in Hn; [lia|lia|reflexivity]).
  assert (Ht : tk (here (st 1 (toks l))) ";" = false) by (destruct Hq as (_ & (r & [E|E]) & _); rewrite E; reflexivity).
  rewrite He, Ht. apply E_bind. eapply E_mono; [exact H|]. intros e' s' (Hk & i & ->). apply E_ret.
  apply E_loop1. eapply X_consumeOrFail; [apply adv_end|]. apply X_cur. cbv beta. cbn [st here it_eof]. apply E_ret. exists e'. split; [reflexivity|apply Hk].
Qed.

Lemma query_long e l : says Query e l -> All respects e -> 2 <= List.length (toks l).
Proof.
  intros H Ha. remember Query as k eqn:Ek. destruct H; try discriminate Ek.
  inversion Ha as [? _ Hs]; subst. cbn [subs] in Hs. repeat rewrite ?Forall_app, ?Forall_cons_iff in Hs.
  assert (Hi : Forall (All respects) its) by tauto.
  assert (Hc := proj2 all_claims _ _ _ H0 Hi). destruct Hc as [|e0 l0 es ls Hc _]; [congruence|]. destruct Hc as [(t & r & Ht & _) _].
  destruct ls as [|l1 ls]; cbn [sep_by]; nrm; rewrite Ht, app_length; cbn [List.length]; rewrite !app_length; cbn [List.length]; lia.
Qed.

Lemma expected_items ts prev id : ts <> [] -> expected id prev ts true = items_at id ts.
Proof.
  intros H. destruct ts as [|t r]; [congruence|]. clear H. revert id prev t. induction r as [|u r IH]; intros id prev t; cbn [expected items_at item_at]; [reflexivity|].
  f_equal. apply (IH (S id) (Some t) u).
Qed.

Lemma source_parsed t l s : says Query t l -> All respects t -> source None (toks l) true s ->
  exists t' sp, parse_stmts s = Parsed [t'] sp /\ strip t' = strip t.
Proof.
  intros Hs Ha Hsrc. assert (Hq := proj1 all_claims _ _ _ Hs Ha). cbn [claim] in Hq. assert (Hn := query_long _ _ Hs Ha).
  destruct (source_states _ _ _ Hsrc) as (sts & Hsts & Hit).
  assert (Hne : toks l <> []) by (intros E; rewrite E in Hn; cbn in Hn; lia).
  rewrite expected_items in Hit by exact Hne.
  set (i0 := mkItem 0 None match toks l with [] => true | _ => false end None) in *.
  set (s0 := mkP i0 (items_at 1 (toks l)) []).
  assert (H0 : init_pstate (number_items s 0 sts) = Some s0) by (rewrite Hit; reflexivity).
  assert (Had : advance s0 = st 1 (toks l)) by (destruct (toks l); [congruence|reflexivity]).
  destruct (stmts_ok _ _ _ Hq Hn Had) as (f0 & es & s' & Hr & e' & -> & He).
  exists e', (spans sts). split; [|exact He]. unfold parse_stmts. rewrite (api_eq s sts Hsts).
  rewrite <- (run_ends s sts Hsts f0 s0 H0), Hr by lia. reflexivity.
Qed.
