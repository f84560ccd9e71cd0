(** A source that spells a canonical statement is parsed as a list of one statement. *)
From Coq Require Import String List Arith Bool Lia.
From Verif Require Import Str Keyword Lexer LexSpec LexFacts LexRun LexGrammar LexTokens Ast AstPos AstSubs Strip StripFacts Prog Items ItemsFacts RunFacts FuelFacts ParserCommon ParserExpr ParserQuery Parser ParserApi ParseFacts LayoutSpec LayoutFacts LayoutParse Exec PrecSpec RoundSpec RoundExec RoundBase RoundExpr RoundClause RoundFrom RoundQuery RoundAll RoundStmt RoundMoreSpec RoundMoreParse RoundMoreStmt.
Import ListNotations.
Local Open Scope string_scope.
Local Open Scope list_scope.
Local Open Scope nat_scope.

(** The first of at least two tokens is a keyword. *)
Definition led (l : list sym) : Prop := exists w u r, toks l = K w :: u :: r.
Lemma led2 w u r l : toks l = K w :: u :: r -> led l.
Proof. intros H. exists w, u, r. exact H. Qed.
Lemma table_led e l : table e l -> exists u r, toks l = u :: r.
Proof. intros H. destruct (table_start _ _ H) as (d & t & r & E & _). eauto. Qed.
Lemma stmt_led e l : stmt e l -> All respects e -> led l.
Proof.
  intros H Ha. unfold led. destruct H; try (wds; nrm; cbn [app]; eauto; fail).
  - assert (HQ : QP e l) by now apply (proj1 all_claims _ _ _ H). assert (Hn := query_long _ _ H Ha). destruct HQ as (_ & (r & E) & _). destruct E as [E|E]; rewrite E in *; destruct r as [|u r]; cbn in Hn; try lia; eauto.
  - inversion H as [|k e l es' ls' He H2]; subst; [congruence|]. nrm. rewrite sep_flat, toks_app. inversion He; subst. nrm. eauto.
  - destruct tmp; wds; nrm; cbn [app]; eauto.
  - destruct tmp; wds; nrm; cbn [app]; eauto.
  - apply table_led in H as (u & r & E). destruct k; wds; nrm; cbn [app]; [eauto|]. rewrite E. eauto.
  - destruct H as [| ? ? ? ? ? [<-|[<-|[]]]| | |]; wds; nrm; cbn [app]; eauto.
Qed.

Lemma stmt_end e l : stmt e l -> All respects e -> Ends parseStmt (st 1 (toks l)) (Fin [] e).
Proof.
  intros H Ha. assert (Hr := stmt_run e l 1 [] I H Ha). rewrite app_nil_r in Hr. unfold parseStmt. eapply E_bind, E_mono; [exact Hr|]. intros e' s' (He & i & ->). unfold tryParseFormatHere, tryParseFormat. apply E_bind.
  repeat stp. apply E_ret. apply X_cur. cbn [st here no_tok it_tok negb andb]. apply E_ret. split; [exact He|now exists i].
Qed.
Lemma stmt_script e l s : stmt e l -> All respects e -> advance s = st 1 (toks l) ->
  Ends ParseStmts s (fun es _ => exists e', es = [e'] /\ strip e' = strip e).
Proof.
  intros Hq Ha Hs. unfold ParseStmts. apply E_loop1. eapply X_consumeOrFail; [exact Hs|]. apply X_cur. cbv beta.
  assert (H := stmt_end _ _ Hq Ha). destruct (stmt_led _ _ Hq Ha) as (w & u & r & E). rewrite E in *.
  assert (He : it_eof (here (st 1 (K w :: u :: r))) = false) by reflexivity.
  assert (Ht : tk (here (st 1 (K w :: u :: r))) ";" = false) by (rewrite here_cons, tk_at; unfold t1; cbn; now rewrite ?andb_false_r).
  rewrite He, Ht. apply E_bind. eapply E_mono; [exact H|]. intros e' s' (Hk & i & ->). apply E_ret.
  apply E_loop1. eapply X_consumeOrFail; [apply adv_end|]. apply X_cur. cbv beta. cbn [st here it_eof]. apply E_ret. exists e'. split; [reflexivity|apply Hk].
Qed.

Lemma stmt_parsed t l s : stmt t l -> All respects t -> source None (toks l) true s ->
  exists t' sp, parse_stmts s = Parsed [t'] sp /\ strip t' = strip t.
Proof.
  intros Hs Ha Hsrc. destruct (source_states _ _ _ Hsrc) as (sts & Hsts & Hit).
  assert (Hne : toks l <> []) by (destruct (stmt_led _ _ Hs Ha) as (w & u & r & ->); discriminate).
  rewrite expected_items in Hit by exact Hne.
  set (i0 := mkItem 0 None match toks l with [] => true | _ => false end None) in *.
  set (s0 := mkP i0 (items_at 1 (toks l)) []).
  assert (H0 : init_pstate (number_items s 0 sts) = Some s0) by (rewrite Hit; reflexivity).
  assert (Had : advance s0 = st 1 (toks l)) by (destruct (toks l); [congruence|reflexivity]).
  destruct (stmt_script _ _ _ Hs Ha Had) as (f0 & es & s' & Hr & e' & -> & He).
  exists e', (spans sts). split; [|exact He]. unfold parse_stmts. rewrite (api_eq s sts Hsts).
  rewrite <- (run_ends s sts Hsts f0 s0 H0), Hr by lia. reflexivity.
Qed.
