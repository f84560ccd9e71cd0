(** Every canonical query is parsed as the tree it spells. *)
From Coq Require Import String List Arith Bool Lia.
From Verif Require Import Str Keyword Lexer LexGrammar LexTokens Ast AstPos AstSubs Strip StripFacts Prog RunFacts FuelFacts ParserCommon ParserExpr ParserQuery Parser Exec PrecSpec RoundSpec RoundExec RoundBase RoundExpr RoundOps RoundPrim RoundClause RoundFrom RoundQuery.
Import ListNotations.
Local Open Scope string_scope.
Local Open Scope list_scope.
Local Open Scope nat_scope.

Lemma subquery_prim q l r : QP q l -> toks l = K "SELECT" :: r -> PP (ESubQuery true q) (paren l).
Proof.
  intros Hq E. assert (El : toks (paren l) = O "(" :: K "SELECT" :: r ++ [O ")"]) by (unfold paren; nrm; now rewrite E).
  split; [exists (O "("), (K "SELECT" :: r ++ [O ")"]); split; [exact El|reflexivity]|]. split; [reflexivity|]. split; [reflexivity|].
  intros p id ts Hf. assert (H := subquery_ok _ _ Hq id ts I). rewrite El in *. cbn [app] in *. unfold parseColumnExpr. apply X_as. replace (t1 _ [KKeyword]) with false by reflexivity. cbn [andb]. repeat stp.
  apply E_peek. rewrite peek_st. exact H.
Qed.

(** The claim for each sort. *)
Fixpoint claim (k : sort) : expr -> list sym -> Prop :=
  match k with
  | Prim => PP | Expr => XP | Params => RP | Array => ArrP | Column => column | When => WP | Else => else_ok
  | Query => QP | With => WithP | Cte => CteP | Item => ItemP | Order => OrdP | Table => TableP | Base => BaseP | Aliased => AliasedP
  | Join => JoinP | From => Clause "FROM" parseFromClause c_prewhere | Constraint => ConsP
  | Prewhere => Clause "PREWHERE" parsePrewhereClause c_where | Where => Clause "WHERE" parseWhereClause c_group
  | GroupBy => Clause "GROUP" parseGroupByClause c_having | Having => Clause "HAVING" parseHavingClause c_order
  | OrderBy => OrderByP | LimitBy => LimByP | Limit => LimP | Setting => SetP
  | Settings => Clause2 "SETTINGS" tryParseSettingsClause c_format | FormatC => Clause2 "FORMAT" tryParseFormatHere c_set
  | NextQuery => NextP | Opt k => opt (claim k)
  end.

Lemma prim_not_nil e l : says Prim e l -> e <> ENil.
Proof.
  intros H ->. inversion H; subst; try match goal with H : free_name _ _ |- _ => destruct H as [H _]; inversion H | H : number_lit _ _ |- _ => inversion H | H : string_lit _ _ |- _ => inversion H | H : star _ |- _ => inversion H | H : says _ _ _ |- _ => inversion H end.
Qed.
Lemma expr_not_nil e l : says Expr e l -> e <> ENil.
Proof. intros H ->. inversion H; subst. match goal with H : says Prim _ _ |- _ => now apply prim_not_nil in H end. Qed.

Ltac kids :=
  repeat match goal with
  | H : All respects ?t |- _ => (tryif is_var t then fail else idtac); let Hr := fresh "Hr" in let Hs := fresh "Hs" in inversion H as [?e Hr Hs]; subst; clear H; cbn [subs] in Hs; repeat rewrite ?Forall_app, ?Forall_cons_iff in Hs; repeat match goal with H : _ /\ _ |- _ => destruct H end
  end;
  repeat match goal with IH : All respects ?x -> _, H : All respects ?x |- _ => specialize (IH H) | IH : Forall (All respects) ?x -> _, H : Forall (All respects) ?x |- _ => specialize (IH H) end.

Lemma all_claims :
  (forall k e l, says k e l -> All respects e -> claim k e l) /\ (forall k es ls, sayl k es ls -> Forall (All respects) es -> Forall2 (claim k) es ls).
Proof.
  apply says_mut; cbn [claim]; intros.
  - now apply name_prim.
  - now apply number_prim.
  - now apply string_prim.
  - now apply star_prim.
  - apply paren_prim. auto.
  - kids. now apply call_prim.
  - apply array_prim. auto.
  - kids. now apply index_prim.
  - now apply field_prim.
  - now apply path_prim.
  - now apply dotstar_prim.
  - kids. now apply case_prim.
  - kids. eapply subquery_prim; eauto.
  - kids. now apply when_ok.
  - now left.
  - right. eauto.
  - kids. now apply params_ok.
  - kids. now apply params2_ok.
  - kids. now apply array_ok.
  - kids. now apply column_plain.
  - kids. now apply column_as.
  - apply prim_ok. auto.
  - kids. now apply binary_ok.
  - kids. now apply not_binary_ok.
  - kids. now apply arrow_ok.
  - kids. now apply cast_ok.
  - kids. apply between_ok; auto. eapply expr_not_nil; eauto.
  - kids. now apply (is_null_ok false).
  - kids. now apply (is_null_ok true).
  - kids. now apply ternary_ok.
  - kids. now apply not_ok.
  - kids. now apply sign_ok.
  - kids. apply index_ok; auto. match goal with H : ArrP _ _ |- _ => apply H end.
  - kids. now apply field_ok.
  - kids. match goal with H : set_op _ _ _ _ _ _ |- _ => assert (Hnq : All respects nq) by (destruct H; assumption) end.
    eapply query_ok; eauto.
  - now left.
  - right. auto.
  - now left.
  - kids. now apply with_ok.
  - kids. now apply cte_ok.
  - kids. now apply cte_name_ok.
  - kids. now apply item_ok.
  - kids. now apply item_as.
  - now apply table0_ok.
  - now apply table1_ok.
  - kids. now apply table_query_ok.
  - left. auto.
  - right. kids. eauto 10.
  - kids. now apply table_ok.
  - kids. now apply from1_ok.
  - kids. now apply from2_ok.
  - apply join0_ok.
  - now apply comma1_ok; auto.
  - kids. now apply comma2_ok.
  - kids. now apply join_ok.
  - kids. now apply on_ok.
  - kids. now apply using_ok.
  - kids. now apply prewhere_ok.
  - kids. now apply where_ok.
  - kids. now apply group_ok.
  - kids. now apply having_ok.
  - kids. now apply order_ok.
  - kids. now apply order_by_ok.
  - kids. now apply limit_ok.
  - kids. now apply limit_offset_ok.
  - kids. now apply offset_ok.
  - kids. eapply limit_by_ok; eauto.
  - now apply setting_ok.
  - kids. now apply settings_ok.
  - now apply format_ok.
  - now left.
  - right. eauto.
  - constructor.
  - match goal with H : Forall _ (_ :: _) |- _ => inversion H; subst end. constructor; auto.
Qed.
