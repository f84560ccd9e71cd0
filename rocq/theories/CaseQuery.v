(** Proofs for C24: the functions of ParserQuery.v on two inputs that are the same up to the spelling of keywords. *)
From Coq Require Import String List Arith Bool Lia ZArith.
From Verif Require Import Str Keyword Lexer Ast AstPos AstSubs Prog RunFacts ParserCommon ParserExpr ParserQuery ParserTable ParserAlter ParserView ParserSystem Parser Recase CaseRel CaseFold CaseItem CaseCommon CaseExpr.
Import ListNotations.
Local Open Scope string_scope.
Local Open Scope nat_scope.

Definition as_table (e : expr) : option (expr * expr) := match e with ETableIdentifier d t => Some (d, t) | _ => None end.
Lemma as_table_match {A} (e : expr) (k : expr -> expr -> A) (z : A) :
  match e with ETableIdentifier d t => k d t | _ => z end = match as_table e with Some (d, t) => k d t | None => z end.
Proof. now destruct e. Qed.
Lemma as_table_rel a b : fold a = fold b -> option_map (fun x => (fold (fst x), fold (snd x))) (as_table a) = option_map (fun x => (fold (fst x), fold (snd x))) (as_table b).
Proof.
  assert (E : forall e, as_table (fold e) = option_map (fun x => (fold (fst x), fold (snd x))) (as_table e)) by (intros e; now destruct e).
  intros H. now rewrite <- !E, H.
Qed.
Definition final_kind (e : expr) : nat :=
  match e with ETableFunctionExpr _ _ => 0 | ESelectQuery _ _ _ _ _ _ _ _ _ _ _ _ _ _ _ _ _ _ _ _ _ _ _ => 1 | _ => 2 end.
Lemma final_match {A} (e : expr) (x y z : A) :
  match e with ETableFunctionExpr _ _ => x | ESelectQuery _ _ _ _ _ _ _ _ _ _ _ _ _ _ _ _ _ _ _ _ _ _ _ => y | _ => z end =
  match final_kind e with 0 => x | 1 => y | _ => z end.
Proof. now destruct e. Qed.
Lemma final_rel a b : fold a = fold b -> final_kind a = final_kind b.
Proof. assert (E : forall e, final_kind (fold e) = final_kind e) by (intros e; now destruct e). intros H. now rewrite <- (E a), H, E. Qed.
Definition limit_by (e : expr) : bool := match e with ELimitByClause _ _ => true | _ => false end.
Lemma limit_by_match {A} (e : expr) (x y : A) : match e with ELimitByClause _ _ => x | _ => y end = if limit_by e then x else y.
Proof. now destruct e. Qed.
Lemma limit_by_rel a b : fold a = fold b -> limit_by a = limit_by b.
Proof. assert (E : forall e, limit_by (fold e) = limit_by e) by (intros e; now destruct e). intros H. now rewrite <- (E a), H, E. Qed.

Section Case.
  Context {f : nat} (Hc : calls f).
  Local Notation sim := (@CaseRel.sim f _ _).

  Lemma c_whenKw k (g g1 : pos -> prog expr) : (forall p, sim (g p) (g1 p)) -> sim (whenKw k g) (whenKw k g1).
  Proof. clear - Hc. intros H. unfold whenKw. refine (sim_bind _ _ _ _ _ _); [step|]. intro_rel. places. step. Qed.
  Local Hint Extern 0 (CaseRel.sim (whenKw _ _) (whenKw _ _)) => (apply c_whenKw; intros; step) : case.
  Lemma c_parseTableArgList (p : pos) : sim (parseTableArgList p) (parseTableArgList p).
  Proof. clear - Hc. intros. unfold parseTableArgList. step. Qed.
  Local Hint Resolve c_parseTableArgList : case.
  Lemma c_parseTableArgPrimaryExpr (p : pos) : sim (parseTableArgPrimaryExpr p) (parseTableArgPrimaryExpr p).
  Proof. clear - Hc. intros. unfold parseTableArgPrimaryExpr. step. Qed.
  Local Hint Resolve c_parseTableArgPrimaryExpr : case.
  Lemma c_body_TableArg (p : pos) : sim (body_TableArg p) (body_TableArg p).
  Proof. clear - Hc. intros. unfold body_TableArg. step. Qed.
  Local Hint Resolve c_body_TableArg : case.
  Lemma c_parseTableIdentifier  : sim (parseTableIdentifier) (parseTableIdentifier).
  Proof. clear - Hc. intros. unfold parseTableIdentifier. step. Qed.
  Local Hint Resolve c_parseTableIdentifier : case.
  Lemma c_aliasExpr (e e1 : Ast.expr) (alias alias1 : Ast.expr) : fold e = fold e1 -> fold alias = fold alias1 -> sim (aliasExpr e alias) (aliasExpr e1 alias1).
  Proof. clear - Hc. intros. unfold aliasExpr. step. Qed.
  Local Hint Resolve c_aliasExpr : case.
  Lemma c_parseTableExpr (p : pos) : sim (parseTableExpr p) (parseTableExpr p).
  Proof.
    clear - Hc. unfold parseTableExpr. refine (sim_bind _ _ _ _ _ _); [step|]. intro_rel. refine (sim_bind _ _ _ _ _ _).
    - match goal with |- CaseRel.sim (if ?b then _ else _) (if ?c then _ else _) => replace c with b by same; destruct b end; [|step].
      refine (sim_bind _ _ _ _ _ _); [step|]. intro_rel. refine (sim_bind _ _ _ _ _ _); [step|]. intro_rel.
      rewrite !as_table_match. match goal with Hf : fold ?x = fold ?y |- _ => pose proof (as_table_rel _ _ Hf) as E end. destruct (as_table _) as [[x y]|]; destruct (as_table _) as [[x1 y1]|]; try discriminate E; [|step].
      cbn [option_map fst snd] in E. assert (fold x = fold x1) by congruence. assert (fold y = fold y1) by congruence. step.
    - intro_rel. refine (sim_bind _ _ _ _ _ _); [step|]. intro_rel. refine (sim_bind _ _ _ _ _ _); [step|]. intro_rel. refine (sim_bind _ _ _ _ _ _); [step|]. intro_rel.
      refine (sim_bind _ _ _ _ _ _); [step|]. intro_rel. rewrite !final_match. match goal with |- context [final_kind ?x] => match goal with |- context [final_kind ?y] => first [constr_eq x y; fail 1 | rewrite (final_rel x y) by assumption] end end. step. destruct (final_kind _) as [|[|n]]; step.
  Qed.
  Local Hint Resolve c_parseTableExpr : case.
  Lemma c_parseSampleClause (p : pos) : sim (parseSampleClause p) (parseSampleClause p).
  Proof. clear - Hc. intros. unfold parseSampleClause. step. Qed.
  Local Hint Resolve c_parseSampleClause : case.
  Lemma c_tryParseSampleClause  : sim (tryParseSampleClause) (tryParseSampleClause).
  Proof. clear - Hc. intros. unfold tryParseSampleClause. step. Qed.
  Local Hint Resolve c_tryParseSampleClause : case.
  Lemma c_parseJoinTableExpr  : sim (parseJoinTableExpr) (parseJoinTableExpr).
  Proof. clear - Hc. intros. unfold parseJoinTableExpr. step. Qed.
  Local Hint Resolve c_parseJoinTableExpr : case.
  Lemma c_tryParseJoinConstraints  : sim (tryParseJoinConstraints) (tryParseJoinConstraints).
  Proof. clear - Hc. intros. unfold tryParseJoinConstraints. step. Qed.
  Local Hint Resolve c_tryParseJoinConstraints : case.
  Lemma c_parseJoinExpr (p : pos) : sim (parseJoinExpr p) (parseJoinExpr p).
  Proof. clear - Hc. intros. unfold parseJoinExpr. step. Qed.
  Local Hint Resolve c_parseJoinExpr : case.
  Lemma c_body_JoinRight (p : pos) : sim (body_JoinRight p) (body_JoinRight p).
  Proof. clear - Hc. intros. unfold body_JoinRight. step. Qed.
  Local Hint Resolve c_body_JoinRight : case.
  Lemma c_parseFromClause (p : pos) : sim (parseFromClause p) (parseFromClause p).
  Proof. clear - Hc. intros. unfold parseFromClause. step. Qed.
  Local Hint Resolve c_parseFromClause : case.
  Lemma c_tryParseFromClause  : sim (tryParseFromClause) (tryParseFromClause).
  Proof. clear - Hc. intros. unfold tryParseFromClause. step. Qed.
  Local Hint Resolve c_tryParseFromClause : case.
  Lemma c_parseCTEStmt  : sim (parseCTEStmt) (parseCTEStmt).
  Proof. clear - Hc. intros. unfold parseCTEStmt. step. Qed.
  Local Hint Resolve c_parseCTEStmt : case.
  Lemma c_parseWithClause (p : pos) : sim (parseWithClause p) (parseWithClause p).
  Proof. clear - Hc. intros. unfold parseWithClause. step. Qed.
  Local Hint Resolve c_parseWithClause : case.
  Lemma c_tryParseWithClause (p : pos) : sim (tryParseWithClause p) (tryParseWithClause p).
  Proof. clear - Hc. intros. unfold tryParseWithClause. step. Qed.
  Local Hint Resolve c_tryParseWithClause : case.
  Lemma c_parseTopClause (p : pos) : sim (parseTopClause p) (parseTopClause p).
  Proof. clear - Hc. intros. unfold parseTopClause. step. Qed.
  Local Hint Resolve c_parseTopClause : case.
  Lemma c_tryParseTopClause  : sim (tryParseTopClause) (tryParseTopClause).
  Proof. clear - Hc. intros. unfold tryParseTopClause. step. Qed.
  Local Hint Resolve c_tryParseTopClause : case.
  Lemma c_parseDistinctOn (p : pos) : sim (parseDistinctOn p) (parseDistinctOn p).
  Proof. clear - Hc. intros. unfold parseDistinctOn. step. Qed.
  Local Hint Resolve c_parseDistinctOn : case.
  Lemma c_tryParseDistinctOn  : sim (tryParseDistinctOn) (tryParseDistinctOn).
  Proof. clear - Hc. intros. unfold tryParseDistinctOn. step. Qed.
  Local Hint Resolve c_tryParseDistinctOn : case.
  Lemma c_parseSelectItem  : sim (parseSelectItem) (parseSelectItem).
  Proof. clear - Hc. intros. unfold parseSelectItem. step. Qed.
  Local Hint Resolve c_parseSelectItem : case.
  Lemma c_parseSelectItems  : sim (parseSelectItems) (parseSelectItems).
  Proof. clear - Hc. intros. unfold parseSelectItems. step. Qed.
  Local Hint Resolve c_parseSelectItems : case.
  Lemma c_parsePrewhereClause (p : pos) : sim (parsePrewhereClause p) (parsePrewhereClause p).
  Proof. clear - Hc. intros. unfold parsePrewhereClause. step. Qed.
  Local Hint Resolve c_parsePrewhereClause : case.
  Lemma c_tryParsePrewhereClause  : sim (tryParsePrewhereClause) (tryParsePrewhereClause).
  Proof. clear - Hc. intros. unfold tryParsePrewhereClause. step. Qed.
  Local Hint Resolve c_tryParsePrewhereClause : case.
  Lemma c_parseWhereClause (p : pos) : sim (parseWhereClause p) (parseWhereClause p).
  Proof. clear - Hc. intros. unfold parseWhereClause. step. Qed.
  Local Hint Resolve c_parseWhereClause : case.
  Lemma c_tryParseWhereClause  : sim (tryParseWhereClause) (tryParseWhereClause).
  Proof. clear - Hc. intros. unfold tryParseWhereClause. step. Qed.
  Local Hint Resolve c_tryParseWhereClause : case.
  Lemma c_parseGroupByClause (p : pos) : sim (parseGroupByClause p) (parseGroupByClause p).
  Proof. clear - Hc. intros. unfold parseGroupByClause. step. Qed.
  Local Hint Resolve c_parseGroupByClause : case.
  Lemma c_tryParseGroupByClause  : sim (tryParseGroupByClause) (tryParseGroupByClause).
  Proof. clear - Hc. intros. unfold tryParseGroupByClause. step. Qed.
  Local Hint Resolve c_tryParseGroupByClause : case.
  Lemma c_parseHavingClause (p : pos) : sim (parseHavingClause p) (parseHavingClause p).
  Proof. clear - Hc. intros. unfold parseHavingClause. step. Qed.
  Local Hint Resolve c_parseHavingClause : case.
  Lemma c_tryParseHavingClause  : sim (tryParseHavingClause) (tryParseHavingClause).
  Proof. clear - Hc. intros. unfold tryParseHavingClause. step. Qed.
  Local Hint Resolve c_tryParseHavingClause : case.
  Lemma c_parseWindowClause (p : pos) : sim (parseWindowClause p) (parseWindowClause p).
  Proof. clear - Hc. intros. unfold parseWindowClause. step. Qed.
  Local Hint Resolve c_parseWindowClause : case.
  Lemma c_tryParseWindowClause  : sim (tryParseWindowClause) (tryParseWindowClause).
  Proof. clear - Hc. intros. unfold tryParseWindowClause. step. Qed.
  Local Hint Resolve c_tryParseWindowClause : case.
  Lemma c_parseLimitClause (p : pos) : sim (parseLimitClause p) (parseLimitClause p).
  Proof. clear - Hc. intros. unfold parseLimitClause. step. Qed.
  Local Hint Resolve c_parseLimitClause : case.
  Lemma c_tryParseLimitAfterLimitByClause  : sim (tryParseLimitAfterLimitByClause) (tryParseLimitAfterLimitByClause).
  Proof. clear - Hc. intros. unfold tryParseLimitAfterLimitByClause. step. Qed.
  Local Hint Resolve c_tryParseLimitAfterLimitByClause : case.
  Lemma c_tryParseLimitClause  : sim (tryParseLimitClause) (tryParseLimitClause).
  Proof. clear - Hc. intros. unfold tryParseLimitClause. step. Qed.
  Local Hint Resolve c_tryParseLimitClause : case.
  Lemma c_parseLimitByClause (p : pos) : sim (parseLimitByClause p) (parseLimitByClause p).
  Proof. clear - Hc. intros. unfold parseLimitByClause. step. Qed.
  Local Hint Resolve c_parseLimitByClause : case.
  Lemma c_tryParseLimitByClause  : sim (tryParseLimitByClause) (tryParseLimitByClause).
  Proof. clear - Hc. intros. unfold tryParseLimitByClause. step. Qed.
  Local Hint Resolve c_tryParseLimitByClause : case.
  Lemma c_parseSettingsExpr  : sim (parseSettingsExpr) (parseSettingsExpr).
  Proof. clear - Hc. intros. unfold parseSettingsExpr. step. Qed.
  Local Hint Resolve c_parseSettingsExpr : case.
  Lemma c_parseSettingsList  : sim (parseSettingsList) (parseSettingsList).
  Proof. clear - Hc. intros. unfold parseSettingsList. step. Qed.
  Local Hint Resolve c_parseSettingsList : case.
  Lemma c_parseSettingsClause (p : pos) : sim (parseSettingsClause p) (parseSettingsClause p).
  Proof. clear - Hc. intros. unfold parseSettingsClause. step. Qed.
  Local Hint Resolve c_parseSettingsClause : case.
  Lemma c_tryParseSettingsClause  : sim (tryParseSettingsClause) (tryParseSettingsClause).
  Proof. clear - Hc. intros. unfold tryParseSettingsClause. step. Qed.
  Local Hint Resolve c_tryParseSettingsClause : case.
  Lemma c_tryParseOrderByClauseHere  : sim (tryParseOrderByClauseHere) (tryParseOrderByClauseHere).
  Proof. clear - Hc. intros. unfold tryParseOrderByClauseHere. step. Qed.
  Local Hint Resolve c_tryParseOrderByClauseHere : case.
  Lemma c_tryParseFormatHere  : sim (tryParseFormatHere) (tryParseFormatHere).
  Proof. clear - Hc. intros. unfold tryParseFormatHere. step. Qed.
  Local Hint Resolve c_tryParseFormatHere : case.
  Lemma c_parseSelectStmt : sim parseSelectStmt parseSelectStmt.
  Proof.
    clear - Hc. unfold parseSelectStmt. do 25 (refine (sim_bind _ _ _ _ _ _); [step|]; intro_rel). refine (sim_bind _ _ _ _ _ _).
    - match goal with |- CaseRel.sim (if ?b then _ else _) (if ?c then _ else _) => replace c with b by same; destruct b end; [|step].
      refine (sim_bind _ _ _ _ _ _); [step|]. intro_rel. rewrite !limit_by_match. erewrite limit_by_rel by eassumption. step.
    - intro_rel. do 4 (refine (sim_bind _ _ _ _ _ _); [step|]; intro_rel). apply sim_ret. do 4 intro_rel. cbv [rl Rel_expr]. cbn [fold].
      repeat match goal with H : fold _ = fold _ |- _ => rewrite H; clear H | H : map fold _ = map fold _ |- _ => rewrite H; clear H end. reflexivity.
  Qed.
  Local Hint Resolve c_parseSelectStmt : case.
  Lemma c_body_SelectQuery  : sim (body_SelectQuery) (body_SelectQuery).
  Proof. clear - Hc. intros. unfold body_SelectQuery. step. Qed.
  Local Hint Resolve c_body_SelectQuery : case.
  Lemma c_parseExplainStmt (p : pos) : sim (parseExplainStmt p) (parseExplainStmt p).
  Proof. clear - Hc. intros. unfold parseExplainStmt. step. Qed.
  Local Hint Resolve c_parseExplainStmt : case.
End Case.
Global Hint Resolve c_parseTableArgList c_parseTableArgPrimaryExpr c_body_TableArg c_parseTableIdentifier c_aliasExpr c_parseTableExpr c_parseSampleClause c_tryParseSampleClause c_parseJoinTableExpr c_tryParseJoinConstraints c_parseJoinExpr c_body_JoinRight c_parseFromClause c_tryParseFromClause c_parseCTEStmt c_parseWithClause c_tryParseWithClause c_parseTopClause c_tryParseTopClause c_parseDistinctOn c_tryParseDistinctOn c_parseSelectItem c_parseSelectItems c_parsePrewhereClause c_tryParsePrewhereClause c_parseWhereClause c_tryParseWhereClause c_parseGroupByClause c_tryParseGroupByClause c_parseHavingClause c_tryParseHavingClause c_parseWindowClause c_tryParseWindowClause c_parseLimitClause c_tryParseLimitAfterLimitByClause c_tryParseLimitClause c_parseLimitByClause c_tryParseLimitByClause c_parseSettingsExpr c_parseSettingsList c_parseSettingsClause c_tryParseSettingsClause c_tryParseOrderByClauseHere c_tryParseFormatHere c_parseSelectStmt c_body_SelectQuery c_parseExplainStmt : case.
Global Hint Extern 0 (sim (whenKw _ _) (whenKw _ _)) => (apply c_whenKw; first [assumption | intros; step]) : case.
