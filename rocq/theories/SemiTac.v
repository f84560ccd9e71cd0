(** Tactics for C43. *)
From Coq Require Import String List Arith Bool.
From Verif Require Import Str Keyword Lexer Ast AstPos AstSubs Prog RunFacts ParserCommon ParserExpr ParserQuery ParserTable ParserAlter ParserView ParserSystem Parser SemiLogic.
Import ListNotations.
Local Open Scope string_scope.
Local Open Scope nat_scope.

Create HintDb semi discriminated.
#[export] Hint Constants Opaque : semi.
#[export] Hint Variables Opaque : semi.

#[export] Hint Extern 0 (String.eqb _ _ = false) => first [assumption | reflexivity] : semi.

Section Pure.
  Context `{Tails} {f : nat}.
  Local Notation pure := (@pure _ f _).
  Lemma p_peekTk k : pure (peekTk k).
  Proof. unfold peekTk, eof_. cbn [bind]. apply p_cur. intros i. destruct (it_eof i); [apply p_ret|]. apply p_peek. intros [[?|]|?]; apply p_ret. Qed.
  Lemma p_peekKw k : pure (peekKw k).
  Proof. unfold peekKw, eof_. cbn [bind]. apply p_cur. intros i. destruct (it_eof i); [apply p_ret|]. apply p_peek. intros [[?|]|?]; apply p_ret. Qed.
  Lemma p_orM p q : pure p -> pure q -> pure (orM p q).
  Proof. intros. unfold orM. apply p_bind; [assumption|]. intros []; [apply p_ret|assumption]. Qed.
  Lemma p_anyM X (g : X -> prog bool) l : (forall x, pure (g x)) -> pure (anyM g l).
  Proof. intros Hg. induction l as [|x l IH]; cbn [anyM]; [apply p_ret|now apply p_orM]. Qed.
  Lemma p_clause : pure peekIsClauseStarter.
  Proof. apply p_anyM, p_peekKw. Qed.
  Lemma p_endOf : pure peekIsEndOfStatement.
  Proof. unfold peekIsEndOfStatement. apply p_peek. intros [[?|]|?]; apply p_ret. Qed.
  Lemma p_continuation : pure peekIsExpressionContinuation.
  Proof. apply p_orM; apply p_anyM; [apply p_peekTk|apply p_peekKw]. Qed.
End Pure.
#[export] Hint Resolve p_peekTk p_peekKw p_orM p_clause p_endOf p_continuation : semi.
#[export] Hint Extern 1 (pure (anyM _ _)) => (apply p_anyM; intros; solve [eauto 2 with semi nocore]) : semi.

Ltac nos := match goal with
  | |- nosemi (cur _) => assumption
  | H : kw ?i _ = true |- nosemi ?i => exact (kw_no _ _ H)
  | H : kws ?i _ = true |- nosemi ?i => exact (kws_no _ _ H)
  | H : tk ?i _ = true |- nosemi ?i => first [exact (tk_no _ _ H eq_refl) | apply (tk_no _ _ H); assumption]
  | H : tks ?i _ = true |- nosemi ?i => exact (tks_no _ _ H eq_refl)
  | H : it_tok ?i = Some ?t, H1 : String.eqb (t_kind ?t) _ = true |- nosemi ?i => exact (kind_no _ _ _ H H1 eq_refl)
  | F : fines ?p, H : it_tok (cur ?p) = Some ?t, H1 : String.eqb (t_str ?t) _ = true |- nosemi (cur ?p) => exact (str_no _ _ _ (cur_fine _ F) H H1 eq_refl)
  | H : String.eqb (cur_kind ?i) _ = true |- nosemi ?i => exact (ckind_no _ _ H eq_refl)
  | H : _ && _ = true |- _ => apply andb_true_iff in H; destruct H; nos
  | H : _ || _ = true |- _ => apply orb_true_iff in H; destruct H; nos
  | H : negb _ = false |- _ => apply negb_false_iff in H; nos
  | H : _ && _ = false |- _ => apply andb_false_iff in H; destruct H; nos
  | H : _ || _ = false |- _ => apply orb_false_iff in H; destruct H; nos
  end.
#[export] Hint Extern 0 (nosemi _) => nos : semi.
Ltac none := match goal with H : fines ?p, E : it_tok (cur ?p) = None |- _ => exfalso; exact (none_no _ (cur_fine _ H) E) end.
Ltac tlf := lazymatch goal with
  | H : fines ?p |- context [at_ (tl ?p)] => let X := fresh "G" in pose proof (tl_fines _ H) as X
  | H : fines ?p |- _ (tl ?p) => let X := fresh "G" in pose proof (tl_fines _ H) as X
  end.

Ltac ptl := lazymatch goal with H : fines ?p |- at_ ?p _ _ => let X := fresh "G" in pose proof (tl_fines _ H) as X end.

Ltac sfind := solve [eauto 3 with semi nocore | match goal with H : forall _, _ |- _ => solve [apply H; eauto 2 with semi nocore] end].
Ltac decide_ c := let c' := eval cbn [is_nil negb andb orb] in c in
  lazymatch c' with
  | true => change c with true; cbv iota
  | false => change c with false; cbv iota
  | _ => destruct c eqn:?
  end.

Ltac sstep :=
  cbv beta iota zeta; unfold ifKw, grab, consumeOrFail, skip, cur_item, pos_, end_, eof_, cur_str, cur_to_string; cbn [bind]; cbv beta iota zeta;
  lazymatch goal with
  | |- forall _, _ => intros; sstep
  | |- sm _ => intros ? ? ?; sstep
  | |- at_ _ _ (Ret _) => apply s_ret; assumption
  | |- at_ _ _ (Fail _) => apply s_fail; assumption
  | |- at_ _ _ (Panic _) => first [apply s_panic; reflexivity | none | idtac]
  | |- at_ _ _ (Cur _) => apply s_cur; sstep
  | |- at_ _ _ (Consume _) => apply s_consume; [assumption | try nos | tlf; sstep]
  | |- at_ _ _ (Peek _) => apply s_peek; [assumption | try nos | ptl; sstep]
  | |- at_ _ _ (Call _ _) => apply s_call; [assumption | assumption | intros; sstep]
  | |- at_ _ _ (TryInterval _ _) => apply s_interval; [assumption | assumption | intros; sstep | intros; sstep]
  | |- at_ _ _ (Attempt _ _ _) => apply s_attempt; [assumption | sstep | intros; sstep]
  | |- at_ _ _ (loop _ _) => unfold loop; apply s_loop; [assumption | intros; sstep | intros; sstep]
  | |- at_ _ _ (if ?c then _ else _) => decide_ c; sstep
  | |- at_ _ _ (let (_, _) := ?x in _) => destruct x; sstep
  | |- at_ _ _ (match it_tok ?x with _ => _ end) => destruct (it_tok x) eqn:?; sstep
  | |- at_ _ _ (match ?x with _ => _ end) => let T := type of x in lazymatch T with expr => idtac | _ => destruct x eqn:?; sstep end
  | |- at_ _ _ (bind ?p ?k) =>
      lazymatch p with
      | peekTk _ => spure
      | anyM _ _ => spure
      | orM ?a ?b => tryif (apply s_pure_bind; [solve [eauto 5 with semi nocore] | assumption | nos |]) then (intros; sstep) else (unfold orM; sstep)
      | peekKw _ => spure
      | peekIsClauseStarter => spure
      | peekIsEndOfStatement => spure
      | peekIsExpressionContinuation => spure
      | bind _ _ => apply s_assoc; sstep
      | (if ?c then Peek _ else Ret _) => decide_ c; sstep
      | (if ?c then peekTk _ else Ret _) => decide_ c; sstep
      | (if ?c then _ else _) => scut
      | (let (_, _) := ?x in _) => destruct x; sstep
      | match it_tok ?x with _ => _ end => destruct (it_tok x) eqn:?; sstep
      | match ?x with _ => _ end => scut
      | loop _ _ => scut
      | _ => tryif (apply s_bind; [sfind |]) then (intros; sstep) else idtac
      end
  | |- at_ _ _ (orM _ _) => first [apply s_pure; [solve [eauto 5 with semi nocore] | assumption | nos] | unfold orM; sstep]
  | |- at_ _ _ (peekTk _) => apply s_pure; [apply p_peekTk | assumption | try nos]
  | |- at_ _ _ (peekKw _) => apply s_pure; [apply p_peekKw | assumption | try nos]
  | |- at_ _ _ peekIsEndOfStatement => apply s_pure; [apply p_endOf | assumption | try nos]
  | |- at_ _ _ peekIsClauseStarter => apply s_pure; [apply p_clause | assumption | try nos]
  | |- at_ _ _ peekIsExpressionContinuation => apply s_pure; [apply p_continuation | assumption | try nos]
  | |- _ => try sfind
  end
with spure := apply s_pure_bind; [solve [eauto 4 with semi nocore] | assumption | try nos | intros; sstep]
with scut := apply s_bind; [sstep | intros; sstep].
Ltac go := sstep.

