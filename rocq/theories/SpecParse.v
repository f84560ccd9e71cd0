(** The recursive methods meet their specifications, and so does the parser as a whole. *)
From Coq Require Import String List Arith Bool Lia ZArith.
From Verif Require Import Str Keyword Lexer Ast AstPos AstSubs PrecSpec SpanSpec Prog Items ItemsFacts RunFacts
  ParserCommon ParserExpr ParserQuery ParserTable ParserAlter ParserView ParserSystem Parser Hoare Spec SpecTac SpecCommon
  SpecTypes SpecArgs SpecOperand SpecPrec SpecQuery SpecTable SpecDict SpecAlter SpecView SpecSystem.
Import ListNotations.
Local Open Scope string_scope.
Local Open Scope nat_scope.

Section Bodies.
  Context `{Calls}.

  Lemma body_ok n : npre n -> forall s, wfs s -> 10 * len s + rank n <= fl ->
    wp (body n) s (fun e s' => wfs s' /\ len s' <= len s /\ (nstr n e = true -> len s' < len s) /\ npost n e s').
  Proof.
    destruct n; cbn [npre rank nstr npost body]; intros Hp s Hw Hl.
    - destruct Hp as [Hp Hq]. eapply wp_conseq; [apply body_SubExpr_wp; assumption|]. cbv beta. intros e s' (? & ? & ?). split; [assumption | split; [lia | split; [auto | assumption]]].
    - apply body_SelectQuery_ok; assumption.
    - apply body_ColumnTypeArgs_ok; assumption.
    - apply body_JoinRight_ok; assumption.
    - apply body_TableArg_ok; assumption.
    - apply body_DictArg_ok; assumption.
    - apply body_AssignValues_ok; assumption.
    - (* the keyword is passed before the recursive call *) unfold parseInterval. go.
  Qed.
End Bodies.

Definition mkenv (l : list item) (g : good_items l) (f : nat) : Env := {| its := l; its_good := g; fl := f |}.

Lemma calls_ok l g f : @Calls (mkenv l g f).
Proof.
  induction f as [|f IH]; intros n Hn s Hw Hl; [cbn [fl mkenv] in Hl; lia|].
  cbn [fl mkenv] in *. exact (@body_ok _ IH n Hn s Hw ltac:(cbn [fl mkenv]; lia)).
Qed.

Section Statements.
  Context `{Calls}.

  Lemma tk_advance s k : wfs s -> str_in KEOF [k] = false -> tk (here (advance s)) k = true -> len (advance s) < len s.
  Proof.
    intros Hw Hk Ht. destruct (rest s) as [|i r] eqn:E.
    - exfalso. assert (Ha : advance s = s) by (unfold advance; now rewrite E). rewrite Ha in Ht.
      apply (tok_rest s Hw); [|exact E]. exact (tk_tok _ _ Ht Hk).
    - unfold advance, len. rewrite E. cbn. lia.
  Qed.

  Lemma ParseStmts_ok s : wfs s -> 10 * len s + 3 <= fl -> wp ParseStmts s (fun l _ => Forall stm l).
  Proof.
    intros Hw Hl. unfold ParseStmts.
    apply (tail_loop _ _ _ _ _ _ (Forall stm) (Forall stm)); [assumption | constructor | lia | | auto].
    cbv beta. intros acc s0 Hw0 Hl0 Ha. unfold consumeOrFail. cbn [bind]. apply wp_Consume.
    destruct (it_err _); [exact I|]. apply bind_cur. pose proof (wfs_advance s0 Hw0). pose proof (len_advance s0).
    destruct (it_eof (here (advance s0))); [apply wp_Ret; auto|].
    destruct (tk (here (advance s0)) ";") eqn:E; [apply wp_Ret; repeat split; auto; now apply (tk_advance s0 ";")|].
    eapply use_spec; [exact parseStmt_ok | assumption | lia |]. cbv beta. intros e s1 Hw1 Hl1 Hlt He. specialize (Hlt eq_refl).
    apply wp_Ret. repeat split; auto; [lia|]. apply Forall_app. auto.
  Qed.
End Statements.

(** The parser as a whole. *)
Theorem parse_items_ok l (g : good_items l) :
  @post (mkenv l g 0) _ (parse_items l) (fun stmts _ => Forall (@stm (mkenv l g 0)) stmts).
Proof.
  unfold parse_items. destruct l as [|i r] eqn:E; [now destruct (gi_ne _ g)|]. cbn [init_pstate].
  set (n := List.length (i :: r)). set (s0 := mkP i r []).
  assert (Hw : @wfs (mkenv _ g (10 * n + 9)) s0) by (exists []; reflexivity).
  assert (Hl : 10 * len s0 + 3 <= @fl (mkenv _ g (10 * n + 9))).
  { unfold len, s0, n. cbn [rest fl mkenv List.length]. lia. }
  pose proof (@ParseStmts_ok _ (calls_ok _ g (10 * n + 9)) s0 Hw Hl) as Hp.
  unfold wp in Hp. cbn [fl mkenv] in Hp. unfold parse_fuel. replace (10 * n + 10) with (S (10 * n + 9)) by lia. exact Hp.
Qed.
