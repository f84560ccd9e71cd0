(** SELECT followed by a chain of binary operators. *)
From Coq Require Import String Ascii List Arith Bool Lia.
From Verif Require Import Str Keyword Lexer LexSpec LexTokens LexProps Ast AstPos PrecSpec ChainSpec Prog Items ItemsFacts RunFacts ParserCommon ParserExpr ParserQuery Parser
  ErrorRender ParserApi ParseFacts LayoutSpec LayoutFacts LayoutParse ChainFacts.
Import ListNotations.
Local Open Scope string_scope.
Local Open Scope nat_scope.
Definition at_items (l : list item) (m : list nat) : pstate :=
  match l with [] => mkP (mkItem 0 None true None) [] m | x :: r => mkP x r m end.

Lemma expected_cons id p ts closed : exists x r, expected id (Some p) ts closed = x :: r /\ it_err x = None /\
  match ts with [] => it_tok x = None /\ it_eof x = true | t :: _ => it_tok x = Some t end.
Proof. destruct ts; cbn [expected]; eexists; eexists; repeat split. Qed.

Lemma chain_ends n p id l closed : Forall (link n) l -> exists x r, expected id (Some p) (chain_toks l) closed = x :: r /\ it_err x = None /\ ends_at n x /\ tk x "," = false.
Proof.
  intros Hl. destruct (expected_cons id p (chain_toks l) closed) as (x & r & E & He & Hx). exists x, r. rewrite E.
  assert (Hend : ends_at n x). { destruct l as [|[[op o] t'] l]; cbn [chain_toks] in Hx.
    - left. tauto.
    - right. exists op, o, n. destruct (Forall_inv Hl) as (H1 & H2 & _). repeat split; auto. }
  repeat split; auto. eapply ends_not; [eassumption | cbn; tauto].
Qed.

Definition chain_body := fun e : expr =>
    do it <- cur_item ;;
    if exhausted it then Ret (inr e)
    else
      do nextPrecedence <- getNextPrecedence ;;
      if nextPrecedence <=? 0 then Ret (inr e)
      else do e' <- parseInfix e nextPrecedence ;; Ret (inl e').

Lemma level_pos op n : op_level op = Some n -> 0 < n.
Proof.
  unfold op_level, op_table. cbn [find fst snd].
  repeat match goal with |- context [String.eqb ?a op] => destruct (String.eqb a op); [intros [= <-]; lia|] end. discriminate.
Qed.

(** The last item of a chain: the end. *)
Definition end_item (id : nat) : item := mkItem id None true None.

Lemma expected_nil id p closed : expected id (Some p) [] closed = [end_item id].
Proof. reflexivity. Qed.

Lemma chain_iter f n closed m : forall l k e id p, Forall (link n) l -> length l < k ->
  iter body (S (S f)) chain_body k e (at_items (expected id (Some p) (chain_toks l) closed) m)
    = ROk (left_tree e id l) (mkP (end_item (id + 2 * length l)) [] m).
Proof.
  induction l as [|[[op o] t] l IH]; intros k e id p Hl Hk; (destruct k as [|k]; [inversion Hk|]); rewrite iter_S.
  - cbn [chain_toks]. rewrite expected_nil. cbn [at_items length Nat.mul left_tree]. rewrite Nat.add_0_r. unfold chain_body. sx. reflexivity.
  - destruct (Forall_inv Hl) as (H1 & H2 & H3 & H4). pose proof (Forall_inv_tail Hl) as Hl'. cbn [chain_toks]. cbn [expected at_items].
    destruct (chain_ends n t (S (S id)) l closed Hl') as (x & r & E & He & Hx & _).
    rewrite E. unfold chain_body at 1. unfold cur_item. rewrite run_bind, run_Cur, run_Ret. cbn [andThen here].
    change (exhausted _) with false. cbn iota. rewrite run_bind, (prec_run _ op n) by assumption. cbn [andThen].
    pose proof (level_pos _ _ H2). replace (n <=? 0) with false by (symmetry; apply Nat.leb_gt; lia). rewrite run_bind.
    rewrite (infix_run f op n) by assumption. cbn [andThen]. rewrite run_Ret. cbn [left_tree length].
    replace (mkP x r m) with (at_items (expected (S (S id)) (Some t) (chain_toks l) closed) m) by now rewrite E.
    rewrite IH; [|assumption | cbn [length] in Hk; lia]. replace (S (S id) + 2 * length l) with (id + 2 * S (length l)) by lia. reflexivity.
Qed.

Lemma chain_expr f n closed m l id a : Forall (link n) l -> atom a -> length l <= f ->
  run body (S (S (S f))) (parseExpr (PStart id)) (mkP (mkItem id (Some a) (match chain_toks l with [] => closed | _ => false end) None) (expected (S id) (Some a) (chain_toks l) closed) m)
    = ROk (left_tree (atom_tree id a) (S id) l) (mkP (end_item (S id + 2 * length l)) [] m).
Proof.
  intros Hl Ha Hf. unfold parseExpr, parseSubExpr. rewrite run_Call. cbn [body]. unfold body_SubExpr. rewrite run_bind.
  destruct (chain_ends n a (S id) l closed Hl) as (x & r & E & He & Hx & _). rewrite E.
  match goal with |- context [mkItem id (Some a) ?b None] => pose proof (atom_run (S f) (mkItem id (Some a) b None) x r m a eq_refl Ha He) as Hu end.
  cbn [it_id] in Hu. rewrite Hu; [|eapply ends_not; [eassumption | cbn; tauto]..]. cbn [andThen].
  replace (mkP x r m) with (at_items (expected (S id) (Some a) (chain_toks l) closed) m) by now rewrite E.
  change (parseInfixLoop (atom_tree id a) 0) with (Loop (atom_tree id a) chain_body (fun b => Ret b)). rewrite run_Loop. rewrite (chain_iter f n); [|assumption | lia].
  cbn [andThen]. rewrite !run_Ret. reflexivity.
Qed.

Lemma left_end : forall l e id, end_of e <> None -> end_of (left_tree e id l) <> None.
Proof.
  induction l as [|[[op o] t] l IH]; intros e id He; [exact He|]. cbn [left_tree]. apply IH. cbn [end_of].
  unfold atom_tree. destruct (String.eqb _ _); [discriminate|]. destruct (String.eqb _ _); discriminate.
Qed.

Lemma atom_end id a : end_of (atom_tree id a) <> None.
Proof. unfold atom_tree. destruct (String.eqb _ _); [discriminate|]. destruct (String.eqb _ _); discriminate. Qed.

Section Select.
  Variables (n : nat) (closed : bool) (l : list (string * tok * tok)) (a sel : tok).
  Hypothesis Hl : Forall (link n) l.
  Hypothesis Ha : atom a.
  Hypothesis Hk : t_kind sel = KKeyword.
  Hypothesis Hs : upper (t_str sel) = "SELECT".

  Let tree := left_tree (atom_tree 2 a) 3 l.
  Let last := end_item (3 + 2 * length l).
  Definition a_item := mkItem 2 (Some a) (match chain_toks l with [] => closed | _ => false end) None.

  Lemma item_run f m : length l <= f ->
    run body (S (S (S f))) parseSelectItem (mkP a_item (expected 3 (Some a) (chain_toks l) closed) m)
      = ROk (ESelectItem tree [] ENil) (mkP last [] m).
  Proof.
    intros Hf. unfold parseSelectItem. rewrite run_bind. unfold parseExprHere, pos_. rewrite run_bind, run_Cur. cbn [here]. rewrite run_Ret. cbn [andThen].
    pose proof (chain_expr f n closed m l 2 a Hl Ha Hf) as Hc. fold a_item in Hc. change (ipos a_item) with (PStart 2). rewrite Hc.
    fold tree. change (end_item _) with last. clear Hc. cbn [andThen]. unfold loop. rewrite run_bind, run_Loop, iter_S. sx. reflexivity.
  Qed.

  Lemma atom_kw k : kw a_item k = false.
  Proof. apply (no_kw a_item a); [reflexivity|]. intros E. pose proof Ha as H. unfold atom in H. rewrite E in H.
    vm_compute in H. repeat (destruct H as [H|H]; [discriminate H|]). exact H. Qed.

  Lemma items_run f m : length l <= f ->
    run body (S (S (S f))) parseSelectItems (mkP a_item (expected 3 (Some a) (chain_toks l) closed) m)
      = ROk [ESelectItem tree [] ENil] (mkP last [] m).
  Proof.
    intros Hf. unfold parseSelectItems, loop. rewrite run_Loop, iter_S. unfold cur_item. rewrite run_bind, run_Cur, run_Ret. cbn [andThen here].
    unfold exhausted. change (no_tok a_item) with false. rewrite andb_false_r. rewrite run_bind, item_run by assumption. cbn [andThen]. sx. reflexivity.
  Qed.

  Lemma when_no f k p s : kw (here s) k = false -> run body (S f) (whenKw k p) s = ROk ENil s.
  Proof. intros H. unfold whenKw. unfold cur_item. rewrite run_bind, run_Cur, run_Ret. cbn [andThen]. rewrite H. apply run_Ret. Qed.

  Lemma try_no f k s : kw (here s) k = false -> run body (S f) (tryKw k) s = ROk false s.
  Proof. intros H. destruct s as [h r m]. cbn [here] in H. unfold tryKw, tryKws, try_keywords. sx. reflexivity. Qed.

  Lemma format_no f s : kw (here s) "FORMAT" = false -> run body (S f) tryParseFormatHere s = ROk ENil s.
  Proof.
    intros H. unfold tryParseFormatHere. rewrite run_bind. unfold pos_. rewrite run_Cur, run_Ret. cbn [andThen].
    unfold tryParseFormat, cur_item. rewrite run_bind, run_Cur, run_Ret. cbn [andThen]. rewrite H. apply run_Ret.
  Qed.

  (** The tree of the whole statement. *)
  Definition chain_select (se : pos) : expr :=
    ESelectQuery (PStart 1) se ENil ENil false ENil [ESelectItem tree [] ENil] ENil ENil ENil ENil ENil false ENil ENil ENil ENil ENil ENil
      ENil ENil ENil ENil.

  Definition sel_item := mkItem 1 (Some sel) false None.

  Lemma sel_kw k : kw sel_item k = String.eqb "SELECT" (upper k).
  Proof. now apply (kw_word _ sel). Qed.

  Lemma stmt_run f m : length l <= f -> exists se,
    run body (S (S (S f))) parseSelectStmt (mkP sel_item (a_item :: expected 3 (Some a) (chain_toks l) closed) m)
      = ROk (fun u d e i => ESelectQuery (PStart 1) se ENil ENil false ENil [ESelectItem tree [] ENil] ENil ENil ENil ENil ENil false ENil ENil ENil ENil ENil ENil u d e i) (mkP last [] m).
  Proof.
    intros Hf. destruct (end_of (ESelectItem tree [] ENil)) as [se|] eqn:Ese.
    2:{ exfalso. cbn [end_of] in Ese. revert Ese. unfold tree. apply left_end, atom_end. }
    exists se. unfold parseSelectStmt.
    rewrite run_bind. unfold pos_ at 1. rewrite run_Cur, run_Ret. cbn [andThen here].
    rewrite run_bind. unfold tryParseWithClause, cur_item. rewrite run_bind, run_Cur, run_Ret. cbn [andThen here]. rewrite sel_kw. 
    change (String.eqb "SELECT" (upper "WITH")) with false. cbn iota. rewrite run_Ret. cbn [andThen].
    rewrite run_bind. unfold expKw, cur_item. rewrite run_bind, run_Cur, run_Ret. cbn [andThen here]. rewrite sel_kw. 
    change (String.eqb "SELECT" (upper "SELECT")) with true. cbn iota. unfold skip. rewrite run_Consume. cbn [advance rest]. rewrite run_Ret. cbn [andThen].
    rewrite run_bind, try_no by apply atom_kw. cbn [andThen].
    rewrite run_bind. unfold tryParseDistinctOn. rewrite when_no by apply atom_kw. cbn [andThen].
    rewrite run_bind. unfold tryParseTopClause. rewrite when_no by apply atom_kw. cbn [andThen].
    rewrite run_bind, items_run by assumption. cbn [andThen].
    rewrite run_bind. unfold lastEnd, endOf. cbn [List.last]. rewrite Ese. rewrite run_Ret. cbn [andThen].
    repeat (rewrite run_bind; first [unfold tryParseFromClause at 1|unfold tryParsePrewhereClause at 1|unfold tryParseWhereClause at 1|unfold tryParseGroupByClause at 1|unfold tryParseHavingClause at 1|unfold tryParseWindowClause at 1|unfold tryParseLimitByClause at 1|idtac];
      first [rewrite when_no by reflexivity | rewrite try_no by reflexivity | rewrite run_Ret | unfold endOr at 1; cbn [is_nil]; rewrite run_Ret]; cbn [andThen]).
    cbn [memo]. rewrite run_bind. unfold tryParseOrderByClauseHere. rewrite run_bind. unfold pos_ at 1. rewrite run_Cur, run_Ret. cbn [andThen].
    unfold tryParseOrderByClause. rewrite run_bind, try_no by reflexivity. cbn [andThen]. rewrite run_Ret. cbn [andThen].
    rewrite run_bind. unfold endOr at 1. cbn [is_nil]. rewrite run_Ret. cbn [andThen].
    rewrite run_bind, when_no by reflexivity. cbn [andThen].
    rewrite run_bind. cbn [is_nil negb].
    rewrite run_bind. unfold tryParseLimitClause, cur_item. rewrite run_bind, run_Cur, run_Ret. cbn [andThen here].
    change (kws last ["LIMIT"; "OFFSET"]) with false. cbn iota. rewrite run_Ret. cbn [andThen].
    rewrite run_bind. unfold endOr at 1. cbn [is_nil]. rewrite run_Ret. cbn [andThen]. rewrite run_Ret. cbn [andThen].
    rewrite run_bind. unfold tryParseSettingsClause. rewrite run_bind. unfold pos_ at 1. rewrite run_Cur, run_Ret. cbn [andThen].
    rewrite run_bind, try_no by reflexivity. cbn [andThen]. rewrite run_Ret. cbn [andThen].
    rewrite run_bind. unfold endOr at 1. cbn [is_nil]. rewrite run_Ret. cbn [andThen].
    rewrite run_bind, format_no by reflexivity. cbn [andThen].
    rewrite run_bind. unfold endOr at 1. cbn [is_nil]. rewrite run_Ret. cbn [andThen].
    rewrite run_Ret. reflexivity.
  Qed.

  Lemma query_run f m : length l <= f -> exists se,
    run body (S (S (S f))) body_SelectQuery (mkP sel_item (a_item :: expected 3 (Some a) (chain_toks l) closed) m) = ROk (chain_select se) (mkP last [] m).
  Proof.
    intros Hf. destruct (stmt_run f m Hf) as (se & E). exists se. unfold body_SelectQuery, cur_item. rewrite run_bind, run_Cur, run_Ret. cbn [andThen here].
    rewrite sel_kw. change (String.eqb "SELECT" (upper "SELECT")) with true. cbn [negb andb].
    rewrite run_bind. unfold tryTkb, tryTk, cur_item. rewrite ?run_bind, run_Cur, run_Ret. cbn [andThen here].
    replace (tk sel_item "(") with false. 2:{ unfold tk, tks, cur_kind, sel_item. cbn [it_tok]. rewrite Hk. reflexivity. }
    rewrite run_Ret. cbn [andThen].
    rewrite run_bind, E. repeat first [progress cbn [andThen] | rewrite run_bind | rewrite try_no by reflexivity | rewrite run_Ret]. reflexivity.
  Qed.

  Lemma whole_run f m : length l <= f -> exists se,
    run body (S (S (S (S f)))) ParseStmts (mkP (mkItem 0 None false None) (sel_item :: a_item :: expected 3 (Some a) (chain_toks l) closed) m)
      = ROk [chain_select se] (mkP last [] m).
  Proof.
    intros Hf. destruct (query_run f m Hf) as (se & E). exists se. unfold ParseStmts, loop. rewrite run_Loop, iter_S.
    rewrite run_bind. unfold consumeOrFail. rewrite run_Consume. cbn [advance rest here it_err sel_item]. rewrite run_Ret. cbn [andThen].
    unfold cur_item. rewrite run_bind, run_Cur, run_Ret. cbn [andThen here it_eof sel_item].
    fold sel_item. replace (tk sel_item ";") with false. 2:{ unfold tk, tks, cur_kind, sel_item. cbn [it_tok]. rewrite Hk. reflexivity. }
    rewrite run_bind. unfold parseStmt. rewrite run_bind. unfold parseStmtBody, cur_item. rewrite run_bind, run_Cur, run_Ret. cbn [andThen here].
    rewrite !kws_unfold. cbn [existsb]. rewrite !sel_kw. change (String.eqb "SELECT" (upper "SELECT")) with true.
    repeat match goal with |- context [String.eqb "SELECT" (upper ?x)] => change (String.eqb "SELECT" (upper x)) with false end. cbn [orb].
    unfold parseSelectQuery. rewrite run_Call. cbn [body]. cbn [memo]. rewrite E. cbn [andThen]. rewrite run_Ret. cbn [andThen].
    rewrite run_bind, format_no by reflexivity. cbn [andThen]. rewrite run_bind, run_Cur, run_Ret. cbn [andThen here].
    change (no_tok last) with true. cbn [negb andb]. rewrite run_Ret. cbn [andThen]. rewrite run_Ret. cbn [andThen].
    rewrite iter_S. rewrite run_bind. rewrite run_Consume. cbn [advance rest here]. change (it_err last) with (@None string). cbn iota. rewrite run_Ret. cbn [andThen].
    rewrite run_bind, run_Cur, run_Ret. cbn [andThen here]. change (it_eof last) with true. cbn iota. rewrite run_Ret. cbn [andThen app]. rewrite run_Ret. reflexivity.
  Qed.
End Select.
