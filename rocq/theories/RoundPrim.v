(** Running the parser over canonical operands. *)
From Coq Require Import String List Arith Bool Lia.
From Verif Require Import Str Keyword Lexer LexGrammar LexTokens Ast AstPos AstSubs Strip StripFacts Prog RunFacts FuelFacts ParserCommon ParserExpr ParserQuery Parser Exec PrecSpec RoundSpec RoundExec RoundBase RoundExpr RoundOps.
Import ListNotations.
Local Open Scope string_scope.
Local Open Scope list_scope.
Local Open Scope nat_scope.

(** ** Entering [parseColumnExpr] *)
Lemma free_kw e t k : free_name e t -> str_in (upper k) touchy = true -> k1 t k = false.
Proof.
  intros [H E] Hk. unfold k1, equal_fold. destruct (String.eqb_spec (t_kind t) KKeyword) as [Ek|]; [|reflexivity]. specialize (E Ek). cbn [andb].
  destruct (String.eqb_spec (upper (t_str t)) (upper k)) as [Eq|]; [|reflexivity]. congruence.
Qed.
Lemma X_as {A} t r id (f : bool -> prog A) Q : Ends (f (t1 t [KKeyword] && (as_item r || match r with [] => true | u :: _ => String.eqb (t_kind u) ";" end))) (st id (t :: r)) Q ->
  Ends (do asIdent <- orM keywordIsSelectItemIdentifier (do it <- cur_item ;; if tk it KKeyword then orM peekIsEndOfStatement peekIsExpressionContinuation else Ret false) ;; f asIdent) (st id (t :: r)) Q.
Proof. intros H. eapply X_looks; [apply looks_as|exact H]. Qed.

Lemma column_name e t r id p Q : free_name e t -> Ends parseIdentOrFunction (st id (t :: r)) Q ->
  (t_kind t = KKeyword -> as_item r = true \/ r = [] \/ (exists u r', r = u :: r' /\ t_kind u = ";") -> Ends parseAnyKeyword (st id (t :: r)) Q) ->
  Ends (parseColumnExpr p) (st id (t :: r)) Q.
Proof.
  intros Hn Hi Ha. unfold parseColumnExpr. apply X_as.
  destruct (t1 t [KKeyword] && (as_item r || match r with [] => true | u :: _ => String.eqb (t_kind u) ";" end)) eqn:E.
  - apply andb_true_iff in E as [E1 E2]. apply Ha.
    + destruct Hn as [Hn _]. destruct (name_kind _ _ Hn) as [|Hk]; [assumption|]. unfold t1 in E1. rewrite Hk in E1. discriminate.
    + apply orb_true_iff in E2 as [E2|E2]; [auto|]. right. destruct r as [|u r]; [auto|]. right. apply String.eqb_eq in E2. eauto.
  - apply X_cur. rewrite here_cons, !kw_at, tk_at. change (kws (item_at id t r) ["DATE"; "TIMESTAMP"]) with (k1 t "DATE" || (k1 t "TIMESTAMP" || false)).
    rewrite !(free_kw _ _ _ Hn) by (vm_compute; reflexivity). cbn [orb]. rewrite (free_ident _ _ Hn). exact Hi.
Qed.

(** The name read by [parseIdentOrFunction]. *)
Lemma ident_or_function {A} e t r id (f : expr -> prog A) Q : free_name e t -> (forall e', ok e' e -> Ends (f e') (st (S id) r) Q) ->
  Ends (do it <- cur_item ;; do anyKeyword <- (if tk it KKeyword then peekTk "(" else Ret false) ;; do ident <- (if anyKeyword then parseAnyKeyword else parseIdent) ;; f ident) (st id (t :: r)) Q.
Proof.
  intros Hn H. apply X_cur. rewrite here_cons, tk_at.
  assert (Hi : Ends (do ident <- parseIdent ;; f ident) (st id (t :: r)) Q) by (eapply ident_tok; [apply Hn|eapply free_ident, Hn|exact H]).
  destruct (t1 t [KKeyword]).
  - apply X_peekTk. destruct (pk r "("); [|exact Hi]. eapply any_keyword; [apply Hn|exact H].
  - apply X_ret. exact Hi.
Qed.

Lemma as_item_none K r : existsb (fun t => as_item [t]) K = false -> heads K r -> r <> [] -> as_item r = false.
Proof.
  intros Hf Hh Hr. destruct r as [|t r]; [congruence|]. cbn [heads] in Hh. change (as_item (t :: r)) with (as_item [t]).
  destruct (as_item [t]) eqn:E; [|reflexivity]. rewrite <- Hf. symmetry. apply existsb_exists. eauto.
Qed.

Lemma follow_name e t ts : any_name e t -> follow e ts -> heads stop ts.
Proof. intros H. apply follow_only; destruct H; reflexivity. Qed.

(** ** Names and literals *)
Lemma name_prim e t : free_name e t -> PP e [T t].
Proof.
  intros Hn. assert (Hcl : as_right e = closed /\ as_left e = closed) by (destruct Hn as [[] _]; split; reflexivity). destruct Hcl.
  split; [exists t, []; split; [reflexivity|eapply free_start, Hn]|]. split; [assumption|]. split; [assumption|].
  intros p id ts Hf. nrm. assert (Hh : heads stop ts) by (eapply follow_name, Hf; apply Hn). eapply column_name; [exact Hn| |].
  - unfold parseIdentOrFunction. eapply ident_or_function; [exact Hn|]. intros e' He. repeat stp. now apply E_got.
  - intros _ _. apply any_keyword_end, Hn.
Qed.
Lemma number_prim e t : number_lit e t -> PP e [T t].
Proof.
  intros Hn. assert (Hcl : as_right e = closed /\ as_left e = closed) by (destruct Hn; split; reflexivity). destruct Hcl.
  split; [exists t, []; split; [reflexivity|destruct Hn as [s b [|]]; reflexivity]|]. split; [assumption|]. split; [assumption|].
  intros p id ts Hf. nrm. unfold parseColumnExpr. apply X_as.
  assert (Hb : Ends (parseNumber p) (st id (t :: ts)) (Got e ts)) by now apply number_pos.
  destruct Hn as [s b [|] p' q Hn]; (replace (t1 _ [KKeyword]) with false by reflexivity); cbn [andb]; repeat stp; exact Hb.
Qed.
Lemma string_prim e t : string_lit e t -> PP e [T t].
Proof.
  intros Hn. assert (Hcl : as_right e = closed /\ as_left e = closed) by (destruct Hn; split; reflexivity). destruct Hcl.
  split; [exists t, []; split; [reflexivity|destruct Hn; reflexivity]|]. split; [assumption|]. split; [assumption|].
  intros p id ts Hf. nrm. unfold parseColumnExpr. apply X_as.
  assert (Hb : Ends (parseString p) (st id (t :: ts)) (Got e ts)) by now apply string_pos.
  destruct Hn as [s p' q Hn]; (replace (t1 _ [KKeyword]) with false by reflexivity); cbn [andb]; repeat stp; exact Hb.
Qed.
Lemma star_run e id r : star e -> Ends parseColumnStar (st id (O "*" :: r)) (Got e r).
Proof. intros [p q]. unfold parseColumnStar. repeat stp. apply E_got. split; [reflexivity|discriminate]. Qed.
Lemma star_prim e : star e -> PP e [T (O "*")].
Proof.
  intros Hs. assert (Hcl : as_right e = closed /\ as_left e = closed) by (destruct Hs; split; reflexivity). destruct Hcl.
  split; [exists (O "*"), []; split; reflexivity|]. split; [assumption|]. split; [assumption|].
  intros p id ts Hf. nrm. unfold parseColumnExpr. apply X_as. replace (t1 _ [KKeyword]) with false by reflexivity. cbn [andb]. repeat stp. now apply star_run.
Qed.

(** ** Arguments *)
Definition RP (e : expr) (l : list sym) : Prop :=
  (exists p q x y, e = EParamExprList p q x y) /\ (exists t r, toks l = O "(" :: t :: r /\ k1 t "SELECT" = false) /\ parses parseFunctionParams e l (heads after).

Lemma toks_if (d : bool) : toks (if d then [T (K "DISTINCT"); Sp] else []) = if d then [K "DISTINCT"] else [].
Proof. destruct d; reflexivity. Qed.
Lemma columns_first es ls r : Forall2 column es ls -> exists t r', toks (sep_by comma ls) ++ O ")" :: r = t :: r' /\ k1 t "SELECT" = false.
Proof.
  intros [|e l es' ls' [(t & r' & E & Ht) _] H].
  - exists (O ")"), r. split; reflexivity.
  - assert (Hx : exists r'', toks (sep_by comma (l :: ls')) = t :: r'').
    { destruct ls' as [|l2 ls']; [exists r'; exact E|]. rewrite sep_cons, toks_app, E. cbn [app]. eauto. }
    destruct Hx as [r'' ->]. exists t. eexists. split; [reflexivity|]. apply start_kw; [exact Ht|vm_compute; reflexivity].
Qed.
Lemma params_first (d : bool) es ls r : Forall2 column es ls -> exists t r', (if d then [K "DISTINCT"] else []) ++ toks (sep_by comma ls) ++ O ")" :: r = t :: r' /\ k1 t "SELECT" = false.
Proof. intros H. destruct d; [do 2 eexists; split; reflexivity|]. now apply (columns_first es). Qed.

(** The arguments, up to the closing parenthesis. *)
Lemma params_list {A} (d : bool) es ls r id (f : expr -> prog A) Q : Forall2 column es ls ->
  (forall p q es' id', Forall2 ok es' es -> Ends (f (EColumnExprList p q d es')) (st id' (O ")" :: r)) Q) ->
  Ends (do params <- parseColumnExprListWithLParen ;; f params) (st id ((if d then [K "DISTINCT"] else []) ++ toks (sep_by comma ls) ++ O ")" :: r)) Q.
Proof.
  intros H Hf. apply E_bind. unfold parseColumnExprListWithLParen. apply X_pos. eapply E_mono; [apply column_list with (es := es); auto|].
  - cbn; auto.
  - right. exists ")", r. auto.
  - intros x s' ((q & es' & -> & He) & id' & ->). apply Hf, He.
Qed.

Lemma params_ok p q p' q' (d : bool) es ls : Forall2 column es ls ->
  RP (EParamExprList p q (EColumnExprList p' q' d es) ENil) (paren ((if d then [T (K "DISTINCT"); Sp] else []) ++ sep_by comma ls)).
Proof.
  intros H. split; [eauto|]. unfold paren. split.
  - nrm. rewrite toks_if. destruct (params_first d es ls [] H) as (t & r & E & Ht). nrm. rewrite E. eauto.
  - intros id ts Hts. nrm. rewrite toks_if. unfold parseFunctionParams. repeat stp. eapply params_list; [exact H|]. intros p1 q1 es' id' He. repeat stp. unfold tryColumnArgList. apply E_bind. repeat stp.
    apply E_ret. apply E_got. split; [cbn [strip]; now rewrite (oks_strip _ _ He)|discriminate].
Qed.

(** The second argument list. *)
Definition xitem (e : expr) (l : list sym) : Prop := starts l /\ parses parseExprHere e l (heads ends0).
Lemma exprs_items es ls : Forall2 XP es ls -> Forall2 xitem es ls.
Proof. induction 1; constructor; [|assumption]. split; [apply H|apply expr_here, H]. Qed.
Lemma arg_list p q es ls : Forall2 XP es ls -> parses parseColumnArgList (EColumnArgList false p q es) (paren (sep_by comma ls)) (fun _ => True).
Proof.
  intros H id ts _. unfold paren. nrm. unfold parseColumnArgList. repeat stp.
  assert (Hs : exists t r, toks (sep_by comma ls) ++ O ")" :: ts = t :: r /\ k1 t "DISTINCT" = false).
  { clear - H. destruct H as [|e l es' ls' [(t & r' & E & Ht) _] H]; [exists (O ")"), ts; split; reflexivity|].
    exists t. destruct ls' as [|l2 ls']; [|rewrite sep_cons, toks_app]; cbn [sep_by]; rewrite E; eexists; (split; [reflexivity|]); (apply start_kw; [exact Ht|vm_compute; reflexivity]). }
  apply X_tryKw_no. { destruct Hs as (t & r & -> & Ht). now rewrite here_cons, kw_at. }
  apply E_bind. eapply E_mono; [apply (comma_list (eofOr ")") parseExprHere (heads ends0) (fun r => r <> [])) with (es := es) (ls := ls)|].
  - intros l i r Hl Hr. unfold eofOr. rewrite starts_eof by assumption. slv.
  - discriminate.
  - intros r. cbn; auto 10.
  - discriminate.
  - cbn; auto 10.
  - reflexivity.
  - intros _ i. unfold eofOr. rewrite here_cons, tk_at. apply orb_true_r.
  - now apply exprs_items.
  - intros es' s' (He & id' & ->). repeat stp. apply E_got. split; [cbn [strip]; now rewrite (oks_strip _ _ He)|discriminate].
Qed.
Lemma params2_ok p q p' q' (d : bool) es ls p2 q2 es2 ls2 : Forall2 column es ls -> Forall2 XP es2 ls2 ->
  RP (EParamExprList p q (EColumnExprList p' q' d es) (EColumnArgList false p2 q2 es2)) (paren ((if d then [T (K "DISTINCT"); Sp] else []) ++ sep_by comma ls) ++ paren (sep_by comma ls2)).
Proof.
  intros H H2. split; [eauto|]. split.
  - unfold paren at 1. nrm. rewrite toks_if. destruct (params_first d es ls (toks (paren (sep_by comma ls2))) H) as (t & r & E & Ht). rewrite E. eauto.
  - intros id ts Hts. unfold paren at 1. nrm. rewrite toks_if. unfold parseFunctionParams. repeat stp. eapply params_list; [exact H|]. intros p1 q1 es' id' He. repeat stp.
    unfold tryColumnArgList. assert (Ha := arg_list p2 q2 _ _ H2 (S id') ts I). apply E_bind. apply X_cur. unfold paren in *. rewrite toks_T in *. cbn [app] in *. tst.
    eapply E_mono; [exact Ha|]. intros a s' ([Ea Ea'] & id'' & ->). apply E_got. split; [|discriminate]. cbn [strip] in *. rewrite (oks_strip _ _ He), Ea. reflexivity.
Qed.

Lemma paren_prim e l : RP e l -> PP e l.
Proof.
  intros ((p0 & q0 & x & y & ->) & (t & r & El & Ht) & H). split; [exists (O "("), (t :: r); split; [exact El|reflexivity]|]. split; [reflexivity|]. split; [reflexivity|].
  intros p id ts Hf. specialize (H id ts (follow_after _ _ Hf)). rewrite El in *. cbn [app] in *. unfold parseColumnExpr. apply X_as. replace (t1 _ [KKeyword]) with false by reflexivity. cbn [andb]. repeat stp.
  apply E_peek. rewrite peek_st. cbn [fst snd hd_error]. change (Ends (if k1 t "SELECT" then parseSubQuery else parseFunctionParams) (st id (O "(" :: t :: r ++ ts)) (Got (EParamExprList p0 q0 x y) ts)). rewrite Ht. exact H.
Qed.

(** ** Arrays *)
Definition ArrP (e : expr) (l : list sym) : Prop := (exists p q x, e = EArrayParamList p q x) /\ AP e l.
Lemma array_ok p q p' q' es ls : Forall2 column es ls -> ArrP (EArrayParamList p q (EColumnExprList p' q' false es)) (bracket (sep_by comma ls)).
Proof.
  intros H. split; [eauto|]. split; [unfold bracket; nrm; eauto|]. intros id ts _. unfold bracket. nrm. unfold parseArrayParams. repeat stp.
  apply E_bind. unfold parseColumnExprListWithSquareBracket. apply X_pos.
  eapply E_mono; [apply (column_list (Some "]") false) with (es := es); auto|].
  - cbn; auto.
  - right. exists "]", ts. auto.
  - intros x s' ((q1 & es' & -> & He) & id' & ->). repeat stp. apply E_got. split; [cbn [strip]; now rewrite (oks_strip _ _ He)|discriminate].
Qed.
Lemma array_prim e l : ArrP e l -> PP e l.
Proof.
  intros ((p0 & q0 & x & ->) & (r & El) & H). split; [exists (O "["), r; split; [exact El|reflexivity]|]. split; [reflexivity|]. split; [reflexivity|].
  intros p id ts Hf. specialize (H id ts I). rewrite El in *. cbn [app] in *. unfold parseColumnExpr. apply X_as. replace (t1 _ [KKeyword]) with false by reflexivity. cbn [andb]. repeat stp. exact H.
Qed.

(** ** Calls, elements, paths *)
Lemma ident_name_ok e' e t : any_name e t -> ok e' e -> ident_name e' = ident_name e.
Proof. intros Hn H. destruct (ok_ident _ _ _ Hn H) as (n & k & p & q & ->). destruct H as [H _]. destruct Hn; cbn [strip] in H; injection H as -> ->; reflexivity. Qed.
Lemma plain_none e : plain_function e -> keywordArgFunctions (upper (ident_name e)) = None.
Proof.
  destruct e; try contradiction. cbn [plain_function ident_name]. unfold keyword_args, str_in, keywordArgFunctions. cbn [existsb]. rewrite !orb_false_iff. intros (H1 & H2 & H3 & H4 & _). now rewrite H1, H2, H3, H4.
Qed.
Lemma call_prim n t ps l : free_name n t -> plain_function n -> RP ps l -> PP (EFunctionExpr n ps) (T t :: l).
Proof.
  intros Hn Hp ((p0 & q0 & x & y & ->) & (u & r & El & _) & H). split; [exists t, (toks l); split; [reflexivity|eapply free_start, Hn]|]. split; [reflexivity|]. split; [reflexivity|].
  intros p id ts Hf. nrm. assert (Hh := follow_after _ _ Hf). assert (H' := fun i => H i ts Hh). rewrite El in *. cbn [app] in *. eapply column_name; [exact Hn| |].
  - unfold parseIdentOrFunction. eapply ident_or_function; [exact Hn|]. intros n' Hn'. repeat stp. rewrite (ident_name_ok _ _ _ (proj1 Hn) Hn'), (plain_none _ Hp).
    apply E_bind. eapply E_mono; [apply H'|]. intros ps' s' ([E1 E2] & id' & ->). repeat stp. apply E_got. split.
    + destruct Hn' as [Hn' _]. cbn [strip] in *. congruence.
    + cbn [strip] in E1. destruct ps'; cbn [strip] in E1; try discriminate E1. discriminate.
  - intros _ [Ha|[Ha|(u' & r' & E & E')]]; [vm_compute in Ha; discriminate Ha|discriminate Ha|]. injection E as <- _. discriminate E'.
Qed.
Lemma name_entry e t r id p Q : name e t -> (forall e', ok e' e -> Ends (do it <- cur_item ;;
  if tk it "[" then
    do params <- parseArrayParams ;;
    Ret (EObjectParams e' params)
  else if tk it "(" then
    do params <- (match keywordArgFunctions (upper (ident_name e')) with
                  | Some form => parseKeywordArgFunctionParams form
                  | None => parseFunctionParams
                  end) ;;
    let funcExpr := (EFunctionExpr e' params) in
    do overPos <- pos_ ;;
    do b <- tryKw "OVER" ;;
    if b then
      do it <- cur_item ;;
      do overExpr <-
        (if tks it [KIdent; KKeyword] then parseAnyKeyword
         else if tk it "(" then parseWindowCondition
         else Fail (Msg "expected window name or (, but got %q")) ;;
      Ret (EWindowFunctionExpr funcExpr overPos overExpr)
    else Ret funcExpr
  else
    do dot <- tryTkb "." ;;
    if dot then
      do it <- cur_item ;;
      if tks it [KIdent; KKeyword] then
        do fields <- loop [e'] (fun fields =>
          do child <- parseAnyKeyword ;;
          do c <- tryTkb "." ;;
          Ret (if c then inl (fields ++ [child])%list else inr (fields ++ [child])%list)) ;;
        Ret (EPath fields)
      else if tk it "*" then
        do nextIdent <- parseColumnStar ;;
        Ret (ENestedIdentifier e' nextIdent)
      else if tk it KInt then
        do i <- parseNumberHere ;;
        Ret (EIndexOperation e' "." i)
      else Fail (Msg "expected IDENT, NUMBER or *, but got %q")
    else Ret e') (st (S id) r) Q) -> Ends (parseColumnExpr p) (st id (t :: r)) Q.
Proof.
  intros Hn H. eapply column_name; [apply name_free, Hn| |].
  - unfold parseIdentOrFunction. eapply ident_or_function; [apply name_free, Hn|exact H].
  - destruct Hn as [_ Hk]. rewrite Hk. discriminate.
Qed.
Lemma name_pstarts e t l : name e t -> pstarts (T t :: l).
Proof. intros Hn. exists t, (toks l). split; [reflexivity|]. eapply free_start, name_free, Hn. Qed.
Lemma index_prim n t a l : name n t -> ArrP a l -> PP (EObjectParams n a) (T t :: l).
Proof.
  intros Hn ((p0 & q0 & x & ->) & (r & El) & H). split; [eapply name_pstarts, Hn|]. assert (Hnm : is_name n = true) by (eapply any_is_name, (proj1 Hn)).
  split; [cbn [as_right]; now rewrite Hnm|]. split; [reflexivity|].
  intros p id ts Hf. nrm. eapply name_entry; [exact Hn|]. intros n' [Hn1 Hn2]. specialize (H (S id) ts I). rewrite El in *. cbn [app] in *. repeat stp.
  apply E_bind. eapply E_mono; [exact H|]. intros a' s' ([E1 E2] & id' & ->). apply E_got. split; [cbn [strip] in *; congruence|exact E2].
Qed.
Lemma field_prim n t i u : name n t -> number_lit i u -> t_kind u = KInt -> PP (EIndexOperation n "." i) [T t; T (O "."); T u].
Proof.
  intros Hn Hi Hu. split; [eapply name_pstarts, Hn|]. assert (Hnm : is_name n = true) by (eapply any_is_name, (proj1 Hn)).
  split; [cbn [as_right]; now rewrite Hnm|]. split; [reflexivity|].
  intros p id ts Hf. nrm. cbn [app]. eapply name_entry; [exact Hn|]. intros n' [Hn1 Hn2]. repeat stp.
  assert (Hr : Ends parseNumberHere (st (S (S id)) (u :: ts)) (Got i ts)) by now apply number_here.
  rewrite here_cons, tks_at, !tk_at. unfold t1. rewrite Hu. cbn [str_in existsb String.eqb andb orb]. repeat stp.
  apply E_bind. eapply E_mono; [exact Hr|]. intros i' s' ([E1 E2] & id' & ->). apply E_got. split; [cbn [strip] in *; congruence|exact E2].
Qed.
Lemma dotstar_prim n t s : name n t -> star s -> PP (ENestedIdentifier n s) [T t; T (O "."); T (O "*")].
Proof.
  intros Hn Hs. split; [eapply name_pstarts, Hn|]. split; [reflexivity|]. split; [reflexivity|].
  intros p id ts Hf. nrm. cbn [app]. eapply name_entry; [exact Hn|]. intros n' [Hn1 Hn2]. repeat stp.
  apply E_bind. eapply E_mono; [apply star_run, Hs|]. intros s' s0 ([E1 E2] & id' & ->). apply E_got. split; [cbn [strip] in *; congruence|].
  assert (Hi : is_name s' = true) by (rewrite <- name_strip, E1; destruct Hs; reflexivity). apply is_name_eq in Hi as (a & b & c & d & ->). discriminate.
Qed.

Lemma path_toks t us : toks (sep_by [T (O ".")] ([T t] :: map (fun u => [T u]) us)) = t :: flat_map (fun u => [O "."; u]) us.
Proof.
  revert t. induction us as [|u us IH]; intros t; [reflexivity|]. cbn [map]. rewrite sep_cons, !toks_app. change (map (fun u => [T u]) us) with (map (fun u => [T u]) us).
  change ([T u] :: map (fun u => [T u]) us) with (([T u] :: map (fun u => [T u]) us)). rewrite IH. reflexivity.
Qed.
Lemma path_loop ns us : Forall2 any_name ns us -> forall n u acc acc0 id ts, any_name n u -> Forall2 ok acc acc0 -> heads (stop ++ [O "["]) ts ->
  Ends (loop acc (fun fields => do child <- parseAnyKeyword ;; do c <- tryTkb "." ;; Ret (if c then inl (fields ++ [child])%list else inr (fields ++ [child])%list)))
    (st id (u :: flat_map (fun u => [O "."; u]) us ++ ts)) (Gots (acc0 ++ n :: ns) ts).
Proof.
  intros H. induction H as [|n2 u2 ns us H1 H IH]; intros n u acc acc0 id ts Hn Ha Hts; apply E_loop1.
  - cbn [flat_map app]. eapply any_keyword; [exact Hn|]. intros n' Hn'. stp. apply E_ret. split; [|eauto]. apply Forall2_app; auto.
  - cbn [flat_map app]. eapply any_keyword; [exact Hn|]. intros n' Hn'. stp. apply E_ret.
    replace (acc0 ++ n :: n2 :: ns) with ((acc0 ++ [n]) ++ n2 :: ns) by now rewrite <- app_assoc. apply IH; auto. apply Forall2_app; auto.
Qed.
Lemma path_prim n t ns us : name n t -> Forall2 any_name ns us -> ns <> [] -> PP (EPath (n :: ns)) (sep_by [T (O ".")] ([T t] :: map (fun u => [T u]) us)).
Proof.
  intros Hn H Hne. split; [exists t; eexists; split; [apply path_toks|eapply free_start, name_free, Hn]|]. split; [reflexivity|]. split; [reflexivity|].
  intros p id ts Hf. rewrite path_toks. cbn [app]. eapply name_entry; [exact Hn|]. intros n' Hn'. destruct H as [|n2 u2 ns us H1 H]; [congruence|]. cbn [flat_map app].
  assert (Hts : heads (stop ++ [O "["]) ts).
  { destruct Hf as [Hf|[[_ [r ->]]|[Hf _]]]; [destruct ts; [exact I|apply in_or_app; now left]|apply in_or_app; right; now left|discriminate]. }
  repeat stp. rewrite here_cons, tks_at, (name_any _ _ H1). apply E_bind. eapply E_mono; [apply (path_loop ns us H n2 u2 [n'] [n]); auto|].
  intros es' s' (He & id' & ->). apply E_got. split; [cbn [strip]; now rewrite (oks_strip _ _ He)|].
  cbn [end_of]. assert (Hx : es' <> []) by (intros ->; inversion He). destruct es' as [|x es']; [congruence|]. cbn [is_empty negb].
  assert (Hl := ok_last _ _ He Hx). clear - Hl. revert x Hl. induction es' as [|y es' IH]; intros x Hl; [exact Hl|]. change (last (map end_of (x :: y :: es')) None) with (last (map end_of (y :: es')) None). apply IH, Hl.
Qed.

(** ** CASE *)
Definition when_step (acc : list expr) : prog (list expr + list expr) :=
  do it <- cur_item ;;
  if kw it "WHEN" then
    do! skip ;;
    do whenCondition <- parseExprHere ;;
    do thenPos <- pos_ ;;
    do! expKw "THEN" ;;
    do thenCondition <- parseExprHere ;;
    Ret (inl (acc ++ [(EWhenClause (ipos it) thenPos whenCondition thenCondition PZero ENil)])%list)
  else Ret (inr acc).
Definition case_ends : list tok := [K "WHEN"; K "ELSE"; K "END"].
Definition WP (e : expr) (l : list sym) : Prop := (exists r, toks l = K "WHEN" :: r) /\
  forall acc id ts, heads case_ends ts -> Ends (when_step acc) (st id (toks l ++ ts)) (fun r s' => (exists e', r = inl (acc ++ [e']) /\ strip e' = strip e) /\ exists id', s' = st id' ts).
Lemma when_ok p q c lc r lr p' : XP c lc -> XP r lr -> WP (EWhenClause p q c r p' ENil) (T (K "WHEN") :: Sp :: lc ++ [Sp; T (K "THEN"); Sp] ++ lr).
Proof.
  intros Hc Hr. split; [nrm; eauto|]. intros acc id ts Hts. nrm. unfold when_step. repeat stp. eapply E_use; [apply expr_here, Hc|cbn; auto 40|]. intros c' i1 [Ec _]. repeat stp.
  eapply E_use; [apply expr_here, Hr|eapply heads_incl; [exact Hts|vm_compute; reflexivity]|]. intros r' i2 [Er _]. apply E_ret. split; [|eauto]. eexists. split; [reflexivity|]. cbn [strip]. congruence.
Qed.
Lemma whens_run ws lws : Forall2 WP ws lws -> forall acc acc0 id ts, map strip acc = map strip acc0 -> heads [K "ELSE"; K "END"] ts ->
  Ends (loop acc when_step) (st id (toks (flat_map (cons Sp) lws) ++ ts)) (fun ws' s' => map strip ws' = map strip (acc0 ++ ws) /\ exists id', s' = st id' ts).
Proof.
  intros H. induction H as [|w l ws lws H1 H IH]; intros acc acc0 id ts Ha Hts; apply E_loop1.
  - cbn [flat_map]. nrm. unfold when_step. repeat stp. apply E_ret. rewrite app_nil_r. split; [exact Ha|eauto].
  - cbn [flat_map app]. nrm. destruct H1 as [_ H1]. eapply E_mono; [apply H1|].
    + destruct H as [|w2 l2 ws lws [[r2 E2] _] H]; cbn [flat_map app]; nrm; [cbn [app]; eapply heads_incl; [exact Hts|vm_compute; reflexivity]|]. rewrite E2. now left.
    + intros x s' ((e' & -> & He) & id' & ->). replace (acc0 ++ w :: ws) with ((acc0 ++ [w]) ++ ws) by now rewrite <- app_assoc. apply IH; [|exact Hts]. rewrite !map_app, Ha. cbn [map]. now rewrite He.
Qed.
Definition opt (P : expr -> list sym -> Prop) (e : expr) (l : list sym) : Prop := (e = ENil /\ l = []) \/ exists l', l = Sp :: l' /\ P e l'.
Definition else_ok (e : expr) (l : list sym) : Prop := (e = ENil /\ l = []) \/ exists l', l = Sp :: T (K "ELSE") :: Sp :: l' /\ XP e l'.

Lemma quiet_item l r : starts l -> quiet l = true -> forall t r', toks l ++ r = t :: r' -> as_item (t :: r') = false /\ t_kind t <> ";" .
Proof.
  intros (t0 & r0 & E & Ht) Hq t r' Et. rewrite E in Et. cbn [app] in Et. injection Et as <- <-. unfold quiet in Hq. rewrite E in Hq.
  apply andb_true_iff in Hq as [Hq1 Hq2]. rewrite negb_true_iff in Hq1, Hq2.
  assert (Hk : forall k, str_in (upper k) touchy && negb (String.eqb (upper k) "NOT") && negb (String.eqb (upper k) "CASE") = true -> k1 t0 k = false) by (intros k; now apply start_kw).
  assert (Hnot : k1 t0 "NOT" = false).
  { unfold k1, equal_fold, start in *. destruct (String.eqb (t_kind t0) KKeyword) eqn:Ek; [|reflexivity]. cbn [andb] in *. destruct (tok_eqb t0 (K "NOT")) eqn:En; [apply tok_eqb_eq in En as ->; discriminate Hq2|].
    cbn [orb] in Ht. apply orb_true_iff in Ht as [Ht|Ht]; [apply tok_eqb_eq in Ht as ->; reflexivity|]. destruct (String.eqb_spec (upper (t_str t0)) (upper "NOT")) as [Eu|]; [|reflexivity]. rewrite Eu in Ht. vm_compute in Ht. discriminate. }
  assert (Hs : str_in (t_kind t0) [KKeyword; KIdent; KInt; KFloat; KString; "("; "["; "*"; "+"; "-"] = true).
  { clear - Ht. unfold start in Ht. unfold str_in in *. cbn [existsb]. destruct (String.eqb (t_kind t0) KKeyword); [reflexivity|exact Ht]. }
  assert (Hki : str_in (t_kind t0) [KKeyword; KIdent; KInt; KFloat; KString; "("; "["] = true).
  { unfold str_in in *. cbn [existsb] in *. destruct (String.eqb (t_kind t0) "*"), (String.eqb (t_kind t0) "+"), (String.eqb (t_kind t0) "-"); try (cbn in Hq1; rewrite ?orb_true_r in Hq1; discriminate Hq1). cbn [orb] in *. exact Hs. }
  unfold str_in in Hki. apply existsb_exists in Hki as (k & Hi & Ek). apply String.eqb_eq in Ek.
  split.
  - unfold as_item. unfold pkw at 1 2 3. cbn [existsb clauseStarterKeywords expressionContinuationKeywords]. rewrite Hnot. rewrite !Hk by (vm_compute; reflexivity). cbn [orb]. rewrite orb_false_r.
    unfold pk. rewrite Ek. clear - Hi. cbn [In] in Hi. repeat (destruct Hi as [<-|Hi]; [reflexivity|]). destruct Hi.
  - rewrite Ek. clear - Hi. cbn [In] in Hi. repeat (destruct Hi as [<-|Hi]; [discriminate|]). destruct Hi.
Qed.

Lemma case_prim p q e le ws lws p' el lel : opt XP e le -> le = [] \/ quiet le = true -> Forall2 WP ws lws -> le <> [] \/ ws <> [] -> else_ok el lel ->
  PP (ECaseExpr p q e ws p' el) (T (K "CASE") :: le ++ flat_map (cons Sp) lws ++ lel ++ [Sp; T (K "END")]).
Proof.
  intros He Hq Hw Hn Hel. split; [eexists; eexists; split; [apply toks_T|reflexivity]|]. split; [reflexivity|]. split; [reflexivity|].
  intros p0 id ts Hf. nrm. set (rest := toks lel ++ K "END" :: ts).
  assert (Hrest : heads [K "ELSE"; K "END"] rest) by (unfold rest; destruct Hel as [[_ ->]|(l' & -> & _)]; nrm; cbn; auto).
  assert (Hws : heads case_ends (toks (flat_map (cons Sp) lws) ++ rest)).
  { destruct Hw as [|w l ws lws [[r E] _] Hw]; cbn [flat_map app]; nrm; [cbn [app]; eapply heads_incl; [exact Hrest|vm_compute; reflexivity]|]. rewrite E. now left. }
  assert (Hbody : forall e' i, strip e' = strip e -> Ends (do whens <- loop [] when_step ;;
     do elsePos <- pos_ ;;
     do b <- tryKw "ELSE" ;;
     do (elsePos, elseExpr) <- (if b then do e <- parseExprHere ;; Ret (elsePos, e) else Ret (PZero, ENil)) ;;
     do! expKw "END" ;;
     Ret (ECaseExpr p0 PZero e' whens elsePos elseExpr)) (st i (toks (flat_map (cons Sp) lws) ++ rest)) (Got (ECaseExpr p q e ws p' el) ts)).
  { intros e' i Ee. apply E_bind. eapply E_mono; [apply (whens_run ws lws Hw [] []); [reflexivity|exact Hrest]|]. intros ws' s' (Hws' & id' & ->). cbn [app] in Hws'. unfold rest.
    destruct Hel as [[-> ->]|(l' & -> & Hx)].
    - nrm. repeat stp. apply E_got. split; [|discriminate]. cbn [strip]. now rewrite Ee, Hws'.
    - nrm. repeat stp. eapply E_use; [apply expr_here, Hx|cbn; auto 40|]. intros x' i2 [Ex _]. apply E_ret. repeat stp. apply E_got. split; [|discriminate]. cbn [strip]. now rewrite Ee, Hws', Ex. }
  unfold parseColumnExpr. apply X_as. destruct He as [[-> ->]|(l' & -> & Hx)].
  - destruct Hn as [Hn|Hn]; [congruence|]. nrm. destruct Hw as [|w l ws lws Hw1 Hw]; [congruence|]. assert (E : exists r, toks (flat_map (cons Sp) (l :: lws)) ++ rest = K "WHEN" :: r).
    { destruct Hw1 as [[r E] _]. cbn [flat_map app]. nrm. rewrite E. cbn [app]. eauto. }
    destruct E as [r E]. rewrite E in *. cbn [andb]. replace (t1 (K "CASE") [KKeyword] && _) with false by reflexivity. repeat stp. unfold parseColumnCaseExpr. repeat stp.
    exact (Hbody ENil (S id) eq_refl).
  - destruct Hq as [Hq|Hq]; [discriminate Hq|]. change (quiet l' = true) in Hq. nrm. assert (Hst : starts l') by apply Hx.
    set (tail := toks (flat_map (cons Sp) lws) ++ rest) in *. assert (Hst' := Hst). destruct Hst' as (t & r & E & _). destruct (quiet_item l' tail Hst Hq t (r ++ tail)) as [Ha Hb]; [now rewrite E|].
    replace (t1 (K "CASE") [KKeyword] && _) with false.
    2:{ rewrite E. cbn [app]. rewrite Ha. apply String.eqb_neq in Hb. rewrite Hb. reflexivity. }
    repeat stp. unfold parseColumnCaseExpr. repeat stp. eapply E_use; [apply expr_here, Hx| |].
    + eapply heads_incl; [exact Hws|vm_compute; reflexivity].
    + intros e' i1 [Ee _]. apply Hbody, Ee.
Qed.
