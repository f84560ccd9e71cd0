(** Formatting a tree of the grammar of canonical texts writes the text of its symbols. *)
From Coq Require Import String Ascii List Arith Bool Lia.
From Verif Require Import Str StrFacts Keyword Lexer LexGrammar LexTokens Ast AstPos AstSubs Prog PrecSpec Format FormatFacts RoundSpec.
Import ListNotations.
Local Open Scope string_scope.
Local Open Scope list_scope.
Local Open Scope nat_scope.

(** The steps [l] write [s]. *)
Definition Wr (l : list step) (s : string) : Prop := exists evs, run_steps fmt false l = FOk evs /\ plain evs = s.
(** Formatting [e] writes [l]. *)
Definition Fm (e : expr) (l : list sym) : Prop := is_nil e = false /\ Wr (steps false e) (text l).

Lemma Wr_nil : Wr [] "".
Proof. exists []. split; reflexivity. Qed.
Lemma Wr_cons x l s t evs : run_step fmt false x = FOk evs -> plain evs = s -> Wr l t -> Wr (x :: l) (s ++ t).
Proof. intros H1 H2 (u & H3 & H4). exists (evs ++ u). cbn [run_steps]. rewrite H1, H3. cbn [fbind]. split; [reflexivity|]. now rewrite plain_app, H2, H4. Qed.
Lemma Wr_W a l t : Wr l t -> Wr (SW a :: l) (a ++ t).
Proof. apply (Wr_cons (SW a) l a t [W a] eq_refl). cbn [plain]. apply sapp_nil. Qed.
Lemma Wr_break l t : Wr l t -> Wr (SBreak :: l) (" " ++ t).
Proof. now apply (Wr_cons SBreak l " " t [Brk]). Qed.
Lemma Wr_ind l t : Wr l t -> Wr (SIndent :: l) t.
Proof. now apply (Wr_cons SIndent l "" t [Ind]). Qed.
Lemma Wr_ded l t : Wr l t -> Wr (SDedent :: l) t.
Proof. now apply (Wr_cons SDedent l "" t [Ded]). Qed.
Lemma Wr_expr e le l t : Fm e le -> Wr l t -> Wr (SExpr e :: l) (text le ++ t).
Proof. intros [Hn (evs & H & E)]. apply (Wr_cons _ _ _ _ evs); [|exact E]. cbn [run_step]. now rewrite Hn, fmt_eq. Qed.
Lemma Wr_ptr e le l t : Fm e le -> Wr l t -> Wr (SPtr e :: l) (text le ++ t).
Proof. intros [Hn (evs & H & E)]. apply (Wr_cons _ _ _ _ evs); [|exact E]. cbn [run_step]. now rewrite Hn, fmt_eq. Qed.
Lemma Wr_app a b s t : Wr a s -> Wr b t -> Wr (a ++ b) (s ++ t).
Proof.
  intros (u & H1 & E1) Hb. revert u s H1 E1. induction a as [|x a IH]; intros u s H1 E1; cbn [run_steps] in H1.
  - injection H1 as <-. subst s. exact Hb.
  - destruct (run_step fmt false x) as [v| |] eqn:Ex; cbn [fbind] in H1; try discriminate. destruct (run_steps fmt false a) as [w| |] eqn:Ea; cbn [fbind] in H1; try discriminate.
    injection H1 as <-. subst s. cbn [app]. rewrite plain_app, sapp_assoc. eapply Wr_cons; [exact Ex|reflexivity|]. now eapply IH.
Qed.
Lemma Wr_eq l s t : Wr l s -> s = t -> Wr l t.
Proof. now intros H ->. Qed.

Lemma text_app a b : text (a ++ b) = (text a ++ text b)%string.
Proof. induction a as [|[t|] a IH]; cbn [text app]; [reflexivity| |]; now rewrite IH, sapp_assoc. Qed.
Lemma text_K w l : text (T (K w) :: l) = (w ++ text l)%string.
Proof. reflexivity. Qed.
Lemma text_Sp l : text (Sp :: l) = (" " ++ text l)%string.
Proof. reflexivity. Qed.
Lemma text_nil : text [] = ""%string.
Proof. reflexivity. Qed.
Lemma text_T t l : text (T t :: l) = (spell t ++ text l)%string.
Proof. reflexivity. Qed.
Lemma spell_O w : w <> KString -> spell (O w) = w.
Proof. intros H. unfold spell, O. cbn [t_kind t_quote t_str]. apply String.eqb_neq in H. now rewrite H. Qed.
#[local] Opaque text.

(** Normalize texts. *)
Ltac txt := repeat first [rewrite text_app | rewrite text_K | rewrite text_Sp | rewrite text_nil | rewrite sapp_assoc | rewrite sapp_nil].
Ltac txteq := unfold paren, bracket, comma in *; txt; repeat rewrite text_T; txt; repeat rewrite spell_O by discriminate; txt; try reflexivity.
(** Write the steps one after another. *)
Ltac wr1 :=
  cbn [when negb];
  match goal with
  | |- Wr [] _ => apply Wr_nil
  | |- Wr (SW _ :: _) _ => apply Wr_W
  | |- Wr (SBreak :: _) _ => apply Wr_break
  | |- Wr (SIndent :: _) _ => apply Wr_ind
  | |- Wr (SDedent :: _) _ => apply Wr_ded
  | |- Wr (SExpr _ :: _) _ => eapply Wr_expr; [eassumption|]
  | |- Wr (SPtr _ :: _) _ => eapply Wr_ptr; [eassumption|]
  end.
Ltac wr := eapply Wr_eq; [repeat wr1|txteq].

(** ** Lists *)

Lemma text_sep_cons s l m ls : text (sep_by s (l :: m :: ls)) = (text l ++ text s ++ text (sep_by s (m :: ls)))%string.
Proof. cbn [sep_by]. now rewrite !text_app. Qed.

(** The items after the first. *)
Fixpoint others (s : string) (ls : list (list sym)) : string := match ls with [] => "" | l :: r => s ++ text l ++ others s r end%string.
Lemma text_sep s l ls : text (sep_by s (l :: ls)) = (text l ++ others (text s) ls)%string.
Proof. revert l. induction ls as [|m ls IH]; intros l; [cbn [sep_by others]; now rewrite sapp_nil|]. rewrite text_sep_cons. now rewrite IH. Qed.

Lemma Wr_each (f : bool -> bool -> expr -> list step) (pre sep post : string) es ls first :
  Forall2 Fm es ls ->
  (forall first last x l, Fm x l -> Wr (f first last x) ((if first : bool then pre else sep) ++ text l ++ (if last : bool then "" else post))) ->
  Wr (each_from first f es) (match ls with [] => "" | l :: r => (if first then pre else sep) ++ text l ++ others (post ++ sep) r end)%string.
Proof.
  intros H Hf. revert first. induction H as [|e l es ls He H IH]; intros first; cbn [each_from]; [apply Wr_nil|].
  eapply Wr_eq; [apply Wr_app; [apply Hf, He|apply IH]|]. destruct H as [|e2 l2 es2 ls2 He2 H2]; cbn [is_empty others]; rewrite ?sapp_nil, ?sapp_assoc; reflexivity.
Qed.

(** The item is preceded by [pre] (the first) or [sep], and followed by [post] unless it is the last. *)
Lemma Wr_list f pre sep post s es ls :
  (forall first last x l, Fm x l -> Wr (f first last x) ((if first : bool then pre else sep) ++ text l ++ (if last : bool then "" else post))) ->
  (post ++ sep)%string = text s -> Forall2 Fm es ls ->
  Wr (each f es) (match ls with [] => "" | _ => pre end ++ text (sep_by s ls)).
Proof.
  intros Hf Hs H. eapply Wr_eq; [apply (Wr_each f pre sep post es ls true H Hf)|]. destruct ls as [|l ls]; [reflexivity|]. now rewrite text_sep, <- Hs.
Qed.

Lemma Wr_sep_expr es ls : Forall2 Fm es ls -> Wr (each (fun first _ x => when (negb first) [SW ", "] ++ [SExpr x]) es) (text (sep_by comma ls)).
Proof.
  intros H. eapply Wr_eq; [apply (Wr_list _ "" ", " "" comma _ ls); [|reflexivity|exact H]|destruct ls; reflexivity].
  intros first last x l Hx. destruct first; cbn [app when negb]; wr; destruct last; txteq.
Qed.
Lemma Wr_sep_dot es ls : Forall2 Fm es ls -> Wr (each (fun first _ x => when (negb first) [SW "."] ++ [SPtr x]) es) (text (sep_by [T (O ".")] ls)).
Proof.
  intros H. eapply Wr_eq; [apply (Wr_list _ "" "." "" [T (O ".")] _ ls); [|reflexivity|exact H]|destruct ls; reflexivity].
  intros first last x l Hx. destruct first; cbn [app when negb]; wr; destruct last; txteq.
Qed.
Lemma Wr_sep_last es ls : Forall2 Fm es ls -> Wr (each (fun _ last x => [SExpr x] ++ when (negb last) [SW ", "]) es) (text (sep_by comma ls)).
Proof.
  intros H. eapply Wr_eq; [apply (Wr_list _ "" "" ", " comma _ ls); [|reflexivity|exact H]|destruct ls; reflexivity].
  intros first last x l Hx. destruct last; cbn [app when negb]; wr; destruct first; txteq.
Qed.
Lemma Wr_break_ptr es ls : Forall2 Fm es ls -> es <> [] -> Wr (each (fun first _ x => (if first then [SBreak] else [SW ","; SBreak]) ++ [SPtr x]) es) (" " ++ text (sep_by comma ls)).
Proof.
  intros H Hn. eapply Wr_eq; [apply (Wr_list _ " " ", " "" comma _ ls); [|reflexivity|exact H]|destruct H; [congruence|reflexivity]].
  intros first last x l Hx. destruct first; cbn [app when negb]; wr; destruct last; txteq.
Qed.
Lemma Wr_break_expr es ls : Forall2 Fm es ls -> es <> [] -> Wr (each (fun first _ x => (if first then [SBreak] else [SW ","; SBreak]) ++ [SExpr x]) es) (" " ++ text (sep_by comma ls)).
Proof.
  intros H Hn. eapply Wr_eq; [apply (Wr_list _ " " ", " "" comma _ ls); [|reflexivity|exact H]|destruct H; [congruence|reflexivity]].
  intros first last x l Hx. destruct first; cbn [app when negb]; wr; destruct last; txteq.
Qed.
Lemma Wr_whens es ls : Forall2 Fm es ls -> Wr (each (fun _ _ x => [SBreak; SPtr x]) es) (text (flat_map (cons Sp) ls)).
Proof.
  unfold each. generalize true. intros b H. revert b. induction H as [|e l es ls He H IH]; intros b; cbn [each_from flat_map]; [apply Wr_nil|].
  eapply Wr_eq; [apply Wr_app; [repeat wr1|apply IH]|]. txteq.
Qed.

(** ** Names and literals *)

Lemma any_name_Fm e t : any_name e t -> Fm e [T t].
Proof.
  intros H. assert (Hw : forall w, spell (word_tok w) = w) by (intros w; unfold spell, word_tok; cbn [t_kind t_quote t_str]; now destruct (is_keyword (upper w))).
  destruct H as [w p q H|s p q H|s p q H]; (split; [reflexivity|]); cbn -[append]; wr. now rewrite Hw.
Qed.
Lemma number_Fm e t : number_lit e t -> Fm e [T t].
Proof. intros [s b f p q H]. split; [reflexivity|]. cbn -[append]. wr. now destruct f. Qed.
Lemma string_Fm e t : string_lit e t -> Fm e [T t].
Proof. intros [s p q H]. split; [reflexivity|]. cbn -[append]. wr. Qed.
Lemma star_Fm e : star e -> Fm e [T (O "*")].
Proof. intros [p q]. split; [reflexivity|]. cbn -[append]. wr. Qed.

Lemma text_words ws : text (words ws) = String.concat " " ws.
Proof.
  unfold words. induction ws as [|w ws IH]; [reflexivity|]. cbn [map]. destruct ws as [|v ws]; [cbn [map sep_by String.concat]; txteq|].
  cbn [map] in *. rewrite text_sep_cons, IH. cbn [String.concat]. txteq.
Qed.

(** ** What is written for each sort *)

Definition Fopt (e : expr) (l : list sym) : Prop := (e = ENil /\ l = []) \/ exists l', l = Sp :: l' /\ Fm e l'.
Definition Fopt0 (e : expr) (l : list sym) : Prop := (e = ENil /\ l = []) \/ Fm e l.
Fixpoint writes (k : sort) (e : expr) (l : list sym) : Prop :=
  match k with
  | Else => (e = ENil /\ l = []) \/ exists l', l = Sp :: T (K "ELSE") :: Sp :: l' /\ Fm e l'
  | Opt k => (e = ENil /\ l = []) \/ exists l', l = Sp :: l' /\ writes k e l'
  | NextQuery => (e = ENil /\ l = []) \/ Fm e l
  | With => (e = ENil /\ l = []) \/ exists p q cs ls, e = EWithClause p q cs /\ l = T (K "WITH") :: Sp :: sep_by comma ls ++ [Sp] /\ cs <> [] /\ Forall2 Fm cs ls
  | Join => (e = ENil /\ l = []) \/ (is_nil e = false /\ Wr (join_steps e) (text l))
  | Array => Fm e l
  | Base => Fm e l /\ is_select e = false
  | Query => Fm e l /\ is_select e = true
  | Table => Fm e l /\ exists a b c d, e = EJoinTableExpr a b c d
  | _ => Fm e l
  end.

Ltac wsteps := cbn [steps]; cbn [app when negb is_nil]; repeat match goal with H : Fm ?e _ |- _ => match goal with |- context [is_nil e] => rewrite (proj1 H); cbn [negb when app] end end.

Lemma Forall2_impl' {A B} (P Q : A -> B -> Prop) l m : (forall a b, P a b -> Q a b) -> Forall2 P l m -> Forall2 Q l m.
Proof. intros H. induction 1; constructor; auto. Qed.

Lemma path_Fm n t ns ts : any_name n t -> Forall2 any_name ns ts -> Fm (EPath (n :: ns)) (sep_by [T (O ".")] ([T t] :: map (fun u => [T u]) ts)).
Proof.
  intros Hn H. split; [reflexivity|]. cbn [steps]. apply Wr_sep_dot. constructor; [now apply any_name_Fm|].
  induction H; cbn [map]; constructor; [now apply any_name_Fm|assumption].
Qed.

Lemma op_spell op : In op (word_ops ++ sign_ops) -> spell (op_tok op) = op.
Proof. intros H. repeat (destruct H as [<-|H]; [reflexivity|]). destruct H. Qed.
Lemma op_no_cast op : In op (word_ops ++ sign_ops) -> String.eqb op "::" = false.
Proof. intros H. repeat (destruct H as [<-|H]; [reflexivity|]). destruct H. Qed.

Ltac names := repeat match goal with H : any_name _ _ |- _ => apply any_name_Fm in H | H : free_name _ _ |- _ => destruct H as [H _] | H : name _ _ |- _ => destruct H as [H _] | H : number_lit _ _ |- _ => apply number_Fm in H | H : string_lit _ _ |- _ => apply string_Fm in H | H : star _ |- _ => apply star_Fm in H end.
Ltac fm := split; [reflexivity|]; wsteps.

Lemma Wr_when e l : writes (Opt Where) e l -> Wr (when (negb (is_nil e)) [SBreak; SPtr e]) (text l).
Proof. cbn [writes]. intros [[-> ->]|(l' & -> & H)]; [apply Wr_nil|]. rewrite (proj1 H). wr. Qed.

Lemma query_Wr p q w lw d its ls f lf pw lpw wh lwh g lg h lh ob lob lb llb li lli se lse fo lfo ua ud ex is_ lset nq lnq :
  writes With w lw -> Forall2 Fm its ls -> its <> [] ->
  writes (Opt Where) f lf -> writes (Opt Where) pw lpw -> writes (Opt Where) wh lwh -> writes (Opt Where) g lg -> writes (Opt Where) h lh ->
  writes (Opt Where) ob lob -> writes (Opt Where) lb llb -> writes (Opt Where) li lli -> writes (Opt Where) se lse -> writes (Opt Where) fo lfo ->
  set_op ua ud ex is_ lset nq -> writes NextQuery nq lnq ->
  Wr (steps false (ESelectQuery p q w ENil d ENil its f ENil pw wh g false h ob lb li se fo ua ud ex is_))
    (text (lw ++ [T (K "SELECT")] ++ (if d then [Sp; T (K "DISTINCT")] else []) ++ Sp :: sep_by comma ls
       ++ lf ++ lpw ++ lwh ++ lg ++ lh ++ lob ++ llb ++ lli ++ lse ++ lfo ++ lset ++ lnq)).
Proof.
  intros Hw Hi Hn Hf Hpw Hwh Hg Hh Hob Hlb Hli Hse Hfo Hset Hq. cbn [steps].
  apply Wr_when in Hf, Hpw, Hwh, Hg, Hh, Hob, Hlb, Hli, Hse, Hfo.
  rewrite !text_app. apply Wr_app.
  { cbn [writes] in Hw. destruct Hw as [[-> ->]|(p1 & q1 & cs & ls1 & -> & -> & Hc & H)]; [apply Wr_nil|]. cbn [is_nil negb when WithClause_CTEs app].
    eapply Wr_eq; [repeat wr1; apply Wr_app; [eapply Wr_break_ptr; eassumption|repeat wr1]|txteq]. }
  apply Wr_app; [wr|]. cbn [is_nil negb when app]. apply Wr_app; [destruct d; wr|]. apply Wr_ind.
  rewrite text_Sp, !text_app, <- sapp_assoc. apply Wr_app; [eapply Wr_break_ptr; eassumption|].
  apply Wr_ded. repeat (apply Wr_app; [assumption|]).
  destruct Hset as [|q' Hq'|q' Hq'|q' Hq'|q' Hq']; destruct Hq as [[Eq El]|Hq]; try congruence; try (destruct Hq as [Hq _]; discriminate Hq); [subst lnq; apply Wr_nil|..].
  all: cbn [is_nil negb]; rewrite (proj1 Hq); cbn [negb]; wr.
Qed.

Lemma all_writes : (forall k e l, says k e l -> writes k e l) /\ (forall k es ls, sayl k es ls -> Forall2 (writes k) es ls).
Proof.
  apply says_mut; cbn [writes]; intros.
  - names; assumption.
  - names; assumption.
  - names; assumption.
  - names; assumption.
  - assumption.
  - names. fm. wr.
  - assumption.
  - names. fm. wr.
  - names. fm. wr.
  - apply path_Fm; [apply n0|assumption].
  - names. fm. wr.
  - (* CASE *) split; [reflexivity|]. cbn [steps].
    destruct H as [[-> ->]|(l' & -> & He)]; destruct H1 as [[-> ->]|(l2 & -> & He2)]; wsteps.
    all: eapply Wr_eq; [repeat wr1; apply Wr_app; [apply Wr_whens; eassumption|]; repeat wr1|txteq].
  - destruct H as [H _]. fm. wr.
  - fm. wr.
  - now left.
  - right. eauto.
  - (* arguments *) assert (Hl : Fm (EColumnExprList p' q' d es) ((if d then [T (K "DISTINCT"); Sp] else []) ++ sep_by comma ls)).
    { fm. destruct d; wsteps; (eapply Wr_eq; [repeat wr1; eapply Wr_sep_last; eassumption|txteq]). }
    fm. wr.
  - assert (Hl : Fm (EColumnExprList p' q' d es) ((if d then [T (K "DISTINCT"); Sp] else []) ++ sep_by comma ls)).
    { fm. destruct d; wsteps; (eapply Wr_eq; [repeat wr1; eapply Wr_sep_last; eassumption|txteq]). }
    assert (Hm : Fm (EColumnArgList false p2 q2 es2) (paren (sep_by comma ls2))).
    { fm. eapply Wr_eq; [repeat wr1; apply Wr_app; [eapply Wr_sep_expr; eassumption|repeat wr1]|txteq]. }
    fm. wr.
  - fm. eapply Wr_eq; [repeat wr1; cbn [need is_nil ColumnExprList_Items app]; apply Wr_app; [eapply Wr_sep_expr; eassumption|repeat wr1]|txteq].
  - fm. wr.
  - names. fm. wr.
  - (* operators *) assumption.
  - fm. rewrite op_no_cast by assumption. rewrite andb_false_r. cbn [operator_prefix when negb app]. wr. now rewrite op_spell.
  - fm. rewrite andb_false_r. assert (Hc : String.eqb ("NOT " ++ op) "::" = false) by reflexivity. rewrite Hc. cbn [operator_prefix when negb app]. wr.
  - fm. cbn -[append]. wr.
  - fm. cbn -[append]. wr.
  - fm. destruct n; wr.
  - fm. wr.
  - fm. wr.
  - fm. wr.
  - fm. wr.
  - fm. wr. destruct i as [<-|[<-|[]]]; reflexivity.
  - fm. wr.
  - assert (Hi : Fm i [T t]) by (destruct o0 as [Hi|[Hi _]]; names; assumption). fm. wr.
  - (* queries *) split; [|reflexivity]. split; [reflexivity|]. now apply query_Wr with (nq := nq).
  - now left.
  - right. apply H.
  - now left.
  - right. exists p, q, cs, ls. auto.
  - destruct H0 as [H0 Hs]. fm. rewrite Hs. wr.
  - assert (Hs : is_select a = false) by (destruct a0; reflexivity). names. fm. rewrite Hs. wr.
  - fm. cbn [each each_from app]. wr.
  - names. fm. cbn [each each_from app]. wr.
  - (* tables *) split; [|reflexivity]. names. fm. wr.
  - split; [|reflexivity]. names. fm. wr.
  - split; [|reflexivity]. destruct H as [H _]. fm. wr.
  - apply H.
  - destruct H as [H Hs]. names. fm. rewrite Hs. cbn [app]. wr.
  - split; [|eauto]. fm. destruct fin.
    + assert (Hf : Fm (ETableExpr p q ENil b true) (l ++ [Sp; T (K "FINAL")])) by (fm; wr). wr.
    + assert (Hf : Fm (ETableExpr p q ENil b false) l) by (fm; wr). wr.
  - destruct H as [H _]. fm. wr.
  - destruct H as [H _]. destruct H0 as [[-> _]|[Hj Hw]]; [congruence|].
    assert (Hf : Fm (EJoinExpr p' t j [] ENil) (l ++ lj)).
    { fm. rewrite Hj. cbn [negb when]. eapply Wr_eq; [repeat wr1; exact Hw|txteq]. }
    fm. wr.
  - now left.
  - right. destruct H as [H (a & b & c & d & ->)]. split; [reflexivity|]. cbn [join_steps]. wr.
  - right. destruct H as [H _]. split; [reflexivity|]. cbn [join_steps is_empty app]. destruct H0 as [[-> _]|[Hj Hw]]; [congruence|]. rewrite Hj. cbn [negb when]. eapply Wr_eq; [repeat wr1; exact Hw|txteq].
  - right. destruct H as [H _]. split; [reflexivity|]. cbn [join_steps].
    assert (He : is_empty (ws ++ ["JOIN"]) = false) by (destruct ws; reflexivity). rewrite He, <- text_words.
    assert (Hj : Wr (when (negb (is_nil j)) (join_steps j)) (text lj)) by (destruct H1 as [[-> ->]|[Hj Hw]]; [apply Wr_nil|rewrite Hj; exact Hw]).
    assert (Hc : Wr (when (negb (is_nil c)) [SW " "; SExpr c]) (text lc)) by (destruct H0 as [[-> ->]|(l' & -> & Hc)]; [apply Wr_nil|rewrite (proj1 Hc); wr]).
    eapply Wr_eq; [apply Wr_app; [cbn [app]; repeat wr1; apply Wr_app; [exact Hc|repeat wr1]|exact Hj]|txteq].
  - assert (Hl : Fm (EColumnExprList p' q' false es) (sep_by comma ls)) by (fm; eapply Wr_sep_last; eassumption). fm. wr.
  - assert (Hl : Fm (EColumnExprList p' q' false es) (sep_by comma ls)) by (fm; eapply Wr_sep_last; eassumption). fm. wr.
  - (* clauses *) fm. wr.
  - fm. destruct (is_logical e); wr.
  - assert (Hl : Fm (EColumnExprList p' q' false es) (sep_by comma ls)) by (fm; eapply Wr_sep_last; eassumption). fm. cbn [String.eqb negb when app]. wr.
  - fm. wr.
  - fm. destruct i as [<-|[<-|[<-|[]]]]; cbn; wr.
  - fm. eapply Wr_eq; [repeat wr1; apply Wr_app; [eapply Wr_break_expr; eassumption|repeat wr1]|txteq].
  - fm. wr.
  - fm. wr.
  - fm. wr.
  - assert (Hl : Fm (EColumnExprList p q false es) (sep_by comma ls)) by (fm; eapply Wr_sep_last; eassumption). fm. wr.
  - assert (Hv : Fm v [T u]) by (destruct o as [[Hv _]|Hv]; names; assumption). names. fm. wr.
  - fm. eapply Wr_eq; [repeat wr1; apply Wr_app; [eapply Wr_break_ptr; eassumption|repeat wr1]|txteq].
  - names. fm. wr.
  - now left.
  - right. eauto.
  - constructor.
  - constructor; assumption.
Qed.

(** Formatting a canonical query. *)
Lemma query_text t l : says Query t l -> Format t = FOk (text l).
Proof.
  intros H. destruct (proj1 all_writes _ _ _ H) as [[Hn (evs & Hw & E)] _]. unfold Format. rewrite Hn, fmt_eq, Hw. cbn [fbind]. now rewrite render_compact, E.
Qed.
