(** Formatting a canonical statement writes the text of its symbols, and that text is a source for its tokens. *)
From Coq Require Import String Ascii List Arith Bool Lia.
From Verif Require Import Str StrFacts Keyword Lexer LexSpec LexGrammar LexTokens LayoutSpec Ast AstPos AstSubs Prog PrecSpec Format FormatFacts RoundSpec RoundText RoundLex RoundMoreSpec.
Import ListNotations.
Local Open Scope string_scope.
Local Open Scope list_scope.
Local Open Scope nat_scope.
#[local] Opaque text.

(** ** Formatting *)

Ltac pnames := repeat match goal with H : plain_name _ _ |- _ => destruct H as [H _] end; names.
Ltac wds := unfold flag, words in *; cbn [map sep_by app] in *.
(** Write the steps one after another, with the clauses that are known. *)
Ltac wr2 :=
  match goal with
  | H : Wr ?x _ |- Wr (?x ++ _) _ => apply Wr_app; [exact H|]
  | H : Wr ?x _ |- Wr ?x _ => exact H
  | |- _ => wr1
  end.
Ltac fm2 := split; [reflexivity|]; cbn [steps]; cbn [app when negb is_nil is_empty]; eapply Wr_eq; [repeat (wr2; cbn [app when negb is_nil is_empty])|wds; txteq].

Lemma expr_F e l : says Expr e l -> Fm e l.
Proof. intros H. exact (proj1 all_writes _ _ _ H). Qed.
Lemma query_F e l : says Query e l -> Fm e l.
Proof. intros H. exact (proj1 (proj1 all_writes _ _ _ H)). Qed.
Lemma list_F k es ls : (forall e l, writes k e l -> Fm e l) -> sayl k es ls -> Forall2 Fm es ls.
Proof. intros Hk H. apply (proj2 all_writes) in H. eapply Forall2_impl'; [|exact H]. exact Hk. Qed.

Lemma table_F e l : table e l -> Fm e l.
Proof. intros [e' t H|d t e' u Hd He]; pnames; [fm2|]. split; [reflexivity|]. cbn [steps]. rewrite (proj1 Hd). cbn [negb when app]. wr. Qed.
Lemma column_name_F e l : column_name e l -> Fm e l.
Proof. intros [e' t H|d t e' u Hd He]; pnames; [fm2|]. split; [reflexivity|]. cbn [steps]. rewrite (proj1 He). cbn [negb]. wr. Qed.
Lemma cluster_W e l : cluster e l -> Wr (when (negb (is_nil e)) [SW " "; SPtr e]) (text l).
Proof.
  intros [|p e' t H|p e' t H]; [apply Wr_nil| |]; pnames; cbn [is_nil negb when].
  all: assert (Hc : Fm (EClusterClause p e') (words ["ON"; "CLUSTER"] ++ [Sp; T t])) by fm2; wr.
Qed.
Lemma modifier_W m l : modifier m l -> Wr (when (negb (String.eqb m "")) [SW (" " ++ m)]) (text l).
Proof. intros []; [apply Wr_nil|..]; cbn -[append]; wds; wr. Qed.
Lemma partition1_W e l : partition_expr e l -> Wr (when (negb (is_nil e)) [SW " "; SPtr e]) (text l).
Proof.
  intros [|p e' l' H Hn]; [apply Wr_nil|]; cbn [is_nil negb when].
  apply expr_F in H. assert (Hc : Fm (EPartitionClause p e' ENil false) (T (K "PARTITION") :: Sp :: l')) by fm2. wr.
Qed.
Lemma partition_W e l : partition e l -> Wr (when (negb (is_nil e)) [SW " "; SPtr e]) (text l).
Proof.
  intros [e' l' H|p]; [now apply partition1_W|]; cbn [is_nil negb when].
  assert (Hc : Fm (EPartitionClause p ENil ENil true) (words ["PARTITION"; "ALL"])) by fm2. wr.
Qed.
Lemma columns_F e l : columns e l -> Fm e l.
Proof.
  intros [p q d es ls H Hn]. apply list_F in H; [|intros ? ? X; exact X]. apply Wr_sep_last in H. split; [reflexivity|]. cbn [steps].
  destruct d; cbn [when app]; eapply Wr_eq; [wr1; exact H|txteq|exact H|txteq].
Qed.
Lemma dedup_W e l : deduplicate e l -> Wr (when (negb (is_nil e)) [SPtr e]) (text l).
Proof.
  intros [|p|p b lb H|p b lb x lx H Hx]; [apply Wr_nil|..]; cbn [is_nil negb when].
  - assert (Hc : Fm (EDeduplicateClause p ENil ENil) [Sp; T (K "DEDUPLICATE")]) by fm2. wr.
  - apply columns_F in H. assert (Hc : Fm (EDeduplicateClause p b ENil) (Sp :: words ["DEDUPLICATE"; "BY"] ++ Sp :: lb)).
    { split; [reflexivity|]. cbn [steps]. rewrite (proj1 H). cbn [negb is_nil when app]. wds. wr. }
    wr.
  - apply columns_F in H, Hx. assert (Hc : Fm (EDeduplicateClause p b x) (Sp :: words ["DEDUPLICATE"; "BY"] ++ Sp :: lb ++ [Sp; T (K "EXCEPT"); Sp] ++ lx)).
    { split; [reflexivity|]. cbn [steps]. rewrite (proj1 H), (proj1 Hx). cbn [negb is_nil when app]. wds. wr. }
    wr.
Qed.
Lemma Wr_sep_ptr es ls : Forall2 Fm es ls -> Wr (each (fun first _ x => when (negb first) [SW ", "] ++ [SPtr x]) es) (text (sep_by comma ls)).
Proof.
  intros H. eapply Wr_eq; [apply (Wr_list _ "" ", " "" comma _ ls); [|reflexivity|exact H]|destruct ls; reflexivity].
  intros first last x l Hx. destruct first; cbn [app when negb]; wr; destruct last; txteq.
Qed.
Lemma Wr_rows es ls : Forall2 Fm es ls -> es <> [] -> Wr (each (fun _ last x => [SBreak; SPtr x] ++ when (negb last) [SW ","]) es) (" " ++ text (sep_by comma ls)).
Proof.
  intros H Hn. eapply Wr_eq; [apply (Wr_list _ " " " " "," comma _ ls); [|reflexivity|exact H]|destruct H; [congruence|reflexivity]].
  intros first last x l Hx. destruct last; cbn [app when negb]; wr; destruct first; txteq.
Qed.
Lemma values_F : (forall e l, value e l -> Fm e l) /\ (forall es ls, values es ls -> Forall2 Fm es ls).
Proof.
  apply value_mut; intros.
  - now apply expr_F.
  - apply Wr_sep_expr in H. fm2.
  - constructor.
  - constructor; assumption.
Qed.
Lemma row_F e l : row e l -> Fm e l.
Proof. intros [p q es ls H Hn]. apply values_F. now constructor. Qed.
Lemma Forall2_F (P : expr -> list sym -> Prop) es ls : (forall e l, P e l -> Fm e l) -> Forall2 P es ls -> Forall2 Fm es ls.
Proof. intros Hp. now apply Forall2_impl'. Qed.
Lemma columns_W e l : insert_columns e l -> Wr (when (negb (is_nil e)) [SBreak; SIndent; SPtr e; SDedent]) (text l).
Proof.
  intros [|p q es ls H Hn]; [apply Wr_nil|]. cbn [is_nil negb when]. apply (Forall2_F column_name _ _ column_name_F), Wr_sep_ptr in H.
  assert (Hc : Fm (EColumnNamesExpr p q es) (paren (sep_by comma ls))) by fm2. wr.
Qed.
Lemma source_W f vs q l : insert_source f vs q l ->
  Wr (when (negb (is_nil f)) [SW " "; SPtr f]
      ++ (if negb (is_nil q) then [SBreak; SPtr q] else if negb (is_empty vs) then [SBreak; SW "VALUES"; SIndent] ++ each (fun _ last x => [SBreak; SPtr x] ++ when (negb last) [SW ","]) vs ++ [SDedent] else [])) (text l).
Proof.
  intros [|p n t H|es ls H Hn|q' l' r H E].
  - apply Wr_nil.
  - pnames. cbn [is_nil negb when is_empty app]. assert (Hc : Fm (EFormatClause p n) [T (K "FORMAT"); Sp; T t]) by fm2. wr.
  - apply (Forall2_F row _ _ row_F) in H. cbn [is_nil negb when app]. assert (E : is_empty es = false) by (destruct es; [congruence|reflexivity]). rewrite E. cbn [negb app].
    eapply Wr_eq; [repeat wr1; apply Wr_app; [apply Wr_rows; eassumption|repeat wr1]|txteq].
  - apply query_F in H. cbn [is_nil negb when app]. rewrite (proj1 H). cbn [negb]. wr.
Qed.
Lemma pairs_W es ls : Forall2 pair es ls -> Wr (each (fun first _ x => when (negb first) [SW ", "] ++ [SPtr (TargetPair_Old x); SW " TO "; SPtr (TargetPair_New x)]) es) (text (sep_by comma ls)).
Proof.
  unfold each. enough (G : forall first : bool, Forall2 pair es ls -> Wr (each_from first (fun first _ x => when (negb first) [SW ", "] ++ [SPtr (TargetPair_Old x); SW " TO "; SPtr (TargetPair_New x)]) es) (match ls with [] => "" | _ => if first then "" else ", " end ++ text (sep_by comma ls))).
  { intros H. eapply Wr_eq; [apply (G true H)|]. destruct ls; reflexivity. }
  intros first H. revert first. induction H as [|e l es ls [a la b lb Ha Hb] H IH]; intros first; cbn [each_from]; [apply Wr_nil|].
  apply table_F in Ha, Hb. eapply Wr_eq; [apply Wr_app; [instantiate (1 := ((if first then "" else ", ") ++ text la ++ " TO " ++ text lb)%string); destruct first; cbn [when negb app TargetPair_Old TargetPair_New]; wr|apply (IH false)]|].
  destruct ls as [|m ls]; [cbn [sep_by]; destruct first; txteq|]. rewrite text_sep_cons. destruct first; txteq.
Qed.
Lemma like_W n w e l : show_like n w e l -> Wr (when (negb (String.eqb w "") && negb (is_nil e)) ((if n then [SW " NOT "] else [SW " "]) ++ [SW w; SW " "; SExpr e])) (text l).
Proof.
  intros [|n' w' e' l' Hw H]; [apply Wr_nil|]. apply expr_F in H. replace (String.eqb w' "") with false by (destruct Hw as [<-|[<-|[]]]; reflexivity). rewrite (proj1 H). cbn [negb andb when]. destruct n'; cbn [app]; wr.
Qed.
Lemma limit_W e l : show_limit e l -> Wr (when (negb (is_nil e)) [SW " LIMIT "; SExpr e]) (text l).
Proof. intros [|e' l' H]; [apply Wr_nil|]. apply expr_F in H. rewrite (proj1 H). cbn [negb when]. wr. Qed.
Lemma after_W ws s e l : s = (" " ++ text (words ws) ++ " ")%string -> after_words ws e l -> Wr (when (negb (is_nil e)) [SW s; SPtr e]) (text l).
Proof. intros -> [|e' t H]; [apply Wr_nil|]. apply string_Fm in H. rewrite (proj1 H). cbn [negb when]. wr. Qed.
Lemma system_F e l : system e l -> Fm e l.
Proof.
  intros [p q|p q ws c lc Hw H|p q c lc d ld H Hd|p q w Hw H|p q].
  - fm2.
  - apply cluster_W in H. destruct Hw as [<-|[<-|[]]]; cbn [String.concat append]; fm2.
  - apply cluster_W in H. apply table_F in Hd. split; [reflexivity|]. cbn [steps]. rewrite (proj1 Hd). cbn [negb app]. eapply Wr_eq; [repeat (wr2; cbn [app when])|wds; txteq].
  - fm2.
  - fm2.
Qed.

Lemma stmt_F e l : stmt e l -> Fm e l.
Proof.
  intros H. destruct H.
  - now apply query_F.
  - pnames. fm2.
  - apply list_F in H; [|intros ? ? X; exact X]. apply Wr_sep_ptr in H. split; [reflexivity|]. cbn [steps need is_nil SettingsClause_Items app]. eapply Wr_eq; [wr1; exact H|txteq].
  - pnames. apply cluster_W in H0. apply modifier_W in H1. destruct i; fm2.
  - apply table_F in H1. apply cluster_W in H2. apply modifier_W in H3. destruct tmp, i; fm2.
  - apply table_F in H. apply cluster_W in H0. destruct tmp, i; fm2.
  - apply pairs_W in H0. apply cluster_W in H2. fm2.
  - apply table_F in H. apply cluster_W in H0. apply expr_F in H1. split; [reflexivity|]. cbn [steps]. rewrite (proj1 H1). cbn [app when negb]. eapply Wr_eq; [repeat (wr2; cbn [app when])|wds; txteq].
  - apply table_F in H. destruct k; (split; [reflexivity|]; cbn [steps String.eqb when negb app]; wds; wr).
  - apply table_F in H. apply partition_W in H0. fm2.
  - apply table_F in H. apply cluster_W in H0. apply partition1_W in H1. apply dedup_W in H2. destruct f; fm2.
  - apply query_F in H1. fm2.
  - apply table_F in H. apply columns_W in H0. apply source_W in H1. destruct k; fm2.
  - apply table_F in H. split; [reflexivity|]. cbn [steps]. rewrite (proj1 H). cbn -[append]. wds. wr.
  - split; [reflexivity|]. cbn [steps String.eqb when negb is_nil app andb]. wds. wr.
  - apply like_W in H. apply limit_W in H0. apply (after_W _ " INTO OUTFILE ") in H1; [|reflexivity]. apply (after_W _ " FORMAT ") in H2; [|reflexivity]. fm2.
  - apply system_F in H. fm2.
Qed.

(** ** Lexing *)

Lemma goodo_nil : goodo [].
Proof. split; [now intros r|auto]. Qed.
Ltac gdo := unfold words; cbn [map sep_by app]; split; [intros r Hnx Hch; gd|intros; exact I].
Ltac gdw := unfold words; cbn [map sep_by app]; gdn.
Ltac ptoks := repeat match goal with H : plain_name _ _ |- _ => destruct H as [H _] end; toks_ok.
Lemma says_good e l : says Expr e l -> goodn l.
Proof. apply (proj1 all_neat). Qed.
Lemma query_good e l : says Query e l -> goodn l.
Proof. apply (proj1 all_neat). Qed.
Lemma sayl_good k es ls : (forall l, neat k l -> goodn l) -> sayl k es ls -> Forall goodn ls.
Proof. intros Hk H. apply (proj2 all_neat) in H. eapply Forall_impl; [|exact H]. exact Hk. Qed.
Lemma Forall2_good (P : expr -> list sym -> Prop) es ls : (forall e l, P e l -> goodn l) -> Forall2 P es ls -> Forall goodn ls.
Proof. intros Hp. induction 1; constructor; eauto. Qed.
Lemma Forall2_ne {A B} (P : A -> B -> Prop) es ls : Forall2 P es ls -> es <> [] -> ls <> [].
Proof. intros [] Hn; [congruence|discriminate]. Qed.

Lemma table_good e l : table e l -> goodn l.
Proof. intros [e' t H|d t e' u Hd He]; ptoks; gdn. Qed.
Lemma column_name_good e l : column_name e l -> goodn l.
Proof. intros [e' t H|d t e' u Hd He]; ptoks; gdn. Qed.
Lemma cluster_good e l : cluster e l -> goodo l.
Proof. intros [|p e' t H|p e' t H]; [apply goodo_nil|..]; ptoks; gdo. Qed.
Lemma modifier_good m l : modifier m l -> goodo l.
Proof. intros []; [apply goodo_nil|..]; gdo. Qed.
Lemma flag_good b ws : Forall (fun w => str_in w all_keywords = true) ws -> ws <> [] -> goodo (flag b ws).
Proof.
  intros H Hn. destruct b; [|apply goodo_nil]. cbn [flag]. enough (G : good (words ws)).
  { split; [|intros; exact I]. intros r Hnx Hch. cbn [app]. apply chk_Sp; [|now apply G]. unfold words. destruct ws as [|w [|w' ws]]; [congruence|discriminate|discriminate]. }
  clear Hn. induction H as [|w ws Hw H IH]; [now intros r|]. intros r Hnx Hch. apply K_ok in Hw. destruct ws as [|w' ws]; [unfold words; cbn [map sep_by]; gd|].
  change (words (w :: w' :: ws)) with ([T (K w)] ++ [Sp] ++ words (w' :: ws)). rewrite <- !app_assoc. cbn [app]. apply chk_T; [vl|exact I|]. apply chk_Sp; [|now apply IH]. unfold words. destruct ws; discriminate.
Qed.
Lemma partition1_good e l : partition_expr e l -> goodo l.
Proof. intros [|p e' l' H Hn]; [apply goodo_nil|]. apply says_good in H. gdo. Qed.
Lemma partition_good e l : partition e l -> goodo l.
Proof. intros [e' l' H|p]; [now apply partition1_good in H|gdo]. Qed.
Lemma columns_good e l : columns e l -> goodn l.
Proof. intros [p q d es ls H Hn]. assert (Hl : ls <> []) by (eapply sayl_ne; eassumption). apply sayl_good in H; [|auto]. pose proof (sep_ne _ H Hl) as Hs. destruct d; gdn. Qed.
Lemma dedup_good e l : deduplicate e l -> goodo l.
Proof.
  intros [|p|p b lb H|p b lb x lx H Hx]; [apply goodo_nil|gdo|..].
  - apply columns_good in H. gdo.
  - apply columns_good in H, Hx. gdo.
Qed.
Lemma values_good : (forall e l, value e l -> goodn l) /\ (forall es ls, values es ls -> Forall goodn ls).
Proof.
  apply value_mut; intros.
  - eapply says_good; eassumption.
  - unfold paren. gdn.
  - constructor.
  - constructor; assumption.
Qed.
Lemma row_good e l : row e l -> goodn l.
Proof. intros [p q es ls H Hn]. apply (proj1 values_good (EAssignmentValues p q es)). now constructor. Qed.
Lemma ins_columns_good e l : insert_columns e l -> goodo l.
Proof. intros [|p q es ls H Hn]; [apply goodo_nil|]. apply (Forall2_good _ _ _ column_name_good) in H. unfold paren. gdo. Qed.
Lemma source_good f vs q l : insert_source f vs q l -> goodo l.
Proof.
  intros [|p n t H|es ls H Hn|q' l' r0 H E]; [apply goodo_nil|..].
  - ptoks. gdo.
  - pose proof (Forall2_ne _ _ _ H Hn) as Hl. apply (Forall2_good _ _ _ row_good) in H. pose proof (sep_ne _ H Hl). gdo.
  - apply query_good in H. gdo.
Qed.
Lemma pair_good e l : pair e l -> goodn l.
Proof. intros [a la b lb Ha Hb]. apply table_good in Ha, Hb. gdn. Qed.
Lemma like_good n w e l : show_like n w e l -> goodo l.
Proof.
  intros [|n' w' e' l' Hw H]; [apply goodo_nil|]. apply says_good in H. assert (Hv : tok_ok (K w')) by (destruct Hw as [<-|[<-|[]]]; now apply K_ok).
  destruct n'; gdo.
Qed.
Lemma limit_good e l : show_limit e l -> goodo l.
Proof. intros [|e' l' H]; [apply goodo_nil|]. apply says_good in H. gdo. Qed.
Lemma outfile_good e l : after_words ["INTO"; "OUTFILE"] e l -> goodo l.
Proof. intros [|e' t H]; [apply goodo_nil|]. ptoks. gdo. Qed.
Lemma format_good e l : after_words ["FORMAT"] e l -> goodo l.
Proof. intros [|e' t H]; [apply goodo_nil|]. ptoks. gdo. Qed.
(** A keyword in any case. *)
Lemma any_K_ok w ws : word w -> In (upper w) ws -> forallb is_keyword ws = true -> tok_ok (K w).
Proof.
  intros Hw Hi Hk. split; [|reflexivity]. rewrite forallb_forall in Hk. apply Hk in Hi. replace (K w) with (word_tok w) by (unfold word_tok; now rewrite Hi). now apply V_word.
Qed.
Lemma system_good e l : system e l -> goodn l.
Proof.
  intros [p q|p q ws c lc Hw H|p q c lc d ld H Hd|p q w Hw H|p q].
  - gdw.
  - apply cluster_good in H. destruct Hw as [<-|[<-|[]]]; gdw.
  - apply cluster_good in H. apply table_good in Hd. gdw.
  - assert (Hv : tok_ok (K w)) by (eapply any_K_ok; [eassumption..|vm_compute; reflexivity]). gdw.
  - gdw.
Qed.

Lemma stmt_good e l : stmt e l -> goodn l.
Proof.
  intros H. destruct H; try (assert (Hflag : forall b ws, Forall (fun w => str_in w all_keywords = true) ws -> ws <> [] -> goodo (flag b ws)) by exact flag_good).
  - now apply query_good in H.
  - ptoks. gdw.
  - assert (Hl : ls <> []) by (eapply sayl_ne; eassumption). apply sayl_good in H; [|auto]. pose proof (sep_ne _ H Hl) as Hs. gdw.
  - ptoks. apply cluster_good in H0. apply modifier_good in H1. destruct i; unfold flag; gdw.
  - assert (Hv : tok_ok (K k)) by (repeat (destruct H as [<-|H]; [now apply K_ok|]); destruct H). apply table_good in H1. apply cluster_good in H2. apply modifier_good in H3. destruct tmp, i; unfold flag; gdw.
  - apply table_good in H. apply cluster_good in H0. destruct tmp, i; unfold flag; gdw.
  - assert (Hv : tok_ok (K k)) by (repeat (destruct H as [<-|H]; [now apply K_ok|]); destruct H). pose proof (Forall2_ne _ _ _ H0 H1) as Hl. apply (Forall2_good _ _ _ pair_good) in H0. apply cluster_good in H2.
    pose proof (sep_ne _ H0 Hl). gdw.
  - apply table_good in H. apply cluster_good in H0. apply says_good in H1. gdw.
  - apply table_good in H. destruct k; unfold flag; gdw.
  - apply table_good in H. apply partition_good in H0. gdw.
  - apply table_good in H. apply cluster_good in H0. apply partition1_good in H1. apply dedup_good in H2. destruct f; unfold flag; gdw.
  - assert (Hv : tok_ok (K w)) by (eapply any_K_ok; [eassumption..|vm_compute; reflexivity]). apply query_good in H1. gdw.
  - apply table_good in H. apply ins_columns_good in H0. apply source_good in H1. destruct k; unfold flag; gdw.
  - apply table_good in H. gdw.
  - gdw.
  - apply like_good in H. apply limit_good in H0. apply outfile_good in H1. apply format_good in H2. gdw.
  - apply system_good in H. gdw.
Qed.

Lemma stmt_source t l : stmt t l -> fine None l -> source None (toks l) true (text l).
Proof. intros H Hf. apply chk_source; [|exact Hf]. rewrite <- (app_nil_r l). now apply (stmt_good _ _ H). Qed.
Lemma stmt_text t l : stmt t l -> Format t = FOk (text l).
Proof. intros H. destruct (stmt_F _ _ H) as [Hn (evs & Hw & E)]. unfold Format. rewrite Hn, fmt_eq, Hw. cbn [fbind]. now rewrite render_compact, E. Qed.
