(** Formatting CREATE, ALTER TABLE, GRANT, and DROP USER or ROLE in canonical form writes the text of their symbols, and that text is a source for their tokens. *)
From Coq Require Import String Ascii List Arith Bool Lia.
From Verif Require Import Str StrFacts Keyword Lexer LexSpec LexGrammar LexTokens LayoutSpec Ast AstPos AstSubs Prog PrecSpec Format FormatFacts RoundSpec RoundText RoundLex RoundMoreSpec RoundMoreText RoundDdlSpec.
Import ListNotations.
Local Open Scope string_scope.
Local Open Scope list_scope.
Local Open Scope nat_scope.
#[local] Opaque text.

Ltac tnames := repeat match goal with H : type_name _ _ |- _ => destruct H as [H _] end; pnames.
Ltac ttoks := repeat match goal with H : type_name _ _ |- _ => destruct H as [H _] end; ptoks.
(** Knowing which nodes are there. *)
Ltac known := repeat match goal with H : Fm ?e _ |- context [is_nil ?e] => rewrite (proj1 H) end; cbn [negb when app andb].
Ltac fm3 := split; [reflexivity|]; cbn [steps]; known; cbn [app when negb is_nil is_empty]; eapply Wr_eq; [repeat (wr2; cbn [app when negb is_nil is_empty])|wds; txteq].

Ltac txteq ::= unfold paren, bracket, comma in *; do 3 (txt; repeat rewrite text_T); txt; repeat rewrite spell_O by discriminate; txt; try reflexivity.

(** ** Formatting *)

Lemma Wr_newline l t : Wr l t -> Wr (SNewLine :: l) t.
Proof. now apply (Wr_cons SNewLine l "" t [NL]). Qed.
Lemma Wr_rows_expr es ls : Forall2 Fm es ls -> es <> [] -> Wr (each (fun _ last x => [SBreak; SExpr x] ++ when (negb last) [SW ","]) es) (" " ++ text (sep_by comma ls)).
Proof.
  intros H Hn. eapply Wr_eq; [apply (Wr_list _ " " " " "," comma _ ls); [|reflexivity|exact H]|destruct H; [congruence|reflexivity]].
  intros first last x l Hx. destruct last; cbn [app when negb]; wr; destruct first; txteq.
Qed.
Lemma Wr_lines es ls : Forall2 Fm es ls -> Wr (each (fun first _ x => (if first then [SNewLine] else [SW ","; SBreak]) ++ [SExpr x]) es) (text (sep_by comma ls)).
Proof.
  intros H. eapply Wr_eq; [apply (Wr_list _ "" ", " "" comma _ ls); [|reflexivity|exact H]|destruct ls; reflexivity].
  intros first last x l Hx. destruct first; cbn [app]; [apply Wr_newline|]; wr; destruct last; txteq.
Qed.

Lemma literal_F e l : literal e l -> Fm e l.
Proof. intros [e' t H|e' t H]; names; exact H. Qed.
Lemma literals_F es ls : Forall2 literal es ls -> Forall2 Fm es ls.
Proof. apply Forall2_F, literal_F. Qed.
Lemma enum_value_F e l : enum_value e l -> Fm e l.
Proof. intros [e' t n u H1 H2]. names. fm2. Qed.
Lemma field_F p q n t e l : plain_name n t -> Fm e l -> Fm (EColumnDef p q (ENestedIdentifier n ENil) e ENil ENil ENil ENil ENil ENil ENil ENil ENil) (T t :: Sp :: l).
Proof. intros H He. assert (Hn := column_name_F _ _ (Column_name0 _ _ H)). fm3. Qed.
Lemma ctype_F : (forall e l, ctype e l -> Fm e l) /\ (forall es ls, ctypes es ls -> Forall2 Fm es ls) /\ (forall es ls, fields es ls -> Forall2 Fm es ls).
Proof.
  apply ctype_mut; intros.
  - tnames. fm2.
  - tnames. apply literals_F, Wr_sep_expr in f. fm2.
  - tnames. apply (Forall2_F _ _ _ enum_value_F), Wr_sep_ptr in f. fm2.
  - tnames. apply Wr_sep_expr in H. fm2.
  - tnames. apply Wr_sep_last in H. fm2.
  - tnames. apply Wr_sep_last in H. fm2.
  - constructor.
  - constructor; assumption.
  - constructor.
  - constructor; [now apply field_F|assumption].
Qed.

Lemma null_W a b l : null_mark a b l -> Wr (if negb (is_nil a) then [SW " NOT NULL"] else if negb (is_nil b) then [SW " NULL"] else []) (text l).
Proof. intros []; cbn [is_nil negb]; [apply Wr_nil|wr|wds; wr]. Qed.
Lemma default_W d m a l : default d m a l ->
  Wr (when (negb (is_nil d)) [SW " DEFAULT "; SExpr d] ++ when (negb (is_nil m)) [SW " MATERIALIZED "; SExpr m] ++ when (negb (is_nil a)) [SW " ALIAS "; SExpr a]) (text l).
Proof. intros [|e le H|e le H|e le H]; [apply Wr_nil|..]; apply expr_F in H; known; cbn [is_nil negb when app]; wr. Qed.
Lemma level_W v l : level v l -> Wr (when (negb (is_nil v)) [SW "("; SPtr v; SW ")"]) (text l).
Proof. intros [|e t H]; [apply Wr_nil|]. names. known. wr. Qed.
Lemma codec_W e l : codec e l -> Wr (when (negb (is_nil e)) [SW " "; SPtr e]) (text l).
Proof.
  intros [|p q e' t v lv He Hv _|p q e' t v lv e2 t2 v2 lv2 He _ Hv He2 Hv2 _]; [apply Wr_nil|..]; pnames; cbn [is_nil negb when].
  - apply level_W in Hv. assert (Hc : Fm (ECompressionCodec p q ENil ENil e' v) (T (K "CODEC") :: paren (T t :: lv))) by fm3. wr.
  - apply level_W in Hv, Hv2. assert (Hc : Fm (ECompressionCodec p q e' v e2 v2) (T (K "CODEC") :: paren ((T t :: lv) ++ comma ++ T t2 :: lv2))).
    { split; [reflexivity|]. cbn [steps]. known. repeat rewrite <- app_assoc. eapply Wr_eq; [repeat (wr2; cbn [app when negb is_nil is_empty])|wds; txteq]. }
    wr.
Qed.
Lemma rule_F e l : ttl_rule e l -> Fm e l.
Proof.
  intros [p e' t H|p e' t H|p p' q']; names; [fm3|fm3|].
  assert (Hc : Fm (ETTLPolicyRuleAction p' q' "DELETE" ENil) [T (K "DELETE")]) by fm2. fm2.
Qed.
Lemma opt_where_W e l : says (Opt Where) e l -> Wr (when (negb (is_nil e)) [SW " "; SPtr e]) (text l).
Proof. intros H. apply (proj1 all_writes) in H. cbn [writes] in H. destruct H as [[-> ->]|(l' & -> & H)]; [apply Wr_nil|]. known. wr. Qed.
Lemma ttl_item_F e l : ttl_item e l -> Fm e l.
Proof.
  intros [p e' l' H|p e' l' r lr w lw H Hr Hw]; apply expr_F in H; [fm2|]. apply rule_F in Hr. apply opt_where_W in Hw.
  assert (Hc : Fm (ETTLPolicy r w ENil) (lr ++ lw)) by fm3. fm3.
Qed.
Lemma ttl_F e l : ttl e l -> Fm e l.
Proof. intros [p q es ls H Hn]. apply (Forall2_F _ _ _ ttl_item_F), Wr_sep_ptr in H. fm2. Qed.
Lemma column_ttl_W e l : column_ttl e l -> Wr (when (negb (is_nil e)) [SW " "; SPtr e]) (text l).
Proof.
  intros [|p q e' l' H]; [apply Wr_nil|]. cbn [is_nil negb when]. assert (Hc : Fm (ETTLClause p q [e']) (T (K "TTL") :: Sp :: l')).
  { eapply (ttl_F _ (T (K "TTL") :: Sp :: sep_by comma [l'])). constructor; [|discriminate]. constructor; [exact H|constructor]. }
  wr.
Qed.
Lemma coldef_F e l : coldef e l -> Fm e l.
Proof.
  intros [p q n ln ty lt nn nl lnl d m a ld c lc t lttl k lk Hn Ht Hnl Hd Hc Htt Hk _].
  apply column_name_F in Hn. apply (proj1 ctype_F) in Ht. apply null_W in Hnl. apply default_W in Hd. apply codec_W in Hc. apply column_ttl_W in Htt. apply (after_W _ " COMMENT ") in Hk; [|reflexivity].
  split; [reflexivity|]. cbn [steps]. known. repeat rewrite <- app_assoc in *. cbn [app].
  assert (Ha : forall x y z w : list step, x ++ y ++ z ++ w = (x ++ y ++ z) ++ w) by (intros; now rewrite <- !app_assoc).
  assert (Hrest : Wr (when (negb (is_nil d)) [SW " DEFAULT "; SExpr d] ++ when (negb (is_nil m)) [SW " MATERIALIZED "; SExpr m] ++ when (negb (is_nil a)) [SW " ALIAS "; SExpr a]
    ++ when (negb (is_nil c)) [SW " "; SPtr c] ++ when (negb (is_nil t)) [SW " "; SPtr t] ++ when (negb (is_nil k)) [SW " COMMENT "; SPtr k]) (text ld ++ text lc ++ text lttl ++ text lk)) by (rewrite Ha; repeat wr2).
  eapply Wr_eq; [wr1; wr1; wr1; apply Wr_app; [exact Hnl|exact Hrest]|txteq].
Qed.

Lemma part_F p e l : says Expr e l -> Fm (EPartitionClause p e ENil false) (T (K "PARTITION") :: Sp :: l).
Proof. intros H. apply expr_F in H. fm2. Qed.
Lemma in_partition_W e l : in_partition e l -> Wr (when (negb (is_nil e)) [SBreak; SW "IN "; SPtr e]) (text l).
Proof. intros [|p e' l' H Hn]; [apply Wr_nil|]. cbn [is_nil negb when]. apply (part_F p) in H. wds. wr. Qed.
Lemma from_table_W e l : from_table e l -> Wr (when (negb (is_nil e)) [SW " FROM "; SPtr e]) (text l).
Proof. intros [|e' l' H]; [apply Wr_nil|]. apply table_F in H. known. wr. Qed.
Lemma after_column_W e l : after_column e l -> Wr (when (negb (is_nil e)) [SW " AFTER "; SPtr e]) (text l).
Proof. intros [|e' l' H]; [apply Wr_nil|]. apply column_name_F in H. known. wr. Qed.
Lemma settings_W e l : says (Opt Settings) e l -> Wr (when (negb (is_nil e)) [SBreak; SPtr e]) (text l).
Proof. intros H. apply (proj1 all_writes) in H. cbn [writes] in H. destruct H as [[-> ->]|(l' & -> & H)]; [apply Wr_nil|]. known. wr. Qed.
Lemma assignment_F e l : assignment e l -> Fm e l.
Proof. intros [p c lc e' l' Hc He _]. apply column_name_F in Hc. apply expr_F in He. fm2. Qed.
Lemma plains_F es ts : Forall2 plain_name es ts -> Forall2 Fm es (map (fun t => [T t]) ts).
Proof. induction 1 as [|e t es ts H _ IH]; [constructor|]. cbn [map]. constructor; [|exact IH]. pnames. exact H. Qed.

Lemma alter_F b e l : alter b e l -> Fm e l.
Proof.
  intros H. destruct H.
  - apply column_name_F in H. destruct i; fm2.
  - apply column_name_F in H. destruct i; fm2.
  - apply column_name_F in H. destruct i; fm2.
  - apply (part_F p') in H. apply settings_W in H0. destruct d; fm2.
  - apply (part_F p') in H. apply settings_W in H0. fm2.
  - apply (part_F p') in H. apply from_table_W in H1. fm2.
  - apply (part_F p') in H. fm2.
  - fm2.
  - apply column_name_F in H. apply in_partition_W in H0. destruct i; fm2.
  - apply column_name_F in H. apply in_partition_W in H0. destruct i; fm2.
  - apply column_name_F in H. apply in_partition_W in H0. destruct i; fm2.
  - apply column_name_F in H. apply in_partition_W in H0. destruct i; fm2.
  - apply column_name_F in H. apply in_partition_W in H0. destruct i; fm2.
  - apply column_name_F in H, H0. destruct i; fm2.
  - apply expr_F in H. fm2.
  - apply query_F in H. fm2.
  - apply list_F in H; [|intros ? ? X; exact X]. apply Wr_break_ptr in H; [|assumption]. fm2.
  - apply ttl_F in H. fm2.
  - apply plains_F, Wr_break_ptr in H; [|assumption]. fm2.
  - apply (part_F p') in H. apply table_F in H1. fm2.
  - apply expr_F in H. fm2.
  - apply (Forall2_F _ _ _ assignment_F), Wr_break_ptr in H; [|assumption]. apply expr_F in H1. fm2.
  - apply coldef_F in H. apply after_column_W in H0. apply settings_W in H1. destruct i; fm2.
  - apply coldef_F in H. destruct i; fm2.
Qed.
Lemma alters_F es ls : alters es ls -> Forall2 Fm es ls /\ es <> [].
Proof. induction 1 as [b e l H|e l es ls H _ [IH _]]; (split; [|discriminate]); constructor; auto; eapply alter_F, H. Qed.

(** Something that may be missing, after a blank. *)
Definition OF (e : expr) (l : list sym) : Prop := (e = ENil /\ l = []) \/ exists l', l = Sp :: l' /\ Fm e l'.
Lemma OF_break e l : OF e l -> Wr (when (negb (is_nil e)) [SBreak; SPtr e]) (text l).
Proof. intros [[-> ->]|(l' & -> & H)]; [apply Wr_nil|]. known. wr. Qed.
Lemma OF_blank e l : OF e l -> Wr (when (negb (is_nil e)) [SW " "; SPtr e]) (text l).
Proof. intros [[-> ->]|(l' & -> & H)]; [apply Wr_nil|]. known. wr. Qed.
Ltac ofs := right; eexists; split; [reflexivity|].
Lemma cluster_break e l : cluster e l -> Wr (when (negb (is_nil e)) [SBreak; SPtr e]) (text l).
Proof.
  intros [|p e' t H|p e' t H]; [apply Wr_nil| |]; pnames; cbn [is_nil negb when].
  all: assert (Hc : Fm (EClusterClause p e') (words ["ON"; "CLUSTER"] ++ [Sp; T t])) by fm2; wr.
Qed.
Lemma uuid_O e l : uuid e l -> OF e l.
Proof. intros [|e' t H]; [now left|]. names. ofs. fm2. Qed.
Lemma params_W e l : params e l -> Wr (when (negb (is_nil e)) [SPtr e]) (text l).
Proof. intros [|e' l' H]; [apply Wr_nil|]. apply (proj1 all_writes) in H. cbn [writes] in H. known. wr. Qed.
Lemma order_by_O e l : order_by e l -> OF e l.
Proof.
  intros [|p q e' l' H]; [now left|]. apply (proj1 all_writes) in H. cbn [writes] in H. ofs.
  assert (Hs : Forall2 Fm [e'] [l']) by (constructor; [exact H|constructor]). apply Wr_break_expr in Hs; [|discriminate]. cbn [sep_by] in Hs. fm2.
Qed.
Lemma partition_by_O e l : partition_by e l -> OF e l.
Proof. intros [|p e' l' H]; [now left|]. apply columns_F in H. ofs. fm2. Qed.
Lemma primary_key_O e l : primary_key e l -> OF e l.
Proof. intros [|p e' l' H]; [now left|]. apply expr_F in H. ofs. fm2. Qed.
Lemma sample_by_O e l : sample_by e l -> OF e l.
Proof. intros [|p e' l' H]; [now left|]. apply expr_F in H. ofs. fm2. Qed.
Lemma table_ttl_O e l : table_ttl e l -> OF e l.
Proof. intros [|e' l' H]; [now left|]. apply ttl_F in H. ofs. exact H. Qed.
Lemma engine_O b e l : engine b e l -> OF e l.
Proof.
  intros [|p q n t ps lps pk lpk pb lpb sb lsb tt ltt se lse ob lob p1 q1 Hn Hps Hob Hpb Hpk Hsb Htt Hse]; [now left|]. ofs.
  assert (Hs : text [T t] = n). { destruct Hn as [Hn _]. inversion Hn; subst. rewrite text_T, text_nil, sapp_nil. unfold spell, word_tok. cbn [t_kind t_quote t_str]. now destruct (is_keyword (upper n)). }
  apply params_W in Hps. apply order_by_O, OF_break in Hob. apply partition_by_O, OF_break in Hpb. apply primary_key_O, OF_break in Hpk. apply sample_by_O, OF_break in Hsb. apply table_ttl_O, OF_break in Htt. apply settings_W in Hse.
  split; [reflexivity|]. cbn [steps app]. eapply Wr_eq; [repeat (wr2; cbn [app])|]. rewrite text_T, text_nil, sapp_nil in Hs. subst n. txteq.
Qed.
Lemma schema_O e l : schema e l -> OF e l.
Proof.
  intros [|p q es ls H Hn]; [now left|]. ofs. apply (Forall2_F _ _ _ coldef_F), Wr_lines in H. split; [reflexivity|]. cbn [steps]. replace (is_empty es) with false by (destruct es; [congruence|reflexivity]). cbn [negb is_nil when app]. rewrite app_nil_r.
  eapply Wr_eq; [do 2 wr1; apply Wr_app; [exact H|wr1; apply Wr_newline; repeat wr1]|txteq].
Qed.
Lemma subquery_F b e l : as_query b e l -> (e = ENil /\ l = []) \/ exists l', l = Sp :: T (K "AS") :: Sp :: l' /\ Fm e l'.
Proof. intros [|q l' H|q l' H]; [now left|..]; apply query_F in H; ofs; fm2. Qed.
Lemma collection_F e l : collection_param e l -> Fm e l.
Proof.
  intros [p n t v l' o no lo Hn Hv Ho]. assert (H : Fm v l') by (destruct Hv as [? ? H|? ? H]; [now apply literal_F|pnames; exact H]). pnames.
  destruct Ho; fm2.
Qed.
Lemma Wr_split a b c s : Wr (a ++ b ++ c) s -> Wr ((a ++ b) ++ c) s.
Proof. now rewrite <- app_assoc. Qed.

Lemma target_W d s g (pop : bool) l : view_target d s g pop l ->
  Wr (when (negb (is_nil s)) [SBreak; SPtr s] ++ when (negb (is_nil g)) [SBreak; SPtr g]
      ++ when (negb (is_nil d)) ([SBreak; SPtr d] ++ when (negb (is_nil (DestinationClause_TableSchema d))) [SBreak; SPtr (DestinationClause_TableSchema d)])
      ++ when pop [SBreak; SW "POPULATE"]) (text l).
Proof.
  intros [p t lt H|s' ls b e l' pop' Hs He Hn _].
  - apply table_F in H. assert (Hc : Fm (EDestinationClause p t ENil) (T (K "TO") :: Sp :: lt)) by fm2. cbn [is_nil negb when app DestinationClause_TableSchema]. wr.
  - apply schema_O, OF_break in Hs. apply engine_O, OF_break in He. cbn [is_nil negb when app]. destruct pop'; cbn [when]; (eapply Wr_eq; [repeat (wr2; cbn [app when])|wds; txteq]).
Qed.

Lemma privilege_F e l : privilege_clause e l -> Fm e l.
Proof.
  intros [p q ws H|p q w e' l' Hw H].
  - unfold privilege_words in H. cbn [app map flat_map] in H. repeat (destruct H as [<-|H]; [split; [reflexivity|]; cbn [steps]; unfold each; cbn [each_from is_empty is_nil when negb app]; eapply Wr_eq; [repeat (wr2; cbn [app])|wds; txteq]|]). destruct H.
  - apply params_W in H. destruct Hw as [<-|[<-|[]]]; (split; [reflexivity|]; cbn [steps]; unfold each; cbn [each_from is_empty when negb app]; eapply Wr_eq; [repeat (wr2; cbn [app])|wds; txteq]).
Qed.
Lemma star_name_F e t : star_name e t -> Fm e [T t].
Proof. intros [e' t' H|p q]; [pnames; exact H|]. apply star_Fm. constructor. Qed.
Lemma grant_on_F e l : grant_on e l -> Fm e l.
Proof. intros [e' t H|d t e' u Hd H]; [apply star_name_F in H|apply star_name_F in Hd, H]; fm3. Qed.
Lemma role_F e l : role_name e l -> Fm e l.
Proof. intros [e' t c lc H Hc|e' t c lc H Hc]; pnames; apply cluster_W in Hc; fm2. Qed.
Lemma options_W ws : Forall (fun w => In w ["GRANT"; "ADMIN"]) ws -> Wr (each (fun _ _ x => [SW (" WITH " ++ x ++ " OPTION")]) ws) (text (flat_map (fun w => Sp :: words ["WITH"; w; "OPTION"]) ws)).
Proof.
  intros H. unfold each. enough (Hx : forall b, Wr (each_from b (fun _ _ x => [SW (" WITH " ++ x ++ " OPTION")]) ws) (text (flat_map (fun w => Sp :: words ["WITH"; w; "OPTION"]) ws))) by apply Hx.
  induction H as [|w ws Hw _ IH]; intros b; [apply Wr_nil|]. cbn [each_from flat_map]. rewrite text_app. apply Wr_app; [|apply IH]. destruct Hw as [<-|[<-|[]]]; (eapply Wr_eq; [repeat wr2|wds; txteq]).
Qed.
Lemma access_F e l : access e l -> Fm e l.
Proof.
  intros [p q es ls o lo rs ts ws Hp _ Ho Hr _ Hw|p q k es ls i m lm f lf Hk Hr _ Hm Hf _].
  - apply (Forall2_F _ _ _ privilege_F), Wr_sep_ptr in Hp. apply grant_on_F in Ho. apply plains_F, Wr_sep_ptr in Hr. apply options_W in Hw. fm2.
  - apply (Forall2_F _ _ _ role_F), Wr_sep_ptr in Hr. apply modifier_W in Hm.
    assert (Hf' : Wr (when (negb (is_nil f)) [SW " FROM "; SPtr f]) (text lf)) by (destruct Hf as [|e0 t Hf]; [apply Wr_nil|]; pnames; known; wr).
    destruct Hk as [<-|[<-|[]]], i; fm2.
Qed.

Lemma ddl_F e l : ddl e l -> Fm e l.
Proof.
  intros H. destruct H.
  - now apply stmt_F.
  - apply table_F in H. apply cluster_break in H0. apply alters_F in H1 as [H1 Hn]. apply Wr_rows_expr in H1; [|exact Hn]. fm2.
  - pnames. apply cluster_W in H0. apply engine_O, OF_break in H1. apply (after_W _ " COMMENT ") in H2; [|reflexivity]. destruct i; fm2.
  - apply table_F in H. apply uuid_O, OF_blank in H0. apply cluster_W in H1. apply schema_O, OF_break in H2. apply engine_O, OF_break in H3.
    assert (Hq : Wr (when (negb (is_nil sq)) [SBreak; SW "AS "; SPtr sq]) (text lsq)) by (apply subquery_F in H4 as [[-> ->]|(l' & -> & H4)]; [apply Wr_nil|known; wr]).
    assert (Hc : Wr (when (negb (is_nil k)) [SBreak; SW "COMMENT "; SPtr k]) (text lk)) by (destruct H5 as [|e t0 H5]; [apply Wr_nil|names; known; wds; wr]).
    destruct r, tmp, i; fm2.
  - apply table_F in H. apply uuid_O, OF_blank in H0. apply cluster_W in H1. apply schema_O, OF_blank in H2. apply (after_W _ " COMMENT ") in H3; [|reflexivity].
    assert (Hq : Wr (when (negb (is_nil sq)) [SW " AS "; SPtr sq]) (text lsq)) by (apply subquery_F in H4 as [[-> ->]|(l' & -> & H4)]; [apply Wr_nil|known; wr]).
    destruct r, i; fm2.
  - apply table_F in H. apply cluster_break in H0. apply target_W in H1.
    assert (Hq : Wr (when (negb (is_nil sq)) [SBreak; SW "AS"; SIndent; SBreak; SPtr sq; SDedent]) (text lsq)) by (apply subquery_F in H2 as [[-> ->]|(l' & -> & H2)]; [apply Wr_nil|known; wr]).
    assert (Hc : Wr (when (negb (is_nil k)) [SBreak; SW "COMMENT "; SPtr k]) (text lk)) by (destruct H3 as [|e t0 H3]; [apply Wr_nil|names; known; wds; wr]).
    split; [reflexivity|]. cbn [steps]. cbn [is_nil negb when app is_empty String.eqb].
    assert (Ha : forall x y z w v : list step, x ++ y ++ z ++ w ++ v = (x ++ y ++ z ++ w) ++ v) by (intros; now rewrite <- !app_assoc). rewrite (Ha (when (negb (is_nil s)) _)). cbn [app] in H1.
    destruct i; cbn [when app]; (eapply Wr_eq; [repeat (wr2; cbn [app])|wds; txteq]).
  - pnames. apply cluster_W in H0. apply (proj1 all_writes) in H1. cbn [writes] in H1. apply expr_F in H2. destruct r, i; fm2.
  - pnames. apply cluster_W in H0. apply (Forall2_F _ _ _ collection_F), Wr_sep_ptr in H1. destruct i; fm2.
  - now apply access_F.
Qed.

(** ** Lexing *)

Ltac known_flag b := destruct b; unfold flag.
Lemma literal_good e l : literal e l -> goodn l.
Proof. intros [e' t H|e' t H]; ttoks; gdn. Qed.
Lemma enum_value_good e l : enum_value e l -> goodn l.
Proof. intros [e' t n u H1 H2]. ttoks. gdn. apply chk_T; [vl|now apply glued_eq|gd]. Qed.
Lemma ctype_good : (forall e l, ctype e l -> goodn l) /\ (forall es ls, ctypes es ls -> Forall goodn ls) /\ (forall es ls, fields es ls -> Forall goodn ls).
Proof.
  apply ctype_mut; intros; unfold paren.
  - ttoks. gdn.
  - ttoks. apply (Forall2_good _ _ _ literal_good) in f. gdn.
  - ttoks. apply (Forall2_good _ _ _ enum_value_good) in f. gdn.
  - ttoks. gdn.
  - ttoks. gdn.
  - ttoks. gdn.
  - constructor.
  - constructor; assumption.
  - constructor.
  - constructor; [|assumption]. ttoks. gdn.
Qed.
Lemma null_good a b l : null_mark a b l -> goodo l.
Proof. intros []; [apply goodo_nil|gdo|gdo]. Qed.
Lemma default_good d m a l : default d m a l -> goodo l.
Proof. intros [|e le H|e le H|e le H]; [apply goodo_nil|..]; apply says_good in H; gdo. Qed.
Lemma level_good v l : level v l -> goodo l.
Proof. intros [|e t H]; [apply goodo_nil|]. ttoks. unfold paren. split; [intros r Hnx Hch; gd|reflexivity]. Qed.
Lemma codec_good e l : codec e l -> goodo l.
Proof.
  intros [|p q e' t v lv He Hv _|p q e' t v lv e2 t2 v2 lv2 He _ Hv He2 Hv2 _]; [apply goodo_nil|..]; ttoks; unfold paren, comma.
  - apply level_good in Hv. gdo.
  - apply level_good in Hv, Hv2. gdo.
Qed.
Lemma rule_good e l : ttl_rule e l -> goodn l.
Proof. intros [p e' t H|p e' t H|p p' q']; ttoks; gdw. Qed.
Lemma opt_where_good e l : says (Opt Where) e l -> goodo l.
Proof. intros H. exact (proj1 all_neat _ _ _ H). Qed.
Lemma opt_settings_good e l : says (Opt Settings) e l -> goodo l.
Proof. intros H. exact (proj1 all_neat _ _ _ H). Qed.
Lemma ttl_item_good e l : ttl_item e l -> goodn l.
Proof. intros [p e' l' H|p e' l' r lr w lw H Hr Hw]; apply says_good in H; [exact H|]. apply rule_good in Hr. apply opt_where_good in Hw. gdn. Qed.
Lemma ttl_good e l : ttl e l -> goodn l.
Proof. intros [p q es ls H Hn]. pose proof (Forall2_ne _ _ _ H Hn) as Hl. apply (Forall2_good _ _ _ ttl_item_good) in H. pose proof (sep_ne _ H Hl). gdn. Qed.
Lemma column_ttl_good e l : column_ttl e l -> goodo l.
Proof. intros [|p q e' l' H]; [apply goodo_nil|]. apply ttl_item_good in H. gdo. Qed.
Lemma comment_good e l : after_words ["COMMENT"] e l -> goodo l.
Proof. intros [|e' t H]; [apply goodo_nil|]. ptoks. gdo. Qed.
Lemma coldef_good e l : coldef e l -> goodn l.
Proof.
  intros [p q n ln ty lt nn nl lnl d m a ld c lc t lttl k lk Hn Ht Hnl Hd Hc Htt Hk _].
  apply column_name_good in Hn. apply (proj1 ctype_good) in Ht. apply null_good in Hnl. apply default_good in Hd. apply codec_good in Hc. apply column_ttl_good in Htt. apply comment_good in Hk. gdn.
Qed.
Lemma in_partition_good e l : in_partition e l -> goodo l.
Proof. intros [|p e' l' H Hn]; [apply goodo_nil|]. apply says_good in H. gdo. Qed.
Lemma from_table_good e l : from_table e l -> goodo l.
Proof. intros [|e' l' H]; [apply goodo_nil|]. apply table_good in H. gdo. Qed.
Lemma after_column_good e l : after_column e l -> goodo l.
Proof. intros [|e' l' H]; [apply goodo_nil|]. apply column_name_good in H. gdo. Qed.
Lemma assignment_good e l : assignment e l -> goodn l.
Proof. intros [p c lc e' l' Hc He _]. apply column_name_good in Hc. apply says_good in He. gdn. Qed.
Lemma plains_good es ts : Forall2 plain_name es ts -> Forall goodn (map (fun t => [T t]) ts).
Proof. induction 1 as [|e t es ts H _ IH]; [constructor|]. cbn [map]. constructor; [|exact IH]. ptoks. gdn. Qed.

Lemma alter_good b e l : alter b e l -> goodn l.
Proof.
  intros H. destruct H.
  - apply column_name_good in H. known_flag i; gdw.
  - apply column_name_good in H. known_flag i; gdw.
  - apply column_name_good in H. known_flag i; gdw.
  - apply says_good in H. apply opt_settings_good in H0. known_flag d; gdw.
  - apply says_good in H. apply opt_settings_good in H0. gdw.
  - apply says_good in H. apply from_table_good in H1. gdw.
  - apply says_good in H. gdw.
  - gdw.
  - apply column_name_good in H. apply in_partition_good in H0. known_flag i; gdw.
  - apply column_name_good in H. apply in_partition_good in H0. known_flag i; gdw.
  - apply column_name_good in H. apply in_partition_good in H0. known_flag i; gdw.
  - apply column_name_good in H. apply in_partition_good in H0. known_flag i; gdw.
  - apply column_name_good in H. apply in_partition_good in H0. known_flag i; gdw.
  - apply column_name_good in H, H0. known_flag i; gdw.
  - apply says_good in H. gdw.
  - apply query_good in H. gdw.
  - assert (Hl : ls <> []) by (eapply sayl_ne; eassumption). apply sayl_good in H; [|auto]. pose proof (sep_ne _ H Hl). gdw.
  - apply ttl_good in H. gdw.
  - pose proof (Forall2_ne _ _ _ H H0) as Hl. assert (Hm : map (fun t => [T t]) ts <> []) by (destruct ts; [congruence|discriminate]). apply plains_good in H. pose proof (sep_ne _ H Hm). gdw.
  - apply says_good in H. apply table_good in H1. gdw.
  - apply says_good in H. gdw.
  - pose proof (Forall2_ne _ _ _ H H0) as Hl. apply (Forall2_good _ _ _ assignment_good) in H. pose proof (sep_ne _ H Hl). apply says_good in H1. gdw.
  - apply coldef_good in H. apply after_column_good in H0. apply opt_settings_good in H1. known_flag i; gdw.
  - apply coldef_good in H. known_flag i; gdw.
Qed.
Lemma alters_good es ls : alters es ls -> Forall goodn ls /\ ls <> [].
Proof. induction 1 as [b e l H|e l es ls H _ [IH _]]; (split; [|discriminate]); constructor; auto; eapply alter_good, H. Qed.

Lemma uuid_good e l : uuid e l -> goodo l.
Proof. intros [|e' t H]; [apply goodo_nil|]. ptoks. gdo. Qed.
Lemma params_good e l : params e l -> l = [] \/ goodn l /\ opens "(" l.
Proof. intros [|e' l' H]; [now left|]. right. exact (proj1 all_neat _ _ _ H). Qed.
Lemma order_by_good e l : order_by e l -> goodo l.
Proof. intros [|p q e' l' H]; [apply goodo_nil|]. apply (proj1 all_neat) in H. cbn [neat] in H. gdo. Qed.
Lemma partition_by_good e l : partition_by e l -> goodo l.
Proof. intros [|p e' l' H]; [apply goodo_nil|]. apply columns_good in H. gdo. Qed.
Lemma primary_key_good e l : primary_key e l -> goodo l.
Proof. intros [|p e' l' H]; [apply goodo_nil|]. apply says_good in H. gdo. Qed.
Lemma sample_by_good e l : sample_by e l -> goodo l.
Proof. intros [|p e' l' H]; [apply goodo_nil|]. apply says_good in H. gdo. Qed.
Lemma table_ttl_good e l : table_ttl e l -> goodo l.
Proof. intros [|e' l' H]; [apply goodo_nil|]. apply ttl_good in H. gdo. Qed.
Lemma engine_good b e l : engine b e l -> goodo l.
Proof.
  intros [|p q n t ps lps pk lpk pb lpb sb lsb tt ltt se lse ob lob p1 q1 Hn Hps Hob Hpb Hpk Hsb Htt Hse]; [apply goodo_nil|].
  apply order_by_good in Hob. apply partition_by_good in Hpb. apply primary_key_good in Hpk. apply sample_by_good in Hsb. apply table_ttl_good in Htt. apply opt_settings_good in Hse. ptoks.
  apply params_good in Hps as [->|[Hps Ho]]; gdo.
Qed.
Lemma schema_good e l : schema e l -> goodo l.
Proof. intros [|p q es ls H Hn]; [apply goodo_nil|]. apply (Forall2_good _ _ _ coldef_good) in H. unfold paren. gdo. Qed.
Lemma as_query_good b e l : as_query b e l -> goodo l.
Proof. intros [|q l' H|q l' H]; [apply goodo_nil|..]; apply query_good in H; unfold paren; gdo. Qed.
Lemma collection_good e l : collection_param e l -> goodn l.
Proof.
  intros [p n t v l' o no lo Hn Hv Ho]. assert (H : goodn l') by (destruct Hv as [? ? H|? ? H]; [eapply literal_good, H|ptoks; gdn]). ptoks.
  destruct Ho; gdw.
Qed.
Lemma target_good d s g (pop : bool) l : view_target d s g pop l -> goodo l.
Proof.
  intros [p t lt H|s' ls b e l' pop' Hs He Hn _].
  - apply table_good in H. gdo.
  - apply schema_good in Hs. apply engine_good in He. assert (Hf : goodo (flag pop' ["POPULATE"])) by (destruct pop'; [unfold flag; gdo|apply goodo_nil]). split; [intros r Hnx Hch; gd|]. intros r Hr. rewrite <- !app_assoc. now apply Hs, He, Hf.
Qed.

Lemma privilege_good e l : privilege_clause e l -> goodn l.
Proof.
  intros [p q ws H|p q w e' l' Hw H].
  - unfold privilege_words in H. cbn [app map flat_map] in H. repeat (destruct H as [<-|H]; [gdw|]). destruct H.
  - apply params_good in H as [->|[H Ho]]; destruct Hw as [<-|[<-|[]]]; gdn.
Qed.
Lemma star_name_ok e t : star_name e t -> t = O "*" \/ tok_ok t.
Proof. intros [e' t' H|p q]; [right; ptoks; exact H|now left]. Qed.
Lemma grant_on_good e l : grant_on e l -> goodn l.
Proof. intros [e' t H|d t e' u Hd H]; [apply star_name_ok in H as [->|H]|apply star_name_ok in Hd as [->|Hd], H as [->|H]]; gdn. Qed.
Lemma role_good e l : role_name e l -> goodn l.
Proof. intros [e' t c lc H Hc|e' t c lc H Hc]; ptoks; apply cluster_good in Hc; gdn. Qed.
Lemma options_good ws : Forall (fun w => In w ["GRANT"; "ADMIN"]) ws -> goodo (flat_map (fun w => Sp :: words ["WITH"; w; "OPTION"]) ws).
Proof.
  induction 1 as [|w ws Hw _ IH]; [apply goodo_nil|]. cbn [flat_map]. destruct Hw as [<-|[<-|[]]]; gdo.
Qed.
Lemma role_from_good e l : role_from e l -> goodo l.
Proof. intros [|e' t H]; [apply goodo_nil|]. ptoks. gdo. Qed.
Lemma access_good e l : access e l -> goodn l.
Proof.
  intros [p q es ls o lo rs ts ws Hp Hn Ho Hr Hrn Hw|p q k es ls i m lm f lf Hk Hr Hn Hm Hf _].
  - pose proof (Forall2_ne _ _ _ Hp Hn) as Hl. apply (Forall2_good _ _ _ privilege_good) in Hp. pose proof (sep_ne _ Hp Hl). apply grant_on_good in Ho. assert (Hl2 : map (fun t => [T t]) ts <> []) by (destruct Hr; [congruence|discriminate]). apply plains_good in Hr. pose proof (sep_ne _ Hr Hl2). apply options_good in Hw. gdn.
  - pose proof (Forall2_ne _ _ _ Hr Hn) as Hl. apply (Forall2_good _ _ _ role_good) in Hr. pose proof (sep_ne _ Hr Hl). apply modifier_good in Hm. apply role_from_good in Hf. destruct Hk as [<-|[<-|[]]]; known_flag i; gdw.
Qed.

Lemma ddl_good e l : ddl e l -> goodn l.
Proof.
  intros H. destruct H.
  - now apply stmt_good in H.
  - apply table_good in H. apply cluster_good in H0. apply alters_good in H1 as [H1 Hn]. pose proof (sep_ne _ H1 Hn). gdw.
  - ptoks. apply cluster_good in H0. apply engine_good in H1. apply comment_good in H2. known_flag i; gdw.
  - apply table_good in H. apply uuid_good in H0. apply cluster_good in H1. apply schema_good in H2. apply engine_good in H3. apply as_query_good in H4. apply comment_good in H5.
    known_flag r; known_flag tmp; known_flag i; gdw.
  - apply table_good in H. apply uuid_good in H0. apply cluster_good in H1. apply schema_good in H2. apply comment_good in H3. apply as_query_good in H4. known_flag r; known_flag i; gdw.
  - apply table_good in H. apply cluster_good in H0. apply target_good in H1. apply as_query_good in H2. apply comment_good in H3. known_flag i; gdw.
  - ptoks. apply cluster_good in H0. apply (proj1 all_neat) in H1. cbn [neat] in H1. destruct H1 as [H1 _]. apply says_good in H2. known_flag r; known_flag i; gdw.
  - ptoks. pose proof (Forall2_ne _ _ _ H1 H2) as Hl. apply cluster_good in H0. apply (Forall2_good _ _ _ collection_good) in H1. pose proof (sep_ne _ H1 Hl). known_flag i; gdw.
  - eapply access_good; eassumption.
Qed.

Lemma ddl_source t l : ddl t l -> fine None l -> source None (toks l) true (text l).
Proof. intros H Hf. apply chk_source; [|exact Hf]. rewrite <- (app_nil_r l). now apply (ddl_good _ _ H). Qed.
Lemma ddl_text t l : ddl t l -> Format t = FOk (text l).
Proof. intros H. destruct (ddl_F _ _ H) as [Hn (evs & Hw & E)]. unfold Format. rewrite Hn, fmt_eq, Hw. cbn [fbind]. now rewrite render_compact, E. Qed.
