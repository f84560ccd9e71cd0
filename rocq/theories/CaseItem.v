(** Proofs for C24: what the parser reads of an item or a tree is the same up to the spelling of keywords, and the tactics that
    follow two runs of a parser program. *)
From Coq Require Import String List Arith Bool Lia ZArith.
From Verif Require Import Str Keyword Lexer Ast AstPos AstSubs Prog RunFacts ParserCommon ParserExpr ParserTable ParserView ParserSystem Parser Recase CaseRel CaseFold.
Import ListNotations.
Local Open Scope string_scope.
Local Open Scope nat_scope.

(** ** Tokens *)

Lemma kind_rel t u : ntok t = ntok u -> t_kind t = t_kind u. Proof. intros H. exact (f_equal t_kind H). Qed.
Lemma base_rel t u : ntok t = ntok u -> t_base t = t_base u. Proof. intros H. exact (f_equal t_base H). Qed.
Lemma quote_rel t u : ntok t = ntok u -> t_quote t = t_quote u. Proof. intros H. exact (f_equal t_quote H). Qed.
Lemma text_rel t u : ntok t = ntok u -> recase (t_str t) = recase (t_str u).
Proof.
  intros H. pose proof (f_equal t_str H) as E. cbn in E. rewrite <- (kind_rel t u H), <- (quote_rel t u H) in E. destruct (String.eqb (t_kind t) KKeyword && (t_quote t <=? 1)); [exact E|now rewrite E].
Qed.
Lemma same_rel t u : ntok t = ntok u -> String.eqb (t_kind t) KKeyword && (t_quote t <=? 1) = false -> t_str t = t_str u.
Proof. intros H Hk. pose proof (f_equal t_str H) as E. cbn in E. now rewrite <- (kind_rel t u H), <- (quote_rel t u H), Hk in E. Qed.
Lemma spelt_rel t u : ntok t = ntok u -> tok_to_string t = tok_to_string u.
Proof.
  intros H. unfold tok_to_string. rewrite <- (kind_rel t u H). destruct (String.eqb (t_kind t) KKeyword) eqn:E; [apply upper_rel, text_rel, H|apply same_rel; [exact H|now rewrite E]].
Qed.
Lemma fold_rel t u k : ntok t = ntok u -> equal_fold (t_str t) k = equal_fold (t_str u) k.
Proof. intros H. unfold equal_fold. now rewrite (upper_rel _ _ (text_rel t u H)). Qed.

(** ** Items *)

Lemma tok_rel i j : nit i = nit j -> option_map ntok (it_tok i) = option_map ntok (it_tok j). Proof. intros H. exact (f_equal it_tok H). Qed.
Lemma id_rel i j : nit i = nit j -> it_id i = it_id j. Proof. intros H. exact (f_equal it_id H). Qed.
Lemma eof_rel i j : nit i = nit j -> it_eof i = it_eof j. Proof. intros H. exact (f_equal it_eof H). Qed.
Lemma ipos_rel i j : nit i = nit j -> ipos i = ipos j. Proof. intros H. unfold ipos. now rewrite (id_rel i j H). Qed.
Lemma iend_rel i j : nit i = nit j -> iend i = iend j. Proof. intros H. unfold iend. now rewrite (id_rel i j H). Qed.

Lemma some_rel t u : Some (ntok t) = Some (ntok u) -> ntok t = ntok u. Proof. congruence. Qed.
Ltac two i j H := let E := fresh "E" in pose proof (tok_rel i j H) as E; destruct (it_tok i) as [?t|] eqn:?; destruct (it_tok j) as [?u|] eqn:?; try discriminate E; cbn [option_map] in E.
Lemma no_tok_rel i j : nit i = nit j -> no_tok i = no_tok j. Proof. intros H. unfold no_tok. two i j H; reflexivity. Qed.
Lemma cur_kind_rel i j : nit i = nit j -> cur_kind i = cur_kind j. Proof. intros H. unfold cur_kind. two i j H; [|reflexivity]. apply kind_rel. now apply some_rel. Qed.
Lemma cur_string_rel i j : nit i = nit j -> recase (cur_string i) = recase (cur_string j).
Proof. intros H. unfold cur_string. two i j H; [|reflexivity]. apply text_rel. now apply some_rel. Qed.
Lemma kw_rel i j k : nit i = nit j -> kw i k = kw j k.
Proof. intros H. unfold kw. two i j H; [|reflexivity]. apply some_rel in E. now rewrite (kind_rel _ _ E), (fold_rel _ _ k E). Qed.
Lemma kws_rel i j l : nit i = nit j -> kws i l = kws j l.
Proof. intros H. unfold kws. induction l as [|k l IH]; [reflexivity|]. cbn. now rewrite IH, (kw_rel i j k H). Qed.
Lemma tks_rel i j l : nit i = nit j -> tks i l = tks j l.
Proof.
  intros H. unfold tks. rewrite (cur_kind_rel i j H). destruct (str_in (cur_kind j) l); [reflexivity|]. two i j H; [|reflexivity].
  apply some_rel in E. now rewrite (kind_rel _ _ E), (upper_rel _ _ (text_rel _ _ E)).
Qed.
Lemma tk_rel i j k : nit i = nit j -> tk i k = tk j k. Proof. apply tks_rel. Qed.
Lemma eofOr_rel k i j : nit i = nit j -> eofOr k i = eofOr k j. Proof. intros H. unfold eofOr. now rewrite (eof_rel i j H), (tk_rel i j k H). Qed.
Lemma exhausted_rel i j : nit i = nit j -> exhausted i = exhausted j. Proof. intros H. unfold exhausted. now rewrite (eof_rel i j H), (no_tok_rel i j H). Qed.
Lemma starter_rel i j : nit i = nit j -> matchClauseStarter i = matchClauseStarter j. Proof. apply kws_rel. Qed.
Lemma name_rel t u q : ntok t = ntok u -> (t_quote t = q \/ q <= 1) -> (if q <=? 1 then recase (t_str t) else t_str t) = (if q <=? 1 then recase (t_str u) else t_str u).
Proof.
  intros H Hq. destruct (q <=? 1) eqn:E; [now apply text_rel|]. apply same_rel; [exact H|]. destruct Hq as [->|Hq]; [rewrite E; apply andb_false_r|].
  apply Nat.leb_gt in E. lia.
Qed.
Lemma ident_rel i j t u : nit i = nit j -> ntok t = ntok u -> fold (ident_of i t) = fold (ident_of j u).
Proof.
  intros H E. unfold ident_of. cbn [fold]. rewrite (ipos_rel i j H), (iend_rel i j H), <- (quote_rel t u E). f_equal. apply name_rel; [exact E|now left].
Qed.

(** ** Trees *)

Lemma nil_rel a b : fold a = fold b -> is_nil a = is_nil b. Proof. intros H. now rewrite <- (nil_fold a), H, nil_fold. Qed.
Lemma pos_of_rel a b : fold a = fold b -> pos_of a = pos_of b. Proof. intros H. now rewrite <- (pos_fold a), H, pos_fold. Qed.
Lemma end_of_rel a b : fold a = fold b -> end_of a = end_of b. Proof. intros H. now rewrite <- (end_fold a), H, end_fold. Qed.
Lemma empty_rel {A B} (g : A -> B) a b : map g a = map g b -> is_empty a = is_empty b. Proof. intros H. now rewrite <- (empty_map g a), H, empty_map. Qed.
Lemma last_map {A B} (g : A -> B) l d : last (map g l) (g d) = g (last l d).
Proof. induction l as [|x [|y l] IH]; [reflexivity..|]. exact IH. Qed.
Lemma last_rel a b d : map fold a = map fold b -> fold (last a d) = fold (last b d). Proof. intros H. now rewrite <- (last_map fold a), <- (last_map fold b), H. Qed.
Lemma ident_name_rel a b : fold a = fold b -> recase (ident_name a) = recase (ident_name b).
Proof.
  assert (R : forall s, recase (recase s) = recase s) by (intros s; unfold recase at 1; rewrite upper_recase; unfold recase; destruct (_ && _); [now rewrite ?upper_upper|reflexivity]).
  assert (H : forall e, recase (ident_name (fold e)) = recase (ident_name e)) by (intros e; destruct e; try reflexivity; cbn [fold ident_name]; destruct (_ <=? 1); [apply R|reflexivity]).
  intros E. now rewrite <- H, E, H.
Qed.

(** A token of another kind than identifiers and keywords has the same text. *)
Lemma lit_rel i t u k : ntok t = ntok u -> it_tok i = Some t -> tk i k = true -> str_in k [KIdent; KKeyword] = false -> t_str t = t_str u.
Proof.
  intros H Ht Hk Hn. apply same_rel; [exact H|]. unfold tk, tks, cur_kind in Hk. rewrite Ht in Hk. cbn [str_in existsb] in Hn, Hk. unfold str_in in Hk. cbn [existsb] in Hk.
  rewrite orb_false_r in Hn, Hk. apply orb_false_elim in Hn as [N1 N2]. rewrite (String.eqb_sym KIdent k), N1, andb_false_r in Hk. cbn in Hk.
  destruct (String.eqb_spec (t_kind t) k) as [->|]; [now rewrite N2|discriminate].
Qed.

(** ** Tactics *)

Ltac inst := cbv [rl Rel_expr Rel_string Rel_bool Rel_pos Rel_nat Rel_unit Rel_item Rel_err Rel_exprs Rel_strings] in *.

(** Take apart a hypothesis [rl a b]. *)
Lemma upper_append a b : upper (a ++ b) = (upper a ++ upper b)%string.
Proof. induction a as [|c a IH]; [reflexivity|]. cbn [upper String.append]. now rewrite IH. Qed.

Lemma set_dest_schema_rel a b c d : fold a = fold b -> fold c = fold d -> fold (set_dest_schema a c) = fold (set_dest_schema b d).
Proof.
  assert (E : forall x y, fold (set_dest_schema x y) = set_dest_schema (fold x) (fold y)) by (intros x y; now destruct x).
  intros H1 H2. now rewrite !E, H1, H2.
Qed.

(** Records the parser builds field by field. *)
Global Instance Rel_engine : Rel engine_acc := fun a b =>
  fold (g_primary a) = fold (g_primary b) /\ fold (g_partition a) = fold (g_partition b) /\ fold (g_sample a) = fold (g_sample b) /\
  fold (g_ttl a) = fold (g_ttl b) /\ fold (g_settings a) = fold (g_settings b) /\ fold (g_order a) = fold (g_order b) /\ g_end a = g_end b.
Global Instance Rel_attr : Rel attr_acc := fun a b =>
  fold (d_default a) = fold (d_default b) /\ fold (d_expression a) = fold (d_expression b) /\ d_hier a = d_hier b /\ d_inj a = d_inj b /\
  d_obj a = d_obj b /\ d_end a = d_end b.
Global Instance Rel_dict : Rel dict_acc := fun a b =>
  fold (k_source a) = fold (k_source b) /\ fold (k_lifetime a) = fold (k_lifetime b) /\ fold (k_layout a) = fold (k_layout b) /\
  fold (k_range a) = fold (k_range b) /\ fold (k_settings a) = fold (k_settings b).
Global Instance Rel_user : Rel user_acc := fun a b =>
  u_end a = u_end b /\ fold (u_auth a) = fold (u_auth b) /\ map fold (u_hosts a) = map fold (u_hosts b) /\
  fold (u_defaultRole a) = fold (u_defaultRole b) /\ fold (u_defaultDb a) = fold (u_defaultDb b) /\ u_defaultDbNone a = u_defaultDbNone b /\
  fold (u_grantees a) = fold (u_grantees b) /\ fold (u_valid a) = fold (u_valid b) /\ map fold (u_settings a) = map fold (u_settings b).
Ltac fields H := repeat match type of H with _ /\ _ => let K := fresh "K" in destruct H as [K H] end; subst.

Ltac norm H :=
  lazymatch type of H with
  | @rl bool _ ?a ?b => change (a = b) in H; subst
  | @rl pos _ ?a ?b => change (a = b) in H; subst
  | @rl nat _ ?a ?b => change (a = b) in H; subst
  | @rl unit _ ?a ?b => clear H
  | @rl (_ * _) _ ?a ?b =>
      let H1 := fresh "H" in let H2 := fresh "H" in
      first [destruct a as [? ?]|idtac]; first [destruct b as [? ?]|idtac]; destruct H as [H1 H2]; cbn [fst snd] in H1, H2; norm H1; norm H2
  | @rl (option _) _ ?a ?b => destruct a, b; cbn [rl Rel_option] in H; try contradiction; try (norm H)
  | @rl (_ + _) _ ?a ?b => destruct a, b; cbn [rl Rel_sum] in H; try contradiction; try (norm H)
  | @rl expr _ ?a ?b => change (fold a = fold b) in H
  | @rl string _ ?a ?b => change (recase a = recase b) in H
  | @rl item _ ?a ?b => change (nit a = nit b) in H
  | @rl err _ ?a ?b => change (nerr a = nerr b) in H
  | @rl (list expr) _ ?a ?b => change (map fold a = map fold b) in H
  | @rl (list string) _ ?a ?b => change (map recase a = map recase b) in H
  | @rl engine_acc _ ?a ?b => destruct a, b; cbv [rl Rel_engine] in H; cbn [g_primary g_partition g_sample g_ttl g_settings g_order g_end] in H |- *; fields H
  | @rl attr_acc _ ?a ?b => destruct a, b; cbv [rl Rel_attr] in H; cbn [d_default d_expression d_hier d_inj d_obj d_end] in H |- *; fields H
  | @rl dict_acc _ ?a ?b => destruct a, b; cbv [rl Rel_dict] in H; cbn [k_source k_lifetime k_layout k_range k_settings] in H |- *; fields H
  | @rl user_acc _ ?a ?b =>
      destruct a, b; cbv [rl Rel_user] in H;
      cbn [u_end u_auth u_hosts u_defaultRole u_defaultDb u_defaultDbNone u_grantees u_valid u_settings] in H |- *; fields H
  | _ => idtac
  end.
(** Positions of related items. *)
Ltac places :=
  repeat match goal with
  | H : nit ?a = nit ?b |- context [ipos ?b] => rewrite <- (ipos_rel a b H)
  | H : nit ?a = nit ?b |- context [iend ?b] => rewrite <- (iend_rel a b H)
  | H : nit ?a = nit ?b |- context [kw ?b ?k] => rewrite <- (kw_rel a b k H)
  end.

Ltac intro_rel := let a := fresh "a" in let b := fresh "b" in let H := fresh "H" in intros a b H; norm H; places; cbv beta iota zeta.

(** Equal readings. *)
Ltac same :=
  first
  [ reflexivity | assumption | congruence
  | match goal with H : @rl (_ -> _ -> _ -> _ -> _) _ ?g ?h |- fold (?g _ _ _ _) = fold (?h _ _ _ _) => apply H; same end
  | lazymatch goal with
    | |- kw _ _ = kw _ _ => apply kw_rel; assumption
    | |- kws _ _ = kws _ _ => apply kws_rel; assumption
    | |- tk _ _ = tk _ _ => apply tk_rel; assumption
    | |- tks _ _ = tks _ _ => apply tks_rel; assumption
    | |- eofOr _ _ = eofOr _ _ => apply eofOr_rel; assumption
    | |- exhausted _ = exhausted _ => apply exhausted_rel; assumption
    | |- matchClauseStarter _ = _ => apply starter_rel; assumption
    | |- no_tok _ = no_tok _ => apply no_tok_rel; assumption
    | |- it_eof _ = it_eof _ => apply eof_rel; assumption
    | |- cur_kind _ = cur_kind _ => apply cur_kind_rel; assumption
    | |- ipos _ = ipos _ => apply ipos_rel; assumption
    | |- iend _ = iend _ => apply iend_rel; assumption
    | |- t_kind _ = t_kind _ => apply kind_rel; assumption
    | |- t_base _ = t_base _ => apply base_rel; assumption
    | |- t_quote _ = t_quote _ => apply quote_rel; assumption
    | |- tok_to_string _ = tok_to_string _ => apply spelt_rel; assumption
    | |- is_nil _ = is_nil _ => apply nil_rel; same
    | |- is_empty _ = is_empty _ => first [apply (empty_rel fold); same | apply (empty_rel recase); same]
    | |- pos_of _ = pos_of _ => apply pos_of_rel; same
    | |- end_of _ = end_of _ => apply end_of_rel; same
    | |- equal_fold (t_str _) _ = _ => apply fold_rel; assumption
    | |- upper (_ ++ _) = upper (_ ++ _) => rewrite !upper_append; f_equal; same
    | |- upper _ = upper _ => apply upper_rel; same
    | |- equal_fold ?a ?k = equal_fold ?b ?k => unfold equal_fold; rewrite (upper_rel a b) by same; reflexivity
    | |- existsb (fun m => equal_fold m _) _ = _ => apply any_rel; same
    | |- recase (ident_name _) = recase (ident_name _) => apply ident_name_rel; same
    | |- recase (cur_string _) = recase (cur_string _) => apply cur_string_rel; assumption
    | |- recase (t_str _) = recase (t_str _) => apply text_rel; assumption
    | |- fold (ident_of _ _) = fold (ident_of _ _) => apply ident_rel; assumption
    | |- fold (set_dest_schema _ _) = _ => apply set_dest_schema_rel; same
    | |- fold (last _ _) = fold (last _ _) => apply last_rel; same
    | |- nit _ = nit _ => assumption
    | |- nerr (_ _ _) = nerr (_ _ _) => cbn [nerr]; f_equal; same
    | |- fold _ = fold _ => progress cbn [fold]; f_equal; same
    | |- map _ (_ ++ _) = map _ (_ ++ _) => rewrite !map_app; f_equal; same
    | |- map _ (_ :: _) = map _ (_ :: _) => cbn [map]; f_equal; same
    | |- t_str ?t = t_str ?u =>
        match goal with Ht : it_tok ?i = Some t, Hk : tk ?i ?k = true |- _ => apply (lit_rel i t u k); [assumption|exact Ht|exact Hk|reflexivity] end
    | |- ("." ++ _)%string = ("." ++ _)%string => f_equal; same
    | |- match ?l with [] => _ | _ :: _ => _ end = match ?m with [] => _ | _ :: _ => _ end => destruct l, m; first [discriminate | same]
    | |- map fold (if ?b then _ else _) = map fold (if ?c then _ else _) => replace c with b by same; destruct b; same
    | |- ETTLPolicyRuleAction _ _ _ _ = ETTLPolicyRuleAction _ _ _ _ => f_equal; same
    | |- EIdent _ _ _ _ = EIdent _ _ _ _ => f_equal; same
    | |- (if 0 <=? 1 then _ else _) = _ => cbn; same
    | |- (if 4 <=? 1 then _ else _) = _ => cbn; same
    | |- (if QSingle <=? 1 then _ else _) = _ => cbn; same
    | |- (if _ <=? 1 then recase (t_str _) else _) = _ => apply name_rel; [assumption|first [left; reflexivity | right; repeat constructor]]
    | |- String.eqb (t_kind ?a) _ = String.eqb (t_kind ?b) _ => f_equal; same
    | |- String.eqb (cur_kind ?a) _ = _ => f_equal; same
    | |- String.eqb (tok_to_string ?a) _ = _ => f_equal; same
    | |- keywordArgFunctions _ = keywordArgFunctions _ => f_equal; same
    | |- str_in _ settingModifiers = _ => unfold settingModifiers; same
    | |- str_in (upper _) _ = str_in (upper _) _ => f_equal; same
    | |- String.eqb ?a ?w = String.eqb ?b ?w => apply eqb_rel; [same|vm_compute; reflexivity]
    | |- str_in ?a (_ :: _) = str_in ?b (_ :: _) => apply in_rel; [same|vm_compute; reflexivity]
    | |- str_in ?a _ = str_in ?a _ => apply has_rel; [same|vm_compute; reflexivity]
    | |- (?a && ?b)%bool = (?c && ?d)%bool => f_equal; same
    | |- (?a || ?b)%bool = (?c || ?d)%bool => f_equal; same
    | |- negb _ = negb _ => f_equal; same
    | |- match ?o with Some _ => _ | None => _ end = match ?o with Some _ => _ | None => _ end => destruct o; same
    | |- (_ =? _) = (_ =? _) => f_equal; same
    end ].

(** Related values. *)
Ltac related :=
  lazymatch goal with
  | |- @rl _ _ (if ?b then _ else _) (if ?b then _ else _) => destruct b; related
  | |- @rl (_ * _) _ _ _ => split; cbn [fst snd]; related
  | |- @rl (_ -> _) _ _ _ => intro_rel; related
  | |- @rl (_ + _) _ (inl _) (inl _) => cbn [rl Rel_sum]; related
  | |- @rl (_ + _) _ (inr _) (inr _) => cbn [rl Rel_sum]; related
  | |- @rl (option _) _ (Some _) (Some _) => cbn [rl Rel_option]; related
  | |- @rl (option _) _ None None => exact I
  | |- @rl engine_acc _ _ _ => cbv [rl Rel_engine]; cbn [g_primary g_partition g_sample g_ttl g_settings g_order g_end]; repeat apply conj; same
  | |- @rl attr_acc _ _ _ => cbv [rl Rel_attr]; cbn [d_default d_expression d_hier d_inj d_obj d_end]; repeat apply conj; same
  | |- @rl dict_acc _ _ _ => cbv [rl Rel_dict]; cbn [k_source k_lifetime k_layout k_range k_settings]; repeat apply conj; same
  | |- @rl user_acc _ _ _ =>
      cbv [rl Rel_user]; cbn [u_end u_auth u_hosts u_defaultRole u_defaultDb u_defaultDbNone u_grantees u_valid u_settings];
      repeat apply conj; same
  | |- @rl _ _ (if ?b then _ else _) (if ?b then _ else _) => destruct b; related
  | |- _ => cbv [rl Rel_expr Rel_string Rel_bool Rel_pos Rel_nat Rel_unit Rel_item Rel_err Rel_exprs Rel_strings]; same
  end.

Create HintDb case discriminated.
Global Hint Extern 0 (fold _ = fold _) => same : case.
Global Hint Extern 0 (recase _ = recase _) => same : case.
Global Hint Extern 0 (map _ _ = map _ _) => same : case.
Global Hint Extern 0 (nit _ = nit _) => same : case.
Global Hint Extern 0 (nerr _ = nerr _) => same : case.
Global Hint Extern 0 (calls _) => assumption : case.
Global Hint Extern 0 (rl _ _) => related : case.
Global Hint Extern 1 (_ = _) => same : case.

(** The text of a token as [ToString] gives it is the same. *)
Lemma c_cur_to_string {f} : @sim f string (@eq string) cur_to_string cur_to_string.
Proof.
  apply sim_cur. intros i j H. two i j H; [|apply sim_panic]. apply sim_ret. apply spelt_rel. now apply some_rel.
Qed.

(** The item read before [expectTokenKind] is the one it looks at. *)
Lemma sim_expTk {f A} {F : Rel A} kd (k k' : item -> prog A) :
  (forall i j, nit i = nit j -> tk i kd = true -> @sim f A F (k i) (k' j)) ->
  @sim f A F (do it <- cur_item ;; do! expTk kd ;; k it) (do it <- cur_item ;; do! expTk kd ;; k' it).
Proof.
  assert (E : forall (g : item -> prog A) s, run body (S f) (do it <- cur_item ;; do! expTk kd ;; g it) s =
    if tk (here s) kd then run body (S f) (g (here s)) (advance s) else RErr (ExpKind (here s) kd) s).
  { intros g s. unfold expTk, cur_item, skip. cbn [bind]. rewrite !run_Cur. destruct (tk (here s) kd); [|reflexivity].
    now rewrite ?run_Consume. }
  intros H s t Hs. pose proof (here_rel s t Hs) as Hh. rewrite !E, (tk_rel _ _ kd Hh). destruct (tk (here t) kd) eqn:Ek.
  - refine (H _ _ Hh _ _ _ (advance_rel s t Hs)). now rewrite (tk_rel _ _ kd Hh).
  - cbn [orel nerr]. split; [now rewrite Hh|exact Hs].
Qed.

(** One step of both programs. *)
Ltac step :=
  lazymatch goal with
  | |- sim (Ret _) (Ret _) => apply sim_ret; related
  | |- sim (Fail _) (Fail _) => apply sim_fail; same
  | |- sim (Panic _) (Panic _) => apply sim_panic
  | |- sim (bind cur_to_string _) (bind cur_to_string _) =>
      let a := fresh "a" in let b := fresh "b" in let H := fresh "H" in
      refine (@sim_bind _ string _ (@eq string) _ _ _ _ _ c_cur_to_string _); intros a b H; unfold rl in H; subst b; step
  | |- sim (bind cur_item (fun it => bind (expTk ?k) _)) (bind cur_item (fun it' => bind (expTk ?k) _)) =>
      refine (sim_expTk k (fun it => _) (fun it => _) _); intros ? ? ? ?; cbv beta zeta; step
  | |- @sim ?f _ _ (@bind string _ ?p _) (bind ?p' _) =>
      first
      [ let a := fresh "a" in let b := fresh "b" in let H := fresh "H" in let K := fresh "K" in
        assert (K : @sim f string (@eq string) p p') by (solve [step]);
        refine (@sim_bind _ string _ (@eq string) _ _ _ _ _ _ _); [exact K|]; clear K; intros a b H; unfold rl in H; subst b; cbv beta iota zeta
      | refine (sim_bind _ _ _ _ _ _); [step|intro_rel] ]; step
  | |- sim (bind _ _) (bind _ _) => refine (sim_bind _ _ _ _ _ _); [step|intro_rel; step]
  | |- sim (TryInterval _ _) (TryInterval _ _) => apply sim_try; [assumption|intros ? ? ?; step|step]
  | |- sim (Cur _) (Cur _) => apply sim_cur; intros ? ? ?; cbv beta; step
  | |- sim (Consume _) (Consume _) => apply sim_consume; intros ?; cbv beta; step
  | |- sim (Peek _) (Peek _) =>
      let r := fresh "r" in let r' := fresh "r" in let H := fresh "H" in
      apply sim_peek; intros r r' H; destruct r as [[?|]|?], r' as [[?|]|?]; try discriminate H; cbn [npeek option_map] in H; cbv beta iota;
      try (lazymatch type of H with inl (Some (ntok ?t)) = inl (Some (ntok ?u)) => assert (ntok t = ntok u) by congruence end);
      try (lazymatch type of H with inr ?t = inr ?u => assert (t = u) by congruence; subst end); step
  | |- sim (Call _ _) (Call _ _) => apply sim_call; [assumption|try reflexivity; cbn [nnt]; f_equal; same|intros ? ? ?; step]
  | |- sim (match it_tok ?i with _ => _ end) (match it_tok ?j with _ => _ end) =>
      let E := fresh "E" in
      assert (E : nit i = nit j) by assumption; apply tok_rel in E; destruct (it_tok i) eqn:?, (it_tok j) eqn:?; try discriminate E; cbn [option_map] in E; try apply some_rel in E; step
  | |- sim (match ?l with [] => _ | _ :: _ => _ end) (match ?m with [] => _ | _ :: _ => _ end) => destruct l, m; try discriminate; cbn [map] in *; step
  | |- sim (if ?b then _ else _) (if ?b then _ else _) => destruct b eqn:?; step
  | |- sim (if ?b then _ else _) (if ?c then _ else _) => replace c with b by same; destruct b eqn:?; step
  | |- sim (match ?o with Some _ => _ | None => _ end) (match ?o with Some _ => _ | None => _ end) => destruct o; step
  | |- sim (match ?o with Some _ => _ | None => _ end) (match ?o' with Some _ => _ | None => _ end) => replace o' with o by same; destruct o; step
  | |- sim (Loop _ _ _) (Loop _ _ _) => refine (sim_loop _ _ _ _ _ _ _ _ _); [related|intro_rel; step|intro_rel; step]
  | |- sim (loop _ _) (loop _ _) => unfold loop; step
  | |- sim (Attempt _ _ _) (Attempt _ _ _) => refine (sim_attempt _ _ _ _ _ _ _ _ _); [step|intro_rel; try same|intro_rel; step]
  | |- sim (let x := _ in _) _ => cbv zeta; step
  | |- _ => first [solve [auto with case] | places; solve [auto with case] | idtac]
  end.
