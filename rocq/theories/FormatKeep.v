(** Proofs for C42: the formatter writes every string of a tree. *)
From Coq Require Import String Ascii List Arith Bool Lia Permutation.
From Verif Require Import Str StrFacts Keyword Ast AstPos AstSubs Prog LayoutSpec WalkSpec FormatSpec WriteSpec WriteLogic Format FormatFacts FormatSafe KeepSpec Words.
Import ListNotations.
Local Open Scope string_scope.
Local Open Scope list_scope.
Local Open Scope nat_scope.

(** ** The calls of one method *)

(** The strings that [FormatSQL] of a node writes; its caller writes the others. *)
Definition own (e : expr) : list string :=
  if alone e then texts e else match e with EDestinationClause _ t _ => texts t | _ => [] end.
Definition stexts (x : step) : list string :=
  match x with SW s => [s] | Format.SExpr e | SPtr e | SCompact e => own e | _ => [] end.

Lemma own_single e : single e -> own e = texts e.
Proof. unfold single, own. now intros ->. Qed.

(** Some strings that are written at once can be taken for several. *)
Inductive sp : list step -> list step -> Prop :=
| sp_nil : sp [] []
| sp_cons x r r' : sp r r' -> sp (x :: r) (x :: r')
| sp_split s ps r r' : s = String.concat "" ps -> sp r r' -> sp (SW s :: r) (map SW ps ++ r').
Lemma sp_refl l : sp l l.
Proof. induction l; now constructor. Qed.
Lemma sp_app a a' b b' : sp a a' -> sp b b' -> sp (a ++ b) (a' ++ b').
Proof.
  intros Ha Hb. induction Ha as [|x r r' Hr IH|s ps r r' Hs Hr IH]; [exact Hb|cbn; now constructor|]. cbn [app]. rewrite <- app_assoc. now constructor.
Qed.
Lemma sp_when c a a' : sp a a' -> sp (when c a) (when c a').
Proof. intros H. destruct c; [exact H|constructor]. Qed.
Lemma sp_each {A} (f g : bool -> bool -> A -> list step) l : (forall a b x, sp (f a b x) (g a b x)) -> forall a, sp (each_from a f l) (each_from a g l).
Proof. intros H. induction l as [|x l IH]; intros a; [constructor|]. cbn [each_from]. now apply sp_app. Qed.
Lemma sp_one s ps : s = String.concat "" ps -> sp [SW s] (map SW ps).
Proof. intros H. rewrite <- (app_nil_r (map SW ps)). constructor; [exact H|constructor]. Qed.

Lemma concat_cons x r : String.concat "" (x :: r) = (x ++ String.concat "" r)%string.
Proof. destruct r; [cbn; now rewrite sapp_nil|reflexivity]. Qed.
Lemma concat_app a b : String.concat "" (a ++ b) = (String.concat "" a ++ String.concat "" b)%string.
Proof. induction a as [|x a IH]; [reflexivity|]. cbn [app]. now rewrite !concat_cons, IH, sapp_assoc. Qed.

Fixpoint spaced (l : list string) : list string := match l with [] => [] | x :: r => match r with [] => [x] | _ => x :: " " :: spaced r end end.
Lemma spaced_cons x y l : spaced (x :: y :: l) = x :: " " :: spaced (y :: l). Proof. reflexivity. Qed.
Lemma spaced_concat l : String.concat " " l = String.concat "" (spaced l).
Proof.
  induction l as [|x [|y l] IH]; [reflexivity|reflexivity|]. change (String.concat " " (x :: y :: l)) with (x ++ " " ++ String.concat " " (y :: l))%string.
  now rewrite spaced_cons, !concat_cons, IH.
Qed.

Section Steps.
  Variable (w : string).
  Hypothesis (Hw : KeepSpec.plain w).
  Notation T := (tally w).
  Notation S' := (fun l => tally w (flat_map stexts l)).

  Lemma T_app a b : T (a ++ b) = T a + T b.
  Proof. unfold tally. now rewrite map_app, count_occ_app. Qed.
  Lemma T_cons a b c : T (a :: b :: c) = T [a] + T (b :: c).
  Proof. exact (T_app [a] (b :: c)). Qed.
  Lemma T_cons_app a b c : T (a :: b ++ c) = T [a] + T b + T c.
  Proof. rewrite <- Nat.add_assoc, <- T_app. exact (T_app [a] (b ++ c)). Qed.
  Lemma T_nil : T [] = 0. Proof. reflexivity. Qed.
  Lemma T_empty : T [""%string] = 0.
  Proof. unfold tally. cbn [map undot count_occ]. destruct (string_dec "" w) as [E|]; [|reflexivity]. destruct Hw as [H _]. congruence. Qed.
  Lemma T_word s : is_keyword (upper s) = true -> undot s = s -> T [s] = 0.
  Proof. unfold tally. intros H E. cbn [map count_occ]. rewrite E. destruct (string_dec s w) as [<-|]; [|reflexivity]. destruct Hw as (_ & H' & _). congruence. Qed.
  Lemma S_app a b : flat_map stexts (a ++ b) = flat_map stexts a ++ flat_map stexts b.
  Proof. apply flat_map_app. Qed.
  Lemma each_from_le {A} (t : A -> list string) f l : (forall a b x, In x l -> T (t x) <= S' (f a b x)) -> forall a, T (flat_map t l) <= S' (each_from a f l).
  Proof.
    intros H. induction l as [|x l IH]; intros a; [cbn; lia|]. cbn [flat_map each_from]. rewrite S_app, !T_app.
    pose proof (H a (is_empty l) x (or_introl eq_refl)). specialize (IH (fun a b y Hy => H a b y (or_intror Hy)) false). lia.
  Qed.
  Lemma each_le {A} (t : A -> list string) f l : (forall a b x, In x l -> T (t x) <= S' (f a b x)) -> T (flat_map t l) <= S' (each f l).
  Proof. intros H. now apply each_from_le. Qed.
  Lemma each_single f l : Forall single l -> (forall a b x, single x -> T (texts x) <= S' (f a b x)) -> T (flat_map texts l) <= S' (each f l).
  Proof. intros Hl H. apply each_le. intros a b x Hx. apply H. rewrite Forall_forall in Hl. now apply Hl. Qed.
  Lemma T_list l : T l = T (flat_map (fun s => [s]) l).
  Proof. f_equal. induction l as [|x l IH]; [reflexivity|]. cbn. now rewrite <- IH. Qed.
  Lemma T_nilexpr e : is_nil e = true -> T (texts e) = 0.
  Proof. intros E. destruct e; try discriminate E. reflexivity. Qed.
  Lemma nil_eq e : is_nil e = true -> e = ENil.
  Proof. destruct e; (reflexivity || discriminate). Qed.
  Lemma T_emptylist e : is_empty e = true -> T (flat_map texts e) = 0.
  Proof. destruct e; [reflexivity|discriminate]. Qed.
  Lemma T_emptystr e : String.eqb e "" = true -> T [e] = 0.
  Proof. intros E. apply String.eqb_eq in E. subst. apply T_empty. Qed.
  Lemma T_some l : T (flat_map texts l) = T (flat_map texts (filter (fun c => negb (is_nil c)) l)).
  Proof. induction l as [|x l IH]; [reflexivity|]. cbn [flat_map filter]. destruct (is_nil x) eqn:E; cbn [negb flat_map]; rewrite ?T_app, ?IH; [|reflexivity]. now rewrite T_nilexpr. Qed.
  Lemma single_some l : Forall single l -> Forall single (filter (fun c => negb (is_nil c)) l).
  Proof. rewrite !Forall_forall. intros H x Hx. apply filter_In in Hx. now apply H. Qed.
  Lemma T_perm a b : Permutation a b -> T (flat_map texts a) = T (flat_map texts b).
  Proof. induction 1; cbn [flat_map]; rewrite ?T_app; lia. Qed.
  Lemma T_spaced l : T l <= T (spaced l).
  Proof.
    induction l as [|x [|y l] IH]; [cbn; lia|cbn [spaced]; lia|]. rewrite spaced_cons, T_cons. change (x :: " " :: spaced (y :: l)) with ([x] ++ [" "] ++ spaced (y :: l)). rewrite !T_app. lia.
  Qed.
  Lemma S_map l : flat_map stexts (map SW l) = l.
  Proof. induction l as [|x l IH]; [reflexivity|]. cbn. now rewrite IH. Qed.

  Ltac sg := repeat match goal with H : single ?c |- context [own ?c] => rewrite (own_single c H) | |- context [own (EStringLiteral ?p ?q ?s)] => change (own (EStringLiteral p q s)) with [s] end.
  Ltac norm := unfold need, operator_prefix; change (texts ENil) with (@nil string); cbn [flat_map stexts negb andb orb]; rewrite ?S_app, ?T_app; cbn [flat_map stexts app]; sg; rewrite ?T_app, ?T_cons, ?T_cons_app, ?T_app, ?T_nil.
  Ltac known :=
    repeat match goal with
    | H : is_nil ?e = true |- _ => rewrite ?(T_nilexpr e H) in *; clear H
    | H : is_empty ?e = true |- _ => rewrite ?(T_emptylist e H) in *; clear H
    | H : String.eqb ?e "" = true |- _ => rewrite ?(T_emptystr e H) in *; clear H
    end.
  Ltac hide x := generalize dependent x; intros.
  Ltac fin :=
    norm;
    repeat match goal with
    | |- context [tally w (flat_map stexts (when (negb (is_nil ?e)) ?l))] =>
        assert (tally w (texts e) <= tally w (flat_map stexts (when (negb (is_nil e)) l))) by (unfold when; destruct (is_nil e) eqn:?; cbn [negb]; [known; lia|fin]);
        hide (tally w (flat_map stexts (when (negb (is_nil e)) l)))
    | |- context [tally w (flat_map stexts (when (negb (is_empty ?e)) ?l))] =>
        assert (tally w (flat_map texts e) <= tally w (flat_map stexts (when (negb (is_empty e)) l))) by (unfold when; destruct (is_empty e) eqn:?; cbn [negb]; [known; lia|fin]);
        hide (tally w (flat_map stexts (when (negb (is_empty e)) l)))
    | |- context [tally w (flat_map stexts (when (negb (String.eqb ?e "")) ?l))] =>
        assert (tally w [e] <= tally w (flat_map stexts (when (negb (String.eqb e "")) l))) by (unfold when; destruct (String.eqb e "") eqn:?; cbn [negb]; [known; lia|fin]);
        hide (tally w (flat_map stexts (when (negb (String.eqb e "")) l)))
    | |- context [tally w (flat_map stexts (each ?f ?l))] =>
        lazymatch type of l with
        | list expr => assert (tally w (flat_map texts l) <= tally w (flat_map stexts (each f l))) by (apply each_single; [assumption|intros; fin])
        | list string => assert (tally w l <= tally w (flat_map stexts (each f l))) by (rewrite (T_list l); apply each_le; intros; fin)
        end; hide (tally w (flat_map stexts (each f l)))
    end; try lia.

  (** What [tells] says of the children. *)
  Ltac split1 := match goal with
    | H : _ /\ _ |- _ => destruct H
    | H : ex _ |- _ => destruct H
    | H : Forall single [] |- _ => clear H
    | H : Forall single (_ :: _) |- _ => apply Forall_cons_iff in H
    | H : Forall single (_ ++ _) |- _ => apply Forall_app in H
    | H : ?x = ENil |- _ => is_var x; subst x
    end.
  Ltac told := cbn [tells subs] in *; repeat split1.

  Definition gain (e : expr) : Prop := exists l', sp (steps false e) l' /\ T (own e) <= S' l'.
  Lemma gain_same e : T (own e) <= S' (steps false e) -> gain e.
  Proof. intros H. exists (steps false e). split; [apply sp_refl|exact H]. Qed.


  Lemma T_dest p t s : T (texts t) <= T (own (EDestinationClause p t s)).
  Proof. unfold own. cbn [alone]. destruct (is_nil s); cbn [texts]; rewrite ?T_app; lia. Qed.
  Lemma own_string p q s : own (EStringLiteral p q s) = [s]. Proof. reflexivity. Qed.

  Lemma json_perm l : Permutation l (filter (fun x => json_group x =? 1) l ++ filter (fun x => json_group x =? 2) l ++ filter (fun x => json_group x =? 3) l).
  Proof.
    induction l as [|x l IH]; [constructor|]. cbn [filter].
    assert (G : json_group x = 1 \/ json_group x = 2 \/ json_group x = 3).
    { destruct x; cbn [json_group]; auto. destruct (_ || _); [auto|]. destruct (negb _); [auto|]. destruct (_ || _); auto. }
    destruct G as [-> | [-> | ->]]; cbn [Nat.eqb app].
    - now constructor.
    - apply Permutation_cons_app, IH.
    - rewrite app_assoc in *. apply Permutation_cons_app, IH.
  Qed.

  (** format.go:1875-1901. *)
  Lemma join_keep e : All tells e -> joined e -> exists l', sp (when (negb (is_nil e)) (join_steps e)) l' /\ T (texts e) <= S' l'.
  Proof.
    remember (esize e) as n eqn:En. revert e En. induction n as [n IH] using lt_wf_ind. intros e -> Ht Hj.
    destruct (is_nil e) eqn:Ni; [exists []; split; [constructor|rewrite T_nilexpr by exact Ni; cbn; lia]|]. cbn [negb when].
    assert (C : (exists p l r m c, e = EJoinExpr p l r m c) \/ join_steps e = [SW ","; Format.SExpr e] /\ forall p l r m c, e <> EJoinExpr p l r m c) by (destruct e; try (right; split; [reflexivity|discriminate]); left; repeat eexists).
    destruct C as [(p & l & r & m & c & ->)|[C Cn]].
    2: { exists (join_steps e). split; [apply sp_refl|]. rewrite C. destruct Hj as [Hs|(p & l & r & m & c & ->)]; [|now destruct (Cn p l r m c)]. norm. lia. }
    apply All_inv in Ht. destruct Ht as [(Hm & Hr & Hl & Hco) Hts]. cbn [subs] in Hts. inversion Hts as [|? ? Tl Hts']; subst. inversion Hts' as [|? ? Tr _]; subst.
    destruct (IH (esize r)) with (e := r) as (lr & Hsp & Hle); [rewrite (subs_size (EJoinExpr p l r m c)); cbn [subs map list_sum fold_right]; lia|reflexivity|exact Tr|exact Hr|].
    cbn [join_steps texts]. destruct (is_empty m) eqn:Em.
    - destruct m; [|discriminate Em]. rewrite (Hm eq_refl) in *. exists ([SW ","; Format.SExpr l] ++ lr). split; [apply sp_app; [apply sp_refl|exact Hsp]|]. norm. change (T (texts ENil)) with 0. lia.
    - exists ((([SBreak] ++ map SW (spaced m) ++ [SIndent; SBreak; Format.SExpr l]) ++ when (negb (is_nil c)) [SW " "; Format.SExpr c] ++ [SDedent]) ++ lr). split.
      + apply sp_app; [|exact Hsp]. apply sp_app; [|apply sp_refl]. cbn [app]. constructor. constructor; [apply spaced_concat|apply sp_refl].
      + pose proof (T_spaced m). rewrite S_app, T_app, S_app, T_app, S_app, T_app, S_app, T_app, S_map. fin.
  Qed.

  Ltac start := apply gain_same; change (own _) with (texts ltac:(match goal with H : tells ?e |- _ => exact e end)); told; cbn [steps texts].

  (** Methods with a proof of their own. *)
  Definition hard (e : expr) : bool :=
    match e with
    | EBinaryOperation _ _ _ _ _ | EIdent _ _ _ _ | ECreateMaterializedView _ _ _ _ _ _ _ _ _ _ _ _ _ _ _ _ _ _ _ | EAuthenticationClause _ _ _ _ _ _ _ _ | EDefaultRoleClause _ _ _ _ | EGranteesClause _ _ _ _ _ _ | ECreateUser _ _ _ _ _ _ _ _ _ _ _ _ _ | EDestinationClause _ _ _ | ENotNullLiteral _ _ | ENestedIdentifier _ _ | EPartitionClause _ _ _ _ | ETTLPolicyRule _ _ _ _ | EMapLiteral _ _ _ | EArrayParamList _ _ _ | EColumnDef _ _ _ _ _ _ _ _ _ _ _ _ _ | EJSONOption _ _ _ _ _ | EJSONOptions _ _ _ | ECompressionCodec _ _ _ _ _ _ | ETopClause _ _ _ _ | ECreateLiveView _ _ _ _ _ _ _ _ _ _ | EDictionaryEngineClause _ _ _ _ _ _ _ | EDictionaryArgExpr _ _ _ _ _ _ | EDictionaryLifetimeClause _ _ _ _ _ | EWithTimeoutClause _ _ _ | EJoinExpr _ _ _ _ _ | EAliasExpr _ _ _ | EWhereClause _ _ | EWindowExpr _ _ _ _ _ _ | ESelectQuery _ _ _ _ _ _ _ _ _ _ _ _ _ _ _ _ _ _ _ _ _ _ _ | EDropDatabase _ _ _ _ _ _ | EDropStmt _ _ _ _ _ _ _ _ | EDropUserOrRole _ _ _ _ _ _ _ | ECTEStmt _ _ _ | ESetStmt _ _ | ESystemFlushExpr _ _ _ _ | EInsertStmt _ _ _ _ _ _ _ | ERenameStmt _ _ _ _ _ | EGrantPrivilegeStmt _ _ _ _ _ _ _ | EShowStmt _ _ _ _ _ _ _ _ _ _ => true
    | _ => false
    end.

  Lemma steps_easy e : tells e -> hard e = false -> steps false e <> [SPanic] -> gain e.
  Proof.
    intros Ht Hh Hp. destruct e; try discriminate Hh; clear Hh; try (clear Hp; start; solve [fin]); exfalso; now apply Hp.
  Qed.

  Ltac nilcase e := let E := fresh "Nil" in destruct (is_nil e) eqn:E; [pose proof (T_nilexpr e E) | idtac]; cbn [negb andb orb when].
  Ltac unsure := match goal with H : _ \/ _ |- _ => destruct H end; repeat split1; cbn [is_nil negb andb orb].
  Ltac below := repeat match goal with
    | H : Forall (All tells) (_ :: _) |- _ => apply Forall_cons_iff in H; destruct H
    | H : Forall (All tells) (_ ++ _) |- _ => apply Forall_app in H; destruct H
    end.

  Lemma steps_hard e : tells e -> Forall (All tells) (subs e) -> kinds e -> forgotten e = false -> hard e = true -> gain e.
  Proof.
    intros Ht Hts Hk Hf Hh. destruct e; try discriminate Hh; clear Hh.
    - start. rewrite andb_false_r. destruct (String.eqb Operation "::"); cbn [negb when]; fin.
    - start. repeat match goal with |- context [if ?c then _ else _] => destruct c end; norm; lia.
    - (* ECreateMaterializedView *) start. unsure; [fin|]. subst. cbn [DestinationClause_TableSchema is_nil negb when texts].
      match goal with |- context [EDestinationClause ?p ?t ?s] => pose proof (T_dest p t s) end. fin.
    - (* EAuthenticationClause *) start. destruct NotIdentified.
      + destruct H as (-> & -> & -> & ->); [reflexivity|]. cbn [texts app]. rewrite T_empty. lia.
      + unsure; [destruct IsKerberos; cbn [when]; fin|]. subst. cbn [is_nil negb andb when texts StringLiteral_Literal]. fin.
    - start. destruct None; [rewrite H by reflexivity; cbn; lia|fin].
    - start. destruct Any; [|destruct None]; try rewrite H by reflexivity; fin.
    - start. nilcase e4; [destruct DefaultDbNone|]; fin.
    - apply gain_same. unfold own. cbn [steps alone]. told. nilcase e2; cbn [texts]; fin.
    - start. rewrite Ht. cbn; lia.
    - start. nilcase e2; fin.
    - start. unsure; cbn [texts app]; [|nilcase e2]; destruct All; try (rewrite H0 by reflexivity; cbn [texts]); fin.
    - start. unsure; [nilcase e3|unsure; [nilcase e2|nilcase e1]]; cbn [texts]; fin.
    - (* EMapLiteral *) start. rewrite !S_app, !T_app. cbn [kinds] in Hk.
      enough (T (flat_map texts KeyValues) <= S' (each (fun first _ x => when (negb first) [SW ", "] ++ [SPtr (KeyValue_Key x); SW ": "; Format.SExpr (KeyValue_Value x)]) KeyValues)) by lia.
      apply each_le. intros a b x Hx. rewrite Forall_forall in Hts, Hk. specialize (Hts x Hx). specialize (Hk x Hx). apply All_inv in Hts.
      destruct x; destruct Hk as [Hk|Hk]; try discriminate Hk; [cbn; lia|]. destruct Hts as [Hx' _]. told. cbn [texts KeyValue_Key KeyValue_Value]. fin.
    - (* EArrayParamList *) start. subst. below. match goal with H : All tells _ |- _ => apply All_inv in H; destruct H as [H _] end. told. cbn [ColumnExprList_Items texts]. unfold need. cbn [is_nil]. fin.
    - (* EColumnDef *) start. rewrite H, H0. nilcase e3; [nilcase e4|]; cbn [texts]; fin.
    - (* EJSONOption *) start. destruct Hk as (_ & _ & _ & _ & [Hk|Hk]); destruct e5; try discriminate Hk; cbn [is_nil negb andb when]; [fin|]. below.
      match goal with H : All tells (EJSONTypeHint _ _) |- _ => apply All_inv in H; destruct H as [H _] end. told. cbn [JSONTypeHint_Path JSONTypeHint_Type texts].
      repeat match goal with H : is_nil _ = false |- _ => rewrite H; clear H end. cbn [negb andb]. match goal with |- context [when (?a || ?b) _] => destruct (a || b) end; cbn [when]; fin.
    - (* EJSONOptions *) start. rewrite (T_perm _ _ (json_perm Items)).
      assert (Forall single (filter (fun x => json_group x =? 1) Items ++ filter (fun x => json_group x =? 2) Items ++ filter (fun x => json_group x =? 3) Items)).
      { rewrite Forall_forall in *. intros x Hx. apply Ht. eapply Permutation_in; [symmetry; apply json_perm|exact Hx]. }
      generalize dependent (filter (fun x => json_group x =? 1) Items ++ filter (fun x => json_group x =? 2) Items ++ filter (fun x => json_group x =? 3) Items). intros l Hl. fin.
    - (* ECompressionCodec *) start. rename H into Ha, H0 into Hb. nilcase e1; [rewrite (Ha (nil_eq _ Nil))|]; (nilcase e3; [rewrite (Hb (nil_eq _ Nil0))|]); fin.
    - (* ETopClause *) start. subst. cbn [texts NumberLiteral_Literal]. unfold need. cbn [is_nil]. fin.
    - (* ECreateLiveView *) cbn [forgotten] in Hf. apply negb_false_iff in Hf. start. pose proof (T_nilexpr _ Hf). fin.
    - (* EDictionaryEngineClause *) start. set (l := [e1; e2; e3; e4; e5]).
      assert (T (texts e1 ++ texts e2 ++ texts e3 ++ texts e4 ++ texts e5 ++ texts e6) = T (flat_map texts l) + T (texts e6)) as -> by (unfold l; cbn [flat_map]; rewrite !T_app, T_nil; lia).
      rewrite T_some. assert (Forall single (filter (fun c => negb (is_nil c)) l)) by (apply single_some; unfold l; repeat constructor; assumption).
      generalize (existsb (fun c => negb (is_nil c)) l). intros b0. generalize dependent (filter (fun c => negb (is_nil c)) l). intros f Hl. unfold between_breaks.
      unsure; [cbn [when]; fin|]. subst. below. match goal with H : All tells (ESettingsClause _ _ _) |- _ => apply All_inv in H; destruct H as [H _] end. told.
      cbn [SettingsClause_Items texts is_nil negb when]. destruct b0; cbn [when]; fin.
    - (* EDictionaryArgExpr *) start. unsure; subst; cbn [is_pzero negb flat_map]; [fin|]. destruct (is_pzero LParenPos) eqn:E; [destruct LParenPos; try discriminate E; now exfalso|]. cbn [negb]. fin.
    - (* EDictionaryLifetimeClause *) start. unsure; [cbn [is_nil negb andb]; nilcase e3; cbn [texts]; fin|]. repeat match goal with H : is_nil _ = false |- _ => rewrite H; clear H end. cbn [is_nil negb andb]. fin.
    - (* EWithTimeoutClause *) start. nilcase e2; cbn [texts]; fin.
    - (* EJoinExpr *) destruct Modifiers as [|m ms]; [|apply gain_same; cbn; lia]. destruct Ht as (Hm & Hr & Hl & _). rewrite (Hm eq_refl) in *. cbn [subs] in Hts. below.
      destruct (join_keep e2) as (l' & Hsp & Hle); [assumption|exact Hr|]. exists ([Format.SExpr e1] ++ l'). split; [cbn [steps]; apply sp_app; [apply sp_refl|exact Hsp]|].
      change (own (EJoinExpr JoinPos e1 e2 [] ENil)) with (texts (EJoinExpr JoinPos e1 e2 [] ENil)). cbn [texts]. norm. lia.
    - start. destruct (is_select e1); fin.
    - start. destruct (is_logical e); fin.
    - (* EWindowExpr *) start. set (l := [e1; e2; e3; e4]).
      assert (T (texts e1 ++ texts e2 ++ texts e3 ++ texts e4) = T (flat_map texts l)) as -> by (unfold l; cbn [flat_map]; now rewrite app_nil_r).
      rewrite T_some. assert (Forall single (filter (fun c => negb (is_nil c)) l)) by (apply single_some; unfold l; repeat constructor; assumption).
      generalize dependent (filter (fun c => negb (is_nil c)) l). intros f Hl. fin.
    - (* ESelectQuery *) start. assert (D : T (texts e3) <= S' (when HasDistinct ([SW " DISTINCT"] ++ when (negb (is_nil e3)) [SW " "; SPtr e3]))).
      { cbn [forgotten] in Hf. destruct HasDistinct; cbn [negb andb] in Hf; [cbn [when]; fin|]. apply negb_false_iff in Hf. rewrite (T_nilexpr _ Hf). lia. }
      assert (A : T (texts e1) <= S' (when (negb (is_nil e1)) ([SW "WITH"; SIndent] ++ (each (fun first _ x => (if first then [SBreak] else [SW ","; SBreak]) ++ [SPtr x]) (WithClause_CTEs e1)) ++ [SDedent; SBreak]))).
      { match goal with H : e1 = ENil \/ _ |- _ => destruct H as [-> | (p & q & l & ->)] end; [cbn; lia|]. below. match goal with H : All tells (EWithClause _ _ _) |- _ => apply All_inv in H; destruct H as [H _] end. told.
        cbn [is_nil negb when WithClause_CTEs texts]. rewrite !S_app, !T_app. assert (T (flat_map texts l) <= S' (each (fun first _ x => (if first then [SBreak] else [SW ","; SBreak]) ++ [SPtr x]) l)) by (apply each_single; [assumption|intros []; intros; fin]). cbv beta in *. lia. }
      assert (I : T (flat_map texts SelectItems) <= S' (each (fun first _ x => (if first then [SBreak] else [SW ","; SBreak]) ++ [SPtr x]) SelectItems)) by (apply each_single; [assumption|intros []; intros; fin]).
      rewrite !S_app, !T_app. cbv beta in D, A, I.
      match type of D with _ <= ?x => generalize dependent x end. intros d D. match type of A with _ <= ?x => generalize dependent x end. intros a A. match type of I with _ <= ?x => generalize dependent x end. intros b I.
      match goal with H : _ = ENil /\ _ \/ _ |- _ => destruct H as [(-> & -> & ->)|[(-> & -> & ->)|[(-> & -> & ->)|(-> & -> & ->)]]] end; cbn [is_nil negb]; [nilcase e18|nilcase e17|nilcase e16|nilcase e15]; fin.
    - (* EDropDatabase *) eexists. split.
      + cbn [steps]. repeat (apply sp_app; [apply sp_refl|]). apply sp_when, (sp_one _ [" "; Modifier]). reflexivity.
      + change (own _) with (texts ltac:(match goal with H : tells ?e |- _ => exact e end)); told; cbn [texts map]. fin.
    - (* EDropStmt *) eexists. split.
      + cbn [steps]. do 2 (apply sp_app; [apply sp_refl|]). apply sp_app; [apply (sp_one _ [DropTarget; " "]); reflexivity|]. do 3 (apply sp_app; [apply sp_refl|]). apply sp_when, (sp_one _ [" "; Modifier]). reflexivity.
      + change (own _) with (texts ltac:(match goal with H : tells ?e |- _ => exact e end)); told; cbn [texts map]. fin.
    - (* EDropUserOrRole *) eexists. split.
      + cbn [steps]. apply sp_app; [apply (sp_one _ ["DROP "; Target; " "]); reflexivity|]. do 2 (apply sp_app; [apply sp_refl|]). apply sp_app; [|apply sp_refl]. apply sp_when, (sp_one _ [" "; Modifier]). reflexivity.
      + change (own _) with (texts ltac:(match goal with H : tells ?e |- _ => exact e end)); told; cbn [texts map]. fin.
    - start. destruct (is_select e2); fin.
    - (* ESetStmt *) start. subst. below. match goal with H : All tells _ |- _ => apply All_inv in H; destruct H as [H _] end. told. cbn [SettingsClause_Items texts]. unfold need. cbn [is_nil]. fin.
    - (* ESystemFlushExpr *) start. destruct Logs; [rewrite H by reflexivity; cbn; lia|fin].
    - (* EInsertStmt *) start. unsure; subst; cbn [is_nil is_empty negb flat_map]; [destruct (is_empty Values) eqn:E; [pose proof (T_emptylist _ E)|]; cbn [negb]|nilcase e4]; fin.
    - (* ERenameStmt *) eexists. split.
      + cbn [steps]. apply sp_app; [apply (sp_one _ ["RENAME "; RenameTarget; " "]); reflexivity|apply sp_refl].
      + change (own _) with (texts ltac:(match goal with H : tells ?e |- _ => exact e end)); told; cbn [texts map]. below. destruct Hk as [Hk _].
        assert (A : T (flat_map texts TargetPairList) <= S' (each (fun first _ x => when (negb first) [SW ", "] ++ [SPtr (TargetPair_Old x); SW " TO "; SPtr (TargetPair_New x)]) TargetPairList)).
        { apply each_le. intros a b x Hx. rewrite Forall_forall in *. match goal with H : forall x, In x TargetPairList -> All tells x |- _ => specialize (H x Hx); apply All_inv in H; destruct H as [H _]; rename H into Hp end. specialize (Hk x Hx).
          destruct x; destruct Hk as [Hk|Hk]; try discriminate Hk; [cbn; lia|]. told. cbn [texts TargetPair_Old TargetPair_New]. fin. }
        rewrite !S_app, !T_app. cbv beta in A. match type of A with _ <= ?x => generalize dependent x end. intros n Hn. fin.
    - (* EGrantPrivilegeStmt *) eexists. split.
      + cbn [steps]. do 5 (apply sp_app; [apply sp_refl|]). apply (sp_each _ (fun _ _ x => [SW " WITH "; SW x; SW " OPTION"])). intros a b x. apply (sp_one _ [" WITH "; x; " OPTION"]). reflexivity.
      + change (own _) with (texts ltac:(match goal with H : tells ?e |- _ => exact e end)); told; cbn [texts map]. fold (each (fun (_ _ : bool) (x : string) => [SW " WITH "; SW x; SW " OPTION"]) WithOptions). fin.
    - (* EShowStmt *) start. pose proof T_empty. pose proof (T_word "LIKE" ltac:(vm_compute; reflexivity) eq_refl). pose proof (T_word "ILIKE" ltac:(vm_compute; reflexivity) eq_refl).
      unsure; subst; [|unsure; subst]; cbn [String.eqb Ascii.eqb Bool.eqb negb andb when]; [|nilcase e2|nilcase e2]; try destruct NotLike; fin.
  Qed.

  Lemma steps_mode b e : is_logical e = false -> steps b e = steps false e.
  Proof. destruct e; try reflexivity. cbn [is_logical steps]. now intros ->. Qed.

  Lemma steps_keep b e : All tells e -> kinds e -> forgotten e = false -> steps b e <> [SPanic] -> exists l', sp (steps b e) l' /\ T (own e) <= S' l'.
  Proof.
    intros Ht Hk Hf Hp. apply All_inv in Ht. destruct Ht as [Ht Hts]. destruct (is_logical e) eqn:L.
    - exists (steps b e). split; [apply sp_refl|]. destruct e; try discriminate L. cbn [is_logical] in L. change (own _) with (texts (EBinaryOperation e1 Operation e2 HasGlobal HasNot)).
      told. cbn [steps texts]. rewrite L. unfold logical_operand. destruct (String.eqb Operation "::"), b, (is_logical e1), (is_logical e2); cbn [negb andb when]; fin.
    - rewrite (steps_mode b e L) in *. destruct (hard e) eqn:E; [now apply steps_hard|now apply steps_easy].
  Qed.

End Steps.
