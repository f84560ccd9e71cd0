(** [FormatSQL] of a parsed tree dereferences no nil pointer, unless a [FunctionExpr] has no
    parameters. *)
From Coq Require Import String Ascii List Arith Bool Lia.
From Verif Require Import Str Ast AstPos AstSubs Walk Visitor WalkSpec WalkFacts Format FormatSpec FormatFacts.
Import ListNotations.
Local Open Scope list_scope.
Local Open Scope nat_scope.

(** What a step formats exists, and has a method for it. *)
Definition plainly (c : expr) : Prop := match c with EKeyValue _ _ | EJSONTypeHint _ _ => False | _ => True end.
Definition safe (x : step) : Prop :=
  match x with SExpr c => plainly c | SPtr c | SCompact c => is_nil c = false /\ plainly c | SPanic => False | _ => True end.

Lemma fits_plainly k c : k <> SKeyValue -> k <> SHint -> fits k c -> plainly c.
Proof. intros H1 H2 [H|H]; destruct c; try exact I; cbn in H; congruence. Qed.
Lemma some_plainly k c : k <> SKeyValue -> k <> SHint -> fits k c -> is_nil c = false -> is_nil c = false /\ plainly c.
Proof. intros. split; [assumption|]. eapply fits_plainly; eassumption. Qed.

Lemma F_guard (P : step -> Prop) e l : (is_nil e = false -> Forall P l) -> Forall P (when (negb (is_nil e)) l).
Proof. intros H. destruct (is_nil e); [constructor|now apply H]. Qed.
Lemma F_both (P : step -> Prop) a b l : (a = true -> b = true -> Forall P l) -> Forall P (when (a && b) l).
Proof. intros H. destruct a, b; cbn; auto. Qed.
Lemma F_guard_if (P : step -> Prop) (c : bool) l l' : (c = true -> Forall P l) -> (c = false -> Forall P l') -> Forall P (if c then l else l').
Proof. intros H. destruct c; auto. Qed.
Lemma F_need' (P : step -> Prop) e l : is_nil e = false -> Forall P l -> Forall P (need e l).
Proof. unfold need. now intros ->. Qed.
Lemma musts l : Forall (fun c => match c with Opt _ => True | Must x => is_nil x = false end) (map Must l) -> forall x, In x l -> is_nil x = false.
Proof. intros H x Hx. rewrite Forall_forall in H. apply (H (Must x)). now apply in_map. Qed.
Lemma alls {P : expr -> Prop} {l} : Forall P l -> forall x, In x l -> P x.
Proof. now rewrite Forall_forall. Qed.
Lemma guard e : negb (is_nil e) = true -> is_nil e = false.
Proof. now destruct (is_nil e). Qed.
Lemma guard' e : negb (is_nil e) = false -> is_nil e = true.
Proof. now destruct (is_nil e). Qed.

Ltac fact H :=
  cbv beta iota in H;
  match type of H with
  | _ /\ _ => let H1 := fresh in destruct H as [H1 H]; fact H1; fact H
  | Forall _ (_ ++ _) => apply Forall_app in H; let H1 := fresh in destruct H as [H1 H]; fact H1; fact H
  | Forall _ (_ :: _) => let H1 := fresh in let H2 := fresh in pose proof (Forall_inv H) as H1; pose proof (Forall_inv_tail H) as H2; clear H; fact H1; fact H2
  | Forall _ (map Must _) => let H1 := fresh in pose proof (musts _ H) as H1; clear H
  | Forall _ [] => clear H
  | Forall _ (map Opt _) => clear H
  | Forall _ _ => let H1 := fresh in pose proof (alls H) as H1; clear H; cbv beta in H1
  | True => clear H
  | _ => idtac
  end.

Ltac st :=
  match goal with
  | |- Forall _ [] => constructor
  | |- Forall _ (_ :: _) => constructor; [cbn [safe]|]
  | |- Forall _ (_ ++ _) => apply F_app
  | |- Forall _ (when (negb (is_nil _)) _) => apply F_guard; intros
  | |- Forall _ (when (_ && _) _) => apply F_both; intros
  | |- Forall _ (when _ _) => apply F_when
  | |- Forall _ (need _ _) => apply F_need'
  | |- Forall _ (if _ then _ else _) => apply F_guard_if; intros
  | |- Forall _ (each _ _) => apply F_each; intros
  | H : negb (is_nil _) = true |- _ => apply guard in H
  | H : negb (is_nil _) = false |- _ => apply guard' in H
  | H : (_ && _) = true |- _ => apply andb_prop in H; destruct H
  | H : In _ (filter _ _) |- _ => apply filter_In in H; destruct H
  | |- True => exact I
  end.
Ltac pl := first [assumption
  | match goal with H : fits _ ?c |- plainly ?c => solve [eapply fits_plainly; [| |exact H]; discriminate] end
  | match goal with H : forall x, In x ?l -> fits _ x, H1 : In ?c ?l |- plainly ?c => solve [eapply fits_plainly; [| |exact (H c H1)]; discriminate] end].
Ltac ns := first [assumption | match goal with H : forall x, In x ?l -> is_nil x = false, H1 : In ?c ?l |- is_nil ?c = false => exact (H c H1) end].
Ltac fin := first [exact I | pl | ns | split; [ns|pl]].

Lemma All_inv (P : expr -> Prop) e : All P e -> P e /\ Forall (All P) (subs e).
Proof. now inversion 1. Qed.

Lemma safe_items e x : All kinds e -> In x (ColumnExprList_Items e) -> plainly x.
Proof.
  intros H Hx. apply All_inv in H as [H _]. destruct e; try contradiction Hx. cbn [ColumnExprList_Items] in Hx. cbn [kinds subs] in H. fact H. pl.
Qed.
Lemma safe_ctes e x : All kinds e -> All gapless e -> In x (WithClause_CTEs e) -> is_nil x = false /\ plainly x.
Proof.
  intros H Hg Hx. apply All_inv in H as [H _]. apply All_inv in Hg as [Hg _]. destruct e; try contradiction Hx. cbn [WithClause_CTEs] in Hx. cbn [kinds subs] in H.
  cbn [gapless] in Hg. unfold no_gap in Hg. cbn [accept_children] in Hg. fact H. fact Hg. fin.
Qed.
Lemma safe_settings e x : All kinds e -> All gapless e -> In x (SettingsClause_Items e) -> is_nil x = false /\ plainly x.
Proof.
  intros H Hg Hx. apply All_inv in H as [H _]. apply All_inv in Hg as [Hg _]. destruct e; try contradiction Hx. cbn [SettingsClause_Items] in Hx. cbn [kinds subs] in H.
  cbn [gapless] in Hg. unfold no_gap in Hg. cbn [accept_children] in Hg. fact H. fact Hg. fin.
Qed.
Lemma safe_schema e : All kinds e -> plainly (DestinationClause_TableSchema e).
Proof. intros H. apply All_inv in H as [H _]. destruct e; try exact I. cbn [kinds subs] in H. cbn [DestinationClause_TableSchema]. fact H. pl. Qed.

Lemma join_safe e : All kinds e -> plainly e -> Forall safe (join_steps e).
Proof.
  revert e. apply (expr_rect_subs (fun e => All kinds e -> plainly e -> Forall safe (join_steps e))). intros e IH Hk Hp.
  apply All_inv in Hk as [Hk Hks]. destruct e; cbn [join_steps]; repeat st; try fin; cbn [kinds subs] in Hk; fact Hk; try fin.
  rewrite Forall_forall in Hks. apply IH; [member|apply Hks; member|pl].
Qed.

Lemma steps_safe b e : is_nil e = false -> plainly e -> All kinds e -> All gapless e -> All filled e -> ~ no_args e -> Forall safe (steps b e).
Proof.
  intros Hn Hp Hk Hg Hf Ha. apply All_inv in Hk as [Hk Hks]. apply All_inv in Hg as [Hg Hgs]. apply All_inv in Hf as [Hf Hfs].
  apply gapless_no_gap in Hg; [|exact Ha]. rewrite Forall_forall in Hks, Hgs, Hfs.
  destruct e; cbn [plainly] in Hp; try contradiction; unfold no_gap in Hg; cbn [accept_children] in Hg; cbn [kinds subs] in Hk; cbn [filled] in Hf;
  unfold steps; unfold logical_operand, operator_prefix, between_breaks;
  fact Hg; fact Hk; fact Hf; repeat st; try fin.
  - discriminate.
  - split; [assumption|]. apply safe_schema, Hks. member.
  - assert (Hx : exists k v, x = EKeyValue k v).
    { match goal with H : forall y, In y _ -> fits SKeyValue y, H1 : In x _, H2 : forall y, In y KeyValues -> is_nil y = false |- _ => specialize (H x H1); specialize (H2 x H1); destruct H as [H|H]; destruct x; try discriminate; eauto end. }
    destruct Hx as (k & v & ->). cbn [KeyValue_Key]. split.
    + match goal with H : forall y, In y (flat_map key_value _) -> is_nil y = false |- _ => apply H end. apply in_flat_map. eexists. split; [eassumption|]. cbn. auto.
    + assert (Hx : All kinds (EKeyValue k v)) by (apply Hks; member). apply All_inv in Hx as [Hx _]. cbn [kinds subs] in Hx. fact Hx. pl.
  - assert (Hx : All kinds x) by (apply Hks; member). apply All_inv in Hx as [Hx _]. destruct x; try exact I. cbn [kinds subs] in Hx. cbn [KeyValue_Value]. fact Hx. pl.
  - eapply safe_items; [|eassumption]. apply Hks. member.
  - split; [assumption|]. assert (Hx : All kinds e5) by (apply Hks; member). apply All_inv in Hx as [Hx _]. destruct e5; try exact I. cbn [kinds subs] in Hx. cbn [JSONTypeHint_Path]. fact Hx. pl.
  - assert (Hx : All kinds e5) by (apply Hks; member). apply All_inv in Hx as [Hx _]. destruct e5; try exact I. cbn [kinds subs] in Hx. cbn [JSONTypeHint_Type]. fact Hx. pl.
  - assert (Hx : In x Items) by (rewrite !in_app_iff, !filter_In in *; tauto). fin.
  - assert (plainly x) by (match goal with H : In x [_; _; _; _; _] |- _ => cbn [In] in H; destruct H as [H|[H|[H|[H|[H|[]]]]]]; subst; pl end). fin.
  - apply (safe_settings e6); [apply Hks|apply Hgs|]; try assumption; member.
  - apply join_safe; [apply Hks; member|pl].
  - destruct Hf; [congruence|fin].
  - assert (plainly x) by (match goal with H : In x [_; _; _; _] |- _ => cbn [In] in H; destruct H as [H|[H|[H|[H|[]]]]]; subst; pl end). fin.
  - apply (safe_ctes e1); [apply Hks|apply Hgs|]; try assumption; member.
  - apply (safe_settings e); [apply Hks|apply Hgs|]; try assumption; member.
  - destruct Hf; [congruence|fin].
  - assert (Hx : All kinds x) by (apply Hks; member). assert (Hy : All filled x) by (apply Hfs; member).
    apply All_inv in Hx as [Hx _]. apply All_inv in Hy as [Hy _].
    match goal with H : forall y, In y _ -> fits SPair y, H1 : In x _, H2 : forall y, In y _ -> is_nil y = false |- _ => specialize (H x H1); specialize (H2 x H1); destruct H as [H|H]; destruct x; try discriminate end.
    cbn [kinds subs filled] in Hx, Hy. cbn [TargetPair_Old]. fact Hx. fact Hy. fin.
  - assert (Hx : All kinds x) by (apply Hks; member). assert (Hy : All filled x) by (apply Hfs; member).
    apply All_inv in Hx as [Hx _]. apply All_inv in Hy as [Hy _].
    match goal with H : forall y, In y _ -> fits SPair y, H1 : In x _, H2 : forall y, In y _ -> is_nil y = false |- _ => specialize (H x H1); specialize (H2 x H1); destruct H as [H|H]; destruct x; try discriminate end.
    cbn [kinds subs filled] in Hx, Hy. cbn [TargetPair_New]. fact Hx. fact Hy. fin.
Qed.

Lemma run_safe b l : (forall x c, In x l -> step_node x c -> is_nil c = false -> plainly c -> forall b', fmt b' c <> FPanic) ->
  Forall safe l -> run_steps fmt b l <> FPanic.
Proof.
  intros H Hl. induction Hl as [|x l Hx Hl IH]; [discriminate|]. cbn [run_steps].
  assert (H1 : run_step fmt b x <> FPanic).
  { destruct x; cbn [run_step safe] in *; try discriminate; try contradiction.
    - destruct (is_nil e) eqn:E; [discriminate|]. apply (H (Format.SExpr e)); auto; [now left|now left].
    - destruct Hx as [Hx Hp]. rewrite Hx. apply (H (SPtr e)); auto; [now left|right; now left].
    - destruct Hx as [Hx Hp]. rewrite Hx. pose proof (H (SCompact e) e (or_introl eq_refl) (or_intror (or_intror eq_refl)) Hx Hp false).
      destruct (fmt false e); cbn; congruence. }
  assert (H2 : run_steps fmt b l <> FPanic) by (apply IH; intros; eapply H; eauto; now right).
  destruct (run_step fmt b x); cbn; try congruence. destruct (run_steps fmt b l); cbn; congruence.
Qed.

Lemma fmt_safe t : is_nil t = false -> plainly t -> All kinds t -> All gapless t -> All filled t ->
  (forall n, node_of t n -> ~ no_args n) -> forall b, fmt b t <> FPanic.
Proof.
  remember (esize t) as n eqn:En. revert t En. induction n as [n IH] using lt_wf_ind. intros t -> H1 H2 H3 H4 H5 H6 b.
  rewrite fmt_eq. apply run_safe.
  - intros x c Hx Hc Hn Hp b'. pose proof (step_below b t x c Hx Hc Hn) as Hb. pose proof (below_node _ _ Hb) as Hb'.
    apply (IH (esize c)); auto; [now apply below_lt| | | |].
    + apply All_nodes. intros y Hy. apply (proj1 (All_nodes _ _) H3). eapply node_trans; eassumption.
    + apply All_nodes. intros y Hy. apply (proj1 (All_nodes _ _) H4). eapply node_trans; eassumption.
    + apply All_nodes. intros y Hy. apply (proj1 (All_nodes _ _) H5). eapply node_trans; eassumption.
    + intros y Hy. apply H6. eapply node_trans; eassumption.
  - apply steps_safe; auto. apply H6. constructor.
Qed.
