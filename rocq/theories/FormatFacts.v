(** Facts about [steps] (one case analysis over the nodes for each) and about the formatter. *)
From Coq Require Import String Ascii List Arith Bool Lia.
From Verif Require Import Str Ast AstPos AstSubs Format FormatSpec.
Import ListNotations.
Local Open Scope list_scope.
Local Open Scope nat_scope.

(** ** Strings *)

Lemma sapp_nil (s : string) : (s ++ "")%string = s.
Proof. induction s as [|c s IH]; [reflexivity|]. cbn [String.append]. now rewrite IH. Qed.
Lemma sapp_assoc (a b c : string) : ((a ++ b) ++ c)%string = (a ++ b ++ c)%string.
Proof. induction a as [|x a IH]; [reflexivity|]. cbn [String.append]. now rewrite IH. Qed.
Lemma slen_app (a b : string) : String.length (a ++ b) = String.length a + String.length b.
Proof. induction a as [|x a IH]; [reflexivity|]. cbn [String.append String.length]. now rewrite IH. Qed.
Lemma get_app_l (a b : string) i : i < String.length a -> String.get i (a ++ b) = String.get i a.
Proof. revert i. induction a as [|x a IH]; intros i H; cbn in H; [lia|]. destruct i as [|i]; [reflexivity|]. cbn. apply IH. lia. Qed.
Lemma get_app_r (a b : string) i : String.length a <= i -> String.get i (a ++ b) = String.get (i - String.length a) b.
Proof.
  revert i. induction a as [|x a IH]; intros i H; cbn [String.append String.length] in *.
  - now rewrite Nat.sub_0_r.
  - destruct i as [|i]; [lia|]. cbn [String.get Nat.sub]. apply IH. lia.
Qed.
Lemma get_len (s : string) i c : String.get i s = Some c -> i < String.length s.
Proof. revert i. induction s as [|x s IH]; intros i H; [destruct i; discriminate|]. destruct i as [|i]; cbn [String.length]; [lia|]. apply IH in H. lia. Qed.
Lemma one_line_app a b : one_line (a ++ b) = one_line a && one_line b.
Proof. induction a as [|x a IH]; [reflexivity|]. cbn [String.append one_line]. now rewrite IH, andb_assoc. Qed.
Lemma one_line_get s i : one_line s = true -> String.get i s <> Some newline.
Proof.
  revert i. induction s as [|c s IH]; intros i H; [destruct i; discriminate|]. cbn [one_line] in H. apply andb_prop in H. destruct H as [H1 H2].
  destruct i as [|i]; cbn [String.get]; [|now apply IH]. intros [= ->]. now rewrite Ascii.eqb_refl in H1.
Qed.
Lemma squeeze_app a b : squeeze (a ++ b) = (squeeze a ++ squeeze b)%string.
Proof. induction a as [|c a IH]; [reflexivity|]. cbn [String.append squeeze]. rewrite IH. now destruct (_ || _). Qed.

(** ** The nodes below a node *)

Definition below (e c : expr) : Prop := exists s, In s (subs e) /\ node_of s c.
Lemma node_trans a b c : node_of a b -> node_of b c -> node_of a c.
Proof. intros H. revert c. induction H as [t|t x e Hx H IH]; intros c Hc; [exact Hc|]. eapply node_sub; [exact Hx|]. now apply IH. Qed.
Lemma node_size t c : node_of t c -> esize c <= esize t.
Proof. induction 1 as [t|t x e Hx H IH]; [lia|]. apply subs_lt in Hx. lia. Qed.
Lemma below_lt e c : below e c -> esize c < esize e.
Proof. intros (s & Hs & H). apply subs_lt in Hs. apply node_size in H. lia. Qed.
Lemma below_node e c : below e c -> node_of e c.
Proof. intros (s & Hs & H). eapply node_sub; eassumption. Qed.
Lemma below_sub e c : In c (subs e) -> below e c.
Proof. intros H. exists c. split; [exact H|constructor]. Qed.
Lemma below_deep e s c : In s (subs e) -> node_of s c -> below e c.
Proof. intros H1 H2. now exists s. Qed.

(** ** What a line break of the text of a node comes from *)

(** Every line break of [t] lies in an occurrence of a string for which [H] holds, or of that string in upper case. *)
Definition breaks_in (H : string -> Prop) (t : string) : Prop :=
  forall i, String.get i t = Some newline -> exists s v, H s /\ (v = s \/ v = upper s) /\ within t i v.

Lemma breaks_plain H t : one_line t = true -> breaks_in H t.
Proof. intros Ht i Hi. now apply one_line_get with (i := i) in Ht. Qed.
Lemma breaks_self (H : string -> Prop) t : H t -> breaks_in H t.
Proof.
  intros Ht i Hi. exists t, t. split; [exact Ht|]. split; [now left|]. exists ""%string, ""%string. rewrite sapp_nil.
  split; [reflexivity|]. apply get_len in Hi. cbn. lia.
Qed.
Lemma breaks_upper (H : string -> Prop) t : H t -> breaks_in H (upper t).
Proof.
  intros Ht i Hi. exists t, (upper t). split; [exact Ht|]. split; [now right|]. exists ""%string, ""%string. rewrite sapp_nil.
  split; [reflexivity|]. apply get_len in Hi. cbn. lia.
Qed.
Lemma breaks_app H a b : breaks_in H a -> breaks_in H b -> breaks_in H (a ++ b).
Proof.
  intros Ha Hb i Hi. destruct (Nat.lt_ge_cases i (String.length a)) as [Hlt|Hge].
  - rewrite get_app_l in Hi by exact Hlt. destruct (Ha i Hi) as (s & v & Hs & Hv & p & q & E & L).
    exists s, v. split; [exact Hs|]. split; [exact Hv|]. exists p, (q ++ b)%string. split; [|exact L].
    rewrite E. now rewrite !sapp_assoc.
  - rewrite get_app_r in Hi by exact Hge. destruct (Hb _ Hi) as (s & v & Hs & Hv & p & q & E & L).
    exists s, v. split; [exact Hs|]. split; [exact Hv|]. exists (a ++ p)%string, q. split.
    + rewrite E. now rewrite !sapp_assoc.
    + rewrite slen_app. lia.
Qed.
Lemma breaks_concat (H : string -> Prop) sep l : one_line sep = true -> (forall s, In s l -> H s) -> breaks_in H (String.concat sep l).
Proof.
  intros Hs. induction l as [|x l IH]; intros Hl; [now apply breaks_plain|]. cbn [String.concat]. destruct l as [|y l].
  - apply breaks_self, Hl. now left.
  - apply breaks_app; [apply breaks_self, Hl; now left|]. apply breaks_app; [now apply breaks_plain|]. apply IH. intros s Hin. apply Hl. now right.
Qed.
Lemma breaks_mono (H H' : string -> Prop) t : (forall s, H s -> H' s) -> breaks_in H t -> breaks_in H' t.
Proof. intros M Ht i Hi. destruct (Ht i Hi) as (s & v & Hs & R). exists s, v. split; [now apply M|exact R]. Qed.

(** ** The steps of a node *)

Definition step_ok (e : expr) (x : step) : Prop :=
  match x with
  | SW s => breaks_in (held e) s
  | SExpr c | SPtr c | SCompact c => is_nil c = true \/ below e c
  | _ => True
  end.

Lemma F_app (P : step -> Prop) l1 l2 : Forall P l1 -> Forall P l2 -> Forall P (l1 ++ l2).
Proof. intros H1 H2. apply Forall_app. now split. Qed.
Lemma F_when (P : step -> Prop) c l : Forall P l -> Forall P (when c l).
Proof. now destruct c; cbn; [|constructor]. Qed.
Lemma F_if (P : step -> Prop) (c : bool) l1 l2 : Forall P l1 -> Forall P l2 -> Forall P (if c then l1 else l2).
Proof. now destruct c. Qed.
Lemma F_need (P : step -> Prop) e l : P SPanic -> Forall P l -> Forall P (need e l).
Proof. intros H1 H2. unfold need. destruct (is_nil e); [now constructor|exact H2]. Qed.
Lemma F_each A (P : step -> Prop) (f : bool -> bool -> A -> list step) l : (forall x b1 b2, In x l -> Forall P (f b1 b2 x)) -> Forall P (each f l).
Proof.
  unfold each. generalize true. induction l as [|x l IH]; intros b H; cbn [each_from]; [constructor|].
  apply F_app; [apply H; now left|]. apply IH. intros y b1 b2 Hy. apply H. now right.
Qed.

(** The projections give nodes below their argument. *)
Lemma sub_ColumnExprList e c : In c (ColumnExprList_Items e) -> node_of e c.
Proof. destruct e; cbn; try contradiction. intros H. eapply node_sub; [exact H|constructor]. Qed.
Lemma sub_SettingsClause e c : In c (SettingsClause_Items e) -> node_of e c.
Proof. destruct e; cbn; try contradiction. intros H. eapply node_sub; [exact H|constructor]. Qed.
Lemma sub_WithClause e c : In c (WithClause_CTEs e) -> node_of e c.
Proof. destruct e; cbn; try contradiction. intros H. eapply node_sub; [exact H|constructor]. Qed.
Lemma nil_or (f : expr -> expr) e : (forall x, is_nil (f x) = true \/ In (f x) (subs x)) -> is_nil (f e) = true \/ node_of e (f e).
Proof. intros H. destruct (H e) as [H1|H1]; [now left|]. right. eapply node_sub; [exact H1|constructor]. Qed.
Ltac prj := intros; apply nil_or; intros x; destruct x; cbn; tauto.
Lemma sub_Dest e : is_nil (DestinationClause_TableSchema e) = true \/ node_of e (DestinationClause_TableSchema e). Proof. prj. Qed.
Lemma sub_Path e : is_nil (JSONTypeHint_Path e) = true \/ node_of e (JSONTypeHint_Path e). Proof. prj. Qed.
Lemma sub_Type e : is_nil (JSONTypeHint_Type e) = true \/ node_of e (JSONTypeHint_Type e). Proof. prj. Qed.
Lemma sub_Key e : is_nil (KeyValue_Key e) = true \/ node_of e (KeyValue_Key e). Proof. prj. Qed.
Lemma sub_Value e : is_nil (KeyValue_Value e) = true \/ node_of e (KeyValue_Value e). Proof. prj. Qed.
Lemma sub_New e : is_nil (TargetPair_New e) = true \/ node_of e (TargetPair_New e). Proof. prj. Qed.
Lemma sub_Old e : is_nil (TargetPair_Old e) = true \/ node_of e (TargetPair_Old e). Proof. prj. Qed.
Lemma text_Number e : NumberLiteral_Literal e = ""%string \/ In (NumberLiteral_Literal e) (texts e).
Proof. destruct e; cbn; tauto. Qed.

Lemma mem0 A (x : A) l : In x (x :: l). Proof. now left. Qed.
Lemma mem_app_l A (x : A) l m : In x l -> In x (l ++ m). Proof. intros H. apply in_or_app. now left. Qed.
Lemma mem_app_r A (x : A) l m : In x m -> In x (l ++ m). Proof. intros H. apply in_or_app. now right. Qed.

Lemma below_trans e s c : below e s -> node_of s c -> below e c.
Proof. intros (x & Hx & H1) H2. exists x. split; [exact Hx|]. now apply node_trans with s. Qed.
Lemma sub_node s c : In c (subs s) -> node_of s c.
Proof. intros H. eapply node_sub; [exact H|constructor]. Qed.
Lemma proj_ok e s c : In s (subs e) -> is_nil c = true \/ node_of s c -> is_nil c = true \/ below e c.
Proof. intros H [H1|H1]; [now left|right]. now apply below_deep with s. Qed.
Lemma text_below e s x : In s (subs e) -> In x (texts s) -> held e x.
Proof. intros H1 H2. exists s. split; [now apply sub_node|exact H2]. Qed.
Lemma number_ok e s : In s (subs e) -> breaks_in (held e) (NumberLiteral_Literal s).
Proof.
  intros H. destruct (text_Number s) as [E|E]; [rewrite E; now apply breaks_plain|]. apply breaks_self. now apply text_below with s.
Qed.
Lemma text_ok e s : In s (texts e) -> breaks_in (held e) s.
Proof. intros H. apply breaks_self. exists e. split; [constructor|exact H]. Qed.

Ltac member := cbn [subs texts]; repeat rewrite in_app_iff; cbn [In]; tauto.

Ltac leaf :=
  match goal with
  | |- True => exact I
  | |- _ \/ _ => first
      [ right; apply below_sub; member
      | match goal with
        | |- context [DestinationClause_TableSchema ?s] => apply (proj_ok _ s); [member|apply sub_Dest]
        | |- context [JSONTypeHint_Path ?s] => apply (proj_ok _ s); [member|apply sub_Path]
        | |- context [JSONTypeHint_Type ?s] => apply (proj_ok _ s); [member|apply sub_Type]
        | |- context [KeyValue_Key ?s] => apply (proj_ok _ s); [member|apply sub_Key]
        | |- context [KeyValue_Value ?s] => apply (proj_ok _ s); [member|apply sub_Value]
        | |- context [TargetPair_New ?s] => apply (proj_ok _ s); [member|apply sub_New]
        | |- context [TargetPair_Old ?s] => apply (proj_ok _ s); [member|apply sub_Old]
        end
      | match goal with
        | H : In ?x (ColumnExprList_Items ?s) |- _ => right; apply (below_deep _ s); [member|now apply sub_ColumnExprList]
        | H : In ?x (SettingsClause_Items ?s) |- _ => right; apply (below_deep _ s); [member|now apply sub_SettingsClause]
        | H : In ?x (WithClause_CTEs ?s) |- _ => right; apply (below_deep _ s); [member|now apply sub_WithClause]
        end ]
  | |- breaks_in _ _ => first
      [ apply breaks_plain; reflexivity
      | apply text_ok; member
      | apply breaks_upper; eexists; split; [apply node_self|member]
      | apply number_ok; member
      | match goal with |- breaks_in _ (_ ++ _)%string => apply breaks_app; leaf end ]
  end.
Ltac stp :=
  match goal with
  | |- Forall _ [] => constructor
  | |- Forall _ (_ :: _) => constructor; [cbn [step_ok]|]
  | |- Forall _ (_ ++ _) => apply F_app
  | |- Forall _ (when _ _) => apply F_when
  | |- Forall _ (need _ _) => apply F_need; [exact I|]
  | |- Forall _ (if _ then _ else _) => apply F_if
  | |- Forall _ (each _ _) => apply F_each; intros
  | |- step_ok _ _ => cbn [step_ok]
  end.
Ltac stps := repeat stp; try leaf.

Lemma join_ok t e : below t e -> Forall (step_ok t) (join_steps e).
Proof.
  enough (H : forall n e, esize e <= n -> below t e -> Forall (step_ok t) (join_steps e)) by (eapply H; reflexivity).
  clear e. induction n as [|n IH]; intros e Hn He; [rewrite subs_size in Hn; lia|].
  assert (D : Forall (step_ok t) [SW ","; SExpr e]) by (repeat stp; [now apply breaks_plain|now right]).
  destruct e; try exact D. clear D. cbn [join_steps].
  assert (S : forall c, In c [e1; e2; e3] -> below t c).
  { intros c Hc. apply below_trans with (1 := He). apply sub_node. cbn [subs]. exact Hc. }
  cbn [In] in S. cbn [esize] in Hn.
  apply F_app; [apply F_if|apply F_when].
  - repeat stp; [now apply breaks_plain|right; apply S; tauto].
  - repeat stp; try exact I.
    + apply breaks_concat; [reflexivity|]. intros s Hs. exists (EJoinExpr JoinPos e1 e2 Modifiers e3). split; [now apply below_node|exact Hs].
    + right. apply S. tauto.
    + now apply breaks_plain.
    + right. apply S. tauto.
  - apply IH; [lia|]. apply S. tauto.
Qed.

Lemma filter_sub (p : expr -> bool) l x : In x (filter p l) -> In x l.
Proof. intros H. now apply filter_In in H. Qed.

Lemma steps_ok b e : Forall (step_ok e) (steps b e).
Proof.
  destruct e; unfold steps; unfold logical_operand, operator_prefix, between_breaks; stps.
  - right. apply below_sub. cbn [subs]. repeat rewrite in_app_iff in H. destruct H as [H|[H|H]]; now apply filter_sub in H.
  - right. apply below_sub. apply filter_sub in H. cbn [subs In] in *. tauto.
  - apply join_ok. apply below_sub. member.
  - right. apply below_sub. apply filter_sub in H. cbn [subs In] in *. tauto.
  - now destruct Not; apply breaks_plain.
Qed.

(** The mode matters for the operators AND and OR only. *)
Lemma steps_mode e : is_logical e = false -> steps true e = steps false e.
Proof. destruct e; intros H; try reflexivity. cbn [is_logical] in H. cbn [steps]. now rewrite H. Qed.

(** ** Indentation *)

(** The level after the calls, [None] when a [Dedent] is called at level 0. *)
Fixpoint slv (n : nat) (l : list step) : option nat :=
  match l with
  | [] => Some n
  | SIndent :: r => slv (S n) r
  | SDedent :: r => match n with O => None | S m => slv m r end
  | _ :: r => slv n r
  end.
Lemma slv_app n l1 l2 : slv n (l1 ++ l2) = match slv n l1 with Some m => slv m l2 | None => None end.
Proof. revert n. induction l1 as [|x l1 IH]; intros n; [reflexivity|]. cbn [app]. destruct x; cbn [slv]; try apply IH. destruct n; [reflexivity|apply IH]. Qed.
Lemma L_app n m k l1 l2 : slv n l1 = Some m -> slv m l2 = Some k -> slv n (l1 ++ l2) = Some k.
Proof. intros H1 H2. now rewrite slv_app, H1. Qed.
Lemma L_when n c l : slv n l = Some n -> slv n (when c l) = Some n.
Proof. now destruct c. Qed.
Lemma L_if n m (c : bool) l1 l2 : slv n l1 = Some m -> slv n l2 = Some m -> slv n (if c then l1 else l2) = Some m.
Proof. now destruct c. Qed.
Lemma L_need n e l : slv n l = Some n -> slv n (need e l) = Some n.
Proof. unfold need. now destruct (is_nil e). Qed.
Lemma L_each A n (f : bool -> bool -> A -> list step) l : (forall b1 b2 x, slv n (f b1 b2 x) = Some n) -> slv n (each f l) = Some n.
Proof. intros H. unfold each. generalize true. induction l as [|x l IH]; intros b; [reflexivity|]. cbn [each_from]. rewrite slv_app, H. apply IH. Qed.

Ltac lev :=
  match goal with
  | |- slv _ (_ ++ _) = _ => eapply L_app
  | |- slv _ (when _ _) = _ => apply L_when
  | |- slv _ (need _ _) = _ => apply L_need
  | |- slv _ (if _ then _ else _) = _ => apply L_if
  | |- slv _ (each _ _) = _ => apply L_each; intros
  | |- slv _ (_ :: _) = _ => cbn [slv]
  | |- slv _ [] = _ => reflexivity
  | |- Some _ = Some _ => reflexivity
  end.

Lemma join_lv n e : slv n (join_steps e) = Some n.
Proof.
  enough (H : forall k e, esize e <= k -> slv n (join_steps e) = Some n) by (eapply H; reflexivity).
  clear e. induction k as [|k IH]; intros e Hk; [rewrite subs_size in Hk; lia|].
  destruct e; try reflexivity. cbn [join_steps]. cbn [esize] in Hk. eapply L_app; [|apply L_when, IH; lia]. repeat lev.
Qed.

Lemma steps_lv b e n : slv n (steps b e) = Some n.
Proof.
  destruct e; unfold steps; unfold logical_operand, operator_prefix, between_breaks; repeat first [lev | apply join_lv].
Qed.

(** The same for the calls that reach the formatter. *)
Fixpoint lvl (n : nat) (l : list ev) : option nat :=
  match l with
  | [] => Some n
  | Ind :: r => lvl (S n) r
  | Ded :: r => match n with O => None | S m => lvl m r end
  | _ :: r => lvl n r
  end.
Lemma lvl_app n l1 l2 : lvl n (l1 ++ l2) = match lvl n l1 with Some m => lvl m l2 | None => None end.
Proof. revert n. induction l1 as [|x l1 IH]; intros n; [reflexivity|]. cbn [app]. destruct x; cbn [lvl]; try apply IH. destruct n; [reflexivity|apply IH]. Qed.

(** ** Recursion *)

Definition step_node (x : step) (c : expr) : Prop := x = SExpr c \/ x = SPtr c \/ x = SCompact c.

Lemma step_below b e x c : In x (steps b e) -> step_node x c -> is_nil c = false -> below e c.
Proof.
  intros Hin Hx Hc. pose proof (steps_ok b e) as H. rewrite Forall_forall in H. specialize (H x Hin).
  destruct Hx as [Hx|[Hx|Hx]]; subst x; cbn [step_ok] in H; destruct H as [H|H]; congruence.
Qed.

Lemma run_steps_ext rec1 rec2 b l :
  (forall x c b', In x l -> step_node x c -> is_nil c = false -> rec1 b' c = rec2 b' c) -> run_steps rec1 b l = run_steps rec2 b l.
Proof.
  induction l as [|x l IH]; intros H; [reflexivity|]. cbn [run_steps]. rewrite IH by (intros y c b' Hy; apply (H y c b'); now right).
  replace (run_step rec2 b x) with (run_step rec1 b x); [reflexivity|].
  destruct x; cbn [run_step]; try reflexivity; destruct (is_nil e) eqn:En; try reflexivity;
    (rewrite (fun b' => H _ e b' (or_introl eq_refl)); [reflexivity|unfold step_node; tauto|exact En]).
Qed.

Lemma fmt_more n b e : esize e <= n -> fmt_fuel n b e = fmt b e.
Proof.
  revert b e. induction n as [n IH] using lt_wf_ind. intros b e Hn. unfold fmt. destruct n as [|n]; [rewrite subs_size in Hn; lia|].
  destruct (esize e) as [|m] eqn:Em; [rewrite subs_size in Em; lia|]. cbn [fmt_fuel]. apply run_steps_ext. intros x c b' Hx Hc Hnil.
  apply (step_below b e x c Hx Hc) in Hnil. apply below_lt in Hnil. rewrite (IH n) by lia. symmetry. apply IH; lia.
Qed.

Lemma fmt_eq b e : fmt b e = run_steps fmt b (steps b e).
Proof.
  unfold fmt at 1. destruct (esize e) as [|m] eqn:Em; [rewrite subs_size in Em; lia|]. cbn [fmt_fuel]. apply run_steps_ext.
  intros x c b' Hx Hc Hnil. apply (step_below b e x c Hx Hc) in Hnil. apply below_lt in Hnil. apply fmt_more. lia.
Qed.

Lemma fmt_no_fuel b e : fmt b e <> FFuel.
Proof.
  revert b. remember (esize e) as n eqn:En. revert e En. induction n as [n IH] using lt_wf_ind. intros e -> b. rewrite fmt_eq.
  assert (H : forall x c, In x (steps b e) -> step_node x c -> is_nil c = false -> forall b', fmt b' c <> FFuel).
  { intros x c Hx Hc Hnil b'. apply (step_below b e x c Hx Hc), below_lt in Hnil. eapply IH; [exact Hnil|reflexivity]. }
  revert H. generalize (steps b e) as l. induction l as [|x l IHl]; intros H; cbn [run_steps]; [discriminate|].
  assert (Hl : run_steps fmt b l <> FFuel) by (apply IHl; intros y c Hy; apply (H y c); now right).
  assert (Hx : run_step fmt b x <> FFuel).
  { destruct x; cbn [run_step]; try discriminate; destruct (is_nil e0) eqn:E0; try discriminate.
    - apply (H (SExpr e0) e0); [now left|now left|exact E0].
    - apply (H (SPtr e0) e0); [now left|right; now left|exact E0].
    - assert (fmt false e0 <> FFuel) by (apply (H (SCompact e0) e0); [now left|right; now right|exact E0]). now destruct (fmt false e0). }
  destruct (run_step fmt b x); cbn [fbind]; try congruence. destruct (run_steps fmt b l); cbn [fbind]; congruence.
Qed.

(** A property of nodes and their calls that follows from that of the nodes below. *)
Lemma fmt_induction (P : bool -> expr -> list ev -> Prop) :
  (forall b e, (forall c b' l, below e c -> is_nil c = false -> fmt b' c = FOk l -> P b' c l) ->
     forall l, run_steps fmt b (steps b e) = FOk l -> P b e l) ->
  forall b e l, fmt b e = FOk l -> P b e l.
Proof.
  intros H b e. revert b. remember (esize e) as n eqn:En. revert e En. induction n as [n IH] using lt_wf_ind. intros e -> b l Hl.
  rewrite fmt_eq in Hl. apply H; [|exact Hl]. intros c b' l' Hc _ Hl'. apply (IH (esize c)); [now apply below_lt|reflexivity|exact Hl'].
Qed.

(** The calls of a list of steps are the calls of the steps. *)
Inductive calls (b : bool) : list step -> list ev -> Prop :=
| calls_nil : calls b [] []
| calls_cons x r t u : run_step fmt b x = FOk t -> calls b r u -> calls b (x :: r) (t ++ u).
Lemma run_calls b l t : run_steps fmt b l = FOk t <-> calls b l t.
Proof.
  split.
  - revert t. induction l as [|x l IH]; intros t H; cbn [run_steps] in H.
    + injection H as <-. constructor.
    + destruct (run_step fmt b x) as [t1| |] eqn:E1; cbn [fbind] in H; try discriminate.
      destruct (run_steps fmt b l) as [t2| |] eqn:E2; cbn [fbind] in H; try discriminate. injection H as <-. constructor; [exact E1|now apply IH].
  - induction 1 as [|x r t u H1 H2 IH]; [reflexivity|]. cbn [run_steps]. now rewrite H1, IH.
Qed.

Lemma fmt_lvl b e l : fmt b e = FOk l -> forall n, lvl n l = Some n.
Proof.
  revert b e l. apply (fmt_induction (fun b e l => forall n, lvl n l = Some n)). intros b e IH l Hl n. apply run_calls in Hl.
  pose proof (steps_lv b e n) as Hs.
  assert (Hin : forall x, In x (steps b e) -> In x (steps b e)) by tauto. revert Hs Hin Hl.
  generalize (steps b e) at 1 2 4 as ss. intros ss Hs Hin Hl. replace (lvl n l) with (slv n ss); [exact Hs|]. clear Hs. revert n Hin. induction Hl as [|x r t u H1 H2 IHc]; intros n Hin; [reflexivity|].
  rewrite lvl_app. assert (Hr : forall m, slv m r = lvl m u) by (intros m; apply IHc; intros y Hy; apply Hin; now right).
  assert (Hx : forall c, step_node x c -> is_nil c = false -> below e c) by (intros c; apply (step_below b e); apply Hin; now left).
  destruct x; cbn [run_step] in H1; cbn [slv]; try (injection H1 as <-; cbn [lvl]); try apply Hr; try discriminate.
  - destruct n; [reflexivity|apply Hr].
  - destruct (is_nil e0) eqn:E0; [injection H1 as <-; cbn [lvl]; apply Hr|]. rewrite (IH e0 b t); [apply Hr|apply Hx; [now left|exact E0]|exact E0|exact H1].
  - destruct (is_nil e0) eqn:E0; [discriminate|]. rewrite (IH e0 b t); [apply Hr|apply Hx; [right; now left|exact E0]|exact E0|exact H1].
  - destruct (is_nil e0); [discriminate|]. destruct (fmt false e0) as [t0| |]; cbn [fbind] in H1; try discriminate. injection H1 as <-.
    unfold compact_text. rewrite lvl_app. destruct (render _ _ _) as [|c q]; [|destruct (Ascii.eqb c "(")]; cbn [lvl]; apply Hr.
Qed.

Lemma write_indent_level ind s : level (snd (write_indent ind s)) = level s.
Proof. unfold write_indent. now destruct (line_start s). Qed.
Lemma write_byte_level b ind c s : level (snd (write_byte b ind c s)) = level s.
Proof.
  unfold write_byte. destruct b; [|reflexivity]. destruct (Ascii.eqb c (ch 10)); [reflexivity|].
  pose proof (write_indent_level ind s) as H. now destruct (write_indent ind s).
Qed.
Lemma write_string_level b ind t s : level (snd (write_string b ind t s)) = level s.
Proof.
  revert s. induction t as [|c t IH]; intros s; [reflexivity|]. cbn [write_string]. pose proof (write_byte_level b ind c s) as H.
  destruct (write_byte b ind c s) as [x s1]. specialize (IH s1). destruct (write_string b ind t s1) as [y s2]. cbn [snd] in *. congruence.
Qed.
Lemma do_break_level b ind s : level (snd (do_break b ind s)) = level s.
Proof. unfold do_break, new_line. destruct b; apply write_byte_level. Qed.
Lemma new_line_level b ind s : level (snd (new_line b ind s)) = level s.
Proof. unfold new_line. destruct b; [apply write_byte_level|reflexivity]. Qed.

Lemma play_level b ind l n m s k : lvl n l = Some m -> level s = n + k -> level (snd (play b ind l s)) = m + k.
Proof.
  revert n s. induction l as [|x l IH]; intros n s Hl Hs; cbn [lvl play] in *; [injection Hl as <-; exact Hs|].
  destruct (play1 b ind x s) as [t s1] eqn:E1.
  assert (G : forall n', lvl n' l = Some m -> level s1 = n' + k -> level (snd (let (u, s2) := play b ind l s1 in ((t ++ u)%string, s2))) = m + k).
  { intros n' H1 H2. specialize (IH n' s1 H1 H2). now destruct (play b ind l s1). }
  assert (L1 : level s1 = level (snd (play1 b ind x s))) by (now rewrite E1).
  destruct x; cbn [play1 lvl] in *.
  - apply (G n Hl). rewrite L1, write_string_level. exact Hs.
  - apply (G n Hl). rewrite L1, do_break_level. exact Hs.
  - apply (G n Hl). rewrite L1, new_line_level. exact Hs.
  - apply (G (S n) Hl). rewrite L1. cbn. lia.
  - destruct n as [|n]; [discriminate|]. apply (G n Hl). rewrite L1. cbn. lia.
Qed.

Lemma fmt_play_level b ind e l s : fmt b e = FOk l -> level (snd (play b ind l s)) = level s.
Proof. intros H. apply (play_level b ind l 0 0 s (level s)); [now apply (fmt_lvl b e)|reflexivity]. Qed.
Lemma fmt_prefix_level b ind e p q s : fmt b e = FOk (p ++ q) -> level s <= level (snd (play b ind p s)).
Proof.
  intros H. pose proof (fmt_lvl b e _ H 0) as L. rewrite lvl_app in L. destruct (lvl 0 p) as [m|] eqn:E; [|discriminate].
  rewrite (play_level b ind p 0 m s (level s)); [lia|exact E|reflexivity].
Qed.

(** ** Compact text *)

Fixpoint plain (l : list ev) : string :=
  match l with
  | [] => ""
  | W t :: r => t ++ plain r
  | Brk :: r => " " ++ plain r
  | _ :: r => plain r
  end%string.
Lemma plain_app l1 l2 : plain (l1 ++ l2) = (plain l1 ++ plain l2)%string.
Proof. induction l1 as [|x l1 IH]; [reflexivity|]. cbn [app]. destruct x; cbn [plain]; rewrite ?IH; try reflexivity. now rewrite sapp_assoc. Qed.

Lemma write_string_compact ind t s : write_string false ind t s = (t, s).
Proof. revert s. induction t as [|c t IH]; intros s; [reflexivity|]. cbn [write_string write_byte]. now rewrite IH. Qed.
Lemma play_compact ind l s : fst (play false ind l s) = plain l.
Proof.
  revert s. induction l as [|x l IH]; intros s; [reflexivity|]. cbn [play]. destruct x; cbn [play1 plain].
  - rewrite write_string_compact. specialize (IH s). destruct (play false ind l s). cbn [fst] in *. now rewrite IH.
  - cbn [do_break write_byte]. specialize (IH s). destruct (play false ind l s). cbn [fst] in *. now rewrite IH.
  - cbn [new_line]. specialize (IH s). now destruct (play false ind l s).
  - specialize (IH (mkFS (S (level s)) (line_start s))). now destruct (play false ind l _).
  - specialize (IH (mkFS (pred (level s)) (line_start s))). now destruct (play false ind l _).
Qed.
Lemma render_compact ind l : render false ind l = plain l.
Proof. apply play_compact. Qed.

Lemma plain_compact_text l : plain (compact_text l) = ((match plain l with String c _ => if Ascii.eqb c "(" then "" else " " | "" => "" end) ++ plain l)%string.
Proof.
  unfold compact_text. rewrite render_compact, plain_app. destruct (plain l) as [|c q]; [reflexivity|]. cbn [plain]. rewrite sapp_nil.
  now destruct (Ascii.eqb c "(").
Qed.

Lemma fmt_breaks b e l : fmt b e = FOk l -> breaks_in (held e) (plain l).
Proof.
  revert b e l. apply (fmt_induction (fun b e l => breaks_in (held e) (plain l))). intros b e IH l Hl. apply run_calls in Hl.
  assert (IH' : forall c b' l, below e c -> is_nil c = false -> fmt b' c = FOk l -> breaks_in (held e) (plain l)).
  { intros c b' l' Hc Hn Hl'. apply (breaks_mono (held c)); [|now apply (IH c b')]. intros s (x & Hx & Hs). exists x. split; [|exact Hs].
    apply node_trans with c; [now apply below_node|exact Hx]. }
  clear IH. pose proof (steps_ok b e) as Hs.
  induction Hl as [|x r t u H1 H2 IHc]; [now apply breaks_plain|]. inversion Hs as [|? ? Hx Hr]; subst. rewrite plain_app.
  apply breaks_app; [clear IHc H2 Hr Hs|now apply IHc].
  destruct x; cbn [run_step step_ok] in *; try (injection H1 as <-; cbn [plain]); try (now apply breaks_plain).
  - now rewrite sapp_nil.
  - destruct (is_nil e0) eqn:E0; [injection H1 as <-; now apply breaks_plain|]. destruct Hx as [Hx|Hx]; [congruence|]. now apply (IH' e0 b).
  - destruct (is_nil e0) eqn:E0; [discriminate|]. destruct Hx as [Hx|Hx]; [congruence|]. now apply (IH' e0 b).
  - destruct (is_nil e0) eqn:E0; [discriminate|]. destruct Hx as [Hx|Hx]; [congruence|].
    destruct (fmt false e0) as [t0| |] eqn:E; cbn [fbind] in H1; try discriminate. injection H1 as <-. rewrite plain_compact_text.
    apply breaks_app; [|now apply (IH' e0 false)]. destruct (plain t0) as [|c q]; [|destruct (Ascii.eqb c "(")]; now apply breaks_plain.
Qed.

(** ** Both modes *)

Definition fapp (a b : fres string) : fres string := fbind a (fun x => fbind b (fun y => FOk (x ++ y)%string)).
Lemma fapp_assoc a b c : fapp (fapp a b) c = fapp a (fapp b c).
Proof. destruct a, b, c; cbn [fapp fbind]; try reflexivity. now rewrite sapp_assoc. Qed.
Lemma fapp_nil a : fapp (FOk ""%string) a = a.
Proof. now destruct a. Qed.

(** The text of a list of steps, without blanks. *)
Definition sq (b : bool) (l : list step) : fres string := fbind (run_steps fmt b l) (fun t => FOk (squeeze (plain t))).
Lemma sq_cons b x l : (run_step fmt b x <> FFuel) -> run_steps fmt b l <> FFuel ->
  sq b (x :: l) = fapp (fbind (run_step fmt b x) (fun t => FOk (squeeze (plain t)))) (sq b l).
Proof.
  unfold sq. cbn [run_steps]. intros H1 H2. destruct (run_step fmt b x); cbn [fbind fapp]; try reflexivity.
  destruct (run_steps fmt b l); cbn [fbind]; try reflexivity. now rewrite plain_app, squeeze_app.
Qed.
Lemma run_step_fuel b x : run_step fmt b x <> FFuel.
Proof.
  destruct x; cbn [run_step]; try discriminate; destruct (is_nil e); try discriminate; try apply fmt_no_fuel.
  pose proof (fmt_no_fuel false e). now destruct (fmt false e).
Qed.
Lemma run_steps_fuel b l : run_steps fmt b l <> FFuel.
Proof.
  induction l as [|x l IH]; [discriminate|]. cbn [run_steps]. pose proof (run_step_fuel b x). destruct (run_step fmt b x); cbn [fbind]; try congruence.
  destruct (run_steps fmt b l); cbn [fbind]; congruence.
Qed.
Definition sq1 (b : bool) (x : step) : fres string := fbind (run_step fmt b x) (fun t => FOk (squeeze (plain t))).
Lemma sq_eq b x l : sq b (x :: l) = fapp (sq1 b x) (sq b l).
Proof. apply sq_cons; [apply run_step_fuel|apply run_steps_fuel]. Qed.
Lemma sq_app b l1 l2 : sq b (l1 ++ l2) = fapp (sq b l1) (sq b l2).
Proof.
  induction l1 as [|x l1 IH]; cbn [app]; [change (sq b []) with (FOk ""%string); now rewrite fapp_nil|]. rewrite !sq_eq, IH. symmetry. apply fapp_assoc.
Qed.

Lemma sq_same l : (forall x, In x l -> sq1 true x = sq1 false x) -> sq true l = sq false l.
Proof. induction l as [|x l IH]; intros H; [reflexivity|]. rewrite !sq_eq, IH, H; [reflexivity|now left|]. intros y Hy. apply H. now right. Qed.

Lemma sq_operand e : sq true (logical_operand e) = sq1 true (SExpr e).
Proof.
  unfold logical_operand. destruct (is_logical e); rewrite !sq_eq; change (sq true []) with (FOk ""%string).
  - destruct (sq1 true (SExpr e)); cbn; try reflexivity. now rewrite sapp_nil.
  - change (sq1 true SIndent) with (FOk ""%string). change (sq1 true SDedent) with (FOk ""%string).
    rewrite fapp_nil. destruct (sq1 true (SExpr e)); cbn; try reflexivity. now rewrite sapp_nil.
Qed.

Lemma fmt_squeeze e :
  fbind (fmt true e) (fun t => FOk (squeeze (plain t))) = fbind (fmt false e) (fun t => FOk (squeeze (plain t))).
Proof.
  remember (esize e) as n eqn:En. revert e En. induction n as [n IH] using lt_wf_ind. intros e ->. rewrite !fmt_eq.
  change (sq true (steps true e) = sq false (steps false e)).
  assert (C : forall c, is_nil c = true \/ below e c -> sq1 true (SExpr c) = sq1 false (SExpr c) /\ sq1 true (SPtr c) = sq1 false (SPtr c)).
  { intros c Hc. unfold sq1. cbn [run_step]. destruct (is_nil c) eqn:E; [split; reflexivity|]. destruct Hc as [Hc|Hc]; [discriminate|].
    rewrite (IH (esize c)); [split; reflexivity|now apply below_lt|reflexivity]. }
  destruct (is_logical e) eqn:L.
  - destruct e; try discriminate L. cbn [is_logical] in L. cbn [steps]. rewrite L. cbn [andb].
    destruct (C e1) as [C1 _]; [right; apply below_sub; member|].
    destruct (C e2) as [C2 _]; [right; apply below_sub; member|].
    replace (String.eqb Operation "::") with false.
    2:{ symmetry. apply String.eqb_neq. intros ->. discriminate L. }
    cbn [negb when]. repeat rewrite sq_app. rewrite !sq_operand. rewrite !sq_eq. rewrite C1, C2.
    change (sq1 true SNewLine) with (FOk ""%string). change (sq1 false (SW " ")) with (FOk ""%string).
    change (sq true []) with (FOk ""%string). change (sq false []) with (FOk ""%string).
    change (sq1 true (SW Operation)) with (sq1 false (SW Operation)).
    replace (sq true (operator_prefix HasGlobal HasNot)) with (sq false (operator_prefix HasGlobal HasNot)) by (now destruct HasGlobal, HasNot).
    assert (R : forall a, fapp a (FOk ""%string) = a) by (intros [a| |]; cbn; try reflexivity; now rewrite sapp_nil).
    repeat first [rewrite fapp_nil | rewrite R | rewrite fapp_assoc]. reflexivity.
  - rewrite (steps_mode e L). apply sq_same. intros x Hx. pose proof (steps_ok false e) as H. rewrite Forall_forall in H. specialize (H x Hx).
    destruct x; cbn [step_ok] in H; try reflexivity; now apply C.
Qed.

Lemma squeeze_repeat ind n : squeeze ind = ""%string -> squeeze (repeat_str ind n) = ""%string.
Proof. intros H. induction n as [|n IH]; [reflexivity|]. cbn [repeat_str]. now rewrite squeeze_app, H, IH. Qed.
Lemma write_byte_squeeze ind c s : squeeze ind = ""%string -> squeeze (fst (write_byte true ind c s)) = squeeze (String c "").
Proof.
  intros H. unfold write_byte, write_indent. destruct (Ascii.eqb c (ch 10)) eqn:E; [apply Ascii.eqb_eq in E; now subst c|].
  destruct (line_start s); cbn [fst]; rewrite squeeze_app, ?squeeze_repeat by exact H; reflexivity.
Qed.
Lemma write_string_squeeze ind t s : squeeze ind = ""%string -> squeeze (fst (write_string true ind t s)) = squeeze t.
Proof.
  intros H. revert s. induction t as [|c t IH]; intros s; [reflexivity|]. cbn [write_string].
  pose proof (write_byte_squeeze ind c s H) as E. destruct (write_byte true ind c s) as [x s1]. specialize (IH s1).
  destruct (write_string true ind t s1) as [y s2]. cbn [fst] in *. change (String c t) with (String c "" ++ t)%string. now rewrite !squeeze_app, E, IH.
Qed.
Lemma play_squeeze ind l s : squeeze ind = ""%string -> squeeze (fst (play true ind l s)) = squeeze (plain l).
Proof.
  intros H. revert s. induction l as [|x l IH]; intros s; [reflexivity|]. cbn [play].
  assert (E : squeeze (fst (play1 true ind x s)) = squeeze (plain [x])).
  { destruct x; cbn [play1 plain]; rewrite ?sapp_nil; try reflexivity. now apply write_string_squeeze. }
  destruct (play1 true ind x s) as [t s1]. specialize (IH s1). destruct (play true ind l s1) as [u s2]. cbn [fst] in *.
  change (x :: l) with ([x] ++ l). now rewrite plain_app, !squeeze_app, E, IH.
Qed.

(** ** Literals *)

(** [c] is written when [e] is: [FormatSQL] of [e] leads to [FormatSQL] of [c]. *)
Inductive written : bool -> expr -> expr -> Prop :=
| written_self b e : written b e e
| written_step b e c d : is_nil c = false -> In (SExpr c) (steps b e) \/ In (SPtr c) (steps b e) -> written b c d -> written b e d
| written_compact b e c d : is_nil c = false -> In (SCompact c) (steps b e) -> written false c d -> written b e d.

Lemma occurs_refl s : occurs s s.
Proof. exists ""%string, ""%string. now rewrite sapp_nil. Qed.
Lemma occurs_l s a b : occurs s a -> occurs s (a ++ b).
Proof. intros (p & q & ->). exists p, (q ++ b)%string. now rewrite !sapp_assoc. Qed.
Lemma occurs_r s a b : occurs s b -> occurs s (a ++ b).
Proof. intros (p & q & ->). exists (a ++ p)%string, q. now rewrite !sapp_assoc. Qed.
Lemma occurs_trans a b c : occurs a b -> occurs b c -> occurs a c.
Proof. intros (p & q & ->) (p' & q' & ->). exists (p' ++ p)%string, (q ++ q')%string. now rewrite !sapp_assoc. Qed.

(** [s] occurs in the text of calls of WriteString that follow each other. *)
Definition in_run (s : string) (l : list ev) : Prop := exists l1 ts l2, l = l1 ++ map W ts ++ l2 /\ occurs s (concat_str ts).

Lemma in_run_l s l m : in_run s l -> in_run s (l ++ m).
Proof. intros (l1 & ts & l2 & -> & H). exists l1, ts, (l2 ++ m). split; [now rewrite !app_assoc|exact H]. Qed.
Lemma in_run_r s l m : in_run s m -> in_run s (l ++ m).
Proof. intros (l1 & ts & l2 & -> & H). exists (l ++ l1), ts, l2. split; [now rewrite !app_assoc|exact H]. Qed.

Lemma calls_in b l t x : calls b l t -> In x l -> exists u, run_step fmt b x = FOk u /\ forall s, in_run s u -> in_run s t.
Proof.
  induction 1 as [|y r t u H1 H2 IH]; intros Hin; [destruct Hin|]. destruct Hin as [->|Hin].
  - exists t. split; [exact H1|]. intros s. apply in_run_l.
  - destruct (IH Hin) as (v & E & F). exists v. split; [exact E|]. intros s Hs. apply in_run_r. now apply F.
Qed.

Lemma plain_map_W ts : plain (map W ts) = concat_str ts.
Proof. induction ts as [|t ts IH]; [reflexivity|]. cbn. now rewrite IH. Qed.
Lemma in_run_plain s l : in_run s l -> occurs s (plain l).
Proof. intros (l1 & ts & l2 & -> & H). rewrite !plain_app, plain_map_W. now apply occurs_r, occurs_l. Qed.

Lemma quoted_run b c q s l : quoted c q s -> fmt b c = FOk l -> in_run (q ++ s ++ q) l.
Proof.
  intros H E. rewrite fmt_eq in E. exists [], [q; s; q], []. rewrite app_nil_r. cbn [app concat_str]. rewrite sapp_nil.
  split; [|apply occurs_refl]. destruct H; cbn in E; now injection E as <-.
Qed.

Lemma written_run b e c q s l : written b e c -> quoted c q s -> fmt b e = FOk l -> in_run (q ++ s ++ q) l.
Proof.
  intros Hw. revert l. induction Hw as [b e|b e c d Hn Hin Hw IH|b e c d Hn Hin Hw IH]; intros l Hq E.
  - now apply (quoted_run b e).
  - rewrite fmt_eq in E. apply run_calls in E. destruct Hin as [Hin|Hin]; destruct (calls_in _ _ _ _ E Hin) as (u & E1 & F);
      cbn [run_step] in E1; rewrite Hn in E1; apply F; now apply IH.
  - rewrite fmt_eq in E. apply run_calls in E. destruct (calls_in _ _ _ _ E Hin) as (u & E1 & F). cbn [run_step] in E1. rewrite Hn in E1.
    destruct (fmt false c) as [t| |] eqn:Et; cbn [fbind] in E1; try discriminate. injection E1 as <-. apply F. unfold compact_text.
    apply in_run_r. rewrite render_compact. exists [], [plain t], []. split; [reflexivity|]. cbn [concat_str]. rewrite sapp_nil.
    apply in_run_plain. now apply IH.
Qed.

(** Text without line breaks is written as it is, once the indentation is. *)
Lemma write_line ind t s : line_start s = false -> one_line t = true -> write_string true ind t s = (t, s).
Proof.
  intros Hs. revert s Hs. induction t as [|c t IH]; intros s Hs H; [reflexivity|]. cbn [one_line] in H. apply andb_prop in H. destruct H as [H1 H2].
  cbn [write_string write_byte]. unfold write_indent. rewrite Hs. apply negb_true_iff in H1. unfold newline in H1. rewrite H1, (IH s Hs H2). reflexivity.
Qed.
Lemma write_line' ind t s : one_line t = true -> occurs t (fst (write_string true ind t s)).
Proof.
  destruct t as [|c t]; intros H; [exists ""%string; eexists; reflexivity|]. pose proof H as H'. cbn [one_line] in H. apply andb_prop in H. destruct H as [H1 H2].
  cbn [write_string write_byte]. apply negb_true_iff in H1. unfold newline in H1. rewrite H1. unfold write_indent. destruct (line_start s) eqn:E.
  - rewrite (write_line ind t (mkFS (level s) false) eq_refl H2). cbn [fst]. rewrite sapp_assoc. apply occurs_r. apply occurs_refl.
  - rewrite (write_line ind t s E H2). apply occurs_refl.
Qed.
Lemma write_string_app b ind t u s :
  write_string b ind (t ++ u) s = let (x, s1) := write_string b ind t s in let (y, s2) := write_string b ind u s1 in ((x ++ y)%string, s2).
Proof.
  revert s. induction t as [|c t IH]; intros s; cbn [String.append write_string]; [now destruct (write_string b ind u s)|].
  destruct (write_byte b ind c s) as [x s1]. rewrite IH. destruct (write_string b ind t s1) as [y s2]. destruct (write_string b ind u s2) as [z s3].
  now rewrite sapp_assoc.
Qed.
Lemma write_occurs ind t u s : one_line t = true -> occurs t u -> occurs t (fst (write_string true ind u s)).
Proof.
  intros H (p & q & ->). rewrite write_string_app. destruct (write_string true ind p s) as [x s1]. rewrite write_string_app.
  pose proof (write_line' ind t s1 H) as O. destruct (write_string true ind t s1) as [y s2]. destruct (write_string true ind q s2) as [z s3].
  cbn [fst] in *. now apply occurs_r, occurs_l.
Qed.
Lemma play_app b ind l1 l2 s : play b ind (l1 ++ l2) s = let (x, s1) := play b ind l1 s in let (y, s2) := play b ind l2 s1 in ((x ++ y)%string, s2).
Proof.
  revert s. induction l1 as [|c t IH]; intros s; cbn [app play]; [now destruct (play b ind l2 s)|].
  destruct (play1 b ind c s) as [x s1]. rewrite IH. destruct (play b ind t s1) as [y s2]. destruct (play b ind l2 s2) as [z s3].
  now rewrite sapp_assoc.
Qed.
Lemma play_map_W b ind ts s : play b ind (map W ts) s = write_string b ind (concat_str ts) s.
Proof. revert s. induction ts as [|t ts IH]; intros s; [reflexivity|]. cbn [map concat_str play play1]. rewrite write_string_app. destruct (write_string b ind t s) as [x s1]. now rewrite IH. Qed.
Lemma in_run_play ind t l s : one_line t = true -> in_run t l -> occurs t (fst (play true ind l s)).
Proof.
  intros H (l1 & ts & l2 & -> & O). rewrite play_app. destruct (play true ind l1 s) as [x s1]. rewrite play_app, play_map_W.
  pose proof (write_occurs ind t _ s1 H O) as O'. destruct (write_string true ind (concat_str ts) s1) as [y s2]. destruct (play true ind l2 s2) as [z s3].
  cbn [fst] in *. now apply occurs_r, occurs_l.
Qed.

(** A test for [occurs]. *)
Fixpoint occursb (s t : string) : bool := String.prefix s t || match t with EmptyString => false | String _ r => occursb s r end.
Lemma prefix_app s q : String.prefix s (s ++ q) = true.
Proof. induction s as [|c s IH]; [now destruct q|]. cbn. destruct (ascii_dec c c); [exact IH|congruence]. Qed.
Lemma occurs_b s t : occurs s t -> occursb s t = true.
Proof.
  intros (p & q & ->). induction p as [|c p IH]; cbn [String.append].
  - destruct (s ++ q)%string eqn:E; cbn [occursb]; rewrite <- E, prefix_app; reflexivity.
  - cbn [occursb]. rewrite IH. apply orb_true_r.
Qed.
