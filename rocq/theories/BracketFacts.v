(** Proofs for C40: the brackets that the formatter writes are nested. *)
From Coq Require Import String Ascii List Arith Lia Bool.
From Verif Require Import Str Ast AstPos AstSubs Format FormatSpec FormatFacts.
Import ListNotations.
Local Open Scope string_scope.
Local Open Scope list_scope.
Local Open Scope nat_scope.

(** ** Nesting *)

Lemma nest_app st a b : nest st (a ++ b)%string = match nest st a with Some m => nest m b | None => None end.
Proof.
  revert st. induction a as [|c a IH]; intros st; [reflexivity|]. cbn [append nest]. destruct (closing c); [apply IH|]. destruct (closes c); [|apply IH].
  destruct st as [|d st]; [reflexivity|]. destruct (Ascii.eqb c d); [apply IH|reflexivity].
Qed.
Lemma nest_app2 n m k a b : nest n a = Some m -> nest m b = Some k -> nest n (a ++ b)%string = Some k.
Proof. intros H1 H2. now rewrite nest_app, H1. Qed.
Lemma nest_more k a : forall st st', nest st a = Some st' -> nest (st ++ k) a = Some (st' ++ k).
Proof.
  induction a as [|c a IH]; intros st st'; cbn [nest]; [now intros [= <-]|]. destruct (closing c) as [d|]; [apply (IH (d :: st))|]. destruct (closes c); [|apply IH].
  destruct st as [|d st]; [discriminate|]. cbn [app]. destruct (Ascii.eqb c d); [apply IH|discriminate].
Qed.
Lemma nested_nest s st : nested s -> nest st s = Some st.
Proof. intros H. exact (nest_more st s [] [] H). Qed.
Lemma nest_upper s : forall st, nest st (upper s) = nest st s.
Proof.
  induction s as [|c s IH]; intros st; [reflexivity|]. cbn [upper nest].
  assert (H : (closing (upper_char c) = closing c /\ closes (upper_char c) = closes c) /\ (closes c = true -> upper_char c = c)).
  { destruct c as [[] [] [] [] [] [] [] []]; repeat split; try reflexivity; discriminate. }
  destruct H as [[-> ->] Hc]. destruct (closing c); [apply IH|]. destruct (closes c); [|apply IH]. rewrite (Hc eq_refl). destruct st as [|d st]; [reflexivity|]. destruct (Ascii.eqb c d); [apply IH|reflexivity].
Qed.
Lemma nest_concat sep l st : nested sep -> (forall s, In s l -> nested s) -> nest st (String.concat sep l) = Some st.
Proof.
  intros Hs. induction l as [|x l IH]; intros Hl; [reflexivity|]. destruct l as [|y l].
  - apply nested_nest, Hl. now left.
  - change (String.concat sep (x :: y :: l)) with (x ++ sep ++ String.concat sep (y :: l))%string. rewrite nest_app, (nested_nest x) by (apply Hl; now left).
    rewrite nest_app, (nested_nest sep _ Hs). apply IH. intros s H. apply Hl. now right.
Qed.
Lemma nest_squeeze s : forall st, nest st (squeeze s) = nest st s.
Proof.
  induction s as [|c s IH]; intros st; [reflexivity|]. cbn [squeeze nest]. destruct (Ascii.eqb c " ") eqn:E1; [apply Ascii.eqb_eq in E1; subst; cbn; apply IH|].
  destruct (Ascii.eqb c newline) eqn:E2; [apply Ascii.eqb_eq in E2; subst; cbn; apply IH|]. cbn [orb nest].
  destruct (closing c); [apply IH|]. destruct (closes c); [|apply IH]. destruct st as [|d st]; [reflexivity|]. destruct (Ascii.eqb c d); [apply IH|reflexivity].
Qed.

(** ** The calls of one node *)

Fixpoint sbr (st : list ascii) (l : list step) : option (list ascii) :=
  match l with
  | [] => Some st
  | SW s :: r => match nest st s with Some m => sbr m r | None => None end
  | _ :: r => sbr st r
  end.
Lemma sbr_app st l1 l2 : sbr st (l1 ++ l2) = match sbr st l1 with Some m => sbr m l2 | None => None end.
Proof. revert st. induction l1 as [|x l1 IH]; intros st; [reflexivity|]. cbn [app]. destruct x; cbn [sbr]; try apply IH. destruct (nest st s); [apply IH|reflexivity]. Qed.
Lemma B_app n m k l1 l2 : sbr n l1 = Some m -> sbr m l2 = Some k -> sbr n (l1 ++ l2) = Some k.
Proof. intros H1 H2. now rewrite sbr_app, H1. Qed.
Lemma B_W n m k s l : nest n s = Some m -> sbr m l = Some k -> sbr n (SW s :: l) = Some k.
Proof. intros H1 H2. cbn [sbr]. now rewrite H1. Qed.
Lemma B_skip n k x l : match x with SW _ => False | _ => True end -> sbr n l = Some k -> sbr n (x :: l) = Some k.
Proof. now destruct x. Qed.
Lemma B_when n c l : sbr n l = Some n -> sbr n (when c l) = Some n.
Proof. now destruct c. Qed.
Lemma B_if n m (c : bool) l1 l2 : sbr n l1 = Some m -> sbr n l2 = Some m -> sbr n (if c then l1 else l2) = Some m.
Proof. now destruct c. Qed.
Lemma B_need n e l : sbr n l = Some n -> sbr n (need e l) = Some n.
Proof. unfold need. now destruct (is_nil e). Qed.
Lemma B_each A n (f : bool -> bool -> A -> list step) l : (forall b1 b2 x, In x l -> sbr n (f b1 b2 x) = Some n) -> sbr n (each f l) = Some n.
Proof.
  unfold each. generalize true. induction l as [|x l IH]; intros b H; [reflexivity|]. cbn [each_from]. rewrite sbr_app, H by now left. apply IH. intros; apply H. now right.
Qed.

Definition holds (e : expr) : Prop := forall s, held e s -> nested s.
Lemma holds_text e s st : holds e -> In s (texts e) -> nest st s = Some st.
Proof. intros H Hs. apply nested_nest, H. exists e. split; [apply node_self|exact Hs]. Qed.
Lemma holds_below e c : holds e -> below e c -> holds c.
Proof. intros H Hb s (x & Hx & Hs). apply H. exists x. split; [|exact Hs]. eapply node_trans; [apply below_node; exact Hb|exact Hx]. Qed.
Lemma holds_number e s st : holds e -> In s (subs e) -> nest st (NumberLiteral_Literal s) = Some st.
Proof.
  intros H Hs. destruct (text_Number s) as [-> | Hn]; [reflexivity|]. apply nested_nest, H. now apply (text_below e s).
Qed.

Ltac wr :=
  first [ reflexivity
        | rewrite nest_upper; wr
        | eapply holds_number; [eassumption|member]
        | eapply holds_text; [eassumption|first [assumption|member]]
        | apply nest_concat; [reflexivity|intros; match goal with H : holds _ |- _ => apply H; eexists; split; [apply node_self|assumption] end] ].
Ltac br :=
  match goal with
  | |- sbr _ (_ ++ _) = _ => eapply B_app
  | |- sbr _ (when _ _) = _ => apply B_when
  | |- sbr _ (need _ _) = _ => apply B_need
  | |- sbr _ (if _ then _ else _) = _ => apply B_if
  | |- sbr _ (each _ _) = _ => apply B_each; intros
  | |- sbr _ (SW _ :: _) = _ => eapply B_W
  | |- sbr _ (_ :: _) = _ => apply B_skip; [exact I|]
  | |- sbr _ [] = _ => reflexivity
  | |- Some _ = Some _ => reflexivity
  | |- nest _ (if ?c then _ else _) = _ => destruct c
  | |- nest _ _ = _ => wr
  | |- nest _ _ = _ => eapply nest_app2
  end.

Lemma join_br st e : holds e -> sbr st (join_steps e) = Some st.
Proof.
  enough (H : forall k e, esize e <= k -> holds e -> sbr st (join_steps e) = Some st) by (eapply H; reflexivity).
  clear e. induction k as [|k IH]; intros e Hk H; [rewrite subs_size in Hk; lia|].
  destruct e; try reflexivity. cbn [join_steps]. cbn [esize] in Hk. eapply B_app; [|apply B_when, IH; [lia|eapply holds_below; [exact H|apply below_sub; member]]]. repeat br.
Qed.

Lemma steps_br b e st : holds e -> sbr st (steps b e) = Some st.
Proof.
  intros He. destruct e; unfold steps; unfold logical_operand, operator_prefix, between_breaks.
  all: try match goal with |- sbr _ (when ?c [SW "("] ++ _) = _ => destruct c; reflexivity end.
  all: repeat first [br | apply join_br; eapply holds_below; [exact He|apply below_sub; member]].
Qed.

(** ** The text *)

Lemma nest_plain_compact st l : nest st (plain (compact_text l)) = nest st (plain l).
Proof. rewrite plain_compact_text, nest_app. destruct (plain l) as [|c r]; [reflexivity|]. now destruct (Ascii.eqb c "("). Qed.

Lemma fmt_nest b e l : fmt b e = FOk l -> holds e -> forall st, nest st (plain l) = Some st.
Proof.
  revert b e l. apply (fmt_induction (fun b e l => holds e -> forall st, nest st (plain l) = Some st)). intros b e IH l Hl He st. apply run_calls in Hl.
  pose proof (steps_br b e st He) as Hs.
  assert (Hin : forall x, In x (steps b e) -> In x (steps b e)) by tauto. revert Hs Hin Hl.
  generalize (steps b e) at 1 2 4 as ss. intros ss Hs Hin Hl. replace (nest st (plain l)) with (sbr st ss); [exact Hs|]. clear Hs.
  revert st Hin. induction Hl as [|x r t u H1 H2 IHc]; intros n Hin; [reflexivity|].
  rewrite plain_app, nest_app. assert (Hr : forall m, sbr m r = nest m (plain u)) by (intros m; apply IHc; intros y Hy; apply Hin; now right).
  assert (Hx : forall c, step_node x c -> is_nil c = false -> below e c) by (intros c; apply (step_below b e); apply Hin; now left).
  destruct x; cbn [run_step] in H1; cbn [sbr]; try (injection H1 as <-; cbn [plain]); try apply Hr; try discriminate.
  - rewrite sapp_nil. destruct (nest n s); [apply Hr|reflexivity].
  - destruct (is_nil e0) eqn:E0; [injection H1 as <-; cbn [plain]; apply Hr|]. assert (Hb : below e e0) by (apply Hx; [now left|exact E0]).
    rewrite (IH e0 b t Hb E0 H1 (holds_below e e0 He Hb)). apply Hr.
  - destruct (is_nil e0) eqn:E0; [discriminate|]. assert (Hb : below e e0) by (apply Hx; [right; now left|exact E0]).
    rewrite (IH e0 b t Hb E0 H1 (holds_below e e0 He Hb)). apply Hr.
  - destruct (is_nil e0) eqn:E0; [discriminate|]. assert (Hb : below e e0) by (apply Hx; [right; now right|exact E0]).
    destruct (fmt false e0) as [t0| |] eqn:Ef; cbn [fbind] in H1; try discriminate. injection H1 as <-.
    rewrite nest_plain_compact, (IH e0 false t0 Hb E0 Ef (holds_below e e0 He Hb)). apply Hr.
Qed.
