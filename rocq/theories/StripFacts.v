(** The text of a tree does not depend on its positions. *)
From Coq Require Import String Ascii List Arith Bool Lia.
From Verif Require Import Str Ast AstPos AstSubs Strip Format FormatFacts.
Import ListNotations.
Local Open Scope list_scope.
Local Open Scope nat_scope.

Definition sstep (x : step) : step :=
  match x with SExpr e => SExpr (strip e) | SPtr e => SPtr (strip e) | SCompact e => SCompact (strip e) | y => y end.

Lemma nil_strip e : is_nil (strip e) = is_nil e.
Proof. now destruct e. Qed.
Lemma select_strip e : is_select (strip e) = is_select e.
Proof. now destruct e. Qed.
Lemma logical_strip e : is_logical (strip e) = is_logical e.
Proof. now destruct e. Qed.
Lemma group_strip e : json_group (strip e) = json_group e.
Proof. destruct e; try reflexivity. cbn [strip json_group]. now rewrite !nil_strip. Qed.
Lemma items_strip e : ColumnExprList_Items (strip e) = map strip (ColumnExprList_Items e).
Proof. now destruct e. Qed.
Lemma schema_strip e : DestinationClause_TableSchema (strip e) = strip (DestinationClause_TableSchema e).
Proof. now destruct e. Qed.
Lemma hint_path_strip e : JSONTypeHint_Path (strip e) = strip (JSONTypeHint_Path e).
Proof. now destruct e. Qed.
Lemma hint_type_strip e : JSONTypeHint_Type (strip e) = strip (JSONTypeHint_Type e).
Proof. now destruct e. Qed.
Lemma key_strip e : KeyValue_Key (strip e) = strip (KeyValue_Key e).
Proof. now destruct e. Qed.
Lemma value_strip e : KeyValue_Value (strip e) = strip (KeyValue_Value e).
Proof. now destruct e. Qed.
Lemma number_strip e : NumberLiteral_Literal (strip e) = NumberLiteral_Literal e.
Proof. now destruct e. Qed.
Lemma settings_strip e : SettingsClause_Items (strip e) = map strip (SettingsClause_Items e).
Proof. now destruct e. Qed.
Lemma string_strip e : StringLiteral_Literal (strip e) = StringLiteral_Literal e.
Proof. now destruct e. Qed.
Lemma new_strip e : TargetPair_New (strip e) = strip (TargetPair_New e).
Proof. now destruct e. Qed.
Lemma old_strip e : TargetPair_Old (strip e) = strip (TargetPair_Old e).
Proof. now destruct e. Qed.
Lemma ctes_strip e : WithClause_CTEs (strip e) = map strip (WithClause_CTEs e).
Proof. now destruct e. Qed.
Lemma zero_set p : is_pzero (set_pos p) = is_pzero p.
Proof. now destruct p. Qed.

Lemma map_when c l : map sstep (when c l) = when c (map sstep l).
Proof. now destruct c. Qed.
Lemma map_need e l : map sstep (need e l) = need (strip e) (map sstep l).
Proof. unfold need. rewrite nil_strip. now destruct (is_nil e). Qed.
Lemma map_if (c : bool) l1 l2 : map sstep (if c then l1 else l2) = if c then map sstep l1 else map sstep l2.
Proof. now destruct c. Qed.
Lemma empty_map {A B} (f : A -> B) l : is_empty (map f l) = is_empty l.
Proof. now destruct l. Qed.

Lemma each_eq {A B} (g : A -> B) (f : bool -> bool -> B -> list step) (h : bool -> bool -> A -> list step) l :
  (forall a b x, f a b (g x) = map sstep (h a b x)) -> each f (map g l) = map sstep (each h l).
Proof.
  intros H. unfold each. generalize true. induction l as [|x l IH]; intros b; [reflexivity|]. cbn [map each_from].
  now rewrite map_app, IH, H, empty_map.
Qed.
Lemma each_same {A} (f h : bool -> bool -> A -> list step) l :
  (forall a b x, f a b x = map sstep (h a b x)) -> each f l = map sstep (each h l).
Proof. intros H. rewrite <- (each_eq (fun x => x)) with (f := f) by exact H. now rewrite map_id. Qed.

Lemma s_app a1 a2 b1 b2 : a1 = map sstep b1 -> a2 = map sstep b2 -> a1 ++ a2 = map sstep (b1 ++ b2).
Proof. intros -> ->. now rewrite map_app. Qed.
Lemma s_when c a b : a = map sstep b -> when c a = map sstep (when c b).
Proof. intros ->. now rewrite map_when. Qed.
Lemma s_if (c : bool) a1 a2 b1 b2 : a1 = map sstep b1 -> a2 = map sstep b2 -> (if c then a1 else a2) = map sstep (if c then b1 else b2).
Proof. intros -> ->. now destruct c. Qed.
Lemma s_need e a b : a = map sstep b -> need (strip e) a = map sstep (need e b).
Proof. intros ->. now rewrite map_need. Qed.
Lemma s_cons x y a b : x = sstep y -> a = map sstep b -> x :: a = map sstep (y :: b).
Proof. now intros -> ->. Qed.

Lemma filter_strip (p q : expr -> bool) l : (forall x, p (strip x) = q x) -> filter p (map strip l) = map strip (filter q l).
Proof. intros H. induction l as [|x l IH]; [reflexivity|]. cbn [map filter]. rewrite H, IH. now destruct (q x). Qed.
Lemma nil_filter l : filter (fun c => negb (is_nil c)) (map strip l) = map strip (filter (fun c => negb (is_nil c)) l).
Proof. apply filter_strip. intros x. now rewrite nil_strip. Qed.
Lemma group_filter n l : filter (fun c => json_group c =? n) (map strip l) = map strip (filter (fun c => json_group c =? n) l).
Proof. apply filter_strip. intros x. now rewrite group_strip. Qed.

Ltac st := rewrite ?nil_strip, ?select_strip, ?logical_strip, ?items_strip, ?schema_strip, ?hint_path_strip, ?hint_type_strip, ?key_strip, ?value_strip,
  ?number_strip, ?settings_strip, ?string_strip, ?new_strip, ?old_strip, ?ctes_strip, ?zero_set, ?empty_map, ?group_filter, <- ?map_app.
Ltac go := first [reflexivity | apply s_app; go | apply s_when; go | apply s_if; go | apply s_need; go | apply s_cons; go
  | apply each_eq; intros; st; go | apply each_same; intros; st; go | idtac].

Lemma join_strip e : join_steps (strip e) = map sstep (join_steps e).
Proof.
  remember (esize e) as n eqn:E. assert (H : esize e <= n) by lia. clear E. revert e H. induction n as [|n IH]; intros e H; destruct e; try reflexivity; cbn [esize] in H; [lia|].
  cbn [strip join_steps]. st. go. apply IH. lia.
Qed.

Lemma steps_strip b e : steps b (strip e) = map sstep (steps b e).
Proof.
  destruct e; cbn [strip steps]; try reflexivity; st; go.
  - unfold logical_operand. st. go.
  - unfold logical_operand. st. go.
  - rewrite nil_strip. go.
  - rewrite !nil_strip. go.
  - unfold between_breaks. change [strip e1; strip e2; strip e3; strip e4; strip e5] with (map strip [e1; e2; e3; e4; e5]). rewrite nil_filter. go.
  - cbn [existsb]. st. go.
  - apply join_strip.
  - change [strip e1; strip e2; strip e3; strip e4] with (map strip [e1; e2; e3; e4]). rewrite nil_filter. go.
Qed.

Lemma fuel_strip n : forall b e, fmt_fuel n b (strip e) = fmt_fuel n b e.
Proof.
  induction n as [|n IH]; intros b e; [reflexivity|]. cbn [fmt_fuel]. rewrite steps_strip. generalize (steps b e). intros l.
  induction l as [|x l IHl]; [reflexivity|]. cbn [map run_steps]. rewrite IHl. destruct x; cbn [sstep run_step]; rewrite ?nil_strip, ?IH; reflexivity.
Qed.

Lemma fmt_strip b e : fmt b (strip e) = fmt b e.
Proof. rewrite <- (fmt_more (esize e + esize (strip e)) b e) by lia. rewrite <- (fmt_more (esize e + esize (strip e)) b (strip e)) by lia. apply fuel_strip. Qed.

Lemma Format_strip e : Format (strip e) = Format e.
Proof. unfold Format. now rewrite nil_strip, fmt_strip. Qed.
Lemma Beautify_strip i e : Beautify i (strip e) = Beautify i e.
Proof. unfold Beautify. now rewrite nil_strip, fmt_strip. Qed.

Lemma subs_strip e : subs (strip e) = map strip (subs e).
Proof. destruct e; cbn [strip subs]; rewrite ?map_app; reflexivity. Qed.
