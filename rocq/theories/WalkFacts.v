(** Facts about Walk.v and Visitor.v. *)
From Coq Require Import String List Arith Bool Lia Permutation.
From Verif Require Import Ast AstPos AstSubs Walk Visitor WalkSpec.
Import ListNotations.
Local Open Scope list_scope.
Local Open Scope nat_scope.

(** * Children are smaller *)
Lemma in_flat_size (f : expr -> list expr) l c n :
  (forall x, In x l -> esize x < n) -> (forall x, In c (f x) -> esize c < esize x) -> In c (flat_map f l) -> esize c < n.
Proof. intros Hl Hf Hc. apply in_flat_map in Hc as (x & Hx & Hc). specialize (Hl x Hx). specialize (Hf x Hc). lia. Qed.

Ltac part := intros H; match goal with |- esize ?c < esize ?e => destruct e end; cbn in H; try contradiction; apply subs_lt; cbn [subs]; exact H.
Lemma key_value_lt e c : In c (key_value e) -> esize c < esize e. Proof. part. Qed.
Lemma window_parts_lt e c : In c (window_parts e) -> esize c < esize e. Proof. part. Qed.
Lemma pair_parts_lt e c : In c (pair_parts e) -> esize c < esize e. Proof. part. Qed.
Lemma json_path_lt e c : In c (json_path e) -> esize c < esize e. Proof. part. Qed.
Lemma json_hint_lt e c : In c (json_hint e) -> esize c < esize e.
Proof.
  destruct e; try contradiction. cbn [json_hint]. intros H. apply in_app_or in H as [H|H].
  - apply json_path_lt in H. pose proof (subs_lt (EJSONTypeHint e1 e2) e1 ltac:(cbn; auto)). lia.
  - apply subs_lt. cbn in *. tauto.
Qed.
Lemma json_option_lt e c : In c (json_option e) -> esize c < esize e.
Proof.
  destruct e; try contradiction. cbn [json_option]. intros H. rewrite !in_app_iff in H. destruct H as [H|[H|H]].
  - apply json_path_lt in H. pose proof (subs_lt (EJSONOption e1 e2 e3 e4 e5) e1 ltac:(cbn; auto)). lia.
  - apply subs_lt. cbn in *. tauto.
  - apply json_hint_lt in H. pose proof (subs_lt (EJSONOption e1 e2 e3 e4 e5) e5 ltac:(cbn; auto 6)). lia.
Qed.
Lemma json_options_lt e c : In c (json_options e) -> esize c < esize e.
Proof.
  destruct e; try contradiction. cbn [json_options]. apply in_flat_size; [|intros x; apply json_option_lt].
  intros x Hx. apply subs_lt. exact Hx.
Qed.

(** * The children of [Walk] are the parts *)
Lemma front (A : Type) (a x y : list A) : Permutation (x ++ a ++ y) (a ++ x ++ y).
Proof. rewrite !app_assoc. apply Permutation_app_tail, Permutation_app_comm. Qed.

(** Bring [a] to the front of the right side, a right-nested append ending in [[]]. *)
Ltac bring_in a pre r :=
  lazymatch r with
  | a ++ ?y => constr:((pre, y))
  | ?b ++ ?y => bring_in a constr:(pre ++ b) y
  end.
Ltac perm1 :=
  lazymatch goal with
  | |- Permutation [] [] => apply Permutation_refl
  | |- Permutation (?a ++ _) (?a ++ _) => apply Permutation_app_head
  | |- Permutation (?a ++ ?l) ?r =>
      let p := bring_in a (@nil expr) r in
      lazymatch p with
      | (?x, ?y) => transitivity (a ++ x ++ y); [apply Permutation_app_head | symmetry; etransitivity; [|apply (front expr a x y)]; rewrite <- ?app_assoc; apply Permutation_refl]
      end
  end.

Definition special (e : expr) : bool :=
  match e with
  | EMapLiteral _ _ _ | EWindowClause _ _ _ | ERenameStmt _ _ _ _ _ | EJSONType _ _ | EJSONOptions _ _ _ | EJSONOption _ _ _ _ _ | EJSONTypeHint _ _
  | EJSONPath _ | EKeyValue _ _ | EWindowDefinition _ _ _ => true
  | _ => false
  end.

Lemma cons_app (A : Type) (a : A) l : a :: l = [a] ++ l. Proof. reflexivity. Qed.
Ltac segs l :=
  lazymatch l with
  | [] => constr:(@nil expr)
  | ?a :: ?r => let r' := segs r in constr:([a] ++ r')
  | ?a ++ ?r => let r' := segs r in let a' := segs2 a r' in a'
  | ?a => constr:(a ++ [])
  end
with segs2 a r :=
  lazymatch a with
  | [] => r
  | ?x :: ?y => let r' := segs2 y r in constr:([x] ++ r')
  | ?x ++ ?y => let y' := segs2 y r in segs2 x y'
  | ?x => constr:(x ++ r)
  end.
Ltac norm :=
  lazymatch goal with |- Permutation ?l ?r =>
    let l' := segs l in let r' := segs r in
    transitivity l'; [rewrite <- ?app_assoc, ?app_nil_r; apply Permutation_refl | symmetry; transitivity r'; [rewrite <- ?app_assoc, ?app_nil_r; apply Permutation_refl | symmetry]]
  end.
Ltac perm := norm; repeat (perm1; norm).

Lemma walk_subs e : special e = false -> Permutation (walk_children e) (subs e).
Proof. destruct e; intros H; try discriminate H; cbn [walk_children subs]; try apply Permutation_refl; perm. Qed.

Lemma walk_children_lt e c : In c (walk_children e) -> esize c < esize e.
Proof.
  destruct (special e) eqn:Hs.
  - destruct e; try discriminate Hs; cbn [walk_children]; intros H; try contradiction.
    + eapply in_flat_size; [|intros x; apply key_value_lt|exact H]. intros x Hx. apply subs_lt. exact Hx.
    + apply in_app_or in H as [H|H].
      * apply subs_lt. cbn in *. tauto.
      * apply json_options_lt in H. match goal with |- _ < esize (EJSONType ?a ?b) => pose proof (subs_lt (EJSONType a b) b ltac:(cbn; auto)) end. lia.
    + eapply in_flat_size; [|intros x; apply window_parts_lt|exact H]. intros x Hx. apply subs_lt. exact Hx.
    + apply in_app_or in H as [H|H].
      * eapply in_flat_size; [|intros x; apply pair_parts_lt|exact H]. intros x Hx. apply subs_lt. cbn [subs]. apply in_or_app. auto.
      * apply subs_lt. cbn [subs]. apply in_or_app. auto.
  - intros H. apply subs_lt. eapply Permutation_in; [apply walk_subs, Hs|exact H].
Qed.

(** * Orders *)
Definition shrinks (children : expr -> list expr) : Prop := forall e c, In c (children e) -> esize c < esize e.

Lemma flat_map_ext_in' (A B : Type) (f g : A -> list B) l : (forall a, In a l -> f a = g a) -> flat_map f l = flat_map g l.
Proof. induction l as [|a r IH]; intros H; cbn; [reflexivity|]. rewrite H by now left. f_equal. apply IH. intros x Hx. apply H. now right. Qed.

Lemma esize_pos e : 1 <= esize e.
Proof. rewrite subs_size. lia. Qed.

Lemma preorder_more ch : shrinks ch -> forall n e, esize e <= n -> preorder_fuel ch n e = preorder ch e.
Proof.
  intros Hs n. induction n as [n IH] using lt_wf_ind. intros e He. unfold preorder.
  pose proof (esize_pos e). destruct n as [|n]; [lia|]. destruct (esize e) as [|k] eqn:Ek; [lia|].
  cbn [preorder_fuel]. destruct (is_nil e); [reflexivity|]. f_equal. apply flat_map_ext_in'. intros c Hc.
  pose proof (Hs e c Hc). rewrite (IH n) by lia. rewrite (IH k) by lia. reflexivity.
Qed.
Lemma preorder_eq ch e : shrinks ch -> preorder ch e = if is_nil e then [] else e :: flat_map (preorder ch) (ch e).
Proof.
  intros Hs. rewrite <- (preorder_more ch Hs (S (esize e)) e) by lia. cbn [preorder_fuel].
  destruct (is_nil e); [reflexivity|]. f_equal. apply flat_map_ext_in'. intros c Hc. apply preorder_more; [exact Hs|].
  pose proof (Hs e c Hc). lia.
Qed.
Lemma postorder_more ch : shrinks ch -> forall n e, esize e <= n -> postorder_fuel ch n e = postorder ch e.
Proof.
  intros Hs n. induction n as [n IH] using lt_wf_ind. intros e He. unfold postorder.
  pose proof (esize_pos e). destruct n as [|n]; [lia|]. destruct (esize e) as [|k] eqn:Ek; [lia|].
  cbn [postorder_fuel]. destruct (is_nil e); [reflexivity|]. f_equal. apply flat_map_ext_in'. intros c Hc.
  pose proof (Hs e c Hc). rewrite (IH n) by lia. rewrite (IH k) by lia. reflexivity.
Qed.
Lemma postorder_eq ch e : shrinks ch -> postorder ch e = if is_nil e then [] else flat_map (postorder ch) (ch e) ++ [e].
Proof.
  intros Hs. rewrite <- (postorder_more ch Hs (S (esize e)) e) by lia. cbn [postorder_fuel].
  destruct (is_nil e); [reflexivity|]. f_equal. apply flat_map_ext_in'. intros c Hc. apply postorder_more; [exact Hs|].
  pose proof (Hs e c Hc). lia.
Qed.
Lemma nodes_more : forall n e, esize e <= n -> nodes_fuel n e = nodes e.
Proof.
  intros n. induction n as [n IH] using lt_wf_ind. intros e He. unfold nodes.
  pose proof (esize_pos e). destruct n as [|n]; [lia|]. destruct (esize e) as [|k] eqn:Ek; [lia|].
  cbn [nodes_fuel]. f_equal. apply flat_map_ext_in'. intros c Hc.
  pose proof (subs_lt e c Hc). rewrite (IH n) by lia. rewrite (IH k) by lia. reflexivity.
Qed.
Lemma nodes_eq e : nodes e = e :: flat_map nodes (subs e).
Proof.
  rewrite <- (nodes_more (S (esize e)) e) by lia. cbn [nodes_fuel]. f_equal. apply flat_map_ext_in'. intros c Hc.
  apply nodes_more. pose proof (subs_lt e c Hc). lia.
Qed.
Lemma nodes_node_of t e : In e (nodes t) <-> node_of t e.
Proof.
  split.
  - revert t. apply (expr_rect_subs (fun t => In e (nodes t) -> node_of t e)). intros t IH H. rewrite nodes_eq in H.
    destruct H as [->|H]; [constructor|]. apply in_flat_map in H as (c & Hc & H). econstructor; [exact Hc|]. now apply IH.
  - induction 1 as [t|t c e Hc Hn IH]; rewrite nodes_eq; [now left|]. right. apply in_flat_map. eauto.
Qed.
Lemma walk_shrinks : shrinks walk_children. Proof. exact walk_children_lt. Qed.

(** * [Walk] is a scan of the pre-order *)
Section Scan.
  Context {St : Type}.
  Variable fn : St -> expr -> St * bool.
  Lemma scan_app l1 l2 s : scan fn (l1 ++ l2) s = let (s1, b) := scan fn l1 s in if b then scan fn l2 s1 else (s1, false).
  Proof. revert s. induction l1 as [|a r IH]; intros s; cbn [scan app]; [reflexivity|]. destruct (fn s a) as [s1 []]; [apply IH|reflexivity]. Qed.

  Lemma walk_seq_scan w (f : expr -> list expr) l s :
    (forall c, In c l -> forall s, w c s = scan fn (f c) s) -> walk_seq w l s = scan fn (flat_map f l) s.
  Proof.
    revert s. induction l as [|a r IH]; intros s H; cbn [walk_seq flat_map]; [reflexivity|].
    rewrite scan_app, H by now left. destruct (scan fn (f a) s) as [s1 []]; [|reflexivity]. apply IH. intros c Hc. apply H. now right.
  Qed.

  Lemma walk_fuel_scan : forall n e s, esize e <= n -> walk_fuel fn n e s = scan fn (preorder walk_children e) s.
  Proof.
    induction n as [|n IH]; intros e s He; [pose proof (esize_pos e); lia|].
    cbn [walk_fuel]. rewrite preorder_eq by exact walk_shrinks. destruct (is_nil e); [reflexivity|]. cbn [scan].
    destruct (fn s e) as [s1 []]; [|reflexivity]. apply walk_seq_scan. intros c Hc s2. apply IH.
    pose proof (walk_children_lt e c Hc). lia.
  Qed.
  Lemma Walk_scan e s : Walk fn e s = scan fn (preorder walk_children e) s.
  Proof. apply walk_fuel_scan. lia. Qed.
End Scan.

Lemma scan_all (St : Type) (f : St -> expr -> St) l s : scan (fun s e => (f s e, true)) l s = (fold_left f l s, true).
Proof. revert s. induction l as [|a r IH]; intros s; cbn; [reflexivity|apply IH]. Qed.

Lemma FindAll_filter e p : FindAll e p = filter p (preorder walk_children e).
Proof.
  unfold FindAll. rewrite Walk_scan.
  rewrite (scan_all _ (fun (m : list expr) n => if p n then m ++ [n] else m)). cbn [fst].
  assert (H : forall l m, fold_left (fun (m : list expr) n => if p n then m ++ [n] else m) l m = m ++ filter p l).
  { induction l as [|a r IH]; intros m; cbn; [now rewrite app_nil_r|]. rewrite IH. destruct (p a); [now rewrite <- app_assoc|reflexivity]. }
  apply H.
Qed.

Lemma preorder_cons e : is_nil e = false -> exists r, preorder walk_children e = e :: r.
Proof. intros H. rewrite preorder_eq by exact walk_shrinks. rewrite H. eauto. Qed.

Lemma WalkWithBreak_scan (St : Type) (fn : St -> expr -> St * bool) e s :
  WalkWithBreak fn e s = scan fn (preorder walk_children e) s.
Proof.
  unfold WalkWithBreak. destruct (is_nil e) eqn:En.
  { rewrite preorder_eq by exact walk_shrinks. now rewrite En. }
  destruct (preorder_cons e En) as [r Hr]. rewrite Hr. cbn [scan].
  destruct (fn s e) as [s1 []]; cbn [negb]; [|reflexivity]. cbv zeta. rewrite Walk_scan, Hr. cbn [scan negb].
  match goal with |- context [scan ?g r] => assert (H : forall l s, scan g l (s, true, true) = let (s2, b) := scan fn l s in ((s2, true, b), b)) end.
  { induction l as [|a l IH]; intros s2; cbn [scan]; [reflexivity|]. cbn [negb]. destruct (fn s2 a) as [s3 []]; cbn [negb]; [apply IH|reflexivity]. }
  rewrite H. destruct (scan fn r s1) as [s2 b]. reflexivity.
Qed.

Lemma preorder_not_nil e x : In x (preorder walk_children e) -> is_nil x = false.
Proof.
  remember (esize e) as n eqn:En. revert e En. induction n as [n IH] using lt_wf_ind. intros e -> H.
  rewrite preorder_eq in H by exact walk_shrinks. destruct (is_nil e) eqn:Ee; [contradiction|].
  destruct H as [->|H]; [exact Ee|]. apply in_flat_map in H as (c & Hc & H). eapply IH; [|reflexivity|exact H]. now apply walk_children_lt.
Qed.

Lemma Find_find e p :
  Find e p = match find p (preorder walk_children e) with Some x => (x, true) | None => (ENil, false) end.
Proof.
  unfold Find. rewrite WalkWithBreak_scan.
  assert (H : forall l, (forall x, In x l -> is_nil x = false) ->
     fst (scan (fun found node => if p node then (node, false) else (found, true)) l ENil) = match find p l with Some x => x | None => ENil end).
  { induction l as [|a r IH]; intros Hl; cbn; [reflexivity|]. destruct (p a); [reflexivity|]. apply IH. intros x Hx. apply Hl. now right. }
  rewrite H by apply preorder_not_nil. destruct (find p _) as [x|] eqn:Ef; [|reflexivity].
  apply find_some in Ef as [Hin _]. apply preorder_not_nil in Hin. now rewrite Hin.
Qed.

(** * [Walk] reaches every syntax node *)
Definition vis (l : list expr) : list expr := filter is_node (flat_map nodes l).

Lemma vis_app l1 l2 : vis (l1 ++ l2) = vis l1 ++ vis l2.
Proof. unfold vis. now rewrite flat_map_app, filter_app. Qed.
Lemma vis_cons a l : vis (a :: l) = vis [a] ++ vis l.
Proof. apply (vis_app [a] l). Qed.
Lemma vis_part a : is_node a = false -> vis [a] = vis (subs a).
Proof. intros H. unfold vis. cbn [flat_map]. rewrite app_nil_r, nodes_eq. cbn [filter]. now rewrite H. Qed.
Lemma vis_flat f l : (forall x, In x l -> vis [x] = vis (f x)) -> vis l = vis (flat_map f l).
Proof.
  induction l as [|a r IH]; intros H; [reflexivity|]. cbn [flat_map]. rewrite vis_cons, vis_app, H by now left. f_equal. apply IH.
  intros x Hx. apply H. now right.
Qed.
Lemma vis_nil : vis [ENil] = [].
Proof. reflexivity. Qed.

Ltac other := try (exfalso; match goal with H : fits _ _ |- _ => destruct H as [H|H]; discriminate H end).
Lemma vis_key_value e : fits SKeyValue e -> vis [e] = vis (key_value e).
Proof. intros H; destruct e; other; [reflexivity|]. rewrite vis_part by reflexivity. reflexivity. Qed.
Lemma vis_window e : fits SWindow e -> vis [e] = vis (window_parts e).
Proof. intros H; destruct e; other; [reflexivity|]. rewrite vis_part by reflexivity. reflexivity. Qed.
Lemma vis_pair e : fits SPair e -> vis [e] = vis (pair_parts e).
Proof. intros H; destruct e; other; [reflexivity|]. rewrite vis_part by reflexivity. reflexivity. Qed.
Lemma vis_path e : fits SPath e -> vis [e] = vis (json_path e).
Proof. intros H; destruct e; other; [reflexivity|]. rewrite vis_part by reflexivity. reflexivity. Qed.
Lemma vis_hint e : All kinds e -> fits SHint e -> vis [e] = vis (json_hint e).
Proof.
  intros Ha H; destruct e; other; [reflexivity|]. rewrite vis_part by reflexivity. cbn [subs json_hint]. rewrite vis_cons, vis_app.
  inversion Ha as [x H1 H2]; subst. destruct H1 as [H1 _]. now rewrite (vis_path _ H1).
Qed.
Lemma vis_option e : All kinds e -> fits SOption e -> vis [e] = vis (json_option e).
Proof.
  intros Ha H; destruct e; other; [reflexivity|]. rewrite vis_part by reflexivity. cbn [subs json_option].
  inversion Ha as [x H1 H2]; subst. destruct H1 as (H1 & _ & _ & _ & H5). cbn [subs] in H2. rewrite Forall_forall in H2.
  match goal with |- vis [?a; ?b; ?c; ?d; ?f] = _ => change [a; b; c; d; f] with ([a] ++ [b; c; d] ++ [f]); rewrite !vis_app; rewrite (vis_path a H1), (vis_hint f); [reflexivity| |exact H5] end.
  apply H2. cbn. tauto.
Qed.
Lemma vis_options e : All kinds e -> fits SOptions e -> vis [e] = vis (json_options e).
Proof.
  intros Ha H; destruct e; other; [reflexivity|]. rewrite vis_part by reflexivity. cbn [subs json_options].
  inversion Ha as [x H1 H2]; subst. cbn [kinds subs] in H1, H2. rewrite Forall_forall in H1, H2.
  apply vis_flat. intros x Hx. apply vis_option; auto.
Qed.

Lemma walk_vis e : All kinds e -> is_node e = true \/ sort_of e = SPair -> Permutation (vis (walk_children e)) (vis (subs e)).
Proof.
  intros Ha Hn. destruct (special e) eqn:Hs.
  - inversion Ha as [x H1 H2]; subst. rewrite Forall_forall in H2.
    destruct e; try discriminate Hs; try (exfalso; destruct Hn as [Hn|Hn]; discriminate Hn); cbn [kinds] in H1; cbn [walk_children subs].
    + rewrite Forall_forall in H1. erewrite <- vis_flat; [apply Permutation_refl|]. intros x Hx. apply vis_key_value; auto.
    + destruct H1 as [_ H1]. rewrite vis_app. match goal with |- context [json_options ?o] => rewrite <- (vis_options o); [|apply H2; cbn; auto|exact H1] end. rewrite <- vis_app. apply Permutation_refl.
    + rewrite Forall_forall in H1. erewrite <- vis_flat; [apply Permutation_refl|]. intros x Hx. apply vis_window; auto.
    + destruct H1 as [H1 _]. rewrite Forall_forall in H1. rewrite !vis_app. erewrite <- vis_flat; [apply Permutation_refl|]. intros x Hx. apply vis_pair; auto.
  - unfold vis. apply walk_subs in Hs. apply (Permutation_flat_map nodes) in Hs. revert Hs. generalize (flat_map nodes (walk_children e)) (flat_map nodes (subs e)).
    intros l1 l2 H. induction H as [|x l l' H IH|x y l|l l' l'' H1 IH1 H2 IH2]; cbn [filter].
    + constructor.
    + destruct (is_node x); [now constructor|exact IH].
    + destruct (is_node x), (is_node y); try apply Permutation_refl. apply perm_swap.
    + eapply perm_trans; eassumption.
Qed.

(** The children are nil or syntax nodes, and again well-kinded. *)
Definition inner (e : expr) : Prop := All kinds e /\ (sort_of e = SNil \/ is_node e = true).
Lemma fits_inner e : All kinds e -> fits SExpr e -> inner e.
Proof. intros H [F|F]; (split; [exact H|]); [now left|]. right. unfold is_node. now rewrite F. Qed.
Lemma inner_parts e c : All kinds e -> (forall x, In x (subs e) -> fits SExpr x) -> In c (subs e) -> inner c.
Proof. intros Ha Hf Hc. inversion Ha as [x H1 H2]; subst. rewrite Forall_forall in H2. apply fits_inner; auto. Qed.
Lemma all_sub e c : All kinds e -> In c (subs e) -> All kinds c.
Proof. intros Ha Hc. inversion Ha as [x H1 H2]; subst. rewrite Forall_forall in H2. auto. Qed.
Lemma all_here e : All kinds e -> kinds e.
Proof. intros H. now inversion H. Qed.

Ltac inpart := let Ha := fresh in let Hc := fresh in intros Ha _ Hc; match goal with |- inner ?c => match type of Hc with In _ (_ ?e) => destruct e end end; try contradiction;
  apply (inner_parts _ _ Ha); [apply all_here in Ha; cbn [kinds] in Ha; now apply Forall_forall|exact Hc].
Lemma in_key_value e c : All kinds e -> fits SKeyValue e -> In c (key_value e) -> inner c. Proof. inpart. Qed.
Lemma in_window e c : All kinds e -> fits SWindow e -> In c (window_parts e) -> inner c. Proof. inpart. Qed.
Lemma in_pair e c : All kinds e -> fits SPair e -> In c (pair_parts e) -> inner c. Proof. inpart. Qed.
Lemma in_path e c : All kinds e -> fits SPath e -> In c (json_path e) -> inner c. Proof. inpart. Qed.
Lemma in_hint e c : All kinds e -> fits SHint e -> In c (json_hint e) -> inner c.
Proof.
  intros Ha Hf Hc. destruct e; try contradiction. cbn [json_hint] in Hc. pose proof (all_here _ Ha) as [H1 H2]. apply in_app_or in Hc as [Hc|[<-|[]]].
  - eapply in_path; [|exact H1|exact Hc]. apply (all_sub _ _ Ha). cbn. auto.
  - apply fits_inner; [|exact H2]. apply (all_sub _ _ Ha). cbn. auto.
Qed.
Lemma in_option e c : All kinds e -> fits SOption e -> In c (json_option e) -> inner c.
Proof.
  intros Ha Hf Hc. destruct e; try contradiction. cbn [json_option] in Hc. pose proof (all_here _ Ha) as (H1 & H2 & H3 & H4 & H5).
  rewrite !in_app_iff in Hc. destruct Hc as [Hc|[Hc|Hc]].
  - eapply in_path; [|exact H1|exact Hc]. apply (all_sub _ _ Ha). cbn. auto.
  - apply fits_inner; [apply (all_sub _ _ Ha); cbn in *; tauto|]. destruct Hc as [<-|[<-|[<-|[]]]]; assumption.
  - eapply in_hint; [|exact H5|exact Hc]. apply (all_sub _ _ Ha). cbn. tauto.
Qed.
Lemma in_options e c : All kinds e -> fits SOptions e -> In c (json_options e) -> inner c.
Proof.
  intros Ha Hf Hc. destruct e; try contradiction. cbn [json_options] in Hc. apply in_flat_map in Hc as (x & Hx & Hc).
  pose proof (all_here _ Ha) as H. cbn [kinds] in H. rewrite Forall_forall in H. eapply in_option; [|apply H, Hx|exact Hc]. apply (all_sub _ _ Ha). exact Hx.
Qed.

Lemma walk_inner e c : All kinds e -> is_node e = true \/ sort_of e = SPair -> In c (walk_children e) -> inner c.
Proof.
  intros Ha Hn Hc. destruct (special e) eqn:Hs.
  - pose proof (all_here _ Ha) as H.
    destruct e; try discriminate Hs; try (exfalso; destruct Hn as [Hn|Hn]; discriminate Hn); cbn [walk_children kinds] in *.
    + apply in_flat_map in Hc as (x & Hx & Hc). rewrite Forall_forall in H. eapply in_key_value; [|apply H, Hx|exact Hc]. apply (all_sub _ _ Ha). exact Hx.
    + destruct H as [H1 H2]. destruct Hc as [<-|Hc].
      * apply fits_inner; [|exact H1]. apply (all_sub _ _ Ha). cbn. auto.
      * eapply in_options; [|exact H2|exact Hc]. apply (all_sub _ _ Ha). cbn. auto.
    + apply in_flat_map in Hc as (x & Hx & Hc). rewrite Forall_forall in H. eapply in_window; [|apply H, Hx|exact Hc]. apply (all_sub _ _ Ha). exact Hx.
    + destruct H as [H1 H2]. apply in_app_or in Hc as [Hc|[<-|[]]].
      * apply in_flat_map in Hc as (x & Hx & Hc). rewrite Forall_forall in H1. eapply in_pair; [|apply H1, Hx|exact Hc]. apply (all_sub _ _ Ha). cbn [subs]. apply in_or_app. auto.
      * apply fits_inner; [|exact H2]. apply (all_sub _ _ Ha). cbn [subs]. apply in_or_app. cbn. auto.
  - apply (inner_parts _ _ Ha); [|eapply Permutation_in; [apply walk_subs, Hs|exact Hc]].
    apply Forall_forall. pose proof (all_here _ Ha) as H. destruct e; try discriminate Hs; exact H.
Qed.

Lemma Permutation_flat_map_in (A B : Type) (f g : A -> list B) l :
  (forall a, In a l -> Permutation (f a) (g a)) -> Permutation (flat_map f l) (flat_map g l).
Proof. induction l as [|a r IH]; intros H; cbn; [constructor|]. apply Permutation_app; [apply H; now left|apply IH; intros x Hx; apply H; now right]. Qed.

Lemma filter_flat_map (A B : Type) (p : B -> bool) (f : A -> list B) l : filter p (flat_map f l) = flat_map (fun x => filter p (f x)) l.
Proof. induction l as [|a r IH]; cbn; [reflexivity|]. now rewrite filter_app, IH. Qed.

Lemma preorder_nodes e : inner e -> Permutation (preorder walk_children e) (filter is_node (nodes e)).
Proof.
  remember (esize e) as n eqn:En. revert e En. induction n as [n IH] using lt_wf_ind. intros e -> [Ha Hn].
  rewrite preorder_eq by exact walk_shrinks. destruct Hn as [Hn|Hn].
  { destruct e; try discriminate Hn. apply Permutation_refl. }
  assert (is_nil e = false) as -> by (destruct e; try reflexivity; discriminate Hn).
  rewrite nodes_eq. cbn [filter]. rewrite Hn. constructor. fold (vis (subs e)).
  eapply perm_trans; [|apply walk_vis; auto]. unfold vis. rewrite filter_flat_map. apply Permutation_flat_map_in. intros c Hc.
  eapply IH; [|reflexivity|]; [now apply walk_children_lt|]. eapply walk_inner; [exact Ha| |exact Hc]. now left.
Qed.

(** * [Accept] calls the same children *)
Lemma accept_kids e : Permutation (kids e) (walk_children e).
Proof. destruct e; unfold kids; cbn [accept_children walk_children]; rewrite ?map_app, ?map_map; cbn [map kid]; rewrite ?map_id; try apply Permutation_refl; perm. Qed.
Lemma accept_shrinks : shrinks kids.
Proof. intros e c Hc. apply walk_children_lt. eapply Permutation_in; [apply accept_kids|exact Hc]. Qed.

Lemma part_node f e c x : (forall y, In c (f y) -> node_of y c) -> In x (subs e) -> In c (f x) -> node_of e c.
Proof. intros H Hx Hc. econstructor; [exact Hx|auto]. Qed.
Ltac pn := let H := fresh in intros H; match goal with |- node_of ?e _ => destruct e end; try contradiction; eapply node_sub; [exact H|constructor].
Lemma key_value_node e c : In c (key_value e) -> node_of e c. Proof. pn. Qed.
Lemma window_node e c : In c (window_parts e) -> node_of e c. Proof. pn. Qed.
Lemma pair_node e c : In c (pair_parts e) -> node_of e c. Proof. pn. Qed.
Lemma path_node e c : In c (json_path e) -> node_of e c. Proof. pn. Qed.
Lemma hint_node e c : In c (json_hint e) -> node_of e c.
Proof.
  destruct e; try contradiction. cbn [json_hint]. intros H. apply in_app_or in H as [H|[<-|[]]].
  - eapply node_sub; [|apply path_node, H]. cbn. auto.
  - eapply node_sub; [|constructor]. cbn. auto.
Qed.
Lemma option_node e c : In c (json_option e) -> node_of e c.
Proof.
  destruct e; try contradiction. cbn [json_option]. intros H. rewrite !in_app_iff in H. destruct H as [H|[H|H]].
  - eapply node_sub; [|apply path_node, H]. cbn. auto.
  - eapply node_sub; [|constructor]. cbn in *. tauto.
  - eapply node_sub; [|apply hint_node, H]. cbn. tauto.
Qed.
Lemma options_node e c : In c (json_options e) -> node_of e c.
Proof.
  destruct e; try contradiction. cbn [json_options]. intros H. apply in_flat_map in H as (x & Hx & H).
  eapply node_sub; [|apply option_node, H]. exact Hx.
Qed.
Lemma walk_node e c : In c (walk_children e) -> node_of e c.
Proof.
  intros Hc. destruct (special e) eqn:Hs.
  - destruct e; try discriminate Hs; cbn [walk_children] in Hc; try contradiction.
    + apply in_flat_map in Hc as (x & Hx & Hc). eapply node_sub; [exact Hx|]. now apply key_value_node.
    + destruct Hc as [<-|Hc]; [eapply node_sub; [|constructor]; cbn; auto|]. eapply node_sub; [|apply options_node, Hc]. cbn. auto.
    + apply in_flat_map in Hc as (x & Hx & Hc). eapply node_sub; [exact Hx|]. now apply window_node.
    + apply in_app_or in Hc as [Hc|[<-|[]]].
      * apply in_flat_map in Hc as (x & Hx & Hc). eapply node_sub; [|apply pair_node, Hc]. cbn [subs]. apply in_or_app. auto.
      * eapply node_sub; [|constructor]. cbn [subs]. apply in_or_app. cbn. auto.
  - eapply node_sub; [|constructor]. eapply Permutation_in; [apply walk_subs, Hs|exact Hc].
Qed.
Lemma node_trans a b c : node_of a b -> node_of b c -> node_of a c.
Proof. induction 1 as [|t x e Hx Hn IH]; intros H; [exact H|]. econstructor; [exact Hx|]. now apply IH. Qed.
Lemma all_kid P e c : All P e -> In c (kids e) -> All P c.
Proof.
  intros Ha Hc. apply All_nodes. intros x Hx. apply (proj1 (All_nodes P e) Ha). eapply node_trans; [|exact Hx].
  apply walk_node. eapply Permutation_in; [apply accept_kids|exact Hc].
Qed.

Lemma preorder_not_nil' e : is_nil e = true -> preorder walk_children e = [].
Proof. intros H. rewrite preorder_eq by exact walk_shrinks. now rewrite H. Qed.

Section Visits.
  Context {St : Type}.
  Variable visit : St -> expr -> St * bool.
  Let acc := @accept_fuel St (fun s _ => s) (fun s _ => s) visit.

  Lemma accept_seq_scan m l s :
    Forall (fun c => match c with Opt _ => True | Must x => is_nil x = false end) l ->
    (forall c, In c (map kid l) -> is_nil c = false -> forall s, acc m c s = Some (scan visit (postorder kids c) s)) ->
    accept_seq (acc m) l s = Some (scan visit (flat_map (postorder kids) (map kid l)) s).
  Proof.
    revert s. induction l as [|ch r IH]; intros s Hf H; cbn [accept_seq map flat_map]; [reflexivity|].
    inversion Hf as [|x y Hx Hy]; subst. rewrite scan_app.
    assert (He : (match ch with Opt c => if is_nil c then Some (s, true) else acc m c s | Must c => if is_nil c then None else acc m c s end)
                 = Some (scan visit (postorder kids (kid ch)) s)).
    { destruct ch as [c|c]; cbn [kid] in *.
      - destruct (is_nil c) eqn:En; [|apply H; [now left|exact En]]. rewrite postorder_eq by exact accept_shrinks. now rewrite En.
      - rewrite Hx. apply H; [now left|exact Hx]. }
    rewrite He. destruct (scan visit (postorder kids (kid ch)) s) as [s1 []]; [|reflexivity].
    apply IH; [exact Hy|]. intros c Hc. apply H. now right.
  Qed.

  Lemma accept_fuel_scan : forall n e s, esize e <= n -> is_nil e = false -> All no_gap e -> acc n e s = Some (scan visit (postorder kids e) s).
  Proof.
    induction n as [|n IH]; intros e s He Hn Ha; [pose proof (esize_pos e); lia|].
    unfold acc. cbn [accept_fuel]. fold acc. rewrite accept_seq_scan; [|now inversion Ha|].
    - rewrite (postorder_eq kids e) by exact accept_shrinks. rewrite Hn, scan_app. fold (kids e).
      destruct (scan visit (flat_map (postorder kids) (kids e)) s) as [s1 []]; [|reflexivity]. cbn [scan].
      destruct (visit s1 e) as [s2 []]; reflexivity.
    - intros c Hc Hcn s1. fold (kids e) in Hc. apply IH; [|exact Hcn|eapply all_kid; eassumption]. pose proof (accept_shrinks e c Hc). lia.
  Qed.
  Lemma AcceptDefault_scan e s : is_nil e = false -> All no_gap e -> AcceptDefault visit e s = Some (scan visit (postorder kids e) s).
  Proof. intros H1 H2. apply accept_fuel_scan; auto. Qed.
End Visits.

Lemma trace_more ch : shrinks ch -> forall n e, esize e <= n -> trace_fuel ch n e = trace ch e.
Proof.
  intros Hs n. induction n as [n IH] using lt_wf_ind. intros e He. unfold trace.
  pose proof (esize_pos e). destruct n as [|n]; [lia|]. destruct (esize e) as [|k] eqn:Ek; [lia|].
  cbn [trace_fuel]. destruct (is_nil e); [reflexivity|]. f_equal. f_equal. apply flat_map_ext_in'. intros c Hc.
  pose proof (Hs e c Hc). rewrite (IH n) by lia. rewrite (IH k) by lia. reflexivity.
Qed.
Lemma trace_eq ch e : shrinks ch -> trace ch e = if is_nil e then [] else Enter e :: flat_map (trace ch) (ch e) ++ [Visit e; Leave e].
Proof.
  intros Hs. rewrite <- (trace_more ch Hs (S (esize e)) e) by lia. cbn [trace_fuel].
  destruct (is_nil e); [reflexivity|]. f_equal. f_equal. apply flat_map_ext_in'. intros c Hc. apply trace_more; [exact Hs|].
  pose proof (Hs e c Hc). lia.
Qed.
Lemma visited_app l1 l2 : visited (l1 ++ l2) = visited l1 ++ visited l2.
Proof. apply flat_map_app. Qed.
Lemma visited_trace ch : shrinks ch -> forall e, visited (trace ch e) = postorder ch e.
Proof.
  intros Hs e. remember (esize e) as n eqn:En. revert e En. induction n as [n IH] using lt_wf_ind. intros e ->.
  rewrite trace_eq, postorder_eq by exact Hs. destruct (is_nil e); [reflexivity|].
  change (visited (Enter e :: flat_map (trace ch) (ch e) ++ [Visit e; Leave e])) with (visited (flat_map (trace ch) (ch e) ++ [Visit e; Leave e])).
  rewrite visited_app. f_equal.
  assert (Hl : forall l, (forall c, In c l -> esize c < esize e) -> visited (flat_map (trace ch) l) = flat_map (postorder ch) l).
  { induction l as [|a r IHl]; intros Hc; [reflexivity|]. cbn [flat_map]. rewrite visited_app. f_equal.
    - eapply IH; [|reflexivity]. apply Hc. now left.
    - apply IHl. intros c Hin. apply Hc. now right. }
  apply Hl. intros c Hc. now apply Hs.
Qed.

(** A visitor that records what it sees. *)
Definition recorder (e : expr) : option (list event * bool) :=
  Accept (fun l e => l ++ [Enter e]) (fun l e => l ++ [Leave e]) (fun l e => (l ++ [Visit e], true)) e [].

Section Record.
  Let acc := @accept_fuel (list event) (fun l e => l ++ [Enter e]) (fun l e => l ++ [Leave e]) (fun l e => (l ++ [Visit e], true)).
  Lemma accept_seq_trace m l s :
    Forall (fun c => match c with Opt _ => True | Must x => is_nil x = false end) l ->
    (forall c, In c (map kid l) -> is_nil c = false -> forall s, acc m c s = Some (s ++ trace kids c, true)) ->
    accept_seq (acc m) l s = Some (s ++ flat_map (trace kids) (map kid l), true).
  Proof.
    revert s. induction l as [|ch r IH]; intros s Hf H; cbn [accept_seq map flat_map]; [now rewrite app_nil_r|].
    inversion Hf as [|x y Hx Hy]; subst.
    assert (He : (match ch with Opt c => if is_nil c then Some (s, true) else acc m c s | Must c => if is_nil c then None else acc m c s end)
                 = Some (s ++ trace kids (kid ch), true)).
    { destruct ch as [c|c]; cbn [kid] in *.
      - destruct (is_nil c) eqn:En; [|apply H; [now left|exact En]]. rewrite trace_eq by exact accept_shrinks. now rewrite En, app_nil_r.
      - rewrite Hx. apply H; [now left|exact Hx]. }
    rewrite He. rewrite app_assoc. apply IH; [exact Hy|]. intros c Hc. apply H. now right.
  Qed.
  Lemma accept_fuel_trace : forall n e s, esize e <= n -> is_nil e = false -> All no_gap e -> acc n e s = Some (s ++ trace kids e, true).
  Proof.
    induction n as [|n IH]; intros e s He Hn Ha; [pose proof (esize_pos e); lia|].
    unfold acc. cbn [accept_fuel]. fold acc. rewrite accept_seq_trace; [|now inversion Ha|].
    - rewrite (trace_eq kids e) by exact accept_shrinks. rewrite Hn. fold (kids e). f_equal. f_equal. rewrite <- !app_assoc. reflexivity.
    - intros c Hc Hcn s1. fold (kids e) in Hc. apply IH; [|exact Hcn|eapply all_kid; eassumption]. pose proof (accept_shrinks e c Hc). lia.
  Qed.
  Lemma recorder_trace e : is_nil e = false -> All no_gap e -> recorder e = Some (trace kids e, true).
  Proof. intros H1 H2. unfold recorder, Accept. fold acc. rewrite accept_fuel_trace; auto. Qed.
End Record.

(** A visitor with any [Visit] method, and with [Enter] and [Leave] that record the calls. *)
Definition watched {St} (visit : St -> expr -> St * bool) (e : expr) (s : St) : option (St * list event * bool) :=
  Accept (fun p e => (fst p, snd p ++ [Enter e])) (fun p e => (fst p, snd p ++ [Leave e]))
    (fun p e => let (s1, b) := visit (fst p) e in ((s1, snd p ++ [Visit e]), b)) e (s, []).

Lemma balanced_app l m : balanced l -> balanced m -> balanced (l ++ m).
Proof.
  intros H Hm. induction H as [|e l H IH|e k l Hk _ H IH]; cbn [app]; [exact Hm|now constructor|].
  rewrite <- app_assoc. cbn [app]. now constructor.
Qed.

Section Watch.
  Context {St : Type} (visit : St -> expr -> St * bool).
  Let acc := @accept_fuel (St * list event) (fun p e => (fst p, snd p ++ [Enter e])) (fun p e => (fst p, snd p ++ [Leave e]))
    (fun p e => let (s1, b) := visit (fst p) e in ((s1, snd p ++ [Visit e]), b)).

  Lemma accept_seq_balanced m l : (forall e s s' b, acc m e s = Some (s', b) -> exists t, snd s' = snd s ++ t /\ balanced t) ->
    forall s s' b, accept_seq (acc m) l s = Some (s', b) -> exists t, snd s' = snd s ++ t /\ balanced t.
  Proof.
    intros H. assert (Hnil : forall s s' b, Some (s, true) = Some (s', b) -> exists t : list event, snd s' = snd (s : St * list event) ++ t /\ balanced t).
    { intros s s' b E. injection E as <- _. exists []. split; [now rewrite app_nil_r|constructor]. }
    induction l as [|c r IH]; intros s s' b E; cbn [accept_seq] in E; [eapply Hnil; exact E|].
    set (res := match c with Opt c => if is_nil c then Some (s, true) else acc m c s | Must c => if is_nil c then None else acc m c s end) in *.
    assert (Hr : forall s1 b1, res = Some (s1, b1) -> exists t, snd s1 = snd s ++ t /\ balanced t).
    { intros s1 b1 E1. subst res. destruct c as [x|x]; destruct (is_nil x); try discriminate E1; first [eapply Hnil; exact E1 | eapply H; exact E1]. }
    destruct res as [[s1 [|]]|]; [|eapply Hr; exact E|discriminate E].
    destruct (Hr s1 true eq_refl) as (t & Et & Ht). destruct (IH _ _ _ E) as (u & Eu & Hu).
    exists (t ++ u). split; [now rewrite Eu, Et, app_assoc|now apply balanced_app].
  Qed.

  Lemma accept_fuel_node n : forall e s s' b, acc (S n) e s = Some (s', b) -> exists t, snd s' = snd s ++ Enter e :: t ++ [Leave e] /\ balanced t.
  Proof.
    induction n as [n IH] using lt_wf_ind. intros e s s' b E.
    assert (Hn : forall x s s' b, acc n x s = Some (s', b) -> exists t, snd s' = snd s ++ t /\ balanced t).
    { destruct n as [|k]; intros x s0 s0' b0 E0; [injection E0 as <- _; exists []; split; [now rewrite app_nil_r|constructor]|].
      destruct (IH k (Nat.lt_succ_diag_r k) _ _ _ _ E0) as (t & Et & Ht). exists (Enter x :: t ++ [Leave x]). split; [exact Et|]. constructor; [exact Ht|constructor]. }
    unfold acc in E. cbn [accept_fuel] in E. fold acc in E.
    destruct (accept_seq (acc n) (accept_children e) (fst s, snd s ++ [Enter e])) as [[s1 [|]]|] eqn:E1; [| |discriminate E].
    - destruct (accept_seq_balanced n _ Hn _ _ _ E1) as (t & Et & Ht). cbn [snd] in Et. destruct (visit (fst s1) e) as [s2 b2]. injection E as <- _. cbn [fst snd].
      exists (t ++ [Visit e]). split; [rewrite Et, <- !app_assoc; reflexivity|]. apply balanced_app; [exact Ht|]. repeat constructor.
    - destruct (accept_seq_balanced n _ Hn _ _ _ E1) as (t & Et & Ht). cbn [snd] in Et. injection E as <- _. cbn [fst snd].
      exists t. split; [rewrite Et, <- !app_assoc; reflexivity|exact Ht].
  Qed.

  Lemma watched_balanced e s s' l b : watched visit e s = Some (s', l, b) -> exists t, l = Enter e :: t ++ [Leave e] /\ balanced t.
  Proof.
    unfold watched, Accept. fold acc. pose proof (esize_pos e) as Hp. destruct (esize e) as [|n]; [inversion Hp|]. intros E. exact (accept_fuel_node n _ _ _ _ E).
  Qed.
End Watch.

Lemma post_pre e : Permutation (postorder kids e) (preorder walk_children e).
Proof.
  remember (esize e) as n eqn:En. revert e En. induction n as [n IH] using lt_wf_ind. intros e ->.
  rewrite postorder_eq by exact accept_shrinks. rewrite preorder_eq by exact walk_shrinks. destruct (is_nil e); [constructor|].
  eapply perm_trans; [apply Permutation_app_comm|]. cbn [app]. constructor.
  eapply perm_trans; [apply Permutation_flat_map, accept_kids|]. apply Permutation_flat_map_in. intros c Hc. eapply IH; [|reflexivity]. now apply walk_children_lt.
Qed.

(** A panic comes from an unguarded nil child. *)
Lemma accept_none (St : Type) enter leave visit : forall n e (s : St), accept_fuel enter leave visit n e s = None ->
  exists x, node_of e x /\ ~ no_gap x.
Proof.
  induction n as [|n IH]; intros e s H; cbn [accept_fuel] in H; [discriminate|].
  destruct (accept_seq (accept_fuel enter leave visit n) (accept_children e) (enter s e)) as [[s1 []]|] eqn:Ea; [destruct (visit s1 e); discriminate|discriminate|].
  clear H. assert (Hs : forall l s, accept_seq (accept_fuel enter leave visit n) l s = None ->
     ~ Forall (fun c => match c with Opt _ => True | Must x => is_nil x = false end) l \/ exists c s', In c (map kid l) /\ accept_fuel enter leave visit n c s' = None).
  { induction l as [|ch r IHl]; intros s0; cbn [accept_seq]; [discriminate|].
    assert (Hr : forall s1, accept_seq (accept_fuel enter leave visit n) r s1 = None ->
       ~ Forall (fun c => match c with Opt _ => True | Must x => is_nil x = false end) (ch :: r) \/ exists c s', In c (map kid (ch :: r)) /\ accept_fuel enter leave visit n c s' = None).
    { intros s1 H. apply IHl in H as [H|(c & s' & Hc & H)].
      - left. intros F. apply H. now inversion F.
      - right. exists c, s'. split; [now right|exact H]. }
    destruct ch as [c|c]; destruct (is_nil c) eqn:En.
    - apply Hr.
    - destruct (accept_fuel enter leave visit n c s0) as [[s1 []]|] eqn:Ec; [apply Hr|discriminate|]. intros _. right. exists c, s0. split; [now left|exact Ec].
    - intros _. left. intros F. inversion F; congruence.
    - destruct (accept_fuel enter leave visit n c s0) as [[s1 []]|] eqn:Ec; [apply Hr|discriminate|]. intros _. right. exists c, s0. split; [now left|exact Ec]. }
  apply Hs in Ea as [Ea|(c & s' & Hc & Ea)].
  - exists e. split; [constructor|exact Ea].
  - apply IH in Ea as (x & Hx & Ha). exists x. split; [|exact Ha]. eapply node_trans; [|exact Hx]. apply walk_node.
    eapply Permutation_in; [apply accept_kids|]. exact Hc.
Qed.

Lemma scan_stop (St : Type) (fn : St -> expr -> St * bool) l s s' : scan fn l s = (s', false) ->
  exists l1 e r s1, l = l1 ++ e :: r /\ scan fn l1 s = (s1, true) /\ fn s1 e = (s', false).
Proof.
  revert s. induction l as [|a l IH]; intros s H; cbn [scan] in H; [discriminate|]. destruct (fn s a) as [s1 []] eqn:E.
  - apply IH in H as (l1 & e & r & s2 & -> & H1 & H2). exists (a :: l1), e, r, s2. cbn [scan app]. rewrite E. auto.
  - injection H as <-. exists [], a, l, s. auto.
Qed.

Lemma walk_field_order e : is_node e = true -> has_parts e = false -> reordered e = false -> walk_children e = subs e.
Proof. destruct e; cbn [walk_children subs app]; try reflexivity; discriminate. Qed.

Lemma scan_record l acc : scan (fun (l : list expr) e => (l ++ [e], true)) l acc = (acc ++ l, true).
Proof. revert acc. induction l as [|a l IH]; intros acc; cbn [scan]; [now rewrite app_nil_r|]. rewrite IH, <- app_assoc. reflexivity. Qed.

Lemma Walk_all t : fst (Walk (fun (l : list expr) e => (l ++ [e], true)) t []) = preorder walk_children t.
Proof. rewrite Walk_scan, scan_record. reflexivity. Qed.

Definition no_args (e : expr) : Prop := match e with EFunctionExpr _ ENil => True | _ => False end.

Lemma gapless_no_gap e : gapless e -> ~ no_args e -> no_gap e.
Proof.
  destruct e; auto. cbn [gapless no_args]. intros H1 H2. match goal with |- no_gap (EFunctionExpr ?a ?b) => unfold no_gap; cbn [accept_children]; assert (is_nil b = false) by (destruct b; auto; now destruct H2) end. repeat constructor; auto.
Qed.

Lemma accept_seq_some (St : Type) (visit : St -> expr -> St * bool) m l s r :
  (forall c, In c (map kid l) -> is_nil c = false -> forall s r, accept_fuel (fun s _ => s) (fun s _ => s) visit m c s = Some r -> r = scan visit (postorder kids c) s) ->
  accept_seq (accept_fuel (fun s _ => s) (fun s _ => s) visit m) l s = Some r -> r = scan visit (flat_map (postorder kids) (map kid l)) s.
Proof.
  revert s. induction l as [|ch l IH]; intros s H; cbn [accept_seq map flat_map]; [intros E; now injection E|].
  rewrite scan_app. set (acc := accept_fuel (fun s _ => s) (fun s _ => s) visit m) in *.
  set (res := match ch with Opt c => if is_nil c then Some (s, true) else acc c s | Must c => if is_nil c then None else acc c s end).
  assert (Hres : forall r, res = Some r -> r = scan visit (postorder kids (kid ch)) s).
  { intros r0. unfold res. destruct ch as [c|c]; cbn [kid]; destruct (is_nil c) eqn:En.
    - intros E. rewrite postorder_eq by exact accept_shrinks. rewrite En. now injection E.
    - apply H; [now left|exact En].
    - discriminate.
    - apply H; [now left|exact En]. }
  destruct res as [[s1 []]|] eqn:Er.
  - rewrite <- (Hres _ eq_refl). apply IH. intros c Hc. apply H. now right.
  - rewrite <- (Hres _ eq_refl). intros E. now injection E.
  - discriminate.
Qed.
Lemma accept_fuel_some (St : Type) (visit : St -> expr -> St * bool) : forall n e s r, esize e <= n -> is_nil e = false ->
  accept_fuel (fun s _ => s) (fun s _ => s) visit n e s = Some r -> r = scan visit (postorder kids e) s.
Proof.
  induction n as [|n IH]; intros e s r He Hn; [pose proof (esize_pos e); lia|]. cbn [accept_fuel].
  destruct (accept_seq (accept_fuel (fun s _ => s) (fun s _ => s) visit n) (accept_children e) s) as [r1|] eqn:E; [|discriminate].
  apply accept_seq_some in E.
  - fold (kids e) in E. rewrite (postorder_eq kids e) by exact accept_shrinks. rewrite Hn, scan_app, <- E.
    destruct r1 as [s1 []]; cbn [scan]; [|intros Er; now injection Er]. destruct (visit s1 e) as [s2 []]; intros Er; now injection Er.
  - intros c Hc Hcn s2 r2. apply IH; [|exact Hcn]. pose proof (accept_shrinks e c Hc). lia.
Qed.

Lemma accepted_nodes t : is_node t = true -> All gapless t ->
  match AcceptDefault (fun (l : list expr) e => (l ++ [e], true)) t [] with
  | Some (l, ok) => ok = true /\ Permutation l (fst (Walk (fun (l : list expr) e => (l ++ [e], true)) t []))
  | None => exists n, node_of t (EFunctionExpr n ENil)
  end.
Proof.
  intros Hn Ha. assert (Hnil : is_nil t = false) by (destruct t; try reflexivity; discriminate Hn).
  destruct (AcceptDefault (fun (l : list expr) e => (l ++ [e], true)) t []) as [[l ok]|] eqn:E.
  - apply accept_fuel_some in E; [|auto|exact Hnil]. rewrite scan_record in E. injection E as -> ->. split; [reflexivity|].
    rewrite Walk_all. apply post_pre.
  - apply accept_none in E as (x & Hx & Hg). assert (Hda : no_args x \/ ~ no_args x) by (destruct x; auto; cbn [no_args]; match goal with |- context [match ?x with _ => _ end] => destruct x; auto end).
    destruct Hda as [Hda|Hda]; [|exfalso; apply Hg, gapless_no_gap; [exact (proj1 (All_nodes _ _) Ha x Hx)|exact Hda]].
    destruct x; try contradiction. cbn [no_args] in Hda. match goal with H : match ?x with _ => _ end |- _ => destruct x; try contradiction end. eauto.
Qed.
