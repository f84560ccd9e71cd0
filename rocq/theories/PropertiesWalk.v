(** Properties C31 to C34: the traversals of the syntax tree. *)
From Coq Require Import String List Arith Bool Permutation.
From Verif Require Import Str Ast AstPos AstSubs ItemsFacts LexRun Parser ParserApi Walk Visitor WalkSpec WalkFacts Spec SpecSystem SpecParse ParseFacts.
Import ListNotations.
Local Open Scope string_scope.
Local Open Scope list_scope.
Local Open Scope nat_scope.

(** What [Walk] visits when the callback never refuses. *)
Definition walked (t : expr) : list expr := fst (Walk (fun l e => (l ++ [e], true)) t []).

(** ** C31 *)

(** [Walk] calls the callback on the nodes in pre-order until it refuses, and returns
    whether it never did. *)
Theorem C31_walk : forall (St : Type) (fn : St -> expr -> St * bool) t s,
  Walk fn t s = scan fn (preorder walk_children t) s.
Proof. intros. apply Walk_scan. Qed.
Print Assumptions C31_walk.

(** What pre-order is. *)
Theorem C31_preorder : forall t,
  preorder walk_children t = if is_nil t then [] else t :: flat_map (preorder walk_children) (walk_children t).
Proof. intros. apply preorder_eq, walk_shrinks. Qed.
Print Assumptions C31_preorder.

(** After a refusal there is no further call: the state is the one the callback left. *)
Theorem C31_stop : forall (St : Type) (fn : St -> expr -> St * bool) t s s',
  Walk fn t s = (s', false) ->
  exists l e r s1, preorder walk_children t = l ++ e :: r /\ scan fn l s = (s1, true) /\ fn s1 e = (s', false).
Proof. intros St fn t s s' H. rewrite Walk_scan in H. now apply scan_stop. Qed.
Print Assumptions C31_stop.

(** The children are the fields in the order of the struct, for most kinds. *)
Theorem C31_order : forall e, is_node e = true -> has_parts e = false -> reordered e = false -> walk_children e = subs e.
Proof. intros e. apply walk_field_order. Qed.
Print Assumptions C31_order.

(** A callback that counts and stops at the third node of [1 + 2 * 3]. *)
Definition num (s : string) : expr := ENumberLiteral PZero PZero s 10.
Definition sum : expr := EBinaryOperation (num "1") "+" (EBinaryOperation (num "2") "*" (num "3") false false) false false.
Example C31_case : Walk (fun n _ => (S n, S n <? 3)) sum 0 = (3, false) /\
  preorder walk_children sum = [sum; num "1"; EBinaryOperation (num "2") "*" (num "3") false false; num "2"; num "3"].
Proof. vm_compute. auto. Qed.

(** ** C32 *)

Theorem C32_find : forall t p,
  Find t p = match find p (preorder walk_children t) with Some e => (e, true) | None => (ENil, false) end.
Proof. exact Find_find. Qed.
Print Assumptions C32_find.

Theorem C32_find_all : forall t p, FindAll t p = filter p (preorder walk_children t).
Proof. exact FindAll_filter. Qed.
Print Assumptions C32_find_all.

Theorem C32_walk_with_break : forall (St : Type) (fn : St -> expr -> St * bool) t s, WalkWithBreak fn t s = Walk fn t s.
Proof. intros. rewrite WalkWithBreak_scan, Walk_scan. reflexivity. Qed.
Print Assumptions C32_walk_with_break.

Definition is_binary (e : expr) : bool := match e with EBinaryOperation _ _ _ _ _ => true | _ => false end.
Example C32_case : Find sum is_binary = (sum, true) /\ List.length (FindAll sum is_binary) = 2 /\
  Find (num "1") is_binary = (ENil, false).
Proof. vm_compute. auto. Qed.

(** ** C33 *)

(** The pairs of a RENAME statement are values with the methods of a syntax node that
    [Walk] does not visit (nor does [Accept]). *)
Theorem C33_refuted : exists inp stmts sp t e, parse_stmts inp = Parsed stmts sp /\ In t stmts /\ node_of t e /\
  sort_of e = SPair /\ ~ In e (walked t).
Proof.
  exists "RENAME TABLE a TO b ". eexists. eexists. eexists. eexists. split; [vm_compute; reflexivity|].
  split; [now left|]. split; [eapply node_sub; [apply (nth_error_In _ 0); reflexivity | apply node_self]|].
  split; [reflexivity|]. vm_compute. intuition discriminate.
Qed.
Print Assumptions C33_refuted.

(** Apart from these, [Walk] visits every syntax node of the tree, as often as it occurs,
    and nothing else. Missing: the pairs. *)
Theorem C33_every_node_partial : forall t, All kinds t -> is_node t = true ->
  Permutation (walked t) (filter is_node (nodes t)).
Proof. intros t Ha Hn. unfold walked. rewrite Walk_all. apply preorder_nodes. split; auto. Qed.
Print Assumptions C33_every_node_partial.

(** So in particular for the statements the parser returns. *)
Theorem C33_parsed_partial : forall inp stmts sp t, parse_stmts inp = Parsed stmts sp -> In t stmts ->
  Permutation (walked t) (filter is_node (nodes t)).
Proof.
  intros inp stmts sp t H Ht. destruct (parsed_shape inp stmts sp t H Ht) as (Hn & Hk & _). now apply C33_every_node_partial.
Qed.
Print Assumptions C33_parsed_partial.

(** [nodes] lists what is held in the fields. *)
Theorem C33_nodes : forall t e, In e (nodes t) <-> node_of t e.
Proof. exact nodes_node_of. Qed.
Print Assumptions C33_nodes.

Example C33_case : exists stmts sp t, parse_stmts "SELECT a, {'k': 1}['k'] FROM t WINDOW w AS (PARTITION BY b) " = Parsed stmts sp /\ In t stmts /\
  is_node t = true /\ List.length (walked t) = 24.
Proof. do 3 eexists. split; [vm_compute; reflexivity|]. split; [now left|]. vm_compute. auto. Qed.

(** ** C34 *)

(** The default visitor with a [Visit] function that records the nodes. *)
Definition accepted (t : expr) : option (list expr * bool) := AcceptDefault (fun l e => (l ++ [e], true)) t [].

(** [Accept] can crash on a tree of the parser, on which [Walk] does not. *)
Theorem C34_refuted : exists inp stmts sp t, parse_stmts inp = Parsed stmts sp /\ In t stmts /\ accepted t = None.
Proof.
  exists "CREATE DICTIONARY d (a Int8) SOURCE(X(k f())) ". do 3 eexists. split; [vm_compute; reflexivity|].
  split; [now left|]. vm_compute. reflexivity.
Qed.
Print Assumptions C34_refuted.

(** A crash comes from a function without argument list, so only from dictionary sources.
    Otherwise [Accept] visits exactly the nodes that [Walk] visits, each as often. *)
Theorem C34_same_nodes_partial : forall inp stmts sp t, parse_stmts inp = Parsed stmts sp -> In t stmts ->
  match accepted t with
  | Some (l, ok) => ok = true /\ Permutation l (walked t)
  | None => exists n, node_of t (EFunctionExpr n ENil)
  end.
Proof.
  intros inp stmts sp t H Ht. destruct (parsed_shape inp stmts sp t H Ht) as (Hn & _ & Hg & _). now apply accepted_nodes.
Qed.
Print Assumptions C34_same_nodes_partial.

(** For any tree without nil where [Accept] relies on a node: the visits are in post-order,
    an error ends them, and [Enter] and [Leave] are called around what is below a node. *)
Theorem C34_default_visitor : forall (St : Type) (visit : St -> expr -> St * bool) t s, All no_gap t -> is_nil t = false ->
  AcceptDefault visit t s = Some (scan visit (postorder kids t) s) /\ Permutation (postorder kids t) (walked t).
Proof.
  intros St visit t s Hg Hn. split; [now apply AcceptDefault_scan|]. unfold walked. rewrite Walk_all. apply post_pre.
Qed.
Print Assumptions C34_default_visitor.

Theorem C34_enter_leave : forall t, All no_gap t -> is_nil t = false ->
  recorder t = Some (trace kids t, true) /\ visited (trace kids t) = postorder kids t /\
  trace kids t = Enter t :: flat_map (trace kids) (kids t) ++ [Visit t; Leave t].
Proof.
  intros t Hg Hn. split; [now apply recorder_trace|]. split; [apply visited_trace, accept_shrinks|].
  rewrite trace_eq by exact accept_shrinks. now rewrite Hn.
Qed.
Print Assumptions C34_enter_leave.

(** Whatever tree and whatever [Visit] method, also one that returns an error: each node that was entered is left, in the opposite order. *)
Theorem C34_leave : forall (St : Type) (visit : St -> expr -> St * bool) t s s' l ok, watched visit t s = Some (s', l, ok) ->
  exists m, l = Enter t :: m ++ [Leave t] /\ balanced m.
Proof. intros. eapply watched_balanced; eassumption. Qed.
Print Assumptions C34_leave.

(** A visitor that fails on the second visit. *)
Example C34_leave_case : exists stmts sp t l, parse_stmts "SELECT a, b " = Parsed stmts sp /\ In t stmts /\
  watched (fun k (_ : expr) => (S k, Nat.ltb k 1)) t 0 = Some (2, l, false) /\ List.length l = 8.
Proof. do 4 eexists. split; [vm_compute; reflexivity|]. split; [now left|]. split; vm_compute; reflexivity. Qed.

Example C34_case : exists stmts sp t l, parse_stmts "SELECT a ? b : c FROM t " = Parsed stmts sp /\ In t stmts /\
  accepted t = Some (l, true) /\ List.length l = 11 /\ l <> walked t.
Proof. do 4 eexists. split; [vm_compute; reflexivity|]. split; [now left|]. split; [vm_compute; reflexivity|]. split; [reflexivity | discriminate]. Qed.
