(** Specifications for C31 to C34. They mention the syntax tree and, for the order of
    visits, the children of a node, not the traversals. *)
From Coq Require Import String List Arith Bool.
From Verif Require Import Ast AstPos AstSubs.
Import ListNotations.
Local Open Scope list_scope.
Local Open Scope nat_scope.

(** Call [fn] on the nodes of a list, in order, until it refuses. *)
Fixpoint scan {St} (fn : St -> expr -> St * bool) (l : list expr) (s : St) : St * bool :=
  match l with
  | [] => (s, true)
  | e :: r => let (s1, b) := fn s e in if b then scan fn r s1 else (s1, false)
  end.

(** What a value of type [expr] is in Go: nothing, a syntax node (an [Expr]), or a part of
    a node that is not an [Expr]. *)
Inductive sort : Type := SNil | SExpr | SKeyValue | SWindow | SPair | SPath | SHint | SOption | SOptions.

Definition sort_of (e : expr) : sort :=
  match e with
  | ENil => SNil
  | EKeyValue _ _ => SKeyValue
  | EWindowDefinition _ _ _ => SWindow
  | ETargetPair _ _ => SPair
  | EJSONPath _ => SPath
  | EJSONTypeHint _ _ => SHint
  | EJSONOption _ _ _ _ _ => SOption
  | EJSONOptions _ _ _ => SOptions
  | _ => SExpr
  end.

Definition fits (k : sort) (e : expr) : Prop := sort_of e = SNil \/ sort_of e = k.

(** The parts of a node are of the sorts their Go types say. *)
Definition kinds (e : expr) : Prop :=
  match e with
  | EMapLiteral _ _ KeyValues => Forall (fits SKeyValue) KeyValues
  | EWindowClause _ _ Windows => Forall (fits SWindow) Windows
  | ERenameStmt _ _ _ TargetPairList OnCluster => Forall (fits SPair) TargetPairList /\ fits SExpr OnCluster
  | EJSONType Name Options => fits SExpr Name /\ fits SOptions Options
  | EJSONOptions _ _ Items => Forall (fits SOption) Items
  | EJSONOption SkipPath SkipRegex MaxDynamicPaths MaxDynamicTypes Column =>
      fits SPath SkipPath /\ fits SExpr SkipRegex /\ fits SExpr MaxDynamicPaths /\ fits SExpr MaxDynamicTypes /\ fits SHint Column
  | EJSONTypeHint Path Type_ => fits SPath Path /\ fits SExpr Type_
  | _ => Forall (fits SExpr) (subs e)
  end.

(** A syntax node. The pairs of a RENAME statement have the methods of an [Expr] as well;
    they are the exception of C33. *)
Definition is_node (e : expr) : bool := match sort_of e with SExpr => true | _ => false end.

(** All values held below a value, itself first, with repetitions. *)
Fixpoint nodes_fuel (n : nat) (e : expr) : list expr :=
  match n with O => [] | S m => e :: flat_map (nodes_fuel m) (subs e) end.
Definition nodes (e : expr) : list expr := nodes_fuel (esize e) e.

(** A node, then what is below each of its children in turn; [children] says which these
    are, nil has no list. With fuel for the depth; see [preorder_eq] in WalkFacts.v. *)
Fixpoint preorder_fuel (children : expr -> list expr) (n : nat) (e : expr) : list expr :=
  match n with
  | O => []
  | S m => if is_nil e then [] else e :: flat_map (preorder_fuel children m) (children e)
  end.
Definition preorder (children : expr -> list expr) (e : expr) : list expr := preorder_fuel children (esize e) e.

(** The same with the node after its children. *)
Fixpoint postorder_fuel (children : expr -> list expr) (n : nat) (e : expr) : list expr :=
  match n with
  | O => []
  | S m => if is_nil e then [] else flat_map (postorder_fuel children m) (children e) ++ [e]
  end.
Definition postorder (children : expr -> list expr) (e : expr) : list expr := postorder_fuel children (esize e) e.

(** * Visitors *)
From Verif Require Import Walk Visitor.

Definition kid (c : child) : expr := match c with Opt e | Must e => e end.
Definition kids (e : expr) : list expr := map kid (accept_children e).

(** No unguarded child is nil. *)
Definition no_gap (e : expr) : Prop := Forall (fun c => match c with Opt _ => True | Must x => is_nil x = false end) (accept_children e).

(** What a visitor that returns no error sees below a node: entering it, its children in
    turn, the visit of the node, leaving it. *)
Inductive event : Type := Enter (e : expr) | Visit (e : expr) | Leave (e : expr).
Fixpoint trace_fuel (children : expr -> list expr) (n : nat) (e : expr) : list event :=
  match n with
  | O => []
  | S m => if is_nil e then [] else Enter e :: flat_map (trace_fuel children m) (children e) ++ [Visit e; Leave e]
  end.
Definition trace (children : expr -> list expr) (e : expr) : list event := trace_fuel children (esize e) e.

(** Every node that was entered is left, in the opposite order. *)
Inductive balanced : list event -> Prop :=
| B_nil : balanced []
| B_visit : forall e l, balanced l -> balanced (Visit e :: l)
| B_node : forall e m l, balanced m -> balanced l -> balanced (Enter e :: m ++ Leave e :: l).

Definition visited (l : list event) : list expr := flat_map (fun ev => match ev with Visit e => [e] | _ => [] end) l.

(** Where [Accept] relies on a field, the parser has set it, except for the arguments of a
    function in a dictionary source. *)
Definition gapless (e : expr) : Prop :=
  match e with
  | EFunctionExpr Name _ => is_nil Name = false
  | _ => no_gap e
  end.

(** Where [FormatSQL] relies on a field that [Accept] does not, the parser has set it. *)
Definition filled (e : expr) : Prop :=
  match e with
  | EProjectionOrderByClause _ c | EUUID c | ESubQuery _ c | EIntervalFrom c _ _ => is_nil c = false
  | EMapLiteral _ _ l | EJSONPath l | EJSONOptions _ _ l | EWindowClause _ _ l | ERenameStmt _ _ _ l _ => Forall (fun c => is_nil c = false) l
  | EWindowDefinition a _ b | ETargetPair a b => is_nil a = false /\ is_nil b = false
  | EJoinConstraintClause _ a b => is_nil a = false \/ is_nil b = false
  | ESystemFlushExpr _ _ logs c => logs = true \/ is_nil c = false
  | _ => True
  end.

(** The kinds whose children [Walk] does not visit in the order of the struct's fields. *)
Definition reordered (e : expr) : bool :=
  match e with
  | ECreateMaterializedView _ _ _ _ _ _ _ _ _ _ _ _ _ _ _ _ _ _ _ | ESelectQuery _ _ _ _ _ _ _ _ _ _ _ _ _ _ _ _ _ _ _ _ _ _ _
  | EGrantPrivilegeStmt _ _ _ _ _ _ _ | EDictionaryLifetimeClause _ _ _ _ _ | ETableExpr _ _ _ _ _ | EInsertStmt _ _ _ _ _ _ _ => true
  | _ => false
  end.
(** The kinds that have parts which are not syntax nodes. *)
Definition has_parts (e : expr) : bool := match e with EMapLiteral _ _ _ | EWindowClause _ _ _ | ERenameStmt _ _ _ _ _ | EJSONType _ _ => true | _ => false end.
