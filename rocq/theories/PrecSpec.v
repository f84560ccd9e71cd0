(** Specification for C21: the operators, how strongly they bind, and what it means for a
    tree to respect that. It mentions the syntax tree only, not the parser. *)
From Coq Require Import String List Arith Bool.
From Verif Require Import Ast.
Import ListNotations.
Local Open Scope string_scope.
Local Open Scope nat_scope.

(** The binding strength of the binary operators. *)
Definition op_table : list (string * nat) :=
  [("->", 1);
   ("OR", 3); ("AND", 4);
   ("=", 8); ("==", 8); ("!=", 8); ("<>", 8); ("<", 8); ("<=", 8); (">", 8); (">=", 8);
   ("LIKE", 9); ("ILIKE", 9); ("REGEXP", 9); ("NOT LIKE", 9); ("NOT ILIKE", 9);
   ("IN", 10); ("NOT IN", 10);
   ("||", 11);
   ("+", 12); ("-", 12);
   ("*", 13); ("/", 13); ("%", 13);
   ("::", 16)].

Definition op_level (op : string) : option nat :=
  match find (fun x => String.eqb (fst x) op) op_table with Some (_, n) => Some n | None => None end.

(** The strength of the other operators: the ternary [? :], NOT, IS NULL, BETWEEN,
    [ ... ] after an expression, and [.] after an expression. *)
Definition lv_ternary := 2.
Definition lv_not := 5.
Definition lv_is := 7.
Definition lv_between := 9.
Definition lv_bracket := 14.
Definition lv_dot := 15.
(** Stronger than any operator: an operand that is not an operator application. *)
Definition closed := 17.

Definition is_name (e : expr) : bool := match e with EIdent _ _ _ _ => true | _ => false end.

(** How strongly a tree holds together as a left operand: the weakest operator on its
    right edge, where an operator that follows competes for the last operand. The keyword operators of
    TRIM, SUBSTRING and OVERLAY occur only as whole arguments. *)
Fixpoint as_left (e : expr) : nat :=
  match e with
  | EBinaryOperation _ op r _ _ => match op_level op with Some n => min n (as_left r) | None => 0 end
  | EBetweenClause _ _ _ _ hi => min lv_between (as_left hi)
  | ETernaryOperation _ _ f => min lv_ternary (as_left f)
  | EUnaryExpr _ op x => if String.eqb op "NOT" then min lv_not (as_left x) else closed
  | _ => closed
  end.

(** The same as a right operand: the weakest operator on the left edge. A name followed by [.n] or [ [..] ]
    is one operand. *)
Fixpoint as_right (e : expr) : nat :=
  match e with
  | EBinaryOperation l op _ _ _ => match op_level op with Some n => min n (as_right l) | None => 0 end
  | EBetweenClause x _ _ _ _ => min lv_between (as_right x)
  | ETernaryOperation c _ _ => min lv_ternary (as_right c)
  | EIsNullExpr _ _ x | EIsNotNullExpr _ _ x => min lv_is (as_right x)
  | EIndexOperation o _ _ => if is_name o then closed else min lv_dot (as_right o)
  | EObjectParams o _ => if is_name o then closed else min lv_bracket (as_right o)
  | _ => closed
  end.

(** A node respects the strengths: a left operand ends with no weaker operator, a right
    operand begins with no operator that is weaker or (the operators associate to the
    left) equal, except for [->], which associates to the right. A sign applies to a
    single operand. *)
Definition respects (e : expr) : Prop :=
  match e with
  | EBinaryOperation l op r _ _ =>
      match op_level op with
      | Some n => n <= as_left l /\ if String.eqb op "->" then n <= as_right r else n < as_right r
      | None => True
      end
  | EBetweenClause x _ lo _ hi =>
      x = ENil \/ (lv_between <= as_left x /\ lv_between < as_right lo /\ lv_between < as_right hi)
  | ETernaryOperation c _ _ => lv_ternary <= as_left c
  | EIsNullExpr _ _ x | EIsNotNullExpr _ _ x => lv_is <= as_left x
  | EIndexOperation o _ _ => lv_dot <= as_left o
  | EObjectParams o _ => lv_bracket <= as_left o
  | EUnaryExpr _ op x =>
      if String.eqb op "NOT" then lv_not < as_right x
      else if String.eqb op "-" || String.eqb op "+" then as_left x = closed /\ as_right x = closed
      else True
  | _ => True
  end.
