(** Specification for C22: chains of binary operators of one level, and their left-nested trees. *)
From Coq Require Import String List.
From Verif Require Import Str Lexer Ast PrecSpec Prog.
Import ListNotations.
Local Open Scope string_scope.

(** A token that is an operand by itself: a name or a literal. *)
Definition atom (t : tok) : Prop := In (t_kind t) [KIdent; KInt; KFloat; KString].

(** Its tree; [k] is the number of the token. *)
Definition atom_tree (k : nat) (t : tok) : expr :=
  if String.eqb (t_kind t) KIdent then EIdent (t_str t) (t_quote t) (PStart k) (PEnd k)
  else if String.eqb (t_kind t) KString then EStringLiteral (PStart k) (PEnd k) (t_str t)
  else ENumberLiteral (PStart k) (PEnd k) (t_str t) (t_base t).

(** A token that is the binary operator [op]. *)
Definition op_token (op : string) (t : tok) : Prop :=
  (In op ["="; "=="; "!="; "<>"; "<"; "<="; ">"; ">="; "||"; "+"; "-"; "*"; "/"; "%"; "::"] /\ t_kind t = op /\ t_str t = op) \/
  (In op ["OR"; "AND"; "LIKE"; "ILIKE"; "REGEXP"; "IN"] /\ t_kind t = KKeyword /\ upper (t_str t) = op).

(** A chain: operators of level [n], each with its operand. *)
Definition link (n : nat) (x : string * tok * tok) : Prop :=
  let '(op, o, t) := x in op_token op o /\ op_level op = Some n /\ atom t /\ (op = "::" -> t_str t <> "Tuple").

(** The tokens of a chain. *)
Fixpoint chain_toks (l : list (string * tok * tok)) : list tok :=
  match l with [] => [] | (_, o, t) :: l' => o :: t :: chain_toks l' end.

(** The left-nested tree; [id] is the number of the first operator. *)
Fixpoint left_tree (e : expr) (id : nat) (l : list (string * tok * tok)) : expr :=
  match l with [] => e | (op, _, t) :: l' => left_tree (EBinaryOperation e op (atom_tree (S id) t) false false) (S (S id)) l' end.
