(** Specification for C43 and C17: semicolons and the stretches between them. *)
From Coq Require Import String List Arith Bool.
From Verif Require Import Str Lexer Prog.
Import ListNotations.
Local Open Scope string_scope.
Local Open Scope nat_scope.

Definition semicolon : tok := mkTok ";" ";" 0 QNone.

(** The number of maximal runs of tokens without a semicolon; [open] tells that the tokens
    before belong to one. *)
Fixpoint runs (open : bool) (ts : list tok) : nat :=
  match ts with
  | [] => 0
  | t :: r => if String.eqb (t_kind t) ";" then runs false r else if open then runs true r else S (runs true r)
  end.
