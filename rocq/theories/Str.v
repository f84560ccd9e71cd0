(** Text helpers used by the model: Go strings are Coq [string]s (byte sequences). *)
From Coq Require Import String Ascii List Arith Bool.
Import ListNotations.
Local Open Scope string_scope.
Local Open Scope nat_scope.

(** Go [byte] as a natural number. *)
Definition byte_of (c : ascii) : nat := nat_of_ascii c.

Definition ch (n : nat) : ascii := ascii_of_nat n.

(** helper.go:3-5 [IsDigit]. *)
Definition is_digit (c : ascii) : bool :=
  (48 <=? byte_of c) && (byte_of c <=? 57).

(** helper.go:7-9 [IsHexDigit]. *)
Definition is_hex_digit (c : ascii) : bool :=
  is_digit c
  || ((97 <=? byte_of c) && (byte_of c <=? 102))
  || ((65 <=? byte_of c) && (byte_of c <=? 70)).

Definition is_lower (c : ascii) : bool := (97 <=? byte_of c) && (byte_of c <=? 122).
Definition is_upper (c : ascii) : bool := (65 <=? byte_of c) && (byte_of c <=? 90).

(** helper.go:11-13 [IsIdentStart]. *)
Definition is_ident_start (c : ascii) : bool :=
  is_lower c || is_upper c || Ascii.eqb c "_".

(** helper.go:15-17 [IsIdentPart]. *)
Definition is_ident_part (c : ascii) : bool :=
  is_digit c || is_lower c || is_upper c || Ascii.eqb c "_" || Ascii.eqb c "$".

(** Go's [strings.ToUpper], restricted to ASCII letters. Simplification: the Go
    function also maps non-ASCII letters; the lexer and the keyword tests only
    apply it to bare words, which are ASCII (helper.go:15-17). *)
Definition upper_char (c : ascii) : ascii :=
  if is_lower c then ch (byte_of c - 32) else c.

Fixpoint upper (s : string) : string :=
  match s with
  | EmptyString => EmptyString
  | String c r => String (upper_char c) (upper r)
  end.

(** Go's [strings.EqualFold], restricted to ASCII (same remark as [upper]). *)
Definition equal_fold (a b : string) : bool := String.eqb (upper a) (upper b).

Definition str_in (s : string) (l : list string) : bool :=
  existsb (String.eqb s) l.

(** Go's [strings.Repeat]. *)
Fixpoint repeat_str (s : string) (n : nat) : string :=
  match n with O => "" | S k => s ++ repeat_str s k end.

Fixpoint concat_str (l : list string) : string :=
  match l with [] => "" | s :: r => s ++ concat_str r end.
