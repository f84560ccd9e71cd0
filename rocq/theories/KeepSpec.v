(** The names and literals of an input and of a tree, for C41. *)
From Coq Require Import String Ascii List Arith Bool.
From Verif Require Import Str Keyword Lexer LayoutSpec Prog Ast Words.
Import ListNotations.
Local Open Scope string_scope.
Local Open Scope nat_scope.

(** Words that are no keywords to the lexer, but have a meaning in some place of the grammar; and what the parser writes for two keywords in a row. *)
Definition special : list string := ["max_dynamic_types"; "max_dynamic_paths"; "GROUPING SETS"; "CREATE TABLE"; "NO DELAY";
  "EMBEDDED DICTIONARIES"; "DISTRIBUTED SENDS"; "TTL MERGES"; "REPLICATED SENDS"].

(** A word that can only come from a name or a literal. *)
Definition plain (w : string) : Prop :=
  w <> "" /\ is_keyword (upper w) = false /\ ~ In w two_char /\ (forall c, w = String c "" -> ~ one_char c) /\ ~ In w special.

(** The digits after a dot that is a token of its own become a number that starts with the dot. *)
Definition undot (s : string) : string := match s with String c r => if Ascii.eqb c "." then r else s | "" => "" end.

(** How often [w] occurs in a list of strings. *)
Definition tally (w : string) (l : list string) : nat := count_occ string_dec (map undot l) w.

(** The texts of the names and literals among the tokens. *)
Definition leaf (k : kind) : bool := str_in k [KIdent; KInt; KFloat; KString].
Definition leaves (ts : list tok) : list string := map t_str (filter (fun t => leaf (t_kind t)) ts).

(** Keywords of clauses that the parser may drop: a clause of an engine or of a user that is given twice. *)
Definition lossy (t : tok) : bool := String.eqb (t_kind t) KKeyword && str_in (upper (t_str t)) ["ENGINE"; "USER"; "ROLE"; "FORMAT"].

(** The last statement is a single token, and nothing, not even layout, comes after it. *)
Definition lone (ts : list tok) (closed : bool) : Prop :=
  closed = true /\ match rev ts with [] => False | [_] => True | _ :: t :: _ => t_kind t = ";" end.
