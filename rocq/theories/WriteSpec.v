(** Vocabulary for C42: how often a word is found in a text, and what the formatter forgets. *)
From Coq Require Import String List Arith Bool.
From Verif Require Import Str Ast AstPos AstSubs.
Import ListNotations.
Local Open Scope string_scope.
Local Open Scope nat_scope.

(** [w] is found in [t] at [n] places that do not overlap. *)
Definition found (n : nat) (w t : string) : Prop := exists pieces, t = String.concat "" pieces /\ n <= count_occ string_dec pieces w.

(** Nodes of which [FormatSQL] leaves out a part: the UUID of a live view, and the names of ON without DISTINCT. *)
Definition forgotten (e : expr) : bool :=
  match e with
  | ECreateLiveView _ _ _ _ UUID _ _ _ _ _ => negb (is_nil UUID)
  | ESelectQuery _ _ _ _ HasDistinct DistinctOn _ _ _ _ _ _ _ _ _ _ _ _ _ _ _ _ _ => negb HasDistinct && negb (is_nil DistinctOn)
  | _ => false
  end.
