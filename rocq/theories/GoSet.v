(** Model of parser/set.go, for an element type with decidable equality. A Go map
    with empty-struct values is the list of its keys, without repetition, in the
    order in which a [range] loop happens to deliver them; that order is not fixed
    by the language, so [Members] is a relation. *)
From Coq Require Import List Bool Permutation.
Import ListNotations.

Section Set_.
  Context {T : Type}.
  Variable eqb : T -> T -> bool.

  (** set.go:3-5 [Set]. *)
  Definition gset := list T.

  (** set.go:23-26 [Contains]: map lookup. *)
  Definition contains (s : gset) (x : T) : bool := existsb (eqb x) s.

  (** set.go:15-17 [Add]: map assignment. *)
  Definition add (s : gset) (x : T) : gset := if contains s x then s else s ++ [x].

  (** set.go:19-21 [Remove]: map deletion. *)
  Definition remove (s : gset) (x : T) : gset := filter (fun y => negb (eqb x y)) s.

  (** set.go:7-13 [NewSet]. *)
  Definition newSet (l : list T) : gset := fold_left add l [].

  (** set.go:28-34 [Members]: the keys in some order. *)
  Definition members (s : gset) (l : list T) : Prop := Permutation l s.

  Inductive op := Add (x : T) | Remove (x : T).

  Definition apply (s : gset) (o : op) : gset :=
    match o with Add x => add s x | Remove x => remove s x end.
End Set_.
Arguments op T : clear implicits.
Arguments gset T : clear implicits.
