(** How a command line is to be read (main.go:55-69 and the documentation of Go's flag package), without
    the parsing of arguments. *)
From Coq Require Import String Ascii List Bool.
From Verif Require Import Str Main.
Import ListNotations.
Local Open Scope string_scope.

(** The spellings of a flag without value. *)
Definition spelled (name s : string) : Prop := s = "-" ++ name \/ s = "--" ++ name.

(** [gives o fs o']: with the options [o] so far, the flags [fs] lead to the options [o']. *)
Inductive gives : options -> list string -> options -> Prop :=
| gives_none o : gives o [] o
| gives_format h f fm b v s fs o' : spelled "format" s -> gives (mkO h f true b v) fs o' -> gives (mkO h f fm b v) (s :: fs) o'
| gives_beautify h f fm b v s fs o' : spelled "beautify" s -> gives (mkO h f fm true v) fs o' -> gives (mkO h f fm b v) (s :: fs) o'
| gives_help h f fm b v s fs o' : spelled "h" s -> gives (mkO true f fm b v) fs o' -> gives (mkO h f fm b v) (s :: fs) o'
| gives_version h f fm b v s fs o' : spelled "v" s -> gives (mkO h f fm b true) fs o' -> gives (mkO h f fm b v) (s :: fs) o'
| gives_file h f fm b v s g fs o' : spelled "f" s -> gives (mkO h g fm b v) fs o' -> gives (mkO h f fm b v) (s :: g :: fs) o'
| gives_file_eq h f fm b v g fs o' : gives (mkO h g fm b v) fs o' -> gives (mkO h f fm b v) (("-f=" ++ g) :: fs) o'.

(** The other arguments start with one that is no flag. *)
Definition operands (rest : list string) : Prop := match rest with [] => True | s :: _ => forall r, s <> String "-" r end.

(** The input is the file when there is one, and else the last argument. *)
Inductive reads (w : world) (o : options) (args : list string) : string -> Prop :=
| reads_file inp : o_file o <> "" -> w_read w (o_file o) = inl inp -> reads w o args inp
| reads_arg inp l : o_file o = "" -> args = (l ++ [inp])%list -> (forall r, inp <> String "-" r) -> reads w o args inp.
