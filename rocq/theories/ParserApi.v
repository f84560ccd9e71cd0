(** [NewParser(input).ParseStmts()] as a whole. *)
From Coq Require Import String List Arith Bool ZArith.
From Verif Require Import Str Keyword Lexer Ast Prog Items Parser ErrorRender.
Import ListNotations.
Local Open Scope nat_scope.

(** What a call of [ParseStmts] ends with: statements (with the byte positions of the items
    that the positions in them refer to), an error, a Go panic, or (modelling device) more
    steps than the fuel allows. *)
Inductive result : Type :=
| Parsed (stmts : list expr) (sp : list (Z * Z))
| Failed (e : parse_error)
| Crashed (site : string)
| Diverged.

(** parser_table.go:1548-1567 [ParseStmts] around the loop modelled in Parser.v, and
    parser_common.go:29-33 [NewParser]: every error goes through [wrapError]. [extra] is
    fuel beyond [parse_fuel]. *)
Definition parse_stmts_fuel (extra : nat) (inp : string) : result :=
  match states inp with
  | LPanic => Crashed "lexer"
  | LFuel => Diverged
  | LVal l =>
      match init_pstate (number_items inp 0 l) with
      | None => Crashed "no initial state"
      | Some s =>
          match run body (parse_fuel (List.length l) + extra) ParseStmts s with
          | ROk stmts _ => Parsed stmts (spans l)
          | RErr e s' => match wrapError inp (item_pos l) e s' with Some pe => Failed pe | None => Crashed "position" end
          | RPanic z => Crashed z
          | ROOF => Diverged
          end
      end
  end.

Definition parse_stmts (inp : string) : result := parse_stmts_fuel 0 inp.

(** [Pos()] and [End()] of a node, as numbers; [None] is a panic. *)
Definition node_pos (sp : list (Z * Z)) (e : expr) : option Z := option_map (resolve_pos sp) (AstPos.pos_of e).
Definition node_end (sp : list (Z * Z)) (e : expr) : option Z := option_map (resolve_pos sp) (AstPos.end_of e).
