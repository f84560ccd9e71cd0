(** Parser programs. The parser (parser/parser_*.go) is a set of recursive Go
    methods on a [Parser], whose only state is the lexer state (offset, current
    token) and the memo [failedIntervalOffsets] (parser_common.go:9-18). Each
    method is modelled by a program of the type [prog] below, built from the
    operations the Go code performs on that state. [run] executes a program. *)
From Coq Require Import String List Arith Bool.
From Verif Require Import Str Lexer Ast.
Import ListNotations.
Local Open Scope string_scope.
Local Open Scope nat_scope.

(** What the parser reads of a token (lexer.go:60-68), positions aside. *)
Record tok := mkTok { t_kind : kind; t_str : string; t_base : nat; t_quote : nat }.

(** An item is a state of the lexer as the parser can see it: the current token,
    whether the offset is at the end of the input ([isEOF], lexer.go:450-452), and
    the error of the [consumeToken] call that led to this state. [it_id] numbers
    the states; positions refer to it (see [pos] in Ast.v). Items.v produces the
    items of an input. *)
Record item := mkItem { it_id : nat; it_tok : option tok; it_eof : bool; it_err : option string }.

(** Parser state: the current item, the items that further [consumeToken] calls
    will reach (once the list is empty, [consumeToken] stays on the current item),
    and the memo of failed INTERVAL items. *)
Record pstate := mkP { here : item; rest : list item; memo : list nat }.

(** Errors. [ExpKind], [ExpKw]: a [ParseError] of expectTokenKind / expectKeyword
    (parser_common.go:100-109, 134-144) with the captured item. [AtMsg]: the
    [ParseError] built at parser_query.go:308-312. [Msg]: any other error; the
    string is the format string of the Go call, its arguments are left out. *)
Inductive err : Type :=
| ExpKind (i : item) (k : kind)
| ExpKw (i : item) (kw : string)
| AtMsg (i : item) (m : string)
| Msg (m : string).

(** The methods through which the parser recurses. *)
Inductive nt : Type :=
| NSubExpr (pos : pos) (precedence : nat)     (* parser_column.go:265-272 *)
| NSelectQuery                                 (* parser_query.go:1021-1070 *)
| NColumnTypeArgs (ident : expr)               (* parser_column.go:1297-1336 *)
| NJoinRight (pos : pos)                       (* parser_query.go:358-428 *)
| NTableArg (pos : pos)                        (* parser_table.go:758-765 *)
| NDictArg (pos : pos)                         (* parser_table.go:2342-2422 *)
| NAssignValues (pos : pos)                    (* parser_table.go:1866-1903 *)
| NInterval.                                   (* parseInterval(true), see TryInterval *)

Inductive prog : Type -> Type :=
| Ret {A} (a : A) : prog A
| Fail {A} (e : err) : prog A
| Panic {A} (site : string) : prog A                         (* a Go run-time panic *)
| Cur {A} (k : item -> prog A) : prog A                      (* read the state *)
| Consume {A} (k : option string -> prog A) : prog A         (* lexer.consumeToken *)
| Peek {A} (k : option tok + string -> prog A) : prog A      (* lexer.peekToken *)
| TryInterval {A} (yes : expr -> prog A) (no : prog A) : prog A
    (* parser_column.go:587-604: the operator reading of INTERVAL, tried once *)
| Call {A} (n : nt) (k : expr -> prog A) : prog A
| Attempt {A B} (p : prog B) (keep : err + B -> bool) (k : err + B -> prog A) : prog A
    (* saveState; p; restoreState unless [keep] *)
| Loop {A S B} (s : S) (body : S -> prog (S + B)) (k : B -> prog A) : prog A.
    (* repeat the body until it gives [inr] *)

Fixpoint bind {A B} (p : prog A) : (A -> prog B) -> prog B :=
  match p with
  | Ret a => fun f => f a
  | Fail e => fun _ => Fail e
  | Panic s => fun _ => Panic s
  | Cur k => fun f => Cur (fun x => bind (k x) f)
  | Consume k => fun f => Consume (fun x => bind (k x) f)
  | Peek k => fun f => Peek (fun x => bind (k x) f)
  | TryInterval yes no => fun f => TryInterval (fun x => bind (yes x) f) (bind no f)
  | Call n k => fun f => Call n (fun x => bind (k x) f)
  | Attempt p keep k => fun f => Attempt p keep (fun x => bind (k x) f)
  | Loop s body k => fun f => Loop s body (fun x => bind (k x) f)
  end.

Notation "'do' x <- p ;; q" := (bind p (fun x => q))
  (at level 200, x pattern, p at level 100, q at level 200).
Notation "'do!' p ;; q" := (bind p (fun _ => q))
  (at level 200, p at level 100, q at level 200).

(** Outcome of a run: value and state; error and the state at the point of the
    error; a Go panic; or (modelling device) not enough fuel. *)
Inductive outcome (A : Type) : Type :=
| ROk (a : A) (s : pstate)
| RErr (e : err) (s : pstate)
| RPanic (site : string)
| ROOF.
Arguments ROk {A}. Arguments RErr {A}. Arguments RPanic {A}. Arguments ROOF {A}.

(** [consumeToken] on items. *)
Definition advance (s : pstate) : pstate :=
  match rest s with
  | [] => s
  | i :: r => mkP i r (memo s)
  end.

(** lexer.go:336-345: peekToken restores the state unless it met an error. *)
Definition do_peek (s : pstate) : (option tok + string) * pstate :=
  let s' := advance s in
  match it_err (here s') with
  | Some e => (inr e, s')
  | None => (inl (it_tok (here s')), s)
  end.

(** restoreState: the memo is not part of the lexer state. *)
Definition restore (saved now : pstate) : pstate := mkP (here saved) (rest saved) (memo now).

(** parser_column.go:588: is the current token in the memo? *)
Definition failed_before (s : pstate) : bool := existsb (Nat.eqb (it_id (here s))) (memo s).

(** parser_column.go:595-600: put the current token in the memo and restore the lexer
    state. [now] is the state after the failed attempt. There is always a token (the
    caller, parser_column.go:573, has matched a keyword); without one nothing is recorded. *)
Definition note_failure (s now : pstate) : pstate :=
  mkP (here s) (rest s) (match it_tok (here s) with Some _ => it_id (here s) :: memo now | None => memo now end).

Section Run.
  Variable body : nt -> prog expr.

  Fixpoint run (fuel : nat) : forall A, prog A -> pstate -> outcome A :=
    match fuel with
    | O => fun _ _ _ => ROOF
    | S f =>
        fix go A (p : prog A) {struct p} : pstate -> outcome A :=
          match p in prog A return pstate -> outcome A with
          | Ret a => fun s => ROk a s
          | Fail e => fun s => RErr e s
          | Panic site => fun _ => RPanic site
          | Cur k => fun s => go _ (k (here s)) s
          | Consume k => fun s => let s' := advance s in go _ (k (it_err (here s'))) s'
          | Peek k => fun s => let (r, s') := do_peek s in go _ (k r) s'
          | TryInterval yes no => fun s =>
              if failed_before s then go _ no s
              else match run f _ (body NInterval) s with
                   | ROk e s' => go _ (yes e) s'
                   | RErr _ s' => go _ no (note_failure s s')
                   | RPanic site => RPanic site
                   | ROOF => ROOF
                   end
          | Call n k => fun s =>
              match run f _ (body n) s with
              | ROk e s' => go _ (k e) s'
              | RErr e s' => RErr e s'
              | RPanic site => RPanic site
              | ROOF => ROOF
              end
          | Attempt p keep k => fun s =>
              match go _ p s with
              | ROk a s' => go _ (k (inr a)) (if keep (inr a) then s' else restore s s')
              | RErr e s' => go _ (k (inl e)) (if keep (inl e) then s' else restore s s')
              | RPanic site => RPanic site
              | ROOF => ROOF
              end
          | @Loop _ X Y x bd k => fun s =>
              match
                (fix iter (n : nat) (x : X) (s : pstate) : outcome Y :=
                   match n with
                   | O => ROOF
                   | S m =>
                       match go _ (bd x) s with
                       | ROk (inl x') s' => iter m x' s'
                       | ROk (inr y) s' => ROk y s'
                       | RErr e s' => RErr e s'
                       | RPanic site => RPanic site
                       | ROOF => ROOF
                       end
                   end) fuel x s with
              | ROk y s' => go _ (k y) s'
              | RErr e s' => RErr e s'
              | RPanic site => RPanic site
              | ROOF => ROOF
              end
          end
    end.
End Run.
Arguments run body fuel {A} p s.
