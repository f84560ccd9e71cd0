(** The parser without the memo [failedIntervalOffsets] (parser_common.go:13-17): the operator
    reading of INTERVAL (parser_column.go:587-604) is tried every time. Otherwise [retry] is
    [run] of Prog.v, line by line. Specification of C23. *)
From Coq Require Import String List Arith Bool ZArith.
From Verif Require Import Str Lexer Ast Prog Items Parser ErrorRender ParserApi.
Import ListNotations.
Local Open Scope nat_scope.

Section Retry.
  Variable body : nt -> prog expr.

  Fixpoint retry (fuel : nat) : forall A, prog A -> pstate -> outcome A :=
    match fuel with
    | O => fun _ _ _ => ROOF
    | S f =>
        fix go A (p : prog A) {struct p} : pstate -> outcome A :=
          match p in prog A return pstate -> outcome A with
          | Ret a => fun s => ROk a s
          | Fail e => fun s => RErr e s
          | Panic site => fun _ => RPanic site
          | Cur k => fun s => go _ (k (here s)) s
          | Consume k => fun s => let s' := advance s in go _ (k (it_err (here s'))) s'
          | Peek k => fun s => let (r, s') := do_peek s in go _ (k r) s'
          | TryInterval yes no => fun s =>
              match retry f _ (body NInterval) s with
              | ROk e s' => go _ (yes e) s'
              | RErr _ s' => go _ no s
              | RPanic site => RPanic site
              | ROOF => ROOF
              end
          | Call n k => fun s =>
              match retry f _ (body n) s with
              | ROk e s' => go _ (k e) s'
              | RErr e s' => RErr e s'
              | RPanic site => RPanic site
              | ROOF => ROOF
              end
          | Attempt p keep k => fun s =>
              match go _ p s with
              | ROk a s' => go _ (k (inr a)) (if keep (inr a) then s' else s)
              | RErr e s' => go _ (k (inl e)) (if keep (inl e) then s' else s)
              | RPanic site => RPanic site
              | ROOF => ROOF
              end
          | @Loop _ X Y x bd k => fun s =>
              match
                (fix iter (n : nat) (x : X) (s : pstate) : outcome Y :=
                   match n with
                   | O => ROOF
                   | S m =>
                       match go _ (bd x) s with
                       | ROk (inl x') s' => iter m x' s'
                       | ROk (inr y) s' => ROk y s'
                       | RErr e s' => RErr e s'
                       | RPanic site => RPanic site
                       | ROOF => ROOF
                       end
                   end) fuel x s with
              | ROk y s' => go _ (k y) s'
              | RErr e s' => RErr e s'
              | RPanic site => RPanic site
              | ROOF => ROOF
              end
          end
    end.
End Retry.
Arguments retry body fuel {A} p s.

(** [ParseStmts] (parser_table.go:1548-1567) on top of [retry]; compare [parse_stmts_fuel]. *)
Definition parse_stmts_retry (fuel : nat) (inp : string) : result :=
  match states inp with
  | LPanic => Crashed "lexer"
  | LFuel => Diverged
  | LVal l =>
      match init_pstate (number_items inp 0 l) with
      | None => Crashed "no initial state"
      | Some s =>
          match retry body fuel ParseStmts s with
          | ROk stmts _ => Parsed stmts (spans l)
          | RErr e s' => match wrapError inp (item_pos l) e s' with Some pe => Failed pe | None => Crashed "position" end
          | RPanic z => Crashed z
          | ROOF => Diverged
          end
      end
  end.
