(** The parser running on the lexer itself, token by token, as the Go code does: the state is
    the lexer state of lexer.go:77-80 and the memo of parser_common.go:13-17, a request for a
    token runs [consume] of Lexer.v, looking ahead is lexer.go:336-345 [peekToken], saving and
    restoring is lexer.go:92-102 [saveState]/[restoreState]. Compare [run] of Prog.v, which
    works on the list of all lexer states. Specification of C16. *)
From Coq Require Import String List Arith Bool ZArith.
From Verif Require Import Str Lexer LexRun Ast Prog Items Source Parser ErrorRender ParserApi.
Import ListNotations.
Local Open Scope nat_scope.

(** [z_err] is the error of the last request. [z_id] counts the requests since the start
    of the input that led to a new state; positions in the tree refer to it (Ast.v, [pos]).
    [z_memo] holds positions of tokens. *)
Record lazy := mkZ { z_lex : lstate; z_err : option string; z_id : nat; z_memo : list nat }.

Definition lazy_init : lazy := mkZ lex_init None 0 [].

(** What the parser sees. *)
Definition z_item (inp : string) (z : lazy) : item := item_of inp (z_id z) (z_lex z) (z_err z).

(** lexer.go:359 [consumeToken]. *)
Definition z_consume (inp : string) (z : lazy) : lres lazy :=
  let* r := consume inp (z_lex z) in
  let (s', e') := r in
  LVal (mkZ s' e' (if stuck (z_lex z) s' (z_err z) e' then z_id z else S (z_id z)) (z_memo z)).

(** lexer.go:336-345 [peekToken]. *)
Definition z_peek (inp : string) (z : lazy) : lres ((option tok + string) * lazy) :=
  let* z' := z_consume inp z in
  match z_err z' with
  | Some e => LVal (inr e, z')
  | None => LVal (inl (option_map tok_of (cur (z_lex z'))), z)
  end.

(** lexer.go:97-102 [restoreState]. *)
Definition z_restore (saved now : lazy) : lazy := mkZ (z_lex saved) (z_err saved) (z_id saved) (z_memo now).

(** parser_column.go:588, 595-600: the memo is indexed by [p.Pos()]. As in Prog.v it is
    used only when there is a token. *)
Definition z_failed (z : lazy) : bool :=
  match cur (z_lex z) with Some t => existsb (Nat.eqb (tpos t)) (z_memo z) | None => false end.
Definition z_note (z now : lazy) : lazy :=
  mkZ (z_lex z) (z_err z) (z_id z)
    (match cur (z_lex z) with Some t => tpos t :: z_memo now | None => z_memo now end).

Inductive zout (A : Type) : Type :=
| ZOk (a : A) (s : lazy)
| ZErr (e : err) (s : lazy)
| ZPanic (site : string)
| ZOOF.
Arguments ZOk {A}. Arguments ZErr {A}. Arguments ZPanic {A}. Arguments ZOOF {A}.

(** Going on after a lexer operation. *)
Definition zlex {X A} (r : lres X) (f : X -> zout A) : zout A :=
  match r with LVal x => f x | LPanic => ZPanic "lexer" | LFuel => ZOOF end.

Section Lazy.
  Variable body : nt -> prog expr.
  Variable inp : string.

  Fixpoint lazy_run (fuel : nat) : forall A, prog A -> lazy -> zout A :=
    match fuel with
    | O => fun _ _ _ => ZOOF
    | S f =>
        fix go A (p : prog A) {struct p} : lazy -> zout A :=
          match p in prog A return lazy -> zout A with
          | Ret a => fun s => ZOk a s
          | Fail e => fun s => ZErr e s
          | Panic site => fun _ => ZPanic site
          | Cur k => fun s => go _ (k (z_item inp s)) s
          | Consume k => fun s => zlex (z_consume inp s) (fun s' => go _ (k (z_err s')) s')
          | Peek k => fun s => zlex (z_peek inp s) (fun r => go _ (k (fst r)) (snd r))
          | TryInterval yes no => fun s =>
              if z_failed s then go _ no s
              else match lazy_run f _ (body NInterval) s with
                   | ZOk e s' => go _ (yes e) s'
                   | ZErr _ s' => go _ no (z_note s s')
                   | ZPanic site => ZPanic site
                   | ZOOF => ZOOF
                   end
          | Call n k => fun s =>
              match lazy_run f _ (body n) s with
              | ZOk e s' => go _ (k e) s'
              | ZErr e s' => ZErr e s'
              | ZPanic site => ZPanic site
              | ZOOF => ZOOF
              end
          | Attempt p keep k => fun s =>
              match go _ p s with
              | ZOk a s' => go _ (k (inr a)) (if keep (inr a) then s' else z_restore s s')
              | ZErr e s' => go _ (k (inl e)) (if keep (inl e) then s' else z_restore s s')
              | ZPanic site => ZPanic site
              | ZOOF => ZOOF
              end
          | @Loop _ X Y x bd k => fun s =>
              match
                (fix iter (n : nat) (x : X) (s : lazy) : zout Y :=
                   match n with
                   | O => ZOOF
                   | S m =>
                       match go _ (bd x) s with
                       | ZOk (inl x') s' => iter m x' s'
                       | ZOk (inr y) s' => ZOk y s'
                       | ZErr e s' => ZErr e s'
                       | ZPanic site => ZPanic site
                       | ZOOF => ZOOF
                       end
                   end) fuel x s with
              | ZOk y s' => go _ (k y) s'
              | ZErr e s' => ZErr e s'
              | ZPanic site => ZPanic site
              | ZOOF => ZOOF
              end
          end
    end.
End Lazy.
Arguments lazy_run body inp fuel {A} p s.

(** The lexer state after [k] requests. *)
Definition after (inp : string) (k : nat) : lstate :=
  match requests inp k with LVal (s, _) => s | _ => lex_init end.

(** The outcome of [ParseStmts] (parser_table.go:1548-1567) run this way. *)
Inductive lazy_result : Type :=
| LParsed (stmts : list expr)
| LFailed (e : parse_error)
| LCrashed (site : string)
| LDiverged.

Definition parse_lazy (fuel : nat) (inp : string) : lazy_result :=
  match lazy_run body inp fuel ParseStmts lazy_init with
  | ZOk stmts _ => LParsed stmts
  | ZErr e z =>
      match wrapError inp (fun i => state_pos (after inp (it_id i))) e (mkP (z_item inp z) [] []) with
      | Some pe => LFailed pe
      | None => LCrashed "position"
      end
  | ZPanic site => LCrashed site
  | ZOOF => LDiverged
  end.
