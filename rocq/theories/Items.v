(** The items of an input: the states that repeated [consumeToken] calls reach. *)
From Coq Require Import String List Arith Bool ZArith.
From Verif Require Import Str Keyword Lexer Ast Prog.
Import ListNotations.
Local Open Scope nat_scope.

Definition tok_of (t : token) : tok := mkTok (tkind t) (tstr t) (tbase t) (tquote t).

(** The item seen in lexer state [s] after a consumeToken call that returned [e]. *)
Definition item_of (inp : string) (id : nat) (s : lstate) (e : option string) : item :=
  mkItem id (option_map tok_of (cur s)) (is_eof inp (off s)) e.

Definition err_eqb (a b : option string) : bool :=
  match a, b with
  | None, None => true
  | Some x, Some y => String.eqb x y
  | _, _ => false
  end.

(** consumeToken no longer changes anything: no token, same offset, same error. *)
Definition stuck (s s' : lstate) (e e' : option string) : bool :=
  match cur s with
  | None => (off s =? off s') && err_eqb e e'
  | Some _ => false
  end.

(** The states after [s], with the error of the call reaching each; [LFuel] when
    [n] steps do not reach a stuck state. *)
Fixpoint states_from (n : nat) (inp : string) (s : lstate) (e : option string)
  : lres (list (lstate * option string)) :=
  match n with
  | O => LFuel
  | S m =>
      let* r := consume inp s in
      let (s', e') := r in
      if stuck s s' e e' then LVal []
      else let* l := states_from m inp s' e' in LVal ((s', e') :: l)
  end.

(** The initial state (lexer.go:88-90) and all its successors. *)
Definition states (inp : string) : lres (list (lstate * option string)) :=
  let* l := states_from (2 * String.length inp + 4) inp lex_init None in
  LVal ((lex_init, None) :: l).

Fixpoint number_items (inp : string) (id : nat) (l : list (lstate * option string)) : list item :=
  match l with
  | [] => []
  | (s, e) :: r => item_of inp id s e :: number_items inp (S id) r
  end.

(** parser_common.go:58-71: [Pos()] and [End()] in a lexer state. *)
Definition state_span (s : lstate) : Z * Z :=
  match cur s with
  | None => (Z.of_nat (off s), Z.of_nat (off s) + 1)%Z
  | Some t => (Z.of_nat (tpos t), Z.of_nat (tend t))
  end.

Definition spans (l : list (lstate * option string)) : list (Z * Z) :=
  map (fun p => state_span (fst p)) l.

(** The number a symbolic position stands for. *)
Fixpoint resolve_pos (sp : list (Z * Z)) (p : pos) : Z :=
  match p with
  | PZero => 0%Z
  | PStart i => fst (nth i sp (0, 0)%Z)
  | PEnd i => snd (nth i sp (0, 0)%Z)
  | PPlus q d => (resolve_pos sp q + d)%Z
  end.

(** The parser state of [NewParser] (parser_common.go:29-33) on these items. *)
Definition init_pstate (its : list item) : option pstate :=
  match its with
  | [] => None
  | i :: r => Some (mkP i r [])
  end.
