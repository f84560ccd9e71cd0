(** Model of parser/error.go and of [wrapError] (parser_common.go:456-480). *)
From Coq Require Import String Ascii List Arith Bool DecimalString.
From Verif Require Import Str Keyword Lexer Ast Prog Items Source.
Import ListNotations.
Local Open Scope string_scope.
Local Open Scope nat_scope.

(** error.go:13-24 [ParseError]. [pe_starts = None] is the nil [starts] of an error
    that [wrapError] has not seen. *)
Record parse_error := mkPE {
  pe_pos : nat; pe_line : nat; pe_column : nat; pe_got : option tok;
  pe_expected : list kind; pe_keyword : string; pe_msg : string;
  pe_input : string; pe_starts : option (list nat) }.

(** fmt's [%d] for numbers that are not negative. *)
Definition dec (n : nat) : string := NilZero.string_of_uint (Nat.to_uint n).

(** error.go:76-81 [tokenDesc]. *)
Definition tokenDesc (t : option tok) : kind :=
  match t with None => KEOF | Some t => t_kind t end.

Definition dq : string := String (ch 34) "".

(** error.go:35-52 [summary]. [%q] of a keyword, which is plain upper-case ASCII, is the
    keyword between double quotes. *)
Definition summary (e : parse_error) : string :=
  if negb (String.eqb (pe_msg e) "") then pe_msg e
  else if negb (String.eqb (pe_keyword e) "") then
    "expected keyword <" ++ dq ++ pe_keyword e ++ dq ++ ">, but got '" ++ tokenDesc (pe_got e) ++ "'"
  else match pe_expected e with
       | [k] => "expected '" ++ k ++ "', but got '" ++ tokenDesc (pe_got e) ++ "'"
       | _ :: _ :: _ =>
           "expected one of [" ++ String.concat ", " (pe_expected e) ++ "], but got '" ++ tokenDesc (pe_got e) ++ "'"
       | [] => "syntax error"
       end.

(** [strings.Repeat] of a one-byte string, and the loop of error.go:62-64. *)
Fixpoint repeat_char (n : nat) (c : ascii) : string :=
  match n with O => "" | S m => String c (repeat_char m c) end.

(** error.go:56-72 [renderCaret]: the text it writes; [None] is a Go panic. *)
Definition renderCaret (e : parse_error) : option string :=
  match pe_starts e with
  | None => Some ""
  | Some starts =>
      match lineText starts (pe_input e) (pe_line e) with
      | None => None
      | Some line =>
          let width := match pe_got e with
                       | Some t => if 1 <? String.length (t_str t) then String.length (t_str t) else 1
                       | None => 1
                       end in
          Some (line ++ String newline (repeat_char (pe_column e - 1) (ch 32))
                ++ repeat_char width (ch 94) ++ String newline "")
      end
  end.

(** error.go:26-31 [Error]. *)
Definition Error (e : parse_error) : option string :=
  match renderCaret e with
  | None => None
  | Some r => Some ("line " ++ dec (pe_line e) ++ ":" ++ dec (pe_column e) ++ " " ++ summary e ++ String newline r)
  end.

(** parser_common.go:65-71 [Pos] in a lexer state. *)
Definition state_pos (s : lstate) : nat :=
  match cur s with None => off s | Some t => tpos t end.

(** [p.Pos()] in the state of an item of the input with lexer states [l]. *)
Definition item_pos (l : list (lstate * option string)) (i : item) : nat :=
  match nth_error l (it_id i) with Some (s, _) => state_pos s | None => 0 end.

(** The [ParseError] an error stands for before [wrapError], given the state in which the
    error surfaces, and [at_], which tells [p.Pos()] at an item: parser_common.go:104-108, 135-139, 179-183, parser_query.go:308-312
    for the structured ones, parser_common.go:467-473 for the others. *)
Definition raw_error (at_ : item -> nat) (e : err) (s : pstate) : parse_error :=
  match e with
  | ExpKind i k => mkPE (at_ i) 0 0 (it_tok i) [k] "" "" "" None
  | ExpKw i k => mkPE (at_ i) 0 0 (it_tok i) [] k "" "" None
  | AtMsg i m => mkPE (at_ i) 0 0 (it_tok i) [] "" m "" None
  | Msg m => mkPE (at_ (here s)) 0 0 (it_tok (here s)) [] "" m "" None
  end.

(** parser_common.go:461-480 [wrapError]; [None] is a Go panic in [position]. *)
Definition wrapError (inp : string) (at_ : item -> nat) (e : err) (s : pstate) : option parse_error :=
  let r := raw_error at_ e s in
  match (if pe_line r =? 0 then position (newLineStarts inp) (pe_pos r) else Some (pe_line r, pe_column r)) with
  | None => None
  | Some (line, col) =>
      Some (mkPE (pe_pos r) line col (pe_got r) (pe_expected r) (pe_keyword r) (pe_msg r) inp (Some (newLineStarts inp)))
  end.
