(** Model of parser/lexer.go. The state is the pair (offset, current token) of
    lexer.go:77-80; every indexing of the input is explicit, and an index outside
    the input is the result [LPanic], as in Go. Loops run on fuel and give [LFuel]
    when it runs out; LexerFacts.v shows that neither result is reachable. *)
From Coq Require Import String Ascii List Arith Bool.
From Verif Require Import Str Keyword.
Import ListNotations.
Local Open Scope string_scope.
Local Open Scope nat_scope.

(** lexer.go:11-48: [TokenKind] is a string type. *)
Definition kind := string.
Definition KEOF : kind := "<eof>".
Definition KIdent : kind := "<ident>".
Definition KKeyword : kind := "<keyword>".
Definition KInt : kind := "<int>".
Definition KFloat : kind := "<float>".
Definition KString : kind := "<string>".

(** lexer.go:50-55: quote types; 0 is the zero value of the field. *)
Definition QNone : nat := 0.
Definition QUnquoted : nat := 1.
Definition QDouble : nat := 2.
Definition QBackTicks : nat := 3.
Definition QSingle : nat := 4.

(** lexer.go:60-68 [Token]. *)
Record token := mkToken {
  tpos : nat; tend : nat; tkind : kind; tstr : string; tbase : nat; tquote : nat }.

(** lexer.go:70-75 [Token.ToString]. *)
Definition token_to_string (t : token) : string :=
  if String.eqb (tkind t) KKeyword then upper (tstr t) else tstr t.

(** lexer.go:77-80 [lexerState]. *)
Record lstate := mkL { off : nat; cur : option token }.

(** lexer.go:88-90 [NewLexer]. *)
Definition lex_init : lstate := mkL 0 None.

(** Outcome of a lexer helper: a value, a Go panic, or (modelling device) fuel exhausted. *)
Inductive lres (A : Type) : Type := LVal (a : A) | LPanic | LFuel.
Arguments LVal {A} a. Arguments LPanic {A}. Arguments LFuel {A}.

Definition lbind {A B} (m : lres A) (f : A -> lres B) : lres B :=
  match m with LVal a => f a | LPanic => LPanic | LFuel => LFuel end.
Notation "'let*' x ':=' m 'in' f" := (lbind m (fun x => f))
  (at level 200, x pattern, m at level 100, f at level 200).

(** lexer.go:108-110 [peekN]: indexing, panics outside the input. *)
Definition peekN (inp : string) (o n : nat) : lres ascii :=
  match String.get (o + n) inp with Some c => LVal c | None => LPanic end.

(** lexer.go:112-114 [peekOk]. *)
Definition peekOk (inp : string) (o n : nat) : bool := o + n <? String.length inp.

(** lexer.go:104-106 [slice]: panics when the bounds are not ordered or outside the input. *)
Definition slice (inp : string) (o i j : nat) : lres string :=
  if (i <=? j) && (o + j <=? String.length inp)
  then LVal (String.substring (o + i) (j - i) inp) else LPanic.

(** lexer.go:450-452 [isEOF]. *)
Definition is_eof (inp : string) (o : nat) : bool := String.length inp <=? o.

(** Conditions of the form [peekOk(n) && p(peekN(n))]. *)
Definition okAnd (inp : string) (o n : nat) (p : ascii -> bool) : lres bool :=
  if peekOk inp o n then let* c := peekN inp o n in LVal (p c) else LVal false.

(** [utf8.DecodeRuneInString] followed by [unicode.IsSpace], as used at
    lexer.go:454-462: the width in bytes of the white-space rune at [o], 0 if the
    rune there is no white space. The white-space runes are U+0009-U+000D, U+0020,
    U+0085, U+00A0, U+1680, U+2000-U+200A, U+2028, U+2029, U+202F, U+205F, U+3000;
    an invalid encoding decodes to U+FFFD, which is none of them. This is the model
    of the two library functions. *)
Definition space_width (inp : string) (o : nat) : nat :=
  match String.get o inp with
  | None => 0
  | Some c0 =>
      let b0 := byte_of c0 in
      if ((9 <=? b0) && (b0 <=? 13)) || (b0 =? 32) then 1
      else match String.get (o + 1) inp with
      | None => 0
      | Some c1 =>
          let b1 := byte_of c1 in
          if (b0 =? 194) && ((b1 =? 133) || (b1 =? 160)) then 2
          else match String.get (o + 2) inp with
          | None => 0
          | Some c2 =>
              let b2 := byte_of c2 in
              if (b0 =? 225) && (b1 =? 154) && (b2 =? 128) then 3
              else if (b0 =? 226) && (b1 =? 128) &&
                 (((128 <=? b2) && (b2 <=? 138)) || (b2 =? 168) || (b2 =? 169) || (b2 =? 175)) then 3
              else if (b0 =? 226) && (b1 =? 129) && (b2 =? 159) then 3
              else if (b0 =? 227) && (b1 =? 128) && (b2 =? 128) then 3
              else 0
          end
      end
  end.

(** lexer.go:454-462 [skipSpace]; the result is the new offset. *)
Fixpoint skip_space (fuel : nat) (inp : string) (o : nat) : lres nat :=
  match fuel with
  | O => LFuel
  | S f =>
      if is_eof inp o then LVal o
      else match space_width inp o with
           | O => LVal o
           | S w => skip_space f inp (o + S w)
           end
  end.

(** Enough fuel for any loop that advances by at least one byte. *)
Definition loop_fuel (inp : string) : nat := S (String.length inp).

(** lexer.go:243-246: the scan of a single-line comment. *)
Fixpoint scan_line (fuel : nat) (inp : string) (o i : nat) : lres nat :=
  match fuel with
  | O => LFuel
  | S f =>
      let* more := okAnd inp o i (fun c => negb (Ascii.eqb c (ch 13)) && negb (Ascii.eqb c (ch 10))) in
      if more then scan_line f inp o (S i) else LVal i
  end.

(** lexer.go:241-252 [consumeSingleLineComment]; the result is the new offset. *)
Definition consume_line_comment (inp : string) (o : nat) : lres nat :=
  let o := o + 2 in
  let* i := scan_line (loop_fuel inp) inp o 0 in
  LVal (o + (if peekOk inp o i then S i else i)).

(** lexer.go:257-263: the loop of a multi-line comment; [inl i] when closed at
    [i], [inr i] when the input ended at [i]. *)
Fixpoint scan_block (fuel : nat) (inp : string) (o i : nat) : lres (nat + nat) :=
  match fuel with
  | O => LFuel
  | S f =>
      if peekOk inp o i then
        let* closed :=
          (if peekOk inp o (i + 1) then
             let* c0 := peekN inp o i in
             if Ascii.eqb c0 "*" then
               let* c1 := peekN inp o (i + 1) in LVal (Ascii.eqb c1 "/")
             else LVal false
           else LVal false) in
        if closed then LVal (inl i) else scan_block f inp o (S i)
      else LVal (inr i)
  end.

(** lexer.go:254-266 [consumeMultiLineComment]; new offset and error. *)
Definition consume_block_comment (inp : string) (o : nat) : lres (nat * option string) :=
  let o := o + 2 in
  let* r := scan_block (loop_fuel inp) inp o 0 in
  match r with
  | inl i => LVal (o + (i + 2), None)
  | inr i => LVal (o + i, Some "unclosed multi-line comment")
  end.

(** lexer.go:305-334 [skipComments]; new offset and error. *)
Fixpoint skip_comments (fuel : nat) (inp : string) (o : nat) : lres (nat * option string) :=
  match fuel with
  | O => LFuel
  | S f =>
      if is_eof inp o then LVal (o, None)
      else
        let* o := skip_space (loop_fuel inp) inp o in
        if negb (peekOk inp o 0) then LVal (o, None)
        else
          let* c := peekN inp o 0 in
          if Ascii.eqb c "-" then
            let* b := okAnd inp o 1 (fun c => Ascii.eqb c "-") in
            if b then let* o := consume_line_comment inp o in skip_comments f inp o
            else LVal (o, None)
          else if Ascii.eqb c "/" then
            let* b := okAnd inp o 1 (fun c => Ascii.eqb c "*") in
            if b then
              let* r := consume_block_comment inp o in
              match r with
              | (o, Some e) => LVal (o, Some e)
              | (o, None) => skip_comments f inp o
              end
            else LVal (o, None)
          else if Ascii.eqb c (ch 13) || Ascii.eqb c (ch 10) then skip_comments f inp (o + 1)
          else LVal (o, None)
  end.

(** Result of a token scanner: new state and optional error. *)
Definition lout := lres (lstate * option string).

(** lexer.go:139-177: the loop of [consumeNumber]. [inr] is the result
    (length, is float, has a digit), [inl] the error. *)
Fixpoint num_loop (fuel : nat) (inp : string) (o base i : nat) (has_exp has_dot is_float has_num : bool)
  : lres (string + (nat * bool * bool)) :=
  match fuel with
  | O => LFuel
  | S f =>
      if negb (peekOk inp o i) then LVal (inr (i, is_float, has_num))
      else
        let* c := peekN inp o i in
        if (base =? 10) && is_digit c then num_loop f inp o base (S i) has_exp has_dot is_float true
        else if (base =? 16) && is_hex_digit c then num_loop f inp o base (S i) has_exp has_dot is_float true
        else if Ascii.eqb c "." then
          if has_dot || has_exp || (base =? 16) then LVal (inl "invalid number")
          else num_loop f inp o base (S i) has_exp true true has_num
        else if negb (base =? 16) && (Ascii.eqb c "e" || Ascii.eqb c "E") then
          if has_exp then LVal (inl "invalid number")
          else
            let i := S i in
            let* sgn := okAnd inp o i (fun c => Ascii.eqb c "+" || Ascii.eqb c "-") in
            let i := if sgn then S i else i in
            let* d := okAnd inp o i is_digit in
            if negb d then LVal (inl "exponent part should contain at least one digit")
            else num_loop f inp o base i true has_dot true has_num
        else LVal (inr (i, is_float, has_num))
  end.

(** lexer.go:120-190 [consumeNumber]. On error the state keeps its offset and has
    no current token (set to nil at lexer.go:362). *)
Definition consume_number (inp : string) (o : nat) : lout :=
  let* c0 := peekN inp o 0 in
  let i := if Ascii.eqb c0 "+" || Ascii.eqb c0 "-" then 1 else 0 in
  let* hex :=
    (if peekOk inp o (i + 1) then
       let* a := peekN inp o i in
       if Ascii.eqb a "0" then let* b := peekN inp o (i + 1) in LVal (Ascii.eqb b "x")
       else LVal false
     else LVal false) in
  let i := if hex then i + 2 else i in
  let base := if hex then 16 else 10 in
  let* r := num_loop (loop_fuel inp) inp o base i false false false false in
  match r with
  | inl e => LVal (mkL o None, Some e)
  | inr (i, is_float, has_num) =>
      let* bad := okAnd inp o i is_ident_part in
      if bad || negb has_num then LVal (mkL o None, Some "invalid number")
      else
        let* s := slice inp o 0 i in
        LVal (mkL (o + i) (Some (mkToken o (o + i) (if is_float then KFloat else KInt) s base QNone)), None)
  end.

(** lexer.go:208-210: identifier characters from [i] on. *)
Fixpoint scan_ident (fuel : nat) (inp : string) (o i : nat) : lres nat :=
  match fuel with
  | O => LFuel
  | S f =>
      let* more := okAnd inp o i is_ident_part in
      if more then scan_ident f inp o (S i) else LVal i
  end.

(** lexer.go:212-215: characters up to the closing quote [q]. *)
Fixpoint scan_quoted (fuel : nat) (inp : string) (q : ascii) (o i : nat) : lres nat :=
  match fuel with
  | O => LFuel
  | S f =>
      let* more := okAnd inp o i (fun c => negb (Ascii.eqb c q)) in
      if more then scan_quoted f inp q o (S i) else LVal i
  end.

Definition backtick : ascii := "`".
Definition dquote : ascii := ch 34.
Definition squote : ascii := "'".
Definition backslash : ascii := "\".

(** lexer.go:192-239 [consumeIdent]. An unclosed quoted identifier leaves the
    offset after the opening quote (lexer.go:201). *)
Definition consume_ident (inp : string) (o : nat) : lout :=
  let* isq := okAnd inp o 0 (fun c => Ascii.eqb c backtick || Ascii.eqb c dquote) in
  if isq then
    let* q := peekN inp o 0 in
    let qt := if Ascii.eqb q backtick then QBackTicks else QDouble in
    let o := o + 1 in
    let* i := scan_quoted (loop_fuel inp) inp q o 0 in
    let* closed := okAnd inp o i (fun c => Ascii.eqb c q) in
    let* s := slice inp o 0 i in
    if negb closed then LVal (mkL o None, Some ("unclosed quoted identifier: " ++ s))
    else LVal (mkL (o + i + 1) (Some (mkToken o (o + i) KIdent s 0 qt)), None)
  else
    let* dollar := okAnd inp o 0 (fun c => Ascii.eqb c "$") in
    let* i := scan_ident (loop_fuel inp) inp o (if dollar then 1 else 0) in
    let* s := slice inp o 0 i in
    let k := if is_keyword (upper s) then KKeyword else KIdent in
    LVal (mkL (o + i) (Some (mkToken o (o + i) k s 0 QUnquoted)), None).

(** lexer.go:271-290: the loop of [consumeString]; result is the final index. *)
Fixpoint scan_string (fuel : nat) (inp : string) (o i : nat) : lres nat :=
  match fuel with
  | O => LFuel
  | S f =>
      if negb (peekOk inp o i) then LVal i
      else
        let* c := peekN inp o i in
        if Ascii.eqb c backslash then
          let i := S i in
          scan_string f inp o (if peekOk inp o i then S i else i)
        else if Ascii.eqb c squote then
          let* dbl := okAnd inp o (i + 1) (fun c => Ascii.eqb c squote) in
          if dbl then scan_string f inp o (i + 2) else LVal i
        else scan_string f inp o (S i)
  end.

(** lexer.go:268-303 [consumeString]. *)
Definition consume_string (inp : string) (o : nat) : lout :=
  let* i := scan_string (loop_fuel inp) inp o 1 in
  let* closed := okAnd inp o i (fun c => Ascii.eqb c squote) in
  if negb closed then LVal (mkL o None, Some "invalid string")
  else
    let* s := slice inp o 1 i in
    LVal (mkL (o + (i + 1)) (Some (mkToken (o + 1) (o + i) KString s 0 QNone)), None).

(** lexer.go:347-357 [hasPrecedenceToken]. *)
Definition has_precedence_token (last : option token) : bool :=
  match last with
  | None => false
  | Some t => str_in (tkind t) [KIdent; KKeyword; KInt; KFloat; KString; ")"; "]"]
  end.

(** A token made of the next [n] bytes whose kind is [k] of those bytes
    (lexer.go:376-383, 391-398, 411-418, 421-428, 440-447). *)
Definition simple_token (inp : string) (o n : nat) (k : string -> kind) : lout :=
  let* s := slice inp o 0 n in
  LVal (mkL (o + n) (Some (mkToken o (o + n) (k s) s 0 QNone)), None).

(** lexer.go:431-447: the tail of [consumeToken] reached when no case returned. *)
Definition consume_rest (inp : string) (o : nat) (c : ascii) : lout :=
  if is_ident_start c then consume_ident inp o
  else if 128 <=? byte_of c then LVal (mkL o None, Some "unexpected character")
  else simple_token inp o 1 (fun s => s).

(** lexer.go:359-448 [consumeToken]. The next state has no current token when an
    error is returned or the input is exhausted. *)
Definition consume (inp : string) (s : lstate) : lout :=
  let prev := cur s in
  let* r := skip_comments (loop_fuel inp) inp (off s) in
  match r with
  | (o, Some e) => LVal (mkL o None, Some e)
  | (o, None) =>
      let* o := skip_space (loop_fuel inp) inp o in
      if is_eof inp o then LVal (mkL o None, None)
      else
        let* c := peekN inp o 0 in
        if Ascii.eqb c ">" || Ascii.eqb c "<" || Ascii.eqb c "!" || Ascii.eqb c "=" || Ascii.eqb c "|" then
          let* two := okAnd inp o 1 (fun d =>
            (Ascii.eqb c "|" && Ascii.eqb d "|")
            || (Ascii.eqb c "<" && Ascii.eqb d ">")
            || (Ascii.eqb c "=" && Ascii.eqb d "=")
            || (negb (Ascii.eqb c "|") && Ascii.eqb d "=")) in
          if two then simple_token inp o 2 (fun s => s) else consume_rest inp o c
        else if Ascii.eqb c "+" || Ascii.eqb c "-" then
          let* num := (if has_precedence_token prev then LVal false else okAnd inp o 1 is_digit) in
          if num then consume_number inp o
          else
            let* arrow := okAnd inp o 1 (fun d => Ascii.eqb d ">") in
            if arrow then simple_token inp o 2 (fun _ => "->") else consume_rest inp o c
        else if is_digit c then consume_number inp o
        else if Ascii.eqb c backtick || Ascii.eqb c "$" || Ascii.eqb c dquote then consume_ident inp o
        else if Ascii.eqb c squote then consume_string inp o
        else if Ascii.eqb c ":" then
          let* two := okAnd inp o 1 (fun d => Ascii.eqb d ":") in
          if two then simple_token inp o 2 (fun _ => "::") else consume_rest inp o c
        else if Ascii.eqb c "." then simple_token inp o 1 (fun _ => ".")
        else consume_rest inp o c
  end.

(** lexer.go:336-345 [peekToken]: on error the state is not restored. *)
Definition peek (inp : string) (s : lstate) : lres (lstate * (option token + string)) :=
  let* r := consume inp s in
  match r with
  | (s', Some e) => LVal (s', inr e)
  | (s', None) => LVal (s, inl (cur s'))
  end.
