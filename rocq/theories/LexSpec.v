(** A second description of the lexer, on the unread part of the input: what the
    next token is, by structural recursion on the text, without offsets, fuel or
    panics. LexFacts.v proves that [consume] of Lexer.v computes it. *)
From Coq Require Import String Ascii List Arith Bool.
From Verif Require Import Str Keyword Lexer.
Import ListNotations.
Local Open Scope string_scope.
Local Open Scope nat_scope.

(** The text after the first [n] bytes. *)
Fixpoint sdrop (n : nat) (s : string) : string :=
  match n, s with
  | S m, String _ r => sdrop m r
  | _, _ => s
  end.

(** The first [n] bytes. *)
Fixpoint stake (n : nat) (s : string) : string :=
  match n, s with
  | S m, String c r => String c (stake m r)
  | _, _ => ""
  end.

Definition head_is (p : ascii -> bool) (s : string) : bool :=
  match s with String c _ => p c | "" => false end.

(** Length of the longest prefix whose bytes satisfy [p]. *)
Fixpoint span (p : ascii -> bool) (s : string) : nat :=
  match s with
  | String c r => if p c then S (span p r) else 0
  | "" => 0
  end.

(** White-space runes of one, two and three bytes. *)
Definition ws1 (c : ascii) : bool := ((9 <=? byte_of c) && (byte_of c <=? 13)) || (byte_of c =? 32).
Definition ws2 (a b : ascii) : bool :=
  (byte_of a =? 194) && ((byte_of b =? 133) || (byte_of b =? 160)).
Definition ws3 (a b c : ascii) : bool :=
  ((byte_of a =? 225) && (byte_of b =? 154) && (byte_of c =? 128))
  || ((byte_of a =? 226) && (byte_of b =? 128) &&
       (((128 <=? byte_of c) && (byte_of c <=? 138)) || (byte_of c =? 168) || (byte_of c =? 169) || (byte_of c =? 175)))
  || ((byte_of a =? 226) && (byte_of b =? 129) && (byte_of c =? 159))
  || ((byte_of a =? 227) && (byte_of b =? 128) && (byte_of c =? 128)).

(** Length of the white space at the start of the text. *)
Fixpoint ws (s : string) : nat :=
  match s with
  | "" => 0
  | String c0 r0 =>
      if ws1 c0 then S (ws r0)
      else match r0 with
           | "" => 0
           | String c1 r1 =>
               if ws2 c0 c1 then 2 + ws r1
               else match r1 with
                    | "" => 0
                    | String c2 r2 => if ws3 c0 c1 c2 then 3 + ws r2 else 0
                    end
           end
  end.

Definition is_nl (c : ascii) : bool := Ascii.eqb c (ch 13) || Ascii.eqb c (ch 10).

(** Where the scan of layout stands. *)
Inductive lmode := Plain | InLine | InBlock.

Definition bump (n : nat) (r : nat * bool) : nat * bool := (n + fst r, snd r).

(** Length of the layout (white space and comments) at the start of the text;
    the flag tells that a block comment is left open. *)
Fixpoint layout (m : lmode) (s : string) : nat * bool :=
  match s with
  | "" => (0, match m with InBlock => true | _ => false end)
  | String c0 r0 =>
      match m with
      | InLine => bump 1 (layout (if is_nl c0 then Plain else InLine) r0)
      | InBlock =>
          match r0 with
          | String c1 r1 =>
              if Ascii.eqb c0 "*" && Ascii.eqb c1 "/" then bump 2 (layout Plain r1)
              else bump 1 (layout InBlock r0)
          | "" => bump 1 (layout InBlock r0)
          end
      | Plain =>
          if ws1 c0 then bump 1 (layout Plain r0)
          else match r0 with
               | "" => (0, false)
               | String c1 r1 =>
                   if Ascii.eqb c0 "-" && Ascii.eqb c1 "-" then bump 2 (layout InLine r1)
                   else if Ascii.eqb c0 "/" && Ascii.eqb c1 "*" then bump 2 (layout InBlock r1)
                   else if ws2 c0 c1 then bump 2 (layout Plain r1)
                   else match r1 with
                        | "" => (0, false)
                        | String c2 r2 => if ws3 c0 c1 c2 then bump 3 (layout Plain r2) else (0, false)
                        end
               end
      end
  end.

(** Length of the text up to the terminating quote of a string literal (or up to
    the end when there is none): a backslash hides the next byte, two quotes in a
    row are part of the literal. *)
Fixpoint str_body (s : string) : nat :=
  match s with
  | "" => 0
  | String c r =>
      if Ascii.eqb c backslash then
        match r with "" => 1 | String _ r' => 2 + str_body r' end
      else if Ascii.eqb c squote then
        match r with
        | String c' r' => if Ascii.eqb c' squote then 2 + str_body r' else 0
        | "" => 0
        end
      else S (str_body r)
  end.

(** The tail of a number: [inr (length, is float, has a digit)] or an error. *)
Definition nbump (n : nat) (r : string + (nat * bool * bool)) : string + (nat * bool * bool) :=
  match r with inl e => inl e | inr (k, f, d) => inr (n + k, f, d) end.

Fixpoint num_tail (base : nat) (has_exp has_dot is_float has_num : bool) (s : string)
  : string + (nat * bool * bool) :=
  match s with
  | "" => inr (0, is_float, has_num)
  | String c r =>
      if (base =? 10) && is_digit c then nbump 1 (num_tail base has_exp has_dot is_float true r)
      else if (base =? 16) && is_hex_digit c then nbump 1 (num_tail base has_exp has_dot is_float true r)
      else if Ascii.eqb c "." then
        if has_dot || has_exp || (base =? 16) then inl "invalid number"
        else nbump 1 (num_tail base has_exp true true has_num r)
      else if negb (base =? 16) && (Ascii.eqb c "e" || Ascii.eqb c "E") then
        if has_exp then inl "invalid number"
        else match r with
             | String d r' =>
                 if Ascii.eqb d "+" || Ascii.eqb d "-" then
                   if head_is is_digit r' then nbump 2 (num_tail base true has_dot true has_num r')
                   else inl "exponent part should contain at least one digit"
                 else if is_digit d then nbump 1 (num_tail base true has_dot true has_num r)
                 else inl "exponent part should contain at least one digit"
             | "" => inl "exponent part should contain at least one digit"
             end
      else inr (0, is_float, has_num)
  end.

(** What one request yields, relative to the start of the text: bytes read, token, error. *)
Record lexed := mkLx { lx_len : nat; lx_tok : option token; lx_err : option string }.

Definition lx_error (n : nat) (e : string) : lexed := mkLx n None (Some e).
Definition lx_simple (n : nat) (k : kind) (s : string) : lexed :=
  mkLx n (Some (mkToken 0 n k (stake n s) 0 QNone)) None.

Definition is_sign (c : ascii) : bool := Ascii.eqb c "+" || Ascii.eqb c "-".
Definition starts_hex (s : string) : bool :=
  match s with
  | String a (String b _) => Ascii.eqb a "0" && Ascii.eqb b "x"
  | _ => false
  end.

Definition lex_number (s : string) : lexed :=
  let i := if head_is is_sign s then 1 else 0 in
  let hex := starts_hex (sdrop i s) in
  let i := if hex then i + 2 else i in
  let base := if hex then 16 else 10 in
  match nbump i (num_tail base false false false false (sdrop i s)) with
  | inl e => lx_error 0 e
  | inr (n, is_float, has_num) =>
      if head_is is_ident_part (sdrop n s) || negb has_num then lx_error 0 "invalid number"
      else mkLx n (Some (mkToken 0 n (if is_float then KFloat else KInt) (stake n s) base QNone)) None
  end.

(** A quoted identifier: [s] starts with the quote [q]. *)
Definition lex_quoted (q : ascii) (s : string) : lexed :=
  let body := sdrop 1 s in
  let n := span (fun c => negb (Ascii.eqb c q)) body in
  match sdrop n body with
  | "" => lx_error 1 ("unclosed quoted identifier: " ++ body)
  | _ => mkLx (n + 2)
           (Some (mkToken 1 (1 + n) KIdent (stake n body) 0 (if Ascii.eqb q backtick then QBackTicks else QDouble)))
           None
  end.

Definition lex_bare (s : string) : lexed :=
  let n := if head_is (fun c => Ascii.eqb c "$") s then S (span is_ident_part (sdrop 1 s))
           else span is_ident_part s in
  let w := stake n s in
  mkLx n (Some (mkToken 0 n (if is_keyword (upper w) then KKeyword else KIdent) w 0 QUnquoted)) None.

Definition lex_string (s : string) : lexed :=
  let n := str_body (sdrop 1 s) in
  match sdrop (1 + n) s with
  | "" => lx_error 0 "invalid string"
  | _ => mkLx (n + 2) (Some (mkToken 1 (1 + n) KString (stake n (sdrop 1 s)) 0 QNone)) None
  end.

Definition lex_rest (c : ascii) (s : string) : lexed :=
  if is_ident_start c then lex_bare s
  else if 128 <=? byte_of c then lx_error 0 "unexpected character"
  else lx_simple 1 (stake 1 s) s.

(** The token at the start of a text that starts with no layout. *)
Definition lex_token (prev : option token) (s : string) : lexed :=
  match s with
  | "" => mkLx 0 None None
  | String c r =>
      if Ascii.eqb c ">" || Ascii.eqb c "<" || Ascii.eqb c "!" || Ascii.eqb c "=" || Ascii.eqb c "|" then
        if head_is (fun d =>
            (Ascii.eqb c "|" && Ascii.eqb d "|")
            || (Ascii.eqb c "<" && Ascii.eqb d ">")
            || (Ascii.eqb c "=" && Ascii.eqb d "=")
            || (negb (Ascii.eqb c "|") && Ascii.eqb d "=")) r
        then lx_simple 2 (stake 2 s) s else lex_rest c s
      else if is_sign c then
        if negb (has_precedence_token prev) && head_is is_digit r then lex_number s
        else if head_is (fun d => Ascii.eqb d ">") r then lx_simple 2 "->" s
        else lex_rest c s
      else if is_digit c then lex_number s
      else if Ascii.eqb c backtick || Ascii.eqb c dquote then lex_quoted c s
      else if Ascii.eqb c "$" then lex_bare s
      else if Ascii.eqb c squote then lex_string s
      else if Ascii.eqb c ":" then
        if head_is (fun d => Ascii.eqb d ":") r then lx_simple 2 "::" s else lex_rest c s
      else if Ascii.eqb c "." then lx_simple 1 "." s
      else lex_rest c s
  end.

Definition shift_tok (n : nat) (t : token) : token :=
  mkToken (n + tpos t) (n + tend t) (tkind t) (tstr t) (tbase t) (tquote t).
Definition lx_shift (n : nat) (r : lexed) : lexed :=
  mkLx (n + lx_len r) (option_map (shift_tok n) (lx_tok r)) (lx_err r).

(** One request on the unread text [s], the previous token being [prev]. *)
Definition lex1 (prev : option token) (s : string) : lexed :=
  match layout Plain s with
  | (k, true) => lx_error k "unclosed multi-line comment"
  | (k, false) => lx_shift k (lex_token prev (sdrop k s))
  end.
