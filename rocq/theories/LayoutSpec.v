(** Layout (white space and comments), lexemes, and the sources made of them: a
    specification that does not mention the functions of the lexer. *)
From Coq Require Import String Ascii List Arith Bool.
From Verif Require Import Str Keyword Lexer LexSpec LexGrammar LexTokens Prog.
Import ListNotations.
Local Open Scope string_scope.
Local Open Scope nat_scope.

(** White space (as UTF-8 byte sequences), comments to the end of the line and block
    comments. A gap may be followed by anything. *)
Inductive gap : string -> Prop :=
| G_nil : gap ""
| G_ws1 : forall c g, ws1 c = true -> gap g -> gap (String c g)
| G_ws2 : forall c d g, ws2 c d = true -> gap g -> gap (String c (String d g))
| G_ws3 : forall c d e g, ws3 c d e = true -> gap g -> gap (String c (String d (String e g)))
| G_line : forall t c g, sall (fun c => negb (is_nl c)) t = true -> is_nl c = true -> gap g -> gap ("--" ++ t ++ String c g)
| G_block : forall t g, (forall a b, t ++ "*" <> a ++ "*/" ++ b) -> gap g -> gap ("/*" ++ t ++ "*/" ++ g).

(** At the end of the source the last comment need not have an end of line. *)
Inductive end_gap : string -> Prop :=
| E_gap : forall g, gap g -> end_gap g
| E_line : forall g t, gap g -> sall (fun c => negb (is_nl c)) t = true -> end_gap (g ++ "--" ++ t).

(** A sign after one of these is an operator, not the sign of a number. *)
Definition operand (prev : option tok) : Prop :=
  match prev with Some t => In (t_kind t) [KIdent; KKeyword; KInt; KFloat; KString; ")"; "]"] | None => False end.

Definition two_char : list string := ["<>"; "<="; ">="; "!="; "=="; "||"; "->"; "+>"; "::"].

Definition one_char (c : ascii) : Prop :=
  byte_of c < 128 /\ ws1 c = false /\ is_digit c = false /\ is_ident_start c = false /\
  ~ In c ["`"%char; ch 34; "'"%char; "$"%char].

Definition first (r : string) : string := match r with "" => "" | String c _ => String c "" end.

(** [lexeme prev w t r]: [w] is a lexeme with token [t], it comes after the token [prev],
    and the text [r] that follows neither continues it nor turns it into a comment. *)
Inductive lexeme (prev : option tok) : string -> tok -> string -> Prop :=
| L_number : forall n base f r, number n base f -> number_end r ->
    head_is is_digit n = true \/ ~ operand prev ->
    lexeme prev n (mkTok (if f then KFloat else KInt) n base QNone) r
| L_string : forall b r, str_text b -> ~ starts_with "'" r ->
    lexeme prev ("'" ++ b ++ "'") (mkTok KString b 0 QNone) r
| L_quoted : forall q b r, q = "`"%char \/ q = ch 34 -> free_of q b ->
    lexeme prev (String q (b ++ String q "")) (mkTok KIdent b 0 (if Ascii.eqb q "`" then QBackTicks else QDouble)) r
| L_word : forall w r, word w -> word_end r ->
    lexeme prev w (mkTok (if is_keyword (upper w) then KKeyword else KIdent) w 0 QUnquoted) r
| L_two : forall w r, In w two_char ->
    lexeme prev w (mkTok (if String.eqb w "+>" then "->" else w) w 0 QNone) r
| L_one : forall c r, one_char c -> ~ In (String c (first r)) two_char ->
    (c = "-"%char -> ~ starts_with "-" r) -> (c = "/"%char -> ~ starts_with "*" r) ->
    (c = "-"%char \/ c = "+"%char -> operand prev \/ head_is is_digit r = false) ->
    lexeme prev (String c "") (mkTok (String c "") (String c "") 0 QNone) r.

(** [source prev ts closed src]: after the token [prev], [src] spells the tokens [ts], with
    some layout before each and after the last; [closed] tells that nothing, not even
    layout, comes after the last. *)
Inductive source : option tok -> list tok -> bool -> string -> Prop :=
| S_end : forall prev g, end_gap g -> source prev [] (String.eqb g "") g
| S_lexeme : forall prev g w t ts closed r, gap g -> lexeme prev w t r -> source (Some t) ts closed r ->
    source prev (t :: ts) closed (g ++ w ++ r).

(** [begins prev ts r src]: [src] starts with the tokens [ts]; [r] is what is left of it. *)
Inductive begins : option tok -> list tok -> string -> string -> Prop :=
| B_nil : forall prev r, begins prev [] r r
| B_lexeme : forall prev g w t ts r r', gap g -> lexeme prev w t r' -> begins (Some t) ts r r' ->
    begins prev (t :: ts) r (g ++ w ++ r').

(** The token before the text left by [begins]. *)
Definition last_tok (prev : option tok) (ts : list tok) : option tok := last (map Some ts) prev.

(** Texts at whose start no lexeme can be read. *)
Inductive malformed (prev : option tok) : string -> Prop :=
| M_string : forall u, (forall b r, str_text b -> ~ starts_with "'" r -> u <> b ++ "'" ++ r) -> malformed prev ("'" ++ u)
| M_number : forall c u, is_digit c = true \/ (c = "+"%char \/ c = "-"%char) /\ head_is is_digit u = true /\ ~ operand prev ->
    (forall n base f r, number n base f -> number_end r -> String c u <> n ++ r) -> malformed prev (String c u)
| M_byte : forall c u, 128 <= byte_of c -> (forall g r, gap g -> String c u = g ++ r -> g = "") -> malformed prev (String c u).

Inductive unclosed : string -> Prop :=
| U_quoted : forall q u, q = "`"%char \/ q = ch 34 -> free_of q u -> unclosed (String q u)
| U_comment : forall u, (forall a b, u <> a ++ "*/" ++ b) -> unclosed ("/*" ++ u).

(** Lexemes written with some layout between any two of them. *)
Inductive spaced : option tok -> list tok -> bool -> string -> Prop :=
| P_end : forall prev g, end_gap g -> (option_map t_kind prev = Some "-" -> ~ starts_with "-" g) ->
    spaced prev [] (String.eqb g "") g
| P_lexeme : forall prev g w t ts closed r, gap g -> prev = None \/ g <> "" ->
    (option_map t_kind prev = Some "-" -> ~ starts_with "-" g) ->
    lexeme prev w t "" -> spaced (Some t) ts closed r -> spaced prev (t :: ts) closed (g ++ w ++ r).
