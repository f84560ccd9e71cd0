(** Inputs that differ in the letter case of keywords, for C24: a specification that does not mention the lexer or the parser. *)
From Coq Require Import String Ascii List Arith Bool.
From Verif Require Import Str Keyword Lexer LexSpec LexGrammar LexTokens LayoutSpec Prog Ast ErrorRender ParserApi Recase.
Import ListNotations.
Local Open Scope string_scope.
Local Open Scope nat_scope.

(** [recased prev s s']: after the token [prev], [s] and [s'] are made of the same layout and the same lexemes, except that words
    that are keywords, but none of [cased], may be in another letter case. From some place on the texts may be any text, also
    one in which no lexemes can be read. *)
Inductive recased : option tok -> string -> string -> Prop :=
| RC_rest : forall prev r, recased prev r r
| RC_same : forall prev g w t r r', gap g -> lexeme prev w t r -> lexeme prev w t r' -> recased (Some t) r r' ->
    recased prev (g ++ w ++ r) (g ++ w ++ r')
| RC_keyword : forall prev g w w' r r', gap g -> word w -> word w' -> word_end r -> word_end r' ->
    upper w = upper w' -> is_keyword (upper w) = true -> ~ In (upper w) cased ->
    recased (Some (mkTok KKeyword w 0 QUnquoted)) r r' ->
    recased prev (g ++ w ++ r) (g ++ w' ++ r').

(** A token up to the letter case of an unquoted keyword, as far as [recase] goes. *)
Definition retok (t : tok) : tok :=
  mkTok (t_kind t) (if String.eqb (t_kind t) KKeyword && (t_quote t <=? 1) then recase (t_str t) else t_str t) (t_base t) (t_quote t).

(** The same trees up to [fold] with the same positions, or the same error at the same place, or the same crash. *)
Definition same_but_case (a b : result) : Prop :=
  match a, b with
  | Parsed l sp, Parsed l' sp' => map fold l = map fold l' /\ sp = sp'
  | Failed e, Failed e' =>
      pe_pos e = pe_pos e' /\ pe_line e = pe_line e' /\ pe_column e = pe_column e' /\ pe_expected e = pe_expected e' /\
      pe_keyword e = pe_keyword e' /\ pe_msg e = pe_msg e' /\ option_map retok (pe_got e) = option_map retok (pe_got e')
  | Crashed z, Crashed z' => z = z'
  | _, _ => False
  end.
