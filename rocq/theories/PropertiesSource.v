(** Properties C10, C11, C12 and C37: positions, source lines, error text, sets. *)
From Coq Require Import String Ascii List Arith Bool Lia.
From Verif Require Import Str Keyword Lexer Ast Prog Items Source GoSet ErrorRender LexSpec StrFacts SourceFacts SetFacts ErrorFacts.
Import ListNotations.
Local Open Scope nat_scope.
Local Open Scope string_scope.

(** ** C10 *)

(** [a] is the text up to the start of the line, [b] the part of the line before the offset. *)
Theorem C10_position : forall a b c : string,
  (a = "" \/ exists a', a = a' ++ String newline "") -> count_nl b = 0 ->
  position (newLineStarts (a ++ b ++ c)) (String.length a + String.length b)
  = Some (1 + count_nl a, 1 + String.length b)%nat.
Proof. exact position_split. Qed.
Print Assumptions C10_position.

(** Every offset of every input is of that form. *)
Theorem C10_every_offset : forall inp off, off <= String.length inp -> exists a b c,
  inp = a ++ b ++ c /\ off = (String.length a + String.length b)%nat /\ count_nl b = 0 /\
  (a = "" \/ exists a', a = a' ++ String newline "").
Proof. exact offset_split. Qed.
Print Assumptions C10_every_offset.

Example C10_case : position (newLineStarts ("ab" ++ String newline (String newline "cde"))) 6 = Some (3, 3).
Proof. reflexivity. Qed.

(** ** C11 *)

(** [lines] is what one expects: its pieces joined by newlines are the text, and none
    contains a newline. *)
Theorem C11_lines : forall s, String.concat (String newline "") (lines s) = s /\
  forall l, In l (lines s) -> count_nl l = 0.
Proof. intros s. split; [apply lines_concat | apply lines_free]. Qed.
Print Assumptions C11_lines.

Theorem C11_line_text : forall inp k,
  lineText (newLineStarts inp) inp k =
  Some (if (Nat.leb 1 k && Nat.leb k (List.length (lines inp)))%bool then strip_cr (nth (k - 1) (lines inp) "") else "").
Proof. exact lineText_ok. Qed.
Print Assumptions C11_line_text.

Example C11_case : lineText (newLineStarts ("ab" ++ String cr (String newline "cd"))) ("ab" ++ String cr (String newline "cd")) 1 = Some "ab".
Proof. reflexivity. Qed.
Example C11_case_last : lineText (newLineStarts ("ab" ++ String newline "cd")) ("ab" ++ String newline "cd") 2 = Some "cd".
Proof. reflexivity. Qed.

(** ** C12 *)

(** The text of an error: message line, source line, caret line. *)
Theorem C12_error_text : forall e inp, pe_input e = inp -> pe_starts e = Some (newLineStarts inp) ->
  1 <= pe_line e <= List.length (lines inp) ->
  Error e = Some (
    "line " ++ dec (pe_line e) ++ ":" ++ dec (pe_column e) ++ " " ++ summary e ++ String newline (
    strip_cr (nth (pe_line e - 1) (lines inp) "") ++ String newline (
    repeat_char (pe_column e - 1) " " ++
    repeat_char (Nat.max 1 (match pe_got e with Some t => String.length (t_str t) | None => 0 end)) "^" ++ String newline ""))).
Proof.
  intros e inp H1 H2 H3. rewrite (Error_ok e inp H1 H2).
  destruct (Nat.leb_spec 1 (pe_line e)); [|lia]. destruct (Nat.leb_spec (pe_line e) (List.length (lines inp))); [|lia]. reflexivity.
Qed.
Print Assumptions C12_error_text.

(** Errors that went through [wrapError] satisfy the hypotheses, and the first caret
    stands below the byte at the offset of the error. *)
Theorem C12_caret : forall inp l e s, exists pe, wrapError inp l e s = Some pe /\
  pe_input pe = inp /\ pe_starts pe = Some (newLineStarts inp) /\ 1 <= pe_line pe <= List.length (lines inp) /\
  forall c, String.get (pe_pos pe) inp = Some c -> c <> newline -> c <> cr ->
    String.get (pe_column pe - 1) (strip_cr (nth (pe_line pe - 1) (lines inp) "")) = Some c.
Proof.
  intros inp l e s. destruct (wrapError_ok inp l e s) as (pe & H1 & H2 & H3 & H4 & H5 & H6).
  exists pe. repeat split; try assumption.
  - symmetry in H6. now apply position_lines in H6.
  - symmetry in H6. now apply position_lines in H6.
  - intros c Hc Hn Hr. rewrite position_ok in H6. cbv zeta in H6. injection H6 as -> ->.
    pose proof (get_lt _ _ _ Hc). rewrite stake_length, Nat.sub_diag, Nat.add_0_r by lia.
    rewrite !Nat.sub_succ, !Nat.sub_0_r. apply strip_cr_get; [|exact Hr]. now apply lines_char.
Qed.
Print Assumptions C12_caret.

Example C12_case :
  let inp := "SELECT 1," ++ String newline "  FROM t" in
  let pe := mkPE 12 2 3 (Some (mkTok KKeyword "FROM" 0 0)) [] "" "oops" inp (Some (newLineStarts inp)) in
  Error pe = Some ("line 2:3 oops" ++ String newline ("  FROM t" ++ String newline ("  ^^^^" ++ String newline ""))).
Proof. reflexivity. Qed.

(** ** C37 *)

(** [present init (rev ops) x]: the last operation on [x] added it, or none touched it and
    it was there initially. *)
Theorem C37_contains : forall (T : Type) (eqb : T -> T -> bool), (forall x y, eqb x y = true <-> x = y) ->
  forall init ops x,
  contains eqb (fold_left (apply eqb) ops (newSet eqb init)) x = true <-> present init (rev ops) x.
Proof.
  intros T eqb H init ops x. rewrite (contains_In eqb H). apply (history_ok eqb H).
Qed.
Print Assumptions C37_contains.

Theorem C37_members : forall (T : Type) (eqb : T -> T -> bool), (forall x y, eqb x y = true <-> x = y) ->
  forall init ops l, members (fold_left (apply eqb) ops (newSet eqb init)) l ->
  NoDup l /\ forall x, In x l <-> present init (rev ops) x.
Proof.
  intros T eqb H init ops l Hl. destruct (history_ok eqb H init ops) as [H1 H2]. split.
  - apply (Permutation.Permutation_NoDup (Permutation.Permutation_sym Hl) H1).
  - intros x. rewrite <- H2. split; apply Permutation.Permutation_in; [exact Hl | now apply Permutation.Permutation_sym].
Qed.
Print Assumptions C37_members.

Example C37_case : present ["a"; "b"] (rev [Remove "a"; Add "c"; Remove "b"; Add "a"]) "a"
  /\ ~ present ["a"; "b"] (rev [Remove "a"; Add "c"; Remove "b"; Add "a"]) "b".
Proof. cbn. intuition discriminate. Qed.
