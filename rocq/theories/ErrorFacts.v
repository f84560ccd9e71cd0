(** Facts about ErrorRender.v. *)
From Coq Require Import String Ascii List Arith Bool Lia.
From Verif Require Import Str Keyword Lexer LexSpec StrFacts Ast Prog Items Source SourceFacts ErrorRender.
Import ListNotations.
Local Open Scope string_scope.
Local Open Scope nat_scope.
#[local] Arguments newline : simpl never.
#[local] Arguments cr : simpl never.
#[local] Arguments Ascii.eqb : simpl never.

Lemma col_from_acc p : forall acc, col_from acc p = if count_nl p =? 0 then acc + String.length p else col_from 0 p.
Proof.
  induction p as [|c p IH]; intros acc; cbn [col_from count_nl String.length]; [cbn; lia|].
  destruct (Ascii.eqb c newline); [reflexivity|]. cbn [Nat.add]. rewrite (IH (S acc)), (IH 1).
  destruct (count_nl p =? 0); [lia | reflexivity].
Qed.

Lemma count_nl_0_get p : count_nl p = 0 -> col_from 0 p = String.length p.
Proof. intros H. rewrite col_from_acc, H. reflexivity. Qed.

(** The byte at an offset stands in its line at its column. *)
Lemma lines_char inp : forall o c, String.get o inp = Some c -> c <> newline ->
  String.get (col_from 0 (stake o inp)) (nth (count_nl (stake o inp)) (lines inp) "") = Some c.
Proof.
  induction inp as [|d s IH]; intros o c H Hc; [destruct o; discriminate|].
  destruct o as [|o].
  - cbn in H. injection H as ->. cbn [stake count_nl col_from lines].
    destruct (Ascii.eqb_spec c newline); [congruence|]. pose proof (lines_ne s). destruct (lines s); [congruence|]. reflexivity.
  - cbn [String.get] in H. specialize (IH o c H Hc). cbn [stake count_nl col_from lines].
    destruct (Ascii.eqb d newline); cbn [Nat.add]; [exact IH|].
    pose proof (lines_ne s). destruct (lines s) as [|l ls]; [congruence|].
    rewrite col_from_acc. destruct (Nat.eqb_spec (count_nl (stake o s)) 0) as [E|E].
    + rewrite E in IH |- *. cbn [nth] in IH |- *. rewrite (count_nl_0_get _ E) in IH. exact IH.
    + destruct (count_nl (stake o s)); [lia|]. exact IH.
Qed.

Lemma strip_cr_get l : forall i c, String.get i l = Some c -> c <> cr -> String.get i (strip_cr l) = Some c.
Proof.
  induction l as [|d l IH]; intros i c H Hc; [exact H|]. destruct l as [|d' l].
  - destruct i; [|destruct i; discriminate]. cbn in H. injection H as ->. cbn [strip_cr].
    destruct (Ascii.eqb_spec c cr); [congruence | reflexivity].
  - change (strip_cr (String d (String d' l))) with (String d (strip_cr (String d' l))).
    destruct i as [|i]; [exact H|]. cbn [String.get] in H |- *. now apply IH.
Qed.

Lemma count_nl_lines s : S (count_nl s) = List.length (lines s).
Proof.
  induction s as [|c s IH]; [reflexivity|]. cbn [count_nl lines]. destruct (Ascii.eqb c newline); cbn [List.length Nat.add].
  - now rewrite IH.
  - rewrite IH. pose proof (lines_ne s). now destruct (lines s).
Qed.

Lemma count_nl_stake o s : count_nl (stake o s) <= count_nl s.
Proof. revert o. induction s as [|c s IH]; intros [|o]; cbn [stake count_nl]; try lia. specialize (IH o). lia. Qed.

Lemma position_lines inp o line col : position (newLineStarts inp) o = Some (line, col) ->
  1 <= line <= List.length (lines inp).
Proof.
  rewrite position_ok. cbv zeta. intros H. injection H as <- <-. rewrite <- count_nl_lines.
  pose proof (count_nl_stake o inp). lia.
Qed.

Lemma Error_ok e inp : pe_input e = inp -> pe_starts e = Some (newLineStarts inp) ->
  Error e = Some ("line " ++ dec (pe_line e) ++ ":" ++ dec (pe_column e) ++ " " ++ summary e ++ String newline
    ((if (1 <=? pe_line e) && (pe_line e <=? List.length (lines inp)) then strip_cr (nth (pe_line e - 1) (lines inp) "") else "")
     ++ String newline (repeat_char (pe_column e - 1) (ch 32)
     ++ repeat_char (Nat.max 1 (match pe_got e with Some t => String.length (t_str t) | None => 0 end)) (ch 94) ++ String newline ""))).
Proof.
  intros <- Hs. unfold Error, renderCaret. rewrite Hs, lineText_ok.
  replace (match pe_got e with Some t => if 1 <? String.length (t_str t) then String.length (t_str t) else 1 | None => 1 end)
    with (Nat.max 1 (match pe_got e with Some t => String.length (t_str t) | None => 0 end)); [reflexivity|].
  destruct (pe_got e) as [t|]; [|reflexivity]. destruct (Nat.ltb_spec 1 (String.length (t_str t))); lia.
Qed.

Lemma wrapError_ok inp l e s : exists pe, wrapError inp l e s = Some pe /\
  pe_input pe = inp /\ pe_starts pe = Some (newLineStarts inp) /\ pe_pos pe = pe_pos (raw_error l e s) /\
  pe_got pe = pe_got (raw_error l e s) /\
  Some (pe_line pe, pe_column pe) = position (newLineStarts inp) (pe_pos pe).
Proof.
  unfold wrapError. assert (H : pe_line (raw_error l e s) = 0) by (destruct e; reflexivity). rewrite H.
  cbn [Nat.eqb]. rewrite position_ok. cbv zeta. eexists. split; [reflexivity|].
  cbn [pe_input pe_starts pe_pos pe_got pe_line pe_column]. rewrite position_ok. cbv zeta. repeat split.
Qed.
