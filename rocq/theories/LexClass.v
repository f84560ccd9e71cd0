(** Every input is a source, or starts like one up to a lexeme that cannot be read. *)
From Coq Require Import String Ascii List Arith Bool Lia.
From Verif Require Import Str Keyword Lexer LexSpec StrFacts LexFacts LexRun LexGrammar LexTokens LexProps Ast Prog Items ItemsFacts
  LayoutSpec LayoutFacts.
Import ListNotations.
Local Open Scope string_scope.
Local Open Scope nat_scope.
#[local] Arguments is_keyword : simpl never.
#[local] Arguments layout : simpl never.

Lemma close_split u :
  (exists t r, u = t ++ "*/" ++ r /\ forall a b, t ++ "*" <> a ++ "*/" ++ b) \/ (forall a b, u <> a ++ "*/" ++ b).
Proof.
  induction u as [|c u IH].
  - right. intros [|x a] b; discriminate.
  - destruct (ascii_dec c "*") as [->|Hc]; [destruct u as [|d u]; [|destruct (ascii_dec d "/") as [->|Hd]]|].
    + right. intros [|x [|y a]] b; discriminate.
    + left. exists "", u. split; [reflexivity|]. intros [|x [|y a]] b; discriminate.
    + destruct IH as [(t & r & Ht & H)|H].
      * left. exists (String "*" t), r. split; [cbn; f_equal; exact Ht|]. intros [|x a] b E; [|injection E as _ E; exact (H a b E)].
        destruct t as [|y t]; cbn in E; [discriminate|]. injection E as -> _. cbn in Ht. injection Ht as -> _. exact (Hd eq_refl).
      * right. intros [|x a] b E; injection E; [intros _ E1; exact (Hd E1) | intros E1 _; exact (H a b E1)].
    + destruct IH as [(t & r & -> & H)|H].
      * left. exists (String c t), r. split; [reflexivity|]. intros [|x a] b E; [|injection E as _ E; exact (H a b E)].
        cbn in E. injection E as E _. exact (Hc E).
      * right. intros [|x a] b E; injection E; [intros _ E1; exact (Hc E1) | intros E1 _; exact (H a b E1)].
Qed.

Lemma gap_app a b : gap a -> gap b -> gap (a ++ b).
Proof.
  induction 1 as [|c g Hc _ IH|c d g Hc _ IH|c d e g Hc _ IH|t c g Ht Hc _ IH|t g Ht _ IH]; intros Hb; cbn [append]; auto using gap.
  - replace ((t ++ String c g) ++ b) with (t ++ String c (g ++ b)) by (now rewrite sapp_assoc). apply (G_line t c (g ++ b)); auto.
  - replace ((t ++ String "*" (String "/" g)) ++ b) with (t ++ "*/" ++ (g ++ b)) by (now rewrite sapp_assoc). apply (G_block t (g ++ b)); auto.
Qed.

Definition laid (s : string) : Prop :=
  end_gap s \/ (exists g r, s = g ++ r /\ gap g /\ r <> "" /\ layout Plain r = (0, false)) \/
  (exists g u, s = g ++ "/*" ++ u /\ gap g /\ forall a b, u <> a ++ "*/" ++ b).

Lemma laid_app a s : gap a -> laid s -> laid (a ++ s).
Proof.
  intros Ha [H|[(g & r & -> & Hg & Hr)|(g & u & -> & Hg & Hu)]].
  - left. destruct H as [g Hg|g t Hg Ht]; [constructor; now apply gap_app|]. rewrite <- sapp_assoc. constructor; [now apply gap_app | exact Ht].
  - right. left. exists (a ++ g), r. rewrite sapp_assoc. split; [reflexivity|]. split; [now apply gap_app | exact Hr].
  - right. right. exists (a ++ g), u. rewrite sapp_assoc. split; [reflexivity|]. split; [now apply gap_app | exact Hu].
Qed.

Lemma laid_all : forall n s, String.length s <= n -> laid s.
Proof.
  induction n as [|n IH]; intros s Hn; [destruct s; [left; constructor; constructor | cbn in Hn; lia]|].
  destruct s as [|c s]; [left; constructor; constructor|]. cbn [String.length] in Hn.
  destruct (ws1 c) eqn:E1.
  { apply (laid_app (String c "") s); [constructor; [exact E1 | constructor] | apply IH; lia]. }
  assert (Hself : forall r, layout Plain (String c r) = (0, false) -> laid (String c r)).
  { intros r Hr. right. left. exists "", (String c r). repeat split; auto using gap. discriminate. }
  destruct s as [|d s]; [apply Hself; unfold layout; fold layout; now rewrite E1|]. cbn [String.length] in Hn.
  destruct (Ascii.eqb c "-" && Ascii.eqb d "-") eqn:E2.
  { apply andb_true_iff in E2 as [Ec Ed]. apply Ascii.eqb_eq in Ec, Ed. subst c d.
    destruct (span_split (fun c => negb (is_nl c)) s) as (a & r & -> & Ha & Hr & _). destruct r as [|x r].
    - left. rewrite sapp_nil. apply (E_line "" a); [constructor | exact Ha].
    - cbn in Hr. apply negb_false_iff in Hr. replace (String "-" (String "-" (a ++ String x r))) with (("--" ++ a ++ String x "") ++ r) by (cbn; now rewrite sapp_assoc).
      apply laid_app; [apply G_line; auto using gap|]. apply IH. rewrite slen_app in Hn. cbn in Hn. lia. }
  destruct (Ascii.eqb c "/" && Ascii.eqb d "*") eqn:E3.
  { apply andb_true_iff in E3 as [Ec Ed]. apply Ascii.eqb_eq in Ec, Ed. subst c d.
    destruct (close_split s) as [(t & r & -> & Ht)|Hu].
    - replace (String "/" (String "*" (t ++ "*/" ++ r))) with (("/*" ++ t ++ "*/" ++ "") ++ r) by (cbn; now rewrite sapp_assoc).
      apply laid_app; [apply G_block; auto using gap|]. apply IH. rewrite !slen_app in Hn. cbn in Hn. lia.
    - right. right. exists "", s. split; [reflexivity|]. split; [constructor | exact Hu]. }
  destruct (ws2 c d) eqn:E4.
  { apply (laid_app (String c (String d "")) s); [constructor; [exact E4 | constructor] | apply IH; lia]. }
  destruct s as [|e s]; [apply Hself; unfold layout; fold layout; now rewrite E1, E2, E3, E4|]. cbn [String.length] in Hn.
  destruct (ws3 c d e) eqn:E5.
  { apply (laid_app (String c (String d (String e ""))) s); [constructor; [exact E5 | constructor] | apply IH; lia]. }
  apply Hself. unfold layout. fold layout. now rewrite E1, E2, E3, E4, E5.
Qed.

Lemma operand_dec prev : operand prev \/ ~ operand prev.
Proof.
  destruct prev as [t|]; cbn [operand]; [|right; tauto].
  destruct (in_dec string_dec (t_kind t) [KIdent; KKeyword; KInt; KFloat; KString; ")"; "]"]); [left | right]; assumption.
Qed.

Lemma number_split prev c s : starts_number (String c s) = true -> is_digit c = true \/ (c = "+"%char \/ c = "-"%char) /\ head_is is_digit s = true /\ ~ operand prev ->
  (exists w t r, String c s = w ++ r /\ lexeme prev w t r) \/ malformed prev (String c s).
Proof.
  intros Hs Hc. destruct (lx_tok (lex_number (String c s))) as [t|] eqn:E.
  - destruct (number_tok _ _ Hs E) as (n & base & f & r & H1 & H2 & H3 & _). left. rewrite H1. do 3 eexists. split; [reflexivity|].
    apply (L_number prev n base f r H2 H3). destruct Hc as [Hc|(_ & _ & Ho)]; [left | right; exact Ho].
    destruct n as [|x n]; [|injection H1 as <- _; exact Hc].
    exfalso. assert (Hz : exists o, ~ operand o /\ True) by (exists None; cbn; tauto). destruct Hz as (o & Ho & _).
    exact (lexeme_ne o "" _ r (L_number o "" base f r H2 H3 (or_intror Ho)) eq_refl).
  - right. apply M_number; [exact Hc|]. intros n base f r Hn Hr Heq. rewrite Heq, (lex_number_complete n base f r Hn Hr) in E. discriminate.
Qed.

Lemma token_split prev s : s <> "" -> layout Plain s = (0, false) ->
  (exists w t r, s = w ++ r /\ lexeme prev w t r) \/ malformed prev s \/ unclosed s.
Proof.
  intros Hne Hl. destruct s as [|c s]; [congruence|]. clear Hne.
  assert (Hgap : forall g r, gap g -> String c s = g ++ r -> g = "").
  { intros g r Hg E. rewrite E, gap_layout in Hl by exact Hg. destruct (layout Plain r) as [k b]. unfold bump in Hl. cbn in Hl.
    injection Hl as Hl _. destruct g; [reflexivity | cbn in Hl; lia]. }
  destruct (is_digit c) eqn:Ed.
  { destruct (number_split prev c s) as [H|H]; [cbn; now rewrite Ed | now left | now left | right; now left]. }
  destruct (in_dec string_dec (String c (first s)) two_char) as [H2|H2].
  { left. exists (String c (first s)). destruct s as [|d s].
    - exfalso. unfold two_char in H2. cbn in H2. repeat (destruct H2 as [H2|H2]; [discriminate|]). exact H2.
    - cbn [first] in *. do 2 eexists. split; [|apply L_two; exact H2]. reflexivity. }
  assert (Hsign : (c = "-"%char \/ c = "+"%char) -> head_is is_digit s = true -> ~ operand prev ->
     (exists w t r, String c s = w ++ r /\ lexeme prev w t r) \/ malformed prev (String c s) \/ unclosed (String c s)).
  { intros Hc Hd Ho. destruct (number_split prev c s) as [H|H]; [| |now left | right; now left].
    - cbn. rewrite Hd. destruct Hc as [-> | ->]; reflexivity.
    - right. split; [tauto | auto]. }
  destruct (is_ident_start c) eqn:Ei.
  { left. destruct (lex_bare_sound (String c s)) as (w & r & H & Hw & Hr); [cbn; now rewrite Ei|]. rewrite H. do 3 eexists. split; [reflexivity | now apply L_word]. }
  destruct (ascii_dec c "$") as [->|Hdol].
  { left. destruct (lex_bare_sound (String "$" s)) as (w & r & H & Hw & Hr); [reflexivity|]. rewrite H. do 3 eexists. split; [reflexivity | now apply L_word]. }
  assert (Hquo : (c = "`"%char \/ c = ch 34) ->
     (exists w t r, String c s = w ++ r /\ lexeme prev w t r) \/ malformed prev (String c s) \/ unclosed (String c s)).
  { intros Hq. destruct (span_split (fun x => negb (Ascii.eqb x c)) s) as (a & r & -> & Ha & Hr & _). destruct r as [|x r].
    - right. right. rewrite sapp_nil. now apply U_quoted.
    - cbn in Hr. apply negb_false_iff, Ascii.eqb_eq in Hr. subst x. left. exists (String c (a ++ String c "")). eexists. exists r.
      split; [cbn; now rewrite sapp_assoc|]. now apply L_quoted. }
  destruct (ascii_dec c "`") as [->|Hb]; [apply Hquo; now left|].
  destruct (ascii_dec c (ch 34)) as [->|Hdq]; [apply Hquo; now right|]. clear Hquo.
  destruct (ascii_dec c "'") as [->|Hsq].
  { pose proof (str_body_split _ s (le_n _)) as Hs. destruct (sdrop (str_body s) s) as [|x r].
    - right. left. apply M_string. exact Hs.
    - destruct Hs as (b & Hs & Ht & Hr & _). left. exists ("'" ++ b ++ "'"). eexists. exists r. split; [|now apply L_string].
      cbn. rewrite sapp_assoc. cbn. now rewrite <- Hs. }
  destruct (Nat.le_gt_cases 128 (byte_of c)) as [Hhi|Hlo]; [right; left; now apply M_byte|].
  assert (Hone : ~ ((c = "-"%char \/ c = "+"%char) /\ head_is is_digit s = true /\ ~ operand prev) ->
     exists w t r, String c s = w ++ r /\ lexeme prev w t r).
  { intros Hn. exists (String c ""). eexists. exists s. split; [reflexivity|]. apply L_one; [|exact H2| | |].
    - split; [exact Hlo|]. split; [|split; [exact Ed|]; split; [exact Ei|]; intros Hin; cbn [In] in Hin; intuition congruence].
      destruct (ws1 c) eqn:E; [|reflexivity]. exfalso. assert (String c "" = "") by (apply (Hgap _ s); [constructor; [exact E | constructor] | reflexivity]). discriminate.
    - intros -> [r ->]. destruct (span_split (fun c => negb (is_nl c)) r) as (a & r' & -> & Ha & Hr & _). destruct r' as [|x r'].
      + rewrite sapp_nil in Hl. rewrite (end_gap_layout (String "-" (String "-" a)) (E_line "" a G_nil Ha)) in Hl. discriminate.
      + cbn in Hr. apply negb_false_iff in Hr. assert (H : "--" ++ a ++ String x "" = ""); [|discriminate].
        apply (Hgap _ r'); [now apply G_line; auto using gap | cbn; now rewrite sapp_assoc].
    - intros -> [r ->]. destruct (close_split r) as [(t & r' & -> & Ht)|Hu].
      + assert (H : "/*" ++ t ++ "*/" ++ "" = ""); [|discriminate]. apply (Hgap _ r'); [now apply G_block; auto using gap | cbn; now rewrite sapp_assoc].
      + change (layout Plain (String "/" (String "*" r))) with (bump 2 (layout InBlock r)) in Hl. destruct (layout InBlock r); discriminate.
    - intros Hc. destruct (operand_dec prev) as [Ho|Ho]; [now left|]. right. destruct (head_is is_digit s); [exfalso; apply Hn; auto | reflexivity]. }
  destruct (operand_dec prev) as [Ho|Ho]; [left; apply Hone; tauto|].
  destruct (head_is is_digit s) eqn:Eh; [|left; apply Hone; intuition congruence].
  destruct (ascii_dec c "-") as [->|Hm]; [apply Hsign; auto|]. destruct (ascii_dec c "+") as [->|Hp]; [apply Hsign; auto|].
  left. apply Hone. tauto.
Qed.

Lemma lexable : forall n src prev, String.length src <= n ->
  (exists ts closed, source prev ts closed src) \/
  (exists ts g bad, begins prev ts (g ++ bad) src /\ gap g /\ (malformed (last_tok prev ts) bad \/ unclosed bad)).
Proof.
  induction n as [|n IH]; intros src prev Hn; [destruct src; [left; do 2 eexists; repeat constructor | cbn in Hn; lia]|].
  destruct (laid_all _ src (le_n _)) as [H|[(g & r & -> & Hg & Hne & Hl)|(g & u & -> & Hg & Hu)]].
  - left. do 2 eexists. now constructor.
  - destruct (token_split prev r Hne Hl) as [(w & t & r' & -> & Hw)|Hb].
    + pose proof (lexeme_ne _ _ _ _ Hw) as Hwn. rewrite !slen_app in Hn.
      destruct (IH r' (Some t)) as [(ts & cl & Hs)|(ts & g' & bad & Hb & Hg' & Hm)]; [destruct w; [congruence | cbn in Hn; lia]| |].
      * left. exists (t :: ts), cl. now constructor.
      * right. exists (t :: ts), g', bad. split; [now constructor|]. split; [exact Hg'|].
        assert (E : last_tok prev (t :: ts) = last_tok (Some t) ts); [|now rewrite E].
        unfold last_tok. cbn [map last]. destruct ts as [|x ts]; [reflexivity|].
        assert (Hlast : forall l (a b : option tok), l <> [] -> last l a = last l b).
        { induction l as [|y l IHl]; intros a b Hx; [congruence|]. cbn [last]. destruct l; [reflexivity | apply IHl; discriminate]. }
        apply Hlast. discriminate.
    + right. exists [], g, r. split; [constructor|]. split; [exact Hg | exact Hb].
  - right. exists [], g, ("/*" ++ u). split; [constructor|]. split; [exact Hg|]. right. now apply U_comment.
Qed.
