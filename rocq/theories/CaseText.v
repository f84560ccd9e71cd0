(** Proofs for C24: the items of two inputs that differ in the letter case of keywords, and what parsing them gives. *)
From Coq Require Import String Ascii List Arith Bool Lia ZArith.
From Verif Require Import Str Keyword Lexer LexSpec StrFacts LexFacts LexRun LexGrammar LexTokens LexProps Ast AstPos AstSubs Prog Items ItemsFacts RunFacts
  ParserCommon ParserExpr ParserQuery ParserTable ParserAlter ParserView ParserSystem Parser Source SourceFacts ErrorRender ErrorFacts ParserApi ParseFacts
  LayoutSpec LayoutFacts LayoutParse StmtsFacts Recase CaseSpec CaseRel CaseFold CaseItem CaseCommon CaseExpr CaseQuery CaseTable CaseAlter CaseView CaseSystem CaseStmt.
Import ListNotations.
Local Open Scope string_scope.
Local Open Scope nat_scope.
#[local] Arguments is_keyword : simpl never.
#[local] Arguments layout : simpl never.

(** ** All recursive calls *)

Lemma all_calls f : calls f.
Proof.
  induction f as [|f Hc]; intros n n' s t Hn Hs; [exact I|].
  change (orel (run body (S f) (body n) s) (run body (S f) (body n') t)).
  revert s t Hs. change (@sim f _ _ (body n) (body n')).
  destruct n, n'; try discriminate Hn; cbn [nnt] in Hn; cbn [body]; try (injection Hn; intros; subst); auto with case.
Qed.

(** ** The lexer *)

Lemma operand_prev p q : (operand p <-> operand q) -> forall w t r, lexeme p w t r -> lexeme q w t r.
Proof.
  intros E w t r H. inversion H; subst; try (now constructor).
  - constructor; auto. intuition.
  - constructor; auto. intros Hc. destruct (H4 Hc); [left; now apply E | now right].
Qed.
Lemma recased_prev p q : (operand p <-> operand q) -> forall s s', recased p s s' -> recased q s s'.
Proof.
  intros E s s' H. inversion H; subst.
  - constructor.
  - eapply RC_same; eauto; eapply operand_prev; eauto.
  - eapply RC_keyword; eauto.
Qed.

Lemma upper_app_s a b : upper (a ++ b) = upper a ++ upper b. Proof. apply upper_append. Qed.
Lemma recased_upper p s s' : recased p s s' -> upper s = upper s'.
Proof.
  induction 1 as [|p g w t r r' Hg H1 H2 _ IH|p g w w' r r' Hg H1 H2 H3 H4 Hu Hk Hn _ IH]; [reflexivity| |]; rewrite !upper_app_s, IH; [reflexivity|].
  now rewrite Hu.
Qed.
Lemma length_of_upper s s' : upper s = upper s' -> String.length s = String.length s'.
Proof. intros H. now rewrite <- (length_upper s), H, length_upper. Qed.
Lemma starts_upper s : forall i, scan_starts i (upper s) = scan_starts i s.
Proof.
  induction s as [|c s IH]; intros i; [reflexivity|]. cbn [upper scan_starts]. rewrite IH.
  assert (E : Ascii.eqb (upper_char c) newline = Ascii.eqb c newline) by (destruct c as [[] [] [] [] [] [] [] []]; reflexivity).
  now rewrite E.
Qed.

Lemma lex1_prev p q s : has_precedence_token p = has_precedence_token q -> lex1 p s = lex1 q s.
Proof. intros H. unfold lex1. destruct (layout Plain s) as [k [|]]; [reflexivity|]. f_equal. unfold lex_token. now rewrite H. Qed.

(** Where the token of a lexeme starts and ends. *)
Definition lead_of (t : tok) : nat := if String.eqb (t_kind t) KString || (2 <=? t_quote t) then 1 else 0.
Lemma lexeme_at pre prev w t r : lexeme (option_map tok_of prev) w t r ->
  exists t', consume (pre ++ w ++ r) (mkL (String.length pre) prev) = LVal (mkL (String.length pre + String.length w) (Some t'), None) /\
    tok_of t' = t /\ tpos t' = String.length pre + lead_of t /\ tend t' = tpos t' + String.length (t_str t).
Proof.
  intros H. destruct (lexeme_read pre prev w t r H) as (t' & Hc & Ht). exists t'. split; [exact Hc|]. split; [exact Ht|].
  destruct (consume_ok (pre ++ w ++ r) (mkL (String.length pre) prev)) as (s' & e & Hc' & Hle & Hm); [cbn [off]; rewrite slen_app; lia|].
  rewrite Hc in Hc'. injection Hc' as <- <-. cbn [cur off] in Hm, Hle. destruct Hm as (M1 & M2 & M3 & M4 & M5 & _).
  assert (Hlen : String.length (t_str t) = tend t' - tpos t').
  { subst t. cbn [tok_of t_str]. rewrite M5, substring_stake, stake_length; [reflexivity|]. rewrite sdrop_length, !slen_app in *. lia. }
  assert (Hplain : String.length w = String.length (t_str t) -> lead_of t = 0 -> tpos t' = String.length pre + lead_of t /\ tend t' = tpos t' + String.length (t_str t)) by (intros; lia).
  inversion H as [n base f r' Hn Hr Hp|b r' Hb Hr|q b r' Hq Hb|w' r' Hw Hr|w' r' Hw|c r' Hc2 H2 Hm2 Hs Hg]; subst w.
  - match goal with E : mkTok _ _ _ _ = t |- _ => rewrite E; apply Hplain; rewrite <- E end; [reflexivity | now destruct f].
  - replace (("'" ++ b ++ "'") ++ r) with ("'" ++ b ++ "'" ++ r) in Hc by (cbn; now rewrite sapp_assoc).
    rewrite (string_accept pre b r prev Hb Hr) in Hc. injection Hc as _ <-; cbn; lia.
  - replace (String q (b ++ String q "") ++ r) with (String q (b ++ String q r)) in Hc by (cbn; now rewrite sapp_assoc).
    rewrite (quoted_accept pre q b r prev Hq Hb) in Hc. injection Hc as _ <-; destruct Hq; subst q; cbn; lia.
  - match goal with E : mkTok _ _ _ _ = t |- _ => rewrite E; apply Hplain; rewrite <- E end; [reflexivity | destruct (is_keyword _); reflexivity].
  - match goal with E : mkTok _ _ _ _ = t |- _ => rewrite E; apply Hplain; rewrite <- E end; [reflexivity | ]. unfold two_char in Hw. cbn in Hw. intuition (subst; reflexivity).
  - match goal with E : mkTok _ _ _ _ = t |- _ => rewrite E; apply Hplain; rewrite <- E end; [reflexivity | ]. unfold lead_of. cbn [t_kind t_quote]. destruct c as [[] [] [] [] [] [] [] []]; reflexivity.
Qed.

(** ** The states of the lexer *)

Definition twin (a b : option token) : Prop :=
  match a, b with
  | Some t, Some u => tpos t = tpos u /\ tend t = tend u /\ ntok (tok_of t) = ntok (tok_of u)
  | None, None => True
  | _, _ => False
  end.
Lemma twin_operand a b : twin a b -> has_precedence_token a = has_precedence_token b.
Proof.
  destruct a as [t|], b as [u|]; cbn [twin]; intros H; try contradiction; [|reflexivity]. destruct H as (_ & _ & H).
  pose proof (kind_rel _ _ H) as Hk. cbn [tok_of t_kind] in Hk. unfold has_precedence_token. now rewrite Hk.
Qed.
Lemma twin_refl a : twin a a. Proof. destruct a; cbn; auto. Qed.

Section Two.
  Context (s1 s2 : string) (Hlen : String.length s1 = String.length s2).

  Definition Inv (a b : lstate) : Prop :=
    off a = off b /\ twin (cur a) (cur b) /\
    exists pre1 pre2 r1 r2, s1 = pre1 ++ r1 /\ s2 = pre2 ++ r2 /\ String.length pre1 = off a /\ String.length pre2 = off b /\
      recased (option_map tok_of (cur a)) r1 r2.

  Lemma inv_step a b : Inv a b -> exists a' b' e, consume s1 a = LVal (a', e) /\ consume s2 b = LVal (b', e) /\ Inv a' b'.
  Proof.
    intros (Ho & Ht & pre1 & pre2 & r1 & r2 & E1 & E2 & L1 & L2 & Hr).
    assert (Hp : operand (option_map tok_of (cur a)) <-> operand (option_map tok_of (cur b))) by (rewrite <- !operand_iff, (twin_operand _ _ Ht); tauto).
    destruct a as [o c1], b as [o2 c2]. cbn [off cur] in *. subst o2.
    inversion Hr as [p r|p g w t r r' Hg Hw Hw' Hn|p g w w' r r' Hg Hw Hw' He He' Hu Hk Hc Hn]; subst p.
    - subst r r2. rewrite !consume_eq. cbn [off cur].
      assert (D1 : sdrop o s1 = r1) by (rewrite E1, <- L1; apply sdrop_app_exact). assert (D2 : sdrop o s2 = r1) by (rewrite E2, <- L2; apply sdrop_app_exact). rewrite D1, D2.
      rewrite (lex1_prev c1 c2 r1) by (now apply twin_operand). unfold to_lout.
      do 3 eexists. split; [reflexivity|]. split; [reflexivity|]. split; [reflexivity|]. split; [apply twin_refl|].
      destruct (lex1_ok c2 r1) as [Hx _]. cbn [off cur].
      exists (pre1 ++ stake (lx_len (lex1 c2 r1)) r1), (pre2 ++ stake (lx_len (lex1 c2 r1)) r1), (sdrop (lx_len (lex1 c2 r1)) r1), (sdrop (lx_len (lex1 c2 r1)) r1).
      rewrite !sapp_assoc, !stake_sdrop, !slen_app, !stake_length by exact Hx. repeat split; try assumption; try lia. constructor.
    - subst r1 r2. pose proof (operand_prev _ _ Hp _ _ _ Hw') as Hw2.
      assert (D1 : consume s1 (mkL o c1) = consume ((pre1 ++ g) ++ w ++ r) (mkL (String.length (pre1 ++ g)) c1)) by (rewrite E1, <- L1; now apply gap_skip).
      assert (D2 : consume s2 (mkL o c2) = consume ((pre2 ++ g) ++ w ++ r') (mkL (String.length (pre2 ++ g)) c2)) by (rewrite E2, <- L2; now apply gap_skip).
      rewrite D1, D2. destruct (lexeme_at (pre1 ++ g) c1 w t r Hw) as (t1 & C1 & T1 & P1 & N1). rewrite C1.
      destruct (lexeme_at (pre2 ++ g) c2 w t r' Hw2) as (t2 & C2 & T2 & P2 & N2). rewrite C2.
      do 3 eexists. split; [reflexivity|]. split; [reflexivity|]. rewrite !slen_app in *. split; [cbn; lia|]. split; [cbn; repeat split; [lia|lia|congruence]|].
      exists ((pre1 ++ g) ++ w), ((pre2 ++ g) ++ w), r, r'. rewrite !sapp_assoc, !slen_app. cbn [off cur option_map]. rewrite T1. repeat split; try reflexivity; try lia; assumption.
    - subst r1 r2. pose proof (length_of_upper _ _ Hu) as Hlw.
      assert (D1 : consume s1 (mkL o c1) = consume ((pre1 ++ g) ++ w ++ r) (mkL (String.length (pre1 ++ g)) c1)) by (rewrite E1, <- L1; now apply gap_skip).
      assert (D2 : consume s2 (mkL o c2) = consume ((pre2 ++ g) ++ w' ++ r') (mkL (String.length (pre2 ++ g)) c2)) by (rewrite E2, <- L2; now apply gap_skip).
      rewrite D1, D2. rewrite (word_accept (pre1 ++ g) w r c1 Hw He).
      rewrite (word_accept (pre2 ++ g) w' r' c2 Hw' He').
      do 3 eexists. split; [reflexivity|]. split; [reflexivity|]. rewrite !slen_app in *. rewrite <- Hu, Hk. split; [cbn; lia|]. split.
      + cbn [cur twin tpos tend]. split; [lia|]. split; [lia|]. unfold ntok, tok_of. cbn [tkind tstr tbase tquote t_kind t_str t_base t_quote].
        rewrite String.eqb_refl. cbn [andb]. f_equal. change (QUnquoted <=? 1) with true. cbv iota. unfold recase. rewrite <- Hu, Hk.
        assert (Hs : str_in (upper w) cased = false) by (destruct (str_in (upper w) cased) eqn:E; [apply str_in_In in E; contradiction | reflexivity]). now rewrite Hs.
      + exists ((pre1 ++ g) ++ w), ((pre2 ++ g) ++ w'), r, r'. rewrite !sapp_assoc, !slen_app. cbn [off cur option_map tok_of tkind tstr tbase tquote].
        repeat split; try reflexivity; try lia; assumption.
  Qed.

  Definition alike (x y : lstate * option string) : Prop := off (fst x) = off (fst y) /\ twin (cur (fst x)) (cur (fst y)) /\ snd x = snd y.

  Lemma states_alike n : forall a b e l, Inv a b -> states_from n s1 a e = LVal l -> exists l', states_from n s2 b e = LVal l' /\ Forall2 alike l l'.
  Proof.
    induction n as [|n IH]; intros a b e l Hi H; cbn [states_from] in *; [discriminate|].
    destruct (inv_step a b Hi) as (a' & b' & e' & C1 & C2 & Hi'). rewrite C1 in H. rewrite C2. cbn [lbind] in *.
    assert (Hs : stuck a a' e e' = stuck b b' e e').
    { destruct Hi as (O1 & T1 & _), Hi' as (O2 & _). unfold stuck. rewrite O1, O2. destruct (cur a), (cur b); cbn in T1; try contradiction; reflexivity. }
    rewrite <- Hs. destruct (stuck a a' e e'); [injection H as <-; exists []; auto|].
    destruct (states_from n s1 a' e') as [m| |] eqn:E; try discriminate. cbn [lbind] in H. injection H as <-.
    destruct (IH a' b' e' m Hi' E) as (m' & -> & Hm). cbn [lbind]. eexists. split; [reflexivity|]. constructor; [|exact Hm].
    destruct Hi' as (O & T & _). repeat split; assumption.
  Qed.

  Lemma items_alike l l' : Forall2 alike l l' -> forall id, map nit (number_items s1 id l) = map nit (number_items s2 id l').
  Proof.
    induction 1 as [|[a e] [b e'] l l' (Ho & Ht & He) _ IH]; intros id; [reflexivity|]. cbn [number_items map fst snd] in *. rewrite (IH (S id)). f_equal.
    subst e'. unfold item_of, nit. cbn [it_id it_tok it_eof it_err]. unfold is_eof. rewrite Hlen, Ho. f_equal.
    destruct (cur a) as [t|], (cur b) as [u|]; cbn in Ht; try contradiction; [|reflexivity]. cbn [option_map]. f_equal. tauto.
  Qed.
  Lemma spans_alike l l' : Forall2 alike l l' -> spans l = spans l'.
  Proof.
    induction 1 as [|[a e] [b e'] l l' (Ho & Ht & He) _ IH]; [reflexivity|]. cbn [spans map fst] in *. f_equal; [|exact IH].
    unfold state_span. rewrite Ho. destruct (cur a) as [t|], (cur b) as [u|]; cbn in Ht; try contradiction; [|reflexivity]. destruct Ht as (-> & -> & _). reflexivity.
  Qed.
  Lemma pos_alike l l' : Forall2 alike l l' -> forall i j, it_id i = it_id j -> item_pos l i = item_pos l' j.
  Proof.
    intros H i j E. unfold item_pos. rewrite E. generalize (it_id j). clear E i j. induction H as [|[a e] [b e'] l l' (Ho & Ht & He) _ IH]; intros [|k]; cbn [nth_error]; try reflexivity; [|apply IH].
    cbn [fst] in *. unfold state_pos. rewrite Ho. destruct (cur a) as [t|], (cur b) as [u|]; cbn in Ht; try contradiction; [tauto|reflexivity].
  Qed.
End Two.

(** ** Parsing *)

Lemma parse_alike its its' : map nit its = map nit its' -> orel (parse_items its) (parse_items its').
Proof.
  intros H. unfold parse_items. assert (Hl : List.length its = List.length its') by (now rewrite <- (map_length nit its), H, map_length). rewrite <- Hl.
  destruct its as [|i its], its' as [|j its']; try discriminate; [reflexivity|]. cbn [init_pstate].
  assert (Hs : ns (mkP i its []) = ns (mkP j its' [])) by (cbn [map] in H; unfold ns; cbn [here rest memo]; f_equal; congruence).
  unfold parse_fuel. replace (10 * List.length (i :: its) + 10) with (S (10 * List.length (i :: its) + 9)) by lia.
  exact (c_ParseStmts (all_calls _) _ _ Hs).
Qed.

Lemma recased_alike s1 s2 : recased None s1 s2 -> exists l l', states s1 = LVal l /\ states s2 = LVal l' /\ Forall2 alike l l'.
Proof.
  intros H. pose proof (length_of_upper _ _ (recased_upper _ _ _ H)) as Hlen.
  destruct (states_ok s1) as (l & Hl & _). unfold states in *. destruct (states_from _ s1 lex_init None) as [m| |] eqn:E; try discriminate. cbn [lbind] in *. injection Hl as <-.
  assert (Hi : Inv s1 s2 lex_init lex_init) by (split; [reflexivity|]; split; [exact I|]; exists "", "", s1, s2; repeat split; exact H).
  destruct (states_alike s1 s2 Hlen (2 * String.length s1 + 4) lex_init lex_init None m Hi E) as (m' & Hm' & Hf).
  rewrite Hlen in Hm'. rewrite Hm'. cbn [lbind]. do 2 eexists. split; [reflexivity|]. split; [reflexivity|]. constructor; [|exact Hf]. repeat split.
Qed.

Lemma recased_same s1 s2 : recased None s1 s2 -> same_but_case (parse_stmts s1) (parse_stmts s2).
Proof.
  intros H. pose proof (recased_upper _ _ _ H) as Hu. pose proof (length_of_upper _ _ Hu) as Hlen.
  destruct (recased_alike s1 s2 H) as (l & l' & E1 & E2 & Hf).
  assert (Hok : parse_stmts s1 <> Diverged) by (intros E; pose proof (api_ok s1 l E1) as Hok; now rewrite E in Hok).
  unfold parse_stmts in *. rewrite (api_eq s1 l E1) in *. rewrite (api_eq s2 l' E2).
  pose proof (parse_alike _ _ (items_alike s1 s2 Hlen l l' Hf 0)) as Hp.
  assert (Hn : newLineStarts s1 = newLineStarts s2) by (unfold newLineStarts; now rewrite <- (starts_upper s1), Hu, starts_upper).
  destruct (parse_items (number_items s1 0 l)) as [y s|e s|z|], (parse_items (number_items s2 0 l')) as [y' s'|e' s'|z'|]; cbn [orel] in Hp; try contradiction; try congruence.
  - cbn [same_but_case]. split; [exact (proj1 Hp)|now apply spans_alike].
  - destruct Hp as [He Hs]. unfold wrapError. assert (Hz : forall l e s, pe_line (raw_error (item_pos l) e s) = 0) by (intros ? [] ?; reflexivity). rewrite !Hz. cbn [Nat.eqb].
    pose proof (pos_alike l l' Hf) as Hpos.
    assert (Hr : pe_pos (raw_error (item_pos l) e s) = pe_pos (raw_error (item_pos l') e' s') /\ pe_expected (raw_error (item_pos l) e s) = pe_expected (raw_error (item_pos l') e' s') /\
      pe_keyword (raw_error (item_pos l) e s) = pe_keyword (raw_error (item_pos l') e' s') /\ pe_msg (raw_error (item_pos l) e s) = pe_msg (raw_error (item_pos l') e' s') /\
      option_map ntok (pe_got (raw_error (item_pos l) e s)) = option_map ntok (pe_got (raw_error (item_pos l') e' s'))).
    { assert (Hi : forall i j, nit i = nit j -> item_pos l i = item_pos l' j /\ option_map ntok (it_tok i) = option_map ntok (it_tok j)).
      { intros i j E. split; [apply Hpos; exact (f_equal it_id E) | exact (f_equal it_tok E)]. }
      destruct e as [i k|i k|i m|m], e' as [j k'|j k'|j m'|m']; cbn [nerr] in He; try discriminate He; cbn [raw_error pe_pos pe_expected pe_keyword pe_msg pe_got].
      1-3: assert (Hij : nit i = nit j) by congruence; destruct (Hi _ _ Hij) as [-> ->]; repeat split; congruence.
      destruct (Hi _ _ (f_equal here Hs)) as [-> ->]. repeat split; congruence. }
    destruct Hr as (R1 & R2 & R3 & R4 & R5). rewrite <- Hn, <- R1. rewrite position_ok. cbv zeta. cbn [same_but_case pe_pos pe_line pe_column pe_got pe_expected pe_keyword pe_msg].
    repeat split; assumption.
Qed.
