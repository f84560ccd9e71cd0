(** What the layout and the lexemes of an input say about parsing it. *)
From Coq Require Import String Ascii List Arith Bool Lia.
From Verif Require Import Str Keyword Lexer LexSpec StrFacts LexFacts LexRun LexGrammar LexTokens LexProps Ast Prog Items ItemsFacts
  Parser Source SourceFacts ErrorRender ErrorFacts ParserApi ParseFacts LayoutSpec LayoutFacts StmtsFacts.
Import ListNotations.
Local Open Scope string_scope.
Local Open Scope nat_scope.
#[local] Arguments is_keyword : simpl never.
#[local] Arguments layout : simpl never.

(** The same statements (their positions refer to tokens by number), or the same error at
    the same token, or the same crash. *)
Definition same_outcome (a b : result) : Prop :=
  match a, b with
  | Parsed l _, Parsed l' _ => l = l'
  | Failed e, Failed e' => pe_got e = pe_got e' /\ pe_expected e = pe_expected e' /\ pe_keyword e = pe_keyword e' /\ pe_msg e = pe_msg e'
  | Crashed z, Crashed z' => z = z'
  | _, _ => False
  end.

Lemma source_states ts closed s : source None ts closed s -> exists l, states s = LVal l /\
  number_items s 0 l = mkItem 0 None (match ts with [] => closed | _ => false end) None :: expected 1 None ts closed.
Proof. intros H. destruct (states_ok s) as (l & Hl & _). exists ((lex_init, None) :: l). split; [exact Hl | now apply items_source]. Qed.

Lemma source_same ts closed s1 s2 : source None ts closed s1 -> source None ts closed s2 ->
  same_outcome (parse_stmts s1) (parse_stmts s2).
Proof.
  intros H1 H2. destruct (source_states _ _ _ H1) as (l1 & E1 & I1). destruct (source_states _ _ _ H2) as (l2 & E2 & I2).
  assert (Hok : parse_stmts s1 <> Diverged) by (intros E; pose proof (api_ok s1 l1 E1) as Hok; now rewrite E in Hok).
  unfold parse_stmts in *. rewrite (api_eq s1 l1 E1) in *. rewrite (api_eq s2 l2 E2), I2. rewrite I1 in *.
  destruct (parse_items _) as [y s|e s|z|]; try reflexivity; [|congruence].
  unfold wrapError. assert (Hz : forall l, pe_line (raw_error (item_pos l) e s) = 0) by (destruct e; reflexivity). rewrite !Hz.
  cbn [Nat.eqb]. rewrite !position_ok. cbv zeta. cbn [same_outcome pe_got pe_expected pe_keyword pe_msg]. destruct e; repeat split.
Qed.


(** The answers to the requests are the tokens of the source. *)
Lemma source_requests ts closed s : source None ts closed s ->
  forall k, exists a, requests s k = LVal (a, None) /\
    option_map tok_of (cur a) = match k with 0 => None | S j => nth_error ts j end.
Proof.
  intros H k. destruct (source_states _ _ _ H) as (l & E & Hi). rewrite (states_requests s l E k).
  assert (Hx : forall ts id prev j, nth_error (expected id prev ts closed) j = None \/
     exists it, nth_error (expected id prev ts closed) j = Some it /\ it_tok it = nth_error ts j /\ it_err it = None).
  { clear. induction ts as [|t ts IH]; intros id prev j; cbn [expected].
    - destruct prev; [|destruct closed]; destruct j as [|[|j]]; cbn; eauto 6.
    - destruct j as [|j]; cbn [nth_error]; [right; eexists; cbn; auto | apply IH]. }
  assert (Hy : forall ts id prev j, nth_error (expected id prev ts closed) j = None -> nth_error ts j = None).
  { clear. induction ts as [|t ts IH]; intros id prev j H; cbn [expected] in H; [now destruct j|].
    destruct j as [|j]; cbn [nth_error] in *; [discriminate | exact (IH _ _ _ H)]. }
  destruct (nth_error l k) as [[a e]|] eqn:En.
  - rewrite (nth_error_nth _ _ _ En). pose proof (number_items_nth s l 0 k a e En) as Hn. rewrite Hi in Hn.
    exists a. destruct k as [|k]; cbn [nth_error] in Hn.
    + pose proof (f_equal (option_map it_tok) Hn) as H1. pose proof (f_equal (option_map it_err) Hn) as H2. cbn in H1, H2.
      injection H1 as H1. injection H2 as H2. rewrite <- H2. split; [reflexivity | now rewrite <- H1].
    + destruct (Hx ts 1 None k) as [Hn'|(it & Hn' & Ht & He)]; rewrite Hn' in Hn; [discriminate|]. injection Hn as ->.
      unfold item_of in Ht, He. cbn in Ht, He. subst e. auto.
  - rewrite nth_overflow by (now apply nth_error_None).
    assert (Hne : l <> []) by (intros ->; discriminate).
    assert (Hlast : exists a e, last l (lex_init, None) = (a, e) /\ nth_error l (List.length l - 1) = Some (a, e)).
    { destruct (exists_last Hne) as (l' & [a e] & ->). exists a, e. rewrite last_last. split; [reflexivity|].
      rewrite nth_error_app2 by (rewrite app_length; cbn; lia). rewrite app_length. cbn.
      replace (List.length l' + 1 - 1 - List.length l') with 0 by lia. reflexivity. }
    destruct Hlast as (a & e & -> & Hn). pose proof (number_items_nth s l 0 _ a e Hn) as Hl. rewrite Hi in Hl.
    assert (Hlen : List.length l = S (List.length (expected 1 None ts closed))).
    { rewrite <- (number_items_length s l 0), Hi. reflexivity. }
    apply nth_error_None in En. exists a.
    assert (Hno : match k with 0 => None | S j => nth_error ts j end = None).
    { destruct k as [|k]; [reflexivity|]. apply (Hy ts 1 None). apply nth_error_None. lia. }
    rewrite Hno. destruct (List.length l - 1) as [|j] eqn:Ej; cbn [nth_error] in Hl.
    + pose proof (f_equal (option_map it_tok) Hl) as H1. pose proof (f_equal (option_map it_err) Hl) as H2. cbn in H1, H2.
      injection H1 as H1. injection H2 as H2. rewrite <- H2. split; [reflexivity | now rewrite <- H1].
    + assert (Hle : nth_error (expected 1 None ts closed) (S j) = None) by (apply nth_error_None; lia).
      destruct (Hx ts 1 None j) as [Hn'|(it & Hn' & Ht & He)]; rewrite Hn' in Hl; [discriminate|]. injection Hl as ->.
      unfold item_of in Ht, He. cbn in Ht, He. subst e. split; [reflexivity|]. rewrite Ht.
      assert (Hgen : forall ts id prev m, nth_error (expected id prev ts closed) (S m) = None -> nth_error ts m = None \/ exists t, nth_error ts m = Some t /\ S m = List.length ts /\ nth_error (expected id prev ts closed) m <> None).
      { clear. induction ts as [|t ts IH]; intros id prev m H; [left; now destruct m|]. cbn [expected nth_error] in H.
        destruct m as [|m]; [|destruct (IH _ _ _ H) as [IH'|(t' & A & B & C)]; [left; exact IH' | right; exists t'; cbn [nth_error List.length]; auto]].
        destruct ts as [|t' ts]; [discriminate | discriminate]. }
      destruct (Hgen ts 1 None j Hle) as [Hz|(t & Hz & Hlt & _)]; [exact Hz|]. exfalso.
      assert (Hlen2 : List.length (expected 1 None ts closed) = S (List.length ts)).
      { clear -Hlt. assert (G : forall ts id prev, prev <> None \/ ts <> [] -> List.length (expected id prev ts closed) = S (List.length ts)).
        { induction ts0 as [|x ts0 IH]; intros id prev Hp; cbn [expected List.length].
          - destruct prev; [reflexivity | destruct Hp; congruence].
          - rewrite IH; [reflexivity | left; discriminate]. }
        apply G. right. intros ->. discriminate. }
      lia.
Qed.

(** ** Lexemes with layout between them *)

Definition lead (c : ascii) : bool := (byte_of c <=? 32) || (128 <=? byte_of c) || Ascii.eqb c "-" || Ascii.eqb c "/".

Lemma lead_low c : byte_of c <= 32 -> lead c = true.
Proof. intros H. unfold lead. apply Nat.leb_le in H. now rewrite H. Qed.
Lemma lead_high c : 128 <= byte_of c -> lead c = true.
Proof. intros H. unfold lead. apply Nat.leb_le in H. rewrite H. now rewrite orb_true_r. Qed.

Lemma gap_lead g : gap g -> g <> "" -> exists c s, g = String c s /\ lead c = true.
Proof.
  intros Hg Hne. destruct Hg as [|c g Hc _|c d g Hc _|c d e g Hc _|t c g Ht Hc _|t g Ht _]; [congruence| | | | |]; do 2 eexists; (split; [reflexivity|]).
  - apply lead_low. now apply ws1_not.
  - apply lead_high. pose proof (ws2_high _ _ Hc). lia.
  - apply lead_high. pose proof (ws3_high _ _ _ Hc). lia.
  - reflexivity.
  - reflexivity.
Qed.

Lemma end_gap_lead g : end_gap g -> g <> "" -> exists c s, g = String c s /\ lead c = true.
Proof.
  intros [g0 H|g0 t H Ht] Hne; [now apply gap_lead|]. destruct g0 as [|x g0].
  - do 2 eexists. split; reflexivity.
  - destruct (gap_lead _ H ltac:(discriminate)) as (c & s & E & Hc). injection E as -> ->. do 2 eexists. split; [reflexivity | exact Hc].
Qed.

Definition lead_checks (c : ascii) : bool :=
  negb (lead c) || (negb (is_ident_part c) && negb (is_digit c) &&
  negb (existsb (Ascii.eqb c) [">"%char; "="%char; "|"%char; ":"%char; "'"%char; "*"%char; "."%char])).

Lemma lead_checked : forall c, lead_checks c = true.
Proof. intros [[] [] [] [] [] [] [] []]; vm_compute; reflexivity. Qed.

Lemma lead_not c : lead c = true -> is_ident_part c = false /\ is_digit c = false /\
  ~ In c [">"%char; "="%char; "|"%char; ":"%char; "'"%char; "*"%char; "."%char].
Proof.
  intros H. pose proof (lead_checked c) as Hc. unfold lead_checks in Hc. rewrite H in Hc. cbn [negb orb] in Hc.
  apply andb_true_iff in Hc as [Hc H3]. apply andb_true_iff in Hc as [H1 H2]. apply negb_true_iff in H1, H2, H3.
  repeat split; auto. intros Hin. assert (E : existsb (Ascii.eqb c) [">"%char; "="%char; "|"%char; ":"%char; "'"%char; "*"%char; "."%char] = true).
  { apply existsb_exists. exists c. split; [exact Hin | apply Ascii.eqb_refl]. }
  congruence.
Qed.

Lemma lexeme_lead prev w t c s : lexeme prev w t "" -> lead c = true -> (t_kind t = "-" -> c <> "-"%char) -> lexeme prev w t (String c s).
Proof.
  intros H Hl Hm. destruct (lead_not c Hl) as (H1 & H2 & H3).
  inversion H as [n base f r' Hn Hr Hp|b r' Hb Hr|q b r' Hq Hb|w' r' Hw Hr|w' r' Hw|x r' Hx Hx2 Hx3 Hx4 Hg]; subst.
  - constructor; auto. cbn. split; [exact H1|]. intros ->. apply H3. cbn. tauto.
  - constructor; auto. intros [r [= -> _]]. apply H3. cbn. tauto.
  - now constructor.
  - constructor; auto.
  - now constructor.
  - constructor; auto.
    + cbn [first]. intros Hin. apply H3. unfold two_char in Hin. cbn in Hin. 
      repeat (destruct Hin as [Hin|Hin]; [injection Hin as _ <-; cbn; tauto|]). destruct Hin.
    + intros -> [r [= -> _]]. now apply Hm.
    + intros -> [r [= -> _]]. apply H3. cbn. tauto.
Qed.

Lemma spaced_lead prev ts closed s : spaced prev ts closed s -> prev <> None -> s <> "" ->
  exists c r, s = String c r /\ lead c = true /\ (option_map t_kind prev = Some "-" -> c <> "-"%char).
Proof.
  intros H Hp Hs. destruct H as [p g Hg Hm|p g w t ts' cl r Hg Hne Hm Hw _].
  - destruct (end_gap_lead g Hg Hs) as (c & r & -> & Hc). exists c, r. repeat split; auto. intros E ->. apply (Hm E). now exists r.
  - destruct Hne as [Hne|Hne]; [contradiction|]. destruct (gap_lead g Hg Hne) as (c & r' & -> & Hc). exists c, (r' ++ w ++ r). repeat split; auto.
    intros E ->. apply (Hm E). now exists r'.
Qed.

Lemma spaced_source prev ts closed s : spaced prev ts closed s -> source prev ts closed s.
Proof.
  induction 1 as [p g Hg Hm|p g w t ts' cl r Hg Hne Hm Hw Hr IH]; [now constructor|]. apply S_lexeme; auto.
  destruct r as [|c r]; [exact Hw|].
  destruct (spaced_lead _ _ _ _ Hr ltac:(discriminate) ltac:(discriminate)) as (c' & r' & [= <- <-] & Hl & Hd).
  apply lexeme_lead; auto. intros E. apply Hd. cbn. now rewrite E.
Qed.

(** ** Malformed lexemes *)

Lemma last_tok_cons prev t ts : last_tok (Some t) ts = last_tok prev (t :: ts).
Proof.
  unfold last_tok. cbn [map last]. destruct ts as [|u ts]; [reflexivity|].
  assert (H : forall l (a b : option tok), l <> [] -> last l a = last l b).
  { induction l as [|x l IH]; intros a b Hl; [congruence|]. cbn [last]. destruct l; [reflexivity | apply IH; discriminate]. }
  apply H. discriminate.
Qed.

Lemma begins_requests ts : forall prev r src, begins (option_map tok_of prev) ts r src ->
  forall pre k e, requests (pre ++ src) k = LVal (mkL (String.length pre) prev, e) ->
  exists pre' prev' e', pre ++ src = pre' ++ r /\ requests (pre ++ src) (List.length ts + k) = LVal (mkL (String.length pre') prev', e') /\
    option_map tok_of prev' = last_tok (option_map tok_of prev) ts.
Proof.
  induction ts as [|t ts IH]; intros prev r src H pre k e Hk.
  - inversion H; subst. exists pre, prev, e. auto.
  - inversion H as [|p g w t' ts' r0 r' Hg Hw Hb]; subst.
    destruct (lexeme_read (pre ++ g) prev w t r' Hw) as (t' & Hc & Ht). rewrite <- gap_skip in Hc by exact Hg.
    assert (Hin : pre ++ g ++ w ++ r' = ((pre ++ g) ++ w) ++ r') by (now rewrite !sapp_assoc).
    assert (Hk' : requests (((pre ++ g) ++ w) ++ r') (S k) = LVal (mkL (String.length ((pre ++ g) ++ w)) (Some t'), None)).
    { rewrite <- Hin. cbn [requests]. rewrite Hk. cbn [lbind fst]. rewrite Hc. now rewrite (slen_app (pre ++ g) w). }
    rewrite Hin. rewrite <- Ht in Hb. change (Some (tok_of t')) with (option_map tok_of (Some t')) in Hb.
    destruct (IH (Some t') r r' Hb _ _ _ Hk') as (pre' & prev' & e' & E1 & E2 & E3).
    exists pre', prev', e'. split; [exact E1|]. split.
    + replace (List.length (t :: ts) + k) with (List.length ts + S k) by (cbn; lia). exact E2.
    + rewrite E3. cbn [option_map]. rewrite Ht. apply last_tok_cons.
Qed.

Lemma malformed_ne prev s : malformed prev s -> s <> "".
Proof. intros []; discriminate. Qed.

Lemma malformed_weaken prev s : malformed prev s -> malformed None s.
Proof.
  intros [u H|c u [Hc|(Hc & Hd & Ho)] H|c u Hc H]; [now constructor | constructor; auto | | now constructor].
  apply M_number; [right; cbn; auto | exact H].
Qed.

Lemma byte_layout c u : 128 <= byte_of c -> (forall g r, gap g -> String c u = g ++ r -> g = "") -> layout Plain (String c u) = (0, false).
Proof.
  intros Hc H. destruct (high_plain c Hc) as (E1 & E2 & E3). unfold layout. fold layout. rewrite E1, E2, E3. cbn [andb].
  destruct u as [|d u]; [reflexivity|].
  assert (E4 : ws2 c d = false).
  { destruct (ws2 c d) eqn:E; [|reflexivity]. exfalso. assert (String c (String d "") = "") by (apply (H _ u); [constructor; [exact E | constructor] | reflexivity]). discriminate. }
  rewrite E4. destruct u as [|x u]; [reflexivity|].
  assert (E5 : ws3 c d x = false).
  { destruct (ws3 c d x) eqn:E; [|reflexivity]. exfalso. assert (String c (String d (String x "")) = "") by (apply (H _ u); [constructor; [exact E | constructor] | reflexivity]). discriminate. }
  now rewrite E5.
Qed.

Lemma malformed_read pre prev s : malformed (option_map tok_of prev) s ->
  exists e, consume (pre ++ s) (mkL (String.length pre) prev) = LVal (mkL (String.length pre) None, Some e).
Proof.
  intros H. inversion H as [u Hu|c u Hc Hn|c u Hc Hg]; subst.
  - now apply string_reject.
  - apply number_reject; auto.
    + destruct Hc as [Hc|(Hc & Hd & _)]; cbn; [now rewrite Hc|]. destruct u as [|d u]; [discriminate|]. cbn in Hd |- *. rewrite Hd.
      destruct Hc as [-> | ->]; reflexivity.
    + destruct Hc as [Hc|(_ & _ & Ho)]; [left; exact Hc | right; now apply not_operand].
  - rewrite consume_at by (now apply byte_layout). exists "unexpected character".
    assert (Ht : lex_token prev (String c u) = lx_error 0 "unexpected character").
    { unfold lex_token. rewrite !(byte_neq c) by (vm_compute byte_of at 2; lia). cbn [orb]. unfold is_sign. rewrite !(byte_neq c) by (vm_compute byte_of at 2; lia). cbn [orb].
      assert (Hd : is_digit c = false) by (unfold is_digit; destruct (Nat.leb_spec (byte_of c) 57); [lia | apply andb_false_r]).
      rewrite Hd. unfold lex_rest. assert (Hi : is_ident_start c = false) by (destruct (is_ident_start c) eqn:E; [apply start_bytes in E; lia | reflexivity]).
      rewrite Hi. apply Nat.leb_le in Hc. now rewrite Hc. }
    rewrite Ht. unfold to_lout, lx_error. cbn. now rewrite Nat.add_0_r.
Qed.

Lemma malformed_fails ts g bad src : begins None ts (g ++ bad) src -> gap g -> malformed (last_tok None ts) bad ->
  forall stmts sp, parse_stmts src <> Parsed stmts sp.
Proof.
  intros Hb Hg Hm stmts sp Hp.
  destruct (begins_requests ts None (g ++ bad) src Hb "" 0 None eq_refl) as (pre & prev & e & E1 & E2 & E3). cbn [append option_map] in *.
  rewrite Nat.add_0_r in E2. rewrite <- E3 in Hm. set (k := List.length ts) in *.
  destruct (malformed_read (pre ++ g) prev bad Hm) as (e1 & Hc1). rewrite <- gap_skip in Hc1 by exact Hg.
  destruct (malformed_read (pre ++ g) None bad (malformed_weaken _ _ Hm)) as (e2 & Hc2). rewrite sapp_assoc in Hc2. rewrite <- E1 in Hc1, Hc2.
  pose proof (malformed_ne _ _ Hm) as Hne.
  assert (Hk1 : forall d, exists e', requests src (d + S k) = LVal (mkL (String.length (pre ++ g)) None, e')).
  { induction d as [|d [e' IH]]; [exists (Some e1); cbn [Nat.add requests]; rewrite E2; exact Hc1|].
    exists (Some e2). cbn [Nat.add requests]. rewrite IH. exact Hc2. }
  destruct (parsed_parts _ _ _ Hp) as (l & last & segs & Hl & _ & _ & s & e0 & Hn & Ho).
  pose proof (states_requests src l Hl last) as Hq. rewrite (nth_error_nth _ _ _ Hn) in Hq.
  assert (Hlen : String.length src = String.length pre + String.length g + String.length bad) by (rewrite E1, !slen_app; lia).
  assert (Hbad : 0 < String.length bad) by (destruct bad; [congruence | cbn; lia]).
  destruct (Nat.le_gt_cases last k) as [Hle|Hgt].
  - replace k with (k - last + last) in E2 by lia. pose proof (requests_mono src last (k - last) s e0 _ _ Hq E2) as Hmono. cbn [off] in Hmono. lia.
  - destruct (Hk1 (last - S k)) as (e' & Hr). replace (last - S k + S k) with last in Hr by lia. rewrite Hq in Hr. injection Hr as -> _.
    cbn [off] in Ho. rewrite slen_app in Ho. lia.
Qed.
