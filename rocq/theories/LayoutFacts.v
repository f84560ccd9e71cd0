(** The lexer reads the tokens of a source, whatever its layout. *)
From Coq Require Import String Ascii List Arith Bool Lia.
From Verif Require Import Str Keyword Lexer LexSpec StrFacts LexFacts LexRun LexGrammar LexTokens LexProps Ast Prog Items ItemsFacts LayoutSpec.
Import ListNotations.
Local Open Scope string_scope.
Local Open Scope nat_scope.
#[local] Arguments is_keyword : simpl never.
#[local] Arguments layout : simpl never.

Lemma sapp_assoc a b c : ((a ++ b) ++ c)%string = (a ++ b ++ c)%string.
Proof. induction a as [|x a IH]; cbn; [reflexivity | now rewrite IH]. Qed.
Lemma slen_app a b : String.length (a ++ b) = String.length a + String.length b.
Proof. induction a as [|x a IH]; cbn; [reflexivity | now rewrite IH]. Qed.
Lemma sapp_nil a : (a ++ "")%string = a.
Proof. induction a as [|x a IH]; cbn; [reflexivity | now rewrite IH]. Qed.

Lemma bump_bump a b r : bump a (bump b r) = bump (a + b) r.
Proof. destruct r as [k f]. unfold bump. cbn. f_equal. lia. Qed.

Lemma layout_line_skip t : forall s, sall (fun c => negb (is_nl c)) t = true ->
  layout InLine (t ++ s) = bump (String.length t) (layout InLine s).
Proof.
  induction t as [|c t IH]; intros s H; cbn [append String.length].
  - destruct (layout InLine s). reflexivity.
  - cbn [sall] in H. apply andb_true_iff in H as [Hc H]. unfold layout. fold layout. apply negb_true_iff in Hc. rewrite Hc, IH by exact H.
    now rewrite bump_bump.
Qed.

Lemma layout_block_skip t : forall s, (forall a b, t ++ "*" <> a ++ "*/" ++ b) ->
  layout InBlock (t ++ "*/" ++ s) = bump (String.length t + 2) (layout Plain s).
Proof.
  induction t as [|c t IH]; intros s H; cbn [append String.length].
  - reflexivity.
  - assert (H' : forall a b, t ++ "*" <> a ++ "*/" ++ b).
    { intros a b E. apply (H (String c a) b). cbn. now rewrite E. }
    assert (Hstep : layout InBlock (String c (t ++ "*/" ++ s)) = bump 1 (layout InBlock (t ++ "*/" ++ s))).
    { destruct t as [|d t]; cbn [append].
      - unfold layout at 1. fold layout. destruct (Ascii.eqb c "*"); reflexivity.
      - unfold layout at 1. fold layout. destruct (Ascii.eqb c "*" && Ascii.eqb d "/") eqn:E; [|reflexivity].
        apply andb_true_iff in E as [E1 E2]. apply Ascii.eqb_eq in E1, E2. subst. exfalso. apply (H "" (t ++ "*")). reflexivity. }
    cbn [append] in Hstep. rewrite Hstep. change (String "*" (String "/" s)) with ("*/" ++ s). rewrite IH by exact H'. rewrite bump_bump; reflexivity.
Qed.

Lemma ws1_not c : ws1 c = true -> byte_of c <= 32.
Proof. unfold ws1. intros H. apply orb_true_iff in H as [H|H]; [apply andb_true_iff in H as [_ H]; apply Nat.leb_le in H; lia | apply Nat.eqb_eq in H; lia]. Qed.
Lemma ws2_high c d : ws2 c d = true -> byte_of c = 194.
Proof. unfold ws2. intros H. apply andb_true_iff in H as [H _]. now apply Nat.eqb_eq. Qed.
Lemma ws3_high c d e : ws3 c d e = true -> 225 <= byte_of c <= 227.
Proof.
  unfold ws3. intros H. repeat (apply orb_true_iff in H as [H|H]); repeat (apply andb_true_iff in H as [H ?]); apply Nat.eqb_eq in H; lia.
Qed.

Lemma high_plain c : 128 <= byte_of c -> ws1 c = false /\ Ascii.eqb c "-" = false /\ Ascii.eqb c "/" = false.
Proof. intros H. split; [apply ws1_bytes; lia|]. split; apply byte_neq; cbn; lia. Qed.

Lemma gap_layout g : gap g -> forall s, layout Plain (g ++ s) = bump (String.length g) (layout Plain s).
Proof.
  induction 1 as [|c g Hc _ IH|c d g Hc _ IH|c d e g Hc _ IH|t c g Ht Hc _ IH|t g Ht _ IH]; intros s.
  - cbn [append String.length]. destruct (layout Plain s). reflexivity.
  - cbn [append String.length]. unfold layout at 1. fold layout. rewrite Hc, IH. rewrite bump_bump; reflexivity.
  - cbn [append String.length]. pose proof (ws2_high _ _ Hc) as Hb. destruct (high_plain c ltac:(lia)) as (E1 & E2 & E3).
    unfold layout at 1. fold layout. rewrite E1, E2, E3, Hc. cbn [andb]. rewrite IH. rewrite bump_bump; reflexivity.
  - cbn [append String.length]. pose proof (ws3_high _ _ _ Hc) as Hb. destruct (high_plain c ltac:(lia)) as (E1 & E2 & E3).
    assert (E4 : ws2 c d = false). { destruct (ws2 c d) eqn:E; [apply ws2_high in E; lia | reflexivity]. }
    unfold layout at 1. fold layout. rewrite E1, E2, E3, E4, Hc. cbn [andb]. rewrite IH. rewrite bump_bump; reflexivity.
  - replace (("--" ++ t ++ String c g) ++ s) with (String "-" (String "-" (t ++ String c (g ++ s)))) by (cbn; now rewrite sapp_assoc).
    change (layout Plain (String "-" (String "-" (t ++ String c (g ++ s))))) with (bump 2 (layout InLine (t ++ String c (g ++ s)))).
    rewrite layout_line_skip by exact Ht. unfold layout. fold layout. rewrite Hc, IH, !bump_bump. f_equal. rewrite !slen_app. cbn [String.length]. lia.
  - replace (("/*" ++ t ++ "*/" ++ g) ++ s) with (String "/" (String "*" (t ++ "*/" ++ (g ++ s)))) by (cbn; now rewrite sapp_assoc).
    change (layout Plain (String "/" (String "*" (t ++ "*/" ++ g ++ s)))) with (bump 2 (layout InBlock (t ++ "*/" ++ g ++ s))).
    rewrite layout_block_skip by exact Ht. rewrite IH, !bump_bump. f_equal. rewrite !slen_app. cbn [String.length]. lia.
Qed.

Lemma end_gap_layout g : end_gap g -> layout Plain g = (String.length g, false).
Proof.
  intros [g0 H|g0 t H Ht].
  - rewrite <- (sapp_nil g0) at 1. rewrite gap_layout by exact H. unfold layout, bump. cbn. f_equal. lia.
  - rewrite gap_layout by exact H. change ("--" ++ t) with (String "-" (String "-" t)).
    change (layout Plain (String "-" (String "-" t))) with (bump 2 (layout InLine t)).
    rewrite <- (sapp_nil t) at 1. rewrite layout_line_skip by exact Ht. unfold layout, bump. cbn. f_equal. rewrite slen_app. cbn. lia.
Qed.

(** A request skips a gap. *)
Lemma gap_skip pre g s prev : gap g ->
  consume (pre ++ g ++ s) (mkL (String.length pre) prev) = consume ((pre ++ g) ++ s) (mkL (String.length (pre ++ g)) prev).
Proof.
  intros Hg. rewrite !consume_eq. cbn [off cur]. rewrite !sdrop_app_exact. unfold lex1. rewrite gap_layout by exact Hg.
  destruct (layout Plain s) as [k b]. unfold bump. cbn [fst snd]. rewrite slen_app. destruct b.
  - unfold to_lout, lx_error. cbn [lx_len lx_tok lx_err option_map]. do 3 f_equal. lia.
  - rewrite <- sdrop_sdrop. rewrite sdrop_app_exact. destruct (lex_token prev (sdrop k s)) as [n t e].
    unfold to_lout, lx_shift. cbn [lx_len lx_tok lx_err]. do 2 f_equal. f_equal; [lia|].
    destruct t as [t|]; [|reflexivity]. cbn [option_map]. unfold shift_tok. cbn. do 2 f_equal; lia.
Qed.

Lemma operand_iff prev : has_precedence_token prev = true <-> operand (option_map tok_of prev).
Proof.
  destruct prev as [t|]; cbn [option_map operand has_precedence_token tok_of t_kind]; [apply str_in_In | split; [discriminate | tauto]].
Qed.

Lemma not_operand prev : ~ operand (option_map tok_of prev) -> has_precedence_token prev = false.
Proof. intros H. destruct (has_precedence_token prev) eqn:E; [apply operand_iff in E; contradiction | reflexivity]. Qed.

Lemma lexeme_ne prev w t r : lexeme prev w t r -> w <> "".
Proof.
  intros H. inversion H as [n base f r' Hn| | |w' r' Hw|w' r' Hw|]; subst; try discriminate.
  - destruct Hn as [sg hs Hs Hr|sg m f Hs Hm|sg m f x Hs Hm Hx].
    + destruct Hs; discriminate.
    + destruct Hs; try discriminate. destruct Hm as [ds [Hd _]|ds fs [Hd _] _]; [exact Hd | destruct ds; [congruence | discriminate]].
    + destruct Hs; try discriminate. destruct Hm as [ds [Hd _]|ds fs [Hd _] _]; (destruct ds; [congruence | discriminate]).
  - destruct w; [destruct Hw | discriminate].
  - unfold two_char in Hw. cbn in Hw. intuition (subst; discriminate).
Qed.

Lemma two_read pre prev w r : In w two_char ->
  exists t', consume (pre ++ w ++ r) (mkL (String.length pre) prev) = LVal (mkL (String.length pre + String.length w) (Some t'), None) /\
    tok_of t' = mkTok (if String.eqb w "+>" then "->" else w) w 0 QNone.
Proof.
  intros Hw. unfold two_char in Hw. cbn [In] in Hw.
  repeat (destruct Hw as [<-|Hw]; [rewrite consume_at by (apply layout_none; [vm_compute; lia | reflexivity | |]; intros; try discriminate; reflexivity); cbn [append];
    lazymatch goal with |- context [lex_token prev (String ?a (String ?b r))] =>
      assert (E : exists k, lex_token prev (String a (String b r)) = lx_simple 2 k (String a (String b r)) /\ k = (if String.eqb (String a (String b "")) "+>" then "->" else String a (String b "")))
        by (eexists; split; [cbn; try reflexivity; destruct (has_precedence_token prev); reflexivity | reflexivity]);
      destruct E as (k & -> & ->); eexists; split; [reflexivity|]; destruct r; reflexivity
    end|]).
  destruct Hw.
Qed.

Lemma first_head r d : head_is (fun x => Ascii.eqb x d) r = true -> first r = String d "".
Proof. destruct r as [|c r]; cbn; [discriminate|]. intros H. apply Ascii.eqb_eq in H. now subst. Qed.

Lemma head_is_false p r : (forall c s, r = String c s -> p c = false) -> head_is p r = false.
Proof. destruct r; cbn; [reflexivity | intros H; now apply (H a r)]. Qed.

Lemma one_read pre prev c r : one_char c -> ~ In (String c (first r)) two_char ->
  (c = "-"%char -> ~ starts_with "-" r) -> (c = "/"%char -> ~ starts_with "*" r) ->
  (c = "-"%char \/ c = "+"%char -> operand (option_map tok_of prev) \/ head_is is_digit r = false) ->
  exists t', consume (pre ++ String c "" ++ r) (mkL (String.length pre) prev) = LVal (mkL (String.length pre + 1) (Some t'), None) /\
    tok_of t' = mkTok (String c "") (String c "") 0 QNone.
Proof.
  intros (Hb & Hw & Hd & Hi & Hq) H2 Hm Hs Hg. cbn [append].
  assert (Hl : layout Plain (String c r) = (0, false)).
  { apply layout_none; auto.
    - intros E. apply head_is_false. intros d s Er. apply Ascii.eqb_neq. intros ->. apply (Hm E). now exists s.
    - intros E. apply head_is_false. intros d s Er. apply Ascii.eqb_neq. intros ->. apply (Hs E). now exists s. }
  rewrite consume_at by exact Hl.
  assert (Hr : lex_rest c (String c r) = lx_simple 1 (String c "") (String c r)).
  { unfold lex_rest. rewrite Hi. destruct (Nat.leb_spec 128 (byte_of c)); [lia|]. now destruct r. }
  assert (Ht : lex_token prev (String c r) = lx_simple 1 (String c "") (String c r)).
  { unfold lex_token.
    assert (Hnot : forall d, ~ In (String c (String d "")) two_char \/ first r <> String d "").
    { intros d. destruct (string_dec (first r) (String d "")) as [E|E]; [left; now rewrite <- E | now right]. }
    assert (Hh : forall d, In (String c (String d "")) two_char -> head_is (fun x => Ascii.eqb x d) r = false).
    { intros d Hin. destruct (head_is (fun x => Ascii.eqb x d) r) eqn:E; [|reflexivity]. apply first_head in E. destruct (Hnot d); contradiction. }
    destruct (Ascii.eqb c ">" || Ascii.eqb c "<" || Ascii.eqb c "!" || Ascii.eqb c "=" || Ascii.eqb c "|") eqn:E1.
    - match goal with |- (if head_is ?p r then _ else _) = _ => assert (Hz : head_is p r = false) end; [|now rewrite Hz].
      destruct r as [|d r]; [reflexivity|]. cbn [head_is].
      destruct ((Ascii.eqb c "|" && Ascii.eqb d "|") || (Ascii.eqb c "<" && Ascii.eqb d ">") || (Ascii.eqb c "=" && Ascii.eqb d "=")
        || (negb (Ascii.eqb c "|") && Ascii.eqb d "=")) eqn:E; [|reflexivity]. exfalso. apply H2. cbn [first].
      repeat (apply orb_true_iff in E as [E|E]); apply andb_true_iff in E as [Ea Eb]; apply Ascii.eqb_eq in Eb; subst d;
        try (apply Ascii.eqb_eq in Ea; subst c; cbn; tauto).
      apply negb_true_iff in Ea. rewrite Ea, orb_false_r in E1.
      repeat (apply orb_true_iff in E1 as [E1|E1]); apply Ascii.eqb_eq in E1; subst c; cbn; tauto.
    - destruct (is_sign c) eqn:E2.
      + assert (Hc : c = "-"%char \/ c = "+"%char) by (unfold is_sign in E2; apply orb_true_iff in E2 as [E2|E2]; apply Ascii.eqb_eq in E2; auto).
        assert (Hn : negb (has_precedence_token prev) && head_is is_digit r = false).
        { destruct (Hg Hc) as [Ho|Ho]; [apply operand_iff in Ho; now rewrite Ho | rewrite Ho; apply andb_false_r]. }
        rewrite Hn. rewrite Hh; [exact Hr|]. destruct Hc; subst c; cbn; tauto.
      + rewrite Hd.
        assert (Hn : forall x, In x ["`"%char; ch 34; "'"%char; "$"%char] -> Ascii.eqb c x = false).
        { intros x Hx. apply Ascii.eqb_neq. intros ->. contradiction. }
        rewrite (Hn backtick), (Hn dquote), (Hn "$"%char), (Hn squote) by (cbn; tauto). cbn [orb].
        destruct (Ascii.eqb c ":") eqn:E3.
        * apply Ascii.eqb_eq in E3. subst c. rewrite Hh by (cbn; tauto). exact Hr.
        * destruct (Ascii.eqb c ".") eqn:E4; [apply Ascii.eqb_eq in E4; subst c; reflexivity | exact Hr]. }
  rewrite Ht. eexists. split; [reflexivity|]. destruct r; reflexivity.
Qed.

Lemma lexeme_read pre prev w t r : lexeme (option_map tok_of prev) w t r ->
  exists t', consume (pre ++ w ++ r) (mkL (String.length pre) prev) = LVal (mkL (String.length pre + String.length w) (Some t'), None) /\
    tok_of t' = t.
Proof.
  intros H. inversion H as [n base f r' Hn Hr Hp|b r' Hb Hr|q b r' Hq Hb|w' r' Hw Hr|w' r' Hw|c r' Hc H2 Hm Hs Hg]; subst.
  - rewrite (number_accept pre w base f r prev Hn Hr) by (destruct Hp as [Hp|Hp]; [left; exact Hp | right; now apply not_operand]).
    eexists. split; [reflexivity|]. now destruct f.
  - replace (("'" ++ b ++ "'") ++ r) with ("'" ++ b ++ "'" ++ r) by (cbn; now rewrite sapp_assoc).
    rewrite (string_accept pre b r prev Hb Hr). eexists. split.
    + replace (String.length ("'" ++ b ++ "'")) with (String.length b + 2) by (rewrite !slen_app; cbn [String.length]; lia).
      rewrite Nat.add_assoc. reflexivity.
    + reflexivity.
  - replace (String q (b ++ String q "") ++ r) with (String q (b ++ String q r)) by (cbn; now rewrite sapp_assoc).
    rewrite (quoted_accept pre q b r prev Hq Hb). eexists. split.
    + replace (String.length (String q (b ++ String q ""))) with (String.length b + 2) by (cbn [String.length]; rewrite !slen_app; cbn [String.length]; lia).
      rewrite Nat.add_assoc. reflexivity.
    + unfold tok_of, quote_code. cbn. destruct Hq; subst q; reflexivity.
  - rewrite (word_accept pre w r prev Hw Hr). eexists. split; reflexivity.
  - now apply two_read.
  - now apply one_read.
Qed.

(** The items of a source: one for each token, and one for the end. *)
Fixpoint expected (id : nat) (prev : option tok) (ts : list tok) (closed : bool) : list item :=
  match ts with
  | [] => match prev with None => if closed then [] else [mkItem id None true None] | Some _ => [mkItem id None true None] end
  | t :: ts' => mkItem id (Some t) (match ts' with [] => closed | _ => false end) None :: expected (S id) (Some t) ts' closed
  end.

Lemma source_eof prev ts closed src : source prev ts closed src -> String.eqb src "" = match ts with [] => closed | _ => false end.
Proof.
  intros [p g Hg|p g w t ts' cl r Hg Hw Hs]; [reflexivity|]. pose proof (lexeme_ne _ _ _ _ Hw) as Hne.
  apply String.eqb_neq. destruct g; [|discriminate]. destruct w; [congruence | discriminate].
Qed.

Lemma eof_app pre src : is_eof (pre ++ src) (String.length pre) = String.eqb src "".
Proof.
  unfold is_eof. rewrite slen_app. destruct src; cbn; [apply Nat.leb_le; lia | apply Nat.leb_gt; lia].
Qed.

Lemma states_source : forall ts prev closed src, source (option_map tok_of prev) ts closed src ->
  forall n pre id l, (prev = None -> pre = "") ->
  states_from n (pre ++ src) (mkL (String.length pre) prev) None = LVal l ->
  number_items (pre ++ src) id l = expected id (option_map tok_of prev) ts closed.
Proof.
  induction ts as [|t ts IH]; intros prev closed src Hs n pre id l Hpre Hn.
  - inversion Hs as [p g Hg|]; subst. destruct n as [|n]; [discriminate|]. cbn [states_from] in Hn.
    assert (Hend : forall pr m, String.length pre <= m -> m <= String.length (pre ++ src) -> sdrop m (pre ++ src) = src \/ sdrop m (pre ++ src) = "" ->
      m + String.length (sdrop m (pre ++ src)) = String.length (pre ++ src) ->
      consume (pre ++ src) (mkL m pr) = LVal (mkL (String.length (pre ++ src)) None, None)).
    { intros pr m _ Hle Hd Hlen. rewrite consume_eq. cbn [off cur]. unfold lex1. destruct Hd as [Hd|Hd].
      - rewrite Hd in *. rewrite (end_gap_layout _ Hg). rewrite sdrop_all by lia. unfold to_lout, lx_shift. cbn. do 3 f_equal. lia.
      - rewrite Hd in *. change (layout Plain "") with (0, false). unfold to_lout. cbn. cbn in Hlen. do 3 f_equal. lia. }
    rewrite Hend in Hn.
    2: lia. 2: rewrite slen_app; lia. 2: left; apply sdrop_app_exact. 2: rewrite sdrop_app_exact, slen_app; lia.
    cbn [lbind] in Hn. unfold stuck in Hn. cbn [cur off] in Hn.
    assert (Hfin : forall m l', states_from m (pre ++ src) (mkL (String.length (pre ++ src)) None) None = LVal l' -> l' = []).
    { intros m l' H. destruct m; [discriminate|]. cbn [states_from] in H. rewrite Hend in H; [| | lia | |].
      - cbn [lbind] in H. unfold stuck in H. cbn [cur off] in H. rewrite Nat.eqb_refl in H. cbn in H. congruence.
      - rewrite slen_app. lia.
      - right. apply sdrop_all. lia.
      - rewrite sdrop_length. lia. }
    assert (Hone : forall l0, (let* l' := states_from n (pre ++ src) (mkL (String.length (pre ++ src)) None) None in
                     LVal ((mkL (String.length (pre ++ src)) None, None) :: l')) = LVal l0 ->
              number_items (pre ++ src) id l0 = [mkItem id None true None]).
    { intros l0 H. destruct (states_from n _ _ _) as [l'| |] eqn:E; try discriminate. cbn [lbind] in H. injection H as <-.
      rewrite (Hfin _ _ E). cbn [number_items]. unfold item_of. cbn [cur off option_map]. unfold is_eof. now rewrite Nat.leb_refl. }
    destruct prev as [t|]; cbn [option_map expected].
    + now apply Hone.
    + rewrite (Hpre eq_refl) in *. cbn [append String.length] in *. destruct src as [|c src]; cbn [String.eqb].
      * cbn in Hn. injection Hn as <-. reflexivity.
      * cbn [String.length Nat.eqb andb] in Hn. now apply Hone.
  - inversion Hs as [|p g w t' ts' cl r Hg Hw Hr]; subst. destruct n as [|n]; [discriminate|]. cbn [states_from] in Hn.
    rewrite (gap_skip pre g (w ++ r) prev Hg) in Hn.
    destruct (lexeme_read (pre ++ g) prev w t r Hw) as (t' & Hc & Ht). rewrite Hc in Hn. cbn [lbind] in Hn.
    pose proof (lexeme_ne _ _ _ _ Hw) as Hne.
    assert (Hst : stuck (mkL (String.length pre) prev) (mkL (String.length (pre ++ g) + String.length w) (Some t')) None None = false).
    { unfold stuck. cbn [cur off]. destruct prev; [reflexivity|]. rewrite slen_app. destruct w; [congruence|]. cbn [String.length].
      assert (E : (String.length pre =? String.length pre + String.length g + S (String.length w)) = false) by (apply Nat.eqb_neq; lia). now rewrite E. }
    rewrite Hst in Hn.
    assert (Hin : pre ++ g ++ w ++ r = ((pre ++ g) ++ w) ++ r) by (now rewrite !sapp_assoc).
    rewrite Hin in *. rewrite <- slen_app in Hn.
    destruct (states_from n _ _ _) as [l'| |] eqn:E; try discriminate. cbn [lbind] in Hn. injection Hn as <-.
    cbn [number_items expected]. f_equal.
    + unfold item_of. cbn [cur off option_map]. rewrite Ht, eof_app. f_equal. exact (source_eof _ _ _ _ Hr).
    + rewrite <- Ht in Hr |- *. change (Some (tok_of t')) with (option_map tok_of (Some t')). apply (IH (Some t') closed r Hr n); [discriminate | exact E].
Qed.

(** The items of an input are those of its tokens. *)
Lemma items_source ts closed src : source None ts closed src -> forall l, states src = LVal l ->
  number_items src 0 l = mkItem 0 None (match ts with [] => closed | _ => false end) None :: expected 1 None ts closed.
Proof.
  intros Hs l Hl. unfold states in Hl. destruct (states_from _ src lex_init None) as [l'| |] eqn:E; try discriminate.
  cbn [lbind] in Hl. injection Hl as <-. cbn [number_items]. f_equal.
  - unfold item_of, lex_init. cbn [cur off option_map]. f_equal. rewrite <- (source_eof _ _ _ _ Hs). exact (eof_app "" src).
  - exact (states_source ts None closed src Hs _ "" 1 l' (fun _ => eq_refl) E).
Qed.
