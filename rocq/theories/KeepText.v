(** Proofs for C41: the tokens of an input and the tree. *)
From Coq Require Import String Ascii List Arith Bool Lia ZArith.
From Verif Require Import Str Keyword Lexer LexSpec StrFacts LexFacts LexRun LexGrammar LexTokens LexProps Ast AstPos AstSubs Prog Items ItemsFacts RunFacts
  ParserCommon ParserExpr ParserQuery ParserTable ParserAlter ParserView ParserSystem Parser Source SourceFacts ErrorRender ErrorFacts ParserApi Hoare Spec SpecTac SpecSystem SpecParse FuelFacts ParseFacts
  LayoutSpec LayoutFacts LayoutParse StmtsFacts CaseRel Words KeepSpec KeepLogic KeepTac KeepStmt.
Import ListNotations.
Local Open Scope string_scope.
Local Open Scope Z_scope.
#[local] Arguments is_keyword : simpl never.

(** ** Trees *)

Section Trees.
  Context `{Word}.

  Lemma tally_app w a b : tally w (a ++ b) = (tally w a + tally w b)%nat.
  Proof. unfold tally. now rewrite map_app, count_occ_app. Qed.
  Lemma ws_tally s : ws s = Z.of_nat (tally word [s]).
  Proof.
    Transparent ws. unfold ws, tally. Opaque ws. cbn [map count_occ]. destruct (String.eqb_spec (undot s) word) as [E|E]; destruct (string_dec (undot s) word); try contradiction; reflexivity.
  Qed.
  Lemma zsum_ws l : zsum (map ws l) = Z.of_nat (tally word l).
  Proof.
    induction l as [|x l IH]; [reflexivity|]. rewrite map_cons, zsum_cons, IH, ws_tally. change (x :: l) with ([x] ++ l)%list. rewrite tally_app. lia.
  Qed.
  Lemma zsum_cnt l : (forall e, In e l -> cnt e = Z.of_nat (tally word (texts e))) -> zsum (map cnt l) = Z.of_nat (tally word (flat_map texts l)).
  Proof.
    induction l as [|x l IH]; intros Hl; [reflexivity|]. rewrite map_cons, zsum_cons, IH by (intros e He; apply Hl; now right). cbn [flat_map]. rewrite tally_app, (Hl x) by now left. lia.
  Qed.
  Lemma tally_nil w : tally w [] = 0%nat. Proof. reflexivity. Qed.
  Lemma cnt_texts e : cnt e = Z.of_nat (tally word (texts e)).
  Proof.
    induction e as [e IH] using expr_rect_subs. destruct e; cbn [cnt texts]; try reflexivity; cbn [subs] in IH;
    repeat match goal with
    | |- context [cnt ?x] => rewrite (IH x) by (rewrite ?in_app_iff; cbn [In]; auto 30)
    | |- context [zsum (map cnt ?l)] => rewrite (zsum_cnt l) by (intros; apply IH; rewrite ?in_app_iff; auto 30)
    end; rewrite ?zsum_ws, ?ws_tally, ?tally_app, ?Nat2Z.inj_add; try reflexivity; lia.
  Qed.
  Lemma stmts_texts l : zsum (map cnt l) = Z.of_nat (tally word (flat_map texts l)).
  Proof. apply zsum_cnt. intros e _. apply cnt_texts. Qed.
End Trees.

(** ** Tokens *)

Section Lexemes.
  Context `{Word}.

  Lemma undot_not s : (forall r, s <> String "." r) -> undot s = s.
  Proof. intros Hs. destruct s as [|c r]; [reflexivity|]. cbn [undot]. destruct (Ascii.eqb_spec c "."); [subst; now destruct (Hs r)|reflexivity]. Qed.
  Lemma ws_kw s : is_keyword (upper s) = true -> undot s = s -> ws s = 0.
  Proof.
    intros Hk Hu. apply ws_const. unfold never. cbv zeta. rewrite Hu, Hk. destruct (String.eqb s ""); reflexivity.
  Qed.
  Lemma number_undot n base f : number n base f -> undot n = n.
  Proof.
    intros Hn. apply undot_not. intros r E. assert (Hm : forall m f, mantissa m f -> exists c u, m = String c u /\ is_digit c = true).
    { intros m g [ds [H1 H2]|ds fs [H1 H2] H3]; (destruct ds as [|c u]; [congruence|]); apply andb_prop in H2 as [H2 _]; [exists c, u|exists c, (u ++ "." ++ fs)]; auto. }
    destruct Hn as [sg hs [] _|sg m g [] Hm'|sg m g x [] Hm' _]; try discriminate E; destruct (Hm _ _ Hm') as (c & u & -> & Hd); cbn in E; injection E as -> _; discriminate Hd.
  Qed.
  Lemma upper_one c : is_ident_start c = false -> upper (String c "") = String c "".
  Proof.
    unfold is_ident_start. intros Hc. apply orb_false_iff in Hc as [Hc _]. apply orb_false_iff in Hc as [Hc _]. cbn [upper]. unfold upper_char. now rewrite Hc.
  Qed.
  Lemma ws_one c : one_char c -> ws (String c "") = 0.
  Proof.
    intros Hc. Transparent ws. unfold ws. Opaque ws. destruct (String.eqb_spec (undot (String c "")) word) as [E|]; [|reflexivity]. exfalso. destruct word_plain as (P1 & _ & _ & P4 & _).
    cbn [undot] in E. destruct (Ascii.eqb c "."); [now apply P1|]. exact (P4 c (eq_sym E) Hc).
  Qed.
  Lemma two_w w : In w two_char -> ws w = 0 /\ ws (upper w) = 0.
  Proof.
    intros Hi. unfold two_char in Hi. cbn [In] in Hi.
    repeat (destruct Hi as [<-|Hi]; [split; apply ws_const; vm_compute; reflexivity|]). destruct Hi.
  Qed.
  Lemma lexeme_ok prev w t r : lexeme prev w t r ->
    (leaf (t_kind t) = false -> ws (t_str t) = 0 /\ ws (upper (t_str t)) = 0) /\ (t_kind t = KInt -> undot (t_str t) = t_str t).
  Proof.
    intros Hl. destruct Hl as [n base g r Hn _ _|b r _ _|q b r _ _|w r Hw _|w r Hi|c r Hc _ _ _ _]; cbn [t_kind t_str].
    - split; [destruct g; discriminate|]. intros _. exact (number_undot _ _ _ Hn).
    - split; discriminate.
    - split; discriminate.
    - split; [|destruct (is_keyword _); discriminate]. destruct (is_keyword (upper w)) eqn:Ek; [|discriminate]. intros _.
      destruct w as [|c u]; [destruct Hw|]. destruct Hw as [Hw _].
      assert (Hd : forall s, undot (String c s) = String c s) by (intros s; apply undot_not; intros v E; injection E as -> _; destruct Hw; discriminate).
      split; [apply ws_kw; [exact Ek|apply Hd]|]. apply ws_kw; [now rewrite upper_upper|]. cbn [upper]. apply undot_not. intros v E. injection E as E _.
      destruct Hw as [Hw| ->]; [|discriminate E]. clear - Hw E. destruct c as [[] [] [] [] [] [] [] []]; vm_compute in E, Hw; discriminate.
    - split; [intros _; now apply two_w|]. intros E. exfalso. unfold two_char in Hi. cbn [In] in Hi.
      repeat (destruct Hi as [<-|Hi]; [discriminate E|]). destruct Hi.
    - split; [|discriminate]. intros _. rewrite upper_one by apply Hc. split; now apply ws_one.
  Qed.
  Lemma source_lexemes prev ts closed src : source prev ts closed src -> Forall (fun t => exists p w r, lexeme p w t r) ts.
  Proof. induction 1; [constructor|]. constructor; [|assumption]. eauto. Qed.
End Lexemes.

(** ** Inputs *)

Lemma expected_okits `{Word} ts : forall id prev closed, Forall (fun t => exists p w r, lexeme p w t r) ts ->
  (tight = true -> Forall (fun t => lossy t = false) ts) -> Forall okit (expected id prev ts closed).
Proof.
  induction ts as [|t ts IH]; intros id prev closed Hl Ht; cbn [expected].
  - assert (Hn : forall id, okit (mkItem id None true None)) by (intros; split; [reflexivity|discriminate]). destruct prev; [|destruct closed]; constructor; first [apply Hn | constructor].
  - inversion Hl as [|? ? (p & w & r & Hx) Hl']; subst. constructor; [|apply IH; auto; intros E; specialize (Ht E); now inversion Ht].
    split; [reflexivity|]. cbn [it_tok]. intros u [= <-]. split; [exact (lexeme_ok _ _ _ _ Hx)|]. intros E. specialize (Ht E). now inversion Ht.
Qed.
Lemma expected_left `{Word} ts : forall id prev closed, Forall (fun t => exists p w r, lexeme p w t r) ts ->
  zsum (map hc (expected id prev ts closed)) = Z.of_nat (tally word (leaves ts)).
Proof.
  induction ts as [|t ts IH]; intros id prev closed Hl; cbn [expected].
  - destruct prev; [|destruct closed]; rewrite ?map_cons, ?map_nil_w, ?zsum_cons, ?zsum_nil, ?hc_none by reflexivity; reflexivity.
  - inversion Hl as [|? ? (p & w & r & Hx) Hl']; subst. rewrite map_cons, zsum_cons, IH by assumption. rewrite (hc_some _ t) by reflexivity.
    unfold leaves. cbn [filter]. destruct (leaf (t_kind t)) eqn:E.
    + cbn [map]. rewrite ws_tally. unfold leaves. rewrite (tally_app word [t_str t] (map t_str (filter (fun t0 => leaf (t_kind t0)) ts)) : tally word (t_str t :: _) = _). lia.
    + rewrite (proj1 (proj1 (lexeme_ok _ _ _ _ Hx) E)). unfold leaves. lia.
Qed.
Lemma expected_last ts : forall id prev closed d, prev <> None \/ closed = false \/ ts <> [] -> it_tok (last (expected id prev ts closed) d) = None.
Proof.
  induction ts as [|t ts IH]; intros id prev closed d Hx; cbn [expected].
  - destruct prev; [reflexivity|]. destruct closed; [|reflexivity]. destruct Hx as [Hx|[Hx|Hx]]; congruence.
  - specialize (IH (S id) (Some t) closed d ltac:(left; discriminate)). destruct (expected (S id) (Some t) ts closed) eqn:E; [|exact IH].
    destruct ts; discriminate E.
Qed.
Lemma expected_eof ts : forall id prev closed pre i r, expected id prev ts closed = (pre ++ i :: r)%list -> it_eof i = true ->
  (it_tok i = None /\ r = []) \/ (exists ts0 t, it_tok i = Some t /\ closed = true /\ ts = (ts0 ++ [t])%list /\ map it_tok pre = map Some ts0 /\ map it_tok r = [None]).
Proof.
  induction ts as [|t ts IH]; intros id prev closed pre i r E Hi; cbn [expected] in E.
  - left. assert (E' : [mkItem id None true None] = (pre ++ i :: r)%list) by (destruct prev; [exact E|]; destruct closed; [destruct pre; discriminate E|exact E]).
    destruct pre as [|x pre]; [|destruct pre; discriminate E']. injection E' as <- <-. auto.
  - destruct pre as [|x pre]; cbn [app] in E.
    + injection E as <- <-. cbn [it_eof] in Hi. destruct ts; [|discriminate Hi]. right. exists [], t. cbn. subst closed. auto 6.
    + injection E as <- E. destruct (IH _ _ _ _ _ _ E Hi) as [?|(ts0 & u & A & B & C & D & F)]; [now left|]. right. exists (t :: ts0), u. cbn [map it_tok]. rewrite C, D. auto 6.
Qed.

(** Where the loop over the statements stops. *)
Lemma parts_last its last segs : forall k, parts its k segs last -> (forall it, nth_error its k = Some it -> between it) ->
  (forall it, nth_error its last = Some it -> between it) \/ (0 < last /\ forall it, nth_error its (last - 1) = Some it -> between it)%nat.
Proof.
  induction segs as [|[[a e] b] r IH]; intros k H Hk; cbn [parts] in H.
  - destruct H as [H1 H2]. destruct (Nat.eq_dec k last) as [->|]; [now left|]. right. split; [lia|]. intros it. apply H2. lia.
  - destruct H as (_ & _ & _ & _ & H5 & H6). exact (IH b H6 H5).
Qed.

Theorem kept w ts closed src l sp : plain w -> source None ts closed src -> parse_stmts src = Parsed l sp ->
  (tally w (flat_map texts l) <= tally w (leaves ts) /\
   (Forall (fun t => lossy t = false) ts -> ~ lone ts closed -> tally w (flat_map texts l) = tally w (leaves ts)))%nat.
Proof.
  intros Hp Hs Hr. destruct (source_states _ _ _ Hs) as (st & Hl & Hi). unfold parse_stmts in Hr. rewrite (api_eq src st Hl) in Hr. unfold parse_items in Hr.
  set (its := number_items src 0 st) in *. pose proof (its_good_items src st Hl) as g. change (good_items its) in g.
  rewrite Hi in Hr at 1. cbn [init_pstate] in Hr. set (s0 := mkP _ _ []) in Hr. set (n := List.length its) in *.
  assert (Hx : exists r, its = here s0 :: r /\ rest s0 = r) by (eexists; split; [exact Hi|reflexivity]). destruct Hx as (r & Hx & Hx').
  pose proof (source_lexemes _ _ _ _ Hs) as Hlex.
  destruct (run body (parse_fuel n) ParseStmts s0) as [y s'|e s'|z|] eqn:E; try discriminate.
  2: { destruct (wrapError _ _ _ _); discriminate. }
  injection Hr as <- _. unfold parse_fuel in E. replace (10 * n + 10)%nat with (S (10 * n + 9)) in E by lia.
  assert (Hwfs : @wfs (mkenv its g (10 * n + 9)) s0) by (exists []; cbn [Hoare.its mkenv app]; now rewrite Hx').
  assert (Hf : (10 * len s0 + 3 <= @fl (mkenv its g (10 * n + 9)))%nat).
  { unfold len, n. cbn [fl mkenv]. rewrite Hx, Hx'. cbn [List.length]. lia. }
  destruct (@parse_stmts_parts _ (calls_ok its g (10 * n + 9)) s0 y s' Hwfs Hf I E) as ((pre & Hpre) & He & segs & _ & Hparts).
  cbn [Hoare.its mkenv] in Hpre, Hparts.
  assert (Hk : forall t, (t = true -> Forall (fun t => lossy t = false) ts) -> let W := {| KeepLogic.word := w; word_plain := Hp; tight := t |} in
    wf s' /\ near (zsum (map cnt y) + left s') (left s0) /\ left s0 = Z.of_nat (tally w (leaves ts))).
  { intros t Ht W.
    assert (Hw : wf s0).
    { split.
      - constructor; [split; [reflexivity|discriminate]|]. cbn [rest s0]. apply expected_okits; auto.
      - cbn [here rest s0]. destruct ts as [|u ts']; [destruct closed; reflexivity|]. apply expected_last. right. right. discriminate. }
    destruct (@ParseStmts_keep W _ (all_calls _) s0 y s' Hw I E) as [A B]. split; [exact A|]. split; [exact B|].
    unfold left. cbn [here rest s0]. rewrite map_cons, zsum_cons, hc_none by reflexivity. now rewrite expected_left. }
  assert (Hpos : forall W : Word, 0 <= left s') by (intros W; unfold left; apply zsum_nonneg; intros; apply hc_nonneg).
  split.
  - destruct (Hk false ltac:(discriminate)) as (_ & [Hle _] & Hz). set (W := {| KeepLogic.word := w; word_plain := Hp; tight := false |}) in *.
    specialize (Hpos W). rewrite (@stmts_texts W) in Hle. cbn [KeepLogic.word W] in Hle. lia.
  - intros Hlossy Hlone. destruct (Hk true (fun _ => Hlossy)) as (Hw' & [_ Heq] & Hz). set (W := {| KeepLogic.word := w; word_plain := Hp; tight := true |}) in *.
    specialize (Heq eq_refl). rewrite (@stmts_texts W) in Heq. cbn [KeepLogic.word W] in Heq. enough (left s' = 0) by lia.
    assert (Hid : it_id (here s') = List.length pre).
    { apply (gi_id _ g). rewrite Hpre, nth_error_app2, Nat.sub_diag by lia. reflexivity. }
    rewrite Hx in Hpre. cbn [rest s0] in Hx'. subst r. unfold left. destruct pre as [|i0 pre]; cbn [app] in Hpre.
    + injection Hpre as H1 H2. rewrite <- H1 in He |- *. rewrite <- H2. cbn [here s0 it_eof] in He. destruct ts; [|discriminate He]. subst closed. reflexivity.
    + injection Hpre as H1 H2. destruct (expected_eof _ _ _ _ _ _ _ H2 He) as [[A ->]|(ts0 & t & A & B & C & D & F)].
      { rewrite map_cons, map_nil_w, zsum_cons, zsum_nil, hc_none by exact A. reflexivity. }
      assert (Hrest : zsum (map hc (rest s')) = 0).
      { clear - F. destruct (rest s') as [|x [|? ?]]; try discriminate F. injection F as F. rewrite map_cons, map_nil_w, zsum_cons, zsum_nil, hc_none by exact F. reflexivity. }
      rewrite map_cons, zsum_cons, Hrest. enough (Hb : between (here s')) by (rewrite (between_w _ (wf_here _ Hw') Hb); reflexivity).
      rewrite Hid in Hparts. cbn [List.length] in Hparts.
      assert (H0 : forall it, nth_error its 0 = Some it -> between it) by (rewrite Hx; intros it [= <-]; exact I).
      destruct (parts_last _ _ _ _ Hparts H0) as [Hb|[_ Hb]].
      { apply Hb. rewrite Hx, H2. cbn [nth_error]. rewrite nth_error_app2, Nat.sub_diag by lia. reflexivity. }
      exfalso. apply Hlone. split; [exact B|]. rewrite C, rev_app_distr. cbn [rev app]. replace (S (List.length pre) - 1)%nat with (List.length pre) in Hb by lia.
      destruct ts0 as [|u0 ts0] using rev_ind; [exact I|]. clear IHts0. rewrite rev_app_distr. cbn [rev app].
      rewrite map_app in D. cbn [map] in D. destruct pre as [|x pre _] using rev_ind; [destruct (map Some ts0); discriminate D|].
      rewrite map_app in D. cbn [map] in D. apply app_inj_tail in D as [_ D]. rewrite app_length in Hb. cbn [List.length] in Hb.
      specialize (Hb x). unfold between in Hb. rewrite D in Hb. apply Hb. rewrite Hx, H2. replace (List.length pre + 1)%nat with (S (List.length pre)) by lia. cbn [nth_error].
      rewrite <- app_assoc, nth_error_app2, Nat.sub_diag by lia. reflexivity.
Qed.
