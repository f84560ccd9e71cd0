(** [consume] of Lexer.v computes [lex1] of LexSpec.v on the unread input; in
    particular it neither panics nor runs out of fuel. *)
From Coq Require Import String Ascii List Arith Bool Lia.
From Verif Require Import Str Keyword Lexer LexSpec StrFacts.
Import ListNotations.
Local Open Scope string_scope.
Local Open Scope nat_scope.

Lemma sdrop_next n s c r : sdrop n s = String c r -> sdrop (S n) s = r.
Proof. intros H. replace (S n) with (n + 1) by lia. rewrite <- sdrop_sdrop, H. cbn. reflexivity. Qed.

Lemma sdrop_add n k s : sdrop (n + k) s = sdrop k (sdrop n s).
Proof. now rewrite sdrop_sdrop. Qed.

Lemma sdrop_get n s : String.get n s = match sdrop n s with "" => None | String c _ => Some c end.
Proof.
  destruct (String.get n s) as [c|] eqn:E.
  - now rewrite (sdrop_get_some _ _ _ E).
  - now rewrite (sdrop_get_none _ _ E).
Qed.

Lemma peekN_eq inp o n : peekN inp o n = match sdrop (o + n) inp with "" => LPanic | String c _ => LVal c end.
Proof. unfold peekN. rewrite sdrop_get. destruct (sdrop (o + n) inp); reflexivity. Qed.

Lemma peekOk_eq inp o n : peekOk inp o n = match sdrop (o + n) inp with "" => false | _ => true end.
Proof.
  unfold peekOk. pose proof (sdrop_length (o + n) inp) as Hl.
  destruct (sdrop (o + n) inp); cbn in Hl; destruct (Nat.ltb_spec (o + n) (String.length inp)); try reflexivity; lia.
Qed.

Lemma okAnd_eq inp o n p : okAnd inp o n p = LVal (head_is p (sdrop (o + n) inp)).
Proof. unfold okAnd. rewrite peekOk_eq, peekN_eq. destruct (sdrop (o + n) inp); reflexivity. Qed.

Lemma is_eof_eq inp o : is_eof inp o = match sdrop o inp with "" => true | _ => false end.
Proof.
  unfold is_eof. pose proof (sdrop_length o inp) as Hl.
  destruct (sdrop o inp); cbn in Hl; destruct (Nat.leb_spec (String.length inp) o); try reflexivity; lia.
Qed.

Lemma slice_eq inp o i j :
  i <= j -> o + j <= String.length inp -> slice inp o i j = LVal (stake (j - i) (sdrop (o + i) inp)).
Proof.
  intros H1 H2. unfold slice.
  apply Nat.leb_le in H1 as ->. apply Nat.leb_le in H2 as ->. cbn. now rewrite substring_stake.
Qed.

Lemma loop_fuel_enough inp n : String.length (sdrop n inp) < loop_fuel inp.
Proof. unfold loop_fuel. rewrite sdrop_length. lia. Qed.

(** * Loops *)

Lemma scan_line_eq f inp o i : String.length (sdrop (o + i) inp) < f ->
  scan_line f inp o i = LVal (i + span (fun c => negb (is_nl c)) (sdrop (o + i) inp)).
Proof.
  revert i; induction f as [|f IH]; intros i Hf; [lia|]. cbn [scan_line]. rewrite okAnd_eq; cbn [lbind].
  destruct (sdrop (o + i) inp) as [|c r] eqn:E; cbn [head_is span].
  - f_equal; lia.
  - assert (Hc : negb (is_nl c) = negb (Ascii.eqb c (ch 13)) && negb (Ascii.eqb c (ch 10)))
      by (unfold is_nl; apply negb_orb).
    rewrite <- Hc. destruct (negb (is_nl c)) eqn:Ec.
    + apply sdrop_next in E. rewrite <- Nat.add_succ_r in E. rewrite IH; rewrite E; [|cbn in Hf; lia].
      f_equal; lia.
    + f_equal; lia.
Qed.

Lemma scan_ident_eq f inp o i : String.length (sdrop (o + i) inp) < f ->
  scan_ident f inp o i = LVal (i + span is_ident_part (sdrop (o + i) inp)).
Proof.
  revert i; induction f as [|f IH]; intros i Hf; [lia|]. cbn [scan_ident]. rewrite okAnd_eq; cbn [lbind].
  destruct (sdrop (o + i) inp) as [|c r] eqn:E; cbn [head_is span].
  - f_equal; lia.
  - destruct (is_ident_part c) eqn:Ec.
    + apply sdrop_next in E. rewrite <- Nat.add_succ_r in E. rewrite IH; rewrite E; [|cbn in Hf; lia].
      f_equal; lia.
    + f_equal; lia.
Qed.

Lemma scan_quoted_eq f inp q o i : String.length (sdrop (o + i) inp) < f ->
  scan_quoted f inp q o i = LVal (i + span (fun c => negb (Ascii.eqb c q)) (sdrop (o + i) inp)).
Proof.
  revert i; induction f as [|f IH]; intros i Hf; [lia|]. cbn [scan_quoted]. rewrite okAnd_eq; cbn [lbind].
  destruct (sdrop (o + i) inp) as [|c r] eqn:E; cbn [head_is span].
  - f_equal; lia.
  - destruct (negb (Ascii.eqb c q)) eqn:Ec.
    + apply sdrop_next in E. rewrite <- Nat.add_succ_r in E. rewrite IH; rewrite E; [|cbn in Hf; lia].
      f_equal; lia.
    + f_equal; lia.
Qed.

Lemma scan_string_eq f inp o i : String.length (sdrop (o + i) inp) < f ->
  scan_string f inp o i = LVal (i + str_body (sdrop (o + i) inp)).
Proof.
  revert i; induction f as [|f IH]; intros i Hf; [lia|]. cbn [scan_string].
  rewrite peekOk_eq, peekN_eq.
  destruct (sdrop (o + i) inp) as [|c r] eqn:E; cbn [negb lbind str_body].
  - f_equal; lia.
  - assert (E1 : sdrop (o + S i) inp = r) by (rewrite Nat.add_succ_r; eapply sdrop_next; exact E).
    destruct (Ascii.eqb c backslash) eqn:Eb.
    + rewrite peekOk_eq, E1. destruct r as [|d r'].
      * rewrite IH; rewrite E1; cbn in *; [f_equal; lia | lia].
      * assert (E2 : sdrop (o + S (S i)) inp = r') by (rewrite Nat.add_succ_r; eapply sdrop_next; exact E1).
        rewrite IH; rewrite E2; cbn in *; [f_equal; lia | lia].
    + destruct (Ascii.eqb c squote) eqn:Es.
      * rewrite okAnd_eq. replace (o + (i + 1)) with (o + S i) by lia. rewrite E1. cbn [lbind].
        destruct r as [|d r']; cbn [head_is]; [f_equal; lia|].
        assert (E2 : sdrop (o + (i + 2)) inp = r')
          by (replace (o + (i + 2)) with (S (o + S i)) by lia; eapply sdrop_next; exact E1).
        destruct (Ascii.eqb d squote); [|f_equal; lia].
        rewrite IH; rewrite E2; cbn in *; [f_equal; lia | lia].
      * rewrite IH; rewrite E1; cbn in *; [f_equal; lia | lia].
Qed.

Lemma num_loop_eq f inp o base i a b c d : String.length (sdrop (o + i) inp) < f ->
  num_loop f inp o base i a b c d = LVal (nbump i (num_tail base a b c d (sdrop (o + i) inp))).
Proof.
  revert i a b c d; induction f as [|f IH]; intros i a b c d Hf; [lia|]. cbn [num_loop].
  rewrite peekOk_eq, peekN_eq.
  destruct (sdrop (o + i) inp) as [|x r] eqn:E; cbn [negb lbind num_tail].
  - cbn; now rewrite Nat.add_0_r.
  - assert (E1 : sdrop (o + S i) inp = r) by (rewrite Nat.add_succ_r; eapply sdrop_next; exact E).
    assert (Hb1 : forall q, nbump (S i) q = nbump i (nbump 1 q)).
    { intros [e|[[k' f'] d']]; cbn; [reflexivity|]. f_equal. f_equal. f_equal. lia. }
    destruct ((base =? 10) && is_digit x).
    { rewrite IH; rewrite E1; cbn in *; [|lia]. f_equal. apply Hb1. }
    destruct ((base =? 16) && is_hex_digit x).
    { rewrite IH; rewrite E1; cbn in *; [|lia]. f_equal. apply Hb1. }
    destruct (Ascii.eqb x ".").
    { destruct (b || a || (base =? 16)); [reflexivity|].
      rewrite IH; rewrite E1; cbn in *; [|lia]. f_equal. apply Hb1. }
    destruct (negb (base =? 16) && (Ascii.eqb x "e" || Ascii.eqb x "E")).
    { destruct a; [reflexivity|]. rewrite okAnd_eq, E1; cbn [lbind].
      destruct r as [|y r']; cbn [head_is].
      - rewrite okAnd_eq, E1. reflexivity.
      - assert (E2 : sdrop (o + S (S i)) inp = r') by (rewrite Nat.add_succ_r; eapply sdrop_next; exact E1).
        destruct (Ascii.eqb y "+" || Ascii.eqb y "-").
        + rewrite okAnd_eq, E2; cbn [lbind]. destruct (head_is is_digit r') eqn:Ed; [|reflexivity]. cbn [negb].
          rewrite IH; rewrite E2; cbn in *; [|lia]. f_equal.
          destruct (num_tail base true b true d r') as [e|[[k' f'] d']]; cbn; [reflexivity|]. repeat f_equal; lia.
        + rewrite okAnd_eq, E1; cbn [lbind head_is]. destruct (is_digit y); [|reflexivity]. cbn [negb].
          rewrite IH; rewrite E1; cbn [String.length] in *; [|lia]. f_equal. apply Hb1. }
    cbn; now rewrite Nat.add_0_r.
Qed.

(** The layout functions. *)
Lemma space_width_eq inp o :
  space_width inp o = match sdrop o inp with
    | "" => 0
    | String c0 r0 => if ws1 c0 then 1 else match r0 with
      | "" => 0
      | String c1 r1 => if ws2 c0 c1 then 2 else match r1 with
        | "" => 0
        | String c2 _ => if ws3 c0 c1 c2 then 3 else 0 end end end.
Proof.
  unfold space_width. rewrite (sdrop_get o), (sdrop_get (o + 1)), (sdrop_get (o + 2)).
  rewrite !(sdrop_add o).
  destruct (sdrop o inp) as [|c0 [|c1 [|c2 r]]]; try reflexivity; cbn [sdrop].
  unfold ws3. fold (ws1 c0). fold (ws2 c0 c1). destruct (ws1 c0); [reflexivity|]. destruct (ws2 c0 c1); [reflexivity|].
  repeat match goal with |- (if ?b then 3 else _) = _ => destruct b; cbn [orb]; [rewrite ?orb_true_r; reflexivity|] end.
  rewrite ?orb_false_r. reflexivity.
Qed.

Lemma skip_space_eq f inp o : String.length (sdrop o inp) < f ->
  skip_space f inp o = LVal (o + ws (sdrop o inp)).
Proof.
  revert o; induction f as [|f IH]; intros o Hf; [lia|]. cbn [skip_space].
  rewrite is_eof_eq, space_width_eq.
  destruct (sdrop o inp) as [|c0 r0] eqn:E; [cbn; f_equal; lia|].
  cbn [ws]. assert (E1 : sdrop (o + 1) inp = r0) by (rewrite sdrop_add, E; reflexivity).
  destruct (ws1 c0).
  { rewrite IH; rewrite E1; cbn in *; [f_equal; lia | lia]. }
  destruct r0 as [|c1 r1]; [f_equal; lia|].
  assert (E2 : sdrop (o + 2) inp = r1) by (rewrite sdrop_add, E; reflexivity).
  destruct (ws2 c0 c1).
  { rewrite IH; rewrite E2; cbn in *; [f_equal; lia | lia]. }
  destruct r1 as [|c2 r2]; [f_equal; lia|].
  assert (E3 : sdrop (o + 3) inp = r2) by (rewrite sdrop_add, E; reflexivity).
  destruct (ws3 c0 c1 c2).
  { rewrite IH; rewrite E3; cbn in *; [f_equal; lia | lia]. }
  f_equal; lia.
Qed.

(** Layout after white space has been skipped. *)
Lemma layout_ws : forall n s, String.length s <= n ->
  layout Plain s = bump (ws s) (layout Plain (sdrop (ws s) s)).
Proof.
  induction n as [|n IH]; intros s Hn.
  - destruct s; cbn in Hn; [reflexivity | lia].
  - destruct s as [|c0 r0]; [reflexivity|]. cbn [ws]. cbn [String.length] in Hn.
    destruct (ws1 c0) eqn:E1.
    { cbn [layout]. rewrite E1. rewrite (IH r0) by lia. cbn [sdrop].
      destruct (layout Plain (sdrop (ws r0) r0)); reflexivity. }
    destruct r0 as [|c1 r1]; [cbn; now rewrite E1|].
    destruct (ws2 c0 c1) eqn:E2.
    { assert (Hm : Ascii.eqb c0 "-" = false /\ Ascii.eqb c0 "/" = false).
      { unfold ws2 in E2. apply andb_true_iff in E2 as [Ha _]. apply Nat.eqb_eq in Ha.
        split; apply Ascii.eqb_neq; intros ->; discriminate Ha. }
      destruct Hm as [Hm1 Hm2]. cbn [layout]. rewrite E1, E2, Hm1, Hm2. cbn [andb]. cbn [String.length] in Hn.
      rewrite (IH r1) by lia. cbn [sdrop Nat.add].
      destruct (layout Plain (sdrop (ws r1) r1)); reflexivity. }
    destruct r1 as [|c2 r2]; [cbn [sdrop bump Nat.add]; destruct (layout Plain _) as [x y]; reflexivity|].
    destruct (ws3 c0 c1 c2) eqn:E3.
    { assert (Hm : Ascii.eqb c0 "-" = false /\ Ascii.eqb c0 "/" = false).
      { split; apply Ascii.eqb_neq; intros ->; discriminate E3. }
      destruct Hm as [Hm1 Hm2]. cbn [layout]. rewrite E1, E2, E3, Hm1, Hm2. cbn [andb]. cbn [String.length] in Hn.
      rewrite (IH r2) by lia. cbn [sdrop Nat.add].
      destruct (layout Plain (sdrop (ws r2) r2)); reflexivity. }
    cbn [sdrop bump Nat.add]. destruct (layout Plain _) as [x y]; reflexivity.
Qed.

Lemma bump_0 r : bump 0 r = r.
Proof. destruct r; reflexivity. Qed.

Lemma bump_bump a b r : bump a (bump b r) = bump (a + b) r.
Proof. destruct r; unfold bump; cbn. now rewrite Nat.add_assoc. Qed.

Lemma layout_line s :
  let n := span (fun c => negb (is_nl c)) s in
  layout InLine s = match sdrop n s with
                    | "" => (n, false)
                    | String _ r => bump (S n) (layout Plain r)
                    end.
Proof.
  induction s as [|c s IH]; cbn [span]; [reflexivity|].
  cbn [layout]. destruct (is_nl c) eqn:E; cbn [negb sdrop].
  - reflexivity.
  - cbn in IH. rewrite IH. destruct (sdrop (span (fun c0 => negb (is_nl c0)) s) s); [reflexivity|].
    rewrite bump_bump. reflexivity.
Qed.

(** Length up to the end of a block comment, when closed. *)
Fixpoint block_len (s : string) : option nat :=
  match s with
  | String c0 r0 =>
      if Ascii.eqb c0 "*" && head_is (fun c => Ascii.eqb c "/") r0 then Some 0
      else option_map S (block_len r0)
  | "" => None
  end.

Lemma scan_block_eq f inp o i : String.length (sdrop (o + i) inp) < f ->
  scan_block f inp o i = LVal (match block_len (sdrop (o + i) inp) with
    | Some n => inl (i + n) | None => inr (i + String.length (sdrop (o + i) inp)) end).
Proof.
  revert i; induction f as [|f IH]; intros i Hf; [lia|]. cbn [scan_block].
  rewrite peekOk_eq. destruct (sdrop (o + i) inp) as [|c r] eqn:E; [cbn; do 2 f_equal; lia|].
  assert (E1 : sdrop (o + (i + 1)) inp = r) by (replace (o + (i + 1)) with (S (o + i)) by lia; eapply sdrop_next; exact E).
  rewrite peekOk_eq, !peekN_eq, E, E1. cbn [block_len].
  assert (Hs : scan_block f inp o (S i) = LVal match option_map S (block_len r) with
               | Some n => inl (i + n) | None => inr (i + String.length (String c r)) end).
  { replace (i + 1) with (S i) in E1 by lia. rewrite IH; rewrite E1; cbn in *; [|lia].
    destruct (block_len r); cbn; do 2 f_equal; lia. }
  destruct r as [|d r']; cbn [head_is lbind].
  - rewrite andb_false_r. exact Hs.
  - destruct (Ascii.eqb c "*"); cbn [lbind andb]; [|exact Hs].
    destruct (Ascii.eqb d "/"); cbn [lbind]; [|exact Hs]. f_equal. f_equal. lia.
Qed.

Lemma layout_block s :
  layout InBlock s = match block_len s with
                     | Some n => bump (n + 2) (layout Plain (sdrop (n + 2) s))
                     | None => (String.length s, true)
                     end.
Proof.
  induction s as [|c r IH]; [reflexivity|]. cbn [layout block_len].
  assert (Hs : bump 1 (layout InBlock r) = match option_map S (block_len r) with
     | Some n => bump (n + 2) (layout Plain (sdrop (n + 2) (String c r))) | None => (String.length (String c r), true) end).
  { rewrite IH. destruct (block_len r); cbn [option_map]; [|reflexivity]. rewrite bump_bump. reflexivity. }
  destruct r as [|d r']; cbn [head_is].
  - rewrite andb_false_r. exact Hs.
  - destruct (Ascii.eqb c "*" && Ascii.eqb d "/"); [|exact Hs]. reflexivity.
Qed.

Lemma block_len_le s n : block_len s = Some n -> n + 2 <= String.length s.
Proof.
  revert n; induction s as [|c r IH]; intros n H; cbn in H; [discriminate|].
  destruct (Ascii.eqb c "*" && head_is (fun c0 => Ascii.eqb c0 "/") r) eqn:E.
  - injection H as <-. apply andb_true_iff in E as [_ E]. destruct r; cbn in *; [discriminate | lia].
  - destruct (block_len r); cbn in H; [|discriminate]. injection H as <-. specialize (IH _ eq_refl). cbn; lia.
Qed.

(** Equal heads of layouts that start with no white space. *)
Lemma ws_idem : forall n s, String.length s <= n -> ws (sdrop (ws s) s) = 0.
Proof.
  induction n as [|n IH]; intros s Hn.
  - destruct s; cbn in Hn; [reflexivity | lia].
  - destruct s as [|c0 r0]; [reflexivity|]. cbn [ws]. cbn [String.length] in Hn.
    destruct (ws1 c0) eqn:E1; [cbn [sdrop]; apply IH; lia|].
    destruct r0 as [|c1 r1]; [cbn; now rewrite E1|].
    destruct (ws2 c0 c1) eqn:E2; [cbn [sdrop Nat.add]; apply IH; cbn in Hn; lia|].
    destruct r1 as [|c2 r2]; [cbn; now rewrite E1, E2|].
    destruct (ws3 c0 c1 c2) eqn:E3; [cbn [sdrop Nat.add]; apply IH; cbn in Hn; lia|].
    cbn. now rewrite E1, E2, E3.
Qed.

Lemma ws_le : forall n s, String.length s <= n -> ws s <= String.length s.
Proof.
  induction n as [|n IH]; intros s Hn; destruct s as [|c0 r0]; cbn in Hn; try (cbn; lia).
  cbn [ws]. destruct (ws1 c0); [specialize (IH r0 ltac:(lia)); cbn; lia|].
  destruct r0 as [|c1 r1]; [lia|]. destruct (ws2 c0 c1); [cbn in *; specialize (IH r1 ltac:(lia)); lia|].
  destruct r1 as [|c2 r2]; [lia|]. destruct (ws3 c0 c1 c2); [cbn in *; specialize (IH r2 ltac:(lia)); lia|]. lia.
Qed.

Lemma nl_ws1 c : Ascii.eqb c (ch 13) || Ascii.eqb c (ch 10) = true -> ws1 c = true.
Proof. intros H. apply orb_true_iff in H as [H|H]; apply Ascii.eqb_eq in H as ->; reflexivity. Qed.

Definition comment_error : string := "unclosed multi-line comment".

(** [skipComments] followed by [skipSpace] skips the layout. *)
Lemma skip_comments_eq f inp o : String.length (sdrop o inp) < f ->
  exists k b, layout Plain (sdrop o inp) = (k, b) /\
    skip_comments f inp o = LVal (o + k, if b then Some comment_error else None).
Proof.
  revert o; induction f as [|f IH]; intros o Hf; [lia|]. cbn [skip_comments].
  rewrite is_eof_eq. destruct (sdrop o inp) as [|c0 r0] eqn:E0.
  { exists 0, false. split; [reflexivity|]. do 2 f_equal; lia. }
  rewrite <- E0 in *. rewrite skip_space_eq by apply loop_fuel_enough. cbn [lbind].
  rewrite (layout_ws _ _ (le_n _)).
  set (w := ws (sdrop o inp)). set (o1 := o + w).
  assert (Hd : sdrop w (sdrop o inp) = sdrop o1 inp) by (unfold o1; now rewrite sdrop_add).
  rewrite Hd. pose proof (ws_le _ _ (le_n (String.length (sdrop o inp)))) as Hwle. fold w in Hwle.
  assert (Hws : ws (sdrop o1 inp) = 0) by (rewrite <- Hd; apply (ws_idem _ _ (le_n _))).
  assert (Hlen : String.length (sdrop o1 inp) <= String.length (sdrop o inp)).
  { unfold o1. rewrite !sdrop_length. lia. }
  rewrite peekOk_eq, peekN_eq, !okAnd_eq. rewrite Nat.add_0_r.
  clear Hd. clearbody w. 
  assert (Hgoal : forall kk bb, layout Plain (sdrop o1 inp) = (kk, bb) ->
     exists k b, bump w (layout Plain (sdrop o1 inp)) = (k, b) /\
       @LVal (nat * option string) (o1 + kk, if bb then Some comment_error else None) =
       LVal (o + k, if b then Some comment_error else None)).
  { intros kk bb Hkb. rewrite Hkb. exists (w + kk), bb. split; [reflexivity|]. unfold o1. now rewrite Nat.add_assoc. }
  assert (Hg0 : layout Plain (sdrop o1 inp) = (0, false) ->
     exists k b, bump w (layout Plain (sdrop o1 inp)) = (k, b) /\
       @LVal (nat * option string) (o1, None) = LVal (o + k, if b then Some comment_error else None)).
  { intros H0. destruct (Hgoal _ _ H0) as (k & b & H1 & H2). exists k, b. split; [exact H1|]. rewrite <- H2.
    now rewrite Nat.add_0_r. }
  destruct (sdrop o1 inp) as [|c r] eqn:E1.
  { cbn [negb]. apply Hg0. reflexivity. }
  cbn [negb lbind]. rewrite (sdrop_add o1 1), E1. cbn [sdrop].
  assert (Hw1 : ws1 c = false).
  { cbn [ws] in Hws. destruct (ws1 c); [discriminate | reflexivity]. }
  destruct (Ascii.eqb c "-") eqn:Em.
  { destruct r as [|d r'].
    { cbn [head_is lbind]. apply Hg0. cbn. now rewrite Hw1. }
    cbn [head_is lbind]. destruct (Ascii.eqb d "-") eqn:Em2.
    2:{ apply Hg0.
        apply Ascii.eqb_eq in Em as ->. cbn [layout]. rewrite Hw1, Em2. cbn.
        destruct (ws2 "-" d) eqn:W2; [discriminate W2|]. destruct r'; [reflexivity|].
        destruct (ws3 "-" d a) eqn:W3; [discriminate W3 | reflexivity]. }
    assert (E2 : sdrop (o1 + 2) inp = r') by (rewrite sdrop_add, E1; reflexivity).
    unfold consume_line_comment. rewrite scan_line_eq by apply loop_fuel_enough. cbn [lbind].
    rewrite peekOk_eq. rewrite Nat.add_0_r, E2. cbn [Nat.add].
    set (n := span (fun c1 => negb (is_nl c1)) r').
    assert (HL : layout Plain (String c (String d r')) = bump 2 (layout InLine r')).
    { cbn [layout]. rewrite Hw1, Em, Em2. reflexivity. }
    rewrite HL in *. pose proof (layout_line r') as HL2. cbv zeta in HL2. fold n in HL2. rewrite HL2 in *.
    rewrite (sdrop_add (o1 + 2) n), E2.
    destruct (sdrop n r') as [|x r2] eqn:E3.
    - destruct (IH (o1 + 2 + n)) as (k & b & Hk & Hs).
      { rewrite sdrop_add, E2, E3. cbn in Hf, Hlen |- *. lia. }
      rewrite sdrop_add, E2, E3 in Hk. cbn in Hk. injection Hk as <- <-.
      rewrite Hs. replace (o1 + 2 + n + 0) with (o1 + (2 + n)) by lia. apply (Hgoal (2 + n) false). reflexivity.
    - assert (E4 : sdrop (o1 + 2 + S n) inp = r2).
      { rewrite sdrop_add, E2. eapply sdrop_next; exact E3. }
      destruct (IH (o1 + 2 + S n)) as (k & b & Hk & Hs).
      { rewrite E4. pose proof (sdrop_length n r') as Hl2. rewrite E3 in Hl2. cbn in *. lia. }
      rewrite Hs. rewrite E4 in Hk.
      replace (o1 + 2 + S n + k) with (o1 + (2 + (S n + k))) by lia.
      apply (Hgoal (2 + (S n + k)) b). rewrite Hk. reflexivity. }
  destruct (Ascii.eqb c "/") eqn:Es.
  { destruct r as [|d r'].
    { cbn [head_is lbind]. apply Hg0. cbn. now rewrite Hw1. }
    cbn [head_is lbind]. destruct (Ascii.eqb d "*") eqn:Es2.
    2:{ apply Hg0.
        apply Ascii.eqb_eq in Es as ->. cbn [layout]. rewrite Hw1, Es2. cbn.
        destruct (ws2 "/" d) eqn:W2; [discriminate W2|]. destruct r'; [reflexivity|].
        destruct (ws3 "/" d a) eqn:W3; [discriminate W3 | reflexivity]. }
    assert (E2 : sdrop (o1 + 2) inp = r') by (rewrite sdrop_add, E1; reflexivity).
    assert (HL : layout Plain (String c (String d r')) = bump 2 (layout InBlock r')).
    { cbn [layout]. rewrite Hw1, Em, Es, Es2. reflexivity. }
    rewrite HL in *. rewrite layout_block in *.
    unfold consume_block_comment. rewrite scan_block_eq by apply loop_fuel_enough. cbn [lbind].
    rewrite Nat.add_0_r, E2. cbn [Nat.add].
    destruct (block_len r') as [n|] eqn:Eb.
    - cbn [lbind]. assert (E4 : sdrop (o1 + 2 + (n + 2)) inp = sdrop (n + 2) r') by (rewrite sdrop_add, E2; reflexivity).
      destruct (IH (o1 + 2 + (n + 2))) as (k & b & Hk & Hs).
      { rewrite E4. rewrite sdrop_length. cbn in *. lia. }
      rewrite Hs. rewrite E4 in Hk.
      replace (o1 + 2 + (n + 2) + k) with (o1 + (2 + (n + 2 + k))) by lia.
      apply (Hgoal (2 + (n + 2 + k)) b). rewrite Hk. reflexivity.
    - cbn [lbind]. replace (o1 + 2 + String.length r') with (o1 + (2 + String.length r')) by lia.
      apply (Hgoal (2 + String.length r') true). reflexivity. }
  destruct (Ascii.eqb c (ch 13) || Ascii.eqb c (ch 10)) eqn:En.
  { apply nl_ws1 in En. congruence. }
  apply Hg0.
  cbn [layout]. rewrite Hw1, Em, Es. cbn [andb]. destruct r as [|c1 r1]; [reflexivity|].
  cbn [ws] in Hws. rewrite Hw1 in Hws. destruct (ws2 c c1); [discriminate|].
  destruct r1 as [|c2 r2]; [reflexivity|]. destruct (ws3 c c1 c2); [discriminate | reflexivity].
Qed.

(** After the layout there is no more white space. *)
Lemma layout_stop : forall n s k, String.length s <= n ->
  (forall m, layout m s = (k, false) -> ws (sdrop k s) = 0 /\ k <= String.length s).
Proof.
  induction n as [|n IH]; intros s k Hn m H.
  - destruct s; cbn in Hn; [|lia]. destruct m; cbn in H; inversion H; subst; cbn; auto.
  - destruct s as [|c0 r0]; [destruct m; cbn in H; inversion H; subst; cbn; auto|].
    cbn [String.length] in Hn.
    assert (Step : forall j m' r, j <= String.length (String c0 r0) -> j > 0 ->
      r = sdrop j (String c0 r0) -> bump j (layout m' r) = (k, false) ->
      ws (sdrop k (String c0 r0)) = 0 /\ k <= String.length (String c0 r0)).
    { intros j m' r Hj Hj0 Hr Hb. destruct (layout m' r) as [k' b'] eqn:El. unfold bump in Hb. cbn in Hb.
      injection Hb as <- ->. 
      destruct (IH r k') with (m := m') as [IH1 IH2].
      { subst r. rewrite sdrop_length. cbn [String.length]. lia. } { exact El. }
      split. { rewrite sdrop_add, <- Hr. exact IH1. }
      subst r. rewrite sdrop_length in IH2. cbn [String.length] in *. lia. }
    destruct m; cbn [layout] in H.
    + destruct (ws1 c0) eqn:E1; [eapply (Step 1); [| | |exact H]; cbn; auto; lia|].
      destruct r0 as [|c1 r1]; [inversion H; subst; cbn; rewrite E1; split; [reflexivity|lia]|].
      destruct (Ascii.eqb c0 "-" && Ascii.eqb c1 "-"); [eapply (Step 2); [| | |exact H]; cbn; auto; lia|].
      destruct (Ascii.eqb c0 "/" && Ascii.eqb c1 "*"); [eapply (Step 2); [| | |exact H]; cbn; auto; lia|].
      destruct (ws2 c0 c1) eqn:E2; [eapply (Step 2); [| | |exact H]; cbn; auto; lia|].
      destruct r1 as [|c2 r2]; [inversion H; subst; cbn; rewrite E1, E2; split; [reflexivity|lia]|].
      destruct (ws3 c0 c1 c2) eqn:E3; [eapply (Step 3); [| | |exact H]; cbn; auto; lia|].
      inversion H; subst; cbn; rewrite E1, E2, E3; split; [reflexivity|lia].
    + eapply (Step 1); [| | |exact H]; cbn; auto; lia.
    + destruct r0 as [|c1 r1].
      * eapply (Step 1); [| | |exact H]; cbn; auto; lia.
      * destruct (Ascii.eqb c0 "*" && Ascii.eqb c1 "/").
        -- eapply (Step 2); [| | |exact H]; cbn; auto; lia.
        -- eapply (Step 1); [| | |exact H]; cbn; auto; lia.
Qed.

(** * Scanners *)

Definition to_lout (o : nat) (r : lexed) : lout :=
  LVal (mkL (o + lx_len r) (option_map (shift_tok o) (lx_tok r)), lx_err r).

Lemma simple_token_eq inp o n k : o + n <= String.length inp ->
  simple_token inp o n k = to_lout o (mkLx n (Some (mkToken 0 n (k (stake n (sdrop o inp))) (stake n (sdrop o inp)) 0 QNone)) None).
Proof.
  intros H. unfold simple_token. rewrite slice_eq by lia. cbn [lbind]. unfold to_lout, shift_tok. cbn.
  now rewrite !Nat.add_0_r, Nat.sub_0_r.
Qed.

Lemma num_tail_le : forall n base a b c d s k f h, String.length s <= n ->
  num_tail base a b c d s = inr (k, f, h) -> k <= String.length s.
Proof.
  induction n as [|n IH]; intros base a b c d s k f h Hn H.
  { destruct s; cbn in Hn; [|lia]. cbn in H. injection H as <- _ _. lia. }
  destruct s as [|x r]; cbn [num_tail] in H; [injection H as <- _ _; lia|].
  cbn [String.length] in Hn.
  assert (B : forall j a' b' c' d' r', j + String.length r' <= String.length (String x r) -> String.length r' <= n ->
      nbump j (num_tail base a' b' c' d' r') = inr (k, f, h) -> k <= String.length (String x r)).
  { intros j a' b' c' d' r' Hj Hr Hb. destruct (num_tail base a' b' c' d' r') as [e|[[k' f'] h']] eqn:E; [discriminate|].
    cbn in Hb. injection Hb as <- <- <-. apply IH in E; lia. }
  destruct ((base =? 10) && is_digit x); [refine (B _ _ _ _ _ _ _ _ H); cbn in *; lia|].
  destruct ((base =? 16) && is_hex_digit x); [refine (B _ _ _ _ _ _ _ _ H); cbn in *; lia|].
  destruct (Ascii.eqb x ".").
  { destruct (b || a || (base =? 16)); [discriminate|]. refine (B _ _ _ _ _ _ _ _ H); cbn in *; lia. }
  destruct (negb (base =? 16) && (Ascii.eqb x "e" || Ascii.eqb x "E")).
  { destruct a; [discriminate|]. destruct r as [|y r']; [discriminate|].
    destruct (Ascii.eqb y "+" || Ascii.eqb y "-").
    - destruct (head_is is_digit r'); [|discriminate]. refine (B _ _ _ _ _ _ _ _ H); cbn in *; lia.
    - destruct (is_digit y); [|discriminate]. refine (B _ _ _ _ _ _ _ _ H); cbn in *; lia. }
  injection H as <- _ _. lia.
Qed.

Lemma consume_number_eq inp o c r : sdrop o inp = String c r ->
  consume_number inp o = to_lout o (lex_number (sdrop o inp)).
Proof.
  intros E. unfold consume_number. rewrite peekN_eq, Nat.add_0_r, E. cbn [lbind].
  set (s := String c r) in *. unfold lex_number. change (head_is is_sign s) with (is_sign c).
  fold (is_sign c). set (i := if is_sign c then 1 else 0). cbv zeta.
  assert (Hhex : (if peekOk inp o (i + 1)
      then let* a := peekN inp o i in if Ascii.eqb a "0" then let* b := peekN inp o (i + 1) in LVal (Ascii.eqb b "x") else LVal false
      else LVal false) = LVal (starts_hex (sdrop i s))).
  { rewrite peekOk_eq, !peekN_eq. rewrite (sdrop_add o i), E. fold s.
    replace (o + (i + 1)) with (o + i + 1) by lia. rewrite (sdrop_add (o + i) 1), (sdrop_add o i), E. fold s.
    destruct (sdrop i s) as [|a [|b q]]; cbn; try reflexivity.
    destruct (Ascii.eqb a "0"); reflexivity. }
  rewrite Hhex. cbn [lbind]. set (hex := starts_hex (sdrop i s)).
  set (i2 := if hex then i + 2 else i). set (bs := if hex then 16 else 10).
  rewrite num_loop_eq by apply loop_fuel_enough. cbn [lbind].
  rewrite (sdrop_add o i2), E. fold s.
  destruct (num_tail bs false false false false (sdrop i2 s)) as [e|[[k fl] hn]] eqn:En; cbn [nbump].
  - unfold to_lout; cbn; now rewrite Nat.add_0_r.
  - rewrite okAnd_eq. rewrite (sdrop_add o), E. fold s. cbn [lbind].
    destruct (head_is is_ident_part (sdrop (i2 + k) s) || negb hn).
    + unfold to_lout; cbn; now rewrite Nat.add_0_r.
    + assert (Hk : i2 + k <= String.length s).
      { apply num_tail_le with (n := String.length (sdrop i2 s)) in En; [|lia]. rewrite sdrop_length in En.
        assert (i2 <= String.length s); [|lia].
        assert (Hi : i <= String.length s) by (unfold i, s; destruct (is_sign c); cbn; lia).
        unfold i2. destruct hex eqn:Eh; [|exact Hi]. unfold hex, starts_hex in Eh.
        pose proof (sdrop_length i s) as Hl. destruct (sdrop i s) as [|? [|? ?]]; try discriminate. cbn [String.length] in Hl. lia. }
      assert (Ho : o + (i2 + k) <= String.length inp).
      { pose proof (sdrop_length o inp) as Hl. rewrite E in Hl. fold s in Hl. unfold s in Hk, Hl. cbn in *. lia. }
      rewrite slice_eq by lia. cbn [lbind]. unfold to_lout, shift_tok. cbn. rewrite !Nat.add_0_r, Nat.sub_0_r, E.
      reflexivity.
Qed.

Lemma consume_quoted_eq inp o q r : sdrop o inp = String q r ->
  Ascii.eqb q backtick || Ascii.eqb q dquote = true ->
  consume_ident inp o = to_lout o (lex_quoted q (sdrop o inp)).
Proof.
  intros E Hq. unfold consume_ident. rewrite okAnd_eq, Nat.add_0_r, E. cbn [head_is lbind].
  rewrite Hq. rewrite peekN_eq, Nat.add_0_r, E. cbn [lbind].
  assert (E1 : sdrop (o + 1) inp = r) by (rewrite sdrop_add, E; reflexivity).
  rewrite scan_quoted_eq by apply loop_fuel_enough. cbn [lbind]. rewrite Nat.add_0_r, E1. cbn [Nat.add].
  unfold lex_quoted. cbn [sdrop]. change (sdrop 0 r) with r.
  set (n := span (fun c => negb (Ascii.eqb c q)) r).
  rewrite okAnd_eq, sdrop_add, E1. cbn [lbind].
  assert (Hn : n <= String.length r) by apply span_le.
  assert (Hlen : String.length inp = o + S (String.length r)).
  { pose proof (sdrop_length o inp) as Hl. rewrite E in Hl. cbn in Hl. lia. }
  rewrite slice_eq by lia. cbn [lbind]. rewrite Nat.add_0_r, E1, Nat.sub_0_r.
  assert (Hcl : match sdrop n r with "" => stake n r = r | String c _ => Ascii.eqb c q = true end).
  { unfold n. clear. induction r as [|c r IH]; cbn; [reflexivity|].
    destruct (Ascii.eqb c q) eqn:Ec; cbn; [exact Ec|].
    destruct (sdrop (span (fun c0 => negb (Ascii.eqb c0 q)) r) r) eqn:Ed; [now rewrite IH | exact IH]. }
  destruct (sdrop n r) as [|c r2].
  - rewrite Hcl. reflexivity.
  - cbn [head_is]. rewrite Hcl. cbn [negb]. unfold to_lout, shift_tok. cbn [lx_len lx_tok lx_err option_map tpos tend tkind tstr tbase tquote].
    replace (o + 1 + n + 1) with (o + (n + 2)) by lia. replace (o + 1 + n) with (o + (1 + n)) by lia. reflexivity.
Qed.

Lemma consume_bare_eq inp o c r : sdrop o inp = String c r ->
  Ascii.eqb c backtick || Ascii.eqb c dquote = false ->
  consume_ident inp o = to_lout o (lex_bare (sdrop o inp)).
Proof.
  intros E Hq. unfold consume_ident. rewrite okAnd_eq, Nat.add_0_r, E. cbn [head_is lbind].
  rewrite Hq. rewrite okAnd_eq, Nat.add_0_r, E. cbn [head_is lbind].
  rewrite scan_ident_eq by apply loop_fuel_enough. cbn [lbind].
  assert (Hlen : String.length inp = o + S (String.length r)).
  { pose proof (sdrop_length o inp) as Hl. rewrite E in Hl. cbn in Hl. lia. }
  unfold lex_bare. cbn [head_is].
  set (n := if Ascii.eqb c "$" then S (span is_ident_part (sdrop 1 (String c r))) else span is_ident_part (String c r)).
  assert (Hn : (if Ascii.eqb c "$" then 1 else 0) + span is_ident_part (sdrop (o + (if Ascii.eqb c "$" then 1 else 0)) inp) = n).
  { unfold n. destruct (Ascii.eqb c "$"); rewrite sdrop_add, E; reflexivity. }
  rewrite Hn. assert (Hle : n <= S (String.length r)).
  { unfold n. destruct (Ascii.eqb c "$").
    - cbn [sdrop]. change (sdrop 0 r) with r. pose proof (span_le is_ident_part r); lia.
    - apply (span_le is_ident_part (String c r)). }
  rewrite slice_eq by lia. cbn [lbind]. rewrite Nat.add_0_r, E, Nat.sub_0_r.
  unfold to_lout, shift_tok. unfold to_lout; cbn; now rewrite Nat.add_0_r.
Qed.

Lemma str_body_stop : forall n s, String.length s <= n ->
  match sdrop (str_body s) s with "" => True | String c _ => Ascii.eqb c squote = true end.
Proof.
  induction n as [|n IH]; intros s Hn; destruct s as [|c r]; cbn in Hn; try lia; [exact I|exact I|].
  cbn [str_body]. destruct (Ascii.eqb c backslash).
  - destruct r as [|d r']; [exact I|]. cbn [sdrop Nat.add]. apply IH. cbn in Hn; lia.
  - destruct (Ascii.eqb c squote) eqn:Ec.
    + destruct r as [|d r']; [exact Ec|]. destruct (Ascii.eqb d squote); [|exact Ec].
      cbn [sdrop Nat.add]. apply IH. cbn in Hn; lia.
    + cbn [sdrop]. apply IH; lia.
Qed.

Lemma consume_string_eq inp o c r : sdrop o inp = String c r ->
  consume_string inp o = to_lout o (lex_string (sdrop o inp)).
Proof.
  intros E. unfold consume_string. rewrite scan_string_eq by apply loop_fuel_enough. cbn [lbind].
  assert (E1 : sdrop (o + 1) inp = r) by (rewrite sdrop_add, E; reflexivity).
  rewrite E1, E. unfold lex_string. cbn [sdrop Nat.add]. change (sdrop 0 r) with r.
  set (n := str_body r).
  rewrite okAnd_eq. replace (o + S n) with (o + 1 + n) by lia. rewrite (sdrop_add (o + 1)), E1. cbn [lbind].
  pose proof (str_body_stop _ r (le_n _)) as Hs. fold n in Hs.
  assert (Hle : n <= String.length r) by (apply (str_body_le _ _ (le_n _))).
  assert (Hlen : String.length inp = o + S (String.length r)).
  { pose proof (sdrop_length o inp) as Hl. rewrite E in Hl. cbn in Hl. lia. }
  destruct (sdrop n r) as [|d r2].
  - unfold to_lout; cbn; now rewrite Nat.add_0_r.
  - cbn [head_is]. rewrite Hs. cbn [negb]. rewrite slice_eq by lia. cbn [lbind].
    rewrite E1. replace (S n - 1) with n by lia.
    unfold to_lout, shift_tok. cbn. replace (o + (n + 2)) with (o + S (n + 1)) by lia. replace (o + 1 + n) with (o + S n) by lia. reflexivity.
Qed.

Lemma consume_rest_eq inp o c r : sdrop o inp = String c r ->
  Ascii.eqb c backtick || Ascii.eqb c dquote = false ->
  consume_rest inp o c = to_lout o (lex_rest c (sdrop o inp)).
Proof.
  intros E Hq. unfold consume_rest, lex_rest.
  destruct (is_ident_start c); [now apply consume_bare_eq with (c := c) (r := r)|].
  destruct (128 <=? byte_of c); [unfold to_lout; cbn; now rewrite Nat.add_0_r|].
  assert (Hlen : String.length inp = o + S (String.length r)).
  { pose proof (sdrop_length o inp) as Hl. rewrite E in Hl. cbn in Hl. lia. }
  rewrite simple_token_eq by lia. reflexivity.
Qed.

Lemma lex_token_eq inp o prev c r : sdrop o inp = String c r ->
  (let* c := peekN inp o 0 in
        if Ascii.eqb c ">" || Ascii.eqb c "<" || Ascii.eqb c "!" || Ascii.eqb c "=" || Ascii.eqb c "|" then
          let* two := okAnd inp o 1 (fun d =>
            (Ascii.eqb c "|" && Ascii.eqb d "|")
            || (Ascii.eqb c "<" && Ascii.eqb d ">")
            || (Ascii.eqb c "=" && Ascii.eqb d "=")
            || (negb (Ascii.eqb c "|") && Ascii.eqb d "=")) in
          if two then simple_token inp o 2 (fun s => s) else consume_rest inp o c
        else if Ascii.eqb c "+" || Ascii.eqb c "-" then
          let* num := (if has_precedence_token prev then LVal false else okAnd inp o 1 is_digit) in
          if num then consume_number inp o
          else
            let* arrow := okAnd inp o 1 (fun d => Ascii.eqb d ">") in
            if arrow then simple_token inp o 2 (fun _ => "->") else consume_rest inp o c
        else if is_digit c then consume_number inp o
        else if Ascii.eqb c backtick || Ascii.eqb c "$" || Ascii.eqb c dquote then consume_ident inp o
        else if Ascii.eqb c squote then consume_string inp o
        else if Ascii.eqb c ":" then
          let* two := okAnd inp o 1 (fun d => Ascii.eqb d ":") in
          if two then simple_token inp o 2 (fun _ => "::") else consume_rest inp o c
        else if Ascii.eqb c "." then simple_token inp o 1 (fun _ => ".")
        else consume_rest inp o c)
  = to_lout o (lex_token prev (sdrop o inp)).
Proof.
  intros E. rewrite peekN_eq, Nat.add_0_r, E. cbn [lbind]. unfold lex_token.
  assert (Hlen : String.length inp = o + S (String.length r)).
  { pose proof (sdrop_length o inp) as Hl. rewrite E in Hl. cbn in Hl. lia. }
  assert (E1 : sdrop (o + 1) inp = r) by (rewrite sdrop_add, E; reflexivity).
  rewrite !okAnd_eq, E1. cbn [lbind].
  assert (H2 : forall p, head_is p r = true -> o + 2 <= String.length inp).
  { intros p Hp. destruct r; [discriminate|]. cbn in Hlen. lia. }
  destruct (Ascii.eqb c ">" || Ascii.eqb c "<" || Ascii.eqb c "!" || Ascii.eqb c "=" || Ascii.eqb c "|") eqn:C1.
  { assert (Hq : Ascii.eqb c backtick || Ascii.eqb c dquote = false).
    { apply orb_false_iff; split; apply Ascii.eqb_neq; intros ->; discriminate C1. }
    destruct (head_is _ r) eqn:Eh.
    - rewrite simple_token_eq by (eapply H2; eauto). rewrite E. reflexivity.
    - rewrite consume_rest_eq with (r := r) by assumption. rewrite E. reflexivity. }
  unfold is_sign.
  destruct (Ascii.eqb c "+" || Ascii.eqb c "-") eqn:C2.
  { assert (Hq : Ascii.eqb c backtick || Ascii.eqb c dquote = false).
    { apply orb_false_iff; split; apply Ascii.eqb_neq; intros ->; discriminate C2. }
    assert (Hn : (if has_precedence_token prev then LVal false else okAnd inp o 1 is_digit)
                 = LVal (negb (has_precedence_token prev) && head_is is_digit r)).
    { rewrite okAnd_eq, E1. destruct (has_precedence_token prev); reflexivity. }
    rewrite okAnd_eq, E1 in Hn. rewrite Hn. cbn [lbind].
    destruct (negb (has_precedence_token prev) && head_is is_digit r).
    - rewrite consume_number_eq with (c := c) (r := r) by assumption. now rewrite E.
    - destruct (head_is (fun d => Ascii.eqb d ">") r) eqn:Eh.
      + rewrite simple_token_eq by (eapply H2; eauto). rewrite E. reflexivity.
      + rewrite consume_rest_eq with (r := r) by assumption. rewrite E. reflexivity. }
  destruct (is_digit c); [rewrite consume_number_eq with (c := c) (r := r) by assumption; now rewrite E|].
  destruct (Ascii.eqb c backtick || Ascii.eqb c dquote) eqn:Hq.
  { replace (Ascii.eqb c backtick || Ascii.eqb c "$" || Ascii.eqb c dquote) with true.
    2:{ apply orb_true_iff in Hq as [Hq|Hq]; rewrite Hq; rewrite ?orb_true_r; reflexivity. }
    rewrite consume_quoted_eq with (q := c) (r := r) by assumption. now rewrite E. }
  destruct (Ascii.eqb c "$") eqn:Ed.
  { rewrite orb_true_r. cbn [orb]. rewrite consume_bare_eq with (c := c) (r := r) by assumption. now rewrite E. }
  rewrite orb_false_r, Hq.
  destruct (Ascii.eqb c squote); [rewrite consume_string_eq with (c := c) (r := r) by assumption; now rewrite E|].
  destruct (Ascii.eqb c ":").
  { destruct (head_is _ r) eqn:Eh.
    + rewrite simple_token_eq by (eapply H2; eauto). rewrite E. reflexivity.
    + rewrite consume_rest_eq with (r := r) by assumption. rewrite E. reflexivity. }
  destruct (Ascii.eqb c "."); [rewrite simple_token_eq by lia; rewrite E; reflexivity|].
  rewrite consume_rest_eq with (r := r) by assumption. rewrite E. reflexivity.
Qed.

(** The refinement: a request reads what [lex1] says. *)
Theorem consume_eq inp s : consume inp s = to_lout (off s) (lex1 (cur s) (sdrop (off s) inp)).
Proof.
  unfold consume. destruct (skip_comments_eq (loop_fuel inp) inp (off s)) as (k & b & Hk & Hs).
  { apply loop_fuel_enough. }
  rewrite Hs. cbn [lbind]. unfold lex1. rewrite Hk. destruct b; [reflexivity|].
  rewrite skip_space_eq by apply loop_fuel_enough. cbn [lbind].
  destruct (layout_stop _ _ _ (le_n _) _ Hk) as [Hw _].
  rewrite (sdrop_add (off s) k), Hw, Nat.add_0_r, is_eof_eq, (sdrop_add (off s) k).
  destruct (sdrop k (sdrop (off s) inp)) as [|c r] eqn:E.
  - cbn [lex_token lx_shift]. unfold to_lout. unfold to_lout; cbn; now rewrite Nat.add_0_r.
  - rewrite lex_token_eq with (c := c) (r := r) by (rewrite sdrop_add; exact E).
    rewrite sdrop_add, E. unfold to_lout, lx_shift. cbn.
    rewrite Nat.add_assoc. f_equal. f_equal. f_equal.
    destruct (lx_tok _) as [t|]; cbn; [|reflexivity]. unfold shift_tok; cbn. now rewrite !Nat.add_assoc.
Qed.
