(** Grammars of the lexemes and the proof that the lexer reads exactly them. *)
From Coq Require Import String Ascii List Arith Bool Lia.
From Verif Require Import Str Keyword Lexer LexSpec StrFacts LexFacts LexRun.
Import ListNotations.
Local Open Scope string_scope.
Local Open Scope nat_scope.

(** * Specification *)

Fixpoint sall (p : ascii -> bool) (s : string) : bool :=
  match s with "" => true | String c r => p c && sall p r end.

(** A non-empty run of characters satisfying [p]. *)
Definition run1 (p : ascii -> bool) (s : string) : Prop := s <> "" /\ sall p s = true.

Inductive sign : string -> Prop :=
| Sign_none : sign ""
| Sign_plus : sign "+"
| Sign_minus : sign "-".

(** Digits with an optional fraction; the flag tells that there is a dot. *)
Inductive mantissa : string -> bool -> Prop :=
| M_int : forall ds, run1 is_digit ds -> mantissa ds false
| M_dot : forall ds fs, run1 is_digit ds -> sall is_digit fs = true -> mantissa (ds ++ "." ++ fs) true.

Inductive exponent : string -> Prop :=
| Exponent : forall e sg ds, e = "e" \/ e = "E" -> sign sg -> run1 is_digit ds -> exponent (e ++ sg ++ ds).

(** [number s base float]: [s] is a number literal. *)
Inductive number : string -> nat -> bool -> Prop :=
| N_hex : forall sg hs, sign sg -> run1 is_hex_digit hs -> number (sg ++ "0x" ++ hs) 16 false
| N_dec : forall sg m f, sign sg -> mantissa m f -> number (sg ++ m) 10 f
| N_exp : forall sg m f x, sign sg -> mantissa m f -> exponent x -> number (sg ++ m ++ x) 10 true.

(** What may follow a number. *)
Definition number_end (s : string) : Prop :=
  match s with "" => True | String c _ => is_ident_part c = false /\ c <> "."%char end.

(** The text between the quotes of a string literal: escaped characters, doubled
    quotes and other characters. *)
Inductive str_text : string -> Prop :=
| ST_nil : str_text ""
| ST_esc : forall c s, str_text s -> str_text (String "\" (String c s))
| ST_quotes : forall s, str_text s -> str_text (String "'" (String "'" s))
| ST_char : forall c s, c <> "\"%char -> c <> "'"%char -> str_text s -> str_text (String c s).

Definition starts_with (c : ascii) (s : string) : Prop := exists r, s = String c r.

(** A character does not occur in a text. *)
Definition free_of (q : ascii) (s : string) : Prop := sall (fun c => negb (Ascii.eqb c q)) s = true.

(** * Facts *)

Lemma sall_app p a b : sall p (a ++ b) = sall p a && sall p b.
Proof. induction a as [|c a IH]; cbn; [reflexivity|]. now rewrite IH, andb_assoc. Qed.

Lemma span_split p s : exists a r, s = a ++ r /\ sall p a = true /\ head_is p r = false /\ span p s = String.length a.
Proof.
  induction s as [|c s (a & r & H1 & H2 & H3 & H4)]; [exists "", ""; cbn; auto|].
  cbn. destruct (p c) eqn:E.
  - exists (String c a), r. cbn. rewrite E, <- H1. auto.
  - exists "", (String c s). cbn. auto.
Qed.

Lemma span_app p a r : sall p a = true -> head_is p r = false -> span p (a ++ r) = String.length a.
Proof.
  induction a as [|c a IH]; cbn; intros H1 H2.
  - destruct r; cbn in *; [reflexivity | now rewrite H2].
  - apply andb_true_iff in H1 as [-> H1]. now rewrite IH.
Qed.

Lemma nbump_0 r : nbump 0 r = r.
Proof. destruct r as [|[[? ?] ?]]; reflexivity. Qed.
Lemma nbump_nbump a b r : nbump a (nbump b r) = nbump (a + b) r.
Proof. destruct r as [|[[? ?] ?]]; cbn; [reflexivity|]. now rewrite Nat.add_assoc. Qed.

Lemma num_tail_digits a b c d ds r : sall is_digit ds = true ->
  num_tail 10 a b c d (ds ++ r) = nbump (String.length ds) (num_tail 10 a b c (match ds with "" => d | _ => true end) r).
Proof.
  revert d; induction ds as [|x ds IH]; intros d H; cbn [append].
  - now rewrite nbump_0.
  - cbn in H. apply andb_true_iff in H as [Hx H]. cbn [num_tail]. rewrite Hx. cbn [andb Nat.eqb].
    rewrite IH by exact H. rewrite nbump_nbump. cbn. now destruct ds.
Qed.

Lemma num_tail_hex a b c d ds r : sall is_hex_digit ds = true ->
  num_tail 16 a b c d (ds ++ r) = nbump (String.length ds) (num_tail 16 a b c (match ds with "" => d | _ => true end) r).
Proof.
  revert d; induction ds as [|x ds IH]; intros d H; cbn [append].
  - now rewrite nbump_0.
  - cbn in H. apply andb_true_iff in H as [Hx H]. cbn [num_tail]. rewrite Hx. cbn [andb Nat.eqb].
    rewrite IH by exact H. rewrite nbump_nbump. cbn. now destruct ds.
Qed.

Lemma num_tail_e b c d e r : Ascii.eqb e "e" || Ascii.eqb e "E" = true ->
  num_tail 10 false b c d (String e r) =
  match r with
  | String y r' =>
      if Ascii.eqb y "+" || Ascii.eqb y "-" then
        if head_is is_digit r' then nbump 2 (num_tail 10 true b true d r')
        else inl "exponent part should contain at least one digit"
      else if is_digit y then nbump 1 (num_tail 10 true b true d r)
      else inl "exponent part should contain at least one digit"
  | "" => inl "exponent part should contain at least one digit"
  end.
Proof.
  intros He. cbn [num_tail].
  assert (Hd : is_digit e = false /\ Ascii.eqb e "." = false).
  { apply orb_true_iff in He as [He|He]; apply Ascii.eqb_eq in He; subst e; split; reflexivity. }
  destruct Hd as [-> ->]. rewrite He. reflexivity.
Qed.

Lemma digit_ident c : is_digit c = true -> is_ident_part c = true.
Proof. intros H. unfold is_ident_part. now rewrite H. Qed.

Lemma hex_ident c : is_hex_digit c = true -> is_ident_part c = true.
Proof.
  unfold is_hex_digit, is_ident_part, is_lower, is_upper, is_digit. generalize (byte_of c). intros n H.
  repeat match goal with |- context [?a <=? ?b] => destruct (Nat.leb_spec a b) | _ => idtac end;
  repeat match type of H with context [?a <=? ?b] => destruct (Nat.leb_spec a b) end; cbn in *; try reflexivity; try discriminate; lia.
Qed.

Lemma num_tail_end base a b c d r : base = 10 \/ base = 16 -> number_end r -> num_tail base a b c d r = inr (0, c, d).
Proof.
  intros Hb H. destruct r as [|x r]; [reflexivity|]. destruct H as [H1 H2]. cbn [num_tail].
  assert (E1 : is_digit x = false) by (destruct (is_digit x) eqn:E; [apply digit_ident in E; congruence | reflexivity]).
  assert (E2 : is_hex_digit x = false) by (destruct (is_hex_digit x) eqn:E; [apply hex_ident in E; congruence | reflexivity]).
  rewrite E1, E2, !andb_false_r. apply Ascii.eqb_neq in H2 as ->.
  destruct (Ascii.eqb_spec x "e"); [subst; discriminate H1|]. destruct (Ascii.eqb_spec x "E"); [subst; discriminate H1|].
  now rewrite andb_false_r.
Qed.

Lemma number_end_head r : number_end r -> head_is is_ident_part r = false.
Proof. destruct r; [reflexivity | now intros []]. Qed.

(** What an exponent leads to. *)
Lemma num_tail_exponent b c x r : exponent x -> number_end r ->
  num_tail 10 false b c true (x ++ r) = inr (String.length x, true, true).
Proof.
  intros Hx Hr. destruct Hx as [e sg ds He Hs [Hd1 Hd2]].
  destruct ds as [|y ds]; [congruence|]. cbn in Hd2. apply andb_true_iff in Hd2 as [Hy Hd].
  assert (Hn : forall b c, num_tail 10 true b c true (String y (ds ++ r)) = inr (S (String.length ds), c, true)).
  { intros b' c'. change (String y (ds ++ r)) with (String y ds ++ r). rewrite num_tail_digits by (cbn; now rewrite Hy).
    rewrite num_tail_end by auto. cbn. now rewrite Nat.add_0_r. }
  assert (Hz : is_digit y = true -> Ascii.eqb y "+" || Ascii.eqb y "-" = false).
  { intros Hyd. destruct (Ascii.eqb_spec y "+"); [subst; discriminate|]. destruct (Ascii.eqb_spec y "-"); [subst; discriminate|reflexivity]. }
  destruct He as [-> | ->]; destruct Hs; cbn [append]; rewrite num_tail_e by reflexivity;
  cbn [Ascii.eqb Bool.eqb orb head_is]; rewrite ?(Hz Hy); rewrite Hy, Hn; cbn; do 3 f_equal; lia.
Qed.

Lemma exponent_head x : exponent x -> exists c r, x = String c r /\ (c = "e"%char \/ c = "E"%char) .
Proof. intros []. destruct H as [-> | ->]; cbn; eauto. Qed.

(** Decimal literals from the tail's point of view. *)
Lemma num_tail_mantissa m f x r : mantissa m f -> number_end r -> x = "" \/ exponent x ->
  num_tail 10 false false false false (m ++ x ++ r) =
  inr (String.length m + String.length x, match x with "" => f | _ => true end, true).
Proof.
  intros Hm Hr Hx. destruct Hm as [ds [H1 H2] | ds fs [H1 H2] H3].
  - rewrite num_tail_digits by exact H2. destruct ds as [|y ds]; [congruence|].
    destruct Hx as [-> | Hx].
    + cbn [append]. rewrite num_tail_end by auto. cbn. reflexivity.
    + rewrite num_tail_exponent by auto. cbn. destruct (exponent_head _ Hx) as (c & q & -> & _). reflexivity.
  - rewrite !sapp_assoc. rewrite num_tail_digits by exact H2. destruct ds as [|y ds]; [congruence|].
    change ("." ++ fs) with (String "." fs). cbn [append]. cbn [num_tail].
    replace (is_digit "."%char) with false by reflexivity. cbn [andb orb Nat.eqb Ascii.eqb].
    replace (is_hex_digit "."%char) with false by reflexivity. cbn [Ascii.eqb Bool.eqb].
    rewrite num_tail_digits by exact H3.
    destruct Hx as [-> | Hx].
    + cbn [append]. rewrite num_tail_end by auto. destruct fs; cbn; rewrite ?sapp_length; cbn; do 3 f_equal; lia.
    + replace (match fs with "" => true | _ => true end) with true by (destruct fs; reflexivity).
      rewrite num_tail_exponent by auto. cbn. rewrite ?sapp_length. cbn.
      destruct (exponent_head _ Hx) as (c & q & -> & _). do 3 f_equal; cbn; lia.
Qed.

Lemma sign_cases sg : sign sg -> sg = "" \/ sg = "+" \/ sg = "-".
Proof. destruct 1; auto. Qed.

Lemma mantissa_head m f : mantissa m f -> exists c r, m = String c r /\ is_digit c = true.
Proof.
  intros [ds [H1 H2] | ds fs [H1 H2] H3]; destruct ds as [|c ds]; try congruence; cbn in *;
  apply andb_true_iff in H2 as [H2 _]; eauto.
Qed.

Lemma digit_not_sign c : is_digit c = true -> is_sign c = false.
Proof.
  intros H. unfold is_sign. destruct (Ascii.eqb_spec c "+"); [subst; discriminate|].
  destruct (Ascii.eqb_spec c "-"); [subst; discriminate | reflexivity].
Qed.

(** A mantissa, with what follows it, is not the start of a hexadecimal literal. *)
Lemma starts_hex_mantissa m f x r : mantissa m f -> number_end r -> x = "" \/ exponent x -> starts_hex (m ++ x ++ r) = false.
Proof.
  intros Hm Hr Hx.
  assert (Hy : forall s, match s with String b _ => b = "x"%char | "" => False end -> head_is is_digit s = false)
    by (intros [|b s]; [reflexivity|]; intros ->; reflexivity).
  assert (Hxr : match x ++ r with String b _ => b <> "x"%char | "" => True end).
  { destruct Hx as [-> | Hx].
    - cbn. destruct r; [exact I|]. destruct Hr as [Hr _]. intros ->. discriminate.
    - destruct (exponent_head _ Hx) as (c & q & -> & [-> | ->]); cbn; discriminate. }
  unfold starts_hex. destruct Hm as [ds [H1 H2] | ds fs [H1 H2] H3]; destruct ds as [|c ds]; try congruence; cbn in H2;
  apply andb_true_iff in H2 as [H2 H2']; cbn [append].
  - destruct ds as [|c2 ds]; cbn [append].
    + destruct (x ++ r) as [|b q]; [reflexivity|]. apply Ascii.eqb_neq in Hxr. rewrite Hxr. now rewrite andb_false_r.
    + cbn in H2'. apply andb_true_iff in H2' as [H2' _]. destruct (Ascii.eqb_spec c2 "x"); [subst; discriminate|]. now rewrite andb_false_r.
  - destruct ds as [|c2 ds]; cbn.
    + now rewrite andb_false_r.
    + cbn in H2'. apply andb_true_iff in H2' as [H2' _]. destruct (Ascii.eqb_spec c2 "x"); [subst; discriminate|]. now rewrite andb_false_r.
Qed.

Definition number_kind (f : bool) : kind := if f then KFloat else KInt.

(** Completeness: a literal followed by a proper end is read whole. *)
Lemma lex_number_complete n base f r : number n base f -> number_end r ->
  lex_number (n ++ r) = mkLx (String.length n) (Some (mkToken 0 (String.length n) (number_kind f) n base QNone)) None.
Proof.
  intros Hn Hr.
  assert (Main : forall i s hex k, sdrop i (n ++ r) = s -> (if head_is is_sign (n ++ r) then 1 else 0) = i ->
     starts_hex s = hex -> (if hex then i + 2 else i) = k ->
     num_tail (if hex then 16 else 10) false false false false (sdrop k (n ++ r)) = inr (String.length n - k, f, true) ->
     k <= String.length n -> base = (if hex then 16 else 10) ->
     lex_number (n ++ r) = mkLx (String.length n) (Some (mkToken 0 (String.length n) (number_kind f) n base QNone)) None).
  { intros i s hex k H1 H2 H3 H4 H5 H6 H7. unfold lex_number. cbv zeta. rewrite H2, H1, H3, H4, H5. cbn [nbump].
    replace (k + (String.length n - k)) with (String.length n) by lia.
    rewrite sdrop_app_exact, number_end_head by exact Hr. cbn [orb negb]. rewrite stake_app_exact.
    subst base. reflexivity. }
  destruct Hn as [sg hs Hs [Hh1 Hh2] | sg m f' Hs Hm | sg m f' x Hs Hm Hx].
  - assert (Hlen : String.length (sg ++ "0x" ++ hs) = String.length sg + 2 + String.length hs)
      by (rewrite !sapp_length; cbn; lia).
    apply (Main (String.length sg) ("0x" ++ hs ++ r) true (String.length sg + 2)).
    + rewrite !sapp_assoc. apply sdrop_app_exact.
    + destruct Hs; reflexivity.
    + reflexivity.
    + reflexivity.
    + rewrite <- sdrop_sdrop. rewrite !sapp_assoc, sdrop_app_exact. cbn [append sdrop]. rewrite ?sdrop_0.
      rewrite num_tail_hex by exact Hh2. destruct hs as [|y hs]; [congruence|]. rewrite num_tail_end by auto.
      cbn [nbump]; rewrite !sapp_length; cbn [String.length]. do 3 f_equal. lia.
    + rewrite Hlen. lia.
    + reflexivity.
  - destruct (mantissa_head _ _ Hm) as (c & q & Hq & Hc).
    assert (Hex : starts_hex (m ++ r) = false) by (apply (starts_hex_mantissa m f' "" r); auto).
    apply (Main (String.length sg) (m ++ r) false (String.length sg)).
    + rewrite !sapp_assoc. apply sdrop_app_exact.
    + destruct Hs; subst m; cbn; try reflexivity. now rewrite (digit_not_sign _ Hc).
    + exact Hex.
    + reflexivity.
    + rewrite !sapp_assoc, sdrop_app_exact. pose proof (num_tail_mantissa m f' "" r Hm Hr (or_introl eq_refl)) as Hn.
      cbn [append] in Hn. rewrite Hn, !sapp_length. cbn. do 3 f_equal. lia.
    + rewrite sapp_length; lia.
    + reflexivity.
  - destruct (mantissa_head _ _ Hm) as (c & q & Hq & Hc).
    assert (Hex : starts_hex (m ++ x ++ r) = false) by (apply (starts_hex_mantissa m f' x r); auto).
    apply (Main (String.length sg) (m ++ x ++ r) false (String.length sg)).
    + rewrite !sapp_assoc. apply sdrop_app_exact.
    + destruct Hs; subst m; cbn; try reflexivity. now rewrite (digit_not_sign _ Hc).
    + exact Hex.
    + reflexivity.
    + rewrite !sapp_assoc, sdrop_app_exact. rewrite (num_tail_mantissa m f' x r Hm Hr (or_intror Hx)).
      rewrite !sapp_length. destruct (exponent_head _ Hx) as (c' & q' & -> & _). do 3 f_equal. lia.
    + rewrite sapp_length; lia.
    + reflexivity.
Qed.

(** Soundness: what is read is a literal followed by a proper end. *)
Definition starts_number (s : string) : bool :=
  match s with
  | String c r => is_digit c || (is_sign c && head_is is_digit r)
  | "" => false
  end.

Lemma lex_number_err s : lx_tok (lex_number s) = None -> exists e, lex_number s = lx_error 0 e.
Proof.
  unfold lex_number. cbv zeta. destruct (nbump _ _) as [e|[[k f] h]]; [eauto|].
  destruct (_ || _); [eauto | discriminate].
Qed.

Lemma lex_number_sound s t : starts_number s = true -> lx_tok (lex_number s) = Some t ->
  exists n base f r, s = n ++ r /\ number n base f /\ number_end r.
Proof.
  intros Hs Ht.
  assert (Hsg : exists sg u, s = sg ++ u /\ sign sg /\ head_is is_digit u = true /\
     (if head_is is_sign s then 1 else 0) = String.length sg).
  { destruct s as [|c r]; [discriminate|]. cbn in Hs. destruct (is_digit c) eqn:Ec.
    - exists "", (String c r). cbn. rewrite Ec, (digit_not_sign _ Ec). repeat split; constructor.
    - cbn in Hs. apply andb_true_iff in Hs as [H1 H2]. cbn [head_is]. rewrite H1.
      unfold is_sign in H1. apply orb_true_iff in H1 as [H1|H1]; apply Ascii.eqb_eq in H1; subst c.
      + exists "+", r. repeat split; auto; constructor.
      + exists "-", r. repeat split; auto; constructor. }
  destruct Hsg as (sg & u & -> & Hsg & Hu & Hi).
  unfold lex_number in Ht. cbv zeta in Ht. rewrite Hi in Ht. rewrite sdrop_app_exact in Ht.
  destruct (starts_hex u) eqn:Ehex.
  - (* hexadecimal *)
    destruct u as [|a [|b u]]; try discriminate. cbn in Ehex. apply andb_true_iff in Ehex as [Ha Hb].
    apply Ascii.eqb_eq in Ha, Hb. subst a b.
    rewrite <- (sdrop_sdrop 2 (String.length sg)), sdrop_app_exact in Ht. cbn [sdrop] in Ht. rewrite ?sdrop_0 in Ht.
    destruct (span_split is_hex_digit u) as (hs & r & -> & Hh & Hr & _).
    rewrite num_tail_hex in Ht by exact Hh.
    assert (Hend : num_tail 16 false false false (match hs with "" => false | _ => true end) r =
       if head_is (fun c => Ascii.eqb c ".") r then inl "invalid number" else inr (0, false, match hs with "" => false | _ => true end)).
    { destruct r as [|y r]; [reflexivity|]. cbn in Hr. cbn [num_tail head_is Nat.eqb andb negb]. rewrite Hr.
      destruct (Ascii.eqb y "."); reflexivity. }
    rewrite Hend in Ht. destruct (head_is (fun c => Ascii.eqb c ".") r) eqn:Edot; [discriminate|]. cbn [nbump] in Ht.
    destruct (head_is is_ident_part _ || negb _) eqn:Eb; [discriminate|].
    apply orb_false_iff in Eb as [Eb1 Eb2].
    exists (sg ++ "0x" ++ hs), 16, false, r. repeat split.
    + now rewrite !sapp_assoc.
    + constructor; [exact Hsg|]. split; [destruct hs; [discriminate | congruence] | exact Hh].
    + replace (String.length sg + 2 + (String.length hs + 0)) with (String.length (sg ++ "0x" ++ hs) + 0) in Eb1
        by (rewrite !sapp_length; cbn; lia).
      replace (sg ++ String "0" (String "x" (hs ++ r))) with ((sg ++ "0x" ++ hs) ++ r) in Eb1 by (now rewrite !sapp_assoc).
      rewrite sdrop_app_ge, sdrop_0 in Eb1.
      destruct r as [|y r]; [exact I|]. cbn in Eb1, Edot |- *. split; [exact Eb1|]. now apply Ascii.eqb_neq.
  - (* decimal *)
    rewrite sdrop_app_exact in Ht.
    destruct (span_split is_digit u) as (ds & r & -> & Hd & Hr & _).
    assert (Hds : run1 is_digit ds).
    { split; [|exact Hd]. intros ->. cbn in Hu. congruence. }
    rewrite num_tail_digits in Ht by exact Hd.
    replace (match ds with "" => false | _ => true end) with true in Ht by (destruct Hds; destruct ds; congruence).
    assert (Fin : forall m x f r', mantissa m f -> (x = "" \/ exponent x) -> sg ++ ds ++ r = (sg ++ m ++ x) ++ r' ->
       head_is is_ident_part r' = false -> head_is (fun c => Ascii.eqb c ".") r' = false ->
       exists n base f' r0, sg ++ ds ++ r = n ++ r0 /\ number n base f' /\ number_end r0).
    { intros m x f r' Hm Hx He H1 H2. exists (sg ++ m ++ x), 10, (match x with "" => f | _ => true end), r'.
      repeat split; [exact He| |].
      - destruct Hx as [-> | Hx]; [rewrite sapp_nil_r; now constructor|].
        destruct (exponent_head _ Hx) as (c & q & Hq & _). rewrite Hq at 2. eapply N_exp; eassumption.
      - destruct r' as [|y r']; [exact I|]. cbn in *. split; [exact H1|]. now apply Ascii.eqb_neq. }
    (* what follows after an e *)
    assert (Exp : forall b c e r1, (e = "e"%char \/ e = "E"%char) -> forall k f h,
       num_tail 10 false b c true (String e r1) = inr (k, f, h) ->
       exists x r2, String e r1 = x ++ r2 /\ exponent x /\ k = String.length x /\
         head_is (fun c => Ascii.eqb c ".") r2 = false).
    { intros b c e r1 He k f h Hk.
      assert (Hds2 : forall y r1, is_digit y = true -> forall k f h, num_tail 10 true b true true (String y r1) = inr (k, f, h) ->
        exists ds r2, String y r1 = ds ++ r2 /\ run1 is_digit ds /\ k = String.length ds /\ head_is (fun c => Ascii.eqb c ".") r2 = false).
      { clear. intros y r1 Hy k f h Hk. destruct (span_split is_digit (String y r1)) as (d2 & r2 & H1 & H2 & H3 & _).
        exists d2, r2. rewrite H1 in Hk. rewrite num_tail_digits in Hk by exact H2.
        assert (Hne : d2 <> "") by (intros ->; cbn in H1; rewrite <- H1 in H3; cbn in H3; congruence).
        replace (match d2 with "" => true | _ => true end) with true in Hk by (destruct d2; reflexivity).
        destruct r2 as [|z r2]; [cbn in Hk; injection Hk as <- _ _; repeat split; auto; lia|].
        cbn [num_tail] in Hk. cbn in H3. rewrite H3 in Hk. cbn -[Ascii.eqb is_hex_digit] in Hk.
        rewrite ?orb_true_r in Hk. cbn [orb] in Hk.
        destruct (Ascii.eqb z ".") eqn:Edz; [discriminate Hk|]. destruct (Ascii.eqb z "e" || Ascii.eqb z "E"); [discriminate Hk|].
        cbn in Hk. injection Hk as <- _ _. repeat split; auto; lia. }
      cbn [num_tail] in Hk.
      replace (is_digit e) with false in Hk by (destruct He as [-> | ->]; reflexivity).
      replace (Ascii.eqb e ".") with false in Hk by (destruct He as [-> | ->]; reflexivity).
      replace (Ascii.eqb e "e" || Ascii.eqb e "E") with true in Hk by (destruct He as [-> | ->]; reflexivity).
      cbn [andb Nat.eqb negb] in Hk.
      assert (He' : String e "" = "e" \/ String e "" = "E") by (destruct He as [-> | ->]; auto).
      destruct r1 as [|y r1]; [discriminate|].
      destruct (Ascii.eqb y "+" || Ascii.eqb y "-") eqn:Ey.
      - destruct r1 as [|z r1]; [discriminate|]. cbn [head_is] in Hk. destruct (is_digit z) eqn:Ez; [|discriminate].
        destruct (num_tail 10 true b true true (String z r1)) as [|[[k' f'] h']] eqn:En; [discriminate|].
        cbn in Hk. injection Hk as <- <- <-. destruct (Hds2 _ _ Ez _ _ _ En) as (d2 & r2 & H1 & H2 & H3 & H4).
        exists (String e "" ++ String y "" ++ d2), r2. rewrite !sapp_assoc. cbn [append]. rewrite H1. repeat split; auto.
        + change (exponent (String e "" ++ String y "" ++ d2)). constructor; auto.
          apply orb_true_iff in Ey as [Ey|Ey]; apply Ascii.eqb_eq in Ey; subst y; constructor.
        + cbn. lia.
      - destruct (is_digit y) eqn:Ed; [|discriminate].
        destruct (num_tail 10 true b true true (String y r1)) as [|[[k' f'] h']] eqn:En; [discriminate|].
        cbn in Hk. injection Hk as <- <- <-. destruct (Hds2 _ _ Ed _ _ _ En) as (d2 & r2 & H1 & H2 & H3 & H4).
        exists (String e "" ++ "" ++ d2), r2. cbn [append]. rewrite H1. repeat split; auto.
        + change (exponent (String e "" ++ "" ++ d2)). constructor; auto. constructor.
        + cbn. lia. }
    destruct r as [|y r].
    { apply (Fin ds "" false ""); auto. { now constructor. } now rewrite !sapp_nil_r. }
    cbn in Hr. destruct (Ascii.eqb y ".") eqn:Edot.
    { apply Ascii.eqb_eq in Edot. subst y.
      cbn [num_tail] in Ht. rewrite Hr in Ht. cbn [andb orb Nat.eqb negb Ascii.eqb Bool.eqb] in Ht.
      destruct (span_split is_digit r) as (fs & r3 & -> & Hf & Hr3 & _).
      rewrite num_tail_digits in Ht by exact Hf.
      replace (match fs with "" => true | _ => true end) with true in Ht by (destruct fs; reflexivity).
      destruct r3 as [|z r3].
      { apply (Fin (ds ++ "." ++ fs) "" true ""); auto; [now constructor | now rewrite !sapp_assoc, !sapp_nil_r]. }
      cbn in Hr3.
      destruct (Ascii.eqb z "e" || Ascii.eqb z "E") eqn:Ee.
      - assert (Hz : z = "e"%char \/ z = "E"%char).
        { apply orb_true_iff in Ee as [Ee|Ee]; apply Ascii.eqb_eq in Ee; auto. }
        destruct (num_tail 10 false true true true (String z r3)) as [|[[k f] h]] eqn:En; [discriminate|].
        destruct (Exp _ _ _ _ Hz _ _ _ En) as (x & r2 & Hxr & Hx & Hk & Hdot). rewrite Hxr in Ht.
        cbn [nbump] in Ht. destruct (head_is is_ident_part _ || negb _) eqn:Eb; [discriminate|].
        apply orb_false_iff in Eb as [Eb1 _].
        apply (Fin (ds ++ "." ++ fs) x true r2); auto; [now constructor | rewrite Hxr; now rewrite !sapp_assoc|].
        replace (sg ++ ds ++ String "." (fs ++ x ++ r2)) with ((sg ++ ds ++ "." ++ fs ++ x) ++ r2) in Eb1 by (now rewrite !sapp_assoc).
        match type of Eb1 with head_is _ (sdrop ?n _) = _ =>
          replace n with (String.length (sg ++ ds ++ "." ++ fs ++ x) + 0) in Eb1 by (rewrite !sapp_length; cbn; lia) end.
        now rewrite sdrop_app_ge, sdrop_0 in Eb1.
      - cbn [num_tail] in Ht. rewrite Hr3, Ee in Ht. cbn [andb orb Nat.eqb negb] in Ht.
        destruct (Ascii.eqb z ".") eqn:Edz; [discriminate|]. cbn [nbump] in Ht.
        destruct (head_is is_ident_part _ || negb _) eqn:Eb; [discriminate|].
        apply orb_false_iff in Eb as [Eb1 _].
        apply (Fin (ds ++ "." ++ fs) "" true (String z r3)); auto; [now constructor | now rewrite !sapp_nil_r, !sapp_assoc|].
        replace (sg ++ ds ++ String "." (fs ++ String z r3)) with ((sg ++ ds ++ "." ++ fs) ++ String z r3) in Eb1 by (now rewrite !sapp_assoc).
        match type of Eb1 with head_is _ (sdrop ?n _) = _ =>
          replace n with (String.length (sg ++ ds ++ "." ++ fs) + 0) in Eb1 by (rewrite !sapp_length; cbn; lia) end.
        now rewrite sdrop_app_ge, sdrop_0 in Eb1. }
    destruct (Ascii.eqb y "e" || Ascii.eqb y "E") eqn:Ee.
    + assert (Hz : y = "e"%char \/ y = "E"%char).
      { apply orb_true_iff in Ee as [Ee|Ee]; apply Ascii.eqb_eq in Ee; auto. }
      destruct (num_tail 10 false false false true (String y r)) as [|[[k f] h]] eqn:En; [discriminate|].
      destruct (Exp _ _ _ _ Hz _ _ _ En) as (x & r2 & Hxr & Hx & Hk & Hdot). rewrite Hxr in Ht.
      cbn [nbump] in Ht. destruct (head_is is_ident_part _ || negb _) eqn:Eb; [discriminate|].
      apply orb_false_iff in Eb as [Eb1 _].
      apply (Fin ds x false r2); auto; [now constructor | rewrite Hxr; now rewrite !sapp_assoc|].
      replace (sg ++ ds ++ x ++ r2) with ((sg ++ ds ++ x) ++ r2) in Eb1 by (now rewrite !sapp_assoc).
      match type of Eb1 with head_is _ (sdrop ?n _) = _ =>
        replace n with (String.length (sg ++ ds ++ x) + 0) in Eb1 by (rewrite !sapp_length; cbn; lia) end.
      now rewrite sdrop_app_ge, sdrop_0 in Eb1.
    + cbn [num_tail] in Ht. rewrite Hr, Ee, Edot in Ht. cbn [andb orb Nat.eqb negb nbump] in Ht; rewrite orb_false_r in Ht.
      destruct (head_is is_ident_part (sdrop _ _)) eqn:Eb1; [discriminate|].
      apply (Fin ds "" false (String y r)); auto; [now constructor | now rewrite !sapp_nil_r, !sapp_assoc|].
      replace (sg ++ ds ++ String y r) with ((sg ++ ds) ++ String y r) in Eb1 by (now rewrite !sapp_assoc).
      match type of Eb1 with head_is _ (sdrop ?n _) = _ =>
        replace n with (String.length (sg ++ ds) + 0) in Eb1 by (rewrite !sapp_length; cbn; lia) end.
      now rewrite sdrop_app_ge, sdrop_0 in Eb1.
Qed.

(** * Strings and quoted identifiers *)

Lemma str_body_text b r : str_text b -> ~ starts_with "'" r -> str_body (b ++ String "'" r) = String.length b.
Proof.
  intros Hb Hr. induction Hb as [|c s Hs IH|s Hs IH|c s H1 H2 Hs IH].
  - cbn. destruct r as [|d r]; [reflexivity|]. destruct (Ascii.eqb d squote) eqn:E; [|reflexivity].
    apply Ascii.eqb_eq in E. subst d. destruct Hr. now exists r.
  - cbn. now rewrite IH.
  - cbn. now rewrite IH.
  - cbn. unfold backslash, squote. apply Ascii.eqb_neq in H1, H2. rewrite H1, H2. cbn. now rewrite IH.
Qed.

Lemma str_body_split : forall n s, String.length s <= n ->
  match sdrop (str_body s) s with
  | "" => forall b r, str_text b -> ~ starts_with "'" r -> s <> b ++ String "'" r
  | String c r => exists b, s = b ++ String "'" r /\ str_text b /\ ~ starts_with "'" r /\ str_body s = String.length b
  end.
Proof.
  assert (Hempty : forall b (c : ascii) r, "" <> b ++ String c r) by (intros [|]; discriminate).
  induction n as [|n IH]; intros s Hn; destruct s as [|c s]; cbn [String.length] in Hn; try lia;
    try (cbn; intros; apply Hempty).
  cbn [str_body]. unfold backslash, squote in *.
  destruct (Ascii.eqb_spec c "\"%char) as [->|Hb].
  - destruct s as [|d s]; cbn [Nat.add sdrop].
    + intros b r Hb Hr Heq. destruct Hb; cbn in Heq; injection Heq; intros; subst; try discriminate; try congruence.
      all: try (destruct s; discriminate).
    + specialize (IH s ltac:(cbn in Hn; lia)). destruct (sdrop (str_body s) s) as [|e r] eqn:E.
      * intros b r Hb Hr Heq. destruct Hb as [|c' s' Hs|s' Hs|c' s' H1 H2 Hs]; cbn in Heq; try discriminate.
        -- injection Heq as -> ->. now apply (IH s' r).
        -- injection Heq as <- _. congruence.
      * destruct IH as (b & -> & Hb & Hr & Hl). exists (String "\" (String d b)). cbn. repeat split; auto.
        now constructor.
  - destruct (Ascii.eqb_spec c "'"%char) as [->|Hq].
    + destruct s as [|d s]; cbn [sdrop].
      * exists "". cbn. repeat split; try constructor. intros [? [=]].
      * destruct (Ascii.eqb_spec d "'"%char) as [->|Hd]; cbn [Nat.add sdrop].
        -- specialize (IH s ltac:(cbn in Hn; lia)). destruct (sdrop (str_body s) s) as [|e r] eqn:E.
           ++ intros b r Hb' Hr Heq. destruct Hb' as [|c' s' Hs|s' Hs|c' s' H1 H2 Hs]; cbn in Heq; try discriminate.
              ** injection Heq as <-. apply Hr. now eexists.
              ** injection Heq as ->. now apply (IH s' r).
              ** injection Heq as <- _. congruence.
           ++ destruct IH as (b & -> & Hb' & Hr & Hl). exists (String "'" (String "'" b)). cbn. repeat split; auto.
              now constructor.
        -- exists "". cbn. repeat split; try constructor. intros [? [=]]. congruence.
    + cbn [sdrop]. specialize (IH s ltac:(lia)). destruct (sdrop (str_body s) s) as [|e r] eqn:E.
      * intros b r Hb' Hr Heq. destruct Hb' as [|c' s' Hs|s' Hs|c' s' H1 H2 Hs]; cbn in Heq; injection Heq; intros; subst; try congruence.
        now apply (IH s' r).
      * destruct IH as (b & -> & Hb' & Hr & Hl). exists (String c b). cbn. repeat split; auto.
        now constructor.
Qed.

Lemma lex_string_complete b r : str_text b -> ~ starts_with "'" r ->
  lex_string (String "'" (b ++ String "'" r)) =
  mkLx (String.length b + 2) (Some (mkToken 1 (1 + String.length b) KString b 0 QNone)) None.
Proof.
  intros Hb Hr. unfold lex_string. cbn [sdrop Nat.add]. rewrite ?sdrop_0, str_body_text by assumption.
  rewrite sdrop_app_exact, stake_app_exact. reflexivity.
Qed.

Lemma lex_string_sound s t : lx_tok (lex_string (String "'" s)) = Some t ->
  exists b r, s = b ++ String "'" r /\ str_text b /\ ~ starts_with "'" r /\ tstr t = b /\ tpos t = 1.
Proof.
  unfold lex_string. cbn [sdrop Nat.add]. rewrite ?sdrop_0. pose proof (str_body_split _ s (le_n _)) as H.
  destruct (sdrop (str_body s) s) as [|c r]; [discriminate|]. intros [= <-]. cbn.
  destruct H as (b & -> & Hb & Hr & Hl). rewrite Hl, stake_app_exact. exists b, r. auto 6.
Qed.

Lemma lex_quoted_complete q b r : free_of q b ->
  lex_quoted q (String q (b ++ String q r)) =
  mkLx (String.length b + 2)
    (Some (mkToken 1 (1 + String.length b) KIdent b 0 (if Ascii.eqb q backtick then QBackTicks else QDouble))) None.
Proof.
  intros Hb. unfold lex_quoted. cbn [sdrop]. rewrite ?sdrop_0.
  rewrite span_app; [|exact Hb|cbn; now rewrite Ascii.eqb_refl].
  rewrite sdrop_app_exact, stake_app_exact. reflexivity.
Qed.

Lemma lex_quoted_none q s : (forall b r, free_of q b -> s <> b ++ String q r) ->
  lex_quoted q (String q s) = lx_error 1 ("unclosed quoted identifier: " ++ s).
Proof.
  intros H. unfold lex_quoted. cbn [sdrop]. rewrite ?sdrop_0.
  destruct (span_split (fun c => negb (Ascii.eqb c q)) s) as (a & r & Hs & Ha & Hr & Hl). rewrite Hl, Hs, sdrop_app_exact.
  destruct r as [|c r]; [reflexivity|]. cbn in Hr. apply negb_false_iff, Ascii.eqb_eq in Hr. subst c.
  destruct (H a r Ha Hs).
Qed.

Lemma lex_quoted_sound q s t : lx_tok (lex_quoted q (String q s)) = Some t ->
  exists b r, s = b ++ String q r /\ free_of q b /\ tstr t = b /\ tpos t = 1.
Proof.
  unfold lex_quoted. cbn [sdrop]. rewrite ?sdrop_0.
  destruct (span_split (fun c => negb (Ascii.eqb c q)) s) as (a & r & Hs & Ha & Hr & Hl). rewrite Hl, Hs, sdrop_app_exact.
  destruct r as [|c r]; [discriminate|]. cbn in Hr. apply negb_false_iff, Ascii.eqb_eq in Hr. subst c.
  intros [= <-]. cbn. rewrite stake_app_exact. exists a, r. auto.
Qed.
