(** Running the parser over canonical operator expressions. *)
From Coq Require Import String List Arith Bool Lia.
From Verif Require Import Str Keyword Lexer LexGrammar LexTokens Ast AstPos AstSubs Strip StripFacts Prog RunFacts FuelFacts ParserCommon ParserExpr ParserQuery Parser Exec PrecSpec RoundSpec RoundExec RoundBase RoundExpr.
Import ListNotations.
Local Open Scope string_scope.
Local Open Scope list_scope.
Local Open Scope nat_scope.

Definition plain_ops : list kind := ["="; "<"; "<="; ">="; ">"; "!="; "<>"; "-"; "+"; "*"; "/"; "%"; "||"; "=="].
Definition keyword_ops : list string := ["IN"; "LIKE"; "ILIKE"; "REGEXP"; "AND"; "OR"].

Lemma heads_stop t r : existsb (tok_eqb t) stop = true -> heads stop (t :: r).
Proof. intros H. apply existsb_exists in H as (x & Hx & E). apply tok_eqb_eq in E. now subst. Qed.

Lemma op_facts op : In op (word_ops ++ sign_ops) -> exists n, op_level op = Some n /\ 3 <= n <= 13 /\ (forall r, lev (op_tok op :: r) = n) /\
  tok_to_string (op_tok op) = op /\ existsb (tok_eqb (op_tok op)) stop = true /\ t1 (op_tok op) plain_ops || existsb (k1 (op_tok op)) keyword_ops = true /\ String.eqb op "->" = false /\ String.eqb op "::" = false.
Proof.
  intros H.
  assert (Hf : forallb (fun op => match op_level op with
    | Some n => (3 <=? n) && (n <=? 13) && negb (k1 (op_tok op) "NOT") && (lev1 (op_tok op) =? n) && String.eqb (tok_to_string (op_tok op)) op && existsb (tok_eqb (op_tok op)) stop
                && (t1 (op_tok op) plain_ops || existsb (k1 (op_tok op)) keyword_ops) && negb (String.eqb op "->") && negb (String.eqb op "::")
    | None => false end) (word_ops ++ sign_ops) = true) by (vm_compute; reflexivity).
  rewrite forallb_forall in Hf. specialize (Hf op H). destruct (op_level op) as [n|]; [|discriminate]. exists n.
  rewrite !andb_true_iff, !negb_true_iff in Hf. destruct Hf as [[[[[[[[H1 H2] H3] H4] H5] H6] H7] H8] H9]. apply Nat.leb_le in H1, H2. apply Nat.eqb_eq in H4. apply String.eqb_eq in H5.
  split; [reflexivity|]. split; [lia|]. split; [|repeat split; assumption]. intros r. unfold lev. now rewrite H3.
Qed.

Lemma follow_stop e ts : heads stop ts -> follow e ts.
Proof. now left. Qed.
Lemma follow_only e ts : indexable e = false -> dottable e = false -> follow e ts -> heads stop ts.
Proof. intros H1 H2 [H|[[H _]|[H _]]]; [exact H|congruence|congruence]. Qed.

Lemma binary_ok a la op b lb : In op (word_ops ++ sign_ops) -> XP a la -> XP b lb -> respects (EBinaryOperation a op b false false) ->
  XP (EBinaryOperation a op b false false) (la ++ [Sp; T (op_tok op); Sp] ++ lb).
Proof.
  intros Hop Ha Hb Hr. destruct (op_facts op Hop) as (n0 & Hl & Hn & Hlev & Hstr & Hstop & Htest & Harr & Hcol).
  cbn [respects] in Hr. rewrite Hl, Harr in Hr. destruct Hr as [Hr1 Hr2]. destruct Ha as (Hst & Ha1 & Ha2 & Ha3). assert (Hb' := Hb). destruct Hb' as (Hst' & Hb1 & Hb2 & Hb3).
  split; [now apply starts_app|]. cbn [as_right as_left]. rewrite Hl. split; [lia|]. split.
  { intros m Hm Hlt. assert (m < as_left b) by (apply Hb2; lia). lia. }
  intros p n id ts Q H1 H2 H3 H4 H5. nrm. apply Ha3; try rewrite Hlev; try lia; [apply follow_stop; now apply heads_stop|].
  intros a' id' [Ea Ea']. apply infix_step; [now apply stop_after, heads_stop | rewrite Hlev; lia|]. rewrite Hlev. unfold parseInfix. apply X_cur.
  rewrite here_cons. change (kws (item_at id' (op_tok op) (toks lb ++ ts)) ["IN"; "LIKE"; "ILIKE"; "REGEXP"; "AND"; "OR"]) with (existsb (k1 (op_tok op)) keyword_ops).
  rewrite tks_at. change ["="; "<"; "<="; ">="; ">"; "!="; "<>"; "-"; "+"; "*"; "/"; "%"; "||"; "=="] with plain_ops. rewrite Htest. stp. rewrite Hstr. stp.
  assert (Hf : heads stop ts) by (eapply follow_only; [| |exact H4]; cbn [indexable dottable]; rewrite Hcol; reflexivity).
  eapply sub_here; [exact Hb|lia|lia|lia|lia|now apply follow_stop|]. intros b' id'' [Eb Eb']. apply E_ret. apply H5. split; [cbn [strip]; congruence|exact Eb'].
Qed.

Lemma not_binary_ok a la op b lb : In op ["LIKE"; "ILIKE"; "IN"] -> XP a la -> XP b lb -> respects (EBinaryOperation a ("NOT " ++ op) b false false) ->
  XP (EBinaryOperation a ("NOT " ++ op) b false false) (la ++ [Sp; T (K "NOT"); Sp; T (K op); Sp] ++ lb).
Proof.
  intros Hop Ha Hb Hr.
  assert (Hx : exists n0, op_level ("NOT " ++ op) = Some n0 /\ 9 <= n0 <= 10 /\ (forall r, lev (K "NOT" :: K op :: r) = n0) /\ String.eqb ("NOT " ++ op) "->" = false /\ String.eqb ("NOT " ++ op) "::" = false
    /\ k1 (K op) "BETWEEN" = false /\ existsb (k1 (K op)) ["IN"; "LIKE"; "ILIKE"] = true /\ tok_to_string (K op) = op).
  { destruct Hop as [<-|[<-|[<-|[]]]]; [exists 9|exists 9|exists 10]; repeat split; try reflexivity; lia. }
  destruct Hx as (n0 & Hl & Hn & Hlev & Harr & Hcol & Hbt & Hin & Hstr).
  cbn [respects] in Hr. rewrite Hl, Harr in Hr. destruct Hr as [Hr1 Hr2]. destruct Ha as (Hst & Ha1 & Ha2 & Ha3). assert (Hb' := Hb). destruct Hb' as (Hst' & Hb1 & Hb2 & Hb3).
  split; [now apply starts_app|]. cbn [as_right as_left]. rewrite Hl. split; [lia|]. split.
  { intros m Hm Hlt. assert (m < as_left b) by (apply Hb2; lia). lia. }
  intros p n id ts Q H1 H2 H3 H4 H5. nrm. apply Ha3; try rewrite Hlev; try lia; [apply follow_stop; now apply heads_stop|].
  intros a' id' [Ea Ea']. apply infix_step; [now apply stop_after, heads_stop | rewrite Hlev; lia|]. rewrite Hlev. unfold parseInfix. repeat stp.
  rewrite Hstr.
  assert (Hf : heads stop ts) by (eapply follow_only; [| |exact H4]; cbn [indexable dottable]; rewrite Hcol; reflexivity).
  eapply sub_here; [exact Hb|lia|lia|lia|lia|now apply follow_stop|]. intros b' id'' [Eb Eb']. apply E_ret. apply H5. split; [cbn [strip]; congruence|exact Eb'].
Qed.

Lemma arrow_ok a la b lb : lv_ternary < as_left a -> XP a la -> XP b lb -> respects (EBinaryOperation a "->" b false false) ->
  XP (EBinaryOperation a "->" b false false) (la ++ [Sp; T (O "->"); Sp] ++ lb).
Proof.
  unfold lv_ternary. intros H2a Ha Hb Hr. destruct Ha as (Hst & Ha1 & Ha2 & Ha3). assert (Hb' := Hb). destruct Hb' as (Hst' & Hb1 & Hb2 & Hb3).
  split; [now apply starts_app|]. cbn [as_right as_left]. change (op_level "->") with (Some 1). cbv iota. split; [lia|]. split; [lia|].
  intros p n id ts Q H1 H2 H3 H4 H5. nrm. assert (Hlev : forall r, lev (O "->" :: r) = 1) by reflexivity. apply Ha3; try rewrite Hlev; try lia; [apply follow_stop; now apply heads_stop|].
  intros a' id' [Ea Ea']. apply infix_step; [now apply stop_after, heads_stop | rewrite Hlev; lia|]. rewrite Hlev. unfold parseInfix. repeat stp.
  assert (Hf : heads stop ts) by (eapply follow_only; [| |exact H4]; reflexivity). assert (Hz : lev ts = 0) by lia.
  eapply sub_here; [exact Hb|lia|lia|lia|lia|now apply follow_stop|]. intros b' id'' [Eb Eb']. apply E_ret. apply H5. split; [cbn [strip]; congruence|exact Eb'].
Qed.

Lemma cast_ok a la b lb : XP a la -> XP b lb -> not_tuple lb = true -> respects (EBinaryOperation a "::" b false false) ->
  XP (EBinaryOperation a "::" b false false) (la ++ [T (O "::")] ++ lb).
Proof.
  intros Ha Hb Ht Hr. change (16 <= as_left a /\ 16 < as_right b) in Hr. destruct Hr as [Hr1 Hr2].
  destruct Ha as (Hst & Ha1 & Ha2 & Ha3). assert (Hb' := Hb). destruct Hb' as (Hst' & Hb1 & Hb2 & Hb3).
  split; [now apply starts_app|]. cbn [as_right as_left]. change (op_level "::") with (Some 16). cbv iota. split; [lia|]. split.
  { intros m Hm Hlt. assert (m < as_left b) by (apply Hb2; lia). lia. }
  intros p n id ts Q H1 H2 H3 H4 H5. nrm. assert (Hlev : forall r, lev (O "::" :: r) = 16) by reflexivity. apply Ha3; try rewrite Hlev; try lia; [apply follow_stop; now apply heads_stop|].
  intros a' id' [Ea Ea']. apply infix_step; [now apply stop_after, heads_stop | rewrite Hlev; lia|]. rewrite Hlev. unfold parseInfix. repeat stp.
  replace (tk (here (st (S id') (toks lb ++ ts))) KIdent && String.eqb (cur_string (here (st (S id') (toks lb ++ ts)))) "Tuple") with false.
  2:{ unfold not_tuple in Ht. destruct (toks lb) as [|t r]; [discriminate|]. cbn [app]. rewrite here_cons. unfold cur_string. cbn [it_tok item_at]. apply negb_true_iff in Ht. rewrite Ht. now rewrite andb_false_r. }
  cbv iota. assert (Hl16 : lev ts <= 16) by lia.
  eapply sub_here; [exact Hb|lia|lia|lia|lia| |].
  - destruct H4 as [Hf|[[Hi Hr]|[Hi Hr]]]; [now left | right; left; split; [exact Hi|exact Hr] | right; right; split; [exact Hi|exact Hr]].
  - intros b' id'' [Eb Eb']. apply E_ret. apply H5. split; [cbn [strip]; congruence|exact Eb'].
Qed.

Lemma between_ok (nt : bool) a la b lb pz c lc : XP a la -> XP b lb -> XP c lc -> a <> ENil -> respects (EBetweenClause a nt b pz c) ->
  XP (EBetweenClause a nt b pz c) (la ++ [Sp] ++ (if nt then [T (K "NOT"); Sp] else []) ++ [T (K "BETWEEN"); Sp] ++ lb ++ [Sp; T (K "AND"); Sp] ++ lc).
Proof.
  intros Ha Hb Hc Hnil Hr. cbn [respects] in Hr. destruct Hr as [Hr|[Hr1 [Hr2 Hr3]]]; [congruence|]. unfold lv_between in *.
  destruct Ha as (Hst & Ha1 & Ha2 & Ha3). assert (Hb' := Hb). destruct Hb' as (_ & Hb1 & Hb2 & _). assert (Hc' := Hc). destruct Hc' as (_ & Hc1 & Hc2 & _).
  split; [now apply starts_app|]. cbn [as_right as_left]. unfold lv_between. split; [lia|]. split.
  { intros m Hm Hlt. assert (m < as_left c) by (apply Hc2; lia). lia. }
  intros p n id ts Q H1 H2 H3 H4 H5. nrm.
  set (rest := toks lb ++ K "AND" :: toks lc ++ ts).
  assert (Hlev : lev (toks (if nt then [T (K "NOT"); Sp] else []) ++ K "BETWEEN" :: rest) = 9) by (destruct nt; reflexivity).
  assert (Hh : heads stop (toks (if nt then [T (K "NOT"); Sp] else []) ++ K "BETWEEN" :: rest)) by (destruct nt; cbn [app]; nrm; now apply heads_stop).
  apply Ha3; try rewrite Hlev; try lia; [now apply follow_stop|]. intros a' id' [Ea Ea'].
  assert (Hclause : forall i, Ends (parseBetweenClause a' nt) (st i (K "BETWEEN" :: rest)) (fun e' s' => Ends (parseInfixLoop e' n) s' Q)).
  { intros i. unfold parseBetweenClause. stp. stp.
    assert (4 < as_left b) by (apply Hb2; lia). assert (Hand : forall r, lev (K "AND" :: r) = 4) by reflexivity. unfold rest.
    eapply sub_expr; [exact Hb|unfold PrecedenceBetweenLike; lia|rewrite Hand; lia|lia|rewrite Hand; unfold PrecedenceBetweenLike; lia|apply follow_stop; now apply heads_stop|].
    intros b' i1 [Eb Eb']. repeat stp. assert (Hf : heads stop ts) by (eapply follow_only; [| |exact H4]; reflexivity).
    eapply sub_expr; [exact Hc|unfold PrecedenceBetweenLike; lia|lia|lia|unfold PrecedenceBetweenLike; lia|now apply follow_stop|].
    intros c' i2 [Ec Ec']. apply E_ret, H5. split; [cbn [strip]; congruence|exact Ec']. }
  destruct nt.
  - rewrite ?toks_T, ?toks_Sp, ?toks_nil in *. cbn [app] in *. apply infix_step; [apply stop_after; exact Hh | rewrite Hlev; lia|]. rewrite Hlev. unfold parseInfix. repeat stp. apply Hclause.
  - rewrite ?toks_T, ?toks_Sp, ?toks_nil in *. cbn [app] in *. apply infix_step; [apply stop_after; exact Hh | rewrite Hlev; lia|]. rewrite Hlev. unfold parseInfix. repeat stp. apply Hclause.
Qed.

Lemma is_null_ok (nt : bool) p0 q0 a la : XP a la -> lv_is <= as_left a ->
  XP (if nt then EIsNotNullExpr p0 q0 a else EIsNullExpr p0 q0 a) (la ++ [Sp; T (K "IS"); Sp] ++ (if nt then [T (K "NOT"); Sp] else []) ++ [T (K "NULL")]).
Proof.
  unfold lv_is. intros Ha Hr. destruct Ha as (Hst & Ha1 & Ha2 & Ha3).
  assert (HR : as_right (if nt then EIsNotNullExpr p0 q0 a else EIsNullExpr p0 q0 a) = min 7 (as_right a)) by (destruct nt; reflexivity).
  assert (HL : as_left (if nt then EIsNotNullExpr p0 q0 a else EIsNullExpr p0 q0 a) = 17) by (destruct nt; reflexivity).
  split; [now apply starts_app|]. rewrite HR, HL. split; [lia|]. split; [lia|].
  intros p n id ts Q H1 H2 H3 H4 H5. nrm. assert (Hlev : forall r, lev (K "IS" :: r) = 7) by reflexivity. apply Ha3; try rewrite Hlev; try lia; [apply follow_stop; now apply heads_stop|].
  intros a' id' [Ea Ea']. apply infix_step; [now apply stop_after, heads_stop | rewrite Hlev; lia|]. rewrite Hlev. unfold parseInfix. 
  destruct nt; nrm; cbn [app]; repeat stp; apply E_ret, H5; (split; [cbn [strip]; congruence|discriminate]).
Qed.

Lemma ternary_ok a la b lb c lc : lv_ternary < as_left a -> XP a la -> XP b lb -> XP c lc ->
  XP (ETernaryOperation a b c) (la ++ [Sp; T (O "?"); Sp] ++ lb ++ [Sp; T (O ":"); Sp] ++ lc).
Proof.
  unfold lv_ternary. intros H2a Ha Hb Hc. destruct Ha as (Hst & Ha1 & Ha2 & Ha3). assert (Hc' := Hc). destruct Hc' as (_ & Hc1 & Hc2 & _).
  split; [now apply starts_app|]. cbn [as_right as_left]. unfold lv_ternary. split; [lia|]. split; [lia|].
  intros p n id ts Q H1 H2 H3 H4 H5. nrm. assert (Hlev : forall r, lev (O "?" :: r) = 2) by reflexivity. apply Ha3; try rewrite Hlev; try lia; [apply follow_stop; now apply heads_stop|].
  intros a' id' [Ea Ea']. apply infix_step; [now apply stop_after, heads_stop | rewrite Hlev; lia|]. rewrite Hlev. unfold parseInfix. repeat stp. unfold parseTernaryExpr. repeat stp.
  eapply E_use; [apply expr_here, Hb | cbn; auto 10 |]. intros b' i1 [Eb Eb']. repeat stp.
  assert (Hf : heads stop ts) by (eapply follow_only; [| |exact H4]; reflexivity). assert (Hz : lev ts = 0) by lia.
  apply E_bind. unfold parseExprHere. apply X_pos. unfold parseExpr, parseSubExpr. apply E_call. cbn [body]. destruct Hc as (_ & _ & _ & Hc3). apply Hc3; try lia; [now apply follow_stop|].
  intros c' i2 [Ec Ec']. apply infix_stop; [now apply stop_after|lia|]. apply E_ret, E_ret, H5. split; [cbn [strip]; congruence|exact Ec'].
Qed.

Lemma not_ok pz a la : XP a la -> lv_not < as_right a -> XP (EUnaryExpr pz "NOT" a) (T (K "NOT") :: Sp :: la).
Proof.
  unfold lv_not. intros Ha Hr. assert (Ha' := Ha). destruct Ha' as (Hst & Ha1 & Ha2 & Ha3).
  split; [exists (K "NOT"), (toks la); split; reflexivity|]. change (as_right (EUnaryExpr pz "NOT" a)) with 17. change (as_left (EUnaryExpr pz "NOT" a)) with (min 5 (as_left a)).
  split; [lia|]. split. { intros m Hm _. assert (m < as_left a) by (apply Ha2; lia). lia. }
  intros p n id ts Q H1 H2 H3 H4 H5. nrm. unfold body_SubExpr. apply E_bind. unfold parseUnaryExpr. repeat stp.
  assert (Hf : heads stop ts) by (eapply follow_only; [| |exact H4]; reflexivity).
  eapply sub_expr; [exact Ha|unfold PrecedenceNot; lia|lia|lia|unfold PrecedenceNot; lia|now apply follow_stop|]. intros a' id' [Ea Ea']. apply E_ret, H5. split; [cbn [strip]; rewrite Ea; reflexivity|exact Ea'].
Qed.

(** ** Operands *)
Definition PP (e : expr) (l : list sym) : Prop := pstarts l /\ as_right e = closed /\ as_left e = closed /\ forall p, parses (parseColumnExpr p) e l (follow e).

Lemma prim_ok e l : PP e l -> XP e l.
Proof.
  intros (Hst & HR & HL & H). split; [now apply pstarts_starts|]. rewrite HR, HL. unfold closed. split; [lia|]. split; [lia|].
  intros p n id ts Q H1 H2 H3 H4 H5. unfold body_SubExpr. apply E_bind. unfold parseUnaryExpr. repeat stp. eapply E_mono; [apply H, H4|]. intros e' s' (He & i & ->). auto.
Qed.
Lemma sign_ok pz op a la : In op ["-"; "+"] -> PP a la -> XP (EUnaryExpr pz op a) (T (O op) :: Sp :: la).
Proof.
  intros Hop (Hst & HR & HL & H).
  assert (Hx : start (O op) = true /\ as_left (EUnaryExpr pz op a) = 17 /\ t1 (O op) ["+"; "-"] = true /\ tok_to_string (O op) = op) by (destruct Hop as [<-|[<-|[]]]; repeat split).
  destruct Hx as (Hs & Hl & Ht & Hstr).
  split; [exists (O op), (toks la); split; [reflexivity|exact Hs]|]. rewrite Hl. change (as_right (EUnaryExpr pz op a)) with 17. split; [lia|]. split; [lia|].
  intros p n id ts Q H1 H2 H3 H4 H5. nrm. unfold body_SubExpr. apply E_bind. unfold parseUnaryExpr. stp. rewrite here_cons, tks_at, Ht. repeat stp. rewrite Hstr.
  assert (Hf : heads stop ts) by (eapply follow_only; [| |exact H4]; reflexivity).
  eapply E_use; [apply H|now apply follow_stop|]. intros a' i [Ea Ea']. apply E_ret, H5. split; [cbn [strip]; congruence|exact Ea'].
Qed.

Definition AP (e : expr) (l : list sym) : Prop := (exists r, toks l = O "[" :: r) /\ parses parseArrayParams e l (fun _ => True).

Lemma index_ok o lo a l : indexable o = true -> XP o lo -> AP a l -> lv_bracket <= as_left o -> XP (EObjectParams o a) (lo ++ l).
Proof.
  unfold lv_bracket. intros Hi Ho [[r Hl] Ha] Hr. destruct Ho as (Hst & Ho1 & Ho2 & Ho3).
  assert (Hnn : is_name o = false) by (clear - Hi; destruct o; try reflexivity; discriminate Hi).
  split; [now apply starts_app|]. cbn [as_right as_left]. rewrite Hnn. unfold lv_bracket, closed. split; [lia|]. split; [lia|].
  intros p n id ts Q H1 H2 H3 H4 H5. nrm. assert (Hlev : lev (toks l ++ ts) = 14) by now rewrite Hl.
  assert (Hfo : follow o (toks l ++ ts)) by (right; left; split; [exact Hi|rewrite Hl; cbn [app]; eauto]).
  apply Ho3; try rewrite Hlev; try lia; [exact Hfo|].
  intros o' id' [Eo Eo']. rewrite Hl in *. cbn [app] in *. apply infix_step; [eapply follow_after, Hfo|rewrite Hlev; lia|]. rewrite Hlev. unfold parseInfix. repeat stp.
  specialize (Ha id' ts I). rewrite Hl in Ha. cbn [app] in Ha. apply E_bind. eapply E_mono; [exact Ha|]. intros a' s' ([Ea Ea'] & i & ->). apply E_ret, H5. split; [cbn [strip]; congruence|exact Ea'].
Qed.

Lemma field_ok o lo i t : dottable o = true -> XP o lo -> any_name i t \/ (number_lit i t /\ t_base t = 10) -> lv_dot <= as_left o ->
  XP (EIndexOperation o "." i) (lo ++ [T (O "."); T t]).
Proof.
  unfold lv_dot. intros Hd Ho Hi Hr. destruct Ho as (Hst & Ho1 & Ho2 & Ho3).
  assert (Hnn : is_name o = false) by (clear - Hd; destruct o; try reflexivity; discriminate Hd).
  split; [now apply starts_app|]. cbn [as_right as_left]. rewrite Hnn. unfold lv_dot, closed. split; [lia|]. split; [lia|].
  intros p n id ts Q H1 H2 H3 H4 H5. nrm. assert (Hlev : forall r, lev (O "." :: r) = 15) by reflexivity.
  assert (Hfo : forall r, follow o (O "." :: r)) by (intros r; right; right; split; [exact Hd|eauto]).
  apply Ho3; try rewrite Hlev; try lia; [apply Hfo|].
  intros o' id' [Eo Eo']. cbn [app]. apply infix_step; [eapply follow_after, Hfo|rewrite Hlev; lia|]. rewrite Hlev. unfold parseInfix. repeat stp.
  destruct Hi as [Hi|[Hi Hb]].
  - rewrite here_cons, tks_at, (name_any _ _ Hi). eapply any_keyword; [exact Hi|]. intros i' [Ei Ei']. apply E_ret, H5. split; [cbn [strip]; congruence|exact Ei'].
  - rewrite here_cons, tks_at. replace (t1 t [KIdent; KKeyword]) with false by (clear - Hi; destruct Hi as [s b [|]]; reflexivity).
    unfold parseDecimal. apply E_bind, E_bind. eapply E_mono; [eapply number_pos, Hi|]. intros i' s' ([Ei Ei'] & id'' & ->).
    assert (Hn : exists p q s, i' = ENumberLiteral p q s 10).
    { clear - Hi Hb Ei. destruct Hi as [s b f p q H]. cbn [strip t_base] in *. subst b. destruct i'; cbn [strip] in Ei; try discriminate Ei. injection Ei as -> ->. eauto. }
    destruct Hn as (p1 & q1 & s1 & ->). cbn [Nat.eqb negb]. apply E_ret, E_ret, H5. split; [cbn [strip] in *; congruence|exact Ei'].
Qed.
