(** Specifications of the functions of ParserExpr.v on lookahead and column types. *)
From Coq Require Import String List Arith Bool Lia ZArith.
From Verif Require Import Str Keyword Lexer Ast AstPos AstSubs PrecSpec SpanSpec Prog Items ItemsFacts RunFacts
  ParserCommon ParserExpr ParserQuery ParserTable ParserAlter ParserView ParserSystem Parser Hoare Spec SpecTac SpecCommon.
Import ListNotations.
Local Open Scope string_scope.
Local Open Scope nat_scope.

Section Peeks.
  Context `{Env}.

  Lemma orM_ok rk p q s1 s2 : spec rk p s1 (fun _ => True) -> spec rk q s2 (fun _ => True) -> spec rk (orM p q) (fun _ => false) (fun _ => True).
  Proof.
    intros Hp Hq s Hw Hl. unfold orM. eapply use_spec; [exact Hp | exact Hw | exact Hl |]. intros b s' H1 H2 _ _.
    destruct b; [apply wp_Ret; val|]. eapply use_tail; [exact Hq | exact H1 | lia |]. intros b' s2' H3 H4 _ _. repeat split; auto; [lia | discriminate].
  Qed.
  Lemma anyM_ok X rk (f : X -> prog bool) l str : (forall x, spec rk (f x) str (fun _ => True)) -> spec rk (anyM f l) (fun _ => false) (fun _ => True).
  Proof.
    intros Hf. induction l as [|x l IH]; cbn [anyM]; [intros s Hw Hl; apply wp_Ret; val|]. eapply orM_ok; [apply Hf | exact IH].
  Qed.
  Hint Resolve orM_ok anyM_ok : spec.
  Lemma tryParseColumnComment_ok p : pok p -> spec 0 (tryParseColumnComment p) (fun e => negb (is_nil e)) (fun e => e = ENil \/ isstr e).
  Proof. intros ?. unfold tryParseColumnComment. go. Qed.
  Hint Resolve tryParseColumnComment_ok : spec.
  Lemma peekTk_ok k : spec 0 (peekTk k) (fun _ => false) (fun _ => True).
  Proof. unfold peekTk. go. Qed.
  Hint Resolve peekTk_ok : spec.
  Lemma peekKw_ok keyword : spec 0 (peekKw keyword) (fun _ => false) (fun _ => True).
  Proof. unfold peekKw. go. Qed.
  Hint Resolve peekKw_ok : spec.
  Lemma peekIsClauseStarter_ok : spec 0 peekIsClauseStarter (fun _ => false) (fun _ => True).
  Proof. unfold peekIsClauseStarter. go. Qed.
  Hint Resolve peekIsClauseStarter_ok : spec.
  Lemma peekIsEndOfStatement_ok : spec 0 peekIsEndOfStatement (fun _ => false) (fun _ => True).
  Proof. unfold peekIsEndOfStatement. go. Qed.
  Hint Resolve peekIsEndOfStatement_ok : spec.
  Lemma peekIsExpressionContinuation_ok : spec 0 peekIsExpressionContinuation (fun _ => false) (fun _ => True).
  Proof. unfold peekIsExpressionContinuation. go. Qed.
  Hint Resolve peekIsExpressionContinuation_ok : spec.
  Lemma keywordIsSelectItemIdentifier_ok : spec 0 keywordIsSelectItemIdentifier (fun _ => false) (fun _ => True).
  Proof. unfold keywordIsSelectItemIdentifier. go. Qed.
  Hint Resolve keywordIsSelectItemIdentifier_ok : spec.
  Lemma isSelectItemTerminator_ok : spec 0 isSelectItemTerminator (fun _ => false) (fun _ => True).
  Proof. unfold isSelectItemTerminator. go. Qed.
  Hint Resolve isSelectItemTerminator_ok : spec.
  Lemma grabIf_ok l : spec 0 (grabIf l) (fun _ => false) (fun _ => True).
  Proof. unfold grabIf. go. Qed.
  Hint Resolve grabIf_ok : spec.
  Lemma parseJoinType_ok : spec 0 parseJoinType (fun l => negb (is_empty l)) (fun _ => True).
  Proof. unfold parseJoinType. go. Qed.
  Hint Resolve parseJoinType_ok : spec.
  Lemma parseJoinModifiers_ok : spec 0 parseJoinModifiers (fun l => negb (is_empty l)) (fun _ => True).
  Proof.
    unfold parseJoinModifiers. do 2 stp. case_if (kws (here s) ["GLOBAL"; "LOCAL"]); [|go].
    apply wp_Attempt; [|intros; apply wp_Fail; assumption|assumption].
    stp. usespec. stp. apply wp_Ret. destruct (is_empty a && negb (kw (here s'0) "JOIN")); cbn [negb].
    - apply wp_Ret. repeat split; try discriminate; [now apply wfs_restore | apply le_n].
    - go.
  Qed.
  Hint Resolve parseJoinModifiers_ok : spec.
  Lemma peekJoinAfterLocality_wp s (Q : bool -> pstate -> Prop) : wfs s -> 10 * len s <= fl ->
    (forall b s', wfs s' -> len s' <= len s -> Q b (restore s s')) -> wp peekJoinAfterLocality s Q.
  Proof.
    intros Hw Hl HQ. unfold peekJoinAfterLocality. apply wp_Attempt; [|intros; apply wp_Ret, HQ; assumption|assumption].
    usespec. stp. apply wp_Ret, wp_Ret, HQ; assumption.
  Qed.

  (** The lookahead operations stay on the current item, or end on an item without token. *)
  Definition stays (p : prog bool) : Prop := forall s, wfs s ->
    wp p s (fun _ s' => wfs s' /\ len s' <= len s /\ (s' = s \/ it_tok (here s') = None)).
  Lemma peekTk_stays k : stays (peekTk k).
  Proof.
    intros s Hw. unfold peekTk. apply bind_eof. destruct (it_eof (here s)); [apply wp_Ret; val|]. apply wp_peek; [exact Hw| |].
    - intros [t|] _; apply wp_Ret; val.
    - intros m s' H1 H2 H3 _. apply wp_Ret; val.
  Qed.
  Lemma peekKw_stays k : stays (peekKw k).
  Proof.
    intros s Hw. unfold peekKw. apply bind_eof. destruct (it_eof (here s)); [apply wp_Ret; val|]. apply wp_peek; [exact Hw| |].
    - intros [t|] _; apply wp_Ret; val.
    - intros m s' H1 H2 H3 _. apply wp_Ret; val.
  Qed.
  Lemma orM_stays p q : stays p -> stays q -> stays (orM p q).
  Proof.
    intros Hp Hq s Hw. unfold orM. apply wp_bind. eapply wp_conseq; [apply Hp, Hw|]. intros b s' (H1 & H2 & H3). cbv beta.
    destruct b; [apply wp_Ret; val|]. eapply wp_conseq; [apply Hq, H1|]. intros b' s2 (H4 & H5 & H6). repeat split; [exact H4 | lia |].
    destruct H6 as [->|H6]; [exact H3 | now right].
  Qed.
  Lemma anyM_stays X (f : X -> prog bool) l : (forall x, stays (f x)) -> stays (anyM f l).
  Proof.
    intros Hf. induction l as [|x l IH]; cbn [anyM]; [intros s Hw; apply wp_Ret; val|]. now apply orM_stays.
  Qed.
End Peeks.
#[export] Hint Resolve tryParseColumnComment_ok peekTk_ok peekKw_ok peekIsClauseStarter_ok peekIsEndOfStatement_ok peekIsExpressionContinuation_ok keywordIsSelectItemIdentifier_ok isSelectItemTerminator_ok grabIf_ok parseJoinType_ok : spec.
#[export] Hint Resolve orM_ok anyM_ok : spec.
Section Types.
  Context `{Calls}.

  Hint Extern 1 (spec _ (commaLoop _ _) _ _) => eapply commaLoop_ok : spec.
  Lemma parseColumnType_ok : spec 0 parseColumnType (fun _ => true) na.
  Proof. unfold parseColumnType. go. Qed.
  Hint Resolve parseColumnType_ok : spec.
  Lemma parseColumnPropertyType_ok : spec 0 parseColumnPropertyType (fun _ => true) na.
  Proof. unfold parseColumnPropertyType. go. Qed.
  Hint Resolve parseColumnPropertyType_ok : spec.
  Lemma parseComplexType_ok name p : isid name -> pok p -> spec 1 (parseComplexType name p) (fun _ => false) na.
  Proof. intros ? ?. unfold parseComplexType. go. Qed.
  Hint Resolve parseComplexType_ok : spec.
  Lemma parseEnumValueExpr_ok : spec 0 parseEnumValueExpr (fun _ => true) isenum.
  Proof. unfold parseEnumValueExpr. go. Qed.
  Hint Resolve parseEnumValueExpr_ok : spec.
  Lemma parseEnumType_ok name p : isid name -> pok p -> spec 1 (parseEnumType name p) (fun _ => false) na.
  Proof. intros ? ?. unfold parseEnumType. do 2 stp. apply (cut_weak _ _ _ _ _ _ pok).
    - assert (Hd : forall l, Forall isenum l -> is_empty l = true \/ isenum (last l ENil)).
      { intros l Hl. induction Hl as [|vx l Hx Hl IH]; [now left|]. right. destruct l; [exact Hx|]. now destruct IH. }
      destruct (Hd a ltac:(assumption)) as [He|(va & vb & -> & ? & ?)].
      + destruct a; [|discriminate]. cbn [last is_empty]. go.
      + clean. go.
    - cbv beta. intros. go. Qed.
  Hint Resolve parseEnumType_ok : spec.
  Lemma parseColumnTypeWithParams_ok name p : isid name -> pok p -> spec 1 (parseColumnTypeWithParams name p) (fun _ => false) na.
  Proof. intros ? ?. unfold parseColumnTypeWithParams. go. Qed.
  Hint Resolve parseColumnTypeWithParams_ok : spec.
  Lemma parseJSONPath_ok : spec 1 parseJSONPath (fun _ => true) isjpath.
  Proof. unfold parseJSONPath. do 2 stp. lp (Forall isid) (Forall isid). go. Qed.
  Hint Resolve parseJSONPath_ok : spec.
  Lemma parseJSONOption_ok : spec 1 parseJSONOption (fun _ => true) isjopt.
  Proof. unfold parseJSONOption. stp. stp; [go|]. stp. case_if (tk (here s) KIdent); [|go]. stp. stp; [|go].
    destruct x as [|[] [|]]; go. Qed.
  Hint Resolve parseJSONOption_ok : spec.
  Lemma parseJSONType_ok name p : isid name -> pok p -> spec 2 (parseJSONType name p) (fun _ => false) na.
  Proof. intros ? ?. unfold parseJSONType. go. Qed.
  Hint Resolve parseJSONType_ok : spec.
  Lemma nestedField_ok e e' : nn e -> nn e' -> spec 0 (nestedField e e') (fun _ => false) na.
  Proof. intros ? ?. unfold nestedField. go. Qed.
  Hint Resolve nestedField_ok : spec.
  Lemma parseNestedTypeFieldWithName_ok : spec 0 parseNestedTypeFieldWithName (fun _ => true) na.
  Proof. unfold parseNestedTypeFieldWithName. go. Qed.
  Hint Resolve parseNestedTypeFieldWithName_ok : spec.
  Lemma parseNestedTypeFieldsWithNames_ok name : isid name -> spec 1 (parseNestedTypeFieldsWithNames name) (fun _ => false) (Forall nn).
  Proof. intros ?. unfold parseNestedTypeFieldsWithNames. go. Qed.
  Hint Resolve parseNestedTypeFieldsWithNames_ok : spec.
  Lemma parseNestedTypeFieldsWithoutNames_ok name : isid name -> spec 2 (parseNestedTypeFieldsWithoutNames name) (fun _ => false) (Forall nn).
  Proof. intros ?. unfold parseNestedTypeFieldsWithoutNames. go. Qed.
  Hint Resolve parseNestedTypeFieldsWithoutNames_ok : spec.
  Lemma parseNestedTypeFields_ok : spec 1 parseNestedTypeFields (fun _ => false) (Forall nn).
  Proof. unfold parseNestedTypeFields. go. Qed.
  Hint Resolve parseNestedTypeFields_ok : spec.
  Lemma parseNestedType_ok name p : isid name -> pok p -> spec 1 (parseNestedType name p) (fun _ => false) na.
  Proof. intros ? ?. unfold parseNestedType. go. Qed.
  Hint Resolve parseNestedType_ok : spec.
End Types.
#[export] Hint Resolve parseColumnType_ok parseColumnPropertyType_ok parseComplexType_ok parseEnumValueExpr_ok parseEnumType_ok parseColumnTypeWithParams_ok parseJSONPath_ok parseJSONOption_ok parseJSONType_ok nestedField_ok parseNestedTypeFieldWithName_ok parseNestedTypeFieldsWithNames_ok parseNestedTypeFieldsWithoutNames_ok parseNestedTypeFields_ok parseNestedType_ok : spec.
