(** Specifications of the functions of ParserCommon.v. *)
From Coq Require Import String List Arith Bool Lia ZArith.
From Verif Require Import Str Keyword Lexer Ast AstPos AstSubs PrecSpec SpanSpec Prog Items ItemsFacts RunFacts
  ParserCommon ParserExpr ParserQuery Parser Hoare Spec SpecTac.
Import ListNotations.
Local Open Scope string_scope.
Local Open Scope nat_scope.

#[export] Hint Resolve tryKws_ok tryKw_ok expKw_ok : spec.
#[export] Hint Extern 1 (spec _ (tryTkb _) _ _) => apply tryTkb_ok; reflexivity : spec.
#[export] Hint Extern 1 (spec _ (tryTk _) _ _) => apply tryTk_ok; reflexivity : spec.
#[export] Hint Extern 1 (spec _ (expTk _) _ _) => apply expTk_ok; reflexivity : spec.
#[export] Hint Extern 1 (spec _ (sepTail _ [_] _) _ _) => eapply sepTail1_ok; [reflexivity | solve [eauto 6 with spec nocore] | val] : spec.
#[export] Hint Extern 1 (spec _ (endOf _) _ _) => apply endOf_ok; nnt : spec.
#[export] Hint Extern 1 (pok _) => pokt : spec.
#[export] Hint Extern 1 (nn _) => nnt : spec.
#[export] Hint Extern 1 (mb _) => mbt : spec.
#[export] Hint Extern 1 (na _) => nat_ : spec.
#[export] Hint Extern 1 (good _) => goodt : spec.
#[export] Hint Extern 1 (isid _) => val : spec.

Section CallSpecs.
  Context `{Calls}.

  Lemma call_ok n : npre n -> spec (rank n + 1) (Call n (fun e => Ret e)) (nstr n) (fun e => exists s', npost n e s').
  Proof.
    intros Hp s Hw Hl. unfold wp, post. cbn [run]. pose proof (calls n Hp s Hw ltac:(lia)) as Hc. unfold post in Hc.
    destruct (run body fl (body n) s) as [e s'|e s'|z|]; cbn; auto. destruct Hc as (H1 & H2 & H3 & H4). repeat split; eauto.
  Qed.

  Lemma wp_call n s (Q : expr -> pstate -> Prop) : npre n -> wfs s -> 10 * len s + rank n + 1 <= fl ->
    (forall e s', wfs s' -> len s' <= len s -> (nstr n e = true -> len s' < len s) -> npost n e s' -> Q e s') ->
    wp (Call n (fun e => Ret e)) s Q.
  Proof.
    intros Hp Hw Hl HQ. unfold wp, post. cbn [run]. pose proof (calls n Hp s Hw ltac:(lia)) as Hc. unfold post in Hc.
    destruct (run body fl (body n) s) as [e s'|e s'|z|]; cbn; auto. destruct Hc as (H1 & H2 & H3 & H4). auto.
  Qed.

  Lemma parseSubExpr_ok p prec : pok p -> prec <= 16 -> spec 5 (parseSubExpr p prec) (fun _ => true) (fun e => nn e /\ prec < as_right e).
  Proof.
    intros Hp Hq. eapply spec_conseq; [apply (call_ok (NSubExpr p prec)); exact (conj Hp Hq) | auto | auto |].
    intros a [s' Ha]. cbn in Ha. tauto.
  Qed.
  Lemma parseExpr_ok p : pok p -> spec 5 (parseExpr p) (fun _ => true) nn.
  Proof. intros Hp. eapply spec_conseq; [apply parseSubExpr_ok; [exact Hp | lia] | auto | auto | cbv beta; tauto]. Qed.
  Lemma parseExprHere_ok : spec 5 parseExprHere (fun _ => true) nn.
  Proof. intros s Hw Hl. unfold parseExprHere. apply bind_pos. apply parseExpr_ok; [pokt | exact Hw | exact Hl]. Qed.
  Lemma parseSelectQuery_ok : spec 2 parseSelectQuery (fun _ => true) na.
  Proof. eapply spec_conseq; [apply (call_ok NSelectQuery); exact I | auto | auto |]. now intros a [s' Ha]. Qed.
  Lemma parseColumnTypeArgs_ok ident : isid ident -> spec 2 (parseColumnTypeArgs ident) (fun _ => false) na.
  Proof. intros Hi. eapply spec_conseq; [apply (call_ok (NColumnTypeArgs ident)); exact Hi | auto | auto |]. now intros a [s' Ha]. Qed.
  Lemma parseJoinRightExpr_ok p : pok p -> spec 2 (parseJoinRightExpr p) (fun e => negb (is_nil e)) mb.
  Proof. intros Hi. eapply spec_conseq; [apply (call_ok (NJoinRight p)); exact Hi | auto | auto |]. now intros a [s' Ha]. Qed.
  Lemma parseTableArgExpr_ok p : pok p -> spec 9 (parseTableArgExpr p) (fun _ => false) nn.
  Proof. intros Hi. eapply spec_conseq; [apply (call_ok (NTableArg p)); exact Hi | auto | auto |]. now intros a [s' Ha]. Qed.
  Lemma parseDictionaryArgExpr_ok p : pok p -> spec 9 (parseDictionaryArgExpr p) (fun _ => true) gd.
  Proof. intros Hi. eapply spec_conseq; [apply (call_ok (NDictArg p)); exact Hi | auto | auto |]. now intros a [s' Ha]. Qed.
  Lemma parseAssignmentValues_ok p : pok p -> spec 9 (parseAssignmentValues p) (fun _ => true) nn.
  Proof. intros Hi. eapply spec_conseq; [apply (call_ok (NAssignValues p)); exact Hi | auto | auto |]. now intros a [s' Ha]. Qed.
End CallSpecs.
#[export] Hint Resolve parseExpr_ok parseExprHere_ok parseSelectQuery_ok parseColumnTypeArgs_ok parseJoinRightExpr_ok
  parseTableArgExpr_ok parseDictionaryArgExpr_ok parseAssignmentValues_ok : spec.

Section CommonSpecs.
  Context `{Env}.

  Lemma tryParseIdent_ok : spec 0 tryParseIdent (fun e => negb (is_nil e)) (fun e => e = ENil \/ isid e).
  Proof. unfold tryParseIdent. go. Qed.
  Hint Resolve tryParseIdent_ok : spec.
  Lemma parseAnyKeyword_ok : spec 0 parseAnyKeyword (fun _ => true) isid.
  Proof. unfold parseAnyKeyword. go. Qed.
  Hint Resolve parseAnyKeyword_ok : spec.
  Lemma parseIdent_ok : spec 0 parseIdent (fun _ => true) isid.
  Proof. unfold parseIdent. go. Qed.
  Hint Resolve parseIdent_ok : spec.
  Lemma parseIdentOrStar_ok : spec 0 parseIdentOrStar (fun _ => true) isid.
  Proof. unfold parseIdentOrStar. go. Qed.
  Hint Resolve parseIdentOrStar_ok : spec.
  Lemma parseIdentOrString_ok : spec 0 parseIdentOrString (fun _ => true) isid.
  Proof. unfold parseIdentOrString. go. Qed.
  Hint Resolve parseIdentOrString_ok : spec.
  Lemma tryParseDotIdent_ok : spec 0 tryParseDotIdent (fun e => negb (is_nil e)) (fun e => e = ENil \/ isid e).
  Proof. unfold tryParseDotIdent. go. Qed.
  Hint Resolve tryParseDotIdent_ok : spec.
  Lemma tryParseDotIdentOrString_ok : spec 0 tryParseDotIdentOrString (fun e => negb (is_nil e)) (fun e => e = ENil \/ isid e).
  Proof. unfold tryParseDotIdentOrString. go. Qed.
  Hint Resolve tryParseDotIdentOrString_ok : spec.
  Lemma parseString_ok p : pok p -> spec 0 (parseString p) (fun _ => true) isstr.
  Proof. intros Hp. unfold parseString. go. Qed.
  Hint Resolve parseString_ok : spec.
  Lemma parseStringHere_ok : spec 0 parseStringHere (fun _ => true) isstr.
  Proof. unfold parseStringHere. go. Qed.
  Hint Resolve parseStringHere_ok : spec.
  Lemma parseUUID_ok : spec 0 parseUUID (fun _ => true) na.
  Proof. unfold parseUUID. go. Qed.
  Hint Resolve parseUUID_ok : spec.
  Lemma tryParseUUID_ok : spec 0 tryParseUUID (fun e => negb (is_nil e)) mb.
  Proof. unfold tryParseUUID. go. Qed.
  Hint Resolve tryParseUUID_ok : spec.
  Lemma tryParseComment_ok : spec 0 tryParseComment (fun e => negb (is_nil e)) (fun e => e = ENil \/ isstr e).
  Proof. unfold tryParseComment. go. Qed.
  Hint Resolve tryParseComment_ok : spec.
  Lemma tryParseIfExists_ok : spec 0 tryParseIfExists (fun b => b) (fun _ => True).
  Proof. unfold tryParseIfExists. go. Qed.
  Hint Resolve tryParseIfExists_ok : spec.
  Lemma tryParseIfNotExists_ok : spec 0 tryParseIfNotExists (fun b => b) (fun _ => True).
  Proof. unfold tryParseIfNotExists. go. Qed.
  Hint Resolve tryParseIfNotExists_ok : spec.
  Lemma bind_tryParseNull B (f : expr -> prog B) s Q : wfs s ->
    (forall e s', wfs s' -> len s' <= len s -> mb e -> wp (f e) s' Q) -> wp (bind (tryParseNull (ipos (here s))) f) s Q.
  Proof.
    intros Hw Hf. unfold tryParseNull. apply bind_assoc_wp, bind_tryKw; [assumption | intros ? s' ? ?; cbv beta iota | intros ?; cbv beta iota].
    - apply bind_Ret, Hf; [assumption | lia |]. val.
    - apply bind_Ret, Hf; [assumption | lia |]. val.
  Qed.
  Lemma tryParseNotNull_ok p : pok p -> spec 0 (tryParseNotNull p) (fun e => negb (is_nil e)) mb.
  Proof. intros Hp. unfold tryParseNotNull. go. Qed.
  Hint Resolve tryParseNotNull_ok : spec.
  Lemma parseNumber_ok p : pok p -> spec 0 (parseNumber p) (fun _ => true) isnum.
  Proof. intros Hp. unfold parseNumber. go. Qed.
  Hint Resolve parseNumber_ok : spec.
  Lemma parseNumberHere_ok : spec 0 parseNumberHere (fun _ => true) isnum.
  Proof. unfold parseNumberHere. go. Qed.
  Hint Resolve parseNumberHere_ok : spec.
  Lemma parseDecimal_ok p : pok p -> spec 0 (parseDecimal p) (fun _ => true) isnum.
  Proof. intros Hp. unfold parseDecimal. go. Qed.
  Hint Resolve parseDecimal_ok : spec.
  Lemma parseLiteralHere_ok : spec 0 parseLiteralHere (fun _ => false) na.
  Proof. unfold parseLiteralHere, parseLiteral. go. Qed.
  Hint Resolve parseLiteralHere_ok : spec.
  Lemma parseNestedIdentifier_ok : spec 0 parseNestedIdentifier (fun _ => true) na.
  Proof. unfold parseNestedIdentifier. go. Qed.
  Hint Resolve parseNestedIdentifier_ok : spec.
  Lemma parseFormat_ok p : pok p -> spec 0 (parseFormat p) (fun _ => true) na.
  Proof. intros Hp. unfold parseFormat. go. Qed.
  Hint Resolve parseFormat_ok : spec.
  Lemma tryParseFormat_ok p : pok p -> spec 0 (tryParseFormat p) (fun e => negb (is_nil e)) mb.
  Proof. intros Hp. unfold tryParseFormat. go. Qed.
  Hint Resolve tryParseFormat_ok : spec.
  Lemma parseRatioExpr_ok p : pok p -> spec 0 (parseRatioExpr p) (fun _ => true) na.
  Proof. intros Hp. unfold parseRatioExpr. go. Qed.
  Hint Resolve parseRatioExpr_ok : spec.
End CommonSpecs.
#[export] Hint Resolve tryParseIdent_ok parseAnyKeyword_ok parseIdent_ok parseIdentOrStar_ok parseIdentOrString_ok tryParseDotIdent_ok tryParseDotIdentOrString_ok parseString_ok parseStringHere_ok parseUUID_ok tryParseUUID_ok tryParseComment_ok tryParseIfExists_ok tryParseIfNotExists_ok tryParseNotNull_ok parseNumber_ok parseNumberHere_ok parseDecimal_ok parseLiteralHere_ok parseNestedIdentifier_ok parseFormat_ok tryParseFormat_ok parseRatioExpr_ok : spec.
