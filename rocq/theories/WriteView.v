(** Proofs for C42: the functions of ParserView.v. *)
From Coq Require Import String List Arith Bool.
From Verif Require Import Str Keyword Lexer Ast AstPos AstSubs Prog RunFacts ParserCommon ParserExpr ParserQuery ParserTable ParserAlter ParserView ParserSystem Parser Words WriteLogic WriteTac WriteCommon WriteExpr WriteQuery WriteTable WriteAlter.
Import ListNotations.
Local Open Scope string_scope.
Local Open Scope nat_scope.

Definition dest_good (x : expr * expr * expr * pos) : Prop :=
  let '(d, t, e, _) := x in (d = ENil \/ exists p t s, d = EDestinationClause p t s /\ ok t /\ ok s) /\ ok t /\ ok e.

Section Write.
  Context {f : nat} (Hc : calls f).
  Local Notation gives := (@WriteLogic.gives f _).

  Lemma w_parseDropDatabase (p : pos) : gives good (parseDropDatabase p).
  Proof. clear - Hc. intros. unfold parseDropDatabase. go. Qed.
  Local Hint Resolve w_parseDropDatabase : tell.
  Lemma w_parseDropStmt (p : pos) : gives good (parseDropStmt p).
  Proof. clear - Hc. intros. unfold parseDropStmt. go. Qed.
  Local Hint Resolve w_parseDropStmt : tell.
  Lemma w_tryParseRefreshExpr  : gives good tryParseRefreshExpr.
  Proof. clear - Hc. intros. unfold tryParseRefreshExpr. go. Qed.
  Local Hint Resolve w_tryParseRefreshExpr : tell.
  Lemma w_parseCreateMaterializedView (p : pos) : gives good (parseCreateMaterializedView p).
  Proof. clear - Hc. intros. unfold parseCreateMaterializedView. pause. apply (g_bind _ _ dest_good); [push; unfold dest_good; cbn [set_dest_schema]; (split; [first [left; reflexivity | right; do 3 eexists; split; [reflexivity|split; [assumption|first [assumption | exact ok_nil]]]]|split; val]) | intros [[[d t] e] q] (Hd & Ht & He); cbv beta iota; destruct Hd as [-> | (dp & dt & ds & -> & Hdt & Hds)]; go]. Qed.
  Local Hint Resolve w_parseCreateMaterializedView : tell.
  Lemma w_parseCreateView (p : pos) (orReplace : bool) : gives good (parseCreateView p orReplace).
  Proof. clear - Hc. intros. unfold parseCreateView. go. Qed.
  Local Hint Resolve w_parseCreateView : tell.
  Lemma w_tryParseWithTimeout  : gives good tryParseWithTimeout.
  Proof. clear - Hc. intros. unfold tryParseWithTimeout. go. Qed.
  Local Hint Resolve w_tryParseWithTimeout : tell.
  Lemma w_parseCreateLiveView (p : pos) : gives good (parseCreateLiveView p).
  Proof. clear - Hc. intros. unfold parseCreateLiveView. go. Qed.
  Local Hint Resolve w_parseCreateLiveView : tell.
End Write.
Global Hint Resolve w_parseDropDatabase w_parseDropStmt w_tryParseRefreshExpr w_parseCreateMaterializedView w_parseCreateView w_tryParseWithTimeout w_parseCreateLiveView : tell.
