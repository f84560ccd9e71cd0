(** C25 for scripts: the texts of statements, joined with semicolons, are a text of the script. *)
From Coq Require Import String Ascii List Arith Bool Lia.
From Verif Require Import Str Keyword Lexer LexSpec LexGrammar LexTokens LayoutSpec Ast PrecSpec Prog RoundSpec RoundText RoundLex RoundMoreSpec RoundDdlSpec RoundDdlText.
Import ListNotations.
Local Open Scope string_scope.
Local Open Scope list_scope.
Local Open Scope nat_scope.

Notation semi := [T (O ";"); Sp].

Lemma joined_text ls : text (sep_by semi ls) = String.concat "; " (map text ls).
Proof. induction ls as [|l [|m ls] IH]; [reflexivity|reflexivity|]. rewrite text_sep_cons, IH. reflexivity. Qed.

Lemma fine_prev l : forall p q, (operand q -> operand p) -> fine p l -> fine q l.
Proof.
  induction l as [|[t|] l IH]; intros p q Hpq H; cbn [fine] in *; [exact I| |now apply (IH p)]. destruct H as [H1 H2]. split; [|exact H2].
  intros Hk. destruct (H1 Hk) as [[H3|H3] H4]; (split; [|exact H4]); [now left|right; auto].
Qed.
Lemma fine_app l r : (forall p, fine p r) -> (forall r', r <> T (O ".") :: r') -> forall p, fine p l -> fine p (l ++ r).
Proof.
  intros Hr Hd. induction l as [|[t|] l IH]; intros p H; cbn [fine app] in *; [apply Hr| |now apply IH]. destruct H as [H1 H2]. split; [|now apply IH].
  intros Hk. destruct (H1 Hk) as [H3 H4]. split; [exact H3|]. intros r' E. destruct l as [|s l]; cbn [app] in E; [now apply (Hd r')|]. injection E as -> E. now apply (H4 l).
Qed.
Lemma joined_fine ls : Forall (fine None) ls -> fine None (sep_by semi ls).
Proof.
  induction 1 as [|l [|m ls] Hl H IH]; [exact I|exact Hl|]. cbn [sep_by]. apply fine_app; [|discriminate|exact Hl].
  intros p. cbn [app fine]. split; [intros [E|[E|[]]]; discriminate E|]. eapply fine_prev, IH. cbn. intuition discriminate.
Qed.
Lemma joined_chk es ls : Forall2 ddl es ls -> chk (sep_by semi ls).
Proof.
  induction 1 as [|e l es ls He H IH]; [exact I|]. destruct (ddl_good _ _ He) as [Hn Hg]. destruct H as [|e2 m es ls Hm H].
  - cbn [sep_by]. rewrite <- (app_nil_r l). now apply Hg.
  - change (sep_by semi (l :: m :: ls)) with (l ++ semi ++ sep_by semi (m :: ls)). apply Hg; [reflexivity|]. cbn [app]. apply chk_T; [apply V_mark; vm_compute; tauto|exact I|]. apply chk_Sp; [|exact IH].
    destruct (ddl_good _ _ Hm) as [Hn2 _]. destruct ls; cbn [sep_by]; [exact Hn2|]. destruct m; [now elim Hn2|discriminate].
Qed.
Lemma joined_script es ls : Forall2 ddl es ls -> script es (toks (sep_by semi ls)).
Proof.
  induction 1 as [|e l es ls He H IH]; [apply Script_nil|]. destruct H as [|e2 m es ls Hm H]; [now apply Script_last|].
  change (sep_by semi (l :: m :: ls)) with (l ++ semi ++ sep_by semi (m :: ls)). unfold toks at 1. rewrite !flat_map_app. now apply Script_next.
Qed.
Lemma joined_source es ls : Forall2 ddl es ls -> Forall (fine None) ls -> source None (toks (sep_by semi ls)) true (String.concat "; " (map text ls)).
Proof. intros H Hf. rewrite <- joined_text. apply chk_source; [now apply (joined_chk es)|now apply joined_fine]. Qed.
