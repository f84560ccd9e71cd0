(** Properties C27 to C30: the layout that the formatter makes. *)
From Coq Require Import String Ascii List Arith Bool.
From Verif Require Import Str Ast AstPos AstSubs ItemsFacts Items LexRun Parser ParserApi WalkSpec WalkFacts ParseFacts Format FormatSpec FormatFacts FormatSafe BracketFacts.
Import ListNotations.
Local Open Scope string_scope.
Local Open Scope list_scope.
Local Open Scope nat_scope.

(** Formatting ends: with a text, or with a nil dereference. *)
Theorem C27_total : forall ind e, Format e <> FFuel /\ Beautify ind e <> FFuel.
Proof.
  intros ind e. unfold Format, Beautify. destruct (is_nil e); [split; discriminate|]. pose proof (fmt_no_fuel false e). pose proof (fmt_no_fuel true e).
  destruct (fmt false e), (fmt true e); cbn; split; congruence.
Qed.
Print Assumptions C27_total.

(** ** C27 *)

(** The two modes write the same characters other than blanks and line breaks, for every tree and every
    indentation that is blank itself. *)
Theorem C27_same_text : forall ind e t, squeeze ind = "" -> Format e = FOk t ->
  exists u, Beautify ind e = FOk u /\ squeeze u = squeeze t.
Proof.
  intros ind e t Hi. unfold Format, Beautify. destruct (is_nil e); [intros [= <-]; now exists ""|]. pose proof (fmt_squeeze e) as H.
  destruct (fmt false e) as [l| |]; cbn [fbind] in *; try discriminate. destruct (fmt true e) as [m| |]; cbn [fbind] in H; try discriminate.
  intros [= <-]. injection H as H. eexists. split; [reflexivity|]. unfold render at 1. rewrite play_squeeze by exact Hi. now rewrite render_compact.
Qed.
Print Assumptions C27_same_text.

(** They also fail on the same trees. *)
Theorem C27_same_panic : forall ind e, Format e = FPanic <-> Beautify ind e = FPanic.
Proof.
  intros ind e. unfold Format, Beautify. destruct (is_nil e); [split; discriminate|]. pose proof (fmt_squeeze e) as H.
  destruct (fmt false e), (fmt true e); cbn [fbind] in *; split; congruence.
Qed.
Print Assumptions C27_same_panic.

(** The text of a parsed statement, in both modes. *)
Definition formats (inp : string) : list (fres string) := match parse_stmts inp with Parsed l _ => map Format l | _ => [] end.
Definition beautifies (inp : string) : list (fres string) := match parse_stmts inp with Parsed l _ => map (Beautify "  ") l | _ => [] end.
Definition nl : string := String newline "".

Example C27_case :
  formats "select a from t where b and c=1 " = [FOk "SELECT a FROM t WHERE b AND c = 1"] /\
  beautifies "select a from t where b and c=1 " =
    [FOk ("SELECT" ++ nl ++ "  a" ++ nl ++ "FROM" ++ nl ++ "  t" ++ nl ++ "WHERE" ++ nl ++ "  b" ++ nl ++ "AND" ++ nl ++ "  c = 1")%string].
Proof. split; vm_compute; reflexivity. Qed.

(** ** C28 *)

(** A line break of the compact text lies in an occurrence of a string that the tree holds (the text of a literal or
    a name), or of that string in upper case (the operator of an OperationExpr is written so). *)
Theorem C28_one_line : forall e t i, Format e = FOk t -> String.get i t = Some newline ->
  exists s v, held e s /\ (v = s \/ v = upper s) /\ within t i v.
Proof.
  intros e t i. unfold Format. destruct (is_nil e); [intros [= <-]; destruct i; discriminate|]. destruct (fmt false e) as [l| |] eqn:E; cbn [fbind]; try discriminate.
  intros [= <-]. rewrite render_compact. apply (fmt_breaks false e l E).
Qed.
Print Assumptions C28_one_line.

(** A statement with a line break in a literal and in the source, but only one in the output. *)
Example C28_case : formats ("SELECT" ++ nl ++ "'a" ++ nl ++ "b' ")%string = [FOk ("SELECT 'a" ++ nl ++ "b'")%string].
Proof. vm_compute. reflexivity. Qed.

(** ** C29 *)

(** Formatting a node, from any state of the formatter, ends at the level at which it began and
    never goes below it. *)
Theorem C29_balanced : forall b ind e l s, fmt b e = FOk l ->
  level (snd (play b ind l s)) = level s /\ forall p q, l = p ++ q -> level s <= level (snd (play b ind p s)).
Proof.
  intros b ind e l s H. split; [now apply (fmt_play_level b ind e)|]. intros p q ->. now apply (fmt_prefix_level b ind e p q).
Qed.
Print Assumptions C29_balanced.

(** The level does go up. *)
Example C29_case : exists st sp l p q, parse_stmts "select a " = Parsed [st] sp /\ fmt true st = FOk l /\ l = p ++ q /\
  level (snd (play true "  " p fs_init)) = 1 /\ level (snd (play true "  " l fs_init)) = 0.
Proof.
  do 3 eexists. exists [W "SELECT"; Ind; Brk]. eexists. repeat apply conj; vm_compute; reflexivity.
Qed.

(** ** C30 *)

(** A literal or quoted identifier without a line break is in the beautified text as it is. *)
Theorem C30_partial : forall ind e t c q s, Beautify ind e = FOk t -> written true e c -> quoted c q s -> one_line s = true ->
  occurs (q ++ s ++ q) t.
Proof.
  intros ind e t c q s. unfold Beautify. destruct (is_nil e) eqn:En; [destruct e; try discriminate|].
  - intros _ Hw Hq. inversion Hw; subst; [inversion Hq|..]; cbn in *; intuition discriminate.
  - destruct (fmt true e) as [l| |] eqn:E; cbn [fbind]; try discriminate. intros [= <-] Hw Hq H1.
    apply in_run_play; [|now apply (written_run true e c q s)]. rewrite !one_line_app, H1. now destruct Hq.
Qed.
Print Assumptions C30_partial.

Example C30_case : exists st sp p1 p2, parse_stmts "select 'x y' " = Parsed [st] sp /\ written true st (EStringLiteral p1 p2 "x y") /\
  quoted (EStringLiteral p1 p2 "x y") "'" "x y" /\ Beautify "  " st = FOk ("SELECT" ++ nl ++ "  'x y'")%string.
Proof.
  do 4 eexists. split; [vm_compute; reflexivity|]. split; [|split; [constructor|vm_compute; reflexivity]].
  eapply written_step; [|right; apply (nth_error_In _ 3); reflexivity|]; [reflexivity|].
  eapply written_step; [|left; apply (nth_error_In _ 0); reflexivity|]; [reflexivity|]. apply written_self.
Qed.

(** A literal with a line break is changed: the indentation goes into it. *)
Theorem C30_refuted : exists inp st sp p1 p2 s t, parse_stmts inp = Parsed [st] sp /\ node_of st (EStringLiteral p1 p2 s) /\
  Beautify "  " st = FOk t /\ ~ occurs s t.
Proof.
  exists ("SELECT 'a" ++ nl ++ "b' ")%string. do 4 eexists. exists ("a" ++ nl ++ "b")%string. eexists. split; [vm_compute; reflexivity|].
  split; [|split; [vm_compute; reflexivity|]].
  - eapply node_sub; [apply (nth_error_In _ 3); reflexivity|]. eapply node_sub; [apply (nth_error_In _ 0); reflexivity|]. apply node_self.
  - intros H. apply occurs_b in H. vm_compute in H. discriminate.
Qed.
Print Assumptions C30_refuted.

(** ** C39 *)

(** The text of an accepted statement exists in both modes, unless the statement contains a [FunctionExpr] without parameters. *)
Theorem C39_no_panic : forall ind inp stmts sp t, parse_stmts inp = Parsed stmts sp -> In t stmts ->
  (forall name, ~ node_of t (EFunctionExpr name ENil)) ->
  (exists u, Format t = FOk u) /\ (exists u, Beautify ind t = FOk u).
Proof.
  intros ind inp stmts sp t Hp Ht Hn. destruct (parsed_shape inp stmts sp t Hp Ht) as (H1 & H2 & H3 & H4).
  assert (Hl : forall n, node_of t n -> ~ no_args n).
  { intros n Hx Hy. destruct n; try contradiction. cbn [no_args] in Hy. match goal with H : match ?x with _ => _ end |- _ => destruct x; try contradiction end. exact (Hn _ Hx). }
  assert (Hi : is_nil t = false) by (destruct t; [discriminate|reflexivity..]).
  assert (Hq : plainly t) by (destruct t; try exact I; discriminate).
  pose proof (fmt_safe t Hi Hq H2 H3 H4 Hl) as H. unfold Format, Beautify. rewrite Hi. split.
  - pose proof (H false). pose proof (fmt_no_fuel false t). destruct (fmt false t); try congruence. cbn. eauto.
  - pose proof (H true). pose proof (fmt_no_fuel true t). destruct (fmt true t); try congruence. cbn. eauto.
Qed.
Print Assumptions C39_no_panic.

(** The exception: in the source of a dictionary the parser builds such a function. *)
Example C39_case_panic : formats "CREATE DICTIONARY d (a Int8) PRIMARY KEY a SOURCE(F(x f())) " = [FPanic].
Proof. vm_compute. reflexivity. Qed.
Example C39_case : exists stmts sp, parse_stmts "select f(1) from t join u on t.a=u.a " = Parsed stmts sp /\ List.length stmts = 1 /\
  forall t name, In t stmts -> ~ node_of t (EFunctionExpr name ENil).
Proof.
  do 2 eexists. split; [vm_compute; reflexivity|]. split; [reflexivity|]. intros t name [<-|[]] Hn.
  repeat match goal with H : node_of _ _ |- _ => inversion H; clear H; subst; cbn [subs In app] in *;
    repeat match goal with H : _ \/ _ |- _ => destruct H; subst | H : False |- _ => destruct H end; try discriminate end.
Qed.

(** ** C40 *)

(** When the brackets inside each name and literal of the tree are nested (most have none), those of the text are, in both modes. *)
Theorem C40_nested : forall ind e, squeeze ind = "" -> (forall s, held e s -> nested s) ->
  (forall t, Format e = FOk t -> nested t) /\ (forall t, Beautify ind e = FOk t -> nested t).
Proof.
  intros ind e Hi He.
  assert (H : forall t, Format e = FOk t -> nested t).
  { intros t. unfold Format. destruct (is_nil e); [now intros [= <-]|]. destruct (fmt false e) as [l| |] eqn:E; cbn [fbind]; try discriminate.
    intros [= <-]. rewrite render_compact. exact (fmt_nest false e l E He []). }
  split; [exact H|]. intros u Hu. pose proof (proj1 (C27_same_panic ind e)) as Hp. pose proof (C27_total ind e) as [Hf _].
  destruct (Format e) as [t| |] eqn:E; [|rewrite (Hp eq_refl) in Hu; discriminate|congruence].
  destruct (C27_same_text ind e t Hi E) as (u' & Hu' & Hq). rewrite Hu' in Hu. injection Hu as ->. unfold nested. rewrite <- nest_squeeze, Hq, nest_squeeze.
  now apply H.
Qed.
Print Assumptions C40_nested.

Example C40_case : exists st sp, parse_stmts "select [f((a),{b:c})] " = Parsed [st] sp /\ Format st = FOk "SELECT [f((a), {b: c})]" /\ forall s, held st s -> nested s.
Proof.
  do 2 eexists. split; [vm_compute; reflexivity|]. split; [vm_compute; reflexivity|]. intros s (n & Hn & Hs).
  repeat match goal with H : node_of _ _ |- _ => inversion H; clear H; subst; cbn [subs texts In app] in *;
    repeat match goal with H : _ \/ _ |- _ => destruct H; subst | H : False |- _ => destruct H end; try discriminate; try reflexivity end.
Qed.
