(** Proofs for C24: [fold] changes neither the shape of a tree nor its positions. *)
From Coq Require Import String List Arith Bool Lia ZArith.
From Verif Require Import Str Keyword Lexer Ast AstPos AstSubs Prog RunFacts ParserCommon ParserExpr Parser Recase CaseRel.
Import ListNotations.
Local Open Scope string_scope.
Local Open Scope nat_scope.

Lemma nil_fold e : is_nil (fold e) = is_nil e. Proof. now destruct e. Qed.
Lemma empty_map {A B} (f : A -> B) l : is_empty (map f l) = is_empty l. Proof. now destruct l. Qed.
Lemma length_upper s : String.length (upper s) = String.length s. Proof. induction s as [|c s IH]; [reflexivity|]. cbn. now rewrite IH. Qed.
Lemma length_recase s : String.length (recase s) = String.length s. Proof. unfold recase. destruct (_ && _); [apply length_upper|reflexivity]. Qed.

Definition id_start (e : expr) : option pos := match e with EIdent _ _ v _ => Some v | _ => None end.
Definition id_end (e : expr) : option pos := match e with EIdent _ _ _ v => Some v | _ => None end.
Definition str_start (e : expr) : option pos := match e with EStringLiteral v _ _ => Some v | _ => None end.
Definition str_end (e : expr) : option pos := match e with EStringLiteral _ v _ => Some v | _ => None end.
Definition num_start (e : expr) : option pos := match e with ENumberLiteral v _ _ _ => Some v | _ => None end.
Definition num_end (e : expr) : option pos := match e with ENumberLiteral _ v _ _ => Some v | _ => None end.
Definition opt_end (e : expr) : option pos := match e with EJSONOptions _ v _ => Some v | _ => None end.
Definition par_end (e : expr) : option pos := match e with EParamExprList _ v _ _ => Some v | _ => None end.
Lemma id_start_fold e : id_start (fold e) = id_start e. Proof. now destruct e. Qed.
Lemma id_end_fold e : id_end (fold e) = id_end e. Proof. now destruct e. Qed.
Lemma str_start_fold e : str_start (fold e) = str_start e. Proof. now destruct e. Qed.
Lemma str_end_fold e : str_end (fold e) = str_end e. Proof. now destruct e. Qed.
Lemma num_start_fold e : num_start (fold e) = num_start e. Proof. now destruct e. Qed.
Lemma num_end_fold e : num_end (fold e) = num_end e. Proof. now destruct e. Qed.
Lemma opt_end_fold e : opt_end (fold e) = opt_end e. Proof. now destruct e. Qed.
Lemma par_end_fold e : par_end (fold e) = par_end e. Proof. now destruct e. Qed.

Ltac mem := cbn [subs]; repeat rewrite in_app_iff; cbn [In]; tauto.
Lemma last_fold {A} (g : expr -> A) l d : (forall c, In c l -> g (fold c) = g c) -> last (map g (map fold l)) d = last (map g l) d.
Proof. intros H. rewrite map_map. f_equal. apply map_ext_in. exact H. Qed.

Lemma hd_fold {A} (g : expr -> A) l d : (forall c, In c l -> g (fold c) = g c) -> hd d (map g (map fold l)) = hd d (map g l).
Proof. intros H. destruct l as [|x l]; [reflexivity|]. cbn. apply H. now left. Qed.

Ltac fol g IH :=
  repeat match goal with
  | |- context [is_nil (fold ?x)] => rewrite (nil_fold x)
  | |- context [is_empty (map ?h ?x)] => rewrite (empty_map h x)
  | |- context [g (fold ?x)] => rewrite (IH x) by mem
  | |- context [last (map g (map fold ?l)) ?d] => rewrite (last_fold g l d) by (intros; apply IH; mem)
  | |- context [hd ?d (map g (map fold ?l))] => rewrite (hd_fold g l d) by (intros; apply IH; mem)
  | |- context [String.length (recase ?s)] => rewrite (length_recase s)
  | |- context [String.length (upper ?s)] => rewrite (length_upper s)
  end.
Ltac leafs :=
  repeat match goal with |- (if ?b then _ else _) = _ => destruct b end;
  first [ reflexivity | apply id_start_fold | apply id_end_fold | apply str_start_fold | apply str_end_fold | apply num_start_fold | apply num_end_fold
        | apply opt_end_fold | apply par_end_fold ].

Lemma pos_fold e : pos_of (fold e) = pos_of e.
Proof. induction e as [e IH] using expr_rect_subs. destruct e; cbn [fold pos_of]; try reflexivity; fol pos_of IH; try reflexivity; leafs. Qed.
(** The format of SHOW DATABASES. *)
Definition fmt (e : expr) : expr := match e with EStringLiteral a b s => EStringLiteral a b (recase s) | _ => fold e end.
Lemma fmt_rel a b : fold a = fold b -> fmt a = fmt b.
Proof.
  assert (E : forall e, fmt e = match fold e with EStringLiteral a b s => EStringLiteral a b (recase s) | _ => fold e end) by (intros e; now destruct e).
  intros H. now rewrite !E, H.
Qed.
Lemma fmt_nil e : is_nil (fmt e) = is_nil e. Proof. now destruct e. Qed.
Lemma fmt_end e : end_of (fold e) = end_of e -> end_of (fmt e) = end_of e. Proof. now destruct e. Qed.

Lemma end_fold e : end_of (fold e) = end_of e.
Proof. induction e as [e IH] using expr_rect_subs. destruct e; cbn [fold end_of]; try reflexivity;
  try (match goal with |- context [is_nil (match ?x with _ => _ end)] => fold (fmt x); rewrite (fmt_nil x), (fmt_end x) by (apply IH; mem) end); fol end_of IH; try reflexivity; leafs. Qed.
