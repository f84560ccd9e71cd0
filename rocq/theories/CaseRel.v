(** Proofs for C24: two runs of a parser program on items that are the same up to the spelling of keywords give the same, up to
    the spelling of keywords. *)
From Coq Require Import String List Arith Bool Lia.
From Verif Require Import Str Keyword Lexer Ast AstPos AstSubs Prog RunFacts ParserCommon ParserExpr Parser Recase.
Import ListNotations.
Local Open Scope string_scope.
Local Open Scope nat_scope.

(** ** Strings *)

Lemma upper_upper s : upper (upper s) = upper s.
Proof. induction s as [|c s IH]; [reflexivity|]. cbn [upper]. rewrite IH. f_equal. destruct c as [[] [] [] [] [] [] [] []]; reflexivity. Qed.
Lemma upper_recase s : upper (recase s) = upper s.
Proof. unfold recase. destruct (_ && _); [apply upper_upper|reflexivity]. Qed.
Lemma upper_rel s t : recase s = recase t -> upper s = upper t.
Proof. intros H. now rewrite <- (upper_recase s), H, upper_recase. Qed.
Lemma eqb_recase s w : is_keyword (upper w) && negb (str_in (upper w) cased) = false -> String.eqb (recase s) w = String.eqb s w.
Proof.
  intros Hw. unfold recase. destruct (is_keyword (upper s) && negb (str_in (upper s) cased)) eqn:E; [|reflexivity].
  destruct (String.eqb_spec (upper s) w) as [E1|H1]; destruct (String.eqb_spec s w) as [E2|H2]; try reflexivity.
  - subst w. rewrite upper_upper in Hw. congruence.
  - subst w. congruence.
Qed.
(** A word that is no keyword, or one of [cased], is itself or is not. *)
Lemma eqb_rel s t w : recase s = recase t -> is_keyword (upper w) && negb (str_in (upper w) cased) = false -> String.eqb s w = String.eqb t w.
Proof. intros H Hw. now rewrite <- (eqb_recase s w Hw), H, eqb_recase. Qed.
Lemma in_rel s t l : recase s = recase t -> forallb (fun w => negb (is_keyword (upper w) && negb (str_in (upper w) cased))) l = true -> str_in s l = str_in t l.
Proof.
  unfold str_in. intros Hs. induction l as [|w l IH]; intros H; [reflexivity|]. cbn [forallb existsb] in *. apply andb_prop in H as [H1 H2]. rewrite IH by exact H2.
  rewrite (eqb_rel s t w Hs); [reflexivity|]. now apply negb_true_iff.
Qed.
Lemma has_rel w l l' : map recase l = map recase l' -> is_keyword (upper w) && negb (str_in (upper w) cased) = false -> str_in w l = str_in w l'.
Proof.
  intros H Hw. revert l' H. unfold str_in. induction l as [|s l IH]; intros [|t l'] H; try discriminate; [reflexivity|]. injection H as H1 H2. cbn [existsb].
  rewrite !(String.eqb_sym w), (eqb_rel s t w H1 Hw). f_equal. now apply IH.
Qed.
Lemma any_rel w l l' : map recase l = map recase l' -> existsb (fun m => equal_fold m w) l = existsb (fun m => equal_fold m w) l'.
Proof.
  intros H. revert l' H. induction l as [|s l IH]; intros [|t l'] H; try discriminate; [reflexivity|]. injection H as H1 H2. cbn [existsb].
  unfold equal_fold at 1 3. rewrite (upper_rel s t H1). f_equal. now apply IH.
Qed.

(** ** Values *)

Class Rel (A : Type) := rl : A -> A -> Prop.

(** A keyword token in the spelling that [recase] gives. *)
Definition ntok (t : tok) : tok := mkTok (t_kind t) (if String.eqb (t_kind t) KKeyword && (t_quote t <=? 1) then recase (t_str t) else t_str t) (t_base t) (t_quote t).
Definition nit (i : item) : item := mkItem (it_id i) (option_map ntok (it_tok i)) (it_eof i) (it_err i).
Definition nerr (e : err) : err :=
  match e with ExpKind i k => ExpKind (nit i) k | ExpKw i k => ExpKw (nit i) k | AtMsg i m => AtMsg (nit i) m | Msg m => Msg m end.
Definition ns (s : pstate) : pstate := mkP (nit (here s)) (map nit (rest s)) (memo s).
Definition nnt (n : nt) : nt := match n with NColumnTypeArgs e => NColumnTypeArgs (fold e) | _ => n end.

Global Instance Rel_expr : Rel expr := fun a b => fold a = fold b.
Global Instance Rel_string : Rel string := fun a b => recase a = recase b.
Global Instance Rel_bool : Rel bool := eq.
Global Instance Rel_pos : Rel pos := eq.
Global Instance Rel_nat : Rel nat := eq.
Global Instance Rel_unit : Rel unit := eq.
Global Instance Rel_item : Rel item := fun a b => nit a = nit b.
Global Instance Rel_err : Rel err := fun a b => nerr a = nerr b.
Global Instance Rel_exprs : Rel (list expr) := fun a b => map fold a = map fold b.
Global Instance Rel_strings : Rel (list string) := fun a b => map recase a = map recase b.
Global Instance Rel_option A {F : Rel A} : Rel (option A) := fun a b => match a, b with Some x, Some y => rl x y | None, None => True | _, _ => False end.
Global Instance Rel_prod A B {F : Rel A} {G : Rel B} : Rel (A * B) := fun x y => rl (fst x) (fst y) /\ rl (snd x) (snd y).
Global Instance Rel_sum A B {F : Rel A} {G : Rel B} : Rel (A + B) :=
  fun x y => match x, y with inl a, inl b => rl a b | inr a, inr b => rl a b | _, _ => False end.
Global Instance Rel_fun A B {F : Rel A} {G : Rel B} : Rel (A -> B) := fun f g => forall a b, rl a b -> rl (f a) (g b).

Definition orel {A} {F : Rel A} (r r' : outcome A) : Prop :=
  match r, r' with
  | ROk a s, ROk b t => rl a b /\ ns s = ns t
  | RErr e s, RErr e' t => nerr e = nerr e' /\ ns s = ns t
  | RPanic z, RPanic z' => z = z'
  | ROOF, ROOF => True
  | _, _ => False
  end.

(** ** Simulation *)

Definition calls (f : nat) : Prop := forall n n' s t, nnt n = nnt n' -> ns s = ns t -> orel (run body f (body n) s) (run body f (body n') t).

Section Sim.
  Context {f : nat} (Hc : calls f).

  Definition sim {A} {F : Rel A} (p q : prog A) : Prop := forall s t, ns s = ns t -> orel (run body (S f) p s) (run body (S f) q t).

  Lemma ns_advance s : advance (ns s) = ns (advance s).
  Proof. unfold advance, ns. cbn [rest]. destruct (rest s) as [|i r] eqn:E; cbn [map]; [now rewrite E|reflexivity]. Qed.
  Lemma advance_rel s t : ns s = ns t -> ns (advance s) = ns (advance t).
  Proof. intros H. now rewrite <- !ns_advance, H. Qed.
  Lemma here_rel s t : ns s = ns t -> nit (here s) = nit (here t). Proof. intros H. exact (f_equal here H). Qed.
  Lemma err_rel i j : nit i = nit j -> it_err i = it_err j. Proof. intros H. exact (f_equal it_err H). Qed.

  Lemma sim_bind {A B} {F : Rel A} {G : Rel B} (p p' : prog A) (k k' : A -> prog B) :
    sim p p' -> (forall a b, rl a b -> sim (k a) (k' b)) -> sim (bind p k) (bind p' k').
  Proof.
    intros H1 H2 s t Hs. rewrite !run_bind. pose proof (H1 s t Hs) as H.
    destruct (run body (S f) p s) as [a s'|e s'|z|], (run body (S f) p' t) as [b t'|e' t'|z'|]; cbn [orel andThen] in *; try contradiction; try exact H. now apply H2.
  Qed.
  Lemma sim_ret {A} {F : Rel A} (a b : A) : rl a b -> sim (Ret a) (Ret b).
  Proof. intros H s t Hs. split; assumption. Qed.
  Lemma sim_fail {A} {F : Rel A} e e' : nerr e = nerr e' -> sim (@Fail A e) (Fail e').
  Proof. intros H s t Hs. split; assumption. Qed.
  Lemma sim_panic {A} {F : Rel A} z : sim (@Panic A z) (Panic z).
  Proof. intros s t _. reflexivity. Qed.
  Lemma sim_cur {A} {F : Rel A} (k k' : item -> prog A) : (forall i j, nit i = nit j -> sim (k i) (k' j)) -> sim (Cur k) (Cur k').
  Proof. intros H s t Hs. apply (H (here s) (here t)); [now apply here_rel|exact Hs]. Qed.
  Lemma sim_consume {A} {F : Rel A} (k k' : option string -> prog A) : (forall o, sim (k o) (k' o)) -> sim (Consume k) (Consume k').
  Proof. intros H s t Hs. rewrite !run_Consume. pose proof (advance_rel s t Hs) as Ha. rewrite (err_rel _ _ (here_rel _ _ Ha)). now apply H. Qed.
  Definition npeek (r : option tok + string) : option tok + string := match r with inl o => inl (option_map ntok o) | inr m => inr m end.
  Lemma ns_peek s : do_peek (ns s) = (npeek (fst (do_peek s)), ns (snd (do_peek s))).
  Proof. unfold do_peek. rewrite ns_advance. cbn [here ns nit it_err]. now destruct (it_err (here (advance s))). Qed.
  Lemma sim_peek {A} {F : Rel A} (k k' : option tok + string -> prog A) : (forall r r', npeek r = npeek r' -> sim (k r) (k' r')) -> sim (Peek k) (Peek k').
  Proof.
    intros H s t Hs. rewrite !run_Peek. assert (E : do_peek (ns s) = do_peek (ns t)) by now rewrite Hs. rewrite !ns_peek in E. apply H; [exact (f_equal fst E)|exact (f_equal snd E)].
  Qed.
  Lemma sim_call {A} {F : Rel A} n n' (k k' : expr -> prog A) : nnt n = nnt n' -> (forall a b, fold a = fold b -> sim (k a) (k' b)) -> sim (Call n k) (Call n' k').
  Proof.
    intros Hn H s t Hs. rewrite !run_Call. pose proof (Hc n n' s t Hn Hs) as Hr.
    destruct (run body f (body n) s) as [a s'|e s'|z|], (run body f (body n') t) as [b t'|e' t'|z'|]; cbn [orel andThen] in *; try contradiction; try exact Hr. now apply H.
  Qed.
  Lemma restore_rel s t s' t' : ns s = ns t -> ns s' = ns t' -> ns (restore s s') = ns (restore t t').
  Proof. intros H H'. unfold ns. f_equal; [exact (f_equal here H)|exact (f_equal rest H)|exact (f_equal memo H')]. Qed.
  Lemma failed_rel s t : ns s = ns t -> failed_before s = failed_before t.
  Proof. intros H. unfold failed_before. pose proof (f_equal memo H) as H1. pose proof (f_equal (fun x => it_id (here x)) H) as H2. cbn in H1, H2. now rewrite H1, H2. Qed.
  Lemma note_rel s t s' t' : ns s = ns t -> ns s' = ns t' -> ns (note_failure s s') = ns (note_failure t t').
  Proof.
    intros H H'. unfold ns. f_equal; [exact (f_equal here H)|exact (f_equal rest H)|]. cbn [memo note_failure]. pose proof (f_equal memo H') as H1. cbn in H1. rewrite H1.
    pose proof (f_equal (fun x => it_id (here x)) H) as H2. pose proof (f_equal (fun x => it_tok (here x)) H) as H3. cbn in H2, H3. rewrite H2.
    destruct (it_tok (here s)), (it_tok (here t)); try discriminate; reflexivity.
  Qed.
  Lemma sim_try {A} {F : Rel A} (yes yes' : expr -> prog A) no no' :
    (forall a b, fold a = fold b -> sim (yes a) (yes' b)) -> sim no no' -> sim (TryInterval yes no) (TryInterval yes' no').
  Proof.
    intros H1 H2 s t Hs. rewrite !run_TryInterval, (failed_rel s t Hs). destruct (failed_before t); [now apply H2|].
    pose proof (Hc NInterval NInterval s t eq_refl Hs) as Hr.
    destruct (run body f (body NInterval) s) as [a s'|e s'|z|], (run body f (body NInterval) t) as [b t'|e' t'|z'|]; cbn [orel] in *; try contradiction; try exact Hr; [now apply H1|].
    apply H2. apply note_rel; [exact Hs|apply Hr].
  Qed.
  Lemma sim_attempt {A B} {F : Rel A} {G : Rel B} (p p' : prog B) (keep keep' : err + B -> bool) (k k' : err + B -> prog A) :
    sim p p' -> (forall x y, rl x y -> keep x = keep' y) -> (forall x y, rl x y -> sim (k x) (k' y)) -> sim (Attempt p keep k) (Attempt p' keep' k').
  Proof.
    intros H1 H2 H3 s t Hs. rewrite !run_Attempt. pose proof (H1 s t Hs) as Hr.
    destruct (run body (S f) p s) as [a s'|e s'|z|], (run body (S f) p' t) as [b t'|e' t'|z'|]; cbn [orel] in *; try contradiction; try exact Hr; destruct Hr as [Ha Ht].
    - rewrite (H2 (inr a) (inr b) Ha). apply H3; [exact Ha|]. destruct (keep' (inr b)); [exact Ht|now apply restore_rel].
    - rewrite (H2 (inl e) (inl e') Ha). apply H3; [exact Ha|]. destruct (keep' (inl e')); [exact Ht|now apply restore_rel].
  Qed.
  Lemma sim_loop {A X Y} {F : Rel A} {G : Rel X} {H : Rel Y} (x x' : X) (bd bd' : X -> prog (X + Y)) (k k' : Y -> prog A) :
    rl x x' -> (forall x x', rl x x' -> sim (bd x) (bd' x')) -> (forall y y', rl y y' -> sim (k y) (k' y')) -> sim (Loop x bd k) (Loop x' bd' k').
  Proof.
    intros Hx H1 H2 s t Hs. rewrite !run_Loop.
    assert (Hi : forall n x x' s t, rl x x' -> ns s = ns t -> orel (iter body (S f) bd n x s) (iter body (S f) bd' n x' t)).
    { induction n as [|n IH]; intros y y' u v Hy Hu; [exact I|]. rewrite !iter_S. pose proof (H1 y y' Hy u v Hu) as Hr.
      destruct (run body (S f) (bd y) u) as [[z|z] s'|e s'|z|], (run body (S f) (bd' y') v) as [[z'|z'] t'|e' t'|z'|]; cbn [orel] in *; try contradiction; try exact Hr.
      all: destruct Hr as [Ha Hb]; cbn in Ha; try contradiction. now apply IH. }
    pose proof (Hi (S f) x x' s t Hx Hs) as Hr.
    destruct (iter body (S f) bd (S f) x s) as [y s'|e s'|z|], (iter body (S f) bd' (S f) x' t) as [b t'|e' t'|z'|]; cbn [orel andThen] in *; try contradiction; try exact Hr. now apply H2.
  Qed.
End Sim.
