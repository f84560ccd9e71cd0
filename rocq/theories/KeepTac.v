(** Proofs for C41: what the parser reads, weighed, and the tactics that follow a parser program. *)
From Coq Require Import String Ascii List Arith Bool Lia ZArith.
From Verif Require Import Str Keyword Lexer LexSpec LexGrammar LexTokens LayoutSpec Ast AstPos AstSubs Prog RunFacts ParserCommon ParserExpr ParserTable ParserView ParserSystem Parser Words KeepSpec KeepLogic.
Import ListNotations.
Local Open Scope string_scope.
Local Open Scope Z_scope.

(** ** Constant strings *)

Definition never (s : string) : bool :=
  let u := undot s in
  String.eqb u "" || is_keyword (upper u) || str_in u two_char || str_in u special ||
  match u with String c "" => (byte_of c <? 128)%nat && negb (ws1 c) && negb (is_digit c) && negb (is_ident_start c) && negb (existsb (Ascii.eqb c) ["`"%char; ch 34; "'"%char; "$"%char]) | _ => false end.

Lemma str_in_In s l : str_in s l = true -> In s l.
Proof. unfold str_in. intros H. apply existsb_exists in H as (x & Hx & E). apply String.eqb_eq in E. now subst. Qed.

Lemma ws_const `{Word} s : never s = true -> ws s = 0.
Proof.
  intros Hn. unfold ws. destruct (String.eqb_spec (undot s) word) as [E|]; [|reflexivity]. exfalso. unfold never in Hn. cbv zeta in Hn. rewrite E in Hn.
  destruct word_plain as (P1 & P2 & P3 & P4 & P5). apply orb_prop in Hn as [Hn|Hn].
  - apply orb_prop in Hn as [Hn|Hn]; [|apply P5, str_in_In, Hn]. apply orb_prop in Hn as [Hn|Hn]; [|apply P3, str_in_In, Hn].
    apply orb_prop in Hn as [Hn|Hn]; [apply String.eqb_eq in Hn; contradiction|congruence].
  - destruct word as [|c [|d r]]; try discriminate Hn. apply (P4 c eq_refl). repeat (apply andb_prop in Hn as [Hn ?]).
    split; [now apply Nat.ltb_lt|]. repeat split; try (now apply negb_true_iff). intros Hi.
    match goal with Hx : negb (existsb _ _) = true |- _ => apply negb_true_iff in Hx; rewrite <- not_true_iff_false in Hx; apply Hx end.
    apply existsb_exists. exists c. split; [exact Hi|apply Ascii.eqb_refl].
Qed.

(** ** Tokens *)

Section Tokens.
  Context `{Word}.
  Lemma hc_some i t : it_tok i = Some t -> hc i = ws (t_str t). Proof. intros E. unfold hc. now rewrite E. Qed.
  Lemma hc_none i : it_tok i = None -> hc i = 0. Proof. intros E. unfold hc. now rewrite E. Qed.
  Lemma kind_w i t k : okit i -> it_tok i = Some t -> String.eqb (t_kind t) k = true -> leaf k = false -> ws (t_str t) = 0.
  Proof. intros [_ Ho] E Ek Hl. apply (fun h => proj1 (proj1 (proj1 (Ho t E)) h)). apply String.eqb_eq in Ek. now rewrite Ek. Qed.
  Lemma kw_w i k : okit i -> kw i k = true -> hc i = 0.
  Proof.
    intros Ho Hk. unfold kw in Hk. destruct (it_tok i) as [t|] eqn:E; [|discriminate]. apply andb_prop in Hk as [Hk _]. rewrite (hc_some i t E). now apply (kind_w i t KKeyword).
  Qed.
  Lemma kws_w i l : okit i -> kws i l = true -> hc i = 0.
  Proof. intros Ho Hk. unfold kws in Hk. apply existsb_exists in Hk as (k & _ & Hk). now apply (kw_w i k). Qed.
  Lemma kw_str i k : okit i -> kw i k = true -> ws (cur_string i) = 0.
  Proof. intros Ho Hk. rewrite <- (kw_w i k Ho Hk). unfold kw, hc, cur_string in *. destruct (it_tok i); [reflexivity|discriminate]. Qed.
  Lemma kws_str i l : okit i -> kws i l = true -> ws (cur_string i) = 0.
  Proof. intros Ho Hk. unfold kws in Hk. apply existsb_exists in Hk as (k & _ & Hk). now apply (kw_str i k). Qed.
  Lemma tks_w i l : okit i -> tks i l = true -> forallb (fun k => negb (leaf k)) l = true -> hc i = 0.
  Proof.
    intros Ho Hk Hl. unfold tks, cur_kind in Hk. destruct (it_tok i) as [t|] eqn:E; [|now apply hc_none]. rewrite (hc_some i t E).
    destruct (str_in (t_kind t) l) eqn:Ei.
    - apply str_in_In in Ei. rewrite forallb_forall in Hl. apply Hl in Ei. apply negb_true_iff in Ei. apply (proj1 (proj1 (proj1 (proj2 Ho t E)) Ei)).
    - apply andb_prop in Hk as [Hk _]. apply andb_prop in Hk as [Hk _]. now apply (kind_w i t KKeyword).
  Qed.
  Lemma tk_w i k : okit i -> tk i k = true -> leaf k = false -> hc i = 0.
  Proof. intros Ho Hk Hl. apply (tks_w i [k] Ho Hk). cbn [forallb]. now rewrite Hl. Qed.
  Lemma to_string_w i t : okit i -> it_tok i = Some t -> ws (tok_to_string t) = ws (t_str t).
  Proof.
    intros Ho E. unfold tok_to_string. destruct (String.eqb_spec (t_kind t) KKeyword) as [Ek|]; [|reflexivity].
    destruct (proj1 (proj1 (proj2 Ho t E))) as [-> ->]; [now rewrite Ek|reflexivity].
  Qed.
End Tokens.

(** ** More rules *)

Definition rets {A} (P : A -> Prop) (p : prog A) : Prop := forall n s a s', run body (S n) p s = ROk a s' -> P a.
Lemma rets_bind {A B} P (p : prog A) (k : A -> prog B) : (forall a, rets P (k a)) -> rets P (bind p k).
Proof. intros H0 n s a s' E. rewrite run_bind in E. destruct (run body (S n) p s); cbn [andThen] in E; try discriminate E. exact (H0 _ _ _ _ _ E). Qed.
Lemma rets_panic {A} (P : A -> Prop) z : rets P (Panic z). Proof. intros n s b s' E. discriminate E. Qed.
Lemma rets_fail {A} (P : A -> Prop) z : rets P (Fail z). Proof. intros n s b s' E. discriminate E. Qed.
Lemma rets_ret {A} (P : A -> Prop) a : P a -> rets P (Ret a).
Proof. intros H0 n s b s' E. rewrite run_Ret in E. now injection E as <- <-. Qed.


Section Rules.
  Context `{Word} {f : nat} {A : Type} {F : Weigh A}.
  Local Notation bal := (@bal _ f).
  Lemma bal_bind_cur s c (k : item -> prog A) : (okit (here s) -> bal s c (k (here s))) -> bal s c (bind cur_item k).
  Proof. exact (bal_cur s c k). Qed.
  Lemma bal_bind_pos s c (k : pos -> prog A) : bal s c (k (ipos (here s))) -> bal s c (bind pos_ k).
  Proof. intros H0. apply (bal_cur s c (fun it => k (ipos it))). auto. Qed.
  Lemma bal_bind_end s c (k : pos -> prog A) : bal s c (k (iend (here s))) -> bal s c (bind end_ k).
  Proof. intros H0. apply (bal_cur s c (fun it => k (iend it))). auto. Qed.
  Lemma bal_bind_eof s c (k : bool -> prog A) : bal s c (k (it_eof (here s))) -> bal s c (bind eof_ k).
  Proof. intros H0. apply (bal_cur s c (fun it => k (it_eof it))). auto. Qed.
  Lemma bal_bind_skip s c (k : unit -> prog A) : (okit (here s) -> bal (advance s) (c + hc (here s)) (k tt)) -> bal s c (bind skip k).
  Proof. intros H0 Hw. refine (bal_consume s c (fun _ => k tt) _ Hw). intros s' ->. apply H0, wf_here, Hw. Qed.
  Lemma bal_bind_consumeOrFail s c (k : unit -> prog A) : (okit (here s) -> bal (advance s) (c + hc (here s)) (k tt)) -> bal s c (bind consumeOrFail k).
  Proof.
    intros H0 Hw. unfold consumeOrFail. cbn [bind]. refine (bal_consume s c (fun e => bind (match e with Some m => Fail (Msg m) | None => Ret tt end) k) _ Hw).
    intros s' ->. apply H0, wf_here, Hw.
  Qed.
  Lemma bal_bind_expTk s c (k : unit -> prog A) d : (okit (here s) -> tk (here s) d = true -> bal (advance s) (c + hc (here s)) (k tt)) -> bal s c (bind (expTk d) k).
  Proof.
    intros H0. apply (bal_cur s c (fun it => bind (if tk it d then skip else Fail (ExpKind it d)) k)). intros Ho. destruct (tk (here s) d) eqn:E; [|apply bal_fail].
    apply bal_bind_skip. auto.
  Qed.
  Lemma bal_bind_expKw s c (k : unit -> prog A) d : (kw (here s) d = true -> bal (advance s) c (k tt)) -> bal s c (bind (expKw d) k).
  Proof.
    intros H0. apply (bal_cur s c (fun it => bind (if kw it d then skip else Fail (ExpKw it d)) k)). intros Ho. destruct (kw (here s) d) eqn:E; [|apply bal_fail].
    apply bal_bind_skip. intros _. rewrite (kw_w _ _ Ho E), Z.add_0_r. auto.
  Qed.
  Lemma bal_bind_str s c (k : string -> prog A) :
    (forall t, okit (here s) -> it_tok (here s) = Some t -> bal s c (k (t_str t))) -> bal s c (bind cur_str k).
  Proof.
    intros H0. apply (bal_cur s c (fun it => bind (match it_tok it with Some t => Ret (t_str t) | None => Panic "p.current().String" end) k)). intros Ho.
    destruct (it_tok (here s)) as [t|] eqn:E; [now apply H0|apply bal_panic].
  Qed.
  Lemma bal_bind_to_string s c (k : string -> prog A) :
    (forall t, okit (here s) -> it_tok (here s) = Some t -> bal s c (k (tok_to_string t))) -> bal s c (bind cur_to_string k).
  Proof.
    intros H0. apply (bal_cur s c (fun it => bind (match it_tok it with Some t => Ret (tok_to_string t) | None => Panic "p.current().ToString()" end) k)). intros Ho.
    destruct (it_tok (here s)) as [t|] eqn:E; [now apply H0|apply bal_panic].
  Qed.
  Lemma bal_assoc {B C} s c (p : prog B) (q : B -> prog C) (k : C -> prog A) : bal s c (bind p (fun x => bind (q x) k)) -> bal s c (bind (bind p q) k).
  Proof.
    intros H0 Hw a s' E. apply (H0 Hw a s'). rewrite <- E, !run_bind. destruct (run body (S f) p s); cbn [andThen]; try reflexivity. now rewrite run_bind.
  Qed.
  Lemma bal_bind_grab s c (k : string -> prog A) :
    (forall t, okit (here s) -> it_tok (here s) = Some t -> bal (advance s) (c + hc (here s)) (k (t_str t))) -> bal s c (bind grab k).
  Proof. intros H0. unfold grab. apply bal_assoc, bal_bind_str. intros t Ho Et. apply bal_assoc, bal_bind_skip. intros _. apply (H0 t Ho Et). Qed.
  Lemma bal_bind_end_of s c (k : pos -> prog A) e : (forall p, bal s c (k p)) -> bal s c (bind (endOf e) k).
  Proof. intros H0. unfold endOf. destruct (end_of e); [apply H0|apply bal_panic]. Qed.
  Lemma bal_bind_pos_of s c (k : pos -> prog A) e : (forall p, bal s c (k p)) -> bal s c (bind (posOf e) k).
  Proof. intros H0. unfold posOf. destruct (pos_of e); [apply H0|apply bal_panic]. Qed.
  Lemma bal_bind_ret {B} s c (a : B) (k : B -> prog A) : bal s c (k a) -> bal s c (bind (Ret a) k).
  Proof. auto. Qed.
  Lemma bal_bind_fail {B} s c e (k : B -> prog A) : bal s c (bind (Fail e) k).
  Proof. apply bal_fail. Qed.
  Lemma bal_bind_panic {B} s c e (k : B -> prog A) : bal s c (bind (Panic e) k).
  Proof. apply bal_panic. Qed.
  Lemma bal_back {B} s c (p : prog B) (k : err + B -> prog A) : (forall r s', here s' = here s -> rest s' = rest s -> bal s' c (k r)) -> bal s c (Attempt p (fun _ => false) k).
  Proof.
    intros H0 Hw b s' E. rewrite run_Attempt in E. destruct (run body (S f) p s) as [a s1|e s1|z|]; try discriminate E.
    - exact (H0 (inr a) (restore s s1) eq_refl eq_refl Hw b s' E).
    - exact (H0 (inl e) (restore s s1) eq_refl eq_refl Hw b s' E).
  Qed.
  Lemma bal_bind_tryKw s c k (m : bool -> prog A) :
    (kw (here s) k = true -> bal (advance s) c (m true)) -> (kw (here s) k = false -> bal s c (m false)) -> bal s c (bind (tryKw k) m).
  Proof.
    intros H1 H2 Hw b s' E. rewrite run_bind in E. unfold tryKw, tryKws, cur_item in E. rewrite run_Attempt in E. cbn [try_keywords] in E. unfold cur_item in E. rewrite run_bind, run_Cur, run_Ret in E. cbn [andThen] in E.
    destruct (kw (here s) k) eqn:Ek.
    - unfold skip in E. rewrite run_bind, run_Consume, !run_Ret in E. cbn [andThen] in E. rewrite !run_Ret in E. cbn [andThen] in E.
      destruct (H1 eq_refl (wf_advance s Hw) b s' E) as [Hw1 E1]. split; [exact Hw1|]. rewrite (left_advance s Hw), (kw_w _ _ (wf_here s Hw) Ek). near.
    - rewrite !run_Ret in E. cbn [andThen] in E. replace (restore s s) with s in E by (now destruct s). exact (H2 eq_refl Hw b s' E).
  Qed.
  (** The values a program can return. *)
  Lemma bal_bind_rets {B} {G : Weigh B} s c c' (P : B -> Prop) (p : prog B) (k : B -> prog A) :
    bal s c' p -> rets P p -> (forall a s', P a -> bal s' (c - c' + size a) (k a)) -> bal s c (bind p k).
  Proof.
    intros H0 Hr H1 Hw b s' E. rewrite run_bind in E. destruct (run body (S f) p s) as [a s1|e s1|z|] eqn:Ep; cbn [andThen] in E; try discriminate E.
    destruct (H0 Hw a s1 Ep) as [Hw1 E1]. destruct (H1 a s1 (Hr _ _ _ _ Ep) Hw1 b s' E) as [Hw2 E2]. split; [exact Hw2|near].
  Qed.
End Rules.

(** The clause TO of a materialized view has no columns at first. *)
Definition dest_ok `{Word} (d : expr) : Prop := forall x, cnt (set_dest_schema d x) = cnt d + cnt x.
Lemma rets_dest `{Word} : rets dest_ok parseDestinationClause.
Proof. unfold parseDestinationClause. repeat (apply rets_bind; intros ?). apply rets_ret. intros x. cbn [set_dest_schema cnt]. lia. Qed.

(** ** Tactics *)

Global Instance W_engine `{Word} : Weigh engine_acc := fun g => cnt (g_primary g) + cnt (g_partition g) + cnt (g_sample g) + cnt (g_ttl g) + cnt (g_settings g) + cnt (g_order g).
Global Instance W_attr `{Word} : Weigh attr_acc := fun a => cnt (d_default a) + cnt (d_expression a).
Global Instance W_dict `{Word} : Weigh dict_acc := fun k => cnt (k_source k) + cnt (k_lifetime k) + cnt (k_layout k) + cnt (k_range k) + cnt (k_settings k).
Global Instance W_user `{Word} : Weigh user_acc :=
  fun u => cnt (u_auth u) + zsum (map cnt (u_hosts u)) + cnt (u_defaultRole u) + cnt (u_defaultDb u) + cnt (u_grantees u) + cnt (u_valid u) + zsum (map cnt (u_settings u)).

Lemma map_nil_w {A B} (g : A -> B) : map g [] = []. Proof. reflexivity. Qed.
Lemma zsum_nil : zsum [] = 0. Proof. reflexivity. Qed.
Lemma zsum_cons x l : zsum (x :: l) = x + zsum l. Proof. reflexivity. Qed.
Lemma cnt_ident `{Word} i t : cnt (ident_of i t) = ws (t_str t). Proof. reflexivity. Qed.
Lemma nil_w `{Word} e : is_nil e = true -> cnt e = 0. Proof. intros E. destruct e; try discriminate E. reflexivity. Qed.
Lemma nnil_w `{Word} e : negb (is_nil e) = false -> cnt e = 0. Proof. intros E. apply nil_w. now apply negb_false_iff. Qed.
Lemma empty_w `{Word} A (g : A -> Z) (l : list A) : is_empty l = true -> zsum (map g l) = 0. Proof. intros E. destruct l; [reflexivity|discriminate E]. Qed.
Lemma dot_w `{Word} i t : okit i -> it_tok i = Some t -> tk i KInt = true -> ws ("." ++ t_str t) = ws (t_str t).
Proof.
  intros Ho E Hk. unfold ws. cbn [undot String.append]. rewrite (proj2 (proj1 (proj2 Ho t E))); [reflexivity|].
  unfold tk, tks, cur_kind in Hk. rewrite E in Hk. unfold str_in in Hk. cbn [existsb] in Hk. destruct (String.eqb_spec (t_kind t) KInt) as [Ek|]; [exact Ek|].
  cbn in Hk. rewrite andb_false_r in Hk. discriminate.
Qed.
Lemma ws_nonneg `{Word} x : 0 <= ws x. Proof. unfold ws. destruct (_ =? _)%string; lia. Qed.
Lemma zsum_nonneg {A} (g : A -> Z) l : (forall x, In x l -> 0 <= g x) -> 0 <= zsum (map g l).
Proof. induction l as [|x l IH]; intros H0; cbn [map zsum fold_right]; [lia|]. pose proof (H0 x (or_introl eq_refl)). specialize (IH (fun y Hy => H0 y (or_intror Hy))). unfold zsum in IH. lia. Qed.
Lemma cnt_nonneg `{Word} e : 0 <= cnt e.
Proof.
  induction e as [e IH] using expr_rect_subs. destruct e; cbn [cnt]; try lia; cbn [subs] in IH;
  repeat match goal with
  | |- context [ws ?x] => pose proof (ws_nonneg x); generalize dependent (ws x); intros
  | |- context [zsum (map ws ?l)] => pose proof (zsum_nonneg ws l (fun x _ => ws_nonneg x)); generalize dependent (zsum (map ws l)); intros
  | |- context [zsum (map cnt ?l)] => assert (0 <= zsum (map cnt l)) by (apply zsum_nonneg; intros; apply IH; rewrite ?in_app_iff; auto 30); generalize dependent (zsum (map cnt l)); intros
  | |- context [cnt ?x] => assert (0 <= cnt x) by (apply IH; rewrite ?in_app_iff; cbn [In]; auto 30); generalize dependent (cnt x); intros
  end; lia.
Qed.
Lemma hc_nonneg `{Word} i : 0 <= hc i. Proof. unfold hc, tw. destruct (it_tok i); [apply ws_nonneg|lia]. Qed.
Lemma lossy_kw `{Word} i k : okit i -> kw i k = true -> str_in (upper k) ["ENGINE"; "USER"; "ROLE"; "FORMAT"] = true -> tight = false.
Proof.
  intros [_ Ho] Hk Hi. unfold kw in Hk. destruct (it_tok i) as [t|] eqn:E; [|discriminate]. apply andb_prop in Hk as [H1 H2]. unfold equal_fold in H2. apply String.eqb_eq in H2.
  destruct tight eqn:Et; [|reflexivity]. pose proof (proj2 (Ho t eq_refl) eq_refl) as Hl. unfold lossy in Hl. rewrite H1, H2, Hi in Hl. discriminate Hl.
Qed.
Lemma lossy_kws `{Word} i l : okit i -> kws i l = true -> forallb (fun k => str_in (upper k) ["ENGINE"; "USER"; "ROLE"; "FORMAT"]) l = true -> tight = false.
Proof.
  intros Ho Hk Hl. unfold kws in Hk. apply existsb_exists in Hk as (k & Hi & Hk). exact (lossy_kw _ _ Ho Hk (proj1 (forallb_forall _ _) Hl k Hi)).
Qed.
Lemma named_w `{Word} i w : String.eqb (cur_string i) w = true -> String.eqb w "<EOF>" = false -> hc i = ws w.
Proof.
  intros E Hn. apply String.eqb_eq in E. unfold cur_string in E. unfold hc. destruct (it_tok i); cbn [tw]; [now rewrite E|]. rewrite <- E in Hn. discriminate Hn.
Qed.
Lemma upper_w `{Word} i t k : okit i -> it_tok i = Some t -> kw i k = true -> ws (upper (t_str t)) = 0.
Proof.
  intros [_ Ho] E Hk. unfold kw in Hk. rewrite E in Hk. apply andb_prop in Hk as [Hk _]. apply String.eqb_eq in Hk. apply (proj1 (proj1 (Ho t E))). now rewrite Hk.
Qed.
Lemma rets_ident `{Word} : rets (fun e => ws (ident_name e) = cnt e) parseIdent.
Proof. unfold parseIdent. do 2 (apply rets_bind; intros ?). destruct (it_tok a); [now apply rets_ret|apply rets_panic]. Qed.
Lemma rets_any `{Word} : rets (fun e => ws (ident_name e) = cnt e) parseAnyKeyword.
Proof. unfold parseAnyKeyword. apply rets_bind; intros ?. destruct (tks _ _); [|apply rets_fail]. apply rets_bind; intros ?. destruct (it_tok a); [now apply rets_ret|apply rets_panic]. Qed.
Global Opaque zsum ws hc.
#[export] Hint Rewrite @map_app @map_cons @map_nil_w zsum_app zsum_nil zsum_cons @cnt_ident : keepw.

Ltac sizes := cbv [size W_expr W_string W_bool W_pos W_nat W_unit W_item W_list W_option W_prod W_sum W_engine W_attr W_dict W_user]; cbn [cnt fst snd map nsize g_primary g_partition g_sample g_ttl g_settings g_order d_default d_expression k_source k_lifetime k_layout k_range k_settings u_auth u_hosts u_defaultRole u_defaultDb u_grantees u_valid u_settings]; autorewrite with keepw; cbn [cnt map]; autorewrite with keepw.

Ltac nonleaf := vm_compute; reflexivity.
Ltac split_bools :=
  repeat match goal with
  | H : (_ || _)%bool = true |- _ => apply orb_prop in H as [H|H]
  | H : (_ && _)%bool = true |- _ => apply andb_prop in H as [? ?]
  | H : (negb _ && negb _)%bool = false |- _ => apply andb_false_elim in H as [H|H]; apply negb_false_iff in H
  | H : (_ || _)%bool = false |- _ => apply orb_false_elim in H as [? ?]
  end.
Ltac facts :=
  repeat match goal with
  | Ho : okit ?i, H : kw ?i ?k = true |- context [ws (cur_string ?i)] => rewrite (kw_str i k Ho H)
  | Ho : okit ?i, H : kws ?i ?k = true |- context [ws (cur_string ?i)] => rewrite (kws_str i k Ho H)
  | Ho : okit ?i, H : kw ?i ?k = true, Et : it_tok ?i = Some ?t |- context [ws (upper (t_str ?t))] => rewrite (upper_w i t k Ho Et H)
  | Ho : okit ?i, H : kw ?i ?k = true |- _ => pose proof (kw_w i k Ho H); clear H
  | Ho : okit ?i, H : kws ?i ?k = true |- _ => pose proof (kws_w i k Ho H); clear H
  | Ho : okit ?i, H : it_tok ?i = Some ?t, K : tk ?i KInt = true |- context [ws ("." ++ t_str ?t)%string] => rewrite (dot_w i t Ho H K)
  | Ho : okit ?i, H : tk ?i ?k = true |- _ => pose proof (tk_w i k Ho H ltac:(nonleaf)); clear H
  | Ho : okit ?i, H : tks ?i ?k = true |- _ => pose proof (tks_w i k Ho H ltac:(nonleaf)); clear H
  | Ho : okit ?i, H : it_tok ?i = Some ?t |- context [ws (tok_to_string ?t)] => rewrite (to_string_w i t Ho H)
  | Ho : okit ?i, H : it_tok ?i = Some ?t, K : String.eqb (t_kind ?t) ?k = true |- _ => pose proof (kind_w i t k Ho H K ltac:(nonleaf)); clear K
  | H : dest_ok ?d |- context [cnt (set_dest_schema ?d ?x)] => rewrite (H x)
  | H : is_nil ?e = true |- _ => pose proof (nil_w e H); clear H
  | H : negb (is_nil ?e) = false |- _ => pose proof (nnil_w e H); clear H
  | H : is_empty ?l = true |- context [zsum (map ?g ?l)] => rewrite (empty_w _ g l H)
  | |- context [ws (String ?c ?k)] => rewrite (ws_const (String c k) ltac:(nonleaf))
  | |- context [ws ""] => rewrite (ws_const "" ltac:(nonleaf))
  end;
  repeat match goal with
  | H : it_tok ?i = Some ?t |- _ => pose proof (hc_some i t H); clear H
  | H : it_tok ?i = None |- _ => pose proof (hc_none i H); clear H
  end.
Ltac ifs := repeat match goal with |- context [if ?b then _ else _] => destruct b eqn:? end.
Ltac wsolve := sizes; ifs; sizes; split_bools; facts; try lia.

Ltac wloose :=
  sizes; ifs; sizes; split_bools; facts;
  repeat match goal with
  | |- context [cnt ?e] => lazymatch goal with H : 0 <= cnt e |- _ => fail | _ => pose proof (cnt_nonneg e) end
  | |- context [hc ?e] => lazymatch goal with H : 0 <= hc e |- _ => fail | _ => pose proof (hc_nonneg e) end
  | |- context [zsum (map cnt ?l)] => lazymatch goal with H : 0 <= zsum (map cnt l) |- _ => fail | _ => pose proof (zsum_nonneg cnt l (fun x _ => cnt_nonneg x)) end
  end; try lia.

Create HintDb keep discriminated.

Ltac kstep :=
  lazymatch goal with
  | |- bal _ _ (Ret (if ?b then _ else _)) => destruct b eqn:?; kstep
  | Ht : tight = false |- bal _ _ (Ret _) => first [apply bal_ret; solve [wsolve] | apply (bal_loose _ _ _ Ht); wloose]
  | |- bal _ _ (Ret _) => apply bal_ret; wsolve
  | |- bal _ _ (Fail _) => apply bal_fail
  | |- bal _ _ (Panic _) => apply bal_panic
  | |- bal _ _ (bind ?p _) => kbind p
  | |- bal _ _ (TryInterval _ _) => apply bal_try; [assumption|intros ? ?; kstep|intros ?; kstep]
  | |- bal _ _ (Cur _) => apply bal_cur; intros ?; cbv beta; kstep
  | |- bal _ _ (Consume _) => apply bal_consume; intros ? ->; cbv beta; kstep
  | |- bal _ _ (Peek _) => apply bal_peek; intros ?; unfold next; cbv beta iota; kstep
  | |- bal _ _ (Call _ _) => apply bal_call; [assumption|intros ? ?; kstep]
  | |- bal _ _ (match it_tok ?i with _ => _ end) => destruct (it_tok i) eqn:?; kstep
  | |- bal _ _ (match ?l with [] => _ | _ :: _ => _ end) => destruct l; kstep
  | |- bal _ _ (if ?b then _ else _) => destruct b eqn:?; kstep
  | |- bal _ _ (match ?o with Some _ => _ | None => _ end) => destruct o eqn:?; kstep
  | |- bal _ _ (match ?o with inl _ => _ | inr _ => _ end) => destruct o eqn:?; kstep
  | |- bal _ _ (match ?o with (_, _) => _ end) => destruct o eqn:?; kstep
  | |- bal _ _ (Loop _ _ _) => apply bal_loop; [intros ? ?; kstep|intros ? ?; kstep]
  | |- bal _ _ (loop _ _) => unfold loop; kstep
  | |- bal _ _ (ifKw _ _ _) => unfold ifKw; kstep
  | |- bal _ _ (Attempt _ (fun _ => false) _) => apply bal_back; intros ? ? ? ?; cbv beta; kstep
  | |- bal _ _ (Attempt ?p _ _) =>
      refine (bal_attempt _ _ 0 p _ _ _ _ _ _ _);
      [kstep|intros ? ? ?; cbv beta iota; kstep|intros ? ? ? ? ?; cbv beta iota; kstep|intros ? ? ? ?; cbv beta iota; first [apply bal_fail | discriminate]|intros ? ? ? ? ?; cbv beta iota; kstep]
  | |- bal _ _ (let x := _ in _) => cbv zeta; kstep
  | |- _ => first [solve [eauto with keep] | eapply bal_eq; [solve [eauto with keep]|wsolve] | idtac]
  end
with kbind p :=
  lazymatch p with
  | cur_item => apply bal_bind_cur; intros ?; cbv beta; kstep
  | pos_ => apply bal_bind_pos; kstep
  | end_ => apply bal_bind_end; kstep
  | eof_ => apply bal_bind_eof; kstep
  | skip => apply bal_bind_skip; intros ?; cbv beta; kstep
  | consumeOrFail => apply bal_bind_consumeOrFail; intros ?; cbv beta; kstep
  | expTk _ => apply bal_bind_expTk; intros ? ?; cbv beta; kstep
  | expKw _ => apply bal_bind_expKw; intros ?; cbv beta; kstep
  | grab => apply bal_bind_grab; intros ? ? ?; cbv beta; kstep
  | cur_str => apply bal_bind_str; intros ? ? ?; cbv beta; kstep
  | cur_to_string => apply bal_bind_to_string; intros ? ? ?; cbv beta; kstep
  | endOf _ => apply bal_bind_end_of; intros ?; cbv beta; kstep
  | parseDestinationClause => eapply bal_bind_rets; [solve [eauto with keep]|exact rets_dest|intros ? ? ?; cbv beta; kstep]
  | posOf _ => apply bal_bind_pos_of; intros ?; cbv beta; kstep
  | loop ?x _ => refine (bal_bind _ _ (size x) _ _ _ _); [kstep|intros ? ?; cbv beta iota; kstep]
  | Ret _ => apply bal_bind_ret; cbv beta; kstep
  | Fail _ => apply bal_bind_fail
  | Panic _ => apply bal_bind_panic
  | _ =>
      first
      [ eapply bal_bind; [solve [eauto with keep]|intros ? ?; cbv beta iota; kstep]
      | refine (bal_bind _ _ 0 _ _ _ _); [solve [kstep]|intros ? ?; cbv beta iota; kstep]
      | lazymatch p with
        | bind _ _ => apply bal_assoc; cbv beta; kstep
        | ifKw _ _ _ => unfold ifKw at 1; apply bal_assoc; cbv beta; kstep
        | (if ?b then _ else _) => destruct b eqn:?; kstep
        | match it_tok ?i with _ => _ end => destruct (it_tok i) eqn:?; kstep
        | match ?o with Some _ => _ | None => _ end => destruct o eqn:?; kstep
        | match ?o with (_, _) => _ end => destruct o eqn:?; kstep
        | match ?o with [] => _ | _ :: _ => _ end => destruct o eqn:?; kstep
        end
      | idtac ]
  end.
