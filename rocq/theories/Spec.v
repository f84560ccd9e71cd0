(** Specifications of parser programs (over the logic of Hoare.v), the facts about syntax
    trees they use, and the tactics that prove them. *)
From Coq Require Import String List Arith Bool Lia ZArith.
From Verif Require Import Str Keyword Lexer Ast AstPos AstSubs PrecSpec SpanSpec Walk Visitor WalkSpec Prog Items ItemsFacts RunFacts
  ParserCommon ParserExpr ParserQuery Parser Hoare.
Import ListNotations.
Local Open Scope string_scope.
Local Open Scope nat_scope.

Section Preds.
  Context `{Env}.

  (** Item [i] is a token whose text is [z] bytes long. *)
  Definition wide (i : nat) (z : Z) : Prop :=
    exists it t, nth_error its i = Some it /\ it_tok it = Some t /\ Z.of_nat (String.length (t_str t)) = z.

  (** Positions are positions of items of the input. A position is moved only over the text
      of the token there, or, for a [WITH FILL] with nothing after it, by four. *)
  Fixpoint pok (p : pos) : Prop :=
    match p with
    | PZero => True
    | PStart i | PEnd i => i < List.length its
    | PPlus (PStart i) z => i < List.length its /\ (wide i z \/ z = 4%Z)
    | PPlus (PPlus q y) z => y = (-1)%Z /\ z = 1%Z /\ pok q
    | PPlus _ _ => False
    end.

  (** The positions in the fields of a node (the last one of a dictionary's primary key is
      an end minus one), and those that [End] computes by adding the length of a token. *)
  Definition spots (e : expr) : list pos :=
    match e with
    | EDictionaryPrimaryKeyClause p _ r => [p; PPlus r 1]
    | ENullLiteral p => [p; PPlus p 4]
    | EFill p _ _ _ _ => [p; PPlus p 4]
    | EDeduplicateClause p _ _ => [p; PPlus p 11]
    | EDictionarySchemaClause p _ r => [p; r; PPlus r 1]
    | EDictionarySourceClause p _ _ r => [p; r; PPlus r 1]
    | EDictionaryArgExpr p _ v _ l r => if is_nil v then [p; l; r; PPlus r 1] else [p; l; r]
    | EDictionaryLifetimeClause p _ _ _ r => [p; r; PPlus r 1]
    | EDictionaryLayoutClause p _ _ r => [p; r; PPlus r 1]
    | EDictionaryRangeClause p _ _ r => [p; r; PPlus r 1]
    | _ => poss e
    end.

  (** The parser never builds an [OperationExpr]. *)
  Definition placed (e : expr) : Prop := match e with EOperationExpr _ _ => False | _ => Forall pok (spots e) end.

  (** What is claimed of each node. *)
  Definition local (e : expr) : Prop :=
    placed e /\ respects e /\ (wants e = true -> pos_of e <> None /\ end_of e <> None) /\ kinds e /\ gapless e /\ filled e.

  Definition good (e : expr) : Prop := All local e.
  (** A syntax node. *)
  Definition gd (e : expr) : Prop := good e /\ is_node e = true.
  (** One with positions. *)
  Definition nn (e : expr) : Prop := good e /\ (wants e && is_node e)%bool = true.
  Definition mb (e : expr) : Prop := e = ENil \/ nn e.
  Definition mg (e : expr) : Prop := e = ENil \/ gd e.
  (** An operand. *)
  Definition na (e : expr) : Prop := nn e /\ as_left e = closed /\ as_right e = closed.
  Definition isid (e : expr) : Prop := exists n q p1 p2, e = EIdent n q p1 p2 /\ pok p1 /\ pok p2.
  Definition isstr (e : expr) : Prop := exists p1 p2 s, e = EStringLiteral p1 p2 s /\ pok p1 /\ pok p2.
  Definition isnum (e : expr) : Prop := exists p1 p2 s b, e = ENumberLiteral p1 p2 s b /\ pok p1 /\ pok p2.
  Definition isparams (e : expr) : Prop :=
    exists p1 p2 a b, e = EParamExprList p1 p2 a b /\ pok p1 /\ pok p2 /\ nn a /\ mb b.
  Definition isenum (e : expr) : Prop := exists a b, e = EEnumValue a b /\ isstr a /\ isnum b.
  Definition isjpath (e : expr) : Prop := exists l, e = EJSONPath l /\ Forall isid l.
  Definition istbl (e : expr) : Prop := exists a b, e = ETableIdentifier a b /\ (a = ENil \/ isid a) /\ isid b.
  Definition isjopt (e : expr) : Prop := good e /\ sort_of e = SOption.
  Definition iskv (e : expr) : Prop := exists a b, e = EKeyValue a b /\ nn a /\ nn b.
  Definition iswin (e : expr) : Prop := exists a p b, e = EWindowDefinition a p b /\ nn a /\ pok p /\ nn b.
  Definition istarget (e : expr) : Prop := exists a b, e = ETargetPair a b /\ nn a /\ nn b.
  Definition okform (f : keywordArgForm) : Prop :=
    (forall m, In m (Modifiers f) -> In m ["BOTH"; "LEADING"; "TRAILING"]) /\
    (forall m, In m (Separators f) -> In m ["FROM"; "FOR"; "PLACING"]) /\
    RequiredSeparators f <= List.length (Separators f).
  Definition oitem (o : option item) : Prop := match o with Some it => In it its | None => True end.
  Definition isSome {A} (o : option A) : bool := match o with Some _ => true | None => false end.

  Lemma good_nil : good ENil.
  Proof. constructor; [|constructor]. repeat split; cbn; try constructor; discriminate. Qed.
  Lemma nn_gd e : nn e -> gd e.
  Proof. intros [H0 H1]. apply andb_prop in H1. now split. Qed.
  Lemma gd_good e : gd e -> good e. Proof. now intros []. Qed.
  Lemma gd_nil e : gd e -> is_nil e = false.
  Proof. intros [_ H0]. now destruct e. Qed.
  Lemma nn_good e : nn e -> good e. Proof. now intros []. Qed.
  Lemma mb_good e : mb e -> good e. Proof. intros [->|[]]; [apply good_nil | assumption]. Qed.
  Lemma na_nn e : na e -> nn e. Proof. now intros []. Qed.

  Lemma mk_good e : placed e -> respects e -> (wants e = true -> pos_of e <> None /\ end_of e <> None) ->
    kinds e -> gapless e -> filled e -> Forall good (subs e) -> good e.
  Proof. intros H1 H2 H3 H4 H5 H6 H7. constructor; [repeat (split; [assumption|]); assumption | exact H7]. Qed.

  Lemma mk_nn e : placed e -> respects e -> (wants e && is_node e)%bool = true -> pos_of e <> None -> end_of e <> None ->
    kinds e -> gapless e -> filled e -> Forall good (subs e) -> nn e.
  Proof. intros. split; [apply mk_good; auto | assumption]. Qed.

  Lemma nn_local e : nn e -> local e.
  Proof. intros [H0 _]. now inversion H0. Qed.
  Lemma nn_end e : nn e -> end_of e <> None.
  Proof. intros H0. destruct (nn_local e H0) as (_ & _ & H1 & _). destruct H0 as [_ H0]. apply andb_prop in H0. now apply H1. Qed.
  Lemma nn_pos e : nn e -> pos_of e <> None.
  Proof. intros H0. destruct (nn_local e H0) as (_ & _ & H1 & _). destruct H0 as [_ H0]. apply andb_prop in H0. now apply H1. Qed.
  Lemma nn_nil e : nn e -> is_nil e = false.
  Proof. intros H0. apply gd_nil, nn_gd, H0. Qed.
  Lemma nn_wants e : nn e -> wants e = true.
  Proof. intros [_ H0]. now apply andb_prop in H0. Qed.

  Lemma fits_gd e : gd e -> fits SExpr e.
  Proof. intros [_ H0]. right. unfold is_node in H0. destruct (sort_of e); try discriminate H0. reflexivity. Qed.
  Lemma fits_nn e : nn e -> fits SExpr e.
  Proof. intros H0. apply fits_gd, nn_gd, H0. Qed.
  Lemma fits_mb e : mb e -> fits SExpr e.
  Proof. intros [->|H0]; [now left | now apply fits_nn]. Qed.
  Lemma mg_good e : mg e -> good e.
  Proof. intros [->|H0]; [apply good_nil | now apply gd_good]. Qed.
  Lemma mb_mg e : mb e -> mg e.
  Proof. intros [->|H0]; [now left | right; now apply nn_gd]. Qed.
  Lemma fits_mg e : mg e -> fits SExpr e.
  Proof. intros [->|H0]; [now left | now apply fits_gd]. Qed.
  Lemma gap_must l : Forall gd l -> Forall (fun c => match c with Opt _ => True | Must x => is_nil x = false end) (map Must l).
  Proof. intros H0. apply Forall_map. revert H0. apply Forall_impl. exact gd_nil. Qed.
  Lemma gap_opt l : Forall (fun c => match c with Opt _ => True | Must x => is_nil x = false end) (map Opt l).
  Proof. apply Forall_map, Forall_forall. auto. Qed.

  Lemma pok_ipos it : In it its -> pok (ipos it).
  Proof.
    intros Hi. apply In_nth_error in Hi as [k Hk]. cbn. rewrite (gi_id _ its_good k it Hk). apply nth_error_Some. congruence.
  Qed.
  Lemma pok_wide it t z : In it its -> it_tok it = Some t -> Z.of_nat (String.length (t_str t)) = z -> pok (PPlus (ipos it) z).
  Proof.
    intros Hi Ht Hz. split; [exact (pok_ipos it Hi)|]. apply In_nth_error in Hi as [k Hk]. left. exists it, t.
    rewrite (gi_id _ its_good k it Hk). auto.
  Qed.
  Lemma pok_four it : In it its -> pok (PPlus (ipos it) 4).
  Proof. intros Hi. split; [exact (pok_ipos it Hi) | now right]. Qed.
  Lemma upper_len s : String.length (upper s) = String.length s.
  Proof. induction s as [|c s IH]; cbn; [reflexivity | now f_equal]. Qed.
  Lemma pok_kw it k z : In it its -> kw it k = true -> Z.of_nat (String.length k) = z -> pok (PPlus (ipos it) z).
  Proof.
    intros Hi Hk Hz. unfold kw in Hk. destruct (it_tok it) as [t|] eqn:Et; [|discriminate]. apply andb_prop in Hk as [_ Hk].
    apply (pok_wide it t); auto. unfold equal_fold in Hk. apply String.eqb_eq in Hk.
    rewrite <- (upper_len (t_str t)), Hk, upper_len. exact Hz.
  Qed.
  Lemma pok_rp it : In it its -> tk it ")" = true -> pok (PPlus (ipos it) 1).
  Proof.
    intros Hi Hk. unfold tk, tks, cur_kind, str_in in Hk. cbn in Hk. destruct (it_tok it) as [t|] eqn:Et; [|discriminate].
    rewrite andb_false_r, orb_false_r in Hk. destruct (String.eqb (t_kind t) ")") eqn:Ek; [|discriminate]. apply String.eqb_eq in Ek.
    apply (pok_wide it t); auto. destruct (gi_text _ its_good it t Hi Et) as [Hq|Hq]; [|now rewrite <- Hq, Ek].
    rewrite Ek in Hq. cbn in Hq. intuition discriminate.
  Qed.
  Lemma pok_iend it : In it its -> pok (iend it).
  Proof. exact (pok_ipos it). Qed.

  Lemma last_end l : Forall nn l -> l <> [] -> last (map end_of l) None <> None.
  Proof.
    induction l as [|a l IH]; intros Hl Hn; [congruence|]. inversion Hl as [|? ? Ha Hl']; subst.
    destruct l as [|b l]; [exact (nn_end a Ha)|]. cbn [map last] in *. apply IH; [assumption | discriminate].
  Qed.
  Lemma last_pos l : Forall nn l -> l <> [] -> last (map pos_of l) None <> None.
  Proof.
    induction l as [|a l IH]; intros Hl Hn; [congruence|]. inversion Hl as [|? ? Ha Hl']; subst.
    destruct l as [|b l]; [exact (nn_pos a Ha)|]. cbn [map last] in *. apply IH; [assumption | discriminate].
  Qed.
  Lemma last_nn l : Forall nn l -> l <> [] -> nn (last l ENil).
  Proof.
    induction l as [|a l IH]; intros Hl Hn; [congruence|]. inversion Hl as [|? ? Ha Hl']; subst.
    destruct l as [|b l]; [exact Ha|]. apply IH; [assumption | discriminate].
  Qed.
  Lemma last_good l : Forall good l -> good (last l ENil).
  Proof.
    induction l as [|a l IH]; intros Hl; [apply good_nil|]. inversion Hl as [|? ? Ha Hl']; subst.
    destruct l as [|b l]; [exact Ha|]. now apply IH.
  Qed.
End Preds.

(** If the positions in a tree are fine, those that [Pos] and [End] compute are. *)
Section Ends.
  Context `{Env}.

  Definition pp (e : expr) : Prop := All placed e.

  Lemma pp_inv e : pp e -> placed e /\ Forall pp (subs e).
  Proof. now inversion 1. Qed.
  Lemma placed_spots e : placed e -> Forall pok (spots e).
  Proof. destruct e; try easy. Qed.

  Lemma good_pp e : good e -> pp e.
  Proof. unfold good, pp. rewrite !All_nodes. intros Hg x Hx. now destruct (Hg x Hx). Qed.

  Lemma last_map_pok (f : expr -> option pos) l p : (forall x, In x l -> forall p, f x = Some p -> pok p) -> last (map f l) None = Some p -> pok p.
  Proof.
    induction l as [|a l IH]; intros Hl E; [discriminate|]. destruct l as [|b l]; [apply (Hl a); [now left | exact E]|].
    apply IH; [|exact E]. intros x Hx. apply Hl. now right.
  Qed.

  Lemma hd_map_pok (f : expr -> option pos) l p : (forall x, In x l -> forall p, f x = Some p -> pok p) -> hd None (map f l) = Some p -> pok p.
  Proof. destruct l as [|a l]; [discriminate|]. intros Hl. apply Hl. now left. Qed.
  Lemma shape0 e p : match e with EIdent _ _ _ v => Some v | _ => None end = Some p -> In p (spots e).
  Proof. destruct e; try discriminate. intros E; injection E as <-. cbn. auto. Qed.
  Lemma shape1 e p : match e with EIdent _ _ v _ => Some v | _ => None end = Some p -> In p (spots e).
  Proof. destruct e; try discriminate. intros E; injection E as <-. cbn. auto. Qed.
  Lemma shape2 e p : match e with EJSONOptions _ v _ => Some v | _ => None end = Some p -> In p (spots e).
  Proof. destruct e; try discriminate. intros E; injection E as <-. cbn. auto. Qed.
  Lemma shape3 e p : match e with ENumberLiteral _ v _ _ => Some v | _ => None end = Some p -> In p (spots e).
  Proof. destruct e; try discriminate. intros E; injection E as <-. cbn. auto. Qed.
  Lemma shape4 e p : match e with ENumberLiteral v _ _ _ => Some v | _ => None end = Some p -> In p (spots e).
  Proof. destruct e; try discriminate. intros E; injection E as <-. cbn. auto. Qed.
  Lemma shape5 e p : match e with EParamExprList _ v _ _ => Some v | _ => None end = Some p -> In p (spots e).
  Proof. destruct e; try discriminate. intros E; injection E as <-. cbn. auto. Qed.
  Lemma shape6 e p : match e with EStringLiteral _ v _ => Some v | _ => None end = Some p -> In p (spots e).
  Proof. destruct e; try discriminate. intros E; injection E as <-. cbn. auto. Qed.
  Lemma shape7 e p : match e with EStringLiteral v _ _ => Some v | _ => None end = Some p -> In p (spots e).
  Proof. destruct e; try discriminate. intros E; injection E as <-. cbn. auto. Qed.

  Ltac ends Hq :=
    match goal with
    | E : None = Some _ |- _ => discriminate E
    | E : Some _ = Some _ |- _ => injection E as <-
    | E : (if ?c then _ else _) = Some _ |- _ => destruct c eqn:?
    | E : match ?x with _ => _ end = Some _ |- _ => apply shape0 in E
    | E : match ?x with _ => _ end = Some _ |- _ => apply shape1 in E
    | E : match ?x with _ => _ end = Some _ |- _ => apply shape2 in E
    | E : match ?x with _ => _ end = Some _ |- _ => apply shape3 in E
    | E : match ?x with _ => _ end = Some _ |- _ => apply shape4 in E
    | E : match ?x with _ => _ end = Some _ |- _ => apply shape5 in E
    | E : match ?x with _ => _ end = Some _ |- _ => apply shape6 in E
    | E : match ?x with _ => _ end = Some _ |- _ => apply shape7 in E
    | E : hd None (map _ ?l) = Some _ |- _ => revert E; apply hd_map_pok; intros ? ? ? ?
    | E : last (map _ ?l) None = Some _ |- _ => revert E; apply last_map_pok; intros ? ? ? ?
    end.
  Ltac inlist :=
    lazymatch goal with
    | |- In _ (_ ++ _) => first [apply in_or_app; left; inlist | apply in_or_app; right; inlist]
    | |- In _ (_ :: _) => first [left; reflexivity | right; inlist]
    | |- In _ (if is_nil ?c then _ else _) => destruct (is_nil c); [inlist | first [discriminate | inlist]]
    | |- In _ _ => assumption
    end.
  Ltac insub := cbn [subs]; inlist.
  Ltac inpos := cbn [spots poss]; inlist.

  Lemma pp_ends e : pp e -> (forall p, pos_of e = Some p -> pok p) /\ (forall p, end_of e = Some p -> pok p).
  Proof.
    revert e. apply (expr_rect_subs (fun e => pp e -> (forall p, pos_of e = Some p -> pok p) /\ (forall p, end_of e = Some p -> pok p))).
    intros e IH Hp. apply pp_inv in Hp as [Hp Hs]. rewrite Forall_forall in Hs.
    assert (Hno : match e with EOperationExpr _ _ => False | _ => True end) by (destruct e; easy).
    apply placed_spots in Hp. rewrite Forall_forall in Hp.
    assert (IHp : forall c, In c (subs e) -> forall p, pos_of c = Some p -> pok p) by (intros c Hc; apply (IH c Hc), Hs, Hc).
    assert (IHe : forall c, In c (subs e) -> forall p, end_of c = Some p -> pok p) by (intros c Hc; apply (IH c Hc), Hs, Hc).
    assert (Hq : forall c, In c (subs e) -> forall p, In p (spots c) -> pok p).
    { intros c Hc. destruct (pp_inv c (Hs c Hc)) as [Hx _]. apply placed_spots in Hx. rewrite Forall_forall in Hx. exact Hx. }
    clear IH Hs. split; intros p E; destruct e; cbn [pos_of end_of] in E; try discriminate E; try (exfalso; exact Hno);
      repeat ends Hq;
      first [ apply Hp; inpos
            | eapply IHp; [|eassumption]; insub
            | eapply IHe; [|eassumption]; insub
            | eapply Hq; [|eassumption]; insub
            | exact I ].
  Qed.
End Ends.
