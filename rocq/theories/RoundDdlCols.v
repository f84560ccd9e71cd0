(** Parsing of column definitions for C25 and C26. *)
From Coq Require Import String List Arith Bool Lia.
From Verif Require Import Str Keyword Lexer LexSpec LexGrammar LexTokens Ast AstPos AstSubs Strip StripFacts Prog RunFacts FuelFacts ParserCommon ParserExpr ParserQuery ParserTable ParserView ParserAlter ParserSystem Parser Exec PrecSpec RoundSpec RoundExec RoundBase RoundExpr RoundOps RoundPrim RoundClause RoundFrom RoundQuery RoundAll RoundStmt RoundMoreSpec RoundMoreParse RoundDdlSpec RoundDdlParse.
Import ListNotations.
Local Open Scope string_scope.
Local Open Scope list_scope.
Local Open Scope nat_scope.

Lemma any_not e t k : any_name e t -> k <> KIdent -> k <> KKeyword -> t1 t [k] = false.
Proof.
  intros H H1 H2. unfold t1, str_in. cbn [existsb]. rewrite !orb_false_r.
  assert (Hk : String.eqb KIdent k = false) by (apply String.eqb_neq; congruence).
  destruct H; cbn [t_kind t_str].
  2, 3: rewrite Hk; reflexivity.
  unfold word_tok. cbn [t_kind t_str]. destruct (is_keyword _); [|rewrite Hk; reflexivity]. destruct (String.eqb_spec KKeyword k); [congruence|]. rewrite Hk. now rewrite andb_false_r.
Qed.
Lemma name_ident n' n t : ok n' n -> any_name n t -> exists q p p', n' = EIdent (t_str t) q p p'.
Proof.
  intros [H _] Hn. assert (E : exists s q p p', n = EIdent s q p p' /\ t_str t = s) by (destruct Hn; eexists _, _, _, _; (split; [reflexivity|reflexivity])).
  destruct E as (s & q & p & p' & -> & ->). destruct n'; try discriminate H. cbn [strip] in H. injection H. intros _ ->. eauto.
Qed.
Lemma X_tryTk_some {A} id t r k (f : option item -> prog A) (Q : A -> pstate -> Prop) : t1 t [k] = true -> (forall it, Ends (f (Some it)) (st (S id) r) Q) -> Ends (do b <- tryTk k ;; f b) (st id (t :: r)) Q.
Proof. intros H Hf. apply E_bind. unfold tryTk. apply X_cur. rewrite here_cons, tk_at, H. apply X_skip, E_ret, Hf. Qed.
Lemma X_tryTk_none {A} s k (f : option item -> prog A) (Q : A -> pstate -> Prop) : tk (here s) k = false -> Ends (f None) s Q -> Ends (do b <- tryTk k ;; f b) s Q.
Proof. intros H Hf. apply E_bind. unfold tryTk. apply X_cur. rewrite H. now apply E_ret. Qed.

(** ** Lists in parentheses *)
Definition lead (l : list sym) : Prop := exists t r, toks l = t :: r /\ t1 t [")"] = false.
Lemma paren_list p (F : list tok -> Prop) es ls ts : (forall r, F (O "," :: r)) -> (forall r, F (O ")" :: r)) ->
  Forall2 (fun e l => lead l /\ parses p e l F) es ls -> es <> [] -> forall acc acc0 id, Forall2 ok acc acc0 ->
  Ends (loop acc (fun acc => do it <- cur_item ;; if eofOr ")" it then Ret (inr acc) else do x <- p ;; do c <- tryTkb "," ;; Ret (if c then inl (acc ++ [x]) else inr (acc ++ [x])))) (st id (toks (sep_by comma ls) ++ O ")" :: ts)) (Gots (acc0 ++ es) (O ")" :: ts)).
Proof.
  intros HF1 HF2 H Hn. destruct H as [|e l es ls H1 H]; [congruence|]. clear Hn. revert e l H1.
  assert (Hs : forall l id r, lead l -> r <> [] -> eofOr ")" (here (st id (toks l ++ r))) = false).
  { intros l id r (t & u & E & Ht) Hr. rewrite E. unfold eofOr. rewrite <- app_comm_cons, here_cons, tk_at. apply orb_false_iff; split; [|exact Ht]. cbn [it_eof item_at]. destruct (u ++ r) eqn:Eu; [|reflexivity]. apply app_eq_nil in Eu. tauto. }
  induction H as [|e2 l2 es ls H2 H IH]; intros e l [Hl Hp] acc acc0 id Ha; apply E_loop1; apply X_cur.
  - cbn [sep_by]. rewrite Hs by (assumption || discriminate). eapply E_use; [exact Hp|apply HF2|]. intros x i Hx. stp. apply E_ret. split; [|eauto]. apply Forall2_app; auto.
  - rewrite sep_cons. unfold comma at 1 2. nrm. rewrite Hs by (assumption || discriminate). eapply E_use; [exact Hp|apply HF1|]. intros x i Hx. stp. apply E_ret.
    replace (acc0 ++ e :: e2 :: es) with ((acc0 ++ [e]) ++ e2 :: es) by now rewrite <- app_assoc. apply IH; [assumption..|]. apply Forall2_app; auto.
Qed.

(** ** Types *)
Definition no_open (ts : list tok) : Prop := forall i, tk (here (st i ts)) "(" = false.
Definition TyP (e : expr) (l : list sym) : Prop :=
  exists n t l', l = T t :: l' /\ type_name n t /\ (forall r, tk (here (st 0 (toks l' ++ O "," :: r))) KIdent = false /\ tk (here (st 0 (toks l' ++ O ")" :: r))) KIdent = false) /\
  forall n' id ts, ok n' n -> no_open ts -> Ends (body_ColumnTypeArgs n') (st id (toks l' ++ ts)) (Got e ts).
Lemma TyP_run e l : TyP e l -> lead l /\ parses parseColumnType e l no_open.
Proof.
  intros (n & t & l' & -> & [Hn Hr] & _ & H). split.
  - exists t, (toks l'). split; [now nrm|]. eapply any_not; [apply Hn|discriminate..].
  - intros id ts Ht. unfold parseColumnType. nrm. eapply X_plain; [exact Hn|]. intros n' Hn'. unfold parseColumnTypeArgs. apply E_last. apply X_call. eapply E_mono; [apply H; assumption|]. intros x s' (Hx & i & ->). now apply E_got.
Qed.
Lemma TyPs_run es ls : Forall2 TyP es ls -> Forall2 (fun e l => lead l /\ parses parseColumnType e l no_open) es ls.
Proof. induction 1; constructor; [now apply TyP_run|assumption]. Qed.
Lemma lit_run e l : literal e l -> lead l /\ parses parseLiteralHere e l (fun _ => True).
Proof.
  intros [e' t H|e' t H].
  - split; [exists t, []; split; [reflexivity|destruct H as [? ? []]; reflexivity]|]. intros id ts _. unfold parseLiteralHere, parseLiteral. nrm. cbn [app]. repeat stp. assert (E : tk (here (st id (t :: ts))) KInt || tk (here (st id (t :: ts))) KFloat = true) by (destruct H as [? ? []]; reflexivity). rewrite E. now apply number_pos.
  - split; [exists t, []; split; [reflexivity|destruct H; reflexivity]|]. intros id ts _. unfold parseLiteralHere, parseLiteral. nrm. cbn [app]. repeat stp. assert (E : tk (here (st id (t :: ts))) KInt || tk (here (st id (t :: ts))) KFloat = false) by (destruct H; reflexivity). rewrite E. now apply string_pos.
Qed.
Lemma lits_loop es ls : Forall2 literal es ls -> forall acc acc0 id ts, Forall2 ok acc acc0 ->
  Ends (loop acc (fun acc => do e <- eof_ ;; if e then Ret (inr acc) else do c <- tryTkb "," ;; if c then do size <- parseLiteralHere ;; Ret (inl (acc ++ [size])) else Ret (inr acc)))
    (st id (toks (flat_map (fun l => comma ++ l) ls) ++ O ")" :: ts)) (Gots (acc0 ++ es) (O ")" :: ts)).
Proof.
  induction 1 as [|e l es ls H1 H IH]; intros acc acc0 id ts Ha; apply E_loop1.
  - cbn [flat_map]. nrm. apply E_bind. unfold eof_. apply E_cur, E_ret. rewrite here_cons. cbn [it_eof item_at]. destruct ts.
    + apply E_ret. rewrite app_nil_r. split; eauto.
    + stp. apply E_ret. rewrite app_nil_r. split; eauto.
  - cbn [flat_map]. unfold comma at 1. nrm. apply E_bind. unfold eof_. apply E_cur, E_ret. rewrite here_cons. cbn [it_eof item_at].
    destruct (lit_run _ _ H1) as [(t & r & E & _) Hp].
    assert (Ee : match toks l ++ toks (flat_map (fun l0 => comma ++ l0) ls) ++ O ")" :: ts with [] => true | _ :: _ => false end = false) by (rewrite E; reflexivity). rewrite Ee.
    stp. eapply E_use; [exact Hp|exact I|]. intros x i Hx. apply E_ret. replace (acc0 ++ e :: es) with ((acc0 ++ [e]) ++ es) by now rewrite <- app_assoc. apply IH, Forall2_app; auto.
Qed.
Lemma enum_run e l : enum_value e l -> lead l /\ parses parseEnumValueExpr e l (fun _ => True).
Proof.
  intros [e' t n u H1 H2]. split; [exists t, [O "="; u]; split; [reflexivity|destruct H1; reflexivity]|]. intros id ts _. unfold parseEnumValueExpr. nrm. cbn [app]. stp. eapply E_bind, E_mono; [apply string_pos, H1|]. intros x s' ([E1 E2] & i & ->). stp.
  unfold parseNumberHere. apply E_bind. stp. eapply E_mono; [apply number_pos, H2|]. intros y s' ([E3 E4] & j & ->). apply E_got. split; [cbn [strip]; congruence|exact E4].
Qed.
Lemma enums_run es ls : Forall2 enum_value es ls -> Forall2 (fun e l => lead l /\ parses parseEnumValueExpr e l (fun _ => True)) es ls.
Proof. induction 1; constructor; [now apply enum_run|assumption]. Qed.
Definition is_num (e : expr) : bool := match e with ENumberLiteral _ _ _ _ => true | _ => false end.
Definition is_enum (e : expr) : bool := match e with EEnumValue _ n => is_num n | _ => false end.
Lemma num_strip e : is_num (strip e) = is_num e.
Proof. destruct e; reflexivity. Qed.
Lemma enum_strip e : is_enum (strip e) = is_enum e.
Proof. destruct e; try reflexivity. apply num_strip. Qed.
Lemma enum_is e : is_enum e = true -> exists n p q s b, e = EEnumValue n (ENumberLiteral p q s b).
Proof. destruct e; try discriminate. cbn [is_enum]. match goal with |- is_num ?v = _ -> _ => destruct v; try discriminate end. eauto 10. Qed.
Lemma enum_last es' es ls : Forall2 ok es' es -> Forall2 enum_value es ls -> es <> [] -> is_enum (last es' ENil) = true.
Proof.
  intros H1. revert ls. induction H1 as [|x y es' es H H1 IH]; intros ls H2 Hn; [congruence|]. inversion H2 as [|? ? ? ? Hv H3]; subst. destruct H1 as [|x2 y2 es' es H4 H1].
  - destruct H as [H _]. cbn [last]. rewrite <- enum_strip, H, enum_strip. destruct Hv as [e t n u He Hs]. destruct Hs. reflexivity.
  - change (last (x :: x2 :: es') ENil) with (last (x2 :: es') ENil). eapply IH; [exact H3|discriminate].
Qed.
Lemma fold_no n k : ~ In (upper n) special_types -> In (upper k) special_types -> equal_fold n k = false.
Proof. intros H1 H2. unfold equal_fold. apply String.eqb_neq. intros E. apply H1. now rewrite E. Qed.
Ltac opens n t l := exists n, t, l; split; [reflexivity|]; split; [assumption|]; split; [intros r; now split|]; intros n' id ts Hn' Ht; unfold body_ColumnTypeArgs, paren; nrm; cbn [app].
Lemma Ty_name_ok e t : type_name e t -> TyP (EScalarType e) [T t].
Proof. intros H. opens e t (@nil sym). apply X_tryTk_none; [apply Ht|]. destruct Hn' as [E1 E2]. apply E_got. split; [cbn [strip]; congruence|]. destruct (name_ident n' e t) as (? & ? & ? & ->); [now split|apply H|]. discriminate. Qed.
Lemma Ty_params_ok p q e t es ls : type_name e t -> Forall2 literal es ls -> TyP (ETypeWithParams p q e es) (T t :: paren (sep_by comma ls)).
Proof.
  intros H Hs. opens e t (paren (sep_by comma ls)). destruct Hn' as [E1 E2]. apply X_tryTk_some; [reflexivity|]. intros it. destruct Hs as [|v lv es ls Hv Hs].
  - cbn [sep_by]. nrm. cbn [app]. repeat stp. apply E_got. split; [cbn [strip map]; congruence|discriminate].
  - assert (Hrun : forall i p0, Ends (parseColumnTypeWithParams n' p0) (st i (toks (sep_by comma (lv :: ls)) ++ O ")" :: ts)) (Got (ETypeWithParams p q e (v :: es)) ts)).
    { intros i p0. unfold parseColumnTypeWithParams. rewrite sep_flat. nrm. eapply E_use; [apply lit_run, Hv|exact I|]. intros x j Hx. eapply E_bind, E_mono; [apply (lits_loop es ls Hs [x] [v]); auto|]. intros es' s' (Hes & k & ->). repeat stp. apply E_got.
      split; [cbn [strip]; rewrite E1, (oks_strip _ _ Hes); reflexivity|discriminate]. }
    cbn [app]. apply X_cur. cbv zeta. rewrite sep_flat in *. inversion Hv as [e0 t0 Hl|e0 t0 Hl]; subst; cbn [app] in *; rewrite toks_T in *; rewrite <- ?app_comm_cons in *.
    + assert (Ek : tk (here (st (S id) (t0 :: toks (flat_map (fun l => comma ++ l) ls) ++ O ")" :: ts))) KIdent = false /\ tk (here (st (S id) (t0 :: toks (flat_map (fun l => comma ++ l) ls) ++ O ")" :: ts))) KString = false /\ tks (here (st (S id) (t0 :: toks (flat_map (fun l => comma ++ l) ls) ++ O ")" :: ts))) [KInt; KFloat] = true) by (destruct Hl as [? ? []]; repeat split; reflexivity).
      destruct Ek as (Ea & Eb & Ec). rewrite Ea, Eb, Ec. apply Hrun.
    + assert (Ek : tk (here (st (S id) (t0 :: toks (flat_map (fun l => comma ++ l) ls) ++ O ")" :: ts))) KIdent = false /\ tk (here (st (S id) (t0 :: toks (flat_map (fun l => comma ++ l) ls) ++ O ")" :: ts))) KString = true) by (destruct Hl; repeat split; reflexivity).
      destruct Ek as (Ea & Eb). rewrite Ea, Eb. cbv iota. apply E_peek. rewrite peek_st. assert (Ep : exists u r, toks (flat_map (fun l => comma ++ l) ls) ++ O ")" :: ts = u :: r /\ String.eqb (t_kind u) "=" = false).
      { destruct ls; cbn [flat_map]; unfold comma; nrm; cbn [app]; eauto. }
      destruct Ep as (u & r & Ep & Eu). rewrite Ep in *. cbn [fst snd hd_error]. rewrite Eu. apply Hrun.
Qed.
Lemma Ty_enum_ok p q e t es ls : type_name e t -> Forall2 enum_value es ls -> es <> [] -> TyP (EEnumType e p q es) (T t :: paren (sep_by comma ls)).
Proof.
  intros H Hs Hn. opens e t (paren (sep_by comma ls)). destruct Hn' as [E1 E2]. apply X_tryTk_some; [reflexivity|]. intros it.
  assert (Hrun : forall i p0, Ends (parseEnumType n' p0) (st i (toks (sep_by comma ls) ++ O ")" :: ts)) (Got (EEnumType e p q es) ts)).
  { intros i p0. unfold parseEnumType, commaLoop. eapply E_bind, E_mono; [apply (paren_list parseEnumValueExpr (fun _ => True) es ls ts) with (acc0 := []); [now intros|now intros|now apply enums_run|exact Hn|constructor]|]. intros es' s' (Hes & k & ->). cbn [app] in Hes.
    destruct (enum_is _ (enum_last _ _ _ Hes Hs Hn)) as (n0 & p1 & q1 & s1 & b1 & ->). repeat stp. apply E_got. split; [cbn [strip]; rewrite E1, (oks_strip _ _ Hes); reflexivity|discriminate]. }
  destruct Hs as [|v lv es ls Hv Hs]; [congruence|]. destruct Hv as [n0 t0 n1 t1 H0 H1]. rewrite sep_flat in *. cbn [app] in *. rewrite !toks_T in *. rewrite <- ?app_comm_cons in *. apply X_cur. cbv zeta. destruct H0.
  repeat tst. apply E_peek. rewrite peek_st. apply Hrun.
Qed.
Lemma type_first n t id r : type_name n t -> tk (here (st id (t :: r))) KIdent = true.
Proof. intros [H _]. eapply plain_tk, H. Qed.
Lemma Ty_args_ok p q e t es ls : type_name e t -> ~ In (upper (t_str t)) special_types -> Forall2 TyP es ls -> es <> [] -> TyP (EComplexType p q e es) (T t :: paren (sep_by comma ls)).
Proof.
  intros H Hno Hs Hn. opens e t (paren (sep_by comma ls)). destruct (name_ident n' e t Hn' (proj1 (proj1 H))) as (? & ? & ? & ->). destruct Hn' as [E1 E2]. apply X_tryTk_some; [reflexivity|]. intros it.
  apply X_cur. cbv zeta. cbn [ident_name]. assert (Ek : tk (here (st (S id) (toks (sep_by comma ls) ++ O ")" :: ts))) KIdent = true).
  { destruct Hs as [|v lv es ls Hv Hs]; [congruence|]. destruct Hv as (n0 & t0 & l0 & -> & H0 & _). rewrite sep_flat. nrm. eapply type_first, H0. }
  rewrite Ek, !fold_no by (try exact Hno; vm_compute; tauto).
  unfold parseComplexType, commaLoop. eapply E_bind, E_mono; [apply (paren_list parseColumnType no_open es ls ts) with (acc0 := []); [now intros|now intros|now apply TyPs_run|exact Hn|constructor]|]. intros es' s' (Hes & k & ->). cbn [app] in Hes. repeat stp. apply E_got. split; [cbn [strip] in *; rewrite E1, (oks_strip _ _ Hes); reflexivity|discriminate].
Qed.
(** A list after its first element. *)
Lemma paren_more p (F : list tok -> Prop) x e es ls id ts (Q : list expr -> pstate -> Prop) : (forall r, F (O "," :: r)) -> (forall r, F (O ")" :: r)) ->
  Forall2 (fun e l => lead l /\ parses p e l F) es ls -> ok x e -> (forall es' i, Forall2 ok es' (e :: es) -> Q es' (st i (O ")" :: ts))) ->
  Ends (do c <- tryTkb "," ;; if c then do more <- commaLoop (eofOr ")") p ;; Ret (x :: more) else Ret [x]) (st id (toks (flat_map (fun l => comma ++ l) ls) ++ O ")" :: ts)) Q.
Proof.
  intros HF1 HF2 H Hx HQ. destruct H as [|e1 l1 es ls H1 H].
  - cbn [flat_map]. nrm. stp. apply E_ret, HQ. constructor; [exact Hx|constructor].
  - cbn [flat_map]. unfold comma at 1. rewrite <- app_assoc, toks_app. cbn [app]. nrm. stp. assert (E : toks l1 ++ toks (flat_map (fun l => comma ++ l) ls) ++ O ")" :: ts = toks (sep_by comma (l1 :: ls)) ++ O ")" :: ts) by (rewrite sep_flat; now nrm). rewrite E.
    unfold commaLoop. eapply E_bind, E_mono; [apply (paren_list p F (e1 :: es) (l1 :: ls) ts) with (acc0 := []); [assumption|assumption|now constructor|discriminate|constructor]|]. intros es' s' (Hes & k & ->). apply E_ret, HQ. constructor; assumption.
Qed.
Lemma nested_name (n : string) : In (upper n) ["NESTED"; "TUPLE"] -> (equal_fold n "Nested" = true \/ equal_fold n "Nested" = false /\ equal_fold n "JSON" = false /\ equal_fold n "QBit" = false /\ equal_fold n "Tuple" = true).
Proof. unfold equal_fold. intros [E|[E|[]]]; rewrite <- E; [left|right]; vm_compute; auto. Qed.
Lemma nested_run lp p q n' e t es ls id ts : ok n' e -> any_name e t -> In (upper (t_str t)) ["NESTED"; "TUPLE"] -> es <> [] ->
  tk (here (st id (toks (sep_by comma ls) ++ O ")" :: ts))) KIdent = true ->
  Ends parseNestedTypeFields (st id (toks (sep_by comma ls) ++ O ")" :: ts)) (Gots es (O ")" :: ts)) ->
  Ends (do it <- cur_item ;;
      let p := ipos it in
      let name := ident_name n' in
      if tk it KIdent then
        if equal_fold name "Nested" then parseNestedType n' p
        else if equal_fold name "JSON" then parseJSONType n' p
        else if equal_fold name "QBit" then parseColumnTypeWithParams n' p
        else if equal_fold name "Tuple" then parseNestedType n' p
        else parseComplexType n' p
      else if tk it KString then
        Peek (fun r =>
          match r with
          | inr _ => do p <- pos_ ;; parseColumnTypeWithParams n' p
          | inl None => Panic "parseColumnTypeArgs: peekToken.Kind"
          | inl (Some t) =>
              if String.eqb (t_kind t) "=" then parseEnumType n' p
              else parseColumnTypeWithParams n' p
          end)
      else if tks it [KInt; KFloat] then parseColumnTypeWithParams n' p
      else if tk it ")" then
        do! skip ;;
        Ret (ETypeWithParams (ipos lp) p n' [])
      else Fail (Msg "unexpected token kind: %v")) (st id (toks (sep_by comma ls) ++ O ")" :: ts)) (Got (ENestedType p q e es) ts).
Proof.
  intros Hn' He Hin Hn Hk H. destruct (name_ident n' e t Hn' He) as (? & ? & ? & ->). destruct Hn' as [E1 E2]. apply X_cur. cbv zeta. cbn [ident_name]. rewrite Hk.
  assert (Hrun : forall p0, Ends (parseNestedType (EIdent (t_str t) x x0 x1) p0) (st id (toks (sep_by comma ls) ++ O ")" :: ts)) (Got (ENestedType p q e es) ts)).
  { intros p0. unfold parseNestedType. eapply E_bind, E_mono; [exact H|]. intros es' s' (Hes & k & ->). repeat stp. apply E_got. split; [cbn [strip] in *; rewrite E1, (oks_strip _ _ Hes); reflexivity|discriminate]. }
  destruct (nested_name _ Hin) as [-> | (-> & -> & -> & ->)]; apply Hrun.
Qed.
Lemma app_ne (a b : list tok) t ts : a ++ b ++ t :: ts <> [].
Proof. destruct a; [destruct b|]; discriminate. Qed.
Lemma eofOr_no n t id r : any_name n t -> r <> [] -> eofOr ")" (here (st id (t :: r))) = false.
Proof. intros H Hr. unfold eofOr. rewrite here_cons, tk_at. apply orb_false_iff. split; [destruct r; [congruence|reflexivity]|]. eapply any_not; [exact H|discriminate..]. Qed.
Lemma Ty_tuple_ok p q e t es ls : type_name e t -> In (upper (t_str t)) ["NESTED"; "TUPLE"] -> Forall2 TyP es ls -> es <> [] -> TyP (ENestedType p q e es) (T t :: paren (sep_by comma ls)).
Proof.
  intros H Hin Hs Hn. opens e t (paren (sep_by comma ls)). apply X_tryTk_some; [reflexivity|]. intros it. cbv iota.
  destruct Hs as [|v lv es ls Hv Hs]; [congruence|]. destruct Hv as (n0 & t0 & l0 & -> & H0 & Hk & Hb).
  eapply nested_run; [exact Hn'|apply H|exact Hin|exact Hn| |].
  { rewrite sep_flat. nrm. eapply type_first, H0. }
  unfold parseNestedTypeFields. rewrite sep_flat. nrm. apply X_cur. rewrite (type_first n0) by exact H0.
  rewrite (eofOr_no n0) by (apply H0 || apply app_ne).
  eapply X_plain; [apply H0|]. intros x Hx. apply X_cur.
  assert (Ek : tk (here (st (S (S id)) (toks l0 ++ toks (flat_map (fun l => comma ++ l) ls) ++ O ")" :: ts))) KIdent = false).
  { destruct ls; cbn [flat_map]; unfold comma; nrm; [specialize (Hk ts)|specialize (Hk (toks l ++ toks (flat_map (fun l => [T (O ","); Sp] ++ l) ls) ++ O ")" :: ts))]; destruct (toks l0); cbn [app] in *; apply Hk. }
  rewrite Ek. unfold parseNestedTypeFieldsWithoutNames, parseColumnTypeArgs. apply X_call. eapply E_mono; [apply Hb; [exact Hx|destruct ls; cbn [flat_map]; unfold comma; nrm; cbn [app]; now intros i]|]. intros y s' (Hy & k & ->).
  eapply (paren_more parseColumnType no_open); [now intros|now intros|apply TyPs_run, Hs|exact Hy|]. intros es' i He. split; eauto.
Qed.
Definition FieldP (e : expr) (l : list sym) : Prop :=
  exists n t c lc p q, l = T t :: Sp :: lc /\ e = EColumnDef p q (ENestedIdentifier n ENil) c ENil ENil ENil ENil ENil ENil ENil ENil ENil /\ plain_name n t /\ TyP c lc.
Lemma nested_field {A} n' n t c' c p q (f : expr -> prog A) s Q : ok n' n -> any_name n t -> ok c' c ->
  (forall e, ok e (EColumnDef p q (ENestedIdentifier n ENil) c ENil ENil ENil ENil ENil ENil ENil ENil ENil) -> Ends (f e) s Q) -> Ends (do x <- nestedField n' c' ;; f x) s Q.
Proof.
  intros Hn Ht [E1 E2] Hf. apply E_bind. unfold nestedField. destruct (name_ident _ _ _ Hn Ht) as (? & ? & ? & ->). destruct Hn as [E3 _]. unfold posOf. cbn [pos_of]. repeat stp. apply X_endOf; [exact E2|]. intros pe. apply E_ret, Hf. split; [cbn [strip] in *; congruence|discriminate].
Qed.
Lemma field_run e l : FieldP e l -> lead l /\ parses parseNestedTypeFieldWithName e l no_open.
Proof.
  intros (n & t & c & lc & p & q & -> & -> & Hn & Hc). split.
  - exists t, (toks lc). split; [now nrm|]. eapply any_not; [apply Hn|discriminate..].
  - intros id ts Ht. unfold parseNestedTypeFieldWithName. nrm. eapply X_plain; [exact Hn|]. intros x Hx. eapply E_use; [apply TyP_run, Hc|exact Ht|]. intros y i Hy. apply E_last. eapply (nested_field _ _ _ _ _ p q); [exact Hx|apply Hn|exact Hy|]. intros z Hz. now apply E_got.
Qed.
Lemma fields_run es ls : Forall2 FieldP es ls -> Forall2 (fun e l => lead l /\ parses parseNestedTypeFieldWithName e l no_open) es ls.
Proof. induction 1; constructor; [now apply field_run|assumption]. Qed.
Lemma Ty_nested_ok p q e t es ls : type_name e t -> In (upper (t_str t)) ["NESTED"; "TUPLE"] -> Forall2 FieldP es ls -> es <> [] -> TyP (ENestedType p q e es) (T t :: paren (sep_by comma ls)).
Proof.
  intros H Hin Hs Hn. opens e t (paren (sep_by comma ls)). apply X_tryTk_some; [reflexivity|]. intros it. cbv iota.
  destruct Hs as [|v lv es ls Hv Hs]; [congruence|]. destruct Hv as (n & t1 & c & lc & p1 & q1 & -> & -> & H1 & Hc). destruct (TyP_run _ _ Hc) as [_ Hp]. destruct Hc as (n0 & t0 & l0 & -> & H0 & Hk & Hb).
  eapply nested_run; [exact Hn'|apply H|exact Hin|exact Hn| |].
  { rewrite sep_flat. nrm. eapply plain_tk, H1. }
  unfold parseNestedTypeFields. rewrite sep_flat. rewrite <- app_comm_cons, toks_T, <- app_comm_cons, toks_app, toks_Sp, <- app_assoc. apply X_cur. erewrite plain_tk by exact H1.
  rewrite (eofOr_no n) by first [apply H1 | apply app_ne].
  eapply X_plain; [apply H1|]. intros x Hx. apply X_cur.
  assert (Ek : forall i, tk (here (st i (toks (T t0 :: l0) ++ toks (flat_map (fun l => comma ++ l) ls) ++ O ")" :: ts))) KIdent = true) by (intros i; nrm; eapply type_first, H0).
  rewrite Ek. unfold parseNestedTypeFieldsWithNames. eapply E_use; [exact Hp|destruct ls; cbn [flat_map]; unfold comma; nrm; cbn [app]; now intros i|]. intros y i Hy.
  eapply (nested_field _ _ _ _ _ p1 q1); [exact Hx|apply H1|exact Hy|]. intros z Hz.
  eapply (paren_more parseNestedTypeFieldWithName no_open); [now intros|now intros|apply fields_run, Hs|exact Hz|]. intros es' j He. split; eauto.
Qed.
Theorem types_run : (forall e l, ctype e l -> TyP e l) /\ (forall es ls, ctypes es ls -> Forall2 TyP es ls) /\ (forall es ls, fields es ls -> Forall2 FieldP es ls).
Proof.
  apply ctype_mut; intros.
  - now apply Ty_name_ok.
  - now apply Ty_params_ok.
  - now apply Ty_enum_ok.
  - now apply Ty_args_ok.
  - now apply Ty_tuple_ok.
  - now apply Ty_nested_ok.
  - constructor.
  - now constructor.
  - constructor.
  - constructor; [|assumption]. exists n, t, e, l, p, q. auto.
Qed.

(** ** CODEC *)
Lemma X_level {A} v l id ts (f : expr -> prog A) Q : level v l -> no_open ts -> (forall v' i, okn v' v -> Ends (f v') (st i ts) Q) -> Ends (do x <- tryParseCompressionLevel ;; f x) (st id (toks l ++ ts)) Q.
Proof.
  intros H Ht Hf. apply E_bind. unfold tryParseCompressionLevel. destruct H as [|e t H]; unfold paren; nrm; cbn [app].
  - stp. apply X_tryTk_no; [apply Ht|]. apply E_ret, Hf, okn_nil.
  - stp. stp. stp. assert (E : tk (here (st (S id) (t :: O ")" :: ts))) ")" = false) by (destruct H as [? ? []]; reflexivity). rewrite E. eapply E_bind, E_mono; [apply number_pos, H|]. intros x s' ([E1 E2] & i & ->). stp. apply E_ret, Hf. split; [exact E1|now right].
Qed.
Lemma str_in_iff s l : str_in s l = true <-> In s l.
Proof. unfold str_in. rewrite existsb_exists. split; [intros (x & H & E); now apply String.eqb_eq in E as ->|intros H; exists s; now rewrite String.eqb_refl]. Qed.
Lemma X_codec {A} c lc id ts (f : expr -> prog A) Q : codec c lc -> (forall i, kw (here (st i ts)) "CODEC" = false) -> (forall c' i, okn c' c -> Ends (f c') (st i ts) Q) -> Ends (do x <- tryParseCompressionCodecs ;; f x) (st id (toks lc ++ ts)) Q.
Proof.
  intros H Ht Hf. apply E_bind. unfold tryParseCompressionCodecs. destruct H as [|p q e t v l He Hl Hv|p q e t v l e' t' v' l' He Hin Hl He' Hl' Hv'].
  - nrm. cbn [app]. stp. apply X_tryKw_no; [apply Ht|]. apply E_ret, Hf, okn_nil.
  - unfold paren. nrm. cbn [app]. repeat stp. eapply X_plain; [exact He|]. intros x Hx. destruct (name_ident _ _ _ Hx (proj1 He)) as (? & ? & ? & ->). destruct Hx as [E1 E2]. cbn [ident_name]. apply E_bind.
    destruct (str_in (upper (t_str t)) deltaCodecs) eqn:Ed; [|destruct (str_in (upper (t_str t)) levelCodecs) eqn:El].
    + eapply X_level; [exact Hl|now intros i|]. intros w i [E3 E4]. repeat stp. apply E_ret. cbn [is_nil negb andb]. repeat stp. apply E_ret, Hf. split; [cbn [strip] in *; congruence|right; discriminate].
    + eapply X_level; [exact Hl|now intros i|]. intros w i [E3 E4]. repeat stp. apply E_ret. cbn [is_nil negb andb]. repeat stp. apply E_ret, Hf. split; [cbn [strip] in *; congruence|right; discriminate].
    + destruct Hv as [->|Hv].
      * inversion Hl; subst; [|exfalso; match goal with Hb : number_lit ENil _ |- _ => inversion Hb end]. nrm. cbn [app]. apply E_ret. cbn [is_nil negb andb]. repeat stp. apply E_ret, Hf. split; [cbn [strip] in *; congruence|right; discriminate].
      * exfalso. apply in_app_or in Hv as [Hv|Hv]; apply str_in_iff in Hv; [change first_codecs with deltaCodecs in Hv|change level_codecs with levelCodecs in Hv]; congruence.
  - unfold paren, comma. nrm. cbn [app]. nrm. cbn [app]. repeat stp. eapply X_plain; [exact He|]. intros x Hx. destruct (name_ident _ _ _ Hx (proj1 He)) as (? & ? & ? & ->). destruct Hx as [E1 E2]. cbn [ident_name]. apply E_bind.
    apply str_in_iff in Hin. change first_codecs with deltaCodecs in Hin. rewrite Hin. eapply X_level; [exact Hl|now intros i|]. intros w i [E3 E4]. repeat stp.
    eapply X_plain; [exact He'|]. intros y Hy. destruct (name_ident _ _ _ Hy (proj1 He')) as (? & ? & ? & ->). destruct Hy as [E5 E6]. apply E_ret. cbn [is_nil negb andb ident_name].
    destruct (str_in (upper (t_str t')) levelCodecs) eqn:El.
    + eapply X_level; [exact Hl'|now intros j|]. intros w' j [E7 E8]. repeat stp. apply E_ret, Hf. split; [cbn [strip] in *; congruence|right; discriminate].
    + destruct Hv' as [->|Hv'].
      * inversion Hl'; subst; [|exfalso; match goal with Hb : number_lit ENil _ |- _ => inversion Hb end]. nrm. cbn [app]. repeat stp. apply E_ret, Hf. split; [cbn [strip] in *; congruence|right; discriminate].
      * exfalso. apply str_in_iff in Hv'. change level_codecs with levelCodecs in Hv'. congruence.
Qed.

(** ** Columns *)
Definition c_col : list tok := [O ","; O ")"; K "AFTER"; K "SETTINGS"; K "REMOVE"; O ";"].
Lemma heads_codec c l C ts : codec c l -> heads C ts -> heads (K "CODEC" :: C) (toks l ++ ts).
Proof. intros [|p q e t v l' H _ _|p q e t v l' e' t' v' l'' H _ _ _ _ _] Ht; unfold paren; nrm; cbn [app]; [now apply heads_cons|now left|now left]. Qed.
Lemma heads_column_ttl c l C ts : column_ttl c l -> heads C ts -> heads (K "TTL" :: C) (toks l ++ ts).
Proof. intros [|p q e l' H] Ht; nrm; cbn [app]; [now apply heads_cons|now left]. Qed.
Lemma heads_default d m a l C ts : default d m a l -> heads C ts -> heads (map K ["DEFAULT"; "MATERIALIZED"; "ALIAS"] ++ C) (toks l ++ ts).
Proof. intros [|e l' H|e l' H|e l' H] Ht; nrm; cbn [app map]; [now repeat apply heads_cons|cbn; tauto..]. Qed.
Lemma heads_null n m l C ts : null_mark n m l -> heads C ts -> heads (map K ["NULL"; "NOT"] ++ C) (toks l ++ ts).
Proof. intros [|p|p p'] Ht; wds; nrm; cbn [app map]; [now repeat apply heads_cons|cbn; tauto..]. Qed.
Lemma X_null {A} n m l id ts (f : expr -> expr -> pos -> prog A) p Q : null_mark n m l -> (forall i, kw (here (st i ts)) "NULL" = false) -> (forall i, kw (here (st i ts)) "NOT" = false) ->
  (forall n' m' i p, okn n' n -> okn m' m -> Ends (f n' m' p) (st i ts) Q) ->
  Ends (do q <- pos_ ;; do nullable <- tryParseNull q ;; do columnEnd <- endOr nullable p ;; do q <- pos_ ;; do notNull <- tryParseNotNull q ;; do columnEnd <- endOr notNull columnEnd ;; f notNull nullable columnEnd) (st id (toks l ++ ts)) Q.
Proof.
  intros H H1 H2 Hf. unfold tryParseNull, tryParseNotNull. destruct H as [|p'|p' p2]; wds; nrm; cbn [app].
  - repeat stp. apply E_ret, X_endOr; [now left|]. intros p1. repeat stp. apply E_ret, X_endOr; [now left|]. intros p2. apply Hf; apply okn_nil.
  - repeat stp. apply E_ret, X_endOr; [right; discriminate|]. intros p1. repeat stp. apply E_ret, X_endOr; [now left|]. intros p2. apply Hf; [apply okn_nil|]. split; [reflexivity|right; discriminate].
  - repeat stp. apply E_ret, X_endOr; [now left|]. intros p1. repeat stp. apply E_ret, X_endOr; [right; discriminate|]. intros p3. apply Hf; [|apply okn_nil]. split; [reflexivity|right; discriminate].
Qed.
Lemma X_default {A} d m a l id ts (f : expr * expr * expr -> prog A) Q : default d m a l -> All respects d -> All respects m -> All respects a -> heads ends0 ts ->
  (forall i, kw (here (st i ts)) "DEFAULT" = false) -> (forall i, kw (here (st i ts)) "MATERIALIZED" = false) -> (forall i, kw (here (st i ts)) "ALIAS" = false) ->
  (forall d' m' a' i, okn d' d -> okn m' m -> okn a' a -> Ends (f (d', m', a')) (st i ts) Q) ->
  Ends (do x <- ifKw "DEFAULT" (do e <- parseExprHere ;; Ret (e, ENil, ENil))
      (ifKw "MATERIALIZED" (do e <- parseExprHere ;; Ret (ENil, e, ENil))
        (ifKw "ALIAS" (do e <- parseExprHere ;; Ret (ENil, ENil, e)) (Ret (ENil, ENil, ENil)))) ;; f x) (st id (toks l ++ ts)) Q.
Proof.
  intros H Hd Hm Ha Ht H1 H2 H3 Hf. apply E_bind. unfold ifKw. destruct H as [|e l H|e l H|e l H]; nrm; cbn [app].
  - repeat stp. apply E_ret. apply Hf; apply okn_nil.
  - assert (HX : XP e l) by now apply (proj1 all_claims _ _ _ H). repeat stp. eapply E_use; [apply expr_here, HX|exact Ht|]. intros x i Hx. apply E_ret. apply Hf; [now apply ok_okn|apply okn_nil|apply okn_nil].
  - assert (HX : XP e l) by now apply (proj1 all_claims _ _ _ H). repeat stp. eapply E_use; [apply expr_here, HX|exact Ht|]. intros x i Hx. apply E_ret. apply Hf; [apply okn_nil|now apply ok_okn|apply okn_nil].
  - assert (HX : XP e l) by now apply (proj1 all_claims _ _ _ H). repeat stp. eapply E_use; [apply expr_here, HX|exact Ht|]. intros x i Hx. apply E_ret. apply Hf; [apply okn_nil|apply okn_nil|now apply ok_okn].
Qed.
Lemma X_comment {A} p k l id ts (f : expr -> prog A) Q : after_words ["COMMENT"] k l -> (forall i, kw (here (st i ts)) "COMMENT" = false) ->
  (forall k' i, okn k' k -> Ends (f k') (st i ts) Q) -> Ends (do x <- tryParseColumnComment p ;; f x) (st id (toks l ++ ts)) Q.
Proof.
  intros H Ht Hf. apply E_bind. unfold tryParseColumnComment. destruct H as [|e t H]; wds; nrm; cbn [app].
  - repeat stp. apply E_ret, Hf, okn_nil.
  - repeat stp. eapply E_mono; [apply string_pos, H|]. intros x s' (Hx & i & ->). now apply Hf, ok_okn.
Qed.
Lemma X_column_ttl {A} t l id ts (f : expr -> prog A) Q : column_ttl t l -> All respects t -> heads c_ttl ts -> (forall i, kw (here (st i ts)) "TTL" = false) ->
  (forall t' i, okn t' t -> Ends (f t') (st i ts) Q) -> Ends (do x <- tryParseTTLClause false ;; f x) (st id (toks l ++ ts)) Q.
Proof.
  intros H Ha Ht Hk Hf. destruct H as [|p q e l H]; nrm; cbn [app].
  - apply X_no_ttl; [apply Hk|]. apply Hf, okn_nil.
  - kids. apply (X_ttl p q false [e] [l]); [constructor; [exact H|constructor]|discriminate|constructor; assumption|exact Ht|now right|now left|]. intros t' i Hx. now apply Hf, ok_okn.
Qed.
Lemma coldef_run p0 e l : coldef e l -> All respects e -> parses (parseTableColumnExpr p0) e l (heads c_col).
Proof.
  intros [p q n ln ty lt nn nl lnl d m a ld c lc t lttl k lk Hn Hty Hnull Hd Hc Htt Hk Hex] Ha id ts Ht. kids.
  destruct (TyP_run _ _ (proj1 types_run _ _ Hty)) as [_ Hp]. assert (Hty' := proj1 types_run _ _ Hty). destruct Hty' as (n0 & t0 & l0 & -> & Hz0 & _).
  assert (h7 : heads (K "COMMENT" :: c_col) (toks lk ++ ts)) by (eapply heads_after; [exact Hk|exact Ht]).
  assert (h6 : heads (K "TTL" :: K "COMMENT" :: c_col) (toks lttl ++ toks lk ++ ts)) by (eapply heads_column_ttl; [exact Htt|exact h7]).
  assert (h5 : heads (K "CODEC" :: K "TTL" :: K "COMMENT" :: c_col) (toks lc ++ toks lttl ++ toks lk ++ ts)) by (eapply heads_codec; [exact Hc|exact h6]).
  assert (h4 := heads_default _ _ _ _ _ _ Hd h5). assert (h3 := heads_null _ _ _ _ _ Hnull h4). cbn [map app] in h4, h3.
  unfold parseTableColumnExpr. nrm. eapply X_column; [exact Hn| |]. { intros j. rewrite here_cons, tk_at. eapply any_not; [apply Hz0|discriminate..]. }
  intros n' i1 [E1 E2]. apply X_endOf; [exact E2|]. intros p1. apply X_cur.
  rewrite (type_first n0) by exact Hz0. assert (Er : forall i r, kw (here (st i (t0 :: r))) "REMOVE" = false).
  { intros i r. rewrite here_cons, kw_at. unfold k1, equal_fold. apply andb_false_iff. right. apply String.eqb_neq. exact (proj2 Hz0). }
  rewrite Er. cbn [negb andb]. specialize (Hp i1 (toks lnl ++ toks ld ++ toks lc ++ toks lttl ++ toks lk ++ ts)). rewrite toks_T, <- app_comm_cons in Hp. eapply E_bind, E_mono; [apply Hp; intros i; slv|]. intros ty' s' ([E3 E4] & i2 & ->).
  apply X_endOr; [now right|]. intros p2. eapply X_null; [exact Hnull|intros; slv|intros; slv|]. intros nn' nl' i3 p3 Hnn Hnl.
  eapply X_default; [exact Hd|assumption..|inc|intros; slv|intros; slv|intros; slv|]. intros d' m' a' i4 [E5 E6] [E7 E8] [E9 E10]. cbv beta iota.
  apply X_endOr; [exact E6|]. intros p4. apply X_endOr; [exact E8|]. intros p5. apply X_endOr; [exact E10|]. intros p6. apply X_pos.
  destruct Hnn as [F1 _], Hnl as [F2 _]. destruct Hex as [->|[-> ->]].
  - inversion Hk; subst; [|exfalso; match goal with Hb : string_lit ENil _ |- _ => inversion Hb end]. rewrite toks_nil in *. cbn [app] in *. clear h3 h4 h5 h6 h7. assert (h6 := heads_column_ttl _ _ _ _ Htt Ht). assert (h5 := heads_codec _ _ _ _ Hc h6).
    eapply (X_comment _ ENil []); [constructor|intros; slv|]. intros k' i5 [E11 E12]. apply X_endOr; [exact E12|]. intros p7.
    eapply X_codec; [exact Hc|intros; slv|]. intros c' i6 [E13 E14]. apply X_endOr; [exact E14|]. intros p8. eapply X_column_ttl; [exact Htt|assumption|inc|intros; slv|]. intros t' i7 [E15 E16]. apply X_endOr; [exact E16|]. intros p9.
    apply E_got. split; [cbn [strip] in *; rewrite E1, E3, F1, F2, E5, E7, E9, E11, E13, E15; reflexivity|discriminate].
  - inversion Hc; inversion Htt; subst. rewrite !toks_nil in *. cbn [app] in *. eapply X_comment; [exact Hk|intros; slv|]. intros k' i5 [E11 E12]. apply X_endOr; [exact E12|]. intros p7.
    eapply (X_codec ENil []); [constructor|intros; slv|]. intros c' i6 [E13 E14]. apply X_endOr; [exact E14|]. intros p8. eapply (X_column_ttl ENil []); [constructor|assumption|inc|intros; slv|]. intros t' i7 [E15 E16]. apply X_endOr; [exact E16|]. intros p9.
    apply E_got. split; [cbn [strip] in *; rewrite E1, E3, F1, F2, E5, E7, E9, E11, E13, E15; reflexivity|discriminate].
Qed.
Lemma after_follow a la C ts : after_column a la -> heads C ts -> heads (K "AFTER" :: C) (toks la ++ ts).
Proof. intros [|e l H] Ht; nrm; cbn [app]; [now apply heads_cons|now left]. Qed.
