(** Chains of binary operators. *)
From Coq Require Import String Ascii List Arith Bool Lia.
From Verif Require Import Str Keyword Lexer LexSpec LexTokens LexProps Ast AstPos PrecSpec ChainSpec Prog Items ItemsFacts RunFacts ParserCommon ParserExpr ParserQuery Parser
  ErrorRender ParserApi ParseFacts LayoutSpec LayoutFacts LayoutParse.
Import ListNotations.
Local Open Scope string_scope.
Local Open Scope nat_scope.
#[local] Arguments is_keyword : simpl never.
#[local] Arguments is_reserved : simpl never.
#[local] Arguments upper : simpl never.

Lemma kw_word it t k w : it_tok it = Some t -> t_kind t = KKeyword -> upper (t_str t) = w -> kw it k = String.eqb w (upper k).
Proof. intros Ht Hk <-. unfold kw. rewrite Ht, Hk. reflexivity. Qed.


Lemma kws_unfold it l : kws it l = existsb (kw it) l.
Proof. reflexivity. Qed.

Lemma no_kw x t k : it_tok x = Some t -> t_kind t <> KKeyword -> kw x k = false.
Proof. intros Ht Hk. unfold kw. rewrite Ht. apply String.eqb_neq in Hk. now rewrite Hk. Qed.

Lemma tks_kind x t l : it_tok x = Some t -> t_kind t <> KKeyword -> tks x l = str_in (t_kind t) l.
Proof. intros Ht Hk. unfold tks, cur_kind. rewrite Ht. apply String.eqb_neq in Hk. rewrite Hk. now destruct (str_in (t_kind t) l). Qed.

Lemma str_in_false x a l : str_in x l = false -> In a l -> String.eqb x a = false.
Proof.
  intros H Hin. apply String.eqb_neq. intros ->. assert (str_in a l = true) by now apply str_in_In. congruence.
Qed.

Lemma tk_of_tks x a l : tks x l = false -> In a l -> a <> KIdent -> tk x a = false.
Proof.
  intros H Hin Ha. unfold tk, tks in *. destruct (str_in (cur_kind x) l) eqn:E; [discriminate|].
  cbn [str_in existsb]. rewrite (str_in_false _ _ _ E Hin). cbn [orb]. destruct (it_tok x); [|reflexivity].
  apply String.eqb_neq in Ha. rewrite String.eqb_sym in Ha. rewrite Ha. cbn [orb]. now rewrite andb_false_r.
Qed.

(** Symbolic execution. *)
Ltac decide_test c :=
  let v := eval vm_compute in c in
  match v with true => change c with true | false => change c with false end.
Ltac tests := repeat match goal with
  | H : ?c = _ |- context [?c] => match type of c with bool => rewrite H end
  | |- context [kw (mkItem ?a (Some (mkTok KKeyword ?s ?b ?q)) ?c ?d) ?k] => match goal with H : upper s = _ |- _ =>
      rewrite (kw_word (mkItem a (Some (mkTok KKeyword s b q)) c d) _ k _ eq_refl eq_refl H) end;
      match goal with |- context [String.eqb ?u ?v] => decide_test (String.eqb u v) end
  | |- context [kws (mkItem ?a (Some (mkTok KKeyword ?s ?b ?q)) ?c ?d) ?k] => rewrite kws_unfold; cbn [existsb]
  | |- context [tk ?x ?k] => decide_test (tk x k)
  | |- context [kw ?x ?k] => decide_test (kw x k)
  | |- context [tks ?x ?k] => decide_test (tks x k)
  | |- context [kws ?x ?k] => decide_test (kws x k)
  | |- context [exhausted ?x] => decide_test (exhausted x)
  | |- context [no_tok ?x] => decide_test (no_tok x)
  end.
Ltac sx1 := first
  [ rewrite run_bind | rewrite run_Cur | rewrite run_Ret | rewrite run_Consume | rewrite run_Call | rewrite run_Attempt | rewrite run_Loop
  | progress tests
  | progress cbn [andThen bind here rest memo advance it_tok it_id it_eof it_err negb andb orb t_kind t_str t_base t_quote
      cur_item pos_ end_ cur_str cur_to_string skip ipos iend orM anyM]
  | progress unfold keywordIsSelectItemIdentifier, cur_item, pos_, end_, cur_str, cur_to_string, skip, tryTkb, tryKw, tryKws, expTk, expKw, orM ].
Ltac sx := repeat sx1.

Lemma atom_run f x nx rst m t : it_tok x = Some t -> atom t -> it_err nx = None ->
  tk nx "(" = false -> tk nx "[" = false -> tk nx "." = false ->
  run body (S f) (parseUnaryExpr (PStart (it_id x))) (mkP x (nx :: rst) m) = ROk (atom_tree (it_id x) t) (mkP nx rst m).
Proof.
  intros Ht Ha He H1 H2 H3. destruct x as [id tx eof ex]. cbn [it_tok it_id] in *. subst tx. destruct t as [k str b q]. unfold atom in Ha. cbn [t_kind In] in Ha.
  destruct Ha as [<-|[<-|[<-|[<-|[]]]]].
  - unfold parseUnaryExpr. sx. unfold parseColumnExpr. sx. unfold parseIdentOrFunction. sx. unfold parseIdent. sx. reflexivity.
  - unfold parseUnaryExpr. sx. unfold parseColumnExpr. sx. unfold parseNumber. sx. reflexivity. 
  - unfold parseUnaryExpr. sx. unfold parseColumnExpr. sx. unfold parseNumber. sx. reflexivity. 
  - unfold parseUnaryExpr. sx. unfold parseColumnExpr. sx. unfold parseString. sx. reflexivity. 
Qed.

(** The operators of a chain. *)
Lemma prec_run f op n id t e rst m : op_token op t -> op_level op = Some n ->
  run body (S f) getNextPrecedence (mkP (mkItem id (Some t) e None) rst m) = ROk n (mkP (mkItem id (Some t) e None) rst m).
Proof.
  intros [(Hin & Hk & Hs)|(Hin & Hk & Hs)] Hn; destruct t as [k str b q]; cbn [t_kind t_str] in *; subst k; [subst str|].
  - cbn [In] in Hin. 
    repeat (destruct Hin as [<-|Hin]; [vm_compute in Hn; injection Hn as <-; unfold getNextPrecedence; sx; reflexivity|]). destruct Hin.
  - cbn [In] in Hin. 
    repeat (destruct Hin as [<-|Hin]; [vm_compute in Hn; injection Hn as <-; unfold getNextPrecedence; sx; reflexivity|]). destruct Hin.
Qed.

(** An item after which an operand of level [n] ends: the end of the input, or an operator that binds no
    stronger. *)
Definition ends_at (n : nat) (nx : item) : Prop :=
  (it_tok nx = None /\ it_eof nx = true /\ it_err nx = None) \/
  (exists op t m, it_tok nx = Some t /\ it_err nx = None /\ op_token op t /\ op_level op = Some m /\ m <= n).

Lemma op_not op t nx k : op_token op t -> it_tok nx = Some t -> In k ["("; "["; "."; ","] -> tk nx k = false.
Proof.
  intros Ho Ht Hk. unfold tk, tks, cur_kind. rewrite Ht. destruct Ho as [(Hin & E & _)|(_ & E & _)]; rewrite E.
  - cbn [In] in Hk, Hin. repeat (destruct Hk as [<-|Hk]; [repeat (destruct Hin as [<-|Hin]; [reflexivity|]); destruct Hin|]). destruct Hk.
  - cbn [In] in Hk. repeat (destruct Hk as [<-|Hk]; [reflexivity|]). destruct Hk.
Qed.

Lemma ends_not n nx k : ends_at n nx -> In k ["("; "["; "."; ","] -> tk nx k = false.
Proof.
  intros [(Ht & _ & _)|(op & t & m & Ht & _ & Ho & _)] Hk; [|now apply (op_not op t)].
  unfold tk, tks, cur_kind. rewrite Ht. cbn [In] in Hk. repeat (destruct Hk as [<-|Hk]; [reflexivity|]). destruct Hk.
Qed.

Lemma loop_stop f n e nx rst m : ends_at n nx ->
  run body (S f) (parseInfixLoop e n) (mkP nx rst m) = ROk e (mkP nx rst m).
Proof.
  intros [(Ht & He & Hr)|(op & t & k & Ht & Hr & Ho & Hl & Hk)]; unfold parseInfixLoop, loop; rewrite run_Loop, iter_S; unfold cur_item.
  - sx. unfold exhausted, no_tok. rewrite Ht, He. cbn [andb]. sx. reflexivity.
  - sx. unfold exhausted, no_tok. rewrite Ht. rewrite andb_false_r. destruct nx as [id tx ef er]. cbn [it_tok it_err] in *. subst tx er.
    rewrite run_bind, (prec_run f op k); [|assumption..]. cbn [andThen]. apply Nat.leb_le in Hk. rewrite Hk. sx. reflexivity.
Qed.

Lemma sub_run f n x nx rst m t : it_tok x = Some t -> atom t -> it_err nx = None -> ends_at n nx ->
  run body (S (S f)) (parseSubExpr (PStart (it_id x)) n) (mkP x (nx :: rst) m) = ROk (atom_tree (it_id x) t) (mkP nx rst m).
Proof.
  intros Ht Ha He Hn. unfold parseSubExpr. rewrite run_Call. cbn [body]. unfold body_SubExpr. rewrite run_bind.
  rewrite (atom_run f x nx rst m t Ht Ha He); [|eapply ends_not; [eassumption | cbn; tauto]..]. cbn [andThen].
  rewrite loop_stop by assumption. cbn [andThen]. apply run_Ret.
Qed.

#[local] Opaque parseSubExpr.
Ltac subrun Hs := match type of Hs with run body _ ?p ?s = _ => 
  match goal with |- context [run body ?f (parseSubExpr ?a ?n) s] => change (run body f (parseSubExpr a n) s) with (run body f p s) end end;
  rewrite Hs; cbn [andThen]; rewrite run_Ret; try reflexivity.
Lemma infix_run f op n e id o t nx rst m i' ef ef' : op_token op o -> op_level op = Some n -> atom t -> (op = "::" -> t_str t <> "Tuple") ->
  it_err nx = None -> ends_at n nx ->
  run body (S (S f)) (parseInfix e n) (mkP (mkItem id (Some o) ef None) (mkItem i' (Some t) ef' None :: nx :: rst) m)
    = ROk (EBinaryOperation e op (atom_tree i' t) false false) (mkP nx rst m).
Proof.
  intros Ho Hl Ha Ht He Hn.
  pose proof (sub_run f n (mkItem i' (Some t) ef' None) nx rst m t eq_refl Ha He Hn) as Hs. cbn [it_id] in Hs.
  destruct (String.eqb_spec op "::") as [->|Hop].
  - destruct Ho as [(_ & Hk & E)|([E|[E|[E|[E|[E|[E|[]]]]]]] & _)]; try discriminate. destruct o as [k str b q]; cbn [t_kind t_str] in *; subst k str.
    vm_compute in Hl; injection Hl as <-; unfold parseInfix, parseSubExprHere; sx.
    specialize (Ht eq_refl). apply String.eqb_neq in Ht. unfold cur_string. cbn [it_tok]. rewrite Ht, andb_false_r. sx. subrun Hs.
  - assert (Hm : tks (mkItem id (Some o) ef None) ["="; "<"; "<="; ">="; ">"; "!="; "<>"; "-"; "+"; "*"; "/"; "%"; "||"; "=="]
       || kws (mkItem id (Some o) ef None) ["IN"; "LIKE"; "ILIKE"; "REGEXP"; "AND"; "OR"] = true /\ tok_to_string o = op).
    { clear Hs. destruct Ho as [(Hin & Hk & E)|(Hin & Hk & E)]; destruct o as [k str b q]; cbn [t_kind t_str] in *; subst k; [subst str|]; cbn [In] in Hin.
      - do 14 (destruct Hin as [<-|Hin]; [split; reflexivity|]). destruct Hin as [<-|[]]. now destruct Hop.
      - repeat (destruct Hin as [<-|Hin]; [split; [tests; reflexivity | unfold tok_to_string; cbn [t_kind t_str]; rewrite E; reflexivity]|]). destruct Hin. }
    destruct Hm as [Hm Hstr]. unfold parseInfix, cur_item. rewrite run_bind, run_Cur, run_Ret. cbn [andThen here]. rewrite Hm.
    unfold parseSubExprHere. sx. rewrite Hstr. subrun Hs.
Qed.
