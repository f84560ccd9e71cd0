(** Proofs for C42: what the formatter writes is found in the text. *)
From Coq Require Import String Ascii List Arith Bool Lia.
From Verif Require Import Str StrFacts Keyword Ast AstPos AstSubs Prog LayoutSpec WalkSpec FormatSpec WriteSpec WriteLogic Format FormatFacts FormatSafe KeepSpec Words FormatKeep.
Import ListNotations.
Local Open Scope string_scope.
Local Open Scope list_scope.
Local Open Scope nat_scope.

Section Calls.
  Variable (w : string).
  Hypothesis (Hw : KeepSpec.plain w).
  Notation T := (tally w).
  Notation S' := (fun l => tally w (flat_map stexts l)).

  (** ** The calls of the formatter *)

  Lemma found_le n m t : found m w t -> n <= m -> found n w t.
  Proof. intros (ps & E & H) Hn. exists ps. split; [exact E|lia]. Qed.
  Lemma found_app n m a b : found n w a -> found m w b -> found (n + m) w (a ++ b)%string.
  Proof. intros (ps & -> & Hp) (qs & -> & Hq). exists (ps ++ qs). split; [now rewrite concat_app|]. rewrite count_occ_app. lia. Qed.
  Lemma found_zero t : found 0 w t.
  Proof. exists [t]. split; [reflexivity|lia]. Qed.

  Inductive spe : list ev -> list ev -> Prop :=
  | spe_nil : spe [] []
  | spe_cons x r r' : spe r r' -> spe (x :: r) (x :: r')
  | spe_split s ps r r' : s = String.concat "" ps -> spe r r' -> spe (W s :: r) (map W ps ++ r').
  Lemma spe_app a a' b b' : spe a a' -> spe b b' -> spe (a ++ b) (a' ++ b').
  Proof.
    intros Ha Hb. induction Ha as [|x r r' Hr IH|s ps r r' Hs Hr IH]; [exact Hb|cbn; now constructor|]. cbn [app]. rewrite <- app_assoc. now constructor.
  Qed.
  Lemma spe_refl l : spe l l.
  Proof. induction l; now constructor. Qed.
  Lemma spe_one s ps : s = String.concat "" ps -> spe [W s] (map W ps).
  Proof. intros H. rewrite <- (app_nil_r (map W ps)). constructor; [exact H|constructor]. Qed.

  Definition written (x : ev) : list string := match x with W s => [s] | _ => [] end.
  Definition text1 (x : ev) : string := match x with W s => s | Brk => " " | _ => "" end%string.
  Definition count (l : list ev) : nat := count_occ string_dec (flat_map written l) w.
  Definition gets (l : list ev) (n : nat) : Prop := exists l', spe l l' /\ n <= count l'.

  Lemma count_app a b : count (a ++ b) = count a + count b.
  Proof. unfold count. now rewrite flat_map_app, count_occ_app. Qed.
  Lemma count_map ps : count (map W ps) = count_occ string_dec ps w.
  Proof. unfold count. f_equal. induction ps as [|x ps IH]; [reflexivity|]. cbn. now rewrite IH. Qed.
  Lemma gets_app a b n m : gets a n -> gets b m -> gets (a ++ b) (n + m).
  Proof. intros (a' & Ha & Hn) (b' & Hb & Hm). exists (a' ++ b'). split; [now apply spe_app|]. rewrite count_app. lia. Qed.
  Lemma gets_zero l : gets l 0.
  Proof. exists l. split; [apply spe_refl|lia]. Qed.
  Lemma gets_le l n m : gets l m -> n <= m -> gets l n.
  Proof. intros (l' & H & Hm) Hn. exists l'. split; [exact H|lia]. Qed.
  Lemma gets_pieces ps : exists qs, String.concat "" ps = String.concat "" qs /\ T ps <= count_occ string_dec qs w.
  Proof.
    induction ps as [|x ps (qs & E & H)]; [exists []; split; [reflexivity|cbn; lia]|].
    assert (G : exists rs, x = String.concat "" rs /\ T [x] <= count_occ string_dec rs w).
    { unfold tally. cbn [map]. destruct x as [|c r]; [exists [""]; split; [reflexivity|cbn [undot]; lia]|]. cbn [undot]. destruct (Ascii.eqb c "."); [|exists [String c r]; split; [reflexivity|lia]].
      exists [String c ""; r]. split; [reflexivity|]. change [String c ""; r] with ([String c ""] ++ [r]). rewrite count_occ_app. lia. }
    destruct G as (rs & -> & G). exists (rs ++ qs). split; [now rewrite concat_cons, E, concat_app|]. change (String.concat "" rs :: ps) with ([String.concat "" rs] ++ ps). rewrite T_app, count_occ_app. lia.
  Qed.
  Lemma gets_write ps : gets [W (String.concat "" ps)] (T ps).
  Proof. destruct (gets_pieces ps) as (qs & E & H). exists (map W qs). split; [now apply spe_one|]. rewrite count_map. lia. Qed.
  Lemma plain_concat l : FormatFacts.plain l = String.concat "" (map text1 l).
  Proof. induction l as [|x l IH]; [reflexivity|]. cbn [map]. rewrite concat_cons, <- IH. now destruct x. Qed.
  Lemma plain_spe l l' : spe l l' -> FormatFacts.plain l = FormatFacts.plain l'.
  Proof.
    induction 1 as [|x r r' Hr IH|s ps r r' Hs Hr IH]; [reflexivity|destruct x; cbn [FormatFacts.plain]; now rewrite IH|]. cbn [FormatFacts.plain]. rewrite plain_app, <- IH. f_equal. rewrite plain_concat, map_map. cbn [text1]. now rewrite map_id.
  Qed.
  Lemma count_text l : count l <= count_occ string_dec (map text1 l) w.
  Proof.
    induction l as [|x l IH]; [cbn; lia|]. change (x :: l) with ([x] ++ l). rewrite count_app, map_app, count_occ_app. assert (count [x] <= count_occ string_dec (map text1 [x]) w); [|lia]. destruct x; [apply Nat.le_refl|apply Nat.le_0_l..].
  Qed.
  Lemma gets_found l n : gets l n -> found n w (FormatFacts.plain l).
  Proof. intros (l' & H & Hn). exists (map text1 l'). split; [rewrite (plain_spe _ _ H); apply plain_concat|]. pose proof (count_text l'). lia. Qed.
  Lemma gets_compact l n : gets l n -> gets (compact_text l) n.
  Proof.
    intros (l' & H & Hn). unfold compact_text. change n with (0 + n). apply gets_app; [apply gets_zero|]. rewrite render_compact, (plain_spe _ _ H), plain_concat.
    exists (map W (map text1 l')). split; [now apply spe_one|]. rewrite count_map. pose proof (count_text l'). lia.
  Qed.

  Lemma steps_gets b l l' t : sp l l' -> calls b l t ->
    (forall x c b' u, In x l -> step_node x c -> is_nil c = false -> fmt b' c = FOk u -> gets u (T (own c))) -> gets t (S' l').
  Proof.
    intros Hsp. revert t. induction Hsp as [|x r r' Hr IH|s ps r r' Hs Hr IH]; intros t Hc H; [apply gets_zero| |]; inversion Hc as [|? ? t1 u H1 H2]; subst;
      specialize (IH u H2 (fun x c b' v Hx => H x c b' v (or_intror Hx))).
    - cbn [flat_map]. rewrite T_app. apply gets_app; [|exact IH]. clear IH H2.
      destruct x; cbn [run_step stexts] in *; try discriminate H1; try (injection H1 as <-); try apply gets_zero.
      + change s with (String.concat "" [s]) at 1. apply gets_write.
      + destruct (is_nil e) eqn:E; [|apply (H (Format.SExpr e) e b); [now left|now left|exact E|exact H1]]. rewrite (nil_eq _ E). apply gets_zero.
      + destruct (is_nil e) eqn:E; [discriminate H1|]. apply (H (SPtr e) e b); [now left|right; now left|exact E|exact H1].
      + destruct (is_nil e) eqn:E; [discriminate H1|]. destruct (fmt false e) as [v| |] eqn:Ev; try discriminate H1. injection H1 as <-.
        apply gets_compact, (H (SCompact e) e false); [now left|right; now right|exact E|exact Ev].
    - rewrite S_app, S_map, T_app. apply gets_app; [|exact IH]. cbn [run_step] in H1. injection H1 as <-. apply gets_write.
  Qed.

  Lemma fmt_gets b e l : fmt b e = FOk l -> All tells e -> All kinds e -> (forall c, node_of e c -> forgotten c = false) -> gets l (T (own e)).
  Proof.
    revert b e l. apply (fmt_induction (fun b e l => All tells e -> All kinds e -> (forall c, node_of e c -> forgotten c = false) -> gets l (T (own e)))).
    intros b e IH l Hl Ht Hk Hf. destruct (steps_keep w Hw b e) as (l' & Hsp & Hle).
    - exact Ht.
    - now apply All_inv in Hk.
    - apply Hf. constructor.
    - intros E. rewrite E in Hl. discriminate Hl.
    - eapply gets_le; [|exact Hle]. apply run_calls in Hl. eapply steps_gets; [exact Hsp|exact Hl|]. intros x c b' u Hx Hn Hni Hu. pose proof (step_below b e x c Hx Hn Hni) as Hb.
      assert (Hn' : forall y, node_of c y -> node_of e y) by (intros y; apply node_trans; now apply below_node).
      apply (IH c b' u Hb Hni Hu); [| |auto]; apply All_nodes; intros y Hy; [apply (proj1 (All_nodes tells e) Ht)|apply (proj1 (All_nodes kinds e) Hk)]; auto.
  Qed.

  (** ** Indented text *)

  Lemma write_app b ind x y s : write_string b ind (x ++ y)%string s = (let (t, s1) := write_string b ind x s in let (u, s2) := write_string b ind y s1 in (t ++ u, s2)%string).
  Proof.
    revert s. induction x as [|c x IH]; intros s; [cbn [String.append write_string]; now destruct (write_string b ind y s)|]. cbn [String.append write_string]. destruct (write_byte b ind c s) as [t s1]. rewrite IH.
    destruct (write_string b ind x s1) as [u s2]. destruct (write_string b ind y s2) as [v s3]. now rewrite sapp_assoc.
  Qed.
  Lemma play_app b ind l1 l2 s : play b ind (l1 ++ l2) s = (let (t, s1) := play b ind l1 s in let (u, s2) := play b ind l2 s1 in (t ++ u, s2)%string).
  Proof.
    revert s. induction l1 as [|x l1 IH]; intros s; [cbn [app play]; now destruct (play b ind l2 s)|]. cbn [app play]. destruct (play1 b ind x s) as [t s1]. rewrite IH.
    destruct (play b ind l1 s1) as [u s2]. destruct (play b ind l2 s2) as [v s3]. now rewrite sapp_assoc.
  Qed.
  Lemma play_pieces b ind ps s : play b ind (map W ps) s = write_string b ind (String.concat "" ps) s.
  Proof.
    revert s. induction ps as [|x ps IH]; intros s; [reflexivity|]. rewrite concat_cons, write_app. cbn [map play play1]. destruct (write_string b ind x s) as [t s1]. now rewrite IH.
  Qed.
  Lemma play_spe b ind l l' : spe l l' -> forall s, play b ind l s = play b ind l' s.
  Proof.
    induction 1 as [|x r r' Hr IH|t ps r r' Hs Hr IH]; intros s; [reflexivity| |].
    - cbn [play]. destruct (play1 b ind x s). now rewrite IH.
    - rewrite play_app, play_pieces, <- Hs. cbn [play play1]. destruct (write_string b ind t s). now rewrite IH.
  Qed.
  Lemma write_line b ind t s : FormatSpec.one_line t = true -> exists i s1, write_string b ind t s = ((i ++ t)%string, s1).
  Proof.
    destruct b; [|intros _; exists ""%string, s; now rewrite write_string_compact].
    assert (N : forall t s, FormatSpec.one_line t = true -> line_start s = false -> write_string true ind t s = (t, s)).
    { clear. induction t as [|c t IH]; intros s Ht Hs; [reflexivity|]. cbn [FormatSpec.one_line] in Ht. apply andb_true_iff in Ht. destruct Ht as [Hc Ht]. apply negb_true_iff in Hc. unfold FormatSpec.newline in Hc.
      cbn [write_string write_byte]. rewrite Hc. unfold write_indent. rewrite Hs. rewrite (IH s Ht Hs). reflexivity. }
    destruct t as [|c t]; [exists ""%string, s; reflexivity|]. intros Ht. cbn [FormatSpec.one_line] in Ht. apply andb_true_iff in Ht. destruct Ht as [Hc Ht]. apply negb_true_iff in Hc. unfold FormatSpec.newline in Hc.
    cbn [write_string write_byte]. rewrite Hc. destruct (write_indent ind s) as [i s1] eqn:E. assert (line_start s1 = false) as L by (unfold write_indent in E; destruct (line_start s) eqn:Ls; injection E as <- <-; [reflexivity|exact Ls]).
    rewrite (N t s1 Ht L). exists i, s1. now rewrite sapp_assoc.
  Qed.
  Lemma gets_indented b ind l n s : FormatSpec.one_line w = true -> gets l n -> found n w (fst (play b ind l s)).
  Proof.
    intros Hw1 (l' & H & Hn). rewrite (play_spe _ _ _ _ H). apply (found_le n (count l')); [|exact Hn]. clear H Hn l. revert s. induction l' as [|x l IH]; intros s; [apply found_zero|].
    change (x :: l) with ([x] ++ l). rewrite count_app. cbn [play app]. destruct (play1 b ind x s) as [t s1] eqn:E. specialize (IH s1). destruct (play b ind l s1) as [u s2]. cbn [fst] in *. apply found_app; [|exact IH].
    destruct x; try apply found_zero. cbn [play1] in E. unfold count. cbn [flat_map written app count_occ]. destruct (string_dec s0 w) as [-> |]; [|apply found_zero].
    destruct (write_line b ind w s Hw1) as (i & s3 & E'). rewrite E in E'. injection E' as -> _. exists [i; w]. split; [reflexivity|]. cbn [count_occ]. destruct (string_dec i w), (string_dec w w); lia || congruence.
  Qed.
End Calls.

Lemma format_found w e t : KeepSpec.plain w -> ok e -> All kinds e -> (forall c, node_of e c -> forgotten c = false) -> Format e = FOk t -> found (tally w (texts e)) w t.
Proof.
  intros Hw [Ht Hs] Hk Hf E. unfold Format in E. destruct (is_nil e) eqn:N; [rewrite (nil_eq _ N); apply found_zero|].
  destruct (fmt false e) as [l| |] eqn:El; try discriminate E. injection E as <-. rewrite render_compact, <- (own_single e Hs). apply gets_found. now apply (fmt_gets w Hw false).
Qed.
Lemma beautify_found ind w e t : KeepSpec.plain w -> FormatSpec.one_line w = true -> ok e -> All kinds e -> (forall c, node_of e c -> forgotten c = false) -> Beautify ind e = FOk t -> found (tally w (texts e)) w t.
Proof.
  intros Hw H1 [Ht Hs] Hk Hf E. unfold Beautify in E. destruct (is_nil e) eqn:N; [rewrite (nil_eq _ N); apply found_zero|].
  destruct (fmt true e) as [l| |] eqn:El; try discriminate E. injection E as <-. rewrite <- (own_single e Hs). apply gets_indented; [exact H1|]. now apply (fmt_gets w Hw true).
Qed.

Lemma texts_found w l xs : Forall2 (fun t x => found (tally w (Words.texts t)) w x) l xs -> found (tally w (flat_map Words.texts l)) w (String.concat "" xs).
Proof.
  induction 1 as [|t x l xs H G IH]; [exists []; split; [reflexivity|cbn; lia]|]. cbn [flat_map]. rewrite T_app, concat_cons. now apply found_app.
Qed.

(** A word that is not found even once. *)
Fixpoint prefixed (w t : string) : bool :=
  match w, t with "", _ => true | String a w', String b t' => Ascii.eqb a b && prefixed w' t' | _, "" => false end%string.
Fixpoint inside (w t : string) : bool := prefixed w t || match t with "" => false | String _ r => inside w r end%string.
Lemma prefixed_app w q : prefixed w (w ++ q) = true.
Proof. induction w as [|c w IH]; [now destruct q|]. cbn. now rewrite Ascii.eqb_refl. Qed.
Lemma inside_app w p q : inside w (p ++ w ++ q) = true.
Proof. induction p as [|c p IH]; [cbn [String.append]; pose proof (prefixed_app w q) as H; destruct (w ++ q)%string; cbn [inside]; now rewrite H|]. cbn [String.append inside]. rewrite IH. apply orb_true_r. Qed.
Lemma found_inside n w t : found (S n) w t -> inside w t = true.
Proof.
  intros (ps & -> & H). assert (In w ps) as Hi by (apply (count_occ_In string_dec); lia). apply in_split in Hi. destruct Hi as (a & b & ->). rewrite concat_app, concat_cons. apply inside_app.
Qed.
Lemma not_found n w t : inside w t = false -> 0 < n -> ~ found n w t.
Proof. intros H Hn F. destruct n; [lia|]. apply found_inside in F. congruence. Qed.
