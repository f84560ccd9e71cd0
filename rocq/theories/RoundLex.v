(** The text of a canonical query is a source for its tokens. *)
From Coq Require Import String Ascii List Arith Bool Lia.
From Verif Require Import Str StrFacts Keyword Lexer LexSpec LexFacts LexGrammar LexTokens Ast Prog PrecSpec LayoutSpec RoundSpec RoundText.
Import ListNotations.
Local Open Scope string_scope.
Local Open Scope list_scope.
Local Open Scope nat_scope.

(** Marks that may come right after an operand, and marks that may come right before one. *)
Definition closers : list string := ["("; ")"; "["; "]"; ","; "."; "::"; "="; ";"].
Definition closer (t : tok) : bool := existsb (fun w => String.eqb (t_kind t) w && String.eqb (t_str t) w && (t_base t =? 0) && (t_quote t =? QNone)) closers.
Definition solid (t : tok) : bool := str_in (t_kind t) [KIdent; KKeyword; KInt; KFloat; KString; "*"; "("; ")"; "["; "]"].
Definition lit (t : tok) : bool := str_in (t_kind t) [KInt; KFloat; KString].
Definition adj (t u : tok) : bool :=
  str_in (t_kind t) ["("; "["; ","; "."; "::"] || solid t && closer u || String.eqb (t_kind t) "=" && lit u.

(** Tokens that are lexemes. *)
Definition marks : list string := ["("; ")"; "["; "]"; ","; "."; "="; "*"; "<"; ">"; "+"; "-"; "/"; "%"; "?"; ":"; ";"].
Definition pairs : list string := ["=="; "!="; "<>"; "<="; ">="; "||"; "->"; "::"].
Inductive valid : tok -> Prop :=
| V_number : forall s b f, number s b f -> valid (mkTok (if f then KFloat else KInt) s b QNone)
| V_string : forall s, str_text s -> valid (mkTok KString s 0 QNone)
| V_back : forall s, free_of "`" s -> valid (mkTok KIdent s 0 QBackTicks)
| V_double : forall s, free_of (ch 34) s -> valid (mkTok KIdent s 0 QDouble)
| V_word : forall w, word w -> valid (word_tok w)
| V_mark : forall w, In w marks -> valid (O w)
| V_pair : forall w, In w pairs -> valid (O w).

(** The symbols are lexemes, those without a blank between them may be written so, and the last is no blank. *)
Fixpoint chk (l : list sym) : Prop :=
  match l with
  | [] => True
  | Sp :: r => r <> [] /\ chk r
  | T t :: r => valid t /\ match r with T u :: _ => adj t u = true | _ => True end /\ chk r
  end.

Definition next (r : list sym) : Prop := match r with T u :: _ => closer u = true | _ => True end.

(** ** From symbols to a source *)

Lemma closer_eq u : closer u = true -> exists w, In w closers /\ u = O w.
Proof.
  intros H. apply existsb_exists in H as (w & Hw & H). rewrite !andb_true_iff in H. destruct H as [[[Hk Hs] Hb] Hq].
  apply String.eqb_eq in Hk, Hs. apply Nat.eqb_eq in Hb, Hq. destruct u as [k s b q]. cbn [t_kind t_str t_quote t_base] in *. subst. eauto.
Qed.
Lemma closer_text u r : closer u = true -> exists c s, text (T u :: r) = String c s /\ In c ["("; ")"; "["; "]"; ","; "."; ":"; "="; ";"]%char /\ (c = "."%char -> u = O ".").
Proof.
  intros H. apply closer_eq in H as (w & Hw & ->). rewrite text_T.
  repeat (destruct Hw as [<-|Hw]; [cbn; eexists; eexists; split; [reflexivity|]; split; [tauto|]; try discriminate; reflexivity|]). destruct Hw.
Qed.

(** What comes after a token that is not glued to the next. *)
Lemma next_text r : next r -> text r = "" \/ exists c s, text r = String c s /\ In c [" "; "("; ")"; "["; "]"; ","; "."; ":"; "="; ";"]%char.
Proof.
  destruct r as [|[u|] r]; intros H; [now left|right|right].
  - destruct (closer_text u r H) as (c & s & E & Hc & _). exists c, s. split; [exact E|now right].
  - exists " "%char, (text r). split; [reflexivity|now left].
Qed.
Lemma next_word r : next r -> word_end (text r).
Proof. intros H. destruct (next_text r H) as [->|(c & s & -> & Hc)]; [exact I|]. repeat (destruct Hc as [<-|Hc]; [reflexivity|]). destruct Hc. Qed.
Lemma next_string r : next r -> ~ starts_with "'" (text r).
Proof. intros H [x E]. destruct (next_text r H) as [E'|(c & s & E' & Hc)]; rewrite E' in E; [discriminate|]. injection E as -> ->. repeat (destruct Hc as [Hc|Hc]; [discriminate|]). destruct Hc. Qed.

Lemma next_number r : next r -> (forall r', r <> T (O ".") :: r') -> number_end (text r).
Proof.
  intros H Hd. destruct r as [|[u|] r]; [exact I| |split; [reflexivity|discriminate]]. cbn [next] in H.
  destruct (closer_text u r H) as (c & s & -> & Hc & Hu). assert (c <> "."%char) by (intros ->; now apply (Hd r), f_equal2; [rewrite Hu|]).
  repeat (destruct Hc as [<-|Hc]; [split; [reflexivity|assumption]|]). destruct Hc.
Qed.
Lemma solid_next t r : str_in (t_kind t) ["("; "["; ","; "."; "::"; "="] = false -> match r with T u :: _ => adj t u = true | _ => True end -> next r.
Proof.
  intros H. destruct r as [|[u|] r]; cbn [next]; auto. unfold adj. intros Ha.
  assert (H1 : str_in (t_kind t) ["("; "["; ","; "."; "::"] = false) by (unfold str_in in *; cbn [existsb] in *; rewrite !orb_false_iff in *; tauto).
  assert (H2 : String.eqb (t_kind t) "=" = false) by (unfold str_in in *; cbn [existsb] in *; rewrite !orb_false_iff in *; tauto).
  rewrite H1, H2 in Ha. cbn [orb andb] in Ha. rewrite orb_false_r in Ha. now apply andb_true_iff in Ha as [_ Ha].
Qed.
Lemma number_head n b f : number n b f -> exists c r, n = String c r /\ (is_digit c = true \/ c = "+"%char \/ c = "-"%char).
Proof.
  assert (Hr : forall p s, run1 p s -> exists c r, s = String c r /\ p c = true).
  { intros p [|c r] [H1 H2]; [congruence|]. cbn [sall] in H2. apply andb_true_iff in H2 as [H2 _]. eauto. }
  assert (Hm : forall m f, mantissa m f -> exists c r, m = String c r /\ is_digit c = true).
  { intros m f0 [ds H|ds fs H _]; destruct (Hr _ _ H) as (c & r & -> & Hc); cbn [append]; eauto. }
  intros [sg hs Hs Hh|sg m f0 Hs Hh|sg m f0 x Hs Hh Hx]; [destruct Hs; cbn [append]; eexists; eexists; (split; [reflexivity|]); auto|..].
  - destruct (Hm _ _ Hh) as (c & r & -> & Hc). destruct Hs; cbn [append]; eexists; eexists; (split; [reflexivity|]); auto.
  - destruct (Hm _ _ Hh) as (c & r & -> & Hc). destruct Hs; cbn [append]; eexists; eexists; (split; [reflexivity|]); auto.
Qed.

Lemma lexeme_ok prev t r : valid t -> match r with T u :: _ => adj t u = true /\ valid u | _ => True end ->
  (In (t_kind t) [KInt; KFloat] -> (head_is is_digit (t_str t) = true \/ ~ operand prev) /\ (forall r', r <> T (O ".") :: r')) ->
  lexeme prev (spell t) t (text r).
Proof.
  intros Hv Hr Hn.
  assert (Hr' : match r with T u :: _ => adj t u = true | _ => True end) by (destruct r as [|[u|] r]; tauto).
  destruct Hv as [s b f H|s H|s H|s H|w H|w H|w H].
  - cbn [t_kind t_str] in Hn. destruct Hn as [H1 H2]; [destruct f; cbn; auto|]. replace (spell _) with s by (destruct f; reflexivity).
    apply L_number; [exact H|apply next_number; [eapply solid_next; [|exact Hr']; destruct f; reflexivity|exact H2]|exact H1].
  - apply L_string; [exact H|]. eapply next_string, solid_next; [|exact Hr']. reflexivity.
  - apply (L_quoted prev "`"%char); auto.
  - apply (L_quoted prev (ch 34)); auto.
  - assert (E : spell (word_tok w) = w) by (unfold spell, word_tok; cbn [t_kind t_quote t_str]; now destruct (is_keyword (upper w))). rewrite E.
    apply L_word; [exact H|]. eapply next_word, solid_next; [|exact Hr']. unfold word_tok. cbn [t_kind]. now destruct (is_keyword (upper w)).
  - assert (Hc : exists c, w = String c "") by (repeat (destruct H as [<-|H]; [eauto|]); destruct H). destruct Hc as (c & ->).
    assert (E : spell (O (String c "")) = String c "") by (repeat (destruct H as [H|H]; [injection H as <-; reflexivity|]); destruct H). rewrite E.
    assert (Hu : (c = "="%char -> ~ starts_with "=" (text r)) /\ (In c ["<"; ">"; "+"; "-"; "/"; "%"; "?"; ":"]%char -> text r = "" \/ exists s, text r = String " " s)).
    { split.
      - intros -> [x Ex]. destruct r as [|[u|] r]; [discriminate Ex| |discriminate Ex]. destruct Hr as [Ha Hu]. unfold adj in Ha. cbn in Ha.
        inversion Hu; subst; try discriminate Ha.
        + rewrite text_T in Ex. replace (spell _) with s in Ex by (destruct f; reflexivity). destruct (number_head _ _ _ H0) as (c & s' & -> & [Hd|[-> | ->]]); cbn [append] in Ex; try discriminate Ex.
          injection Ex as -> _. discriminate Hd.
        + discriminate Ex.
        + unfold word_tok in Ha. cbn [t_kind] in Ha. destruct (is_keyword (upper w)); discriminate Ha.
        + repeat (destruct H0 as [<-|H0]; [discriminate Ha|]). destruct H0.
        + repeat (destruct H0 as [<-|H0]; [discriminate Ha|]). destruct H0.
      - intros Hc. destruct r as [|[u|] r]; [now left| |right; eexists; reflexivity]. exfalso. destruct Hr as [Ha _]. unfold adj, solid in Ha.
        repeat (destruct Hc as [<-|Hc]; [cbn in Ha; discriminate Ha|]). destruct Hc. }
    destruct Hu as [He Hs]. apply L_one.
    + repeat (destruct H as [H|H]; [injection H as <-; repeat split; (cbv; lia) || reflexivity || (intros HH; repeat (destruct HH as [HH|HH]; [discriminate HH|]); destruct HH)|]). destruct H.
    + assert (Hm : In c ["("; ")"; "["; "]"; ","; "."; "*"; ";"]%char \/ c = "="%char \/ In c ["<"; ">"; "+"; "-"; "/"; "%"; "?"; ":"]%char)
        by (repeat (destruct H as [H|H]; [injection H as <-; cbn; tauto|]); destruct H).
      intros Hin. destruct Hm as [Hm|[->|Hm]].
      * repeat (destruct Hm as [<-|Hm]; [repeat (destruct Hin as [Hin|Hin]; [discriminate Hin|]); destruct Hin|]). destruct Hm.
      * destruct (text r) as [|d x]; repeat (destruct Hin as [Hin|Hin]; [try discriminate Hin|]); try contradiction Hin. injection Hin as <-. apply (He eq_refl). now exists x.
      * destruct (Hs Hm) as [Et|[x Et]]; rewrite Et in Hin; repeat (destruct Hin as [Hin|Hin]; [discriminate Hin|]); destruct Hin.
    + intros -> [x Ex]. destruct (Hs ltac:(cbn; tauto)) as [E1|[y E1]]; rewrite E1 in Ex; discriminate.
    + intros -> [x Ex]. destruct (Hs ltac:(cbn; tauto)) as [E1|[y E1]]; rewrite E1 in Ex; discriminate.
    + intros Hc. right. assert (Hm : In c ["<"; ">"; "+"; "-"; "/"; "%"; "?"; ":"]%char) by (destruct Hc as [-> | ->]; cbn; tauto). destruct (Hs Hm) as [->|[x ->]]; reflexivity.
  - assert (E : spell (O w) = w) by (repeat (destruct H as [<-|H]; [reflexivity|]); destruct H). rewrite E.
    replace (O w) with (mkTok (if String.eqb w "+>" then "->" else w) w 0 QNone) by (repeat (destruct H as [<-|H]; [reflexivity|]); destruct H).
    apply L_two. repeat (destruct H as [<-|H]; [cbn; tauto|]); destruct H.
Qed.

Lemma source_blank prev ts cl s : source prev ts cl s -> ts <> [] -> source prev ts cl (" " ++ s).
Proof. intros [p g Hg|p g w t ts' cl' r Hg Hw Hs] Hn; [congruence|]. apply (S_lexeme p (String " " g)); auto. now apply G_ws1. Qed.

Lemma chk_toks l : chk l -> l <> [] -> toks l <> [].
Proof. induction l as [|[t|] l IH]; intros H Hn; [congruence|discriminate|]. destruct H as [H1 H2]. now apply IH. Qed.

Lemma chk_source l : forall prev, chk l -> fine prev l -> source prev (toks l) true (text l).
Proof.
  induction l as [|[t|] l IH]; intros prev Hc Hf.
  - apply (S_end prev ""). apply E_gap, G_nil.
  - destruct Hc as (Hv & Hr & Hc), Hf as [Hn Hf]. rewrite text_T. apply (S_lexeme prev "" (spell t) t (toks l) true (text l)); [apply G_nil| |now apply IH].
    apply lexeme_ok; [exact Hv| |exact Hn]. destruct l as [|[u|] l]; auto. split; [exact Hr|apply Hc].
  - destruct Hc as [Hn Hc]. apply source_blank; [now apply IH|now apply chk_toks].
Qed.


(** ** Every canonical text is such a list of symbols *)

Definition good (l : list sym) : Prop := forall r, next r -> chk r -> chk (l ++ r).
Definition goodn (l : list sym) : Prop := l <> [] /\ good l.
(** Something that may be missing, and whose first symbol may be glued to an operand. *)
Definition goodo (l : list sym) : Prop := good l /\ forall r, next r -> next (l ++ r).
Definition opens (w : string) (l : list sym) : Prop := exists l', l = T (O w) :: l'.

Definition glued (t : tok) (r : list sym) : Prop := match r with T u :: _ => adj t u = true | _ => True end.
Lemma chk_T t r : valid t -> glued t r -> chk r -> chk (T t :: r).
Proof. intros H1 H2 H3. exact (conj H1 (conj H2 H3)). Qed.
Lemma chk_Sp r : r <> [] -> chk r -> chk (Sp :: r).
Proof. intros H1 H2. exact (conj H1 H2). Qed.
Lemma glued_next t r : solid t = true -> next r -> glued t r.
Proof. intros H Hr. destruct r as [|[u|] r]; try exact I. cbn [next glued] in *. unfold adj. rewrite H, Hr. cbn [andb]. now rewrite orb_true_r. Qed.
Lemma glued_open t r : str_in (t_kind t) ["("; "["; ","; "."; "::"] = true -> glued t r.
Proof. intros H. destruct r as [|[u|] r]; try exact I. cbn [glued]. unfold adj. now rewrite H. Qed.
Lemma glued_eq t u r : t_kind t = "=" -> lit u = true -> glued t (T u :: r).
Proof. intros H Hu. cbn [glued]. unfold adj. rewrite H, Hu, String.eqb_refl. apply orb_true_r. Qed.

Definition tok_ok (t : tok) : Prop := valid t /\ solid t = true.
Lemma any_name_tok e t : any_name e t -> tok_ok t.
Proof.
  intros [w p q H|s p q H|s p q H]; split; try reflexivity; [now apply V_word| |now apply V_back|now apply V_double].
  unfold solid, word_tok. cbn [t_kind]. now destruct (is_keyword (upper w)).
Qed.
Lemma number_tok e t : number_lit e t -> tok_ok t /\ lit t = true.
Proof. intros [s b f p q H]. repeat split; [now apply V_number|destruct f; reflexivity|destruct f; reflexivity]. Qed.
Lemma string_tok e t : string_lit e t -> tok_ok t /\ lit t = true.
Proof. intros [s p q H]. repeat split; [now apply V_string]. Qed.

Definition all_keywords : list string :=
  ["AS"; "DISTINCT"; "CASE"; "WHEN"; "THEN"; "ELSE"; "END"; "AND"; "OR"; "LIKE"; "ILIKE"; "REGEXP"; "IN"; "NOT"; "BETWEEN"; "IS"; "NULL"; "SELECT"; "WITH";
   "UNION"; "ALL"; "EXCEPT"; "INTERSECT"; "FROM"; "FINAL"; "ON"; "USING"; "PREWHERE"; "WHERE"; "GROUP"; "BY"; "HAVING"; "ASC"; "DESC"; "ORDER";
   "LIMIT"; "OFFSET"; "SETTINGS"; "FORMAT"; "JOIN"; "CROSS"; "INNER"; "LEFT"; "RIGHT"; "FULL"; "OUTER"; "ANY"; "ASOF"; "SEMI"; "ANTI";
   "ADD"; "AFTER"; "ALIAS"; "ALTER"; "AST"; "ATTACH"; "CACHE"; "CHECK"; "CLEAR"; "CLUSTER"; "CODEC"; "COLUMN"; "COMMENT"; "COMPILED"; "CREATE"; "DATABASE"; "DATABASES"; "DEDUPLICATE";
   "DEFAULT"; "DELAY"; "DELETE"; "DESCRIBE"; "DETACH"; "DETACHED"; "DICTIONARIES"; "DICTIONARY"; "DNS"; "DROP"; "EMBEDDED"; "ENGINE"; "ESTIMATE"; "EXISTS"; "EXPLAIN"; "EXPRESSION"; "FILESYSTEM";
   "FLUSH"; "FREEZE"; "FUNCTION"; "IF"; "INDEX"; "INSERT"; "INTO"; "KEY"; "LOGS"; "MARK"; "MATERIALIZE"; "MATERIALIZED"; "MODIFY"; "NO"; "OPTIMIZE"; "OUTFILE"; "PARTITION"; "PIPELINE"; "PRIMARY"; "PROJECTION"; "QUERY"; "RELOAD";
   "REMOVE"; "RENAME"; "REPLACE"; "RESET"; "SAMPLE"; "SENDS"; "SET"; "SETTING"; "SHOW"; "SYNC"; "SYNTAX"; "SYSTEM"; "TABLE"; "TABLES"; "TEMPORARY"; "TO"; "TRUNCATE"; "TTL"; "UNCOMPRESSED"; "UPDATE"; "USE"; "UUID"; "VALUES"; "VIEW"; "TYPE"; "DISK"; "VOLUME"; "NAMED"; "COLLECTION"; "OVERRIDABLE"; "POPULATE";
   "GRANT"; "OPTION"; "ADMIN"; "ROLE"; "USER"; "QUOTA"; "POLICY"; "ROWS"; "KILL"; "MOVE"; "REFRESH"; "COLUMNS"].
Definition word_b (w : string) : bool := match w with String c r => is_ident_start c && sall is_ident_part r | "" => false end.
Lemma keyword_valid w : str_in w all_keywords = true -> valid (K w).
Proof.
  intros H. assert (Hw : word_b w && is_keyword (upper w) = true).
  { apply existsb_exists in H as (x & Hx & E). apply String.eqb_eq in E. subst x. revert w Hx. apply forallb_forall. vm_compute. reflexivity. }
  apply andb_true_iff in Hw as [H1 H2]. replace (K w) with (word_tok w) by (unfold word_tok; now rewrite H2). apply V_word.
  destruct w as [|c r]; [discriminate|]. cbn [word_b] in H1. apply andb_true_iff in H1 as [H1 H3]. split; auto.
Qed.
Lemma K_ok w : str_in w all_keywords = true -> tok_ok (K w).
Proof. intros H. split; [now apply keyword_valid|reflexivity]. Qed.

Lemma app_ne {A} (a b : list A) : a <> [] -> a ++ b <> [].
Proof. destruct a; [congruence|discriminate]. Qed.
Lemma app_ne_r {A} (a b : list A) : b <> [] -> a ++ b <> [].
Proof. destruct a; [auto|discriminate]. Qed.
Lemma good_sep ls : Forall goodn ls -> good (sep_by comma ls).
Proof.
  induction 1 as [|l ls [Hn Hl] H IH]; [now intros r _|]. intros r Hr Hc. destruct H as [|m ls Hm H]; [now apply Hl|].
  cbn [sep_by]. rewrite <- !app_assoc. apply Hl; [reflexivity|]. unfold comma. cbn [app]. apply chk_T; [apply V_mark; cbn; tauto|exact I|]. apply chk_Sp; [|now apply IH].
  destruct ls; cbn [sep_by]; rewrite <- ?app_assoc; apply app_ne, Hm.
Qed.
Lemma sep_ne ls : Forall goodn ls -> ls <> [] -> sep_by comma ls <> [].
Proof. intros [|l ls' [Hn _] H] Hne; [congruence|]. destruct ls'; cbn [sep_by]; [exact Hn|now apply app_ne]. Qed.

(** Claims for the sorts. *)
Definition neat (k : sort) (l : list sym) : Prop :=
  match k with
  | Params => goodn l /\ opens "(" l
  | Array => goodn l /\ opens "[" l
  | Else | Join => goodo l
  | Opt (Else | Join | NextQuery | With | Opt _) => True
  | Opt _ => goodo l
  | NextQuery => l = [] \/ goodn l
  | With => l = [] \/ forall r, r <> [] -> chk r -> chk (l ++ r)
  | _ => goodn l
  end.

Lemma sayl_ne k es ls : sayl k es ls -> es <> [] -> ls <> [].
Proof. intros [] Hn; [congruence|discriminate]. Qed.
Ltac ne := first [apply sep_ne; [assumption|eapply sayl_ne; eassumption] | discriminate | assumption | apply app_ne; ne | match goal with H : goodn ?l |- ?l <> [] => apply H end | match goal with H : goodn ?l |- ?l ++ _ <> [] => apply app_ne, H end | apply app_ne_r; ne].
Ltac nx := first [match goal with H : opens _ ?l |- next (?l ++ _) => let x := fresh in let E := fresh in destruct H as [x E]; rewrite E; reflexivity end | exact I | reflexivity | assumption | match goal with H : goodo ?l |- next (?l ++ _) => apply H; nx end].
Ltac vl := first [assumption | apply keyword_valid; reflexivity | apply V_mark; cbn; tauto | apply V_pair; cbn; tauto | match goal with H : tok_ok ?t |- valid ?t => apply H end].
Ltac gl := first [exact I | apply glued_open; reflexivity | apply glued_next; [first [reflexivity | match goal with H : tok_ok ?t |- solid ?t = true => apply H end]|nx]].
Ltac gd1 :=
  match goal with
  | |- chk (Sp :: _) => apply chk_Sp; [ne|]
  | |- chk (T _ :: _) => apply chk_T; [vl|gl|]
  | |- chk (sep_by comma _ ++ _) => apply good_sep; [assumption|nx|]
  | H : goodn ?l |- chk (?l ++ _) => apply H; [nx|]
  | H : goodo ?l |- chk (?l ++ _) => apply H; [nx|]
  | H : good ?l |- chk (?l ++ _) => apply H; [nx|]
  | H : chk ?r |- chk ?r => exact H
  end.
Ltac gd := cbn [app]; repeat rewrite <- app_assoc; cbn [app]; repeat (gd1; cbn [app]; repeat rewrite <- app_assoc; cbn [app]).
Ltac gdn := let r := fresh "r" in split; [ne|intros r Hnx Hch; gd].
Ltac toks_ok := repeat match goal with H : any_name _ _ |- _ => apply any_name_tok in H | H : free_name _ _ |- _ => destruct H as [H _] | H : name _ _ |- _ => destruct H as [H _] | H : number_lit _ _ |- _ => apply number_tok in H as [H ?] | H : string_lit _ _ |- _ => apply string_tok in H as [H ?] | H : star _ |- _ => clear H end.

Lemma names_tok ns ts : Forall2 any_name ns ts -> Forall tok_ok ts.
Proof. induction 1; constructor; [eapply any_name_tok; eassumption|assumption]. Qed.
Lemma query_ne q l : says Query q l -> q <> ENil /\ l <> [].
Proof. intros H. inversion H; subst. split; [discriminate|]. destruct lw; discriminate. Qed.
Lemma neat_set ua ud ex is_ lset nq lnq : set_op ua ud ex is_ lset nq -> says NextQuery nq lnq -> lnq = [] \/ goodn lnq -> goodo (lset ++ lnq).
Proof.
  intros Hs Hn Hg. inversion Hn; subst.
  - rewrite app_nil_r. inversion Hs; subst; try congruence. split; [now intros r|auto].
  - match goal with Hq : says Query _ _ |- _ => destruct (query_ne _ _ Hq) as [Hz1 Hz2] end. destruct Hg as [Hg|Hg]; [congruence|]. destruct Hs; try congruence; (split; [intros r Hnx Hch; gd|intros; exact I]).
Qed.
Lemma neat_path t ts : tok_ok t -> Forall tok_ok ts -> goodn (sep_by [T (O ".")] ([T t] :: map (fun u => [T u]) ts)).
Proof.
  intros Ht H. revert t Ht. induction H as [|u ts Hu H IH]; intros t Ht; cbn [map] in *; [cbn [sep_by]; gdn|].
  specialize (IH u Hu). change (sep_by _ ([T t] :: _)) with ([T t] ++ [T (O ".")] ++ sep_by [T (O ".")] ([T u] :: map (fun u => [T u]) ts)). gdn.
Qed.
Lemma good_whens ls : Forall goodn ls -> goodo (flat_map (cons Sp) ls).
Proof.
  induction 1 as [|l ls Hl H IH]; cbn [flat_map]; [split; [now intros r|auto]|]. split; [|intros; exact I]. intros r Hnx Hch. gd.
Qed.
Lemma words_good ws : In ws join_words -> goodn (words (ws ++ ["JOIN"])).
Proof. intros H. repeat (destruct H as [<-|H]; [unfold words; cbn [map sep_by app]; gdn|]). destruct H. Qed.
Lemma op_valid op : In op (word_ops ++ sign_ops) -> valid (op_tok op).
Proof. intros H. repeat (destruct H as [<-|H]; [first [apply keyword_valid; reflexivity | apply V_mark; cbn; tauto | apply V_pair; cbn; tauto]|]). destruct H. Qed.

Lemma all_neat : (forall k e l, says k e l -> neat k l) /\ (forall k es ls, sayl k es ls -> Forall (neat k) ls).
Proof.
  apply says_mut; cbn [neat]; intros.
  - toks_ok. gdn.
  - toks_ok. gdn.
  - toks_ok. gdn.
  - toks_ok. gdn.
  - apply H.
  - toks_ok. destruct H as [H Ho]. gdn.
  - apply H.
  - toks_ok. destruct H as [H Ho]. gdn.
  - toks_ok. gdn.
  - apply neat_path; [eapply any_name_tok, n0|eapply names_tok; eassumption].
  - toks_ok. gdn.
  - (* CASE *) apply good_whens in H0. gdn.
  - unfold paren. gdn.
  - gdn.
  - split; [now intros r|auto].
  - split; [intros r Hnx Hch; gd|intros; exact I].
  - (* arguments *) split; [|unfold paren, opens; eauto]. unfold paren. destruct d; gdn.
  - split; [|unfold paren, opens; cbn [app]; eauto]. unfold paren. destruct d; gdn.
  - split; [|unfold bracket, opens; eauto]. unfold bracket. gdn.
  - assumption.
  - toks_ok. gdn.
  - (* operators *) assumption.
  - apply op_valid in i. gdn.
  - assert (Ho : valid (K op)) by (destruct i as [<-|[<-|[<-|[]]]]; apply keyword_valid; reflexivity). gdn.
  - gdn.
  - gdn.
  - destruct n; gdn.
  - gdn.
  - gdn.
  - gdn.
  - gdn.
  - assert (Ho : valid (O op)) by (destruct i as [<-|[<-|[]]]; apply V_mark; cbn; tauto). gdn.
  - destruct H0 as [H0 Ho]. gdn.
  - assert (Hi : tok_ok t) by (destruct o0 as [Hi|[Hi _]]; toks_ok; assumption). gdn.
  - (* queries *) assert (Hset : goodo (lset ++ lnq)) by (eapply neat_set; eassumption). split; [destruct lw; discriminate|]. intros r Hnx Hch.
    assert (Hi : sep_by comma ls <> []) by ne.
    replace ((lw ++ _) ++ r) with (lw ++ T (K "SELECT") :: (if d then [Sp; T (K "DISTINCT")] else []) ++ Sp :: sep_by comma ls ++ lf ++ lpw ++ lwh ++ lg ++ lh ++ lob ++ llb ++ lli ++ lse ++ lfo ++ (lset ++ lnq) ++ r)
      by (repeat (rewrite <- app_assoc; cbn [app]); reflexivity).
    generalize dependent (lset ++ lnq). intros lz Hset. match goal with |- chk (lw ++ ?x) => assert (Hx : chk x) by (destruct d; gd) end.
    destruct H as [->|H]; [exact Hx|]. apply H; [discriminate|exact Hx].
  - now left.
  - right. assumption.
  - now left.
  - right. intros r Hr Hch. gd.
  - unfold paren. gdn.
  - toks_ok. gdn.
  - assumption.
  - toks_ok. gdn.
  - (* tables *) toks_ok. gdn.
  - toks_ok. gdn.
  - unfold paren. gdn.
  - assumption.
  - toks_ok. gdn.
  - destruct fin; gdn.
  - gdn.
  - gdn.
  - split; [now intros r|auto].
  - split; [intros r Hnx Hch; gd|intros; reflexivity].
  - split; [intros r Hnx Hch; gd|intros; reflexivity].
  - apply words_good in i. split; [|intros; exact I]. intros r Hnx Hch. gd.
  - gdn.
  - gdn.
  - (* clauses *) gdn.
  - gdn.
  - gdn.
  - gdn.
  - destruct i as [<-|[<-|[<-|[]]]]; cbn [String.eqb]; gdn.
  - gdn.
  - gdn.
  - gdn.
  - gdn.
  - gdn.
  - assert (Hu : tok_ok u /\ lit u = true) by (destruct o as [[Ho _]|Ho]; [eapply number_tok|eapply string_tok]; eassumption). destruct Hu as [Hu Hl]. toks_ok. split; [discriminate|]. intros r Hnx Hch. cbn [app].
    apply chk_T; [vl|gl|]. apply chk_T; [vl|now apply glued_eq|]. gd.
  - gdn.
  - toks_ok. gdn.
  - destruct k; try exact I; (split; [now intros r|auto]).
  - destruct k; cbn [neat] in *; try exact I; (split; [intros r Hnx Hch|intros; exact I]); assert (Hg : goodn l) by (first [exact H | exact (proj1 H)]); gd.
  - constructor.
  - constructor; assumption.
Qed.

Lemma query_source t l : says Query t l -> fine None l -> source None (toks l) true (text l).
Proof. intros H Hf. apply chk_source; [|exact Hf]. rewrite <- (app_nil_r l). now apply (proj1 all_neat _ _ _ H). Qed.

(** Deciding [fine]. *)
Definition operandb (prev : option tok) : bool := match prev with Some t => str_in (t_kind t) [KIdent; KKeyword; KInt; KFloat; KString; ")"; "]"] | None => false end.
Definition dot_next (r : list sym) : bool := match r with T u :: _ => String.eqb (t_kind u) "." | _ => false end.
Fixpoint fineb (prev : option tok) (l : list sym) : bool :=
  match l with
  | [] => true
  | Sp :: r => fineb prev r
  | T t :: r => (negb (str_in (t_kind t) [KInt; KFloat]) || (head_is is_digit (t_str t) || negb (operandb prev)) && negb (dot_next r)) && fineb (Some t) r
  end.
Lemma str_in_In x l : str_in x l = true <-> In x l.
Proof. unfold str_in. rewrite existsb_exists. split; [intros (y & H & E); apply String.eqb_eq in E; now subst|intros H; exists x; split; [exact H|apply String.eqb_refl]]. Qed.
Lemma fineb_ok l : forall prev, fineb prev l = true -> fine prev l.
Proof.
  induction l as [|[t|] l IH]; intros prev H; cbn [fineb fine] in *; [exact I| |now apply IH]. apply andb_true_iff in H as [H1 H2]. split; [|now apply IH].
  intros Hk. apply str_in_In in Hk. rewrite Hk in H1. cbn [negb orb] in H1. apply andb_true_iff in H1 as [H1 H3]. split.
  - apply orb_true_iff in H1 as [H1|H1]; [now left|]. right. intros Ho. destruct prev as [u|]; [|exact Ho]. cbn [operand operandb] in *. apply str_in_In in Ho. now rewrite Ho in H1.
  - intros r' ->. discriminate H3.
Qed.
