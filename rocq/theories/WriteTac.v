(** Tactics for C42. *)
From Coq Require Import String List Arith Bool.
From Verif Require Import Str Ast AstPos AstSubs Prog RunFacts ParserCommon ParserExpr ParserQuery ParserTable ParserAlter ParserView ParserSystem Parser Words WriteLogic.
Import ListNotations.
Local Open Scope string_scope.
Local Open Scope nat_scope.

Lemma ok_nil : ok ENil.
Proof. split; [constructor; constructor|reflexivity]. Qed.
Lemma ok_mk e : tells e -> Forall (All tells) (subs e) -> single e -> ok e.
Proof. intros H1 H2 H3. split; [now constructor|exact H3]. Qed.
Lemma all_mk e : tells e -> Forall (All tells) (subs e) -> All tells e.
Proof. intros H1 H2. now constructor. Qed.
Lemma ok_all e : ok e -> All tells e. Proof. now intros []. Qed.
Lemma ok_single e : ok e -> single e. Proof. now intros []. Qed.
Lemma oks_all l : Forall ok l -> Forall (All tells) l. Proof. apply Forall_impl, ok_all. Qed.
Lemma oks_single l : Forall ok l -> Forall single l. Proof. apply Forall_impl, ok_single. Qed.
Lemma ok_ident n q p1 p2 : ok (EIdent n q p1 p2).
Proof. apply ok_mk; [constructor|constructor|reflexivity]. Qed.
Lemma ok_last l : Forall ok l -> ok (last l ENil).
Proof. induction l as [|a l IH]; intros Hl; [apply ok_nil|]. inversion Hl; subst. destruct l; [assumption|now apply IH]. Qed.

Lemma g_any {f} A (p : prog A) : @gives f A (fun _ => True) p.
Proof. intros ? ? ? _. exact I. Qed.

Create HintDb tell discriminated.
#[export] Hint Constants Opaque : tell.
#[export] Hint Variables Opaque : tell.

Ltac head t := lazymatch t with ?f _ => head f | _ => t end.

Ltac clean1 := match goal with
  | H : True |- _ => clear H
  | H : _ /\ _ |- _ => destruct H
  | H : Forall ok (_ :: _) |- _ => apply Forall_cons_iff in H
  | H : ex _ |- _ => destruct H
  | H : ?x = EStringLiteral _ _ _ |- _ => is_var x; subst x
  | H : ?x = ENumberLiteral _ _ _ _ |- _ => is_var x; subst x
  | H : ?x = EIdent _ _ _ _ |- _ => is_var x; subst x
  | H : ?x = EWithClause _ _ _ |- _ => is_var x; subst x
  | H : ?x = ESettingsClause _ _ _ |- _ => is_var x; subst x
  | H : ?x = EColumnExprList _ _ _ _ |- _ => is_var x; subst x
  | H : ?x = EDestinationClause _ _ _ |- _ => is_var x; subst x
  | H : ?x = ENil |- _ => is_var x; subst x
  | H : false = true |- _ => discriminate H
  | H : true = false |- _ => discriminate H
  end.
Ltac clean := cbv beta in *; repeat (progress cbv [good G_expr G_string G_bool G_pos G_nat G_unit G_item G_list G_option G_prod G_sum G_engine G_attr G_dict G_user] in *); cbn [fst snd g_primary g_partition g_sample g_ttl g_settings g_order d_default d_expression k_source k_lifetime k_layout k_range k_settings u_auth u_hosts u_defaultRole u_defaultDb u_grantees u_valid u_settings] in *; repeat clean1.

Ltac okt := lazymatch goal with
  | |- ok ENil => exact ok_nil
  | |- ok (if ?c then _ else _) => destruct c; okt
  | |- ok ?e =>
      first [ assumption
            | let h := head e in is_constructor h; apply ok_mk; [tellt | cbn [subs]; alls | reflexivity]
            | apply ok_ident ]
  end
with tellt := cbn [tells subs]; tellt2
with tellt2 := lazymatch goal with
  | |- True => exact I
  | |- Forall single [] => apply Forall_nil
  | |- Forall single (_ :: _) => apply Forall_cons; tellt2
  | |- Forall single (_ ++ _)%list => apply Forall_app; split; tellt2
  | |- Forall single (if ?c then _ else _) => destruct c; tellt2
  | |- Forall single ?l => first [apply oks_single; assumption | assumption | apply oks_single; match goal with |- Forall ok ?l => okts end]
  | |- single (if ?c then _ else _) => destruct c; tellt2
  | |- single _ => first [reflexivity | assumption | apply ok_single; assumption]
  | |- _ /\ _ => split; tellt2
  | |- _ <> _ => unfold ipos; discriminate
  | |- ex _ => repeat eexists; first [reflexivity | apply ok_single; assumption | idtac]
  | |- joined _ => first [assumption | left; first [reflexivity | apply ok_single; assumption] | right; repeat eexists]
  | |- no_or_settings _ => first [assumption | unfold no_or_settings; tellt2]
  | |- _ \/ _ => first [assumption | left; solve [tellt2] | right; solve [tellt2]]
  | |- (if ?c then _ else _) = _ -> _ => destruct c; tellt2
  | |- _ -> _ => let H := fresh in intros H; first [discriminate H | exfalso; exact (app_cons_not_nil _ _ _ (eq_sym H)) | tellt2]
  | |- _ => first [reflexivity | assumption | congruence]
  end
with alls := lazymatch goal with
  | |- Forall (All tells) [] => apply Forall_nil
  | |- Forall (All tells) (_ :: _) => first [assumption | apply oks_all; assumption | apply Forall_cons; [allt | alls]]
  | |- Forall (All tells) (_ ++ _)%list => apply Forall_app; split; alls
  | |- Forall (All tells) (if ?c then _ else _) => destruct c; alls
  | |- Forall (All tells) _ => first [apply oks_all; assumption | assumption | apply oks_all; okts]
  end
with allt := lazymatch goal with
  | |- All tells (if ?c then _ else _) => destruct c; allt
  | |- All tells _ => first [assumption | apply ok_all; okt | apply all_mk; [tellt | cbn [subs]; alls]]
  end
with okts := lazymatch goal with
  | |- Forall ok [] => apply Forall_nil
  | |- Forall ok (_ :: _) => first [assumption | apply Forall_cons; [okt | okts]]
  | |- Forall ok (_ ++ _)%list => apply Forall_app; split; okts
  | |- Forall ok (if ?c then _ else _) => destruct c; okts
  | |- Forall ok _ => assumption
  end.

Ltac val := clean; lazymatch goal with
  | |- True => exact I
  | |- ok _ => okt
  | |- nq _ _ => unfold nq; val
  | |- npre _ => unfold npre; val
  | |- All tells _ => first [assumption | apply ok_all; okt | apply all_mk; [tellt | cbn [subs]; alls]]
  | |- Forall ok _ => okts
  | |- Forall _ [] => apply Forall_nil
  | |- Forall _ (_ :: _) => apply Forall_cons; val
  | |- Forall (Forall ok) (_ ++ _)%list => apply Forall_app; split; val
  | |- _ /\ _ => split; val
  | |- match (if ?c then _ else _) with inl _ => _ | inr _ => _ end => destruct c; cbv iota; val
  | |- match ?x with inl _ => _ | inr _ => _ end => destruct x; val
  | |- match ?x with Some _ => _ | None => _ end => destruct x; val
  | |- (if ?c then _ else _) = _ => destruct c; val
  | |- ok (g_primary (if ?c then _ else _)) => destruct c; val
  | |- _ => first [assumption | tellt2 ]
  end.

(** [gtac]: what to do with a conditional in front of the rest; [cut] or [push]. *)
Ltac fact := first [assumption | apply g_any | solve [eauto 3 with tell nocore]].
Ltac closing := solve [fact | eapply g_weak; [solve [eauto 3 with tell nocore] | intros; val]].

Ltac choose c :=
  let c' := eval cbn [is_nil negb andb orb] in c in
  lazymatch c' with
  | true => change c with true; cbv iota
  | false => change c with false; cbv iota
  | _ => destruct c
  end.
Ltac gstep mode :=
  cbv beta zeta; unfold ifKw;
  lazymatch goal with
  | |- gives _ (Ret _) => apply g_ret; cbv beta iota; try solve [val]
  | |- gives _ (Fail _) => apply g_fail
  | |- gives _ (Panic _) => apply g_panic
  | |- gives _ (Cur _) => apply g_cur; intros ?; gstep mode
  | |- gives _ (Consume _) => apply g_consume; intros ?; gstep mode
  | |- gives _ (Peek _) => apply g_peek; intros [[?|]|?]; gstep mode
  | |- gives _ (Call _ _) => apply g_call; [assumption | try solve [val] | intros ? ?; unfold nq in *; gstep mode]
  | |- gives _ (TryInterval _ _) => apply g_interval; [assumption | intros ? ?; gstep mode | gstep mode]
  | |- gives _ (loop ?x _) => gloop mode
  | |- gives _ (if ?c then _ else _) => choose c; gstep mode
  | |- gives _ (let (_, _) := (if ?c then _ else _) in _) => choose c; gstep mode
  | |- gives _ (let (_, _) := (let (_, _) := (if ?c then _ else _) in _) in _) => choose c; gstep mode
  | |- gives _ (let (_, _) := ?x in _) => destruct x; clean; gstep mode
  | |- gives _ (match ?x with _ => _ end) => let T := type of x in lazymatch T with expr => idtac | _ => destruct x; clean; gstep mode end
  | |- gives _ (bind ?p ?k) =>
      lazymatch p with
      | Ret ?a => change (bind p k) with (k a); gstep mode
      | Fail _ => apply g_fail
      | Panic _ => apply g_panic
      | bind _ _ => apply g_assoc; gstep mode
      | (if ?c then _ else _) => lazymatch mode with true => choose c; gstep mode | false => gcut mode | tt => lazymatch type of p with prog (expr * expr * expr * pos) => idtac | _ => gcut mode end end
      | (let (_, _) := ?x in _) => destruct x; clean; gstep mode
      | match ?x with _ => _ end => lazymatch mode with true => let T := type of x in lazymatch T with expr => idtac | _ => destruct x; clean; gstep mode end | false => gcut mode end
      | loop _ _ => gcut mode
      | Cur _ => eapply g_bind; [gstep mode | intros; clean; gstep mode]
      | _ =>
        let T := type of p in
        lazymatch T with
        | prog pos => apply (g_bind _ _ (fun _ => True)); [apply g_any | intros ? _; gstep mode]
        | prog bool => apply (g_bind _ _ (fun _ => True)); [apply g_any | intros ? _; gstep mode]
        | prog unit => apply (g_bind _ _ (fun _ => True)); [apply g_any | intros ? _; gstep mode]
        | prog string => apply (g_bind _ _ (fun _ => True)); [apply g_any | intros ? _; gstep mode]
        | prog item => apply (g_bind _ _ (fun _ => True)); [apply g_any | intros ? _; gstep mode]
        | prog nat => apply (g_bind _ _ (fun _ => True)); [apply g_any | intros ? _; gstep mode]
        | prog (list string) => apply (g_bind _ _ (fun _ => True)); [apply g_any | intros ? _; gstep mode]
        | prog (option item) => apply (g_bind _ _ (fun _ => True)); [apply g_any | intros ? _; gstep mode]
        | prog (bool * bool) => apply (g_bind _ _ (fun _ => True)); [apply g_any | intros ? _; gstep mode]
        | _ => tryif (eapply g_bind; [solve [eauto 3 with tell nocore] |]) then (intros; clean; gstep mode) else idtac
        end
      end
  | |- gives _ ?p => try closing
  end
with gcut mode :=
  lazymatch goal with |- gives _ (@bind ?A _ ?p ?k) =>
    let P := constr:(@good A _) in apply (g_bind _ _ P); [gstep mode | intros; clean; gstep mode]
  end
with gloop mode :=
  lazymatch goal with |- gives _ (@loop ?X ?Y ?x ?bd) =>
    unfold loop; apply (g_loop _ _ _ (@good X _) (@good Y _)); [try solve [val] | intros; clean; gstep mode | intros; apply g_ret; try solve [val]]
  end.
Ltac go := gstep false.
Ltac push := gstep true.
(** Stops in front of the destination of a materialized view. *)
Ltac pause := gstep tt.
