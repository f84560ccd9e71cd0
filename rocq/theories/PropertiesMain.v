(** Property C38: the command line tool. *)
From Coq Require Import String Ascii List Arith Bool.
From Verif Require Import Str Ast Items ItemsFacts LexRun ErrorRender ErrorFacts Parser ParserApi ParseFacts AstSubs Format FormatFacts PropertiesFormat Main MainSpec.
Import ListNotations.
Local Open Scope string_scope.
Local Open Scope list_scope.
Local Open Scope nat_scope.

Lemma dashed_not s : (forall r, s <> String "-" r) -> dashed s = false.
Proof. destruct s as [|c s]; intros H; [reflexivity|]. cbn. destruct (Ascii.eqb_spec c "-") as [->|]; [|reflexivity]. now destruct (H s). Qed.

Lemma arg_operand s : (forall r, s <> String "-" r) -> arg_of s = NotFlag.
Proof.
  intros H. apply dashed_not in H. destruct s as [|c [|d r]]; try reflexivity. cbn in *. now rewrite H.
Qed.

Lemma gives_parse o fs o' : gives o fs o' -> forall rest, operands rest -> parse_flags (fs ++ rest) o = FlagOk o'.
Proof.
  induction 1; intros rest Hr.
  - cbn [app]. destruct rest as [|s rest]; [reflexivity|]. cbn [parse_flags]. now rewrite arg_operand.
  - destruct H as [->| ->]; cbn [app]; exact (IHgives rest Hr).
  - destruct H as [->| ->]; cbn [app]; exact (IHgives rest Hr).
  - destruct H as [->| ->]; cbn [app]; exact (IHgives rest Hr).
  - destruct H as [->| ->]; cbn [app]; exact (IHgives rest Hr).
  - destruct H as [->| ->]; cbn [app]; exact (IHgives rest Hr).
  - exact (IHgives rest Hr).
Qed.

Lemma main_reads w fs o rest inp : gives no_options fs o -> operands rest -> o_version o = false -> o_help o = false ->
  fs ++ rest <> [] -> reads w o (fs ++ rest) inp -> main w (fs ++ rest) = parse_and_print w o inp.
Proof.
  intros Hg Hr Hv Hh Hne Hi. unfold main. rewrite (gives_parse _ _ _ Hg rest Hr), Hv, Hh, orb_false_r.
  assert (E : match fs ++ rest with [] => true | _ => false end = false) by (now destruct (fs ++ rest)). rewrite E.
  destruct Hi as [inp Hf Hw|inp l Hf Hl Hd].
  - apply String.eqb_neq in Hf. rewrite Hf. cbn [negb]. now rewrite Hw.
  - rewrite Hf. cbn [String.eqb negb]. rewrite Hl, last_last, (dashed_not inp Hd). reflexivity.
Qed.

Lemma print_texts show l texts out : map show l = map FOk texts -> print_all show l out = Exit (out ++ concat_str (map (fun t => (t ++ nl)%string) texts))%string "" 0.
Proof.
  revert texts out. induction l as [|e l IH]; intros [|t texts] out H; try discriminate H; cbn [print_all map concat_str].
  - now rewrite sapp_nil.
  - injection H as H1 H2. rewrite H1, (IH texts _ H2). f_equal. now rewrite !sapp_assoc.
Qed.

Lemma failed_text inp pe : parse_stmts inp = Failed pe -> exists m, Error pe = Some m.
Proof.
  intros H. destruct (states_ok inp) as (l & Hl & _). unfold parse_stmts in H. rewrite (api_eq inp _ Hl) in H.
  destruct (parse_items _) as [x s|e s|z|]; try discriminate H. destruct (wrapError_ok inp (item_pos ((Lexer.lex_init, None) :: l)) e s) as (pe' & E & H1 & H2 & _). rewrite E in H.
  injection H as <-. eexists. exact (Error_ok pe' inp H1 H2).
Qed.

Lemma format_printed w fs o rest inp stmts sp texts :
  gives no_options fs o -> operands rest -> o_version o = false -> o_help o = false -> o_format o || o_beautify o = true ->
  reads w o (fs ++ rest) inp -> parse_stmts inp = Parsed stmts sp ->
  map (if o_beautify o then Beautify "  " else Format) stmts = map FOk texts ->
  main w (fs ++ rest) = Exit (concat_str (map (fun t => (t ++ nl)%string) texts)) "" 0.
Proof.
  intros Hg Hr Hv Hh Hf Hi Hp Ht.
  rewrite (main_reads w fs o rest inp); try assumption.
  - unfold parse_and_print. rewrite Hp. destruct (o_format o), (o_beautify o); cbn in *; try discriminate; now rewrite (print_texts _ _ _ _ Ht).
  - inversion Hg; subst; try discriminate.
Qed.

Lemma all_texts show l : (forall t : expr, In t l -> exists u, show t = FOk u) -> exists texts : list string, map show l = map FOk texts.
Proof.
  induction l as [|t l IH]; intros H; [now exists []|]. destruct (H t (or_introl eq_refl)) as (u & Hu). destruct IH as (us & Hus); [firstorder|].
  exists (u :: us). cbn [map]. congruence.
Qed.

(** Every flag in any order, then operands: with -format or -beautify and an accepted input, the text of each statement is printed on
    its own line or lines, in order, and the exit code is 0. Missing: a statement with a [FunctionExpr] that has no parameters, see
    [C38_panic_refuted]. *)
Theorem C38_format_partial : forall w fs o rest inp stmts sp,
  gives no_options fs o -> operands rest -> o_version o = false -> o_help o = false -> o_format o || o_beautify o = true ->
  reads w o (fs ++ rest) inp -> parse_stmts inp = Parsed stmts sp ->
  (forall t name, In t stmts -> ~ node_of t (EFunctionExpr name ENil)) ->
  exists texts, map (if o_beautify o then Beautify "  " else Format) stmts = map FOk texts /\
    main w (fs ++ rest) = Exit (concat_str (map (fun t => (t ++ nl)%string) texts)) "" 0.
Proof.
  intros w fs o rest inp stmts sp Hg Hr Hv Hh Hf Hi Hp Hn.
  destruct (all_texts (if o_beautify o then Beautify "  " else Format) stmts) as (texts & Ht).
  - intros t Ht. destruct (C39_no_panic "  " inp stmts sp t Hp Ht (fun n => Hn t n Ht)) as [H1 H2]. now destruct (o_beautify o).
  - exists texts. split; [exact Ht|]. eapply format_printed; eassumption.
Qed.
Print Assumptions C38_format_partial.

(** Without these flags it prints the statements as JSON. *)
Theorem C38_json : forall w fs o rest inp stmts sp,
  gives no_options fs o -> operands rest -> o_version o = false -> o_help o = false -> o_format o = false -> o_beautify o = false ->
  fs ++ rest <> [] -> reads w o (fs ++ rest) inp -> parse_stmts inp = Parsed stmts sp ->
  main w (fs ++ rest) = Exit (w_json w stmts sp ++ nl)%string "" 0.
Proof.
  intros w fs o rest inp stmts sp Hg Hr Hv Hh Hf Hb Hne Hi Hp. rewrite (main_reads w fs o rest inp); try assumption.
  unfold parse_and_print. now rewrite Hp, Hf, Hb.
Qed.
Print Assumptions C38_json.

(** On a rejected input it prints the text of the error on stderr, nothing else, and the exit code is 1. *)
Theorem C38_rejected : forall w fs o rest inp pe,
  gives no_options fs o -> operands rest -> o_version o = false -> o_help o = false ->
  fs ++ rest <> [] -> reads w o (fs ++ rest) inp -> parse_stmts inp = Failed pe ->
  exists m, Error pe = Some m /\ main w (fs ++ rest) = Exit "" ("parse statements error: " ++ m ++ nl)%string 1.
Proof.
  intros w fs o rest inp pe Hg Hr Hv Hh Hne Hi Hp. destruct (failed_text _ _ Hp) as (m & E). exists m. split; [exact E|].
  rewrite (main_reads w fs o rest inp); try assumption. unfold parse_and_print. now rewrite Hp, E.
Qed.
Print Assumptions C38_rejected.

(** Without arguments, with -h, or when the last argument is a flag and no file is given, it prints the usage. *)
Theorem C38_usage : forall w fs o rest, gives no_options fs o -> operands rest -> o_version o = false ->
  (fs ++ rest = [] \/ o_help o = true \/ (o_file o = "" /\ exists l s, fs ++ rest = l ++ [String "-" s])) ->
  main w (fs ++ rest) = Exit help "" 0.
Proof.
  intros w fs o rest Hg Hr Hv H. unfold main. rewrite (gives_parse _ _ _ Hg rest Hr), Hv. destruct H as [H|[H|(Hf & l & s & H)]].
  - now rewrite H.
  - rewrite H, orb_true_r. reflexivity.
  - rewrite H, Hf, last_last. cbn. destruct (_ || o_help o); reflexivity.
Qed.
Print Assumptions C38_usage.

(** The exit code 1 stands for a file that cannot be read or an input that is rejected, and then nothing is printed on stdout. *)
Theorem C38_code : forall w args out err, main w args = Exit out err 1 ->
  out = "" /\ ((exists f m, w_read w f = inr m /\ err = ("read file error: " ++ m ++ nl)%string) \/
    (exists inp pe m, parse_stmts inp = Failed pe /\ Error pe = Some m /\ err = ("parse statements error: " ++ m ++ nl)%string)).
Proof.
  intros w args out err H. unfold main in H. destruct (parse_flags args no_options) as [o| |]; try discriminate.
  assert (P : forall inp, parse_and_print w o inp = Exit out err 1 -> out = "" /\
    exists inp pe m, parse_stmts inp = Failed pe /\ Error pe = Some m /\ err = ("parse statements error: " ++ m ++ nl)%string).
  { intros inp Hp. unfold parse_and_print in Hp. destruct (parse_stmts inp) as [l sp|pe|z|] eqn:E; try discriminate.
    - destruct (_ && _); [discriminate|]. exfalso. clear E. revert Hp. generalize (if o_beautify o then Beautify "  " else Format) as show. intros show. generalize ""%string. induction l as [|e l IH]; intros o' Hp; cbn [print_all] in Hp; [discriminate|].
      destruct (show e); try discriminate. now apply IH in Hp.
    - destruct (Error pe) as [m|] eqn:Em; [|discriminate]. injection Hp as <- <-. split; [reflexivity|]. exists inp, pe, m. auto. }
  destruct (o_version o); [discriminate|]. destruct (_ || _); [discriminate|]. destruct (negb _).
  - destruct (w_read w (o_file o)) as [inp|m] eqn:E; [apply P in H; intuition|]. injection H as <- <-. split; [reflexivity|]. left. now exists (o_file o), m.
  - destruct (dashed _); [discriminate|]. apply P in H. intuition.
Qed.
Print Assumptions C38_code.

Definition some_world : world := mkWorld "v1" (fun f => if String.eqb f "q.sql" then inl "select 1;select  2 "%string else inr "no such file"%string) (fun _ _ => "[]"%string) (fun _ => ""%string).

Example C38_case_file : gives no_options ["-format"; "-f"; "q.sql"] (mkO false "q.sql" true false false) /\
  reads some_world (mkO false "q.sql" true false false) ["-format"; "-f"; "q.sql"] "select 1;select  2 " /\
  main some_world ["-format"; "-f"; "q.sql"] = Exit ("SELECT 1" ++ nl ++ "SELECT 2" ++ nl)%string "" 0.
Proof.
  split; [|split; [apply reads_file; [discriminate|reflexivity]|vm_compute; reflexivity]].
  apply gives_format; [now left|]. apply gives_file; [now left|]. constructor.
Qed.
Example C38_case_rejected : main some_world ["--beautify"; "select (1 "] =
  Exit "" ("parse statements error: line 1:11 expected ')', but got '<eof>'" ++ nl ++ "select (1 " ++ nl ++ "          ^" ++ nl ++ nl)%string 1.
Proof. vm_compute. reflexivity. Qed.

(** The usage text puts the SQL string first; written so, the flags are not seen and the tool prints the usage. *)
Theorem C38_order_refuted : forall w, exists stmts sp, parse_stmts "SELECT 1 " = Parsed stmts sp /\ map Format stmts = [FOk "SELECT 1"] /\
  main w ["SELECT 1 "; "-format"] = Exit help "" 0.
Proof. intros w. do 2 eexists. split; [vm_compute; reflexivity|]. split; vm_compute; reflexivity. Qed.
Print Assumptions C38_order_refuted.

(** With a function without parameters the tool stops with a nil dereference, although the input is accepted. *)
Theorem C38_panic_refuted : forall w, exists stmts sp, parse_stmts "CREATE DICTIONARY d (a Int8) PRIMARY KEY a SOURCE(F(x f())) " = Parsed stmts sp /\
  main w ["-format"; "CREATE DICTIONARY d (a Int8) PRIMARY KEY a SOURCE(F(x f())) "] = Panicked "". (* nothing printed before *)
Proof. intros w. do 2 eexists. split; vm_compute; reflexivity. Qed.
Print Assumptions C38_panic_refuted.
