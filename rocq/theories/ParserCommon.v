(** Model of parser/parser_common.go. Throughout the parser model:
    a Go method returning (T, error) is a [prog]; a returned error is [Fail], a nil
    node is [ENil]; [switch]/[if] conditions that only look at the current token are
    pure tests on the current item; a [pos Pos] argument that the method ignores is
    left out. *)
From Coq Require Import String List Arith Bool ZArith.
From Verif Require Import Str Keyword Lexer Ast AstPos Prog.
Import ListNotations.
Local Open Scope string_scope.
Local Open Scope nat_scope.

(** Reading the state: the current item, [p.Pos()], [p.End()], [p.lexer.isEOF()]. *)
Definition cur_item : prog item := Cur (fun it => Ret it).
Definition ipos (it : item) : pos := PStart (it_id it).
Definition iend (it : item) : pos := PEnd (it_id it).
(** parser_common.go:65-71 [Pos]. *)
Definition pos_ : prog pos := Cur (fun it => Ret (ipos it)).
(** parser_common.go:58-63 [End]. *)
Definition end_ : prog pos := Cur (fun it => Ret (iend it)).
Definition eof_ : prog bool := Cur (fun it => Ret (it_eof it)).

(** [_ = p.lexer.consumeToken()] *)
Definition skip : prog unit := Consume (fun _ => Ret tt).

(** [p.current() == nil] *)
Definition no_tok (it : item) : bool := match it_tok it with None => true | Some _ => false end.

(** parser_common.go:35-40 [currentTokenKind]. *)
Definition cur_kind (it : item) : kind :=
  match it_tok it with None => KEOF | Some t => t_kind t end.

(** parser_common.go:45-50 [currentTokenString]. *)
Definition cur_string (it : item) : string :=
  match it_tok it with None => "<EOF>" | Some t => t_str t end.

(** [p.current().String], which panics when there is no current token. *)
Definition cur_str : prog string :=
  Cur (fun it => match it_tok it with Some t => Ret (t_str t) | None => Panic "p.current().String" end).

(** lexer.go:70-75 [ToString]. *)
Definition tok_to_string (t : tok) : string :=
  if String.eqb (t_kind t) KKeyword then upper (t_str t) else t_str t.

(** [p.current().ToString()]. *)
Definition cur_to_string : prog string :=
  Cur (fun it => match it_tok it with Some t => Ret (tok_to_string t) | None => Panic "p.current().ToString()" end).

(** parser_common.go:81-97 [matchTokenKind]. With several kinds. *)
Definition tks (it : item) (kinds : list kind) : bool :=
  if str_in (cur_kind it) kinds then true
  else match it_tok it with
       | None => false
       | Some t =>
           String.eqb (t_kind t) KKeyword && str_in KIdent kinds && negb (is_reserved (upper (t_str t)))
       end.

(** The same with one kind. *)
Definition tk (it : item) (k : kind) : bool := tks it [k].

(** parser_common.go:120-122 [matchKeyword]. *)
Definition kw (it : item) (keyword : string) : bool :=
  match it_tok it with
  | None => false
  | Some t => String.eqb (t_kind t) KKeyword && equal_fold (t_str t) keyword
  end.

(** parser_common.go:124-131 [matchOneOfKeywords]. *)
Definition kws (it : item) (l : list string) : bool := existsb (kw it) l.

(** parser_common.go:111-118 [tryConsumeTokenKind]. The token consumed, as an item. *)
Definition tryTk (k : kind) : prog (option item) :=
  do it <- cur_item ;;
  if tk it k then do! skip ;; Ret (Some it) else Ret None.

(** [p.tryConsumeTokenKind(k) != nil]. *)
Definition tryTkb (k : kind) : prog bool :=
  do it <- cur_item ;;
  if tk it k then do! skip ;; Ret true else Ret false.

(** parser_common.go:100-109 [expectTokenKind]. *)
Definition expTk (k : kind) : prog unit :=
  do it <- cur_item ;;
  if tk it k then skip else Fail (ExpKind it k).

(** parser_common.go:133-143 [expectKeyword]. *)
Definition expKw (keyword : string) : prog unit :=
  do it <- cur_item ;;
  if kw it keyword then skip else Fail (ExpKw it keyword).

(** parser_common.go:148-154: the loop of [tryConsumeKeywords]. *)
Fixpoint try_keywords (l : list string) : prog bool :=
  match l with
  | [] => Ret true
  | k :: r => do it <- cur_item ;; if kw it k then do! skip ;; try_keywords r else Ret false
  end.

(** parser_common.go:145-155 [tryConsumeKeywords]. *)
Definition tryKws (l : list string) : prog bool :=
  Attempt (try_keywords l)
    (fun r => match r with inr b => b | inl _ => true end)
    (fun r => match r with inr b => Ret b | inl e => Fail e end).

(** Several places use it with a single keyword. *)
Definition tryKw (k : string) : prog bool := tryKws [k].

(** Reading an [Ident] from the current token, which the caller has matched. *)
Definition ident_of (it : item) (t : tok) : expr :=
  (EIdent (t_str t) (t_quote t) (ipos it) (iend it)).

(** parser_common.go:157-169 [tryParseIdent]. *)
Definition tryParseIdent : prog expr :=
  do it <- cur_item ;;
  match it_tok it with
  | Some t => if String.eqb (t_kind t) KIdent then do! skip ;; Ret (ident_of it t) else Ret ENil
  | None => Ret ENil
  end.

(** parser_common.go:176-192 [parseAnyKeyword]. *)
Definition parseAnyKeyword : prog expr :=
  do it <- cur_item ;;
  if tks it [KIdent; KKeyword] then
    do! skip ;;
    match it_tok it with
    | Some t => Ret (ident_of it t)
    | None => Panic "parseAnyKeyword"
    end
  else Fail (ExpKind it KIdent).

(** parser_common.go:194-206 [parseIdent]. *)
Definition parseIdent : prog expr :=
  do it <- cur_item ;;
  do! expTk KIdent ;;
  match it_tok it with
  | Some t => Ret (ident_of it t)
  | None => Panic "parseIdent"
  end.

(** parser_common.go:208-223 [parseIdentOrStar]. *)
Definition parseIdentOrStar : prog expr :=
  do it <- cur_item ;;
  if tk it KIdent then parseIdent
  else if tk it "*" then
    do! skip ;;
    match it_tok it with
    | Some t => Ret (EIdent (t_str t) 0 (ipos it) (iend it))
    | None => Panic "parseIdentOrStar"
    end
  else Fail (Msg "expected <ident> or *, but got %q").

(** parser_common.go:225-241 [parseIdentOrString]. *)
Definition parseIdentOrString : prog expr :=
  do it <- cur_item ;;
  if tk it KIdent then parseIdent
  else if tk it KString then
    do! skip ;;
    match it_tok it with
    | Some t => Ret (EIdent (t_str t) QSingle (ipos it) (iend it))
    | None => Panic "parseIdentOrString"
    end
  else Fail (Msg "expected <ident> or <string>, but got %q").

(** parser_common.go:243-250 [tryParseDotIdent]. *)
Definition tryParseDotIdent : prog expr :=
  do b <- tryTkb "." ;;
  if b then parseAnyKeyword else Ret ENil.

(** parser_common.go:252-262 [tryParseDotIdentOrString]. *)
Definition tryParseDotIdentOrString : prog expr :=
  do b <- tryTkb "." ;;
  if b then
    do it <- cur_item ;;
    if tk it KKeyword then parseAnyKeyword else parseIdentOrString
  else Ret ENil.

(** parser_common.go:385-397 [parseString]. *)
Definition parseString (p : pos) : prog expr :=
  do it <- cur_item ;;
  do! expTk KString ;;
  match it_tok it with
  | Some t => Ret (EStringLiteral p (iend it) (t_str t))
  | None => Panic "parseString"
  end.

(** [p.parseString(p.Pos())]. *)
Definition parseStringHere : prog expr := do p <- pos_ ;; parseString p.

(** parser_common.go:264-276 [parseUUID]. *)
Definition parseUUID : prog expr :=
  do! expKw "UUID" ;;
  do s <- parseStringHere ;;
  Ret (EUUID s).

(** parser_common.go:278-283 [tryParseUUID]. *)
Definition tryParseUUID : prog expr :=
  do it <- cur_item ;;
  if kw it "UUID" then parseUUID else Ret ENil.

(** parser_common.go:285-290 [tryParseComment]. *)
Definition tryParseComment : prog expr :=
  do b <- tryKw "COMMENT" ;;
  if b then parseStringHere else Ret ENil.

(** parser_common.go:292-301 [tryParseIfExists]. *)
Definition tryParseIfExists : prog bool :=
  do b <- tryKw "IF" ;;
  if b then do! expKw "EXISTS" ;; Ret true else Ret false.

(** parser_common.go:303-316 [tryParseIfNotExists]. *)
Definition tryParseIfNotExists : prog bool :=
  do b <- tryKw "IF" ;;
  if b then do! expKw "NOT" ;; do! expKw "EXISTS" ;; Ret true else Ret false.

(** parser_common.go:318-323 [tryParseNull]. *)
Definition tryParseNull (p : pos) : prog expr :=
  do b <- tryKw "NULL" ;;
  if b then Ret (ENullLiteral p) else Ret ENil.

(** parser_common.go:325-337 [tryParseNotNull]. *)
Definition tryParseNotNull (p : pos) : prog expr :=
  do b <- tryKw "NOT" ;;
  if b then
    do nullPos <- pos_ ;;
    do! expKw "NULL" ;;
    Ret (ENotNullLiteral p (ENullLiteral nullPos))
  else Ret ENil.

(** parser_common.go:350-383 [parseNumber]. The Go code changes the token after the dot in place; nothing reads it again. *)
Definition parseNumber (p : pos) : prog expr :=
  do it <- cur_item ;;
  if tk it KInt then
    do! expTk KInt ;;
    match it_tok it with
    | Some t => Ret (ENumberLiteral p (iend it) (t_str t) (t_base t))
    | None => Panic "parseNumber"
    end
  else if tk it KFloat then
    do! expTk KFloat ;;
    match it_tok it with
    | Some t => Ret (ENumberLiteral p (iend it) (t_str t) (t_base t))
    | None => Panic "parseNumber"
    end
  else if tk it "." then
    do! skip ;;
    do it <- cur_item ;;
    do! expTk KInt ;;
    match it_tok it with
    | Some t =>
        if negb (t_base t =? 10) then Fail (Msg "invalid decimal literal: %q")
        else Ret (ENumberLiteral p (iend it) ("." ++ t_str t) (t_base t))
    | None => Panic "parseNumber"
    end
  else Fail (Msg "expected <int> or <float>, but got %q").

Definition parseNumberHere : prog expr := do p <- pos_ ;; parseNumber p.

(** parser_common.go:339-348 [parseDecimal]. *)
Definition parseDecimal (p : pos) : prog expr :=
  do n <- parseNumber p ;;
  match n with
  | (ENumberLiteral _ _ _ b) =>
      if negb (b =? 10) then Fail (Msg "invalid decimal literal: %q") else Ret n
  | _ => Panic "parseDecimal"
  end.

(** parser_common.go:399-413 [parseLiteral]. *)
Definition parseLiteral (p : pos) : prog expr :=
  do it <- cur_item ;;
  if tk it KInt || tk it KFloat then parseNumber p
  else if tk it KString then parseString p
  else if tk it KIdent then parseIdent
  else if kw it "NULL" then Ret (ENullLiteral p)
  else Fail (Msg "expected <int>, <string>, <ident> or keyword <NULL>, but got %q").

Definition parseLiteralHere : prog expr := do p <- pos_ ;; parseLiteral p.

(** parser_common.go:415-433 [ParseNestedIdentifier]. *)
Definition parseNestedIdentifier : prog expr :=
  do ident <- parseIdent ;;
  do dotIdent <- tryParseDotIdent ;;
  if negb (is_nil dotIdent) then Ret (ENestedIdentifier ident dotIdent)
  else Ret (ENestedIdentifier ident ENil).

(** parser_common.go:442-454 [parseFormat]. *)
Definition parseFormat (p : pos) : prog expr :=
  do! expKw "FORMAT" ;;
  do formatIdent <- parseIdent ;;
  Ret (EFormatClause p formatIdent).

(** parser_common.go:435-440 [tryParseFormat]. *)
Definition tryParseFormat (p : pos) : prog expr :=
  do it <- cur_item ;;
  if kw it "FORMAT" then parseFormat p else Ret ENil.

(** parser_common.go:482-500 [parseRatioExpr]. *)
Definition parseRatioExpr (p : pos) : prog expr :=
  do numerator <- parseNumber p ;;
  do b <- tryTkb "/" ;;
  if b then
    do denominator <- parseNumberHere ;;
    Ret (ERatioExpr numerator denominator)
  else Ret (ERatioExpr numerator ENil).

(** [e.End()] and [e.Pos()]: a nil receiver panics. *)
Definition endOf (e : expr) : prog pos :=
  match end_of e with Some p => Ret p | None => Panic "End()" end.
Definition posOf (e : expr) : prog pos :=
  match pos_of e with Some p => Ret p | None => Panic "Pos()" end.

(** [items[len(items)-1].End()], guarded by [len(items) > 0] with default [d]. *)
Definition lastEnd (d : pos) (items : list expr) : prog pos :=
  match items with [] => Ret d | _ => endOf (last items ENil) end.

(** [if e != nil { x = e.End() }] where x was [d]. *)
Definition endOr (e : expr) (d : pos) : prog pos :=
  if is_nil e then Ret d else endOf e.

(** Recursive calls. [parseExpr] is parser_column.go:261-263. *)
Definition parseSubExpr (p : pos) (prec : nat) : prog expr := Call (NSubExpr p prec) (fun e => Ret e).
Definition parseExpr (p : pos) : prog expr := parseSubExpr p 0.
(** [p.parseExpr(p.Pos())] *)
Definition parseExprHere : prog expr := do p <- pos_ ;; parseExpr p.
Definition parseSelectQuery : prog expr := Call NSelectQuery (fun e => Ret e).
Definition parseColumnTypeArgs (ident : expr) : prog expr := Call (NColumnTypeArgs ident) (fun e => Ret e).
Definition parseJoinRightExpr (p : pos) : prog expr := Call (NJoinRight p) (fun e => Ret e).
Definition parseTableArgExpr (p : pos) : prog expr := Call (NTableArg p) (fun e => Ret e).
Definition parseDictionaryArgExpr (p : pos) : prog expr := Call (NDictArg p) (fun e => Ret e).
Definition parseAssignmentValues (p : pos) : prog expr := Call (NAssignValues p) (fun e => Ret e).

(** Loop shapes. [Loop] with a final [Ret]: *)
Definition loop {S B} (s : S) (body : S -> prog (S + B)) : prog B := Loop s body (fun b => Ret b).
