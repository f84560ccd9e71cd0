(** Model of the expression parser: parser/parser_column.go, and the parts of
    parser_query.go and parser_table.go that it uses. *)
From Coq Require Import String List Arith Bool ZArith.
From Verif Require Import Str Keyword Lexer Ast AstPos Prog ParserCommon.
Import ListNotations.
Local Open Scope string_scope.
Local Open Scope nat_scope.

(** parser_column.go:12-30: binding strengths. *)
Definition PrecedenceUnknown := 0.
Definition PrecedenceArrow := 1.
Definition PrecedenceQuery := 2.
Definition PrecedenceOr := 3.
Definition PrecedenceAnd := 4.
Definition PrecedenceNot := 5.
Definition PrecedenceGlobal := 6.
Definition PrecedenceIs := 7.
Definition PrecedenceCompare := 8.
Definition PrecedenceBetweenLike := 9.
Definition precedenceIn := 10.
Definition PrecedenceConcat := 11.
Definition PrecedenceAddSub := 12.
Definition PrecedenceMulDivMod := 13.
Definition PrecedenceBracket := 14.
Definition PrecedenceDot := 15.
Definition PrecedenceDoubleColon := 16.

(** type.go:3. *)
Definition intervalUnits : list string :=
  ["MILLISECOND"; "SECOND"; "MINUTE"; "HOUR"; "DAY"; "WEEK"; "MONTH"; "QUARTER"; "YEAR"].

(** Go's [&&] and [||] on conditions that touch the lexer. *)
Definition orM (p q : prog bool) : prog bool := do b <- p ;; if b then Ret true else q.
Fixpoint anyM {X} (f : X -> prog bool) (l : list X) : prog bool :=
  match l with [] => Ret false | x :: r => orM (f x) (anyM f r) end.

(** The loop shape [for !stop { item; append; if no comma {break} }]. *)
Definition commaLoop (stop : item -> bool) (p : prog expr) : prog (list expr) :=
  loop [] (fun acc =>
    do it <- cur_item ;;
    if stop it then Ret (inr acc)
    else
      do x <- p ;;
      do c <- tryTkb "," ;;
      Ret (if c then inl (acc ++ [x])%list else inr (acc ++ [x])%list)).

(** The loop shape [for tryConsumeTokenKind(sep) != nil { item; append }]. *)
Definition sepTail (sep : kind) (acc : list expr) (p : prog expr) : prog (list expr) :=
  loop acc (fun acc =>
    do c <- tryTkb sep ;;
    if c then do x <- p ;; Ret (inl (acc ++ [x])%list) else Ret (inr acc)).

(** The usual stop condition: [isEOF() || matchTokenKind(k)]. *)
Definition eofOr (k : kind) (it : item) : bool := it_eof it || tk it k.

(** [!p.lexer.isEOF() || p.current() != nil] negated. *)
Definition exhausted (it : item) : bool := it_eof it && no_tok it.

(** parser_column.go:32-37 [tryParseColumnComment]. *)
Definition tryParseColumnComment (p : pos) : prog expr :=
  do b <- tryKw "COMMENT" ;;
  if b then parseString p else Ret ENil.

(** parser_column.go:427-436 [peekTokenKind]. *)
Definition peekTk (k : kind) : prog bool :=
  do e <- eof_ ;;
  if e then Ret false
  else Peek (fun r => match r with
                      | inl (Some t) => Ret (String.eqb (t_kind t) k)
                      | _ => Ret false
                      end).

(** parser_column.go:438-447 [peekKeyword]. *)
Definition peekKw (keyword : string) : prog bool :=
  do e <- eof_ ;;
  if e then Ret false
  else Peek (fun r => match r with
                      | inl (Some t) => Ret (String.eqb (t_kind t) KKeyword && equal_fold (t_str t) keyword)
                      | _ => Ret false
                      end).

(** parser_column.go:448-453. *)
Definition clauseStarterKeywords : list string :=
  ["FROM"; "WHERE"; "PREWHERE"; "GROUP"; "HAVING"; "WINDOW"; "ORDER"; "LIMIT";
   "OFFSET"; "SETTINGS"; "FORMAT"; "UNION"; "EXCEPT"; "INTERSECT"].

(** parser_column.go:461-468 [matchClauseStarterKeyword]. *)
Definition matchClauseStarter (it : item) : bool := kws it clauseStarterKeywords.

(** parser_column.go:472-479 [peekIsClauseStarterKeyword]. *)
Definition peekIsClauseStarter : prog bool := anyM peekKw clauseStarterKeywords.

(** parser_column.go:482-488 [peekIsEndOfStatement]. *)
Definition peekIsEndOfStatement : prog bool :=
  Peek (fun r => match r with
                 | inl (Some t) => Ret (String.eqb (t_kind t) ";")
                 | _ => Ret true
                 end).

(** parser_column.go:486-492. *)
Definition expressionContinuationTokenKinds : list kind :=
  ["="; "=="; "!="; "<"; "<="; ">"; ">="; "+"; "-"; "*"; "/"; "%"; "||"; "::"; ")"; "]"].

(** parser_column.go:494-497. *)
Definition expressionContinuationKeywords : list string :=
  ["AND"; "OR"; "NOT"; "IN"; "LIKE"; "ILIKE"; "BETWEEN"; "IS"; "THEN"; "ELSE"; "END"].

(** parser_column.go:503-515 [peekIsExpressionContinuation]. *)
Definition peekIsExpressionContinuation : prog bool :=
  orM (anyM peekTk expressionContinuationTokenKinds) (anyM peekKw expressionContinuationKeywords).

(** parser_column.go:538-546 [keywordIsSelectItemIdentifier]. *)
Definition keywordIsSelectItemIdentifier : prog bool :=
  do it <- cur_item ;;
  if tk it KKeyword then
    orM (peekTk ",") (orM (peekKw "AS") (orM peekIsClauseStarter peekIsExpressionContinuation))
  else Ret false.

(** parser_column.go:551-556 [isSelectItemTerminatorKeyword]. *)
Definition isSelectItemTerminator : prog bool :=
  do b <- keywordIsSelectItemIdentifier ;;
  if b then Ret false
  else do it <- cur_item ;; Ret (matchClauseStarter it).

(** Consume the current token and give its text (parser_query.go:175-176 and alike). *)
Definition grab : prog string := do s <- cur_str ;; do! skip ;; Ret s.
(** [if matchKeyword(one of l) { append; consume }] *)
Definition grabIf (l : list string) : prog (list string) :=
  do it <- cur_item ;;
  if kws it l then do s <- grab ;; Ret [s] else Ret [].

(** parser_query.go:172-248 [parseJoinType]. *)
Definition parseJoinType : prog (list string) :=
  do b <- tryKw "CROSS" ;;
  if b then Ret ["CROSS"]
  else
    do it <- cur_item ;;
    if kws it ["ANY"; "ALL"] then
      do a <- grab ;;
      do b <- grabIf ["FULL"] ;;
      do c <- grabIf ["LEFT"; "RIGHT"; "INNER"; "OUTER"] ;;
      Ret (a :: b ++ c)%list
    else if kws it ["SEMI"; "ASOF"] then
      do a <- grab ;;
      do b <- grabIf ["LEFT"; "RIGHT"] ;;
      do c <- grabIf ["OUTER"] ;;
      Ret (a :: b ++ c)%list
    else if kw it "INNER" then
      do a <- grab ;;
      do b <- grabIf ["ALL"; "ANY"; "ASOF"; "ARRAY"] ;;
      Ret (a :: b)
    else if kw it "LEFT" then
      do a <- grab ;;
      do b <- grabIf ["OUTER"] ;;
      do c <- grabIf ["SEMI"; "ANTI"; "ANY"; "ALL"; "ASOF"; "ARRAY"] ;;
      Ret (a :: b ++ c)%list
    else if kw it "RIGHT" then
      do a <- grab ;;
      do b <- grabIf ["OUTER"] ;;
      do c <- grabIf ["SEMI"; "ANTI"; "ANY"; "ALL"; "ASOF"] ;;
      Ret (a :: b ++ c)%list
    else if kw it "FULL" then
      do a <- grab ;;
      do b <- grabIf ["OUTER"] ;;
      do c <- grabIf ["ALL"; "ANY"] ;;
      Ret (a :: b ++ c)%list
    else if kw it "ARRAY" then
      do a <- grab ;; Ret [a]
    else Ret [].

(** parser_query.go:287-316 [parseJoinModifiers]. *)
Definition parseJoinModifiers : prog (list string) :=
  do it <- cur_item ;;
  if kws it ["GLOBAL"; "LOCAL"] then
    Attempt
      (do! skip ;;
       do joinType <- parseJoinType ;;
       do it' <- cur_item ;;
       Ret (joinType, kw it' "JOIN"))
      (fun r => match r with
                | inr (joinType, isJoin) => negb (is_empty joinType && negb isJoin)
                | inl _ => true
                end)
      (fun r => match r with
                | inr (joinType, isJoin) =>
                    if is_empty joinType && negb isJoin then Ret []
                    else if existsb (fun m => equal_fold m "ARRAY") joinType then
                      Fail (AtMsg it "%s cannot be combined with ARRAY JOIN")
                    else Ret (cur_string it :: joinType)
                | inl e => Fail e
                end)
  else parseJoinType.

(** parser_query.go:321-333 [peekJoinAfterLocality]. *)
Definition peekJoinAfterLocality : prog bool :=
  Attempt
    (do modifiers <- parseJoinModifiers ;;
     do it <- cur_item ;;
     Ret (negb (is_empty modifiers) && kw it "JOIN"))
    (fun _ => false)
    (fun r => match r with inr b => Ret b | inl _ => Ret true end).

(** parser_column.go:39-94 [getNextPrecedence]. *)
Definition getNextPrecedence : prog nat :=
  do it <- cur_item ;;
  if kw it "OR" then Ret PrecedenceOr
  else if kw it "AND" then Ret PrecedenceAnd
  else if kw it "IS" then Ret PrecedenceIs
  else if kw it "NOT" then
    do b <- peekKw "IN" ;;
    if b then Ret precedenceIn
    else
      do b <- anyM peekKw ["LIKE"; "ILIKE"; "BETWEEN"] ;;
      Ret (if b then PrecedenceBetweenLike else PrecedenceNot)
  else if tk it "." then Ret PrecedenceDot
  else if tk it "::" then Ret PrecedenceDoubleColon
  else if tks it ["="; "<"; "<="; ">="; ">"; "=="; "!="; "<>"] then Ret PrecedenceCompare
  else if tk it "||" then Ret PrecedenceConcat
  else if tks it ["+"; "-"] then Ret PrecedenceAddSub
  else if tks it ["*"; "/"; "%"] then Ret PrecedenceMulDivMod
  else if tk it "->" then Ret PrecedenceArrow
  else if tks it ["("; "["] then Ret PrecedenceBracket
  else if kws it ["BETWEEN"; "LIKE"; "ILIKE"; "REGEXP"] then Ret PrecedenceBetweenLike
  else if kw it "IN" then Ret precedenceIn
  else if kw it "GLOBAL" then
    do b <- peekJoinAfterLocality ;;
    Ret (if b then PrecedenceUnknown else precedenceIn)
  else if tk it "?" then Ret PrecedenceQuery
  else Ret PrecedenceUnknown.

(** * Column types *)

(** parser_column.go:1288-1295 [parseColumnType]. *)
Definition parseColumnType : prog expr :=
  do ident <- parseIdent ;;
  parseColumnTypeArgs ident.

(** parser_column.go:1338-1346 [parseColumnPropertyType]. *)
Definition parseColumnPropertyType : prog expr :=
  do ident <- parseIdent ;;
  Ret (EPropertyType ident).

(** parser_column.go:1348-1370 [parseComplexType]. *)
Definition parseComplexType (name : expr) (p : pos) : prog expr :=
  do subTypes <- commaLoop (eofOr ")") parseColumnType ;;
  do rightParenPos <- pos_ ;;
  do! expTk ")" ;;
  Ret (EComplexType p rightParenPos name subTypes).

(** parser_column.go:1794-1812 [parseEnumValueExpr]. *)
Definition parseEnumValueExpr : prog expr :=
  do p <- pos_ ;;
  do name <- parseString p ;;
  do! expTk "=" ;;
  do value <- parseNumberHere ;;
  Ret (EEnumValue name value).

(** parser_column.go:1372-1398 [parseEnumType]. *)
Definition parseEnumType (name : expr) (p : pos) : prog expr :=
  do values <- commaLoop (eofOr ")") parseEnumValueExpr ;;
  do listEnd <- (match last values ENil with
                 | (EEnumValue _ (ENumberLiteral _ e _ _)) => Ret e
                 | _ => if is_empty values then Ret PZero else Panic "parseEnumType"
                 end) ;;
  do! expTk ")" ;;
  Ret (EEnumType name p listEnd values).

(** parser_column.go:1400-1425 [parseColumnTypeWithParams]. *)
Definition parseColumnTypeWithParams (name : expr) (p : pos) : prog expr :=
  do param <- parseLiteralHere ;;
  do params <- loop [param] (fun acc =>
    do e <- eof_ ;;
    if e then Ret (inr acc)
    else
      do c <- tryTkb "," ;;
      if c then do size <- parseLiteralHere ;; Ret (inl (acc ++ [size])%list) else Ret (inr acc)) ;;
  do rightParenPos <- pos_ ;;
  do! expTk ")" ;;
  Ret (ETypeWithParams p rightParenPos name params).

(** parser_column.go:1427-1445 [parseJSONPath]. *)
Definition parseJSONPath : prog expr :=
  do ident <- parseIdent ;;
  do idents <- loop [ident] (fun acc =>
    do e <- eof_ ;;
    if e then Ret (inr acc)
    else
      do c <- tryTkb "." ;;
      if c then do i <- parseAnyKeyword ;; Ret (inl (acc ++ [i])%list) else Ret (inr acc)) ;;
  Ret (EJSONPath idents).

(** parser_column.go:1475-1543 [parseJSONOption]. *)
Definition parseJSONOption : prog expr :=
  do b <- tryKw "SKIP" ;;
  if b then
    do r <- tryKw "REGEXP" ;;
    if r then do regex <- parseStringHere ;; Ret (EJSONOption ENil regex ENil ENil ENil)
    else do jsonPath <- parseJSONPath ;; Ret (EJSONOption jsonPath ENil ENil ENil ENil)
  else
    do it <- cur_item ;;
    if tk it KIdent then
      do path <- parseJSONPath ;;
      do eq <- tryTkb "=" ;;
      if eq then
        match path with
        | (EJSONPath [(EIdent name _ _ _)]) =>
            if String.eqb name "max_dynamic_types" then
              do number <- parseNumberHere ;; Ret (EJSONOption ENil ENil ENil number ENil)
            else if String.eqb name "max_dynamic_paths" then
              do number <- parseNumberHere ;; Ret (EJSONOption ENil ENil number ENil ENil)
            else Fail (Msg "unexpected token kind: %s")
        | _ => Fail (Msg "unexpected token kind: %s")
        end
      else
        do colType <- parseColumnType ;;
        Ret (EJSONOption ENil ENil ENil ENil (EJSONTypeHint path colType))
    else Fail (Msg "unexpected token kind: %s").

(** parser_column.go:1545-1574 [parseJSONType]. *)
Definition parseJSONType (name : expr) (p : pos) : prog expr :=
  do it <- cur_item ;;
  if tk it "(" then Ret (EJSONType name ENil)
  else
    do options <- commaLoop (eofOr ")") parseJSONOption ;;
    do rightParenPos <- pos_ ;;
    do! expTk ")" ;;
    Ret (EJSONType name (EJSONOptions p rightParenPos options)).

(** parser_column.go:1618-1633, 1713-1733: a named field of a Nested or Tuple type. *)
Definition nestedField (name : expr) (columnType : expr) : prog expr :=
  do namePos <- posOf name ;;
  do columnEnd <- endOf columnType ;;
  Ret (EColumnDef namePos columnEnd (ENestedIdentifier name ENil) columnType ENil ENil ENil ENil ENil ENil ENil ENil ENil).

(** parser_column.go:1688-1707 [parseNestedTypeFieldWithName]. *)
Definition parseNestedTypeFieldWithName : prog expr :=
  do name <- parseIdent ;;
  do columnType <- parseColumnType ;;
  nestedField name columnType.

(** parser_column.go:1617-1654 [parseNestedTypeFieldsWithNames]. *)
Definition parseNestedTypeFieldsWithNames (columnName : expr) : prog (list expr) :=
  do columnType <- parseColumnType ;;
  do column <- nestedField columnName columnType ;;
  do c <- tryTkb "," ;;
  if c then
    do more <- commaLoop (eofOr ")") parseNestedTypeFieldWithName ;;
    Ret (column :: more)
  else Ret [column].

(** parser_column.go:1656-1686 [parseNestedTypeFieldsWithoutNames]. *)
Definition parseNestedTypeFieldsWithoutNames (columnType : expr) : prog (list expr) :=
  do column <- parseColumnTypeArgs columnType ;;
  do c <- tryTkb "," ;;
  if c then
    do more <- commaLoop (eofOr ")") parseColumnType ;;
    Ret (column :: more)
  else Ret [column].

(** parser_column.go:1594-1615 [parseNestedTypeFields]. *)
Definition parseNestedTypeFields : prog (list expr) :=
  do it <- cur_item ;;
  if eofOr ")" it then Ret []
  else if tk it KIdent then
    do ident <- parseIdent ;;
    do it <- cur_item ;;
    if tk it KIdent then parseNestedTypeFieldsWithNames ident
    else parseNestedTypeFieldsWithoutNames ident
  else Fail (Msg "unexpected token kind: %s").

(** parser_column.go:1576-1592 [parseNestedType]. *)
Definition parseNestedType (name : expr) (p : pos) : prog expr :=
  do columns <- parseNestedTypeFields ;;
  do rightParenPos <- pos_ ;;
  do! expTk ")" ;;
  Ret (ENestedType p rightParenPos name columns).

(** The [Name] of an [Ident] node. *)
Definition ident_name (e : expr) : string :=
  match e with (EIdent n _ _ _) => n | _ => "" end.

(** parser_column.go:1297-1297 [parseColumnTypeArgs]. *)
Definition body_ColumnTypeArgs (ident : expr) : prog expr :=
  do lParen <- tryTk "(" ;;
  match lParen with
  | Some lp =>
      do it <- cur_item ;;
      let p := ipos it in
      let name := ident_name ident in
      if tk it KIdent then
        if equal_fold name "Nested" then parseNestedType ident p
        else if equal_fold name "JSON" then parseJSONType ident p
        else if equal_fold name "QBit" then parseColumnTypeWithParams ident p
        else if equal_fold name "Tuple" then parseNestedType ident p
        else parseComplexType ident p
      else if tk it KString then
        Peek (fun r =>
          match r with
          | inr _ => do p <- pos_ ;; parseColumnTypeWithParams ident p
          | inl None => Panic "parseColumnTypeArgs: peekToken.Kind"
          | inl (Some t) =>
              if String.eqb (t_kind t) "=" then parseEnumType ident p
              else parseColumnTypeWithParams ident p
          end)
      else if tks it [KInt; KFloat] then parseColumnTypeWithParams ident p
      else if tk it ")" then
        do! skip ;;
        Ret (ETypeWithParams (ipos lp) p ident [])
      else Fail (Msg "unexpected token kind: %v")
  | None => Ret (EScalarType ident)
  end.

(** * Expression lists and arguments *)

(** parser_column.go:1160-1178 [parseColumnsExpr]. *)
Definition parseColumnsExpr : prog expr :=
  do expr <- parseExprHere ;;
  do b <- tryKw "AS" ;;
  if b then do alias <- parseAnyKeyword ;; Ret (EColumnExpr expr alias)
  else Ret (EColumnExpr expr ENil).

(** parser_column.go:731-759 [parseColumnExprListWithTerm]. The empty [term] never matches a token. *)
Definition parseColumnExprListWithTerm (term : option kind) (p : pos) : prog expr :=
  do hasDistinct <- tryKw "DISTINCT" ;;
  do columnList <- commaLoop
    (fun it => exhausted it || match term with Some k => tk it k | None => false end)
    parseColumnsExpr ;;
  do listEnd <- lastEnd p columnList ;;
  Ret (EColumnExprList p listEnd hasDistinct columnList).

(** parser_column.go:719-729, each called with [p.Pos()]. *)
Definition parseColumnExprListWithLParen : prog expr :=
  do p <- pos_ ;; parseColumnExprListWithTerm (Some ")") p.
Definition parseColumnExprListWithSquareBracket : prog expr :=
  do p <- pos_ ;; parseColumnExprListWithTerm (Some "]") p.
Definition parseColumnExprList : prog expr :=
  do p <- pos_ ;; parseColumnExprListWithTerm None p.

(** parser_column.go:828-855 [parseColumnArgList]. Called with [p.Pos()]. *)
Definition parseColumnArgList : prog expr :=
  do p <- pos_ ;;
  do! expTk "(" ;;
  do distinct <- tryKw "DISTINCT" ;;
  do items <- commaLoop (eofOr ")") parseExprHere ;;
  do rightParenPos <- pos_ ;;
  do! expTk ")" ;;
  Ret (EColumnArgList distinct p rightParenPos items).

(** parser_column.go:988-995 and 917-925: the optional second argument list. *)
Definition tryColumnArgList : prog expr :=
  do it <- cur_item ;;
  if tk it "(" then parseColumnArgList else Ret ENil.

(** parser_column.go:1043-1072 [parseFunctionParams]. Called with [p.Pos()]. *)
Definition parseFunctionParams : prog expr :=
  do p <- pos_ ;;
  do! expTk "(" ;;
  do params <- parseColumnExprListWithLParen ;;
  do rightParenPos <- pos_ ;;
  do! expTk ")" ;;
  do columnArgList <- tryColumnArgList ;;
  Ret (EParamExprList p rightParenPos params columnArgList).

(** parser_column.go:809-826 [parseFunctionExpr]. *)
Definition parseFunctionExpr : prog expr :=
  do name <- parseAnyKeyword ;;
  do params <- parseFunctionParams ;;
  Ret (EFunctionExpr name params).

(** parser_column.go:861-868 [keywordArgForm]. *)
Record keywordArgForm := mkForm {
  Modifiers : list string; RequireModifier : bool; Separators : list string;
  RequiredSeparators : nat; ClosedKeywordForm : bool; MaxSlots : nat }.

(** parser_column.go:870-892 [keywordArgFunctions]. *)
Definition keywordArgFunctions (name : string) : option keywordArgForm :=
  if String.eqb name "TRIM" then
    Some (mkForm ["BOTH"; "LEADING"; "TRAILING"] true ["FROM"] 1 false 0)
  else if String.eqb name "SUBSTRING" then
    Some (mkForm [] false ["FROM"; "FOR"] 1 false 3)
  else if String.eqb name "OVERLAY" || String.eqb name "OVERLAYUTF8" then
    Some (mkForm [] false ["PLACING"; "FROM"; "FOR"] 2 true 0)
  else None.

(** [if err := p.lexer.consumeToken(); err != nil { return err }] *)
Definition consumeOrFail : prog unit :=
  Consume (fun e => match e with Some m => Fail (Msg m) | None => Ret tt end).

(** parser_column.go:937-964 [parseKeywordArgModifier]. *)
Definition parseKeywordArgModifier (form : keywordArgForm) (slot : nat) : prog (expr * bool) :=
  do it <- cur_item ;;
  if negb (slot =? 0) || negb (kws it (Modifiers form)) then
    do e <- parseExprHere ;; Ret (e, false)
  else
    do b <- orM (peekTk ",") (peekTk ")") ;;
    if b then do e <- parseExprHere ;; Ret (e, false)
    else
      do unaryPos <- pos_ ;;
      do k <- cur_to_string ;;
      do! consumeOrFail ;;
      do e <- parseExprHere ;;
      Ret ((EUnaryExpr unaryPos k e), true).

(** parser_column.go:894-935 [parseKeywordArgItem]. *)
Definition parseKeywordArgItem (form : keywordArgForm) (slot : nat) (allowSeparators : bool)
  : prog (expr * nat) :=
  do (expr0, hasModifier) <- parseKeywordArgModifier form slot ;;
  do (expr1, consumed) <- loop (expr0, 0) (fun '(e, consumed) =>
    do it <- cur_item ;;
    match nth_error (Separators form) (slot + consumed) with
    | Some sep =>
        if allowSeparators && kw it sep then
          do operation <- cur_to_string ;;
          do! consumeOrFail ;;
          do rightExpr <- parseExprHere ;;
          Ret (inl ((EBinaryOperation e operation rightExpr false false), S consumed))
        else Ret (inr (e, consumed))
    | None => Ret (inr (e, consumed))
    end) ;;
  if negb hasModifier && (consumed =? 0) then Ret (expr1, 0)
  else if RequireModifier form && negb hasModifier then Fail (Msg "expected one of %s before %s")
  else if slot + consumed <? RequiredSeparators form then
    match nth_error (Separators form) (slot + consumed) with
    | Some _ => Fail (Msg "expected %s")
    | None => Panic "form.Separators[slot+consumed]"
    end
  else Ret (expr1, consumed).

(** parser_column.go:966-1041 [parseKeywordArgFunctionParams]. Called with [p.Pos()]. *)
Definition parseKeywordArgFunctionParams (form : keywordArgForm) : prog expr :=
  do p <- pos_ ;;
  do! expTk "(" ;;
  do itemsPos <- pos_ ;;
  do hasDistinct <- tryKw "DISTINCT" ;;
  do items <- loop ([], 0, false, false) (fun '(items, slot, usedSeparator, usedComma) =>
    do it <- cur_item ;;
    if eofOr ")" it then Ret (inr items)
    else
      do (item, consumed) <- parseKeywordArgItem form slot (negb (ClosedKeywordForm form && usedComma)) ;;
      let usedSeparator := usedSeparator || (0 <? consumed) in
      let slot := slot + consumed in
      do b <- tryKw "AS" ;;
      do alias <- (if b then parseAnyKeyword else Ret ENil) ;;
      let items := (items ++ [(EColumnExpr item alias)])%list in
      do c <- tryTkb "," ;;
      if c then
        let slot := S slot in
        if usedSeparator && (ClosedKeywordForm form || ((0 <? MaxSlots form) && (MaxSlots form <=? slot)))
        then Fail (Msg "expected ')', but got ','")
        else Ret (inl (items, slot, usedSeparator, true))
      else Ret (inr items)) ;;
  do listEnd <- lastEnd itemsPos items ;;
  let itemList := (EColumnExprList itemsPos listEnd hasDistinct items) in
  do rightParenPos <- pos_ ;;
  do! expTk ")" ;;
  do columnArgList <- tryColumnArgList ;;
  Ret (EParamExprList p rightParenPos itemList columnArgList).

(** parser_column.go:1074-1109 [parseMapLiteral]. Called with [p.Pos()]. *)
Definition parseMapLiteral : prog expr :=
  do p <- pos_ ;;
  do! expTk "{" ;;
  do keyValues <- commaLoop (eofOr "}")
    (do key <- parseStringHere ;;
     do! expTk ":" ;;
     do value <- parseExprHere ;;
     Ret (EKeyValue key value)) ;;
  do rightBracePos <- pos_ ;;
  do! expTk "}" ;;
  Ret (EMapLiteral p rightBracePos keyValues).

(** parser_column.go:1111-1139 [parseQueryParam]. Called with [p.Pos()]. *)
Definition parseQueryParam : prog expr :=
  do p <- pos_ ;;
  do! expTk "{" ;;
  do ident <- parseAnyKeyword ;;
  do! expTk ":" ;;
  do columnType <- parseColumnType ;;
  do rightBracePos <- pos_ ;;
  do! expTk "}" ;;
  Ret (EQueryParam p rightBracePos ident columnType).

(** parser_column.go:1141-1158 [parseArrayParams]. Called with [p.Pos()]. *)
Definition parseArrayParams : prog expr :=
  do p <- pos_ ;;
  do! expTk "[" ;;
  do params <- parseColumnExprListWithSquareBracket ;;
  do rightBracketPos <- pos_ ;;
  do! expTk "]" ;;
  Ret (EArrayParamList p rightBracketPos params).

(** parser_column.go:1814-1823 [parseColumnStar]. Called with [p.Pos()]. *)
Definition parseColumnStar : prog expr :=
  do p <- pos_ ;;
  do! expTk "*" ;;
  Ret (EIdent "*" 0 p p).

(** * Windows and ordering *)

(** parser_column.go:782-807 [parseInterval]. *)
Definition parseInterval (requireKeyword : bool) : prog expr :=
  do intervalPos <- (if requireKeyword then do p <- pos_ ;; do! expKw "INTERVAL" ;; Ret p else Ret PZero) ;;
  do expr <- parseExprHere ;;
  do unit <- parseIdent ;;
  if str_in (upper (ident_name unit)) intervalUnits then
    Ret (EIntervalExpr intervalPos expr unit)
  else Fail (Msg "unknown interval type: <%q>").

(** parser_query.go:865-874 [parseFrameDirection]. *)
Definition parseFrameDirection : prog string :=
  do it <- cur_item ;;
  if kws it ["PRECEDING"; "FOLLOWING"] then grab
  else Fail (Msg "expected PRECEDING or FOLLOWING, got %s").

(** parser_query.go:876-884 [parseFrameDirectionWithEnd]. *)
Definition parseFrameDirectionWithEnd : prog (string * pos) :=
  do it <- cur_item ;;
  if kws it ["PRECEDING"; "FOLLOWING"] then do s <- grab ;; Ret (s, iend it)
  else Fail (Msg "expected PRECEDING or FOLLOWING, got %s").

(** parser_query.go:787-798 [parseFrameCurrentRow]. *)
Definition parseFrameCurrentRow : prog expr :=
  do currentPos <- pos_ ;;
  do! skip ;;
  do! expKw "ROW" ;;
  do rowEnd <- end_ ;;
  Ret (EWindowFrameCurrentRow currentPos rowEnd).

(** parser_query.go:800-812 [parseFrameUnbounded]. *)
Definition parseFrameUnbounded : prog expr :=
  do unboundedPos <- pos_ ;;
  do! skip ;;
  do direction <- parseFrameDirection ;;
  Ret (EWindowFrameUnbounded unboundedPos PZero direction).

(** parser_query.go:814-829 [parseFrameNumber]. *)
Definition parseFrameNumber : prog expr :=
  do number <- parseNumberHere ;;
  do (direction, endPos) <- parseFrameDirectionWithEnd ;;
  Ret (EWindowFrameNumber number endPos direction).

(** parser_query.go:831-846 [parseFrameParam]. *)
Definition parseFrameParam : prog expr :=
  do queryParam <- parseQueryParam ;;
  do (direction, endPos) <- parseFrameDirectionWithEnd ;;
  Ret (EWindowFrameParam queryParam endPos direction).

(** parser_query.go:848-863 [parseFrameInterval]. *)
Definition parseFrameInterval : prog expr :=
  do intervalExpr <- parseInterval true ;;
  do (direction, endPos) <- parseFrameDirectionWithEnd ;;
  Ret (EWindowFrameExtendExpr intervalExpr direction endPos).

(** parser_query.go:770-785 [parseFrameExtent]. *)
Definition parseFrameExtent : prog expr :=
  do it <- cur_item ;;
  if kw it "CURRENT" then parseFrameCurrentRow
  else if kw it "UNBOUNDED" then parseFrameUnbounded
  else if tk it KInt then parseFrameNumber
  else if tk it "{" then parseFrameParam
  else if kw it "INTERVAL" then parseFrameInterval
  else Fail (Msg "expected UNBOUNDED, CURRENT ROW, integer, parameter, or interval").

(** parser_query.go:725-767 [parseWindowFrameClause]. *)
Definition parseWindowFrameClause (p : pos) : prog expr :=
  do it <- cur_item ;;
  do windowFrameType <- (if kws it ["ROWS"; "RANGE"] then grab
                         else Fail (Msg "expected ROWS or RANGE for window frame")) ;;
  do b <- tryKw "BETWEEN" ;;
  do expr <- (if b then
      do lo <- parseFrameExtent ;;
      do andPos <- pos_ ;;
      do! expKw "AND" ;;
      do hi <- parseFrameExtent ;;
      Ret (EBetweenClause ENil false lo andPos hi)
    else parseFrameExtent) ;;
  Ret (EWindowFrameClause p windowFrameType expr).

(** parser_query.go:718-723 [tryParseWindowFrameClause]. *)
Definition tryParseWindowFrameClause : prog expr :=
  do it <- cur_item ;;
  if kws it ["ROWS"; "RANGE"] then parseWindowFrameClause (ipos it) else Ret ENil.

(** parser_table.go:915-933 [tryParsePartitionByClause]. *)
Definition tryParsePartitionByClause (p : pos) : prog expr :=
  do b <- tryKw "PARTITION" ;;
  if b then
    do! expKw "BY" ;;
    do columnExpr <- parseColumnExprListWithLParen ;;
    Ret (EPartitionByClause p columnExpr)
  else Ret ENil.

(** parser_table.go:1099-1136: an optional keyword followed by an expression. *)
Definition tryKwExpr (k : string) (p : pos) : prog expr :=
  do b <- tryKw k ;;
  if b then parseExpr p else Ret ENil.

(** parser_table.go:1085-1125 [parseFillClause]. *)
Definition parseFillClause (fillPos : pos) : prog expr :=
  do from <- tryKwExpr "FROM" fillPos ;;
  do to <- tryKwExpr "TO" fillPos ;;
  do step <- tryKwExpr "STEP" fillPos ;;
  do staleness <- tryKwExpr "STALENESS" fillPos ;;
  Ret (EFill fillPos from to step staleness).

(** parser_table.go:1127-1171 [parseInterpolateClause]. *)
Definition parseInterpolateClause (interpolatePos : pos) : prog expr :=
  do b <- tryTkb "(" ;;
  if b then
    do items <- commaLoop (fun _ => false)
      (do column <- parseIdent ;;
       do e <- tryKwExpr "AS" interpolatePos ;;
       Ret (EInterpolateItem column e)) ;;
    do rparen <- tryTk ")" ;;
    match rparen with
    | Some r => Ret (EInterpolateClause interpolatePos (iend r) items)
    | None => Fail (Msg "expected ')' after INTERPOLATE column list")
    end
  else Ret (EInterpolateClause interpolatePos (PPlus interpolatePos 11%Z) []).

(** parser_table.go:1026-1083 [parseOrderExpr]. *)
Definition parseOrderExpr (p : pos) : prog expr :=
  do columnExpr <- parseExpr p ;;
  let rest (alias : expr) :=
    do it <- cur_item ;;
    do direction <-
      (if kws it ["ASC"; "ASCENDING"] then do! skip ;; Ret "ASC"
       else if kws it ["DESC"; "DESCENDING"] then do! skip ;; Ret "DESC"
       else Ret "") ;;
    do b <- tryKws ["WITH"; "FILL"] ;;
    do fill <- (if b then do fillPos <- pos_ ;; parseFillClause fillPos else Ret ENil) ;;
    Ret (EOrderExpr p columnExpr alias direction fill) in
  do it <- cur_item ;;
  if kw it "AS" then
    Peek (fun r =>
      match r with
      | inl None => Panic "parseOrderExpr: nextToken.ToString()"
      | inl (Some t) =>
          if String.eqb (tok_to_string t) "SELECT" then Ret (EOrderExpr p columnExpr ENil "" ENil)
          else do! skip ;; do alias <- parseAnyKeyword ;; rest alias
      | inr _ => do! skip ;; do alias <- parseAnyKeyword ;; rest alias
      end)
  else if kw it "TTL" then Ret (EOrderExpr p columnExpr ENil "" ENil)
  else rest ENil.

(** parser_table.go:989-1024 [parseOrderByClause]. *)
Definition parseOrderByClause (p : pos) : prog expr :=
  do items <- loop [] (fun acc =>
    do e <- parseOrderExpr p ;;
    let acc := (acc ++ [e])%list in
    do it <- cur_item ;;
    if it_eof it then Ret (inr acc)
    else
      do c <- tryTkb "," ;;
      Ret (if c then inl acc else inr acc)) ;;
  do listEnd <- lastEnd p items ;;
  do it <- cur_item ;;
  if kw it "INTERPOLATE" then
    do! skip ;;
    do interpolate <- parseInterpolateClause (ipos it) ;;
    do listEnd <- endOf interpolate ;;
    Ret (EOrderByClause p listEnd items interpolate)
  else Ret (EOrderByClause p listEnd items ENil).

(** parser_table.go:955-964 [tryParseOrderByClause]. *)
Definition tryParseOrderByClause (p : pos) : prog expr :=
  do b <- tryKw "ORDER" ;;
  if b then do! expKw "BY" ;; parseOrderByClause p else Ret ENil.

(** parser_query.go:933-959 [canParseWindowNameInParens]. *)
Definition canParseWindowNameInParens : prog bool :=
  do it <- cur_item ;;
  if negb (tks it [KIdent; KKeyword]) then Ret false
  else if negb (tk it KKeyword) then Ret true
  else
    Attempt
      (if kws it ["PARTITION"; "ORDER"] then
         do! skip ;;
         do it <- cur_item ;;
         Ret (negb (kw it "BY"))
       else if kws it ["ROWS"; "RANGE"] then
         do! skip ;;
         do it <- cur_item ;;
         Ret (negb (kw it "BETWEEN") && negb (kw it "CURRENT") && negb (kw it "UNBOUNDED")
              && negb (tk it KInt) && negb (tk it "{") && negb (kw it "INTERVAL"))
       else Ret true)
      (fun _ => false)
      (fun r => match r with inr b => Ret b | inl e => Fail e end).

(** parser_query.go:893-931 [parseWindowCondition]. Called with [p.Pos()]. *)
Definition parseWindowCondition : prog expr :=
  do p <- pos_ ;;
  do! expTk "(" ;;
  do can <- canParseWindowNameInParens ;;
  do windowName <- (if can then parseAnyKeyword else Ret ENil) ;;
  do partitionBy <- tryParsePartitionByClause p ;;
  do orderPos <- pos_ ;;
  do orderBy <- tryParseOrderByClause orderPos ;;
  do frame <- tryParseWindowFrameClause ;;
  do rightParenPos <- pos_ ;;
  do! expTk ")" ;;
  Ret (EWindowExpr p rightParenPos windowName partitionBy orderBy frame).

(** * Primary expressions *)

(** parser_table.go:403-510 [parseIdentOrFunction]. *)
Definition parseIdentOrFunction : prog expr :=
  do it <- cur_item ;;
  do anyKeyword <- (if tk it KKeyword then peekTk "(" else Ret false) ;;
  do ident <- (if anyKeyword then parseAnyKeyword else parseIdent) ;;
  do it <- cur_item ;;
  if tk it "[" then
    do params <- parseArrayParams ;;
    Ret (EObjectParams ident params)
  else if tk it "(" then
    do params <- (match keywordArgFunctions (upper (ident_name ident)) with
                  | Some form => parseKeywordArgFunctionParams form
                  | None => parseFunctionParams
                  end) ;;
    let funcExpr := (EFunctionExpr ident params) in
    do overPos <- pos_ ;;
    do b <- tryKw "OVER" ;;
    if b then
      do it <- cur_item ;;
      do overExpr <-
        (if tks it [KIdent; KKeyword] then parseAnyKeyword
         else if tk it "(" then parseWindowCondition
         else Fail (Msg "expected window name or (, but got %q")) ;;
      Ret (EWindowFunctionExpr funcExpr overPos overExpr)
    else Ret funcExpr
  else
    do dot <- tryTkb "." ;;
    if dot then
      do it <- cur_item ;;
      if tks it [KIdent; KKeyword] then
        do fields <- loop [ident] (fun fields =>
          do child <- parseAnyKeyword ;;
          do c <- tryTkb "." ;;
          Ret (if c then inl (fields ++ [child])%list else inr (fields ++ [child])%list)) ;;
        Ret (EPath fields)
      else if tk it "*" then
        do nextIdent <- parseColumnStar ;;
        Ret (ENestedIdentifier ident nextIdent)
      else if tk it KInt then
        do i <- parseNumberHere ;;
        Ret (EIndexOperation ident "." i)
      else Fail (Msg "expected IDENT, NUMBER or *, but got %q")
    else Ret ident.

(** parser_column.go:670-717 [parseColumnCastExpr]. *)
Definition parseColumnCastExpr (p : pos) : prog expr :=
  do! expKw "CAST" ;;
  do! expTk "(" ;;
  do columnExpr <- parseExprHere ;;
  do asPos <- pos_ ;;
  do it <- cur_item ;;
  do separator <- (if kw it "AS" || tk it "," then grab else Fail (Msg "expected AS or , but got %s")) ;;
  do it <- cur_item ;;
  do asColumnType <- (if tk it KString then parseStringHere else parseColumnType) ;;
  do! expTk ")" ;;
  Ret (ECastExpr p columnExpr separator asPos asColumnType).

(** parser_column.go:1226-1286 [parseColumnCaseExpr]. The field EndPos is not assigned. *)
Definition parseColumnCaseExpr (p : pos) : prog expr :=
  do! expKw "CASE" ;;
  do it <- cur_item ;;
  do e <- (if kw it "WHEN" then Ret ENil else parseExprHere) ;;
  do whens <- loop [] (fun acc =>
    do it <- cur_item ;;
    if kw it "WHEN" then
      do! skip ;;
      do whenCondition <- parseExprHere ;;
      do thenPos <- pos_ ;;
      do! expKw "THEN" ;;
      do thenCondition <- parseExprHere ;;
      Ret (inl (acc ++ [(EWhenClause (ipos it) thenPos whenCondition thenCondition PZero ENil)])%list)
    else Ret (inr acc)) ;;
  do elsePos <- pos_ ;;
  do b <- tryKw "ELSE" ;;
  do (elsePos, elseExpr) <- (if b then do e <- parseExprHere ;; Ret (elsePos, e) else Ret (PZero, ENil)) ;;
  do! expKw "END" ;;
  Ret (ECaseExpr p PZero e whens elsePos elseExpr).

(** parser_column.go:330-345 [parseExtractFrom]. *)
Definition parseExtractFrom (ident : expr) : prog expr :=
  do fromPos <- pos_ ;;
  do! expKw "FROM" ;;
  do expr <- parseExprHere ;;
  Ret (EIntervalFrom ident fromPos expr).

(** parser_column.go:347-395 [parseColumnExtractExpr]. *)
Definition parseColumnExtractExpr (p : pos) : prog expr :=
  do! expKw "EXTRACT" ;;
  do! expTk "(" ;;
  do parameters <- commaLoop it_eof
    (do e <- parseExprHere ;;
     do it <- cur_item ;;
     match e with
     | (EIdent name _ _ _) =>
         if str_in (upper name) intervalUnits && kw it "FROM" then parseExtractFrom e else Ret e
     | _ => Ret e
     end) ;;
  if is_empty parameters then Fail (Msg "EXTRACT requires at least one parameter")
  else
    do extractEnd <- pos_ ;;
    do! expTk ")" ;;
    Ret (EExtractExpr p extractEnd parameters).

(** parser_query.go:1031-1049 [parseSubQuery]. *)
Definition parseSubQuery : prog expr :=
  do hasParen <- tryTkb "(" ;;
  do selectQuery <- parseSelectQuery ;;
  do! (if hasParen : bool then expTk ")" else Ret tt) ;;
  Ret (ESubQuery hasParen selectQuery).

(** parser_column.go:586-619: the INTERVAL case of [parseColumnExpr]. *)
Definition parseIntervalOrIdent : prog expr :=
  TryInterval (fun interval => Ret interval) parseAnyKeyword.

(** parser_column.go:558-558 [parseColumnExpr]. *)
Definition parseColumnExpr (p : pos) : prog expr :=
  do asIdent <- orM keywordIsSelectItemIdentifier
    (do it <- cur_item ;;
     if tk it KKeyword then orM peekIsEndOfStatement peekIsExpressionContinuation else Ret false) ;;
  if asIdent then parseAnyKeyword
  else
    do it <- cur_item ;;
    if kw it "INTERVAL" then parseIntervalOrIdent
    else if kws it ["DATE"; "TIMESTAMP"] then
      Peek (fun r =>
        match r with
        | inr e => Fail (Msg e)
        | inl (Some t) => if String.eqb (t_kind t) KString then parseStringHere else parseIdentOrFunction
        | inl None => parseIdentOrFunction
        end)
    else if kw it "CAST" then parseColumnCastExpr p
    else if kw it "CASE" then parseColumnCaseExpr p
    else if kw it "SELECT" then parseSelectQuery
    else if kw it "EXTRACT" then parseColumnExtractExpr p
    else if tk it KIdent then parseIdentOrFunction
    else
      do kwCall <- (if tk it KKeyword then peekTk "(" else Ret false) ;;
      if kwCall then parseIdentOrFunction
      else
        do it <- cur_item ;;
        if tk it KString then parseString p
        else if tks it [KInt; KFloat] then parseNumber p
        else if tk it "(" then
          Peek (fun r =>
            match r with
            | inl (Some t) =>
                if String.eqb (t_kind t) KKeyword && equal_fold (t_str t) "SELECT" then parseSubQuery
                else parseFunctionParams
            | _ => parseFunctionParams
            end)
        else if tk it "*" then parseColumnStar
        else if tk it "[" then parseArrayParams
        else if tk it "{" then
          do b <- orM (peekTk KIdent) (peekTk KKeyword) ;;
          if b then parseQueryParam else parseMapLiteral
        else if tk it "." then parseNumberHere
        else if tk it "?" then
          do! skip ;;
          Ret (EPlaceHolder p p "?")
        else Fail (Msg "unexpected token kind: %s").

(** parser_column.go:397-425 [parseUnaryExpr]. *)
Definition parseUnaryExpr (p : pos) : prog expr :=
  do it <- cur_item ;;
  if tks it ["+"; "-"] then
    do k <- cur_to_string ;;
    do! skip ;;
    do q <- pos_ ;;
    do expr <- parseColumnExpr q ;;
    Ret (EUnaryExpr p k expr)
  else if kw it "NOT" then
    do k <- cur_to_string ;;
    do! skip ;;
    do q <- pos_ ;;
    do expr <- parseSubExpr q PrecedenceNot ;;
    Ret (EUnaryExpr p k expr)
  else parseColumnExpr p.

(** parser_column.go:308-328 [parseTernaryExpr]. *)
Definition parseTernaryExpr (condition : expr) : prog expr :=
  do! expTk "?" ;;
  do trueExpr <- parseExprHere ;;
  do! expTk ":" ;;
  do falseExpr <- parseExprHere ;;
  Ret (ETernaryOperation condition trueExpr falseExpr).

(** parser_query.go:670-697 [parseBetweenClause]. *)
Definition parseBetweenClause (expr : expr) (not : bool) : prog Ast.expr :=
  do! expKw "BETWEEN" ;;
  do q <- pos_ ;;
  do betweenExpr <- parseSubExpr q PrecedenceBetweenLike ;;
  do andPos <- pos_ ;;
  do! expKw "AND" ;;
  do q <- pos_ ;;
  do andExpr <- parseSubExpr q PrecedenceBetweenLike ;;
  Ret (EBetweenClause expr not betweenExpr andPos andExpr).

(** [p.parseSubExpr(p.Pos(), precedence)]. *)
Definition parseSubExprHere (prec : nat) : prog expr := do q <- pos_ ;; parseSubExpr q prec.

(** parser_column.go:96-267 [parseInfix]. *)
Definition parseInfix (expr : expr) (precedence : nat) : prog Ast.expr :=
  do it <- cur_item ;;
  if tks it ["="; "<"; "<="; ">="; ">"; "!="; "<>"; "-"; "+"; "*"; "/"; "%"; "||"; "=="]
     || kws it ["IN"; "LIKE"; "ILIKE"; "REGEXP"; "AND"; "OR"] then
    do op <- cur_to_string ;;
    do! skip ;;
    do rightExpr <- parseSubExprHere precedence ;;
    Ret (EBinaryOperation expr op rightExpr false false)
  else if tk it "->" then
    do! skip ;;
    do rightExpr <- parseSubExprHere (precedence - 1) ;;
    Ret (EBinaryOperation expr "->" rightExpr false false)
  else if tk it "::" then
    do! skip ;;
    do it <- cur_item ;;
    if tk it KIdent && String.eqb (cur_string it) "Tuple" then
      do name <- parseIdent ;;
      do! expTk "(" ;;
      do q <- pos_ ;;
      do rightExpr <- parseNestedType name q ;;
      Ret (EBinaryOperation expr "::" rightExpr false false)
    else
      do rightExpr <- parseSubExprHere precedence ;;
      Ret (EBinaryOperation expr "::" rightExpr false false)
  else if kw it "BETWEEN" then parseBetweenClause expr false
  else if kw it "GLOBAL" then
    do! skip ;;
    do hasNot <- tryKw "NOT" ;;
    do it <- cur_item ;;
    if kw it "IN" then
      do! skip ;;
      do rightExpr <- parseSubExprHere precedence ;;
      Ret (EBinaryOperation expr "IN" rightExpr true hasNot)
    else Fail (Msg "expected IN after GLOBAL, got %s")
  else if tk it "." then
    do! skip ;;
    do it <- cur_item ;;
    do rightExpr <- (if tks it [KIdent; KKeyword] then parseAnyKeyword else parseDecimal (ipos it)) ;;
    Ret (EIndexOperation expr "." rightExpr)
  else if kw it "NOT" then
    do! skip ;;
    do it <- cur_item ;;
    if kw it "BETWEEN" then parseBetweenClause expr true
    else if kws it ["IN"; "LIKE"; "ILIKE"] then
      do op <- cur_to_string ;;
      do! skip ;;
      do rightExpr <- parseSubExprHere precedence ;;
      Ret (EBinaryOperation expr ("NOT " ++ op) rightExpr false false)
    else Fail (Msg "expected IN, LIKE, ILIKE or BETWEEN after NOT, got %s")
  else if tk it "[" then
    do params <- parseArrayParams ;;
    Ret (EObjectParams expr params)
  else if tk it "?" then parseTernaryExpr expr
  else if kw it "IS" then
    do! skip ;;
    do isNotNull <- tryKw "NOT" ;;
    do nullEnd <- end_ ;;
    do! expKw "NULL" ;;
    if isNotNull : bool then Ret (EIsNotNullExpr (ipos it) nullEnd expr)
    else Ret (EIsNullExpr (ipos it) nullEnd expr)
  else Fail (Msg "unexpected token kind: %s").

(** parser_column.go:292-306 [parseInfixLoop]. *)
Definition parseInfixLoop (e : expr) (precedence : nat) : prog expr :=
  loop e (fun e =>
    do it <- cur_item ;;
    if exhausted it then Ret (inr e)
    else
      do nextPrecedence <- getNextPrecedence ;;
      if nextPrecedence <=? precedence then Ret (inr e)
      else do e' <- parseInfix e nextPrecedence ;; Ret (inl e')).

(** parser_column.go:273-280 [parseSubExpr]. *)
Definition body_SubExpr (p : pos) (precedence : nat) : prog expr :=
  do e <- parseUnaryExpr p ;;
  parseInfixLoop e precedence.
