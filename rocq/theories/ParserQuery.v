(** Model of parser/parser_query.go, and of the parts of parser_table.go and
    parser_column.go that a query needs. *)
From Coq Require Import String List Arith Bool ZArith.
From Verif Require Import Str Keyword Lexer Ast AstPos Prog ParserCommon ParserExpr.
Import ListNotations.
Local Open Scope string_scope.
Local Open Scope nat_scope.

(** The shape of [tryParseX]: [if !matchKeyword(k) {return nil}; return parseX(pos)],
    always called with [p.Pos()]. *)
Definition whenKw (k : string) (p : pos -> prog expr) : prog expr :=
  do it <- cur_item ;;
  if kw it k then p (ipos it) else Ret ENil.

(** * Table arguments *)

(** parser_table.go:814-886 [parseTableArgList]. *)
Definition parseTableArgList (p : pos) : prog expr :=
  do! expTk "(" ;;
  do args <- commaLoop (eofOr ")")
    (do it <- cur_item ;;
     do isNamedParam <-
       (if String.eqb (cur_kind it) KIdent || String.eqb (cur_kind it) KKeyword then
          Peek (fun r => match r with
                         | inl (Some t) => Ret (String.eqb (t_kind t) "=")
                         | _ => Ret false
                         end)
        else Ret false) ;;
     if isNamedParam : bool then
       do name <- cur_str ;;
       do! consumeOrFail ;;
       do! expTk "=" ;;
       do q <- pos_ ;;
       do value <- parseTableArgExpr q ;;
       Ret (ENamedParameterExpr (ipos it) (EIdent name 0 (ipos it) (iend it)) value)
     else
       do q <- pos_ ;;
       parseTableArgExpr q) ;;
  do rightParenPos <- pos_ ;;
  do! expTk ")" ;;
  Ret (ETableArgListExpr p rightParenPos args).

(** parser_table.go:761-812 [parseTableArgPrimaryExpr]. *)
Definition parseTableArgPrimaryExpr (p : pos) : prog expr :=
  do it <- cur_item ;;
  if kw it "CAST" then parseColumnCastExpr p
  else if tk it KIdent then
    do ident <- parseIdent ;;
    do it <- cur_item ;;
    if tk it "." then
      do dotIdent <- tryParseDotIdent ;;
      Ret (ENestedIdentifier ident dotIdent)
    else if tk it "(" then
      do argsExpr <- parseTableArgList p ;;
      Ret (ETableFunctionExpr ident argsExpr)
    else Ret ident
  else if tk it "(" then
    do b <- orM (peekKw "SELECT") (peekKw "WITH") ;;
    if b then parseSubQuery else parseFunctionParams
  else if tk it KInt || tk it KFloat || tk it KString || kw it "NULL" then parseLiteralHere
  else Fail (Msg "unexpected token: %q, expected <Name>, <literal>").

(** parser_table.go:752-759 [parseTableArgExpr]. *)
Definition body_TableArg (p : pos) : prog expr :=
  do expr <- parseTableArgPrimaryExpr p ;;
  parseInfixLoop expr PrecedenceUnknown.

(** parser_table.go:512-530 [parseTableIdentifier]. *)
Definition parseTableIdentifier : prog expr :=
  do ident <- parseIdentOrString ;;
  do dotIdent <- tryParseDotIdentOrString ;;
  if negb (is_nil dotIdent) then Ret (ETableIdentifier ident dotIdent)
  else Ret (ETableIdentifier ENil ident).

(** * FROM and joins *)

(** parser_query.go:462-486: [&AliasExpr{expr, alias.Pos(), alias}] and its end. *)
Definition aliasExpr (e alias : expr) : prog (expr * pos) :=
  do aliasPos <- posOf alias ;;
  let a := (EAliasExpr e aliasPos alias) in
  do tableEnd <- endOf a ;;
  Ret (a, tableEnd).

(** parser_query.go:423-501 [parseTableExpr]. *)
Definition parseTableExpr (p : pos) : prog expr :=
  do it <- cur_item ;;
  do e <-
    (if tk it KString || tk it KIdent then
       do tableIdentifier <- parseTableIdentifier ;;
       do it <- cur_item ;;
       match tableIdentifier with
       | (ETableIdentifier db tbl) =>
           if negb (is_nil db) || negb (tk it "(") then Ret tableIdentifier
           else
             do q <- pos_ ;;
             do tableArgs <- parseTableArgList q ;;
             Ret (ETableFunctionExpr tbl tableArgs)
       | _ => Panic "parseTableExpr"
       end
     else if tk it "(" then parseSubQuery
     else Fail (Msg "expect table name or subquery")) ;;
  do tableEnd <- endOf e ;;
  do b <- tryKw "AS" ;;
  do (e, tableEnd) <-
    (if b then do alias <- parseAnyKeyword ;; aliasExpr e alias
     else
       do it <- cur_item ;;
       if tk it KIdent && negb (String.eqb (cur_kind it) KKeyword) then
         do alias <- parseIdent ;; aliasExpr e alias
       else Ret (e, tableEnd)) ;;
  do b <- tryKw "FINAL" ;;
  if b then
    match e with
    | (ETableFunctionExpr _ _) => Fail (Msg "table function doesn't support FINAL")
    | (ESelectQuery _ _ _ _ _ _ _ _ _ _ _ _ _ _ _ _ _ _ _ _ _ _ _) => Fail (Msg "subquery doesn't support FINAL")
    | _ =>
        do tableEnd <- endOf e ;;
        Ret (ETableExpr p tableEnd ENil e true)
    end
  else Ret (ETableExpr p tableEnd ENil e false).

(** parser_query.go:1299-1322 [parseSampleClause]. *)
Definition parseSampleClause (p : pos) : prog expr :=
  do! expKw "SAMPLE" ;;
  do q <- pos_ ;;
  do ratio <- parseRatioExpr q ;;
  do it <- cur_item ;;
  do offset <- (if kw it "OFFSET" then do! skip ;; do q <- pos_ ;; parseRatioExpr q else Ret ENil) ;;
  Ret (ESampleClause p ratio offset).

(** parser_query.go:1292-1297 [tryParseSampleClause]. *)
Definition tryParseSampleClause : prog expr := whenKw "SAMPLE" parseSampleClause.

(** parser_query.go:250-281 [parseJoinTableExpr]. *)
Definition parseJoinTableExpr : prog expr :=
  do it <- cur_item ;;
  if tk it KIdent || tk it KString || tk it "(" then
    do tableExpr <- parseTableExpr (ipos it) ;;
    do statementEnd <- endOf tableExpr ;;
    do it <- cur_item ;;
    let hasFinal := kw it "FINAL" in
    do statementEnd <- (if hasFinal then do! skip ;; Ret (iend it) else Ret statementEnd) ;;
    do sampleRatio <- tryParseSampleClause ;;
    do statementEnd <- endOr sampleRatio statementEnd ;;
    Ret (EJoinTableExpr tableExpr statementEnd sampleRatio hasFinal)
  else Fail (Msg "expected table name or subquery, got %s").

(** parser_query.go:142-170 [tryParseJoinConstraints]. Called with [p.Pos()]. *)
Definition tryParseJoinConstraints : prog expr :=
  do p <- pos_ ;;
  do b <- tryKw "ON" ;;
  if b then do l <- parseColumnExprList ;; Ret (EOnClause p l)
  else
    do b <- tryKw "USING" ;;
    if b then
      do hasParen <- tryTkb "(" ;;
      do l <- parseColumnExprListWithLParen ;;
      do! (if hasParen : bool then expTk ")" else Ret tt) ;;
      Ret (EUsingClause p l)
    else Ret ENil.

(** parser_query.go:405-421 [parseJoinExpr]. *)
Definition parseJoinExpr (p : pos) : prog expr :=
  do e <- parseJoinTableExpr ;;
  do q <- pos_ ;;
  do rightExpr <- parseJoinRightExpr q ;;
  if is_nil rightExpr then Ret e
  else Ret (EJoinExpr p e rightExpr [] ENil).

(** parser_query.go:335-403 [parseJoinRightExpr]. *)
Definition body_JoinRight (p : pos) : prog expr :=
  do comma <- tryTkb "," ;;
  if comma then do q <- pos_ ;; parseJoinExpr q
  else
    do modifiers <- parseJoinModifiers ;;
    do it <- cur_item ;;
    if negb (is_empty modifiers) && negb (kw it "JOIN") then Fail (Msg "expected JOIN, got %s")
    else
      do b <- tryKw "JOIN" ;;
      if b then
        let modifiers := (modifiers ++ ["JOIN"])%list in
        if str_in "ARRAY" modifiers then
          do e <- parseColumnExprList ;;
          do q <- pos_ ;;
          do rightExpr <- parseJoinRightExpr q ;;
          Ret (EJoinExpr p e rightExpr modifiers ENil)
        else
          do e <- parseJoinTableExpr ;;
          do constrains <- tryParseJoinConstraints ;;
          do q <- pos_ ;;
          do rightExpr <- parseJoinRightExpr q ;;
          Ret (EJoinExpr p e rightExpr modifiers constrains)
      else Ret ENil.

(** parser_query.go:127-140 [parseFromClause]. *)
Definition parseFromClause (p : pos) : prog expr :=
  do! expKw "FROM" ;;
  do q <- pos_ ;;
  do e <- parseJoinExpr q ;;
  Ret (EFromClause p e).

(** parser_query.go:120-125 [tryParseFromClause]. *)
Definition tryParseFromClause : prog expr := whenKw "FROM" parseFromClause.

(** * The clauses of SELECT *)

(** parser_query.go:1260-1290 [parseCTEStmt]. *)
Definition parseCTEStmt : prog expr :=
  do p <- pos_ ;;
  do e <- parseExpr p ;;
  do! expKw "AS" ;;
  do it <- cur_item ;;
  if tk it "(" then
    do selectQuery <- parseSelectQuery ;;
    Ret (ECTEStmt p e selectQuery)
  else
    do name <- parseAnyKeyword ;;
    Ret (ECTEStmt p e name).

(** parser_query.go:18-41 [parseWithClause]. *)
Definition parseWithClause (p : pos) : prog expr :=
  do! expKw "WITH" ;;
  do cteExpr <- parseCTEStmt ;;
  do ctes <- sepTail "," [cteExpr] parseCTEStmt ;;
  do endPos <- endOf (last ctes ENil) ;;
  Ret (EWithClause p endPos ctes).

(** parser_query.go:11-16 [tryParseWithClause]. *)
Definition tryParseWithClause (p : pos) : prog expr :=
  do it <- cur_item ;;
  if kw it "WITH" then parseWithClause p else Ret ENil.

(** parser_query.go:50-75 [parseTopClause]. *)
Definition parseTopClause (p : pos) : prog expr :=
  do! expKw "TOP" ;;
  do number <- parseNumberHere ;;
  do topEnd <- endOf number ;;
  do b <- tryKw "WITH" ;;
  if b then
    do topEnd <- end_ ;;
    do! expKw "TIES" ;;
    Ret (ETopClause p topEnd number true)
  else Ret (ETopClause p topEnd number false).

(** parser_query.go:43-48 [tryParseTopClause]. *)
Definition tryParseTopClause : prog expr := whenKw "TOP" parseTopClause.

(** parser_query.go:84-118 [parseDistinctOn]. *)
Definition parseDistinctOn (p : pos) : prog expr :=
  do! expKw "ON" ;;
  do! expTk "(" ;;
  do col <- parseNestedIdentifier ;;
  do idents <- sepTail "," [col] parseNestedIdentifier ;;
  do! expTk ")" ;;
  do distinctOnEnd <- pos_ ;;
  Ret (EDistinctOn idents p distinctOnEnd).

(** parser_query.go:77-82 [tryParseDistinctOn]. *)
Definition tryParseDistinctOn : prog expr := whenKw "ON" parseDistinctOn.

(** parser_column.go:1180-1224 [parseSelectItem]. *)
Definition parseSelectItem : prog expr :=
  do e <- parseExprHere ;;
  do modifiers <- loop [] (fun acc =>
    do it <- cur_item ;;
    if kws it ["EXCEPT"; "APPLY"; "REPLACE"] then
      do m <- parseFunctionExpr ;; Ret (inl (acc ++ [m])%list)
    else Ret (inr acc)) ;;
  do b <- tryKw "AS" ;;
  do alias <-
    (if b then parseAnyKeyword
     else
       do it <- cur_item ;;
       if tk it KIdent then
         do t <- isSelectItemTerminator ;;
         if t then Ret ENil else parseIdent
       else Ret ENil) ;;
  Ret (ESelectItem e modifiers alias).

(** parser_column.go:761-780 [parseSelectItems]. *)
Definition parseSelectItems : prog (list expr) :=
  loop [] (fun acc =>
    do it <- cur_item ;;
    if exhausted it then Ret (inr acc)
    else
      do x <- parseSelectItem ;;
      let acc := (acc ++ [x])%list in
      do c <- tryTkb "," ;;
      if c then
        do t <- isSelectItemTerminator ;;
        Ret (if t then inr acc else inl acc)
      else Ret (inr acc)).

(** parser_query.go:509-522 [parsePrewhereClause]. *)
Definition parsePrewhereClause (p : pos) : prog expr :=
  do! expKw "PREWHERE" ;;
  do e <- parseExprHere ;;
  Ret (EPrewhereClause p e).

(** parser_query.go:503-508 [tryParsePrewhereClause]. *)
Definition tryParsePrewhereClause : prog expr := whenKw "PREWHERE" parsePrewhereClause.

(** parser_query.go:531-544 [parseWhereClause]. *)
Definition parseWhereClause (p : pos) : prog expr :=
  do! expKw "WHERE" ;;
  do e <- parseExprHere ;;
  Ret (EWhereClause p e).

(** parser_query.go:524-529 [tryParseWhereClause]. *)
Definition tryParseWhereClause : prog expr := whenKw "WHERE" parseWhereClause.

(** parser_query.go:554-614 [parseGroupByClause]. *)
Definition parseGroupByClause (p : pos) : prog expr :=
  do! expKw "GROUP" ;;
  do! expKw "BY" ;;
  do it <- cur_item ;;
  do (aggregateType, e, groupByEnd) <-
    (if kws it ["CUBE"; "ROLLUP"] then
       do s <- grab ;;
       do e <- parseFunctionParams ;;
       Ret (s, e, PZero)
     else
       do b <- tryKws ["GROUPING"; "SETS"] ;;
       if b then do e <- parseFunctionParams ;; Ret ("GROUPING SETS", e, PZero)
       else if kw it "ALL" then do! skip ;; Ret ("ALL", ENil, iend it)
       else do e <- parseColumnExprListWithLParen ;; Ret ("", e, PZero)) ;;
  do groupByEnd <- endOr e groupByEnd ;;
  do (groupByEnd, cube, rollup, totals) <-
    loop (groupByEnd, false, false, false) (fun '(groupByEnd, cube, rollup, totals) =>
      do b <- tryKw "WITH" ;;
      if b then
        do keywordEnd <- end_ ;;
        do c <- tryKw "CUBE" ;;
        if c then Ret (inl (keywordEnd, true, rollup, totals))
        else
          do r <- tryKw "ROLLUP" ;;
          if r then Ret (inl (keywordEnd, cube, true, totals))
          else
            do t <- tryKw "TOTALS" ;;
            if t then Ret (inl (keywordEnd, cube, rollup, true))
            else Fail (Msg "expected CUBE, ROLLUP or TOTALS, got %s")
      else Ret (inr (groupByEnd, cube, rollup, totals))) ;;
  Ret (EGroupByClause p groupByEnd aggregateType e cube rollup totals).

(** parser_query.go:546-551 [tryParseGroupByClause]. *)
Definition tryParseGroupByClause : prog expr := whenKw "GROUP" parseGroupByClause.

(** parser_query.go:1015-1029 [parseHavingClause]. *)
Definition parseHavingClause (p : pos) : prog expr :=
  do! expKw "HAVING" ;;
  do e <- parseColumnsExpr ;;
  Ret (EHavingClause p e).

(** parser_query.go:1008-1013 [tryParseHavingClause]. *)
Definition tryParseHavingClause : prog expr := whenKw "HAVING" parseHavingClause.

(** parser_query.go:961-1006 [parseWindowClause]. *)
Definition parseWindowClause (p : pos) : prog expr :=
  do! expKw "WINDOW" ;;
  do windows <- commaLoop (fun _ => false)
    (do windowName <- parseAnyKeyword ;;
     do asPos <- pos_ ;;
     do! expKw "AS" ;;
     do condition <- parseWindowCondition ;;
     Ret (EWindowDefinition windowName asPos condition)) ;;
  do endPos <- lastEnd PZero windows ;;
  Ret (EWindowClause p endPos windows).

(** parser_query.go:886-891 [tryParseWindowClause]. *)
Definition tryParseWindowClause : prog expr := whenKw "WINDOW" parseWindowClause.

(** parser_query.go:632-661 [parseLimitClause]. *)
Definition parseLimitClause (p : pos) : prog expr :=
  do b <- tryKw "LIMIT" ;;
  do (limit, offset) <-
    (if b then
       do limit <- parseExprHere ;;
       do o <- tryKw "OFFSET" ;;
       if o then do offset <- parseExprHere ;; Ret (limit, offset)
       else
         do c <- tryTkb "," ;;
         if c then do limit' <- parseExprHere ;; Ret (limit', limit)
         else Ret (limit, ENil)
     else
       do o <- tryKw "OFFSET" ;;
       if o then do offset <- parseExprHere ;; Ret (ENil, offset) else Ret (ENil, ENil)) ;;
  Ret (ELimitClause p limit offset).

(** parser_query.go:616-622 [tryParseLimitAfterLimitByClause]. *)
Definition tryParseLimitAfterLimitByClause : prog expr := whenKw "LIMIT" parseLimitClause.

(** parser_query.go:624-630 [tryParseLimitClause]. *)
Definition tryParseLimitClause : prog expr :=
  do it <- cur_item ;;
  if kws it ["LIMIT"; "OFFSET"] then parseLimitClause (ipos it) else Ret ENil.

(** parser_query.go:699-716 [parseLimitByClause]. *)
Definition parseLimitByClause (p : pos) : prog expr :=
  do limit <- parseLimitClause p ;;
  do b <- tryKw "BY" ;;
  if b then do by_ <- parseColumnExprListWithLParen ;; Ret (ELimitByClause limit by_)
  else Ret limit.

(** parser_query.go:663-668 [tryParseLimitByClause]. *)
Definition tryParseLimitByClause : prog expr := whenKw "LIMIT" parseLimitByClause.

(** parser_table.go:1336-1384 [parseSettingsExpr]. Called with [p.Pos()]. *)
Definition parseSettingsExpr : prog expr :=
  do p <- pos_ ;;
  do ident <- parseIdent ;;
  do! expTk "=" ;;
  do it <- cur_item ;;
  do e <-
    (if tk it KInt then parseNumberHere
     else if tk it KString then parseStringHere
     else if tk it "{" then parseMapLiteral
     else if kws it ["TRUE"; "FALSE"] then
       do s <- grab ;;
       Ret (EBoolLiteral (ipos it) (iend it) s)
     else Fail (Msg "unexpected token: %q, expected <number>, <bool> or <string>")) ;;
  Ret (ESettingExpr p ident e).

(** parser_table.go:1319-1334 [parseSettingsList]. *)
Definition parseSettingsList : prog (list expr) :=
  do e <- parseSettingsExpr ;;
  sepTail "," [e] parseSettingsExpr.

(** parser_table.go:1304-1317 [parseSettingsClause]. *)
Definition parseSettingsClause (p : pos) : prog expr :=
  do items <- parseSettingsList ;;
  if is_empty items then Fail (Msg "settings list is empty")
  else
    do listEnd <- endOf (last items ENil) ;;
    Ret (ESettingsClause p listEnd items).

(** parser_table.go:1297-1302 [tryParseSettingsClause]. Called with [p.Pos()]. *)
Definition tryParseSettingsClause : prog expr :=
  do p <- pos_ ;;
  do b <- tryKw "SETTINGS" ;;
  if b then parseSettingsClause p else Ret ENil.

(** [tryParseOrderByClause(p.Pos())]. *)
Definition tryParseOrderByClauseHere : prog expr := do p <- pos_ ;; tryParseOrderByClause p.
(** [tryParseFormat(p.Pos())]. *)
Definition tryParseFormatHere : prog expr := do p <- pos_ ;; tryParseFormat p.

(** parser_query.go:1100-1100 [parseSelectStmt]. Called with [p.Pos()]. The set operation fields are filled in by the caller. *)
Definition parseSelectStmt : prog (expr -> expr -> expr -> expr -> expr) :=
  do p <- pos_ ;;
  do withClause <- tryParseWithClause p ;;
  do! expKw "SELECT" ;;
  do hasDistinct <- tryKw "DISTINCT" ;;
  do distinctOn <- tryParseDistinctOn ;;
  do top <- tryParseTopClause ;;
  do selectItems <- parseSelectItems ;;
  do statementEnd <- lastEnd p selectItems ;;
  do from <- tryParseFromClause ;;
  do statementEnd <- endOr from statementEnd ;;
  do prewhere <- tryParsePrewhereClause ;;
  do statementEnd <- endOr prewhere statementEnd ;;
  do where_ <- tryParseWhereClause ;;
  do statementEnd <- endOr where_ statementEnd ;;
  do groupBy <- tryParseGroupByClause ;;
  do statementEnd <- endOr groupBy statementEnd ;;
  do withTotal <- tryKw "WITH" ;;
  do statementEnd <-
    (if withTotal : bool then do totalsEnd <- end_ ;; do! expKw "TOTALS" ;; Ret totalsEnd
     else Ret statementEnd) ;;
  do having <- tryParseHavingClause ;;
  do statementEnd <- endOr having statementEnd ;;
  do window <- tryParseWindowClause ;;
  do statementEnd <- endOr window statementEnd ;;
  do orderBy <- tryParseOrderByClauseHere ;;
  do statementEnd <- endOr orderBy statementEnd ;;
  do parsedLimitBy <- tryParseLimitByClause ;;
  do (limitBy, limit, statementEnd) <-
    (if negb (is_nil parsedLimitBy) then
       do statementEnd <- endOf parsedLimitBy ;;
       match parsedLimitBy with
       | (ELimitByClause _ _) =>
           do limit <- tryParseLimitAfterLimitByClause ;;
           do statementEnd <- endOr limit statementEnd ;;
           Ret (parsedLimitBy, limit, statementEnd)
       | _ => Ret (ENil, parsedLimitBy, statementEnd)
       end
     else
       do limit <- tryParseLimitClause ;;
       do statementEnd <- endOr limit statementEnd ;;
       Ret (ENil, limit, statementEnd)) ;;
  do settings <- tryParseSettingsClause ;;
  do statementEnd <- endOr settings statementEnd ;;
  do format <- tryParseFormatHere ;;
  do statementEnd <- endOr format statementEnd ;;
  Ret (fun unionAll unionDistinct except intersect =>
    (ESelectQuery p statementEnd withClause top hasDistinct distinctOn selectItems from window prewhere where_ groupBy withTotal having orderBy limitBy limit settings format unionAll unionDistinct except intersect)).

(** parser_query.go:1051-1098 [parseSelectQuery]. *)
Definition body_SelectQuery : prog expr :=
  do it <- cur_item ;;
  if negb (kw it "SELECT") && negb (kw it "WITH") && negb (tk it "(") then
    Fail (Msg "expected SELECT, WITH or (, got %s")
  else
    do hasParen <- tryTkb "(" ;;
    do selectStmt <- parseSelectStmt ;;
    do u <- tryKw "UNION" ;;
    do q <-
      (if u then
         do a <- tryKw "ALL" ;;
         if a then do e <- parseSelectQuery ;; Ret (selectStmt e ENil ENil ENil)
         else
           do d <- tryKw "DISTINCT" ;;
           if d then do e <- parseSelectQuery ;; Ret (selectStmt ENil e ENil ENil)
           else Fail (Msg "expected ALL or DISTINCT, got %s")
       else
         do x <- tryKw "EXCEPT" ;;
         if x then do e <- parseSelectQuery ;; Ret (selectStmt ENil ENil e ENil)
         else
           do i <- tryKw "INTERSECT" ;;
           if i then do e <- parseSelectQuery ;; Ret (selectStmt ENil ENil ENil e)
           else Ret (selectStmt ENil ENil ENil ENil)) ;;
    do! (if hasParen : bool then expTk ")" else Ret tt) ;;
    Ret q.

(** parser_query.go:1324-1349 [parseExplainStmt]. *)
Definition parseExplainStmt (p : pos) : prog expr :=
  do! expKw "EXPLAIN" ;;
  do it <- cur_item ;;
  do explainType <- (if kws it ["SYNTAX"; "PIPELINE"; "ESTIMATE"; "AST"] then grab
                     else Fail (Msg "expected SYNTAX, PIPELINE, ESTIMATE or AST, got %s")) ;;
  do stmt <- parseSelectQuery ;;
  Ret (EExplainStmt p explainType stmt).
