(** Model of parser/parser_drop.go and parser/parser_view.go. *)
From Coq Require Import String List Arith Bool ZArith.
From Verif Require Import Str Keyword Lexer Ast AstPos Prog ParserCommon ParserExpr ParserQuery ParserTable.
Import ListNotations.
Local Open Scope string_scope.
Local Open Scope nat_scope.

(** parser_drop.go:93-104 [tryParseModifier]. *)
Definition tryParseModifier : prog string :=
  ifKw "SYNC" (Ret "SYNC")
    (ifKw "NO" (do! expKw "DELAY" ;; Ret "NO DELAY") (Ret "")).

(** parser_drop.go:3-44 [parseDropDatabase]. *)
Definition parseDropDatabase (p : pos) : prog expr :=
  do! expKw "DATABASE" ;;
  do isExists <- tryParseIfExists ;;
  do name <- parseIdent ;;
  do statementEnd <- endOf name ;;
  do onCluster <- tryParseClusterClause ;;
  do statementEnd <- endOr onCluster statementEnd ;;
  do modifier <- tryParseModifier ;;
  do here <- pos_ ;;
  Ret (EDropDatabase p (if String.eqb modifier "" then statementEnd else here) name isExists onCluster modifier).

(** parser_drop.go:46-91 [parseDropStmt]. *)
Definition parseDropStmt (p : pos) : prog expr :=
  do (dropTarget, isTemporary) <-
    ifKw "DICTIONARY" (Ret ("DICTIONARY", false))
      (ifKw "VIEW" (Ret ("VIEW", false))
        (do t <- tryKw "TEMPORARY" ;;
         do! expKw "TABLE" ;;
         Ret ("TABLE", t))) ;;
  do isExists <- tryParseIfExists ;;
  do name <- parseTableIdentifier ;;
  do onCluster <- tryParseClusterClause ;;
  do modifier <- tryParseModifier ;;
  do statementEnd <- pos_ ;;
  Ret (EDropStmt p statementEnd dropTarget name isExists onCluster isTemporary modifier).

(** parser_view.go:190-219 [tryParseRefreshExpr]. Called with [p.Pos()]. *)
Definition tryParseRefreshExpr : prog expr :=
  do p <- pos_ ;;
  do b <- tryKw "REFRESH" ;;
  if b then
    do it <- cur_item ;;
    if kws it ["EVERY"; "AFTER"] then
      do frequency <- grab ;;
      do interval <- parseInterval false ;;
      do offset <- ifKw "OFFSET" (parseInterval false) (Ret ENil) ;;
      Ret (ERefreshExpr p frequency interval offset)
    else Fail (Msg "expected EVERY or AFTER, but got %q")
  else Ret ENil.

(** [Destination.TableSchema = tableSchema], parser_view.go:97. *)
Definition set_dest_schema (dest schema : expr) : expr :=
  match dest with
  | (EDestinationClause a b _) => (EDestinationClause a b schema)
  | e => e
  end.

(** parser_view.go:19-188 [parseCreateMaterializedView]. *)
Definition parseCreateMaterializedView (p : pos) : prog expr :=
  do! expKw "MATERIALIZED" ;;
  do! expKw "VIEW" ;;
  do ifNotExists <- tryParseIfNotExists ;;
  do tableIdentifier <- parseTableIdentifier ;;
  do onCluster <- tryParseClusterClause ;;
  do refreshExpr <- tryParseRefreshExpr ;;
  do b <- tryKws ["RANDOMIZE"; "FOR"] ;;
  do randomizeFor <- (if b then parseInterval false else Ret ENil) ;;
  do b <- tryKws ["DEPENDS"; "ON"] ;;
  do dependsOn <-
    (if b then
       do table <- parseTableIdentifier ;;
       sepTail "," [table] parseTableIdentifier
     else Ret []) ;;
  do settings <- tryParseSettingsClause ;;
  do hasAppend <- tryKw "APPEND" ;;
  do it <- cur_item ;;
  do (destination, tableSchema, engine, statementEnd) <-
    (if kw it "TO" then
       do destination <- parseDestinationClause ;;
       do statementEnd <- endOf destination ;;
       do it <- cur_item ;;
       do destination <-
         (if tk it "(" then
            do tableSchema <- parseTableSchemaClause ;;
            Ret (set_dest_schema destination tableSchema)
          else Ret destination) ;;
       Ret (destination, ENil, ENil, statementEnd)
     else if tk it "(" then
       do tableSchema <- parseTableSchemaClause ;;
       do it <- cur_item ;;
       if kw it "ENGINE" then
         do engineExpr <- parseEngineExpr (ipos it) ;;
         do statementEnd <- endOf engineExpr ;;
         Ret (ENil, tableSchema, engineExpr, statementEnd)
       else Fail (Msg "unexpected token: %q, expected ENGINE after column list")
     else if kw it "ENGINE" then
       do engineExpr <- parseEngineExpr (ipos it) ;;
       do statementEnd <- endOf engineExpr ;;
       Ret (ENil, ENil, engineExpr, statementEnd)
     else Fail (Msg "unexpected token: %q, expected TO or ENGINE")) ;;
  do hasEmpty <- tryKw "EMPTY" ;;
  do definer <- ifKw "DEFINER" (do! expTk "=" ;; parseIdent) (Ret ENil) ;;
  do b <- tryKws ["SQL"; "SECURITY"] ;;
  do sqlSecurity <-
    (if b then
       do it <- cur_item ;;
       if kws it ["DEFINER"; "NONE"] then grab
       else Fail (Msg "expected DEFINER or NONE after SQL SECURITY, got %q")
     else Ret "") ;;
  do populate <- tryKw "POPULATE" ;;
  do! (if populate : bool then
        if negb (is_nil destination) then Fail (Msg "POPULATE is only allowed when using ENGINE, not with TO clause")
        else if is_nil engine then Fail (Msg "POPULATE requires ENGINE to be specified")
        else Ret tt
      else Ret tt) ;;
  do here <- pos_ ;;
  let statementEnd := if populate : bool then here else statementEnd in
  do comment <- tryParseComment ;;
  do subQuery <- ifKw "AS" parseSubQuery (Ret ENil) ;;
  do statementEnd <- endOr subQuery statementEnd ;;
  do comment <- (if is_nil comment then tryParseComment else Ret comment) ;;
  Ret (ECreateMaterializedView p statementEnd tableIdentifier ifNotExists onCluster refreshExpr randomizeFor dependsOn settings hasAppend engine tableSchema hasEmpty destination subQuery populate comment definer sqlSecurity).

(** parser_view.go:222-277 [parseCreateView]. *)
Definition parseCreateView (p : pos) (orReplace : bool) : prog expr :=
  do! expKw "VIEW" ;;
  do ifNotExists <- tryParseIfNotExists ;;
  do tableIdentifier <- parseTableIdentifier ;;
  do uuid <- tryParseUUID ;;
  do onCluster <- tryParseClusterClause ;;
  do it <- cur_item ;;
  do tableSchema <- (if tk it "(" then parseTableSchemaClause else Ret ENil) ;;
  do comment <- tryParseComment ;;
  do subQuery <- ifKw "AS" parseSubQuery (Ret ENil) ;;
  do statementEnd <- endOr subQuery PZero ;;
  Ret (ECreateView p statementEnd orReplace tableIdentifier ifNotExists uuid onCluster tableSchema comment subQuery).

(** parser_view.go:352-371 [tryParseWithTimeout]. Called with [p.Pos()]. *)
Definition tryParseWithTimeout : prog expr :=
  do p <- pos_ ;;
  do b <- tryKw "WITH" ;;
  if b then
    do! expKw "TIMEOUT" ;;
    do it <- cur_item ;;
    do number <- (if tk it KInt then parseDecimal (ipos it) else Ret ENil) ;;
    Ret (EWithTimeoutClause p ENil number)
  else Ret ENil.

(** parser_view.go:282-350 [parseCreateLiveView]. *)
Definition parseCreateLiveView (p : pos) : prog expr :=
  do! expKw "LIVE" ;;
  do! expKw "VIEW" ;;
  do ifNotExists <- tryParseIfNotExists ;;
  do tableIdentifier <- parseTableIdentifier ;;
  do uuid <- tryParseUUID ;;
  do onCluster <- tryParseClusterClause ;;
  do withTimeout <- tryParseWithTimeout ;;
  do it <- cur_item ;;
  do destination <- (if kw it "TO" then parseDestinationClause else Ret ENil) ;;
  do it <- cur_item ;;
  do tableSchema <- (if tk it "(" then parseTableSchemaClause else Ret ENil) ;;
  do subQuery <- ifKw "AS" parseSubQuery (Ret ENil) ;;
  do statementEnd <- endOr subQuery PZero ;;
  Ret (ECreateLiveView p statementEnd tableIdentifier ifNotExists uuid onCluster destination tableSchema withTimeout subQuery).
