(** Model of parser/parser_table.go (the rest of it: DDL, INSERT, SHOW, ...) and of
    the codec functions of parser_column.go. *)
From Coq Require Import String List Arith Bool ZArith.
From Verif Require Import Str Keyword Lexer Ast AstPos Prog ParserCommon ParserExpr ParserQuery.
Import ListNotations.
Local Open Scope string_scope.
Local Open Scope nat_scope.

(** [if tryConsumeKeywords(k) { a } else { b }]. *)
Definition ifKw {A} (k : string) (a b : prog A) : prog A :=
  do t <- tryKw k ;; if t then a else b.

(** The loop shape [for !isEOF() && tryConsumeTokenKind(RParen) == nil { ... }]
    of parser_table.go:1806-1816 and 1874-1893. *)
Definition closedLoop (p : prog expr) : prog (list expr) :=
  loop [] (fun acc =>
    do e <- eof_ ;;
    if e then Ret (inr acc)
    else
      do r <- tryTkb ")" ;;
      if r then Ret (inr acc)
      else
        do x <- p ;;
        do c <- tryTkb "," ;;
        Ret (if c then inl (acc ++ [x])%list else inr (acc ++ [x])%list)).

(** * Clauses *)

(** parser_table.go:888-913 [tryParseClusterClause]. Called with [p.Pos()]. *)
Definition tryParseClusterClause : prog expr :=
  do p <- pos_ ;;
  do b <- tryKw "ON" ;;
  if b then
    do! expKw "CLUSTER" ;;
    do it <- cur_item ;;
    do e <- (if tk it KIdent then parseIdent
             else if tk it KString then parseStringHere
             else Fail (Msg "unexpected token: %q, expected <IDENT> or <STRING>")) ;;
    Ret (EClusterClause p e)
  else Ret ENil.

(** parser_column.go:1825-1843 [tryParseCompressionLevel]. Called with [p.Pos()]. *)
Definition tryParseCompressionLevel : prog expr :=
  do p <- pos_ ;;
  do b <- tryTkb "(" ;;
  if b then
    do it <- cur_item ;;
    if tk it ")" then do! expTk ")" ;; Ret ENil
    else
      do num <- parseNumber p ;;
      do! expTk ")" ;;
      Ret num
  else Ret ENil.

(** parser_column.go:1748, 1763, 1775. *)
Definition deltaCodecs : list string := ["DELTA"; "DOUBLEDELTA"; "T64"; "GORILLA"; "GCD"].
Definition levelCodecs : list string := ["ZSTD"; "LZ4HC"; "LH4"].

(** parser_column.go:1709-1792 [tryParseCompressionCodecs]. Called with [p.Pos()]. *)
Definition tryParseCompressionCodecs : prog expr :=
  do p <- pos_ ;;
  do b <- tryKw "CODEC" ;;
  if b then
    do! expTk "(" ;;
    do codecType <- parseIdent ;;
    do (typeLevel, name) <-
      (if str_in (upper (ident_name codecType)) deltaCodecs then
         do typeLevel <- tryParseCompressionLevel ;;
         do it <- cur_item ;;
         if tk it "," then
           do! expTk "," ;;
           do name <- parseIdent ;;
           Ret (typeLevel, name)
         else Ret (typeLevel, ENil)
       else if str_in (upper (ident_name codecType)) levelCodecs then
         do typeLevel <- tryParseCompressionLevel ;;
         Ret (typeLevel, ENil)
       else Ret (ENil, ENil)) ;;
    do level <-
      (if negb (is_nil name) && str_in (upper (ident_name name)) levelCodecs
       then tryParseCompressionLevel else Ret ENil) ;;
    do rightParenPos <- end_ ;;
    do! expTk ")" ;;
    if is_nil name then
      Ret (ECompressionCodec p rightParenPos ENil ENil codecType typeLevel)
    else
      Ret (ECompressionCodec p rightParenPos codecType typeLevel name level)
  else Ret ENil.

(** parser_table.go:935-953 [tryParsePrimaryKeyClause]. Called with [p.Pos()]. *)
Definition tryParsePrimaryKeyClause : prog expr :=
  do p <- pos_ ;;
  do b <- tryKw "PRIMARY" ;;
  if b then
    do! expKw "KEY" ;;
    do columnExpr <- parseExprHere ;;
    Ret (EPrimaryKeyClause p columnExpr)
  else Ret ENil.

(** parser_table.go:969-987 [tryParseTableOrderByClause]. Called with [p.Pos()]. *)
Definition tryParseTableOrderByClause : prog expr :=
  do p <- pos_ ;;
  do b <- tryKw "ORDER" ;;
  if b then
    do! expKw "BY" ;;
    do sortingKey <- parseOrderExpr p ;;
    do listEnd <- endOf sortingKey ;;
    Ret (EOrderByClause p listEnd [sortingKey] ENil)
  else Ret ENil.

(** parser_table.go:1209-1259 [tryParseTTLPolicy]. Called with [p.Pos()]. *)
Definition tryParseTTLPolicy : prog expr :=
  do p <- pos_ ;;
  do to <- tryKw "TO" ;;
  do it <- cur_item ;;
  do rule <-
    (if to then
       ifKw "DISK"
         (do value <- parseStringHere ;; Ret (ETTLPolicyRule p ENil value ENil))
         (ifKw "VOLUME"
            (do value <- parseStringHere ;; Ret (ETTLPolicyRule p value ENil ENil))
            (Fail (Msg "unexpected token: %q, expected DISK or VOLUME")))
     else if kws it ["DELETE"; "RECOMPRESS"] then
       do action <- cur_to_string ;;
       do! skip ;;
       do codec <- tryParseCompressionCodecs ;;
       Ret (ETTLPolicyRule p ENil ENil (ETTLPolicyRuleAction (ipos it) (iend it) action codec))
     else Ret ENil) ;;
  if is_nil rule then Ret ENil
  else
    do where_ <- tryParseWhereClause ;;
    do groupBy <- tryParseGroupByClause ;;
    Ret (ETTLPolicy rule where_ groupBy).

(** parser_table.go:1261-1275 [parseTTLExpr]. *)
Definition parseTTLExpr (p : pos) : prog expr :=
  do columnExpr <- parseExpr p ;;
  do policy <- tryParseTTLPolicy ;;
  Ret (ETTLExpr p columnExpr policy).

(** parser_table.go:1192-1207 [parseTTLClause]. *)
Definition parseTTLClause (p : pos) (allowMultiValues : bool) : prog (list expr) :=
  do e <- parseTTLExpr p ;;
  loop [e] (fun acc =>
    do it <- cur_item ;;
    if allowMultiValues && negb (it_eof it) then
      do c <- tryTkb "," ;;
      if c then do x <- parseTTLExpr p ;; Ret (inl (acc ++ [x])%list) else Ret (inr acc)
    else Ret (inr acc)).

(** parser_table.go:1173-1188 [tryParseTTLClause]. Called with [p.Pos()]. *)
Definition tryParseTTLClause (allowMultiValues : bool) : prog expr :=
  do p <- pos_ ;;
  do b <- tryKw "TTL" ;;
  if b then
    do items <- parseTTLClause p allowMultiValues ;;
    do listEnd <- lastEnd p items ;;
    Ret (ETTLClause p listEnd items)
  else Ret ENil.

(** parser_table.go:1277-1295 [tryParseSampleByClause]. Called with [p.Pos()]. *)
Definition tryParseSampleByClause : prog expr :=
  do p <- pos_ ;;
  do b <- tryKw "SAMPLE" ;;
  if b then
    do! expKw "BY" ;;
    do columnExpr <- parseExprHere ;;
    Ret (ESampleByClause p columnExpr)
  else Ret ENil.

(** parser_table.go:1386-1399 [parseDestinationClause]. Called with [p.Pos()]. *)
Definition parseDestinationClause : prog expr :=
  do p <- pos_ ;;
  do! expKw "TO" ;;
  do tableIdentifier <- parseTableIdentifier ;;
  Ret (EDestinationClause p tableIdentifier ENil).

(** The fields of the [EngineExpr] under construction in [parseEngineExpr]. *)
Record engine_acc := mkEng {
  g_primary : expr; g_partition : expr; g_sample : expr; g_ttl : expr; g_settings : expr; g_order : expr;
  g_end : pos }.

(** parser_table.go:1408-1487 [parseEngineExpr]. *)
Definition parseEngineExpr (p : pos) : prog expr :=
  do! expKw "ENGINE" ;;
  do _ignored <- tryTkb "=" ;;
  do it <- cur_item ;;
  if tk it KIdent then
    do ident <- parseIdent ;;
    do engineEnd <- endOf ident ;;
    do it <- cur_item ;;
    do params <- (if tk it "(" then parseFunctionParams else Ret ENil) ;;
    do g <- loop (mkEng ENil ENil ENil ENil ENil ENil engineEnd) (fun g =>
      do it <- cur_item ;;
      if it_eof it then Ret (inr g)
      else if kw it "ORDER" then
        do x <- tryParseTableOrderByClause ;;
        do e <- endOf x ;;
        Ret (inl (mkEng (g_primary g) (g_partition g) (g_sample g) (g_ttl g) (g_settings g) x e))
      else if kw it "PARTITION" then
        do x <- tryParsePartitionByClause (ipos it) ;;
        do e <- endOf x ;;
        Ret (inl (mkEng (g_primary g) x (g_sample g) (g_ttl g) (g_settings g) (g_order g) e))
      else if kw it "PRIMARY" then
        do x <- tryParsePrimaryKeyClause ;;
        do e <- endOf x ;;
        Ret (inl (mkEng x (g_partition g) (g_sample g) (g_ttl g) (g_settings g) (g_order g) e))
      else if kw it "SAMPLE" then
        do x <- tryParseSampleByClause ;;
        do e <- endOf x ;;
        Ret (inl (mkEng (g_primary g) (g_partition g) x (g_ttl g) (g_settings g) (g_order g) e))
      else if kw it "TTL" then
        do x <- tryParseTTLClause true ;;
        do e <- endOf x ;;
        Ret (inl (mkEng (g_primary g) (g_partition g) (g_sample g) x (g_settings g) (g_order g) e))
      else if kw it "SETTINGS" then
        do x <- tryParseSettingsClause ;;
        do e <- endOf x ;;
        Ret (inl (mkEng (g_primary g) (g_partition g) (g_sample g) (g_ttl g) x (g_order g) e))
      else Ret (inr g)) ;;
    Ret (EEngineExpr p (g_end g) (ident_name ident) params (g_primary g) (g_partition g) (g_sample g) (g_ttl g) (g_settings g) (g_order g))
  else Fail (Msg "unexpected token: %s").

(** parser_table.go:1401-1406 [tryParseEngineExpr]. *)
Definition tryParseEngineExpr : prog expr := whenKw "ENGINE" parseEngineExpr.

(** * Columns, indexes, projections *)

(** parser_alter.go:172-187 [tryParseProjectionOrderBy]. Called with [p.Pos()]. *)
Definition tryParseProjectionOrderBy : prog expr :=
  do p <- pos_ ;;
  do b <- tryKw "ORDER" ;;
  if b then
    do! expKw "BY" ;;
    do columns <- parseColumnExprList ;;
    Ret (EProjectionOrderByClause p columns)
  else Ret ENil.

(** parser_alter.go:189-225 [parseProjectionSelect]. Called with [p.Pos()]. *)
Definition parseProjectionSelect : prog expr :=
  do p <- pos_ ;;
  do! expTk "(" ;;
  do q <- pos_ ;;
  do with_ <- tryParseWithClause q ;;
  do! expKw "SELECT" ;;
  do columns <- parseColumnExprList ;;
  do groupBy <- tryParseGroupByClause ;;
  do orderBy <- tryParseProjectionOrderBy ;;
  do rightParenPos <- pos_ ;;
  do! expTk ")" ;;
  Ret (EProjectionSelectStmt p rightParenPos with_ columns groupBy orderBy).

(** parser_alter.go:227-247 [parseTableProjection]. *)
Definition parseTableProjection (p : pos) (includeProjectionKeyword : bool) : prog expr :=
  do! (if includeProjectionKeyword then expKw "PROJECTION" else Ret tt) ;;
  do identifier <- parseNestedIdentifier ;;
  do selectExpr <- parseProjectionSelect ;;
  Ret (ETableProjection includeProjectionKeyword p identifier selectExpr).

(** parser_alter.go:279-313 [parseTableIndex]. *)
Definition parseTableIndex (p : pos) : prog expr :=
  do name <- parseNestedIdentifier ;;
  do columnExpr <- parseColumnsExpr ;;
  do! expKw "TYPE" ;;
  do columnType <- parseColumnType ;;
  do! expKw "GRANULARITY" ;;
  do q <- pos_ ;;
  do granularity <- parseDecimal q ;;
  Ret (ETableIndex p name columnExpr columnType granularity).

(** parser_table.go:669-750 [parseTableColumnExpr]. *)
Definition parseTableColumnExpr (p : pos) : prog expr :=
  do name <- parseNestedIdentifier ;;
  do columnEnd <- endOf name ;;
  do it <- cur_item ;;
  do columnType <- (if tk it KIdent && negb (kw it "REMOVE") then parseColumnType else Ret ENil) ;;
  do columnEnd <- endOr columnType columnEnd ;;
  do q <- pos_ ;;
  do nullable <- tryParseNull q ;;
  do columnEnd <- endOr nullable columnEnd ;;
  do q <- pos_ ;;
  do notNull <- tryParseNotNull q ;;
  do columnEnd <- endOr notNull columnEnd ;;
  do (default, materialized, alias) <-
    ifKw "DEFAULT" (do e <- parseExprHere ;; Ret (e, ENil, ENil))
      (ifKw "MATERIALIZED" (do e <- parseExprHere ;; Ret (ENil, e, ENil))
        (ifKw "ALIAS" (do e <- parseExprHere ;; Ret (ENil, ENil, e)) (Ret (ENil, ENil, ENil)))) ;;
  do columnEnd <- endOr default columnEnd ;;
  do columnEnd <- endOr materialized columnEnd ;;
  do columnEnd <- endOr alias columnEnd ;;
  do q <- pos_ ;;
  do comment <- tryParseColumnComment q ;;
  do columnEnd <- endOr comment columnEnd ;;
  do codec <- tryParseCompressionCodecs ;;
  do columnEnd <- endOr codec columnEnd ;;
  do ttl <- tryParseTTLClause false ;;
  do columnEnd <- endOr ttl columnEnd ;;
  Ret (EColumnDef p columnEnd name columnType notNull nullable default materialized alias codec ttl comment ENil).

(** parser_table.go:662-667 [tryParseTableColumnExpr]. Called with [p.Pos()]. *)
Definition tryParseTableColumnExpr : prog expr :=
  do it <- cur_item ;;
  if tk it KIdent then parseTableColumnExpr (ipos it) else Ret ENil.

(** parser_table.go:607-660 [parseTableColumns]. *)
Definition parseTableColumns : prog (list expr) :=
  loop [] (fun acc =>
    do it <- cur_item ;;
    if it_eof it then Ret (inr acc)
    else
      do column <-
        (if kw it "INDEX" then do! skip ;; parseTableIndex (ipos it)
         else if kw it "CONSTRAINT" then
           do! skip ;;
           do ident <- parseIdent ;;
           do! expKw "CHECK" ;;
           do e <- parseExprHere ;;
           Ret (EConstraintClause (ipos it) ident e)
         else if kw it "PROJECTION" then parseTableProjection (ipos it) true
         else tryParseTableColumnExpr) ;;
      let acc := if is_nil column then acc else (acc ++ [column])%list in
      do c <- tryTkb "," ;;
      Ret (if c then inl acc else inr acc)).

(** parser_table.go:532-605 [parseTableSchemaClause]. Called with [p.Pos()]. *)
Definition parseTableSchemaClause : prog expr :=
  do it <- cur_item ;;
  let p := ipos it in
  if tk it "(" then
    do! expTk "(" ;;
    do columns <- parseTableColumns ;;
    do rightParenPos <- pos_ ;;
    do! expTk ")" ;;
    Ret (ETableSchemaClause p rightParenPos columns ENil ENil)
  else
    do asTable <-
      (if kw it "AS" then
         do b <- orM (peekKw "SELECT") (orM (peekKw "WITH") (peekTk "(")) ;; Ret (negb b)
       else Ret false) ;;
    if asTable then
      do _ignored <- tryKw "AS" ;;
      do ident <- parseIdent ;;
      do it <- cur_item ;;
      if tk it "." then
        do dotIdent <- tryParseDotIdent ;;
        do schemaEnd <- endOf dotIdent ;;
        Ret (ETableSchemaClause p schemaEnd [] (ETableIdentifier ident dotIdent) ENil)
      else if tk it "(" then
        do argsExpr <- parseTableArgList p ;;
        do schemaEnd <- end_ ;;
        Ret (ETableSchemaClause p schemaEnd [] ENil (ETableFunctionExpr ident argsExpr))
      else
        do schemaEnd <- end_ ;;
        Ret (ETableSchemaClause p schemaEnd [] (ETableIdentifier ENil ident) ENil)
    else Ret ENil.

(** * CREATE *)

(** parser_table.go:79-122 [parseCreateDatabase]. *)
Definition parseCreateDatabase (p : pos) : prog expr :=
  do! expKw "DATABASE" ;;
  do ifNotExists <- tryParseIfNotExists ;;
  do name <- parseIdent ;;
  do statementEnd <- endOf name ;;
  do onCluster <- tryParseClusterClause ;;
  do statementEnd <- endOr onCluster statementEnd ;;
  do engineExpr <- tryParseEngineExpr ;;
  do statementEnd <- endOr engineExpr statementEnd ;;
  do commentExpr <- tryParseComment ;;
  Ret (ECreateDatabase p statementEnd name ifNotExists onCluster engineExpr commentExpr).

(** parser_table.go:256-308 [parseNamedCollectionParam]. Called with [p.Pos()]. *)
Definition parseNamedCollectionParam : prog expr :=
  do p <- pos_ ;;
  do name <- parseIdent ;;
  do! expTk "=" ;;
  do it <- cur_item ;;
  do value <-
    (if tk it KString || tk it KInt || tk it KFloat then parseLiteralHere
     else if tk it KIdent then parseIdent
     else Fail (Msg "expected string, number or identifier in named collection parameter, got %s")) ;;
  do b <- tryKw "NOT" ;;
  do (notOverridable, overridable) <-
    (if b then do! expKw "OVERRIDABLE" ;; Ret (true, false)
     else do o <- tryKw "OVERRIDABLE" ;; Ret (false, o)) ;;
  Ret (ENamedCollectionParam p name value overridable notOverridable).

(** parser_table.go:190-254 [parseCreateNamedCollection]. *)
Definition parseCreateNamedCollection (p : pos) : prog expr :=
  do! expKw "NAMED" ;;
  do! expKw "COLLECTION" ;;
  do ifNotExists <- tryParseIfNotExists ;;
  do name <- parseIdent ;;
  do onCluster <- tryParseClusterClause ;;
  do! expKw "AS" ;;
  do params <- commaLoop it_eof parseNamedCollectionParam ;;
  do statementEnd <-
    (if negb (is_empty params) then endOf (last params ENil)
     else if negb (is_nil onCluster) then endOf onCluster
     else endOf name) ;;
  Ret (ECreateNamedCollection p statementEnd name ifNotExists onCluster params).

(** parser_table.go:310-401 [parseCreateTable]. *)
Definition parseCreateTable (p : pos) (orReplace : bool) : prog expr :=
  do hasTemporary <- tryKw "TEMPORARY" ;;
  do! expKw "TABLE" ;;
  do ifNotExists <- tryParseIfNotExists ;;
  do tableIdentifier <- parseTableIdentifier ;;
  do uuid <- tryParseUUID ;;
  do onCluster <- tryParseClusterClause ;;
  do tableSchema <- parseTableSchemaClause ;;
  do engineExpr <- tryParseEngineExpr ;;
  do statementEnd <- endOr engineExpr PZero ;;
  do b <- tryKw "AS" ;;
  do (subQuery, tableFunc) <-
    (if b then
       do it <- cur_item ;;
       if kw it "SELECT" || kw it "WITH" || tk it "(" then
         do s <- parseSubQuery ;; Ret (s, ENil)
       else if tk it KIdent then
         do ident <- parseIdent ;;
         do it <- cur_item ;;
         if tk it "(" then
           do argsExpr <- parseTableArgList (ipos it) ;;
           Ret (ENil, (ETableFunctionExpr ident argsExpr))
         else Fail (Msg "expected ( after identifier in AS clause, got %q")
       else Fail (Msg "expected SELECT, WITH or identifier after AS, got %q")
     else Ret (ENil, ENil)) ;;
  do statementEnd <- endOr subQuery statementEnd ;;
  do statementEnd <- endOr tableFunc statementEnd ;;
  do comment <- tryParseComment ;;
  Ret (ECreateTable p statementEnd orReplace tableIdentifier ifNotExists uuid onCluster tableSchema engineExpr subQuery tableFunc hasTemporary comment).

(** parser_table.go:2039-2078 [parseCreateFunction]. *)
Definition parseCreateFunction (p : pos) (orReplace : bool) : prog expr :=
  do! expKw "FUNCTION" ;;
  do ifNotExists <- tryParseIfNotExists ;;
  do functionName <- parseIdent ;;
  do onCluster <- tryParseClusterClause ;;
  do! expKw "AS" ;;
  do params <- parseFunctionParams ;;
  do! expTk "->" ;;
  do e <- parseExprHere ;;
  Ret (ECreateFunction p orReplace ifNotExists functionName onCluster params e).

(** * Dictionaries *)

(** The fields of a [DictionaryAttribute] that its property loop fills. *)
Record attr_acc := mkAttr {
  d_default : expr; d_expression : expr; d_hier : bool; d_inj : bool; d_obj : bool; d_end : pos }.

(** parser_table.go:2116-2183 [parseDictionaryAttribute]. Called with [p.Pos()]. *)
Definition parseDictionaryAttribute : prog expr :=
  do p <- pos_ ;;
  do name <- parseIdent ;;
  do columnType <- parseColumnType ;;
  do attrEnd <- endOf columnType ;;
  do a <- loop (mkAttr ENil ENil false false false attrEnd) (fun a =>
    do keywordEnd <- end_ ;;
    ifKw "DEFAULT"
      (if negb (is_nil (d_default a)) then Fail (Msg "duplicate DEFAULT clause")
       else
         do literal <- parseLiteralHere ;;
         do e <- endOf literal ;;
         Ret (inl (mkAttr literal (d_expression a) (d_hier a) (d_inj a) (d_obj a) e)))
    (ifKw "EXPRESSION"
      (if negb (is_nil (d_expression a)) then Fail (Msg "duplicate EXPRESSION clause")
       else
         do x <- parseExprHere ;;
         do e <- endOf x ;;
         Ret (inl (mkAttr (d_default a) x (d_hier a) (d_inj a) (d_obj a) e)))
    (ifKw "HIERARCHICAL"
      (if d_hier a then Fail (Msg "duplicate HIERARCHICAL clause")
       else Ret (inl (mkAttr (d_default a) (d_expression a) true (d_inj a) (d_obj a) keywordEnd)))
    (ifKw "INJECTIVE"
      (if d_inj a then Fail (Msg "duplicate INJECTIVE clause")
       else Ret (inl (mkAttr (d_default a) (d_expression a) (d_hier a) true (d_obj a) keywordEnd)))
    (ifKw "IS_OBJECT_ID"
      (if d_obj a then Fail (Msg "duplicate IS_OBJECT_ID clause")
       else Ret (inl (mkAttr (d_default a) (d_expression a) (d_hier a) (d_inj a) true keywordEnd)))
    (Ret (inr a))))))) ;;
  Ret (EDictionaryAttribute p (d_end a) name columnType (d_default a) (d_expression a) (d_hier a) (d_inj a) (d_obj a)).

(** parser_table.go:2082-2114 [parseDictionarySchemaClause]. Called with [p.Pos()]. *)
Definition parseDictionarySchemaClause : prog expr :=
  do p <- pos_ ;;
  do! expTk "(" ;;
  do attr <- parseDictionaryAttribute ;;
  do attributes <- sepTail "," [attr] parseDictionaryAttribute ;;
  do rParenPos <- pos_ ;;
  do! expTk ")" ;;
  Ret (EDictionarySchemaClause p attributes rParenPos).

(** parser_table.go:2257-2275 [parseDictionaryPrimaryKeyClause]. Called with [p.Pos()]. *)
Definition parseDictionaryPrimaryKeyClause : prog expr :=
  do p <- pos_ ;;
  do! expKw "PRIMARY" ;;
  do! expKw "KEY" ;;
  do keys <- parseColumnExprList ;;
  do keysEnd <- endOf keys ;;
  Ret (EDictionaryPrimaryKeyClause p keys (PPlus keysEnd (-1)%Z)).

(** parser_table.go:2320-2330 [parseDictionaryArgExprs]. *)
Definition parseDictionaryArgExprs : prog (list expr) :=
  loop [] (fun acc =>
    do it <- cur_item ;;
    if tk it ")" then Ret (inr acc)
    else do arg <- parseDictionaryArgExpr (ipos it) ;; Ret (inl (acc ++ [arg])%list)).

(** parser_table.go:2332-2406 [parseDictionaryArgExpr]. *)
Definition body_DictArg (p : pos) : prog expr :=
  do name <- parseAnyKeyword ;;
  do it <- cur_item ;;
  if tk it "(" then
    do! skip ;;
    do args <- parseDictionaryArgExprs ;;
    do rParenPos <- pos_ ;;
    do! expTk ")" ;;
    Ret (EDictionaryArgExpr p name ENil args (ipos it) rParenPos)
  else
    do value <-
      (if tk it KString || tk it KInt || tk it KFloat then parseLiteralHere
       else if tk it KIdent then
         do ident <- parseIdent ;;
         do it <- cur_item ;;
         if tk it "(" then
           do! skip ;;
           do! expTk ")" ;;
           Ret (EFunctionExpr ident ENil)
         else Ret ident
       else Fail (Msg "expected identifier, string or number in dictionary argument, got %s")) ;;
    Ret (EDictionaryArgExpr p name value [] PZero PZero).

(** parser_table.go:2277-2315 [parseDictionarySourceClause]. Called with [p.Pos()]. *)
Definition parseDictionarySourceClause : prog expr :=
  do p <- pos_ ;;
  do! expKw "SOURCE" ;;
  do! expTk "(" ;;
  do sourceName <- parseIdent ;;
  do! expTk "(" ;;
  do args <- parseDictionaryArgExprs ;;
  do! expTk ")" ;;
  do rParenPos <- pos_ ;;
  do! expTk ")" ;;
  Ret (EDictionarySourceClause p sourceName args rParenPos).

(** parser_table.go:2408-2470 [parseDictionaryLifetimeClause]. Called with [p.Pos()]. *)
Definition parseDictionaryLifetimeClause : prog expr :=
  do p <- pos_ ;;
  do! expKw "LIFETIME" ;;
  do! expTk "(" ;;
  do it <- cur_item ;;
  do (mn, mx, value) <-
    (if kws it ["MIN"; "MAX"] then
       let isMinFirst := kw it "MIN" in
       do! skip ;;
       do first <- parseNumberHere ;;
       do! expKw (if isMinFirst then "MAX" else "MIN") ;;
       do second <- parseNumberHere ;;
       Ret (if isMinFirst then (first, second, ENil) else (second, first, ENil))
     else do value <- parseNumberHere ;; Ret (ENil, ENil, value)) ;;
  do rParenPos <- pos_ ;;
  do! expTk ")" ;;
  Ret (EDictionaryLifetimeClause p mn mx value rParenPos).

(** parser_table.go:2472-2510 [parseDictionaryLayoutClause]. Called with [p.Pos()]. *)
Definition parseDictionaryLayoutClause : prog expr :=
  do p <- pos_ ;;
  do! expKw "LAYOUT" ;;
  do! expTk "(" ;;
  do layoutName <- parseIdent ;;
  do! expTk "(" ;;
  do args <- parseDictionaryArgExprs ;;
  do! expTk ")" ;;
  do rParenPos <- pos_ ;;
  do! expTk ")" ;;
  Ret (EDictionaryLayoutClause p layoutName args rParenPos).

(** parser_table.go:2512-2571 [parseDictionaryRangeClause]. Called with [p.Pos()]. *)
Definition parseDictionaryRangeClause : prog expr :=
  do p <- pos_ ;;
  do! expKw "RANGE" ;;
  do! expTk "(" ;;
  do it <- cur_item ;;
  do (mn, mx) <-
    (if kw it "MIN" then
       do! expKw "MIN" ;;
       do mn <- parseIdent ;;
       do! expKw "MAX" ;;
       do mx <- parseIdent ;;
       Ret (mn, mx)
     else if kw it "MAX" then
       do! expKw "MAX" ;;
       do mx <- parseIdent ;;
       do! expKw "MIN" ;;
       do mn <- parseIdent ;;
       Ret (mn, mx)
     else Fail (Msg "expected MIN or MAX in RANGE clause")) ;;
  do rParenPos <- pos_ ;;
  do! expTk ")" ;;
  Ret (EDictionaryRangeClause p mn mx rParenPos).

(** parser_table.go:2573-2610 [parseDictionarySettingsClause]. Called with [p.Pos()]. *)
Definition parseDictionarySettingsClause : prog expr :=
  do p <- pos_ ;;
  do! expKw "SETTINGS" ;;
  do! expTk "(" ;;
  do items <- parseSettingsList ;;
  do listEnd <- lastEnd p items ;;
  do! expTk ")" ;;
  Ret (ESettingsClause p listEnd items).

(** The fields of the [DictionaryEngineClause] under construction. *)
Record dict_acc := mkDict { k_source : expr; k_lifetime : expr; k_layout : expr; k_range : expr; k_settings : expr }.

(** parser_table.go:2185-2255 [parseDictionaryEngineClause]. Called with [p.Pos()]. *)
Definition parseDictionaryEngineClause : prog expr :=
  do it <- cur_item ;;
  let p := ipos it in
  do primaryKey <- (if kw it "PRIMARY" then parseDictionaryPrimaryKeyClause else Ret ENil) ;;
  do k <- loop (mkDict ENil ENil ENil ENil ENil) (fun k =>
    do it <- cur_item ;;
    if kw it "SOURCE" then
      if negb (is_nil (k_source k)) then Fail (Msg "duplicate SOURCE clause")
      else
        do x <- parseDictionarySourceClause ;;
        Ret (inl (mkDict x (k_lifetime k) (k_layout k) (k_range k) (k_settings k)))
    else if kw it "LIFETIME" then
      if negb (is_nil (k_lifetime k)) then Fail (Msg "duplicate LIFETIME clause")
      else
        do x <- parseDictionaryLifetimeClause ;;
        Ret (inl (mkDict (k_source k) x (k_layout k) (k_range k) (k_settings k)))
    else if kw it "LAYOUT" then
      if negb (is_nil (k_layout k)) then Fail (Msg "duplicate LAYOUT clause")
      else
        do x <- parseDictionaryLayoutClause ;;
        Ret (inl (mkDict (k_source k) (k_lifetime k) x (k_range k) (k_settings k)))
    else if kw it "RANGE" then
      if negb (is_nil (k_range k)) then Fail (Msg "duplicate RANGE clause")
      else
        do x <- parseDictionaryRangeClause ;;
        Ret (inl (mkDict (k_source k) (k_lifetime k) (k_layout k) x (k_settings k)))
    else if kw it "SETTINGS" then
      if negb (is_nil (k_settings k)) then Fail (Msg "duplicate SETTINGS clause")
      else
        do x <- parseDictionarySettingsClause ;;
        Ret (inl (mkDict (k_source k) (k_lifetime k) (k_layout k) (k_range k) x))
    else if is_nil (k_source k) then Fail (Msg "SOURCE clause is required for dictionary")
    else Ret (inr k)) ;;
  Ret (EDictionaryEngineClause p primaryKey (k_source k) (k_lifetime k) (k_layout k) (k_range k) (k_settings k)).

(** parser_table.go:124-188 [parseCreateDictionary]. *)
Definition parseCreateDictionary (p : pos) (orReplace : bool) : prog expr :=
  do! expKw "DICTIONARY" ;;
  do ifNotExists <- tryParseIfNotExists ;;
  do name <- parseTableIdentifier ;;
  do uuid <- tryParseUUID ;;
  do onCluster <- tryParseClusterClause ;;
  do schema <- parseDictionarySchemaClause ;;
  do engine <- parseDictionaryEngineClause ;;
  do statementEnd <- endOf engine ;;
  do comment <- tryParseComment ;;
  do statementEnd <- endOr comment statementEnd ;;
  Ret (ECreateDictionary p statementEnd orReplace name ifNotExists uuid onCluster schema engine comment).

(** * Other statements *)

(** parser_table.go:1569-1584 [parseUseStmt]. *)
Definition parseUseStmt (p : pos) : prog expr :=
  do! expKw "USE" ;;
  do database <- parseIdent ;;
  do statementEnd <- endOf database ;;
  Ret (EUseStmt p statementEnd database).

(** parser_table.go:1586-1711 [parseShowStmt]. *)
Definition parseShowStmt (p : pos) : prog expr :=
  do! expKw "SHOW" ;;
  do it <- cur_item ;;
  if kw it "CREATE" then
    do! skip ;;
    do! expKw "TABLE" ;;
    do target <- parseTableIdentifier ;;
    do statementEnd <- end_ ;;
    Ret (EShowStmt p statementEnd "CREATE TABLE" target false "" ENil ENil ENil ENil)
  else if kw it "DATABASES" then
    do! skip ;;
    do it <- cur_item ;;
    let notLike := kw it "NOT" in
    do! (if notLike then skip else Ret tt) ;;
    do it <- cur_item ;;
    do (likeType, likePattern) <-
      (if kw it "LIKE" || kw it "ILIKE" then
         do! skip ;;
         do pattern <- parseExprHere ;;
         Ret (if kw it "LIKE" then "LIKE" else "ILIKE", pattern)
       else Ret ("", ENil)) ;;
    do it <- cur_item ;;
    do limit <- (if kw it "LIMIT" then do! skip ;; parseExprHere else Ret ENil) ;;
    do it <- cur_item ;;
    do outFile <- (if kw it "INTO" then do! skip ;; do! expKw "OUTFILE" ;; parseStringHere else Ret ENil) ;;
    do it <- cur_item ;;
    do format <-
      (if kw it "FORMAT" then
         do! skip ;;
         do it <- cur_item ;;
         if tk it KString then parseStringHere
         else if tk it KIdent then
           do s <- grab ;;
           Ret (EStringLiteral (ipos it) (iend it) s)
         else Fail (Msg "expected format specification after FORMAT, got %q")
       else Ret ENil) ;;
    do statementEnd <- end_ ;;
    Ret (EShowStmt p statementEnd "DATABASES" ENil notLike likeType likePattern limit outFile format)
  else if kw it "TABLES" then
    do! skip ;;
    do statementEnd <- end_ ;;
    Ret (EShowStmt p statementEnd "TABLES" ENil false "" ENil ENil ENil ENil)
  else Fail (Msg "expected CREATE, DATABASES, or TABLES after SHOW, got %q").

(** parser_table.go:1713-1738 [parseDescribeStmt]. *)
Definition parseDescribeStmt (p : pos) : prog expr :=
  do it <- cur_item ;;
  if negb (kw it "DESC") && negb (kw it "DESCRIBE") then Fail (Msg "expected DESC or DESCRIBE")
  else
    do! skip ;;
    do it <- cur_item ;;
    let table := kw it "TABLE" in
    do! (if table then skip else Ret tt) ;;
    do tableIdent <- parseTableIdentifier ;;
    do statementEnd <- endOf tableIdent ;;
    Ret (EDescribeStmt p statementEnd (if table then "TABLE" else "") tableIdent).

(** parser_table.go:1741-1781 [parseTruncateTable]. *)
Definition parseTruncateTable (p : pos) : prog expr :=
  do! expKw "TRUNCATE" ;;
  do isTemporary <- tryKw "TEMPORARY" ;;
  do! expKw "TABLE" ;;
  do ifExists <- tryParseIfExists ;;
  do tableName <- parseTableIdentifier ;;
  do onCluster <- tryParseClusterClause ;;
  do statementEnd <- endOf tableName ;;
  do statementEnd <- endOr onCluster statementEnd ;;
  Ret (ETruncateTable p statementEnd isTemporary ifExists tableName onCluster).

(** parser_table.go:1783-1813 [parseDeleteClause]. *)
Definition parseDeleteClause (p : pos) : prog expr :=
  do! expKw "DELETE" ;;
  do! expKw "FROM" ;;
  do tableIdentifier <- parseTableIdentifier ;;
  do onCluster <- tryParseClusterClause ;;
  do! expKw "WHERE" ;;
  do whereExpr <- parseExprHere ;;
  Ret (EDeleteClause p tableIdentifier onCluster whereExpr).

(** parser_table.go:1815-1841 [parseColumnNamesExpr]. Called with [p.Pos()]. *)
Definition parseColumnNamesExpr : prog expr :=
  do p <- pos_ ;;
  do! expTk "(" ;;
  do columnNames <- closedLoop parseNestedIdentifier ;;
  do rightParenPos <- pos_ ;;
  do! expTk ")" ;;
  Ret (EColumnNamesExpr p rightParenPos columnNames).

(** parser_table.go:1843-1869 [parseTypedPlaceholder]. Called with [p.Pos()]. *)
Definition parseTypedPlaceholder : prog expr :=
  do p <- pos_ ;;
  do! expTk "{" ;;
  do name <- parseIdent ;;
  do! expTk ":" ;;
  do columnType <- parseColumnType ;;
  do! expTk "}" ;;
  do rightBracePos <- pos_ ;;
  Ret (ETypedPlaceholder p rightBracePos name columnType).

(** parser_table.go:1871-1907 [parseAssignmentValues]. *)
Definition body_AssignValues (p : pos) : prog expr :=
  do! expTk "(" ;;
  do values <- closedLoop
    (do it <- cur_item ;;
     if tk it "(" then parseAssignmentValues (ipos it)
     else if tk it "{" then parseTypedPlaceholder
     else parseExprHere) ;;
  do rightParenPos <- pos_ ;;
  do! expTk ")" ;;
  Ret (EAssignmentValues p rightParenPos values).

(** parser_table.go:1909-1968 [parseInsertStmt]. *)
Definition parseInsertStmt (p : pos) : prog expr :=
  do! expKw "INSERT" ;;
  do! expKw "INTO" ;;
  do hasTableKeyword <- tryKw "TABLE" ;;
  do b <- tryKw "FUNCTION" ;;
  do table <- (if b then parseFunctionExpr else parseTableIdentifier) ;;
  do it <- cur_item ;;
  do columnNames <- (if tk it "(" then parseColumnNamesExpr else Ret ENil) ;;
  do it <- cur_item ;;
  do (format, values, selectExpr) <-
    (if kw it "FORMAT" then do f <- parseFormat (ipos it) ;; Ret (f, [], ENil)
     else if kw it "VALUES" then
       do! skip ;;
       do values <- commaLoop it_eof (do q <- pos_ ;; parseAssignmentValues q) ;;
       Ret (ENil, values, ENil)
     else if kw it "SELECT" then do s <- parseSelectQuery ;; Ret (ENil, [], s)
     else Ret (ENil, [], ENil)) ;;
  Ret (EInsertStmt p format hasTableKeyword table columnNames values selectExpr).

(** parser_table.go:2020-2037 [parseTargetPair]. *)
Definition parseTargetPair : prog expr :=
  do oldTable <- parseTableIdentifier ;;
  do! expKw "TO" ;;
  do newTable <- parseTableIdentifier ;;
  Ret (ETargetPair oldTable newTable).

(** parser_table.go:1970-2018 [parseRenameStmt]. *)
Definition parseRenameStmt (p : pos) : prog expr :=
  do! expKw "RENAME" ;;
  do renameTarget <-
    ifKw "DICTIONARY" (Ret "DICTIONARY")
      (ifKw "DATABASE" (Ret "DATABASE") (do! expKw "TABLE" ;; Ret "TABLE")) ;;
  do targetPair <- parseTargetPair ;;
  do pairs <- sepTail "," [targetPair] parseTargetPair ;;
  do statementEnd <- endOf (last pairs ENil) ;;
  do onCluster <- tryParseClusterClause ;;
  do statementEnd <- endOr onCluster statementEnd ;;
  Ret (ERenameStmt p statementEnd renameTarget pairs onCluster).
