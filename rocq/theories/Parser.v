(** Statements (parser_table.go:9-78 and 1486-1567), error wrapping
    (parser_common.go:456-480), and the parser as a whole. *)
From Coq Require Import String List Arith Bool ZArith.
From Verif Require Import Str Keyword Lexer Ast AstPos Prog Items ParserCommon ParserExpr ParserQuery ParserTable
  ParserAlter ParserView ParserSystem.
Import ListNotations.
Local Open Scope string_scope.
Local Open Scope nat_scope.

(** parser_table.go:9-77 [parseDDL]. The final [return nil, nil] is out of reach of [parseStmt]. *)
Definition parseDDL (p : pos) : prog expr :=
  do it <- cur_item ;;
  if kws it ["CREATE"; "ATTACH"] then
    do! skip ;;
    do orReplace <- tryKws ["OR"; "REPLACE"] ;;
    do it <- cur_item ;;
    if orReplace && negb (kws it ["TEMPORARY"; "TABLE"; "VIEW"; "FUNCTION"; "DICTIONARY"]) then
      Fail (Msg "expected keyword: TEMPORARY|TABLE|VIEW|FUNCTION|DICTIONARY, but got %q")
    else if kw it "NAMED" then parseCreateNamedCollection p
    else if kw it "DATABASE" then parseCreateDatabase p
    else if kw it "DICTIONARY" then parseCreateDictionary p orReplace
    else if kws it ["TABLE"; "TEMPORARY"] then parseCreateTable p orReplace
    else if kw it "FUNCTION" then parseCreateFunction p orReplace
    else if kw it "MATERIALIZED" then parseCreateMaterializedView p
    else if kw it "LIVE" then parseCreateLiveView p
    else if kw it "VIEW" then parseCreateView p orReplace
    else if kw it "ROLE" then parseCreateRole p
    else if kw it "USER" then parseCreateUser p
    else Fail (Msg "expected keyword: NAMED|DATABASE|DICTIONARY|TABLE|VIEW|ROLE|USER|FUNCTION|MATERIALIZED, but got %q")
  else if kw it "ALTER" then
    do! skip ;;
    do it <- cur_item ;;
    if kw it "ROLE" then parseAlterRole p
    else if kw it "TABLE" then parseAlterTable p
    else Fail (Msg "expected keyword: TABLE|ROLE, but got %q")
  else if kws it ["DROP"; "DETACH"] then
    do! skip ;;
    do it <- cur_item ;;
    if kw it "DATABASE" then parseDropDatabase p
    else if kws it ["TEMPORARY"; "VIEW"; "DICTIONARY"; "TABLE"] then parseDropStmt p
    else if kws it ["USER"; "ROLE"] then parserDropUserOrRole p
    else Fail (Msg "expected keyword: DATABASE|TABLE, but got %q")
  else if kw it "TRUNCATE" then parseTruncateTable p
  else if kw it "RENAME" then parseRenameStmt p
  else Ret ENil.

(** parser_table.go:1489-1531, the switch of [parseStmt]. *)
Definition parseStmtBody : prog expr :=
  do it <- cur_item ;;
  let p := ipos it in
  if kws it ["CREATE"; "ATTACH"; "ALTER"; "DROP"; "DETACH"; "TRUNCATE"; "RENAME"] then parseDDL p
  else if kws it ["SELECT"; "WITH"] then parseSelectQuery
  else if kw it "DELETE" then parseDeleteClause p
  else if kw it "INSERT" then parseInsertStmt p
  else if kw it "USE" then parseUseStmt p
  else if kw it "SET" then parseSetStmt p
  else if kw it "SETTINGS" then parseSettingsStmt p
  else if kw it "SYSTEM" then parseSystemStmt p
  else if kw it "OPTIMIZE" then parseOptimizeStmt p
  else if kw it "CHECK" then parseCheckStmt p
  else if kw it "EXPLAIN" then parseExplainStmt p
  else if kw it "GRANT" then parseGrantPrivilegeStmt p
  else if kw it "SHOW" then parseShowStmt p
  else if kws it ["DESC"; "DESCRIBE"] then parseDescribeStmt p
  else if no_tok it then Fail (Msg "unexpected end of input")
  else Fail (Msg "unexpected token: %q").

(** parser_table.go:1489-1546 [parseStmt]. Called with [p.Pos()]. *)
Definition parseStmt : prog expr :=
  do e <- parseStmtBody ;;
  do _format <- tryParseFormatHere ;;
  do it <- cur_item ;;
  if negb (no_tok it) && negb (tk it ";") then Fail (Msg "<EOF> or ';' was expected, but got: %q")
  else Ret e.

(** parser_table.go:1548-1567 [ParseStmts]. [wrapError] is applied by [parse] below. *)
Definition ParseStmts : prog (list expr) :=
  loop [] (fun stmts =>
    do! consumeOrFail ;;
    do it <- cur_item ;;
    if it_eof it then Ret (inr stmts)
    else if tk it ";" then Ret (inl stmts)
    else do stmt <- parseStmt ;; Ret (inl (stmts ++ [stmt])%list)).

(** The bodies of the recursive methods. *)
Definition body (n : nt) : prog expr :=
  match n with
  | NSubExpr p prec => body_SubExpr p prec
  | NSelectQuery => body_SelectQuery
  | NColumnTypeArgs ident => body_ColumnTypeArgs ident
  | NJoinRight p => body_JoinRight p
  | NTableArg p => body_TableArg p
  | NDictArg p => body_DictArg p
  | NAssignValues p => body_AssignValues p
  | NInterval => parseInterval true
  end.

(** Enough fuel for an input of [n] items; TermFacts.v proves it is enough. *)
Definition parse_fuel (n : nat) : nat := 10 * n + 10.

(** [NewParser(input).ParseStmts()] before [wrapError]: [None] when the lexer
    itself does not yield the items (LexerFacts.v excludes it). *)
Definition parse_items (its : list item) : outcome (list expr) :=
  match init_pstate its with
  | None => RPanic "no initial state"
  | Some s => run body (parse_fuel (List.length its)) ParseStmts s
  end.

Definition items_of (inp : string) : lres (list item) :=
  let* l := states inp in LVal (number_items inp 0 l).

Definition parse (inp : string) : lres (outcome (list expr)) :=
  let* its := items_of inp in LVal (parse_items its).
