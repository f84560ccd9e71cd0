(** Model of parser/parse_system.go. *)
From Coq Require Import String List Arith Bool ZArith.
From Verif Require Import Str Keyword Lexer Ast AstPos Prog ParserCommon ParserExpr ParserQuery ParserTable ParserAlter ParserView.
Import ListNotations.
Local Open Scope string_scope.
Local Open Scope nat_scope.

(** [p.current().End], which panics when there is no current token. *)
Definition curEnd : prog pos :=
  Cur (fun it => match it_tok it with Some _ => Ret (iend it) | None => Panic "p.current().End" end).

(** [one of p separated by commas], e.g. parse_system.go:524-536. *)
Definition commaList (p : prog expr) : prog (list expr) :=
  do x <- p ;; sepTail "," [x] p.

(** * SET, SYSTEM, OPTIMIZE, CHECK *)

(** parse_system.go:8-20 [parseSetStmt]. *)
Definition parseSetStmt (p : pos) : prog expr :=
  do! expKw "SET" ;;
  do q <- pos_ ;;
  do settings <- parseSettingsClause q ;;
  Ret (ESetStmt p settings).

(** parse_system.go:22-34 [parseSettingsStmt]. *)
Definition parseSettingsStmt (p : pos) : prog expr :=
  do! expKw "SETTINGS" ;;
  do q <- pos_ ;;
  do settings <- parseSettingsClause q ;;
  Ret (ESetStmt p settings).

(** parse_system.go:36-63 [parseSystemFlushExpr]. *)
Definition parseSystemFlushExpr (p : pos) : prog expr :=
  do! expKw "FLUSH" ;;
  do it <- cur_item ;;
  if kw it "LOGS" then
    do! skip ;;
    Ret (ESystemFlushExpr p (iend it) true ENil)
  else
    ifKw "DISTRIBUTED"
      (do distributed <- parseTableIdentifier ;;
       do statementEnd <- endOf distributed ;;
       Ret (ESystemFlushExpr p statementEnd false distributed))
      (Fail (Msg "expected LOGS|DISTRIBUTED")).

(** parse_system.go:65-129 [parseSystemReloadExpr]. *)
Definition parseSystemReloadExpr (p : pos) : prog expr :=
  do! expKw "RELOAD" ;;
  do it <- cur_item ;;
  do (typ, statementEnd, hasDictionaryName) <-
    (if kw it "DICTIONARIES" then do! skip ;; Ret ("DICTIONARIES", iend it, false)
     else if kw it "DICTIONARY" then do! skip ;; Ret ("DICTIONARY", iend it, true)
     else
       ifKw "EMBEDDED"
         (do e <- curEnd ;;
          do! expKw "DICTIONARIES" ;;
          Ret ("EMBEDDED DICTIONARIES", e, false))
         (Fail (Msg "expected DICTIONARIES|DICTIONARY|EMBEDDED"))) ;;
  do onCluster <- tryParseClusterClause ;;
  do statementEnd <- endOr onCluster statementEnd ;;
  do (dictionary, onCluster, statementEnd) <-
    (if hasDictionaryName : bool then
       do dictionary <- parseTableIdentifier ;;
       do statementEnd <- endOf dictionary ;;
       if is_nil onCluster then
         do onCluster <- tryParseClusterClause ;;
         do statementEnd <- endOr onCluster statementEnd ;;
         Ret (dictionary, onCluster, statementEnd)
       else Ret (dictionary, onCluster, statementEnd)
     else Ret (ENil, onCluster, statementEnd)) ;;
  Ret (ESystemReloadExpr p statementEnd onCluster dictionary typ).

(** parse_system.go:131-146 [parseSystemSyncExpr]. *)
Definition parseSystemSyncExpr (p : pos) : prog expr :=
  do! expKw "SYNC" ;;
  do! expKw "REPLICA" ;;
  do cluster <- parseTableIdentifier ;;
  Ret (ESystemSyncExpr p cluster).

(** parse_system.go:148-199 [parseSystemCtrlExpr]. The keyword after DISTRIBUTED is matched but, except for the failing TTL branch, not consumed. *)
Definition parseSystemCtrlExpr (p : pos) : prog expr :=
  do it <- cur_item ;;
  if negb (kw it "START") && negb (kw it "STOP") then Fail (Msg "expected START|STOP")
  else
    do command <- cur_str ;;
    do! skip ;;
    let command := upper command in
    ifKw "DISTRIBUTED"
      (do it <- cur_item ;;
       do typ <-
         (if kw it "SENDS" then Ret "DISTRIBUTED SENDS"
          else if kw it "FETCHES" then Ret "FETCHES"
          else if kw it "MERGES" then Ret "MERGES"
          else if kw it "TTL" then do! expKw "MERGES" ;; Ret "TTL MERGES"
          else Fail (Msg "expected SENDS|FETCHES|MERGES|TTL")) ;;
       do cluster <- parseTableIdentifier ;;
       do statementEnd <- endOf cluster ;;
       Ret (ESystemCtrlExpr p statementEnd command typ cluster))
      (ifKw "REPLICATED"
        (do it <- cur_item ;;
         do! expKw "SENDS" ;;
         Ret (ESystemCtrlExpr p (iend it) command "REPLICATED SENDS" ENil))
        (Fail (Msg "expected DISTRIBUTED|REPLICATED"))).

(** parse_system.go:201-239 [parseSystemDropExpr]. *)
Definition parseSystemDropExpr (p : pos) : prog expr :=
  do! expKw "DROP" ;;
  do it <- cur_item ;;
  if kws it ["DNS"; "MARK"; "UNCOMPRESSED"; "FILESYSTEM"; "QUERY"] then
    do prefix <- grab ;;
    do statementEnd <- end_ ;;
    do! expKw "CACHE" ;;
    Ret (ESystemDropExpr p statementEnd ((prefix ++ " CACHE")%string))
  else if kw it "COMPILED" then
    do! skip ;;
    do! expKw "EXPRESSION" ;;
    do statementEnd <- end_ ;;
    do! expKw "CACHE" ;;
    Ret (ESystemDropExpr p statementEnd "COMPILED EXPRESSION CACHE")
  else Fail (Msg "expected DNS|MARK|REPLICA|DATABASE|UNCOMPRESSION|COMPILED|QUERY").

(** parse_system.go:332-360 [parseSystemStmt]. *)
Definition parseSystemStmt (p : pos) : prog expr :=
  do! expKw "SYSTEM" ;;
  do it <- cur_item ;;
  let q := ipos it in
  do e <-
    (if kw it "FLUSH" then parseSystemFlushExpr q
     else if kw it "RELOAD" then parseSystemReloadExpr q
     else if kw it "SYNC" then parseSystemSyncExpr q
     else if kws it ["START"; "STOP"] then parseSystemCtrlExpr q
     else if kw it "DROP" then parseSystemDropExpr q
     else Fail (Msg "expected FLUSH|RELOAD|SYNC|START|STOP")) ;;
  Ret (ESystemStmt p e).

(** parse_system.go:248-274 [parseDeduplicateClause]. *)
Definition parseDeduplicateClause (p : pos) : prog expr :=
  do! expKw "DEDUPLICATE" ;;
  ifKw "BY"
    (do by_ <- parseColumnExprList ;;
     do except_ <- ifKw "EXCEPT" parseColumnExprList (Ret ENil) ;;
     Ret (EDeduplicateClause p by_ except_))
    (Ret (EDeduplicateClause p ENil ENil)).

(** parse_system.go:241-246 [tryParseDeduplicateClause]. Called with [p.Pos()]. *)
Definition tryParseDeduplicateClause : prog expr := whenKw "DEDUPLICATE" parseDeduplicateClause.

(** parse_system.go:276-330 [parseOptimizeStmt]. *)
Definition parseOptimizeStmt (p : pos) : prog expr :=
  do! expKw "OPTIMIZE" ;;
  do! expKw "TABLE" ;;
  do table <- parseTableIdentifier ;;
  do statementEnd <- endOf table ;;
  do onCluster <- tryParseClusterClause ;;
  do statementEnd <- endOr onCluster statementEnd ;;
  do partition <- tryParsePartitionClause ;;
  do statementEnd <- endOr partition statementEnd ;;
  do lastPos <- pos_ ;;
  do hasFinal <- tryKw "FINAL" ;;
  let statementEnd := if hasFinal : bool then lastPos else statementEnd in
  do deduplicate <- tryParseDeduplicateClause ;;
  do statementEnd <- endOr deduplicate statementEnd ;;
  Ret (EOptimizeStmt p statementEnd table onCluster partition hasFinal deduplicate).

(** parse_system.go:362-382 [parseCheckStmt]. *)
Definition parseCheckStmt (p : pos) : prog expr :=
  do! expKw "CHECK" ;;
  do! expKw "TABLE" ;;
  do table <- parseTableIdentifier ;;
  do partition <- tryParsePartitionClause ;;
  Ret (ECheckStmt p table partition).

(** * Roles and users *)

(** parse_system.go:384-423 [parseRoleName]. *)
Definition parseRoleName : prog expr :=
  do it <- cur_item ;;
  if tk it KIdent then
    do name <- parseIdent ;;
    do at_ <- tryTkb "@" ;;
    do scope <- (if at_ : bool then parseStringHere else Ret ENil) ;;
    do onCluster <- tryParseClusterClause ;;
    Ret (ERoleName name scope onCluster)
  else if tk it KString then
    do name <- parseStringHere ;;
    do onCluster <- tryParseClusterClause ;;
    Ret (ERoleName name ENil onCluster)
  else Fail (Msg "expected <ident> or <string>").

(** parse_system.go:428. *)
Definition settingModifiers : list string := ["NONE"; "READABLE"; "WRITABLE"; "CONST"; "CHANGEABLE_IN_READONLY"].

(** parse_system.go:432-480 [parseRoleSetting]. *)
Definition parseRoleSetting : prog expr :=
  loop [] (fun pairs =>
    do it <- cur_item ;;
    if tk it KIdent then
      do name <- parseIdent ;;
      if str_in (ident_name name) settingModifiers then
        Ret (inr (ERoleSetting pairs name))
      else
        do it <- cur_item ;;
        if tk it "=" || tk it KInt || tk it KFloat || tk it KString then
          do eq_ <- tryTk "=" ;;
          let op := match eq_ with Some t => cur_kind t | None => "" end in
          do value <- parseLiteralHere ;;
          if negb (str_in (ident_name name) ["MIN"; "MAX"; "PROFILE"]) && negb (String.eqb op "=") then
            Fail (Msg "expected operator = or no value, but got %s")
          else
            Ret (inl (pairs ++ [(ESettingPair name op value)])%list)
        else Ret (inl (pairs ++ [(ESettingPair name "" ENil)])%list)
    else Ret (inr (ERoleSetting pairs ENil))).

(** parse_system.go:482-495 [parseRoleSettings]. *)
Definition parseRoleSettings : prog (list expr) :=
  loop [] (fun acc =>
    do setting <- parseRoleSetting ;;
    do c <- tryTkb "," ;;
    Ret (if c : bool then inl (acc ++ [setting])%list else inr (acc ++ [setting])%list)).

(** parse_system.go:425-430 [tryParseRoleSettings]. *)
Definition tryParseRoleSettings : prog (list expr) := ifKw "SETTINGS" parseRoleSettings (Ret []).

(** The modifiers of CREATE ROLE (parse_system.go:502-520) and CREATE USER
    (parse_system.go:747-766, [parseCreateUserModifiers]): IfNotExists, OrReplace. *)
Definition parseCreateModifiers : prog (bool * bool) :=
  do it <- cur_item ;;
  if kw it "IF" then
    do! skip ;;
    do! expKw "NOT" ;;
    do! expKw "EXISTS" ;;
    Ret (true, false)
  else if kw it "OR" then
    do! skip ;;
    do! expKw "REPLACE" ;;
    Ret (false, true)
  else Ret (false, false).

(** parse_system.go:497-563 [parseCreateRole]. *)
Definition parseCreateRole (p : pos) : prog expr :=
  do! expKw "ROLE" ;;
  do (ifNotExists, orReplace) <- parseCreateModifiers ;;
  do roleNames <- commaList parseRoleName ;;
  do statementEnd <- endOf (last roleNames ENil) ;;
  do accessStorageType <- ifKw "IN" parseIdent (Ret ENil) ;;
  do statementEnd <- endOr accessStorageType statementEnd ;;
  do settings <- tryParseRoleSettings ;;
  do statementEnd <- lastEnd statementEnd settings ;;
  Ret (ECreateRole p statementEnd ifNotExists orReplace roleNames accessStorageType settings).

(** parse_system.go:565-625 [parseAuthenticationClause]. Called with [p.Pos()]. *)
Definition parseAuthenticationClause : prog expr :=
  do p <- pos_ ;;
  ifKw "NOT"
    (do! expKw "IDENTIFIED" ;;
     do e <- curEnd ;;
     Ret (EAuthenticationClause p e true "" ENil ENil ENil false))
    (do! expKw "IDENTIFIED" ;;
     do authEnd <- curEnd ;;
     ifKw "WITH"
       (do it <- cur_item ;;
        if kw it "LDAP" then
          do! skip ;;
          do! expKw "SERVER" ;;
          do server <- parseStringHere ;;
          do e <- endOf server ;;
          Ret (EAuthenticationClause p e false "" ENil server ENil false)
        else if kw it "KERBEROS" then
          do! skip ;;
          do e <- curEnd ;;
          ifKw "REALM"
            (do realm <- parseStringHere ;;
             do e <- endOf realm ;;
             Ret (EAuthenticationClause p e false "" ENil ENil realm true))
            (Ret (EAuthenticationClause p e false "" ENil ENil ENil true))
        else if tk it KIdent then
          do authType <- grab ;;
          do e <- curEnd ;;
          ifKw "BY"
            (do value <- parseStringHere ;;
             do e <- endOf value ;;
             Ret (EAuthenticationClause p e false authType value ENil ENil false))
            (Ret (EAuthenticationClause p e false authType ENil ENil ENil false))
        else Ret (EAuthenticationClause p authEnd false "" ENil ENil ENil false))
       (Ret (EAuthenticationClause p authEnd false "" ENil ENil ENil false))).

(** parse_system.go:627-655 [parseHostClause]. Called with [p.Pos()]. *)
Definition parseHostClause : prog expr :=
  do p <- pos_ ;;
  do! expKw "HOST" ;;
  do it <- cur_item ;;
  if kws it ["LOCAL"; "ANY"; "NONE"] then
    do hostType <- grab ;;
    do e <- curEnd ;;
    Ret (EHostClause p e hostType ENil)
  else if kws it ["NAME"; "REGEXP"; "IP"; "LIKE"] then
    do hostType <- grab ;;
    do value <- parseStringHere ;;
    do e <- endOf value ;;
    Ret (EHostClause p e hostType value)
  else Fail (Msg "expected LOCAL|NAME|REGEXP|IP|LIKE|ANY|NONE").

(** parse_system.go:790-806 [parseHostClauses]. *)
Definition parseHostClauses : prog (list expr) := commaList parseHostClause.

(** parse_system.go:657-691 [parseDefaultRoleClause]. *)
Definition parseDefaultRoleClause : prog expr :=
  do p <- pos_ ;;
  do! expKw "DEFAULT" ;;
  do! expKw "ROLE" ;;
  ifKw "NONE"
    (do e <- curEnd ;; Ret (EDefaultRoleClause p e [] true))
    (do roles <- commaList parseRoleName ;;
     do e <- endOf (last roles ENil) ;;
     Ret (EDefaultRoleClause p e roles false)).

(** parse_system.go:693-749 [parseGranteesClause]. *)
Definition parseGranteesClause : prog expr :=
  do p <- pos_ ;;
  do! expKw "GRANTEES" ;;
  do (any, none, grantees, granteesEnd) <-
    ifKw "ANY" (do e <- curEnd ;; Ret (true, false, [], e))
      (ifKw "NONE" (do e <- curEnd ;; Ret (false, true, [], e))
        (do l <- commaList parseRoleName ;;
         do e <- endOf (last l ENil) ;;
         Ret (false, false, l, e))) ;;
  do (exceptUsers, granteesEnd) <-
    ifKw "EXCEPT"
      (do l <- commaList parseRoleName ;;
       do e <- endOf (last l ENil) ;;
       Ret (l, e))
      (Ret ([], granteesEnd)) ;;
  Ret (EGranteesClause p granteesEnd grantees exceptUsers any none).

(** parse_system.go:772-788 [parseUserNames]. *)
Definition parseUserNames : prog (list expr) := commaList parseRoleName.

(** The fields of the [CreateUser] that its optional clauses fill. *)
Record user_acc := mkUser {
  u_end : pos; u_auth : expr; u_hosts : list expr; u_defaultRole : expr; u_defaultDb : expr;
  u_defaultDbNone : bool; u_grantees : expr; u_valid : expr; u_settings : list expr }.

(** parse_system.go:808-839 [parseDefaultClause]. *)
Definition parseDefaultClause (u : user_acc) : prog (user_acc + user_acc) :=
  Peek (fun r =>
    match r with
    | inr e => Fail (Msg e)
    | inl None => Panic "parseDefaultClause: nextToken.String"
    | inl (Some t) =>
        if String.eqb (t_str t) "ROLE" then
          do x <- parseDefaultRoleClause ;;
          do e <- endOf x ;;
          Ret (inl (mkUser e (u_auth u) (u_hosts u) x (u_defaultDb u) (u_defaultDbNone u) (u_grantees u)
                      (u_valid u) (u_settings u)))
        else if String.eqb (t_str t) "DATABASE" then
          do! skip ;;
          do! skip ;;
          ifKw "NONE"
            (do e <- curEnd ;;
             Ret (inl (mkUser e (u_auth u) (u_hosts u) (u_defaultRole u) (u_defaultDb u) true (u_grantees u)
                         (u_valid u) (u_settings u))))
            (do db <- parseIdent ;;
             do e <- endOf db ;;
             Ret (inl (mkUser e (u_auth u) (u_hosts u) (u_defaultRole u) db (u_defaultDbNone u) (u_grantees u)
                         (u_valid u) (u_settings u))))
        else Ret (inr u)
    end).

(** parse_system.go:841-906 [parseOptionalClauses]. *)
Definition parseOptionalClauses (u : user_acc) : prog user_acc :=
  loop u (fun u =>
    do it <- cur_item ;;
    if kws it ["NOT"; "IDENTIFIED"] then
      do x <- parseAuthenticationClause ;;
      do e <- endOf x ;;
      Ret (inl (mkUser e x (u_hosts u) (u_defaultRole u) (u_defaultDb u) (u_defaultDbNone u) (u_grantees u)
                  (u_valid u) (u_settings u)))
    else if kw it "VALID" then
      do! skip ;;
      do! expKw "UNTIL" ;;
      do x <- parseStringHere ;;
      do e <- endOf x ;;
      Ret (inl (mkUser e (u_auth u) (u_hosts u) (u_defaultRole u) (u_defaultDb u) (u_defaultDbNone u)
                  (u_grantees u) x (u_settings u)))
    else if kw it "HOST" then
      do x <- parseHostClauses ;;
      do e <- endOf (last x ENil) ;;
      Ret (inl (mkUser e (u_auth u) x (u_defaultRole u) (u_defaultDb u) (u_defaultDbNone u) (u_grantees u)
                  (u_valid u) (u_settings u)))
    else if kw it "DEFAULT" then parseDefaultClause u
    else if kw it "GRANTEES" then
      do x <- parseGranteesClause ;;
      do e <- endOf x ;;
      Ret (inl (mkUser e (u_auth u) (u_hosts u) (u_defaultRole u) (u_defaultDb u) (u_defaultDbNone u) x
                  (u_valid u) (u_settings u)))
    else if kw it "SETTINGS" then
      do! skip ;;
      do x <- parseRoleSettings ;;
      do e <- lastEnd (u_end u) x ;;
      Ret (inl (mkUser e (u_auth u) (u_hosts u) (u_defaultRole u) (u_defaultDb u) (u_defaultDbNone u)
                  (u_grantees u) (u_valid u) x))
    else Ret (inr u)).

(** parse_system.go:908-934 [parseCreateUser]. *)
Definition parseCreateUser (p : pos) : prog expr :=
  do! expKw "USER" ;;
  do (ifNotExists, orReplace) <- parseCreateModifiers ;;
  do userNames <- parseUserNames ;;
  do statementEnd <- endOf (last userNames ENil) ;;
  do u <- parseOptionalClauses (mkUser statementEnd ENil [] ENil ENil false ENil ENil []) ;;
  Ret (ECreateUser p (u_end u) ifNotExists orReplace userNames (u_auth u) (u_valid u) (u_hosts u) (u_defaultRole u) (u_defaultDb u) (u_defaultDbNone u) (u_grantees u) (u_settings u)).

(** parse_system.go:936-996 [parserDropUserOrRole]. *)
Definition parserDropUserOrRole (p : pos) : prog expr :=
  do it <- cur_item ;;
  if kws it ["USER"; "ROLE"] then
    do target <- grab ;;
    do ifExists <- tryParseIfExists ;;
    do names <- commaList parseRoleName ;;
    do statementEnd <- endOf (last names ENil) ;;
    do onCluster <- tryParseClusterClause ;;
    do statementEnd <- endOr onCluster statementEnd ;;
    do from <- ifKw "FROM" parseIdent (Ret ENil) ;;
    do modifier <- tryParseModifier ;;
    Ret (EDropUserOrRole p target statementEnd names ifExists modifier from)
  else Fail (Msg "expected USER|ROLE").

(** * GRANT *)

Definition privilege (p : pos) (keywords : list string) : prog expr :=
  Ret (EPrivilegeClause p PZero keywords ENil).

(** parse_system.go:998-1015 [parsePrivilegeSelectOrInsert]. *)
Definition parsePrivilegeSelectOrInsert (p : pos) : prog expr :=
  do keyword <- grab ;;
  do it <- cur_item ;;
  do params <- (if tk it "(" then parseFunctionParams else Ret ENil) ;;
  Ret (EPrivilegeClause p PZero [keyword] params).

(** parse_system.go:1017-1078 [parsePrivilegeAlter]. *)
Definition parsePrivilegeAlter (p : pos) : prog expr :=
  ifKw "INDEX" (privilege p ["ALTER"; "INDEX"])
  (do it <- cur_item ;;
   if kws it ["UPDATE"; "DELETE"; "USER"; "ROLE"; "QUOTA"] then
     do k <- grab ;; privilege p ["ALTER"; k]
   else if kws it ["ADD"; "DROP"; "MODIFY"; "CLEAR"; "COMMENT"; "RENAME"; "MATERIALIZED"] then
     do k <- grab ;;
     ifKw "COLUMN" (privilege p ["ALTER"; k; "COLUMN"])
       (ifKw "INDEX" (privilege p ["ALTER"; k; "INDEX"; "CONSTRAINT"])
         (ifKw "TTL" (privilege p ["ALTER"; k; "TTL"])
           (Fail (Msg "expected COLUMN|INDEX"))))
   else
     ifKw "ORDER" (do! expKw "BY" ;; privilege p ["ALTER"; "ORDER"; "BY"])
     (ifKw "SAMPLE" (do! expKw "BY" ;; privilege p ["ALTER"; "SAMPLE"; "BY"])
     (ifKw "SETTINGS" (privilege p ["ALTER"; "SETTINGS"])
     (ifKw "VIEW"
        (ifKw "MODIFY" (privilege p ["ALTER"; "VIEW"; "MODIFY"])
          (ifKw "REFRESH" (privilege p ["ALTER"; "VIEW"; "REFRESH"])
            (Fail (Msg "expected MODIFY|REFRESH"))))
     (do it <- cur_item ;;
      if kws it ["MOVE"; "FREEZE"] then
        do k <- grab ;;
        do! expKw "PARTITION" ;;
        privilege p ["ALTER"; k; "PARTITION"]
      else Fail (Msg "expected UPDATE|DELETE|ADD|DROP|MODIFY|CLEAR|COMMENT|RENAME|MATERIALIZED|ORDER|SAMPLE|SETTINGS|VIEW|MOVE|FREEZE")))))).

(** parse_system.go:1080-1104 [parsePrivilegeCreate]. *)
Definition parsePrivilegeCreate (p : pos) : prog expr :=
  do it <- cur_item ;;
  if kws it ["DATABASE"; "DICTIONARY"; "TABLE"; "FUNCTION"; "VIEW"; "USER"; "ROLE"; "QUOTA"] then
    do k <- grab ;; privilege p ["CREATE"; k]
  else
    ifKw "TEMPORARY" (do! expKw "TABLE" ;; privilege p ["CREATE"; "TEMPORARY"; "TABLE"])
      (ifKw "ROWS" (do! expKw "POLICY" ;; privilege p ["CREATE"; "ROWS"; "POLICY"])
        (Fail (Msg "expected DATABASE|DICTIONARY|TABLE|FUNCTION|VIEW|USER|ROLE|ROWS"))).

(** parse_system.go:1106-1120 [parsePrivilegeDrop]. *)
Definition parsePrivilegeDrop (p : pos) : prog expr :=
  do it <- cur_item ;;
  if kws it ["DATABASE"; "DICTIONARY"; "USER"; "ROLE"; "QUOTA"; "TABLE"; "FUNCTION"; "VIEW"] then
    do k <- grab ;; privilege p ["DROP"; k]
  else Fail (Msg "expected DATABASE|DICTIONARY|TABLE|FUNCTION|VIEW").

(** parse_system.go:1122-1136 [parsePrivilegeShow]. *)
Definition parsePrivilegeShow (p : pos) : prog expr :=
  do it <- cur_item ;;
  if kws it ["DATABASES"; "DICTIONARIES"; "TABLES"; "COLUMNS"] then
    do k <- grab ;; privilege p ["SHOW"; k]
  else Fail (Msg "expected DATABASES|DICTIONARIES|TABLES|COLUMNS").

(** parse_system.go:1138-1208 [parsePrivilegeSystem]. The clause starts with SHOW in the Go code too. *)
Definition parsePrivilegeSystem (p : pos) : prog expr :=
  do it <- cur_item ;;
  if kws it ["SHUTDOWN"; "MERGES"; "FETCHES"; "SENDS"; "MOVES"; "CLUSTER"] then
    do k <- grab ;; privilege p ["SHOW"; k]
  else
    ifKw "DROP"
      (ifKw "CACHE" (privilege p ["SHOW"; "DROP"; "CACHE"])
        (do it <- cur_item ;;
         if kws it ["MARK"; "DNS"; "UNCOMPRESSED"] then
           do k <- grab ;;
           do! expKw "CACHE" ;;
           privilege p ["SHOW"; "DROP"; k; "CACHE"]
         else Fail (Msg "expected CACHE|MARK|DNS|UNCOMPRESSED")))
    (ifKw "RELOAD"
      (do it <- cur_item ;;
       if kws it ["DICTIONARY"; "FUNCTION"; "FUNCTIONS"; "CONFIG"] then
         do k <- grab ;; privilege p ["SHOW"; "RELOAD"; k]
       else Fail (Msg "expected DICTIONARY|FUNCTION|FUNCTIONS|CONFIG"))
    (ifKw "FLUSH"
      (do it <- cur_item ;;
       if kws it ["LOGS"; "DISTRIBUTED"] then
         do k <- grab ;; privilege p ["SHOW"; "FLUSH"; k]
       else Fail (Msg "expected LOGS|DISTRIBUTED"))
    (ifKw "TTL" (do! expKw "MERGES" ;; privilege p ["SHOW"; "TTL"; "MERGES"])
    (do it <- cur_item ;;
     if kws it ["SYNC"; "RESTART"] then
       do k <- grab ;;
       do! expKw "REPLICA" ;;
       privilege p ["SHOW"; k; "REPLICA"]
     else
       ifKw "REPLICATION" (do! expKw "QUEUES" ;; privilege p ["SHOW"; "REPLICATION"; "QUEUES"])
         (Fail (Msg "expected QUEUES|SHUTDOWN|MERGES|FETCHES|SENDS|MOVES|CLUSTER|DROP|RELOAD|FLUSH|TTL|SYNC|RESTART|REPLICATION")))))).

(** parse_system.go:1210-1272 [parsePrivilegeClause]. Called with [p.Pos()]. *)
Definition parsePrivilegeClause : prog expr :=
  do it <- cur_item ;;
  let p := ipos it in
  if tk it KIdent && String.eqb (cur_string it) "dictGet" then
    do! skip ;;
    privilege p ["dictGet"]
  else if kws it ["SELECT"; "INSERT"] then parsePrivilegeSelectOrInsert p
  else
    ifKw "ALTER" (parsePrivilegeAlter p)
    (ifKw "CREATE" (parsePrivilegeCreate p)
    (ifKw "DROP" (parsePrivilegeDrop p)
    (ifKw "SHOW" (parsePrivilegeShow p)
    (do it <- cur_item ;;
     if kw it "ALL" || tk it "NONE" then
       do! skip ;;
       privilege p ["ALL"]
     else
       ifKw "KILL" (do! expKw "QUERY" ;; privilege p ["KILL"; "QUERY"])
       (ifKw "SYSTEM" (parsePrivilegeSystem p)
       (ifKw "ADMIN" (do! expKw "OPTION" ;; privilege p ["ADMIN"; "OPTION"])
       (do it <- cur_item ;;
        if kws it ["OPTIMIZE"; "TRUNCATE"] then
          do k <- grab ;; privilege p [k]
        else
          ifKw "ROLE" (do! expKw "ADMIN" ;; privilege p ["ROLE"; "ADMIN"])
            (Fail (Msg "expected SELECT|INSERT|ALTER|CREATE|DROP|SHOW|KILL|SYSTEM|OPTIMIZE|TRUNCATE"))))))))).

(** parse_system.go:1274-1289 [parsePrivilegeRoles]. *)
Definition parsePrivilegeRoles : prog (list expr) := commaList parseIdent.

(** parse_system.go:1303-1317 [parseGrantOption]. *)
Definition parseGrantOption : prog string :=
  do! expKw "WITH" ;;
  do ident <- parseAnyKeyword ;;
  do! expKw "OPTION" ;;
  Ret (ident_name ident).

(** parse_system.go:1291-1301 [parseGrantOptions]. *)
Definition parseGrantOptions : prog (list string) :=
  loop [] (fun acc =>
    do it <- cur_item ;;
    if kw it "WITH" then do o <- parseGrantOption ;; Ret (inl (acc ++ [o])%list)
    else Ret (inr acc)).

(** parse_system.go:1319-1343 [parseGrantSource]. *)
Definition parseGrantSource : prog expr :=
  do ident <- parseIdentOrStar ;;
  do d <- tryTkb "." ;;
  if d then
    do it <- cur_item ;;
    do dotIdent <- (if tk it "*" then parseIdentOrStar else parseAnyKeyword) ;;
    Ret (ETableIdentifier ident dotIdent)
  else Ret (ETableIdentifier ENil ident).

(** parse_system.go:1345-1403 [parseGrantPrivilegeStmt]. *)
Definition parseGrantPrivilegeStmt (p : pos) : prog expr :=
  do! expKw "GRANT" ;;
  do onCluster <- tryParseClusterClause ;;
  do privileges <- commaList parsePrivilegeClause ;;
  do statementEnd <- endOf (last privileges ENil) ;;
  do! expKw "ON" ;;
  do on_ <- parseGrantSource ;;
  do! expKw "TO" ;;
  do toRoles <- parsePrivilegeRoles ;;
  do statementEnd <- lastEnd statementEnd toRoles ;;
  do options <- parseGrantOptions ;;
  do here <- end_ ;;
  Ret (EGrantPrivilegeStmt p (match options with [] => statementEnd | _ => here end) onCluster privileges on_ toRoles options).

(** parse_system.go:1447-1468 [parseRoleRenamePair]. *)
Definition parseRoleRenamePair : prog expr :=
  do roleName <- parseRoleName ;;
  do statementEnd <- endOf roleName ;;
  ifKw "RENAME"
    (do! expKw "TO" ;;
     do newName <- parseIdent ;;
     do statementEnd <- endOf newName ;;
     Ret (ERoleRenamePair roleName newName statementEnd))
    (Ret (ERoleRenamePair roleName ENil statementEnd)).

(** parse_system.go:1405-1445 [parseAlterRole]. *)
Definition parseAlterRole (p : pos) : prog expr :=
  do! expKw "ROLE" ;;
  do ifExists <- tryParseIfExists ;;
  do pairs <- commaList parseRoleRenamePair ;;
  do statementEnd <- endOf (last pairs ENil) ;;
  do settings <- tryParseRoleSettings ;;
  do statementEnd <- lastEnd statementEnd settings ;;
  Ret (EAlterRole p statementEnd ifExists pairs settings).
