(** Model of parser/parser_alter.go. *)
From Coq Require Import String List Arith Bool ZArith.
From Verif Require Import Str Keyword Lexer Ast AstPos Prog ParserCommon ParserExpr ParserQuery ParserTable.
Import ListNotations.
Local Open Scope string_scope.
Local Open Scope nat_scope.

(** parser_alter.go:458-464 [tryParseAfterClause]. *)
Definition tryParseAfterClause : prog expr :=
  ifKw "AFTER" parseNestedIdentifier (Ret ENil).

(** parser_alter.go:364-388 [parsePartitionClause]. *)
Definition parsePartitionClause (p : pos) : prog expr :=
  do! expKw "PARTITION" ;;
  ifKw "ID"
    (do id <- parseStringHere ;; Ret (EPartitionClause p ENil id false))
    (ifKw "ALL"
      (Ret (EPartitionClause p ENil ENil true))
      (do e <- parseExprHere ;; Ret (EPartitionClause p e ENil false))).

(** parser_alter.go:357-362 [tryParsePartitionClause]. Called with [p.Pos()]. *)
Definition tryParsePartitionClause : prog expr := whenKw "PARTITION" parsePartitionClause.

(** parser_alter.go:99-139 [parseAlterTableAddColumn]. *)
Definition parseAlterTableAddColumn (p : pos) : prog expr :=
  do! expKw "COLUMN" ;;
  do ifNotExists <- tryParseIfNotExists ;;
  do q <- pos_ ;;
  do column <- parseTableColumnExpr q ;;
  do statementEnd <- endOf column ;;
  do after <- tryParseAfterClause ;;
  do statementEnd <- endOr after statementEnd ;;
  do settings <- tryParseSettingsClause ;;
  do statementEnd <- endOr settings statementEnd ;;
  Ret (EAlterTableAddColumn p statementEnd column ifNotExists after settings).

(** parser_alter.go:141-170 [parseAlterTableAddIndex]. *)
Definition parseAlterTableAddIndex (p : pos) : prog expr :=
  do indexPos <- pos_ ;;
  do! expKw "INDEX" ;;
  do ifNotExists <- tryParseIfNotExists ;;
  do index <- parseTableIndex indexPos ;;
  do statementEnd <- endOf index ;;
  do after <- tryParseAfterClause ;;
  do statementEnd <- endOr after statementEnd ;;
  Ret (EAlterTableAddIndex p statementEnd index ifNotExists after).

(** parser_alter.go:249-277 [parseAlterTableAddProjection]. *)
Definition parseAlterTableAddProjection (p : pos) : prog expr :=
  do! expKw "PROJECTION" ;;
  do ifNotExists <- tryParseIfNotExists ;;
  do q <- pos_ ;;
  do tableProjection <- parseTableProjection q false ;;
  do statementEnd <- endOf tableProjection ;;
  do after <- tryParseAfterClause ;;
  do statementEnd <- endOr after statementEnd ;;
  Ret (EAlterTableAddProjection p statementEnd ifNotExists tableProjection after).

(** parser_alter.go:82-97 [parseAlterTableAdd]. *)
Definition parseAlterTableAdd (p : pos) : prog expr :=
  do! expKw "ADD" ;;
  do it <- cur_item ;;
  if kw it "COLUMN" then parseAlterTableAddColumn p
  else if kw it "INDEX" then parseAlterTableAddIndex p
  else if kw it "PROJECTION" then parseAlterTableAddProjection p
  else Fail (Msg "expected token: COLUMN|INDEX|PROJECTION").

(** parser_alter.go:413-456 [parseAlterTableDropClause]. *)
Definition parseAlterTableDropClause (p : pos) : prog expr :=
  do it <- cur_item ;;
  if kws it ["COLUMN"; "INDEX"; "PROJECTION"] then
    do! skip ;;
    do ifExists <- tryParseIfExists ;;
    do name <- parseNestedIdentifier ;;
    Ret (if kw it "COLUMN" then (EAlterTableDropColumn p name ifExists)
         else if kw it "INDEX" then (EAlterTableDropIndex p name ifExists)
         else (EAlterTableDropProjection p name ifExists))
  else Fail (Msg "expected token: COLUMN|INDEX|PROJECTION, but got %s").

(** parser_alter.go:467-497 [parseAlterTableDropPartition]. *)
Definition parseAlterTableDropPartition (p : pos) : prog expr :=
  do it <- cur_item ;;
  let hasDetached := kw it "DETACHED" in
  do! (if hasDetached then skip else Ret tt) ;;
  do partitionPos <- pos_ ;;
  do! expKw "PARTITION" ;;
  do e <- parseExprHere ;;
  do settings <- tryParseSettingsClause ;;
  Ret (EAlterTableDropPartition p hasDetached (EPartitionClause partitionPos e ENil false) settings).

(** parser_alter.go:315-328 [parseAlterTableDrop]. *)
Definition parseAlterTableDrop (p : pos) : prog expr :=
  do! expKw "DROP" ;;
  do it <- cur_item ;;
  if kws it ["COLUMN"; "INDEX"; "PROJECTION"] then parseAlterTableDropClause p
  else if kws it ["DETACHED"; "PARTITION"] then parseAlterTableDropPartition p
  else Fail (Msg "expected keyword: COLUMN|INDEX|PROJECTION|DETACHED|PARTITION").

(** parser_alter.go:331-355 [parseAlterTableDetachPartition]. *)
Definition parseAlterTableDetachPartition (p : pos) : prog expr :=
  do partitionPos <- pos_ ;;
  do! expKw "PARTITION" ;;
  do e <- parseExprHere ;;
  do settings <- tryParseSettingsClause ;;
  Ret (EAlterTableDetachPartition p (EPartitionClause partitionPos e ENil false) settings).

(** parser_alter.go:391-411 [parseAlterTableAttachPartition]. *)
Definition parseAlterTableAttachPartition (p : pos) : prog expr :=
  do! expKw "ATTACH" ;;
  do q <- pos_ ;;
  do partition <- parsePartitionClause q ;;
  do from <- ifKw "FROM" parseTableIdentifier (Ret ENil) ;;
  Ret (EAlterTableAttachPartition p partition from).

(** parser_alter.go:499-517 [parseAlterTableFreezePartition]. *)
Definition parseAlterTableFreezePartition (p : pos) : prog expr :=
  do! expKw "FREEZE" ;;
  do statementEnd <- pos_ ;;
  do partition <- whenKw "PARTITION" parsePartitionClause ;;
  do statementEnd <- endOr partition statementEnd ;;
  Ret (EAlterTableFreezePartition p statementEnd partition).

(** parser_alter.go:519-532 [parseAlterTableRemoveTTL]. *)
Definition parseAlterTableRemoveTTL (p : pos) : prog expr :=
  do! expKw "REMOVE" ;;
  do! expKw "TTL" ;;
  do statementEnd <- pos_ ;;
  Ret (EAlterTableRemoveTTL p statementEnd).

(** parser_alter.go:542-603 [parseAlterTableClearClause]. *)
Definition parseAlterTableClearClause (p : pos) : prog expr :=
  do it <- cur_item ;;
  if kws it ["COLUMN"; "INDEX"; "PROJECTION"] then
    do! skip ;;
    do ifExists <- tryParseIfExists ;;
    do name <- parseNestedIdentifier ;;
    do statementEnd <- endOf name ;;
    do partition <- ifKw "IN" tryParsePartitionClause (Ret ENil) ;;
    do statementEnd <- endOr partition statementEnd ;;
    Ret (if kw it "COLUMN" then
           (EAlterTableClearColumn p statementEnd ifExists name partition)
         else if kw it "INDEX" then
           (EAlterTableClearIndex p statementEnd ifExists name partition)
         else
           (EAlterTableClearProjection p statementEnd ifExists name partition))
  else Fail (Msg "expected keyword: COLUMN|INDEX|PROJECTION, but got %q").

(** parser_alter.go:534-539 [parseAlterTableClear]. *)
Definition parseAlterTableClear (p : pos) : prog expr :=
  do! expKw "CLEAR" ;;
  parseAlterTableClearClause p.

(** parser_alter.go:606-640 [parseAlterTableRenameColumn]. *)
Definition parseAlterTableRenameColumn (p : pos) : prog expr :=
  do! expKw "RENAME" ;;
  do! expKw "COLUMN" ;;
  do ifExists <- tryParseIfExists ;;
  do oldColumnName <- parseNestedIdentifier ;;
  do! expKw "TO" ;;
  do newColumnName <- parseNestedIdentifier ;;
  Ret (EAlterTableRenameColumn p ifExists oldColumnName newColumnName).

(** parser_alter.go:750-768 [tryParseRemovePropertyTypeExpr]. Called with [p.Pos()]. *)
Definition tryParseRemovePropertyTypeExpr : prog expr :=
  do it <- cur_item ;;
  if kw it "REMOVE" then
    do! expKw "REMOVE" ;;
    do columnPropertyType <- parseColumnPropertyType ;;
    Ret (ERemovePropertyType (ipos it) columnPropertyType)
  else Ret ENil.

(** parser_alter.go:717-748 [parseAlterTableModifyColumn]. *)
Definition parseAlterTableModifyColumn (p : pos) : prog expr :=
  do! expKw "COLUMN" ;;
  do ifExists <- tryParseIfExists ;;
  do q <- pos_ ;;
  do column <- parseTableColumnExpr q ;;
  do statementEnd <- endOf column ;;
  do removePropertyType <- tryParseRemovePropertyTypeExpr ;;
  Ret (EAlterTableModifyColumn p statementEnd ifExists column removePropertyType).

(** parser_alter.go:642-714 [parseAlterTableModify]. *)
Definition parseAlterTableModify (p : pos) : prog expr :=
  do! expKw "MODIFY" ;;
  do it <- cur_item ;;
  if kw it "COLUMN" then parseAlterTableModifyColumn p
  else if kw it "TTL" then
    let ttlPos := ipos it in
    do! skip ;;
    do items <- parseTTLClause ttlPos true ;;
    do listEnd <- lastEnd ttlPos items ;;
    let ttl := (ETTLClause ttlPos listEnd items) in
    do statementEnd <- endOf ttl ;;
    Ret (EAlterTableModifyTTL p statementEnd ttl)
  else if kw it "QUERY" then
    do! skip ;;
    do selectQuery <- parseSelectQuery ;;
    do statementEnd <- endOf selectQuery ;;
    Ret (EAlterTableModifyQuery p statementEnd selectQuery)
  else if kw it "ORDER" then
    do! skip ;;
    do! expKw "BY" ;;
    do orderBy <- parseExprHere ;;
    do statementEnd <- endOf orderBy ;;
    Ret (EAlterTableModifyOrderBy p statementEnd orderBy)
  else if kw it "SETTING" then
    do! skip ;;
    do settings <- parseSettingsList ;;
    do statementEnd <- endOf (last settings ENil) ;;
    Ret (EAlterTableModifySetting p statementEnd settings)
  else Fail (Msg "expected keyword: COLUMN|TTL|QUERY|ORDER|SETTING, but got %q").

(** parser_alter.go:770-794 [parseAlterTableReplacePartition]. *)
Definition parseAlterTableReplacePartition (p : pos) : prog expr :=
  do! expKw "REPLACE" ;;
  do q <- pos_ ;;
  do partition <- parsePartitionClause q ;;
  do! expKw "FROM" ;;
  do table <- parseTableIdentifier ;;
  Ret (EAlterTableReplacePartition p partition table).

(** parser_alter.go:796-844 [parseAlterTableMaterialize]. After IN the end of the partition is taken even when there is no partition. *)
Definition parseAlterTableMaterialize (p : pos) : prog expr :=
  do! expKw "MATERIALIZE" ;;
  do it <- cur_item ;;
  if kws it ["INDEX"; "PROJECTION"] then
    do! skip ;;
    do ifExists <- tryParseIfExists ;;
    do name <- parseNestedIdentifier ;;
    do statementEnd <- endOf name ;;
    do (partition, statementEnd) <-
      ifKw "IN"
        (do partition <- tryParsePartitionClause ;;
         do statementEnd <- endOf partition ;;
         Ret (partition, statementEnd))
        (Ret (ENil, statementEnd)) ;;
    Ret (if kw it "INDEX" then
           (EAlterTableMaterializeIndex p statementEnd ifExists name partition)
         else
           (EAlterTableMaterializeProjection p statementEnd ifExists name partition))
  else Fail (Msg "expected keyword: INDEX|PROJECTION, but got %q").

(** parser_alter.go:846-878 [parseAlterTableReset]. *)
Definition parseAlterTableReset (p : pos) : prog expr :=
  do! expKw "RESET" ;;
  do! expKw "SETTING" ;;
  do setting <- parseIdent ;;
  do settings <- sepTail "," [setting] parseIdent ;;
  do statementEnd <- endOf (last settings ENil) ;;
  Ret (EAlterTableResetSetting p statementEnd settings).

(** parser_alter.go:881-900 [parseAlterTableDelete]. *)
Definition parseAlterTableDelete (p : pos) : prog expr :=
  do! expKw "DELETE" ;;
  do! expKw "WHERE" ;;
  do whereExpr <- parseExprHere ;;
  do statementEnd <- endOf whereExpr ;;
  Ret (EAlterTableDelete p statementEnd whereExpr).

(** parser_alter.go:951-974 [parseUpdateAssignment]. Called with [p.Pos()]. *)
Definition parseUpdateAssignment : prog expr :=
  do p <- pos_ ;;
  do column <- parseNestedIdentifier ;;
  do! expTk "=" ;;
  do q <- pos_ ;;
  do e <- parseSubExpr q precedenceIn ;;
  Ret (EUpdateAssignment p column e).

(** parser_alter.go:903-948 [parseAlterTableUpdate]. *)
Definition parseAlterTableUpdate (p : pos) : prog expr :=
  do! expKw "UPDATE" ;;
  do assignment <- parseUpdateAssignment ;;
  do assignments <- sepTail "," [assignment] parseUpdateAssignment ;;
  do inPartition <- ifKw "IN" (do q <- pos_ ;; parsePartitionClause q) (Ret ENil) ;;
  do! expKw "WHERE" ;;
  do whereExpr <- parseExprHere ;;
  do statementEnd <- endOf whereExpr ;;
  Ret (EAlterTableUpdate p statementEnd assignments inPartition whereExpr).

(** parser_alter.go:29-64, the switch inside the loop of [parseAlterTable]. *)
Definition parseAlterTableItem : prog expr :=
  do it <- cur_item ;;
  let p := ipos it in
  if kw it "ADD" then parseAlterTableAdd p
  else if kw it "DROP" then parseAlterTableDrop p
  else if kw it "ATTACH" then parseAlterTableAttachPartition p
  else if kw it "DETACH" then do! skip ;; parseAlterTableDetachPartition p
  else if kw it "FREEZE" then parseAlterTableFreezePartition p
  else if kw it "REMOVE" then parseAlterTableRemoveTTL p
  else if kw it "RENAME" then parseAlterTableRenameColumn p
  else if kw it "CLEAR" then parseAlterTableClear p
  else if kw it "MODIFY" then parseAlterTableModify p
  else if kw it "REPLACE" then parseAlterTableReplacePartition p
  else if kw it "MATERIALIZE" then parseAlterTableMaterialize p
  else if kw it "RESET" then parseAlterTableReset p
  else if kw it "DELETE" then parseAlterTableDelete p
  else if kw it "UPDATE" then parseAlterTableUpdate p
  else Fail (Msg "expected token: ADD|DROP|ATTACH|DETACH|FREEZE|REMOVE|CLEAR|MODIFY|REPLACE|MATERIALIZE|RESET|DELETE|UPDATE").

(** parser_alter.go:8-80 [parseAlterTable]. *)
Definition parseAlterTable (p : pos) : prog expr :=
  do! expKw "TABLE" ;;
  do tableIdentifier <- parseTableIdentifier ;;
  do onCluster <- tryParseClusterClause ;;
  do alterExprs <- commaLoop it_eof parseAlterTableItem ;;
  match alterExprs with
  | [] => Fail (Msg "expected token: ADD|DROP")
  | _ =>
      do statementEnd <- endOf (last alterExprs ENil) ;;
      Ret (EAlterTable p statementEnd tableIdentifier onCluster alterExprs)
  end.
