(** The keyword tables. Generated from parser/keyword.go. *)
From Coq Require Import String List.
From Verif Require Import Str.
Import ListNotations.
Local Open Scope string_scope.
Local Open Scope nat_scope.

(** keyword.go:279-329. *)
Definition reserved_keywords : list string :=
  ["ALTER"; "AND"; "AS"; "BETWEEN"; "BY"; "CASE"; "CREATE"; "CROSS"; "DESCRIBE"; "DISTINCT"; 
   "DROP"; "ELSE"; "EXCEPT"; "EXPLAIN"; "FORMAT"; "FROM"; "GRANT"; "GROUP"; "HAVING"; "ILIKE"; 
   "IN"; "INNER"; "INSERT"; "INTERVAL"; "INTO"; "IS"; "KILL"; "LIKE"; "LIMIT"; "NOT"; 
   "OFFSET"; "ON"; "OPTIMIZE"; "OR"; "ORDER"; "PREWHERE"; "RENAME"; "SELECT"; "SETTINGS"; 
   "SHOW"; "THEN"; "TRUNCATE"; "UNION"; "USE"; "USING"; "WHEN"; "WHERE"; "WINDOW"; "WITH"].

(** keyword.go:331-592. *)
Definition keywords : list string :=
  ["ADD"; "ADMIN"; "AFTER"; "ALIAS"; "ALL"; "ALTER"; "AND"; "ANTI"; "ANY"; "APPEND"; "APPLY"; 
   "ARRAY"; "AS"; "ASC"; "ASCENDING"; "ASOF"; "AST"; "ASYNC"; "ATTACH"; "BETWEEN"; "BOTH"; 
   "BY"; "CACHE"; "CASE"; "CAST"; "CHECK"; "CLEAR"; "CLUSTER"; "CODEC"; "COLLATE"; 
   "COLLECTION"; "COLUMN"; "COLUMNS"; "COMMENT"; "COMPILED"; "CONFIG"; "CONSTRAINT"; "CREATE"; 
   "CROSS"; "CUBE"; "CURRENT"; "DATABASE"; "DATABASES"; "DATE"; "DAY"; "DEDUPLICATE"; 
   "DEFAULT"; "DELAY"; "DELETE"; "DEPENDS"; "DESC"; "DESCENDING"; "DESCRIBE"; "DETACH"; 
   "DETACHED"; "DICTIONARIES"; "DICTIONARY"; "DISK"; "DISTINCT"; "DISTRIBUTED"; "DROP"; "DNS"; 
   "ELSE"; "END"; "ENGINE"; "ESTIMATE"; "EMBEDDED"; "EMPTY"; "EVENTS"; "EVERY"; "EXCEPT"; 
   "EXISTS"; "EXPLAIN"; "EXPRESSION"; "EXTRACT"; "FALSE"; "FETCHES"; "FILESYSTEM"; "FILL"; 
   "FINAL"; "FIRST"; "FLUSH"; "FOLLOWING"; "FOR"; "FORMAT"; "FREEZE"; "FROM"; "FULL"; 
   "FUNCTION"; "FUNCTIONS"; "GLOBAL"; "GRANT"; "GRANTEES"; "GRANULARITY"; "GROUP"; "GROUPING"; 
   "HAVING"; "HIERARCHICAL"; "HOST"; "HOUR"; "ID"; "IDENTIFIED"; "IF"; "ILIKE"; "IN"; "INDEX"; 
   "INF"; "INJECTIVE"; "INNER"; "INSERT"; "INTERSECT"; "INTERVAL"; "INTERPOLATE"; "INTO"; 
   "IP"; "IS"; "IS_OBJECT_ID"; "JOIN"; "JSON"; "KEY"; "KILL"; "KERBEROS"; "LAST"; "LAYOUT"; 
   "LDAP"; "LEADING"; "LEFT"; "LIFETIME"; "LIKE"; "LIMIT"; "LIVE"; "LOCAL"; "LOGS"; "MARK"; 
   "MATERIALIZE"; "MATERIALIZED"; "MAX"; "MERGES"; "MIN"; "MINUTE"; "MODIFY"; "MONTH"; "MOVE"; 
   "MOVES"; "MUTATION"; "NAME"; "NAMED"; "NAN_SQL"; "NO"; "NONE"; "NOT"; "NULL"; "NULLS"; 
   "OFFSET"; "ON"; "OPTIMIZE"; "OPTION"; "OR"; "ORDER"; "OUTER"; "OVERRIDABLE"; "OUTFILE"; 
   "OVER"; "OVERLAY"; "OVERLAYUTF8"; "PARTITION"; "PIPELINE"; "PLACING"; "POLICY"; "POPULATE"; 
   "PRECEDING"; "PREWHERE"; "PRIMARY"; "PROJECTION"; "QUARTER"; "QUERY"; "QUEUES"; "QUOTA"; 
   "RANDOMIZE"; "RANGE"; "REALM"; "RECOMPRESS"; "REFRESH"; "REGEXP"; "RELOAD"; "REMOVE"; 
   "RENAME"; "REPLACE"; "RESET"; "REPLICA"; "REPLICATED"; "REPLICATION"; "RESTART"; "RIGHT"; 
   "ROLE"; "ROLLUP"; "ROW"; "ROWS"; "SAMPLE"; "SECOND"; "SELECT"; "SEMI"; "SENDS"; "SERVER"; 
   "SET"; "SETS"; "SETTING"; "SETTINGS"; "SHOW"; "SHUTDOWN"; "SKIP"; "SOURCE"; "START"; 
   "STALENESS"; "STEP"; "STOP"; "SUBSTRING"; "SYNC"; "SYNTAX"; "SYSTEM"; "TABLE"; "TABLES"; 
   "TEMPORARY"; "TEST"; "THEN"; "TIES"; "TIMEOUT"; "TIMESTAMP"; "TO"; "TOP"; "TOTALS"; 
   "TRAILING"; "TRIM"; "TRUE"; "TRUNCATE"; "TTL"; "TYPE"; "UNBOUNDED"; "UNCOMPRESSED"; 
   "UNION"; "UPDATE"; "USE"; "USER"; "USING"; "UNTIL"; "UUID"; "VALID"; "VALUES"; "VIEW"; 
   "VOLUME"; "WATCH"; "WEEK"; "WHEN"; "WHERE"; "WINDOW"; "WITH"; "YEAR"; "DEFINER"; "SQL"; 
   "SECURITY"].

(** lexer.go:116-118 [Lexer.isKeyword] (its argument is already upper-cased). *)
Definition is_keyword (w : string) : bool := str_in w keywords.

(** parser_common.go:93: membership test in [matchTokenKind]. *)
Definition is_reserved (w : string) : bool := str_in w reserved_keywords.
