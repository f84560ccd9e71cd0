# Formal model of clickhouse-sql-parser in Rocq

All files are under `rocq/theories`. Names of source files are relative to `/repo`.

## Shape of the model

* **Bytes and text**: Go strings are Coq `string` (sequences of bytes).
* **Lexer** (`parser/lexer.go`): a state is (offset, current token or nil) exactly as in
  Go; `consume`, `peek` are total functions returning the next state and an optional error;
  an index outside the input is an explicit `panic` result, shown unreachable.
* **Token stream**: `consume` is deterministic, so the states reachable by consuming form one
  orbit. The orbit ends in a fixed point; its states are the *items* of the input.
* **Parser** (`parser/parser_*.go`, `parser/parse_system.go`): each Go function is a term of a
  small command language (`prog`): read the current token, consume, peek, back-track, fail,
  panic, loop, call a recursive non-terminal. Two interpreters run these terms: one on the
  lazily lexed input (as Go does) and one on the pre-computed items. Every nil dereference
  that the Go code does not guard is an explicit `Panic`.
* **Positions** in the tree are symbolic (start/end of the i-th item, shifted by a constant) and are
  resolved against the input by a table. So the tree is a function of the items only.
* **AST** (`parser/ast.go`): one inductive type, one constructor per Go struct, Go nil is
  `ENil`.
* **Formatter** (`parser/format.go`): each `FormatSQL` emits a list of events (text, break,
  newline, indent, dedent); compact and beautified text are two renderings of the events.
* **Walk / Accept** (`parser/walk.go`, `ast.go`).

## Plan per property

| property | model | proof |
|---|---|---|
| C01-C05, C07-C09 | lexer functions | induction on the input, invariants on the state |
| C06 | lexer + items + parser on items | lexeme lemma, then equality of items |
| C10-C12 | source.go, error.go | induction on the input, binary search invariant |
| C13 | error construction | invariant over all programs |
| C14 | interpreters with fuel | fuel bound from (items left, rank); Hoare logic over `prog` |
| C15 | explicit panics | witnesses (refuted), and absence under a guard |
| C16 | two interpreters | simulation proved once for all programs |
| C17, C18 | ParseStmts | witnesses (refuted) + what does hold |
| C19, C20 | parser_common.go | direct |
| C21, C22 | parseSubExpr and friends | Hoare logic with a precedence predicate on trees |
| C23 | memo | simulation between interpreters |
| C24 | recasing of inputs (CaseSpec.v), trees up to spelling (Recase.v) | witnesses (refuted for five of the words that the parser compares byte by byte); for all other keywords a relational logic over `prog` (CaseRel.v) carried through every parser function |
| C25, C26 | parser + formatter | witnesses where it fails; a grammar of canonical queries (RoundSpec.v), and inductions over it for the parser (RoundAll.v), the formatter (RoundText.v) and the lexer (RoundLex.v); on top of it a grammar of canonical statements of other kinds (RoundMoreSpec.v: USE, SET, DROP, TRUNCATE, RENAME, DELETE, DESCRIBE, CHECK, OPTIMIZE, EXPLAIN, INSERT, SHOW, SYSTEM) with the same three proofs (RoundMoreParse.v and RoundMoreStmt.v, RoundMoreText.v); and a third one for ALTER TABLE and CREATE (RoundDdlSpec.v: databases, tables, views, materialized views, functions, named collections, with column definitions, types, codecs, TTL and engines; GRANT, and DROP of users and roles) with its proofs (RoundDdlParse.v, RoundDdlCols.v, RoundDdlAlter.v, RoundDdlCreate.v, RoundAccess.v, RoundDdlText.v). Each statement is shown to be parsed up to the end or to a semicolon, so that an induction over the script (`script` in RoundDdlSpec.v; RoundDdl.v, RoundScript.v) gives the round trip of several statements (PropertiesScript.v) |
| C27-C30 | formatter events | induction on the tree |
| C31-C34 | walk.go, Accept | induction on the tree |
| C35, C36 | Pos/End | witnesses (refuted) + fragment |
| C37 | set.go | refinement to predicates |
| C38 | main.go decision logic | direct; file system and flag package are parameters |
| C39 | formatter on parsed trees | `filled` predicate carried through the whole parser |
| C40 | formatter events | induction on the tree; brackets of the calls of each method |
| C41 | whole parser; strings of a tree (Words.v) | balance of the occurrences of a word in the tree built so far and in the items left, carried through every function of the parser; the clauses the parser may drop are excluded by their keywords |
| C42 | formatter on parsed trees | `ok` predicate on nodes carried through the whole parser (Write*.v); per method, the pieces of text it writes hold the strings of the node and the pieces of its children (FormatKeep.v); induction on the tree (FormatFound.v) |
| C43 | whole parser | two runs on inputs that agree up to a semicolon, related through every function of the parser (Semi*.v); the memo of failed INTERVAL attempts matters only for the tokens left (SemiMemo.v); gives also C15_semicolon_partial and C17_count_partial |

The status of every property, with the names of its theorems, is in `MANIFEST.json`.

## Trusted base

* **Coq 8.16.1's kernel** (and `coqchk`, which re-checks all compiled files).
* **Axioms**: none. `Print Assumptions` is run below every theorem in the `Properties*.v` files and
  answers `Closed under the global context` for each theorem named in `MANIFEST.json`. No axiom of the
  standard library is used, no kernel check is switched off, no plugin is loaded.
* **The model**: the correspondence between the Go source and the Gallina definitions is by reading; every
  definition cites the lines it models. `Ast.v`, `AstPos.v`, `AstSubs.v`, `Keyword.v`, `Walk.v`,
  `Visitor.v` and large parts of `Format.v` were generated from the Go text by scripts and then read
  against it. As a sanity check outside of the proofs the model was extracted and run over the queries of
  `/repo/parser/testdata` and gave the golden trees and the golden formatted texts; this is testing, and
  no theorem depends on it.
* **The specifications**: the files `*Spec.v` (LexSpec, LayoutSpec, PrecSpec, SpanSpec, ChainSpec, WalkSpec,
  FormatSpec, MainSpec, RoundSpec, RoundMoreSpec, RoundDdlSpec, CaseSpec, KeepSpec, WriteSpec, SemiSpec) and the generated Recase.v (trees up to spelling) and Words.v (the
  strings of a tree) hold the vocabulary of the statements. They mention the tokens or the syntax
  tree, not the parser.

### Modelled

| Go | Coq | remarks |
|---|---|---|
| parser/lexer.go | Lexer.v | all of it; index out of range is an explicit result |
| parser/keyword.go | Keyword.v | the keyword table |
| parser/source.go, parser/error.go | Source.v, ErrorRender.v | `fmt.Sprintf` of the messages is string concatenation |
| parser/set.go | GoSet.v | a Go map is a duplicate-free list of its keys in arbitrary order |
| parser/ast.go | Ast.v (structs), AstPos.v (Pos, End), Visitor.v (Accept) | one constructor per struct |
| parser/parser_common.go | ParserCommon.v, Parser.v (wrapError, ParseStmts) | |
| parser/parser_column.go | ParserExpr.v, ParserQuery.v, ParserTable.v | |
| parser/parser_query.go | ParserQuery.v | |
| parser/parser_table.go | ParserTable.v, Parser.v | |
| parser/parser_alter.go | ParserAlter.v | |
| parser/parser_drop.go, parser/parser_view.go | ParserView.v | |
| parser/parse_system.go | ParserSystem.v | |
| parser/walk.go | Walk.v | Walk, Find, FindAll, WalkWithBreak |
| parser/ast_visitor.go | Visitor.v | the default visitor |
| parser/format.go | Format.v | both modes, every FormatSQL |
| main.go | Main.v | argument handling, reading the file, printing, exit codes |

### Not modelled, or simplified

* Go's run time: memory, stack depth (C14 does not exclude a stack overflow on a deeply nested
  input), goroutines. Integers are unbounded naturals or integers; offsets of real inputs stay far below
  2^63.
* Error values are modelled up to the format string of the message: the arguments of `fmt.Errorf` are left out, as are
  wrapping chains. `ParseError` values (expected token kinds, keyword, message) are complete, and C12 is about their
  rendering.
* `json.Marshal` and the `flag` package are outside the model: Main.v takes the JSON text of a statement
  as a parameter and describes flag parsing by its documentation.
* Positions in trees are symbolic: `PStart i`, `PEnd i`, shifted by a constant, of the i-th lexer state;
  `resolve` turns them into offsets. Go stores the offsets directly.
* `Expr` fields that Go types more strictly (for example `*Ident`) have the one type `expr`; that the
  parser only puts nodes of the right kind there is the predicate `kinds`, proved for all parsed trees.
* Test files, `testdata`, Makefile are not modelled.

## Findings

Statements that are false of the code; each has a witness proved by computation (`*_refuted`), or
is a by-product of writing the model. Where no theorem is named the finding is from reading.

1. `ParseStmts` drops a final statement that consists of one token touching the end of the input:
   `SELECT` gives no statement and no error (`C17_refuted`); with a space after it, the input is rejected
   (`C06_trailing_refuted`). `parseStmt` discards a trailing `FORMAT x` of statements other than queries
   (`C17_format_refuted`).
2. A lexical error met by `peekToken` is lost and moves the lexer (`C05_failed_peek_pure_refuted`):
   `SELECT 1 /* unclosed` is accepted (`C18_comment_refuted`), and so is an input with an unterminated
   quoted identifier (`C18_quoted_refuted`).
3. Panics on malformed input (`C15_refuted`; `C15_crash_sites_partial` lists all of them): for example
   `CREATE USER u NOT IDENTIFIED`, `CREATE USER u HOST ANY`, `CREATE ROLE r SETTINGS`,
   `SYSTEM RELOAD EMBEDDED`, a column type or ORDER BY cut off at the end of input, `TRIM(BOTH 'abc`,
   `ALTER TABLE t MATERIALIZE INDEX i IN x`.
4. Panics of methods on accepted input: `End` of `PARTITION ALL`, of `CHECK TABLE t`, of a setting without
   value (`C35_refuted`); `End`, `Accept` and `FormatSQL` of a dictionary source argument `f()`
   (`C34_refuted`, `C38_panic_refuted`, C39's exception `C39_case_panic`).
5. `CaseExpr.EndPos` is never set, the end of `WITH FILL` lies behind the input, the end of an unbounded
   window frame is 0 (`C36_order_refuted`, `C36_end_refuted`).
6. `->` associates to the right (`C22_arrow_refuted`; the property allows it). `+>` is lexed as the arrow.
7. `TargetPair` (RENAME) has Pos, End and Accept but is visited neither by `Walk` nor by
   `RenameStmt.Accept` (`C33_refuted`).
8. Beautifying a literal that contains a line break writes indentation into the literal (`C30_refuted`).
9. main.go prints a usage text that puts the SQL string before the flags, but flags after it are ignored
   (`C38_order_refuted`).
10. Keyword case: `ARRAY` before JOIN, `DEFAULT ROLE` and `DEFAULT DATABASE` of a user, and `MIN`, `MAX` and `NONE` in
    role settings are compared byte by byte, so `array join [1]` and `default role r` are rejected (`C24_refuted`).
    `C24_partial` shows that these six are the only keywords of which the case matters. The `Tuple` after `::`, which is no
    keyword, is case-sensitive as well.
11. Constructs that can never be parsed or are misread: `DATE 'x'` and `TIMESTAMP 'x'` always fail;
    `SYSTEM START DISTRIBUTED SENDS t` is misread and its TTL variant always fails; `()` as a column list is
    rejected but `())` accepted; `SHOW TABLES LIKE 'a'` is rejected; `GRANT SYSTEM ...` records SHOW;
    a trailing comma after the select list is accepted.
12. The formatted text of an accepted statement is not always the same statement (`C25_changed_refuted`) or a statement
    at all (`C25_refuted`). DISTINCT is lost in `[DISTINCT a]` and in `q(1)(DISTINCT b)`, WITH TOTALS without GROUP BY is
    lost, numbers run into what follows (`1 .2`, `1 . a`, `a.1 .2`). Further, by running the extracted model: WINDOW is printed
    before WHERE and then rejected; `INSERT INTO FUNCTION f(1)` loses FUNCTION; `GRANT ON CLUSTER c SELECT ...` is printed as
    `GRANT  ON CLUSTER cSELECT`; `CREATE LIVE VIEW v UUID 'x'` loses the UUID; DETACH is printed as DROP,
    ATTACH as CREATE.
13. `SELECT CASE -x WHEN ...` is rejected: the operand of CASE may not start with a sign. `SELECT 1 EXCEPT SELECT 2` is
    rejected: EXCEPT right after the last item is read as a modifier of the item.
14. Clauses that are read and forgotten (`C41_refuted`): of two ORDER BY, PARTITION BY, PRIMARY KEY, SAMPLE BY, TTL or SETTINGS
    clauses of an engine, and of two clauses of the same kind of CREATE USER, only the last is kept; the second ON CLUSTER of
    DROP USER and DROP ROLE is dropped (the first belongs to the name). `C41_kept_partial` shows that elsewhere nothing is.
15. Clauses that are parsed and not written (`C42_refuted`): the UUID of CREATE LIVE VIEW (format.go:854-886), and the names of
    `SELECT ON (a) b`, which is accepted without DISTINCT (parser_query.go:77-82). `C42_written_partial` shows that every other
    name and literal of a tree is written.
16. Keywords that are read and not written: `OPTIMIZE TABLE t PARTITION ID '5'` is printed as `PARTITION '5'` and
    `SHOW DATABASES NOT` (accepted without LIKE) as `SHOW DATABASES`, which are other statements (`C25_words_refuted`); `SYSTEM SYNC REPLICA t` is
    printed as `SYSTEM SYNC t` and `SYSTEM FLUSH DISTRIBUTED t` as `SYSTEM FLUSH t`, which are rejected (`C25_rejected_refuted`).
    Of CREATE and ALTER (`C25_ddl_rejected_refuted`, `C25_ddl_words_refuted`): `ALTER TABLE t FREEZE`, accepted when white space follows it,
    is printed without and rejected; `ADD INDEX IF NOT EXISTS` is printed as `ADD IF NOT EXISTS INDEX`; `CONSTRAINT c CHECK a > 0`
    as `c a > 0`; a CODEC that follows the COMMENT of a column is printed before it, where the parser does not take the COMMENT. `NULL NOT NULL`
    loses its NULL, and `ATTACH PARTITION ID '5'` its ID.
    Of GRANT and DROP USER (`C25_access_refuted`), all rejected: `GRANT SYSTEM SHUTDOWN` is printed as `GRANT SHOW SHUTDOWN`,
    `ALTER ADD INDEX` as `ALTER ADD INDEX CONSTRAINT`, `GRANT ON CLUSTER c SELECT` as `GRANT  ON CLUSTER cSELECT`, and
    `DROP USER u FROM s SYNC` as `DROP USER u SYNC FROM s`.
