{
 "claims": [
  {
   "property": "C01",
   "status": "proved",
   "theorems": [
    "C01_lexing_settles",
    "C01_lexing_progress"
   ],
   "note": "Requests settle on one answer after at most 2*len+1 steps; each step makes progress or is final."
  },
  {
   "property": "C02",
   "status": "proved",
   "theorems": [
    "C02_token_in_bounds"
   ],
   "note": ""
  },
  {
   "property": "C03",
   "status": "proved",
   "theorems": [
    "C03_tokens_ordered"
   ],
   "note": ""
  },
  {
   "property": "C04",
   "status": "proved",
   "theorems": [
    "C04_lexer_in_bounds"
   ],
   "note": "Index operations are partial in the model; no reachable state makes them fail."
  },
  {
   "property": "C05",
   "status": "proved",
   "theorems": [
    "C05_peek_pure",
    "C05_failed_peek_pure_refuted"
   ],
   "note": "Successful peek is pure; a failed peek moves the lexer (finding)."
  },
  {
   "property": "C07",
   "status": "proved",
   "theorems": [
    "C07_word_kind",
    "C07_keyword_tokens"
   ],
   "note": ""
  },
  {
   "property": "C08",
   "status": "proved",
   "theorems": [
    "C08_number_tokens",
    "C08_number_read",
    "C08_number_rejected"
   ],
   "note": ""
  },
  {
   "property": "C09",
   "status": "proved",
   "theorems": [
    "C09_string_tokens",
    "C09_string_read",
    "C09_string_unterminated",
    "C09_quoted_tokens",
    "C09_quoted_read",
    "C09_quoted_unterminated"
   ],
   "note": ""
  },
  {
   "property": "C10",
   "status": "proved",
   "theorems": [
    "C10_position",
    "C10_every_offset"
   ],
   "note": "offsets not negative"
  },
  {
   "property": "C11",
   "status": "proved",
   "theorems": [
    "C11_lines",
    "C11_line_text"
   ],
   "note": "one trailing CR is stripped from every line, also from a last line without newline"
  },
  {
   "property": "C12",
   "status": "proved",
   "theorems": [
    "C12_error_text",
    "C12_caret"
   ],
   "note": "in bytes: tabs and multi-byte characters are one column per byte"
  },
  {
   "property": "C37",
   "status": "proved",
   "theorems": [
    "C37_contains",
    "C37_members"
   ],
   "note": "for element types whose == is an equivalence (in the repository: strings)"
  },
  {
   "property": "C13",
   "status": "proved",
   "theorems": [
    "C13_error_position",
    "C13_error_token"
   ],
   "note": "for every rejected input; line and column as in C10"
  },
  {
   "property": "C14",
   "status": "proved",
   "theorems": [
    "C14_terminates"
   ],
   "note": "for every input; Go's stack limit is not modelled"
  },
  {
   "property": "C15",
   "status": "partial",
   "theorems": [
    "C15_refuted",
    "C15_crash_sites_partial",
    "C15_semicolon_partial"
   ],
   "note": "the full statement is false (finding); proved: crashes happen only at six expressions, and each of them is reached; only one of the six when the input ends in a semicolon"
  },
  {
   "property": "C21",
   "status": "proved",
   "theorems": [
    "C21_precedence",
    "C21_binary"
   ],
   "note": "every node of every parsed tree"
  },
  {
   "property": "C22",
   "status": "proved",
   "theorems": [
    "C22_right_operand",
    "C22_chain",
    "C22_arrow_refuted"
   ],
   "note": "C22_chain: SELECT of a chain of any length with any layout, operands names and literals, operators = == != <> < <= > >= || + - * / % :: OR AND LIKE ILIKE REGEXP IN, is accepted with the left-nested tree; C22_right_operand: in every tree of every accepted input no right operand is an operator of the same level; C22_arrow_refuted: -> nests to the right, the exception the statement names"
  },
  {
   "property": "C35",
   "status": "partial",
   "theorems": [
    "C35_refuted",
    "C35_defined_partial"
   ],
   "note": "the full statement is false (finding); proved for all nodes but the shapes in SpanSpec.v"
  },
  {
   "property": "C36",
   "status": "partial",
   "theorems": [
    "C36_order_refuted",
    "C36_end_refuted",
    "C36_bounds_partial"
   ],
   "note": "Pos <= End and End <= len+1 are false (findings); proved: both lie between 0 and len+4"
  },
  {
   "property": "C31",
   "status": "proved",
   "theorems": [
    "C31_walk",
    "C31_preorder",
    "C31_stop",
    "C31_order"
   ],
   "note": "For any stateful callback. C31_order: children in struct field order for all kinds but those listed in reordered and has_parts (WalkSpec.v)."
  },
  {
   "property": "C32",
   "status": "proved",
   "theorems": [
    "C32_find",
    "C32_find_all",
    "C32_walk_with_break"
   ],
   "note": "Find, FindAll and WalkWithBreak in terms of the pre-order of C31."
  },
  {
   "property": "C33",
   "status": "partial",
   "theorems": [
    "C33_refuted",
    "C33_every_node_partial",
    "C33_parsed_partial",
    "C33_nodes"
   ],
   "note": "Refuted by the pairs of RENAME (TargetPair has Pos/End/Accept but Walk passes over it); for everything else Walk visits a permutation of all syntax nodes, for every well-kinded tree and for every parsed statement."
  },
  {
   "property": "C34",
   "status": "partial",
   "theorems": [
    "C34_refuted",
    "C34_same_nodes_partial",
    "C34_default_visitor",
    "C34_enter_leave",
    "C34_leave"
   ],
   "note": "Refuted: Accept panics on a dictionary source argument f() (FunctionExpr with nil Params). Without such a node Accept visits a permutation of what Walk visits, for every parsed statement."
  },
  {
   "property": "C16",
   "status": "proved",
   "theorems": [
    "C16_lazy"
   ],
   "note": "Parsing on the lexer itself (lazy_run, Lazy.v: requests, look-ahead, save and restore on the lexer state, memo by position) ends exactly as parsing on the list of all lexer states."
  },
  {
   "property": "C19",
   "status": "proved",
   "theorems": [
    "C19_atomic"
   ],
   "note": "For every keyword list and every parser state."
  },
  {
   "property": "C20",
   "status": "proved",
   "theorems": [
    "C20_ident",
    "C20_any_word"
   ],
   "note": "parseIdent and parseAnyKeyword, for every parser state."
  },
  {
   "property": "C23",
   "status": "proved",
   "theorems": [
    "C23_memo"
   ],
   "note": "parse_stmts_retry (Retry.v) has no memo; with enough fuel it gives the same result."
  },
  {
   "property": "C06",
   "status": "proved",
   "theorems": [
    "C06_every_input",
    "C06_tokens",
    "C06_layout",
    "C06_spaced",
    "C06_trailing_refuted"
   ],
   "note": "Layout before and between lexemes never matters (also where lexemes need no layout between them). Finding: layout after the last token does matter, because of isEOF: foo gives no statements and no error, foo followed by a space is an error (C06_trailing_refuted)."
  },
  {
   "property": "C17",
   "status": "partial",
   "theorems": [
    "C17_refuted",
    "C17_format_refuted",
    "C17_segments_partial",
    "C17_no_loss_partial",
    "C17_count_partial"
   ],
   "note": "Refuted: a final one-token statement is dropped, and so is a FORMAT clause after a statement other than a query. Proved: apart from one token touching the end of the input, all tokens but semicolons lie in the segments from which the returned statements were read; with layout after the last token there are as many statements as stretches between semicolons."
  },
  {
   "property": "C18",
   "status": "partial",
   "theorems": [
    "C18_comment_refuted",
    "C18_quoted_refuted",
    "C18_malformed_partial",
    "C18_accepted_partial"
   ],
   "note": "Refuted for unterminated comments and quoted identifiers (SELECT 1 /* x is accepted); proved for malformed numbers, unterminated strings and stray bytes, after any lexemes."
  },
  {
   "property": "C27",
   "status": "proved",
   "theorems": [
    "C27_same_text",
    "C27_same_panic",
    "C27_total"
   ],
   "note": "For every tree and every blank indentation: the two modes write the same characters other than blanks and line breaks, or both hit a nil dereference. Formatting always ends."
  },
  {
   "property": "C28",
   "status": "proved",
   "theorems": [
    "C28_one_line"
   ],
   "note": "Every line break of the compact text lies in an occurrence of a string held by the tree (or of its upper case, for OperationExpr)."
  },
  {
   "property": "C29",
   "status": "proved",
   "theorems": [
    "C29_balanced"
   ],
   "note": "For both modes, every tree and every formatter state: the level after the calls of a node is the level before, and no prefix of the calls goes below it."
  },
  {
   "property": "C30",
   "status": "partial",
   "theorems": [
    "C30_partial",
    "C30_refuted"
   ],
   "note": "Proved for literals and quoted identifiers without a line break; with a line break the statement is false (C30_refuted): beautifying SELECT 'a\\nb' puts the indentation into the literal."
  },
  {
   "property": "C38",
   "status": "partial",
   "theorems": [
    "C38_format_partial",
    "C38_json",
    "C38_rejected",
    "C38_usage",
    "C38_code",
    "C38_panic_refuted",
    "C38_order_refuted"
   ],
   "note": "Refuted for statements whose text cannot be written (a dictionary source argument f(): nil dereference). Proved for all argument vectors of flags followed by operands, all files and all other accepted inputs; rejected inputs give the error on stderr and code 1. Finding: flags after the SQL string, as the usage text puts them, are not seen (C38_order_refuted)."
  },
  {
   "property": "C39",
   "status": "proved",
   "theorems": [
    "C39_no_panic"
   ],
   "note": "For every accepted input. The exception named in the statement is reached (C39_case_panic)."
  },
  {
   "property": "C25",
   "status": "partial",
   "theorems": [
    "C25_refuted",
    "C25_changed_refuted",
    "C25_partial",
    "C25_tree_partial",
    "C25_layout_partial",
    "C25_words_refuted",
    "C25_rejected_refuted",
    "C25_statement_partial",
    "C25_statement_tree_partial",
    "C25_statement_layout_partial",
    "C25_ddl_rejected_refuted",
    "C25_ddl_words_refuted",
    "C25_ddl_partial",
    "C25_ddl_tree_partial",
    "C25_ddl_layout_partial",
    "C25_script_partial",
    "C25_script_trees_partial",
    "C25_script_layout_partial",
    "C25_access_refuted",
    "C25_access_partial"
   ],
   "note": "False of the code: the text of a parsed statement may be rejected or be the text of another statement. Proved for the SELECT statements of the grammar of RoundSpec.v (expressions, subqueries, WITH, joins, all clauses in their plain forms, set operations) of any size: formatting writes the canonical text and parsing it gives the same statement up to positions. Likewise (C25_statement_*) for the statements of RoundMoreSpec.v: USE, SET, DROP, TRUNCATE, RENAME, DELETE, DESCRIBE, CHECK, OPTIMIZE, EXPLAIN, INSERT, SHOW and SYSTEM; and (C25_ddl_*) for those of RoundDdlSpec.v: ALTER TABLE and CREATE of databases, tables, views, materialized views, functions and named collections, GRANT, and DROP of users and roles (C25_access_partial; C25_access_refuted names the forms of these that fail). Scripts of any number of these statements (C25_script_*): the formatted statements joined with semicolons are parsed as the same statements in the same order, and so is any layout with further semicolons. Not covered: dictionaries, CREATE of users and roles, live views, indexes, constraints and projections of tables, refreshed views, and the clauses and expressions that the grammar leaves out (window functions, CAST, INTERVAL, typed literals, ARRAY JOIN, SAMPLE, TOP, WITH FILL and others)."
  },
  {
   "property": "C26",
   "status": "partial",
   "theorems": [
    "C26_refuted",
    "C26_from_C25",
    "C26_partial",
    "C26_statement_partial",
    "C26_ddl_partial",
    "C26_script_partial",
    "C26_access_partial"
   ],
   "note": "False of the code, because the formatted text may be rejected. Formatting does not depend on positions (all statements), so it is idempotent whenever the round trip of C25 succeeds; proved for the statements of RoundSpec.v, RoundMoreSpec.v and RoundDdlSpec.v, and for scripts of them."
  },
  {
   "property": "C40",
   "status": "proved",
   "theorems": [
    "C40_nested"
   ],
   "note": "Holds for every tree, parsed or not, and both modes. The condition on the names and literals held in the tree is needed because they are written as they are."
  },
  {
   "property": "C24",
   "status": "partial",
   "theorems": [
    "C24_refuted",
    "C24_partial",
    "C24_acceptance_partial",
    "C24_recased_upper"
   ],
   "note": "False of the code for ARRAY, ROLE, DATABASE, MIN, MAX (and NONE is compared byte by byte as well): the case of these decides acceptance. Proved for all other keywords, anywhere in any text, well-formed or not: the same statements up to the spelling of names and recorded keywords, with the same positions, or the same error at the same place. Missing: re-casings of the six words in the places where they are compared without regard to case."
  },
  {
   "property": "C41",
   "status": "partial",
   "theorems": [
    "C41_not_invented",
    "C41_kept_partial",
    "C41_refuted"
   ],
   "note": "That nothing is invented or doubled holds for every accepted input. That nothing is lost is false of the code (five witnesses); it is proved for inputs without the keywords ENGINE, USER, ROLE and FORMAT that do not end in a statement of one token. Words that the parser writes itself or treats specially (KeepSpec.v, special) are not counted, nor are operators; a number read after a separate dot counts as its digits. Missing: inputs with those keywords in which no clause is repeated."
  },
  {
   "property": "C42",
   "status": "partial",
   "theorems": [
    "C42_written_partial",
    "C42_beautified_partial",
    "C42_through_partial",
    "C42_refuted"
   ],
   "note": "False of the code for the UUID of a live view and for ON without DISTINCT (two witnesses); proved for every other statement, compact and (for words without a line break) beautified, and, with C41, from the tokens of the input to the texts of its statements. Words that the parser writes itself or treats specially (KeepSpec.v, special) are not counted."
  },
  {
   "property": "C43",
   "status": "proved",
   "theorems": [
    "C43_compose",
    "C43_before"
   ],
   "note": "For scripts made of lexemes and layout (C06: every other input is malformed). The semicolon must not be the last character of the input, where the parser stops before reading it. The tokens of b keep their numbers: the second input has semicolons in the place of a."
  }
 ]
}