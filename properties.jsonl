{"id": "C01", "title": "Tokenisation terminates and makes progress", "statement": "Tokenising any byte string by repeatedly asking for the next token reaches end of input or a permanent error after finitely many requests: every request either moves the read offset forward, or drops the current token, or leaves the lexer in a state from which every later request gives the same answer.", "quantifier": "every byte string, of any length and content", "why_tests_cant": "Tests run on finitely many short inputs; an endless loop in a corner of the scanner shows only on the input that triggers it.", "anchors": ["parser/lexer.go: Lexer.consumeToken, skipComments, skipSpace, consumeNumber, consumeIdent, consumeString"]}
{"id": "C02", "title": "Tokens are located inside the input and carry the text they cover", "statement": "Every token returned satisfies 0 <= Pos <= End <= len(input) and its String is exactly input[Pos:End].", "quantifier": "every byte string and every token the lexer yields on it", "why_tests_cant": "The claim concerns all offsets of all inputs, including non UTF-8 bytes and truncated literals.", "anchors": ["parser/lexer.go: Token, consumeToken, consumeNumber, consumeIdent, consumeString"]}
{"id": "C03", "title": "Tokens come in source order and never overlap", "statement": "If one token is returned after another, its Pos is at least the End of the earlier one, and the lexer offset after a token is at least that token's End.", "quantifier": "every byte string and every pair of tokens of its token sequence", "why_tests_cant": "Ordering of all pairs over all inputs is not sampled by examples.", "anchors": ["parser/lexer.go: consumeToken"]}
{"id": "C04", "title": "The lexer never reads outside its input", "statement": "No tokenisation request indexes the input outside its bounds, whatever the input, so the lexer cannot panic.", "quantifier": "every byte string and every lexer state reachable on it", "why_tests_cant": "Out of bounds reads appear on truncated inputs (a lone quote, a lone sign, an exponent at end of input) that a test list has to enumerate.", "anchors": ["parser/lexer.go: peekN, peekOk, slice, consumeNumber, consumeIdent, consumeString, consumeMultiLineComment"]}
{"id": "C05", "title": "A failed peek is not a pure lookahead; a successful one is", "statement": "Looking ahead one token leaves the lexer unchanged when it succeeds and returns exactly the token that the next consume would produce.", "quantifier": "every lexer state", "why_tests_cant": "Must hold in every state, including the ones next to malformed literals.", "anchors": ["parser/lexer.go: peekToken, saveState, restoreState"]}
{"id": "C06", "title": "Layout does not matter between tokens", "statement": "Two sources made of the same lexemes separated by different runs of white space and comments have the same token sequence, the same syntax tree (up to positions) and fail or succeed alike.", "quantifier": "every lexeme sequence and every pair of layouts for it", "why_tests_cant": "The set of layouts is infinite and tests use a handful of formatted files.", "anchors": ["parser/lexer.go: skipComments, skipSpace, consumeToken", "parser/parser_table.go: ParseStmts"]}
{"id": "C07", "title": "Keyword recognition ignores letter case", "statement": "A bare word is a keyword token exactly when its upper-case form is in the keyword table, whatever its case, and a quoted word is never a keyword.", "quantifier": "every word, in every mixture of cases", "why_tests_cant": "2^n spellings per keyword.", "anchors": ["parser/lexer.go: consumeIdent", "parser/keyword.go: keywords"]}
{"id": "C08", "title": "Number literals are read as a whole or rejected", "statement": "A number token is a decimal, float, scientific or hexadecimal literal per its grammar, is not followed by an identifier character, has Base 16 exactly for 0x literals and kind float exactly when it has a dot or an exponent; any other run starting like a number is an error.", "quantifier": "every byte string starting at a digit or signed digit", "why_tests_cant": "Literals are unbounded in length and shape.", "anchors": ["parser/lexer.go: consumeNumber"]}
{"id": "C09", "title": "String and quoted-identifier tokens end at their true terminator", "statement": "A string token extends to the first quote that is neither escaped by a backslash nor doubled; a quoted identifier to the first matching quote; when there is none the lexer reports an error.", "quantifier": "every byte string starting with a quote character", "why_tests_cant": "Escapes may be nested in any number and order.", "anchors": ["parser/lexer.go: consumeString, consumeIdent"]}
{"id": "C10", "title": "Line and column computation is correct", "statement": "For every offset in the input the reported line is one plus the number of newlines before the offset, and the column is one plus the distance to the start of that line.", "quantifier": "every input and every offset of it", "why_tests_cant": "Binary search boundaries are wrong only at particular offsets.", "anchors": ["parser/source.go: newLineStarts, position"]}
{"id": "C11", "title": "Reported source lines are the lines of the input", "statement": "The text reported for line k is the k-th newline-separated piece of the input without its terminator, and the empty string outside the range of lines.", "quantifier": "every input and every line number", "why_tests_cant": "Ranges over all inputs including CRLF, empty last lines and single carriage returns.", "anchors": ["parser/source.go: lineText"]}
{"id": "C12", "title": "Error rendering puts the caret under the reported column", "statement": "The rendered error has the offending line, then a line with Column-1 blanks followed by as many carets as the offending token is long (at least one).", "quantifier": "every parse error", "why_tests_cant": "Depends on all widths and columns.", "anchors": ["parser/error.go: Error, renderCaret, summary, tokenDesc"]}
{"id": "C13", "title": "Parse errors carry a position inside the input and its line and column", "statement": "Whenever parsing fails, the error is a ParseError whose offset lies within the input and whose line and column are those of that offset.", "quantifier": "every input that is rejected", "why_tests_cant": "All error sites times all inputs.", "anchors": ["parser/parser_common.go: wrapError, Pos, expectTokenKind, expectKeyword", "parser/parser_table.go: ParseStmts"]}
{"id": "C14", "title": "Parsing terminates on every input", "statement": "ParseStmts returns on every input: with statements, with an error, or (see C15) by a nil dereference; it never loops or recurses for ever.", "quantifier": "every byte string", "why_tests_cant": "A parser that stops on all test files may still loop on one malformed input.", "anchors": ["parser/parser_table.go: ParseStmts, parseStmt", "parser/parser_column.go: parseSubExpr, parseInfixLoop", "parser/parser_query.go", "parser/parser_alter.go", "parser/parse_system.go", "parser/parser_view.go", "parser/parser_drop.go"]}
{"id": "C15", "title": "Parsing never crashes", "statement": "ParseStmts never panics: every input yields statements or an error.", "quantifier": "every byte string", "why_tests_cant": "A crash needs one unguarded pointer on one truncated input out of infinitely many.", "anchors": ["parser/parse_system.go: parseAuthenticationClause, parseHostClause, parseDefaultRoleClause, parseGranteesClause, parseDefaultClause, parseSystemReloadExpr", "parser/parser_table.go: parseOrderExpr", "parser/parser_column.go: parseColumnTypeArgs", "parser/parser_alter.go: parseAlterTableMaterialize", "parser/ast.go: PartitionClause.End, RoleSetting.End"]}
{"id": "C16", "title": "Lazy lexing equals lexing first", "statement": "Parsing while lexing on demand, with look-ahead and back-tracking, gives the same result as tokenising the whole input first and parsing the token list.", "quantifier": "every input and every interleaving of look-ahead, consumption and restoration the parser performs", "why_tests_cant": "Back-tracking points and look-ahead combine without bound.", "anchors": ["parser/lexer.go: saveState, restoreState, peekToken, consumeToken", "parser/parser_common.go"]}
{"id": "C17", "title": "No statement is silently lost", "statement": "When ParseStmts succeeds every token of the input other than semicolons belongs to one of the returned statements.", "quantifier": "every accepted input", "why_tests_cant": "Silent loss shows up only when someone compares counts on the particular input.", "anchors": ["parser/parser_table.go: ParseStmts, parseStmt"]}
{"id": "C18", "title": "Malformed lexemes make parsing fail", "statement": "If the input contains an unterminated comment, string or quoted identifier, or a malformed number, ParseStmts reports an error.", "quantifier": "every input with a lexical error at any place", "why_tests_cant": "The parser drops lexer errors at hundreds of call sites; which of them loses an error depends on the place.", "anchors": ["parser/parser_common.go: tryConsumeTokenKind, expectKeyword", "parser/lexer.go: consumeToken", "parser/parser_table.go: ParseStmts"]}
{"id": "C19", "title": "Multi-keyword lookahead is atomic", "statement": "Trying to consume a sequence of keywords either consumes all of them or leaves the parser exactly where it was.", "quantifier": "every keyword sequence and every parser state", "why_tests_cant": "Partial matches of every length at every place.", "anchors": ["parser/parser_common.go: tryConsumeKeywords"]}
{"id": "C20", "title": "Reserved words are not taken for identifiers", "statement": "Where an identifier is required a reserved keyword is rejected without being consumed, and any other keyword or identifier is accepted and recorded with its exact spelling and quoting.", "quantifier": "every token", "why_tests_cant": "Hundreds of keywords in every spelling.", "anchors": ["parser/parser_common.go: matchTokenKind, parseIdent, parseAnyKeyword", "parser/keyword.go: reservedKeywords"]}
{"id": "C21", "title": "Binary operators respect precedence", "statement": "In every parsed expression the operands of an operator never are unparenthesised operations of looser precedence.", "quantifier": "every accepted expression, of any depth", "why_tests_cant": "Expression trees are unbounded; precedence tests cover pairs of operators.", "anchors": ["parser/parser_column.go: parseSubExpr, parseInfixLoop, parseInfix, getNextPrecedence"]}
{"id": "C22", "title": "Binary operators associate to the left", "statement": "A chain a1 op a2 op ... op an of binary operators of one precedence level is parsed as the left-nested tree. The lambda arrow -> is the one exception: it nests to the right.", "quantifier": "every chain of any length", "why_tests_cant": "Unbounded chains.", "anchors": ["parser/parser_column.go: parseInfixLoop, parseInfix"]}
{"id": "C23", "title": "The failed-INTERVAL memo never changes a result", "statement": "Remembering INTERVAL positions whose operator reading failed gives the same statements or the same error as always trying again.", "quantifier": "every input", "why_tests_cant": "A stale memo entry would matter only for an input that reaches the same position in two contexts.", "anchors": ["parser/parser_column.go: parseColumnExpr (KeywordInterval case)", "parser/parser_common.go: failedIntervalOffsets"]}
{"id": "C24", "title": "Parsing does not depend on keyword letter case", "statement": "Changing the letter case of keywords in an input changes neither acceptance nor the tree, except for the spelling recorded where a keyword is used as a name.", "quantifier": "every input and every re-casing of its keywords", "why_tests_cant": "Exponentially many spellings for each statement.", "anchors": ["parser/parser_common.go: matchKeyword", "parser/parser_query.go: parseJoinOp, parseJoinExpr"]}
{"id": "C25", "title": "Formatting then parsing gives back the tree", "statement": "For every statement obtained by parsing, parsing its formatted text succeeds and yields the same statement up to positions.", "quantifier": "every accepted input", "why_tests_cant": "Golden files fix one output for each of about 220 inputs; nothing checks the infinitely many others.", "anchors": ["parser/format.go: Format, FormatSQL methods", "parser/parser_table.go: ParseStmts"]}
{"id": "C26", "title": "Formatting is idempotent", "statement": "Formatting, parsing and formatting again gives the text of the first formatting.", "quantifier": "every accepted input", "why_tests_cant": "Same as the round trip.", "anchors": ["parser/format.go"]}
{"id": "C27", "title": "Beautified output only differs from compact output in layout", "statement": "The beautified text of a tree and its compact text contain the same non-blank characters in the same order.", "quantifier": "every syntax tree", "why_tests_cant": "All trees, any depth.", "anchors": ["parser/format.go: Formatter, WithBeautify, Break, NewLine, Indent, Dedent, WriteString"]}
{"id": "C28", "title": "Compact output is one line", "statement": "The compact format adds no line break: its output has a newline only where a literal or quoted identifier of the tree has one.", "quantifier": "every syntax tree", "why_tests_cant": "All trees.", "anchors": ["parser/format.go: Formatter.Break, Formatter.NewLine"]}
{"id": "C29", "title": "Indentation is balanced", "statement": "Formatting any node leaves the indentation level as it found it, and the level is never negative.", "quantifier": "every syntax tree and every starting level", "why_tests_cant": "One missing Dedent on one branch breaks it for one node kind only.", "anchors": ["parser/format.go: Indent, Dedent, FormatSQL methods"]}
{"id": "C30", "title": "Indentation never enters literals", "statement": "Beautifying never changes the characters of a string literal or quoted identifier.", "quantifier": "every syntax tree", "why_tests_cant": "Needs a literal with a newline at a nested level.", "anchors": ["parser/format.go: WriteString"]}
{"id": "C31", "title": "Walk visits nodes in pre-order and stops at the first refusal", "statement": "Walk calls the callback on the root, then on the children in their fixed order, recursively; as soon as the callback returns false no further call is made and Walk returns false.", "quantifier": "every tree, every callback, every stopping point", "why_tests_cant": "All trees times all stopping points.", "anchors": ["parser/walk.go: Walk"]}
{"id": "C32", "title": "Find returns the first match, FindAll all matches in order", "statement": "Find returns the first node in Walk order that satisfies the predicate and reports whether there is one; FindAll returns exactly the nodes satisfying it, in Walk order.", "quantifier": "every tree and predicate", "why_tests_cant": "All trees and predicates.", "anchors": ["parser/walk.go: Find, FindAll, WalkWithBreak"]}
{"id": "C33", "title": "Walk reaches every node of the tree", "statement": "Every syntax node held in a field of a visited node is itself visited.", "quantifier": "every tree and node kind", "why_tests_cant": "One forgotten field in one of two hundred node kinds.", "anchors": ["parser/walk.go: Walk", "parser/ast.go: struct fields"]}
{"id": "C34", "title": "Walk and the visitor agree on the set of nodes", "statement": "The nodes Accept visits with the default visitor are the nodes Walk visits, each exactly once.", "quantifier": "every tree", "why_tests_cant": "The drift test checks one tree per node kind.", "anchors": ["parser/walk.go: Walk", "parser/ast.go: Accept methods", "parser/ast_visitor.go: DefaultASTVisitor"]}
{"id": "C35", "title": "Pos and End are defined on every parsed node", "statement": "Calling Pos or End on any node of a tree returned by the parser returns a value (no nil dereference).", "quantifier": "every accepted input and every node of its tree", "why_tests_cant": "Fields that are usually set hide the nil case.", "anchors": ["parser/ast.go: Pos, End methods"]}
{"id": "C36", "title": "Node positions lie inside the input", "statement": "For every node of a parsed tree 0 <= Pos and End <= len(input)+1, and Pos <= End.", "quantifier": "every accepted input and every node of its tree", "why_tests_cant": "All nodes in all inputs.", "anchors": ["parser/ast.go: Pos, End methods", "parser/parser_*.go"]}
{"id": "C37", "title": "Sets behave as mathematical sets", "statement": "Contains reports exactly the members added and not removed since, and Members lists each of them once.", "quantifier": "every sequence of operations", "why_tests_cant": "Unbounded histories.", "anchors": ["parser/set.go"]}
{"id": "C38", "title": "The command line prints one formatted statement per parsed statement or fails", "statement": "With a format option and an accepted input the tool prints the format of each statement in order and exits 0; on a rejected input it prints the error on stderr and exits 1; without input it prints usage.", "quantifier": "every argument vector and file content", "why_tests_cant": "All argument combinations times all inputs.", "anchors": ["main.go: main"]}
{"id": "C39", "title": "Formatting an accepted statement does not fail", "statement": "Format and Beautify of every statement the parser returns give a text and dereference no nil pointer, unless the statement contains a FunctionExpr whose Params are nil (which the parser builds only for a dictionary source argument f()).", "quantifier": "every input string and every statement of its result", "why_tests_cant": "FormatSQL reads most fields without a nil check; each read relies on every way the parser can build that node.", "anchors": ["parser/format.go: all FormatSQL methods", "parser/parser_table.go: 2353-2410"]}
{"id": "C40", "title": "Brackets of the formatted text are nested", "statement": "In the formatted text, compact or beautified, every round, square and curly bracket is closed by one of its kind, properly nested, provided that the brackets inside each name and literal of the tree are.", "quantifier": "every syntax tree", "why_tests_cant": "One method that forgets a closing bracket on one branch breaks it for one combination of optional fields only.", "anchors": ["parser/format.go: FormatSQL methods"]}
{"id": "C41", "title": "Names and literals are neither lost nor invented", "statement": "When ParseStmts accepts an input, every name, number and string of the input occurs in the returned statements exactly as often as among the tokens of the input.", "quantifier": "every accepted input and every word", "why_tests_cant": "A branch that reads a clause and forgets to store it, or stores one part twice, shows only for the combination of clauses that reaches it; the golden files record what the parser does, also when it is wrong.", "anchors": ["parser/parser_table.go: 1548-1567", "parser/parser_query.go", "parser/parser_column.go", "parser/parser_table.go", "parser/parser_alter.go", "parser/parser_view.go", "parser/parse_system.go"]}
{"id": "C42", "title": "Formatting writes every name and literal of the tree", "statement": "The text that FormatSQL writes for a parsed statement, compact or beautified, holds every name, number and string of the tree at as many separate places as the tree does.", "quantifier": "every accepted input, every returned statement, every word, both modes", "why_tests_cant": "A FormatSQL method that leaves out an optional field shows only for a statement that has the field, and the golden files record the text the method writes, also when a part is missing.", "anchors": ["parser/format.go: 1-2895", "parser/parser_query.go: 77-82"]}
{"id": "C43", "title": "Statements of a script do not depend on each other", "statement": "What ParseStmts gives for a script 'a ; b' is the error or crash it gives for 'a ;', or else the statements it gives for 'a ;' followed by what it gives for b with the same token numbers. No function that reads a statement consumes or looks past a semicolon.", "quantifier": "every script made of lexemes and layout, every semicolon in it", "why_tests_cant": "One method that skips a token without looking at it, peeks two tokens ahead or leaves a note in the parser state makes a later statement depend on an earlier one, and only on the scripts that reach it.", "anchors": ["parser/parser_table.go: 1486-1567", "parser/parser_common.go: 1-480", "parser/parser_column.go: 573-600"]}
