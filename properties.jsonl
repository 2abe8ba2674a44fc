{"id": "C01", "title": "parse always terminates and returns true", "statement": "For every input string, SQLParser::parse returns true after a number of parser steps that is at most linear in the number of tokens; afterwards isValid() is true exactly when the grammar engine reported success.", "quantifier": "every byte string", "why_tests_cant": "termination and a linear bound range over all inputs; a hang needs one unlucky table entry", "anchors": ["src/SQLParser.cpp:SQLParser::parse", "src/parser/bison_parser.cpp:yyparse", "src/parser/flex_lexer.cpp:yylex"]}
{"id": "C02", "title": "parse is free of undefined behaviour", "statement": "For every input and a freshly constructed result, parsing never frees a block twice, touches a freed block, dereferences null, reads an uninitialised field, reads the wrong union member, or indexes a table out of bounds (also on all error paths).", "quantifier": "every byte string, every error point", "why_tests_cant": "memory errors hide on error paths reached by particular truncated inputs; sanitizer tests only sample them", "anchors": ["src/parser/bison_parser.y:semantic actions", "src/parser/bison_parser.cpp:yydestruct", "src/parser/bison_parser.cpp:yyparse", "src/sql/Expr.cpp", "src/sql/statements.cpp"]}
{"id": "C03", "title": "accepted input is derivable (soundness)", "statement": "If parse reports isValid(), the token sequence of the input is derivable from the grammar written in bison_parser.y, and the statements returned are the ones built by the grammar's actions along that derivation.", "quantifier": "every byte string", "why_tests_cant": "all inputs; generated tables are opaque", "anchors": ["src/parser/bison_parser.y", "src/parser/bison_parser.cpp:yytable", "src/parser/bison_parser.cpp:yyparse"]}
{"id": "C04", "title": "derivable input is accepted (completeness)", "statement": "Every token sequence that has a derivation respecting the declared operator precedences, whose semantic checks succeed and which fits into the parser stack is accepted, and the result is the value of that derivation.", "quantifier": "every derivation tree of the grammar, of any size", "why_tests_cant": "infinitely many derivations; tables are opaque", "anchors": ["src/parser/bison_parser.y", "src/parser/bison_parser.cpp:yytable", "src/parser/bison_parser.cpp:yyparse"]}
{"id": "C05", "title": "precedence-respecting derivations are unique", "statement": "No token sequence has two different precedence-respecting derivations with different results: parsing is deterministic and unambiguous.", "quantifier": "every pair of derivation trees with the same yield", "why_tests_cant": "ambiguity is a statement about all sentences", "anchors": ["src/parser/bison_parser.y:%left/%right/%nonassoc declarations"]}
{"id": "C06", "title": "operator precedence and associativity", "statement": "Printing any expression tree with the minimal parentheses demanded by the documented precedence table and parsing it gives back exactly this expression tree.", "quantifier": "every expression tree", "why_tests_cant": "operator combinations nest to unbounded depth", "anchors": ["src/parser/bison_parser.y:operand,unary_expr,binary_expr,logic_expr,comp_expr", "src/sql/Expr.cpp:makeOpBinary"]}
{"id": "C07", "title": "statement round trip", "statement": "For every statement of the supported SQL subset whose nesting fits into the parser stack, printing it as SQL text and parsing the text yields isValid() and an object tree with exactly the printed fields (names, lists in order, flags, clauses), everything else null/zero; statements whose semantic checks fail are rejected.", "quantifier": "every statement value, any nesting and list length", "why_tests_cant": "unbounded space of statements; swapped or dropped fields only show on particular clauses", "anchors": ["src/parser/bison_parser.y", "src/sql/*.h", "src/sql/*.cpp"]}
{"id": "C08", "title": "longest match, first rule wins", "statement": "Each scanner step consumes the longest prefix matched by any active rule of flex_lexer.l, and among the rules matching that prefix runs the first one.", "quantifier": "every remaining input and start condition", "why_tests_cant": "1367-state compressed DFA; tests sample a few words", "anchors": ["src/parser/flex_lexer.l", "src/parser/flex_lexer.cpp:yy_nxt,yy_chk,yy_base,yy_def", "src/parser/flex_lexer.cpp:hsql_lex"]}
{"id": "C09", "title": "keywords are case-insensitive", "statement": "Changing the letter case of keywords never changes the token sequence.", "quantifier": "every keyword, every case variant", "why_tests_cant": "2^n variants per keyword", "anchors": ["src/parser/flex_lexer.l:%option case-insensitive"]}
{"id": "C10", "title": "layout does not matter", "statement": "Replacing the blanks between tokens by any other non-empty sequence of spaces, tabs and newlines does not change the token sequence with its values, hence not the parse result apart from positions and lengths.", "quantifier": "every token sequence, every layout", "why_tests_cant": "infinitely many layouts", "anchors": ["src/parser/flex_lexer.l:whitespace rule"]}
{"id": "C11", "title": "comments run to the end of the line only", "statement": "A comment introduced by -- removes exactly the text up to the end of its line, i.e. it can be replaced by white space.", "quantifier": "every comment body and continuation", "why_tests_cant": "depends on the bytes following the newline", "anchors": ["src/parser/flex_lexer.l:COMMENT rules"]}
{"id": "C12", "title": "string literal content", "statement": "For every NUL-free byte string, writing it in single quotes with inner quotes doubled is scanned as one STRING token whose value is exactly this byte string.", "quantifier": "every NUL-free byte string", "why_tests_cant": "all contents", "anchors": ["src/parser/flex_lexer.l:singlequotedstring rules"]}
{"id": "C13", "title": "identifiers keep their spelling", "statement": "An unquoted identifier which is not a keyword and any double-quoted identifier is scanned as one IDENTIFIER token whose value is exactly the written name.", "quantifier": "every identifier", "why_tests_cant": "all names incl. keyword prefixes", "anchors": ["src/parser/flex_lexer.l:identifier rules", "src/sql/Expr.cpp:substr"]}
{"id": "C14", "title": "integer literal value", "statement": "An integer literal denotes its decimal value when it fits into 64 bits and makes the input invalid otherwise.", "quantifier": "every digit string", "why_tests_cant": "all digit strings incl. boundary and leading zeros", "anchors": ["src/parser/flex_lexer.l:[0-9]+ rule"]}
{"id": "C15", "title": "most negative integer", "statement": "-9223372036854775808 is read as the 64-bit minimum wherever a negative literal may be written, without changing how other inputs containing '-' are read.", "quantifier": "every context of the literal", "why_tests_cant": "context-dependent maximal munch", "anchors": ["src/parser/flex_lexer.l:-9223372036854775808 rule"]}
{"id": "C16", "title": "valid means the whole input was read", "statement": "If isValid() then every byte of the input (before the first NUL) took part in the parse: nothing is silently ignored at the end.", "quantifier": "every byte string", "why_tests_cant": "depends on which byte follows a complete statement", "anchors": ["src/parser/flex_lexer.l:unknown character rule", "src/parser/flex_lexer.l:<<EOF>> rule", "src/parser/bison_parser.cpp:yyparse"]}
{"id": "C17", "title": "embedded NUL", "statement": "The result of parse and tokenize depends only on the bytes before the first NUL byte of the std::string.", "quantifier": "every pair of strings agreeing up to the first NUL", "why_tests_cant": "all strings", "anchors": ["src/SQLParser.cpp:SQLParser::parse", "src/parser/flex_lexer.cpp:hsql__scan_string"]}
{"id": "C18", "title": "parameter numbering", "statement": "After a successful parse into a fresh result, parameters() lists exactly the ? placeholders of the input in source order, the i-th has ival == ival2 == i.", "quantifier": "every valid input", "why_tests_cant": "any number and nesting of placeholders", "anchors": ["src/parser/bison_parser.y:param_expr", "src/parser/bison_parser.y:input", "src/SQLParserResult.cpp:addParameter"]}
{"id": "C19", "title": "stringLength cuts the input into statements", "statement": "The stringLength values of the statements of a valid parse cut a prefix of the input into consecutive slices such that slice i contains the tokens of statement i, and their sum never exceeds the input length. A slice ends with the token behind its statement (the semicolon or the end of input), except when the parser recognises the statement as complete without reading that token: a statement ending with a hint list, SHOW TABLES, a SHOW, DESCRIBE or IMPORT statement ending with a qualified table name, and an export with options; then the slice ends with the statement's own last token and the semicolon belongs to the next slice.", "quantifier": "every valid multi-statement input", "why_tests_cant": "lookahead-dependent bookkeeping differs per statement kind", "anchors": ["src/parser/bison_parser.y:statement_list", "src/sql/SQLStatement.h:stringLength"]}
{"id": "C20", "title": "errors are reported", "statement": "After parse into a fresh result, isValid() is false iff errorMsg() is non-null, and then errorLine()/errorColumn() are the zero-based position of a scanned token inside the input.", "quantifier": "every byte string", "why_tests_cant": "every error path", "anchors": ["src/parser/bison_parser.y:yyerror", "src/parser/bison_parser.cpp:yyerrlab", "src/SQLParserResult.cpp:setErrorDetails"]}
{"id": "C21", "title": "a syntax error depends on the prefix only", "statement": "If a syntax error is raised at the k-th token, every input with the same first k tokens fails with the same message and no continuation can repair it.", "quantifier": "every invalid input and every continuation", "why_tests_cant": "all continuations", "anchors": ["src/parser/bison_parser.cpp:yyparse"]}
{"id": "C22", "title": "failed parses return no statements", "statement": "If isValid() is false after parsing into a fresh result then size() == 0.", "quantifier": "every invalid input", "why_tests_cant": "depends on default reductions before the error is noticed", "anchors": ["src/parser/bison_parser.y:input", "src/parser/bison_parser.cpp:yydefact"]}
{"id": "C23", "title": "no memory leak", "statement": "After parse and destruction of the result, every block allocated during the parse has been released.", "quantifier": "every byte string", "why_tests_cant": "leaks on particular error points", "anchors": ["src/parser/bison_parser.y:%destructor", "src/parser/bison_parser.y:array_index", "src/parser/bison_parser.y:create_statement", "src/parser/bison_parser.cpp:yydestruct"]}
{"id": "C24", "title": "parses do not influence each other", "statement": "The outcome of parse for a fresh result is independent of earlier parses on the same thread and of scanner state left behind by them (thread-local string buffer).", "quantifier": "every history of earlier inputs", "why_tests_cant": "all histories", "anchors": ["src/parser/flex_lexer.l:strbuf", "src/SQLParser.cpp"]}
{"id": "C25", "title": "reusing a result object", "statement": "Parsing into a result object that already holds an earlier outcome (with or without reset()) yields a validity verdict that depends on the new input only, and parameters() never refers to destroyed expressions.", "quantifier": "every sequence of parses into one object", "why_tests_cant": "histories", "anchors": ["src/SQLParserResult.cpp:reset", "src/SQLParserResult.cpp:addParameter", "src/parser/bison_parser.y:create_statement"]}
{"id": "C26", "title": "moving a result", "statement": "Move construction/assignment transfers validity, error information, statements and parameters and leaks nothing; the source becomes an empty result.", "quantifier": "every pair of result states", "why_tests_cant": "all states", "anchors": ["src/SQLParserResult.cpp:operator="]}
{"id": "C27", "title": "releaseStatements transfers ownership", "statement": "releaseStatements returns all statements in order, leaves size()==0, and neither reset() nor destruction afterwards frees any of them.", "quantifier": "every result state, every later operation sequence", "why_tests_cant": "histories", "anchors": ["src/SQLParserResult.cpp:releaseStatements"]}
{"id": "C28", "title": "reset and destruction free each statement exactly once", "statement": "reset() frees every block owned by the result exactly once, leaves an empty invalid result, and repeating it is harmless.", "quantifier": "every result state", "why_tests_cant": "all states", "anchors": ["src/SQLParserResult.cpp:reset", "src/sql/statements.cpp:destructors"]}
{"id": "C29", "title": "size limits", "statement": "List-like constructs (statement lists, select lists, VALUES lists, AND/OR and arithmetic chains, JOIN chains) of any length are accepted; nesting deeper than the fixed parser stack of 200 entries is rejected with the error 'memory exhausted', never with memory corruption.", "quantifier": "every list length and nesting depth", "why_tests_cant": "unbounded sizes", "anchors": ["src/parser/bison_parser.cpp:YYINITDEPTH", "src/parser/bison_parser.cpp:yyparse"]}
{"id": "C30", "title": "column nullability", "statement": "A column definition is nullable=false iff it carries NOT NULL or PRIMARY KEY, true otherwise; combining either with an explicit NULL makes the input invalid, regardless of order and repetition of the constraints.", "quantifier": "every list of column constraints", "why_tests_cant": "all orders and repetitions", "anchors": ["src/sql/CreateStatement.cpp:trySetNullableExplicit", "src/parser/bison_parser.y:column_def", "src/parser/bison_parser.y:column_constraints"]}
{"id": "C31", "title": "table elements", "statement": "CREATE TABLE distributes its elements to columns and tableConstraints, losing and duplicating none and keeping the source order in both lists.", "quantifier": "every list of table elements", "why_tests_cant": "all interleavings", "anchors": ["src/sql/CreateStatement.cpp:setColumnDefsAndConstraints"]}
{"id": "C32", "title": "COPY/IMPORT options", "statement": "An option list is accepted iff all option words and formats are known, format and encoding are given at most once, each CSV option at most once, and CSV options occur only with format CSV or no format, independent of the order of the options; the accepted values arrive unchanged in the statement. IMPORT accepts exactly the known formats.", "quantifier": "every list of options in every order", "why_tests_cant": "all orders and repetitions", "anchors": ["src/parser/bison_parser.y:import_export_options", "src/sql/statements.cpp:accept_csv_option"]}
{"id": "C33", "title": "date literals", "statement": "DATE 'text' is accepted iff text matches the sscanf format %4d-%2d-%2d completely; every string of the form YYYY-MM-DD is accepted and kept verbatim; nothing with trailing text is.", "quantifier": "every string", "why_tests_cant": "all strings", "anchors": ["src/parser/bison_parser.y:date_literal"]}
{"id": "C34", "title": "interval literals", "statement": "INTERVAL 'n unit', INTERVAL 'n' UNIT and n UNIT produce the same interval value for all units (singular or plural, any case) and any int n; other strings are rejected.", "quantifier": "every string, unit, number", "why_tests_cant": "all strings", "anchors": ["src/parser/bison_parser.y:interval_literal"]}
{"id": "C35", "title": "tokenize agrees with parse", "statement": "tokenize appends exactly the token codes that the parser reads for the same input, in order, up to the end of input.", "quantifier": "every byte string", "why_tests_cant": "all inputs", "anchors": ["src/SQLParser.cpp:tokenize"]}
{"id": "C36", "title": "printing is safe", "statement": "printStatementInfo never dereferences null or reads an uninitialised field on any statement returned by parse.", "quantifier": "every statement a parse can return", "why_tests_cant": "all object shapes", "anchors": ["src/util/sqlhelper.cpp"]}
{"id": "C37", "title": "clause attachment in set operations", "statement": "ORDER BY, LIMIT, WITH and locking clauses are attached to the enclosing select / set operation they syntactically belong to, and an explicit LIMIT overrides TOP.", "quantifier": "every nesting of set operations and parentheses", "why_tests_cant": "all nestings", "anchors": ["src/parser/bison_parser.y:select_statement,select_no_paren,select_within_set_operation"]}
{"id": "C38", "title": "error messages name acceptable tokens", "statement": "A syntax error message names the unexpected token actually read, at its position; every token it names after 'expecting' (at most four) could indeed have been read there: some sentence of the grammar begins with the tokens read so far followed by it; and it names none only if at least five different tokens could have been read there.", "quantifier": "every invalid input", "why_tests_cant": "all error states", "anchors": ["src/parser/bison_parser.cpp:yysyntax_error"]}
{"id": "C39", "title": "position arithmetic", "statement": "Line, column and length counters never exceed the input length, so for inputs below 2^31 bytes no signed overflow occurs.", "quantifier": "every byte string shorter than 2^31", "why_tests_cant": "sizes out of reach for tests", "anchors": ["src/parser/bison_parser.y:YY_USER_ACTION", "src/parser/parser_typedef.h"]}
{"id": "C40", "title": "literal lists take no parameters", "statement": "INSERT ... VALUES, EXECUTE and hint argument lists reject ? placeholders and accept (cast) literals and negated numbers/intervals only.", "quantifier": "every literal list", "why_tests_cant": "all lists", "anchors": ["src/parser/bison_parser.y:extended_literal"]}
{"id": "C41", "title": "NOT binds weaker than comparison predicates", "statement": "NOT x <predicate> is parsed as NOT (x <predicate>) for =,<,LIKE,IS NULL and also for IN and BETWEEN.", "quantifier": "every operand x", "why_tests_cant": "combinations", "anchors": ["src/parser/bison_parser.y:unary_expr,in_expr,between_expr"]}
{"id": "C42", "title": "threads do not interfere", "statement": "Parses running on different threads produce the same results under every interleaving of their scanner steps.", "quantifier": "every interleaving", "why_tests_cant": "schedules", "anchors": ["src/parser/flex_lexer.l:thread_local strbuf"]}
{"id": "C43", "title": "column type comparison", "statement": "operator== on ColumnType is an equivalence relation that compares all four components and operator!= is its negation.", "quantifier": "every pair/triple of column types", "why_tests_cant": "all values", "anchors": ["src/sql/statements.cpp:operator=="]}
{"id": "C44", "title": "printing shows the outline of the statement", "statement": "For every well-formed script, parsing any spelling of it and calling printStatementInfo on each statement writes exactly the outline of that statement: every clause under its heading, every operator or function one level above its operands, names and literals as written (identifiers, literal values, parameter numbers), in source order, with the documented omissions (join kind, USING columns, DISTINCT, common table expressions, subqueries of IN/EXISTS, WHENs of a CASE with ELSE; nothing for UPDATE, DELETE, DROP, ALTER, PREPARE, EXECUTE, SHOW).", "quantifier": "every well-formed script, every spelling of it, every statement in it", "why_tests_cant": "unbounded nesting of expressions, subqueries, set operations and lists; every combination of clauses", "anchors": ["src/util/sqlhelper.cpp:printStatementInfo", "src/util/sqlhelper.cpp:printSelectStatementInfo", "src/util/sqlhelper.cpp:printExpression", "src/util/sqlhelper.cpp:printTableRefInfo", "src/util/sqlhelper.cpp:printWindowDescription"]}
{"id": "C45", "title": "any history of calls on any number of result objects", "statement": "A program that creates any number of result objects and calls constructors (default, with a statement, move), move assignment, parse, reset, releaseStatements, addStatement, setIsValid, setErrorDetails, destructors and delete on released statements, in any order, never causes undefined behaviour as long as it names only objects and statements it has, does not parse into an object that still carries an error message or parameters, and avoids INTERVAL texts whose number does not fit into int; no block is ever owned twice; parsing gives the verdict and the new statements of a parse by a program that did nothing else and changes no other object; and if nothing non-empty is overwritten and no leaking input is parsed, then after destroying everything no block is left.", "quantifier": "every finite sequence of API calls, every number of objects, every input parsed on the way", "why_tests_cant": "unbounded histories and interleavings of operations on several objects", "anchors": ["src/SQLParserResult.cpp:SQLParserResult", "src/SQLParserResult.cpp:reset", "src/SQLParserResult.cpp:releaseStatements", "src/SQLParserResult.cpp:setErrorDetails", "src/SQLParserResult.cpp:addStatement", "src/SQLParser.cpp:parse"]}
{"id": "C46", "title": "the tags of a node tell the truth", "statement": "In every statement a program can get hold of (by parsing, releaseStatements, addStatement, moving), at any time: type() names the class of the statement and is()/isType() answer accordingly, so a client may cast by tag; every object inside the statement has exactly the members its class and its tag (expression type, operator type, table type, join type, create/insert/drop/show kind) promise - operands present where the operator needs them, null where it does not, list elements of the right class, enumerators in range, no member uninitialised - and every non-null pointer in it points to a live block.", "quantifier": "every history of API calls, every statement held by the program, every object inside it at any depth", "why_tests_cant": "unbounded depth and number of nodes, every combination of syntax and API history", "anchors": ["src/sql/Expr.h:struct Expr", "src/sql/SQLStatement.cpp:type", "src/sql/SQLStatement.cpp:is", "src/sql/Table.h", "src/sql/CreateStatement.h", "src/sql/SelectStatement.h", "src/parser/bison_parser.y"]}
{"id": "C47", "title": "query functions of nodes are safe and exact", "statement": "Expr::isType, isLiteral, hasAlias, hasTable, getName and TableRef::hasSchema, getName may be called on every node of every statement held by a program: they never cause undefined behaviour and change nothing; isLiteral is true exactly for literals and parameters, hasAlias/hasTable/hasSchema exactly if the alias/table/schema was written, getName returns the alias if one was written and the name otherwise (null if there is neither).", "quantifier": "every history of API calls and every node (safety, answers from the members); every SELECT statement and every spelling of it (answers from what was written, for the items of its select list and the tables of its FROM clause)", "why_tests_cant": "unbounded statements and histories", "anchors": ["src/sql/Expr.cpp:isLiteral", "src/sql/Expr.cpp:getName", "src/sql/Expr.cpp:hasAlias", "src/sql/Expr.cpp:hasTable", "src/sql/statements.cpp:TableRef::getName", "src/sql/statements.cpp:TableRef::hasSchema"]}
{"id": "C48", "title": "the value of every integer literal", "statement": "A run of digits (not followed by a digit or a point) is read as one token: an integer literal whose value is the decimal value of the run if it does not begin with 0, and otherwise the octal value of its longest prefix of octal digits (so 010 is 8 and 09 is 0); if that value exceeds 2^63-1 the token is one that no statement can contain, and the parse result is invalid.", "quantifier": "every run of digits, every text behind it, every context in front of it", "why_tests_cant": "unboundedly many literals and contexts", "anchors": ["src/parser/flex_lexer.l:[0-9]+", "src/parser/flex_lexer.cpp:yylex"]}
{"id": "C49", "title": "what every word is read as", "statement": "A word (a letter followed by letters, digits and underscores, not continued) is read in exactly one of three ways: if it is a keyword, in any letter case, as the token of that keyword; if it is the first word of CURRENT ROW or CHARACTER VARYING and blanks and then the second word follow - even as the beginning of a longer word - as the token of the pair, consuming the second word; otherwise as an identifier with exactly this name.", "quantifier": "every word and every text behind it", "why_tests_cant": "unboundedly many words and continuations", "anchors": ["src/parser/flex_lexer.l", "src/parser/flex_lexer.cpp:yylex"]}
{"id": "C50", "title": "where a comment ends", "statement": "A comment begins with two dashes and hides everything up to and including the first line end that (a) is followed by a line not beginning with a blank, a tab or a line end, and (b) ends a line containing a character other than blank and tab, or follows the dashes directly; if there is no such line end it hides the rest of the input.  The tokens of the input are those before the comment followed by those of the text behind it.  (Inputs in which CURRENT and ROW, or CHARACTER and VARYING, are separated by blanks including a line end inside the text are excepted.)", "quantifier": "every input, every place of a comment in it", "why_tests_cant": "unbounded inputs", "anchors": ["src/parser/flex_lexer.l:COMMENT", "src/parser/flex_lexer.cpp:yylex"]}
{"id": "C51", "title": "what every operator is read as", "statement": "Each of the operators == != <> <= >= || and the single characters - + * / ( ) { } , . ; < > = ^ % : ? [ ] | is read as its own token, whatever follows, unless the text goes on to something longer: a longer operator, a comment, the literal -9223372036854775808, or (for the point) a digit.", "quantifier": "every operator and every text behind it", "why_tests_cant": "unboundedly many continuations", "anchors": ["src/parser/flex_lexer.l", "src/parser/flex_lexer.cpp:yylex"]}
{"id": "C52", "title": "the scanner never leaves its buffer", "statement": "For every input text of at most INT_MAX - 2 bytes, the scanner reads and writes only inside the buffer that hsql__scan_string made from it, never follows the null pointer of a missing last accepting state, never ends the process with a fatal scanner error, and every call returns; the text it overwrites temporarily is restored before it is read again. This holds for any number of calls, also after the end of the input, where it keeps returning 0.", "quantifier": "every input, every number of calls", "why_tests_cant": "the buffer is modified in place (yytext is terminated and restored), with back-up and end-of-buffer handling that depends on where the input ends; all inputs and lengths matter", "anchors": ["src/parser/flex_lexer.cpp:yylex", "src/parser/flex_lexer.cpp:yy_get_next_buffer", "src/parser/flex_lexer.cpp:yy_get_previous_state", "src/parser/flex_lexer.cpp:hsql__scan_bytes"]}
{"id": "C53", "title": "SQLParser::parse releases the scanner", "statement": "SQLParser::parse allocates a scanner (object, buffer stack, buffer state, character buffer), uses it only while it is alive, and releases each of these blocks exactly once on every path, whether the parse succeeds or fails; afterwards only the result's own memory is left (and what C23 describes), and the outcome is that of the parse proper.", "quantifier": "every input", "why_tests_cant": "all inputs, all error paths", "anchors": ["src/SQLParser.cpp:SQLParser::parse", "src/parser/flex_lexer.cpp:hsql_lex_init", "src/parser/flex_lexer.cpp:hsql__delete_buffer", "src/parser/flex_lexer.cpp:hsql_lex_destroy"]}
{"id": "C54", "title": "memory of SQLParser::tokenize", "statement": "SQLParser::tokenize always returns; it appends the codes of the tokens the parser would read, whatever its uninitialised location variable contains; it leaves all other memory alone and releases all memory it allocates, except that the string of the very first token is lost when that token is an identifier or a string literal. So tokenizing a sequence of texts loses exactly as many blocks as there are texts that begin this way.", "quantifier": "every input, every contents of the uninitialised variable, every sequence of texts", "why_tests_cant": "all inputs and call sequences; the contents of an uninitialised variable cannot be controlled by a test", "anchors": ["src/SQLParser.cpp:SQLParser::tokenize"]}
{"id": "C55", "title": "exact memory account of successful parses", "statement": "After a successful parse into a fresh result object, destroying the object leaves exactly one block allocated for every element access a[i] (every '[' that does not belong to an ARRAY[...]) and one for every CREATE INDEX on a table with a schema, and nothing else.", "quantifier": "every input that is accepted", "why_tests_cant": "all accepted inputs; the account must be exact for every combination and nesting", "anchors": ["src/parser/bison_parser.y:create_statement", "src/parser/bison_parser.y:array_index", "src/SQLParserResult.cpp:~SQLParserResult"]}
{"id": "C56", "title": "parsing into used result objects", "statement": "A program may parse into any result object, also one that still holds the error message or the parameters of earlier parses, and may reset, move and release in between: every call is defined (provided no '?' is parsed into an object whose old parameters have been freed, and no INTERVAL number outside int), no block is freed twice or freed while an object or statement of the program owns it. A valid text is accepted exactly as by a fresh object (its statements are appended, its parameters sorted into the old ones, the old message and position stay), except that an object with an old message rejects the texts that create a table from column definitions, and then keeps everything but the validity flag. An invalid text is rejected with a message. Parsing a valid text with '?' into an object with freed parameters reads freed memory.", "quantifier": "every sequence of calls on any number of result objects, every input", "why_tests_cant": "histories and inputs", "anchors": ["src/SQLParserResult.cpp:reset", "src/SQLParserResult.cpp:addParameter", "src/SQLParserResult.cpp:setErrorDetails", "src/parser/bison_parser.y:create_statement", "src/SQLParser.cpp:SQLParser::parse"]}
{"id": "C57", "title": "exactly where a parse leaves defined behaviour", "statement": "If parsing a text has undefined behaviour, then it is sscanf's %d overflowing in an interval literal: the tokens contain INTERVAL directly followed by a string that begins with a number outside the range of int, and the tokens up to that string begin a sentence of the grammar; so a text without such a pair is always parsed with defined behaviour. Conversely, if some valid text has the same tokens up to INTERVAL, then any string, then a token of the same kind, the parse of the text with the too large number is undefined, whatever follows it.", "quantifier": "every input text, every valid text to compare it with", "why_tests_cant": "all inputs; undefined behaviour cannot be observed by tests", "anchors": ["src/parser/bison_parser.y:interval_literal", "src/SQLParser.cpp:SQLParser::parse"]}
{"id": "C58", "title": "reading a text takes linear time", "statement": "For a text of n bytes, the scanner makes in all at most 256*n + 13 rounds of its loops (measuring and copying the text, matching, following default transitions, re-scanning at the end of the buffer, counting positions), and scanner and parser loop together at most 273*n + 246; in particular looking ahead and backing up (CURRENT ROW, CHARACTER VARYING, unclosed quotation marks, -9223372036854775808) never makes the work quadratic.", "quantifier": "every input text, every previous content of the string buffer, every result object", "why_tests_cant": "a bound for all texts of all lengths; a quadratic case shows up only on the right pattern", "anchors": ["src/parser/flex_lexer.cpp:hsql_lex", "src/parser/flex_lexer.cpp:yy_get_previous_state", "src/parser/flex_lexer.l", "src/parser/bison_parser.cpp:hsql_parse"]}
{"id": "C59", "title": "which statements a failed parse leaves", "statement": "A failed parse into a fresh result leaves statements in it only if the tokens before the offending one (the one the error position names) do not end with a semicolon and are a valid text by themselves; it then leaves exactly the statements, and as many parameters, as parsing that text gives. Conversely, if the tokens before some token are a valid text that does not end with a semicolon, and no sentence of the grammar continues them with that token, then the parse fails at that token and leaves these statements.", "quantifier": "every input text, every valid text with the same first tokens", "why_tests_cant": "all invalid inputs; depends on which reductions the parser makes before it looks at the offending token", "anchors": ["src/parser/bison_parser.y:input", "src/parser/bison_parser.y:opt_semicolon", "src/parser/bison_parser.cpp:hsql_parse", "src/SQLParser.cpp:SQLParser::parse"]}
{"id": "C60", "title": "the error message names the cause", "statement": "A failed parse reports either a token that cannot follow the tokens before it (the syntax error message of C38, at that token; or that the parser ran out of stack), or a piece of the text that begins some sentence's continuation, follows the grammar, and breaks one of the library's semantic rules: a DATE or INTERVAL literal whose string cannot be read, an unknown file type, a repeated or misplaced COPY/IMPORT option, an ORDER BY suffix other than NULLS FIRST/LAST, a ? where a literal is required, or a column declared both NULL and NOT NULL or PRIMARY KEY. In the second case the message is the one for the rule broken, and errorLine and errorColumn are those of the first token of that piece.", "quantifier": "every input text", "why_tests_cant": "all invalid inputs: which of the 15 checks fires, and that a check never fires on a piece that does not break its rule", "anchors": ["src/parser/bison_parser.y:file_type", "src/parser/bison_parser.y:import_export_options", "src/parser/bison_parser.y:csv_option", "src/parser/bison_parser.y:create_statement", "src/parser/bison_parser.y:column_def", "src/parser/bison_parser.y:opt_null_ordering", "src/parser/bison_parser.y:extended_literal", "src/parser/bison_parser.y:date_literal", "src/parser/bison_parser.y:interval_literal", "src/parser/bison_parser.y:yyerror"]}
{"id": "C61", "title": "where reading stops, and that nothing behind it counts", "statement": "If, outside comments and string literals, the scanner comes to a byte at which no token of the language begins (a byte other than letters, digits, blanks, the single quote and the punctuation -+*/(){},.;<>=^%:?[]|, except for != and for a quoted identifier), then everything behind that byte is ignored: parse() and tokenize() give the very same result as without it; the tokens are those of the text before it, and the text is accepted, with the same statements and number of parameters, exactly if the text before it is. These are the only places: every other text is read to its end (or to its first NUL).", "quantifier": "every text before, every such byte, every text behind it, every state of the result object", "why_tests_cant": "all continuations of all texts: a byte far behind the stop could change an earlier longest match", "anchors": ["src/parser/flex_lexer.l:.", "src/parser/flex_lexer.cpp:yylex", "src/SQLParser.cpp:SQLParser::parse", "src/SQLParser.cpp:SQLParser::tokenize"]}
{"id": "C62", "title": "the exact number of blocks a failed parse loses", "statement": "After a parse() into a fresh result that reports failure, destroying the result leaves exactly the following blocks allocated: those lost in the pieces already recognised (one for every element access and every CREATE INDEX on a table with a schema, as for accepted texts); for every pending SET list of an UPDATE everything its elements refer to; for every pending set of column constraints, locking clause or WITH list everything but its outermost block; and, if the failure is an unknown file type in CREATE TABLE t FROM x FILE 'f', the statement, the names and the file name. Nothing else is lost, and nothing is freed twice. (For texts in which no column is declared both NULL and NOT NULL or PRIMARY KEY; in particular for texts that never say NULL except in NOT NULL, or say neither NOT nor PRIMARY.)", "quantifier": "every failing text, whatever the place and the reason of the failure", "why_tests_cant": "a leak checker sees the texts it is run on; the number must be right for every prefix of every sentence and every token after it", "anchors": ["src/parser/bison_parser.y:%destructor", "src/parser/bison_parser.y:create_statement", "src/parser/bison_parser.cpp:yydestruct", "src/SQLParserResult.cpp:SQLParserResult::reset"]}
{"id": "C63", "title": "a script is its statements", "statement": "If a text with several statements is accepted, then every piece between two semicolons, parsed alone (with a semicolon behind it or not, written in any layout), is accepted, and gives the statement that stands at that place in the script, up to the numbers of its parameters: the statement of the script has the number of question marks before it added to every parameter's index. And any statement that stands behind a semicolon in some accepted script can be put behind any accepted script without changing the statements and parameters of that script.", "quantifier": "every accepted text, every statement in it, every text with the same tokens as the piece", "why_tests_cant": "all scripts of any length and all pieces: the parser keeps one state (parameter list, error message, stack) for the whole script", "anchors": ["src/parser/bison_parser.y:statement_list", "src/parser/bison_parser.y:input", "src/parser/bison_parser.y:param_expr", "src/SQLParser.cpp:SQLParser::parse"]}
{"id": "C64", "title": "the slices given by stringLength can be parsed alone", "statement": "Let a text be accepted, and cut it at the sums of the string lengths of its statements. Each slice, given to parse() on its own, is accepted and yields one statement, which is the statement at that place of the script with its parameters counted from zero, and as many parameters as the slice has question marks; except the slices behind a statement that ends, for the byte count, with its own last token (C19: hints, SHOW TABLES, SHOW/DESCRIBE/IMPORT with a qualified name, COPY ... TO with options): those begin with the semicolon of the statement before and are rejected.", "quantifier": "every accepted text, every statement in it", "why_tests_cant": "all scripts: a cut could fall inside a token, a comment or a literal, or change how the bytes before it are read", "anchors": ["src/parser/bison_parser.y:statement_list", "src/parser/bison_parser.y:YY_USER_ACTION", "src/sql/SQLStatement.h:stringLength", "src/parser/flex_lexer.l:rules"]}
{"id": "C65", "title": "what a comment hides, without exception", "statement": "Behind any complete tokens, the two dashes of a comment hide exactly this: the text is consumed piece by piece, a line end finishing the comment if no blank follows it, blanks that reach over a line end continuing it on the next line, a line of text being skipped up to its end, and a two-word keyword (CURRENT ROW, CHARACTER VARYING) whose words are broken over a line end being delivered as a token from inside the comment, which then goes on. The tokens of the whole text are those before the comment, those delivered from inside it, and those of the text behind it; every text has such a reading.", "quantifier": "every text without NUL byte and every place between tokens", "why_tests_cant": "comments of any length and content; the longest-match competition between the comment rules and the two-word keywords cannot be enumerated", "anchors": ["src/parser/flex_lexer.l:COMMENT", "src/parser/flex_lexer.l:CURRENT_ROW", "src/parser/flex_lexer.l:CHARACTER_VARYING"]}
{"id": "C66", "title": "a parse does the same wherever it happens", "statement": "A call parse(sql, &r) at any point of any program, into an object without message and parameters, is undefined behaviour exactly if the same call at the start of a program is; otherwise the object gets the verdict, the message with its position, the parameters and (behind the statements it already had) the statements which that call gives, whether the text is valid or not, and the same blocks are allocated, only at other addresses, none of which was in use; no other object, no statement outside and no block is touched.", "quantifier": "every program (sequence of calls of the result API), every text, every content of the scanner's leftover buffer", "why_tests_cant": "the machine a call meets is the result of an unbounded history; a test sees one history at a time", "anchors": ["src/SQLParser.cpp:SQLParser::parse", "src/SQLParserResult.cpp:SQLParserResult", "src/parser/bison_parser.cpp:yyparse"]}
{"id": "C67", "title": "the memory account of a whole program", "statement": "After any sequence of calls the allocated blocks are those reachable from the program's objects and statements, each once, plus as many others as the single calls lost: a move assignment loses what the target had, setErrorDetails the message the object had, a parse what a program loses that makes only this call and then destroys the object (C55, C59, C62 say how much that is), every other call nothing. So a program that has destroyed everything leaves exactly the sum of these losses.", "quantifier": "every program (sequence of calls of the result API) with any number of objects", "why_tests_cant": "a leak checker measures one program; the sum must be right for all of them", "anchors": ["src/SQLParserResult.cpp:SQLParserResult::operator=", "src/SQLParserResult.cpp:setErrorDetails", "src/SQLParserResult.cpp:SQLParserResult::reset", "src/SQLParser.cpp:SQLParser::parse"]}
{"id": "C68", "title": "the memory of a parse is linear", "statement": "A parse of a text of n bytes allocates in all at most 51*n + 699 blocks (objects, vectors, strings), so at every moment, also in the middle of the parse and also when the parse fails, there are at most that many live blocks more than before; and the strings it copies out of the text (identifiers, string literals) are together no longer than the text.", "quantifier": "every input text, every result object, every machine the call starts on, every round of the parser loop", "why_tests_cant": "a bound for all texts of all lengths; the text that makes one rule allocate too often need not be in the tests", "anchors": ["src/parser/bison_parser.cpp:hsql_parse", "src/parser/bison_parser.y", "src/sql/Expr.cpp", "src/parser/flex_lexer.l"]}
{"id": "C69", "title": "composing a syntax error message is memory safe", "statement": "When a parse fails with a syntax error, composing the message reads the parser tables and the token names only inside their bounds, stores at most five argument pointers, fits with its terminating NUL into the 128-byte buffer on the stack of the parser (so no memory is allocated for it and no malloc failure can change it), and the text handed to the result object is the complete message; a token has always been read by then (without one the generated code would read yytname[-2]).", "quantifier": "every state of the automaton, every token, every initial content of the buffer, every failing parse", "why_tests_cant": "an out-of-bounds read or an overlong message needs one particular state and token among 656 x 199; sanitizers only see the pairs the tests reach", "anchors": ["src/parser/bison_parser.cpp:yysyntax_error", "src/parser/bison_parser.cpp:yytnamerr", "src/parser/bison_parser.cpp:yystpcpy", "src/parser/bison_parser.cpp:yyerrlab"]}
{"id": "C70", "title": "the parser stacks never leave their arrays", "statement": "During any parse every read and write of the three stacks of the parser (states, values, locations; 200 elements each, on the C stack) is inside its array and never reads an element that was not written and is not discarded: pushing, taking the arguments of a rule, computing locations, popping during error recovery and cleaning up at the end.", "quantifier": "every input text, every sequence of tokens, every result object, every round of the parser loop", "why_tests_cant": "an overflow by one element needs the one nesting depth and rule length that meets the boundary; tests visit few depths", "anchors": ["src/parser/bison_parser.cpp:yyparse", "src/parser/bison_parser.cpp:YYPOPSTACK", "src/parser/bison_parser.cpp:YYLLOC_DEFAULT", "src/parser/bison_parser.cpp:yyerrlab1"]}
{"id": "C71", "title": "the parser copies the list of parameters at every reduction", "statement": "The location type of the parser contains the vector of the parameters seen so far, and every reduction copies it onto the location stack: a valid text of n bytes with q parameters makes the parser copy at least q(q+1)/2 and at most q*(17n+233) vector elements, so the time for statements with many parameters is quadratic, the time for a fixed number of parameters linear, and without parameters nothing is copied; no text, valid or not, costs more than (17n+433)(17n+233) element copies.", "quantifier": "every input text, every outcome, every number of parameters", "why_tests_cant": "a growth law for all texts; timing a few sizes neither proves a bound nor finds the cause", "anchors": ["src/parser/parser_typedef.h:HSQL_CUST_LTYPE", "src/parser/bison_parser.cpp:yyparse", "src/parser/bison_parser.y:param_expr"]}
{"id": "C72", "title": "how long a delivered statement stays valid", "statement": "In a program that uses any number of result objects in any order, a statement delivered by a parse (and everything inside it, so also what parameters() refers to) stays allocated, with the same contents at the same addresses, through every further call - later parses into the same or other objects, failing parses, moves, releaseStatements, addStatement, the setters, destruction of other objects - until the program calls reset() on the object that has it, destroys that object, assigns to it, or deletes the released statement; the first, second and fourth free every block of it, so that pointers to it dangle from then on, and the assignment to the owner leaves all of its blocks allocated with no owner; at every moment it is in one place only, in one object or with the program, and there once.", "quantifier": "every history of API calls, every statement, every further call or sequence of calls", "why_tests_cant": "a lifetime rule over all interleavings of all calls on all objects; a test runs one sequence, and a dangling pointer often still reads the old bytes", "anchors": ["src/SQLParserResult.cpp:SQLParserResult::reset", "src/SQLParserResult.cpp:SQLParserResult::operator=", "src/SQLParserResult.cpp:SQLParserResult::releaseStatements", "src/SQLParserResult.cpp:SQLParserResult::parameters", "src/SQLParser.cpp:SQLParser::parse"]}
{"id": "C73", "title": "how long an error message stays valid", "statement": "In a program that uses any number of result objects in any order, the text returned by errorMsg() stays allocated, unchanged and at the same address through every further call - parses into other objects, releaseStatements, addStatement, setIsValid, destruction of other objects, deletion of statements - and stays with the same object, except that a move takes it to the target; it ends only when the program calls reset() on the object that has it or destroys that object (the text is freed), or assigns to it or calls setErrorDetails() on it (the text stays allocated with no owner).", "quantifier": "every history of API calls, every message, every further call or sequence of calls", "why_tests_cant": "a lifetime rule over all interleavings of all calls on all objects; a dangling message pointer usually still reads the old text in a test", "anchors": ["src/SQLParserResult.cpp:SQLParserResult::errorMsg", "src/SQLParserResult.cpp:SQLParserResult::setErrorDetails", "src/SQLParserResult.cpp:SQLParserResult::reset", "src/SQLParserResult.cpp:SQLParserResult::operator="]}
