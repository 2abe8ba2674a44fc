# Formal model of hyrise/sql-parser in Rocq (Coq 8.16.1)

Everything is about the text of `/repo` at the pinned commit; nothing in `/repo` is compiled or run.

## 1. What is modelled

| layer | code | model file(s) |
|---|---|---|
| scanner tables + driver | `flex_lexer.cpp` tables, `yylex` driver, `yy_get_previous_state`, `yy_try_NUL_trans` | `FlexTables.v` (generated), `LexModel.v` |
| scanner buffer | `flex_lexer.cpp:3151-4345, 4366-4398, 4501-4557, 4916-4991` on the array `yy_ch_buf` | `Scan.v` |
| scanner memory, `SQLParser::parse`/`tokenize` in full | `SQLParser.cpp:13-72`, `flex_lexer.cpp:4661-4750, 4863-4908, 5205-5316` | `Session.v` |
| scanner with a clock | the loops of `flex_lexer.cpp:3193-3225, 4329-4336, 4500-4525, 4953-4990`, `bison_parser.y:47-60` | `LexTime.v` |
| scanner rules/actions | `flex_lexer.l` actions (= the `switch` in `flex_lexer.cpp`), `YY_USER_ACTION` | `LexModel.v` |
| parser tables + driver | `bison_parser.cpp` tables, `yyparse`, `yysyntax_error`, `yydestruct` | `BisonTables.v` (generated), `ParseModel.v`; `Verbose.v` (yysyntax_error byte by byte), `Stacks.v` (yyparse with its stacks as arrays and one index) |
| grammar actions | all 357 rules of `bison_parser.y` | `Actions.v` |
| AST classes, constructors, destructors | `src/sql/*.h`, `statements.cpp`, `Expr.cpp`, `CreateStatement.cpp`, ... | `Ast.v`, `Heap.v`, `Actions.v` |
| API | `SQLParser.cpp`, `SQLParserResult.{h,cpp}` | `Api.v` |
| printing helper | `util/sqlhelper.cpp` | `Print.v` |
| query functions of nodes | `sql/Expr.cpp:298-314`, `sql/statements.cpp:400-407`, `sql/SQLStatement.cpp:18-22` | `Access.v` |
| client programs, setters of results | `SQLParserResult.cpp` | `History.v` |

* Memory is explicit: every `new`/`strdup`/`malloc` takes a fresh address, every `free`/`delete` removes it from the
  set of live blocks, every dereference checks liveness.  Use after free, double free, null dereference, reading an
  indeterminate field, table index out of bounds and `%d` overflow in `sscanf` are a distinct outcome (`RUB reason`).
* Objects are trees of addressed nodes; a mutation through a pointer returns the updated node.  The only long-lived
  alias in the code (`yyloc.param_list`) is modelled explicitly by address.
* The generated tables are literal copies of the C arrays, made by `tools/gen_tables.py` (text extraction).
* `atof` is kept symbolic (the literal's text is the value); `strtoll` and the three `sscanf` formats are modelled.

Not modelled: allocation failure (`bad_alloc`, `strdup` returning null), the C++ `iostream` formatting inside
`sqlhelper` beyond which fields are read and in which order, the bison/flex generators themselves, `benchmark/`,
`example/`, `test/`, floating point rounding, the compiler.

## 2. Trusted base

Coq 8.16.1's kernel (including `vm_compute`), the reading of the C++ sources recorded in the comments of each
definition, the extraction script for the tables (checked indirectly: the validators in Coq reject corrupted tables).
`Assumptions.v` gathers every theorem named in MANIFEST.json into one term and prints its assumptions: the output is
`Closed under the global context`, so no theorem rests on any axiom (not even one of the standard library).  `coqchk` additionally lists seven names of
`Coq.ssr.ssrunder`: these are the fields of a module type in a file the standard library's `ssreflect` loads; no theorem
here uses them (`Print Assumptions` does not list them).

## 3. Technique per property

| id | model part | proof method |
|---|---|---|
| C01 | whole pipeline | potential function over stack symbols checked on all rules; fuel never runs out |
| C02 | driver + actions | invariant: stack values typed by symbol, addresses distinct and live; per-rule lemma |
| C03 | driver | stack-path validator (`vm_compute` on all states), induction on the run: derivation tree of the read tokens |
| C04 | driver | LALR(1) item certificate (validated in Coq), induction on derivation trees (Jourdan–Pottier–Leroy) |
| C05 | driver | corollary of C04: the run is a function |
| C06, C41 | expressions | printer with minimal parentheses; C04 |
| C07, C37 | statements | surface syntax, printer, expected object; C04 + evaluation of actions |
| C08 | scanner | certificate DFA state -> regex residuals (derivatives), checked for all states/classes; induction |
| C09 | scanner | equivalence classes of bytes; induction on the run |
| C10–C16 | scanner | corollaries of C08 / inductions on automaton runs; refutations by `vm_compute` witnesses |
| C17 | API | `scan_string` stops at NUL |
| C18, C19 | driver + actions | invariants over the run; for the exact end of a slice (C19) Late.v shows which statements the tables recognise as complete without reading the next token |
| C20–C22, C38 | driver, `yyerror` | invariants over the run; refutation witness for C22 |
| C23 | memory | address accounting: live = owned + leaked; the leaking actions are enumerated |
| C24, C42 | scanner state | per-scanner state functions; interleaving commutation |
| C25–C28 | result object | state machine over operations, ownership invariant, refutation witnesses |
| C29 | driver | stack bound in the driver; lists via C04 |
| C30–C34, C40 | actions | functional lemmas on action semantics, for all lists/strings |
| C35 | API | same scanner function |
| C36 | Print | typing invariant of returned trees implies printing is defined |
| C39 | scanner | counters bounded by consumed length |
| C43 | ColumnType | decision lemma |
| C44 | Print.v (what is written) | outline as a function of the statement as written (Outline.v); induction on expressions, queries and on `legal` (subqueries); fuel and addresses irrelevant (PrintCong.v) |
| C45 | Api.v + the setters, client programs (History.v) | invariant over the list of calls: objects sound, blocks owned once, `lost` account; C24-style independence of the heap for the verdict |
| C46 | live blocks + types of the tree (Typing.v) | the invariant of C45 gives a type for every statement; each live shape satisfies a row of Nodes.v (checked once per shape, then induction on `inside`) |
| C47 | query functions of nodes (Access.v) | from C46 for all nodes; for written statements by reading the object tree determined by C07 |
| C48 | scanner (exact value of integer literals; complements C14/C15, which are false as stated) | longest match on flex_rules, value of strtoll with base 0 as an independent function on digit strings |
| C49 | scanner (every word; complements C13) | longest match; the keyword rules and the list of keywords (Keywords.v) are compared by computation, the two pair rules by hand |
| C50 | scanner, COMMENT start state (complements C11) | induction on the text: in the comment state the scanner alternates between rule 2 (rest of the line), rule 4 (blank lines) and rule 3 (line end) |
| C51 | scanner (every operator; complements C15) | derivatives of flex_rules after each operator, for all 255 next bytes |
| C52 | scanner buffer (Scan.v) | refinement: the pointer-level scanner simulates the list-level one of LexModel.v (invariant: restoring the saved character gives text ++ two NULs, the pointer is at the unread rest) |
| C53 | scanner memory (Session.v) | the heap invariant of C23 holds in any machine: it is applied with the scanner's blocks as part of the surroundings |
| C54 | SQLParser::tokenize (Session.v) | induction on the tokens; codes and values do not depend on positions |
| C55 | memory | the address accounting of C23 with the number of lost blocks; the number per production is checked on the grammar and summed by induction on derivation trees |
| C56 | call sequences with used objects | the parse into the used object is run beside a parse into the same object without message and parameters (Stale.v, `sim`): the two machines stay alike up to message and parameters, until rule 56 (CREATE TABLE with columns) asks for the message or rule 2 sorts the parameters; TableStmt.v relates rule 56 in the derivation to the statement it makes |
| C57 | driver + actions + the machine of Abs.v | the explanation of an undefined run (InvRun.v, `overflows`) names the reduction to an interval literal; the state there has viable items (Viable.v), so the tokens begin a sentence. Conversely (Overflow.v): the valid text's run gives the state after INTERVAL, the two runs agree up to there (`core_run`), the tables around INTERVAL are computed, and the real parser at that state (`doomed`) can only be undefined |
| C58 | scanner with a clock (LexTime.v) | the clocked functions erase to those of LexModel.v; computed facts about the 30 non-accepting states of the automaton (TimeProof.v): from an accepting state at most 18 bytes, plus a run of blanks after CURRENT/CHARACTER, plus anything after an unmatched quotation mark (which ends the scan), are read in vain; the blanks are the next match, so an amortised count by induction over the scan is linear |
| C59 | driver, rules 2 and 354/355 | the runs of the driver on the text and on the valid text are compared step by step (Left.v: lock_step, a computed check that a state with a default reduction reduces the same way for every lookahead it does not reject, except after a semicolon); what an error leaves is what rule 2 added if it was reduced last |
| C60 | driver, YYERROR branches of the semantic actions | simulation (Cause.v): a failing action means a node whose parts have meanings and which has none, with the message of Complaint.v for its production; Fault.v turns that into a statement about the tokens of the piece, by inspection of the productions a check depends on (options and constraints by induction) |
| C61 | scanner | Stop.v: at a byte of the four classes in which no token begins, every residual rule set either matches at once or dies (checked on all DFA states), so a longest match never depends on what follows; induction on the scan |
| C62 | memory | Waste.v: for every grammar symbol what its %destructor frees and what it does not, as an exact number of blocks; then the invariant of C23 at the stopping step, with the pieces on the stack (Abs.v) and their meanings (Sem.v) |
| C63 | scripts | Renumber.v: the value of a derivation depends on the parameters before it by the renumbering only (induction on derivations, one case per rule of Sem.v); PropScript.v: the statements of the derivation of a script are its pieces between the semicolons, C04/C05 for the pieces and for the joined script |
| C64 | scripts | Slice.v: cutting the text behind a token leaves the tokens before the cut as they are, and the scanner is in its initial state there (induction on the scan; the only exceptions are the tokens CURRENT ROW and CHARACTER VARYING, which contain line breaks and never end a statement); then C19 for the offsets and C63 for the statement |
| C65 | scanner | PropComment.v: the inductive relation `hides` reads a comment piece by piece; each piece is one match of the scanner in state COMMENT (longest match against all 189 rules by LexScan), including the two-word keywords that deliver a token from inside the comment |
| C66 | API, driver, all actions | Move.v: a simulation between two machines whose heaps differ by a shift of the addresses: every primitive, all 357 actions and the driver preserve it; both the start of a program and the machine of any history are shifts of a machine without blocks |
| C67 | memory, histories | PropAccount.v: the addresses reachable from a pool as a list; the invariant of C45 with the lost blocks as a list; a parse loses the image (C66) of what it loses at the start of a program |
| C68 | heap, all actions, driver, scanner | Memory.v: every primitive, every one of the 357 actions and every round of the driver gets a budget of allocations (at most 3); with the number of rounds (C01) and an induction over the scanner relation for the strings |
| C69 | yysyntax_error, yytnamerr, yystpcpy and the call at yyerrlab, byte by byte | Verbose.v: every table read, buffer write and argument slot is checked, sizes wrap modulo 2^64; the loop and the copying are handled by induction over any table and any format, the three table facts (reads in range, names plain, sizes) by evaluation over all 656 states and 199 tokens in the kernel |
| C70 | yyparse with yyssa, yyvsa, yylsa as arrays of 200 cells and one index for the three pointers | Stacks.v: every load and store is checked; StackProof.v: a simulation with the list model, the list being the written cells up to the index, for every round, the error recovery and the cleanup; equality of the two parsers on every token sequence and object |
| C71 | the parameter list inside the location type (parser_typedef.h:14-28) and its copies on the location stack | Copies.v: the element counts of all copies of a run, beside the driver model; the list never shrinks and grows by at most one element, only in a reduction (one lemma per primitive, all 357 actions), so the copies of a valid text with q parameters are between q(q+1)/2 and q times the rounds; with C01 and C18.  These vectors live in the cells of yylsa, not in the statements: C68 does not count them |
| C72 | the ownership transfers of all public calls (History.v) | PropLifetime.v: a statement is a value with addresses; case analysis over the calls shows that it stays in an object or with the program unless the call is one of the four named; C45 (what is held is allocated, once) turns this into lifetimes; the converse by the heap accounts of C45; then induction over sequences of calls |
| C73 | as C72, for the message | PropMessage.v: as C72, with the place of the message after each call (moves take it along); a parse into an object that still has a message is outside the contract (C25_refuted) |

## 4. What the statements of the theorems rest on (read these to judge a theorem)

Specification files, written independently of the model and of each other's proofs:

| file | content |
|---|---|
| `Keywords.v` | the 164 keywords with their token codes, punctuation, the text used for a token in error messages |
| `LexSpec.v` (`flex_rules`), `Regex.v` | the 189 patterns of `flex_lexer.l` as regular expressions; what "matches" means |
| `GrammarDef.v`, `Grammar.v` | the 357 productions of `bison_parser.y`, derivation trees, yield, sentence |
| `Prec.v` | the `%left/%right/%nonassoc` table and when a tree respects it |
| `Sem.v` | what every production builds from the meanings of its parts: an AST without addresses (`asem`, `sem`) |
| `Part.v`, `Expr.v`, `Stmt.v`, `Legal.v` | surface syntax for expressions, clauses, statements, scripts: tokens, expected object |
| `Spell.v`, `Write.v` | how a token sequence may be spelled as text |
| `Length.v` | expected slice lengths |
| `History.v` | programs that use several result objects: the calls and their effect |
| `Outline.v` | what printing a statement shows, as a function of the statement as written |
| `Nodes.v` | for every class and tag, what each member of a node holds; classes of statements by tag |
| `Stop.v` (`no_token`) | at which places of a text no token begins |
| `Complaint.v` | the message of each semantic check, by production and by the tokens it objects to |
| `Move.v` (`mv`, `mvp`) | a value with every block at another address |
| `PropComment.v` (`broken_pair`, `hides`) | what a comment hides, piece by piece |
| `PropAccount.v` (`addresses`, `loses`, `cost`) | the blocks a program can reach, and what each call loses |
| `PropVocab.v` (C03_vocabulary), `PropLit.v` (C34_vocabulary) | laws that fix the small definitions of the model which statements share (reading and changing a member, records, enumerators; white space, digits, comparison of words without case) |
| `Renumber.v` (`ren`) | a statement with the numbers of its parameters raised |
| `Waste.v` (first part) | how many blocks of a pending piece the %destructors of bison_parser.y:181-207 leave allocated |

The model's `Actions.v` and the specification `Sem.v` are separate texts (one with addresses, ownership, frees and
`new`; the other a pure function); they share a few leaf functions: `casecmp` (strcasecmp), `scan_*` (the three sscanf
formats), `unit_of`, `file_type`, `mk_column_type`, and the `yytranslate` map.  Theorems about these leaves are
stated directly (C33, C34, C43, C32).

Checks of the generated tables inside Coq (all by `vm_compute`, no trust in the generator): `TableCheck.v` (indices in
bounds), `ParserCert.v`/`ItemCert.v`/`Items.v` (LALR certificate against `GrammarDef`), `LexCert.v` (DFA against
`flex_rules`).  A corrupted table entry breaks one of them (see seeded/LOG.jsonl).

## 5. Findings: where the code deviates from the English property

Each is a theorem (`_refuted`, or an `Example` beside the property) about the model.

* Scanner: a comment swallows the following line if that line is empty or starts with a blank, a comment without text
  swallows the next line (C11_refuted); `--CURRENT` newline `ROW` is one token; an unknown character or an
  unterminated string acts as the end of the input (C16_refuted); integers with a leading zero are octal
  (C14_refuted); `5-9223372036854775808` is not a subtraction (C15_refuted); `current rowid` is split (C13_refuted); the
  first position of a string token is that of its closing quote.
* Parser: depth limit of 200 stack entries ("memory exhausted", C29); `-a*b` is `-(a*b)` (C06_refuted); `NOT a IN (..)`
  and `NOT a BETWEEN ..` are `(NOT a) IN/BETWEEN` (C41_refuted); a failing parse can leave statements in the result
  (C22_refuted); `stringLength` of a statement that ends without lookahead does not include its `;` (C19 examples);
  `stringLength` of nested selects is never assigned.
* Memory: leaks on success (`array[index]` rule 274, CREATE INDEX on `schema.table` rule 58) and on errors
  (`with_description_vec`, `locking_clause_vec`, `update_vec`, `ColumnConstraints`, rule 55) (C23_refuted); `tokenize`
  leaks the first token's string (C54) and computes with an uninitialised location (formally undefined behaviour in C++;
  the result does not depend on it, C54).
* Result object: constructor leaves `errorLine_/errorColumn_` uninitialised; `reset` keeps `parameters_` (dangling
  pointers) and a stale error message makes a later valid CREATE TABLE fail (C25_refuted); move assignment leaks the
  target's contents and drops error position and parameters (C26_refuted).
* Literals: `INTERVAL '<huge>'` overflows `%d` in sscanf, the only undefined behaviour reachable (C02_refuted); DATE
  accepts `'99-99-99'`, signs and blanks; INTERVAL accepts `'3days'`.
* Printing: EXISTS / IN (SELECT ..) subqueries, the WHEN list of a CASE with ELSE, DISTINCT, join types, USING and WITH
  are not printed (C44).

## 6. Status

See MANIFEST.json (theorems and notes per property).  A property marked `partial` is false as stated or true only on
the stated part; its `_refuted` theorem shows why and its `_partial` theorem is the largest part proved.
