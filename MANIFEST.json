{
 "claims": [
  {
   "property": "C01",
   "status": "proved",
   "theorems": [
    "C01_parse_terminates"
   ],
   "note": ""
  },
  {
   "property": "C02",
   "status": "partial",
   "theorems": [
    "C02_no_undefined_behaviour_partial",
    "C02_refuted"
   ],
   "note": "Only exception: sscanf %d overflow for INTERVAL '<huge number>' (witness in C02_refuted); the exact rule is C57."
  },
  {
   "property": "C03",
   "status": "proved",
   "theorems": [
    "C03_soundness",
    "C04_valid_iff",
    "C03_vocabulary"
   ],
   "note": ""
  },
  {
   "property": "C17",
   "status": "proved",
   "theorems": [
    "C17_embedded_nul"
   ],
   "note": ""
  },
  {
   "property": "C18",
   "status": "proved",
   "theorems": [
    "C18_parameters"
   ],
   "note": ""
  },
  {
   "property": "C20",
   "status": "proved",
   "theorems": [
    "C20_errors"
   ],
   "note": ""
  },
  {
   "property": "C22",
   "status": "partial",
   "theorems": [
    "C22_failed_parse_statements_partial",
    "C22_refuted"
   ],
   "note": "False as stated: a failing parse may leave the statements of a derivable beginning of the input."
  },
  {
   "property": "C23",
   "status": "partial",
   "theorems": [
    "C23_no_leak_partial",
    "C23_refuted"
   ],
   "note": "False as stated (leaks listed in DESIGN.md); proved for all inputs avoiding the leaking constructs."
  },
  {
   "property": "C24",
   "status": "proved",
   "theorems": [
    "C24_independent_of_string_buffer"
   ],
   "note": ""
  },
  {
   "property": "C35",
   "status": "proved",
   "theorems": [
    "C35_tokenize"
   ],
   "note": ""
  },
  {
   "property": "C39",
   "status": "proved",
   "theorems": [
    "C39_positions"
   ],
   "note": ""
  },
  {
   "property": "C08",
   "status": "proved",
   "theorems": [
    "C08_longest_match"
   ],
   "note": ""
  },
  {
   "property": "C09",
   "status": "proved",
   "theorems": [
    "C09_letter_case",
    "C09_keyword_case",
    "C09_keyword_tokens",
    "C09_keyword_parse"
   ],
   "note": ""
  },
  {
   "property": "C10",
   "status": "proved",
   "theorems": [
    "C10_layout",
    "C10_layout_parse"
   ],
   "note": ""
  },
  {
   "property": "C11",
   "status": "partial",
   "theorems": [
    "C11_comment_partial",
    "C11_refuted"
   ],
   "note": "False as stated: a comment may swallow the next line or join two words; proved for comments with a non-blank character followed by a line that starts with a non-blank.  C50 and C65 are the exact rules."
  },
  {
   "property": "C12",
   "status": "proved",
   "theorems": [
    "C12_string_literal"
   ],
   "note": ""
  },
  {
   "property": "C13",
   "status": "partial",
   "theorems": [
    "C13_identifier_partial",
    "C13_quoted_identifier",
    "C13_refuted"
   ],
   "note": "False for CURRENT/CHARACTER followed by a word beginning with ROW/VARYING; proved otherwise."
  },
  {
   "property": "C14",
   "status": "partial",
   "theorems": [
    "C14_integer_value_partial",
    "C14_out_of_range",
    "C14_refuted"
   ],
   "note": "False for leading zeros (read as octal); proved for all other literals."
  },
  {
   "property": "C15",
   "status": "partial",
   "theorems": [
    "C15_min_integer_partial",
    "C15_refuted"
   ],
   "note": "First half proved; second half is false."
  },
  {
   "property": "C16",
   "status": "partial",
   "theorems": [
    "C16_reading_stops_partial",
    "C16_plain_input",
    "C16_refuted"
   ],
   "note": "False: an unknown character ends the input; proved that this and the end of the string are the only stops."
  },
  {
   "property": "C04",
   "status": "proved",
   "theorems": [
    "C04_completeness",
    "C04_valid_iff"
   ],
   "note": ""
  },
  {
   "property": "C05",
   "status": "proved",
   "theorems": [
    "C05_unambiguous"
   ],
   "note": ""
  },
  {
   "property": "C06",
   "status": "partial",
   "theorems": [
    "C06_precedence_partial",
    "C06_unparenthesised",
    "C06_associativity",
    "C06_refuted"
   ],
   "note": "False for the documented table: the unary minus binds weaker than * (witness). Proved with the strengths actually used."
  },
  {
   "property": "C07",
   "status": "proved",
   "theorems": [
    "C07_round_trip",
    "C07_written"
   ],
   "note": ""
  },
  {
   "property": "C30",
   "status": "proved",
   "theorems": [
    "C30_nullability"
   ],
   "note": ""
  },
  {
   "property": "C31",
   "status": "proved",
   "theorems": [
    "C31_table_elements"
   ],
   "note": ""
  },
  {
   "property": "C32",
   "status": "proved",
   "theorems": [
    "C32_copy_options",
    "C32_order",
    "C32_copy_order",
    "C32_import"
   ],
   "note": ""
  },
  {
   "property": "C37",
   "status": "proved",
   "theorems": [
    "C37_attachment"
   ],
   "note": ""
  },
  {
   "property": "C40",
   "status": "proved",
   "theorems": [
    "C40_no_parameters"
   ],
   "note": ""
  },
  {
   "property": "C41",
   "status": "partial",
   "theorems": [
    "C41_not_comparison_partial",
    "C41_not_in",
    "C41_refuted"
   ],
   "note": "False for IN and BETWEEN: NOT a IN (..) is parsed as (NOT a) IN (..); proved for comparisons, LIKE and IS NULL."
  },
  {
   "property": "C33",
   "status": "proved",
   "theorems": [
    "C33_date_literal",
    "C33_date_values",
    "C33_rejected",
    "C33_iso",
    "C34_vocabulary"
   ],
   "note": ""
  },
  {
   "property": "C34",
   "status": "partial",
   "theorems": [
    "C34_same_value",
    "C34_rejected_partial",
    "C34_vocabulary",
    "C02_refuted"
   ],
   "note": "Numbers that do not fit into int make sscanf overflow (undefined behaviour, C02_refuted); proved for all others."
  },
  {
   "property": "C29",
   "status": "proved",
   "theorems": [
    "C29_statement_list",
    "C29_select_list",
    "C29_values_list",
    "C29_operator_chain",
    "C29_join_chain",
    "C29_exhausted",
    "C29_nesting",
    "C29_never_accepted",
    "C29_parentheses"
   ],
   "note": ""
  },
  {
   "property": "C25",
   "status": "partial",
   "theorems": [
    "C25_reuse_partial",
    "C25_refuted"
   ],
   "note": "False as stated: a stale error message or stale parameters of the reused object change the outcome (witnesses); proved for objects without message and parameters. What happens for objects with them is C56."
  },
  {
   "property": "C26",
   "status": "partial",
   "theorems": [
    "C26_move_partial",
    "C26_move_constructor",
    "C26_refuted"
   ],
   "note": "False as stated: move assignment leaks the target's contents and forgets error position and parameters (witnesses); proved what is transferred."
  },
  {
   "property": "C27",
   "status": "proved",
   "theorems": [
    "C27_release"
   ],
   "note": ""
  },
  {
   "property": "C28",
   "status": "proved",
   "theorems": [
    "C28_reset"
   ],
   "note": ""
  },
  {
   "property": "C36",
   "status": "proved",
   "theorems": [
    "C36_print_safe",
    "C36_print_parsed"
   ],
   "note": ""
  },
  {
   "property": "C42",
   "status": "proved",
   "theorems": [
    "C42_threads",
    "C42_any_two_schedules",
    "C42_progress"
   ],
   "note": ""
  },
  {
   "property": "C43",
   "status": "proved",
   "theorems": [
    "C43_compares_all",
    "C43_equivalence",
    "C43_parsed_types"
   ],
   "note": ""
  },
  {
   "property": "C21",
   "status": "proved",
   "theorems": [
    "C21_prefix_decides",
    "C21_same_message",
    "C21_no_repair"
   ],
   "note": "Exact outcome for identical tokens (any continuation); same message for tokens equal up to position when the failure is a syntax error or a full stack (no semantic check failed in the part read); no continuation of the same token kinds is accepted after a syntax error."
  },
  {
   "property": "C38",
   "status": "proved",
   "theorems": [
    "C38_messages"
   ],
   "note": "Every listed token continues the input read so far to a beginning of a sentence of the grammar; the list is not claimed to be complete (LALR default reductions)."
  },
  {
   "property": "C19",
   "status": "proved",
   "theorems": [
    "C19_slices"
   ],
   "note": "C19_slices: the stringLength values are all assigned, non-negative, cut a prefix of the input into consecutive slices; slice i contains the text of every token between the i-th semicolon and the next, and ends exactly with the token behind them (semicolon / end of input) unless the statement is self_ending (Late.v: hint list, SHOW TABLES, SHOW/DESCRIBE/IMPORT ending with a qualified name, export with options), then exactly with its own last token; sums never exceed the input length.  Example shows both kinds of ends."
  },
  {
   "property": "C44",
   "status": "proved",
   "theorems": [
    "C44_printed_outline",
    "C44_outlines",
    "C44_unique"
   ],
   "note": "The outline (Outline.v) is a function of the statement as written; outlines of subqueries and windows are supplied by a coherent assignment, which exists (C44_outlines) and is determined (C44_unique).  Doubles are printed symbolically."
  },
  {
   "property": "C45",
   "status": "proved",
   "theorems": [
    "C45_every_history_is_safe",
    "C45_histories_do_not_matter",
    "C45_parameters",
    "C45_no_leak"
   ],
   "note": "Programs are lists of calls (History.v); the side conditions excluded are those of C02, C23, C25 and C26, each with a refutation witness there."
  },
  {
   "property": "C46",
   "status": "proved",
   "theorems": [
    "C46_nodes",
    "C46_statement_class"
   ],
   "note": "Over every history of calls (C45).  The promises per class and tag are the table [rows] of Nodes.v (independent of the parser); the table is closed: every object inside a statement satisfies one of the rows of its class."
  },
  {
   "property": "C47",
   "status": "proved",
   "theorems": [
    "C47_expression_node",
    "C47_table_node",
    "C47_written"
   ],
   "note": "First two: every node of every statement held after any history, answers in terms of the members.  C47_written: parsed SELECT statements, answers in terms of the text, for the select list and the FROM clause (recursively through joins)."
  },
  {
   "property": "C48",
   "status": "proved",
   "theorems": [
    "C48_integer_value",
    "C48_out_of_range"
   ],
   "note": "The exact rule where C14 is false as stated."
  },
  {
   "property": "C49",
   "status": "proved",
   "theorems": [
    "C49_words"
   ],
   "note": "The exact rule where C13 is false as stated; the three cases cover every word."
  },
  {
   "property": "C50",
   "status": "proved",
   "theorems": [
    "C50_comments"
   ],
   "note": "The exact rule where C11 is false as stated; the exception (a two-word token torn over a line end in a comment) is the hypothesis no_split_pair; C11_refuted shows what happens there, and C65 is the rule that includes it."
  },
  {
   "property": "C51",
   "status": "proved",
   "theorems": [
    "C51_operators"
   ],
   "note": "The exact rule where C15 is false as stated."
  },
  {
   "property": "C52",
   "status": "proved",
   "theorems": [
    "C52_scanner_stays_in_its_buffer"
   ],
   "note": "Scan.v models hsql_lex on the array yy_ch_buf with offsets for pointers; every access is bounds checked.  The theorem also says that this scanner yields the tokens of LexModel.v, on which the other properties rest.  Texts longer than INT_MAX - 2 bytes (int overflow in hsql__scan_string) are excluded."
  },
  {
   "property": "C53",
   "status": "proved",
   "theorems": [
    "C53_returns",
    "C53_same_result",
    "C53_memory"
   ],
   "note": "On the machine of Heap.v; parse_full (Session.v) is SQLParser::parse with the scanner's four blocks.  Undefined behaviour only as in C02; what may be lost only as in C23."
  },
  {
   "property": "C54",
   "status": "proved",
   "theorems": [
    "C54_tokenize_memory",
    "C54_tokenize_many"
   ],
   "note": "The initial contents of yylloc are a universally quantified value; strictly, reading them is undefined in C++ (noted in DESIGN.md)."
  },
  {
   "property": "C55",
   "status": "proved",
   "theorems": [
    "C55_leak_account"
   ],
   "note": "The exact rule where C23 is false as stated, for accepted inputs."
  },
  {
   "property": "C56",
   "status": "proved",
   "theorems": [
    "C56_every_life_is_safe",
    "C56_parse_into_used_object",
    "C56_freed_parameters"
   ],
   "note": "The exact rule where C25 is false as stated."
  },
  {
   "property": "C57",
   "status": "proved",
   "theorems": [
    "C57_only_there",
    "C57_returns",
    "C57_always_there"
   ],
   "note": "The exact rule where C02 is false as stated."
  },
  {
   "property": "C58",
   "status": "proved",
   "theorems": [
    "C58_same_tokens",
    "C58_scan_linear",
    "C58_parse_linear"
   ],
   "note": "LexTime.v repeats the scanner with a clock; C58_same_tokens says that the clock changes nothing.  Not counted: the work inside the rule and grammar actions (copying texts, freeing trees)."
  },
  {
   "property": "C59",
   "status": "proved",
   "theorems": [
    "C59_only_complete_beginnings",
    "C59_complete_beginnings_stay"
   ],
   "note": "The exact complement of C22.  Where the offending token is one a sentence could have there, but an operator without associativity forbids it (1 = 2 = 3), C59_complete_beginnings_stay says nothing."
  },
  {
   "property": "C60",
   "status": "proved",
   "theorems": [
    "C60_the_check_that_failed",
    "C60_what_is_wrong"
   ],
   "note": "C60_what_is_wrong speaks of tokens only.  Its faulty is a sound, not an exclusive description: it says what is wrong with the piece, not that nothing else is wrong later."
  },
  {
   "property": "C61",
   "status": "proved",
   "theorems": [
    "C61_rest_ignored",
    "C61_as_if_absent",
    "C61_only_there"
   ],
   "note": "C61_only_there is the converse: a text without NUL is read to its end or to such a place."
  },
  {
   "property": "C62",
   "status": "proved",
   "theorems": [
    "C62_failed_parse_account",
    "columns_consistent_by_tokens"
   ],
   "note": "The exact rule where C23 is false as stated, for rejected inputs. columns_consistent_by_tokens: when the hypothesis on columns holds, by tokens."
  },
  {
   "property": "C63",
   "status": "proved",
   "theorems": [
    "C63_split",
    "C63_join",
    "stretch_unique"
   ],
   "note": "Statements up to addresses and stringLength (which C19 determines). stretch_unique: the pieces are determined by the text."
  },
  {
   "property": "C64",
   "status": "proved",
   "theorems": [
    "C64_slice"
   ],
   "note": "Statements up to addresses and stringLength."
  },
  {
   "property": "C65",
   "status": "proved",
   "theorems": [
    "C65_comments"
   ],
   "note": "No exception left: covers what C11 and C50 exclude."
  },
  {
   "property": "C66",
   "status": "proved",
   "theorems": [
    "C66_same_call_elsewhere",
    "C66_nothing_but_addresses"
   ],
   "note": "Strengthens C24 and C45 to invalid texts and to everything but addresses.  Objects with a message or parameters: C56."
  },
  {
   "property": "C67",
   "status": "proved",
   "theorems": [
    "C67_account_of_a_program",
    "C67_every_program_has_one",
    "C67_what_remains"
   ],
   "note": "The losses of single calls are counted by C55, C59 and C62."
  },
  {
   "property": "C68",
   "status": "proved",
   "theorems": [
    "C68_allocated",
    "C68_at_every_moment",
    "C68_strings"
   ],
   "note": "Blocks and copied strings; the scanner's own buffer and string buffer: C52-C54."
  },
  {
   "property": "C69",
   "status": "proved",
   "theorems": [
    "C69_composed",
    "C69_needs_a_token",
    "C69_messages"
   ],
   "note": "Justifies the simpler syntax_message of the driver model.  malloc failing at line 5694 is not modelled: the line is never reached."
  },
  {
   "property": "C70",
   "status": "proved",
   "theorems": [
    "C70_arrays_are_a_stack",
    "C70_never_outside",
    "C70_parse"
   ],
   "note": "Refines the stacks of the driver model (lists) to the arrays of the C code; yyerror_range is only written: no state shifts the error token, so lines 5793-5809 are not reached."
  },
  {
   "property": "C71",
   "status": "proved",
   "theorems": [
    "C71_at_most",
    "C71_parameters_are_quadratic",
    "C71_any_number_of_parameters"
   ],
   "note": "Assigning a vector copies all its elements (libstdc++ may or may not allocate).  Copies into yyerror_range after an error are over-approximated; a valid parse has none."
  },
  {
   "property": "C72",
   "status": "proved",
   "theorems": [
    "C72_statements_stay",
    "C72_statements_stay_long",
    "C72_statements_end",
    "C72_parameters_stay",
    "C72_one_owner"
   ],
   "note": "For programs within the contract of C45 (parses into objects without message and parameters).  Assignment to the owner leaks what it had (see C26_refuted): the fourth clause of the rule."
  },
  {
   "property": "C73",
   "status": "proved",
   "theorems": [
    "C73_message_stays",
    "C73_message_stays_long",
    "C73_message_ends"
   ],
   "note": "For programs within the contract of C45 (parses into objects without message and parameters)."
  }
 ]
}