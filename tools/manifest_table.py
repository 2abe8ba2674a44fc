c("C01","proved",["C01_parse_terminates"])
c("C02","partial",["C02_no_undefined_behaviour_partial","C02_refuted"],"Only exception: sscanf %d overflow for INTERVAL '<huge number>' (witness in C02_refuted); the exact rule is C57.")
c("C03","proved",["C03_soundness","C04_valid_iff","C03_vocabulary"])
c("C17","proved",["C17_embedded_nul"])
c("C18","proved",["C18_parameters"])
c("C20","proved",["C20_errors"])
c("C22","partial",["C22_failed_parse_statements_partial","C22_refuted"],"False as stated: a failing parse may leave the statements of a derivable beginning of the input.")
c("C23","partial",["C23_no_leak_partial","C23_refuted"],"False as stated (leaks listed in DESIGN.md); proved for all inputs avoiding the leaking constructs.")
c("C24","proved",["C24_independent_of_string_buffer"])
c("C35","proved",["C35_tokenize"])
c("C39","proved",["C39_positions"])
c("C08","proved",["C08_longest_match"])
c("C09","proved",["C09_letter_case","C09_keyword_case","C09_keyword_tokens","C09_keyword_parse"])
c("C10","proved",["C10_layout","C10_layout_parse"])
c("C11","partial",["C11_comment_partial","C11_refuted"],"False as stated: a comment may swallow the next line or join two words; proved for comments with a non-blank character followed by a line that starts with a non-blank.  C50 and C65 are the exact rules.")
c("C12","proved",["C12_string_literal"])
c("C13","partial",["C13_identifier_partial","C13_quoted_identifier","C13_refuted"],"False for CURRENT/CHARACTER followed by a word beginning with ROW/VARYING; proved otherwise.")
c("C14","partial",["C14_integer_value_partial","C14_out_of_range","C14_refuted"],"False for leading zeros (read as octal); proved for all other literals.")
c("C15","partial",["C15_min_integer_partial","C15_refuted"],"First half proved; second half is false.")
c("C16","partial",["C16_reading_stops_partial","C16_plain_input","C16_refuted"],"False: an unknown character ends the input; proved that this and the end of the string are the only stops.")
c("C04","proved",["C04_completeness","C04_valid_iff"])
c("C05","proved",["C05_unambiguous"])
c("C06","partial",["C06_precedence_partial","C06_unparenthesised","C06_associativity","C06_refuted"],"False for the documented table: the unary minus binds weaker than * (witness). Proved with the strengths actually used.")
c("C07","proved",["C07_round_trip","C07_written"])
c("C30","proved",["C30_nullability"])
c("C31","proved",["C31_table_elements"])
c("C32","proved",["C32_copy_options","C32_order","C32_copy_order","C32_import"])
c("C37","proved",["C37_attachment"])
c("C40","proved",["C40_no_parameters"])
c("C41","partial",["C41_not_comparison_partial","C41_not_in","C41_refuted"],"False for IN and BETWEEN: NOT a IN (..) is parsed as (NOT a) IN (..); proved for comparisons, LIKE and IS NULL.")
c("C33","proved",["C33_date_literal","C33_date_values","C33_rejected","C33_iso","C34_vocabulary"])
c("C34","partial",["C34_same_value","C34_rejected_partial","C34_vocabulary","C02_refuted"],"Numbers that do not fit into int make sscanf overflow (undefined behaviour, C02_refuted); proved for all others.")
c("C29","proved",["C29_statement_list","C29_select_list","C29_values_list","C29_operator_chain","C29_join_chain","C29_exhausted","C29_nesting","C29_never_accepted","C29_parentheses"])
c("C25","partial",["C25_reuse_partial","C25_refuted"],"False as stated: a stale error message or stale parameters of the reused object change the outcome (witnesses); proved for objects without message and parameters. What happens for objects with them is C56.")
c("C26","partial",["C26_move_partial","C26_move_constructor","C26_refuted"],"False as stated: move assignment leaks the target's contents and forgets error position and parameters (witnesses); proved what is transferred.")
c("C27","proved",["C27_release"])
c("C28","proved",["C28_reset"])
c("C36","proved",["C36_print_safe","C36_print_parsed"])
c("C42","proved",["C42_threads","C42_any_two_schedules","C42_progress"])
c("C43","proved",["C43_compares_all","C43_equivalence","C43_parsed_types"])
c("C21","proved",["C21_prefix_decides","C21_same_message","C21_no_repair"],"Exact outcome for identical tokens (any continuation); same message for tokens equal up to position when the failure is a syntax error or a full stack (no semantic check failed in the part read); no continuation of the same token kinds is accepted after a syntax error.")
c("C38","proved",["C38_messages"],"Every listed token continues the input read so far to a beginning of a sentence of the grammar; the list is not claimed to be complete (LALR default reductions).")
c("C19","proved",["C19_slices"],"C19_slices: the stringLength values are all assigned, non-negative, cut a prefix of the input into consecutive slices; slice i contains the text of every token between the i-th semicolon and the next, and ends exactly with the token behind them (semicolon / end of input) unless the statement is self_ending (Late.v: hint list, SHOW TABLES, SHOW/DESCRIBE/IMPORT ending with a qualified name, export with options), then exactly with its own last token; sums never exceed the input length.  Example shows both kinds of ends.")
c("C44","proved",["C44_printed_outline","C44_outlines","C44_unique"],"The outline (Outline.v) is a function of the statement as written; outlines of subqueries and windows are supplied by a coherent assignment, which exists (C44_outlines) and is determined (C44_unique).  Doubles are printed symbolically.")
c("C45","proved",["C45_every_history_is_safe","C45_histories_do_not_matter","C45_parameters","C45_no_leak"],"Programs are lists of calls (History.v); the side conditions excluded are those of C02, C23, C25 and C26, each with a refutation witness there.")
c("C46","proved",["C46_nodes","C46_statement_class"],"Over every history of calls (C45).  The promises per class and tag are the table [rows] of Nodes.v (independent of the parser); the table is closed: every object inside a statement satisfies one of the rows of its class.")
c("C47","proved",["C47_expression_node","C47_table_node","C47_written"],"First two: every node of every statement held after any history, answers in terms of the members.  C47_written: parsed SELECT statements, answers in terms of the text, for the select list and the FROM clause (recursively through joins).")
c("C48","proved",["C48_integer_value","C48_out_of_range"],"The exact rule where C14 is false as stated.")
c("C49","proved",["C49_words"],"The exact rule where C13 is false as stated; the three cases cover every word.")
c("C50","proved",["C50_comments"],"The exact rule where C11 is false as stated; the exception (a two-word token torn over a line end in a comment) is the hypothesis no_split_pair; C11_refuted shows what happens there, and C65 is the rule that includes it.")
c("C51","proved",["C51_operators"],"The exact rule where C15 is false as stated.")
c("C52","proved",["C52_scanner_stays_in_its_buffer"],"Scan.v models hsql_lex on the array yy_ch_buf with offsets for pointers; every access is bounds checked.  The theorem also says that this scanner yields the tokens of LexModel.v, on which the other properties rest.  Texts longer than INT_MAX - 2 bytes (int overflow in hsql__scan_string) are excluded.")
c("C53","proved",["C53_returns","C53_same_result","C53_memory"],"On the machine of Heap.v; parse_full (Session.v) is SQLParser::parse with the scanner's four blocks.  Undefined behaviour only as in C02; what may be lost only as in C23.")
c("C54","proved",["C54_tokenize_memory","C54_tokenize_many"],"The initial contents of yylloc are a universally quantified value; strictly, reading them is undefined in C++ (noted in DESIGN.md).")
c("C55","proved",["C55_leak_account"],"The exact rule where C23 is false as stated, for accepted inputs.")
c("C56","proved",["C56_every_life_is_safe","C56_parse_into_used_object","C56_freed_parameters"],"The exact rule where C25 is false as stated.")
c("C57","proved",["C57_only_there","C57_returns","C57_always_there"],"The exact rule where C02 is false as stated.")
c("C58","proved",["C58_same_tokens","C58_scan_linear","C58_parse_linear"],"LexTime.v repeats the scanner with a clock; C58_same_tokens says that the clock changes nothing.  Not counted: the work inside the rule and grammar actions (copying texts, freeing trees).")
c("C59","proved",["C59_only_complete_beginnings","C59_complete_beginnings_stay"],"The exact complement of C22.  Where the offending token is one a sentence could have there, but an operator without associativity forbids it (1 = 2 = 3), C59_complete_beginnings_stay says nothing.")
c("C60","proved",["C60_the_check_that_failed","C60_what_is_wrong"],"C60_what_is_wrong speaks of tokens only.  Its faulty is a sound, not an exclusive description: it says what is wrong with the piece, not that nothing else is wrong later.")
c("C61","proved",["C61_rest_ignored","C61_as_if_absent","C61_only_there"],"C61_only_there is the converse: a text without NUL is read to its end or to such a place.")
c("C62","proved",["C62_failed_parse_account","columns_consistent_by_tokens"],"The exact rule where C23 is false as stated, for rejected inputs. columns_consistent_by_tokens: when the hypothesis on columns holds, by tokens.")
c("C63","proved",["C63_split","C63_join","stretch_unique"],"Statements up to addresses and stringLength (which C19 determines). stretch_unique: the pieces are determined by the text.")
c("C64","proved",["C64_slice"],"Statements up to addresses and stringLength.")
c("C65","proved",["C65_comments"],"No exception left: covers what C11 and C50 exclude.")
c("C66","proved",["C66_same_call_elsewhere","C66_nothing_but_addresses"],"Strengthens C24 and C45 to invalid texts and to everything but addresses.  Objects with a message or parameters: C56.")
c("C67","proved",["C67_account_of_a_program","C67_every_program_has_one","C67_what_remains"],"The losses of single calls are counted by C55, C59 and C62.")
c("C68","proved",["C68_allocated","C68_at_every_moment","C68_strings"],"Blocks and copied strings; the scanner's own buffer and string buffer: C52-C54.")
c("C69","proved",["C69_composed","C69_needs_a_token","C69_messages"],"Justifies the simpler syntax_message of the driver model.  malloc failing at line 5694 is not modelled: the line is never reached.")
c("C70","proved",["C70_arrays_are_a_stack","C70_never_outside","C70_parse"],"Refines the stacks of the driver model (lists) to the arrays of the C code; yyerror_range is only written: no state shifts the error token, so lines 5793-5809 are not reached.")
c("C71","proved",["C71_at_most","C71_parameters_are_quadratic","C71_any_number_of_parameters"],"Assigning a vector copies all its elements (libstdc++ may or may not allocate).  Copies into yyerror_range after an error are over-approximated; a valid parse has none.")
c("C72","proved",["C72_statements_stay","C72_statements_stay_long","C72_statements_end","C72_parameters_stay","C72_one_owner"],"For programs within the contract of C45 (parses into objects without message and parameters).  Assignment to the owner leaks what it had (see C26_refuted): the fourth clause of the rule.")
c("C73","proved",["C73_message_stays","C73_message_stays_long","C73_message_ends"],"For programs within the contract of C45 (parses into objects without message and parameters).")
