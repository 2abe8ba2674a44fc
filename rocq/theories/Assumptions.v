(** Every theorem named in MANIFEST.json, gathered in one term so that one [Print Assumptions] covers them all.
    Expected output: [Closed under the global context].  Generated by tools/assumptions.py. *)
From Verif Require PropAccess PropAccess2 PropAccount PropCause PropClause PropComment PropCopies PropCopies2 PropError PropExact PropGrammar PropHistory PropLeak PropLeft PropLength PropLex PropLifetime PropLit PropMemory PropMessage PropMove PropOutline PropParse PropPrint PropResult PropReuse PropScan PropScript PropSize PropSlice PropStack PropStmt PropStop PropThread PropTime PropType PropUndef PropVerbose PropVocab PropWaste.

Definition all_property_theorems :=
  (@PropParse.C01_parse_terminates,
   @PropParse.C02_no_undefined_behaviour_partial,
   @PropParse.C02_refuted,
   @PropParse.C03_soundness,
   @PropGrammar.C04_valid_iff,
   @PropVocab.C03_vocabulary,
   @PropGrammar.C04_completeness,
   @PropGrammar.C05_unambiguous,
   @PropStmt.C06_precedence_partial,
   @PropStmt.C06_unparenthesised,
   @PropStmt.C06_associativity,
   @PropStmt.C06_refuted,
   @PropStmt.C07_round_trip,
   @PropStmt.C07_written,
   @PropLex.C08_longest_match,
   @PropLex.C09_letter_case,
   @PropLex.C09_keyword_case,
   @PropLex.C09_keyword_tokens,
   @PropGrammar.C09_keyword_parse,
   @PropLex.C10_layout,
   @PropGrammar.C10_layout_parse,
   @PropLex.C11_comment_partial,
   @PropLex.C11_refuted,
   @PropLex.C12_string_literal,
   @PropLex.C13_identifier_partial,
   @PropLex.C13_quoted_identifier,
   @PropLex.C13_refuted,
   @PropLex.C14_integer_value_partial,
   @PropLex.C14_out_of_range,
   @PropLex.C14_refuted,
   @PropLex.C15_min_integer_partial,
   @PropLex.C15_refuted,
   @PropLex.C16_reading_stops_partial,
   @PropLex.C16_plain_input,
   @PropLex.C16_refuted,
   @PropParse.C17_embedded_nul,
   @PropParse.C18_parameters,
   @PropLength.C19_slices,
   @PropParse.C20_errors,
   @PropError.C21_prefix_decides,
   @PropError.C21_same_message,
   @PropError.C21_no_repair,
   @PropParse.C22_failed_parse_statements_partial,
   @PropParse.C22_refuted,
   @PropParse.C23_no_leak_partial,
   @PropParse.C23_refuted,
   @PropParse.C24_independent_of_string_buffer,
   @PropResult.C25_reuse_partial,
   @PropResult.C25_refuted,
   @PropResult.C26_move_partial,
   @PropResult.C26_move_constructor,
   @PropResult.C26_refuted,
   @PropResult.C27_release,
   @PropResult.C28_reset,
   @PropSize.C29_statement_list,
   @PropSize.C29_select_list,
   @PropSize.C29_values_list,
   @PropSize.C29_operator_chain,
   @PropSize.C29_join_chain,
   @PropSize.C29_exhausted,
   @PropSize.C29_nesting,
   @PropSize.C29_never_accepted,
   @PropSize.C29_parentheses,
   @PropClause.C30_nullability,
   @PropClause.C31_table_elements,
   @PropClause.C32_copy_options,
   @PropClause.C32_order,
   @PropClause.C32_copy_order,
   @PropClause.C32_import,
   @PropLit.C33_date_literal,
   @PropLit.C33_date_values,
   @PropLit.C33_rejected,
   @PropLit.C33_iso,
   @PropLit.C34_vocabulary,
   @PropLit.C34_same_value,
   @PropLit.C34_rejected_partial,
   @PropParse.C35_tokenize,
   @PropPrint.C36_print_safe,
   @PropPrint.C36_print_parsed,
   @PropClause.C37_attachment,
   @PropError.C38_messages,
   @PropParse.C39_positions,
   @PropClause.C40_no_parameters,
   @PropStmt.C41_not_comparison_partial,
   @PropStmt.C41_not_in,
   @PropStmt.C41_refuted,
   @PropThread.C42_threads,
   @PropThread.C42_any_two_schedules,
   @PropThread.C42_progress,
   @PropType.C43_compares_all,
   @PropType.C43_equivalence,
   @PropType.C43_parsed_types,
   @PropOutline.C44_printed_outline,
   @PropOutline.C44_outlines,
   @PropOutline.C44_unique,
   @PropHistory.C45_every_history_is_safe,
   @PropHistory.C45_histories_do_not_matter,
   @PropHistory.C45_parameters,
   @PropHistory.C45_no_leak,
   @PropAccess.C46_nodes,
   @PropAccess.C46_statement_class,
   @PropAccess.C47_expression_node,
   @PropAccess.C47_table_node,
   @PropAccess2.C47_written,
   @PropExact.C48_integer_value,
   @PropExact.C48_out_of_range,
   @PropExact.C49_words,
   @PropExact.C50_comments,
   @PropExact.C51_operators,
   @PropScan.C52_scanner_stays_in_its_buffer,
   @PropScan.C53_returns,
   @PropScan.C53_same_result,
   @PropScan.C53_memory,
   @PropScan.C54_tokenize_memory,
   @PropScan.C54_tokenize_many,
   @PropLeak.C55_leak_account,
   @PropReuse.C56_every_life_is_safe,
   @PropReuse.C56_parse_into_used_object,
   @PropReuse.C56_freed_parameters,
   @PropUndef.C57_only_there,
   @PropUndef.C57_returns,
   @PropUndef.C57_always_there,
   @PropTime.C58_same_tokens,
   @PropTime.C58_scan_linear,
   @PropTime.C58_parse_linear,
   @PropLeft.C59_only_complete_beginnings,
   @PropLeft.C59_complete_beginnings_stay,
   @PropCause.C60_the_check_that_failed,
   @PropCause.C60_what_is_wrong,
   @PropStop.C61_rest_ignored,
   @PropStop.C61_as_if_absent,
   @PropStop.C61_only_there,
   @PropWaste.C62_failed_parse_account,
   @PropWaste.columns_consistent_by_tokens,
   @PropScript.C63_split,
   @PropScript.C63_join,
   @PropScript.stretch_unique,
   @PropSlice.C64_slice,
   @PropComment.C65_comments,
   @PropMove.C66_same_call_elsewhere,
   @PropMove.C66_nothing_but_addresses,
   @PropAccount.C67_account_of_a_program,
   @PropAccount.C67_every_program_has_one,
   @PropAccount.C67_what_remains,
   @PropMemory.C68_allocated,
   @PropMemory.C68_at_every_moment,
   @PropMemory.C68_strings,
   @PropVerbose.C69_composed,
   @PropVerbose.C69_needs_a_token,
   @PropVerbose.C69_messages,
   @PropStack.C70_arrays_are_a_stack,
   @PropStack.C70_never_outside,
   @PropStack.C70_parse,
   @PropCopies.C71_at_most,
   @PropCopies.C71_parameters_are_quadratic,
   @PropCopies2.C71_any_number_of_parameters,
   @PropLifetime.C72_statements_stay,
   @PropLifetime.C72_statements_stay_long,
   @PropLifetime.C72_statements_end,
   @PropLifetime.C72_parameters_stay,
   @PropLifetime.C72_one_owner,
   @PropMessage.C73_message_stays,
   @PropMessage.C73_message_stays_long,
   @PropMessage.C73_message_ends).

Print Assumptions all_property_theorems.
