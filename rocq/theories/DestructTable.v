(** GENERATED by tools/gen_tables.py: the switch of yydestruct in /repo/src/parser/bison_parser.cpp: symbol number and the
    line in bison_parser.y of the %destructor whose code the case contains. *)
From Verif Require Import Base TokenCodes.
Local Open Scope N_scope.

Definition destructors : list (N * N) := [
  (S_IDENTIFIER, 194); (* bison_parser.cpp:1943 *)
  (S_STRING, 194); (* bison_parser.cpp:1949 *)
  (S_FLOATVAL, 181); (* bison_parser.cpp:1955 *)
  (S_INTVAL, 181); (* bison_parser.cpp:1961 *)
  (S_statement_list, 195); (* bison_parser.cpp:1967 *)
  (S_statement, 207); (* bison_parser.cpp:1980 *)
  (S_preparable_statement, 207); (* bison_parser.cpp:1986 *)
  (S_opt_hints, 195); (* bison_parser.cpp:1992 *)
  (S_hint_list, 195); (* bison_parser.cpp:2005 *)
  (S_hint, 207); (* bison_parser.cpp:2018 *)
  (S_transaction_statement, 207); (* bison_parser.cpp:2024 *)
  (S_prepare_statement, 207); (* bison_parser.cpp:2030 *)
  (S_prepare_target_query, 194); (* bison_parser.cpp:2036 *)
  (S_execute_statement, 207); (* bison_parser.cpp:2042 *)
  (S_import_statement, 207); (* bison_parser.cpp:2048 *)
  (S_file_type, 181); (* bison_parser.cpp:2054 *)
  (S_file_path, 194); (* bison_parser.cpp:2060 *)
  (S_opt_import_export_options, 207); (* bison_parser.cpp:2066 *)
  (S_import_export_options, 207); (* bison_parser.cpp:2072 *)
  (S_csv_option, 203); (* bison_parser.cpp:2078 *)
  (S_export_statement, 207); (* bison_parser.cpp:2087 *)
  (S_show_statement, 207); (* bison_parser.cpp:2093 *)
  (S_create_statement, 207); (* bison_parser.cpp:2099 *)
  (S_opt_not_exists, 181); (* bison_parser.cpp:2105 *)
  (S_table_elem_commalist, 195); (* bison_parser.cpp:2111 *)
  (S_table_elem, 207); (* bison_parser.cpp:2124 *)
  (S_column_def, 207); (* bison_parser.cpp:2130 *)
  (S_column_type, 181); (* bison_parser.cpp:2136 *)
  (S_opt_time_precision, 181); (* bison_parser.cpp:2142 *)
  (S_opt_decimal_specification, 207); (* bison_parser.cpp:2148 *)
  (S_opt_column_constraints, 207); (* bison_parser.cpp:2154 *)
  (S_column_constraints, 207); (* bison_parser.cpp:2160 *)
  (S_column_constraint, 181); (* bison_parser.cpp:2166 *)
  (S_table_constraint, 207); (* bison_parser.cpp:2172 *)
  (S_references_spec, 207); (* bison_parser.cpp:2178 *)
  (S_drop_statement, 207); (* bison_parser.cpp:2184 *)
  (S_opt_exists, 181); (* bison_parser.cpp:2190 *)
  (S_alter_statement, 207); (* bison_parser.cpp:2196 *)
  (S_alter_action, 207); (* bison_parser.cpp:2202 *)
  (S_drop_action, 207); (* bison_parser.cpp:2208 *)
  (S_delete_statement, 207); (* bison_parser.cpp:2214 *)
  (S_truncate_statement, 207); (* bison_parser.cpp:2220 *)
  (S_insert_statement, 207); (* bison_parser.cpp:2226 *)
  (S_opt_column_list, 186); (* bison_parser.cpp:2232 *)
  (S_update_statement, 207); (* bison_parser.cpp:2245 *)
  (S_update_clause_commalist, 195); (* bison_parser.cpp:2251 *)
  (S_update_clause, 207); (* bison_parser.cpp:2264 *)
  (S_select_statement, 207); (* bison_parser.cpp:2270 *)
  (S_select_within_set_operation, 207); (* bison_parser.cpp:2276 *)
  (S_select_within_set_operation_no_parentheses, 207); (* bison_parser.cpp:2282 *)
  (S_select_with_paren, 207); (* bison_parser.cpp:2288 *)
  (S_select_no_paren, 207); (* bison_parser.cpp:2294 *)
  (S_set_operator, 207); (* bison_parser.cpp:2300 *)
  (S_set_type, 207); (* bison_parser.cpp:2306 *)
  (S_opt_all, 181); (* bison_parser.cpp:2312 *)
  (S_select_clause, 207); (* bison_parser.cpp:2318 *)
  (S_opt_distinct, 181); (* bison_parser.cpp:2324 *)
  (S_select_list, 195); (* bison_parser.cpp:2330 *)
  (S_opt_from_clause, 207); (* bison_parser.cpp:2343 *)
  (S_from_clause, 207); (* bison_parser.cpp:2349 *)
  (S_opt_where, 207); (* bison_parser.cpp:2355 *)
  (S_opt_group, 207); (* bison_parser.cpp:2361 *)
  (S_opt_having, 207); (* bison_parser.cpp:2367 *)
  (S_opt_order, 195); (* bison_parser.cpp:2373 *)
  (S_order_list, 195); (* bison_parser.cpp:2386 *)
  (S_order_desc, 207); (* bison_parser.cpp:2399 *)
  (S_opt_order_type, 181); (* bison_parser.cpp:2405 *)
  (S_opt_null_ordering, 181); (* bison_parser.cpp:2411 *)
  (S_opt_top, 207); (* bison_parser.cpp:2417 *)
  (S_opt_limit, 207); (* bison_parser.cpp:2423 *)
  (S_expr_list, 195); (* bison_parser.cpp:2429 *)
  (S_opt_extended_literal_list, 195); (* bison_parser.cpp:2442 *)
  (S_extended_literal_list, 195); (* bison_parser.cpp:2455 *)
  (S_casted_extended_literal, 207); (* bison_parser.cpp:2468 *)
  (S_extended_literal, 207); (* bison_parser.cpp:2474 *)
  (S_expr_alias, 207); (* bison_parser.cpp:2480 *)
  (S_expr, 207); (* bison_parser.cpp:2486 *)
  (S_operand, 207); (* bison_parser.cpp:2492 *)
  (S_scalar_expr, 207); (* bison_parser.cpp:2498 *)
  (S_unary_expr, 207); (* bison_parser.cpp:2504 *)
  (S_binary_expr, 207); (* bison_parser.cpp:2510 *)
  (S_logic_expr, 207); (* bison_parser.cpp:2516 *)
  (S_in_expr, 207); (* bison_parser.cpp:2522 *)
  (S_case_expr, 207); (* bison_parser.cpp:2528 *)
  (S_case_list, 207); (* bison_parser.cpp:2534 *)
  (S_exists_expr, 207); (* bison_parser.cpp:2540 *)
  (S_comp_expr, 207); (* bison_parser.cpp:2546 *)
  (S_function_expr, 207); (* bison_parser.cpp:2552 *)
  (S_opt_window, 207); (* bison_parser.cpp:2558 *)
  (S_opt_partition, 195); (* bison_parser.cpp:2564 *)
  (S_opt_frame_clause, 207); (* bison_parser.cpp:2577 *)
  (S_frame_type, 181); (* bison_parser.cpp:2583 *)
  (S_frame_bound, 207); (* bison_parser.cpp:2589 *)
  (S_extract_expr, 207); (* bison_parser.cpp:2595 *)
  (S_cast_expr, 207); (* bison_parser.cpp:2601 *)
  (S_datetime_field, 181); (* bison_parser.cpp:2607 *)
  (S_datetime_field_plural, 181); (* bison_parser.cpp:2613 *)
  (S_duration_field, 181); (* bison_parser.cpp:2619 *)
  (S_array_expr, 207); (* bison_parser.cpp:2625 *)
  (S_array_index, 207); (* bison_parser.cpp:2631 *)
  (S_between_expr, 207); (* bison_parser.cpp:2637 *)
  (S_column_name, 207); (* bison_parser.cpp:2643 *)
  (S_literal, 207); (* bison_parser.cpp:2649 *)
  (S_string_literal, 207); (* bison_parser.cpp:2655 *)
  (S_bool_literal, 207); (* bison_parser.cpp:2661 *)
  (S_num_literal, 207); (* bison_parser.cpp:2667 *)
  (S_int_literal, 207); (* bison_parser.cpp:2673 *)
  (S_null_literal, 207); (* bison_parser.cpp:2679 *)
  (S_date_literal, 207); (* bison_parser.cpp:2685 *)
  (S_interval_literal, 207); (* bison_parser.cpp:2691 *)
  (S_param_expr, 207); (* bison_parser.cpp:2697 *)
  (S_table_ref, 207); (* bison_parser.cpp:2703 *)
  (S_table_ref_atomic, 207); (* bison_parser.cpp:2709 *)
  (S_nonjoin_table_ref_atomic, 207); (* bison_parser.cpp:2715 *)
  (S_table_ref_commalist, 195); (* bison_parser.cpp:2721 *)
  (S_table_ref_name, 207); (* bison_parser.cpp:2734 *)
  (S_table_ref_name_no_alias, 207); (* bison_parser.cpp:2740 *)
  (S_table_name, 182); (* bison_parser.cpp:2746 *)
  (S_opt_index_name, 194); (* bison_parser.cpp:2755 *)
  (S_table_alias, 207); (* bison_parser.cpp:2761 *)
  (S_opt_table_alias, 207); (* bison_parser.cpp:2767 *)
  (S_alias, 207); (* bison_parser.cpp:2773 *)
  (S_opt_alias, 207); (* bison_parser.cpp:2779 *)
  (S_opt_locking_clause, 207); (* bison_parser.cpp:2785 *)
  (S_opt_locking_clause_list, 207); (* bison_parser.cpp:2791 *)
  (S_locking_clause, 207); (* bison_parser.cpp:2797 *)
  (S_row_lock_mode, 181); (* bison_parser.cpp:2803 *)
  (S_opt_row_lock_policy, 181); (* bison_parser.cpp:2809 *)
  (S_opt_with_clause, 207); (* bison_parser.cpp:2815 *)
  (S_with_clause, 207); (* bison_parser.cpp:2821 *)
  (S_with_description_list, 207); (* bison_parser.cpp:2827 *)
  (S_with_description, 207); (* bison_parser.cpp:2833 *)
  (S_join_clause, 207); (* bison_parser.cpp:2839 *)
  (S_opt_join_type, 181); (* bison_parser.cpp:2845 *)
  (S_join_condition, 207); (* bison_parser.cpp:2851 *)
  (S_ident_commalist, 186) (* bison_parser.cpp:2857 *)
].
