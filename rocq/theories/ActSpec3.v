(** Generated by tools/gen_actspec.py: the actions of the grammar rules meet their specification.  No code of /repo. *)
From Verif Require Import ActTac.

Lemma act_7 : act_spec 7 S_statement [S_show_statement].
Proof. plain_tac. Qed.
Lemma act_11 : act_spec 11 S_preparable_statement [S_create_statement].
Proof. plain_tac. Qed.
Lemma act_15 : act_spec 15 S_preparable_statement [S_update_statement].
Proof. plain_tac. Qed.
Lemma act_19 : act_spec 19 S_preparable_statement [S_transaction_statement].
Proof. plain_tac. Qed.
Lemma act_23 : act_spec 23 S_hint_list [S_hint_list; S_comma; S_hint].
Proof. plain_tac. Qed.
Lemma act_27 : act_spec 27 S_transaction_statement [S_ROLLBACK; S_opt_transaction_keyword].
Proof. plain_tac. Qed.
Lemma act_31 : act_spec 31 S_prepare_statement [S_PREPARE; S_IDENTIFIER; S_FROM; S_prepare_target_query].
Proof. plain_tac. Qed.
Lemma act_35 : act_spec 35 S_import_statement [S_IMPORT; S_FROM; S_file_type; S_FILE; S_file_path; S_INTO; S_table_name].
Proof. plain_tac. Qed.
Lemma act_40 : act_spec 40 S_opt_import_export_options [S_lpar; S_import_export_options; S_rpar].
Proof. plain_tac. Qed.
Lemma act_49 : act_spec 49 S_csv_option [S_NULL; S_STRING].
Proof. plain_tac. Qed.
Lemma act_53 : act_spec 53 S_show_statement [S_SHOW; S_COLUMNS; S_table_name].
Proof. plain_tac. Qed.
Lemma act_60 : act_spec 60 S_opt_not_exists [S_IF; S_NOT; S_EXISTS].
Proof. plain_tac. Qed.
Lemma act_64 : act_spec 64 S_table_elem [S_column_def].
Proof. plain_tac. Qed.
Lemma act_69 : act_spec 69 S_column_type [S_CHAR; S_lpar; S_INTVAL; S_rpar].
Proof. plain_tac. Qed.
Lemma act_73 : act_spec 73 S_column_type [S_DECIMAL; S_opt_decimal_specification].
Proof. start; steps; fin. Qed.
Lemma act_77 : act_spec 77 S_column_type [S_INTEGER].
Proof. plain_tac. Qed.
Lemma act_81 : act_spec 81 S_column_type [S_TEXT].
Proof. plain_tac. Qed.
Lemma act_85 : act_spec 85 S_opt_time_precision [S_lpar; S_INTVAL; S_rpar].
Proof. plain_tac. Qed.
Lemma act_89 : act_spec 89 S_opt_decimal_specification [].
Proof. plain_tac. Qed.
Lemma act_94 : act_spec 94 S_column_constraints [S_references_spec].
Proof. start; steps; fin. Qed.
Lemma act_99 : act_spec 99 S_column_constraint [S_NOT; S_NULL].
Proof. plain_tac. Qed.
Lemma act_103 : act_spec 103 S_references_spec [S_REFERENCES; S_table_name; S_opt_column_list].
Proof. plain_tac. Qed.
Lemma act_107 : act_spec 107 S_drop_statement [S_DROP; S_INDEX; S_opt_exists; S_IDENTIFIER].
Proof. plain_tac. Qed.
Lemma act_111 : act_spec 111 S_alter_action [S_drop_action].
Proof. plain_tac. Qed.
Lemma act_115 : act_spec 115 S_insert_statement [S_INSERT; S_INTO; S_table_name; S_opt_column_list; S_VALUES; S_lpar; S_extended_literal_list; S_rpar].
Proof. plain_tac. Qed.
Lemma act_119 : act_spec 119 S_update_statement [S_UPDATE; S_table_ref_name_no_alias; S_SET; S_update_clause_commalist; S_opt_where].
Proof. plain_tac. Qed.
Lemma act_123 : act_spec 123 S_select_statement [S_opt_with_clause; S_select_with_paren].
Proof. plain_tac. Qed.
Lemma act_127 : act_spec 127 S_select_within_set_operation [S_select_within_set_operation_no_parentheses].
Proof. plain_tac. Qed.
Lemma act_131 : act_spec 131 S_select_with_paren [S_lpar; S_select_with_paren; S_rpar].
Proof. plain_tac. Qed.
Lemma act_136 : act_spec 136 S_set_type [S_INTERSECT].
Proof. plain_tac. Qed.
Lemma act_140 : act_spec 140 S_select_clause [S_SELECT; S_opt_top; S_opt_distinct; S_select_list; S_opt_from_clause; S_opt_where; S_opt_group].
Proof. plain_tac. Qed.
Lemma act_144 : act_spec 144 S_opt_from_clause [S_from_clause].
Proof. plain_tac. Qed.
Lemma act_148 : act_spec 148 S_opt_where [].
Proof. plain_tac. Qed.
Lemma act_152 : act_spec 152 S_opt_having [].
Proof. plain_tac. Qed.
Lemma act_156 : act_spec 156 S_order_list [S_order_list; S_comma; S_order_desc].
Proof. plain_tac. Qed.
Lemma act_160 : act_spec 160 S_opt_order_type [].
Proof. plain_tac. Qed.
Lemma act_165 : act_spec 165 S_opt_limit [S_LIMIT; S_expr].
Proof. plain_tac. Qed.
Lemma act_169 : act_spec 169 S_opt_limit [S_LIMIT; S_ALL; S_OFFSET; S_expr].
Proof. plain_tac. Qed.
Lemma act_173 : act_spec 173 S_opt_extended_literal_list [S_extended_literal_list].
Proof. plain_tac. Qed.
Lemma act_177 : act_spec 177 S_casted_extended_literal [S_extended_literal].
Proof. plain_tac. Qed.
Lemma act_183 : act_spec 183 S_expr [S_operand].
Proof. plain_tac. Qed.
Lemma act_187 : act_spec 187 S_expr [S_in_expr].
Proof. plain_tac. Qed.
Lemma act_191 : act_spec 191 S_operand [S_unary_expr].
Proof. plain_tac. Qed.
Lemma act_195 : act_spec 195 S_operand [S_extract_expr].
Proof. plain_tac. Qed.
Lemma act_199 : act_spec 199 S_scalar_expr [S_column_name].
Proof. plain_tac. Qed.
Lemma act_203 : act_spec 203 S_unary_expr [S_operand; S_ISNULL].
Proof. plain_tac. Qed.
Lemma act_207 : act_spec 207 S_binary_expr [S_operand; S_minus; S_operand].
Proof. plain_tac. Qed.
Lemma act_211 : act_spec 211 S_binary_expr [S_operand; S_percent; S_operand].
Proof. plain_tac. Qed.
Lemma act_215 : act_spec 215 S_binary_expr [S_operand; S_ILIKE; S_operand].
Proof. plain_tac. Qed.
Lemma act_219 : act_spec 219 S_in_expr [S_operand; S_IN; S_lpar; S_expr_list; S_rpar].
Proof. plain_tac. Qed.
Lemma act_223 : act_spec 223 S_case_expr [S_CASE; S_expr; S_case_list; S_END].
Proof. start; steps; fin. Qed.
Lemma act_227 : act_spec 227 S_case_list [S_WHEN; S_expr; S_THEN; S_expr].
Proof. plain_tac. Qed.
Lemma act_231 : act_spec 231 S_comp_expr [S_operand; S_eq; S_operand].
Proof. plain_tac. Qed.
Lemma act_235 : act_spec 235 S_comp_expr [S_operand; S_gt; S_operand].
Proof. plain_tac. Qed.
Lemma act_239 : act_spec 239 S_function_expr [S_IDENTIFIER; S_lpar; S_opt_distinct; S_expr_list; S_rpar; S_opt_window].
Proof. plain_tac. Qed.
Lemma act_243 : act_spec 243 S_opt_window [].
Proof. plain_tac. Qed.
Lemma act_247 : act_spec 247 S_opt_frame_clause [S_frame_type; S_BETWEEN; S_frame_bound; S_AND; S_frame_bound].
Proof. plain_tac. Qed.
Lemma act_251 : act_spec 251 S_frame_type [S_GROUPS].
Proof. plain_tac. Qed.
Lemma act_255 : act_spec 255 S_frame_bound [S_INTVAL; S_FOLLOWING].
Proof. plain_tac. Qed.
Lemma act_259 : act_spec 259 S_datetime_field [S_SECOND].
Proof. plain_tac. Qed.
Lemma act_263 : act_spec 263 S_datetime_field [S_MONTH].
Proof. plain_tac. Qed.
Lemma act_267 : act_spec 267 S_datetime_field_plural [S_HOURS].
Proof. plain_tac. Qed.
Lemma act_271 : act_spec 271 S_duration_field [S_datetime_field].
Proof. plain_tac. Qed.
Lemma act_276 : act_spec 276 S_column_name [S_IDENTIFIER].
Proof. plain_tac. Qed.
Lemma act_280 : act_spec 280 S_literal [S_string_literal].
Proof. plain_tac. Qed.
Lemma act_284 : act_spec 284 S_literal [S_date_literal].
Proof. plain_tac. Qed.
Lemma act_288 : act_spec 288 S_bool_literal [S_TRUE].
Proof. plain_tac. Qed.
Lemma act_292 : act_spec 292 S_int_literal [S_INTVAL].
Proof. plain_tac. Qed.
Lemma act_300 : act_spec 300 S_table_ref [S_table_ref_commalist; S_comma; S_table_ref_atomic].
Proof. start; steps; fin. Qed.
Lemma act_304 : act_spec 304 S_nonjoin_table_ref_atomic [S_lpar; S_select_statement; S_rpar; S_opt_table_alias].
Proof. plain_tac. Qed.
Lemma act_308 : act_spec 308 S_table_ref_name_no_alias [S_table_name].
Proof. plain_tac. Qed.
Lemma act_312 : act_spec 312 S_opt_index_name [].
Proof. plain_tac. Qed.
Lemma act_316 : act_spec 316 S_opt_table_alias [].
Proof. plain_tac. Qed.
Lemma act_320 : act_spec 320 S_opt_alias [].
Proof. plain_tac. Qed.
Lemma act_324 : act_spec 324 S_opt_locking_clause_list [S_opt_locking_clause_list; S_locking_clause].
Proof. plain_tac. Qed.
Lemma act_328 : act_spec 328 S_row_lock_mode [S_NO; S_KEY; S_UPDATE].
Proof. plain_tac. Qed.
Lemma act_332 : act_spec 332 S_opt_row_lock_policy [S_NOWAIT].
Proof. plain_tac. Qed.
Lemma act_336 : act_spec 336 S_with_clause [S_WITH; S_with_description_list].
Proof. plain_tac. Qed.
Lemma act_340 : act_spec 340 S_join_clause [S_table_ref_atomic; S_NATURAL; S_JOIN; S_nonjoin_table_ref_atomic].
Proof. plain_tac. Qed.
Lemma act_344 : act_spec 344 S_opt_join_type [S_LEFT; S_OUTER].
Proof. plain_tac. Qed.
Lemma act_348 : act_spec 348 S_opt_join_type [S_FULL; S_OUTER].
Proof. plain_tac. Qed.
Lemma act_352 : act_spec 352 S_opt_join_type [].
Proof. plain_tac. Qed.
Lemma act_356 : act_spec 356 S_ident_commalist [S_IDENTIFIER].
Proof. plain_tac. Qed.
