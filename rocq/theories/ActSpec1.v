(** Generated by tools/gen_actspec.py: the actions of the grammar rules meet their specification.  No code of /repo. *)
From Verif Require Import ActTac.

Lemma act_5 : act_spec 5 S_statement [S_prepare_statement; S_opt_hints].
Proof. plain_tac. Qed.
Lemma act_9 : act_spec 9 S_statement [S_export_statement].
Proof. plain_tac. Qed.
Lemma act_13 : act_spec 13 S_preparable_statement [S_delete_statement].
Proof. plain_tac. Qed.
Lemma act_17 : act_spec 17 S_preparable_statement [S_alter_statement].
Proof. plain_tac. Qed.
Lemma act_21 : act_spec 21 S_opt_hints [].
Proof. plain_tac. Qed.
Lemma act_25 : act_spec 25 S_hint [S_IDENTIFIER; S_lpar; S_extended_literal_list; S_rpar].
Proof. plain_tac. Qed.
Lemma act_29 : act_spec 29 S_opt_transaction_keyword [S_TRANSACTION].
Proof. plain_tac. Qed.
Lemma act_33 : act_spec 33 S_execute_statement [S_EXECUTE; S_IDENTIFIER].
Proof. plain_tac. Qed.
Lemma act_38 : act_spec 38 S_file_path [S_STRING].
Proof. plain_tac. Qed.
Lemma act_43 : act_spec 43 S_import_export_options [S_FORMAT; S_file_type].
Proof. plain_tac. Qed.
Lemma act_51 : act_spec 51 S_export_statement [S_COPY; S_select_with_paren; S_TO; S_file_path; S_opt_import_export_options].
Proof. start; steps; fin. Qed.
Lemma act_57 : act_spec 57 S_create_statement [S_CREATE; S_TABLE; S_opt_not_exists; S_table_name; S_AS; S_select_statement].
Proof. plain_tac. Qed.
Lemma act_62 : act_spec 62 S_table_elem_commalist [S_table_elem].
Proof. plain_tac. Qed.
Lemma act_67 : act_spec 67 S_column_type [S_BIGINT].
Proof. plain_tac. Qed.
Lemma act_71 : act_spec 71 S_column_type [S_DATE].
Proof. plain_tac. Qed.
Lemma act_75 : act_spec 75 S_column_type [S_FLOAT].
Proof. plain_tac. Qed.
Lemma act_79 : act_spec 79 S_column_type [S_REAL].
Proof. plain_tac. Qed.
Lemma act_83 : act_spec 83 S_column_type [S_TIMESTAMP].
Proof. plain_tac. Qed.
Lemma act_87 : act_spec 87 S_opt_decimal_specification [S_lpar; S_INTVAL; S_comma; S_INTVAL; S_rpar].
Proof. plain_tac. Qed.
Lemma act_91 : act_spec 91 S_opt_column_constraints [].
Proof. plain_tac. Qed.
Lemma act_97 : act_spec 97 S_column_constraint [S_UNIQUE].
Proof. plain_tac. Qed.
Lemma act_101 : act_spec 101 S_table_constraint [S_UNIQUE; S_lpar; S_ident_commalist; S_rpar].
Proof. plain_tac. Qed.
Lemma act_105 : act_spec 105 S_drop_statement [S_DROP; S_VIEW; S_opt_exists; S_table_name].
Proof. plain_tac. Qed.
Lemma act_109 : act_spec 109 S_opt_exists [].
Proof. plain_tac. Qed.
Lemma act_113 : act_spec 113 S_delete_statement [S_DELETE; S_FROM; S_table_name; S_opt_where].
Proof. plain_tac. Qed.
Lemma act_117 : act_spec 117 S_opt_column_list [S_lpar; S_ident_commalist; S_rpar].
Proof. plain_tac. Qed.
Lemma act_121 : act_spec 121 S_update_clause_commalist [S_update_clause_commalist; S_comma; S_update_clause].
Proof. plain_tac. Qed.
Lemma act_125 : act_spec 125 S_select_statement [S_opt_with_clause; S_select_with_paren; S_set_operator; S_select_within_set_operation; S_opt_order; S_opt_limit].
Proof. start; steps; fin. Qed.
Lemma act_129 : act_spec 129 S_select_within_set_operation_no_parentheses [S_select_clause; S_set_operator; S_select_within_set_operation].
Proof. start; steps; fin. Qed.
Lemma act_134 : act_spec 134 S_set_operator [S_set_type; S_opt_all].
Proof. plain_tac. Qed.
Lemma act_138 : act_spec 138 S_opt_all [S_ALL].
Proof. plain_tac. Qed.
Lemma act_142 : act_spec 142 S_opt_distinct [].
Proof. plain_tac. Qed.
Lemma act_146 : act_spec 146 S_from_clause [S_FROM; S_table_ref].
Proof. plain_tac. Qed.
Lemma act_150 : act_spec 150 S_opt_group [].
Proof. plain_tac. Qed.
Lemma act_154 : act_spec 154 S_opt_order [].
Proof. plain_tac. Qed.
Lemma act_158 : act_spec 158 S_opt_order_type [S_ASC].
Proof. plain_tac. Qed.
Lemma act_163 : act_spec 163 S_opt_top [S_TOP; S_int_literal].
Proof. plain_tac. Qed.
Lemma act_167 : act_spec 167 S_opt_limit [S_LIMIT; S_expr; S_OFFSET; S_expr].
Proof. plain_tac. Qed.
Lemma act_171 : act_spec 171 S_expr_list [S_expr_alias].
Proof. plain_tac. Qed.
Lemma act_175 : act_spec 175 S_extended_literal_list [S_casted_extended_literal].
Proof. plain_tac. Qed.
Lemma act_180 : act_spec 180 S_extended_literal [S_minus; S_num_literal].
Proof. plain_tac. Qed.
Lemma act_185 : act_spec 185 S_expr [S_logic_expr].
Proof. plain_tac. Qed.
Lemma act_189 : act_spec 189 S_operand [S_array_index].
Proof. plain_tac. Qed.
Lemma act_193 : act_spec 193 S_operand [S_case_expr].
Proof. plain_tac. Qed.
Lemma act_197 : act_spec 197 S_operand [S_array_expr].
Proof. plain_tac. Qed.
Lemma act_201 : act_spec 201 S_unary_expr [S_minus; S_operand].
Proof. plain_tac. Qed.
Lemma act_205 : act_spec 205 S_unary_expr [S_operand; S_IS; S_NOT; S_NULL].
Proof. plain_tac. Qed.
Lemma act_209 : act_spec 209 S_binary_expr [S_operand; S_slash; S_operand].
Proof. plain_tac. Qed.
Lemma act_213 : act_spec 213 S_binary_expr [S_operand; S_LIKE; S_operand].
Proof. plain_tac. Qed.
Lemma act_217 : act_spec 217 S_logic_expr [S_expr; S_AND; S_expr].
Proof. plain_tac. Qed.
Lemma act_221 : act_spec 221 S_in_expr [S_operand; S_IN; S_lpar; S_select_no_paren; S_rpar].
Proof. plain_tac. Qed.
Lemma act_225 : act_spec 225 S_case_expr [S_CASE; S_case_list; S_END].
Proof. start; steps; fin. Qed.
Lemma act_229 : act_spec 229 S_exists_expr [S_EXISTS; S_lpar; S_select_no_paren; S_rpar].
Proof. plain_tac. Qed.
Lemma act_233 : act_spec 233 S_comp_expr [S_operand; S_NOTEQUALS; S_operand].
Proof. plain_tac. Qed.
Lemma act_237 : act_spec 237 S_comp_expr [S_operand; S_GREATEREQ; S_operand].
Proof. plain_tac. Qed.
Lemma act_241 : act_spec 241 S_function_expr [S_IDENTIFIER; S_dot; S_IDENTIFIER; S_lpar; S_opt_distinct; S_expr_list; S_rpar; S_opt_window].
Proof. plain_tac. Qed.
Lemma act_245 : act_spec 245 S_opt_partition [].
Proof. plain_tac. Qed.
Lemma act_249 : act_spec 249 S_frame_type [S_RANGE].
Proof. plain_tac. Qed.
Lemma act_253 : act_spec 253 S_frame_bound [S_INTVAL; S_PRECEDING].
Proof. plain_tac. Qed.
Lemma act_257 : act_spec 257 S_extract_expr [S_EXTRACT; S_lpar; S_datetime_field; S_FROM; S_expr; S_rpar].
Proof. plain_tac. Qed.
Lemma act_261 : act_spec 261 S_datetime_field [S_HOUR].
Proof. plain_tac. Qed.
Lemma act_265 : act_spec 265 S_datetime_field_plural [S_SECONDS].
Proof. plain_tac. Qed.
Lemma act_269 : act_spec 269 S_datetime_field_plural [S_MONTHS].
Proof. plain_tac. Qed.
Lemma act_273 : act_spec 273 S_array_expr [S_ARRAY; S_lbrack; S_expr_list; S_rbrack].
Proof. plain_tac. Qed.
Lemma act_278 : act_spec 278 S_column_name [S_star].
Proof. plain_tac. Qed.
Lemma act_282 : act_spec 282 S_literal [S_num_literal].
Proof. plain_tac. Qed.
Lemma act_286 : act_spec 286 S_literal [S_param_expr].
Proof. plain_tac. Qed.
Lemma act_290 : act_spec 290 S_num_literal [S_FLOATVAL].
Proof. plain_tac. Qed.
Lemma act_295 : act_spec 295 S_interval_literal [S_INTVAL; S_duration_field].
Proof. plain_tac. Qed.
Lemma act_302 : act_spec 302 S_table_ref_atomic [S_join_clause].
Proof. plain_tac. Qed.
Lemma act_306 : act_spec 306 S_table_ref_commalist [S_table_ref_commalist; S_comma; S_table_ref_atomic].
Proof. plain_tac. Qed.
Lemma act_310 : act_spec 310 S_table_name [S_IDENTIFIER; S_dot; S_IDENTIFIER].
Proof. start; steps; fin. Qed.
Lemma act_314 : act_spec 314 S_table_alias [S_AS; S_IDENTIFIER; S_lpar; S_ident_commalist; S_rpar].
Proof. plain_tac. Qed.
Lemma act_318 : act_spec 318 S_alias [S_IDENTIFIER].
Proof. plain_tac. Qed.
Lemma act_322 : act_spec 322 S_opt_locking_clause [].
Proof. plain_tac. Qed.
Lemma act_326 : act_spec 326 S_locking_clause [S_FOR; S_row_lock_mode; S_OF; S_ident_commalist; S_opt_row_lock_policy].
Proof. plain_tac. Qed.
Lemma act_330 : act_spec 330 S_row_lock_mode [S_KEY; S_SHARE].
Proof. plain_tac. Qed.
Lemma act_334 : act_spec 334 S_opt_with_clause [S_with_clause].
Proof. plain_tac. Qed.
Lemma act_338 : act_spec 338 S_with_description_list [S_with_description_list; S_comma; S_with_description].
Proof. plain_tac. Qed.
Lemma act_342 : act_spec 342 S_join_clause [S_table_ref_atomic; S_opt_join_type; S_JOIN; S_table_ref_atomic; S_USING; S_lpar; S_ident_commalist; S_rpar].
Proof. plain_tac. Qed.
Lemma act_346 : act_spec 346 S_opt_join_type [S_RIGHT; S_OUTER].
Proof. plain_tac. Qed.
Lemma act_350 : act_spec 350 S_opt_join_type [S_FULL].
Proof. plain_tac. Qed.
Lemma act_354 : act_spec 354 S_opt_semicolon [S_semi].
Proof. plain_tac. Qed.
