(** Generated by tools/gen_actspec.py: the actions of the grammar rules meet their specification.  No code of /repo. *)
From Verif Require Import ActTac.

Lemma act_8 : act_spec 8 S_statement [S_import_statement].
Proof. plain_tac. Qed.
Lemma act_12 : act_spec 12 S_preparable_statement [S_insert_statement].
Proof. plain_tac. Qed.
Lemma act_16 : act_spec 16 S_preparable_statement [S_drop_statement].
Proof. plain_tac. Qed.
Lemma act_20 : act_spec 20 S_opt_hints [S_WITH; S_HINT; S_lpar; S_hint_list; S_rpar].
Proof. plain_tac. Qed.
Lemma act_24 : act_spec 24 S_hint [S_IDENTIFIER].
Proof. plain_tac. Qed.
Lemma act_28 : act_spec 28 S_transaction_statement [S_COMMIT; S_opt_transaction_keyword].
Proof. plain_tac. Qed.
Lemma act_32 : act_spec 32 S_prepare_target_query [S_STRING].
Proof. plain_tac. Qed.
Lemma act_36 : act_spec 36 S_import_statement [S_COPY; S_table_name; S_FROM; S_file_path; S_opt_import_export_options; S_opt_where].
Proof. start; steps; fin. Qed.
Lemma act_41 : act_spec 41 S_opt_import_export_options [].
Proof. plain_tac. Qed.
Lemma act_50 : act_spec 50 S_export_statement [S_COPY; S_table_name; S_TO; S_file_path; S_opt_import_export_options].
Proof. start; steps; fin. Qed.
Lemma act_54 : act_spec 54 S_show_statement [S_DESCRIBE; S_table_name].
Proof. plain_tac. Qed.
Lemma act_61 : act_spec 61 S_opt_not_exists [].
Proof. plain_tac. Qed.
Lemma act_65 : act_spec 65 S_table_elem [S_table_constraint].
Proof. plain_tac. Qed.
Lemma act_70 : act_spec 70 S_column_type [S_CHARACTER_VARYING; S_lpar; S_INTVAL; S_rpar].
Proof. plain_tac. Qed.
Lemma act_74 : act_spec 74 S_column_type [S_DOUBLE].
Proof. plain_tac. Qed.
Lemma act_78 : act_spec 78 S_column_type [S_LONG].
Proof. plain_tac. Qed.
Lemma act_82 : act_spec 82 S_column_type [S_TIME; S_opt_time_precision].
Proof. plain_tac. Qed.
Lemma act_86 : act_spec 86 S_opt_time_precision [].
Proof. plain_tac. Qed.
Lemma act_90 : act_spec 90 S_opt_column_constraints [S_column_constraints].
Proof. plain_tac. Qed.
Lemma act_96 : act_spec 96 S_column_constraint [S_PRIMARY; S_KEY].
Proof. plain_tac. Qed.
Lemma act_100 : act_spec 100 S_table_constraint [S_PRIMARY; S_KEY; S_lpar; S_ident_commalist; S_rpar].
Proof. plain_tac. Qed.
Lemma act_104 : act_spec 104 S_drop_statement [S_DROP; S_TABLE; S_opt_exists; S_table_name].
Proof. plain_tac. Qed.
Lemma act_108 : act_spec 108 S_opt_exists [S_IF; S_EXISTS].
Proof. plain_tac. Qed.
Lemma act_112 : act_spec 112 S_drop_action [S_DROP; S_COLUMN; S_opt_exists; S_IDENTIFIER].
Proof. plain_tac. Qed.
Lemma act_116 : act_spec 116 S_insert_statement [S_INSERT; S_INTO; S_table_name; S_opt_column_list; S_select_no_paren].
Proof. plain_tac. Qed.
Lemma act_120 : act_spec 120 S_update_clause_commalist [S_update_clause].
Proof. plain_tac. Qed.
Lemma act_124 : act_spec 124 S_select_statement [S_opt_with_clause; S_select_no_paren].
Proof. plain_tac. Qed.
Lemma act_128 : act_spec 128 S_select_within_set_operation_no_parentheses [S_select_clause].
Proof. start; steps; fin. Qed.
Lemma act_133 : act_spec 133 S_select_no_paren [S_select_clause; S_set_operator; S_select_within_set_operation; S_opt_order; S_opt_limit; S_opt_locking_clause].
Proof. start; steps; fin. Qed.
Lemma act_137 : act_spec 137 S_set_type [S_EXCEPT].
Proof. plain_tac. Qed.
Lemma act_141 : act_spec 141 S_opt_distinct [S_DISTINCT].
Proof. plain_tac. Qed.
Lemma act_145 : act_spec 145 S_opt_from_clause [].
Proof. plain_tac. Qed.
Lemma act_149 : act_spec 149 S_opt_group [S_GROUP; S_BY; S_expr_list; S_opt_having].
Proof. plain_tac. Qed.
Lemma act_153 : act_spec 153 S_opt_order [S_ORDER; S_BY; S_order_list].
Proof. plain_tac. Qed.
Lemma act_157 : act_spec 157 S_order_desc [S_expr; S_opt_order_type; S_opt_null_ordering].
Proof. plain_tac. Qed.
Lemma act_161 : act_spec 161 S_opt_null_ordering [].
Proof. plain_tac. Qed.
Lemma act_166 : act_spec 166 S_opt_limit [S_OFFSET; S_expr].
Proof. plain_tac. Qed.
Lemma act_170 : act_spec 170 S_opt_limit [].
Proof. plain_tac. Qed.
Lemma act_174 : act_spec 174 S_opt_extended_literal_list [].
Proof. plain_tac. Qed.
Lemma act_178 : act_spec 178 S_casted_extended_literal [S_CAST; S_lpar; S_extended_literal; S_AS; S_column_type; S_rpar].
Proof. plain_tac. Qed.
Lemma act_184 : act_spec 184 S_expr [S_between_expr].
Proof. plain_tac. Qed.
Lemma act_188 : act_spec 188 S_operand [S_lpar; S_expr; S_rpar].
Proof. plain_tac. Qed.
Lemma act_192 : act_spec 192 S_operand [S_binary_expr].
Proof. plain_tac. Qed.
Lemma act_196 : act_spec 196 S_operand [S_cast_expr].
Proof. plain_tac. Qed.
Lemma act_200 : act_spec 200 S_scalar_expr [S_literal].
Proof. plain_tac. Qed.
Lemma act_204 : act_spec 204 S_unary_expr [S_operand; S_IS; S_NULL].
Proof. plain_tac. Qed.
Lemma act_208 : act_spec 208 S_binary_expr [S_operand; S_plus; S_operand].
Proof. plain_tac. Qed.
Lemma act_212 : act_spec 212 S_binary_expr [S_operand; S_caret; S_operand].
Proof. plain_tac. Qed.
Lemma act_216 : act_spec 216 S_binary_expr [S_operand; S_CONCAT; S_operand].
Proof. plain_tac. Qed.
Lemma act_220 : act_spec 220 S_in_expr [S_operand; S_NOT; S_IN; S_lpar; S_expr_list; S_rpar].
Proof. plain_tac. Qed.
Lemma act_224 : act_spec 224 S_case_expr [S_CASE; S_expr; S_case_list; S_ELSE; S_expr; S_END].
Proof. start; steps; fin. Qed.
Lemma act_228 : act_spec 228 S_case_list [S_case_list; S_WHEN; S_expr; S_THEN; S_expr].
Proof. start; steps; fin. Qed.
Lemma act_232 : act_spec 232 S_comp_expr [S_operand; S_EQUALS; S_operand].
Proof. plain_tac. Qed.
Lemma act_236 : act_spec 236 S_comp_expr [S_operand; S_LESSEQ; S_operand].
Proof. plain_tac. Qed.
Lemma act_240 : act_spec 240 S_function_expr [S_IDENTIFIER; S_dot; S_IDENTIFIER; S_lpar; S_rpar; S_opt_window].
Proof. plain_tac. Qed.
Lemma act_244 : act_spec 244 S_opt_partition [S_PARTITION; S_BY; S_expr_list].
Proof. plain_tac. Qed.
Lemma act_248 : act_spec 248 S_opt_frame_clause [].
Proof. plain_tac. Qed.
Lemma act_252 : act_spec 252 S_frame_bound [S_UNBOUNDED; S_PRECEDING].
Proof. plain_tac. Qed.
Lemma act_256 : act_spec 256 S_frame_bound [S_CURRENT_ROW].
Proof. plain_tac. Qed.
Lemma act_260 : act_spec 260 S_datetime_field [S_MINUTE].
Proof. plain_tac. Qed.
Lemma act_264 : act_spec 264 S_datetime_field [S_YEAR].
Proof. plain_tac. Qed.
Lemma act_268 : act_spec 268 S_datetime_field_plural [S_DAYS].
Proof. plain_tac. Qed.
Lemma act_272 : act_spec 272 S_duration_field [S_datetime_field_plural].
Proof. plain_tac. Qed.
Lemma act_277 : act_spec 277 S_column_name [S_IDENTIFIER; S_dot; S_IDENTIFIER].
Proof. plain_tac. Qed.
Lemma act_281 : act_spec 281 S_literal [S_bool_literal].
Proof. plain_tac. Qed.
Lemma act_285 : act_spec 285 S_literal [S_interval_literal].
Proof. plain_tac. Qed.
Lemma act_289 : act_spec 289 S_bool_literal [S_FALSE].
Proof. plain_tac. Qed.
Lemma act_293 : act_spec 293 S_null_literal [S_NULL].
Proof. plain_tac. Qed.
Lemma act_301 : act_spec 301 S_table_ref_atomic [S_nonjoin_table_ref_atomic].
Proof. plain_tac. Qed.
Lemma act_305 : act_spec 305 S_table_ref_commalist [S_table_ref_atomic].
Proof. plain_tac. Qed.
Lemma act_309 : act_spec 309 S_table_name [S_IDENTIFIER].
Proof. start; steps; fin. Qed.
Lemma act_313 : act_spec 313 S_table_alias [S_alias].
Proof. plain_tac. Qed.
Lemma act_317 : act_spec 317 S_alias [S_AS; S_IDENTIFIER].
Proof. plain_tac. Qed.
Lemma act_321 : act_spec 321 S_opt_locking_clause [S_opt_locking_clause_list].
Proof. plain_tac. Qed.
Lemma act_325 : act_spec 325 S_locking_clause [S_FOR; S_row_lock_mode; S_opt_row_lock_policy].
Proof. plain_tac. Qed.
Lemma act_329 : act_spec 329 S_row_lock_mode [S_SHARE].
Proof. plain_tac. Qed.
Lemma act_333 : act_spec 333 S_opt_row_lock_policy [].
Proof. plain_tac. Qed.
Lemma act_337 : act_spec 337 S_with_description_list [S_with_description].
Proof. plain_tac. Qed.
Lemma act_341 : act_spec 341 S_join_clause [S_table_ref_atomic; S_opt_join_type; S_JOIN; S_table_ref_atomic; S_ON; S_join_condition].
Proof. plain_tac. Qed.
Lemma act_345 : act_spec 345 S_opt_join_type [S_LEFT].
Proof. plain_tac. Qed.
Lemma act_349 : act_spec 349 S_opt_join_type [S_OUTER].
Proof. plain_tac. Qed.
Lemma act_353 : act_spec 353 S_join_condition [S_expr].
Proof. plain_tac. Qed.
Lemma act_357 : act_spec 357 S_ident_commalist [S_ident_commalist; S_comma; S_IDENTIFIER].
Proof. plain_tac. Qed.
