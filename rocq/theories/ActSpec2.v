(** Generated by tools/gen_actspec.py: the actions of the grammar rules meet their specification.  No code of /repo. *)
From Verif Require Import ActTac.

Lemma act_6 : act_spec 6 S_statement [S_preparable_statement; S_opt_hints].
Proof. plain_tac. Qed.
Lemma act_10 : act_spec 10 S_preparable_statement [S_select_statement].
Proof. plain_tac. Qed.
Lemma act_14 : act_spec 14 S_preparable_statement [S_truncate_statement].
Proof. plain_tac. Qed.
Lemma act_18 : act_spec 18 S_preparable_statement [S_execute_statement].
Proof. plain_tac. Qed.
Lemma act_22 : act_spec 22 S_hint_list [S_hint].
Proof. plain_tac. Qed.
Lemma act_26 : act_spec 26 S_transaction_statement [S_BEGIN; S_opt_transaction_keyword].
Proof. plain_tac. Qed.
Lemma act_30 : act_spec 30 S_opt_transaction_keyword [].
Proof. plain_tac. Qed.
Lemma act_34 : act_spec 34 S_execute_statement [S_EXECUTE; S_IDENTIFIER; S_lpar; S_opt_extended_literal_list; S_rpar].
Proof. plain_tac. Qed.
Lemma act_39 : act_spec 39 S_opt_import_export_options [S_WITH; S_lpar; S_import_export_options; S_rpar].
Proof. plain_tac. Qed.
Lemma act_45 : act_spec 45 S_import_export_options [S_ENCODING; S_STRING].
Proof. plain_tac. Qed.
Lemma act_52 : act_spec 52 S_show_statement [S_SHOW; S_TABLES].
Proof. plain_tac. Qed.
Lemma act_59 : act_spec 59 S_create_statement [S_CREATE; S_VIEW; S_opt_not_exists; S_table_name; S_opt_column_list; S_AS; S_select_statement].
Proof. plain_tac. Qed.
Lemma act_63 : act_spec 63 S_table_elem_commalist [S_table_elem_commalist; S_comma; S_table_elem].
Proof. plain_tac. Qed.
Lemma act_68 : act_spec 68 S_column_type [S_BOOLEAN].
Proof. plain_tac. Qed.
Lemma act_72 : act_spec 72 S_column_type [S_DATETIME].
Proof. plain_tac. Qed.
Lemma act_76 : act_spec 76 S_column_type [S_INT].
Proof. plain_tac. Qed.
Lemma act_80 : act_spec 80 S_column_type [S_SMALLINT].
Proof. plain_tac. Qed.
Lemma act_84 : act_spec 84 S_column_type [S_VARCHAR; S_lpar; S_INTVAL; S_rpar].
Proof. plain_tac. Qed.
Lemma act_88 : act_spec 88 S_opt_decimal_specification [S_lpar; S_INTVAL; S_rpar].
Proof. plain_tac. Qed.
Lemma act_92 : act_spec 92 S_column_constraints [S_column_constraint].
Proof. start; steps; fin. Qed.
Lemma act_98 : act_spec 98 S_column_constraint [S_NULL].
Proof. plain_tac. Qed.
Lemma act_102 : act_spec 102 S_table_constraint [S_FOREIGN; S_KEY; S_lpar; S_ident_commalist; S_rpar; S_references_spec].
Proof. plain_tac. Qed.
Lemma act_106 : act_spec 106 S_drop_statement [S_DEALLOCATE; S_PREPARE; S_IDENTIFIER].
Proof. plain_tac. Qed.
Lemma act_110 : act_spec 110 S_alter_statement [S_ALTER; S_TABLE; S_opt_exists; S_table_name; S_alter_action].
Proof. plain_tac. Qed.
Lemma act_114 : act_spec 114 S_truncate_statement [S_TRUNCATE; S_table_name].
Proof. plain_tac. Qed.
Lemma act_118 : act_spec 118 S_opt_column_list [].
Proof. plain_tac. Qed.
Lemma act_122 : act_spec 122 S_update_clause [S_IDENTIFIER; S_eq; S_expr].
Proof. plain_tac. Qed.
Lemma act_126 : act_spec 126 S_select_within_set_operation [S_select_with_paren].
Proof. plain_tac. Qed.
Lemma act_130 : act_spec 130 S_select_with_paren [S_lpar; S_select_no_paren; S_rpar].
Proof. plain_tac. Qed.
Lemma act_135 : act_spec 135 S_set_type [S_UNION].
Proof. plain_tac. Qed.
Lemma act_139 : act_spec 139 S_opt_all [].
Proof. plain_tac. Qed.
Lemma act_143 : act_spec 143 S_select_list [S_expr_list].
Proof. plain_tac. Qed.
Lemma act_147 : act_spec 147 S_opt_where [S_WHERE; S_expr].
Proof. plain_tac. Qed.
Lemma act_151 : act_spec 151 S_opt_having [S_HAVING; S_expr].
Proof. plain_tac. Qed.
Lemma act_155 : act_spec 155 S_order_list [S_order_desc].
Proof. plain_tac. Qed.
Lemma act_159 : act_spec 159 S_opt_order_type [S_DESC].
Proof. plain_tac. Qed.
Lemma act_164 : act_spec 164 S_opt_top [].
Proof. plain_tac. Qed.
Lemma act_168 : act_spec 168 S_opt_limit [S_LIMIT; S_ALL].
Proof. plain_tac. Qed.
Lemma act_172 : act_spec 172 S_expr_list [S_expr_list; S_comma; S_expr_alias].
Proof. plain_tac. Qed.
Lemma act_176 : act_spec 176 S_extended_literal_list [S_extended_literal_list; S_comma; S_casted_extended_literal].
Proof. plain_tac. Qed.
Lemma act_181 : act_spec 181 S_extended_literal [S_minus; S_interval_literal].
Proof. plain_tac. Qed.
Lemma act_186 : act_spec 186 S_expr [S_exists_expr].
Proof. plain_tac. Qed.
Lemma act_190 : act_spec 190 S_operand [S_scalar_expr].
Proof. plain_tac. Qed.
Lemma act_194 : act_spec 194 S_operand [S_function_expr].
Proof. plain_tac. Qed.
Lemma act_198 : act_spec 198 S_operand [S_lpar; S_select_no_paren; S_rpar].
Proof. plain_tac. Qed.
Lemma act_202 : act_spec 202 S_unary_expr [S_NOT; S_operand].
Proof. plain_tac. Qed.
Lemma act_206 : act_spec 206 S_binary_expr [S_comp_expr].
Proof. plain_tac. Qed.
Lemma act_210 : act_spec 210 S_binary_expr [S_operand; S_star; S_operand].
Proof. plain_tac. Qed.
Lemma act_214 : act_spec 214 S_binary_expr [S_operand; S_NOT; S_LIKE; S_operand].
Proof. plain_tac. Qed.
Lemma act_218 : act_spec 218 S_logic_expr [S_expr; S_OR; S_expr].
Proof. plain_tac. Qed.
Lemma act_222 : act_spec 222 S_in_expr [S_operand; S_NOT; S_IN; S_lpar; S_select_no_paren; S_rpar].
Proof. plain_tac. Qed.
Lemma act_226 : act_spec 226 S_case_expr [S_CASE; S_case_list; S_ELSE; S_expr; S_END].
Proof. start; steps; fin. Qed.
Lemma act_230 : act_spec 230 S_exists_expr [S_NOT; S_EXISTS; S_lpar; S_select_no_paren; S_rpar].
Proof. plain_tac. Qed.
Lemma act_234 : act_spec 234 S_comp_expr [S_operand; S_lt; S_operand].
Proof. plain_tac. Qed.
Lemma act_238 : act_spec 238 S_function_expr [S_IDENTIFIER; S_lpar; S_rpar; S_opt_window].
Proof. plain_tac. Qed.
Lemma act_242 : act_spec 242 S_opt_window [S_OVER; S_lpar; S_opt_partition; S_opt_order; S_opt_frame_clause; S_rpar].
Proof. plain_tac. Qed.
Lemma act_246 : act_spec 246 S_opt_frame_clause [S_frame_type; S_frame_bound].
Proof. plain_tac. Qed.
Lemma act_250 : act_spec 250 S_frame_type [S_ROWS].
Proof. plain_tac. Qed.
Lemma act_254 : act_spec 254 S_frame_bound [S_UNBOUNDED; S_FOLLOWING].
Proof. plain_tac. Qed.
Lemma act_258 : act_spec 258 S_cast_expr [S_CAST; S_lpar; S_expr; S_AS; S_column_type; S_rpar].
Proof. plain_tac. Qed.
Lemma act_262 : act_spec 262 S_datetime_field [S_DAY].
Proof. plain_tac. Qed.
Lemma act_266 : act_spec 266 S_datetime_field_plural [S_MINUTES].
Proof. plain_tac. Qed.
Lemma act_270 : act_spec 270 S_datetime_field_plural [S_YEARS].
Proof. plain_tac. Qed.
Lemma act_275 : act_spec 275 S_between_expr [S_operand; S_BETWEEN; S_operand; S_AND; S_operand].
Proof. plain_tac. Qed.
Lemma act_279 : act_spec 279 S_column_name [S_IDENTIFIER; S_dot; S_star].
Proof. plain_tac. Qed.
Lemma act_283 : act_spec 283 S_literal [S_null_literal].
Proof. plain_tac. Qed.
Lemma act_287 : act_spec 287 S_string_literal [S_STRING].
Proof. plain_tac. Qed.
Lemma act_291 : act_spec 291 S_num_literal [S_int_literal].
Proof. plain_tac. Qed.
Lemma act_299 : act_spec 299 S_table_ref [S_table_ref_atomic].
Proof. plain_tac. Qed.
Lemma act_303 : act_spec 303 S_nonjoin_table_ref_atomic [S_table_ref_name].
Proof. plain_tac. Qed.
Lemma act_307 : act_spec 307 S_table_ref_name [S_table_name; S_opt_table_alias].
Proof. plain_tac. Qed.
Lemma act_311 : act_spec 311 S_opt_index_name [S_IDENTIFIER].
Proof. plain_tac. Qed.
Lemma act_315 : act_spec 315 S_opt_table_alias [S_table_alias].
Proof. plain_tac. Qed.
Lemma act_319 : act_spec 319 S_opt_alias [S_alias].
Proof. plain_tac. Qed.
Lemma act_323 : act_spec 323 S_opt_locking_clause_list [S_locking_clause].
Proof. plain_tac. Qed.
Lemma act_327 : act_spec 327 S_row_lock_mode [S_UPDATE].
Proof. plain_tac. Qed.
Lemma act_331 : act_spec 331 S_opt_row_lock_policy [S_SKIP; S_LOCKED].
Proof. plain_tac. Qed.
Lemma act_335 : act_spec 335 S_opt_with_clause [].
Proof. plain_tac. Qed.
Lemma act_339 : act_spec 339 S_with_description [S_IDENTIFIER; S_AS; S_select_with_paren].
Proof. plain_tac. Qed.
Lemma act_343 : act_spec 343 S_opt_join_type [S_INNER].
Proof. plain_tac. Qed.
Lemma act_347 : act_spec 347 S_opt_join_type [S_RIGHT].
Proof. plain_tac. Qed.
Lemma act_351 : act_spec 351 S_opt_join_type [S_CROSS].
Proof. plain_tac. Qed.
Lemma act_355 : act_spec 355 S_opt_semicolon [].
Proof. plain_tac. Qed.
