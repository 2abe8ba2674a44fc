(** GENERATED by tools/gen_tables.py from the grammar section of /repo/src/parser/bison_parser.y (the text written by
    the authors, not the generated tables): production number, left-hand side, right-hand side.  Numbering = order of
    appearance, production 1 is bison's "$accept: input $end". *)
From Verif Require Import Base TokenCodes.
Local Open Scope N_scope.

Definition grammar : list (N * (N * list N)) := [
  (1, (S_accept_, [S_input; S_END_])); (* bison_parser.y:0 *)
  (2, (S_input, [S_statement_list; S_opt_semicolon])); (* bison_parser.y:343 *)
  (3, (S_statement_list, [S_statement])); (* bison_parser.y:362 *)
  (4, (S_statement_list, [S_statement_list; S_semi; S_statement])); (* bison_parser.y:368 *)
  (5, (S_statement, [S_prepare_statement; S_opt_hints])); (* bison_parser.y:375 *)
  (6, (S_statement, [S_preparable_statement; S_opt_hints])); (* bison_parser.y:379 *)
  (7, (S_statement, [S_show_statement])); (* bison_parser.y:383 *)
  (8, (S_statement, [S_import_statement])); (* bison_parser.y:384 *)
  (9, (S_statement, [S_export_statement])); (* bison_parser.y:385 *)
  (10, (S_preparable_statement, [S_select_statement])); (* bison_parser.y:387 *)
  (11, (S_preparable_statement, [S_create_statement])); (* bison_parser.y:388 *)
  (12, (S_preparable_statement, [S_insert_statement])); (* bison_parser.y:389 *)
  (13, (S_preparable_statement, [S_delete_statement])); (* bison_parser.y:390 *)
  (14, (S_preparable_statement, [S_truncate_statement])); (* bison_parser.y:391 *)
  (15, (S_preparable_statement, [S_update_statement])); (* bison_parser.y:392 *)
  (16, (S_preparable_statement, [S_drop_statement])); (* bison_parser.y:393 *)
  (17, (S_preparable_statement, [S_alter_statement])); (* bison_parser.y:394 *)
  (18, (S_preparable_statement, [S_execute_statement])); (* bison_parser.y:395 *)
  (19, (S_preparable_statement, [S_transaction_statement])); (* bison_parser.y:396 *)
  (20, (S_opt_hints, [S_WITH; S_HINT; S_lpar; S_hint_list; S_rpar])); (* bison_parser.y:402 *)
  (21, (S_opt_hints, [])); (* bison_parser.y:403 *)
  (22, (S_hint_list, [S_hint])); (* bison_parser.y:405 *)
  (23, (S_hint_list, [S_hint_list; S_comma; S_hint])); (* bison_parser.y:409 *)
  (24, (S_hint, [S_IDENTIFIER])); (* bison_parser.y:414 *)
  (25, (S_hint, [S_IDENTIFIER; S_lpar; S_extended_literal_list; S_rpar])); (* bison_parser.y:418 *)
  (26, (S_transaction_statement, [S_BEGIN; S_opt_transaction_keyword])); (* bison_parser.y:428 *)
  (27, (S_transaction_statement, [S_ROLLBACK; S_opt_transaction_keyword])); (* bison_parser.y:429 *)
  (28, (S_transaction_statement, [S_COMMIT; S_opt_transaction_keyword])); (* bison_parser.y:430 *)
  (29, (S_opt_transaction_keyword, [S_TRANSACTION])); (* bison_parser.y:432 *)
  (30, (S_opt_transaction_keyword, [])); (* bison_parser.y:432 *)
  (31, (S_prepare_statement, [S_PREPARE; S_IDENTIFIER; S_FROM; S_prepare_target_query])); (* bison_parser.y:438 *)
  (32, (S_prepare_target_query, [S_STRING])); (* bison_parser.y:444 *)
  (33, (S_execute_statement, [S_EXECUTE; S_IDENTIFIER])); (* bison_parser.y:446 *)
  (34, (S_execute_statement, [S_EXECUTE; S_IDENTIFIER; S_lpar; S_opt_extended_literal_list; S_rpar])); (* bison_parser.y:450 *)
  (35, (S_import_statement, [S_IMPORT; S_FROM; S_file_type; S_FILE; S_file_path; S_INTO; S_table_name])); (* bison_parser.y:462 *)
  (36, (S_import_statement, [S_COPY; S_table_name; S_FROM; S_file_path; S_opt_import_export_options; S_opt_where])); (* bison_parser.y:468 *)
  (37, (S_file_type, [S_IDENTIFIER])); (* bison_parser.y:485 *)
  (38, (S_file_path, [S_STRING])); (* bison_parser.y:500 *)
  (39, (S_opt_import_export_options, [S_WITH; S_lpar; S_import_export_options; S_rpar])); (* bison_parser.y:502 *)
  (40, (S_opt_import_export_options, [S_lpar; S_import_export_options; S_rpar])); (* bison_parser.y:503 *)
  (41, (S_opt_import_export_options, [])); (* bison_parser.y:504 *)
  (42, (S_import_export_options, [S_import_export_options; S_comma; S_FORMAT; S_file_type])); (* bison_parser.y:506 *)
  (43, (S_import_export_options, [S_FORMAT; S_file_type])); (* bison_parser.y:520 *)
  (44, (S_import_export_options, [S_import_export_options; S_comma; S_ENCODING; S_STRING])); (* bison_parser.y:524 *)
  (45, (S_import_export_options, [S_ENCODING; S_STRING])); (* bison_parser.y:534 *)
  (46, (S_import_export_options, [S_import_export_options; S_comma; S_csv_option])); (* bison_parser.y:538 *)
  (47, (S_import_export_options, [S_csv_option])); (* bison_parser.y:562 *)
  (48, (S_csv_option, [S_IDENTIFIER; S_STRING])); (* bison_parser.y:570 *)
  (49, (S_csv_option, [S_NULL; S_STRING])); (* bison_parser.y:583 *)
  (50, (S_export_statement, [S_COPY; S_table_name; S_TO; S_file_path; S_opt_import_export_options])); (* bison_parser.y:590 *)
  (51, (S_export_statement, [S_COPY; S_select_with_paren; S_TO; S_file_path; S_opt_import_export_options])); (* bison_parser.y:605 *)
  (52, (S_show_statement, [S_SHOW; S_TABLES])); (* bison_parser.y:625 *)
  (53, (S_show_statement, [S_SHOW; S_COLUMNS; S_table_name])); (* bison_parser.y:626 *)
  (54, (S_show_statement, [S_DESCRIBE; S_table_name])); (* bison_parser.y:631 *)
  (55, (S_create_statement, [S_CREATE; S_TABLE; S_opt_not_exists; S_table_name; S_FROM; S_IDENTIFIER; S_FILE; S_file_path])); (* bison_parser.y:642 *)
  (56, (S_create_statement, [S_CREATE; S_TABLE; S_opt_not_exists; S_table_name; S_lpar; S_table_elem_commalist; S_rpar])); (* bison_parser.y:655 *)
  (57, (S_create_statement, [S_CREATE; S_TABLE; S_opt_not_exists; S_table_name; S_AS; S_select_statement])); (* bison_parser.y:667 *)
  (58, (S_create_statement, [S_CREATE; S_INDEX; S_opt_not_exists; S_opt_index_name; S_ON; S_table_name; S_lpar; S_ident_commalist; S_rpar])); (* bison_parser.y:674 *)
  (59, (S_create_statement, [S_CREATE; S_VIEW; S_opt_not_exists; S_table_name; S_opt_column_list; S_AS; S_select_statement])); (* bison_parser.y:681 *)
  (60, (S_opt_not_exists, [S_IF; S_NOT; S_EXISTS])); (* bison_parser.y:690 *)
  (61, (S_opt_not_exists, [])); (* bison_parser.y:691 *)
  (62, (S_table_elem_commalist, [S_table_elem])); (* bison_parser.y:693 *)
  (63, (S_table_elem_commalist, [S_table_elem_commalist; S_comma; S_table_elem])); (* bison_parser.y:697 *)
  (64, (S_table_elem, [S_column_def])); (* bison_parser.y:702 *)
  (65, (S_table_elem, [S_table_constraint])); (* bison_parser.y:703 *)
  (66, (S_column_def, [S_IDENTIFIER; S_column_type; S_opt_column_constraints])); (* bison_parser.y:705 *)
  (67, (S_column_type, [S_BIGINT])); (* bison_parser.y:713 *)
  (68, (S_column_type, [S_BOOLEAN])); (* bison_parser.y:714 *)
  (69, (S_column_type, [S_CHAR; S_lpar; S_INTVAL; S_rpar])); (* bison_parser.y:715 *)
  (70, (S_column_type, [S_CHARACTER_VARYING; S_lpar; S_INTVAL; S_rpar])); (* bison_parser.y:716 *)
  (71, (S_column_type, [S_DATE])); (* bison_parser.y:717 *)
  (72, (S_column_type, [S_DATETIME])); (* bison_parser.y:718 *)
  (73, (S_column_type, [S_DECIMAL; S_opt_decimal_specification])); (* bison_parser.y:719 *)
  (74, (S_column_type, [S_DOUBLE])); (* bison_parser.y:723 *)
  (75, (S_column_type, [S_FLOAT])); (* bison_parser.y:724 *)
  (76, (S_column_type, [S_INT])); (* bison_parser.y:725 *)
  (77, (S_column_type, [S_INTEGER])); (* bison_parser.y:726 *)
  (78, (S_column_type, [S_LONG])); (* bison_parser.y:727 *)
  (79, (S_column_type, [S_REAL])); (* bison_parser.y:728 *)
  (80, (S_column_type, [S_SMALLINT])); (* bison_parser.y:729 *)
  (81, (S_column_type, [S_TEXT])); (* bison_parser.y:730 *)
  (82, (S_column_type, [S_TIME; S_opt_time_precision])); (* bison_parser.y:731 *)
  (83, (S_column_type, [S_TIMESTAMP])); (* bison_parser.y:732 *)
  (84, (S_column_type, [S_VARCHAR; S_lpar; S_INTVAL; S_rpar])); (* bison_parser.y:733 *)
  (85, (S_opt_time_precision, [S_lpar; S_INTVAL; S_rpar])); (* bison_parser.y:735 *)
  (86, (S_opt_time_precision, [])); (* bison_parser.y:736 *)
  (87, (S_opt_decimal_specification, [S_lpar; S_INTVAL; S_comma; S_INTVAL; S_rpar])); (* bison_parser.y:738 *)
  (88, (S_opt_decimal_specification, [S_lpar; S_INTVAL; S_rpar])); (* bison_parser.y:739 *)
  (89, (S_opt_decimal_specification, [])); (* bison_parser.y:740 *)
  (90, (S_opt_column_constraints, [S_column_constraints])); (* bison_parser.y:742 *)
  (91, (S_opt_column_constraints, [])); (* bison_parser.y:743 *)
  (92, (S_column_constraints, [S_column_constraint])); (* bison_parser.y:745 *)
  (93, (S_column_constraints, [S_column_constraints; S_column_constraint])); (* bison_parser.y:749 *)
  (94, (S_column_constraints, [S_references_spec])); (* bison_parser.y:753 *)
  (95, (S_column_constraints, [S_column_constraints; S_references_spec])); (* bison_parser.y:758 *)
  (96, (S_column_constraint, [S_PRIMARY; S_KEY])); (* bison_parser.y:766 *)
  (97, (S_column_constraint, [S_UNIQUE])); (* bison_parser.y:767 *)
  (98, (S_column_constraint, [S_NULL])); (* bison_parser.y:768 *)
  (99, (S_column_constraint, [S_NOT; S_NULL])); (* bison_parser.y:769 *)
  (100, (S_table_constraint, [S_PRIMARY; S_KEY; S_lpar; S_ident_commalist; S_rpar])); (* bison_parser.y:771 *)
  (101, (S_table_constraint, [S_UNIQUE; S_lpar; S_ident_commalist; S_rpar])); (* bison_parser.y:772 *)
  (102, (S_table_constraint, [S_FOREIGN; S_KEY; S_lpar; S_ident_commalist; S_rpar; S_references_spec])); (* bison_parser.y:773 *)
  (103, (S_references_spec, [S_REFERENCES; S_table_name; S_opt_column_list])); (* bison_parser.y:775 *)
  (104, (S_drop_statement, [S_DROP; S_TABLE; S_opt_exists; S_table_name])); (* bison_parser.y:783 *)
  (105, (S_drop_statement, [S_DROP; S_VIEW; S_opt_exists; S_table_name])); (* bison_parser.y:789 *)
  (106, (S_drop_statement, [S_DEALLOCATE; S_PREPARE; S_IDENTIFIER])); (* bison_parser.y:795 *)
  (107, (S_drop_statement, [S_DROP; S_INDEX; S_opt_exists; S_IDENTIFIER])); (* bison_parser.y:801 *)
  (108, (S_opt_exists, [S_IF; S_EXISTS])); (* bison_parser.y:807 *)
  (109, (S_opt_exists, [])); (* bison_parser.y:808 *)
  (110, (S_alter_statement, [S_ALTER; S_TABLE; S_opt_exists; S_table_name; S_alter_action])); (* bison_parser.y:815 *)
  (111, (S_alter_action, [S_drop_action])); (* bison_parser.y:821 *)
  (112, (S_drop_action, [S_DROP; S_COLUMN; S_opt_exists; S_IDENTIFIER])); (* bison_parser.y:823 *)
  (113, (S_delete_statement, [S_DELETE; S_FROM; S_table_name; S_opt_where])); (* bison_parser.y:833 *)
  (114, (S_truncate_statement, [S_TRUNCATE; S_table_name])); (* bison_parser.y:840 *)
  (115, (S_insert_statement, [S_INSERT; S_INTO; S_table_name; S_opt_column_list; S_VALUES; S_lpar; S_extended_literal_list; S_rpar])); (* bison_parser.y:851 *)
  (116, (S_insert_statement, [S_INSERT; S_INTO; S_table_name; S_opt_column_list; S_select_no_paren])); (* bison_parser.y:858 *)
  (117, (S_opt_column_list, [S_lpar; S_ident_commalist; S_rpar])); (* bison_parser.y:866 *)
  (118, (S_opt_column_list, [])); (* bison_parser.y:867 *)
  (119, (S_update_statement, [S_UPDATE; S_table_ref_name_no_alias; S_SET; S_update_clause_commalist; S_opt_where])); (* bison_parser.y:874 *)
  (120, (S_update_clause_commalist, [S_update_clause])); (* bison_parser.y:881 *)
  (121, (S_update_clause_commalist, [S_update_clause_commalist; S_comma; S_update_clause])); (* bison_parser.y:885 *)
  (122, (S_update_clause, [S_IDENTIFIER; S_eq; S_expr])); (* bison_parser.y:890 *)
  (123, (S_select_statement, [S_opt_with_clause; S_select_with_paren])); (* bison_parser.y:900 *)
  (124, (S_select_statement, [S_opt_with_clause; S_select_no_paren])); (* bison_parser.y:904 *)
  (125, (S_select_statement, [S_opt_with_clause; S_select_with_paren; S_set_operator; S_select_within_set_operation; S_opt_order; S_opt_limit])); (* bison_parser.y:908 *)
  (126, (S_select_within_set_operation, [S_select_with_paren])); (* bison_parser.y:920 *)
  (127, (S_select_within_set_operation, [S_select_within_set_operation_no_parentheses])); (* bison_parser.y:920 *)
  (128, (S_select_within_set_operation_no_parentheses, [S_select_clause])); (* bison_parser.y:922 *)
  (129, (S_select_within_set_operation_no_parentheses, [S_select_clause; S_set_operator; S_select_within_set_operation])); (* bison_parser.y:923 *)
  (130, (S_select_with_paren, [S_lpar; S_select_no_paren; S_rpar])); (* bison_parser.y:932 *)
  (131, (S_select_with_paren, [S_lpar; S_select_with_paren; S_rpar])); (* bison_parser.y:933 *)
  (132, (S_select_no_paren, [S_select_clause; S_opt_order; S_opt_limit; S_opt_locking_clause])); (* bison_parser.y:935 *)
  (133, (S_select_no_paren, [S_select_clause; S_set_operator; S_select_within_set_operation; S_opt_order; S_opt_limit; S_opt_locking_clause])); (* bison_parser.y:949 *)
  (134, (S_set_operator, [S_set_type; S_opt_all])); (* bison_parser.y:961 *)
  (135, (S_set_type, [S_UNION])); (* bison_parser.y:966 *)
  (136, (S_set_type, [S_INTERSECT])); (* bison_parser.y:970 *)
  (137, (S_set_type, [S_EXCEPT])); (* bison_parser.y:974 *)
  (138, (S_opt_all, [S_ALL])); (* bison_parser.y:979 *)
  (139, (S_opt_all, [])); (* bison_parser.y:980 *)
  (140, (S_select_clause, [S_SELECT; S_opt_top; S_opt_distinct; S_select_list; S_opt_from_clause; S_opt_where; S_opt_group])); (* bison_parser.y:982 *)
  (141, (S_opt_distinct, [S_DISTINCT])); (* bison_parser.y:992 *)
  (142, (S_opt_distinct, [])); (* bison_parser.y:993 *)
  (143, (S_select_list, [S_expr_list])); (* bison_parser.y:995 *)
  (144, (S_opt_from_clause, [S_from_clause])); (* bison_parser.y:997 *)
  (145, (S_opt_from_clause, [])); (* bison_parser.y:998 *)
  (146, (S_from_clause, [S_FROM; S_table_ref])); (* bison_parser.y:1000 *)
  (147, (S_opt_where, [S_WHERE; S_expr])); (* bison_parser.y:1002 *)
  (148, (S_opt_where, [])); (* bison_parser.y:1003 *)
  (149, (S_opt_group, [S_GROUP; S_BY; S_expr_list; S_opt_having])); (* bison_parser.y:1005 *)
  (150, (S_opt_group, [])); (* bison_parser.y:1010 *)
  (151, (S_opt_having, [S_HAVING; S_expr])); (* bison_parser.y:1012 *)
  (152, (S_opt_having, [])); (* bison_parser.y:1013 *)
  (153, (S_opt_order, [S_ORDER; S_BY; S_order_list])); (* bison_parser.y:1015 *)
  (154, (S_opt_order, [])); (* bison_parser.y:1016 *)
  (155, (S_order_list, [S_order_desc])); (* bison_parser.y:1018 *)
  (156, (S_order_list, [S_order_list; S_comma; S_order_desc])); (* bison_parser.y:1022 *)
  (157, (S_order_desc, [S_expr; S_opt_order_type; S_opt_null_ordering])); (* bison_parser.y:1027 *)
  (158, (S_opt_order_type, [S_ASC])); (* bison_parser.y:1029 *)
  (159, (S_opt_order_type, [S_DESC])); (* bison_parser.y:1030 *)
  (160, (S_opt_order_type, [])); (* bison_parser.y:1031 *)
  (161, (S_opt_null_ordering, [])); (* bison_parser.y:1033 *)
  (162, (S_opt_null_ordering, [S_IDENTIFIER; S_IDENTIFIER])); (* bison_parser.y:1034 *)
  (163, (S_opt_top, [S_TOP; S_int_literal])); (* bison_parser.y:1056 *)
  (164, (S_opt_top, [])); (* bison_parser.y:1057 *)
  (165, (S_opt_limit, [S_LIMIT; S_expr])); (* bison_parser.y:1059 *)
  (166, (S_opt_limit, [S_OFFSET; S_expr])); (* bison_parser.y:1060 *)
  (167, (S_opt_limit, [S_LIMIT; S_expr; S_OFFSET; S_expr])); (* bison_parser.y:1061 *)
  (168, (S_opt_limit, [S_LIMIT; S_ALL])); (* bison_parser.y:1062 *)
  (169, (S_opt_limit, [S_LIMIT; S_ALL; S_OFFSET; S_expr])); (* bison_parser.y:1063 *)
  (170, (S_opt_limit, [])); (* bison_parser.y:1064 *)
  (171, (S_expr_list, [S_expr_alias])); (* bison_parser.y:1069 *)
  (172, (S_expr_list, [S_expr_list; S_comma; S_expr_alias])); (* bison_parser.y:1073 *)
  (173, (S_opt_extended_literal_list, [S_extended_literal_list])); (* bison_parser.y:1079 *)
  (174, (S_opt_extended_literal_list, [])); (* bison_parser.y:1080 *)
  (175, (S_extended_literal_list, [S_casted_extended_literal])); (* bison_parser.y:1082 *)
  (176, (S_extended_literal_list, [S_extended_literal_list; S_comma; S_casted_extended_literal])); (* bison_parser.y:1086 *)
  (177, (S_casted_extended_literal, [S_extended_literal])); (* bison_parser.y:1091 *)
  (178, (S_casted_extended_literal, [S_CAST; S_lpar; S_extended_literal; S_AS; S_column_type; S_rpar])); (* bison_parser.y:1091 *)
  (179, (S_extended_literal, [S_literal])); (* bison_parser.y:1095 *)
  (180, (S_extended_literal, [S_minus; S_num_literal])); (* bison_parser.y:1103 *)
  (181, (S_extended_literal, [S_minus; S_interval_literal])); (* bison_parser.y:1104 *)
  (182, (S_expr_alias, [S_expr; S_opt_alias])); (* bison_parser.y:1106 *)
  (183, (S_expr, [S_operand])); (* bison_parser.y:1115 *)
  (184, (S_expr, [S_between_expr])); (* bison_parser.y:1115 *)
  (185, (S_expr, [S_logic_expr])); (* bison_parser.y:1115 *)
  (186, (S_expr, [S_exists_expr])); (* bison_parser.y:1115 *)
  (187, (S_expr, [S_in_expr])); (* bison_parser.y:1115 *)
  (188, (S_operand, [S_lpar; S_expr; S_rpar])); (* bison_parser.y:1117 *)
  (189, (S_operand, [S_array_index])); (* bison_parser.y:1118 *)
  (190, (S_operand, [S_scalar_expr])); (* bison_parser.y:1118 *)
  (191, (S_operand, [S_unary_expr])); (* bison_parser.y:1118 *)
  (192, (S_operand, [S_binary_expr])); (* bison_parser.y:1118 *)
  (193, (S_operand, [S_case_expr])); (* bison_parser.y:1118 *)
  (194, (S_operand, [S_function_expr])); (* bison_parser.y:1118 *)
  (195, (S_operand, [S_extract_expr])); (* bison_parser.y:1118 *)
  (196, (S_operand, [S_cast_expr])); (* bison_parser.y:1118 *)
  (197, (S_operand, [S_array_expr])); (* bison_parser.y:1118 *)
  (198, (S_operand, [S_lpar; S_select_no_paren; S_rpar])); (* bison_parser.y:1119 *)
  (199, (S_scalar_expr, [S_column_name])); (* bison_parser.y:1123 *)
  (200, (S_scalar_expr, [S_literal])); (* bison_parser.y:1123 *)
  (201, (S_unary_expr, [S_minus; S_operand])); (* bison_parser.y:1125 *)
  (202, (S_unary_expr, [S_NOT; S_operand])); (* bison_parser.y:1126 *)
  (203, (S_unary_expr, [S_operand; S_ISNULL])); (* bison_parser.y:1127 *)
  (204, (S_unary_expr, [S_operand; S_IS; S_NULL])); (* bison_parser.y:1128 *)
  (205, (S_unary_expr, [S_operand; S_IS; S_NOT; S_NULL])); (* bison_parser.y:1129 *)
  (206, (S_binary_expr, [S_comp_expr])); (* bison_parser.y:1131 *)
  (207, (S_binary_expr, [S_operand; S_minus; S_operand])); (* bison_parser.y:1131 *)
  (208, (S_binary_expr, [S_operand; S_plus; S_operand])); (* bison_parser.y:1132 *)
  (209, (S_binary_expr, [S_operand; S_slash; S_operand])); (* bison_parser.y:1133 *)
  (210, (S_binary_expr, [S_operand; S_star; S_operand])); (* bison_parser.y:1134 *)
  (211, (S_binary_expr, [S_operand; S_percent; S_operand])); (* bison_parser.y:1135 *)
  (212, (S_binary_expr, [S_operand; S_caret; S_operand])); (* bison_parser.y:1136 *)
  (213, (S_binary_expr, [S_operand; S_LIKE; S_operand])); (* bison_parser.y:1137 *)
  (214, (S_binary_expr, [S_operand; S_NOT; S_LIKE; S_operand])); (* bison_parser.y:1138 *)
  (215, (S_binary_expr, [S_operand; S_ILIKE; S_operand])); (* bison_parser.y:1139 *)
  (216, (S_binary_expr, [S_operand; S_CONCAT; S_operand])); (* bison_parser.y:1140 *)
  (217, (S_logic_expr, [S_expr; S_AND; S_expr])); (* bison_parser.y:1142 *)
  (218, (S_logic_expr, [S_expr; S_OR; S_expr])); (* bison_parser.y:1143 *)
  (219, (S_in_expr, [S_operand; S_IN; S_lpar; S_expr_list; S_rpar])); (* bison_parser.y:1145 *)
  (220, (S_in_expr, [S_operand; S_NOT; S_IN; S_lpar; S_expr_list; S_rpar])); (* bison_parser.y:1146 *)
  (221, (S_in_expr, [S_operand; S_IN; S_lpar; S_select_no_paren; S_rpar])); (* bison_parser.y:1147 *)
  (222, (S_in_expr, [S_operand; S_NOT; S_IN; S_lpar; S_select_no_paren; S_rpar])); (* bison_parser.y:1148 *)
  (223, (S_case_expr, [S_CASE; S_expr; S_case_list; S_END])); (* bison_parser.y:1152 *)
  (224, (S_case_expr, [S_CASE; S_expr; S_case_list; S_ELSE; S_expr; S_END])); (* bison_parser.y:1153 *)
  (225, (S_case_expr, [S_CASE; S_case_list; S_END])); (* bison_parser.y:1154 *)
  (226, (S_case_expr, [S_CASE; S_case_list; S_ELSE; S_expr; S_END])); (* bison_parser.y:1155 *)
  (227, (S_case_list, [S_WHEN; S_expr; S_THEN; S_expr])); (* bison_parser.y:1157 *)
  (228, (S_case_list, [S_case_list; S_WHEN; S_expr; S_THEN; S_expr])); (* bison_parser.y:1158 *)
  (229, (S_exists_expr, [S_EXISTS; S_lpar; S_select_no_paren; S_rpar])); (* bison_parser.y:1160 *)
  (230, (S_exists_expr, [S_NOT; S_EXISTS; S_lpar; S_select_no_paren; S_rpar])); (* bison_parser.y:1161 *)
  (231, (S_comp_expr, [S_operand; S_eq; S_operand])); (* bison_parser.y:1163 *)
  (232, (S_comp_expr, [S_operand; S_EQUALS; S_operand])); (* bison_parser.y:1164 *)
  (233, (S_comp_expr, [S_operand; S_NOTEQUALS; S_operand])); (* bison_parser.y:1165 *)
  (234, (S_comp_expr, [S_operand; S_lt; S_operand])); (* bison_parser.y:1166 *)
  (235, (S_comp_expr, [S_operand; S_gt; S_operand])); (* bison_parser.y:1167 *)
  (236, (S_comp_expr, [S_operand; S_LESSEQ; S_operand])); (* bison_parser.y:1168 *)
  (237, (S_comp_expr, [S_operand; S_GREATEREQ; S_operand])); (* bison_parser.y:1169 *)
  (238, (S_function_expr, [S_IDENTIFIER; S_lpar; S_rpar; S_opt_window])); (* bison_parser.y:1173 *)
  (239, (S_function_expr, [S_IDENTIFIER; S_lpar; S_opt_distinct; S_expr_list; S_rpar; S_opt_window])); (* bison_parser.y:1174 *)
  (240, (S_function_expr, [S_IDENTIFIER; S_dot; S_IDENTIFIER; S_lpar; S_rpar; S_opt_window])); (* bison_parser.y:1175 *)
  (241, (S_function_expr, [S_IDENTIFIER; S_dot; S_IDENTIFIER; S_lpar; S_opt_distinct; S_expr_list; S_rpar; S_opt_window])); (* bison_parser.y:1176 *)
  (242, (S_opt_window, [S_OVER; S_lpar; S_opt_partition; S_opt_order; S_opt_frame_clause; S_rpar])); (* bison_parser.y:1180 *)
  (243, (S_opt_window, [])); (* bison_parser.y:1181 *)
  (244, (S_opt_partition, [S_PARTITION; S_BY; S_expr_list])); (* bison_parser.y:1183 *)
  (245, (S_opt_partition, [])); (* bison_parser.y:1184 *)
  (246, (S_opt_frame_clause, [S_frame_type; S_frame_bound])); (* bison_parser.y:1189 *)
  (247, (S_opt_frame_clause, [S_frame_type; S_BETWEEN; S_frame_bound; S_AND; S_frame_bound])); (* bison_parser.y:1190 *)
  (248, (S_opt_frame_clause, [])); (* bison_parser.y:1191 *)
  (249, (S_frame_type, [S_RANGE])); (* bison_parser.y:1195 *)
  (250, (S_frame_type, [S_ROWS])); (* bison_parser.y:1196 *)
  (251, (S_frame_type, [S_GROUPS])); (* bison_parser.y:1197 *)
  (252, (S_frame_bound, [S_UNBOUNDED; S_PRECEDING])); (* bison_parser.y:1199 *)
  (253, (S_frame_bound, [S_INTVAL; S_PRECEDING])); (* bison_parser.y:1200 *)
  (254, (S_frame_bound, [S_UNBOUNDED; S_FOLLOWING])); (* bison_parser.y:1201 *)
  (255, (S_frame_bound, [S_INTVAL; S_FOLLOWING])); (* bison_parser.y:1202 *)
  (256, (S_frame_bound, [S_CURRENT_ROW])); (* bison_parser.y:1203 *)
  (257, (S_extract_expr, [S_EXTRACT; S_lpar; S_datetime_field; S_FROM; S_expr; S_rpar])); (* bison_parser.y:1205 *)
  (258, (S_cast_expr, [S_CAST; S_lpar; S_expr; S_AS; S_column_type; S_rpar])); (* bison_parser.y:1207 *)
  (259, (S_datetime_field, [S_SECOND])); (* bison_parser.y:1209 *)
  (260, (S_datetime_field, [S_MINUTE])); (* bison_parser.y:1210 *)
  (261, (S_datetime_field, [S_HOUR])); (* bison_parser.y:1211 *)
  (262, (S_datetime_field, [S_DAY])); (* bison_parser.y:1212 *)
  (263, (S_datetime_field, [S_MONTH])); (* bison_parser.y:1213 *)
  (264, (S_datetime_field, [S_YEAR])); (* bison_parser.y:1214 *)
  (265, (S_datetime_field_plural, [S_SECONDS])); (* bison_parser.y:1216 *)
  (266, (S_datetime_field_plural, [S_MINUTES])); (* bison_parser.y:1217 *)
  (267, (S_datetime_field_plural, [S_HOURS])); (* bison_parser.y:1218 *)
  (268, (S_datetime_field_plural, [S_DAYS])); (* bison_parser.y:1219 *)
  (269, (S_datetime_field_plural, [S_MONTHS])); (* bison_parser.y:1220 *)
  (270, (S_datetime_field_plural, [S_YEARS])); (* bison_parser.y:1221 *)
  (271, (S_duration_field, [S_datetime_field])); (* bison_parser.y:1223 *)
  (272, (S_duration_field, [S_datetime_field_plural])); (* bison_parser.y:1223 *)
  (273, (S_array_expr, [S_ARRAY; S_lbrack; S_expr_list; S_rbrack])); (* bison_parser.y:1225 *)
  (274, (S_array_index, [S_operand; S_lbrack; S_int_literal; S_rbrack])); (* bison_parser.y:1227 *)
  (275, (S_between_expr, [S_operand; S_BETWEEN; S_operand; S_AND; S_operand])); (* bison_parser.y:1229 *)
  (276, (S_column_name, [S_IDENTIFIER])); (* bison_parser.y:1231 *)
  (277, (S_column_name, [S_IDENTIFIER; S_dot; S_IDENTIFIER])); (* bison_parser.y:1232 *)
  (278, (S_column_name, [S_star])); (* bison_parser.y:1233 *)
  (279, (S_column_name, [S_IDENTIFIER; S_dot; S_star])); (* bison_parser.y:1234 *)
  (280, (S_literal, [S_string_literal])); (* bison_parser.y:1236 *)
  (281, (S_literal, [S_bool_literal])); (* bison_parser.y:1236 *)
  (282, (S_literal, [S_num_literal])); (* bison_parser.y:1236 *)
  (283, (S_literal, [S_null_literal])); (* bison_parser.y:1236 *)
  (284, (S_literal, [S_date_literal])); (* bison_parser.y:1236 *)
  (285, (S_literal, [S_interval_literal])); (* bison_parser.y:1236 *)
  (286, (S_literal, [S_param_expr])); (* bison_parser.y:1236 *)
  (287, (S_string_literal, [S_STRING])); (* bison_parser.y:1238 *)
  (288, (S_bool_literal, [S_TRUE])); (* bison_parser.y:1240 *)
  (289, (S_bool_literal, [S_FALSE])); (* bison_parser.y:1241 *)
  (290, (S_num_literal, [S_FLOATVAL])); (* bison_parser.y:1243 *)
  (291, (S_num_literal, [S_int_literal])); (* bison_parser.y:1244 *)
  (292, (S_int_literal, [S_INTVAL])); (* bison_parser.y:1246 *)
  (293, (S_null_literal, [S_NULL])); (* bison_parser.y:1248 *)
  (294, (S_date_literal, [S_DATE; S_STRING])); (* bison_parser.y:1250 *)
  (295, (S_interval_literal, [S_INTVAL; S_duration_field])); (* bison_parser.y:1261 *)
  (296, (S_interval_literal, [S_INTERVAL; S_STRING; S_datetime_field])); (* bison_parser.y:1262 *)
  (297, (S_interval_literal, [S_INTERVAL; S_STRING])); (* bison_parser.y:1273 *)
  (298, (S_param_expr, [S_qmark])); (* bison_parser.y:1305 *)
  (299, (S_table_ref, [S_table_ref_atomic])); (* bison_parser.y:1314 *)
  (300, (S_table_ref, [S_table_ref_commalist; S_comma; S_table_ref_atomic])); (* bison_parser.y:1314 *)
  (301, (S_table_ref_atomic, [S_nonjoin_table_ref_atomic])); (* bison_parser.y:1321 *)
  (302, (S_table_ref_atomic, [S_join_clause])); (* bison_parser.y:1321 *)
  (303, (S_nonjoin_table_ref_atomic, [S_table_ref_name])); (* bison_parser.y:1323 *)
  (304, (S_nonjoin_table_ref_atomic, [S_lpar; S_select_statement; S_rpar; S_opt_table_alias])); (* bison_parser.y:1323 *)
  (305, (S_table_ref_commalist, [S_table_ref_atomic])); (* bison_parser.y:1330 *)
  (306, (S_table_ref_commalist, [S_table_ref_commalist; S_comma; S_table_ref_atomic])); (* bison_parser.y:1334 *)
  (307, (S_table_ref_name, [S_table_name; S_opt_table_alias])); (* bison_parser.y:1339 *)
  (308, (S_table_ref_name_no_alias, [S_table_name])); (* bison_parser.y:1347 *)
  (309, (S_table_name, [S_IDENTIFIER])); (* bison_parser.y:1353 *)
  (310, (S_table_name, [S_IDENTIFIER; S_dot; S_IDENTIFIER])); (* bison_parser.y:1357 *)
  (311, (S_opt_index_name, [S_IDENTIFIER])); (* bison_parser.y:1362 *)
  (312, (S_opt_index_name, [])); (* bison_parser.y:1363 *)
  (313, (S_table_alias, [S_alias])); (* bison_parser.y:1365 *)
  (314, (S_table_alias, [S_AS; S_IDENTIFIER; S_lpar; S_ident_commalist; S_rpar])); (* bison_parser.y:1365 *)
  (315, (S_opt_table_alias, [S_table_alias])); (* bison_parser.y:1367 *)
  (316, (S_opt_table_alias, [])); (* bison_parser.y:1367 *)
  (317, (S_alias, [S_AS; S_IDENTIFIER])); (* bison_parser.y:1369 *)
  (318, (S_alias, [S_IDENTIFIER])); (* bison_parser.y:1370 *)
  (319, (S_opt_alias, [S_alias])); (* bison_parser.y:1372 *)
  (320, (S_opt_alias, [])); (* bison_parser.y:1372 *)
  (321, (S_opt_locking_clause, [S_opt_locking_clause_list])); (* bison_parser.y:1378 *)
  (322, (S_opt_locking_clause, [])); (* bison_parser.y:1379 *)
  (323, (S_opt_locking_clause_list, [S_locking_clause])); (* bison_parser.y:1381 *)
  (324, (S_opt_locking_clause_list, [S_opt_locking_clause_list; S_locking_clause])); (* bison_parser.y:1385 *)
  (325, (S_locking_clause, [S_FOR; S_row_lock_mode; S_opt_row_lock_policy])); (* bison_parser.y:1390 *)
  (326, (S_locking_clause, [S_FOR; S_row_lock_mode; S_OF; S_ident_commalist; S_opt_row_lock_policy])); (* bison_parser.y:1396 *)
  (327, (S_row_lock_mode, [S_UPDATE])); (* bison_parser.y:1403 *)
  (328, (S_row_lock_mode, [S_NO; S_KEY; S_UPDATE])); (* bison_parser.y:1404 *)
  (329, (S_row_lock_mode, [S_SHARE])); (* bison_parser.y:1405 *)
  (330, (S_row_lock_mode, [S_KEY; S_SHARE])); (* bison_parser.y:1406 *)
  (331, (S_opt_row_lock_policy, [S_SKIP; S_LOCKED])); (* bison_parser.y:1408 *)
  (332, (S_opt_row_lock_policy, [S_NOWAIT])); (* bison_parser.y:1409 *)
  (333, (S_opt_row_lock_policy, [])); (* bison_parser.y:1410 *)
  (334, (S_opt_with_clause, [S_with_clause])); (* bison_parser.y:1416 *)
  (335, (S_opt_with_clause, [])); (* bison_parser.y:1416 *)
  (336, (S_with_clause, [S_WITH; S_with_description_list])); (* bison_parser.y:1418 *)
  (337, (S_with_description_list, [S_with_description])); (* bison_parser.y:1420 *)
  (338, (S_with_description_list, [S_with_description_list; S_comma; S_with_description])); (* bison_parser.y:1424 *)
  (339, (S_with_description, [S_IDENTIFIER; S_AS; S_select_with_paren])); (* bison_parser.y:1429 *)
  (340, (S_join_clause, [S_table_ref_atomic; S_NATURAL; S_JOIN; S_nonjoin_table_ref_atomic])); (* bison_parser.y:1439 *)
  (341, (S_join_clause, [S_table_ref_atomic; S_opt_join_type; S_JOIN; S_table_ref_atomic; S_ON; S_join_condition])); (* bison_parser.y:1446 *)
  (342, (S_join_clause, [S_table_ref_atomic; S_opt_join_type; S_JOIN; S_table_ref_atomic; S_USING; S_lpar; S_ident_commalist; S_rpar])); (* bison_parser.y:1454 *)
  (343, (S_opt_join_type, [S_INNER])); (* bison_parser.y:1463 *)
  (344, (S_opt_join_type, [S_LEFT; S_OUTER])); (* bison_parser.y:1464 *)
  (345, (S_opt_join_type, [S_LEFT])); (* bison_parser.y:1465 *)
  (346, (S_opt_join_type, [S_RIGHT; S_OUTER])); (* bison_parser.y:1466 *)
  (347, (S_opt_join_type, [S_RIGHT])); (* bison_parser.y:1467 *)
  (348, (S_opt_join_type, [S_FULL; S_OUTER])); (* bison_parser.y:1468 *)
  (349, (S_opt_join_type, [S_OUTER])); (* bison_parser.y:1469 *)
  (350, (S_opt_join_type, [S_FULL])); (* bison_parser.y:1470 *)
  (351, (S_opt_join_type, [S_CROSS])); (* bison_parser.y:1471 *)
  (352, (S_opt_join_type, [])); (* bison_parser.y:1472 *)
  (353, (S_join_condition, [S_expr])); (* bison_parser.y:1474 *)
  (354, (S_opt_semicolon, [S_semi])); (* bison_parser.y:1480 *)
  (355, (S_opt_semicolon, [])); (* bison_parser.y:1480 *)
  (356, (S_ident_commalist, [S_IDENTIFIER])); (* bison_parser.y:1483 *)
  (357, (S_ident_commalist, [S_ident_commalist; S_comma; S_IDENTIFIER])) (* bison_parser.y:1487 *)
].
