(** GENERATED by tools/gen_tables.py.  Token codes: /repo/src/parser/bison_parser.h (enum hsql_tokentype);
    symbol numbers: positions in yytname, /repo/src/parser/bison_parser.cpp:823 ff. *)
From Verif Require Import Base.
Local Open Scope N_scope.

Definition TOK_IDENTIFIER : Z := 258. (* bison_parser.h:81 *)
Definition TOK_STRING : Z := 259. (* bison_parser.h:82 *)
Definition TOK_FLOATVAL : Z := 260. (* bison_parser.h:83 *)
Definition TOK_INTVAL : Z := 261. (* bison_parser.h:84 *)
Definition TOK_DEALLOCATE : Z := 262. (* bison_parser.h:85 *)
Definition TOK_PARAMETERS : Z := 263. (* bison_parser.h:86 *)
Definition TOK_INTERSECT : Z := 264. (* bison_parser.h:87 *)
Definition TOK_TEMPORARY : Z := 265. (* bison_parser.h:88 *)
Definition TOK_TIMESTAMP : Z := 266. (* bison_parser.h:89 *)
Definition TOK_DISTINCT : Z := 267. (* bison_parser.h:90 *)
Definition TOK_NVARCHAR : Z := 268. (* bison_parser.h:91 *)
Definition TOK_RESTRICT : Z := 269. (* bison_parser.h:92 *)
Definition TOK_TRUNCATE : Z := 270. (* bison_parser.h:93 *)
Definition TOK_ANALYZE : Z := 271. (* bison_parser.h:94 *)
Definition TOK_BETWEEN : Z := 272. (* bison_parser.h:95 *)
Definition TOK_CASCADE : Z := 273. (* bison_parser.h:96 *)
Definition TOK_COLUMNS : Z := 274. (* bison_parser.h:97 *)
Definition TOK_CONTROL : Z := 275. (* bison_parser.h:98 *)
Definition TOK_DEFAULT : Z := 276. (* bison_parser.h:99 *)
Definition TOK_EXECUTE : Z := 277. (* bison_parser.h:100 *)
Definition TOK_EXPLAIN : Z := 278. (* bison_parser.h:101 *)
Definition TOK_ENCODING : Z := 279. (* bison_parser.h:102 *)
Definition TOK_INTEGER : Z := 280. (* bison_parser.h:103 *)
Definition TOK_NATURAL : Z := 281. (* bison_parser.h:104 *)
Definition TOK_PREPARE : Z := 282. (* bison_parser.h:105 *)
Definition TOK_SCHEMAS : Z := 283. (* bison_parser.h:106 *)
Definition TOK_CHARACTER_VARYING : Z := 284. (* bison_parser.h:107 *)
Definition TOK_REAL : Z := 285. (* bison_parser.h:108 *)
Definition TOK_DECIMAL : Z := 286. (* bison_parser.h:109 *)
Definition TOK_SMALLINT : Z := 287. (* bison_parser.h:110 *)
Definition TOK_BIGINT : Z := 288. (* bison_parser.h:111 *)
Definition TOK_SPATIAL : Z := 289. (* bison_parser.h:112 *)
Definition TOK_VARCHAR : Z := 290. (* bison_parser.h:113 *)
Definition TOK_VIRTUAL : Z := 291. (* bison_parser.h:114 *)
Definition TOK_DESCRIBE : Z := 292. (* bison_parser.h:115 *)
Definition TOK_BEFORE : Z := 293. (* bison_parser.h:116 *)
Definition TOK_COLUMN : Z := 294. (* bison_parser.h:117 *)
Definition TOK_CREATE : Z := 295. (* bison_parser.h:118 *)
Definition TOK_DELETE : Z := 296. (* bison_parser.h:119 *)
Definition TOK_DIRECT : Z := 297. (* bison_parser.h:120 *)
Definition TOK_DOUBLE : Z := 298. (* bison_parser.h:121 *)
Definition TOK_ESCAPE : Z := 299. (* bison_parser.h:122 *)
Definition TOK_EXCEPT : Z := 300. (* bison_parser.h:123 *)
Definition TOK_EXISTS : Z := 301. (* bison_parser.h:124 *)
Definition TOK_EXTRACT : Z := 302. (* bison_parser.h:125 *)
Definition TOK_CAST : Z := 303. (* bison_parser.h:126 *)
Definition TOK_FORMAT : Z := 304. (* bison_parser.h:127 *)
Definition TOK_GLOBAL : Z := 305. (* bison_parser.h:128 *)
Definition TOK_HAVING : Z := 306. (* bison_parser.h:129 *)
Definition TOK_IMPORT : Z := 307. (* bison_parser.h:130 *)
Definition TOK_INSERT : Z := 308. (* bison_parser.h:131 *)
Definition TOK_ISNULL : Z := 309. (* bison_parser.h:132 *)
Definition TOK_OFFSET : Z := 310. (* bison_parser.h:133 *)
Definition TOK_RENAME : Z := 311. (* bison_parser.h:134 *)
Definition TOK_SCHEMA : Z := 312. (* bison_parser.h:135 *)
Definition TOK_SELECT : Z := 313. (* bison_parser.h:136 *)
Definition TOK_SORTED : Z := 314. (* bison_parser.h:137 *)
Definition TOK_TABLES : Z := 315. (* bison_parser.h:138 *)
Definition TOK_UNLOAD : Z := 316. (* bison_parser.h:139 *)
Definition TOK_UPDATE : Z := 317. (* bison_parser.h:140 *)
Definition TOK_VALUES : Z := 318. (* bison_parser.h:141 *)
Definition TOK_AFTER : Z := 319. (* bison_parser.h:142 *)
Definition TOK_ALTER : Z := 320. (* bison_parser.h:143 *)
Definition TOK_CROSS : Z := 321. (* bison_parser.h:144 *)
Definition TOK_DELTA : Z := 322. (* bison_parser.h:145 *)
Definition TOK_FLOAT : Z := 323. (* bison_parser.h:146 *)
Definition TOK_GROUP : Z := 324. (* bison_parser.h:147 *)
Definition TOK_INDEX : Z := 325. (* bison_parser.h:148 *)
Definition TOK_INNER : Z := 326. (* bison_parser.h:149 *)
Definition TOK_LIMIT : Z := 327. (* bison_parser.h:150 *)
Definition TOK_LOCAL : Z := 328. (* bison_parser.h:151 *)
Definition TOK_MERGE : Z := 329. (* bison_parser.h:152 *)
Definition TOK_MINUS : Z := 330. (* bison_parser.h:153 *)
Definition TOK_ORDER : Z := 331. (* bison_parser.h:154 *)
Definition TOK_OVER : Z := 332. (* bison_parser.h:155 *)
Definition TOK_OUTER : Z := 333. (* bison_parser.h:156 *)
Definition TOK_RIGHT : Z := 334. (* bison_parser.h:157 *)
Definition TOK_TABLE : Z := 335. (* bison_parser.h:158 *)
Definition TOK_UNION : Z := 336. (* bison_parser.h:159 *)
Definition TOK_USING : Z := 337. (* bison_parser.h:160 *)
Definition TOK_WHERE : Z := 338. (* bison_parser.h:161 *)
Definition TOK_CALL : Z := 339. (* bison_parser.h:162 *)
Definition TOK_CASE : Z := 340. (* bison_parser.h:163 *)
Definition TOK_CHAR : Z := 341. (* bison_parser.h:164 *)
Definition TOK_COPY : Z := 342. (* bison_parser.h:165 *)
Definition TOK_DATE : Z := 343. (* bison_parser.h:166 *)
Definition TOK_DATETIME : Z := 344. (* bison_parser.h:167 *)
Definition TOK_DESC : Z := 345. (* bison_parser.h:168 *)
Definition TOK_DROP : Z := 346. (* bison_parser.h:169 *)
Definition TOK_ELSE : Z := 347. (* bison_parser.h:170 *)
Definition TOK_FILE : Z := 348. (* bison_parser.h:171 *)
Definition TOK_FROM : Z := 349. (* bison_parser.h:172 *)
Definition TOK_FULL : Z := 350. (* bison_parser.h:173 *)
Definition TOK_HASH : Z := 351. (* bison_parser.h:174 *)
Definition TOK_HINT : Z := 352. (* bison_parser.h:175 *)
Definition TOK_INTO : Z := 353. (* bison_parser.h:176 *)
Definition TOK_JOIN : Z := 354. (* bison_parser.h:177 *)
Definition TOK_LEFT : Z := 355. (* bison_parser.h:178 *)
Definition TOK_LIKE : Z := 356. (* bison_parser.h:179 *)
Definition TOK_LOAD : Z := 357. (* bison_parser.h:180 *)
Definition TOK_LONG : Z := 358. (* bison_parser.h:181 *)
Definition TOK_NULL : Z := 359. (* bison_parser.h:182 *)
Definition TOK_PARTITION : Z := 360. (* bison_parser.h:183 *)
Definition TOK_PLAN : Z := 361. (* bison_parser.h:184 *)
Definition TOK_SHOW : Z := 362. (* bison_parser.h:185 *)
Definition TOK_TEXT : Z := 363. (* bison_parser.h:186 *)
Definition TOK_THEN : Z := 364. (* bison_parser.h:187 *)
Definition TOK_TIME : Z := 365. (* bison_parser.h:188 *)
Definition TOK_VIEW : Z := 366. (* bison_parser.h:189 *)
Definition TOK_WHEN : Z := 367. (* bison_parser.h:190 *)
Definition TOK_WITH : Z := 368. (* bison_parser.h:191 *)
Definition TOK_ADD : Z := 369. (* bison_parser.h:192 *)
Definition TOK_ALL : Z := 370. (* bison_parser.h:193 *)
Definition TOK_AND : Z := 371. (* bison_parser.h:194 *)
Definition TOK_ASC : Z := 372. (* bison_parser.h:195 *)
Definition TOK_END : Z := 373. (* bison_parser.h:196 *)
Definition TOK_FOR : Z := 374. (* bison_parser.h:197 *)
Definition TOK_INT : Z := 375. (* bison_parser.h:198 *)
Definition TOK_NOT : Z := 376. (* bison_parser.h:199 *)
Definition TOK_OFF : Z := 377. (* bison_parser.h:200 *)
Definition TOK_SET : Z := 378. (* bison_parser.h:201 *)
Definition TOK_TOP : Z := 379. (* bison_parser.h:202 *)
Definition TOK_AS : Z := 380. (* bison_parser.h:203 *)
Definition TOK_BY : Z := 381. (* bison_parser.h:204 *)
Definition TOK_IF : Z := 382. (* bison_parser.h:205 *)
Definition TOK_IN : Z := 383. (* bison_parser.h:206 *)
Definition TOK_IS : Z := 384. (* bison_parser.h:207 *)
Definition TOK_OF : Z := 385. (* bison_parser.h:208 *)
Definition TOK_ON : Z := 386. (* bison_parser.h:209 *)
Definition TOK_OR : Z := 387. (* bison_parser.h:210 *)
Definition TOK_TO : Z := 388. (* bison_parser.h:211 *)
Definition TOK_NO : Z := 389. (* bison_parser.h:212 *)
Definition TOK_ARRAY : Z := 390. (* bison_parser.h:213 *)
Definition TOK_CONCAT : Z := 391. (* bison_parser.h:214 *)
Definition TOK_ILIKE : Z := 392. (* bison_parser.h:215 *)
Definition TOK_SECOND : Z := 393. (* bison_parser.h:216 *)
Definition TOK_MINUTE : Z := 394. (* bison_parser.h:217 *)
Definition TOK_HOUR : Z := 395. (* bison_parser.h:218 *)
Definition TOK_DAY : Z := 396. (* bison_parser.h:219 *)
Definition TOK_MONTH : Z := 397. (* bison_parser.h:220 *)
Definition TOK_YEAR : Z := 398. (* bison_parser.h:221 *)
Definition TOK_SECONDS : Z := 399. (* bison_parser.h:222 *)
Definition TOK_MINUTES : Z := 400. (* bison_parser.h:223 *)
Definition TOK_HOURS : Z := 401. (* bison_parser.h:224 *)
Definition TOK_DAYS : Z := 402. (* bison_parser.h:225 *)
Definition TOK_MONTHS : Z := 403. (* bison_parser.h:226 *)
Definition TOK_YEARS : Z := 404. (* bison_parser.h:227 *)
Definition TOK_INTERVAL : Z := 405. (* bison_parser.h:228 *)
Definition TOK_TRUE : Z := 406. (* bison_parser.h:229 *)
Definition TOK_FALSE : Z := 407. (* bison_parser.h:230 *)
Definition TOK_BOOLEAN : Z := 408. (* bison_parser.h:231 *)
Definition TOK_TRANSACTION : Z := 409. (* bison_parser.h:232 *)
Definition TOK_BEGIN : Z := 410. (* bison_parser.h:233 *)
Definition TOK_COMMIT : Z := 411. (* bison_parser.h:234 *)
Definition TOK_ROLLBACK : Z := 412. (* bison_parser.h:235 *)
Definition TOK_NOWAIT : Z := 413. (* bison_parser.h:236 *)
Definition TOK_SKIP : Z := 414. (* bison_parser.h:237 *)
Definition TOK_LOCKED : Z := 415. (* bison_parser.h:238 *)
Definition TOK_SHARE : Z := 416. (* bison_parser.h:239 *)
Definition TOK_RANGE : Z := 417. (* bison_parser.h:240 *)
Definition TOK_ROWS : Z := 418. (* bison_parser.h:241 *)
Definition TOK_GROUPS : Z := 419. (* bison_parser.h:242 *)
Definition TOK_UNBOUNDED : Z := 420. (* bison_parser.h:243 *)
Definition TOK_FOLLOWING : Z := 421. (* bison_parser.h:244 *)
Definition TOK_PRECEDING : Z := 422. (* bison_parser.h:245 *)
Definition TOK_CURRENT_ROW : Z := 423. (* bison_parser.h:246 *)
Definition TOK_UNIQUE : Z := 424. (* bison_parser.h:247 *)
Definition TOK_PRIMARY : Z := 425. (* bison_parser.h:248 *)
Definition TOK_FOREIGN : Z := 426. (* bison_parser.h:249 *)
Definition TOK_KEY : Z := 427. (* bison_parser.h:250 *)
Definition TOK_REFERENCES : Z := 428. (* bison_parser.h:251 *)
Definition TOK_EQUALS : Z := 429. (* bison_parser.h:252 *)
Definition TOK_NOTEQUALS : Z := 430. (* bison_parser.h:253 *)
Definition TOK_LESS : Z := 431. (* bison_parser.h:254 *)
Definition TOK_GREATER : Z := 432. (* bison_parser.h:255 *)
Definition TOK_LESSEQ : Z := 433. (* bison_parser.h:256 *)
Definition TOK_GREATEREQ : Z := 434. (* bison_parser.h:257 *)
Definition TOK_NOTNULL : Z := 435. (* bison_parser.h:258 *)
Definition TOK_UMINUS : Z := 436. (* bison_parser.h:259 *)

(** Symbol numbers. *)
Definition S_END_ : N := 0.
Definition S_error_ : N := 1.
Definition S_UNDEF_ : N := 2.
Definition S_IDENTIFIER : N := 3.
Definition S_STRING : N := 4.
Definition S_FLOATVAL : N := 5.
Definition S_INTVAL : N := 6.
Definition S_DEALLOCATE : N := 7.
Definition S_PARAMETERS : N := 8.
Definition S_INTERSECT : N := 9.
Definition S_TEMPORARY : N := 10.
Definition S_TIMESTAMP : N := 11.
Definition S_DISTINCT : N := 12.
Definition S_NVARCHAR : N := 13.
Definition S_RESTRICT : N := 14.
Definition S_TRUNCATE : N := 15.
Definition S_ANALYZE : N := 16.
Definition S_BETWEEN : N := 17.
Definition S_CASCADE : N := 18.
Definition S_COLUMNS : N := 19.
Definition S_CONTROL : N := 20.
Definition S_DEFAULT : N := 21.
Definition S_EXECUTE : N := 22.
Definition S_EXPLAIN : N := 23.
Definition S_ENCODING : N := 24.
Definition S_INTEGER : N := 25.
Definition S_NATURAL : N := 26.
Definition S_PREPARE : N := 27.
Definition S_SCHEMAS : N := 28.
Definition S_CHARACTER_VARYING : N := 29.
Definition S_REAL : N := 30.
Definition S_DECIMAL : N := 31.
Definition S_SMALLINT : N := 32.
Definition S_BIGINT : N := 33.
Definition S_SPATIAL : N := 34.
Definition S_VARCHAR : N := 35.
Definition S_VIRTUAL : N := 36.
Definition S_DESCRIBE : N := 37.
Definition S_BEFORE : N := 38.
Definition S_COLUMN : N := 39.
Definition S_CREATE : N := 40.
Definition S_DELETE : N := 41.
Definition S_DIRECT : N := 42.
Definition S_DOUBLE : N := 43.
Definition S_ESCAPE : N := 44.
Definition S_EXCEPT : N := 45.
Definition S_EXISTS : N := 46.
Definition S_EXTRACT : N := 47.
Definition S_CAST : N := 48.
Definition S_FORMAT : N := 49.
Definition S_GLOBAL : N := 50.
Definition S_HAVING : N := 51.
Definition S_IMPORT : N := 52.
Definition S_INSERT : N := 53.
Definition S_ISNULL : N := 54.
Definition S_OFFSET : N := 55.
Definition S_RENAME : N := 56.
Definition S_SCHEMA : N := 57.
Definition S_SELECT : N := 58.
Definition S_SORTED : N := 59.
Definition S_TABLES : N := 60.
Definition S_UNLOAD : N := 61.
Definition S_UPDATE : N := 62.
Definition S_VALUES : N := 63.
Definition S_AFTER : N := 64.
Definition S_ALTER : N := 65.
Definition S_CROSS : N := 66.
Definition S_DELTA : N := 67.
Definition S_FLOAT : N := 68.
Definition S_GROUP : N := 69.
Definition S_INDEX : N := 70.
Definition S_INNER : N := 71.
Definition S_LIMIT : N := 72.
Definition S_LOCAL : N := 73.
Definition S_MERGE : N := 74.
Definition S_MINUS : N := 75.
Definition S_ORDER : N := 76.
Definition S_OVER : N := 77.
Definition S_OUTER : N := 78.
Definition S_RIGHT : N := 79.
Definition S_TABLE : N := 80.
Definition S_UNION : N := 81.
Definition S_USING : N := 82.
Definition S_WHERE : N := 83.
Definition S_CALL : N := 84.
Definition S_CASE : N := 85.
Definition S_CHAR : N := 86.
Definition S_COPY : N := 87.
Definition S_DATE : N := 88.
Definition S_DATETIME : N := 89.
Definition S_DESC : N := 90.
Definition S_DROP : N := 91.
Definition S_ELSE : N := 92.
Definition S_FILE : N := 93.
Definition S_FROM : N := 94.
Definition S_FULL : N := 95.
Definition S_HASH : N := 96.
Definition S_HINT : N := 97.
Definition S_INTO : N := 98.
Definition S_JOIN : N := 99.
Definition S_LEFT : N := 100.
Definition S_LIKE : N := 101.
Definition S_LOAD : N := 102.
Definition S_LONG : N := 103.
Definition S_NULL : N := 104.
Definition S_PARTITION : N := 105.
Definition S_PLAN : N := 106.
Definition S_SHOW : N := 107.
Definition S_TEXT : N := 108.
Definition S_THEN : N := 109.
Definition S_TIME : N := 110.
Definition S_VIEW : N := 111.
Definition S_WHEN : N := 112.
Definition S_WITH : N := 113.
Definition S_ADD : N := 114.
Definition S_ALL : N := 115.
Definition S_AND : N := 116.
Definition S_ASC : N := 117.
Definition S_END : N := 118.
Definition S_FOR : N := 119.
Definition S_INT : N := 120.
Definition S_NOT : N := 121.
Definition S_OFF : N := 122.
Definition S_SET : N := 123.
Definition S_TOP : N := 124.
Definition S_AS : N := 125.
Definition S_BY : N := 126.
Definition S_IF : N := 127.
Definition S_IN : N := 128.
Definition S_IS : N := 129.
Definition S_OF : N := 130.
Definition S_ON : N := 131.
Definition S_OR : N := 132.
Definition S_TO : N := 133.
Definition S_NO : N := 134.
Definition S_ARRAY : N := 135.
Definition S_CONCAT : N := 136.
Definition S_ILIKE : N := 137.
Definition S_SECOND : N := 138.
Definition S_MINUTE : N := 139.
Definition S_HOUR : N := 140.
Definition S_DAY : N := 141.
Definition S_MONTH : N := 142.
Definition S_YEAR : N := 143.
Definition S_SECONDS : N := 144.
Definition S_MINUTES : N := 145.
Definition S_HOURS : N := 146.
Definition S_DAYS : N := 147.
Definition S_MONTHS : N := 148.
Definition S_YEARS : N := 149.
Definition S_INTERVAL : N := 150.
Definition S_TRUE : N := 151.
Definition S_FALSE : N := 152.
Definition S_BOOLEAN : N := 153.
Definition S_TRANSACTION : N := 154.
Definition S_BEGIN : N := 155.
Definition S_COMMIT : N := 156.
Definition S_ROLLBACK : N := 157.
Definition S_NOWAIT : N := 158.
Definition S_SKIP : N := 159.
Definition S_LOCKED : N := 160.
Definition S_SHARE : N := 161.
Definition S_RANGE : N := 162.
Definition S_ROWS : N := 163.
Definition S_GROUPS : N := 164.
Definition S_UNBOUNDED : N := 165.
Definition S_FOLLOWING : N := 166.
Definition S_PRECEDING : N := 167.
Definition S_CURRENT_ROW : N := 168.
Definition S_UNIQUE : N := 169.
Definition S_PRIMARY : N := 170.
Definition S_FOREIGN : N := 171.
Definition S_KEY : N := 172.
Definition S_REFERENCES : N := 173.
Definition S_eq : N := 174.
Definition S_EQUALS : N := 175.
Definition S_NOTEQUALS : N := 176.
Definition S_lt : N := 177.
Definition S_gt : N := 178.
Definition S_LESS : N := 179.
Definition S_GREATER : N := 180.
Definition S_LESSEQ : N := 181.
Definition S_GREATEREQ : N := 182.
Definition S_NOTNULL : N := 183.
Definition S_plus : N := 184.
Definition S_minus : N := 185.
Definition S_star : N := 186.
Definition S_slash : N := 187.
Definition S_percent : N := 188.
Definition S_caret : N := 189.
Definition S_UMINUS : N := 190.
Definition S_lbrack : N := 191.
Definition S_rbrack : N := 192.
Definition S_lpar : N := 193.
Definition S_rpar : N := 194.
Definition S_dot : N := 195.
Definition S_semi : N := 196.
Definition S_comma : N := 197.
Definition S_qmark : N := 198.
Definition S_accept_ : N := 199.
Definition S_input : N := 200.
Definition S_statement_list : N := 201.
Definition S_statement : N := 202.
Definition S_preparable_statement : N := 203.
Definition S_opt_hints : N := 204.
Definition S_hint_list : N := 205.
Definition S_hint : N := 206.
Definition S_transaction_statement : N := 207.
Definition S_opt_transaction_keyword : N := 208.
Definition S_prepare_statement : N := 209.
Definition S_prepare_target_query : N := 210.
Definition S_execute_statement : N := 211.
Definition S_import_statement : N := 212.
Definition S_file_type : N := 213.
Definition S_file_path : N := 214.
Definition S_opt_import_export_options : N := 215.
Definition S_import_export_options : N := 216.
Definition S_csv_option : N := 217.
Definition S_export_statement : N := 218.
Definition S_show_statement : N := 219.
Definition S_create_statement : N := 220.
Definition S_opt_not_exists : N := 221.
Definition S_table_elem_commalist : N := 222.
Definition S_table_elem : N := 223.
Definition S_column_def : N := 224.
Definition S_column_type : N := 225.
Definition S_opt_time_precision : N := 226.
Definition S_opt_decimal_specification : N := 227.
Definition S_opt_column_constraints : N := 228.
Definition S_column_constraints : N := 229.
Definition S_column_constraint : N := 230.
Definition S_table_constraint : N := 231.
Definition S_references_spec : N := 232.
Definition S_drop_statement : N := 233.
Definition S_opt_exists : N := 234.
Definition S_alter_statement : N := 235.
Definition S_alter_action : N := 236.
Definition S_drop_action : N := 237.
Definition S_delete_statement : N := 238.
Definition S_truncate_statement : N := 239.
Definition S_insert_statement : N := 240.
Definition S_opt_column_list : N := 241.
Definition S_update_statement : N := 242.
Definition S_update_clause_commalist : N := 243.
Definition S_update_clause : N := 244.
Definition S_select_statement : N := 245.
Definition S_select_within_set_operation : N := 246.
Definition S_select_within_set_operation_no_parentheses : N := 247.
Definition S_select_with_paren : N := 248.
Definition S_select_no_paren : N := 249.
Definition S_set_operator : N := 250.
Definition S_set_type : N := 251.
Definition S_opt_all : N := 252.
Definition S_select_clause : N := 253.
Definition S_opt_distinct : N := 254.
Definition S_select_list : N := 255.
Definition S_opt_from_clause : N := 256.
Definition S_from_clause : N := 257.
Definition S_opt_where : N := 258.
Definition S_opt_group : N := 259.
Definition S_opt_having : N := 260.
Definition S_opt_order : N := 261.
Definition S_order_list : N := 262.
Definition S_order_desc : N := 263.
Definition S_opt_order_type : N := 264.
Definition S_opt_null_ordering : N := 265.
Definition S_opt_top : N := 266.
Definition S_opt_limit : N := 267.
Definition S_expr_list : N := 268.
Definition S_opt_extended_literal_list : N := 269.
Definition S_extended_literal_list : N := 270.
Definition S_casted_extended_literal : N := 271.
Definition S_extended_literal : N := 272.
Definition S_expr_alias : N := 273.
Definition S_expr : N := 274.
Definition S_operand : N := 275.
Definition S_scalar_expr : N := 276.
Definition S_unary_expr : N := 277.
Definition S_binary_expr : N := 278.
Definition S_logic_expr : N := 279.
Definition S_in_expr : N := 280.
Definition S_case_expr : N := 281.
Definition S_case_list : N := 282.
Definition S_exists_expr : N := 283.
Definition S_comp_expr : N := 284.
Definition S_function_expr : N := 285.
Definition S_opt_window : N := 286.
Definition S_opt_partition : N := 287.
Definition S_opt_frame_clause : N := 288.
Definition S_frame_type : N := 289.
Definition S_frame_bound : N := 290.
Definition S_extract_expr : N := 291.
Definition S_cast_expr : N := 292.
Definition S_datetime_field : N := 293.
Definition S_datetime_field_plural : N := 294.
Definition S_duration_field : N := 295.
Definition S_array_expr : N := 296.
Definition S_array_index : N := 297.
Definition S_between_expr : N := 298.
Definition S_column_name : N := 299.
Definition S_literal : N := 300.
Definition S_string_literal : N := 301.
Definition S_bool_literal : N := 302.
Definition S_num_literal : N := 303.
Definition S_int_literal : N := 304.
Definition S_null_literal : N := 305.
Definition S_date_literal : N := 306.
Definition S_interval_literal : N := 307.
Definition S_param_expr : N := 308.
Definition S_table_ref : N := 309.
Definition S_table_ref_atomic : N := 310.
Definition S_nonjoin_table_ref_atomic : N := 311.
Definition S_table_ref_commalist : N := 312.
Definition S_table_ref_name : N := 313.
Definition S_table_ref_name_no_alias : N := 314.
Definition S_table_name : N := 315.
Definition S_opt_index_name : N := 316.
Definition S_table_alias : N := 317.
Definition S_opt_table_alias : N := 318.
Definition S_alias : N := 319.
Definition S_opt_alias : N := 320.
Definition S_opt_locking_clause : N := 321.
Definition S_opt_locking_clause_list : N := 322.
Definition S_locking_clause : N := 323.
Definition S_row_lock_mode : N := 324.
Definition S_opt_row_lock_policy : N := 325.
Definition S_opt_with_clause : N := 326.
Definition S_with_clause : N := 327.
Definition S_with_description_list : N := 328.
Definition S_with_description : N := 329.
Definition S_join_clause : N := 330.
Definition S_opt_join_type : N := 331.
Definition S_join_condition : N := 332.
Definition S_opt_semicolon : N := 333.
Definition S_ident_commalist : N := 334.

(** yytname: /repo/src/parser/bison_parser.cpp:823 ff. *)
Definition yytname : list bytes := map la [
  "$end"%string;
  "error"%string;
  "$undefined"%string;
  "IDENTIFIER"%string;
  "STRING"%string;
  "FLOATVAL"%string;
  "INTVAL"%string;
  "DEALLOCATE"%string;
  "PARAMETERS"%string;
  "INTERSECT"%string;
  "TEMPORARY"%string;
  "TIMESTAMP"%string;
  "DISTINCT"%string;
  "NVARCHAR"%string;
  "RESTRICT"%string;
  "TRUNCATE"%string;
  "ANALYZE"%string;
  "BETWEEN"%string;
  "CASCADE"%string;
  "COLUMNS"%string;
  "CONTROL"%string;
  "DEFAULT"%string;
  "EXECUTE"%string;
  "EXPLAIN"%string;
  "ENCODING"%string;
  "INTEGER"%string;
  "NATURAL"%string;
  "PREPARE"%string;
  "SCHEMAS"%string;
  "CHARACTER_VARYING"%string;
  "REAL"%string;
  "DECIMAL"%string;
  "SMALLINT"%string;
  "BIGINT"%string;
  "SPATIAL"%string;
  "VARCHAR"%string;
  "VIRTUAL"%string;
  "DESCRIBE"%string;
  "BEFORE"%string;
  "COLUMN"%string;
  "CREATE"%string;
  "DELETE"%string;
  "DIRECT"%string;
  "DOUBLE"%string;
  "ESCAPE"%string;
  "EXCEPT"%string;
  "EXISTS"%string;
  "EXTRACT"%string;
  "CAST"%string;
  "FORMAT"%string;
  "GLOBAL"%string;
  "HAVING"%string;
  "IMPORT"%string;
  "INSERT"%string;
  "ISNULL"%string;
  "OFFSET"%string;
  "RENAME"%string;
  "SCHEMA"%string;
  "SELECT"%string;
  "SORTED"%string;
  "TABLES"%string;
  "UNLOAD"%string;
  "UPDATE"%string;
  "VALUES"%string;
  "AFTER"%string;
  "ALTER"%string;
  "CROSS"%string;
  "DELTA"%string;
  "FLOAT"%string;
  "GROUP"%string;
  "INDEX"%string;
  "INNER"%string;
  "LIMIT"%string;
  "LOCAL"%string;
  "MERGE"%string;
  "MINUS"%string;
  "ORDER"%string;
  "OVER"%string;
  "OUTER"%string;
  "RIGHT"%string;
  "TABLE"%string;
  "UNION"%string;
  "USING"%string;
  "WHERE"%string;
  "CALL"%string;
  "CASE"%string;
  "CHAR"%string;
  "COPY"%string;
  "DATE"%string;
  "DATETIME"%string;
  "DESC"%string;
  "DROP"%string;
  "ELSE"%string;
  "FILE"%string;
  "FROM"%string;
  "FULL"%string;
  "HASH"%string;
  "HINT"%string;
  "INTO"%string;
  "JOIN"%string;
  "LEFT"%string;
  "LIKE"%string;
  "LOAD"%string;
  "LONG"%string;
  "NULL"%string;
  "PARTITION"%string;
  "PLAN"%string;
  "SHOW"%string;
  "TEXT"%string;
  "THEN"%string;
  "TIME"%string;
  "VIEW"%string;
  "WHEN"%string;
  "WITH"%string;
  "ADD"%string;
  "ALL"%string;
  "AND"%string;
  "ASC"%string;
  "END"%string;
  "FOR"%string;
  "INT"%string;
  "NOT"%string;
  "OFF"%string;
  "SET"%string;
  "TOP"%string;
  "AS"%string;
  "BY"%string;
  "IF"%string;
  "IN"%string;
  "IS"%string;
  "OF"%string;
  "ON"%string;
  "OR"%string;
  "TO"%string;
  "NO"%string;
  "ARRAY"%string;
  "CONCAT"%string;
  "ILIKE"%string;
  "SECOND"%string;
  "MINUTE"%string;
  "HOUR"%string;
  "DAY"%string;
  "MONTH"%string;
  "YEAR"%string;
  "SECONDS"%string;
  "MINUTES"%string;
  "HOURS"%string;
  "DAYS"%string;
  "MONTHS"%string;
  "YEARS"%string;
  "INTERVAL"%string;
  "TRUE"%string;
  "FALSE"%string;
  "BOOLEAN"%string;
  "TRANSACTION"%string;
  "BEGIN"%string;
  "COMMIT"%string;
  "ROLLBACK"%string;
  "NOWAIT"%string;
  "SKIP"%string;
  "LOCKED"%string;
  "SHARE"%string;
  "RANGE"%string;
  "ROWS"%string;
  "GROUPS"%string;
  "UNBOUNDED"%string;
  "FOLLOWING"%string;
  "PRECEDING"%string;
  "CURRENT_ROW"%string;
  "UNIQUE"%string;
  "PRIMARY"%string;
  "FOREIGN"%string;
  "KEY"%string;
  "REFERENCES"%string;
  "'='"%string;
  "EQUALS"%string;
  "NOTEQUALS"%string;
  "'<'"%string;
  "'>'"%string;
  "LESS"%string;
  "GREATER"%string;
  "LESSEQ"%string;
  "GREATEREQ"%string;
  "NOTNULL"%string;
  "'+'"%string;
  "'-'"%string;
  "'*'"%string;
  "'/'"%string;
  "'%'"%string;
  "'^'"%string;
  "UMINUS"%string;
  "'['"%string;
  "']'"%string;
  "'('"%string;
  "')'"%string;
  "'.'"%string;
  "';'"%string;
  "','"%string;
  "'?'"%string;
  "$accept"%string;
  "input"%string;
  "statement_list"%string;
  "statement"%string;
  "preparable_statement"%string;
  "opt_hints"%string;
  "hint_list"%string;
  "hint"%string;
  "transaction_statement"%string;
  "opt_transaction_keyword"%string;
  "prepare_statement"%string;
  "prepare_target_query"%string;
  "execute_statement"%string;
  "import_statement"%string;
  "file_type"%string;
  "file_path"%string;
  "opt_import_export_options"%string;
  "import_export_options"%string;
  "csv_option"%string;
  "export_statement"%string;
  "show_statement"%string;
  "create_statement"%string;
  "opt_not_exists"%string;
  "table_elem_commalist"%string;
  "table_elem"%string;
  "column_def"%string;
  "column_type"%string;
  "opt_time_precision"%string;
  "opt_decimal_specification"%string;
  "opt_column_constraints"%string;
  "column_constraints"%string;
  "column_constraint"%string;
  "table_constraint"%string;
  "references_spec"%string;
  "drop_statement"%string;
  "opt_exists"%string;
  "alter_statement"%string;
  "alter_action"%string;
  "drop_action"%string;
  "delete_statement"%string;
  "truncate_statement"%string;
  "insert_statement"%string;
  "opt_column_list"%string;
  "update_statement"%string;
  "update_clause_commalist"%string;
  "update_clause"%string;
  "select_statement"%string;
  "select_within_set_operation"%string;
  "select_within_set_operation_no_parentheses"%string;
  "select_with_paren"%string;
  "select_no_paren"%string;
  "set_operator"%string;
  "set_type"%string;
  "opt_all"%string;
  "select_clause"%string;
  "opt_distinct"%string;
  "select_list"%string;
  "opt_from_clause"%string;
  "from_clause"%string;
  "opt_where"%string;
  "opt_group"%string;
  "opt_having"%string;
  "opt_order"%string;
  "order_list"%string;
  "order_desc"%string;
  "opt_order_type"%string;
  "opt_null_ordering"%string;
  "opt_top"%string;
  "opt_limit"%string;
  "expr_list"%string;
  "opt_extended_literal_list"%string;
  "extended_literal_list"%string;
  "casted_extended_literal"%string;
  "extended_literal"%string;
  "expr_alias"%string;
  "expr"%string;
  "operand"%string;
  "scalar_expr"%string;
  "unary_expr"%string;
  "binary_expr"%string;
  "logic_expr"%string;
  "in_expr"%string;
  "case_expr"%string;
  "case_list"%string;
  "exists_expr"%string;
  "comp_expr"%string;
  "function_expr"%string;
  "opt_window"%string;
  "opt_partition"%string;
  "opt_frame_clause"%string;
  "frame_type"%string;
  "frame_bound"%string;
  "extract_expr"%string;
  "cast_expr"%string;
  "datetime_field"%string;
  "datetime_field_plural"%string;
  "duration_field"%string;
  "array_expr"%string;
  "array_index"%string;
  "between_expr"%string;
  "column_name"%string;
  "literal"%string;
  "string_literal"%string;
  "bool_literal"%string;
  "num_literal"%string;
  "int_literal"%string;
  "null_literal"%string;
  "date_literal"%string;
  "interval_literal"%string;
  "param_expr"%string;
  "table_ref"%string;
  "table_ref_atomic"%string;
  "nonjoin_table_ref_atomic"%string;
  "table_ref_commalist"%string;
  "table_ref_name"%string;
  "table_ref_name_no_alias"%string;
  "table_name"%string;
  "opt_index_name"%string;
  "table_alias"%string;
  "opt_table_alias"%string;
  "alias"%string;
  "opt_alias"%string;
  "opt_locking_clause"%string;
  "opt_locking_clause_list"%string;
  "locking_clause"%string;
  "row_lock_mode"%string;
  "opt_row_lock_policy"%string;
  "opt_with_clause"%string;
  "with_clause"%string;
  "with_description_list"%string;
  "with_description"%string;
  "join_clause"%string;
  "opt_join_type"%string;
  "join_condition"%string;
  "opt_semicolon"%string;
  "ident_commalist"%string].
