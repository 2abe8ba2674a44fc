(** GENERATED by tools/gen_lexspec.py.  Specification: the rules of /repo/src/parser/flex_lexer.l:59-286 in their order, as
    regular expressions.  %option case-insensitive is part of [Word]/[Letter]. *)
From Verif Require Import Base Regex.
Local Open Scope Z_scope.

(** Where a rule applies: rules without a prefix everywhere except in the exclusive condition singlequotedstring
    (flex_lexer.l:24 %x, :50 %s). *)
Inductive where_ := Normal | CommentOnly | StringOnly.
Definition flex_rules : list (Z * (where_ * rx)) := [
  (1, (Normal, (Word (la "--")))); (* flex_lexer.l:59 *)
  (2, (CommentOnly, (Star (Cls true [(10, 10)])))); (* flex_lexer.l:60 *)
  (3, (CommentOnly, (Chr LF))); (* flex_lexer.l:61 *)
  (4, (Normal, (Plus Blank))); (* flex_lexer.l:63 *)
  (5, (Normal, (Word (la "ADD")))); (* flex_lexer.l:65 *)
  (6, (Normal, (Word (la "AFTER")))); (* flex_lexer.l:66 *)
  (7, (Normal, (Word (la "ALL")))); (* flex_lexer.l:67 *)
  (8, (Normal, (Word (la "ALTER")))); (* flex_lexer.l:68 *)
  (9, (Normal, (Word (la "ANALYZE")))); (* flex_lexer.l:69 *)
  (10, (Normal, (Word (la "AND")))); (* flex_lexer.l:70 *)
  (11, (Normal, (Word (la "ARRAY")))); (* flex_lexer.l:71 *)
  (12, (Normal, (Word (la "AS")))); (* flex_lexer.l:72 *)
  (13, (Normal, (Word (la "ASC")))); (* flex_lexer.l:73 *)
  (14, (Normal, (Word (la "BEFORE")))); (* flex_lexer.l:74 *)
  (15, (Normal, (Word (la "BEGIN")))); (* flex_lexer.l:75 *)
  (16, (Normal, (Word (la "BETWEEN")))); (* flex_lexer.l:76 *)
  (17, (Normal, (Word (la "BIGINT")))); (* flex_lexer.l:77 *)
  (18, (Normal, (Word (la "BOOLEAN")))); (* flex_lexer.l:78 *)
  (19, (Normal, (Word (la "BY")))); (* flex_lexer.l:79 *)
  (20, (Normal, (Word (la "CALL")))); (* flex_lexer.l:80 *)
  (21, (Normal, (Word (la "CASCADE")))); (* flex_lexer.l:81 *)
  (22, (Normal, (Word (la "CASE")))); (* flex_lexer.l:82 *)
  (23, (Normal, (Word (la "CAST")))); (* flex_lexer.l:83 *)
  (24, (Normal, (Word (la "CHAR")))); (* flex_lexer.l:84 *)
  (25, (Normal, (Word (la "COLUMN")))); (* flex_lexer.l:85 *)
  (26, (Normal, (Word (la "COLUMNS")))); (* flex_lexer.l:86 *)
  (27, (Normal, (Word (la "COMMIT")))); (* flex_lexer.l:87 *)
  (28, (Normal, (Word (la "CONTROL")))); (* flex_lexer.l:88 *)
  (29, (Normal, (Word (la "COPY")))); (* flex_lexer.l:89 *)
  (30, (Normal, (Word (la "CREATE")))); (* flex_lexer.l:90 *)
  (31, (Normal, (Word (la "CROSS")))); (* flex_lexer.l:91 *)
  (32, (Normal, (Word (la "DATE")))); (* flex_lexer.l:92 *)
  (33, (Normal, (Word (la "DATETIME")))); (* flex_lexer.l:93 *)
  (34, (Normal, (Word (la "DAY")))); (* flex_lexer.l:94 *)
  (35, (Normal, (Word (la "DAYS")))); (* flex_lexer.l:95 *)
  (36, (Normal, (Word (la "DEALLOCATE")))); (* flex_lexer.l:96 *)
  (37, (Normal, (Word (la "DECIMAL")))); (* flex_lexer.l:97 *)
  (38, (Normal, (Word (la "DEFAULT")))); (* flex_lexer.l:98 *)
  (39, (Normal, (Word (la "DELETE")))); (* flex_lexer.l:99 *)
  (40, (Normal, (Word (la "DELTA")))); (* flex_lexer.l:100 *)
  (41, (Normal, (Word (la "DESC")))); (* flex_lexer.l:101 *)
  (42, (Normal, (Word (la "DESCRIBE")))); (* flex_lexer.l:102 *)
  (43, (Normal, (Word (la "DIRECT")))); (* flex_lexer.l:103 *)
  (44, (Normal, (Word (la "DISTINCT")))); (* flex_lexer.l:104 *)
  (45, (Normal, (Word (la "DOUBLE")))); (* flex_lexer.l:105 *)
  (46, (Normal, (Word (la "DROP")))); (* flex_lexer.l:106 *)
  (47, (Normal, (Word (la "ELSE")))); (* flex_lexer.l:107 *)
  (48, (Normal, (Word (la "ENCODING")))); (* flex_lexer.l:108 *)
  (49, (Normal, (Word (la "END")))); (* flex_lexer.l:109 *)
  (50, (Normal, (Word (la "ESCAPE")))); (* flex_lexer.l:110 *)
  (51, (Normal, (Word (la "EXCEPT")))); (* flex_lexer.l:111 *)
  (52, (Normal, (Word (la "EXECUTE")))); (* flex_lexer.l:112 *)
  (53, (Normal, (Word (la "EXISTS")))); (* flex_lexer.l:113 *)
  (54, (Normal, (Word (la "EXPLAIN")))); (* flex_lexer.l:114 *)
  (55, (Normal, (Word (la "EXTRACT")))); (* flex_lexer.l:115 *)
  (56, (Normal, (Word (la "FALSE")))); (* flex_lexer.l:116 *)
  (57, (Normal, (Word (la "FILE")))); (* flex_lexer.l:117 *)
  (58, (Normal, (Word (la "FLOAT")))); (* flex_lexer.l:118 *)
  (59, (Normal, (Word (la "FOLLOWING")))); (* flex_lexer.l:119 *)
  (60, (Normal, (Word (la "FOR")))); (* flex_lexer.l:120 *)
  (61, (Normal, (Word (la "FOREIGN")))); (* flex_lexer.l:121 *)
  (62, (Normal, (Word (la "FORMAT")))); (* flex_lexer.l:122 *)
  (63, (Normal, (Word (la "FROM")))); (* flex_lexer.l:123 *)
  (64, (Normal, (Word (la "FULL")))); (* flex_lexer.l:124 *)
  (65, (Normal, (Word (la "GLOBAL")))); (* flex_lexer.l:125 *)
  (66, (Normal, (Word (la "GROUP")))); (* flex_lexer.l:126 *)
  (67, (Normal, (Word (la "GROUPS")))); (* flex_lexer.l:127 *)
  (68, (Normal, (Word (la "HASH")))); (* flex_lexer.l:128 *)
  (69, (Normal, (Word (la "HAVING")))); (* flex_lexer.l:129 *)
  (70, (Normal, (Word (la "HINT")))); (* flex_lexer.l:130 *)
  (71, (Normal, (Word (la "HOUR")))); (* flex_lexer.l:131 *)
  (72, (Normal, (Word (la "HOURS")))); (* flex_lexer.l:132 *)
  (73, (Normal, (Word (la "IF")))); (* flex_lexer.l:133 *)
  (74, (Normal, (Word (la "ILIKE")))); (* flex_lexer.l:134 *)
  (75, (Normal, (Word (la "IMPORT")))); (* flex_lexer.l:135 *)
  (76, (Normal, (Word (la "IN")))); (* flex_lexer.l:136 *)
  (77, (Normal, (Word (la "INDEX")))); (* flex_lexer.l:137 *)
  (78, (Normal, (Word (la "INNER")))); (* flex_lexer.l:138 *)
  (79, (Normal, (Word (la "INSERT")))); (* flex_lexer.l:139 *)
  (80, (Normal, (Word (la "INT")))); (* flex_lexer.l:140 *)
  (81, (Normal, (Word (la "INTEGER")))); (* flex_lexer.l:141 *)
  (82, (Normal, (Word (la "INTERSECT")))); (* flex_lexer.l:142 *)
  (83, (Normal, (Word (la "INTERVAL")))); (* flex_lexer.l:143 *)
  (84, (Normal, (Word (la "INTO")))); (* flex_lexer.l:144 *)
  (85, (Normal, (Word (la "IS")))); (* flex_lexer.l:145 *)
  (86, (Normal, (Word (la "ISNULL")))); (* flex_lexer.l:146 *)
  (87, (Normal, (Word (la "JOIN")))); (* flex_lexer.l:147 *)
  (88, (Normal, (Word (la "KEY")))); (* flex_lexer.l:148 *)
  (89, (Normal, (Word (la "LEFT")))); (* flex_lexer.l:149 *)
  (90, (Normal, (Word (la "LIKE")))); (* flex_lexer.l:150 *)
  (91, (Normal, (Word (la "LIMIT")))); (* flex_lexer.l:151 *)
  (92, (Normal, (Word (la "LOAD")))); (* flex_lexer.l:152 *)
  (93, (Normal, (Word (la "LOCAL")))); (* flex_lexer.l:153 *)
  (94, (Normal, (Word (la "LOCKED")))); (* flex_lexer.l:154 *)
  (95, (Normal, (Word (la "LONG")))); (* flex_lexer.l:155 *)
  (96, (Normal, (Word (la "MERGE")))); (* flex_lexer.l:156 *)
  (97, (Normal, (Word (la "MINUS")))); (* flex_lexer.l:157 *)
  (98, (Normal, (Word (la "MINUTE")))); (* flex_lexer.l:158 *)
  (99, (Normal, (Word (la "MINUTES")))); (* flex_lexer.l:159 *)
  (100, (Normal, (Word (la "MONTH")))); (* flex_lexer.l:160 *)
  (101, (Normal, (Word (la "MONTHS")))); (* flex_lexer.l:161 *)
  (102, (Normal, (Word (la "NATURAL")))); (* flex_lexer.l:162 *)
  (103, (Normal, (Word (la "NO")))); (* flex_lexer.l:163 *)
  (104, (Normal, (Word (la "NOT")))); (* flex_lexer.l:164 *)
  (105, (Normal, (Word (la "NOWAIT")))); (* flex_lexer.l:165 *)
  (106, (Normal, (Word (la "NULL")))); (* flex_lexer.l:166 *)
  (107, (Normal, (Word (la "NVARCHAR")))); (* flex_lexer.l:167 *)
  (108, (Normal, (Word (la "OF")))); (* flex_lexer.l:168 *)
  (109, (Normal, (Word (la "OFF")))); (* flex_lexer.l:169 *)
  (110, (Normal, (Word (la "OFFSET")))); (* flex_lexer.l:170 *)
  (111, (Normal, (Word (la "ON")))); (* flex_lexer.l:171 *)
  (112, (Normal, (Word (la "OR")))); (* flex_lexer.l:172 *)
  (113, (Normal, (Word (la "ORDER")))); (* flex_lexer.l:173 *)
  (114, (Normal, (Word (la "OUTER")))); (* flex_lexer.l:174 *)
  (115, (Normal, (Word (la "OVER")))); (* flex_lexer.l:175 *)
  (116, (Normal, (Word (la "PARAMETERS")))); (* flex_lexer.l:176 *)
  (117, (Normal, (Word (la "PARTITION")))); (* flex_lexer.l:177 *)
  (118, (Normal, (Word (la "PLAN")))); (* flex_lexer.l:178 *)
  (119, (Normal, (Word (la "PRECEDING")))); (* flex_lexer.l:179 *)
  (120, (Normal, (Word (la "PREPARE")))); (* flex_lexer.l:180 *)
  (121, (Normal, (Word (la "PRIMARY")))); (* flex_lexer.l:181 *)
  (122, (Normal, (Word (la "RANGE")))); (* flex_lexer.l:182 *)
  (123, (Normal, (Word (la "REAL")))); (* flex_lexer.l:183 *)
  (124, (Normal, (Word (la "REFERENCES")))); (* flex_lexer.l:184 *)
  (125, (Normal, (Word (la "RENAME")))); (* flex_lexer.l:185 *)
  (126, (Normal, (Word (la "RESTRICT")))); (* flex_lexer.l:186 *)
  (127, (Normal, (Word (la "RIGHT")))); (* flex_lexer.l:187 *)
  (128, (Normal, (Word (la "ROLLBACK")))); (* flex_lexer.l:188 *)
  (129, (Normal, (Word (la "ROWS")))); (* flex_lexer.l:189 *)
  (130, (Normal, (Word (la "SCHEMA")))); (* flex_lexer.l:190 *)
  (131, (Normal, (Word (la "SCHEMAS")))); (* flex_lexer.l:191 *)
  (132, (Normal, (Word (la "SECOND")))); (* flex_lexer.l:192 *)
  (133, (Normal, (Word (la "SECONDS")))); (* flex_lexer.l:193 *)
  (134, (Normal, (Word (la "SELECT")))); (* flex_lexer.l:194 *)
  (135, (Normal, (Word (la "SET")))); (* flex_lexer.l:195 *)
  (136, (Normal, (Word (la "SHARE")))); (* flex_lexer.l:196 *)
  (137, (Normal, (Word (la "SHOW")))); (* flex_lexer.l:197 *)
  (138, (Normal, (Word (la "SKIP")))); (* flex_lexer.l:198 *)
  (139, (Normal, (Word (la "SMALLINT")))); (* flex_lexer.l:199 *)
  (140, (Normal, (Word (la "SORTED")))); (* flex_lexer.l:200 *)
  (141, (Normal, (Word (la "SPATIAL")))); (* flex_lexer.l:201 *)
  (142, (Normal, (Word (la "TABLE")))); (* flex_lexer.l:202 *)
  (143, (Normal, (Word (la "TABLES")))); (* flex_lexer.l:203 *)
  (144, (Normal, (Word (la "TEMPORARY")))); (* flex_lexer.l:204 *)
  (145, (Normal, (Word (la "TEXT")))); (* flex_lexer.l:205 *)
  (146, (Normal, (Word (la "THEN")))); (* flex_lexer.l:206 *)
  (147, (Normal, (Word (la "TIME")))); (* flex_lexer.l:207 *)
  (148, (Normal, (Word (la "TIMESTAMP")))); (* flex_lexer.l:208 *)
  (149, (Normal, (Word (la "TO")))); (* flex_lexer.l:209 *)
  (150, (Normal, (Word (la "TOP")))); (* flex_lexer.l:210 *)
  (151, (Normal, (Word (la "TRANSACTION")))); (* flex_lexer.l:211 *)
  (152, (Normal, (Word (la "TRUE")))); (* flex_lexer.l:212 *)
  (153, (Normal, (Word (la "TRUNCATE")))); (* flex_lexer.l:213 *)
  (154, (Normal, (Word (la "UNBOUNDED")))); (* flex_lexer.l:214 *)
  (155, (Normal, (Word (la "UNION")))); (* flex_lexer.l:215 *)
  (156, (Normal, (Word (la "UNIQUE")))); (* flex_lexer.l:216 *)
  (157, (Normal, (Word (la "UNLOAD")))); (* flex_lexer.l:217 *)
  (158, (Normal, (Word (la "UPDATE")))); (* flex_lexer.l:218 *)
  (159, (Normal, (Word (la "USING")))); (* flex_lexer.l:219 *)
  (160, (Normal, (Word (la "VALUES")))); (* flex_lexer.l:220 *)
  (161, (Normal, (Word (la "VARCHAR")))); (* flex_lexer.l:221 *)
  (162, (Normal, (Word (la "VIEW")))); (* flex_lexer.l:222 *)
  (163, (Normal, (Word (la "VIRTUAL")))); (* flex_lexer.l:223 *)
  (164, (Normal, (Word (la "WHEN")))); (* flex_lexer.l:224 *)
  (165, (Normal, (Word (la "WHERE")))); (* flex_lexer.l:225 *)
  (166, (Normal, (Word (la "WITH")))); (* flex_lexer.l:226 *)
  (167, (Normal, (Word (la "YEAR")))); (* flex_lexer.l:227 *)
  (168, (Normal, (Word (la "YEARS")))); (* flex_lexer.l:228 *)
  (169, (Normal, (Cat (Word (la "CURRENT")) (Cat (Plus Blank) (Word (la "ROW")))))); (* flex_lexer.l:230 *)
  (170, (Normal, (Cat (Word (la "CHARACTER")) (Cat (Plus Blank) (Word (la "VARYING")))))); (* flex_lexer.l:231 *)
  (171, (Normal, (Word (la "==")))); (* flex_lexer.l:234 *)
  (172, (Normal, (Word (la "!=")))); (* flex_lexer.l:235 *)
  (173, (Normal, (Word (la "<>")))); (* flex_lexer.l:236 *)
  (174, (Normal, (Word (la "<=")))); (* flex_lexer.l:237 *)
  (175, (Normal, (Word (la ">=")))); (* flex_lexer.l:238 *)
  (176, (Normal, (Word (la "||")))); (* flex_lexer.l:239 *)
  (177, (Normal, (Cls false [(45, 45); (43, 43); (42, 42); (47, 47); (40, 40); (41, 41); (123, 123); (125, 125); (44, 44); (46, 46); (59, 59); (60, 60); (62, 62); (61, 61); (94, 94); (37, 37); (58, 58); (63, 63); (91, 91); (93, 93); (124, 124)]))); (* flex_lexer.l:241 *)
  (178, (Normal, (Cat (Plus Digit) (Cat (Chr "."%char) (Star Digit))))); (* flex_lexer.l:243 *)
  (179, (Normal, (Cat (Chr "."%char) (Star Digit)))); (* flex_lexer.l:244 *)
  (180, (Normal, (Word (la "-9223372036854775808")))); (* flex_lexer.l:254 *)
  (181, (Normal, (Plus Digit))); (* flex_lexer.l:259 *)
  (182, (Normal, (Cat (Chr """"%char) (Cat (Plus (Cls true [(34, 34); (10, 10)])) (Chr """"%char))))); (* flex_lexer.l:269 *)
  (183, (Normal, (Cat (Cls false [(65, 90); (97, 122)]) (Star (Cls false [(65, 90); (97, 122); (48, 57); (95, 95)]))))); (* flex_lexer.l:275 *)
  (184, (Normal, (Chr "'"%char))); (* flex_lexer.l:280 *)
  (185, (StringOnly, (Cat (Chr "'"%char) (Chr "'"%char)))); (* flex_lexer.l:281 *)
  (186, (StringOnly, (Star (Cls true [(39, 39)])))); (* flex_lexer.l:282 *)
  (187, (StringOnly, (Chr "'"%char))); (* flex_lexer.l:283 *)
  (188, (Normal, Any)); (* flex_lexer.l:286 *)
  (189, (Normal, Alt Any (Chr LF))); (189, (StringOnly, Alt Any (Chr LF))) (* the default rule of flex: any byte *)
].
