(** GENERATED by tools/gen_tables.py: the rules of the form TOKEN(name) (= "return SQL_name") of the action switch in
    /repo/src/parser/flex_lexer.cpp:3229-4222. *)
From Verif Require Import Base TokenCodes.

Definition token_rules : list (Z * Z) := [
  (5, TOK_ADD); (* flex_lexer.cpp:3267 *)
  (6, TOK_AFTER); (* flex_lexer.cpp:3272 *)
  (7, TOK_ALL); (* flex_lexer.cpp:3277 *)
  (8, TOK_ALTER); (* flex_lexer.cpp:3282 *)
  (9, TOK_ANALYZE); (* flex_lexer.cpp:3287 *)
  (10, TOK_AND); (* flex_lexer.cpp:3292 *)
  (11, TOK_ARRAY); (* flex_lexer.cpp:3297 *)
  (12, TOK_AS); (* flex_lexer.cpp:3302 *)
  (13, TOK_ASC); (* flex_lexer.cpp:3307 *)
  (14, TOK_BEFORE); (* flex_lexer.cpp:3312 *)
  (15, TOK_BEGIN); (* flex_lexer.cpp:3317 *)
  (16, TOK_BETWEEN); (* flex_lexer.cpp:3322 *)
  (17, TOK_BIGINT); (* flex_lexer.cpp:3327 *)
  (18, TOK_BOOLEAN); (* flex_lexer.cpp:3332 *)
  (19, TOK_BY); (* flex_lexer.cpp:3337 *)
  (20, TOK_CALL); (* flex_lexer.cpp:3342 *)
  (21, TOK_CASCADE); (* flex_lexer.cpp:3347 *)
  (22, TOK_CASE); (* flex_lexer.cpp:3352 *)
  (23, TOK_CAST); (* flex_lexer.cpp:3357 *)
  (24, TOK_CHAR); (* flex_lexer.cpp:3362 *)
  (25, TOK_COLUMN); (* flex_lexer.cpp:3367 *)
  (26, TOK_COLUMNS); (* flex_lexer.cpp:3372 *)
  (27, TOK_COMMIT); (* flex_lexer.cpp:3377 *)
  (28, TOK_CONTROL); (* flex_lexer.cpp:3382 *)
  (29, TOK_COPY); (* flex_lexer.cpp:3387 *)
  (30, TOK_CREATE); (* flex_lexer.cpp:3392 *)
  (31, TOK_CROSS); (* flex_lexer.cpp:3397 *)
  (32, TOK_DATE); (* flex_lexer.cpp:3402 *)
  (33, TOK_DATETIME); (* flex_lexer.cpp:3407 *)
  (34, TOK_DAY); (* flex_lexer.cpp:3412 *)
  (35, TOK_DAYS); (* flex_lexer.cpp:3417 *)
  (36, TOK_DEALLOCATE); (* flex_lexer.cpp:3422 *)
  (37, TOK_DECIMAL); (* flex_lexer.cpp:3427 *)
  (38, TOK_DEFAULT); (* flex_lexer.cpp:3432 *)
  (39, TOK_DELETE); (* flex_lexer.cpp:3437 *)
  (40, TOK_DELTA); (* flex_lexer.cpp:3442 *)
  (41, TOK_DESC); (* flex_lexer.cpp:3447 *)
  (42, TOK_DESCRIBE); (* flex_lexer.cpp:3452 *)
  (43, TOK_DIRECT); (* flex_lexer.cpp:3457 *)
  (44, TOK_DISTINCT); (* flex_lexer.cpp:3462 *)
  (45, TOK_DOUBLE); (* flex_lexer.cpp:3467 *)
  (46, TOK_DROP); (* flex_lexer.cpp:3472 *)
  (47, TOK_ELSE); (* flex_lexer.cpp:3477 *)
  (48, TOK_ENCODING); (* flex_lexer.cpp:3482 *)
  (49, TOK_END); (* flex_lexer.cpp:3487 *)
  (50, TOK_ESCAPE); (* flex_lexer.cpp:3492 *)
  (51, TOK_EXCEPT); (* flex_lexer.cpp:3497 *)
  (52, TOK_EXECUTE); (* flex_lexer.cpp:3502 *)
  (53, TOK_EXISTS); (* flex_lexer.cpp:3507 *)
  (54, TOK_EXPLAIN); (* flex_lexer.cpp:3512 *)
  (55, TOK_EXTRACT); (* flex_lexer.cpp:3517 *)
  (56, TOK_FALSE); (* flex_lexer.cpp:3522 *)
  (57, TOK_FILE); (* flex_lexer.cpp:3527 *)
  (58, TOK_FLOAT); (* flex_lexer.cpp:3532 *)
  (59, TOK_FOLLOWING); (* flex_lexer.cpp:3537 *)
  (60, TOK_FOR); (* flex_lexer.cpp:3542 *)
  (61, TOK_FOREIGN); (* flex_lexer.cpp:3547 *)
  (62, TOK_FORMAT); (* flex_lexer.cpp:3552 *)
  (63, TOK_FROM); (* flex_lexer.cpp:3557 *)
  (64, TOK_FULL); (* flex_lexer.cpp:3562 *)
  (65, TOK_GLOBAL); (* flex_lexer.cpp:3567 *)
  (66, TOK_GROUP); (* flex_lexer.cpp:3572 *)
  (67, TOK_GROUPS); (* flex_lexer.cpp:3577 *)
  (68, TOK_HASH); (* flex_lexer.cpp:3582 *)
  (69, TOK_HAVING); (* flex_lexer.cpp:3587 *)
  (70, TOK_HINT); (* flex_lexer.cpp:3592 *)
  (71, TOK_HOUR); (* flex_lexer.cpp:3597 *)
  (72, TOK_HOURS); (* flex_lexer.cpp:3602 *)
  (73, TOK_IF); (* flex_lexer.cpp:3607 *)
  (74, TOK_ILIKE); (* flex_lexer.cpp:3612 *)
  (75, TOK_IMPORT); (* flex_lexer.cpp:3617 *)
  (76, TOK_IN); (* flex_lexer.cpp:3622 *)
  (77, TOK_INDEX); (* flex_lexer.cpp:3627 *)
  (78, TOK_INNER); (* flex_lexer.cpp:3632 *)
  (79, TOK_INSERT); (* flex_lexer.cpp:3637 *)
  (80, TOK_INT); (* flex_lexer.cpp:3642 *)
  (81, TOK_INTEGER); (* flex_lexer.cpp:3647 *)
  (82, TOK_INTERSECT); (* flex_lexer.cpp:3652 *)
  (83, TOK_INTERVAL); (* flex_lexer.cpp:3657 *)
  (84, TOK_INTO); (* flex_lexer.cpp:3662 *)
  (85, TOK_IS); (* flex_lexer.cpp:3667 *)
  (86, TOK_ISNULL); (* flex_lexer.cpp:3672 *)
  (87, TOK_JOIN); (* flex_lexer.cpp:3677 *)
  (88, TOK_KEY); (* flex_lexer.cpp:3682 *)
  (89, TOK_LEFT); (* flex_lexer.cpp:3687 *)
  (90, TOK_LIKE); (* flex_lexer.cpp:3692 *)
  (91, TOK_LIMIT); (* flex_lexer.cpp:3697 *)
  (92, TOK_LOAD); (* flex_lexer.cpp:3702 *)
  (93, TOK_LOCAL); (* flex_lexer.cpp:3707 *)
  (94, TOK_LOCKED); (* flex_lexer.cpp:3712 *)
  (95, TOK_LONG); (* flex_lexer.cpp:3717 *)
  (96, TOK_MERGE); (* flex_lexer.cpp:3722 *)
  (97, TOK_MINUS); (* flex_lexer.cpp:3727 *)
  (98, TOK_MINUTE); (* flex_lexer.cpp:3732 *)
  (99, TOK_MINUTES); (* flex_lexer.cpp:3737 *)
  (100, TOK_MONTH); (* flex_lexer.cpp:3742 *)
  (101, TOK_MONTHS); (* flex_lexer.cpp:3747 *)
  (102, TOK_NATURAL); (* flex_lexer.cpp:3752 *)
  (103, TOK_NO); (* flex_lexer.cpp:3757 *)
  (104, TOK_NOT); (* flex_lexer.cpp:3762 *)
  (105, TOK_NOWAIT); (* flex_lexer.cpp:3767 *)
  (106, TOK_NULL); (* flex_lexer.cpp:3772 *)
  (107, TOK_NVARCHAR); (* flex_lexer.cpp:3777 *)
  (108, TOK_OF); (* flex_lexer.cpp:3782 *)
  (109, TOK_OFF); (* flex_lexer.cpp:3787 *)
  (110, TOK_OFFSET); (* flex_lexer.cpp:3792 *)
  (111, TOK_ON); (* flex_lexer.cpp:3797 *)
  (112, TOK_OR); (* flex_lexer.cpp:3802 *)
  (113, TOK_ORDER); (* flex_lexer.cpp:3807 *)
  (114, TOK_OUTER); (* flex_lexer.cpp:3812 *)
  (115, TOK_OVER); (* flex_lexer.cpp:3817 *)
  (116, TOK_PARAMETERS); (* flex_lexer.cpp:3822 *)
  (117, TOK_PARTITION); (* flex_lexer.cpp:3827 *)
  (118, TOK_PLAN); (* flex_lexer.cpp:3832 *)
  (119, TOK_PRECEDING); (* flex_lexer.cpp:3837 *)
  (120, TOK_PREPARE); (* flex_lexer.cpp:3842 *)
  (121, TOK_PRIMARY); (* flex_lexer.cpp:3847 *)
  (122, TOK_RANGE); (* flex_lexer.cpp:3852 *)
  (123, TOK_REAL); (* flex_lexer.cpp:3857 *)
  (124, TOK_REFERENCES); (* flex_lexer.cpp:3862 *)
  (125, TOK_RENAME); (* flex_lexer.cpp:3867 *)
  (126, TOK_RESTRICT); (* flex_lexer.cpp:3872 *)
  (127, TOK_RIGHT); (* flex_lexer.cpp:3877 *)
  (128, TOK_ROLLBACK); (* flex_lexer.cpp:3882 *)
  (129, TOK_ROWS); (* flex_lexer.cpp:3887 *)
  (130, TOK_SCHEMA); (* flex_lexer.cpp:3892 *)
  (131, TOK_SCHEMAS); (* flex_lexer.cpp:3897 *)
  (132, TOK_SECOND); (* flex_lexer.cpp:3902 *)
  (133, TOK_SECONDS); (* flex_lexer.cpp:3907 *)
  (134, TOK_SELECT); (* flex_lexer.cpp:3912 *)
  (135, TOK_SET); (* flex_lexer.cpp:3917 *)
  (136, TOK_SHARE); (* flex_lexer.cpp:3922 *)
  (137, TOK_SHOW); (* flex_lexer.cpp:3927 *)
  (138, TOK_SKIP); (* flex_lexer.cpp:3932 *)
  (139, TOK_SMALLINT); (* flex_lexer.cpp:3937 *)
  (140, TOK_SORTED); (* flex_lexer.cpp:3942 *)
  (141, TOK_SPATIAL); (* flex_lexer.cpp:3947 *)
  (142, TOK_TABLE); (* flex_lexer.cpp:3952 *)
  (143, TOK_TABLES); (* flex_lexer.cpp:3957 *)
  (144, TOK_TEMPORARY); (* flex_lexer.cpp:3962 *)
  (145, TOK_TEXT); (* flex_lexer.cpp:3967 *)
  (146, TOK_THEN); (* flex_lexer.cpp:3972 *)
  (147, TOK_TIME); (* flex_lexer.cpp:3977 *)
  (148, TOK_TIMESTAMP); (* flex_lexer.cpp:3982 *)
  (149, TOK_TO); (* flex_lexer.cpp:3987 *)
  (150, TOK_TOP); (* flex_lexer.cpp:3992 *)
  (151, TOK_TRANSACTION); (* flex_lexer.cpp:3997 *)
  (152, TOK_TRUE); (* flex_lexer.cpp:4002 *)
  (153, TOK_TRUNCATE); (* flex_lexer.cpp:4007 *)
  (154, TOK_UNBOUNDED); (* flex_lexer.cpp:4012 *)
  (155, TOK_UNION); (* flex_lexer.cpp:4017 *)
  (156, TOK_UNIQUE); (* flex_lexer.cpp:4022 *)
  (157, TOK_UNLOAD); (* flex_lexer.cpp:4027 *)
  (158, TOK_UPDATE); (* flex_lexer.cpp:4032 *)
  (159, TOK_USING); (* flex_lexer.cpp:4037 *)
  (160, TOK_VALUES); (* flex_lexer.cpp:4042 *)
  (161, TOK_VARCHAR); (* flex_lexer.cpp:4047 *)
  (162, TOK_VIEW); (* flex_lexer.cpp:4052 *)
  (163, TOK_VIRTUAL); (* flex_lexer.cpp:4057 *)
  (164, TOK_WHEN); (* flex_lexer.cpp:4062 *)
  (165, TOK_WHERE); (* flex_lexer.cpp:4067 *)
  (166, TOK_WITH); (* flex_lexer.cpp:4072 *)
  (167, TOK_YEAR); (* flex_lexer.cpp:4077 *)
  (168, TOK_YEARS); (* flex_lexer.cpp:4082 *)
  (169, TOK_CURRENT_ROW); (* flex_lexer.cpp:4087 *)
  (170, TOK_CHARACTER_VARYING); (* flex_lexer.cpp:4093 *)
  (171, TOK_EQUALS); (* flex_lexer.cpp:4100 *)
  (172, TOK_NOTEQUALS); (* flex_lexer.cpp:4105 *)
  (173, TOK_NOTEQUALS); (* flex_lexer.cpp:4110 *)
  (174, TOK_LESSEQ); (* flex_lexer.cpp:4115 *)
  (175, TOK_GREATEREQ); (* flex_lexer.cpp:4120 *)
  (176, TOK_CONCAT) (* flex_lexer.cpp:4125 *)
].
