(** GENERATED by tools/gen_items.py.  Certificate: LALR(1) items (production, dot, number of the lookahead set) of each state,
    lookahead sets and FIRST sets as bit sets over the terminals, nullable nonterminals.  Nothing here is trusted: Complete.v
    re-checks every use in the kernel. *)
From Verif Require Import Base.
Local Open Scope N_scope.

Definition la_list : list N := [
  0x0;
  0x1;
  0x8;
  0x8400000000000000;
  0x80000000000000000000000;
  0x200000000000000000000000;
  0x400000000000000000000000;
  0x4000000000000000000000000;
  0x8000000000000000000000000;
  0x100000000000000000000000000000;
  0x410000100000000000000000000000;
  0x8000000000000000000000000000000;
  0x20000000000000000000000000000000;
  0x800000000000000000000000000000000;
  0x800000000000000000000000000000008;
  0x8000000188004c0840000000004000000;
  0x8200000188004c0840000000004000008;
  0x1000102000000000000000000000000000;
  0x1000110000000000000000000000000000;
  0x1000500000000000000000000000000000;
  0x1000510000100000000000000000000000;
  0x1020100000000000000000000000000000;
  0x2000000000000000000000000000000000;
  0x2000000000400000000000000000000000;
  0x1200000000000000000000000000000000000020040;
  0xbf67c0000000030202100020000000000040000000000000;
  0xbf67c0000000031302102020000000000040000000020000;
  0xbf67c0000000031302110020000000000040000000020000;
  0xbf67c0000000031302500020000000000040000000020000;
  0xbf67c0000000031302510020100000000040000000020000;
  0xbf67c0000000031322100020000000000040000000020000;
  0x1000000000000000000000000000000000000000000000000;
  0x2000000000000000000000000000000000000000000000000;
  0x2000000000000000000000000000000000400000000000000;
  0x2000000000000000000000000000000008400000000000000;
  0x2000000000000000000080000000000000400000000000000;
  0x2000000000000000020000000000000000000000000000000;
  0x2000000000000000020000000400000000000000000000000;
  0x4000000000000000000000000000000000000000000000000;
  0x4000000000000000000100000000000000000000000000000;
  0x4000000000000000000800000000211000080200000000200;
  0x4000000000000001000100000000000000000000000000000;
  0x40000001c0000000000000000000000000000000000000000;
  0x40000001c0000000000000000000010000000000000000000;
  0x4bf67c0000000031302100020000000000040000000020000;
  0x10000000000000000000000000000000000000000000000001;
  0x10000000000000000000000000000800000000000000000001;
  0x10000000000000000000020000000000000000000000000001;
  0x10000000000000000000020000000800000000000000000001;
  0x10000000000000000000820000000211000080200000000201;
  0x12000000000000000000020000000000000000000000000001;
  0x12000000000000000000020000000800000000000000000001;
  0x12000000000000000000020004000800000000000000000001;
  0x14000000000000000000020000000000000000000000000001;
  0x14000000000000000000020000000001000080000000000001;
  0x14000000000000000000020000000011000080000000000001;
  0x14000000000000000000020000000200000000200000000201;
  0x14000000000000000000020000000211000080200000000201;
  0x14000000000000000000820000000000000000000000000001;
  0x14000000000000000000820000000001000080000000000001;
  0x14000000000000000000820000000011000080000000000001;
  0x14000000000000000000820000000211000080200000000201;
  0x14000000000000000000820000000211200080200000000201;
  0x14000000000000000000820000000a11200080200000000201;
  0x14000000000000000000820000400a11200080200000000201;
  0x14000000000000001000920000000000000000000000000001;
  0x14000000000000001000920000000000000080000000000001;
  0x14000000000000001000920000000211000080200000000201;
  0x14000000000000001000920000000211200080200000000201;
  0x1400000000c000000400820000000000000000000000000001;
  0x140000001c0000000000820000000001000080000000000001;
  0x14bf67c0000000031302920020000000000040000000020001;
  0x14bf67c00000000313029200200000000000c0000000020001;
  0x14bf67c00000000313029200200002110000c0200000020201;
  0x14bf67c00000000313029200200002112000c0200000020201;
  0x20000000000000000000000000000000000000000000000000;
  0x21000000000000000000000000000000000000000000000000;
  0x21000000000000001020100000000000000000000000000008;
  0x21bf67c0000000031322100020000000000040000000020008;
  0x22000000000000000000000000000000000400000000000000;
  0x24000000000000000000000000000000000000000000000000;
  0x24000000000000000000000000200000000000000000000000;
  0x24000000000000000020000000000000000000000000000000;
  0x24000000000000001020100000000000000000000000000008;
  0x240000001c0000000000000000000010000000000000000000;
  0x240000001c0000001020100000000010000000000000000008;
  0x24000026000000000002000100000000000000000000000000;
  0x24000026000000000022000100000000008400000000000000;
  0x24bf67c0000000031322100020000000000040000000020008;
  0x24bf67c01c0000031322100020000010000040000000020008;
  0x26000026000000000002000100000000000000000000000000;
  0x30000000000000000000020000000800000000000000000001;
  0x30000000000000001000120000000800000000000000000001;
  0x30bf67c0000000031302120020000800000040000000020001;
  0x34000000000000000000820000000211000088200000000201;
  0x34000000000000000000820000400a11200080200000000201;
  0x34000000000000000000820018800ad1a40080200004000201;
  0x34000000000000000020820018800ad1a40080200004000209;
  0x34000000000000000800820018800ed1a40080200004000201;
  0x34000000000000000820820018800ed1a40080200004000209;
  0x34000000000000001020920000000211000088200000000209;
  0x34000000000000001020920000400a11200080200000000209;
  0x34000000000000001800920018800ed1a40080200004000201;
  0x3400000000c000000000820000000000000000000000000001;
  0x340000001c0000000000820000000001000080000000000001;
  0x340000001c0000000000820000000001000080000000000009;
  0x340000001c0000001000b20000040001000080000000000009;
  0x34bf67c00000000313229200200002110000c8200000020209;
  0x34bf67c0000000031322920020400a112000c0200000020209;
  0x34bf67c0000000031b02920038800ed1a400c0200004020201;
  0x34bf67c01c0000031302b200200400010000c0000000020009;
  0x350000001c0000000000820000400a11200088200000000201;
  0x350000001c0000000800820018c00ed1a40088200004000201;
  0x350000001c0000001020920000400a11200088200000000209;
  0x350000001c0000001820f32018d40ed1a40088200004000209;
  0x35bf67c01c0000031322920020400a112000c8200000020209;
  0x35bf67c01c0000031a22f32038d40ed1a400c8200004000209;
  0x35bf67c01c0000031b22f32038d40ed1a400c8200004020209;
  0x36000000000000002000820000000211000480200000000201;
  0x3600002600000000282a820118c80ed1a48480200004000209;
  0x420600000001c0008002000100012000000001c00000000078;
  0x420600000001c0008002000100012000000001c00000001078;
  0x430600000001c0008002000100012000000001c00000001078].
Definition item_list : list (list (N * N * N)) := [
  [(1, 0, 0); (2, 0, 1); (3, 0, 45); (4, 0, 45); (5, 0, 45); (6, 0, 45); (7, 0, 45); (8, 0, 45); (9, 0, 45); (10, 0, 47); (11, 0, 47); (12, 0, 47); (13, 0, 47); (14, 0, 47); (15, 0, 47); (16, 0, 47); (17, 0, 47); (18, 0, 47); (19, 0, 47); (26, 0, 47); (27, 0, 47); (28, 0, 47); (31, 0, 47); (33, 0, 47); (34, 0, 47); (35, 0, 45); (36, 0, 45); (50, 0, 45); (51, 0, 45); (52, 0, 45); (53, 0, 45); (54, 0, 45); (55, 0, 47); (56, 0, 47); (57, 0, 47); (58, 0, 47); (59, 0, 47); (104, 0, 47); (105, 0, 47); (106, 0, 47); (107, 0, 47); (110, 0, 47); (113, 0, 47); (114, 0, 47); (115, 0, 47); (116, 0, 47); (119, 0, 47); (123, 0, 47); (124, 0, 47); (125, 0, 47); (334, 0, 33); (335, 0, 33); (336, 0, 33)];
  [(106, 1, 47)];
  [(114, 1, 47); (309, 0, 47); (310, 0, 47)];
  [(33, 1, 47); (34, 1, 47)];
  [(31, 1, 47)];
  [(54, 1, 45); (309, 0, 45); (310, 0, 45)];
  [(55, 1, 47); (56, 1, 47); (57, 1, 47); (58, 1, 47); (59, 1, 47)];
  [(113, 1, 47)];
  [(35, 1, 45)];
  [(115, 1, 47); (116, 1, 47)];
  [(119, 1, 47); (308, 0, 11); (309, 0, 11); (310, 0, 11)];
  [(110, 1, 47)];
  [(36, 1, 45); (50, 1, 45); (51, 1, 45); (130, 0, 22); (131, 0, 22); (309, 0, 23); (310, 0, 23)];
  [(104, 1, 47); (105, 1, 47); (107, 1, 47)];
  [(52, 1, 45); (53, 1, 45)];
  [(336, 1, 33); (337, 0, 79); (338, 0, 79); (339, 0, 79)];
  [(26, 1, 47); (29, 0, 47); (30, 0, 47)];
  [(28, 1, 47); (29, 0, 47); (30, 0, 47)];
  [(27, 1, 47); (29, 0, 47); (30, 0, 47)];
  [(1, 1, 0)];
  [(2, 1, 1); (4, 1, 45); (354, 0, 1); (355, 0, 1)];
  [(3, 1, 45)];
  [(6, 1, 45); (20, 0, 45); (21, 0, 45)];
  [(19, 1, 47)];
  [(5, 1, 45); (20, 0, 45); (21, 0, 45)];
  [(18, 1, 47)];
  [(8, 1, 45)];
  [(9, 1, 45)];
  [(7, 1, 45)];
  [(11, 1, 47)];
  [(16, 1, 47)];
  [(17, 1, 47)];
  [(13, 1, 47)];
  [(14, 1, 47)];
  [(12, 1, 47)];
  [(15, 1, 47)];
  [(10, 1, 47)];
  [(123, 1, 53); (124, 1, 53); (125, 1, 53); (130, 0, 56); (131, 0, 56); (132, 0, 53); (133, 0, 53); (140, 0, 61)];
  [(334, 1, 33)];
  [(106, 2, 47)];
  [(309, 1, 119); (310, 1, 119)];
  [(114, 2, 47)];
  [(33, 2, 47); (34, 2, 47)];
  [(31, 2, 47)];
  [(54, 2, 45)];
  [(58, 2, 47); (60, 0, 14); (61, 0, 14)];
  [(55, 2, 47); (56, 2, 47); (57, 2, 47); (60, 0, 2); (61, 0, 2)];
  [(59, 2, 47); (60, 0, 2); (61, 0, 2)];
  [(113, 2, 47); (309, 0, 48); (310, 0, 48)];
  [(35, 2, 45); (37, 0, 5)];
  [(115, 2, 47); (116, 2, 47); (309, 0, 34); (310, 0, 34)];
  [(119, 2, 47)];
  [(308, 1, 11)];
  [(110, 2, 47); (108, 0, 2); (109, 0, 2)];
  [(130, 1, 118); (131, 1, 118); (130, 0, 38); (131, 0, 38); (132, 0, 38); (133, 0, 38); (140, 0, 40)];
  [(51, 2, 45)];
  [(36, 2, 45); (50, 2, 45)];
  [(107, 2, 47); (108, 0, 2); (109, 0, 2)];
  [(104, 2, 47); (108, 0, 2); (109, 0, 2)];
  [(105, 2, 47); (108, 0, 2); (109, 0, 2)];
  [(53, 2, 45); (309, 0, 45); (310, 0, 45)];
  [(52, 2, 45)];
  [(339, 1, 79)];
  [(336, 2, 33); (338, 1, 79)];
  [(337, 1, 79)];
  [(29, 1, 47)];
  [(26, 2, 47)];
  [(28, 2, 47)];
  [(27, 2, 47)];
  [(1, 2, 0)];
  [(4, 2, 45); (354, 1, 1); (5, 0, 45); (6, 0, 45); (7, 0, 45); (8, 0, 45); (9, 0, 45); (10, 0, 47); (11, 0, 47); (12, 0, 47); (13, 0, 47); (14, 0, 47); (15, 0, 47); (16, 0, 47); (17, 0, 47); (18, 0, 47); (19, 0, 47); (26, 0, 47); (27, 0, 47); (28, 0, 47); (31, 0, 47); (33, 0, 47); (34, 0, 47); (35, 0, 45); (36, 0, 45); (50, 0, 45); (51, 0, 45); (52, 0, 45); (53, 0, 45); (54, 0, 45); (55, 0, 47); (56, 0, 47); (57, 0, 47); (58, 0, 47); (59, 0, 47); (104, 0, 47); (105, 0, 47); (106, 0, 47); (107, 0, 47); (110, 0, 47); (113, 0, 47); (114, 0, 47); (115, 0, 47); (116, 0, 47); (119, 0, 47); (123, 0, 47); (124, 0, 47); (125, 0, 47); (334, 0, 33); (335, 0, 33); (336, 0, 33)];
  [(2, 2, 1)];
  [(20, 1, 45)];
  [(6, 2, 45)];
  [(5, 2, 45)];
  [(140, 1, 61); (163, 0, 121); (164, 0, 121)];
  [(123, 2, 53); (125, 2, 53); (134, 0, 33); (135, 0, 35); (136, 0, 35); (137, 0, 35)];
  [(124, 2, 53)];
  [(132, 1, 53); (133, 1, 53); (134, 0, 33); (135, 0, 35); (136, 0, 35); (137, 0, 35); (153, 0, 59); (154, 0, 59)];
  [(106, 3, 47)];
  [(310, 2, 119)];
  [(34, 3, 47); (173, 0, 38); (174, 0, 38); (175, 0, 80); (176, 0, 80); (177, 0, 80); (178, 0, 80); (179, 0, 80); (180, 0, 80); (181, 0, 80); (280, 0, 80); (281, 0, 80); (282, 0, 80); (283, 0, 80); (284, 0, 80); (285, 0, 80); (286, 0, 80); (287, 0, 80); (288, 0, 80); (289, 0, 80); (290, 0, 80); (291, 0, 80); (292, 0, 80); (293, 0, 80); (294, 0, 80); (295, 0, 80); (296, 0, 80); (297, 0, 80); (298, 0, 80)];
  [(31, 3, 47); (32, 0, 47)];
  [(60, 1, 14)];
  [(58, 3, 47); (311, 0, 13); (312, 0, 13)];
  [(55, 3, 47); (56, 3, 47); (57, 3, 47); (309, 0, 37); (310, 0, 37)];
  [(59, 3, 47); (309, 0, 36); (310, 0, 36)];
  [(113, 3, 47); (147, 0, 47); (148, 0, 47)];
  [(37, 1, 81)];
  [(35, 3, 45)];
  [(115, 3, 47); (116, 3, 47); (117, 0, 3); (118, 0, 3)];
  [(119, 3, 47); (120, 0, 91); (121, 0, 91); (122, 0, 91)];
  [(108, 1, 2)];
  [(110, 3, 47); (309, 0, 4); (310, 0, 4)];
  [(131, 2, 118)];
  [(130, 2, 118)];
  [(51, 3, 45); (38, 0, 50)];
  [(36, 3, 45); (38, 0, 51)];
  [(50, 3, 45); (38, 0, 50)];
  [(107, 3, 47)];
  [(104, 3, 47); (309, 0, 47); (310, 0, 47)];
  [(105, 3, 47); (309, 0, 47); (310, 0, 47)];
  [(53, 3, 45)];
  [(339, 2, 79); (130, 0, 79); (131, 0, 79)];
  [(338, 2, 79); (339, 0, 79)];
  [(4, 3, 45)];
  [(20, 2, 45)];
  [(163, 1, 121); (292, 0, 121)];
  [(140, 2, 61); (141, 0, 120); (142, 0, 120)];
  [(136, 1, 35)];
  [(137, 1, 35)];
  [(135, 1, 35)];
  [(125, 3, 53); (126, 0, 55); (127, 0, 55); (128, 0, 55); (129, 0, 55); (130, 0, 55); (131, 0, 55); (140, 0, 57)];
  [(134, 1, 33); (138, 0, 33); (139, 0, 33)];
  [(153, 1, 70)];
  [(133, 2, 53); (126, 0, 60); (127, 0, 60); (128, 0, 60); (129, 0, 60); (130, 0, 60); (131, 0, 60); (140, 0, 61)];
  [(132, 2, 53); (165, 0, 58); (166, 0, 58); (167, 0, 58); (168, 0, 58); (169, 0, 58); (170, 0, 58)];
  [(310, 3, 119)];
  [(287, 1, 117)];
  [(290, 1, 117)];
  [(292, 1, 117); (295, 1, 117); (259, 0, 117); (260, 0, 117); (261, 0, 117); (262, 0, 117); (263, 0, 117); (264, 0, 117); (265, 0, 117); (266, 0, 117); (267, 0, 117); (268, 0, 117); (269, 0, 117); (270, 0, 117); (271, 0, 117); (272, 0, 117)];
  [(178, 1, 80)];
  [(294, 1, 117)];
  [(293, 1, 117)];
  [(296, 1, 117); (297, 1, 117)];
  [(288, 1, 117)];
  [(289, 1, 117)];
  [(180, 1, 82); (181, 1, 82); (290, 0, 82); (291, 0, 82); (292, 0, 82); (295, 0, 82); (296, 0, 82); (297, 0, 82)];
  [(298, 1, 117)];
  [(34, 4, 47)];
  [(173, 1, 38); (176, 1, 80)];
  [(175, 1, 80)];
  [(177, 1, 80)];
  [(179, 1, 82)];
  [(280, 1, 117)];
  [(281, 1, 117)];
  [(282, 1, 117)];
  [(291, 1, 117)];
  [(283, 1, 117)];
  [(284, 1, 117)];
  [(285, 1, 117)];
  [(286, 1, 117)];
  [(32, 1, 47)];
  [(31, 4, 47)];
  [(60, 2, 14)];
  [(311, 1, 13)];
  [(58, 4, 47)];
  [(55, 4, 47); (56, 4, 47); (57, 4, 47)];
  [(59, 4, 47); (117, 0, 12); (118, 0, 12)];
  [(147, 1, 62); (183, 0, 68); (184, 0, 68); (185, 0, 68); (186, 0, 68); (187, 0, 68); (188, 0, 74); (189, 0, 74); (190, 0, 74); (191, 0, 74); (192, 0, 74); (193, 0, 74); (194, 0, 74); (195, 0, 74); (196, 0, 74); (197, 0, 74); (198, 0, 74); (199, 0, 74); (200, 0, 74); (201, 0, 74); (202, 0, 74); (203, 0, 74); (204, 0, 74); (205, 0, 74); (206, 0, 74); (207, 0, 74); (208, 0, 74); (209, 0, 74); (210, 0, 74); (211, 0, 74); (212, 0, 74); (213, 0, 74); (214, 0, 74); (215, 0, 74); (216, 0, 74); (217, 0, 68); (218, 0, 68); (219, 0, 68); (220, 0, 68); (221, 0, 68); (222, 0, 68); (223, 0, 74); (224, 0, 74); (225, 0, 74); (226, 0, 74); (229, 0, 68); (230, 0, 68); (231, 0, 74); (232, 0, 74); (233, 0, 74); (234, 0, 74); (235, 0, 74); (236, 0, 74); (237, 0, 74); (238, 0, 74); (239, 0, 74); (240, 0, 74); (241, 0, 74); (257, 0, 74); (258, 0, 74); (273, 0, 74); (274, 0, 74); (275, 0, 68); (276, 0, 74); (277, 0, 74); (278, 0, 74); (279, 0, 74); (280, 0, 74); (281, 0, 74); (282, 0, 74); (283, 0, 74); (284, 0, 74); (285, 0, 74); (286, 0, 74); (287, 0, 74); (288, 0, 74); (289, 0, 74); (290, 0, 74); (291, 0, 74); (292, 0, 74); (293, 0, 74); (294, 0, 74); (295, 0, 74); (296, 0, 74); (297, 0, 74); (298, 0, 74)];
  [(113, 4, 47)];
  [(35, 4, 45); (38, 0, 7)];
  [(117, 1, 87); (356, 0, 80); (357, 0, 80)];
  [(115, 4, 47); (116, 4, 47); (132, 0, 47); (133, 0, 47); (140, 0, 49)];
  [(122, 1, 91)];
  [(119, 4, 47); (121, 1, 91); (147, 0, 47); (148, 0, 47)];
  [(120, 1, 91)];
  [(108, 2, 2)];
  [(110, 4, 47); (111, 0, 47); (112, 0, 47)];
  [(131, 3, 118)];
  [(130, 3, 118)];
  [(38, 1, 52)];
  [(51, 4, 45); (39, 0, 45); (40, 0, 45); (41, 0, 45)];
  [(36, 4, 45); (39, 0, 46); (40, 0, 46); (41, 0, 46)];
  [(50, 4, 45); (39, 0, 45); (40, 0, 45); (41, 0, 45)];
  [(107, 4, 47)];
  [(104, 4, 47)];
  [(105, 4, 47)];
  [(339, 3, 79)];
  [(338, 3, 79)];
  [(20, 3, 45); (22, 0, 80); (23, 0, 80); (24, 0, 80); (25, 0, 80)];
  [(292, 1, 122)];
  [(163, 2, 121)];
  [(141, 1, 120)];
  [(140, 3, 61); (143, 0, 64); (171, 0, 95); (172, 0, 95); (182, 0, 95); (183, 0, 101); (184, 0, 101); (185, 0, 101); (186, 0, 101); (187, 0, 101); (188, 0, 108); (189, 0, 108); (190, 0, 108); (191, 0, 108); (192, 0, 108); (193, 0, 108); (194, 0, 108); (195, 0, 108); (196, 0, 108); (197, 0, 108); (198, 0, 108); (199, 0, 108); (200, 0, 108); (201, 0, 108); (202, 0, 108); (203, 0, 108); (204, 0, 108); (205, 0, 108); (206, 0, 108); (207, 0, 108); (208, 0, 108); (209, 0, 108); (210, 0, 108); (211, 0, 108); (212, 0, 108); (213, 0, 108); (214, 0, 108); (215, 0, 108); (216, 0, 108); (217, 0, 101); (218, 0, 101); (219, 0, 101); (220, 0, 101); (221, 0, 101); (222, 0, 101); (223, 0, 108); (224, 0, 108); (225, 0, 108); (226, 0, 108); (229, 0, 101); (230, 0, 101); (231, 0, 108); (232, 0, 108); (233, 0, 108); (234, 0, 108); (235, 0, 108); (236, 0, 108); (237, 0, 108); (238, 0, 108); (239, 0, 108); (240, 0, 108); (241, 0, 108); (257, 0, 108); (258, 0, 108); (273, 0, 108); (274, 0, 108); (275, 0, 101); (276, 0, 108); (277, 0, 108); (278, 0, 108); (279, 0, 108); (280, 0, 108); (281, 0, 108); (282, 0, 108); (283, 0, 108); (284, 0, 108); (285, 0, 108); (286, 0, 108); (287, 0, 108); (288, 0, 108); (289, 0, 108); (290, 0, 108); (291, 0, 108); (292, 0, 108); (293, 0, 108); (294, 0, 108); (295, 0, 108); (296, 0, 108); (297, 0, 108); (298, 0, 108)];
  [(125, 4, 53); (153, 0, 54); (154, 0, 54)];
  [(127, 1, 60)];
  [(126, 1, 60)];
  [(128, 1, 60); (129, 1, 60); (134, 0, 33); (135, 0, 35); (136, 0, 35); (137, 0, 35)];
  [(138, 1, 33)];
  [(134, 2, 33)];
  [(153, 2, 70); (155, 0, 104); (156, 0, 104); (157, 0, 104); (183, 0, 106); (184, 0, 106); (185, 0, 106); (186, 0, 106); (187, 0, 106); (188, 0, 110); (189, 0, 110); (190, 0, 110); (191, 0, 110); (192, 0, 110); (193, 0, 110); (194, 0, 110); (195, 0, 110); (196, 0, 110); (197, 0, 110); (198, 0, 110); (199, 0, 110); (200, 0, 110); (201, 0, 110); (202, 0, 110); (203, 0, 110); (204, 0, 110); (205, 0, 110); (206, 0, 110); (207, 0, 110); (208, 0, 110); (209, 0, 110); (210, 0, 110); (211, 0, 110); (212, 0, 110); (213, 0, 110); (214, 0, 110); (215, 0, 110); (216, 0, 110); (217, 0, 106); (218, 0, 106); (219, 0, 106); (220, 0, 106); (221, 0, 106); (222, 0, 106); (223, 0, 110); (224, 0, 110); (225, 0, 110); (226, 0, 110); (229, 0, 106); (230, 0, 106); (231, 0, 110); (232, 0, 110); (233, 0, 110); (234, 0, 110); (235, 0, 110); (236, 0, 110); (237, 0, 110); (238, 0, 110); (239, 0, 110); (240, 0, 110); (241, 0, 110); (257, 0, 110); (258, 0, 110); (273, 0, 110); (274, 0, 110); (275, 0, 106); (276, 0, 110); (277, 0, 110); (278, 0, 110); (279, 0, 110); (280, 0, 110); (281, 0, 110); (282, 0, 110); (283, 0, 110); (284, 0, 110); (285, 0, 110); (286, 0, 110); (287, 0, 110); (288, 0, 110); (289, 0, 110); (290, 0, 110); (291, 0, 110); (292, 0, 110); (293, 0, 110); (294, 0, 110); (295, 0, 110); (296, 0, 110); (297, 0, 110); (298, 0, 110)];
  [(133, 3, 53); (153, 0, 59); (154, 0, 59)];
  [(166, 1, 58); (183, 0, 65); (184, 0, 65); (185, 0, 65); (186, 0, 65); (187, 0, 65); (188, 0, 71); (189, 0, 71); (190, 0, 71); (191, 0, 71); (192, 0, 71); (193, 0, 71); (194, 0, 71); (195, 0, 71); (196, 0, 71); (197, 0, 71); (198, 0, 71); (199, 0, 71); (200, 0, 71); (201, 0, 71); (202, 0, 71); (203, 0, 71); (204, 0, 71); (205, 0, 71); (206, 0, 71); (207, 0, 71); (208, 0, 71); (209, 0, 71); (210, 0, 71); (211, 0, 71); (212, 0, 71); (213, 0, 71); (214, 0, 71); (215, 0, 71); (216, 0, 71); (217, 0, 65); (218, 0, 65); (219, 0, 65); (220, 0, 65); (221, 0, 65); (222, 0, 65); (223, 0, 71); (224, 0, 71); (225, 0, 71); (226, 0, 71); (229, 0, 65); (230, 0, 65); (231, 0, 71); (232, 0, 71); (233, 0, 71); (234, 0, 71); (235, 0, 71); (236, 0, 71); (237, 0, 71); (238, 0, 71); (239, 0, 71); (240, 0, 71); (241, 0, 71); (257, 0, 71); (258, 0, 71); (273, 0, 71); (274, 0, 71); (275, 0, 65); (276, 0, 71); (277, 0, 71); (278, 0, 71); (279, 0, 71); (280, 0, 71); (281, 0, 71); (282, 0, 71); (283, 0, 71); (284, 0, 71); (285, 0, 71); (286, 0, 71); (287, 0, 71); (288, 0, 71); (289, 0, 71); (290, 0, 71); (291, 0, 71); (292, 0, 71); (293, 0, 71); (294, 0, 71); (295, 0, 71); (296, 0, 71); (297, 0, 71); (298, 0, 71)];
  [(165, 1, 58); (167, 1, 58); (168, 1, 58); (169, 1, 58); (183, 0, 66); (184, 0, 66); (185, 0, 66); (186, 0, 66); (187, 0, 66); (188, 0, 72); (189, 0, 72); (190, 0, 72); (191, 0, 72); (192, 0, 72); (193, 0, 72); (194, 0, 72); (195, 0, 72); (196, 0, 72); (197, 0, 72); (198, 0, 72); (199, 0, 72); (200, 0, 72); (201, 0, 72); (202, 0, 72); (203, 0, 72); (204, 0, 72); (205, 0, 72); (206, 0, 72); (207, 0, 72); (208, 0, 72); (209, 0, 72); (210, 0, 72); (211, 0, 72); (212, 0, 72); (213, 0, 72); (214, 0, 72); (215, 0, 72); (216, 0, 72); (217, 0, 66); (218, 0, 66); (219, 0, 66); (220, 0, 66); (221, 0, 66); (222, 0, 66); (223, 0, 72); (224, 0, 72); (225, 0, 72); (226, 0, 72); (229, 0, 66); (230, 0, 66); (231, 0, 72); (232, 0, 72); (233, 0, 72); (234, 0, 72); (235, 0, 72); (236, 0, 72); (237, 0, 72); (238, 0, 72); (239, 0, 72); (240, 0, 72); (241, 0, 72); (257, 0, 72); (258, 0, 72); (273, 0, 72); (274, 0, 72); (275, 0, 66); (276, 0, 72); (277, 0, 72); (278, 0, 72); (279, 0, 72); (280, 0, 72); (281, 0, 72); (282, 0, 72); (283, 0, 72); (284, 0, 72); (285, 0, 72); (286, 0, 72); (287, 0, 72); (288, 0, 72); (289, 0, 72); (290, 0, 72); (291, 0, 72); (292, 0, 72); (293, 0, 72); (294, 0, 72); (295, 0, 72); (296, 0, 72); (297, 0, 72); (298, 0, 72)];
  [(132, 3, 53); (321, 0, 53); (322, 0, 53); (323, 0, 58); (324, 0, 58); (325, 0, 58); (326, 0, 58)];
  [(259, 1, 117)];
  [(260, 1, 117)];
  [(261, 1, 117)];
  [(262, 1, 117)];
  [(263, 1, 117)];
  [(264, 1, 117)];
  [(265, 1, 117)];
  [(266, 1, 117)];
  [(267, 1, 117)];
  [(268, 1, 117)];
  [(269, 1, 117)];
  [(270, 1, 117)];
  [(271, 1, 117)];
  [(272, 1, 117)];
  [(295, 2, 117)];
  [(178, 2, 80); (179, 0, 12); (180, 0, 12); (181, 0, 12); (280, 0, 12); (281, 0, 12); (282, 0, 12); (283, 0, 12); (284, 0, 12); (285, 0, 12); (286, 0, 12); (287, 0, 12); (288, 0, 12); (289, 0, 12); (290, 0, 12); (291, 0, 12); (292, 0, 12); (293, 0, 12); (294, 0, 12); (295, 0, 12); (296, 0, 12); (297, 0, 12); (298, 0, 12)];
  [(294, 2, 117)];
  [(296, 2, 117); (297, 2, 117); (259, 0, 117); (260, 0, 117); (261, 0, 117); (262, 0, 117); (263, 0, 117); (264, 0, 117)];
  [(180, 2, 82)];
  [(181, 2, 82)];
  [(34, 5, 47)];
  [(176, 2, 80); (177, 0, 80); (178, 0, 80); (179, 0, 80); (180, 0, 80); (181, 0, 80); (280, 0, 80); (281, 0, 80); (282, 0, 80); (283, 0, 80); (284, 0, 80); (285, 0, 80); (286, 0, 80); (287, 0, 80); (288, 0, 80); (289, 0, 80); (290, 0, 80); (291, 0, 80); (292, 0, 80); (293, 0, 80); (294, 0, 80); (295, 0, 80); (296, 0, 80); (297, 0, 80); (298, 0, 80)];
  [(60, 3, 14)];
  [(58, 5, 47); (309, 0, 32); (310, 0, 32)];
  [(55, 5, 47)];
  [(57, 5, 47); (123, 0, 47); (124, 0, 47); (125, 0, 47); (334, 0, 33); (335, 0, 33); (336, 0, 33)];
  [(56, 5, 47); (62, 0, 80); (63, 0, 80); (64, 0, 80); (65, 0, 80); (66, 0, 80); (100, 0, 80); (101, 0, 80); (102, 0, 80)];
  [(59, 5, 47)];
  [(238, 1, 117); (239, 1, 117); (240, 1, 117); (241, 1, 117); (276, 1, 117); (277, 1, 117); (279, 1, 117)];
  [(229, 1, 114)];
  [(257, 1, 117)];
  [(258, 1, 117)];
  [(223, 1, 117); (224, 1, 117); (225, 1, 117); (226, 1, 117); (183, 0, 18); (184, 0, 18); (185, 0, 18); (186, 0, 18); (187, 0, 18); (188, 0, 27); (189, 0, 27); (190, 0, 27); (191, 0, 27); (192, 0, 27); (193, 0, 27); (194, 0, 27); (195, 0, 27); (196, 0, 27); (197, 0, 27); (198, 0, 27); (199, 0, 27); (200, 0, 27); (201, 0, 27); (202, 0, 27); (203, 0, 27); (204, 0, 27); (205, 0, 27); (206, 0, 27); (207, 0, 27); (208, 0, 27); (209, 0, 27); (210, 0, 27); (211, 0, 27); (212, 0, 27); (213, 0, 27); (214, 0, 27); (215, 0, 27); (216, 0, 27); (217, 0, 18); (218, 0, 18); (219, 0, 18); (220, 0, 18); (221, 0, 18); (222, 0, 18); (223, 0, 27); (224, 0, 27); (225, 0, 27); (226, 0, 27); (227, 0, 10); (228, 0, 10); (229, 0, 18); (230, 0, 18); (231, 0, 27); (232, 0, 27); (233, 0, 27); (234, 0, 27); (235, 0, 27); (236, 0, 27); (237, 0, 27); (238, 0, 27); (239, 0, 27); (240, 0, 27); (241, 0, 27); (257, 0, 27); (258, 0, 27); (273, 0, 27); (274, 0, 27); (275, 0, 18); (276, 0, 27); (277, 0, 27); (278, 0, 27); (279, 0, 27); (280, 0, 27); (281, 0, 27); (282, 0, 27); (283, 0, 27); (284, 0, 27); (285, 0, 27); (286, 0, 27); (287, 0, 27); (288, 0, 27); (289, 0, 27); (290, 0, 27); (291, 0, 27); (292, 0, 27); (293, 0, 27); (294, 0, 27); (295, 0, 27); (296, 0, 27); (297, 0, 27); (298, 0, 27)];
  [(202, 1, 117); (230, 1, 114); (188, 0, 117); (189, 0, 117); (190, 0, 117); (191, 0, 117); (192, 0, 117); (193, 0, 117); (194, 0, 117); (195, 0, 117); (196, 0, 117); (197, 0, 117); (198, 0, 117); (199, 0, 117); (200, 0, 117); (201, 0, 117); (202, 0, 117); (203, 0, 117); (204, 0, 117); (205, 0, 117); (206, 0, 117); (207, 0, 117); (208, 0, 117); (209, 0, 117); (210, 0, 117); (211, 0, 117); (212, 0, 117); (213, 0, 117); (214, 0, 117); (215, 0, 117); (216, 0, 117); (223, 0, 117); (224, 0, 117); (225, 0, 117); (226, 0, 117); (231, 0, 117); (232, 0, 117); (233, 0, 117); (234, 0, 117); (235, 0, 117); (236, 0, 117); (237, 0, 117); (238, 0, 117); (239, 0, 117); (240, 0, 117); (241, 0, 117); (257, 0, 117); (258, 0, 117); (273, 0, 117); (274, 0, 117); (276, 0, 117); (277, 0, 117); (278, 0, 117); (279, 0, 117); (280, 0, 117); (281, 0, 117); (282, 0, 117); (283, 0, 117); (284, 0, 117); (285, 0, 117); (286, 0, 117); (287, 0, 117); (288, 0, 117); (289, 0, 117); (290, 0, 117); (291, 0, 117); (292, 0, 117); (293, 0, 117); (294, 0, 117); (295, 0, 117); (296, 0, 117); (297, 0, 117); (298, 0, 117)];
  [(273, 1, 117)];
  [(201, 1, 117); (188, 0, 117); (189, 0, 117); (190, 0, 117); (191, 0, 117); (192, 0, 117); (193, 0, 117); (194, 0, 117); (195, 0, 117); (196, 0, 117); (197, 0, 117); (198, 0, 117); (199, 0, 117); (200, 0, 117); (201, 0, 117); (202, 0, 117); (203, 0, 117); (204, 0, 117); (205, 0, 117); (206, 0, 117); (207, 0, 117); (208, 0, 117); (209, 0, 117); (210, 0, 117); (211, 0, 117); (212, 0, 117); (213, 0, 117); (214, 0, 117); (215, 0, 117); (216, 0, 117); (223, 0, 117); (224, 0, 117); (225, 0, 117); (226, 0, 117); (231, 0, 117); (232, 0, 117); (233, 0, 117); (234, 0, 117); (235, 0, 117); (236, 0, 117); (237, 0, 117); (238, 0, 117); (239, 0, 117); (240, 0, 117); (241, 0, 117); (257, 0, 117); (258, 0, 117); (273, 0, 117); (274, 0, 117); (276, 0, 117); (277, 0, 117); (278, 0, 117); (279, 0, 117); (280, 0, 117); (281, 0, 117); (282, 0, 117); (283, 0, 117); (284, 0, 117); (285, 0, 117); (286, 0, 117); (287, 0, 117); (288, 0, 117); (289, 0, 117); (290, 0, 117); (291, 0, 117); (292, 0, 117); (293, 0, 117); (294, 0, 117); (295, 0, 117); (296, 0, 117); (297, 0, 117); (298, 0, 117)];
  [(278, 1, 117)];
  [(188, 1, 117); (198, 1, 117); (132, 0, 38); (133, 0, 38); (140, 0, 40); (183, 0, 41); (184, 0, 41); (185, 0, 41); (186, 0, 41); (187, 0, 41); (188, 0, 44); (189, 0, 44); (190, 0, 44); (191, 0, 44); (192, 0, 44); (193, 0, 44); (194, 0, 44); (195, 0, 44); (196, 0, 44); (197, 0, 44); (198, 0, 44); (199, 0, 44); (200, 0, 44); (201, 0, 44); (202, 0, 44); (203, 0, 44); (204, 0, 44); (205, 0, 44); (206, 0, 44); (207, 0, 44); (208, 0, 44); (209, 0, 44); (210, 0, 44); (211, 0, 44); (212, 0, 44); (213, 0, 44); (214, 0, 44); (215, 0, 44); (216, 0, 44); (217, 0, 41); (218, 0, 41); (219, 0, 41); (220, 0, 41); (221, 0, 41); (222, 0, 41); (223, 0, 44); (224, 0, 44); (225, 0, 44); (226, 0, 44); (229, 0, 41); (230, 0, 41); (231, 0, 44); (232, 0, 44); (233, 0, 44); (234, 0, 44); (235, 0, 44); (236, 0, 44); (237, 0, 44); (238, 0, 44); (239, 0, 44); (240, 0, 44); (241, 0, 44); (257, 0, 44); (258, 0, 44); (273, 0, 44); (274, 0, 44); (275, 0, 41); (276, 0, 44); (277, 0, 44); (278, 0, 44); (279, 0, 44); (280, 0, 44); (281, 0, 44); (282, 0, 44); (283, 0, 44); (284, 0, 44); (285, 0, 44); (286, 0, 44); (287, 0, 44); (288, 0, 44); (289, 0, 44); (290, 0, 44); (291, 0, 44); (292, 0, 44); (293, 0, 44); (294, 0, 44); (295, 0, 44); (296, 0, 44); (297, 0, 44); (298, 0, 44)];
  [(147, 2, 62); (217, 1, 68); (218, 1, 68)];
  [(183, 1, 114); (203, 1, 117); (204, 1, 117); (205, 1, 117); (207, 1, 117); (208, 1, 117); (209, 1, 117); (210, 1, 117); (211, 1, 117); (212, 1, 117); (213, 1, 117); (214, 1, 117); (215, 1, 117); (216, 1, 117); (219, 1, 114); (220, 1, 114); (221, 1, 114); (222, 1, 114); (231, 1, 117); (232, 1, 117); (233, 1, 117); (234, 1, 117); (235, 1, 117); (236, 1, 117); (237, 1, 117); (274, 1, 117); (275, 1, 114)];
  [(190, 1, 117)];
  [(191, 1, 117)];
  [(192, 1, 117)];
  [(185, 1, 114)];
  [(187, 1, 114)];
  [(193, 1, 117)];
  [(186, 1, 114)];
  [(206, 1, 117)];
  [(194, 1, 117)];
  [(195, 1, 117)];
  [(196, 1, 117)];
  [(197, 1, 117)];
  [(189, 1, 117)];
  [(184, 1, 114)];
  [(199, 1, 117)];
  [(200, 1, 117)];
  [(35, 5, 45)];
  [(356, 1, 103)];
  [(117, 2, 87); (357, 1, 80)];
  [(115, 5, 47)];
  [(116, 5, 47)];
  [(122, 2, 91); (183, 0, 92); (184, 0, 92); (185, 0, 92); (186, 0, 92); (187, 0, 92); (188, 0, 93); (189, 0, 93); (190, 0, 93); (191, 0, 93); (192, 0, 93); (193, 0, 93); (194, 0, 93); (195, 0, 93); (196, 0, 93); (197, 0, 93); (198, 0, 93); (199, 0, 93); (200, 0, 93); (201, 0, 93); (202, 0, 93); (203, 0, 93); (204, 0, 93); (205, 0, 93); (206, 0, 93); (207, 0, 93); (208, 0, 93); (209, 0, 93); (210, 0, 93); (211, 0, 93); (212, 0, 93); (213, 0, 93); (214, 0, 93); (215, 0, 93); (216, 0, 93); (217, 0, 92); (218, 0, 92); (219, 0, 92); (220, 0, 92); (221, 0, 92); (222, 0, 92); (223, 0, 93); (224, 0, 93); (225, 0, 93); (226, 0, 93); (229, 0, 92); (230, 0, 92); (231, 0, 93); (232, 0, 93); (233, 0, 93); (234, 0, 93); (235, 0, 93); (236, 0, 93); (237, 0, 93); (238, 0, 93); (239, 0, 93); (240, 0, 93); (241, 0, 93); (257, 0, 93); (258, 0, 93); (273, 0, 93); (274, 0, 93); (275, 0, 92); (276, 0, 93); (277, 0, 93); (278, 0, 93); (279, 0, 93); (280, 0, 93); (281, 0, 93); (282, 0, 93); (283, 0, 93); (284, 0, 93); (285, 0, 93); (286, 0, 93); (287, 0, 93); (288, 0, 93); (289, 0, 93); (290, 0, 93); (291, 0, 93); (292, 0, 93); (293, 0, 93); (294, 0, 93); (295, 0, 93); (296, 0, 93); (297, 0, 93); (298, 0, 93)];
  [(121, 2, 91); (122, 0, 91)];
  [(119, 5, 47)];
  [(112, 1, 47)];
  [(110, 5, 47)];
  [(111, 1, 47)];
  [(39, 1, 46)];
  [(40, 1, 46); (42, 0, 80); (43, 0, 80); (44, 0, 80); (45, 0, 80); (46, 0, 80); (47, 0, 80); (48, 0, 80); (49, 0, 80)];
  [(51, 5, 45)];
  [(36, 5, 45); (147, 0, 45); (148, 0, 45)];
  [(50, 5, 45)];
  [(24, 1, 80); (25, 1, 80)];
  [(20, 4, 45); (23, 1, 80)];
  [(22, 1, 80)];
  [(140, 4, 61); (144, 0, 63); (145, 0, 63); (146, 0, 63)];
  [(143, 1, 64); (172, 1, 95)];
  [(171, 1, 111)];
  [(182, 1, 111); (217, 1, 113); (218, 1, 113); (317, 0, 111); (318, 0, 111); (319, 0, 111); (320, 0, 111)];
  [(125, 5, 53); (165, 0, 53); (166, 0, 53); (167, 0, 53); (168, 0, 53); (169, 0, 53); (170, 0, 53)];
  [(129, 2, 60); (126, 0, 60); (127, 0, 60); (128, 0, 60); (129, 0, 60); (130, 0, 60); (131, 0, 60); (140, 0, 61)];
  [(153, 3, 70); (156, 1, 104)];
  [(155, 1, 104)];
  [(157, 1, 104); (217, 1, 106); (218, 1, 106); (158, 0, 105); (159, 0, 105); (160, 0, 105)];
  [(133, 4, 53); (165, 0, 58); (166, 0, 58); (167, 0, 58); (168, 0, 58); (169, 0, 58); (170, 0, 58)];
  [(166, 2, 58); (217, 1, 65); (218, 1, 65)];
  [(168, 2, 58); (169, 2, 58)];
  [(165, 2, 58); (167, 2, 58); (217, 1, 66); (218, 1, 66)];
  [(325, 1, 58); (326, 1, 58); (327, 0, 69); (328, 0, 69); (329, 0, 69); (330, 0, 69)];
  [(132, 4, 53)];
  [(321, 1, 53); (324, 1, 58); (325, 0, 58); (326, 0, 58)];
  [(323, 1, 58)];
  [(178, 3, 80)];
  [(296, 3, 117)];
  [(176, 3, 80)];
  [(58, 6, 47)];
  [(55, 6, 47)];
  [(57, 6, 47)];
  [(66, 1, 80); (67, 0, 86); (68, 0, 86); (69, 0, 86); (70, 0, 86); (71, 0, 86); (72, 0, 86); (73, 0, 86); (74, 0, 86); (75, 0, 86); (76, 0, 86); (77, 0, 86); (78, 0, 86); (79, 0, 86); (80, 0, 86); (81, 0, 86); (82, 0, 86); (83, 0, 86); (84, 0, 86)];
  [(101, 1, 80)];
  [(100, 1, 80)];
  [(102, 1, 80)];
  [(56, 6, 47); (63, 1, 80)];
  [(62, 1, 80)];
  [(64, 1, 80)];
  [(65, 1, 80)];
  [(59, 6, 47); (123, 0, 47); (124, 0, 47); (125, 0, 47); (334, 0, 33); (335, 0, 33); (336, 0, 33)];
  [(238, 2, 117); (239, 2, 117); (141, 0, 120); (142, 0, 120)];
  [(240, 2, 117); (241, 2, 117); (277, 2, 117); (279, 2, 117)];
  [(229, 2, 114); (132, 0, 38); (133, 0, 38); (140, 0, 40)];
  [(257, 2, 117); (259, 0, 6); (260, 0, 6); (261, 0, 6); (262, 0, 6); (263, 0, 6); (264, 0, 6)];
  [(258, 2, 117); (183, 0, 21); (184, 0, 21); (185, 0, 21); (186, 0, 21); (187, 0, 21); (188, 0, 30); (189, 0, 30); (190, 0, 30); (191, 0, 30); (192, 0, 30); (193, 0, 30); (194, 0, 30); (195, 0, 30); (196, 0, 30); (197, 0, 30); (198, 0, 30); (199, 0, 30); (200, 0, 30); (201, 0, 30); (202, 0, 30); (203, 0, 30); (204, 0, 30); (205, 0, 30); (206, 0, 30); (207, 0, 30); (208, 0, 30); (209, 0, 30); (210, 0, 30); (211, 0, 30); (212, 0, 30); (213, 0, 30); (214, 0, 30); (215, 0, 30); (216, 0, 30); (217, 0, 21); (218, 0, 21); (219, 0, 21); (220, 0, 21); (221, 0, 21); (222, 0, 21); (223, 0, 30); (224, 0, 30); (225, 0, 30); (226, 0, 30); (229, 0, 21); (230, 0, 21); (231, 0, 30); (232, 0, 30); (233, 0, 30); (234, 0, 30); (235, 0, 30); (236, 0, 30); (237, 0, 30); (238, 0, 30); (239, 0, 30); (240, 0, 30); (241, 0, 30); (257, 0, 30); (258, 0, 30); (273, 0, 30); (274, 0, 30); (275, 0, 21); (276, 0, 30); (277, 0, 30); (278, 0, 30); (279, 0, 30); (280, 0, 30); (281, 0, 30); (282, 0, 30); (283, 0, 30); (284, 0, 30); (285, 0, 30); (286, 0, 30); (287, 0, 30); (288, 0, 30); (289, 0, 30); (290, 0, 30); (291, 0, 30); (292, 0, 30); (293, 0, 30); (294, 0, 30); (295, 0, 30); (296, 0, 30); (297, 0, 30); (298, 0, 30)];
  [(227, 1, 10); (183, 0, 17); (184, 0, 17); (185, 0, 17); (186, 0, 17); (187, 0, 17); (188, 0, 26); (189, 0, 26); (190, 0, 26); (191, 0, 26); (192, 0, 26); (193, 0, 26); (194, 0, 26); (195, 0, 26); (196, 0, 26); (197, 0, 26); (198, 0, 26); (199, 0, 26); (200, 0, 26); (201, 0, 26); (202, 0, 26); (203, 0, 26); (204, 0, 26); (205, 0, 26); (206, 0, 26); (207, 0, 26); (208, 0, 26); (209, 0, 26); (210, 0, 26); (211, 0, 26); (212, 0, 26); (213, 0, 26); (214, 0, 26); (215, 0, 26); (216, 0, 26); (217, 0, 17); (218, 0, 17); (219, 0, 17); (220, 0, 17); (221, 0, 17); (222, 0, 17); (223, 0, 26); (224, 0, 26); (225, 0, 26); (226, 0, 26); (229, 0, 17); (230, 0, 17); (231, 0, 26); (232, 0, 26); (233, 0, 26); (234, 0, 26); (235, 0, 26); (236, 0, 26); (237, 0, 26); (238, 0, 26); (239, 0, 26); (240, 0, 26); (241, 0, 26); (257, 0, 26); (258, 0, 26); (273, 0, 26); (274, 0, 26); (275, 0, 17); (276, 0, 26); (277, 0, 26); (278, 0, 26); (279, 0, 26); (280, 0, 26); (281, 0, 26); (282, 0, 26); (283, 0, 26); (284, 0, 26); (285, 0, 26); (286, 0, 26); (287, 0, 26); (288, 0, 26); (289, 0, 26); (290, 0, 26); (291, 0, 26); (292, 0, 26); (293, 0, 26); (294, 0, 26); (295, 0, 26); (296, 0, 26); (297, 0, 26); (298, 0, 26)];
  [(223, 2, 117); (224, 2, 117); (217, 1, 18); (218, 1, 18); (227, 0, 10); (228, 0, 10)];
  [(225, 2, 117); (226, 2, 117); (228, 1, 10)];
  [(230, 2, 114)];
  [(202, 1, 117); (188, 0, 117); (189, 0, 117); (190, 0, 117); (191, 0, 117); (192, 0, 117); (193, 0, 117); (194, 0, 117); (195, 0, 117); (196, 0, 117); (197, 0, 117); (198, 0, 117); (199, 0, 117); (200, 0, 117); (201, 0, 117); (202, 0, 117); (203, 0, 117); (204, 0, 117); (205, 0, 117); (206, 0, 117); (207, 0, 117); (208, 0, 117); (209, 0, 117); (210, 0, 117); (211, 0, 117); (212, 0, 117); (213, 0, 117); (214, 0, 117); (215, 0, 117); (216, 0, 117); (223, 0, 117); (224, 0, 117); (225, 0, 117); (226, 0, 117); (231, 0, 117); (232, 0, 117); (233, 0, 117); (234, 0, 117); (235, 0, 117); (236, 0, 117); (237, 0, 117); (238, 0, 117); (239, 0, 117); (240, 0, 117); (241, 0, 117); (257, 0, 117); (258, 0, 117); (273, 0, 117); (274, 0, 117); (276, 0, 117); (277, 0, 117); (278, 0, 117); (279, 0, 117); (280, 0, 117); (281, 0, 117); (282, 0, 117); (283, 0, 117); (284, 0, 117); (285, 0, 117); (286, 0, 117); (287, 0, 117); (288, 0, 117); (289, 0, 117); (290, 0, 117); (291, 0, 117); (292, 0, 117); (293, 0, 117); (294, 0, 117); (295, 0, 117); (296, 0, 117); (297, 0, 117); (298, 0, 117)];
  [(202, 2, 117); (203, 1, 117); (204, 1, 117); (205, 1, 117); (207, 1, 117); (208, 1, 117); (209, 1, 117); (210, 1, 117); (211, 1, 117); (212, 1, 117); (213, 1, 117); (214, 1, 117); (215, 1, 117); (216, 1, 117); (231, 1, 117); (232, 1, 117); (233, 1, 117); (234, 1, 117); (235, 1, 117); (236, 1, 117); (237, 1, 117); (274, 1, 117)];
  [(273, 2, 117); (171, 0, 76); (172, 0, 76); (182, 0, 76); (183, 0, 77); (184, 0, 77); (185, 0, 77); (186, 0, 77); (187, 0, 77); (188, 0, 78); (189, 0, 78); (190, 0, 78); (191, 0, 78); (192, 0, 78); (193, 0, 78); (194, 0, 78); (195, 0, 78); (196, 0, 78); (197, 0, 78); (198, 0, 78); (199, 0, 78); (200, 0, 78); (201, 0, 78); (202, 0, 78); (203, 0, 78); (204, 0, 78); (205, 0, 78); (206, 0, 78); (207, 0, 78); (208, 0, 78); (209, 0, 78); (210, 0, 78); (211, 0, 78); (212, 0, 78); (213, 0, 78); (214, 0, 78); (215, 0, 78); (216, 0, 78); (217, 0, 77); (218, 0, 77); (219, 0, 77); (220, 0, 77); (221, 0, 77); (222, 0, 77); (223, 0, 78); (224, 0, 78); (225, 0, 78); (226, 0, 78); (229, 0, 77); (230, 0, 77); (231, 0, 78); (232, 0, 78); (233, 0, 78); (234, 0, 78); (235, 0, 78); (236, 0, 78); (237, 0, 78); (238, 0, 78); (239, 0, 78); (240, 0, 78); (241, 0, 78); (257, 0, 78); (258, 0, 78); (273, 0, 78); (274, 0, 78); (275, 0, 77); (276, 0, 78); (277, 0, 78); (278, 0, 78); (279, 0, 78); (280, 0, 78); (281, 0, 78); (282, 0, 78); (283, 0, 78); (284, 0, 78); (285, 0, 78); (286, 0, 78); (287, 0, 78); (288, 0, 78); (289, 0, 78); (290, 0, 78); (291, 0, 78); (292, 0, 78); (293, 0, 78); (294, 0, 78); (295, 0, 78); (296, 0, 78); (297, 0, 78); (298, 0, 78)];
  [(201, 2, 117); (203, 1, 117); (204, 1, 117); (205, 1, 117); (207, 1, 117); (208, 1, 117); (209, 1, 117); (210, 1, 117); (211, 1, 117); (212, 1, 117); (213, 1, 117); (214, 1, 117); (215, 1, 117); (216, 1, 117); (231, 1, 117); (232, 1, 117); (233, 1, 117); (234, 1, 117); (235, 1, 117); (236, 1, 117); (237, 1, 117); (274, 1, 117)];
  [(198, 2, 117)];
  [(188, 2, 117); (217, 1, 41); (218, 1, 41)];
  [(217, 2, 114); (183, 0, 114); (184, 0, 114); (185, 0, 114); (186, 0, 114); (187, 0, 114); (188, 0, 117); (189, 0, 117); (190, 0, 117); (191, 0, 117); (192, 0, 117); (193, 0, 117); (194, 0, 117); (195, 0, 117); (196, 0, 117); (197, 0, 117); (198, 0, 117); (199, 0, 117); (200, 0, 117); (201, 0, 117); (202, 0, 117); (203, 0, 117); (204, 0, 117); (205, 0, 117); (206, 0, 117); (207, 0, 117); (208, 0, 117); (209, 0, 117); (210, 0, 117); (211, 0, 117); (212, 0, 117); (213, 0, 117); (214, 0, 117); (215, 0, 117); (216, 0, 117); (217, 0, 114); (218, 0, 114); (219, 0, 114); (220, 0, 114); (221, 0, 114); (222, 0, 114); (223, 0, 117); (224, 0, 117); (225, 0, 117); (226, 0, 117); (229, 0, 114); (230, 0, 114); (231, 0, 117); (232, 0, 117); (233, 0, 117); (234, 0, 117); (235, 0, 117); (236, 0, 117); (237, 0, 117); (238, 0, 117); (239, 0, 117); (240, 0, 117); (241, 0, 117); (257, 0, 117); (258, 0, 117); (273, 0, 117); (274, 0, 117); (275, 0, 114); (276, 0, 117); (277, 0, 117); (278, 0, 117); (279, 0, 117); (280, 0, 117); (281, 0, 117); (282, 0, 117); (283, 0, 117); (284, 0, 117); (285, 0, 117); (286, 0, 117); (287, 0, 117); (288, 0, 117); (289, 0, 117); (290, 0, 117); (291, 0, 117); (292, 0, 117); (293, 0, 117); (294, 0, 117); (295, 0, 117); (296, 0, 117); (297, 0, 117); (298, 0, 117)];
  [(218, 2, 114); (183, 0, 114); (184, 0, 114); (185, 0, 114); (186, 0, 114); (187, 0, 114); (188, 0, 117); (189, 0, 117); (190, 0, 117); (191, 0, 117); (192, 0, 117); (193, 0, 117); (194, 0, 117); (195, 0, 117); (196, 0, 117); (197, 0, 117); (198, 0, 117); (199, 0, 117); (200, 0, 117); (201, 0, 117); (202, 0, 117); (203, 0, 117); (204, 0, 117); (205, 0, 117); (206, 0, 117); (207, 0, 117); (208, 0, 117); (209, 0, 117); (210, 0, 117); (211, 0, 117); (212, 0, 117); (213, 0, 117); (214, 0, 117); (215, 0, 117); (216, 0, 117); (217, 0, 114); (218, 0, 114); (219, 0, 114); (220, 0, 114); (221, 0, 114); (222, 0, 114); (223, 0, 117); (224, 0, 117); (225, 0, 117); (226, 0, 117); (229, 0, 114); (230, 0, 114); (231, 0, 117); (232, 0, 117); (233, 0, 117); (234, 0, 117); (235, 0, 117); (236, 0, 117); (237, 0, 117); (238, 0, 117); (239, 0, 117); (240, 0, 117); (241, 0, 117); (257, 0, 117); (258, 0, 117); (273, 0, 117); (274, 0, 117); (275, 0, 114); (276, 0, 117); (277, 0, 117); (278, 0, 117); (279, 0, 117); (280, 0, 117); (281, 0, 117); (282, 0, 117); (283, 0, 117); (284, 0, 117); (285, 0, 117); (286, 0, 117); (287, 0, 117); (288, 0, 117); (289, 0, 117); (290, 0, 117); (291, 0, 117); (292, 0, 117); (293, 0, 117); (294, 0, 117); (295, 0, 117); (296, 0, 117); (297, 0, 117); (298, 0, 117)];
  [(275, 2, 114); (188, 0, 25); (189, 0, 25); (190, 0, 25); (191, 0, 25); (192, 0, 25); (193, 0, 25); (194, 0, 25); (195, 0, 25); (196, 0, 25); (197, 0, 25); (198, 0, 25); (199, 0, 25); (200, 0, 25); (201, 0, 25); (202, 0, 25); (203, 0, 25); (204, 0, 25); (205, 0, 25); (206, 0, 25); (207, 0, 25); (208, 0, 25); (209, 0, 25); (210, 0, 25); (211, 0, 25); (212, 0, 25); (213, 0, 25); (214, 0, 25); (215, 0, 25); (216, 0, 25); (223, 0, 25); (224, 0, 25); (225, 0, 25); (226, 0, 25); (231, 0, 25); (232, 0, 25); (233, 0, 25); (234, 0, 25); (235, 0, 25); (236, 0, 25); (237, 0, 25); (238, 0, 25); (239, 0, 25); (240, 0, 25); (241, 0, 25); (257, 0, 25); (258, 0, 25); (273, 0, 25); (274, 0, 25); (276, 0, 25); (277, 0, 25); (278, 0, 25); (279, 0, 25); (280, 0, 25); (281, 0, 25); (282, 0, 25); (283, 0, 25); (284, 0, 25); (285, 0, 25); (286, 0, 25); (287, 0, 25); (288, 0, 25); (289, 0, 25); (290, 0, 25); (291, 0, 25); (292, 0, 25); (293, 0, 25); (294, 0, 25); (295, 0, 25); (296, 0, 25); (297, 0, 25); (298, 0, 25)];
  [(203, 2, 117)];
  [(213, 2, 117); (188, 0, 117); (189, 0, 117); (190, 0, 117); (191, 0, 117); (192, 0, 117); (193, 0, 117); (194, 0, 117); (195, 0, 117); (196, 0, 117); (197, 0, 117); (198, 0, 117); (199, 0, 117); (200, 0, 117); (201, 0, 117); (202, 0, 117); (203, 0, 117); (204, 0, 117); (205, 0, 117); (206, 0, 117); (207, 0, 117); (208, 0, 117); (209, 0, 117); (210, 0, 117); (211, 0, 117); (212, 0, 117); (213, 0, 117); (214, 0, 117); (215, 0, 117); (216, 0, 117); (223, 0, 117); (224, 0, 117); (225, 0, 117); (226, 0, 117); (231, 0, 117); (232, 0, 117); (233, 0, 117); (234, 0, 117); (235, 0, 117); (236, 0, 117); (237, 0, 117); (238, 0, 117); (239, 0, 117); (240, 0, 117); (241, 0, 117); (257, 0, 117); (258, 0, 117); (273, 0, 117); (274, 0, 117); (276, 0, 117); (277, 0, 117); (278, 0, 117); (279, 0, 117); (280, 0, 117); (281, 0, 117); (282, 0, 117); (283, 0, 117); (284, 0, 117); (285, 0, 117); (286, 0, 117); (287, 0, 117); (288, 0, 117); (289, 0, 117); (290, 0, 117); (291, 0, 117); (292, 0, 117); (293, 0, 117); (294, 0, 117); (295, 0, 117); (296, 0, 117); (297, 0, 117); (298, 0, 117)];
  [(214, 2, 117); (220, 2, 114); (222, 2, 114)];
  [(219, 2, 114); (221, 2, 114)];
  [(204, 2, 117); (205, 2, 117)];
  [(216, 2, 117); (188, 0, 117); (189, 0, 117); (190, 0, 117); (191, 0, 117); (192, 0, 117); (193, 0, 117); (194, 0, 117); (195, 0, 117); (196, 0, 117); (197, 0, 117); (198, 0, 117); (199, 0, 117); (200, 0, 117); (201, 0, 117); (202, 0, 117); (203, 0, 117); (204, 0, 117); (205, 0, 117); (206, 0, 117); (207, 0, 117); (208, 0, 117); (209, 0, 117); (210, 0, 117); (211, 0, 117); (212, 0, 117); (213, 0, 117); (214, 0, 117); (215, 0, 117); (216, 0, 117); (223, 0, 117); (224, 0, 117); (225, 0, 117); (226, 0, 117); (231, 0, 117); (232, 0, 117); (233, 0, 117); (234, 0, 117); (235, 0, 117); (236, 0, 117); (237, 0, 117); (238, 0, 117); (239, 0, 117); (240, 0, 117); (241, 0, 117); (257, 0, 117); (258, 0, 117); (273, 0, 117); (274, 0, 117); (276, 0, 117); (277, 0, 117); (278, 0, 117); (279, 0, 117); (280, 0, 117); (281, 0, 117); (282, 0, 117); (283, 0, 117); (284, 0, 117); (285, 0, 117); (286, 0, 117); (287, 0, 117); (288, 0, 117); (289, 0, 117); (290, 0, 117); (291, 0, 117); (292, 0, 117); (293, 0, 117); (294, 0, 117); (295, 0, 117); (296, 0, 117); (297, 0, 117); (298, 0, 117)];
  [(215, 2, 117); (188, 0, 117); (189, 0, 117); (190, 0, 117); (191, 0, 117); (192, 0, 117); (193, 0, 117); (194, 0, 117); (195, 0, 117); (196, 0, 117); (197, 0, 117); (198, 0, 117); (199, 0, 117); (200, 0, 117); (201, 0, 117); (202, 0, 117); (203, 0, 117); (204, 0, 117); (205, 0, 117); (206, 0, 117); (207, 0, 117); (208, 0, 117); (209, 0, 117); (210, 0, 117); (211, 0, 117); (212, 0, 117); (213, 0, 117); (214, 0, 117); (215, 0, 117); (216, 0, 117); (223, 0, 117); (224, 0, 117); (225, 0, 117); (226, 0, 117); (231, 0, 117); (232, 0, 117); (233, 0, 117); (234, 0, 117); (235, 0, 117); (236, 0, 117); (237, 0, 117); (238, 0, 117); (239, 0, 117); (240, 0, 117); (241, 0, 117); (257, 0, 117); (258, 0, 117); (273, 0, 117); (274, 0, 117); (276, 0, 117); (277, 0, 117); (278, 0, 117); (279, 0, 117); (280, 0, 117); (281, 0, 117); (282, 0, 117); (283, 0, 117); (284, 0, 117); (285, 0, 117); (286, 0, 117); (287, 0, 117); (288, 0, 117); (289, 0, 117); (290, 0, 117); (291, 0, 117); (292, 0, 117); (293, 0, 117); (294, 0, 117); (295, 0, 117); (296, 0, 117); (297, 0, 117); (298, 0, 117)];
  [(231, 2, 117); (188, 0, 117); (189, 0, 117); (190, 0, 117); (191, 0, 117); (192, 0, 117); (193, 0, 117); (194, 0, 117); (195, 0, 117); (196, 0, 117); (197, 0, 117); (198, 0, 117); (199, 0, 117); (200, 0, 117); (201, 0, 117); (202, 0, 117); (203, 0, 117); (204, 0, 117); (205, 0, 117); (206, 0, 117); (207, 0, 117); (208, 0, 117); (209, 0, 117); (210, 0, 117); (211, 0, 117); (212, 0, 117); (213, 0, 117); (214, 0, 117); (215, 0, 117); (216, 0, 117); (223, 0, 117); (224, 0, 117); (225, 0, 117); (226, 0, 117); (231, 0, 117); (232, 0, 117); (233, 0, 117); (234, 0, 117); (235, 0, 117); (236, 0, 117); (237, 0, 117); (238, 0, 117); (239, 0, 117); (240, 0, 117); (241, 0, 117); (257, 0, 117); (258, 0, 117); (273, 0, 117); (274, 0, 117); (276, 0, 117); (277, 0, 117); (278, 0, 117); (279, 0, 117); (280, 0, 117); (281, 0, 117); (282, 0, 117); (283, 0, 117); (284, 0, 117); (285, 0, 117); (286, 0, 117); (287, 0, 117); (288, 0, 117); (289, 0, 117); (290, 0, 117); (291, 0, 117); (292, 0, 117); (293, 0, 117); (294, 0, 117); (295, 0, 117); (296, 0, 117); (297, 0, 117); (298, 0, 117)];
  [(232, 2, 117); (188, 0, 117); (189, 0, 117); (190, 0, 117); (191, 0, 117); (192, 0, 117); (193, 0, 117); (194, 0, 117); (195, 0, 117); (196, 0, 117); (197, 0, 117); (198, 0, 117); (199, 0, 117); (200, 0, 117); (201, 0, 117); (202, 0, 117); (203, 0, 117); (204, 0, 117); (205, 0, 117); (206, 0, 117); (207, 0, 117); (208, 0, 117); (209, 0, 117); (210, 0, 117); (211, 0, 117); (212, 0, 117); (213, 0, 117); (214, 0, 117); (215, 0, 117); (216, 0, 117); (223, 0, 117); (224, 0, 117); (225, 0, 117); (226, 0, 117); (231, 0, 117); (232, 0, 117); (233, 0, 117); (234, 0, 117); (235, 0, 117); (236, 0, 117); (237, 0, 117); (238, 0, 117); (239, 0, 117); (240, 0, 117); (241, 0, 117); (257, 0, 117); (258, 0, 117); (273, 0, 117); (274, 0, 117); (276, 0, 117); (277, 0, 117); (278, 0, 117); (279, 0, 117); (280, 0, 117); (281, 0, 117); (282, 0, 117); (283, 0, 117); (284, 0, 117); (285, 0, 117); (286, 0, 117); (287, 0, 117); (288, 0, 117); (289, 0, 117); (290, 0, 117); (291, 0, 117); (292, 0, 117); (293, 0, 117); (294, 0, 117); (295, 0, 117); (296, 0, 117); (297, 0, 117); (298, 0, 117)];
  [(233, 2, 117); (188, 0, 117); (189, 0, 117); (190, 0, 117); (191, 0, 117); (192, 0, 117); (193, 0, 117); (194, 0, 117); (195, 0, 117); (196, 0, 117); (197, 0, 117); (198, 0, 117); (199, 0, 117); (200, 0, 117); (201, 0, 117); (202, 0, 117); (203, 0, 117); (204, 0, 117); (205, 0, 117); (206, 0, 117); (207, 0, 117); (208, 0, 117); (209, 0, 117); (210, 0, 117); (211, 0, 117); (212, 0, 117); (213, 0, 117); (214, 0, 117); (215, 0, 117); (216, 0, 117); (223, 0, 117); (224, 0, 117); (225, 0, 117); (226, 0, 117); (231, 0, 117); (232, 0, 117); (233, 0, 117); (234, 0, 117); (235, 0, 117); (236, 0, 117); (237, 0, 117); (238, 0, 117); (239, 0, 117); (240, 0, 117); (241, 0, 117); (257, 0, 117); (258, 0, 117); (273, 0, 117); (274, 0, 117); (276, 0, 117); (277, 0, 117); (278, 0, 117); (279, 0, 117); (280, 0, 117); (281, 0, 117); (282, 0, 117); (283, 0, 117); (284, 0, 117); (285, 0, 117); (286, 0, 117); (287, 0, 117); (288, 0, 117); (289, 0, 117); (290, 0, 117); (291, 0, 117); (292, 0, 117); (293, 0, 117); (294, 0, 117); (295, 0, 117); (296, 0, 117); (297, 0, 117); (298, 0, 117)];
  [(234, 2, 117); (188, 0, 117); (189, 0, 117); (190, 0, 117); (191, 0, 117); (192, 0, 117); (193, 0, 117); (194, 0, 117); (195, 0, 117); (196, 0, 117); (197, 0, 117); (198, 0, 117); (199, 0, 117); (200, 0, 117); (201, 0, 117); (202, 0, 117); (203, 0, 117); (204, 0, 117); (205, 0, 117); (206, 0, 117); (207, 0, 117); (208, 0, 117); (209, 0, 117); (210, 0, 117); (211, 0, 117); (212, 0, 117); (213, 0, 117); (214, 0, 117); (215, 0, 117); (216, 0, 117); (223, 0, 117); (224, 0, 117); (225, 0, 117); (226, 0, 117); (231, 0, 117); (232, 0, 117); (233, 0, 117); (234, 0, 117); (235, 0, 117); (236, 0, 117); (237, 0, 117); (238, 0, 117); (239, 0, 117); (240, 0, 117); (241, 0, 117); (257, 0, 117); (258, 0, 117); (273, 0, 117); (274, 0, 117); (276, 0, 117); (277, 0, 117); (278, 0, 117); (279, 0, 117); (280, 0, 117); (281, 0, 117); (282, 0, 117); (283, 0, 117); (284, 0, 117); (285, 0, 117); (286, 0, 117); (287, 0, 117); (288, 0, 117); (289, 0, 117); (290, 0, 117); (291, 0, 117); (292, 0, 117); (293, 0, 117); (294, 0, 117); (295, 0, 117); (296, 0, 117); (297, 0, 117); (298, 0, 117)];
  [(235, 2, 117); (188, 0, 117); (189, 0, 117); (190, 0, 117); (191, 0, 117); (192, 0, 117); (193, 0, 117); (194, 0, 117); (195, 0, 117); (196, 0, 117); (197, 0, 117); (198, 0, 117); (199, 0, 117); (200, 0, 117); (201, 0, 117); (202, 0, 117); (203, 0, 117); (204, 0, 117); (205, 0, 117); (206, 0, 117); (207, 0, 117); (208, 0, 117); (209, 0, 117); (210, 0, 117); (211, 0, 117); (212, 0, 117); (213, 0, 117); (214, 0, 117); (215, 0, 117); (216, 0, 117); (223, 0, 117); (224, 0, 117); (225, 0, 117); (226, 0, 117); (231, 0, 117); (232, 0, 117); (233, 0, 117); (234, 0, 117); (235, 0, 117); (236, 0, 117); (237, 0, 117); (238, 0, 117); (239, 0, 117); (240, 0, 117); (241, 0, 117); (257, 0, 117); (258, 0, 117); (273, 0, 117); (274, 0, 117); (276, 0, 117); (277, 0, 117); (278, 0, 117); (279, 0, 117); (280, 0, 117); (281, 0, 117); (282, 0, 117); (283, 0, 117); (284, 0, 117); (285, 0, 117); (286, 0, 117); (287, 0, 117); (288, 0, 117); (289, 0, 117); (290, 0, 117); (291, 0, 117); (292, 0, 117); (293, 0, 117); (294, 0, 117); (295, 0, 117); (296, 0, 117); (297, 0, 117); (298, 0, 117)];
  [(236, 2, 117); (188, 0, 117); (189, 0, 117); (190, 0, 117); (191, 0, 117); (192, 0, 117); (193, 0, 117); (194, 0, 117); (195, 0, 117); (196, 0, 117); (197, 0, 117); (198, 0, 117); (199, 0, 117); (200, 0, 117); (201, 0, 117); (202, 0, 117); (203, 0, 117); (204, 0, 117); (205, 0, 117); (206, 0, 117); (207, 0, 117); (208, 0, 117); (209, 0, 117); (210, 0, 117); (211, 0, 117); (212, 0, 117); (213, 0, 117); (214, 0, 117); (215, 0, 117); (216, 0, 117); (223, 0, 117); (224, 0, 117); (225, 0, 117); (226, 0, 117); (231, 0, 117); (232, 0, 117); (233, 0, 117); (234, 0, 117); (235, 0, 117); (236, 0, 117); (237, 0, 117); (238, 0, 117); (239, 0, 117); (240, 0, 117); (241, 0, 117); (257, 0, 117); (258, 0, 117); (273, 0, 117); (274, 0, 117); (276, 0, 117); (277, 0, 117); (278, 0, 117); (279, 0, 117); (280, 0, 117); (281, 0, 117); (282, 0, 117); (283, 0, 117); (284, 0, 117); (285, 0, 117); (286, 0, 117); (287, 0, 117); (288, 0, 117); (289, 0, 117); (290, 0, 117); (291, 0, 117); (292, 0, 117); (293, 0, 117); (294, 0, 117); (295, 0, 117); (296, 0, 117); (297, 0, 117); (298, 0, 117)];
  [(237, 2, 117); (188, 0, 117); (189, 0, 117); (190, 0, 117); (191, 0, 117); (192, 0, 117); (193, 0, 117); (194, 0, 117); (195, 0, 117); (196, 0, 117); (197, 0, 117); (198, 0, 117); (199, 0, 117); (200, 0, 117); (201, 0, 117); (202, 0, 117); (203, 0, 117); (204, 0, 117); (205, 0, 117); (206, 0, 117); (207, 0, 117); (208, 0, 117); (209, 0, 117); (210, 0, 117); (211, 0, 117); (212, 0, 117); (213, 0, 117); (214, 0, 117); (215, 0, 117); (216, 0, 117); (223, 0, 117); (224, 0, 117); (225, 0, 117); (226, 0, 117); (231, 0, 117); (232, 0, 117); (233, 0, 117); (234, 0, 117); (235, 0, 117); (236, 0, 117); (237, 0, 117); (238, 0, 117); (239, 0, 117); (240, 0, 117); (241, 0, 117); (257, 0, 117); (258, 0, 117); (273, 0, 117); (274, 0, 117); (276, 0, 117); (277, 0, 117); (278, 0, 117); (279, 0, 117); (280, 0, 117); (281, 0, 117); (282, 0, 117); (283, 0, 117); (284, 0, 117); (285, 0, 117); (286, 0, 117); (287, 0, 117); (288, 0, 117); (289, 0, 117); (290, 0, 117); (291, 0, 117); (292, 0, 117); (293, 0, 117); (294, 0, 117); (295, 0, 117); (296, 0, 117); (297, 0, 117); (298, 0, 117)];
  [(208, 2, 117); (188, 0, 117); (189, 0, 117); (190, 0, 117); (191, 0, 117); (192, 0, 117); (193, 0, 117); (194, 0, 117); (195, 0, 117); (196, 0, 117); (197, 0, 117); (198, 0, 117); (199, 0, 117); (200, 0, 117); (201, 0, 117); (202, 0, 117); (203, 0, 117); (204, 0, 117); (205, 0, 117); (206, 0, 117); (207, 0, 117); (208, 0, 117); (209, 0, 117); (210, 0, 117); (211, 0, 117); (212, 0, 117); (213, 0, 117); (214, 0, 117); (215, 0, 117); (216, 0, 117); (223, 0, 117); (224, 0, 117); (225, 0, 117); (226, 0, 117); (231, 0, 117); (232, 0, 117); (233, 0, 117); (234, 0, 117); (235, 0, 117); (236, 0, 117); (237, 0, 117); (238, 0, 117); (239, 0, 117); (240, 0, 117); (241, 0, 117); (257, 0, 117); (258, 0, 117); (273, 0, 117); (274, 0, 117); (276, 0, 117); (277, 0, 117); (278, 0, 117); (279, 0, 117); (280, 0, 117); (281, 0, 117); (282, 0, 117); (283, 0, 117); (284, 0, 117); (285, 0, 117); (286, 0, 117); (287, 0, 117); (288, 0, 117); (289, 0, 117); (290, 0, 117); (291, 0, 117); (292, 0, 117); (293, 0, 117); (294, 0, 117); (295, 0, 117); (296, 0, 117); (297, 0, 117); (298, 0, 117)];
  [(207, 2, 117); (188, 0, 117); (189, 0, 117); (190, 0, 117); (191, 0, 117); (192, 0, 117); (193, 0, 117); (194, 0, 117); (195, 0, 117); (196, 0, 117); (197, 0, 117); (198, 0, 117); (199, 0, 117); (200, 0, 117); (201, 0, 117); (202, 0, 117); (203, 0, 117); (204, 0, 117); (205, 0, 117); (206, 0, 117); (207, 0, 117); (208, 0, 117); (209, 0, 117); (210, 0, 117); (211, 0, 117); (212, 0, 117); (213, 0, 117); (214, 0, 117); (215, 0, 117); (216, 0, 117); (223, 0, 117); (224, 0, 117); (225, 0, 117); (226, 0, 117); (231, 0, 117); (232, 0, 117); (233, 0, 117); (234, 0, 117); (235, 0, 117); (236, 0, 117); (237, 0, 117); (238, 0, 117); (239, 0, 117); (240, 0, 117); (241, 0, 117); (257, 0, 117); (258, 0, 117); (273, 0, 117); (274, 0, 117); (276, 0, 117); (277, 0, 117); (278, 0, 117); (279, 0, 117); (280, 0, 117); (281, 0, 117); (282, 0, 117); (283, 0, 117); (284, 0, 117); (285, 0, 117); (286, 0, 117); (287, 0, 117); (288, 0, 117); (289, 0, 117); (290, 0, 117); (291, 0, 117); (292, 0, 117); (293, 0, 117); (294, 0, 117); (295, 0, 117); (296, 0, 117); (297, 0, 117); (298, 0, 117)];
  [(210, 2, 117); (188, 0, 117); (189, 0, 117); (190, 0, 117); (191, 0, 117); (192, 0, 117); (193, 0, 117); (194, 0, 117); (195, 0, 117); (196, 0, 117); (197, 0, 117); (198, 0, 117); (199, 0, 117); (200, 0, 117); (201, 0, 117); (202, 0, 117); (203, 0, 117); (204, 0, 117); (205, 0, 117); (206, 0, 117); (207, 0, 117); (208, 0, 117); (209, 0, 117); (210, 0, 117); (211, 0, 117); (212, 0, 117); (213, 0, 117); (214, 0, 117); (215, 0, 117); (216, 0, 117); (223, 0, 117); (224, 0, 117); (225, 0, 117); (226, 0, 117); (231, 0, 117); (232, 0, 117); (233, 0, 117); (234, 0, 117); (235, 0, 117); (236, 0, 117); (237, 0, 117); (238, 0, 117); (239, 0, 117); (240, 0, 117); (241, 0, 117); (257, 0, 117); (258, 0, 117); (273, 0, 117); (274, 0, 117); (276, 0, 117); (277, 0, 117); (278, 0, 117); (279, 0, 117); (280, 0, 117); (281, 0, 117); (282, 0, 117); (283, 0, 117); (284, 0, 117); (285, 0, 117); (286, 0, 117); (287, 0, 117); (288, 0, 117); (289, 0, 117); (290, 0, 117); (291, 0, 117); (292, 0, 117); (293, 0, 117); (294, 0, 117); (295, 0, 117); (296, 0, 117); (297, 0, 117); (298, 0, 117)];
  [(209, 2, 117); (188, 0, 117); (189, 0, 117); (190, 0, 117); (191, 0, 117); (192, 0, 117); (193, 0, 117); (194, 0, 117); (195, 0, 117); (196, 0, 117); (197, 0, 117); (198, 0, 117); (199, 0, 117); (200, 0, 117); (201, 0, 117); (202, 0, 117); (203, 0, 117); (204, 0, 117); (205, 0, 117); (206, 0, 117); (207, 0, 117); (208, 0, 117); (209, 0, 117); (210, 0, 117); (211, 0, 117); (212, 0, 117); (213, 0, 117); (214, 0, 117); (215, 0, 117); (216, 0, 117); (223, 0, 117); (224, 0, 117); (225, 0, 117); (226, 0, 117); (231, 0, 117); (232, 0, 117); (233, 0, 117); (234, 0, 117); (235, 0, 117); (236, 0, 117); (237, 0, 117); (238, 0, 117); (239, 0, 117); (240, 0, 117); (241, 0, 117); (257, 0, 117); (258, 0, 117); (273, 0, 117); (274, 0, 117); (276, 0, 117); (277, 0, 117); (278, 0, 117); (279, 0, 117); (280, 0, 117); (281, 0, 117); (282, 0, 117); (283, 0, 117); (284, 0, 117); (285, 0, 117); (286, 0, 117); (287, 0, 117); (288, 0, 117); (289, 0, 117); (290, 0, 117); (291, 0, 117); (292, 0, 117); (293, 0, 117); (294, 0, 117); (295, 0, 117); (296, 0, 117); (297, 0, 117); (298, 0, 117)];
  [(211, 2, 117); (188, 0, 117); (189, 0, 117); (190, 0, 117); (191, 0, 117); (192, 0, 117); (193, 0, 117); (194, 0, 117); (195, 0, 117); (196, 0, 117); (197, 0, 117); (198, 0, 117); (199, 0, 117); (200, 0, 117); (201, 0, 117); (202, 0, 117); (203, 0, 117); (204, 0, 117); (205, 0, 117); (206, 0, 117); (207, 0, 117); (208, 0, 117); (209, 0, 117); (210, 0, 117); (211, 0, 117); (212, 0, 117); (213, 0, 117); (214, 0, 117); (215, 0, 117); (216, 0, 117); (223, 0, 117); (224, 0, 117); (225, 0, 117); (226, 0, 117); (231, 0, 117); (232, 0, 117); (233, 0, 117); (234, 0, 117); (235, 0, 117); (236, 0, 117); (237, 0, 117); (238, 0, 117); (239, 0, 117); (240, 0, 117); (241, 0, 117); (257, 0, 117); (258, 0, 117); (273, 0, 117); (274, 0, 117); (276, 0, 117); (277, 0, 117); (278, 0, 117); (279, 0, 117); (280, 0, 117); (281, 0, 117); (282, 0, 117); (283, 0, 117); (284, 0, 117); (285, 0, 117); (286, 0, 117); (287, 0, 117); (288, 0, 117); (289, 0, 117); (290, 0, 117); (291, 0, 117); (292, 0, 117); (293, 0, 117); (294, 0, 117); (295, 0, 117); (296, 0, 117); (297, 0, 117); (298, 0, 117)];
  [(212, 2, 117); (188, 0, 117); (189, 0, 117); (190, 0, 117); (191, 0, 117); (192, 0, 117); (193, 0, 117); (194, 0, 117); (195, 0, 117); (196, 0, 117); (197, 0, 117); (198, 0, 117); (199, 0, 117); (200, 0, 117); (201, 0, 117); (202, 0, 117); (203, 0, 117); (204, 0, 117); (205, 0, 117); (206, 0, 117); (207, 0, 117); (208, 0, 117); (209, 0, 117); (210, 0, 117); (211, 0, 117); (212, 0, 117); (213, 0, 117); (214, 0, 117); (215, 0, 117); (216, 0, 117); (223, 0, 117); (224, 0, 117); (225, 0, 117); (226, 0, 117); (231, 0, 117); (232, 0, 117); (233, 0, 117); (234, 0, 117); (235, 0, 117); (236, 0, 117); (237, 0, 117); (238, 0, 117); (239, 0, 117); (240, 0, 117); (241, 0, 117); (257, 0, 117); (258, 0, 117); (273, 0, 117); (274, 0, 117); (276, 0, 117); (277, 0, 117); (278, 0, 117); (279, 0, 117); (280, 0, 117); (281, 0, 117); (282, 0, 117); (283, 0, 117); (284, 0, 117); (285, 0, 117); (286, 0, 117); (287, 0, 117); (288, 0, 117); (289, 0, 117); (290, 0, 117); (291, 0, 117); (292, 0, 117); (293, 0, 117); (294, 0, 117); (295, 0, 117); (296, 0, 117); (297, 0, 117); (298, 0, 117)];
  [(274, 2, 117); (292, 0, 31)];
  [(35, 6, 45); (309, 0, 45); (310, 0, 45)];
  [(117, 3, 87)];
  [(357, 2, 103)];
  [(115, 6, 47); (175, 0, 80); (176, 0, 80); (177, 0, 80); (178, 0, 80); (179, 0, 80); (180, 0, 80); (181, 0, 80); (280, 0, 80); (281, 0, 80); (282, 0, 80); (283, 0, 80); (284, 0, 80); (285, 0, 80); (286, 0, 80); (287, 0, 80); (288, 0, 80); (289, 0, 80); (290, 0, 80); (291, 0, 80); (292, 0, 80); (293, 0, 80); (294, 0, 80); (295, 0, 80); (296, 0, 80); (297, 0, 80); (298, 0, 80)];
  [(122, 3, 91); (217, 1, 92); (218, 1, 92)];
  [(121, 3, 91)];
  [(112, 2, 47); (108, 0, 2); (109, 0, 2)];
  [(39, 2, 46); (42, 0, 80); (43, 0, 80); (44, 0, 80); (45, 0, 80); (46, 0, 80); (47, 0, 80); (48, 0, 80); (49, 0, 80)];
  [(48, 1, 80)];
  [(45, 1, 80)];
  [(43, 1, 80); (37, 0, 80)];
  [(49, 1, 80)];
  [(40, 2, 46); (42, 1, 80); (44, 1, 80); (46, 1, 80)];
  [(47, 1, 80)];
  [(36, 6, 45)];
  [(25, 2, 80); (175, 0, 80); (176, 0, 80); (177, 0, 80); (178, 0, 80); (179, 0, 80); (180, 0, 80); (181, 0, 80); (280, 0, 80); (281, 0, 80); (282, 0, 80); (283, 0, 80); (284, 0, 80); (285, 0, 80); (286, 0, 80); (287, 0, 80); (288, 0, 80); (289, 0, 80); (290, 0, 80); (291, 0, 80); (292, 0, 80); (293, 0, 80); (294, 0, 80); (295, 0, 80); (296, 0, 80); (297, 0, 80); (298, 0, 80)];
  [(20, 5, 45)];
  [(23, 2, 80); (24, 0, 80); (25, 0, 80)];
  [(146, 1, 63); (299, 0, 63); (300, 0, 63); (301, 0, 96); (302, 0, 96); (303, 0, 96); (304, 0, 96); (305, 0, 75); (306, 0, 75); (307, 0, 96); (309, 0, 97); (310, 0, 97); (340, 0, 96); (341, 0, 96); (342, 0, 96)];
  [(140, 5, 61); (147, 0, 62); (148, 0, 62)];
  [(144, 1, 63)];
  [(172, 2, 111); (182, 0, 111); (183, 0, 113); (184, 0, 113); (185, 0, 113); (186, 0, 113); (187, 0, 113); (188, 0, 115); (189, 0, 115); (190, 0, 115); (191, 0, 115); (192, 0, 115); (193, 0, 115); (194, 0, 115); (195, 0, 115); (196, 0, 115); (197, 0, 115); (198, 0, 115); (199, 0, 115); (200, 0, 115); (201, 0, 115); (202, 0, 115); (203, 0, 115); (204, 0, 115); (205, 0, 115); (206, 0, 115); (207, 0, 115); (208, 0, 115); (209, 0, 115); (210, 0, 115); (211, 0, 115); (212, 0, 115); (213, 0, 115); (214, 0, 115); (215, 0, 115); (216, 0, 115); (217, 0, 113); (218, 0, 113); (219, 0, 113); (220, 0, 113); (221, 0, 113); (222, 0, 113); (223, 0, 115); (224, 0, 115); (225, 0, 115); (226, 0, 115); (229, 0, 113); (230, 0, 113); (231, 0, 115); (232, 0, 115); (233, 0, 115); (234, 0, 115); (235, 0, 115); (236, 0, 115); (237, 0, 115); (238, 0, 115); (239, 0, 115); (240, 0, 115); (241, 0, 115); (257, 0, 115); (258, 0, 115); (273, 0, 115); (274, 0, 115); (275, 0, 113); (276, 0, 115); (277, 0, 115); (278, 0, 115); (279, 0, 115); (280, 0, 115); (281, 0, 115); (282, 0, 115); (283, 0, 115); (284, 0, 115); (285, 0, 115); (286, 0, 115); (287, 0, 115); (288, 0, 115); (289, 0, 115); (290, 0, 115); (291, 0, 115); (292, 0, 115); (293, 0, 115); (294, 0, 115); (295, 0, 115); (296, 0, 115); (297, 0, 115); (298, 0, 115)];
  [(318, 1, 112)];
  [(317, 1, 111)];
  [(319, 1, 111)];
  [(182, 2, 111)];
  [(125, 6, 53)];
  [(129, 3, 60)];
  [(156, 2, 104); (157, 0, 104); (183, 0, 106); (184, 0, 106); (185, 0, 106); (186, 0, 106); (187, 0, 106); (188, 0, 110); (189, 0, 110); (190, 0, 110); (191, 0, 110); (192, 0, 110); (193, 0, 110); (194, 0, 110); (195, 0, 110); (196, 0, 110); (197, 0, 110); (198, 0, 110); (199, 0, 110); (200, 0, 110); (201, 0, 110); (202, 0, 110); (203, 0, 110); (204, 0, 110); (205, 0, 110); (206, 0, 110); (207, 0, 110); (208, 0, 110); (209, 0, 110); (210, 0, 110); (211, 0, 110); (212, 0, 110); (213, 0, 110); (214, 0, 110); (215, 0, 110); (216, 0, 110); (217, 0, 106); (218, 0, 106); (219, 0, 106); (220, 0, 106); (221, 0, 106); (222, 0, 106); (223, 0, 110); (224, 0, 110); (225, 0, 110); (226, 0, 110); (229, 0, 106); (230, 0, 106); (231, 0, 110); (232, 0, 110); (233, 0, 110); (234, 0, 110); (235, 0, 110); (236, 0, 110); (237, 0, 110); (238, 0, 110); (239, 0, 110); (240, 0, 110); (241, 0, 110); (257, 0, 110); (258, 0, 110); (273, 0, 110); (274, 0, 110); (275, 0, 106); (276, 0, 110); (277, 0, 110); (278, 0, 110); (279, 0, 110); (280, 0, 110); (281, 0, 110); (282, 0, 110); (283, 0, 110); (284, 0, 110); (285, 0, 110); (286, 0, 110); (287, 0, 110); (288, 0, 110); (289, 0, 110); (290, 0, 110); (291, 0, 110); (292, 0, 110); (293, 0, 110); (294, 0, 110); (295, 0, 110); (296, 0, 110); (297, 0, 110); (298, 0, 110)];
  [(159, 1, 105)];
  [(158, 1, 105)];
  [(157, 2, 104); (161, 0, 104); (162, 0, 104)];
  [(133, 5, 53); (321, 0, 53); (322, 0, 53); (323, 0, 58); (324, 0, 58); (325, 0, 58); (326, 0, 58)];
  [(169, 3, 58); (183, 0, 65); (184, 0, 65); (185, 0, 65); (186, 0, 65); (187, 0, 65); (188, 0, 71); (189, 0, 71); (190, 0, 71); (191, 0, 71); (192, 0, 71); (193, 0, 71); (194, 0, 71); (195, 0, 71); (196, 0, 71); (197, 0, 71); (198, 0, 71); (199, 0, 71); (200, 0, 71); (201, 0, 71); (202, 0, 71); (203, 0, 71); (204, 0, 71); (205, 0, 71); (206, 0, 71); (207, 0, 71); (208, 0, 71); (209, 0, 71); (210, 0, 71); (211, 0, 71); (212, 0, 71); (213, 0, 71); (214, 0, 71); (215, 0, 71); (216, 0, 71); (217, 0, 65); (218, 0, 65); (219, 0, 65); (220, 0, 65); (221, 0, 65); (222, 0, 65); (223, 0, 71); (224, 0, 71); (225, 0, 71); (226, 0, 71); (229, 0, 65); (230, 0, 65); (231, 0, 71); (232, 0, 71); (233, 0, 71); (234, 0, 71); (235, 0, 71); (236, 0, 71); (237, 0, 71); (238, 0, 71); (239, 0, 71); (240, 0, 71); (241, 0, 71); (257, 0, 71); (258, 0, 71); (273, 0, 71); (274, 0, 71); (275, 0, 65); (276, 0, 71); (277, 0, 71); (278, 0, 71); (279, 0, 71); (280, 0, 71); (281, 0, 71); (282, 0, 71); (283, 0, 71); (284, 0, 71); (285, 0, 71); (286, 0, 71); (287, 0, 71); (288, 0, 71); (289, 0, 71); (290, 0, 71); (291, 0, 71); (292, 0, 71); (293, 0, 71); (294, 0, 71); (295, 0, 71); (296, 0, 71); (297, 0, 71); (298, 0, 71)];
  [(167, 3, 58); (183, 0, 65); (184, 0, 65); (185, 0, 65); (186, 0, 65); (187, 0, 65); (188, 0, 71); (189, 0, 71); (190, 0, 71); (191, 0, 71); (192, 0, 71); (193, 0, 71); (194, 0, 71); (195, 0, 71); (196, 0, 71); (197, 0, 71); (198, 0, 71); (199, 0, 71); (200, 0, 71); (201, 0, 71); (202, 0, 71); (203, 0, 71); (204, 0, 71); (205, 0, 71); (206, 0, 71); (207, 0, 71); (208, 0, 71); (209, 0, 71); (210, 0, 71); (211, 0, 71); (212, 0, 71); (213, 0, 71); (214, 0, 71); (215, 0, 71); (216, 0, 71); (217, 0, 65); (218, 0, 65); (219, 0, 65); (220, 0, 65); (221, 0, 65); (222, 0, 65); (223, 0, 71); (224, 0, 71); (225, 0, 71); (226, 0, 71); (229, 0, 65); (230, 0, 65); (231, 0, 71); (232, 0, 71); (233, 0, 71); (234, 0, 71); (235, 0, 71); (236, 0, 71); (237, 0, 71); (238, 0, 71); (239, 0, 71); (240, 0, 71); (241, 0, 71); (257, 0, 71); (258, 0, 71); (273, 0, 71); (274, 0, 71); (275, 0, 65); (276, 0, 71); (277, 0, 71); (278, 0, 71); (279, 0, 71); (280, 0, 71); (281, 0, 71); (282, 0, 71); (283, 0, 71); (284, 0, 71); (285, 0, 71); (286, 0, 71); (287, 0, 71); (288, 0, 71); (289, 0, 71); (290, 0, 71); (291, 0, 71); (292, 0, 71); (293, 0, 71); (294, 0, 71); (295, 0, 71); (296, 0, 71); (297, 0, 71); (298, 0, 71)];
  [(327, 1, 69)];
  [(328, 1, 69)];
  [(329, 1, 69)];
  [(330, 1, 69)];
  [(325, 2, 58); (326, 2, 58); (331, 0, 58); (332, 0, 58); (333, 0, 58)];
  [(324, 2, 58)];
  [(178, 4, 80); (67, 0, 38); (68, 0, 38); (69, 0, 38); (70, 0, 38); (71, 0, 38); (72, 0, 38); (73, 0, 38); (74, 0, 38); (75, 0, 38); (76, 0, 38); (77, 0, 38); (78, 0, 38); (79, 0, 38); (80, 0, 38); (81, 0, 38); (82, 0, 38); (83, 0, 38); (84, 0, 38)];
  [(58, 7, 47); (356, 0, 80); (357, 0, 80)];
  [(55, 7, 47); (38, 0, 47)];
  [(83, 1, 86)];
  [(77, 1, 86)];
  [(70, 1, 86)];
  [(79, 1, 86)];
  [(73, 1, 86); (87, 0, 86); (88, 0, 86); (89, 0, 86)];
  [(80, 1, 86)];
  [(67, 1, 86)];
  [(84, 1, 86)];
  [(74, 1, 86)];
  [(75, 1, 86)];
  [(69, 1, 86)];
  [(71, 1, 86)];
  [(72, 1, 86)];
  [(78, 1, 86)];
  [(81, 1, 86)];
  [(82, 1, 86); (85, 0, 86); (86, 0, 86)];
  [(76, 1, 86)];
  [(68, 1, 86)];
  [(66, 2, 80); (90, 0, 80); (91, 0, 80); (92, 0, 86); (93, 0, 86); (94, 0, 86); (95, 0, 86); (96, 0, 86); (97, 0, 86); (98, 0, 86); (99, 0, 86); (103, 0, 86)];
  [(101, 2, 80); (356, 0, 80); (357, 0, 80)];
  [(100, 2, 80)];
  [(102, 2, 80)];
  [(56, 7, 47)];
  [(63, 2, 80); (64, 0, 80); (65, 0, 80); (66, 0, 80); (100, 0, 80); (101, 0, 80); (102, 0, 80)];
  [(59, 7, 47)];
  [(238, 3, 117); (242, 0, 117); (243, 0, 117)];
  [(239, 3, 117); (171, 0, 80); (172, 0, 80); (182, 0, 80); (183, 0, 83); (184, 0, 83); (185, 0, 83); (186, 0, 83); (187, 0, 83); (188, 0, 88); (189, 0, 88); (190, 0, 88); (191, 0, 88); (192, 0, 88); (193, 0, 88); (194, 0, 88); (195, 0, 88); (196, 0, 88); (197, 0, 88); (198, 0, 88); (199, 0, 88); (200, 0, 88); (201, 0, 88); (202, 0, 88); (203, 0, 88); (204, 0, 88); (205, 0, 88); (206, 0, 88); (207, 0, 88); (208, 0, 88); (209, 0, 88); (210, 0, 88); (211, 0, 88); (212, 0, 88); (213, 0, 88); (214, 0, 88); (215, 0, 88); (216, 0, 88); (217, 0, 83); (218, 0, 83); (219, 0, 83); (220, 0, 83); (221, 0, 83); (222, 0, 83); (223, 0, 88); (224, 0, 88); (225, 0, 88); (226, 0, 88); (229, 0, 83); (230, 0, 83); (231, 0, 88); (232, 0, 88); (233, 0, 88); (234, 0, 88); (235, 0, 88); (236, 0, 88); (237, 0, 88); (238, 0, 88); (239, 0, 88); (240, 0, 88); (241, 0, 88); (257, 0, 88); (258, 0, 88); (273, 0, 88); (274, 0, 88); (275, 0, 83); (276, 0, 88); (277, 0, 88); (278, 0, 88); (279, 0, 88); (280, 0, 88); (281, 0, 88); (282, 0, 88); (283, 0, 88); (284, 0, 88); (285, 0, 88); (286, 0, 88); (287, 0, 88); (288, 0, 88); (289, 0, 88); (290, 0, 88); (291, 0, 88); (292, 0, 88); (293, 0, 88); (294, 0, 88); (295, 0, 88); (296, 0, 88); (297, 0, 88); (298, 0, 88)];
  [(240, 3, 117); (241, 3, 117); (277, 3, 117)];
  [(279, 3, 117)];
  [(229, 3, 114)];
  [(257, 3, 117)];
  [(258, 3, 117); (217, 1, 21); (218, 1, 21)];
  [(227, 2, 10); (217, 1, 17); (218, 1, 17)];
  [(223, 3, 117); (224, 3, 117); (228, 1, 10)];
  [(226, 3, 117); (183, 0, 19); (184, 0, 19); (185, 0, 19); (186, 0, 19); (187, 0, 19); (188, 0, 28); (189, 0, 28); (190, 0, 28); (191, 0, 28); (192, 0, 28); (193, 0, 28); (194, 0, 28); (195, 0, 28); (196, 0, 28); (197, 0, 28); (198, 0, 28); (199, 0, 28); (200, 0, 28); (201, 0, 28); (202, 0, 28); (203, 0, 28); (204, 0, 28); (205, 0, 28); (206, 0, 28); (207, 0, 28); (208, 0, 28); (209, 0, 28); (210, 0, 28); (211, 0, 28); (212, 0, 28); (213, 0, 28); (214, 0, 28); (215, 0, 28); (216, 0, 28); (217, 0, 19); (218, 0, 19); (219, 0, 19); (220, 0, 19); (221, 0, 19); (222, 0, 19); (223, 0, 28); (224, 0, 28); (225, 0, 28); (226, 0, 28); (229, 0, 19); (230, 0, 19); (231, 0, 28); (232, 0, 28); (233, 0, 28); (234, 0, 28); (235, 0, 28); (236, 0, 28); (237, 0, 28); (238, 0, 28); (239, 0, 28); (240, 0, 28); (241, 0, 28); (257, 0, 28); (258, 0, 28); (273, 0, 28); (274, 0, 28); (275, 0, 19); (276, 0, 28); (277, 0, 28); (278, 0, 28); (279, 0, 28); (280, 0, 28); (281, 0, 28); (282, 0, 28); (283, 0, 28); (284, 0, 28); (285, 0, 28); (286, 0, 28); (287, 0, 28); (288, 0, 28); (289, 0, 28); (290, 0, 28); (291, 0, 28); (292, 0, 28); (293, 0, 28); (294, 0, 28); (295, 0, 28); (296, 0, 28); (297, 0, 28); (298, 0, 28)];
  [(228, 2, 10); (183, 0, 17); (184, 0, 17); (185, 0, 17); (186, 0, 17); (187, 0, 17); (188, 0, 26); (189, 0, 26); (190, 0, 26); (191, 0, 26); (192, 0, 26); (193, 0, 26); (194, 0, 26); (195, 0, 26); (196, 0, 26); (197, 0, 26); (198, 0, 26); (199, 0, 26); (200, 0, 26); (201, 0, 26); (202, 0, 26); (203, 0, 26); (204, 0, 26); (205, 0, 26); (206, 0, 26); (207, 0, 26); (208, 0, 26); (209, 0, 26); (210, 0, 26); (211, 0, 26); (212, 0, 26); (213, 0, 26); (214, 0, 26); (215, 0, 26); (216, 0, 26); (217, 0, 17); (218, 0, 17); (219, 0, 17); (220, 0, 17); (221, 0, 17); (222, 0, 17); (223, 0, 26); (224, 0, 26); (225, 0, 26); (226, 0, 26); (229, 0, 17); (230, 0, 17); (231, 0, 26); (232, 0, 26); (233, 0, 26); (234, 0, 26); (235, 0, 26); (236, 0, 26); (237, 0, 26); (238, 0, 26); (239, 0, 26); (240, 0, 26); (241, 0, 26); (257, 0, 26); (258, 0, 26); (273, 0, 26); (274, 0, 26); (275, 0, 17); (276, 0, 26); (277, 0, 26); (278, 0, 26); (279, 0, 26); (280, 0, 26); (281, 0, 26); (282, 0, 26); (283, 0, 26); (284, 0, 26); (285, 0, 26); (286, 0, 26); (287, 0, 26); (288, 0, 26); (289, 0, 26); (290, 0, 26); (291, 0, 26); (292, 0, 26); (293, 0, 26); (294, 0, 26); (295, 0, 26); (296, 0, 26); (297, 0, 26); (298, 0, 26)];
  [(225, 3, 117)];
  [(230, 3, 114); (132, 0, 38); (133, 0, 38); (140, 0, 40)];
  [(214, 2, 117)];
  [(273, 3, 117); (172, 1, 76)];
  [(198, 3, 117)];
  [(188, 3, 117)];
  [(217, 3, 114); (217, 1, 114); (218, 1, 114)];
  [(218, 3, 114); (217, 1, 114); (218, 1, 114)];
  [(275, 3, 114); (203, 1, 25); (204, 1, 25); (205, 1, 25); (207, 1, 25); (208, 1, 25); (209, 1, 25); (210, 1, 25); (211, 1, 25); (212, 1, 25); (213, 1, 25); (214, 1, 25); (215, 1, 25); (216, 1, 25); (231, 1, 25); (232, 1, 25); (233, 1, 25); (234, 1, 25); (235, 1, 25); (236, 1, 25); (237, 1, 25); (274, 1, 25)];
  [(213, 3, 117); (203, 1, 117); (204, 1, 117); (205, 1, 117); (207, 1, 117); (208, 1, 117); (209, 1, 117); (210, 1, 117); (211, 1, 117); (212, 1, 117); (213, 1, 117); (214, 1, 117); (215, 1, 117); (216, 1, 117); (231, 1, 117); (232, 1, 117); (233, 1, 117); (234, 1, 117); (235, 1, 117); (236, 1, 117); (237, 1, 117); (274, 1, 117)];
  [(214, 3, 117); (188, 0, 117); (189, 0, 117); (190, 0, 117); (191, 0, 117); (192, 0, 117); (193, 0, 117); (194, 0, 117); (195, 0, 117); (196, 0, 117); (197, 0, 117); (198, 0, 117); (199, 0, 117); (200, 0, 117); (201, 0, 117); (202, 0, 117); (203, 0, 117); (204, 0, 117); (205, 0, 117); (206, 0, 117); (207, 0, 117); (208, 0, 117); (209, 0, 117); (210, 0, 117); (211, 0, 117); (212, 0, 117); (213, 0, 117); (214, 0, 117); (215, 0, 117); (216, 0, 117); (223, 0, 117); (224, 0, 117); (225, 0, 117); (226, 0, 117); (231, 0, 117); (232, 0, 117); (233, 0, 117); (234, 0, 117); (235, 0, 117); (236, 0, 117); (237, 0, 117); (238, 0, 117); (239, 0, 117); (240, 0, 117); (241, 0, 117); (257, 0, 117); (258, 0, 117); (273, 0, 117); (274, 0, 117); (276, 0, 117); (277, 0, 117); (278, 0, 117); (279, 0, 117); (280, 0, 117); (281, 0, 117); (282, 0, 117); (283, 0, 117); (284, 0, 117); (285, 0, 117); (286, 0, 117); (287, 0, 117); (288, 0, 117); (289, 0, 117); (290, 0, 117); (291, 0, 117); (292, 0, 117); (293, 0, 117); (294, 0, 117); (295, 0, 117); (296, 0, 117); (297, 0, 117); (298, 0, 117)];
  [(220, 3, 114); (222, 3, 114)];
  [(219, 3, 114); (221, 3, 114); (132, 0, 38); (133, 0, 38); (140, 0, 40); (171, 0, 80); (172, 0, 80); (182, 0, 80); (183, 0, 83); (184, 0, 83); (185, 0, 83); (186, 0, 83); (187, 0, 83); (188, 0, 88); (189, 0, 88); (190, 0, 88); (191, 0, 88); (192, 0, 88); (193, 0, 88); (194, 0, 88); (195, 0, 88); (196, 0, 88); (197, 0, 88); (198, 0, 88); (199, 0, 88); (200, 0, 88); (201, 0, 88); (202, 0, 88); (203, 0, 88); (204, 0, 88); (205, 0, 88); (206, 0, 88); (207, 0, 88); (208, 0, 88); (209, 0, 88); (210, 0, 88); (211, 0, 88); (212, 0, 88); (213, 0, 88); (214, 0, 88); (215, 0, 88); (216, 0, 88); (217, 0, 83); (218, 0, 83); (219, 0, 83); (220, 0, 83); (221, 0, 83); (222, 0, 83); (223, 0, 88); (224, 0, 88); (225, 0, 88); (226, 0, 88); (229, 0, 83); (230, 0, 83); (231, 0, 88); (232, 0, 88); (233, 0, 88); (234, 0, 88); (235, 0, 88); (236, 0, 88); (237, 0, 88); (238, 0, 88); (239, 0, 88); (240, 0, 88); (241, 0, 88); (257, 0, 88); (258, 0, 88); (273, 0, 88); (274, 0, 88); (275, 0, 83); (276, 0, 88); (277, 0, 88); (278, 0, 88); (279, 0, 88); (280, 0, 88); (281, 0, 88); (282, 0, 88); (283, 0, 88); (284, 0, 88); (285, 0, 88); (286, 0, 88); (287, 0, 88); (288, 0, 88); (289, 0, 88); (290, 0, 88); (291, 0, 88); (292, 0, 88); (293, 0, 88); (294, 0, 88); (295, 0, 88); (296, 0, 88); (297, 0, 88); (298, 0, 88)];
  [(204, 3, 117)];
  [(205, 3, 117)];
  [(216, 3, 117); (203, 1, 117); (204, 1, 117); (205, 1, 117); (207, 1, 117); (208, 1, 117); (209, 1, 117); (210, 1, 117); (211, 1, 117); (212, 1, 117); (213, 1, 117); (214, 1, 117); (215, 1, 117); (216, 1, 117); (231, 1, 117); (232, 1, 117); (233, 1, 117); (234, 1, 117); (235, 1, 117); (236, 1, 117); (237, 1, 117); (274, 1, 117)];
  [(215, 3, 117); (203, 1, 117); (204, 1, 117); (205, 1, 117); (207, 1, 117); (208, 1, 117); (209, 1, 117); (210, 1, 117); (211, 1, 117); (212, 1, 117); (213, 1, 117); (214, 1, 117); (215, 1, 117); (216, 1, 117); (231, 1, 117); (232, 1, 117); (233, 1, 117); (234, 1, 117); (235, 1, 117); (236, 1, 117); (237, 1, 117); (274, 1, 117)];
  [(231, 3, 117); (203, 1, 117); (204, 1, 117); (205, 1, 117); (207, 1, 117); (208, 1, 117); (209, 1, 117); (210, 1, 117); (211, 1, 117); (212, 1, 117); (213, 1, 117); (214, 1, 117); (215, 1, 117); (216, 1, 117); (231, 1, 117); (232, 1, 117); (233, 1, 117); (234, 1, 117); (235, 1, 117); (236, 1, 117); (237, 1, 117); (274, 1, 117)];
  [(232, 3, 117); (203, 1, 117); (204, 1, 117); (205, 1, 117); (207, 1, 117); (208, 1, 117); (209, 1, 117); (210, 1, 117); (211, 1, 117); (212, 1, 117); (213, 1, 117); (214, 1, 117); (215, 1, 117); (216, 1, 117); (231, 1, 117); (232, 1, 117); (233, 1, 117); (234, 1, 117); (235, 1, 117); (236, 1, 117); (237, 1, 117); (274, 1, 117)];
  [(233, 3, 117); (203, 1, 117); (204, 1, 117); (205, 1, 117); (207, 1, 117); (208, 1, 117); (209, 1, 117); (210, 1, 117); (211, 1, 117); (212, 1, 117); (213, 1, 117); (214, 1, 117); (215, 1, 117); (216, 1, 117); (231, 1, 117); (232, 1, 117); (233, 1, 117); (234, 1, 117); (235, 1, 117); (236, 1, 117); (237, 1, 117); (274, 1, 117)];
  [(234, 3, 117); (203, 1, 117); (204, 1, 117); (205, 1, 117); (207, 1, 117); (208, 1, 117); (209, 1, 117); (210, 1, 117); (211, 1, 117); (212, 1, 117); (213, 1, 117); (214, 1, 117); (215, 1, 117); (216, 1, 117); (231, 1, 117); (232, 1, 117); (233, 1, 117); (234, 1, 117); (235, 1, 117); (236, 1, 117); (237, 1, 117); (274, 1, 117)];
  [(235, 3, 117); (203, 1, 117); (204, 1, 117); (205, 1, 117); (207, 1, 117); (208, 1, 117); (209, 1, 117); (210, 1, 117); (211, 1, 117); (212, 1, 117); (213, 1, 117); (214, 1, 117); (215, 1, 117); (216, 1, 117); (231, 1, 117); (232, 1, 117); (233, 1, 117); (234, 1, 117); (235, 1, 117); (236, 1, 117); (237, 1, 117); (274, 1, 117)];
  [(236, 3, 117); (203, 1, 117); (204, 1, 117); (205, 1, 117); (207, 1, 117); (208, 1, 117); (209, 1, 117); (210, 1, 117); (211, 1, 117); (212, 1, 117); (213, 1, 117); (214, 1, 117); (215, 1, 117); (216, 1, 117); (231, 1, 117); (232, 1, 117); (233, 1, 117); (234, 1, 117); (235, 1, 117); (236, 1, 117); (237, 1, 117); (274, 1, 117)];
  [(237, 3, 117); (203, 1, 117); (204, 1, 117); (205, 1, 117); (207, 1, 117); (208, 1, 117); (209, 1, 117); (210, 1, 117); (211, 1, 117); (212, 1, 117); (213, 1, 117); (214, 1, 117); (215, 1, 117); (216, 1, 117); (231, 1, 117); (232, 1, 117); (233, 1, 117); (234, 1, 117); (235, 1, 117); (236, 1, 117); (237, 1, 117); (274, 1, 117)];
  [(208, 3, 117); (203, 1, 117); (204, 1, 117); (205, 1, 117); (207, 1, 117); (208, 1, 117); (209, 1, 117); (210, 1, 117); (211, 1, 117); (212, 1, 117); (213, 1, 117); (214, 1, 117); (215, 1, 117); (216, 1, 117); (231, 1, 117); (232, 1, 117); (233, 1, 117); (234, 1, 117); (235, 1, 117); (236, 1, 117); (237, 1, 117); (274, 1, 117)];
  [(207, 3, 117); (203, 1, 117); (204, 1, 117); (205, 1, 117); (207, 1, 117); (208, 1, 117); (209, 1, 117); (210, 1, 117); (211, 1, 117); (212, 1, 117); (213, 1, 117); (214, 1, 117); (215, 1, 117); (216, 1, 117); (231, 1, 117); (232, 1, 117); (233, 1, 117); (234, 1, 117); (235, 1, 117); (236, 1, 117); (237, 1, 117); (274, 1, 117)];
  [(210, 3, 117); (203, 1, 117); (204, 1, 117); (205, 1, 117); (207, 1, 117); (208, 1, 117); (209, 1, 117); (210, 1, 117); (211, 1, 117); (212, 1, 117); (213, 1, 117); (214, 1, 117); (215, 1, 117); (216, 1, 117); (231, 1, 117); (232, 1, 117); (233, 1, 117); (234, 1, 117); (235, 1, 117); (236, 1, 117); (237, 1, 117); (274, 1, 117)];
  [(209, 3, 117); (203, 1, 117); (204, 1, 117); (205, 1, 117); (207, 1, 117); (208, 1, 117); (209, 1, 117); (210, 1, 117); (211, 1, 117); (212, 1, 117); (213, 1, 117); (214, 1, 117); (215, 1, 117); (216, 1, 117); (231, 1, 117); (232, 1, 117); (233, 1, 117); (234, 1, 117); (235, 1, 117); (236, 1, 117); (237, 1, 117); (274, 1, 117)];
  [(211, 3, 117); (203, 1, 117); (204, 1, 117); (205, 1, 117); (207, 1, 117); (208, 1, 117); (209, 1, 117); (210, 1, 117); (211, 1, 117); (212, 1, 117); (213, 1, 117); (214, 1, 117); (215, 1, 117); (216, 1, 117); (231, 1, 117); (232, 1, 117); (233, 1, 117); (234, 1, 117); (235, 1, 117); (236, 1, 117); (237, 1, 117); (274, 1, 117)];
  [(212, 3, 117); (203, 1, 117); (204, 1, 117); (205, 1, 117); (207, 1, 117); (208, 1, 117); (209, 1, 117); (210, 1, 117); (211, 1, 117); (212, 1, 117); (213, 1, 117); (214, 1, 117); (215, 1, 117); (216, 1, 117); (231, 1, 117); (232, 1, 117); (233, 1, 117); (234, 1, 117); (235, 1, 117); (236, 1, 117); (237, 1, 117); (274, 1, 117)];
  [(274, 3, 117)];
  [(35, 7, 45)];
  [(357, 3, 103)];
  [(115, 7, 47); (176, 1, 80)];
  [(112, 3, 47)];
  [(39, 3, 46); (42, 1, 80); (44, 1, 80); (46, 1, 80)];
  [(48, 2, 80)];
  [(45, 2, 80)];
  [(43, 2, 80)];
  [(49, 2, 80)];
  [(40, 3, 46)];
  [(42, 2, 80); (44, 2, 80); (46, 2, 80); (48, 0, 80); (49, 0, 80)];
  [(25, 3, 80); (176, 1, 80)];
  [(23, 3, 80)];
  [(304, 1, 98); (123, 0, 38); (124, 0, 38); (125, 0, 38); (334, 0, 33); (335, 0, 33); (336, 0, 33)];
  [(146, 2, 63)];
  [(299, 1, 63); (305, 1, 75); (340, 1, 96); (341, 1, 96); (342, 1, 96); (343, 0, 8); (344, 0, 8); (345, 0, 8); (346, 0, 8); (347, 0, 8); (348, 0, 8); (349, 0, 8); (350, 0, 8); (351, 0, 8); (352, 0, 8)];
  [(301, 1, 98)];
  [(300, 1, 63); (306, 1, 75)];
  [(303, 1, 98)];
  [(307, 1, 98); (313, 0, 98); (314, 0, 98); (315, 0, 98); (316, 0, 98); (317, 0, 98); (318, 0, 98)];
  [(302, 1, 98)];
  [(140, 6, 61); (149, 0, 61); (150, 0, 61)];
  [(172, 3, 111)];
  [(317, 2, 111)];
  [(156, 3, 104)];
  [(162, 1, 104)];
  [(157, 3, 104)];
  [(133, 6, 53)];
  [(169, 4, 58); (217, 1, 65); (218, 1, 65)];
  [(167, 4, 58); (217, 1, 65); (218, 1, 65)];
  [(328, 2, 69)];
  [(330, 2, 69)];
  [(326, 3, 58); (356, 0, 103); (357, 0, 103)];
  [(332, 1, 58)];
  [(331, 1, 58)];
  [(325, 3, 58)];
  [(178, 5, 80)];
  [(58, 8, 47); (357, 1, 80)];
  [(55, 8, 47)];
  [(70, 2, 86)];
  [(87, 1, 86); (88, 1, 86)];
  [(73, 2, 86)];
  [(84, 2, 86)];
  [(69, 2, 86)];
  [(85, 1, 86)];
  [(82, 2, 86)];
  [(98, 1, 86)];
  [(99, 1, 86)];
  [(97, 1, 86)];
  [(96, 1, 86)];
  [(103, 1, 86); (309, 0, 90); (310, 0, 90)];
  [(66, 3, 80)];
  [(90, 1, 80); (93, 1, 86); (95, 1, 86); (96, 0, 86); (97, 0, 86); (98, 0, 86); (99, 0, 86); (103, 0, 86)];
  [(92, 1, 86)];
  [(94, 1, 86)];
  [(101, 3, 80); (357, 1, 80)];
  [(100, 3, 80); (356, 0, 80); (357, 0, 80)];
  [(102, 3, 80); (356, 0, 80); (357, 0, 80)];
  [(63, 3, 80)];
  [(242, 1, 117)];
  [(238, 4, 117)];
  [(239, 4, 117); (172, 1, 80)];
  [(240, 4, 117); (241, 4, 117); (141, 0, 120); (142, 0, 120)];
  [(229, 4, 114)];
  [(257, 4, 117); (183, 0, 41); (184, 0, 41); (185, 0, 41); (186, 0, 41); (187, 0, 41); (188, 0, 44); (189, 0, 44); (190, 0, 44); (191, 0, 44); (192, 0, 44); (193, 0, 44); (194, 0, 44); (195, 0, 44); (196, 0, 44); (197, 0, 44); (198, 0, 44); (199, 0, 44); (200, 0, 44); (201, 0, 44); (202, 0, 44); (203, 0, 44); (204, 0, 44); (205, 0, 44); (206, 0, 44); (207, 0, 44); (208, 0, 44); (209, 0, 44); (210, 0, 44); (211, 0, 44); (212, 0, 44); (213, 0, 44); (214, 0, 44); (215, 0, 44); (216, 0, 44); (217, 0, 41); (218, 0, 41); (219, 0, 41); (220, 0, 41); (221, 0, 41); (222, 0, 41); (223, 0, 44); (224, 0, 44); (225, 0, 44); (226, 0, 44); (229, 0, 41); (230, 0, 41); (231, 0, 44); (232, 0, 44); (233, 0, 44); (234, 0, 44); (235, 0, 44); (236, 0, 44); (237, 0, 44); (238, 0, 44); (239, 0, 44); (240, 0, 44); (241, 0, 44); (257, 0, 44); (258, 0, 44); (273, 0, 44); (274, 0, 44); (275, 0, 41); (276, 0, 44); (277, 0, 44); (278, 0, 44); (279, 0, 44); (280, 0, 44); (281, 0, 44); (282, 0, 44); (283, 0, 44); (284, 0, 44); (285, 0, 44); (286, 0, 44); (287, 0, 44); (288, 0, 44); (289, 0, 44); (290, 0, 44); (291, 0, 44); (292, 0, 44); (293, 0, 44); (294, 0, 44); (295, 0, 44); (296, 0, 44); (297, 0, 44); (298, 0, 44)];
  [(258, 4, 117); (67, 0, 38); (68, 0, 38); (69, 0, 38); (70, 0, 38); (71, 0, 38); (72, 0, 38); (73, 0, 38); (74, 0, 38); (75, 0, 38); (76, 0, 38); (77, 0, 38); (78, 0, 38); (79, 0, 38); (80, 0, 38); (81, 0, 38); (82, 0, 38); (83, 0, 38); (84, 0, 38)];
  [(227, 3, 10); (183, 0, 20); (184, 0, 20); (185, 0, 20); (186, 0, 20); (187, 0, 20); (188, 0, 29); (189, 0, 29); (190, 0, 29); (191, 0, 29); (192, 0, 29); (193, 0, 29); (194, 0, 29); (195, 0, 29); (196, 0, 29); (197, 0, 29); (198, 0, 29); (199, 0, 29); (200, 0, 29); (201, 0, 29); (202, 0, 29); (203, 0, 29); (204, 0, 29); (205, 0, 29); (206, 0, 29); (207, 0, 29); (208, 0, 29); (209, 0, 29); (210, 0, 29); (211, 0, 29); (212, 0, 29); (213, 0, 29); (214, 0, 29); (215, 0, 29); (216, 0, 29); (217, 0, 20); (218, 0, 20); (219, 0, 20); (220, 0, 20); (221, 0, 20); (222, 0, 20); (223, 0, 29); (224, 0, 29); (225, 0, 29); (226, 0, 29); (229, 0, 20); (230, 0, 20); (231, 0, 29); (232, 0, 29); (233, 0, 29); (234, 0, 29); (235, 0, 29); (236, 0, 29); (237, 0, 29); (238, 0, 29); (239, 0, 29); (240, 0, 29); (241, 0, 29); (257, 0, 29); (258, 0, 29); (273, 0, 29); (274, 0, 29); (275, 0, 20); (276, 0, 29); (277, 0, 29); (278, 0, 29); (279, 0, 29); (280, 0, 29); (281, 0, 29); (282, 0, 29); (283, 0, 29); (284, 0, 29); (285, 0, 29); (286, 0, 29); (287, 0, 29); (288, 0, 29); (289, 0, 29); (290, 0, 29); (291, 0, 29); (292, 0, 29); (293, 0, 29); (294, 0, 29); (295, 0, 29); (296, 0, 29); (297, 0, 29); (298, 0, 29)];
  [(224, 4, 117); (183, 0, 19); (184, 0, 19); (185, 0, 19); (186, 0, 19); (187, 0, 19); (188, 0, 28); (189, 0, 28); (190, 0, 28); (191, 0, 28); (192, 0, 28); (193, 0, 28); (194, 0, 28); (195, 0, 28); (196, 0, 28); (197, 0, 28); (198, 0, 28); (199, 0, 28); (200, 0, 28); (201, 0, 28); (202, 0, 28); (203, 0, 28); (204, 0, 28); (205, 0, 28); (206, 0, 28); (207, 0, 28); (208, 0, 28); (209, 0, 28); (210, 0, 28); (211, 0, 28); (212, 0, 28); (213, 0, 28); (214, 0, 28); (215, 0, 28); (216, 0, 28); (217, 0, 19); (218, 0, 19); (219, 0, 19); (220, 0, 19); (221, 0, 19); (222, 0, 19); (223, 0, 28); (224, 0, 28); (225, 0, 28); (226, 0, 28); (229, 0, 19); (230, 0, 19); (231, 0, 28); (232, 0, 28); (233, 0, 28); (234, 0, 28); (235, 0, 28); (236, 0, 28); (237, 0, 28); (238, 0, 28); (239, 0, 28); (240, 0, 28); (241, 0, 28); (257, 0, 28); (258, 0, 28); (273, 0, 28); (274, 0, 28); (275, 0, 19); (276, 0, 28); (277, 0, 28); (278, 0, 28); (279, 0, 28); (280, 0, 28); (281, 0, 28); (282, 0, 28); (283, 0, 28); (284, 0, 28); (285, 0, 28); (286, 0, 28); (287, 0, 28); (288, 0, 28); (289, 0, 28); (290, 0, 28); (291, 0, 28); (292, 0, 28); (293, 0, 28); (294, 0, 28); (295, 0, 28); (296, 0, 28); (297, 0, 28); (298, 0, 28)];
  [(223, 4, 117)];
  [(226, 4, 117); (217, 1, 19); (218, 1, 19)];
  [(228, 3, 10); (217, 1, 17); (218, 1, 17)];
  [(230, 4, 114)];
  [(273, 4, 117)];
  [(275, 4, 114); (188, 0, 116); (189, 0, 116); (190, 0, 116); (191, 0, 116); (192, 0, 116); (193, 0, 116); (194, 0, 116); (195, 0, 116); (196, 0, 116); (197, 0, 116); (198, 0, 116); (199, 0, 116); (200, 0, 116); (201, 0, 116); (202, 0, 116); (203, 0, 116); (204, 0, 116); (205, 0, 116); (206, 0, 116); (207, 0, 116); (208, 0, 116); (209, 0, 116); (210, 0, 116); (211, 0, 116); (212, 0, 116); (213, 0, 116); (214, 0, 116); (215, 0, 116); (216, 0, 116); (223, 0, 116); (224, 0, 116); (225, 0, 116); (226, 0, 116); (231, 0, 116); (232, 0, 116); (233, 0, 116); (234, 0, 116); (235, 0, 116); (236, 0, 116); (237, 0, 116); (238, 0, 116); (239, 0, 116); (240, 0, 116); (241, 0, 116); (257, 0, 116); (258, 0, 116); (273, 0, 116); (274, 0, 116); (276, 0, 116); (277, 0, 116); (278, 0, 116); (279, 0, 116); (280, 0, 116); (281, 0, 116); (282, 0, 116); (283, 0, 116); (284, 0, 116); (285, 0, 116); (286, 0, 116); (287, 0, 116); (288, 0, 116); (289, 0, 116); (290, 0, 116); (291, 0, 116); (292, 0, 116); (293, 0, 116); (294, 0, 116); (295, 0, 116); (296, 0, 116); (297, 0, 116); (298, 0, 116)];
  [(214, 4, 117); (203, 1, 117); (204, 1, 117); (205, 1, 117); (207, 1, 117); (208, 1, 117); (209, 1, 117); (210, 1, 117); (211, 1, 117); (212, 1, 117); (213, 1, 117); (214, 1, 117); (215, 1, 117); (216, 1, 117); (231, 1, 117); (232, 1, 117); (233, 1, 117); (234, 1, 117); (235, 1, 117); (236, 1, 117); (237, 1, 117); (274, 1, 117)];
  [(220, 4, 114); (222, 4, 114); (132, 0, 38); (133, 0, 38); (140, 0, 40); (171, 0, 80); (172, 0, 80); (182, 0, 80); (183, 0, 83); (184, 0, 83); (185, 0, 83); (186, 0, 83); (187, 0, 83); (188, 0, 88); (189, 0, 88); (190, 0, 88); (191, 0, 88); (192, 0, 88); (193, 0, 88); (194, 0, 88); (195, 0, 88); (196, 0, 88); (197, 0, 88); (198, 0, 88); (199, 0, 88); (200, 0, 88); (201, 0, 88); (202, 0, 88); (203, 0, 88); (204, 0, 88); (205, 0, 88); (206, 0, 88); (207, 0, 88); (208, 0, 88); (209, 0, 88); (210, 0, 88); (211, 0, 88); (212, 0, 88); (213, 0, 88); (214, 0, 88); (215, 0, 88); (216, 0, 88); (217, 0, 83); (218, 0, 83); (219, 0, 83); (220, 0, 83); (221, 0, 83); (222, 0, 83); (223, 0, 88); (224, 0, 88); (225, 0, 88); (226, 0, 88); (229, 0, 83); (230, 0, 83); (231, 0, 88); (232, 0, 88); (233, 0, 88); (234, 0, 88); (235, 0, 88); (236, 0, 88); (237, 0, 88); (238, 0, 88); (239, 0, 88); (240, 0, 88); (241, 0, 88); (257, 0, 88); (258, 0, 88); (273, 0, 88); (274, 0, 88); (275, 0, 83); (276, 0, 88); (277, 0, 88); (278, 0, 88); (279, 0, 88); (280, 0, 88); (281, 0, 88); (282, 0, 88); (283, 0, 88); (284, 0, 88); (285, 0, 88); (286, 0, 88); (287, 0, 88); (288, 0, 88); (289, 0, 88); (290, 0, 88); (291, 0, 88); (292, 0, 88); (293, 0, 88); (294, 0, 88); (295, 0, 88); (296, 0, 88); (297, 0, 88); (298, 0, 88)];
  [(221, 4, 114)];
  [(219, 4, 114); (172, 1, 80)];
  [(205, 4, 117)];
  [(274, 4, 117)];
  [(115, 8, 47)];
  [(112, 4, 47)];
  [(39, 4, 46)];
  [(44, 3, 80)];
  [(42, 3, 80); (37, 0, 80)];
  [(46, 3, 80)];
  [(25, 4, 80)];
  [(304, 2, 98)];
  [(340, 2, 98)];
  [(351, 1, 8)];
  [(343, 1, 8)];
  [(349, 1, 8)];
  [(346, 1, 8); (347, 1, 8)];
  [(348, 1, 8); (350, 1, 8)];
  [(344, 1, 8); (345, 1, 8)];
  [(341, 2, 98); (342, 2, 98)];
  [(300, 2, 63); (306, 2, 75); (301, 0, 96); (302, 0, 96); (303, 0, 96); (304, 0, 96); (307, 0, 96); (309, 0, 97); (310, 0, 97); (340, 0, 96); (341, 0, 96); (342, 0, 96)];
  [(314, 1, 98); (317, 1, 98)];
  [(315, 1, 98)];
  [(307, 2, 98)];
  [(313, 1, 98)];
  [(149, 1, 61)];
  [(140, 7, 61)];
  [(162, 2, 104)];
  [(328, 3, 69)];
  [(326, 4, 58); (357, 1, 103); (331, 0, 58); (332, 0, 58); (333, 0, 58)];
  [(331, 2, 58)];
  [(178, 6, 80)];
  [(58, 9, 47)];
  [(70, 3, 86)];
  [(87, 2, 86); (88, 2, 86)];
  [(84, 3, 86)];
  [(69, 3, 86)];
  [(85, 2, 86)];
  [(99, 2, 86)];
  [(96, 2, 86)];
  [(103, 2, 86); (117, 0, 86); (118, 0, 86)];
  [(93, 2, 86)];
  [(95, 2, 86)];
  [(101, 4, 80)];
  [(100, 4, 80); (357, 1, 80)];
  [(102, 4, 80); (357, 1, 80)];
  [(242, 2, 117); (244, 0, 43); (245, 0, 43)];
  [(239, 5, 117); (242, 0, 117); (243, 0, 117)];
  [(240, 5, 117); (242, 0, 117); (243, 0, 117)];
  [(241, 5, 117); (171, 0, 80); (172, 0, 80); (182, 0, 80); (183, 0, 83); (184, 0, 83); (185, 0, 83); (186, 0, 83); (187, 0, 83); (188, 0, 88); (189, 0, 88); (190, 0, 88); (191, 0, 88); (192, 0, 88); (193, 0, 88); (194, 0, 88); (195, 0, 88); (196, 0, 88); (197, 0, 88); (198, 0, 88); (199, 0, 88); (200, 0, 88); (201, 0, 88); (202, 0, 88); (203, 0, 88); (204, 0, 88); (205, 0, 88); (206, 0, 88); (207, 0, 88); (208, 0, 88); (209, 0, 88); (210, 0, 88); (211, 0, 88); (212, 0, 88); (213, 0, 88); (214, 0, 88); (215, 0, 88); (216, 0, 88); (217, 0, 83); (218, 0, 83); (219, 0, 83); (220, 0, 83); (221, 0, 83); (222, 0, 83); (223, 0, 88); (224, 0, 88); (225, 0, 88); (226, 0, 88); (229, 0, 83); (230, 0, 83); (231, 0, 88); (232, 0, 88); (233, 0, 88); (234, 0, 88); (235, 0, 88); (236, 0, 88); (237, 0, 88); (238, 0, 88); (239, 0, 88); (240, 0, 88); (241, 0, 88); (257, 0, 88); (258, 0, 88); (273, 0, 88); (274, 0, 88); (275, 0, 83); (276, 0, 88); (277, 0, 88); (278, 0, 88); (279, 0, 88); (280, 0, 88); (281, 0, 88); (282, 0, 88); (283, 0, 88); (284, 0, 88); (285, 0, 88); (286, 0, 88); (287, 0, 88); (288, 0, 88); (289, 0, 88); (290, 0, 88); (291, 0, 88); (292, 0, 88); (293, 0, 88); (294, 0, 88); (295, 0, 88); (296, 0, 88); (297, 0, 88); (298, 0, 88)];
  [(257, 5, 117); (217, 1, 41); (218, 1, 41)];
  [(258, 5, 117)];
  [(227, 4, 10); (217, 1, 20); (218, 1, 20)];
  [(224, 5, 117); (217, 1, 19); (218, 1, 19)];
  [(226, 5, 117)];
  [(228, 4, 10); (183, 0, 20); (184, 0, 20); (185, 0, 20); (186, 0, 20); (187, 0, 20); (188, 0, 29); (189, 0, 29); (190, 0, 29); (191, 0, 29); (192, 0, 29); (193, 0, 29); (194, 0, 29); (195, 0, 29); (196, 0, 29); (197, 0, 29); (198, 0, 29); (199, 0, 29); (200, 0, 29); (201, 0, 29); (202, 0, 29); (203, 0, 29); (204, 0, 29); (205, 0, 29); (206, 0, 29); (207, 0, 29); (208, 0, 29); (209, 0, 29); (210, 0, 29); (211, 0, 29); (212, 0, 29); (213, 0, 29); (214, 0, 29); (215, 0, 29); (216, 0, 29); (217, 0, 20); (218, 0, 20); (219, 0, 20); (220, 0, 20); (221, 0, 20); (222, 0, 20); (223, 0, 29); (224, 0, 29); (225, 0, 29); (226, 0, 29); (229, 0, 20); (230, 0, 20); (231, 0, 29); (232, 0, 29); (233, 0, 29); (234, 0, 29); (235, 0, 29); (236, 0, 29); (237, 0, 29); (238, 0, 29); (239, 0, 29); (240, 0, 29); (241, 0, 29); (257, 0, 29); (258, 0, 29); (273, 0, 29); (274, 0, 29); (275, 0, 20); (276, 0, 29); (277, 0, 29); (278, 0, 29); (279, 0, 29); (280, 0, 29); (281, 0, 29); (282, 0, 29); (283, 0, 29); (284, 0, 29); (285, 0, 29); (286, 0, 29); (287, 0, 29); (288, 0, 29); (289, 0, 29); (290, 0, 29); (291, 0, 29); (292, 0, 29); (293, 0, 29); (294, 0, 29); (295, 0, 29); (296, 0, 29); (297, 0, 29); (298, 0, 29)];
  [(230, 5, 114)];
  [(275, 5, 114); (203, 1, 116); (204, 1, 116); (205, 1, 116); (207, 1, 116); (208, 1, 116); (209, 1, 116); (210, 1, 116); (211, 1, 116); (212, 1, 116); (213, 1, 116); (214, 1, 116); (215, 1, 116); (216, 1, 116); (231, 1, 116); (232, 1, 116); (233, 1, 116); (234, 1, 116); (235, 1, 116); (236, 1, 116); (237, 1, 116); (274, 1, 116)];
  [(222, 5, 114)];
  [(220, 5, 114); (172, 1, 80)];
  [(221, 5, 114)];
  [(219, 5, 114)];
  [(44, 4, 80)];
  [(42, 4, 80)];
  [(304, 3, 98); (313, 0, 98); (314, 0, 98); (315, 0, 98); (316, 0, 98); (317, 0, 98); (318, 0, 98)];
  [(340, 3, 98); (303, 0, 98); (304, 0, 98); (307, 0, 98); (309, 0, 99); (310, 0, 99)];
  [(346, 2, 8)];
  [(348, 2, 8)];
  [(344, 2, 8)];
  [(341, 3, 98); (342, 3, 98); (301, 0, 15); (302, 0, 15); (303, 0, 15); (304, 0, 15); (307, 0, 15); (309, 0, 16); (310, 0, 16); (340, 0, 15); (341, 0, 15); (342, 0, 15)];
  [(300, 3, 63); (306, 3, 75); (340, 1, 96); (341, 1, 96); (342, 1, 96); (343, 0, 8); (344, 0, 8); (345, 0, 8); (346, 0, 8); (347, 0, 8); (348, 0, 8); (349, 0, 8); (350, 0, 8); (351, 0, 8); (352, 0, 8)];
  [(314, 2, 98); (317, 2, 98)];
  [(149, 2, 61); (171, 0, 94); (172, 0, 94); (182, 0, 94); (183, 0, 100); (184, 0, 100); (185, 0, 100); (186, 0, 100); (187, 0, 100); (188, 0, 107); (189, 0, 107); (190, 0, 107); (191, 0, 107); (192, 0, 107); (193, 0, 107); (194, 0, 107); (195, 0, 107); (196, 0, 107); (197, 0, 107); (198, 0, 107); (199, 0, 107); (200, 0, 107); (201, 0, 107); (202, 0, 107); (203, 0, 107); (204, 0, 107); (205, 0, 107); (206, 0, 107); (207, 0, 107); (208, 0, 107); (209, 0, 107); (210, 0, 107); (211, 0, 107); (212, 0, 107); (213, 0, 107); (214, 0, 107); (215, 0, 107); (216, 0, 107); (217, 0, 100); (218, 0, 100); (219, 0, 100); (220, 0, 100); (221, 0, 100); (222, 0, 100); (223, 0, 107); (224, 0, 107); (225, 0, 107); (226, 0, 107); (229, 0, 100); (230, 0, 100); (231, 0, 107); (232, 0, 107); (233, 0, 107); (234, 0, 107); (235, 0, 107); (236, 0, 107); (237, 0, 107); (238, 0, 107); (239, 0, 107); (240, 0, 107); (241, 0, 107); (257, 0, 107); (258, 0, 107); (273, 0, 107); (274, 0, 107); (275, 0, 100); (276, 0, 107); (277, 0, 107); (278, 0, 107); (279, 0, 107); (280, 0, 107); (281, 0, 107); (282, 0, 107); (283, 0, 107); (284, 0, 107); (285, 0, 107); (286, 0, 107); (287, 0, 107); (288, 0, 107); (289, 0, 107); (290, 0, 107); (291, 0, 107); (292, 0, 107); (293, 0, 107); (294, 0, 107); (295, 0, 107); (296, 0, 107); (297, 0, 107); (298, 0, 107)];
  [(326, 5, 58)];
  [(70, 4, 86)];
  [(88, 3, 86)];
  [(87, 3, 86)];
  [(84, 4, 86)];
  [(69, 4, 86)];
  [(85, 3, 86)];
  [(103, 3, 86)];
  [(100, 5, 80)];
  [(102, 5, 80); (103, 0, 80)];
  [(244, 1, 43)];
  [(242, 3, 117); (153, 0, 42); (154, 0, 42)];
  [(239, 6, 117)];
  [(240, 6, 117)];
  [(241, 6, 117); (172, 1, 80)];
  [(257, 6, 117)];
  [(258, 6, 117)];
  [(224, 6, 117)];
  [(228, 5, 10); (217, 1, 20); (218, 1, 20)];
  [(222, 6, 114)];
  [(220, 6, 114)];
  [(304, 4, 98)];
  [(340, 4, 98)];
  [(341, 4, 98); (342, 4, 98); (340, 1, 15); (341, 1, 15); (342, 1, 15); (343, 0, 8); (344, 0, 8); (345, 0, 8); (346, 0, 8); (347, 0, 8); (348, 0, 8); (349, 0, 8); (350, 0, 8); (351, 0, 8); (352, 0, 8)];
  [(314, 3, 98); (356, 0, 80); (357, 0, 80)];
  [(149, 3, 61); (172, 1, 94); (151, 0, 61); (152, 0, 61)];
  [(87, 4, 86)];
  [(102, 6, 80)];
  [(244, 2, 43); (171, 0, 84); (172, 0, 84); (182, 0, 84); (183, 0, 85); (184, 0, 85); (185, 0, 85); (186, 0, 85); (187, 0, 85); (188, 0, 89); (189, 0, 89); (190, 0, 89); (191, 0, 89); (192, 0, 89); (193, 0, 89); (194, 0, 89); (195, 0, 89); (196, 0, 89); (197, 0, 89); (198, 0, 89); (199, 0, 89); (200, 0, 89); (201, 0, 89); (202, 0, 89); (203, 0, 89); (204, 0, 89); (205, 0, 89); (206, 0, 89); (207, 0, 89); (208, 0, 89); (209, 0, 89); (210, 0, 89); (211, 0, 89); (212, 0, 89); (213, 0, 89); (214, 0, 89); (215, 0, 89); (216, 0, 89); (217, 0, 85); (218, 0, 85); (219, 0, 85); (220, 0, 85); (221, 0, 85); (222, 0, 85); (223, 0, 89); (224, 0, 89); (225, 0, 89); (226, 0, 89); (229, 0, 85); (230, 0, 85); (231, 0, 89); (232, 0, 89); (233, 0, 89); (234, 0, 89); (235, 0, 89); (236, 0, 89); (237, 0, 89); (238, 0, 89); (239, 0, 89); (240, 0, 89); (241, 0, 89); (257, 0, 89); (258, 0, 89); (273, 0, 89); (274, 0, 89); (275, 0, 85); (276, 0, 89); (277, 0, 89); (278, 0, 89); (279, 0, 89); (280, 0, 89); (281, 0, 89); (282, 0, 89); (283, 0, 89); (284, 0, 89); (285, 0, 89); (286, 0, 89); (287, 0, 89); (288, 0, 89); (289, 0, 89); (290, 0, 89); (291, 0, 89); (292, 0, 89); (293, 0, 89); (294, 0, 89); (295, 0, 89); (296, 0, 89); (297, 0, 89); (298, 0, 89)];
  [(242, 4, 117); (246, 0, 38); (247, 0, 38); (248, 0, 38); (249, 0, 24); (250, 0, 24); (251, 0, 24)];
  [(241, 7, 117); (242, 0, 117); (243, 0, 117)];
  [(342, 5, 98)];
  [(341, 5, 98); (183, 0, 102); (184, 0, 102); (185, 0, 102); (186, 0, 102); (187, 0, 102); (188, 0, 109); (189, 0, 109); (190, 0, 109); (191, 0, 109); (192, 0, 109); (193, 0, 109); (194, 0, 109); (195, 0, 109); (196, 0, 109); (197, 0, 109); (198, 0, 109); (199, 0, 109); (200, 0, 109); (201, 0, 109); (202, 0, 109); (203, 0, 109); (204, 0, 109); (205, 0, 109); (206, 0, 109); (207, 0, 109); (208, 0, 109); (209, 0, 109); (210, 0, 109); (211, 0, 109); (212, 0, 109); (213, 0, 109); (214, 0, 109); (215, 0, 109); (216, 0, 109); (217, 0, 102); (218, 0, 102); (219, 0, 102); (220, 0, 102); (221, 0, 102); (222, 0, 102); (223, 0, 109); (224, 0, 109); (225, 0, 109); (226, 0, 109); (229, 0, 102); (230, 0, 102); (231, 0, 109); (232, 0, 109); (233, 0, 109); (234, 0, 109); (235, 0, 109); (236, 0, 109); (237, 0, 109); (238, 0, 109); (239, 0, 109); (240, 0, 109); (241, 0, 109); (257, 0, 109); (258, 0, 109); (273, 0, 109); (274, 0, 109); (275, 0, 102); (276, 0, 109); (277, 0, 109); (278, 0, 109); (279, 0, 109); (280, 0, 109); (281, 0, 109); (282, 0, 109); (283, 0, 109); (284, 0, 109); (285, 0, 109); (286, 0, 109); (287, 0, 109); (288, 0, 109); (289, 0, 109); (290, 0, 109); (291, 0, 109); (292, 0, 109); (293, 0, 109); (294, 0, 109); (295, 0, 109); (296, 0, 109); (297, 0, 109); (298, 0, 109); (353, 0, 98)];
  [(314, 4, 98); (357, 1, 80)];
  [(151, 1, 61); (183, 0, 67); (184, 0, 67); (185, 0, 67); (186, 0, 67); (187, 0, 67); (188, 0, 73); (189, 0, 73); (190, 0, 73); (191, 0, 73); (192, 0, 73); (193, 0, 73); (194, 0, 73); (195, 0, 73); (196, 0, 73); (197, 0, 73); (198, 0, 73); (199, 0, 73); (200, 0, 73); (201, 0, 73); (202, 0, 73); (203, 0, 73); (204, 0, 73); (205, 0, 73); (206, 0, 73); (207, 0, 73); (208, 0, 73); (209, 0, 73); (210, 0, 73); (211, 0, 73); (212, 0, 73); (213, 0, 73); (214, 0, 73); (215, 0, 73); (216, 0, 73); (217, 0, 67); (218, 0, 67); (219, 0, 67); (220, 0, 67); (221, 0, 67); (222, 0, 67); (223, 0, 73); (224, 0, 73); (225, 0, 73); (226, 0, 73); (229, 0, 67); (230, 0, 67); (231, 0, 73); (232, 0, 73); (233, 0, 73); (234, 0, 73); (235, 0, 73); (236, 0, 73); (237, 0, 73); (238, 0, 73); (239, 0, 73); (240, 0, 73); (241, 0, 73); (257, 0, 73); (258, 0, 73); (273, 0, 73); (274, 0, 73); (275, 0, 67); (276, 0, 73); (277, 0, 73); (278, 0, 73); (279, 0, 73); (280, 0, 73); (281, 0, 73); (282, 0, 73); (283, 0, 73); (284, 0, 73); (285, 0, 73); (286, 0, 73); (287, 0, 73); (288, 0, 73); (289, 0, 73); (290, 0, 73); (291, 0, 73); (292, 0, 73); (293, 0, 73); (294, 0, 73); (295, 0, 73); (296, 0, 73); (297, 0, 73); (298, 0, 73)];
  [(149, 4, 61)];
  [(87, 5, 86)];
  [(244, 3, 43); (172, 1, 84)];
  [(249, 1, 24)];
  [(250, 1, 24)];
  [(251, 1, 24)];
  [(242, 5, 117)];
  [(246, 1, 38); (247, 1, 38); (252, 0, 38); (253, 0, 38); (254, 0, 38); (255, 0, 38); (256, 0, 38)];
  [(241, 8, 117)];
  [(342, 6, 98); (356, 0, 80); (357, 0, 80)];
  [(217, 1, 102); (218, 1, 102); (353, 1, 98)];
  [(341, 6, 98)];
  [(314, 5, 98)];
  [(151, 2, 61); (217, 1, 67); (218, 1, 67)];
  [(242, 6, 117)];
  [(253, 1, 39); (255, 1, 39)];
  [(247, 2, 38); (252, 0, 9); (253, 0, 9); (254, 0, 9); (255, 0, 9); (256, 0, 9)];
  [(252, 1, 39); (254, 1, 39)];
  [(256, 1, 39)];
  [(246, 2, 38)];
  [(342, 7, 98); (357, 1, 80)];
  [(255, 2, 39)];
  [(253, 2, 39)];
  [(247, 3, 38)];
  [(254, 2, 39)];
  [(252, 2, 39)];
  [(342, 8, 98)];
  [(247, 4, 38); (252, 0, 38); (253, 0, 38); (254, 0, 38); (255, 0, 38); (256, 0, 38)];
  [(247, 5, 38)]].
(** Nonterminals from 199 on: FIRST set, nullable. *)
Definition first_list : list (N * bool) := [
  (0x2000000003800000000020800088000024430032008408080, false);
  (0x2000000003800000000020800088000024430032008408080, false);
  (0x2000000003800000000020800088000024430032008408080, false);
  (0x2000000003800000000020800088000024430032008408080, false);
  (0x2000000003800000000020000080000024420030000408080, false);
  (0x20000000000000000000000000000, true);
  (0x8, false);
  (0x8, false);
  (0x3800000000000000000000000000000000000000, false);
  (0x400000000000000000000000000000000000000, true);
  (0x8000000, false);
  (0x10, false);
  (0x400000, false);
  (0x8000000010000000000000, false);
  (0x8, false);
  (0x10, false);
  (0x2000000000000000000020000000000000000000000000000, true);
  (0x100000000000002000001000008, false);
  (0x100000000000000000000000008, false);
  (0x8000000000000000000000, false);
  (0x800000000000000002000000000, false);
  (0x10000000000, false);
  (0x80000000000000000000000000000000, true);
  (0xe000000000000000000000000000000000000000008, false);
  (0xe000000000000000000000000000000000000000008, false);
  (0x8, false);
  (0x200000001005080034000100000080be2000800, false);
  (0x2000000000000000000000000000000000000000000000000, true);
  (0x2000000000000000000000000000000000000000000000000, true);
  (0x26000000000002000100000000000000000000000000, true);
  (0x26000000000002000100000000000000000000000000, false);
  (0x6000000000002000100000000000000000000000000, false);
  (0xe000000000000000000000000000000000000000000, false);
  (0x20000000000000000000000000000000000000000000, false);
  (0x80000000000000000000080, false);
  (0x80000000000000000000000000000000, true);
  (0x20000000000000000, false);
  (0x80000000000000000000000, false);
  (0x80000000000000000000000, false);
  (0x20000000000, false);
  (0x8000, false);
  (0x20000000000000, false);
  (0x2000000000000000000000000000000000000000000000000, true);
  (0x4000000000000000, false);
  (0x8, false);
  (0x8, false);
  (0x2000000000000000000020000000000000400000000000000, false);
  (0x2000000000000000000000000000000000400000000000000, false);
  (0x400000000000000, false);
  (0x2000000000000000000000000000000000000000000000000, false);
  (0x400000000000000, false);
  (0x200000000200000000200, false);
  (0x200000000200000000200, false);
  (0x80000000000000000000000000000, true);
  (0x400000000000000, false);
  (0x1000, true);
  (0x420600000001c0008002000100012000000001c00000000078, false);
  (0x400000000000000000000000, true);
  (0x400000000000000000000000, false);
  (0x800000000000000000000, true);
  (0x200000000000000000, true);
  (0x8000000000000, true);
  (0x10000000000000000000, true);
  (0x420600000001c0008002000100012000000001c00000000078, false);
  (0x420600000001c0008002000100012000000001c00000000078, false);
  (0x200000040000000000000000000000, true);
  (0x8, true);
  (0x10000000000000000000000000000000, true);
  (0x1000080000000000000, true);
  (0x420600000001c0008002000100012000000001c00000000078, false);
  (0x400200000001c0000000000100010000000001000000000070, true);
  (0x400200000001c0000000000100010000000001000000000070, false);
  (0x400200000001c0000000000100010000000001000000000070, false);
  (0x400200000001c0000000000100010000000000000000000070, false);
  (0x420600000001c0008002000100012000000001c00000000078, false);
  (0x420600000001c0008002000100012000000001c00000000078, false);
  (0x420600000001c0008002000100012000000001800000000078, false);
  (0x400400000001c0000000000100010000000000000000000078, false);
  (0x420600000001c0008002000100012000000001800000000078, false);
  (0x420600000001c0008002000100012000000001800000000078, false);
  (0x420600000001c0008002000100012000000001c00000000078, false);
  (0x420600000001c0008002000100012000000001800000000078, false);
  (0x2000000000000000000000, false);
  (0x10000000000000000000000000000, false);
  (0x2000000000000000000400000000000, false);
  (0x420600000001c0008002000100012000000001800000000078, false);
  (0x8, false);
  (0x20000000000000000000, true);
  (0x200000000000000000000000000, true);
  (0x1c0000000000000000000000000000000000000000, true);
  (0x1c0000000000000000000000000000000000000000, false);
  (0x1200000000000000000000000000000000000000040, false);
  (0x800000000000, false);
  (0x1000000000000, false);
  (0xfc0000000000000000000000000000000000, false);
  (0x3f000000000000000000000000000000000000, false);
  (0x3ffc0000000000000000000000000000000000, false);
  (0x8000000000000000000000000000000000, false);
  (0x420600000001c0008002000100012000000001800000000078, false);
  (0x420600000001c0008002000100012000000001800000000078, false);
  (0x40000000000000000000000000000000000000000000008, false);
  (0x400000000001c0000000000100010000000000000000000070, false);
  (0x10, false);
  (0x180000000000000000000000000000000000000, false);
  (0x60, false);
  (0x40, false);
  (0x100000000000000000000000000, false);
  (0x10000000000000000000000, false);
  (0x40000000000000000000000000000000000040, false);
  (0x40000000000000000000000000000000000000000000000000, false);
  (0x2000000000000000000000000000000000000000000000008, false);
  (0x2000000000000000000000000000000000000000000000008, false);
  (0x2000000000000000000000000000000000000000000000008, false);
  (0x2000000000000000000000000000000000000000000000008, false);
  (0x8, false);
  (0x8, false);
  (0x8, false);
  (0x8, true);
  (0x20000000000000000000000000000008, false);
  (0x20000000000000000000000000000008, true);
  (0x20000000000000000000000000000008, false);
  (0x20000000000000000000000000000008, true);
  (0x800000000000000000000000000000, true);
  (0x800000000000000000000000000000, false);
  (0x800000000000000000000000000000, false);
  (0x10020000004000000000000000004000000000000000, false);
  (0xc000000000000000000000000000000000000000, true);
  (0x20000000000000000000000000000, true);
  (0x20000000000000000000000000000, false);
  (0x8, false);
  (0x8, false);
  (0x2000000000000000000000000000000000000000000000008, false);
  (0x108000c0840000000000000000, true);
  (0x420600000001c0008002000100012000000001c00000000078, false);
  (0x10000000000000000000000000000000000000000000000000, true);
  (0x8, false)].
