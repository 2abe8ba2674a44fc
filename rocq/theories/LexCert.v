(** GENERATED by tools/gen_lexspec.py.  For every reachable state of the automaton in /repo/src/parser/flex_lexer.cpp: a start
    state and a text leading to it.  Not trusted: LexProof.v checks everything it uses. *)
From Verif Require Import Base.
Local Open Scope Z_scope.
Definition access : list (Z * (Z * list Z)) := [
  (1, (1, [])); (3, (3, [])); (5, (5, [])); (8, (1, [1])); (9, (1, [32])); (10, (1, [10])); (11, (1, [33]));
  (12, (1, [34])); (13, (1, [37])); (14, (1, [39])); (15, (1, [45])); (16, (1, [46])); (17, (1, [48]));
  (18, (1, [60])); (19, (1, [61])); (20, (1, [62])); (21, (1, [65])); (22, (1, [66])); (23, (1, [67]));
  (24, (1, [68])); (25, (1, [69])); (26, (1, [70])); (27, (1, [71])); (28, (1, [72])); (29, (1, [73]));
  (30, (1, [74])); (31, (1, [75])); (32, (1, [76])); (33, (1, [77])); (34, (1, [78])); (35, (1, [79]));
  (36, (1, [80])); (37, (1, [81])); (38, (1, [82])); (39, (1, [83])); (40, (1, [84])); (41, (1, [85]));
  (42, (1, [86])); (43, (1, [87])); (44, (1, [89])); (45, (1, [124])); (46, (3, [1])); (47, (3, [39]));
  (48, (5, [1])); (49, (5, [32])); (50, (5, [10])); (51, (5, [33])); (52, (5, [34])); (53, (5, [37]));
  (54, (5, [39])); (55, (5, [45])); (56, (5, [46])); (57, (5, [48])); (58, (5, [60])); (59, (5, [61]));
  (60, (5, [62])); (61, (5, [65])); (62, (5, [66])); (63, (5, [67])); (64, (5, [68])); (65, (5, [69]));
  (66, (5, [70])); (67, (5, [71])); (68, (5, [72])); (69, (5, [73])); (70, (5, [74])); (71, (5, [75]));
  (72, (5, [76])); (73, (5, [77])); (74, (5, [78])); (75, (5, [79])); (76, (5, [80])); (77, (5, [81]));
  (78, (5, [82])); (79, (5, [83])); (80, (5, [84])); (81, (5, [85])); (82, (5, [86])); (83, (5, [87]));
  (84, (5, [89])); (85, (5, [124])); (86, (1, [32; 32])); (87, (1, [33; 61])); (88, (1, [34; 1]));
  (89, (1, [45; 45])); (90, (1, [45; 57])); (91, (1, [46; 48])); (92, (1, [48; 46])); (93, (1, [48; 48]));
  (94, (1, [60; 61])); (95, (1, [60; 62])); (96, (1, [61; 61])); (97, (1, [62; 61])); (98, (1, [65; 48]));
  (99, (1, [65; 68])); (100, (1, [65; 70])); (101, (1, [65; 76])); (102, (1, [65; 78])); (103, (1, [65; 82]));
  (104, (1, [65; 83])); (105, (1, [66; 69])); (106, (1, [66; 73])); (107, (1, [66; 79])); (108, (1, [66; 89]));
  (109, (1, [67; 65])); (110, (1, [67; 72])); (111, (1, [67; 79])); (112, (1, [67; 82])); (113, (1, [67; 85]));
  (114, (1, [68; 65])); (115, (1, [68; 69])); (116, (1, [68; 73])); (117, (1, [68; 79])); (118, (1, [68; 82]));
  (119, (1, [69; 76])); (120, (1, [69; 78])); (121, (1, [69; 83])); (122, (1, [69; 88])); (123, (1, [70; 65]));
  (124, (1, [70; 73])); (125, (1, [70; 76])); (126, (1, [70; 79])); (127, (1, [70; 82])); (128, (1, [70; 85]));
  (129, (1, [71; 76])); (130, (1, [71; 82])); (131, (1, [72; 65])); (132, (1, [72; 73])); (133, (1, [72; 79]));
  (134, (1, [73; 70])); (135, (1, [73; 76])); (136, (1, [73; 77])); (137, (1, [73; 78])); (138, (1, [73; 83]));
  (139, (1, [74; 79])); (140, (1, [75; 69])); (141, (1, [76; 69])); (142, (1, [76; 73])); (143, (1, [76; 79]));
  (144, (1, [77; 69])); (145, (1, [77; 73])); (146, (1, [77; 79])); (147, (1, [78; 65])); (148, (1, [78; 79]));
  (149, (1, [78; 85])); (150, (1, [78; 86])); (151, (1, [79; 70])); (152, (1, [79; 78])); (153, (1, [79; 82]));
  (154, (1, [79; 85])); (155, (1, [79; 86])); (156, (1, [80; 65])); (157, (1, [80; 76])); (158, (1, [80; 82]));
  (159, (1, [82; 65])); (160, (1, [82; 69])); (161, (1, [82; 73])); (162, (1, [82; 79])); (163, (1, [83; 67]));
  (164, (1, [83; 69])); (165, (1, [83; 72])); (166, (1, [83; 75])); (167, (1, [83; 77])); (168, (1, [83; 79]));
  (169, (1, [83; 80])); (170, (1, [84; 65])); (171, (1, [84; 69])); (172, (1, [84; 72])); (173, (1, [84; 73]));
  (174, (1, [84; 79])); (175, (1, [84; 82])); (176, (1, [85; 78])); (177, (1, [85; 80])); (178, (1, [85; 83]));
  (179, (1, [86; 65])); (180, (1, [86; 73])); (181, (1, [87; 72])); (182, (1, [87; 73])); (183, (1, [89; 69]));
  (184, (1, [124; 124])); (185, (3, [1; 1])); (186, (3, [39; 39])); (187, (5, [1; 1])); (188, (5, [32; 32]));
  (189, (5, [33; 61])); (190, (5, [34; 1])); (191, (5, [45; 45])); (192, (5, [45; 57])); (193, (5, [46; 48]));
  (194, (5, [48; 46])); (195, (5, [48; 48])); (196, (5, [60; 61])); (197, (5, [60; 62])); (198, (5, [61; 61]));
  (199, (5, [62; 61])); (200, (5, [65; 48])); (201, (5, [65; 68])); (202, (5, [65; 70])); (203, (5, [65; 76]));
  (204, (5, [65; 78])); (205, (5, [65; 82])); (206, (5, [65; 83])); (207, (5, [66; 69])); (208, (5, [66; 73]));
  (209, (5, [66; 79])); (210, (5, [66; 89])); (211, (5, [67; 65])); (212, (5, [67; 72])); (213, (5, [67; 79]));
  (214, (5, [67; 82])); (215, (5, [67; 85])); (216, (5, [68; 65])); (217, (5, [68; 69])); (218, (5, [68; 73]));
  (219, (5, [68; 79])); (220, (5, [68; 82])); (221, (5, [69; 76])); (222, (5, [69; 78])); (223, (5, [69; 83]));
  (224, (5, [69; 88])); (225, (5, [70; 65])); (226, (5, [70; 73])); (227, (5, [70; 76])); (228, (5, [70; 79]));
  (229, (5, [70; 82])); (230, (5, [70; 85])); (231, (5, [71; 76])); (232, (5, [71; 82])); (233, (5, [72; 65]));
  (234, (5, [72; 73])); (235, (5, [72; 79])); (236, (5, [73; 70])); (237, (5, [73; 76])); (238, (5, [73; 77]));
  (239, (5, [73; 78])); (240, (5, [73; 83])); (241, (5, [74; 79])); (242, (5, [75; 69])); (243, (5, [76; 69]));
  (244, (5, [76; 73])); (245, (5, [76; 79])); (246, (5, [77; 69])); (247, (5, [77; 73])); (248, (5, [77; 79]));
  (249, (5, [78; 65])); (250, (5, [78; 79])); (251, (5, [78; 85])); (252, (5, [78; 86])); (253, (5, [79; 70]));
  (254, (5, [79; 78])); (255, (5, [79; 82])); (256, (5, [79; 85])); (257, (5, [79; 86])); (258, (5, [80; 65]));
  (259, (5, [80; 76])); (260, (5, [80; 82])); (261, (5, [82; 65])); (262, (5, [82; 69])); (263, (5, [82; 73]));
  (264, (5, [82; 79])); (265, (5, [83; 67])); (266, (5, [83; 69])); (267, (5, [83; 72])); (268, (5, [83; 75]));
  (269, (5, [83; 77])); (270, (5, [83; 79])); (271, (5, [83; 80])); (272, (5, [84; 65])); (273, (5, [84; 69]));
  (274, (5, [84; 72])); (275, (5, [84; 73])); (276, (5, [84; 79])); (277, (5, [84; 82])); (278, (5, [85; 78]));
  (279, (5, [85; 80])); (280, (5, [85; 83])); (281, (5, [86; 65])); (282, (5, [86; 73])); (283, (5, [87; 72]));
  (284, (5, [87; 73])); (285, (5, [89; 69])); (286, (5, [124; 124])); (287, (1, [34; 1; 34]));
  (288, (1, [45; 57; 50])); (289, (1, [48; 46; 48])); (290, (1, [65; 68; 68])); (291, (1, [65; 70; 84]));
  (292, (1, [65; 76; 76])); (293, (1, [65; 76; 84])); (294, (1, [65; 78; 65])); (295, (1, [65; 78; 68]));
  (296, (1, [65; 82; 82])); (297, (1, [65; 83; 67])); (298, (1, [66; 69; 70])); (299, (1, [66; 69; 71]));
  (300, (1, [66; 69; 84])); (301, (1, [66; 73; 71])); (302, (1, [66; 79; 79])); (303, (1, [67; 65; 76]));
  (304, (1, [67; 65; 83])); (305, (1, [67; 72; 65])); (306, (1, [67; 79; 76])); (307, (1, [67; 79; 77]));
  (308, (1, [67; 79; 78])); (309, (1, [67; 79; 80])); (310, (1, [67; 82; 69])); (311, (1, [67; 82; 79]));
  (312, (1, [67; 85; 82])); (313, (1, [68; 65; 84])); (314, (1, [68; 65; 89])); (315, (1, [68; 69; 65]));
  (316, (1, [68; 69; 67])); (317, (1, [68; 69; 70])); (318, (1, [68; 69; 76])); (319, (1, [68; 69; 83]));
  (320, (1, [68; 73; 82])); (321, (1, [68; 73; 83])); (322, (1, [68; 79; 85])); (323, (1, [68; 82; 79]));
  (324, (1, [69; 76; 83])); (325, (1, [69; 78; 67])); (326, (1, [69; 78; 68])); (327, (1, [69; 83; 67]));
  (328, (1, [69; 88; 67])); (329, (1, [69; 88; 69])); (330, (1, [69; 88; 73])); (331, (1, [69; 88; 80]));
  (332, (1, [69; 88; 84])); (333, (1, [70; 65; 76])); (334, (1, [70; 73; 76])); (335, (1, [70; 76; 79]));
  (336, (1, [70; 79; 76])); (337, (1, [70; 79; 82])); (338, (1, [70; 82; 79])); (339, (1, [70; 85; 76]));
  (340, (1, [71; 76; 79])); (341, (1, [71; 82; 79])); (342, (1, [72; 65; 83])); (343, (1, [72; 65; 86]));
  (344, (1, [72; 73; 78])); (345, (1, [72; 79; 85])); (346, (1, [73; 76; 73])); (347, (1, [73; 77; 80]));
  (348, (1, [73; 78; 68])); (349, (1, [73; 78; 78])); (350, (1, [73; 78; 83])); (351, (1, [73; 78; 84]));
  (352, (1, [73; 83; 78])); (353, (1, [74; 79; 73])); (354, (1, [75; 69; 89])); (355, (1, [76; 69; 70]));
  (356, (1, [76; 73; 75])); (357, (1, [76; 73; 77])); (358, (1, [76; 79; 65])); (359, (1, [76; 79; 67]));
  (360, (1, [76; 79; 78])); (361, (1, [77; 69; 82])); (362, (1, [77; 73; 78])); (363, (1, [77; 79; 78]));
  (364, (1, [78; 65; 84])); (365, (1, [78; 79; 84])); (366, (1, [78; 79; 87])); (367, (1, [78; 85; 76]));
  (368, (1, [78; 86; 65])); (369, (1, [79; 70; 70])); (370, (1, [79; 82; 68])); (371, (1, [79; 85; 84]));
  (372, (1, [79; 86; 69])); (373, (1, [80; 65; 82])); (374, (1, [80; 76; 65])); (375, (1, [80; 82; 69]));
  (376, (1, [80; 82; 73])); (377, (1, [82; 65; 78])); (378, (1, [82; 69; 65])); (379, (1, [82; 69; 70]));
  (380, (1, [82; 69; 78])); (381, (1, [82; 69; 83])); (382, (1, [82; 73; 71])); (383, (1, [82; 79; 76]));
  (384, (1, [82; 79; 87])); (385, (1, [83; 67; 72])); (386, (1, [83; 69; 67])); (387, (1, [83; 69; 76]));
  (388, (1, [83; 69; 84])); (389, (1, [83; 72; 65])); (390, (1, [83; 72; 79])); (391, (1, [83; 75; 73]));
  (392, (1, [83; 77; 65])); (393, (1, [83; 79; 82])); (394, (1, [83; 80; 65])); (395, (1, [84; 65; 66]));
  (396, (1, [84; 69; 77])); (397, (1, [84; 69; 88])); (398, (1, [84; 72; 69])); (399, (1, [84; 73; 77]));
  (400, (1, [84; 79; 80])); (401, (1, [84; 82; 65])); (402, (1, [84; 82; 85])); (403, (1, [85; 78; 66]));
  (404, (1, [85; 78; 73])); (405, (1, [85; 78; 76])); (406, (1, [85; 80; 68])); (407, (1, [85; 83; 73]));
  (408, (1, [86; 65; 76])); (409, (1, [86; 65; 82])); (410, (1, [86; 73; 69])); (411, (1, [86; 73; 82]));
  (412, (1, [87; 72; 69])); (413, (1, [87; 73; 84])); (414, (1, [89; 69; 65])); (415, (5, [34; 1; 34]));
  (416, (5, [45; 57; 50])); (417, (5, [48; 46; 48])); (418, (5, [65; 68; 68])); (419, (5, [65; 70; 84]));
  (420, (5, [65; 76; 76])); (421, (5, [65; 76; 84])); (422, (5, [65; 78; 65])); (423, (5, [65; 78; 68]));
  (424, (5, [65; 82; 82])); (425, (5, [65; 83; 67])); (426, (5, [66; 69; 70])); (427, (5, [66; 69; 71]));
  (428, (5, [66; 69; 84])); (429, (5, [66; 73; 71])); (430, (5, [66; 79; 79])); (431, (5, [67; 65; 76]));
  (432, (5, [67; 65; 83])); (433, (5, [67; 72; 65])); (434, (5, [67; 79; 76])); (435, (5, [67; 79; 77]));
  (436, (5, [67; 79; 78])); (437, (5, [67; 79; 80])); (438, (5, [67; 82; 69])); (439, (5, [67; 82; 79]));
  (440, (5, [67; 85; 82])); (441, (5, [68; 65; 84])); (442, (5, [68; 65; 89])); (443, (5, [68; 69; 65]));
  (444, (5, [68; 69; 67])); (445, (5, [68; 69; 70])); (446, (5, [68; 69; 76])); (447, (5, [68; 69; 83]));
  (448, (5, [68; 73; 82])); (449, (5, [68; 73; 83])); (450, (5, [68; 79; 85])); (451, (5, [68; 82; 79]));
  (452, (5, [69; 76; 83])); (453, (5, [69; 78; 67])); (454, (5, [69; 78; 68])); (455, (5, [69; 83; 67]));
  (456, (5, [69; 88; 67])); (457, (5, [69; 88; 69])); (458, (5, [69; 88; 73])); (459, (5, [69; 88; 80]));
  (460, (5, [69; 88; 84])); (461, (5, [70; 65; 76])); (462, (5, [70; 73; 76])); (463, (5, [70; 76; 79]));
  (464, (5, [70; 79; 76])); (465, (5, [70; 79; 82])); (466, (5, [70; 82; 79])); (467, (5, [70; 85; 76]));
  (468, (5, [71; 76; 79])); (469, (5, [71; 82; 79])); (470, (5, [72; 65; 83])); (471, (5, [72; 65; 86]));
  (472, (5, [72; 73; 78])); (473, (5, [72; 79; 85])); (474, (5, [73; 76; 73])); (475, (5, [73; 77; 80]));
  (476, (5, [73; 78; 68])); (477, (5, [73; 78; 78])); (478, (5, [73; 78; 83])); (479, (5, [73; 78; 84]));
  (480, (5, [73; 83; 78])); (481, (5, [74; 79; 73])); (482, (5, [75; 69; 89])); (483, (5, [76; 69; 70]));
  (484, (5, [76; 73; 75])); (485, (5, [76; 73; 77])); (486, (5, [76; 79; 65])); (487, (5, [76; 79; 67]));
  (488, (5, [76; 79; 78])); (489, (5, [77; 69; 82])); (490, (5, [77; 73; 78])); (491, (5, [77; 79; 78]));
  (492, (5, [78; 65; 84])); (493, (5, [78; 79; 84])); (494, (5, [78; 79; 87])); (495, (5, [78; 85; 76]));
  (496, (5, [78; 86; 65])); (497, (5, [79; 70; 70])); (498, (5, [79; 82; 68])); (499, (5, [79; 85; 84]));
  (500, (5, [79; 86; 69])); (501, (5, [80; 65; 82])); (502, (5, [80; 76; 65])); (503, (5, [80; 82; 69]));
  (504, (5, [80; 82; 73])); (505, (5, [82; 65; 78])); (506, (5, [82; 69; 65])); (507, (5, [82; 69; 70]));
  (508, (5, [82; 69; 78])); (509, (5, [82; 69; 83])); (510, (5, [82; 73; 71])); (511, (5, [82; 79; 76]));
  (512, (5, [82; 79; 87])); (513, (5, [83; 67; 72])); (514, (5, [83; 69; 67])); (515, (5, [83; 69; 76]));
  (516, (5, [83; 69; 84])); (517, (5, [83; 72; 65])); (518, (5, [83; 72; 79])); (519, (5, [83; 75; 73]));
  (520, (5, [83; 77; 65])); (521, (5, [83; 79; 82])); (522, (5, [83; 80; 65])); (523, (5, [84; 65; 66]));
  (524, (5, [84; 69; 77])); (525, (5, [84; 69; 88])); (526, (5, [84; 72; 69])); (527, (5, [84; 73; 77]));
  (528, (5, [84; 79; 80])); (529, (5, [84; 82; 65])); (530, (5, [84; 82; 85])); (531, (5, [85; 78; 66]));
  (532, (5, [85; 78; 73])); (533, (5, [85; 78; 76])); (534, (5, [85; 80; 68])); (535, (5, [85; 83; 73]));
  (536, (5, [86; 65; 76])); (537, (5, [86; 65; 82])); (538, (5, [86; 73; 69])); (539, (5, [86; 73; 82]));
  (540, (5, [87; 72; 69])); (541, (5, [87; 73; 84])); (542, (5, [89; 69; 65])); (543, (1, [45; 57; 50; 50]));
  (544, (1, [65; 70; 84; 69])); (545, (1, [65; 76; 84; 69])); (546, (1, [65; 78; 65; 76]));
  (547, (1, [65; 82; 82; 65])); (548, (1, [66; 69; 70; 79])); (549, (1, [66; 69; 71; 73]));
  (550, (1, [66; 69; 84; 87])); (551, (1, [66; 73; 71; 73])); (552, (1, [66; 79; 79; 76]));
  (553, (1, [67; 65; 76; 76])); (554, (1, [67; 65; 83; 67])); (555, (1, [67; 65; 83; 69]));
  (556, (1, [67; 65; 83; 84])); (557, (1, [67; 72; 65; 82])); (558, (1, [67; 79; 76; 85]));
  (559, (1, [67; 79; 77; 77])); (560, (1, [67; 79; 78; 84])); (561, (1, [67; 79; 80; 89]));
  (562, (1, [67; 82; 69; 65])); (563, (1, [67; 82; 79; 83])); (564, (1, [67; 85; 82; 82]));
  (565, (1, [68; 65; 84; 69])); (566, (1, [68; 65; 89; 83])); (567, (1, [68; 69; 65; 76]));
  (568, (1, [68; 69; 67; 73])); (569, (1, [68; 69; 70; 65])); (570, (1, [68; 69; 76; 69]));
  (571, (1, [68; 69; 76; 84])); (572, (1, [68; 69; 83; 67])); (573, (1, [68; 73; 82; 69]));
  (574, (1, [68; 73; 83; 84])); (575, (1, [68; 79; 85; 66])); (576, (1, [68; 82; 79; 80]));
  (577, (1, [69; 76; 83; 69])); (578, (1, [69; 78; 67; 79])); (579, (1, [69; 83; 67; 65]));
  (580, (1, [69; 88; 67; 69])); (581, (1, [69; 88; 69; 67])); (582, (1, [69; 88; 73; 83]));
  (583, (1, [69; 88; 80; 76])); (584, (1, [69; 88; 84; 82])); (585, (1, [70; 65; 76; 83]));
  (586, (1, [70; 73; 76; 69])); (587, (1, [70; 76; 79; 65])); (588, (1, [70; 79; 76; 76]));
  (589, (1, [70; 79; 82; 69])); (590, (1, [70; 79; 82; 77])); (591, (1, [70; 82; 79; 77]));
  (592, (1, [70; 85; 76; 76])); (593, (1, [71; 76; 79; 66])); (594, (1, [71; 82; 79; 85]));
  (595, (1, [72; 65; 83; 72])); (596, (1, [72; 65; 86; 73])); (597, (1, [72; 73; 78; 84]));
  (598, (1, [72; 79; 85; 82])); (599, (1, [73; 76; 73; 75])); (600, (1, [73; 77; 80; 79]));
  (601, (1, [73; 78; 68; 69])); (602, (1, [73; 78; 78; 69])); (603, (1, [73; 78; 83; 69]));
  (604, (1, [73; 78; 84; 69])); (605, (1, [73; 78; 84; 79])); (606, (1, [73; 83; 78; 85]));
  (607, (1, [74; 79; 73; 78])); (608, (1, [76; 69; 70; 84])); (609, (1, [76; 73; 75; 69]));
  (610, (1, [76; 73; 77; 73])); (611, (1, [76; 79; 65; 68])); (612, (1, [76; 79; 67; 65]));
  (613, (1, [76; 79; 67; 75])); (614, (1, [76; 79; 78; 71])); (615, (1, [77; 69; 82; 71]));
  (616, (1, [77; 73; 78; 85])); (617, (1, [77; 79; 78; 84])); (618, (1, [78; 65; 84; 85]));
  (619, (1, [78; 79; 87; 65])); (620, (1, [78; 85; 76; 76])); (621, (1, [78; 86; 65; 82]));
  (622, (1, [79; 70; 70; 83])); (623, (1, [79; 82; 68; 69])); (624, (1, [79; 85; 84; 69]));
  (625, (1, [79; 86; 69; 82])); (626, (1, [80; 65; 82; 65])); (627, (1, [80; 65; 82; 84]));
  (628, (1, [80; 76; 65; 78])); (629, (1, [80; 82; 69; 67])); (630, (1, [80; 82; 69; 80]));
  (631, (1, [80; 82; 73; 77])); (632, (1, [82; 65; 78; 71])); (633, (1, [82; 69; 65; 76]));
  (634, (1, [82; 69; 70; 69])); (635, (1, [82; 69; 78; 65])); (636, (1, [82; 69; 83; 84]));
  (637, (1, [82; 73; 71; 72])); (638, (1, [82; 79; 76; 76])); (639, (1, [82; 79; 87; 83]));
  (640, (1, [83; 67; 72; 69])); (641, (1, [83; 69; 67; 79])); (642, (1, [83; 69; 76; 69]));
  (643, (1, [83; 72; 65; 82])); (644, (1, [83; 72; 79; 87])); (645, (1, [83; 75; 73; 80]));
  (646, (1, [83; 77; 65; 76])); (647, (1, [83; 79; 82; 84])); (648, (1, [83; 80; 65; 84]));
  (649, (1, [84; 65; 66; 76])); (650, (1, [84; 69; 77; 80])); (651, (1, [84; 69; 88; 84]));
  (652, (1, [84; 72; 69; 78])); (653, (1, [84; 73; 77; 69])); (654, (1, [84; 82; 65; 78]));
  (655, (1, [84; 82; 85; 69])); (656, (1, [84; 82; 85; 78])); (657, (1, [85; 78; 66; 79]));
  (658, (1, [85; 78; 73; 79])); (659, (1, [85; 78; 73; 81])); (660, (1, [85; 78; 76; 79]));
  (661, (1, [85; 80; 68; 65])); (662, (1, [85; 83; 73; 78])); (663, (1, [86; 65; 76; 85]));
  (664, (1, [86; 65; 82; 67])); (665, (1, [86; 73; 69; 87])); (666, (1, [86; 73; 82; 84]));
  (667, (1, [87; 72; 69; 78])); (668, (1, [87; 72; 69; 82])); (669, (1, [87; 73; 84; 72]));
  (670, (1, [89; 69; 65; 82])); (671, (5, [45; 57; 50; 50])); (672, (5, [65; 70; 84; 69]));
  (673, (5, [65; 76; 84; 69])); (674, (5, [65; 78; 65; 76])); (675, (5, [65; 82; 82; 65]));
  (676, (5, [66; 69; 70; 79])); (677, (5, [66; 69; 71; 73])); (678, (5, [66; 69; 84; 87]));
  (679, (5, [66; 73; 71; 73])); (680, (5, [66; 79; 79; 76])); (681, (5, [67; 65; 76; 76]));
  (682, (5, [67; 65; 83; 67])); (683, (5, [67; 65; 83; 69])); (684, (5, [67; 65; 83; 84]));
  (685, (5, [67; 72; 65; 82])); (686, (5, [67; 79; 76; 85])); (687, (5, [67; 79; 77; 77]));
  (688, (5, [67; 79; 78; 84])); (689, (5, [67; 79; 80; 89])); (690, (5, [67; 82; 69; 65]));
  (691, (5, [67; 82; 79; 83])); (692, (5, [67; 85; 82; 82])); (693, (5, [68; 65; 84; 69]));
  (694, (5, [68; 65; 89; 83])); (695, (5, [68; 69; 65; 76])); (696, (5, [68; 69; 67; 73]));
  (697, (5, [68; 69; 70; 65])); (698, (5, [68; 69; 76; 69])); (699, (5, [68; 69; 76; 84]));
  (700, (5, [68; 69; 83; 67])); (701, (5, [68; 73; 82; 69])); (702, (5, [68; 73; 83; 84]));
  (703, (5, [68; 79; 85; 66])); (704, (5, [68; 82; 79; 80])); (705, (5, [69; 76; 83; 69]));
  (706, (5, [69; 78; 67; 79])); (707, (5, [69; 83; 67; 65])); (708, (5, [69; 88; 67; 69]));
  (709, (5, [69; 88; 69; 67])); (710, (5, [69; 88; 73; 83])); (711, (5, [69; 88; 80; 76]));
  (712, (5, [69; 88; 84; 82])); (713, (5, [70; 65; 76; 83])); (714, (5, [70; 73; 76; 69]));
  (715, (5, [70; 76; 79; 65])); (716, (5, [70; 79; 76; 76])); (717, (5, [70; 79; 82; 69]));
  (718, (5, [70; 79; 82; 77])); (719, (5, [70; 82; 79; 77])); (720, (5, [70; 85; 76; 76]));
  (721, (5, [71; 76; 79; 66])); (722, (5, [71; 82; 79; 85])); (723, (5, [72; 65; 83; 72]));
  (724, (5, [72; 65; 86; 73])); (725, (5, [72; 73; 78; 84])); (726, (5, [72; 79; 85; 82]));
  (727, (5, [73; 76; 73; 75])); (728, (5, [73; 77; 80; 79])); (729, (5, [73; 78; 68; 69]));
  (730, (5, [73; 78; 78; 69])); (731, (5, [73; 78; 83; 69])); (732, (5, [73; 78; 84; 69]));
  (733, (5, [73; 78; 84; 79])); (734, (5, [73; 83; 78; 85])); (735, (5, [74; 79; 73; 78]));
  (736, (5, [76; 69; 70; 84])); (737, (5, [76; 73; 75; 69])); (738, (5, [76; 73; 77; 73]));
  (739, (5, [76; 79; 65; 68])); (740, (5, [76; 79; 67; 65])); (741, (5, [76; 79; 67; 75]));
  (742, (5, [76; 79; 78; 71])); (743, (5, [77; 69; 82; 71])); (744, (5, [77; 73; 78; 85]));
  (745, (5, [77; 79; 78; 84])); (746, (5, [78; 65; 84; 85])); (747, (5, [78; 79; 87; 65]));
  (748, (5, [78; 85; 76; 76])); (749, (5, [78; 86; 65; 82])); (750, (5, [79; 70; 70; 83]));
  (751, (5, [79; 82; 68; 69])); (752, (5, [79; 85; 84; 69])); (753, (5, [79; 86; 69; 82]));
  (754, (5, [80; 65; 82; 65])); (755, (5, [80; 65; 82; 84])); (756, (5, [80; 76; 65; 78]));
  (757, (5, [80; 82; 69; 67])); (758, (5, [80; 82; 69; 80])); (759, (5, [80; 82; 73; 77]));
  (760, (5, [82; 65; 78; 71])); (761, (5, [82; 69; 65; 76])); (762, (5, [82; 69; 70; 69]));
  (763, (5, [82; 69; 78; 65])); (764, (5, [82; 69; 83; 84])); (765, (5, [82; 73; 71; 72]));
  (766, (5, [82; 79; 76; 76])); (767, (5, [82; 79; 87; 83])); (768, (5, [83; 67; 72; 69]));
  (769, (5, [83; 69; 67; 79])); (770, (5, [83; 69; 76; 69])); (771, (5, [83; 72; 65; 82]));
  (772, (5, [83; 72; 79; 87])); (773, (5, [83; 75; 73; 80])); (774, (5, [83; 77; 65; 76]));
  (775, (5, [83; 79; 82; 84])); (776, (5, [83; 80; 65; 84])); (777, (5, [84; 65; 66; 76]));
  (778, (5, [84; 69; 77; 80])); (779, (5, [84; 69; 88; 84])); (780, (5, [84; 72; 69; 78]));
  (781, (5, [84; 73; 77; 69])); (782, (5, [84; 82; 65; 78])); (783, (5, [84; 82; 85; 69]));
  (784, (5, [84; 82; 85; 78])); (785, (5, [85; 78; 66; 79])); (786, (5, [85; 78; 73; 79]));
  (787, (5, [85; 78; 73; 81])); (788, (5, [85; 78; 76; 79])); (789, (5, [85; 80; 68; 65]));
  (790, (5, [85; 83; 73; 78])); (791, (5, [86; 65; 76; 85])); (792, (5, [86; 65; 82; 67]));
  (793, (5, [86; 73; 69; 87])); (794, (5, [86; 73; 82; 84])); (795, (5, [87; 72; 69; 78]));
  (796, (5, [87; 72; 69; 82])); (797, (5, [87; 73; 84; 72])); (798, (5, [89; 69; 65; 82]));
  (799, (1, [45; 57; 50; 50; 51])); (800, (1, [65; 70; 84; 69; 82])); (801, (1, [65; 76; 84; 69; 82]));
  (802, (1, [65; 78; 65; 76; 89])); (803, (1, [65; 82; 82; 65; 89])); (804, (1, [66; 69; 70; 79; 82]));
  (805, (1, [66; 69; 71; 73; 78])); (806, (1, [66; 69; 84; 87; 69])); (807, (1, [66; 73; 71; 73; 78]));
  (808, (1, [66; 79; 79; 76; 69])); (809, (1, [67; 65; 83; 67; 65])); (810, (1, [67; 72; 65; 82; 65]));
  (811, (1, [67; 79; 76; 85; 77])); (812, (1, [67; 79; 77; 77; 73])); (813, (1, [67; 79; 78; 84; 82]));
  (814, (1, [67; 82; 69; 65; 84])); (815, (1, [67; 82; 79; 83; 83])); (816, (1, [67; 85; 82; 82; 69]));
  (817, (1, [68; 65; 84; 69; 84])); (818, (1, [68; 69; 65; 76; 76])); (819, (1, [68; 69; 67; 73; 77]));
  (820, (1, [68; 69; 70; 65; 85])); (821, (1, [68; 69; 76; 69; 84])); (822, (1, [68; 69; 76; 84; 65]));
  (823, (1, [68; 69; 83; 67; 82])); (824, (1, [68; 73; 82; 69; 67])); (825, (1, [68; 73; 83; 84; 73]));
  (826, (1, [68; 79; 85; 66; 76])); (827, (1, [69; 78; 67; 79; 68])); (828, (1, [69; 83; 67; 65; 80]));
  (829, (1, [69; 88; 67; 69; 80])); (830, (1, [69; 88; 69; 67; 85])); (831, (1, [69; 88; 73; 83; 84]));
  (832, (1, [69; 88; 80; 76; 65])); (833, (1, [69; 88; 84; 82; 65])); (834, (1, [70; 65; 76; 83; 69]));
  (835, (1, [70; 76; 79; 65; 84])); (836, (1, [70; 79; 76; 76; 79])); (837, (1, [70; 79; 82; 69; 73]));
  (838, (1, [70; 79; 82; 77; 65])); (839, (1, [71; 76; 79; 66; 65])); (840, (1, [71; 82; 79; 85; 80]));
  (841, (1, [72; 65; 86; 73; 78])); (842, (1, [72; 79; 85; 82; 83])); (843, (1, [73; 76; 73; 75; 69]));
  (844, (1, [73; 77; 80; 79; 82])); (845, (1, [73; 78; 68; 69; 88])); (846, (1, [73; 78; 78; 69; 82]));
  (847, (1, [73; 78; 83; 69; 82])); (848, (1, [73; 78; 84; 69; 71])); (849, (1, [73; 78; 84; 69; 82]));
  (850, (1, [73; 83; 78; 85; 76])); (851, (1, [76; 73; 77; 73; 84])); (852, (1, [76; 79; 67; 65; 76]));
  (853, (1, [76; 79; 67; 75; 69])); (854, (1, [77; 69; 82; 71; 69])); (855, (1, [77; 73; 78; 85; 83]));
  (856, (1, [77; 73; 78; 85; 84])); (857, (1, [77; 79; 78; 84; 72])); (858, (1, [78; 65; 84; 85; 82]));
  (859, (1, [78; 79; 87; 65; 73])); (860, (1, [78; 86; 65; 82; 67])); (861, (1, [79; 70; 70; 83; 69]));
  (862, (1, [79; 82; 68; 69; 82])); (863, (1, [79; 85; 84; 69; 82])); (864, (1, [80; 65; 82; 65; 77]));
  (865, (1, [80; 65; 82; 84; 73])); (866, (1, [80; 82; 69; 67; 69])); (867, (1, [80; 82; 69; 80; 65]));
  (868, (1, [80; 82; 73; 77; 65])); (869, (1, [82; 65; 78; 71; 69])); (870, (1, [82; 69; 70; 69; 82]));
  (871, (1, [82; 69; 78; 65; 77])); (872, (1, [82; 69; 83; 84; 82])); (873, (1, [82; 73; 71; 72; 84]));
  (874, (1, [82; 79; 76; 76; 66])); (875, (1, [83; 67; 72; 69; 77])); (876, (1, [83; 69; 67; 79; 78]));
  (877, (1, [83; 69; 76; 69; 67])); (878, (1, [83; 72; 65; 82; 69])); (879, (1, [83; 77; 65; 76; 76]));
  (880, (1, [83; 79; 82; 84; 69])); (881, (1, [83; 80; 65; 84; 73])); (882, (1, [84; 65; 66; 76; 69]));
  (883, (1, [84; 69; 77; 80; 79])); (884, (1, [84; 73; 77; 69; 83])); (885, (1, [84; 82; 65; 78; 83]));
  (886, (1, [84; 82; 85; 78; 67])); (887, (1, [85; 78; 66; 79; 85])); (888, (1, [85; 78; 73; 79; 78]));
  (889, (1, [85; 78; 73; 81; 85])); (890, (1, [85; 78; 76; 79; 65])); (891, (1, [85; 80; 68; 65; 84]));
  (892, (1, [85; 83; 73; 78; 71])); (893, (1, [86; 65; 76; 85; 69])); (894, (1, [86; 65; 82; 67; 72]));
  (895, (1, [86; 73; 82; 84; 85])); (896, (1, [87; 72; 69; 82; 69])); (897, (1, [89; 69; 65; 82; 83]));
  (898, (5, [45; 57; 50; 50; 51])); (899, (5, [65; 70; 84; 69; 82])); (900, (5, [65; 76; 84; 69; 82]));
  (901, (5, [65; 78; 65; 76; 89])); (902, (5, [65; 82; 82; 65; 89])); (903, (5, [66; 69; 70; 79; 82]));
  (904, (5, [66; 69; 71; 73; 78])); (905, (5, [66; 69; 84; 87; 69])); (906, (5, [66; 73; 71; 73; 78]));
  (907, (5, [66; 79; 79; 76; 69])); (908, (5, [67; 65; 83; 67; 65])); (909, (5, [67; 72; 65; 82; 65]));
  (910, (5, [67; 79; 76; 85; 77])); (911, (5, [67; 79; 77; 77; 73])); (912, (5, [67; 79; 78; 84; 82]));
  (913, (5, [67; 82; 69; 65; 84])); (914, (5, [67; 82; 79; 83; 83])); (915, (5, [67; 85; 82; 82; 69]));
  (916, (5, [68; 65; 84; 69; 84])); (917, (5, [68; 69; 65; 76; 76])); (918, (5, [68; 69; 67; 73; 77]));
  (919, (5, [68; 69; 70; 65; 85])); (920, (5, [68; 69; 76; 69; 84])); (921, (5, [68; 69; 76; 84; 65]));
  (922, (5, [68; 69; 83; 67; 82])); (923, (5, [68; 73; 82; 69; 67])); (924, (5, [68; 73; 83; 84; 73]));
  (925, (5, [68; 79; 85; 66; 76])); (926, (5, [69; 78; 67; 79; 68])); (927, (5, [69; 83; 67; 65; 80]));
  (928, (5, [69; 88; 67; 69; 80])); (929, (5, [69; 88; 69; 67; 85])); (930, (5, [69; 88; 73; 83; 84]));
  (931, (5, [69; 88; 80; 76; 65])); (932, (5, [69; 88; 84; 82; 65])); (933, (5, [70; 65; 76; 83; 69]));
  (934, (5, [70; 76; 79; 65; 84])); (935, (5, [70; 79; 76; 76; 79])); (936, (5, [70; 79; 82; 69; 73]));
  (937, (5, [70; 79; 82; 77; 65])); (938, (5, [71; 76; 79; 66; 65])); (939, (5, [71; 82; 79; 85; 80]));
  (940, (5, [72; 65; 86; 73; 78])); (941, (5, [72; 79; 85; 82; 83])); (942, (5, [73; 76; 73; 75; 69]));
  (943, (5, [73; 77; 80; 79; 82])); (944, (5, [73; 78; 68; 69; 88])); (945, (5, [73; 78; 78; 69; 82]));
  (946, (5, [73; 78; 83; 69; 82])); (947, (5, [73; 78; 84; 69; 71])); (948, (5, [73; 78; 84; 69; 82]));
  (949, (5, [73; 83; 78; 85; 76])); (950, (5, [76; 73; 77; 73; 84])); (951, (5, [76; 79; 67; 65; 76]));
  (952, (5, [76; 79; 67; 75; 69])); (953, (5, [77; 69; 82; 71; 69])); (954, (5, [77; 73; 78; 85; 83]));
  (955, (5, [77; 73; 78; 85; 84])); (956, (5, [77; 79; 78; 84; 72])); (957, (5, [78; 65; 84; 85; 82]));
  (958, (5, [78; 79; 87; 65; 73])); (959, (5, [78; 86; 65; 82; 67])); (960, (5, [79; 70; 70; 83; 69]));
  (961, (5, [79; 82; 68; 69; 82])); (962, (5, [79; 85; 84; 69; 82])); (963, (5, [80; 65; 82; 65; 77]));
  (964, (5, [80; 65; 82; 84; 73])); (965, (5, [80; 82; 69; 67; 69])); (966, (5, [80; 82; 69; 80; 65]));
  (967, (5, [80; 82; 73; 77; 65])); (968, (5, [82; 65; 78; 71; 69])); (969, (5, [82; 69; 70; 69; 82]));
  (970, (5, [82; 69; 78; 65; 77])); (971, (5, [82; 69; 83; 84; 82])); (972, (5, [82; 73; 71; 72; 84]));
  (973, (5, [82; 79; 76; 76; 66])); (974, (5, [83; 67; 72; 69; 77])); (975, (5, [83; 69; 67; 79; 78]));
  (976, (5, [83; 69; 76; 69; 67])); (977, (5, [83; 72; 65; 82; 69])); (978, (5, [83; 77; 65; 76; 76]));
  (979, (5, [83; 79; 82; 84; 69])); (980, (5, [83; 80; 65; 84; 73])); (981, (5, [84; 65; 66; 76; 69]));
  (982, (5, [84; 69; 77; 80; 79])); (983, (5, [84; 73; 77; 69; 83])); (984, (5, [84; 82; 65; 78; 83]));
  (985, (5, [84; 82; 85; 78; 67])); (986, (5, [85; 78; 66; 79; 85])); (987, (5, [85; 78; 73; 79; 78]));
  (988, (5, [85; 78; 73; 81; 85])); (989, (5, [85; 78; 76; 79; 65])); (990, (5, [85; 80; 68; 65; 84]));
  (991, (5, [85; 83; 73; 78; 71])); (992, (5, [86; 65; 76; 85; 69])); (993, (5, [86; 65; 82; 67; 72]));
  (994, (5, [86; 73; 82; 84; 85])); (995, (5, [87; 72; 69; 82; 69])); (996, (5, [89; 69; 65; 82; 83]));
  (997, (1, [45; 57; 50; 50; 51; 51])); (998, (1, [65; 78; 65; 76; 89; 90])); (999, (1, [66; 69; 70; 79; 82; 69]));
  (1000, (1, [66; 69; 84; 87; 69; 69])); (1001, (1, [66; 73; 71; 73; 78; 84]));
  (1002, (1, [66; 79; 79; 76; 69; 65])); (1003, (1, [67; 65; 83; 67; 65; 68]));
  (1004, (1, [67; 72; 65; 82; 65; 67])); (1005, (1, [67; 79; 76; 85; 77; 78]));
  (1006, (1, [67; 79; 77; 77; 73; 84])); (1007, (1, [67; 79; 78; 84; 82; 79]));
  (1008, (1, [67; 82; 69; 65; 84; 69])); (1009, (1, [67; 85; 82; 82; 69; 78]));
  (1010, (1, [68; 65; 84; 69; 84; 73])); (1011, (1, [68; 69; 65; 76; 76; 79]));
  (1012, (1, [68; 69; 67; 73; 77; 65])); (1013, (1, [68; 69; 70; 65; 85; 76]));
  (1014, (1, [68; 69; 76; 69; 84; 69])); (1015, (1, [68; 69; 83; 67; 82; 73]));
  (1016, (1, [68; 73; 82; 69; 67; 84])); (1017, (1, [68; 73; 83; 84; 73; 78]));
  (1018, (1, [68; 79; 85; 66; 76; 69])); (1019, (1, [69; 78; 67; 79; 68; 73]));
  (1020, (1, [69; 83; 67; 65; 80; 69])); (1021, (1, [69; 88; 67; 69; 80; 84]));
  (1022, (1, [69; 88; 69; 67; 85; 84])); (1023, (1, [69; 88; 73; 83; 84; 83]));
  (1024, (1, [69; 88; 80; 76; 65; 73])); (1025, (1, [69; 88; 84; 82; 65; 67]));
  (1026, (1, [70; 79; 76; 76; 79; 87])); (1027, (1, [70; 79; 82; 69; 73; 71]));
  (1028, (1, [70; 79; 82; 77; 65; 84])); (1029, (1, [71; 76; 79; 66; 65; 76]));
  (1030, (1, [71; 82; 79; 85; 80; 83])); (1031, (1, [72; 65; 86; 73; 78; 71]));
  (1032, (1, [73; 77; 80; 79; 82; 84])); (1033, (1, [73; 78; 83; 69; 82; 84]));
  (1034, (1, [73; 78; 84; 69; 71; 69])); (1035, (1, [73; 78; 84; 69; 82; 83]));
  (1036, (1, [73; 78; 84; 69; 82; 86])); (1037, (1, [73; 83; 78; 85; 76; 76]));
  (1038, (1, [76; 79; 67; 75; 69; 68])); (1039, (1, [77; 73; 78; 85; 84; 69]));
  (1040, (1, [77; 79; 78; 84; 72; 83])); (1041, (1, [78; 65; 84; 85; 82; 65]));
  (1042, (1, [78; 79; 87; 65; 73; 84])); (1043, (1, [78; 86; 65; 82; 67; 72]));
  (1044, (1, [79; 70; 70; 83; 69; 84])); (1045, (1, [80; 65; 82; 65; 77; 69]));
  (1046, (1, [80; 65; 82; 84; 73; 84])); (1047, (1, [80; 82; 69; 67; 69; 68]));
  (1048, (1, [80; 82; 69; 80; 65; 82])); (1049, (1, [80; 82; 73; 77; 65; 82]));
  (1050, (1, [82; 69; 70; 69; 82; 69])); (1051, (1, [82; 69; 78; 65; 77; 69]));
  (1052, (1, [82; 69; 83; 84; 82; 73])); (1053, (1, [82; 79; 76; 76; 66; 65]));
  (1054, (1, [83; 67; 72; 69; 77; 65])); (1055, (1, [83; 69; 67; 79; 78; 68]));
  (1056, (1, [83; 69; 76; 69; 67; 84])); (1057, (1, [83; 77; 65; 76; 76; 73]));
  (1058, (1, [83; 79; 82; 84; 69; 68])); (1059, (1, [83; 80; 65; 84; 73; 65]));
  (1060, (1, [84; 65; 66; 76; 69; 83])); (1061, (1, [84; 69; 77; 80; 79; 82]));
  (1062, (1, [84; 73; 77; 69; 83; 84])); (1063, (1, [84; 82; 65; 78; 83; 65]));
  (1064, (1, [84; 82; 85; 78; 67; 65])); (1065, (1, [85; 78; 66; 79; 85; 78]));
  (1066, (1, [85; 78; 73; 81; 85; 69])); (1067, (1, [85; 78; 76; 79; 65; 68]));
  (1068, (1, [85; 80; 68; 65; 84; 69])); (1069, (1, [86; 65; 76; 85; 69; 83]));
  (1070, (1, [86; 65; 82; 67; 72; 65])); (1071, (1, [86; 73; 82; 84; 85; 65]));
  (1072, (5, [45; 57; 50; 50; 51; 51])); (1073, (5, [65; 78; 65; 76; 89; 90]));
  (1074, (5, [66; 69; 70; 79; 82; 69])); (1075, (5, [66; 69; 84; 87; 69; 69]));
  (1076, (5, [66; 73; 71; 73; 78; 84])); (1077, (5, [66; 79; 79; 76; 69; 65]));
  (1078, (5, [67; 65; 83; 67; 65; 68])); (1079, (5, [67; 72; 65; 82; 65; 67]));
  (1080, (5, [67; 79; 76; 85; 77; 78])); (1081, (5, [67; 79; 77; 77; 73; 84]));
  (1082, (5, [67; 79; 78; 84; 82; 79])); (1083, (5, [67; 82; 69; 65; 84; 69]));
  (1084, (5, [67; 85; 82; 82; 69; 78])); (1085, (5, [68; 65; 84; 69; 84; 73]));
  (1086, (5, [68; 69; 65; 76; 76; 79])); (1087, (5, [68; 69; 67; 73; 77; 65]));
  (1088, (5, [68; 69; 70; 65; 85; 76])); (1089, (5, [68; 69; 76; 69; 84; 69]));
  (1090, (5, [68; 69; 83; 67; 82; 73])); (1091, (5, [68; 73; 82; 69; 67; 84]));
  (1092, (5, [68; 73; 83; 84; 73; 78])); (1093, (5, [68; 79; 85; 66; 76; 69]));
  (1094, (5, [69; 78; 67; 79; 68; 73])); (1095, (5, [69; 83; 67; 65; 80; 69]));
  (1096, (5, [69; 88; 67; 69; 80; 84])); (1097, (5, [69; 88; 69; 67; 85; 84]));
  (1098, (5, [69; 88; 73; 83; 84; 83])); (1099, (5, [69; 88; 80; 76; 65; 73]));
  (1100, (5, [69; 88; 84; 82; 65; 67])); (1101, (5, [70; 79; 76; 76; 79; 87]));
  (1102, (5, [70; 79; 82; 69; 73; 71])); (1103, (5, [70; 79; 82; 77; 65; 84]));
  (1104, (5, [71; 76; 79; 66; 65; 76])); (1105, (5, [71; 82; 79; 85; 80; 83]));
  (1106, (5, [72; 65; 86; 73; 78; 71])); (1107, (5, [73; 77; 80; 79; 82; 84]));
  (1108, (5, [73; 78; 83; 69; 82; 84])); (1109, (5, [73; 78; 84; 69; 71; 69]));
  (1110, (5, [73; 78; 84; 69; 82; 83])); (1111, (5, [73; 78; 84; 69; 82; 86]));
  (1112, (5, [73; 83; 78; 85; 76; 76])); (1113, (5, [76; 79; 67; 75; 69; 68]));
  (1114, (5, [77; 73; 78; 85; 84; 69])); (1115, (5, [77; 79; 78; 84; 72; 83]));
  (1116, (5, [78; 65; 84; 85; 82; 65])); (1117, (5, [78; 79; 87; 65; 73; 84]));
  (1118, (5, [78; 86; 65; 82; 67; 72])); (1119, (5, [79; 70; 70; 83; 69; 84]));
  (1120, (5, [80; 65; 82; 65; 77; 69])); (1121, (5, [80; 65; 82; 84; 73; 84]));
  (1122, (5, [80; 82; 69; 67; 69; 68])); (1123, (5, [80; 82; 69; 80; 65; 82]));
  (1124, (5, [80; 82; 73; 77; 65; 82])); (1125, (5, [82; 69; 70; 69; 82; 69]));
  (1126, (5, [82; 69; 78; 65; 77; 69])); (1127, (5, [82; 69; 83; 84; 82; 73]));
  (1128, (5, [82; 79; 76; 76; 66; 65])); (1129, (5, [83; 67; 72; 69; 77; 65]));
  (1130, (5, [83; 69; 67; 79; 78; 68])); (1131, (5, [83; 69; 76; 69; 67; 84]));
  (1132, (5, [83; 77; 65; 76; 76; 73])); (1133, (5, [83; 79; 82; 84; 69; 68]));
  (1134, (5, [83; 80; 65; 84; 73; 65])); (1135, (5, [84; 65; 66; 76; 69; 83]));
  (1136, (5, [84; 69; 77; 80; 79; 82])); (1137, (5, [84; 73; 77; 69; 83; 84]));
  (1138, (5, [84; 82; 65; 78; 83; 65])); (1139, (5, [84; 82; 85; 78; 67; 65]));
  (1140, (5, [85; 78; 66; 79; 85; 78])); (1141, (5, [85; 78; 73; 81; 85; 69]));
  (1142, (5, [85; 78; 76; 79; 65; 68])); (1143, (5, [85; 80; 68; 65; 84; 69]));
  (1144, (5, [86; 65; 76; 85; 69; 83])); (1145, (5, [86; 65; 82; 67; 72; 65]));
  (1146, (5, [86; 73; 82; 84; 85; 65])); (1147, (1, [45; 57; 50; 50; 51; 51; 55]));
  (1148, (1, [65; 78; 65; 76; 89; 90; 69])); (1149, (1, [66; 69; 84; 87; 69; 69; 78]));
  (1150, (1, [66; 79; 79; 76; 69; 65; 78])); (1151, (1, [67; 65; 83; 67; 65; 68; 69]));
  (1152, (1, [67; 72; 65; 82; 65; 67; 84])); (1153, (1, [67; 79; 76; 85; 77; 78; 83]));
  (1154, (1, [67; 79; 78; 84; 82; 79; 76])); (1155, (1, [67; 85; 82; 82; 69; 78; 84]));
  (1156, (1, [68; 65; 84; 69; 84; 73; 77])); (1157, (1, [68; 69; 65; 76; 76; 79; 67]));
  (1158, (1, [68; 69; 67; 73; 77; 65; 76])); (1159, (1, [68; 69; 70; 65; 85; 76; 84]));
  (1160, (1, [68; 69; 83; 67; 82; 73; 66])); (1161, (1, [68; 73; 83; 84; 73; 78; 67]));
  (1162, (1, [69; 78; 67; 79; 68; 73; 78])); (1163, (1, [69; 88; 69; 67; 85; 84; 69]));
  (1164, (1, [69; 88; 80; 76; 65; 73; 78])); (1165, (1, [69; 88; 84; 82; 65; 67; 84]));
  (1166, (1, [70; 79; 76; 76; 79; 87; 73])); (1167, (1, [70; 79; 82; 69; 73; 71; 78]));
  (1168, (1, [73; 78; 84; 69; 71; 69; 82])); (1169, (1, [73; 78; 84; 69; 82; 83; 69]));
  (1170, (1, [73; 78; 84; 69; 82; 86; 65])); (1171, (1, [77; 73; 78; 85; 84; 69; 83]));
  (1172, (1, [78; 65; 84; 85; 82; 65; 76])); (1173, (1, [78; 86; 65; 82; 67; 72; 65]));
  (1174, (1, [80; 65; 82; 65; 77; 69; 84])); (1175, (1, [80; 65; 82; 84; 73; 84; 73]));
  (1176, (1, [80; 82; 69; 67; 69; 68; 73])); (1177, (1, [80; 82; 69; 80; 65; 82; 69]));
  (1178, (1, [80; 82; 73; 77; 65; 82; 89])); (1179, (1, [82; 69; 70; 69; 82; 69; 78]));
  (1180, (1, [82; 69; 83; 84; 82; 73; 67])); (1181, (1, [82; 79; 76; 76; 66; 65; 67]));
  (1182, (1, [83; 67; 72; 69; 77; 65; 83])); (1183, (1, [83; 69; 67; 79; 78; 68; 83]));
  (1184, (1, [83; 77; 65; 76; 76; 73; 78])); (1185, (1, [83; 80; 65; 84; 73; 65; 76]));
  (1186, (1, [84; 69; 77; 80; 79; 82; 65])); (1187, (1, [84; 73; 77; 69; 83; 84; 65]));
  (1188, (1, [84; 82; 65; 78; 83; 65; 67])); (1189, (1, [84; 82; 85; 78; 67; 65; 84]));
  (1190, (1, [85; 78; 66; 79; 85; 78; 68])); (1191, (1, [86; 65; 82; 67; 72; 65; 82]));
  (1192, (1, [86; 73; 82; 84; 85; 65; 76])); (1193, (5, [45; 57; 50; 50; 51; 51; 55]));
  (1194, (5, [65; 78; 65; 76; 89; 90; 69])); (1195, (5, [66; 69; 84; 87; 69; 69; 78]));
  (1196, (5, [66; 79; 79; 76; 69; 65; 78])); (1197, (5, [67; 65; 83; 67; 65; 68; 69]));
  (1198, (5, [67; 72; 65; 82; 65; 67; 84])); (1199, (5, [67; 79; 76; 85; 77; 78; 83]));
  (1200, (5, [67; 79; 78; 84; 82; 79; 76])); (1201, (5, [67; 85; 82; 82; 69; 78; 84]));
  (1202, (5, [68; 65; 84; 69; 84; 73; 77])); (1203, (5, [68; 69; 65; 76; 76; 79; 67]));
  (1204, (5, [68; 69; 67; 73; 77; 65; 76])); (1205, (5, [68; 69; 70; 65; 85; 76; 84]));
  (1206, (5, [68; 69; 83; 67; 82; 73; 66])); (1207, (5, [68; 73; 83; 84; 73; 78; 67]));
  (1208, (5, [69; 78; 67; 79; 68; 73; 78])); (1209, (5, [69; 88; 69; 67; 85; 84; 69]));
  (1210, (5, [69; 88; 80; 76; 65; 73; 78])); (1211, (5, [69; 88; 84; 82; 65; 67; 84]));
  (1212, (5, [70; 79; 76; 76; 79; 87; 73])); (1213, (5, [70; 79; 82; 69; 73; 71; 78]));
  (1214, (5, [73; 78; 84; 69; 71; 69; 82])); (1215, (5, [73; 78; 84; 69; 82; 83; 69]));
  (1216, (5, [73; 78; 84; 69; 82; 86; 65])); (1217, (5, [77; 73; 78; 85; 84; 69; 83]));
  (1218, (5, [78; 65; 84; 85; 82; 65; 76])); (1219, (5, [78; 86; 65; 82; 67; 72; 65]));
  (1220, (5, [80; 65; 82; 65; 77; 69; 84])); (1221, (5, [80; 65; 82; 84; 73; 84; 73]));
  (1222, (5, [80; 82; 69; 67; 69; 68; 73])); (1223, (5, [80; 82; 69; 80; 65; 82; 69]));
  (1224, (5, [80; 82; 73; 77; 65; 82; 89])); (1225, (5, [82; 69; 70; 69; 82; 69; 78]));
  (1226, (5, [82; 69; 83; 84; 82; 73; 67])); (1227, (5, [82; 79; 76; 76; 66; 65; 67]));
  (1228, (5, [83; 67; 72; 69; 77; 65; 83])); (1229, (5, [83; 69; 67; 79; 78; 68; 83]));
  (1230, (5, [83; 77; 65; 76; 76; 73; 78])); (1231, (5, [83; 80; 65; 84; 73; 65; 76]));
  (1232, (5, [84; 69; 77; 80; 79; 82; 65])); (1233, (5, [84; 73; 77; 69; 83; 84; 65]));
  (1234, (5, [84; 82; 65; 78; 83; 65; 67])); (1235, (5, [84; 82; 85; 78; 67; 65; 84]));
  (1236, (5, [85; 78; 66; 79; 85; 78; 68])); (1237, (5, [86; 65; 82; 67; 72; 65; 82]));
  (1238, (5, [86; 73; 82; 84; 85; 65; 76])); (1239, (1, [45; 57; 50; 50; 51; 51; 55; 50]));
  (1240, (1, [67; 72; 65; 82; 65; 67; 84; 69])); (1241, (1, [67; 85; 82; 82; 69; 78; 84; 32]));
  (1242, (1, [68; 65; 84; 69; 84; 73; 77; 69])); (1243, (1, [68; 69; 65; 76; 76; 79; 67; 65]));
  (1244, (1, [68; 69; 83; 67; 82; 73; 66; 69])); (1245, (1, [68; 73; 83; 84; 73; 78; 67; 84]));
  (1246, (1, [69; 78; 67; 79; 68; 73; 78; 71])); (1247, (1, [70; 79; 76; 76; 79; 87; 73; 78]));
  (1248, (1, [73; 78; 84; 69; 82; 83; 69; 67])); (1249, (1, [73; 78; 84; 69; 82; 86; 65; 76]));
  (1250, (1, [78; 86; 65; 82; 67; 72; 65; 82])); (1251, (1, [80; 65; 82; 65; 77; 69; 84; 69]));
  (1252, (1, [80; 65; 82; 84; 73; 84; 73; 79])); (1253, (1, [80; 82; 69; 67; 69; 68; 73; 78]));
  (1254, (1, [82; 69; 70; 69; 82; 69; 78; 67])); (1255, (1, [82; 69; 83; 84; 82; 73; 67; 84]));
  (1256, (1, [82; 79; 76; 76; 66; 65; 67; 75])); (1257, (1, [83; 77; 65; 76; 76; 73; 78; 84]));
  (1258, (1, [84; 69; 77; 80; 79; 82; 65; 82])); (1259, (1, [84; 73; 77; 69; 83; 84; 65; 77]));
  (1260, (1, [84; 82; 65; 78; 83; 65; 67; 84])); (1261, (1, [84; 82; 85; 78; 67; 65; 84; 69]));
  (1262, (1, [85; 78; 66; 79; 85; 78; 68; 69])); (1263, (5, [45; 57; 50; 50; 51; 51; 55; 50]));
  (1264, (5, [67; 72; 65; 82; 65; 67; 84; 69])); (1265, (5, [67; 85; 82; 82; 69; 78; 84; 32]));
  (1266, (5, [68; 65; 84; 69; 84; 73; 77; 69])); (1267, (5, [68; 69; 65; 76; 76; 79; 67; 65]));
  (1268, (5, [68; 69; 83; 67; 82; 73; 66; 69])); (1269, (5, [68; 73; 83; 84; 73; 78; 67; 84]));
  (1270, (5, [69; 78; 67; 79; 68; 73; 78; 71])); (1271, (5, [70; 79; 76; 76; 79; 87; 73; 78]));
  (1272, (5, [73; 78; 84; 69; 82; 83; 69; 67])); (1273, (5, [73; 78; 84; 69; 82; 86; 65; 76]));
  (1274, (5, [78; 86; 65; 82; 67; 72; 65; 82])); (1275, (5, [80; 65; 82; 65; 77; 69; 84; 69]));
  (1276, (5, [80; 65; 82; 84; 73; 84; 73; 79])); (1277, (5, [80; 82; 69; 67; 69; 68; 73; 78]));
  (1278, (5, [82; 69; 70; 69; 82; 69; 78; 67])); (1279, (5, [82; 69; 83; 84; 82; 73; 67; 84]));
  (1280, (5, [82; 79; 76; 76; 66; 65; 67; 75])); (1281, (5, [83; 77; 65; 76; 76; 73; 78; 84]));
  (1282, (5, [84; 69; 77; 80; 79; 82; 65; 82])); (1283, (5, [84; 73; 77; 69; 83; 84; 65; 77]));
  (1284, (5, [84; 82; 65; 78; 83; 65; 67; 84])); (1285, (5, [84; 82; 85; 78; 67; 65; 84; 69]));
  (1286, (5, [85; 78; 66; 79; 85; 78; 68; 69])); (1287, (1, [45; 57; 50; 50; 51; 51; 55; 50; 48]));
  (1288, (1, [67; 72; 65; 82; 65; 67; 84; 69; 82])); (1289, (1, [67; 85; 82; 82; 69; 78; 84; 32; 82]));
  (1290, (1, [68; 69; 65; 76; 76; 79; 67; 65; 84])); (1291, (1, [70; 79; 76; 76; 79; 87; 73; 78; 71]));
  (1292, (1, [73; 78; 84; 69; 82; 83; 69; 67; 84])); (1293, (1, [80; 65; 82; 65; 77; 69; 84; 69; 82]));
  (1294, (1, [80; 65; 82; 84; 73; 84; 73; 79; 78])); (1295, (1, [80; 82; 69; 67; 69; 68; 73; 78; 71]));
  (1296, (1, [82; 69; 70; 69; 82; 69; 78; 67; 69])); (1297, (1, [84; 69; 77; 80; 79; 82; 65; 82; 89]));
  (1298, (1, [84; 73; 77; 69; 83; 84; 65; 77; 80])); (1299, (1, [84; 82; 65; 78; 83; 65; 67; 84; 73]));
  (1300, (1, [85; 78; 66; 79; 85; 78; 68; 69; 68])); (1301, (5, [45; 57; 50; 50; 51; 51; 55; 50; 48]));
  (1302, (5, [67; 72; 65; 82; 65; 67; 84; 69; 82])); (1303, (5, [67; 85; 82; 82; 69; 78; 84; 32; 82]));
  (1304, (5, [68; 69; 65; 76; 76; 79; 67; 65; 84])); (1305, (5, [70; 79; 76; 76; 79; 87; 73; 78; 71]));
  (1306, (5, [73; 78; 84; 69; 82; 83; 69; 67; 84])); (1307, (5, [80; 65; 82; 65; 77; 69; 84; 69; 82]));
  (1308, (5, [80; 65; 82; 84; 73; 84; 73; 79; 78])); (1309, (5, [80; 82; 69; 67; 69; 68; 73; 78; 71]));
  (1310, (5, [82; 69; 70; 69; 82; 69; 78; 67; 69])); (1311, (5, [84; 69; 77; 80; 79; 82; 65; 82; 89]));
  (1312, (5, [84; 73; 77; 69; 83; 84; 65; 77; 80])); (1313, (5, [84; 82; 65; 78; 83; 65; 67; 84; 73]));
  (1314, (5, [85; 78; 66; 79; 85; 78; 68; 69; 68])); (1315, (1, [45; 57; 50; 50; 51; 51; 55; 50; 48; 51]));
  (1316, (1, [67; 72; 65; 82; 65; 67; 84; 69; 82; 32])); (1317, (1, [67; 85; 82; 82; 69; 78; 84; 32; 82; 79]));
  (1318, (1, [68; 69; 65; 76; 76; 79; 67; 65; 84; 69])); (1319, (1, [80; 65; 82; 65; 77; 69; 84; 69; 82; 83]));
  (1320, (1, [82; 69; 70; 69; 82; 69; 78; 67; 69; 83])); (1321, (1, [84; 82; 65; 78; 83; 65; 67; 84; 73; 79]));
  (1322, (5, [45; 57; 50; 50; 51; 51; 55; 50; 48; 51])); (1323, (5, [67; 72; 65; 82; 65; 67; 84; 69; 82; 32]));
  (1324, (5, [67; 85; 82; 82; 69; 78; 84; 32; 82; 79])); (1325, (5, [68; 69; 65; 76; 76; 79; 67; 65; 84; 69]));
  (1326, (5, [80; 65; 82; 65; 77; 69; 84; 69; 82; 83])); (1327, (5, [82; 69; 70; 69; 82; 69; 78; 67; 69; 83]));
  (1328, (5, [84; 82; 65; 78; 83; 65; 67; 84; 73; 79])); (1329, (1, [45; 57; 50; 50; 51; 51; 55; 50; 48; 51; 54]));
  (1330, (1, [67; 72; 65; 82; 65; 67; 84; 69; 82; 32; 86]));
  (1331, (1, [67; 85; 82; 82; 69; 78; 84; 32; 82; 79; 87]));
  (1332, (1, [84; 82; 65; 78; 83; 65; 67; 84; 73; 79; 78]));
  (1333, (5, [45; 57; 50; 50; 51; 51; 55; 50; 48; 51; 54]));
  (1334, (5, [67; 72; 65; 82; 65; 67; 84; 69; 82; 32; 86]));
  (1335, (5, [67; 85; 82; 82; 69; 78; 84; 32; 82; 79; 87]));
  (1336, (5, [84; 82; 65; 78; 83; 65; 67; 84; 73; 79; 78]));
  (1337, (1, [45; 57; 50; 50; 51; 51; 55; 50; 48; 51; 54; 56]));
  (1338, (1, [67; 72; 65; 82; 65; 67; 84; 69; 82; 32; 86; 65]));
  (1339, (5, [45; 57; 50; 50; 51; 51; 55; 50; 48; 51; 54; 56]));
  (1340, (5, [67; 72; 65; 82; 65; 67; 84; 69; 82; 32; 86; 65]));
  (1341, (1, [45; 57; 50; 50; 51; 51; 55; 50; 48; 51; 54; 56; 53]));
  (1342, (1, [67; 72; 65; 82; 65; 67; 84; 69; 82; 32; 86; 65; 82]));
  (1343, (5, [45; 57; 50; 50; 51; 51; 55; 50; 48; 51; 54; 56; 53]));
  (1344, (5, [67; 72; 65; 82; 65; 67; 84; 69; 82; 32; 86; 65; 82]));
  (1345, (1, [45; 57; 50; 50; 51; 51; 55; 50; 48; 51; 54; 56; 53; 52]));
  (1346, (1, [67; 72; 65; 82; 65; 67; 84; 69; 82; 32; 86; 65; 82; 89]));
  (1347, (5, [45; 57; 50; 50; 51; 51; 55; 50; 48; 51; 54; 56; 53; 52]));
  (1348, (5, [67; 72; 65; 82; 65; 67; 84; 69; 82; 32; 86; 65; 82; 89]));
  (1349, (1, [45; 57; 50; 50; 51; 51; 55; 50; 48; 51; 54; 56; 53; 52; 55]));
  (1350, (1, [67; 72; 65; 82; 65; 67; 84; 69; 82; 32; 86; 65; 82; 89; 73]));
  (1351, (5, [45; 57; 50; 50; 51; 51; 55; 50; 48; 51; 54; 56; 53; 52; 55]));
  (1352, (5, [67; 72; 65; 82; 65; 67; 84; 69; 82; 32; 86; 65; 82; 89; 73]));
  (1353, (1, [45; 57; 50; 50; 51; 51; 55; 50; 48; 51; 54; 56; 53; 52; 55; 55]));
  (1354, (1, [67; 72; 65; 82; 65; 67; 84; 69; 82; 32; 86; 65; 82; 89; 73; 78]));
  (1355, (5, [45; 57; 50; 50; 51; 51; 55; 50; 48; 51; 54; 56; 53; 52; 55; 55]));
  (1356, (5, [67; 72; 65; 82; 65; 67; 84; 69; 82; 32; 86; 65; 82; 89; 73; 78]));
  (1357, (1, [45; 57; 50; 50; 51; 51; 55; 50; 48; 51; 54; 56; 53; 52; 55; 55; 53]));
  (1358, (1, [67; 72; 65; 82; 65; 67; 84; 69; 82; 32; 86; 65; 82; 89; 73; 78; 71]));
  (1359, (5, [45; 57; 50; 50; 51; 51; 55; 50; 48; 51; 54; 56; 53; 52; 55; 55; 53]));
  (1360, (5, [67; 72; 65; 82; 65; 67; 84; 69; 82; 32; 86; 65; 82; 89; 73; 78; 71]));
  (1361, (1, [45; 57; 50; 50; 51; 51; 55; 50; 48; 51; 54; 56; 53; 52; 55; 55; 53; 56]));
  (1362, (5, [45; 57; 50; 50; 51; 51; 55; 50; 48; 51; 54; 56; 53; 52; 55; 55; 53; 56]));
  (1363, (1, [45; 57; 50; 50; 51; 51; 55; 50; 48; 51; 54; 56; 53; 52; 55; 55; 53; 56; 48]));
  (1364, (5, [45; 57; 50; 50; 51; 51; 55; 50; 48; 51; 54; 56; 53; 52; 55; 55; 53; 56; 48]));
  (1365, (1, [45; 57; 50; 50; 51; 51; 55; 50; 48; 51; 54; 56; 53; 52; 55; 55; 53; 56; 48; 56]));
  (1366, (5, [45; 57; 50; 50; 51; 51; 55; 50; 48; 51; 54; 56; 53; 52; 55; 55; 53; 56; 48; 56]))].
