(* Generated by tools/gen_tokens.py from /repo/cmavotab.c:15-1765. Do not edit. *)
From Coq Require Import List NArith String.
From Verif Require Import TokData.
Import ListNotations.
Open Scope string_scope.

(* cmavotab.c:15-1765: the used cells of cmavo_table: (index, cmavo, selma'o).
   Cells with an empty word and selma'o UNKNOWN (0) are omitted; the table has
   1751 cells. *)
Definition cmavo_cells : list (N * string * tok) :=
  [ (14%N, "a", T_A);
    (17%N, "ai", T_UI);
    (19%N, "au", T_UI);
    (22%N, "a'a", T_UI);
    (23%N, "a'e", T_UI);
    (24%N, "a'i", T_UI);
    (25%N, "a'o", T_UI);
    (26%N, "a'u", T_UI);
    (28%N, "e", T_A);
    (31%N, "ei", T_UI);
    (36%N, "e'a", T_UI);
    (37%N, "e'e", T_UI);
    (38%N, "e'i", T_UI);
    (39%N, "e'o", T_UI);
    (40%N, "e'u", T_UI);
    (42%N, "i", T_I);
    (43%N, "ia", T_UI);
    (44%N, "ie", T_UI);
    (45%N, "ii", T_UI);
    (46%N, "io", T_UI);
    (47%N, "iu", T_UI);
    (50%N, "i'a", T_UI);
    (51%N, "i'e", T_UI);
    (52%N, "i'i", T_UI);
    (53%N, "i'o", T_UI);
    (54%N, "i'u", T_UI);
    (56%N, "o", T_A);
    (59%N, "oi", T_UI);
    (64%N, "o'a", T_UI);
    (65%N, "o'e", T_UI);
    (66%N, "o'i", T_UI);
    (67%N, "o'o", T_UI);
    (68%N, "o'u", T_UI);
    (70%N, "u", T_A);
    (71%N, "ua", T_UI);
    (72%N, "ue", T_UI);
    (73%N, "ui", T_UI);
    (74%N, "uo", T_UI);
    (75%N, "uu", T_UI);
    (78%N, "u'a", T_UI);
    (79%N, "u'e", T_UI);
    (80%N, "u'i", T_UI);
    (81%N, "u'o", T_UI);
    (82%N, "u'u", T_UI);
    (84%N, "y", T_Y);
    (97%N, "y'y", T_BY);
    (112%N, "ba", T_PU);
    (115%N, "bai", T_BAI);
    (117%N, "bau", T_BAI);
    (120%N, "ba'a", T_UI);
    (121%N, "ba'e", T_BAhE);
    (122%N, "ba'i", T_BAI);
    (123%N, "ba'o", T_ZAhO);
    (124%N, "ba'u", T_UI);
    (126%N, "be", T_BE);
    (129%N, "bei", T_BEI);
    (134%N, "be'a", T_FAhA);
    (135%N, "be'e", T_COI);
    (136%N, "be'i", T_BAI);
    (137%N, "be'o", T_BEhO);
    (138%N, "be'u", T_UI);
    (140%N, "bi", T_PA);
    (149%N, "bi'e", T_BIhE);
    (150%N, "bi'i", T_BIhI);
    (151%N, "bi'o", T_BIhI);
    (152%N, "bi'u", T_UI);
    (154%N, "bo", T_BO);
    (157%N, "boi", T_BOI);
    (168%N, "bu", T_BU);
    (176%N, "bu'a", T_GOhA);
    (177%N, "bu'e", T_GOhA);
    (178%N, "bu'i", T_GOhA);
    (179%N, "bu'o", T_UI);
    (180%N, "bu'u", T_FAhA);
    (182%N, "by", T_BY);
    (210%N, "ca", T_PU);
    (213%N, "cai", T_CAI);
    (215%N, "cau", T_BAI);
    (218%N, "ca'a", T_CAhA);
    (219%N, "ca'e", T_UI);
    (220%N, "ca'i", T_BAI);
    (221%N, "ca'o", T_ZAhO);
    (222%N, "ca'u", T_FAhA);
    (224%N, "ce", T_JOI);
    (227%N, "cei", T_CEI);
    (232%N, "ce'a", T_LAU);
    (233%N, "ce'e", T_CEhE);
    (234%N, "ce'i", T_PA);
    (235%N, "ce'o", T_JOI);
    (236%N, "ce'u", T_KOhA);
    (238%N, "ci", T_PA);
    (247%N, "ci'e", T_BAI);
    (248%N, "ci'i", T_PA);
    (249%N, "ci'o", T_BAI);
    (250%N, "ci'u", T_BAI);
    (252%N, "co", T_CO);
    (255%N, "coi", T_COI);
    (260%N, "co'a", T_ZAhO);
    (261%N, "co'e", T_GOhA);
    (262%N, "co'i", T_ZAhO);
    (263%N, "co'o", T_COI);
    (264%N, "co'u", T_ZAhO);
    (266%N, "cu", T_CU);
    (274%N, "cu'a", T_VUhU);
    (275%N, "cu'e", T_CUhE);
    (276%N, "cu'i", T_CAI);
    (277%N, "cu'o", T_MOI);
    (278%N, "cu'u", T_BAI);
    (280%N, "cy", T_BY);
    (308%N, "da", T_KOhA);
    (311%N, "dai", T_UI);
    (313%N, "dau", T_PA);
    (316%N, "da'a", T_PA);
    (317%N, "da'e", T_KOhA);
    (318%N, "da'i", T_UI);
    (319%N, "da'o", T_DAhO);
    (320%N, "da'u", T_KOhA);
    (322%N, "de", T_KOhA);
    (325%N, "dei", T_KOhA);
    (330%N, "de'a", T_ZAhO);
    (331%N, "de'e", T_KOhA);
    (332%N, "de'i", T_BAI);
    (333%N, "de'o", T_VUhU);
    (334%N, "de'u", T_KOhA);
    (336%N, "di", T_KOhA);
    (344%N, "di'a", T_ZAhO);
    (345%N, "di'e", T_KOhA);
    (346%N, "di'i", T_TAhE);
    (347%N, "di'o", T_BAI);
    (348%N, "di'u", T_KOhA);
    (350%N, "do", T_KOhA);
    (353%N, "doi", T_DOI);
    (358%N, "do'a", T_UI);
    (359%N, "do'e", T_BAI);
    (360%N, "do'i", T_KOhA);
    (361%N, "do'o", T_KOhA);
    (362%N, "do'u", T_DOhU);
    (364%N, "du", T_GOhA);
    (372%N, "du'a", T_FAhA);
    (373%N, "du'e", T_PA);
    (374%N, "du'i", T_BAI);
    (375%N, "du'o", T_BAI);
    (376%N, "du'u", T_NU);
    (378%N, "dy", T_BY);
    (406%N, "fa", T_FA);
    (409%N, "fai", T_FA);
    (411%N, "fau", T_BAI);
    (414%N, "fa'a", T_FAhA);
    (415%N, "fa'e", T_BAI);
    (416%N, "fa'i", T_VUhU);
    (417%N, "fa'o", T_FAhO);
    (418%N, "fa'u", T_JOI);
    (420%N, "fe", T_FA);
    (423%N, "fei", T_PA);
    (428%N, "fe'a", T_VUhU);
    (429%N, "fe'e", T_FEhE);
    (430%N, "fe'i", T_VUhU);
    (431%N, "fe'o", T_COI);
    (432%N, "fe'u", T_FEhU);
    (434%N, "fi", T_FA);
    (442%N, "fi'a", T_FA);
    (443%N, "fi'e", T_BAI);
    (444%N, "fi'i", T_COI);
    (445%N, "fi'o", T_FIhO);
    (446%N, "fi'u", T_PA);
    (448%N, "fo", T_FA);
    (451%N, "foi", T_FOI);
    (456%N, "fo'a", T_KOhA);
    (457%N, "fo'e", T_KOhA);
    (458%N, "fo'i", T_KOhA);
    (459%N, "fo'o", T_KOhA);
    (460%N, "fo'u", T_KOhA);
    (462%N, "fu", T_FA);
    (470%N, "fu'a", T_FUhA);
    (471%N, "fu'e", T_FUhE);
    (472%N, "fu'i", T_UI);
    (473%N, "fu'o", T_FUhO);
    (474%N, "fu'u", T_VUhU);
    (476%N, "fy", T_BY);
    (504%N, "ga", T_GA);
    (507%N, "gai", T_PA);
    (509%N, "gau", T_BAI);
    (512%N, "ga'a", T_BAI);
    (513%N, "ga'e", T_BY);
    (514%N, "ga'i", T_UI);
    (515%N, "ga'o", T_GAhO);
    (516%N, "ga'u", T_FAhA);
    (518%N, "ge", T_GA);
    (521%N, "gei", T_VUhU);
    (526%N, "ge'a", T_VUhU);
    (527%N, "ge'e", T_UI);
    (528%N, "ge'i", T_GA);
    (529%N, "ge'o", T_BY);
    (530%N, "ge'u", T_GEhU);
    (532%N, "gi", T_GI);
    (540%N, "gi'a", T_GIhA);
    (541%N, "gi'e", T_GIhA);
    (542%N, "gi'i", T_GIhA);
    (543%N, "gi'o", T_GIhA);
    (544%N, "gi'u", T_GIhA);
    (546%N, "go", T_GA);
    (549%N, "goi", T_GOI);
    (554%N, "go'a", T_GOhA);
    (555%N, "go'e", T_GOhA);
    (556%N, "go'i", T_GOhA);
    (557%N, "go'o", T_GOhA);
    (558%N, "go'u", T_GOhA);
    (560%N, "gu", T_GA);
    (568%N, "gu'a", T_GUhA);
    (569%N, "gu'e", T_GUhA);
    (570%N, "gu'i", T_GUhA);
    (571%N, "gu'o", T_GUhA);
    (572%N, "gu'u", T_GUhA);
    (574%N, "gy", T_BY);
    (602%N, "ja", T_JA);
    (605%N, "jai", T_JAI);
    (607%N, "jau", T_PA);
    (610%N, "ja'a", T_NA);
    (611%N, "ja'e", T_BAI);
    (612%N, "ja'i", T_BAI);
    (613%N, "ja'o", T_UI);
    (616%N, "je", T_JA);
    (619%N, "jei", T_NU);
    (624%N, "je'a", T_NAhE);
    (625%N, "je'e", T_COI);
    (626%N, "je'i", T_JA);
    (627%N, "je'o", T_BY);
    (628%N, "je'u", T_UI);
    (630%N, "ji", T_A);
    (638%N, "ji'a", T_UI);
    (639%N, "ji'e", T_BAI);
    (640%N, "ji'i", T_PA);
    (641%N, "ji'o", T_BAI);
    (642%N, "ji'u", T_BAI);
    (644%N, "jo", T_JA);
    (647%N, "joi", T_JOI);
    (652%N, "jo'a", T_UI);
    (653%N, "jo'e", T_JOI);
    (654%N, "jo'i", T_JOhI);
    (655%N, "jo'o", T_BY);
    (656%N, "jo'u", T_JOI);
    (658%N, "ju", T_JA);
    (666%N, "ju'a", T_UI);
    (667%N, "ju'e", T_JOI);
    (668%N, "ju'i", T_COI);
    (669%N, "ju'o", T_UI);
    (670%N, "ju'u", T_VUhU);
    (672%N, "jy", T_BY);
    (700%N, "ka", T_NU);
    (703%N, "kai", T_BAI);
    (705%N, "kau", T_UI);
    (708%N, "ka'a", T_BAI);
    (709%N, "ka'e", T_CAhA);
    (710%N, "ka'i", T_BAI);
    (711%N, "ka'o", T_PA);
    (712%N, "ka'u", T_UI);
    (714%N, "ke", T_KE);
    (717%N, "kei", T_KEI);
    (722%N, "ke'a", T_KOhA);
    (723%N, "ke'e", T_KEhE);
    (724%N, "ke'i", T_GAhO);
    (725%N, "ke'o", T_COI);
    (726%N, "ke'u", T_UI);
    (728%N, "ki", T_KI);
    (736%N, "ki'a", T_UI);
    (737%N, "ki'e", T_COI);
    (738%N, "ki'i", T_BAI);
    (739%N, "ki'o", T_PA);
    (740%N, "ki'u", T_BAI);
    (742%N, "ko", T_KOhA);
    (745%N, "koi", T_BAI);
    (750%N, "ko'a", T_KOhA);
    (751%N, "ko'e", T_KOhA);
    (752%N, "ko'i", T_KOhA);
    (753%N, "ko'o", T_KOhA);
    (754%N, "ko'u", T_KOhA);
    (756%N, "ku", T_KU);
    (764%N, "ku'a", T_JOI);
    (765%N, "ku'e", T_KUhE);
    (766%N, "ku'i", T_UI);
    (767%N, "ku'o", T_KUhO);
    (768%N, "ku'u", T_BAI);
    (770%N, "ky", T_BY);
    (798%N, "la", T_LA);
    (801%N, "lai", T_LA);
    (803%N, "lau", T_LAU);
    (806%N, "la'a", T_UI);
    (807%N, "la'e", T_LAhE);
    (808%N, "la'i", T_LA);
    (809%N, "la'o", T_ZOI);
    (810%N, "la'u", T_BAI);
    (812%N, "le", T_LE);
    (815%N, "lei", T_LE);
    (820%N, "le'a", T_BAI);
    (821%N, "le'e", T_LE);
    (822%N, "le'i", T_LE);
    (823%N, "le'o", T_UI);
    (824%N, "le'u", T_LEhU);
    (826%N, "li", T_LI);
    (834%N, "li'a", T_UI);
    (835%N, "li'e", T_BAI);
    (836%N, "li'i", T_NU);
    (837%N, "li'o", T_UI);
    (838%N, "li'u", T_LIhU);
    (840%N, "lo", T_LE);
    (843%N, "loi", T_LE);
    (848%N, "lo'a", T_BY);
    (849%N, "lo'e", T_LE);
    (850%N, "lo'i", T_LE);
    (851%N, "lo'o", T_LOhO);
    (852%N, "lo'u", T_LOhU);
    (854%N, "lu", T_LU);
    (862%N, "lu'a", T_LAhE);
    (863%N, "lu'e", T_LAhE);
    (864%N, "lu'i", T_LAhE);
    (865%N, "lu'o", T_LAhE);
    (866%N, "lu'u", T_LUhU);
    (868%N, "ly", T_BY);
    (896%N, "ma", T_KOhA);
    (899%N, "mai", T_MAI);
    (901%N, "mau", T_BAI);
    (904%N, "ma'a", T_KOhA);
    (905%N, "ma'e", T_BAI);
    (906%N, "ma'i", T_BAI);
    (907%N, "ma'o", T_MAhO);
    (908%N, "ma'u", T_PA);
    (910%N, "me", T_ME);
    (913%N, "mei", T_MOI);
    (918%N, "me'a", T_BAI);
    (919%N, "me'e", T_BAI);
    (920%N, "me'i", T_PA);
    (921%N, "me'o", T_LI);
    (922%N, "me'u", T_MEhU);
    (924%N, "mi", T_KOhA);
    (932%N, "mi'a", T_KOhA);
    (933%N, "mi'e", T_COI);
    (934%N, "mi'i", T_BIhI);
    (935%N, "mi'o", T_KOhA);
    (936%N, "mi'u", T_UI);
    (938%N, "mo", T_GOhA);
    (941%N, "moi", T_MOI);
    (946%N, "mo'a", T_PA);
    (947%N, "mo'e", T_MOhE);
    (948%N, "mo'i", T_MOhI);
    (949%N, "mo'o", T_MAI);
    (950%N, "mo'u", T_ZAhO);
    (952%N, "mu", T_PA);
    (960%N, "mu'a", T_UI);
    (961%N, "mu'e", T_NU);
    (962%N, "mu'i", T_BAI);
    (963%N, "mu'o", T_COI);
    (964%N, "mu'u", T_BAI);
    (966%N, "my", T_BY);
    (994%N, "na", T_NA);
    (997%N, "nai", T_NAI);
    (999%N, "nau", T_CUhE);
    (1002%N, "na'a", T_BY);
    (1003%N, "na'e", T_NAhE);
    (1004%N, "na'i", T_UI);
    (1005%N, "na'o", T_TAhE);
    (1006%N, "na'u", T_NAhU);
    (1008%N, "ne", T_GOI);
    (1011%N, "nei", T_GOhA);
    (1016%N, "ne'a", T_FAhA);
    (1018%N, "ne'i", T_FAhA);
    (1019%N, "ne'o", T_VUhU);
    (1020%N, "ne'u", T_FAhA);
    (1022%N, "ni", T_NU);
    (1030%N, "ni'a", T_FAhA);
    (1031%N, "ni'e", T_NIhE);
    (1032%N, "ni'i", T_BAI);
    (1033%N, "ni'o", T_NIhO);
    (1034%N, "ni'u", T_PA);
    (1036%N, "no", T_PA);
    (1039%N, "noi", T_NOI);
    (1044%N, "no'a", T_GOhA);
    (1045%N, "no'e", T_NAhE);
    (1046%N, "no'i", T_NIhO);
    (1047%N, "no'o", T_PA);
    (1048%N, "no'u", T_GOI);
    (1050%N, "nu", T_NU);
    (1058%N, "nu'a", T_NUhA);
    (1059%N, "nu'e", T_COI);
    (1060%N, "nu'i", T_NUhI);
    (1061%N, "nu'o", T_CAhA);
    (1062%N, "nu'u", T_NUhU);
    (1064%N, "ny", T_BY);
    (1092%N, "pa", T_PA);
    (1095%N, "pai", T_PA);
    (1097%N, "pau", T_UI);
    (1100%N, "pa'a", T_BAI);
    (1101%N, "pa'e", T_UI);
    (1102%N, "pa'i", T_VUhU);
    (1103%N, "pa'o", T_FAhA);
    (1104%N, "pa'u", T_BAI);
    (1106%N, "pe", T_GOI);
    (1109%N, "pei", T_CAI);
    (1114%N, "pe'a", T_UI);
    (1115%N, "pe'e", T_PEhE);
    (1116%N, "pe'i", T_UI);
    (1117%N, "pe'o", T_PEhO);
    (1118%N, "pe'u", T_COI);
    (1120%N, "pi", T_PA);
    (1128%N, "pi'a", T_VUhU);
    (1129%N, "pi'e", T_PA);
    (1130%N, "pi'i", T_VUhU);
    (1131%N, "pi'o", T_BAI);
    (1132%N, "pi'u", T_JOI);
    (1134%N, "po", T_GOI);
    (1137%N, "poi", T_NOI);
    (1142%N, "po'a", T_UI);
    (1143%N, "po'e", T_GOI);
    (1144%N, "po'i", T_BAI);
    (1145%N, "po'o", T_UI);
    (1146%N, "po'u", T_GOI);
    (1148%N, "pu", T_PU);
    (1156%N, "pu'a", T_BAI);
    (1157%N, "pu'e", T_BAI);
    (1158%N, "pu'i", T_CAhA);
    (1159%N, "pu'o", T_ZAhO);
    (1160%N, "pu'u", T_NU);
    (1162%N, "py", T_BY);
    (1190%N, "ra", T_KOhA);
    (1193%N, "rai", T_BAI);
    (1195%N, "rau", T_PA);
    (1198%N, "ra'a", T_BAI);
    (1199%N, "ra'e", T_PA);
    (1200%N, "ra'i", T_BAI);
    (1201%N, "ra'o", T_RAhO);
    (1202%N, "ra'u", T_UI);
    (1204%N, "re", T_PA);
    (1207%N, "rei", T_PA);
    (1212%N, "re'a", T_VUhU);
    (1213%N, "re'e", T_UI);
    (1214%N, "re'i", T_COI);
    (1215%N, "re'o", T_FAhA);
    (1216%N, "re'u", T_ROI);
    (1218%N, "ri", T_KOhA);
    (1226%N, "ri'a", T_BAI);
    (1227%N, "ri'e", T_UI);
    (1228%N, "ri'i", T_BAI);
    (1229%N, "ri'o", T_VUhU);
    (1230%N, "ri'u", T_FAhA);
    (1232%N, "ro", T_PA);
    (1235%N, "roi", T_ROI);
    (1240%N, "ro'a", T_UI);
    (1241%N, "ro'e", T_UI);
    (1242%N, "ro'i", T_UI);
    (1243%N, "ro'o", T_UI);
    (1244%N, "ro'u", T_UI);
    (1246%N, "ru", T_KOhA);
    (1254%N, "ru'a", T_UI);
    (1255%N, "ru'e", T_CAI);
    (1256%N, "ru'i", T_TAhE);
    (1257%N, "ru'o", T_BY);
    (1258%N, "ru'u", T_FAhA);
    (1260%N, "ry", T_BY);
    (1288%N, "sa", T_SA);
    (1291%N, "sai", T_CAI);
    (1293%N, "sau", T_BAI);
    (1296%N, "sa'a", T_UI);
    (1297%N, "sa'e", T_UI);
    (1298%N, "sa'i", T_VUhU);
    (1299%N, "sa'o", T_VUhU);
    (1300%N, "sa'u", T_UI);
    (1302%N, "se", T_SE);
    (1305%N, "sei", T_SEI);
    (1310%N, "se'a", T_UI);
    (1311%N, "se'e", T_BY);
    (1312%N, "se'i", T_UI);
    (1313%N, "se'o", T_UI);
    (1314%N, "se'u", T_SEhU);
    (1316%N, "si", T_SI);
    (1324%N, "si'a", T_UI);
    (1325%N, "si'e", T_MOI);
    (1326%N, "si'i", T_VUhU);
    (1327%N, "si'o", T_NU);
    (1328%N, "si'u", T_BAI);
    (1330%N, "so", T_PA);
    (1333%N, "soi", T_SOI);
    (1338%N, "so'a", T_PA);
    (1339%N, "so'e", T_PA);
    (1340%N, "so'i", T_PA);
    (1341%N, "so'o", T_PA);
    (1342%N, "so'u", T_PA);
    (1344%N, "su", T_SU);
    (1352%N, "su'a", T_UI);
    (1353%N, "su'e", T_PA);
    (1354%N, "su'i", T_VUhU);
    (1355%N, "su'o", T_PA);
    (1356%N, "su'u", T_NU);
    (1358%N, "sy", T_BY);
    (1386%N, "ta", T_KOhA);
    (1389%N, "tai", T_BAI);
    (1391%N, "tau", T_LAU);
    (1394%N, "ta'a", T_COI);
    (1395%N, "ta'e", T_TAhE);
    (1396%N, "ta'i", T_BAI);
    (1397%N, "ta'o", T_UI);
    (1398%N, "ta'u", T_UI);
    (1400%N, "te", T_SE);
    (1403%N, "tei", T_TEI);
    (1408%N, "te'a", T_VUhU);
    (1409%N, "te'e", T_FAhA);
    (1411%N, "te'o", T_PA);
    (1412%N, "te'u", T_TEhU);
    (1414%N, "ti", T_KOhA);
    (1422%N, "ti'a", T_FAhA);
    (1423%N, "ti'e", T_UI);
    (1424%N, "ti'i", T_BAI);
    (1425%N, "ti'o", T_SEI);
    (1426%N, "ti'u", T_BAI);
    (1428%N, "to", T_TO);
    (1431%N, "toi", T_TOI);
    (1436%N, "to'a", T_BY);
    (1437%N, "to'e", T_NAhE);
    (1438%N, "to'i", T_TO);
    (1439%N, "to'o", T_FAhA);
    (1440%N, "to'u", T_UI);
    (1442%N, "tu", T_KOhA);
    (1450%N, "tu'a", T_LAhE);
    (1451%N, "tu'e", T_TUhE);
    (1452%N, "tu'i", T_BAI);
    (1453%N, "tu'o", T_PA);
    (1454%N, "tu'u", T_TUhU);
    (1456%N, "ty", T_BY);
    (1484%N, "va", T_VA);
    (1487%N, "vai", T_PA);
    (1489%N, "vau", T_VAU);
    (1492%N, "va'a", T_VUhU);
    (1493%N, "va'e", T_MOI);
    (1494%N, "va'i", T_UI);
    (1495%N, "va'o", T_BAI);
    (1496%N, "va'u", T_BAI);
    (1498%N, "ve", T_SE);
    (1501%N, "vei", T_VEI);
    (1506%N, "ve'a", T_VEhA);
    (1507%N, "ve'e", T_VEhA);
    (1508%N, "ve'i", T_VEhA);
    (1509%N, "ve'o", T_VEhO);
    (1510%N, "ve'u", T_VEhA);
    (1512%N, "vi", T_VA);
    (1520%N, "vi'a", T_VIhA);
    (1521%N, "vi'e", T_VIhA);
    (1522%N, "vi'i", T_VIhA);
    (1523%N, "vi'o", T_COI);
    (1524%N, "vi'u", T_VIhA);
    (1526%N, "vo", T_PA);
    (1529%N, "voi", T_NOI);
    (1534%N, "vo'a", T_KOhA);
    (1535%N, "vo'e", T_KOhA);
    (1536%N, "vo'i", T_KOhA);
    (1537%N, "vo'o", T_KOhA);
    (1538%N, "vo'u", T_KOhA);
    (1540%N, "vu", T_VA);
    (1548%N, "vu'a", T_FAhA);
    (1549%N, "vu'e", T_UI);
    (1550%N, "vu'i", T_LAhE);
    (1551%N, "vu'o", T_VUhO);
    (1552%N, "vu'u", T_VUhU);
    (1554%N, "vy", T_BY);
    (1582%N, "xa", T_PA);
    (1593%N, "xa'o", T_ZAhO);
    (1596%N, "xe", T_SE);
    (1610%N, "xi", T_XI);
    (1624%N, "xo", T_PA);
    (1638%N, "xu", T_UI);
    (1652%N, "xy", T_BY);
    (1680%N, "za", T_ZI);
    (1683%N, "zai", T_LAU);
    (1685%N, "zau", T_BAI);
    (1688%N, "za'a", T_UI);
    (1689%N, "za'e", T_BAhE);
    (1690%N, "za'i", T_NU);
    (1691%N, "za'o", T_ZAhO);
    (1692%N, "za'u", T_PA);
    (1694%N, "ze", T_PA);
    (1697%N, "zei", T_ZEI);
    (1702%N, "ze'a", T_ZEhA);
    (1703%N, "ze'e", T_ZEhA);
    (1704%N, "ze'i", T_ZEhA);
    (1705%N, "ze'o", T_FAhA);
    (1706%N, "ze'u", T_ZEhA);
    (1708%N, "zi", T_ZI);
    (1717%N, "zi'e", T_ZIhE);
    (1719%N, "zi'o", T_KOhA);
    (1722%N, "zo", T_ZO);
    (1725%N, "zoi", T_ZOI);
    (1730%N, "zo'a", T_FAhA);
    (1731%N, "zo'e", T_KOhA);
    (1732%N, "zo'i", T_FAhA);
    (1733%N, "zo'o", T_UI);
    (1734%N, "zo'u", T_ZOhU);
    (1736%N, "zu", T_ZI);
    (1744%N, "zu'a", T_FAhA);
    (1745%N, "zu'e", T_BAI);
    (1746%N, "zu'i", T_KOhA);
    (1747%N, "zu'o", T_NU);
    (1748%N, "zu'u", T_UI);
    (1750%N, "zy", T_BY) ].

(* cmavotab.c: number of cells of cmavo_table *)
Definition cmavo_table_size : N := 1751%N.
