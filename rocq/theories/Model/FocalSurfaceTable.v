(** /repo/py/desimeter/data/focal_surface_lookup.csv, lines 8-508: columns R (mm), and Z (mm), S (mm)
    and N (degrees) in units of 1e-9. Copied by a script, all 501 rows. *)
From Coq Require Import List ZArith.
Import ListNotations.
Local Open Scope Z_scope.

Definition focal_surface_lookup : list (Z * Z * Z * Z) := [
  (0, 0, 0, 1722000);
  (1, -100000, 1000000000, 10606000);
  (2, -402000, 2000000000, 19486000);
  (3, -904000, 3000000000, 28362000);
  (4, -1607000, 4000000000, 37235000);
  (5, -2511000, 5000001000, 46104000);
  (6, -3616000, 6000001000, 54970000);
  (7, -4922000, 7000002000, 63833000);
  (8, -6430000, 8000003000, 72694000);
  (9, -8138000, 9000005000, 81551000);
  (10, -10047000, 10000007000, 90407000);
  (11, -12158000, 11000009000, 99260000);
  (12, -14470000, 12000012000, 108111000);
  (13, -16983000, 13000015000, 116960000);
  (14, -19698000, 14000018000, 125807000);
  (15, -22614000, 15000023000, 134653000);
  (16, -25733000, 16000028000, 143497000);
  (17, -29053000, 17000033000, 152340000);
  (18, -32574000, 18000039000, 161182000);
  (19, -36298000, 19000046000, 170024000);
  (20, -40224000, 20000054000, 178864000);
  (21, -44353000, 21000062000, 187704000);
  (22, -48683000, 22000072000, 196543000);
  (23, -53217000, 23000082000, 205383000);
  (24, -57953000, 24000093000, 214222000);
  (25, -62892000, 25000106000, 223061000);
  (26, -68034000, 26000119000, 231900000);
  (27, -73379000, 27000133000, 240740000);
  (28, -78928000, 28000148000, 249580000);
  (29, -84680000, 29000165000, 258421000);
  (30, -90636000, 30000183000, 267262000);
  (31, -96797000, 31000202000, 276104000);
  (32, -103161000, 32000222000, 284948000);
  (33, -109730000, 33000244000, 293792000);
  (34, -116503000, 34000266000, 302638000);
  (35, -123482000, 35000291000, 311484000);
  (36, -130665000, 36000317000, 320333000);
  (37, -138054000, 37000344000, 329182000);
  (38, -145648000, 38000373000, 338034000);
  (39, -153449000, 39000403000, 346887000);
  (40, -161455000, 40000435000, 355742000);
  (41, -169668000, 41000469000, 364598000);
  (42, -178087000, 42000504000, 373458000);
  (43, -186713000, 43000542000, 382319000);
  (44, -195546000, 44000581000, 391184000);
  (45, -204587000, 45000621000, 400052000);
  (46, -213835000, 46000664000, 408924000);
  (47, -223291000, 47000709000, 417799000);
  (48, -232956000, 48000756000, 426678000);
  (49, -242829000, 49000804000, 435562000);
  (50, -252911000, 50000855000, 444450000);
  (51, -263203000, 51000908000, 453343000);
  (52, -273703000, 52000963000, 462241000);
  (53, -284414000, 53001021000, 471145000);
  (54, -295334000, 54001080000, 480054000);
  (55, -306465000, 55001142000, 488969000);
  (56, -317807000, 56001207000, 497890000);
  (57, -329360000, 57001273000, 506817000);
  (58, -341125000, 58001343000, 515750000);
  (59, -353101000, 59001414000, 524690000);
  (60, -365289000, 60001489000, 533638000);
  (61, -377690000, 61001565000, 542592000);
  (62, -390303000, 62001645000, 551553000);
  (63, -403130000, 63001727000, 560522000);
  (64, -416170000, 64001812000, 569498000);
  (65, -429424000, 65001900000, 578482000);
  (66, -442892000, 66001991000, 587474000);
  (67, -456574000, 67002084000, 596474000);
  (68, -470472000, 68002181000, 605482000);
  (69, -484585000, 69002280000, 614498000);
  (70, -498913000, 70002383000, 623523000);
  (71, -513458000, 71002489000, 632556000);
  (72, -528218000, 72002598000, 641598000);
  (73, -543196000, 73002710000, 650648000);
  (74, -558391000, 74002825000, 659707000);
  (75, -573803000, 75002944000, 668776000);
  (76, -589433000, 76003066000, 677853000);
  (77, -605281000, 77003192000, 686939000);
  (78, -621348000, 78003321000, 696034000);
  (79, -637634000, 79003454000, 705139000);
  (80, -654140000, 80003590000, 714253000);
  (81, -670865000, 81003730000, 723376000);
  (82, -687810000, 82003873000, 732509000);
  (83, -704975000, 83004021000, 741653000);
  (84, -722362000, 84004172000, 750806000);
  (85, -739970000, 85004327000, 759971000);
  (86, -757799000, 86004486000, 769145000);
  (87, -775851000, 87004649000, 778331000);
  (88, -794125000, 88004815000, 787528000);
  (89, -812621000, 89004987000, 796737000);
  (90, -831341000, 90005162000, 805956000);
  (91, -850285000, 91005341000, 815188000);
  (92, -869452000, 92005525000, 824431000);
  (93, -888843000, 93005713000, 833686000);
  (94, -908460000, 94005905000, 842953000);
  (95, -928301000, 95006102000, 852233000);
  (96, -948367000, 96006303000, 861525000);
  (97, -968660000, 97006509000, 870829000);
  (98, -989178000, 98006720000, 880146000);
  (99, -1009923000, 99006935000, 889476000);
  (100, -1030895000, 100007155000, 898818000);
  (101, -1052094000, 101007379000, 908173000);
  (102, -1073521000, 102007609000, 917542000);
  (103, -1095175000, 103007843000, 926923000);
  (104, -1117058000, 104008083000, 936318000);
  (105, -1139169000, 105008327000, 945725000);
  (106, -1161510000, 106008577000, 955146000);
  (107, -1184079000, 107008831000, 964580000);
  (108, -1206879000, 108009091000, 974027000);
  (109, -1229908000, 109009356000, 983488000);
  (110, -1253168000, 110009627000, 992962000);
  (111, -1276658000, 111009903000, 1002449000);
  (112, -1300379000, 112010184000, 1011950000);
  (113, -1324332000, 113010471000, 1021464000);
  (114, -1348516000, 114010763000, 1030991000);
  (115, -1372932000, 115011061000, 1040532000);
  (116, -1397580000, 116011365000, 1050086000);
  (117, -1422461000, 117011674000, 1059653000);
  (118, -1447575000, 118011990000, 1069234000);
  (119, -1472921000, 119012311000, 1078828000);
  (120, -1498501000, 120012638000, 1088435000);
  (121, -1524315000, 121012971000, 1098057000);
  (122, -1550363000, 122013310000, 1107693000);
  (123, -1576645000, 123013656000, 1117343000);
  (124, -1603162000, 124014007000, 1127009000);
  (125, -1629914000, 125014365000, 1136690000);
  (126, -1656900000, 126014729000, 1146386000);
  (127, -1684122000, 127015100000, 1156098000);
  (128, -1711579000, 128015476000, 1165826000);
  (129, -1739273000, 129015860000, 1175570000);
  (130, -1767202000, 130016250000, 1185331000);
  (131, -1795367000, 131016646000, 1195109000);
  (132, -1823769000, 132017050000, 1204903000);
  (133, -1852408000, 133017460000, 1214715000);
  (134, -1881284000, 134017876000, 1224545000);
  (135, -1910397000, 135018300000, 1234392000);
  (136, -1939747000, 136018731000, 1244257000);
  (137, -1969334000, 137019168000, 1254140000);
  (138, -1999160000, 138019613000, 1264042000);
  (139, -2029223000, 139020065000, 1273963000);
  (140, -2059525000, 140020524000, 1283902000);
  (141, -2090064000, 141020990000, 1293860000);
  (142, -2120842000, 142021464000, 1303838000);
  (143, -2151859000, 143021944000, 1313835000);
  (144, -2183114000, 144022433000, 1323851000);
  (145, -2214608000, 145022929000, 1333887000);
  (146, -2246341000, 146023432000, 1343944000);
  (147, -2278314000, 147023943000, 1354020000);
  (148, -2310525000, 148024462000, 1364117000);
  (149, -2342976000, 149024988000, 1374235000);
  (150, -2375666000, 150025522000, 1384373000);
  (151, -2408596000, 151026064000, 1394532000);
  (152, -2441765000, 152026614000, 1404712000);
  (153, -2475174000, 153027172000, 1414913000);
  (154, -2508823000, 154027738000, 1425136000);
  (155, -2542712000, 155028312000, 1435380000);
  (156, -2576840000, 156028894000, 1445646000);
  (157, -2611209000, 157029485000, 1455934000);
  (158, -2645817000, 158030083000, 1466244000);
  (159, -2680666000, 159030690000, 1476576000);
  (160, -2715754000, 160031306000, 1486931000);
  (161, -2751083000, 161031930000, 1497309000);
  (162, -2786652000, 162032562000, 1507710000);
  (163, -2822461000, 163033203000, 1518134000);
  (164, -2858510000, 164033853000, 1528582000);
  (165, -2894799000, 165034511000, 1539054000);
  (166, -2931329000, 166035178000, 1549550000);
  (167, -2968098000, 167035854000, 1560071000);
  (168, -3005107000, 168036538000, 1570616000);
  (169, -3042357000, 169037232000, 1581187000);
  (170, -3079846000, 170037934000, 1591782000);
  (171, -3117575000, 171038646000, 1602404000);
  (172, -3155544000, 172039366000, 1613051000);
  (173, -3193753000, 173040096000, 1623724000);
  (174, -3232201000, 174040835000, 1634424000);
  (175, -3270890000, 175041583000, 1645150000);
  (176, -3309817000, 176042340000, 1655903000);
  (177, -3348984000, 177043107000, 1666684000);
  (178, -3388391000, 178043883000, 1677492000);
  (179, -3428036000, 179044669000, 1688328000);
  (180, -3467921000, 180045464000, 1699192000);
  (181, -3508044000, 181046269000, 1710085000);
  (182, -3548407000, 182047083000, 1721007000);
  (183, -3589008000, 183047907000, 1731957000);
  (184, -3629848000, 184048740000, 1742937000);
  (185, -3670926000, 185049584000, 1753947000);
  (186, -3712242000, 186050437000, 1764987000);
  (187, -3753796000, 187051300000, 1776057000);
  (188, -3795589000, 188052173000, 1787158000);
  (189, -3837619000, 189053056000, 1798291000);
  (190, -3879886000, 190053948000, 1809454000);
  (191, -3922391000, 191054851000, 1820650000);
  (192, -3965133000, 192055764000, 1831877000);
  (193, -4008112000, 193056688000, 1843138000);
  (194, -4051328000, 194057621000, 1854431000);
  (195, -4094780000, 195058564000, 1865757000);
  (196, -4138468000, 196059518000, 1877117000);
  (197, -4182393000, 197060483000, 1888512000);
  (198, -4226553000, 198061457000, 1899940000);
  (199, -4270949000, 199062442000, 1911404000);
  (200, -4315581000, 200063438000, 1922902000);
  (201, -4360447000, 201064444000, 1934435000);
  (202, -4405549000, 202065460000, 1946003000);
  (203, -4450885000, 203066487000, 1957607000);
  (204, -4496455000, 204067525000, 1969246000);
  (205, -4542260000, 205068574000, 1980921000);
  (206, -4588298000, 206069633000, 1992631000);
  (207, -4634570000, 207070703000, 2004378000);
  (208, -4681075000, 208071784000, 2016161000);
  (209, -4727814000, 209072875000, 2027981000);
  (210, -4774785000, 210073978000, 2039838000);
  (211, -4821988000, 211075091000, 2051732000);
  (212, -4869424000, 212076216000, 2063663000);
  (213, -4917091000, 213077351000, 2075633000);
  (214, -4964991000, 214078498000, 2087640000);
  (215, -5013121000, 215079655000, 2099686000);
  (216, -5061482000, 216080824000, 2111770000);
  (217, -5110075000, 217082004000, 2123893000);
  (218, -5158897000, 218083195000, 2136056000);
  (219, -5207950000, 219084397000, 2148259000);
  (220, -5257233000, 220085611000, 2160501000);
  (221, -5306745000, 221086836000, 2172785000);
  (222, -5356486000, 222088072000, 2185109000);
  (223, -5406456000, 223089320000, 2197475000);
  (224, -5456655000, 224090579000, 2209882000);
  (225, -5507082000, 225091850000, 2222332000);
  (226, -5557737000, 226093132000, 2234824000);
  (227, -5608620000, 227094426000, 2247360000);
  (228, -5659730000, 228095731000, 2259939000);
  (229, -5711068000, 229097048000, 2272563000);
  (230, -5762632000, 230098377000, 2285231000);
  (231, -5814423000, 231099717000, 2297945000);
  (232, -5866440000, 232101069000, 2310705000);
  (233, -5918683000, 233102432000, 2323511000);
  (234, -5971151000, 234103808000, 2336363000);
  (235, -6023845000, 235105195000, 2349264000);
  (236, -6076764000, 236106595000, 2362213000);
  (237, -6129908000, 237108006000, 2375210000);
  (238, -6183276000, 238109429000, 2388257000);
  (239, -6236869000, 239110864000, 2401354000);
  (240, -6290685000, 240112311000, 2414501000);
  (241, -6344725000, 241113770000, 2427698000);
  (242, -6398989000, 242115241000, 2440945000);
  (243, -6453476000, 243116725000, 2454244000);
  (244, -6508186000, 244118220000, 2467593000);
  (245, -6563118000, 245119728000, 2480994000);
  (246, -6618273000, 246121248000, 2494446000);
  (247, -6673650000, 247122780000, 2507950000);
  (248, -6729249000, 248124324000, 2521507000);
  (249, -6785071000, 249125881000, 2535116000);
  (250, -6841113000, 250127450000, 2548779000);
  (251, -6897377000, 251129032000, 2562495000);
  (252, -6953862000, 252130626000, 2576266000);
  (253, -7010568000, 253132232000, 2590090000);
  (254, -7067495000, 254133851000, 2603970000);
  (255, -7124643000, 255135483000, 2617905000);
  (256, -7182011000, 256137127000, 2631896000);
  (257, -7239600000, 257138784000, 2645943000);
  (258, -7297408000, 258140453000, 2660048000);
  (259, -7355437000, 259142136000, 2674210000);
  (260, -7413686000, 260143831000, 2688430000);
  (261, -7472154000, 261145538000, 2702709000);
  (262, -7530842000, 262147259000, 2717047000);
  (263, -7589750000, 263148993000, 2731445000);
  (264, -7648877000, 264150739000, 2745904000);
  (265, -7708224000, 265152499000, 2760424000);
  (266, -7767791000, 266154271000, 2775005000);
  (267, -7827576000, 267156057000, 2789650000);
  (268, -7887581000, 268157855000, 2804358000);
  (269, -7947806000, 269159667000, 2819130000);
  (270, -8008250000, 270161492000, 2833967000);
  (271, -8068913000, 271163331000, 2848869000);
  (272, -8129796000, 272165182000, 2863838000);
  (273, -8190898000, 273167047000, 2878874000);
  (274, -8252219000, 274168926000, 2893978000);
  (275, -8313760000, 275170818000, 2909151000);
  (276, -8375521000, 276172723000, 2924394000);
  (277, -8437501000, 277174642000, 2939707000);
  (278, -8499702000, 278176574000, 2955092000);
  (279, -8562122000, 279178521000, 2970549000);
  (280, -8624762000, 280180481000, 2986079000);
  (281, -8687623000, 281182454000, 3001683000);
  (282, -8750704000, 282184442000, 3017360000);
  (283, -8814006000, 283186444000, 3033111000);
  (284, -8877529000, 284188459000, 3048937000);
  (285, -8941273000, 285190489000, 3064838000);
  (286, -9005239000, 286192533000, 3080815000);
  (287, -9069426000, 287194590000, 3096868000);
  (288, -9133835000, 288196663000, 3112998000);
  (289, -9198466000, 289198749000, 3129205000);
  (290, -9263320000, 290200850000, 3145491000);
  (291, -9328397000, 291202965000, 3161854000);
  (292, -9393697000, 292205095000, 3178297000);
  (293, -9459220000, 293207239000, 3194820000);
  (294, -9524968000, 294209398000, 3211422000);
  (295, -9590941000, 295211572000, 3228106000);
  (296, -9657138000, 296213761000, 3244872000);
  (297, -9723561000, 297215964000, 3261719000);
  (298, -9790210000, 298218183000, 3278650000);
  (299, -9857085000, 299220416000, 3295664000);
  (300, -9924187000, 300222665000, 3312762000);
  (301, -9991516000, 301224929000, 3329945000);
  (302, -10059074000, 302227209000, 3347214000);
  (303, -10126860000, 303229504000, 3364570000);
  (304, -10194876000, 304231814000, 3382012000);
  (305, -10263121000, 305234140000, 3399542000);
  (306, -10331597000, 306236482000, 3417160000);
  (307, -10400304000, 307238839000, 3434867000);
  (308, -10469243000, 308241213000, 3452665000);
  (309, -10538415000, 309243602000, 3470553000);
  (310, -10607820000, 310246008000, 3488532000);
  (311, -10677460000, 311248430000, 3506603000);
  (312, -10747334000, 312250868000, 3524767000);
  (313, -10817444000, 313253323000, 3543025000);
  (314, -10887791000, 314255794000, 3561377000);
  (315, -10958375000, 315258282000, 3579823000);
  (316, -11029197000, 316260787000, 3598366000);
  (317, -11100259000, 317263309000, 3617005000);
  (318, -11171560000, 318265847000, 3635741000);
  (319, -11243103000, 319268403000, 3654575000);
  (320, -11314888000, 320270976000, 3673507000);
  (321, -11386915000, 321273567000, 3692539000);
  (322, -11459187000, 322276175000, 3711672000);
  (323, -11531704000, 323278801000, 3730908000);
  (324, -11604467000, 324281445000, 3750248000);
  (325, -11677477000, 325284107000, 3769693000);
  (326, -11750735000, 326286786000, 3789246000);
  (327, -11824243000, 327289484000, 3808908000);
  (328, -11898001000, 328292201000, 3828680000);
  (329, -11972010000, 329294936000, 3848565000);
  (330, -12046273000, 330297689000, 3868562000);
  (331, -12120789000, 331300462000, 3888675000);
  (332, -12195561000, 332303253000, 3908904000);
  (333, -12270589000, 333306064000, 3929251000);
  (334, -12345874000, 334308894000, 3949717000);
  (335, -12421419000, 335311744000, 3970304000);
  (336, -12497224000, 336314613000, 3991013000);
  (337, -12573290000, 337317501000, 4011845000);
  (338, -12649619000, 338320410000, 4032802000);
  (339, -12726212000, 339323339000, 4053885000);
  (340, -12803071000, 340326289000, 4075095000);
  (341, -12880197000, 341329258000, 4096434000);
  (342, -12957590000, 342332249000, 4117903000);
  (343, -13035254000, 343335260000, 4139502000);
  (344, -13113188000, 344338292000, 4161234000);
  (345, -13191395000, 345341346000, 4183098000);
  (346, -13269876000, 346344421000, 4205097000);
  (347, -13348632000, 347347517000, 4227231000);
  (348, -13427665000, 348350635000, 4249502000);
  (349, -13506977000, 349353776000, 4271909000);
  (350, -13586567000, 350356938000, 4294455000);
  (351, -13666440000, 351360123000, 4317139000);
  (352, -13746594000, 352363330000, 4339963000);
  (353, -13827033000, 353366560000, 4362928000);
  (354, -13907758000, 354369813000, 4386033000);
  (355, -13988770000, 355373089000, 4409281000);
  (356, -14070071000, 356376389000, 4432670000);
  (357, -14151662000, 357379712000, 4456203000);
  (358, -14233545000, 358383058000, 4479879000);
  (359, -14315721000, 359386429000, 4503698000);
  (360, -14398191000, 360389824000, 4527662000);
  (361, -14480959000, 361393243000, 4551770000);
  (362, -14564024000, 362396687000, 4576023000);
  (363, -14647388000, 363400156000, 4600420000);
  (364, -14731053000, 364403650000, 4624964000);
  (365, -14815021000, 365407169000, 4649659000);
  (366, -14899292000, 366410714000, 4674507000);
  (367, -14983869000, 367414284000, 4699511000);
  (368, -15068753000, 368417880000, 4724676000);
  (369, -15153945000, 369421502000, 4750003000);
  (370, -15239447000, 370425151000, 4775495000);
  (371, -15325260000, 371428826000, 4801157000);
  (372, -15411386000, 372432528000, 4826989000);
  (373, -15497826000, 373436257000, 4852995000);
  (374, -15584581000, 374440013000, 4879178000);
  (375, -15671653000, 375443797000, 4905540000);
  (376, -15759043000, 376447608000, 4932082000);
  (377, -15846752000, 377451447000, 4958809000);
  (378, -15934783000, 378455314000, 4985720000);
  (379, -16023135000, 379459210000, 5012820000);
  (380, -16111810000, 380463134000, 5040109000);
  (381, -16200810000, 381467087000, 5067589000);
  (382, -16290136000, 382471068000, 5095262000);
  (383, -16379788000, 383475079000, 5123130000);
  (384, -16469768000, 384479119000, 5151193000);
  (385, -16560077000, 385483189000, 5179454000);
  (386, -16650716000, 386487288000, 5207913000);
  (387, -16741686000, 387491417000, 5236572000);
  (388, -16832987000, 388495576000, 5265431000);
  (389, -16924621000, 389499766000, 5294491000);
  (390, -17016589000, 390503986000, 5323752000);
  (391, -17108890000, 391508237000, 5353216000);
  (392, -17201527000, 392512519000, 5382882000);
  (393, -17294499000, 393516831000, 5412751000);
  (394, -17387807000, 394521175000, 5442822000);
  (395, -17481451000, 395525550000, 5473096000);
  (396, -17575433000, 396529957000, 5503571000);
  (397, -17669752000, 397534395000, 5534248000);
  (398, -17764408000, 398538865000, 5565126000);
  (399, -17859403000, 399543366000, 5596204000);
  (400, -17954735000, 400547900000, 5627481000);
  (401, -18050405000, 401552466000, 5658956000);
  (402, -18146414000, 402557065000, 5690627000);
  (403, -18242760000, 403561695000, 5722492000);
  (404, -18339443000, 404566358000, 5754551000);
  (405, -18436464000, 405571054000, 5786800000);
  (406, -18533822000, 406575782000, 5819238000);
  (407, -18631516000, 407580542000, 5851863000);
  (408, -18729546000, 408585336000, 5884671000);
  (409, -18827910000, 409590162000, 5917660000);
  (410, -18926609000, 410595021000, 5950827000);
  (411, -19025640000, 411599913000, 5984168000);
  (412, -19125003000, 412604837000, 6017680000);
  (413, -19224697000, 413609794000, 6051360000);
  (414, -19324720000, 414614784000, 6085202000);
  (415, -19425071000, 415619807000, 6119204000);
  (416, -19525748000, 416624862000, 6153360000);
  (417, -19626749000, 417629949000, 6187666000);
  (418, -19728072000, 418635069000, 6222116000);
  (419, -19829715000, 419640222000, 6256706000);
  (420, -19931676000, 420645406000, 6291430000);
  (421, -20034147770, 421650695800, 6333693156);
  (422, -20136754530, 422655959100, 6369793329);
  (423, -20239672910, 423661255700, 6406122788);
  (424, -20342900070, 424666585400, 6442681789);
  (425, -20446432980, 425671948100, 6479470521);
  (426, -20550268420, 426677343700, 6516489103);
  (427, -20654402990, 427682772100, 6553737579);
  (428, -20758833090, 428688233000, 6591215918);
  (429, -20863554930, 429693726500, 6628924009);
  (430, -20968564500, 430699252100, 6666861660);
  (431, -21073857600, 431704809800, 6705028595);
  (432, -21179429790, 432710399300, 6743424450);
  (433, -21285276430, 433716020300, 6782048772);
  (434, -21391392640, 434721672700, 6820901015);
  (435, -21497773310, 435727356000, 6859980536);
  (436, -21604413100, 436733070000, 6899286593);
  (437, -21711306420, 437738814400, 6938818342);
  (438, -21818447420, 438744588700, 6978574834);
  (439, -21925830000, 439750392700, 7018555011);
  (440, -22033447800, 440756225900, 7058757702);
  (441, -22141294190, 441762087900, 7099181620);
  (442, -22249362250, 442767978200, 7139825362);
  (443, -22357644790, 443773896300, 7180687399);
  (444, -22466134340, 444779841800, 7221766077);
  (445, -22574823100, 445785814200, 7263059613);
  (446, -22683703000, 446791812700, 7304566089);
  (447, -22792765640, 447797837000, 7346283450);
  (448, -22902002310, 448803886200, 7388209499);
  (449, -23011403960, 449809959800, 7430341895);
  (450, -23120961250, 450816057200, 7472678145);
  (451, -23230664440, 451822177500, 7515215605);
  (452, -23340503480, 452828320100, 7557951471);
  (453, -23450467950, 453834484000, 7600882778);
  (454, -23560547090, 454840668700, 7644006393);
  (455, -23670729740, 455846873100, 7687319015);
  (456, -23781004360, 456853096400, 7730817163);
  (457, -23891359050, 457859337600, 7774497180);
  (458, -24001781490, 458865595900, 7818355221);
  (459, -24112258960, 459871870100, 7862387252);
  (460, -24222778320, 460878159200, 7906589045);
  (461, -24333326030, 461884462300, 7950956172);
  (462, -24443888100, 462890778000, 7995484000);
  (463, -24554450100, 463897105300, 8040167687);
  (464, -24664997160, 464903442900, 8085002174);
  (465, -24775513940, 465909789500, 8129982184);
  (466, -24885984650, 466916143900, 8175102211);
  (467, -24996393000, 467922504800, 8220356522);
  (468, -25106722230, 468928870600, 8265739142);
  (469, -25216955070, 469935239900, 8311243857);
  (470, -25327073760, 470941611300, 8356864201);
  (471, -25437060010, 471947983100, 8402593458);
  (472, -25546895000, 472954353800, 8448424647);
  (473, -25656559380, 473960721700, 8494350523);
  (474, -25766033260, 474967085100, 8540363567);
  (475, -25875296160, 475973442100, 8586455981);
  (476, -25984327070, 476979791000, 8632619681);
  (477, -26093104370, 477986129900, 8678846292);
  (478, -26201605870, 478992456800, 8725127140);
  (479, -26309808750, 479998769700, 8771453242);
  (480, -26417689600, 481005066500, 8817815309);
  (481, -26525224370, 482011345000, 8864203726);
  (482, -26632388380, 483017603100, 8910608555);
  (483, -26739156290, 484023838500, 8957019524);
  (484, -26845502120, 485030048800, 9003426020);
  (485, -26951399190, 486036231600, 9049817080);
  (486, -27056820140, 487042384400, 9096181387);
  (487, -27161736930, 488048504700, 9142507258);
  (488, -27266120780, 489054589800, 9188782640);
  (489, -27369942220, 490060637000, 9234995102);
  (490, -27473171000, 491066643600, 9281131821);
  (491, -27575776150, 492072606600, 9327179584);
  (492, -27677725920, 493078523200, 9373124769);
  (493, -27778987800, 494084390200, 9418953345);
  (494, -27879528480, 495090204600, 9464650859);
  (495, -27979313830, 496095963200, 9510202428);
  (496, -28078308920, 497101662600, 9555592731);
  (497, -28176477980, 498107299600, 9600806000);
  (498, -28273784380, 499112870600, 9645826011);
  (499, -28370190660, 500118372200, 9690636073);
  (500, -28465658440, 501123800500, 9735219020)].
