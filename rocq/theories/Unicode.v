(* Unicode.v -- Unicode tables (generated with Python's unicodedata 14.0.0).
   Simplification: the tables of the Rust toolchain may be of another Unicode
   version. *)
From Verif Require Import Base.
Local Open Scope N_scope.

(* general category Ps *)
Definition tbl_Ps : list (N * N) :=
  [(40, 40); (91, 91); (123, 123); (3898, 3898); (3900, 3900); (5787, 5787);
   (8218, 8218); (8222, 8222); (8261, 8261); (8317, 8317); (8333, 8333); (8968,
   8968); (8970, 8970); (9001, 9001); (10088, 10088); (10090, 10090); (10092,
   10092); (10094, 10094); (10096, 10096); (10098, 10098); (10100, 10100);
   (10181, 10181); (10214, 10214); (10216, 10216); (10218, 10218); (10220,
   10220); (10222, 10222); (10627, 10627); (10629, 10629); (10631, 10631);
   (10633, 10633); (10635, 10635); (10637, 10637); (10639, 10639); (10641,
   10641); (10643, 10643); (10645, 10645); (10647, 10647); (10712, 10712);
   (10714, 10714); (10748, 10748); (11810, 11810); (11812, 11812); (11814,
   11814); (11816, 11816); (11842, 11842); (11861, 11861); (11863, 11863);
   (11865, 11865); (11867, 11867); (12296, 12296); (12298, 12298); (12300,
   12300); (12302, 12302); (12304, 12304); (12308, 12308); (12310, 12310);
   (12312, 12312); (12314, 12314); (12317, 12317); (64831, 64831); (65047,
   65047); (65077, 65077); (65079, 65079); (65081, 65081); (65083, 65083);
   (65085, 65085); (65087, 65087); (65089, 65089); (65091, 65091); (65095,
   65095); (65113, 65113); (65115, 65115); (65117, 65117); (65288, 65288);
   (65339, 65339); (65371, 65371); (65375, 65375); (65378, 65378)].
(* general category Pe *)
Definition tbl_Pe : list (N * N) :=
  [(41, 41); (93, 93); (125, 125); (3899, 3899); (3901, 3901); (5788, 5788);
   (8262, 8262); (8318, 8318); (8334, 8334); (8969, 8969); (8971, 8971); (9002,
   9002); (10089, 10089); (10091, 10091); (10093, 10093); (10095, 10095);
   (10097, 10097); (10099, 10099); (10101, 10101); (10182, 10182); (10215,
   10215); (10217, 10217); (10219, 10219); (10221, 10221); (10223, 10223);
   (10628, 10628); (10630, 10630); (10632, 10632); (10634, 10634); (10636,
   10636); (10638, 10638); (10640, 10640); (10642, 10642); (10644, 10644);
   (10646, 10646); (10648, 10648); (10713, 10713); (10715, 10715); (10749,
   10749); (11811, 11811); (11813, 11813); (11815, 11815); (11817, 11817);
   (11862, 11862); (11864, 11864); (11866, 11866); (11868, 11868); (12297,
   12297); (12299, 12299); (12301, 12301); (12303, 12303); (12305, 12305);
   (12309, 12309); (12311, 12311); (12313, 12313); (12315, 12315); (12318,
   12319); (64830, 64830); (65048, 65048); (65078, 65078); (65080, 65080);
   (65082, 65082); (65084, 65084); (65086, 65086); (65088, 65088); (65090,
   65090); (65092, 65092); (65096, 65096); (65114, 65114); (65116, 65116);
   (65118, 65118); (65289, 65289); (65341, 65341); (65373, 65373); (65376,
   65376); (65379, 65379)].
(* general category Pi *)
Definition tbl_Pi : list (N * N) :=
  [(171, 171); (8216, 8216); (8219, 8220); (8223, 8223); (8249, 8249); (11778,
   11778); (11780, 11780); (11785, 11785); (11788, 11788); (11804, 11804);
   (11808, 11808)].
(* general category Pf *)
Definition tbl_Pf : list (N * N) :=
  [(187, 187); (8217, 8217); (8221, 8221); (8250, 8250); (11779, 11779);
   (11781, 11781); (11786, 11786); (11789, 11789); (11805, 11805); (11809,
   11809)].
(* general category Pd *)
Definition tbl_Pd : list (N * N) :=
  [(45, 45); (1418, 1418); (1470, 1470); (5120, 5120); (6150, 6150); (8208,
   8213); (11799, 11799); (11802, 11802); (11834, 11835); (11840, 11840);
   (11869, 11869); (12316, 12316); (12336, 12336); (12448, 12448); (65073,
   65074); (65112, 65112); (65123, 65123); (65293, 65293); (69293, 69293)].
(* general category Po *)
Definition tbl_Po : list (N * N) :=
  [(33, 35); (37, 39); (42, 42); (44, 44); (46, 47); (58, 59); (63, 64); (92,
   92); (161, 161); (167, 167); (182, 183); (191, 191); (894, 894); (903, 903);
   (1370, 1375); (1417, 1417); (1472, 1472); (1475, 1475); (1478, 1478); (1523,
   1524); (1545, 1546); (1548, 1549); (1563, 1563); (1565, 1567); (1642, 1645);
   (1748, 1748); (1792, 1805); (2039, 2041); (2096, 2110); (2142, 2142); (2404,
   2405); (2416, 2416); (2557, 2557); (2678, 2678); (2800, 2800); (3191, 3191);
   (3204, 3204); (3572, 3572); (3663, 3663); (3674, 3675); (3844, 3858); (3860,
   3860); (3973, 3973); (4048, 4052); (4057, 4058); (4170, 4175); (4347, 4347);
   (4960, 4968); (5742, 5742); (5867, 5869); (5941, 5942); (6100, 6102); (6104,
   6106); (6144, 6149); (6151, 6154); (6468, 6469); (6686, 6687); (6816, 6822);
   (6824, 6829); (7002, 7008); (7037, 7038); (7164, 7167); (7227, 7231); (7294,
   7295); (7360, 7367); (7379, 7379); (8214, 8215); (8224, 8231); (8240, 8248);
   (8251, 8254); (8257, 8259); (8263, 8273); (8275, 8275); (8277, 8286);
   (11513, 11516); (11518, 11519); (11632, 11632); (11776, 11777); (11782,
   11784); (11787, 11787); (11790, 11798); (11800, 11801); (11803, 11803);
   (11806, 11807); (11818, 11822); (11824, 11833); (11836, 11839); (11841,
   11841); (11843, 11855); (11858, 11860); (12289, 12291); (12349, 12349);
   (12539, 12539); (42238, 42239); (42509, 42511); (42611, 42611); (42622,
   42622); (42738, 42743); (43124, 43127); (43214, 43215); (43256, 43258);
   (43260, 43260); (43310, 43311); (43359, 43359); (43457, 43469); (43486,
   43487); (43612, 43615); (43742, 43743); (43760, 43761); (44011, 44011);
   (65040, 65046); (65049, 65049); (65072, 65072); (65093, 65094); (65097,
   65100); (65104, 65106); (65108, 65111); (65119, 65121); (65128, 65128);
   (65130, 65131); (65281, 65283); (65285, 65287); (65290, 65290); (65292,
   65292); (65294, 65295); (65306, 65307); (65311, 65312); (65340, 65340);
   (65377, 65377); (65380, 65381); (65792, 65794); (66463, 66463); (66512,
   66512); (66927, 66927); (67671, 67671); (67871, 67871); (67903, 67903);
   (68176, 68184); (68223, 68223); (68336, 68342); (68409, 68415); (68505,
   68508); (69461, 69465); (69510, 69513); (69703, 69709); (69819, 69820);
   (69822, 69825); (69952, 69955); (70004, 70005); (70085, 70088); (70093,
   70093); (70107, 70107); (70109, 70111); (70200, 70205); (70313, 70313);
   (70731, 70735); (70746, 70747); (70749, 70749); (70854, 70854); (71105,
   71127); (71233, 71235); (71264, 71276); (71353, 71353); (71484, 71486);
   (71739, 71739); (72004, 72006); (72162, 72162); (72255, 72262); (72346,
   72348); (72350, 72354); (72769, 72773); (72816, 72817); (73463, 73464);
   (73727, 73727); (74864, 74868); (77809, 77810); (92782, 92783); (92917,
   92917); (92983, 92987); (92996, 92996); (93847, 93850); (94178, 94178);
   (113823, 113823); (121479, 121483); (125278, 125279)].
(* general category Nd *)
Definition tbl_Nd : list (N * N) :=
  [(48, 57); (1632, 1641); (1776, 1785); (1984, 1993); (2406, 2415); (2534,
   2543); (2662, 2671); (2790, 2799); (2918, 2927); (3046, 3055); (3174, 3183);
   (3302, 3311); (3430, 3439); (3558, 3567); (3664, 3673); (3792, 3801); (3872,
   3881); (4160, 4169); (4240, 4249); (6112, 6121); (6160, 6169); (6470, 6479);
   (6608, 6617); (6784, 6793); (6800, 6809); (6992, 7001); (7088, 7097); (7232,
   7241); (7248, 7257); (42528, 42537); (43216, 43225); (43264, 43273); (43472,
   43481); (43504, 43513); (43600, 43609); (44016, 44025); (65296, 65305);
   (66720, 66729); (68912, 68921); (69734, 69743); (69872, 69881); (69942,
   69951); (70096, 70105); (70384, 70393); (70736, 70745); (70864, 70873);
   (71248, 71257); (71360, 71369); (71472, 71481); (71904, 71913); (72016,
   72025); (72784, 72793); (73040, 73049); (73120, 73129); (92768, 92777);
   (92864, 92873); (93008, 93017); (120782, 120831); (123200, 123209); (123632,
   123641); (125264, 125273); (130032, 130041)].
(* Simple lower-case mapping: (lo, hi, step, image of lo); a character
   lo + k*step <= hi is mapped to (image of lo) + k*step.  U+0130, which has a
   two-character image, is handled in lower_char. *)
Definition tbl_lower : list (N * N * N * N) :=
  [(65, 90, 1, 97); (192, 214, 1, 224); (216, 222, 1, 248); (256, 302, 2, 257);
   (306, 310, 2, 307); (313, 327, 2, 314); (330, 374, 2, 331); (376, 376, 1,
   255); (377, 381, 2, 378); (385, 385, 1, 595); (386, 388, 2, 387); (390, 390,
   1, 596); (391, 391, 1, 392); (393, 394, 1, 598); (395, 395, 1, 396); (398,
   398, 1, 477); (399, 399, 1, 601); (400, 400, 1, 603); (401, 401, 1, 402);
   (403, 403, 1, 608); (404, 404, 1, 611); (406, 406, 1, 617); (407, 407, 1,
   616); (408, 408, 1, 409); (412, 412, 1, 623); (413, 413, 1, 626); (415, 415,
   1, 629); (416, 420, 2, 417); (422, 422, 1, 640); (423, 423, 1, 424); (425,
   425, 1, 643); (428, 428, 1, 429); (430, 430, 1, 648); (431, 431, 1, 432);
   (433, 434, 1, 650); (435, 437, 2, 436); (439, 439, 1, 658); (440, 440, 1,
   441); (444, 444, 1, 445); (452, 452, 1, 454); (453, 453, 1, 454); (455, 455,
   1, 457); (456, 456, 1, 457); (458, 458, 1, 460); (459, 475, 2, 460); (478,
   494, 2, 479); (497, 497, 1, 499); (498, 500, 2, 499); (502, 502, 1, 405);
   (503, 503, 1, 447); (504, 542, 2, 505); (544, 544, 1, 414); (546, 562, 2,
   547); (570, 570, 1, 11365); (571, 571, 1, 572); (573, 573, 1, 410); (574,
   574, 1, 11366); (577, 577, 1, 578); (579, 579, 1, 384); (580, 580, 1, 649);
   (581, 581, 1, 652); (582, 590, 2, 583); (880, 882, 2, 881); (886, 886, 1,
   887); (895, 895, 1, 1011); (902, 902, 1, 940); (904, 906, 1, 941); (908,
   908, 1, 972); (910, 911, 1, 973); (913, 929, 1, 945); (931, 939, 1, 963);
   (975, 975, 1, 983); (984, 1006, 2, 985); (1012, 1012, 1, 952); (1015, 1015,
   1, 1016); (1017, 1017, 1, 1010); (1018, 1018, 1, 1019); (1021, 1023, 1,
   891); (1024, 1039, 1, 1104); (1040, 1071, 1, 1072); (1120, 1152, 2, 1121);
   (1162, 1214, 2, 1163); (1216, 1216, 1, 1231); (1217, 1229, 2, 1218); (1232,
   1326, 2, 1233); (1329, 1366, 1, 1377); (4256, 4293, 1, 11520); (4295, 4295,
   1, 11559); (4301, 4301, 1, 11565); (5024, 5103, 1, 43888); (5104, 5109, 1,
   5112); (7312, 7354, 1, 4304); (7357, 7359, 1, 4349); (7680, 7828, 2, 7681);
   (7838, 7838, 1, 223); (7840, 7934, 2, 7841); (7944, 7951, 1, 7936); (7960,
   7965, 1, 7952); (7976, 7983, 1, 7968); (7992, 7999, 1, 7984); (8008, 8013,
   1, 8000); (8025, 8031, 2, 8017); (8040, 8047, 1, 8032); (8072, 8079, 1,
   8064); (8088, 8095, 1, 8080); (8104, 8111, 1, 8096); (8120, 8121, 1, 8112);
   (8122, 8123, 1, 8048); (8124, 8124, 1, 8115); (8136, 8139, 1, 8050); (8140,
   8140, 1, 8131); (8152, 8153, 1, 8144); (8154, 8155, 1, 8054); (8168, 8169,
   1, 8160); (8170, 8171, 1, 8058); (8172, 8172, 1, 8165); (8184, 8185, 1,
   8056); (8186, 8187, 1, 8060); (8188, 8188, 1, 8179); (8486, 8486, 1, 969);
   (8490, 8490, 1, 107); (8491, 8491, 1, 229); (8498, 8498, 1, 8526); (8544,
   8559, 1, 8560); (8579, 8579, 1, 8580); (9398, 9423, 1, 9424); (11264, 11311,
   1, 11312); (11360, 11360, 1, 11361); (11362, 11362, 1, 619); (11363, 11363,
   1, 7549); (11364, 11364, 1, 637); (11367, 11371, 2, 11368); (11373, 11373,
   1, 593); (11374, 11374, 1, 625); (11375, 11375, 1, 592); (11376, 11376, 1,
   594); (11378, 11378, 1, 11379); (11381, 11381, 1, 11382); (11390, 11391, 1,
   575); (11392, 11490, 2, 11393); (11499, 11501, 2, 11500); (11506, 11506, 1,
   11507); (42560, 42604, 2, 42561); (42624, 42650, 2, 42625); (42786, 42798,
   2, 42787); (42802, 42862, 2, 42803); (42873, 42875, 2, 42874); (42877,
   42877, 1, 7545); (42878, 42886, 2, 42879); (42891, 42891, 1, 42892); (42893,
   42893, 1, 613); (42896, 42898, 2, 42897); (42902, 42920, 2, 42903); (42922,
   42922, 1, 614); (42923, 42923, 1, 604); (42924, 42924, 1, 609); (42925,
   42925, 1, 620); (42926, 42926, 1, 618); (42928, 42928, 1, 670); (42929,
   42929, 1, 647); (42930, 42930, 1, 669); (42931, 42931, 1, 43859); (42932,
   42946, 2, 42933); (42948, 42948, 1, 42900); (42949, 42949, 1, 642); (42950,
   42950, 1, 7566); (42951, 42953, 2, 42952); (42960, 42960, 1, 42961); (42966,
   42968, 2, 42967); (42997, 42997, 1, 42998); (65313, 65338, 1, 65345);
   (66560, 66599, 1, 66600); (66736, 66771, 1, 66776); (66928, 66938, 1,
   66967); (66940, 66954, 1, 66979); (66956, 66962, 1, 66995); (66964, 66965,
   1, 67003); (68736, 68786, 1, 68800); (71840, 71871, 1, 71872); (93760,
   93791, 1, 93792); (125184, 125217, 1, 125218)].

Fixpoint lower_lookup (t : list (N * N * N * N)) (c : char) : char :=
  match t with
  | [] => c
  | (lo, hi, step, img) :: t' =>
      if (lo <=? c) && (c <=? hi) && ((c - lo) mod step =? 0)
      then img + (c - lo) else lower_lookup t' c
  end.

(* char::to_lowercase.  Simplification of str::to_lowercase: the context rule
   that turns a word-final capital sigma into the final small sigma is not
   modelled; capital sigma always becomes the ordinary small sigma. *)
Definition lower_char (c : char) : str :=
  if c <? 128 then [ascii_lower c]
  else if c =? 304 then [105; 775] else [lower_lookup tbl_lower c].

(* str::to_lowercase *)
Definition to_lowercase (s : str) : str := flat_map lower_char s.
