(** GENERATED by tools/gendata.py from /repo/src/tad_dftd4/damping/parameters/{d3,d4}.toml.
    Numbers are exact decimals (rationals); [reference]/[citation] entries that the
    loader never reads are omitted. *)
From Coq Require Import List String QArith.
Import ListNotations.
Open Scope string_scope.

Inductive tval : Type := TNum (q : Q) | TStr (s : string).

(** d3.toml, [default] d3: list of variants. *)
Definition d3_default_variants : list string := ["bj"; "zero"].
(** d3.toml, [default.parameter] d3.* *)
Definition d3_default_blocks : list (string * list (string * tval)) :=
  [("bj", [("s6", TNum (10#10)); ("s9", TNum (10#10)); ("alp", TNum (140#10)); ("damping", TStr "rational")]);
   ("zero", [("s6", TNum (10#10)); ("s9", TNum (10#10)); ("rs8", TNum (10#10)); ("alp", TNum (140#10)); ("damping", TStr "zero")]);
   ("bjm", [("s6", TNum (10#10)); ("s9", TNum (10#10)); ("alp", TNum (140#10)); ("damping", TStr "rational")]);
   ("zerom", [("s6", TNum (10#10)); ("s9", TNum (10#10)); ("rs8", TNum (10#10)); ("alp", TNum (140#10)); ("damping", TStr "mzero")]);
   ("op", [("s9", TNum (10#10)); ("alp", TNum (140#10)); ("damping", TStr "optimizedpower")])].
(** d3.toml, [parameter.<functional>] d3.<variant> *)
Definition d3_functionals : list (string * list (string * list (string * tval))) :=
  [("slaterdirac", [("zero", [("rs6", TNum (999#1000)); ("s8", TNum (-1957#1000)); ("rs8", TNum (697#1000))])]);
   ("bp", [("bj", [("a1", TNum (3946#10000)); ("s8", TNum (32822#10000)); ("a2", TNum (48516#10000)); ("doi", TStr "10.1002/jcc.21759")]); ("zero", [("rs6", TNum (1139#1000)); ("s8", TNum (1683#1000)); ("doi", TStr "10.1063/1.3382344")]); ("bjm", [("a1", TNum (821850#1000000)); ("s8", TNum (3140281#1000000)); ("a2", TNum (2728151#1000000)); ("doi", TStr "10.1021/acs.jpclett.6b00780")]); ("zerom", [("rs6", TNum (1233460#1000000)); ("s8", TNum (1945174#1000000)); ("bet", TNum (0#1000000)); ("doi", TStr "10.1021/acs.jpclett.6b00780")])]);
   ("blyp", [("bj", [("a1", TNum (4298#10000)); ("s8", TNum (26996#10000)); ("a2", TNum (42359#10000)); ("doi", TStr "10.1002/jcc.21759")]); ("zero", [("rs6", TNum (1094#1000)); ("s8", TNum (1682#1000)); ("doi", TStr "10.1063/1.3382344")]); ("bjm", [("a1", TNum (448486#1000000)); ("s8", TNum (1875007#1000000)); ("a2", TNum (3610679#1000000)); ("doi", TStr "10.1021/acs.jpclett.6b00780")]); ("zerom", [("rs6", TNum (1279637#1000000)); ("s8", TNum (1841686#1000000)); ("bet", TNum (14370#1000000)); ("doi", TStr "10.1021/acs.jpclett.6b00780")]); ("op", [("s6", TNum (10#10)); ("s8", TNum (131867#100000)); ("a1", TNum (425#1000)); ("a2", TNum (350#100)); ("bet", TNum (20#10)); ("doi", TStr "10.1021/acs.jctc.7b00176")])]);
   ("revpbe", [("bj", [("a1", TNum (5238#10000)); ("s8", TNum (23550#10000)); ("a2", TNum (35016#10000)); ("doi", TStr "10.1002/jcc.21759")]); ("zero", [("rs6", TNum (923#1000)); ("s8", TNum (1010#1000)); ("doi", TStr "10.1063/1.3382344")]); ("op", [("s6", TNum (10#10)); ("s8", TNum (144765#100000)); ("a1", TNum (600#1000)); ("a2", TNum (250#100)); ("bet", TNum (0#10)); ("doi", TStr "10.1021/acs.jctc.7b00176")])]);
   ("rpbe", [("bj", [("a1", TNum (1820#10000)); ("s8", TNum (8318#10000)); ("a2", TNum (40094#10000))]); ("zero", [("rs6", TNum (872#1000)); ("s8", TNum (514#1000))])]);
   ("b97d", [("bj", [("a1", TNum (5545#10000)); ("s8", TNum (22609#10000)); ("a2", TNum (32297#10000)); ("doi", TStr "10.1002/jcc.21759")]); ("zero", [("rs6", TNum (892#1000)); ("s8", TNum (909#1000)); ("doi", TStr "10.1063/1.3382344")]); ("bjm", [("a1", TNum (240184#1000000)); ("s8", TNum (1206988#1000000)); ("a2", TNum (3864426#1000000)); ("doi", TStr "10.1021/acs.jpclett.6b00780")]); ("zerom", [("rs6", TNum (1151808#1000000)); ("s8", TNum (1020078#1000000)); ("bet", TNum (35964#1000000)); ("doi", TStr "10.1021/acs.jpclett.6b00780")]); ("op", [("s6", TNum (10#10)); ("s8", TNum (146861#100000)); ("a1", TNum (600#1000)); ("a2", TNum (250#100)); ("bet", TNum (0#10)); ("doi", TStr "10.1021/acs.jctc.7b00176")])]);
   ("b973c", [("bj", [("a1", TNum (37#100)); ("s8", TNum (150#100)); ("a2", TNum (410#100)); ("doi", TStr "10.1063/1.5012601")]); ("zero", [("rs6", TNum (106#100)); ("s8", TNum (150#100)); ("doi", TStr "10.1063/1.5012601")])]);
   ("pbe", [("bj", [("a1", TNum (4289#10000)); ("s8", TNum (7875#10000)); ("a2", TNum (44407#10000)); ("doi", TStr "10.1002/jcc.21759")]); ("zero", [("rs6", TNum (1217#1000)); ("s8", TNum (722#1000)); ("doi", TStr "10.1063/1.3382344")]); ("bjm", [("a1", TNum (12092#1000000)); ("s8", TNum (358940#1000000)); ("a2", TNum (5938951#1000000)); ("doi", TStr "10.1021/acs.jpclett.6b00780")]); ("zerom", [("rs6", TNum (2340218#1000000)); ("s8", TNum (0#1000000)); ("bet", TNum (129434#1000000)); ("doi", TStr "10.1021/acs.jpclett.6b00780")]); ("op", [("s6", TNum (91826#100000)); ("s8", TNum (0#10)); ("a1", TNum (200#1000)); ("a2", TNum (4750#1000)); ("bet", TNum (60#10)); ("doi", TStr "10.1021/acs.jctc.7b00176")])]);
   ("rpw86pbe", [("bj", [("a1", TNum (4613#10000)); ("s8", TNum (13845#10000)); ("a2", TNum (45062#10000)); ("doi", TStr "10.1002/jcc.21759")]); ("zero", [("rs6", TNum (1224#1000)); ("s8", TNum (901#1000))])]);
   ("b3lyp", [("bj", [("a1", TNum (3981#10000)); ("s8", TNum (19889#10000)); ("a2", TNum (44211#10000)); ("doi", TStr "10.1002/jcc.21759")]); ("zero", [("rs6", TNum (1261#1000)); ("s8", TNum (1703#1000)); ("doi", TStr "10.1063/1.3382344")]); ("bjm", [("a1", TNum (278672#1000000)); ("s8", TNum (1466677#1000000)); ("a2", TNum (4606311#1000000)); ("doi", TStr "10.1021/acs.jpclett.6b00780")]); ("zerom", [("rs6", TNum (1338153#1000000)); ("s8", TNum (1532981#1000000)); ("bet", TNum (13988#1000000)); ("doi", TStr "10.1021/acs.jpclett.6b00780")]); ("op", [("s6", TNum (10#10)); ("s8", TNum (78311#100000)); ("a1", TNum (300#1000)); ("a2", TNum (425#100)); ("bet", TNum (40#10)); ("doi", TStr "10.1021/acs.jctc.7b00176")])]);
   ("tpss", [("bj", [("a1", TNum (4535#10000)); ("s8", TNum (19435#10000)); ("a2", TNum (44752#10000)); ("doi", TStr "10.1002/jcc.21759")]); ("zero", [("rs6", TNum (1166#1000)); ("s8", TNum (1105#1000)); ("doi", TStr "10.1063/1.3382344")]); ("op", [("s6", TNum (10#10)); ("s8", TNum (51581#100000)); ("a1", TNum (575#1000)); ("a2", TNum (300#100)); ("bet", TNum (80#10)); ("doi", TStr "10.1021/acs.jctc.7b00176")])]);
   ("hf", [("bj", [("a1", TNum (3385#10000)); ("s8", TNum (9171#10000)); ("a2", TNum (28830#10000)); ("doi", TStr "10.1002/jcc.21759")]); ("zero", [("rs6", TNum (1158#1000)); ("s8", TNum (1746#1000))])]);
   ("tpss0", [("bj", [("a1", TNum (3768#10000)); ("s8", TNum (12576#10000)); ("a2", TNum (45865#10000)); ("doi", TStr "10.1002/jcc.21759")]); ("zero", [("rs6", TNum (1252#1000)); ("s8", TNum (1242#1000)); ("doi", TStr "10.1063/1.3382344")])]);
   ("pbe0", [("bj", [("a1", TNum (4145#10000)); ("s8", TNum (12177#10000)); ("a2", TNum (48593#10000)); ("doi", TStr "10.1002/jcc.21759")]); ("zero", [("rs6", TNum (1287#1000)); ("s8", TNum (928#1000)); ("doi", TStr "10.1063/1.3382344")]); ("bjm", [("a1", TNum (7912#1000000)); ("s8", TNum (528823#1000000)); ("a2", TNum (6162326#1000000)); ("doi", TStr "10.1021/acs.jpclett.6b00780")]); ("zerom", [("rs6", TNum (2077949#1000000)); ("s8", TNum (81#1000000)); ("bet", TNum (116755#1000000)); ("doi", TStr "10.1021/acs.jpclett.6b00780")]); ("op", [("s6", TNum (88290#100000)); ("s8", TNum (0#10)); ("a1", TNum (150#1000)); ("a2", TNum (4750#1000)); ("bet", TNum (60#10)); ("doi", TStr "10.1021/acs.jctc.7b00176")])]);
   ("hse06", [("bj", [("a1", TNum (383#1000)); ("s8", TNum (2310#1000)); ("a2", TNum (5685#1000)); ("doi", TStr "10.1021/jp501237c")]); ("zero", [("rs6", TNum (1129#1000)); ("s8", TNum (109#1000)); ("doi", TStr "10.1021/jp501237c")])]);
   ("revpbe38", [("bj", [("a1", TNum (4309#10000)); ("s8", TNum (14760#10000)); ("a2", TNum (39446#10000)); ("doi", TStr "10.1039/c0cp02984j")]); ("zero", [("rs6", TNum (1021#1000)); ("s8", TNum (862#1000))])]);
   ("pw6b95", [("bj", [("a1", TNum (2076#10000)); ("s8", TNum (7257#10000)); ("a2", TNum (63750#10000)); ("doi", TStr "10.1039/c0cp02984j")]); ("zero", [("rs6", TNum (1532#1000)); ("s8", TNum (862#1000))])]);
   ("b2plyp", [("bj", [("a1", TNum (3065#10000)); ("s8", TNum (9147#10000)); ("a2", TNum (50570#10000)); ("s6", TNum (64#100)); ("doi", TStr "10.1039/c0cp02984j")]); ("zero", [("rs6", TNum (1427#1000)); ("s8", TNum (1022#1000)); ("s6", TNum (64#100)); ("doi", TStr "10.1021/ct100466k")]); ("bjm", [("a1", TNum (486434#1000000)); ("s8", TNum (672820#1000000)); ("a2", TNum (3656466#1000000)); ("s6", TNum (64#100)); ("doi", TStr "10.1021/acs.jpclett.6b00780")]); ("zerom", [("rs6", TNum (1313134#1000000)); ("s8", TNum (717543#1000000)); ("bet", TNum (16035#1000000)); ("s6", TNum (64#100)); ("doi", TStr "10.1021/acs.jpclett.6b00780")])]);
   ("dsdblyp", [("bj", [("a1", TNum (0#10000)); ("s8", TNum (2130#10000)); ("a2", TNum (60519#10000)); ("s6", TNum (50#100)); ("doi", TStr "10.1039/c0cp02984j")]); ("zero", [("rs6", TNum (1569#1000)); ("s8", TNum (705#1000)); ("s6", TNum (5#10)); ("doi", TStr "10.1021/ct100466k")])]);
   ("dsdblypfc", [("bj", [("a1", TNum (9#10000)); ("s8", TNum (2112#10000)); ("a2", TNum (59807#10000)); ("s6", TNum (50#100)); ("doi", TStr "10.1039/c0cp02984j")])]);
   ("dodscan66", [("bj", [("s6", TNum (3152#10000)); ("a1", TNum (0#10)); ("s8", TNum (0#10)); ("a2", TNum (575#100)); ("doi", TStr "10.1021/acs.jpca.9b03157")])]);
   ("revdsdblyp", [("bj", [("s6", TNum (5451#10000)); ("a1", TNum (0#10)); ("s8", TNum (0#10)); ("a2", TNum (52#10)); ("doi", TStr "10.1021/acs.jpca.9b03157")])]);
   ("revdsdpbep86", [("bj", [("s6", TNum (4377#10000)); ("a1", TNum (0#10)); ("s8", TNum (0#10)); ("a2", TNum (55#10)); ("doi", TStr "10.1021/acs.jpca.9b03157")])]);
   ("revdsdpbeb95", [("bj", [("s6", TNum (3686#10000)); ("a1", TNum (0#10)); ("s8", TNum (0#10)); ("a2", TNum (55#10)); ("doi", TStr "10.1021/acs.jpca.9b03157")])]);
   ("revdsdpbe", [("bj", [("s6", TNum (5746#10000)); ("a1", TNum (0#10)); ("s8", TNum (0#10)); ("a2", TNum (55#10)); ("doi", TStr "10.1021/acs.jpca.9b03157")])]);
   ("revdodblyp", [("bj", [("s6", TNum (6145#10000)); ("a1", TNum (0#10)); ("s8", TNum (0#10)); ("a2", TNum (52#10)); ("doi", TStr "10.1021/acs.jpca.9b03157")])]);
   ("revdodpbep86", [("bj", [("s6", TNum (4770#10000)); ("a1", TNum (0#10)); ("s8", TNum (0#10)); ("a2", TNum (55#10)); ("doi", TStr "10.1021/acs.jpca.9b03157")])]);
   ("revdodpbeb95", [("bj", [("s6", TNum (4107#10000)); ("a1", TNum (0#10)); ("s8", TNum (0#10)); ("a2", TNum (55#10)); ("doi", TStr "10.1021/acs.jpca.9b03157")])]);
   ("revdodpbe", [("bj", [("s6", TNum (6067#10000)); ("a1", TNum (0#10)); ("s8", TNum (0#10)); ("a2", TNum (55#10)); ("doi", TStr "10.1021/acs.jpca.9b03157")])]);
   ("bop", [("bj", [("a1", TNum (4870#10000)); ("s8", TNum (32950#10000)); ("a2", TNum (35043#10000)); ("doi", TStr "10.1039/c0cp02984j")])]);
   ("mpwlyp", [("bj", [("a1", TNum (4831#10000)); ("s8", TNum (20077#10000)); ("a2", TNum (45323#10000)); ("doi", TStr "10.1039/c0cp02984j")]); ("zero", [("rs6", TNum (1239#1000)); ("s8", TNum (1098#1000)); ("doi", TStr "10.1039/c0cp02984j")])]);
   ("olyp", [("bj", [("a1", TNum (5299#10000)); ("s8", TNum (26205#10000)); ("a2", TNum (28065#10000)); ("doi", TStr "10.1039/c0cp02984j")]); ("zero", [("rs6", TNum (806#1000)); ("s8", TNum (1764#1000)); ("doi", TStr "10.1039/c0cp02984j")])]);
   ("pbesol", [("bj", [("a1", TNum (4466#10000)); ("s8", TNum (29491#10000)); ("a2", TNum (61742#10000)); ("doi", TStr "10.1039/c0cp02984j")])]);
   ("bpbe", [("bj", [("a1", TNum (4567#10000)); ("s8", TNum (40728#10000)); ("a2", TNum (43908#10000)); ("doi", TStr "10.1039/c0cp02984j")]); ("zero", [("rs6", TNum (1087#1000)); ("s8", TNum (2033#1000)); ("doi", TStr "10.1039/c0cp02984j")])]);
   ("opbe", [("bj", [("a1", TNum (5512#10000)); ("s8", TNum (33816#10000)); ("a2", TNum (29444#10000)); ("doi", TStr "10.1039/c0cp02984j")]); ("zero", [("rs6", TNum (837#1000)); ("s8", TNum (2033#1000)); ("doi", TStr "10.1039/c0cp02984j")])]);
   ("ssb", [("bj", [("a1", TNum (-952#10000)); ("s8", TNum (-1744#10000)); ("a2", TNum (52170#10000)); ("doi", TStr "10.1039/c0cp02984j")]); ("zero", [("rs6", TNum (1215#1000)); ("s8", TNum (663#1000)); ("doi", TStr "10.1039/c0cp02984j")])]);
   ("revssb", [("bj", [("a1", TNum (4720#10000)); ("s8", TNum (4389#10000)); ("a2", TNum (40986#10000)); ("doi", TStr "10.1039/c0cp02984j")]); ("zero", [("rs6", TNum (1221#1000)); ("s8", TNum (560#1000)); ("doi", TStr "10.1039/c0cp02984j")])]);
   ("otpss", [("bj", [("a1", TNum (4634#10000)); ("s8", TNum (27495#10000)); ("a2", TNum (43153#10000)); ("doi", TStr "10.1039/c0cp02984j")]); ("zero", [("rs6", TNum (1128#1000)); ("s8", TNum (1494#1000)); ("doi", TStr "10.1039/c0cp02984j")])]);
   ("b3pw91", [("bj", [("a1", TNum (4312#10000)); ("s8", TNum (28524#10000)); ("a2", TNum (44693#10000)); ("doi", TStr "10.1039/c0cp02984j")]); ("zero", [("rs6", TNum (1176#1000)); ("s8", TNum (1775#1000)); ("doi", TStr "10.1039/c0cp02984j")])]);
   ("bhlyp", [("bj", [("a1", TNum (2793#10000)); ("s8", TNum (10354#10000)); ("a2", TNum (49615#10000)); ("doi", TStr "10.1039/c0cp02984j")]); ("zero", [("rs6", TNum (1370#1000)); ("s8", TNum (1442#1000)); ("doi", TStr "10.1039/c0cp02984j")])]);
   ("revpbe0", [("bj", [("a1", TNum (4679#10000)); ("s8", TNum (17588#10000)); ("a2", TNum (37619#10000)); ("doi", TStr "10.1039/c0cp02984j")]); ("op", [("s6", TNum (10#10)); ("s8", TNum (125684#100000)); ("a1", TNum (725#1000)); ("a2", TNum (225#100)); ("bet", TNum (0#10)); ("doi", TStr "10.1021/acs.jctc.7b00176")])]);
   ("tpssh", [("bj", [("a1", TNum (4529#10000)); ("s8", TNum (22382#10000)); ("a2", TNum (46550#10000)); ("doi", TStr "10.1039/c0cp02984j")]); ("zero", [("rs6", TNum (1223#1000)); ("s8", TNum (1219#1000)); ("doi", TStr "10.1039/c0cp02984j")]); ("op", [("s6", TNum (10#10)); ("s8", TNum (43185#100000)); ("a1", TNum (575#1000)); ("a2", TNum (300#100)); ("bet", TNum (80#10)); ("doi", TStr "10.1021/acs.jctc.7b00176")])]);
   ("mpw1b95", [("bj", [("a1", TNum (1955#10000)); ("s8", TNum (10508#10000)); ("a2", TNum (64177#10000)); ("doi", TStr "10.1039/c0cp02984j")]); ("zero", [("rs6", TNum (1605#1000)); ("s8", TNum (1118#1000)); ("doi", TStr "10.1039/c0cp02984j")])]);
   ("pwb6k", [("bj", [("a1", TNum (1805#10000)); ("s8", TNum (9383#10000)); ("a2", TNum (77627#10000)); ("doi", TStr "10.1039/c0cp02984j")]); ("zero", [("rs6", TNum (1660#1000)); ("s8", TNum (550#1000)); ("doi", TStr "10.1039/c0cp02984j")])]);
   ("b1b95", [("bj", [("a1", TNum (2092#10000)); ("s8", TNum (14507#10000)); ("a2", TNum (55545#10000)); ("doi", TStr "10.1039/c0cp02984j")]); ("zero", [("rs6", TNum (1613#1000)); ("s8", TNum (1868#1000)); ("doi", TStr "10.1039/c0cp02984j")])]);
   ("bmk", [("bj", [("a1", TNum (1940#10000)); ("s8", TNum (20860#10000)); ("a2", TNum (59197#10000)); ("doi", TStr "10.1039/c0cp02984j")]); ("zero", [("rs6", TNum (1931#1000)); ("s8", TNum (2168#1000)); ("doi", TStr "10.1039/c0cp02984j")])]);
   ("camb3lyp", [("bj", [("a1", TNum (3708#10000)); ("s8", TNum (20674#10000)); ("a2", TNum (54743#10000)); ("doi", TStr "10.1039/c0cp02984j")]); ("zero", [("rs6", TNum (1378#1000)); ("s8", TNum (1217#1000)); ("doi", TStr "10.1039/c0cp02984j")])]);
   ("lcwpbe", [("bj", [("a1", TNum (3919#10000)); ("s8", TNum (18541#10000)); ("a2", TNum (50897#10000)); ("doi", TStr "10.1039/c0cp02984j")]); ("zero", [("rs6", TNum (1355#1000)); ("s8", TNum (1279#1000)); ("doi", TStr "10.1039/c0cp02984j")]); ("bjm", [("a1", TNum (563761#1000000)); ("s8", TNum (906564#1000000)); ("a2", TNum (3593680#1000000)); ("doi", TStr "10.1021/acs.jpclett.6b00780")]); ("zerom", [("rs6", TNum (1366361#1000000)); ("s8", TNum (1280619#1000000)); ("bet", TNum (3160#1000000)); ("doi", TStr "10.1021/acs.jpclett.6b00780")])]);
   ("b2gpplyp", [("bj", [("a1", TNum (0#10000)); ("s8", TNum (2597#10000)); ("a2", TNum (63332#10000)); ("s6", TNum (560#1000)); ("doi", TStr "10.1039/c0cp02984j")]); ("zero", [("rs6", TNum (1586#1000)); ("s8", TNum (760#1000)); ("s6", TNum (56#100)); ("doi", TStr "10.1021/ct100466k")])]);
   ("ptpss", [("bj", [("a1", TNum (0#10000)); ("s8", TNum (2804#10000)); ("a2", TNum (65745#10000)); ("s6", TNum (750#1000)); ("doi", TStr "10.1039/c0cp02984j")]); ("zero", [("rs6", TNum (1541#1000)); ("s8", TNum (879#1000)); ("s6", TNum (75#100)); ("doi", TStr "10.1021/ct100466k")])]);
   ("pwpb95", [("bj", [("a1", TNum (0#10000)); ("s8", TNum (2904#10000)); ("a2", TNum (73141#10000)); ("s6", TNum (820#1000)); ("doi", TStr "10.1039/c0cp02984j")]); ("zero", [("rs6", TNum (1557#1000)); ("s8", TNum (705#1000)); ("s6", TNum (82#100)); ("doi", TStr "10.1021/ct100466k")])]);
   ("hf_mixed", [("bj", [("a1", TNum (5607#10000)); ("s8", TNum (39027#10000)); ("a2", TNum (45622#10000)); ("doi", TStr "10.1063/1.3700154")])]);
   ("hf_sv", [("bj", [("a1", TNum (4249#10000)); ("s8", TNum (21849#10000)); ("a2", TNum (42783#10000)); ("doi", TStr "10.1063/1.3700154")])]);
   ("hf_minis", [("bj", [("a1", TNum (1702#10000)); ("s8", TNum (9841#10000)); ("a2", TNum (38506#10000)); ("doi", TStr "10.1063/1.3700154")])]);
   ("b3lyp_631gd", [("bj", [("a1", TNum (5014#10000)); ("s8", TNum (40672#10000)); ("a2", TNum (48409#10000)); ("doi", TStr "10.1063/1.3700154")])]);
   ("hcth120", [("bj", [("a1", TNum (3563#10000)); ("s8", TNum (10821#10000)); ("a2", TNum (43359#10000))])]);
   ("dftb3", [("bj", [("a1", TNum (5719#10000)); ("s8", TNum (5883#10000)); ("a2", TNum (36017#10000))])]);
   ("pw1pw", [("bj", [("a1", TNum (3807#10000)); ("s8", TNum (23363#10000)); ("a2", TNum (58844#10000)); ("doi", TStr "10.1039/c7cp04913g")]); ("zero", [("rs6", TNum (14968#10000)); ("s8", TNum (11786#10000)); ("doi", TStr "10.1039/c7cp04913g")])]);
   ("pwgga", [("bj", [("a1", TNum (2211#10000)); ("s8", TNum (26910#10000)); ("a2", TNum (67278#10000))])]);
   ("hsesol", [("bj", [("a1", TNum (4650#10000)); ("s8", TNum (29215#10000)); ("a2", TNum (62003#10000))])]);
   ("hf3c", [("bj", [("a1", TNum (4171#10000)); ("s8", TNum (8777#10000)); ("a2", TNum (29149#10000)); ("doi", TStr "10.1002/jcc.23317")])]);
   ("hf3cv", [("bj", [("a1", TNum (3063#10000)); ("s8", TNum (5022#10000)); ("a2", TNum (39856#10000)); ("doi", TStr "10.1002/jcc.23317")])]);
   ("pbeh3c", [("bj", [("a1", TNum (4860#10000)); ("s8", TNum (0#10000)); ("a2", TNum (45000#10000)); ("doi", TStr "10.1063/1.4927476")])]);
   ("scan", [("bj", [("a1", TNum (5380#10000)); ("s8", TNum (0#10000)); ("a2", TNum (54200#10000)); ("doi", TStr "10.1103/physrevb.94.115144")]); ("zero", [("rs6", TNum (1324#1000)); ("s8", TNum (0#1000)); ("doi", TStr "10.1103/physrevb.94.115144")])]);
   ("rscan", [("bj", [("a1", TNum (47023427#100000000)); ("s8", TNum (108859014#100000000)); ("a2", TNum (573408312#100000000)); ("doi", TStr "10.1063/5.0041008")])]);
   ("r2scan", [("bj", [("a1", TNum (49484001#100000000)); ("s8", TNum (78981345#100000000)); ("a2", TNum (573083694#100000000)); ("doi", TStr "10.1063/5.0041008")])]);
   ("r2scanh", [("bj", [("s8", TNum (11236#10000)); ("a1", TNum (4709#10000)); ("a2", TNum (59157#10000)); ("doi", TStr "10.1063/5.0086040")])]);
   ("r2scan0", [("bj", [("s8", TNum (11846#10000)); ("a1", TNum (4534#10000)); ("a2", TNum (58972#10000)); ("doi", TStr "10.1063/5.0086040")])]);
   ("r2scan50", [("bj", [("s8", TNum (13294#10000)); ("a1", TNum (4311#10000)); ("a2", TNum (59240#10000)); ("doi", TStr "10.1063/5.0086040")])]);
   ("wb97x", [("bj", [("a1", TNum (0#10000)); ("s8", TNum (2641#10000)); ("a2", TNum (54959#10000))]); ("zero", [("rs6", TNum (1281#1000)); ("s8", TNum (10#10)); ("rs8", TNum (1094#1000)); ("doi", TStr "10.1021/ct300715s")])]);
   ("wb97m", [("bj", [("a1", TNum (5660#10000)); ("s8", TNum (3908#10000)); ("a2", TNum (31280#10000)); ("doi", TStr "10.1021/acs.jctc.8b00842")])]);
   ("b97m", [("bj", [("a1", TNum (-780#10000)); ("s8", TNum (1384#10000)); ("a2", TNum (55946#10000)); ("doi", TStr "10.1021/acs.jctc.8b00842")])]);
   ("pbehpbe", [("bj", [("a1", TNum (0#10000)); ("s8", TNum (11152#10000)); ("a2", TNum (67184#10000)); ("doi", TStr "10.1039/c7cp04913g")]); ("zero", [("rs6", TNum (15703#10000)); ("s8", TNum (14010#10000)); ("doi", TStr "10.1039/c7cp04913g")])]);
   ("xlyp", [("bj", [("a1", TNum (809#10000)); ("s8", TNum (15669#10000)); ("a2", TNum (53166#10000)); ("doi", TStr "10.1039/c7cp04913g")]); ("zero", [("rs6", TNum (9384#10000)); ("s8", TNum (7447#10000)); ("doi", TStr "10.1039/c7cp04913g")])]);
   ("mpwpw", [("bj", [("a1", TNum (3168#10000)); ("s8", TNum (17974#10000)); ("a2", TNum (47732#10000)); ("doi", TStr "10.1039/c7cp04913g")]); ("zero", [("rs6", TNum (13725#10000)); ("s8", TNum (19467#10000)); ("doi", TStr "10.1039/c7cp04913g")])]);
   ("hcth407", [("bj", [("a1", TNum (0#10000)); ("s8", TNum (6490#10000)); ("a2", TNum (48162#10000)); ("doi", TStr "10.1039/c7cp04913g")]); ("zero", [("rs6", TNum (40426#10000)); ("s8", TNum (27694#10000)); ("doi", TStr "10.1039/c7cp04913g")])]);
   ("revtpss", [("bj", [("a1", TNum (4326#10000)); ("s8", TNum (14023#10000)); ("a2", TNum (44723#10000)); ("doi", TStr "10.1039/c7cp04913g")]); ("zero", [("rs6", TNum (13491#10000)); ("s8", TNum (13666#10000)); ("doi", TStr "10.1039/c7cp04913g")]); ("op", [("s6", TNum (10#10)); ("s8", TNum (27632#100000)); ("a1", TNum (700#1000)); ("a2", TNum (2500#1000)); ("bet", TNum (80#10)); ("doi", TStr "10.1021/acs.jctc.7b00176")])]);
   ("tauhcth", [("bj", [("a1", TNum (0#10000)); ("s8", TNum (12626#10000)); ("a2", TNum (56162#10000)); ("doi", TStr "10.1039/c7cp04913g")]); ("zero", [("rs6", TNum (9320#10000)); ("s8", TNum (5662#10000)); ("doi", TStr "10.1039/c7cp04913g")])]);
   ("b3p", [("bj", [("a1", TNum (4601#10000)); ("s8", TNum (33211#10000)); ("a2", TNum (49858#10000)); ("doi", TStr "10.1039/c7cp04913g")]); ("zero", [("rs6", TNum (11897#10000)); ("s8", TNum (11961#10000)); ("doi", TStr "10.1039/c7cp04913g")])]);
   ("b1p", [("bj", [("a1", TNum (4724#10000)); ("s8", TNum (35681#10000)); ("a2", TNum (49858#10000)); ("doi", TStr "10.1039/c7cp04913g")]); ("zero", [("rs6", TNum (11815#10000)); ("s8", TNum (11209#10000)); ("doi", TStr "10.1039/c7cp04913g")])]);
   ("b1lyp", [("bj", [("a1", TNum (1986#10000)); ("s8", TNum (21167#10000)); ("a2", TNum (53875#10000)); ("doi", TStr "10.1039/c7cp04913g")]); ("zero", [("rs6", TNum (13725#10000)); ("s8", TNum (19467#10000)); ("doi", TStr "10.1039/c7cp04913g")])]);
   ("mpwb1k", [("bj", [("a1", TNum (1474#10000)); ("s8", TNum (9499#10000)); ("a2", TNum (66223#10000)); ("doi", TStr "10.1039/c0cp02984j")]); ("zero", [("rs6", TNum (1671#1000)); ("s8", TNum (1061#1000)); ("doi", TStr "10.1039/c0cp02984j")])]);
   ("mpw1lyp", [("zero", [("rs6", TNum (20512#10000)); ("s8", TNum (19529#10000)); ("doi", TStr "10.1039/c7cp04913g")])]);
   ("mpw1pw", [("bj", [("a1", TNum (3342#10000)); ("s8", TNum (18744#10000)); ("a2", TNum (49819#10000)); ("doi", TStr "10.1039/c7cp04913g")]); ("zero", [("rs6", TNum (12892#10000)); ("s8", TNum (14758#10000)); ("doi", TStr "10.1039/c7cp04913g")])]);
   ("mpw1kcis", [("bj", [("a1", TNum (576#10000)); ("s8", TNum (10893#10000)); ("a2", TNum (55314#10000)); ("doi", TStr "10.1039/c7cp04913g")]); ("zero", [("rs6", TNum (17231#10000)); ("s8", TNum (22917#10000)); ("doi", TStr "10.1039/c7cp04913g")])]);
   ("mpwkcis1k", [("zero", [("rs6", TNum (14853#10000)); ("s8", TNum (17553#10000)); ("doi", TStr "10.1039/c7cp04913g")])]);
   ("pbeh1pbe", [("bj", [("a1", TNum (0#10000)); ("s8", TNum (14877#10000)); ("a2", TNum (70385#10000)); ("doi", TStr "10.1039/c7cp04913g")]); ("zero", [("rs6", TNum (13719#10000)); ("s8", TNum (10430#10000)); ("doi", TStr "10.1039/c7cp04913g")])]);
   ("pbe1kcis", [("bj", [("a1", TNum (0#10000)); ("s8", TNum (7688#10000)); ("a2", TNum (62794#10000)); ("doi", TStr "10.1039/c7cp04913g")]); ("zero", [("rs6", TNum (36355#10000)); ("s8", TNum (17934#10000)); ("doi", TStr "10.1039/c7cp04913g")])]);
   ("x3lyp", [("bj", [("a1", TNum (2022#10000)); ("s8", TNum (15744#10000)); ("a2", TNum (54184#10000)); ("doi", TStr "10.1039/c7cp04913g")]); ("zero", [("rs6", TNum (10#10)); ("s8", TNum (2990#10000)); ("doi", TStr "10.1039/c7cp04913g")])]);
   ("o3lyp", [("bj", [("a1", TNum (963#10000)); ("s8", TNum (18171#10000)); ("a2", TNum (59940#10000)); ("doi", TStr "10.1039/c7cp04913g")]); ("zero", [("rs6", TNum (14060#10000)); ("s8", TNum (18058#10000)); ("doi", TStr "10.1039/c7cp04913g")])]);
   ("b97_1", [("bj", [("a1", TNum (0#10000)); ("s8", TNum (4814#10000)); ("a2", TNum (62279#10000)); ("doi", TStr "10.1039/c7cp04913g")]); ("zero", [("rs6", TNum (37924#10000)); ("s8", TNum (16418#10000)); ("doi", TStr "10.1039/c7cp04913g")]); ("op", [("s6", TNum (97388#100000)); ("s8", TNum (0#10)); ("a1", TNum (150#1000)); ("a2", TNum (425#100)); ("bet", TNum (60#10)); ("doi", TStr "10.1021/acs.jctc.7b00176")])]);
   ("b97_2", [("bj", [("a1", TNum (0#10000)); ("s8", TNum (9448#10000)); ("a2", TNum (59940#10000)); ("doi", TStr "10.1039/c7cp04913g")]); ("zero", [("rs6", TNum (17066#10000)); ("s8", TNum (16418#10000)); ("doi", TStr "10.1039/c7cp04913g")])]);
   ("b98", [("bj", [("a1", TNum (0#10000)); ("s8", TNum (7086#10000)); ("a2", TNum (60672#10000)); ("doi", TStr "10.1039/c7cp04913g")]); ("zero", [("rs6", TNum (26895#10000)); ("s8", TNum (19078#10000)); ("doi", TStr "10.1039/c7cp04913g")])]);
   ("hiss", [("bj", [("a1", TNum (0#10000)); ("s8", TNum (16112#10000)); ("a2", TNum (73539#10000)); ("doi", TStr "10.1039/c7cp04913g")]); ("zero", [("rs6", TNum (13338#10000)); ("s8", TNum (7615#10000)); ("doi", TStr "10.1039/c7cp04913g")])]);
   ("hse03", [("bj", [("a1", TNum (0#10000)); ("s8", TNum (11243#10000)); ("a2", TNum (68889#10000)); ("doi", TStr "10.1039/c7cp04913g")]); ("zero", [("rs6", TNum (13944#10000)); ("s8", TNum (10156#10000)); ("doi", TStr "10.1039/c7cp04913g")])]);
   ("revtpssh", [("bj", [("a1", TNum (2660#10000)); ("s8", TNum (14076#10000)); ("a2", TNum (53761#10000)); ("doi", TStr "10.1039/c7cp04913g")]); ("zero", [("rs6", TNum (13224#10000)); ("s8", TNum (12504#10000)); ("doi", TStr "10.1039/c7cp04913g")]); ("op", [("s6", TNum (10#10)); ("s8", TNum (12467#100000)); ("a1", TNum (575#1000)); ("a2", TNum (3000#1000)); ("bet", TNum (100#10)); ("doi", TStr "10.1021/acs.jctc.7b00176")])]);
   ("revtpss0", [("bj", [("a1", TNum (2218#10000)); ("s8", TNum (16151#10000)); ("a2", TNum (57985#10000)); ("doi", TStr "10.1039/c7cp04913g")]); ("zero", [("rs6", TNum (12881#10000)); ("s8", TNum (10649#10000)); ("doi", TStr "10.1039/c7cp04913g")])]);
   ("tpss1kcis", [("bj", [("a1", TNum (0#10000)); ("s8", TNum (10542#10000)); ("a2", TNum (60201#10000)); ("doi", TStr "10.1039/c7cp04913g")]); ("zero", [("rs6", TNum (17729#10000)); ("s8", TNum (20902#10000)); ("doi", TStr "10.1039/c7cp04913g")])]);
   ("tauhcthhyb", [("bj", [("a1", TNum (0#10000)); ("s8", TNum (9585#10000)); ("a2", TNum (101389#10000)); ("doi", TStr "10.1039/c7cp04913g")]); ("zero", [("rs6", TNum (15001#10000)); ("s8", TNum (16302#10000)); ("doi", TStr "10.1039/c7cp04913g")])]);
   ("m11", [("bj", [("a1", TNum (0#10000)); ("s8", TNum (28112#10000)); ("a2", TNum (101389#10000)); ("doi", TStr "10.1021/acs.jpclett.5b01591")])]);
   ("sogga11x", [("bj", [("a1", TNum (1330#10000)); ("s8", TNum (11426#10000)); ("a2", TNum (57381#10000)); ("doi", TStr "10.1021/acs.jpclett.5b01591")])]);
   ("pkzb", [("zero", [("rs6", TNum (6327#10000)); ("s8", TNum (0#10)); ("doi", TStr "10.1039/c7cp04913g")])]);
   ("n12", [("zero", [("rs6", TNum (13493#10000)); ("s8", TNum (23916#10000)); ("doi", TStr "10.1039/c7cp04913g")])]);
   ("n12sx", [("bj", [("a1", TNum (3283#10000)); ("s8", TNum (24900#10000)); ("a2", TNum (57898#10000)); ("doi", TStr "10.1021/acs.jpclett.5b01591")])]);
   ("mn12sx", [("bj", [("a1", TNum (983#10000)); ("s8", TNum (11674#10000)); ("a2", TNum (80259#10000)); ("doi", TStr "10.1021/acs.jpclett.5b01591")])]);
   ("mn12l", [("bj", [("a1", TNum (0#10000)); ("s8", TNum (22674#10000)); ("a2", TNum (91494#10000)); ("doi", TStr "10.1021/acs.jpclett.5b01591")])]);
   ("mn15", [("bj", [("a1", TNum (20971#10000)); ("s8", TNum (7862#10000)); ("a2", TNum (75923#10000)); ("doi", TStr "10.1039/c7cp04913g")])]);
   ("lc_whpbe", [("bj", [("a1", TNum (2746#10000)); ("s8", TNum (11908#10000)); ("a2", TNum (53157#10000)); ("doi", TStr "10.1039/c7cp04913g")])]);
   ("mpw2plyp", [("bj", [("s6", TNum (66#100)); ("a1", TNum (4105#10000)); ("s8", TNum (6223#10000)); ("a2", TNum (50136#10000)); ("doi", TStr "10.1039/c7cp04913g")]); ("zero", [("s6", TNum (66#100)); ("rs6", TNum (15527#10000)); ("s8", TNum (7529#10000)); ("doi", TStr "10.1039/c7cp04913g")])]);
   ("ms2", [("op", [("s6", TNum (10#10)); ("s8", TNum (90743#100000)); ("a1", TNum (700#1000)); ("a2", TNum (400#100)); ("bet", TNum (20#10)); ("doi", TStr "10.1021/acs.jctc.7b00176")])]);
   ("ms2h", [("op", [("s6", TNum (10#10)); ("s8", TNum (169464#100000)); ("a1", TNum (650#1000)); ("a2", TNum (475#100)); ("bet", TNum (0#10)); ("doi", TStr "10.1021/acs.jctc.7b00176")])]);
   ("m05", [("zero", [("rs6", TNum (1373#1000)); ("s8", TNum (595#1000)); ("doi", TStr "10.1039/c0cp02984j")])]);
   ("m052x", [("zero", [("rs6", TNum (1417#1000)); ("s8", TNum (0#1000)); ("doi", TStr "10.1039/c0cp02984j")])]);
   ("m06l", [("zero", [("rs6", TNum (1581#1000)); ("s8", TNum (0#1000)); ("doi", TStr "10.1039/c0cp02984j")])]);
   ("m06", [("zero", [("rs6", TNum (1325#1000)); ("s8", TNum (0#1000)); ("doi", TStr "10.1039/c0cp02984j")])]);
   ("m062x", [("zero", [("rs6", TNum (1619#1000)); ("s8", TNum (0#1000)); ("doi", TStr "10.1039/c0cp02984j")])]);
   ("m08hx", [("zero", [("rs6", TNum (16247#10000)); ("s8", TNum (0#10)); ("doi", TStr "10.1039/c7cp04913g")])]);
   ("m11l", [("zero", [("rs6", TNum (23933#10000)); ("s8", TNum (11129#10000)); ("doi", TStr "10.1021/acs.jpclett.5b01591")])]);
   ("mn15l", [("zero", [("rs6", TNum (33388#10000)); ("s8", TNum (0#10)); ("doi", TStr "10.1039/c7cp04913g")])]);
   ("pwp", [("zero", [("rs6", TNum (21040#10000)); ("s8", TNum (8747#10000)); ("doi", TStr "10.1039/c7cp04913g")])]);
   ("pw91", [("bj", [("a1", TNum (6319#10000)); ("s8", TNum (19598#10000)); ("a2", TNum (45718#10000)); ("doi", TStr "10.1073/pnas.1516984112")])]);
   ("drpa75", [("bj", [("s6", TNum (3754#10000)); ("a1", TNum (0#10)); ("s8", TNum (0#10)); ("a2", TNum (45048#10000)); ("doi", TStr "10.1039/c6cp00688d")])]);
   ("scsdrpa75", [("bj", [("s6", TNum (2528#10000)); ("a1", TNum (0#10)); ("s8", TNum (0#10)); ("a2", TNum (45050#10000)); ("doi", TStr "10.1021/acs.jpca.1c01295")])]);
   ("optscsdrpa75", [("bj", [("s6", TNum (2546#10000)); ("a1", TNum (0#10)); ("s8", TNum (0#10)); ("a2", TNum (45050#10000)); ("doi", TStr "10.1021/acs.jpca.1c01295")])]);
   ("dsdpbedrpa75", [("bj", [("s6", TNum (3223#10000)); ("a1", TNum (0#10)); ("s8", TNum (0#10)); ("a2", TNum (45050#10000)); ("doi", TStr "10.1021/acs.jpca.1c01295")])]);
   ("dsdpbep86drpa75", [("bj", [("s6", TNum (3012#10000)); ("a1", TNum (0#10)); ("s8", TNum (0#10)); ("a2", TNum (45050#10000)); ("doi", TStr "10.1021/acs.jpca.1c01295")])]);
   ("dsdpbep86_2011", [("bj", [("s6", TNum (418#1000)); ("a1", TNum (0#10)); ("s8", TNum (0#10)); ("a2", TNum (565#100)); ("doi", TStr "10.1039/c1cp22592h")])]);
   ("dsdsvwn5", [("bj", [("s6", TNum (46#100)); ("a1", TNum (0#10)); ("s8", TNum (0#10)); ("a2", TNum (56#10)); ("doi", TStr "10.1002/jcc.23391")])]);
   ("dsdsp86", [("bj", [("s6", TNum (30#100)); ("a1", TNum (0#10)); ("s8", TNum (0#10)); ("a2", TNum (58#10)); ("doi", TStr "10.1002/jcc.23391")])]);
   ("dsdslyp", [("bj", [("s6", TNum (30#100)); ("a1", TNum (0#10)); ("s8", TNum (0#10)); ("a2", TNum (56#10)); ("doi", TStr "10.1002/jcc.23391")])]);
   ("dsdspbe", [("bj", [("s6", TNum (40#100)); ("a1", TNum (0#10)); ("s8", TNum (0#10)); ("a2", TNum (60#10)); ("doi", TStr "10.1002/jcc.23391")])]);
   ("dsdbvwn5", [("bj", [("s6", TNum (61#100)); ("a1", TNum (0#10)); ("s8", TNum (0#10)); ("a2", TNum (52#10)); ("doi", TStr "10.1002/jcc.23391")])]);
   ("dsdblyp_2013", [("bj", [("s6", TNum (57#100)); ("a1", TNum (0#10)); ("s8", TNum (0#10)); ("a2", TNum (54#10)); ("doi", TStr "10.1002/jcc.23391")])]);
   ("dsdbpbe", [("bj", [("s6", TNum (122#100)); ("a1", TNum (0#10)); ("s8", TNum (0#10)); ("a2", TNum (66#10)); ("doi", TStr "10.1002/jcc.23391")])]);
   ("dsdbp86", [("bj", [("s6", TNum (76#100)); ("a1", TNum (0#10)); ("s8", TNum (0#10)); ("a2", TNum (60#10)); ("doi", TStr "10.1002/jcc.23391")])]);
   ("dsdbpw91", [("bj", [("s6", TNum (114#100)); ("a1", TNum (0#10)); ("s8", TNum (0#10)); ("a2", TNum (65#10)); ("doi", TStr "10.1002/jcc.23391")])]);
   ("dsdbb95", [("bj", [("s6", TNum (102#100)); ("a1", TNum (0#10)); ("s8", TNum (0#10)); ("a2", TNum (68#10)); ("doi", TStr "10.1002/jcc.23391")])]);
   ("dsdpbevwn5", [("bj", [("s6", TNum (54#100)); ("a1", TNum (0#10)); ("s8", TNum (0#10)); ("a2", TNum (51#10)); ("doi", TStr "10.1002/jcc.23391")])]);
   ("dsdpbelyp", [("bj", [("s6", TNum (43#100)); ("a1", TNum (0#10)); ("s8", TNum (0#10)); ("a2", TNum (52#10)); ("doi", TStr "10.1002/jcc.23391")])]);
   ("dsdpbe", [("bj", [("s6", TNum (78#100)); ("a1", TNum (0#10)); ("s8", TNum (0#10)); ("a2", TNum (61#10)); ("doi", TStr "10.1002/jcc.23391")])]);
   ("dsdpbep86", [("bj", [("s6", TNum (48#100)); ("a1", TNum (0#10)); ("s8", TNum (0#10)); ("a2", TNum (56#10)); ("doi", TStr "10.1002/jcc.23391")])]);
   ("dsdpbepw91", [("bj", [("s6", TNum (73#100)); ("a1", TNum (0#10)); ("s8", TNum (0#10)); ("a2", TNum (60#10)); ("doi", TStr "10.1002/jcc.23391")])]);
   ("dsdpbeb95", [("bj", [("s6", TNum (61#100)); ("a1", TNum (0#10)); ("s8", TNum (0#10)); ("a2", TNum (62#10)); ("doi", TStr "10.1002/jcc.23391")])]);
   ("dsdpbehb95", [("bj", [("s6", TNum (58#100)); ("a1", TNum (0#10)); ("s8", TNum (0#10)); ("a2", TNum (62#10)); ("doi", TStr "10.1002/jcc.23391")])]);
   ("dsdpbehp86", [("bj", [("s6", TNum (46#100)); ("a1", TNum (0#10)); ("s8", TNum (0#10)); ("a2", TNum (56#10)); ("doi", TStr "10.1002/jcc.23391")])]);
   ("dsdmpwlyp", [("bj", [("s6", TNum (48#100)); ("a1", TNum (0#10)); ("s8", TNum (0#10)); ("a2", TNum (53#10)); ("doi", TStr "10.1002/jcc.23391")])]);
   ("dsdmpwpw91", [("bj", [("s6", TNum (90#100)); ("a1", TNum (0#10)); ("s8", TNum (0#10)); ("a2", TNum (62#10)); ("doi", TStr "10.1002/jcc.23391")])]);
   ("dsdmpwp86", [("bj", [("s6", TNum (59#100)); ("a1", TNum (0#10)); ("s8", TNum (0#10)); ("a2", TNum (58#10)); ("doi", TStr "10.1002/jcc.23391")])]);
   ("dsdmpwpbe", [("bj", [("s6", TNum (96#100)); ("a1", TNum (0#10)); ("s8", TNum (0#10)); ("a2", TNum (63#10)); ("doi", TStr "10.1002/jcc.23391")])]);
   ("dsdmpwb95", [("bj", [("s6", TNum (82#100)); ("a1", TNum (0#10)); ("s8", TNum (0#10)); ("a2", TNum (66#10)); ("doi", TStr "10.1002/jcc.23391")])]);
   ("dsdhsepbe", [("bj", [("s6", TNum (79#100)); ("a1", TNum (0#10)); ("s8", TNum (0#10)); ("a2", TNum (61#10)); ("doi", TStr "10.1002/jcc.23391")])]);
   ("dsdhsepw91", [("bj", [("s6", TNum (74#100)); ("a1", TNum (0#10)); ("s8", TNum (0#10)); ("a2", TNum (60#10)); ("doi", TStr "10.1002/jcc.23391")])]);
   ("dsdhsep86", [("bj", [("s6", TNum (46#100)); ("a1", TNum (0#10)); ("s8", TNum (0#10)); ("a2", TNum (56#10)); ("doi", TStr "10.1002/jcc.23391")])]);
   ("dsdhselyp", [("bj", [("s6", TNum (40#100)); ("a1", TNum (0#10)); ("s8", TNum (0#10)); ("a2", TNum (52#10)); ("doi", TStr "10.1002/jcc.23391")])]);
   ("dsdtpss", [("bj", [("s6", TNum (72#100)); ("a1", TNum (0#10)); ("s8", TNum (0#10)); ("a2", TNum (65#10)); ("doi", TStr "10.1002/jcc.23391")])]);
   ("dsdtpssb95", [("bj", [("s6", TNum (91#100)); ("a1", TNum (0#10)); ("s8", TNum (0#10)); ("a2", TNum (79#10)); ("doi", TStr "10.1002/jcc.23391")])]);
   ("dsdolyp", [("bj", [("s6", TNum (93#100)); ("a1", TNum (0#10)); ("s8", TNum (0#10)); ("a2", TNum (58#10)); ("doi", TStr "10.1002/jcc.23391")])]);
   ("dsdxlyp", [("bj", [("s6", TNum (51#100)); ("a1", TNum (0#10)); ("s8", TNum (0#10)); ("a2", TNum (53#10)); ("doi", TStr "10.1002/jcc.23391")])]);
   ("dsdxb95", [("bj", [("s6", TNum (92#100)); ("a1", TNum (0#10)); ("s8", TNum (0#10)); ("a2", TNum (67#10)); ("doi", TStr "10.1002/jcc.23391")])]);
   ("dsdb98", [("bj", [("s6", TNum (7#100)); ("a1", TNum (0#10)); ("s8", TNum (0#10)); ("a2", TNum (37#10)); ("doi", TStr "10.1002/jcc.23391")])]);
   ("dsdbmk", [("bj", [("s6", TNum (17#100)); ("a1", TNum (0#10)); ("s8", TNum (0#10)); ("a2", TNum (39#10)); ("doi", TStr "10.1002/jcc.23391")])]);
   ("dsdthcth", [("bj", [("s6", TNum (39#100)); ("a1", TNum (0#10)); ("s8", TNum (0#10)); ("a2", TNum (48#10)); ("doi", TStr "10.1002/jcc.23391")])]);
   ("dsdhcth407", [("bj", [("s6", TNum (53#100)); ("a1", TNum (0#10)); ("s8", TNum (0#10)); ("a2", TNum (50#10)); ("doi", TStr "10.1002/jcc.23391")])]);
   ("dodsvwn5", [("bj", [("s6", TNum (57#100)); ("a1", TNum (0#10)); ("s8", TNum (0#10)); ("a2", TNum (56#10)); ("doi", TStr "10.1002/jcc.23391")])]);
   ("dodblyp", [("bj", [("s6", TNum (96#100)); ("a1", TNum (0#10)); ("s8", TNum (0#10)); ("a2", TNum (51#10)); ("doi", TStr "10.1002/jcc.23391")])]);
   ("dodpbe", [("bj", [("s6", TNum (91#100)); ("a1", TNum (0#10)); ("s8", TNum (0#10)); ("a2", TNum (59#10)); ("doi", TStr "10.1002/jcc.23391")])]);
   ("dodpbep86", [("bj", [("s6", TNum (72#100)); ("a1", TNum (0#10)); ("s8", TNum (0#10)); ("a2", TNum (54#10)); ("doi", TStr "10.1002/jcc.23391")])]);
   ("dodpbeb95", [("bj", [("s6", TNum (71#100)); ("a1", TNum (0#10)); ("s8", TNum (0#10)); ("a2", TNum (60#10)); ("doi", TStr "10.1002/jcc.23391")])]);
   ("dodhsep86", [("bj", [("s6", TNum (69#100)); ("a1", TNum (0#10)); ("s8", TNum (0#10)); ("a2", TNum (54#10)); ("doi", TStr "10.1002/jcc.23391")])]);
   ("dodpbehb95", [("bj", [("s6", TNum (67#100)); ("a1", TNum (0#10)); ("s8", TNum (0#10)); ("a2", TNum (60#10)); ("doi", TStr "10.1002/jcc.23391")])]);
   ("cf22d", [("zero", [("rs6", TNum (153#100)); ("doi", TStr "10.1038/s43588-022-00371-5")])])].

(** d4.toml, [default] d4: list of variants. *)
Definition d4_default_variants : list string := ["bj-eeq-atm"].
(** d4.toml, [default.parameter] d4.* *)
Definition d4_default_blocks : list (string * list (string * tval)) :=
  [("bj-eeq-two", [("s6", TNum (10#10)); ("s9", TNum (0#10)); ("alp", TNum (160#10)); ("damping", TStr "bj"); ("mbd", TStr "none")]);
   ("bj-eeq-atm", [("s6", TNum (10#10)); ("s9", TNum (10#10)); ("alp", TNum (160#10)); ("damping", TStr "bj"); ("mbd", TStr "approx-atm")]);
   ("bj-eeq-xct", [("s6", TNum (10#10)); ("s9", TNum (10#10)); ("alp", TNum (160#10)); ("damping", TStr "bj"); ("mbd", TStr "exact-atm")]);
   ("bj-eeq-mbd", [("s6", TNum (10#10)); ("s9", TNum (10#10)); ("alp", TNum (160#10)); ("damping", TStr "bj"); ("mbd", TStr "rpa-like")])].
(** d4.toml, [parameter.<functional>] d4.<variant> *)
Definition d4_functionals : list (string * list (string * list (string * tval))) :=
  [("am05", [("bj-eeq-atm", [("s8", TNum (171885838#100000000)); ("a1", TNum (47901431#100000000)); ("a2", TNum (596771581#100000000))])]);
   ("b1b95", [("bj-eeq-atm", [("s8", TNum (127701162#100000000)); ("a1", TNum (40554715#100000000)); ("a2", TNum (463323074#100000000)); ("doi", TStr "10.1063/1.5090222")]); ("bj-eeq-mbd", [("s8", TNum (119549420#100000000)); ("a1", TNum (39241474#100000000)); ("a2", TNum (460397611#100000000)); ("doi", TStr "10.1063/1.5090222")])]);
   ("b1lyp", [("bj-eeq-atm", [("s8", TNum (198553711#100000000)); ("a1", TNum (39309040#100000000)); ("a2", TNum (455465145#100000000)); ("doi", TStr "10.1063/1.5090222")]); ("bj-eeq-mbd", [("s8", TNum (194609514#100000000)); ("a1", TNum (38643351#100000000)); ("a2", TNum (454135968#100000000)); ("doi", TStr "10.1063/1.5090222")])]);
   ("b1p", [("bj-eeq-atm", [("s8", TNum (336115015#100000000)); ("a1", TNum (48665293#100000000)); ("a2", TNum (505219572#100000000)); ("doi", TStr "10.1063/1.5090222")]); ("bj-eeq-mbd", [("s8", TNum (338693011#100000000)); ("a1", TNum (48478615#100000000)); ("a2", TNum (504361224#100000000)); ("doi", TStr "10.1063/1.5090222")])]);
   ("b1pw", [("bj-eeq-atm", [("s8", TNum (302227550#100000000)); ("a1", TNum (47396846#100000000)); ("a2", TNum (449845309#100000000)); ("doi", TStr "10.1063/1.5090222")]); ("bj-eeq-mbd", [("s8", TNum (298402204#100000000)); ("a1", TNum (46862950#100000000)); ("a2", TNum (448637849#100000000)); ("doi", TStr "10.1063/1.5090222")])]);
   ("b2gpplyp", [("bj-eeq-atm", [("s6", TNum (5600#10000)); ("s8", TNum (94633372#100000000)); ("a1", TNum (42907301#100000000)); ("a2", TNum (518802602#100000000)); ("doi", TStr "10.1063/1.5090222")]); ("bj-eeq-mbd", [("s6", TNum (5600#10000)); ("s8", TNum (100494214#100000000)); ("a1", TNum (42447353#100000000)); ("a2", TNum (519461329#100000000)); ("doi", TStr "10.1063/1.5090222")])]);
   ("b2plyp", [("bj-eeq-atm", [("s6", TNum (6400#10000)); ("s8", TNum (116888646#100000000)); ("a1", TNum (44154604#100000000)); ("a2", TNum (473114642#100000000)); ("doi", TStr "10.1063/1.5090222")]); ("bj-eeq-mbd", [("s6", TNum (6400#10000)); ("s8", TNum (115117773#100000000)); ("a1", TNum (42666167#100000000)); ("a2", TNum (473635790#100000000)); ("doi", TStr "10.1063/1.5090222")])]);
   ("b3lyp", [("bj-eeq-atm", [("s8", TNum (202929367#100000000)); ("a1", TNum (40868035#100000000)); ("a2", TNum (453807137#100000000)); ("doi", TStr "10.1063/1.5090222")]); ("bj-eeq-mbd", [("s8", TNum (200246246#100000000)); ("a1", TNum (40276191#100000000)); ("a2", TNum (452778320#100000000)); ("doi", TStr "10.1063/1.5090222")])]);
   ("b3p", [("bj-eeq-atm", [("s8", TNum (308822155#100000000)); ("a1", TNum (47324238#100000000)); ("a2", TNum (498682134#100000000)); ("doi", TStr "10.1063/1.5090222")]); ("bj-eeq-mbd", [("s8", TNum (314456298#100000000)); ("a1", TNum (47187947#100000000)); ("a2", TNum (498624258#100000000)); ("doi", TStr "10.1063/1.5090222")])]);
   ("b3pw", [("bj-eeq-atm", [("s8", TNum (288364295#100000000)); ("a1", TNum (46990860#100000000)); ("a2", TNum (451641422#100000000)); ("doi", TStr "10.1063/1.5090222")]); ("bj-eeq-mbd", [("s8", TNum (285656268#100000000)); ("a1", TNum (46491801#100000000)); ("a2", TNum (450601452#100000000)); ("doi", TStr "10.1063/1.5090222")])]);
   ("b97", [("bj-eeq-atm", [("s8", TNum (87854260#100000000)); ("a1", TNum (29319126#100000000)); ("a2", TNum (451647719#100000000)); ("doi", TStr "10.1063/1.5090222")]); ("bj-eeq-mbd", [("s8", TNum (81171211#100000000)); ("a1", TNum (28461283#100000000)); ("a2", TNum (448691468#100000000)); ("doi", TStr "10.1063/1.5090222")])]);
   ("bhlyp", [("bj-eeq-atm", [("s8", TNum (165281646#100000000)); ("a1", TNum (27263660#100000000)); ("a2", TNum (548634586#100000000)); ("doi", TStr "10.1063/1.5090222")]); ("bj-eeq-mbd", [("s8", TNum (168082973#100000000)); ("a1", TNum (26835837#100000000)); ("a2", TNum (548847218#100000000)); ("doi", TStr "10.1063/1.5090222")])]);
   ("blyp", [("bj-eeq-atm", [("s8", TNum (234076671#100000000)); ("a1", TNum (44488865#100000000)); ("a2", TNum (409330090#100000000)); ("doi", TStr "10.1063/1.5090222")]); ("bj-eeq-mbd", [("s8", TNum (233971306#100000000)); ("a1", TNum (44733688#100000000)); ("a2", TNum (406583931#100000000)); ("doi", TStr "10.1063/1.5090222")])]);
   ("bpbe", [("bj-eeq-atm", [("s8", TNum (364405246#100000000)); ("a1", TNum (52905620#100000000)); ("a2", TNum (411311891#100000000)); ("doi", TStr "10.1063/1.5090222")]); ("bj-eeq-mbd", [("s8", TNum (365322996#100000000)); ("a1", TNum (49933501#100000000)); ("a2", TNum (424294852#100000000)); ("doi", TStr "10.1063/1.5090222")])]);
   ("bp", [("bj-eeq-atm", [("s8", TNum (335497927#100000000)); ("a1", TNum (43645861#100000000)); ("a2", TNum (492406854#100000000)); ("doi", TStr "10.1063/1.5090222")]); ("bj-eeq-mbd", [("s8", TNum (333728176#100000000)); ("a1", TNum (43220330#100000000)); ("a2", TNum (491443061#100000000)); ("doi", TStr "10.1063/1.5090222")])]);
   ("bpw", [("bj-eeq-atm", [("s8", TNum (324571506#100000000)); ("a1", TNum (50050454#100000000)); ("a2", TNum (412346483#100000000)); ("doi", TStr "10.1063/1.5090222")]); ("bj-eeq-mbd", [("s8", TNum (323137432#100000000)); ("a1", TNum (49955226#100000000)); ("a2", TNum (410411084#100000000)); ("doi", TStr "10.1063/1.5090222")])]);
   ("camb3lyp", [("bj-eeq-atm", [("s8", TNum (166041301#100000000)); ("a1", TNum (40267156#100000000)); ("a2", TNum (517432195#100000000)); ("doi", TStr "10.1063/1.5090222")]); ("bj-eeq-mbd", [("s8", TNum (174407961#100000000)); ("a1", TNum (40137870#100000000)); ("a2", TNum (518731225#100000000)); ("doi", TStr "10.1063/1.5090222")])]);
   ("camqtp01", [("bj-eeq-atm", [("s8", TNum (1156#1000)); ("a1", TNum (461#1000)); ("a2", TNum (6375#1000)); ("doi", TStr "10.1021/acs.jctc.3c00717")])]);
   ("dodblyp", [("bj-eeq-atm", [("s6", TNum (4700#10000)); ("s8", TNum (131146043#100000000)); ("a1", TNum (43407294#100000000)); ("a2", TNum (427914360#100000000)); ("doi", TStr "10.1063/1.5090222")]); ("bj-eeq-mbd", [("s6", TNum (4700#10000)); ("s8", TNum (117809956#100000000)); ("a1", TNum (40252428#100000000)); ("a2", TNum (425096555#100000000)); ("doi", TStr "10.1063/1.5090222")])]);
   ("dodpbeb95", [("bj-eeq-atm", [("s6", TNum (5600#10000)); ("s8", TNum (1574635#100000000)); ("a1", TNum (43745720#100000000)); ("a2", TNum (369180763#100000000)); ("doi", TStr "10.1063/1.5090222")]); ("bj-eeq-mbd", [("s6", TNum (5400#10000)); ("s8", TNum (-15702803#100000000)); ("a1", TNum (30629389#100000000)); ("a2", TNum (369170956#100000000)); ("doi", TStr "10.1063/1.5090222")])]);
   ("dodpbe", [("bj-eeq-atm", [("s6", TNum (4800#10000)); ("s8", TNum (92051454#100000000)); ("a1", TNum (43037052#100000000)); ("a2", TNum (438067238#100000000)); ("doi", TStr "10.1063/1.5090222")]); ("bj-eeq-mbd", [("s6", TNum (4800#10000)); ("s8", TNum (83908332#100000000)); ("a1", TNum (40655901#100000000)); ("a2", TNum (433601239#100000000)); ("doi", TStr "10.1063/1.5090222")])]);
   ("dodpbep86", [("bj-eeq-atm", [("s6", TNum (4600#10000)); ("s8", TNum (71405681#100000000)); ("a1", TNum (42408665#100000000)); ("a2", TNum (452884439#100000000)); ("doi", TStr "10.1063/1.5090222")]); ("bj-eeq-mbd", [("s6", TNum (4600#10000)); ("s8", TNum (68309910#100000000)); ("a1", TNum (40600975#100000000)); ("a2", TNum (450011772#100000000)); ("doi", TStr "10.1063/1.5090222")])]);
   ("dodsvwn", [("bj-eeq-atm", [("s6", TNum (4200#10000)); ("s8", TNum (94500207#100000000)); ("a1", TNum (47449026#100000000)); ("a2", TNum (505316093#100000000)); ("doi", TStr "10.1063/1.5090222")]); ("bj-eeq-mbd", [("s6", TNum (4200#10000)); ("s8", TNum (101890345#100000000)); ("a1", TNum (46167459#100000000)); ("a2", TNum (511121382#100000000)); ("doi", TStr "10.1063/1.5090222")])]);
   ("dsdblyp", [("bj-eeq-atm", [("s6", TNum (5400#10000)); ("s8", TNum (63018237#100000000)); ("a1", TNum (47591835#100000000)); ("a2", TNum (473713781#100000000)); ("doi", TStr "10.1063/1.5090222")]); ("bj-eeq-mbd", [("s6", TNum (5400#10000)); ("s8", TNum (65438817#100000000)); ("a1", TNum (46549574#100000000)); ("a2", TNum (473449899#100000000)); ("doi", TStr "10.1063/1.5090222")])]);
   ("dsdpbeb95", [("bj-eeq-atm", [("s6", TNum (5400#10000)); ("s8", TNum (-14668670#100000000)); ("a1", TNum (46394587#100000000)); ("a2", TNum (364913860#100000000)); ("doi", TStr "10.1063/1.5090222")]); ("bj-eeq-mbd", [("s6", TNum (5400#10000)); ("s8", TNum (-24336862#100000000)); ("a1", TNum (32697409#100000000)); ("a2", TNum (369767540#100000000)); ("doi", TStr "10.1063/1.5090222")])]);
   ("dsdpbe", [("bj-eeq-atm", [("s6", TNum (4500#10000)); ("s8", TNum (70584116#100000000)); ("a1", TNum (45787085#100000000)); ("a2", TNum (444566742#100000000)); ("doi", TStr "10.1063/1.5090222")]); ("bj-eeq-mbd", [("s6", TNum (4500#10000)); ("s8", TNum (66116783#100000000)); ("a1", TNum (43565915#100000000)); ("a2", TNum (441110670#100000000)); ("doi", TStr "10.1063/1.5090222")])]);
   ("dsdpbep86", [("bj-eeq-atm", [("s6", TNum (4700#10000)); ("s8", TNum (37586675#100000000)); ("a1", TNum (53698768#100000000)); ("a2", TNum (513022435#100000000)); ("doi", TStr "10.1063/1.5090222")]); ("bj-eeq-mbd", [("s6", TNum (4700#10000)); ("s8", TNum (51157821#100000000)); ("a1", TNum (53889789#100000000)); ("a2", TNum (518645943#100000000)); ("doi", TStr "10.1063/1.5090222")])]);
   ("dsdsvwn", [("bj-eeq-atm", [("s6", TNum (4100#10000)); ("s8", TNum (72914436#100000000)); ("a1", TNum (51347412#100000000)); ("a2", TNum (511858541#100000000)); ("doi", TStr "10.1063/1.5090222")]); ("bj-eeq-mbd", [("s6", TNum (4100#10000)); ("s8", TNum (90084457#100000000)); ("a1", TNum (51106529#100000000)); ("a2", TNum (522490148#100000000)); ("doi", TStr "10.1063/1.5090222")])]);
   ("glyp", [("bj-eeq-atm", [("s8", TNum (423798924#100000000)); ("a1", TNum (38426465#100000000)); ("a2", TNum (438412863#100000000)); ("doi", TStr "10.1063/1.5090222")]); ("bj-eeq-mbd", [("s8", TNum (383861584#100000000)); ("a1", TNum (36343954#100000000)); ("a2", TNum (432875183#100000000)); ("doi", TStr "10.1063/1.5090222")])]);
   ("hf", [("bj-eeq-atm", [("s8", TNum (161679827#100000000)); ("a1", TNum (44959224#100000000)); ("a2", TNum (335743605#100000000)); ("doi", TStr "10.1063/1.5090222")]); ("bj-eeq-mbd", [("s8", TNum (146001146#100000000)); ("a1", TNum (43186901#100000000)); ("a2", TNum (334116014#100000000)); ("doi", TStr "10.1063/1.5090222")])]);
   ("hse03", [("bj-eeq-atm", [("s8", TNum (119812280#100000000)); ("a1", TNum (38662939#100000000)); ("a2", TNum (522925796#100000000))])]);
   ("hse06", [("bj-eeq-atm", [("s8", TNum (119528249#100000000)); ("a1", TNum (38663183#100000000)); ("a2", TNum (519133469#100000000))])]);
   ("hse12", [("bj-eeq-atm", [("s8", TNum (123500792#100000000)); ("a1", TNum (39226921#100000000)); ("a2", TNum (522036266#100000000))])]);
   ("hse12s", [("bj-eeq-atm", [("s8", TNum (123767762#100000000)); ("a1", TNum (39989137#100000000)); ("a2", TNum (534809245#100000000))])]);
   ("hsesol", [("bj-eeq-atm", [("s8", TNum (182207807#100000000)); ("a1", TNum (45646268#100000000)); ("a2", TNum (559662251#100000000))])]);
   ("lb94", [("bj-eeq-atm", [("s8", TNum (259538499#100000000)); ("a1", TNum (42088944#100000000)); ("a2", TNum (328193223#100000000)); ("doi", TStr "10.1063/1.5090222")]); ("bj-eeq-mbd", [("s8", TNum (236461524#100000000)); ("a1", TNum (41518379#100000000)); ("a2", TNum (319365471#100000000)); ("doi", TStr "10.1063/1.5090222")])]);
   ("lcblyp", [("bj-eeq-atm", [("s8", TNum (160344180#100000000)); ("a1", TNum (45769839#100000000)); ("a2", TNum (786924893#100000000)); ("doi", TStr "10.1063/1.5090222")]); ("bj-eeq-mbd", [("s8", TNum (240109962#100000000)); ("a1", TNum (47867438#100000000)); ("a2", TNum (801038424#100000000)); ("doi", TStr "10.1063/1.5090222")])]);
   ("lcwpbe", [("bj-eeq-atm", [("s8", TNum (1170#1000)); ("a1", TNum (378#1000)); ("a2", TNum (4816#1000)); ("doi", TStr "10.1021/acs.jctc.3c00717")])]);
   ("lcwpbeh", [("bj-eeq-atm", [("s8", TNum (1318#1000)); ("a1", TNum (386#1000)); ("a2", TNum (5010#1000)); ("doi", TStr "10.1021/acs.jctc.3c00717")])]);
   ("lh07ssvwn", [("bj-eeq-atm", [("s8", TNum (316675531#100000000)); ("a1", TNum (35965552#100000000)); ("a2", TNum (431947614#100000000)); ("doi", TStr "10.1063/1.5090222")]); ("bj-eeq-mbd", [("s8", TNum (292498406#100000000)); ("a1", TNum (34173988#100000000)); ("a2", TNum (428404951#100000000)); ("doi", TStr "10.1063/1.5090222")])]);
   ("lh07tsvwn", [("bj-eeq-atm", [("s8", TNum (209333001#100000000)); ("a1", TNum (35025189#100000000)); ("a2", TNum (434166515#100000000)); ("doi", TStr "10.1063/1.5090222")]); ("bj-eeq-mbd", [("s8", TNum (195389300#100000000)); ("a1", TNum (33511515#100000000)); ("a2", TNum (431853958#100000000)); ("doi", TStr "10.1063/1.5090222")])]);
   ("lh12ctssifpw92", [("bj-eeq-atm", [("s8", TNum (268467610#100000000)); ("a1", TNum (34190416#100000000)); ("a2", TNum (391039666#100000000)); ("doi", TStr "10.1063/1.5090222")]); ("bj-eeq-mbd", [("s8", TNum (241356607#100000000)); ("a1", TNum (31391316#100000000)); ("a2", TNum (388935769#100000000)); ("doi", TStr "10.1063/1.5090222")])]);
   ("lh12ctssirpw92", [("bj-eeq-atm", [("s8", TNum (248973402#100000000)); ("a1", TNum (34026075#100000000)); ("a2", TNum (396948081#100000000)); ("doi", TStr "10.1063/1.5090222")]); ("bj-eeq-mbd", [("s8", TNum (224917162#100000000)); ("a1", TNum (31446575#100000000)); ("a2", TNum (395070925#100000000)); ("doi", TStr "10.1063/1.5090222")])]);
   ("lh14tcalpbe", [("bj-eeq-atm", [("s8", TNum (128130770#100000000)); ("a1", TNum (38822021#100000000)); ("a2", TNum (492501211#100000000)); ("doi", TStr "10.1063/1.5090222")]); ("bj-eeq-mbd", [("s8", TNum (127677253#100000000)); ("a1", TNum (38128670#100000000)); ("a2", TNum (491698883#100000000)); ("doi", TStr "10.1063/1.5090222")])]);
   ("lh20t", [("bj-eeq-atm", [("s8", TNum (113#1000)); ("a1", TNum (479#1000)); ("a2", TNum (4635#1000)); ("doi", TStr "10.1021/acs.jctc.0c00498")])]);
   ("m06", [("bj-eeq-atm", [("s8", TNum (16366729#100000000)); ("a1", TNum (53456413#100000000)); ("a2", TNum (606192174#100000000)); ("doi", TStr "10.1063/1.5090222")]); ("bj-eeq-mbd", [("s8", TNum (22948274#100000000)); ("a1", TNum (52927285#100000000)); ("a2", TNum (606516782#100000000)); ("doi", TStr "10.1063/1.5090222")])]);
   ("m06l", [("bj-eeq-atm", [("s8", TNum (59493760#100000000)); ("a1", TNum (71422359#100000000)); ("a2", TNum (635314182#100000000)); ("doi", TStr "10.1063/1.5090222")]); ("bj-eeq-mbd", [("s8", TNum (40077779#100000000)); ("a1", TNum (69611405#100000000)); ("a2", TNum (629092087#100000000)); ("doi", TStr "10.1063/1.5090222")])]);
   ("mn12sx", [("bj-eeq-atm", [("s8", TNum (85964873#100000000)); ("a1", TNum (62662681#100000000)); ("a2", TNum (562088906#100000000))])]);
   ("mpw1b95", [("bj-eeq-atm", [("s8", TNum (50093024#100000000)); ("a1", TNum (41585097#100000000)); ("a2", TNum (499154869#100000000)); ("doi", TStr "10.1063/1.5090222")]); ("bj-eeq-mbd", [("s8", TNum (53791835#100000000)); ("a1", TNum (41016913#100000000)); ("a2", TNum (499284176#100000000)); ("doi", TStr "10.1063/1.5090222")])]);
   ("mpw1lyp", [("bj-eeq-atm", [("s8", TNum (115591153#100000000)); ("a1", TNum (25603493#100000000)); ("a2", TNum (532083895#100000000)); ("doi", TStr "10.1063/1.5090222")]); ("bj-eeq-mbd", [("s8", TNum (119986100#100000000)); ("a1", TNum (25502469#100000000)); ("a2", TNum (532301304#100000000)); ("doi", TStr "10.1063/1.5090222")])]);
   ("mpw1pw", [("bj-eeq-atm", [("s8", TNum (180841716#100000000)); ("a1", TNum (42961819#100000000)); ("a2", TNum (468892341#100000000)); ("doi", TStr "10.1063/1.5090222")]); ("bj-eeq-mbd", [("s8", TNum (180656973#100000000)); ("a1", TNum (42456967#100000000)); ("a2", TNum (468132317#100000000)); ("doi", TStr "10.1063/1.5090222")])]);
   ("mpw2plyp", [("bj-eeq-atm", [("s6", TNum (7500#10000)); ("s8", TNum (45788846#100000000)); ("a1", TNum (42997704#100000000)); ("a2", TNum (507650682#100000000)); ("doi", TStr "10.1063/1.5090222")]); ("bj-eeq-mbd", [("s6", TNum (7500#10000)); ("s8", TNum (61161179#100000000)); ("a1", TNum (43748316#100000000)); ("a2", TNum (512540364#100000000)); ("doi", TStr "10.1063/1.5090222")])]);
   ("mpwb1k", [("bj-eeq-atm", [("s8", TNum (57338313#100000000)); ("a1", TNum (44687975#100000000)); ("a2", TNum (521266777#100000000)); ("doi", TStr "10.1063/1.5090222")]); ("bj-eeq-mbd", [("s8", TNum (62221146#100000000)); ("a1", TNum (44216745#100000000)); ("a2", TNum (521324659#100000000)); ("doi", TStr "10.1063/1.5090222")])]);
   ("mpwlyp", [("bj-eeq-atm", [("s8", TNum (125842942#100000000)); ("a1", TNum (25773894#100000000)); ("a2", TNum (502319542#100000000)); ("doi", TStr "10.1063/1.5090222")]); ("bj-eeq-mbd", [("s8", TNum (118243337#100000000)); ("a1", TNum (38968985#100000000)); ("a2", TNum (430835285#100000000)); ("doi", TStr "10.1063/1.5090222")])]);
   ("mpwpw", [("bj-eeq-atm", [("s8", TNum (182596836#100000000)); ("a1", TNum (34526745#100000000)); ("a2", TNum (484620734#100000000)); ("doi", TStr "10.1063/1.5090222")]); ("bj-eeq-mbd", [("s8", TNum (179674014#100000000)); ("a1", TNum (33870479#100000000)); ("a2", TNum (483442213#100000000)); ("doi", TStr "10.1063/1.5090222")])]);
   ("o3lyp", [("bj-eeq-atm", [("s8", TNum (175762508#100000000)); ("a1", TNum (10348980#100000000)); ("a2", TNum (616233282#100000000)); ("doi", TStr "10.1063/1.5090222")]); ("bj-eeq-mbd", [("s8", TNum (177793802#100000000)); ("a1", TNum (9961745#100000000)); ("a2", TNum (616089304#100000000)); ("doi", TStr "10.1063/1.5090222")])]);
   ("olyp", [("bj-eeq-atm", [("s8", TNum (274836820#100000000)); ("a1", TNum (60184498#100000000)); ("a2", TNum (253292167#100000000)); ("doi", TStr "10.1063/1.5090222")]); ("bj-eeq-mbd", [("s8", TNum (258717041#100000000)); ("a1", TNum (59759271#100000000)); ("a2", TNum (248760353#100000000)); ("doi", TStr "10.1063/1.5090222")])]);
   ("opbe", [("bj-eeq-atm", [("s8", TNum (306917417#100000000)); ("a1", TNum (68267534#100000000)); ("a2", TNum (222849018#100000000)); ("doi", TStr "10.1063/1.5090222")]); ("bj-eeq-mbd", [("s8", TNum (293544102#100000000)); ("a1", TNum (67903933#100000000)); ("a2", TNum (219810071#100000000)); ("doi", TStr "10.1063/1.5090222")])]);
   ("pbe0_2", [("bj-eeq-atm", [("s6", TNum (5000#10000)); ("s8", TNum (64299082#100000000)); ("a1", TNum (76542115#100000000)); ("a2", TNum (578578675#100000000)); ("doi", TStr "10.1063/1.5090222")]); ("bj-eeq-mbd", [("s6", TNum (5000#10000)); ("s8", TNum (98834859#100000000)); ("a1", TNum (77911062#100000000)); ("a2", TNum (590389569#100000000)); ("doi", TStr "10.1063/1.5090222")])]);
   ("pbe0", [("bj-eeq-atm", [("s8", TNum (120065498#100000000)); ("a1", TNum (40085597#100000000)); ("a2", TNum (502928789#100000000)); ("doi", TStr "10.1063/1.5090222")]); ("bj-eeq-mbd", [("s8", TNum (126829475#100000000)); ("a1", TNum (39907098#100000000)); ("a2", TNum (503951304#100000000)); ("doi", TStr "10.1063/1.5090222")])]);
   ("pbe0_dh", [("bj-eeq-atm", [("s6", TNum (8750#10000)); ("s8", TNum (96811578#100000000)); ("a1", TNum (47592488#100000000)); ("a2", TNum (508622873#100000000)); ("doi", TStr "10.1063/1.5090222")]); ("bj-eeq-mbd", [("s6", TNum (8750#10000)); ("s8", TNum (119306002#100000000)); ("a1", TNum (46106784#100000000)); ("a2", TNum (525210480#100000000)); ("doi", TStr "10.1063/1.5090222")])]);
   ("pbe", [("bj-eeq-atm", [("s8", TNum (95948085#100000000)); ("a1", TNum (38574991#100000000)); ("a2", TNum (480688534#100000000)); ("doi", TStr "10.1063/1.5090222")]); ("bj-eeq-mbd", [("s8", TNum (99924614#100000000)); ("a1", TNum (38142528#100000000)); ("a2", TNum (481839284#100000000)); ("doi", TStr "10.1063/1.5090222")])]);
   ("pbesol", [("bj-eeq-atm", [("s8", TNum (171885698#100000000)); ("a1", TNum (47901421#100000000)); ("a2", TNum (596771589#100000000))])]);
   ("pw1pw", [("bj-eeq-atm", [("s8", TNum (96850170#100000000)); ("a1", TNum (42427511#100000000)); ("a2", TNum (502060636#100000000)); ("doi", TStr "10.1063/1.5090222")]); ("bj-eeq-mbd", [("s8", TNum (109759050#100000000)); ("a1", TNum (42759830#100000000)); ("a2", TNum (504559572#100000000)); ("doi", TStr "10.1063/1.5090222")])]);
   ("pw6b95", [("bj-eeq-atm", [("s8", TNum (-31926054#100000000)); ("a1", TNum (4142919#100000000)); ("a2", TNum (584655608#100000000)); ("doi", TStr "10.1063/1.5090222")]); ("bj-eeq-mbd", [("s8", TNum (-31629935#100000000)); ("a1", TNum (3999357#100000000)); ("a2", TNum (583690254#100000000)); ("doi", TStr "10.1063/1.5090222")])]);
   ("pw86pbe", [("bj-eeq-atm", [("s8", TNum (121362856#100000000)); ("a1", TNum (40510366#100000000)); ("a2", TNum (466737724#100000000)); ("doi", TStr "10.1063/1.5090222")]); ("bj-eeq-mbd", [("s8", TNum (122842987#100000000)); ("a1", TNum (39998824#100000000)); ("a2", TNum (466739111#100000000)); ("doi", TStr "10.1063/1.5090222")])]);
   ("pw91", [("bj-eeq-atm", [("s8", TNum (77283111#100000000)); ("a1", TNum (39581542#100000000)); ("a2", TNum (493405761#100000000)); ("doi", TStr "10.1063/1.5090222")]); ("bj-eeq-mbd", [("s8", TNum (81406882#100000000)); ("a1", TNum (34094706#100000000)); ("a2", TNum (518568823#100000000)); ("doi", TStr "10.1063/1.5090222")])]);
   ("pwp1", [("bj-eeq-atm", [("s8", TNum (60492565#100000000)); ("a1", TNum (46855837#100000000)); ("a2", TNum (576921413#100000000)); ("doi", TStr "10.1063/1.5090222")]); ("bj-eeq-mbd", [("s8", TNum (95936222#100000000)); ("a1", TNum (48552982#100000000)); ("a2", TNum (584956411#100000000)); ("doi", TStr "10.1063/1.5090222")])]);
   ("pwpb95", [("bj-eeq-atm", [("s6", TNum (8200#10000)); ("s8", TNum (-34639127#100000000)); ("a1", TNum (41080636#100000000)); ("a2", TNum (383878274#100000000)); ("doi", TStr "10.1063/1.5090222")]); ("bj-eeq-mbd", [("s6", TNum (8200#10000)); ("s8", TNum (-46453780#100000000)); ("a1", TNum (29884136#100000000)); ("a2", TNum (387641255#100000000)); ("doi", TStr "10.1063/1.5090222")])]);
   ("pwp", [("bj-eeq-atm", [("s8", TNum (32801227#100000000)); ("a1", TNum (35874687#100000000)); ("a2", TNum (605861168#100000000)); ("doi", TStr "10.1063/1.5090222")]); ("bj-eeq-mbd", [("s8", TNum (66056055#100000000)); ("a1", TNum (37768052#100000000)); ("a2", TNum (614787138#100000000)); ("doi", TStr "10.1063/1.5090222")])]);
   ("revpbe0", [("bj-eeq-atm", [("s8", TNum (157185414#100000000)); ("a1", TNum (38705966#100000000)); ("a2", TNum (411028876#100000000)); ("doi", TStr "10.1063/1.5090222")]); ("bj-eeq-mbd", [("s8", TNum (147198256#100000000)); ("a1", TNum (37471756#100000000)); ("a2", TNum (408904369#100000000)); ("doi", TStr "10.1063/1.5090222")])]);
   ("revpbe0dh", [("bj-eeq-atm", [("s6", TNum (8750#10000)); ("s8", TNum (124456037#100000000)); ("a1", TNum (36730560#100000000)); ("a2", TNum (471126482#100000000)); ("doi", TStr "10.1063/1.5090222")]); ("bj-eeq-mbd", [("s6", TNum (8750#10000)); ("s8", TNum (122494188#100000000)); ("a1", TNum (35904781#100000000)); ("a2", TNum (470216012#100000000)); ("doi", TStr "10.1063/1.5090222")])]);
   ("revpbe38", [("bj-eeq-atm", [("s8", TNum (166597472#100000000)); ("a1", TNum (39476833#100000000)); ("a2", TNum (439026628#100000000)); ("doi", TStr "10.1063/1.5090222")]); ("bj-eeq-mbd", [("s8", TNum (160423529#100000000)); ("a1", TNum (38938475#100000000)); ("a2", TNum (435557832#100000000)); ("doi", TStr "10.1063/1.5090222")])]);
   ("revpbe", [("bj-eeq-atm", [("s8", TNum (174676530#100000000)); ("a1", TNum (53634900#100000000)); ("a2", TNum (307261485#100000000)); ("doi", TStr "10.1063/1.5090222")]); ("bj-eeq-mbd", [("s8", TNum (162543693#100000000)); ("a1", TNum (54031831#100000000)); ("a2", TNum (297965648#100000000)); ("doi", TStr "10.1063/1.5090222")])]);
   ("revtpss0", [("bj-eeq-atm", [("s8", TNum (154664499#100000000)); ("a1", TNum (45890964#100000000)); ("a2", TNum (478426405#100000000)); ("doi", TStr "10.1063/1.5090222")]); ("bj-eeq-mbd", [("s8", TNum (155321888#100000000)); ("a1", TNum (45355319#100000000)); ("a2", TNum (477588598#100000000)); ("doi", TStr "10.1063/1.5090222")])]);
   ("revtpss", [("bj-eeq-atm", [("s8", TNum (153089454#100000000)); ("a1", TNum (44880597#100000000)); ("a2", TNum (464042317#100000000)); ("doi", TStr "10.1063/1.5090222")]); ("bj-eeq-mbd", [("s8", TNum (151858035#100000000)); ("a1", TNum (44243222#100000000)); ("a2", TNum (462881620#100000000)); ("doi", TStr "10.1063/1.5090222")])]);
   ("revtpssh", [("bj-eeq-atm", [("s8", TNum (152740307#100000000)); ("a1", TNum (45161957#100000000)); ("a2", TNum (470779483#100000000)); ("doi", TStr "10.1063/1.5090222")]); ("bj-eeq-mbd", [("s8", TNum (152542064#100000000)); ("a1", TNum (44570207#100000000)); ("a2", TNum (469883717#100000000)); ("doi", TStr "10.1063/1.5090222")])]);
   ("rpbe", [("bj-eeq-atm", [("s8", TNum (131183787#100000000)); ("a1", TNum (46169493#100000000)); ("a2", TNum (315711757#100000000)); ("doi", TStr "10.1063/1.5090222")]); ("bj-eeq-mbd", [("s8", TNum (111793696#100000000)); ("a1", TNum (44632488#100000000)); ("a2", TNum (308890917#100000000)); ("doi", TStr "10.1063/1.5090222")])]);
   ("rpw86pbe", [("bj-eeq-atm", [("s8", TNum (112624034#100000000)); ("a1", TNum (38151218#100000000)); ("a2", TNum (475480472#100000000)); ("doi", TStr "10.1063/1.5090222")]); ("bj-eeq-mbd", [("s8", TNum (113795871#100000000)); ("a1", TNum (37636536#100000000)); ("a2", TNum (475236384#100000000)); ("doi", TStr "10.1063/1.5090222")])]);
   ("scan", [("bj-eeq-atm", [("s8", TNum (146126056#100000000)); ("a1", TNum (62930855#100000000)); ("a2", TNum (631284039#100000000)); ("doi", TStr "10.1063/1.5090222")]); ("bj-eeq-mbd", [("s8", TNum (175408315#100000000)); ("a1", TNum (63571334#100000000)); ("a2", TNum (635690748#100000000)); ("doi", TStr "10.1063/1.5090222")])]);
   ("rscan", [("bj-eeq-atm", [("s8", TNum (87728975#100000000)); ("a1", TNum (49116966#100000000)); ("a2", TNum (575859346#100000000)); ("doi", TStr "10.1063/5.0041008")])]);
   ("r2scan", [("bj-eeq-atm", [("s8", TNum (60187490#100000000)); ("a1", TNum (51559235#100000000)); ("a2", TNum (577342911#100000000)); ("doi", TStr "10.1063/5.0041008")])]);
   ("r2scanh", [("bj-eeq-atm", [("s8", TNum (8324#10000)); ("a1", TNum (4944#10000)); ("a2", TNum (59019#10000)); ("doi", TStr "10.1063/5.0086040")])]);
   ("r2scan0", [("bj-eeq-atm", [("s8", TNum (8992#10000)); ("a1", TNum (4778#10000)); ("a2", TNum (58779#10000)); ("doi", TStr "10.1063/5.0086040")])]);
   ("r2scan50", [("bj-eeq-atm", [("s8", TNum (10471#10000)); ("a1", TNum (4574#10000)); ("a2", TNum (58969#10000)); ("doi", TStr "10.1063/5.0086040")])]);
   ("r2scan-3c", [("bj-eeq-atm", [("s8", TNum (0#100)); ("a1", TNum (42#100)); ("a2", TNum (565#100)); ("s9", TNum (20#10)); ("doi", TStr "10.1063/5.0040021")])]);
   ("tpss0", [("bj-eeq-atm", [("s8", TNum (162438102#100000000)); ("a1", TNum (40329022#100000000)); ("a2", TNum (480537871#100000000)); ("doi", TStr "10.1063/1.5090222")]); ("bj-eeq-mbd", [("s8", TNum (166752698#100000000)); ("a1", TNum (40074746#100000000)); ("a2", TNum (480927196#100000000)); ("doi", TStr "10.1063/1.5090222")])]);
   ("tpss", [("bj-eeq-atm", [("s8", TNum (176596355#100000000)); ("a1", TNum (42822303#100000000)); ("a2", TNum (454257102#100000000)); ("doi", TStr "10.1063/1.5090222")]); ("bj-eeq-mbd", [("s8", TNum (191130849#100000000)); ("a1", TNum (43332851#100000000)); ("a2", TNum (456986797#100000000)); ("doi", TStr "10.1063/1.5090222")])]);
   ("tpssh", [("bj-eeq-atm", [("s8", TNum (185897750#100000000)); ("a1", TNum (44286966#100000000)); ("a2", TNum (460230534#100000000)); ("doi", TStr "10.1063/1.5090222")]); ("bj-eeq-mbd", [("s8", TNum (188783525#100000000)); ("a1", TNum (43968167#100000000)); ("a2", TNum (460342700#100000000)); ("doi", TStr "10.1063/1.5090222")])]);
   ("b97d", [("bj-eeq-atm", [("s8", TNum (169460052#100000000)); ("a1", TNum (28904684#100000000)); ("a2", TNum (413407323#100000000))])]);
   ("wb97", [("bj-eeq-atm", [("s8", TNum (655792598#100000000)); ("a1", TNum (76666802#100000000)); ("a2", TNum (836027334#100000000)); ("doi", TStr "10.1063/1.5090222")]); ("bj-eeq-mbd", [("s8", TNum (711022468#100000000)); ("a1", TNum (76423345#100000000)); ("a2", TNum (844559334#100000000)); ("doi", TStr "10.1063/1.5090222")])]);
   ("wb97x", [("bj-eeq-atm", [("s8", TNum (-7519516#100000000)); ("a1", TNum (45094893#100000000)); ("a2", TNum (678425255#100000000)); ("doi", TStr "10.1063/1.5090222")]); ("bj-eeq-mbd", [("s8", TNum (38815338#100000000)); ("a1", TNum (47448629#100000000)); ("a2", TNum (691367384#100000000)); ("doi", TStr "10.1063/1.5090222")])]);
   ("wb97x-rev", [("bj-eeq-atm", [("s8", TNum (4485#10000)); ("a1", TNum (3306#10000)); ("a2", TNum (4279#1000)); ("doi", TStr "10.1063/5.0133026")])]);
   ("wb97x-3c", [("bj-eeq-atm", [("s8", TNum (0#10)); ("a1", TNum (2464#10000)); ("a2", TNum (4737#1000)); ("doi", TStr "10.1063/5.0133026")])]);
   ("b97m", [("bj-eeq-atm", [("s8", TNum (6633#10000)); ("a1", TNum (4288#10000)); ("a2", TNum (39935#10000)); ("doi", TStr "10.1002/jcc.26411")])]);
   ("wb97m", [("bj-eeq-atm", [("s8", TNum (7761#10000)); ("a1", TNum (7514#10000)); ("a2", TNum (27099#10000)); ("doi", TStr "10.1002/jcc.26411")])]);
   ("wb97m-rev", [("bj-eeq-atm", [("s8", TNum (842#1000)); ("a1", TNum (359#1000)); ("a2", TNum (4668#1000)); ("doi", TStr "10.1021/acs.jctc.3c00717")])]);
   ("x3lyp", [("bj-eeq-atm", [("s8", TNum (154701429#100000000)); ("a1", TNum (20318443#100000000)); ("a2", TNum (561852648#100000000)); ("doi", TStr "10.1063/1.5090222")]); ("bj-eeq-mbd", [("s8", TNum (155067492#100000000)); ("a1", TNum (19818545#100000000)); ("a2", TNum (561262748#100000000)); ("doi", TStr "10.1063/1.5090222")])]);
   ("xlyp", [("bj-eeq-atm", [("s8", TNum (162972054#100000000)); ("a1", TNum (11268673#100000000)); ("a2", TNum (540786417#100000000)); ("doi", TStr "10.1063/1.5090222")]); ("bj-eeq-mbd", [("s8", TNum (151577878#100000000)); ("a1", TNum (10026585#100000000)); ("a2", TNum (537506460#100000000)); ("doi", TStr "10.1063/1.5090222")])]);
   ("revdsdpbep86", [("bj-eeq-atm", [("s6", TNum (5132#10000)); ("s8", TNum (0#10)); ("a1", TNum (44#100)); ("a2", TNum (360#100)); ("doi", TStr "10.1021/acs.jpca.9b03157")])]);
   ("revdsdpbe", [("bj-eeq-atm", [("s6", TNum (6706#10000)); ("s8", TNum (0#10)); ("a1", TNum (40#100)); ("a2", TNum (360#100)); ("doi", TStr "10.1021/acs.jpca.9b03157")])]);
   ("revdsdblyp", [("bj-eeq-atm", [("s6", TNum (6141#10000)); ("s8", TNum (0#10)); ("a1", TNum (38#100)); ("a2", TNum (352#100)); ("doi", TStr "10.1021/acs.jpca.9b03157")])]);
   ("revdodpbep86", [("bj-eeq-atm", [("s6", TNum (5552#10000)); ("s8", TNum (0#10)); ("a1", TNum (44#100)); ("a2", TNum (360#100)); ("doi", TStr "10.1021/acs.jpca.9b03157")])]);
   ("dftb_3ob", [("bj-eeq-two", [("s8", TNum (4727337#10000000)); ("a1", TNum (5467502#10000000)); ("a2", TNum (44955068#10000000)); ("doi", TStr "10.1063/1.5143190")]); ("bj-eeq-atm", [("s8", TNum (6635015#10000000)); ("a1", TNum (5523240#10000000)); ("a2", TNum (43537076#10000000)); ("doi", TStr "10.1063/1.5143190")])]);
   ("dftb_matsci", [("bj-eeq-two", [("s8", TNum (27711819#10000000)); ("a1", TNum (4681712#10000000)); ("a2", TNum (52918629#10000000)); ("doi", TStr "10.1063/1.5143190")]); ("bj-eeq-atm", [("s8", TNum (33157614#10000000)); ("a1", TNum (4826330#10000000)); ("a2", TNum (53811976#10000000)); ("doi", TStr "10.1063/1.5143190")])]);
   ("dftb_mio", [("bj-eeq-two", [("s8", TNum (11948145#10000000)); ("a1", TNum (6074567#10000000)); ("a2", TNum (49336133#10000000)); ("doi", TStr "10.1063/1.5143190")]); ("bj-eeq-atm", [("s8", TNum (12916225#10000000)); ("a1", TNum (5965326#10000000)); ("a2", TNum (48778602#10000000)); ("doi", TStr "10.1063/1.5143190")])]);
   ("dftb_ob2", [("bj-eeq-two", [("s8", TNum (27611320#10000000)); ("a1", TNum (6037249#10000000)); ("a2", TNum (53900004#10000000)); ("doi", TStr "10.1063/1.5143190")]); ("bj-eeq-atm", [("s8", TNum (29692689#10000000)); ("a1", TNum (6068916#10000000)); ("a2", TNum (54476789#10000000)); ("doi", TStr "10.1063/1.5143190")])]);
   ("dftb_pbc", [("bj-eeq-two", [("s8", TNum (17303734#10000000)); ("a1", TNum (5546548#10000000)); ("a2", TNum (47973454#10000000)); ("doi", TStr "10.1063/1.5143190")]); ("bj-eeq-atm", [("s8", TNum (21667394#10000000)); ("a1", TNum (5646391#10000000)); ("a2", TNum (49576353#10000000)); ("doi", TStr "10.1063/1.5143190")])]);
   ("wr2scan", [("bj-eeq-atm", [("s6", TNum (10000#10000)); ("s8", TNum (10000#10000)); ("a1", TNum (3834#10000)); ("a2", TNum (57889#10000)); ("doi", TStr "10.1063/5.0174988")])]);
   ("r2scan0-dh", [("bj-eeq-atm", [("s6", TNum (9424#10000)); ("s8", TNum (3856#10000)); ("a1", TNum (4271#10000)); ("a2", TNum (58565#10000)); ("doi", TStr "10.1063/5.0174988")])]);
   ("r2scan-cidh", [("bj-eeq-atm", [("s6", TNum (8666#10000)); ("s8", TNum (5336#10000)); ("a1", TNum (4171#10000)); ("a2", TNum (58565#10000)); ("doi", TStr "10.1063/5.0174988")])]);
   ("r2scan-qidh", [("bj-eeq-atm", [("s6", TNum (7867#10000)); ("s8", TNum (2955#10000)); ("a1", TNum (4001#10000)); ("a2", TNum (58300#10000)); ("doi", TStr "10.1063/5.0174988")])]);
   ("r2scan-0-2", [("bj-eeq-atm", [("s6", TNum (7386#10000)); ("s8", TNum (0#10000)); ("a1", TNum (4030#10000)); ("a2", TNum (55142#10000)); ("doi", TStr "10.1063/5.0174988")])]);
   ("pr2scan50", [("bj-eeq-atm", [("s6", TNum (7964#10000)); ("s8", TNum (3421#10000)); ("a1", TNum (4663#10000)); ("a2", TNum (57916#10000)); ("doi", TStr "10.1063/5.0174988")])]);
   ("pr2scan69", [("bj-eeq-atm", [("s6", TNum (7167#10000)); ("s8", TNum (0#10000)); ("a1", TNum (4644#10000)); ("a2", TNum (52563#10000)); ("doi", TStr "10.1063/5.0174988")])]);
   ("kpr2scan50", [("bj-eeq-atm", [("s6", TNum (8402#10000)); ("s8", TNum (1212#10000)); ("a1", TNum (4382#10000)); ("a2", TNum (58232#10000)); ("doi", TStr "10.1063/5.0174988")])]);
   ("wpr2scan50", [("bj-eeq-atm", [("s6", TNum (8143#10000)); ("s8", TNum (3842#10000)); ("a1", TNum (4135#10000)); ("a2", TNum (58773#10000)); ("doi", TStr "10.1063/5.0174988")])])].

