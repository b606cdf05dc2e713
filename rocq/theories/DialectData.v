(** Generated by tools/gen_dialects.py from
    /repo/packages/gurke/src/gurke/gherkin-languages.json; do not edit.
    Every string is the list of its code points.  The entries "name" and
    "native" of the JSON file are not used by the code and are left out. *)
From Verif Require Import PyStr Types.
Local Open Scope N_scope.

(* gherkin-languages.json:2, entry "af" (Afrikaans) *)
Definition dialect_af : dialect := {|
  d_feature := [[70; 117; 110; 107; 115; 105; 101];
      [66; 101; 115; 105; 103; 104; 101; 105; 100; 32; 66; 101; 104; 111; 101; 102; 116; 101];
      [86; 101; 114; 109; 111; 235]];
  d_rule := [[82; 101; 103; 101; 108]];
  d_scenario := [[86; 111; 111; 114; 98; 101; 101; 108; 100];
      [83; 105; 116; 117; 97; 115; 105; 101]];
  d_scenarioOutline := [[83; 105; 116; 117; 97; 115; 105; 101; 32; 85; 105; 116; 101; 101; 110; 115; 101; 116; 116; 105; 110; 103]];
  d_background := [[65; 103; 116; 101; 114; 103; 114; 111; 110; 100]];
  d_examples := [[86; 111; 111; 114; 98; 101; 101; 108; 100; 101]];
  d_given := [[42; 32];
      [71; 101; 103; 101; 119; 101; 32]];
  d_when := [[42; 32];
      [87; 97; 110; 110; 101; 101; 114; 32]];
  d_then := [[42; 32];
      [68; 97; 110; 32]];
  d_and := [[42; 32];
      [69; 110; 32]];
  d_but := [[42; 32];
      [77; 97; 97; 114; 32]]
|}.

(* gherkin-languages.json:47, entry "am" (Armenian) *)
Definition dialect_am : dialect := {|
  d_feature := [[1366; 1400; 1410; 1398; 1391; 1409; 1387; 1400; 1398; 1377; 1388; 1400; 1410; 1385; 1397; 1400; 1410; 1398];
      [1344; 1377; 1407; 1391; 1400; 1410; 1385; 1397; 1400; 1410; 1398]];
  d_rule := [[82; 117; 108; 101]];
  d_scenario := [[1365; 1408; 1387; 1398; 1377; 1391];
      [1357; 1409; 1381; 1398; 1377; 1408]];
  d_scenarioOutline := [[1357; 1409; 1381; 1398; 1377; 1408; 1387; 32; 1391; 1377; 1404; 1400; 1410; 1409; 1406; 1377; 1409; 1412; 1384]];
  d_background := [[1343; 1400; 1398; 1407; 1381; 1412; 1405; 1407]];
  d_examples := [[1365; 1408; 1387; 1398; 1377; 1391; 1398; 1381; 1408]];
  d_given := [[42; 32];
      [1332; 1387; 1409; 1400; 1410; 1412; 32]];
  d_when := [[42; 32];
      [1333; 1385; 1381; 32];
      [1333; 1408; 1378; 32]];
  d_then := [[42; 32];
      [1329; 1402; 1377; 32]];
  d_and := [[42; 32];
      [1333; 1406; 32]];
  d_but := [[42; 32];
      [1330; 1377; 1397; 1409; 32]]
|}.

(* gherkin-languages.json:92, entry "an" (Aragonese) *)
Definition dialect_an : dialect := {|
  d_feature := [[67; 97; 114; 97; 99; 116; 101; 114; 105; 115; 116; 105; 99; 97]];
  d_rule := [[82; 117; 108; 101]];
  d_scenario := [[69; 105; 120; 101; 109; 112; 108; 111];
      [67; 97; 115; 111]];
  d_scenarioOutline := [[69; 115; 113; 117; 101; 109; 97; 32; 100; 101; 108; 32; 99; 97; 115; 111]];
  d_background := [[65; 110; 116; 101; 99; 101; 100; 101; 110; 116; 115]];
  d_examples := [[69; 105; 120; 101; 109; 112; 108; 111; 115]];
  d_given := [[42; 32];
      [68; 97; 117; 32];
      [68; 97; 100; 97; 32];
      [68; 97; 117; 115; 32];
      [68; 97; 100; 97; 115; 32]];
  d_when := [[42; 32];
      [67; 117; 97; 110; 32]];
  d_then := [[42; 32];
      [65; 108; 97; 118; 101; 122; 32];
      [65; 108; 108; 111; 114; 97; 32];
      [65; 110; 116; 111; 110; 99; 101; 115; 32]];
  d_and := [[42; 32];
      [89; 32];
      [69; 32]];
  d_but := [[42; 32];
      [80; 101; 114; 111; 32]]
|}.

(* gherkin-languages.json:141, entry "ar" (Arabic) *)
Definition dialect_ar : dialect := {|
  d_feature := [[1582; 1575; 1589; 1610; 1577]];
  d_rule := [[82; 117; 108; 101]];
  d_scenario := [[1605; 1579; 1575; 1604];
      [1587; 1610; 1606; 1575; 1585; 1610; 1608]];
  d_scenarioOutline := [[1587; 1610; 1606; 1575; 1585; 1610; 1608; 32; 1605; 1582; 1591; 1591]];
  d_background := [[1575; 1604; 1582; 1604; 1601; 1610; 1577]];
  d_examples := [[1575; 1605; 1579; 1604; 1577]];
  d_given := [[42; 32];
      [1576; 1601; 1585; 1590; 32]];
  d_when := [[42; 32];
      [1605; 1578; 1609; 32];
      [1593; 1606; 1583; 1605; 1575; 32]];
  d_then := [[42; 32];
      [1575; 1584; 1575; 1611; 32];
      [1579; 1605; 32]];
  d_and := [[42; 32];
      [1608; 32]];
  d_but := [[42; 32];
      [1604; 1603; 1606; 32]]
|}.

(* gherkin-languages.json:186, entry "ast" (Asturian) *)
Definition dialect_ast : dialect := {|
  d_feature := [[67; 97; 114; 97; 117; 116; 101; 114; 237; 115; 116; 105; 99; 97]];
  d_rule := [[82; 117; 108; 101]];
  d_scenario := [[69; 120; 101; 109; 112; 108; 111];
      [67; 97; 115; 117]];
  d_scenarioOutline := [[69; 115; 98; 111; 122; 117; 32; 100; 101; 108; 32; 99; 97; 115; 117]];
  d_background := [[65; 110; 116; 101; 99; 101; 100; 101; 110; 116; 101; 115]];
  d_examples := [[69; 120; 101; 109; 112; 108; 111; 115]];
  d_given := [[42; 32];
      [68; 225; 117; 32];
      [68; 97; 100; 97; 32];
      [68; 97; 111; 115; 32];
      [68; 97; 101; 115; 32]];
  d_when := [[42; 32];
      [67; 117; 97; 110; 100; 111; 32]];
  d_then := [[42; 32];
      [69; 110; 116; 243; 115; 32]];
  d_and := [[42; 32];
      [89; 32];
      [89; 97; 32]];
  d_but := [[42; 32];
      [80; 101; 114; 117; 32]]
|}.

(* gherkin-languages.json:233, entry "az" (Azerbaijani) *)
Definition dialect_az : dialect := {|
  d_feature := [[214; 122; 601; 108; 108; 105; 107]];
  d_rule := [[82; 117; 108; 101]];
  d_scenario := [[78; 252; 109; 117; 110; 601];
      [83; 115; 101; 110; 97; 114; 105]];
  d_scenarioOutline := [[83; 115; 101; 110; 97; 114; 105; 110; 105; 110; 32; 115; 116; 114; 117; 107; 116; 117; 114; 117]];
  d_background := [[75; 101; 231; 109; 105; 351];
      [75; 111; 110; 116; 101; 107; 115; 116]];
  d_examples := [[78; 252; 109; 117; 110; 601; 108; 601; 114]];
  d_given := [[42; 32];
      [84; 117; 116; 97; 113; 32; 107; 105; 32];
      [86; 101; 114; 105; 108; 105; 114; 32]];
  d_when := [[42; 32];
      [399; 103; 601; 114; 32];
      [78; 601; 32; 118; 97; 120; 116; 32; 107; 105; 32]];
  d_then := [[42; 32];
      [79; 32; 104; 97; 108; 100; 97; 32]];
  d_and := [[42; 32];
      [86; 601; 32];
      [72; 601; 109; 32]];
  d_but := [[42; 32];
      [65; 109; 109; 97; 32];
      [65; 110; 99; 97; 113; 32]]
|}.

(* gherkin-languages.json:281, entry "be" (Belarusian) *)
Definition dialect_be : dialect := {|
  d_feature := [[1060; 1091; 1085; 1082; 1094; 1099; 1103; 1085; 1072; 1083; 1100; 1085; 1072; 1089; 1094; 1100];
      [1060; 1110; 1095; 1072]];
  d_rule := [[1055; 1088; 1072; 1074; 1110; 1083; 1099]];
  d_scenario := [[1057; 1094; 1101; 1085; 1072; 1088; 1099; 1081];
      [67; 1094; 1101; 1085; 1072; 1088]];
  d_scenarioOutline := [[1064; 1072; 1073; 1083; 1086; 1085; 32; 1089; 1094; 1101; 1085; 1072; 1088; 1099; 1103];
      [1059; 1079; 1086; 1088; 32; 1089; 1094; 1101; 1085; 1072; 1088; 1072]];
  d_background := [[1050; 1072; 1085; 1090; 1101; 1082; 1089; 1090]];
  d_examples := [[1055; 1088; 1099; 1082; 1083; 1072; 1076; 1099]];
  d_given := [[42; 32];
      [1053; 1103; 1093; 1072; 1081; 32];
      [1044; 1072; 1076; 1079; 1077; 1085; 1072; 32]];
  d_when := [[42; 32];
      [1050; 1072; 1083; 1110; 32]];
  d_then := [[42; 32];
      [1058; 1072; 1076; 1099; 32]];
  d_and := [[42; 32];
      [73; 32];
      [1044; 1099; 32];
      [1058; 1072; 1082; 1089; 1072; 1084; 1072; 32]];
  d_but := [[42; 32];
      [1040; 1083; 1077; 32];
      [1030; 1085; 1072; 1082; 1096; 32]]
|}.

(* gherkin-languages.json:330, entry "bg" (Bulgarian) *)
Definition dialect_bg : dialect := {|
  d_feature := [[1060; 1091; 1085; 1082; 1094; 1080; 1086; 1085; 1072; 1083; 1085; 1086; 1089; 1090]];
  d_rule := [[1055; 1088; 1072; 1074; 1080; 1083; 1086]];
  d_scenario := [[1055; 1088; 1080; 1084; 1077; 1088];
      [1057; 1094; 1077; 1085; 1072; 1088; 1080; 1081]];
  d_scenarioOutline := [[1056; 1072; 1084; 1082; 1072; 32; 1085; 1072; 32; 1089; 1094; 1077; 1085; 1072; 1088; 1080; 1081]];
  d_background := [[1055; 1088; 1077; 1076; 1080; 1089; 1090; 1086; 1088; 1080; 1103]];
  d_examples := [[1055; 1088; 1080; 1084; 1077; 1088; 1080]];
  d_given := [[42; 32];
      [1044; 1072; 1076; 1077; 1085; 1086; 32]];
  d_when := [[42; 32];
      [1050; 1086; 1075; 1072; 1090; 1086; 32]];
  d_then := [[42; 32];
      [1058; 1086; 32]];
  d_and := [[42; 32];
      [1048; 32]];
  d_but := [[42; 32];
      [1053; 1086; 32]]
|}.

(* gherkin-languages.json:373, entry "bm" (Malay) *)
Definition dialect_bm : dialect := {|
  d_feature := [[70; 117; 110; 103; 115; 105]];
  d_rule := [[82; 117; 108; 101]];
  d_scenario := [[83; 101; 110; 97; 114; 105; 111];
      [83; 105; 116; 117; 97; 115; 105];
      [75; 101; 97; 100; 97; 97; 110]];
  d_scenarioOutline := [[75; 101; 114; 97; 110; 103; 107; 97; 32; 83; 101; 110; 97; 114; 105; 111];
      [75; 101; 114; 97; 110; 103; 107; 97; 32; 83; 105; 116; 117; 97; 115; 105];
      [75; 101; 114; 97; 110; 103; 107; 97; 32; 75; 101; 97; 100; 97; 97; 110];
      [71; 97; 114; 105; 115; 32; 80; 97; 110; 100; 117; 97; 110; 32; 83; 101; 110; 97; 114; 105; 111]];
  d_background := [[76; 97; 116; 97; 114; 32; 66; 101; 108; 97; 107; 97; 110; 103]];
  d_examples := [[67; 111; 110; 116; 111; 104]];
  d_given := [[42; 32];
      [68; 105; 98; 101; 114; 105; 32];
      [66; 97; 103; 105; 32]];
  d_when := [[42; 32];
      [65; 112; 97; 98; 105; 108; 97; 32]];
  d_then := [[42; 32];
      [77; 97; 107; 97; 32];
      [75; 101; 109; 117; 100; 105; 97; 110; 32]];
  d_and := [[42; 32];
      [68; 97; 110; 32]];
  d_but := [[42; 32];
      [84; 101; 116; 97; 112; 105; 32];
      [84; 97; 112; 105; 32]]
|}.

(* gherkin-languages.json:423, entry "bs" (Bosnian) *)
Definition dialect_bs : dialect := {|
  d_feature := [[75; 97; 114; 97; 107; 116; 101; 114; 105; 115; 116; 105; 107; 97]];
  d_rule := [[82; 117; 108; 101]];
  d_scenario := [[80; 114; 105; 109; 106; 101; 114];
      [83; 99; 101; 110; 97; 114; 105; 106; 117];
      [83; 99; 101; 110; 97; 114; 105; 111]];
  d_scenarioOutline := [[83; 99; 101; 110; 97; 114; 105; 106; 117; 45; 111; 98; 114; 105; 115];
      [83; 99; 101; 110; 97; 114; 105; 111; 45; 111; 117; 116; 108; 105; 110; 101]];
  d_background := [[80; 111; 122; 97; 100; 105; 110; 97]];
  d_examples := [[80; 114; 105; 109; 106; 101; 114; 105]];
  d_given := [[42; 32];
      [68; 97; 116; 111; 32]];
  d_when := [[42; 32];
      [75; 97; 100; 97; 32]];
  d_then := [[42; 32];
      [90; 97; 116; 105; 109; 32]];
  d_and := [[42; 32];
      [73; 32];
      [65; 32]];
  d_but := [[42; 32];
      [65; 108; 105; 32]]
|}.

(* gherkin-languages.json:469, entry "ca" (Catalan) *)
Definition dialect_ca : dialect := {|
  d_feature := [[67; 97; 114; 97; 99; 116; 101; 114; 237; 115; 116; 105; 99; 97];
      [70; 117; 110; 99; 105; 111; 110; 97; 108; 105; 116; 97; 116]];
  d_rule := [[82; 117; 108; 101]];
  d_scenario := [[69; 120; 101; 109; 112; 108; 101];
      [69; 115; 99; 101; 110; 97; 114; 105]];
  d_scenarioOutline := [[69; 115; 113; 117; 101; 109; 97; 32; 100; 101; 32; 108; 39; 101; 115; 99; 101; 110; 97; 114; 105]];
  d_background := [[82; 101; 114; 101; 102; 111; 110; 115];
      [65; 110; 116; 101; 99; 101; 100; 101; 110; 116; 115]];
  d_examples := [[69; 120; 101; 109; 112; 108; 101; 115]];
  d_given := [[42; 32];
      [68; 111; 110; 97; 116; 32];
      [68; 111; 110; 97; 100; 97; 32];
      [65; 116; 232; 115; 32];
      [65; 116; 101; 115; 97; 32]];
  d_when := [[42; 32];
      [81; 117; 97; 110; 32]];
  d_then := [[42; 32];
      [65; 108; 101; 115; 104; 111; 114; 101; 115; 32];
      [67; 97; 108; 32]];
  d_and := [[42; 32];
      [73; 32]];
  d_but := [[42; 32];
      [80; 101; 114; 242; 32]]
|}.

(* gherkin-languages.json:518, entry "cs" (Czech) *)
Definition dialect_cs : dialect := {|
  d_feature := [[80; 111; 382; 97; 100; 97; 118; 101; 107]];
  d_rule := [[80; 114; 97; 118; 105; 100; 108; 111]];
  d_scenario := [[80; 345; 237; 107; 108; 97; 100];
      [83; 99; 233; 110; 225; 345]];
  d_scenarioOutline := [[78; 225; 269; 114; 116; 32; 83; 99; 233; 110; 225; 345; 101];
      [79; 115; 110; 111; 118; 97; 32; 115; 99; 233; 110; 225; 345; 101]];
  d_background := [[80; 111; 122; 97; 100; 237];
      [75; 111; 110; 116; 101; 120; 116]];
  d_examples := [[80; 345; 237; 107; 108; 97; 100; 121]];
  d_given := [[42; 32];
      [80; 111; 107; 117; 100; 32];
      [90; 97; 32; 112; 345; 101; 100; 112; 111; 107; 108; 97; 100; 117; 32]];
  d_when := [[42; 32];
      [75; 100; 121; 382; 32]];
  d_then := [[42; 32];
      [80; 97; 107; 32]];
  d_and := [[42; 32];
      [65; 32; 116; 97; 107; 233; 32];
      [65; 32]];
  d_but := [[42; 32];
      [65; 108; 101; 32]]
|}.

(* gherkin-languages.json:565, entry "cy-GB" (Welsh) *)
Definition dialect_cy_GB : dialect := {|
  d_feature := [[65; 114; 119; 101; 100; 100]];
  d_rule := [[82; 117; 108; 101]];
  d_scenario := [[69; 110; 103; 104; 114; 97; 105; 102; 102; 116];
      [83; 99; 101; 110; 97; 114; 105; 111]];
  d_scenarioOutline := [[83; 99; 101; 110; 97; 114; 105; 111; 32; 65; 109; 108; 105; 110; 101; 108; 108; 111; 108]];
  d_background := [[67; 101; 102; 110; 100; 105; 114]];
  d_examples := [[69; 110; 103; 104; 114; 101; 105; 102; 102; 116; 105; 97; 117]];
  d_given := [[42; 32];
      [65; 110; 114; 104; 101; 103; 101; 100; 105; 103; 32; 97; 32]];
  d_when := [[42; 32];
      [80; 114; 121; 100; 32]];
  d_then := [[42; 32];
      [89; 110; 97; 32]];
  d_and := [[42; 32];
      [65; 32]];
  d_but := [[42; 32];
      [79; 110; 100; 32]]
|}.

(* gherkin-languages.json:608, entry "da" (Danish) *)
Definition dialect_da : dialect := {|
  d_feature := [[69; 103; 101; 110; 115; 107; 97; 98]];
  d_rule := [[82; 117; 108; 101]];
  d_scenario := [[69; 107; 115; 101; 109; 112; 101; 108];
      [83; 99; 101; 110; 97; 114; 105; 101]];
  d_scenarioOutline := [[65; 98; 115; 116; 114; 97; 107; 116; 32; 83; 99; 101; 110; 97; 114; 105; 111]];
  d_background := [[66; 97; 103; 103; 114; 117; 110; 100]];
  d_examples := [[69; 107; 115; 101; 109; 112; 108; 101; 114]];
  d_given := [[42; 32];
      [71; 105; 118; 101; 116; 32]];
  d_when := [[42; 32];
      [78; 229; 114; 32]];
  d_then := [[42; 32];
      [83; 229; 32]];
  d_and := [[42; 32];
      [79; 103; 32]];
  d_but := [[42; 32];
      [77; 101; 110; 32]]
|}.

(* gherkin-languages.json:651, entry "de" (German) *)
Definition dialect_de : dialect := {|
  d_feature := [[70; 117; 110; 107; 116; 105; 111; 110; 97; 108; 105; 116; 228; 116];
      [70; 117; 110; 107; 116; 105; 111; 110]];
  d_rule := [[82; 117; 108; 101];
      [82; 101; 103; 101; 108]];
  d_scenario := [[66; 101; 105; 115; 112; 105; 101; 108];
      [83; 122; 101; 110; 97; 114; 105; 111]];
  d_scenarioOutline := [[83; 122; 101; 110; 97; 114; 105; 111; 103; 114; 117; 110; 100; 114; 105; 115; 115];
      [83; 122; 101; 110; 97; 114; 105; 101; 110]];
  d_background := [[71; 114; 117; 110; 100; 108; 97; 103; 101];
      [72; 105; 110; 116; 101; 114; 103; 114; 117; 110; 100];
      [86; 111; 114; 97; 117; 115; 115; 101; 116; 122; 117; 110; 103; 101; 110];
      [86; 111; 114; 98; 101; 100; 105; 110; 103; 117; 110; 103; 101; 110]];
  d_examples := [[66; 101; 105; 115; 112; 105; 101; 108; 101]];
  d_given := [[42; 32];
      [65; 110; 103; 101; 110; 111; 109; 109; 101; 110; 32];
      [71; 101; 103; 101; 98; 101; 110; 32; 115; 101; 105; 32];
      [71; 101; 103; 101; 98; 101; 110; 32; 115; 101; 105; 101; 110; 32]];
  d_when := [[42; 32];
      [87; 101; 110; 110; 32]];
  d_then := [[42; 32];
      [68; 97; 110; 110; 32]];
  d_and := [[42; 32];
      [85; 110; 100; 32]];
  d_but := [[42; 32];
      [65; 98; 101; 114; 32]]
|}.

(* gherkin-languages.json:702, entry "el" (Greek) *)
Definition dialect_el : dialect := {|
  d_feature := [[916; 965; 957; 945; 964; 972; 964; 951; 964; 945];
      [923; 949; 953; 964; 959; 965; 961; 947; 943; 945]];
  d_rule := [[82; 117; 108; 101]];
  d_scenario := [[928; 945; 961; 940; 948; 949; 953; 947; 956; 945];
      [931; 949; 957; 940; 961; 953; 959]];
  d_scenarioOutline := [[928; 949; 961; 953; 947; 961; 945; 966; 942; 32; 931; 949; 957; 945; 961; 943; 959; 965];
      [928; 949; 961; 943; 947; 961; 945; 956; 956; 945; 32; 931; 949; 957; 945; 961; 943; 959; 965]];
  d_background := [[933; 960; 972; 946; 945; 952; 961; 959]];
  d_examples := [[928; 945; 961; 945; 948; 949; 943; 947; 956; 945; 964; 945];
      [931; 949; 957; 940; 961; 953; 945]];
  d_given := [[42; 32];
      [916; 949; 948; 959; 956; 941; 957; 959; 965; 32]];
  d_when := [[42; 32];
      [908; 964; 945; 957; 32]];
  d_then := [[42; 32];
      [932; 972; 964; 949; 32]];
  d_and := [[42; 32];
      [922; 945; 953; 32]];
  d_but := [[42; 32];
      [913; 955; 955; 940; 32]]
|}.

(* gherkin-languages.json:748, entry "em" (Emoji) *)
Definition dialect_em : dialect := {|
  d_feature := [[128218]];
  d_rule := [[82; 117; 108; 101]];
  d_scenario := [[129362];
      [128213]];
  d_scenarioOutline := [[128214]];
  d_background := [[128164]];
  d_examples := [[128211]];
  d_given := [[42; 32];
      [128528]];
  d_when := [[42; 32];
      [127916]];
  d_then := [[42; 32];
      [128591]];
  d_and := [[42; 32];
      [128514]];
  d_but := [[42; 32];
      [128532]]
|}.

(* gherkin-languages.json:791, entry "en" (English) *)
Definition dialect_en : dialect := {|
  d_feature := [[70; 101; 97; 116; 117; 114; 101];
      [66; 117; 115; 105; 110; 101; 115; 115; 32; 78; 101; 101; 100];
      [65; 98; 105; 108; 105; 116; 121]];
  d_rule := [[82; 117; 108; 101]];
  d_scenario := [[69; 120; 97; 109; 112; 108; 101];
      [83; 99; 101; 110; 97; 114; 105; 111]];
  d_scenarioOutline := [[83; 99; 101; 110; 97; 114; 105; 111; 32; 79; 117; 116; 108; 105; 110; 101];
      [83; 99; 101; 110; 97; 114; 105; 111; 32; 84; 101; 109; 112; 108; 97; 116; 101]];
  d_background := [[66; 97; 99; 107; 103; 114; 111; 117; 110; 100]];
  d_examples := [[69; 120; 97; 109; 112; 108; 101; 115];
      [83; 99; 101; 110; 97; 114; 105; 111; 115]];
  d_given := [[42; 32];
      [71; 105; 118; 101; 110; 32]];
  d_when := [[42; 32];
      [87; 104; 101; 110; 32]];
  d_then := [[42; 32];
      [84; 104; 101; 110; 32]];
  d_and := [[42; 32];
      [65; 110; 100; 32]];
  d_but := [[42; 32];
      [66; 117; 116; 32]]
|}.

(* gherkin-languages.json:838, entry "en-Scouse" (Scouse) *)
Definition dialect_en_Scouse : dialect := {|
  d_feature := [[70; 101; 97; 116; 117; 114; 101]];
  d_rule := [[82; 117; 108; 101]];
  d_scenario := [[84; 104; 101; 32; 116; 104; 105; 110; 103; 32; 111; 102; 32; 105; 116; 32; 105; 115]];
  d_scenarioOutline := [[87; 104; 97; 114; 114; 105; 109; 101; 97; 110; 32; 105; 115]];
  d_background := [[68; 105; 115; 32; 105; 115; 32; 119; 104; 97; 116; 32; 119; 101; 110; 116; 32; 100; 111; 119; 110]];
  d_examples := [[69; 120; 97; 109; 112; 108; 101; 115]];
  d_given := [[42; 32];
      [71; 105; 118; 117; 110; 32];
      [89; 111; 117; 115; 101; 32; 107; 110; 111; 119; 32; 119; 104; 101; 110; 32; 121; 111; 117; 115; 101; 32; 103; 111; 116; 32]];
  d_when := [[42; 32];
      [87; 117; 110; 32];
      [89; 111; 117; 115; 101; 32; 107; 110; 111; 119; 32; 108; 105; 107; 101; 32; 119; 104; 101; 110; 32]];
  d_then := [[42; 32];
      [68; 117; 110; 32];
      [68; 101; 110; 32; 121; 111; 117; 115; 101; 32; 103; 111; 116; 116; 97; 32]];
  d_and := [[42; 32];
      [65; 110; 32]];
  d_but := [[42; 32];
      [66; 117; 104; 32]]
|}.

(* gherkin-languages.json:883, entry "en-au" (Australian) *)
Definition dialect_en_au : dialect := {|
  d_feature := [[80; 114; 101; 116; 116; 121; 32; 109; 117; 99; 104]];
  d_rule := [[82; 117; 108; 101]];
  d_scenario := [[65; 119; 119; 119; 44; 32; 108; 111; 111; 107; 32; 109; 97; 116; 101]];
  d_scenarioOutline := [[82; 101; 99; 107; 111; 110; 32; 105; 116; 39; 115; 32; 108; 105; 107; 101]];
  d_background := [[70; 105; 114; 115; 116; 32; 111; 102; 102]];
  d_examples := [[89; 111; 117; 39; 108; 108; 32; 119; 97; 110; 110; 97]];
  d_given := [[42; 32];
      [89; 39; 107; 110; 111; 119; 32]];
  d_when := [[42; 32];
      [73; 116; 39; 115; 32; 106; 117; 115; 116; 32; 117; 110; 98; 101; 108; 105; 101; 118; 97; 98; 108; 101; 32]];
  d_then := [[42; 32];
      [66; 117; 116; 32; 97; 116; 32; 116; 104; 101; 32; 101; 110; 100; 32; 111; 102; 32; 116; 104; 101; 32; 100; 97; 121; 32; 73; 32; 114; 101; 99; 107; 111; 110; 32]];
  d_and := [[42; 32];
      [84; 111; 111; 32; 114; 105; 103; 104; 116; 32]];
  d_but := [[42; 32];
      [89; 101; 97; 104; 32; 110; 97; 104; 32]]
|}.

(* gherkin-languages.json:925, entry "en-lol" (LOLCAT) *)
Definition dialect_en_lol : dialect := {|
  d_feature := [[79; 72; 32; 72; 65; 73]];
  d_rule := [[82; 117; 108; 101]];
  d_scenario := [[77; 73; 83; 72; 85; 78]];
  d_scenarioOutline := [[77; 73; 83; 72; 85; 78; 32; 83; 82; 83; 76; 89]];
  d_background := [[66; 52]];
  d_examples := [[69; 88; 65; 77; 80; 76; 90]];
  d_given := [[42; 32];
      [73; 32; 67; 65; 78; 32; 72; 65; 90; 32]];
  d_when := [[42; 32];
      [87; 69; 78; 32]];
  d_then := [[42; 32];
      [68; 69; 78; 32]];
  d_and := [[42; 32];
      [65; 78; 32]];
  d_but := [[42; 32];
      [66; 85; 84; 32]]
|}.

(* gherkin-languages.json:967, entry "en-old" (Old English) *)
Definition dialect_en_old : dialect := {|
  d_feature := [[72; 119; 97; 101; 116];
      [72; 119; 230; 116]];
  d_rule := [[82; 117; 108; 101]];
  d_scenario := [[83; 119; 97]];
  d_scenarioOutline := [[83; 119; 97; 32; 104; 119; 97; 101; 114; 32; 115; 119; 97];
      [83; 119; 97; 32; 104; 119; 230; 114; 32; 115; 119; 97]];
  d_background := [[65; 101; 114];
      [198; 114]];
  d_examples := [[83; 101; 32; 116; 104; 101];
      [83; 101; 32; 254; 101];
      [83; 101; 32; 240; 101]];
  d_given := [[42; 32];
      [84; 104; 117; 114; 104; 32];
      [222; 117; 114; 104; 32];
      [208; 117; 114; 104; 32]];
  d_when := [[42; 32];
      [66; 230; 254; 115; 101; 97; 108; 102; 32];
      [66; 230; 254; 115; 101; 97; 108; 102; 97; 32];
      [66; 230; 254; 115; 101; 97; 108; 102; 101; 32];
      [67; 105; 114; 105; 99; 230; 119; 32];
      [67; 105; 114; 105; 99; 230; 119; 101; 32];
      [67; 105; 114; 105; 99; 230; 119; 97; 32]];
  d_then := [[42; 32];
      [84; 104; 97; 32];
      [222; 97; 32];
      [208; 97; 32];
      [84; 104; 97; 32; 116; 104; 101; 32];
      [222; 97; 32; 254; 101; 32];
      [208; 97; 32; 240; 101; 32]];
  d_and := [[42; 32];
      [79; 110; 100; 32];
      [55; 32]];
  d_but := [[42; 32];
      [65; 99; 32]]
|}.

(* gherkin-languages.json:1027, entry "en-pirate" (Pirate) *)
Definition dialect_en_pirate : dialect := {|
  d_feature := [[65; 104; 111; 121; 32; 109; 97; 116; 101; 121; 33]];
  d_rule := [[82; 117; 108; 101]];
  d_scenario := [[72; 101; 97; 118; 101; 32; 116; 111]];
  d_scenarioOutline := [[83; 104; 105; 118; 101; 114; 32; 109; 101; 32; 116; 105; 109; 98; 101; 114; 115]];
  d_background := [[89; 111; 45; 104; 111; 45; 104; 111]];
  d_examples := [[68; 101; 97; 100; 32; 109; 101; 110; 32; 116; 101; 108; 108; 32; 110; 111; 32; 116; 97; 108; 101; 115]];
  d_given := [[42; 32];
      [71; 97; 110; 103; 119; 97; 121; 33; 32]];
  d_when := [[42; 32];
      [66; 108; 105; 109; 101; 121; 33; 32]];
  d_then := [[42; 32];
      [76; 101; 116; 32; 103; 111; 32; 97; 110; 100; 32; 104; 97; 117; 108; 32]];
  d_and := [[42; 32];
      [65; 121; 101; 32]];
  d_but := [[42; 32];
      [65; 118; 97; 115; 116; 33; 32]]
|}.

(* gherkin-languages.json:1069, entry "en-tx" (Texas) *)
Definition dialect_en_tx : dialect := {|
  d_feature := [[84; 104; 105; 115; 32; 97; 105; 110; 8217; 116; 32; 109; 121; 32; 102; 105; 114; 115; 116; 32; 114; 111; 100; 101; 111];
      [65; 108; 108; 32; 103; 117; 115; 115; 105; 101; 100; 32; 117; 112]];
  d_rule := [[82; 117; 108; 101; 32]];
  d_scenario := [[65; 108; 108; 32; 104; 97; 116; 32; 97; 110; 100; 32; 110; 111; 32; 99; 97; 116; 116; 108; 101]];
  d_scenarioOutline := [[83; 101; 114; 105; 111; 117; 115; 32; 97; 115; 32; 97; 32; 115; 110; 97; 107; 101; 32; 98; 105; 116; 101];
      [66; 117; 115; 121; 32; 97; 115; 32; 97; 32; 104; 111; 117; 110; 100; 32; 105; 110; 32; 102; 108; 101; 97; 32; 115; 101; 97; 115; 111; 110]];
  d_background := [[76; 101; 109; 109; 101; 32; 116; 101; 108; 108; 32; 121; 39; 97; 108; 108; 32; 97; 32; 115; 116; 111; 114; 121]];
  d_examples := [[78; 111; 119; 32; 116; 104; 97; 116; 39; 115; 32; 97; 32; 115; 116; 111; 114; 121; 32; 108; 111; 110; 103; 101; 114; 32; 116; 104; 97; 110; 32; 97; 32; 99; 97; 116; 116; 108; 101; 32; 100; 114; 105; 118; 101; 32; 105; 110; 32; 74; 117; 108; 121]];
  d_given := [[70; 105; 120; 105; 110; 39; 32; 116; 111; 32];
      [65; 108; 108; 32; 103; 105; 116; 32; 111; 117; 116; 32]];
  d_when := [[81; 117; 105; 99; 107; 32; 111; 117; 116; 32; 111; 102; 32; 116; 104; 101; 32; 99; 104; 117; 116; 101; 32]];
  d_then := [[84; 104; 101; 114; 101; 8217; 115; 32; 110; 111; 32; 116; 114; 101; 101; 32; 98; 117; 116; 32; 98; 101; 97; 114; 115; 32; 115; 111; 109; 101; 32; 102; 114; 117; 105; 116; 32]];
  d_and := [[67; 111; 109; 101; 32; 104; 101; 108; 108; 32; 111; 114; 32; 104; 105; 103; 104; 32; 119; 97; 116; 101; 114; 32]];
  d_but := [[87; 101; 108; 108; 32; 110; 111; 119; 32; 104; 111; 108; 100; 32; 111; 110; 44; 32; 73; 39; 108; 108; 32; 121; 111; 117; 32; 119; 104; 97; 116; 32]]
|}.

(* gherkin-languages.json:1109, entry "eo" (Esperanto) *)
Definition dialect_eo : dialect := {|
  d_feature := [[84; 114; 97; 106; 116; 111]];
  d_rule := [[82; 117; 108; 101]];
  d_scenario := [[69; 107; 122; 101; 109; 112; 108; 111];
      [83; 99; 101; 110; 97; 114; 111];
      [75; 97; 122; 111]];
  d_scenarioOutline := [[75; 111; 110; 116; 117; 114; 111; 32; 100; 101; 32; 108; 97; 32; 115; 99; 101; 110; 97; 114; 111];
      [83; 107; 105; 122; 111];
      [75; 97; 122; 111; 45; 115; 107; 105; 122; 111]];
  d_background := [[70; 111; 110; 111]];
  d_examples := [[69; 107; 122; 101; 109; 112; 108; 111; 106]];
  d_given := [[42; 32];
      [68; 111; 110; 105; 116; 97; 309; 111; 32];
      [75; 111; 109; 101; 110; 99; 101; 32]];
  d_when := [[42; 32];
      [83; 101; 32]];
  d_then := [[42; 32];
      [68; 111; 32]];
  d_and := [[42; 32];
      [75; 97; 106; 32]];
  d_but := [[42; 32];
      [83; 101; 100; 32]]
|}.

(* gherkin-languages.json:1156, entry "es" (Spanish) *)
Definition dialect_es : dialect := {|
  d_feature := [[67; 97; 114; 97; 99; 116; 101; 114; 237; 115; 116; 105; 99; 97];
      [78; 101; 99; 101; 115; 105; 100; 97; 100; 32; 100; 101; 108; 32; 110; 101; 103; 111; 99; 105; 111];
      [82; 101; 113; 117; 105; 115; 105; 116; 111]];
  d_rule := [[82; 101; 103; 108; 97];
      [82; 101; 103; 108; 97; 32; 100; 101; 32; 110; 101; 103; 111; 99; 105; 111]];
  d_scenario := [[69; 106; 101; 109; 112; 108; 111];
      [69; 115; 99; 101; 110; 97; 114; 105; 111]];
  d_scenarioOutline := [[69; 115; 113; 117; 101; 109; 97; 32; 100; 101; 108; 32; 101; 115; 99; 101; 110; 97; 114; 105; 111]];
  d_background := [[65; 110; 116; 101; 99; 101; 100; 101; 110; 116; 101; 115]];
  d_examples := [[69; 106; 101; 109; 112; 108; 111; 115]];
  d_given := [[42; 32];
      [68; 97; 100; 111; 32];
      [68; 97; 100; 97; 32];
      [68; 97; 100; 111; 115; 32];
      [68; 97; 100; 97; 115; 32]];
  d_when := [[42; 32];
      [67; 117; 97; 110; 100; 111; 32]];
  d_then := [[42; 32];
      [69; 110; 116; 111; 110; 99; 101; 115; 32]];
  d_and := [[42; 32];
      [89; 32];
      [69; 32]];
  d_but := [[42; 32];
      [80; 101; 114; 111; 32]]
|}.

(* gherkin-languages.json:1206, entry "et" (Estonian) *)
Definition dialect_et : dialect := {|
  d_feature := [[79; 109; 97; 100; 117; 115]];
  d_rule := [[82; 101; 101; 103; 101; 108]];
  d_scenario := [[74; 117; 104; 116; 117; 109];
      [83; 116; 115; 101; 110; 97; 97; 114; 105; 117; 109]];
  d_scenarioOutline := [[82; 97; 97; 109; 106; 117; 104; 116; 117; 109];
      [82; 97; 97; 109; 115; 116; 115; 101; 110; 97; 97; 114; 105; 117; 109]];
  d_background := [[84; 97; 117; 115; 116]];
  d_examples := [[74; 117; 104; 116; 117; 109; 105; 100]];
  d_given := [[42; 32];
      [69; 101; 108; 100; 97; 100; 101; 115; 32]];
  d_when := [[42; 32];
      [75; 117; 105; 32]];
  d_then := [[42; 32];
      [83; 105; 105; 115; 32]];
  d_and := [[42; 32];
      [74; 97; 32]];
  d_but := [[42; 32];
      [75; 117; 105; 100; 32]]
|}.

(* gherkin-languages.json:1250, entry "fa" (Persian) *)
Definition dialect_fa : dialect := {|
  d_feature := [[1608; 1616; 1740; 1688; 1711; 1740]];
  d_rule := [[82; 117; 108; 101]];
  d_scenario := [[1605; 1579; 1575; 1604];
      [1587; 1606; 1575; 1585; 1740; 1608]];
  d_scenarioOutline := [[1575; 1604; 1711; 1608; 1740; 32; 1587; 1606; 1575; 1585; 1740; 1608]];
  d_background := [[1586; 1605; 1740; 1606; 1607]];
  d_examples := [[1606; 1605; 1608; 1606; 1607; 32; 1607; 1575]];
  d_given := [[42; 32];
      [1576; 1575; 32; 1601; 1585; 1590; 32]];
  d_when := [[42; 32];
      [1607; 1606; 1711; 1575; 1605; 1740; 32]];
  d_then := [[42; 32];
      [1570; 1606; 1711; 1575; 1607; 32]];
  d_and := [[42; 32];
      [1608; 32]];
  d_but := [[42; 32];
      [1575; 1605; 1575; 32]]
|}.

(* gherkin-languages.json:1293, entry "fi" (Finnish) *)
Definition dialect_fi : dialect := {|
  d_feature := [[79; 109; 105; 110; 97; 105; 115; 117; 117; 115]];
  d_rule := [[82; 117; 108; 101]];
  d_scenario := [[84; 97; 112; 97; 117; 115]];
  d_scenarioOutline := [[84; 97; 112; 97; 117; 115; 97; 105; 104; 105; 111]];
  d_background := [[84; 97; 117; 115; 116; 97]];
  d_examples := [[84; 97; 112; 97; 117; 107; 115; 101; 116]];
  d_given := [[42; 32];
      [79; 108; 101; 116; 101; 116; 97; 97; 110; 32]];
  d_when := [[42; 32];
      [75; 117; 110; 32]];
  d_then := [[42; 32];
      [78; 105; 105; 110; 32]];
  d_and := [[42; 32];
      [74; 97; 32]];
  d_but := [[42; 32];
      [77; 117; 116; 116; 97; 32]]
|}.

(* gherkin-languages.json:1335, entry "fr" (French) *)
Definition dialect_fr : dialect := {|
  d_feature := [[70; 111; 110; 99; 116; 105; 111; 110; 110; 97; 108; 105; 116; 233]];
  d_rule := [[82; 232; 103; 108; 101]];
  d_scenario := [[69; 120; 101; 109; 112; 108; 101];
      [83; 99; 233; 110; 97; 114; 105; 111]];
  d_scenarioOutline := [[80; 108; 97; 110; 32; 100; 117; 32; 115; 99; 233; 110; 97; 114; 105; 111];
      [80; 108; 97; 110; 32; 100; 117; 32; 83; 99; 233; 110; 97; 114; 105; 111]];
  d_background := [[67; 111; 110; 116; 101; 120; 116; 101]];
  d_examples := [[69; 120; 101; 109; 112; 108; 101; 115]];
  d_given := [[42; 32];
      [83; 111; 105; 116; 32];
      [83; 97; 99; 104; 97; 110; 116; 32; 113; 117; 101; 32];
      [83; 97; 99; 104; 97; 110; 116; 32; 113; 117; 39];
      [83; 97; 99; 104; 97; 110; 116; 32];
      [69; 116; 97; 110; 116; 32; 100; 111; 110; 110; 233; 32; 113; 117; 101; 32];
      [69; 116; 97; 110; 116; 32; 100; 111; 110; 110; 233; 32; 113; 117; 39];
      [69; 116; 97; 110; 116; 32; 100; 111; 110; 110; 233; 32];
      [69; 116; 97; 110; 116; 32; 100; 111; 110; 110; 233; 101; 32];
      [69; 116; 97; 110; 116; 32; 100; 111; 110; 110; 233; 115; 32];
      [69; 116; 97; 110; 116; 32; 100; 111; 110; 110; 233; 101; 115; 32];
      [201; 116; 97; 110; 116; 32; 100; 111; 110; 110; 233; 32; 113; 117; 101; 32];
      [201; 116; 97; 110; 116; 32; 100; 111; 110; 110; 233; 32; 113; 117; 39];
      [201; 116; 97; 110; 116; 32; 100; 111; 110; 110; 233; 32];
      [201; 116; 97; 110; 116; 32; 100; 111; 110; 110; 233; 101; 32];
      [201; 116; 97; 110; 116; 32; 100; 111; 110; 110; 233; 115; 32];
      [201; 116; 97; 110; 116; 32; 100; 111; 110; 110; 233; 101; 115; 32]];
  d_when := [[42; 32];
      [81; 117; 97; 110; 100; 32];
      [76; 111; 114; 115; 113; 117; 101; 32];
      [76; 111; 114; 115; 113; 117; 39]];
  d_then := [[42; 32];
      [65; 108; 111; 114; 115; 32];
      [68; 111; 110; 99; 32]];
  d_and := [[42; 32];
      [69; 116; 32; 113; 117; 101; 32];
      [69; 116; 32; 113; 117; 39];
      [69; 116; 32]];
  d_but := [[42; 32];
      [77; 97; 105; 115; 32; 113; 117; 101; 32];
      [77; 97; 105; 115; 32; 113; 117; 39];
      [77; 97; 105; 115; 32]]
|}.

(* gherkin-languages.json:1401, entry "ga" (Irish) *)
Definition dialect_ga : dialect := {|
  d_feature := [[71; 110; 233]];
  d_rule := [[82; 117; 108; 101]];
  d_scenario := [[83; 97; 109; 112; 108; 97];
      [67; 225; 115]];
  d_scenarioOutline := [[67; 225; 115; 32; 65; 99; 104; 111; 109; 97; 105; 114]];
  d_background := [[67; 250; 108; 114; 97]];
  d_examples := [[83; 97; 109; 112; 108; 97; 237]];
  d_given := [[42; 32];
      [67; 117; 105; 114; 32; 105; 32; 103; 99; 225; 115; 32; 103; 111];
      [67; 117; 105; 114; 32; 105; 32; 103; 99; 225; 115; 32; 110; 97; 99; 104];
      [67; 117; 105; 114; 32; 105; 32; 103; 99; 225; 115; 32; 103; 117; 114];
      [67; 117; 105; 114; 32; 105; 32; 103; 99; 225; 115; 32; 110; 225; 114]];
  d_when := [[42; 32];
      [78; 117; 97; 105; 114; 32; 97];
      [78; 117; 97; 105; 114; 32; 110; 97; 99; 104];
      [78; 117; 97; 105; 114; 32; 98; 97];
      [78; 117; 97; 105; 114; 32; 110; 225; 114]];
  d_then := [[42; 32];
      [65; 110; 115; 105; 110]];
  d_and := [[42; 32];
      [65; 103; 117; 115]];
  d_but := [[42; 32];
      [65; 99; 104]]
|}.

(* gherkin-languages.json:1450, entry "gj" (Gujarati) *)
Definition dialect_gj : dialect := {|
  d_feature := [[2738; 2709; 2765; 2743; 2723];
      [2741; 2765; 2735; 2750; 2730; 2750; 2736; 32; 2716; 2736; 2754; 2736];
      [2709; 2765; 2743; 2734; 2724; 2750]];
  d_rule := [[82; 117; 108; 101]];
  d_scenario := [[2697; 2726; 2750; 2745; 2736; 2723];
      [2744; 2765; 2725; 2751; 2724; 2751]];
  d_scenarioOutline := [[2730; 2736; 2751; 2726; 2765; 2726; 2742; 2765; 2735; 32; 2736; 2754; 2730; 2736; 2759; 2710; 2750];
      [2730; 2736; 2751; 2726; 2765; 2726; 2742; 2765; 2735; 32; 2722; 2750; 2690; 2714; 2763]];
  d_background := [[2732; 2759; 2709; 2711; 2765; 2736; 2750; 2697; 2728; 2765; 2721]];
  d_examples := [[2697; 2726; 2750; 2745; 2736; 2723; 2763]];
  d_given := [[42; 32];
      [2694; 2730; 2759; 2738; 32; 2715; 2759; 32]];
  d_when := [[42; 32];
      [2709; 2765; 2735; 2750; 2736; 2759; 32]];
  d_then := [[42; 32];
      [2730; 2715; 2752; 32]];
  d_and := [[42; 32];
      [2693; 2728; 2759; 32]];
  d_but := [[42; 32];
      [2730; 2723; 32]]
|}.

(* gherkin-languages.json:1496, entry "gl" (Galician) *)
Definition dialect_gl : dialect := {|
  d_feature := [[67; 97; 114; 97; 99; 116; 101; 114; 237; 115; 116; 105; 99; 97]];
  d_rule := [[82; 117; 108; 101]];
  d_scenario := [[69; 120; 101; 109; 112; 108; 111];
      [69; 115; 99; 101; 110; 97; 114; 105; 111]];
  d_scenarioOutline := [[69; 115; 98; 111; 122; 111; 32; 100; 111; 32; 101; 115; 99; 101; 110; 97; 114; 105; 111]];
  d_background := [[67; 111; 110; 116; 101; 120; 116; 111]];
  d_examples := [[69; 120; 101; 109; 112; 108; 111; 115]];
  d_given := [[42; 32];
      [68; 97; 100; 111; 32];
      [68; 97; 100; 97; 32];
      [68; 97; 100; 111; 115; 32];
      [68; 97; 100; 97; 115; 32]];
  d_when := [[42; 32];
      [67; 97; 110; 100; 111; 32]];
  d_then := [[42; 32];
      [69; 110; 116; 243; 110; 32];
      [76; 111; 103; 111; 32]];
  d_and := [[42; 32];
      [69; 32]];
  d_but := [[42; 32];
      [77; 97; 105; 115; 32];
      [80; 101; 114; 111; 32]]
|}.

(* gherkin-languages.json:1544, entry "he" (Hebrew) *)
Definition dialect_he : dialect := {|
  d_feature := [[1514; 1499; 1493; 1504; 1492]];
  d_rule := [[1499; 1500; 1500]];
  d_scenario := [[1491; 1493; 1490; 1502; 1488];
      [1514; 1512; 1495; 1497; 1513]];
  d_scenarioOutline := [[1514; 1489; 1504; 1497; 1514; 32; 1514; 1512; 1495; 1497; 1513]];
  d_background := [[1512; 1511; 1506]];
  d_examples := [[1491; 1493; 1490; 1502; 1488; 1493; 1514]];
  d_given := [[42; 32];
      [1489; 1492; 1497; 1504; 1514; 1503; 32]];
  d_when := [[42; 32];
      [1499; 1488; 1513; 1512; 32]];
  d_then := [[42; 32];
      [1488; 1494; 32];
      [1488; 1494; 1497; 32]];
  d_and := [[42; 32];
      [1493; 1490; 1501; 32]];
  d_but := [[42; 32];
      [1488; 1489; 1500; 32]]
|}.

(* gherkin-languages.json:1588, entry "hi" (Hindi) *)
Definition dialect_hi : dialect := {|
  d_feature := [[2352; 2370; 2346; 32; 2354; 2375; 2326]];
  d_rule := [[2344; 2367; 2351; 2350]];
  d_scenario := [[2346; 2352; 2367; 2342; 2371; 2358; 2381; 2351]];
  d_scenarioOutline := [[2346; 2352; 2367; 2342; 2371; 2358; 2381; 2351; 32; 2352; 2370; 2346; 2352; 2375; 2326; 2366]];
  d_background := [[2346; 2371; 2359; 2381; 2336; 2349; 2370; 2350; 2367]];
  d_examples := [[2313; 2342; 2366; 2361; 2352; 2339]];
  d_given := [[42; 32];
      [2309; 2327; 2352; 32];
      [2351; 2342; 2367; 32];
      [2330; 2370; 2306; 2325; 2367; 32]];
  d_when := [[42; 32];
      [2332; 2348; 32];
      [2325; 2342; 2366; 32]];
  d_then := [[42; 32];
      [2340; 2348; 32];
      [2340; 2342; 2366; 32]];
  d_and := [[42; 32];
      [2324; 2352; 32];
      [2340; 2341; 2366; 32]];
  d_but := [[42; 32];
      [2346; 2352; 32];
      [2346; 2352; 2344; 2381; 2340; 2369; 32];
      [2325; 2367; 2344; 2381; 2340; 2369; 32]]
|}.

(* gherkin-languages.json:1637, entry "hr" (Croatian) *)
Definition dialect_hr : dialect := {|
  d_feature := [[79; 115; 111; 98; 105; 110; 97];
      [77; 111; 103; 117; 263; 110; 111; 115; 116];
      [77; 111; 103; 117; 99; 110; 111; 115; 116]];
  d_rule := [[82; 117; 108; 101]];
  d_scenario := [[80; 114; 105; 109; 106; 101; 114];
      [83; 99; 101; 110; 97; 114; 105; 106]];
  d_scenarioOutline := [[83; 107; 105; 99; 97];
      [75; 111; 110; 99; 101; 112; 116]];
  d_background := [[80; 111; 122; 97; 100; 105; 110; 97]];
  d_examples := [[80; 114; 105; 109; 106; 101; 114; 105];
      [83; 99; 101; 110; 97; 114; 105; 106; 105]];
  d_given := [[42; 32];
      [90; 97; 100; 97; 110; 32];
      [90; 97; 100; 97; 110; 105; 32];
      [90; 97; 100; 97; 110; 111; 32];
      [85; 107; 111; 108; 105; 107; 111; 32]];
  d_when := [[42; 32];
      [75; 97; 100; 97; 32];
      [75; 97; 100; 32]];
  d_then := [[42; 32];
      [79; 110; 100; 97; 32]];
  d_and := [[42; 32];
      [73; 32]];
  d_but := [[42; 32];
      [65; 108; 105; 32]]
|}.

(* gherkin-languages.json:1688, entry "ht" (Creole) *)
Definition dialect_ht : dialect := {|
  d_feature := [[75; 97; 114; 97; 107; 116; 101; 114; 105; 115; 116; 105; 107];
      [77; 97; 107];
      [70; 111; 110; 107; 115; 121; 111; 110; 97; 108; 105; 116; 101]];
  d_rule := [[82; 117; 108; 101]];
  d_scenario := [[83; 101; 110; 97; 114; 121; 111]];
  d_scenarioOutline := [[80; 108; 97; 110; 32; 115; 101; 110; 97; 114; 121; 111];
      [80; 108; 97; 110; 32; 83; 101; 110; 97; 114; 121; 111];
      [83; 101; 110; 97; 114; 121; 111; 32; 100; 101; 115; 107; 114; 105; 112; 115; 121; 111; 110];
      [83; 101; 110; 97; 114; 121; 111; 32; 68; 101; 115; 107; 114; 105; 112; 115; 121; 111; 110];
      [68; 121; 97; 103; 114; 97; 109; 32; 115; 101; 110; 97; 114; 121; 111];
      [68; 121; 97; 103; 114; 97; 109; 32; 83; 101; 110; 97; 114; 121; 111]];
  d_background := [[75; 111; 110; 116; 232; 107; 115];
      [73; 115; 116; 111; 114; 105; 107]];
  d_examples := [[69; 103; 122; 97; 110; 112]];
  d_given := [[42; 32];
      [83; 105; 112; 111; 122; 101; 32];
      [83; 105; 112; 111; 122; 101; 32; 107; 101; 32];
      [83; 105; 112; 111; 122; 101; 32; 75; 101; 32]];
  d_when := [[42; 32];
      [76; 232; 32];
      [76; 101; 32]];
  d_then := [[42; 32];
      [76; 232; 32; 115; 97; 32; 97; 32];
      [76; 101; 32; 115; 97; 32; 97; 32]];
  d_and := [[42; 32];
      [65; 107; 32];
      [69; 112; 105; 32];
      [69; 32]];
  d_but := [[42; 32];
      [77; 101; 110; 32]]
|}.

(* gherkin-languages.json:1744, entry "hu" (Hungarian) *)
Definition dialect_hu : dialect := {|
  d_feature := [[74; 101; 108; 108; 101; 109; 122; 337]];
  d_rule := [[83; 122; 97; 98; 225; 108; 121]];
  d_scenario := [[80; 233; 108; 100; 97];
      [70; 111; 114; 103; 97; 116; 243; 107; 246; 110; 121; 118]];
  d_scenarioOutline := [[70; 111; 114; 103; 97; 116; 243; 107; 246; 110; 121; 118; 32; 118; 225; 122; 108; 97; 116]];
  d_background := [[72; 225; 116; 116; 233; 114]];
  d_examples := [[80; 233; 108; 100; 225; 107]];
  d_given := [[42; 32];
      [65; 109; 101; 110; 110; 121; 105; 98; 101; 110; 32];
      [65; 100; 111; 116; 116; 32]];
  d_when := [[42; 32];
      [77; 97; 106; 100; 32];
      [72; 97; 32];
      [65; 109; 105; 107; 111; 114; 32]];
  d_then := [[42; 32];
      [65; 107; 107; 111; 114; 32]];
  d_and := [[42; 32];
      [201; 115; 32]];
  d_but := [[42; 32];
      [68; 101; 32]]
|}.

(* gherkin-languages.json:1790, entry "id" (Indonesian) *)
Definition dialect_id : dialect := {|
  d_feature := [[70; 105; 116; 117; 114]];
  d_rule := [[82; 117; 108; 101];
      [65; 116; 117; 114; 97; 110]];
  d_scenario := [[83; 107; 101; 110; 97; 114; 105; 111]];
  d_scenarioOutline := [[83; 107; 101; 110; 97; 114; 105; 111; 32; 107; 111; 110; 115; 101; 112];
      [71; 97; 114; 105; 115; 45; 66; 101; 115; 97; 114; 32; 83; 107; 101; 110; 97; 114; 105; 111]];
  d_background := [[68; 97; 115; 97; 114];
      [76; 97; 116; 97; 114; 32; 66; 101; 108; 97; 107; 97; 110; 103]];
  d_examples := [[67; 111; 110; 116; 111; 104];
      [77; 105; 115; 97; 108]];
  d_given := [[42; 32];
      [68; 101; 110; 103; 97; 110; 32];
      [68; 105; 107; 101; 116; 97; 104; 117; 105; 32];
      [68; 105; 97; 115; 117; 109; 115; 105; 107; 97; 110; 32];
      [66; 105; 108; 97; 32];
      [74; 105; 107; 97; 32]];
  d_when := [[42; 32];
      [75; 101; 116; 105; 107; 97; 32]];
  d_then := [[42; 32];
      [77; 97; 107; 97; 32];
      [75; 101; 109; 117; 100; 105; 97; 110; 32]];
  d_and := [[42; 32];
      [68; 97; 110; 32]];
  d_but := [[42; 32];
      [84; 97; 112; 105; 32];
      [84; 101; 116; 97; 112; 105; 32]]
|}.

(* gherkin-languages.json:1842, entry "is" (Icelandic) *)
Definition dialect_is : dialect := {|
  d_feature := [[69; 105; 103; 105; 110; 108; 101; 105; 107; 105]];
  d_rule := [[82; 117; 108; 101]];
  d_scenario := [[65; 116; 98; 117; 114; 240; 97; 114; 225; 115]];
  d_scenarioOutline := [[76; 253; 115; 105; 110; 103; 32; 65; 116; 98; 117; 114; 240; 97; 114; 225; 115; 97; 114];
      [76; 253; 115; 105; 110; 103; 32; 68; 230; 109; 97]];
  d_background := [[66; 97; 107; 103; 114; 117; 110; 110; 117; 114]];
  d_examples := [[68; 230; 109; 105];
      [65; 116; 98; 117; 114; 240; 97; 114; 225; 115; 105; 114]];
  d_given := [[42; 32];
      [69; 102; 32]];
  d_when := [[42; 32];
      [222; 101; 103; 97; 114; 32]];
  d_then := [[42; 32];
      [222; 225; 32]];
  d_and := [[42; 32];
      [79; 103; 32]];
  d_but := [[42; 32];
      [69; 110; 32]]
|}.

(* gherkin-languages.json:1886, entry "it" (Italian) *)
Definition dialect_it : dialect := {|
  d_feature := [[70; 117; 110; 122; 105; 111; 110; 97; 108; 105; 116; 224];
      [69; 115; 105; 103; 101; 110; 122; 97; 32; 100; 105; 32; 66; 117; 115; 105; 110; 101; 115; 115];
      [65; 98; 105; 108; 105; 116; 224]];
  d_rule := [[82; 101; 103; 111; 108; 97]];
  d_scenario := [[69; 115; 101; 109; 112; 105; 111];
      [83; 99; 101; 110; 97; 114; 105; 111]];
  d_scenarioOutline := [[83; 99; 104; 101; 109; 97; 32; 100; 101; 108; 108; 111; 32; 115; 99; 101; 110; 97; 114; 105; 111]];
  d_background := [[67; 111; 110; 116; 101; 115; 116; 111]];
  d_examples := [[69; 115; 101; 109; 112; 105]];
  d_given := [[42; 32];
      [68; 97; 116; 111; 32];
      [68; 97; 116; 97; 32];
      [68; 97; 116; 105; 32];
      [68; 97; 116; 101; 32]];
  d_when := [[42; 32];
      [81; 117; 97; 110; 100; 111; 32]];
  d_then := [[42; 32];
      [65; 108; 108; 111; 114; 97; 32]];
  d_and := [[42; 32];
      [69; 32]];
  d_but := [[42; 32];
      [77; 97; 32]]
|}.

(* gherkin-languages.json:1934, entry "ja" (Japanese) *)
Definition dialect_ja : dialect := {|
  d_feature := [[12501; 12451; 12540; 12481; 12515];
      [27231; 33021]];
  d_rule := [[12523; 12540; 12523]];
  d_scenario := [[12471; 12490; 12522; 12458]];
  d_scenarioOutline := [[12471; 12490; 12522; 12458; 12450; 12454; 12488; 12521; 12452; 12531];
      [12471; 12490; 12522; 12458; 12486; 12531; 12503; 12524; 12540; 12488];
      [12486; 12531; 12503; 12524];
      [12471; 12490; 12522; 12458; 12486; 12531; 12503; 12524]];
  d_background := [[32972; 26223]];
  d_examples := [[20363];
      [12469; 12531; 12503; 12523]];
  d_given := [[42; 32];
      [21069; 25552]];
  d_when := [[42; 32];
      [12418; 12375]];
  d_then := [[42; 32];
      [12394; 12425; 12400]];
  d_and := [[42; 32];
      [19988; 12388];
      [12363; 12388]];
  d_but := [[42; 32];
      [28982; 12375];
      [12375; 12363; 12375];
      [20294; 12375];
      [12383; 12384; 12375]]
|}.

(* gherkin-languages.json:1985, entry "jv" (Javanese) *)
Definition dialect_jv : dialect := {|
  d_feature := [[70; 105; 116; 117; 114]];
  d_rule := [[82; 117; 108; 101]];
  d_scenario := [[83; 107; 101; 110; 97; 114; 105; 111]];
  d_scenarioOutline := [[75; 111; 110; 115; 101; 112; 32; 115; 107; 101; 110; 97; 114; 105; 111]];
  d_background := [[68; 97; 115; 97; 114]];
  d_examples := [[67; 111; 110; 116; 111];
      [67; 111; 110; 116; 111; 110; 101]];
  d_given := [[42; 32];
      [78; 97; 108; 105; 107; 97; 32];
      [78; 97; 108; 105; 107; 97; 110; 105; 110; 103; 32]];
  d_when := [[42; 32];
      [77; 97; 110; 97; 119; 97; 32];
      [77; 101; 110; 97; 119; 97; 32]];
  d_then := [[42; 32];
      [78; 106; 117; 107; 32];
      [66; 97; 110; 106; 117; 114; 32]];
  d_and := [[42; 32];
      [76; 97; 110; 32]];
  d_but := [[42; 32];
      [84; 97; 112; 105; 32];
      [78; 97; 110; 103; 105; 110; 103; 32];
      [65; 110; 97; 110; 103; 105; 110; 103; 32]]
|}.

(* gherkin-languages.json:2033, entry "ka" (Georgian) *)
Definition dialect_ka : dialect := {|
  d_feature := [[4311; 4309; 4312; 4321; 4308; 4305; 4304];
      [4315; 4317; 4311; 4334; 4317; 4309; 4316; 4304]];
  d_rule := [[4332; 4308; 4321; 4312]];
  d_scenario := [[4315; 4304; 4306; 4304; 4314; 4312; 4311; 4304; 4307];
      [4315; 4304; 4306; 4304; 4314; 4312; 4311; 4312];
      [4315; 4304; 4306];
      [4321; 4330; 4308; 4316; 4304; 4320; 4312]];
  d_scenarioOutline := [[4321; 4330; 4308; 4316; 4304; 4320; 4312; 4321; 32; 4316; 4312; 4315; 4323; 4328; 4312];
      [4321; 4330; 4308; 4316; 4304; 4320; 4312; 4321; 32; 4328; 4304; 4305; 4314; 4317; 4316; 4312];
      [4316; 4312; 4315; 4323; 4328; 4312];
      [4328; 4304; 4305; 4314; 4317; 4316; 4312]];
  d_background := [[4313; 4317; 4316; 4322; 4308; 4325; 4321; 4322; 4312]];
  d_examples := [[4315; 4304; 4306; 4304; 4314; 4312; 4311; 4308; 4305; 4312]];
  d_given := [[42; 32];
      [4315; 4317; 4330; 4308; 4315; 4323; 4314; 4312; 32];
      [4315; 4317; 4330; 4308; 4315; 4323; 4314; 4312; 4304; 32];
      [4309; 4311; 4325; 4309; 4304; 4311; 32]];
  d_when := [[42; 32];
      [4320; 4317; 4307; 4308; 4321; 4304; 4330; 32];
      [4320; 4317; 4330; 4304; 32];
      [4320; 4317; 4306; 4317; 4320; 4330; 32; 4313; 4312; 32];
      [4311; 4323; 32]];
  d_then := [[42; 32];
      [4315; 4304; 4328; 4312; 4316; 32]];
  d_and := [[42; 32];
      [4307; 4304; 32];
      [4304; 4321; 4308; 4309; 4308; 32]];
  d_but := [[42; 32];
      [4315; 4304; 4306; 4320; 4304; 4315; 32];
      [4311; 4323; 4315; 4330; 4304; 32]]
|}.

(* gherkin-languages.json:2089, entry "kn" (Kannada) *)
Definition dialect_kn : dialect := {|
  d_feature := [[3257; 3270; 3226; 3277; 3226; 3251]];
  d_rule := [[82; 117; 108; 101]];
  d_scenario := [[3209; 3238; 3262; 3257; 3248; 3235; 3270];
      [3221; 3237; 3262; 3256; 3262; 3248; 3262; 3202; 3254]];
  d_scenarioOutline := [[3253; 3263; 3253; 3248; 3235; 3270]];
  d_background := [[3257; 3263; 3240; 3277; 3240; 3270; 3250; 3270]];
  d_examples := [[3209; 3238; 3262; 3257; 3248; 3235; 3270; 3223; 3251; 3265]];
  d_given := [[42; 32];
      [3240; 3263; 3285; 3233; 3263; 3238; 32]];
  d_when := [[42; 32];
      [3256; 3277; 3237; 3263; 3236; 3263; 3247; 3240; 3277; 3240; 3265; 32]];
  d_then := [[42; 32];
      [3240; 3202; 3236; 3248; 32]];
  d_and := [[42; 32];
      [3246; 3236; 3277; 3236; 3265; 32]];
  d_but := [[42; 32];
      [3206; 3238; 3248; 3270; 32]]
|}.

(* gherkin-languages.json:2132, entry "ko" (Korean) *)
Definition dialect_ko : dialect := {|
  d_feature := [[44592; 45733]];
  d_rule := [[82; 117; 108; 101]];
  d_scenario := [[49884; 45208; 47532; 50724]];
  d_scenarioOutline := [[49884; 45208; 47532; 50724; 32; 44060; 50836]];
  d_background := [[48176; 44221]];
  d_examples := [[50696]];
  d_given := [[42; 32];
      [51312; 44148];
      [47676; 51200]];
  d_when := [[42; 32];
      [47564; 51068];
      [47564; 50557]];
  d_then := [[42; 32];
      [44536; 47084; 47732]];
  d_and := [[42; 32];
      [44536; 47532; 44256]];
  d_but := [[42; 32];
      [54616; 51648; 47564];
      [45800]]
|}.

(* gherkin-languages.json:2177, entry "lt" (Lithuanian) *)
Definition dialect_lt : dialect := {|
  d_feature := [[83; 97; 118; 121; 98; 279]];
  d_rule := [[82; 117; 108; 101]];
  d_scenario := [[80; 97; 118; 121; 122; 100; 121; 115];
      [83; 99; 101; 110; 97; 114; 105; 106; 117; 115]];
  d_scenarioOutline := [[83; 99; 101; 110; 97; 114; 105; 106; 97; 117; 115; 32; 353; 97; 98; 108; 111; 110; 97; 115]];
  d_background := [[75; 111; 110; 116; 101; 107; 115; 116; 97; 115]];
  d_examples := [[80; 97; 118; 121; 122; 100; 382; 105; 97; 105];
      [83; 99; 101; 110; 97; 114; 105; 106; 97; 105];
      [86; 97; 114; 105; 97; 110; 116; 97; 105]];
  d_given := [[42; 32];
      [68; 117; 111; 116; 97; 32]];
  d_when := [[42; 32];
      [75; 97; 105; 32]];
  d_then := [[42; 32];
      [84; 97; 100; 97; 32]];
  d_and := [[42; 32];
      [73; 114; 32]];
  d_but := [[42; 32];
      [66; 101; 116; 32]]
|}.

(* gherkin-languages.json:2222, entry "lu" (Luxemburgish) *)
Definition dialect_lu : dialect := {|
  d_feature := [[70; 117; 110; 107; 116; 105; 111; 110; 97; 108; 105; 116; 233; 105; 116]];
  d_rule := [[82; 117; 108; 101]];
  d_scenario := [[66; 101; 105; 115; 112; 105; 108; 108];
      [83; 122; 101; 110; 97; 114; 105; 111]];
  d_scenarioOutline := [[80; 108; 97; 110; 103; 32; 118; 117; 109; 32; 83; 122; 101; 110; 97; 114; 105; 111]];
  d_background := [[72; 97; 110; 110; 101; 114; 103; 114; 111; 110; 100]];
  d_examples := [[66; 101; 105; 115; 112; 105; 108; 108; 101; 114]];
  d_given := [[42; 32];
      [117; 103; 101; 104; 111; 108; 108; 32]];
  d_when := [[42; 32];
      [119; 97; 110; 110; 32]];
  d_then := [[42; 32];
      [100; 97; 110; 110; 32]];
  d_and := [[42; 32];
      [97; 110; 32];
      [97; 32]];
  d_but := [[42; 32];
      [97; 119; 101; 114; 32];
      [109; 228; 32]]
|}.

(* gherkin-languages.json:2267, entry "lv" (Latvian) *)
Definition dialect_lv : dialect := {|
  d_feature := [[70; 117; 110; 107; 99; 105; 111; 110; 97; 108; 105; 116; 257; 116; 101];
      [70; 299; 269; 97]];
  d_rule := [[82; 117; 108; 101]];
  d_scenario := [[80; 105; 101; 109; 275; 114; 115];
      [83; 99; 101; 110; 257; 114; 105; 106; 115]];
  d_scenarioOutline := [[83; 99; 101; 110; 257; 114; 105; 106; 115; 32; 112; 275; 99; 32; 112; 97; 114; 97; 117; 103; 97]];
  d_background := [[75; 111; 110; 116; 101; 107; 115; 116; 115];
      [83; 105; 116; 117; 257; 99; 105; 106; 97]];
  d_examples := [[80; 105; 101; 109; 275; 114; 105];
      [80; 97; 114; 97; 117; 103; 115]];
  d_given := [[42; 32];
      [75; 97; 100; 32]];
  d_when := [[42; 32];
      [74; 97; 32]];
  d_then := [[42; 32];
      [84; 97; 100; 32]];
  d_and := [[42; 32];
      [85; 110; 32]];
  d_but := [[42; 32];
      [66; 101; 116; 32]]
|}.

(* gherkin-languages.json:2313, entry "mk-Cyrl" (Macedonian) *)
Definition dialect_mk_Cyrl : dialect := {|
  d_feature := [[1060; 1091; 1085; 1082; 1094; 1080; 1086; 1085; 1072; 1083; 1085; 1086; 1089; 1090];
      [1041; 1080; 1079; 1085; 1080; 1089; 32; 1087; 1086; 1090; 1088; 1077; 1073; 1072];
      [1052; 1086; 1078; 1085; 1086; 1089; 1090]];
  d_rule := [[82; 117; 108; 101]];
  d_scenario := [[1055; 1088; 1080; 1084; 1077; 1088];
      [1057; 1094; 1077; 1085; 1072; 1088; 1080; 1086];
      [1053; 1072; 32; 1087; 1088; 1080; 1084; 1077; 1088]];
  d_scenarioOutline := [[1055; 1088; 1077; 1075; 1083; 1077; 1076; 32; 1085; 1072; 32; 1089; 1094; 1077; 1085; 1072; 1088; 1080; 1112; 1072];
      [1057; 1082; 1080; 1094; 1072];
      [1050; 1086; 1085; 1094; 1077; 1087; 1090]];
  d_background := [[1050; 1086; 1085; 1090; 1077; 1082; 1089; 1090];
      [1057; 1086; 1076; 1088; 1078; 1080; 1085; 1072]];
  d_examples := [[1055; 1088; 1080; 1084; 1077; 1088; 1080];
      [1057; 1094; 1077; 1085; 1072; 1088; 1080; 1112; 1072]];
  d_given := [[42; 32];
      [1044; 1072; 1076; 1077; 1085; 1086; 32];
      [1044; 1072; 1076; 1077; 1085; 1072; 32]];
  d_when := [[42; 32];
      [1050; 1086; 1075; 1072; 32]];
  d_then := [[42; 32];
      [1058; 1086; 1075; 1072; 1096; 32]];
  d_and := [[42; 32];
      [1048; 32]];
  d_but := [[42; 32];
      [1053; 1086; 32]]
|}.

(* gherkin-languages.json:2364, entry "mk-Latn" (Macedonian (Latin)) *)
Definition dialect_mk_Latn : dialect := {|
  d_feature := [[70; 117; 110; 107; 99; 105; 111; 110; 97; 108; 110; 111; 115; 116];
      [66; 105; 122; 110; 105; 115; 32; 112; 111; 116; 114; 101; 98; 97];
      [77; 111; 122; 104; 110; 111; 115; 116]];
  d_rule := [[82; 117; 108; 101]];
  d_scenario := [[83; 99; 101; 110; 97; 114; 105; 111];
      [78; 97; 32; 112; 114; 105; 109; 101; 114]];
  d_scenarioOutline := [[80; 114; 101; 103; 108; 101; 100; 32; 110; 97; 32; 115; 99; 101; 110; 97; 114; 105; 106; 97];
      [83; 107; 105; 99; 97];
      [75; 111; 110; 99; 101; 112; 116]];
  d_background := [[75; 111; 110; 116; 101; 107; 115; 116];
      [83; 111; 100; 114; 122; 104; 105; 110; 97]];
  d_examples := [[80; 114; 105; 109; 101; 114; 105];
      [83; 99; 101; 110; 97; 114; 105; 97]];
  d_given := [[42; 32];
      [68; 97; 100; 101; 110; 111; 32];
      [68; 97; 100; 101; 110; 97; 32]];
  d_when := [[42; 32];
      [75; 111; 103; 97; 32]];
  d_then := [[42; 32];
      [84; 111; 103; 97; 115; 104; 32]];
  d_and := [[42; 32];
      [73; 32]];
  d_but := [[42; 32];
      [78; 111; 32]]
|}.

(* gherkin-languages.json:2414, entry "mn" (Mongolian) *)
Definition dialect_mn : dialect := {|
  d_feature := [[1060; 1091; 1085; 1082; 1094];
      [1060; 1091; 1085; 1082; 1094; 1080; 1086; 1085; 1072; 1083]];
  d_rule := [[82; 117; 108; 101]];
  d_scenario := [[1057; 1094; 1077; 1085; 1072; 1088]];
  d_scenarioOutline := [[1057; 1094; 1077; 1085; 1072; 1088; 1099; 1085; 32; 1090; 1257; 1083; 1257; 1074; 1083; 1257; 1075; 1257; 1257]];
  d_background := [[1040; 1075; 1091; 1091; 1083; 1075; 1072]];
  d_examples := [[1058; 1091; 1093; 1072; 1081; 1083; 1073; 1072; 1083]];
  d_given := [[42; 32];
      [1256; 1075; 1257; 1075; 1076; 1089; 1257; 1085; 32; 1085; 1100; 32];
      [1040; 1085; 1093; 32]];
  d_when := [[42; 32];
      [1061; 1101; 1088; 1101; 1074; 32]];
  d_then := [[42; 32];
      [1058; 1101; 1075; 1101; 1093; 1101; 1076; 32];
      [1198; 1199; 1085; 1080; 1081; 32; 1076; 1072; 1088; 1072; 1072; 32]];
  d_and := [[42; 32];
      [1052; 1257; 1085; 32];
      [1058; 1101; 1075; 1101; 1101; 1076; 32]];
  d_but := [[42; 32];
      [1043; 1101; 1093; 1076; 1101; 1101; 32];
      [1061; 1072; 1088; 1080; 1085; 32]]
|}.

(* gherkin-languages.json:2461, entry "ne" (Nepali) *)
Definition dialect_ne : dialect := {|
  d_feature := [[2360; 2369; 2357; 2367; 2343; 2366];
      [2357; 2367; 2358; 2375; 2359; 2340; 2366]];
  d_rule := [[2344; 2367; 2351; 2350]];
  d_scenario := [[2346; 2352; 2367; 2342; 2371; 2358; 2381; 2351]];
  d_scenarioOutline := [[2346; 2352; 2367; 2342; 2371; 2358; 2381; 2351; 32; 2352; 2370; 2346; 2352; 2375; 2326; 2366]];
  d_background := [[2346; 2371; 2359; 2381; 2336; 2349; 2370; 2350; 2368]];
  d_examples := [[2313; 2342; 2366; 2361; 2352; 2339];
      [2313; 2342; 2366; 2361; 2352; 2339; 2361; 2352; 2369]];
  d_given := [[42; 32];
      [2342; 2367; 2311; 2319; 2325; 2379; 32];
      [2342; 2367; 2319; 2325; 2379; 32];
      [2351; 2342; 2367; 32]];
  d_when := [[42; 32];
      [2332; 2348; 32]];
  d_then := [[42; 32];
      [2340; 2381; 2351; 2360; 2346; 2331; 2367; 32];
      [2309; 2344; 2368; 32]];
  d_and := [[42; 32];
      [2352; 32];
      [2309; 2344; 2367; 32]];
  d_but := [[42; 32];
      [2340; 2352; 32]]
|}.

(* gherkin-languages.json:2509, entry "nl" (Dutch) *)
Definition dialect_nl : dialect := {|
  d_feature := [[70; 117; 110; 99; 116; 105; 111; 110; 97; 108; 105; 116; 101; 105; 116]];
  d_rule := [[82; 117; 108; 101]];
  d_scenario := [[86; 111; 111; 114; 98; 101; 101; 108; 100];
      [83; 99; 101; 110; 97; 114; 105; 111]];
  d_scenarioOutline := [[65; 98; 115; 116; 114; 97; 99; 116; 32; 83; 99; 101; 110; 97; 114; 105; 111]];
  d_background := [[65; 99; 104; 116; 101; 114; 103; 114; 111; 110; 100]];
  d_examples := [[86; 111; 111; 114; 98; 101; 101; 108; 100; 101; 110]];
  d_given := [[42; 32];
      [71; 101; 103; 101; 118; 101; 110; 32];
      [83; 116; 101; 108; 32]];
  d_when := [[42; 32];
      [65; 108; 115; 32];
      [87; 97; 110; 110; 101; 101; 114; 32]];
  d_then := [[42; 32];
      [68; 97; 110; 32]];
  d_and := [[42; 32];
      [69; 110; 32]];
  d_but := [[42; 32];
      [77; 97; 97; 114; 32]]
|}.

(* gherkin-languages.json:2554, entry "no" (Norwegian) *)
Definition dialect_no : dialect := {|
  d_feature := [[69; 103; 101; 110; 115; 107; 97; 112]];
  d_rule := [[82; 101; 103; 101; 108]];
  d_scenario := [[69; 107; 115; 101; 109; 112; 101; 108];
      [83; 99; 101; 110; 97; 114; 105; 111]];
  d_scenarioOutline := [[83; 99; 101; 110; 97; 114; 105; 111; 109; 97; 108];
      [65; 98; 115; 116; 114; 97; 107; 116; 32; 83; 99; 101; 110; 97; 114; 105; 111]];
  d_background := [[66; 97; 107; 103; 114; 117; 110; 110]];
  d_examples := [[69; 107; 115; 101; 109; 112; 108; 101; 114]];
  d_given := [[42; 32];
      [71; 105; 116; 116; 32]];
  d_when := [[42; 32];
      [78; 229; 114; 32]];
  d_then := [[42; 32];
      [83; 229; 32]];
  d_and := [[42; 32];
      [79; 103; 32]];
  d_but := [[42; 32];
      [77; 101; 110; 32]]
|}.

(* gherkin-languages.json:2598, entry "pa" (Panjabi) *)
Definition dialect_pa : dialect := {|
  d_feature := [[2582; 2622; 2616; 2624; 2565; 2596];
      [2606; 2625; 2617; 2622; 2562; 2598; 2608; 2622];
      [2600; 2581; 2614; 32; 2600; 2625; 2617; 2622; 2608]];
  d_rule := [[82; 117; 108; 101]];
  d_scenario := [[2569; 2598; 2622; 2617; 2608; 2600];
      [2602; 2591; 2581; 2597; 2622]];
  d_scenarioOutline := [[2602; 2591; 2581; 2597; 2622; 32; 2594; 2622; 2562; 2586; 2622];
      [2602; 2591; 2581; 2597; 2622; 32; 2608; 2626; 2602; 32; 2608; 2631; 2582; 2622]];
  d_background := [[2602; 2623; 2587; 2635; 2581; 2652]];
  d_examples := [[2569; 2598; 2622; 2617; 2608; 2600; 2622; 2562]];
  d_given := [[42; 32];
      [2588; 2631; 2581; 2608; 32];
      [2588; 2623; 2613; 2631; 2562; 32; 2581; 2623; 32]];
  d_when := [[42; 32];
      [2588; 2598; 2635; 2562; 32]];
  d_then := [[42; 32];
      [2596; 2598; 32]];
  d_and := [[42; 32];
      [2565; 2596; 2631; 32]];
  d_but := [[42; 32];
      [2602; 2608; 32]]
|}.

(* gherkin-languages.json:2645, entry "pl" (Polish) *)
Definition dialect_pl : dialect := {|
  d_feature := [[87; 322; 97; 347; 99; 105; 119; 111; 347; 263];
      [70; 117; 110; 107; 99; 106; 97];
      [65; 115; 112; 101; 107; 116];
      [80; 111; 116; 114; 122; 101; 98; 97; 32; 98; 105; 122; 110; 101; 115; 111; 119; 97]];
  d_rule := [[90; 97; 115; 97; 100; 97];
      [82; 101; 103; 117; 322; 97]];
  d_scenario := [[80; 114; 122; 121; 107; 322; 97; 100];
      [83; 99; 101; 110; 97; 114; 105; 117; 115; 122]];
  d_scenarioOutline := [[83; 122; 97; 98; 108; 111; 110; 32; 115; 99; 101; 110; 97; 114; 105; 117; 115; 122; 97]];
  d_background := [[90; 97; 322; 111; 380; 101; 110; 105; 97]];
  d_examples := [[80; 114; 122; 121; 107; 322; 97; 100; 121]];
  d_given := [[42; 32];
      [90; 97; 107; 322; 97; 100; 97; 106; 261; 99; 32];
      [77; 97; 106; 261; 99; 32];
      [90; 97; 107; 322; 97; 100; 97; 106; 261; 99; 44; 32; 380; 101; 32]];
  d_when := [[42; 32];
      [74; 101; 380; 101; 108; 105; 32];
      [74; 101; 347; 108; 105; 32];
      [71; 100; 121; 32];
      [75; 105; 101; 100; 121; 32]];
  d_then := [[42; 32];
      [87; 116; 101; 100; 121; 32]];
  d_and := [[42; 32];
      [79; 114; 97; 122; 32];
      [73; 32]];
  d_but := [[42; 32];
      [65; 108; 101; 32]]
|}.

(* gherkin-languages.json:2698, entry "pt" (Portuguese) *)
Definition dialect_pt : dialect := {|
  d_feature := [[70; 117; 110; 99; 105; 111; 110; 97; 108; 105; 100; 97; 100; 101];
      [67; 97; 114; 97; 99; 116; 101; 114; 237; 115; 116; 105; 99; 97];
      [67; 97; 114; 97; 99; 116; 101; 114; 105; 115; 116; 105; 99; 97]];
  d_rule := [[82; 101; 103; 114; 97]];
  d_scenario := [[69; 120; 101; 109; 112; 108; 111];
      [67; 101; 110; 225; 114; 105; 111];
      [67; 101; 110; 97; 114; 105; 111]];
  d_scenarioOutline := [[69; 115; 113; 117; 101; 109; 97; 32; 100; 111; 32; 67; 101; 110; 225; 114; 105; 111];
      [69; 115; 113; 117; 101; 109; 97; 32; 100; 111; 32; 67; 101; 110; 97; 114; 105; 111];
      [68; 101; 108; 105; 110; 101; 97; 231; 227; 111; 32; 100; 111; 32; 67; 101; 110; 225; 114; 105; 111];
      [68; 101; 108; 105; 110; 101; 97; 99; 97; 111; 32; 100; 111; 32; 67; 101; 110; 97; 114; 105; 111]];
  d_background := [[67; 111; 110; 116; 101; 120; 116; 111];
      [67; 101; 110; 225; 114; 105; 111; 32; 100; 101; 32; 70; 117; 110; 100; 111];
      [67; 101; 110; 97; 114; 105; 111; 32; 100; 101; 32; 70; 117; 110; 100; 111];
      [70; 117; 110; 100; 111]];
  d_examples := [[69; 120; 101; 109; 112; 108; 111; 115];
      [67; 101; 110; 225; 114; 105; 111; 115];
      [67; 101; 110; 97; 114; 105; 111; 115]];
  d_given := [[42; 32];
      [68; 97; 100; 111; 32];
      [68; 97; 100; 97; 32];
      [68; 97; 100; 111; 115; 32];
      [68; 97; 100; 97; 115; 32]];
  d_when := [[42; 32];
      [81; 117; 97; 110; 100; 111; 32]];
  d_then := [[42; 32];
      [69; 110; 116; 227; 111; 32];
      [69; 110; 116; 97; 111; 32]];
  d_and := [[42; 32];
      [69; 32]];
  d_but := [[42; 32];
      [77; 97; 115; 32]]
|}.

(* gherkin-languages.json:2756, entry "ro" (Romanian) *)
Definition dialect_ro : dialect := {|
  d_feature := [[70; 117; 110; 99; 116; 105; 111; 110; 97; 108; 105; 116; 97; 116; 101];
      [70; 117; 110; 99; 539; 105; 111; 110; 97; 108; 105; 116; 97; 116; 101];
      [70; 117; 110; 99; 355; 105; 111; 110; 97; 108; 105; 116; 97; 116; 101]];
  d_rule := [[82; 117; 108; 101]];
  d_scenario := [[69; 120; 101; 109; 112; 108; 117];
      [83; 99; 101; 110; 97; 114; 105; 117]];
  d_scenarioOutline := [[83; 116; 114; 117; 99; 116; 117; 114; 97; 32; 115; 99; 101; 110; 97; 114; 105; 117];
      [83; 116; 114; 117; 99; 116; 117; 114; 259; 32; 115; 99; 101; 110; 97; 114; 105; 117]];
  d_background := [[67; 111; 110; 116; 101; 120; 116]];
  d_examples := [[69; 120; 101; 109; 112; 108; 101]];
  d_given := [[42; 32];
      [68; 97; 116; 101; 32; 102; 105; 105; 110; 100; 32];
      [68; 97; 116; 32; 102; 105; 105; 110; 100; 32];
      [68; 97; 116; 259; 32; 102; 105; 105; 110; 100];
      [68; 97; 116; 105; 32; 102; 105; 105; 110; 100; 32];
      [68; 97; 539; 105; 32; 102; 105; 105; 110; 100; 32];
      [68; 97; 355; 105; 32; 102; 105; 105; 110; 100; 32]];
  d_when := [[42; 32];
      [67; 97; 110; 100; 32];
      [67; 226; 110; 100; 32]];
  d_then := [[42; 32];
      [65; 116; 117; 110; 99; 105; 32]];
  d_and := [[42; 32];
      [83; 105; 32];
      [536; 105; 32];
      [350; 105; 32]];
  d_but := [[42; 32];
      [68; 97; 114; 32]]
|}.

(* gherkin-languages.json:2810, entry "ru" (Russian) *)
Definition dialect_ru : dialect := {|
  d_feature := [[1060; 1091; 1085; 1082; 1094; 1080; 1103];
      [1060; 1091; 1085; 1082; 1094; 1080; 1086; 1085; 1072; 1083; 1100; 1085; 1086; 1089; 1090; 1100];
      [1060; 1091; 1085; 1082; 1094; 1080; 1086; 1085; 1072; 1083];
      [1057; 1074; 1086; 1081; 1089; 1090; 1074; 1086];
      [1060; 1080; 1095; 1072]];
  d_rule := [[1055; 1088; 1072; 1074; 1080; 1083; 1086]];
  d_scenario := [[1055; 1088; 1080; 1084; 1077; 1088];
      [1057; 1094; 1077; 1085; 1072; 1088; 1080; 1081]];
  d_scenarioOutline := [[1057; 1090; 1088; 1091; 1082; 1090; 1091; 1088; 1072; 32; 1089; 1094; 1077; 1085; 1072; 1088; 1080; 1103];
      [1064; 1072; 1073; 1083; 1086; 1085; 32; 1089; 1094; 1077; 1085; 1072; 1088; 1080; 1103]];
  d_background := [[1055; 1088; 1077; 1076; 1099; 1089; 1090; 1086; 1088; 1080; 1103];
      [1050; 1086; 1085; 1090; 1077; 1082; 1089; 1090]];
  d_examples := [[1055; 1088; 1080; 1084; 1077; 1088; 1099]];
  d_given := [[42; 32];
      [1044; 1086; 1087; 1091; 1089; 1090; 1080; 1084; 32];
      [1044; 1072; 1085; 1086; 32];
      [1055; 1091; 1089; 1090; 1100; 32]];
  d_when := [[42; 32];
      [1050; 1086; 1075; 1076; 1072; 32];
      [1045; 1089; 1083; 1080; 32]];
  d_then := [[42; 32];
      [1058; 1086; 32];
      [1047; 1072; 1090; 1077; 1084; 32];
      [1058; 1086; 1075; 1076; 1072; 32]];
  d_and := [[42; 32];
      [1048; 32];
      [1050; 32; 1090; 1086; 1084; 1091; 32; 1078; 1077; 32];
      [1058; 1072; 1082; 1078; 1077; 32]];
  d_but := [[42; 32];
      [1053; 1086; 32];
      [1040; 32];
      [1048; 1085; 1072; 1095; 1077; 32]]
|}.

(* gherkin-languages.json:2868, entry "sk" (Slovak) *)
Definition dialect_sk : dialect := {|
  d_feature := [[80; 111; 382; 105; 97; 100; 97; 118; 107; 97];
      [70; 117; 110; 107; 99; 105; 97];
      [86; 108; 97; 115; 116; 110; 111; 115; 357]];
  d_rule := [[82; 117; 108; 101]];
  d_scenario := [[80; 114; 237; 107; 108; 97; 100];
      [83; 99; 101; 110; 225; 114]];
  d_scenarioOutline := [[78; 225; 269; 114; 116; 32; 83; 99; 101; 110; 225; 114; 117];
      [78; 225; 269; 114; 116; 32; 83; 99; 101; 110; 225; 114; 97];
      [79; 115; 110; 111; 118; 97; 32; 83; 99; 101; 110; 225; 114; 97]];
  d_background := [[80; 111; 122; 97; 100; 105; 101]];
  d_examples := [[80; 114; 237; 107; 108; 97; 100; 121]];
  d_given := [[42; 32];
      [80; 111; 107; 105; 97; 318; 32];
      [90; 97; 32; 112; 114; 101; 100; 112; 111; 107; 108; 97; 100; 117; 32]];
  d_when := [[42; 32];
      [75; 101; 271; 32];
      [65; 107; 32]];
  d_then := [[42; 32];
      [84; 97; 107; 32];
      [80; 111; 116; 111; 109; 32]];
  d_and := [[42; 32];
      [65; 32];
      [65; 32; 116; 105; 101; 382; 32];
      [65; 32; 116; 97; 107; 116; 105; 101; 382; 32];
      [65; 32; 122; 225; 114; 111; 118; 101; 328; 32]];
  d_but := [[42; 32];
      [65; 108; 101; 32]]
|}.

(* gherkin-languages.json:2921, entry "sl" (Slovenian) *)
Definition dialect_sl : dialect := {|
  d_feature := [[70; 117; 110; 107; 99; 105; 111; 110; 97; 108; 110; 111; 115; 116];
      [70; 117; 110; 107; 99; 105; 106; 97];
      [77; 111; 382; 110; 111; 115; 116; 105];
      [77; 111; 122; 110; 111; 115; 116; 105];
      [76; 97; 115; 116; 110; 111; 115; 116];
      [90; 110; 97; 269; 105; 108; 110; 111; 115; 116]];
  d_rule := [[82; 117; 108; 101]];
  d_scenario := [[80; 114; 105; 109; 101; 114];
      [83; 99; 101; 110; 97; 114; 105; 106]];
  d_scenarioOutline := [[83; 116; 114; 117; 107; 116; 117; 114; 97; 32; 115; 99; 101; 110; 97; 114; 105; 106; 97];
      [83; 107; 105; 99; 97];
      [75; 111; 110; 99; 101; 112; 116];
      [79; 114; 105; 115; 32; 115; 99; 101; 110; 97; 114; 105; 106; 97];
      [79; 115; 110; 117; 116; 101; 107]];
  d_background := [[75; 111; 110; 116; 101; 107; 115; 116];
      [79; 115; 110; 111; 118; 97];
      [79; 122; 97; 100; 106; 101]];
  d_examples := [[80; 114; 105; 109; 101; 114; 105];
      [83; 99; 101; 110; 97; 114; 105; 106; 105]];
  d_given := [[68; 97; 110; 111; 32];
      [80; 111; 100; 97; 110; 111; 32];
      [90; 97; 114; 97; 100; 105; 32];
      [80; 114; 105; 118; 122; 101; 116; 111; 32]];
  d_when := [[75; 111; 32];
      [67; 101; 32];
      [268; 101; 32];
      [75; 97; 100; 97; 114; 32]];
  d_then := [[78; 97; 116; 111; 32];
      [80; 111; 116; 101; 109; 32];
      [84; 97; 107; 114; 97; 116; 32]];
  d_and := [[73; 110; 32];
      [84; 101; 114; 32]];
  d_but := [[84; 111; 100; 97; 32];
      [65; 109; 112; 97; 107; 32];
      [86; 101; 110; 100; 97; 114; 32]]
|}.

(* gherkin-languages.json:2982, entry "sr-Cyrl" (Serbian) *)
Definition dialect_sr_Cyrl : dialect := {|
  d_feature := [[1060; 1091; 1085; 1082; 1094; 1080; 1086; 1085; 1072; 1083; 1085; 1086; 1089; 1090];
      [1052; 1086; 1075; 1091; 1115; 1085; 1086; 1089; 1090];
      [1054; 1089; 1086; 1073; 1080; 1085; 1072]];
  d_rule := [[1055; 1088; 1072; 1074; 1080; 1083; 1086]];
  d_scenario := [[1055; 1088; 1080; 1084; 1077; 1088];
      [1057; 1094; 1077; 1085; 1072; 1088; 1080; 1086];
      [1055; 1088; 1080; 1084; 1077; 1088]];
  d_scenarioOutline := [[1057; 1090; 1088; 1091; 1082; 1090; 1091; 1088; 1072; 32; 1089; 1094; 1077; 1085; 1072; 1088; 1080; 1112; 1072];
      [1057; 1082; 1080; 1094; 1072];
      [1050; 1086; 1085; 1094; 1077; 1087; 1090]];
  d_background := [[1050; 1086; 1085; 1090; 1077; 1082; 1089; 1090];
      [1054; 1089; 1085; 1086; 1074; 1072];
      [1055; 1086; 1079; 1072; 1076; 1080; 1085; 1072]];
  d_examples := [[1055; 1088; 1080; 1084; 1077; 1088; 1080];
      [1057; 1094; 1077; 1085; 1072; 1088; 1080; 1112; 1080]];
  d_given := [[42; 32];
      [1047; 1072; 32; 1076; 1072; 1090; 1086; 32];
      [1047; 1072; 32; 1076; 1072; 1090; 1077; 32];
      [1047; 1072; 32; 1076; 1072; 1090; 1080; 32]];
  d_when := [[42; 32];
      [1050; 1072; 1076; 1072; 32];
      [1050; 1072; 1076; 32]];
  d_then := [[42; 32];
      [1054; 1085; 1076; 1072; 32]];
  d_and := [[42; 32];
      [1048; 32]];
  d_but := [[42; 32];
      [1040; 1083; 1080; 32]]
|}.

(* gherkin-languages.json:3036, entry "sr-Latn" (Serbian (Latin)) *)
Definition dialect_sr_Latn : dialect := {|
  d_feature := [[70; 117; 110; 107; 99; 105; 111; 110; 97; 108; 110; 111; 115; 116];
      [77; 111; 103; 117; 263; 110; 111; 115; 116];
      [77; 111; 103; 117; 99; 110; 111; 115; 116];
      [79; 115; 111; 98; 105; 110; 97]];
  d_rule := [[80; 114; 97; 118; 105; 108; 111]];
  d_scenario := [[83; 99; 101; 110; 97; 114; 105; 111];
      [80; 114; 105; 109; 101; 114]];
  d_scenarioOutline := [[83; 116; 114; 117; 107; 116; 117; 114; 97; 32; 115; 99; 101; 110; 97; 114; 105; 106; 97];
      [83; 107; 105; 99; 97];
      [75; 111; 110; 99; 101; 112; 116]];
  d_background := [[75; 111; 110; 116; 101; 107; 115; 116];
      [79; 115; 110; 111; 118; 97];
      [80; 111; 122; 97; 100; 105; 110; 97]];
  d_examples := [[80; 114; 105; 109; 101; 114; 105];
      [83; 99; 101; 110; 97; 114; 105; 106; 105]];
  d_given := [[42; 32];
      [90; 97; 32; 100; 97; 116; 111; 32];
      [90; 97; 32; 100; 97; 116; 101; 32];
      [90; 97; 32; 100; 97; 116; 105; 32]];
  d_when := [[42; 32];
      [75; 97; 100; 97; 32];
      [75; 97; 100; 32]];
  d_then := [[42; 32];
      [79; 110; 100; 97; 32]];
  d_and := [[42; 32];
      [73; 32]];
  d_but := [[42; 32];
      [65; 108; 105; 32]]
|}.

(* gherkin-languages.json:3090, entry "sv" (Swedish) *)
Definition dialect_sv : dialect := {|
  d_feature := [[69; 103; 101; 110; 115; 107; 97; 112]];
  d_rule := [[82; 101; 103; 101; 108]];
  d_scenario := [[83; 99; 101; 110; 97; 114; 105; 111]];
  d_scenarioOutline := [[65; 98; 115; 116; 114; 97; 107; 116; 32; 83; 99; 101; 110; 97; 114; 105; 111];
      [83; 99; 101; 110; 97; 114; 105; 111; 109; 97; 108; 108]];
  d_background := [[66; 97; 107; 103; 114; 117; 110; 100]];
  d_examples := [[69; 120; 101; 109; 112; 101; 108]];
  d_given := [[42; 32];
      [71; 105; 118; 101; 116; 32]];
  d_when := [[42; 32];
      [78; 228; 114; 32]];
  d_then := [[42; 32];
      [83; 229; 32]];
  d_and := [[42; 32];
      [79; 99; 104; 32]];
  d_but := [[42; 32];
      [77; 101; 110; 32]]
|}.

(* gherkin-languages.json:3133, entry "ta" (Tamil) *)
Definition dialect_ta : dialect := {|
  d_feature := [[2949; 2990; 3021; 2970; 2990; 3021];
      [2997; 2979; 3007; 2965; 32; 2980; 3015; 2997; 3016];
      [2980; 3007; 2993; 2985; 3021]];
  d_rule := [[82; 117; 108; 101]];
  d_scenario := [[2953; 2980; 3006; 2992; 2979; 2990; 3006; 2965];
      [2965; 3006; 2975; 3021; 2970; 3007]];
  d_scenarioOutline := [[2965; 3006; 2975; 3021; 2970; 3007; 32; 2970; 3009; 2992; 3009; 2965; 3021; 2965; 2990; 3021];
      [2965; 3006; 2975; 3021; 2970; 3007; 32; 2997; 3006; 2992; 3021; 2986; 3021; 2986; 3009; 2992; 3009]];
  d_background := [[2986; 3007; 2985; 3021; 2985; 2979; 3007]];
  d_examples := [[2958; 2975; 3009; 2980; 3021; 2980; 3009; 2965; 3021; 2965; 3006; 2975; 3021; 2975; 3009; 2965; 2995; 3021];
      [2965; 3006; 2975; 3021; 2970; 3007; 2965; 2995; 3021];
      [2984; 3007; 2994; 3016; 2990; 3016; 2965; 2995; 3007; 2994; 3021]];
  d_given := [[42; 32];
      [2965; 3014; 3006; 2975; 3009; 2965; 3021; 2965; 2986; 3021; 2986; 2975; 3021; 2975; 32]];
  d_when := [[42; 32];
      [2958; 2986; 3021; 2986; 3015; 3006; 2980; 3009; 32]];
  d_then := [[42; 32];
      [2949; 2986; 3021; 2986; 3014; 3006; 2996; 3009; 2980; 3009; 32]];
  d_and := [[42; 32];
      [2990; 3015; 2994; 3009; 2990; 3021; 32; 32];
      [2990; 2993; 3021; 2993; 3009; 2990; 3021; 32]];
  d_but := [[42; 32];
      [2950; 2985; 3006; 2994; 3021; 32; 32]]
|}.

(* gherkin-languages.json:3182, entry "th" (Thai) *)
Definition dialect_th : dialect := {|
  d_feature := [[3650; 3588; 3619; 3591; 3627; 3621; 3633; 3585];
      [3588; 3623; 3634; 3617; 3605; 3657; 3629; 3591; 3585; 3634; 3619; 3607; 3634; 3591; 3608; 3640; 3619; 3585; 3636; 3592];
      [3588; 3623; 3634; 3617; 3626; 3634; 3617; 3634; 3619; 3606]];
  d_rule := [[82; 117; 108; 101]];
  d_scenario := [[3648; 3627; 3605; 3640; 3585; 3634; 3619; 3603; 3660]];
  d_scenarioOutline := [[3626; 3619; 3640; 3611; 3648; 3627; 3605; 3640; 3585; 3634; 3619; 3603; 3660];
      [3650; 3588; 3619; 3591; 3626; 3619; 3657; 3634; 3591; 3586; 3629; 3591; 3648; 3627; 3605; 3640; 3585; 3634; 3619; 3603; 3660]];
  d_background := [[3649; 3609; 3623; 3588; 3636; 3604]];
  d_examples := [[3594; 3640; 3604; 3586; 3629; 3591; 3605; 3633; 3623; 3629; 3618; 3656; 3634; 3591];
      [3594; 3640; 3604; 3586; 3629; 3591; 3648; 3627; 3605; 3640; 3585; 3634; 3619; 3603; 3660]];
  d_given := [[42; 32];
      [3585; 3635; 3627; 3609; 3604; 3651; 3627; 3657; 32]];
  d_when := [[42; 32];
      [3648; 3617; 3639; 3656; 3629; 32]];
  d_then := [[42; 32];
      [3604; 3633; 3591; 3609; 3633; 3657; 3609; 32]];
  d_and := [[42; 32];
      [3649; 3621; 3632; 32]];
  d_but := [[42; 32];
      [3649; 3605; 3656; 32]]
|}.

(* gherkin-languages.json:3228, entry "te" (Telugu) *)
Definition dialect_te : dialect := {|
  d_feature := [[3095; 3137; 3107; 3118; 3137]];
  d_rule := [[82; 117; 108; 101]];
  d_scenario := [[3081; 3110; 3134; 3129; 3120; 3107];
      [3128; 3112; 3149; 3112; 3135; 3125; 3143; 3126; 3074]];
  d_scenarioOutline := [[3093; 3109; 3112; 3074]];
  d_background := [[3112; 3143; 3114; 3109; 3149; 3119; 3074]];
  d_examples := [[3081; 3110; 3134; 3129; 3120; 3107; 3122; 3137]];
  d_given := [[42; 32];
      [3098; 3142; 3114; 3149; 3114; 3116; 3105; 3135; 3112; 3110; 3135; 32]];
  d_when := [[42; 32];
      [3080; 32; 3114; 3120; 3135; 3128; 3149; 3109; 3135; 3108; 3135; 3122; 3147; 32]];
  d_then := [[42; 32];
      [3077; 3114; 3149; 3114; 3137; 3105; 3137; 32]];
  d_and := [[42; 32];
      [3118; 3120; 3135; 3119; 3137; 32]];
  d_but := [[42; 32];
      [3093; 3134; 3112; 3135; 32]]
|}.

(* gherkin-languages.json:3271, entry "tlh" (Klingon) *)
Definition dialect_tlh : dialect := {|
  d_feature := [[81; 97; 112];
      [81; 117; 39; 109; 101; 72; 32; 39; 117; 116];
      [112; 101; 114; 98; 111; 103; 104];
      [112; 111; 81; 98; 111; 103; 104; 32; 109; 97; 108; 106; 97; 39];
      [108; 97; 72]];
  d_rule := [[82; 117; 108; 101]];
  d_scenario := [[108; 117; 116]];
  d_scenarioOutline := [[108; 117; 116; 32; 99; 104; 111; 118; 110; 97; 116; 108; 104]];
  d_background := [[109; 111; 39]];
  d_examples := [[103; 104; 97; 110; 116; 111; 72];
      [108; 117; 116; 109; 101; 121]];
  d_given := [[42; 32];
      [103; 104; 117; 39; 32; 110; 111; 98; 108; 117; 39; 32];
      [68; 97; 72; 32; 103; 104; 117; 39; 32; 98; 101; 106; 108; 117; 39; 32]];
  d_when := [[42; 32];
      [113; 97; 83; 68; 73; 39; 32]];
  d_then := [[42; 32];
      [118; 97; 106; 32]];
  d_and := [[42; 32];
      [39; 101; 106; 32];
      [108; 97; 116; 108; 104; 32]];
  d_but := [[42; 32];
      [39; 97; 99; 104; 32];
      [39; 97; 32]]
|}.

(* gherkin-languages.json:3321, entry "tr" (Turkish) *)
Definition dialect_tr : dialect := {|
  d_feature := [[214; 122; 101; 108; 108; 105; 107]];
  d_rule := [[75; 117; 114; 97; 108]];
  d_scenario := [[214; 114; 110; 101; 107];
      [83; 101; 110; 97; 114; 121; 111]];
  d_scenarioOutline := [[83; 101; 110; 97; 114; 121; 111; 32; 116; 97; 115; 108; 97; 287; 305]];
  d_background := [[71; 101; 231; 109; 105; 351]];
  d_examples := [[214; 114; 110; 101; 107; 108; 101; 114]];
  d_given := [[42; 32];
      [68; 105; 121; 101; 108; 105; 109; 32; 107; 105; 32]];
  d_when := [[42; 32];
      [69; 287; 101; 114; 32; 107; 105; 32]];
  d_then := [[42; 32];
      [79; 32; 122; 97; 109; 97; 110; 32]];
  d_and := [[42; 32];
      [86; 101; 32]];
  d_but := [[42; 32];
      [70; 97; 107; 97; 116; 32];
      [65; 109; 97; 32]]
|}.

(* gherkin-languages.json:3365, entry "tt" (Tatar) *)
Definition dialect_tt : dialect := {|
  d_feature := [[1052; 1257; 1084; 1082; 1080; 1085; 1083; 1077; 1082];
      [1198; 1079; 1077; 1085; 1095; 1241; 1083; 1077; 1082; 1083; 1077; 1083; 1077; 1082]];
  d_rule := [[82; 117; 108; 101]];
  d_scenario := [[1057; 1094; 1077; 1085; 1072; 1088; 1080; 1081]];
  d_scenarioOutline := [[1057; 1094; 1077; 1085; 1072; 1088; 1080; 1081; 1085; 1099; 1187; 32; 1090; 1257; 1079; 1077; 1083; 1077; 1096; 1077]];
  d_background := [[1050; 1077; 1088; 1077; 1096]];
  d_examples := [[1198; 1088; 1085; 1241; 1082; 1083; 1241; 1088];
      [1052; 1080; 1089; 1072; 1083; 1083; 1072; 1088]];
  d_given := [[42; 32];
      [1240; 1081; 1090; 1080; 1082; 32]];
  d_when := [[42; 32];
      [1240; 1075; 1241; 1088; 32]];
  d_then := [[42; 32];
      [1053; 1241; 1090; 1080; 1175; 1241; 1076; 1241; 32]];
  d_and := [[42; 32];
      [1210; 1241; 1084; 32];
      [1042; 1241; 32]];
  d_but := [[42; 32];
      [1051; 1241; 1082; 1080; 1085; 32];
      [1240; 1084; 1084; 1072; 32]]
|}.

(* gherkin-languages.json:3411, entry "uk" (Ukrainian) *)
Definition dialect_uk : dialect := {|
  d_feature := [[1060; 1091; 1085; 1082; 1094; 1110; 1086; 1085; 1072; 1083]];
  d_rule := [[82; 117; 108; 101]];
  d_scenario := [[1055; 1088; 1080; 1082; 1083; 1072; 1076];
      [1057; 1094; 1077; 1085; 1072; 1088; 1110; 1081]];
  d_scenarioOutline := [[1057; 1090; 1088; 1091; 1082; 1090; 1091; 1088; 1072; 32; 1089; 1094; 1077; 1085; 1072; 1088; 1110; 1102]];
  d_background := [[1055; 1077; 1088; 1077; 1076; 1091; 1084; 1086; 1074; 1072]];
  d_examples := [[1055; 1088; 1080; 1082; 1083; 1072; 1076; 1080]];
  d_given := [[42; 32];
      [1055; 1088; 1080; 1087; 1091; 1089; 1090; 1080; 1084; 1086; 32];
      [1055; 1088; 1080; 1087; 1091; 1089; 1090; 1080; 1084; 1086; 44; 32; 1097; 1086; 32];
      [1053; 1077; 1093; 1072; 1081; 32];
      [1044; 1072; 1085; 1086; 32]];
  d_when := [[42; 32];
      [1071; 1082; 1097; 1086; 32];
      [1050; 1086; 1083; 1080; 32]];
  d_then := [[42; 32];
      [1058; 1086; 32];
      [1058; 1086; 1076; 1110; 32]];
  d_and := [[42; 32];
      [1030; 32];
      [1040; 32; 1090; 1072; 1082; 1086; 1078; 32];
      [1058; 1072; 32]];
  d_but := [[42; 32];
      [1040; 1083; 1077; 32]]
|}.

(* gherkin-languages.json:3461, entry "ur" (Urdu) *)
Definition dialect_ur : dialect := {|
  d_feature := [[1589; 1604; 1575; 1581; 1740; 1578];
      [1705; 1575; 1585; 1608; 1576; 1575; 1585; 32; 1705; 1740; 32; 1590; 1585; 1608; 1585; 1578];
      [1582; 1589; 1608; 1589; 1740; 1578]];
  d_rule := [[82; 117; 108; 101]];
  d_scenario := [[1605; 1606; 1592; 1585; 1606; 1575; 1605; 1729]];
  d_scenarioOutline := [[1605; 1606; 1592; 1585; 32; 1606; 1575; 1605; 1746; 32; 1705; 1575; 32; 1582; 1575; 1705; 1729]];
  d_background := [[1662; 1587; 32; 1605; 1606; 1592; 1585]];
  d_examples := [[1605; 1579; 1575; 1604; 1740; 1722]];
  d_given := [[42; 32];
      [1575; 1711; 1585; 32];
      [1576; 1575; 1604; 1601; 1585; 1590; 32];
      [1601; 1585; 1590; 32; 1705; 1740; 1575; 32]];
  d_when := [[42; 32];
      [1580; 1576; 32]];
  d_then := [[42; 32];
      [1662; 1726; 1585; 32];
      [1578; 1576; 32]];
  d_and := [[42; 32];
      [1575; 1608; 1585; 32]];
  d_but := [[42; 32];
      [1604; 1740; 1705; 1606; 32]]
|}.

(* gherkin-languages.json:3508, entry "uz" (Uzbek) *)
Definition dialect_uz : dialect := {|
  d_feature := [[1060; 1091; 1085; 1082; 1094; 1080; 1086; 1085; 1072; 1083]];
  d_rule := [[82; 117; 108; 101]];
  d_scenario := [[1057; 1094; 1077; 1085; 1072; 1088; 1080; 1081]];
  d_scenarioOutline := [[1057; 1094; 1077; 1085; 1072; 1088; 1080; 1081; 32; 1089; 1090; 1088; 1091; 1082; 1090; 1091; 1088; 1072; 1089; 1080]];
  d_background := [[1058; 1072; 1088; 1080; 1093]];
  d_examples := [[1052; 1080; 1089; 1086; 1083; 1083; 1072; 1088]];
  d_given := [[42; 32];
      [66; 101; 108; 103; 105; 108; 97; 110; 103; 97; 110; 32]];
  d_when := [[42; 32];
      [1040; 1075; 1072; 1088; 32]];
  d_then := [[42; 32];
      [1059; 1085; 1076; 1072; 32]];
  d_and := [[42; 32];
      [1042; 1072; 32]];
  d_but := [[42; 32];
      [1051; 1077; 1082; 1080; 1085; 32];
      [1041; 1080; 1088; 1086; 1082; 32];
      [1040; 1084; 1084; 1086; 32]]
|}.

(* gherkin-languages.json:3552, entry "vi" (Vietnamese) *)
Definition dialect_vi : dialect := {|
  d_feature := [[84; 237; 110; 104; 32; 110; 259; 110; 103]];
  d_rule := [[82; 117; 108; 101]];
  d_scenario := [[84; 236; 110; 104; 32; 104; 117; 7889; 110; 103];
      [75; 7883; 99; 104; 32; 98; 7843; 110]];
  d_scenarioOutline := [[75; 104; 117; 110; 103; 32; 116; 236; 110; 104; 32; 104; 117; 7889; 110; 103];
      [75; 104; 117; 110; 103; 32; 107; 7883; 99; 104; 32; 98; 7843; 110]];
  d_background := [[66; 7889; 105; 32; 99; 7843; 110; 104]];
  d_examples := [[68; 7919; 32; 108; 105; 7879; 117]];
  d_given := [[42; 32];
      [66; 105; 7871; 116; 32];
      [67; 104; 111; 32]];
  d_when := [[42; 32];
      [75; 104; 105; 32]];
  d_then := [[42; 32];
      [84; 104; 236; 32]];
  d_and := [[42; 32];
      [86; 224; 32]];
  d_but := [[42; 32];
      [78; 104; 432; 110; 103; 32]]
|}.

(* gherkin-languages.json:3597, entry "zh-CN" (Chinese simplified) *)
Definition dialect_zh_CN : dialect := {|
  d_feature := [[21151; 33021]];
  d_rule := [[82; 117; 108; 101];
      [35268; 21017]];
  d_scenario := [[22330; 26223];
      [21095; 26412]];
  d_scenarioOutline := [[22330; 26223; 22823; 32434];
      [21095; 26412; 22823; 32434]];
  d_background := [[32972; 26223]];
  d_examples := [[20363; 23376]];
  d_given := [[42; 32];
      [20551; 22914];
      [20551; 35774];
      [20551; 23450]];
  d_when := [[42; 32];
      [24403]];
  d_then := [[42; 32];
      [37027; 20040]];
  d_and := [[42; 32];
      [32780; 19988];
      [24182; 19988];
      [21516; 26102]];
  d_but := [[42; 32];
      [20294; 26159]]
|}.

(* gherkin-languages.json:3646, entry "zh-TW" (Chinese traditional) *)
Definition dialect_zh_TW : dialect := {|
  d_feature := [[21151; 33021]];
  d_rule := [[82; 117; 108; 101]];
  d_scenario := [[22580; 26223];
      [21127; 26412]];
  d_scenarioOutline := [[22580; 26223; 22823; 32177];
      [21127; 26412; 22823; 32177]];
  d_background := [[32972; 26223]];
  d_examples := [[20363; 23376]];
  d_given := [[42; 32];
      [20551; 22914];
      [20551; 35373];
      [20551; 23450]];
  d_when := [[42; 32];
      [30070]];
  d_then := [[42; 32];
      [37027; 40636]];
  d_and := [[42; 32];
      [32780; 19988];
      [20006; 19988];
      [21516; 26178]];
  d_but := [[42; 32];
      [20294; 26159]]
|}.

(* gherkin-languages.json:3694, entry "mr" (Marathi) *)
Definition dialect_mr : dialect := {|
  d_feature := [[2357; 2376; 2358; 2367; 2359; 2381; 2335; 2381; 2351];
      [2360; 2369; 2357; 2367; 2343; 2366]];
  d_rule := [[2344; 2367; 2351; 2350]];
  d_scenario := [[2346; 2352; 2367; 2342; 2371; 2358; 2381; 2351]];
  d_scenarioOutline := [[2346; 2352; 2367; 2342; 2371; 2358; 2381; 2351; 32; 2352; 2370; 2346; 2352; 2375; 2326; 2366]];
  d_background := [[2346; 2366; 2352; 2381; 2358; 2381; 2357; 2349; 2370; 2350; 2368]];
  d_examples := [[2313; 2342; 2366; 2361; 2352; 2339]];
  d_given := [[42; 32];
      [2332; 2352];
      [2342; 2367; 2354; 2375; 2354; 2381; 2351; 2366; 32; 2346; 2381; 2352; 2350; 2366; 2339; 2375; 32]];
  d_when := [[42; 32];
      [2332; 2375; 2357; 2381; 2361; 2366; 32]];
  d_then := [[42; 32];
      [2350; 2327; 32];
      [2340; 2375; 2357; 2381; 2361; 2366; 32]];
  d_and := [[42; 32];
      [2310; 2339; 2367; 32];
      [2340; 2360; 2375; 2330; 32]];
  d_but := [[42; 32];
      [2346; 2339; 32];
      [2346; 2352; 2306; 2340; 2369; 32]]
|}.

(* gherkin-languages.json:3741, entry "amh" (Amharic) *)
Definition dialect_amh : dialect := {|
  d_feature := [[4661; 4651];
      [4840; 4720; 4936; 4616; 4872; 4813; 32; 4661; 4651];
      [4840; 4634; 4936; 4616; 4872; 4813; 32; 4853; 4653; 4874; 4725]];
  d_rule := [[4613; 4877]];
  d_scenario := [[4637; 4659; 4620];
      [4609; 4755; 4724]];
  d_scenarioOutline := [[4609; 4755; 4724; 32; 4829; 4653; 4829; 4653];
      [4609; 4755; 4724; 32; 4768; 4709; 4752; 4725]];
  d_background := [[4677; 4853; 4632; 32; 4609; 4756; 4723];
      [4632; 4752; 4667];
      [4632; 4752; 4667; 32; 4608; 4659; 4709]];
  d_examples := [[4637; 4659; 4620; 4814; 4733];
      [4609; 4755; 4724; 4814; 4733]];
  d_given := [[42; 32];
      [4840; 4720; 4656; 4896; 32]];
  d_when := [[42; 32];
      [4632; 4732; 32]];
  d_then := [[42; 32];
      [4776; 4826; 4843; 32]];
  d_and := [[42; 32];
      [4773; 4755; 32]];
  d_but := [[42; 32];
      [4877; 4757; 32]]
|}.

(** dialect.py:10-11 [DIALECTS = json.load(file)]: insertion order of the file. *)
Definition DIALECTS : list (str * dialect) :=
  [([97; 102], dialect_af);
   ([97; 109], dialect_am);
   ([97; 110], dialect_an);
   ([97; 114], dialect_ar);
   ([97; 115; 116], dialect_ast);
   ([97; 122], dialect_az);
   ([98; 101], dialect_be);
   ([98; 103], dialect_bg);
   ([98; 109], dialect_bm);
   ([98; 115], dialect_bs);
   ([99; 97], dialect_ca);
   ([99; 115], dialect_cs);
   ([99; 121; 45; 71; 66], dialect_cy_GB);
   ([100; 97], dialect_da);
   ([100; 101], dialect_de);
   ([101; 108], dialect_el);
   ([101; 109], dialect_em);
   ([101; 110], dialect_en);
   ([101; 110; 45; 83; 99; 111; 117; 115; 101], dialect_en_Scouse);
   ([101; 110; 45; 97; 117], dialect_en_au);
   ([101; 110; 45; 108; 111; 108], dialect_en_lol);
   ([101; 110; 45; 111; 108; 100], dialect_en_old);
   ([101; 110; 45; 112; 105; 114; 97; 116; 101], dialect_en_pirate);
   ([101; 110; 45; 116; 120], dialect_en_tx);
   ([101; 111], dialect_eo);
   ([101; 115], dialect_es);
   ([101; 116], dialect_et);
   ([102; 97], dialect_fa);
   ([102; 105], dialect_fi);
   ([102; 114], dialect_fr);
   ([103; 97], dialect_ga);
   ([103; 106], dialect_gj);
   ([103; 108], dialect_gl);
   ([104; 101], dialect_he);
   ([104; 105], dialect_hi);
   ([104; 114], dialect_hr);
   ([104; 116], dialect_ht);
   ([104; 117], dialect_hu);
   ([105; 100], dialect_id);
   ([105; 115], dialect_is);
   ([105; 116], dialect_it);
   ([106; 97], dialect_ja);
   ([106; 118], dialect_jv);
   ([107; 97], dialect_ka);
   ([107; 110], dialect_kn);
   ([107; 111], dialect_ko);
   ([108; 116], dialect_lt);
   ([108; 117], dialect_lu);
   ([108; 118], dialect_lv);
   ([109; 107; 45; 67; 121; 114; 108], dialect_mk_Cyrl);
   ([109; 107; 45; 76; 97; 116; 110], dialect_mk_Latn);
   ([109; 110], dialect_mn);
   ([110; 101], dialect_ne);
   ([110; 108], dialect_nl);
   ([110; 111], dialect_no);
   ([112; 97], dialect_pa);
   ([112; 108], dialect_pl);
   ([112; 116], dialect_pt);
   ([114; 111], dialect_ro);
   ([114; 117], dialect_ru);
   ([115; 107], dialect_sk);
   ([115; 108], dialect_sl);
   ([115; 114; 45; 67; 121; 114; 108], dialect_sr_Cyrl);
   ([115; 114; 45; 76; 97; 116; 110], dialect_sr_Latn);
   ([115; 118], dialect_sv);
   ([116; 97], dialect_ta);
   ([116; 104], dialect_th);
   ([116; 101], dialect_te);
   ([116; 108; 104], dialect_tlh);
   ([116; 114], dialect_tr);
   ([116; 116], dialect_tt);
   ([117; 107], dialect_uk);
   ([117; 114], dialect_ur);
   ([117; 122], dialect_uz);
   ([118; 105], dialect_vi);
   ([122; 104; 45; 67; 78], dialect_zh_CN);
   ([122; 104; 45; 84; 87], dialect_zh_TW);
   ([109; 114], dialect_mr);
   ([97; 109; 104], dialect_amh)].
