(** Generated by tools/gen_table.py from
    /repo/packages/gurke/src/gurke/parser.py:245-3772; do not edit.
    Each [match_token_at_N] is a sequence of
      [if match_X(..) (and lookahead_K(..))?: actions; return n]
    followed by a common error tail that mentions only [expected_tokens] and N;
    the generator asserts this shape for every function. *)
From Verif Require Import PyStr Types.

(* parser.py:245-289 match_token_at_0 *)
Definition state_0 : pstate := {|
  st_trans := [
    mkTr TkEOF (None) [ABuild] 42 (* 246 *);
    mkTr TkLanguage (None) [AStart RFeature; AStart RFeatureHeader; ABuild] 1 (* 249 *);
    mkTr TkTagLine (None) [AStart RFeature; AStart RFeatureHeader; AStart RTags; ABuild] 2 (* 254 *);
    mkTr TkFeatureLine (None) [AStart RFeature; AStart RFeatureHeader; ABuild] 3 (* 260 *);
    mkTr TkComment (None) [ABuild] 0 (* 265 *);
    mkTr TkEmpty (None) [ABuild] 0 (* 268 *)
  ];
  st_expected := [TkEOF; TkLanguage; TkTagLine; TkFeatureLine; TkComment; TkEmpty];
  st_self := 0
|}.

(* parser.py:291-321 match_token_at_1 *)
Definition state_1 : pstate := {|
  st_trans := [
    mkTr TkTagLine (None) [AStart RTags; ABuild] 2 (* 292 *);
    mkTr TkFeatureLine (None) [ABuild] 3 (* 296 *);
    mkTr TkComment (None) [ABuild] 1 (* 299 *);
    mkTr TkEmpty (None) [ABuild] 1 (* 302 *)
  ];
  st_expected := [TkTagLine; TkFeatureLine; TkComment; TkEmpty];
  st_self := 1
|}.

(* parser.py:323-353 match_token_at_2 *)
Definition state_2 : pstate := {|
  st_trans := [
    mkTr TkTagLine (None) [ABuild] 2 (* 324 *);
    mkTr TkFeatureLine (None) [AEnd RTags; ABuild] 3 (* 327 *);
    mkTr TkComment (None) [ABuild] 2 (* 331 *);
    mkTr TkEmpty (None) [ABuild] 2 (* 334 *)
  ];
  st_expected := [TkTagLine; TkFeatureLine; TkComment; TkEmpty];
  st_self := 2
|}.

(* parser.py:355-421 match_token_at_3 *)
Definition state_3 : pstate := {|
  st_trans := [
    mkTr TkEOF (None) [AEnd RFeatureHeader; AEnd RFeature; ABuild] 42 (* 356 *);
    mkTr TkEmpty (None) [ABuild] 3 (* 361 *);
    mkTr TkComment (None) [ABuild] 5 (* 364 *);
    mkTr TkBackgroundLine (None) [AEnd RFeatureHeader; AStart RBackground; ABuild] 6 (* 367 *);
    mkTr TkTagLine (Some LA0) [AEnd RFeatureHeader; AStart RScenarioDefinition; AStart RTags; ABuild] 11 (* 372 *);
    mkTr TkTagLine (None) [AEnd RFeatureHeader; AStart RRule; AStart RRuleHeader; AStart RTags; ABuild] 22 (* 378 *);
    mkTr TkScenarioLine (None) [AEnd RFeatureHeader; AStart RScenarioDefinition; AStart RScenario; ABuild] 12 (* 385 *);
    mkTr TkRuleLine (None) [AEnd RFeatureHeader; AStart RRule; AStart RRuleHeader; ABuild] 23 (* 391 *);
    mkTr TkOther (None) [AStart RDescription; ABuild] 4 (* 397 *)
  ];
  st_expected := [TkEOF; TkEmpty; TkComment; TkBackgroundLine; TkTagLine; TkScenarioLine; TkRuleLine; TkOther];
  st_self := 3
|}.

(* parser.py:423-491 match_token_at_4 *)
Definition state_4 : pstate := {|
  st_trans := [
    mkTr TkEOF (None) [AEnd RDescription; AEnd RFeatureHeader; AEnd RFeature; ABuild] 42 (* 424 *);
    mkTr TkComment (None) [AEnd RDescription; ABuild] 5 (* 430 *);
    mkTr TkBackgroundLine (None) [AEnd RDescription; AEnd RFeatureHeader; AStart RBackground; ABuild] 6 (* 434 *);
    mkTr TkTagLine (Some LA0) [AEnd RDescription; AEnd RFeatureHeader; AStart RScenarioDefinition; AStart RTags; ABuild] 11 (* 440 *);
    mkTr TkTagLine (None) [AEnd RDescription; AEnd RFeatureHeader; AStart RRule; AStart RRuleHeader; AStart RTags; ABuild] 22 (* 447 *);
    mkTr TkScenarioLine (None) [AEnd RDescription; AEnd RFeatureHeader; AStart RScenarioDefinition; AStart RScenario; ABuild] 12 (* 455 *);
    mkTr TkRuleLine (None) [AEnd RDescription; AEnd RFeatureHeader; AStart RRule; AStart RRuleHeader; ABuild] 23 (* 462 *);
    mkTr TkOther (None) [ABuild] 4 (* 469 *)
  ];
  st_expected := [TkEOF; TkComment; TkBackgroundLine; TkTagLine; TkScenarioLine; TkRuleLine; TkOther];
  st_self := 4
|}.

(* parser.py:493-554 match_token_at_5 *)
Definition state_5 : pstate := {|
  st_trans := [
    mkTr TkEOF (None) [AEnd RFeatureHeader; AEnd RFeature; ABuild] 42 (* 494 *);
    mkTr TkComment (None) [ABuild] 5 (* 499 *);
    mkTr TkBackgroundLine (None) [AEnd RFeatureHeader; AStart RBackground; ABuild] 6 (* 502 *);
    mkTr TkTagLine (Some LA0) [AEnd RFeatureHeader; AStart RScenarioDefinition; AStart RTags; ABuild] 11 (* 507 *);
    mkTr TkTagLine (None) [AEnd RFeatureHeader; AStart RRule; AStart RRuleHeader; AStart RTags; ABuild] 22 (* 513 *);
    mkTr TkScenarioLine (None) [AEnd RFeatureHeader; AStart RScenarioDefinition; AStart RScenario; ABuild] 12 (* 520 *);
    mkTr TkRuleLine (None) [AEnd RFeatureHeader; AStart RRule; AStart RRuleHeader; ABuild] 23 (* 526 *);
    mkTr TkEmpty (None) [ABuild] 5 (* 532 *)
  ];
  st_expected := [TkEOF; TkComment; TkBackgroundLine; TkTagLine; TkScenarioLine; TkRuleLine; TkEmpty];
  st_self := 5
|}.

(* parser.py:556-621 match_token_at_6 *)
Definition state_6 : pstate := {|
  st_trans := [
    mkTr TkEOF (None) [AEnd RBackground; AEnd RFeature; ABuild] 42 (* 557 *);
    mkTr TkEmpty (None) [ABuild] 6 (* 562 *);
    mkTr TkComment (None) [ABuild] 8 (* 565 *);
    mkTr TkStepLine (None) [AStart RStep; ABuild] 9 (* 568 *);
    mkTr TkTagLine (Some LA0) [AEnd RBackground; AStart RScenarioDefinition; AStart RTags; ABuild] 11 (* 572 *);
    mkTr TkTagLine (None) [AEnd RBackground; AStart RRule; AStart RRuleHeader; AStart RTags; ABuild] 22 (* 578 *);
    mkTr TkScenarioLine (None) [AEnd RBackground; AStart RScenarioDefinition; AStart RScenario; ABuild] 12 (* 585 *);
    mkTr TkRuleLine (None) [AEnd RBackground; AStart RRule; AStart RRuleHeader; ABuild] 23 (* 591 *);
    mkTr TkOther (None) [AStart RDescription; ABuild] 7 (* 597 *)
  ];
  st_expected := [TkEOF; TkEmpty; TkComment; TkStepLine; TkTagLine; TkScenarioLine; TkRuleLine; TkOther];
  st_self := 6
|}.

(* parser.py:623-690 match_token_at_7 *)
Definition state_7 : pstate := {|
  st_trans := [
    mkTr TkEOF (None) [AEnd RDescription; AEnd RBackground; AEnd RFeature; ABuild] 42 (* 624 *);
    mkTr TkComment (None) [AEnd RDescription; ABuild] 8 (* 630 *);
    mkTr TkStepLine (None) [AEnd RDescription; AStart RStep; ABuild] 9 (* 634 *);
    mkTr TkTagLine (Some LA0) [AEnd RDescription; AEnd RBackground; AStart RScenarioDefinition; AStart RTags; ABuild] 11 (* 639 *);
    mkTr TkTagLine (None) [AEnd RDescription; AEnd RBackground; AStart RRule; AStart RRuleHeader; AStart RTags; ABuild] 22 (* 646 *);
    mkTr TkScenarioLine (None) [AEnd RDescription; AEnd RBackground; AStart RScenarioDefinition; AStart RScenario; ABuild] 12 (* 654 *);
    mkTr TkRuleLine (None) [AEnd RDescription; AEnd RBackground; AStart RRule; AStart RRuleHeader; ABuild] 23 (* 661 *);
    mkTr TkOther (None) [ABuild] 7 (* 668 *)
  ];
  st_expected := [TkEOF; TkComment; TkStepLine; TkTagLine; TkScenarioLine; TkRuleLine; TkOther];
  st_self := 7
|}.

(* parser.py:692-752 match_token_at_8 *)
Definition state_8 : pstate := {|
  st_trans := [
    mkTr TkEOF (None) [AEnd RBackground; AEnd RFeature; ABuild] 42 (* 693 *);
    mkTr TkComment (None) [ABuild] 8 (* 698 *);
    mkTr TkStepLine (None) [AStart RStep; ABuild] 9 (* 701 *);
    mkTr TkTagLine (Some LA0) [AEnd RBackground; AStart RScenarioDefinition; AStart RTags; ABuild] 11 (* 705 *);
    mkTr TkTagLine (None) [AEnd RBackground; AStart RRule; AStart RRuleHeader; AStart RTags; ABuild] 22 (* 711 *);
    mkTr TkScenarioLine (None) [AEnd RBackground; AStart RScenarioDefinition; AStart RScenario; ABuild] 12 (* 718 *);
    mkTr TkRuleLine (None) [AEnd RBackground; AStart RRule; AStart RRuleHeader; ABuild] 23 (* 724 *);
    mkTr TkEmpty (None) [ABuild] 8 (* 730 *)
  ];
  st_expected := [TkEOF; TkComment; TkStepLine; TkTagLine; TkScenarioLine; TkRuleLine; TkEmpty];
  st_self := 8
|}.

(* parser.py:754-830 match_token_at_9 *)
Definition state_9 : pstate := {|
  st_trans := [
    mkTr TkEOF (None) [AEnd RStep; AEnd RBackground; AEnd RFeature; ABuild] 42 (* 755 *);
    mkTr TkTableRow (None) [AStart RDataTable; ABuild] 10 (* 761 *);
    mkTr TkDocStringSeparator (None) [AStart RDocString; ABuild] 49 (* 765 *);
    mkTr TkStepLine (None) [AEnd RStep; AStart RStep; ABuild] 9 (* 769 *);
    mkTr TkTagLine (Some LA0) [AEnd RStep; AEnd RBackground; AStart RScenarioDefinition; AStart RTags; ABuild] 11 (* 774 *);
    mkTr TkTagLine (None) [AEnd RStep; AEnd RBackground; AStart RRule; AStart RRuleHeader; AStart RTags; ABuild] 22 (* 781 *);
    mkTr TkScenarioLine (None) [AEnd RStep; AEnd RBackground; AStart RScenarioDefinition; AStart RScenario; ABuild] 12 (* 789 *);
    mkTr TkRuleLine (None) [AEnd RStep; AEnd RBackground; AStart RRule; AStart RRuleHeader; ABuild] 23 (* 796 *);
    mkTr TkComment (None) [ABuild] 9 (* 803 *);
    mkTr TkEmpty (None) [ABuild] 9 (* 806 *)
  ];
  st_expected := [TkEOF; TkTableRow; TkDocStringSeparator; TkStepLine; TkTagLine; TkScenarioLine; TkRuleLine; TkComment; TkEmpty];
  st_self := 9
|}.

(* parser.py:832-908 match_token_at_10 *)
Definition state_10 : pstate := {|
  st_trans := [
    mkTr TkEOF (None) [AEnd RDataTable; AEnd RStep; AEnd RBackground; AEnd RFeature; ABuild] 42 (* 833 *);
    mkTr TkTableRow (None) [ABuild] 10 (* 840 *);
    mkTr TkStepLine (None) [AEnd RDataTable; AEnd RStep; AStart RStep; ABuild] 9 (* 843 *);
    mkTr TkTagLine (Some LA0) [AEnd RDataTable; AEnd RStep; AEnd RBackground; AStart RScenarioDefinition; AStart RTags; ABuild] 11 (* 849 *);
    mkTr TkTagLine (None) [AEnd RDataTable; AEnd RStep; AEnd RBackground; AStart RRule; AStart RRuleHeader; AStart RTags; ABuild] 22 (* 857 *);
    mkTr TkScenarioLine (None) [AEnd RDataTable; AEnd RStep; AEnd RBackground; AStart RScenarioDefinition; AStart RScenario; ABuild] 12 (* 866 *);
    mkTr TkRuleLine (None) [AEnd RDataTable; AEnd RStep; AEnd RBackground; AStart RRule; AStart RRuleHeader; ABuild] 23 (* 874 *);
    mkTr TkComment (None) [ABuild] 10 (* 882 *);
    mkTr TkEmpty (None) [ABuild] 10 (* 885 *)
  ];
  st_expected := [TkEOF; TkTableRow; TkStepLine; TkTagLine; TkScenarioLine; TkRuleLine; TkComment; TkEmpty];
  st_self := 10
|}.

(* parser.py:910-941 match_token_at_11 *)
Definition state_11 : pstate := {|
  st_trans := [
    mkTr TkTagLine (None) [ABuild] 11 (* 911 *);
    mkTr TkScenarioLine (None) [AEnd RTags; AStart RScenario; ABuild] 12 (* 914 *);
    mkTr TkComment (None) [ABuild] 11 (* 919 *);
    mkTr TkEmpty (None) [ABuild] 11 (* 922 *)
  ];
  st_expected := [TkTagLine; TkScenarioLine; TkComment; TkEmpty];
  st_self := 11
|}.

(* parser.py:943-1024 match_token_at_12 *)
Definition state_12 : pstate := {|
  st_trans := [
    mkTr TkEOF (None) [AEnd RScenario; AEnd RScenarioDefinition; AEnd RFeature; ABuild] 42 (* 944 *);
    mkTr TkEmpty (None) [ABuild] 12 (* 950 *);
    mkTr TkComment (None) [ABuild] 14 (* 953 *);
    mkTr TkStepLine (None) [AStart RStep; ABuild] 15 (* 956 *);
    mkTr TkTagLine (Some LA1) [AStart RExamplesDefinition; AStart RTags; ABuild] 17 (* 960 *);
    mkTr TkTagLine (Some LA0) [AEnd RScenario; AEnd RScenarioDefinition; AStart RScenarioDefinition; AStart RTags; ABuild] 11 (* 965 *);
    mkTr TkTagLine (None) [AEnd RScenario; AEnd RScenarioDefinition; AStart RRule; AStart RRuleHeader; AStart RTags; ABuild] 22 (* 972 *);
    mkTr TkExamplesLine (None) [AStart RExamplesDefinition; AStart RExamples; ABuild] 18 (* 980 *);
    mkTr TkScenarioLine (None) [AEnd RScenario; AEnd RScenarioDefinition; AStart RScenarioDefinition; AStart RScenario; ABuild] 12 (* 985 *);
    mkTr TkRuleLine (None) [AEnd RScenario; AEnd RScenarioDefinition; AStart RRule; AStart RRuleHeader; ABuild] 23 (* 992 *);
    mkTr TkOther (None) [AStart RDescription; ABuild] 13 (* 999 *)
  ];
  st_expected := [TkEOF; TkEmpty; TkComment; TkStepLine; TkTagLine; TkExamplesLine; TkScenarioLine; TkRuleLine; TkOther];
  st_self := 12
|}.

(* parser.py:1026-1111 match_token_at_13 *)
Definition state_13 : pstate := {|
  st_trans := [
    mkTr TkEOF (None) [AEnd RDescription; AEnd RScenario; AEnd RScenarioDefinition; AEnd RFeature; ABuild] 42 (* 1027 *);
    mkTr TkComment (None) [AEnd RDescription; ABuild] 14 (* 1034 *);
    mkTr TkStepLine (None) [AEnd RDescription; AStart RStep; ABuild] 15 (* 1038 *);
    mkTr TkTagLine (Some LA1) [AEnd RDescription; AStart RExamplesDefinition; AStart RTags; ABuild] 17 (* 1043 *);
    mkTr TkTagLine (Some LA0) [AEnd RDescription; AEnd RScenario; AEnd RScenarioDefinition; AStart RScenarioDefinition; AStart RTags; ABuild] 11 (* 1049 *);
    mkTr TkTagLine (None) [AEnd RDescription; AEnd RScenario; AEnd RScenarioDefinition; AStart RRule; AStart RRuleHeader; AStart RTags; ABuild] 22 (* 1057 *);
    mkTr TkExamplesLine (None) [AEnd RDescription; AStart RExamplesDefinition; AStart RExamples; ABuild] 18 (* 1066 *);
    mkTr TkScenarioLine (None) [AEnd RDescription; AEnd RScenario; AEnd RScenarioDefinition; AStart RScenarioDefinition; AStart RScenario; ABuild] 12 (* 1072 *);
    mkTr TkRuleLine (None) [AEnd RDescription; AEnd RScenario; AEnd RScenarioDefinition; AStart RRule; AStart RRuleHeader; ABuild] 23 (* 1080 *);
    mkTr TkOther (None) [ABuild] 13 (* 1088 *)
  ];
  st_expected := [TkEOF; TkComment; TkStepLine; TkTagLine; TkExamplesLine; TkScenarioLine; TkRuleLine; TkOther];
  st_self := 13
|}.

(* parser.py:1113-1189 match_token_at_14 *)
Definition state_14 : pstate := {|
  st_trans := [
    mkTr TkEOF (None) [AEnd RScenario; AEnd RScenarioDefinition; AEnd RFeature; ABuild] 42 (* 1114 *);
    mkTr TkComment (None) [ABuild] 14 (* 1120 *);
    mkTr TkStepLine (None) [AStart RStep; ABuild] 15 (* 1123 *);
    mkTr TkTagLine (Some LA1) [AStart RExamplesDefinition; AStart RTags; ABuild] 17 (* 1127 *);
    mkTr TkTagLine (Some LA0) [AEnd RScenario; AEnd RScenarioDefinition; AStart RScenarioDefinition; AStart RTags; ABuild] 11 (* 1132 *);
    mkTr TkTagLine (None) [AEnd RScenario; AEnd RScenarioDefinition; AStart RRule; AStart RRuleHeader; AStart RTags; ABuild] 22 (* 1139 *);
    mkTr TkExamplesLine (None) [AStart RExamplesDefinition; AStart RExamples; ABuild] 18 (* 1147 *);
    mkTr TkScenarioLine (None) [AEnd RScenario; AEnd RScenarioDefinition; AStart RScenarioDefinition; AStart RScenario; ABuild] 12 (* 1152 *);
    mkTr TkRuleLine (None) [AEnd RScenario; AEnd RScenarioDefinition; AStart RRule; AStart RRuleHeader; ABuild] 23 (* 1159 *);
    mkTr TkEmpty (None) [ABuild] 14 (* 1166 *)
  ];
  st_expected := [TkEOF; TkComment; TkStepLine; TkTagLine; TkExamplesLine; TkScenarioLine; TkRuleLine; TkEmpty];
  st_self := 14
|}.

(* parser.py:1191-1285 match_token_at_15 *)
Definition state_15 : pstate := {|
  st_trans := [
    mkTr TkEOF (None) [AEnd RStep; AEnd RScenario; AEnd RScenarioDefinition; AEnd RFeature; ABuild] 42 (* 1192 *);
    mkTr TkTableRow (None) [AStart RDataTable; ABuild] 16 (* 1199 *);
    mkTr TkDocStringSeparator (None) [AStart RDocString; ABuild] 47 (* 1203 *);
    mkTr TkStepLine (None) [AEnd RStep; AStart RStep; ABuild] 15 (* 1207 *);
    mkTr TkTagLine (Some LA1) [AEnd RStep; AStart RExamplesDefinition; AStart RTags; ABuild] 17 (* 1212 *);
    mkTr TkTagLine (Some LA0) [AEnd RStep; AEnd RScenario; AEnd RScenarioDefinition; AStart RScenarioDefinition; AStart RTags; ABuild] 11 (* 1218 *);
    mkTr TkTagLine (None) [AEnd RStep; AEnd RScenario; AEnd RScenarioDefinition; AStart RRule; AStart RRuleHeader; AStart RTags; ABuild] 22 (* 1226 *);
    mkTr TkExamplesLine (None) [AEnd RStep; AStart RExamplesDefinition; AStart RExamples; ABuild] 18 (* 1235 *);
    mkTr TkScenarioLine (None) [AEnd RStep; AEnd RScenario; AEnd RScenarioDefinition; AStart RScenarioDefinition; AStart RScenario; ABuild] 12 (* 1241 *);
    mkTr TkRuleLine (None) [AEnd RStep; AEnd RScenario; AEnd RScenarioDefinition; AStart RRule; AStart RRuleHeader; ABuild] 23 (* 1249 *);
    mkTr TkComment (None) [ABuild] 15 (* 1257 *);
    mkTr TkEmpty (None) [ABuild] 15 (* 1260 *)
  ];
  st_expected := [TkEOF; TkTableRow; TkDocStringSeparator; TkStepLine; TkTagLine; TkExamplesLine; TkScenarioLine; TkRuleLine; TkComment; TkEmpty];
  st_self := 15
|}.

(* parser.py:1287-1383 match_token_at_16 *)
Definition state_16 : pstate := {|
  st_trans := [
    mkTr TkEOF (None) [AEnd RDataTable; AEnd RStep; AEnd RScenario; AEnd RScenarioDefinition; AEnd RFeature; ABuild] 42 (* 1288 *);
    mkTr TkTableRow (None) [ABuild] 16 (* 1296 *);
    mkTr TkStepLine (None) [AEnd RDataTable; AEnd RStep; AStart RStep; ABuild] 15 (* 1299 *);
    mkTr TkTagLine (Some LA1) [AEnd RDataTable; AEnd RStep; AStart RExamplesDefinition; AStart RTags; ABuild] 17 (* 1305 *);
    mkTr TkTagLine (Some LA0) [AEnd RDataTable; AEnd RStep; AEnd RScenario; AEnd RScenarioDefinition; AStart RScenarioDefinition; AStart RTags; ABuild] 11 (* 1312 *);
    mkTr TkTagLine (None) [AEnd RDataTable; AEnd RStep; AEnd RScenario; AEnd RScenarioDefinition; AStart RRule; AStart RRuleHeader; AStart RTags; ABuild] 22 (* 1321 *);
    mkTr TkExamplesLine (None) [AEnd RDataTable; AEnd RStep; AStart RExamplesDefinition; AStart RExamples; ABuild] 18 (* 1331 *);
    mkTr TkScenarioLine (None) [AEnd RDataTable; AEnd RStep; AEnd RScenario; AEnd RScenarioDefinition; AStart RScenarioDefinition; AStart RScenario; ABuild] 12 (* 1338 *);
    mkTr TkRuleLine (None) [AEnd RDataTable; AEnd RStep; AEnd RScenario; AEnd RScenarioDefinition; AStart RRule; AStart RRuleHeader; ABuild] 23 (* 1347 *);
    mkTr TkComment (None) [ABuild] 16 (* 1356 *);
    mkTr TkEmpty (None) [ABuild] 16 (* 1359 *)
  ];
  st_expected := [TkEOF; TkTableRow; TkStepLine; TkTagLine; TkExamplesLine; TkScenarioLine; TkRuleLine; TkComment; TkEmpty];
  st_self := 16
|}.

(* parser.py:1385-1416 match_token_at_17 *)
Definition state_17 : pstate := {|
  st_trans := [
    mkTr TkTagLine (None) [ABuild] 17 (* 1386 *);
    mkTr TkExamplesLine (None) [AEnd RTags; AStart RExamples; ABuild] 18 (* 1389 *);
    mkTr TkComment (None) [ABuild] 17 (* 1394 *);
    mkTr TkEmpty (None) [ABuild] 17 (* 1397 *)
  ];
  st_expected := [TkTagLine; TkExamplesLine; TkComment; TkEmpty];
  st_self := 17
|}.

(* parser.py:1418-1513 match_token_at_18 *)
Definition state_18 : pstate := {|
  st_trans := [
    mkTr TkEOF (None) [AEnd RExamples; AEnd RExamplesDefinition; AEnd RScenario; AEnd RScenarioDefinition; AEnd RFeature; ABuild] 42 (* 1419 *);
    mkTr TkEmpty (None) [ABuild] 18 (* 1427 *);
    mkTr TkComment (None) [ABuild] 20 (* 1430 *);
    mkTr TkTableRow (None) [AStart RExamplesTable; ABuild] 21 (* 1433 *);
    mkTr TkTagLine (Some LA1) [AEnd RExamples; AEnd RExamplesDefinition; AStart RExamplesDefinition; AStart RTags; ABuild] 17 (* 1437 *);
    mkTr TkTagLine (Some LA0) [AEnd RExamples; AEnd RExamplesDefinition; AEnd RScenario; AEnd RScenarioDefinition; AStart RScenarioDefinition; AStart RTags; ABuild] 11 (* 1444 *);
    mkTr TkTagLine (None) [AEnd RExamples; AEnd RExamplesDefinition; AEnd RScenario; AEnd RScenarioDefinition; AStart RRule; AStart RRuleHeader; AStart RTags; ABuild] 22 (* 1453 *);
    mkTr TkExamplesLine (None) [AEnd RExamples; AEnd RExamplesDefinition; AStart RExamplesDefinition; AStart RExamples; ABuild] 18 (* 1463 *);
    mkTr TkScenarioLine (None) [AEnd RExamples; AEnd RExamplesDefinition; AEnd RScenario; AEnd RScenarioDefinition; AStart RScenarioDefinition; AStart RScenario; ABuild] 12 (* 1470 *);
    mkTr TkRuleLine (None) [AEnd RExamples; AEnd RExamplesDefinition; AEnd RScenario; AEnd RScenarioDefinition; AStart RRule; AStart RRuleHeader; ABuild] 23 (* 1479 *);
    mkTr TkOther (None) [AStart RDescription; ABuild] 19 (* 1488 *)
  ];
  st_expected := [TkEOF; TkEmpty; TkComment; TkTableRow; TkTagLine; TkExamplesLine; TkScenarioLine; TkRuleLine; TkOther];
  st_self := 18
|}.

(* parser.py:1515-1614 match_token_at_19 *)
Definition state_19 : pstate := {|
  st_trans := [
    mkTr TkEOF (None) [AEnd RDescription; AEnd RExamples; AEnd RExamplesDefinition; AEnd RScenario; AEnd RScenarioDefinition; AEnd RFeature; ABuild] 42 (* 1516 *);
    mkTr TkComment (None) [AEnd RDescription; ABuild] 20 (* 1525 *);
    mkTr TkTableRow (None) [AEnd RDescription; AStart RExamplesTable; ABuild] 21 (* 1529 *);
    mkTr TkTagLine (Some LA1) [AEnd RDescription; AEnd RExamples; AEnd RExamplesDefinition; AStart RExamplesDefinition; AStart RTags; ABuild] 17 (* 1534 *);
    mkTr TkTagLine (Some LA0) [AEnd RDescription; AEnd RExamples; AEnd RExamplesDefinition; AEnd RScenario; AEnd RScenarioDefinition; AStart RScenarioDefinition; AStart RTags; ABuild] 11 (* 1542 *);
    mkTr TkTagLine (None) [AEnd RDescription; AEnd RExamples; AEnd RExamplesDefinition; AEnd RScenario; AEnd RScenarioDefinition; AStart RRule; AStart RRuleHeader; AStart RTags; ABuild] 22 (* 1552 *);
    mkTr TkExamplesLine (None) [AEnd RDescription; AEnd RExamples; AEnd RExamplesDefinition; AStart RExamplesDefinition; AStart RExamples; ABuild] 18 (* 1563 *);
    mkTr TkScenarioLine (None) [AEnd RDescription; AEnd RExamples; AEnd RExamplesDefinition; AEnd RScenario; AEnd RScenarioDefinition; AStart RScenarioDefinition; AStart RScenario; ABuild] 12 (* 1571 *);
    mkTr TkRuleLine (None) [AEnd RDescription; AEnd RExamples; AEnd RExamplesDefinition; AEnd RScenario; AEnd RScenarioDefinition; AStart RRule; AStart RRuleHeader; ABuild] 23 (* 1581 *);
    mkTr TkOther (None) [ABuild] 19 (* 1591 *)
  ];
  st_expected := [TkEOF; TkComment; TkTableRow; TkTagLine; TkExamplesLine; TkScenarioLine; TkRuleLine; TkOther];
  st_self := 19
|}.

(* parser.py:1616-1706 match_token_at_20 *)
Definition state_20 : pstate := {|
  st_trans := [
    mkTr TkEOF (None) [AEnd RExamples; AEnd RExamplesDefinition; AEnd RScenario; AEnd RScenarioDefinition; AEnd RFeature; ABuild] 42 (* 1617 *);
    mkTr TkComment (None) [ABuild] 20 (* 1625 *);
    mkTr TkTableRow (None) [AStart RExamplesTable; ABuild] 21 (* 1628 *);
    mkTr TkTagLine (Some LA1) [AEnd RExamples; AEnd RExamplesDefinition; AStart RExamplesDefinition; AStart RTags; ABuild] 17 (* 1632 *);
    mkTr TkTagLine (Some LA0) [AEnd RExamples; AEnd RExamplesDefinition; AEnd RScenario; AEnd RScenarioDefinition; AStart RScenarioDefinition; AStart RTags; ABuild] 11 (* 1639 *);
    mkTr TkTagLine (None) [AEnd RExamples; AEnd RExamplesDefinition; AEnd RScenario; AEnd RScenarioDefinition; AStart RRule; AStart RRuleHeader; AStart RTags; ABuild] 22 (* 1648 *);
    mkTr TkExamplesLine (None) [AEnd RExamples; AEnd RExamplesDefinition; AStart RExamplesDefinition; AStart RExamples; ABuild] 18 (* 1658 *);
    mkTr TkScenarioLine (None) [AEnd RExamples; AEnd RExamplesDefinition; AEnd RScenario; AEnd RScenarioDefinition; AStart RScenarioDefinition; AStart RScenario; ABuild] 12 (* 1665 *);
    mkTr TkRuleLine (None) [AEnd RExamples; AEnd RExamplesDefinition; AEnd RScenario; AEnd RScenarioDefinition; AStart RRule; AStart RRuleHeader; ABuild] 23 (* 1674 *);
    mkTr TkEmpty (None) [ABuild] 20 (* 1683 *)
  ];
  st_expected := [TkEOF; TkComment; TkTableRow; TkTagLine; TkExamplesLine; TkScenarioLine; TkRuleLine; TkEmpty];
  st_self := 20
|}.

(* parser.py:1708-1804 match_token_at_21 *)
Definition state_21 : pstate := {|
  st_trans := [
    mkTr TkEOF (None) [AEnd RExamplesTable; AEnd RExamples; AEnd RExamplesDefinition; AEnd RScenario; AEnd RScenarioDefinition; AEnd RFeature; ABuild] 42 (* 1709 *);
    mkTr TkTableRow (None) [ABuild] 21 (* 1718 *);
    mkTr TkTagLine (Some LA1) [AEnd RExamplesTable; AEnd RExamples; AEnd RExamplesDefinition; AStart RExamplesDefinition; AStart RTags; ABuild] 17 (* 1721 *);
    mkTr TkTagLine (Some LA0) [AEnd RExamplesTable; AEnd RExamples; AEnd RExamplesDefinition; AEnd RScenario; AEnd RScenarioDefinition; AStart RScenarioDefinition; AStart RTags; ABuild] 11 (* 1729 *);
    mkTr TkTagLine (None) [AEnd RExamplesTable; AEnd RExamples; AEnd RExamplesDefinition; AEnd RScenario; AEnd RScenarioDefinition; AStart RRule; AStart RRuleHeader; AStart RTags; ABuild] 22 (* 1739 *);
    mkTr TkExamplesLine (None) [AEnd RExamplesTable; AEnd RExamples; AEnd RExamplesDefinition; AStart RExamplesDefinition; AStart RExamples; ABuild] 18 (* 1750 *);
    mkTr TkScenarioLine (None) [AEnd RExamplesTable; AEnd RExamples; AEnd RExamplesDefinition; AEnd RScenario; AEnd RScenarioDefinition; AStart RScenarioDefinition; AStart RScenario; ABuild] 12 (* 1758 *);
    mkTr TkRuleLine (None) [AEnd RExamplesTable; AEnd RExamples; AEnd RExamplesDefinition; AEnd RScenario; AEnd RScenarioDefinition; AStart RRule; AStart RRuleHeader; ABuild] 23 (* 1768 *);
    mkTr TkComment (None) [ABuild] 21 (* 1778 *);
    mkTr TkEmpty (None) [ABuild] 21 (* 1781 *)
  ];
  st_expected := [TkEOF; TkTableRow; TkTagLine; TkExamplesLine; TkScenarioLine; TkRuleLine; TkComment; TkEmpty];
  st_self := 21
|}.

(* parser.py:1806-1836 match_token_at_22 *)
Definition state_22 : pstate := {|
  st_trans := [
    mkTr TkTagLine (None) [ABuild] 22 (* 1807 *);
    mkTr TkRuleLine (None) [AEnd RTags; ABuild] 23 (* 1810 *);
    mkTr TkComment (None) [ABuild] 22 (* 1814 *);
    mkTr TkEmpty (None) [ABuild] 22 (* 1817 *)
  ];
  st_expected := [TkTagLine; TkRuleLine; TkComment; TkEmpty];
  st_self := 22
|}.

(* parser.py:1838-1907 match_token_at_23 *)
Definition state_23 : pstate := {|
  st_trans := [
    mkTr TkEOF (None) [AEnd RRuleHeader; AEnd RRule; AEnd RFeature; ABuild] 42 (* 1839 *);
    mkTr TkEmpty (None) [ABuild] 23 (* 1845 *);
    mkTr TkComment (None) [ABuild] 25 (* 1848 *);
    mkTr TkBackgroundLine (None) [AEnd RRuleHeader; AStart RBackground; ABuild] 26 (* 1851 *);
    mkTr TkTagLine (Some LA0) [AEnd RRuleHeader; AStart RScenarioDefinition; AStart RTags; ABuild] 31 (* 1856 *);
    mkTr TkTagLine (None) [AEnd RRuleHeader; AEnd RRule; AStart RRule; AStart RRuleHeader; AStart RTags; ABuild] 22 (* 1862 *);
    mkTr TkScenarioLine (None) [AEnd RRuleHeader; AStart RScenarioDefinition; AStart RScenario; ABuild] 32 (* 1870 *);
    mkTr TkRuleLine (None) [AEnd RRuleHeader; AEnd RRule; AStart RRule; AStart RRuleHeader; ABuild] 23 (* 1876 *);
    mkTr TkOther (None) [AStart RDescription; ABuild] 24 (* 1883 *)
  ];
  st_expected := [TkEOF; TkEmpty; TkComment; TkBackgroundLine; TkTagLine; TkScenarioLine; TkRuleLine; TkOther];
  st_self := 23
|}.

(* parser.py:1909-1980 match_token_at_24 *)
Definition state_24 : pstate := {|
  st_trans := [
    mkTr TkEOF (None) [AEnd RDescription; AEnd RRuleHeader; AEnd RRule; AEnd RFeature; ABuild] 42 (* 1910 *);
    mkTr TkComment (None) [AEnd RDescription; ABuild] 25 (* 1917 *);
    mkTr TkBackgroundLine (None) [AEnd RDescription; AEnd RRuleHeader; AStart RBackground; ABuild] 26 (* 1921 *);
    mkTr TkTagLine (Some LA0) [AEnd RDescription; AEnd RRuleHeader; AStart RScenarioDefinition; AStart RTags; ABuild] 31 (* 1927 *);
    mkTr TkTagLine (None) [AEnd RDescription; AEnd RRuleHeader; AEnd RRule; AStart RRule; AStart RRuleHeader; AStart RTags; ABuild] 22 (* 1934 *);
    mkTr TkScenarioLine (None) [AEnd RDescription; AEnd RRuleHeader; AStart RScenarioDefinition; AStart RScenario; ABuild] 32 (* 1943 *);
    mkTr TkRuleLine (None) [AEnd RDescription; AEnd RRuleHeader; AEnd RRule; AStart RRule; AStart RRuleHeader; ABuild] 23 (* 1950 *);
    mkTr TkOther (None) [ABuild] 24 (* 1958 *)
  ];
  st_expected := [TkEOF; TkComment; TkBackgroundLine; TkTagLine; TkScenarioLine; TkRuleLine; TkOther];
  st_self := 24
|}.

(* parser.py:1982-2046 match_token_at_25 *)
Definition state_25 : pstate := {|
  st_trans := [
    mkTr TkEOF (None) [AEnd RRuleHeader; AEnd RRule; AEnd RFeature; ABuild] 42 (* 1983 *);
    mkTr TkComment (None) [ABuild] 25 (* 1989 *);
    mkTr TkBackgroundLine (None) [AEnd RRuleHeader; AStart RBackground; ABuild] 26 (* 1992 *);
    mkTr TkTagLine (Some LA0) [AEnd RRuleHeader; AStart RScenarioDefinition; AStart RTags; ABuild] 31 (* 1997 *);
    mkTr TkTagLine (None) [AEnd RRuleHeader; AEnd RRule; AStart RRule; AStart RRuleHeader; AStart RTags; ABuild] 22 (* 2003 *);
    mkTr TkScenarioLine (None) [AEnd RRuleHeader; AStart RScenarioDefinition; AStart RScenario; ABuild] 32 (* 2011 *);
    mkTr TkRuleLine (None) [AEnd RRuleHeader; AEnd RRule; AStart RRule; AStart RRuleHeader; ABuild] 23 (* 2017 *);
    mkTr TkEmpty (None) [ABuild] 25 (* 2024 *)
  ];
  st_expected := [TkEOF; TkComment; TkBackgroundLine; TkTagLine; TkScenarioLine; TkRuleLine; TkEmpty];
  st_self := 25
|}.

(* parser.py:2048-2116 match_token_at_26 *)
Definition state_26 : pstate := {|
  st_trans := [
    mkTr TkEOF (None) [AEnd RBackground; AEnd RRule; AEnd RFeature; ABuild] 42 (* 2049 *);
    mkTr TkEmpty (None) [ABuild] 26 (* 2055 *);
    mkTr TkComment (None) [ABuild] 28 (* 2058 *);
    mkTr TkStepLine (None) [AStart RStep; ABuild] 29 (* 2061 *);
    mkTr TkTagLine (Some LA0) [AEnd RBackground; AStart RScenarioDefinition; AStart RTags; ABuild] 31 (* 2065 *);
    mkTr TkTagLine (None) [AEnd RBackground; AEnd RRule; AStart RRule; AStart RRuleHeader; AStart RTags; ABuild] 22 (* 2071 *);
    mkTr TkScenarioLine (None) [AEnd RBackground; AStart RScenarioDefinition; AStart RScenario; ABuild] 32 (* 2079 *);
    mkTr TkRuleLine (None) [AEnd RBackground; AEnd RRule; AStart RRule; AStart RRuleHeader; ABuild] 23 (* 2085 *);
    mkTr TkOther (None) [AStart RDescription; ABuild] 27 (* 2092 *)
  ];
  st_expected := [TkEOF; TkEmpty; TkComment; TkStepLine; TkTagLine; TkScenarioLine; TkRuleLine; TkOther];
  st_self := 26
|}.

(* parser.py:2118-2188 match_token_at_27 *)
Definition state_27 : pstate := {|
  st_trans := [
    mkTr TkEOF (None) [AEnd RDescription; AEnd RBackground; AEnd RRule; AEnd RFeature; ABuild] 42 (* 2119 *);
    mkTr TkComment (None) [AEnd RDescription; ABuild] 28 (* 2126 *);
    mkTr TkStepLine (None) [AEnd RDescription; AStart RStep; ABuild] 29 (* 2130 *);
    mkTr TkTagLine (Some LA0) [AEnd RDescription; AEnd RBackground; AStart RScenarioDefinition; AStart RTags; ABuild] 31 (* 2135 *);
    mkTr TkTagLine (None) [AEnd RDescription; AEnd RBackground; AEnd RRule; AStart RRule; AStart RRuleHeader; AStart RTags; ABuild] 22 (* 2142 *);
    mkTr TkScenarioLine (None) [AEnd RDescription; AEnd RBackground; AStart RScenarioDefinition; AStart RScenario; ABuild] 32 (* 2151 *);
    mkTr TkRuleLine (None) [AEnd RDescription; AEnd RBackground; AEnd RRule; AStart RRule; AStart RRuleHeader; ABuild] 23 (* 2158 *);
    mkTr TkOther (None) [ABuild] 27 (* 2166 *)
  ];
  st_expected := [TkEOF; TkComment; TkStepLine; TkTagLine; TkScenarioLine; TkRuleLine; TkOther];
  st_self := 27
|}.

(* parser.py:2190-2253 match_token_at_28 *)
Definition state_28 : pstate := {|
  st_trans := [
    mkTr TkEOF (None) [AEnd RBackground; AEnd RRule; AEnd RFeature; ABuild] 42 (* 2191 *);
    mkTr TkComment (None) [ABuild] 28 (* 2197 *);
    mkTr TkStepLine (None) [AStart RStep; ABuild] 29 (* 2200 *);
    mkTr TkTagLine (Some LA0) [AEnd RBackground; AStart RScenarioDefinition; AStart RTags; ABuild] 31 (* 2204 *);
    mkTr TkTagLine (None) [AEnd RBackground; AEnd RRule; AStart RRule; AStart RRuleHeader; AStart RTags; ABuild] 22 (* 2210 *);
    mkTr TkScenarioLine (None) [AEnd RBackground; AStart RScenarioDefinition; AStart RScenario; ABuild] 32 (* 2218 *);
    mkTr TkRuleLine (None) [AEnd RBackground; AEnd RRule; AStart RRule; AStart RRuleHeader; ABuild] 23 (* 2224 *);
    mkTr TkEmpty (None) [ABuild] 28 (* 2231 *)
  ];
  st_expected := [TkEOF; TkComment; TkStepLine; TkTagLine; TkScenarioLine; TkRuleLine; TkEmpty];
  st_self := 28
|}.

(* parser.py:2255-2334 match_token_at_29 *)
Definition state_29 : pstate := {|
  st_trans := [
    mkTr TkEOF (None) [AEnd RStep; AEnd RBackground; AEnd RRule; AEnd RFeature; ABuild] 42 (* 2256 *);
    mkTr TkTableRow (None) [AStart RDataTable; ABuild] 30 (* 2263 *);
    mkTr TkDocStringSeparator (None) [AStart RDocString; ABuild] 45 (* 2267 *);
    mkTr TkStepLine (None) [AEnd RStep; AStart RStep; ABuild] 29 (* 2271 *);
    mkTr TkTagLine (Some LA0) [AEnd RStep; AEnd RBackground; AStart RScenarioDefinition; AStart RTags; ABuild] 31 (* 2276 *);
    mkTr TkTagLine (None) [AEnd RStep; AEnd RBackground; AEnd RRule; AStart RRule; AStart RRuleHeader; AStart RTags; ABuild] 22 (* 2283 *);
    mkTr TkScenarioLine (None) [AEnd RStep; AEnd RBackground; AStart RScenarioDefinition; AStart RScenario; ABuild] 32 (* 2292 *);
    mkTr TkRuleLine (None) [AEnd RStep; AEnd RBackground; AEnd RRule; AStart RRule; AStart RRuleHeader; ABuild] 23 (* 2299 *);
    mkTr TkComment (None) [ABuild] 29 (* 2307 *);
    mkTr TkEmpty (None) [ABuild] 29 (* 2310 *)
  ];
  st_expected := [TkEOF; TkTableRow; TkDocStringSeparator; TkStepLine; TkTagLine; TkScenarioLine; TkRuleLine; TkComment; TkEmpty];
  st_self := 29
|}.

(* parser.py:2336-2415 match_token_at_30 *)
Definition state_30 : pstate := {|
  st_trans := [
    mkTr TkEOF (None) [AEnd RDataTable; AEnd RStep; AEnd RBackground; AEnd RRule; AEnd RFeature; ABuild] 42 (* 2337 *);
    mkTr TkTableRow (None) [ABuild] 30 (* 2345 *);
    mkTr TkStepLine (None) [AEnd RDataTable; AEnd RStep; AStart RStep; ABuild] 29 (* 2348 *);
    mkTr TkTagLine (Some LA0) [AEnd RDataTable; AEnd RStep; AEnd RBackground; AStart RScenarioDefinition; AStart RTags; ABuild] 31 (* 2354 *);
    mkTr TkTagLine (None) [AEnd RDataTable; AEnd RStep; AEnd RBackground; AEnd RRule; AStart RRule; AStart RRuleHeader; AStart RTags; ABuild] 22 (* 2362 *);
    mkTr TkScenarioLine (None) [AEnd RDataTable; AEnd RStep; AEnd RBackground; AStart RScenarioDefinition; AStart RScenario; ABuild] 32 (* 2372 *);
    mkTr TkRuleLine (None) [AEnd RDataTable; AEnd RStep; AEnd RBackground; AEnd RRule; AStart RRule; AStart RRuleHeader; ABuild] 23 (* 2380 *);
    mkTr TkComment (None) [ABuild] 30 (* 2389 *);
    mkTr TkEmpty (None) [ABuild] 30 (* 2392 *)
  ];
  st_expected := [TkEOF; TkTableRow; TkStepLine; TkTagLine; TkScenarioLine; TkRuleLine; TkComment; TkEmpty];
  st_self := 30
|}.

(* parser.py:2417-2448 match_token_at_31 *)
Definition state_31 : pstate := {|
  st_trans := [
    mkTr TkTagLine (None) [ABuild] 31 (* 2418 *);
    mkTr TkScenarioLine (None) [AEnd RTags; AStart RScenario; ABuild] 32 (* 2421 *);
    mkTr TkComment (None) [ABuild] 31 (* 2426 *);
    mkTr TkEmpty (None) [ABuild] 31 (* 2429 *)
  ];
  st_expected := [TkTagLine; TkScenarioLine; TkComment; TkEmpty];
  st_self := 31
|}.

(* parser.py:2450-2534 match_token_at_32 *)
Definition state_32 : pstate := {|
  st_trans := [
    mkTr TkEOF (None) [AEnd RScenario; AEnd RScenarioDefinition; AEnd RRule; AEnd RFeature; ABuild] 42 (* 2451 *);
    mkTr TkEmpty (None) [ABuild] 32 (* 2458 *);
    mkTr TkComment (None) [ABuild] 34 (* 2461 *);
    mkTr TkStepLine (None) [AStart RStep; ABuild] 35 (* 2464 *);
    mkTr TkTagLine (Some LA1) [AStart RExamplesDefinition; AStart RTags; ABuild] 37 (* 2468 *);
    mkTr TkTagLine (Some LA0) [AEnd RScenario; AEnd RScenarioDefinition; AStart RScenarioDefinition; AStart RTags; ABuild] 31 (* 2473 *);
    mkTr TkTagLine (None) [AEnd RScenario; AEnd RScenarioDefinition; AEnd RRule; AStart RRule; AStart RRuleHeader; AStart RTags; ABuild] 22 (* 2480 *);
    mkTr TkExamplesLine (None) [AStart RExamplesDefinition; AStart RExamples; ABuild] 38 (* 2489 *);
    mkTr TkScenarioLine (None) [AEnd RScenario; AEnd RScenarioDefinition; AStart RScenarioDefinition; AStart RScenario; ABuild] 32 (* 2494 *);
    mkTr TkRuleLine (None) [AEnd RScenario; AEnd RScenarioDefinition; AEnd RRule; AStart RRule; AStart RRuleHeader; ABuild] 23 (* 2501 *);
    mkTr TkOther (None) [AStart RDescription; ABuild] 33 (* 2509 *)
  ];
  st_expected := [TkEOF; TkEmpty; TkComment; TkStepLine; TkTagLine; TkExamplesLine; TkScenarioLine; TkRuleLine; TkOther];
  st_self := 32
|}.

(* parser.py:2536-2624 match_token_at_33 *)
Definition state_33 : pstate := {|
  st_trans := [
    mkTr TkEOF (None) [AEnd RDescription; AEnd RScenario; AEnd RScenarioDefinition; AEnd RRule; AEnd RFeature; ABuild] 42 (* 2537 *);
    mkTr TkComment (None) [AEnd RDescription; ABuild] 34 (* 2545 *);
    mkTr TkStepLine (None) [AEnd RDescription; AStart RStep; ABuild] 35 (* 2549 *);
    mkTr TkTagLine (Some LA1) [AEnd RDescription; AStart RExamplesDefinition; AStart RTags; ABuild] 37 (* 2554 *);
    mkTr TkTagLine (Some LA0) [AEnd RDescription; AEnd RScenario; AEnd RScenarioDefinition; AStart RScenarioDefinition; AStart RTags; ABuild] 31 (* 2560 *);
    mkTr TkTagLine (None) [AEnd RDescription; AEnd RScenario; AEnd RScenarioDefinition; AEnd RRule; AStart RRule; AStart RRuleHeader; AStart RTags; ABuild] 22 (* 2568 *);
    mkTr TkExamplesLine (None) [AEnd RDescription; AStart RExamplesDefinition; AStart RExamples; ABuild] 38 (* 2578 *);
    mkTr TkScenarioLine (None) [AEnd RDescription; AEnd RScenario; AEnd RScenarioDefinition; AStart RScenarioDefinition; AStart RScenario; ABuild] 32 (* 2584 *);
    mkTr TkRuleLine (None) [AEnd RDescription; AEnd RScenario; AEnd RScenarioDefinition; AEnd RRule; AStart RRule; AStart RRuleHeader; ABuild] 23 (* 2592 *);
    mkTr TkOther (None) [ABuild] 33 (* 2601 *)
  ];
  st_expected := [TkEOF; TkComment; TkStepLine; TkTagLine; TkExamplesLine; TkScenarioLine; TkRuleLine; TkOther];
  st_self := 33
|}.

(* parser.py:2626-2705 match_token_at_34 *)
Definition state_34 : pstate := {|
  st_trans := [
    mkTr TkEOF (None) [AEnd RScenario; AEnd RScenarioDefinition; AEnd RRule; AEnd RFeature; ABuild] 42 (* 2627 *);
    mkTr TkComment (None) [ABuild] 34 (* 2634 *);
    mkTr TkStepLine (None) [AStart RStep; ABuild] 35 (* 2637 *);
    mkTr TkTagLine (Some LA1) [AStart RExamplesDefinition; AStart RTags; ABuild] 37 (* 2641 *);
    mkTr TkTagLine (Some LA0) [AEnd RScenario; AEnd RScenarioDefinition; AStart RScenarioDefinition; AStart RTags; ABuild] 31 (* 2646 *);
    mkTr TkTagLine (None) [AEnd RScenario; AEnd RScenarioDefinition; AEnd RRule; AStart RRule; AStart RRuleHeader; AStart RTags; ABuild] 22 (* 2653 *);
    mkTr TkExamplesLine (None) [AStart RExamplesDefinition; AStart RExamples; ABuild] 38 (* 2662 *);
    mkTr TkScenarioLine (None) [AEnd RScenario; AEnd RScenarioDefinition; AStart RScenarioDefinition; AStart RScenario; ABuild] 32 (* 2667 *);
    mkTr TkRuleLine (None) [AEnd RScenario; AEnd RScenarioDefinition; AEnd RRule; AStart RRule; AStart RRuleHeader; ABuild] 23 (* 2674 *);
    mkTr TkEmpty (None) [ABuild] 34 (* 2682 *)
  ];
  st_expected := [TkEOF; TkComment; TkStepLine; TkTagLine; TkExamplesLine; TkScenarioLine; TkRuleLine; TkEmpty];
  st_self := 34
|}.

(* parser.py:2707-2804 match_token_at_35 *)
Definition state_35 : pstate := {|
  st_trans := [
    mkTr TkEOF (None) [AEnd RStep; AEnd RScenario; AEnd RScenarioDefinition; AEnd RRule; AEnd RFeature; ABuild] 42 (* 2708 *);
    mkTr TkTableRow (None) [AStart RDataTable; ABuild] 36 (* 2716 *);
    mkTr TkDocStringSeparator (None) [AStart RDocString; ABuild] 43 (* 2720 *);
    mkTr TkStepLine (None) [AEnd RStep; AStart RStep; ABuild] 35 (* 2724 *);
    mkTr TkTagLine (Some LA1) [AEnd RStep; AStart RExamplesDefinition; AStart RTags; ABuild] 37 (* 2729 *);
    mkTr TkTagLine (Some LA0) [AEnd RStep; AEnd RScenario; AEnd RScenarioDefinition; AStart RScenarioDefinition; AStart RTags; ABuild] 31 (* 2735 *);
    mkTr TkTagLine (None) [AEnd RStep; AEnd RScenario; AEnd RScenarioDefinition; AEnd RRule; AStart RRule; AStart RRuleHeader; AStart RTags; ABuild] 22 (* 2743 *);
    mkTr TkExamplesLine (None) [AEnd RStep; AStart RExamplesDefinition; AStart RExamples; ABuild] 38 (* 2753 *);
    mkTr TkScenarioLine (None) [AEnd RStep; AEnd RScenario; AEnd RScenarioDefinition; AStart RScenarioDefinition; AStart RScenario; ABuild] 32 (* 2759 *);
    mkTr TkRuleLine (None) [AEnd RStep; AEnd RScenario; AEnd RScenarioDefinition; AEnd RRule; AStart RRule; AStart RRuleHeader; ABuild] 23 (* 2767 *);
    mkTr TkComment (None) [ABuild] 35 (* 2776 *);
    mkTr TkEmpty (None) [ABuild] 35 (* 2779 *)
  ];
  st_expected := [TkEOF; TkTableRow; TkDocStringSeparator; TkStepLine; TkTagLine; TkExamplesLine; TkScenarioLine; TkRuleLine; TkComment; TkEmpty];
  st_self := 35
|}.

(* parser.py:2806-2905 match_token_at_36 *)
Definition state_36 : pstate := {|
  st_trans := [
    mkTr TkEOF (None) [AEnd RDataTable; AEnd RStep; AEnd RScenario; AEnd RScenarioDefinition; AEnd RRule; AEnd RFeature; ABuild] 42 (* 2807 *);
    mkTr TkTableRow (None) [ABuild] 36 (* 2816 *);
    mkTr TkStepLine (None) [AEnd RDataTable; AEnd RStep; AStart RStep; ABuild] 35 (* 2819 *);
    mkTr TkTagLine (Some LA1) [AEnd RDataTable; AEnd RStep; AStart RExamplesDefinition; AStart RTags; ABuild] 37 (* 2825 *);
    mkTr TkTagLine (Some LA0) [AEnd RDataTable; AEnd RStep; AEnd RScenario; AEnd RScenarioDefinition; AStart RScenarioDefinition; AStart RTags; ABuild] 31 (* 2832 *);
    mkTr TkTagLine (None) [AEnd RDataTable; AEnd RStep; AEnd RScenario; AEnd RScenarioDefinition; AEnd RRule; AStart RRule; AStart RRuleHeader; AStart RTags; ABuild] 22 (* 2841 *);
    mkTr TkExamplesLine (None) [AEnd RDataTable; AEnd RStep; AStart RExamplesDefinition; AStart RExamples; ABuild] 38 (* 2852 *);
    mkTr TkScenarioLine (None) [AEnd RDataTable; AEnd RStep; AEnd RScenario; AEnd RScenarioDefinition; AStart RScenarioDefinition; AStart RScenario; ABuild] 32 (* 2859 *);
    mkTr TkRuleLine (None) [AEnd RDataTable; AEnd RStep; AEnd RScenario; AEnd RScenarioDefinition; AEnd RRule; AStart RRule; AStart RRuleHeader; ABuild] 23 (* 2868 *);
    mkTr TkComment (None) [ABuild] 36 (* 2878 *);
    mkTr TkEmpty (None) [ABuild] 36 (* 2881 *)
  ];
  st_expected := [TkEOF; TkTableRow; TkStepLine; TkTagLine; TkExamplesLine; TkScenarioLine; TkRuleLine; TkComment; TkEmpty];
  st_self := 36
|}.

(* parser.py:2907-2938 match_token_at_37 *)
Definition state_37 : pstate := {|
  st_trans := [
    mkTr TkTagLine (None) [ABuild] 37 (* 2908 *);
    mkTr TkExamplesLine (None) [AEnd RTags; AStart RExamples; ABuild] 38 (* 2911 *);
    mkTr TkComment (None) [ABuild] 37 (* 2916 *);
    mkTr TkEmpty (None) [ABuild] 37 (* 2919 *)
  ];
  st_expected := [TkTagLine; TkExamplesLine; TkComment; TkEmpty];
  st_self := 37
|}.

(* parser.py:2940-3038 match_token_at_38 *)
Definition state_38 : pstate := {|
  st_trans := [
    mkTr TkEOF (None) [AEnd RExamples; AEnd RExamplesDefinition; AEnd RScenario; AEnd RScenarioDefinition; AEnd RRule; AEnd RFeature; ABuild] 42 (* 2941 *);
    mkTr TkEmpty (None) [ABuild] 38 (* 2950 *);
    mkTr TkComment (None) [ABuild] 40 (* 2953 *);
    mkTr TkTableRow (None) [AStart RExamplesTable; ABuild] 41 (* 2956 *);
    mkTr TkTagLine (Some LA1) [AEnd RExamples; AEnd RExamplesDefinition; AStart RExamplesDefinition; AStart RTags; ABuild] 37 (* 2960 *);
    mkTr TkTagLine (Some LA0) [AEnd RExamples; AEnd RExamplesDefinition; AEnd RScenario; AEnd RScenarioDefinition; AStart RScenarioDefinition; AStart RTags; ABuild] 31 (* 2967 *);
    mkTr TkTagLine (None) [AEnd RExamples; AEnd RExamplesDefinition; AEnd RScenario; AEnd RScenarioDefinition; AEnd RRule; AStart RRule; AStart RRuleHeader; AStart RTags; ABuild] 22 (* 2976 *);
    mkTr TkExamplesLine (None) [AEnd RExamples; AEnd RExamplesDefinition; AStart RExamplesDefinition; AStart RExamples; ABuild] 38 (* 2987 *);
    mkTr TkScenarioLine (None) [AEnd RExamples; AEnd RExamplesDefinition; AEnd RScenario; AEnd RScenarioDefinition; AStart RScenarioDefinition; AStart RScenario; ABuild] 32 (* 2994 *);
    mkTr TkRuleLine (None) [AEnd RExamples; AEnd RExamplesDefinition; AEnd RScenario; AEnd RScenarioDefinition; AEnd RRule; AStart RRule; AStart RRuleHeader; ABuild] 23 (* 3003 *);
    mkTr TkOther (None) [AStart RDescription; ABuild] 39 (* 3013 *)
  ];
  st_expected := [TkEOF; TkEmpty; TkComment; TkTableRow; TkTagLine; TkExamplesLine; TkScenarioLine; TkRuleLine; TkOther];
  st_self := 38
|}.

(* parser.py:3040-3142 match_token_at_39 *)
Definition state_39 : pstate := {|
  st_trans := [
    mkTr TkEOF (None) [AEnd RDescription; AEnd RExamples; AEnd RExamplesDefinition; AEnd RScenario; AEnd RScenarioDefinition; AEnd RRule; AEnd RFeature; ABuild] 42 (* 3041 *);
    mkTr TkComment (None) [AEnd RDescription; ABuild] 40 (* 3051 *);
    mkTr TkTableRow (None) [AEnd RDescription; AStart RExamplesTable; ABuild] 41 (* 3055 *);
    mkTr TkTagLine (Some LA1) [AEnd RDescription; AEnd RExamples; AEnd RExamplesDefinition; AStart RExamplesDefinition; AStart RTags; ABuild] 37 (* 3060 *);
    mkTr TkTagLine (Some LA0) [AEnd RDescription; AEnd RExamples; AEnd RExamplesDefinition; AEnd RScenario; AEnd RScenarioDefinition; AStart RScenarioDefinition; AStart RTags; ABuild] 31 (* 3068 *);
    mkTr TkTagLine (None) [AEnd RDescription; AEnd RExamples; AEnd RExamplesDefinition; AEnd RScenario; AEnd RScenarioDefinition; AEnd RRule; AStart RRule; AStart RRuleHeader; AStart RTags; ABuild] 22 (* 3078 *);
    mkTr TkExamplesLine (None) [AEnd RDescription; AEnd RExamples; AEnd RExamplesDefinition; AStart RExamplesDefinition; AStart RExamples; ABuild] 38 (* 3090 *);
    mkTr TkScenarioLine (None) [AEnd RDescription; AEnd RExamples; AEnd RExamplesDefinition; AEnd RScenario; AEnd RScenarioDefinition; AStart RScenarioDefinition; AStart RScenario; ABuild] 32 (* 3098 *);
    mkTr TkRuleLine (None) [AEnd RDescription; AEnd RExamples; AEnd RExamplesDefinition; AEnd RScenario; AEnd RScenarioDefinition; AEnd RRule; AStart RRule; AStart RRuleHeader; ABuild] 23 (* 3108 *);
    mkTr TkOther (None) [ABuild] 39 (* 3119 *)
  ];
  st_expected := [TkEOF; TkComment; TkTableRow; TkTagLine; TkExamplesLine; TkScenarioLine; TkRuleLine; TkOther];
  st_self := 39
|}.

(* parser.py:3144-3237 match_token_at_40 *)
Definition state_40 : pstate := {|
  st_trans := [
    mkTr TkEOF (None) [AEnd RExamples; AEnd RExamplesDefinition; AEnd RScenario; AEnd RScenarioDefinition; AEnd RRule; AEnd RFeature; ABuild] 42 (* 3145 *);
    mkTr TkComment (None) [ABuild] 40 (* 3154 *);
    mkTr TkTableRow (None) [AStart RExamplesTable; ABuild] 41 (* 3157 *);
    mkTr TkTagLine (Some LA1) [AEnd RExamples; AEnd RExamplesDefinition; AStart RExamplesDefinition; AStart RTags; ABuild] 37 (* 3161 *);
    mkTr TkTagLine (Some LA0) [AEnd RExamples; AEnd RExamplesDefinition; AEnd RScenario; AEnd RScenarioDefinition; AStart RScenarioDefinition; AStart RTags; ABuild] 31 (* 3168 *);
    mkTr TkTagLine (None) [AEnd RExamples; AEnd RExamplesDefinition; AEnd RScenario; AEnd RScenarioDefinition; AEnd RRule; AStart RRule; AStart RRuleHeader; AStart RTags; ABuild] 22 (* 3177 *);
    mkTr TkExamplesLine (None) [AEnd RExamples; AEnd RExamplesDefinition; AStart RExamplesDefinition; AStart RExamples; ABuild] 38 (* 3188 *);
    mkTr TkScenarioLine (None) [AEnd RExamples; AEnd RExamplesDefinition; AEnd RScenario; AEnd RScenarioDefinition; AStart RScenarioDefinition; AStart RScenario; ABuild] 32 (* 3195 *);
    mkTr TkRuleLine (None) [AEnd RExamples; AEnd RExamplesDefinition; AEnd RScenario; AEnd RScenarioDefinition; AEnd RRule; AStart RRule; AStart RRuleHeader; ABuild] 23 (* 3204 *);
    mkTr TkEmpty (None) [ABuild] 40 (* 3214 *)
  ];
  st_expected := [TkEOF; TkComment; TkTableRow; TkTagLine; TkExamplesLine; TkScenarioLine; TkRuleLine; TkEmpty];
  st_self := 40
|}.

(* parser.py:3239-3338 match_token_at_41 *)
Definition state_41 : pstate := {|
  st_trans := [
    mkTr TkEOF (None) [AEnd RExamplesTable; AEnd RExamples; AEnd RExamplesDefinition; AEnd RScenario; AEnd RScenarioDefinition; AEnd RRule; AEnd RFeature; ABuild] 42 (* 3240 *);
    mkTr TkTableRow (None) [ABuild] 41 (* 3250 *);
    mkTr TkTagLine (Some LA1) [AEnd RExamplesTable; AEnd RExamples; AEnd RExamplesDefinition; AStart RExamplesDefinition; AStart RTags; ABuild] 37 (* 3253 *);
    mkTr TkTagLine (Some LA0) [AEnd RExamplesTable; AEnd RExamples; AEnd RExamplesDefinition; AEnd RScenario; AEnd RScenarioDefinition; AStart RScenarioDefinition; AStart RTags; ABuild] 31 (* 3261 *);
    mkTr TkTagLine (None) [AEnd RExamplesTable; AEnd RExamples; AEnd RExamplesDefinition; AEnd RScenario; AEnd RScenarioDefinition; AEnd RRule; AStart RRule; AStart RRuleHeader; AStart RTags; ABuild] 22 (* 3271 *);
    mkTr TkExamplesLine (None) [AEnd RExamplesTable; AEnd RExamples; AEnd RExamplesDefinition; AStart RExamplesDefinition; AStart RExamples; ABuild] 38 (* 3283 *);
    mkTr TkScenarioLine (None) [AEnd RExamplesTable; AEnd RExamples; AEnd RExamplesDefinition; AEnd RScenario; AEnd RScenarioDefinition; AStart RScenarioDefinition; AStart RScenario; ABuild] 32 (* 3291 *);
    mkTr TkRuleLine (None) [AEnd RExamplesTable; AEnd RExamples; AEnd RExamplesDefinition; AEnd RScenario; AEnd RScenarioDefinition; AEnd RRule; AStart RRule; AStart RRuleHeader; ABuild] 23 (* 3301 *);
    mkTr TkComment (None) [ABuild] 41 (* 3312 *);
    mkTr TkEmpty (None) [ABuild] 41 (* 3315 *)
  ];
  st_expected := [TkEOF; TkTableRow; TkTagLine; TkExamplesLine; TkScenarioLine; TkRuleLine; TkComment; TkEmpty];
  st_self := 41
|}.

(* parser.py:3340-3361 match_token_at_43 *)
Definition state_43 : pstate := {|
  st_trans := [
    mkTr TkDocStringSeparator (None) [ABuild] 44 (* 3341 *);
    mkTr TkOther (None) [ABuild] 43 (* 3344 *)
  ];
  st_expected := [TkDocStringSeparator; TkOther];
  st_self := 43
|}.

(* parser.py:3363-3458 match_token_at_44 *)
Definition state_44 : pstate := {|
  st_trans := [
    mkTr TkEOF (None) [AEnd RDocString; AEnd RStep; AEnd RScenario; AEnd RScenarioDefinition; AEnd RRule; AEnd RFeature; ABuild] 42 (* 3364 *);
    mkTr TkStepLine (None) [AEnd RDocString; AEnd RStep; AStart RStep; ABuild] 35 (* 3373 *);
    mkTr TkTagLine (Some LA1) [AEnd RDocString; AEnd RStep; AStart RExamplesDefinition; AStart RTags; ABuild] 37 (* 3379 *);
    mkTr TkTagLine (Some LA0) [AEnd RDocString; AEnd RStep; AEnd RScenario; AEnd RScenarioDefinition; AStart RScenarioDefinition; AStart RTags; ABuild] 31 (* 3386 *);
    mkTr TkTagLine (None) [AEnd RDocString; AEnd RStep; AEnd RScenario; AEnd RScenarioDefinition; AEnd RRule; AStart RRule; AStart RRuleHeader; AStart RTags; ABuild] 22 (* 3395 *);
    mkTr TkExamplesLine (None) [AEnd RDocString; AEnd RStep; AStart RExamplesDefinition; AStart RExamples; ABuild] 38 (* 3406 *);
    mkTr TkScenarioLine (None) [AEnd RDocString; AEnd RStep; AEnd RScenario; AEnd RScenarioDefinition; AStart RScenarioDefinition; AStart RScenario; ABuild] 32 (* 3413 *);
    mkTr TkRuleLine (None) [AEnd RDocString; AEnd RStep; AEnd RScenario; AEnd RScenarioDefinition; AEnd RRule; AStart RRule; AStart RRuleHeader; ABuild] 23 (* 3422 *);
    mkTr TkComment (None) [ABuild] 44 (* 3432 *);
    mkTr TkEmpty (None) [ABuild] 44 (* 3435 *)
  ];
  st_expected := [TkEOF; TkStepLine; TkTagLine; TkExamplesLine; TkScenarioLine; TkRuleLine; TkComment; TkEmpty];
  st_self := 44
|}.

(* parser.py:3460-3481 match_token_at_45 *)
Definition state_45 : pstate := {|
  st_trans := [
    mkTr TkDocStringSeparator (None) [ABuild] 46 (* 3461 *);
    mkTr TkOther (None) [ABuild] 45 (* 3464 *)
  ];
  st_expected := [TkDocStringSeparator; TkOther];
  st_self := 45
|}.

(* parser.py:3483-3558 match_token_at_46 *)
Definition state_46 : pstate := {|
  st_trans := [
    mkTr TkEOF (None) [AEnd RDocString; AEnd RStep; AEnd RBackground; AEnd RRule; AEnd RFeature; ABuild] 42 (* 3484 *);
    mkTr TkStepLine (None) [AEnd RDocString; AEnd RStep; AStart RStep; ABuild] 29 (* 3492 *);
    mkTr TkTagLine (Some LA0) [AEnd RDocString; AEnd RStep; AEnd RBackground; AStart RScenarioDefinition; AStart RTags; ABuild] 31 (* 3498 *);
    mkTr TkTagLine (None) [AEnd RDocString; AEnd RStep; AEnd RBackground; AEnd RRule; AStart RRule; AStart RRuleHeader; AStart RTags; ABuild] 22 (* 3506 *);
    mkTr TkScenarioLine (None) [AEnd RDocString; AEnd RStep; AEnd RBackground; AStart RScenarioDefinition; AStart RScenario; ABuild] 32 (* 3516 *);
    mkTr TkRuleLine (None) [AEnd RDocString; AEnd RStep; AEnd RBackground; AEnd RRule; AStart RRule; AStart RRuleHeader; ABuild] 23 (* 3524 *);
    mkTr TkComment (None) [ABuild] 46 (* 3533 *);
    mkTr TkEmpty (None) [ABuild] 46 (* 3536 *)
  ];
  st_expected := [TkEOF; TkStepLine; TkTagLine; TkScenarioLine; TkRuleLine; TkComment; TkEmpty];
  st_self := 46
|}.

(* parser.py:3560-3581 match_token_at_47 *)
Definition state_47 : pstate := {|
  st_trans := [
    mkTr TkDocStringSeparator (None) [ABuild] 48 (* 3561 *);
    mkTr TkOther (None) [ABuild] 47 (* 3564 *)
  ];
  st_expected := [TkDocStringSeparator; TkOther];
  st_self := 47
|}.

(* parser.py:3583-3675 match_token_at_48 *)
Definition state_48 : pstate := {|
  st_trans := [
    mkTr TkEOF (None) [AEnd RDocString; AEnd RStep; AEnd RScenario; AEnd RScenarioDefinition; AEnd RFeature; ABuild] 42 (* 3584 *);
    mkTr TkStepLine (None) [AEnd RDocString; AEnd RStep; AStart RStep; ABuild] 15 (* 3592 *);
    mkTr TkTagLine (Some LA1) [AEnd RDocString; AEnd RStep; AStart RExamplesDefinition; AStart RTags; ABuild] 17 (* 3598 *);
    mkTr TkTagLine (Some LA0) [AEnd RDocString; AEnd RStep; AEnd RScenario; AEnd RScenarioDefinition; AStart RScenarioDefinition; AStart RTags; ABuild] 11 (* 3605 *);
    mkTr TkTagLine (None) [AEnd RDocString; AEnd RStep; AEnd RScenario; AEnd RScenarioDefinition; AStart RRule; AStart RRuleHeader; AStart RTags; ABuild] 22 (* 3614 *);
    mkTr TkExamplesLine (None) [AEnd RDocString; AEnd RStep; AStart RExamplesDefinition; AStart RExamples; ABuild] 18 (* 3624 *);
    mkTr TkScenarioLine (None) [AEnd RDocString; AEnd RStep; AEnd RScenario; AEnd RScenarioDefinition; AStart RScenarioDefinition; AStart RScenario; ABuild] 12 (* 3631 *);
    mkTr TkRuleLine (None) [AEnd RDocString; AEnd RStep; AEnd RScenario; AEnd RScenarioDefinition; AStart RRule; AStart RRuleHeader; ABuild] 23 (* 3640 *);
    mkTr TkComment (None) [ABuild] 48 (* 3649 *);
    mkTr TkEmpty (None) [ABuild] 48 (* 3652 *)
  ];
  st_expected := [TkEOF; TkStepLine; TkTagLine; TkExamplesLine; TkScenarioLine; TkRuleLine; TkComment; TkEmpty];
  st_self := 48
|}.

(* parser.py:3677-3698 match_token_at_49 *)
Definition state_49 : pstate := {|
  st_trans := [
    mkTr TkDocStringSeparator (None) [ABuild] 50 (* 3678 *);
    mkTr TkOther (None) [ABuild] 49 (* 3681 *)
  ];
  st_expected := [TkDocStringSeparator; TkOther];
  st_self := 49
|}.

(* parser.py:3700-3772 match_token_at_50 *)
Definition state_50 : pstate := {|
  st_trans := [
    mkTr TkEOF (None) [AEnd RDocString; AEnd RStep; AEnd RBackground; AEnd RFeature; ABuild] 42 (* 3701 *);
    mkTr TkStepLine (None) [AEnd RDocString; AEnd RStep; AStart RStep; ABuild] 9 (* 3708 *);
    mkTr TkTagLine (Some LA0) [AEnd RDocString; AEnd RStep; AEnd RBackground; AStart RScenarioDefinition; AStart RTags; ABuild] 11 (* 3714 *);
    mkTr TkTagLine (None) [AEnd RDocString; AEnd RStep; AEnd RBackground; AStart RRule; AStart RRuleHeader; AStart RTags; ABuild] 22 (* 3722 *);
    mkTr TkScenarioLine (None) [AEnd RDocString; AEnd RStep; AEnd RBackground; AStart RScenarioDefinition; AStart RScenario; ABuild] 12 (* 3731 *);
    mkTr TkRuleLine (None) [AEnd RDocString; AEnd RStep; AEnd RBackground; AStart RRule; AStart RRuleHeader; ABuild] 23 (* 3739 *);
    mkTr TkComment (None) [ABuild] 50 (* 3747 *);
    mkTr TkEmpty (None) [ABuild] 50 (* 3750 *)
  ];
  st_expected := [TkEOF; TkStepLine; TkTagLine; TkScenarioLine; TkRuleLine; TkComment; TkEmpty];
  st_self := 50
|}.

(* parser.py:186-243 match_token: the state map; a state outside it raises RuntimeError. *)
Definition ptable (n : nat) : option pstate :=
  match n with
  | 0 => Some state_0
  | 1 => Some state_1
  | 2 => Some state_2
  | 3 => Some state_3
  | 4 => Some state_4
  | 5 => Some state_5
  | 6 => Some state_6
  | 7 => Some state_7
  | 8 => Some state_8
  | 9 => Some state_9
  | 10 => Some state_10
  | 11 => Some state_11
  | 12 => Some state_12
  | 13 => Some state_13
  | 14 => Some state_14
  | 15 => Some state_15
  | 16 => Some state_16
  | 17 => Some state_17
  | 18 => Some state_18
  | 19 => Some state_19
  | 20 => Some state_20
  | 21 => Some state_21
  | 22 => Some state_22
  | 23 => Some state_23
  | 24 => Some state_24
  | 25 => Some state_25
  | 26 => Some state_26
  | 27 => Some state_27
  | 28 => Some state_28
  | 29 => Some state_29
  | 30 => Some state_30
  | 31 => Some state_31
  | 32 => Some state_32
  | 33 => Some state_33
  | 34 => Some state_34
  | 35 => Some state_35
  | 36 => Some state_36
  | 37 => Some state_37
  | 38 => Some state_38
  | 39 => Some state_39
  | 40 => Some state_40
  | 41 => Some state_41
  | 43 => Some state_43
  | 44 => Some state_44
  | 45 => Some state_45
  | 46 => Some state_46
  | 47 => Some state_47
  | 48 => Some state_48
  | 49 => Some state_49
  | 50 => Some state_50
  | _ => None
  end.

(* the keys of the state map *)
Definition pstates : list nat := [0; 1; 2; 3; 4; 5; 6; 7; 8; 9; 10; 11; 12; 13; 14; 15; 16; 17; 18; 19; 20; 21; 22; 23; 24; 25; 26; 27; 28; 29; 30; 31; 32; 33; 34; 35; 36; 37; 38; 39; 40; 41; 43; 44; 45; 46; 47; 48; 49; 50].
