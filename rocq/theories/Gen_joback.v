(* Generated by tools/gen_joback.py from thermo/group_contribution/joback.py:230-272. Do not edit. *)
From Coq Require Import Reals.
Local Open Scope R_scope.

(* joback.py:180-228, the numeric slots of JobackGroupContribution; a slot may be None *)
Record jgroup := JG {
  j_Tc : option R;
  j_Pc : option R;
  j_Vc : option R;
  j_Tb : option R;
  j_Tm : option R;
  j_Hform : option R;
  j_Gform : option R;
  j_Cpa : option R;
  j_Cpb : option R;
  j_Cpc : option R;
  j_Cpd : option R;
  j_Hfus : option R;
  j_Hvap : option R;
  j_mua : option R;
  j_mub : option R
}.

(* joback.py:230-272, JOBACK_GROUPS: the contributions of a group by its number; None: no such key *)
Definition JOBACK_GROUPS (g : nat) : option jgroup :=
  match g with
  | 1%nat => (* line 231, -CH3 *)
    Some (JG (Some (141 / 10000)) (Some ((- 3) / 2500)) (Some 65) (Some (1179 / 50)) (Some ((- 51) / 10)) (Some ((- 1529) / 20)) (Some ((- 1099) / 25)) (Some (39 / 2)) (Some ((- 101) / 12500)) (Some (153 / 1000000)) (Some ((- 967) / 10000000000)) (Some (227 / 250)) (Some (2373 / 1000)) (Some (54829 / 100)) (Some ((- 1719) / 1000)))
  | 2%nat => (* line 232, -CH2- *)
    Some (JG (Some (189 / 10000)) (Some 0) (Some 56) (Some (572 / 25)) (Some (1127 / 100)) (Some ((- 516) / 25)) (Some (421 / 50)) (Some ((- 909) / 1000)) (Some (19 / 200)) (Some ((- 17) / 312500)) (Some (119 / 10000000000)) (Some (259 / 100)) (Some (1113 / 500)) (Some (2354 / 25)) (Some ((- 199) / 1000)))
  | 3%nat => (* line 233, >CH- *)
    Some (JG (Some (41 / 2500)) (Some (1 / 500)) (Some 41) (Some (1087 / 50)) (Some (316 / 25)) (Some (2989 / 100)) (Some (1459 / 25)) (Some (- 23)) (Some (51 / 250)) (Some ((- 53) / 200000)) (Some (3 / 25000000)) (Some (749 / 1000)) (Some (1691 / 1000)) (Some ((- 6443) / 20)) (Some (1187 / 1000)))
  | 4%nat => (* line 234, >C< *)
    Some (JG (Some (67 / 10000)) (Some (43 / 10000)) (Some 27) (Some (73 / 4)) (Some (4643 / 100)) (Some (8223 / 100)) (Some (5801 / 50)) (Some ((- 331) / 5)) (Some (427 / 1000)) (Some ((- 641) / 1000000)) (Some (301 / 1000000000)) (Some ((- 73) / 50)) (Some (159 / 250)) (Some ((- 14339) / 25)) (Some (2307 / 1000)))
  | 5%nat => (* line 235, =CH2 *)
    Some (JG (Some (113 / 10000)) (Some ((- 7) / 2500)) (Some 56) (Some (909 / 50)) (Some ((- 108) / 25)) (Some ((- 963) / 100)) (Some (377 / 100)) (Some (118 / 5)) (Some ((- 381) / 10000)) (Some (43 / 250000)) (Some ((- 103) / 1000000000)) (Some ((- 473) / 1000)) (Some (431 / 250)) (Some (49501 / 100)) (Some ((- 1539) / 1000)))
  | 6%nat => (* line 236, =CH- *)
    Some (JG (Some (129 / 10000)) (Some ((- 3) / 5000)) (Some 46) (Some (624 / 25)) (Some (873 / 100)) (Some (3797 / 100)) (Some (4853 / 100)) (Some (- 8)) (Some (21 / 200)) (Some ((- 963) / 10000000)) (Some (89 / 2500000000)) (Some (2691 / 1000)) (Some (441 / 200)) (Some (2057 / 25)) (Some ((- 121) / 500)))
  | 7%nat => (* line 237, =C< *)
    Some (JG (Some (117 / 10000)) (Some (11 / 10000)) (Some 38) (Some (1207 / 50)) (Some (557 / 50)) (Some (8399 / 100)) (Some (2309 / 25)) (Some ((- 281) / 10)) (Some (26 / 125)) (Some ((- 153) / 500000)) (Some (73 / 500000000)) (Some (3063 / 1000)) (Some (1069 / 500)) (None) (None))
  | 8%nat => (* line 238, =C= *)
    Some (JG (Some (13 / 5000)) (Some (7 / 2500)) (Some 36) (Some (523 / 20)) (Some (889 / 50)) (Some (7107 / 50)) (Some (1367 / 10)) (Some (137 / 5)) (Some ((- 557) / 10000)) (Some (101 / 1000000)) (Some ((- 251) / 5000000000)) (Some (118 / 25)) (Some (2661 / 1000)) (None) (None))
  | 9%nat => (* line 239, #CH *)
    Some (JG (Some (27 / 10000)) (Some ((- 1) / 1250)) (Some 46) (Some (46 / 5)) (Some ((- 559) / 50)) (Some (793 / 10)) (Some (7771 / 100)) (Some (49 / 2)) (Some ((- 271) / 10000)) (Some (111 / 1000000)) (Some ((- 339) / 5000000000)) (Some (1161 / 500)) (Some (231 / 200)) (None) (None))
  | 10%nat => (* line 240, #C- *)
    Some (JG (Some (1 / 500)) (Some (1 / 625)) (Some 37) (Some (1369 / 50)) (Some (1608 / 25)) (Some (11551 / 100)) (Some (5491 / 50)) (Some (787 / 100)) (Some (201 / 10000)) (Some ((- 833) / 100000000)) (Some (139 / 100000000000)) (Some (4151 / 1000)) (Some (1651 / 500)) (None) (None))
  | 11%nat => (* line 241, -CH2- (ring) *)
    Some (JG (Some (1 / 100)) (Some (1 / 400)) (Some 48) (Some (543 / 20)) (Some (31 / 4)) (Some ((- 134) / 5)) (Some ((- 92) / 25)) (Some ((- 603) / 100)) (Some (427 / 5000)) (Some ((- 1) / 125000)) (Some ((- 9) / 500000000)) (Some (49 / 100)) (Some (1199 / 500)) (Some (30753 / 100)) (Some ((- 399) / 500)))
  | 12%nat => (* line 242, >CH- (ring) *)
    Some (JG (Some (61 / 5000)) (Some (1 / 2500)) (Some 38) (Some (1089 / 50)) (Some (497 / 25)) (Some (867 / 100)) (Some (4099 / 100)) (Some ((- 41) / 2)) (Some (81 / 500)) (Some ((- 1) / 6250)) (Some (39 / 625000000)) (Some (3243 / 1000)) (Some (971 / 500)) (Some ((- 39429) / 100)) (Some (1251 / 1000)))
  | 13%nat => (* line 243, >C< (ring) *)
    Some (JG (Some (21 / 5000)) (Some (61 / 10000)) (Some 27) (Some (533 / 25)) (Some (1203 / 20)) (Some (1993 / 25)) (Some (2197 / 25)) (Some ((- 909) / 10)) (Some (557 / 1000)) (Some ((- 9) / 10000)) (Some (469 / 1000000000)) (Some ((- 1373) / 1000)) (Some (161 / 250)) (None) (None))
  | 14%nat => (* line 244, =CH- (ring) *)
    Some (JG (Some (41 / 5000)) (Some (11 / 10000)) (Some 41) (Some (2673 / 100)) (Some (813 / 100)) (Some (209 / 100)) (Some (113 / 10)) (Some ((- 107) / 50)) (Some (287 / 5000)) (Some ((- 41) / 25000000)) (Some ((- 159) / 10000000000)) (Some (1101 / 1000)) (Some (318 / 125)) (Some (5193 / 20)) (Some ((- 351) / 500)))
  | 15%nat => (* line 245, =C< (ring) *)
    Some (JG (Some (143 / 10000)) (Some (1 / 1250)) (Some 32) (Some (3101 / 100)) (Some (1851 / 50)) (Some (4643 / 100)) (Some (1081 / 20)) (Some ((- 33) / 4)) (Some (101 / 1000)) (Some ((- 71) / 500000)) (Some (339 / 5000000000)) (Some (1197 / 500)) (Some (3059 / 1000)) (Some ((- 12287) / 50)) (Some (114 / 125)))
  | 16%nat => (* line 246, -F *)
    Some (JG (Some (111 / 10000)) (Some ((- 57) / 10000)) (Some 27) (Some ((- 3) / 100)) (Some ((- 789) / 50)) (Some ((- 6298) / 25)) (Some ((- 24719) / 100)) (Some (53 / 2)) (Some ((- 913) / 10000)) (Some (191 / 1000000)) (Some ((- 103) / 1000000000)) (Some (699 / 500)) (Some ((- 67) / 100)) (None) (None))
  | 17%nat => (* line 247, -Cl *)
    Some (JG (Some (21 / 2000)) (Some ((- 49) / 10000)) (Some 58) (Some (3813 / 100)) (Some (271 / 20)) (Some ((- 1431) / 20)) (Some ((- 6431) / 100)) (Some (333 / 10)) (Some ((- 963) / 10000)) (Some (187 / 1000000)) (Some ((- 249) / 2500000000)) (Some (503 / 200)) (Some (1133 / 250)) (Some (12509 / 20)) (Some ((- 907) / 500)))
  | 18%nat => (* line 248, -Br *)
    Some (JG (Some (133 / 10000)) (Some (57 / 10000)) (Some 71) (Some (3343 / 50)) (Some (4343 / 100)) (Some ((- 737) / 25)) (Some ((- 1903) / 50)) (Some (143 / 5)) (Some ((- 649) / 10000)) (Some (17 / 125000)) (Some ((- 149) / 2000000000)) (Some (3603 / 1000)) (Some (3291 / 500)) (Some (73891 / 100)) (Some ((- 1019) / 500)))
  | 19%nat => (* line 249, -I *)
    Some (JG (Some (17 / 2500)) (Some ((- 17) / 5000)) (Some 97) (Some (2346 / 25)) (Some (4169 / 100)) (Some (1053 / 50)) (Some (287 / 50)) (Some (321 / 10)) (Some ((- 641) / 10000)) (Some (63 / 500000)) (Some ((- 687) / 10000000000)) (Some (681 / 250)) (Some (238 / 25)) (Some (16191 / 20)) (Some ((- 278) / 125)))
  | 20%nat => (* line 250, -OH (alcohol) *)
    Some (JG (Some (741 / 10000)) (Some (7 / 625)) (Some 28) (Some (2322 / 25)) (Some (889 / 20)) (Some ((- 5201) / 25)) (Some ((- 946) / 5)) (Some (257 / 10)) (Some ((- 691) / 10000)) (Some (177 / 1000000)) (Some ((- 247) / 2500000000)) (Some (1203 / 500)) (Some (8413 / 500)) (Some (54343 / 25)) (Some ((- 5057) / 1000)))
  | 21%nat => (* line 251, -OH (phenol) *)
    Some (JG (Some (3 / 125)) (Some (23 / 1250)) (Some (- 25)) (Some (3817 / 50)) (Some (8283 / 100)) (Some ((- 4433) / 20)) (Some ((- 19737) / 100)) (Some ((- 281) / 100)) (Some (111 / 1000)) (Some ((- 29) / 250000)) (Some (247 / 5000000000)) (Some (449 / 100)) (Some (12499 / 1000)) (Some (301817 / 100)) (Some ((- 3657) / 500)))
  | 22%nat => (* line 252, -O- (nonring) *)
    Some (JG (Some (21 / 1250)) (Some (3 / 2000)) (Some 18) (Some (1121 / 50)) (Some (2223 / 100)) (Some ((- 6611) / 50)) (Some (- 105)) (Some (51 / 2)) (Some ((- 79) / 1250)) (Some (111 / 1000000)) (Some ((- 137) / 2500000000)) (Some (297 / 250)) (Some (241 / 100)) (Some (12209 / 100)) (Some ((- 193) / 500)))
  | 23%nat => (* line 253, -O- (ring) *)
    Some (JG (Some (49 / 5000)) (Some (3 / 625)) (Some 13) (Some (1561 / 50)) (Some (461 / 20)) (Some ((- 3454) / 25)) (Some ((- 4911) / 50)) (Some (61 / 5)) (Some ((- 63) / 5000)) (Some (603 / 10000000)) (Some ((- 193) / 5000000000)) (Some (5879 / 1000)) (Some (2341 / 500)) (Some (11006 / 25)) (Some ((- 953) / 1000)))
  | 24%nat => (* line 254, >C=O (nonring) *)
    Some (JG (Some (19 / 500)) (Some (31 / 10000)) (Some 62) (Some (307 / 4)) (Some (306 / 5)) (Some ((- 6661) / 50)) (Some ((- 241) / 2)) (Some (129 / 20)) (Some (67 / 1000)) (Some ((- 357) / 10000000)) (Some (143 / 50000000000)) (Some (4189 / 1000)) (Some (2243 / 250)) (Some (6807 / 20)) (Some ((- 7) / 20)))
  | 25%nat => (* line 255, >C=O (ring) *)
    Some (JG (Some (71 / 2500)) (Some (7 / 2500)) (Some 55) (Some (9497 / 100)) (Some (7597 / 100)) (Some ((- 329) / 2)) (Some ((- 12627) / 100)) (Some (152 / 5)) (Some ((- 829) / 10000)) (Some (59 / 250000)) (Some ((- 131) / 1000000000)) (Some 0) (Some (1329 / 200)) (None) (None))
  | 26%nat => (* line 256, O=CH- (aldehyde) *)
    Some (JG (Some (379 / 10000)) (Some (3 / 1000)) (Some 82) (Some (1806 / 25)) (Some (369 / 10)) (Some ((- 16203) / 100)) (Some ((- 3587) / 25)) (Some (309 / 10)) (Some ((- 21) / 625)) (Some (1 / 6250)) (Some ((- 247) / 2500000000)) (Some (3197 / 1000)) (Some (9093 / 1000)) (Some (18523 / 25)) (Some ((- 1713) / 1000)))
  | 27%nat => (* line 257, -COOH (acid) *)
    Some (JG (Some (791 / 10000)) (Some (77 / 10000)) (Some 89) (Some (16909 / 100)) (Some (311 / 2)) (Some ((- 10668) / 25)) (Some ((- 38787) / 100)) (Some (241 / 10)) (Some (427 / 10000)) (Some (201 / 2500000)) (Some ((- 687) / 10000000000)) (Some (11051 / 1000)) (Some (19537 / 1000)) (Some (131723 / 100)) (Some ((- 1289) / 500)))
  | 28%nat => (* line 258, -COO- (ester) *)
    Some (JG (Some (481 / 10000)) (Some (1 / 2000)) (Some 82) (Some (811 / 10)) (Some (268 / 5)) (Some ((- 8448) / 25)) (Some ((- 6039) / 20)) (Some (49 / 2)) (Some (201 / 5000)) (Some (201 / 5000000)) (Some ((- 113) / 2500000000)) (Some (6959 / 1000)) (Some (9633 / 1000)) (Some (12097 / 25)) (Some ((- 483) / 500)))
  | 29%nat => (* line 259, =O (other than above) *)
    Some (JG (Some (143 / 10000)) (Some (101 / 10000)) (Some 36) (Some ((- 21) / 2)) (Some (52 / 25)) (Some ((- 24761) / 100)) (Some ((- 25083) / 100)) (Some (341 / 50)) (Some (49 / 2500)) (Some (127 / 10000000)) (Some ((- 89) / 5000000000)) (Some (453 / 125)) (Some (5909 / 1000)) (Some (16881 / 25)) (Some ((- 67) / 50)))
  | 30%nat => (* line 260, -NH2 *)
    Some (JG (Some (243 / 10000)) (Some (109 / 10000)) (Some 38) (Some (7323 / 100)) (Some (6689 / 100)) (Some ((- 1101) / 50)) (Some (1407 / 100)) (Some (269 / 10)) (Some ((- 103) / 2500)) (Some (41 / 250000)) (Some ((- 61) / 625000000)) (Some (703 / 200)) (Some (2697 / 250)) (None) (None))
  | 31%nat => (* line 261, >NH (nonring) *)
    Some (JG (Some (59 / 2000)) (Some (77 / 10000)) (Some 35) (Some (5017 / 100)) (Some (2633 / 50)) (Some (5347 / 100)) (Some (8939 / 100)) (Some ((- 121) / 100)) (Some (381 / 5000)) (Some ((- 243) / 5000000)) (Some (21 / 2000000000)) (Some (5099 / 1000)) (Some (1609 / 250)) (None) (None))
  | 32%nat => (* line 262, >NH (ring) *)
    Some (JG (Some (13 / 1000)) (Some (57 / 5000)) (Some 29) (Some (2641 / 50)) (Some (10151 / 100)) (Some (633 / 20)) (Some (7561 / 100)) (Some (59 / 5)) (Some ((- 23) / 1000)) (Some (107 / 1000000)) (Some ((- 157) / 2500000000)) (Some (749 / 100)) (Some (693 / 100)) (None) (None))
  | 33%nat => (* line 263, >N- (nonring) *)
    Some (JG (Some (169 / 10000)) (Some (37 / 5000)) (Some 9) (Some (587 / 50)) (Some (1221 / 25)) (Some (6167 / 50)) (Some (4079 / 25)) (Some ((- 311) / 10)) (Some (227 / 1000)) (Some ((- 1) / 3125)) (Some (73 / 500000000)) (Some (4703 / 1000)) (Some (237 / 125)) (None) (None))
  | 34%nat => (* line 264, -N= (nonring) *)
    Some (JG (Some (51 / 2000)) (Some ((- 99) / 10000)) (None) (Some (373 / 5)) (None) (Some (2361 / 100)) (None) (None) (None) (None) (None) (None) (Some (667 / 200)) (None) (None))
  | 35%nat => (* line 265, -N= (ring) *)
    Some (JG (Some (17 / 2000)) (Some (19 / 2500)) (Some 34) (Some (1151 / 20)) (Some (342 / 5)) (Some (1388 / 25)) (Some (7993 / 100)) (Some (883 / 100)) (Some ((- 12) / 3125)) (Some (87 / 2000000)) (Some ((- 13) / 500000000)) (Some (3649 / 1000)) (Some (816 / 125)) (None) (None))
  | 36%nat => (* line 266, =NH *)
    Some (JG (None) (None) (None) (Some (2077 / 25)) (Some (6891 / 100)) (Some (937 / 10)) (Some (5983 / 50)) (Some (569 / 100)) (Some ((- 103) / 25000)) (Some (2 / 15625)) (Some ((- 111) / 1250000000)) (None) (Some (12169 / 1000)) (None) (None))
  | 37%nat => (* line 267, -CN *)
    Some (JG (Some (31 / 625)) (Some ((- 101) / 10000)) (Some 91) (Some (6283 / 50)) (Some (5989 / 100)) (Some (8843 / 100)) (Some (4461 / 50)) (Some (73 / 2)) (Some ((- 733) / 10000)) (Some (23 / 125000)) (Some ((- 103) / 1000000000)) (Some (1207 / 500)) (Some (12851 / 1000)) (None) (None))
  | 38%nat => (* line 268, -NO2 *)
    Some (JG (Some (437 / 10000)) (Some (4 / 625)) (Some 91) (Some (7627 / 50)) (Some (3181 / 25)) (Some ((- 6657) / 100)) (Some ((- 1683) / 100)) (Some (259 / 10)) (Some ((- 187) / 50000)) (Some (129 / 1000000)) (Some ((- 111) / 1250000000)) (Some (9679 / 1000)) (Some (8369 / 500)) (None) (None))
  | 39%nat => (* line 269, -SH *)
    Some (JG (Some (31 / 10000)) (Some (21 / 2500)) (Some 63) (Some (1589 / 25)) (Some (2009 / 100)) (Some ((- 1733) / 100)) (Some ((- 2299) / 100)) (Some (353 / 10)) (Some ((- 379) / 5000)) (Some (37 / 200000)) (Some ((- 103) / 1000000000)) (Some (59 / 25)) (Some (1721 / 250)) (None) (None))
  | 40%nat => (* line 270, -S- (nonring) *)
    Some (JG (Some (119 / 10000)) (Some (49 / 10000)) (Some 54) (Some (3439 / 50)) (Some (172 / 5)) (Some (4187 / 100)) (Some (828 / 25)) (Some (98 / 5)) (Some ((- 561) / 100000)) (Some (201 / 5000000)) (Some ((- 69) / 2500000000)) (Some (413 / 100)) (Some (6817 / 1000)) (None) (None))
  | 41%nat => (* line 271, -S- (ring) *)
    Some (JG (Some (19 / 10000)) (Some (51 / 10000)) (Some 38) (Some (521 / 10)) (Some (7993 / 100)) (Some (391 / 10)) (Some (694 / 25)) (Some (167 / 10)) (Some (481 / 100000)) (Some (277 / 10000000)) (Some ((- 211) / 10000000000)) (Some (1557 / 1000)) (Some (748 / 125)) (None) (None))
  | _ => None
  end.
