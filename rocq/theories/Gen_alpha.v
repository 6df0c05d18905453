(* Alpha functions (thermo/eos_alpha_functions.py)
   Generated by tools/py2v.py from the text of /repo; do not edit by hand. *)
From Coq Require Import Reals Lra Lia Arith Bool.
From Verif Require Import Base.
Open Scope R_scope.
Open Scope bool_scope.

(* thermo/eos_alpha_functions.py, lines 1256-1258: Twu91_alpha_pure. *)
Definition Twu91_alpha_pure (T : R) (Tc : R) (c0 : R) (c1 : R) (c2 : R) :=
  let Tr := (T / Tc) in
  ((Rpower Tr (c2 * (c1 - 1))) * (exp (c0 * (1 - (Rpower Tr (c1 * c2)))))).

(* thermo/eos_alpha_functions.py, lines 1260-1262: Soave_1979_alpha_pure. *)
Definition Soave_1979_alpha_pure (T : R) (Tc : R) (M : R) (N_ : R) :=
  let Tr := (T / Tc) in
  (1 + ((1 - Tr) * (M + (N_ / Tr)))).

(* thermo/eos_alpha_functions.py, lines 1264-1266: Soave_1972_alpha_pure. *)
Definition Soave_1972_alpha_pure (T : R) (Tc : R) (c0 : R) :=
  let Tr := (T / Tc) in
  (((c0 * ((- (sqrt (T / Tc))) + 1)) + 1) ^ 2).

(* thermo/eos_alpha_functions.py, lines 1268-1269: Heyen_alpha_pure. *)
Definition Heyen_alpha_pure (T : R) (Tc : R) (c1 : R) (c2 : R) :=
  (exp (c1 * (1 - (Rpower (T / Tc) c2)))).

(* thermo/eos_alpha_functions.py, lines 1271-1272: Harmens_Knapp_alpha_pure. *)
Definition Harmens_Knapp_alpha_pure (T : R) (Tc : R) (c1 : R) (c2 : R) :=
  ((((c1 * ((- (sqrt (T / Tc))) + 1)) - (c2 * (1 - (Tc / T)))) + 1) ^ 2).

(* thermo/eos_alpha_functions.py, lines 1274-1276: Mathias_1983_alpha_pure. *)
Definition Mathias_1983_alpha_pure (T : R) (Tc : R) (c1 : R) (c2 : R) :=
  let Tr := (T / Tc) in
  (((1 + (c1 * (1 - (sqrt Tr)))) - ((c2 * (1 - Tr)) * ((7 / 10) - Tr))) ^ 2).

(* thermo/eos_alpha_functions.py, lines 1278-1279: Mathias_Copeman_untruncated_alpha_pure. *)
Definition Mathias_Copeman_untruncated_alpha_pure (T : R) (Tc : R) (c1 : R) (c2 : R) (c3 : R) :=
  (((((c1 * ((- (sqrt (T / Tc))) + 1)) + (c2 * (((- (sqrt (T / Tc))) + 1) ^ 2))) + (c3 * (((- (sqrt (T / Tc))) + 1) ^ 3))) + 1) ^ 2).

(* thermo/eos_alpha_functions.py, lines 1281-1287: Mathias_Copeman_original_alpha_pure. *)
Definition Mathias_Copeman_original_alpha_pure (T : R) (Tc : R) (c1 : R) (c2 : R) (c3 : R) :=
  if (Rltb T Tc) then
    (((((c1 * ((- (sqrt (T / Tc))) + 1)) + (c2 * (((- (sqrt (T / Tc))) + 1) ^ 2))) + (c3 * (((- (sqrt (T / Tc))) + 1) ^ 3))) + 1) ^ 2)
  else
    let rt := (sqrt (T / Tc)) in
    let tau := (1 - rt) in
    let x := (1 + (c1 * tau)) in
    (x * x).

(* thermo/eos_alpha_functions.py, lines 1299-1300: Gibbons_Laughton_alpha_pure. *)
Definition Gibbons_Laughton_alpha_pure (T : R) (Tc : R) (c1 : R) (c2 : R) :=
  (((c1 * ((T / Tc) - 1)) + (c2 * ((sqrt (T / Tc)) - 1))) + 1).

(* thermo/eos_alpha_functions.py, lines 1302-1303: Soave_1984_alpha_pure. *)
Definition Soave_1984_alpha_pure (T : R) (Tc : R) (c1 : R) (c2 : R) :=
  (((c1 * (((- T) / Tc) + 1)) + (c2 * ((-1) + (Tc / T)))) + 1).

(* thermo/eos_alpha_functions.py, lines 1305-1306: Yu_Lu_alpha_pure. *)
Definition Yu_Lu_alpha_pure (T : R) (Tc : R) (c1 : R) (c2 : R) (c3 : R) (c4 : R) :=
  (Rpower 10 ((c4 * (((- T) / Tc) + 1)) * (((((T ^ 2) * c3) / (Tc ^ 2)) + ((T * c2) / Tc)) + c1))).

(* thermo/eos_alpha_functions.py, lines 1308-1309: Trebble_Bishnoi_alpha_pure. *)
Definition Trebble_Bishnoi_alpha_pure (T : R) (Tc : R) (c1 : R) :=
  (exp (c1 * (((- T) / Tc) + 1))).

(* thermo/eos_alpha_functions.py, lines 1311-1312: Melhem_alpha_pure. *)
Definition Melhem_alpha_pure (T : R) (Tc : R) (c1 : R) (c2 : R) :=
  (exp ((c1 * (((- T) / Tc) + 1)) + (c2 * (((- (sqrt (T / Tc))) + 1) ^ 2)))).

(* thermo/eos_alpha_functions.py, lines 1314-1315: Androulakis_alpha_pure. *)
Definition Androulakis_alpha_pure (T : R) (Tc : R) (c1 : R) (c2 : R) (c3 : R) :=
  ((((c1 * ((- (Rpower (T / Tc) (2 / 3))) + 1)) + (c2 * (((- (Rpower (T / Tc) (2 / 3))) + 1) ^ 2))) + (c3 * (((- (Rpower (T / Tc) (2 / 3))) + 1) ^ 3))) + 1).

(* thermo/eos_alpha_functions.py, lines 1317-1318: Schwartzentruber_alpha_pure. *)
Definition Schwartzentruber_alpha_pure (T : R) (Tc : R) (c1 : R) (c2 : R) (c3 : R) (c4 : R) :=
  ((((c4 * ((- (sqrt (T / Tc))) + 1)) - (((- (sqrt (T / Tc))) + 1) * (((((T ^ 2) * c3) / (Tc ^ 2)) + ((T * c2) / Tc)) + c1))) + 1) ^ 2).

(* thermo/eos_alpha_functions.py, lines 1320-1321: Almeida_alpha_pure. *)
Definition Almeida_alpha_pure (T : R) (Tc : R) (c1 : R) (c2 : R) (c3 : R) :=
  (exp (((c1 * (((- T) / Tc) + 1)) * (Rpower (Rabs ((T / Tc) - 1)) (c2 - 1))) + (c3 * ((-1) + (Tc / T))))).

(* thermo/eos_alpha_functions.py, lines 1323-1324: Soave_1993_alpha_pure. *)
Definition Soave_1993_alpha_pure (T : R) (Tc : R) (c1 : R) (c2 : R) :=
  (((c1 * (((- T) / Tc) + 1)) + (c2 * (((- (sqrt (T / Tc))) + 1) ^ 2))) + 1).

(* thermo/eos_alpha_functions.py, lines 1326-1327: Gasem_alpha_pure. *)
Definition Gasem_alpha_pure (T : R) (Tc : R) (c1 : R) (c2 : R) (c3 : R) :=
  (exp (((- (Rpower (T / Tc) c3)) + 1) * (((T * c2) / Tc) + c1))).

(* thermo/eos_alpha_functions.py, lines 1329-1330: Coquelet_alpha_pure. *)
Definition Coquelet_alpha_pure (T : R) (Tc : R) (c1 : R) (c2 : R) (c3 : R) :=
  (exp ((c1 * (((- T) / Tc) + 1)) * ((((c2 * (((- (sqrt (T / Tc))) + 1) ^ 2)) + (c3 * (((- (sqrt (T / Tc))) + 1) ^ 3))) + 1) ^ 2))).

(* thermo/eos_alpha_functions.py, lines 1332-1333: Haghtalab_alpha_pure. *)
Definition Haghtalab_alpha_pure (T : R) (Tc : R) (c1 : R) (c2 : R) (c3 : R) :=
  (exp (((- (Rpower c3 (ln (T / Tc)))) + 1) * ((((- T) * c2) / Tc) + c1))).

(* thermo/eos_alpha_functions.py, lines 1335-1336: Saffari_alpha_pure. *)
Definition Saffari_alpha_pure (T : R) (Tc : R) (c1 : R) (c2 : R) (c3 : R) :=
  (exp ((((T * c1) / Tc) + (c2 * (ln (T / Tc)))) + (c3 * ((- (sqrt (T / Tc))) + 1)))).

(* thermo/eos_alpha_functions.py, lines 1338-1339: Chen_Yang_alpha_pure. *)
Definition Chen_Yang_alpha_pure (T : R) (Tc : R) (omega : R) (c1 : R) (c2 : R) (c3 : R) (c4 : R) (c5 : R) (c6 : R) (c7 : R) :=
  (exp ((c4 * ((ln ((((- (sqrt (T / Tc))) + 1) * ((c5 + (c6 * omega)) + (c7 * (omega ^ 2)))) + 1)) ^ 2)) + ((((- T) / Tc) + 1) * ((c1 + (c2 * omega)) + (c3 * (omega ^ 2)))))).

(* thermo/eos_alpha_functions.py, lines 1428-1431: Soave_1972_a_alpha.a_alpha_pure. *)
Definition Soave_1972_a_alpha_pure (T : R) (alpha_coeffs : nat -> R) (Tc : R) (a : R) :=
  let c0 := (alpha_coeffs 0%nat) in
  let Tc := Tc in
  let a := a in
  (a * (Soave_1972_alpha_pure T Tc c0)).

(* thermo/eos_alpha_functions.py, lines 1399-1426: Soave_1972_a_alpha.a_alpha_and_derivatives_pure. *)
Definition Soave_1972_a_alpha_and_derivatives_pure (T : R) (alpha_coeffs : nat -> R) (Tc : R) (a : R) :=
  let c0 := (alpha_coeffs 0%nat) in
  let Tc := Tc in
  let a := a in
  let a_alpha := (a * (((c0 * ((- (sqrt (T / Tc))) + 1)) + 1) ^ 2)) in
  let da_alpha_dT := (((((- a) * c0) * (sqrt (T / Tc))) * ((c0 * ((- (sqrt (T / Tc))) + 1)) + 1)) / T) in
  let d2a_alpha_dT2 := (((a * c0) * ((c0 / Tc) - (((sqrt (T / Tc)) * ((c0 * ((sqrt (T / Tc)) - 1)) - 1)) / T))) / (2 * T)) in
  (a_alpha, da_alpha_dT, d2a_alpha_dT2).

(* thermo/eos_alpha_functions.py, lines 1458-1461: Heyen_a_alpha.a_alpha_pure. *)
Definition Heyen_a_alpha_pure (T : R) (alpha_coeffs : nat -> R) (Tc : R) (a : R) :=
  let c1 := alpha_coeffs 0%nat in
  let c2 := alpha_coeffs 1%nat in
  let Tc := Tc in
  let a := a in
  (a * (Heyen_alpha_pure T Tc c1 c2)).

(* thermo/eos_alpha_functions.py, lines 1434-1456: Heyen_a_alpha.a_alpha_and_derivatives_pure. *)
Definition Heyen_a_alpha_and_derivatives_pure (T : R) (alpha_coeffs : nat -> R) (Tc : R) (a : R) :=
  let c1 := alpha_coeffs 0%nat in
  let c2 := alpha_coeffs 1%nat in
  let Tc := Tc in
  let a := a in
  let a_alpha := (a * (exp (c1 * (1 - (Rpower (T / Tc) c2))))) in
  let da_alpha_dT := ((((((- a) * c1) * c2) * (Rpower (T / Tc) c2)) * (exp (c1 * ((- (Rpower (T / Tc) c2)) + 1)))) / T) in
  let d2a_alpha_dT2 := ((((((a * c1) * c2) * (Rpower (T / Tc) c2)) * ((((c1 * c2) * (Rpower (T / Tc) c2)) - c2) + 1)) * (exp ((- c1) * ((Rpower (T / Tc) c2) - 1)))) / (T ^ 2)) in
  (a_alpha, da_alpha_dT, d2a_alpha_dT2).

(* thermo/eos_alpha_functions.py, lines 1488-1491: Harmens_Knapp_a_alpha.a_alpha_pure. *)
Definition Harmens_Knapp_a_alpha_pure (T : R) (alpha_coeffs : nat -> R) (Tc : R) (a : R) :=
  let c1 := alpha_coeffs 0%nat in
  let c2 := alpha_coeffs 1%nat in
  let Tc := Tc in
  let a := a in
  (a * (Harmens_Knapp_alpha_pure T Tc c1 c2)).

(* thermo/eos_alpha_functions.py, lines 1464-1486: Harmens_Knapp_a_alpha.a_alpha_and_derivatives_pure. *)
Definition Harmens_Knapp_a_alpha_and_derivatives_pure (T : R) (alpha_coeffs : nat -> R) (Tc : R) (a : R) :=
  let c1 := alpha_coeffs 0%nat in
  let c2 := alpha_coeffs 1%nat in
  let Tc := Tc in
  let a := a in
  let a_alpha := (a * ((((c1 * ((- (sqrt (T / Tc))) + 1)) - (c2 * (1 - (Tc / T)))) + 1) ^ 2)) in
  let da_alpha_dT := ((a * ((((- c1) * (sqrt (T / Tc))) / T) - (((2 * Tc) * c2) / (T ^ 2)))) * (((c1 * ((- (sqrt (T / Tc))) + 1)) - (c2 * (1 - (Tc / T)))) + 1)) in
  let d2a_alpha_dT2 := ((a * ((((c1 * (sqrt (T / Tc))) + (((2 * Tc) * c2) / T)) ^ 2) - (((c1 * (sqrt (T / Tc))) + (((8 * Tc) * c2) / T)) * (((c1 * ((sqrt (T / Tc)) - 1)) + (c2 * (1 - (Tc / T)))) - 1)))) / (2 * (T ^ 2))) in
  (a_alpha, da_alpha_dT, d2a_alpha_dT2).

(* thermo/eos_alpha_functions.py, lines 1520-1524: Mathias_1983_a_alpha.a_alpha_pure. *)
Definition Mathias_1983_a_alpha_pure (T : R) (alpha_coeffs : nat -> R) (Tc : R) (a : R) :=
  let c1 := alpha_coeffs 0%nat in
  let c2 := alpha_coeffs 1%nat in
  let Tc := Tc in
  let a := a in
  let Tr := (T / Tc) in
  (a * (Mathias_1983_alpha_pure T Tc c1 c2)).

(* thermo/eos_alpha_functions.py, lines 1494-1518: Mathias_1983_a_alpha.a_alpha_and_derivatives_pure. *)
Definition Mathias_1983_a_alpha_and_derivatives_pure (T : R) (alpha_coeffs : nat -> R) (Tc : R) (a : R) :=
  let c1 := alpha_coeffs 0%nat in
  let c2 := alpha_coeffs 1%nat in
  let Tc := Tc in
  let a := a in
  let Tr := (T / Tc) in
  let a_alpha := (a * (((1 + (c1 * (1 - (sqrt Tr)))) - ((c2 * (1 - Tr)) * ((7 / 10) - Tr))) ^ 2)) in
  let da_alpha_dT := ((a * (((c1 * ((- (sqrt (T / Tc))) + 1)) - ((c2 * (((- T) / Tc) + (7 / 10))) * (((- T) / Tc) + 1))) + 1)) * (((((2 * c2) * (((- T) / Tc) + (7 / 10))) / Tc) + (((2 * c2) * (((- T) / Tc) + 1)) / Tc)) - ((c1 * (sqrt (T / Tc))) / T))) in
  let d2a_alpha_dT2 := ((a * (((((8 * c2) / (Tc ^ 2)) - ((c1 * (sqrt (T / Tc))) / (T ^ 2))) * (((c1 * ((sqrt (T / Tc)) - 1)) + ((c2 * ((T / Tc) - 1)) * ((T / Tc) - (7 / 10)))) - 1)) + ((((((2 * c2) * ((T / Tc) - 1)) / Tc) + (((2 * c2) * ((T / Tc) - (7 / 10))) / Tc)) + ((c1 * (sqrt (T / Tc))) / T)) ^ 2))) / 2) in
  (a_alpha, da_alpha_dT, d2a_alpha_dT2).

(* thermo/eos_alpha_functions.py, lines 1553-1556: Mathias_Copeman_untruncated_a_alpha.a_alpha_pure. *)
Definition Mathias_Copeman_untruncated_a_alpha_pure (T : R) (alpha_coeffs : nat -> R) (Tc : R) (a : R) :=
  let c1 := alpha_coeffs 0%nat in
  let c2 := alpha_coeffs 1%nat in
  let c3 := alpha_coeffs 2%nat in
  let Tc := Tc in
  let a := a in
  (a * (Mathias_Copeman_untruncated_alpha_pure T Tc c1 c2 c3)).

(* thermo/eos_alpha_functions.py, lines 1527-1551: Mathias_Copeman_untruncated_a_alpha.a_alpha_and_derivatives_pure. *)
Definition Mathias_Copeman_untruncated_a_alpha_and_derivatives_pure (T : R) (alpha_coeffs : nat -> R) (Tc : R) (a : R) :=
  let c1 := alpha_coeffs 0%nat in
  let c2 := alpha_coeffs 1%nat in
  let c3 := alpha_coeffs 2%nat in
  let Tc := Tc in
  let a := a in
  let a_alpha := (a * (((((c1 * ((- (sqrt (T / Tc))) + 1)) + (c2 * (((- (sqrt (T / Tc))) + 1) ^ 2))) + (c3 * (((- (sqrt (T / Tc))) + 1) ^ 3))) + 1) ^ 2)) in
  let da_alpha_dT := ((a * (((((- c1) * (sqrt (T / Tc))) / T) - ((((2 * c2) * (sqrt (T / Tc))) * ((- (sqrt (T / Tc))) + 1)) / T)) - ((((3 * c3) * (sqrt (T / Tc))) * (((- (sqrt (T / Tc))) + 1) ^ 2)) / T))) * ((((c1 * ((- (sqrt (T / Tc))) + 1)) + (c2 * (((- (sqrt (T / Tc))) + 1) ^ 2))) + (c3 * (((- (sqrt (T / Tc))) + 1) ^ 3))) + 1)) in
  let d2a_alpha_dT2 := ((a * ((T * (((c1 - ((2 * c2) * ((sqrt (T / Tc)) - 1))) + ((3 * c3) * (((sqrt (T / Tc)) - 1) ^ 2))) ^ 2)) - ((((2 * T) * (c2 - ((3 * c3) * ((sqrt (T / Tc)) - 1)))) + ((Tc * (sqrt (T / Tc))) * ((c1 - ((2 * c2) * ((sqrt (T / Tc)) - 1))) + ((3 * c3) * (((sqrt (T / Tc)) - 1) ^ 2))))) * ((((c1 * ((sqrt (T / Tc)) - 1)) - (c2 * (((sqrt (T / Tc)) - 1) ^ 2))) + (c3 * (((sqrt (T / Tc)) - 1) ^ 3))) - 1)))) / ((2 * (T ^ 2)) * Tc)) in
  (a_alpha, da_alpha_dT, d2a_alpha_dT2).

(* thermo/eos_alpha_functions.py, lines 1597-1598: Mathias_Copeman_a_alpha.a_alpha_pure. *)
Definition Mathias_Copeman_a_alpha_pure (T : R) (a : R) (Tc : R) (alpha_coeffs : nat -> R) :=
  (a * (Mathias_Copeman_original_alpha_pure T Tc (alpha_coeffs 0%nat) (alpha_coeffs 1%nat) (alpha_coeffs 2%nat))).

(* thermo/eos_alpha_functions.py, lines 1559-1595: Mathias_Copeman_a_alpha.a_alpha_and_derivatives_pure. *)
Definition Mathias_Copeman_a_alpha_and_derivatives_pure (T : R) (alpha_coeffs : nat -> R) (Tc : R) (a : R) :=
  let c1 := alpha_coeffs 0%nat in
  let c2 := alpha_coeffs 1%nat in
  let c3 := alpha_coeffs 2%nat in
  let Tc := Tc in
  let a := a in
  let Tr := (T / Tc) in
  if (Rltb 1 Tr) then
    let x0 := (1 / T) in
    let x1 := (1 / Tc) in
    let x2 := (sqrt (T * x1)) in
    let x3 := ((c1 * (x2 - 1)) - 1) in
    let x4 := ((x0 * x2) * x3) in
    let a_alpha := ((a * x3) * x3) in
    let da_alpha_dT := ((a * c1) * x4) in
    let d2a_alpha_dT2 := (((((1 / 2) * a) * c1) * x0) * ((c1 * x1) - x4)) in
    (a_alpha, da_alpha_dT, d2a_alpha_dT2)
  else
    let a_alpha := (a * (((((c1 * ((- (sqrt (T / Tc))) + 1)) + (c2 * (((- (sqrt (T / Tc))) + 1) ^ 2))) + (c3 * (((- (sqrt (T / Tc))) + 1) ^ 3))) + 1) ^ 2)) in
    let da_alpha_dT := ((a * (((((- c1) * (sqrt (T / Tc))) / T) - ((((2 * c2) * (sqrt (T / Tc))) * ((- (sqrt (T / Tc))) + 1)) / T)) - ((((3 * c3) * (sqrt (T / Tc))) * (((- (sqrt (T / Tc))) + 1) ^ 2)) / T))) * ((((c1 * ((- (sqrt (T / Tc))) + 1)) + (c2 * (((- (sqrt (T / Tc))) + 1) ^ 2))) + (c3 * (((- (sqrt (T / Tc))) + 1) ^ 3))) + 1)) in
    let d2a_alpha_dT2 := ((a * ((T * (((c1 - ((2 * c2) * ((sqrt (T / Tc)) - 1))) + ((3 * c3) * (((sqrt (T / Tc)) - 1) ^ 2))) ^ 2)) - ((((2 * T) * (c2 - ((3 * c3) * ((sqrt (T / Tc)) - 1)))) + ((Tc * (sqrt (T / Tc))) * ((c1 - ((2 * c2) * ((sqrt (T / Tc)) - 1))) + ((3 * c3) * (((sqrt (T / Tc)) - 1) ^ 2))))) * ((((c1 * ((sqrt (T / Tc)) - 1)) - (c2 * (((sqrt (T / Tc)) - 1) ^ 2))) + (c3 * (((sqrt (T / Tc)) - 1) ^ 3))) - 1)))) / ((2 * (T ^ 2)) * Tc)) in
    (a_alpha, da_alpha_dT, d2a_alpha_dT2).

(* thermo/eos_alpha_functions.py, lines 1723-1726: Gibbons_Laughton_a_alpha.a_alpha_pure. *)
Definition Gibbons_Laughton_a_alpha_pure (T : R) (alpha_coeffs : nat -> R) (Tc : R) (a : R) :=
  let c1 := alpha_coeffs 0%nat in
  let c2 := alpha_coeffs 1%nat in
  let Tc := Tc in
  let a := a in
  (a * (Gibbons_Laughton_alpha_pure T Tc c1 c2)).

(* thermo/eos_alpha_functions.py, lines 1700-1721: Gibbons_Laughton_a_alpha.a_alpha_and_derivatives_pure. *)
Definition Gibbons_Laughton_a_alpha_and_derivatives_pure (T : R) (alpha_coeffs : nat -> R) (Tc : R) (a : R) :=
  let c1 := alpha_coeffs 0%nat in
  let c2 := alpha_coeffs 1%nat in
  let Tc := Tc in
  let a := a in
  let a_alpha := (a * (((c1 * ((T / Tc) - 1)) + (c2 * ((sqrt (T / Tc)) - 1))) + 1)) in
  let da_alpha_dT := (a * ((c1 / Tc) + ((c2 * (sqrt (T / Tc))) / (2 * T)))) in
  let d2a_alpha_dT2 := (a * (((- c2) * (sqrt (T / Tc))) / (4 * (T ^ 2)))) in
  (a_alpha, da_alpha_dT, d2a_alpha_dT2).

(* thermo/eos_alpha_functions.py, lines 1753-1756: Soave_1984_a_alpha.a_alpha_pure. *)
Definition Soave_1984_a_alpha_pure (T : R) (alpha_coeffs : nat -> R) (Tc : R) (a : R) :=
  let c1 := alpha_coeffs 0%nat in
  let c2 := alpha_coeffs 1%nat in
  let Tc := Tc in
  let a := a in
  (a * (Soave_1984_alpha_pure T Tc c1 c2)).

(* thermo/eos_alpha_functions.py, lines 1730-1751: Soave_1984_a_alpha.a_alpha_and_derivatives_pure. *)
Definition Soave_1984_a_alpha_and_derivatives_pure (T : R) (alpha_coeffs : nat -> R) (Tc : R) (a : R) :=
  let c1 := alpha_coeffs 0%nat in
  let c2 := alpha_coeffs 1%nat in
  let Tc := Tc in
  let a := a in
  let a_alpha := (a * (((c1 * (((- T) / Tc) + 1)) + (c2 * ((-1) + (Tc / T)))) + 1)) in
  let da_alpha_dT := (a * (((- c1) / Tc) - ((Tc * c2) / (T ^ 2)))) in
  let d2a_alpha_dT2 := (a * (((2 * Tc) * c2) / (T ^ 3))) in
  (a_alpha, da_alpha_dT, d2a_alpha_dT2).

(* thermo/eos_alpha_functions.py, lines 1784-1785: Yu_Lu_a_alpha.a_alpha_pure. *)
Definition Yu_Lu_a_alpha_pure (T : R) (a : R) (Tc : R) (alpha_coeffs : nat -> R) :=
  (a * (Yu_Lu_alpha_pure T Tc (alpha_coeffs 0%nat) (alpha_coeffs 1%nat) (alpha_coeffs 2%nat) (alpha_coeffs 3%nat))).

(* thermo/eos_alpha_functions.py, lines 1760-1782: Yu_Lu_a_alpha.a_alpha_and_derivatives_pure. *)
Definition Yu_Lu_a_alpha_and_derivatives_pure (T : R) (alpha_coeffs : nat -> R) (Tc : R) (a : R) :=
  let c1 := alpha_coeffs 0%nat in
  let c2 := alpha_coeffs 1%nat in
  let c3 := alpha_coeffs 2%nat in
  let c4 := alpha_coeffs 3%nat in
  let Tc := Tc in
  let a := a in
  let a_alpha := (a * (Rpower 10 ((c4 * (((- T) / Tc) + 1)) * (((((T ^ 2) * c3) / (Tc ^ 2)) + ((T * c2) / Tc)) + c1)))) in
  let da_alpha_dT := (a * (((Rpower 10 ((c4 * (((- T) / Tc) + 1)) * (((((T ^ 2) * c3) / (Tc ^ 2)) + ((T * c2) / Tc)) + c1))) * (((c4 * (((- T) / Tc) + 1)) * ((((2 * T) * c3) / (Tc ^ 2)) + (c2 / Tc))) - ((c4 * (((((T ^ 2) * c3) / (Tc ^ 2)) + ((T * c2) / Tc)) + c1)) / Tc))) * (ln 10))) in
  let d2a_alpha_dT2 := (a * (((((Rpower 10 (((- c4) * ((T / Tc) - 1)) * (((((T ^ 2) * c3) / (Tc ^ 2)) + ((T * c2) / Tc)) + c1))) * c4) * (((((((-4) * T) * c3) / Tc) - (2 * c2)) - ((2 * c3) * ((T / Tc) - 1))) + ((c4 * (((((((T ^ 2) * c3) / (Tc ^ 2)) + ((T * c2) / Tc)) + c1) + (((T / Tc) - 1) * ((((2 * T) * c3) / Tc) + c2))) ^ 2)) * (ln 10)))) * (ln 10)) / (Tc ^ 2))) in
  (a_alpha, da_alpha_dT, d2a_alpha_dT2).

(* thermo/eos_alpha_functions.py, lines 1811-1812: Trebble_Bishnoi_a_alpha.a_alpha_pure. *)
Definition Trebble_Bishnoi_a_alpha_pure (T : R) (a : R) (Tc : R) (alpha_coeffs : nat -> R) :=
  (a * (Trebble_Bishnoi_alpha_pure T Tc (alpha_coeffs 0%nat))).

(* thermo/eos_alpha_functions.py, lines 1789-1809: Trebble_Bishnoi_a_alpha.a_alpha_and_derivatives_pure. *)
Definition Trebble_Bishnoi_a_alpha_and_derivatives_pure (T : R) (alpha_coeffs : nat -> R) (Tc : R) (a : R) :=
  let c1 := (alpha_coeffs 0%nat) in
  let Tc := Tc in
  let a := a in
  let a_alpha := (a * (exp (c1 * (((- T) / Tc) + 1)))) in
  let da_alpha_dT := (((a * (- c1)) * (exp (c1 * (((- T) / Tc) + 1)))) / Tc) in
  let d2a_alpha_dT2 := (((a * (c1 ^ 2)) * (exp ((- c1) * ((T / Tc) - 1)))) / (Tc ^ 2)) in
  (a_alpha, da_alpha_dT, d2a_alpha_dT2).

(* thermo/eos_alpha_functions.py, lines 1839-1840: Melhem_a_alpha.a_alpha_pure. *)
Definition Melhem_a_alpha_pure (T : R) (a : R) (Tc : R) (alpha_coeffs : nat -> R) :=
  (a * (Melhem_alpha_pure T Tc (alpha_coeffs 0%nat) (alpha_coeffs 1%nat))).

(* thermo/eos_alpha_functions.py, lines 1815-1837: Melhem_a_alpha.a_alpha_and_derivatives_pure. *)
Definition Melhem_a_alpha_and_derivatives_pure (T : R) (alpha_coeffs : nat -> R) (Tc : R) (a : R) :=
  let c1 := alpha_coeffs 0%nat in
  let c2 := alpha_coeffs 1%nat in
  let Tc := Tc in
  let a := a in
  let a_alpha := (a * (exp ((c1 * (((- T) / Tc) + 1)) + (c2 * (((- (sqrt (T / Tc))) + 1) ^ 2))))) in
  let da_alpha_dT := (a * ((((- c1) / Tc) - (((c2 * (sqrt (T / Tc))) * ((- (sqrt (T / Tc))) + 1)) / T)) * (exp ((c1 * (((- T) / Tc) + 1)) + (c2 * (((- (sqrt (T / Tc))) + 1) ^ 2)))))) in
  let d2a_alpha_dT2 := (a * (((((c1 / Tc) - (((c2 * (sqrt (T / Tc))) * ((sqrt (T / Tc)) - 1)) / T)) ^ 2) + ((c2 * ((1 / Tc) - (((sqrt (T / Tc)) * ((sqrt (T / Tc)) - 1)) / T))) / (2 * T))) * (exp (((- c1) * ((T / Tc) - 1)) + (c2 * (((sqrt (T / Tc)) - 1) ^ 2)))))) in
  (a_alpha, da_alpha_dT, d2a_alpha_dT2).

(* thermo/eos_alpha_functions.py, lines 1869-1870: Androulakis_a_alpha.a_alpha_pure. *)
Definition Androulakis_a_alpha_pure (T : R) (a : R) (Tc : R) (alpha_coeffs : nat -> R) :=
  (a * (Androulakis_alpha_pure T Tc (alpha_coeffs 0%nat) (alpha_coeffs 1%nat) (alpha_coeffs 2%nat))).

(* thermo/eos_alpha_functions.py, lines 1843-1867: Androulakis_a_alpha.a_alpha_and_derivatives_pure. *)
Definition Androulakis_a_alpha_and_derivatives_pure (T : R) (alpha_coeffs : nat -> R) (Tc : R) (a : R) :=
  let c1 := alpha_coeffs 0%nat in
  let c2 := alpha_coeffs 1%nat in
  let c3 := alpha_coeffs 2%nat in
  let Tc := Tc in
  let a := a in
  let a_alpha := (a * ((((c1 * ((- (Rpower (T / Tc) (2 / 3))) + 1)) + (c2 * (((- (Rpower (T / Tc) (2 / 3))) + 1) ^ 2))) + (c3 * (((- (Rpower (T / Tc) (2 / 3))) + 1) ^ 3))) + 1)) in
  let da_alpha_dT := (a * ((((((-2) * c1) * (Rpower (T / Tc) (2 / 3))) / (3 * T)) - ((((4 * c2) * (Rpower (T / Tc) (2 / 3))) * ((- (Rpower (T / Tc) (2 / 3))) + 1)) / (3 * T))) - ((((2 * c3) * (Rpower (T / Tc) (2 / 3))) * (((- (Rpower (T / Tc) (2 / 3))) + 1) ^ 2)) / T))) in
  let d2a_alpha_dT2 := (a * (((2 * (Rpower (T / Tc) (2 / 3))) * ((((c1 + ((4 * c2) * (Rpower (T / Tc) (2 / 3)))) - ((2 * c2) * ((Rpower (T / Tc) (2 / 3)) - 1))) - (((12 * c3) * (Rpower (T / Tc) (2 / 3))) * ((Rpower (T / Tc) (2 / 3)) - 1))) + ((3 * c3) * (((Rpower (T / Tc) (2 / 3)) - 1) ^ 2)))) / (9 * (T ^ 2)))) in
  (a_alpha, da_alpha_dT, d2a_alpha_dT2).

(* thermo/eos_alpha_functions.py, lines 1897-1898: Schwartzentruber_a_alpha.a_alpha_pure. *)
Definition Schwartzentruber_a_alpha_pure (T : R) (a : R) (Tc : R) (alpha_coeffs : nat -> R) :=
  (a * (Schwartzentruber_alpha_pure T Tc (alpha_coeffs 0%nat) (alpha_coeffs 1%nat) (alpha_coeffs 2%nat) (alpha_coeffs 3%nat))).

(* thermo/eos_alpha_functions.py, lines 1874-1895: Schwartzentruber_a_alpha.a_alpha_and_derivatives_pure. *)
Definition Schwartzentruber_a_alpha_and_derivatives_pure (T : R) (alpha_coeffs : nat -> R) (Tc : R) (a : R) :=
  let c1 := alpha_coeffs 0%nat in
  let c2 := alpha_coeffs 1%nat in
  let c3 := alpha_coeffs 2%nat in
  let c4 := alpha_coeffs 3%nat in
  let Tc := Tc in
  let a := a in
  let a_alpha := (a * ((((c4 * ((- (sqrt (T / Tc))) + 1)) - (((- (sqrt (T / Tc))) + 1) * (((((T ^ 2) * c3) / (Tc ^ 2)) + ((T * c2) / Tc)) + c1))) + 1) ^ 2)) in
  let da_alpha_dT := (a * ((((c4 * ((- (sqrt (T / Tc))) + 1)) - (((- (sqrt (T / Tc))) + 1) * (((((T ^ 2) * c3) / (Tc ^ 2)) + ((T * c2) / Tc)) + c1))) + 1) * (((((-2) * ((- (sqrt (T / Tc))) + 1)) * ((((2 * T) * c3) / (Tc ^ 2)) + (c2 / Tc))) - ((c4 * (sqrt (T / Tc))) / T)) + (((sqrt (T / Tc)) * (((((T ^ 2) * c3) / (Tc ^ 2)) + ((T * c2) / Tc)) + c1)) / T)))) in
  let d2a_alpha_dT2 := (a * (((((((- c4) * ((sqrt (T / Tc)) - 1)) + (((sqrt (T / Tc)) - 1) * (((((T ^ 2) * c3) / (Tc ^ 2)) + ((T * c2) / Tc)) + c1))) + 1) * ((((((8 * c3) * ((sqrt (T / Tc)) - 1)) / (Tc ^ 2)) + (((4 * (sqrt (T / Tc))) * ((((2 * T) * c3) / Tc) + c2)) / (T * Tc))) + ((c4 * (sqrt (T / Tc))) / (T ^ 2))) - (((sqrt (T / Tc)) * (((((T ^ 2) * c3) / (Tc ^ 2)) + ((T * c2) / Tc)) + c1)) / (T ^ 2)))) + ((((((2 * ((sqrt (T / Tc)) - 1)) * ((((2 * T) * c3) / Tc) + c2)) / Tc) - ((c4 * (sqrt (T / Tc))) / T)) + (((sqrt (T / Tc)) * (((((T ^ 2) * c3) / (Tc ^ 2)) + ((T * c2) / Tc)) + c1)) / T)) ^ 2)) / 2)) in
  (a_alpha, da_alpha_dT, d2a_alpha_dT2).

(* thermo/eos_alpha_functions.py, lines 1956-1957: Almeida_a_alpha.a_alpha_pure. *)
Definition Almeida_a_alpha_pure (T : R) (a : R) (Tc : R) (alpha_coeffs : nat -> R) :=
  (a * (Almeida_alpha_pure T Tc (alpha_coeffs 0%nat) (alpha_coeffs 1%nat) (alpha_coeffs 2%nat))).

(* thermo/eos_alpha_functions.py, lines 1902-1954: Almeida_a_alpha.a_alpha_and_derivatives_pure. *)
Definition Almeida_a_alpha_and_derivatives_pure (T : R) (alpha_coeffs : nat -> R) (Tc : R) (a : R) :=
  let c1 := alpha_coeffs 0%nat in
  let c2 := alpha_coeffs 1%nat in
  let c3 := alpha_coeffs 2%nat in
  let Tc := Tc in
  let a := a in
  let Tr := (T / Tc) in
  let '(x0, x1, x2, x3, x4, x5, x6, x7, x8, x9, x10, alpha, d_alpha_dT, d2_alpha_dT2) :=
    if (Rltb 1 Tr) then
    let x0 := (c3 * (1 - (Tc / T))) in
    let x1 := (1 / Tc) in
    let x2 := ((T * x1) - 1) in
    let x3 := (c2 - 1) in
    let x4 := (c1 * (Rpower x2 x3)) in
    let x5 := (x2 * x4) in
    let x6 := (exp ((- x0) - x5)) in
    let x7 := (Tc * c3) in
    let x8 := (x1 * x4) in
    let x9 := (((x3 * x8) + x8) + (x7 / (T ^ 2))) in
    let x10 := (x4 / ((Tc ^ 2) * x2)) in
    let alpha := (exp ((- x0) - x5)) in
    let d_alpha_dT := ((- x6) * x9) in
    let d2_alpha_dT2 := (x6 * (((((- x10) * (x3 ^ 2)) - (x10 * x3)) + (x9 ^ 2)) + ((2 * x7) / (T ^ 3)))) in
    (x0, x1, x2, x3, x4, x5, x6, x7, x8, x9, x10, alpha, d_alpha_dT, d2_alpha_dT2)
    else
    let x0 := (c3 * (1 - (Tc / T))) in
    let x1 := (1 / Tc) in
    let x2 := (T * x1) in
    let x3 := (x2 - 1) in
    let x4 := (c2 - 1) in
    let x5 := (c1 * (Rpower (1 - x2) x4)) in
    let x6 := (x3 * x5) in
    let x7 := (exp ((- x0) - x6)) in
    let x8 := (Tc * c3) in
    let x9 := (x1 * x5) in
    let x10 := (((x4 * x9) + x9) + (x8 / (T ^ 2))) in
    let x11 := (x5 / ((Tc ^ 2) * x3)) in
    let alpha := (exp ((- x0) - x6)) in
    let d_alpha_dT := ((- x10) * x7) in
    let d2_alpha_dT2 := (x7 * ((((x10 ^ 2) - (x11 * (x4 ^ 2))) - (x11 * x4)) + ((2 * x8) / (T ^ 3)))) in
    (x0, x1, x2, x3, x4, x5, x6, x7, x8, x9, x10, alpha, d_alpha_dT, d2_alpha_dT2)
  in
  ((a * alpha), (a * d_alpha_dT), (a * d2_alpha_dT2)).

(* thermo/eos_alpha_functions.py, lines 1997-2000: Twu91_a_alpha.a_alpha_pure. *)
Definition Twu91_a_alpha_pure (T : R) (alpha_coeffs : nat -> R) (Tc : R) (a : R) :=
  let c0 := alpha_coeffs 0%nat in
  let c1 := alpha_coeffs 1%nat in
  let c2 := alpha_coeffs 2%nat in
  let Tc := Tc in
  let a := a in
  (a * (Twu91_alpha_pure T Tc c0 c1 c2)).

(* thermo/eos_alpha_functions.py, lines 1961-1994: Twu91_a_alpha.a_alpha_and_derivatives_pure. *)
Definition Twu91_a_alpha_and_derivatives_pure (T : R) (alpha_coeffs : nat -> R) (Tc : R) (a : R) :=
  let c0 := alpha_coeffs 0%nat in
  let c1 := alpha_coeffs 1%nat in
  let c2 := alpha_coeffs 2%nat in
  let Tc := Tc in
  let a := a in
  let Tr := (T / Tc) in
  let T_inv := (1 / T) in
  let x1 := (c1 - 1) in
  let x2 := (c2 * x1) in
  let x3 := (c1 * c2) in
  let x4 := (Rpower Tr x3) in
  let x5 := ((a * (Rpower Tr x2)) * (exp ((- c0) * (x4 - 1)))) in
  let x6 := (c0 * x4) in
  let x7 := (c1 * x6) in
  let x8 := (c2 * x5) in
  let x9 := ((c1 * c1) * c2) in
  let d2a_alpha_dT2 := (((x8 * ((((((((((c0 * c0) * x4) * x4) * x9) - c1) + ((c2 * x1) * x1)) - ((2 * x2) * x7)) - (x6 * x9)) + x7) + 1)) * T_inv) * T_inv) in
  (x5, ((x8 * (x1 - x7)) * T_inv), d2a_alpha_dT2).

(* thermo/eos_alpha_functions.py, lines 2002-2012: Twu91_a_alpha.a_alphas_vectorized. List form; one append per iteration is an update at the loop index. *)
Definition Twu91_a_alphas_vectorized (T : R) (ais : nat -> R) (alpha_coeffs : nat -> nat -> R) (Tcs : nat -> R) (N_ : nat) :=
  let ais := ais in
  let alpha_coeffs := alpha_coeffs in
  let Tcs := Tcs in
  let a_alphas := (fun k_ => match k_ with | _ => 0 end) in
  let a_alphas :=
    loop N_ (fun i a_alphas =>
      let coeffs := (alpha_coeffs i) in
      let Tr := (T / (Tcs i)) in
      let a_alpha := ((ais i) * ((Rpower Tr ((coeffs 2%nat) * ((coeffs 1%nat) - 1))) * (exp ((coeffs 0%nat) * (1 - (Rpower Tr ((coeffs 1%nat) * (coeffs 2%nat)))))))) in
      let a_alphas := upd a_alphas i a_alpha in
      a_alphas
    ) a_alphas in
  a_alphas.

(* thermo/eos_alpha_functions.py, lines 2014-2069: Twu91_a_alpha.a_alpha_and_derivatives_vectorized. *)
Definition Twu91_a_alpha_and_derivatives_vectorized (T : R) (ais : nat -> R) (alpha_coeffs : nat -> nat -> R) (Tcs : nat -> R) (N_ : nat) :=
  let ais := ais in
  let alpha_coeffs := alpha_coeffs in
  let Tcs := Tcs in
  let N_ := N_ in
  let a_alphas := (fun _ => 0) in
  let da_alpha_dTs := (fun _ => 0) in
  let d2a_alpha_dT2s := (fun _ => 0) in
  let T_inv := (1 / T) in
  let '(a_alphas, da_alpha_dTs, d2a_alpha_dT2s) :=
    loop N_ (fun i st_ =>
      let '(a_alphas, da_alpha_dTs, d2a_alpha_dT2s) := st_ in
      let coeffs := (alpha_coeffs i) in
      let c0 := (coeffs 0%nat) in
      let c1 := (coeffs 1%nat) in
      let c2 := (coeffs 2%nat) in
      let Tr := (T / (Tcs i)) in
      let x1 := (c1 - 1) in
      let x2 := (c2 * x1) in
      let x3 := (c1 * c2) in
      let x4 := (Rpower Tr x3) in
      let x5 := (((ais i) * (Rpower Tr x2)) * (exp ((- c0) * (x4 - 1)))) in
      let x6 := (c0 * x4) in
      let x7 := (c1 * x6) in
      let x8 := (c2 * x5) in
      let x9 := ((c1 * c1) * c2) in
      let d2a_alpha_dT2 := (((x8 * ((((((((((c0 * c0) * x4) * x4) * x9) - c1) + ((c2 * x1) * x1)) - ((2 * x2) * x7)) - (x6 * x9)) + x7) + 1)) * T_inv) * T_inv) in
      let a_alphas := upd a_alphas i x5 in
      let da_alpha_dTs := upd da_alpha_dTs i ((x8 * (x1 - x7)) * T_inv) in
      let d2a_alpha_dT2s := upd d2a_alpha_dT2s i d2a_alpha_dT2 in
      (a_alphas, da_alpha_dTs, d2a_alpha_dT2s)
    ) (a_alphas, da_alpha_dTs, d2a_alpha_dT2s) in
  (a_alphas, da_alpha_dTs, d2a_alpha_dT2s).

(* thermo/eos_alpha_functions.py, lines 2096-2097: Soave_1993_a_alpha.a_alpha_pure. *)
Definition Soave_1993_a_alpha_pure (T : R) (a : R) (Tc : R) (alpha_coeffs : nat -> R) :=
  (a * (Soave_1993_alpha_pure T Tc (alpha_coeffs 0%nat) (alpha_coeffs 1%nat))).

(* thermo/eos_alpha_functions.py, lines 2073-2094: Soave_1993_a_alpha.a_alpha_and_derivatives_pure. *)
Definition Soave_1993_a_alpha_and_derivatives_pure (T : R) (alpha_coeffs : nat -> R) (Tc : R) (a : R) :=
  let c1 := alpha_coeffs 0%nat in
  let c2 := alpha_coeffs 1%nat in
  let Tc := Tc in
  let a := a in
  let a_alpha := (a * (((c1 * (((- T) / Tc) + 1)) + (c2 * (((- (sqrt (T / Tc))) + 1) ^ 2))) + 1)) in
  let da_alpha_dT := (a * (((- c1) / Tc) - (((c2 * (sqrt (T / Tc))) * ((- (sqrt (T / Tc))) + 1)) / T))) in
  let d2a_alpha_dT2 := (a * ((c2 * ((1 / Tc) - (((sqrt (T / Tc)) * ((sqrt (T / Tc)) - 1)) / T))) / (2 * T))) in
  (a_alpha, da_alpha_dT, d2a_alpha_dT2).

(* thermo/eos_alpha_functions.py, lines 2125-2126: Gasem_a_alpha.a_alpha_pure. *)
Definition Gasem_a_alpha_pure (T : R) (a : R) (Tc : R) (alpha_coeffs : nat -> R) :=
  (a * (Gasem_alpha_pure T Tc (alpha_coeffs 0%nat) (alpha_coeffs 1%nat) (alpha_coeffs 2%nat))).

(* thermo/eos_alpha_functions.py, lines 2101-2123: Gasem_a_alpha.a_alpha_and_derivatives_pure. *)
Definition Gasem_a_alpha_and_derivatives_pure (T : R) (alpha_coeffs : nat -> R) (Tc : R) (a : R) :=
  let c1 := alpha_coeffs 0%nat in
  let c2 := alpha_coeffs 1%nat in
  let c3 := alpha_coeffs 2%nat in
  let Tc := Tc in
  let a := a in
  let a_alpha := (a * (exp (((- (Rpower (T / Tc) c3)) + 1) * (((T * c2) / Tc) + c1)))) in
  let da_alpha_dT := (a * ((((c2 * ((- (Rpower (T / Tc) c3)) + 1)) / Tc) - (((c3 * (Rpower (T / Tc) c3)) * (((T * c2) / Tc) + c1)) / T)) * (exp (((- (Rpower (T / Tc) c3)) + 1) * (((T * c2) / Tc) + c1))))) in
  let d2a_alpha_dT2 := (a * ((((((c2 * ((Rpower (T / Tc) c3) - 1)) / Tc) + (((c3 * (Rpower (T / Tc) c3)) * (((T * c2) / Tc) + c1)) / T)) ^ 2) - (((c3 * (Rpower (T / Tc) c3)) * ((((2 * c2) / Tc) + ((c3 * (((T * c2) / Tc) + c1)) / T)) - ((((T * c2) / Tc) + c1) / T))) / T)) * (exp ((- ((Rpower (T / Tc) c3) - 1)) * (((T * c2) / Tc) + c1))))) in
  (a_alpha, da_alpha_dT, d2a_alpha_dT2).

(* thermo/eos_alpha_functions.py, lines 2157-2158: Coquelet_a_alpha.a_alpha_pure. *)
Definition Coquelet_a_alpha_pure (T : R) (a : R) (Tc : R) (alpha_coeffs : nat -> R) :=
  (a * (Coquelet_alpha_pure T Tc (alpha_coeffs 0%nat) (alpha_coeffs 1%nat) (alpha_coeffs 2%nat))).

(* thermo/eos_alpha_functions.py, lines 2130-2155: Coquelet_a_alpha.a_alpha_and_derivatives_pure. *)
Definition Coquelet_a_alpha_and_derivatives_pure (T : R) (alpha_coeffs : nat -> R) (Tc : R) (a : R) :=
  let c1 := alpha_coeffs 0%nat in
  let c2 := alpha_coeffs 1%nat in
  let c3 := alpha_coeffs 2%nat in
  let Tc := Tc in
  let a := a in
  let a_alpha := (a * (exp ((c1 * (((- T) / Tc) + 1)) * ((((c2 * (((- (sqrt (T / Tc))) + 1) ^ 2)) + (c3 * (((- (sqrt (T / Tc))) + 1) ^ 3))) + 1) ^ 2)))) in
  let da_alpha_dT := (a * (((((c1 * (((- T) / Tc) + 1)) * ((((((-2) * c2) * (sqrt (T / Tc))) * ((- (sqrt (T / Tc))) + 1)) / T) - ((((3 * c3) * (sqrt (T / Tc))) * (((- (sqrt (T / Tc))) + 1) ^ 2)) / T))) * (((c2 * (((- (sqrt (T / Tc))) + 1) ^ 2)) + (c3 * (((- (sqrt (T / Tc))) + 1) ^ 3))) + 1)) - ((c1 * ((((c2 * (((- (sqrt (T / Tc))) + 1) ^ 2)) + (c3 * (((- (sqrt (T / Tc))) + 1) ^ 3))) + 1) ^ 2)) / Tc)) * (exp ((c1 * (((- T) / Tc) + 1)) * ((((c2 * (((- (sqrt (T / Tc))) + 1) ^ 2)) + (c3 * (((- (sqrt (T / Tc))) + 1) ^ 3))) + 1) ^ 2))))) in
  let d2a_alpha_dT2 := (a * ((c1 * (((c1 * ((((- (((c2 * (((sqrt (T / Tc)) - 1) ^ 2)) - (c3 * (((sqrt (T / Tc)) - 1) ^ 3))) + 1)) / Tc) + (((((sqrt (T / Tc)) * (((-2) * c2) + ((3 * c3) * ((sqrt (T / Tc)) - 1)))) * ((sqrt (T / Tc)) - 1)) * ((T / Tc) - 1)) / T)) ^ 2)) * ((((c2 * (((sqrt (T / Tc)) - 1) ^ 2)) - (c3 * (((sqrt (T / Tc)) - 1) ^ 3))) + 1) ^ 2)) - (((((((T / Tc) - 1) * (((c2 * (((sqrt (T / Tc)) - 1) ^ 2)) - (c3 * (((sqrt (T / Tc)) - 1) ^ 3))) + 1)) * (((((2 * c2) / Tc) - (((6 * c3) * ((sqrt (T / Tc)) - 1)) / Tc)) - ((((2 * c2) * (sqrt (T / Tc))) * ((sqrt (T / Tc)) - 1)) / T)) + ((((3 * c3) * (sqrt (T / Tc))) * (((sqrt (T / Tc)) - 1) ^ 2)) / T))) + (((((4 * (sqrt (T / Tc))) * ((2 * c2) - ((3 * c3) * ((sqrt (T / Tc)) - 1)))) * ((sqrt (T / Tc)) - 1)) * (((c2 * (((sqrt (T / Tc)) - 1) ^ 2)) - (c3 * (((sqrt (T / Tc)) - 1) ^ 3))) + 1)) / Tc)) + ((((((2 * c2) - ((3 * c3) * ((sqrt (T / Tc)) - 1))) ^ 2) * (((sqrt (T / Tc)) - 1) ^ 2)) * ((T / Tc) - 1)) / Tc)) / (2 * T)))) * (exp (((- c1) * ((T / Tc) - 1)) * ((((c2 * (((sqrt (T / Tc)) - 1) ^ 2)) - (c3 * (((sqrt (T / Tc)) - 1) ^ 3))) + 1) ^ 2))))) in
  (a_alpha, da_alpha_dT, d2a_alpha_dT2).

(* thermo/eos_alpha_functions.py, lines 2187-2188: Haghtalab_a_alpha.a_alpha_pure. *)
Definition Haghtalab_a_alpha_pure (T : R) (a : R) (Tc : R) (alpha_coeffs : nat -> R) :=
  (a * (Haghtalab_alpha_pure T Tc (alpha_coeffs 0%nat) (alpha_coeffs 1%nat) (alpha_coeffs 2%nat))).

(* thermo/eos_alpha_functions.py, lines 2162-2185: Haghtalab_a_alpha.a_alpha_and_derivatives_pure. *)
Definition Haghtalab_a_alpha_and_derivatives_pure (T : R) (alpha_coeffs : nat -> R) (Tc : R) (a : R) :=
  let c1 := alpha_coeffs 0%nat in
  let c2 := alpha_coeffs 1%nat in
  let c3 := alpha_coeffs 2%nat in
  let Tc := Tc in
  let a := a in
  let a_alpha := (a * (exp (((- (Rpower c3 (ln (T / Tc)))) + 1) * ((((- T) * c2) / Tc) + c1)))) in
  let da_alpha_dT := (a * (((((- c2) * ((- (Rpower c3 (ln (T / Tc)))) + 1)) / Tc) - ((((Rpower c3 (ln (T / Tc))) * ((((- T) * c2) / Tc) + c1)) * (ln c3)) / T)) * (exp (((- (Rpower c3 (ln (T / Tc)))) + 1) * ((((- T) * c2) / Tc) + c1))))) in
  let d2a_alpha_dT2 := (a * ((((((c2 * ((Rpower c3 (ln (T / Tc))) - 1)) / Tc) + ((((Rpower c3 (ln (T / Tc))) * (((T * c2) / Tc) - c1)) * (ln c3)) / T)) ^ 2) + ((((Rpower c3 (ln (T / Tc))) * ((((2 * c2) / Tc) + (((((T * c2) / Tc) - c1) * (ln c3)) / T)) - ((((T * c2) / Tc) - c1) / T))) * (ln c3)) / T)) * (exp (((Rpower c3 (ln (T / Tc))) - 1) * (((T * c2) / Tc) - c1))))) in
  (a_alpha, da_alpha_dT, d2a_alpha_dT2).

(* thermo/eos_alpha_functions.py, lines 2216-2217: Saffari_a_alpha.a_alpha_pure. *)
Definition Saffari_a_alpha_pure (T : R) (a : R) (Tc : R) (alpha_coeffs : nat -> R) :=
  (a * (Saffari_alpha_pure T Tc (alpha_coeffs 0%nat) (alpha_coeffs 1%nat) (alpha_coeffs 2%nat))).

(* thermo/eos_alpha_functions.py, lines 2192-2214: Saffari_a_alpha.a_alpha_and_derivatives_pure. *)
Definition Saffari_a_alpha_and_derivatives_pure (T : R) (alpha_coeffs : nat -> R) (Tc : R) (a : R) :=
  let c1 := alpha_coeffs 0%nat in
  let c2 := alpha_coeffs 1%nat in
  let c3 := alpha_coeffs 2%nat in
  let Tc := Tc in
  let a := a in
  let a_alpha := (a * (exp ((((T * c1) / Tc) + (c2 * (ln (T / Tc)))) + (c3 * ((- (sqrt (T / Tc))) + 1))))) in
  let da_alpha_dT := (a * ((((c1 / Tc) + (c2 / T)) - ((c3 * (sqrt (T / Tc))) / (2 * T))) * (exp ((((T * c1) / Tc) + (c2 * (ln (T / Tc)))) + (c3 * ((- (sqrt (T / Tc))) + 1)))))) in
  let d2a_alpha_dT2 := (a * ((((((((2 * c1) / Tc) + ((2 * c2) / T)) - ((c3 * (sqrt (T / Tc))) / T)) ^ 2) - (((4 * c2) - (c3 * (sqrt (T / Tc)))) / (T ^ 2))) * (exp ((((T * c1) / Tc) + (c2 * (ln (T / Tc)))) - (c3 * ((sqrt (T / Tc)) - 1))))) / 4)) in
  (a_alpha, da_alpha_dT, d2a_alpha_dT2).

(* thermo/eos_alpha_functions.py, lines 2246-2247: Chen_Yang_a_alpha.a_alpha_pure. *)
Definition Chen_Yang_a_alpha_pure (T : R) (a : R) (Tc : R) (omega : R) (alpha_coeffs : nat -> R) :=
  (a * (Chen_Yang_alpha_pure T Tc omega (alpha_coeffs 0%nat) (alpha_coeffs 1%nat) (alpha_coeffs 2%nat) (alpha_coeffs 3%nat) (alpha_coeffs 4%nat) (alpha_coeffs 5%nat) (alpha_coeffs 6%nat))).

(* thermo/eos_alpha_functions.py, lines 2221-2244: Chen_Yang_a_alpha.a_alpha_and_derivatives_pure. *)
Definition Chen_Yang_a_alpha_and_derivatives_pure (T : R) (alpha_coeffs : nat -> R) (Tc : R) (a : R) (omega : R) :=
  let c1 := alpha_coeffs 0%nat in
  let c2 := alpha_coeffs 1%nat in
  let c3 := alpha_coeffs 2%nat in
  let c4 := alpha_coeffs 3%nat in
  let c5 := alpha_coeffs 4%nat in
  let c6 := alpha_coeffs 5%nat in
  let c7 := alpha_coeffs 6%nat in
  let Tc := Tc in
  let a := a in
  let omega := omega in
  let a_alpha := (a * (exp ((c4 * ((ln ((((- (sqrt (T / Tc))) + 1) * ((c5 + (c6 * omega)) + (c7 * (omega ^ 2)))) + 1)) ^ 2)) + ((((- T) / Tc) + 1) * ((c1 + (c2 * omega)) + (c3 * (omega ^ 2))))))) in
  let da_alpha_dT := ((a * (((- ((c1 + (c2 * omega)) + (c3 * (omega ^ 2)))) / Tc) - ((((c4 * (sqrt (T / Tc))) * ((c5 + (c6 * omega)) + (c7 * (omega ^ 2)))) * (ln ((((- (sqrt (T / Tc))) + 1) * ((c5 + (c6 * omega)) + (c7 * (omega ^ 2)))) + 1))) / (T * ((((- (sqrt (T / Tc))) + 1) * ((c5 + (c6 * omega)) + (c7 * (omega ^ 2)))) + 1))))) * (exp ((c4 * ((ln ((((- (sqrt (T / Tc))) + 1) * ((c5 + (c6 * omega)) + (c7 * (omega ^ 2)))) + 1)) ^ 2)) + ((((- T) / Tc) + 1) * ((c1 + (c2 * omega)) + (c3 * (omega ^ 2))))))) in
  let d2a_alpha_dT2 := ((a * ((((((c1 + (c2 * omega)) + (c3 * (omega ^ 2))) / Tc) - ((((c4 * (sqrt (T / Tc))) * ((c5 + (c6 * omega)) + (c7 * (omega ^ 2)))) * (ln (((- ((sqrt (T / Tc)) - 1)) * ((c5 + (c6 * omega)) + (c7 * (omega ^ 2)))) + 1))) / (T * ((((sqrt (T / Tc)) - 1) * ((c5 + (c6 * omega)) + (c7 * (omega ^ 2)))) - 1)))) ^ 2) - (((c4 * ((c5 + (c6 * omega)) + (c7 * (omega ^ 2)))) * ((((((c5 + (c6 * omega)) + (c7 * (omega ^ 2))) * (ln (((- ((sqrt (T / Tc)) - 1)) * ((c5 + (c6 * omega)) + (c7 * (omega ^ 2)))) + 1))) / (Tc * ((((sqrt (T / Tc)) - 1) * ((c5 + (c6 * omega)) + (c7 * (omega ^ 2)))) - 1))) - (((c5 + (c6 * omega)) + (c7 * (omega ^ 2))) / (Tc * ((((sqrt (T / Tc)) - 1) * ((c5 + (c6 * omega)) + (c7 * (omega ^ 2)))) - 1)))) + (((sqrt (T / Tc)) * (ln (((- ((sqrt (T / Tc)) - 1)) * ((c5 + (c6 * omega)) + (c7 * (omega ^ 2)))) + 1))) / T))) / ((2 * T) * ((((sqrt (T / Tc)) - 1) * ((c5 + (c6 * omega)) + (c7 * (omega ^ 2)))) - 1))))) * (exp ((c4 * ((ln (((- ((sqrt (T / Tc)) - 1)) * ((c5 + (c6 * omega)) + (c7 * (omega ^ 2)))) + 1)) ^ 2)) - (((T / Tc) - 1) * ((c1 + (c2 * omega)) + (c3 * (omega ^ 2))))))) in
  (a_alpha, da_alpha_dT, d2a_alpha_dT2).

(* thermo/eos_alpha_functions.py, lines 2519-2522: Soave_1979_a_alpha.a_alpha_pure. *)
Definition Soave_1979_a_alpha_pure (T : R) (alpha_coeffs : nat -> R) (Tc : R) (a : R) :=
  let M := alpha_coeffs 0%nat in
  let N_ := alpha_coeffs 1%nat in
  let Tc := Tc in
  let a := a in
  (a * (Soave_1979_alpha_pure T Tc M N_)).

(* thermo/eos_alpha_functions.py, lines 2494-2517: Soave_1979_a_alpha.a_alpha_and_derivatives_pure. *)
Definition Soave_1979_a_alpha_and_derivatives_pure (T : R) (alpha_coeffs : nat -> R) (Tc : R) (a : R) :=
  let M := alpha_coeffs 0%nat in
  let N_ := alpha_coeffs 1%nat in
  let Tc := Tc in
  let a := a in
  let T_inv := (1 / T) in
  let x0 := (1 / Tc) in
  let x1 := ((T * x0) - 1) in
  let x2 := (Tc * T_inv) in
  let x3 := (M + (N_ * x2)) in
  let x4 := ((N_ * T_inv) * T_inv) in
  ((a * (1 - (x1 * x3))), (a * (((Tc * x1) * x4) - (x0 * x3))), (a * ((2 * x4) * (1 - (x1 * x2))))).

(* thermo/eos_alpha_functions.py, lines 2524-2531: Soave_1979_a_alpha.a_alphas_vectorized. List form; one append per iteration is an update at the loop index. *)
Definition Soave_1979_a_alphas_vectorized (T : R) (ais : nat -> R) (alpha_coeffs : nat -> nat -> R) (Tcs : nat -> R) (N_ : nat) :=
  let ais := ais in
  let alpha_coeffs := alpha_coeffs in
  let Tcs := Tcs in
  let a_alphas := (fun k_ => match k_ with | _ => 0 end) in
  let a_alphas :=
    loop N_ (fun i a_alphas =>
      let Tr := (T / (Tcs i)) in
      let M := (alpha_coeffs i) 0%nat in
      let N_ := (alpha_coeffs i) 1%nat in
      let a_alphas := upd a_alphas i ((ais i) * (1 + ((1 - Tr) * (M + (N_ / Tr))))) in
      a_alphas
    ) a_alphas in
  a_alphas.

(* thermo/eos_alpha_functions.py, lines 2533-2549: Soave_1979_a_alpha.a_alpha_and_derivatives_vectorized. *)
Definition Soave_1979_a_alpha_and_derivatives_vectorized (T : R) (ais : nat -> R) (alpha_coeffs : nat -> nat -> R) (Tcs : nat -> R) (N_ : nat) :=
  let ais := ais in
  let alpha_coeffs := alpha_coeffs in
  let Tcs := Tcs in
  let T_inv := (1 / T) in
  let a_alphas := (fun k_ => match k_ with | _ => 0 end) in
  let da_alpha_dTs := (fun k_ => match k_ with | _ => 0 end) in
  let d2a_alpha_dT2s := (fun k_ => match k_ with | _ => 0 end) in
  let '(a_alphas, da_alpha_dTs, d2a_alpha_dT2s) :=
    loop N_ (fun i st_ =>
      let '(a_alphas, da_alpha_dTs, d2a_alpha_dT2s) := st_ in
      let a := (ais i) in
      let M := (alpha_coeffs i) 0%nat in
      let N_ := (alpha_coeffs i) 1%nat in
      let x0 := (1 / (Tcs i)) in
      let x1 := ((T * x0) - 1) in
      let x2 := ((Tcs i) * T_inv) in
      let x3 := (M + (N_ * x2)) in
      let x4 := ((N_ * T_inv) * T_inv) in
      let a_alphas := upd a_alphas i (a * (1 - (x1 * x3))) in
      let da_alpha_dTs := upd da_alpha_dTs i (a * ((((Tcs i) * x1) * x4) - (x0 * x3))) in
      let d2a_alpha_dT2s := upd d2a_alpha_dT2s i (a * ((2 * x4) * (1 - (x1 * x2)))) in
      (a_alphas, da_alpha_dTs, d2a_alpha_dT2s)
    ) (a_alphas, da_alpha_dTs, d2a_alpha_dT2s) in
  (a_alphas, da_alpha_dTs, d2a_alpha_dT2s).

(* thermo/eos_alpha_functions.py, lines 1142-1253: TWU_a_alpha_common. method='PR', full=False. *)
Definition TwuPR95_a_alpha_pure (T : R) (Tc : R) (omega : R) (a : R) :=
  let min_a_alpha := (1 / 1000) in
  let Tr := (T / Tc) in
  let '(Tr, T) :=
    if (Rltb Tr (1 / 200)) then
    let Tr := ((1 / 250) + (((Tr - 0) * (1 / 1000)) / (1 / 200))) in
    let T := (Tc * Tr) in
    (Tr, T)
    else
    (Tr, T)
  in
  let '(L0, M0, N0_, L1, M1, N1) :=
    if (Rltb Tr 1) then
    let L0 := (125283 / 1000000) in
    let M0 := (911807 / 1000000) in
    let N0_ := (38963 / 20000) in
    let L1 := (255807 / 500000) in
    let M1 := (392027 / 500000) in
    let N1 := (70313 / 25000) in
    (L0, M0, N0_, L1, M1, N1)
    else
    let L0 := (401219 / 1000000) in
    let M0 := (496307 / 100000) in
    let N0_ := (- (1 / 5)) in
    let L1 := (4991 / 200000) in
    let M1 := (1248089 / 1000000) in
    let N1 := (- 8) in
    (L0, M0, N0_, L1, M1, N1)
  in
  let alpha0 := ((Rpower Tr (N0_ * (M0 - 1))) * (exp (L0 * (1 - (Rpower Tr (N0_ * M0)))))) in
  let alpha1 := ((Rpower Tr (N1 * (M1 - 1))) * (exp (L1 * (1 - (Rpower Tr (N1 * M1)))))) in
  let alpha := (alpha0 + (omega * (alpha1 - alpha0))) in
  let a_alpha := (a * alpha) in
  let a_alpha :=
    if (Rltb a_alpha min_a_alpha) then
    let a_alpha := min_a_alpha in
    a_alpha
    else
    a_alpha
  in
  a_alpha.

(* thermo/eos_alpha_functions.py, lines 1142-1253: TWU_a_alpha_common. method='PR', full=True. *)
Definition TwuPR95_a_alpha_and_derivatives_pure (T : R) (Tc : R) (omega : R) (a : R) :=
  let min_a_alpha := (1 / 1000) in
  let Tr := (T / Tc) in
  let '(Tr, T) :=
    if (Rltb Tr (1 / 200)) then
    let Tr := ((1 / 250) + (((Tr - 0) * (1 / 1000)) / (1 / 200))) in
    let T := (Tc * Tr) in
    (Tr, T)
    else
    (Tr, T)
  in
  let '(L0, M0, N0_, L1, M1, N1) :=
    if (Rltb Tr 1) then
    let L0 := (125283 / 1000000) in
    let M0 := (911807 / 1000000) in
    let N0_ := (38963 / 20000) in
    let L1 := (255807 / 500000) in
    let M1 := (392027 / 500000) in
    let N1 := (70313 / 25000) in
    (L0, M0, N0_, L1, M1, N1)
    else
    let L0 := (401219 / 1000000) in
    let M0 := (496307 / 100000) in
    let N0_ := (- (1 / 5)) in
    let L1 := (4991 / 200000) in
    let M1 := (1248089 / 1000000) in
    let N1 := (- 8) in
    (L0, M0, N0_, L1, M1, N1)
  in
  let x0 := Tr in
  let x1 := (M0 - 1) in
  let x2 := (N0_ * x1) in
  let x3 := (Rpower x0 x2) in
  let x4 := (M0 * N0_) in
  let x5 := (Rpower x0 x4) in
  let x6 := (exp ((- L0) * (x5 - 1))) in
  let x7 := (x3 * x6) in
  let x8 := (M1 - 1) in
  let x9 := (N1 * x8) in
  let x10 := (Rpower x0 x9) in
  let x11 := (M1 * N1) in
  let x12 := (Rpower x0 x11) in
  let x13 := (x2 * x7) in
  let x14 := (((((L0 * M0) * N0_) * x3) * x5) * x6) in
  let x15 := (x13 - x14) in
  let x16 := (exp ((- L1) * (x12 - 1))) in
  let x17 := (((((((((- L1) * M1) * N1) * x10) * x12) * x16) + ((x10 * x16) * x9)) - x13) + x14) in
  let x18 := (N0_ * N0_) in
  let x19 := ((x18 * x3) * x6) in
  let x20 := ((x1 ^ 2) * x19) in
  let x21 := (M0 ^ 2) in
  let x22 := ((((L0 * x18) * x3) * x5) * x6) in
  let x23 := (x21 * x22) in
  let x24 := (((2 * M0) * x1) * x22) in
  let x25 := ((((L0 ^ 2) * (Rpower x0 (2 * x4))) * x19) * x21) in
  let x26 := (N1 ^ 2) in
  let x27 := ((x10 * x16) * x26) in
  let x28 := (M1 ^ 2) in
  let x29 := ((((L1 * x10) * x12) * x16) * x26) in
  let a_alpha := (a * (((- omega) * (((- x10) * (exp (L1 * ((- x12) + 1)))) + (x3 * (exp (L0 * ((- x5) + 1)))))) + x7)) in
  let da_alpha_dT := ((a * ((omega * x17) + x15)) / T) in
  let d2a_alpha_dT2 := (a * ((- ((((((omega * ((((((((((((- (L1 ^ 2)) * (Rpower x0 (2 * x11))) * x27) * x28) + (((2 * M1) * x29) * x8)) + x17) + x20) - x23) - x24) + x25) - (x27 * (x8 ^ 2))) + (x28 * x29))) + x15) - x20) + x23) + x24) - x25)) / (T ^ 2))) in
  let '(a_alpha, da_alpha_dT, d2a_alpha_dT2) :=
    if (Rltb a_alpha min_a_alpha) then
    let a_alpha := min_a_alpha in
    let d2a_alpha_dT2 := 0 in
    let da_alpha_dT := d2a_alpha_dT2 in
    (a_alpha, da_alpha_dT, d2a_alpha_dT2)
    else
    (a_alpha, da_alpha_dT, d2a_alpha_dT2)
  in
  (a_alpha, da_alpha_dT, d2a_alpha_dT2).

(* thermo/eos_alpha_functions.py, lines 1142-1253: TWU_a_alpha_common. method='SRK', full=False. *)
Definition TwuSRK95_a_alpha_pure (T : R) (Tc : R) (omega : R) (a : R) :=
  let min_a_alpha := (1 / 1000) in
  let Tr := (T / Tc) in
  let '(Tr, T) :=
    if (Rltb Tr (1 / 200)) then
    let Tr := ((1 / 250) + (((Tr - 0) * (1 / 1000)) / (1 / 200))) in
    let T := (Tc * Tr) in
    (Tr, T)
    else
    (Tr, T)
  in
  let '(L0, M0, N0_, L1, M1, N1) :=
    if (Rltb Tr 1) then
    let L0 := (141599 / 1000000) in
    let M0 := (459711 / 500000) in
    let N0_ := (2496441 / 1000000) in
    let L1 := (100063 / 200000) in
    let M1 := (799457 / 1000000) in
    let N1 := (329179 / 100000) in
    (L0, M0, N0_, L1, M1, N1)
    else
    let L0 := (441411 / 1000000) in
    let M0 := (3250009 / 500000) in
    let N0_ := (- (1 / 5)) in
    let L1 := (1629 / 50000) in
    let M1 := (644549 / 500000) in
    let N1 := (- 8) in
    (L0, M0, N0_, L1, M1, N1)
  in
  let alpha0 := ((Rpower Tr (N0_ * (M0 - 1))) * (exp (L0 * (1 - (Rpower Tr (N0_ * M0)))))) in
  let alpha1 := ((Rpower Tr (N1 * (M1 - 1))) * (exp (L1 * (1 - (Rpower Tr (N1 * M1)))))) in
  let alpha := (alpha0 + (omega * (alpha1 - alpha0))) in
  let a_alpha := (a * alpha) in
  let a_alpha :=
    if (Rltb a_alpha min_a_alpha) then
    let a_alpha := min_a_alpha in
    a_alpha
    else
    a_alpha
  in
  a_alpha.

(* thermo/eos_alpha_functions.py, lines 1142-1253: TWU_a_alpha_common. method='SRK', full=True. *)
Definition TwuSRK95_a_alpha_and_derivatives_pure (T : R) (Tc : R) (omega : R) (a : R) :=
  let min_a_alpha := (1 / 1000) in
  let Tr := (T / Tc) in
  let '(Tr, T) :=
    if (Rltb Tr (1 / 200)) then
    let Tr := ((1 / 250) + (((Tr - 0) * (1 / 1000)) / (1 / 200))) in
    let T := (Tc * Tr) in
    (Tr, T)
    else
    (Tr, T)
  in
  let '(L0, M0, N0_, L1, M1, N1) :=
    if (Rltb Tr 1) then
    let L0 := (141599 / 1000000) in
    let M0 := (459711 / 500000) in
    let N0_ := (2496441 / 1000000) in
    let L1 := (100063 / 200000) in
    let M1 := (799457 / 1000000) in
    let N1 := (329179 / 100000) in
    (L0, M0, N0_, L1, M1, N1)
    else
    let L0 := (441411 / 1000000) in
    let M0 := (3250009 / 500000) in
    let N0_ := (- (1 / 5)) in
    let L1 := (1629 / 50000) in
    let M1 := (644549 / 500000) in
    let N1 := (- 8) in
    (L0, M0, N0_, L1, M1, N1)
  in
  let x0 := Tr in
  let x1 := (M0 - 1) in
  let x2 := (N0_ * x1) in
  let x3 := (Rpower x0 x2) in
  let x4 := (M0 * N0_) in
  let x5 := (Rpower x0 x4) in
  let x6 := (exp ((- L0) * (x5 - 1))) in
  let x7 := (x3 * x6) in
  let x8 := (M1 - 1) in
  let x9 := (N1 * x8) in
  let x10 := (Rpower x0 x9) in
  let x11 := (M1 * N1) in
  let x12 := (Rpower x0 x11) in
  let x13 := (x2 * x7) in
  let x14 := (((((L0 * M0) * N0_) * x3) * x5) * x6) in
  let x15 := (x13 - x14) in
  let x16 := (exp ((- L1) * (x12 - 1))) in
  let x17 := (((((((((- L1) * M1) * N1) * x10) * x12) * x16) + ((x10 * x16) * x9)) - x13) + x14) in
  let x18 := (N0_ * N0_) in
  let x19 := ((x18 * x3) * x6) in
  let x20 := ((x1 ^ 2) * x19) in
  let x21 := (M0 ^ 2) in
  let x22 := ((((L0 * x18) * x3) * x5) * x6) in
  let x23 := (x21 * x22) in
  let x24 := (((2 * M0) * x1) * x22) in
  let x25 := ((((L0 ^ 2) * (Rpower x0 (2 * x4))) * x19) * x21) in
  let x26 := (N1 ^ 2) in
  let x27 := ((x10 * x16) * x26) in
  let x28 := (M1 ^ 2) in
  let x29 := ((((L1 * x10) * x12) * x16) * x26) in
  let a_alpha := (a * (((- omega) * (((- x10) * (exp (L1 * ((- x12) + 1)))) + (x3 * (exp (L0 * ((- x5) + 1)))))) + x7)) in
  let da_alpha_dT := ((a * ((omega * x17) + x15)) / T) in
  let d2a_alpha_dT2 := (a * ((- ((((((omega * ((((((((((((- (L1 ^ 2)) * (Rpower x0 (2 * x11))) * x27) * x28) + (((2 * M1) * x29) * x8)) + x17) + x20) - x23) - x24) + x25) - (x27 * (x8 ^ 2))) + (x28 * x29))) + x15) - x20) + x23) + x24) - x25)) / (T ^ 2))) in
  let '(a_alpha, da_alpha_dT, d2a_alpha_dT2) :=
    if (Rltb a_alpha min_a_alpha) then
    let a_alpha := min_a_alpha in
    let d2a_alpha_dT2 := 0 in
    let da_alpha_dT := d2a_alpha_dT2 in
    (a_alpha, da_alpha_dT, d2a_alpha_dT2)
    else
    (a_alpha, da_alpha_dT, d2a_alpha_dT2)
  in
  (a_alpha, da_alpha_dT, d2a_alpha_dT2).

(* thermo/eos_alpha_functions.py, lines 230-280: PR_a_alphas_vectorized. *)
Definition PR_a_alphas_vectorized (T : R) (Tcs : nat -> R) (ais : nat -> R) (kappas : nat -> R) (a_alphas : nat -> R) (N_ : nat) :=
  let N_ := N_ in
  let x0_inv := (1 / (sqrt T)) in
  let x0 := (T * x0_inv) in
  let a_alphas :=
    loop N_ (fun i a_alphas =>
      let x1 := (1 / (sqrt (Tcs i))) in
      let x2 := (((kappas i) * ((x0 * x1) - 1)) - 1) in
      let a_alphas := upd a_alphas i (((ais i) * x2) * x2) in
      a_alphas
    ) a_alphas in
  a_alphas.

(* thermo/eos_alpha_functions.py, lines 282-358: PR_a_alpha_and_derivatives_vectorized. *)
Definition PR_a_alpha_and_derivatives_vectorized (T : R) (Tcs : nat -> R) (ais : nat -> R) (kappas : nat -> R) (a_alphas : nat -> R) (da_alpha_dTs : nat -> R) (d2a_alpha_dT2s : nat -> R) (N_ : nat) :=
  let N_ := N_ in
  let x0_inv := (1 / (sqrt T)) in
  let x0 := (T * x0_inv) in
  let T_inv := (x0_inv * x0_inv) in
  let x0T_inv := (x0_inv * T_inv) in
  let x5 := ((1 / 2) * T_inv) in
  let x6 := ((1 / 2) * x0T_inv) in
  let '(a_alphas, da_alpha_dTs, d2a_alpha_dT2s) :=
    loop N_ (fun i st_ =>
      let '(a_alphas, da_alpha_dTs, d2a_alpha_dT2s) := st_ in
      let x1 := (1 / (sqrt (Tcs i))) in
      let x2 := (((kappas i) * ((x0 * x1) - 1)) - 1) in
      let x3 := ((ais i) * (kappas i)) in
      let x4 := (x1 * x2) in
      let a_alphas := upd a_alphas i (((ais i) * x2) * x2) in
      let da_alpha_dTs := upd da_alpha_dTs i ((x4 * x3) * x0_inv) in
      let d2a_alpha_dT2s := upd d2a_alpha_dT2s i (x3 * ((((x5 * x1) * x1) * (kappas i)) - (x4 * x6))) in
      (a_alphas, da_alpha_dTs, d2a_alpha_dT2s)
    ) (a_alphas, da_alpha_dTs, d2a_alpha_dT2s) in
  (a_alphas, da_alpha_dTs, d2a_alpha_dT2s).

(* thermo/eos_alpha_functions.py, lines 360-406: SRK_a_alphas_vectorized. *)
Definition SRK_a_alphas_vectorized (T : R) (Tcs : nat -> R) (ais : nat -> R) (ms : nat -> R) (a_alphas : nat -> R) (N_ : nat) :=
  let sqrtT := (sqrt T) in
  let N_ := N_ in
  let a_alphas :=
    loop N_ (fun i a_alphas =>
      let x0 := (((ms i) * (1 - (sqrtT / (sqrt (Tcs i))))) + 1) in
      let a_alphas := upd a_alphas i (((ais i) * x0) * x0) in
      a_alphas
    ) a_alphas in
  a_alphas.

(* thermo/eos_alpha_functions.py, lines 408-485: SRK_a_alpha_and_derivatives_vectorized. *)
Definition SRK_a_alpha_and_derivatives_vectorized (T : R) (Tcs : nat -> R) (ais : nat -> R) (ms : nat -> R) (a_alphas : nat -> R) (da_alpha_dTs : nat -> R) (d2a_alpha_dT2s : nat -> R) (N_ : nat) :=
  let N_ := N_ in
  let sqrtnT := (1 / (sqrt T)) in
  let sqrtT := (T * sqrtnT) in
  let T_inv := (sqrtnT * sqrtnT) in
  let x10 := (((1 / 2) * T_inv) * T_inv) in
  let nT_inv := (- T_inv) in
  let '(a_alphas, da_alpha_dTs, d2a_alpha_dT2s) :=
    loop N_ (fun i st_ =>
      let '(a_alphas, da_alpha_dTs, d2a_alpha_dT2s) := st_ in
      let x1 := (sqrtT / (sqrt (Tcs i))) in
      let x2 := (((ais i) * (ms i)) * x1) in
      let x3 := (((ms i) * (1 - x1)) + 1) in
      let a_alphas := upd a_alphas i (((ais i) * x3) * x3) in
      let da_alpha_dTs := upd da_alpha_dTs i ((x2 * nT_inv) * x3) in
      let d2a_alpha_dT2s := upd d2a_alpha_dT2s i ((x2 * x10) * ((ms i) + 1)) in
      (a_alphas, da_alpha_dTs, d2a_alpha_dT2s)
    ) (a_alphas, da_alpha_dTs, d2a_alpha_dT2s) in
  (a_alphas, da_alpha_dTs, d2a_alpha_dT2s).

(* thermo/eos_alpha_functions.py, lines 487-525: RK_a_alphas_vectorized. *)
Definition RK_a_alphas_vectorized (T : R) (Tcs : nat -> R) (ais : nat -> R) (a_alphas : nat -> R) (N_ : nat) :=
  let N_ := N_ in
  let T_root_inv := (1 / (sqrt T)) in
  let a_alphas :=
    loop N_ (fun i a_alphas =>
      let a_alphas := upd a_alphas i (((ais i) * (sqrt (Tcs i))) * T_root_inv) in
      a_alphas
    ) a_alphas in
  a_alphas.

(* thermo/eos_alpha_functions.py, lines 527-593: RK_a_alpha_and_derivatives_vectorized. *)
Definition RK_a_alpha_and_derivatives_vectorized (T : R) (Tcs : nat -> R) (ais : nat -> R) (a_alphas : nat -> R) (da_alpha_dTs : nat -> R) (d2a_alpha_dT2s : nat -> R) (N_ : nat) :=
  let N_ := N_ in
  let T_root_inv := (1 / (sqrt T)) in
  let T_inv := (T_root_inv * T_root_inv) in
  let T_15_inv := (T_inv * T_root_inv) in
  let T_25_inv := (T_inv * T_15_inv) in
  let x0 := ((- (1 / 2)) * T_15_inv) in
  let x1 := ((3 / 4) * T_25_inv) in
  let '(a_alphas, da_alpha_dTs, d2a_alpha_dT2s) :=
    loop N_ (fun i st_ =>
      let '(a_alphas, da_alpha_dTs, d2a_alpha_dT2s) := st_ in
      let Tc_05 := (sqrt (Tcs i)) in
      let aiTc_05 := ((ais i) * Tc_05) in
      let a_alphas := upd a_alphas i (aiTc_05 * T_root_inv) in
      let da_alpha_dTs := upd da_alpha_dTs i (aiTc_05 * x0) in
      let d2a_alpha_dT2s := upd d2a_alpha_dT2s i (aiTc_05 * x1) in
      (a_alphas, da_alpha_dTs, d2a_alpha_dT2s)
    ) (a_alphas, da_alpha_dTs, d2a_alpha_dT2s) in
  (a_alphas, da_alpha_dTs, d2a_alpha_dT2s).

(* thermo/eos_alpha_functions.py, lines 595-648: PRSV_a_alphas_vectorized. *)
Definition PRSV_a_alphas_vectorized (T : R) (Tcs : nat -> R) (ais : nat -> R) (kappa0s : nat -> R) (kappa1s : nat -> R) (a_alphas : nat -> R) (N_ : nat) :=
  let sqrtT := (sqrt T) in
  let N_ := N_ in
  let a_alphas :=
    loop N_ (fun i a_alphas =>
      let Tc_inv_root := (1 / (sqrt (Tcs i))) in
      let Tc_inv := (Tc_inv_root * Tc_inv_root) in
      let x0 := (Tc_inv_root * sqrtT) in
      let x2 := (1 + (((kappa0s i) + (((kappa1s i) * (x0 + 1)) * ((7 / 10) - (T * Tc_inv)))) * (1 - x0))) in
      let a_alphas := upd a_alphas i (((ais i) * x2) * x2) in
      a_alphas
    ) a_alphas in
  a_alphas.

(* thermo/eos_alpha_functions.py, lines 650-774: PRSV_a_alpha_and_derivatives_vectorized. *)
Definition PRSV_a_alpha_and_derivatives_vectorized (T : R) (Tcs : nat -> R) (ais : nat -> R) (kappa0s : nat -> R) (kappa1s : nat -> R) (a_alphas : nat -> R) (da_alpha_dTs : nat -> R) (d2a_alpha_dT2s : nat -> R) (N_ : nat) :=
  let sqrtT := (sqrt T) in
  let T_inv := (1 / T) in
  let N_ := N_ in
  let '(a_alphas, da_alpha_dTs, d2a_alpha_dT2s) :=
    loop N_ (fun i st_ =>
      let '(a_alphas, da_alpha_dTs, d2a_alpha_dT2s) := st_ in
      let Tc_inv_root := (1 / (sqrt (Tcs i))) in
      let Tc_inv := (Tc_inv_root * Tc_inv_root) in
      let x1 := (T * Tc_inv) in
      let x2 := (sqrtT * Tc_inv_root) in
      let x3 := (x2 - 1) in
      let x4 := ((10 * x1) - 7) in
      let x5 := (x2 + 1) in
      let x6 := ((10 * (kappa0s i)) - (((kappa1s i) * x4) * x5)) in
      let x7 := (x3 * x6) in
      let x8 := ((x7 * (1 / 10)) - 1) in
      let x10 := (x6 * T_inv) in
      let x11 := ((kappa1s i) * x3) in
      let x12 := (x4 * T_inv) in
      let x13 := (((20 * Tc_inv) * x5) + (x12 * x2)) in
      let x14 := (((- x10) * x2) + (x11 * x13)) in
      let a_alpha := (((ais i) * x8) * x8) in
      let da_alpha_dT := ((((- (ais i)) * x14) * x8) * (1 / 10)) in
      let d2a_alpha_dT2 := (((ais i) * (1 / 200)) * ((x14 * x14) - (((x2 * T_inv) * (x7 - 10)) * ((((2 * (kappa1s i)) * x13) + x10) + (x11 * ((40 * Tc_inv) - x12)))))) in
      let a_alphas := upd a_alphas i a_alpha in
      let da_alpha_dTs := upd da_alpha_dTs i da_alpha_dT in
      let d2a_alpha_dT2s := upd d2a_alpha_dT2s i d2a_alpha_dT2 in
      (a_alphas, da_alpha_dTs, d2a_alpha_dT2s)
    ) (a_alphas, da_alpha_dTs, d2a_alpha_dT2s) in
  (a_alphas, da_alpha_dTs, d2a_alpha_dT2s).

(* thermo/eos_alpha_functions.py, lines 776-833: PRSV2_a_alphas_vectorized. *)
Definition PRSV2_a_alphas_vectorized (T : R) (Tcs : nat -> R) (ais : nat -> R) (kappa0s : nat -> R) (kappa1s : nat -> R) (kappa2s : nat -> R) (kappa3s : nat -> R) (a_alphas : nat -> R) (N_ : nat) :=
  let sqrtT := (sqrt T) in
  let N_ := N_ in
  let a_alphas :=
    loop N_ (fun i a_alphas =>
      let Tc_inv_root := (1 / (sqrt (Tcs i))) in
      let Tr_sqrt := (sqrtT * Tc_inv_root) in
      let Tr := ((T * Tc_inv_root) * Tc_inv_root) in
      let kappa := ((kappa0s i) + ((((kappa1s i) + (((kappa2s i) * ((kappa3s i) - Tr)) * (1 - Tr_sqrt))) * (1 + Tr_sqrt)) * ((7 / 10) - Tr))) in
      let x0 := (1 + (kappa * (1 - Tr_sqrt))) in
      let a_alphas := upd a_alphas i (((ais i) * x0) * x0) in
      a_alphas
    ) a_alphas in
  a_alphas.

(* thermo/eos_alpha_functions.py, lines 835-1008: PRSV2_a_alpha_and_derivatives_vectorized. *)
Definition PRSV2_a_alpha_and_derivatives_vectorized (T : R) (Tcs : nat -> R) (ais : nat -> R) (kappa0s : nat -> R) (kappa1s : nat -> R) (kappa2s : nat -> R) (kappa3s : nat -> R) (a_alphas : nat -> R) (da_alpha_dTs : nat -> R) (d2a_alpha_dT2s : nat -> R) (N_ : nat) :=
  let sqrtT := (sqrt T) in
  let T_inv := (1 / T) in
  let N_ := N_ in
  let '(a_alphas, da_alpha_dTs, d2a_alpha_dT2s) :=
    loop N_ (fun i st_ =>
      let '(a_alphas, da_alpha_dTs, d2a_alpha_dT2s) := st_ in
      let Tc_inv_root := (1 / (sqrt (Tcs i))) in
      let Tc_inv := (Tc_inv_root * Tc_inv_root) in
      let x1 := (T * Tc_inv) in
      let x2 := (sqrtT * Tc_inv_root) in
      let x3 := (x2 - 1) in
      let x4 := (x2 + 1) in
      let x5 := ((10 * x1) - 7) in
      let x6 := ((- (kappa3s i)) + x1) in
      let x7 := ((kappa1s i) + (((kappa2s i) * x3) * x6)) in
      let x8 := (x5 * x7) in
      let x9 := ((10 * (kappa0s i)) - (x4 * x8)) in
      let x10 := (x3 * x9) in
      let x11 := ((x10 * (1 / 10)) - 1) in
      let x13 := (x2 * T_inv) in
      let x14 := (x7 * Tc_inv) in
      let x15 := (((kappa2s i) * x4) * x5) in
      let x16 := (((2 * ((- x2) + 1)) * Tc_inv) + (x13 * ((kappa3s i) - x1))) in
      let x17 := ((((- x13) * x8) - (x14 * ((20 * x2) + 20))) + (x15 * x16)) in
      let x18 := ((x13 * x9) + (x17 * x3)) in
      let x19 := ((x2 * T_inv) * T_inv) in
      let x20 := ((2 * x2) * T_inv) in
      let a_alpha := (((ais i) * x11) * x11) in
      let da_alpha_dT := ((((ais i) * x11) * x18) * (1 / 10)) in
      let d2a_alpha_dT2 := (((ais i) * ((x18 * x18) + ((x10 - 10) * (((x17 * x20) - (x19 * x9)) + (x3 * ((((((((40 * (kappa2s i)) * Tc_inv) * x16) * x4) + ((((kappa2s i) * x16) * x20) * x5)) - (((40 * T_inv) * x14) * x2)) - (((x15 * T_inv) * x2) * ((4 * Tc_inv) - (x6 * T_inv)))) + (x19 * x8))))))) * (1 / 200)) in
      let a_alphas := upd a_alphas i a_alpha in
      let da_alpha_dTs := upd da_alpha_dTs i da_alpha_dT in
      let d2a_alpha_dT2s := upd d2a_alpha_dT2s i d2a_alpha_dT2 in
      (a_alphas, da_alpha_dTs, d2a_alpha_dT2s)
    ) (a_alphas, da_alpha_dTs, d2a_alpha_dT2s) in
  (a_alphas, da_alpha_dTs, d2a_alpha_dT2s).

(* thermo/eos_alpha_functions.py, lines 1010-1057: APISRK_a_alphas_vectorized. *)
Definition APISRK_a_alphas_vectorized (T : R) (Tcs : nat -> R) (ais : nat -> R) (S1s : nat -> R) (S2s : nat -> R) (a_alphas : nat -> R) (N_ : nat) :=
  let N_ := N_ in
  let sqrtT := (sqrt T) in
  let a_alphas :=
    loop N_ (fun i a_alphas =>
      let rtTr := (1 / (sqrt (Tcs i))) in
      let x0 := (((- rtTr) * sqrtT) + 1) in
      let x1 := (1 / (rtTr * sqrtT)) in
      let x2 := ((((S1s i) * x0) + (((S2s i) * x0) * x1)) + 1) in
      let a_alphas := upd a_alphas i (((ais i) * x2) * x2) in
      a_alphas
    ) a_alphas in
  a_alphas.

(* thermo/eos_alpha_functions.py, lines 1059-1140: APISRK_a_alpha_and_derivatives_vectorized. *)
Definition APISRK_a_alpha_and_derivatives_vectorized (T : R) (Tcs : nat -> R) (ais : nat -> R) (S1s : nat -> R) (S2s : nat -> R) (a_alphas : nat -> R) (da_alpha_dTs : nat -> R) (d2a_alpha_dT2s : nat -> R) (N_ : nat) :=
  let N_ := N_ in
  let T_inv := (1 / T) in
  let c0 := ((T_inv * T_inv) * (1 / 2)) in
  let '(a_alphas, da_alpha_dTs, d2a_alpha_dT2s) :=
    loop N_ (fun i st_ =>
      let '(a_alphas, da_alpha_dTs, d2a_alpha_dT2s) := st_ in
      let x0 := (sqrt (T / (Tcs i))) in
      let x1 := (x0 - 1) in
      let x2 := (x1 / x0) in
      let x3 := ((S2s i) * x2) in
      let x4 := ((((S1s i) * x1) + x3) - 1) in
      let x5 := ((S1s i) * x0) in
      let x6 := (((S2s i) - x3) + x5) in
      let x7 := (3 * (S2s i)) in
      let a_alphas := upd a_alphas i (((ais i) * x4) * x4) in
      let da_alpha_dTs := upd da_alpha_dTs i ((((ais i) * x4) * x6) * T_inv) in
      let d2a_alpha_dT2s := upd d2a_alpha_dT2s i (((ais i) * (((- x4) * ((((- x2) * x7) + x5) + x7)) + (x6 * x6))) * c0) in
      (a_alphas, da_alpha_dTs, d2a_alpha_dT2s)
    ) (a_alphas, da_alpha_dTs, d2a_alpha_dT2s) in
  (a_alphas, da_alpha_dTs, d2a_alpha_dT2s).
