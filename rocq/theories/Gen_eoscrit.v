(* Critical constants, constructors and discriminant (thermo/eos.py)
   Generated by tools/py2v.py from the text of /repo; do not edit by hand. *)
From Coq Require Import Reals Lra Lia Arith Bool.
From Verif Require Import Base.
Open Scope R_scope.
Open Scope bool_scope.

(* thermo/eos.py, line 9143: VDW.c1 = 27.0/64.0 (full decimal literal; CPython rounds it to a double) *)
Definition VDW_c1 : R := 27 / 64.

(* thermo/eos.py, line 9144: VDW.c2 = 1.0/8.0 (full decimal literal; CPython rounds it to a double) *)
Definition VDW_c2 : R := 1 / 8.

(* thermo/eos.py, line 9140: VDW.Zc = 3.0/8. (full decimal literal; CPython rounds it to a double) *)
Definition VDW_Zc : R := 3 / 8.

(* thermo/eos.py, line 9449: RK.c1 = 0.4274802335403414043909906940611707345513 (full decimal literal; CPython rounds it to a double) *)
Definition RK_c1 : R := 4274802335403414043909906940611707345513 / 10000000000000000000000000000000000000000.

(* thermo/eos.py, line 9451: RK.c2 = 0.08664034996495772158907020242607611685675 (full decimal literal; CPython rounds it to a double) *)
Definition RK_c2 : R := 8664034996495772158907020242607611685675 / 100000000000000000000000000000000000000000.

(* thermo/eos.py, line 9458: RK.Zc = 1.0/3. (full decimal literal; CPython rounds it to a double) *)
Definition RK_Zc : R := 1 / 3.

(* thermo/eos.py, line 9773: SRK.c1 = 0.4274802335403414043909906940611707345513 (full decimal literal; CPython rounds it to a double) *)
Definition SRK_c1 : R := 4274802335403414043909906940611707345513 / 10000000000000000000000000000000000000000.

(* thermo/eos.py, line 9777: SRK.c2 = 0.08664034996495772158907020242607611685675 (full decimal literal; CPython rounds it to a double) *)
Definition SRK_c2 : R := 8664034996495772158907020242607611685675 / 100000000000000000000000000000000000000000.

(* thermo/eos.py, line 9786: SRK.Zc = 1/3. (full decimal literal; CPython rounds it to a double) *)
Definition SRK_Zc : R := 1 / 3.

(* thermo/eos.py, line 7418: PR.c1 = 0.4572355289213821893834601962251837888504 (full decimal literal; CPython rounds it to a double) *)
Definition PR_c1 : R := 4572355289213821893834601962251837888504 / 10000000000000000000000000000000000000000.

(* thermo/eos.py, line 7423: PR.c2 = 0.0777960739038884559718447100373331839711 (full decimal literal; CPython rounds it to a double) *)
Definition PR_c2 : R := 777960739038884559718447100373331839711 / 10000000000000000000000000000000000000000.

(* thermo/eos.py, line 7430: PR.Zc = 0.3074013086987038480093850966542222720096 (full decimal literal; CPython rounds it to a double) *)
Definition PR_Zc : R := 3074013086987038480093850966542222720096 / 10000000000000000000000000000000000000000.

(* thermo/eos.py, lines 7490-7493: PR.__init__. (assignments of a, b, delta, epsilon) *)
Definition PR_init (Tc : R) (Pc : R) :=
  let b := (((PR_c2 * Rgas) * Tc) / Pc) in
  let a := ((b * Tc) * (PR_c1 * (Rgas * Rgas) / (PR_c2 * Rgas))) in
  let delta := (2 * b) in
  let epsilon_ := ((- b) * b) in
  (a, b, delta, epsilon_).

(* thermo/eos.py, lines 8148-8166: PRTranslated.__init__. (assignments of a, b, delta, epsilon) *)
Definition PRTranslated_init (Tc : R) (Pc : R) (c : R) :=
  let Pc_inv := (1 / Pc) in
  let a := ((((PR_c1 * (Rgas * Rgas)) * Tc) * Tc) * Pc_inv) in
  let b0 := (((PR_c2 * Rgas) * Tc) * Pc_inv) in
  let b := (b0 - c) in
  let delta := (2 * (c + b0)) in
  let epsilon_ := ((((- b0) * b0) + (c * c)) + ((2 * c) * b0)) in
  (a, b, delta, epsilon_).

(* thermo/eos.py, lines 9193-9195: VDW.__init__. (a, b; delta = epsilon = 0.0 are class attributes, lines 9134-9137) *)
Definition VDW_init (Tc : R) (Pc : R) :=
  let Tc_Pc := (Tc / Pc) in
  let a := ((((27 / 64) * (Rgas * Rgas)) * Tc) * Tc_Pc) in
  let b := (((1 / 8) * Rgas) * Tc_Pc) in
  (a, b, 0, 0).

(* thermo/eos.py, lines 9506-9507: RK.__init__. (a, b, delta; epsilon = 0.0 is a class attribute, line 9454) *)
Definition RK_init (Tc : R) (Pc : R) :=
  let a := ((((RK_c1 * (Rgas * Rgas)) * Tc) * Tc) / Pc) in
  let b := (((RK_c2 * Rgas) * Tc) / Pc) in
  let delta := b in
  (a, b, delta, 0).

(* thermo/eos.py, lines 9836-9839: SRK.__init__. (a, b, delta; epsilon = 0.0 is a class attribute, line 9784) *)
Definition SRK_init (Tc : R) (Pc : R) :=
  let a := (((((SRK_c1 * Rgas) * Rgas) * Tc) * Tc) / Pc) in
  let b := (((SRK_c2 * Rgas) * Tc) / Pc) in
  let delta := b in
  (a, b, delta, 0).

(* thermo/eos.py, lines 10124-10143: SRKTranslated.__init__. (assignments of a, b, delta, epsilon) *)
Definition SRKTranslated_init (Tc : R) (Pc : R) (c : R) :=
  let Pc_inv := (1 / Pc) in
  let a := (((((SRK_c1 * Rgas) * Rgas) * Tc) * Tc) * Pc_inv) in
  let b0 := (((SRK_c2 * Rgas) * Tc) * Pc_inv) in
  let b := (b0 - c) in
  let delta := ((c + c) + b0) in
  let epsilon_ := (c * (b0 + c)) in
  (a, b, delta, epsilon_).

(* thermo/eos.py, lines 10253-10263: MSRKTranslated.__init__. (assignments of a, b, delta, epsilon) *)
Definition MSRKTranslated_init (Tc : R) (Pc : R) (c : R) :=
  let Pc_inv := (1 / Pc) in
  let a := (((((SRK_c1 * Rgas) * Rgas) * Tc) * Tc) * Pc_inv) in
  let b0 := (((SRK_c2 * Rgas) * Tc) * Pc_inv) in
  let b := (b0 - c) in
  let delta := ((c + c) + b0) in
  let epsilon_ := (c * (b0 + c)) in
  (a, b, delta, epsilon_).

(* thermo/eos.py, lines 3843-3945: GCEOS.discriminant. (T, P given; a_alpha is the value a_alpha(T) at the requested T; T_self is the attribute self.T) *)
Definition eos_discriminant (T : R) (P : R) (a_alpha : R) (T_self : R) (b : R) (epsilon_ : R) (delta : R) :=
  let a_alpha := a_alpha in
  let RT := (Rgas * T_self) in
  let RT6 := (RT * RT) in
  let RT6 := (RT6 * (RT6 * RT6)) in
  let x0 := (P * P) in
  let x1 := ((P * b) + RT) in
  let x2 := ((a_alpha * b) + (epsilon_ * x1)) in
  let x3 := (P * epsilon_) in
  let x4 := (delta * x1) in
  let x5 := (((- P) * delta) + x1) in
  let x6 := ((a_alpha + x3) - x4) in
  let x2_2 := (x2 * x2) in
  let x5_2 := (x5 * x5) in
  let x6_2 := (x6 * x6) in
  let x7 := (((- a_alpha) - x3) + x4) in
  ((x0 * ((((((((18 * P) * x2) * x5) * x6) + ((((4 * P) * x7) * x7) * x7)) - ((27 * x0) * x2_2)) - (((4 * x2) * x5_2) * x5)) + (x5_2 * x6_2))) / RT6).
