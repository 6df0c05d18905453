(* The virial coefficient model VirialCSP with its caches, and the states of a VirialGas phase (thermo/phases/virial_phase.py). *)
From Coq Require Import Reals Arith List Bool.
From Verif Require Import Base Gen_uniquac Gen_activity Gen_virial.
Import ListNotations.
Open Scope R_scope.

(* thermo/phases/virial_phase.py, lines 81-118: the names of the models *)
Inductive B_model_name := B_ZERO | B_PITZER_CURL | B_ABBOTT | B_TSONOPOULOS | B_TSONOPOULOS_EXTENDED | B_OCONNELL_PRAUSNITZ | B_XIANG | B_MENG.
Inductive C_model_name := C_ZERO | C_XIANG | C_ORBEY_VERA.
Inductive cross_name := TARAKAD_DANNER | ZEROS.
Definition is_B_ZERO (m : B_model_name) : bool := match m with B_ZERO => true | _ => false end.
Definition is_C_ZERO (m : C_model_name) : bool := match m with C_ZERO => true | _ => false end.

(* The four lists a coefficient function returns: values and first, second and third temperature derivatives, by component
   (vec, index i) or pair of components (mat, indices i j). *)
Definition vecs := nat -> nat -> R.
Definition mats := nat -> nat -> nat -> R.

(* The parameters of a VirialCSP (lines 359-444), of which only the functions of temperature they give through the external functions
   of chemicals.virial are kept: B*_vec(T, Tcs, ...), B*_mat(T, Tcijs, ...) of each named model, and the same for C. Simplification:
   Tcijs, Pcijs, Vcijs and omegaijs are external functions of the parameters (lines 428-436) and are not modelled. *)
Record csp_params := { B_model : B_model_name; C_model : C_model_name; cross_B_model : cross_name; cross_C_model : cross_name;
  ext_B_vec : B_model_name -> R -> vecs; ext_B_mat : B_model_name -> R -> mats; ext_C_vec : C_model_name -> R -> vecs; ext_C_mat : C_model_name -> R -> mats }.
(* lines 345-357 and 543-603, 766-782: T and the lists stored by _set_B_and_der_pure, _set_B_and_der_interactions, _set_C_and_der_pure and
   _set_C_and_der_interactions (None: the flag pure_B_calculated, cross_B_calculated, ... is False) *)
Record csp := { cspT : R; par : csp_params; pure_B : option vecs; cross_B : option mats; pure_C : option vecs; cross_C : option mats }.
(* lines 359-444: __init__; the flags are the class attributes, False *)
Definition csp_init (p : csp_params) (T : R) : csp := {| cspT := T; par := p; pure_B := None; cross_B := None; pure_C := None; cross_C := None |}.
(* lines 446-495: to copies the parameters and not the lists *)
Definition csp_to (m : csp) (T : R) : csp := {| cspT := T; par := par m; pure_B := None; cross_B := None; pure_C := None; cross_C := None |}.

(* lines 499-540: B_interactions_at_T *)
Definition B_interactions_at_T (m : csp) (T : R) : mats := if is_B_ZERO (B_model (par m)) then fun _ _ _ => 0 else ext_B_mat (par m) (B_model (par m)) T.
(* lines 553-594: B_pures_at_T *)
Definition B_pures_at_T (m : csp) (T : R) : vecs := if is_B_ZERO (B_model (par m)) then fun _ _ => 0 else ext_B_vec (par m) (B_model (par m)) T.
(* lines 715-739: C_interactions_at_T *)
Definition C_interactions_at_T (m : csp) (T : R) : mats := if is_C_ZERO (C_model (par m)) then fun _ _ _ => 0 else ext_C_mat (par m) (C_model (par m)) T.
(* lines 741-763: C_pures_at_T *)
Definition C_pures_at_T (m : csp) (T : R) : vecs := if is_C_ZERO (C_model (par m)) then fun _ _ => 0 else ext_C_vec (par m) (C_model (par m)) T.

(* lines 596-658: B_pures, dB_dT_pures, d2B_dT2_pures, d3B_dT3_pures (the list number d), with the state they leave *)
Definition read_pure_B (d : nat) (m : csp) : csp * (nat -> R) :=
  match pure_B m with
  | Some l => (m, l d)
  | None => let l := B_pures_at_T m (cspT m) in ({| cspT := cspT m; par := par m; pure_B := Some l; cross_B := cross_B m; pure_C := pure_C m; cross_C := cross_C m |}, l d)
  end.
(* lines 543-550 and 660-713: B_interactions, dB_dT_interactions, d2B_dT2_interactions, d3B_dT3_interactions *)
Definition read_cross_B (d : nat) (m : csp) : csp * (nat -> nat -> R) :=
  match cross_B m with
  | Some l => (m, l d)
  | None => let l := B_interactions_at_T m (cspT m) in ({| cspT := cspT m; par := par m; pure_B := pure_B m; cross_B := Some l; pure_C := pure_C m; cross_C := cross_C m |}, l d)
  end.
(* lines 766-773 and 784-837: C_pures, dC_dT_pures, d2C_dT2_pures, d3C_dT3_pures *)
Definition read_pure_C (d : nat) (m : csp) : csp * (nat -> R) :=
  match pure_C m with
  | Some l => (m, l d)
  | None => let l := C_pures_at_T m (cspT m) in ({| cspT := cspT m; par := par m; pure_B := pure_B m; cross_B := cross_B m; pure_C := Some l; cross_C := cross_C m |}, l d)
  end.
(* lines 775-782 and 839-895: C_interactions, dC_dT_interactions, d2C_dT2_interactions, d3C_dT3_interactions *)
Definition read_cross_C (d : nat) (m : csp) : csp * (nat -> nat -> R) :=
  match cross_C m with
  | Some l => (m, l d)
  | None => let l := C_interactions_at_T m (cspT m) in ({| cspT := cspT m; par := par m; pure_B := pure_B m; cross_B := cross_B m; pure_C := pure_C m; cross_C := Some l |}, l d)
  end.

(* chemicals.virial, the mixing rule of Orentlicher and Prausnitz and its temperature and composition derivatives: external *)
Record mixing_rule := { mixC : (nat -> R) -> (nat -> nat -> R) -> R;
  mixC_T : (nat -> R) -> (nat -> nat -> R) -> (nat -> nat -> R) -> R;
  mixC_T2 : (nat -> R) -> (nat -> nat -> R) -> (nat -> nat -> R) -> (nat -> nat -> R) -> R;
  mixC_T3 : (nat -> R) -> (nat -> nat -> R) -> (nat -> nat -> R) -> (nat -> nat -> R) -> (nat -> nat -> R) -> R;
  mixC_z : (nat -> R) -> (nat -> nat -> R) -> nat -> R }.

(* A VirialGas (lines 978-1014). theory: has_cross_B_coefficients; op: has_cross_C_coefficients. Simplification: heat capacities and
   formation energies are left out. The values _B, _dB_dT, ... that the methods without arguments store are left out as well: the methods
   store the value computed from T, zs and the model of the same object, which never change. *)
Record gas := { gT : R; gP : R; gV : R; gzs : nat -> R; gN : nat; theory : bool; op : bool; gmodel : csp }.

(* lines 1189-1200: dG_dep_dns; lines 1204-1216: dnG_dep_dns; lines 1218-1219: lnphi; lines 1221-1242: lnphis (the list path), of the values of
   dG_dep_dzs and G_dep. chemicals.utils.dxs_to_dns, dxs_to_dn_partials and dns_to_dn_partials are external (Gen_activity.v, Gen_uniquac.v). *)
Definition dG_dep_dns (N : nat) (zs dG_dep_dzs : nat -> R) : nat -> R := ext_dxs_to_dns N dG_dep_dzs zs.
Definition dnG_dep_dns (N : nat) (zs dG_dep_dzs : nat -> R) (G_dep : R) : nat -> R := ext_dxs_to_dn_partials N dG_dep_dzs zs G_dep.
Definition lnphi (T G_dep : R) : R := G_dep / (Rgas * T).
Definition lnphis (N : nat) (T : R) (zs dG_dep_dzs : nat -> R) (G_dep : R) : nat -> R :=
  let RT_inv := 1 / (Rgas * T) in
  let lnphi := G_dep * RT_inv in
  let dG_dep_dns := dG_dep_dns N zs dG_dep_dzs in
  let dG_dep_dns_RT := fun i => dG_dep_dns i * RT_inv in
  ext_dns_to_dn_partials dG_dep_dns_RT lnphi.
(* lines 2453-2473: dB_dns; lines 2475-2496: dnB_dns, of the values of dB_dzs and B *)
Definition dB_dns (N : nat) (zs dB_dzs : nat -> R) : nat -> R := ext_dxs_to_dns N dB_dzs zs.
Definition dnB_dns (N : nat) (zs dB_dzs : nat -> R) (B : R) : nat -> R := ext_dxs_to_dn_partials N dB_dzs zs B.

Section Gas.
Variable M : mixing_rule.

(* lines 1924-2040: B_at, dB_dT_at, d2B_dT2_at and d3B_dT3_at (d = 0, 1, 2, 3: the text differs only in the list that is read), with the
   model they leave *)
Definition B_at (d : nat) (g : gas) (T : R) (zs : nat -> R) : csp * R :=
  let m := gmodel g in
  if Nat.eqb (gN g) 1 then
    if Reqb T (gT g) then let (m', l) := read_pure_B d m in (m', l 0%nat) else (m, B_pures_at_T m T d 0%nat)
  else if negb (theory g) then
    if Reqb T (gT g) then let (m', l) := read_pure_B d m in (m', ext_mixing_simple (gN g) zs l) else (m, ext_mixing_simple (gN g) zs (B_pures_at_T m T d))
  else if Reqb T (gT g) then let (m', l) := read_cross_B d m in (m', ext_BVirial_mixture (gN g) zs l)
  else (m, ext_BVirial_mixture (gN g) zs (B_interactions_at_T m T d)).
(* lines 1942-1954 and the like: B(), dB_dT(), d2B_dT2(), d3B_dT3() *)
Definition get_B (d : nat) (g : gas) : csp * R := B_at d g (gT g) (gzs g).
(* the mixing function called by C_at (d = 0), dC_dT_at (1), d2C_dT2_at (2) and d3C_dT3_at (3) with the lists of derivatives up to d *)
Definition mix_lists (d : nat) (zs : nat -> R) (l : mats) : R :=
  match d with
  | O => mixC M zs (l 0%nat)
  | 1%nat => mixC_T M zs (l 0%nat) (l 1%nat)
  | 2%nat => mixC_T2 M zs (l 0%nat) (l 1%nat) (l 2%nat)
  | _ => mixC_T3 M zs (l 0%nat) (l 1%nat) (l 2%nat) (l 3%nat)
  end.
(* lines 2058-2188: C_at, dC_dT_at, d2C_dT2_at and d3C_dT3_at. Simplification: the lists of one model at one temperature are read
   together, where the code calls C_interactions(), dC_dT_interactions(), ... one after the other. *)
Definition C_at (d : nat) (g : gas) (T : R) (zs : nat -> R) : csp * R :=
  let m := gmodel g in
  if is_C_ZERO (C_model (par m)) then (m, 0)
  else if Nat.eqb (gN g) 1 then
    if Reqb T (gT g) then let (m', l) := read_pure_C d m in (m', l 0%nat) else (m, C_pures_at_T m T d 0%nat)
  else if negb (op g) then
    if Reqb T (gT g) then let (m', l) := read_pure_C d m in (m', ext_mixing_simple (gN g) zs l) else (m, ext_mixing_simple (gN g) zs (C_pures_at_T m T d))
  else if Reqb T (gT g) then
    let m' := fst (read_cross_C 0 m) in (m', mix_lists d zs (fun k => snd (read_cross_C k m')))
  else (m, mix_lists d zs (C_interactions_at_T m T)).
Definition get_C (d : nat) (g : gas) : csp * R := C_at d g (gT g) (gzs g).
(* lines 2206-2327: dB_dzs, d2B_dTdzs, d3B_dT2dzs, d4B_dT3dzs (d = 0, 1, 2, 3) *)
Definition dB_dzs (d : nat) (g : gas) : csp * (nat -> R) :=
  if negb (theory g) then read_pure_B d (gmodel g)
  else let (m', l) := read_cross_B d (gmodel g) in (m', ext_dBVirial_mixture_dzs (gN g) (gzs g) l).
(* lines 2498-2528: dC_dzs *)
Definition dC_dzs (g : gas) : csp * (nat -> R) :=
  if negb (op g) then read_pure_C 0 (gmodel g)
  else if is_C_ZERO (C_model (par (gmodel g))) then (gmodel g, fun _ => 0)
  else let (m', l) := read_cross_C 0 (gmodel g) in (m', mixC_z M (gzs g) l).
Definition with_model (g : gas) (m : csp) : gas := {| gT := gT g; gP := gP g; gV := gV g; gzs := gzs g; gN := gN g; theory := theory g; op := op g; gmodel := m |}.
Definition with_PV (g : gas) (P V : R) : gas := {| gT := gT g; gP := P; gV := V; gzs := gzs g; gN := gN g; theory := theory g; op := op g; gmodel := gmodel g |}.

(* chemicals.virial.Z_from_virial_density_form(T, P, (B, C)) and fluids.numerics.newton on a function of temperature with its derivative:
   external *)
Variable ext_Z : R -> R -> R -> R -> R.
Variable ext_newton : (R -> R * R) -> R -> R.

(* B and C of a new object whose model has just been made, then the volume: lines 1013-1014, 1864-1865 and 1887-1890 *)
Definition solve_V (g : gas) (P : R) : gas :=
  let (m1, B) := get_B 0 g in let g1 := with_model g m1 in
  let (m2, C) := get_C 0 g1 in let g2 := with_model g1 m2 in
  with_PV g2 P (ext_Z (gT g) P B C * Rgas * gT g / P).
(* lines 978-1014: __init__ with a model, T, P and zs (the length of zs is N) *)
Definition gas_init (m : csp) (T P : R) (N : nat) (zs : nat -> R) (theory op : bool) : gas :=
  solve_V {| gT := T; gP := P; gV := 0; gzs := zs; gN := N; theory := theory; op := op; gmodel := csp_to m T |} P.
Definition at_T (g : gas) (T : R) (zs : nat -> R) : gas :=
  {| gT := T; gP := gP g; gV := gV g; gzs := zs; gN := gN g; theory := theory g; op := op g; gmodel := csp_to (gmodel g) T |}.
(* lines 1847-1866: to_TP_zs; lines 1882-1890: to(zs, T, P) *)
Definition to_TP (g : gas) (T P : R) (zs : nat -> R) : gas := solve_V (at_T g T zs) P.
(* lines 1891-1893: to(zs, T, V) *)
Definition to_TV (g : gas) (T V : R) (zs : nat -> R) : gas :=
  let g0 := at_T g T zs in
  let (m1, B) := get_B 0 g0 in let g1 := with_model g0 m1 in
  let (m2, C) := get_C 0 g1 in let g2 := with_model g1 m2 in
  with_PV g2 (Rgas * T * (V * V + V * B + C) / (V * V * V)) V.
(* lines 1900-1913: err *)
Definition err_PV (g : gas) (P V : R) (zs : nat -> R) (T : R) : R * R :=
  let t := to_TP g T P zs in
  let B := snd (get_B 0 t) in let C := snd (get_C 0 t) in
  let x2 := V * V + V * B + C in let x3 := Rgas / (V * V * V) in
  (T * x2 * x3 - P, x3 * (T * (V * snd (get_B 1 t) + snd (get_C 1 t)) + x2)).
(* lines 1896-1918: to(zs, P, V) *)
Definition to_PV (g : gas) (P V : R) (zs : nat -> R) : gas :=
  let T := ext_newton (err_PV g P V zs) (P * V / Rgas) in with_PV (at_T g T zs) P V.

(* What a user does with a phase: read a coefficient (line numbers above), or make the phase of another state *)
Inductive action := Read_B (d : nat) | Read_C (d : nat) | Read_B_at (d : nat) (T : R) (zs : nat -> R) | Read_C_at (d : nat) (T : R) (zs : nat -> R)
  | Read_dB_dzs (d : nat) | Read_dC_dzs | To_TP (T P : R) (zs : nat -> R) | To_TV (T V : R) (zs : nat -> R) | To_PV (P V : R) (zs : nat -> R).
Definition act (g : gas) (a : action) : gas :=
  match a with
  | Read_B d => with_model g (fst (get_B d g)) | Read_C d => with_model g (fst (get_C d g))
  | Read_B_at d T zs => with_model g (fst (B_at d g T zs)) | Read_C_at d T zs => with_model g (fst (C_at d g T zs))
  | Read_dB_dzs d => with_model g (fst (dB_dzs d g)) | Read_dC_dzs => with_model g (fst (dC_dzs g))
  | To_TP T P zs => to_TP g T P zs | To_TV T V zs => to_TV g T V zs | To_PV P V zs => to_PV g P V zs
  end.
End Gas.
