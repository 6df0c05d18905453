(* Model of the estimates of pure component constants from groups:
   thermo/group_contribution/joback.py (Joback, DikyJoback), fedors.py (Fedors),
   wilson_jasperson.py (Wilson_Jasperson), ppr78.py (the table of interactions, PPR78_kij, PPR78_kijs).
   The assignment of groups to the molecule (RDKit and smarts_fragment) is an input here: it is the
   subject of Model_fragment.v.  Floats are real numbers. *)
From Coq Require Import Reals List Arith ZArith String Bool.
From Verif Require Import Base Gen_joback.
Import ListNotations.
Local Open Scope R_scope.

(* ---------------------------------------------------------------- Joback *)

(* a dictionary {group: count}, as the list of its items in the order of insertion *)
Definition counts := list (nat * nat).

Section JobackTable.
(* joback.py:230-272 JOBACK_GROUPS; the theorems hold for every table *)
Variable tbl : nat -> option jgroup.

(* joback.py:482-483 (and 519, 566, 610, ...): tot += JOBACK_GROUPS[group].X*count; KeyError for an
   unknown group and TypeError for a contribution None are both caught by the bare except *)
Definition jstep (f : jgroup -> option R) (acc : option R) (it : nat * nat) : option R :=
  match acc with
  | None => None
  | Some t => match tbl (fst it) with
              | None => None
              | Some r => match f r with
                          | None => None
                          | Some v => Some (t + v * INR (snd it))
                          end
              end
  end.
(* joback.py:481-483 *)
Definition jtot (f : jgroup -> option R) (cs : counts) : option R := fold_left (jstep f) cs (Some 0).

(* the tail of each try block: `except: return None` *)
Definition omap {A B} (h : A -> B) (o : option A) : option B := match o with Some a => Some (h a) | None => None end.

(* joback.py:453-487 *)
Definition jb_Tb (cs : counts) : option R := omap (fun t => 198.2 + t) (jtot j_Tb cs).
(* joback.py:490-524 *)
Definition jb_Tm (cs : counts) : option R := omap (fun t => 122.5 + t) (jtot j_Tm cs).
(* joback.py:527-571: Tb of the caller, or of the groups; ZeroDivisionError is caught *)
Definition jb_Tc (cs : counts) (Tb : option R) : option R :=
  let Tb' := match Tb with Some v => Some v | None => jb_Tb cs end in
  match jtot j_Tc cs, Tb' with
  | Some t, Some b => let den := 0.584 + 0.965 * t - t * t in
                      if Reqb den 0 then None else Some (b / den)
  | _, _ => None
  end.
(* joback.py:574-615: x**-2 raises ZeroDivisionError at 0 *)
Definition jb_Pc (cs : counts) (atom_count : nat) : option R :=
  match jtot j_Pc cs with
  | Some t => let x := 0.113 + 0.0032 * INR atom_count - t in
              if Reqb x 0 then None else Some (/ (x * x) * 100000)
  | None => None
  end.
(* joback.py:618-655 *)
Definition jb_Vc (cs : counts) : option R := omap (fun t => (17.5 + t) * / 1000000) (jtot j_Vc cs).
(* joback.py:658-696 *)
Definition jb_Hf (cs : counts) : option R := omap (fun t => (68.29 + t) * 1000) (jtot j_Hform cs).
(* joback.py:699-737 *)
Definition jb_Gf (cs : counts) : option R := omap (fun t => (53.88 + t) * 1000) (jtot j_Gform cs).
(* joback.py:740-779 *)
Definition jb_Hfus (cs : counts) : option R := omap (fun t => (-0.88 + t) * 1000) (jtot j_Hfus cs).
(* joback.py:782-821 *)
Definition jb_Hvap (cs : counts) : option R := omap (fun t => (15.3 + t) * 1000) (jtot j_Hvap cs).
(* joback.py:824-874: one loop with four totals; simplification: the four totals are folded one by one,
   the answer is None as soon as one of them fails, as in the single try block *)
Definition jb_Cpig_coeffs (cs : counts) : option (R * R * R * R) :=
  match jtot j_Cpa cs, jtot j_Cpb cs, jtot j_Cpc cs, jtot j_Cpd cs with
  | Some a, Some b, Some c, Some d => Some (a - 37.93, b + 0.210, c - 3.91 / 10000, d + 2.06 / 10000000)
  | _, _, _, _ => None
  end.
(* joback.py:877-924 *)
Definition jb_mul_coeffs (cs : counts) : option (R * R) :=
  match jtot j_mua cs, jtot j_mub cs with
  | Some a, Some b => Some (a - 597.82, b - 11.202)
  | _, _ => None
  end.

(* joback.py:394-423, the object after construction; the class attributes of lines 391-392 are None *)
Record joback := JB {
  jo_counts : counts;
  jo_atoms : nat;
  jo_MW : R;
  jo_Tb : option R;
  jo_Cp : option (R * R * R * R);
  jo_mu : option (R * R)
}.

(* joback.py:402-423. [cs]: the groups found; [heavy]: what RDKit counts when hydrogens are added; [mw]: its
   exact molecular weight.  Lines 403 and 408: rdkitmol_Hs exists only if atom_count was not given;
   otherwise line 408 raises AttributeError (None here) *)
Definition jb_new (cs : counts) (withH : nat) (mw : R) (atom_count : option nat) (MW : option R) (Tb : option R)
  : option joback :=
  let hs := match atom_count with None => true | Some _ => false end in
  let n := match atom_count with None => withH | Some n => n end in
  match (match MW with Some m => Some m | None => if hs then Some mw else None end) with
  | None => None
  | Some m => Some (JB cs n m (match Tb with Some b => Some b | None => jb_Tb cs end) None None)
  end.

(* fluids.numerics.horner *)
Definition horner (cs : list R) (T : R) : R := fold_left (fun acc c => acc * T + c) cs 0.

(* joback.py:926-958: the coefficients are kept once computed *)
Definition jb_Cpig (o : joback) (T : R) : option R * joback :=
  let c := match jo_Cp o with Some c => Some c | None => jb_Cpig_coeffs (jo_counts o) end in
  let o' := JB (jo_counts o) (jo_atoms o) (jo_MW o) (jo_Tb o) c (jo_mu o) in
  match c with
  | Some (a, b, c2, d) => (Some (horner (rev [a; b; c2; d]) T), o')
  | None => (None, o')
  end.

(* joback.py:960-991: a/T raises ZeroDivisionError at T = 0, caught *)
Definition jb_mul (o : joback) (T : R) : option R * joback :=
  let c := match jo_mu o with Some c => Some c | None => jb_mul_coeffs (jo_counts o) end in
  let o' := JB (jo_counts o) (jo_atoms o) (jo_MW o) (jo_Tb o) (jo_Cp o) c in
  match c with
  | Some (a, b) => (if Reqb T 0 then None else Some (jo_MW o * exp (a / T + b)), o')
  | None => (None, o')
  end.

(* joback.py:436-446, the report without the callables *)
Record jestimates := JE {
  je_Tb : option R; je_Tm : option R; je_Tc : option R; je_Pc : option R; je_Vc : option R;
  je_Hf : option R; je_Gf : option R; je_Hfus : option R; je_Hvap : option R;
  je_mul : option (R * R); je_Cpig : option (R * R * R * R)
}.

(* joback.py:425-450; None: ValueError (no groups) *)
Definition jb_estimate (o : joback) : option jestimates * joback :=
  match jo_counts o with
  | [] => (None, o)
  | _ :: _ =>
    let o1 := snd (jb_mul o 300) in
    let o2 := snd (jb_Cpig o1 300) in
    let cs := jo_counts o2 in
    (Some (JE (jb_Tb cs) (jb_Tm cs) (jb_Tc cs (jo_Tb o2)) (jb_Pc cs (jo_atoms o2)) (jb_Vc cs) (jb_Hf cs)
              (jb_Gf cs) (jb_Hfus cs) (jb_Hvap cs) (jo_mu o2) (jo_Cp o2)), o2)
  end.

(* what a caller may ask of the object *)
Inductive jask := AskCpig (T : R) | AskMul (T : R) | AskEstimate.
(* the state after one request *)
Definition jb_step (o : joback) (q : jask) : joback :=
  match q with
  | AskCpig T => snd (jb_Cpig o T)
  | AskMul T => snd (jb_mul o T)
  | AskEstimate => snd (jb_estimate o)
  end.
End JobackTable.

(* ---------------------------------------------------------------- DikyJoback *)

(* d[k] = v on a dictionary with integer keys: the place of an existing key is kept *)
Fixpoint dset (d : counts) (k v : nat) : counts :=
  match d with
  | [] => [(k, v)]
  | (k', v') :: r => if (k' =? k)%nat then (k, v) :: r else (k', v') :: dset r k v
  end.
(* d.get(k, 0) *)
Fixpoint dget0 (d : counts) (k : nat) : nat :=
  match d with
  | [] => 0%nat
  | (k', v') :: r => if (k' =? k)%nat then v' else dget0 r k
  end.

Section Diky.
(* joback.py:1036-1172 DIKY_JOBACK_GROUPS: the four coefficients of a group; the theorems hold for every table *)
Variable dtbl : nat -> option (R * R * R * R).

(* joback.py:1251-1256 *)
Definition dk_ring (d : counts) (size : nat) : counts :=
  if (size =? 3)%nat then dset d 43 (dget0 d 43 + 1)
  else if (size =? 4)%nat then dset d 44 (dget0 d 44 + 1)
  else d.

(* joback.py:1291-1296; None: KeyError *)
Definition dk_step (acc : option (R * R * R * R)) (it : nat * nat) : option (R * R * R * R) :=
  match acc, dtbl (fst it) with
  | Some (a0, a1, a2, a3), Some (g0, g1, g2, g3) =>
    let n := INR (snd it) in Some (a0 + n * g0, a1 + n * g1, a2 + n * g2, a3 + n * g3)
  | _, _ => None
  end.
(* joback.py:1264-1298 *)
Definition dk_coefficients (d : counts) : option (R * R * R * R) := fold_left dk_step d (Some (0, 0, 0, 0)).

(* joback.py:1245-1261: the counts after construction of a molecule whose fragmentation succeeded *)
Definition dk_counts (cs : counts) (rings : list nat) : counts :=
  fold_left dk_ring rings (dset cs 42 1).

Inductive dkres := DkNone | DkErr | DkVal (v : R).
(* joback.py:1229-1261 and 1300-1322: KeyError at construction (DkErr), None without success, or the polynomial *)
Definition dk_Cpig (success : bool) (cs : counts) (rings : list nat) (T : R) : dkres :=
  if success then
    match dk_coefficients (dk_counts cs rings) with
    | None => DkErr
    | Some (a0, a1, a2, a3) => DkVal (a0 + a1 * T + a2 * T * T + a3 * T * T * T)
    end
  else DkNone.
End Diky.

(* ---------------------------------------------------------------- Fedors *)

(* fedors.py:131-145, the bond types told apart *)
Inductive bond := BSingle | BDouble | BTriple | BAromatic | BOther.

(* fedors.py:37-43 fedors_contributions, in the order of the dictionary *)
Definition fedors_contributions : list (string * R) :=
  [("C"%string, 34.426); ("H"%string, 9.172); ("O"%string, 20.291); ("O_alcohol"%string, 18);
   ("N"%string, 48.855); ("N_amine"%string, 47.422); ("F"%string, 22.242); ("Cl"%string, 52.801);
   ("Br"%string, 71.774); ("I"%string, 96.402); ("S"%string, 50.866); ("3_ring"%string, -15.824);
   ("4_ring"%string, -17.247); ("5_ring"%string, -39.126); ("6_ring"%string, -39.508);
   ("double_bond"%string, 5.028); ("triple_bond"%string, 0.7973); ("ring_ring_bonds"%string, 35.524)].
(* fedors.py:36 *)
Definition fedors_allowed : list string :=
  ["C"%string; "H"%string; "O"%string; "N"%string; "F"%string; "Cl"%string; "Br"%string; "I"%string; "S"%string].

(* the dictionary `atoms`: a partial function on names; its keys before line 160 are given as a list *)
Definition adict := string -> option Z.
Definition aset (d : adict) (k : string) (v : Z) : adict := fun k' => if String.eqb k' k then Some v else d k'.

(* count of the list elements equal to n *)
Definition zcount (p : nat -> bool) (l : list nat) : Z := Z.of_nat (List.length (filter p l)).
Definition bcount (p : bond -> bool) (l : list bond) : Z := Z.of_nat (List.length (filter p l)).

(* what the molecule is asked for: fedors.py:107-151 *)
Record fmol := FM {
  fm_rings : list nat;         (* the sizes of the rings, 107-113 *)
  fm_bonds : list bond;        (* 136-137 *)
  fm_ring_ring : nat;          (* 125 *)
  fm_alcohol : nat;            (* 147 *)
  fm_amine : nat;              (* 148 *)
  fm_formula : list (string * nat)   (* 151, elements with their counts, one entry per element *)
}.

(* atoms = simple_formula_parser(...) *)
Fixpoint of_formula (l : list (string * nat)) : adict :=
  match l with
  | [] => fun _ => None
  | (k, n) :: r => fun k' => if String.eqb k' k then Some (Z.of_nat n) else of_formula r k'
  end.

Definition ring_known (s : nat) : bool :=
  ((s =? 3) || (s =? 4) || (s =? 5) || (s =? 6))%nat.
Definition bond_known (b : bond) : bool := match b with BOther => false | _ => true end.
Definition is_double (b : bond) : bool := match b with BDouble => true | _ => false end.
Definition is_triple (b : bond) : bool := match b with BTriple => true | _ => false end.

(* fedors.py:153-170; 'N' and 'O' are put in if absent *)
Definition fedors_atoms (m : fmol) : adict :=
  let a0 := of_formula (fm_formula m) in
  let a1 := match a0 "N"%string with None => aset a0 "N" 0 | Some _ => a0 end in
  let a2 := match a1 "O"%string with None => aset a1 "O" 0 | Some _ => a1 end in
  let a3 := aset a2 "O_alcohol" (Z.of_nat (fm_alcohol m)) in
  let a4 := aset a3 "O" ((match a3 "O"%string with Some z => z | None => 0 end) - Z.of_nat (fm_alcohol m)) in
  let a5 := aset a4 "N_amine" (Z.of_nat (fm_amine m)) in
  let a6 := aset a5 "N" ((match a5 "N"%string with Some z => z | None => 0 end) - Z.of_nat (fm_amine m)) in
  let a7 := aset a6 "3_ring" (zcount (Nat.eqb 3) (fm_rings m)) in
  let a8 := aset a7 "4_ring" (zcount (Nat.eqb 4) (fm_rings m)) in
  let a9 := aset a8 "5_ring" (zcount (Nat.eqb 5) (fm_rings m)) in
  let a10 := aset a9 "6_ring" (zcount (Nat.eqb 6) (fm_rings m)) in
  let a11 := aset a10 "double_bond" (bcount is_double (fm_bonds m)) in
  let a12 := aset a11 "triple_bond" (bcount is_triple (fm_bonds m)) in
  aset a12 "ring_ring_bonds" (Z.of_nat (fm_ring_ring m)).

(* fedors.py:173-178: KeyError is passed over *)
Definition fedors_step (a : adict) (vc : R) (kv : string * R) : R :=
  match a (fst kv) with Some n => vc + IZR n * snd kv | None => vc end.

(* fedors.py:157-158: found_atoms are the elements of the formula with N and O *)
Definition fedors_unknown (m : fmol) : bool :=
  negb (forallb (fun kn => existsb (String.eqb (fst kn)) fedors_allowed) (fm_formula m)).

(* fedors.py:47-184: Vc, whether the status is OK, and the three flags *)
Definition Fedors (m : fmol) : R * bool * bool * bool * bool :=
  let vc := fold_left (fedors_step (fedors_atoms m)) fedors_contributions 26.6 in
  let ua := fedors_unknown m in
  let ub := negb (forallb bond_known (fm_bonds m)) in
  let ur := negb (forallb ring_known (fm_rings m)) in
  (vc * / 1000000, negb (ua || ub || ur), ua, ub, ur).

(* ---------------------------------------------------------------- Wilson and Jasperson *)

(* wilson_jasperson.py:148-155, the second order increments of Tc and of Pc, by name *)
Definition wj_groups_table : list (string * (R * R)) :=
  [("OH_large"%string, (0.01, 0)); ("OH_small"%string, (0.0350, 0)); ("-O-"%string, (-0.0075, 0));
   ("amine"%string, (-0.004, 0)); ("-CHO"%string, (0, 0.5)); (">CO"%string, (-0.0550, 0));
   ("-COOH"%string, (0.017, 0.5)); ("-COO-"%string, (-0.015, 0)); ("-CN"%string, (0.017, 1.5));
   ("-NO2"%string, (-0.02, 1.0)); ("halide"%string, (0.002, 0)); ("sulfur_groups"%string, (0, 0));
   ("siloxane"%string, (-0.025, -0.5))].
Fixpoint sassoc {A} (l : list (string * A)) (k : string) : option A :=
  match l with [] => None | (k', v) :: r => if String.eqb k k' then Some v else sassoc r k end.

Section Wilson.
(* wilson_jasperson.py:56-100 and 102-146: the first order increments by element.  The outer option of the
   second table is a missing key, the inner one the value None; the theorems hold for every table *)
Variable wTc : string -> option R.
Variable wPc : string -> option (option R).

(* what the molecule is asked for *)
Record wmol := WM {
  wm_rings : nat;                        (* 226 *)
  wm_atoms : list (string * nat);        (* 228 *)
  wm_OH : nat; wm_ether : nat;           (* 231, 238 *)
  wm_nitro : nat; wm_nitrile : nat; wm_amine : nat;   (* 245, 248, 251-258 *)
  wm_aldehyde : nat; wm_ketone : nat; wm_acid : nat; wm_ester : nat;   (* 263-273 *)
  wm_haloalkane : bool;                  (* 277 *)
  wm_sulfur : nat; wm_siloxane : nat     (* 281-287 *)
}.

(* k in atoms; atoms[k] *)
Definition wj_has (m : wmol) (k : string) : bool := match sassoc (wm_atoms m) k with Some _ => true | None => false end.

(* wilson_jasperson.py:230-287: group_contributions, in the order of insertion.  Simplification: '-CN' keeps its
   first place but is listed with its final value *)
Definition wj_counts (m : wmol) : list (string * nat) :=
  let N := wj_has m "N" in
  (match sassoc (wm_atoms m) "C" with
   | Some c => if (5 <=? c)%nat then [("OH_large"%string, wm_OH m)] else [("OH_small"%string, wm_OH m)]
   | None => [] end)
  ++ [("-O-"%string, wm_ether m)]
  ++ [("-CN"%string, if N then wm_nitrile m else 0%nat)]
  ++ (if N then [("-NO2"%string, wm_nitro m)] else [])
  ++ [("amine"%string, if N then wm_amine m else 0%nat)]
  ++ (if wj_has m "O" && wj_has m "C" then
        [("-CHO"%string, wm_aldehyde m); (">CO"%string, wm_ketone m); ("-COOH"%string, wm_acid m);
         ("-COO-"%string, wm_ester m)] else [])
  ++ [("halide"%string, if wm_haloalkane m then 1%nat else 0%nat)]
  ++ [("sulfur_groups"%string, if wj_has m "S" then wm_sulfur m else 0%nat)]
  ++ [("siloxane"%string, if wj_has m "Si" then wm_siloxane m else 0%nat)].

(* wilson_jasperson.py:295-299 *)
Definition wj_Tc_step (acc : R * bool) (kv : string * nat) : R * bool :=
  match wTc (fst kv) with
  | Some x => (fst acc + x * INR (snd kv), snd acc)
  | None => (fst acc, true)
  end.
(* wilson_jasperson.py:303-307: KeyError and TypeError (None*v) *)
Definition wj_Pc_step (acc : R * bool) (kv : string * nat) : R * bool :=
  match wPc (fst kv) with
  | Some (Some x) => (fst acc + x * INR (snd kv), snd acc)
  | _ => (fst acc, true)
  end.

(* wilson_jasperson.py:312-315; None: KeyError *)
Definition wj_second (sel : R * R -> R) (gs : list (string * nat)) : option R :=
  fold_left (fun acc kv => match acc, sassoc wj_groups_table (fst kv) with
                           | Some t, Some p => Some (t + sel p * INR (snd kv))
                           | _, _ => None end) gs (Some 0).

Inductive wjres := WjZeroDivision | WjKeyError | WjVal (Tc Pc : R) (missing_Tc missing_Pc : bool).

(* wilson_jasperson.py:157-332 *)
Definition Wilson_Jasperson (m : wmol) (Tb : R) (second_order : bool) : wjres :=
  let '(Tc_inc, mT) := fold_left wj_Tc_step (wm_atoms m) (0, false) in
  let '(Pc_inc, mP) := fold_left wj_Pc_step (wm_atoms m) (0, false) in
  match (if second_order then wj_second fst (wj_counts m) else Some 0),
        (if second_order then wj_second snd (wj_counts m) else Some 0) with
  | Some sT, Some sP =>
    let den := 0.048271 - 0.019846 * INR (wm_rings m) + Tc_inc + sT in
    let out (Tc : R) (mT : bool) :=
      let Y := -0.00922295 - 0.0290403 * INR (wm_rings m) + 0.041 * (sP + Pc_inc) in
      if Reqb (-0.96601 + exp Y) 0 then WjZeroDivision
      else WjVal Tc (0.0186233 * Tc / (-0.96601 + exp Y) * 100000) mT mP in
    if Rleb 0 den then
      if Reqb den 0 then WjZeroDivision       (* 0**0.2 is 0, Tb/0 raises *)
      else out (Tb / Rpower den 0.2) mT
    else out (Tb * 2.5) true
  | _, _ => WjKeyError
  end.
End Wilson.

(* ---------------------------------------------------------------- PPR78 *)

(* an interaction dictionary {(group, group): (A, B)} *)
Definition itable := nat -> nat -> option (R * R).
Definition iset (d : itable) (k l : nat) (v : R * R) : itable :=
  fun a b => if (a =? k)%nat && (b =? l)%nat then Some v else d a b.
Definition iin (d : itable) (k l : nat) : bool := match d k l with Some _ => true | None => false end.

(* ppr78.py:741-749, the body of the double loop *)
Definition sym_step (d : itable) (k l : nat) : itable :=
  let d1 := match d k l with
            | Some v => if negb (iin d l k) then iset d l k v else d
            | None => d
            end in
  if negb (iin d1 k l) && negb (iin d1 l k) then iset (iset d1 k l (0, 0)) l k (0, 0) else d1.
(* ppr78.py:736-749 for one dictionary: every ordered pair of groups *)
Definition symmetrise (groups : list nat) (d : itable) : itable :=
  fold_left (fun d k => fold_left (fun d l => sym_step d k l) groups d) groups d.

(* molecule1_groups.get(group): the count of a group *)
Fixpoint glook (l : list (nat * R)) (g : nat) : option R :=
  match l with [] => None | (g', n) :: r => if (g =? g')%nat then Some n else glook r g end.

Inductive kres (A : Type) := KVal (v : A) | KKeyError | KZeroDivision | KValueError.
Arguments KVal {A}. Arguments KKeyError {A}. Arguments KZeroDivision {A}. Arguments KValueError {A}.

(* ppr78.py:845-846 *)
Definition OMEGA_A : R := 0.4572355289213821893834601962251837888504.
Definition OMEGA_B : R := 0.0777960739038884559718447100373331839711.
(* ppr78.py:849-853 *)
Definition ppr_m (omega : R) : R :=
  if Rleb omega 0.491 then 0.37464 + 1.54226 * omega - 0.26992 * omega ^ 2
  else 0.379642 + 1.48503 * omega - 0.164423 * omega ^ 2 + 0.016666 * omega ^ 3.
(* ppr78.py:856-857 *)
Definition ppr_b (Tc Pc : R) : R := OMEGA_B * (Rgas * Tc / Pc).
(* ppr78.py:863-864 *)
Definition ppr_a (T Tc Pc omega : R) : R :=
  (OMEGA_A * Rgas ^ 2 * Tc ^ 2 / Pc) * (1 + ppr_m omega * (1 - sqrt (T / Tc))) ^ 2.

(* ppr78.py:867: sum(molecule1_groups.values()) *)
Definition gtotal (g : list (nat * R)) : R := fold_left (fun s gn => s + snd gn) g 0.
(* ppr78.py:870: the fractions *)
Definition gfrac (g : list (nat * R)) : list (nat * R) := map (fun gn => (fst gn, snd gn / gtotal g)) g.
(* alpha_i.get(group, 0.0) *)
Definition gget (g : list (nat * R)) (k : nat) : R := match glook g k with Some v => v | None => 0 end.
(* ppr78.py:875: set(alpha_i.keys()) | set(alpha_j.keys()); the order of a Python set is arbitrary, here first met *)
Definition gunion (g1 g2 : list (nat * R)) : list nat := nodup Nat.eq_dec (map fst g1 ++ map fst g2).

(* ppr78.py:882-887; None: KeyError *)
Definition ppr_term (d : itable) (T : R) (a1 a2 : list (nat * R)) (k l : nat) (acc : option R) : option R :=
  match acc with
  | None => None
  | Some t =>
    match d k l with
    | None => None
    | Some (A, B) =>
      if Reqb A 0 then Some t
      else Some (t + (gget a1 k - gget a2 k) * (gget a1 l - gget a2 l) * A * Rpower (298.15 / T) (B / A - 1))
    end
  end.
(* ppr78.py:875-887 *)
Definition ppr_sum (d : itable) (T : R) (a1 a2 : list (nat * R)) (gs : list nat) : option R :=
  fold_left (fun acc k => fold_left (fun acc l => ppr_term d T a1 a2 k l acc) gs acc) gs (Some 0).

(* ppr78.py:770-901 for one dictionary of interactions and a valid version.  The critical constants and T are taken positive (math domain
   errors and divisions by a zero pressure are not modelled); ZeroDivisionError for an empty or cancelling
   count and for a vanishing denominator *)
Definition PPR78_kij (d : itable) (T : R) (g1 g2 : list (nat * R)) (Tc1 Pc1 omega1 Tc2 Pc2 omega2 : R) : kres R :=
  let b1 := ppr_b Tc1 Pc1 in let b2 := ppr_b Tc2 Pc2 in
  let a1 := ppr_a T Tc1 Pc1 omega1 in let a2 := ppr_a T Tc2 Pc2 omega2 in
  if (match g1 with [] => false | _ => Reqb (gtotal g1) 0 end) || (match g2 with [] => false | _ => Reqb (gtotal g2) 0 end)
  then KZeroDivision
  else match ppr_sum d T (gfrac g1) (gfrac g2) (gunion g1 g2) with
       | None => KKeyError
       | Some s =>
         let term1 := s * (-0.5) * 1000000 in
         let term2 := (sqrt a1 / b1 - sqrt a2 / b2) ^ 2 in
         let den := 2 * sqrt (a1 * a2) / (b1 * b2) in
         if Reqb den 0 then KZeroDivision else KVal ((term1 - term2) / den)
       end.

(* one component of PPR78_kijs *)
Record pcomp := PC { pc_groups : list (nat * R); pc_Tc : R; pc_Pc : R; pc_omega : R }.
Definition pair_kij (d : itable) (T : R) (c1 c2 : pcomp) : kres R :=
  PPR78_kij d T (pc_groups c1) (pc_groups c2) (pc_Tc c1) (pc_Pc c1) (pc_omega c1) (pc_Tc c2) (pc_Pc c2) (pc_omega c2).

(* ppr78.py:951-968: a matrix is a function of two indices; the first exception ends the loops *)
Definition mset (m : nat -> nat -> R) (i j : nat) (v : R) : nat -> nat -> R :=
  fun a b => if (a =? i)%nat && (b =? j)%nat then v else m a b.
Definition kijs_inner (d : itable) (T : R) (cs : list pcomp) (dflt : pcomp) (i : nat) (r : kres (nat -> nat -> R)) (j : nat)
  : kres (nat -> nat -> R) :=
  match r with
  | KVal m =>
    match pair_kij d T (nth i cs dflt) (nth j cs dflt) with
    | KVal v => KVal (mset (mset m i j v) j i v)
    | KKeyError => KKeyError | KZeroDivision => KZeroDivision | KValueError => KValueError
    end
  | e => e
  end.
(* ppr78.py:903-970 *)
Definition PPR78_kijs (d : itable) (T : R) (cs : list pcomp) (dflt : pcomp) : kres (nat -> nat -> R) :=
  let n := List.length cs in
  fold_left (fun r i => fold_left (kijs_inner d T cs dflt i) (seq (i + 1) (n - (i + 1))) r)
            (seq 0 n) (KVal (fun _ _ => 0)).

(* ppr78.py:836-843 and 944-945: the dictionary is chosen by the version; [original] and [extended] are the
   dictionaries by name or by number, after lines 736-768 *)
Definition PPR78_kij_version (original extended : itable) (version : string) (T : R) (g1 g2 : list (nat * R))
  (Tc1 Pc1 omega1 Tc2 Pc2 omega2 : R) : kres R :=
  if String.eqb version "original" then PPR78_kij original T g1 g2 Tc1 Pc1 omega1 Tc2 Pc2 omega2
  else if String.eqb version "extended" then PPR78_kij extended T g1 g2 Tc1 Pc1 omega1 Tc2 Pc2 omega2
  else KValueError.
