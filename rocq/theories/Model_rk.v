(* thermo/redlich_kister.py.  Lists of floats are lists of reals; an index outside a list (IndexError) or a raised ValueError is None. *)
From Coq Require Import Reals List Arith Bool.
From Verif Require Import Base.
Import ListNotations.
Open Scope R_scope.

(* lines 49-55: redlich_kister_reverse.  A copy whose entries with an odd index are negated. *)
Fixpoint rk_reverse_from (k : nat) (l : list R) : list R :=
  match l with [] => [] | a :: l => (if (k mod 2 =? 1)%nat then - a else a) :: rk_reverse_from (S k) l end.
Definition redlich_kister_reverse (l : list R) : list R := rk_reverse_from 0 l.

(* lines 38-46: redlich_kister_reverse_2d.  The number of negated entries of every odd row is the length of row 0. *)
Fixpoint rk_negate_first (m : nat) (l : list R) : option (list R) :=
  match m, l with
  | O, _ => Some l
  | S m, [] => None
  | S m, a :: l => match rk_negate_first m l with Some r => Some (- a :: r) | None => None end
  end.
Fixpoint rk_reverse_2d_from (m k : nat) (l : list (list R)) : option (list (list R)) :=
  match l with
  | [] => Some []
  | row :: l =>
      match (if (k mod 2 =? 1)%nat then rk_negate_first m row else Some row), rk_reverse_2d_from m (S k) l with
      | Some r, Some t => Some (r :: t)
      | _, _ => None
      end
  end.
Definition redlich_kister_reverse_2d (l : list (list R)) : option (list (list R)) :=
  match l with [] => None | r0 :: _ => rk_reverse_2d_from (length r0) 0 l end.

(* lines 58-106: redlich_kister_excess_inner.  a i j k stands for a_tensor[i][j][k]. *)
Definition redlich_kister_excess_inner (N N_terms : nat) (a : nat -> nat -> nat -> R) (xs : nat -> R) : R :=
  let excess := loop N (fun i excess =>
    let outer := loop N (fun j outer =>
      let diff := xs i - xs j in
      let '(inner, factor) := loop N_terms (fun k st => let '(inner, factor) := st in (inner + a i j k * factor, factor * diff)) (0, 1) in
      outer + inner * xs j) 0 in
    excess + outer * xs i) 0 in
  excess * (1 / 2).

(* lines 147-175: the dictionary built from zip(indexes, data); a later entry replaces an earlier one with the same key. *)
Definition same_pair (p q : nat * nat) : bool := ((fst p =? fst q) && (snd p =? snd q))%nat.
Fixpoint dict_get {D} (l : list ((nat * nat) * D)) (key : nat * nat) (found : option D) : option D :=
  match l with [] => found | (k, d) :: l => dict_get l key (if same_pair k key then Some d else found) end.

(* lines 163-175: the entry out[i][j] for data of any kind, with its zero and its reversal. *)
Definition rk_entry {D} (zero : D) (rev : D -> option D) (dict : list ((nat * nat) * D)) (i j : nat) : option D :=
  match dict_get dict (i, j) None with
  | Some thing => Some thing
  | None => match dict_get dict (j, i) None with Some thing => rev thing | None => Some zero end
  end.

(* lines 108-176: redlich_kister_build_structure with len(shape) == 1; the result is the table of entries (None where building that entry raises). *)
Definition redlich_kister_build_structure_1d (shape : list nat) (data : list (list R)) (indexes : list (nat * nat)) : option (nat -> nat -> option (list R)) :=
  match shape with
  | [n] => if (length indexes =? length data)%nat then Some (rk_entry (repeat 0 n) (fun d => Some (redlich_kister_reverse d)) (combine indexes data)) else None
  | _ => None
  end.
(* the same lines with len(shape) == 2 *)
Definition redlich_kister_build_structure_2d (shape : list nat) (data : list (list (list R))) (indexes : list (nat * nat)) : option (nat -> nat -> option (list (list R))) :=
  match shape with
  | [n; m] => if (length indexes =? length data)%nat then Some (rk_entry (repeat (repeat 0 m) n) redlich_kister_reverse_2d (combine indexes data)) else None
  | _ => None
  end.

(* lines 179-244: redlich_kister_T_dependence.  c i j k t stands for structure[i][j][k][t]; the entry out[i][j][k]. *)
Definition redlich_kister_T_dependence (c : nat -> nat -> nat -> nat -> R) (T : R) (N_T : nat) : option (nat -> nat -> nat -> R) :=
  let T2 := T * T in
  let Tinv := 1 / T in
  let T2inv := Tinv * Tinv in
  let logT := ln T in
  if (N_T =? 2)%nat then Some (fun i j k => c i j k 0%nat + c i j k 1%nat * Tinv)
  else if (N_T =? 3)%nat then Some (fun i j k => c i j k 0%nat + c i j k 1%nat * Tinv + c i j k 2%nat * logT)
  else if (N_T =? 6)%nat then Some (fun i j k => c i j k 0%nat + c i j k 1%nat * Tinv + c i j k 2%nat * logT + c i j k 3%nat * T + c i j k 4%nat * T2inv + c i j k 5%nat * T2)
  else None.

(* lines 247-278: redlich_kister_excess_inner_binary *)
Definition redlich_kister_excess_inner_binary (ais : list R) (x0 x1 : R) : R :=
  let x_diff := x0 - x1 in
  let x_product := x0 * x1 in
  fst (loop (length ais) (fun i st => let '(GE, factor) := st in (GE + nth i ais 0 * x_product * factor, factor * x_diff)) (0, 1)).

(* lines 280-305: redlich_kister_excess_binary.  c q stands for coefficients[q]. *)
Definition redlich_kister_excess_binary (c : nat -> R) (x0 T : R) (N_T N_terms : nat) : R :=
  let T2 := T * T in
  let Tinv := 1 / T in
  let T2inv := Tinv * Tinv in
  let logT := ln T in
  let x1 := 1 - x0 in
  let x_diff := x0 - x1 in
  let x_product := x0 * x1 in
  fst (loop N_terms (fun i st =>
    let '(GE, factor) := st in
    let offset := (i * N_T)%nat in
    let ai := c offset in
    let ai := if (2 <=? N_T)%nat then ai + c (offset + 1)%nat * Tinv else ai in
    let ai := if (3 <=? N_T)%nat then ai + c (offset + 2)%nat * logT else ai in
    let ai := if (4 <=? N_T)%nat then ai + c (offset + 3)%nat * T else ai in
    let ai := if (5 <=? N_T)%nat then ai + c (offset + 4)%nat * T2inv else ai in
    let ai := if (6 <=? N_T)%nat then ai + c (offset + 5)%nat * T2 else ai in
    (GE + ai * x_product * factor, factor * x_diff)) (0, 1)).

(* lines 307-314: redlich_kister_fitting_to_use *)
Definition redlich_kister_fitting_to_use (coeffs : nat -> R) (N_terms N_T : nat) : list (list R) :=
  map (fun i => map (fun j => coeffs (i * N_T + j)%nat) (seq 0 N_T)) (seq 0 N_terms).
