(* thermo/group_contribution/group_contribution_base.py: assignment of groups to the atoms of a molecule.
   RDKit is not modelled: for each group of a catalog the list of its substructure matches is given, a match is the tuple of the numbers of its
   heavy atoms. Python dictionaries are association lists in insertion order, sets of atoms are lists without repetitions. *)
From Coq Require Import List Bool Arith ZArith Ascii String DecimalString.
Import ListNotations.
Local Open Scope nat_scope.
Local Open Scope list_scope.

Notation match_t := (list nat).
(* a dictionary with integer keys: reading, and d[k] = v *)
Fixpoint dget {A} (k : nat) (d : list (nat * A)) : option A := match d with [] => None | (q, v) :: d => if q =? k then Some v else dget k d end.
Fixpoint dset {A} (k : nat) (v : A) (d : list (nat * A)) : list (nat * A) :=
  match d with [] => [(k, v)] | (q, w) :: d => if q =? k then (q, v) :: d else (q, w) :: dset k v d end.
(* lines 35-62: priority_from_atoms; counts of H, C, O, N, Cl, F, Si, S, all other elements, and, if bonds are given, of single, double, triple, aromatic bonds.
   An element which is not in the dictionary has count 0. *)
Record atom_counts := { aH : nat; aC : nat; aO : nat; aN : nat; aCl : nat; aF : nat; aSi : nat; aS : nat; a_other : nat }.
Record bond_counts := { bS : nat; bD : nat; bT : nat; bA : nat }.
Definition priority_from_atoms (a : atom_counts) (b : option bond_counts) : nat :=
  aH a + aC a * 100 + aO a * 150 + aN a * 175 + aCl a * 300 + aF a * 400 + aSi a * 200 + aS a * 250 +
  match b with None => 0 | Some b => bS b * 2 + bD b * 10 + bT b * 100 + bA b * 1000 end.
(* lines 83-96: BaseGroupContribution; of atoms only the number of hydrogens and whether H is the only element are used.
   hits: the matches in the molecule; hits_H: in the molecule with explicit hydrogens; several: smarts is a list, the union of the hits. *)
Record group := { g_id : nat; g_prio : option Z; g_H : nat; g_only_H : bool; g_from_smarts : bool; g_several : bool; g_hits : list match_t; g_hits_H : list match_t }.
(* the molecule: heavy atoms, hydrogens of the formula, hydrogens at an atom, number of atoms with explicit hydrogens *)
Record molecule := { m_atoms : list nat; m_H : nat; m_H_at : nat -> nat; m_all : nat }.
Notation matches := (list (nat * list (list nat))).
(* lines 247-284: the matches of each group; the early answer for hydrogen. inl: the key of the group returned early *)
Fixpoint collect (mol : molecule) (catalog : list group) (found : matches) : nat + matches :=
  match catalog with
  | [] => inr found
  | g :: rest =>
      if negb (g_several g) && match g_hits g with [] => g_only_H g | _ => false end
      then match g_hits_H g with
           | [] => collect mol rest found
           | h => if (m_all mol =? m_H mol) && (m_H mol =? g_H g) then inl (g_id g) else collect mol rest (dset (g_id g) h found)
           end
      else match g_hits g with [] => collect mol rest found | h => collect mol rest (dset (g_id g) h found) end
  end.
(* lines 287-290: sorted(zip(priorities, groups), reverse=True), then the object of each key; the later object with a key wins *)
Definition prio (g : group) : Z := match g_prio g with Some p => p | None => 0%Z end.
Definition before (a b : Z * nat) : bool := ((fst b <? fst a)%Z || ((fst a =? fst b)%Z && (snd b <=? snd a)))%bool.
Fixpoint insert_sorted (x : Z * nat) (l : list (Z * nat)) : list (Z * nat) :=
  match l with [] => [x] | y :: l => if before x y then x :: y :: l else y :: insert_sorted x l end.
Definition sort_keys (l : list (Z * nat)) : list (Z * nat) := fold_right insert_sorted [] l.
Definition object_of (catalog : list group) (k : nat) : option group := find (fun g => g_id g =? k) (List.rev catalog).
Definition by_priority (catalog : list group) : list group :=
  flat_map (fun pk => match object_of catalog (snd pk) with Some g => [g] | None => [] end) (sort_keys (map (fun g => (prio g, g_id g)) catalog)).
(* sets of atoms *)
Definition mem (x : nat) (s : list nat) : bool := existsb (Nat.eqb x) s.
Definition add_atom (s : list nat) (x : nat) : list nat := if mem x s then s else s ++ [x].
Definition union (s t : list nat) : list nat := fold_left add_atom t s.
Definition meets (s t : list nat) : bool := existsb (fun x => mem x t) s.
Definition subset (s t : list nat) : bool := forallb (fun x => mem x t) s.
Definition set_eq (s t : list nat) : bool := subset s t && subset t s.
Definition match_eqb (a b : match_t) : bool := if list_eq_dec Nat.eq_dec a b then true else false.
Definition ignored (k : nat) (m : match_t) (ig : list (nat * match_t)) : bool := existsb (fun q => (fst q =? k) && match_eqb (snd q) m) ig.
(* lines 437-468: run_match; the state is the atoms matched, the counts and the assignments *)
Definition run_state := (list nat * list (nat * nat) * matches)%type.
Definition try_match (mol : molecule) (ig : list (nat * match_t)) (g : group) (st : run_state) (m : match_t) : run_state :=
  let '(matched, counts, assigned) := st in
  if meets m matched then st
  else if set_eq m (m_atoms mol) && negb (m_H mol =? 0) && negb (g_H g =? m_H mol) then st
  else if ignored (g_id g) m ig then st
  else (union matched m,
        dset (g_id g) (S match dget (g_id g) counts with Some n => n | None => 0 end) counts,
        dset (g_id g) (match dget (g_id g) assigned with Some l => l | None => [] end ++ [m]) assigned).
Definition run_match (mol : molecule) (cat : list group) (all : matches) (ig : list (nat * match_t)) : run_state :=
  fold_left (fun st g => match dget (g_id g) all with None => st | Some l => fold_left (try_match mol ig g) l st end) cat ([], [], []).
(* lines 366-376, 413-425: the test of a run *)
Definition sum (l : list nat) : nat := fold_right Nat.add 0 l.
Definition hydrogens (mol : molecule) (catalog : list group) (assigned : matches) : nat :=
  sum (flat_map (fun kl => map (fun m => match object_of catalog (fst kl) with
                                         | Some g => if g_from_smarts g then sum (map (m_H_at mol) m) else g_H g
                                         | None => 0 end) (snd kl)) assigned).
Definition complete (mol : molecule) (catalog : list group) (st : run_state) : bool :=
  let '(matched, _, assigned) := st in (List.length (m_atoms mol) =? List.length matched) && (hydrogens mol catalog assigned =? m_H mol).
(* itertools.combinations *)
Fixpoint combs {A} (n : nat) (l : list A) : list (list A) :=
  match n, l with 0, _ => [[]] | S _, [] => [] | S n', x :: l' => map (cons x) (combs n' l') ++ combs n l' end.
(* lines 406-430: the inner loop; the result is the last run made, the number of tries, done *)
Fixpoint try_combs (mol : molecule) (catalog cat : list group) (all : matches) (max_tries : nat) (cs : list (list (nat * match_t))) (st : run_state) (tries : nat) : run_state * nat * bool :=
  match cs with
  | [] => (st, tries, false)
  | ig :: cs =>
      if max_tries <? S tries then (st, S tries, false)
      else let st := run_match mol cat all ig in
           if complete mol catalog st then (st, S tries, true) else try_combs mol catalog cat all max_tries cs st (S tries)
  end.
(* lines 403-430: the outer loop *)
Fixpoint try_removals (mol : molecule) (catalog cat : list group) (all : matches) (max_tries : nat) (things : list (nat * match_t)) (sizes : list nat) (st : run_state) (tries : nat) : run_state * bool :=
  match sizes with
  | [] => (st, false)
  | r :: sizes =>
      let '(st, tries, done) := try_combs mol catalog cat all max_tries (combs r things) st tries in
      if done then (st, true) else try_removals mol catalog cat all max_tries things sizes st tries
  end.
(* lines 171-435: smarts_fragment_priority; None: the SMILES could not be read (a tuple of three values is returned).
   The answer: counts, assignments, atoms matched, success. The status is 'OK' exactly with success. *)
Inductive answer := Three | Five (counts : list (nat * nat)) (assigned : matches) (matched : list nat) (success : bool).
Definition fragment_priority (mol : option molecule) (catalog : list group) : answer :=
  match mol with
  | None => Three
  | Some mol =>
      let catalog := filter (fun g => match g_prio g with Some _ => true | None => false end) catalog in
      match collect mol catalog [] with
      | inl k => Five [(k, 1)] [(k, [[]])] [] true
      | inr all =>
          let cat := by_priority catalog in
          let covered := union [] (List.concat (flat_map snd all)) in
          let st := run_match mol cat all [] in
          let '(matched, counts, assigned) := st in
          if negb (List.length covered =? List.length (m_atoms mol)) then Five counts assigned matched false
          else if complete mol catalog st then Five counts assigned matched true
          else let things := flat_map (fun kl => map (fun v => (fst kl, v)) (snd kl)) all in
               let '((matched, counts, assigned), done) := try_removals mol catalog cat all 5000 things [1; 2; 3; 4] st 0 in
               Five counts assigned matched done
      end
  end.

(* --- smarts_fragment, lines 472-613 --- *)
(* how often an atom occurs, and the atoms that occur more than once, in the order of their first occurrence *)
Definition times (x : nat) (l : list nat) : nat := List.length (filter (Nat.eqb x) l).
Definition dups (l : list nat) : list nat := filter (fun x => 1 <? times x l) (union [] l).
Definition flat (all : matches) : list nat := List.concat (flat_map snd all).
(* lines 561-565: (group, index, size) of the matches with the atom *)
Fixpoint indexed (i : nat) (l : list match_t) : list (nat * match_t) := match l with [] => [] | m :: l => (i, m) :: indexed (S i) l end.
Definition with_dup (d : nat) (all : matches) : list (nat * nat * nat) :=
  flat_map (fun kl => flat_map (fun im => if mem d (snd im) then [(fst kl, fst im, List.length (snd im))] else []) (indexed 0 (snd kl))) all.
(* del l[i]; None: IndexError *)
Fixpoint del {A} (i : nat) (l : list A) : option (list A) :=
  match l, i with [], _ => None | _ :: l, 0 => Some l | x :: l, S i => match del i l with Some l => Some (x :: l) | None => None end end.
(* lines 578-582 *)
Fixpoint delete_smaller (ds : list (nat * nat * nat)) (size : nat) (all : matches) : option matches :=
  match ds with
  | [] => Some all
  | (k, i, s) :: ds =>
      if s =? size then delete_smaller ds size all
      else match dget k all with
           | None => None
           | Some l => match del i l with None => None | Some l => delete_smaller ds size (dset k l all) end
           end
  end.
Definition maximum (l : list nat) : nat := fold_right Nat.max 0 l.
(* lines 556-590; fuel: 100 - iteration. A tie of the largest size leaves everything as it is *)
Fixpoint dedup (fuel : nat) (all : matches) : option matches :=
  match fuel, dups (flat all) with
  | 0, _ | _, [] => Some all
  | S fuel, d :: _ =>
      let ds := with_dup d all in
      let sizes := map snd ds in
      if 1 <? times (maximum sizes) sizes then dedup fuel all
      else match delete_smaller ds (maximum sizes) all with None => None | Some all => dedup fuel all end
  end.
(* lines 538-547 *)
Definition all_hits (catalog : matches) : matches := filter (fun kl => match snd kl with [] => false | _ => true end) catalog.
(* None: IndexError; Some (counts, success) *)
Definition fragment (natoms : nat) (catalog : matches) (deduplicate : bool) : option (list (nat * nat) * bool) :=
  let all := all_hits catalog in
  let counts := map (fun kl => (fst kl, List.length (snd kl))) all in
  match (if deduplicate then dedup 100 all else Some all) with
  | None => None
  | Some all => Some (counts, (List.length (union [] (flat all)) =? natoms) && (List.length (flat all) =? natoms))
  end.

(* --- lines 100-166: group assignments as strings. Separators are single characters; int() of other texts than str() of an integer is not modelled
   (white space, underscores and a plus sign are accepted by Python). --- *)
Definition str_int (z : Z) : string := NilZero.string_of_int (Z.to_int z).
Definition int_str (s : string) : option Z := match NilZero.int_of_string s with Some d => Some (Z.of_int d) | None => None end.
Fixpoint join (sep : ascii) (l : list string) : string :=
  match l with [] => EmptyString | [x] => x | x :: l => (x ++ String sep (join sep l))%string end.
(* s.split(sep) *)
Fixpoint split (sep : ascii) (s : string) : list string :=
  match s with
  | EmptyString => [EmptyString]
  | String c s => let r := split sep s in
      if Ascii.eqb c sep then EmptyString :: r else match r with [] => [String c EmptyString] | h :: t => String c h :: t end
  end.
Definition assignment_to_str (ps kv : ascii) (counts : list (Z * Z)) : string :=
  join ps (map (fun p => (str_int (fst p) ++ String kv (str_int (snd p)))%string) counts).
Fixpoint zset (k v : Z) (d : list (Z * Z)) : list (Z * Z) := match d with [] => [(k, v)] | (q, w) :: d => if (q =? k)%Z then (q, v) :: d else (q, w) :: zset k v d end.
Definition str_to_assignment (ps kv : ascii) (s : string) : option (list (Z * Z)) :=
  match s with
  | EmptyString => Some []
  | _ => fold_left (fun d g => match d, split kv g with
                               | Some d, [k; v] => match int_str k, int_str v with Some k, Some v => Some (zset k v d) | _, _ => None end
                               | _, _ => None end) (split ps s) (Some [])
  end.
