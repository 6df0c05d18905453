(* Model of thermo/chemical_package.py: ChemicalConstantsPackage and PropertyCorrelationsPackage (construction, addition, subsetting and
   component lookup).  Names and constructor tables are in Gen_package.v. *)
From Coq Require Import Reals String List Bool Arith ZArith.
From Verif Require Import Gen_package.
Import ListNotations.
Open Scope list_scope.
Open Scope nat_scope.

Definition prop_eq_dec (a b : prop) : {a = b} + {a <> b}. Proof. decide equality. Defined.
Definition corr_eq_dec (a b : corr) : {a = b} + {a <> b}. Proof. decide equality. Defined.
Definition mixture_eq_dec (a b : mixture) : {a = b} + {a <> b}. Proof. decide equality. Defined.
Definition has (x : prop) (l : list prop) : bool := if in_dec prop_eq_dec x l then true else false.

(* a constant of one component; anything that is not None, a string, an integer, a number or a dict of counts is an opaque object *)
Inductive value : Type := VNone | VStr (s : string) | VInt (z : Z) | VFloat (r : R) | VDict (d : list (string * Z)) | VObject (n : nat).
Inductive error : Set := Index_error | Key_error | Value_error | Type_error | Attribute_error.
Inductive res (A : Type) : Type := Ok (a : A) | Raise (e : error).
Arguments Ok {A} _. Arguments Raise {A} _.
Definition bind {A B} (r : res A) (f : A -> res B) : res B := match r with Ok a => f a | Raise e => Raise e end.

(* keyword arguments; None stands for a keyword left at its default None *)
Definition kwargs := prop -> option (list value).
Definition no_kwargs : kwargs := fun _ => None.
Definition set_kw (k : kwargs) (x : prop) (v : list value) : kwargs := fun y => if prop_eq_dec y x then Some v else k y.
(* the attributes of a package (the caches _hash, _CAS_to_index and _unique_atoms are not modelled: they are derived from them) *)
Record package := { N : nat; attr : prop -> option (list value); water_index : option nat; n_atoms : option (list Z) }.

(* what identifiers are compared with: strings and integers *)
Inductive key : Set := KStr (s : string) | KInt (z : Z).
Definition is_key (k : key) (v : value) : bool := match k, v with KStr a, VStr b => String.eqb a b | KInt a, VInt b => Z.eqb a b | _, _ => false end.
(* list.index *)
Fixpoint first_index (k : key) (l : list value) : option nat := match l with [] => None | v :: l => if is_key k v then Some 0 else option_map S (first_index k l) end.
(* lookup in {CAS: i for i, CAS in enumerate(CASs)}: a later entry replaces an earlier one *)
Fixpoint last_index (k : key) (l : list value) : option nat := match l with [] => None | v :: l => match last_index k l with Some i => Some (S i) | None => if is_key k v then Some 0 else None end end.
(* [sum(i.values()) for i in atomss], None when an entry has no values() *)
Fixpoint atom_counts (l : list value) : option (list Z) :=
  match l with [] => Some [] | VDict d :: l => option_map (cons (fold_right Z.add 0%Z (map snd d))) (atom_counts l) | _ :: _ => None end.

(* lines 1027-1280: ChemicalConstantsPackage.__init__; no check that the lists have the same length *)
Definition new_package (kw : kwargs) : res package :=
  match kw MWs with
  | None => Raise Type_error
  | Some mws =>
      let n := length mws in
      let arg x := match kw x with Some v => Some v | None => if has x defaulted then Some (repeat VNone n) else None end in
      match arg CASs with
      | None => Raise Attribute_error
      | Some cas =>
          Ok {| N := n; attr := fun x => arg (assigned x); water_index := first_index (KStr "7732-18-5"%string) cas; n_atoms := match arg atomss with Some l => atom_counts l | None => None end |}
      end
  end.

(* a loop 'for p in ps: v = getattr(self, p); if v is not None: new[p] = f(v)' *)
Fixpoint collect (p : package) (f : prop -> list value -> res (list value)) (ps : list prop) (new : kwargs) : res kwargs :=
  match ps with
  | [] => Ok new
  | x :: ps => match attr p x with
               | None => collect p f ps new
               | Some v => bind (f x v) (fun v' => collect p f ps (set_kw new x v'))
               end
  end.

(* lines 552-559, 663-691: as_dict and __add__ *)
Definition add_packages (a b : package) : res package :=
  bind (collect a (fun x v => match attr b x with Some u => Ok (v ++ u) | None => Raise Key_error end) properties no_kwargs) new_package.
(* lines 693-724: with_new_constants *)
Definition with_new_constants (p : package) (kw : kwargs) : res package :=
  bind (collect p (fun _ v => Ok v) non_vector_properties no_kwargs) (fun new => new_package (fun x => match kw x with Some v => Some v | None => new x end)).

(* Python indexing of a list with a possibly negative integer, and slicing (language semantics) *)
Definition py_index (n : nat) (z : Z) : option nat :=
  if (0 <=? z)%Z && (z <? Z.of_nat n)%Z then Some (Z.to_nat z) else if (- Z.of_nat n <=? z)%Z && (z <? 0)%Z then Some (Z.to_nat (z + Z.of_nat n)) else None.
Fixpoint py_indices (n : nat) (zs : list Z) : option (list nat) :=
  match zs with [] => Some [] | z :: zs => match py_index n z, py_indices n zs with Some i, Some l => Some (i :: l) | _, _ => None end end.
Definition slice_indices (start stop step : option Z) (n : nat) : option (list nat) :=
  let len := Z.of_nat n in
  let k := match step with Some k => k | None => 1%Z end in
  if (k =? 0)%Z then None
  else
    let lower := if (k <? 0)%Z then (-1)%Z else 0%Z in
    let upper := if (k <? 0)%Z then (len - 1)%Z else len in
    let clip z := if (z <? 0)%Z then Z.max (z + len) lower else Z.min z upper in
    let i := match start with Some z => clip z | None => if (k <? 0)%Z then upper else lower end in
    let j := match stop with Some z => clip z | None => if (k <? 0)%Z then lower else upper end in
    let count := if (k <? 0)%Z then ((i - j - k - 1) / - k)%Z else ((j - i + k - 1) / k)%Z in
    Some (map (fun m => Z.to_nat (i + Z.of_nat m * k)) (seq 0 (Z.to_nat count))).
Inductive selector : Set := All | Slice (start stop step : option Z) | Idxs (l : list Z).
Definition pick (l : list value) (sel : list nat) : list value := map (fun i => nth i l VNone) sel.

(* lines 726-811: subset *)
Definition subset (p : package) (idxs : selector) (requested : option (list prop)) : res package :=
  let idxs := match idxs with All => Idxs (map Z.of_nat (seq 0 (N p))) | s => s end in
  let ps := match requested with None => non_vector_properties | Some l => if has MWs l then l else l ++ [MWs] end in
  let take (v : list value) (i : Z) := match py_index (length v) i with Some k => Ok (nth k v VNone) | None => Raise Index_error end in
  match idxs with
  | All => Raise Type_error (* replaced above *)
  | Slice a b c => bind (collect p (fun _ v => match slice_indices a b c (length v) with Some s => Ok (pick v s) | None => Raise Value_error end) ps no_kwargs) new_package
  | Idxs [] => Raise Index_error
  | Idxs [i] => bind (collect p (fun _ v => bind (take v i) (fun x => Ok [x])) ps no_kwargs) new_package
  | Idxs l => bind (collect p (fun _ v => fold_right (fun i r => bind (take v i) (fun x => bind r (fun t => Ok (x :: t)))) (Ok []) l) ps no_kwargs) new_package
  end.

(* lines 831-895: compound_index; the six identifiers in the order they are tried *)
Definition compound_index (p : package) (CAS name smiles InChI InChI_Key PubChem : option key) : res nat :=
  let index x k := match attr p x with None => Raise Attribute_error | Some l => match first_index k l with Some i => Ok i | None => Raise Value_error end end in
  match CAS with
  | Some k => match attr p CASs with None => Raise Type_error | Some l => match last_index k l with Some i => Ok i | None => Raise Key_error end end
  | None => match name with Some k => index names k
  | None => match smiles with Some k => index smiless k
  | None => match InChI with Some k => index InChIs k
  | None => match InChI_Key with Some k => index InChI_Keys k
  | None => match PubChem with Some k => index PubChems k
  | None => Raise Value_error end end end end end end.

(* ---- PropertyCorrelationsPackage ---- *)
(* a property object: given by the caller, or built with keyword arguments *)
Inductive obj : Type := Given (n : nat) | Built (cls : string) (args : list (string * arg))
with arg : Type := AValue (v : value) | AValues (l : list value) | AObject (o : obj) | AObjects (l : list obj) | ANone | AUser (cls : string) (cas : value).
Record correlations := { constants : package; skip_missing : bool; pure : corr -> option (list obj); mix : mixture -> option obj }.
Definition ckw := corr -> option (list obj).
Definition mkw := mixture -> option obj.
Definition set_corr (k : ckw) (x : corr) (v : list obj) : ckw := fun y => if corr_eq_dec y x then Some v else k y.
Definition set_mix (k : mkw) (x : mixture) (v : obj) : mkw := fun y => if mixture_eq_dec y x then Some v else k y.
Fixpoint traverse {A B} (f : A -> res B) (l : list A) : res (list B) := match l with [] => Ok [] | x :: l => bind (f x) (fun y => bind (traverse f l) (fun ys => Ok (y :: ys))) end.
Definition at_index {A} (l : option (list A)) (i : nat) : res A := match l with None => Raise Type_error | Some l => match nth_error l i with Some v => Ok v | None => Raise Index_error end end.
Definition pure_arg (c : package) (k : ckw) (i : nat) (s : source) : res arg :=
  match s with
  | From_constants x => bind (at_index (attr c x) i) (fun v => Ok (AValue v))
  | From_correlation x => bind (at_index (k x) i) (fun o => Ok (AObject o))
  | From_nothing => Ok ANone
  | From_user_database cls => bind (at_index (attr c CASs) i) (fun v => Ok (AUser cls v))
  end.
(* a mixture object gets whole lists (a list that is None is passed on as None) *)
Definition mixture_arg (c : package) (k : ckw) (s : source) : arg :=
  match s with
  | From_constants x => match attr c x with Some l => AValues l | None => ANone end
  | From_correlation x => match k x with Some l => AObjects l | None => ANone end
  | _ => ANone
  end.
Definition build (c : package) (k : ckw) (cls : string) (args : list (string * source)) (i : nat) : res obj :=
  bind (traverse (fun a => bind (pure_arg c k i (snd a)) (fun v => Ok (fst a, v))) args) (fun l => Ok (Built cls l)).
(* lines 1715-1899: PropertyCorrelationsPackage.__init__ *)
Fixpoint build_all (c : package) (steps : list (corr * (string * list (string * source)))) (k : ckw) : res ckw :=
  match steps with
  | [] => Ok k
  | (x, (cls, args)) :: steps => match k x with
      | Some _ => build_all c steps k
      | None => bind (traverse (build c k cls args) (seq 0 (N c))) (fun l => build_all c steps (set_corr k x l))
      end
  end.
Fixpoint build_mixtures (c : package) (k : ckw) (steps : list (mixture * (string * list (string * source)))) (m : mkw) : mkw :=
  match steps with
  | [] => m
  | (x, (cls, args)) :: steps => match m x with
      | Some _ => build_mixtures c k steps m
      | None => build_mixtures c k steps (set_mix m x (Built cls (map (fun a => (fst a, mixture_arg c k (snd a))) args)))
      end
  end.
Definition new_correlations (c : package) (k : ckw) (m : mkw) (skip : bool) : res correlations :=
  bind (if skip then Ok k else build_all c build_steps k) (fun k =>
  let m := if skip then m else build_mixtures c k mixture_steps m in
  Ok {| constants := c; skip_missing := skip; pure := fun x => k (corr_assigned x); mix := fun x => m (mixture_assigned x) |}).

(* lines 1679-1712: subset.  [values[i] for i in idxs] with idxs None is a TypeError *)
Fixpoint collect_corr (p : correlations) (f : list obj -> res (list obj)) (cs : list corr) (new : ckw) : res ckw :=
  match cs with
  | [] => Ok new
  | x :: cs => match pure p x with None => collect_corr p f cs new | Some v => bind (f v) (fun v' => collect_corr p f cs (set_corr new x v')) end
  end.
Definition subset_correlations (p : correlations) (idxs : selector) : res correlations :=
  let at_indexes (v : list obj) := match idxs with
    | All => Raise Type_error
    | Slice a b c => match slice_indices a b c (length v) with Some s => Ok (map (fun i => nth i v (Given 0)) s) | None => Raise Value_error end
    | Idxs l => traverse (fun i => match py_index (length v) i with Some k => Ok (nth k v (Given 0)) | None => Raise Index_error end) l end in
  bind (subset (constants p) idxs None) (fun c => bind (collect_corr p at_indexes pure_correlations (fun _ => None)) (fun k => new_correlations c k (fun _ => None) (skip_missing p))).
(* lines 1647-1677: __add__; None + None and None + list are TypeErrors.  The attributes are visited in the order the constructor sets them *)
Fixpoint add_pure (a b : correlations) (cs : list corr) (new : ckw) : res ckw :=
  match cs with
  | [] => Ok new
  | x :: cs => match pure a x, pure b x with Some u, Some v => add_pure a b cs (set_corr new x (u ++ v)) | _, _ => Raise Type_error end
  end.
Definition add_correlations (a b : correlations) : res correlations :=
  bind (add_packages (constants a) (constants b)) (fun c => bind (add_pure a b pure_correlations (fun _ => None)) (fun k =>
  new_correlations c k (fun _ => None) (skip_missing a || skip_missing b))).
