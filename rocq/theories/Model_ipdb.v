(* Model of thermo/interaction_parameters.py: InteractionParameterDB and ScalarParameterDB. *)
From Coq Require Import Reals String Ascii List Bool Arith ZArith.
From Verif Require Import Base.
Import ListNotations.
Open Scope list_scope.
Open Scope nat_scope.

(* a json value of a parameter: null (None), nan or a number *)
Inductive pval : Type := Null | Nan | Num (r : R).
(* dictionaries in insertion order; the first entry for a key counts *)
Definition dict (A : Type) := list (string * A).
Fixpoint find {A} (k : string) (d : dict A) : option A := match d with [] => None | (x, v) :: d => if String.eqb x k then Some v else find k d end.
(* d[k] = v: replaces in place or appends *)
Fixpoint store {A} (k : string) (v : A) (d : dict A) : dict A := match d with [] => [(k, v)] | (x, u) :: d => if String.eqb x k then (x, v) :: d else (x, u) :: store k v d end.
Definition table := dict (dict pval).
(* the metadata fields the code reads *)
Record meta := { symmetric : bool; components : nat; necessary_keys : list string; type : string; missing : dict pval }.
Record db := { tables : dict table; metadata : dict meta }.
Inductive lookup_error : Set := Key_error | Index_error | Assertion_error.
Inductive lres (A : Type) : Type := Ok (a : A) | Raise (e : lookup_error).
Arguments Ok {A} _. Arguments Raise {A} _.
Definition bind {A B} (r : lres A) (f : A -> lres B) : lres B := match r with Ok a => f a | Raise e => Raise e end.
Definition get {A} (k : string) (d : dict A) : lres A := match find k d with Some v => Ok v | None => Raise Key_error end.
(* ' '.join and str.split(' ') *)
Definition join (l : list string) : string := String.concat " " l.
Fixpoint split (s : string) : list string :=
  match s with
  | EmptyString => [EmptyString]
  | String c s => if Ascii.eqb c " " then EmptyString :: split s else match split s with x :: l => String c x :: l | [] => [String c EmptyString] end
  end.

Section DB.
(* chemicals.identifiers: CAS_to_int (the digits as a number) and check_CAS *)
Variables (cas_int : string -> Z) (check_CAS : string -> bool).
(* chemicals.identifiers.sorted_CAS_key: the CAS numbers sorted by the pairs (CAS_to_int(CAS), CAS) *)
Definition cas_le (a b : string) : bool := if (cas_int a <? cas_int b)%Z then true else if (cas_int b <? cas_int a)%Z then false else match String.compare a b with Gt => false | _ => true end.
Fixpoint insert_cas (x : string) (l : list string) : list string := match l with [] => [x] | y :: l => if cas_le x y then x :: y :: l else y :: insert_cas x l end.
Definition sorted_CAS_key (l : list string) : list string := fold_right insert_cas [] l.

(* lines 63-65 and 67-117: __init__ and load_json *)
Definition empty_db : db := {| tables := []; metadata := [] |}.
Definition load_json (d : db) (data : table) (m : meta) (name : string) : db := {| tables := store name data (tables d); metadata := store name m (metadata d) |}.

(* lines 119-145: validate_table *)
Definition check (b : bool) : lres unit := if b then Ok tt else Raise Assertion_error.
Fixpoint each {A} (f : A -> lres unit) (l : list A) : lres unit := match l with [] => Ok tt | x :: l => bind (f x) (fun _ => each f l) end.
Definition validate_table (d : db) (name : string) : lres unit :=
  bind (get name (tables d)) (fun t => bind (get name (metadata d)) (fun m =>
  each (fun e =>
    let CASs := split (fst e) in
    bind (check (length CASs =? components m)) (fun _ => bind (check (forallb check_CAS CASs)) (fun _ =>
    bind (get (fst e) t) (fun values =>
    each (fun i => match find i values with None => Raise Assertion_error | Some Null => Raise Assertion_error | Some Nan => Raise Assertion_error | Some (Num _) => Ok tt end) (necessary_keys m))))) t)).

(* the key of a lookup (lines 172-175, 208-211) *)
Definition key_of (m : meta) (CASs : list string) : string := if symmetric m then join (sorted_CAS_key CASs) else join CASs.
(* lines 147-179: has_ip_specific *)
Definition has_ip_specific (d : db) (name : string) (CASs : list string) (ip : string) : lres bool :=
  bind (get name (metadata d)) (fun m => bind (get name (tables d)) (fun t =>
  Ok (match find (key_of m CASs) t with None => false | Some values => match find ip values with Some _ => true | None => false end end))).
(* lines 181-215: get_ip_specific *)
Definition get_ip_specific (d : db) (name : string) (CASs : list string) (ip : string) : lres pval :=
  bind (get name (metadata d)) (fun m =>
  match bind (get name (tables d)) (fun t => bind (get (key_of m CASs) t) (fun values => get ip values)) with
  | Ok v => Ok v
  | Raise _ => get ip (missing m)
  end).
(* lines 217-240: get_tables_with_type *)
Definition get_tables_with_type (d : db) (ip_type : string) : list string := map fst (filter (fun e => String.eqb (type (snd e)) ip_type) (metadata d)).
(* lines 242-267: get_ip_automatic *)
Definition get_ip_automatic (d : db) (CASs : list string) (ip_type ip : string) : lres pval :=
  match get_tables_with_type d ip_type with [] => Raise Index_error | t :: _ => get_ip_specific d t CASs ip end.

(* lists of lists, as functions of the two indices *)
Definition matrix := nat -> nat -> pval.
Definition put (i j : nat) (v : pval) (M : matrix) : matrix := fun a b => if (a =? i) && (b =? j) then v else M a b.
Fixpoint iterate {S} (f : nat -> S -> lres S) (l : list nat) (s : S) : lres S := match l with [] => Ok s | i :: l => bind (f i s) (iterate f l) end.
(* lines 269-308: get_ip_symmetric_matrix *)
Definition get_ip_symmetric_matrix (d : db) (name : string) (CASs : list string) (ip : string) : lres matrix :=
  bind (get name (tables d)) (fun _ =>
  let N := length CASs in
  iterate (fun i => iterate (fun j values =>
    if i =? j then Ok (put i j (Num 0) (put j i (Num 0) values))
    else match values j i with
      | Null => bind (get_ip_specific d name [nth i CASs EmptyString; nth j CASs EmptyString] ip) (fun i_ip => Ok (put j i i_ip (put i j i_ip values)))
      | _ => Ok values
      end) (seq 0 N)) (seq 0 N) (fun _ _ => Null)).
(* lines 310-345: get_ip_asymmetric_matrix *)
Definition get_ip_asymmetric_matrix (d : db) (name : string) (CASs : list string) (ip : string) : lres matrix :=
  bind (get name (tables d)) (fun _ =>
  let N := length CASs in
  iterate (fun i => iterate (fun j values =>
    if i =? j then Ok (put i j (Num 0) values)
    else bind (get_ip_specific d name [nth i CASs EmptyString; nth j CASs EmptyString] ip) (fun i_ip => Ok (put i j i_ip values))) (seq 0 N)) (seq 0 N) (fun _ _ => Null)).
End DB.

(* ---- ScalarParameterDB: the same tables, keyed by one CAS number; only 'missing' of the metadata is read ---- *)
(* lines 403-433: get_parameter_specific *)
Definition get_parameter_specific (d : db) (name CAS parameter : string) : lres pval :=
  match bind (get name (tables d)) (fun t => bind (get CAS t) (fun values => get parameter values)) with
  | Ok v => Ok v
  | Raise _ => bind (get name (metadata d)) (fun m => get parameter (missing m))
  end.
(* lines 435-463: has_parameter_specific *)
Definition has_parameter_specific (d : db) (name CAS parameter : string) : lres bool :=
  bind (get name (tables d)) (fun t => Ok (match find CAS t with None => false | Some values => match find parameter values with Some _ => true | None => false end end)).
(* lines 465-488: get_tables_with_type *)
Definition tables_with_parameter (d : db) (parameter : string) : list string := map fst (filter (fun e => match find parameter (missing (snd e)) with Some _ => true | None => false end) (metadata d)).
(* lines 490-513: get_parameter_automatic *)
Definition get_parameter_automatic (d : db) (CAS parameter : string) : lres pval :=
  match tables_with_parameter d parameter with [] => Raise Index_error | t :: _ => get_parameter_specific d t CAS parameter end.
(* lines 515-548: get_parameter_vector *)
Definition get_parameter_vector (d : db) (name : string) (CASs : list string) (parameter : string) : lres (list pval) :=
  bind (get name (tables d)) (fun _ => fold_right (fun c r => bind (get_parameter_specific d name c parameter) (fun v => bind r (fun l => Ok (v :: l)))) (Ok []) CASs).
