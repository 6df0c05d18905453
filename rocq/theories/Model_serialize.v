(* Serialization of object graphs: thermo/serialize.py, class JsonOptEncodable. *)
From Coq Require Import ZArith Reals Arith List Bool String DecimalString DecimalNat Decimal.
Import ListNotations.
Open Scope string_scope.
Open Scope list_scope.

(* Python values: None, numbers, text, a reference to an object of the library (its address), list, numpy array (of the nested list tolist gives), tuple, dict.
   Sets, ranges and other classes, which the hooks _custom_as_json / _custom_from_json of some classes convert, are not modelled, and neither are these hooks *)
Inductive prim := PNone | PBool (b : bool) | PInt (z : Z) | PFloat (x : R).
Inductive val := VPrim (p : prim) | VStr (s : string) | VObj (a : nat) | VList (l : list val) | VArr (l : list val) | VTup (l : list val) | VDict (l : list (string * val)).
Notation dict := (list (string * val)).
(* an object: its class and the attributes object_data collects; the memory is the list of the objects, an address (id) is a position in it *)
Record obj := { o_class : string; o_attrs : dict }.
(* what is read of a class: obj_references (None: every attribute), non_json_attributes, recalculable_attributes (or none), json_version *)
Record klass := { refs : option (list string); dropped : list string; recalculable : list string; version : val }.

(* dictionaries keep the order of insertion; assignment to a key that is present keeps its place *)
Fixpoint dget {A} (k : string) (d : list (string * A)) : option A := match d with [] => None | (k', v) :: d' => if String.eqb k k' then Some v else dget k d' end.
Fixpoint dset {A} (k : string) (v : A) (d : list (string * A)) : list (string * A) := match d with [] => [(k, v)] | (k', v') :: d' => if String.eqb k k' then (k', v) :: d' else (k', v') :: dset k v d' end.
Definition ddel {A} (ks : list string) (d : list (string * A)) : list (string * A) := filter (fun kv => negb (existsb (String.eqb (fst kv)) ks)) d.
Definition keys {A} (d : list (string * A)) : list string := map fst d.
(* the dictionary id_to_num_str *)
Fixpoint idget (a : nat) (ids : list (nat * string)) : option string := match ids with [] => None | (b, s) :: ids' => if Nat.eqb a b then Some s else idget a ids' end.
(* f'pyid_{num}' and startswith('pyid_') *)
Definition ref_name (n : nat) : string := String.append "pyid_" (NilEmpty.string_of_uint (Nat.to_uint n)).
Definition is_ref (s : string) : bool := prefix "pyid_" s.

(* lines 77-96: arrays_to_lists. Lists are not searched *)
Fixpoint arrays_to_lists (v : val) : val :=
  match v with
  | VDict l => VDict (map (fun kv => match kv with (k, v) => (k, arrays_to_lists v) end) l)
  | VTup l => VTup (map arrays_to_lists l)
  | VArr l => VList l
  | _ => v
  end.
(* lines 99-121: naive_lists_to_arrays; array of a nested list that is not ragged *)
Definition as_array (v : val) : val := match v with VList l => VArr l | _ => v end.
Fixpoint ragged (length : nat) (l : list val) : bool := match l with [] => false | VList x :: l' => if Nat.eqb (List.length x) length then ragged length l' else true | _ => false end.
Definition list_to_array (l : list val) : val := match l with VList x :: ((_ :: _) as rows) => if ragged (List.length x) rows then VTup (map as_array l) else VArr l | _ => VArr l end.
Fixpoint naive_lists_to_arrays (v : val) : val :=
  match v with
  | VDict l => VDict (map (fun kv => match kv with (k, v) => (k, naive_lists_to_arrays v) end) l)
  | VTup l => VTup (map naive_lists_to_arrays l)
  | VList l => list_to_array l
  | _ => v
  end.
Definition on_dict (f : val -> val) (d : dict) : dict := map (fun kv => (fst kv, f (snd kv))) d.
Definition is_vectorized (d : dict) : bool := match dget "vectorized" d with Some (VPrim (PBool b)) => b | _ => false end.

Section Classes.
Variable classes : string -> option klass. (* object_lookups *)
Variable H : list obj.

(* lines 233-324: as_json. The state is (num_to_object, id_to_num_str). None: an exception, e.g. of calling as_json of a number *)
Notation table := (list (string * dict)).
Notation cache := (table * list (nat * string))%type.
Definition kept (option : bool) (k : klass) (o : obj) : dict := let d := ddel (dropped k) (o_attrs o) in if option then ddel (recalculable k) d else d.
Section Rec.
Variable rec : nat -> cache -> option (dict * cache).
(* lines 281-288, 293-300, 304-310: the reference to a value, serialized on first use after its name is claimed *)
Definition claim (v : val) (c : cache) : option (val * cache) :=
  match v with
  | VObj a =>
    let '(tbl, ids) := c in
    match idget a ids with
    | Some s => Some (VStr s, c)
    | None => let s := ref_name (List.length ids) in
      match rec a (tbl, ids ++ [(a, s)]) with None => None | Some (j, (tbl', ids')) => Some (VStr s, (dset s j tbl', ids')) end
    end
  | _ => None
  end.
Fixpoint claim_list (l : list val) (c : cache) : option (list val * cache) :=
  match l with [] => Some ([], c) | v :: l' => match claim v c with None => None | Some (s, c') => match claim_list l' c' with None => None | Some (r, c'') => Some (s :: r, c'') end end end.
Fixpoint claim_dict (l : dict) (c : cache) : option (dict * cache) :=
  match l with [] => Some ([], c) | (k, v) :: l' => match claim v c with None => None | Some (s, c') => match claim_dict l' c' with None => None | Some (r, c'') => Some ((k, s) :: r, c'') end end end.
(* lines 268-311 *)
Definition claim_attr (v : val) (c : cache) : option (val * cache) :=
  match v with
  | VPrim _ | VStr _ => Some (v, c)
  | VList l => match claim_list l c with None => None | Some (r, c') => Some (VList r, c') end
  | VDict l => match claim_dict l c with None => None | Some (r, c') => Some (VDict r, c') end
  | _ => claim v c
  end.
Fixpoint claim_attrs (names : list string) (d : dict) (c : cache) : option (dict * cache) :=
  match names with
  | [] => Some (d, c)
  | n :: names' => match dget n d with None => claim_attrs names' d c | Some v => match claim_attr v c with None => None | Some (v', c') => claim_attrs names' (dset n v' d) c' end end
  end.
End Rec.
(* The nested calls v.as_json(cache) have option=0. fuel bounds the depth of the recursion *)
Fixpoint as_json (fuel : nat) (option : bool) (a : nat) (c : cache) : Datatypes.option (dict * cache) :=
  match fuel with O => None | S fuel' =>
  match nth_error H a with None => None | Some o =>
  match classes (o_class o) with None => None | Some k =>
  let d := kept option k o in
  let search := match refs k with Some r => r | None => keys d end in
  match claim_attrs (as_json fuel' false) search d c with None => None | Some (d', c') =>
  let d'' := if is_vectorized (o_attrs o) then on_dict arrays_to_lists d' else d' in
  Some (dset "json_version" (version k) (dset "py/object" (VStr (o_class o)) d''), c') end end end end.
(* the call without a cache, lines 241-245 and 321-323; a depth of one more than the number of objects is always enough *)
Definition serialize (option : bool) (a : nat) : Datatypes.option table :=
  match as_json (S (List.length H)) option a ([("pyid_0", [])], [(a, "pyid_0")]) with None => None | Some (d, (tbl, _)) => Some (dset "pyid_0" d tbl) end.
End Classes.

Section Loading.
Variable classes : string -> option klass.
Notation table := (list (string * dict)).
(* lines 326-382: from_json: the json, which is changed in place, the objects made for the names, and the memory *)
Record lstate := { js : table; made : list (string * nat); mem : list obj }.
Section Rec.
Variable rec : string -> lstate -> option lstate.
(* lines 355-357, 363-365, 372-374: the object of a reference, made on first use *)
Definition fetch (v : val) (st : lstate) : option (val * lstate) :=
  match v with
  | VStr s => match (match dget s (made st) with Some _ => Some st | None => rec s st end) with None => None | Some st' => match dget s (made st') with Some a => Some (VObj a, st') | None => None end end
  | _ => None
  end.
Fixpoint fetch_list (l : list val) (st : lstate) : option (list val * lstate) :=
  match l with [] => Some ([], st) | v :: l' => match fetch v st with None => None | Some (o, st') => match fetch_list l' st' with None => None | Some (r, st'') => Some (o :: r, st'') end end end.
Fixpoint fetch_dict (l : dict) (st : lstate) : option (dict * lstate) :=
  match l with [] => Some ([], st) | (k, v) :: l' => match fetch v st with None => None | Some (o, st') => match fetch_dict l' st' with None => None | Some (r, st'') => Some ((k, o) :: r, st'') end end end.
Definition fetch_attr (v : val) (st : lstate) : option (val * lstate) :=
  match v with
  | VStr s => if is_ref s then fetch v st else Some (v, st)
  | VList ((VStr s :: _) as l) => if is_ref s then match fetch_list l st with None => None | Some (r, st') => Some (VList r, st') end else Some (v, st)
  | VDict (((_, VStr s) :: _) as l) => if is_ref s then match fetch_dict l st with None => None | Some (r, st') => Some (VDict r, st') end else Some (v, st)
  | _ => Some (v, st)
  end.
Fixpoint fetch_attrs (names : list string) (d : dict) (st : lstate) : option (dict * lstate) :=
  match names with
  | [] => Some (d, st)
  | n :: names' => match dget n d with None => fetch_attrs names' d st | Some v => match fetch_attr v st with None => None | Some (v', st') => fetch_attrs names' (dset n v' d) st' end end
  end.
End Rec.
Fixpoint set_nth {A} (n : nat) (x : A) (l : list A) : list A := match l, n with [], _ => [] | _ :: l', O => x :: l' | y :: l', S n' => y :: set_nth n' x l' end.
(* A class whose __new__ raises is not modelled. The dictionary changed in the loop is the entry of the table itself, unless the object is vectorized *)
Fixpoint from_json (fuel : nat) (ref : string) (st : lstate) : option lstate :=
  match fuel with O => None | S fuel' =>
  match dget ref (js st) with None => None | Some d =>
  match dget "py/object" d, dget "json_version" d with
  | Some (VStr cl), Some _ =>
    let d1 := ddel ["py/object"; "json_version"] d in
    match classes cl with None => None | Some k =>
    let a := List.length (mem st) in
    let st1 := {| js := dset ref d1 (js st); made := made st ++ [(ref, a)]; mem := mem st ++ [{| o_class := cl; o_attrs := [] |}] |} in
    let search := match refs k with Some r => r | None => keys d1 end in
    let d2 := if is_vectorized d1 then on_dict naive_lists_to_arrays d1 else d1 in
    match fetch_attrs (from_json fuel') search d2 st1 with None => None | Some (d3, st2) =>
    Some {| js := if is_vectorized d1 then js st2 else dset ref d3 (js st2); made := made st2; mem := set_nth a {| o_class := cl; o_attrs := d3 |} (mem st2) |} end end
  | _, _ => None
  end end end.
(* from_json(json_repr): the new object, the memory and the json afterwards. A depth of the number of entries is always enough *)
Definition load (t : table) (memory : list obj) : option (nat * list obj * table) :=
  match from_json (S (List.length t)) "pyid_0" {| js := t; made := []; mem := memory |} with
  | None => None
  | Some st => match dget "pyid_0" (made st) with Some a => Some (a, mem st, js st) | None => None end
  end.
End Loading.
