(* What a copy of an object graph is, and which objects can be serialized. *)
From Coq Require Import Arith List Bool String.
From Verif Require Import Model_serialize.
Import ListNotations.
Open Scope list_scope.

(* the attributes of an object that as_json is meant to save: not those the class excludes, and, when option is set, not those that can be recalculated *)
Definition to_save (option : bool) (k : klass) (o : obj) : dict :=
  filter (fun kv => negb (existsb (String.eqb (fst kv)) (dropped k)) && negb (option && existsb (String.eqb (fst kv)) (recalculable k))) (o_attrs o).
Definition vectorized (o : obj) : Prop := In ("vectorized"%string, VPrim (PBool true)) (o_attrs o).
(* the addresses in a value, and the value with other addresses *)
Fixpoint refs_in (v : val) : list nat :=
  match v with
  | VObj a => [a]
  | VList l | VArr l | VTup l => flat_map refs_in l
  | VDict l => flat_map (fun kv => match kv with (_, v) => refs_in v end) l
  | _ => []
  end.
Fixpoint rename (f : nat -> nat) (v : val) : val :=
  match v with
  | VObj a => VObj (f a)
  | VList l => VList (map (rename f) l)
  | VArr l => VArr (map (rename f) l)
  | VTup l => VTup (map (rename f) l)
  | VDict l => VDict (map (fun kv => match kv with (k, v) => (k, rename f v) end) l)
  | _ => v
  end.
Section Graphs.
Variable saved : nat -> obj -> dict. (* the attributes of the object at an address that are meant to be saved *)
Variable H : list obj.
(* the objects that can be reached from a through saved attributes *)
Inductive reaches (a : nat) : nat -> Prop :=
| reaches_self : reaches a a
| reaches_step b c o k v : reaches a b -> nth_error H b = Some o -> In (k, v) (saved b o) -> In c (refs_in v) -> reaches a c.
(* f maps the objects reached from a one-to-one to objects in H' of the same classes with the same attributes, up to f: the same values, the same sharing and the same cycles *)
Record is_copy (a : nat) (H' : list obj) (a' : nat) (f : nat -> nat) : Prop := {
  copy_root : f a = a';
  copy_one_to_one : forall b c, reaches a b -> reaches a c -> f b = f c -> b = c;
  copy_content : forall b, reaches a b -> exists o, nth_error H b = Some o /\ nth_error H' (f b) = Some {| o_class := o_class o; o_attrs := map (fun kv => (fst kv, rename f (snd kv))) (saved b o) |} }.
End Graphs.
(* recalculable attributes are left out of the object as_json is called for only *)
Definition saved_of (classes : string -> option klass) (option : bool) (root : nat) (b : nat) (o : obj) : dict := match classes (o_class o) with Some k => to_save (option && Nat.eqb b root) k o | None => [] end.

(* An attribute listed in obj_references holds an object, a list or a dict of objects, or a simple value that is not mistaken for a reference *)
Definition is_obj (v : val) : Prop := exists a, v = VObj a.
Definition ref_value (vectorized : Prop) (v : val) : Prop :=
  match v with
  | VPrim _ | VObj _ => True
  | VStr s => prefix "pyid_" s = false
  | VList l => ~ vectorized /\ forall v, In v l -> is_obj v
  | VDict l => forall k v, In (k, v) l -> is_obj v
  | _ => False
  end.
(* the rows of a nested list have one length *)
Definition rectangular (l : list val) : Prop := match l with VList x :: rest => forall y, In y rest -> exists m, y = VList m /\ List.length m = List.length x | _ => True end.
(* Other attributes hold data without objects; for vectorized objects, arrays instead of lists *)
Fixpoint array_data (v : val) : Prop :=
  match v with
  | VPrim _ | VStr _ => True
  | VArr l => rectangular l
  | VTup l => (fix all l := match l with [] => True | v :: l' => array_data v /\ all l' end) l
  | VDict l => (fix all l := match l with [] => True | (_, v) :: l' => array_data v /\ all l' end) l
  | _ => False
  end.
Definition data_value (vectorized : Prop) (v : val) : Prop := refs_in v = [] /\ (vectorized -> array_data v).
Definition listed (k : klass) (n : string) : bool := match refs k with Some r => existsb (String.eqb n) r | None => true end.
Record serializable (classes : string -> option klass) (H : list obj) (o : obj) (k : klass) : Prop := {
  ser_class : classes (o_class o) = Some k;
  ser_keys : NoDup (map fst (o_attrs o)) /\ ~ In "py/object"%string (map fst (o_attrs o)) /\ ~ In "json_version"%string (map fst (o_attrs o));
  ser_refs : match refs k with Some r => NoDup r | None => True end;
  ser_version : refs_in (version k) = [];
  ser_vectorized : ~ In "vectorized"%string (dropped k) /\ ~ In "vectorized"%string (recalculable k);
  ser_attrs : forall n v, In (n, v) (to_save false k o) -> (if listed k n then ref_value (vectorized o) v else data_value (vectorized o) v) /\ forall a, In a (refs_in v) -> (a < List.length H)%nat }.
Definition heap_ok (classes : string -> option klass) (H : list obj) : Prop := forall o, In o H -> exists k, serializable classes H o k.
