(* Specification vocabulary for the parameter databases (C41). *)
From Coq Require Import Reals String List Bool.
From Verif Require Import Model_ipdb.
Import ListNotations.
Open Scope list_scope.

(* the value stored in a named table under a key *)
Definition stored (d : db) (name key ip : string) : option pval :=
  match find name (tables d) with Some t => match find key t with Some values => find ip values | None => None end | None => None end.
(* the value that stands for an absent parameter *)
Definition default (d : db) (name ip : string) : option pval := match find name (metadata d) with Some m => find ip (missing m) | None => None end.
(* databases made by loading files *)
Inductive loaded : db -> Prop := loaded_empty : loaded empty_db | loaded_json d data m name : loaded d -> loaded (load_json d data m name).
(* a table that is present, for which parameters are given in either order (true) or in the order of the components *)
Definition table_kind (d : db) (name : string) (sym : bool) : Prop := exists m, find name (metadata d) = Some m /\ symmetric m = sym.
