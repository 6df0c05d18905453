(* Specification vocabulary for the constants and correlations packages (C45). *)
From Coq Require Import List ZArith Bool.
From Verif Require Import Gen_package Model_package.
Import ListNotations.

(* the constant x of component i *)
Definition component (p : package) (i : nat) (x : prop) : value := match attr p x with Some l => nth i l VNone | None => VNone end.
(* every property has one entry per component *)
Definition consistent (p : package) : Prop := forall x, exists l, attr p x = Some l /\ length l = N p.
(* keyword arguments for n components *)
Definition lists_of (n : nat) (kw : kwargs) : Prop := (exists l, kw MWs = Some l) /\ forall x l, kw x = Some l -> length l = n.
(* the positions a selector designates among n components: everything; Python's slice; or integers, negative ones counting from the end *)
Definition designates (n : nat) (s : selector) (sel : list nat) : Prop :=
  match s with
  | All => (0 < n)%nat /\ sel = seq 0 n
  | Slice a b c => slice_indices a b c n = Some sel
  | Idxs l => l <> [] /\ Forall2 (fun z k => (k < n)%nat /\ (z = Z.of_nat k \/ z = (Z.of_nat k - Z.of_nat n)%Z)) l sel
  end.
(* the properties a subset keeps *)
Definition kept (requested : option (list prop)) (x : prop) : Prop := match requested with None => x <> atom_fractions | Some l => In x l \/ x = MWs end.
(* the k-th object of a correlation list *)
Definition object_at (p : correlations) (c : corr) (i : nat) : option obj := match pure p c with Some l => nth_error l i | None => None end.
(* packages that come out of the constructor given lists of equal length *)
Definition reachable (p : package) : Prop := exists kw, lists_of (N p) kw /\ new_package kw = Ok p.
Definition reachable_correlations (p : correlations) : Prop :=
  exists k m, reachable (constants p) /\ (forall x l, k x = Some l -> length l = N (constants p)) /\ new_correlations (constants p) k m (skip_missing p) = Ok p.
