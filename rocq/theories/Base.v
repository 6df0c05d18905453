(* Shared vocabulary of the models: vectors as functions, counting loops, finite sums. *)
From Coq Require Import Reals Lra Lia Arith Bool FunctionalExtensionality.
Open Scope R_scope.

(* fluids.constants.R as used throughout thermo (e.g. thermo/eos.py, line 270 imports it). The value is the exact
   decimal literal of the CODATA gas constant used by the fluids package; theorems use only that it is positive. *)
Definition Rgas : R := 831446261815324 / 100000000000000.

(* for i in range(n): s = f(i, s) *)
Fixpoint loop {S : Type} (n : nat) (f : nat -> S -> S) (s : S) : S :=
  match n with
  | O => s
  | Datatypes.S k => f k (loop k f s)
  end.

(* a[i] = v ; m[i][j] = v ; t[i][j][k] = v ; m[i] = row *)
Definition upd {A : Type} (a : nat -> A) (i : nat) (v : A) : nat -> A :=
  fun k => if Nat.eqb k i then v else a k.
Definition updm {A : Type} (m : nat -> nat -> A) (i j : nat) (v : A) : nat -> nat -> A :=
  fun k l => if andb (Nat.eqb k i) (Nat.eqb l j) then v else m k l.
Definition updt {A : Type} (m : nat -> nat -> nat -> A) (i j h : nat) (v : A) : nat -> nat -> nat -> A :=
  fun k l o => if andb (Nat.eqb k i) (andb (Nat.eqb l j) (Nat.eqb o h)) then v else m k l o.
Definition updrow {A : Type} (m : nat -> nat -> A) (i : nat) (v : nat -> A) : nat -> nat -> A :=
  fun k => if Nat.eqb k i then v else m k.

(* finite sum  f 0 + ... + f (n-1) *)
Fixpoint rsum (n : nat) (f : nat -> R) : R :=
  match n with
  | O => 0
  | S k => rsum k f + f k
  end.

(* float comparisons, on reals *)
Definition Reqb (x y : R) : bool := if Req_EM_T x y then true else false.
Definition Rltb (x y : R) : bool := if Rlt_dec x y then true else false.
Definition Rleb (x y : R) : bool := if Rle_dec x y then true else false.

(* real part of cmath.atanh at a real argument *)
Definition re_catanh (x : R) : R := / 2 * ln (Rabs ((1 + x) / (1 - x))).
