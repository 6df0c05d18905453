(* Model of thermo/stream.py mole_balance and energy_balance (lines 3097-3397 and 3400-3650).
   Simplifications: floats are reals; every stream carries at most one composition specification (the default,
   multiple_composition_basis off); list specifications have one entry per compound; molar masses and volumes are nonzero
   and a complete list of component flows has a nonzero sum, so no ZeroDivisionError occurs. *)
From Coq Require Import Reals List Bool Arith.
From Verif Require Import Base Model_stream.
Import ListNotations.
Open Scope R_scope.

(* the composition/flow specification of a stream: component molar, mass, liquid-volume or gas-volume flows, or fractions
   (None: no composition) together with the molar flow other than n they give (from m, Q, Ql or Qg) *)
Inductive store : Type :=
  | SNs (l : vec) | SMs (l : vec) | SQls (l : vec) | SQgs (l : vec) | SFrac (zs : option (list R)) (other : option R).
(* a StreamArgs (or EquilibriumStream, which has SNs with every entry known): its specification, the specification n, and
   the molar masses, liquid volumes and gas volume of its flasher *)
Record stream : Type := mkstream { st : store; n_spec : option R; mw : nat -> R; vl : nat -> R; vg : R }.

Fixpoint mapi (f : nat -> option R -> option R) (k : nat) (l : vec) : vec :=
  match l with [] => [] | x :: l => f k x :: mapi f (S k) l end.
Definition conv (f : nat -> R -> R) (l : vec) : vec :=
  mapi (fun j o => match o with Some x => Some (f j x) | None => None end) 0 l.
Definition anysome (l : vec) : bool := existsb isSome l.

(* the list of molar flows found by mole_balance for one stream: lines 3224-3236 (3240-3252) and
   _mole_balance_process_ns 3097-3130. For a complete list in another basis ns_calc is used; C31 proves it gives the
   same numbers as the entrywise conversion. *)
Definition n_of (s : stream) : option R :=
  match n_spec s, st s with
  | Some n, _ => Some n
  | None, SFrac (Some _) o => o
  | None, SFrac None _ => None
  | None, SNs l => if complete l then Some (lsum (vals l)) else None
  | None, SMs l => if complete l then Some (lsum (vals (conv (fun j m => m * 1000 / mw s j) l))) else None
  | None, SQls l => if complete l then Some (lsum (vals (conv (fun j q => q / vl s j) l))) else None
  | None, SQgs l => if complete l then Some (lsum (vals (conv (fun j q => q / vg s) l))) else None
  end.
Definition view (use_mass use_volume : bool) (s : stream) : option vec :=
  match st s with
  | SNs l => Some l
  | SMs l => if use_mass then (if anysome l then Some (conv (fun j m => m * 1000 / mw s j) l) else None) else None
  | SQls l => if use_mass then
      (if complete l then Some (conv (fun j q => q / vl s j) l)
       else if (use_volume && anysome l)%bool then Some (conv (fun j q => q / vl s j) l) else None) else None
  | SQgs l => if use_mass then
      (if complete l then Some (conv (fun j q => q / vg s) l)
       else if (use_volume && anysome l)%bool then Some (conv (fun j q => q / vg s) l) else None) else None
  | SFrac (Some z) _ => if use_mass then match n_of s with Some n => Some (map (fun x => Some (n * x)) z) | None => None end else None
  | SFrac None _ => None
  end.
(* ns is None or None in ns *)
Definition unknown (um uv : bool) (s : stream) : bool := match view um uv s with None => true | Some l => negb (complete l) end.
Definition at_ (um uv : bool) (s : stream) (j : nat) : option R := match view um uv s with None => None | Some l => nth j l None end.

Fixpoint lset {A} (l : list A) (i : nat) (x : A) : list A :=
  match l, i with [], _ => [] | _ :: l, O => x :: l | y :: l, S i => y :: lset l i x end.

(* obj.ns = [...] on a stream: the setter clears every other composition and flow (lines 901-915) *)
Definition set_ns (s : stream) (l : list R) : stream := mkstream (SNs (map Some l)) None (mw s) (vl s) (vg s).
(* lines 3318-3334 / 3336-3352: write one component in whichever list the stream stores; nothing if it stores none *)
Definition set_component (s : stream) (j : nat) (x : R) : stream :=
  let put st' := mkstream st' (n_spec s) (mw s) (vl s) (vg s) in
  match st s with
  | SNs l => put (SNs (lset l j (Some x)))
  | SMs l => put (SMs (lset l j (Some (x * mw s j / 1000))))
  | SQls l => put (SQls (lset l j (Some (x * vl s j))))
  | SQgs l => put (SQgs (lset l j (Some (x * vg s))))
  | SFrac _ _ => s
  end.
Definition set_n (s : stream) (n : R) : stream := mkstream (st s) (Some n) (mw s) (vl s) (vg s).

(* positions of the unknown streams, in order *)
Definition positions {A} (f : A -> bool) (d : A) (l : list A) : list nat := filter (fun i => f (nth i l d)) (seq 0 (length l)).
Definition dflt : stream := mkstream (SFrac None None) None (fun _ => 0) (fun _ => 0) 0.
Definition known0 (o : option R) : R := match o with Some x => x | None => 0 end.

Section Balance.
Variables um uv : bool.
Definition sum_at (l : list stream) (j : nat) : R := lsum (map (fun s => known0 (at_ um uv s j)) l).
Definition missing_at (l : list stream) (j : nat) : list nat := positions (fun s => negb (isSome (at_ um uv s j))) dflt l.
(* lines 3276-3279 / 3285-3288 *)
Definition close_one (all_known one_unknown : list stream) (compounds : nat) : list R :=
  map (fun j => sum_at all_known j - (if Nat.eqb (length one_unknown) 1 then 0 else sum_at one_unknown j)) (seq 0 compounds).
(* lines 3297-3352, one component; the sums use the lists gathered at the start (ins0, outs0) *)
Definition component_step (ins0 outs0 : list stream) (j : nat) (acc : bool * (list stream * list stream)) :=
  let '(progress, (ins, outs)) := acc in
  let v := sum_at ins0 j - sum_at outs0 j in
  match missing_at ins0 j, missing_at outs0 j with
  | [i], [] => (true, (lset ins i (set_component (nth i ins dflt) j (- v)), outs))
  | [], [i] => (true, (ins, lset outs i (set_component (nth i outs dflt) j v)))
  | _, _ => (progress, (ins, outs))
  end.
(* lines 3357-3397 *)
Definition n_total (l : list stream) : R :=
  if existsb (unknown um uv) l then lsum (map (fun s => known0 (n_of s)) l)
  else lsum (map (fun s => match view um uv s with Some v => lsum (vals v) | None => 0 end) l).
Definition n_missing (l : list stream) : list nat :=
  if existsb (unknown um uv) l then positions (fun s => negb (isSome (n_of s))) dflt l else [].
Definition totals (ins outs : list stream) : bool * (list stream * list stream) :=
  match n_missing ins, n_missing outs with
  | [i], [] => (true, (lset ins i (set_n (nth i ins dflt) (n_total outs - n_total ins)), outs))
  | [], [i] => (true, (ins, lset outs i (set_n (nth i outs dflt) (n_total ins - n_total outs))))
  | _, _ => (false, (ins, outs))
  end.
(* mole_balance, lines 3132-3397: the returned flag and the streams afterwards *)
Definition mole_balance (ins outs : list stream) (compounds : nat) : bool * (list stream * list stream) :=
  match positions (unknown um uv) dflt ins, positions (unknown um uv) dflt outs with
  | [], [] => (false, (ins, outs))
  | [], [i] => (true, (ins, lset outs i (set_ns (nth i outs dflt) (close_one ins outs compounds))))
  | [i], [] => (true, (lset ins i (set_ns (nth i ins dflt) (close_one outs ins compounds)), outs))
  | _, _ =>
      let '(progress, (ins', outs')) := loop compounds (component_step ins outs) (false, (ins, outs)) in
      if progress then (true, (ins', outs')) else totals ins outs
  end.
End Balance.
