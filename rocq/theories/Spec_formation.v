(* Specification for C74: thermodynamics of heating along a path of phases, written without the model. *)
From Coq Require Import Reals List String.
From Coquelicot Require Import Coquelicot.
Import ListNotations.
Open Scope R_scope.

(* a heat capacity that is continuous at every positive temperature *)
Definition smooth_Cp (Cp : R -> R) : Prop := forall T, 0 < T -> continuous Cp T.

(* melting and boiling points of the elements that change phase (NIST-JANAF tables) *)
Definition melting_boiling (e : string) (Tm Tb : R) : Prop :=
  In (e, Tm, Tb)
   [("Si"%string, 1687.15, 3504.616); ("Br"%string, 265.9, 332.503); ("I"%string, 386.75, 457.666); ("B"%string, 2350, 4139.449);
    ("Mg"%string, 923, 1366.104); ("Hg"%string, 234.29, 629.839); ("Pb"%string, 600.6, 2019.022); ("Li"%string, 453.69, 1620.12);
    ("Na"%string, 370.98, 1170.525); ("Al"%string, 933.45, 2790.812); ("K"%string, 336.35, 1039.54); ("V"%string, 2190, 3690.08);
    ("Cr"%string, 2130, 2952.078); ("P"%string, 317.3, 1180.008)].

(* elements taken as gas at every temperature *)
Definition always_gas (e : string) : Prop := In e ["H"%string; "O"%string; "N"%string; "F"%string; "Cl"%string].

(* the elements for which standard states are known *)
Definition known_element (e : string) : Prop := e = "C"%string \/ always_gas e \/ exists Tm Tb, melting_boiling e Tm Tb.

(* the heat capacity of the phase of element e that is stable at T, T not being a transition temperature *)
Definition stable_Cp (Cs Cl Cg : string -> R -> R) (e : string) (T : R) (Cp : R -> R) : Prop :=
  (e = "C"%string /\ Cp = Cs e) \/ (always_gas e /\ Cp = Cg e) \/
  (exists Tm Tb, melting_boiling e Tm Tb /\
    ((T < Tm /\ (e = "P"%string -> T <> 195.4) /\ Cp = Cs e) \/ (Tm < T < Tb /\ Cp = Cl e) \/ (Tb < T /\ Cp = Cg e))).

(* sum over the elements of a reaction *)
Fixpoint total {A : Type} (f : A -> R) (l : list A) : R := match l with [] => 0 | a :: r => f a + total f r end.
