(* What a saturation (bubble or dew) point of a mixture is. *)
From Coq Require Import Reals.
From Verif Require Import Base Spec_split.
Open Scope R_scope.

(* the amounts of the components in the phase that appears, per mole of the mixture, when its fugacities are those of the mixture:
   lc and li are ln phi of the mixture and of the phase that appears *)
Definition appearing (z lc li : comp) : comp := fun i => z i * exp (lc i) / exp (li i).
(* the saturation condition: these amounts add up to 1 *)
Definition excess (N : nat) (z lc li : comp) : R := rsum N (appearing z lc li) - 1.
(* the Newton derivative of it in the iterated variable at fixed compositions *)
Definition slope (N : nat) (z lc li dc di : comp) : R := rsum N (fun i => appearing z lc li i * (dc i - di i)).

