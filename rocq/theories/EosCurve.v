(* Derivatives of the pressure and its partials along an arbitrary curve s |-> (T(s), V(s)). *)
From Coq Require Import Reals Lra Lia.
From Coquelicot Require Import Coquelicot.
From Verif Require Import Base BaseFacts Spec_eos Gen_eos EosFacts.
Open Scope R_scope.

Section Closed.
Variables (a da d2a : R -> R) (b delta eps : R).
Definition Dn (V : R) := V ^ 2 + delta * V + eps.
Definition cPT T V := Rgas / (V - b) - da T / Dn V.
Definition cPV T V := - Rgas * T / (V - b) ^ 2 + a T * (2 * V + delta) / Dn V ^ 2.
Definition cPTT T V := - d2a T / Dn V.
Definition cPTV T V := - Rgas / (V - b) ^ 2 + da T * (2 * V + delta) / Dn V ^ 2.
Definition cPVV T V := 2 * (Rgas * T / (V - b) ^ 3 + a T / Dn V ^ 2 - a T * (2 * V + delta) ^ 2 / Dn V ^ 3).

Lemma main_P T P V : regular_V b delta eps V ->
  let '(dP_dT, dP_dV, d2P_dT2, d2P_dV2, d2P_dTdV, _, _, _) := main_derivatives_and_departures T P V b delta eps (a T) (da T) (d2a T) in
  dP_dT = cPT T V /\ dP_dV = cPV T V /\ d2P_dT2 = cPTT T V /\ d2P_dV2 = cPVV T V /\ d2P_dTdV = cPTV T V.
Proof.
  intros [H1 H2]. unfold main_derivatives_and_departures, cPT, cPV, cPTT, cPTV, cPVV, Dn. cbv zeta.
  splits; field; nz.
Qed.

Variables (Tf Vf : R -> R) (s T' V' : R).
Hypothesis DT : is_derive Tf s T'.
Hypothesis DV : is_derive Vf s V'.
Hypothesis Ha : is_derive a (Tf s) (da (Tf s)).
Hypothesis Reg : regular_V b delta eps (Vf s).

Lemma curve_P : is_derive (fun s => P_cubic a b delta eps (Tf s) (Vf s)) s (cPT (Tf s) (Vf s) * T' + cPV (Tf s) (Vf s) * V').
Proof.
  destruct Reg as [H1 H2]. unfold P_cubic, cPT, cPV, Dn.
  auto_derive. splits; try exd; try nz.
  dv Ha. dv DT. dv DV. field. nz.
Qed.
Lemma curve_PV : is_derive (fun s => cPV (Tf s) (Vf s)) s (cPTV (Tf s) (Vf s) * T' + cPVV (Tf s) (Vf s) * V').
Proof.
  destruct Reg as [H1 H2]. unfold cPTV, cPV, cPVV, Dn.
  auto_derive. splits; try exd; try nz.
  dv Ha. dv DT. dv DV. field. nz.
Qed.
Hypothesis Hda : is_derive da (Tf s) (d2a (Tf s)).
Lemma curve_PT : is_derive (fun s => cPT (Tf s) (Vf s)) s (cPTT (Tf s) (Vf s) * T' + cPTV (Tf s) (Vf s) * V').
Proof.
  destruct Reg as [H1 H2]. unfold cPTV, cPT, cPTT, Dn.
  auto_derive. splits; try exd; try nz.
  dv Hda. dv DT. dv DV. field. nz.
Qed.
Hypothesis HE : 0 < delta * delta - 4 * eps.
Lemma curve_K : is_derive (fun s => Kf delta eps (Vf s)) s (- V' / Dn (Vf s)).
Proof.
  pose proof (Kf_derive delta eps (Vf s) HE (proj2 Reg)) as DK.
  eapply is_derive_eq. apply (is_derive_comp (Kf delta eps) Vf s _ _ DK DV).
  change (V' * (- / (Vf s ^ 2 + delta * Vf s + eps)) = - V' / Dn (Vf s)). unfold Dn. destruct Reg. field. nz.
Qed.
End Closed.

(* the first relation of an EOS curve *)
Lemma curve_on_eos a da b delta eps Tf Vf Pf s T' V' P' :
  is_derive Tf s T' -> is_derive Vf s V' -> is_derive Pf s P' -> is_derive a (Tf s) (da (Tf s)) ->
  regular_V b delta eps (Vf s) ->
  locally s (fun x => P_cubic a b delta eps (Tf x) (Vf x) = Pf x) ->
  cPT da b delta eps (Tf s) (Vf s) * T' + cPV a b delta eps (Tf s) (Vf s) * V' = P'.
Proof.
  intros DT DV DP Ha Reg L.
  pose proof (curve_P a da b delta eps Tf Vf s T' V' DT DV Ha Reg) as C.
  apply is_derive_unique in C. apply is_derive_unique in DP. rewrite <- C, <- DP.
  apply Derive_ext_loc. exact L.
Qed.
Lemma is_derive_id (x : R) : is_derive (fun x : R => x) x 1.
Proof. apply (is_derive_id (K := R_AbsRing)). Qed.
Lemma is_derive_cst (c x : R) : is_derive (fun _ : R => c) x 0.
Proof. apply (is_derive_const (K := R_AbsRing) (V := R_NormedModule)). Qed.
