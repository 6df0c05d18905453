(* C01: reported pressure derivatives are the partial derivatives of P(T,V). *)
From Coq Require Import Reals Lra.
From Coquelicot Require Import Coquelicot.
From Verif Require Import Base BaseFacts Spec_eos Gen_eos EosFacts.
Open Scope R_scope.

(* Statement kept next to the English: Pf is the documented pressure function. *)
Theorem C01_pressure_derivatives :
  forall (a da d2a : R -> R) (b delta eps T P V : R),
  regular_V b delta eps V ->
  locally T (fun t => is_derive a t (da t)) -> is_derive da T (d2a T) ->
  let '(dP_dT, dP_dV, d2P_dT2, d2P_dV2, d2P_dTdV, _, _, _) :=
    main_derivatives_and_departures T P V b delta eps (a T) (da T) (d2a T) in
  let Pf := P_cubic a b delta eps in
  is_derive (fun t => Pf t V) T dP_dT /\
  is_derive (fun v => Pf T v) V dP_dV /\
  is_derive (Derive (fun t => Pf t V)) T d2P_dT2 /\
  is_derive (Derive (fun v => Pf T v)) V d2P_dV2 /\
  is_derive (fun v => Derive (fun t => Pf t v) T) V d2P_dTdV /\
  is_derive (fun t => Derive (fun v => Pf t v) V) T d2P_dTdV.
Proof.
  intros a da d2a b delta eps T P V HV Ha Hda.
  unfold main_derivatives_and_departures. cbv zeta.
  pose proof (locally_singleton _ _ Ha) as Ha0; cbv beta in Ha0.
  pose proof HV as [H1 H2].
  splits.
  - eapply is_derive_eq. apply (P_cubic_dT a da); auto.
 field. nz.
  - eapply is_derive_eq. apply P_cubic_dV; auto. field. nz.
  - apply is_derive_ext_loc with (fun t => Rgas / (V - b) - da t / (V ^ 2 + delta * V + eps)).
    + eapply filter_imp; [|exact Ha]. intros t Ht. symmetry. apply is_derive_unique. apply (P_cubic_dT a da); auto.
    + auto_derive. eexists; eauto. dv Hda. field. nz.
  - apply is_derive_ext_loc with (fun V => - Rgas * T / (V - b) ^ 2 + a T * (2 * V + delta) / (V ^ 2 + delta * V + eps) ^ 2).
    + eapply filter_imp; [|apply reg_locally_V, HV]. intros v Hv. symmetry. apply is_derive_unique. apply P_cubic_dV; auto.
    + auto_derive. nz. field. nz.
  - apply is_derive_ext_loc with (fun V => Rgas / (V - b) - da T / (V ^ 2 + delta * V + eps)).
    + eapply filter_imp; [|apply reg_locally_V, HV]. intros v Hv. symmetry. apply is_derive_unique. apply (P_cubic_dT a da); auto.
    + auto_derive. nz. field. nz.
  - apply is_derive_ext with (fun T => - Rgas * T / (V - b) ^ 2 + a T * (2 * V + delta) / (V ^ 2 + delta * V + eps) ^ 2).
    + intros t. symmetry. apply is_derive_unique. apply P_cubic_dV; auto.
    + auto_derive. eexists; eauto. dv Ha0. field. nz.
Qed.

(* hypotheses are met by a non-trivial instance: a(T) = T^3, b=1, delta=2, eps=-1, V=3, T=2 *)
Example C01_hypotheses_met :
  regular_V 1 2 (-1) 3 /\ locally 2 (fun t => is_derive (fun t => t ^ 3) t (3 * t ^ 2)) /\
  is_derive (fun t => 3 * t ^ 2) 2 (6 * 2).
Proof.
  splits.
  - unfold regular_V. lra.
  - exists posreal_one. intros. auto_derive; auto. ring.
  - auto_derive; auto. ring.
Qed.

(* The van der Waals re-implementation: a does not depend on T there (VDW.a_alpha_and_derivatives_pure, eos.py 9250ff). *)
Theorem C01_pressure_derivatives_VDW :
  forall (a0 b T P V : R), V <> b -> V <> 0 ->
  let '(dP_dT, dP_dV, d2P_dT2, d2P_dV2, d2P_dTdV, _, _, _) :=
    main_derivatives_and_departures_VDW T P V b 0 0 a0 0 0 in
  let Pf := P_cubic (fun _ => a0) b 0 0 in
  is_derive (fun t => Pf t V) T dP_dT /\
  is_derive (fun v => Pf T v) V dP_dV /\
  is_derive (Derive (fun t => Pf t V)) T d2P_dT2 /\
  is_derive (Derive (fun v => Pf T v)) V d2P_dV2 /\
  is_derive (fun v => Derive (fun t => Pf t v) T) V d2P_dTdV /\
  is_derive (fun t => Derive (fun v => Pf t v) V) T d2P_dTdV.
Proof.
  intros a0 b T P V H1 H2.
  assert (HR : regular_V b 0 0 V). { split; auto. intro Q. apply H2. nra. }
  assert (A : forall t, is_derive (fun _ : R => a0) t 0) by (intros; apply (is_derive_const (K := R_AbsRing) (V := R_NormedModule))).
  assert (B : is_derive (fun _ : R => 0) T 0) by (intros; apply (is_derive_const (K := R_AbsRing) (V := R_NormedModule))).
  pose proof (C01_pressure_derivatives (fun _ => a0) (fun _ => 0) (fun _ => 0) b 0 0 T P V HR (filter_forall _ A) B) as M.
  unfold main_derivatives_and_departures, main_derivatives_and_departures_VDW in *. cbv zeta in *.
  destruct M as (M1 & M2 & M3 & M4 & M5 & M6).
  splits.
  - eapply is_derive_eq. exact M1. field. nz.
  - eapply is_derive_eq. exact M2. field. nz.
  - eapply is_derive_eq. exact M3. field. nz.
  - eapply is_derive_eq. exact M4. field. nz.
  - eapply is_derive_eq. exact M5. field. nz.
  - eapply is_derive_eq. exact M6. field. nz.
Qed.
