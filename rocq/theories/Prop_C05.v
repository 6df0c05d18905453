(* C05: temperature and pressure derivatives of fugacity and fugacity coefficient. *)
From Coq Require Import Reals Lra.
From Coquelicot Require Import Coquelicot.
From Verif Require Import Base BaseFacts Spec_eos Gen_eos EosFacts EosCurve EosDep Prop_C04 Prop_C03.
Open Scope R_scope.

(* Fugacity and phi as reported by a phase with departures h and s (G_dep = h - T*s). *)
Definition fugacity (h s T P : R) : R := eos_fugacity (h - T * s) T P.
Definition phi (h s T : R) : R := eos_phi (h - T * s) T.

(* For any differentiable departures the reported derivatives are the derivatives. *)
Theorem C05_any_departures :
  forall (H S : R -> R) (x H' S' c : R), is_derive H x H' -> is_derive S x S' ->
  (x <> 0 ->
   is_derive (fun t => fugacity (H t) (S t) t c) x (eos_dfugacity_dT x c (S x) (H x) H' S') /\
   is_derive (fun t => phi (H t) (S t) t) x (eos_dphi_dT x c (S x) (H x) S' H')) /\
  (c <> 0 ->
   is_derive (fun p => fugacity (H p) (S p) c p) x (eos_dfugacity_dP_l c x S' H' (S x) (H x)) /\
   is_derive (fun p => fugacity (H p) (S p) c p) x (eos_dfugacity_dP_g c x S' H' (S x) (H x)) /\
   is_derive (fun p => phi (H p) (S p) c) x (eos_dphi_dP c (S x) (H x) S' H')).
Proof.
  intros H S x H' S' c DH DS. pose proof Rgas_neq as HR.
  unfold fugacity, phi, eos_fugacity, eos_phi, eos_dfugacity_dT, eos_dphi_dT, eos_dfugacity_dP_l, eos_dfugacity_dP_g, eos_dphi_dP. cbv zeta.
  split; intros Hx.
  - split.
    + auto_derive. splits; try exd; auto. dv DH. dv DS.
      replace (1 / x * (1 / Rgas * (H x - x * S x))) with ((H x - x * S x) * (1 / Rgas) / x) by (field; nz).
      set (e := exp _). field. nz.
    + auto_derive. splits; try exd; auto. dv DH. dv DS.
      replace (- (1 / Rgas) * (1 / x * (x * S x - H x))) with ((H x - x * S x) * (1 / Rgas) / x) by (field; nz).
      set (e := exp _). field. nz.
  - splits.
    + auto_derive. splits; try exd; auto. dv DH. dv DS.
      replace (- (1 / (Rgas * c)) * (c * S x - H x)) with ((H x - c * S x) * (1 / Rgas) / c) by (field; nz).
      set (e := exp _). field. nz.
    + auto_derive. splits; try exd; auto. dv DH. dv DS.
      replace (- (1 / (Rgas * c)) * (c * S x - H x)) with ((H x - c * S x) * (1 / Rgas) / c) by (field; nz).
      set (e := exp _). field. nz.
    + auto_derive. splits; try exd; auto. dv DH. dv DS.
      replace (- (1 / (Rgas * c)) * (c * S x - H x)) with ((H x - c * S x) * (1 / Rgas) / c) by (field; nz).
      set (e := exp _). field. nz.
Qed.
Example C05_any_departures_hypotheses_met :
  is_derive (fun t => t ^ 3) 2 12 /\ is_derive (fun t => t ^ 2) 2 4 /\ (2 <> 0) /\ (3 <> 0).
Proof. splits; try lra; auto_derive; auto; ring. Qed.

(* Along the cubic equation of state, with the code's own departures and their derivatives.
   Besides being the derivative, the value is the textbook one:
   (d phi/dT)_P = - phi H_dep/(R T^2)  and  (d f/dP)_T = f V/(R T). *)
Theorem C05_dT_on_eos :
  forall (a da d2a d3a : R -> R) (b delta eps T P : R) (Vf : R -> R),
  0 < delta * delta - 4 * eps -> smooth3 a da d2a d3a T ->
  regular_V b delta eps (Vf T) -> 0 < T -> 0 < P -> 0 < Vf T -> b < Vf T ->
  locally T (fun t => ex_derive Vf t /\ P_cubic a b delta eps t (Vf t) = P) ->
  Derive (fun v => P_cubic a b delta eps T v) (Vf T) <> 0 ->
  let o := dd a da d2a b delta eps T P (Vf T) in
  let h := fun t => H_dep a da d2a b delta eps t P (Vf t) in
  let s := fun t => S_dep a da d2a b delta eps t P (Vf t) in
  let dh := eos_dH_dep_dT_l (Vf T) (dV_dT o) (a T) delta eps P T (d2a T) (da T) in
  let ds := eos_dS_dep_dT_l (Vf T) (dV_dT o) (a T) delta eps T (da T) b (d2a T) in
  is_derive (fun t => fugacity (h t) (s t) t P) T (eos_dfugacity_dT T P (s T) (h T) dh ds) /\
  is_derive (fun t => phi (h t) (s t) t) T (eos_dphi_dT T P (s T) (h T) ds dh) /\
  eos_dphi_dT T P (s T) (h T) ds dh = - phi (h T) (s T) T * h T / (Rgas * T ^ 2) /\
  eos_dfugacity_dT T P (s T) (h T) dh ds = - P * phi (h T) (s T) T * h T / (Rgas * T ^ 2).
Proof.
  intros a da d2a d3a b delta eps T P Vf HE Sm Hr HT HP HV0 HVb L Hne o h s dh ds.
  destruct (C03_H_isobar a da d2a d3a b delta eps T P Vf HE Sm Hr L Hne) as (DH & _ & _).
  destruct (C03_S_isobar a da d2a d3a b delta eps T P Vf HE Sm Hr HT HP HV0 HVb L Hne) as (DS & _ & _).
  fold o in DH, DS. fold h in DH. fold s in DS. fold dh in DH. fold ds in DS.
  destruct (C05_any_departures h s T dh ds P DH DS) as [A _]. destruct (A (Rgt_not_eq _ _ HT)) as [A1 A2].
  pose proof (locally_singleton _ _ L) as [_ EP]. cbv beta in EP.
  assert (E : dh - T * ds = 0).
  { unfold dh, ds. rewrite (dH_dT_l_eq b), dS_dT_l_eq by (auto; lra).
    assert (P * dV_dT o = (Rgas * T / (Vf T - b) - a T / Dn delta eps (Vf T)) * dV_dT o) by (rewrite <- EP; reflexivity).
    rewrite H. destruct Hr. unfold Dn. field. splits; nz. }
  splits; auto.
  - unfold eos_dphi_dT, phi, eos_phi. cbv zeta.
    replace (- (1 / Rgas) * (1 / T * (T * s T - h T))) with ((h T - T * s T) * (1 / Rgas) / T) by (field; nz).
    set (e := exp _). replace dh with (T * ds) by lra. pose proof Rgas_neq. field. nz.
  - unfold eos_dfugacity_dT, phi, eos_phi. cbv zeta.
    replace (1 / T * (1 / Rgas * (h T - T * s T))) with ((h T - T * s T) * (1 / Rgas) / T) by (field; nz).
    set (e := exp _). replace dh with (T * ds) by lra. pose proof Rgas_neq. field. nz.
Qed.

Theorem C05_dP_on_eos :
  forall (a da d2a : R -> R) (b delta eps T P : R) (Vf : R -> R),
  0 < delta * delta - 4 * eps -> is_derive a T (da T) -> is_derive da T (d2a T) ->
  regular_V b delta eps (Vf P) -> 0 < T -> 0 < P -> 0 < Vf P -> b < Vf P ->
  locally P (fun p => ex_derive Vf p /\ P_cubic a b delta eps T (Vf p) = p) ->
  Derive (fun v => P_cubic a b delta eps T v) (Vf P) <> 0 ->
  let o := dd a da d2a b delta eps T P (Vf P) in
  let h := fun p => H_dep a da d2a b delta eps T p (Vf p) in
  let s := fun p => S_dep a da d2a b delta eps T p (Vf p) in
  let dh := eos_dH_dep_dP delta (Vf P) eps (dV_dP o) P T (da T) (a T) in
  let ds_l := eos_dS_dep_dP_l (Vf P) (dV_dP o) delta eps (da T) b P in
  let ds_g := eos_dS_dep_dP_g (Vf P) (dV_dP o) delta eps (da T) b P in
  is_derive (fun p => fugacity (h p) (s p) T p) P (eos_dfugacity_dP_l T P ds_l dh (s P) (h P)) /\
  is_derive (fun p => fugacity (h p) (s p) T p) P (eos_dfugacity_dP_g T P ds_g dh (s P) (h P)) /\
  is_derive (fun p => phi (h p) (s p) T) P (eos_dphi_dP T (s P) (h P) ds_l dh) /\
  eos_dfugacity_dP_l T P ds_l dh (s P) (h P) = fugacity (h P) (s P) T P * Vf P / (Rgas * T) /\
  eos_dphi_dP T (s P) (h P) ds_l dh = phi (h P) (s P) T * (P * Vf P / (Rgas * T) - 1) / P.
Proof.
  intros a da d2a b delta eps T P Vf HE Ha Hda Hr HT HP HV0 HVb L Hne o h s dh ds_l ds_g.
  destruct (C03_HS_isotherm a da d2a b delta eps T P Vf HE Ha Hda Hr L Hne) as (DH & DS).
  destruct (DS HT HP HV0 HVb) as [DSl DSg]. clear DS.
  fold o in DH, DSl, DSg. fold h in DH. fold s in DSl, DSg. fold dh in DH. fold ds_l in DSl. fold ds_g in DSg.
  destruct (C05_any_departures h s P dh ds_l T DH DSl) as [_ A]. destruct (A (Rgt_not_eq _ _ HT)) as (A1 & _ & A3).
  destruct (C05_any_departures h s P dh ds_g T DH DSg) as [_ B]. destruct (B (Rgt_not_eq _ _ HT)) as (_ & B2 & _).
  pose proof (locally_singleton _ _ L) as [_ EP]. cbv beta in EP.
  assert (E : T * ds_l - dh = Rgas * T / P - Vf P).
  { unfold dh, ds_l. rewrite (dH_dP_eq b), dS_dP_l_eq by (auto; lra).
    assert (P * dV_dP o = (Rgas * T / (Vf P - b) - a T / Dn delta eps (Vf P)) * dV_dP o) by (rewrite <- EP at 1; reflexivity).
    rewrite H. destruct Hr. unfold Dn. field. splits; nz. }
  splits; auto.
  - unfold eos_dfugacity_dP_l, fugacity, eos_fugacity. cbv zeta.
    replace (- (1 / (Rgas * T)) * (T * s P - h P)) with ((h P - T * s P) * (1 / Rgas) / T) by (field; nz).
    set (e := exp _). rewrite E. pose proof Rgas_neq. field. nz.
  - unfold eos_dphi_dP, phi, eos_phi. cbv zeta.
    replace (- (1 / (Rgas * T)) * (T * s P - h P)) with ((h P - T * s P) * (1 / Rgas) / T) by (field; nz).
    set (e := exp _). rewrite E. pose proof Rgas_neq. field. nz.
Qed.
