(* C04: implicit first and second derivatives between T, P and V. *)
From Coq Require Import Reals Lra.
From Coquelicot Require Import Coquelicot.
From Verif Require Import Base BaseFacts Spec_eos Gen_eos EosFacts EosCurve.
Open Scope R_scope.

(* outputs of GCEOS.derivatives_and_departures *)
Record dd_out := DD { dP_dT : R; dP_dV : R; dV_dT : R; dV_dP : R; dT_dV : R; dT_dP : R;
  d2P_dT2 : R; d2P_dV2 : R; d2V_dT2 : R; d2V_dP2 : R; d2T_dV2 : R; d2T_dP2 : R;
  d2V_dPdT : R; d2P_dTdV : R; d2T_dPdV : R }.
Definition dd (a da d2a : R -> R) (b delta eps T P V : R) : dd_out :=
  let '(x1, x2, x3, x4, x5, x6, x7, x8, x9, x10, x11, x12, x13, x14, x15, _, _, _) :=
    derivatives_and_departures T P V b delta eps (a T) (da T) (d2a T) in
  DD x1 x2 x3 x4 x5 x6 x7 x8 x9 x10 x11 x12 x13 x14 x15.

Section Proofs.
Variables (a da d2a : R -> R) (b delta eps : R).
Notation PT := (cPT da b delta eps).
Notation PV := (cPV a b delta eps).
Notation PTT := (cPTT d2a delta eps).
Notation PTV := (cPTV da b delta eps).
Notation PVV := (cPVV a b delta eps).
Notation reg := (regular_V b delta eps).

Lemma dd_eq T P V : reg V -> dd a da d2a b delta eps T P V =
  DD (PT T V) (PV T V) (- PT T V * (1 / PV T V)) (1 / PV T V) (1 / (- PT T V * (1 / PV T V))) (1 / PT T V)
     (PTT T V) (PVV T V)
     (- (PTT T V * PV T V - PT T V * PTV T V) * (1 / PV T V * (1 / PV T V)) + (PTV T V * PV T V - PT T V * PVV T V) * (1 / PV T V * (1 / PV T V * (1 / PV T V))) * PT T V)
     (- PVV T V * (1 / PV T V * (1 / PV T V * (1 / PV T V))))
     (- (PVV T V * PT T V - PV T V * PTV T V) * (1 / PT T V * (1 / PT T V)) + (PTV T V * PT T V - PV T V * PTT T V) * (1 / PT T V * (1 / PT T V) * (1 / PT T V)) * PV T V)
     (- PTT T V * (1 / PT T V * (1 / PT T V) * (1 / PT T V)))
     (- (PTV T V * PV T V - PT T V * PVV T V) * (1 / PV T V * (1 / PV T V * (1 / PV T V))))
     (PTV T V)
     (- (PTV T V * PT T V - PV T V * PTT T V) * (1 / PT T V * (1 / PT T V) * (1 / PT T V))).
Proof.
  intros Hr. unfold dd, derivatives_and_departures.
  pose proof (main_P a da d2a b delta eps T P V Hr) as M.
  destruct (main_derivatives_and_departures T P V b delta eps (a T) (da T) (d2a T)) as [[[[[[[m1 m2] m3] m4] m5] m6] m7] m8].
  destruct M as (-> & -> & -> & -> & ->). reflexivity.
Qed.

Lemma reg_along Vf s : ex_derive Vf s -> reg (Vf s) -> locally s (fun x => reg (Vf x)).
Proof.
  intros E Hr. apply (ex_derive_continuous (K := R_AbsRing) (V := R_NormedModule)) in E.
  apply (E (fun v => reg v)). apply reg_locally_V; auto.
Qed.
Lemma ne0_along (f : R -> R) s : ex_derive f s -> f s <> 0 -> locally s (fun x => f x <> 0).
Proof.
  intros E Hr. apply (ex_derive_continuous (K := R_AbsRing) (V := R_NormedModule)) in E.
  apply (E (fun v => v <> 0)). apply (open_neq 0); auto.
Qed.

Lemma isobar_V T P Vf :
  locally T (fun t => is_derive a t (da t)) -> is_derive da T (d2a T) ->
  reg (Vf T) -> locally T (fun t => ex_derive Vf t /\ P_cubic a b delta eps t (Vf t) = P) ->
  PV T (Vf T) <> 0 ->
  is_derive Vf T (- PT T (Vf T) / PV T (Vf T)) /\
  is_derive (Derive Vf) T (- ((PTT T (Vf T) + PTV T (Vf T) * (- PT T (Vf T) / PV T (Vf T))) * PV T (Vf T)
     - PT T (Vf T) * (PTV T (Vf T) + PVV T (Vf T) * (- PT T (Vf T) / PV T (Vf T)))) / (PV T (Vf T)) ^ 2).
Proof.
  intros Ha Hda Hr L Hne.
  pose proof (locally_singleton _ _ L) as [E0 _].
  pose proof (locally_singleton _ _ Ha) as Ha0. cbv beta in Ha0.
  assert (DV0 : is_derive Vf T (Derive Vf T)) by (apply Derive_correct; auto).
  assert (Rl := reg_along Vf T E0 Hr).
  pose proof (curve_PV a da b delta eps (fun t => t) Vf T 1 _ (is_derive_id T) DV0 Ha0 Hr) as CPV.
  pose proof (curve_PT da d2a b delta eps (fun t => t) Vf T 1 _ (is_derive_id T) DV0 Hr Hda) as CPT.
  cbv beta in CPV, CPT.
  assert (Nl : locally T (fun t => PV t (Vf t) <> 0)) by (apply (ne0_along (fun t => PV t (Vf t))); [eexists; exact CPV | exact Hne]).
  assert (KEY : locally T (fun t => Derive Vf t = - PT t (Vf t) / PV t (Vf t))).
  { apply locally_locally in L. generalize (filter_and _ _ L (filter_and _ _ Ha (filter_and _ _ Rl Nl))).
    apply filter_imp. intros t (L1 & A1 & R1 & N1).
    pose proof (locally_singleton _ _ L1) as [E1 _].
    pose proof (curve_on_eos a da b delta eps (fun t => t) Vf (fun _ => P) t 1 (Derive Vf t) 0 (is_derive_id t)
      (Derive_correct _ _ E1) (is_derive_cst P t) A1 R1) as Q.
    rewrite <- (Rmult_1_r (PT t (Vf t))).
    assert (Q1 : PT t (Vf t) * 1 + PV t (Vf t) * Derive Vf t = 0).
    { apply Q. eapply filter_imp; [|exact L1]. intros x [_ Hx]. exact Hx. }
    apply Rmult_eq_reg_l with (PV t (Vf t)); auto. field_simplify; auto. lra. }
  pose proof (locally_singleton _ _ KEY) as K0. cbv beta in K0.
  split.
  - rewrite <- K0. exact DV0.
  - apply is_derive_ext_loc with (fun t => - PT t (Vf t) / PV t (Vf t)).
    { eapply filter_imp; [|exact KEY]. intros t Ht. symmetry. exact Ht. }
    rewrite <- K0.
    set (f := fun t => PT t (Vf t)) in *. set (g := fun t => PV t (Vf t)) in *.
    change (is_derive (fun t => - f t / g t) T (- ((PTT T (Vf T) + PTV T (Vf T) * Derive Vf T) * g T - f T * (PTV T (Vf T) + PVV T (Vf T) * Derive Vf T)) / g T ^ 2)).
    assert (g T <> 0) by exact Hne.
    auto_derive. splits; try exd; auto.
    dv CPT. dv CPV. field. auto.
Qed.

Lemma isotherm_V T P Vf :
  is_derive a T (da T) ->
  reg (Vf P) -> locally P (fun p => ex_derive Vf p /\ P_cubic a b delta eps T (Vf p) = p) ->
  PV T (Vf P) <> 0 ->
  is_derive Vf P (1 / PV T (Vf P)) /\
  is_derive (Derive Vf) P (- PVV T (Vf P) / (PV T (Vf P)) ^ 3).
Proof.
  intros Ha Hr L Hne.
  pose proof (locally_singleton _ _ L) as [E0 _].
  assert (DV0 : is_derive Vf P (Derive Vf P)) by (apply Derive_correct; auto).
  assert (Rl := reg_along Vf P E0 Hr).
  pose proof (curve_PV a da b delta eps (fun _ => T) Vf P 0 _ (is_derive_cst T P) DV0 Ha Hr) as CPV.
  cbv beta in CPV.
  assert (Nl : locally P (fun t => PV T (Vf t) <> 0)) by (apply (ne0_along (fun t => PV T (Vf t))); [eexists; exact CPV | exact Hne]).
  assert (KEY : locally P (fun t => Derive Vf t = 1 / PV T (Vf t))).
  { apply locally_locally in L. generalize (filter_and _ _ L (filter_and _ _ Rl Nl)).
    apply filter_imp. intros t (L1 & R1 & N1).
    pose proof (locally_singleton _ _ L1) as [E1 _].
    pose proof (curve_on_eos a da b delta eps (fun _ => T) Vf (fun p => p) t 0 (Derive Vf t) 1 (is_derive_cst T t)
      (Derive_correct _ _ E1) (is_derive_id t) Ha R1) as Q.
    assert (Q1 : PT T (Vf t) * 0 + PV T (Vf t) * Derive Vf t = 1).
    { apply Q. eapply filter_imp; [|exact L1]. intros x [_ Hx]. exact Hx. }
    apply Rmult_eq_reg_l with (PV T (Vf t)); auto. field_simplify; auto. lra. }
  pose proof (locally_singleton _ _ KEY) as K0. cbv beta in K0.
  split.
  - rewrite <- K0. exact DV0.
  - apply is_derive_ext_loc with (fun t => 1 / PV T (Vf t)).
    { eapply filter_imp; [|exact KEY]. intros t Ht. symmetry. exact Ht. }
    set (g := fun t => PV T (Vf t)) in *.
    change (is_derive (fun t => 1 / g t) P (- PVV T (Vf P) / g P ^ 3)).
    assert (g P <> 0) by exact Hne.
    auto_derive. splits; try exd; auto.
    dv CPV. rewrite K0. change (PV T (Vf P)) with (g P). field. auto.
Qed.

Lemma isochore_T V P Tf :
  locally (Tf P) (fun t => is_derive a t (da t)) -> is_derive da (Tf P) (d2a (Tf P)) ->
  reg V -> locally P (fun p => ex_derive Tf p /\ P_cubic a b delta eps (Tf p) V = p) ->
  PT (Tf P) V <> 0 ->
  is_derive Tf P (1 / PT (Tf P) V) /\
  is_derive (Derive Tf) P (- PTT (Tf P) V / (PT (Tf P) V) ^ 3).
Proof.
  intros Ha Hda Hr L Hne.
  pose proof (locally_singleton _ _ L) as [E0 _].
  pose proof (locally_singleton _ _ Ha) as Ha0. cbv beta in Ha0.
  assert (DT0 : is_derive Tf P (Derive Tf P)) by (apply Derive_correct; auto).
  pose proof (curve_PT da d2a b delta eps Tf (fun _ => V) P _ 0 DT0 (is_derive_cst V P) Hr Hda) as CPT.
  cbv beta in CPT.
  assert (Nl : locally P (fun t => PT (Tf t) V <> 0)) by (apply (ne0_along (fun t => PT (Tf t) V)); [eexists; exact CPT | exact Hne]).
  assert (Al : locally P (fun p => is_derive a (Tf p) (da (Tf p)))).
  { apply (ex_derive_continuous (K := R_AbsRing) (V := R_NormedModule)) in E0. apply (E0 _ Ha). }
  assert (KEY : locally P (fun t => Derive Tf t = 1 / PT (Tf t) V)).
  { apply locally_locally in L. generalize (filter_and _ _ L (filter_and _ _ Al Nl)).
    apply filter_imp. intros t (L1 & A1 & N1).
    pose proof (locally_singleton _ _ L1) as [E1 _].
    pose proof (curve_on_eos a da b delta eps Tf (fun _ => V) (fun p => p) t (Derive Tf t) 0 1
      (Derive_correct _ _ E1) (is_derive_cst V t) (is_derive_id t) A1 Hr) as Q.
    assert (Q1 : PT (Tf t) V * Derive Tf t + PV (Tf t) V * 0 = 1).
    { apply Q. eapply filter_imp; [|exact L1]. intros x [_ Hx]. exact Hx. }
    apply Rmult_eq_reg_l with (PT (Tf t) V); auto. field_simplify; auto. lra. }
  pose proof (locally_singleton _ _ KEY) as K0. cbv beta in K0.
  split.
  - rewrite <- K0. exact DT0.
  - apply is_derive_ext_loc with (fun t => 1 / PT (Tf t) V).
    { eapply filter_imp; [|exact KEY]. intros t Ht. symmetry. exact Ht. }
    set (g := fun t => PT (Tf t) V) in *.
    change (is_derive (fun t => 1 / g t) P (- PTT (Tf P) V / g P ^ 3)).
    assert (g P <> 0) by exact Hne.
    auto_derive. splits; try exd; auto.
    dv CPT. rewrite K0. change (PT (Tf P) V) with (g P). field. auto.
Qed.

Lemma isobar_T V P Tf :
  locally (Tf V) (fun t => is_derive a t (da t)) -> is_derive da (Tf V) (d2a (Tf V)) ->
  reg V -> locally V (fun v => ex_derive Tf v /\ P_cubic a b delta eps (Tf v) v = P) ->
  PT (Tf V) V <> 0 ->
  is_derive Tf V (- PV (Tf V) V / PT (Tf V) V) /\
  is_derive (Derive Tf) V (- ((PTV (Tf V) V * (- PV (Tf V) V / PT (Tf V) V) + PVV (Tf V) V) * PT (Tf V) V
      - PV (Tf V) V * (PTT (Tf V) V * (- PV (Tf V) V / PT (Tf V) V) + PTV (Tf V) V)) / (PT (Tf V) V) ^ 2).
Proof.
  intros Ha Hda Hr L Hne.
  pose proof (locally_singleton _ _ L) as [E0 _].
  pose proof (locally_singleton _ _ Ha) as Ha0. cbv beta in Ha0.
  assert (DT0 : is_derive Tf V (Derive Tf V)) by (apply Derive_correct; auto).
  pose proof (curve_PT da d2a b delta eps Tf (fun v => v) V _ 1 DT0 (is_derive_id V) Hr Hda) as CPT.
  pose proof (curve_PV a da b delta eps Tf (fun v => v) V _ 1 DT0 (is_derive_id V) Ha0 Hr) as CPV.
  cbv beta in CPT, CPV.
  assert (Nl : locally V (fun t => PT (Tf t) t <> 0)) by (apply (ne0_along (fun t => PT (Tf t) t)); [eexists; exact CPT | exact Hne]).
  assert (Al : locally V (fun p => is_derive a (Tf p) (da (Tf p)))).
  { apply (ex_derive_continuous (K := R_AbsRing) (V := R_NormedModule)) in E0. apply (E0 _ Ha). }
  assert (Rl := reg_locally_V b delta eps V Hr).
  assert (KEY : locally V (fun t => Derive Tf t = - PV (Tf t) t / PT (Tf t) t)).
  { apply locally_locally in L. generalize (filter_and _ _ L (filter_and _ _ Al (filter_and _ _ Rl Nl))).
    apply filter_imp. intros t (L1 & A1 & R1 & N1).
    pose proof (locally_singleton _ _ L1) as [E1 _].
    pose proof (curve_on_eos a da b delta eps Tf (fun v => v) (fun _ => P) t (Derive Tf t) 1 0
      (Derive_correct _ _ E1) (is_derive_id t) (is_derive_cst P t) A1 R1) as Q.
    assert (Q1 : PT (Tf t) t * Derive Tf t + PV (Tf t) t * 1 = 0).
    { apply Q. eapply filter_imp; [|exact L1]. intros x [_ Hx]. exact Hx. }
    apply Rmult_eq_reg_l with (PT (Tf t) t); auto. field_simplify; auto. lra. }
  pose proof (locally_singleton _ _ KEY) as K0. cbv beta in K0.
  split.
  - rewrite <- K0. exact DT0.
  - apply is_derive_ext_loc with (fun t => - PV (Tf t) t / PT (Tf t) t).
    { eapply filter_imp; [|exact KEY]. intros t Ht. symmetry. exact Ht. }
    rewrite <- K0.
    set (g := fun t => PT (Tf t) t) in *. set (f := fun t => PV (Tf t) t) in *.
    change (is_derive (fun t => - f t / g t) V (- ((PTV (Tf V) V * Derive Tf V + PVV (Tf V) V) * g V - f V * (PTT (Tf V) V * Derive Tf V + PTV (Tf V) V)) / g V ^ 2)).
    assert (g V <> 0) by exact Hne.
    auto_derive. splits; try exd; auto.
    dv CPT. dv CPV. field. auto.
Qed.
End Proofs.

(* V as a function of T at constant P. *)
Theorem C04_V_of_T :
  forall (a da d2a : R -> R) (b delta eps T P : R) (Vf : R -> R),
  locally T (fun t => is_derive a t (da t)) -> is_derive da T (d2a T) ->
  regular_V b delta eps (Vf T) ->
  locally T (fun t => ex_derive Vf t /\ P_cubic a b delta eps t (Vf t) = P) ->
  Derive (fun v => P_cubic a b delta eps T v) (Vf T) <> 0 ->
  let o := dd a da d2a b delta eps T P (Vf T) in
  is_derive Vf T (dV_dT o) /\ is_derive (Derive Vf) T (d2V_dT2 o) /\
  is_derive (Derive Vf) T (eos_d2V_dT2 (dV_dP o) (dP_dV o) (d2P_dTdV o) (dP_dT o) (d2P_dT2 o) (d2P_dV2 o)).
Proof.
  intros a da d2a b delta eps T P Vf Ha Hda Hr L Hne o.
  pose proof (P_cubic_dV a b delta eps T (Vf T) Hr) as DP.
  assert (N : cPV a b delta eps T (Vf T) <> 0).
  { intro Q. apply Hne. change (Derive (P_cubic a b delta eps T) (Vf T) = 0). rewrite (is_derive_unique _ _ _ DP). exact Q. }
  destruct (isobar_V a da d2a b delta eps T P Vf Ha Hda Hr L N) as [X1 X2].
  unfold o. rewrite dd_eq by auto. cbn [dV_dT d2V_dT2 dV_dP dP_dV d2P_dTdV dP_dT d2P_dT2 d2P_dV2].
  unfold eos_d2V_dT2. cbv zeta.
  splits.
  - eapply is_derive_eq. exact X1. field. auto.
  - eapply is_derive_eq. exact X2. field. auto.
  - eapply is_derive_eq. exact X2. field. auto.
Qed.

(* V as a function of P at constant T. *)
Theorem C04_V_of_P :
  forall (a da d2a : R -> R) (b delta eps T P : R) (Vf : R -> R),
  is_derive a T (da T) ->
  regular_V b delta eps (Vf P) ->
  locally P (fun p => ex_derive Vf p /\ P_cubic a b delta eps T (Vf p) = p) ->
  Derive (fun v => P_cubic a b delta eps T v) (Vf P) <> 0 ->
  let o := dd a da d2a b delta eps T P (Vf P) in
  is_derive Vf P (dV_dP o) /\ is_derive (Derive Vf) P (d2V_dP2 o) /\
  is_derive (Derive Vf) P (eos_d2V_dP2 (dV_dP o) (d2P_dV2 o)).
Proof.
  intros a da d2a b delta eps T P Vf Ha Hr L Hne o.
  pose proof (P_cubic_dV a b delta eps T (Vf P) Hr) as DP.
  assert (N : cPV a b delta eps T (Vf P) <> 0).
  { intro Q. apply Hne. change (Derive (P_cubic a b delta eps T) (Vf P) = 0). rewrite (is_derive_unique _ _ _ DP). exact Q. }
  destruct (isotherm_V a da b delta eps T P Vf Ha Hr L N) as [X1 X2].
  unfold o. rewrite dd_eq by auto. cbn [dV_dP d2V_dP2 d2P_dV2]. unfold eos_d2V_dP2. cbv zeta.
  splits.
  - eapply is_derive_eq. exact X1. field. auto.
  - eapply is_derive_eq. exact X2. field. auto.
  - eapply is_derive_eq. exact X2. field. auto.
Qed.

(* T as a function of P at constant V. *)
Theorem C04_T_of_P :
  forall (a da d2a : R -> R) (b delta eps V P : R) (Tf : R -> R),
  locally (Tf P) (fun t => is_derive a t (da t)) -> is_derive da (Tf P) (d2a (Tf P)) ->
  regular_V b delta eps V ->
  locally P (fun p => ex_derive Tf p /\ P_cubic a b delta eps (Tf p) V = p) ->
  Derive (fun t => P_cubic a b delta eps t V) (Tf P) <> 0 ->
  let o := dd a da d2a b delta eps (Tf P) P V in
  is_derive Tf P (dT_dP o) /\ is_derive (Derive Tf) P (d2T_dP2 o) /\
  is_derive (Derive Tf) P (eos_d2T_dP2 (dT_dP o) (d2P_dT2 o)).
Proof.
  intros a da d2a b delta eps V P Tf Ha Hda Hr L Hne o.
  pose proof (P_cubic_dT a da b delta eps (Tf P) V Hr (locally_singleton _ _ Ha)) as DP.
  assert (N : cPT da b delta eps (Tf P) V <> 0).
  { intro Q. apply Hne. erewrite is_derive_unique by exact DP. exact Q. }
  destruct (isochore_T a da d2a b delta eps V P Tf Ha Hda Hr L N) as [X1 X2].
  unfold o. rewrite dd_eq by auto. cbn [dT_dP d2T_dP2 d2P_dT2]. unfold eos_d2T_dP2. cbv zeta.
  splits.
  - eapply is_derive_eq. exact X1. field. auto.
  - eapply is_derive_eq. exact X2. field. auto.
  - eapply is_derive_eq. exact X2. field. auto.
Qed.

(* T as a function of V at constant P. *)
Theorem C04_T_of_V :
  forall (a da d2a : R -> R) (b delta eps V P : R) (Tf : R -> R),
  locally (Tf V) (fun t => is_derive a t (da t)) -> is_derive da (Tf V) (d2a (Tf V)) ->
  regular_V b delta eps V ->
  locally V (fun v => ex_derive Tf v /\ P_cubic a b delta eps (Tf v) v = P) ->
  Derive (fun t => P_cubic a b delta eps t V) (Tf V) <> 0 ->
  Derive (fun v => P_cubic a b delta eps (Tf V) v) V <> 0 ->
  let o := dd a da d2a b delta eps (Tf V) P V in
  is_derive Tf V (dT_dV o) /\ is_derive (Derive Tf) V (d2T_dV2 o) /\
  is_derive (Derive Tf) V (eos_d2T_dV2 (dT_dP o) (d2P_dV2 o) (dP_dT o) (dP_dV o) (d2P_dTdV o) (d2P_dT2 o)).
Proof.
  intros a da d2a b delta eps V P Tf Ha Hda Hr L Hne Hne2 o.
  pose proof (P_cubic_dT a da b delta eps (Tf V) V Hr (locally_singleton _ _ Ha)) as DP.
  assert (N : cPT da b delta eps (Tf V) V <> 0).
  { intro Q. apply Hne. erewrite is_derive_unique by exact DP. exact Q. }
  pose proof (P_cubic_dV a b delta eps (Tf V) V Hr) as DP2.
  assert (N2 : cPV a b delta eps (Tf V) V <> 0).
  { intro Q. apply Hne2. erewrite is_derive_unique by exact DP2. exact Q. }
  destruct (isobar_T a da d2a b delta eps V P Tf Ha Hda Hr L N) as [X1 X2].
  unfold o. rewrite dd_eq by auto. cbn [dT_dV d2T_dV2 dT_dP d2P_dV2 dP_dT dP_dV d2P_dTdV d2P_dT2].
  unfold eos_d2T_dV2. cbv zeta.
  splits.
  - eapply is_derive_eq. exact X1. field. auto.
  - eapply is_derive_eq. exact X2. field. auto.
  - eapply is_derive_eq. exact X2. field. auto.
Qed.

(* mixed second derivatives: W(T,P) and Th(P,V) are the implicit functions *)
Theorem C04_V_mixed :
  forall (a da d2a : R -> R) (b delta eps T P : R) (W : R -> R -> R),
  locally T (fun t => is_derive a t (da t)) -> is_derive da T (d2a T) ->
  regular_V b delta eps (W T P) ->
  locally T (fun t => ex_derive (fun t' => W t' P) t) ->
  locally T (fun t => locally P (fun p => ex_derive (W t) p /\ P_cubic a b delta eps t (W t p) = p)) ->
  Derive (fun v => P_cubic a b delta eps T v) (W T P) <> 0 ->
  let o := dd a da d2a b delta eps T P (W T P) in
  is_derive (fun t => Derive (fun p => W t p) P) T (d2V_dPdT o) /\
  is_derive (fun t => Derive (fun p => W t p) P) T (eos_d2V_dPdT (dV_dP o) (d2P_dTdV o) (dP_dV o) (dP_dT o) (d2P_dV2 o)).
Proof.
  intros a da d2a b delta eps T P W Ha Hda Hr E1 L Hne o.
  pose proof (P_cubic_dV a b delta eps T (W T P) Hr) as DP.
  assert (N : cPV a b delta eps T (W T P) <> 0).
  { intro Q. apply Hne. change (Derive (P_cubic a b delta eps T) (W T P) = 0). rewrite (is_derive_unique _ _ _ DP). exact Q. }
  pose (Vf := fun t => W t P).
  assert (LV : locally T (fun t => ex_derive Vf t /\ P_cubic a b delta eps t (Vf t) = P)).
  { generalize (filter_and _ _ E1 L). apply filter_imp. intros t [A1 A2]. split; auto.
    apply locally_singleton in A2. apply A2. }
  destruct (isobar_V a da d2a b delta eps T P Vf Ha Hda Hr LV N) as [X1 X2].
  pose proof (locally_singleton _ _ Ha) as Ha0. cbv beta in Ha0.
  pose proof (curve_PV a da b delta eps (fun t => t) Vf T 1 _ (is_derive_id T) X1 Ha0 Hr) as CPV. cbv beta in CPV.
  assert (Nl : locally T (fun t => cPV a b delta eps t (Vf t) <> 0)) by (apply (ne0_along (fun t => cPV a b delta eps t (Vf t))); [eexists; exact CPV | exact N]).
  assert (Rl := reg_along b delta eps Vf T (ex_intro _ _ X1) Hr).
  assert (G : is_derive (fun t => Derive (fun p => W t p) P) T
     (- (cPTV da b delta eps T (Vf T) * 1 + cPVV a b delta eps T (Vf T) * (- cPT da b delta eps T (Vf T) / cPV a b delta eps T (Vf T))) / cPV a b delta eps T (Vf T) ^ 2)).
  { apply is_derive_ext_loc with (fun t => 1 / cPV a b delta eps t (Vf t)).
    - generalize (filter_and _ _ L (filter_and _ _ Ha (filter_and _ _ Nl Rl))). apply filter_imp.
      intros t (A1 & A2 & A3 & A4). symmetry. apply is_derive_unique.
      apply (isotherm_V a da b delta eps t P (W t)); auto.
    - set (g := fun t => cPV a b delta eps t (Vf t)) in *.
      change (is_derive (fun t => 1 / g t) T (- (cPTV da b delta eps T (Vf T) * 1 + cPVV a b delta eps T (Vf T) * (- cPT da b delta eps T (Vf T) / g T)) / g T ^ 2)).
      assert (g T <> 0) by exact N. auto_derive. splits; try exd; auto. dv CPV. change (cPV a b delta eps T (Vf T)) with (g T). field. auto. }
  unfold o. rewrite dd_eq by auto. cbn [d2V_dPdT dV_dP d2P_dTdV dP_dV dP_dT d2P_dV2]. unfold eos_d2V_dPdT. cbv zeta.
  change (W T P) with (Vf T).
  splits; (eapply is_derive_eq; [exact G | field; auto]).
Qed.

Theorem C04_T_mixed :
  forall (a da d2a : R -> R) (b delta eps V P : R) (Th : R -> R -> R),
  locally (Th P V) (fun t => is_derive a t (da t)) -> is_derive da (Th P V) (d2a (Th P V)) ->
  regular_V b delta eps V ->
  locally V (fun v => ex_derive (fun v' => Th P v') v) ->
  locally V (fun v => is_derive da (Th P v) (d2a (Th P v)) /\ locally P (fun p => ex_derive (fun p => Th p v) p /\ P_cubic a b delta eps (Th p v) v = p)) ->
  Derive (fun t => P_cubic a b delta eps t V) (Th P V) <> 0 ->
  let o := dd a da d2a b delta eps (Th P V) P V in
  is_derive (fun v => Derive (fun p => Th p v) P) V (d2T_dPdV o) /\
  is_derive (fun v => Derive (fun p => Th p v) P) V (eos_d2T_dPdV (dT_dP o) (d2P_dTdV o) (dP_dT o) (dP_dV o) (d2P_dT2 o)).
Proof.
  intros a da d2a b delta eps V P Th Ha Hda Hr E1 L Hne o.
  pose proof (P_cubic_dT a da b delta eps (Th P V) V Hr (locally_singleton _ _ Ha)) as DP.
  assert (N : cPT da b delta eps (Th P V) V <> 0).
  { intro Q. apply Hne. erewrite is_derive_unique by exact DP. exact Q. }
  pose (Tf := fun v => Th P v).
  assert (LV : locally V (fun t => ex_derive Tf t /\ P_cubic a b delta eps (Tf t) t = P)).
  { generalize (filter_and _ _ E1 L). apply filter_imp. intros t [A1 [_ A2]]. split; auto.
    apply locally_singleton in A2. apply A2. }
  destruct (isobar_T a da d2a b delta eps V P Tf Ha Hda Hr LV N) as [X1 X2].
  pose proof (locally_singleton _ _ Ha) as Ha0. cbv beta in Ha0.
  pose proof (curve_PT da d2a b delta eps Tf (fun v => v) V _ 1 X1 (is_derive_id V) Hr Hda) as CPT. cbv beta in CPT.
  assert (Nl : locally V (fun t => cPT da b delta eps (Tf t) t <> 0)) by (apply (ne0_along (fun t => cPT da b delta eps (Tf t) t)); [eexists; exact CPT | exact N]).
  assert (Rl := reg_locally_V b delta eps V Hr).
  assert (Al : locally V (fun p => locally (Tf p) (fun t => is_derive a t (da t)))).
  { apply locally_locally in Ha. assert (C : continuous Tf V) by (apply (ex_derive_continuous (K := R_AbsRing) (V := R_NormedModule)); eexists; exact X1). apply (C _ Ha). }
  assert (G : is_derive (fun v => Derive (fun p => Th p v) P) V
     (- (cPTT d2a delta eps (Tf V) V * (- cPV a b delta eps (Tf V) V / cPT da b delta eps (Tf V) V) + cPTV da b delta eps (Tf V) V * 1) / cPT da b delta eps (Tf V) V ^ 2)).
  { apply is_derive_ext_loc with (fun t => 1 / cPT da b delta eps (Tf t) t).
    - generalize (filter_and _ _ L (filter_and _ _ Al (filter_and _ _ Nl Rl))). apply filter_imp.
      intros t ((A0 & A1) & A2 & A3 & A4). symmetry. apply is_derive_unique.
      apply (isochore_T a da d2a b delta eps t P (fun p => Th p t)); auto.
    - set (g := fun t => cPT da b delta eps (Tf t) t) in *.
      change (is_derive (fun t => 1 / g t) V (- (cPTT d2a delta eps (Tf V) V * (- cPV a b delta eps (Tf V) V / g V) + cPTV da b delta eps (Tf V) V * 1) / g V ^ 2)).
      assert (g V <> 0) by exact N. auto_derive. splits; try exd; auto. dv CPT. change (cPT da b delta eps (Tf V) V) with (g V). field. auto. }
  unfold o. rewrite dd_eq by auto. cbn [d2T_dPdV dT_dP d2P_dTdV dP_dT dP_dV d2P_dT2]. unfold eos_d2T_dPdV. cbv zeta.
  change (Th P V) with (Tf V).
  splits; (eapply is_derive_eq; [exact G | field; auto]).
Qed.

(* All hypotheses of the six theorems hold together for the equation of state with
   b = 1, delta = -1, epsilon = 0, a_alpha(T) = R*T, for which P = R*T/V. *)
Lemma witness_P t v : v - 1 <> 0 -> v ^ 2 + -1 * v + 0 <> 0 -> P_cubic (fun t => Rgas * t) 1 (-1) 0 t v = Rgas * t / v.
Proof. intros H1 H2. unfold P_cubic. assert (v <> 0) by (intro Q; subst; lra). field. nz. Qed.
Example C04_hypotheses_met :
  let a := fun t => Rgas * t in let da := fun _ : R => Rgas in let d2a := fun _ : R => 0 in
  let W := fun t p => Rgas * t / p in let Th := fun p v => p * v / Rgas in
  W 1 (Rgas / 3) = 3 /\ Th (Rgas / 3) 3 = 1 /\ regular_V 1 (-1) 0 3 /\
  (forall t, is_derive a t (da t)) /\ (forall t, is_derive da t (d2a t)) /\
  locally 1 (fun t => ex_derive (fun t => W t (Rgas / 3)) t /\ P_cubic a 1 (-1) 0 t (W t (Rgas / 3)) = Rgas / 3) /\
  locally 1 (fun t => locally (Rgas / 3) (fun p => ex_derive (W t) p /\ P_cubic a 1 (-1) 0 t (W t p) = p)) /\
  locally 3 (fun v => ex_derive (fun v => Th (Rgas / 3) v) v /\ P_cubic a 1 (-1) 0 (Th (Rgas / 3) v) v = Rgas / 3) /\
  locally 3 (fun v => locally (Rgas / 3) (fun p => ex_derive (fun p => Th p v) p /\ P_cubic a 1 (-1) 0 (Th p v) v = p)) /\
  Derive (fun v => P_cubic a 1 (-1) 0 1 v) 3 <> 0 /\ Derive (fun t => P_cubic a 1 (-1) 0 t 3) 1 <> 0.
Proof.
  pose proof Rgas_pos as HR.
  assert (GT : forall x, 2 < x -> x - 1 <> 0 /\ x ^ 2 + -1 * x + 0 <> 0) by (intros x Hx; split; apply Rgt_not_eq; nra).
  intros a da d2a W Th.
  assert (R3 : regular_V 1 (-1) 0 3) by (split; lra).
  assert (Ba : forall t, is_derive a t (da t)) by (intro t; unfold a, da; auto_derive; auto; ring).
  splits; auto.
  - unfold W. field. nz.
  - unfold Th. field. nz.
  - intro t. unfold da, d2a. auto_derive; auto.
  - exists (mkposreal (1/6) ltac:(lra)). intros t Ht. change (Rabs (t - 1) < 1/6) in Ht. apply Rabs_def2 in Ht.
    split. { unfold W. auto_derive. auto. }
    unfold a, W. destruct (GT (Rgas * t / (Rgas / 3))).
    { replace (Rgas * t / (Rgas / 3)) with (3 * t) by (field; nz). lra. }
    rewrite witness_P by auto. field. split; nz.
  - exists (mkposreal (1/6) ltac:(lra)). intros t Ht. change (Rabs (t - 1) < 1/6) in Ht. apply Rabs_def2 in Ht.
    assert (HD : 0 < Rgas / 30) by lra. exists (mkposreal _ HD). intros p Hp. change (Rabs (p - Rgas / 3) < Rgas / 30) in Hp. apply Rabs_def2 in Hp.
    assert (Hp0 : 0 < p) by lra.
    split. { unfold W. auto_derive. nz. }
    unfold a, W. destruct (GT (Rgas * t / p)).
    { apply Rmult_lt_reg_r with p; auto. unfold Rdiv. rewrite Rmult_assoc, Rinv_l by nz. nra. }
    rewrite witness_P by auto. field. split; nz.
  - exists (mkposreal (1/2) ltac:(lra)). intros v Hv. change (Rabs (v - 3) < 1/2) in Hv. apply Rabs_def2 in Hv.
    split. { unfold Th. auto_derive. auto. }
    unfold a, Th. destruct (GT v). lra. rewrite witness_P by auto. field. split; nz.
  - exists (mkposreal (1/2) ltac:(lra)). intros v Hv. change (Rabs (v - 3) < 1/2) in Hv. apply Rabs_def2 in Hv.
    assert (HD : 0 < Rgas / 30) by lra. exists (mkposreal _ HD). intros p Hp.
    split. { unfold Th. auto_derive. auto. }
    unfold a, Th. destruct (GT v). lra. rewrite witness_P by auto. field. split; nz.
  - pose proof (P_cubic_dV a 1 (-1) 0 1 3 R3) as D. erewrite is_derive_unique by exact D. unfold a. lra.
  - pose proof (P_cubic_dT a da 1 (-1) 0 1 3 R3 (Ba 1)) as D. erewrite is_derive_unique by exact D. unfold da. lra.
Qed.
