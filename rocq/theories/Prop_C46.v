(* C46: the virial gas phase. *)
From Coq Require Import Reals Lra Lia Arith Bool List FunctionalExtensionality.
From Coquelicot Require Import Coquelicot.
From Verif Require Import Base BaseFacts Spec_mix Spec_activity Spec_gradient MixFacts MixDeriv LnphiFacts NrtlFacts ActFacts GradFacts Gen_uniquac Gen_activity Prop_C28 Prop_C15 Spec_phase PhaseFacts Spec_virial Gen_phase Gen_virial Model_virial.
Import ListNotations.
Open Scope R_scope.
Ltac spu := unfold temperature, volume, density, internal_energy, gibbs_energy, helmholtz_energy, compressibility_factor, per_mass.
Ltac pdgo := spu; eapply pd_intro; [dif|dif|dif|cbv beta|cbv beta].

Ltac asR := match goal with |- @eq _ ?a ?b => change (@eq R a b) end.
Section EOS.
Variables (Bf B1 B2 Cf C1 C2 : R -> R).
Hypothesis (SB : smooth_T Bf B1 B2) (SC : smooth_T Cf C1 C2).
Definition Pv : property := fun T V => virial_pressure (Bf T) (Cf T) T V.
Definition Hd : property := fun T V => Vir_H_dep T V (Bf T) (Cf T) (B1 T) (C1 T).
Definition Sd : property := fun T V => Vir_S_dep T V (Bf T) (Cf T) (B1 T) (C1 T).
Variables (T V : R).
Hypothesis (PT : 0 < T) (PV : 0 < V).
Notation pd X Y Z d := (partial_derivative X Y Z T V d).
Notation B := (Bf T). Notation C := (Cf T). Notation dB := (B1 T). Notation dC := (C1 T). Notation d2B := (B2 T). Notation d2C := (C2 T).
Notation dP_dT := (Vir_dP_dT T V B C dB dC).
Notation dP_dV := (Vir_dP_dV T V B C).
Lemma D_Tf f f' : is_derive f T f' -> differential (fun T V => f T) T V f' 0.
Proof. intros H. eapply D_eq; [apply (D_comp T V f f' (fun T V => T)); [exact H|apply D_T]|ring|ring]. Qed.
Ltac nzs := assert (NT : T <> 0) by lra; assert (NV : V <> 0) by lra; pose proof Rgas_neq as NR.
Ltac dT := first [assumption | apply D_T | apply D_V | (apply D_Tf; destruct (SB T PT), (SC T PT); eassumption) | dif].
Lemma D_B : differential (fun T V => Bf T) T V dB 0. Proof. apply D_Tf, SB, PT. Qed.
Lemma D_C : differential (fun T V => Cf T) T V dC 0. Proof. apply D_Tf, SC, PT. Qed.
Lemma D_B1 : differential (fun T V => B1 T) T V d2B 0. Proof. apply D_Tf, SB, PT. Qed.
Lemma D_C1 : differential (fun T V => C1 T) T V d2C 0. Proof. apply D_Tf, SC, PT. Qed.
Ltac have := pose proof D_B as LB; pose proof D_C as LC; pose proof D_B1 as LB1; pose proof D_C1 as LC1; nzs.
Ltac nz0 := cbv beta; repeat first [assumption | apply Rmult_integral_contrapositive_currified | apply Rgt_not_eq; lra | lra].
Lemma D_P : differential Pv T V dP_dT dP_dV.
Proof.
  have. unfold Pv, virial_pressure, Vir_dP_dT, Vir_dP_dV. cbv zeta. eapply D_eq; [dif|cbv beta; field; auto|cbv beta; field; auto]; nz0.
Qed.
Theorem C46_pressure : pd Pv temperature volume dP_dT /\ pd Pv volume temperature dP_dV /\
  pd (fun T V => Vir_dP_dT T V (Bf T) (Cf T) (B1 T) (C1 T)) temperature volume (Vir_d2P_dT2 T V dB dC d2B d2C) /\
  pd (fun T V => Vir_dP_dT T V (Bf T) (Cf T) (B1 T) (C1 T)) volume temperature (Vir_d2P_dTdV T V B C dB dC) /\
  pd (fun T V => Vir_dP_dV T V (Bf T) (Cf T)) temperature volume (Vir_d2P_dTdV T V B C dB dC) /\
  pd (fun T V => Vir_dP_dV T V (Bf T) (Cf T)) volume temperature (Vir_d2P_dV2 T V B C).
Proof.
  have. pose proof D_P as LP.
  splits; unfold Vir_d2P_dT2, Vir_d2P_dTdV, Vir_d2P_dV2; cbv zeta.
  1,2: spu; eapply pd_intro; [exact LP|dif|dif|lra|field; lra].
  all: unfold Vir_dP_dT, Vir_dP_dV; cbv zeta; spu; (eapply pd_intro; [dif; nz0|dif|dif|cbv beta; lra|cbv beta; field; auto]).
Qed.
Hypothesis Pos : 0 < V * V + V * B + C.
Notation hT := (Vir_dH_dep_dT T V B C dB d2B d2C).
Notation hV := (Vir_dH_dep_dV_T T V B C dB dC).
Notation sT := (Vir_dS_dep_dT T V B C dB dC d2B d2C).
Notation sV := (Vir_dS_dep_dV_T T V B C dB dC).
Lemma D_Hd : differential Hd T V hT hV.
Proof.
  have. unfold Hd, Vir_H_dep, Vir_dH_dep_dT, Vir_dH_dep_dV_T. cbv zeta. eapply D_eq; [dif; nz0|cbv beta; field; auto|cbv beta; field; auto].
Qed.
Lemma D_Sd : differential Sd T V sT sV.
Proof.
  have. unfold Sd, Vir_S_dep, Vir_dS_dep_dT, Vir_dS_dep_dV_T. cbv zeta. simpl pow.
  assert (PL : 0 < (V * V + V * Bf T + Cf T) / (V * (V * 1))) by (apply Rdiv_lt_0_compat; [exact Pos|rewrite Rmult_1_r; now apply Rmult_lt_0_compat]).
  assert (NPo : V * V + V * Bf T + Cf T <> 0) by lra.
  eapply D_eq; [dif; nz0|cbv beta; field; splits; auto|cbv beta; field; splits; auto]; try (intro K; lra).
Qed.
Theorem C46_departures_at_constant_volume : pd Hd temperature volume hT /\ pd Hd volume temperature hV /\ pd Sd temperature volume sT /\ pd Sd volume temperature sV.
Proof. pose proof D_Hd. pose proof D_Sd. splits; spu; (eapply pd_intro; [eassumption|dif|dif|lra|field]). Qed.
Hypothesis (NpT : dP_dT <> 0) (NpV : dP_dV <> 0).
Ltac nj := let K := fresh in intro K; first [apply NpT; lra | apply NpV; lra | lra].
Theorem C46_departure_derivatives :
  pd Hd Pv volume (Vir_dH_dep_dP_V T V B C dB dC d2B d2C dP_dT (Ph_dT_dP dP_dT)) /\ pd Sd Pv volume (Vir_dS_dep_dP_V T V B C dB dC d2B d2C dP_dT (Ph_dT_dP dP_dT)) /\
  pd Hd Pv temperature (Vir_dH_dep_dP_T T V B C dB dC (Ph_dV_dP dP_dT dP_dV)) /\ pd Sd Pv temperature (Vir_dS_dep_dP_T T V B C dB dC (Ph_dV_dP dP_dT dP_dV)) /\
  pd Hd volume Pv (Vir_dH_dep_dV_P T V B C dB dC d2B d2C (Ph_dT_dV dP_dT dP_dV)) /\ pd Sd volume Pv (Vir_dS_dep_dV_P T V B C dB dC d2B d2C (Ph_dT_dV dP_dT dP_dV)).
Proof.
  nzs. pose proof D_Hd as LH. pose proof D_Sd as LS. pose proof D_P as LP. revert LH LS LP.
  assert (NPo : V * V + V * Bf T + Cf T <> 0) by lra. clear Pos.
  revert NPo NpT NpV. generalize dP_dT dP_dV. intros pT pV NPo NpT NpV LH LS LP.
  splits; spu; (eapply pd_intro; [first [exact LH|exact LS]|first [exact LP|dif]|first [exact LP|dif]|nj|]);
  unfold Ph_dT_dP, Ph_dV_dP, Ph_dT_dV, Ph_dV_dT, Ph_dT_dP, Vir_dH_dep_dP_V, Vir_dS_dep_dP_V, Vir_dH_dep_dP_T, Vir_dS_dep_dP_T, Vir_dH_dep_dV_P, Vir_dS_dep_dV_P, Vir_dH_dep_dT, Vir_dS_dep_dT, Vir_dH_dep_dV_T, Vir_dS_dep_dV_T, Vir_dB_dP_V, Vir_dC_dP_V, Vir_d2B_dTdP_V, Vir_d2C_dTdP_V, Vir_dB_dV_P, Vir_dC_dV_P, Vir_d2B_dTdV_P, Vir_d2C_dTdV_P; cbv zeta.
  all: field; splits; auto; try nj.
  all: try (intro K; apply NPo; lra).
Qed.
(* the enthalpy and entropy of the phase: those of the ideal gas and the departures, with any heat capacity *)
Theorem C46_thermodynamic (Hig Sig : R -> R) (cp Pref : R) : is_derive Hig T cp -> is_derive Sig T (cp / T) -> 0 < Pref ->
  exists xT xV yT yV, differential (fun T V => Hig T + Hd T V) T V xT xV /\ differential (fun T V => Sig T - Rgas * ln (Pv T V / Pref) + Sd T V) T V yT yV /\
  thermodynamic T V dP_dT dP_dV xT xV yT yV.
Proof.
  intros H1 H2 HP. nzs. pose proof D_Hd as LH. pose proof D_Sd as LS. pose proof D_P as LP. pose proof (D_Tf _ _ H1) as L1. pose proof (D_Tf _ _ H2) as L2.
  assert (NPo : V * V + V * Bf T + Cf T <> 0) by lra.
  assert (EP : Pv T V = Rgas * T * (V * V + V * Bf T + Cf T) / (V * V * V)) by (unfold Pv, virial_pressure; field; auto).
  assert (PP : 0 < Pv T V). { rewrite EP. pose proof Rgas_pos. apply Rdiv_lt_0_compat; [apply Rmult_lt_0_compat; [now apply Rmult_lt_0_compat|exact Pos]|apply Rmult_lt_0_compat; [now apply Rmult_lt_0_compat|exact PV]]. }
  assert (PL : 0 < Pv T V / Pref) by now apply Rdiv_lt_0_compat.
  do 4 eexists. split; [eapply D_plus; [exact L1|exact LH]|]. split.
  { apply D_plus; [|exact LS]. apply D_minus; [exact L2|]. apply (D_mult T V (fun T V => Rgas) (fun T V => ln (Pv T V / Pref))); [apply D_const|].
    apply (D_ln T V (fun T V => Pv T V / Pref)); [exact PL|]. apply (D_div T V Pv (fun T V => Pref)); [lra|exact LP|apply D_const]. }
  rewrite EP. unfold thermodynamic, Vir_dH_dep_dT, Vir_dS_dep_dT, Vir_dH_dep_dV_T, Vir_dS_dep_dV_T, Vir_dP_dT, Vir_dP_dV. cbv zeta. splits; field; splits; auto; try lra.
Qed.
(* at constant pressure the departures change with temperature at other rates than those the phase reports as Cp_dep and dS_dep_dT_P,
   unless they do not depend on volume *)
Theorem C46_constant_pressure : pd Hd temperature Pv (hT + hV * Ph_dV_dT dP_dT dP_dV) /\ pd Sd temperature Pv (sT + sV * Ph_dV_dT dP_dT dP_dV) /\
  (pd Hd temperature Pv hT <-> hV = 0) /\ (pd Sd temperature Pv sT <-> sV = 0).
Proof.
  nzs. pose proof D_Hd as LH. pose proof D_Sd as LS. pose proof D_P as LP. unfold Ph_dV_dT. replace (- dP_dT / dP_dV) with (- (dP_dT / dP_dV)) by (field; auto).
  assert (A : forall X xT xV, differential X T V xT xV -> pd X temperature Pv (xT + xV * - (dP_dT / dP_dV)) /\ (pd X temperature Pv xT <-> xV = 0)).
  { intros X xT xV L. assert (A : pd X temperature Pv (xT + xV * - (dP_dT / dP_dV))) by (spu; eapply pd_intro; [exact L|dif|exact LP|nj|field; auto]).
    split; [exact A|]. split; intros K.
    - assert (E1 : xT + xV * - (dP_dT / dP_dV) = xT).
      { etransitivity; [eapply pd_elim; [exact A|exact L|spu; dif|exact LP|nj]|symmetry; eapply pd_elim; [exact K|exact L|spu; dif|exact LP|nj]]. }
      assert (E2 : xV * (dP_dT / dP_dV) = 0) by lra. apply Rmult_integral in E2. destruct E2 as [E2|E2]; [exact E2|]. exfalso. revert E2. unfold Rdiv. apply Rmult_integral_contrapositive_currified; [exact NpT|now apply Rinv_neq_0_compat].
    - rewrite K in A. match type of A with pd _ _ _ ?d => replace d with xT in A by ring end. exact A. }
  destruct (A _ _ _ LH) as (a & b). destruct (A _ _ _ LS) as (c & d). exact (conj a (conj c (conj b d))).
Qed.
End EOS.

(* Cp_dep and dS_dep_dT (alias dS_dep_dT_P), which the phase uses as the derivatives at constant pressure *)
Theorem C46_Cp_dep_refuted : exists Bf B1 B2 Cf C1 C2 T V, smooth_T Bf B1 B2 /\ smooth_T Cf C1 C2 /\ 0 < T /\ 0 < V /\ 0 < Pv Bf Cf T V /\ Vir_dP_dV T V (Bf T) (Cf T) < 0 /\
  ~ partial_derivative (Hd Bf B1 Cf C1) temperature (Pv Bf Cf) T V (Vir_dH_dep_dT T V (Bf T) (Cf T) (B1 T) (B2 T) (C2 T)) /\
  ~ partial_derivative (Sd Bf B1 Cf C1) temperature (Pv Bf Cf) T V (Vir_dS_dep_dT T V (Bf T) (Cf T) (B1 T) (C1 T) (B2 T) (C2 T)).
Proof.
  pose (z := fun _ : R => 0). assert (K0 : forall c, smooth_T (fun _ => c) z z) by (intros c T _; split; apply (is_derive_const (V:=R_NormedModule))).
  exists (fun _ => 1), z, z, z, z, z, 1, 1. pose proof Rgas_pos as RP.
  assert (NpT : Vir_dP_dT 1 1 1 0 0 0 <> 0) by (unfold Vir_dP_dT; cbv zeta; match goal with |- ?a <> 0 => replace a with (2 * Rgas) by field end; lra).
  assert (EV : Vir_dP_dV 1 1 1 0 = - 3 * Rgas) by (unfold Vir_dP_dV; cbv zeta; field).
  assert (PosV : 0 < 1 * 1 + 1 * 1 + 0) by lra.
  assert (L : forall (A B : Prop), A -> B -> A /\ B) by (intros; split; auto).
  destruct (C46_constant_pressure (fun _ => 1) z z z z z (K0 1) (K0 0) 1 1 Rlt_0_1 Rlt_0_1 PosV NpT ltac:(unfold z; rewrite EV; lra)) as (_ & _ & IH & IS).
  splits; [apply (K0 1)|apply (K0 0)|lra|lra| |unfold z; rewrite EV; lra| |].
  - unfold Pv, virial_pressure, z. match goal with |- _ < ?a => replace a with (2 * Rgas) by field end. lra.
  - intros K. apply IH in K. revert K. unfold Vir_dH_dep_dV_T, z. cbv zeta. match goal with |- ?a = 0 -> _ => replace a with (- Rgas) by field end. lra.
  - intros K. apply IS in K. revert K. unfold Vir_dS_dep_dV_T, z. cbv zeta. match goal with |- ?a = 0 -> _ => replace a with (Rgas / 2) by field end. lra.
Qed.
Lemma lim_inv (f g : R -> R) : (forall V, 0 < V -> f V = g (/ V)) -> continuous g 0 -> g 0 = 0 -> is_lim f p_infty 0.
Proof.
  intros E CG G0. apply (is_lim_ext_loc (fun V => g (/ V))); [exists 0; intros x Hx; symmetry; auto|].
  apply (is_lim_comp g Rinv p_infty 0 0).
  - pose proof (is_lim_continuity g 0) as K. rewrite G0 in K. apply K. now apply continuity_pt_filterlim.
  - apply (is_lim_inv (fun y => y) p_infty p_infty); [apply is_lim_id|discriminate].
  - exists 0. intros y Hy K. injection K. intros K'. assert (0 < / y) by now apply Rinv_0_lt_compat. lra.
Qed.
Theorem C46_ideal_limit Bf B1 Cf C1 T : vanishes (Hd Bf B1 Cf C1) T /\ vanishes (Sd Bf B1 Cf C1) T.
Proof.
  unfold vanishes, Hd, Sd. split.
  - apply (lim_inv _ (fun u => - Rgas * T * (T * (2 * B1 T * u + C1 T * (u * u)) / 2 - (Bf T * u + Cf T * (u * u))))).
    + intros V HV. unfold Vir_H_dep. cbv zeta. field. lra.
    + apply (ex_derive_continuous (V:=R_NormedModule)). auto_derive. auto.
    + field.
  - apply (lim_inv _ (fun u => Rgas * (- T * C1 T * (u * u) / 2 + ln (1 + Bf T * u + Cf T * (u * u)) - (T * B1 T + Bf T) * u - Cf T * (u * u) / 2))).
    + intros V HV. unfold Vir_S_dep. cbv zeta. replace ((V * V + V * Bf T + Cf T) / V ^ 2) with (1 + Bf T * / V + Cf T * (/ V * / V)) by (field; lra). field. lra.
    + apply (ex_derive_continuous (V:=R_NormedModule)). auto_derive. splits; auto. lra.
    + replace (1 + Bf T * 0 + Cf T * (0 * 0)) with 1 by ring. rewrite ln_1. field.
Qed.

(* composition *)
Section Composition.
Variables (N : nat) (T P : R) (Bz Cz B1z C1z Vz : (nat -> R) -> R) (zs dB dC : nat -> R).
Hypothesis (PT : 0 < T) (GB : has_gradient N Bz zs dB) (GC : has_gradient N Cz zs dC) (GV : diffable N Vz zs).
Hypothesis EOS : near N zs (fun y => 0 < Vz y /\ 0 < Vz y * Vz y + Vz y * Bz y + Cz y /\ virial_pressure (Bz y) (Cz y) T (Vz y) = P).
Notation V := (Vz zs). Notation B := (Bz zs). Notation C := (Cz zs).
Hypothesis NpV : Vir_dP_dV T V B C <> 0.
Notation dV := (ext_dV_dzs_virial B C V dB dC).
Lemma pos0 : 0 < V /\ 0 < V * V + V * B + C /\ virial_pressure B C T V = P. Proof. exact (near_self _ _ _ EOS). Qed.
Lemma den0 : V * V + 2 * V * B + 3 * C <> 0.
Proof.
  destruct pos0 as (A1 & _). intros K. apply NpV. unfold Vir_dP_dV. cbv zeta.
  match goal with |- ?a = 0 => replace a with (- (Rgas * T) / (V * V * V * V) * (V * V + 2 * V * B + 3 * C)) by (field; lra) end. rewrite K. ring.
Qed.
Lemma curve_V c t dc : curve_through N c t zs dc -> forall b' c' v' : R, is_derive (fun s => Bz (fun i => c i s)) t b' -> is_derive (fun s => Cz (fun i => c i s)) t c' ->
  is_derive (fun s => Vz (fun i => c i s)) t v' -> v' = V * (V * b' + c') / (2 * V * B + V * V + 3 * C).
Proof.
  intros Hc b' c' v' Hb Hcc Hv. destruct pos0 as (A1 & A2 & A3). pose proof den0 as D0.
  assert (Eb : Bz (fun i => c i t) = B) by (apply (diff_at N zs Bz (ex_intro _ dB GB) c t dc Hc)).
  assert (Ec : Cz (fun i => c i t) = C) by (apply (diff_at N zs Cz (ex_intro _ dC GC) c t dc Hc)).
  assert (Ev : Vz (fun i => c i t) = V) by (apply (diff_at N zs Vz GV c t dc Hc)).
  pose proof (curve_near N zs c t dc _ Hc EOS) as L. cbv beta in L.
  pose (b := fun s => Bz (fun i => c i s)). pose (cc := fun s => Cz (fun i => c i s)). pose (v := fun s => Vz (fun i => c i s)).
  change (is_derive b t b') in Hb. change (is_derive cc t c') in Hcc. change (is_derive v t v') in Hv. change (b t = B) in Eb. change (cc t = C) in Ec. change (v t = V) in Ev.
  change (locally t (fun s => 0 < v s /\ 0 < v s * v s + v s * b s + cc s /\ virial_pressure (b s) (cc s) T (v s) = P)) in L. clearbody b cc v. pose proof Rgas_pos as RP.
  assert (Z : is_derive (fun s => Rgas * T * (v s * v s + v s * b s + cc s) - P * (v s * v s * v s)) t 0).
  { apply (is_derive_ext_loc (fun _ => 0)); [|apply (is_derive_const (V:=R_NormedModule))]. revert L. apply filter_imp. intros s (K1 & K2 & K3). rewrite <- K3. unfold virial_pressure. asR. field. lra. }
  assert (Z' : is_derive (fun s => Rgas * T * (v s * v s + v s * b s + cc s) - P * (v s * v s * v s)) t (Rgas * T * (2 * V * v' + v' * B + V * b' + c') - P * (3 * (V * V) * v'))).
  { auto_derive; [splits; eexists; eassumption|]. rewrite (is_derive_unique (fun x : R => b x) _ _ Hb), (is_derive_unique (fun x : R => cc x) _ _ Hcc), (is_derive_unique (fun x : R => v x) _ _ Hv), Eb, Ev. asR. ring. }
  assert (E : Rgas * T * (2 * V * v' + v' * B + V * b' + c') - P * (3 * (V * V) * v') = 0) by (rewrite <- (is_derive_unique _ _ _ Z'); now apply is_derive_unique).
  rewrite <- A3 in E. unfold virial_pressure in E.
  assert (E' : v' * (2 * V * B + V * V + 3 * C) = V * (V * b' + c')).
  { apply (Rmult_eq_reg_l (Rgas * T / V)); [|apply Rgt_not_eq, Rdiv_lt_0_compat; [now apply Rmult_lt_0_compat|exact A1]]. revert E. intros E.
    apply Rminus_diag_uniq. rewrite <- Ropp_0, <- E. field. lra. }
  rewrite <- E'. field. intro K. apply D0. lra.
Qed.
Theorem C46_dV_dzs : has_gradient N Vz zs dV.
Proof.
  intros c t dc Hc. destruct GV as (g & Hg). pose proof (GB _ _ _ Hc) as Hb. pose proof (GC _ _ _ Hc) as Hcc. pose proof (Hg _ _ _ Hc) as Hv.
  eapply is_derive_eq; [exact Hv|]. rewrite (curve_V c t dc Hc _ _ _ Hb Hcc Hv). unfold ext_dV_dzs_virial, Rdiv.
  rewrite (rsum_ext N (fun i => V * (V * dB i + dC i) * / (2 * V * B + V * V + 3 * C) * dc i) (fun i => (V * / (2 * V * B + V * V + 3 * C)) * (V * (dB i * dc i) + dC i * dc i))) by (intros; ring).
  rewrite rsum_scal_l, rsum_plus, rsum_scal_l. ring.
Qed.
(* the Gibbs energy departure of the phase at constant temperature and pressure: H_dep - T S_dep *)
Definition Gdep (y : nat -> R) : R := Vir_H_dep T (Vz y) (Bz y) (Cz y) (B1z y) (C1z y) - T * Vir_S_dep T (Vz y) (Bz y) (Cz y) (B1z y) (C1z y).
Notation dG := (Vir_dG_dep_dzs N T V B C dB dC dV).
Lemma lin3 a b c' (x y z dc : nat -> R) : rsum N (fun i => (a * x i + b * y i + c' * z i) * dc i) = a * rsum N (fun i => x i * dc i) + b * rsum N (fun i => y i * dc i) + c' * rsum N (fun i => z i * dc i).
Proof. rewrite <- !rsum_scal_l, <- !rsum_plus. apply rsum_ext. intros. ring. Qed.
Theorem C46_dG_dep_dzs : has_gradient N Gdep zs dG.
Proof.
  destruct pos0 as (A1 & A2 & A3).
  apply (grad_near N zs _ (fun y => Rgas * T * (-2 * (Vz y * Vz y) * ln ((Vz y * Vz y + Vz y * Bz y + Cz y) / (Vz y * Vz y)) + 4 * Vz y * Bz y + 3 * Cz y) / (2 * (Vz y * Vz y)))).
  { revert EOS. apply near_impl. intros y (K1 & K2 & _). unfold Gdep, Vir_H_dep, Vir_S_dep. cbv zeta. replace (Vz y ^ 2) with (Vz y * Vz y) by ring. field. lra. }
  intros c t dc Hc. pose proof (GB _ _ _ Hc) as Hb. pose proof (GC _ _ _ Hc) as Hcc. pose proof (C46_dV_dzs _ _ _ Hc) as Hv.
  assert (Eb : Bz (fun i => c i t) = B) by (apply (diff_at N zs Bz (ex_intro _ dB GB) c t dc Hc)).
  assert (Ec : Cz (fun i => c i t) = C) by (apply (diff_at N zs Cz (ex_intro _ dC GC) c t dc Hc)).
  assert (Ev : Vz (fun i => c i t) = V) by (apply (diff_at N zs Vz GV c t dc Hc)).
  set (b' := rsum N (fun i => dB i * dc i)) in *. set (c' := rsum N (fun i => dC i * dc i)) in *. set (v' := rsum N (fun i => dV i * dc i)) in *.
  pose (X := V * V + V * B + C). pose (L := ln ((V * V + V * B + C) / (V * V))).
  assert (ED : forall i, (i < N)%nat -> dG i = (Rgas * T * (2 / V - V / X)) * dB i + Rgas * T * (3 / (2 * (V * V)) - 1 / X) * dC i + Rgas * T / (V * V) * (- (V * V) * (B + 2 * V) / X + 2 * V - 2 * B - 3 * C / V) * dV i).
  { intros i Hi. unfold Vir_dG_dep_dzs. cbv zeta. rewrite (loop_upd_lt N) by auto. generalize (dV i). intros w. replace (V * V + C + V * B) with X by (unfold X; ring). fold X in A2. unfold X in *. set (l := ln _). field. split; lra. }
  rewrite (rsum_ext N _ (fun i => ((Rgas * T * (2 / V - V / X)) * dB i + Rgas * T * (3 / (2 * (V * V)) - 1 / X) * dC i + Rgas * T / (V * V) * (- (V * V) * (B + 2 * V) / X + 2 * V - 2 * B - 3 * C / V) * dV i) * dc i)) by (intros i Hi; now rewrite ED).
  rewrite lin3. fold b' c' v'.
  pose (b := fun s => Bz (fun i => c i s)). pose (cc := fun s => Cz (fun i => c i s)). pose (v := fun s => Vz (fun i => c i s)).
  change (is_derive b t b') in Hb. change (is_derive cc t c') in Hcc. change (is_derive v t v') in Hv. change (b t = B) in Eb. change (cc t = C) in Ec. change (v t = V) in Ev.
  change (is_derive (fun s => Rgas * T * (-2 * (v s * v s) * ln ((v s * v s + v s * b s + cc s) / (v s * v s)) + 4 * v s * b s + 3 * cc s) / (2 * (v s * v s))) t
    (Rgas * T * (2 / V - V / X) * b' + Rgas * T * (3 / (2 * (V * V)) - 1 / X) * c' + Rgas * T / (V * V) * (- (V * V) * (B + 2 * V) / X + 2 * V - 2 * B - 3 * C / V) * v')).
  clearbody b cc v b' c' v'. assert (PV2 : 0 < V * V) by now apply Rmult_lt_0_compat.
  auto_derive.
  - rewrite Eb, Ec, Ev. splits; try (eexists; eassumption); try lra. now apply Rdiv_lt_0_compat.
  - rewrite (is_derive_unique (fun x : R => b x) _ _ Hb), (is_derive_unique (fun x : R => cc x) _ _ Hcc), (is_derive_unique (fun x : R => v x) _ _ Hv), Eb, Ec, Ev. unfold X. set (l := ln _). asR. field. splits; lra.
Qed.
Hypothesis S1 : rsum N zs = 1.
Hypothesis (Zpos : forall i, (i < N)%nat -> 0 <= zs i).
Theorem C46_fugacity i : (i < N)%nat -> partial (intensive N Gdep) zs i (dG_dep_dns N zs dG i) /\ partial (extensive N Gdep) zs i (dnG_dep_dns N zs dG (Gdep zs) i) /\ partial (extensive N (fun y => lnphi T (Gdep y))) zs i (lnphis N T zs dG (Gdep zs) i) /\ lnphi T (Gdep zs) = rsum N (fun j => zs j * lnphis N T zs dG (Gdep zs) j).
Proof.
  intros Hi. pose proof Rgas_pos as RP. assert (NRT : Rgas * T <> 0) by (apply Rgt_not_eq; now apply Rmult_lt_0_compat).
  assert (EF : fractions N zs = zs) by (apply fractions_of_fractions; split; auto).
  pose proof C46_dG_dep_dzs as HG. rewrite <- EF in HG at 1. assert (PS : 0 < rsum N zs) by lra.
  pose proof (C28_dxs_to_dns N Gdep zs _ PS HG i Hi) as K1. pose proof (C28_dxs_to_dn_partials N Gdep zs _ PS HG i Hi) as K2. rewrite EF in K1, K2.
  splits.
  - eapply partial_val; [exact K1|]. rewrite S1. unfold dG_dep_dns. field.
  - exact K2.
  - apply (partial_ext (fun y => / (Rgas * T) * extensive N Gdep y)); [intros y; unfold extensive, lnphi; field; lra|].
    eapply partial_val; [apply (partial_scal (/ (Rgas * T)) _ _ _ _ K2)|]. unfold lnphis, dG_dep_dns, Gen_activity.ext_dns_to_dn_partials, Gen_activity.ext_dxs_to_dns, Gen_uniquac.ext_dxs_to_dn_partials. cbv zeta. unfold scal; simpl; unfold mult; simpl. generalize dG. intros g. set (k := rsum N (fun j => zs j * g j)). field. lra.
  - unfold lnphis, lnphi, dG_dep_dns, Gen_activity.ext_dns_to_dn_partials, Gen_activity.ext_dxs_to_dns. cbv zeta. generalize dG. intros g. set (k := rsum N (fun j => zs j * g j)).
    rewrite (rsum_ext N _ (fun j => (1 / (Rgas * T)) * (zs j * g j + zs j * (Gdep zs - k)))) by (intros; ring). rewrite rsum_scal_l, rsum_plus, rsum_scal_r. change (rsum N (fun i => zs i)) with (rsum N zs). rewrite S1. unfold k. field. lra.
Qed.
End Composition.

(* the coefficients of a phase that was created and then used in any way *)
Section State.
Variables (M : mixing_rule) (ext_Z : R -> R -> R -> R -> R) (ext_newton : (R -> R * R) -> R -> R).
(* what the coefficients should be: those of the selected correlation at T, mixed linearly or (pair coefficients) quadratically; C by the
   mixing rule of Orentlicher and Prausnitz from the pair coefficients *)
Definition pures_B (p : csp_params) (T : R) (d i : nat) : R := match B_model p with B_ZERO => 0 | b => ext_B_vec p b T d i end.
Definition pairs_B (p : csp_params) (T : R) (d i j : nat) : R := match B_model p with B_ZERO => 0 | b => ext_B_mat p b T d i j end.
Definition pures_C (p : csp_params) (T : R) (d i : nat) : R := match C_model p with C_ZERO => 0 | b => ext_C_vec p b T d i end.
Definition pairs_C (p : csp_params) (T : R) (d i j : nat) : R := match C_model p with C_ZERO => 0 | b => ext_C_mat p b T d i j end.
Definition B_mix (p : csp_params) (N : nat) (theory : bool) (d : nat) (T : R) (zs : nat -> R) : R :=
  match N with 1%nat => pures_B p T d 0%nat | _ => if theory then quad_mix N zs (pairs_B p T d) else lin_mix N zs (pures_B p T d) end.
Definition C_mix (p : csp_params) (N : nat) (op : bool) (d : nat) (T : R) (zs : nat -> R) : R :=
  match C_model p with C_ZERO => 0 | _ => match N with 1%nat => pures_C p T d 0%nat | _ => if op then mix_lists M d zs (pairs_C p T) else lin_mix N zs (pures_C p T d) end end.

(* a model with the same parameters and temperature, and valid caches *)
Definition goodm (p : csp_params) (T : R) (m : csp) : Prop := par m = p /\ cspT m = T /\
  (forall l, pure_B m = Some l -> l = B_pures_at_T m T) /\ (forall l, cross_B m = Some l -> l = B_interactions_at_T m T) /\
  (forall l, pure_C m = Some l -> l = C_pures_at_T m T) /\ (forall l, cross_C m = Some l -> l = C_interactions_at_T m T).
Definition good (p : csp_params) (N : nat) (th o : bool) (g : gas) : Prop := goodm p (gT g) (gmodel g) /\ gN g = N /\ theory g = th /\ op g = o.
Lemma BpE m T d i : B_pures_at_T m T d i = pures_B (par m) T d i. Proof. unfold B_pures_at_T, pures_B. now destruct (B_model (par m)). Qed.
Lemma BiE m T d i j : B_interactions_at_T m T d i j = pairs_B (par m) T d i j. Proof. unfold B_interactions_at_T, pairs_B. now destruct (B_model (par m)). Qed.
Lemma CpE m T d i : C_pures_at_T m T d i = pures_C (par m) T d i. Proof. unfold C_pures_at_T, pures_C. now destruct (C_model (par m)). Qed.
Lemma CiE m T d i j : C_interactions_at_T m T d i j = pairs_C (par m) T d i j. Proof. unfold C_interactions_at_T, pairs_C. now destruct (C_model (par m)). Qed.
Ltac gm := let l := fresh "l" in let E := fresh "E" in splits; auto; cbn; try (intros l E; injection E; intros; subst; auto).
Lemma rpB p T m d : goodm p T m -> goodm p T (fst (read_pure_B d m)) /\ forall i, snd (read_pure_B d m) i = pures_B p T d i.
Proof.
  intros (E1 & E2 & H1 & H2 & H3 & H4). unfold read_pure_B. destruct (pure_B m) as [l|] eqn:El; cbn.
  - split; [unfold goodm; rewrite El; splits; auto|]. intros i. rewrite (H1 l eq_refl), BpE, E1. reflexivity.
  - split; [|intros i; now rewrite BpE, E1, E2]. unfold goodm. gm.
Qed.
Lemma rcB p T m d : goodm p T m -> goodm p T (fst (read_cross_B d m)) /\ forall i j, snd (read_cross_B d m) i j = pairs_B p T d i j.
Proof.
  intros (E1 & E2 & H1 & H2 & H3 & H4). unfold read_cross_B. destruct (cross_B m) as [l|] eqn:El; cbn.
  - split; [unfold goodm; rewrite El; splits; auto|]. intros i j. rewrite (H2 l eq_refl), BiE, E1. reflexivity.
  - split; [|intros i j; now rewrite BiE, E1, E2]. unfold goodm. gm.
Qed.
Lemma rpC p T m d : goodm p T m -> goodm p T (fst (read_pure_C d m)) /\ forall i, snd (read_pure_C d m) i = pures_C p T d i.
Proof.
  intros (E1 & E2 & H1 & H2 & H3 & H4). unfold read_pure_C. destruct (pure_C m) as [l|] eqn:El; cbn.
  - split; [unfold goodm; rewrite El; splits; auto|]. intros i. rewrite (H3 l eq_refl), CpE, E1. reflexivity.
  - split; [|intros i; now rewrite CpE, E1, E2]. unfold goodm. gm.
Qed.
Lemma rcC p T m d : goodm p T m -> goodm p T (fst (read_cross_C d m)) /\ forall i j, snd (read_cross_C d m) i j = pairs_C p T d i j.
Proof.
  intros (E1 & E2 & H1 & H2 & H3 & H4). unfold read_cross_C. destruct (cross_C m) as [l|] eqn:El; cbn.
  - split; [unfold goodm; rewrite El; splits; auto|]. intros i j. rewrite (H4 l eq_refl), CiE, E1. reflexivity.
  - split; [|intros i j; now rewrite CiE, E1, E2]. unfold goodm. gm.
Qed.
Lemma B_at_ok p N th o g d T zs : good p N th o g -> goodm p (gT g) (fst (B_at d g T zs)) /\ snd (B_at d g T zs) = B_mix p N th d T zs.
Proof.
  intros (Hm & <- & <- & <-). pose proof Hm as Hm'. destruct Hm' as (Ep & _). unfold B_at, B_mix.
  destruct (rpB p (gT g) (gmodel g) d Hm) as (A1 & A2). destruct (rcB p (gT g) (gmodel g) d Hm) as (A3 & A4).
  assert (Q : forall x y : R, (if Nat.eqb (gN g) 1 then x else y) = match gN g with 1%nat => x | _ => y end) by (intros; destruct (gN g) as [|[|k]]; reflexivity).
  assert (Q2 : forall {A} (x y : A), (if Nat.eqb (gN g) 1 then x else y) = match gN g with 1%nat => x | _ => y end) by (intros; destruct (gN g) as [|[|k]]; reflexivity).
  rewrite Q2. destruct (Reqb_spec T (gT g)) as [->|Ne].
  - destruct (read_pure_B d (gmodel g)) as [m1 l1], (read_cross_B d (gmodel g)) as [m2 l2]. cbn in *.
    assert (E1 : ext_mixing_simple (gN g) zs l1 = lin_mix (gN g) zs (pures_B p (gT g) d)) by (apply rsum_ext; intros; now rewrite A2).
    assert (E2 : ext_BVirial_mixture (gN g) zs l2 = quad_mix (gN g) zs (pairs_B p (gT g) d)) by (apply rsum_ext; intros; apply rsum_ext; intros; now rewrite A4).
    destruct (gN g) as [|[|k]]; destruct (theory g); cbn [negb fst snd]; split; auto.
  - assert (E1 : ext_mixing_simple (gN g) zs (B_pures_at_T (gmodel g) T d) = lin_mix (gN g) zs (pures_B p T d)) by (apply rsum_ext; intros; now rewrite BpE, Ep).
    assert (E2 : ext_BVirial_mixture (gN g) zs (B_interactions_at_T (gmodel g) T d) = quad_mix (gN g) zs (pairs_B p T d)) by (apply rsum_ext; intros; apply rsum_ext; intros; now rewrite BiE, Ep).
    destruct (gN g) as [|[|k]]; destruct (theory g); cbn [negb fst snd]; split; auto; now rewrite BpE, Ep.
Qed.
Lemma mix_lists_ext d zs l l' : (forall k i j, l k i j = l' k i j) -> mix_lists M d zs l = mix_lists M d zs l'.
Proof. intros H. replace l' with l; [reflexivity|]. do 3 (apply functional_extensionality; intro). apply H. Qed.
Lemma C_at_ok p N th o g d T zs : good p N th o g -> goodm p (gT g) (fst (C_at M d g T zs)) /\ snd (C_at M d g T zs) = C_mix p N o d T zs.
Proof.
  intros (Hm & <- & <- & <-). pose proof Hm as Hm'. destruct Hm' as (Ep & _). unfold C_at, C_mix. rewrite Ep.
  assert (Q0 : forall {A} (x y : A), (if is_C_ZERO (C_model p) then x else y) = match C_model p with C_ZERO => x | _ => y end) by (intros; destruct (C_model p); reflexivity).
  assert (Q2 : forall {A} (x y : A), (if Nat.eqb (gN g) 1 then x else y) = match gN g with 1%nat => x | _ => y end) by (intros; destruct (gN g) as [|[|k]]; reflexivity).
  rewrite Q0, Q2. clear Q0 Q2.
  destruct (rpC p (gT g) (gmodel g) d Hm) as (A1 & A2). destruct (rcC p (gT g) (gmodel g) 0 Hm) as (A3 & _).
  destruct (Reqb_spec T (gT g)) as [->|Ne].
  - assert (E2 : mix_lists M d zs (fun k => snd (read_cross_C k (fst (read_cross_C 0 (gmodel g))))) = mix_lists M d zs (pairs_C p (gT g))) by (apply mix_lists_ext; intros k i j; apply (rcC p (gT g) _ k A3)).
    destruct (read_pure_C d (gmodel g)) as [m1 l1]. cbn in A1, A2.
    assert (E1 : ext_mixing_simple (gN g) zs l1 = lin_mix (gN g) zs (pures_C p (gT g) d)) by (apply rsum_ext; intros; now rewrite A2).
    destruct (C_model p); destruct (gN g) as [|[|k]]; destruct (op g); cbn [negb fst snd]; split; auto.
  - assert (E1 : ext_mixing_simple (gN g) zs (C_pures_at_T (gmodel g) T d) = lin_mix (gN g) zs (pures_C p T d)) by (apply rsum_ext; intros; now rewrite CpE, Ep).
    assert (E2 : mix_lists M d zs (C_interactions_at_T (gmodel g) T) = mix_lists M d zs (pairs_C p T)) by (apply mix_lists_ext; intros; now rewrite CiE, Ep).
    destruct (C_model p); destruct (gN g) as [|[|k]]; destruct (op g); cbn [negb fst snd]; split; auto; now rewrite CpE, Ep.
Qed.
Lemma good_model p N th o g m : good p N th o g -> goodm p (gT g) m -> good p N th o (with_model g m).
Proof. intros (_ & H) Hm. split; [exact Hm|exact H]. Qed.
Lemma good_PV p N th o g P V : good p N th o g -> good p N th o (with_PV g P V). Proof. intros H. exact H. Qed.
Lemma good_at_T p N th o g T zs : good p N th o g -> good p N th o (at_T g T zs).
Proof. intros ((E & _) & H). split; [|exact H]. unfold goodm. cbn. splits; auto; discriminate. Qed.
Lemma solve_V_ok p N th o g P : good p N th o g -> good p N th o (solve_V M ext_Z g P) /\ gT (solve_V M ext_Z g P) = gT g /\ gzs (solve_V M ext_Z g P) = gzs g /\ gP (solve_V M ext_Z g P) = P /\
  gV (solve_V M ext_Z g P) = ext_Z (gT g) P (B_mix p N th 0 (gT g) (gzs g)) (C_mix p N o 0 (gT g) (gzs g)) * Rgas * gT g / P.
Proof.
  intros G. unfold solve_V. destruct (B_at_ok p N th o g 0 (gT g) (gzs g) G) as (A1 & A2). unfold get_B. destruct (B_at 0 g (gT g) (gzs g)) as [m1 B]. cbn [fst snd] in *.
  pose proof (good_model _ _ _ _ _ _ G A1) as G1. destruct (C_at_ok p N th o _ 0 (gT g) (gzs g) G1) as (A3 & A4).
  unfold get_C. change (gT (with_model g m1)) with (gT g) in *. change (gzs (with_model g m1)) with (gzs g) in *. destruct (C_at M 0 (with_model g m1) (gT g) (gzs g)) as [m2 C]. cbn [fst snd] in *.
  split; [apply good_PV; apply (good_model p N th o (with_model g m1) m2 G1 A3)|]. cbn. splits; auto. now rewrite A2, A4.
Qed.
Lemma to_TV_ok p N th o g T V zs : good p N th o g -> good p N th o (to_TV M g T V zs) /\ gT (to_TV M g T V zs) = T /\ gzs (to_TV M g T V zs) = zs /\ gV (to_TV M g T V zs) = V /\
  gP (to_TV M g T V zs) = Rgas * T * (V * V + V * B_mix p N th 0 T zs + C_mix p N o 0 T zs) / (V * V * V).
Proof.
  intros G0. unfold to_TV. pose proof (good_at_T p N th o g T zs G0) as G. destruct (B_at_ok p N th o (at_T g T zs) 0 T zs G) as (A1 & A2). unfold get_B. change (gT (at_T g T zs)) with T in *. change (gzs (at_T g T zs)) with zs in *. destruct (B_at 0 (at_T g T zs) T zs) as [m1 B]. cbn [fst snd] in *.
  pose proof (good_model _ _ _ _ _ _ G A1) as G1. destruct (C_at_ok p N th o _ 0 T zs G1) as (A3 & A4).
  unfold get_C. change (gT (with_model (at_T g T zs) m1)) with T in *. change (gzs (with_model (at_T g T zs) m1)) with zs in *. destruct (C_at M 0 (with_model (at_T g T zs) m1) T zs) as [m2 C]. cbn [fst snd] in *.
  split; [apply good_PV; apply (good_model p N th o (with_model (at_T g T zs) m1) m2 G1 A3)|]. cbn. splits; auto. now rewrite A2, A4.
Qed.
Lemma act_good p N th o g a : good p N th o g -> good p N th o (act M ext_Z ext_newton g a).
Proof.
  intros G. destruct a; cbn [act].
  - apply good_model; auto. now apply (B_at_ok p N th o).
  - apply good_model; auto. now apply (C_at_ok p N th o).
  - apply good_model; auto. now apply (B_at_ok p N th o).
  - apply good_model; auto. now apply (C_at_ok p N th o).
  - apply good_model; auto. unfold dB_dzs. destruct G as (Hm & _). destruct (negb (theory g)); [now apply rpB|]. pose proof (rcB p (gT g) (gmodel g) d Hm) as K. destruct (read_cross_B d (gmodel g)). cbn in *. tauto.
  - apply good_model; auto. unfold dC_dzs. destruct G as (Hm & _). destruct (negb (op g)); [now apply rpC|]. destruct (is_C_ZERO _); [exact Hm|]. pose proof (rcC p (gT g) (gmodel g) 0 Hm) as K. destruct (read_cross_C 0 (gmodel g)). cbn in *. tauto.
  - unfold to_TP. now apply solve_V_ok, good_at_T.
  - now apply to_TV_ok.
  - unfold to_PV. now apply good_PV, good_at_T.
Qed.
Definition start (m : csp) (T P : R) (N : nat) (zs : nat -> R) (th o : bool) : gas := gas_init M ext_Z m T P N zs th o.
Lemma start_good m T P N zs th o : good (par m) N th o (start m T P N zs th o).
Proof. unfold start, gas_init. apply solve_V_ok. split; [|auto]. unfold goodm. cbn. splits; auto; discriminate. Qed.
Definition after (l : list action) (g : gas) : gas := fold_left (act M ext_Z ext_newton) l g.
Lemma after_good p N th o l g : good p N th o g -> good p N th o (after l g).
Proof. revert g. induction l as [|a l IH]; intros g G; [exact G|]. cbn. apply IH. now apply act_good. Qed.
(* B, its temperature derivatives and C at any temperature and composition, whatever was done with the phase before *)
Theorem C46_coefficients m T0 P0 N zs0 th o l d T zs : let g := after l (start m T0 P0 N zs0 th o) in
  snd (B_at d g T zs) = B_mix (par m) N th d T zs /\ snd (C_at M d g T zs) = C_mix (par m) N o d T zs /\
  snd (get_B d g) = B_mix (par m) N th d (gT g) (gzs g) /\ snd (get_C M d g) = C_mix (par m) N o d (gT g) (gzs g).
Proof.
  intros g. pose proof (after_good (par m) N th o l _ (start_good m T0 P0 N zs0 th o)) as G. fold g in G.
  splits; [now apply (B_at_ok _ _ _ o)|now apply (C_at_ok _ _ th)|now apply (B_at_ok _ _ _ o)|now apply (C_at_ok _ _ th)].
Qed.
(* the pressure, temperature and volume of the phase satisfy the equation of state: after construction and after every call of to *)
Definition root (T P B C Z : R) : Prop := Z <> 0 /\ let V := Z * Rgas * T / P in Z = 1 + B / V + C / (V * V).
(* the documented behaviour of Z_from_virial_density_form: it finds a root when there is one *)
Hypothesis HZ : forall T P B C, 0 < T -> 0 < P -> (exists Z, root T P B C Z) -> root T P B C (ext_Z T P B C).
(* the calls that succeed: the equation has a root at T and P, the volume given is positive, newton converges to a root *)
Definition succeeds (p : csp_params) (N : nat) (th o : bool) (g : gas) (a : action) : Prop :=
  match a with
  | To_TP T P zs => 0 < T /\ 0 < P /\ exists Z, root T P (B_mix p N th 0 T zs) (C_mix p N o 0 T zs) Z
  | To_TV T V zs => 0 < V
  | To_PV P V zs => 0 < V /\ fst (err_PV M ext_Z g P V zs (ext_newton (err_PV M ext_Z g P V zs) (P * V / Rgas))) = 0
  | _ => True
  end.
Fixpoint all_succeed (p : csp_params) (N : nat) (th o : bool) (l : list action) (g : gas) : Prop :=
  match l with [] => True | a :: l => succeeds p N th o g a /\ all_succeed p N th o l (act M ext_Z ext_newton g a) end.
Definition on_surface (p : csp_params) (N : nat) (th o : bool) (g : gas) : Prop :=
  gV g <> 0 /\ gP g = virial_pressure (B_mix p N th 0 (gT g) (gzs g)) (C_mix p N o 0 (gT g) (gzs g)) (gT g) (gV g).
Lemma root_surface T P B C : 0 < T -> 0 < P -> (exists Z, root T P B C Z) -> let V := ext_Z T P B C * Rgas * T / P in V <> 0 /\ P = virial_pressure B C T V.
Proof.
  intros HT HP HE. destruct (HZ T P B C HT HP HE) as (NZ & E). cbv zeta in *. pose proof Rgas_pos as RP. set (Z := ext_Z T P B C) in *. set (V := Z * Rgas * T / P) in *.
  assert (NV : V <> 0). { unfold V, Rdiv. repeat apply Rmult_integral_contrapositive_currified; try apply Rinv_neq_0_compat; lra. }
  split; [exact NV|]. unfold virial_pressure. rewrite <- E. unfold V. field. splits; lra.
Qed.
Lemma act_surface p N th o g a : good p N th o g -> on_surface p N th o g -> succeeds p N th o g a -> on_surface p N th o (act M ext_Z ext_newton g a).
Proof.
  intros G S Ok. destruct a; cbn [act]; try exact S.
  - destruct Ok as (HT & HP & HE). unfold to_TP. destruct (solve_V_ok p N th o (at_T g T zs) P (good_at_T _ _ _ _ g T zs G)) as (_ & E1 & E2 & E3 & E4). unfold on_surface.
    rewrite E1, E2, E3, E4. cbn [at_T gT gzs]. exact (root_surface T P _ _ HT HP HE).
  - cbn in Ok. destruct (to_TV_ok p N th o g T V zs G) as (_ & E1 & E2 & E3 & E4). unfold on_surface. rewrite E1, E2, E3, E4. split; [lra|]. unfold virial_pressure. field. lra.
  - destruct Ok as (HV & HE). unfold to_PV. set (T := ext_newton _ _) in *. unfold on_surface. cbn [with_PV at_T gT gzs gV gP]. split; [lra|].
    revert HE. unfold err_PV, to_TP. cbn [fst]. destruct (solve_V_ok p N th o (at_T g T zs) P (good_at_T _ _ _ _ g T zs G)) as (G' & E1 & E2 & _ & _).
    set (g' := solve_V M ext_Z (at_T g T zs) P) in *. unfold get_B, get_C. rewrite E1, E2. cbn [at_T gT gzs].
    rewrite (proj2 (B_at_ok p N th o g' 0 T zs G')), (proj2 (C_at_ok p N th o g' 0 T zs G')). intros HE. unfold virial_pressure.
    apply Rminus_diag_uniq. rewrite <- Ropp_0, <- HE. field. lra.
Qed.
Theorem C46_state m T0 P0 N zs0 th o l : 0 < T0 -> 0 < P0 -> (exists Z, root T0 P0 (B_mix (par m) N th 0 T0 zs0) (C_mix (par m) N o 0 T0 zs0) Z) ->
  all_succeed (par m) N th o l (start m T0 P0 N zs0 th o) -> let g := after l (start m T0 P0 N zs0 th o) in
  gV g <> 0 /\ gP g = virial_pressure (snd (get_B 0 g)) (snd (get_C M 0 g)) (gT g) (gV g).
Proof.
  intros HT HP HE Ok g.
  assert (S0 : on_surface (par m) N th o (start m T0 P0 N zs0 th o)).
  { unfold start, gas_init. match goal with |- on_surface _ _ _ _ (solve_V _ _ ?x _) => assert (G : good (par m) N th o x) by (split; [unfold goodm; cbn; splits; auto; discriminate|auto]); destruct (solve_V_ok (par m) N th o x P0 G) as (_ & E1 & E2 & E3 & E4) end.
    unfold on_surface. rewrite E1, E2, E3, E4. cbn [gT gzs]. exact (root_surface T0 P0 _ _ HT HP HE). }
  pose proof (start_good m T0 P0 N zs0 th o) as G0. destruct (C46_coefficients m T0 P0 N zs0 th o l 0 (gT g) (gzs g)) as (_ & _ & E1 & E2). fold g in E1, E2. rewrite E1, E2.
  revert Ok S0 G0. unfold g. generalize (start m T0 P0 N zs0 th o). clear - HZ. induction l as [|a l IH]; intros g Ok S0 G0; [exact S0|].
  destruct Ok as (O1 & O2). apply (IH _ O2); [now apply act_surface|now apply act_good].
Qed.
(* dB_dT is the temperature derivative of B, and so on, when the lists of the correlation are derivatives of each other *)
Theorem C46_dB_dT p N th d T zs : (d < 3)%nat -> 0 < T -> (forall i, (i < N)%nat -> derivative_lists (fun k t => pures_B p t k i)) -> (forall i j, (i < N)%nat -> (j < N)%nat -> derivative_lists (fun k t => pairs_B p t k i j)) ->
  is_derive (fun t => B_mix p N th d t zs) T (B_mix p N th (S d) T zs).
Proof.
  intros Hd HT H1 H2. unfold B_mix.
  assert (A1 : is_derive (fun t => lin_mix N zs (pures_B p t d)) T (lin_mix N zs (pures_B p T (S d)))).
  { unfold lin_mix. apply is_derive_rsum. intros i Hi. apply (is_derive_scal (fun t => pures_B p t d i)). now apply (H1 i Hi d T). }
  assert (A2 : is_derive (fun t => quad_mix N zs (pairs_B p t d)) T (quad_mix N zs (pairs_B p T (S d)))).
  { unfold quad_mix. apply is_derive_rsum. intros i Hi. apply is_derive_rsum. intros j Hj. apply (is_derive_scal (fun t => pairs_B p t d i j)). now apply (H2 i j Hi Hj d T). }
  destruct N as [|[|k]]; [destruct th; auto|exact (H1 0%nat ltac:(lia) d T Hd HT)|destruct th; auto].
Qed.
Theorem C46_dC_dT p N o d T zs : (d < 3)%nat -> 0 < T -> (forall i, (i < N)%nat -> derivative_lists (fun k t => pures_C p t k i)) ->
  (* the documented behaviour of the external mixing functions *)
  derivative_lists (fun k t => mix_lists M k zs (pairs_C p t)) ->
  is_derive (fun t => C_mix p N o d t zs) T (C_mix p N o (S d) T zs).
Proof.
  intros Hd HT H1 H2. unfold C_mix.
  assert (A1 : is_derive (fun t => lin_mix N zs (pures_C p t d)) T (lin_mix N zs (pures_C p T (S d)))).
  { unfold lin_mix. apply is_derive_rsum. intros i Hi. apply (is_derive_scal (fun t => pures_C p t d i)). now apply (H1 i Hi d T). }
  pose proof (H2 d T Hd HT) as A2. cbv beta in A2.
  destruct (C_model p); [apply (is_derive_const (V:=R_NormedModule))| |].
  all: destruct N as [|[|k]]; [destruct o; auto|exact (H1 0%nat ltac:(lia) d T Hd HT)|destruct o; auto].
Qed.
(* dB_dzs is the gradient of B in the mole fractions for a mixture *)
(* The slope the search for the temperature of a given pressure and volume is given is that of its error function. *)
Lemma err_PV_value p N th o g P V zs T : good p N th o g -> err_PV M ext_Z g P V zs T =
  (let x2 := V * V + V * B_mix p N th 0 T zs + C_mix p N o 0 T zs in let x3 := Rgas / (V * V * V) in
   (T * x2 * x3 - P, x3 * (T * (V * B_mix p N th 1 T zs + C_mix p N o 1 T zs) + x2))).
Proof.
  intros G. unfold err_PV, to_TP. destruct (solve_V_ok p N th o (at_T g T zs) P (good_at_T _ _ _ _ g T zs G)) as (G' & E1 & E2 & _ & _).
  set (g' := solve_V M ext_Z (at_T g T zs) P) in *. unfold get_B, get_C. rewrite E1, E2. cbn [at_T gT gzs].
  rewrite !(proj2 (B_at_ok p N th o g' _ T zs G')), !(proj2 (C_at_ok p N th o g' _ T zs G')). reflexivity.
Qed.
Theorem C46_newton_slope m T0 P0 N zs0 th o l P V zs T : 0 < T -> 0 < V ->
  is_derive (fun t => B_mix (par m) N th 0 t zs) T (B_mix (par m) N th 1 T zs) -> is_derive (fun t => C_mix (par m) N o 0 t zs) T (C_mix (par m) N o 1 T zs) ->
  let err := err_PV M ext_Z (after l (start m T0 P0 N zs0 th o)) P V zs in is_derive (fun t => fst (err t)) T (snd (err T)).
Proof.
  intros HT HV DB DC err. pose proof (after_good _ _ _ _ l _ (start_good m T0 P0 N zs0 th o)) as G. unfold err.
  rewrite (err_PV_value _ _ _ _ _ P V zs T G). cbv zeta. cbn [snd].
  set (b := fun t : R => B_mix (par m) N th 0 t zs). set (c := fun t : R => C_mix (par m) N o 0 t zs).
  match type of DB with is_derive _ _ ?x => change (is_derive b T x) in DB; set (b' := x) in * end. match type of DC with is_derive _ _ ?x => change (is_derive c T x) in DC; set (c' := x) in * end.
  change (B_mix (par m) N th 0 T zs) with (b T). change (C_mix (par m) N o 0 T zs) with (c T).
  apply (is_derive_ext (fun t => t * (V * V + V * b t + c t) * (Rgas / (V * V * V)) - P)).
  { intros t. rewrite (err_PV_value _ _ _ _ _ P V zs t G). reflexivity. }
  clearbody b c b' c'. assert (V * V * V <> 0) by (repeat apply Rmult_integral_contrapositive_currified; lra).
  auto_derive; [splits; try (eexists; eassumption); auto|]. dv DB. dv DC. match goal with |- @eq _ ?x ?y => change (@eq R x y) end. field. lra.
Qed.
Lemma quad_grad N zs (A : nat -> nat -> R) : has_gradient N (fun y => quad_mix N y A) zs (fun i => rsum N (fun j => zs j * (A i j + A j i))).
Proof.
  intros c t dc Hc. unfold quad_mix. eapply is_derive_eq.
  { apply is_derive_rsum. intros i Hi. apply is_derive_rsum. intros j Hj. destruct (Hc i Hi) as (_ & Di), (Hc j Hj) as (_ & Dj).
    apply (is_derive_ext (fun s => A i j * (c i s * c j s))); [intros; asR; ring|]. apply (is_derive_scal (fun s => c i s * c j s) t (A i j)). apply (is_derive_mult (c i) (c j) t _ _ Di Dj). intros; apply Rmult_comm. }
  cbv beta. rewrite (rsum_ext N _ (fun i => rsum N (fun j => A i j * (dc i * zs j)) + rsum N (fun j => A i j * (zs i * dc j)))).
  2:{ intros i Hi. rewrite <- rsum_plus. apply rsum_ext. intros j Hj. destruct (Hc i Hi) as (Ei & _), (Hc j Hj) as (Ej & _). rewrite Ei, Ej. unfold plus, mult; cbn. unfold scal; cbn. unfold mult; cbn. ring. }
  rewrite rsum_plus. rewrite (rsum_swap N N (fun i j => A i j * (zs i * dc j))). rewrite <- rsum_plus. apply rsum_ext. intros i Hi. rewrite <- rsum_plus, <- rsum_scal_r. apply rsum_ext. intros j Hj. ring.
Qed.
Lemma lin_grad N zs (b : nat -> R) : has_gradient N (fun y => lin_mix N y b) zs b.
Proof.
  intros c t dc Hc. unfold lin_mix. eapply is_derive_eq.
  { apply is_derive_rsum. intros i Hi. destruct (Hc i Hi) as (_ & Di). apply (is_derive_ext (fun s => b i * c i s)); [intros; asR; ring|]. apply (is_derive_scal (c i) t (b i) _ Di). }
  apply rsum_ext. reflexivity.
Qed.
Theorem C46_dB_dzs m T0 P0 N zs0 th o l d : N <> 1%nat -> let g := after l (start m T0 P0 N zs0 th o) in
  has_gradient N (fun y => snd (B_at d g (gT g) y)) (gzs g) (snd (dB_dzs d g)).
Proof.
  intros NN g. pose proof (after_good (par m) N th o l _ (start_good m T0 P0 N zs0 th o)) as G. fold g in G.
  replace (fun y => snd (B_at d g (gT g) y)) with (fun y => B_mix (par m) N th d (gT g) y) by (apply functional_extensionality; intros y; symmetry; now apply (B_at_ok _ _ _ o)).
  destruct G as (Hm & EN & Et & Eo). unfold dB_dzs, B_mix. rewrite EN, Et. destruct (rpB (par m) _ _ d Hm) as (_ & A1). destruct (rcB (par m) _ _ d Hm) as (_ & A2).
  destruct (read_cross_B d (gmodel g)) as [m2 l2]. cbn in A2. destruct N as [|[|k]]; [| congruence |].
  all: destruct th; cbn [negb snd].
  all: try (apply (grad_ext _ _ _ _ _ (fun i Hi => eq_sym (A1 i))); apply lin_grad).
  all: eapply grad_ext; [|apply quad_grad]; intros i Hi; unfold ext_dBVirial_mixture_dzs; apply rsum_ext; intros j Hj; now rewrite !A2.
Qed.
(* the mole number derivatives of B *)
Theorem C46_dB_dns m T0 P0 N zs0 th o l d i : N <> 1%nat -> let g := after l (start m T0 P0 N zs0 th o) in mole_fractions N (gzs g) -> (i < N)%nat ->
  partial (intensive N (fun y => snd (B_at d g (gT g) y))) (gzs g) i (dB_dns N (gzs g) (snd (dB_dzs d g)) i) /\
  partial (extensive N (fun y => snd (B_at d g (gT g) y))) (gzs g) i (dnB_dns N (gzs g) (snd (dB_dzs d g)) (snd (get_B d g)) i).
Proof.
  intros NN g MF Hi. pose proof (C46_dB_dzs m T0 P0 N zs0 th o l d NN) as H. cbv zeta in H. fold g in H. pose proof (fractions_of_fractions N _ MF) as EF. destruct MF as (_ & S1).
  rewrite <- EF in H at 1. assert (PS : 0 < rsum N (gzs g)) by lra.
  pose proof (C28_dxs_to_dns N _ (gzs g) _ PS H i Hi) as K1. pose proof (C28_dxs_to_dn_partials N _ (gzs g) _ PS H i Hi) as K2. rewrite EF in K1, K2. split; [|exact K2].
  eapply partial_val; [exact K1|]. rewrite S1. unfold dB_dns. field.
Qed.
Theorem C46_dC_dzs m T0 P0 N zs0 th o l : N <> 1%nat ->
  (* the documented behaviour of dCVirial_mixture_Orentlicher_Prausnitz_dzs *)
  (forall zs A, has_gradient N (fun y => mixC M y A) zs (mixC_z M zs A)) -> let g := after l (start m T0 P0 N zs0 th o) in
  has_gradient N (fun y => snd (C_at M 0 g (gT g) y)) (gzs g) (snd (dC_dzs M g)).
Proof.
  intros NN HM g. pose proof (after_good (par m) N th o l _ (start_good m T0 P0 N zs0 th o)) as G. fold g in G.
  replace (fun y => snd (C_at M 0 g (gT g) y)) with (fun y => C_mix (par m) N o 0 (gT g) y) by (apply functional_extensionality; intros y; symmetry; now apply (C_at_ok _ _ th)).
  destruct G as (Hm & EN & Et & Eo). unfold dC_dzs, C_mix. rewrite Eo. pose proof Hm as (Ep & _). rewrite Ep. destruct (rpC (par m) _ _ 0 Hm) as (_ & A1). destruct (rcC (par m) _ _ 0 Hm) as (_ & A2).
  destruct (read_cross_C 0 (gmodel g)) as [m2 l2]. cbn in A2.
  assert (EL : l2 = pairs_C (par m) (gT g) 0) by (do 2 (apply functional_extensionality; intro); apply A2).
  destruct (C_model (par m)) eqn:EC.
  - assert (Z0 : has_gradient N (fun _ => 0) (gzs g) (fun _ => 0)) by (intros c t dc _; eapply is_derive_eq; [apply (is_derive_const (V:=R_NormedModule))|]; rewrite (rsum_ext N _ (fun _ => 0 * 0)) by (intros; ring); rewrite rsum_scal_l; unfold zero; cbn; ring).
    destruct o; cbn [negb is_C_ZERO snd]; [exact Z0|]. eapply grad_ext; [|exact Z0]. intros i Hi. rewrite A1. unfold pures_C. now rewrite EC.
  - destruct N as [|[|k]]; [|congruence|]; (destruct o; cbn [negb is_C_ZERO snd mix_lists]; [subst l2; apply HM|apply (grad_ext _ _ _ _ _ (fun i Hi => eq_sym (A1 i))); apply lin_grad]).
  - destruct N as [|[|k]]; [|congruence|]; (destruct o; cbn [negb is_C_ZERO snd mix_lists]; [subst l2; apply HM|apply (grad_ext _ _ _ _ _ (fun i Hi => eq_sym (A1 i))); apply lin_grad]).
Qed.
End State.

(* relabelling the components changes nothing *)
Theorem C46_relabel s p p' N th d T zs : perm N s -> B_model p' = B_model p -> (forall b T d i, ext_B_vec p' b T d i = ext_B_vec p b T d (s i)) -> (forall b T d i j, ext_B_mat p' b T d i j = ext_B_mat p b T d (s i) (s j)) ->
  B_mix p' N th d T (fun i => zs (s i)) = B_mix p N th d T zs.
Proof.
  intros Hs EB E1 E2. unfold B_mix.
  assert (A1 : forall i, pures_B p' T d i = pures_B p T d (s i)) by (intros i; unfold pures_B; rewrite EB; destruct (B_model p); auto).
  assert (A2 : forall i j, pairs_B p' T d i j = pairs_B p T d (s i) (s j)) by (intros i j; unfold pairs_B; rewrite EB; destruct (B_model p); auto).
  assert (L1 : lin_mix N (fun i => zs (s i)) (pures_B p' T d) = lin_mix N zs (pures_B p T d)).
  { rewrite <- (lin_mix_perm N s zs (pures_B p T d) Hs). apply rsum_ext. intros. now rewrite A1. }
  assert (L2 : quad_mix N (fun i => zs (s i)) (pairs_B p' T d) = quad_mix N zs (pairs_B p T d)).
  { rewrite <- (quad_mix_perm N s zs (pairs_B p T d) Hs). apply quad_mix_ext. intros. now rewrite A2. }
  destruct N as [|[|k]]; [destruct th; auto| |destruct th; auto]. rewrite A1. destruct Hs as (H1 & _). specialize (H1 0%nat ltac:(lia)). now replace (s 0%nat) with 0%nat by lia.
Qed.
(* the option 'Zeros' for the cross coefficients (documented: no cross parameters are used) has no effect *)
Theorem C46_cross_model_ignored b c cb cc cb' cc' eBv eBm eCv eCm M N th o d T zs :
  let p := Build_csp_params b c cb cc eBv eBm eCv eCm in let p' := Build_csp_params b c cb' cc' eBv eBm eCv eCm in
  B_mix p N th d T zs = B_mix p' N th d T zs /\ C_mix M p N o d T zs = C_mix M p' N o d T zs.
Proof. split; reflexivity. Qed.
Theorem C46_Zeros_refuted M ext_Z : exists m T P zs, cross_B_model (par m) = ZEROS /\ cross_C_model (par m) = ZEROS /\ mole_fractions 2 zs /\ let g := start M ext_Z m T P 2 zs true true in
  snd (get_B 0 g) <> rsum 2 (fun i => zs i * zs i * pairs_B (par m) T 0 i i).
Proof.
  pose (p := Build_csp_params B_XIANG C_ZERO ZEROS ZEROS (fun _ _ _ _ => 0) (fun _ _ _ i j => if Nat.eqb i j then 0 else 1) (fun _ _ _ _ => 0) (fun _ _ _ _ _ => 0)).
  exists (csp_init p 1), 1, 1, (fun _ => 1 / 2). splits; try reflexivity.
  - split; [intros; cbv beta; lra|cbn; lra].
  - pose proof (C46_coefficients M ext_Z (fun _ x => x) (csp_init p 1) 1 1 2 (fun _ => 1 / 2) true true [] 0 1 (fun _ => 1 / 2)) as H. cbv zeta in H. destruct H as (_ & _ & H & _).
    intros g. unfold g. change (after M ext_Z (fun _ x => x) [] ?x) with x in H. rewrite H.
    destruct (solve_V_ok M ext_Z p 2 true true {| gT := 1; gP := 1; gV := 0; gzs := fun _ => 1 / 2; gN := 2; theory := true; op := true; gmodel := csp_to (csp_init p 1) 1 |} 1) as (_ & E1 & E2 & _); [split; [unfold goodm; cbn; splits; auto; discriminate|auto]|].
    unfold start, gas_init. rewrite E1, E2. cbn. lra.
Qed.
(* the hypotheses of the theorems above are met by a gas with B = -1 - 1/T and C = 1/2 *)
Example C46_hypotheses_met : let Bf := fun T => -1 - / T in let B1 := fun T => / (T * T) in let B2 := fun T => - 2 / (T * T * T) in let Cf := fun _ : R => 1 / 2 in let z := fun _ : R => 0 in
  smooth_T Bf B1 B2 /\ smooth_T Cf z z /\ 0 < 10 * 10 + 10 * Bf 1 + Cf 1 /\ Vir_dP_dT 1 10 (Bf 1) (Cf 1) (B1 1) (z 1) <> 0 /\ Vir_dP_dV 1 10 (Bf 1) (Cf 1) <> 0.
Proof.
  cbv zeta. pose proof Rgas_pos as RP. splits.
  - intros T HT. assert (T <> 0) by lra. assert (T * T <> 0) by now apply Rmult_integral_contrapositive_currified. split; auto_derive; auto; field; auto.
  - intros T _. split; apply (is_derive_const (V:=R_NormedModule)).
  - rewrite Rinv_1. lra.
  - unfold Vir_dP_dT. cbv zeta. match goal with |- ?a <> 0 => replace a with (905 / 10 * Rgas / 1000) by field end. lra.
  - unfold Vir_dP_dV. cbv zeta. match goal with |- ?a <> 0 => replace a with (- (615 / 10) * Rgas / 10000) by field end. lra.
Qed.
(* those on composition by an equimolar binary with B = 3 z_0 + z_1 and C = 0 at T = 1 and P = R, where V = (1 + sqrt(1 + 4 B)) / 2 *)
Example C46_composition_hypotheses_met : let Bz := fun y : nat -> R => 3 * y 0%nat + y 1%nat in let Cz := fun _ : nat -> R => 0 in let Vz := fun y => (1 + sqrt (1 + 4 * Bz y)) / 2 in let zs := fun _ : nat => 1 / 2 in
  (exists dB, has_gradient 2 Bz zs dB) /\ (exists dC, has_gradient 2 Cz zs dC) /\ diffable 2 Vz zs /\
  near 2 zs (fun y => 0 < Vz y /\ 0 < Vz y * Vz y + Vz y * Bz y + Cz y /\ virial_pressure (Bz y) (Cz y) 1 (Vz y) = Rgas) /\ Vir_dP_dV 1 (Vz zs) (Bz zs) (Cz zs) <> 0 /\ mole_fractions 2 zs.
Proof.
  intros Bz Cz Vz zs.
  assert (DB : diffable 2 Bz zs) by (apply d_plus; [apply d_mult; [apply d_const|apply (d_coord 2 zs 0); lia]|apply (d_coord 2 zs 1); lia]).
  assert (EB : Bz zs = 2) by (unfold Bz, zs; lra).
  splits.
  - exact DB.
  - apply (d_const 2 zs 0).
  - unfold Vz. apply (d_comp 2 zs Bz (fun b => (1 + sqrt (1 + 4 * b)) / 2) DB). rewrite EB. auto_derive. lra.
  - exists (1 / 10). split; [lra|]. intros y Hy. pose proof (Hy 0%nat ltac:(lia)) as H0. pose proof (Hy 1%nat ltac:(lia)) as H1. apply Rabs_def2 in H0. apply Rabs_def2 in H1. unfold zs in *.
    assert (PB : 0 < Bz y) by (unfold Bz; lra). assert (S2 : sqrt (1 + 4 * Bz y) * sqrt (1 + 4 * Bz y) = 1 + 4 * Bz y) by (apply sqrt_sqrt; lra). assert (SP : 0 <= sqrt (1 + 4 * Bz y)) by apply sqrt_pos.
    assert (PV : 0 < Vz y) by (unfold Vz; lra). assert (EQ : Vz y * Vz y = Vz y + Bz y) by (unfold Vz in *; nra).
    assert (0 < Vz y * Bz y) by now apply Rmult_lt_0_compat. splits; [exact PV|unfold Cz; nra|]. unfold virial_pressure, Cz.
    match goal with |- ?a = _ => replace a with (Rgas * (Vz y + Bz y) / (Vz y * Vz y)) by (field; lra) end. rewrite <- EQ. field. lra.
  - assert (EV : Vz zs = 2). { unfold Vz. rewrite EB. replace (1 + 4 * 2) with (3 * 3) by lra. rewrite sqrt_square by lra. lra. }
    rewrite EV, EB. unfold Vir_dP_dV, Cz. cbv zeta. match goal with |- ?a <> 0 => replace a with (- (3 / 4) * Rgas) by field end. pose proof Rgas_pos. lra.
  - split; [intros; unfold zs; lra|unfold zs; cbn; lra].
Qed.
