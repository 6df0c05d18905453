(* C13: critical-point conditions for the constants the constructors compute from Tc and Pc. *)
From Coq Require Import Reals Lra List.
From Coquelicot Require Import Coquelicot.
From Verif Require Import Base BaseFacts Spec_eos Gen_eoscrit.
Open Scope R_scope.

(* ---- specification: on the isotherm T = Tc the pressure at Vc is Pc up to a relative error e, and the reduced slope
   (Vc/Pc) dP/dV and curvature (Vc^2/Pc) d2P/dV2 vanish up to e. With e = 0 these are the exact conditions. *)
Definition critical_within (e a b delta eps Tc Pc Vc : R) : Prop :=
  let P := fun V => P_cubic (fun _ => a) b delta eps Tc V in
  regular_V b delta eps Vc /\
  Rabs (P Vc - Pc) <= e * Pc /\
  exists P1 P2, is_derive P Vc P1 /\ is_derive (Derive P) Vc P2 /\ Rabs (P1 * (Vc / Pc)) <= e /\ Rabs (P2 * (Vc ^ 2 / Pc)) <= e.

(* the reduced isotherm at the critical temperature with delta = u b, eps = w b^2, b = c2 R Tc/Pc, V = z R Tc/Pc *)
Definition red0 (c1 c2 u w z : R) := 1 / (z - c2) - c1 / (z ^ 2 + u * c2 * z + w * c2 ^ 2).
Definition red1 (c1 c2 u w z : R) := - 1 / (z - c2) ^ 2 + c1 * (2 * z + u * c2) / (z ^ 2 + u * c2 * z + w * c2 ^ 2) ^ 2.
Definition red2 (c1 c2 u w z : R) := 2 / (z - c2) ^ 3 + 2 * c1 / (z ^ 2 + u * c2 * z + w * c2 ^ 2) ^ 2 - 2 * c1 * (2 * z + u * c2) ^ 2 / (z ^ 2 + u * c2 * z + w * c2 ^ 2) ^ 3.

Lemma reduced e c1 c2 u w z Tc Pc : 0 < Tc -> 0 < Pc -> 0 < z - c2 -> 0 < z ^ 2 + u * c2 * z + w * c2 ^ 2 ->
  Rabs (red0 c1 c2 u w z - 1) <= e -> Rabs (red1 c1 c2 u w z * z) <= e -> Rabs (red2 c1 c2 u w z * z ^ 2) <= e ->
  let k := Rgas * Tc / Pc in
  critical_within e (c1 * Rgas ^ 2 * Tc ^ 2 / Pc) (c2 * k) (u * (c2 * k)) (w * (c2 * k) ^ 2) Tc Pc (z * k).
Proof.
  intros HT HP H1 H2 E0 E1 E2 k. pose proof Rgas_pos as HR.
  assert (Hk : 0 < k). { unfold k, Rdiv. apply Rmult_lt_0_compat; [nra|]. apply Rinv_0_lt_compat; auto. }
  assert (Hkn : k <> 0) by lra. assert (HPn : Pc <> 0) by lra. assert (HTn : Tc <> 0) by lra. assert (HRn : Rgas <> 0) by lra.
  set (a := c1 * Rgas ^ 2 * Tc ^ 2 / Pc). assert (Ha : a = c1 * Pc * k ^ 2) by (unfold a, k; field; auto).
  assert (HRT : Rgas * Tc = Pc * k) by (unfold k; field; auto).
  set (b := c2 * k). set (delta := u * b). set (eps := w * b ^ 2). set (V := z * k).
  assert (RV : regular_V b delta eps V).
  { split; unfold V, delta, eps, b.
    - intro Q. apply (Rmult_eq_reg_r k) in Q; auto. lra.
    - replace ((z * k) ^ 2 + u * (c2 * k) * (z * k) + w * (c2 * k) ^ 2) with ((z ^ 2 + u * c2 * z + w * c2 ^ 2) * k ^ 2) by ring. apply Rmult_integral_contrapositive_currified; [lra|apply pow_nonzero; auto]. }
  set (P' := fun V => - Rgas * Tc / (V - b) ^ 2 + a * (2 * V + delta) / (V ^ 2 + delta * V + eps) ^ 2).
  assert (D1 : forall v, regular_V b delta eps v -> is_derive (fun V => P_cubic (fun _ => a) b delta eps Tc V) v (P' v)).
  { intros v [K1 K2]. unfold P_cubic, P'. assert (v - b <> 0) by (intro Q; apply K1; lra). auto_derive. { splits; auto. }
    field. splits; auto. }
  assert (L : locally V (regular_V b delta eps)).
  { assert (L1 : locally V (fun v => v <> b)) by (apply (open_neq b V); apply RV).
    assert (CC : continuous (fun v => v ^ 2 + delta * v + eps) V) by (apply @ex_derive_continuous; auto_derive; auto).
    exact (filter_and _ _ L1 (CC (fun y => y <> 0) (open_neq 0 _ (proj2 RV)))). }
  set (P'' := 2 * Rgas * Tc / (V - b) ^ 3 + 2 * a / (V ^ 2 + delta * V + eps) ^ 2 - 2 * a * (2 * V + delta) ^ 2 / (V ^ 2 + delta * V + eps) ^ 3).
  assert (D2 : is_derive (Derive (fun V => P_cubic (fun _ => a) b delta eps Tc V)) V P'').
  { apply (is_derive_ext_loc P').
    - eapply filter_imp; [|exact L]. intros v Hv. symmetry. apply is_derive_unique. apply D1; auto.
    - destruct RV as [K1 K2]. unfold P', P''. assert (V - b <> 0) by (intro Q; apply K1; lra). auto_derive.
      { splits; auto. } field. splits; auto. }
  assert (Hz1 : z - c2 <> 0) by lra. assert (Hz2 : z ^ 2 + u * c2 * z + w * c2 ^ 2 <> 0) by lra.
  assert (Q1 : V - b = (z - c2) * k) by (unfold V, b; ring).
  assert (Q2 : V ^ 2 + delta * V + eps = (z ^ 2 + u * c2 * z + w * c2 ^ 2) * k ^ 2) by (unfold V, delta, eps, b; ring).
  assert (Q3 : 2 * V + delta = (2 * z + u * c2) * k) by (unfold V, delta, b; ring).
  split; [exact RV|]. split.
  - replace (P_cubic (fun _ => a) b delta eps Tc V - Pc) with (Pc * (red0 c1 c2 u w z - 1)).
    + rewrite Rabs_mult, (Rabs_right Pc) by lra. rewrite (Rmult_comm e). apply Rmult_le_compat_l; auto; lra.
    + unfold P_cubic, red0. rewrite Q1, Q2, HRT, Ha. field. splits; auto.
  - exists (P' V), P''. split; [apply D1; auto|]. split; [exact D2|]. split.
    + replace (P' V * (V / Pc)) with (red1 c1 c2 u w z * z); auto. unfold P', red1. rewrite Q1, Q2, Q3. replace (- Rgas * Tc) with (- (Rgas * Tc)) by ring.
      rewrite HRT, Ha. unfold V. field. splits; auto.
    + replace (P'' * (V ^ 2 / Pc)) with (red2 c1 c2 u w z * z ^ 2); auto. unfold P'', red2. rewrite Q1, Q2, Q3. replace (2 * Rgas * Tc) with (2 * (Rgas * Tc)) by ring.
      rewrite HRT, Ha. unfold V. field. splits; auto.
Qed.

(* ---- van der Waals: exact *)
Theorem C13_VDW Tc Pc : 0 < Tc -> 0 < Pc -> let '(a, b, delta, eps) := VDW_init Tc Pc in
  critical_within 0 a b delta eps Tc Pc (VDW_Zc * Rgas * Tc / Pc).
Proof.
  intros HT HP. unfold VDW_init. cbv zeta. pose proof (reduced 0 (27 / 64) (1 / 8) 0 0 (3 / 8) Tc Pc HT HP) as H. cbv zeta in H.
  assert (Pc <> 0) by lra. unfold VDW_Zc.
  replace (27 / 64 * (Rgas * Rgas) * Tc * (Tc / Pc)) with (27 / 64 * Rgas ^ 2 * Tc ^ 2 / Pc) by (field; auto).
  replace (1 / 8 * Rgas * (Tc / Pc)) with (1 / 8 * (Rgas * Tc / Pc)) by (field; auto).
  replace (3 / 8 * Rgas * Tc / Pc) with (3 / 8 * (Rgas * Tc / Pc)) by (field; auto).
  replace (0 * (1 / 8 * (Rgas * Tc / Pc)) ^ 2) with 0 in H by ring. replace (0 * (1 / 8 * (Rgas * Tc / Pc))) with 0 in H by ring.
  apply H; try lra; unfold red0, red1, red2; apply Req_le; match goal with |- Rabs ?x = 0 => replace x with 0 by field end; apply Rabs_R0.
Qed.

Definition tol : R := 1 / 100000000000000000000000000000000000.   (* 1e-35 *)
Lemma RK_red : Rabs (red0 RK_c1 RK_c2 1 0 RK_Zc - 1) <= tol /\ Rabs (red1 RK_c1 RK_c2 1 0 RK_Zc * RK_Zc) <= tol /\ Rabs (red2 RK_c1 RK_c2 1 0 RK_Zc * RK_Zc ^ 2) <= tol.
Proof.
  unfold red0, red1, red2, RK_c1, RK_c2, RK_Zc, tol. splits.
  all: apply Rabs_le; split; lra.
Qed.

Lemma PR_red : Rabs (red0 PR_c1 PR_c2 2 (-1) PR_Zc - 1) <= tol /\ Rabs (red1 PR_c1 PR_c2 2 (-1) PR_Zc * PR_Zc) <= tol /\ Rabs (red2 PR_c1 PR_c2 2 (-1) PR_Zc * PR_Zc ^ 2) <= tol.
Proof.
  unfold red0, red1, red2, PR_c1, PR_c2, PR_Zc, tol. splits.
  all: apply Rabs_le; split; lra.
Qed.
(* ---- Redlich-Kwong and Soave-Redlich-Kwong: the 40-digit decimals of the code, to 1e-35 *)
Lemma RK_critical Tc Pc : 0 < Tc -> 0 < Pc -> critical_within tol (RK_c1 * Rgas ^ 2 * Tc ^ 2 / Pc) (RK_c2 * (Rgas * Tc / Pc)) (RK_c2 * (Rgas * Tc / Pc)) 0 Tc Pc (RK_Zc * (Rgas * Tc / Pc)).
Proof.
  intros HT HP. destruct RK_red as [E0 [E1 E2]]. pose proof (reduced tol RK_c1 RK_c2 1 0 RK_Zc Tc Pc HT HP) as H. cbv zeta in H.
  rewrite !Rmult_1_l, !Rmult_0_l in H. apply H; auto; unfold RK_c2, RK_Zc; lra.
Qed.
Theorem C13_RK Tc Pc : 0 < Tc -> 0 < Pc -> let '(a, b, delta, eps) := RK_init Tc Pc in
  critical_within tol a b delta eps Tc Pc (RK_Zc * Rgas * Tc / Pc).
Proof.
  intros HT HP. assert (Pc <> 0) by lra. unfold RK_init. cbv zeta.
  replace (RK_c1 * (Rgas * Rgas) * Tc * Tc / Pc) with (RK_c1 * Rgas ^ 2 * Tc ^ 2 / Pc) by (field; auto).
  replace (RK_c2 * Rgas * Tc / Pc) with (RK_c2 * (Rgas * Tc / Pc)) by (field; auto).
  replace (RK_Zc * Rgas * Tc / Pc) with (RK_Zc * (Rgas * Tc / Pc)) by (field; auto). apply RK_critical; auto.
Qed.
Theorem C13_SRK Tc Pc : 0 < Tc -> 0 < Pc -> let '(a, b, delta, eps) := SRK_init Tc Pc in
  critical_within tol a b delta eps Tc Pc (SRK_Zc * Rgas * Tc / Pc).
Proof.
  intros HT HP. assert (Pc <> 0) by lra. unfold SRK_init. cbv zeta. change SRK_c1 with RK_c1. change SRK_c2 with RK_c2. change SRK_Zc with RK_Zc.
  replace (RK_c1 * Rgas * Rgas * Tc * Tc / Pc) with (RK_c1 * Rgas ^ 2 * Tc ^ 2 / Pc) by (field; auto).
  replace (RK_c2 * Rgas * Tc / Pc) with (RK_c2 * (Rgas * Tc / Pc)) by (field; auto).
  replace (RK_Zc * Rgas * Tc / Pc) with (RK_Zc * (Rgas * Tc / Pc)) by (field; auto). apply RK_critical; auto.
Qed.
(* ---- Peng-Robinson *)
Lemma PR_critical Tc Pc : 0 < Tc -> 0 < Pc -> let k := Rgas * Tc / Pc in
  critical_within tol (PR_c1 * Rgas ^ 2 * Tc ^ 2 / Pc) (PR_c2 * k) (2 * (PR_c2 * k)) (-1 * (PR_c2 * k) ^ 2) Tc Pc (PR_Zc * k).
Proof.
  intros HT HP. destruct PR_red as [E0 [E1 E2]]. apply (reduced tol PR_c1 PR_c2 2 (-1) PR_Zc Tc Pc HT HP); auto; unfold PR_c2, PR_Zc; lra.
Qed.
Theorem C13_PR Tc Pc : 0 < Tc -> 0 < Pc -> let '(a, b, delta, eps) := PR_init Tc Pc in
  critical_within tol a b delta eps Tc Pc (PR_Zc * Rgas * Tc / Pc).
Proof.
  intros HT HP. assert (Pc <> 0) by lra. assert (Hc : PR_c2 <> 0) by (unfold PR_c2; lra). pose proof Rgas_pos. assert (Rgas <> 0) by lra. unfold PR_init. cbv zeta.
  replace (PR_c2 * Rgas * Tc / Pc * Tc * (PR_c1 * (Rgas * Rgas) / (PR_c2 * Rgas))) with (PR_c1 * Rgas ^ 2 * Tc ^ 2 / Pc) by (field; auto).
  replace (PR_c2 * Rgas * Tc / Pc) with (PR_c2 * (Rgas * Tc / Pc)) by (field; auto).
  replace (PR_Zc * Rgas * Tc / Pc) with (PR_Zc * (Rgas * Tc / Pc)) by (field; auto).
  replace (- (PR_c2 * (Rgas * Tc / Pc)) * (PR_c2 * (Rgas * Tc / Pc))) with (-1 * (PR_c2 * (Rgas * Tc / Pc)) ^ 2) by ring. apply PR_critical; auto.
Qed.

(* ---- volume translation: the translated EOS is the untranslated one read at V + c *)
Theorem C13_PRTranslated_shift Tc Pc c T V : Pc <> 0 ->
  let '(a, b, delta, eps) := PRTranslated_init Tc Pc c in let '(a0, b0, delta0, eps0) := PR_init Tc Pc in
  a = a0 /\ P_cubic (fun _ => a) b delta eps T V = P_cubic (fun _ => a0) b0 delta0 eps0 T (V + c).
Proof.
  intros HP. assert (Hc : PR_c2 <> 0) by (unfold PR_c2; lra). pose proof Rgas_pos. assert (Rgas <> 0) by lra. unfold PRTranslated_init, PR_init. cbv zeta.
  assert (E : PR_c1 * (Rgas * Rgas) * Tc * Tc * (1 / Pc) = PR_c2 * Rgas * Tc / Pc * Tc * (PR_c1 * (Rgas * Rgas) / (PR_c2 * Rgas))) by (field; auto).
  rewrite E. split; auto. unfold P_cubic. replace (PR_c2 * Rgas * Tc * (1 / Pc)) with (PR_c2 * Rgas * Tc / Pc) by (field; auto).
  match goal with |- _ / ?u - _ / ?v = _ / ?u' - _ / ?v' => replace u with u' by ring; replace v with v' by ring end. reflexivity.
Qed.
Theorem C13_SRKTranslated_shift Tc Pc c T V : Pc <> 0 ->
  let '(a, b, delta, eps) := SRKTranslated_init Tc Pc c in let '(a0, b0, delta0, eps0) := SRK_init Tc Pc in
  a = a0 /\ P_cubic (fun _ => a) b delta eps T V = P_cubic (fun _ => a0) b0 delta0 eps0 T (V + c).
Proof.
  intros HP. unfold SRKTranslated_init, SRK_init. cbv zeta.
  assert (E : SRK_c1 * Rgas * Rgas * Tc * Tc * (1 / Pc) = SRK_c1 * Rgas * Rgas * Tc * Tc / Pc) by (field; auto).
  rewrite E. split; auto. unfold P_cubic. replace (SRK_c2 * Rgas * Tc * (1 / Pc)) with (SRK_c2 * Rgas * Tc / Pc) by (field; auto).
  match goal with |- _ / ?u - _ / ?v = _ / ?u' - _ / ?v' => replace u with u' by ring; replace v with v' by ring end. reflexivity.
Qed.
Lemma shift_critical e a b delta eps a0 b0 delta0 eps0 c Tc Pc Vc : 
  (forall V, P_cubic (fun _ => a) b delta eps Tc V = P_cubic (fun _ => a0) b0 delta0 eps0 Tc (V + c)) ->
  b = b0 - c -> (forall V, V ^ 2 + delta * V + eps = (V + c) ^ 2 + delta0 * (V + c) + eps0) -> 
  (* the reduced slope is measured with the untranslated volume *)
  critical_within e a0 b0 delta0 eps0 Tc Pc Vc ->
  regular_V b delta eps (Vc - c) /\ Rabs (P_cubic (fun _ => a) b delta eps Tc (Vc - c) - Pc) <= e * Pc /\
  exists P1 P2, is_derive (fun V => P_cubic (fun _ => a) b delta eps Tc V) (Vc - c) P1 /\
    is_derive (Derive (fun V => P_cubic (fun _ => a) b delta eps Tc V)) (Vc - c) P2 /\ Rabs (P1 * (Vc / Pc)) <= e /\ Rabs (P2 * (Vc ^ 2 / Pc)) <= e.
Proof.
  intros HP Hb HQ [[R1 R2] [E [P1 [P2 [D1 [D2 [B1 B2]]]]]]]. assert (EV : Vc - c + c = Vc) by ring. splits.
  - split; [intro Q; apply R1; lra|]. rewrite HQ, EV. exact R2.
  - rewrite HP, EV. exact E.
  - exists P1, P2. splits; auto.
    + apply (is_derive_ext (fun V => P_cubic (fun _ => a0) b0 delta0 eps0 Tc (V + c))). { intros t. symmetry. apply HP. }
      replace P1 with (1 * P1) by ring. apply (is_derive_comp (fun V => P_cubic (fun _ => a0) b0 delta0 eps0 Tc V) (fun V => V + c)); [rewrite EV; exact D1|auto_derive; auto; ring].
    + apply (is_derive_ext (fun V => Derive (fun V => P_cubic (fun _ => a0) b0 delta0 eps0 Tc V) (V + c))).
      { intros t. transitivity (Derive (fun V => P_cubic (fun _ => a0) b0 delta0 eps0 Tc (V + c)) t); [|apply Derive_ext; intros v; symmetry; apply HP]. unfold Derive.
        f_equal. apply Lim_ext. intros h. replace (t + h + c) with (t + c + h) by ring. reflexivity. }
      replace P2 with (1 * P2) by ring. apply (is_derive_comp (Derive (fun V => P_cubic (fun _ => a0) b0 delta0 eps0 Tc V)) (fun V => V + c)); [rewrite EV; exact D2|auto_derive; auto; ring].
Qed.

(* the translated equations of state have their critical point at Zc R Tc/Pc - c *)
Definition critical_shifted (e a b delta eps Tc Pc Vc c : R) : Prop :=
  regular_V b delta eps (Vc - c) /\ Rabs (P_cubic (fun _ => a) b delta eps Tc (Vc - c) - Pc) <= e * Pc /\
  exists P1 P2, is_derive (fun V => P_cubic (fun _ => a) b delta eps Tc V) (Vc - c) P1 /\
    is_derive (Derive (fun V => P_cubic (fun _ => a) b delta eps Tc V)) (Vc - c) P2 /\ Rabs (P1 * (Vc / Pc)) <= e /\ Rabs (P2 * (Vc ^ 2 / Pc)) <= e.
Theorem C13_PRTranslated Tc Pc c : 0 < Tc -> 0 < Pc -> let '(a, b, delta, eps) := PRTranslated_init Tc Pc c in
  critical_shifted tol a b delta eps Tc Pc (PR_Zc * Rgas * Tc / Pc) c.
Proof.
  intros HT HP. assert (HP' : Pc <> 0) by lra. pose proof (fun T V => C13_PRTranslated_shift Tc Pc c T V HP') as S. pose proof (C13_PR Tc Pc HT HP) as K.
  unfold PRTranslated_init, PR_init in *. cbv zeta in *. eapply shift_critical; [intros V; apply S| | |exact K].
  - field. auto.
  - intros V. field. auto.
Qed.
Theorem C13_SRKTranslated Tc Pc c : 0 < Tc -> 0 < Pc -> let '(a, b, delta, eps) := SRKTranslated_init Tc Pc c in
  critical_shifted tol a b delta eps Tc Pc (SRK_Zc * Rgas * Tc / Pc) c.
Proof.
  intros HT HP. assert (HP' : Pc <> 0) by lra. pose proof (fun T V => C13_SRKTranslated_shift Tc Pc c T V HP') as S. pose proof (C13_SRK Tc Pc HT HP) as K.
  unfold SRKTranslated_init, SRK_init in *. cbv zeta in *. eapply shift_critical; [intros V; apply S| | |exact K].
  - field. auto.
  - intros V. field. auto.
Qed.
Theorem C13_MSRKTranslated Tc Pc c : 0 < Tc -> 0 < Pc -> let '(a, b, delta, eps) := MSRKTranslated_init Tc Pc c in
  critical_shifted tol a b delta eps Tc Pc (SRK_Zc * Rgas * Tc / Pc) c.
Proof. exact (C13_SRKTranslated Tc Pc c). Qed.

(* ---- the exact constants: the conditions hold with no error for c1 = 1/(9(2^(1/3)-1)), c2 = (2^(1/3)-1)/3, Zc = 1/3 (the comments at
   lines 9449-9451), and the decimals are those numbers to 1e-39 *)
Lemma cubic_triple c1 c2 u w z : 0 < z - c2 -> 0 < z ^ 2 + u * c2 * z + w * c2 ^ 2 ->
  3 * z = 1 - (u - 1) * c2 -> 3 * z ^ 2 = c1 + (w - u) * c2 ^ 2 - u * c2 -> z ^ 3 = c1 * c2 + w * (c2 ^ 2 + c2 ^ 3) ->
  red0 c1 c2 u w z = 1 /\ red1 c1 c2 u w z = 0 /\ red2 c1 c2 u w z = 0.
Proof.
  intros H1 H2 A B C. unfold red0, red1, red2. set (q := z ^ 2 + u * c2 * z + w * c2 ^ 2) in *. set (s := z - c2) in *.
  assert (K0 : q - c1 * s = s * q). { unfold q, s. replace c1 with (3 * z ^ 2 - (w - u) * c2 ^ 2 + u * c2) by lra.
    assert (C' : z ^ 3 - (3 * z ^ 2 - (w - u) * c2 ^ 2 + u * c2) * c2 - w * (c2 ^ 2 + c2 ^ 3) = 0) by (replace (3 * z ^ 2 - (w - u) * c2 ^ 2 + u * c2) with c1 by lra; lra).
    assert (A' : 1 = 3 * z + (u - 1) * c2) by lra. nra. }
  assert (K1 : 2 * z + u * c2 - c1 = q + s * (2 * z + u * c2)). { unfold q, s. replace c1 with (3 * z ^ 2 - (w - u) * c2 ^ 2 + u * c2) by lra. nra. }
  assert (K2 : 2 = 2 * (2 * z + u * c2) + 2 * s) by (unfold s; lra).
  assert (s <> 0) by lra. assert (q <> 0) by lra. splits.
  - transitivity ((q - c1 * s) / (s * q)); [field; auto|]. rewrite K0. field. auto.
  - set (q1 := 2 * z + u * c2) in *. assert (E : c1 * s = q - s * q) by lra. assert (E2 : c1 = q1 - q - s * q1) by lra.
    assert (F : q = s * q1 * (1 - s)) by (rewrite E2 in E; lra).
    transitivity ((- q ^ 2 + (c1 * s) * s * q1) / (s ^ 2 * q ^ 2)); [field; auto|]. rewrite E.
    replace (- q ^ 2 + (q - s * q) * s * q1) with (q * (s * q1 * (1 - s) - q)) by ring. rewrite <- F. unfold Rdiv. ring.
  - set (q1 := 2 * z + u * c2) in *. assert (E : c1 * s = q - s * q) by lra. assert (E2 : c1 = q1 - q - s * q1) by lra.
    assert (F : q = s * q1 * (1 - s)) by (rewrite E2 in E; lra).
    transitivity ((2 * q ^ 3 + 2 * (c1 * s) * s ^ 2 * q - 2 * (c1 * s) * s ^ 2 * q1 ^ 2) / (s ^ 3 * q ^ 3)); [field; auto|]. rewrite E.
    assert (Es : 1 - s = q1) by lra. 
    replace (2 * q ^ 3 + 2 * (q - s * q) * s ^ 2 * q - 2 * (q - s * q) * s ^ 2 * q1 ^ 2) with (2 * q * (q ^ 2 + (1 - s) * s ^ 2 * q - (1 - s) * s ^ 2 * q1 ^ 2)) by ring.
    replace (q ^ 2 + (1 - s) * s ^ 2 * q - (1 - s) * s ^ 2 * q1 ^ 2) with 0. unfold Rdiv; ring. 
    rewrite F, Es. replace s with (1 - q1) by lra. ring.
Qed.
Definition digits : R := 1 / 1000000000000000000000000000000000000000.   (* 1e-39 *)
Theorem C13_RK_exact : let t := Rpower 2 (1 / 3) in let c1 := 1 / (9 * (t - 1)) in let c2 := (t - 1) / 3 in
  Rabs (RK_c1 - c1) <= digits /\ Rabs (RK_c2 - c2) <= digits /\
  forall Tc Pc, 0 < Tc -> 0 < Pc -> let b := c2 * (Rgas * Tc / Pc) in critical_within 0 (c1 * Rgas ^ 2 * Tc ^ 2 / Pc) b b 0 Tc Pc (1 / 3 * (Rgas * Tc / Pc)).
Proof.
  intros t c1 c2. assert (Ht : t * t * t = 2).
  { unfold t. rewrite <- !Rpower_plus. replace (1 / 3 + 1 / 3 + 1 / 3) with 1 by field. apply Rpower_1. lra. }
  assert (Ht0 : 0 < t) by apply exp_pos.
  assert (M : forall x, 0 < x -> x * x * x < 2 -> x < t). { intros x Hx H. destruct (Rlt_le_dec x t); auto. exfalso. assert (t * t <= x * x) by nra. nra. }
  assert (M' : forall x, 0 < x -> 2 < x * x * x -> t < x). { intros x Hx H. destruct (Rlt_le_dec t x); auto. exfalso. assert (x * x <= t * t) by nra. nra. }
  assert (B1 : 3 * (RK_c2 - 1 / 10 ^ 41) + 1 < t) by (apply M; unfold RK_c2; lra).
  assert (B2 : t < 3 * (RK_c2 + 1 / 10 ^ 41) + 1) by (apply M'; unfold RK_c2; lra).
  assert (Hc2 : RK_c2 - 1 / 10 ^ 41 < c2 < RK_c2 + 1 / 10 ^ 41) by (unfold c2; lra).
  assert (Hc2p : 8 / 100 < c2 < 9 / 100) by (unfold RK_c2 in Hc2; lra).
  assert (Ec1 : c1 = 1 / (27 * c2)). { unfold c1, c2. field. intro Q. unfold c2 in Hc2p. lra. }
  splits.
  - assert (U1 : c1 * (27 * c2) = 1) by (rewrite Ec1; field; lra). assert (0 < c1 < 1). { rewrite Ec1. split. apply Rdiv_lt_0_compat; lra. apply Rmult_lt_reg_r with (27 * c2); [lra|]. rewrite Rmult_1_l. replace (1 / (27 * c2) * (27 * c2)) with 1 by (field; lra). lra. }
    assert (U2 : Rabs (RK_c1 * (27 * RK_c2) - 1) <= 1 / 10 ^ 39) by (apply Rabs_le; unfold RK_c1, RK_c2; lra).
    assert (U3 : Rabs (RK_c2 - c2) <= 1 / 10 ^ 41) by (apply Rabs_le; lra).
    apply Rabs_le. apply Rabs_le_between in U2. apply Rabs_le_between in U3. unfold digits.
    assert (U4 : (RK_c1 - c1) * (27 * c2) = (RK_c1 * (27 * RK_c2) - 1) - 27 * RK_c1 * (RK_c2 - c2)) by (replace (RK_c1 * (27 * RK_c2) - 1) with (RK_c1 * (27 * RK_c2) - c1 * (27 * c2)) by (rewrite U1; ring); ring).
    assert (K : 0 < RK_c1 < 1 / 2) by (unfold RK_c1; lra). 
    assert (U5 : - (13 / 10 ^ 41) - 1 / 10 ^ 39 <= (RK_c1 - c1) * (27 * c2) <= 1 / 10 ^ 39 + 27 / 2 / 10 ^ 41) by (rewrite U4; split; nra).
    split; nra.
  - apply Rabs_le. unfold digits. lra.
  - intros Tc Pc HT HP b. pose proof (reduced 0 c1 c2 1 0 (1 / 3) Tc Pc HT HP) as H. cbv zeta in H. rewrite !Rmult_1_l, !Rmult_0_l in H.
    destruct (cubic_triple c1 c2 1 0 (1 / 3)) as [E0 [E1 E2]]; try lra; try nra.
    + rewrite Ec1. assert (E : (3 * c2 + 1) * (3 * c2 + 1) * (3 * c2 + 1) = 2) by (rewrite <- Ht; unfold c2; field).
      apply Rmult_eq_reg_r with (27 * c2); [|lra]. replace ((1 / (27 * c2) + (0 - 1) * c2 ^ 2 - 1 * c2) * (27 * c2)) with (1 - 27 * c2 ^ 3 - 27 * c2 ^ 2) by (field; lra). nra.
    + rewrite Ec1. field. lra.
    + apply H; try lra; try nra; rewrite ?E0, ?E1, ?E2; [replace (1 - 1) with 0 by ring|rewrite Rmult_0_l|rewrite Rmult_0_l]; rewrite Rabs_R0; lra.
Qed.
(* Peng-Robinson: the exact constants exist within 1e-39 of the decimals *)
Theorem C13_PR_exact : exists c1 c2 Zc, 64 * c2 ^ 3 + 6 * c2 ^ 2 + 12 * c2 - 1 = 0 /\
  Rabs (PR_c1 - c1) <= digits /\ Rabs (PR_c2 - c2) <= digits /\ Rabs (PR_Zc - Zc) <= digits /\
  forall Tc Pc, 0 < Tc -> 0 < Pc -> let b := c2 * (Rgas * Tc / Pc) in
    critical_within 0 (c1 * Rgas ^ 2 * Tc ^ 2 / Pc) b (2 * b) (-1 * b ^ 2) Tc Pc (Zc * (Rgas * Tc / Pc)).
Proof.
  set (f := fun x => 64 * x ^ 3 + 6 * x ^ 2 + 12 * x - 1).
  assert (HC : continuity f). { unfold f. intros x. apply derivable_continuous_pt. apply ex_derive_Reals_0. auto_derive. auto. }
  destruct (IVT f (PR_c2 - 1 / 10 ^ 40) (PR_c2 + 1 / 10 ^ 40) HC) as [c2 [Hc2 Hf]]; try (unfold f, PR_c2; lra).
  assert (Hc2p : 7 / 100 < c2 < 8 / 100) by (unfold PR_c2 in Hc2; lra).
  set (z := (1 - c2) / 3). exists (3 * z ^ 2 + 3 * c2 ^ 2 + 2 * c2), c2, z. splits; auto.
  - assert (E : PR_c1 - (3 * z ^ 2 + 3 * c2 ^ 2 + 2 * c2) = (PR_c1 - ((1 - PR_c2) ^ 2 / 3 + 3 * PR_c2 ^ 2 + 2 * PR_c2)) + (PR_c2 - c2) * (10 / 3 * (PR_c2 + c2) + 4 / 3)) by (unfold z; field).
    rewrite E. apply Rabs_le. unfold digits. 
    assert (U : - (1 / 10 ^ 40) <= PR_c1 - ((1 - PR_c2) ^ 2 / 3 + 3 * PR_c2 ^ 2 + 2 * PR_c2) <= 1 / 10 ^ 40) by (unfold PR_c1, PR_c2; lra).
    assert (K : 0 < 10 / 3 * (PR_c2 + c2) + 4 / 3 < 2) by (unfold PR_c2; lra). split; nra.
  - apply Rabs_le. unfold digits. lra.
  - apply Rabs_le. unfold digits, z. unfold PR_c2, PR_Zc in *. lra.
  - intros Tc Pc HT HP b. set (c1 := 3 * z ^ 2 + 3 * c2 ^ 2 + 2 * c2). pose proof (reduced 0 c1 c2 2 (-1) z Tc Pc HT HP) as H. cbv zeta in H.
    assert (Hz : 30 / 100 < z < 32 / 100) by (unfold z; lra).
    destruct (cubic_triple c1 c2 2 (-1) z) as [E0 [E1 E2]]; try lra; try nra.
    + unfold z. lra.
    + unfold c1. ring.
    + unfold c1, z. unfold f in Hf. nra.
    + apply H; try lra; try nra; rewrite ?E0, ?E1, ?E2; [replace (1 - 1) with 0 by ring|rewrite Rmult_0_l|rewrite Rmult_0_l]; rewrite Rabs_R0; lra.
Qed.
Example C13_hypotheses_met : 0 < 5076 / 10 /\ 0 < 3025000 /\ tol < 1 / 10 ^ 34 /\ 0 < tol.
Proof. unfold tol. splits; lra. Qed.
