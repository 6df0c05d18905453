(* C10: the volumes returned by the solvers satisfy the equation of state. *)
From Coq Require Import Reals Lra Psatz List Lia.
From Coquelicot Require Import Coquelicot.
From Verif Require Import Base BaseFacts Spec_eos Model_volume.
Import ListNotations.
Open Scope R_scope.

(* ---- specification: a complex V satisfies P = RT/(V-b) - a/(V^2 + delta V + eps), denominators cleared *)
Definition eos_C (T P b delta eps a : R) (V : C) : Prop :=
  (RtoC P * (V - RtoC b) * (V * V + RtoC delta * V + RtoC eps)
   = RtoC (Rgas * T) * (V * V + RtoC delta * V + RtoC eps) - RtoC a * (V - RtoC b))%C.
(* for real V off the poles this is the EOS itself *)
Lemma eos_C_real T P b delta eps a V : regular_V b delta eps V -> (eos_C T P b delta eps a (RtoC V) <-> P_cubic (fun _ => a) b delta eps T V = P).
Proof.
  intros [H1 H2]. unfold eos_C, P_cubic.
  assert (E : P * (V - b) * (V * V + delta * V + eps) = Rgas * T * (V * V + delta * V + eps) - a * (V - b) <-> Rgas * T / (V - b) - a / (V ^ 2 + delta * V + eps) = P).
  { assert (V - b <> 0) by (intro Q; apply H1; lra). split; intros Q.
    - apply Rmult_eq_reg_r with ((V - b) * (V ^ 2 + delta * V + eps)); [|apply Rmult_integral_contrapositive_currified; auto].
      transitivity (Rgas * T * (V * V + delta * V + eps) - a * (V - b)). { field. auto. } rewrite <- Q. ring.
    - rewrite <- Q. field. split; auto. }
  rewrite <- E. repeat (rewrite <- RtoC_mult || rewrite <- RtoC_minus || rewrite <- RtoC_plus).
  split; intros Q. apply RtoC_inj in Q. exact Q. rewrite Q. reflexivity.
Qed.

Lemma Cmult_int (x y : C) : (x * y = RtoC 0)%C -> x = RtoC 0 \/ y = RtoC 0.
Proof.
  intros H. destruct (Ceq_dec x (RtoC 0)); auto. destruct (Ceq_dec y (RtoC 0)); auto. exfalso. revert H. apply Cmult_neq_0; auto.
Qed.
(* ---- the dimensionless cubic *)
Definition is_root3 (b c d : R) (z : C) : Prop := (z * z * z + RtoC b * (z * z) + RtoC c * z + RtoC d = RtoC 0)%C.

Lemma Rgas_pos' : 0 < Rgas. Proof. exact Rgas_pos. Qed.
Lemma RtoC_nz x : x <> 0 -> RtoC x <> RtoC 0. Proof. intros H Q. apply RtoC_inj in Q. auto. Qed.

Lemma cubic_scaled T P b delta eps a V : T <> 0 -> P <> 0 ->
  let '(b', c', d') := cubic_coeffs T P b delta eps a in
  is_root3 b' c' d' (V * RtoC (P / (Rgas * T)))%C <-> eos_C T P b delta eps a V.
Proof.
  intros HT HP. pose proof Rgas_pos' as HR. assert (HR' : Rgas <> 0) by lra. unfold cubic_coeffs, is_root3, eos_C.
  set (k := P / (Rgas * T)).
  assert (Hk : k <> 0). { unfold k. apply Rmult_integral_contrapositive_currified; auto. apply Rinv_neq_0_compat. apply Rmult_integral_contrapositive_currified; auto. }
  assert (EP : P = k * (Rgas * T)) by (unfold k; field; auto).
  cbv zeta. replace (P * (/ Rgas / T)) with k by (unfold k; field; auto).
  assert (Hq : Rgas * T <> 0) by (apply Rmult_integral_contrapositive_currified; auto).
  set (q := Rgas * T) in *. replace (/ Rgas / T) with (/ q) by (unfold q; field; auto).
  assert (E : ((V * RtoC k) * (V * RtoC k) * (V * RtoC k) + RtoC (delta * k - b * k - 1) * ((V * RtoC k) * (V * RtoC k)) +
     RtoC (a * k * / q + eps * k * k - delta * k * (b * k + 1)) * (V * RtoC k) + RtoC (- (eps * k * k * (b * k + 1) + a * k * / q * (b * k)))
     = (RtoC P * (V - RtoC b) * (V * V + RtoC delta * V + RtoC eps) - (RtoC q * (V * V + RtoC delta * V + RtoC eps) - RtoC a * (V - RtoC b))) * RtoC (k * k / q))%C).
  { rewrite EP. clear EP. clearbody k q. unfold Rdiv. repeat (rewrite RtoC_mult || rewrite RtoC_minus || rewrite RtoC_plus || rewrite RtoC_opp || (rewrite RtoC_inv by auto)).
    field. apply RtoC_nz; auto. }
  rewrite E. split; intros Q.
  - apply Cmult_int in Q. destruct Q as [Q|Q].
    + rewrite <- (Cplus_0_r (RtoC q * _ - _)%C). rewrite <- Q. ring.
    + exfalso. apply RtoC_inj in Q. revert Q. unfold Rdiv at 1. apply Rmult_integral_contrapositive_currified; [apply Rmult_integral_contrapositive_currified; auto|apply Rinv_neq_0_compat; auto].
  - rewrite Q. ring.
Qed.

(* Real form: the scaled volumes Z = P V/(R T) are exactly the roots of the cubic whose coefficients the solvers build *)
Theorem C10_cubic_iff T P b delta eps a V : T <> 0 -> P <> 0 -> regular_V b delta eps V ->
  let '(b', c', d') := cubic_coeffs T P b delta eps a in
  let Z := P * V / (Rgas * T) in Z ^ 3 + b' * Z ^ 2 + c' * Z + d' = 0 <-> P_cubic (fun _ => a) b delta eps T V = P.
Proof.
  intros HT HP HV. pose proof (eos_C_real T P b delta eps a V HV) as HE. pose proof (cubic_scaled T P b delta eps a (RtoC V) HT HP) as H.
  destruct (cubic_coeffs T P b delta eps a) as [[b' c'] d']. cbv zeta. rewrite <- HE, <- H. unfold is_root3.
  set (k := P / (Rgas * T)). replace (P * V / (Rgas * T)) with (V * k) by (unfold k, Rdiv; ring).
  repeat (rewrite <- RtoC_mult || rewrite <- RtoC_plus). split; intros Q.
  - f_equal. rewrite <- Q. ring.
  - apply RtoC_inj in Q. rewrite <- Q. ring.
Qed.

(* volume_solutions_Cardano/a1/a2/numpy: sound and complete, for a root finder that is sound and complete *)
Theorem C10_Cardano (roots_cubic : R -> R -> R -> list C) T P b delta eps a : T <> 0 -> P <> 0 ->
  (forall b c d z, In z (roots_cubic b c d) <-> is_root3 b c d z) ->
  forall V, In V (volume_solutions_Cardano roots_cubic T P b delta eps a) <-> eos_C T P b delta eps a V.
Proof.
  intros HT HP HR V. unfold volume_solutions_Cardano. pose proof (fun V => cubic_scaled T P b delta eps a V HT HP) as H.
  destruct (cubic_coeffs T P b delta eps a) as [[b' c'] d']. rewrite <- H. rewrite in_map_iff.
  pose proof Rgas_pos' as HG. assert (HG' : Rgas <> 0) by lra.
  assert (HA : P / (Rgas * T) * (Rgas * T / P) = 1) by (field; auto).
  split.
  - intros [z [E I]]. subst V. replace (z * RtoC (Rgas * T / P) * RtoC (P / (Rgas * T)))%C with z.
    + apply HR. exact I.
    + rewrite <- Cmult_assoc, <- RtoC_mult. rewrite (Rmult_comm (Rgas * T / P)), HA. ring.
  - intros I. exists (V * RtoC (P / (Rgas * T)))%C. split.
    + rewrite <- Cmult_assoc, <- RtoC_mult, HA. ring.
    + apply HR. exact I.
Qed.


Lemma C2 : RtoC 2 = (RtoC 1 + RtoC 1)%C. Proof. rewrite <- RtoC_plus. f_equal. Qed.
Lemma C3 : RtoC 3 = (RtoC 1 + RtoC 1 + RtoC 1)%C. Proof. rewrite <- !RtoC_plus. f_equal. ring. Qed.
Lemma C4 : RtoC 4 = (RtoC 1 + RtoC 1 + RtoC 1 + RtoC 1)%C. Proof. rewrite <- !RtoC_plus. f_equal. ring. Qed.
Lemma C6 : RtoC 6 = (RtoC 1 + RtoC 1 + RtoC 1 + RtoC 1 + RtoC 1 + RtoC 1)%C. Proof. rewrite <- !RtoC_plus. f_equal. ring. Qed.
Ltac cring := rewrite ?C2, ?C3, ?C4, ?C6; ring.

(* volume_solutions_fast: the three returned numbers are all the solutions of the EOS with multiplicity, for any square and cube root functions.
   None is the ZeroDivisionError of x19 = 0. *)
Theorem C10_fast csqrt ccbrt T P b delta eps a V1 V2 V3 :
  P <> 0 -> (forall z, csqrt z * csqrt z = z)%C -> (forall z, ccbrt z * ccbrt z * ccbrt z = z)%C ->
  volume_solutions_fast csqrt ccbrt T P b delta eps a = Some (V1, V2, V3) ->
  forall z, (RtoC P * ((z - V1) * (z - V2) * (z - V3))
             = RtoC P * (z - RtoC b) * (z * z + RtoC delta * z + RtoC eps) - (RtoC (Rgas * T) * (z * z + RtoC delta * z + RtoC eps) - RtoC a * (z - RtoC b)))%C.
Proof.
  intros HP Hs Hc. unfold volume_solutions_fast. cbv zeta.
  set (s := 1 / P * (P * b + Rgas * T - P * delta)).
  set (tm1 := delta * (Rgas * T) - a + (delta * (P * b) - P * eps)).
  set (t0 := a * b + eps * (P * b) + eps * (Rgas * T)).
  set (x4 := P * b + Rgas * T - P * delta) in *. set (x0 := 1 / P) in *.
  set (t1 := 3 * tm1 + x0 * (- x4 * - x4)).
  set (t2 := 9 * x0 * - x4 * tm1 + 2 * (- x4 * - x4) * - x4 * (x0 * x0) - 27 * t0).
  set (A := - (27 / 2) * x0 * t0 - 9 / 2 * (x4 * (x0 * x0)) * tm1 - x4 * (x4 * (x0 * x0)) * s).
  set (D := x0 * x0 * (- 4 * x0 * t1 * t1 * t1 + t2 * t2)).
  set (y := ccbrt (RtoC A + RtoC (1 / 2) * csqrt (RtoC D))%C).
  destruct (Ceq_dec y (RtoC 0)) as [|Hy]; [discriminate|]. intros Q z. injection Q as <- <- <-.
  (* u v = w, u^3 + v^3 = 2 A *)
  set (w := x0 * t1). set (v := (RtoC w / y)%C).
  assert (EA : 4 * A * A = D + 4 * (w * w * w)). { unfold D, w. replace A with (1 / 2 * x0 * t2). field. unfold A, t2, s. field. }
  assert (Huv : (y * v = RtoC w)%C) by (unfold v; field; auto).
  assert (H3 : (y * y * y + v * v * v = RtoC (2 * A))%C).
  { assert (E3 : (y * y * y = RtoC A + RtoC (1 / 2) * csqrt (RtoC D))%C) by apply Hc.
    assert (Hy3 : (y * y * y <> RtoC 0)%C) by (repeat apply Cmult_neq_0; auto).
    assert (EQ : ((y * y * y) * (y * y * y) - RtoC (2 * A) * (y * y * y) + RtoC (w * w * w) = RtoC 0)%C).
    { rewrite E3. set (q := csqrt (RtoC D)) in *. assert (Eq : (q * q = RtoC D)%C) by apply Hs.
      transitivity (RtoC (1 / 4) * (q * q) - RtoC (A * A) + RtoC (w * w * w))%C.
      - replace (RtoC (1 / 4)) with (RtoC (1 / 2) * RtoC (1 / 2))%C by (rewrite <- RtoC_mult; f_equal; field).
        replace (RtoC (2 * A)) with (RtoC (1 / 2) * RtoC (4 * A))%C by (rewrite <- RtoC_mult; f_equal; field).
        replace (RtoC (4 * A)) with (RtoC A + RtoC A + RtoC A + RtoC A)%C by (rewrite <- !RtoC_plus; f_equal; ring).
        rewrite (RtoC_mult A A).
        assert (EH : (RtoC (1 / 2) + RtoC (1 / 2) = RtoC 1)%C) by (rewrite <- RtoC_plus; f_equal; field).
        transitivity (RtoC (1 / 2) * RtoC (1 / 2) * (q * q) + RtoC A * q * (RtoC (1 / 2) * (RtoC 1 - (RtoC (1 / 2) + RtoC (1 / 2))) * RtoC 1 + RtoC (1 / 2) * (RtoC 1 - (RtoC (1 / 2) + RtoC (1 / 2)))) + RtoC A * RtoC A * (RtoC 1 - (RtoC (1 / 2) + RtoC (1 / 2)) - (RtoC (1 / 2) + RtoC (1 / 2))) + RtoC (w * w * w))%C.
        + ring.
        + rewrite EH. ring.
      - rewrite Eq. rewrite <- !RtoC_mult, <- RtoC_minus, <- RtoC_plus. f_equal. lra. }
    apply (f_equal (fun c => (c / (y * y * y))%C)) in EQ.
    assert (Ev : (v * v * v = RtoC (w * w * w) / (y * y * y))%C). { unfold v. rewrite !RtoC_mult. field. auto. }
    rewrite Ev. transitivity (RtoC (2 * A) + ((y * y * y * (y * y * y) - RtoC (2 * A) * (y * y * y) + RtoC (w * w * w)) / (y * y * y)))%C.
    - field. auto.
    - rewrite EQ. field. auto. }
  set (J := (0, sqrt 3) : C).
  assert (HJ : (J * J = - RtoC 3)%C). { unfold J, Cmult, Copp, RtoC. simpl. f_equal; [|ring]. rewrite sqrt_sqrt by lra. ring. }
  replace (1, sqrt 3) with (RtoC 1 + J)%C by (unfold J, Cplus, RtoC; simpl; f_equal; ring).
  replace (1, - sqrt 3) with (RtoC 1 - J)%C by (unfold J, Cminus, Cplus, Copp, RtoC; simpl; f_equal; ring).
  replace (1 / 4, - (sqrt 3 / 4)) with (RtoC (1 / 4) * (RtoC 1 - J))%C by (unfold J, Cmult, Cminus, Cplus, Copp, RtoC; simpl; f_equal; field).
  replace (1 / 4, sqrt 3 / 4) with (RtoC (1 / 4) * (RtoC 1 + J))%C by (unfold J, Cmult, Cminus, Cplus, Copp, RtoC; simpl; f_equal; field).
  clearbody J.
  assert (E20 : (RtoC x0 * (RtoC (- t1) / y) = - v)%C). { unfold v, w. rewrite RtoC_mult, RtoC_opp. field. auto. }
  assert (EX : (RtoC (4 * x0) * (RtoC (- t1) / y) = - (RtoC 4 * v))%C). { rewrite RtoC_mult, <- Cmult_assoc, E20. ring. }
  rewrite EX, E20.
  assert (E4 : (RtoC 4 * RtoC (1 / 4) = RtoC 1)%C) by (rewrite <- RtoC_mult; f_equal; field).
  assert (E6 : (RtoC (1 / 6) * RtoC 6 = RtoC 1)%C) by (rewrite <- RtoC_mult; f_equal; field).
  assert (E33 : (RtoC (1 / 3) = RtoC (1 / 6) * RtoC 2)%C) by (rewrite <- RtoC_mult; f_equal; field).
  replace (RtoC (s + s)) with (RtoC 2 * RtoC s)%C by (rewrite <- RtoC_mult; f_equal; ring).
  (* the symmetric functions *)
  set (h := RtoC (1 / 6)) in *. rewrite E33.
  set (W1 := ((- v - y + RtoC s) * (h * RtoC 2))%C).
  set (W2 := ((y * (RtoC 1 + J) + RtoC 2 * RtoC s - - (RtoC 4 * v) * (RtoC (1 / 4) * (RtoC 1 - J))) * h)%C).
  set (W3 := ((y * (RtoC 1 - J) + RtoC 2 * RtoC s - - (RtoC 4 * v) * (RtoC (1 / 4) * (RtoC 1 + J))) * h)%C).
  assert (S23 : (W2 + W3 = h * RtoC 2 * (RtoC 2 * RtoC s + y + v))%C).
  { unfold W2, W3. transitivity (h * RtoC 2 * (RtoC 2 * RtoC s + y + (RtoC 4 * RtoC (1 / 4)) * v))%C. cring. rewrite E4. cring. }
  assert (P23 : (W2 * W3 = h * h * ((RtoC 2 * RtoC s + y + v) * (RtoC 2 * RtoC s + y + v) + RtoC 3 * ((y - v) * (y - v))))%C).
  { unfold W2, W3. transitivity (h * h * ((RtoC 2 * RtoC s + y + (RtoC 4 * RtoC (1 / 4)) * v) * (RtoC 2 * RtoC s + y + (RtoC 4 * RtoC (1 / 4)) * v) - (J * J) * ((y - (RtoC 4 * RtoC (1 / 4)) * v) * (y - (RtoC 4 * RtoC (1 / 4)) * v))))%C. cring.
    rewrite E4, HJ. cring. }
  transitivity (RtoC P * ((z - W1) * (z * z - (W2 + W3) * z + W2 * W3)))%C. { cring. }
  rewrite S23, P23. unfold W1.
  (* expand in z, u v = w, u^3 + v^3 = 2A *)
  transitivity (RtoC P * (z * z * z - (h * RtoC 6) * RtoC s * (z * z) + (h * RtoC 6) * (h * RtoC 2) * (RtoC s * RtoC s - y * v) * z
     - (h * RtoC 2) * (h * RtoC 2) * (h * RtoC 2) * (RtoC s * RtoC s * RtoC s - RtoC 3 * RtoC s * (y * v) - (y * y * y + v * v * v))))%C.
  { cring. }
  rewrite H3, Huv, E6.
  assert (E62 : (h * RtoC 2 = RtoC (1 / 3))%C) by (unfold h; rewrite <- RtoC_mult; f_equal; field). rewrite E62.
  assert (Es : P * s = x4) by (unfold s, x0; field; auto).
  assert (Ew : P * (1 / 3 * (s * s - w)) = - tm1). { unfold w, t1. replace s with (x0 * x4) by reflexivity. unfold x0. field. auto. }
  assert (Ep : P * (1 / 3 * (1 / 3) * (1 / 3) * (s * s * s - 3 * s * w - 2 * A)) = t0).
  { unfold A, w, t1. replace s with (x0 * x4) by reflexivity. unfold x0. field. auto. }
  transitivity (RtoC P * (z * z * z) - RtoC (P * s) * (z * z) + RtoC (P * (1 / 3 * (s * s - w))) * z - RtoC (P * (1 / 3 * (1 / 3) * (1 / 3) * (s * s * s - 3 * s * w - 2 * A))))%C.
  { repeat (rewrite RtoC_mult || rewrite RtoC_minus). cring. }
  rewrite Es, Ew, Ep. unfold x4, tm1, t0. repeat (rewrite RtoC_mult || rewrite RtoC_minus || rewrite RtoC_plus || rewrite RtoC_opp). cring.
Qed.

Definition p2r (r : R * R * R) := let (p, _) := r in let (_, y) := p in y.
Definition p3r (r : R * R * R) := let (_, z) := r in z.

(* ---- iterative solvers *)
(* the three Halley quantities are the EOS residual and its volume derivatives *)
Theorem C10_halley_terms V T P b delta eps a : regular_V b delta eps V ->
  let '(f, f', f'') := halley_terms V T P b delta eps a in
  f = P_cubic (fun _ => a) b delta eps T V - P /\
  is_derive (fun V => P_cubic (fun _ => a) b delta eps T V) V f' /\
  is_derive (fun V => Derive (fun V => P_cubic (fun _ => a) b delta eps T V) V) V f''.
Proof.
  intros HV. 
  assert (DV : forall V, regular_V b delta eps V -> is_derive (fun V => P_cubic (fun _ => a) b delta eps T V) V (p2r (halley_terms V T P b delta eps a))).
  { intros v [H1 H2]. unfold P_cubic, p2r, halley_terms. cbv zeta. assert (v - b <> 0) by (intro Q; apply H1; lra).
    assert (v * (v + delta) + eps <> 0) by (intro Q; apply H2; rewrite <- Q; ring).
    auto_derive. { splits; auto. } field. splits; auto. }
  assert (DD : is_derive (fun V => p2r (halley_terms V T P b delta eps a)) V (p3r (halley_terms V T P b delta eps a))).
  { destruct HV as [H1 H2]. unfold p2r, p3r, halley_terms. cbv zeta. assert (V - b <> 0) by (intro Q; apply H1; lra).
    assert (V * (V + delta) + eps <> 0) by (intro Q; apply H2; rewrite <- Q; ring).
    auto_derive. { splits; auto. } field. splits; auto. }
  assert (DV1 := DV V HV).
  destruct (halley_terms V T P b delta eps a) as [[f f'] f''] eqn:E. simpl in DV1, DD. splits; auto.
  - destruct HV as [H1 H2]. unfold halley_terms in E. cbv zeta in E. injection E as E1 _ _. rewrite <- E1. unfold P_cubic.
    assert (V - b <> 0) by (intro Q; apply H1; lra). assert (V * (V + delta) + eps <> 0) by (intro Q; apply H2; rewrite <- Q; ring). field. splits; auto.
  - apply (is_derive_ext_loc (fun V => p2r (halley_terms V T P b delta eps a))); auto.
    assert (L1 : locally V (fun v => v <> b)). { apply (open_neq b V). apply HV. }
    assert (L2 : locally V (fun v => v ^ 2 + delta * v + eps <> 0)).
    { assert (CC : continuous (fun v => v ^ 2 + delta * v + eps) V) by (apply @ex_derive_continuous; auto_derive; auto). exact (CC (fun y => y <> 0) (open_neq 0 _ (proj2 HV))). }
    eapply filter_imp; [|exact (filter_and _ _ L1 L2)]. intros v Hv. symmetry. apply is_derive_unique. apply DV. exact Hv.
Qed.

(* an update stalls exactly at solutions of the EOS *)
Theorem C10_newton_stalls V T P b delta eps a : regular_V b delta eps V ->
  Derive (fun V => P_cubic (fun _ => a) b delta eps T V) V <> 0 ->
  (newton_step V T P b delta eps a = V <-> P_cubic (fun _ => a) b delta eps T V = P).
Proof.
  intros HV HD. pose proof (C10_halley_terms V T P b delta eps a HV) as H. unfold halley_terms in H. cbv zeta in H. destruct H as [H1 [H2 _]].
  apply is_derive_unique in H2. apply (eq_ind _ (fun x => x <> 0)) with (2 := H2) in HD. cbv beta in HD. destruct HV as [K1 K2].
  assert (V - b <> 0) by (intro Q; apply K1; lra). assert (V * (V + delta) + eps <> 0) by (intro Q; apply K2; rewrite <- Q; ring).
  unfold newton_step. cbv zeta.
  match goal with |- context [?n / ?d] => match d with context [V + V + delta] => set (den := d) end end.
  assert (HN : den <> 0). { intro Q. apply HD. rewrite <- Q. unfold den. ring. }
  clearbody den.
  assert (E : P_cubic (fun _ => a) b delta eps T V - P = Rgas * T * (1 / (V - b)) - a * (1 / (V * (V + delta) + eps)) - P) by (rewrite <- H1; ring).
  rewrite <- E. split; intros Q.
  - assert (Z : (P_cubic (fun _ => a) b delta eps T V - P) / den = 0) by lra. apply Rmult_integral in Z. destruct Z as [Z|Z]; [lra|].
    exfalso. revert Z. apply Rinv_neq_0_compat. auto.
  - rewrite Q. unfold Rdiv. ring.
Qed.
Lemma polish_S n j fo f1 V T P b delta eps a : polish_loop (S n) j fo f1 V T P b delta eps a =
    if Reqb (V * (V + delta) + eps) 0 then V
    else
      let '(fval, fder, fder2) := halley_terms V T P b delta eps a in
      if Reqb fder 0 then V
      else
        let fder_inv := 1 / fder in
        let step := fval * fder_inv in
        let rel_err := Rabs (fval * (1 / P)) in
        let step_den := 1 - 1 / 2 * step * fder2 * fder_inv in
        if Reqb step_den 0 then polish_loop n (S j) fo f1 V T P b delta eps a
        else
          let V := V - step / step_den in
          if (Rltb rel_err (3 / 1000000000000000) || Reqb f1 fval || Reqb fval fo || (Nat.ltb 10 j && Rltb rel_err (1 / 1000000000000)))%bool then V
          else polish_loop n (S j) f1 fval V T P b delta eps a.
Proof. reflexivity. Qed.
(* the Halley polishing leaves a solution of the EOS where it is *)
Theorem C10_polish_fixes_solutions V T P b delta eps a : regular_V b delta eps V -> P_cubic (fun _ => a) b delta eps T V = P ->
  volume_solution_polish V T P b delta eps a = V.
Proof.
  intros HV HE. pose proof (C10_halley_terms V T P b delta eps a HV) as H. unfold volume_solution_polish.
  enough (Q : forall n j f1 f2, polish_loop n j f1 f2 V T P b delta eps a = V) by apply Q. intros n. induction n; intros j f1 f2; [reflexivity|rewrite polish_S].
  destruct (Reqb _ 0); [reflexivity|]. destruct (halley_terms V T P b delta eps a) as [[f f'] f'']. destruct H as [H _].
  assert (H0 : f = 0) by lra. rewrite H0. destruct (Reqb f' 0); [reflexivity|].
  cbv zeta. match goal with |- context [Reqb ?u 0] => destruct (Reqb u 0) end; [apply IHn|]. match goal with |- context [V - ?u / ?w] => replace (V - u / w) with V by (unfold Rdiv; ring) end.
  match goal with |- context [if ?c then _ else _] => destruct c end; [reflexivity|apply IHn].
Qed.

(* ---- the real closed form *)
Lemma Rcbrt_cube x : Rcbrt x * Rcbrt x * Rcbrt x = x.
Proof.
  unfold Rcbrt. assert (P3 : forall y, 0 < y -> Rpower y (1 / 3) * Rpower y (1 / 3) * Rpower y (1 / 3) = y).
  { intros y Hy. rewrite <- !Rpower_plus. replace (1 / 3 + 1 / 3 + 1 / 3) with 1 by field. apply Rpower_1. auto. }
  destruct (Rle_dec 0 x).
  - destruct (Req_EM_T x 0). subst; ring. apply P3. lra.
  - replace (_ * _ * _) with (- (Rpower (- x) (1 / 3) * Rpower (- x) (1 / 3) * Rpower (- x) (1 / 3))) by ring. rewrite P3 by lra. ring.
Qed.
Lemma cube_inj x y : x * x * x = y * y * y -> x = y.
Proof.
  intros H. assert (E : (x - y) * (x * x + x * y + y * y) = 0) by (ring_simplify; lra). apply Rmult_integral in E. destruct E as [E|E]; [lra|].
  assert (E2 : (x + y / 2) * (x + y / 2) + 3 / 4 * (y * y) = 0) by lra.
  pose proof (Rle_0_sqr (x + y / 2)) as Q1. pose proof (Rle_0_sqr y) as Q2. unfold Rsqr in *.
  assert (y * y = 0) by lra. assert (y = 0) by (apply Rmult_integral in H0; tauto). subst y.
  assert (x * x = 0) by lra. apply Rmult_integral in H1. tauto.
Qed.
Lemma cardano_real b c d g : let f := c - b * b * (1 / 3) in let h := 1 / 4 * (g * g) + f * f * f * (1 / 27) in 0 <= h ->
  let x := Rcbrt (- (1 / 2) * g + sqrt h) + Rcbrt (- (1 / 2) * g - sqrt h) - b * (1 / 3) in
  x ^ 3 + b * x ^ 2 + c * x + d = d + (2 * b ^ 3 - 9 * b * c) / 27 - g.
Proof.
  intros f h Hh. cbv zeta. set (S := Rcbrt (- (1 / 2) * g + sqrt h)). set (U := Rcbrt (- (1 / 2) * g - sqrt h)).
  assert (HS : S * S * S = - (1 / 2) * g + sqrt h) by apply Rcbrt_cube. assert (HU : U * U * U = - (1 / 2) * g - sqrt h) by apply Rcbrt_cube.
  assert (HSU : S * U = - f / 3).
  { apply cube_inj. transitivity ((S * S * S) * (U * U * U)); [ring|]. rewrite HS, HU.
    transitivity (1 / 4 * (g * g) - sqrt h * sqrt h). field. rewrite sqrt_sqrt by auto. unfold h. field. }
  clearbody S U. transitivity ((S * S * S) + (U * U * U) + 3 * (S * U) * (S + U) + (c - b * b * (1 / 3)) * (S + U) + (2 * b ^ 3 / 27 - b * c / 3 + d)). field.
  rewrite HS, HU, HSU. unfold f. field.
Qed.
Theorem C10_high_alpha b c d : 
  0 <= (2 * b ^ 3 - 9 * b * c + 27 * d) ^ 2 / 2916 + (c - b ^ 2 / 3) ^ 3 / 27 ->
  high_alpha_x1 b c d ^ 3 + b * high_alpha_x1 b c d ^ 2 + c * high_alpha_x1 b c d + d = 0.
Proof.
  intros H. unfold high_alpha_x1. cbv zeta. set (g := (2 * (b * b * b) - 9 * b * c + 27 * d) * (1 / 27)).
  replace (- (1 / 2 * g)) with (- (1 / 2) * g) by ring.
  rewrite (cardano_real b c d g).
  - unfold g. field.
  - unfold g. match goal with |- 0 <= ?e => replace e with ((2 * b ^ 3 - 9 * b * c + 27 * d) ^ 2 / 2916 + (c - b ^ 2 / 3) ^ 3 / 27) by field end. exact H.
Qed.

(* volume_solutions_doubledouble_float uses +9bc where -9bc is needed: whatever it returns in its one-root branch misses the EOS
   by a fixed amount, so it is right only if b'c' = 0 *)
Theorem C10_doubledouble_float_defect T P b delta eps a V : T <> 0 -> P <> 0 ->
  volume_solutions_doubledouble_float T P b delta eps a = Some V ->
  let '(b', c', d') := cubic_coeffs T P b delta eps a in
  let Z := P * V / (Rgas * T) in Z ^ 3 + b' * Z ^ 2 + c' * Z + d' = - (2 / 3) * b' * c'.
Proof.
  intros HT HP H. pose proof Rgas_pos as HR. assert (HR' : Rgas <> 0) by lra.
  unfold volume_solutions_doubledouble_float in H. unfold cubic_coeffs. cbv zeta in *.
  set (k := P * (/ Rgas / T)) in *. set (bb := delta * k - b * k - 1) in *.
  set (c := a * k * (/ Rgas / T) + eps * k * k - delta * k * (b * k + 1)) in *.
  set (d := - (eps * k * k * (b * k + 1) + a * k * (/ Rgas / T) * (b * k))) in *.
  set (g := ((bb * bb + bb * bb) * bb + -3 * bb * (-3 * c) + 27 * d) / 27) in *.
  match type of H with (if Rltb 0 ?h then _ else _) = _ => destruct (Rltb_spec 0 h) as [Hh|]; [|discriminate] end.
  injection H as H. 
  assert (Hk : P * V / (Rgas * T) = V * k) by (unfold k; field; auto). rewrite Hk.
  assert (Hk0 : k <> 0). { unfold k. repeat apply Rmult_integral_contrapositive_currified; auto; apply Rinv_neq_0_compat; auto. }
  assert (EZ : V * k = Rcbrt (- (1 / 2) * g + sqrt (1 / 4 * (g * g) + (c - bb * bb * (1 / 3)) * (c - bb * bb * (1 / 3)) * (c - bb * bb * (1 / 3)) * (1 / 27)))
     + Rcbrt (- (1 / 2) * g - sqrt (1 / 4 * (g * g) + (c - bb * bb * (1 / 3)) * (c - bb * bb * (1 / 3)) * (c - bb * bb * (1 / 3)) * (1 / 27))) - bb * (1 / 3)).
  { rewrite <- H. match type of Hh with 0 < ?e => replace (1 / 4 * (g * g) + (c - bb * bb * (1 / 3)) * (c - bb * bb * (1 / 3)) * (c - bb * bb * (1 / 3)) * (1 / 27)) with e by field end.
    unfold Rminus. match goal with |- ?x * (1 / k) * k = _ => transitivity x; [field; auto|] end. ring. }
  rewrite EZ. rewrite (cardano_real bb c d g).
  - unfold g. field.
  - apply Rlt_le. match type of Hh with 0 < ?e => match goal with |- 0 < ?u => replace u with e by field end end. exact Hh.
Qed.
Theorem C10_doubledouble_float_refuted : exists T P b delta eps a V, 0 < T /\ 0 < P /\ 0 < b /\ 0 < a /\
  volume_solutions_doubledouble_float T P b delta eps a = Some V /\ ~ (regular_V b delta eps V /\ P_cubic (fun _ => a) b delta eps T V = P).
Proof.
  pose proof Rgas_pos as HR. assert (HR' : Rgas <> 0) by lra.
  exists (/ Rgas), 1, 1, 0, 0, 5.
  assert (HT : 0 < / Rgas) by (apply Rinv_0_lt_compat; auto).
  assert (E : exists V, volume_solutions_doubledouble_float (/ Rgas) 1 1 0 0 5 = Some V).
  { unfold volume_solutions_doubledouble_float. cbv zeta. replace (/ Rgas / / Rgas) with 1 by (field; auto).
    destruct (Rltb_spec 0 (1 / 4 * (((((0 * (1 * 1) - 1 * (1 * 1) - 1) * (0 * (1 * 1) - 1 * (1 * 1) - 1) + (0 * (1 * 1) - 1 * (1 * 1) - 1) * (0 * (1 * 1) - 1 * (1 * 1) - 1)) * (0 * (1 * 1) - 1 * (1 * 1) - 1) + -3 * (0 * (1 * 1) - 1 * (1 * 1) - 1) * (-3 * (5 * (1 * 1) * 1 + 0 * (1 * 1) * (1 * 1) - 0 * (1 * 1) * (1 * (1 * 1) + 1))) + 27 * - (0 * (1 * 1) * (1 * 1) * (1 * (1 * 1) + 1) + 5 * (1 * 1) * 1 * (1 * (1 * 1)))) / 27) * ((((0 * (1 * 1) - 1 * (1 * 1) - 1) * (0 * (1 * 1) - 1 * (1 * 1) - 1) + (0 * (1 * 1) - 1 * (1 * 1) - 1) * (0 * (1 * 1) - 1 * (1 * 1) - 1)) * (0 * (1 * 1) - 1 * (1 * 1) - 1) + -3 * (0 * (1 * 1) - 1 * (1 * 1) - 1) * (-3 * (5 * (1 * 1) * 1 + 0 * (1 * 1) * (1 * 1) - 0 * (1 * 1) * (1 * (1 * 1) + 1))) + 27 * - (0 * (1 * 1) * (1 * 1) * (1 * (1 * 1) + 1) + 5 * (1 * 1) * 1 * (1 * (1 * 1)))) / 27)) + (5 * (1 * 1) * 1 + 0 * (1 * 1) * (1 * 1) - 0 * (1 * 1) * (1 * (1 * 1) + 1) - 1 / 3 * ((0 * (1 * 1) - 1 * (1 * 1) - 1) * (0 * (1 * 1) - 1 * (1 * 1) - 1))) * ((5 * (1 * 1) * 1 + 0 * (1 * 1) * (1 * 1) - 0 * (1 * 1) * (1 * (1 * 1) + 1) - 1 / 3 * ((0 * (1 * 1) - 1 * (1 * 1) - 1) * (0 * (1 * 1) - 1 * (1 * 1) - 1))) * (5 * (1 * 1) * 1 + 0 * (1 * 1) * (1 * 1) - 0 * (1 * 1) * (1 * (1 * 1) + 1) - 1 / 3 * ((0 * (1 * 1) - 1 * (1 * 1) - 1) * (0 * (1 * 1) - 1 * (1 * 1) - 1)))) / 27)) as [|N].
    - eexists. reflexivity.
    - exfalso. apply N. lra. }
  destruct E as [V HV]. exists V. splits; auto; try lra. intros [HG HE].
  pose proof (C10_doubledouble_float_defect (/ Rgas) 1 1 0 0 5 V) as D. pose proof (C10_cubic_iff (/ Rgas) 1 1 0 0 5 V) as I.
  assert (HT0 : / Rgas <> 0) by lra. specialize (D HT0 ltac:(lra) HV). specialize (I HT0 ltac:(lra) HG).
  destruct (cubic_coeffs (/ Rgas) 1 1 0 0 5) as [[b' c'] d'] eqn:EC. cbv zeta in *. apply I in HE. rewrite D in HE.
  unfold cubic_coeffs in EC. cbv zeta in EC. replace (/ Rgas / / Rgas) with 1 in EC by (field; auto). injection EC as E1 E2 E3. subst b' c'. lra.
Qed.

Theorem C10_ideal T P : P <> 0 -> T <> 0 -> P_cubic (fun _ => 0) 0 0 0 T (volume_solutions_ideal T P) = P.
Proof.
  intros. pose proof Rgas_pos. unfold P_cubic, volume_solutions_ideal.
  unfold Rdiv. rewrite Rmult_0_l. field. splits; auto; lra.
Qed.

Example C10_hypotheses_met : regular_V 1 0 0 2 /\ P_cubic (fun _ => 4 * (Rgas - 1)) 1 0 0 1 2 = 1.
Proof. unfold regular_V, P_cubic. splits; try lra. Qed.
