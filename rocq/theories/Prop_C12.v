(* C12: GCEOS.discriminant. *)
From Coq Require Import Reals Lra List.
From Coquelicot Require Import Coquelicot.
From Verif Require Import Base BaseFacts Spec_eos Gen_eoscrit Model_volume Prop_C10.
Open Scope R_scope.

(* ---- specification: the EOS cubic in Z = PV/(RT), Z^3 + b2 Z^2 + b1 Z + b0 (docstring of GCEOS.discriminant), and the
   discriminant of a monic cubic *)
Definition Zcubic (T P b delta eps a Z : R) : R :=
  let B := b * P / (Rgas * T) in let D := delta * P / (Rgas * T) in let Th := a * P / (Rgas * T) ^ 2 in let Ep := eps * (P / (Rgas * T)) ^ 2 in
  Z ^ 3 + (D - B - 1) * Z ^ 2 + (Th + Ep - D * (B + 1)) * Z - (Ep * (B + 1) + Th * B).
Definition cubic_disc (p q r : R) : R := p ^ 2 * q ^ 2 - 4 * q ^ 3 - 4 * p ^ 3 * r - 27 * r ^ 2 + 18 * p * q * r.
Definition Zdisc (T P b delta eps a : R) : R :=
  let B := b * P / (Rgas * T) in let D := delta * P / (Rgas * T) in let Th := a * P / (Rgas * T) ^ 2 in let Ep := eps * (P / (Rgas * T)) ^ 2 in
  cubic_disc (D - B - 1) (Th + Ep - D * (B + 1)) (- (Ep * (B + 1) + Th * B)).

(* the cubic is the EOS: its roots are the compressibility factors of the EOS volumes *)
Theorem C12_Zcubic_is_EOS T P b delta eps a V : T <> 0 -> P <> 0 -> regular_V b delta eps V ->
  (P_cubic (fun _ => a) b delta eps T V = P <-> Zcubic T P b delta eps a (P * V / (Rgas * T)) = 0).
Proof.
  intros HT HP HV. pose proof (C10_cubic_iff T P b delta eps a V HT HP HV) as H. unfold cubic_coeffs in H. cbv zeta in H. rewrite <- H. clear H.
  pose proof Rgas_pos as HR. assert (HR' : Rgas <> 0) by lra.
  match goal with |- ?x = 0 <-> ?y = 0 => replace y with x; [tauto|] end. unfold Zcubic. cbv zeta. field. auto.
Qed.
(* called without T (or with the object's own temperature) it is the discriminant *)
Theorem C12_value T P b delta eps a : T <> 0 -> eos_discriminant T P a T b eps delta = Zdisc T P b delta eps a.
Proof.
  intros HT. pose proof Rgas_pos as HR. assert (HR' : Rgas <> 0) by lra. unfold eos_discriminant, Zdisc, cubic_disc. cbv zeta. field. auto.
Qed.
(* for another requested temperature, it mixes a_alpha(T) with the object's own temperature in RT *)
Theorem C12_other_T T T_self P b delta eps a : T_self <> 0 -> eos_discriminant T P a T_self b eps delta = Zdisc T_self P b delta eps a.
Proof. intros HT. rewrite <- C12_value by auto. reflexivity. Qed.
Theorem C12_requested_T_refuted : exists T T_self P b delta eps a, 0 < T /\ 0 < T_self /\ 0 < P /\ 0 < b /\ 0 < a /\
  0 < eos_discriminant T P a T_self b eps delta /\ Zdisc T P b delta eps a < 0.
Proof.
  pose proof Rgas_pos as HR. assert (HR' : Rgas <> 0) by lra. assert (HI : 0 < / Rgas) by (apply Rinv_0_lt_compat; auto).
  exists (1 / Rgas), (1 / 4 / Rgas), (1 / 100), 1, 0, 0, 1. splits; try lra; try (unfold Rdiv; nra).
  - rewrite C12_other_T by (unfold Rdiv; nra). unfold Zdisc, cubic_disc. cbv zeta.
    replace (Rgas * (1 / 4 / Rgas)) with (1 / 4) by (field; auto). lra.
  - unfold Zdisc, cubic_disc. cbv zeta. replace (Rgas * (1 / Rgas)) with 1 by (field; auto). lra.
Qed.

(* ---- meaning of the sign, for every monic real cubic *)
Lemma cubic_root p q r : exists x, x ^ 3 + p * x ^ 2 + q * x + r = 0.
Proof.
  set (f := fun x => x ^ 3 + p * x ^ 2 + q * x + r). set (M := 1 + Rabs p + Rabs q + Rabs r).
  pose proof (Rabs_pos p). pose proof (Rabs_pos q). pose proof (Rabs_pos r).
  assert (HM : 1 <= M) by (unfold M; lra). 
  assert (B : forall s u, Rabs s <= u -> - u <= s <= u) by (intros s u Hs; apply Rabs_le_between; auto).
  pose proof (B p _ (Rle_refl _)) as Bp. pose proof (B q _ (Rle_refl _)) as Bq. pose proof (B r _ (Rle_refl _)) as Br.
  assert (K : M ^ 3 = (1 + Rabs p + Rabs q + Rabs r) * M ^ 2) by (unfold M; ring).
  assert (K2 : M <= M ^ 2) by nra.
  assert (Hlo : f (- M) < 0).
  { unfold f. replace ((- M) ^ 3) with (- M ^ 3) by ring. replace ((- M) ^ 2) with (M ^ 2) by ring. rewrite K. 
    assert (p * M ^ 2 <= Rabs p * M ^ 2) by nra. assert (q * (- M) <= Rabs q * M ^ 2) by nra. assert (r <= Rabs r * M ^ 2) by nra. nra. }
  assert (Hhi : 0 < f M).
  { unfold f. rewrite K. assert (- Rabs p * M ^ 2 <= p * M ^ 2) by nra. assert (- Rabs q * M ^ 2 <= q * M) by nra. assert (- Rabs r * M ^ 2 <= r) by nra. nra. }
  assert (HC : continuity f). { unfold f. intros x. apply derivable_continuous_pt. apply ex_derive_Reals_0. auto_derive. auto. }
  destruct (IVT f (- M) M HC ltac:(lra) Hlo Hhi) as [z [_ Hz]]. exists z. exact Hz.
Qed.
Lemma cubic_factor p q r x0 : x0 ^ 3 + p * x0 ^ 2 + q * x0 + r = 0 ->
  let u := p + x0 in let v := q + x0 * u in
  (forall x, x ^ 3 + p * x ^ 2 + q * x + r = (x - x0) * (x ^ 2 + u * x + v)) /\ cubic_disc p q r = (u ^ 2 - 4 * v) * (x0 ^ 2 + u * x0 + v) ^ 2.
Proof.
  intros H u v. assert (r = - (x0 * v)) by (unfold v, u; lra). subst r. split; [intros x; unfold v, u; ring|]. unfold cubic_disc, v, u. ring.
Qed.
Theorem C12_three_roots p q r : 0 < cubic_disc p q r ->
  exists x1 x2 x3, x1 <> x2 /\ x1 <> x3 /\ x2 <> x3 /\ forall x, x ^ 3 + p * x ^ 2 + q * x + r = 0 <-> x = x1 \/ x = x2 \/ x = x3.
Proof.
  intros HD. destruct (cubic_root p q r) as [x0 H0]. destruct (cubic_factor p q r x0 H0) as [HF HD']. cbv zeta in *.
  set (u := p + x0) in *. set (v := q + x0 * u) in *. rewrite HD' in HD.
  assert (Hq : x0 ^ 2 + u * x0 + v <> 0). { intro Q. rewrite Q in HD. lra. }
  assert (Hd : 0 < u ^ 2 - 4 * v). { assert (0 < (x0 ^ 2 + u * x0 + v) ^ 2) by (apply pow2_gt_0; auto). nra. }
  set (s := sqrt (u ^ 2 - 4 * v)). assert (Hs : s * s = u ^ 2 - 4 * v) by (apply sqrt_sqrt; lra).
  assert (Hs0 : 0 < s) by (apply sqrt_lt_R0; auto).
  exists x0, ((- u + s) / 2), ((- u - s) / 2). 
  assert (Q : forall x, x ^ 2 + u * x + v = (x - (- u + s) / 2) * (x - (- u - s) / 2)). { intros x. transitivity (x ^ 2 + u * x + (u ^ 2 - s * s) / 4). rewrite Hs. field. field. }
  rewrite Q in Hq. splits.
  - intro E. apply Hq. rewrite E. ring.
  - intro E. apply Hq. rewrite E. ring.
  - intro E. lra.
  - intros x. rewrite HF, Q. split.
    + intros H. apply Rmult_integral in H. destruct H as [H|H]; [left; lra|]. apply Rmult_integral in H. destruct H as [H|H]; [right; left; lra|right; right; lra].
    + intros [E|[E|E]]; subst x; ring.
Qed.
Theorem C12_one_root p q r : cubic_disc p q r < 0 -> exists x1, forall x, x ^ 3 + p * x ^ 2 + q * x + r = 0 <-> x = x1.
Proof.
  intros HD. destruct (cubic_root p q r) as [x0 H0]. destruct (cubic_factor p q r x0 H0) as [HF HD']. cbv zeta in *.
  set (u := p + x0) in *. set (v := q + x0 * u) in *. rewrite HD' in HD. exists x0. intros x. rewrite HF. split; [|intros ->; ring].
  intros H. apply Rmult_integral in H. destruct H as [H|H]; [lra|exfalso].
  assert (0 <= (x0 ^ 2 + u * x0 + v) ^ 2) by apply pow2_ge_0. assert (u ^ 2 - 4 * v < 0) by nra. 
  assert (0 <= (x + u / 2) ^ 2) by apply pow2_ge_0. nra.
Qed.
(* zero discriminant: a repeated root *)
Theorem C12_double_root p q r : cubic_disc p q r = 0 -> exists x1 x2, forall x, x ^ 3 + p * x ^ 2 + q * x + r = (x - x1) ^ 2 * (x - x2).
Proof.
  intros HD. destruct (cubic_root p q r) as [x0 H0]. destruct (cubic_factor p q r x0 H0) as [HF HD']. cbv zeta in *.
  set (u := p + x0) in *. set (v := q + x0 * u) in *. rewrite HD' in HD. apply Rmult_integral in HD. destruct HD as [HD|HD].
  - exists (- u / 2), x0. intros x. rewrite HF. replace v with (u ^ 2 / 4) by lra. field.
  - assert (x0 ^ 2 + u * x0 + v = 0). { rewrite <- Rsqr_pow2 in HD. apply Rsqr_0_uniq in HD. exact HD. }
    exists x0, (- u - x0). intros x. rewrite HF. replace v with (- (x0 ^ 2 + u * x0)) by lra. ring.
Qed.
(* the code's value, at the object's temperature, decides the number of real compressibility factors *)
Theorem C12_discriminant_sign T P b delta eps a : T <> 0 ->
  (0 < eos_discriminant T P a T b eps delta ->
     exists Z1 Z2 Z3, Z1 <> Z2 /\ Z1 <> Z3 /\ Z2 <> Z3 /\ forall Z, Zcubic T P b delta eps a Z = 0 <-> Z = Z1 \/ Z = Z2 \/ Z = Z3) /\
  (eos_discriminant T P a T b eps delta < 0 -> exists Z1, forall Z, Zcubic T P b delta eps a Z = 0 <-> Z = Z1) /\
  (eos_discriminant T P a T b eps delta = 0 -> exists Z1 Z2, forall Z, Zcubic T P b delta eps a Z = (Z - Z1) ^ 2 * (Z - Z2)).
Proof.
  intros HT. rewrite C12_value by auto. unfold Zdisc, Zcubic. cbv zeta. splits; intros H.
  - apply C12_three_roots in H. exact H.
  - apply C12_one_root in H. exact H.
  - apply C12_double_root in H. exact H.
Qed.
Example C12_hypotheses_met : regular_V 1 0 0 2 /\ 0 < cubic_disc (-6) 11 (-6) /\ cubic_disc 0 1 0 < 0.
Proof. unfold regular_V, cubic_disc. splits; lra. Qed.
