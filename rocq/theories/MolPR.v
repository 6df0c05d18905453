(* C69, Peng-Robinson mixtures: the lists PRMIX passes to the derivatives at fixed total volume meet the hypotheses of C69, so the
   answers are the derivatives; the third derivative of the pressure is wrong on a mixture of two components. *)
From Coq Require Import Reals Lra Lia Arith FunctionalExtensionality.
From Coquelicot Require Import Coquelicot.
From Verif Require Import Base BaseFacts Spec_mix MixFacts Gen_mix Gen_eosmix MixDeriv MixParams Prop_C16 Gen_eosvt Spec_eosvt MolDeriv MolDep MolLoc MolMix Prop_C69.
Open Scope R_scope.

(* parameters of a Peng-Robinson mixture for the amounts n: b is the mole fraction average, delta = 2 b, epsilon = - b b,
   a alpha is the quadratic mixing rule with the matrix M *)
Definition pr_b (N : nat) (bs : nat -> R) (n : nat -> R) : R := lin_mix N (fractions N n) bs.
Definition pr_d (N : nat) (bs : nat -> R) (n : nat -> R) : R := 2 * lin_mix N (fractions N n) bs.
Definition pr_e (N : nat) (bs : nat -> R) (n : nat -> R) : R := - lin_mix N (fractions N n) bs * lin_mix N (fractions N n) bs.
Definition pr_a (N : nat) (M : nat -> nat -> R) (n : nat -> R) : R := quad_mix N (fractions N n) M.

Lemma fractions_1 N zs : rsum N zs = 1 -> fractions N zs = zs.
Proof. intros E. apply functional_extensionality; intro k. unfold fractions. rewrite E. field. Qed.
Section PR.
Variables (N : nat) (zs bs : nat -> R) (M : nat -> nat -> R).
Hypotheses (E : rsum N zs = 1) (HM : sym N M).
Let b := lin_mix N zs bs.
Let A := quad_mix N zs M.
Let rows := GCEOSMIX_a_alpha_j_rows zs N M.
Lemma pr_db : derivs3 N (pr_b N bs) zs (GCEOSMIX_db_dns b bs N) (GCEOSMIX_d2b_dninjs b bs) (GCEOSMIX_d3b_dninjnks b bs).
Proof. apply (cd_derivs3 N (fun z => lin_mix N z bs) zs _ _ _ _ _ E (cd_b N zs E bs)). apply lin_diff3. Qed.
Lemma pr_dd : derivs3 N (pr_d N bs) zs (PRMIX_ddelta_dns N bs b) (PRMIX_d2delta_dninjs N b bs) (PRMIX_d3delta_dninjnks N b bs).
Proof.
  apply (cd_derivs3 N (fun z => 2 * lin_mix N z bs) zs _ _ _ _ _ E (cd_delta_PR N zs E bs)).
  apply (diff3_mul N (fun _ => 2) (fun n => lin_mix N (fractions N n) bs)). apply diff3_const. apply lin_diff3.
Qed.
Lemma pr_de : derivs3 N (pr_e N bs) zs (PRMIX_depsilon_dns N b bs) (PRMIX_d2epsilon_dninjs N b bs) (PRMIX_d3epsilon_dninjnks N b bs).
Proof.
  apply (cd_derivs3 N (fun z => - lin_mix N z bs * lin_mix N z bs) zs _ _ _ _ _ E (cd_epsilon_PR N zs E bs)).
  apply diff3_cong with (fmul (fmul (fun _ => -1) (fun n => lin_mix N (fractions N n) bs)) (fun n => lin_mix N (fractions N n) bs)).
  { intros n _. unfold fmul. ring. } apply diff3_mul; [apply diff3_mul; [apply diff3_const|]|]; apply lin_diff3.
Qed.
Lemma pr_da : derivs3 N (pr_a N M) zs (GCEOSMIX_da_alpha_dns rows A N) (GCEOSMIX_d2a_alpha_dninjs rows A M N zs) (GCEOSMIX_d3a_alpha_dninjnks A M N zs).
Proof. apply (cd_derivs3 N (fun z => quad_mix N z M) zs _ _ _ _ _ E (cd_a N zs M E HM)). apply quad_diff3. Qed.
Lemma pr_sym i j : (i < N)%nat -> (j < N)%nat ->
  GCEOSMIX_d2b_dninjs b bs i j = GCEOSMIX_d2b_dninjs b bs j i /\ PRMIX_d2delta_dninjs N b bs i j = PRMIX_d2delta_dninjs N b bs j i /\
  PRMIX_d2epsilon_dninjs N b bs i j = PRMIX_d2epsilon_dninjs N b bs j i /\ GCEOSMIX_d2a_alpha_dninjs rows A M N zs i j = GCEOSMIX_d2a_alpha_dninjs rows A M N zs j i.
Proof.
  intros Hi Hj. splits.
  - unfold GCEOSMIX_d2b_dninjs. ring.
  - unfold PRMIX_d2delta_dninjs, PR_d2delta_dninjs. cbv zeta.
    match goal with |- context [loop N (fun i o => loop N (fun j o => updm o i j (@?v i j)) o) ?w] => rewrite (loop_updm_lt N v w i j), (loop_updm_lt N v w j i) by auto end. ring.
  - unfold PRMIX_d2epsilon_dninjs, PR_d2epsilon_dninjs. cbv zeta.
    match goal with |- context [loop N (fun i o => loop N (fun j o => updm o i j (@?v i j)) o) ?w] => rewrite (loop_updm_lt N v w i j), (loop_updm_lt N v w j i) by auto end. field.
  - destruct pr_da as (_ & _ & H & _). rewrite <- !H by auto.
    destruct (cd_derivs3 N (fun z => quad_mix N z M) zs _ _ _ _ _ E (cd_quad N M zs HM E) (quad_diff3 N M)) as (_ & _ & K & _). unfold pr_a. rewrite !K by auto. rewrite (HM i j) by auto. ring.
Qed.
(* dP_dns_Vt, d2P_dninjs_Vt, dA_dep_dns_Vt and d2A_dep_dninjs_Vt of a Peng-Robinson mixture, with the lists the code computes *)
Theorem C69_PRMIX : forall T Vt phase, 0 < T -> 0 < b < Vt -> 0 < Ptotal N T Vt (pr_b N bs) (pr_d N bs) (pr_e N bs) (pr_a N M) zs ->
  let db := GCEOSMIX_db_dns b bs N in let d2b := GCEOSMIX_d2b_dninjs b bs in
  let delta := 2 * b in let dd := PRMIX_ddelta_dns N bs b in let d2d := PRMIX_d2delta_dninjs N b bs in
  let epsilon_ := - b * b in let de := PRMIX_depsilon_dns N b bs in let d2e := PRMIX_d2epsilon_dninjs N b bs in
  let da := GCEOSMIX_da_alpha_dns rows A N in let d2a := GCEOSMIX_d2a_alpha_dninjs rows A M N zs in
  let P n := Ptotal N T Vt (pr_b N bs) (pr_d N bs) (pr_e N bs) (pr_a N M) n in
  let dP := GCEOSMIX_dP_dns_Vt phase Vt T b N A epsilon_ delta de dd db da in
  let d2P := GCEOSMIX_d2P_dninjs_Vt phase Vt T N b A epsilon_ de dd db da d2d d2e d2b d2a delta in
  let dA := GCEOSMIX_dA_dep_dns_Vt phase Vt T N b A epsilon_ de dd db da dP (P zs) delta in
  let d2A := GCEOSMIX_d2A_dep_dninjs_Vt phase Vt T N b A epsilon_ de dd db da d2d d2e d2b d2a dP d2P (P zs) delta in
  let Adep := Adep_total N T Vt (pr_b N bs) (pr_d N bs) (pr_e N bs) (pr_a N M) in
  forall i j, (i < N)%nat -> (j < N)%nat ->
  has_Dn P i zs (dP i) /\ has_Dn (Dn P i) j zs (d2P i j) /\ d2P i j = d2P j i /\
  has_Dn Adep i zs (dA i) /\ has_Dn (Dn Adep i) j zs (d2A i j) /\ d2A i j = d2A j i.
Proof.
  intros T Vt phase PT [Pb Pv] PP. cbv zeta. intros i j Hi Hj.
  assert (Eb : pr_b N bs zs = b) by (unfold pr_b; rewrite fractions_1; auto). assert (Ed : pr_d N bs zs = 2 * b) by (unfold pr_d; rewrite fractions_1; auto).
  assert (Ee : pr_e N bs zs = - b * b) by (unfold pr_e; rewrite fractions_1; auto). assert (EA : pr_a N M zs = A) by (unfold pr_a; rewrite fractions_1; auto).
  pose proof (derivs32 _ _ _ _ _ _ pr_db) as H1. pose proof (derivs32 _ _ _ _ _ _ pr_dd) as H2. pose proof (derivs32 _ _ _ _ _ _ pr_de) as H3. pose proof (derivs32 _ _ _ _ _ _ pr_da) as H4.
  assert (ZA : 0 < Vt - pr_b N bs zs) by (rewrite Eb; lra). assert (ZD : 0 < pr_d N bs zs * pr_d N bs zs - 4 * pr_e N bs zs) by (rewrite Ed, Ee; nra).
  assert (ZB : Vt * Vt + pr_d N bs zs * Vt + pr_e N bs zs <> 0) by (rewrite Ed, Ee; nra). assert (PV : 0 < Vt) by lra.
  pose proof (C69_d2P_dns N T Vt _ _ _ _ zs _ _ _ _ _ _ _ _ phase E H1 H2 H3 H4 pr_sym (Rgt_not_eq _ _ ZA) ZB i j Hi Hj) as [K1 K2].
  pose proof (C69_dP_dns N T Vt _ _ _ _ zs _ _ _ _ phase E (derivs21 _ _ _ _ _ H1) (derivs21 _ _ _ _ _ H2) (derivs21 _ _ _ _ _ H3) (derivs21 _ _ _ _ _ H4) (Rgt_not_eq _ _ ZA) ZB i Hi) as K3.
  pose proof (C69_dA_dep_Vt N T Vt _ _ _ _ zs _ _ _ _ _ _ _ _ phase E PT PV H1 H2 H3 H4 ZA ZD ZB PP i Hi) as K4.
  pose proof (C69_d2A_dep_Vt N T Vt _ _ _ _ zs _ _ _ _ _ _ _ _ phase E PT PV H1 H2 H3 H4 pr_sym ZA ZD ZB PP i j Hi Hj) as [K5 K6].
  cbv zeta in K4, K5, K6. rewrite Eb, Ed, Ee, EA in K1, K2, K3, K4, K5, K6. splits; assumption.
Qed.
End PR.

(* d3P_dninjnks_Vt on an equimolar Peng-Robinson mixture with b = 1 and 3 *)
Definition half (_ : nat) : R := 1 / 2.
Definition b13 (i : nat) : R := match i with 0%nat => 1 | _ => 3 end.
Definition ones (_ _ : nat) : R := 1.
Lemma half_1 : rsum 2 half = 1. Proof. unfold half. simpl. field. Qed.
Lemma ones_sym : sym 2 ones. Proof. intros i j _ _. reflexivity. Qed.
Lemma b_2 : lin_mix 2 half b13 = 2. Proof. unfold lin_mix, half, b13. simpl. field. Qed.
Lemma A_1 : quad_mix 2 half ones = 1. Proof. unfold quad_mix, half, ones. simpl. field. Qed.
Ltac out2 := repeat match goal with
  | |- context [loop 2 (fun i o => upd o i (@?v i)) ?w ?i] => rewrite (loop_upd_lt 2 v w i) by auto
  | |- context [loop 2 (fun i o => loop 2 (fun j o => updm o i j (@?v i j)) o) ?w ?i ?j] => rewrite (loop_updm_lt 2 v w i j) by auto end.
Theorem C69_d3P_refuted : exists N zs bs M T Vt i j k,
  rsum N zs = 1 /\ (forall m, (m < N)%nat -> 0 < zs m /\ 0 < bs m) /\ sym N M /\ 0 < T /\ lin_mix N zs bs < Vt /\ (i < N)%nat /\ (j < N)%nat /\ (k < N)%nat /\
  let b := lin_mix N zs bs in let A := quad_mix N zs M in let rows := GCEOSMIX_a_alpha_j_rows zs N M in
  ~ has_Dn (Dn (Dn (Ptotal N T Vt (pr_b N bs) (pr_d N bs) (pr_e N bs) (pr_a N M)) i) j) k zs
    (GCEOSMIX_d3P_dninjnks_Vt 0 Vt T N b A (- b * b) (PRMIX_depsilon_dns N b bs) (PRMIX_ddelta_dns N bs b) (GCEOSMIX_db_dns b bs N) (GCEOSMIX_da_alpha_dns rows A N)
      (PRMIX_d2delta_dninjs N b bs) (PRMIX_d2epsilon_dninjs N b bs) (GCEOSMIX_d2b_dninjs b bs) (GCEOSMIX_d2a_alpha_dninjs rows A M N zs)
      (PRMIX_d3epsilon_dninjnks N b bs) (PRMIX_d3delta_dninjnks N b bs) (GCEOSMIX_d3a_alpha_dninjnks A M N zs) (GCEOSMIX_d3b_dninjnks b bs) (2 * b) i j k).
Proof.
  exists 2%nat, half, b13, ones, 1, 10, 0%nat, 0%nat, 1%nat. splits; auto using half_1, ones_sym; try lra.
  { intros m _. unfold half, b13. destruct m; lra. } { rewrite b_2. lra. }
  intros b A rows H.
  assert (Eb : pr_b 2 b13 half = b) by (unfold pr_b; rewrite fractions_1; auto using half_1). assert (Ed : pr_d 2 b13 half = 2 * b) by (unfold pr_d; rewrite fractions_1; auto using half_1).
  assert (Ee : pr_e 2 b13 half = - b * b) by (unfold pr_e; rewrite fractions_1; auto using half_1). assert (EA : pr_a 2 ones half = A) by (unfold pr_a; rewrite fractions_1; auto using half_1).
  assert (B2 : b = 2) by apply b_2. assert (A1 : A = 1) by apply A_1.
  pose proof (pr_db 2 half b13 half_1) as H1. pose proof (pr_dd 2 half b13 half_1) as H2. pose proof (pr_de 2 half b13 half_1) as H3. pose proof (pr_da 2 half ones half_1 ones_sym) as H4.
  assert (ZA : 10 - pr_b 2 b13 half <> 0) by (rewrite Eb, B2; lra). assert (ZB : 10 * 10 + pr_d 2 b13 half * 10 + pr_e 2 b13 half <> 0) by (rewrite Ed, Ee, B2; lra).
  pose proof (C69_d3P_dns 2 1 10 _ _ _ _ half _ _ _ _ _ _ _ _ _ _ _ _ 0 half_1 H1 H2 H3 H4 ZA ZB 0%nat 0%nat 1%nat ltac:(auto) ltac:(auto) ltac:(auto)) as K.
  cbv zeta in K. rewrite Eb, Ed, Ee, EA in K. fold b A rows in K.
  apply has_Dn_eq in H. apply has_Dn_eq in K. rewrite H in K. clear H.
  assert (E1 : GCEOSMIX_da_alpha_dns rows A 2 0%nat = 0).
  { destruct H4 as (_ & G & _). unfold rows, A. rewrite <- G by auto.
    destruct (cd_derivs3 2 (fun z => quad_mix 2 z ones) half _ _ _ _ _ half_1 (cd_quad 2 ones half ones_sym half_1) (quad_diff3 2 ones)) as (_ & G1 & _).
    unfold pr_a. rewrite G1 by auto. rewrite A_1. unfold lin_mix, half, ones. simpl. field. }
  assert (E2 : GCEOSMIX_d2a_alpha_dninjs rows A ones 2 half 0%nat 0%nat = 0).
  { destruct H4 as (_ & _ & G & _). unfold rows, A. rewrite <- G by auto.
    destruct (cd_derivs3 2 (fun z => quad_mix 2 z ones) half _ _ _ _ _ half_1 (cd_quad 2 ones half ones_sym half_1) (quad_diff3 2 ones)) as (_ & _ & G1 & _).
    unfold pr_a. rewrite G1 by auto. rewrite A_1. unfold lin_mix, half, ones. simpl. field. }
  assert (E3 : PRMIX_depsilon_dns 2 b b13 0%nat = 4 /\ PRMIX_depsilon_dns 2 b b13 1%nat = - 4).
  { unfold PRMIX_depsilon_dns, PR_depsilon_dns. cbv zeta. rewrite B2. out2. simpl. lra. }
  assert (E4 : PRMIX_ddelta_dns 2 b13 b 0%nat = - 2). { unfold PRMIX_ddelta_dns, PR_ddelta_dns. cbv zeta. rewrite B2. out2. simpl. lra. }
  assert (E5 : PRMIX_d2delta_dninjs 2 b b13 0%nat 0%nat = 4). { unfold PRMIX_d2delta_dninjs, PR_d2delta_dninjs. cbv zeta. rewrite B2. out2. simpl. lra. }
  assert (E6 : PRMIX_d2epsilon_dninjs 2 b b13 0%nat 0%nat = - 10). { unfold PRMIX_d2epsilon_dninjs, PR_d2epsilon_dninjs. cbv zeta. rewrite B2. out2. simpl. lra. }
  destruct E3 as [E3 E3']. rewrite E1, E2, E3, E3', E4, E5, E6, B2, A1 in K.
  set (g := GCEOSMIX_d3P_dninjnks_Vt _ _ _ _ _ _ _ _ _ _ _ _ _ _ _ _ _ _ _ _ _ _ _) in K. clearbody g. match type of K with g = g - ?x => assert (X0 : x = 0) by lra; assert (X1 : x = 1513728 / 342102016) by field end. lra.
Qed.

(* the hypotheses are met by a mixture of two components *)
Example C69_hypotheses_met : rsum 2 half = 1 /\ sym 2 ones /\ 0 < lin_mix 2 half b13 < 10 /\
  0 < Ptotal 2 1 10 (pr_b 2 b13) (pr_d 2 b13) (pr_e 2 b13) (pr_a 2 ones) half.
Proof.
  rewrite b_2. splits; auto using half_1, ones_sym; try lra. unfold Ptotal, pr_b, pr_d, pr_e, pr_a, cubicP. rewrite fractions_1, b_2, A_1, half_1 by apply half_1. rewrite Rgas_val.
  match goal with |- 0 < ?x => replace x with (831446261815324 / 800000000000000 - 1 / 136) by field end. lra.
Qed.
(* C69_d2V: with a = 0 and b the mole fraction average the volume R T / P + b(n) keeps the pressure *)
Example C69_d2V_hypotheses_met : let b n := pr_b 2 b13 n in let V n := Rgas * 300 / 100 + b n in
  0 < rsum 2 half /\ diff2 2 V /\ (forall n, cubicP 300 (V n) (b n) (2 * b n) (- b n * b n) 0 = 100) /\ V half - b half <> 0 /\ Dn V 0 half = - 1.
Proof.
  intros b V. assert (DV : diff2 2 V). { apply (diff2_add 2 (fun _ => Rgas * 300 / 100) b). apply diff2_const. apply diff32, lin_diff3. } splits; auto.
  - rewrite half_1. lra.
  - intros n. unfold cubicP, V. replace (Rgas * 300 / 100 + b n - b n) with (Rgas * 300 / 100) by ring. unfold Rdiv at 3. rewrite Rmult_0_l. field. rewrite Rgas_val; lra.
  - unfold V. replace (Rgas * 300 / 100 + b half - b half) with (Rgas * 300 / 100) by ring. rewrite Rgas_val; lra.
  - unfold V. change (Dn (fadd (fun _ => Rgas * 300 / 100) b) 0 half = - 1). rewrite (Dn_add 2); auto. 2: apply diff1_const. 2: apply diff21, diff32, lin_diff3. 2: rewrite half_1; lra.
    rewrite fadd_at, Dn_const. destruct (pr_db 2 half b13 half_1) as (_ & G & _). unfold b. rewrite G by auto. unfold GCEOSMIX_db_dns. cbv zeta. rewrite b_2. out2. simpl. lra.
Qed.
