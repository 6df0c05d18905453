(* C06: each alpha function's analytical first and second derivatives are the derivatives of its value. *)
From Coq Require Import Reals Lra Psatz.
From Coquelicot Require Import Coquelicot.
From Verif Require Import Base BaseFacts Gen_eosclass Gen_alpha.
Open Scope R_scope.

(* (v, d, d2) is the value, first and second derivative of f at T *)
Definition alpha_ok (f : R -> R) (T : R) (r : R * R * R) : Prop :=
  let '(v, d, d2) := r in v = f T /\ is_derive f T d /\ is_derive (Derive f) T d2.

Definition p1 (r : R * R * R) := let '(v, _, _) := r in v.
Definition p2 (r : R * R * R) := let '(_, v, _) := r in v.
Definition p3 (r : R * R * R) := let '(_, _, v) := r in v.

Lemma alpha_ok_loc f g T : p1 (g T) = f T -> locally T (fun t => is_derive f t (p2 (g t))) ->
  is_derive (fun t => p2 (g t)) T (p3 (g T)) -> alpha_ok f T (g T).
Proof.
  intros H1 H2 H3. unfold alpha_ok. destruct (g T) as [[v d] d2] eqn:E. simpl in *.
  split; [auto|split].
  - apply locally_singleton in H2. rewrite E in H2. exact H2.
  - apply (is_derive_ext_loc (fun t => p2 (g t))); auto.
    eapply filter_imp; [|exact H2]. intros t Ht. symmetry. apply is_derive_unique. exact Ht.
Qed.

Lemma alpha_ok_pos f g T : 0 < T -> (forall t, 0 < t -> p1 (g t) = f t) -> (forall t, 0 < t -> is_derive f t (p2 (g t))) ->
  (forall t, 0 < t -> is_derive (fun t => p2 (g t)) t (p3 (g t))) -> alpha_ok f T (g T).
Proof.
  intros HT H1 H2 H3. apply alpha_ok_loc; auto.
  eapply filter_imp; [|exact (open_gt 0 T HT)]. auto.
Qed.

Lemma rpos T Tc : 0 < T -> 0 < Tc -> 0 < T / Tc.
Proof. intros. apply Rdiv_lt_0_compat; auto. Qed.
Lemma ipos T Tc : 0 < T -> 0 < Tc -> 0 < T * (1 / Tc).
Proof. intros. apply Rmult_lt_0_compat; auto. apply Rdiv_lt_0_compat; lra. Qed.
Lemma rpos' T Tc : 0 < T -> 0 < Tc -> 0 < T * / Tc.
Proof. apply rpos. Qed.
Lemma ipos' T Tc : 0 < T -> 0 < Tc -> 0 < T * (1 * / Tc).
Proof. apply ipos. Qed.

Ltac side := repeat match goal with
  | |- _ /\ _ => split
  | |- True => exact I
  | |- 0 < sqrt _ => apply sqrt_lt_R0
  | |- 0 < _ / _ => apply Rdiv_lt_0_compat
  | |- 0 < _ * / _ => apply rpos'
  | |- 0 < _ * (1 / _) => apply ipos
  | |- 0 < _ * (1 * / _) => apply ipos'
  | |- sqrt _ <> 0 => apply Rgt_not_eq, sqrt_lt_R0
  | |- _ <> 0 => solve [nz]
  end; auto; try lra; try nz.

(* write everything in x = sqrt T and u = sqrt Tc *)
Ltac roots T Tc :=
  let x := fresh "x" in let u := fresh "u" in let Hx := fresh "Hx" in let Hu := fresh "Hu" in let E1 := fresh "E" in let E2 := fresh "E" in
  unfold Rdiv in *;
  try (rewrite !(sqrt_div_alt T Tc : _ -> sqrt (T * / Tc) = sqrt T * / sqrt Tc) by assumption);
  try (rewrite !(sqrt_div_alt Tc T : _ -> sqrt (Tc * / T) = sqrt Tc * / sqrt T) by assumption);
  try (replace (T * (1 * / Tc)) with (T * / Tc) by (field; lra); rewrite !(sqrt_div_alt T Tc : _ -> sqrt (T * / Tc) = sqrt T * / sqrt Tc) by assumption);
  assert (Hx : 0 < sqrt T) by (apply sqrt_lt_R0; assumption);
  assert (Hu : 0 < sqrt Tc) by (apply sqrt_lt_R0; assumption);
  assert (E1 : T = sqrt T * sqrt T) by (rewrite sqrt_sqrt; lra);
  assert (E2 : Tc = sqrt Tc * sqrt Tc) by (rewrite sqrt_sqrt; lra);
  set (x := sqrt T) in *; set (u := sqrt Tc) in *; clearbody x u; subst T; subst Tc.

Ltac alpha_go g := apply (alpha_ok_pos _ g); [assumption|..]; unfold p1, p2, p3.
Ltac alpha_v T Tc := roots T Tc; field; side.
Ltac alpha_d T Tc := auto_derive; [solve [side]|]; roots T Tc; field; side.

(* ---------------- classes of eos.py *)
Theorem C06_PR T Tc a kappa : 0 < T -> 0 < Tc -> alpha_ok (fun T => PR_a_alpha_pure T kappa Tc a) T (PR_a_alpha_and_derivatives_pure T Tc kappa a).
Proof.
  intros. alpha_go (fun T => PR_a_alpha_and_derivatives_pure T Tc kappa a); intros t Ht; unfold PR_a_alpha_and_derivatives_pure, PR_a_alpha_pure; cbv zeta.
  - alpha_v t Tc.
  - alpha_d t Tc.
  - alpha_d t Tc.
Qed.

Theorem C06_PRSV (T Tc a : R) (kappa0 : R) (kappa1 : R) : 0 < T -> 0 < Tc ->
  alpha_ok (fun T => PRSV_a_alpha_pure T Tc a kappa0 kappa1) T (PRSV_a_alpha_and_derivatives_pure T Tc a kappa0 kappa1).
Proof.
  intros. alpha_go (fun T => PRSV_a_alpha_and_derivatives_pure T Tc a kappa0 kappa1); intros t Ht; unfold PRSV_a_alpha_and_derivatives_pure, PRSV_a_alpha_pure; cbv zeta.
  - alpha_v t Tc.
  - alpha_d t Tc.
  - alpha_d t Tc.
Qed.

Theorem C06_PRSV2 (T Tc a : R) (kappa0 : R) (kappa1 : R) (kappa2 : R) (kappa3 : R) : 0 < T -> 0 < Tc ->
  alpha_ok (fun T => PRSV2_a_alpha_pure T Tc a kappa0 kappa1 kappa2 kappa3) T (PRSV2_a_alpha_and_derivatives_pure T Tc a kappa0 kappa1 kappa2 kappa3).
Proof.
  intros. alpha_go (fun T => PRSV2_a_alpha_and_derivatives_pure T Tc a kappa0 kappa1 kappa2 kappa3); intros t Ht; unfold PRSV2_a_alpha_and_derivatives_pure, PRSV2_a_alpha_pure; cbv zeta.
  - alpha_v t Tc.
  - alpha_d t Tc.
  - alpha_d t Tc.
Qed.

Theorem C06_RK (T Tc a : R) : 0 < T -> 0 < Tc ->
  alpha_ok (fun T => RK_a_alpha_pure T Tc a) T (RK_a_alpha_and_derivatives_pure T Tc a).
Proof.
  intros. alpha_go (fun T => RK_a_alpha_and_derivatives_pure T Tc a); intros t Ht; unfold RK_a_alpha_and_derivatives_pure, RK_a_alpha_pure; cbv zeta.
  - alpha_v t Tc.
  - alpha_d t Tc.
  - alpha_d t Tc.
Qed.

Theorem C06_SRK (T Tc a : R) (m : R) : 0 < T -> 0 < Tc ->
  alpha_ok (fun T => SRK_a_alpha_pure T a Tc m) T (SRK_a_alpha_and_derivatives_pure T a Tc m).
Proof.
  intros. alpha_go (fun T => SRK_a_alpha_and_derivatives_pure T a Tc m); intros t Ht; unfold SRK_a_alpha_and_derivatives_pure, SRK_a_alpha_pure; cbv zeta.
  - alpha_v t Tc.
  - alpha_d t Tc.
  - alpha_d t Tc.
Qed.

Theorem C06_APISRK (T Tc a : R) (S1 : R) (S2 : R) : 0 < T -> 0 < Tc ->
  alpha_ok (fun T => APISRK_a_alpha_pure T a Tc S1 S2) T (APISRK_a_alpha_and_derivatives_pure T a Tc S1 S2).
Proof.
  intros. alpha_go (fun T => APISRK_a_alpha_and_derivatives_pure T a Tc S1 S2); intros t Ht; unfold APISRK_a_alpha_and_derivatives_pure, APISRK_a_alpha_pure; cbv zeta.
  - alpha_v t Tc.
  - alpha_d t Tc.
  - alpha_d t Tc.
Qed.

Theorem C06_Soave_1972 (T Tc a : R) (alpha_coeffs : nat -> R) : 0 < T -> 0 < Tc ->
  alpha_ok (fun T => Soave_1972_a_alpha_pure T alpha_coeffs Tc a) T (Soave_1972_a_alpha_and_derivatives_pure T alpha_coeffs Tc a).
Proof.
  intros. alpha_go (fun T => Soave_1972_a_alpha_and_derivatives_pure T alpha_coeffs Tc a); intros t Ht; unfold Soave_1972_a_alpha_and_derivatives_pure, Soave_1972_a_alpha_pure, Soave_1972_alpha_pure; cbv zeta.
  - alpha_v t Tc.
  - alpha_d t Tc.
  - alpha_d t Tc.
Qed.

Theorem C06_Harmens_Knapp (T Tc a : R) (alpha_coeffs : nat -> R) : 0 < T -> 0 < Tc ->
  alpha_ok (fun T => Harmens_Knapp_a_alpha_pure T alpha_coeffs Tc a) T (Harmens_Knapp_a_alpha_and_derivatives_pure T alpha_coeffs Tc a).
Proof.
  intros. alpha_go (fun T => Harmens_Knapp_a_alpha_and_derivatives_pure T alpha_coeffs Tc a); intros t Ht; unfold Harmens_Knapp_a_alpha_and_derivatives_pure, Harmens_Knapp_a_alpha_pure, Harmens_Knapp_alpha_pure; cbv zeta.
  - alpha_v t Tc.
  - alpha_d t Tc.
  - alpha_d t Tc.
Qed.

Theorem C06_Mathias_1983 (T Tc a : R) (alpha_coeffs : nat -> R) : 0 < T -> 0 < Tc ->
  alpha_ok (fun T => Mathias_1983_a_alpha_pure T alpha_coeffs Tc a) T (Mathias_1983_a_alpha_and_derivatives_pure T alpha_coeffs Tc a).
Proof.
  intros. alpha_go (fun T => Mathias_1983_a_alpha_and_derivatives_pure T alpha_coeffs Tc a); intros t Ht; unfold Mathias_1983_a_alpha_and_derivatives_pure, Mathias_1983_a_alpha_pure, Mathias_1983_alpha_pure; cbv zeta.
  - alpha_v t Tc.
  - alpha_d t Tc.
  - alpha_d t Tc.
Qed.

Theorem C06_Mathias_Copeman_untruncated (T Tc a : R) (alpha_coeffs : nat -> R) : 0 < T -> 0 < Tc ->
  alpha_ok (fun T => Mathias_Copeman_untruncated_a_alpha_pure T alpha_coeffs Tc a) T (Mathias_Copeman_untruncated_a_alpha_and_derivatives_pure T alpha_coeffs Tc a).
Proof.
  intros. alpha_go (fun T => Mathias_Copeman_untruncated_a_alpha_and_derivatives_pure T alpha_coeffs Tc a); intros t Ht; unfold Mathias_Copeman_untruncated_a_alpha_and_derivatives_pure, Mathias_Copeman_untruncated_a_alpha_pure, Mathias_Copeman_untruncated_alpha_pure; cbv zeta.
  - alpha_v t Tc.
  - alpha_d t Tc.
  - alpha_d t Tc.
Qed.

Theorem C06_Gibbons_Laughton (T Tc a : R) (alpha_coeffs : nat -> R) : 0 < T -> 0 < Tc ->
  alpha_ok (fun T => Gibbons_Laughton_a_alpha_pure T alpha_coeffs Tc a) T (Gibbons_Laughton_a_alpha_and_derivatives_pure T alpha_coeffs Tc a).
Proof.
  intros. alpha_go (fun T => Gibbons_Laughton_a_alpha_and_derivatives_pure T alpha_coeffs Tc a); intros t Ht; unfold Gibbons_Laughton_a_alpha_and_derivatives_pure, Gibbons_Laughton_a_alpha_pure, Gibbons_Laughton_alpha_pure; cbv zeta.
  - alpha_v t Tc.
  - alpha_d t Tc.
  - alpha_d t Tc.
Qed.

Theorem C06_Soave_1984 (T Tc a : R) (alpha_coeffs : nat -> R) : 0 < T -> 0 < Tc ->
  alpha_ok (fun T => Soave_1984_a_alpha_pure T alpha_coeffs Tc a) T (Soave_1984_a_alpha_and_derivatives_pure T alpha_coeffs Tc a).
Proof.
  intros. alpha_go (fun T => Soave_1984_a_alpha_and_derivatives_pure T alpha_coeffs Tc a); intros t Ht; unfold Soave_1984_a_alpha_and_derivatives_pure, Soave_1984_a_alpha_pure, Soave_1984_alpha_pure; cbv zeta.
  - alpha_v t Tc.
  - alpha_d t Tc.
  - alpha_d t Tc.
Qed.

Theorem C06_Schwartzentruber (T Tc a : R) (alpha_coeffs : nat -> R) : 0 < T -> 0 < Tc ->
  alpha_ok (fun T => Schwartzentruber_a_alpha_pure T a Tc alpha_coeffs) T (Schwartzentruber_a_alpha_and_derivatives_pure T alpha_coeffs Tc a).
Proof.
  intros. alpha_go (fun T => Schwartzentruber_a_alpha_and_derivatives_pure T alpha_coeffs Tc a); intros t Ht; unfold Schwartzentruber_a_alpha_and_derivatives_pure, Schwartzentruber_a_alpha_pure, Schwartzentruber_alpha_pure; cbv zeta.
  - alpha_v t Tc.
  - alpha_d t Tc.
  - alpha_d t Tc.
Qed.

Theorem C06_Soave_1993 (T Tc a : R) (alpha_coeffs : nat -> R) : 0 < T -> 0 < Tc ->
  alpha_ok (fun T => Soave_1993_a_alpha_pure T a Tc alpha_coeffs) T (Soave_1993_a_alpha_and_derivatives_pure T alpha_coeffs Tc a).
Proof.
  intros. alpha_go (fun T => Soave_1993_a_alpha_and_derivatives_pure T alpha_coeffs Tc a); intros t Ht; unfold Soave_1993_a_alpha_and_derivatives_pure, Soave_1993_a_alpha_pure, Soave_1993_alpha_pure; cbv zeta.
  - alpha_v t Tc.
  - alpha_d t Tc.
  - alpha_d t Tc.
Qed.

Theorem C06_Soave_1979 (T Tc a : R) (alpha_coeffs : nat -> R) : 0 < T -> 0 < Tc ->
  alpha_ok (fun T => Soave_1979_a_alpha_pure T alpha_coeffs Tc a) T (Soave_1979_a_alpha_and_derivatives_pure T alpha_coeffs Tc a).
Proof.
  intros. alpha_go (fun T => Soave_1979_a_alpha_and_derivatives_pure T alpha_coeffs Tc a); intros t Ht; unfold Soave_1979_a_alpha_and_derivatives_pure, Soave_1979_a_alpha_pure, Soave_1979_alpha_pure; cbv zeta.
  - alpha_v t Tc.
  - alpha_d t Tc.
  - alpha_d t Tc.
Qed.


(* ---------------- exponential forms *)
Ltac exps := repeat match goal with |- context [exp ?a] => match goal with |- context [exp ?b] =>
  tryif constr_eq a b then fail else (replace (exp b) with (exp a) by (f_equal; field; side)) end end.
Ltac exp_v T Tc := roots T Tc; exps; field; side.
Ltac exp_d T Tc := auto_derive; [solve [side]|]; roots T Tc; exps; field; side.

Theorem C06_Heyen (T Tc a : R) (alpha_coeffs : nat -> R) : 0 < T -> 0 < Tc ->
  alpha_ok (fun T => Heyen_a_alpha_pure T alpha_coeffs Tc a) T (Heyen_a_alpha_and_derivatives_pure T alpha_coeffs Tc a).
Proof.
  intros. alpha_go (fun T => Heyen_a_alpha_and_derivatives_pure T alpha_coeffs Tc a); intros t Ht; unfold Heyen_a_alpha_and_derivatives_pure, Heyen_a_alpha_pure, Heyen_alpha_pure; unfold Rpower; cbv zeta.
  - exp_v t Tc.
  - exp_d t Tc.
  - exp_d t Tc.
Qed.

Theorem C06_Yu_Lu (T Tc a : R) (alpha_coeffs : nat -> R) : 0 < T -> 0 < Tc ->
  alpha_ok (fun T => Yu_Lu_a_alpha_pure T a Tc alpha_coeffs) T (Yu_Lu_a_alpha_and_derivatives_pure T alpha_coeffs Tc a).
Proof.
  intros. alpha_go (fun T => Yu_Lu_a_alpha_and_derivatives_pure T alpha_coeffs Tc a); intros t Ht; unfold Yu_Lu_a_alpha_and_derivatives_pure, Yu_Lu_a_alpha_pure, Yu_Lu_alpha_pure; unfold Rpower; cbv zeta.
  - exp_v t Tc.
  - exp_d t Tc.
  - exp_d t Tc.
Qed.

Theorem C06_Trebble_Bishnoi (T Tc a : R) (alpha_coeffs : nat -> R) : 0 < T -> 0 < Tc ->
  alpha_ok (fun T => Trebble_Bishnoi_a_alpha_pure T a Tc alpha_coeffs) T (Trebble_Bishnoi_a_alpha_and_derivatives_pure T alpha_coeffs Tc a).
Proof.
  intros. alpha_go (fun T => Trebble_Bishnoi_a_alpha_and_derivatives_pure T alpha_coeffs Tc a); intros t Ht; unfold Trebble_Bishnoi_a_alpha_and_derivatives_pure, Trebble_Bishnoi_a_alpha_pure, Trebble_Bishnoi_alpha_pure; unfold Rpower; cbv zeta.
  - exp_v t Tc.
  - exp_d t Tc.
  - exp_d t Tc.
Qed.

Theorem C06_Melhem (T Tc a : R) (alpha_coeffs : nat -> R) : 0 < T -> 0 < Tc ->
  alpha_ok (fun T => Melhem_a_alpha_pure T a Tc alpha_coeffs) T (Melhem_a_alpha_and_derivatives_pure T alpha_coeffs Tc a).
Proof.
  intros. alpha_go (fun T => Melhem_a_alpha_and_derivatives_pure T alpha_coeffs Tc a); intros t Ht; unfold Melhem_a_alpha_and_derivatives_pure, Melhem_a_alpha_pure, Melhem_alpha_pure; unfold Rpower; cbv zeta.
  - exp_v t Tc.
  - exp_d t Tc.
  - exp_d t Tc.
Qed.

Theorem C06_Androulakis (T Tc a : R) (alpha_coeffs : nat -> R) : 0 < T -> 0 < Tc ->
  alpha_ok (fun T => Androulakis_a_alpha_pure T a Tc alpha_coeffs) T (Androulakis_a_alpha_and_derivatives_pure T alpha_coeffs Tc a).
Proof.
  intros. alpha_go (fun T => Androulakis_a_alpha_and_derivatives_pure T alpha_coeffs Tc a); intros t Ht; unfold Androulakis_a_alpha_and_derivatives_pure, Androulakis_a_alpha_pure, Androulakis_alpha_pure; unfold Rpower; cbv zeta.
  - exp_v t Tc.
  - exp_d t Tc.
  - exp_d t Tc.
Qed.

Theorem C06_Twu91 (T Tc a : R) (alpha_coeffs : nat -> R) : 0 < T -> 0 < Tc ->
  alpha_ok (fun T => Twu91_a_alpha_pure T alpha_coeffs Tc a) T (Twu91_a_alpha_and_derivatives_pure T alpha_coeffs Tc a).
Proof.
  intros. alpha_go (fun T => Twu91_a_alpha_and_derivatives_pure T alpha_coeffs Tc a); intros t Ht; unfold Twu91_a_alpha_and_derivatives_pure, Twu91_a_alpha_pure, Twu91_alpha_pure; unfold Rpower; cbv zeta.
  - exp_v t Tc.
  - exp_d t Tc.
  - exp_d t Tc.
Qed.

Theorem C06_Gasem (T Tc a : R) (alpha_coeffs : nat -> R) : 0 < T -> 0 < Tc ->
  alpha_ok (fun T => Gasem_a_alpha_pure T a Tc alpha_coeffs) T (Gasem_a_alpha_and_derivatives_pure T alpha_coeffs Tc a).
Proof.
  intros. alpha_go (fun T => Gasem_a_alpha_and_derivatives_pure T alpha_coeffs Tc a); intros t Ht; unfold Gasem_a_alpha_and_derivatives_pure, Gasem_a_alpha_pure, Gasem_alpha_pure; unfold Rpower; cbv zeta.
  - exp_v t Tc.
  - exp_d t Tc.
  - exp_d t Tc.
Qed.

Theorem C06_Coquelet (T Tc a : R) (alpha_coeffs : nat -> R) : 0 < T -> 0 < Tc ->
  alpha_ok (fun T => Coquelet_a_alpha_pure T a Tc alpha_coeffs) T (Coquelet_a_alpha_and_derivatives_pure T alpha_coeffs Tc a).
Proof.
  intros. alpha_go (fun T => Coquelet_a_alpha_and_derivatives_pure T alpha_coeffs Tc a); intros t Ht; unfold Coquelet_a_alpha_and_derivatives_pure, Coquelet_a_alpha_pure, Coquelet_alpha_pure; unfold Rpower; cbv zeta.
  - exp_v t Tc.
  - exp_d t Tc.
  - exp_d t Tc.
Qed.

Theorem C06_Haghtalab (T Tc a : R) (alpha_coeffs : nat -> R) : 0 < T -> 0 < Tc ->
  alpha_ok (fun T => Haghtalab_a_alpha_pure T a Tc alpha_coeffs) T (Haghtalab_a_alpha_and_derivatives_pure T alpha_coeffs Tc a).
Proof.
  intros. alpha_go (fun T => Haghtalab_a_alpha_and_derivatives_pure T alpha_coeffs Tc a); intros t Ht; unfold Haghtalab_a_alpha_and_derivatives_pure, Haghtalab_a_alpha_pure, Haghtalab_alpha_pure; unfold Rpower; cbv zeta.
  - exp_v t Tc.
  - exp_d t Tc.
  - exp_d t Tc.
Qed.

Theorem C06_Saffari (T Tc a : R) (alpha_coeffs : nat -> R) : 0 < T -> 0 < Tc ->
  alpha_ok (fun T => Saffari_a_alpha_pure T a Tc alpha_coeffs) T (Saffari_a_alpha_and_derivatives_pure T alpha_coeffs Tc a).
Proof.
  intros. alpha_go (fun T => Saffari_a_alpha_and_derivatives_pure T alpha_coeffs Tc a); intros t Ht; unfold Saffari_a_alpha_and_derivatives_pure, Saffari_a_alpha_pure, Saffari_alpha_pure; unfold Rpower; cbv zeta.
  - exp_v t Tc.
  - exp_d t Tc.
  - exp_d t Tc.
Qed.


