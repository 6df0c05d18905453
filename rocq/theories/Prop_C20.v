(* C20: the derivatives and activity coefficients reported by Wilson's model. *)
From Coq Require Import Reals Lra Lia Arith Bool FunctionalExtensionality.
From Coquelicot Require Import Coquelicot.
From Verif Require Import Base BaseFacts Spec_mix Spec_activity MixFacts MixDeriv LnphiFacts NrtlFacts ActFacts WilsonFacts Gen_wilson.
Open Scope R_scope.

Section Wilson.
Context (N : nat) (a b c d e f : nat -> nat -> R).
Definition lam T i j := wilson_lambda_form (a i j) (b i j) (c i j) (d i j) (e i j) (f i j) T.
Definition w1 T i j := - b i j / T ^ 2 + c i j / T + d i j - 2 * e i j / T ^ 3 + 2 * f i j * T.
Definition w2 T i j := 2 * b i j / T ^ 3 - c i j / T ^ 2 + 6 * e i j / T ^ 4 + 2 * f i j.
Definition w3 T i j := - 6 * b i j / T ^ 4 + 2 * c i j / T ^ 3 - 24 * e i j / T ^ 5.
Definition dlam T i j := w1 T i j * lam T i j.
Definition d2lam T i j := (w2 T i j + w1 T i j ^ 2) * lam T i j.
Definition d3lam T i j := (w3 T i j + 3 * w1 T i j * w2 T i j + w1 T i j ^ 3) * lam T i j.
Lemma lam_pos T i j : 0 < lam T i j. Proof. apply exp_pos. Qed.
Lemma w0_d T i j : 0 < T -> is_derive (fun t => a i j + b i j / t + c i j * ln t + d i j * t + e i j / t ^ 2 + f i j * t ^ 2) T (w1 T i j).
Proof. intros. auto_derive. splits; nz. unfold w1. field. lra. Qed.
Lemma w1_d T i j : 0 < T -> is_derive (fun t => w1 t i j) T (w2 T i j).
Proof. intros. unfold w1, w2. auto_derive. splits; nz. field. lra. Qed.
Lemma w2_d T i j : 0 < T -> is_derive (fun t => w2 t i j) T (w3 T i j).
Proof. intros. unfold w2, w3. auto_derive. splits; nz. field. lra. Qed.
Lemma lam_d T i j : 0 < T -> is_derive (fun t => lam t i j) T (dlam T i j).
Proof. intros H. unfold lam, wilson_lambda_form, dlam. eapply is_derive_eq. apply (is_derive_comp exp). apply is_derive_exp. now apply w0_d. reflexivity. Qed.
Lemma dlam_d T i j : 0 < T -> is_derive (fun t => dlam t i j) T (d2lam T i j).
Proof. intros H. unfold dlam, d2lam. eapply is_derive_eq. apply (is_derive_mult (fun t => w1 t i j) (fun t => lam t i j)). now apply w1_d. now apply lam_d. intros; apply Rmult_comm. unfold dlam, plus, mult; cbn. ring. Qed.
Lemma d2lam_d T i j : 0 < T -> is_derive (fun t => d2lam t i j) T (d3lam T i j).
Proof.
  intros H. unfold d2lam, d3lam. pose proof (w1_d T i j H) as H1. pose proof (w2_d T i j H) as H2. pose proof (lam_d T i j H) as H3.
  asf p H1. asf q H2. asf l H3.
  change (is_derive (fun t : R => (q t + p t ^ 2) * l t) T ((w3 T i j + 3 * p T * q T + p T ^ 3) * l T)). assert (dlam T i j = p T * l T) as E by reflexivity. assert (w2 T i j = q T) as E2 by reflexivity. clearbody p q l.
  auto_derive. splits; trivial; try exd. dv H1. dv H2. dv H3. chR. rewrite E, E2. ring.
Qed.
Section Entry.
Context (i j : nat) (Hi : (i < N)%nat) (Hj : (j < N)%nat) (T : R) (HT : 0 < T).
Lemma lam_eq : Wilson_lambdas N T a b c d e f i j = lam T i j.
Proof. unfold Wilson_lambdas, interaction_exp, lam, wilson_lambda_form. entries. f_equal. field. lra. Qed.
Lemma dlam_eq : Wilson_dlambdas_dT N T a b c d e f i j = dlam T i j.
Proof. unfold Wilson_dlambdas_dT, dinteraction_exp_dT, dlam, w1. entries. rewrite lam_eq. field. lra. Qed.
Lemma d2lam_eq : Wilson_d2lambdas_dT2 N T a b c d e f i j = d2lam T i j.
Proof. unfold Wilson_d2lambdas_dT2, d2interaction_exp_dT2, d2lam. entries. rewrite lam_eq, dlam_eq. unfold dlam, w1, w2. pose proof (lam_pos T i j). field. lra. Qed.
Lemma d3lam_eq : Wilson_d3lambdas_dT3 N T a b c d e f i j = d3lam T i j.
Proof. unfold Wilson_d3lambdas_dT3, d3interaction_exp_dT3, d3lam. entries. rewrite lam_eq, dlam_eq. unfold dlam, w1, w2, w3. pose proof (lam_pos T i j). field. lra. Qed.
End Entry.
Section At.
Context (x : nat -> R) (T : R) (HT : 0 < T).
Lemma S_eq i : (i < N)%nat -> Wilson_xj_Lambda_ijs N T x a b c d e f i = WS N (lam T) x i.
Proof. intros Hi. unfold Wilson_xj_Lambda_ijs, wilson_xj_Lambda_ijs. entries. rewrite Rplus_0_l. apply rsum_ext. intros. now rewrite lam_eq. Qed.
Lemma dS_eq i : (i < N)%nat -> Wilson_xj_dLambda_dTijs N T x a b c d e f i = WS N (dlam T) x i.
Proof. intros Hi. unfold Wilson_xj_dLambda_dTijs, wilson_xj_Lambda_ijs. entries. rewrite Rplus_0_l. apply rsum_ext. intros. now rewrite dlam_eq. Qed.
Lemma d2S_eq i : (i < N)%nat -> Wilson_xj_d2Lambda_dT2ijs N T x a b c d e f i = WS N (d2lam T) x i.
Proof. intros Hi. unfold Wilson_xj_d2Lambda_dT2ijs, wilson_xj_Lambda_ijs. entries. rewrite Rplus_0_l. apply rsum_ext. intros. now rewrite d2lam_eq. Qed.
Lemma d3S_eq i : (i < N)%nat -> Wilson_xj_d3Lambda_dT3ijs N T x a b c d e f i = WS N (d3lam T) x i.
Proof. intros Hi. unfold Wilson_xj_d3Lambda_dT3ijs, wilson_xj_Lambda_ijs. entries. rewrite Rplus_0_l. apply rsum_ext. intros. now rewrite d3lam_eq. Qed.
Lemma inv_eq i : (i < N)%nat -> Wilson_xj_Lambda_ijs_inv N T x a b c d e f i = / WS N (lam T) x i.
Proof. intros. unfold Wilson_xj_Lambda_ijs_inv. rewrite S_eq by auto. unfold Rdiv. ring. Qed.
Lemma log_eq i : (i < N)%nat -> Wilson_log_xj_Lambda_ijs N T x a b c d e f i = ln (WS N (lam T) x i).
Proof. intros. unfold Wilson_log_xj_Lambda_ijs. now rewrite S_eq. Qed.
Lemma GE_eq : Wilson_GE N T x a b c d e f = - (Rgas * T) * WE N (lam T) x.
Proof. unfold Wilson_GE, WE. entries. rewrite Rplus_0_l. rewrite (rsum_ext N _ (fun i => x i * ln (WS N (lam T) x i))) by (intros; now rewrite log_eq). ring. Qed.
Lemma dx_eq k : (k < N)%nat -> Wilson_dGE_dxs N T x a b c d e f k = - (Rgas * T) * Wg N (lam T) x k.
Proof. intros Hk. unfold Wilson_dGE_dxs, wilson_dGE_dxs, Wg. entries. rewrite log_eq by auto. rewrite (rsum_ext N _ (fun i => x i * lam T i k / WS N (lam T) x i)). ring. intros. rewrite lam_eq, inv_eq by auto. reflexivity. Qed.
Lemma d2x_eq k m : (k < N)%nat -> (m < N)%nat -> wpos N (lam T) x -> Wilson_d2GE_dxixjs N T x a b c d e f k m = - (Rgas * T) * WH N (lam T) x k m.
Proof.
  intros Hk Hm Hp. unfold Wilson_d2GE_dxixjs, wilson_d2GE_dxixjs, WH. entries. rewrite !lam_eq, !inv_eq by auto. rewrite (rsum_ext N _ (fun i => x i * lam T i k * lam T i m / WS N (lam T) x i ^ 2)).
  unfold Rdiv. ring. intros i Hi. rewrite !lam_eq, inv_eq by auto. pose proof (Hp i Hi). field. lra.
Qed.
Lemma d3x_eq k m q : (k < N)%nat -> (m < N)%nat -> (q < N)%nat -> wpos N (lam T) x -> Wilson_d3GE_dxixjxks N T x a b c d e f k m q = - (Rgas * T) * W3 N (lam T) x k m q.
Proof.
  intros Hk Hm Hq Hp. unfold Wilson_d3GE_dxixjxks, wilson_d3GE_dxixjxks, W3. cbv beta zeta.
  match goal with |- loop N (fun k_ o => loop N (fun m_ o => loop N (fun n_ o => updt o k_ m_ n_ (@?F k_ m_ n_)) o) o) ?w _ _ _ = _ => rewrite (loop_updt_lt N F w k m q) by auto end. cbv beta. entries.
  rewrite !lam_eq, !inv_eq by auto. rewrite (rsum_ext N _ (fun i => x i * lam T i k * lam T i m * lam T i q / WS N (lam T) x i ^ 3)).
  pose proof (Hp k Hk). pose proof (Hp m Hm). pose proof (Hp q Hq). field. lra. intros i Hi. rewrite !lam_eq, inv_eq by auto. pose proof (Hp i Hi). field. lra.
Qed.
Lemma acc_cols (m : nat) (c0 : nat -> R) (F : nat -> nat -> R) (o : nat -> R) i : (i < N)%nat -> loop m (fun j g => loop N (fun i g => upd g i (g i + F j i * c0 j)) g) o i = o i + rsum m (fun j => F j i * c0 j).
Proof. intros Hi. induction m. cbn. ring. cbn [loop rsum]. rewrite (loop_upd_self N (fun i v => v + F m i * c0 m)) by auto. rewrite IHm. ring. Qed.
Lemma wilson_gammas_eq L inv g0 v0 k : (k < N)%nat -> wilson_gammas x N L inv g0 v0 k = exp (1 - (g0 k + rsum N (fun j => L j k * (x j * inv j)))) * inv k.
Proof.
  intros Hk. unfold wilson_gammas. cbv zeta. rewrite (loop_upd_self N (fun i v => exp (1 - v) * inv i)) by auto. rewrite acc_cols by auto. f_equal. f_equal. f_equal. f_equal. apply rsum_ext. intros j Hj. now rewrite (loop_upd_lt N).
Qed.
Lemma gam_eq k : (k < N)%nat -> wpos N (lam T) x -> Wilson_gammas N T x a b c d e f k = exp (1 - Wg N (lam T) x k).
Proof.
  intros Hk Hp. unfold Wilson_gammas. cbv zeta. rewrite wilson_gammas_eq by auto. unfold Wg. rewrite inv_eq by auto. rewrite Rplus_0_l.
  rewrite (rsum_ext N _ (fun i => x i * lam T i k / WS N (lam T) x i)). 2:{ intros. rewrite lam_eq, inv_eq by auto. unfold Rdiv. ring. }
  unfold Rminus. rewrite Ropp_plus_distr, !exp_plus, !exp_Ropp, exp_ln by now apply Hp. ring.
Qed.
End At.
(* along T *)
Section AlongT.
Context (x : nat -> R).
Lemma WS_T (L dL : R -> nat -> nat -> R) T i : (forall i j, is_derive (fun t => L t i j) T (dL T i j)) -> is_derive (fun t => WS N (L t) x i) T (WS N (dL T) x i).
Proof.
  intros H. unfold WS. apply (is_derive_rsum N (fun j t => x j * L t i j)). intros j Hj. apply (is_derive_scal (fun t => L t i j) T (x j)). apply H.
Qed.
Context (HP : forall T, 0 < T -> wpos N (lam T) x).
Lemma WE_T T : 0 < T -> is_derive (fun t => WE N (lam t) x) T (rsum N (fun i => x i * (WS N (dlam T) x i / WS N (lam T) x i))).
Proof.
  intros HT. unfold WE. apply (is_derive_rsum N (fun i t => x i * ln (WS N (lam t) x i))). intros i Hi. apply (is_derive_scal (fun t => ln (WS N (lam t) x i)) T (x i)).
  pose proof (WS_T lam dlam T i ltac:(intros; now apply lam_d)) as H. pose proof (HP T HT i Hi) as H0. asf s H. change (WS N (lam T) x i) with (s T) in *. change (is_derive (fun t => ln (s t)) T (WS N (dlam T) x i / s T)). clearbody s.
  auto_derive. splits; trivial; try exd. dv H. chR. field. lra.
Qed.
Lemma WE1_T T : 0 < T -> is_derive (fun t => rsum N (fun i => x i * (WS N (dlam t) x i / WS N (lam t) x i))) T (rsum N (fun i => x i * (WS N (d2lam T) x i / WS N (lam T) x i - WS N (dlam T) x i ^ 2 / WS N (lam T) x i ^ 2))).
Proof.
  intros HT. apply (is_derive_rsum N (fun i t => x i * (WS N (dlam t) x i / WS N (lam t) x i))). intros i Hi. apply (is_derive_scal (fun t => WS N (dlam t) x i / WS N (lam t) x i) T (x i)).
  pose proof (WS_T lam dlam T i ltac:(intros; now apply lam_d)) as H. pose proof (WS_T dlam d2lam T i ltac:(intros; now apply dlam_d)) as H1. pose proof (HP T HT i Hi) as H0. asf s H. asf u H1.
  change (WS N (lam T) x i) with (s T) in *. change (WS N (dlam T) x i) with (u T) in *. change (is_derive (fun t => u t / s t) T (WS N (d2lam T) x i / s T - u T ^ 2 / s T ^ 2)). clearbody s u.
  auto_derive. splits; trivial; try exd. lra. dv H. dv H1. chR. field. lra.
Qed.
Lemma WE2_T T : 0 < T -> is_derive (fun t => rsum N (fun i => x i * (WS N (d2lam t) x i / WS N (lam t) x i - WS N (dlam t) x i ^ 2 / WS N (lam t) x i ^ 2))) T
   (rsum N (fun i => x i * (WS N (d3lam T) x i / WS N (lam T) x i - 3 * WS N (d2lam T) x i * WS N (dlam T) x i / WS N (lam T) x i ^ 2 + 2 * WS N (dlam T) x i ^ 3 / WS N (lam T) x i ^ 3))).
Proof.
  intros HT. apply (is_derive_rsum N (fun i t => x i * (WS N (d2lam t) x i / WS N (lam t) x i - WS N (dlam t) x i ^ 2 / WS N (lam t) x i ^ 2))). intros i Hi. apply (is_derive_scal (fun t => WS N (d2lam t) x i / WS N (lam t) x i - WS N (dlam t) x i ^ 2 / WS N (lam t) x i ^ 2) T (x i)).
  pose proof (WS_T lam dlam T i ltac:(intros; now apply lam_d)) as H. pose proof (WS_T dlam d2lam T i ltac:(intros; now apply dlam_d)) as H1. pose proof (WS_T d2lam d3lam T i ltac:(intros; now apply d2lam_d)) as H2. pose proof (HP T HT i Hi) as H0.
  asf s H. asf u H1. asf v H2.
  change (WS N (lam T) x i) with (s T) in *. change (WS N (dlam T) x i) with (u T) in *. change (WS N (d2lam T) x i) with (v T) in *. change (is_derive (fun t => v t / s t - u t ^ 2 / s t ^ 2) T (WS N (d3lam T) x i / s T - 3 * v T * u T / s T ^ 2 + 2 * u T ^ 3 / s T ^ 3)). clearbody s u v.
  auto_derive. splits; trivial; try exd; nz. dv H. dv H1. dv H2. chR. field. lra.
Qed.
Lemma Wg_T T k : 0 < T -> (k < N)%nat -> is_derive (fun t => Wg N (lam t) x k) T (WS N (dlam T) x k / WS N (lam T) x k + rsum N (fun i => x i * (dlam T i k / WS N (lam T) x i - lam T i k * WS N (dlam T) x i / WS N (lam T) x i ^ 2))).
Proof.
  intros HT Hk. unfold Wg. apply (is_derive_plus (fun t => ln (WS N (lam t) x k)) (fun t => rsum N (fun i => x i * lam t i k / WS N (lam t) x i)) T).
  - pose proof (WS_T lam dlam T k ltac:(intros; now apply lam_d)) as H. pose proof (HP T HT k Hk) as H0. asf s H. change (WS N (lam T) x k) with (s T) in *. change (is_derive (fun t => ln (s t)) T (WS N (dlam T) x k / s T)). clearbody s.
    auto_derive. splits; trivial; try exd. dv H. chR. field. lra.
  - apply (is_derive_rsum N (fun i t => x i * lam t i k / WS N (lam t) x i)). intros i Hi.
    pose proof (WS_T lam dlam T i ltac:(intros; now apply lam_d)) as H. pose proof (HP T HT i Hi) as H0. pose proof (lam_d T i k HT) as H1.
    asf s H. asf u H1. change (WS N (lam T) x i) with (s T) in *. change (lam T i k) with (u T). change (is_derive (fun t => x i * u t / s t) T (x i * (dlam T i k / s T - u T * WS N (dlam T) x i / s T ^ 2))). clearbody s u.
    auto_derive. splits; trivial; try exd. lra. dv H. dv H1. chR. field. lra.
Qed.
Lemma dGE_eq T : 0 < T -> Wilson_dGE_dT N T x a b c d e f = - Rgas * (WE N (lam T) x + T * rsum N (fun i => x i * (WS N (dlam T) x i / WS N (lam T) x i))).
Proof.
  intros HT. unfold Wilson_dGE_dT, wilson_dGE_dT. entries. rewrite GE_eq by auto. rewrite (rsum_ext N _ (fun i => x i * (WS N (dlam T) x i / WS N (lam T) x i))). field. lra. intros. rewrite dS_eq, inv_eq by auto. unfold Rdiv. ring.
Qed.
Lemma d2GE_eq T : 0 < T -> Wilson_d2GE_dT2 N T x a b c d e f = - Rgas * (2 * rsum N (fun i => x i * (WS N (dlam T) x i / WS N (lam T) x i)) + T * rsum N (fun i => x i * (WS N (d2lam T) x i / WS N (lam T) x i - WS N (dlam T) x i ^ 2 / WS N (lam T) x i ^ 2))).
Proof.
  intros HT. unfold Wilson_d2GE_dT2, wilson_d2GE_dT2. entries.
  match goal with |- context [loop N ?st0 (0, 0)] => assert (loop N st0 (0, 0) = (0 + rsum N (fun i => x i * (WS N (dlam T) x i / WS N (lam T) x i)), 0 + rsum N (fun i => x i * (WS N (d2lam T) x i / WS N (lam T) x i - WS N (dlam T) x i ^ 2 / WS N (lam T) x i ^ 2)))) as -> end.
  { rewrite <- loop_acc2. apply loop_ext. intros i [s0 s1] Hi. cbv beta iota zeta. rewrite dS_eq, inv_eq, d2S_eq by auto. pose proof (HP T HT i Hi). apply f_equal2; field; lra. }
  ring.
Qed.
Lemma d3GE_eq T : 0 < T -> Wilson_d3GE_dT3 N T x a b c d e f = - Rgas * (3 * rsum N (fun i => x i * (WS N (d2lam T) x i / WS N (lam T) x i - WS N (dlam T) x i ^ 2 / WS N (lam T) x i ^ 2)) +
    T * (rsum N (fun i => x i * (WS N (d3lam T) x i / WS N (lam T) x i - 3 * WS N (d2lam T) x i * WS N (dlam T) x i / WS N (lam T) x i ^ 2 + 2 * WS N (dlam T) x i ^ 3 / WS N (lam T) x i ^ 3)))).
Proof.
  intros HT. unfold Wilson_d3GE_dT3, wilson_d3GE_dT3. entries. rewrite !Rplus_0_l.
  rewrite (rsum_ext N _ (fun i => x i * (WS N (d2lam T) x i / WS N (lam T) x i - WS N (dlam T) x i ^ 2 / WS N (lam T) x i ^ 2))).
  2:{ intros i Hi. rewrite dS_eq, inv_eq, d2S_eq by auto. pose proof (HP T HT i Hi). field. lra. }
  f_equal. f_equal. f_equal. rewrite (Rmult_comm _ 3), (Rmult_comm _ 2), <- !rsum_scal_l, <- rsum_minus, <- rsum_plus. apply rsum_ext. intros i Hi. rewrite dS_eq, inv_eq, d2S_eq, d3S_eq by auto. pose proof (HP T HT i Hi). field. lra.
Qed.
Lemma dTdx_eq T k : 0 < T -> (k < N)%nat -> Wilson_d2GE_dTdxs N T x a b c d e f k = - Rgas * (Wg N (lam T) x k + T * (WS N (dlam T) x k / WS N (lam T) x k + rsum N (fun i => x i * (dlam T i k / WS N (lam T) x i - lam T i k * WS N (dlam T) x i / WS N (lam T) x i ^ 2)))).
Proof.
  intros HT Hk. unfold Wilson_d2GE_dTdxs, wilson_d2GE_dTdxs. cbv zeta.
  match goal with |- loop N ?st0 ?w k = _ => rewrite (loop_fill N st0 (fun k => - Rgas * (Wg N (lam T) x k + T * (WS N (dlam T) x k / WS N (lam T) x k + rsum N (fun i => x i * (dlam T i k / WS N (lam T) x i - lam T i k * WS N (dlam T) x i / WS N (lam T) x i ^ 2))))) w k Hk) end; auto.
  intros i o Hi. match goal with |- context [loop N ?st0 (?u, 0)] => assert (loop N st0 (u, 0) = (u + rsum N (fun j => x j * (dlam T j i / WS N (lam T) x j - lam T j i * WS N (dlam T) x j / WS N (lam T) x j ^ 2)), 0 + rsum N (fun j => x j * lam T j i / WS N (lam T) x j))) as -> end.
  { rewrite <- loop_acc2. apply loop_ext. intros j [s0 s1] Hj. cbv beta iota zeta. rewrite dS_eq, inv_eq, lam_eq, dlam_eq by auto. pose proof (HP T HT j Hj). apply f_equal2; field; lra. }
  f_equal. rewrite dS_eq, inv_eq, log_eq by auto. unfold Wg, Rdiv. ring.
Qed.
End AlongT.
Lemma amounts_wpos x T : amounts N x -> wpos N (lam T) x.
Proof. intros Hx i Hi. apply amounts_pos; auto. intros. apply lam_pos. Qed.
Lemma pos_T T (P : R -> Prop) : 0 < T -> (forall t, 0 < t -> P t) -> locally T P.
Proof. intros HT H. apply (locally_interval P T (Finite 0) p_infty). exact HT. exact I. intros t Ht _. apply H. exact Ht. Qed.
End Wilson.

(* ---- statements ---- *)
Section Statements.
Variables (N : nat) (lambda_as lambda_bs lambda_cs lambda_ds lambda_es lambda_fs : nat -> nat -> R).
Let GE T x := Wilson_GE N T x lambda_as lambda_bs lambda_cs lambda_ds lambda_es lambda_fs.
Let dGE_dT T x := Wilson_dGE_dT N T x lambda_as lambda_bs lambda_cs lambda_ds lambda_es lambda_fs.
Let d2GE_dT2 T x := Wilson_d2GE_dT2 N T x lambda_as lambda_bs lambda_cs lambda_ds lambda_es lambda_fs.
Let d3GE_dT3 T x := Wilson_d3GE_dT3 N T x lambda_as lambda_bs lambda_cs lambda_ds lambda_es lambda_fs.
Let dGE_dxs T x := Wilson_dGE_dxs N T x lambda_as lambda_bs lambda_cs lambda_ds lambda_es lambda_fs.
Let d2GE_dxixjs T x := Wilson_d2GE_dxixjs N T x lambda_as lambda_bs lambda_cs lambda_ds lambda_es lambda_fs.
Let d3GE_dxixjxks T x := Wilson_d3GE_dxixjxks N T x lambda_as lambda_bs lambda_cs lambda_ds lambda_es lambda_fs.
Let d2GE_dTdxs T x := Wilson_d2GE_dTdxs N T x lambda_as lambda_bs lambda_cs lambda_ds lambda_es lambda_fs.
Let gammas T x := Wilson_gammas N T x lambda_as lambda_bs lambda_cs lambda_ds lambda_es lambda_fs.
Let lambdas T := Wilson_lambdas N T lambda_as lambda_bs lambda_cs lambda_ds lambda_es lambda_fs.
Let Lam T i j := wilson_lambda_form (lambda_as i j) (lambda_bs i j) (lambda_cs i j) (lambda_ds i j) (lambda_es i j) (lambda_fs i j) T.

Theorem C20_Wilson_lambdas T i j : 0 < T -> (i < N)%nat -> (j < N)%nat ->
  lambdas T i j = Lam T i j /\
  is_derive (fun t => lambdas t i j) T (Wilson_dlambdas_dT N T lambda_as lambda_bs lambda_cs lambda_ds lambda_es lambda_fs i j) /\
  is_derive (fun t => Wilson_dlambdas_dT N t lambda_as lambda_bs lambda_cs lambda_ds lambda_es lambda_fs i j) T (Wilson_d2lambdas_dT2 N T lambda_as lambda_bs lambda_cs lambda_ds lambda_es lambda_fs i j) /\
  is_derive (fun t => Wilson_d2lambdas_dT2 N t lambda_as lambda_bs lambda_cs lambda_ds lambda_es lambda_fs i j) T (Wilson_d3lambdas_dT3 N T lambda_as lambda_bs lambda_cs lambda_ds lambda_es lambda_fs i j).
Proof.
  intros HT Hi Hj. unfold lambdas. rewrite dlam_eq, d2lam_eq, d3lam_eq by auto. splits. now apply lam_eq.
  - eapply is_derive_ext_loc. 2: now apply lam_d. apply pos_T; auto. intros t Ht. now rewrite lam_eq.
  - eapply is_derive_ext_loc. 2: now apply dlam_d. apply pos_T; auto. intros t Ht. now rewrite dlam_eq.
  - eapply is_derive_ext_loc. 2: now apply d2lam_d. apply pos_T; auto. intros t Ht. now rewrite d2lam_eq.
Qed.
Theorem C20_Wilson_GE_form x T : 0 < T -> GE T x = wilson_GE_form N x (Lam T) (Rgas * T).
Proof. intros. unfold GE. rewrite GE_eq by auto. reflexivity. Qed.
Lemma dT1 x T : amounts N x -> 0 < T -> is_derive (fun t => GE t x) T (dGE_dT T x).
Proof.
  intros Hx HT. unfold GE, dGE_dT. assert (HP : forall t, 0 < t -> wpos N (lam lambda_as lambda_bs lambda_cs lambda_ds lambda_es lambda_fs t) x) by (intros; now apply amounts_wpos).
  rewrite dGE_eq by auto. eapply is_derive_ext_loc. { apply (pos_T T); auto. intros t Ht. symmetry. now apply GE_eq. }
  pose proof (WE_T _ _ _ _ _ _ _ x HP T HT) as H. asf s H. change (WE N (lam lambda_as lambda_bs lambda_cs lambda_ds lambda_es lambda_fs T) x) with (s T). change (is_derive (fun t => - (Rgas * t) * s t) T (- Rgas * (s T + T * rsum N (fun i => x i * (WS N (dlam lambda_as lambda_bs lambda_cs lambda_ds lambda_es lambda_fs T) x i / WS N (lam lambda_as lambda_bs lambda_cs lambda_ds lambda_es lambda_fs T) x i))))). clearbody s.
  auto_derive. exd. dv H. chR. ring.
Qed.
Lemma dT2 x T : amounts N x -> 0 < T -> is_derive (fun t => dGE_dT t x) T (d2GE_dT2 T x).
Proof.
  intros Hx HT. unfold d2GE_dT2, dGE_dT. assert (HP : forall t, 0 < t -> wpos N (lam lambda_as lambda_bs lambda_cs lambda_ds lambda_es lambda_fs t) x) by (intros; now apply amounts_wpos).
  rewrite d2GE_eq by auto. eapply is_derive_ext_loc. { apply (pos_T T); auto. intros t Ht. symmetry. now apply dGE_eq. }
  pose proof (WE_T _ _ _ _ _ _ _ x HP T HT) as H. pose proof (WE1_T _ _ _ _ _ _ _ x HP T HT) as H1. asf s H. asf u H1. match type of H1 with is_derive _ _ ?l => set (v := l) in * end. match type of H with is_derive _ _ ?l => change l with (u T) in * end.
  change (is_derive (fun t => - Rgas * (s t + t * u t)) T (- Rgas * (2 * u T + T * v))). clearbody s u v.
  auto_derive. splits; trivial; exd. dv H. dv H1. chR. ring.
Qed.
Lemma dT3 x T : amounts N x -> 0 < T -> is_derive (fun t => d2GE_dT2 t x) T (d3GE_dT3 T x).
Proof.
  intros Hx HT. unfold d2GE_dT2, d3GE_dT3. assert (HP : forall t, 0 < t -> wpos N (lam lambda_as lambda_bs lambda_cs lambda_ds lambda_es lambda_fs t) x) by (intros; now apply amounts_wpos).
  rewrite d3GE_eq by auto. eapply is_derive_ext_loc. { apply (pos_T T); auto. intros t Ht. symmetry. now apply d2GE_eq. }
  pose proof (WE1_T _ _ _ _ _ _ _ x HP T HT) as H. pose proof (WE2_T _ _ _ _ _ _ _ x HP T HT) as H1. asf s H. asf u H1. match type of H1 with is_derive _ _ ?l => set (v := l) in * end. match type of H with is_derive _ _ ?l => change l with (u T) in * end.
  change (is_derive (fun t => - Rgas * (2 * s t + t * u t)) T (- Rgas * (3 * u T + T * v))). clearbody s u v.
  auto_derive. splits; trivial; exd. dv H. dv H1. chR. ring.
Qed.
Theorem C20_Wilson_dGE_dT x T : amounts N x -> 0 < T -> is_derive (fun t => GE t x) T (dGE_dT T x).
Proof. apply dT1. Qed.
Theorem C20_Wilson_d2GE_dT2 x T : amounts N x -> 0 < T -> second_derive (fun t => GE t x) T (d2GE_dT2 T x).
Proof. intros Hx HT. exists (fun t => dGE_dT t x). split. apply pos_T; auto. intros; now apply dT1. now apply dT2. Qed.
Theorem C20_Wilson_d3GE_dT3 x T : amounts N x -> 0 < T -> third_derive (fun t => GE t x) T (d3GE_dT3 T x).
Proof. intros Hx HT. exists (fun t => dGE_dT t x), (fun t => d2GE_dT2 t x). splits. apply pos_T; auto. intros; now apply dT1. apply pos_T; auto. intros; now apply dT2. now apply dT3. Qed.
Lemma dx1 x T k : wpos N (Lam T) x -> 0 < T -> (k < N)%nat -> partial (GE T) x k (dGE_dxs T x k).
Proof. intros Hx HT Hk. unfold dGE_dxs. rewrite dx_eq by auto. eapply partial_ext. intros y. symmetry. now apply GE_eq. apply partial_scal. now apply WE_partial. Qed.
Theorem C20_Wilson_dGE_dxs x T k : amounts N x -> 0 < T -> (k < N)%nat -> partial (GE T) x k (dGE_dxs T x k).
Proof. intros Hx HT Hk. apply dx1; auto. now apply amounts_wpos. Qed.
Lemma dx2 x T k m : wpos N (Lam T) x -> 0 < T -> (k < N)%nat -> (m < N)%nat -> partial (fun y => dGE_dxs T y k) x m (d2GE_dxixjs T x k m).
Proof. intros Hx HT Hk Hm. unfold dGE_dxs, d2GE_dxixjs. rewrite d2x_eq by auto. eapply partial_ext. intros y. symmetry. now apply dx_eq. apply partial_scal. now apply Wg_partial. Qed.
Theorem C20_Wilson_d2GE_dxixjs x T k m : amounts N x -> 0 < T -> (k < N)%nat -> (m < N)%nat -> second_partial N (GE T) x k m (d2GE_dxixjs T x k m).
Proof.
  intros Hx HT Hk Hm. exists (fun y => dGE_dxs T y k). split. 2: apply dx2; auto; now apply amounts_wpos.
  eapply near_impl. 2: apply near_wpos; apply amounts_wpos; exact Hx. intros y Hy. apply dx1; auto. exact Hy.
Qed.
Theorem C20_Wilson_d3GE_dxixjxks x T k m q : amounts N x -> 0 < T -> (k < N)%nat -> (m < N)%nat -> (q < N)%nat -> third_partial N (GE T) x k m q (d3GE_dxixjxks T x k m q).
Proof.
  intros Hx HT Hk Hm Hq. exists (fun y => dGE_dxs T y k), (fun y => d2GE_dxixjs T y k m). splits.
  - eapply near_impl. 2: apply near_wpos; apply amounts_wpos; exact Hx. intros y Hy. apply dx1; auto. exact Hy.
  - eapply near_impl. 2: apply near_wpos; apply amounts_wpos; exact Hx. intros y Hy. apply dx2; auto. exact Hy.
  - unfold d3GE_dxixjxks, d2GE_dxixjs. pose proof (amounts_wpos N lambda_as lambda_bs lambda_cs lambda_ds lambda_es lambda_fs x T Hx) as Hp. rewrite d3x_eq by auto.
    apply (partial_near N _ (fun y => - (Rgas * T) * WH N (Lam T) y k m)); auto.
    eapply near_impl. 2: apply near_wpos; exact Hp. intros y Hy. now apply d2x_eq.
    apply partial_scal. now apply WH_partial.
Qed.
Theorem C20_Wilson_d2GE_dTdxs x T k : amounts N x -> 0 < T -> (k < N)%nat -> mixed_partial GE T x k (d2GE_dTdxs T x k).
Proof.
  intros Hx HT Hk. exists (fun t => dGE_dxs t x k). split. apply pos_T; auto. intros. now apply C20_Wilson_dGE_dxs.
  unfold d2GE_dTdxs, dGE_dxs. assert (HP : forall t, 0 < t -> wpos N (lam lambda_as lambda_bs lambda_cs lambda_ds lambda_es lambda_fs t) x) by (intros; now apply amounts_wpos).
  rewrite dTdx_eq by auto. eapply is_derive_ext_loc. { apply (pos_T T); auto. intros t Ht. symmetry. now apply dx_eq. }
  pose proof (Wg_T _ _ _ _ _ _ _ x HP T k HT Hk) as H. asf s H. match type of H with is_derive _ _ ?l => set (v := l) in * end. change (is_derive (fun t => - (Rgas * t) * s t) T (- Rgas * (s T + T * v))). clearbody s v.
  auto_derive. exd. dv H. chR. ring.
Qed.
(* activity coefficients *)
Theorem C20_Wilson_ln_gamma ns T i : 0 < T -> amounts N ns -> (i < N)%nat -> is_ln_gamma N (GE T) (Rgas * T) ns i (ln (gammas T (fractions N ns) i)).
Proof.
  intros HT Hx Hi. pose proof (amounts_wpos N lambda_as lambda_bs lambda_cs lambda_ds lambda_es lambda_fs ns T Hx) as Hp. pose proof Hx as [H0 H1]. unfold is_ln_gamma, gammas.
  assert (Hpf : wpos N (lam lambda_as lambda_bs lambda_cs lambda_ds lambda_es lambda_fs T) (fractions N ns)). { intros k Hk. change (fractions N ns) with (fun j => ns j * / rsum N ns). rewrite WS_scal. apply Rmult_lt_0_compat. now apply Hp. now apply Rinv_0_lt_compat. }
  rewrite gam_eq, ln_exp, Wg_frac by auto.
  apply (total_near N (GE T) (fun y => - (Rgas * T) * (WE N (Lam T) y - rsum N y * ln (rsum N y)))); auto.
  - eapply near_impl. 2: apply (near_and _ _ _ _ (near_wpos N _ ns Hp) (near_sum_pos N ns H1)). intros y [Hy1 Hy2]. unfold GE. rewrite GE_eq by auto. fold (Lam T) in Hy1. change (lam lambda_as lambda_bs lambda_cs lambda_ds lambda_es lambda_fs T) with (Lam T). rewrite <- WE_frac by auto. field. lra.
  - eapply partial_val. { apply partial_scal. apply (partial_minus (WE N (Lam T)) (fun y => rsum N y * ln (rsum N y))). now apply WE_partial.
      apply (partial_mult (fun y => rsum N y) (fun y => ln (rsum N y))). apply (partial_ext (fun y => rsum N (fun j => y j * 1))). intros; apply rsum_ext; intros; ring. now apply (partial_lin N ns i (fun _ => 1)).
      apply partial_ln. exact H1. apply (partial_ext (fun y => rsum N (fun j => y j * 1))). intros; apply rsum_ext; intros; ring. now apply (partial_lin N ns i (fun _ => 1)). }
    cbv beta. change (lam lambda_as lambda_bs lambda_cs lambda_ds lambda_es lambda_fs T) with (Lam T). field. lra.
Qed.
Theorem C20_Wilson_GE_sum x T : 0 < T -> amounts N x -> rsum N x = 1 -> GE T x = Rgas * T * rsum N (fun i => x i * ln (gammas T x i)).
Proof.
  intros HT Hx Hs. pose proof (amounts_wpos N lambda_as lambda_bs lambda_cs lambda_ds lambda_es lambda_fs x T Hx) as Hp. unfold GE. rewrite GE_eq by auto.
  rewrite (rsum_ext N _ (fun i => x i - x i * Wg N (lam lambda_as lambda_bs lambda_cs lambda_ds lambda_es lambda_fs T) x i)). 2:{ intros. unfold gammas. rewrite gam_eq, ln_exp by auto. ring. }
  rewrite rsum_minus, Wg_sum by auto. ring.
Qed.
(* gammas_from_args with the lists made by gammas_args, whatever its two work lists contain, provided the output list is absent
   (None: a new list of zeros) or holds zeros *)
Theorem C20_gammas_from_args x T w1 w2 i : 0 < T -> (i < N)%nat -> wilson_gammas_from_args x N (lambdas T) w1 w2 (fun _ => 0) i = gammas T x i.
Proof.
  intros HT Hi. unfold wilson_gammas_from_args, gammas, Wilson_gammas. cbv zeta. rewrite !wilson_gammas_eq by auto.
  assert (E : forall j, (j < N)%nat -> loop N (fun i o => upd o i (1 / o i)) (wilson_xj_Lambda_ijs x (lambdas T) N w1) j = Wilson_xj_Lambda_ijs_inv N T x lambda_as lambda_bs lambda_cs lambda_ds lambda_es lambda_fs j).
  { intros j Hj. rewrite (loop_upd_self N (fun i v => 1 / v)) by auto. unfold Wilson_xj_Lambda_ijs_inv, Wilson_xj_Lambda_ijs. cbv zeta. unfold wilson_xj_Lambda_ijs. rewrite !(loop_upd_lt N) by auto. reflexivity. }
  rewrite E by auto. f_equal. f_equal. f_equal. f_equal. apply rsum_ext. intros j Hj. now rewrite E.
Qed.
(* the stand-alone function *)
Theorem C20_Wilson_gammas_function x T i : 0 < T -> amounts N x -> (i < N)%nat -> Wilson_gammas_function x (lambdas T) N i = gammas T x i.
Proof.
  intros HT Hx Hi. unfold gammas. pose proof (amounts_wpos N lambda_as lambda_bs lambda_cs lambda_ds lambda_es lambda_fs x T Hx) as Hp. rewrite gam_eq by auto. unfold Wilson_gammas_function. entries. f_equal.
  assert (E : forall j, (j < N)%nat -> loop N (fun j o => upd o j (loop N (fun k t => t + lambdas T j k * x k) 0)) (fun _ => 0) j = WS N (Lam T) x j).
  { intros j Hj. rewrite (loop_upd_lt N) by auto. rewrite loop_rsum, Rplus_0_l. apply rsum_ext. intros. unfold lambdas. rewrite lam_eq by auto. apply Rmult_comm. }
  unfold Wg. match goal with |- 1 - ln (0 + rsum N ?F) - _ = _ => replace (0 + rsum N F) with (WS N (Lam T) x i) end.
  2:{ rewrite Rplus_0_l. apply rsum_ext. intros. unfold lambdas. rewrite lam_eq by auto. apply Rmult_comm. }
  rewrite (rsum_ext N _ (fun k => x k * Lam T k i / WS N (Lam T) x k)). 2:{ intros j Hj. cbv beta. rewrite E by auto. unfold lambdas. rewrite lam_eq by auto. unfold Rdiv. f_equal. apply Rmult_comm. }
  change (lam lambda_as lambda_bs lambda_cs lambda_ds lambda_es lambda_fs T) with (Lam T). ring.
Qed.
End Statements.

(* ---- binary mixtures ---- *)
Definition lam2 (u v : R) : nat -> nat -> R := fun i j => match i, j with O, S O => u | S O, O => v | _, _ => 1 end.
Definition wb0 x l12 l21 := exp ((l12 * (1 / (x + (1 - x) * l12)) - l21 * (1 / (1 - x + x * l21))) * (1 - x)) * (1 / (x + (1 - x) * l12)).
Definition wb1 x l12 l21 := exp (- (l12 * (1 / (x + (1 - x) * l12)) - l21 * (1 / (1 - x + x * l21))) * x) * (1 / (1 - x + x * l21)).
Lemma min_pos : 0 < MIN_LAMBDA_WILSON. Proof. apply Rdiv_lt_0_compat. lra. apply pow_lt. lra. Qed.
Lemma wbin_eq xs l12 l21 buf pts k : MIN_LAMBDA_WILSON <= l12 -> MIN_LAMBDA_WILSON <= l21 -> (k < pts)%nat ->
  wilson_gammas_binaries xs l12 l21 buf pts (k * 2)%nat = wb0 (xs (k * 2)%nat) l12 l21 /\ wilson_gammas_binaries xs l12 l21 buf pts (k * 2 + 1)%nat = wb1 (xs (k * 2)%nat) l12 l21.
Proof.
  intros H1 H2 Hk. unfold wilson_gammas_binaries. cbv zeta. rewrite !Rltb_false by auto. apply (loop_pairs (fun i => wb0 (xs (i * 2)%nat) l12 l21) (fun i => wb1 (xs (i * 2)%nat) l12 l21) pts buf k Hk).
Qed.
Theorem C20_wilson_gammas_binaries xs l12 l21 buf pts k : MIN_LAMBDA_WILSON <= l12 -> MIN_LAMBDA_WILSON <= l21 -> (k < pts)%nat -> 0 <= xs (k * 2)%nat <= 1 ->
  let x := pair2 (xs (k * 2)%nat) (1 - xs (k * 2)%nat) in
  wilson_gammas_binaries xs l12 l21 buf pts (k * 2)%nat = Wilson_gammas_function x (lam2 l12 l21) 2 0 /\
  wilson_gammas_binaries xs l12 l21 buf pts (k * 2 + 1)%nat = Wilson_gammas_function x (lam2 l12 l21) 2 1.
Proof.
  intros H1 H2 Hk Hx. destruct (wbin_eq xs l12 l21 buf pts k H1 H2 Hk) as [-> ->]. cbv zeta. generalize dependent (xs (k * 2)%nat). intros x0 Hx. pose proof min_pos.
  unfold Wilson_gammas_function, wb0, wb1, pair2, lam2. cbn [loop]. unfold upd. cbn [Nat.eqb].
  assert (0 < x0 + (1 - x0) * l12) by nra. assert (0 < 1 - x0 + x0 * l21) by nra.
  rewrite !Rplus_0_l, !Rmult_1_l. unfold Rminus. rewrite !(Rmult_comm l12 (1 + - x0)), !(Rmult_comm l21 x0), !(Rplus_comm (x0 * l21) (1 + - x0)). fold (1 - x0).
  set (A := x0 + (1 - x0) * l12) in *. set (B := 1 - x0 + x0 * l21) in *.
  split.
  - replace (1 / A) with (exp (- ln A)) at 2 by (rewrite exp_Ropp, exp_ln by auto; field; lra). rewrite <- exp_plus. f_equal.
    generalize (ln A). intros. unfold A, B in *. field. lra.
  - replace (1 / B) with (exp (- ln B)) at 2 by (rewrite exp_Ropp, exp_ln by auto; field; lra). rewrite <- exp_plus. f_equal.
    generalize (ln B). intros. unfold A, B in *. field. lra.
Qed.
Theorem C20_wilson_gammas_binaries_jac xs l12 l21 buf calc pts k : MIN_LAMBDA_WILSON < l12 -> MIN_LAMBDA_WILSON < l21 -> (k < pts)%nat -> 0 <= xs (k * 2)%nat <= 1 ->
  let J := wilson_gammas_binaries_jac xs l12 l21 calc pts in
  forall r, (r = k * 2 \/ r = k * 2 + 1)%nat ->
  is_derive (fun t => wilson_gammas_binaries xs t l21 buf pts r) l12 (J r 0%nat) /\ is_derive (fun t => wilson_gammas_binaries xs l12 t buf pts r) l21 (J r 1%nat).
Proof.
  intros H1 H2 Hk Hx J r Hr. pose proof min_pos as Hm.
  assert (HJ : J (k * 2)%nat 0%nat = - wb0 (xs (k * 2)%nat) l12 l21 * l12 * (1 - xs (k * 2)%nat) ^ 2 / (xs (k * 2)%nat + (1 - xs (k * 2)%nat) * l12) ^ 2 /\
               J (k * 2)%nat 1%nat = wb0 (xs (k * 2)%nat) l12 l21 * (1 - xs (k * 2)%nat) / (1 - xs (k * 2)%nat + xs (k * 2)%nat * l21) * (xs (k * 2)%nat * l21 / (1 - xs (k * 2)%nat + xs (k * 2)%nat * l21) - 1) /\
               J (k * 2 + 1)%nat 0%nat = wb1 (xs (k * 2)%nat) l12 l21 * xs (k * 2)%nat / (xs (k * 2)%nat + (1 - xs (k * 2)%nat) * l12) * ((1 - xs (k * 2)%nat) * l12 / (xs (k * 2)%nat + (1 - xs (k * 2)%nat) * l12) - 1) /\
               J (k * 2 + 1)%nat 1%nat = - wb1 (xs (k * 2)%nat) l12 l21 * l21 * xs (k * 2)%nat ^ 2 / (1 - xs (k * 2)%nat + xs (k * 2)%nat * l21) ^ 2).
  { unfold J, wilson_gammas_binaries_jac. cbv zeta. rewrite !Rltb_false by lra.
    match goal with |- context [loop pts (fun i_ o => updm (updm (updm (updm o _ _ (@?a0 i_)) _ _ (@?a1 i_)) _ _ (@?a2 i_)) _ _ (@?a3 i_)) calc] => destruct (jac2 a0 a1 a2 a3 pts calc k Hk) as (-> & -> & -> & ->) end.
    generalize dependent (xs (k * 2)%nat). intros x0 Hx. unfold wb0, wb1.
    rewrite !(Rmult_comm l12 (1 - x0)), !(Rmult_comm l21 x0), !(Rplus_comm ((1 - x0) * l12) x0), !(Rplus_comm (x0 * l21) (1 - x0)).
    assert (PA : 0 < x0 + (1 - x0) * l12) by nra. assert (PB : 0 < 1 - x0 + x0 * l21) by nra. set (A := x0 + (1 - x0) * l12) in *. set (B := 1 - x0 + x0 * l21) in *. clearbody A B.
    rewrite !(Rmult_comm (1 / A) l12), !(Rmult_comm (1 / B) l21). generalize (exp ((l12 * (1 / A) - l21 * (1 / B)) * (1 - x0))) (exp (- (l12 * (1 / A) - l21 * (1 / B)) * x0)). intros. splits; field; lra. }
  assert (HB : forall u v, MIN_LAMBDA_WILSON <= u -> MIN_LAMBDA_WILSON <= v -> wilson_gammas_binaries xs u v buf pts r = if Nat.eqb r (k * 2) then wb0 (xs (k * 2)%nat) u v else wb1 (xs (k * 2)%nat) u v).
  { intros u v Hu Hv. destruct (wbin_eq xs u v buf pts k Hu Hv Hk) as [Ha Hb]. destruct Hr as [-> | ->]. now rewrite Nat.eqb_refl. destruct (Nat.eqb_spec (k * 2 + 1) (k * 2)); try lia. exact Hb. }
  clearbody J. generalize dependent (xs (k * 2)%nat). intros x0 Hx (J1 & J2 & J3 & J4) HB.
  assert (PA : 0 < x0 + (1 - x0) * l12) by nra. assert (PB : 0 < 1 - x0 + x0 * l21) by nra.
  assert (D : (is_derive (fun t => wb0 x0 t l21) l12 (J (k * 2)%nat 0%nat) /\ is_derive (fun t => wb0 x0 l12 t) l21 (J (k * 2)%nat 1%nat)) /\ is_derive (fun t => wb1 x0 t l21) l12 (J (k * 2 + 1)%nat 0%nat) /\ is_derive (fun t => wb1 x0 l12 t) l21 (J (k * 2 + 1)%nat 1%nat)).
  { rewrite J1, J2, J3, J4. clear -PA PB Hx H1 H2 Hm. splits; unfold wb0, wb1; auto_derive; splits; trivial; try (apply Rgt_not_eq; lra); chR; unfold Rdiv, Rminus in *; match goal with |- context [exp ?q] => generalize (exp q) end; intros; field; lra. }
  destruct D as [[D1 D2] [D3 D4]]. split.
  - apply (is_derive_ext_loc (fun t => if Nat.eqb r (k * 2) then wb0 x0 t l21 else wb1 x0 t l21)). apply (open_loc MIN_LAMBDA_WILSON); auto. intros u Hu. symmetry. apply HB; lra.
    destruct Hr as [-> | ->]; rewrite ?Nat.eqb_refl; try (destruct (Nat.eqb_spec (k * 2 + 1) (k * 2)); try lia); assumption.
  - apply (is_derive_ext_loc (fun t => if Nat.eqb r (k * 2) then wb0 x0 l12 t else wb1 x0 l12 t)). apply (open_loc MIN_LAMBDA_WILSON); auto. intros u Hu. symmetry. apply HB; lra.
    destruct Hr as [-> | ->]; rewrite ?Nat.eqb_refl; try (destruct (Nat.eqb_spec (k * 2 + 1) (k * 2)); try lia); assumption.
Qed.

(* gammas_from_args adds to whatever the caller's output list contains, instead of overwriting it *)
Theorem C20_gammas_from_args_buffer_refuted : exists x L w1 w2 g, amounts 1 x /\ wilson_gammas_from_args x 1 L w1 w2 g 0%nat <> wilson_gammas_from_args x 1 L w1 w2 (fun _ => 0) 0%nat.
Proof.
  exists (fun _ => 1), (fun _ _ => 1), (fun _ => 0), (fun _ => 0), (fun _ => 1). split. split. intros; lra. cbn. lra.
  unfold wilson_gammas_from_args. cbv zeta. rewrite !wilson_gammas_eq by lia. unfold wilson_xj_Lambda_ijs. cbn [loop rsum]. unfold upd. cbn [Nat.eqb].
  replace (1 / (0 + 1 * 1)) with 1 by field. rewrite !Rmult_1_r. intros H. apply exp_inv in H. lra.
Qed.
Example C20_hypotheses_met : amounts 2 (pair2 (1 / 4) (3 / 4)) /\ rsum 2 (pair2 (1 / 4) (3 / 4)) = 1 /\ MIN_LAMBDA_WILSON < 1 / 10 /\ Wilson_gammas_function (pair2 (1 / 2) (1 / 2)) (lam2 3 3) 2 0 <> 1.
Proof.
  splits. split. intros [|[|]] Hi; cbn; lra. cbn; lra. cbn; lra.
  unfold MIN_LAMBDA_WILSON. apply Rmult_lt_reg_r with (10 ^ 20). apply pow_lt; lra. unfold Rdiv. rewrite Rmult_assoc, Rinv_l by (apply pow_nonzero; lra). simpl. lra.
  unfold Wilson_gammas_function, pair2, lam2. cbn [loop]. unfold upd. cbn [Nat.eqb].
  replace (0 + 1 * (1 / 2) + 3 * (1 / 2)) with 2 by field. replace (0 + 3 * (1 / 2) + 1 * (1 / 2)) with 2 by field. replace (1 - ln 2 - (0 + 1 * (1 / 2) / 2 + 3 * (1 / 2) / 2)) with (- ln 2) by field.
  rewrite exp_Ropp, exp_ln by lra. lra.
Qed.
