(* Facts about polynomials in Horner form, about functions glued at a point, and about the extrapolation formulas. *)
From Coq Require Import Reals Arith List Bool String Lra Lia.
From Coquelicot Require Import Coquelicot.
From Coq Require Import List.
From Verif Require Import Base BaseFacts Model_pyerr Model_tdep.
Import ListNotations.
Open Scope R_scope.
Ltac asR := match goal with |- @eq _ ?a ?b => change (@eq R a b) end.

Lemma horner_from_eq (cs : list R) : forall acc x, horner_from acc cs x = acc * x ^ (List.length cs) + horner_from 0 cs x.
Proof. induction cs as [|c cs IH]; intros acc x; cbn [horner_from List.length pow]; [ring|]. rewrite IH, (IH (0 * x + c)). ring. Qed.
Lemma horner_cons c cs x : ext_horner (c :: cs) x = c * x ^ (List.length cs) + ext_horner cs x.
Proof. unfold ext_horner; cbn [horner_from]. rewrite horner_from_eq. ring. Qed.
Lemma horner_nil x : ext_horner [] x = 0.
Proof. reflexivity. Qed.
Lemma ext_der_length cs : List.length (ext_der cs) = pred (List.length cs).
Proof. induction cs as [|c cs IH]; [reflexivity|]. destruct cs as [|c' cs']; [reflexivity|]. cbn [ext_der List.length] in *. rewrite IH. reflexivity. Qed.
Lemma horner_derive cs : forall x, is_derive (fun x => ext_horner cs x) x (ext_horner (ext_der cs) x).
Proof.
  induction cs as [|c cs IH]; intros x.
  - apply (is_derive_ext (fun _ => 0)); [intros; reflexivity|]. rewrite horner_nil. apply (is_derive_const 0).
  - destruct cs as [|c' cs'].
    + apply (is_derive_ext (fun _ => c)); [intros; unfold ext_horner; cbn; ring|]. cbn [ext_der]. rewrite horner_nil. apply (is_derive_const c).
    + apply (is_derive_ext (fun x => c * x ^ (List.length (c' :: cs')) + ext_horner (c' :: cs') x)); [intros; now rewrite <- horner_cons|].
      replace (ext_horner (ext_der (c :: c' :: cs')) x) with (c * (INR (List.length (c' :: cs')) * 1 * x ^ pred (List.length (c' :: cs'))) + ext_horner (ext_der (c' :: cs')) x).
      * apply (is_derive_plus (fun x => c * x ^ List.length (c' :: cs'))); [|apply IH]. apply is_derive_scal. apply is_derive_pow. apply (is_derive_id x).
      * change (ext_der (c :: c' :: cs')) with (INR (List.length (c' :: cs')) * c :: ext_der (c' :: cs')). rewrite horner_cons, ext_der_length. ring.
Qed.

Lemma glue_derive (f g h : R -> R) x d eps : 0 < eps -> (forall y, Rabs (y - x) < eps -> y <= x -> h y = f y) -> (forall y, Rabs (y - x) < eps -> x <= y -> h y = g y) ->
  is_derive f x d -> is_derive g x d -> is_derive h x d.
Proof.
  intros He Hf Hg Df Dg. apply is_derive_Reals in Df. apply is_derive_Reals in Dg. apply is_derive_Reals. intros e He'.
  destruct (Df e He') as [d1 H1]. destruct (Dg e He') as [d2 H2].
  assert (Hm : 0 < Rmin eps (Rmin d1 d2)) by (repeat apply Rmin_glb_lt; try apply cond_pos; auto).
  exists (mkposreal _ Hm). intros k Hk Hkl. cbn in Hkl.
  assert (Rabs k < eps) by (eapply Rlt_le_trans; [exact Hkl|apply Rmin_l]).
  assert (Rabs k < d1) by (eapply Rlt_le_trans; [exact Hkl|eapply Rle_trans; [apply Rmin_r|apply Rmin_l]]).
  assert (Rabs k < d2) by (eapply Rlt_le_trans; [exact Hkl|eapply Rle_trans; [apply Rmin_r|apply Rmin_r]]).
  assert (Hx : Rabs (x - x) < eps) by (replace (x - x) with 0 by ring; rewrite Rabs_R0; auto).
  assert (Hxk : Rabs (x + k - x) < eps) by (replace (x + k - x) with k by ring; auto).
  destruct (Rle_or_lt k 0).
  - rewrite (Hf (x + k)), (Hf x); try lra; auto.
  - rewrite (Hg (x + k)), (Hg x); try lra; auto.
Qed.
Lemma glue_continuous (f g h : R -> R) x eps : 0 < eps -> (forall y, Rabs (y - x) < eps -> y <= x -> h y = f y) -> (forall y, Rabs (y - x) < eps -> x <= y -> h y = g y) ->
  continuous f x -> continuous g x -> continuous h x.
Proof.
  intros He Hf Hg Cf Cg. apply continuity_pt_filterlim in Cf. apply continuity_pt_filterlim in Cg. apply continuity_pt_filterlim.
  intros e He'. destruct (Cf e He') as [d1 [P1 H1]]. destruct (Cg e He') as [d2 [P2 H2]].
  exists (Rmin eps (Rmin d1 d2)). split; [repeat apply Rmin_glb_lt; auto|].
  intros y [Hy Hd]. cbn in *. unfold R_dist in *.
  assert (Rabs (y - x) < eps) by (eapply Rlt_le_trans; [exact Hd|apply Rmin_l]).
  assert (Rabs (y - x) < d1) by (eapply Rlt_le_trans; [exact Hd|eapply Rle_trans; [apply Rmin_r|apply Rmin_l]]).
  assert (Rabs (y - x) < d2) by (eapply Rlt_le_trans; [exact Hd|eapply Rle_trans; [apply Rmin_r|apply Rmin_r]]).
  assert (Hx : Rabs (x - x) < eps) by (replace (x - x) with 0 by ring; rewrite Rabs_R0; auto).
  destruct (Rle_or_lt y x).
  - rewrite (Hf y), (Hf x); try lra; auto.
  - rewrite (Hg y), (Hg x); try lra; auto.
Qed.

(* the ends of the range as hypotheses on a clamp *)
Lemma clamp_lipschitz lo hi v x y : (forall m, lo = Some m -> m <= v) -> (forall m, hi = Some m -> v <= m) -> Rabs (clamp lo hi x - clamp lo hi y) <= Rabs (x - y).
Proof.
  intros H1 H2. unfold clamp. destruct lo as [m|], hi as [n|]; try (specialize (H1 _ eq_refl)); try (specialize (H2 _ eq_refl)); repeat match goal with |- context [Rltb ?a ?b] => destruct (Rltb_spec a b) end;
  unfold Rabs; repeat destruct Rcase_abs; lra.
Qed.
Lemma clamp_id lo hi v : (forall m, lo = Some m -> m <= v) -> (forall m, hi = Some m -> v <= m) -> clamp lo hi v = v.
Proof.
  intros H1 H2. unfold clamp. destruct lo as [m|], hi as [n|]; try (specialize (H1 _ eq_refl)); try (specialize (H2 _ eq_refl)); repeat match goal with |- context [Rltb ?a ?b] => destruct (Rltb_spec a b) end; lra.
Qed.
Lemma clamp_continuous lo hi v (f : R -> R) (x : R) : (forall m, lo = Some m -> m <= v) -> (forall m, hi = Some m -> v <= m) -> continuous f x -> continuous (fun y => clamp lo hi (f y)) x.
Proof.
  intros H1 H2 C. apply continuity_pt_filterlim in C. apply continuity_pt_filterlim.
  intros e He. destruct (C e He) as [d [P H]]. exists d. split; [auto|]. intros y Hy. specialize (H y Hy). cbn in *. unfold R_dist in *.
  eapply Rle_lt_trans; [apply (clamp_lipschitz lo hi v); auto|exact H].
Qed.

(* The extrapolation formulas are differentiable, each derivative being the next formula. l1, l2, l3: derivatives of the logarithm *)
Lemma d_log1 (y l1 : R -> R) (T l2 : R) : is_derive y T (l1 T * y T) -> is_derive l1 T l2 -> is_derive (fun T => l1 T * y T) T ((l1 T ^ 2 + l2) * y T).
Proof. intros. eapply is_derive_eq; [apply (is_derive_mult l1 y); [eassumption|eassumption|intros; apply Rmult_comm]|]. unfold plus, mult; cbn. ring. Qed.
Lemma d_log2 (y l1 l2 : R -> R) (T l3 : R) : is_derive y T (l1 T * y T) -> is_derive l1 T (l2 T) -> is_derive l2 T l3 ->
  is_derive (fun T => (l1 T ^ 2 + l2 T) * y T) T ((l1 T ^ 3 + 3 * l1 T * l2 T + l3) * y T).
Proof.
  intros. eapply is_derive_eq; [apply (is_derive_mult (fun T => l1 T ^ 2 + l2 T) y); [apply (is_derive_plus (fun T => l1 T ^ 2) l2); [apply is_derive_pow; eassumption|eassumption]|eassumption|intros; apply Rmult_comm]|].
  unfold plus, mult; cbn. ring.
Qed.
Lemma d_exp (L : R -> R) (T l : R) : is_derive L T l -> is_derive (fun T => exp (L T)) T (l * exp (L T)).
Proof. intros. eapply is_derive_eq; [apply (is_derive_comp exp L); [apply is_derive_Reals, derivable_pt_lim_exp|eassumption]|reflexivity]. Qed.
Lemma d_Arrhenius T Tr P s : 0 < T -> Tr <> 0 -> is_derive (fun T => ext_Arrhenius T Tr P s) T (ext_dArrhenius T Tr P s).
Proof. intros. unfold ext_dArrhenius, ext_Arrhenius. eapply is_derive_eq; [apply is_derive_scal, (d_exp (fun T => s * (1 / T - 1 / Tr))); auto_derive; [repeat split; lra|reflexivity]|]. field. lra. Qed.
Lemma d_dArrhenius T Tr P s : 0 < T -> Tr <> 0 -> is_derive (fun T => ext_dArrhenius T Tr P s) T (ext_d2Arrhenius T Tr P s).
Proof.
  intros. eapply is_derive_eq; [apply (d_log1 (fun T => ext_Arrhenius T Tr P s) (fun T => - s / T ^ 2)); [now apply d_Arrhenius|auto_derive; [nra|reflexivity]]|].
  unfold ext_d2Arrhenius. field. lra.
Qed.
Lemma d_d2Arrhenius T Tr P s : 0 < T -> Tr <> 0 -> is_derive (fun T => ext_d2Arrhenius T Tr P s) T (ext_d3Arrhenius T Tr P s).
Proof.
  intros. apply (is_derive_ext_loc (fun T => ((- s / T ^ 2) ^ 2 + 2 * s / T ^ 3) * ext_Arrhenius T Tr P s)).
  { exists (mkposreal (T / 2) ltac:(lra)). intros y Hy. assert (0 < y) by (apply Rabs_def2 in Hy; unfold minus, plus, opp in Hy; cbn in Hy; lra). unfold ext_d2Arrhenius. match goal with |- @eq _ ?a ?b => change (@eq R a b) end. field. lra. }
  eapply is_derive_eq; [apply (d_log2 (fun T => ext_Arrhenius T Tr P s) (fun T => - s / T ^ 2) (fun T => 2 * s / T ^ 3)); [now apply d_Arrhenius|auto_derive; [nra|field; lra]|auto_derive; [|reflexivity]]|].
  - apply Rgt_not_eq. change (T * (T * (T * 1))) with (T ^ 3). apply pow_lt. lra.
  - unfold ext_d3Arrhenius. field. lra.
Qed.
Lemma d_Antoine T A B : 0 < T -> is_derive (fun T => ext_Antoine T A B 0) T (ext_dAntoine T A B 0).
Proof. intros. unfold ext_Antoine, ext_dAntoine. eapply is_derive_eq; [apply (d_exp (fun T => A - B / (T + 0))); auto_derive; [lra|reflexivity]|]. field. lra. Qed.
Lemma d_dAntoine T A B : 0 < T -> is_derive (fun T => ext_dAntoine T A B 0) T (ext_d2Antoine T A B 0).
Proof.
  intros. eapply is_derive_eq; [apply (d_log1 (fun T => ext_Antoine T A B 0) (fun T => B / (T + 0) ^ 2)); [now apply d_Antoine|auto_derive; [nra|reflexivity]]|].
  unfold ext_d2Antoine, ext_Antoine. field. lra.
Qed.
Lemma d_EQ101 T A B C : 0 < T -> is_derive (fun T => ext_EQ101 T A B C) T (ext_EQ101_1 T A B C).
Proof. intros. unfold ext_EQ101_1, ext_EQ101. eapply is_derive_eq; [apply (d_exp (fun T => A + B / T + C * ln T)); auto_derive; [repeat split; lra|reflexivity]|]. field. lra. Qed.
Lemma d_EQ101_1 T A B C : 0 < T -> is_derive (fun T => ext_EQ101_1 T A B C) T (ext_EQ101_2 T A B C).
Proof.
  intros. eapply is_derive_eq; [apply (d_log1 (fun T => ext_EQ101 T A B C) (fun T => - B / T ^ 2 + C / T)); [now apply d_EQ101|auto_derive; [repeat split; nra|reflexivity]]|].
  unfold ext_EQ101_2. field. lra.
Qed.
Lemma d_EQ101_2 T A B C : 0 < T -> is_derive (fun T => ext_EQ101_2 T A B C) T (ext_EQ101_3 T A B C).
Proof.
  intros. apply (is_derive_ext (fun T => ((- B / T ^ 2 + C / T) ^ 2 + (2 * B / T ^ 3 - C / T ^ 2)) * ext_EQ101 T A B C)); [intros; unfold ext_EQ101_2; asR; ring|].
  assert (0 < T * (T * (T * 1))) by (change (T * (T * (T * 1))) with (T ^ 3); now apply pow_lt).
  eapply is_derive_eq; [apply (d_log2 (fun T => ext_EQ101 T A B C) (fun T => - B / T ^ 2 + C / T) (fun T => 2 * B / T ^ 3 - C / T ^ 2)); [now apply d_EQ101|auto_derive; [repeat split; nra|field; lra]|auto_derive; [repeat split; nra|reflexivity]]|].
  unfold ext_EQ101_3. cbv zeta. field. lra.
Qed.
Lemma tau_pos T Tc : T < Tc -> 0 < Tc -> 0 < 1 - T / Tc.
Proof. intros. replace (1 - T / Tc) with ((Tc - T) / Tc) by (field; lra). apply Rdiv_lt_0_compat; lra. Qed.
Lemma d_lntau T Tc : T < Tc -> 0 < Tc -> is_derive (fun T => ln (1 - T / Tc)) T (- / (Tc - T)).
Proof. intros. pose proof (tau_pos T Tc H H0). auto_derive; [unfold Rdiv, Rminus in *; lra|]. field. lra. Qed.
Lemma d_EQ106 T Tc A B C : T < Tc -> 0 < Tc -> is_derive (fun T => ext_EQ106 T Tc A B C) T (ext_EQ106_1 T Tc A B C).
Proof.
  intros. pose proof (tau_pos T Tc H H0). unfold ext_EQ106_1, ext_EQ106_l1, ext_EQ106, Rpower.
  eapply is_derive_eq; [apply is_derive_scal, (d_exp (fun T => (B + C * (T / Tc)) * ln (1 - T / Tc))), (is_derive_mult (fun T => B + C * (T / Tc)) (fun T => ln (1 - T / Tc)) T (C / Tc)); [auto_derive; [auto|field; lra]|now apply d_lntau|intros; apply Rmult_comm]|].
  unfold plus, mult; cbn. field. lra.
Qed.
Lemma d_EQ106_l1 T Tc B C : T < Tc -> 0 < Tc -> is_derive (fun T => ext_EQ106_l1 T Tc B C) T (ext_EQ106_l2 T Tc B C).
Proof.
  intros. unfold ext_EQ106_l1, ext_EQ106_l2.
  eapply is_derive_eq; [apply (is_derive_minus (fun T => C / Tc * ln (1 - T / Tc)) (fun T => (B + C * (T / Tc)) / (Tc - T))); [apply is_derive_scal; now apply d_lntau|auto_derive; [repeat split; lra|reflexivity]]|].
  unfold minus, plus, opp; cbn. field. lra.
Qed.
Lemma d_EQ106_l2 T Tc B C : T < Tc -> 0 < Tc -> is_derive (fun T => ext_EQ106_l2 T Tc B C) T (ext_EQ106_l3 T Tc B C).
Proof.
  intros. unfold ext_EQ106_l2, ext_EQ106_l3. auto_derive; [|field; lra]. assert (0 < Tc * (Tc - T)) by (apply Rmult_lt_0_compat; lra). assert (0 < (Tc - T) ^ 2) by (apply pow_lt; lra). cbn in *. unfold Rminus in *. repeat split; apply Rgt_not_eq; lra.
Qed.
Lemma d_EQ106_1 T Tc A B C : T < Tc -> 0 < Tc -> is_derive (fun T => ext_EQ106_1 T Tc A B C) T (ext_EQ106_2 T Tc A B C).
Proof. intros. apply (d_log1 (fun T => ext_EQ106 T Tc A B C) (fun T => ext_EQ106_l1 T Tc B C)); [now apply d_EQ106|now apply d_EQ106_l1]. Qed.
Lemma d_EQ106_2 T Tc A B C : T < Tc -> 0 < Tc -> is_derive (fun T => ext_EQ106_2 T Tc A B C) T (ext_EQ106_3 T Tc A B C).
Proof. intros. apply (d_log2 (fun T => ext_EQ106 T Tc A B C) (fun T => ext_EQ106_l1 T Tc B C) (fun T => ext_EQ106_l2 T Tc B C)); [now apply d_EQ106|now apply d_EQ106_l1|now apply d_EQ106_l2]. Qed.
Lemma d_horner_lntau T Tc cs : T < Tc -> 0 < Tc -> is_derive (fun T => ext_horner cs (ln (1 - T / Tc))) T (- ext_horner (ext_der cs) (ln (1 - T / Tc)) / (Tc - T)).
Proof.
  intros. eapply is_derive_eq; [apply (is_derive_comp (fun x => ext_horner cs x) (fun T => ln (1 - T / Tc))); [apply horner_derive|now apply d_lntau]|].
  unfold scal; cbn; unfold mult; cbn. field. lra.
Qed.
Lemma d_exp_ln_tau T Tc cs : T < Tc -> 0 < Tc -> is_derive (fun T => ext_exp_ln_tau T Tc cs) T (ext_exp_ln_tau_1 T Tc cs).
Proof.
  intros. unfold ext_exp_ln_tau_1, ext_exp_ln_tau.
  eapply is_derive_eq; [apply (is_derive_comp exp (fun T => ext_horner cs (ln (1 - T / Tc)))); [apply is_derive_Reals, derivable_pt_lim_exp|now apply d_horner_lntau]|].
  unfold scal; cbn; unfold mult; cbn. reflexivity.
Qed.
Lemma d_exp_ln_tau_1 T Tc cs : T < Tc -> 0 < Tc -> is_derive (fun T => ext_exp_ln_tau_1 T Tc cs) T (ext_exp_ln_tau_2 T Tc cs).
Proof.
  intros. eapply is_derive_eq.
  - apply (d_log1 (fun T => ext_exp_ln_tau T Tc cs) (fun T => - ext_horner (ext_der cs) (ln (1 - T / Tc)) / (Tc - T))); [now apply d_exp_ln_tau|].
    apply (is_derive_mult (fun T => - ext_horner (ext_der cs) (ln (1 - T / Tc))) (fun T => / (Tc - T))).
    + apply (is_derive_opp (fun T => ext_horner (ext_der cs) (ln (1 - T / Tc)))). now apply d_horner_lntau.
    + apply (is_derive_eq _ _ (- - 1 / (Tc - T) ^ 2)); [|reflexivity]. auto_derive; [lra|]. field. lra.
    + intros; apply Rmult_comm.
  - unfold ext_exp_ln_tau_2, plus, mult, opp; cbn -[ext_horner ext_der]. field. lra.
Qed.
Lemma d_Watson T v Tr Tc n : T < Tc -> Tr < Tc -> 0 < Tc -> exists d, is_derive (fun T => ext_Watson T v Tr Tc n) T d.
Proof.
  intros. pose proof (tau_pos T Tc H H1). pose proof (tau_pos Tr Tc H0 H1). unfold ext_Watson, Rpower. eexists. auto_derive; [|reflexivity].
  apply Rdiv_lt_0_compat; unfold Rdiv, Rminus in *; lra.
Qed.
