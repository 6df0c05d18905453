(* C25: pure-component limits of the activity models. *)
From Coq Require Import Reals Lra Lia Arith Bool FunctionalExtensionality.
From Coquelicot Require Import Coquelicot.
From Verif Require Import Base BaseFacts Spec_mix Spec_activity Spec_gradient MixFacts MixDeriv LnphiFacts NrtlFacts WilsonFacts UniquacFacts RegFacts ActFacts GradFacts Gen_nrtl Gen_wilson Gen_uniquac Gen_regular Gen_activity Model_pyerr Prop_C28 Prop_C24 Prop_C18 Prop_C19 Prop_C20 Prop_C21 Prop_C22 Prop_C24m.
Open Scope R_scope.

Lemma pure_dl i : pure i = dl i. Proof. reflexivity. Qed.
Lemma pure_sum n i f : (i < n)%nat -> rsum n (fun j => pure i j * f j) = f i. Proof. intros. now apply rsum_dl. Qed.
Lemma pure_self i : pure i i = 1. Proof. unfold pure. now rewrite Nat.eqb_refl. Qed.
Lemma pure_fractions n i : (i < n)%nat -> mole_fractions n (pure i).
Proof.
  intros Hi. split. intros j _. unfold pure. destruct (Nat.eqb j i); lra. rewrite <- (pure_sum n i (fun _ => 1) Hi). apply rsum_ext. intros; ring.
Qed.
Lemma pure_UL n i c : (i < n)%nat -> UL n c (pure i) = c i. Proof. apply pure_sum. Qed.

(* NRTL: the excess energy of the pure component is R T tau_ii; zero, with gamma_i = 1, for the parameters documented (tau_ii = 0), and only then *)
Theorem C25_NRTL N ta tb te tf tg th ac ad T i : 0 < T -> (i < N)%nat ->
  let flag := NRTL_alpha_temperature_independent N ad in let tau_ii := nrtl_tau_form (ta i i) (tb i i) (te i i) (tf i i) (tg i i) (th i i) T in
  NRTL_GE N T (pure i) ta tb te tf tg th ac ad flag = Rgas * T * tau_ii /\ NRTL_gammas N T (pure i) ta tb te tf tg th ac ad flag i = exp tau_ii.
Proof.
  intros HT Hi flag tau_ii. set (G := fun j i => Gf ta tb te tf tg th ac ad j i T). set (tau := fun j i => tauf ta tb te tf tg th j i T).
  assert (HA : forall k, SA N (pure i) G k = G i k) by (intros k; now apply (pure_sum N i (fun j => G j k))).
  assert (HB : forall k, SB N (pure i) G tau k = G i k * tau i k). { intros k. unfold SB. rewrite (rsum_ext N _ (fun j => pure i j * (G j k * tau j k))) by (intros; ring). now apply (pure_sum N i (fun j => G j k * tau j k)). }
  assert (HG : forall k, G i k <> 0) by (intros; apply Rgt_not_eq, exp_pos).
  assert (HE : SE N (pure i) G tau = tau_ii). { unfold SE. rewrite pure_sum, HA, HB by auto. replace tau_ii with (tau i i) by reflexivity. field. auto. }
  split. unfold flag. rewrite Prop_C18.GE_eq by auto. f_equal. exact HE. unfold flag. rewrite Prop_C19.gam_eq by auto. f_equal. fold G. fold tau. unfold Sg.
  rewrite (rsum_ext N _ (fun k => pure i k * (1 / SA N (pure i) G k * G i k * (tau i k - SB N (pure i) G tau k / SA N (pure i) G k)))) by (intros; unfold Rdiv; ring). rewrite pure_sum, !HA, !HB by auto. replace tau_ii with (tau i i) by reflexivity. field. auto.
Qed.
(* Wilson: lambda_ii = 1 (zero diagonal coefficients) *)
Theorem C25_Wilson N la lb lc ld le lf T i : 0 < T -> (i < N)%nat -> let lam_ii := wilson_lambda_form (la i i) (lb i i) (lc i i) (ld i i) (le i i) (lf i i) T in
  Wilson_GE N T (pure i) la lb lc ld le lf = - (Rgas * T) * ln lam_ii /\ Wilson_gammas N T (pure i) la lb lc ld le lf i = / lam_ii.
Proof.
  intros HT Hi lam_ii. set (L := lam la lb lc ld le lf T). assert (HL : forall k, 0 < L i k) by (intros; apply exp_pos). assert (HS : forall k, WS N L (pure i) k = L k i) by (intros; unfold WS; now apply (pure_sum N i (fun j => L k j))).
  assert (HP : wpos N L (pure i)). { intros k Hk. rewrite HS. apply exp_pos. } assert (HQ : 0 < lam_ii) by apply exp_pos.
  split. rewrite Prop_C20.GE_eq by auto. fold L. f_equal. unfold WE. rewrite pure_sum, HS by auto. reflexivity.
  rewrite Prop_C20.gam_eq by auto. fold L. unfold Wg. rewrite HS, (rsum_ext N _ (fun k => pure i k * (L k i / WS N L (pure i) k))) by (intros; unfold Rdiv; ring). rewrite pure_sum, HS by auto. change (L i i) with lam_ii. replace (1 - (ln lam_ii + lam_ii / lam_ii)) with (- ln lam_ii) by (field; lra). rewrite exp_Ropp, exp_ln by auto. reflexivity.
Qed.
Corollary C25_NRTL_standard N ta tb te tf tg th ac ad T i : 0 < T -> (i < N)%nat -> ta i i = 0 -> tb i i = 0 -> te i i = 0 -> tf i i = 0 -> tg i i = 0 -> th i i = 0 ->
  let flag := NRTL_alpha_temperature_independent N ad in NRTL_GE N T (pure i) ta tb te tf tg th ac ad flag = 0 /\ NRTL_gammas N T (pure i) ta tb te tf tg th ac ad flag i = 1.
Proof.
  intros HT Hi E1 E2 E3 E4 E5 E6. destruct (C25_NRTL N ta tb te tf tg th ac ad T i HT Hi) as [A B]. cbv zeta in *. rewrite A, B. unfold nrtl_tau_form. rewrite E1, E2, E3, E4, E5, E6. replace (0 + 0 / T + 0 * ln T + 0 * T + 0 / T ^ 2 + 0 * T ^ 2) with 0 by (field; lra). rewrite exp_0. split; ring.
Qed.
Corollary C25_Wilson_standard N la lb lc ld le lf T i : 0 < T -> (i < N)%nat -> la i i = 0 -> lb i i = 0 -> lc i i = 0 -> ld i i = 0 -> le i i = 0 -> lf i i = 0 ->
  Wilson_GE N T (pure i) la lb lc ld le lf = 0 /\ Wilson_gammas N T (pure i) la lb lc ld le lf i = 1.
Proof.
  intros HT Hi E1 E2 E3 E4 E5 E6. destruct (C25_Wilson N la lb lc ld le lf T i HT Hi) as [A B]. cbv zeta in *. rewrite A, B. unfold wilson_lambda_form. rewrite E1, E2, E3, E4, E5, E6. replace (0 + 0 / T + 0 * ln T + 0 * T + 0 / T ^ 2 + 0 * T ^ 2) with 0 by (field; lra). rewrite exp_0, ln_1. split; field.
Qed.

(* regular solution, Flory-Huggins, Hansen *)
Section Reg.
Context (N : nat) (V : nat -> R) (HV : positive N V) (A : nat -> nat -> R) (i : nat) (Hi : (i < N)%nat).
Lemma p_RE : RE N V A (pure i) = V i * A i i.
Proof.
  pose proof (HV i Hi). unfold RE, RQ. rewrite (rsum_ext N _ (fun k => pure i k * (V k * rsum N (fun j => pure i j * (V j * A k j))))). rewrite !pure_sum by auto. change (rsum N (fun j => pure i j * V j)) with (UL N V (pure i)). rewrite pure_UL by auto. field. lra.
  intros. rewrite Rmult_assoc. do 2 f_equal. apply rsum_ext. intros; ring.
Qed.
Lemma p_Rg : Rg N V A (pure i) i = V i * A i i.
Proof.
  pose proof (HV i Hi). unfold Rg. rewrite p_RE. unfold Rh, Hm. rewrite (rsum_ext N _ (fun j => pure i j * (V j * (A i j + A j i)))) by (intros; ring). rewrite pure_sum by auto. change (rsum N (fun j => pure i j * V j)) with (UL N V (pure i)). rewrite pure_UL by auto. field. lra.
Qed.
Lemma p_one : rsum N (pure i) = 1. Proof. apply (pure_fractions N i Hi). Qed.
Lemma p_FE : FE N V (pure i) = 0.
Proof. unfold FE. rewrite p_one, pure_sum by auto. change (rsum N (fun j => pure i j * V j)) with (UL N V (pure i)). rewrite pure_UL by auto. ring. Qed.
Lemma p_Fg : Fg N V (pure i) i = -1.
Proof. pose proof (HV i Hi). unfold Fg. rewrite p_one. change (rsum N (fun j => pure i j * V j)) with (UL N V (pure i)). rewrite pure_UL by auto. field. lra. Qed.
End Reg.
Theorem C25_Regular N Vs SPs l T i : positive N Vs -> 0 < T -> (i < N)%nat ->
  RegularSolution_GE N (pure i) Vs SPs l = Vs i * (l i i * SPs i * SPs i) /\ RegularSolution_gammas N T (pure i) Vs SPs l i = exp (Vs i * (l i i * SPs i * SPs i) / (Rgas * T)).
Proof.
  intros HV HT Hi. assert (E : regular_A SPs l i i = l i i * SPs i * SPs i) by (unfold regular_A; ring). split. rewrite rGE, p_RE, E by auto. reflexivity. rewrite rgam, p_Rg, E by (auto; rewrite pure_UL by auto; now apply HV). reflexivity.
Qed.
Corollary C25_Regular_standard N Vs SPs l T i : positive N Vs -> 0 < T -> (i < N)%nat -> l i i = 0 -> RegularSolution_GE N (pure i) Vs SPs l = 0 /\ RegularSolution_gammas N T (pure i) Vs SPs l i = 1.
Proof. intros HV HT Hi E. destruct (C25_Regular N Vs SPs l T i HV HT Hi) as [A B]. rewrite A, B, E. split. ring. replace (Vs i * (0 * SPs i * SPs i) / (Rgas * T)) with 0 by (unfold Rdiv; ring). apply exp_0. Qed.
Theorem C25_FloryHuggins N Vs SPs l T i : positive N Vs -> 0 < T -> (i < N)%nat ->
  FloryHuggins_GE N T (pure i) Vs SPs l = Vs i * (l i i * SPs i * SPs i) /\ FloryHuggins_gammas N T (pure i) Vs SPs l i = exp (Vs i * (l i i * SPs i * SPs i) / (Rgas * T)).
Proof.
  intros HV HT Hi. pose proof Rgas_pos. assert (E : regular_A SPs l i i = l i i * SPs i * SPs i) by (unfold regular_A; ring). assert (HU : 0 < UL N Vs (pure i)) by (rewrite pure_UL by auto; now apply HV). split. rewrite fGE by auto. unfold EE. rewrite p_RE, p_FE, E by auto. ring.
  rewrite fgam by (auto; apply (mf_amounts N _ (pure_fractions N i Hi))). unfold Eg. rewrite p_Rg, p_Fg, E by auto. f_equal. field. lra.
Qed.
Corollary C25_FloryHuggins_standard N Vs SPs l T i : positive N Vs -> 0 < T -> (i < N)%nat -> l i i = 0 -> FloryHuggins_GE N T (pure i) Vs SPs l = 0 /\ FloryHuggins_gammas N T (pure i) Vs SPs l i = 1.
Proof. intros HV HT Hi E. destruct (C25_FloryHuggins N Vs SPs l T i HV HT Hi) as [A B]. rewrite A, B, E. split. ring. replace (Vs i * (0 * SPs i * SPs i) / (Rgas * T)) with 0 by (unfold Rdiv; ring). apply exp_0. Qed.
Theorem C25_Hansen N Vs dd dp dh al T i : positive N Vs -> 0 < T -> (i < N)%nat -> Hansen_GE N T (pure i) Vs dd dp dh al = 0 /\ Hansen_gammas N T (pure i) Vs dd dp dh al i = 1.
Proof.
  intros HV HT Hi. pose proof Rgas_pos. assert (E : hansen_A dd dp dh al i i = 0) by (unfold hansen_A; ring). assert (HU : 0 < UL N Vs (pure i)) by (rewrite pure_UL by auto; now apply HV). split. rewrite hGE by auto. unfold EE. rewrite p_RE, p_FE, E by auto. ring.
  rewrite hgam by (auto; apply (mf_amounts N _ (pure_fractions N i Hi))). unfold Eg. rewrite p_Rg, p_Fg, E by auto. rewrite <- exp_0. f_equal. field. lra.
Qed.
(* the ideal solution: at every composition *)
Theorem C25_IdealSolution N T xs i : Ideal_GE T xs = 0 /\ Ideal_gammas N T xs i = 1 /\ is_derive (fun t => Ideal_GE t xs) T (Ideal_dGE_dT T xs) /\ has_gradient N (Ideal_GE T) xs (Ideal_dGE_dxs N T xs) /\ (0 < T -> Ideal_gammas N T xs i = GibbsExcess_gammas N T xs (Ideal_GE T xs) (Ideal_dGE_dxs N T xs) i).
Proof.
  split. reflexivity. split. reflexivity. split. apply (is_derive_const 0 T). split. intros c t dc _. unfold Ideal_dGE_dxs. rewrite (rsum_ext N _ (fun _ => 0)), rsum_0 by (intros; ring). apply (is_derive_const 0 t).
  intros HT. rewrite gam_ln by auto. unfold Ideal_gammas, Ideal_dGE_dxs, Ideal_GE. rewrite (rsum_ext N _ (fun _ => 0)), rsum_0 by (intros; ring). replace ((0 + 0 - 0) / (Rgas * T)) with 0 by (unfold Rdiv; ring). now rewrite exp_0.
Qed.

(* ---------- UNIQUAC ---------- *)
(* continuity in the composition: a filter of neighbourhoods *)
Global Instance near_filter n x : Filter (near n x).
Proof.
  constructor. exists 1. split. lra. auto. intros; now apply near_and. intros; eapply near_impl; eauto.
Qed.
Definition cont n (f : (nat -> R) -> R) x : Prop := filterlim f (near n x) (locally (f x)).
Section Cont.
Context (n : nat) (x : nat -> R).
Lemma c_const k : cont n (fun _ => k) x. Proof. apply filterlim_const. Qed.
Lemma c_coord i : (i < n)%nat -> cont n (fun y => y i) x.
Proof. intros Hi P [e He]. exists e. split. apply cond_pos. intros y Hy. apply He. now apply Hy. Qed.
Lemma c_plus f g : cont n f x -> cont n g x -> cont n (fun y => f y + g y) x.
Proof. intros Hf Hg. eapply filterlim_comp_2. exact Hf. exact Hg. apply (filterlim_plus (f x) (g x)). Qed.
Lemma c_mult f g : cont n f x -> cont n g x -> cont n (fun y => f y * g y) x.
Proof. intros Hf Hg. eapply filterlim_comp_2. exact Hf. exact Hg. apply (filterlim_mult (f x) (g x)). Qed.
Lemma c_comp f (h : R -> R) : cont n f x -> continuous h (f x) -> cont n (fun y => h (f y)) x.
Proof. intros Hf Hh. eapply filterlim_comp. exact Hf. exact Hh. Qed.
Lemma c_compd f (h : R -> R) : cont n f x -> ex_derive h (f x) -> cont n (fun y => h (f y)) x.
Proof. intros Hf Hh. apply c_comp; auto. apply (ex_derive_continuous h (f x) Hh). Qed.
Lemma c_opp f : cont n f x -> cont n (fun y => - f y) x. Proof. intros. apply (c_compd f Ropp); auto. auto_derive; auto. Qed.
Lemma c_minus f g : cont n f x -> cont n g x -> cont n (fun y => f y - g y) x. Proof. intros. apply (c_plus f (fun y => - g y)); auto. now apply c_opp. Qed.
Lemma c_inv f : cont n f x -> f x <> 0 -> cont n (fun y => / f y) x. Proof. intros. apply (c_compd f Rinv); auto. auto_derive; auto. Qed.
Lemma c_div f g : cont n f x -> cont n g x -> g x <> 0 -> cont n (fun y => f y / g y) x. Proof. intros. apply (c_mult f (fun y => / g y)); auto. now apply c_inv. Qed.
Lemma c_ln f : cont n f x -> 0 < f x -> cont n (fun y => ln (f y)) x. Proof. intros. apply (c_compd f ln); auto. auto_derive; auto. Qed.
Lemma c_exp f : cont n f x -> cont n (fun y => exp (f y)) x. Proof. intros. apply (c_compd f exp); auto. auto_derive; auto. Qed.
Lemma c_sum m (f : nat -> (nat -> R) -> R) : (forall i, (i < m)%nat -> cont n (f i) x) -> cont n (fun y => rsum m (fun i => f i y)) x.
Proof. induction m; intros H. apply (c_const 0). unfold rsum. cbn [loop]. apply (c_plus (fun y => rsum m (fun i => f i y)) (f m)). apply IHm. intros; apply H; lia. apply H; lia. Qed.
Lemma c_tot : cont n (rsum n) x. Proof. apply (c_sum n (fun i y => y i)). intros; now apply c_coord. Qed.
Lemma cont_eps f v : cont n f x -> f x = v -> forall eps, 0 < eps -> near n x (fun y => Rabs (f y - v) < eps).
Proof. intros H <- eps He. apply (H (fun z => Rabs (z - f x) < eps)). exists (mkposreal eps He). intros z Hz. exact Hz. Qed.
End Cont.
Ltac cstep := lazymatch goal with
  | |- cont ?n (fun _ => ?k) _ => apply c_const
  | |- cont ?n (fun y => y ?i) _ => apply c_coord
  | |- cont ?n (fun y => rsum ?n y) _ => apply c_tot
  | |- cont ?n (fun y => rsum _ _) _ => apply c_sum; intros
  | |- cont ?n (fun y => _ + _) _ => apply c_plus
  | |- cont ?n (fun y => _ - _) _ => apply c_minus
  | |- cont ?n (fun y => _ * _) _ => apply c_mult
  | |- cont ?n (fun y => _ / _) _ => apply c_div
  | |- cont ?n (fun y => ln _) _ => apply c_ln
  | |- cont ?n (fun y => exp _) _ => apply c_exp
  end.
Section Uniquac.
Variables (N : nat) (rs qs : nat -> R) (ta tb tc td te tf : nat -> nat -> R) (T : R) (i : nat).
Hypotheses (Hr : positive N rs) (Hq : positive N qs) (HT : 0 < T) (Hi : (i < N)%nat).
Let tau_ii := wilson_lambda_form (ta i i) (tb i i) (tc i i) (td i i) (te i i) (tf i i) T.
Notation L := (lam ta tb tc td te tf T).
Lemma pu_V k : (k < N)%nat -> UV N qs L (pure i) k = qs i * L i k. Proof. intros. unfold UV. now rewrite pure_sum by auto. Qed.
Lemma L_pos k j : 0 < L k j. Proof. apply exp_pos. Qed.
Lemma pu_E : UE N rs qs L (pure i) = - qs i * ln tau_ii.
Proof.
  pose proof (Hr i Hi). pose proof (Hq i Hi). unfold UE. rewrite !pure_UL, p_one, pure_sum, pu_V by auto. rewrite ln_mult by auto using L_pos. change (L i i) with tau_ii. unfold ucst. ring.
Qed.
Lemma pu_g : Ug N rs qs L (pure i) i = - qs i * ln tau_ii - 1.
Proof.
  pose proof (Hr i Hi). pose proof (Hq i Hi). pose proof (L_pos i i). unfold Ug. rewrite !pure_UL, p_one, pure_sum, pu_V by auto. rewrite ln_mult by auto using L_pos. change (L i i) with tau_ii in *. unfold ucst. field. lra.
Qed.
Lemma cV k : (k < N)%nat -> cont N (fun y => UV N qs L y k) (pure i). Proof. intros Hk. unfold UV. repeat cstep; auto. Qed.
Lemma cL c : cont N (fun y => UL N c y) (pure i). Proof. unfold UL. repeat cstep; auto. Qed.
Ltac cu := repeat lazymatch goal with |- cont _ (fun y => UL _ _ y) _ => apply cL | |- cont _ (UL _ _) _ => apply cL | |- cont _ (rsum _) _ => apply c_tot | |- cont _ (fun y => UV _ _ _ y _) _ => apply cV; assumption | _ => cstep end; auto.
Lemma cUE : cont N (fun y => UE N rs qs L y) (pure i).
Proof. pose proof (Hr i Hi). pose proof (Hq i Hi). unfold UE. cu; rewrite ?pure_UL by auto; auto. rewrite pu_V by auto. apply Rmult_lt_0_compat; auto using L_pos. Qed.
Lemma cUg : cont N (fun y => Ug N rs qs L y i) (pure i).
Proof.
  pose proof (Hr i Hi). pose proof (Hq i Hi). unfold Ug. cu; rewrite ?pure_UL by auto; auto using Rgt_not_eq; try (apply Rgt_not_eq; assumption); rewrite pu_V by auto; try apply Rgt_not_eq; apply Rmult_lt_0_compat; auto using L_pos.
Qed.
(* close to pure component i, for positive mole fractions, GE is close to -R T q_i ln(tau_ii) and gamma_i to tau_ii^(-q_i): zero and one for tau_ii = 1 *)
Theorem C25_UNIQUAC_limit eps : 0 < eps -> exists delta, 0 < delta /\ forall x, positive N x -> rsum N x = 1 -> (forall j, (j < N)%nat -> Rabs (x j - pure i j) < delta) ->
  Rabs (UNIQUAC_GE N T x rs qs ta tb tc td te tf - - (Rgas * T) * qs i * ln tau_ii) < eps /\ Rabs (UNIQUAC_gammas N T x rs qs ta tb tc td te tf i - exp (- qs i * ln tau_ii)) < eps.
Proof.
  intros He. assert (C1 : cont N (fun y => Rgas * T * UE N rs qs L y) (pure i)) by (apply c_mult; [apply c_const | apply cUE]). assert (C2 : cont N (fun y => exp (Ug N rs qs L y i + 1)) (pure i)) by (apply c_exp, c_plus; [apply cUg | apply c_const]).
  destruct (near_and _ _ _ _ (cont_eps N (pure i) _ (- (Rgas * T) * qs i * ln tau_ii) C1 ltac:(cbv beta; rewrite pu_E; ring) eps He) (cont_eps N (pure i) _ (exp (- qs i * ln tau_ii)) C2 ltac:(cbv beta; rewrite pu_g; f_equal; ring) eps He)) as (d & Hd & K).
  exists d. split; auto. intros x Hx Hs Hn. destruct (K x Hn) as [K1 K2]. split. rewrite uGE_eq by auto. exact K1. rewrite ugam_eq by auto. exact K2.
Qed.
Corollary C25_UNIQUAC_standard eps : ta i i = 0 -> tb i i = 0 -> tc i i = 0 -> td i i = 0 -> te i i = 0 -> tf i i = 0 -> 0 < eps -> exists delta, 0 < delta /\ forall x, positive N x -> rsum N x = 1 -> (forall j, (j < N)%nat -> Rabs (x j - pure i j) < delta) ->
  Rabs (UNIQUAC_GE N T x rs qs ta tb tc td te tf) < eps /\ Rabs (UNIQUAC_gammas N T x rs qs ta tb tc td te tf i - 1) < eps.
Proof.
  intros E1 E2 E3 E4 E5 E6 He. destruct (C25_UNIQUAC_limit eps He) as (d & Hd & K). exists d. split; auto. intros x Hx Hs Hn. destruct (K x Hx Hs Hn) as [K1 K2].
  assert (E : ln tau_ii = 0). { unfold tau_ii, wilson_lambda_form. rewrite E1, E2, E3, E4, E5, E6, ln_exp. field. lra. } rewrite E in K1, K2. rewrite Rmult_0_r in K1, K2. rewrite Rminus_0_r in K1. rewrite exp_0 in K2. split; assumption.
Qed.
(* where it does not raise, the statement-by-statement version gives the value of the model *)
Theorem C25_UNIQUAC_py x : positive N x -> uniquac_GE_py T N 10 x qs (UNIQUAC_phis N x rs) (UNIQUAC_thetas N x qs) (UNIQUAC_thetaj_taus_jis N T x qs ta tb tc td te tf) = Some (UNIQUAC_GE N T x rs qs ta tb tc td te tf).
Proof.
  intros Hx. assert (Hx' : pos N x) by exact Hx. unfold uniquac_GE_py, UNIQUAC_GE, uniquac_GE. cbv zeta. match goal with |- bindo (loop N ?F (Some 0)) _ = Some (loop N ?f 0 * _) => assert (E : forall m, (m <= N)%nat -> loop m F (Some 0) = Some (loop m f 0)) end.
  { induction m; intros Hm. reflexivity. cbn [loop]. rewrite IHm by lia. cbv [bindo].
    pose proof (Hx m ltac:(lia)) as H0. assert (H1 : 0 < UNIQUAC_phis N x rs m) by (rewrite (ph_eq N rs Hr qs Hq x Hx') || rewrite ph_eq; try lia; apply Rdiv_lt_0_compat; [apply Rmult_lt_0_compat; auto; apply Hr; lia | apply (pos_sum N rs x m); auto; lia]).
    assert (H2 : 0 < UNIQUAC_thetas N x qs m) by (rewrite th_eq by lia; apply Rdiv_lt_0_compat; [apply Rmult_lt_0_compat; auto; apply Hq; lia | apply (pos_sum N qs x m); auto; lia]).
    assert (H3 : 0 < UNIQUAC_thetaj_taus_jis N T x qs ta tb tc td te tf m) by (rewrite tt_eq by (auto; lia); apply Rdiv_lt_0_compat; [apply (pos_V N qs L Hq (fun k j _ _ => L_pos k j)); auto; lia | apply (pos_sum N qs x m); auto; lia]).
    unfold py_div. rewrite !Reqb_false by lra. unfold py_log. rewrite !Rltb_true by (auto; apply Rdiv_lt_0_compat; auto). f_equal. }
  rewrite E by lia. reflexivity.
Qed.
(* with a zero mole fraction it raises, so that no pure component (nor any other absent component) can be evaluated in a mixture of two or more *)
Theorem C25_UNIQUAC_absent_raises x z phis thetas tt k : (k < N)%nat -> x k = 0 -> uniquac_GE_py T N z x qs phis thetas tt = None.
Proof.
  intros Hk Ek. unfold uniquac_GE_py. cbv zeta. match goal with |- bindo (loop N ?F (Some 0)) _ = _ => assert (E : forall m, (k < m)%nat -> loop m F (Some 0) = None) end.
  { induction m; intros Hm. lia. cbn [loop]. destruct (Nat.eq_dec k m) as [<-|Hn]. 2: rewrite IHm by lia; reflexivity. destruct (loop k _ (Some 0)); cbn [bindo]; auto. unfold py_div at 1. rewrite Reqb_true by auto. reflexivity. }
  now rewrite E.
Qed.
Theorem C25_UNIQUAC_pure_refuted z phis thetas tt : (2 <= N)%nat -> uniquac_GE_py T N z (pure i) qs phis thetas tt = None.
Proof.
  intros HN. apply (C25_UNIQUAC_absent_raises (pure i) z phis thetas tt (if Nat.eqb i 0 then 1 else 0)%nat). destruct (Nat.eqb i 0); lia. unfold pure. destruct (Nat.eqb_spec i 0). subst. reflexivity. destruct (Nat.eqb_spec 0 i); auto. congruence.
Qed.
End Uniquac.
Example C25_hypotheses_met : mole_fractions 3 (pure 1) /\ pure 1 1 = 1 /\ positive 2 (pair2 (1 / 100) (99 / 100)).
Proof. splits. apply pure_fractions. lia. apply pure_self. intros [|[|k]] Hk; cbn; lra || lia. Qed.
