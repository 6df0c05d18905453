(* C22: the regular solution, Flory-Huggins and Hansen models: derivatives and activity coefficients. *)
From Coq Require Import Reals Lra Lia Arith Bool FunctionalExtensionality.
From Coquelicot Require Import Coquelicot.
From Verif Require Import Base BaseFacts Spec_mix Spec_activity MixFacts MixDeriv LnphiFacts NrtlFacts ActFacts WilsonFacts UniquacFacts RegFacts Gen_uniquac Gen_regular Prop_C20 Prop_C21.
Open Scope R_scope.

(* the functions on arrays, for any arrays with the right entries *)
Section Core.
Context (n : nat) (x V : nat -> R) (A : nat -> nat -> R) (HS : 0 < UL n V x).
Context (xV : nat -> R) (EX : forall i, (i < n)%nat -> xV i = x i * V i) (si : R) (Esi : si = / UL n V x).
Lemma c_GE A' : (forall i j, (i < n)%nat -> (j < n)%nat -> A' i j = A i j) -> regular_solution_GE_from_Aijs xV A' si n = RE n V A x.
Proof.
  intros EA. unfold regular_solution_GE_from_Aijs. cbv zeta. rewrite (loop_ext n _ (fun i s => s + x i * V i * rsum n (fun j => x j * V j * A i j))).
  rewrite loop_rsum, Rplus_0_l, Esi. reflexivity. intros i s Hi. rewrite loop_rsum. f_equal. rewrite <- rsum_scal_l. apply rsum_ext. intros j Hj. rewrite !EX, EA by auto. ring.
Qed.
Lemma c_Hi H' w k : (k < n)%nat -> (forall i j, (i < n)%nat -> (j < n)%nat -> H' i j = Hm A i j) -> regular_solution_Hi_sums_fast V xV H' n w k = Rh n V A x k.
Proof. intros Hk EH. unfold regular_solution_Hi_sums_fast. cbv zeta. rewrite (loop_upd_lt n) by auto. rewrite loop_rsum, Rplus_0_l. unfold Rh. f_equal. apply rsum_ext. intros j Hj. rewrite EX, EH by auto. ring. Qed.
Lemma c_dx Hs GE w k : (k < n)%nat -> Hs k = Rh n V A x k -> GE = RE n V A x -> regular_solution_dGE_dxs V Hs n si GE w k = Rg n V A x k.
Proof. intros Hk EH EG. unfold regular_solution_dGE_dxs. rewrite (loop_upd_lt n) by auto. rewrite EH, EG, Esi. reflexivity. Qed.
Context (SP : nat -> R) (l : nat -> nat -> R) (EA : A = regular_A SP l).
Lemma Hm_eq i j : SP i * SP j * (l i j + l j i) + (SP i - SP j) * (SP i - SP j) = Hm A i j.
Proof. rewrite EA. unfold Hm, regular_A. field. Qed.
Lemma c_d2 Hs dG GE w k m : (k < n)%nat -> (m < n)%nat -> Hs k = Rh n V A x k -> dG m = Rg n V A x m -> GE = RE n V A x -> regular_solution_d2GE_dxixjs V SP Hs dG n GE l si w k m = RH n V A x k m.
Proof.
  intros Hk Hm0 EH ED EG. unfold regular_solution_d2GE_dxixjs. cbv zeta. rewrite loop_updm_lt by auto. rewrite Hm_eq, EH, ED, EG, Esi. unfold RH. generalize (Rg n V A x m) (Rh n V A x k) (RE n V A x) (Hm A k m). intros. field. lra.
Qed.
Lemma c_d3 Hs dG d2 GE w k m p : (k < n)%nat -> (m < n)%nat -> (p < n)%nat -> Hs k = Rh n V A x k -> dG m = Rg n V A x m -> dG p = Rg n V A x p -> d2 m p = RH n V A x m p -> GE = RE n V A x ->
  regular_solution_d3GE_dxixjxks V SP Hs dG n GE si d2 l w k m p = RT3 n V A x k m p.
Proof.
  intros Hk Hm0 Hp EH ED ED' E2 EG. unfold regular_solution_d3GE_dxixjxks. cbv zeta. rewrite loop_updt_lt by auto. rewrite EH, ED, ED', E2, EG, Esi. unfold RT3. rewrite <- (Hm_eq k m), <- (Hm_eq k p). generalize (Rg n V A x m) (Rh n V A x k) (RE n V A x) (Rg n V A x p) (RH n V A x m p). intros. field. lra.
Qed.
End Core.
Lemma loop_updt_self {A} n (f : nat -> nat -> nat -> A -> A) o i j k : (i < n)%nat -> (j < n)%nat -> (k < n)%nat ->
  loop n (fun i o => loop n (fun j o => loop n (fun k o => updt o i j k (f i j k (o i j k))) o) o) o i j k = f i j k (o i j k).
Proof.
  assert (In : forall m i j o a b c, loop m (fun k o => updt o i j k (f i j k (o i j k))) o a b c = if ((a =? i) && ((b =? j) && (c <? m)))%nat%bool then f a b c (o a b c) else o a b c).
  { clear. intros m i j o a b c. revert a b c. induction m; intros; [simpl; rewrite !Bool.andb_false_r; auto|].
    cbn [loop]. unfold updt at 1. rewrite !IHm.
    destruct (Nat.eqb_spec a i), (Nat.eqb_spec b j), (Nat.eqb_spec c m), (Nat.ltb_spec c m), (Nat.ltb_spec c (S m)), (Nat.ltb_spec m m), (Nat.eqb_spec i i), (Nat.eqb_spec j j); cbn [andb]; subst; try lia; auto. }
  assert (In2 : forall p m i o a b c, loop p (fun j o => loop m (fun k o => updt o i j k (f i j k (o i j k))) o) o a b c = if ((a =? i) && ((b <? p) && (c <? m)))%nat%bool then f a b c (o a b c) else o a b c).
  { intros p m i0 o0 a b c. induction p; [simpl; rewrite !Bool.andb_false_r; auto|].
    cbn [loop]. rewrite In, IHp.
    destruct (Nat.eqb_spec a i0), (Nat.eqb_spec b p), (Nat.ltb_spec b p), (Nat.ltb_spec b (S p)), (Nat.ltb_spec c m); cbn [andb]; subst; try lia; auto. }
  assert (In3 : forall q p m o a b c, loop q (fun i o => loop p (fun j o => loop m (fun k o => updt o i j k (f i j k (o i j k))) o) o) o a b c = if ((a <? q) && ((b <? p) && (c <? m)))%nat%bool then f a b c (o a b c) else o a b c).
  { intros q p m o0 a b c. induction q; [auto|].
    cbn [loop]. rewrite In2, IHq.
    destruct (Nat.eqb_spec a q), (Nat.ltb_spec a q), (Nat.ltb_spec a (S q)), (Nat.ltb_spec b p), (Nat.ltb_spec c m); cbn [andb]; subst; try lia; auto. }
  intros. rewrite In3, !ltb_lt' by auto. reflexivity.
Qed.

(* an energy c * FE + RE *)
Section Energy.
Context (n : nat) (V : nat -> R) (A : nat -> nat -> R) (c : R) (HV : positive n V).
Definition EE x := c * FE n V x + RE n V A x.
Definition Eg x k := c * Fg n V x k + Rg n V A x k.
Definition EH x k m := c * FH n V x k m + RH n V A x k m.
Definition ET x k m p := c * F3 n V x k m p + RT3 n V A x k m p.
Lemma am_S x : amounts n x -> 0 < UL n V x. Proof. intros H. now apply amounts_pos. Qed.
Lemma near_S x : 0 < UL n V x -> near n x (fun y => 0 < UL n V y). Proof. apply near_pos. Qed.
Section At.
Context (x : nat -> R) (HS : 0 < UL n V x).
Lemma EE_p k : (k < n)%nat -> partial EE x k (Eg x k).
Proof. intros. apply partial_plus. apply partial_scal. now apply FE_partial. now apply RE_partial. Qed.
Lemma Eg_p k m : (m < n)%nat -> partial (fun y => Eg y k) x m (EH x k m).
Proof. intros. unfold Eg. apply (partial_plus (fun y => c * Fg n V y k) (fun y => Rg n V A y k)). apply (partial_scal c (fun y => Fg n V y k)). now apply Fg_partial. now apply Rg_partial. Qed.
Lemma EH_p k m p : (m < n)%nat -> (p < n)%nat -> partial (fun y => EH y k m) x p (ET x k m p).
Proof. intros. unfold EH. apply (partial_plus (fun y => c * FH n V y k m) (fun y => RH n V A y k m)). apply (partial_scal c (fun y => FH n V y k m)). now apply FH_partial. now apply RH_partial. Qed.
Lemma Eg_s : rsum n (fun k => x k * Eg x k) = EE x - c * rsum n x.
Proof. rewrite (rsum_ext n _ (fun k => c * (x k * Fg n V x k) + x k * Rg n V A x k)) by (intros; unfold Eg; ring). rewrite rsum_plus, rsum_scal_l, Fg_sum, Rg_sum by auto. unfold EE. ring. Qed.
End At.
Section Stmt.
Context (G : (nat -> R) -> R) (EG : forall y, 0 < UL n V y -> G y = EE y).
Lemma st1 x k : 0 < UL n V x -> (k < n)%nat -> partial G x k (Eg x k).
Proof. intros HS Hk. apply (partial_near n _ EE); auto. eapply near_impl. 2: apply near_S; exact HS. auto. now apply EE_p. Qed.
Lemma st2 x k m : 0 < UL n V x -> (k < n)%nat -> (m < n)%nat -> second_partial n G x k m (EH x k m).
Proof. intros HS Hk Hm0. exists (fun y => Eg y k). split. eapply near_impl. 2: apply near_S; exact HS. intros y Hy. now apply st1. now apply Eg_p. Qed.
Lemma st3 x k m p : 0 < UL n V x -> (k < n)%nat -> (m < n)%nat -> (p < n)%nat -> third_partial n G x k m p (ET x k m p).
Proof.
  intros HS Hk Hm0 Hp. exists (fun y => Eg y k), (fun y => EH y k m). splits. eapply near_impl. 2: apply near_S; exact HS. intros y Hy. now apply st1. eapply near_impl. 2: apply near_S; exact HS. intros y Hy. now apply Eg_p. now apply EH_p.
Qed.
Lemma st_gamma RT ns i : amounts n ns -> (i < n)%nat -> RT <> 0 -> is_ln_gamma n G RT ns i ((Eg (fractions n ns) i + c) / RT).
Proof.
  intros Hx Hi HT. pose proof Hx as [H0 H1]. pose proof (am_S ns Hx) as HS. unfold is_ln_gamma.
  assert (HSf : forall y, 0 < UL n V y -> 0 < rsum n y -> 0 < UL n V (fractions n y)). { intros y Hy1 Hy2. change (fractions n y) with (fun j => y j * / rsum n y). rewrite UL_scal. apply Rmult_lt_0_compat; auto. now apply Rinv_0_lt_compat. }
  apply (total_near n G (fun y => c * (FE n V y + rsum n y * ln (rsum n y)) + RE n V A y)); auto.
  - eapply near_impl. 2: apply (near_and _ _ _ _ (near_S ns HS) (near_sum_pos n ns H1)). intros y [Hy1 Hy2]. rewrite EG by auto. unfold EE. rewrite <- FE_frac by auto. change (fractions n y) with (fun j => y j * / rsum n y) at 2. rewrite RE_scal by (auto using Rinv_neq_0_compat, Rgt_not_eq). field. lra.
  - eapply partial_val. { apply partial_plus. apply partial_scal. apply (partial_plus (FE n V) (fun y => rsum n y * ln (rsum n y))). now apply FE_partial. apply (partial_mult (fun y => rsum n y) (fun y => ln (rsum n y))). now apply tot_partial. apply partial_ln. exact H1. now apply tot_partial. now apply RE_partial. }
    cbv beta. unfold Eg. rewrite Fg_frac by auto. change (fractions n ns) with (fun j => ns j * / rsum n ns). rewrite Rg_scal by (auto using Rinv_neq_0_compat, Rgt_not_eq). field. split; lra.
Qed.
End Stmt.
End Energy.

(* attributes *)
Section Attr.
Context (n : nat) (x V : nat -> R).
Lemma xV_eq i : (i < n)%nat -> RegularSolution_xsVs n x V i = x i * V i.
Proof. intros. unfold RegularSolution_xsVs. cbv zeta. now rewrite (loop_upd_lt n). Qed.
Lemma si_eq : RegularSolution_xsVs_sum_inv n x V = / UL n V x.
Proof. unfold RegularSolution_xsVs_sum_inv. cbv zeta. rewrite loop_rsum, Rplus_0_l. unfold Rdiv. now rewrite Rmult_1_l. Qed.
Context (SP : nat -> R) (l : nat -> nat -> R).
Lemma A_eq i j : (i < n)%nat -> (j < n)%nat -> RegularSolution_Aijs n SP l i j = regular_A SP l i j.
Proof. intros. unfold RegularSolution_Aijs, regular_solution_Aijs. cbv zeta. rewrite loop_updm_lt by auto. unfold regular_A. field. Qed.
Lemma H_eq i j : (i < n)%nat -> (j < n)%nat -> RegularSolution_His n SP l i j = Hm (regular_A SP l) i j.
Proof. intros. unfold RegularSolution_His, regular_solution_His. cbv zeta. rewrite loop_updm_lt by auto. now apply Hm_eq. Qed.
Context (dd dp dh : nat -> R) (al : R).
Lemma hA_eq i j : (i < n)%nat -> (j < n)%nat -> Hansen_Aijs n dd dp dh al i j = hansen_A dd dp dh al i j.
Proof. intros. unfold Hansen_Aijs, hansen_Aijs, hansen_Aijs_His. cbv zeta. rewrite loop_updm_lt by auto. unfold hansen_A. field. Qed.
Lemma hH_eq i j : (i < n)%nat -> (j < n)%nat -> Hansen_His n dd dp dh al i j = Hm (hansen_A dd dp dh al) i j.
Proof. intros. unfold Hansen_His, hansen_His, hansen_Aijs_His. cbv zeta. rewrite loop_updm_lt by auto. unfold Hm, hansen_A. field. Qed.
End Attr.

Lemma fh_sum n x V si : 0 < UL n V x -> positive n V -> si = / UL n V x -> rsum n (fun i => x i * ln (V i * si)) = FE n V x.
Proof.
  intros HS HV ->. unfold FE. rewrite (rsum_ext n _ (fun i => x i * ln (V i) - x i * ln (UL n V x))). rewrite rsum_minus, rsum_scal_r. reflexivity.
  intros i Hi. rewrite ln_mult, ln_Rinv by (auto using Rinv_0_lt_compat). ring.
Qed.
Section FHcore.
Context (n : nat) (x V : nat -> R) (A : nat -> nat -> R) (HS : 0 < UL n V x) (HV : positive n V).
Context (xV : nat -> R) (EX : forall i, (i < n)%nat -> xV i = x i * V i) (si : R) (Esi : si = / UL n V x) (T : R).
Lemma f_GE A' : (forall i j, (i < n)%nat -> (j < n)%nat -> A' i j = A i j) -> flory_huggins_GE x V A' T xV si n = EE n V A (Rgas * T) x.
Proof.
  intros EA. unfold flory_huggins_GE. cbv zeta. rewrite (c_GE n x V A xV EX si Esi A' EA). rewrite (loop_ext n _ (fun i s => s + x i * ln (V i * si))).
  rewrite loop_rsum, Rplus_0_l, fh_sum by auto. reflexivity. intros i s Hi. rewrite (loop_upd_self n (fun _ v => ln v)) by auto. now rewrite (loop_upd_lt n).
Qed.
Lemma f_sub GE : GE = EE n V A (Rgas * T) x -> loop n (fun i g => g - Rgas * T * x i * ln (V i * si)) GE = RE n V A x.
Proof. intros ->. rewrite loop_rsub. rewrite (rsum_ext n _ (fun i => Rgas * T * (x i * ln (V i * si)))) by (intros; ring). rewrite rsum_scal_l, fh_sum by auto. unfold EE. ring. Qed.
Lemma f_dT : flory_huggins_dGE_dT x V n = Rgas * FE n V x.
Proof. clear Esi si EX xV. unfold flory_huggins_dGE_dT. cbv zeta. rewrite !loop_rsum, !Rplus_0_l. f_equal. rewrite <- (fh_sum n x V (/ UL n V x)) by auto. apply rsum_ext. intros i Hi. unfold Rdiv. do 4 f_equal. apply rsum_ext. intros; ring. Qed.
Context (Hs : rsum n x = 1).
Lemma f_dTdx w k : (k < n)%nat -> flory_huggins_d2GE_dTdxs x V w n k = Rgas * Fg n V x k.
Proof.
  clear Esi si EX xV. intros Hk. unfold flory_huggins_d2GE_dTdxs. cbv zeta. rewrite (loop_upd_lt n) by auto. rewrite loop_rsum, Rplus_0_l. replace (rsum n (fun i => V i * x i)) with (UL n V x) by (apply rsum_ext; intros; ring). unfold Fg. rewrite Hs, (ln_quot (V k)) by auto. f_equal. field. lra.
Qed.
Lemma f_dx Hsum GE w k : (k < n)%nat -> Hsum k = Rh n V A x k -> GE = EE n V A (Rgas * T) x -> flory_huggins_dGE_dxs x V Hsum n si GE T w k = Eg n V A (Rgas * T) x k.
Proof.
  intros Hk EH0 EG. unfold flory_huggins_dGE_dxs. cbv zeta. rewrite (loop_upd_self n (fun i v => v + Rgas * T * (ln (V i * si) - V i * si))) by auto. rewrite f_sub by auto. rewrite (c_dx n x V A) by auto. unfold Eg, Fg. rewrite Hs, Esi, ln_mult, ln_Rinv by (auto using Rinv_0_lt_compat). field. lra.
Qed.
Context (SP : nat -> R) (l : nat -> nat -> R) (EA : A = regular_A SP l).
Lemma f_d2 Hsum GE w k m : (forall k, (k < n)%nat -> Hsum k = Rh n V A x k) -> (k < n)%nat -> (m < n)%nat -> GE = EE n V A (Rgas * T) x -> flory_huggins_d2GE_dxixjs GE x V SP Hsum n T l si w k m = EH n V A (Rgas * T) x k m.
Proof.
  intros EH0 Hk Hm0 EG. unfold flory_huggins_d2GE_dxixjs. cbv zeta. rewrite (loop_updm_self n (fun i j v => v + Rgas * T * si * (V i * si * V j - V i - V j))) by auto. rewrite f_sub by auto. rewrite (c_d2 n x V A) by (auto using c_dx). unfold EH, FH. rewrite Hs, Esi. field. lra.
Qed.
Lemma f_d3 Hsum GE w k m p : (forall k, (k < n)%nat -> Hsum k = Rh n V A x k) -> (k < n)%nat -> (m < n)%nat -> (p < n)%nat -> GE = EE n V A (Rgas * T) x -> flory_huggins_d3GE_dxixjxks x V SP Hsum n T GE si l w k m p = ET n V A (Rgas * T) x k m p.
Proof.
  intros EH0 Hk Hm0 Hp EG. unfold flory_huggins_d3GE_dxixjxks. cbv zeta.
  rewrite (loop_updt_self n (fun i j k v => v + Rgas * T * (loop n (fun m s => s + -2 * V i * V j * V k * x m * si * si * si) 0 + si * si * (V i * V j + V i * V k + V j * V k)))) by auto. rewrite f_sub by auto.
  rewrite (c_d3 n x V A) by (auto using c_dx, c_d2). rewrite loop_rsum, Rplus_0_l. rewrite (rsum_ext n _ (fun i => x i * (-2 * V k * V m * V p * si * si * si))) by (intros; ring). rewrite rsum_scal_r. change (rsum n (fun i => x i)) with (rsum n x). unfold ET, F3. rewrite Hs, Esi. field. lra.
Qed.
End FHcore.

(* ---- the regular solution model ---- *)
Section Regular.
Variables (N : nat) (Vs SPs : nat -> R) (lambda_coeffs : nat -> nat -> R).
Hypothesis HV : positive N Vs.
Let GE x := RegularSolution_GE N x Vs SPs lambda_coeffs.
Let dGE_dxs x := RegularSolution_dGE_dxs N x Vs SPs lambda_coeffs.
Let d2GE_dxixjs x := RegularSolution_d2GE_dxixjs N x Vs SPs lambda_coeffs.
Let d3GE_dxixjxks x := RegularSolution_d3GE_dxixjxks N x Vs SPs lambda_coeffs.
Let gammas T x := RegularSolution_gammas N T x Vs SPs lambda_coeffs.
Notation A := (regular_A SPs lambda_coeffs).
Lemma rGE y : GE y = RE N Vs A y.
Proof. unfold GE, RegularSolution_GE. cbv zeta. apply c_GE. intros; now apply xV_eq. apply si_eq. intros; now apply A_eq. Qed.
Lemma rHi y k : (k < N)%nat -> RegularSolution_Hi_sums N y Vs SPs lambda_coeffs k = Rh N Vs A y k.
Proof. intros. unfold RegularSolution_Hi_sums. cbv zeta. apply c_Hi; auto. intros; now apply xV_eq. intros; now apply H_eq. Qed.
Lemma rdx y k : (k < N)%nat -> dGE_dxs y k = Rg N Vs A y k.
Proof. intros. unfold dGE_dxs, RegularSolution_dGE_dxs. cbv zeta. apply c_dx; auto. apply si_eq. now apply rHi. apply rGE. Qed.
Lemma rd2 y k m : 0 < UL N Vs y -> (k < N)%nat -> (m < N)%nat -> d2GE_dxixjs y k m = RH N Vs A y k m.
Proof. intros. unfold d2GE_dxixjs, RegularSolution_d2GE_dxixjs. cbv zeta. apply c_d2; auto. apply si_eq. now apply rHi. now apply rdx. apply rGE. Qed.
Lemma rd3 y k m p : 0 < UL N Vs y -> (k < N)%nat -> (m < N)%nat -> (p < N)%nat -> d3GE_dxixjxks y k m p = RT3 N Vs A y k m p.
Proof. intros. unfold d3GE_dxixjxks, RegularSolution_d3GE_dxixjxks. cbv zeta. apply c_d3; auto. apply si_eq. now apply rHi. now apply rdx. now apply rdx. now apply rd2. apply rGE. Qed.
Lemma rEE y : GE y = EE N Vs A 0 y. Proof. rewrite rGE. unfold EE. ring. Qed.

Theorem C22_Regular_GE_form x : GE x = regular_GE_form N x Vs A.
Proof. rewrite rGE. unfold RE, RQ, regular_GE_form. f_equal. apply rsum_ext. intros i Hi. rewrite <- rsum_scal_l. apply rsum_ext. intros; ring. Qed.
Theorem C22_Regular_dGE_dxs x k : amounts N x -> (k < N)%nat -> partial GE x k (dGE_dxs x k).
Proof. intros Hx Hk. rewrite rdx by auto. eapply partial_val. apply (st1 N Vs A 0 GE); auto using rEE. now apply am_S. unfold Eg. ring. Qed.
Theorem C22_Regular_d2GE_dxixjs x k m : amounts N x -> (k < N)%nat -> (m < N)%nat -> second_partial N GE x k m (d2GE_dxixjs x k m).
Proof. intros Hx Hk Hm0. pose proof (am_S N Vs HV x Hx). rewrite rd2 by auto. replace (RH N Vs A x k m) with (EH N Vs A 0 x k m) by (unfold EH; ring). apply (st2 N Vs A 0 GE); auto using rEE. Qed.
Theorem C22_Regular_d3GE_dxixjxks x k m p : amounts N x -> (k < N)%nat -> (m < N)%nat -> (p < N)%nat -> third_partial N GE x k m p (d3GE_dxixjxks x k m p).
Proof. intros Hx Hk Hm0 Hp. pose proof (am_S N Vs HV x Hx). rewrite rd3 by auto. replace (RT3 N Vs A x k m p) with (ET N Vs A 0 x k m p) by (unfold ET; ring). apply (st3 N Vs A 0 GE); auto using rEE. Qed.
Lemma rgam T x k : 0 < T -> 0 < UL N Vs x -> (k < N)%nat -> gammas T x k = exp (Rg N Vs A x k / (Rgas * T)).
Proof.
  intros HT HS Hk. unfold gammas, RegularSolution_gammas, ext_dxs_to_dn_partials. cbv zeta. f_equal. fold (GE x). fold (dGE_dxs x). rewrite (rsum_ext N _ (fun j => x j * Rg N Vs A x j)) by (intros; rewrite rdx by auto; reflexivity). rewrite Rg_sum, rdx, rGE by auto. field. pose proof Rgas_pos. lra.
Qed.
Theorem C22_Regular_ln_gamma ns T i : 0 < T -> amounts N ns -> (i < N)%nat -> is_ln_gamma N GE (Rgas * T) ns i (ln (gammas T (fractions N ns) i)).
Proof.
  intros HT Hx Hi. pose proof (am_S N Vs HV ns Hx) as HS. pose proof Hx as [_ H1]. pose proof Rgas_pos. rewrite rgam, ln_exp; auto. 2:{ change (fractions N ns) with (fun j => ns j * / rsum N ns). rewrite UL_scal. apply Rmult_lt_0_compat; auto. now apply Rinv_0_lt_compat. }
  replace (Rg N Vs A (fractions N ns) i) with (Eg N Vs A 0 (fractions N ns) i + 0) by (unfold Eg; ring). apply st_gamma; auto using rEE. apply Rmult_integral_contrapositive; split; lra.
Qed.
Theorem C22_Regular_GE_sum x T : 0 < T -> amounts N x -> GE x = Rgas * T * rsum N (fun i => x i * ln (gammas T x i)).
Proof.
  intros HT Hx. pose proof (am_S N Vs HV x Hx) as HS. pose proof Rgas_pos. rewrite rGE, <- Rg_sum, <- rsum_scal_l by auto. apply rsum_ext. intros i Hi. rewrite rgam, ln_exp by auto. field. lra.
Qed.
(* GE, its T-derivatives: the energy does not depend on T, and the code returns zeros (lines 886-955) *)
(* regular_solution_gammas, also reached as gammas_from_args, with any work lists *)
Theorem C22_regular_solution_gammas x T w1 w2 w3 w4 i : 0 < T -> amounts N x -> (i < N)%nat -> regular_solution_gammas x N T Vs SPs lambda_coeffs w1 w2 w3 w4 i = gammas T x i.
Proof.
  intros HT Hx Hi. pose proof (am_S N Vs HV x Hx) as HS. pose proof Rgas_pos. rewrite rgam by auto. unfold regular_solution_gammas. cbv zeta.
  set (xV := loop N (fun i o => upd o i (x i * Vs i)) w1). assert (EX : forall i, (i < N)%nat -> xV i = x i * Vs i) by (intros; unfold xV; now rewrite (loop_upd_lt N)).
  assert (ESi : 1 / loop N (fun i s => s + xV i) 0 = / UL N Vs x). { rewrite loop_rsum, Rplus_0_l. unfold Rdiv. rewrite Rmult_1_l. f_equal. now apply rsum_ext. } rewrite ESi.
  set (Hs := regular_solution_Hi_sums SPs Vs xV lambda_coeffs N w2). assert (EHs : forall k, (k < N)%nat -> Hs k = Rh N Vs A x k).
  { intros k Hk. unfold Hs, regular_solution_Hi_sums. cbv zeta. rewrite (loop_upd_lt N) by auto. rewrite loop_rsum, Rplus_0_l. unfold Rh. f_equal. apply rsum_ext. intros j Hj. rewrite EX, (Hm_eq A) by auto. ring. }
  assert (EG : regular_solution_GE SPs xV lambda_coeffs N (/ UL N Vs x) = RE N Vs A x).
  { unfold regular_solution_GE. cbv zeta. rewrite loop_rsum, Rplus_0_l. unfold RE, Rdiv. f_equal. apply rsum_ext. intros k Hk. rewrite !(loop_upd_lt N) by auto. rewrite !loop_rsum, !Rplus_0_l. rewrite EX by auto. rewrite <- rsum_scal_r, <- rsum_scal_l, <- rsum_plus, <- rsum_scal_r, <- rsum_scal_l. apply rsum_ext. intros j Hj. rewrite EX by auto. unfold regular_A. field. }
  rewrite EG. set (dG := regular_solution_dGE_dxs Vs Hs N (/ UL N Vs x) (RE N Vs A x) w3). assert (ED : forall k, (k < N)%nat -> dG k = Rg N Vs A x k) by (intros; unfold dG; apply c_dx; auto).
  rewrite (loop_upd_self N (fun _ v => exp v)) by auto. rewrite (loop_upd_self N (fun _ v => v * (1 / (Rgas * T)))) by auto. rewrite (loop_upd_lt N) by auto. f_equal.
  rewrite loop_rsub, (rsum_ext N _ (fun j => x j * Rg N Vs A x j)) by (intros; rewrite ED by auto; reflexivity). rewrite Rg_sum, ED by auto. field. lra.
Qed.
End Regular.

(* ---- Flory-Huggins ---- *)
Section FloryHuggins.
Variables (N : nat) (Vs SPs : nat -> R) (lambda_coeffs : nat -> nat -> R).
Hypothesis HV : positive N Vs.
Let GE T x := FloryHuggins_GE N T x Vs SPs lambda_coeffs.
Let dGE_dxs T x := FloryHuggins_dGE_dxs N T x Vs SPs lambda_coeffs.
Let d2GE_dxixjs T x := FloryHuggins_d2GE_dxixjs N T x Vs SPs lambda_coeffs.
Let d3GE_dxixjxks T x := FloryHuggins_d3GE_dxixjxks N T x Vs SPs lambda_coeffs.
Let gammas T x := FloryHuggins_gammas N T x Vs SPs lambda_coeffs.
Notation A := (regular_A SPs lambda_coeffs).
Lemma fGE T y : 0 < UL N Vs y -> GE T y = EE N Vs A (Rgas * T) y.
Proof. intros. unfold GE, FloryHuggins_GE. cbv zeta. apply f_GE; auto. intros; now apply xV_eq. apply si_eq. intros; now apply A_eq. Qed.
Lemma fHi y k : (k < N)%nat -> FloryHuggins_Hi_sums N y Vs SPs lambda_coeffs k = Rh N Vs A y k.
Proof. intros. unfold FloryHuggins_Hi_sums. cbv zeta. apply c_Hi; auto. intros; now apply xV_eq. intros; now apply H_eq. Qed.
Lemma fdx T y k : 0 < UL N Vs y -> rsum N y = 1 -> (k < N)%nat -> dGE_dxs T y k = Eg N Vs A (Rgas * T) y k.
Proof. intros. unfold dGE_dxs, FloryHuggins_dGE_dxs. cbv zeta. apply f_dx; auto. apply si_eq. now apply fHi. now apply fGE. Qed.
Theorem C22_FloryHuggins_GE_form x T : amounts N x -> GE T x = flory_huggins_GE_form N x Vs A (Rgas * T).
Proof.
  intros Hx. rewrite fGE by now apply am_S. unfold EE, flory_huggins_GE_form. f_equal.
  - f_equal. rewrite <- (fh_sum N x Vs (/ UL N Vs x)) by (auto; now apply am_S). reflexivity.
  - unfold RE, RQ, regular_GE_form. f_equal. apply rsum_ext. intros i Hi. rewrite <- rsum_scal_l. apply rsum_ext. intros; ring.
Qed.
Theorem C22_FloryHuggins_dGE_dT x T : amounts N x -> is_derive (fun t => GE t x) T (FloryHuggins_dGE_dT N x Vs).
Proof.
  intros Hx. pose proof (am_S N Vs HV x Hx). apply (is_derive_ext (fun t => EE N Vs A (Rgas * t) x)). intros; symmetry; now apply fGE. unfold FloryHuggins_dGE_dT. cbv zeta. rewrite f_dT by auto. unfold EE. auto_derive. trivial. ring.
Qed.
(* dGE_dT does not depend on T, and d2GE_dT2 and d3GE_dT3 are returned as zero *)
Section Fractions.
Variable x : nat -> R. Hypotheses (Hx : amounts N x) (Hs : rsum N x = 1).
Theorem C22_FloryHuggins_dGE_dxs T k : (k < N)%nat -> partial (GE T) x k (dGE_dxs T x k).
Proof. intros Hk. pose proof (am_S N Vs HV x Hx). rewrite fdx by auto. apply st1; auto. intros; now apply fGE. Qed.
Theorem C22_FloryHuggins_d2GE_dxixjs T k m : (k < N)%nat -> (m < N)%nat -> second_partial N (GE T) x k m (d2GE_dxixjs T x k m).
Proof.
  intros Hk Hm0. pose proof (am_S N Vs HV x Hx). replace (d2GE_dxixjs T x k m) with (EH N Vs A (Rgas * T) x k m). apply st2; auto. intros; now apply fGE.
  symmetry. unfold d2GE_dxixjs, FloryHuggins_d2GE_dxixjs. cbv zeta. apply f_d2; auto. apply si_eq. intros; now apply fHi. now apply fGE.
Qed.
Theorem C22_FloryHuggins_d3GE_dxixjxks T k m p : (k < N)%nat -> (m < N)%nat -> (p < N)%nat -> third_partial N (GE T) x k m p (d3GE_dxixjxks T x k m p).
Proof.
  intros Hk Hm0 Hp. pose proof (am_S N Vs HV x Hx). replace (d3GE_dxixjxks T x k m p) with (ET N Vs A (Rgas * T) x k m p). apply st3; auto. intros; now apply fGE.
  symmetry. unfold d3GE_dxixjxks, FloryHuggins_d3GE_dxixjxks. cbv zeta. apply f_d3; auto. apply si_eq. intros; now apply fHi. now apply fGE.
Qed.
Theorem C22_FloryHuggins_d2GE_dTdxs T k : (k < N)%nat -> mixed_partial GE T x k (FloryHuggins_d2GE_dTdxs N x Vs k).
Proof.
  intros Hk. pose proof (am_S N Vs HV x Hx). exists (fun t => Eg N Vs A (Rgas * t) x k). split. apply filter_forall. intros t. apply st1; auto. intros; now apply fGE.
  unfold FloryHuggins_d2GE_dTdxs. cbv zeta. rewrite f_dTdx by auto. unfold Eg. auto_derive. trivial. ring.
Qed.
Lemma fgam T k : 0 < T -> (k < N)%nat -> gammas T x k = exp ((Eg N Vs A (Rgas * T) x k + Rgas * T) / (Rgas * T)).
Proof.
  intros HT Hk. pose proof (am_S N Vs HV x Hx). unfold gammas, FloryHuggins_gammas, ext_dxs_to_dn_partials. cbv zeta. f_equal. fold (GE T x). fold (dGE_dxs T x). rewrite (rsum_ext N _ (fun j => x j * Eg N Vs A (Rgas * T) x j)) by (intros; rewrite fdx by auto; reflexivity). rewrite Eg_s, fdx, fGE, Hs by auto. field. pose proof Rgas_pos. lra.
Qed.
Theorem C22_FloryHuggins_GE_sum T : 0 < T -> GE T x = Rgas * T * rsum N (fun i => x i * ln (gammas T x i)).
Proof.
  intros HT. pose proof (am_S N Vs HV x Hx) as HS. pose proof Rgas_pos. rewrite fGE by auto. rewrite (rsum_ext N _ (fun i => (x i * Eg N Vs A (Rgas * T) x i) * / (Rgas * T) + x i)). rewrite rsum_plus, rsum_scal_r, Eg_s by auto. change (rsum N (fun i => x i)) with (rsum N x). rewrite Hs. field. lra.
  intros i Hi. rewrite fgam, ln_exp by auto. field. lra.
Qed.
End Fractions.
Theorem C22_FloryHuggins_ln_gamma ns T i : 0 < T -> amounts N ns -> (i < N)%nat -> is_ln_gamma N (GE T) (Rgas * T) ns i (ln (gammas T (fractions N ns) i)).
Proof.
  intros HT Hx Hi. pose proof (am_S N Vs HV ns Hx) as HS. pose proof Hx as [H0 H1]. pose proof Rgas_pos. assert (Hs : rsum N (fractions N ns) = 1) by (unfold fractions; rewrite rsum_div_r; field; lra).
  rewrite fgam, ln_exp; auto. apply st_gamma; auto. intros; now apply fGE. apply Rmult_integral_contrapositive; split; lra.
  split. intros j Hj. unfold fractions, Rdiv. apply Rmult_le_pos; auto. left. now apply Rinv_0_lt_compat. lra.
Qed.
End FloryHuggins.

(* ---- Hansen ---- *)
Section Hansen.
Variables (N : nat) (Vs delta_d delta_p delta_h : nat -> R) (alpha : R).
Hypothesis HV : positive N Vs.
Let GE T x := Hansen_GE N T x Vs delta_d delta_p delta_h alpha.
Let dGE_dxs T x := Hansen_dGE_dxs N T x Vs delta_d delta_p delta_h alpha.
Let gammas T x := Hansen_gammas N T x Vs delta_d delta_p delta_h alpha.
Notation A := (hansen_A delta_d delta_p delta_h alpha).
Lemma hGE T y : 0 < UL N Vs y -> GE T y = EE N Vs A (Rgas * T) y.
Proof. intros. unfold GE, Hansen_GE. cbv zeta. apply f_GE; auto. intros; now apply xV_eq. apply si_eq. intros; now apply hA_eq. Qed.
Lemma hHi y k : (k < N)%nat -> Hansen_Hi_sums N y Vs delta_d delta_p delta_h alpha k = Rh N Vs A y k.
Proof. intros. unfold Hansen_Hi_sums. cbv zeta. apply c_Hi; auto. intros; now apply xV_eq. intros; now apply hH_eq. Qed.
Lemma hdx T y k : 0 < UL N Vs y -> rsum N y = 1 -> (k < N)%nat -> dGE_dxs T y k = Eg N Vs A (Rgas * T) y k.
Proof. intros. unfold dGE_dxs, Hansen_dGE_dxs. cbv zeta. apply f_dx; auto. apply si_eq. now apply hHi. now apply hGE. Qed.
Theorem C22_Hansen_GE_form x T : amounts N x -> GE T x = flory_huggins_GE_form N x Vs A (Rgas * T).
Proof.
  intros Hx. rewrite hGE by now apply am_S. unfold EE, flory_huggins_GE_form. f_equal.
  - f_equal. rewrite <- (fh_sum N x Vs (/ UL N Vs x)) by (auto; now apply am_S). reflexivity.
  - unfold RE, RQ, regular_GE_form. f_equal. apply rsum_ext. intros i Hi. rewrite <- rsum_scal_l. apply rsum_ext. intros; ring.
Qed.
Theorem C22_Hansen_dGE_dT x T : amounts N x -> is_derive (fun t => GE t x) T (Hansen_dGE_dT N x Vs).
Proof.
  intros Hx. pose proof (am_S N Vs HV x Hx). apply (is_derive_ext (fun t => EE N Vs A (Rgas * t) x)). intros; symmetry; now apply hGE. unfold Hansen_dGE_dT. cbv zeta. rewrite f_dT by auto. unfold EE. auto_derive. trivial. ring.
Qed.
Theorem C22_Hansen_dGE_dxs x T k : amounts N x -> rsum N x = 1 -> (k < N)%nat -> partial (GE T) x k (dGE_dxs T x k).
Proof. intros Hx Hs Hk. pose proof (am_S N Vs HV x Hx). rewrite hdx by auto. apply st1; auto. intros; now apply hGE. Qed.
Theorem C22_Hansen_d2GE_dTdxs x T k : amounts N x -> rsum N x = 1 -> (k < N)%nat -> mixed_partial GE T x k (Hansen_d2GE_dTdxs N x Vs k).
Proof.
  intros Hx Hs Hk. pose proof (am_S N Vs HV x Hx). exists (fun t => Eg N Vs A (Rgas * t) x k). split. apply filter_forall. intros t. apply st1; auto. intros; now apply hGE.
  unfold Hansen_d2GE_dTdxs. cbv zeta. rewrite f_dTdx by auto. unfold Eg. auto_derive. trivial. ring.
Qed.
Lemma hgam T x k : amounts N x -> rsum N x = 1 -> 0 < T -> (k < N)%nat -> gammas T x k = exp ((Eg N Vs A (Rgas * T) x k + Rgas * T) / (Rgas * T)).
Proof.
  intros Hx Hs HT Hk. pose proof (am_S N Vs HV x Hx). unfold gammas, Hansen_gammas, ext_dxs_to_dn_partials. cbv zeta. f_equal. fold (GE T x). fold (dGE_dxs T x). rewrite (rsum_ext N _ (fun j => x j * Eg N Vs A (Rgas * T) x j)) by (intros; rewrite hdx by auto; reflexivity). rewrite Eg_s, hdx, hGE, Hs by auto. field. pose proof Rgas_pos. lra.
Qed.
Theorem C22_Hansen_GE_sum x T : amounts N x -> rsum N x = 1 -> 0 < T -> GE T x = Rgas * T * rsum N (fun i => x i * ln (gammas T x i)).
Proof.
  intros Hx Hs HT. pose proof (am_S N Vs HV x Hx) as HS. pose proof Rgas_pos. rewrite hGE by auto. rewrite (rsum_ext N _ (fun i => (x i * Eg N Vs A (Rgas * T) x i) * / (Rgas * T) + x i)). rewrite rsum_plus, rsum_scal_r, Eg_s by auto. change (rsum N (fun i => x i)) with (rsum N x). rewrite Hs. field. lra.
  intros i Hi. rewrite hgam, ln_exp by auto. field. lra.
Qed.
Theorem C22_Hansen_ln_gamma ns T i : 0 < T -> amounts N ns -> (i < N)%nat -> is_ln_gamma N (GE T) (Rgas * T) ns i (ln (gammas T (fractions N ns) i)).
Proof.
  intros HT Hx Hi. pose proof (am_S N Vs HV ns Hx) as HS. pose proof Hx as [H0 H1]. pose proof Rgas_pos. assert (Hs : rsum N (fractions N ns) = 1) by (unfold fractions; rewrite rsum_div_r; field; lra).
  rewrite hgam, ln_exp; auto. apply st_gamma; auto. intros; now apply hGE. apply Rmult_integral_contrapositive; split; lra.
  split. intros j Hj. unfold fractions, Rdiv. apply Rmult_le_pos; auto. left. now apply Rinv_0_lt_compat. lra.
Qed.
End Hansen.

(* ---- binary mixtures ---- *)
Definition lam0 (u v : R) : nat -> nat -> R := fun i j => match i, j with O, S O => u | S O, O => v | _, _ => 0 end.
Definition within (l : R) : Prop := MIN_LAMBDA_REGULAR_SOLUTION <= l <= MAX_LAMBDA_REGULAR_SOLUTION.
Definition inside (l : R) : Prop := MIN_LAMBDA_REGULAR_SOLUTION < l < MAX_LAMBDA_REGULAR_SOLUTION.
Section Binary.
Variables (xs Vs SPs Ts : nat -> R) (pts k : nat).
Hypotheses (HV : positive 2 Vs) (Hk : (k < pts)%nat) (Hx : 0 <= xs (k * 2)%nat <= 1) (HT : 0 < Ts k).
Let x := pair2 (xs (k * 2)%nat) (1 - xs (k * 2)%nat).
(* what the stand-alone function gives for component c of the two-component mixture *)
Let g u v c := regular_solution_gammas x 2 (Ts k) Vs SPs (lam0 u v) (fun _ => 0) (fun _ => 0) (fun _ => 0) (fun _ => 0) c.
Let x0 := xs (k * 2)%nat.
Let Sx := x0 * Vs 0%nat + (1 - x0) * Vs 1%nat.
Let bas u v := ((SPs 0%nat - SPs 1%nat) * (SPs 0%nat - SPs 1%nat) + u * SPs 0%nat * SPs 1%nat + v * SPs 0%nat * SPs 1%nat) * (1 / Rgas).
Let q u v c := match c with O => Vs 0%nat * ((1 - x0) * Vs 1%nat * (1 / Sx)) * ((1 - x0) * Vs 1%nat * (1 / Sx)) * (bas u v / Ts k) | _ => Vs 1%nat * (x0 * Vs 0%nat * (1 / Sx)) * (x0 * Vs 0%nat * (1 / Sx)) * (bas u v / Ts k) end.
Lemma b_S : 0 < Sx. Proof. unfold Sx. fold x0 in Hx. assert (0 < Vs 0%nat) by (apply HV; lia). assert (0 < Vs 1%nat) by (apply HV; lia). nra. Qed.
Lemma b_am : amounts 2 x. Proof. split. intros [|[|i]] Hi; cbn; try lra; lia. cbn. lra. Qed.
Lemma b_g u v c : (c < 2)%nat -> g u v c = exp (q u v c).
Proof.
  intros Hc. unfold g. rewrite (C22_regular_solution_gammas 2 Vs SPs (lam0 u v) HV) by (auto using b_am). rewrite (rgam 2 Vs SPs (lam0 u v)); auto. 2: apply am_S; auto using b_am.
  f_equal. pose proof b_S as PS. pose proof Rgas_pos as PR. unfold Rg, Rh, RE, RQ, UL, rsum, Hm, regular_A, x, q. fold x0. destruct c as [|[|c]]; [| |lia]; cbn [loop pair2 lam0]; unfold bas.
  all: replace (0 + x0 * Vs 0%nat + (1 - x0) * Vs 1%nat) with Sx by (unfold Sx; ring). all: assert (ES : Sx = x0 * Vs 0%nat + (1 - x0) * Vs 1%nat) by reflexivity.
  all: clear - PS PR HT ES; clearbody Sx x0; generalize dependent (Vs 0%nat); generalize dependent (Vs 1%nat); intros a b ES; generalize (SPs 0%nat) (SPs 1%nat); intros s t; subst Sx; field; lra.
Qed.
Lemma b_val u v buf c : within u -> within v -> (c < 2)%nat -> regular_solution_gammas_binaries xs Vs SPs Ts u v buf pts (k * 2 + c)%nat = Rmin (exp (q u v c)) MAX_GAMMA_REGULAR_SOLUTION.
Proof.
  intros [Hu1 Hu2] [Hv1 Hv2] Hc. unfold regular_solution_gammas_binaries. cbv zeta. rewrite (Rltb_false u), (Rltb_false v) by auto. rewrite !Rltb_false by auto.
  match goal with |- context [loop pts (fun i_ o => upd (upd o _ (@?a0 i_)) _ (@?a1 i_)) buf] => pose proof (loop_pairs a0 a1 pts buf k Hk) as [E0 E1] end.
  destruct c as [|[|c]]; [| |lia]. rewrite Nat.add_0_r. exact E0. exact E1.
Qed.
(* the vectorised binary form agrees with the stand-alone function, up to the cap on the result *)
Theorem C22_regular_solution_gammas_binaries u v buf c : within u -> within v -> (c < 2)%nat ->
  regular_solution_gammas_binaries xs Vs SPs Ts u v buf pts (k * 2 + c)%nat = Rmin (g u v c) MAX_GAMMA_REGULAR_SOLUTION.
Proof. intros. rewrite b_val, b_g by auto. reflexivity. Qed.
Lemma b_jac u v buf c p : within u -> within v -> (c < 2)%nat -> (p < 2)%nat ->
  regular_solution_gammas_binaries_jac xs Vs SPs Ts u v buf pts (k * 2 + c)%nat p = (q 1 0 c - q 0 0 c) * exp (q u v c).
Proof.
  intros [Hu1 Hu2] [Hv1 Hv2] Hc Hp. unfold regular_solution_gammas_binaries_jac. cbv zeta. rewrite (Rltb_false u), (Rltb_false v) by auto. rewrite !Rltb_false by auto.
  match goal with |- context [loop pts (fun i_ o => updm (updm (updm (updm o _ _ (@?a0 i_)) _ _ (@?a1 i_)) _ _ (@?a2 i_)) _ _ (@?a3 i_)) buf] => pose proof (jac2 a0 a1 a2 a3 pts buf k Hk) as (E0 & E1 & E2 & E3) end. cbv beta in E0, E1, E2, E3.
  assert (PS := b_S). pose proof Rgas_pos as PR.
  destruct c as [|[|c]]; [| |lia]; (destruct p as [|[|p]]; [| |lia]); rewrite ?Nat.add_0_r; rewrite ?E0, ?E1, ?E2, ?E3; clear E0 E1 E2 E3; fold x0; (replace (Vs 0%nat * x0 + Vs 1%nat * (1 - x0)) with Sx by (unfold Sx; ring));
    (match goal with |- _ * exp ?a = _ * exp ?b => replace a with b by (unfold q, bas; field; lra) end); f_equal; unfold q, bas; field; lra.
Qed.
Lemma b_der u v c : is_derive (fun t => exp (q t v c)) u ((q 1 0 c - q 0 0 c) * exp (q u v c)) /\ is_derive (fun t => exp (q u t c)) v ((q 1 0 c - q 0 0 c) * exp (q u v c)).
Proof.
  assert (L1 : forall t, q t v c = q 0 v c + t * (q 1 0 c - q 0 0 c)) by (intros; destruct c; unfold q, bas, Rdiv; ring). assert (L2 : forall t, q u t c = q u 0 c + t * (q 1 0 c - q 0 0 c)) by (intros; destruct c; unfold q, bas, Rdiv; ring). split.
  - apply (is_derive_ext (fun t => exp (q 0 v c + t * (q 1 0 c - q 0 0 c)))). intros t; now rewrite (L1 t). rewrite (L1 u). auto_derive. trivial. ring.
  - apply (is_derive_ext (fun t => exp (q u 0 c + t * (q 1 0 c - q 0 0 c)))). intros t; now rewrite (L2 t). rewrite (L2 v). auto_derive. trivial. ring.
Qed.
(* away from the limits the Jacobian holds the derivatives of the result with respect to the two parameters *)
Theorem C22_regular_solution_gammas_binaries_jac u v buf calc c : inside u -> inside v -> (c < 2)%nat -> g u v c < MAX_GAMMA_REGULAR_SOLUTION ->
  let J := regular_solution_gammas_binaries_jac xs Vs SPs Ts u v calc pts (k * 2 + c)%nat in
  is_derive (fun t => regular_solution_gammas_binaries xs Vs SPs Ts t v buf pts (k * 2 + c)%nat) u (J 0%nat) /\ is_derive (fun t => regular_solution_gammas_binaries xs Vs SPs Ts u t buf pts (k * 2 + c)%nat) v (J 1%nat).
Proof.
  intros Hu Hv Hc Hg J. assert (Wu : within u) by (destruct Hu; split; lra). assert (Wv : within v) by (destruct Hv; split; lra). unfold J. rewrite !b_jac by auto. rewrite b_g in Hg by auto.
  assert (L : forall f : R -> R, forall t d, inside t -> is_derive (fun s => exp (f s)) t d -> exp (f t) < MAX_GAMMA_REGULAR_SOLUTION -> locally t (fun s => within s /\ exp (f s) < MAX_GAMMA_REGULAR_SOLUTION)).
  { intros f t d Ht Hd Hl. apply filter_and. apply (locally_interval _ t (Finite MIN_LAMBDA_REGULAR_SOLUTION) (Finite MAX_LAMBDA_REGULAR_SOLUTION)); try apply Ht. intros s H1 H2. split; left; assumption.
    assert (Cn : continuous (fun s => exp (f s)) t) by (apply (ex_derive_continuous (fun s => exp (f s)) t); exists d; exact Hd). apply (Cn (fun z => z < MAX_GAMMA_REGULAR_SOLUTION)). apply (locally_interval _ _ m_infty (Finite MAX_GAMMA_REGULAR_SOLUTION)). exact I. exact Hl. intros z _ Hz. exact Hz. }
  destruct (b_der u v c) as [D1 D2]. split.
  - eapply is_derive_ext_loc. 2: exact D1. eapply filter_imp. 2: apply (L (fun t => q t v c) u _ Hu D1 Hg). intros s [Ws Hs]. cbv beta in *. rewrite b_val by auto. rewrite Rmin_left by lra. reflexivity.
  - eapply is_derive_ext_loc. 2: exact D2. eapply filter_imp. 2: apply (L (fun t => q u t c) v _ Hv D2 Hg). intros s [Ws Hs]. cbv beta in *. rewrite b_val by auto. rewrite Rmin_left by lra. reflexivity.
Qed.
End Binary.
(* the Jacobian ignores the cap: above it the result is constant but the Jacobian entry is not zero *)
Theorem C22_binaries_jac_above_cap_refuted : exists xs Vs SPs Ts u v buf calc, positive 2 Vs /\ 0 <= xs 0%nat <= 1 /\ 0 < Ts 0%nat /\ inside u /\ inside v /\
  is_derive (fun t => regular_solution_gammas_binaries xs Vs SPs Ts t v buf 1 0%nat) u 0 /\ regular_solution_gammas_binaries_jac xs Vs SPs Ts u v calc 1 0%nat 0%nat <> 0.
Proof.
  pose proof Rgas_pos as PR. assert (M1 : 10 ^ 10 + 1 < 10 ^ 100). { apply Rlt_le_trans with (10 ^ 11). simpl; lra. apply Rle_pow. lra. lia. } assert (M2 : 0 < 10 ^ 10) by (apply pow_lt; lra).
  pose (xs := fun _ : nat => 0). pose (Vs := fun _ : nat => 1). pose (Ts := fun _ : nat => 1 / Rgas).
  assert (HV : positive 2 Vs) by (intros i _; unfold Vs; lra). assert (Hx : 0 <= xs (0 * 2)%nat <= 1) by (unfold xs; lra). assert (HT : 0 < Ts 0%nat) by (apply Rdiv_lt_0_compat; lra).
  exists xs, Vs, Vs, Ts, (10 ^ 10), 0, (fun _ => 0), (fun _ _ => 0).
  assert (W : forall t, 0 <= t <= 10 ^ 10 + 1 -> inside t) by (intros t Ht; unfold inside, MIN_LAMBDA_REGULAR_SOLUTION, MAX_LAMBDA_REGULAR_SOLUTION; lra). assert (W' : forall t, 0 <= t <= 10 ^ 10 + 1 -> within t) by (intros t Ht; destruct (W t Ht); split; lra).
  split. exact HV. split. exact Hx. split. exact HT. split. apply W; lra. split. apply W; lra. split.
  - apply (is_derive_ext_loc (fun _ => MAX_GAMMA_REGULAR_SOLUTION)). 2: apply @is_derive_const.
    apply (locally_interval _ _ (Finite (10 ^ 10 - 1)) (Finite (10 ^ 10 + 1))); cbn -[pow]; try lra. intros t H1 H2. assert (1 < 10 ^ 10) by (apply Rlt_pow_R1; [lra|lia]).
    pose proof (b_val xs Vs Vs Ts 1 0 ltac:(lia) t 0 (fun _ => 0) 0 ltac:(apply W'; lra) ltac:(apply W'; lra) ltac:(lia)) as E. change (0 * 2 + 0)%nat with 0%nat in E. symmetry. etransitivity. exact E. apply Rmin_right. cbv beta iota delta [xs Vs Ts].
    match goal with |- _ <= exp ?a => replace a with t by (field; lra) end. unfold MAX_GAMMA_REGULAR_SOLUTION. pose proof (exp_ineq1 t ltac:(lra)). lra.
  - pose proof (b_jac xs Vs Vs Ts 1 0 HV ltac:(lia) Hx HT (10 ^ 10) 0 (fun _ _ => 0) 0 0 ltac:(apply W'; lra) ltac:(apply W'; lra) ltac:(lia) ltac:(lia)) as E. change (0 * 2 + 0)%nat with 0%nat in E. rewrite E. clear E. cbv beta iota delta [xs Vs Ts].
    match goal with |- ?a * exp ?b <> 0 => replace a with 1 by (field; lra); pose proof (exp_pos b) end. lra.
Qed.
(* hexane and benzene like volumes (m^3/mol) and solubility parameters (Pa^0.5) *)
Example C22_hypotheses_met : let V := pair2 (132 / 1000000) (89 / 1000000) in let SP := pair2 14900 18700 in let x := pair2 (1 / 4) (3 / 4) in
  positive 2 V /\ amounts 2 x /\ rsum 2 x = 1 /\ 0 < 25315 / 100 /\ inside 0 /\ RegularSolution_GE 2 x V SP (lam0 0 0) > 0.
Proof.
  cbv zeta. splits; try (intros [|[|i]] H; cbn; try lra; lia). split; [intros [|[|i]] H; cbn; try lra; lia | cbn; lra]. cbn; lra. lra. unfold inside, MIN_LAMBDA_REGULAR_SOLUTION, MAX_LAMBDA_REGULAR_SOLUTION. assert (0 < 10 ^ 100) by (apply pow_lt; lra). lra.
  rewrite C22_Regular_GE_form. unfold regular_GE_form, regular_A, pair2, lam0, rsum. cbn [loop]. lra.
Qed.
