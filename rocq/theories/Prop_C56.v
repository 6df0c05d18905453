(* C56: vapour fraction flashes of an ideal gas and a liquid with composition independent fugacity coefficients. *)
From Coq Require Import Reals List Bool Arith Lra Lia Ranalysis5.
From Coquelicot Require Import Coquelicot.
From Verif Require Import Base BaseFacts Spec_split Model_vfig.
Open Scope R_scope.

(* --- specification --- *)
(* the flash equation: sum of y - x over the components, for ratios K and vapour fraction V *)
Definition flash_equation (N : nat) (V : R) (z K : comp) : R := rsum N (fun i => z i * (K i - 1) / (1 + V * (K i - 1))).
(* Raoult's law for the liquid over an ideal gas: phi_i = c_i / P, c_i the saturation pressure of i (with any corrections that do not
   depend on P) *)
Definition Raoult (N : nat) (c : comp) (phis : R -> comp) : Prop := forall P i, 0 < P -> (i < N)%nat -> 0 < c i /\ phis P i = c i / P.
Definition bubble_pressure (N : nat) (c z : comp) : R := rsum N (fun i => z i * c i).
Definition dew_pressure (N : nat) (c z : comp) : R := / rsum N (fun i => z i / c i).
(* a root finder that returns a root it has evaluated *)
Definition finds_roots (newton : (R -> R * R) -> R -> option (R * R)) : Prop :=
  forall f s r q, newton f s = Some (r, q) -> q = r /\ fst (f r) = 0.

(* --- the residual --- *)
Lemma residual_fst N VF zs phis dphis : fst (residual N VF zs phis dphis) = flash_equation N VF zs phis.
Proof.
  unfold residual, flash_equation. cbv zeta.
  rewrite (loop_pair N (fun i a => a + (phis i - 1) * (1 / (VF * (phis i - 1) + 1) * zs i))
             (fun i b => b + 1 / (VF * (phis i - 1) + 1) * zs i * (1 - VF * (phis i - 1) * (1 / (VF * (phis i - 1) + 1))) * dphis i) 0 0).
  cbn [fst]. rewrite loop_rsum, Rplus_0_l. apply rsum_ext. intros i _. unfold Rdiv. rewrite (Rplus_comm 1). ring.
Qed.
Lemma residual_snd N VF zs phis dphis : snd (residual N VF zs phis dphis) =
  rsum N (fun i => 1 / (VF * (phis i - 1) + 1) * zs i * (1 - VF * (phis i - 1) * (1 / (VF * (phis i - 1) + 1))) * dphis i).
Proof.
  unfold residual. cbv zeta.
  rewrite (loop_pair N (fun i a => a + (phis i - 1) * (1 / (VF * (phis i - 1) + 1) * zs i))
             (fun i b => b + 1 / (VF * (phis i - 1) + 1) * zs i * (1 - VF * (phis i - 1) * (1 / (VF * (phis i - 1) + 1))) * dphis i) 0 0).
  cbn [snd]. rewrite loop_rsum, Rplus_0_l. reflexivity.
Qed.
Lemma term_derive (g : R -> R) dg V zi t : is_derive g t dg -> 1 + V * (g t - 1) <> 0 ->
  is_derive (fun t => zi * (g t - 1) / (1 + V * (g t - 1))) t (1 / (1 + V * (g t - 1)) * zi * (1 - V * (g t - 1) * (1 / (1 + V * (g t - 1)))) * dg).
Proof.
  intros Hd Hn. eapply is_derive_eq.
  - auto_derive; [|reflexivity]. repeat split; try exact Hn; exists dg; exact Hd.
  - erewrite (is_derive_unique (fun x : R => g x)) by exact Hd. field. exact Hn.
Qed.
Lemma residual_derive N VF zs (phis : R -> comp) (dphis : comp) t :
  (forall i, (i < N)%nat -> is_derive (fun t => phis t i) t (dphis i)) ->
  (forall i, (i < N)%nat -> 1 + VF * (phis t i - 1) <> 0) ->
  is_derive (fun t => flash_equation N VF zs (phis t)) t (snd (residual N VF zs (phis t) dphis)).
Proof.
  intros Hd Hn. rewrite residual_snd. apply (is_derive_rsum N (fun i t => zs i * (phis t i - 1) / (1 + VF * (phis t i - 1)))).
  intros i Hi. specialize (Hd i Hi). specialize (Hn i Hi).
  rewrite (Rplus_comm (VF * (phis t i - 1)) 1). apply (term_derive (fun t => phis t i)); assumption.
Qed.

(* the derivative handed to the solver at T is the one with respect to ln P, and the one at P with respect to T *)
Theorem C56_derivative_T : forall N VF zs (phis dphis_dP : R -> comp) lnP,
  (forall i, (i < N)%nat -> is_derive (fun P => phis P i) (exp lnP) (dphis_dP (exp lnP) i)) ->
  (forall i, (i < N)%nat -> 1 + VF * (phis (exp lnP) i - 1) <> 0) ->
  fst (objective_T N phis dphis_dP VF zs lnP) = flash_equation N VF zs (phis (exp lnP)) /\
  is_derive (fun lnP => flash_equation N VF zs (phis (exp lnP))) lnP (snd (objective_T N phis dphis_dP VF zs lnP)).
Proof.
  intros N VF zs phis dphis lnP Hd Hn. split. { unfold objective_T. cbn [fst]. apply residual_fst. }
  unfold objective_T. cbn [snd].
  apply (is_derive_comp (fun P => flash_equation N VF zs (phis P)) exp lnP).
  - apply residual_derive; assumption.
  - apply is_derive_exp.
Qed.
Theorem C56_derivative_P : forall N VF zs (phis dphis_dT : R -> comp) T,
  (forall i, (i < N)%nat -> is_derive (fun T => phis T i) T (dphis_dT T i)) ->
  (forall i, (i < N)%nat -> 1 + VF * (phis T i - 1) <> 0) ->
  fst (objective_P N phis dphis_dT VF zs T) = flash_equation N VF zs (phis T) /\
  is_derive (fun T => flash_equation N VF zs (phis T)) T (snd (objective_P N phis dphis_dT VF zs T)).
Proof.
  intros N VF zs phis dphis T Hd Hn. split. { apply residual_fst. }
  unfold objective_P. apply residual_derive; assumption.
Qed.

(* --- what comes back --- *)
(* the two compositions belong to one set of ratios K, mix back to z, and add up to one but for the residual e *)
Definition splits_with (N : nat) (VF : R) (zs K xs ys : comp) (e : R) : Prop :=
  (forall i, (i < N)%nat -> ys i = K i * xs i) /\
  e = flash_equation N VF zs K /\
  ((forall i, (i < N)%nat -> 1 + VF * (K i - 1) <> 0) ->
     split_balance N zs VF xs ys /\ (rsum N zs = 1 -> rsum N xs = 1 - VF * e /\ rsum N ys = 1 + (1 - VF) * e)).
Lemma splits_of N VF zs K : splits_with N VF zs K (xs_of VF zs K) (ys_of K (xs_of VF zs K)) (flash_equation N VF zs K).
Proof.
  unfold splits_with. split; [reflexivity|]. split; [reflexivity|]. intros Hn. split.
  - intros i Hi. unfold ys_of, xs_of. field. apply Hn, Hi.
  - intros Hz. split.
    + transitivity (rsum N zs - VF * flash_equation N VF zs K); [|rewrite Hz; reflexivity]. unfold flash_equation. rewrite <- rsum_scal_l, <- rsum_minus. apply rsum_ext. intros i Hi. unfold xs_of. field. apply Hn, Hi.
    + transitivity (rsum N zs + (1 - VF) * flash_equation N VF zs K); [|rewrite Hz; reflexivity]. unfold flash_equation. rewrite <- rsum_scal_l, <- rsum_plus. apply rsum_ext. intros i Hi. unfold ys_of, xs_of. field. apply Hn, Hi.
Qed.

Theorem C56_split_T : forall N phis dphis_dP poynting newton VF zs P xs ys err,
  solve_T_VF N phis dphis_dP poynting newton VF zs = Ret (P, xs, ys, err) ->
  exists Q e, splits_with N VF zs (phis Q) xs ys e /\
    ((poynting = true \/ 0 < VF < 1) /\ err = e /\ (exists f s lnP lnQ, newton f s = Some (lnP, lnQ) /\ P = exp lnP /\ Q = exp lnQ)
     \/ poynting = false /\ (VF = 0 \/ VF = 1) /\ Q = P /\ err = 0).
Proof.
  intros N phis dphis poy newton VF zs P xs ys err H. unfold solve_T_VF in H.
  destruct (poy || (Rltb 0 VF && Rltb VF 1)) eqn:E.
  - destruct (newton _ _) as [[lnP lnQ]|] eqn:En; [|discriminate]. injection H as <- <- <- <-.
    exists (exp lnQ), (flash_equation N VF zs (phis (exp lnQ))). split; [apply splits_of|]. left. split; [|split].
    + destruct poy; [left; reflexivity|right]. cbn in E. apply andb_true_iff in E. destruct E as [E1 E2].
      destruct (Rltb_spec 0 VF); [|discriminate]. destruct (Rltb_spec VF 1); [|discriminate]. split; assumption.
    + unfold objective_T. cbn [fst]. apply residual_fst.
    + eexists _, _, _, _. split; [exact En|]. split; reflexivity.
  - apply orb_false_iff in E. destruct E as [-> _]. destruct (Reqb_spec VF 0).
    + injection H as <- <- <- <-. eexists _, _. split; [apply splits_of|]. right. auto.
    + destruct (Reqb_spec VF 1); [|discriminate]. injection H as <- <- <- <-. eexists _, _. split; [apply splits_of|]. right. auto.
Qed.
Theorem C56_split_P : forall N phis dphis_dT nd nw br VF zs T xs ys err,
  solve_P_VF N phis dphis_dT nd nw br VF zs = Ret (T, xs, ys, err) ->
  exists Q, splits_with N VF zs (phis Q) xs ys err /\
    ((exists f, nd f 300 = Some (T, Q)) \/ (exists f, br f 300 1000 = Some (T, Q)) \/ (exists f, nw f 400 = Some (T, Q))).
Proof.
  intros N phis dphis nd nw br VF zs T xs ys err H. unfold solve_P_VF in H.
  destruct (nd _ 300) as [[T' Q]|] eqn:E1; [|destruct (br _ 300 1000) as [[T' Q]|] eqn:E2; [|destruct (nw _ 400) as [[T' Q]|] eqn:E3; [|discriminate]]];
    injection H as <- <- <- <-; exists Q; (split; [unfold objective_P; rewrite residual_fst; apply splits_of|eauto]).
Qed.

(* the vapour fraction is checked only at T, and only without Poynting factors *)
Theorem C56_range : forall N phis dphis_dP newton VF zs, VF < 0 \/ 1 < VF ->
  solve_T_VF N phis dphis_dP false newton VF zs = Exn VaporFractionRange.
Proof.
  intros N phis dphis newton VF zs H. unfold solve_T_VF. cbn [orb].
  destruct (Rltb_spec 0 VF), (Rltb_spec VF 1), (Reqb_spec VF 0), (Reqb_spec VF 1); cbn [andb]; try reflexivity; exfalso; lra.
Qed.

(* --- Raoult's law --- *)
Section Raoult_law.
  Variables (N : nat) (c z : comp).
  Hypothesis Hc : forall i, (i < N)%nat -> 0 < c i.
  Hypothesis Hz : composition N z.

  Let f (V P : R) := rsum N (fun i => z i * (c i - P) / ((1 - V) * P + V * c i)).
  Lemma den_pos V P i : 0 <= V <= 1 -> 0 < P -> (i < N)%nat -> 0 < (1 - V) * P + V * c i.
  Proof.
    intros HV HP Hi. specialize (Hc i Hi). destruct (Req_dec V 0) as [->|]; [lra|].
    assert (0 < V * c i) by (apply Rmult_lt_0_compat; lra). assert (0 <= (1 - V) * P) by (apply Rmult_le_pos; lra). lra.
  Qed.
  Lemma f_eq (phis : R -> comp) V P : Raoult N c phis -> 0 <= V <= 1 -> 0 < P -> flash_equation N V z (phis P) = f V P.
  Proof.
    intros HR HV HP. unfold flash_equation, f. apply rsum_ext. intros i Hi. destruct (HR P i HP Hi) as [_ ->].
    pose proof (den_pos V P i HV HP Hi).
    assert (P + V * (c i - P) <> 0) by (replace (P + V * (c i - P)) with ((1 - V) * P + V * c i) by ring; lra). field. split; lra.
  Qed.
  Lemma some_z : exists i, (i < N)%nat /\ 0 < z i.
  Proof.
    destruct Hz as [H0 H1].
    assert (H : forall n, (n <= N)%nat -> (exists i, (i < n)%nat /\ 0 < z i) \/ rsum n z = 0).
    { intros n. induction n as [|n IH]; intros Hn; [right; reflexivity|].
      destruct IH as [[i [Hi Hp]]|E]; [lia|left; exists i; split; [lia|exact Hp]|].
      destruct (Rle_lt_or_eq_dec 0 (z n)) as [Hp|E0]; [apply H0; lia|left; exists n; split; [lia|exact Hp]|right].
      cbn [rsum]. rewrite E, <- E0. lra. }
    destruct (H N (Nat.le_refl N)) as [E|E]; [exact E|lra].
  Qed.
  Lemma f_decr V P Q : 0 <= V <= 1 -> 0 < P < Q -> f V Q < f V P.
  Proof.
    intros HV HP. unfold f. destruct some_z as [k [Hk Hp]].
    assert (T : forall i, (i < N)%nat -> z i * (c i - P) / ((1 - V) * P + V * c i) - z i * (c i - Q) / ((1 - V) * Q + V * c i) =
      z i * (c i * (Q - P) / (((1 - V) * P + V * c i) * ((1 - V) * Q + V * c i)))).
    { intros i Hi. pose proof (den_pos V P i HV ltac:(lra) Hi). pose proof (den_pos V Q i HV ltac:(lra) Hi). field. lra. }
    assert (G : forall i, (i < N)%nat -> 0 < c i * (Q - P) / (((1 - V) * P + V * c i) * ((1 - V) * Q + V * c i))).
    { intros i Hi. pose proof (den_pos V P i HV ltac:(lra) Hi). pose proof (den_pos V Q i HV ltac:(lra) Hi). specialize (Hc i Hi).
      apply Rdiv_lt_0_compat; apply Rmult_lt_0_compat; lra. }
    apply Rminus_gt_0_lt. rewrite <- rsum_minus. rewrite (rsum_ext _ _ _ T). rewrite (rsum_split N k _ Hk).
    apply Rplus_lt_le_0_compat. { apply Rmult_lt_0_compat; [exact Hp|apply G, Hk]. }
    apply rsum_nonneg. intros i Hi. destruct (Nat.eqb i k); [lra|]. apply Rmult_le_pos; [apply Hz, Hi|left; apply G, Hi].
  Qed.
  Lemma zc_pos : 0 < rsum N (fun i => z i * c i) /\ 0 < rsum N (fun i => z i / c i).
  Proof.
    destruct some_z as [k [Hk Hp]]. split; rewrite (rsum_split N k _ Hk); apply Rplus_lt_le_0_compat.
    - apply Rmult_lt_0_compat; [exact Hp|apply Hc, Hk].
    - apply rsum_nonneg. intros i Hi. destruct (Nat.eqb i k); [lra|]. apply Rmult_le_pos; [apply Hz, Hi|left; apply Hc, Hi].
    - apply Rdiv_lt_0_compat; [exact Hp|apply Hc, Hk].
    - apply rsum_nonneg. intros i Hi. destruct (Nat.eqb i k); [lra|]. apply Rmult_le_pos; [apply Hz, Hi|left; apply Rinv_0_lt_compat, Hc, Hi].
  Qed.
  Lemma bub_pos : 0 < bubble_pressure N c z. Proof. apply zc_pos. Qed.
  Lemma dew_pos : 0 < dew_pressure N c z. Proof. apply Rinv_0_lt_compat, zc_pos. Qed.
  Lemma f_bub V : 0 <= V <= 1 -> f V (bubble_pressure N c z) <= 0.
  Proof.
    intros HV. pose proof bub_pos as HB. set (B := bubble_pressure N c z) in *.
    assert (E : rsum N (fun i => z i * (c i - B) / B) = 0).
    { rewrite rsum_div_r. rewrite (rsum_ext N (fun i => z i * (c i - B)) (fun i => z i * c i - z i * B)) by (intros; ring).
      rewrite rsum_minus, rsum_scal_r, (proj2 Hz). fold (bubble_pressure N c z). fold B. field. lra. }
    rewrite <- E. unfold f. apply rsum_le. intros i Hi. pose proof (den_pos V B i HV HB Hi) as D.
    apply Rminus_le. apply Rle_trans with (- (V * (z i * Rsqr (c i - B) / (B * ((1 - V) * B + V * c i))))).
    { right. unfold Rsqr. field. lra. }
    assert (0 <= V * (z i * Rsqr (c i - B) / (B * ((1 - V) * B + V * c i)))); [|lra].
    apply Rmult_le_pos; [lra|]. apply Rmult_le_pos; [apply Rmult_le_pos; [apply Hz, Hi|apply Rle_0_sqr]|].
    left. apply Rinv_0_lt_compat, Rmult_lt_0_compat; assumption.
  Qed.
  Lemma f_dew V : 0 <= V <= 1 -> 0 <= f V (dew_pressure N c z).
  Proof.
    intros HV. pose proof dew_pos as HB. pose proof (proj2 zc_pos) as HS. set (B := dew_pressure N c z) in *.
    assert (E : rsum N (fun i => z i * (c i - B) / c i) = 0).
    { rewrite (rsum_ext N _ (fun i => z i - z i / c i * B)) by (intros i Hi; specialize (Hc i Hi); field; lra).
      rewrite rsum_minus, rsum_scal_r, (proj2 Hz). unfold B, dew_pressure. field. lra. }
    rewrite <- E. unfold f. apply rsum_le. intros i Hi. pose proof (den_pos V B i HV HB Hi) as D. specialize (Hc i Hi).
    apply Rminus_le. apply Rle_trans with (- ((1 - V) * (z i * Rsqr (c i - B) / (c i * ((1 - V) * B + V * c i))))).
    { right. unfold Rsqr. field. lra. }
    assert (0 <= (1 - V) * (z i * Rsqr (c i - B) / (c i * ((1 - V) * B + V * c i)))); [|lra].
    apply Rmult_le_pos; [lra|]. apply Rmult_le_pos; [apply Rmult_le_pos; [apply Hz, Hi|apply Rle_0_sqr]|].
    left. apply Rinv_0_lt_compat, Rmult_lt_0_compat; assumption.
  Qed.
  Lemma dew_le_bub : dew_pressure N c z <= bubble_pressure N c z.
  Proof.
    pose proof bub_pos. pose proof dew_pos. destruct (Rle_lt_dec (dew_pressure N c z) (bubble_pressure N c z)) as [|L]; [assumption|exfalso].
    pose proof (f_decr (/ 2) _ _ ltac:(lra) (conj bub_pos L)). pose proof (f_bub (/ 2) ltac:(lra)). pose proof (f_dew (/ 2) ltac:(lra)). lra.
  Qed.
  Lemma f_cont V P : 0 <= V <= 1 -> 0 < P -> continuity_pt (f V) P.
  Proof.
    intros HV HP. apply continuity_pt_filterlim. apply (@ex_derive_continuous R_AbsRing R_NormedModule).
    exists (rsum N (fun i => z i * (- c i / (((1 - V) * P + V * c i) * ((1 - V) * P + V * c i))))).
    apply (is_derive_rsum N (fun i P => z i * (c i - P) / ((1 - V) * P + V * c i))). intros i Hi.
    pose proof (den_pos V P i HV HP Hi). eapply is_derive_eq; [auto_derive; [lra|reflexivity]|]. field. lra.
  Qed.
  Lemma f_root V : 0 <= V <= 1 -> exists P, dew_pressure N c z <= P <= bubble_pressure N c z /\ f V P = 0.
  Proof.
    intros HV. pose proof dew_pos as HD. pose proof dew_le_bub as HL. pose proof (f_dew V HV) as H1. pose proof (f_bub V HV) as H2.
    destruct (Req_dec (f V (dew_pressure N c z)) 0) as [E|E1]; [exists (dew_pressure N c z); split; [lra|exact E]|].
    destruct (Req_dec (f V (bubble_pressure N c z)) 0) as [E|E2]; [exists (bubble_pressure N c z); split; [lra|exact E]|].
    assert (Hlt : dew_pressure N c z < bubble_pressure N c z).
    { destruct HL as [HL|HL]; [exact HL|exfalso]. rewrite HL in *. lra. }
    destruct (IVT_interv (fun P => - f V P) (dew_pressure N c z) (bubble_pressure N c z)) as [P [HP E]].
    - intros a Ha. apply (continuity_pt_opp (f V)), f_cont; lra.
    - exact Hlt.
    - lra.
    - lra.
    - exists P. split; [exact HP|lra].
  Qed.
End Raoult_law.

Lemma bubble_estimate_eq N phis c z : Raoult N c phis -> bubble_estimate N phis z = bubble_pressure N c z.
Proof.
  intros HR. unfold bubble_estimate, bubble_pressure. rewrite loop_rsum, Rplus_0_l, <- rsum_scal_r. apply rsum_ext. intros i Hi.
  destruct (HR P_base i ltac:(unfold P_base; lra) Hi) as [_ ->]. unfold P_base. field.
Qed.
Lemma dew_estimate_eq N phis c z : Raoult N c phis -> dew_estimate N phis z = dew_pressure N c z.
Proof.
  intros HR. unfold dew_estimate, dew_pressure. rewrite loop_rsum, Rplus_0_l. unfold Rdiv at 1. rewrite Rmult_1_l. f_equal. apply rsum_ext. intros i Hi.
  destruct (HR P_base i ltac:(unfold P_base; lra) Hi) as [? ->]. unfold P_base. field. lra.
Qed.
Lemma Raoult_pos N c phis : Raoult N c phis -> forall i, (i < N)%nat -> 0 < c i.
Proof. intros HR i Hi. apply (HR 1 i Rlt_0_1 Hi). Qed.

(* Under Raoult's law the dew pressure does not exceed the bubble pressure, exactly one pressure solves the flash equation, it lies
   between them, and it is the one returned: at once for vapour fractions zero and one, through any solver that finds roots otherwise.
   The phases then solve the Rachford-Rice problem at the returned pressure. *)
Theorem C56_Raoult : forall N c z phis dphis_dP poynting newton VF P xs ys,
  Raoult N c phis -> composition N z -> 0 <= VF <= 1 -> finds_roots newton ->
  flash_TVF N phis dphis_dP poynting newton VF z = Ret (P, xs, ys) ->
  0 < dew_pressure N c z <= P /\ P <= bubble_pressure N c z /\
  (VF = 0 -> P = bubble_pressure N c z) /\ (VF = 1 -> P = dew_pressure N c z) /\
  Rachford_Rice N z (phis P) VF xs ys /\
  (forall i, (i < N)%nat -> 0 <= xs i /\ 0 <= ys i /\ ys i * P = c i * xs i) /\
  (forall Q, 0 < Q -> flash_equation N VF z (phis Q) = 0 -> Q = P).
Proof.
  intros N c z phis dphis poy newton VF P xs ys HR Hz HV Hnew H.
  pose proof (Raoult_pos N c phis HR) as Hc.
  pose proof (dew_pos N c z Hc Hz) as HD. pose proof (bub_pos N c z Hc Hz) as HB.
  assert (Uniq : forall P Q, 0 < P -> 0 < Q -> flash_equation N VF z (phis P) = 0 -> flash_equation N VF z (phis Q) = 0 -> Q = P).
  { intros A B HA HB' EA EB. rewrite (f_eq N c z Hc phis VF A HR HV HA) in EA. rewrite (f_eq N c z Hc phis VF B HR HV HB') in EB.
    destruct (Rtotal_order A B) as [L|[E|L]]; [|auto|].
    - pose proof (f_decr N c z Hc Hz VF A B HV (conj HA L)). cbv zeta in *. lra.
    - pose proof (f_decr N c z Hc Hz VF B A HV (conj HB' L)). cbv zeta in *. lra. }
  assert (Ebub : flash_equation N 0 z (phis (bubble_pressure N c z)) = 0).
  { rewrite (f_eq N c z Hc phis 0 _ HR ltac:(lra) HB). apply Rle_antisym; [apply (f_bub N c z Hc Hz); lra|].
    rewrite (rsum_ext N _ (fun i => z i * c i / bubble_pressure N c z - z i)) by (intros; field; lra).
    rewrite rsum_minus, rsum_div_r, (proj2 Hz). fold (bubble_pressure N c z). right. field. lra. }
  assert (Edew : flash_equation N 1 z (phis (dew_pressure N c z)) = 0).
  { rewrite (f_eq N c z Hc phis 1 _ HR ltac:(lra) HD). apply Rle_antisym; [|apply (f_dew N c z Hc Hz); lra].
    rewrite (rsum_ext N _ (fun i => z i - z i / c i * dew_pressure N c z)) by (intros i Hi; specialize (Hc i Hi); field; lra).
    rewrite rsum_minus, rsum_scal_r, (proj2 Hz). unfold dew_pressure. right. field.
    apply Rgt_not_eq. exact (proj2 (zc_pos N c z Hc Hz)). }
  (* it is enough that the compositions are those of P and the flash equation holds at P *)
  assert (Main : 0 < P /\ flash_equation N VF z (phis P) = 0 /\ xs = xs_of VF z (phis P) /\ ys = ys_of (phis P) xs).
  { unfold flash_TVF, solve_T_VF in H. destruct (poy || _) eqn:E.
    - destruct (newton _ _) as [[lnP lnQ]|] eqn:En; [|discriminate]. injection H as <- <- <-.
      destruct (Hnew _ _ _ _ En) as [-> E0]. unfold objective_T in E0. cbn [fst] in E0. rewrite residual_fst in E0.
      split; [apply exp_pos|]. auto.
    - destruct (Reqb_spec VF 0) as [->|].
      + injection H as <- <- <-. rewrite (bubble_estimate_eq N phis c z HR). auto.
      + destruct (Reqb_spec VF 1) as [->|]; [|discriminate]. injection H as <- <- <-. rewrite (dew_estimate_eq N phis c z HR). auto. }
  destruct Main as [HP [E0 [-> ->]]].
  destruct (f_root N c z Hc Hz VF HV) as [Q [HQ EQ]].
  assert (HQ0 : 0 < Q) by lra.
  pose proof EQ as EQ'. rewrite <- (f_eq N c z Hc phis VF Q HR HV HQ0) in EQ'.
  pose proof (Uniq P Q HP HQ0 E0 EQ') as ->.
  assert (Hn : forall i, (i < N)%nat -> 1 + VF * (phis P i - 1) = ((1 - VF) * P + VF * c i) / P).
  { intros i Hi. destruct (HR P i HP Hi) as [_ ->]. field. lra. }
  assert (Hpos : forall i, (i < N)%nat -> 0 < 1 + VF * (phis P i - 1)).
  { intros i Hi. rewrite (Hn i Hi). apply Rdiv_lt_0_compat; [apply (den_pos N c Hc); assumption|exact HP]. }
  split; [lra|]. split; [lra|]. split; [|split; [|split; [|split]]].
  - intros ->. symmetry. apply (Uniq P _ HP HB E0 Ebub).
  - intros ->. symmetry. apply (Uniq P _ HP HD E0 Edew).
  - destruct (splits_of N VF z (phis P)) as [S1 [_ S3]]. destruct S3 as [S3 S4]. { intros i Hi. specialize (Hpos i Hi). lra. }
    destruct (S4 (proj2 Hz)) as [S5 S6]. rewrite E0 in S5, S6. unfold Rachford_Rice. repeat split; try assumption; lra.
  - intros i Hi. specialize (Hpos i Hi). destruct (HR P i HP Hi) as [Hci Ep].
    assert (Hx : 0 <= xs_of VF z (phis P) i). { apply Rmult_le_pos; [apply Hz, Hi|left; apply Rinv_0_lt_compat, Hpos]. }
    split; [exact Hx|]. unfold ys_of. rewrite Ep. split; [|field; lra].
    apply Rmult_le_pos; [|exact Hx]. left. apply Rdiv_lt_0_compat; assumption.
  - intros Q HQ' EQQ. apply (Uniq P Q HP HQ' E0 EQQ).
Qed.

(* the solver is started between the dew and the bubble pressure, on the flash equation *)
Theorem C56_start : forall N c z phis dphis_dP poynting VF, Raoult N c phis -> composition N z -> 0 <= VF <= 1 ->
  exists s f, dew_pressure N c z <= exp s <= bubble_pressure N c z /\ (forall u, fst (f u) = flash_equation N VF z (phis (exp u))) /\
    forall newton, poynting = true \/ 0 < VF < 1 ->
      (newton f s = None -> flash_TVF N phis dphis_dP poynting newton VF z = Exn SolverError) /\
      (forall r q, newton f s = Some (r, q) -> exists xs ys, flash_TVF N phis dphis_dP poynting newton VF z = Ret (exp r, xs, ys)).
Proof.
  intros N c z phis dphis poy VF HR Hz HV. pose proof (Raoult_pos N c phis HR) as Hc.
  pose proof (dew_pos N c z Hc Hz) as HD. pose proof (dew_le_bub N c z Hc Hz) as HL.
  exists (ln (P_guess N phis VF z)), (objective_T N phis dphis VF z).
  assert (E : P_guess N phis VF z = dew_pressure N c z + (1 - VF) * (bubble_pressure N c z - dew_pressure N c z)).
  { unfold P_guess. rewrite (bubble_estimate_eq N phis c z HR), (dew_estimate_eq N phis c z HR). ring. }
  assert (0 <= (1 - VF) * (bubble_pressure N c z - dew_pressure N c z)) by (apply Rmult_le_pos; lra).
  assert (0 <= VF * (bubble_pressure N c z - dew_pressure N c z)) by (apply Rmult_le_pos; lra).
  split; [|split].
  - rewrite exp_ln; rewrite E; lra.
  - intros u. unfold objective_T. cbn [fst]. apply residual_fst.
  - intros newton Hb. assert (B : poy || (Rltb 0 VF && Rltb VF 1) = true).
    { destruct Hb as [->|[A B]]; [reflexivity|]. rewrite (Rltb_true _ _ A), (Rltb_true _ _ B). apply orb_true_r. }
    unfold flash_TVF, solve_T_VF. rewrite B. split; intros; [rewrite H1; reflexivity|]. rewrite H1. eexists _, _. reflexivity.
Qed.

(* At P: when every fugacity coefficient grows with T, at most one temperature solves the flash equation, and a solver that finds roots
   returns it with a Rachford-Rice solution *)
Theorem C56_temperature : forall N z phis dphis_dT nd nw br VF T xs ys,
  (forall T i, (i < N)%nat -> 0 < phis T i) -> (forall T1 T2 i, (i < N)%nat -> T1 < T2 -> phis T1 i < phis T2 i) ->
  composition N z -> 0 <= VF <= 1 -> finds_roots nd -> finds_roots nw -> (forall f a b r q, br f a b = Some (r, q) -> q = r /\ f r = 0) ->
  flash_PVF N phis dphis_dT nd nw br VF z = Ret (T, xs, ys) ->
  Rachford_Rice N z (phis T) VF xs ys /\ (forall i, (i < N)%nat -> 0 <= xs i /\ 0 <= ys i) /\
  (forall T', flash_equation N VF z (phis T') = 0 -> T' = T).
Proof.
  intros N z phis dphis nd nw br VF T xs ys Hp Hmono Hz HV Hnd Hnw Hbr H.
  assert (Main : flash_equation N VF z (phis T) = 0 /\ xs = xs_of VF z (phis T) /\ ys = ys_of (phis T) xs).
  { unfold flash_PVF, solve_P_VF in H.
    destruct (nd _ 300) as [[T' Q]|] eqn:E1; [|destruct (br _ 300 1000) as [[T' Q]|] eqn:E2; [|destruct (nw _ 400) as [[T' Q]|] eqn:E3; [|discriminate]]];
      injection H as <- <- <-.
    - destruct (Hnd _ _ _ _ E1) as [-> E]. unfold objective_P in E. rewrite residual_fst in E. auto.
    - destruct (Hbr _ _ _ _ _ E2) as [-> E]. unfold objective_P in E. rewrite residual_fst in E. auto.
    - destruct (Hnw _ _ _ _ E3) as [-> E]. unfold objective_P in E. rewrite residual_fst in E. auto. }
  destruct Main as [E0 [-> ->]].
  assert (Hpos : forall T i, (i < N)%nat -> 0 < 1 + VF * (phis T i - 1)).
  { intros t i Hi. specialize (Hp t i Hi). replace (1 + VF * (phis t i - 1)) with ((1 - VF) + VF * phis t i) by ring.
    destruct (Req_dec VF 0) as [->|]; [lra|]. assert (0 < VF * phis t i) by (apply Rmult_lt_0_compat; lra). lra. }
  assert (Strict : forall A B, A < B -> flash_equation N VF z (phis A) < flash_equation N VF z (phis B)).
  { intros A B L. unfold flash_equation. destruct (some_z N z Hz) as [k [Hk Hzk]].
    assert (D : forall i, (i < N)%nat -> z i * (phis B i - 1) / (1 + VF * (phis B i - 1)) - z i * (phis A i - 1) / (1 + VF * (phis A i - 1)) =
       z i * ((phis B i - phis A i) / ((1 + VF * (phis B i - 1)) * (1 + VF * (phis A i - 1))))).
    { intros i Hi. pose proof (Hpos A i Hi). pose proof (Hpos B i Hi). field. lra. }
    assert (G : forall i, (i < N)%nat -> 0 < (phis B i - phis A i) / ((1 + VF * (phis B i - 1)) * (1 + VF * (phis A i - 1)))).
    { intros i Hi. pose proof (Hpos A i Hi). pose proof (Hpos B i Hi). pose proof (Hmono A B i Hi L).
      apply Rdiv_lt_0_compat; [lra|apply Rmult_lt_0_compat; assumption]. }
    apply Rminus_gt_0_lt. rewrite <- rsum_minus. rewrite (rsum_ext _ _ _ D). rewrite (rsum_split N k _ Hk).
    apply Rplus_lt_le_0_compat. { apply Rmult_lt_0_compat; [exact Hzk|apply G, Hk]. }
    apply rsum_nonneg. intros i Hi. destruct (Nat.eqb i k); [lra|]. apply Rmult_le_pos; [apply Hz, Hi|left; apply G, Hi]. }
  split; [|split].
  - destruct (splits_of N VF z (phis T)) as [S1 [_ S3]]. destruct S3 as [S3 S4]. { intros i Hi. specialize (Hpos T i Hi). lra. }
    destruct (S4 (proj2 Hz)) as [S5 S6]. rewrite E0 in S5, S6. unfold Rachford_Rice. repeat split; try assumption; lra.
  - intros i Hi. assert (Hx : 0 <= xs_of VF z (phis T) i). { apply Rmult_le_pos; [apply Hz, Hi|left; apply Rinv_0_lt_compat, Hpos, Hi]. }
    split; [exact Hx|]. apply Rmult_le_pos; [left; apply Hp, Hi|exact Hx].
  - intros T' E'. destruct (Rtotal_order T' T) as [L|[E|L]]; [|exact E|]; pose proof (Strict _ _ L); lra.
Qed.

(* --- cases that meet the hypotheses --- *)
(* two components, c = 1 and 3, z = 1/2 each: bubble pressure 2, dew pressure 3/2, and sqrt 3 for half vapour *)
Example C56_hypotheses_met : let c := (fun i => if Nat.eqb i 0 then 1 else 3) in let z := (fun _ : nat => / 2) in
  let phis := (fun P i => c i / P) in
  Raoult 2 c phis /\ composition 2 z /\ bubble_pressure 2 c z = 2 /\ dew_pressure 2 c z = 3 / 2 /\
  exists newton, finds_roots newton /\ exists xs ys, flash_TVF 2 phis (fun P i => - c i / (P * P)) false newton (/ 2) z = Ret (sqrt 3, xs, ys).
Proof.
  intros c z phis. split; [|split; [|split; [|split]]].
  - intros P i HP Hi. split; [|reflexivity]. unfold c. destruct (Nat.eqb i 0); lra.
  - split; [intros; unfold z; lra|]. cbn. unfold z. lra.
  - unfold bubble_pressure. cbn. unfold z. lra.
  - unfold dew_pressure. cbn. unfold z. field.
  - assert (H3 : 0 < sqrt 3) by (apply sqrt_lt_R0; lra). assert (S3 : sqrt 3 * sqrt 3 = 3) by (apply sqrt_sqrt; lra).
    exists (fun f s => if Req_EM_T (fst (f (ln (sqrt 3)))) 0 then Some (ln (sqrt 3), ln (sqrt 3)) else None). split.
    { intros f s r q H. destruct (Req_EM_T _ 0); [|discriminate]. injection H as <- <-. auto. }
    eexists _, _. unfold flash_TVF, solve_T_VF. rewrite (Rltb_true 0 (/ 2)), (Rltb_true (/ 2) 1) by lra. cbn [orb andb].
    destruct (Req_EM_T _ 0) as [E|E]; [rewrite exp_ln by exact H3; reflexivity|exfalso; apply E; clear E].
    unfold objective_T. cbn [fst]. rewrite residual_fst, exp_ln by exact H3. unfold flash_equation, phis, c, z. cbn [rsum Nat.eqb].
    assert (1 < sqrt 3). { rewrite <- sqrt_1 at 1. apply sqrt_lt_1; lra. }
    assert (E : (0 + / 2 * (1 / sqrt 3 - 1) / (1 + / 2 * (1 / sqrt 3 - 1)) + / 2 * (3 / sqrt 3 - 1) / (1 + / 2 * (3 / sqrt 3 - 1))) =
                (3 - sqrt 3 * sqrt 3) * 2 / ((1 + sqrt 3) * (3 + sqrt 3))).
    { field. lra. }
    rewrite E, S3. field. lra.
Qed.

(* With Poynting factors, and at given P, a vapour fraction of two is not rejected *)
Theorem C56_range_refuted : exists phis dphis newton brenth, finds_roots newton /\ (forall f a b r q, brenth f a b = Some (r, q) -> q = r /\ f r = 0) /\
  (forall P i, 0 < phis P i) /\
  (exists r, flash_TVF 1 phis dphis true newton 2 (fun _ => 1) = Ret r) /\
  (exists r, flash_PVF 1 phis dphis newton newton brenth 2 (fun _ => 1) = Ret r).
Proof.
  exists (fun _ _ => 1), (fun _ _ => 0), (fun f s => if Req_EM_T (fst (f s)) 0 then Some (s, s) else None), (fun _ _ _ => None).
  split; [|split; [|split; [|split]]].
  - intros f s r q H. destruct (Req_EM_T _ 0); [|discriminate]. injection H as <- <-. auto.
  - discriminate.
  - intros; lra.
  - unfold flash_TVF, solve_T_VF. cbn [orb]. destruct (Req_EM_T _ 0) as [E|E]; [eexists; reflexivity|exfalso; apply E].
    unfold objective_T. cbn [fst]. rewrite residual_fst. unfold flash_equation. cbn [rsum]. field.
  - unfold flash_PVF, solve_P_VF. destruct (Req_EM_T _ 0) as [E|E]; [eexists; reflexivity|exfalso; apply E].
    unfold objective_P. rewrite residual_fst. unfold flash_equation. cbn [rsum]. field.
Qed.

(* coefficients exp (T - 300 + i) for two components: they grow with T *)
Example C56_temperature_hypotheses_met : let phis := (fun T i => exp (T - 300 - INR i)) in
  (forall T i, (i < 2)%nat -> 0 < phis T i) /\ (forall T1 T2 i, (i < 2)%nat -> T1 < T2 -> phis T1 i < phis T2 i) /\ composition 2 (fun _ => / 2).
Proof.
  cbv zeta. split; [intros; apply exp_pos|]. split; [intros; apply exp_increasing; lra|]. split; [intros; lra|]. cbn. lra.
Qed.
