(* Auxiliary: the combinatorial part of UNIFAC, its derivatives in the amounts. *)
From Coq Require Import Reals Lra Lia Arith Bool.
From Coquelicot Require Import Coquelicot.
From Verif Require Import Base BaseFacts Spec_mix Spec_activity Spec_gradient Spec_unifac MixDeriv NrtlFacts ActFacts GradFacts Gen_unifac UnifacForms UnifacFacts UnifacModel.
Open Scope R_scope.

(* one component: weights r, q, p, factor z of the surface term; sums SR, SQ, SP; weights rj, qj, pj of the components differentiated *)
Definition c0 (r q p z SR SQ SP : R) : R := 1 - p / SP + ln (p / SP) - z * (1 - r / SR / (q / SQ) + ln (r / SR / (q / SQ))).
Definition c1 (r q p z rj qj pj SR SQ SP : R) : R := p * pj / SP ^ 2 - pj / SP - z * (- (r / q) * (qj / SR - SQ * rj / SR ^ 2) + qj / SQ - rj / SR).
Definition c2 (r q p z rj qj pj rk qk pk SR SQ SP : R) : R :=
  - 2 * p * pj * pk / SP ^ 3 + pj * pk / SP ^ 2 - z * (- (r / q) * (- qj * rk / SR ^ 2 - qk * rj / SR ^ 2 + 2 * SQ * rj * rk / SR ^ 3) - qj * qk / SQ ^ 2 + rj * rk / SR ^ 2).
Definition c3 (r q p z rj qj pj rk qk pk rl ql pl SR SQ SP : R) : R :=
  6 * p * pj * pk * pl / SP ^ 4 - 2 * pj * pk * pl / SP ^ 3 -
  z * (- (r / q) * (2 * (qj * rk * rl + qk * rj * rl + ql * rj * rk) / SR ^ 3 - 6 * SQ * rj * rk * rl / SR ^ 4) + 2 * qj * qk * ql / SQ ^ 3 - 2 * rj * rk * rl / SR ^ 3).
Section Scalar.
Context (r q p z : R) (Hr : 0 < r) (Hq : 0 < q) (Hp : 0 < p).
Context (SR SQ SP : R -> R) (t a b c : R) (DR : is_derive SR t a) (DQ : is_derive SQ t b) (DP : is_derive SP t c).
Hypothesis HR : 0 < SR t.
Hypothesis HQ : 0 < SQ t.
Hypothesis HP : 0 < SP t.
Lemma c0_curve : is_derive (fun s => c0 r q p z (SR s) (SQ s) (SP s)) t (c1 r q p z a b c (SR t) (SQ t) (SP t)).
Proof.
  unfold c0, c1.
  assert (0 < p * / SP t) by (apply Rmult_lt_0_compat; [auto|now apply Rinv_0_lt_compat]).
  assert (0 < r * / SR t * / (q * / SQ t)) by (apply Rmult_lt_0_compat; [apply Rmult_lt_0_compat; [auto|now apply Rinv_0_lt_compat]|apply Rinv_0_lt_compat, Rmult_lt_0_compat; [auto|now apply Rinv_0_lt_compat]]).
  assert (q * / SQ t <> 0) by (apply Rgt_not_eq, Rmult_lt_0_compat; [auto|now apply Rinv_0_lt_compat]).
  assert (SR t <> 0) by lra. assert (SQ t <> 0) by lra. assert (SP t <> 0) by lra. assert (r <> 0) by lra. assert (q <> 0) by lra. assert (p <> 0) by lra.
  ad. field. repeat split; auto.
Qed.
Lemma c1_curve rj qj pj : is_derive (fun s => c1 r q p z rj qj pj (SR s) (SQ s) (SP s)) t (c2 r q p z rj qj pj a b c (SR t) (SQ t) (SP t)).
Proof.
  unfold c1, c2. assert (SR t <> 0) by lra. assert (SQ t <> 0) by lra. assert (SP t <> 0) by lra. assert (q <> 0) by lra.
  ad. field. repeat split; auto.
Qed.
Lemma c2_curve rj qj pj rk qk pk : is_derive (fun s => c2 r q p z rj qj pj rk qk pk (SR s) (SQ s) (SP s)) t (c3 r q p z rj qj pj rk qk pk a b c (SR t) (SQ t) (SP t)).
Proof.
  unfold c2, c3. assert (SR t <> 0) by lra. assert (SQ t <> 0) by lra. assert (SP t <> 0) by lra. assert (q <> 0) by lra.
  assert (SP t * (SP t * (SP t * 1)) <> 0) by nz. assert (SR t * (SR t * (SR t * 1)) <> 0) by nz. ad. field. repeat split; auto.
Qed.
End Scalar.

Section Comb.
Context (n version : nat) (r q : nat -> R).
Hypothesis Hs : sizes_ok n version r q.
Definition pw (i : nat) : R := if (version =? 1)%nat || (version =? 4)%nat then UNIFAC_rs_34 version r i else r i.
Definition zq (i : nat) : R := if (version =? 4)%nat then 0 else 5 * q i.
Definition lin (w y : nat -> R) : R := rsum n (fun j => w j * y j).
Definition LC (y : nat -> R) (i : nat) : R := if (version =? 3)%nat then 0 else c0 (r i) (q i) (pw i) (zq i) (lin r y) (lin q y) (lin pw y).
Definition LCx (y : nat -> R) (i j : nat) : R := if (version =? 3)%nat then 0 else c1 (r i) (q i) (pw i) (zq i) (r j) (q j) (pw j) (lin r y) (lin q y) (lin pw y).
Definition LCxx (y : nat -> R) (i j k : nat) : R := if (version =? 3)%nat then 0 else c2 (r i) (q i) (pw i) (zq i) (r j) (q j) (pw j) (r k) (q k) (pw k) (lin r y) (lin q y) (lin pw y).
Definition LCxxx (y : nat -> R) (i j k l : nat) : R := if (version =? 3)%nat then 0 else c3 (r i) (q i) (pw i) (zq i) (r j) (q j) (pw j) (r k) (q k) (pw k) (r l) (q l) (pw l) (lin r y) (lin q y) (lin pw y).
Definition okc (y : nat -> R) : Prop := version <> 3%nat -> 0 < lin r y /\ 0 < lin q y /\ 0 < lin pw y.
Lemma pw_pos i : version <> 3%nat -> (i < n)%nat -> 0 < pw i.
Proof.
  intros Hv Hi. destruct (Hs Hv i Hi) as [A _]. unfold pw, UNIFAC_rs_34. destruct (version =? 1)%nat, (version =? 4)%nat; cbn [orb]; auto; apply exp_pos.
Qed.
Lemma lin_alt w y : lin w y = rsum n (fun j => y j * w j). Proof. apply rsum_ext. intros; ring. Qed.
Lemma lin_pos (w x : nat -> R) : (forall i, (i < n)%nat -> 0 < w i) -> amounts n x -> near n x (fun y => 0 < lin w y).
Proof.
  intros Hw Hx. assert (near n x (fun y => 0 < rsum n (fun j => y j * w j))). { apply near_pos. apply amounts_pos; auto. }
  revert H. apply near_impl. intros y Hy. now rewrite lin_alt.
Qed.
Lemma okc_near x : amounts n x -> near n x okc.
Proof.
  intros Hx. destruct (Nat.eq_dec version 3) as [E|E]. exists 1. split; [lra|]. intros y _ Hv. congruence.
  pose proof (lin_pos r x (fun i Hi => proj1 (Hs E i Hi)) Hx) as A. pose proof (lin_pos q x (fun i Hi => proj2 (Hs E i Hi)) Hx) as B. pose proof (lin_pos pw x (fun i => pw_pos i E) Hx) as C.
  pose proof (near_and _ _ _ _ A (near_and _ _ _ _ B C)) as D. revert D. apply near_impl. intros y Hy _. exact Hy.
Qed.
Lemma lin_curve w (cv : nat -> R -> R) t y dc : curve_through n cv t y dc -> is_derive (fun s => lin w (fun i => cv i s)) t (lin w dc).
Proof. intros H. apply (is_derive_rsum n (fun j s => w j * cv j s)). intros j Hj. destruct (H j Hj) as [_ D]. asf ff D. change (is_derive (fun s => w j * ff s) t (w j * dc j)). clearbody ff. ad. ring. Qed.
Lemma lin_at w (cv : nat -> R -> R) t y dc : curve_through n cv t y dc -> lin w (fun i => cv i t) = lin w y.
Proof. intros H. apply rsum_ext. intros j Hj. destruct (H j Hj) as [E _]. now rewrite E. Qed.
Lemma LC_curve y cv t dc i : okc y -> curve_through n cv t y dc -> (i < n)%nat -> is_derive (fun s => LC (fun i => cv i s) i) t (rsum n (fun j => LCx y i j * dc j)).
Proof.
  intros Ho H Hi. unfold LC, LCx. destruct (Nat.eqb_spec version 3) as [E|E].
  - rewrite rsum_eq_0 by (intros; ring). exact (is_derive_const _ _).
  - destruct (Ho E) as (A & B & C). destruct (Hs E i Hi) as [Hr Hq].
    pose proof (c0_curve (r i) (q i) (pw i) (zq i) Hr Hq (pw_pos i E Hi) _ _ _ t _ _ _ (lin_curve r _ _ _ _ H) (lin_curve q _ _ _ _ H) (lin_curve pw _ _ _ _ H)) as D.
    cbv beta in D. rewrite !(lin_at _ _ _ _ _ H) in D. specialize (D A B C). eapply is_derive_eq. exact D.
    unfold c1. rewrite (rsum_ext n _ (fun j => (pw i / lin pw y ^ 2 - 1 / lin pw y) * (pw j * dc j) + (zq i * (r i / q i) / lin r y - zq i / lin q y) * (q j * dc j) + (- zq i * (r i / q i) * lin q y / lin r y ^ 2 + zq i / lin r y) * (r j * dc j))).
    2:{ intros j Hj. field. repeat split; lra. }
    rewrite !rsum_plus, !rsum_scal_l. fold (lin pw dc) (lin q dc) (lin r dc). field. repeat split; lra.
Qed.
Lemma LC_partial y i j : okc y -> (i < n)%nat -> (j < n)%nat -> partial (fun y => LC y i) y j (LCx y i j).
Proof.
  intros Ho Hi Hj. pose proof (LC_curve y _ _ _ i Ho (curve_upd n y j Hj) Hi) as D. unfold partial. eapply is_derive_eq. exact D. rewrite (rsum_ext n _ (fun k => dl j k * LCx y i k)) by (intros; ring). now rewrite rsum_dl.
Qed.
Lemma lin_part w y j : (j < n)%nat -> is_derive (fun s => lin w (upd y j s)) (y j) (w j).
Proof. intros Hj. apply (lin_partial n w y j Hj). Qed.
Lemma LCx_partial y i j k : okc y -> (i < n)%nat -> (j < n)%nat -> (k < n)%nat -> partial (fun y => LCx y i j) y k (LCxx y i j k).
Proof.
  intros Ho Hi Hj Hk. unfold partial, LCx, LCxx. destruct (Nat.eqb_spec version 3) as [E|E]. exact (is_derive_const _ _).
  destruct (Ho E) as (A & B & C). destruct (Hs E i Hi) as [Hr Hq].
  pose proof (c1_curve (r i) (q i) (pw i) (zq i) Hq _ _ _ (y k) _ _ _ (lin_part r y k Hk) (lin_part q y k Hk) (lin_part pw y k Hk)) as D. cbv beta in D. rewrite upd_self in D. exact (D A B C _ _ _).
Qed.
Lemma LCxx_partial y i j k l : okc y -> (i < n)%nat -> (j < n)%nat -> (k < n)%nat -> (l < n)%nat -> partial (fun y => LCxx y i j k) y l (LCxxx y i j k l).
Proof.
  intros Ho Hi Hj Hk Hl. unfold partial, LCxx, LCxxx. destruct (Nat.eqb_spec version 3) as [E|E]. exact (is_derive_const _ _).
  destruct (Ho E) as (A & B & C). destruct (Hs E i Hi) as [Hr Hq].
  pose proof (c2_curve (r i) (q i) (pw i) (zq i) Hq _ _ _ (y l) _ _ _ (lin_part r y l Hl) (lin_part q y l Hl) (lin_part pw y l Hl)) as D. cbv beta in D. rewrite upd_self in D. exact (D A B C _ _ _ _ _ _).
Qed.
(* values of the code *)
Section At.
Context (y : nat -> R) (Hy : okc y) (Hv : version <> 3%nat).
Lemma V0 w i : (i < n)%nat -> UNIFAC_Vis n y w i = w i / lin w y.
Proof. intros Hi. unfold UNIFAC_Vis. cbv zeta. rewrite let_fst. rewrite (proj2 (Vis_form n w y _)) by auto. unfold lin, Rdiv. ring. Qed.
Lemma Vi w : UNIFAC_rx_sum_inv n y w = 1 / lin w y.
Proof. unfold UNIFAC_rx_sum_inv. cbv zeta. rewrite let_snd. now rewrite (proj1 (Vis_form n w y _)). Qed.
Lemma V1 w i j : lin w y <> 0 -> (i < n)%nat -> (j < n)%nat -> UNIFAC_dVis_dxs n y w i j = - w i * w j / lin w y ^ 2.
Proof. intros. unfold UNIFAC_dVis_dxs. cbv zeta. rewrite dVis_form, Vi by auto. field. auto. Qed.
Lemma V2 w i j k : lin w y <> 0 -> (i < n)%nat -> (j < n)%nat -> (k < n)%nat -> UNIFAC_d2Vis_dxixjs n y w i j k = 2 * w i * w j * w k / lin w y ^ 3.
Proof. intros. unfold UNIFAC_d2Vis_dxixjs. cbv zeta. rewrite d2Vis_form, Vi by auto. field. auto. Qed.
Lemma V3 w i j k l : lin w y <> 0 -> (i < n)%nat -> (j < n)%nat -> (k < n)%nat -> (l < n)%nat -> UNIFAC_d3Vis_dxixjxks n y w i j k l = - 6 * w i * w j * w k * w l / lin w y ^ 4.
Proof. intros. unfold UNIFAC_d3Vis_dxixjxks. cbv zeta. rewrite d3Vis_form, Vi by auto. field. auto. Qed.
Definition Vmod := if (version =? 1)%nat || (version =? 4)%nat then UNIFAC_Vis_modified n y version r else UNIFAC_Vis n y r.
Lemma pwE : pw = (if (version =? 1)%nat || (version =? 4)%nat then UNIFAC_rs_34 version r else r).
Proof. unfold pw. destruct (_ || _); reflexivity. Qed.
Lemma LC_val i : n <> 1%nat -> (i < n)%nat -> UNIFAC_lngammas_c n y version r q i = LC y i.
Proof.
  intros Hn Hi. unfold UNIFAC_lngammas_c. cbv zeta. destruct (Nat.eqb_spec n 1); [congruence|]. cbn [negb].
  replace (if ((version =? 1)%nat || (version =? 4)%nat)%bool then UNIFAC_Vis_modified n y version r else UNIFAC_Vis n y r) with (UNIFAC_Vis n y pw) by (rewrite pwE; destruct (_ || _); reflexivity).
  change (UNIFAC_Fis n y q) with (UNIFAC_Vis n y q). rewrite lngc_form, !V0 by auto. unfold LC, c0, zq. destruct (Nat.eqb_spec version 3); [congruence|]. destruct (version =? 4)%nat; ring.
Qed.
Lemma nzs i : (i < n)%nat -> r i <> 0 /\ q i <> 0 /\ pw i <> 0 /\ lin r y <> 0 /\ lin q y <> 0 /\ lin pw y <> 0.
Proof. intros Hi. destruct (Hs Hv i Hi). pose proof (pw_pos i Hv Hi). destruct (Hy Hv) as (A & B & C). repeat split; lra. Qed.
Lemma LCx_val i j : (i < n)%nat -> (j < n)%nat -> UNIFAC_dlngammas_c_dxs n y version r q i j = LCx y i j.
Proof.
  intros Hi Hj. destruct (nzs i Hi) as (A & B & C & D & E & F). unfold UNIFAC_dlngammas_c_dxs. cbv zeta.
  replace (if ((version =? 1)%nat || (version =? 4)%nat)%bool then (UNIFAC_Vis_modified n y version r, UNIFAC_dVis_modified_dxs n y version r) else (UNIFAC_Vis n y r, UNIFAC_dVis_dxs n y r)) with (UNIFAC_Vis n y pw, UNIFAC_dVis_dxs n y pw) by (rewrite pwE; destruct (_ || _); reflexivity).
  change (UNIFAC_Fis n y q) with (UNIFAC_Vis n y q). change (UNIFAC_dFis_dxs n y q) with (UNIFAC_dVis_dxs n y q).
  unfold unifac_dlngammas_c_dxs, LCx, c1, zq. destruct (Nat.eqb_spec version 3); [congruence|]. destruct (version =? 4)%nat; ents; rewrite !V0, !V1 by auto; field; repeat split; auto.
Qed.
Lemma LCxx_val i j k : (i < n)%nat -> (j < n)%nat -> (k < n)%nat -> UNIFAC_d2lngammas_c_dxixjs n y version r q i j k = LCxx y i j k.
Proof.
  intros Hi Hj Hk. destruct (nzs i Hi) as (A & B & C & D & E & F). unfold UNIFAC_d2lngammas_c_dxixjs. cbv zeta.
  replace (if ((version =? 1)%nat || (version =? 4)%nat)%bool then (UNIFAC_Vis_modified n y version r, UNIFAC_dVis_modified_dxs n y version r, UNIFAC_d2Vis_modified_dxixjs n y version r) else (UNIFAC_Vis n y r, UNIFAC_dVis_dxs n y r, UNIFAC_d2Vis_dxixjs n y r)) with (UNIFAC_Vis n y pw, UNIFAC_dVis_dxs n y pw, UNIFAC_d2Vis_dxixjs n y pw) by (rewrite pwE; destruct (_ || _); reflexivity).
  change (UNIFAC_Fis n y q) with (UNIFAC_Vis n y q). change (UNIFAC_dFis_dxs n y q) with (UNIFAC_dVis_dxs n y q). change (UNIFAC_d2Fis_dxixjs n y q) with (UNIFAC_d2Vis_dxixjs n y q).
  unfold unifac_d2lngammas_c_dxixjs, LCxx, c2, zq. destruct (Nat.eqb_spec version 3); [congruence|]. destruct (version =? 4)%nat; ents; rewrite !V0, !V1, !V2 by auto; field; repeat split; auto.
Qed.
Lemma LCxxx_val i j k l : (i < n)%nat -> (j < n)%nat -> (k < n)%nat -> (l < n)%nat -> UNIFAC_d3lngammas_c_dxixjxks n y version r q i j k l = LCxxx y i j k l.
Proof.
  intros Hi Hj Hk Hl. destruct (nzs i Hi) as (A & B & C & D & E & F). unfold UNIFAC_d3lngammas_c_dxixjxks. cbv zeta.
  replace (if ((version =? 1)%nat || (version =? 4)%nat)%bool then (UNIFAC_Vis_modified n y version r, UNIFAC_dVis_modified_dxs n y version r, UNIFAC_d2Vis_modified_dxixjs n y version r, UNIFAC_d3Vis_modified_dxixjxks n y version r) else (UNIFAC_Vis n y r, UNIFAC_dVis_dxs n y r, UNIFAC_d2Vis_dxixjs n y r, UNIFAC_d3Vis_dxixjxks n y r)) with (UNIFAC_Vis n y pw, UNIFAC_dVis_dxs n y pw, UNIFAC_d2Vis_dxixjs n y pw, UNIFAC_d3Vis_dxixjxks n y pw) by (rewrite pwE; destruct (_ || _); reflexivity).
  change (UNIFAC_Fis n y q) with (UNIFAC_Vis n y q). change (UNIFAC_dFis_dxs n y q) with (UNIFAC_dVis_dxs n y q). change (UNIFAC_d2Fis_dxixjs n y q) with (UNIFAC_d2Vis_dxixjs n y q). change (UNIFAC_d3Fis_dxixjxks n y q) with (UNIFAC_d3Vis_dxixjxks n y q).
  unfold unifac_d3lngammas_c_dxixjxks, LCxxx, c3, zq. destruct (Nat.eqb_spec version 3); [congruence|]. destruct (version =? 4)%nat; ents; rewrite !V0, !V1, !V2, !V3 by auto; field; repeat split; auto.
Qed.
End At.
(* the combinatorial part satisfies the Gibbs-Duhem relation at mole fractions *)
Lemma LC_gd y (dc : nat -> R) : okc y -> rsum n y = 1 -> rsum n (fun i => y i * rsum n (fun j => LCx y i j * dc j)) = 0.
Proof.
  intros Ho H1. unfold LCx. destruct (Nat.eqb_spec version 3) as [E|E].
  - apply rsum_eq_0. intros i Hi. rewrite rsum_eq_0. ring. intros; ring.
  - destruct (Ho E) as (A & B & C).
    set (z := if (version =? 4)%nat then 0 else 5).
    rewrite (rsum_ext n _ (fun i => pw i * y i * (lin pw dc / lin pw y ^ 2) - y i * (lin pw dc / lin pw y) + z * ((r i * y i) * (lin q dc / lin r y - lin q y * lin r dc / lin r y ^ 2) - (q i * y i) * (lin q dc / lin q y - lin r dc / lin r y)))).
    + rewrite rsum_plus, rsum_minus, rsum_scal_r, rsum_scal_r, H1, rsum_scal_l, rsum_minus, rsum_scal_r, rsum_scal_r. fold (lin pw y) (lin r y) (lin q y). field. repeat split; lra.
    + intros i Hi. destruct (Hs E i Hi) as [Hr Hq]. unfold c1.
      rewrite (rsum_ext n _ (fun j => (pw i / lin pw y ^ 2 - 1 / lin pw y) * (pw j * dc j) + (zq i * (r i / q i) / lin r y - zq i / lin q y) * (q j * dc j) + (- zq i * (r i / q i) * lin q y / lin r y ^ 2 + zq i / lin r y) * (r j * dc j))).
      2:{ intros j Hj. field. repeat split; lra. }
      rewrite !rsum_plus, !rsum_scal_l. fold (lin pw dc) (lin q dc) (lin r dc). unfold zq, z. destruct (version =? 4)%nat; field; repeat split; lra.
Qed.
(* a pure component *)
Lemma LC_only i y : (i < n)%nat -> (forall w, lin w y = w i) -> LC y i = 0.
Proof.
  intros Hi Hy. unfold LC. destruct (Nat.eqb_spec version 3) as [E|E]; [reflexivity|]. rewrite !Hy. destruct (Hs E i Hi). pose proof (pw_pos i E Hi).
  unfold c0. replace (pw i / pw i) with 1 by (field; lra). replace (r i / r i / (q i / q i)) with 1 by (field; lra). rewrite ln_1. ring.
Qed.
Lemma LC_spec y i : okc y -> (i < n)%nat -> ln_gamma_combinatorial n version r q y i = LC y i.
Proof.
  intros Ho Hi. unfold ln_gamma_combinatorial, LC, c0, zq, pw, lin, UNIFAC_rs_34. cbv zeta.
  assert (S : forall w, rsum n (fun j => y j * w j) = rsum n (fun j => w j * y j)) by (intros; apply rsum_ext; intros; ring).
  rewrite (S r), (S q), (S (fun j => Rpower (r j) (2 / 3))), (S (fun j => Rpower (r j) (3 / 4))).
  clear Hs Ho. destruct version as [|[|[|[|[|m]]]]]; cbn [Nat.eqb orb]; try reflexivity; ring.
Qed.
End Comb.
