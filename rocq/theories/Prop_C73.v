(* C73: composition derivatives and partial molar values of the departure functions of cubic mixtures. *)
From Coq Require Import Reals Lra Lia Arith Bool FunctionalExtensionality.
From Coquelicot Require Import Coquelicot.
From Verif Require Import Base BaseFacts Spec_eos EosFacts Spec_mix MixFacts Gen_eos Gen_mix MixDeriv LnphiFacts Spec_activity Spec_gradient Spec_eosvt ActFacts NrtlFacts GradFacts
  Gen_uniquac Gen_activity Gen_eosvt Gen_d2comp Prop_C17 Prop_C28 Prop_C71 Prop_C72 Model_mixdep Spec_mixdep.
Open Scope R_scope.

(* a function that can be differentiated along every path depends on the first n entries only *)
Lemma first_entries n (g : (nat -> R) -> R) x y : (forall c t dc, curve_through n c t x dc -> ex_derive (fun s => g (fun i => c i s)) t) ->
  (forall i, (i < n)%nat -> y i = x i) -> g y = g x.
Proof.
  intros H E. pose (c := fun (i : nat) (s : R) => if Nat.ltb i n then x i else if Req_EM_T s 0 then y i else x i).
  assert (Hc : curve_through n c 0 x (fun _ => 0)).
  { intros i Hi. unfold c. apply Nat.ltb_lt in Hi. rewrite Hi. split; [reflexivity|]. apply @is_derive_const. }
  pose proof (ex_derive_continuous _ _ (H c 0 _ Hc)) as C.
  assert (E0 : g (fun i => c i 0) = g y).
  { f_equal. apply functional_extensionality. intros i. unfold c. destruct (Nat.ltb_spec i n); [symmetry; auto|]. destruct (Req_EM_T 0 0); [reflexivity|lra]. }
  assert (E1 : forall s, s <> 0 -> g (fun i => c i s) = g x).
  { intros s Hs. f_equal. apply functional_extensionality. intros i. unfold c. destruct (Nat.ltb_spec i n); [reflexivity|]. destruct (Req_EM_T s 0); [lra|reflexivity]. }
  destruct (Req_dec (g y) (g x)) as [|Hn]; [assumption|exfalso]. assert (Hp : 0 < Rabs (g x - g y)) by (apply Rabs_pos_lt; lra).
  specialize (C (fun z => Rabs (z - g y) < Rabs (g x - g y))). cbv beta in C. rewrite E0 in C.
  destruct C as [d Hd]. { exists (mkposreal _ Hp). intros z Hz. exact Hz. }
  specialize (Hd (d / 2)). pose proof (cond_pos d). rewrite E1 in Hd by lra. apply (Rlt_irrefl (Rabs (g x - g y))). apply Hd.
  change (Rabs (d / 2 - 0) < d). rewrite Rminus_0_r, Rabs_right; lra.
Qed.
Lemma gradient_entries n g x v y : has_gradient n g x v -> (forall i, (i < n)%nat -> y i = x i) -> g y = g x.
Proof. intros H. apply first_entries. intros c t dc Hc. eexists. apply (H _ _ _ Hc). Qed.

(* sums of lists that are linear in the derivatives of the parameters *)
Lemma dlnf_lin T0 P0 V0 b0 d0 e0 a0 n (v' b' d' e' a' dc : nat -> R) : let L := dlnf T0 P0 V0 b0 d0 e0 a0 in let s (u : nat -> R) := rsum n (fun i => u i * dc i) in
  L (s v') (s b') (s d') (s e') (s a') = rsum n (fun i => L (v' i) (b' i) (d' i) (e' i) (a' i) * dc i).
Proof.
  intros L s. assert (E : forall x1 x2 x3 x4 x5, L x1 x2 x3 x4 x5 = x1 * L 1 0 0 0 0 + x2 * L 0 1 0 0 0 + x3 * L 0 0 1 0 0 + x4 * L 0 0 0 1 0 + x5 * L 0 0 0 0 1).
  { intros. unfold L, dlnf, Rdiv. ring. }
  rewrite E. unfold s. induction n as [|n IH]; [unfold rsum; cbn [loop]; ring|]. rewrite !rsum_S, <- IH, (E (v' n)). ring.
Qed.
Lemma dVf_lin T0 V0 b0 d0 e0 a0 n (b' d' e' a' dc : nat -> R) : let L := dVf T0 V0 b0 d0 e0 a0 in let s (u : nat -> R) := rsum n (fun i => u i * dc i) in
  L (s b') (s d') (s e') (s a') = rsum n (fun i => L (b' i) (d' i) (e' i) (a' i) * dc i).
Proof.
  intros L s. assert (E : forall x2 x3 x4 x5, L x2 x3 x4 x5 = x2 * L 1 0 0 0 + x3 * L 0 1 0 0 + x4 * L 0 0 1 0 + x5 * L 0 0 0 1).
  { intros. unfold L, dVf, Rdiv. ring. }
  rewrite E. unfold s. induction n as [|n IH]; [unfold rsum; cbn [loop]; ring|]. rewrite !rsum_S, <- IH, (E (b' n)). ring.
Qed.
(* the enthalpy *)
Definition dHf (T0 P0 V0 d0 e0 a0 at0 v' d' e' a' at' : R) : R :=
  P0 * v' + (T0 * at' - a') * Kf d0 e0 V0 + (T0 * at0 - a0) *
    (- v' / (V0 ^ 2 + d0 * V0 + e0) - ((d' * d0 - 2 * e') * Kf d0 e0 V0 / (d0 * d0 - 4 * e0) + (d' - (d' * d0 - 2 * e') * (2 * V0 + d0) / (d0 * d0 - 4 * e0)) / (2 * (V0 ^ 2 + d0 * V0 + e0)))).
Lemma dHf_lin T0 P0 V0 d0 e0 a0 at0 n (v' d' e' a' at' dc : nat -> R) : let L := dHf T0 P0 V0 d0 e0 a0 at0 in let s (u : nat -> R) := rsum n (fun i => u i * dc i) in
  L (s v') (s d') (s e') (s a') (s at') = rsum n (fun i => L (v' i) (d' i) (e' i) (a' i) (at' i) * dc i).
Proof.
  intros L s. assert (E : forall x1 x2 x3 x4 x5, L x1 x2 x3 x4 x5 = x1 * L 1 0 0 0 0 + x2 * L 0 1 0 0 0 + x3 * L 0 0 1 0 0 + x4 * L 0 0 0 1 0 + x5 * L 0 0 0 0 1).
  { intros. unfold L, dHf, Rdiv. ring. }
  rewrite E. unfold s. induction n as [|n IH]; [unfold rsum; cbn [loop]; ring|]. rewrite !rsum_S, <- IH, (E (v' n)). ring.
Qed.
Lemma Hdep_Kf T0 P0 V0 d0 e0 a0 at0 : cubicHdep T0 P0 V0 d0 e0 a0 at0 = P0 * V0 - Rgas * T0 + (T0 * at0 - a0) * Kf d0 e0 V0.
Proof.
  unfold cubicHdep, Kf. replace (1 / sqrt (d0 * d0 - 4 * e0) * (2 * V0 + d0)) with ((2 * V0 + d0) / sqrt (d0 * d0 - 4 * e0)) by (unfold Rdiv; ring). unfold Rdiv. ring.
Qed.
Lemma Gdep_lnphi T0 P0 V0 b0 d0 e0 a0 : 0 < T0 -> 0 < P0 -> 0 < d0 * d0 - 4 * e0 -> above_poles b0 d0 e0 V0 ->
  cubicAdep T0 P0 V0 b0 d0 e0 a0 + (P0 * V0 - Rgas * T0) = Rgas * T0 * eos_lnphi T0 P0 V0 b0 d0 e0 a0.
Proof.
  intros HT HP HD Hp. pose proof Rgas_pos as HR. rewrite lnphi_Kf by auto. unfold cubicAdep, Kf.
  replace (1 / sqrt (d0 * d0 - 4 * e0) * (2 * V0 + d0)) with ((2 * V0 + d0) / sqrt (d0 * d0 - 4 * e0)) by (unfold Rdiv; ring).
  replace (P0 * V0 / (Rgas * T0) - b0 * P0 / (Rgas * T0)) with (P0 * (V0 - b0) / (Rgas * T0)) by (field; lra).
  pose proof (sqrt_lt_R0 _ HD) as SP. set (K := re_catanh _). set (r := sqrt _) in *. set (q := ln _). clearbody K r q. field. lra.
Qed.
Lemma H_entry Z0 P0 T0 n dd de da dat dV d0 e0 a0 at0 i : (i < n)%nat -> 0 < T0 -> 0 < P0 -> 0 < d0 * d0 - 4 * e0 ->
  let V0 := Z0 * Rgas * T0 / P0 in sqrt (d0 * d0 - 4 * e0) < 2 * V0 + d0 ->
  GCEOSMIX_dH_dep_dzs Z0 P0 T0 n dd de da dat dV d0 e0 a0 at0 i = dHf T0 P0 V0 d0 e0 a0 at0 (dV i) (dd i) (de i) (da i) (dat i).
Proof.
  intros Hi HT HP HD V0 Hs. pose proof (Kf_Q_pos d0 e0 V0 HD Hs) as HQ. unfold GCEOSMIX_dH_dep_dzs. cbv zeta. rewrite loop_upd_lt by auto. fold V0. unfold dHf, Kf.
  replace (V0 + V0 + d0) with (2 * V0 + d0) by ring.
  replace (1 / sqrt (d0 * d0 - 4 * e0) * (2 * V0 + d0)) with ((2 * V0 + d0) * / sqrt (d0 * d0 - 4 * e0)) by (unfold Rdiv; ring).
  set (K := re_catanh _). clearbody K. pose proof (sqrt_lt_R0 _ HD) as SP. pose proof (sqrt_sqrt (d0 * d0 - 4 * e0) (Rlt_le _ _ HD)) as SS.
  set (r := sqrt (d0 * d0 - 4 * e0)) in *. assert (Ee : e0 = (d0 * d0 - r * r) / 4) by lra. rewrite Ee in *. clearbody V0 r. clear SS HD Ee.
  assert (N1 : (2 * V0 + d0 - r) * (2 * V0 + d0 + r) <> 0) by (apply Rmult_integral_contrapositive_currified; lra).
  replace (V0 ^ 2 + d0 * V0 + (d0 * d0 - r * r) / 4) with ((2 * V0 + d0 - r) * (2 * V0 + d0 + r) / 4) in * by field.
  replace (d0 * d0 - 4 * ((d0 * d0 - r * r) / 4)) with (r * r) by field. field. splits; try lra.
Qed.

Section Mixture.
Variables (m : mixture) (f : mixing) (Z : R).
Hypothesis HM : describes m f Z.
Let n := N m.
Let x := zs m.
Lemma HT : 0 < T m. Proof. apply HM. Qed.
Lemma HP : 0 < P m. Proof. apply HM. Qed.
Lemma Hx : rsum n x = 1. Proof. apply HM. Qed.
Lemma EV : Z * (Rgas * T m) / P m = fV f x.
Proof. destruct HM as (H1 & H2 & _ & _ & _ & _ & _ & _ & -> & _). pose proof Rgas_pos. unfold fZ. fold x. field. splits; lra. Qed.
Lemma EV2 : Z * Rgas * T m / P m = fV f x. Proof. rewrite <- EV. unfold Rdiv. ring. Qed.
Lemma disc : 0 < fdelta f x * fdelta f x - 4 * feps f x. Proof. apply HM. Qed.
Lemma poles : above_poles (fb f x) (fdelta f x) (feps f x) (fV f x). Proof. apply HM. Qed.
Lemma nz : fV f x <> fb f x /\ fV f x ^ 2 + fdelta f x * fV f x + feps f x <> 0 /\
  - Rgas * T m / (fV f x - fb f x) ^ 2 + fa f x * (2 * fV f x + fdelta f x) / (fV f x ^ 2 + fdelta f x * fV f x + feps f x) ^ 2 <> 0.
Proof.
  pose proof disc as HD. pose proof poles as [Hb Hs]. pose proof (Kf_Q_pos _ _ _ HD Hs) as HQ.
  assert (NN : Derive (fun v => P_cubic (fun _ => fa f x) (fb f x) (fdelta f x) (feps f x) (T m) v) (fV f x) <> 0) by apply HM.
  splits; try (apply Rgt_not_eq; lra).
  intros E. apply NN. apply is_derive_unique. unfold P_cubic. auto_derive; [splits; auto; apply Rgt_not_eq; lra|]. rewrite <- E. field. split; apply Rgt_not_eq; lra.
Qed.
Lemma g_b : has_gradient n (fb f) x (db_dzs m). Proof. destruct HM as (_ & _ & _ & _ & _ & _ & _ & _ & _ & G1 & _). exact G1. Qed.
Lemma g_d : has_gradient n (fdelta f) x (ddelta_dzs m). Proof. destruct HM as (_ & _ & _ & _ & _ & _ & _ & _ & _ & _ & G1 & _). exact G1. Qed.
Lemma g_e : has_gradient n (feps f) x (depsilon_dzs m). Proof. destruct HM as (_ & _ & _ & _ & _ & _ & _ & _ & _ & _ & _ & G1 & _). exact G1. Qed.
Lemma g_a : has_gradient n (fa f) x (da_alpha_dzs m). Proof. destruct HM as (_ & _ & _ & _ & _ & _ & _ & _ & _ & _ & _ & _ & G1 & _). exact G1. Qed.
Lemma g_da : has_gradient n (fda f) x (da_alpha_dT_dzs m). Proof. destruct HM as (_ & _ & _ & _ & _ & _ & _ & _ & _ & _ & _ & _ & _ & G1 & _). exact G1. Qed.
Lemma n_all i : (i < n)%nat -> partial (intensive n (fb f)) x i (db_dns m i) /\ partial (intensive n (fdelta f)) x i (ddelta_dns m i) /\
     partial (intensive n (feps f)) x i (depsilon_dns m i) /\ partial (intensive n (fa f)) x i (da_alpha_dns m i).
Proof. destruct HM as (_ & _ & _ & _ & _ & _ & _ & _ & _ & _ & _ & _ & _ & _ & G1 & _). apply G1. Qed.
Lemma root_V : follows_root (T m) (P m) f n x. Proof. destruct HM as (_ & _ & _ & _ & _ & _ & _ & _ & _ & _ & _ & _ & _ & _ & _ & _ & G1). exact G1. Qed.
Lemma dV_at i : (i < n)%nat -> dV_dzs m Z i = dVf (T m) (fV f x) (fb f x) (fdelta f x) (feps f x) (fa f x) (db_dzs m i) (ddelta_dzs m i) (depsilon_dzs m i) (da_alpha_dzs m i).
Proof.
  intros Hi. destruct nz as (N1 & N2 & N3). unfold dV_dzs. destruct HM as (H1 & H2 & _ & -> & -> & -> & -> & _).
  pose proof (dV_entry (T m) (P m) (fb f x) (fdelta f x) (feps f x) (fa f x) n Z (db_dzs m) (ddelta_dzs m) (depsilon_dzs m) (da_alpha_dzs m) zeros i Hi H1 H2) as D. cbv zeta in D.
  rewrite EV in D. apply D; auto.
Qed.
Lemma G_at i db de dd dV da : (i < n)%nat -> forall out,
  let g := G_dep_lnphi_d_helper (T m) (P m) (b m) (delta m) (epsilon_ m) (a_alpha m) n Z db de dd dV da in
  let L := dlnf (T m) (P m) (fV f x) (fb f x) (fdelta f x) (feps f x) (fa f x) (dV i) (db i) (dd i) (de i) (da i) in
  g false out i = L /\ g true out i = Rgas * T m * L.
Proof.
  intros Hi out g L. unfold g, L. pose proof disc as HD. pose proof poles as Hp. destruct HM as (H1 & H2 & _ & -> & -> & -> & -> & _).
  pose proof (helper_entry (T m) (P m) (fb f x) (fdelta f x) (feps f x) (fa f x) n Z db de dd dV da out i Hi H1 H2 HD) as D. cbv zeta in D. rewrite EV in D. auto.
Qed.
Lemma H_at i : (i < n)%nat -> dH_dep_dzs m Z i =
  dHf (T m) (P m) (fV f x) (fdelta f x) (feps f x) (fa f x) (fda f x) (dV_dzs m Z i) (ddelta_dzs m i) (depsilon_dzs m i) (da_alpha_dzs m i) (da_alpha_dT_dzs m i).
Proof.
  intros Hi. unfold dH_dep_dzs. pose proof disc as HD. pose proof poles as [_ Hs]. destruct HM as (H1 & H2 & _ & _ & -> & -> & -> & -> & _).
  pose proof (H_entry Z (P m) (T m) n (ddelta_dzs m) (depsilon_dzs m) (da_alpha_dzs m) (da_alpha_dT_dzs m) (dV_dzs m Z) (fdelta f x) (feps f x) (fa f x) (fda f x) i Hi H1 H2 HD) as D.
  cbv zeta in D. rewrite EV2 in D. auto.
Qed.

(* values on a path *)
Section Path.
Variables (c : nat -> R -> R) (t : R) (dc : nat -> R).
Hypothesis Hc : curve_through n c t x dc.
Let y (s : R) : nat -> R := fun i => c i s.
Let sm (u : nat -> R) : R := rsum n (fun i => u i * dc i).
Lemma here_b : fb f (y t) = fb f x. Proof. apply (gradient_entries _ _ _ _ _ g_b). intros; apply Hc; auto. Qed.
Lemma here_d : fdelta f (y t) = fdelta f x. Proof. apply (gradient_entries _ _ _ _ _ g_d). intros; apply Hc; auto. Qed.
Lemma here_e : feps f (y t) = feps f x. Proof. apply (gradient_entries _ _ _ _ _ g_e). intros; apply Hc; auto. Qed.
Lemma here_a : fa f (y t) = fa f x. Proof. apply (gradient_entries _ _ _ _ _ g_a). intros; apply Hc; auto. Qed.
Lemma here_da : fda f (y t) = fda f x. Proof. apply (gradient_entries _ _ _ _ _ g_da). intros; apply Hc; auto. Qed.
Lemma here_V : fV f (y t) = fV f x.
Proof.
  apply (first_entries n (fV f) x (y t)); [|intros; apply Hc; auto]. intros c' t' dc' Hc'. pose proof root_V as FR. destruct (FR c' t' dc' Hc') as [E _]. exact E.
Qed.
Lemma path_b : is_derive (fun s => fb f (y s)) t (sm (db_dzs m)). Proof. exact (g_b c t dc Hc). Qed.
Lemma path_d : is_derive (fun s => fdelta f (y s)) t (sm (ddelta_dzs m)). Proof. exact (g_d c t dc Hc). Qed.
Lemma path_e : is_derive (fun s => feps f (y s)) t (sm (depsilon_dzs m)). Proof. exact (g_e c t dc Hc). Qed.
Lemma path_a : is_derive (fun s => fa f (y s)) t (sm (da_alpha_dzs m)). Proof. exact (g_a c t dc Hc). Qed.
Lemma path_da : is_derive (fun s => fda f (y s)) t (sm (da_alpha_dT_dzs m)). Proof. exact (g_da c t dc Hc). Qed.
Lemma path_V : is_derive (fun s => fV f (y s)) t (sm (dV_dzs m Z)).
Proof.
  pose proof root_V as FR. destruct (FR c t dc Hc) as [E L]. cbv zeta in E, L. fold y in E, L.
  pose proof (volume_curve (T m) (P m) (fun s => fV f (y s)) (fun s => fb f (y s)) (fun s => fdelta f (y s)) (fun s => feps f (y s)) (fun s => fa f (y s)) t _ _ _ _ path_b path_d path_e path_a E) as C.
  cbv beta in C. rewrite here_b, here_d, here_e, here_a, here_V in C. destruct nz as (N1 & N2 & N3).
  eapply is_derive_eq; [exact (C N1 N2 N3 L)|]. unfold sm. rewrite dVf_lin. cR. apply rsum_ext. intros i Hi. rewrite dV_at by auto. reflexivity.
Qed.
Lemma path_lnphi (v' b' d' e' a' : R) : is_derive (fun s => fV f (y s)) t v' -> is_derive (fun s => fb f (y s)) t b' -> is_derive (fun s => fdelta f (y s)) t d' ->
  is_derive (fun s => feps f (y s)) t e' -> is_derive (fun s => fa f (y s)) t a' ->
  is_derive (fun s => fG_dep (T m) (P m) f (y s)) t (Rgas * T m * dlnf (T m) (P m) (fV f x) (fb f x) (fdelta f x) (feps f x) (fa f x) v' b' d' e' a').
Proof.
  intros Dv Db Dd De Da. pose proof disc as HD. pose proof poles as Hp.
  assert (HD' : 0 < fdelta f (y t) * fdelta f (y t) - 4 * feps f (y t)) by (rewrite here_d, here_e; exact HD).
  assert (Hp' : above_poles (fb f (y t)) (fdelta f (y t)) (feps f (y t)) (fV f (y t))) by (rewrite here_b, here_d, here_e, here_V; exact Hp).
  pose proof (lnphi_curve (T m) (P m) (fun s => fV f (y s)) (fun s => fb f (y s)) (fun s => fdelta f (y s)) (fun s => feps f (y s)) (fun s => fa f (y s)) t _ _ _ _ _ Dv Db Dd De Da HT HP HD' Hp') as C.
  cbv beta in C. rewrite here_b, here_d, here_e, here_a, here_V in C. apply (is_derive_scal _ _ (Rgas * T m)) in C.
  eapply is_derive_ext_loc; [|exact C].
  pose proof (near_t (fun s => fV f (y s)) (fun s => fb f (y s)) (fun s => fdelta f (y s)) (fun s => feps f (y s)) t _ _ _ _ Dv Db Dd De HD' Hp') as NT.
  generalize NT. apply filter_imp. intros s [S1 S2]. unfold fG_dep, fA_dep. symmetry. apply Gdep_lnphi; auto using HT, HP.
Qed.
Lemma path_G : is_derive (fun s => fG_dep (T m) (P m) f (y s)) t (sm (dG_dep_dzs m Z)).
Proof.
  eapply is_derive_eq; [apply (path_lnphi _ _ _ _ _ path_V path_b path_d path_e path_a)|]. unfold sm. rewrite dlnf_lin. cR. rewrite <- rsum_scal_l. apply rsum_ext. intros i Hi.
  unfold dG_dep_dzs, dlnphi_or_G_dzs. change (N m) with n. destruct (G_at i (db_dzs m) (depsilon_dzs m) (ddelta_dzs m) (dV_dzs m Z) (da_alpha_dzs m) Hi zeros) as [_ ->]. ring.
Qed.
Lemma path_H : is_derive (fun s => fH_dep (T m) (P m) f (y s)) t (sm (dH_dep_dzs m Z)).
Proof.
  pose proof disc as HD. pose proof poles as Hp.
  assert (HD' : 0 < fdelta f (y t) * fdelta f (y t) - 4 * feps f (y t)) by (rewrite here_d, here_e; exact HD).
  assert (Hp' : above_poles (fb f (y t)) (fdelta f (y t)) (feps f (y t)) (fV f (y t))) by (rewrite here_b, here_d, here_e, here_V; exact Hp).
  pose proof (Kf_curve (T m) (P m) (fun s => fV f (y s)) (fun s => fb f (y s)) (fun s => fdelta f (y s)) (fun s => feps f (y s)) t _ _ _ _ path_V path_b path_d path_e HT HP HD' Hp') as C.
  cbv beta in C. rewrite here_d, here_e, here_V in C. pose proof path_V as DV. pose proof path_a as DA. pose proof path_da as DT.
  pose proof here_a as Ea. pose proof here_da as Et. pose proof here_V as Ev. pose proof here_d as Ed. pose proof here_e as Ee.
  apply (is_derive_ext (fun s => P m * fV f (y s) - Rgas * T m + (T m * fda f (y s) - fa f (y s)) * Kf (fdelta f (y s)) (feps f (y s)) (fV f (y s)))).
  { intros s. unfold fH_dep. symmetry. apply Hdep_Kf. }
  assert (EK : Kf (fdelta f (y t)) (feps f (y t)) (fV f (y t)) = Kf (fdelta f x) (feps f x) (fV f x)) by (rewrite Ev, Ed, Ee; reflexivity).
  eapply is_derive_eq.
  - set (kf := fun s : R => Kf (fdelta f (y s)) (feps f (y s)) (fV f (y s))) in *. set (v := fun s : R => fV f (y s)) in *. set (af := fun s : R => fa f (y s)) in *. set (tf := fun s : R => fda f (y s)) in *.
    match type of C with is_derive _ _ ?k => set (k' := k) in * end.
    assert (D : is_derive (fun s => P m * v s - Rgas * T m + (T m * tf s - af s) * kf s) t (P m * sm (dV_dzs m Z) + ((T m * sm (da_alpha_dT_dzs m) - sm (da_alpha_dzs m)) * kf t + (T m * tf t - af t) * k'))).
    { change (is_derive kf t k') in C. change (is_derive v t (sm (dV_dzs m Z))) in DV. change (is_derive af t (sm (da_alpha_dzs m))) in DA. change (is_derive tf t (sm (da_alpha_dT_dzs m))) in DT. clearbody kf v af tf k'. auto_derive; [splits; eexists; eassumption|]. dv C. dv DV. dv DA. dv DT. cR. ring. }
    exact D.
  - cbv beta. rewrite EK, Ea, Et. transitivity (dHf (T m) (P m) (fV f x) (fdelta f x) (feps f x) (fa f x) (fda f x) (sm (dV_dzs m Z)) (sm (ddelta_dzs m)) (sm (depsilon_dzs m)) (sm (da_alpha_dzs m)) (sm (da_alpha_dT_dzs m))).
    { cR. unfold dHf. ring. }
    unfold sm. rewrite dHf_lin. cR. apply rsum_ext. intros i Hi. rewrite H_at by auto. reflexivity.
Qed.
End Path.

Lemma grad_V : has_gradient n (fV f) x (dV_dzs m Z). Proof. intros c t dc Hc. exact (path_V c t dc Hc). Qed.
Lemma grad_G : has_gradient n (fG_dep (T m) (P m) f) x (dG_dep_dzs m Z). Proof. intros c t dc Hc. exact (path_G c t dc Hc). Qed.
Lemma grad_H : has_gradient n (fH_dep (T m) (P m) f) x (dH_dep_dzs m Z). Proof. intros c t dc Hc. exact (path_H c t dc Hc). Qed.
Lemma grad_lin (F1 F2 : (nat -> R) -> R) (d1 d2 : nat -> R) (k1 k2 k0 : R) : has_gradient n F1 x d1 -> has_gradient n F2 x d2 ->
  has_gradient n (fun y => k1 * F1 y + k2 * F2 y + k0) x (fun i => k1 * d1 i + k2 * d2 i).
Proof.
  intros H1 H2 c t dc Hc. pose proof (H1 c t dc Hc) as D1. pose proof (H2 c t dc Hc) as D2.
  set (f1 := fun s : R => F1 (fun i => c i s)) in *. set (f2 := fun s : R => F2 (fun i => c i s)) in *.
  change (is_derive f1 t (rsum n (fun i => d1 i * dc i))) in D1. change (is_derive f2 t (rsum n (fun i => d2 i * dc i))) in D2.
  apply (is_derive_ext (fun s => k1 * f1 s + k2 * f2 s + k0)); [reflexivity|]. clearbody f1 f2.
  rewrite (rsum_ext n _ (fun i => k1 * (d1 i * dc i) + k2 * (d2 i * dc i))) by (intros; ring). rewrite rsum_plus, !rsum_scal_l.
  auto_derive; [splits; eexists; eassumption|]. dv D1. dv D2. cR. ring.
Qed.
Lemma grad_fun F F' d d' : (forall y, F y = F' y) -> (forall i, (i < n)%nat -> d i = d' i) -> has_gradient n F x d -> has_gradient n F' x d'.
Proof. intros E1 E2 H. replace F' with F by (apply functional_extensionality; exact E1). exact (grad_ext n x F d d' E2 H). Qed.
Lemma lnphi_G_dzs i : (i < n)%nat -> dlnphi_dzs m Z i = dG_dep_dzs m Z i / (Rgas * T m).
Proof.
  intros Hi. unfold dlnphi_dzs, dG_dep_dzs, dlnphi_or_G_dzs. change (N m) with n. pose proof HT. pose proof Rgas_pos.
  destruct (G_at i (db_dzs m) (depsilon_dzs m) (ddelta_dzs m) (dV_dzs m Z) (da_alpha_dzs m) Hi zeros) as [-> ->]. field. lra.
Qed.
Lemma lnphi_G_dns i : (i < n)%nat -> dlnphi_dns m Z i = dG_dep_dns m Z i / (Rgas * T m).
Proof.
  intros Hi. unfold dlnphi_dns, dG_dep_dns, dlnphi_or_G_dns. change (N m) with n. pose proof HT. pose proof Rgas_pos.
  destruct (G_at i (db_dns m) (depsilon_dns m) (ddelta_dns m) (dV_dns m Z) (da_alpha_dns m) Hi zeros) as [-> ->]. field. lra.
Qed.
Lemma grad_lnphi : has_gradient n (flnphi (T m) (P m) f) x (dlnphi_dzs m Z).
Proof.
  apply (grad_fun (fun y => / (Rgas * T m) * fG_dep (T m) (P m) f y + 0 * fG_dep (T m) (P m) f y + 0) _ (fun i => / (Rgas * T m) * dG_dep_dzs m Z i + 0 * dG_dep_dzs m Z i)).
  - intros y. unfold flnphi, Rdiv. ring.
  - intros i Hi. rewrite lnphi_G_dzs by auto. unfold Rdiv. ring.
  - apply grad_lin; apply grad_G.
Qed.
Lemma grad_Z : has_gradient n (fZ (T m) (P m) f) x (dZ_dzs m Z).
Proof.
  apply (grad_fun (fun y => P m / (T m * Rgas) * fV f y + 0 * fV f y + 0) _ (fun i => P m / (T m * Rgas) * dV_dzs m Z i + 0 * dV_dzs m Z i)).
  - intros y. unfold fZ. pose proof HT. pose proof Rgas_pos. field. lra.
  - intros i Hi. unfold dZ_dzs. cbv zeta. ring.
  - apply grad_lin; apply grad_V.
Qed.
Lemma grad_S : has_gradient n (fS_dep (T m) (P m) f) x (dS_dep_dzs m Z).
Proof.
  apply (grad_fun (fun y => / T m * fH_dep (T m) (P m) f y + - / T m * fG_dep (T m) (P m) f y + 0) _ (fun i => / T m * dH_dep_dzs m Z i + - / T m * dG_dep_dzs m Z i)).
  - intros y. unfold fS_dep, Rdiv. ring.
  - intros i Hi. unfold dS_dep_dzs. cbv zeta. unfold Rdiv. ring.
  - apply grad_lin; [apply grad_H|apply grad_G].
Qed.
Lemma frac_x : fractions n x = x. Proof. apply functional_extensionality. intros i. unfold fractions. rewrite Hx. field. Qed.
Lemma to_dns F d i : has_gradient n F x d -> (i < n)%nat -> partial (intensive n F) x i (ext_dxs_to_dns n d x i).
Proof.
  intros G Hi. rewrite <- frac_x in G. pose proof (C28_dxs_to_dns n F x d ltac:(rewrite Hx; lra) G i Hi) as D. rewrite frac_x, Hx in D.
  replace (ext_dxs_to_dns n d x i) with (ext_dxs_to_dns n d x i / 1) by field. exact D.
Qed.
Lemma to_dn F d i v : has_gradient n F x d -> (i < n)%nat -> v = F x -> partial (extensive n F) x i (ext_dxs_to_dn_partials n d x v i).
Proof.
  intros G Hi ->. rewrite <- frac_x in G. pose proof (C28_dxs_to_dn_partials n F x d ltac:(rewrite Hx; lra) G i Hi) as D. rewrite frac_x in D. exact D.
Qed.
Lemma dns_G i : (i < n)%nat -> partial (intensive n (fG_dep (T m) (P m) f)) x i (dG_dep_dns m Z i).
Proof.
  intros Hi. destruct (n_all i Hi) as (D1 & D2 & D3 & D4). pose proof (to_dns _ _ i grad_V Hi) as DV. unfold partial, intensive in *.
  pose proof (frac_curve_n n x i ltac:(rewrite Hx; lra) Hi) as Hc. rewrite frac_x in Hc.
  pose proof (path_lnphi _ _ _ Hc _ _ _ _ _ DV D1 D2 D3 D4) as C. eapply is_derive_eq; [exact C|].
  unfold dG_dep_dns, dlnphi_or_G_dns. change (N m) with n.
  destruct (G_at i (db_dns m) (depsilon_dns m) (ddelta_dns m) (dV_dns m Z) (da_alpha_dns m) Hi zeros) as [_ ->]. reflexivity.
Qed.
Lemma dns_lnphi i : (i < n)%nat -> partial (intensive n (flnphi (T m) (P m) f)) x i (dlnphi_dns m Z i).
Proof.
  intros Hi. pose proof (dns_G i Hi) as D. rewrite lnphi_G_dns by auto. unfold partial, intensive, flnphi in *. apply (is_derive_scal _ _ (/ (Rgas * T m))) in D.
  eapply is_derive_eq; [|cR; unfold Rdiv; apply Rmult_comm]. eapply is_derive_ext; [|exact D]. intros s. cR. cbv beta. unfold Rdiv. apply Rmult_comm.
Qed.
(* the two routes to the mole number derivatives of the Gibbs energy agree *)
Lemma G_routes i : (i < n)%nat -> dG_dep_dns m Z i = ext_dxs_to_dns n (dG_dep_dzs m Z) x i.
Proof.
  intros Hi. pose proof (dns_G i Hi) as D1. pose proof (to_dns _ _ i grad_G Hi) as D2. unfold partial in *. apply is_derive_unique in D1. apply is_derive_unique in D2. congruence.
Qed.
Lemma dns_to_dn F d i v : (i < n)%nat -> partial (intensive n F) x i (d i) -> v = F x -> partial (extensive n F) x i (ext_dns_to_dn_partials d v i).
Proof. intros Hi D ->. pose proof (C28_dns_to_dn_partials n F x d i Hx Hi D) as E. rewrite frac_x in E. exact E. Qed.
Lemma zero_sum d : rsum n (fun i => x i * ext_dxs_to_dns n d x i) = 0.
Proof.
  unfold ext_dxs_to_dns. rewrite (rsum_ext n _ (fun i => x i * d i - x i * rsum n (fun j => x j * d j))) by (intros; ring). rewrite rsum_minus, rsum_scal_r, Hx. ring.
Qed.
Lemma full_sum d v : rsum n (fun i => x i * ext_dxs_to_dn_partials n d x v i) = v.
Proof.
  unfold ext_dxs_to_dn_partials. rewrite (rsum_ext n _ (fun i => x i * d i + x i * (v - rsum n (fun j => x j * d j)))) by (intros; ring). rewrite rsum_plus, rsum_scal_r, Hx. ring.
Qed.
End Mixture.

(* ---- the theorems ---- *)
(* with mole fractions varied freely: the gradients *)
Theorem C73_gradients : forall m f Z, describes m f Z -> let grad F d := has_gradient (N m) F (zs m) d in
  grad (fV f) (dV_dzs m Z) /\ grad (fZ (T m) (P m) f) (dZ_dzs m Z) /\ grad (flnphi (T m) (P m) f) (dlnphi_dzs m Z) /\
  grad (fG_dep (T m) (P m) f) (dG_dep_dzs m Z) /\ grad (fH_dep (T m) (P m) f) (dH_dep_dzs m Z) /\ grad (fS_dep (T m) (P m) f) (dS_dep_dzs m Z).
Proof. intros m f Z H grad. unfold grad. splits; [apply (grad_V m f Z H)|apply (grad_Z m f Z H)|apply (grad_lnphi m f Z H)|apply (grad_G m f Z H)|apply (grad_H m f Z H)|apply (grad_S m f Z H)]. Qed.

(* with the amount of one component: derivatives of the molar values, whose mean is zero *)
Theorem C73_mole_numbers : forall m f Z, describes m f Z ->
  let change F d := (forall i, (i < N m)%nat -> partial (intensive (N m) F) (zs m) i (d i)) /\ rsum (N m) (fun i => zs m i * d i) = 0 in
  change (fV f) (dV_dns m Z) /\ change (fZ (T m) (P m) f) (dZ_dns m Z) /\ change (flnphi (T m) (P m) f) (dlnphi_dns m Z) /\
  change (fG_dep (T m) (P m) f) (dG_dep_dns m Z) /\ change (fH_dep (T m) (P m) f) (dH_dep_dns m Z) /\ change (fS_dep (T m) (P m) f) (dS_dep_dns m Z).
Proof.
  intros m f Z H change.
  assert (C : forall F d, has_gradient (N m) F (zs m) d -> change F (ext_dxs_to_dns (N m) d (zs m))).
  { intros F d G. split; [intros i Hi; apply (to_dns m f Z H F d i G Hi)|apply (zero_sum m f Z H)]. }
  assert (S0 : rsum (N m) (fun i => zs m i * dG_dep_dns m Z i) = 0).
  { rewrite (rsum_ext _ _ (fun i => zs m i * ext_dxs_to_dns (N m) (dG_dep_dzs m Z) (zs m) i)) by (intros i Hi; rewrite (G_routes m f Z H i Hi); reflexivity). apply (zero_sum m f Z H). }
  splits.
  - apply C. apply (grad_V m f Z H).
  - apply C. apply (grad_Z m f Z H).
  - split; [intros i Hi; apply (dns_lnphi m f Z H i Hi)|].
    rewrite (rsum_ext _ _ (fun i => zs m i * dG_dep_dns m Z i * / (Rgas * T m))) by (intros i Hi; rewrite (lnphi_G_dns m f Z H i Hi); unfold Rdiv; ring). rewrite rsum_scal_r, S0. ring.
  - split; [intros i Hi; apply (dns_G m f Z H i Hi)|exact S0].
  - apply C. apply (grad_H m f Z H).
  - apply C. apply (grad_S m f Z H).
Qed.

(* the object has the departures and the fugacity coefficient of the root Z: as its liquid's if Z is the root of its liquid, as its gas's otherwise *)
Definition phase_values (m : mixture) (f : mixing) (Z : R) : Prop :=
  let vals H G phi := H = Some (fH_dep (T m) (P m) f (zs m)) /\ G = Some (fG_dep (T m) (P m) f (zs m)) /\ phi = Some (exp (flnphi (T m) (P m) f (zs m))) in
  Z_l m = Some Z /\ vals (H_dep_l m) (G_dep_l m) (phi_l m) \/ Z_l m <> Some Z /\ vals (H_dep_g m) (G_dep_g m) (phi_g m).
Lemma stored_value m f Z : phase_values m f Z -> stored m Z (H_dep_l m) (H_dep_g m) = Some (fH_dep (T m) (P m) f (zs m)) /\
  stored m Z (G_dep_l m) (G_dep_g m) = Some (fG_dep (T m) (P m) f (zs m)) /\ stored m Z (phi_l m) (phi_g m) = Some (exp (flnphi (T m) (P m) f (zs m))).
Proof.
  unfold stored. intros [[-> (-> & -> & ->)]|[NZ (-> & -> & ->)]].
  - rewrite Reqb_true by reflexivity. auto.
  - destruct (Z_l m) as [z|]; auto. rewrite Reqb_false by congruence. auto.
Qed.

(* partial molar values: derivatives of the amount times the molar value; their mean is the molar value *)
Theorem C73_partial_molar : forall m f Z, describes m f Z -> phase_values m f Z ->
  let partial_molar F d := (forall i, (i < N m)%nat -> partial (extensive (N m) F) (zs m) i (d i)) /\ rsum (N m) (fun i => zs m i * d i) = F (zs m) in
  partial_molar (fV f) (dnV_dns m Z) /\ partial_molar (fZ (T m) (P m) f) (dnZ_dns m Z) /\
  (exists d, dnH_dep_dns m Z = Some d /\ partial_molar (fH_dep (T m) (P m) f) d) /\
  (exists d, dnG_dep_dns m Z = Some d /\ partial_molar (fG_dep (T m) (P m) f) d) /\
  (exists d, fugacity_coefficients m Z = Some d /\ partial_molar (flnphi (T m) (P m) f) d).
Proof.
  intros m f Z H PV pm. destruct (stored_value m f Z PV) as (E1 & E2 & E3). destruct (C73_mole_numbers m f Z H) as (_ & _ & [L1 L2] & [G1 G2] & _).
  assert (C : forall F d v, has_gradient (N m) F (zs m) d -> v = F (zs m) -> pm F (ext_dxs_to_dn_partials (N m) d (zs m) v)).
  { intros F d v G ->. split; [intros i Hi; apply (to_dn m f Z H F d i _ G Hi eq_refl)|apply (full_sum m f Z H)]. }
  assert (C2 : forall F d v, (forall i, (i < N m)%nat -> partial (intensive (N m) F) (zs m) i (d i)) -> rsum (N m) (fun i => zs m i * d i) = 0 -> v = F (zs m) -> pm F (ext_dns_to_dn_partials d v)).
  { intros F d v G S0 ->. split; [intros i Hi; apply (dns_to_dn m f Z H F d i _ Hi (G i Hi) eq_refl)|].
    unfold ext_dns_to_dn_partials. rewrite (rsum_ext _ _ (fun i => zs m i * d i + zs m i * F (zs m))) by (intros; ring). rewrite rsum_plus, rsum_scal_r, S0, (Hx m f Z H). ring. }
  splits.
  - apply C; [apply (grad_V m f Z H)|apply (EV2 m f Z H)].
  - apply C; [apply (grad_Z m f Z H)|apply H].
  - unfold dnH_dep_dns. rewrite E1. eexists. split; [reflexivity|]. apply C; [apply (grad_H m f Z H)|reflexivity].
  - unfold dnG_dep_dns. rewrite E2. eexists. split; [reflexivity|]. apply C2; auto.
  - unfold fugacity_coefficients. rewrite E3. rewrite Rltb_true by apply exp_pos. rewrite ln_exp. eexists. split; [reflexivity|]. apply C2; auto.
Qed.

(* the lists the object keeps for a phase: with mole fractions, and with amounts *)
Theorem C73_departures : forall m f Z, describes m f Z ->
  (let d := dnzs_departures false m Z in let grad F d := has_gradient (N m) F (zs m) d in
   grad (fV f) (dV_dep d) /\ grad (fG_dep (T m) (P m) f) (dG_dep d) /\ grad (fH_dep (T m) (P m) f) (dH_dep d) /\
   grad (fU_dep (T m) (P m) f) (dU_dep d) /\ grad (fS_dep (T m) (P m) f) (dS_dep d) /\ grad (fA_dep (T m) (P m) f) (dA_dep d)) /\
  (let d := dnzs_departures true m Z in let change F d := forall i, (i < N m)%nat -> partial (intensive (N m) F) (zs m) i (d i) in
   change (fV f) (dV_dep d) /\ change (fG_dep (T m) (P m) f) (dG_dep d) /\ change (fH_dep (T m) (P m) f) (dH_dep d) /\
   change (fU_dep (T m) (P m) f) (dU_dep d) /\ change (fS_dep (T m) (P m) f) (dS_dep d) /\ change (fA_dep (T m) (P m) f) (dA_dep d)).
Proof.
  intros m f Z H. pose proof (HT m f Z H) as Tp. destruct (C73_gradients m f Z H) as (GV & _ & _ & GG & GH & GS).
  assert (GU : has_gradient (N m) (fU_dep (T m) (P m) f) (zs m) (fun i => dH_dep_dzs m Z i - P m * dV_dzs m Z i)).
  { apply (grad_fun m (fun y => 1 * fH_dep (T m) (P m) f y + - P m * fV f y + Rgas * T m) _ (fun i => 1 * dH_dep_dzs m Z i + - P m * dV_dzs m Z i)).
    - intros y. unfold fU_dep. ring.
    - intros; ring.
    - apply grad_lin; auto. }
  assert (GA : has_gradient (N m) (fA_dep (T m) (P m) f) (zs m) (fun i => dG_dep_dzs m Z i - P m * dV_dzs m Z i)).
  { apply (grad_fun m (fun y => 1 * fG_dep (T m) (P m) f y + - P m * fV f y + Rgas * T m) _ (fun i => 1 * dG_dep_dzs m Z i + - P m * dV_dzs m Z i)).
    - intros y. unfold fG_dep. ring.
    - intros; ring.
    - apply grad_lin; auto. }
  split.
  - cbn [dnzs_departures dV_dep dG_dep dH_dep dU_dep dS_dep dA_dep]. cbv zeta. splits; auto.
    + apply (grad_ext _ _ _ (dS_dep_dzs m Z)); [|exact GS]. intros i Hi. unfold dS_dep_dzs. cbv zeta. field. lra.
    + apply (grad_ext _ _ _ (fun i => dG_dep_dzs m Z i - P m * dV_dzs m Z i)); [|exact GA]. intros i Hi. field. lra.
  - destruct (C73_mole_numbers m f Z H) as ([NV _] & _ & _ & [NG _] & [NH _] & [NS _]).
    assert (LN : forall u v k, ext_dxs_to_dns (N m) (fun i => u i - k * v i) (zs m) = fun i => ext_dxs_to_dns (N m) u (zs m) i - k * ext_dxs_to_dns (N m) v (zs m) i).
    { intros u v k. apply functional_extensionality. intros i. unfold ext_dxs_to_dns. rewrite (rsum_ext _ _ (fun j => zs m j * u j - k * (zs m j * v j))) by (intros; ring).
      rewrite rsum_minus, rsum_scal_l. ring. }
    cbn [dnzs_departures dV_dep dG_dep dH_dep dU_dep dS_dep dA_dep]. cbv zeta. splits; auto.
    + intros i Hi. pose proof (to_dns m f Z H _ _ i GU Hi) as D. rewrite LN in D. exact D.
    + intros i Hi. pose proof (to_dns m f Z H _ _ i GS Hi) as D. eapply partial_val; [exact D|]. rewrite (G_routes m f Z H i Hi). unfold dH_dep_dns.
      replace (dS_dep_dzs m Z) with (fun i => / T m * dH_dep_dzs m Z i - / T m * dG_dep_dzs m Z i) by (apply functional_extensionality; intros; unfold dS_dep_dzs; cbv zeta; unfold Rdiv; ring).
      rewrite (LN (fun i => / T m * dH_dep_dzs m Z i) (dG_dep_dzs m Z) (/ T m)). cbv beta.
      replace (ext_dxs_to_dns (N m) (fun i0 => / T m * dH_dep_dzs m Z i0) (zs m) i) with (/ T m * ext_dxs_to_dns (N m) (dH_dep_dzs m Z) (zs m) i).
      * field. lra.
      * unfold ext_dxs_to_dns. rewrite (rsum_ext _ (fun j => zs m j * (/ T m * dH_dep_dzs m Z j)) (fun j => / T m * (zs m j * dH_dep_dzs m Z j))) by (intros; ring). rewrite rsum_scal_l. ring.
    + intros i Hi. pose proof (to_dns m f Z H _ _ i GA Hi) as D. rewrite LN in D. eapply partial_val; [exact D|]. cbv beta. rewrite (G_routes m f Z H i Hi). unfold dH_dep_dns, dV_dns. field. lra.
Qed.

(* ---- derivatives of the fugacity coefficients of the components with mole fractions ---- *)
(* the second derivatives the object has: those of its parameters around its mole fractions, symmetric *)
Definition second_derivatives (m : mixture) (f : mixing) (dB dD dE dA : nat -> (nat -> R) -> R) : Prop :=
  let n := N m in let x := zs m in
  db_dzs m = (fun k => dB k x) /\ ddelta_dzs m = (fun k => dD k x) /\ depsilon_dzs m = (fun k => dE k x) /\ da_alpha_dzs m = (fun k => dA k x) /\
  near n x (regular_mixture (T m) (P m) (fb f) (fdelta f) (feps f) (fa f) (fV f)) /\
  (forall k, (k < n)%nat -> near n x (first_derivatives (fb f) (fdelta f) (feps f) (fa f) (fV f) dB dD dE dA k)) /\
  (forall k j, (k < n)%nat -> (j < n)%nat -> partial (dB k) x j (d2b_dzizjs m k j) /\ partial (dD k) x j (d2delta_dzizjs m k j) /\
     partial (dE k) x j (d2epsilon_dzizjs m k j) /\ partial (dA k) x j (d2a_alpha_dzizjs m k j)) /\
  (forall k j, (k < n)%nat -> (j < n)%nat -> d2b_dzizjs m k j = d2b_dzizjs m j k /\ d2delta_dzizjs m k j = d2delta_dzizjs m j k /\
     d2epsilon_dzizjs m k j = d2epsilon_dzizjs m j k /\ d2a_alpha_dzizjs m k j = d2a_alpha_dzizjs m j k).

Lemma d2_sym m f Z dB dD dE dA k j : second_derivatives m f dB dD dE dA -> (k < N m)%nat -> (j < N m)%nat -> d2lnphi_dzizjs m Z k j = d2lnphi_dzizjs m Z j k.
Proof.
  intros (_ & _ & _ & _ & _ & _ & _ & S) Hk Hj. destruct (S k j Hk Hj) as (S1 & S2 & S3 & S4).
  apply (C72_symmetric (N m) (T m) (P m) (Z * T m * Rgas / P m) (b m) (delta m) (epsilon_ m) (a_alpha m) (dV_dzs m Z) (db_dzs m) (ddelta_dzs m) (depsilon_dzs m) (da_alpha_dzs m) _ _ _ _ k j false Hk Hj S1 S2 S3 S4).
Qed.

(* g: the derivatives of ln(phi) of the mixture. At mole fractions y that of component i is ln(phi) + g_i - sum_k y_k g_k; the entry i j is its
   derivative with the mole fraction j. They satisfy the Gibbs-Duhem relation *)
Theorem C73_component_derivatives : forall m f Z dB dD dE dA, describes m f Z -> second_derivatives m f dB dD dE dA ->
  (exists g : nat -> (nat -> R) -> R,
    (forall k, (k < N m)%nat -> near (N m) (zs m) (fun y => partial (flnphi (T m) (P m) f) y k (g k y))) /\
    forall i j, (i < N m)%nat -> (j < N m)%nat ->
      partial (fun y => flnphi (T m) (P m) f y + g i y - rsum (N m) (fun k => y k * g k y)) (zs m) j (dlnphis_dzs m Z i j)) /\
  forall j, (j < N m)%nat -> rsum (N m) (fun i => zs m i * dlnphis_dzs m Z i j) = 0.
Proof.
  intros m f Z dB dD dE dA H S2. pose proof (HT m f Z H) as Tp. pose proof (HP m f Z H) as Pp. pose proof (Hx m f Z H) as Sx. pose proof Rgas_pos as HR.
  pose proof (fun k j => d2_sym m f Z dB dD dE dA k j S2) as Sym.
  split.
  - set (x := zs m) in *. set (n := N m) in *. set (L := fun y => eos_lnphi (T m) (P m) (fV f y) (fb f y) (fdelta f y) (feps f y) (fa f y)).
    assert (EZ : P m * fV f x / (Rgas * T m) = Z) by (destruct H as (_ & _ & _ & _ & _ & _ & _ & _ & -> & _); reflexivity).
    assert (EV' : Z * T m * Rgas / P m = fV f x) by (rewrite <- EZ; field; splits; lra).
    assert (Epar : b m = fb f x /\ delta m = fdelta f x /\ epsilon_ m = feps f x /\ a_alpha m = fa f x) by (destruct H as (_ & _ & _ & ? & ? & ? & ? & _); auto).
    destruct S2 as (E1 & E2 & E3 & E4 & RM & FD & SD & _). fold n x in RM, FD, SD.
    assert (FL : near n x (fun y => flnphi (T m) (P m) f y = L y)).
    { eapply near_impl; [|exact RM]. intros y (RD & RP & _ & _). unfold flnphi, fG_dep, fA_dep, L. rewrite Gdep_lnphi by auto. field. lra. }
    assert (Second : forall k j, (k < n)%nat -> (j < n)%nat -> exists g, near n x (fun y => partial L y k (g y)) /\ partial g x j (d2lnphi_dzizjs m Z k j)).
    { intros k j Hk Hj. destruct (SD k j Hk Hj) as (D1 & D2 & D3 & D4).
      destruct (lnphi_second n (T m) (P m) (fb f) (fdelta f) (feps f) (fa f) (fV f) dB dD dE dA (d2b_dzizjs m) (d2delta_dzizjs m) (d2epsilon_dzizjs m) (d2a_alpha_dzizjs m) x zeros k j Tp Pp Hk Hj RM (FD k Hk) (near_here _ _ _ (FD j Hj)) D1 D2 D3 D4)
        as (g & G1 & G2 & _). exists g. split; [exact G1|].
      unfold d2lnphi_dzizjs, d2V_dzizjs, dV_dzs. cbv zeta. rewrite EV'. destruct Epar as (-> & -> & -> & ->). rewrite E1, E2, E3, E4, <- EZ. exact G2. }
    pose (g := fun (k : nat) (y : nat -> R) => Derive (fun s => L (upd y k s)) (y k)). exists g.
    assert (G0 : forall k, (k < n)%nat -> near n x (fun y => partial L y k (g k y))).
    { intros k Hk. destruct (Second k k Hk Hk) as (h & N1 & _). eapply near_impl; [|exact N1]. intros y D. unfold partial in *. unfold g. apply Derive_correct. eexists. exact D. }
    assert (G2 : forall k j, (k < n)%nat -> (j < n)%nat -> partial (g k) x j (d2lnphi_dzizjs m Z k j)).
    { intros k j Hk Hj. destruct (Second k j Hk Hj) as (h & N1 & D). apply (partial_near n (g k) h x j); auto. eapply near_impl; [|exact N1]. intros y Dy. apply is_derive_unique. exact Dy. }
    assert (GF : forall k, (k < n)%nat -> near n x (fun y => partial (flnphi (T m) (P m) f) y k (g k y))).
    { intros k Hk. eapply near_impl; [|apply (near_and _ _ _ _ (near_near _ _ _ FL) (G0 k Hk))]. intros y [Ny Dy]. exact (partial_near n _ _ y k _ Ny Hk Dy). }
    split; [exact GF|]. intros i j Hi Hj.
    pose proof (near_here _ _ _ (GF j Hj)) as DF. pose proof (G2 i j Hi Hj) as Di.
    assert (DS : partial (fun y => rsum n (fun k => y k * g k y)) x j (g j x + rsum n (fun k => x k * d2lnphi_dzizjs m Z k j))).
    { unfold partial. eapply is_derive_eq.
      - apply (is_derive_rsum n (fun k s => upd x j s k * g k (upd x j s)) (fun k => dl j k * g k x + x k * d2lnphi_dzizjs m Z k j)). intros k Hk.
        pose proof (upd_derive x j k) as U. pose proof (G2 k j Hk Hj) as D. unfold partial in D.
        pose proof (is_derive_mult _ _ (x j) _ _ U D (fun a b => Rmult_comm a b)) as M. cbv beta in M. rewrite upd_self in M. exact M.
      - cR. rewrite rsum_plus, rsum_dl by auto. reflexivity. }
    unfold partial in DF, Di, DS |- *. eapply is_derive_eq; [apply (is_derive_minus _ _ _ _ _ (is_derive_plus _ _ _ _ _ DF Di) DS)|].
    unfold dlnphis_dzs, ext_d2xs_to_dxdn_partials. fold n x. rewrite (rsum_ext n (fun k => x k * d2lnphi_dzizjs m Z j k) (fun k => x k * d2lnphi_dzizjs m Z k j)) by (intros k Hk; rewrite (Sym k j) by auto; reflexivity).
    unfold minus, plus, opp; cbn. ring.
  - intros j Hj. unfold dlnphis_dzs, ext_d2xs_to_dxdn_partials.
    rewrite (rsum_ext _ _ (fun i => zs m i * d2lnphi_dzizjs m Z j i - zs m i * rsum (N m) (fun k => zs m k * d2lnphi_dzizjs m Z j k))) by (intros i Hi; rewrite (Sym i j) by auto; ring).
    rewrite rsum_minus, rsum_scal_r. rewrite Sx. ring.
Qed.

(* ---- a mixture that meets the hypotheses ---- *)
Definition exB (y : nat -> R) : R := y 0%nat + 2 * y 1%nat.
Definition exA (y : nat -> R) : R := 300 * exB y - 6 * exB y ^ 2.
Definition exf : mixing := {| fb := exB; fdelta := fun y => - exB y; feps := fun _ => 0; fa := exA; fda := exB; fV := fun y => 3 * exB y |}.
Definition exz : nat -> R := fun _ => / 2.
Definition exc (k : nat) : R := match k with O => 1 | S O => 2 | _ => 0 end.
Definition exT : R := 100 / Rgas.
Definition exm : mixture :=
  let dA := fun k => (300 - 12 * exB exz) * exc k in
  {| T := exT; P := 1; N := 2; zs := exz; b := exB exz; delta := - exB exz; epsilon_ := 0; a_alpha := exA exz; da_alpha_dT := exB exz;
     db_dzs := exc; ddelta_dzs := fun k => - exc k; depsilon_dzs := fun _ => 0; da_alpha_dzs := dA; da_alpha_dT_dzs := exc;
     db_dns := ext_dxs_to_dns 2 exc exz; ddelta_dns := ext_dxs_to_dns 2 (fun k => - exc k) exz; depsilon_dns := ext_dxs_to_dns 2 (fun _ => 0) exz; da_alpha_dns := ext_dxs_to_dns 2 dA exz;
     d2b_dzizjs := fun _ _ => 0; d2delta_dzizjs := fun _ _ => 0; d2epsilon_dzizjs := fun _ _ => 0; d2a_alpha_dzizjs := fun k j => - 12 * exc k * exc j;
     Z_l := None; H_dep_l := None; G_dep_l := None; phi_l := None;
     H_dep_g := Some (fH_dep exT 1 exf exz); G_dep_g := Some (fG_dep exT 1 exf exz); phi_g := Some (exp (flnphi exT 1 exf exz)) |}.
Lemma ex_grad_B : has_gradient 2 exB exz exc.
Proof.
  intros c t dc Hc. destruct (Hc 0%nat ltac:(lia)) as [_ D0]. destruct (Hc 1%nat ltac:(lia)) as [_ D1]. unfold exB, rsum; cbn [loop exc].
  set (c0 := c 0%nat) in *. set (c1 := c 1%nat) in *. clearbody c0 c1. auto_derive; [splits; eexists; eassumption|]. dv D0. dv D1. cR. ring.
Qed.
Lemma ex_comp (F G : R -> R) v : (forall u, is_derive F u (G u)) -> (forall k, (k < 2)%nat -> v k = G (exB exz) * exc k) -> has_gradient 2 (fun y => F (exB y)) exz v.
Proof.
  intros HF Ev c t dc Hc. pose proof (ex_grad_B c t dc Hc) as D. pose proof (is_derive_comp F (fun s => exB (fun i => c i s)) t _ _ (HF _) D) as E.
  assert (Eb : exB (fun i => c i t) = exB exz) by (apply (gradient_entries 2 exB exz exc _ ex_grad_B); intros; apply Hc; auto). cbv beta in E. rewrite Eb in E.
  eapply is_derive_eq; [exact E|]. rewrite (rsum_ext 2 (fun i => v i * dc i) (fun i => G (exB exz) * (exc i * dc i))) by (intros; rewrite Ev by auto; ring). rewrite rsum_scal_l. cR. unfold scal; cbn. unfold mult; cbn. ring.
Qed.
Lemma ex_regular y : 3 / 4 < exB y < 9 / 4 -> regular_mixture exT 1 (fb exf) (fdelta exf) (feps exf) (fa exf) (fV exf) y.
Proof.
  intros HB. pose proof Rgas_pos as HR. unfold regular_mixture. cbn [fb fdelta feps fa fV exf]. unfold exA. set (u := exB y) in *. clearbody u. clear - HR HB. splits.
  - nra.
  - split; [lra|]. replace (- u * - u - 4 * 0) with (u * u) by ring. rewrite sqrt_square by lra. lra.
  - unfold P_cubic, exT. field. splits; try lra; nra.
  - match goal with |- Derive ?f ?x <> 0 => assert (E : is_derive f x ((600 - 30 * u) / (36 * u ^ 2))) end.
    { unfold P_cubic, exT. auto_derive; [splits; try lra; nra|]. field. splits; try lra; nra. }
    rewrite (is_derive_unique _ _ _ E). apply Rgt_not_eq. apply Rdiv_lt_0_compat; nra.
Qed.
Lemma ex_near : near 2 exz (fun y => 3 / 4 < exB y < 9 / 4).
Proof.
  exists (/ 4). split; [lra|]. intros y Hy. pose proof (Hy 0%nat ltac:(lia)) as H0. pose proof (Hy 1%nat ltac:(lia)) as H1. apply Rabs_def2 in H0. apply Rabs_def2 in H1. unfold exz in H0, H1. unfold exB. lra.
Qed.
Example C73_hypotheses_met : describes exm exf (3 * exB exz / 100) /\ phase_values exm exf (3 * exB exz / 100) /\
  second_derivatives exm exf (fun k _ => exc k) (fun k _ => - exc k) (fun _ _ => 0) (fun k y => (300 - 12 * exB y) * exc k).
Proof.
  pose proof Rgas_pos as HR. assert (G1 := ex_grad_B).
  assert (G2 : has_gradient 2 (fdelta exf) exz (fun k => - exc k)) by (apply (ex_comp (fun u => - u) (fun _ => -1)); [intros; auto_derive; auto; ring|intros; ring]).
  assert (G3 : has_gradient 2 (feps exf) exz (fun _ => 0)) by (apply (ex_comp (fun u => 0) (fun _ => 0)); [intros; auto_derive; auto; ring|intros; ring]).
  assert (G4 : has_gradient 2 (fa exf) exz (fun k => (300 - 12 * exB exz) * exc k)) by (apply (ex_comp (fun u => 300 * u - 6 * u ^ 2) (fun u => 300 - 12 * u)); [intros; auto_derive; auto; ring|intros; ring]).
  assert (Sz : rsum 2 exz = 1) by (unfold exz, rsum; cbn [loop]; lra).
  assert (Fz : fractions 2 exz = exz) by (apply functional_extensionality; intros; unfold fractions; rewrite Sz; field).
  assert (Dn : forall F d i, has_gradient 2 F exz d -> (i < 2)%nat -> partial (intensive 2 F) exz i (ext_dxs_to_dns 2 d exz i)).
  { intros F d i G Hi. rewrite <- Fz in G. pose proof (C28_dxs_to_dns 2 F exz d ltac:(rewrite Sz; lra) G i Hi) as D. rewrite Fz, Sz in D. eapply partial_val; [exact D|field]. }
  splits.
  - unfold describes. cbn [T P N zs b delta epsilon_ a_alpha da_alpha_dT db_dzs ddelta_dzs depsilon_dzs da_alpha_dzs da_alpha_dT_dzs db_dns ddelta_dns depsilon_dns da_alpha_dns exm].
    pose proof (ex_regular exz (near_here _ _ _ ex_near)) as (R1 & R2 & _ & R4). splits; auto.
    + unfold exT. apply Rdiv_lt_0_compat; lra.
    + lra.
    + unfold fZ, exT. cbn [fV exf]. field. lra.
    + unfold regular. splits; auto.
    + intros c t dc Hc y. cbn [fV fb fdelta feps fa exf]. pose proof (G1 c t dc Hc) as D. fold y in D. split.
      * apply (ex_derive_scal (fun s => exB (y s)) 3 t). eexists. exact D.
      * pose proof (curve_near 2 exz c t dc _ Hc ex_near) as L. generalize L. apply filter_imp. intros s Hs. destruct (ex_regular (y s) Hs) as (_ & _ & E & _). exact E.
  - right. cbn. splits; auto. discriminate.
  - unfold second_derivatives. cbn [T P N zs db_dzs ddelta_dzs depsilon_dzs da_alpha_dzs d2b_dzizjs d2delta_dzizjs d2epsilon_dzizjs d2a_alpha_dzizjs exm].
    assert (DB : forall y k, (k < 2)%nat -> partial exB y k (exc k)).
    { intros y [|[|k]] Hk; [| |lia]; unfold partial, exB, upd, exc; cbn; auto_derive; auto; ring. }
    splits; try reflexivity.
    + eapply near_impl; [|apply ex_near]. apply ex_regular.
    + intros k Hk. exists 1. split; [lra|]. intros y _. pose proof (DB y k Hk) as Db. unfold first_derivatives, partial in *. cbn [fV fb fdelta feps fa exf].
      set (bb := fun s : R => exB (upd y k s)). change (is_derive bb (y k) (exc k)) in Db. assert (Eb : bb (y k) = exB y) by (unfold bb; rewrite upd_self; reflexivity).
      splits.
      * exact Db.
      * apply (is_derive_ext (fun s => - bb s)); [reflexivity|]. clearbody bb. auto_derive; [eexists; eassumption|]. dv Db. cR. ring.
      * auto_derive; auto.
      * apply (is_derive_ext (fun s => 300 * bb s - 6 * bb s ^ 2)); [reflexivity|]. clearbody bb. rewrite <- Eb. auto_derive; [splits; eexists; eassumption|]. dv Db. cR. ring.
      * apply (ex_derive_ext (fun s => 3 * bb s)); [reflexivity|]. clearbody bb. auto_derive. eexists; eassumption.
    + intros k j Hk Hj. splits; try (unfold partial; auto_derive; auto; fail). pose proof (DB exz j Hj) as Db. unfold partial in *.
      set (bb := fun s : R => exB (upd exz j s)) in *. apply (is_derive_ext (fun s => (300 - 12 * bb s) * exc k)); [reflexivity|]. change (is_derive bb (exz j) (exc j)) in Db. clearbody bb.
      auto_derive; [eexists; eassumption|]. dv Db. cR. ring.
    + intros k j _ _. splits; auto. ring.
Qed.
