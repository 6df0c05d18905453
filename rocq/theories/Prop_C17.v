(* C17: the component fugacity coefficients of cubic EOS mixtures. *)
From Coq Require Import Reals Lra Lia Arith Bool FunctionalExtensionality.
From Coquelicot Require Import Coquelicot.
From Verif Require Import Base BaseFacts Spec_eos EosFacts Spec_mix MixFacts Gen_eos Gen_mix Gen_eosmix MixDeriv MixParams Gen_lnphi LnphiFacts Prop_C14 Prop_C15 Prop_C16.
Open Scope R_scope.

(* n * ln(phi) of a cubic mixture as a function of the mole numbers at fixed T and P: the parameters b, delta, eps and
   a_alpha are functions of the mole fractions, Vf the molar volume. By C02, eos_lnphi is G_dep/(R T). *)
Definition n_lnphi (n : nat) (T P : R) (bf df ef af Vf : (nat -> R) -> R) (ns : nat -> R) : R :=
  let x := fractions n ns in
  rsum n ns * eos_lnphi T P (Vf ns) (bf x) (df x) (ef x) (af x).

(* Vf follows a differentiable root of the equation of state when the i-th mole number changes *)
Definition volume_root (n : nat) (T P : R) (bf df ef af Vf : (nat -> R) -> R) (zs : nat -> R) (i : nat) : Prop :=
  ex_derive (fun t => Vf (upd zs i t)) (zs i) /\
  locally (zs i) (fun t => let x := fractions n (upd zs i t) in P_cubic (fun _ => af x) (bf x) (df x) (ef x) T (Vf (upd zs i t)) = P).

Lemma upd_self (zs : nat -> R) i : upd zs i (zs i) = zs.
Proof. apply functional_extensionality; intros k. unfold upd. destruct (Nat.eqb_spec k i); subst; auto. Qed.

Section General.
Variables (n : nat) (T P : R) (zs : nat -> R) (bf df ef af Vf : (nat -> R) -> R) (db dd de da : nat -> R).
Hypotheses (HT : 0 < T) (HP : 0 < P) (Hz : rsum n zs = 1).
Let b := bf zs. Let d := df zs. Let e := ef zs. Let a := af zs. Let V := Vf zs.
Hypotheses (HD : 0 < d * d - 4 * e) (Hp : above_poles b d e V).
Variable i : nat.
Hypotheses (Hi : (i < n)%nat).
Hypotheses (Db : partial (fun ns => bf (fractions n ns)) zs i (db i)) (Dd : partial (fun ns => df (fractions n ns)) zs i (dd i))
  (De : partial (fun ns => ef (fractions n ns)) zs i (de i)) (Da : partial (fun ns => af (fractions n ns)) zs i (da i)).
Hypothesis (HV : volume_root n T P bf df ef af Vf zs i).

Lemma eos_here : P_cubic (fun _ => a) b d e T V = P.
Proof. destruct HV as [_ H]. apply locally_singleton in H. cbv beta zeta in H. rewrite upd_self, fractions_one in H by auto. exact H. Qed.

Lemma at_zs (f : (nat -> R) -> R) : f (fractions n (upd zs i (zs i))) = f zs.
Proof. rewrite upd_self, fractions_one; auto. Qed.

Lemma general_partial : partial (n_lnphi n T P bf df ef af Vf) zs i (eos_lnphi T P V b d e a + dlnf T P V b d e a 0 (db i) (dd i) (de i) (da i)).
Proof.
  pose proof eos_here as EE. destruct HV as [[v' Dv] _]. destruct Hp as [Hb Hs].
  assert (HQ : 0 < V ^ 2 + d * V + e) by (apply (Kf_Q_pos d e V); auto).
  assert (D1 : partial (fun ns => eos_lnphi T P (Vf ns) (bf (fractions n ns)) (df (fractions n ns)) (ef (fractions n ns)) (af (fractions n ns))) zs i
     (dlnf T P V b d e a 0 (db i) (dd i) (de i) (da i))).
  { unfold partial. pose proof (lnphi_curve T P (fun t => Vf (upd zs i t)) (fun t => bf (fractions n (upd zs i t))) (fun t => df (fractions n (upd zs i t)))
      (fun t => ef (fractions n (upd zs i t))) (fun t => af (fractions n (upd zs i t))) (zs i) v' (db i) (dd i) (de i) (da i) Dv Db Dd De Da HT HP) as C.
    cbv beta in C. rewrite !at_zs, upd_self in C. fold b d e a V in C. specialize (C HD Hp).
    rewrite dlnf_on_eos in C by (auto; try lra; apply Rgt_not_eq; lra). exact C. }
  unfold n_lnphi. cbv zeta.
  eapply partial_eq; [|apply (partial_mult (fun ns => rsum n ns) (fun ns => eos_lnphi T P (Vf ns) (bf (fractions n ns)) (df (fractions n ns)) (ef (fractions n ns)) (af (fractions n ns))) zs i 1); [apply (partial_S n); auto|exact D1]].
  cbv beta. rewrite (fractions_one n zs Hz), Hz. fold b d e a V. ring.
Qed.

Lemma general_entry Z lnphis : Z = P * V / (Rgas * T) ->
  eos_mix_lnphis_general T P Z b d e a n db da dd de lnphis i = eos_lnphi T P V b d e a + dlnf T P V b d e a 0 (db i) (dd i) (de i) (da i).
Proof.
  intros ->. pose proof Rgas_pos as HR. unfold eos_mix_lnphis_general. cbv zeta.
  match goal with |- loop ?n (fun x_ w => upd w x_ (@?f x_)) ?o i = _ => rewrite (loop_upd_lt n f o i Hi) end.
  assert (E1 : P * V / (Rgas * T) * Rgas * T / P = V) by (field; splits; lra).
  assert (E2 : P * V / (Rgas * T) * (Rgas * T) / P = V) by (field; splits; lra).
  rewrite E1. f_equal. destruct Hp as [Hb Hs].
  assert (HV2 : above_poles b d e (P * V / (Rgas * T) * (Rgas * T) / P)) by (rewrite E2; split; assumption).
  rewrite (proj1 (helper_entry T P b d e a n (P * V / (Rgas * T)) db de dd _ da _ i Hi HT HP HD HV2)).
  rewrite E2. apply dlnf_on_eos; auto; try lra. apply Rgt_not_eq. apply (Kf_Q_pos d e V); auto. apply eos_here.
Qed.

(* Generic routine (GCEOSMIX.fugacity_coefficients, eos_mix_lnphis_general): n ln(phi)'s partial derivative. *)
Lemma general_lnphis Z lnphis : Z = P * V / (Rgas * T) ->
  partial (n_lnphi n T P bf df ef af Vf) zs i (eos_mix_lnphis_general T P Z b d e a n db da dd de lnphis i).
Proof. intros E. rewrite (general_entry Z lnphis E). apply general_partial. Qed.

Lemma general_dV Z out : Z = P * V / (Rgas * T) ->
  - Rgas * T / (V - b) ^ 2 + a * (2 * V + d) / (V ^ 2 + d * V + e) ^ 2 <> 0 ->
  partial Vf zs i (eos_mix_dV_dzs T P Z b d e a db dd de da n out i).
Proof.
  intros -> Hd. pose proof Rgas_pos as HR. destruct HV as [Ev HL]. destruct Hp as [Hb Hs].
  assert (HQ : 0 < V ^ 2 + d * V + e) by (apply (Kf_Q_pos d e V); auto).
  assert (E2 : P * V / (Rgas * T) * (Rgas * T) / P = V) by (field; splits; lra).
  rewrite dV_entry; auto; rewrite ?E2; try lra; try (apply Rgt_not_eq; lra); auto.
  pose proof (volume_curve T P (fun t => Vf (upd zs i t)) (fun t => bf (fractions n (upd zs i t))) (fun t => df (fractions n (upd zs i t)))
      (fun t => ef (fractions n (upd zs i t))) (fun t => af (fractions n (upd zs i t))) (zs i) (db i) (dd i) (de i) (da i) Db Dd De Da Ev) as C.
  cbv beta in C. rewrite !at_zs, upd_self in C. fold b d e a V in C. apply C; auto; try lra; apply Rgt_not_eq; lra.
Qed.
End General.

Lemma lnphi_Kf T P V b d e a : 0 < T -> 0 < P -> 0 < d * d - 4 * e -> above_poles b d e V ->
  eos_lnphi T P V b d e a = P * V / (Rgas * T) - 1 - ln (P * V / (Rgas * T) - b * P / (Rgas * T)) - a * Kf d e V / (Rgas * T).
Proof.
  intros HT HP HD [Hb Hs]. pose proof Rgas_pos as HR. pose proof (sqrt_lt_R0 _ HD) as SP.
  unfold eos_lnphi. cbv zeta.
  set (u := 2 * V * (1 / sqrt (d * d - 4 * e)) + d * (1 / sqrt (d * d - 4 * e))).
  assert (Eu : u = 1 / sqrt (d * d - 4 * e) * (2 * V + d)) by (unfold u; ring).
  assert (Hu : 1 < u). { rewrite Eu. apply Rmult_lt_reg_l with (sqrt (d * d - 4 * e)); auto. rewrite <- Rmult_assoc. unfold Rdiv. rewrite Rmult_1_l, Rinv_r by lra. lra. }
  destruct (fancy_re u) as [F _]; [lra|lra|]. rewrite F. unfold Kf. rewrite <- Eu.
  replace (P * V / (Rgas * T) - b * P / (Rgas * T)) with (/ (Rgas * T / (P * (V - b)))) by (field; splits; lra).
  rewrite ln_Rinv; [field; splits; lra|]. apply Rdiv_lt_0_compat; apply Rmult_lt_0_compat; lra.
Qed.

(* delta = k1 b and eps = k2 b^2: the classical closed form *)
Lemma scaled_closed T P V b k1 k2 a bi r : 0 < T -> 0 < P -> 0 < b -> 0 < k1 * k1 - 4 * k2 ->
  above_poles b (k1 * b) (k2 * (b * b)) V -> P_cubic (fun _ => a) b (k1 * b) (k2 * (b * b)) T V = P ->
  let Z := P * V / (Rgas * T) in let K := Kf (k1 * b) (k2 * (b * b)) V in
  eos_lnphi T P V b (k1 * b) (k2 * (b * b)) a + dlnf T P V b (k1 * b) (k2 * (b * b)) a 0 (bi - b) (k1 * (bi - b)) (2 * k2 * b * (bi - b)) (2 * r - 2 * a)
  = (Z - 1) * bi / b - ln (Z - b * P / (Rgas * T)) - 2 * r * K / (Rgas * T) + a * K * bi / (b * Rgas * T).
Proof.
  intros HT HP Hb Hk Hp HE Z K. pose proof Rgas_pos as HR.
  assert (HD : 0 < (k1 * b) * (k1 * b) - 4 * (k2 * (b * b))).
  { replace ((k1 * b) * (k1 * b) - 4 * (k2 * (b * b))) with ((b * b) * (k1 * k1 - 4 * k2)) by ring. apply Rmult_lt_0_compat; nra. }
  rewrite lnphi_Kf by auto. fold Z K. unfold dlnf. fold K.
  destruct Hp as [Hb2 Hs]. pose proof (Kf_Q_pos _ _ _ HD Hs) as HQ.
  assert (Ea : a = (Rgas * T / (V - b) - P) * (V ^ 2 + k1 * b * V + k2 * (b * b))).
  { rewrite <- HE. unfold P_cubic. field. split; lra. }
  generalize (ln (Z - b * P / (Rgas * T))). intros L. unfold Z.
  set (Q := V ^ 2 + k1 * b * V + k2 * (b * b)) in *.
  replace (k1 * b * (k1 * b) - 4 * (k2 * (b * b))) with ((b * b) * (k1 * k1 - 4 * k2)) in * by ring.
  rewrite Ea. field. splits; try lra. 
Qed.

(* mixture parameters and their derivatives *)
Lemma d_lin n zs bs i : (i < n)%nat -> rsum n zs = 1 -> partial (fun ns => lin_mix n (fractions n ns) bs) zs i (bs i - lin_mix n zs bs).
Proof. intros Hi Hz. destruct (cd_lin n bs zs Hz i i i Hi Hi Hi) as (_ & _ & H & _). exact H. Qed.
Lemma d_quad n zs M i : (i < n)%nat -> rsum n zs = 1 -> sym n M -> partial (fun ns => quad_mix n (fractions n ns) M) zs i (2 * lin_mix n zs (M i) - 2 * quad_mix n zs M).
Proof. intros Hi Hz HM. destruct (cd_quad n M zs HM Hz i i i Hi Hi Hi) as (_ & _ & H & _). exact H. Qed.


Section Scaled.
Variables (n : nat) (T P : R) (zs bs : nat -> R) (M : nat -> nat -> R) (k1 k2 : R) (Vf : (nat -> R) -> R).
Hypotheses (HT : 0 < T) (HP : 0 < P) (Hz : rsum n zs = 1) (HM : sym n M) (Hk : 0 < k1 * k1 - 4 * k2).
Let b := lin_mix n zs bs. Let a := quad_mix n zs M. Let V := Vf zs.
Let bf := fun z => lin_mix n z bs.
Let df := fun z => k1 * lin_mix n z bs.
Let ef := fun z => k2 * (lin_mix n z bs * lin_mix n z bs).
Let af := fun z => quad_mix n z M.
Variable i : nat.
Hypotheses (Hi : (i < n)%nat) (Hb : 0 < b) (Hp : above_poles b (k1 * b) (k2 * (b * b)) V) (HV : volume_root n T P bf df ef af Vf zs i).

Lemma scaled_partials : partial (fun ns => bf (fractions n ns)) zs i (bs i - b) /\ partial (fun ns => df (fractions n ns)) zs i (k1 * (bs i - b)) /\
  partial (fun ns => ef (fractions n ns)) zs i (2 * k2 * b * (bs i - b)) /\ partial (fun ns => af (fractions n ns)) zs i (2 * lin_mix n zs (M i) - 2 * a).
Proof.
  pose proof (d_lin n zs bs i Hi Hz) as D. fold b in D. unfold bf, df, ef, af. splits; auto.
  - apply (partial_scal k1 (fun ns => lin_mix n (fractions n ns) bs)); auto.
  - eapply partial_eq; [|apply (partial_scal k2 (fun ns => lin_mix n (fractions n ns) bs * lin_mix n (fractions n ns) bs)); apply (partial_mult (fun ns => lin_mix n (fractions n ns) bs) (fun ns => lin_mix n (fractions n ns) bs)); exact D].
    cbv beta. rewrite (fractions_one n zs Hz). fold b. ring.
  - apply d_quad; auto.
Qed.

Lemma scaled_disc : 0 < (k1 * b) * (k1 * b) - 4 * (k2 * (b * b)).
Proof. replace ((k1 * b) * (k1 * b) - 4 * (k2 * (b * b))) with ((b * b) * (k1 * k1 - 4 * k2)) by ring. apply Rmult_lt_0_compat; nra. Qed.

Lemma scaled_partial : let Z := P * V / (Rgas * T) in let K := Kf (k1 * b) (k2 * (b * b)) V in
  partial (n_lnphi n T P bf df ef af Vf) zs i
   ((Z - 1) * bs i / b - ln (Z - b * P / (Rgas * T)) - 2 * lin_mix n zs (M i) * K / (Rgas * T) + a * K * bs i / (b * Rgas * T)).
Proof.
  intros Z K. destruct scaled_partials as (D1 & D2 & D3 & D4). pose proof scaled_disc as HD.
  eapply partial_eq; [|apply (general_partial n T P zs bf df ef af Vf (fun i => bs i - b) (fun i => k1 * (bs i - b)) (fun i => 2 * k2 * b * (bs i - b)) (fun i => 2 * lin_mix n zs (M i) - 2 * a)); auto].
  unfold df, ef, bf, af. fold b a. fold V. apply scaled_closed; auto.
  pose proof (eos_here n T P zs bf df ef af Vf Hz i HV) as E. exact E.
Qed.
End Scaled.

Ltac fe := apply functional_extensionality; intros; ring.

(* closed form shared by the PR and SRK routines *)
Definition closed (T P V b k1 k2 a r bi : R) : R :=
  let Z := P * V / (Rgas * T) in let K := Kf (k1 * b) (k2 * (b * b)) V in
  (Z - 1) * bi / b - ln (Z - b * P / (Rgas * T)) - 2 * r * K / (Rgas * T) + a * K * bi / (b * Rgas * T).

Lemma PR_closed n T P V b a bs rows lnphis i : 0 < T -> 0 < P -> (i < n)%nat -> 0 < b -> a <> 0 -> above_poles b (2 * b) (- b ^ 2) V ->
  PR_lnphis T P (P * V / (Rgas * T)) b a bs rows n lnphis i = closed T P V b 2 (-1) a (rows i) (bs i).
Proof.
  intros HT HP Hi Hb Ha Hp. pose proof Rgas_pos as HR. unfold closed. cbv zeta. set (Z := P * V / (Rgas * T)).
  replace (- b ^ 2) with (-1 * (b * b)) in Hp by ring. destruct Hp as [Hb2 Hs].
  pose proof (sqrt_lt_R0 2 ltac:(lra)) as S2. pose proof (sqrt_sqrt 2 ltac:(lra)) as SS2.
  assert (ED : sqrt (2 * b * (2 * b) - 4 * (-1 * (b * b))) = 2 * sqrt 2 * b).
  { replace (2 * b * (2 * b) - 4 * (-1 * (b * b))) with ((2 * sqrt 2 * b) * (2 * sqrt 2 * b)) by nra. apply sqrt_square. nra. }
  rewrite ED in Hs.
  assert (HD : 0 < 2 * b * (2 * b) - 4 * (-1 * (b * b))) by nra.
  rewrite Kf_ln by (auto; rewrite ED; auto). rewrite ED.
  unfold PR_lnphis. cbv zeta.
  assert (EB : b * (P * (1 / T)) * (1 / Rgas) = b * P / (Rgas * T)) by (field; lra). rewrite EB.
  set (B := b * P / (Rgas * T)).
  assert (HRT : 0 < P / (Rgas * T)) by (apply Rdiv_lt_0_compat; auto; apply Rmult_lt_0_compat; lra).
  assert (EZ : Z - B = P / (Rgas * T) * (V - b)) by (unfold Z, B; field; lra).
  assert (HZB : 0 < Z - B) by (rewrite EZ; apply Rmult_lt_0_compat; lra).
  assert (HB : 0 < B) by (unfold B; replace (b * P / (Rgas * T)) with (b * (P / (Rgas * T))) by (field; lra); apply Rmult_lt_0_compat; auto).
  assert (EN : (Z + B + B * sqrt 2) / (Z + B - B * sqrt 2) = (2 * V + 2 * b + 2 * sqrt 2 * b) / (2 * V + 2 * b - 2 * sqrt 2 * b)).
  { unfold Z, B. field. splits; try lra. assert (0 < P * (V + b - b * sqrt 2)) by (apply Rmult_lt_0_compat; lra). nra. }
  rewrite EN. set (q := (2 * V + 2 * b + 2 * sqrt 2 * b) / (2 * V + 2 * b - 2 * sqrt 2 * b)).
  assert (Hq : 0 < q) by (unfold q; apply Rdiv_lt_0_compat; nra).
  rewrite (Rleb_false (Z - B) 0), (Rleb_false q 0) by lra.
  assert (HN : a * (B * sqrt 2 + B * sqrt 2) <> 0).
  { apply Rmult_integral_contrapositive_currified; auto. apply Rgt_not_eq. nra. }
  rewrite (Reqb_false _ _ HN). cbv iota beta. unfold negb.
  match goal with |- loop ?n (fun x_ w => upd w x_ (@?f x_)) ?o i = _ => rewrite (loop_upd_lt n f o i Hi) end.
  generalize (ln q) (ln (Z - B)) (rows i). intros L1 L2 r. unfold Z, B. field. splits; try lra.
  apply Rgt_not_eq. assert (0 < b * P * sqrt 2) by (repeat apply Rmult_lt_0_compat; auto). lra.
Qed.

Lemma SRK_closed n T P V b a bs rows lnphis i : 0 < T -> 0 < P -> (i < n)%nat -> 0 < b -> a <> 0 -> above_poles b b 0 V ->
  SRK_lnphis T P (P * V / (Rgas * T)) b a bs rows n lnphis i = closed T P V b 1 0 a (rows i) (bs i).
Proof.
  intros HT HP Hi Hb Ha [Hb2 Hs]. pose proof Rgas_pos as HR. unfold closed. cbv zeta. set (Z := P * V / (Rgas * T)).
  rewrite Rmult_1_l, Rmult_0_l in *.
  assert (ED : sqrt (b * b - 4 * 0) = b). { replace (b * b - 4 * 0) with (b * b) by ring. apply sqrt_square. lra. }
  rewrite ED in Hs. rewrite Kf_ln by (rewrite ?ED; nra). rewrite ED.
  unfold SRK_lnphis. cbv zeta.
  match goal with |- loop ?n (fun x_ w => upd w x_ (@?f x_)) ?o i = _ => rewrite (loop_upd_lt n f o i Hi) end.
  replace (b * P / (T * Rgas)) with (b * P / (Rgas * T)) by (field; lra).
  replace ((2 * V + b + b) / (2 * V + b - b)) with (1 + b * P / (Rgas * T) / Z) by (unfold Z; field; splits; lra).
  generalize (ln (1 + b * P / (Rgas * T) / Z)) (ln (Z - b * P / (Rgas * T))) (rows i). intros L1 L2 r. unfold Z. field. splits; lra.
Qed.

(* PRMIX.fugacity_coefficients (also PR78MIX, PRSVMIX, PRSV2MIX, TWUPRMIX): for any pair matrix M = (1 - k_ij) sqrt(a_i a_j),
   or any other symmetric one, ln(phi_i) is the partial derivative of n ln(phi) with respect to n_i. *)
Theorem C17_PR : forall n T P zs bs M rows Vf lnphis i,
  0 < T -> 0 < P -> rsum n zs = 1 -> sym n M -> (i < n)%nat ->
  (forall k, (k < n)%nat -> rows k = rsum n (fun j => zs j * M k j)) ->
  let bf := fun z => lin_mix n z bs in let df := fun z => 2 * lin_mix n z bs in
  let ef := fun z => - (lin_mix n z bs) ^ 2 in let af := fun z => quad_mix n z M in
  let V := Vf zs in
  0 < bf zs -> af zs <> 0 -> above_poles (bf zs) (df zs) (ef zs) V -> volume_root n T P bf df ef af Vf zs i ->
  partial (n_lnphi n T P bf df ef af Vf) zs i (PR_lnphis T P (P * V / (Rgas * T)) (bf zs) (af zs) bs rows n lnphis i).
Proof.
  intros n T P zs bs M rows Vf lnphis i HT HP Hz HM Hi Hr bf df ef af V Hb Ha Hp HV.
  rewrite PR_closed by auto. rewrite Hr by auto.
  assert (Ee : ef = fun z => (-1) * (lin_mix n z bs * lin_mix n z bs)) by (unfold ef; fe).
  rewrite Ee in *. clear Ee ef.
  apply (scaled_partial n T P zs bs M 2 (-1) Vf HT HP Hz HM ltac:(lra) i Hi Hb Hp HV).
Qed.

(* SRKMIX.fugacity_coefficients (also TWUSRKMIX, APISRKMIX) *)
Theorem C17_SRK : forall n T P zs bs M rows Vf lnphis i,
  0 < T -> 0 < P -> rsum n zs = 1 -> sym n M -> (i < n)%nat ->
  (forall k, (k < n)%nat -> rows k = rsum n (fun j => zs j * M k j)) ->
  let bf := fun z => lin_mix n z bs in let ef := fun _ : nat -> R => 0 in let af := fun z => quad_mix n z M in
  let V := Vf zs in
  0 < bf zs -> af zs <> 0 -> above_poles (bf zs) (bf zs) (ef zs) V -> volume_root n T P bf bf ef af Vf zs i ->
  partial (n_lnphi n T P bf bf ef af Vf) zs i (SRK_lnphis T P (P * V / (Rgas * T)) (bf zs) (af zs) bs rows n lnphis i).
Proof.
  intros n T P zs bs M rows Vf lnphis i HT HP Hz HM Hi Hr bf ef af V Hb Ha Hp HV.
  rewrite SRK_closed by auto. rewrite Hr by auto.
  assert (Ee : ef = fun z => 0 * (lin_mix n z bs * lin_mix n z bs)) by (unfold ef; fe).
  assert (Ed : bf = fun z => 1 * lin_mix n z bs) by (unfold bf; fe).
  assert (Hb' : 0 < lin_mix n zs bs) by exact Hb.
  assert (Hp' : above_poles (lin_mix n zs bs) (1 * lin_mix n zs bs) (0 * (lin_mix n zs bs * lin_mix n zs bs)) V).
  { rewrite Rmult_1_l, Rmult_0_l. exact Hp. }
  assert (HV' : volume_root n T P (fun z => lin_mix n z bs) (fun z => 1 * lin_mix n z bs) (fun z => 0 * (lin_mix n z bs * lin_mix n z bs)) (fun z => quad_mix n z M) Vf zs i).
  { rewrite <- Ee, <- Ed. exact HV. }
  pose proof (scaled_partial n T P zs bs M 1 0 Vf HT HP Hz HM ltac:(lra) i Hi Hb' Hp' HV') as SP.
  rewrite <- Ee, <- Ed in SP. exact SP.
Qed.

(* RKMIX.fugacity_coefficients: the generic routine with the RK parameter derivatives *)
Theorem C17_RK : forall n T P zs bs M rows Vf lnphis i,
  0 < T -> 0 < P -> rsum n zs = 1 -> sym n M -> (i < n)%nat ->
  (forall k, (k < n)%nat -> rows k = rsum n (fun j => zs j * M k j)) ->
  let bf := fun z => lin_mix n z bs in let ef := fun _ : nat -> R => 0 in let af := fun z => quad_mix n z M in
  let V := Vf zs in
  0 < bf zs -> above_poles (bf zs) (bf zs) (ef zs) V -> volume_root n T P bf bf ef af Vf zs i ->
  partial (n_lnphi n T P bf bf ef af Vf) zs i
    (eos_mix_lnphis_general T P (P * V / (Rgas * T)) (bf zs) (bf zs) 0 (af zs) n
      (GCEOSMIX_db_dns (bf zs) bs n) (GCEOSMIX_da_alpha_dns rows (af zs) n) (RKMIX_ddelta_dns (bf zs) bs n) EpsilonZeroMixingRules_depsilon_dns lnphis i).
Proof.
  intros n T P zs bs M rows Vf lnphis i HT HP Hz HM Hi Hr bf ef af V Hb Hp HV.
  apply (general_lnphis n T P zs bf bf ef af Vf); auto.
  - unfold ef. nra.
  - apply d_lin; auto.
  - apply d_lin; auto.
  - apply (partial_const 0 zs i).
  - eapply partial_eq; [|apply d_quad; auto]. unfold GCEOSMIX_da_alpha_dns. cbv zeta. rewrite Hr by auto. unfold lin_mix, af. ring.
Qed.

Section Translated.
Variables (n : nat) (T P : R) (zs b0s cs : nat -> R) (M : nat -> nat -> R) (Vf : (nat -> R) -> R).
Hypotheses (HT : 0 < T) (HP : 0 < P) (Hz : rsum n zs = 1) (HM : sym n M).
Variable i : nat.
Hypothesis (Hi : (i < n)%nat).

Lemma two_lin (f : R -> R -> R) (g : R) :
  (forall (B C : R -> R) t, is_derive B t (b0s i - lin_mix n zs b0s) -> is_derive C t (cs i - lin_mix n zs cs) -> B t = lin_mix n zs b0s -> C t = lin_mix n zs cs ->
     is_derive (fun x => f (B x) (C x)) t g) ->
  partial (fun ns => f (lin_mix n (fractions n ns) b0s) (lin_mix n (fractions n ns) cs)) zs i g.
Proof.
  intros H. unfold partial. apply (H (fun t => lin_mix n (fractions n (upd zs i t)) b0s) (fun t => lin_mix n (fractions n (upd zs i t)) cs)).
  - apply (d_lin n zs b0s i Hi Hz).
  - apply (d_lin n zs cs i Hi Hz).
  - rewrite upd_self, fractions_one; auto.
  - rewrite upd_self, fractions_one; auto.
Qed.
End Translated.


Lemma lin_mix_sub n z b0s cs : lin_mix n z (fun i => b0s i - cs i) = lin_mix n z b0s - lin_mix n z cs.
Proof. unfold lin_mix. induction n; simpl; [ring|]. rewrite IHn. ring. Qed.

(* PRMIXTranslated (and its subclasses): generic routine with b = b0 - c, delta = 2 (c + b0), eps = -b0^2 + c (c + 2 b0) *)
Theorem C17_PR_translated : forall n T P zs b0s cs M rows Vf lnphis i,
  0 < T -> 0 < P -> rsum n zs = 1 -> sym n M -> (i < n)%nat ->
  (forall k, (k < n)%nat -> rows k = rsum n (fun j => zs j * M k j)) ->
  let b0 := fun z => lin_mix n z b0s in let c := fun z => lin_mix n z cs in
  let bf := fun z => b0 z - c z in let df := fun z => 2 * (c z + b0 z) in let ef := fun z => - (b0 z) ^ 2 + c z * (c z + 2 * b0 z) in
  let af := fun z => quad_mix n z M in let bs := fun k => b0s k - cs k in
  let V := Vf zs in
  0 < b0 zs -> above_poles (bf zs) (df zs) (ef zs) V -> volume_root n T P bf df ef af Vf zs i ->
  partial (n_lnphi n T P bf df ef af Vf) zs i
    (eos_mix_lnphis_general T P (P * V / (Rgas * T)) (bf zs) (df zs) (ef zs) (af zs) n
      (GCEOSMIX_db_dns (bf zs) bs n) (GCEOSMIX_da_alpha_dns rows (af zs) n) (PRMIXTranslated_ddelta_dns n b0s cs (df zs)) (PRMIXTranslated_depsilon_dns (c zs) (bf zs) n b0s cs) lnphis i).
Proof.
  intros n T P zs b0s cs M rows Vf lnphis i HT HP Hz HM Hi Hr b0 c bf df ef af bs V Hb Hp HV.
  apply (general_lnphis n T P zs bf df ef af Vf); auto.
  - unfold df, ef. replace (2 * (c zs + b0 zs) * (2 * (c zs + b0 zs)) - 4 * (- b0 zs ^ 2 + c zs * (c zs + 2 * b0 zs))) with (8 * (b0 zs * b0 zs)) by ring. nra.
  - apply (two_lin n zs b0s cs Hz i Hi (fun B C => B - C)). intros B_ C_ t_ DB DC EB EC. auto_derive; [splits; eexists; eassumption|]. dv DB. dv DC. chR.
    unfold GCEOSMIX_db_dns. cbv zeta. unfold bs, bf, b0, c. ring.
  - apply (two_lin n zs b0s cs Hz i Hi (fun B C => 2 * (C + B))). intros B_ C_ t_ DB DC EB EC. auto_derive; [splits; eexists; eassumption|]. dv DB. dv DC. chR.
    unfold PRMIXTranslated_ddelta_dns, PR_translated_ddelta_dns. cbv zeta.
    match goal with |- _ = loop ?n (fun x_ w => upd w x_ (@?f x_)) ?o i => rewrite (loop_upd_lt n f o i Hi) end. unfold df, b0, c. ring.
  - apply (two_lin n zs b0s cs Hz i Hi (fun B C => - B ^ 2 + C * (C + 2 * B))). intros B_ C_ t_ DB DC EB EC. auto_derive; [splits; eexists; eassumption|]. dv DB. dv DC. chR.
    unfold PRMIXTranslated_depsilon_dns, PR_translated_depsilon_dns. cbv zeta.
    match goal with |- _ = loop ?n (fun x_ w => upd w x_ (@?f x_)) ?o i => rewrite (loop_upd_lt n f o i Hi) end. rewrite EB, EC. unfold bf, b0, c. ring.
  - eapply partial_eq; [|apply d_quad; auto]. unfold GCEOSMIX_da_alpha_dns. cbv zeta. rewrite Hr by auto. unfold lin_mix, af. ring.
Qed.

(* SRKMIXTranslated (and its subclasses): b = b0 - c, delta = b0 + 2 c, eps = c (b0 + c) *)
Theorem C17_SRK_translated : forall n T P zs b0s cs M rows Vf lnphis i,
  0 < T -> 0 < P -> rsum n zs = 1 -> sym n M -> (i < n)%nat ->
  (forall k, (k < n)%nat -> rows k = rsum n (fun j => zs j * M k j)) ->
  let b0 := fun z => lin_mix n z b0s in let c := fun z => lin_mix n z cs in
  let bf := fun z => b0 z - c z in let df := fun z => b0 z + 2 * c z in let ef := fun z => c z * (b0 z + c z) in
  let af := fun z => quad_mix n z M in let bs := fun k => b0s k - cs k in
  let V := Vf zs in
  0 < b0 zs -> above_poles (bf zs) (df zs) (ef zs) V -> volume_root n T P bf df ef af Vf zs i ->
  partial (n_lnphi n T P bf df ef af Vf) zs i
    (eos_mix_lnphis_general T P (P * V / (Rgas * T)) (bf zs) (df zs) (ef zs) (af zs) n
      (GCEOSMIX_db_dns (bf zs) bs n) (GCEOSMIX_da_alpha_dns rows (af zs) n) (SRKMIXTranslated_ddelta_dns n b0s cs (df zs)) (SRKMIXTranslated_depsilon_dns n (bf zs) (c zs) b0s cs) lnphis i).
Proof.
  intros n T P zs b0s cs M rows Vf lnphis i HT HP Hz HM Hi Hr b0 c bf df ef af bs V Hb Hp HV.
  apply (general_lnphis n T P zs bf df ef af Vf); auto.
  - unfold df, ef. replace ((b0 zs + 2 * c zs) * (b0 zs + 2 * c zs) - 4 * (c zs * (b0 zs + c zs))) with (b0 zs * b0 zs) by ring. nra.
  - apply (two_lin n zs b0s cs Hz i Hi (fun B C => B - C)). intros B_ C_ t_ DB DC EB EC. auto_derive; [splits; eexists; eassumption|]. dv DB. dv DC. chR.
    unfold GCEOSMIX_db_dns. cbv zeta. unfold bs, bf, b0, c. ring.
  - apply (two_lin n zs b0s cs Hz i Hi (fun B C => B + 2 * C)). intros B_ C_ t_ DB DC EB EC. auto_derive; [splits; eexists; eassumption|]. dv DB. dv DC. chR.
    unfold SRKMIXTranslated_ddelta_dns, SRK_translated_ddelta_dns. cbv zeta.
    match goal with |- _ = loop ?n (fun x_ w => upd w x_ (@?f x_)) ?o i => rewrite (loop_upd_lt n f o i Hi) end. unfold df, b0, c. ring.
  - apply (two_lin n zs b0s cs Hz i Hi (fun B C => C * (B + C))). intros B_ C_ t_ DB DC EB EC. auto_derive; [splits; eexists; eassumption|]. dv DB. dv DC. chR.
    unfold SRKMIXTranslated_depsilon_dns, SRK_translated_depsilon_dns. cbv zeta.
    match goal with |- _ = loop ?n (fun x_ w => upd w x_ (@?f x_)) ?o i => rewrite (loop_upd_lt n f o i Hi) end. rewrite EB, EC. unfold bf, b0, c. ring.
  - eapply partial_eq; [|apply d_quad; auto]. unfold GCEOSMIX_da_alpha_dns. cbv zeta. rewrite Hr by auto. unfold lin_mix, af. ring.
Qed.

(* ---- the composition average of ln(phi_i) is ln(phi) of the mixture, and a pure component has its own ln(phi) ---- *)
Lemma closed_lnphi T P V b k1 k2 a : 0 < T -> 0 < P -> 0 < b -> 0 < k1 * k1 - 4 * k2 -> above_poles b (k1 * b) (k2 * (b * b)) V ->
  closed T P V b k1 k2 a a b = eos_lnphi T P V b (k1 * b) (k2 * (b * b)) a.
Proof.
  intros HT HP Hb Hk Hp. pose proof Rgas_pos as HR. rewrite lnphi_Kf; auto.
  - unfold closed. cbv zeta. field. splits; lra.
  - replace ((k1 * b) * (k1 * b) - 4 * (k2 * (b * b))) with ((b * b) * (k1 * k1 - 4 * k2)) by ring. apply Rmult_lt_0_compat; nra.
Qed.

Lemma closed_sum n T P V b k1 k2 a r bs zs : rsum n zs = 1 ->
  rsum n (fun i => zs i * closed T P V b k1 k2 a (r i) (bs i)) = closed T P V b k1 k2 a (rsum n (fun i => zs i * r i)) (rsum n (fun i => zs i * bs i)).
Proof.
  intros Hz. unfold closed. cbv zeta. set (Z := P * V / (Rgas * T)). set (L := ln (Z - b * P / (Rgas * T))). set (K := Kf (k1 * b) (k2 * (b * b)) V).
  transitivity ((Z - 1) / b * rsum n (fun i => zs i * bs i) - L * rsum n zs - 2 * K / (Rgas * T) * rsum n (fun i => zs i * r i) + a * K / (b * Rgas * T) * rsum n (fun i => zs i * bs i)).
  - clear Hz. induction n; simpl; [ring|]. rewrite IHn. unfold Rdiv. ring.
  - rewrite Hz. unfold Rdiv. ring.
Qed.

Lemma rows_sum n zs M : rsum n (fun i => zs i * lin_mix n zs (M i)) = quad_mix n zs M.
Proof.
  unfold quad_mix, lin_mix. apply rsum_ext; intros i Hi. rewrite <- rsum_scal_l. apply rsum_ext; intros j Hj. ring.
Qed.

Theorem C17_PR_average : forall n T P zs bs M rows V lnphis,
  0 < T -> 0 < P -> rsum n zs = 1 -> (forall k, (k < n)%nat -> rows k = rsum n (fun j => zs j * M k j)) ->
  let b := lin_mix n zs bs in let a := quad_mix n zs M in
  0 < b -> a <> 0 -> above_poles b (2 * b) (- b ^ 2) V ->
  rsum n (fun i => zs i * PR_lnphis T P (P * V / (Rgas * T)) b a bs rows n lnphis i) = eos_lnphi T P V b (2 * b) (- b ^ 2) a.
Proof.
  intros n T P zs bs M rows V lnphis HT HP Hz Hr b a Hb Ha Hp.
  rewrite (rsum_ext n _ (fun i => zs i * closed T P V b 2 (-1) a (lin_mix n zs (M i)) (bs i))) by (intros i Hi; rewrite PR_closed, Hr by auto; reflexivity).
  rewrite closed_sum, rows_sum by auto. change (rsum n (fun i => zs i * bs i)) with b. fold a.
  replace (- b ^ 2) with (-1 * (b * b)) in * by ring. apply closed_lnphi; auto; lra.
Qed.

Theorem C17_SRK_average : forall n T P zs bs M rows V lnphis,
  0 < T -> 0 < P -> rsum n zs = 1 -> (forall k, (k < n)%nat -> rows k = rsum n (fun j => zs j * M k j)) ->
  let b := lin_mix n zs bs in let a := quad_mix n zs M in
  0 < b -> a <> 0 -> above_poles b b 0 V ->
  rsum n (fun i => zs i * SRK_lnphis T P (P * V / (Rgas * T)) b a bs rows n lnphis i) = eos_lnphi T P V b b 0 a.
Proof.
  intros n T P zs bs M rows V lnphis HT HP Hz Hr b a Hb Ha Hp.
  rewrite (rsum_ext n _ (fun i => zs i * closed T P V b 1 0 a (lin_mix n zs (M i)) (bs i))) by (intros i Hi; rewrite SRK_closed, Hr by auto; reflexivity).
  rewrite closed_sum, rows_sum by auto. change (rsum n (fun i => zs i * bs i)) with b. fold a.
  rewrite closed_lnphi; rewrite ?Rmult_1_l, ?Rmult_0_l; auto; lra.
Qed.

Theorem C17_PR_pure : forall n T P zs bs M rows V lnphis i,
  0 < T -> 0 < P -> (i < n)%nat -> only n zs i -> (forall k, (k < n)%nat -> rows k = rsum n (fun j => zs j * M k j)) ->
  0 < bs i -> M i i <> 0 -> above_poles (bs i) (2 * bs i) (- bs i ^ 2) V ->
  PR_lnphis T P (P * V / (Rgas * T)) (lin_mix n zs bs) (quad_mix n zs M) bs rows n lnphis i = eos_lnphi T P V (bs i) (2 * bs i) (- bs i ^ 2) (M i i).
Proof.
  intros n T P zs bs M rows V lnphis i HT HP Hi Ho Hr Hb Ha Hp. rewrite (lin_mix_only n zs bs i), (quad_mix_only n zs M i) by auto.
  rewrite PR_closed by auto. rewrite Hr by auto. change (rsum n (fun j => zs j * M i j)) with (lin_mix n zs (M i)). rewrite (lin_mix_only n zs (M i) i) by auto.
  replace (- bs i ^ 2) with (-1 * (bs i * bs i)) in * by ring. apply closed_lnphi; auto; lra.
Qed.

Theorem C17_SRK_pure : forall n T P zs bs M rows V lnphis i,
  0 < T -> 0 < P -> (i < n)%nat -> only n zs i -> (forall k, (k < n)%nat -> rows k = rsum n (fun j => zs j * M k j)) ->
  0 < bs i -> M i i <> 0 -> above_poles (bs i) (bs i) 0 V ->
  SRK_lnphis T P (P * V / (Rgas * T)) (lin_mix n zs bs) (quad_mix n zs M) bs rows n lnphis i = eos_lnphi T P V (bs i) (bs i) 0 (M i i).
Proof.
  intros n T P zs bs M rows V lnphis i HT HP Hi Ho Hr Hb Ha Hp. rewrite (lin_mix_only n zs bs i), (quad_mix_only n zs M i) by auto.
  rewrite SRK_closed by auto. rewrite Hr by auto. change (rsum n (fun j => zs j * M i j)) with (lin_mix n zs (M i)). rewrite (lin_mix_only n zs (M i) i) by auto.
  rewrite closed_lnphi; rewrite ?Rmult_1_l, ?Rmult_0_l; auto; lra.
Qed.

(* the generic routine: any parameter derivatives whose composition averages vanish (as mole-number derivatives of
   functions of the mole fractions do) *)
Theorem C17_general_average : forall n T P zs b d e a V db dd de da lnphis,
  0 < T -> 0 < P -> rsum n zs = 1 -> 0 < d * d - 4 * e -> above_poles b d e V -> P_cubic (fun _ => a) b d e T V = P ->
  rsum n (fun i => zs i * db i) = 0 -> rsum n (fun i => zs i * dd i) = 0 -> rsum n (fun i => zs i * de i) = 0 -> rsum n (fun i => zs i * da i) = 0 ->
  rsum n (fun i => zs i * eos_mix_lnphis_general T P (P * V / (Rgas * T)) b d e a n db da dd de lnphis i) = eos_lnphi T P V b d e a.
Proof.
  intros n T P zs b d e a V db dd de da lnphis HT HP Hz HD Hp HE B0 D0 E0 A0. pose proof Rgas_pos as HR.
  set (L := eos_lnphi T P V b d e a).
  rewrite (rsum_ext n _ (fun i => zs i * (L + dlnf T P V b d e a 0 (db i) (dd i) (de i) (da i)))).
  - transitivity (L * rsum n zs + dlnf T P V b d e a 0 (rsum n (fun i => zs i * db i)) (rsum n (fun i => zs i * dd i)) (rsum n (fun i => zs i * de i)) (rsum n (fun i => zs i * da i))).
    + clear. induction n; simpl; [unfold dlnf, Rdiv; ring|]. rewrite IHn. unfold dlnf, Rdiv. ring.
    + rewrite Hz, B0, D0, E0, A0. unfold dlnf, Rdiv. ring.
  - intros i Hi. f_equal. unfold eos_mix_lnphis_general. cbv zeta.
    match goal with |- loop ?n (fun x_ w => upd w x_ (@?f x_)) ?o i = _ => rewrite (loop_upd_lt n f o i Hi) end.
    assert (E1 : P * V / (Rgas * T) * Rgas * T / P = V) by (field; splits; lra).
    assert (E2 : P * V / (Rgas * T) * (Rgas * T) / P = V) by (field; splits; lra).
    rewrite E1. unfold L. f_equal.
    assert (HV2 : above_poles b d e (P * V / (Rgas * T) * (Rgas * T) / P)) by (rewrite E2; auto).
    rewrite (proj1 (helper_entry T P b d e a n (P * V / (Rgas * T)) db de dd _ da _ i Hi HT HP HD HV2)). destruct Hp as [Hb Hs].
    rewrite E2. apply dlnf_on_eos; auto; try lra. apply Rgt_not_eq. apply (Kf_Q_pos d e V); auto.
Qed.

(* eos_mix_dV_dzs: the mole-number derivative of the molar volume at fixed T and P *)
Theorem C17_volume_derivative : forall n T P zs (bf df ef af Vf : (nat -> R) -> R) db dd de da i out,
  0 < T -> 0 < P -> rsum n zs = 1 -> (i < n)%nat ->
  partial (fun ns => bf (fractions n ns)) zs i (db i) -> partial (fun ns => df (fractions n ns)) zs i (dd i) ->
  partial (fun ns => ef (fractions n ns)) zs i (de i) -> partial (fun ns => af (fractions n ns)) zs i (da i) ->
  let b := bf zs in let d := df zs in let e := ef zs in let a := af zs in let V := Vf zs in
  0 < d * d - 4 * e -> above_poles b d e V -> volume_root n T P bf df ef af Vf zs i ->
  Derive (fun v => P_cubic (fun _ => a) b d e T v) V <> 0 ->
  partial Vf zs i (eos_mix_dV_dzs T P (P * V / (Rgas * T)) b d e a db dd de da n out i).
Proof.
  intros n T P zs bf df ef af Vf db dd de da i out HT HP Hz Hi Db Dd De Da b d e a V HD Hp HV Hn.
  apply (general_dV n T P zs bf df ef af Vf); auto. destruct Hp as [Hb Hs]. pose proof (Kf_Q_pos d e V HD Hs) as HQ.
  fold b d e a V. intros E. apply Hn. apply is_derive_unique. unfold P_cubic. auto_derive; [splits; auto; apply Rgt_not_eq; lra|].
  rewrite <- E. field. split; apply Rgt_not_eq; lra.
Qed.

(* ---- which volume root the *_fastest routines use ---- *)
Definition candidate (b : R) (Vs : R * R * R) (v : R) : Prop :=
  let '(V0, V1, V2) := Vs in v = V0 \/ (V1 <> 0 /\ b < v /\ (v = V1 \/ v = V2)).

Ltac cand := solve [left; reflexivity | right; splits; auto].
Ltac cases := repeat match goal with
  | |- context [Rltb ?x ?y] => is_var x; is_var y; destruct (Rltb_spec x y); cbn [andb]; cbv iota
  end.

(* Only one root (V1 = 0), or the smallest physical one for a liquid, the largest for a gas, and for both the one of the
   two with the lower departure Gibbs energy. *)
Theorem C17_fastest_root : forall g l T P zs omk b d e al ar rows0 vec0 n vs,
  0 < T -> 0 < P ->
  let '(Z, a, rows) := eos_mix_a_alpha_volume g l T P zs omk b d e al ar rows0 vec0 n vs in
  let Vs := vs T P b d e a in
  let V := Z * (Rgas * T) / P in
  (a, rows) = a_alpha_quadratic_terms al ar T zs omk rows0 vec0 n /\
  candidate b Vs V /\
  (g = false -> forall v, candidate b Vs v -> V <= v) /\
  (l = false -> g = true -> forall v, candidate b Vs v -> v <= V) /\
  (l = true -> g = true -> exists lo hi, candidate b Vs lo /\ candidate b Vs hi /\
     (forall v, candidate b Vs v -> lo <= v <= hi) /\ (V = lo \/ V = hi) /\
     eos_G_dep T P V b d e a <= eos_G_dep T P lo b d e a /\ eos_G_dep T P V b d e a <= eos_G_dep T P hi b d e a).
Proof.
  intros g l T P zs omk b d e al ar rows0 vec0 n vs HT HP. pose proof Rgas_pos as HR.
  unfold eos_mix_a_alpha_volume. destruct (a_alpha_quadratic_terms al ar T zs omk rows0 vec0 n) as [a rows] eqn:EA.
  destruct (vs T P b d e a) as [[V0 V1] V2] eqn:EV.
  assert (EZ : forall v, P * v / (Rgas * T) * (Rgas * T) / P = v) by (intros; field; splits; lra).
  cbv zeta. rewrite EV, EZ. split; [auto|]. unfold candidate.
  destruct (Reqb_spec V1 0) as [E1|E1]; cbn [negb]; cbv iota.
  - rewrite (Reqb_true V0 V0) by auto. cbn [negb]. destruct l, g; cbn [andb negb]; cbv iota;
      (splits; [auto| | |]; try (intros; discriminate)); try (intros _ v [->|(H & _)]; [lra|contradiction]).
    + intros _ _. exists V0, V0. splits; auto; try lra. intros v [->|(H & _)]; [lra|contradiction].
    + intros _ _ v [->|(H & _)]; [lra|contradiction].
  - destruct l, g; cbn [andb negb]; cbv iota.
    + set (lo := if Rltb V2 (if Rltb V1 V0 && Rltb b V1 then V1 else V0) && Rltb b V2 then V2 else if Rltb V1 V0 && Rltb b V1 then V1 else V0).
      set (hi := if Rltb (if Rltb V0 V1 && Rltb b V1 then V1 else V0) V2 && Rltb b V2 then V2 else if Rltb V0 V1 && Rltb b V1 then V1 else V0).
      assert (C : (lo = V0 \/ V1 <> 0 /\ b < lo /\ (lo = V1 \/ lo = V2)) /\ (hi = V0 \/ V1 <> 0 /\ b < hi /\ (hi = V1 \/ hi = V2)) /\
        (forall v, v = V0 \/ V1 <> 0 /\ b < v /\ (v = V1 \/ v = V2) -> lo <= v <= hi)).
      { unfold lo, hi. clear lo hi. cases; (splits; [cand|cand|]); intros v [->|(_ & Hb & [->| ->])]; lra. }
      destruct C as (C1 & C2 & C3).
      destruct (Reqb_spec lo hi) as [EL|EL]; cbn [negb]; cbv iota.
      * splits; auto; try (intros; discriminate). intros _ _. exists lo, hi. assert (V0 = lo) by (destruct (C3 V0 (or_introl eq_refl)); lra).
        splits; auto; rewrite <- ?EL; rewrite <- H; lra.
      * destruct (Rltb_spec (eos_G_dep T P lo b d e a) (eos_G_dep T P hi b d e a)); (splits; auto; try (intros; discriminate)); intros _ _; exists lo, hi; splits; auto; lra.
    + cases; (splits; [cand| | |]; try (intros; discriminate)); intros _ v [->|(_ & Hb & [->| ->])]; lra.
    + cases; (splits; [cand| | |]; try (intros; discriminate)); intros _ _ v [->|(_ & Hb & [->| ->])]; lra.
    + cases; (splits; [cand| | |]; try (intros; discriminate)); intros _ v [->|(_ & Hb & [->| ->])]; lra.
Qed.

(* ---- the *_fastest routines: from pure-component a_alphas and the k_ij matrix to ln(phi_i) ---- *)
Lemma lin_loop_comm n (b z : nat -> R) : loop n (fun i s => s + b i * z i) 0 = lin_mix n z b.
Proof. rewrite (loop_rsum n (fun i => b i * z i)). unfold lin_mix. rewrite Rplus_0_l. apply rsum_ext; intros; ring. Qed.

Lemma lin_loop2_comm n (b c z : nat -> R) : loop n (fun i (st_ : R * R) => let '(s, t) := st_ in (s + b i * z i, t + c i * z i)) (0, 0) = (lin_mix n z b, lin_mix n z c).
Proof. rewrite (loop_pair n (fun i s => s + b i * z i) (fun i s => s + c i * z i)). rewrite !lin_loop_comm. reflexivity. Qed.

(* Vf is a differentiable root of the EOS and goes through the root the routine selects *)
Definition selected (g l : bool) (T P : R) (zs : nat -> R) (omk : nat -> nat -> R) (b d e : R) (al rows0 vec0 : nat -> R) (n : nat)
    (vs : R -> R -> R -> R -> R -> R -> R * R * R) (V : R) : Prop :=
  c1 (eos_mix_a_alpha_volume g l T P zs omk b d e al (fun i => sqrt (al i)) rows0 vec0 n vs) * (Rgas * T) / P = V.

Lemma volume_facts g l T P zs omk b d e al rows0 vec0 n vs V :
  0 < T -> 0 < P -> (forall k, (k < n)%nat -> 0 <= al k) -> sym n omk -> selected g l T P zs omk b d e al rows0 vec0 n vs V ->
  exists rows, eos_mix_a_alpha_volume g l T P zs omk b d e al (fun i => sqrt (al i)) rows0 vec0 n vs = (P * V / (Rgas * T), quad_mix n zs (pair_a al omk), rows) /\
    forall k, (k < n)%nat -> rows k = rsum n (fun j => zs j * pair_a al omk k j).
Proof.
  intros HT HP Ha Hk Hs. pose proof Rgas_pos as HR. unfold selected in Hs.
  pose proof (C17_fastest_root g l T P zs omk b d e al (fun i => sqrt (al i)) rows0 vec0 n vs HT HP) as F.
  pose proof (C14_quadratic_terms n al T zs omk rows0 vec0 Ha Hk) as Q.
  destruct (eos_mix_a_alpha_volume _ _ _ _ _ _ _ _ _ _ _ _ _ _ _) as [[Z a] rows]. destruct F as (F & _). rewrite <- F in Q. destruct Q as [Q1 Q2].
  exists rows. split; auto. f_equal. f_equal; auto. unfold c1 in Hs. simpl in Hs. rewrite <- Hs. field. splits; lra.
Qed.

Lemma pair_sym n al omk : sym n omk -> sym n (pair_a al omk).
Proof. intros H i j Hi Hj. unfold pair_a. rewrite (H i j Hi Hj). f_equal. f_equal. ring. Qed.

Theorem C17_PR_fastest : forall n T P zs bs al omk l g rows0 vec0 lnphis vs Vf i,
  0 < T -> 0 < P -> rsum n zs = 1 -> (i < n)%nat -> (forall k, (k < n)%nat -> 0 <= al k) -> sym n omk ->
  let bf := fun z => lin_mix n z bs in let df := fun z => 2 * lin_mix n z bs in
  let ef := fun z => - (lin_mix n z bs) ^ 2 in let af := fun z => quad_mix n z (pair_a al omk) in
  0 < bf zs -> af zs <> 0 -> above_poles (bf zs) (df zs) (ef zs) (Vf zs) -> volume_root n T P bf df ef af Vf zs i ->
  selected g l T P zs omk (bf zs) (df zs) (ef zs) al rows0 vec0 n vs (Vf zs) ->
  partial (n_lnphi n T P bf df ef af Vf) zs i
    (PR_lnphis_fastest zs T P n omk l g bs al (fun k => sqrt (al k)) rows0 vec0 lnphis vs i).
Proof.
  intros n T P zs bs al omk l g rows0 vec0 lnphis vs Vf i HT HP Hz Hi Ha Hk bf df ef af Hb Ha0 Hp HV HS.
  unfold PR_lnphis_fastest. cbv zeta. rewrite lin_loop_comm. fold (bf zs).
  replace (- bf zs * bf zs) with (ef zs) by (unfold ef, bf; ring). change (2 * bf zs) with (df zs).
  destruct (volume_facts _ _ _ _ _ _ _ _ _ _ _ _ _ _ _ HT HP Ha Hk HS) as (rows & -> & Hr).
  apply C17_PR; auto. apply pair_sym; auto.
Qed.

Theorem C17_SRK_fastest : forall n T P zs bs al omk l g rows0 vec0 lnphis vs Vf i,
  0 < T -> 0 < P -> rsum n zs = 1 -> (i < n)%nat -> (forall k, (k < n)%nat -> 0 <= al k) -> sym n omk ->
  let bf := fun z => lin_mix n z bs in let ef := fun _ : nat -> R => 0 in let af := fun z => quad_mix n z (pair_a al omk) in
  0 < bf zs -> af zs <> 0 -> above_poles (bf zs) (bf zs) (ef zs) (Vf zs) -> volume_root n T P bf bf ef af Vf zs i ->
  selected g l T P zs omk (bf zs) (bf zs) (ef zs) al rows0 vec0 n vs (Vf zs) ->
  partial (n_lnphi n T P bf bf ef af Vf) zs i
    (SRK_lnphis_fastest zs T P n omk l g bs al (fun k => sqrt (al k)) rows0 vec0 lnphis vs i).
Proof.
  intros n T P zs bs al omk l g rows0 vec0 lnphis vs Vf i HT HP Hz Hi Ha Hk bf ef af Hb Ha0 Hp HV HS.
  unfold SRK_lnphis_fastest. cbv zeta. rewrite lin_loop_comm. fold (bf zs).
  change (ef zs) with 0 in HS.
  destruct (volume_facts _ _ _ _ _ _ _ _ _ _ _ _ _ _ _ HT HP Ha Hk HS) as (rows & -> & Hr).
  apply C17_SRK; auto. apply pair_sym; auto.
Qed.

Lemma db_entry b bs n out i : (i < n)%nat -> eos_mix_db_dns b bs n out i = bs i - b.
Proof. intros Hi. unfold eos_mix_db_dns. cbv zeta. apply (loop_upd_lt n (fun i => bs i - b)); auto. Qed.
Lemma da_entry a rows n out i : (i < n)%nat -> eos_mix_da_alpha_dns a rows n out i = 2 * rows i + - 2 * a.
Proof. intros Hi. unfold eos_mix_da_alpha_dns. cbv zeta. apply (loop_upd_lt n (fun i => 2 * rows i + - 2 * a)); auto. Qed.

Theorem C17_RK_fastest : forall n T P zs bs al omk l g rows0 vec0 lnphis vs Vf i,
  0 < T -> 0 < P -> rsum n zs = 1 -> (i < n)%nat -> (forall k, (k < n)%nat -> 0 <= al k) -> sym n omk ->
  let bf := fun z => lin_mix n z bs in let ef := fun _ : nat -> R => 0 in let af := fun z => quad_mix n z (pair_a al omk) in
  0 < bf zs -> above_poles (bf zs) (bf zs) (ef zs) (Vf zs) -> volume_root n T P bf bf ef af Vf zs i ->
  selected g l T P zs omk (bf zs) (bf zs) (ef zs) al rows0 vec0 n vs (Vf zs) ->
  partial (n_lnphi n T P bf bf ef af Vf) zs i
    (RK_lnphis_fastest zs T P n omk l g bs al (fun k => sqrt (al k)) rows0 vec0 lnphis vs i).
Proof.
  intros n T P zs bs al omk l g rows0 vec0 lnphis vs Vf i HT HP Hz Hi Ha Hk bf ef af Hb Hp HV HS.
  unfold RK_lnphis_fastest. cbv zeta. rewrite lin_loop_comm. fold (bf zs).
  change (ef zs) with 0 in HS.
  destruct (volume_facts _ _ _ _ _ _ _ _ _ _ _ _ _ _ _ HT HP Ha Hk HS) as (rows & -> & Hr).
  apply (general_lnphis n T P zs bf bf ef af Vf); auto.
  - unfold ef. nra.
  - rewrite db_entry by auto. apply d_lin; auto.
  - rewrite db_entry by auto. apply d_lin; auto.
  - apply (partial_const 0 zs i).
  - rewrite da_entry, Hr by auto. eapply partial_eq; [|apply d_quad; auto; apply pair_sym; auto]. unfold lin_mix. ring.
Qed.

Theorem C17_PR_translated_fastest : forall n T P zs b0s cs bs al omk l g rows0 vec0 lnphis vs Vf i,
  0 < T -> 0 < P -> rsum n zs = 1 -> (i < n)%nat -> (forall k, (k < n)%nat -> 0 <= al k) -> sym n omk -> (forall k, (k < n)%nat -> bs k = b0s k - cs k) ->
  let b0 := fun z => lin_mix n z b0s in let c := fun z => lin_mix n z cs in
  let bf := fun z => b0 z - c z in let df := fun z => 2 * (c z + b0 z) in let ef := fun z => - (b0 z) ^ 2 + c z * (c z + 2 * b0 z) in
  let af := fun z => quad_mix n z (pair_a al omk) in
  0 < b0 zs -> above_poles (bf zs) (df zs) (ef zs) (Vf zs) -> volume_root n T P bf df ef af Vf zs i ->
  selected g l T P zs omk (bf zs) (df zs) (ef zs) al rows0 vec0 n vs (Vf zs) ->
  partial (n_lnphi n T P bf df ef af Vf) zs i
    (PR_translated_lnphis_fastest zs T P n omk l g b0s bs cs al (fun k => sqrt (al k)) rows0 vec0 lnphis vs i).
Proof.
  intros n T P zs b0s cs bs al omk l g rows0 vec0 lnphis vs Vf i HT HP Hz Hi Ha Hk Hbs b0 c bf df ef af Hb Hp HV HS.
  unfold PR_translated_lnphis_fastest. cbv zeta. rewrite lin_loop2_comm. fold (b0 zs) (c zs).
  replace (- b0 zs * b0 zs + c zs * (c zs + b0 zs + b0 zs)) with (ef zs) by (unfold ef; ring). change (2 * (c zs + b0 zs)) with (df zs). change (b0 zs - c zs) with (bf zs).
  destruct (volume_facts _ _ _ _ _ _ _ _ _ _ _ _ _ _ _ HT HP Ha Hk HS) as (rows & -> & Hr).
  apply (general_lnphis n T P zs bf df ef af Vf); auto.
  - unfold df, ef. replace (2 * (c zs + b0 zs) * (2 * (c zs + b0 zs)) - 4 * (- b0 zs ^ 2 + c zs * (c zs + 2 * b0 zs))) with (8 * (b0 zs * b0 zs)) by ring. nra.
  - rewrite db_entry, Hbs by auto. apply (two_lin n zs b0s cs Hz i Hi (fun B C => B - C)). intros B_ C_ t_ DB DC EB EC. auto_derive; [splits; eexists; eassumption|]. dv DB. dv DC. chR.
    unfold bf, b0, c. ring.
  - apply (two_lin n zs b0s cs Hz i Hi (fun B C => 2 * (C + B))). intros B_ C_ t_ DB DC EB EC. auto_derive; [splits; eexists; eassumption|]. dv DB. dv DC. chR.
    unfold PR_translated_ddelta_dns. cbv zeta.
    match goal with |- _ = loop ?n (fun x_ w => upd w x_ (@?f x_)) ?o i => rewrite (loop_upd_lt n f o i Hi) end. unfold df, b0, c. ring.
  - apply (two_lin n zs b0s cs Hz i Hi (fun B C => - B ^ 2 + C * (C + 2 * B))). intros B_ C_ t_ DB DC EB EC. auto_derive; [splits; eexists; eassumption|]. dv DB. dv DC. chR.
    unfold PR_translated_depsilon_dns. cbv zeta.
    match goal with |- _ = loop ?n (fun x_ w => upd w x_ (@?f x_)) ?o i => rewrite (loop_upd_lt n f o i Hi) end. rewrite EB, EC. unfold bf, b0, c. ring.
  - rewrite da_entry, Hr by auto. eapply partial_eq; [|apply d_quad; auto; apply pair_sym; auto]. unfold lin_mix, af. ring.
Qed.

Theorem C17_SRK_translated_fastest : forall n T P zs b0s cs bs al omk l g rows0 vec0 lnphis vs Vf i,
  0 < T -> 0 < P -> rsum n zs = 1 -> (i < n)%nat -> (forall k, (k < n)%nat -> 0 <= al k) -> sym n omk -> (forall k, (k < n)%nat -> bs k = b0s k - cs k) ->
  let b0 := fun z => lin_mix n z b0s in let c := fun z => lin_mix n z cs in
  let bf := fun z => b0 z - c z in let df := fun z => b0 z + 2 * c z in let ef := fun z => c z * (b0 z + c z) in
  let af := fun z => quad_mix n z (pair_a al omk) in
  0 < b0 zs -> above_poles (bf zs) (df zs) (ef zs) (Vf zs) -> volume_root n T P bf df ef af Vf zs i ->
  selected g l T P zs omk (bf zs) (df zs) (ef zs) al rows0 vec0 n vs (Vf zs) ->
  partial (n_lnphi n T P bf df ef af Vf) zs i
    (SRK_translated_lnphis_fastest zs T P n omk l g b0s bs cs al (fun k => sqrt (al k)) rows0 vec0 lnphis vs i).
Proof.
  intros n T P zs b0s cs bs al omk l g rows0 vec0 lnphis vs Vf i HT HP Hz Hi Ha Hk Hbs b0 c bf df ef af Hb Hp HV HS.
  unfold SRK_translated_lnphis_fastest. cbv zeta. rewrite lin_loop2_comm. fold (b0 zs) (c zs).
  replace (c zs + c zs + b0 zs) with (df zs) by (unfold df; ring). change (b0 zs - c zs) with (bf zs). change (c zs * (b0 zs + c zs)) with (ef zs).
  destruct (volume_facts _ _ _ _ _ _ _ _ _ _ _ _ _ _ _ HT HP Ha Hk HS) as (rows & -> & Hr).
  apply (general_lnphis n T P zs bf df ef af Vf); auto.
  - unfold df, ef. replace ((b0 zs + 2 * c zs) * (b0 zs + 2 * c zs) - 4 * (c zs * (b0 zs + c zs))) with (b0 zs * b0 zs) by ring. nra.
  - rewrite db_entry, Hbs by auto. apply (two_lin n zs b0s cs Hz i Hi (fun B C => B - C)). intros B_ C_ t_ DB DC EB EC. auto_derive; [splits; eexists; eassumption|]. dv DB. dv DC. chR.
    unfold bf, b0, c. ring.
  - apply (two_lin n zs b0s cs Hz i Hi (fun B C => B + 2 * C)). intros B_ C_ t_ DB DC EB EC. auto_derive; [splits; eexists; eassumption|]. dv DB. dv DC. chR.
    unfold SRK_translated_ddelta_dns. cbv zeta.
    match goal with |- _ = loop ?n (fun x_ w => upd w x_ (@?f x_)) ?o i => rewrite (loop_upd_lt n f o i Hi) end. unfold df, b0, c. ring.
  - apply (two_lin n zs b0s cs Hz i Hi (fun B C => C * (B + C))). intros B_ C_ t_ DB DC EB EC. auto_derive; [splits; eexists; eassumption|]. dv DB. dv DC. chR.
    unfold SRK_translated_depsilon_dns. cbv zeta.
    match goal with |- _ = loop ?n (fun x_ w => upd w x_ (@?f x_)) ?o i => rewrite (loop_upd_lt n f o i Hi) end. rewrite EB, EC. unfold bf, b0, c. ring.
  - rewrite da_entry, Hr by auto. eapply partial_eq; [|apply d_quad; auto; apply pair_sym; auto]. unfold lin_mix, af. ring.
Qed.

(* ---- van der Waals ---- *)
(* ln(phi) of a van der Waals fluid: departure Gibbs energy over R T *)
Definition lnphi_VDW (T P V b a : R) : R :=
  let m := main_derivatives_and_departures_VDW T P V b 0 0 a 0 0 in (out_H m - T * out_S m) / (Rgas * T).
Definition n_lnphi_VDW (n : nat) (T P : R) (bf af Vf : (nat -> R) -> R) (ns : nat -> R) : R :=
  let x := fractions n ns in rsum n ns * lnphi_VDW T P (Vf ns) (bf x) (af x).

(* the true derivative, for any symmetric pair matrix *)
Lemma VDW_partial n T P zs bs M Vf i : 0 < T -> 0 < P -> rsum n zs = 1 -> sym n M -> (i < n)%nat ->
  let bf := fun z => lin_mix n z bs in let af := fun z => quad_mix n z M in let V := Vf zs in
  0 < V -> bf zs < V -> volume_root n T P bf (fun _ => 0) (fun _ => 0) af Vf zs i ->
  partial (n_lnphi_VDW n T P bf af Vf) zs i
   (bs i / (V - bf zs) - ln (P * V / (Rgas * T) * (1 - bf zs / V)) - 2 * lin_mix n zs (M i) / (Rgas * T * V)).
Proof.
  intros HT HP Hz HM Hi bf af V HV0 HVb HV. pose proof Rgas_pos as HR.
  pose proof (eos_here n T P zs bf (fun _ => 0) (fun _ => 0) af Vf Hz i HV) as EE. cbv beta in EE. fold V in EE. unfold P_cubic in EE.
  destruct HV as [[v' Dv] _]. pose proof (d_lin n zs bs i Hi Hz) as Db. pose proof (d_quad n zs M i Hi Hz HM) as Da. unfold partial in Db, Da.
  fold (bf zs) in Db. fold (af zs) in Da.
  assert (HZ : 0 < P * V / (Rgas * T)) by (apply Rdiv_lt_0_compat; apply Rmult_lt_0_compat; lra).
  assert (HB : 0 < 1 - bf zs / V). { replace (1 - bf zs / V) with ((V - bf zs) / V) by (field; lra). apply Rdiv_lt_0_compat; lra. }
  assert (EL : forall v b a, 0 < v -> b < v -> lnphi_VDW T P v b a = P * v / (Rgas * T) - 1 - a / (Rgas * T * v) - ln (P * v / (Rgas * T) * (1 - b / v))).
  { intros v b a H1 H2. unfold lnphi_VDW, main_derivatives_and_departures_VDW, out_H, out_S. cbv zeta beta iota.
    assert (0 < P * v / (Rgas * T)) by (apply Rdiv_lt_0_compat; apply Rmult_lt_0_compat; lra).
    replace (1 - b / v) with ((v - b) * / v) by (field; lra).
    rewrite ln_mult, ln_mult, ln_Rinv; auto; try lra; try (apply Rinv_0_lt_compat; auto).
    - field. splits; lra.
    - apply Rmult_lt_0_compat; [lra|apply Rinv_0_lt_compat; auto]. }
  set (v := fun t => Vf (upd zs i t)) in *. set (b := fun t => bf (fractions n (upd zs i t))) in *. set (a := fun t => af (fractions n (upd zs i t))) in *.
  assert (Ev : v (zs i) = V) by (unfold v; rewrite upd_self; auto).
  assert (Eb : b (zs i) = bf zs) by (unfold b; rewrite upd_self, fractions_one; auto).
  assert (Ea : a (zs i) = af zs) by (unfold a; rewrite upd_self, fractions_one; auto).
  change (is_derive v (zs i) v') in Dv. change (is_derive b (zs i) (bs i - bf zs)) in Db. change (is_derive a (zs i) (2 * lin_mix n zs (M i) - 2 * af zs)) in Da.
  assert (D1 : partial (fun ns => lnphi_VDW T P (Vf ns) (bf (fractions n ns)) (af (fractions n ns))) zs i
     ((bs i - bf zs) / (V - bf zs) - (2 * lin_mix n zs (M i) - 2 * af zs) / (Rgas * T * V))).
  { unfold partial. change (is_derive (fun t => lnphi_VDW T P (v t) (b t) (a t)) (zs i) ((bs i - bf zs) / (V - bf zs) - (2 * lin_mix n zs (M i) - 2 * af zs) / (Rgas * T * V))).
    unfold lnphi_VDW, main_derivatives_and_departures_VDW, out_H, out_S. cbv zeta beta iota.
    clearbody v b a. auto_derive.
    - splits; try (eexists; eassumption); rewrite ?Ev, ?Eb; auto; try lra; try (apply Rgt_not_eq; lra).
    - dv Dv. dv Db. dv Da. chR. rewrite Ev, Eb, Ea. 
      assert (EA : af zs = (Rgas * T / (V - bf zs) - P) * (V * V)). { rewrite <- EE. field. splits; lra. }
      rewrite EA. field. splits; try lra. }
  unfold n_lnphi_VDW. cbv zeta.
  eapply partial_eq; [|apply (partial_mult (fun ns => rsum n ns) (fun ns => lnphi_VDW T P (Vf ns) (bf (fractions n ns)) (af (fractions n ns))) zs i 1); [apply (partial_S n); auto|exact D1]].
  cbv beta. rewrite (fractions_one n zs Hz), Hz. fold V. rewrite EL by auto.
  assert (EA : af zs = (Rgas * T / (V - bf zs) - P) * (V * V)). { rewrite <- EE. field. splits; lra. }
  generalize (ln (P * V / (Rgas * T) * (1 - bf zs / V))). intros L. rewrite EA. field. splits; lra.
Qed.

Lemma VDW_entry n T P V b a bs ar lnphis i : 0 < T -> 0 < P -> (i < n)%nat -> 0 < V ->
  VDW_lnphis T P (P * V / (Rgas * T)) b a bs ar n lnphis i = bs i / (V - b) - ln (P * V / (Rgas * T) * (1 - b / V)) - 2 * (sqrt a * ar i) / (Rgas * T * V).
Proof.
  intros HT HP Hi HV. pose proof Rgas_pos as HR. unfold VDW_lnphis. cbv zeta.
  match goal with |- loop ?n (fun x_ w => upd w x_ (@?f x_)) ?o i = _ => rewrite (loop_upd_lt n f o i Hi) end.
  assert (E1 : P * V / (Rgas * T) * Rgas * T / P = V) by (field; splits; lra). rewrite E1. unfold Rdiv. ring.
Qed.

(* VDWMIX.fugacity_coefficients without interaction parameters *)
Theorem C17_VDW : forall n T P zs bs al Vf lnphis i,
  0 < T -> 0 < P -> rsum n zs = 1 -> (forall k, (k < n)%nat -> 0 <= zs k) -> (forall k, (k < n)%nat -> 0 <= al k) -> (i < n)%nat ->
  let bf := fun z => lin_mix n z bs in let af := fun z => quad_mix n z (pair_a al (fun _ _ => 1)) in let V := Vf zs in
  0 < V -> bf zs < V -> volume_root n T P bf (fun _ => 0) (fun _ => 0) af Vf zs i ->
  partial (n_lnphi_VDW n T P bf af Vf) zs i (VDW_lnphis T P (P * V / (Rgas * T)) (bf zs) (af zs) bs (fun k => sqrt (al k)) n lnphis i).
Proof.
  intros n T P zs bs al Vf lnphis i HT HP Hz Hz0 Ha Hi bf af V HV0 HVb HV.
  rewrite VDW_entry by auto. eapply partial_eq; [|apply (VDW_partial n T P zs bs (pair_a al (fun _ _ => 1)) Vf i); auto; apply pair_sym; intros j k _ _; auto].
  fold V. unfold bf.
  set (s := rsum n (fun j => zs j * sqrt (al j))).
  assert (Hs : 0 <= s) by (apply rsum_nonneg; intros j Hj; apply Rmult_le_pos; [auto|apply sqrt_pos]).
  assert (ER : lin_mix n zs (pair_a al (fun _ _ => 1) i) = sqrt (al i) * s).
  { unfold lin_mix, s. rewrite <- rsum_scal_l. apply rsum_ext; intros j Hj. unfold pair_a. rewrite sqrt_mult by auto. ring. }
  assert (EA : af zs = s * s).
  { unfold af, quad_mix, s. rewrite <- rsum_scal_r. apply rsum_ext; intros j Hj. rewrite <- rsum_scal_l. apply rsum_ext; intros k Hk. unfold pair_a. rewrite sqrt_mult by auto. ring. }
  rewrite ER, EA, sqrt_square by auto. unfold Rdiv. ring.
Qed.

(* With a non-zero interaction parameter it is not the derivative: the routine uses sqrt(a_alpha) sqrt(a_i) in place of
   sum_j z_j (1 - k_ij) sqrt(a_i a_j). *)
Theorem C17_VDW_kij_refuted : exists T P zs bs al omk Vf,
  0 < T /\ 0 < P /\ rsum 2 zs = 1 /\ (forall k, (k < 2)%nat -> 0 < zs k) /\ (forall k, (k < 2)%nat -> 0 < al k) /\ sym 2 omk /\
  (forall k, (k < 2)%nat -> omk k k = 1) /\
  let bf := fun z => lin_mix 2 z bs in let af := fun z => quad_mix 2 z (pair_a al omk) in let V := Vf zs in
  0 < V /\ bf zs < V /\ volume_root 2 T P bf (fun _ => 0) (fun _ => 0) af Vf zs 0 /\
  forall lnphis, ~ partial (n_lnphi_VDW 2 T P bf af Vf) zs 0 (VDW_lnphis T P (P * V / (Rgas * T)) (bf zs) (af zs) bs (fun k => sqrt (al k)) 2 lnphis 0%nat).
Proof.
  set (zs := fun _ : nat => / 2). set (bs := fun i : nat => match i with O => 1 | _ => 2 end). set (al := fun _ : nat => 8).
  set (omk := fun i j : nat => if (i =? j)%nat then 1 else 5 / 4).
  set (Vf := fun ns : nat -> R => 2 * lin_mix 2 (fractions 2 ns) bs).
  pose proof Rgas_pos as HR. exists (3 / Rgas), 1, zs, bs, al, omk, Vf.
  assert (HT : 0 < 3 / Rgas) by (apply Rdiv_lt_0_compat; lra).
  assert (S8 : sqrt (8 * 8) = 8) by (apply sqrt_square; lra).
  assert (HM : sym 2 omk) by (intros i j _ _; unfold omk; rewrite Nat.eqb_sym; auto).
  assert (Hz : rsum 2 zs = 1) by (unfold zs; simpl; lra).
  assert (EV : Vf zs = 3) by (unfold Vf; rewrite fractions_one by auto; unfold lin_mix, zs, bs; simpl; lra).
  assert (Eb : lin_mix 2 zs bs = 3 / 2) by (unfold lin_mix, zs, bs; simpl; lra).
  assert (HV : volume_root 2 (3 / Rgas) 1 (fun z => lin_mix 2 z bs) (fun _ => 0) (fun _ => 0) (fun z => quad_mix 2 z (pair_a al omk)) Vf zs 0).
  { split.
    - exists (2 * (bs 0%nat - lin_mix 2 zs bs)). apply (partial_scal 2 (fun ns => lin_mix 2 (fractions 2 ns) bs) zs 0). apply d_lin; auto.
    - exists (mkposreal (/ 4) ltac:(lra)). intros t Ht. cbv zeta.
      apply Rabs_def2 in Ht. unfold minus, plus, opp in Ht. simpl in Ht. unfold zs in Ht.
      unfold P_cubic, Vf, quad_mix, lin_mix, pair_a, al, omk, bs, fractions. simpl. rewrite S8. unfold upd, zs. simpl. field. splits; lra. }
  splits; auto; try lra.
  - intros; unfold zs; lra.
  - intros; unfold al; lra.
  - intros; unfold omk. rewrite Nat.eqb_refl. auto.
  - intros bf af V. splits; auto.
    + unfold V. lra.
    + unfold V, bf. lra.
    + intros lnphis H.
      pose proof (VDW_partial 2 (3 / Rgas) 1 zs bs (pair_a al omk) Vf 0 HT ltac:(lra) Hz (pair_sym 2 al omk HM) ltac:(lia)) as G. cbv zeta in G. fold V bf in G.
      specialize (G ltac:(unfold V; lra) ltac:(unfold V, bf; lra) HV).
      apply is_derive_unique in H. apply is_derive_unique in G. pose proof (eq_trans (eq_sym H) G) as H3. clear H G. rename H3 into G.
      rewrite VDW_entry in G by (auto; try lia; unfold V; lra). fold bf in G.
      assert (ER : lin_mix 2 zs (pair_a al omk 0) = 9) by (unfold lin_mix, pair_a, al, omk, zs; simpl; rewrite S8; lra).
      assert (EA : quad_mix 2 zs (pair_a al omk) = 3 * 3) by (unfold quad_mix, pair_a, al, omk, zs; simpl; rewrite S8; lra).
      change (af zs) with (quad_mix 2 zs (pair_a al omk)) in G. rewrite ER, EA, sqrt_square in G by lra. unfold V in G. rewrite EV in G. unfold al in G.
      assert (E : 3 * sqrt 8 = 9). { assert (X : Rgas * (3 / Rgas) * 3 = 9) by (field; lra). rewrite X in G. lra. }
      pose proof (sqrt_sqrt 8 ltac:(lra)). assert (sqrt 8 = 3) by lra. rewrite H0 in H. lra.
Qed.

Theorem C17_VDW_fastest : forall n T P zs bs al l g rows0 vec0 lnphis vs Vf i,
  0 < T -> 0 < P -> rsum n zs = 1 -> (forall k, (k < n)%nat -> 0 <= zs k) -> (forall k, (k < n)%nat -> 0 <= al k) -> (i < n)%nat ->
  let bf := fun z => lin_mix n z bs in let af := fun z => quad_mix n z (pair_a al (fun _ _ => 1)) in
  0 < Vf zs -> bf zs < Vf zs -> volume_root n T P bf (fun _ => 0) (fun _ => 0) af Vf zs i ->
  selected g l T P zs (fun _ _ => 1) (bf zs) 0 0 al rows0 vec0 n vs (Vf zs) ->
  partial (n_lnphi_VDW n T P bf af Vf) zs i (VDW_lnphis_fastest zs T P n (fun _ _ => 1) l g bs al (fun k => sqrt (al k)) rows0 vec0 lnphis vs i).
Proof.
  intros n T P zs bs al l g rows0 vec0 lnphis vs Vf i HT HP Hz Hz0 Ha Hi bf af HV0 HVb HV HS.
  unfold VDW_lnphis_fastest. cbv zeta. rewrite lin_loop_comm. fold (bf zs).
  assert (Hk : sym n (fun _ _ : nat => 1)) by (intros j k _ _; auto).
  destruct (volume_facts _ _ _ _ _ _ _ _ _ _ _ _ _ _ _ HT HP Ha Hk HS) as (rows & -> & Hr). apply C17_VDW; auto.
Qed.

(* A binary mixture with unequal covolumes and a composition-dependent volume V = 2 b meets the hypotheses of C17_PR
   (and of the general theorem). *)
Example C17_hypotheses_met : exists T P zs bs M Vf, 0 < T /\ 0 < P /\ rsum 2 zs = 1 /\ sym 2 M /\ bs 0%nat <> bs 1%nat /\ M 0%nat 0%nat <> M 0%nat 1%nat /\
  let bf := fun z => lin_mix 2 z bs in let df := fun z => 2 * lin_mix 2 z bs in
  let ef := fun z => - (lin_mix 2 z bs) ^ 2 in let af := fun z => quad_mix 2 z M in
  0 < bf zs /\ af zs <> 0 /\ above_poles (bf zs) (df zs) (ef zs) (Vf zs) /\ volume_root 2 T P bf df ef af Vf zs 0.
Proof.
  set (zs := fun _ : nat => / 2). set (bs := fun i : nat => match i with O => 1 | _ => 2 end).
  set (M := fun i j : nat => 7 * (3 * (bs i + bs j) / 2 - bs i * bs j)).
  set (Vf := fun ns : nat -> R => 2 * lin_mix 2 (fractions 2 ns) bs).
  pose proof Rgas_pos as HR. exists (3 / Rgas), 1, zs, bs, M, Vf.
  assert (Hz : rsum 2 zs = 1) by (unfold zs; simpl; lra).
  assert (EV : Vf zs = 3) by (unfold Vf; rewrite fractions_one by auto; unfold lin_mix, zs, bs; simpl; lra).
  assert (Eb : lin_mix 2 zs bs = 3 / 2) by (unfold lin_mix, zs, bs; simpl; lra).
  splits; auto; try lra.
  - apply Rdiv_lt_0_compat; lra.
  - intros i j _ _. unfold M. field.
  - unfold bs; lra.
  - unfold M, bs; lra.
  - intros bf df ef af. unfold bf, df, ef, af. rewrite Eb, EV. splits; try lra.
    + unfold quad_mix, M, zs, bs. simpl. lra.
    + split; [lra|]. apply Rsqr_incrst_0; try lra; [|apply sqrt_pos]. rewrite Rsqr_sqrt by lra. unfold Rsqr. lra.
    + split.
      * exists (2 * (bs 0%nat - lin_mix 2 zs bs)). apply (partial_scal 2 (fun ns => lin_mix 2 (fractions 2 ns) bs) zs 0). apply d_lin; auto.
      * exists (mkposreal (/ 4) ltac:(lra)). intros t Ht. cbv zeta.
        apply Rabs_def2 in Ht. unfold minus, plus, opp in Ht. simpl in Ht. unfold zs in Ht.
        unfold P_cubic, Vf, quad_mix, lin_mix, M, bs, fractions. simpl. unfold upd, zs. simpl. field. splits; try lra. nra.
Qed.
