(* Derivatives of ln(phi) and of the volume of a cubic equation of state along a change of composition. *)
From Coq Require Import Reals Lra Lia Arith Bool FunctionalExtensionality.
From Coquelicot Require Import Coquelicot.
From Verif Require Import Base BaseFacts Spec_eos EosFacts Spec_mix MixFacts Gen_eos Gen_mix Gen_eosmix MixDeriv MixParams Gen_lnphi.
Open Scope R_scope.

Lemma fancy_re u : u <> 1 -> u <> -1 -> 1 / 4 * ln (1 + 4 * u / ((1 - u) * (1 - u))) = re_catanh u /\ 0 < 1 + 4 * u / ((1 - u) * (1 - u)).
Proof.
  intros H1 H2. set (q := (1 + u) / (1 - u)).
  assert (Hq : q <> 0). { unfold q. apply Rmult_integral_contrapositive_currified; [lra|]. apply Rinv_neq_0_compat. lra. }
  assert (E : 1 + 4 * u / ((1 - u) * (1 - u)) = Rabs q * Rabs q).
  { rewrite <- Rabs_mult. rewrite Rabs_right by (apply Rle_ge; nra). unfold q. field. lra. }
  assert (P : 0 < Rabs q) by (apply Rabs_pos_lt; auto).
  rewrite E. split; [|nra]. rewrite ln_mult by auto. unfold re_catanh. fold q. field.
Qed.

Ltac chR := match goal with |- ?x = ?y => change (@eq R x y) end.

Definition fancy (x : R) : R := 1 / 4 * ln (1 + 4 * x / ((1 - x) * (1 - x))).

Lemma fancy_derive u : u <> 1 -> u <> -1 -> is_derive fancy u (/ (1 - u * u)).
Proof.
  intros H1 H2. destruct (fancy_re u H1 H2) as [_ F]. unfold fancy. auto_derive.
  - split; [|split; [|exact Logic.I]]; [apply Rmult_integral_contrapositive_currified; lra|exact F].
  - assert (E : 1 + 4 * u / ((1 - u) * (1 - u)) = ((1 + u) * (1 + u)) / ((1 - u) * (1 - u))) by (field; lra).
    replace (1 + 4 * u * / ((1 + - u) * (1 + - u))) with (((1 + u) * (1 + u)) / ((1 - u) * (1 - u))) by (field; lra).
    replace (1 - u * u) with ((1 - u) * (1 + u)) by ring. field. splits; lra.
Qed.

(* the derivative of ln(phi) when V, b, delta, eps, a_alpha have derivatives v', b', d', e', a' *)
Definition dlnf (T P V b d e a v' b' d' e' a' : R) : R :=
  v' * (P / (Rgas * T) - 1 / (V - b) + a / (Rgas * T * (V ^ 2 + d * V + e)))
  - a' * Kf d e V / (Rgas * T) + b' / (V - b)
  + a / (Rgas * T) * ((d' * d - 2 * e') * Kf d e V / (d * d - 4 * e)
                      + (d' - (d' * d - 2 * e') * (2 * V + d) / (d * d - 4 * e)) / (2 * (V ^ 2 + d * V + e))).

Section Curve.
Variables (T P : R) (v b d e a : R -> R) (t v' b' d' e' a' : R).
Hypotheses (Dv : is_derive v t v') (Db : is_derive b t b') (Dd : is_derive d t d') (De : is_derive e t e') (Da : is_derive a t a').
Hypotheses (HT : 0 < T) (HP : 0 < P) (HD : 0 < d t * d t - 4 * e t) (Hp : above_poles (b t) (d t) (e t) (v t)).
Let Q := v t ^ 2 + d t * v t + e t.
Let D := d t * d t - 4 * e t.
Let K := Kf (d t) (e t) (v t).

Lemma Q_pos : 0 < Q /\ 4 * Q = (2 * v t + d t) ^ 2 - D.
Proof.
  unfold Q, D. assert (E : 4 * (v t ^ 2 + d t * v t + e t) = (2 * v t + d t) ^ 2 - (d t * d t - 4 * e t)) by ring.
  split; [|exact E]. destruct Hp as [_ H]. pose proof (sqrt_pos (d t * d t - 4 * e t)). pose proof (sqrt_sqrt (d t * d t - 4 * e t) (Rlt_le _ _ HD)). nra.
Qed.

Lemma lnphi_curve : is_derive (fun x => eos_lnphi T P (v x) (b x) (d x) (e x) (a x)) t (dlnf T P (v t) (b t) (d t) (e t) (a t) v' b' d' e' a').
Proof.
  pose proof Rgas_pos as HR. destruct Q_pos as [HQ EQ]. destruct Hp as [Hb Hs].
  pose proof (sqrt_sqrt (d t * d t - 4 * e t) (Rlt_le _ _ HD)) as SS.
  pose proof (sqrt_lt_R0 _ HD) as SP.
  set (s := fun x => 1 / sqrt (d x * d x - 4 * e x)).
  set (u := fun x => 2 * v x * s x + d x * s x).
  set (r := sqrt (d t * d t - 4 * e t)) in *.
  assert (Es : s t = 1 / r) by reflexivity.
  assert (ED : D = r * r) by (unfold D; lra).
  assert (EE : e t = (d t * d t - r * r) / 4) by lra.
  assert (Ds : is_derive s t (- (d' * d t - 2 * e') / (r * r * r))).
  { unfold s. auto_derive; [splits; try (eexists; eassumption); auto; try lra; try (apply Rgt_not_eq; assumption)|].
    dv Dd. dv De. replace (d t * d t + - (4 * e t)) with (d t * d t - 4 * e t) by ring. fold r.
 chR. field. lra. }
  assert (Eu : u t = (2 * v t + d t) / r) by (unfold u; rewrite Es; field; lra).
  assert (Hu : 1 < u t). { rewrite Eu. apply Rmult_lt_reg_r with r; auto. unfold Rdiv. rewrite Rmult_assoc, Rinv_l by lra. lra. }
  assert (Du : is_derive u t (2 * v' / r + d' / r - (2 * v t + d t) * (d' * d t - 2 * e') / (r * r * r))).
  { unfold u. auto_derive; [splits; eexists; eassumption|]. dv Dd. dv Dv. dv Ds. rewrite Es. chR. field. lra. }
  set (W := fun x : R => fancy (u x)).
  assert (DF : is_derive W t ((2 * v' / r + d' / r - (2 * v t + d t) * (d' * d t - 2 * e') / (r * r * r)) * / (1 - u t * u t))).
  { apply (is_derive_comp fancy u); auto. apply fancy_derive; lra. }
  assert (Ef : fancy (u t) = K * r / 2).
  { unfold fancy. destruct (fancy_re (u t)) as [F _]; [lra|lra|]. rewrite F. unfold K, Kf. fold D. 
    replace (sqrt D) with r by reflexivity. rewrite Eu. replace (1 / r * (2 * v t + d t)) with ((2 * v t + d t) / r) by (field; lra). field. lra. }
  assert (HPv : 0 < P * (v t - b t)) by (apply Rmult_lt_0_compat; lra).
  assert (HQ2 : 4 * Q = (2 * v t + d t - r) * (2 * v t + d t + r)) by (rewrite EQ, ED; ring).
  assert (N1 : 1 - u t * u t = - (4 * Q) / (r * r)) by (rewrite Eu, EQ, ED; field; lra).
  change (is_derive (fun x => P * v x * (1 / (Rgas * T)) + ln (Rgas * T / (P * (v x - b x))) - 1 - 2 * a x * W x * (1 / (Rgas * T)) * s x) t (dlnf T P (v t) (b t) (d t) (e t) (a t) v' b' d' e' a')).
  change (W t = K * r / 2) in Ef. rewrite N1 in DF.
  clearbody W s.
  auto_derive.
  - splits; try (eexists; eassumption); auto; try (apply Rgt_not_eq; lra).
    replace (v t + - b t) with (v t - b t) by ring. apply Rdiv_lt_0_compat; auto. apply Rmult_lt_0_compat; lra.
  - dv Dv. dv Db. dv Da. dv DF. dv Ds. chR. rewrite Es, Ef. unfold dlnf. fold Q D K. rewrite ED. field. splits; try lra.
Qed.
End Curve.

Lemma Kf_Q_pos d e V : 0 < d * d - 4 * e -> sqrt (d * d - 4 * e) < 2 * V + d -> 0 < V ^ 2 + d * V + e.
Proof. intros HD H. pose proof (sqrt_lt_R0 _ HD). pose proof (sqrt_sqrt (d * d - 4 * e) (Rlt_le _ _ HD)). nra. Qed.

(* On the equation of state the volume derivative drops out. *)
Lemma dlnf_on_eos T P V b d e a v' b' d' e' a' : 0 < T -> V <> b -> V ^ 2 + d * V + e <> 0 ->
  P_cubic (fun _ => a) b d e T V = P -> dlnf T P V b d e a v' b' d' e' a' = dlnf T P V b d e a 0 b' d' e' a'.
Proof.
  intros HT H1 H2 E. pose proof Rgas_pos. unfold dlnf.
  replace (P / (Rgas * T) - 1 / (V - b) + a / (Rgas * T * (V ^ 2 + d * V + e))) with 0; [ring|].
  rewrite <- E. unfold P_cubic. field. splits; try lra. 
Qed.

(* G_dep_lnphi_d_helper computes it *)
Lemma helper_entry T P b d e a n Z dbs des dds dVs das out i :
  (i < n)%nat -> 0 < T -> 0 < P -> 0 < d * d - 4 * e -> above_poles b d e (Z * (Rgas * T) / P) ->
  let V := Z * (Rgas * T) / P in
  G_dep_lnphi_d_helper T P b d e a n Z dbs des dds dVs das false out i = dlnf T P V b d e a (dVs i) (dbs i) (dds i) (des i) (das i) /\
  G_dep_lnphi_d_helper T P b d e a n Z dbs des dds dVs das true out i = Rgas * T * dlnf T P V b d e a (dVs i) (dbs i) (dds i) (des i) (das i).
Proof.
  intros Hi HT HP HD HpV V. pose proof Rgas_pos as HR. fold V in HpV. destruct HpV as [Hb Hs].
  pose proof (Kf_Q_pos d e V HD Hs) as HQ.
  unfold G_dep_lnphi_d_helper. cbv zeta. fold V.
  rewrite (Reqb_false (d * d - 4 * e) 0) by (apply Rgt_not_eq; lra).
  pose proof (sqrt_sqrt (d * d - 4 * e) (Rlt_le _ _ HD)) as SS. pose proof (sqrt_lt_R0 _ HD) as SP.
  assert (EK : Kf d e V = 2 * (1 / sqrt (d * d - 4 * e)) * re_catanh ((d + (V + V)) * (1 / sqrt (d * d - 4 * e)))).
  { unfold Kf. f_equal. f_equal. ring. }
  set (L := re_catanh ((d + (V + V)) * (1 / sqrt (d * d - 4 * e)))) in *.
  set (r := sqrt (d * d - 4 * e)) in *.
  assert (Ee : e = (d * d - r * r) / 4) by lra.
  assert (N1 : (2 * V + d - r) * (2 * V + d + r) <> 0) by (apply Rmult_integral_contrapositive_currified; lra).
  split; cbv iota beta zeta; match goal with |- loop ?n (fun x_ w => upd w x_ (@?f x_)) ?o i = _ => rewrite (loop_upd_lt n f o i Hi) end; unfold dlnf; rewrite EK.
  all: replace (d * d - 4 * e) with (r * r) by lra; replace (V ^ 2 + d * V + e) with ((2 * V + d - r) * (2 * V + d + r) / 4) by (rewrite Ee; field);
    field; splits; try lra.
Qed.

(* the derivative of the volume at constant T and P *)
Definition dVf (T V b d e a b' d' e' a' : R) : R :=
  (- Rgas * T * b' / (V - b) ^ 2 + a' / (V ^ 2 + d * V + e) - a * (d' * V + e') / (V ^ 2 + d * V + e) ^ 2)
  / (- Rgas * T / (V - b) ^ 2 + a * (2 * V + d) / (V ^ 2 + d * V + e) ^ 2).

Lemma volume_curve T P (v b d e a : R -> R) t b' d' e' a' :
  is_derive b t b' -> is_derive d t d' -> is_derive e t e' -> is_derive a t a' -> ex_derive v t ->
  v t <> b t -> v t ^ 2 + d t * v t + e t <> 0 ->
  - Rgas * T / (v t - b t) ^ 2 + a t * (2 * v t + d t) / (v t ^ 2 + d t * v t + e t) ^ 2 <> 0 ->
  locally t (fun x => P_cubic (fun _ => a x) (b x) (d x) (e x) T (v x) = P) ->
  is_derive v t (dVf T (v t) (b t) (d t) (e t) (a t) b' d' e' a').
Proof.
  intros Db Dd De Da [v' Dv] H1 H2 H3 HL.
  assert (D : is_derive (fun x => P_cubic (fun _ => a x) (b x) (d x) (e x) T (v x)) t
     (Rgas * T * (b' - v') / (v t - b t) ^ 2 - a' / (v t ^ 2 + d t * v t + e t) + a t * ((2 * v t + d t) * v' + d' * v t + e') / (v t ^ 2 + d t * v t + e t) ^ 2)).
  { unfold P_cubic. auto_derive; [splits; try (eexists; eassumption); auto; lra|].
    dv Dv. dv Db. dv Dd. dv De. dv Da. chR. field. split; auto; lra. }
  assert (Z : is_derive (fun x => P_cubic (fun _ => a x) (b x) (d x) (e x) T (v x)) t 0).
  { eapply (is_derive_ext_loc (fun _ => P)); [|auto_derive; auto]. apply (filter_imp _ _ (fun x E => eq_sym E) HL). }
  pose proof (is_derive_unique _ _ _ D) as U. rewrite (is_derive_unique _ _ _ Z) in U.
  apply (is_derive_eq _ _ _ _ Dv). chR. unfold dVf.
  set (Qv := v t ^ 2 + d t * v t + e t) in *. set (c := - Rgas * T / (v t - b t) ^ 2 + a t * (2 * v t + d t) / Qv ^ 2) in *.
  apply Rmult_eq_reg_r with c; [|auto]. unfold Rdiv. rewrite Rmult_assoc, Rinv_l, Rmult_1_r by auto.
  assert (E : v' * c - (- Rgas * T * b' / (v t - b t) ^ 2 + a' / Qv - a t * (d' * v t + e') / Qv ^ 2) =
     Rgas * T * (b' - v') / (v t - b t) ^ 2 - a' / Qv + a t * ((2 * v t + d t) * v' + d' * v t + e') / Qv ^ 2).
  { unfold c. field. split; auto; lra. }
  unfold Rdiv in *. lra.
Qed.

Lemma dV_entry T P b d e a n Z dbs dds des das out i :
  (i < n)%nat -> 0 < T -> 0 < P ->
  let V := Z * (Rgas * T) / P in
  V <> b -> V ^ 2 + d * V + e <> 0 -> - Rgas * T / (V - b) ^ 2 + a * (2 * V + d) / (V ^ 2 + d * V + e) ^ 2 <> 0 ->
  eos_mix_dV_dzs T P Z b d e a dbs dds des das n out i = dVf T V b d e a (dbs i) (dds i) (des i) (das i).
Proof.
  intros Hi HT HP V H1 H2 H3. pose proof Rgas_pos as HR.
  unfold eos_mix_dV_dzs. cbv zeta. fold V.
  match goal with |- loop ?n (fun x_ w => upd w x_ (@?f x_)) ?o i = _ => rewrite (loop_upd_lt n f o i Hi) end.
  unfold dVf. set (Qv := V ^ 2 + d * V + e) in *. set (c := - Rgas * T / (V - b) ^ 2 + a * (2 * V + d) / Qv ^ 2) in *.
  replace (d * V + e + V * V) with Qv by (unfold Qv; ring).
  set (x5 := (V - b) * (V - b)).
  match goal with |- context [(- 1) / ?x] => replace x with (c * ((V - b) ^ 2 * Qv ^ 3)) end.
  - unfold x5. assert (V - b <> 0) by lra. assert (Qv ^ 3 <> 0) by (apply pow_nonzero; auto).
    field_simplify_eq; [|splits; auto]. unfold Qv. ring.
  - unfold c, x5. field_simplify_eq; [|split; auto; lra]. unfold Qv. ring.
Qed.
