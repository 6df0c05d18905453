(* C39: fitted property correlations: values, derivatives and integrals. *)
From Coq Require Import Reals Arith List Bool Lra Lia FunctionalExtensionality.
From Coquelicot Require Import Coquelicot.
From Coq Require Import List.
From Verif Require Import Base BaseFacts Model_tdep Spec_tdep TdepFacts Prop_C36 Prop_C37 Model_fit FitFacts Spec_fit.
Import ListNotations.
Open Scope R_scope.

(* Limits in order and, for functions of ln(1 - T/Tc), below Tc *)
Definition good_params (m : form) (p : params) : Prop := Tmin p < Tmax p /\ (uses_tau m = true -> 0 < pTc p /\ Tmax p < pTc p).
Definition in_domain (m : form) (p : params) (T : R) : Prop := uses_tau m = true -> 0 < pTc p /\ T < pTc p.

Lemma rsum_first n (f : nat -> R) : rsum (S n) f = f 0%nat + rsum n (fun i => f (S i)).
Proof. induction n as [|n IH]; [cbn; ring|]. change (rsum (S (S n)) f) with (rsum (S n) f + f (S n)). rewrite IH. cbn. ring. Qed.
Lemma power_series_eq cs y : ext_horner cs y = power_series cs y.
Proof.
  unfold power_series. induction cs as [|c cs IH]; [reflexivity|]. rewrite horner_cons, IH. cbn [length]. rewrite (rsum_first (length cs)). cbn [nth]. f_equal.
  - do 2 f_equal. lia.
  - apply rsum_ext. intros i Hi. do 2 f_equal. lia.
Qed.
Lemma chebT_cos t n : chebT n (cos t) = cos (INR n * t) /\ chebT (S n) (cos t) = cos (INR (S n) * t).
Proof.
  induction n as [|n [A B]].
  - cbn. rewrite Rmult_0_l, Rmult_1_l, cos_0. split; reflexivity.
  - split; [exact B|]. rewrite chebT_SS, A, B. rewrite !S_INR. replace ((INR n + 1 + 1) * t) with ((INR n + 1) * t + t) by ring. replace (INR n * t) with ((INR n + 1) * t - t) by ring. rewrite cos_plus, cos_minus. ring.
Qed.
Lemma chebsum_eq y cs : forall k, chebsum k cs y = rsum (length cs) (fun i => nth i cs 0 * chebT (k + i) y).
Proof.
  induction cs as [|c cs IH]; intros k; [reflexivity|]. cbn [chebsum length]. rewrite rsum_first, IH. cbn [nth]. rewrite Nat.add_0_r. f_equal. apply rsum_ext. intros i Hi. now rewrite <- Nat.add_succ_comm.
Qed.
Lemma cosine_series_eq cs y : -1 <= y <= 1 -> chebsum 0 cs y = cosine_series cs y.
Proof. intros H. rewrite chebsum_eq. apply rsum_ext. intros i Hi. rewrite <- (proj1 (chebT_cos (acos y) i)), (cos_acos y H). reflexivity. Qed.
Lemma to_unit_eq lo hi x : lo <> hi -> ext_offset lo hi + ext_scale lo hi * x = to_unit lo hi x.
Proof. intros H. unfold ext_offset, ext_scale, to_unit. field. lra. Qed.
Lemma to_unit_range lo hi x : lo < hi -> lo <= x <= hi -> -1 <= to_unit lo hi x <= 1.
Proof.
  intros H K. unfold to_unit. assert (A : 0 <= (x - lo) / (hi - lo) <= 1).
  { split; [apply Rdiv_le_0_compat; lra|]. apply (Rmult_le_reg_r (hi - lo)); [lra|]. unfold Rdiv. rewrite Rmult_assoc, Rinv_l; lra. }
  replace (2 * (x - lo) / (hi - lo)) with (2 * ((x - lo) / (hi - lo))) by (field; lra). lra.
Qed.
Lemma to_unit_swap lo hi x : lo <> hi -> to_unit hi lo x = - to_unit lo hi x.
Proof. intros H. unfold to_unit. field. split; lra. Qed.
Lemma lntau_decr Tc a b : 0 < Tc -> a < b -> b < Tc -> ln (1 - b / Tc) < ln (1 - a / Tc).
Proof.
  intros P L B. apply ln_increasing; [now apply tau_pos|]. unfold Rdiv. apply Rplus_lt_compat_l, Ropp_lt_contravar, Rmult_lt_compat_r; auto. now apply Rinv_0_lt_compat.
Qed.
Lemma lntau_decr_le Tc a b : 0 < Tc -> a <= b -> b < Tc -> ln (1 - b / Tc) <= ln (1 - a / Tc).
Proof. intros P [L|<-] B; [left; now apply lntau_decr|right; reflexivity]. Qed.

(* The values are those of the documented series: for correlations always, for constructor arguments except that the scaled forms of ln(1 - T/Tc) use the variable with the opposite sign *)
Definition mirrored (m : form) : bool := uses_tau m && is_scaled m.
Lemma reduced_in_unit m p T : good_params m p -> Tmin p <= T <= Tmax p -> is_scaled m = true -> -1 <= reduced m p T <= 1.
Proof.
  intros [L G] HT S. unfold reduced, variable. rewrite S. destruct (uses_tau m) eqn:U.
  - destruct (G eq_refl) as [P Q]. pose proof (lntau_decr _ _ _ P L Q). rewrite Rmin_right, Rmax_left by lra. apply to_unit_range; [lra|]. split; apply lntau_decr_le; lra.
  - rewrite Rmin_left, Rmax_right by lra. apply to_unit_range; lra.
Qed.
Lemma value_add m p T : good_params m p -> (is_cheb m = true -> Tmin p <= T <= Tmax p) -> fit_value m p (add_fit m p) T = documented m p T.
Proof.
  intros GP C. unfold documented, series. destruct (is_cheb m) eqn:K.
  - rewrite <- cosine_series_eq by (apply reduced_in_unit; auto; destruct m; auto; discriminate). destruct GP as [L G].
    destruct m; try discriminate K; cbn [fit_value add_fit with_cheb offset scale reduced variable is_scaled uses_tau of_log]; unfold ext_chebval, reduced, variable; cbn [is_scaled uses_tau]; rewrite to_unit_eq; try (rewrite Rmin_left, Rmax_right by lra; reflexivity); try reflexivity; try lra;
    destruct (G eq_refl) as [P Q]; pose proof (lntau_decr _ _ _ P L Q); rewrite Rmin_right, Rmax_left by lra; lra.
  - rewrite <- power_series_eq. destruct GP as [L G].
    destruct m; try discriminate K; cbn [fit_value add_fit no_cheb offset scale of_log]; unfold reduced, variable; cbn [is_scaled uses_tau]; try reflexivity; rewrite to_unit_eq; try (rewrite Rmin_left, Rmax_right by lra; reflexivity); try reflexivity; try lra;
    destruct (G eq_refl) as [P Q]; pose proof (lntau_decr _ _ _ P L Q); rewrite Rmin_right, Rmax_left by lra; lra.
Qed.
Theorem C39_value_of_correlation m p T : good_params m p -> (is_cheb m = true -> Tmin p <= T <= Tmax p) -> fit_value m p (add_fit m p) T = documented m p T.
Proof. exact (value_add m p T). Qed.
Theorem C39_value_of_constructor m p T : good_params m p -> (is_cheb m = true -> Tmin p <= T <= Tmax p) ->
  fit_value m p (set_fit m p) T = series m p (if mirrored m then - reduced m p T else reduced m p T).
Proof.
  intros GP C. destruct (mirrored m) eqn:E.
  - assert (S : is_scaled m = true) by (destruct m; auto; discriminate).
    unfold series. destruct (is_cheb m) eqn:K.
    + rewrite <- cosine_series_eq by (pose proof (reduced_in_unit m p T GP (C eq_refl) S); lra). destruct GP as [L G].
      destruct m; try discriminate E; try discriminate K; cbn [fit_value set_fit with_cheb offset scale of_log]; unfold ext_chebval, reduced, variable; cbn [is_scaled uses_tau]; destruct (G eq_refl) as [P Q]; pose proof (lntau_decr _ _ _ P L Q);
      rewrite to_unit_eq, (to_unit_swap (ln (1 - Tmax p / pTc p))), Rmin_right, Rmax_left by lra; reflexivity.
    + rewrite <- power_series_eq. destruct GP as [L G].
      destruct m; try discriminate E; try discriminate K; cbn [fit_value set_fit no_cheb offset scale of_log]; unfold reduced, variable; cbn [is_scaled uses_tau]; destruct (G eq_refl) as [P Q]; pose proof (lntau_decr _ _ _ P L Q);
      rewrite to_unit_eq, (to_unit_swap (ln (1 - Tmax p / pTc p))), Rmin_right, Rmax_left by lra; reflexivity.
  - change (series m p (reduced m p T)) with (documented m p T). rewrite <- (value_add m p T GP C). destruct m; try discriminate E; reflexivity.
Qed.
(* The same parameters given to the constructor and to add_correlation describe different functions *)
Theorem C39_constructor_agrees_with_correlation_refuted : exists p T, good_params STABLEPOLY_LN_TAU p /\ Tmin p <= T <= Tmax p /\ fit_value STABLEPOLY_LN_TAU p (set_fit STABLEPOLY_LN_TAU p) T = 1 /\ fit_value STABLEPOLY_LN_TAU p (add_fit STABLEPOLY_LN_TAU p) T = -1.
Proof.
  exists {| Tmin := 200; Tmax := 300; pTc := 400; coeffs := [1; 0] |}, 300.
  assert (GP : good_params STABLEPOLY_LN_TAU {| Tmin := 200; Tmax := 300; pTc := 400; coeffs := [1; 0] |}) by (split; cbn; intros; lra).
  assert (C : is_cheb STABLEPOLY_LN_TAU = true -> 200 <= 300 <= 300) by discriminate.
  assert (E : reduced STABLEPOLY_LN_TAU {| Tmin := 200; Tmax := 300; pTc := 400; coeffs := [1; 0] |} 300 = -1).
  { unfold reduced, variable. cbn [is_scaled uses_tau Tmin Tmax pTc]. pose proof (lntau_decr 400 200 300 ltac:(lra) ltac:(lra) ltac:(lra)). rewrite Rmin_right, Rmax_left by lra. unfold to_unit. field. lra. }
  split; [exact GP|]. split; [cbn; lra|]. split.
  - rewrite (C39_value_of_constructor _ _ _ GP C). cbn [mirrored uses_tau is_scaled andb]. rewrite E. unfold series. cbn [is_cheb of_log coeffs]. rewrite <- power_series_eq. unfold ext_horner. cbn. ring.
  - rewrite (C39_value_of_correlation _ _ _ GP C). unfold documented. rewrite E. unfold series. cbn [is_cheb of_log coeffs]. rewrite <- power_series_eq. unfold ext_horner. cbn. ring.
Qed.

(* Derivatives *)
Definition jet_of (m : form) (p : params) (o s T : R) : jet :=
  let cs := coeffs p in let b := ext_chebder cs s in let b' := ext_chebder b s in let b'' := ext_chebder b' s in
  match m with
  | POLY => ext_poly cs T | EXP_POLY => ext_exp (ext_poly cs T)
  | POLY_LN_TAU => ext_ln_tau T (pTc p) (ext_poly cs) | EXP_POLY_LN_TAU => ext_exp (ext_ln_tau T (pTc p) (ext_poly cs))
  | STABLEPOLY => ext_stable cs o s T | EXP_STABLEPOLY => ext_exp (ext_stable cs o s T)
  | STABLEPOLY_LN_TAU => ext_ln_tau T (pTc p) (ext_stable cs o s) | EXP_STABLEPOLY_LN_TAU => ext_exp (ext_ln_tau T (pTc p) (ext_stable cs o s))
  | CHEB => ext_cheb cs b b' b'' o s T | EXP_CHEB => ext_exp (ext_cheb cs b b' b'' o s T)
  | CHEB_LN_TAU => ext_ln_tau T (pTc p) (ext_cheb cs b b' b'' o s) | EXP_CHEB_LN_TAU => ext_exp (ext_ln_tau T (pTc p) (ext_cheb cs b b' b'' o s))
  end.
Lemma jet_of_ok m p o s : jet_ok (jet_of m p o s) (in_domain m p).
Proof.
  assert (A : forall J, jet_ok J anywhere -> jet_ok J (fun _ => false = true -> 0 < pTc p /\ False)) by (intros J K t _; now apply K).
  assert (B : forall J, jet_ok J anywhere -> jet_ok (fun T => ext_ln_tau T (pTc p) J) (fun T => true = true -> 0 < pTc p /\ T < pTc p)) by (intros J K t Ht; destruct (Ht eq_refl); now apply (jet_ln_tau J (pTc p))).
  unfold in_domain.
  destruct m; cbn [jet_of uses_tau]; cbv zeta;
  try (intros t _; first [exact (jet_poly _ t I)|exact (jet_stable _ _ _ t I)|exact (jet_cheb _ _ _ t I)|exact (jet_exp _ _ (jet_poly _) t I)|exact (jet_exp _ _ (jet_stable _ _ _) t I)|exact (jet_exp _ _ (jet_cheb _ _ _) t I)]);
  first [apply B, jet_poly|apply B, jet_stable|apply B, jet_cheb|apply (jet_exp (fun T => ext_ln_tau T (pTc p) _)), B, jet_poly|apply (jet_exp (fun T => ext_ln_tau T (pTc p) _)), B, jet_stable|apply (jet_exp (fun T => ext_ln_tau T (pTc p) _)), B, jet_cheb].
Qed.
Lemma in_domain_open m p T : in_domain m p T -> locally T (in_domain m p).
Proof.
  intros H. unfold in_domain in *. destruct (uses_tau m).
  - destruct (H eq_refl) as [P Q]. exists (mkposreal (pTc p - T) ltac:(lra)). intros y Hy _. apply Rabs_def2 in Hy. unfold minus, plus, opp in Hy; cbn in Hy. lra.
  - apply filter_forall. intros y E. discriminate.
Qed.
Lemma value_jet m p a T : fit_value m p a T = j0 (jet_of m p (offset a) (scale a) T).
Proof. destruct m; reflexivity. Qed.
Lemma jet_n m p a n T : in_domain m p T -> (n <= 3)%nat -> is_derive_n (fit_value m p a) n T (match n with 0 => j0 (jet_of m p (offset a) (scale a) T) | 1 => j1 (jet_of m p (offset a) (scale a) T) | 2 => j2 (jet_of m p (offset a) (scale a) T) | _ => j3 (jet_of m p (offset a) (scale a) T) end)%nat.
Proof.
  intros D N. replace (fit_value m p a) with (fun t => j0 (jet_of m p (offset a) (scale a) t)) by (apply functional_extensionality; intros t; symmetry; apply value_jet).
  apply (jet_derive_n _ (in_domain m p)); auto; [apply jet_of_ok|intros; now apply in_domain_open].
Qed.
Definition stable_chain (cs : list R) (o s : R) (k : nat) (t : R) : R := match k with 0 => j0 (ext_stable cs o s t) | 1 => j1 (ext_stable cs o s t) | 2 => j2 (ext_stable cs o s t) | 3 => j3 (ext_stable cs o s t) | _ => ext_stable_4 cs o s t end%nat.
Lemma stable_n4 cs o s T : is_derive_n (fun T => ext_horner cs (o + s * T)) 4 T (ext_stable_4 cs o s T).
Proof.
  apply (chain_derive_n (stable_chain cs o s) anywhere 4); [intros; apply filter_forall; intros; exact I| |exact I].
  intros k t Hk _. destruct (jet_stable cs o s t I) as (A & B & C). destruct k as [|[|[|[|k]]]]; auto; [exact (stable_4 cs o s t)|lia].
Qed.
Lemma cheb_n4 cs o s T : is_derive_n (fun T => ext_chebval T cs o s) 4 T (ext_chebval T (ext_chebder (ext_chebder (ext_chebder (ext_chebder cs s) s) s) s) o s).
Proof.
  apply (chain_derive_n (fun k t => ext_chebval t (Nat.iter k (fun c => ext_chebder c s) cs) o s) anywhere 4); [intros; apply filter_forall; intros; exact I| |exact I].
  intros k t Hk _. apply chebval_derive.
Qed.
Lemma derivative_from m p a n T v : (d1 a = ext_chebder (coeffs p) (scale a) /\ d2 a = ext_chebder (d1 a) (scale a) /\ d3 a = ext_chebder (d2 a) (scale a) /\ d4 a = ext_chebder (d3 a) (scale a) \/ is_cheb m = false) -> in_domain m p T ->
  (fit_derivative m p a n T = Analytical v \/ corr_derivative m p a n T = Analytical v) -> is_derive_n (fit_value m p a) n T v.
Proof.
  intros A D H. destruct n as [|[|[|[|n]]]]; [exfalso; destruct m, H; discriminate| | | |].
  - pose proof (jet_n m p a 1 T D ltac:(lia)) as J. destruct A as [(A1 & A2 & A3 & A4)|A].
    + destruct m, H as [H|H]; cbn in H; try discriminate H; injection H as <-; try rewrite A1; exact J.
    + destruct m; try discriminate A; destruct H as [H|H]; cbn in H; try discriminate H; injection H as <-; exact J.
  - pose proof (jet_n m p a 2 T D ltac:(lia)) as J. destruct A as [(A1 & A2 & A3 & A4)|A].
    + destruct m, H as [H|H]; cbn in H; try discriminate H; injection H as <-; try rewrite A2; try rewrite A1; exact J.
    + destruct m; try discriminate A; destruct H as [H|H]; cbn in H; try discriminate H; injection H as <-; exact J.
  - pose proof (jet_n m p a 3 T D ltac:(lia)) as J. destruct A as [(A1 & A2 & A3 & A4)|A].
    + destruct m, H as [H|H]; cbn in H; try discriminate H; injection H as <-; try rewrite A3; try rewrite A2; try rewrite A1; exact J.
    + destruct m; try discriminate A; destruct H as [H|H]; cbn in H; try discriminate H; injection H as <-; exact J.
  - destruct n as [|n]; [|exfalso; destruct m, H; discriminate]. destruct A as [(A1 & A2 & A3 & A4)|A].
    + destruct m, H as [H|H]; cbn in H; try discriminate H; injection H as <-; [exact (stable_n4 _ _ _ T)|exact (stable_n4 _ _ _ T)|rewrite A4, A3, A2, A1; exact (cheb_n4 _ _ _ T)].
    + destruct m; try discriminate A; destruct H as [H|H]; cbn in H; try discriminate H; injection H as <-; exact (stable_n4 _ _ _ T).
Qed.
(* A closed-form derivative of order n, of either kind of fit, is the n-th derivative of the value *)
Theorem C39_derivative_of_constructor m p n T v : in_domain m p T -> fit_derivative m p (set_fit m p) n T = Analytical v -> is_derive_n (fit_value m p (set_fit m p)) n T v.
Proof. intros D H. apply derivative_from; auto. destruct m; cbn; auto. Qed.
Theorem C39_derivative_of_correlation m p n T v : in_domain m p T -> corr_derivative m p (add_fit m p) n T = Analytical v -> is_derive_n (fit_value m p (add_fit m p)) n T v.
Proof. intros D H. apply derivative_from; auto. destruct m; cbn; auto. Qed.
(* ... and closed forms exist for the first two orders of every form, the third unless it is the exponential of a function of ln(1 - T/Tc), and the fourth of some. The correlation 'polynomial' raises instead *)
Theorem C39_closed_forms m p a n T :
  ((exists v, fit_derivative m p a n T = Analytical v) <-> (n = 1 \/ n = 2 \/ (n = 3 /\ (of_log m && uses_tau m) = false) \/ (n = 4 /\ (m = STABLEPOLY \/ m = CHEB)))%nat) /\
  ((exists v, corr_derivative m p a n T = Analytical v) <-> (m <> POLY /\ (n = 1 \/ n = 2 \/ (n = 3 /\ (of_log m && uses_tau m) = false) \/ (n = 4 /\ m = STABLEPOLY)))%nat).
Proof.
  split; split.
  - intros [v H]. destruct n as [|[|[|[|[|n]]]]]; auto; destruct m; cbn in H; try discriminate H; cbn; auto 8.
  - intros [->|[->|[[-> E]|[-> E]]]]; destruct m; try discriminate E; try (destruct E as [E|E]; discriminate E); cbn; eexists; reflexivity.
  - intros [v H]. split; [intros ->; destruct n as [|[|[|[|n]]]]; discriminate H|]. destruct n as [|[|[|[|[|n]]]]]; auto; destruct m; cbn in H; try discriminate H; cbn; auto 8.
  - intros [N [->|[->|[[-> E]|[-> E]]]]]; destruct m; try discriminate E; try congruence; cbn; eexists; reflexivity.
Qed.
Theorem C39_polynomial_correlation_derivative_refuted : exists p T, in_domain POLY p T /\ corr_derivative POLY p (add_fit POLY p) 1 T = Raises /\ fit_derivative POLY p (set_fit POLY p) 1 T = Analytical 2 /\ is_derive (fit_value POLY p (add_fit POLY p)) T 2.
Proof.
  exists {| Tmin := 200; Tmax := 300; pTc := 0; coeffs := [2; 1] |}, 250. split; [discriminate|]. split; [reflexivity|]. split.
  - cbn. f_equal. unfold ext_horner. cbn. ring.
  - eapply is_derive_eq; [apply (horner_derive [2; 1])|]. unfold ext_horner. cbn. asR. ring.
Qed.

(* Integrals of 'polynomial' fits: of the polynomial inside the limits, of its tangents beyond *)
Ltac kd := match goal with |- context [Rltb ?a ?b] => destruct (Rltb_spec a b) | |- context [Rleb ?a ?b] => destruct (Rleb_spec a b) end; cbn [andb orb]; try lra.
Lemma fit_integral_whole (line : R -> R -> R -> R) (G : R -> R) T1 T2 lo hi v1 v2 s1 s2 : lo < hi ->
  let Lo := line s1 (v1 - s1 * lo) in let Hi := line s2 (v2 - s2 * hi) in let W := whole lo hi (fun t => Lo t - Lo lo + G lo) G (fun t => Hi t - Hi hi + G hi) in
  ext_fit_integral line G T1 T2 lo hi v1 v2 s1 s2 = W T2 - W T1.
Proof.
  intros H Lo Hi W. assert (E : forall a b, a <= b ->
    (if Rltb a lo then let T2_low := if Rltb b lo then b else lo in Lo T2_low - Lo a else 0) +
    (if (Rleb lo a && Rleb a hi) || (Rleb lo b && Rleb b hi) || (Rleb a lo && Rleb hi b) then let T1_mid := if Rltb lo a then a else lo in let T2_mid := if Rltb b hi then b else hi in G T2_mid - G T1_mid else 0) +
    (if Rltb hi b then let T1_high := if Rltb hi a then a else hi in Hi b - Hi T1_high else 0) = W b - W a).
  { intros a b L. unfold W, whole. cbv zeta.
    destruct (Rltb_spec a lo), (Rltb_spec b lo), (Rltb_spec hi a), (Rltb_spec hi b); try lra; repeat kd; try lra; try (replace a with lo by lra); try (replace b with hi by lra); try lra. }
  unfold ext_fit_integral. destruct (Rltb_spec T2 T1) as [K|K]; cbv zeta; fold Lo Hi.
  - pose proof (E T2 T1 ltac:(lra)) as F. cbv zeta in F. rewrite F. ring.
  - pose proof (E T1 T2 ltac:(lra)) as F. cbv zeta in F. rewrite F. ring.
Qed.
Definition polynomial_continued (p : params) : R -> R := with_tangents (power_series (coeffs p)) (Derive (power_series (coeffs p))) (Tmin p) (Tmax p).
Lemma series_derive cs x : is_derive (power_series cs) x (ext_horner (ext_der cs) x).
Proof. apply (is_derive_fext (fun x => ext_horner cs x)); [intros; apply power_series_eq|apply horner_derive]. Qed.
Lemma Derive_series cs x : Derive (power_series cs) x = ext_horner (ext_der cs) x.
Proof. apply is_derive_unique, series_derive. Qed.
Theorem C39_polynomial_integral p T1 T2 : 0 < Tmin p -> Tmin p < Tmax p -> is_RInt (polynomial_continued p) T1 T2 (poly_integral p T1 T2).
Proof.
  intros P L. unfold poly_integral. rewrite fit_integral_whole by auto. cbv zeta. cbn [j1 ext_poly].
  apply (whole_RInt (Tmin p) (Tmax p) (fun T => power_series (coeffs p) (Tmin p) + Derive (power_series (coeffs p)) (Tmin p) * (T - Tmin p)) (power_series (coeffs p)) (fun T => power_series (coeffs p) (Tmax p) + Derive (power_series (coeffs p)) (Tmax p) * (T - Tmax p))
    _ (ext_horner (ext_polyint (coeffs p))) _ anywhere); auto; try (intros; exact I); try (intros; ring).
  - intros t _ _. unfold line_int. rewrite Derive_series, <- power_series_eq. auto_derive; [exact I|]. field.
  - intros t _. rewrite <- power_series_eq. apply polyint_derive.
  - intros t _. unfold line_int. rewrite Derive_series, <- power_series_eq. auto_derive; [exact I|]. field.
  - intros t _ _. apply (continuous_of_derive _ _ (Derive (power_series (coeffs p)) (Tmin p))). auto_derive; [exact I|ring].
  - intros t _. eapply continuous_of_derive, series_derive.
  - intros t _. apply (continuous_of_derive _ _ (Derive (power_series (coeffs p)) (Tmax p))). auto_derive; [exact I|ring].
Qed.
Theorem C39_polynomial_integral_over_T p T1 T2 : 0 < Tmin p -> Tmin p < Tmax p -> 0 < T1 -> 0 < T2 -> is_RInt (fun T => polynomial_continued p T / T) T1 T2 (poly_integral_over_T p T1 T2).
Proof.
  intros P L P1 P2. unfold poly_integral_over_T. cbv zeta. rewrite fit_integral_whole by auto. cbv zeta. cbn [j1 ext_poly].
  eapply is_RInt_ext; [|apply (whole_RInt (Tmin p) (Tmax p) (fun T => (power_series (coeffs p) (Tmin p) + Derive (power_series (coeffs p)) (Tmin p) * (T - Tmin p)) / T) (fun T => power_series (coeffs p) T / T) (fun T => (power_series (coeffs p) (Tmax p) + Derive (power_series (coeffs p)) (Tmax p) * (T - Tmax p)) / T)
    _ (ext_horner_log (fst (ext_polyint_over_x (coeffs p))) (snd (ext_polyint_over_x (coeffs p)))) _ (fun t => 0 < t)); auto].
  - intros T _. unfold polynomial_continued, with_tangents, whole. destruct (Rltb T (Tmin p)); [reflexivity|]. destruct (Rltb (Tmax p) T); reflexivity.
  - field. lra.
  - field. lra.
  - intros t Ht _. unfold line_int_over_T. rewrite Derive_series, <- power_series_eq. auto_derive; [exact Ht|]. field. lra.
  - intros t Ht. rewrite <- power_series_eq. apply polyint_over_x_derive. lra.
  - intros t Ht. unfold line_int_over_T. rewrite Derive_series, <- power_series_eq. auto_derive; [lra|]. field. lra.
  - intros t Ht _. apply (continuous_mult (fun T => power_series (coeffs p) (Tmin p) + Derive (power_series (coeffs p)) (Tmin p) * (T - Tmin p)) (fun T => / T)).
    + apply (continuous_of_derive _ _ (Derive (power_series (coeffs p)) (Tmin p))). auto_derive; [exact I|ring].
    + apply continuous_Rinv. lra.
  - intros t Ht. apply (continuous_mult (power_series (coeffs p)) (fun T => / T)); [eapply continuous_of_derive, series_derive|apply continuous_Rinv; lra].
  - intros t Ht. apply (continuous_mult (fun T => power_series (coeffs p) (Tmax p) + Derive (power_series (coeffs p)) (Tmax p) * (T - Tmax p)) (fun T => / T)).
    + apply (continuous_of_derive _ _ (Derive (power_series (coeffs p)) (Tmax p))). auto_derive; [exact I|ring].
    + apply continuous_Rinv. lra.
  - intros t Ht. pose proof (Rmin_glb_lt T1 T2 0 P1 P2). lra.
Qed.
(* The tangents are the linear extrapolation, so the integrand is what the object returns *)
Theorem C39_polynomial_continued pmin pmax O quad numder logder p T : 0 < Tmin p -> Tmin p < Tmax p -> (forall T, Tmin p <= T <= Tmax p -> pmin <= power_series (coeffs p) T <= pmax) ->
  e_low O = LINEAR -> e_high O = LINEAR -> e_min O = None -> e_max O = None -> 0 < T -> T_dependent_property pmin pmax true O (fit_method quad numder logder POLY p) T = Some (polynomial_continued p T).
Proof.
  intros P L HV El Eh Em Ex HT. unfold T_dependent_property, polynomial_continued, with_tangents, inside. cbn [fit_method m_lo m_hi le_hi].
  destruct (Rltb_spec T (Tmin p)) as [A|A]; [|destruct (Rltb_spec (Tmax p) T) as [B|B]].
  - rewrite (Rleb_false (Tmin p)) by lra. cbn [andb]. unfold extrapolate, side. cbn [fit_method m_lo m_hi ge_hi]. rewrite (Rltb_false T 0), (Rleb_true T (Tmin p)), El, Em, Ex by lra.
    cbn [fit_method get_coeffs m_lo calc cder fit_value fit_derivative bind2 extrapolated limit_T clamp ext_poly j1]. now rewrite power_series_eq, Derive_series.
  - rewrite (Rleb_true (Tmin p)), (Rleb_false T) by lra. cbn [andb]. unfold extrapolate, side. cbn [fit_method m_lo m_hi ge_hi]. rewrite (Rltb_false T 0), (Rleb_false T (Tmin p)), (Rleb_true (Tmax p) T), Eh, Em, Ex by lra.
    cbn [fit_method get_coeffs m_hi calc cder fit_value fit_derivative bind2 extrapolated limit_T clamp ext_poly j1]. now rewrite power_series_eq, Derive_series.
  - rewrite (Rleb_true (Tmin p)), (Rleb_true T) by lra. cbn [andb fit_method calc fit_value]. rewrite power_series_eq. unfold valid. destruct (HV T ltac:(lra)). now rewrite !Rltb_false by lra.
Qed.
(* Every fit meets the conditions under which extrapolation (C36) and integration (C37) of a method are proved: derivatives of the value at and between the limits ... *)
Lemma cont_value m p a T : in_domain m p T -> continuous (fit_value m p a) T.
Proof. intros D. pose proof (jet_n m p a 1 T D ltac:(lia)) as J. eapply continuous_of_derive, J. Qed.
Lemma dom m p T : good_params m p -> T <= Tmax p -> in_domain m p T.
Proof. intros [L G] H U. destruct (G U). lra. Qed.
Lemma ex_n m p a n T : in_domain m p T -> (n <= 3)%nat -> ex_derive_n (fit_value m p a) n T.
Proof. intros D N. destruct n as [|n]; [exact I|]. eexists. apply (jet_n m p a (S n) T D N). Qed.
Theorem C39_smooth_constructor quad numder logder m p : good_params m p -> (forall T, Tmin p <= T <= Tmax p -> logder (fit_value m p (set_fit m p)) T = Some (Derive (fit_value m p (set_fit m p)) T / fit_value m p (set_fit m p) T)) ->
  smooth_range (fit_method quad numder logder m p) (Tmin p) (Tmax p) (fit_value m p (set_fit m p)) (Derive (fit_value m p (set_fit m p))) (Derive_n (fit_value m p (set_fit m p)) 2).
Proof.
  intros G H. set (F := fit_value m p (set_fit m p)) in *. pose (a := set_fit m p).
  assert (A : forall n t, t <= Tmax p -> (n <= 3)%nat -> ex_derive_n F n t) by (intros n t Ht Hn; apply (ex_n m p a); auto; now apply dom).
  assert (B : forall n t v, t <= Tmax p -> fit_derivative m p a n t = Analytical v -> Derive_n F n t = v) by (intros n t v Ht E; apply is_derive_n_unique, C39_derivative_of_constructor; auto; now apply dom).
  assert (E : forall n t, (n = 1 \/ n = 2)%nat -> exists v, fit_derivative m p a n t = Analytical v) by (intros n t K; apply (proj1 (C39_closed_forms m p a n t)); tauto).
  constructor; auto.
  - intros T HT. apply Derive_correct. apply (A 1%nat); [lra|lia].
  - intros T HT. change (is_derive (Derive_n F 1) T (Derive_n F 2 T)). apply (Derive_correct (Derive_n F 1)). apply (A 2%nat); [lra|lia].
  - intros T HT. cbn [cder fit_method]. fold a. destruct (E 1%nat T (or_introl eq_refl)) as [v K]. rewrite K. f_equal. symmetry. apply (B 1%nat); auto; lra.
  - intros T HT. cbn [cder fit_method]. fold a. destruct (E 2%nat T (or_intror eq_refl)) as [v K]. rewrite K. f_equal. symmetry. apply (B 2%nat); auto; lra.
Qed.
Theorem C39_smooth_correlation quad numder logder is_Cp m p : m <> POLY -> good_params m p -> (forall T, Tmin p <= T <= Tmax p -> logder (fit_value m p (add_fit m p)) T = Some (Derive (fit_value m p (add_fit m p)) T / fit_value m p (add_fit m p) T)) ->
  smooth_range (corr_method quad numder logder is_Cp m p) (Tmin p) (Tmax p) (fit_value m p (add_fit m p)) (Derive (fit_value m p (add_fit m p))) (Derive_n (fit_value m p (add_fit m p)) 2).
Proof.
  intros NP G H. set (F := fit_value m p (add_fit m p)) in *. pose (a := add_fit m p).
  assert (A : forall n t, t <= Tmax p -> (n <= 3)%nat -> ex_derive_n F n t) by (intros n t Ht Hn; apply (ex_n m p a); auto; now apply dom).
  assert (B : forall n t v, t <= Tmax p -> corr_derivative m p a n t = Analytical v -> Derive_n F n t = v) by (intros n t v Ht E; apply is_derive_n_unique, C39_derivative_of_correlation; auto; now apply dom).
  assert (E : forall n t, (n = 1 \/ n = 2)%nat -> exists v, corr_derivative m p a n t = Analytical v) by (intros n t K; apply (proj2 (C39_closed_forms m p a n t)); tauto).
  constructor; auto.
  - intros T HT. apply Derive_correct. apply (A 1%nat); [lra|lia].
  - intros T HT. change (is_derive (Derive_n F 1) T (Derive_n F 2 T)). apply (Derive_correct (Derive_n F 1)). apply (A 2%nat); [lra|lia].
  - intros T HT. cbn [cder corr_method]. fold a. destruct (E 1%nat T (or_introl eq_refl)) as [v K]. rewrite K. f_equal. symmetry. apply (B 1%nat); auto; lra.
  - intros T HT. cbn [cder corr_method]. fold a. destruct (E 2%nat T (or_intror eq_refl)) as [v K]. rewrite K. f_equal. symmetry. apply (B 2%nat); auto; lra.
Qed.

(* ... and integrals of the value between any two temperatures inside the limits, by closed forms for polynomials and an exact quadrature otherwise *)
Definition exact_quad_R (quad : (R -> R) -> R -> R -> R) : Prop := forall f a b x, is_RInt f a b x -> quad f a b = x.
Lemma continued_inside p T : Tmin p <= T <= Tmax p -> polynomial_continued p T = power_series (coeffs p) T.
Proof. intros H. unfold polynomial_continued, with_tangents. now rewrite !Rltb_false by lra. Qed.
Lemma between (a b lo hi t : R) : lo <= a <= hi -> lo <= b <= hi -> Rmin a b < t < Rmax a b -> lo <= t <= hi.
Proof. intros A B H. destruct (Rle_or_lt a b); [rewrite Rmin_left, Rmax_right in H by lra|rewrite Rmin_right, Rmax_left in H by lra]; lra. Qed.
Lemma between' (a b lo hi t : R) : lo <= a <= hi -> lo <= b <= hi -> Rmin a b <= t <= Rmax a b -> lo <= t <= hi.
Proof. intros A B H. destruct (Rle_or_lt a b); [rewrite Rmin_left, Rmax_right in H by lra|rewrite Rmin_right, Rmax_left in H by lra]; lra. Qed.
Lemma quad_value quad m p a T1 T2 : exact_quad_R quad -> good_params m p -> Tmin p <= T1 <= Tmax p -> Tmin p <= T2 <= Tmax p -> is_RInt (fit_value m p a) T1 T2 (quad (fit_value m p a) T1 T2).
Proof.
  intros Q G A B. assert (E : ex_RInt (fit_value m p a) T1 T2).
  { apply (ex_RInt_continuous (V := R_CompleteNormedModule)). intros t Ht. apply cont_value, dom; auto. apply (between' T1 T2 (Tmin p)); auto. }
  destruct E as [x E]. rewrite (Q _ _ _ _ E). exact E.
Qed.
Lemma quad_value_over quad m p a T1 T2 : exact_quad_R quad -> good_params m p -> 0 < Tmin p -> Tmin p <= T1 <= Tmax p -> Tmin p <= T2 <= Tmax p -> is_RInt (fun T => fit_value m p a T / T) T1 T2 (quad (fun T => fit_value m p a T / T) T1 T2).
Proof.
  intros Q G P A B. assert (E : ex_RInt (fun T => fit_value m p a T / T) T1 T2).
  { apply (ex_RInt_continuous (V := R_CompleteNormedModule)). intros t Ht. destruct (between' T1 T2 (Tmin p) (Tmax p) t); auto. apply (continuous_mult (fit_value m p a) (fun T => / T)); [apply cont_value, dom; auto|apply continuous_Rinv; lra]. }
  destruct E as [x E]. rewrite (Q _ _ _ _ E). exact E.
Qed.
Lemma poly_int_inside m p a T1 T2 : m = POLY -> 0 < Tmin p -> Tmin p < Tmax p -> Tmin p <= T1 <= Tmax p -> Tmin p <= T2 <= Tmax p -> is_RInt (fit_value m p a) T1 T2 (poly_integral p T1 T2) /\ is_RInt (fun T => fit_value m p a T / T) T1 T2 (poly_integral_over_T p T1 T2).
Proof.
  intros -> P L A B. split.
  - eapply is_RInt_ext; [|apply C39_polynomial_integral; auto]. intros t Ht. rewrite continued_inside by (now apply (between T1 T2)). cbn. now rewrite power_series_eq.
  - eapply is_RInt_ext; [|apply C39_polynomial_integral_over_T; auto; lra]. intros t Ht. cbn [fit_value]. rewrite power_series_eq, <- (continued_inside p t); [reflexivity|now apply (between T1 T2)].
Qed.
Theorem C39_integral_of_constructor quad m p T1 T2 : exact_quad_R quad -> good_params m p -> 0 < Tmin p -> Tmin p <= T1 <= Tmax p -> Tmin p <= T2 <= Tmax p ->
  (exists x, fit_integral quad m p (set_fit m p) T1 T2 = Some x /\ is_RInt (fit_value m p (set_fit m p)) T1 T2 x) /\
  (exists x, fit_integral_over_T quad m p (set_fit m p) T1 T2 = Some x /\ is_RInt (fun T => fit_value m p (set_fit m p) T / T) T1 T2 x).
Proof.
  intros Q G P A B. split.
  - destruct m; cbn [fit_integral]; try (eexists; split; [reflexivity|]; apply quad_value; now auto). eexists. split; [reflexivity|]. exact (proj1 (poly_int_inside POLY p _ T1 T2 eq_refl P (proj1 G) A B)).
  - destruct m; cbn [fit_integral_over_T]; try (eexists; split; [reflexivity|]; apply quad_value_over; now auto). eexists. split; [reflexivity|]. exact (proj2 (poly_int_inside POLY p _ T1 T2 eq_refl P (proj1 G) A B)).
Qed.
(* The closed forms of 'stable_polynomial' correlations of heat capacities hold beyond the limits too *)
Theorem C39_stable_polynomial_integral quad p T1 T2 : Tmin p < Tmax p ->
  exists x, corr_integral quad true STABLEPOLY p (add_fit STABLEPOLY p) T1 T2 = Some x /\ is_RInt (fit_value STABLEPOLY p (add_fit STABLEPOLY p)) T1 T2 x.
Proof.
  intros L. cbn [corr_integral]. eexists. split; [reflexivity|]. cbn [j0 ext_stable add_fit no_cheb offset scale fit_value].
  set (o := ext_offset (Tmin p) (Tmax p)). set (s := ext_scale (Tmin p) (Tmax p)). assert (S : s <> 0) by (unfold s, ext_scale; apply Rgt_not_eq, Rdiv_lt_0_compat; lra).
  assert (E : forall x, ext_horner (ext_polyint_stable (coeffs p) (Tmin p) (Tmax p)) x = / s * ext_horner (ext_polyint (coeffs p)) x) by (intros x; apply horner_map; intros c; fold s; field; auto).
  apply (is_RInt_derive (V := R_CompleteNormedModule) (fun T => ext_horner (ext_polyint_stable (coeffs p) (Tmin p) (Tmax p)) (o + s * T))).
  - intros t _. apply (is_derive_fext (fun T => / s * ext_horner (ext_polyint (coeffs p)) (o + s * T))); [intros; symmetry; apply E|].
    eapply is_derive_eq; [apply (d_affine_c (/ s) (fun y => ext_horner (ext_polyint (coeffs p)) y)), polyint_derive|]. change (/ s * s * ext_horner (coeffs p) (o + s * t) = ext_horner (coeffs p) (o + s * t)). field. auto.
  - intros t _. apply (continuous_of_derive _ _ (s * ext_horner (ext_der (coeffs p)) (o + s * t))). apply (d_affine (fun y => ext_horner (coeffs p) y)), horner_derive.
Qed.
Theorem C39_stable_polynomial_integral_over_T quad p T1 T2 : Tmin p < Tmax p -> 0 < T1 -> 0 < T2 ->
  exists x, corr_integral_over_T quad true STABLEPOLY p (add_fit STABLEPOLY p) T1 T2 = Some x /\ is_RInt (fun T => fit_value STABLEPOLY p (add_fit STABLEPOLY p) T / T) T1 T2 x.
Proof.
  intros L P1 P2. cbn [corr_integral_over_T]. cbv zeta. eexists. split; [reflexivity|]. unfold ext_horner_stable_log. cbn [j0 ext_stable add_fit no_cheb offset scale fit_value].
  set (o := ext_offset (Tmin p) (Tmax p)). set (s := ext_scale (Tmin p) (Tmax p)). assert (S : s <> 0) by (unfold s, ext_scale; apply Rgt_not_eq, Rdiv_lt_0_compat; lra).
  unfold ext_polyint_over_x_stable. fold o s. set (q := rev (pcompose (rev (coeffs p)) o s)).
  assert (Eq : forall x, ext_horner q x = ext_horner (coeffs p) (o + s * x)) by (intros x; unfold q; rewrite pval_horner, pval_compose, <- pval_horner, rev_involutive; reflexivity).
  assert (Ei : forall x, ext_horner (rev (ext_poly_convert (rev (fst (ext_polyint_over_x q))) (Tmin p) (Tmax p))) (o + s * x) = ext_horner (fst (ext_polyint_over_x q)) x).
  { intros x. unfold ext_poly_convert. fold o s. rewrite pval_horner, pval_compose, <- pval_horner, rev_involutive. f_equal. field. auto. }
  rewrite !Ei. assert (K : forall t, Rmin T1 T2 <= t <= Rmax T1 T2 -> 0 < t) by (intros t Ht; pose proof (Rmin_glb_lt T1 T2 0 P1 P2); lra).
  apply (is_RInt_ext (fun t => ext_horner q t / t)); [intros t _; rewrite Eq; reflexivity|].
  replace (ext_horner (fst (ext_polyint_over_x q)) T2 + snd (ext_polyint_over_x q) * ln T2 - (ext_horner (fst (ext_polyint_over_x q)) T1 + snd (ext_polyint_over_x q) * ln T1))
    with (ext_horner_log (fst (ext_polyint_over_x q)) (snd (ext_polyint_over_x q)) T2 - ext_horner_log (fst (ext_polyint_over_x q)) (snd (ext_polyint_over_x q)) T1) by (unfold ext_horner_log; ring).
  apply (is_RInt_derive (V := R_CompleteNormedModule) (ext_horner_log (fst (ext_polyint_over_x q)) (snd (ext_polyint_over_x q)))).
  - intros t Ht. apply polyint_over_x_derive, K, Ht.
  - intros t Ht. apply (continuous_mult (fun t => ext_horner q t) (fun T => / T)); [eapply continuous_of_derive, horner_derive|apply continuous_Rinv; apply K in Ht; lra].
Qed.
Theorem C39_integral_of_correlation quad is_Cp m p T1 T2 : exact_quad_R quad -> good_params m p -> 0 < Tmin p -> Tmin p <= T1 <= Tmax p -> Tmin p <= T2 <= Tmax p -> is_Cp = true \/ m <> POLY ->
  (exists x, corr_integral quad is_Cp m p (add_fit m p) T1 T2 = Some x /\ is_RInt (fit_value m p (add_fit m p)) T1 T2 x) /\
  (exists x, corr_integral_over_T quad is_Cp m p (add_fit m p) T1 T2 = Some x /\ is_RInt (fun T => fit_value m p (add_fit m p) T / T) T1 T2 x).
Proof.
  intros Q G P A B U. split.
  - destruct m; cbn [corr_integral]; try (eexists; split; [reflexivity|]; apply quad_value; now auto).
    + destruct U as [->|]; [|congruence]. eexists. split; [reflexivity|]. exact (proj1 (poly_int_inside POLY p _ T1 T2 eq_refl P (proj1 G) A B)).
    + destruct is_Cp; [apply (C39_stable_polynomial_integral quad); apply G|]. eexists. split; [reflexivity|]. now apply quad_value.
  - destruct m; cbn [corr_integral_over_T]; try (eexists; split; [reflexivity|]; apply quad_value_over; now auto).
    + destruct U as [->|]; [|congruence]. eexists. split; [reflexivity|]. exact (proj2 (poly_int_inside POLY p _ T1 T2 eq_refl P (proj1 G) A B)).
    + destruct is_Cp; [apply (C39_stable_polynomial_integral_over_T quad); [apply G|lra|lra]|]. eexists. split; [reflexivity|]. now apply quad_value_over.
Qed.
(* A 'polynomial' correlation of a property other than a heat capacity has no integral *)
Theorem C39_polynomial_correlation_integral_refuted : exists p, good_params POLY p /\ 0 < Tmin p /\ forall quad T1 T2, corr_integral quad false POLY p (add_fit POLY p) T1 T2 = None /\ corr_integral_over_T quad false POLY p (add_fit POLY p) T1 T2 = None.
Proof. exists {| Tmin := 200; Tmax := 300; pTc := 0; coeffs := [2; 1] |}. split; [split; [cbn; lra|discriminate]|]. split; [cbn; lra|]. intros. split; reflexivity. Qed.
(* calculate_integral of a polynomial fit integrates the tangents beyond the limits, where calculate returns the polynomial *)
Theorem C39_integral_of_calculate_refuted : exists p T1 T2 x, good_params POLY p /\ 0 < Tmin p /\ (forall quad, fit_integral quad POLY p (set_fit POLY p) T1 T2 = Some x) /\ ~ is_RInt (fit_value POLY p (set_fit POLY p)) T1 T2 x.
Proof.
  exists {| Tmin := 1; Tmax := 2; pTc := 0; coeffs := [1; 0; 0] |}, 2, 4, 16. split; [split; [cbn; lra|discriminate]|]. split; [cbn; lra|]. split.
  - intros quad. cbn [fit_integral]. apply (f_equal (@Some R)). unfold poly_integral, ext_fit_integral. cbn [Tmin Tmax coeffs].
    rewrite (Rltb_false 4 2), (Rltb_false 2 1), (Rltb_true 2 4), (Rltb_false 2 2), (Rltb_true 1 2), (Rleb_true 1 2), (Rleb_true 2 2) by lra. cbn [andb orb]. unfold line_int, ext_horner. cbn. lra.
  - intros H. assert (K : is_RInt (fit_value POLY {| Tmin := 1; Tmax := 2; pTc := 0; coeffs := [1; 0; 0] |} (set_fit POLY {| Tmin := 1; Tmax := 2; pTc := 0; coeffs := [1; 0; 0] |})) 2 4 (56 / 3)).
    { apply (RInt_by (fun x => ext_horner (ext_polyint [1; 0; 0]) x)); [lra|intros; apply polyint_derive|intros; eapply continuous_of_derive, (horner_derive [1; 0; 0])|]. unfold ext_horner. cbn. field. }
    pose proof (@is_RInt_unique R_CompleteNormedModule _ _ _ _ H) as H1. pose proof (@is_RInt_unique R_CompleteNormedModule _ _ _ _ K) as K1. rewrite H1 in K1. lra.
Qed.
Example C39_hypotheses_met :
  let p := {| Tmin := 200; Tmax := 300; pTc := 400; coeffs := [1; 2; 3] |} in (forall m, good_params m p) /\ 0 < Tmin p /\ (forall m, in_domain m p 350) /\
  (exists v, fit_derivative EXP_CHEB_LN_TAU p (set_fit EXP_CHEB_LN_TAU p) 2 350 = Analytical v) /\ (exists v, corr_derivative STABLEPOLY p (add_fit STABLEPOLY p) 4 350 = Analytical v) /\
  exact_quad_R (fun f a b => RInt f a b) /\ (forall T, 200 <= T <= 300 -> 0 <= power_series (coeffs p) T <= 1000000).
Proof.
  cbv zeta. split; [intros m; split; cbn; intros; lra|]. split; [cbn; lra|]. split; [intros m; unfold in_domain; cbn; intros; lra|].
  split; [eexists; reflexivity|]. split; [eexists; reflexivity|]. split; [intros f a b x H; now apply is_RInt_unique|].
  intros T HT. rewrite <- power_series_eq. unfold ext_horner. cbn. nra.
Qed.
