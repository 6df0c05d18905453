(* C72: second derivatives of the volume and of the fugacity coefficients of cubic mixtures with amounts. *)
From Coq Require Import Reals Lra Lia Arith Bool FunctionalExtensionality.
From Coquelicot Require Import Coquelicot.
From Verif Require Import Base BaseFacts Spec_eos EosFacts Spec_mix MixFacts Gen_eos Gen_mix Gen_eosmix MixDeriv MixParams Gen_lnphi LnphiFacts Spec_activity ActFacts NrtlFacts Gen_activity Gen_d2comp Prop_C28 Prop_C71.
Open Scope R_scope.

(* ---- along a change of one amount ---- *)
Section Curve.
Variables (T P : R) (v b d e a bi di ei ai vi : R -> R) (t v' b' d' e' a' bi' di' ei' ai' vi' : R).
Hypotheses (Dv : is_derive v t v') (Db : is_derive b t b') (Dd : is_derive d t d') (De : is_derive e t e') (Da : is_derive a t a').
Hypotheses (Dbi : is_derive bi t bi') (Ddi : is_derive di t di') (Dei : is_derive ei t ei') (Dai : is_derive ai t ai') (Dvi : is_derive vi t vi').
Hypotheses (HT : 0 < T) (HP : 0 < P) (HD : 0 < d t * d t - 4 * e t) (Hp : above_poles (b t) (d t) (e t) (v t)).
Let Q := v t ^ 2 + d t * v t + e t.
Let D := d t * d t - 4 * e t.
Let w := 2 * v t + d t.
Let K := Kf (d t) (e t) (v t).
Let pV := - Rgas * T / (v t - b t) ^ 2 + a t * w / Q ^ 2.

Lemma Qp : 0 < Q.
Proof. destruct Hp. apply Kf_Q_pos; auto. Qed.

Lemma near_t : locally t (fun s => 0 < d s * d s - 4 * e s /\ above_poles (b s) (d s) (e s) (v s)).
Proof.
  destruct Hp as [H1 H2].
  assert (L1 : locally t (fun s => 0 < d s * d s - 4 * e s)). { apply (pos_loc (fun s => d s * d s - 4 * e s)); auto. auto_derive. splits; eexists; eassumption. }
  assert (L2 : locally t (fun s => 0 < v s - b s)). { apply (pos_loc (fun s => v s - b s)); [|lra]. auto_derive. splits; eexists; eassumption. }
  assert (L3 : locally t (fun s => 0 < 2 * v s + d s - sqrt (d s * d s - 4 * e s))).
  { apply (pos_loc (fun s => 2 * v s + d s - sqrt (d s * d s - 4 * e s))); [|lra]. auto_derive. splits; try (eexists; eassumption). lra. }
  generalize (filter_and _ _ L1 (filter_and _ _ L2 L3)). apply filter_imp. intros s (A & B & C). split; [auto|split; lra].
Qed.

(* the integral of 1 / (V^2 + delta V + epsilon) that appears in the departures *)
Lemma Kf_curve : is_derive (fun s => Kf (d s) (e s) (v s)) t (- v' / Q - ((d' * d t - 2 * e') * K / D + (d' - (d' * d t - 2 * e') * w / D) / (2 * Q))).
Proof.
  pose proof Rgas_pos as HR. pose proof Qp as HQ.
  assert (C : forall c : R, is_derive (fun s => eos_lnphi T P (v s) (b s) (d s) (e s) c) t (dlnf T P (v t) (b t) (d t) (e t) c v' b' d' e' 0)).
  { intros c. apply (lnphi_curve T P v b d e (fun _ => c)); auto. auto_derive; auto. }
  apply (is_derive_ext_loc (fun s => Rgas * T * (eos_lnphi T P (v s) (b s) (d s) (e s) 0 - eos_lnphi T P (v s) (b s) (d s) (e s) 1))).
  { generalize near_t. apply filter_imp. intros s [A [B E]]. pose proof (sqrt_lt_R0 _ A) as SP.
    set (u := 2 * v s * (1 / sqrt (d s * d s - 4 * e s)) + d s * (1 / sqrt (d s * d s - 4 * e s))).
    transitivity (Rgas * T * ((P * v s * (1 / (Rgas * T)) + ln (Rgas * T / (P * (v s - b s))) - 1 - 2 * 0 * fancy u * (1 / (Rgas * T)) * (1 / sqrt (d s * d s - 4 * e s)))
       - (P * v s * (1 / (Rgas * T)) + ln (Rgas * T / (P * (v s - b s))) - 1 - 2 * 1 * fancy u * (1 / (Rgas * T)) * (1 / sqrt (d s * d s - 4 * e s))))); [reflexivity|].
    assert (Eu : u = 1 / sqrt (d s * d s - 4 * e s) * (2 * v s + d s)) by (unfold u; field; lra).
    assert (Hu : 1 < u). { rewrite Eu. apply Rmult_lt_reg_r with (sqrt (d s * d s - 4 * e s)); auto. field_simplify; lra. }
    unfold fancy. destruct (fancy_re u) as [F _]; [lra|lra|]. rewrite F. unfold Kf. rewrite <- Eu. cR. field. splits; lra. }
  pose proof (C 0) as C0. pose proof (C 1) as C1.
  set (f0 := fun s : R => eos_lnphi T P (v s) (b s) (d s) (e s) 0). set (f1 := fun s : R => eos_lnphi T P (v s) (b s) (d s) (e s) 1).
  change (is_derive f0 t (dlnf T P (v t) (b t) (d t) (e t) 0 v' b' d' e' 0)) in C0. change (is_derive f1 t (dlnf T P (v t) (b t) (d t) (e t) 1 v' b' d' e' 0)) in C1.
  apply (is_derive_ext (fun s => Rgas * T * (f0 s - f1 s))); [reflexivity|]. clearbody f0 f1.
  auto_derive; [splits; try (eexists; eassumption); auto|]. dv C0. dv C1. chR. unfold dlnf. fold Q D K w.
  destruct Hp as [H1 _]. unfold D in *. field. splits; try lra.
Qed.

(* derivative of the first derivative of ln(phi) *)
Lemma dlnf_curve n m dVs dbs des dds das d2Vs d2bs d2es d2ds d2as : (n < m)%nat -> forall j, (j < m)%nat ->
  dVs n = vi t -> dbs n = bi t -> dds n = di t -> des n = ei t -> das n = ai t ->
  dVs j = v' -> dbs j = b' -> dds j = d' -> des j = e' -> das j = a' ->
  d2Vs n j = vi' -> d2bs n j = bi' -> d2ds n j = di' -> d2es n j = ei' -> d2as n j = ai' ->
  is_derive (fun s => dlnf T P (v s) (b s) (d s) (e s) (a s) (vi s) (bi s) (di s) (ei s) (ai s)) t
    (GCEOSMIX_d2_G_dep_lnphi_d2_helper (v t) dVs d2Vs dbs d2bs des d2es dds d2ds das d2as false T P m (b t) (d t) (e t) (a t) n j) /\
  GCEOSMIX_d2_G_dep_lnphi_d2_helper (v t) dVs d2Vs dbs d2bs des d2es dds d2ds das d2as true T P m (b t) (d t) (e t) (a t) n j =
    Rgas * T * GCEOSMIX_d2_G_dep_lnphi_d2_helper (v t) dVs d2Vs dbs d2bs des d2es dds d2ds das d2as false T P m (b t) (d t) (e t) (a t) n j.
Proof.
  intros Hn j Hj E1 E2 E3 E4 E5 E6 E7 E8 E9 E10 E11 E12 E13 E14 E15.
  pose proof Rgas_pos as HR. pose proof Qp as HQ. destruct Hp as [Hb Hs].
  unfold GCEOSMIX_d2_G_dep_lnphi_d2_helper. cbv zeta. rewrite !loop_updm_lt by auto. cbn [negb].
  split; [|match goal with |- ?x = _ => set (X := x) end; clearbody X; field; lra].
  rewrite E1, E2, E3, E4, E5, E6, E7, E8, E9, E10, E11, E12, E13, E14, E15.
  replace (-4 * e t + d t ^ 2) with D by (unfold D; ring). rewrite (Reqb_false D 0) by (unfold D; lra). cbv iota.
  assert (HD' : 0 < D) by exact HD.
  assert (SP : 0 < sqrt D) by (apply sqrt_lt_R0; auto). assert (SS : sqrt D * sqrt D = D) by (apply sqrt_sqrt; lra).
  assert (EK : re_catanh (1 / sqrt D * (2 * v t + d t)) = K * sqrt D / 2) by (unfold K, Kf; fold D; field; lra).
  rewrite EK.
  assert (ER : Rpower D (3 / 2) = D * sqrt D). { replace (3 / 2) with (1 + / 2) by lra. rewrite Rpower_plus, Rpower_1, Rpower_sqrt by auto. reflexivity. }
  assert (ER5 : Rpower D (5 / 2) = D * D * sqrt D). { replace (5 / 2) with (1 + (1 + / 2)) by lra. rewrite !Rpower_plus, !Rpower_1, Rpower_sqrt by auto. ring. }
  rewrite ER, ER5.
  assert (EQ : (2 * v t + d t) ^ 2 = 4 * Q + D) by (unfold Q, D; ring).
  replace ((2 * v t + d t) ^ 2 * (1 / D) - 1) with (4 * Q / D) by (rewrite EQ; field; lra).
  pose proof Kf_curve as DK. set (k := fun s : R => Kf (d s) (e s) (v s)).
  match type of DK with is_derive _ _ ?x => change (is_derive k t x) in DK end.
  apply (is_derive_ext (fun s => vi s * (P / (Rgas * T) - 1 / (v s - b s) + a s / (Rgas * T * (v s ^ 2 + d s * v s + e s)))
  - ai s * k s / (Rgas * T) + bi s / (v s - b s)
  + a s / (Rgas * T) * ((di s * d s - 2 * ei s) * k s / (d s * d s - 4 * e s)
                      + (di s - (di s * d s - 2 * ei s) * (2 * v s + d s) / (d s * d s - 4 * e s)) / (2 * (v s ^ 2 + d s * v s + e s))))); [reflexivity|].
  change K with (k t) in *. clearbody k.
  assert (NQ : v t ^ 2 + d t * v t + e t <> 0) by (apply Rgt_not_eq; exact HQ). assert (NR : Rgas * T <> 0) by nz.
  auto_derive.
  - splits; try (eexists; eassumption); auto; try lra; try (apply Rmult_integral_contrapositive_currified; auto; lra); try (fold D; lra).
  - dv Dv. dv Db. dv Dd. dv De. dv Da. dv Dvi. dv Dbi. dv Ddi. dv Dei. dv Dai. dv DK. chR.
    fold Q D. replace (d t * d t + - (4 * e t)) with D by (unfold D; ring).
    replace (v t * (v t * 1) + d t * v t + e t) with Q by (unfold Q; ring).
    assert (Ee : e t = (d t * d t - D) / 4) by (unfold D; field).
    assert (EQ4 : Q = ((2 * v t + d t) ^ 2 - D) / 4) by (unfold Q, D; field).
    unfold w. clearbody Q D. set (V := v t) in *. set (W := 2 * V + d t) in *. assert (Ed : d t = W - 2 * V) by (unfold W; ring). 
    set (dt := d t) in *. set (et := e t) in *. set (at_ := a t) in *. set (bt := b t) in *. set (vit := vi t) in *. set (bit := bi t) in *. set (dit := di t) in *. set (eit := ei t) in *. set (ait := ai t) in *. set (kt := k t) in *. set (q := sqrt D) in *.
    clearbody V W dt et at_ bt vit bit dit eit ait kt q. clear - HR HT HQ HD' SP EQ4 Ed Hb. subst dt.
    field_simplify_eq; [|splits; lra]. subst Q. field.
Qed.
End Curve.

(* derivative of the first derivative of the volume *)
Lemma dVf_curve T (v b d e a bi di ei ai : R -> R) (t v' b' d' e' a' bi' di' ei' ai' : R) n m j dVs dbs des dds das d2bs d2es d2ds d2as :
  is_derive v t v' -> is_derive b t b' -> is_derive d t d' -> is_derive e t e' -> is_derive a t a' ->
  is_derive bi t bi' -> is_derive di t di' -> is_derive ei t ei' -> is_derive ai t ai' ->
  v t <> b t -> v t ^ 2 + d t * v t + e t <> 0 ->
  - Rgas * T / (v t - b t) ^ 2 + a t * (2 * v t + d t) / (v t ^ 2 + d t * v t + e t) ^ 2 <> 0 ->
  (n < m)%nat -> (j < m)%nat ->
  dVs n = dVf T (v t) (b t) (d t) (e t) (a t) (bi t) (di t) (ei t) (ai t) -> dbs n = bi t -> dds n = di t -> des n = ei t -> das n = ai t ->
  dVs j = v' -> dbs j = b' -> dds j = d' -> des j = e' -> das j = a' ->
  d2bs n j = bi' -> d2ds n j = di' -> d2es n j = ei' -> d2as n j = ai' ->
  is_derive (fun s => dVf T (v s) (b s) (d s) (e s) (a s) (bi s) (di s) (ei s) (ai s)) t
    (GCEOSMIX_d2V_dij_wrapper (v t) dVs dbs d2bs des d2es dds d2ds das d2as T (b t) (e t) (d t) (a t) m n j).
Proof.
  intros Dv Db Dd De Da Dbi Ddi Dei Dai Hb HQ HC Hn Hj E1 E2 E3 E4 E5 E6 E7 E8 E9 E10 E12 E13 E14 E15.
  unfold GCEOSMIX_d2V_dij_wrapper. cbv zeta. rewrite loop_updm_lt by auto.
  assert (HV : v t - b t <> 0) by lra.
  set (N := fun s : R => - Rgas * T * bi s / (v s - b s) ^ 2 + ai s / (v s ^ 2 + d s * v s + e s) - a s * (di s * v s + ei s) / (v s ^ 2 + d s * v s + e s) ^ 2).
  set (C := fun s : R => - Rgas * T / (v s - b s) ^ 2 + a s * (2 * v s + d s) / (v s ^ 2 + d s * v s + e s) ^ 2).
  change (C t <> 0) in HC. change (dVs n = N t / C t) in E1. match goal with |- is_derive _ _ ?x => change (is_derive (fun s => N s / C s) t x) end.
  set (Q := v t ^ 2 + d t * v t + e t) in *. set (W := v t - b t) in *.
  assert (DN : is_derive N t (- Rgas * T * bi' / W ^ 2 + 2 * Rgas * T * bi t * (v' - b') / W ^ 3 + ai' / Q - ai t * ((2 * v t + d t) * v' + d' * v t + e') / Q ^ 2
     - (a' * (di t * v t + ei t) + a t * (di' * v t + di t * v' + ei')) / Q ^ 2 + 2 * a t * (di t * v t + ei t) * ((2 * v t + d t) * v' + d' * v t + e') / Q ^ 3)).
  { unfold N. auto_derive; [splits; try (eexists; eassumption); auto; try (fold W; fold Q; repeat apply Rmult_integral_contrapositive_currified; auto; lra)|].
    dv Dv. dv Db. dv Dd. dv De. dv Da. dv Dbi. dv Ddi. dv Dei. dv Dai. chR. unfold W, Q in *. field. splits; auto. }
  assert (DC : is_derive C t (2 * Rgas * T * (v' - b') / W ^ 3 + (a' * (2 * v t + d t) + a t * (2 * v' + d')) / Q ^ 2
     - 2 * a t * (2 * v t + d t) * ((2 * v t + d t) * v' + d' * v t + e') / Q ^ 3)).
  { unfold C. auto_derive; [splits; try (eexists; eassumption); auto; try (fold W; fold Q; repeat apply Rmult_integral_contrapositive_currified; auto; lra)|].
    dv Dv. dv Db. dv Dd. dv De. dv Da. chR. unfold W, Q in *. field. splits; auto. }
  assert (EC : C t = - Rgas * T / W ^ 2 + a t * (2 * v t + d t) / Q ^ 2) by reflexivity.
  assert (EN : N t = dVs n * C t) by (rewrite E1; field; auto).
  set (x := dVs n) in *. clearbody x. clear E1.
  match type of DN with is_derive _ _ ?p => set (n' := p) in DN end. match type of DC with is_derive _ _ ?p => set (c' := p) in DC end.
  apply is_derive_eq with ((n' - x * c') / C t).
  { clearbody N C. auto_derive; [splits; try (eexists; eassumption); auto|]. dv DN. dv DC. chR. rewrite EN. field. auto. }
  rewrite E2, E3, E4, E5, E6, E7, E8, E9, E10, E12, E13, E14, E15.
  match goal with |- _ = _ / ?den => replace den with (W ^ 3 * Q ^ 3 * C t) end.
  2:{ rewrite EC. fold W. replace (e t + v t * v t + v t * d t) with Q by (unfold Q; ring). field. auto. }
  fold W. replace (e t + v t * v t + v t * d t) with Q by (unfold Q; ring).
  assert (Ee : e t = Q - v t ^ 2 - d t * v t) by (unfold Q; ring).
  unfold n', c'. clearbody N C. set (c := C t) in *. clearbody c. clear EN EC DN DC n' c'. clearbody W Q.
  field_simplify_eq; [|splits; auto]. subst. ring.
Qed.

Lemma near_line n x i (H : (nat -> R) -> Prop) : (i < n)%nat -> near n x H -> locally (x i) (fun s => H (upd x i s)).
Proof.
  intros Hi (eps & He & F). exists (mkposreal eps He). intros s Hs. apply F. intros k Hk. unfold upd. destruct (Nat.eqb_spec k i) as [->|N].
  - exact Hs.
  - rewrite Rminus_diag_eq by auto. rewrite Rabs_R0. auto.
Qed.
Lemma near_here n x (H : (nat -> R) -> Prop) : near n x H -> H x.
Proof. intros (eps & He & F). apply F. intros. rewrite Rminus_diag_eq, Rabs_R0 by auto. auto. Qed.

(* The volume and the parameters as functions of the mole numbers: d gives the derivatives of the parameters with each mole number *)
Section Amounts.
Variables (n : nat) (T P : R) (B Dl Ep A V : (nat -> R) -> R) (dB dD dE dA : nat -> (nat -> R) -> R) (d2B d2D d2E d2A : nat -> nat -> R).
Variables (ns out : nat -> R) (i j : nat).
Definition regular_mixture (y : nat -> R) : Prop :=
  0 < Dl y * Dl y - 4 * Ep y /\ above_poles (B y) (Dl y) (Ep y) (V y) /\ P_cubic (fun _ => A y) (B y) (Dl y) (Ep y) T (V y) = P /\
  Derive (fun v => P_cubic (fun _ => A y) (B y) (Dl y) (Ep y) T v) (V y) <> 0.
Definition first_derivatives (k : nat) (y : nat -> R) : Prop :=
  partial B y k (dB k y) /\ partial Dl y k (dD k y) /\ partial Ep y k (dE k y) /\ partial A y k (dA k y) /\ ex_derive (fun s => V (upd y k s)) (y k).
Definition dV_list (y : nat -> R) : nat -> R :=
  eos_mix_dV_dzs T P (P * V y / (Rgas * T)) (B y) (Dl y) (Ep y) (A y) (fun k => dB k y) (fun k => dD k y) (fun k => dE k y) (fun k => dA k y) n out.
Hypotheses (HT : 0 < T) (HP : 0 < P) (Hi : (i < n)%nat) (Hj : (j < n)%nat).

Lemma pV_nz y : regular_mixture y -> V y <> B y /\ V y ^ 2 + Dl y * V y + Ep y <> 0 /\
  - Rgas * T / (V y - B y) ^ 2 + A y * (2 * V y + Dl y) / (V y ^ 2 + Dl y * V y + Ep y) ^ 2 <> 0.
Proof.
  intros (HD & [Hb Hs] & _ & N). pose proof (Kf_Q_pos _ _ _ HD Hs) as HQ. splits; try (apply Rgt_not_eq; lra).
  intros E. apply N. apply is_derive_unique. unfold P_cubic. auto_derive; [splits; auto; apply Rgt_not_eq; lra|]. rewrite <- E. field. split; apply Rgt_not_eq; lra.
Qed.
Lemma dV_value y k : (k < n)%nat -> regular_mixture y -> dV_list y k = dVf T (V y) (B y) (Dl y) (Ep y) (A y) (dB k y) (dD k y) (dE k y) (dA k y).
Proof.
  intros Hk M. destruct (pV_nz y M) as (N1 & N2 & N3). pose proof Rgas_pos as HR. unfold dV_list.
  assert (EV : P * V y / (Rgas * T) * (Rgas * T) / P = V y) by (field; splits; lra).
  pose proof (dV_entry T P (B y) (Dl y) (Ep y) (A y) n (P * V y / (Rgas * T)) (fun k => dB k y) (fun k => dD k y) (fun k => dE k y) (fun k => dA k y) out k Hk HT HP) as D. cbv zeta in D.
  rewrite EV in D. apply D; auto.
Qed.
Lemma dV_partial y k : (k < n)%nat -> near n y regular_mixture -> first_derivatives k y -> partial V y k (dV_list y k).
Proof.
  intros Hk M (F1 & F2 & F3 & F4 & F5). pose proof (near_here _ _ _ M) as M0. rewrite dV_value by auto. unfold partial in *.
  destruct (pV_nz y M0) as (N1 & N2 & N3).
  pose proof (volume_curve T P (fun s => V (upd y k s)) (fun s => B (upd y k s)) (fun s => Dl (upd y k s)) (fun s => Ep (upd y k s)) (fun s => A (upd y k s)) (y k)
    (dB k y) (dD k y) (dE k y) (dA k y) F1 F2 F3 F4 F5) as C. cbv beta in C. rewrite upd_self in C. apply C; auto.
  generalize (near_line n y k _ Hk M). apply filter_imp. intros s (_ & _ & E & _). exact E.
Qed.

Hypotheses (HM : near n ns regular_mixture) (Fi : near n ns (first_derivatives i)) (Fj : first_derivatives j ns).
Hypotheses (D2B : partial (dB i) ns j (d2B i j)) (D2D : partial (dD i) ns j (d2D i j)) (D2E : partial (dE i) ns j (d2E i j)) (D2A : partial (dA i) ns j (d2A i j)).
Let at_ (f : nat -> (nat -> R) -> R) : nat -> R := fun k => f k ns.
Let d2V := GCEOSMIX_d2V_dij_wrapper (V ns) (dV_list ns) (at_ dB) d2B (at_ dE) d2E (at_ dD) d2D (at_ dA) d2A T (B ns) (Ep ns) (Dl ns) (A ns) n.
Let d2G g := GCEOSMIX_d2_G_dep_lnphi_d2_helper (V ns) (dV_list ns) d2V (at_ dB) d2B (at_ dE) d2E (at_ dD) d2D (at_ dA) d2A g T P n (B ns) (Dl ns) (Ep ns) (A ns).

Lemma dV_second : partial (fun y => dV_list y i) ns j (d2V i j).
Proof.
  pose proof (near_here _ _ _ HM) as M0. destruct (pV_nz ns M0) as (N1 & N2 & N3). destruct Fj as (F1 & F2 & F3 & F4 & F5).
  pose proof (dV_partial ns j Hj HM Fj) as DV.
  apply (partial_near n (fun y => dV_list y i) (fun y => dVf T (V y) (B y) (Dl y) (Ep y) (A y) (dB i y) (dD i y) (dE i y) (dA i y)) ns j (d2V i j)).
  - eapply near_impl; [|exact HM]. intros y My. apply dV_value; auto.
  - auto.
  - unfold partial in *.
    pose proof (dVf_curve T (fun s => V (upd ns j s)) (fun s => B (upd ns j s)) (fun s => Dl (upd ns j s)) (fun s => Ep (upd ns j s)) (fun s => A (upd ns j s))
      (fun s => dB i (upd ns j s)) (fun s => dD i (upd ns j s)) (fun s => dE i (upd ns j s)) (fun s => dA i (upd ns j s)) (ns j)
      (dV_list ns j) (dB j ns) (dD j ns) (dE j ns) (dA j ns) (d2B i j) (d2D i j) (d2E i j) (d2A i j) i n j
      (dV_list ns) (at_ dB) (at_ dE) (at_ dD) (at_ dA) d2B d2E d2D d2A DV F1 F2 F3 F4 D2B D2D D2E D2A) as C. cbv beta in C. rewrite upd_self in C.
    apply C; auto. apply dV_value; auto.
Qed.

Lemma lnphi_second : let L y := eos_lnphi T P (V y) (B y) (Dl y) (Ep y) (A y) in
  exists g, near n ns (fun y => partial L y i (g y)) /\ partial g ns j (d2G false i j) /\ d2G true i j = Rgas * T * d2G false i j /\
    (forall y, near n y regular_mixture -> g y = G_dep_lnphi_d_helper T P (B y) (Dl y) (Ep y) (A y) n (P * V y / (Rgas * T)) (fun k => dB k y) (fun k => dE k y) (fun k => dD k y) (dV_list y) (fun k => dA k y) false out i).
Proof.
  intros L. pose proof Rgas_pos as HR. pose proof (near_here _ _ _ HM) as M0. destruct (pV_nz ns M0) as (N1 & N2 & N3).
  exists (fun y => dlnf T P (V y) (B y) (Dl y) (Ep y) (A y) (dV_list y i) (dB i y) (dD i y) (dE i y) (dA i y)).
  assert (EV : forall y, P * V y / (Rgas * T) * (Rgas * T) / P = V y) by (intros y; field; splits; lra).
  split.
  { eapply near_impl; [|apply (near_and _ _ _ _ (near_near _ _ _ HM) Fi)]. intros y [My Fy]. pose proof (dV_partial y i Hi My Fy) as DV.
    destruct Fy as (F1 & F2 & F3 & F4 & F5). destruct (near_here _ _ _ My) as (HD & Hp & _ & _). unfold partial in *.
    pose proof (lnphi_curve T P (fun s => V (upd y i s)) (fun s => B (upd y i s)) (fun s => Dl (upd y i s)) (fun s => Ep (upd y i s)) (fun s => A (upd y i s)) (y i) _ _ _ _ _ DV F1 F2 F3 F4 HT HP) as C.
    cbv beta in C. rewrite upd_self in C. apply C; auto. }
  destruct M0 as (HD & Hp & _ & _). pose proof (dV_partial ns j Hj HM Fj) as DV. pose proof dV_second as DVi. destruct Fj as (F1 & F2 & F3 & F4 & F5).
  unfold partial in *.
  destruct (dlnf_curve T P (fun s => V (upd ns j s)) (fun s => B (upd ns j s)) (fun s => Dl (upd ns j s)) (fun s => Ep (upd ns j s)) (fun s => A (upd ns j s))
      (fun s => dB i (upd ns j s)) (fun s => dD i (upd ns j s)) (fun s => dE i (upd ns j s)) (fun s => dA i (upd ns j s)) (fun s => dV_list (upd ns j s) i) (ns j)
      (dV_list ns j) (dB j ns) (dD j ns) (dE j ns) (dA j ns) (d2B i j) (d2D i j) (d2E i j) (d2A i j) (d2V i j) DV F1 F2 F3 F4 D2B D2D D2E D2A DVi HT HP
      ltac:(cbv beta; rewrite upd_self; exact HD) ltac:(cbv beta; rewrite upd_self; exact Hp) i n (dV_list ns) (at_ dB) (at_ dE) (at_ dD) (at_ dA) d2V d2B d2E d2D d2A Hi j Hj) as [C1 C2];
    try (cbv beta; rewrite ?upd_self; reflexivity).
  cbv beta in C1, C2. rewrite upd_self in C1, C2. splits.
  - exact C1.
  - exact C2.
  - intros y My. destruct (near_here _ _ _ My) as (HDy & Hpy & _ & _).
    destruct (helper_entry T P (B y) (Dl y) (Ep y) (A y) n (P * V y / (Rgas * T)) (fun k => dB k y) (fun k => dE k y) (fun k => dD k y) (dV_list y) (fun k => dA k y) out i Hi HT HP HDy) as [E _].
    { rewrite EV. exact Hpy. } rewrite EV in E. symmetry. exact E.
Qed.
End Amounts.

(* ---- the theorems ---- *)
(* second derivatives of the molar volume, of ln(phi) of the mixture and of its departure Gibbs energy with two mole numbers *)
Theorem C72_volume_hessian : forall n T P (B Dl Ep A V : (nat -> R) -> R) (dB dD dE dA : nat -> (nat -> R) -> R) d2B d2D d2E d2A (ns out : nat -> R) i j,
  0 < T -> 0 < P -> (i < n)%nat -> (j < n)%nat ->
  near n ns (regular_mixture T P B Dl Ep A V) -> near n ns (first_derivatives B Dl Ep A V dB dD dE dA i) -> first_derivatives B Dl Ep A V dB dD dE dA j ns ->
  partial (dB i) ns j (d2B i j) -> partial (dD i) ns j (d2D i j) -> partial (dE i) ns j (d2E i j) -> partial (dA i) ns j (d2A i j) ->
  let at_ (f : nat -> (nat -> R) -> R) : nat -> R := fun k => f k ns in
  let dV := eos_mix_dV_dzs T P (P * V ns / (Rgas * T)) (B ns) (Dl ns) (Ep ns) (A ns) (at_ dB) (at_ dD) (at_ dE) (at_ dA) n out in
  second_partial n V ns i j (GCEOSMIX_d2V_dij_wrapper (V ns) dV (at_ dB) d2B (at_ dE) d2E (at_ dD) d2D (at_ dA) d2A T (B ns) (Ep ns) (Dl ns) (A ns) n i j).
Proof.
  intros n T P B Dl Ep A V dB dD dE dA d2B d2D d2E d2A ns out i j HT HP Hi Hj HM Fi Fj D2B D2D D2E D2A at_ dV.
  exists (fun y => dV_list n T P B Dl Ep A V dB dD dE dA out y i). split.
  - eapply near_impl; [|apply (near_and _ _ _ _ (near_near _ _ _ HM) Fi)]. intros y [My Fy]. apply dV_partial; auto.
  - apply (dV_second n T P B Dl Ep A V dB dD dE dA d2B d2D d2E d2A ns out i j); auto.
Qed.

Theorem C72_gibbs_hessian : forall n T P (B Dl Ep A V : (nat -> R) -> R) (dB dD dE dA : nat -> (nat -> R) -> R) d2B d2D d2E d2A (ns out : nat -> R) i j,
  0 < T -> 0 < P -> (i < n)%nat -> (j < n)%nat ->
  near n ns (regular_mixture T P B Dl Ep A V) -> near n ns (first_derivatives B Dl Ep A V dB dD dE dA i) -> first_derivatives B Dl Ep A V dB dD dE dA j ns ->
  partial (dB i) ns j (d2B i j) -> partial (dD i) ns j (d2D i j) -> partial (dE i) ns j (d2E i j) -> partial (dA i) ns j (d2A i j) ->
  let at_ (f : nat -> (nat -> R) -> R) : nat -> R := fun k => f k ns in
  let dV := eos_mix_dV_dzs T P (P * V ns / (Rgas * T)) (B ns) (Dl ns) (Ep ns) (A ns) (at_ dB) (at_ dD) (at_ dE) (at_ dA) n out in
  let d2V := GCEOSMIX_d2V_dij_wrapper (V ns) dV (at_ dB) d2B (at_ dE) d2E (at_ dD) d2D (at_ dA) d2A T (B ns) (Ep ns) (Dl ns) (A ns) n in
  let d2 G := GCEOSMIX_d2_G_dep_lnphi_d2_helper (V ns) dV d2V (at_ dB) d2B (at_ dE) d2E (at_ dD) d2D (at_ dA) d2A G T P n (B ns) (Dl ns) (Ep ns) (A ns) in
  let lnphi y := eos_lnphi T P (V y) (B y) (Dl y) (Ep y) (A y) in
  second_partial n lnphi ns i j (d2 false i j) /\
  second_partial n (fun y => Rgas * T * lnphi y) ns i j (d2 true i j) /\
  (* and the derivatives of the fugacity coefficients of the components *)
  (rsum n ns = 1 ->
   let dlnphi := G_dep_lnphi_d_helper T P (B ns) (Dl ns) (Ep ns) (A ns) n (P * V ns / (Rgas * T)) (at_ dB) (at_ dE) (at_ dD) dV (at_ dA) false out in
   second_partial n (fun y => rsum n y * lnphi y) ns i j (d2ns_to_dn2_partials (d2 false) dlnphi n i j)).
Proof.
  intros n T P B Dl Ep A V dB dD dE dA d2B d2D d2E d2A ns out i j HT HP Hi Hj HM Fi Fj D2B D2D D2E D2A at_ dV d2V d2 lnphi.
  destruct (lnphi_second n T P B Dl Ep A V dB dD dE dA d2B d2D d2E d2A ns out i j HT HP Hi Hj HM Fi Fj D2B D2D D2E D2A) as (g & G1 & G2 & G3 & G4).
  splits.
  - exists g. split; [exact G1|exact G2].
  - exists (fun y => Rgas * T * g y). split.
    + eapply near_impl; [|exact G1]. intros y Hy. unfold partial in *. apply (is_derive_scal (fun s => lnphi (upd y i s))). exact Hy.
    + unfold partial in *. eapply is_derive_eq; [apply (is_derive_scal (fun s => g (upd ns j s))); exact G2|]. symmetry. exact G3.
  - intros Hs dlnphi.
    pose (d := fun (k : nat) (y : nat -> R) => G_dep_lnphi_d_helper T P (B y) (Dl y) (Ep y) (A y) n (P * V y / (Rgas * T)) (fun k => dB k y) (fun k => dE k y) (fun k => dD k y)
       (dV_list n T P B Dl Ep A V dB dD dE dA out y) (fun k => dA k y) false out k).
    apply (C28_d2ns_to_dn2_partials n lnphi ns d (d2 false) i j Hs Hi Hj).
    + eapply near_impl; [|apply (near_and _ _ _ _ (near_near _ _ _ HM) G1)]. intros y [My Hy]. unfold d. rewrite <- G4 by exact My. exact Hy.
    + pose proof (dV_partial n T P B Dl Ep A V dB dD dE dA out HT HP ns j Hj HM Fj) as DV. destruct Fj as (F1 & F2 & F3 & F4 & F5).
      destruct (near_here _ _ _ HM) as (HD & Hp & _ & _). unfold partial in *. pose proof Rgas_pos as HR.
      pose proof (lnphi_curve T P (fun s => V (upd ns j s)) (fun s => B (upd ns j s)) (fun s => Dl (upd ns j s)) (fun s => Ep (upd ns j s)) (fun s => A (upd ns j s)) (ns j) _ _ _ _ _ DV F1 F2 F3 F4 HT HP) as C.
      cbv beta in C. rewrite upd_self in C.
      assert (EV : P * V ns / (Rgas * T) * (Rgas * T) / P = V ns) by (field; splits; lra).
      destruct (helper_entry T P (B ns) (Dl ns) (Ep ns) (A ns) n (P * V ns / (Rgas * T)) (fun k => dB k ns) (fun k => dE k ns) (fun k => dD k ns) (dV_list n T P B Dl Ep A V dB dD dE dA out ns) (fun k => dA k ns) out j Hj HT HP HD) as [E _].
      { rewrite EV. exact Hp. } rewrite EV in E. unfold d. rewrite E. apply C; auto.
    + apply (partial_near n (d i) g ns j).
      * eapply near_impl; [|apply (near_near _ _ _ HM)]. intros y My. unfold d. symmetry. apply G4. exact My.
      * auto.
      * exact G2.
Qed.

(* The matrices are symmetric if the second derivatives of the parameters are. *)
Theorem C72_symmetric : forall n T P V b d e a dV db dd de da d2b d2d d2e d2a i j G,
  (i < n)%nat -> (j < n)%nat -> d2b i j = d2b j i -> d2d i j = d2d j i -> d2e i j = d2e j i -> d2a i j = d2a j i ->
  let d2V := GCEOSMIX_d2V_dij_wrapper V dV db d2b de d2e dd d2d da d2a T b e d a n in
  let d2 := GCEOSMIX_d2_G_dep_lnphi_d2_helper V dV d2V db d2b de d2e dd d2d da d2a G T P n b d e a in
  d2V i j = d2V j i /\ d2 i j = d2 j i /\ forall l, d2ns_to_dn2_partials d2 l n i j = d2ns_to_dn2_partials d2 l n j i.
Proof.
  intros n T P V b d e a dV db dd de da d2b d2d d2e d2a i j G Hi Hj Eb Ed Ee Ea d2V d2.
  assert (S1 : d2V i j = d2V j i).
  { unfold d2V, GCEOSMIX_d2V_dij_wrapper. cbv zeta. rewrite !loop_updm_lt by auto. rewrite Eb, Ed, Ee, Ea. unfold Rdiv. f_equal. ring. }
  assert (S2 : d2 i j = d2 j i).
  { unfold d2, GCEOSMIX_d2_G_dep_lnphi_d2_helper. cbv zeta. rewrite !loop_updm_lt by auto. rewrite S1, Eb, Ed, Ee, Ea.
    set (x11 := if Reqb _ _ then _ else _). set (K := re_catanh _). clearbody x11 K. unfold Rdiv. destruct G; cbn [negb]; ring. }
  splits; auto. intros l. unfold d2ns_to_dn2_partials. cbv zeta. rewrite !loop_updm_lt by auto. rewrite S2. ring.
Qed.

(* ---- fugacities ---- *)
Lemma row_loop n i (v : nat -> R) (M : nat -> nat -> R) p q : loop n (fun j m => updm m i j (v j)) M p q = if Nat.eqb p i && Nat.ltb q n then v q else M p q.
Proof.
  induction n as [|n IH]; cbn [loop].
  - rewrite andb_false_r. reflexivity.
  - unfold updm at 1. destruct (Nat.eqb_spec p i) as [->|N]; cbn [andb].
    + destruct (Nat.eqb_spec q n) as [->|Nq]; cbn [andb].
      * replace (Nat.ltb n (S n)) with true by (symmetry; apply Nat.ltb_lt; lia). reflexivity.
      * rewrite IH. rewrite ?Nat.eqb_refl. cbn [andb]. destruct (Nat.ltb_spec q n), (Nat.ltb_spec q (S n)); auto; lia.
    + rewrite IH. destruct (Nat.eqb_spec p i); [contradiction|]. reflexivity.
Qed.
Lemma fug_value phase P n phis zs dl i j : (i < n)%nat -> (j < n)%nat ->
  GCEOSMIX_dfugacities_dns phase P n phis zs dl i j = P * phis i * zs i * (dl j i - 1) + (if Nat.eqb i j then P * phis i else 0).
Proof.
  intros Hi Hj. unfold GCEOSMIX_dfugacities_dns. cbv zeta. set (M0 := fun _ _ : nat => 0).
  assert (G : forall m p, (m <= n)%nat -> loop m (fun i0 M => updm (loop n (fun j0 m0 => updm m0 i0 j0 (P * phis i0 * zs i0 * (dl j0 i0 - 1))) M) i0 i0
      (loop n (fun j0 m0 => updm m0 i0 j0 (P * phis i0 * zs i0 * (dl j0 i0 - 1))) M i0 i0 + P * phis i0)) M0 p j =
      if Nat.ltb p m then P * phis p * zs p * (dl j p - 1) + (if Nat.eqb p j then P * phis p else 0) else 0).
  { induction m as [|m IH]; intros p Hm; cbn [loop]; [reflexivity|].
    set (M := loop m _ M0) in *. unfold updm at 1. rewrite !row_loop. rewrite !Nat.eqb_refl. cbn [andb].
    replace (Nat.ltb m n) with true by (symmetry; apply Nat.ltb_lt; lia). replace (Nat.ltb j n) with true by (symmetry; apply Nat.ltb_lt; lia).
    destruct (Nat.eqb_spec p m) as [->|N]; cbn [andb].
    - replace (Nat.ltb m (S m)) with true by (symmetry; apply Nat.ltb_lt; lia). rewrite (Nat.eqb_sym j m). destruct (Nat.eqb_spec m j) as [->|N]; [reflexivity|ring].
    - rewrite IH by lia. destruct (Nat.ltb_spec p m), (Nat.ltb_spec p (S m)); auto; lia. }
  specialize (G n i (le_n n)). replace (Nat.ltb i n) with true in G by (symmetry; apply Nat.ltb_lt; lia). exact G.
Qed.

(* L i y: ln(phi_i) at mole numbers y. dfugacities_dns: derivatives of the fugacity x_i P phi_i of component i with mole number j *)
Theorem C72_dfugacities : forall n phase P ns (L : nat -> (nat -> R) -> R) dl i j,
  rsum n ns = 1 -> (i < n)%nat -> (j < n)%nat -> partial (L i) ns j (dl i j) -> dl i j = dl j i ->
  partial (fun y => y i / rsum n y * P * exp (L i y)) ns j (GCEOSMIX_dfugacities_dns phase P n (fun k => exp (L k ns)) ns dl i j).
Proof.
  intros n phase P ns L dl i j Hs Hi Hj DL Sy. rewrite fug_value by auto. rewrite <- Sy. unfold partial in *.
  pose proof (tot_derive n ns j Hj) as DT. set (tot := fun s : R => rsum n (upd ns j s)). change (is_derive tot (ns j) 1) in DT.
  set (l := fun s : R => L i (upd ns j s)). change (is_derive l (ns j) (dl i j)) in DL.
  assert (Et : tot (ns j) = 1) by (unfold tot; rewrite upd_self; exact Hs). assert (El : l (ns j) = L i ns) by (unfold l; rewrite upd_self; reflexivity).
  assert (DY : is_derive (fun s => upd ns j s i) (ns j) (if Nat.eqb i j then 1 else 0)).
  { unfold upd. destruct (Nat.eqb_spec i j); auto_derive; auto. }
  set (yi := fun s : R => upd ns j s i). change (is_derive yi (ns j) (if Nat.eqb i j then 1 else 0)) in DY.
  assert (Ey : yi (ns j) = ns i) by (unfold yi; rewrite upd_self; reflexivity).
  apply (is_derive_ext (fun s => yi s / tot s * P * exp (l s))); [reflexivity|]. clearbody yi tot l.
  auto_derive; [splits; try (eexists; eassumption); rewrite Et; lra|]. dv DT. dv DL. dv DY. chR. rewrite Et, El, Ey. destruct (Nat.eqb i j); field.
Qed.

(* thermo/eos_mix.py, lines 4558-4564: GCEOSMIX.dlnfugacities_dns, from the matrix of dfugacities_dns and the fugacities of the phase *)
Definition GCEOSMIX_dlnfugacities_dns (N_ : nat) (dfugacities : nat -> nat -> R) (fugacities : nat -> R) : nat -> nat -> R :=
  let fugacities_inv i := 1 / fugacities i in
  loop N_ (fun i m => loop N_ (fun j m => updm m i j (m i j * fugacities_inv i)) m) dfugacities.

Lemma row_scale n i (v : R) (M : nat -> nat -> R) p q : loop n (fun j m => updm m i j (m i j * v)) M p q = if Nat.eqb p i && Nat.ltb q n then M p q * v else M p q.
Proof.
  induction n as [|n IH] in p, q |- *; cbn [loop].
  - rewrite andb_false_r. reflexivity.
  - unfold updm at 1. rewrite !IH. rewrite Nat.eqb_refl. cbn [andb]. destruct (Nat.eqb_spec p i) as [->|N]; cbn [andb]; [|reflexivity].
    destruct (Nat.eqb_spec q n) as [->|Nq]; cbn [andb].
    + rewrite (proj2 (Nat.ltb_ge n n)) by lia. replace (Nat.ltb n (S n)) with true by (symmetry; apply Nat.ltb_lt; lia). reflexivity.
    + destruct (Nat.ltb_spec q n), (Nat.ltb_spec q (S n)); auto; lia.
Qed.
Lemma lnfug_value n M f i j : (i < n)%nat -> (j < n)%nat -> GCEOSMIX_dlnfugacities_dns n M f i j = M i j * (1 / f i).
Proof.
  intros Hi Hj. unfold GCEOSMIX_dlnfugacities_dns. cbv zeta.
  assert (G : forall m p, loop m (fun i0 m0 => loop n (fun j0 m1 => updm m1 i0 j0 (m1 i0 j0 * (1 / f i0))) m0) M p j = if Nat.ltb p m then M p j * (1 / f p) else M p j).
  { induction m as [|m IH]; intros p; cbn [loop]; [reflexivity|]. rewrite row_scale, IH. rewrite (proj2 (Nat.ltb_lt j n) Hj), andb_true_r.
    destruct (Nat.eqb_spec p m) as [->|N].
    - rewrite (proj2 (Nat.ltb_ge m m)) by lia. replace (Nat.ltb m (S m)) with true by (symmetry; apply Nat.ltb_lt; lia). reflexivity.
    - destruct (Nat.ltb_spec p m), (Nat.ltb_spec p (S m)); auto; lia. }
  rewrite G, (proj2 (Nat.ltb_lt i n) Hi). reflexivity.
Qed.

Theorem C72_dlnfugacities : forall n phase P ns (L : nat -> (nat -> R) -> R) dl i j,
  0 < P -> 0 < ns i -> rsum n ns = 1 -> (i < n)%nat -> (j < n)%nat -> partial (L i) ns j (dl i j) -> dl i j = dl j i ->
  let fugacity k y := y k / rsum n y * P * exp (L k y) in
  partial (fun y => ln (fugacity i y)) ns j (GCEOSMIX_dlnfugacities_dns n (GCEOSMIX_dfugacities_dns phase P n (fun k => exp (L k ns)) ns dl) (fun k => fugacity k ns) i j).
Proof.
  intros n phase P ns L dl i j HP Hn Hs Hi Hj DL Sy fugacity. rewrite lnfug_value by auto.
  pose proof (C72_dfugacities n phase P ns L dl i j Hs Hi Hj DL Sy) as D. unfold partial in *.
  assert (F0 : 0 < fugacity i ns) by (unfold fugacity; rewrite Hs; apply Rmult_lt_0_compat; [apply Rmult_lt_0_compat; [lra|auto]|apply exp_pos]).
  set (f := fun s : R => fugacity i (upd ns j s)). change (is_derive f (ns j) (GCEOSMIX_dfugacities_dns phase P n (fun k => exp (L k ns)) ns dl i j)) in D.
  assert (E : f (ns j) = fugacity i ns) by (unfold f; rewrite upd_self; reflexivity).
  apply (is_derive_ext (fun s => ln (f s))); [reflexivity|]. clearbody f. set (x := GCEOSMIX_dfugacities_dns _ _ _ _ _ _ _ _) in *. clearbody x.
  auto_derive; [splits; try (eexists; eassumption); rewrite E; auto|]. dv D. chR. rewrite E. field. lra.
Qed.

(* A binary mixture with the covolume b = n_0 + 2 n_1, delta = - b, epsilon = 0 and an attraction parameter quadratic in amounts, whose
   volume is 3 b, meets the hypotheses for i = 0 and j = 1 at equal amounts. *)
Example C72_hypotheses_met : let T := 100 / Rgas in let P := 1 in
  let B := fun y : nat -> R => y 0%nat + 2 * y 1%nat in let Dl := fun y => - B y in let Ep := fun _ : nat -> R => 0 in
  let A := fun y => 300 * B y - 6 * B y ^ 2 in let V := fun y => 3 * B y in
  let c := fun k : nat => match k with O => 1 | S O => 2 | _ => 0 end in
  let dB := fun (k : nat) (_ : nat -> R) => c k in let dD := fun (k : nat) (_ : nat -> R) => - c k in let dE := fun (_ : nat) (_ : nat -> R) => 0 in
  let dA := fun (k : nat) (y : nat -> R) => (300 - 12 * B y) * c k in
  let ns := fun _ : nat => / 2 in let n := 2%nat in
  0 < T /\ 0 < P /\ rsum n ns = 1 /\ near n ns (regular_mixture T P B Dl Ep A V) /\
  near n ns (first_derivatives B Dl Ep A V dB dD dE dA 0) /\ first_derivatives B Dl Ep A V dB dD dE dA 1 ns /\
  partial (dB 0%nat) ns 1 0 /\ partial (dD 0%nat) ns 1 0 /\ partial (dE 0%nat) ns 1 0 /\ partial (dA 0%nat) ns 1 (- 24).
Proof.
  intros T P B Dl Ep A V c dB dD dE dA ns n. pose proof Rgas_pos as HR.
  assert (DB : forall y k, (k < 2)%nat -> partial B y k (c k)).
  { intros y [|[|k]] Hk; [| |lia]; unfold partial, B, upd, c; cbn; auto_derive; auto; ring. }
  assert (FD : forall y k, (k < 2)%nat -> first_derivatives B Dl Ep A V dB dD dE dA k y).
  { intros y k Hk. pose proof (DB y k Hk) as Db. unfold first_derivatives, partial in *.
    set (bb := fun s : R => B (upd y k s)). change (is_derive bb (y k) (c k)) in Db. assert (Eb : bb (y k) = B y) by (unfold bb; rewrite upd_self; reflexivity).
    splits.
    - exact Db.
    - apply (is_derive_ext (fun s => - bb s)); [reflexivity|]. clearbody bb. unfold dD. auto_derive; [eexists; eassumption|]. dv Db. chR. ring.
    - unfold Ep, dE. auto_derive; auto.
    - apply (is_derive_ext (fun s => 300 * bb s - 6 * bb s ^ 2)); [reflexivity|]. clearbody bb. unfold dA. rewrite <- Eb. auto_derive; [splits; eexists; eassumption|]. dv Db. chR. ring.
    - apply (ex_derive_ext (fun s => 3 * bb s)); [reflexivity|]. clearbody bb. auto_derive. eexists; eassumption. }
  splits.
  - apply Rdiv_lt_0_compat; lra.
  - unfold P; lra.
  - unfold ns, n; simpl; lra.
  - exists (/ 4). split; [lra|]. intros y Hy. pose proof (Hy 0%nat ltac:(lia)) as H0. pose proof (Hy 1%nat ltac:(lia)) as H1. apply Rabs_def2 in H0. apply Rabs_def2 in H1. unfold ns in H0, H1.
    assert (HB : 3 / 4 < B y < 9 / 4) by (unfold B; lra). unfold regular_mixture, Dl, Ep, A, V. set (b := B y) in *. clearbody b. clear - HR HB.
    splits.
    + nra.
    + split; [lra|]. replace (- b * - b - 4 * 0) with (b * b) by ring. rewrite sqrt_square by lra. lra.
    + unfold P_cubic, T, P. field. splits; try lra; nra.
    + match goal with |- Derive ?f ?x <> 0 => assert (E : is_derive f x ((600 - 30 * b) / (36 * b ^ 2))) end.
      { unfold P_cubic, T. auto_derive; [splits; try lra; nra|]. field. splits; try lra; nra. }
      rewrite (is_derive_unique _ _ _ E). apply Rgt_not_eq. apply Rdiv_lt_0_compat; nra.
  - exists 1. split; [lra|]. intros y _. apply FD. lia.
  - apply FD. lia.
  - unfold partial, dB. auto_derive; auto.
  - unfold partial, dD. auto_derive; auto.
  - unfold partial, dE. auto_derive; auto.
  - unfold partial, dA, B, upd, c; cbn. auto_derive; auto. ring.
Qed.
