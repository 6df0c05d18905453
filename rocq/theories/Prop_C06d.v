(* C06, continued: the Twu (1995) generalised alpha functions of TWU_a_alpha_common, with their two parameter sets. *)
From Coq Require Import Reals Lra Psatz List.
From Coquelicot Require Import Coquelicot.
From Verif Require Import Base BaseFacts Gen_alpha Prop_C06 Prop_C06b.
Open Scope R_scope.

(* ---- the published form: alpha = alpha0 + omega (alpha1 - alpha0), alpha_k = Tr^(N(M-1)) exp(L (1 - Tr^(N M))) *)
Definition twu (L M N Tr : R) : R := Rpower Tr (N * (M - 1)) * exp (L * (1 - Rpower Tr (N * M))).
Record twu_set := { tL0 : R; tM0 : R; tN0 : R; tL1 : R; tM1 : R; tN1 : R }.
Definition twu_alpha (c : twu_set) (omega Tr : R) : R :=
  twu (tL0 c) (tM0 c) (tN0 c) Tr + omega * (twu (tL1 c) (tM1 c) (tN1 c) Tr - twu (tL0 c) (tM0 c) (tN0 c) Tr).
(* subcritical and supercritical constants of the Peng-Robinson and of the SRK version *)
Definition PR_sub := {| tL0 := 125283 / 1000000; tM0 := 911807 / 1000000; tN0 := 38963 / 20000; tL1 := 255807 / 500000; tM1 := 392027 / 500000; tN1 := 70313 / 25000 |}.
Definition PR_sup := {| tL0 := 401219 / 1000000; tM0 := 496307 / 100000; tN0 := - (1 / 5); tL1 := 4991 / 200000; tM1 := 1248089 / 1000000; tN1 := - 8 |}.
Definition SRK_sub := {| tL0 := 141599 / 1000000; tM0 := 459711 / 500000; tN0 := 2496441 / 1000000; tL1 := 100063 / 200000; tM1 := 799457 / 1000000; tN1 := 329179 / 100000 |}.
Definition SRK_sup := {| tL0 := 441411 / 1000000; tM0 := 3250009 / 500000; tN0 := - (1 / 5); tL1 := 1629 / 50000; tM1 := 644549 / 500000; tN1 := - 8 |}.

(* x f'(x) and x^2 f''(x) of twu *)
Definition th (L M N x : R) := N * (M - 1) - L * M * N * Rpower x (N * M).
Definition tw1 L M N x := twu L M N x * th L M N x.
Definition tw2 L M N x := twu L M N x * (th L M N x ^ 2 - th L M N x - L * M * N * Rpower x (N * M) * N * M).
Lemma twu_derive L M N x : 0 < x -> is_derive (twu L M N) x (tw1 L M N x / x).
Proof.
  intros Hx. unfold tw1, th, twu, Rpower. auto_derive. { side. } exps. field. nz.
Qed.
Lemma tw1_derive L M N x : 0 < x -> is_derive (fun x => tw1 L M N x / x) x (tw2 L M N x / x ^ 2).
Proof.
  intros Hx. unfold tw1, tw2, th, twu, Rpower. auto_derive. { side. } exps. field. nz.
Qed.
Definition al1 c om x := tw1 (tL0 c) (tM0 c) (tN0 c) x + om * (tw1 (tL1 c) (tM1 c) (tN1 c) x - tw1 (tL0 c) (tM0 c) (tN0 c) x).
Definition al2 c om x := tw2 (tL0 c) (tM0 c) (tN0 c) x + om * (tw2 (tL1 c) (tM1 c) (tN1 c) x - tw2 (tL0 c) (tM0 c) (tN0 c) x).
Lemma al_derive c om x : 0 < x -> is_derive (twu_alpha c om) x (al1 c om x / x).
Proof.
  intros Hx. unfold twu_alpha, al1.
  pose proof (twu_derive (tL0 c) (tM0 c) (tN0 c) x Hx) as D0. pose proof (twu_derive (tL1 c) (tM1 c) (tN1 c) x Hx) as D1.
  set (f0 := twu (tL0 c) (tM0 c) (tN0 c)) in *. set (f1 := twu (tL1 c) (tM1 c) (tN1 c)) in *.
  auto_derive. { side; eexists; eassumption. } change (fun x : R => f0 x) with f0. change (fun x : R => f1 x) with f1. dv D0. dv D1. field. nz.
Qed.
Lemma al1_derive c om x : 0 < x -> is_derive (fun x => al1 c om x / x) x (al2 c om x / x ^ 2).
Proof.
  intros Hx. unfold al1, al2.
  pose proof (tw1_derive (tL0 c) (tM0 c) (tN0 c) x Hx) as D0. pose proof (tw1_derive (tL1 c) (tM1 c) (tN1 c) x Hx) as D1.
  set (f0 := fun x => tw1 (tL0 c) (tM0 c) (tN0 c) x / x) in *. set (f1 := fun x => tw1 (tL1 c) (tM1 c) (tN1 c) x / x) in *.
  apply (is_derive_ext_loc (fun x => f0 x + om * (f1 x - f0 x))).
  { eapply filter_imp; [|exact (open_gt 0 x Hx)]. intros y Hy. unfold f0, f1. cbv beta. match goal with |- ?u = ?v => change (@eq R u v) end. field. nz. }
  auto_derive. { side; eexists; eassumption. } change (fun x : R => f0 x) with f0. change (fun x : R => f1 x) with f1. dv D0. dv D1. field. nz.
Qed.

(* what the code computes once Tr, T and the parameter set are chosen *)
Definition twu_out (c : twu_set) (om a Tr T : R) : R * R * R :=
  if Rltb (a * twu_alpha c om Tr) (1 / 1000) then (1 / 1000, 0, 0)
  else (a * twu_alpha c om Tr, a * al1 c om Tr / T, a * al2 c om Tr / T ^ 2).
Definition twu_val (c : twu_set) (om a Tr : R) : R := if Rltb (a * twu_alpha c om Tr) (1 / 1000) then 1 / 1000 else a * twu_alpha c om Tr.
Lemma p1_out c om a Tr T : p1 (twu_out c om a Tr T) = twu_val c om a Tr.
Proof. unfold twu_out, twu_val. destruct (Rltb _ _); reflexivity. Qed.

(* reading the generated body: c is the chosen set *)
Ltac twu_body := 
  unfold twu_out, twu_alpha, al1, al2, tw1, tw2, th, twu; cbv beta iota zeta delta [tL0 tM0 tN0 tL1 tM1 tN1 PR_sub PR_sup SRK_sub SRK_sup].

Lemma twu_core (L0 M0 N0 L1 M1 N1 om a Tr T : R) : 0 < Tr -> T <> 0 ->
  (let x0 := Tr in let x1 := (M0 - 1) in let x2 := (N0 * x1) in let x3 := (Rpower x0 x2) in let x4 := (M0 * N0) in let x5 := (Rpower x0 x4) in
  let x6 := (exp ((- L0) * (x5 - 1))) in let x7 := (x3 * x6) in let x8 := (M1 - 1) in let x9 := (N1 * x8) in let x10 := (Rpower x0 x9) in
  let x11 := (M1 * N1) in let x12 := (Rpower x0 x11) in let x13 := (x2 * x7) in let x14 := (((((L0 * M0) * N0) * x3) * x5) * x6) in
  let x15 := (x13 - x14) in let x16 := (exp ((- L1) * (x12 - 1))) in
  let x17 := (((((((((- L1) * M1) * N1) * x10) * x12) * x16) + ((x10 * x16) * x9)) - x13) + x14) in
  let x18 := (N0 * N0) in let x19 := ((x18 * x3) * x6) in let x20 := ((x1 ^ 2) * x19) in let x21 := (M0 ^ 2) in
  let x22 := ((((L0 * x18) * x3) * x5) * x6) in let x23 := (x21 * x22) in let x24 := (((2 * M0) * x1) * x22) in
  let x25 := ((((L0 ^ 2) * (Rpower x0 (2 * x4))) * x19) * x21) in let x26 := (N1 ^ 2) in let x27 := ((x10 * x16) * x26) in
  let x28 := (M1 ^ 2) in let x29 := ((((L1 * x10) * x12) * x16) * x26) in
  let a_alpha := (a * (((- om) * (((- x10) * (exp (L1 * ((- x12) + 1)))) + (x3 * (exp (L0 * ((- x5) + 1)))))) + x7)) in
  let da_alpha_dT := ((a * ((om * x17) + x15)) / T) in
  let d2a_alpha_dT2 := (a * ((- ((((((om * ((((((((((((- (L1 ^ 2)) * (Rpower x0 (2 * x11))) * x27) * x28) + (((2 * M1) * x29) * x8)) + x17) + x20) - x23) - x24) + x25) - (x27 * (x8 ^ 2))) + (x28 * x29))) + x15) - x20) + x23) + x24) - x25)) / (T ^ 2))) in
  let '(a_alpha, da_alpha_dT, d2a_alpha_dT2) :=
    if (Rltb a_alpha (1 / 1000)) then
    let a_alpha := (1 / 1000) in let d2a_alpha_dT2 := 0 in let da_alpha_dT := d2a_alpha_dT2 in (a_alpha, da_alpha_dT, d2a_alpha_dT2)
    else (a_alpha, da_alpha_dT, d2a_alpha_dT2) in
  (a_alpha, da_alpha_dT, d2a_alpha_dT2))
  = twu_out {| tL0 := L0; tM0 := M0; tN0 := N0; tL1 := L1; tM1 := M1; tN1 := N1 |} om a Tr T.
Proof.
  intros HTr HT. cbv zeta. twu_body.
  replace (Rpower Tr (M0 * N0)) with (Rpower Tr (N0 * M0)) by (f_equal; ring).
  replace (Rpower Tr (M1 * N1)) with (Rpower Tr (N1 * M1)) by (f_equal; ring).
  replace (Rpower Tr (2 * (M0 * N0))) with (Rpower Tr (N0 * M0) * Rpower Tr (N0 * M0)) by (rewrite <- Rpower_plus; f_equal; ring).
  replace (Rpower Tr (2 * (M1 * N1))) with (Rpower Tr (N1 * M1) * Rpower Tr (N1 * M1)) by (rewrite <- Rpower_plus; f_equal; ring).
  set (q0 := Rpower Tr (N0 * M0)). set (q1 := Rpower Tr (N1 * M1)).
  replace (- L0 * (q0 - 1)) with (L0 * (1 - q0)) by ring. replace (- L1 * (q1 - 1)) with (L1 * (1 - q1)) by ring.
  replace (L0 * (- q0 + 1)) with (L0 * (1 - q0)) by ring. replace (L1 * (- q1 + 1)) with (L1 * (1 - q1)) by ring.
  set (e0 := exp (L0 * (1 - q0))). set (e1 := exp (L1 * (1 - q1))). set (r0 := Rpower Tr (N0 * (M0 - 1))). set (r1 := Rpower Tr (N1 * (M1 - 1))).
  replace (a * (- om * (- r1 * e1 + r0 * e0) + r0 * e0)) with (a * (r0 * e0 + om * (r1 * e1 - r0 * e0))) by ring.
  destruct (Rltb _ _); [reflexivity|]. f_equal; [f_equal|]; field; auto.
Qed.

Definition low_Tr (Tr : R) : R := 1 / 250 + (Tr - 0) * (1 / 1000) / (1 / 200).
Lemma low_lt Tr : Tr < 1 / 200 -> low_Tr Tr < 1. Proof. unfold low_Tr. lra. Qed.
Lemma low_pos Tr : 0 < Tr -> 0 < low_Tr Tr. Proof. unfold low_Tr. lra. Qed.

Section Versions.
Variables (val : R -> R -> R -> R -> R) (full : R -> R -> R -> R -> R * R * R) (sub sup : twu_set).
Definition version : Prop :=
  (forall T Tc om a, 0 < Tc -> 0 < T ->
     val T Tc om a = (if Rltb (T / Tc) (1 / 200) then twu_val sub om a (low_Tr (T / Tc)) else if Rltb (T / Tc) 1 then twu_val sub om a (T / Tc) else twu_val sup om a (T / Tc))) /\
  (forall T Tc om a, 0 < Tc -> 0 < T ->
     full T Tc om a = (if Rltb (T / Tc) (1 / 200) then twu_out sub om a (low_Tr (T / Tc)) (Tc * low_Tr (T / Tc)) else if Rltb (T / Tc) 1 then twu_out sub om a (T / Tc) T else twu_out sup om a (T / Tc) T)).
End Versions.

Ltac twu_val_tac T Tc := 
  let E1 := fresh "E" in destruct (Rltb_spec (T / Tc) (1 / 200)) as [E1|E1]; cbv zeta;
  [ fold (low_Tr (T / Tc)); rewrite (Rltb_true (low_Tr (T / Tc)) 1) by (apply low_lt; auto); reflexivity
  | destruct (Rltb (T / Tc) 1); reflexivity ].
Ltac twu_full_tac T Tc om a :=
  cbv zeta; let E1 := fresh "E" in destruct (Rltb_spec (T / Tc) (1 / 200)) as [E1|E1];
  [ fold (low_Tr (T / Tc)); rewrite (Rltb_true (low_Tr (T / Tc)) 1) by (apply low_lt; auto);
    assert (0 < low_Tr (T / Tc)) by (apply low_pos, rpos; auto);
    refine (twu_core _ _ _ _ _ _ om a (low_Tr (T / Tc)) (Tc * low_Tr (T / Tc)) _ _); [auto|nz]
  | assert (0 < T / Tc) by (apply rpos; auto); destruct (Rltb (T / Tc) 1); refine (twu_core _ _ _ _ _ _ om a (T / Tc) T _ _); auto; nz ].
Lemma TwuPR95_version : version TwuPR95_a_alpha_pure TwuPR95_a_alpha_and_derivatives_pure PR_sub PR_sup.
Proof.
  split; intros T Tc om a H H0.
  - unfold TwuPR95_a_alpha_pure, twu_val, twu_alpha, twu. cbv zeta. twu_val_tac T Tc.
  - unfold TwuPR95_a_alpha_and_derivatives_pure. twu_full_tac T Tc om a.
Qed.
Lemma TwuSRK95_version : version TwuSRK95_a_alpha_pure TwuSRK95_a_alpha_and_derivatives_pure SRK_sub SRK_sup.
Proof.
  split; intros T Tc om a H H0.
  - unfold TwuSRK95_a_alpha_pure, twu_val, twu_alpha, twu. cbv zeta. twu_val_tac T Tc.
  - unfold TwuSRK95_a_alpha_and_derivatives_pure. twu_full_tac T Tc om a.
Qed.

(* value and derivatives in T of a * alpha(k T + m) *)
Lemma out_ok c om a (k T : R) : 0 < T -> 0 < k -> a * twu_alpha c om (k * T) <> 1 / 1000 ->
  alpha_ok (fun t => twu_val c om a (k * t)) T (twu_out c om a (k * T) T).
Proof.
  intros HT Hk HN.
  assert (DV : forall t, 0 < t -> is_derive (fun t => a * twu_alpha c om (k * t)) t (a * al1 c om (k * t) / t)).
  { intros t Ht. assert (Hx : 0 < k * t) by nra. pose proof (al_derive c om (k * t) Hx) as D. set (f := twu_alpha c om) in *.
    auto_derive. { eexists; eassumption. } change (fun x : R => f x) with f. dv D. field. split; nz. }
  assert (DD : forall t, 0 < t -> is_derive (fun t => a * al1 c om (k * t) / t) t (a * al2 c om (k * t) / t ^ 2)).
  { intros t Ht. assert (Hx : 0 < k * t) by nra. pose proof (al1_derive c om (k * t) Hx) as D. set (f := fun x => al1 c om x / x) in *.
    apply (is_derive_ext_loc (fun t => a * k * f (k * t))).
    { eapply filter_imp; [|exact (open_gt 0 t Ht)]. intros y Hy. unfold f. cbv beta. match goal with |- ?u = ?v => change (@eq R u v) end. field. split; nz. }
    auto_derive. { eexists; eassumption. } change (fun x : R => f x) with f. dv D. field. split; nz. }
  destruct (Rlt_or_le (1 / 1000) (a * twu_alpha c om (k * T))) as [G|G].
  - apply (alpha_ok_agree _ (fun t => a * twu_alpha c om (k * t)) (fun t => twu_out c om a (k * t) t)
      (fun t => (a * twu_alpha c om (k * t), a * al1 c om (k * t) / t, a * al2 c om (k * t) / t ^ 2))).
    + assert (CC : continuous (fun t => a * twu_alpha c om (k * t)) T) by (apply @ex_derive_continuous; eexists; apply DV; auto).
      eapply filter_imp; [|exact (CC (fun v => 1 / 1000 < v) (open_gt (1 / 1000) _ G))]. intros t Ht. cbv beta in Ht. unfold twu_val, twu_out. rewrite !Rltb_false by lra. auto.
    + apply (alpha_ok_pos _ (fun t => (a * twu_alpha c om (k * t), a * al1 c om (k * t) / t, a * al2 c om (k * t) / t ^ 2))); auto.
  - assert (G' : a * twu_alpha c om (k * T) < 1 / 1000) by lra.
    apply (alpha_ok_agree _ (fun t => 1 / 1000) (fun t => twu_out c om a (k * t) t) (fun t => (1 / 1000, 0, 0))).
    + assert (CC : continuous (fun t => a * twu_alpha c om (k * t)) T) by (apply @ex_derive_continuous; eexists; apply DV; auto).
      eapply filter_imp; [|exact (CC (fun v => v < 1 / 1000) (open_lt (1 / 1000) _ G'))]. intros t Ht. cbv beta in Ht. unfold twu_val, twu_out. rewrite !Rltb_true by lra. auto.
    + unfold alpha_ok. split; [reflexivity|split].
      * apply (is_derive_const (K := R_AbsRing) (V := R_NormedModule) (1 / 1000)).
      * apply (is_derive_ext (fun _ => 0)). { intros. symmetry. apply (Derive_const (1 / 1000)). }
        apply (is_derive_const (K := R_AbsRing) (V := R_NormedModule) 0).
Qed.

Lemma mul_gt_div x Tc T : 0 < Tc -> x * Tc < T -> x < T / Tc.
Proof. intros. apply Rmult_lt_reg_r with Tc; auto. unfold Rdiv. rewrite Rmult_assoc, Rinv_l by lra. lra. Qed.
Lemma mul_lt_div x Tc T : 0 < Tc -> T < x * Tc -> T / Tc < x.
Proof. intros. apply Rmult_lt_reg_r with Tc; auto. unfold Rdiv. rewrite Rmult_assoc, Rinv_l by lra. lra. Qed.

Section Normal.
Variables (val : R -> R -> R -> R -> R) (full : R -> R -> R -> R -> R * R * R) (sub sup : twu_set) (HV : version val full sub sup).
Lemma twu_normal T Tc om a : 0 < Tc -> Tc / 200 < T -> T <> Tc ->
  a * twu_alpha (if Rlt_dec T Tc then sub else sup) om (T / Tc) <> 1 / 1000 ->
  alpha_ok (fun T => val T Tc om a) T (full T Tc om a).
Proof.
  intros HTc HT HN HM. destruct HV as [V1 V2].
  assert (H0 : 0 < T) by lra. assert (Hk : 0 < / Tc) by (apply Rinv_0_lt_compat; auto).
  destruct (Rlt_dec T Tc) as [L|G].
  - apply (alpha_ok_agree _ (fun t => twu_val sub om a (/ Tc * t)) (fun T => full T Tc om a) (fun t => twu_out sub om a (/ Tc * t) t)).
    + assert (LL : locally T (fun t => Tc / 200 < t /\ t < Tc)) by (apply filter_and; [exact (open_gt _ T HT)|exact (open_lt _ T L)]).
      eapply filter_imp; [|exact LL]. intros t [A B]. rewrite V1, V2 by lra.
      rewrite (Rltb_false (t / Tc)) by (apply Rlt_le, mul_gt_div; lra). rewrite (Rltb_true (t / Tc)) by (apply mul_lt_div; lra).
      replace (/ Tc * t) with (t / Tc) by (field; lra). auto.
    + apply out_ok; auto. replace (/ Tc * T) with (T / Tc) by (field; lra). exact HM.
  - assert (G' : Tc < T) by lra.
    apply (alpha_ok_agree _ (fun t => twu_val sup om a (/ Tc * t)) (fun T => full T Tc om a) (fun t => twu_out sup om a (/ Tc * t) t)).
    + eapply filter_imp; [|exact (open_gt _ T G')]. intros t A. rewrite V1, V2 by lra.
      assert (1 < t / Tc) by (apply mul_gt_div; lra). rewrite (Rltb_false (t / Tc)) by lra. rewrite (Rltb_false (t / Tc)) by lra.
      replace (/ Tc * t) with (t / Tc) by (field; lra). auto.
    + apply out_ok; auto. replace (/ Tc * T) with (T / Tc) by (field; lra). exact HM.
Qed.

(* below Tr = 1/200 the reported first derivative is five times the derivative of the reported value *)
Lemma twu_low T Tc om a : 0 < Tc -> 0 < T < Tc / 200 -> 1 / 1000 < a * twu_alpha sub om (4 / 1000 + T / Tc / 5) ->
  let '(v, d, _) := full T Tc om a in v = val T Tc om a /\ d = a * al1 sub om (low_Tr (T / Tc)) / (Tc * low_Tr (T / Tc)) /\ is_derive (fun T => val T Tc om a) T (d / 5).
Proof.
  intros HTc [H0 HT] HM. destruct HV as [V1 V2].
  assert (EL : forall t, low_Tr (t / Tc) = 4 / 1000 + t / Tc / 5) by (intros; unfold low_Tr; field; lra).
  rewrite <- EL in HM. rewrite V2, V1 by auto. rewrite !(Rltb_true (T / Tc)) by (apply mul_lt_div; lra).
  unfold twu_out, twu_val. rewrite !(Rltb_false (a * _)) by lra. splits; auto.
  assert (Hx : 0 < low_Tr (T / Tc)) by (apply low_pos, rpos; auto).
  pose proof (al_derive sub om _ Hx) as D.
  assert (DV : is_derive (fun t => a * twu_alpha sub om (low_Tr (t / Tc))) T (a * al1 sub om (low_Tr (T / Tc)) / (Tc * low_Tr (T / Tc)) / 5)).
  { set (f := twu_alpha sub om) in *. apply (is_derive_ext (fun t => a * f (4 / 1000 + t / Tc / 5))). { intros; rewrite EL; reflexivity. }
    rewrite EL in *. auto_derive. { eexists; eassumption. } change (fun x : R => f x) with f. 
    change (4 * / 1000 + T * / Tc * / 5) with (4 / 1000 + T / Tc / 5).
    dv D. set (lo := 4 / 1000 + T / Tc / 5) in *. clearbody lo. field. split; nz. }
  apply (is_derive_ext_loc (fun t => a * twu_alpha sub om (low_Tr (t / Tc)))); auto.
  assert (CC : continuous (fun t => a * twu_alpha sub om (low_Tr (t / Tc))) T) by (apply @ex_derive_continuous; eexists; apply DV).
  assert (LL : locally T (fun t => (0 < t /\ t < Tc / 200) /\ 1 / 1000 < a * twu_alpha sub om (low_Tr (t / Tc)))).
  { apply filter_and. apply filter_and; [exact (open_gt _ T H0)|exact (open_lt _ T HT)]. exact (CC (fun v => 1 / 1000 < v) (open_gt (1 / 1000) _ HM)). }
  eapply filter_imp; [|exact LL]. intros t [[A B] C]. rewrite V1 by auto. rewrite Rltb_true by (apply mul_lt_div; lra).
  unfold twu_val. rewrite Rltb_false by lra. reflexivity.
Qed.
End Normal.

Theorem C06_TwuPR95 T Tc omega a : 0 < Tc -> Tc / 200 < T -> T <> Tc ->
  a * twu_alpha (if Rlt_dec T Tc then PR_sub else PR_sup) omega (T / Tc) <> 1 / 1000 ->
  alpha_ok (fun T => TwuPR95_a_alpha_pure T Tc omega a) T (TwuPR95_a_alpha_and_derivatives_pure T Tc omega a).
Proof. apply twu_normal, TwuPR95_version. Qed.
Theorem C06_TwuSRK95 T Tc omega a : 0 < Tc -> Tc / 200 < T -> T <> Tc ->
  a * twu_alpha (if Rlt_dec T Tc then SRK_sub else SRK_sup) omega (T / Tc) <> 1 / 1000 ->
  alpha_ok (fun T => TwuSRK95_a_alpha_pure T Tc omega a) T (TwuSRK95_a_alpha_and_derivatives_pure T Tc omega a).
Proof. apply twu_normal, TwuSRK95_version. Qed.

Theorem C06_TwuPR95_low T Tc omega a : 0 < Tc -> 0 < T < Tc / 200 -> 1 / 1000 < a * twu_alpha PR_sub omega (4 / 1000 + T / Tc / 5) ->
  let '(v, d, _) := TwuPR95_a_alpha_and_derivatives_pure T Tc omega a in
  v = TwuPR95_a_alpha_pure T Tc omega a /\ is_derive (fun T => TwuPR95_a_alpha_pure T Tc omega a) T (d / 5).
Proof.
  intros A B C. pose proof (twu_low _ _ _ _ TwuPR95_version T Tc omega a A B C) as H.
  destruct (TwuPR95_a_alpha_and_derivatives_pure T Tc omega a) as [[v d] d2]. tauto.
Qed.
Theorem C06_TwuSRK95_low T Tc omega a : 0 < Tc -> 0 < T < Tc / 200 -> 1 / 1000 < a * twu_alpha SRK_sub omega (4 / 1000 + T / Tc / 5) ->
  let '(v, d, _) := TwuSRK95_a_alpha_and_derivatives_pure T Tc omega a in
  v = TwuSRK95_a_alpha_pure T Tc omega a /\ is_derive (fun T => TwuSRK95_a_alpha_pure T Tc omega a) T (d / 5).
Proof.
  intros A B C. pose proof (twu_low _ _ _ _ TwuSRK95_version T Tc omega a A B C) as H.
  destruct (TwuSRK95_a_alpha_and_derivatives_pure T Tc omega a) as [[v d] d2]. tauto.
Qed.

Lemma exp_gt1 x : 0 < x -> 1 < exp x. Proof. intros. rewrite <- exp_0. apply exp_increasing; auto. Qed.
Lemma exp_lt1 x : x < 0 -> exp x < 1. Proof. intros. rewrite <- exp_0. apply exp_increasing; auto. Qed.
(* sub-critical twu factors exceed 1 and fall with temperature *)
Lemma twu_ge1 L M N x : 0 < x < 1 -> 0 < L -> 0 < M < 1 -> 0 < N -> 1 < twu L M N x /\ th L M N x < 0.
Proof.
  intros [H0 H1] HL [HM0 HM1] HN. unfold twu, th.
  assert (LN : ln x < 0) by (rewrite <- ln_1; apply ln_increasing; auto).
  assert (P1 : 1 < Rpower x (N * (M - 1))). { unfold Rpower. apply exp_gt1. assert (N * (M - 1) < 0) by nra. nra. }
  assert (P2 : Rpower x (N * M) < 1). { unfold Rpower. apply exp_lt1. assert (0 < N * M) by nra. nra. }
  assert (P3 : 0 < Rpower x (N * M)) by (unfold Rpower; apply exp_pos).
  assert (P4 : 1 < exp (L * (1 - Rpower x (N * M)))). { apply exp_gt1. nra. }
  split. nra.
  assert (0 < L * M * N * Rpower x (N * M)) by (repeat apply Rmult_lt_0_compat; auto). nra.
Qed.

(* so the claim as stated fails there: the reported derivative is not the derivative *)
Theorem C06_TwuPR95_low_refuted : exists T Tc omega a, 0 < T /\ 0 < Tc /\
  let '(v, d, _) := TwuPR95_a_alpha_and_derivatives_pure T Tc omega a in
  v = TwuPR95_a_alpha_pure T Tc omega a /\ ~ is_derive (fun T => TwuPR95_a_alpha_pure T Tc omega a) T d.
Proof.
  exists (1 / 1000), 1, 0, 1. splits; try lra.
  assert (G : 1 < twu (tL0 PR_sub) (tM0 PR_sub) (tN0 PR_sub) (42 / 10000) /\ th (tL0 PR_sub) (tM0 PR_sub) (tN0 PR_sub) (42 / 10000) < 0).
  { apply twu_ge1; simpl; lra. }
  destruct G as [G1 G2].
  assert (E : 4 / 1000 + 1 / 1000 / 1 / 5 = 42 / 10000) by field.
  pose proof (twu_low _ _ _ _ TwuPR95_version (1 / 1000) 1 0 1) as H.
  rewrite E in H. assert (AL : twu_alpha PR_sub 0 (42 / 10000) = twu (tL0 PR_sub) (tM0 PR_sub) (tN0 PR_sub) (42 / 10000)) by (unfold twu_alpha; ring).
  specialize (H ltac:(lra) ltac:(lra) ltac:(rewrite AL; lra)).
  destruct (TwuPR95_a_alpha_and_derivatives_pure (1 / 1000) 1 0 1) as [[v d] d2]. destruct H as [H1 [H2 H3]].
  split; auto. intro Q. assert (d / 5 = d). { pose proof (is_derive_unique _ _ _ H3) as U1. pose proof (is_derive_unique _ _ _ Q) as U2. rewrite <- U1. exact U2. }
  assert (d < 0). { rewrite H2. replace (low_Tr (1 / 1000 / 1)) with (42 / 10000) by (unfold low_Tr; field). unfold al1, tw1.
    replace (_ / _) with (twu (tL0 PR_sub) (tM0 PR_sub) (tN0 PR_sub) (42 / 10000) * th (tL0 PR_sub) (tM0 PR_sub) (tN0 PR_sub) (42 / 10000) * (10000 / 42)) by field.
    set (A := twu _ _ _ _) in *. set (B := th _ _ _ _) in *. clearbody A B. assert (A * B < 0) by (clear - G1 G2; nra). lra. }
  lra.
Qed.

Example C06_Twu_hypotheses_met : 0 < 500 /\ 500 / 200 < 300 /\ 300 <> 500 /\ 1 * twu_alpha (if Rlt_dec 300 500 then PR_sub else PR_sup) 0 (300 / 500) <> 1 / 1000.
Proof.
  splits; try lra. destruct (Rlt_dec 300 500); [|lra]. unfold twu_alpha.
  destruct (twu_ge1 (tL0 PR_sub) (tM0 PR_sub) (tN0 PR_sub) (300 / 500)) as [A _]; simpl; try lra. simpl in A. lra.
Qed.
