(* C09: solving the equation of state for temperature (or for a*alpha) inverts it. *)
From Coq Require Import Reals Lra Psatz.
From Coquelicot Require Import Coquelicot.
From Verif Require Import Base BaseFacts Spec_eos Gen_eosclass.
Open Scope R_scope.

(* The class-specific EOS P(T,V) of the documentation of each class; the attraction term is the one the class documents. *)
Definition PR_P (Tc a b kappa T V : R) : R := P_cubic (fun T => a * (1 + kappa * (1 - sqrt (T / Tc))) ^ 2) b (2 * b) (- b ^ 2) T V.
Definition SRK_P (Tc a b m T V : R) : R := P_cubic (fun T => a * (1 + m * (1 - sqrt (T / Tc))) ^ 2) b b 0 T V.

(* A T solves the EOS and no smaller positive temperature does. *)
Definition least_T (PV : R -> R) (P T : R) : Prop :=
  0 < T /\ PV T = P /\ forall T', 0 < T' -> PV T' = P -> T <= T'.

Section Quad.
Variables (D w a k q P t r : R).
Hypotheses (HD : 0 < D) (Hw : 0 < w) (Ha : 0 < a) (Hk : 0 <= k) (Hq : 0 < q) (HP : 0 < P).
Hypotheses (Et : t = q * D - a * k * k * w) (Ht : t <> 0) (Hr : 0 <= r)
  (Er : r * r = w ^ 3 * D * (P * t + a * q * (1 + k) ^ 2)).
Let x := (r / w - a * k * (1 + k) * w) / t.
Let f (z : R) := q / w * (z * z) - a / D * ((1 + k * (1 - z)) * (1 + k * (1 - z))).

Lemma quad_form z : (f z - P) * (w * D) = t * z * z + 2 * (a * k * (1 + k) * w) * z - (a * (1 + k) * (1 + k) * w + P * w * D).
Proof. unfold f. rewrite Et. clear Ht. field. split; nz. Qed.

Let be := a * k * (1 + k) * w.
Let ga := a * (1 + k) * (1 + k) * w + P * w * D.
Let s := r / w.

Lemma quad_s : s * s = be * be + t * ga.
Proof.
  unfold s, be, ga. replace (r / w * (r / w)) with (r * r / (w * w)) by (field; nz). rewrite Er, Et. field. nz.
Qed.
Lemma quad_ga : 0 < ga.
Proof. unfold ga. assert (0 < a * (1 + k) * (1 + k) * w). { repeat apply Rmult_lt_0_compat; lra. }
  assert (0 < P * w * D) by (repeat apply Rmult_lt_0_compat; lra). lra. Qed.
Lemma quad_be : 0 <= be.
Proof. unfold be. repeat apply Rmult_le_pos; lra. Qed.
Lemma quad_s0 : 0 <= s.
Proof. unfold s. apply Rmult_le_pos; auto. left; apply Rinv_0_lt_compat; auto. Qed.

Lemma quad_x : t * x = s - be.
Proof. unfold x, s, be. field. split; nz; auto. Qed.

Lemma quad_root : f x = P.
Proof.
  assert (Q : (f x - P) * (w * D) = 0).
  { rewrite quad_form. fold be. fold ga.
    apply Rmult_eq_reg_l with t; auto. rewrite Rmult_0_r.
    replace (t * (t * x * x + 2 * be * x - ga)) with ((t * x + be) * (t * x + be) - (be * be + t * ga)) by ring.
    rewrite quad_x. replace (s - be + be) with s by ring. rewrite quad_s. ring. }
  apply Rmult_integral in Q. destruct Q as [Q|Q]; [lra|]. exfalso. assert (0 < w * D) by (apply Rmult_lt_0_compat; auto). lra.
Qed.

Lemma quad_pos : 0 < x.
Proof.
  pose proof quad_ga. pose proof quad_be. pose proof quad_s0. pose proof quad_s. pose proof quad_x.
  destruct (Rlt_or_le 0 t).
  - assert (0 < t * ga) by (apply Rmult_lt_0_compat; auto). assert (be < s) by nra.
    apply Rmult_lt_reg_l with t; auto. lra.
  - assert (t < 0) by lra. assert (0 < (- t) * ga) by (apply Rmult_lt_0_compat; lra). assert (s < be) by nra.
    apply Rmult_lt_reg_l with (- t); [lra|]. lra.
Qed.

Lemma quad_least z : 0 <= z -> f z = P -> x <= z.
Proof.
  intros Hz Hf. pose proof quad_ga. pose proof quad_be. pose proof quad_s0. pose proof quad_s. pose proof quad_x.
  assert (Q : t * z * z + 2 * be * z - ga = 0) by (unfold be, ga; rewrite <- quad_form, Hf; ring).
  assert (Q2 : (t * z + be) * (t * z + be) = s * s).
  { rewrite quad_s. replace ((t * z + be) * (t * z + be)) with (t * (t * z * z + 2 * be * z - ga) + (be * be + t * ga)) by ring. rewrite Q. ring. }
  assert (Q3 : (t * z + be - s) * (t * z + be + s) = 0).
  { replace ((t * z + be - s) * (t * z + be + s)) with ((t * z + be) * (t * z + be) - s * s) by ring. lra. }
  apply Rmult_integral in Q3. destruct Q3 as [Q3|Q3].
  - right. apply Rmult_eq_reg_l with t; auto. lra.
  - destruct (Rlt_or_le 0 t).
    + assert (0 <= t * z) by (apply Rmult_le_pos; lra).
      assert (0 < t * ga) by (apply Rmult_lt_0_compat; auto). assert (be < s) by nra. lra.
    + assert (t < 0) by lra. apply Rmult_le_reg_l with (- t); [lra|]. lra.
Qed.
End Quad.

Lemma sqrt_scaled Tc x : 0 < Tc -> 0 <= x -> sqrt (Tc * (x * x) / Tc) = x.
Proof. intros. replace (Tc * (x * x) / Tc) with (x * x) by (field; nz). apply sqrt_square; auto. Qed.

Lemma least_of_quad PV f Tc x P : 0 < Tc -> 0 < x -> f x = P ->
  (forall T, 0 < T -> PV T = f (sqrt (T / Tc))) ->
  (forall z, 0 <= z -> f z = P -> x <= z) -> least_T PV P (Tc * (x * x)).
Proof.
  intros HT Hx Hf HPV Hl. assert (0 < Tc * (x * x)) by (apply Rmult_lt_0_compat; nra).
  split; [|split]; auto.
  - rewrite HPV, sqrt_scaled; auto; lra.
  - intros T' H1 H2. rewrite HPV in H2 by auto. apply Hl in H2; [|apply sqrt_pos].
    assert (0 < T' / Tc) by (apply Rdiv_lt_0_compat; auto).
    pose proof (sqrt_sqrt (T' / Tc)). replace T' with (Tc * (sqrt (T' / Tc) * sqrt (T' / Tc))).
    + apply Rmult_le_compat_l; [lra|]. apply Rmult_le_compat; lra.
    + rewrite H3 by lra. field. nz.
Qed.

(* ---- Ideal gas and van der Waals: exact inversion *)
Theorem C09_IG P V : V <> 0 -> Rgas * IG_solve_T P V / V = P.
Proof. intros. unfold IG_solve_T. pose proof Rgas_pos. field. split; auto; nz. Qed.

Theorem C09_VDW P V a b : V <> 0 -> V <> b -> P_cubic (fun _ => a) b 0 0 (VDW_solve_T P V b a) V = P.
Proof.
  intros. unfold VDW_solve_T, P_cubic. pose proof Rgas_pos. field. splits; auto; try nz; try (intro Q; apply H0; lra).
Qed.
(* and the temperature is the only one *)
Theorem C09_VDW_unique P V a b T : V <> 0 -> V <> b -> P_cubic (fun _ => a) b 0 0 T V = P -> VDW_solve_T P V b a = T.
Proof.
  intros H H0 <-. unfold VDW_solve_T, P_cubic. pose proof Rgas_pos. field. splits; auto; try nz; try (intro Q; apply H0; lra).
Qed.

(* ---- a_alpha_for_V, for every cubic EOS *)
Theorem C09_a_alpha_for_V T P V b delta eps : regular_V b delta eps V ->
  (forall aa, P_cubic (fun _ => aa) b delta eps T V = P <-> aa = eos_a_alpha_for_V T P V b delta eps).
Proof.
  intros [H1 H2] aa. unfold P_cubic, eos_a_alpha_for_V. assert (V - b <> 0) by (intro Q; apply H1; lra).
  assert (H2' : V * V + delta * V + eps <> 0) by (intro Q; apply H2; rewrite <- Q; ring).
  split.
  - intros <-. field. split; auto.
  - intros ->. field. split; auto.
Qed.

(* ---- Peng-Robinson *)
Lemma PR_thing_eq V b : V ^ 2 + 2 * b * V + - b ^ 2 = V * V + 2 * V * b - b * b.
Proof. ring. Qed.

Theorem C09_PR P V Tc a b kappa fallback :
  0 < P -> 0 < b < V -> 0 < Tc -> 0 < a -> 0 <= kappa ->
  (* the quadratic in sqrt(T) does not degenerate *)
  Rgas * Tc * (V ^ 2 + 2 * b * V - b ^ 2) <> a * kappa ^ 2 * (V - b) ->
  (* some temperature gives this pressure at this volume *)
  (exists T, 0 < T /\ PR_P Tc a b kappa T V = P) ->
  least_T (fun T => PR_P Tc a b kappa T V) P (PR_solve_T P V Tc a b kappa fallback).
Proof.
  intros HP Hb HTc Ha Hk Hnd [T0 [HT0 HE0]].
  pose proof Rgas_pos as HR.
  set (D := V * V + 2 * V * b - b * b). set (w := V - b). set (q := Rgas * Tc).
  assert (HD : 0 < D) by (unfold D; nra). assert (Hw : 0 < w) by (unfold w; lra).
  assert (Hq : 0 < q) by (unfold q; apply Rmult_lt_0_compat; auto).
  set (t := q * D - a * kappa * kappa * w).
  assert (Ht : t <> 0). { unfold t, q, D, w. intro Q. apply Hnd. lra. }
  set (f := fun z => q / w * (z * z) - a / D * ((1 + kappa * (1 - z)) * (1 + kappa * (1 - z)))).
  assert (HPV : forall T, 0 < T -> PR_P Tc a b kappa T V = f (sqrt (T / Tc))).
  { intros T HT. unfold PR_P, P_cubic, f. rewrite PR_thing_eq. fold D. rewrite sqrt_sqrt.
    2:{ left. apply Rdiv_lt_0_compat; auto. } fold w. unfold q. field. splits; nz. }
  (* the radicand is nonnegative because a solution exists *)
  set (Q := P * t + a * q * (1 + kappa) ^ 2).
  assert (HQ : 0 <= w ^ 3 * D * Q).
  { rewrite HPV in HE0 by auto. set (z := sqrt (T0 / Tc)) in *.
    pose proof (quad_form D w a kappa q P t HD Hw eq_refl z : (f z - P) * (w * D) = _) as F. rewrite HE0 in F.
    replace ((P - P) * (w * D)) with 0 in F by ring.
    set (be := a * kappa * (1 + kappa) * w) in *.
    assert (E : w ^ 2 * (be * be + t * (a * (1 + kappa) * (1 + kappa) * w + P * w * D)) = w ^ 3 * D * Q).
    { unfold be, Q, t. ring. }
    rewrite <- E. apply Rmult_le_pos; [nra|].
    replace (be * be + t * (a * (1 + kappa) * (1 + kappa) * w + P * w * D)) with ((t * z + be) * (t * z + be)).
    2:{ transitivity (t * (t * z * z + 2 * be * z) + be * be); [ring|].
        replace (t * z * z + 2 * be * z) with (a * (1 + kappa) * (1 + kappa) * w + P * w * D) by lra. ring. }
    apply Rle_0_sqr. }
  set (r := sqrt (w ^ 3 * D * Q)).
  assert (Hr : 0 <= r) by apply sqrt_pos.
  assert (Er : r * r = w ^ 3 * D * Q) by (apply sqrt_sqrt; auto).
  set (x := (r / w - a * kappa * (1 + kappa) * w) / t).
  assert (Hx : 0 < x) by (apply (quad_pos D w a kappa q P t r); auto).
  assert (Hfx : f x = P) by (apply (quad_root D w a kappa q P t r); auto).
  assert (ES : PR_solve_T P V Tc a b kappa fallback = Tc * (x * x)).
  { unfold PR_solve_T. cbv zeta.
    (* the closed form *)
    match goal with |- context [sqrt (((V - b) ^ 3 * ?d * ?e))] =>
      replace (sqrt ((V - b) ^ 3 * d * e)) with r by (unfold r; f_equal; fold w; unfold Q, t, D, q, w; ring) end.
    match goal with |- context [Rltb ?e 0] => replace e with (Tc * (x * x)) end.
    2:{ match goal with |- _ = - Tc / (?e1 * ?e2) * _ =>
          replace e2 with (t * t) by (unfold t, q, D, w; ring); replace e1 with (t * t) by (unfold t, q, D, w; ring) end.
        match goal with |- _ = _ * (2 * a * kappa * (?e1) * (r * (kappa + 1)) - _ * (V - b) * ?e2) =>
          replace e1 with (t * t) by (unfold t, q, D, w; ring);
          replace e2 with (D * Q + a * a * kappa * kappa * (1 + kappa) ^ 2 * w) by (unfold Q, t, q, D, w; ring) end.
        fold w. unfold x.
        transitivity (Tc * ((r * r) / (w * w) - 2 * r * a * kappa * (1 + kappa) + a * a * kappa * kappa * (1 + kappa) ^ 2 * w * w) / (t * t)).
        - field. split; auto; nz.
        - rewrite Er. unfold Rdiv at 2. field. split; auto; nz. }
    assert (0 < Tc * (x * x)) by (apply Rmult_lt_0_compat; nra).
    rewrite Rltb_false by lra.
    replace (Tc * (x * x) * (1 / Tc)) with (x * x) by (field; nz).
    rewrite sqrt_square by lra.
    match goal with |- context [Rabs (?e / P)] => assert (EE : e = 0) end.
    { transitivity (f x - P); [|lra]. unfold f. fold w. replace (V * (V + b) + b * w) with D by (unfold D, w; ring).
      unfold q. field. splits; nz. }
    rewrite EE. replace (0 / P) with 0 by (field; nz). rewrite Rabs_R0. rewrite Rltb_false by lra.
    match goal with |- context [Reqb ?e 0] => destruct (Reqb_spec e 0) as [ED|ED] end; auto.
    match goal with |- context [0 / ?e] => replace (0 / e) with 0 by (unfold Rdiv; ring) end.
    rewrite !Rminus_0_r. replace (Tc * (x * x) * (1 / Tc)) with (x * x) by (field; nz).
    rewrite sqrt_square by lra. rewrite EE. unfold Rdiv. ring. }
  rewrite ES. apply (least_of_quad _ f); auto.
  intros z Hz Hf. apply (quad_least D w a kappa q P t r); auto.
Qed.

(* round trip: on states where the pressure rises with temperature the temperature itself comes back *)
Theorem C09_PR_roundtrip T V Tc a b kappa fallback :
  0 < T -> 0 < b < V -> 0 < Tc -> 0 < a -> 0 <= kappa -> 0 < PR_P Tc a b kappa T V ->
  a * kappa ^ 2 * (V - b) < Rgas * Tc * (V ^ 2 + 2 * b * V - b ^ 2) ->
  PR_solve_T (PR_P Tc a b kappa T V) V Tc a b kappa fallback = T.
Proof.
  intros HT Hb HTc Ha Hk HP Hnd.
  assert (L := C09_PR (PR_P Tc a b kappa T V) V Tc a b kappa fallback HP Hb HTc Ha Hk).
  destruct L as [L1 [L2 L3]]. { intro Q; lra. } { exists T; auto. }
  set (T1 := PR_solve_T _ _ _ _ _ _ _) in *.
  assert (T1 <= T) by (apply L3; auto).
  (* f is injective on nonnegative arguments when t > 0 *)
  pose proof Rgas_pos as HR.
  set (D := V * V + 2 * V * b - b * b). set (w := V - b). set (q := Rgas * Tc).
  assert (HD : 0 < D) by (unfold D; nra). assert (Hw : 0 < w) by (unfold w; lra).
  set (t := q * D - a * kappa * kappa * w).
  assert (Ht : 0 < t). { unfold t, q, D, w. lra. }
  set (f := fun z => q / w * (z * z) - a / D * ((1 + kappa * (1 - z)) * (1 + kappa * (1 - z)))).
  assert (HPV : forall T, 0 < T -> PR_P Tc a b kappa T V = f (sqrt (T / Tc))).
  { intros T' HT'. unfold PR_P, P_cubic, f. rewrite PR_thing_eq. fold D. rewrite sqrt_sqrt.
    2:{ left. apply Rdiv_lt_0_compat; auto. } fold w. unfold q. field. splits; nz. }
  rewrite !HPV in L2 by auto.
  set (z1 := sqrt (T1 / Tc)) in *. set (z := sqrt (T / Tc)) in *.
  assert (0 < z1) by (apply sqrt_lt_R0, Rdiv_lt_0_compat; auto).
  assert (0 < z) by (apply sqrt_lt_R0, Rdiv_lt_0_compat; auto).
  pose proof (quad_form D w a kappa q (f z) t HD Hw eq_refl z : (f z - f z) * (w * D) = _) as F1.
  pose proof (quad_form D w a kappa q (f z) t HD Hw eq_refl z1 : (f z1 - f z) * (w * D) = _) as F2. rewrite L2 in F2.
  assert (E : (z - z1) * (t * (z + z1) + 2 * (a * kappa * (1 + kappa) * w)) = 0) by lra.
  assert (0 <= a * kappa * (1 + kappa) * w) by (repeat apply Rmult_le_pos; lra).
  assert (0 < t * (z + z1)) by (apply Rmult_lt_0_compat; lra).
  apply Rmult_integral in E. destruct E as [E|E]; [|lra].
  assert (Z : z = z1) by lra. unfold z, z1 in Z. apply sqrt_inj in Z; try (left; apply Rdiv_lt_0_compat; auto).
  apply Rmult_eq_reg_r with (/ Tc); [symmetry; exact Z|]. apply Rinv_neq_0_compat. lra.
Qed.

(* ---- Soave-Redlich-Kwong *)
Theorem C09_SRK P V Tc a b m :
  0 < P -> 0 < b < V -> 0 < Tc -> 0 < a -> 0 <= m ->
  Rgas * Tc * (V ^ 2 + b * V) <> a * m ^ 2 * (V - b) ->
  (exists T, 0 < T /\ SRK_P Tc a b m T V = P) ->
  least_T (fun T => SRK_P Tc a b m T V) P (SRK_solve_T P V a b Tc m).
Proof.
  intros HP Hb HTc Ha Hk Hnd [T0 [HT0 HE0]].
  pose proof Rgas_pos as HR.
  set (D := V * V + V * b). set (w := V - b). set (q := Rgas * Tc).
  assert (HD : 0 < D) by (unfold D; nra). assert (Hw : 0 < w) by (unfold w; lra).
  assert (Hq : 0 < q) by (unfold q; apply Rmult_lt_0_compat; auto).
  set (t := q * D - a * m * m * w).
  assert (Ht : t <> 0). { unfold t, q, D, w. intro Q. apply Hnd. lra. }
  set (f := fun z => q / w * (z * z) - a / D * ((1 + m * (1 - z)) * (1 + m * (1 - z)))).
  assert (HPV : forall T, 0 < T -> SRK_P Tc a b m T V = f (sqrt (T / Tc))).
  { intros T HT. unfold SRK_P, P_cubic, f. replace (V ^ 2 + b * V + 0) with D by (unfold D; ring). rewrite sqrt_sqrt.
    2:{ left. apply Rdiv_lt_0_compat; auto. } fold w. unfold q. field. splits; nz. }
  set (Q := P * t + a * q * (1 + m) ^ 2).
  assert (HQ : 0 <= w ^ 3 * D * Q).
  { rewrite HPV in HE0 by auto. set (z := sqrt (T0 / Tc)) in *.
    pose proof (quad_form D w a m q P t HD Hw eq_refl z : (f z - P) * (w * D) = _) as F. rewrite HE0 in F.
    replace ((P - P) * (w * D)) with 0 in F by ring.
    set (be := a * m * (1 + m) * w) in *.
    assert (E : w ^ 2 * (be * be + t * (a * (1 + m) * (1 + m) * w + P * w * D)) = w ^ 3 * D * Q).
    { unfold be, Q, t. ring. }
    rewrite <- E. apply Rmult_le_pos; [nra|].
    replace (be * be + t * (a * (1 + m) * (1 + m) * w + P * w * D)) with ((t * z + be) * (t * z + be)).
    2:{ transitivity (t * (t * z * z + 2 * be * z) + be * be); [ring|].
        replace (t * z * z + 2 * be * z) with (a * (1 + m) * (1 + m) * w + P * w * D) by lra. ring. }
    apply Rle_0_sqr. }
  set (r := sqrt (w ^ 3 * D * Q)).
  assert (Hr : 0 <= r) by apply sqrt_pos.
  assert (Er : r * r = w ^ 3 * D * Q) by (apply sqrt_sqrt; auto).
  set (x := (r / w - a * m * (1 + m) * w) / t).
  assert (Hx : 0 < x) by (apply (quad_pos D w a m q P t r); auto).
  assert (Hfx : f x = P) by (apply (quad_root D w a m q P t r); auto).
  assert (ES : SRK_solve_T P V a b Tc m = Tc * (x * x)).
  { unfold SRK_solve_T. cbv zeta.
    match goal with |- context [sqrt ?e] =>
      replace (sqrt e) with r by (unfold r; f_equal; unfold Q, t, D, q, w; ring) end.
    match goal with |- _ / (?e1 * ?e2) = _ =>
          replace e1 with (t * t) by (unfold t, q, D, w; ring); replace e2 with (t * t) by (unfold t, q, D, w; ring) end.
    match goal with |- - Tc * (2 * a * m * _ * r * (m + 1) - t * t * (V - b) * ?e2) / _ = _ =>
      replace e2 with (D * Q + a * a * m * m * (1 + m) ^ 2 * w) by (unfold Q, t, q, D, w; ring) end.
    fold w. unfold x.
    transitivity (Tc * ((r * r) / (w * w) - 2 * r * a * m * (1 + m) + a * a * m * m * (1 + m) ^ 2 * w * w) / (t * t)).
    - rewrite Er. field. split; auto; nz.
    - field. split; auto; nz. }
  rewrite ES. apply (least_of_quad _ f); auto.
  intros z Hz Hf. apply (quad_least D w a m q P t r); auto.
Qed.

(* ---- PRSV, PRSV2 and APISRK: the residual handed to the secant solver vanishes exactly at the EOS temperatures *)
Theorem C09_PRSV P V Tc a b kappa0 kappa1 T :
  0 < b < V -> 0 < Tc -> 0 < T ->
  (PRSV_T_residual P V Tc a b kappa0 kappa1 T = 0 <->
   P_cubic (fun T => a * (1 + (kappa0 + kappa1 * (1 + sqrt (T / Tc)) * (7/10 - T / Tc)) * (1 - sqrt (T / Tc))) ^ 2) b (2 * b) (- b ^ 2) T V = P).
Proof.
  intros. unfold PRSV_T_residual, P_cubic. cbv zeta. rewrite PR_thing_eq.
  replace (T * (1 / Tc)) with (T / Tc) by (field; nz). set (z := sqrt (T / Tc)).
  assert (HD : 0 < V * V + 2 * V * b - b * b) by nra.
  match goal with |- ?l = 0 <-> ?r = P => replace l with (r - P) end.
  - split; intros; lra.
  - replace (V * (V + b) + b * (V - b)) with (V * V + 2 * V * b - b * b) by ring. field. splits; try nz.
Qed.

Theorem C09_PRSV2 P V Tc a b kappa0 kappa1 kappa2 kappa3 T :
  0 < b < V -> 0 < Tc -> 0 < T ->
  (PRSV2_T_residual P V Tc a b kappa0 kappa1 kappa2 kappa3 T = 0 <->
   P_cubic (fun T => a * (1 + (kappa0 + (kappa1 + kappa2 * (kappa3 - T / Tc) * (1 - sqrt (T / Tc))) * (1 + sqrt (T / Tc)) * (7/10 - T / Tc))
                            * (1 - sqrt (T / Tc))) ^ 2) b (2 * b) (- b ^ 2) T V = P).
Proof.
  intros. unfold PRSV2_T_residual, P_cubic. cbv zeta. rewrite PR_thing_eq.
  set (z := sqrt (T / Tc)).
  assert (HD : 0 < V * V + 2 * V * b - b * b) by nra.
  match goal with |- ?l = 0 <-> ?r = P => replace l with (r - P) end.
  - split; intros; lra.
  - replace (V * (V + b) + b * (V - b)) with (V * V + 2 * V * b - b * b) by ring. field. splits; try nz.
Qed.

Theorem C09_APISRK P V Tc a b S1 S2 T :
  0 < b < V -> 0 < Tc -> 0 < T ->
  (APISRK_T_residual P V Tc a b S1 S2 T = 0 <->
   P_cubic (fun T => a * (1 + S1 * (1 - sqrt (T / Tc)) + S2 * (1 - sqrt (T / Tc)) / sqrt (T / Tc)) ^ 2) b b 0 T V = P).
Proof.
  intros. unfold APISRK_T_residual, P_cubic. cbv zeta.
  set (z := sqrt (T / Tc)).
  assert (0 < z) by (apply sqrt_lt_R0, Rdiv_lt_0_compat; auto).
  assert (HD : 0 < V * V + b * V) by nra.
  match goal with |- ?l = 0 <-> ?r = P => replace l with (r - P) end.
  - split; intros; lra.
  - field. splits; try nz.
Qed.

(* ---- Volume-translated SRKTranslatedPPJP inherits SRK.solve_T although its delta and epsilon differ (thermo/eos.py 10325-10408:
   b = b0 - c, delta = 2c + b0, epsilon = c(b0 + c)): the temperature returned does not satisfy its own EOS. *)
Theorem C09_SRKTranslatedPPJP_refuted :
  exists P V Tc a b0 c m, 0 < P /\ 0 < b0 - c < V /\ 0 < Tc /\ 0 < a /\ 0 < m /\ 0 < c /\
    P_cubic (fun T => a * (1 + m * (1 - sqrt (T / Tc))) ^ 2) (b0 - c) (2 * c + b0) (c * (b0 + c)) (SRK_solve_T P V a (b0 - c) Tc m) V <> P.
Proof.
  (* choose V = 2, b = 1 so V-b = 1; c = 1, b0 = 2, m = 1 *)
  pose proof Rgas_pos as HR. pose proof Rgas_val as HV.
  set (Tc := 2 / Rgas). assert (HTc : 0 < Tc) by (unfold Tc; apply Rdiv_lt_0_compat; lra).
  (* q = Rgas Tc = 2, D = 6, w = 1, t = 12 - a ; take a = 6, x = 1: P = 2 - 1 = 1 *)
  assert (E : SRK_solve_T 1 2 6 (2 - 1) Tc 1 = Tc).
  { assert (L := C09_SRK 1 2 Tc 6 (2 - 1) 1). destruct L as [L1 [L2 L3]]; try lra.
    - replace (Rgas * Tc) with 2 by (unfold Tc; field; lra). intro Q. lra.
    - exists Tc. split; auto. unfold SRK_P, P_cubic. replace (Tc / Tc) with 1 by (field; lra). rewrite sqrt_1.
      replace (Rgas * Tc) with 2 by (unfold Tc; field; lra). field.
    - assert (EE : forall T, 0 < T -> SRK_P Tc 6 (2 - 1) 1 T 2 = 1 -> T = Tc).
      { intros T HT. unfold SRK_P, P_cubic. set (z := sqrt (T / Tc)).
        assert (0 < z) by (apply sqrt_lt_R0, Rdiv_lt_0_compat; auto).
        assert (Z : z * z = T / Tc) by (apply sqrt_sqrt; left; apply Rdiv_lt_0_compat; auto).
        replace (Rgas * T) with (2 * (z * z)) by (rewrite Z; unfold Tc; field; splits; try nz; lra). intros Q.
        assert (z = 1).
        { assert (Q2 : (z - 1) * (z + 5) = 0).
          { replace (2 * (z * z) / (2 - (2 - 1)) - 6 * (1 + 1 * (1 - z)) ^ 2 / (2 ^ 2 + (2 - 1) * 2 + 0)) with (z * z + 4 * z - 4) in Q by field. lra. }
          apply Rmult_integral in Q2. destruct Q2; lra. }
        rewrite H0 in Z. apply Rmult_eq_reg_r with (/ Tc); [|apply Rinv_neq_0_compat; lra].
        rewrite Rinv_r by lra. unfold Rdiv in Z. lra. }
      apply EE; auto. }
  exists 1, 2, Tc, 6, 2, 1, 1. splits; try lra. rewrite E. unfold P_cubic. replace (Tc / Tc) with 1 by (field; lra). rewrite sqrt_1.
  replace (Rgas * Tc) with 2 by (unfold Tc; field; lra). intro Q.
  assert (W : 2 / (2 - (2 - 1)) - 6 * (1 + 1 * (1 - 1)) ^ 2 / (2 ^ 2 + (2 * 1 + 2) * 2 + 1 * (2 + 1)) = 2 - 6 / 15) by field. lra.
Qed.

(* A PR state (a real fluid's order of magnitude) meeting the hypotheses of C09_PR and C09_PR_roundtrip. *)
Example C09_hypotheses_met :
  let Tc := 500 in let a := 2 in let b := 1/10000 in let kappa := 8/10 in let V := 1/100 in let T := 500 in
  0 < T /\ 0 < b < V /\ 0 < Tc /\ 0 < a /\ 0 <= kappa /\ 0 < PR_P Tc a b kappa T V /\
  a * kappa ^ 2 * (V - b) < Rgas * Tc * (V ^ 2 + 2 * b * V - b ^ 2).
Proof.
  pose proof Rgas_val as HV. cbv zeta. splits; try lra.
  unfold PR_P, P_cubic. replace (500 / 500) with 1 by field. rewrite sqrt_1. rewrite HV.
  field_simplify. lra.
Qed.
