(* C36: extrapolation beyond the limits of a method joins the method continuously, and smoothly where it is meant to. *)
From Coq Require Import Reals Arith List Bool String Lra Lia.
From Coquelicot Require Import Coquelicot.
From Coq Require Import List.
From Verif Require Import Base BaseFacts Model_pyerr Model_tdep Spec_tdep TdepFacts.
Import ListNotations.
Open Scope R_scope.

(* A method defined on [lo, hi] by the function F, whose values are acceptable there *)
Record on_range (M : method) (pmin pmax lo hi : R) (F : R -> R) : Prop := {
  r_lo : m_lo M = lo; r_hi : m_hi M = Some hi; r_pos : 0 < lo; r_lt : lo < hi;
  r_calc : forall T, lo <= T <= hi -> calc M T = Some (F T);
  r_valid : forall T, lo <= T <= hi -> pmin <= F T <= pmax }.
(* ... and whose derivatives are the ones the object computes *)
Record smooth_range (M : method) (lo hi : R) (F F1 F2 : R -> R) : Prop := {
  s_1 : forall T, lo <= T <= hi -> is_derive F T (F1 T);
  s_2 : forall T, lo <= T <= hi -> is_derive F1 T (F2 T);
  s_c1 : forall T, lo <= T <= hi -> cder M 1 T = Some (F1 T);
  s_c2 : forall T, lo <= T <= hi -> cder M 2 T = Some (F2 T);
  s_log : forall T, lo <= T <= hi -> clogder M T = Some (F1 T / F T) }.
(* temperatures at which the formula of an extrapolation has a value *)
Definition uses_Tc (k : ext) : Prop := match k with WATSON | EXP_POLY_LN_TAU2 | EXP_POLY_LN_TAU3 | DIPPR106_AB | DIPPR106_ABC => True | _ => False end.
Definition allowed (O : options) (k : ext) (T : R) : Prop := 0 < T /\ (uses_Tc k -> T < Tc O).
(* values at the limit T for which the coefficients can be computed *)
Definition usable (O : options) (M : method) (F : R -> R) (lo hi : R) (k : ext) (low : bool) : Prop :=
  let T := if low then lo else hi in
  match k with
  | LINEAR | CONSTANT => True
  | LOG_LINEAR => 0 < F T
  | ANTOINE_AB | DIPPR101_ABC => 0 < F T
  | ARRHENIUS => F T <> 0
  | NOLIMIT => (forall T, 0 < T -> calc M T = Some (F T)) /\ (forall T, 0 < T -> continuous F T)
  | WATSON => 0 < lo /\ lo < hi /\ hi < Tc O /\ (forall T, lo <= T <= hi -> 0 < F T)
  | EXP_POLY_LN_TAU2 | EXP_POLY_LN_TAU3 => T < Tc O /\ 0 < F T
  | DIPPR106_AB => T < Tc O /\ F T <> 0
  | DIPPR106_ABC => T < Tc O /\ F T <> 0 /\ 2 + ln (1 - T / Tc O) <> 0
  | UNKNOWN => False
  end.
(* extrapolations made from the value and the slope, and from the second derivative too *)
Definition matches_slope (k : ext) : Prop := match k with LINEAR | LOG_LINEAR | ARRHENIUS | ANTOINE_AB | DIPPR101_ABC | EXP_POLY_LN_TAU2 | EXP_POLY_LN_TAU3 | DIPPR106_AB | DIPPR106_ABC => True | _ => False end.
Definition matches_curvature (k : ext) : Prop := match k with DIPPR101_ABC | EXP_POLY_LN_TAU3 | DIPPR106_ABC => True | _ => False end.

Section Sides.
Variables (O : options) (M : method) (pmin pmax lo hi : R) (F F1 F2 : R -> R).
Hypothesis HR : on_range M pmin pmax lo hi F.
Hypothesis HS : smooth_range M lo hi F F1 F2.
Let lim (low : bool) := if low then lo else hi.

Lemma lim_in low : lo <= lim low <= hi.
Proof. destruct HR, low; cbn; lra. Qed.
Lemma lim_pos low : 0 < lim low.
Proof. pose proof (lim_in low). destruct HR. lra. Qed.
Lemma lim_eq (low : bool) : (if low then Some (m_lo M) else m_hi M) = Some (lim low).
Proof. destruct HR as [-> -> _ _ _ _], low; reflexivity. Qed.
Lemma limit_T_eq low : limit_T M low = Some (lim low).
Proof. unfold limit_T. apply lim_eq. Qed.

(* the coefficients, and the function they give *)
Definition coeffs (k : ext) (low : bool) : list R :=
  let T := lim low in let v := F T in let d := F1 T in let d2 := F2 T in
  match k with
  | LINEAR => [v; d] | LOG_LINEAR => [ln v; d / v] | ARRHENIUS => ext_Arrhenius_parameters T v d | CONSTANT => [v] | NOLIMIT => []
  | ANTOINE_AB => ext_Antoine_AB T v d | DIPPR101_ABC => ext_DIPPR101 T v d d2
  | WATSON => let dT := if low then (hi - lo) * / 10000 else - ((hi - lo) * / 10000) in [v; ext_Watson_n T (T + dT) v (F (T + dT)) (Tc O)]
  | EXP_POLY_LN_TAU2 => ext_exp_poly2 T (Tc O) v d | EXP_POLY_LN_TAU3 => ext_exp_poly3 T (Tc O) v d d2
  | DIPPR106_AB => ext_EQ106_AB T (Tc O) v d | DIPPR106_ABC => ext_EQ106_ABC T (Tc O) v d d2 | UNKNOWN => []
  end.
Lemma watson_in (low : bool) : lo <= lim low + (if low then (hi - lo) * / 10000 else - ((hi - lo) * / 10000)) <= hi.
Proof. destruct HR, low; cbn; lra. Qed.
Lemma get_coeffs_eq k low : usable O M F lo hi k low -> get_coeffs M (Tc O) k low = Some (coeffs k low).
Proof.
  intros HU. unfold get_coeffs. rewrite lim_eq. pose proof (lim_in low) as HL.
  pose proof (r_calc _ _ _ _ _ _ HR _ HL) as Hc. pose proof (s_c1 _ _ _ _ _ _ HS _ HL) as H1. pose proof (s_c2 _ _ _ _ _ _ HS _ HL) as H2. pose proof (s_log _ _ _ _ _ _ HS _ HL) as H3.
  destruct k; cbn [usable coeffs] in *; rewrite ?Hc, ?H1, ?H2, ?H3; try reflexivity.
  - unfold py_log. fold (lim low) in HU. rewrite (Rltb_true 0 _ HU). reflexivity.
  - rewrite (r_hi _ _ _ _ _ _ HR), (r_lo _ _ _ _ _ _ HR). cbv zeta. rewrite (r_calc _ _ _ _ _ _ HR _ (watson_in low)). reflexivity.
  - destruct HU.
Qed.
Definition ext_fun (k : ext) (low : bool) (T : R) : R :=
  match k, coeffs k low with
  | LINEAR, [v; d] => v + d * (T - lim low)
  | LOG_LINEAR, [v; d] => exp (v + d * (T - lim low))
  | ARRHENIUS, [T_ref; P_ref; slope] => ext_Arrhenius T T_ref P_ref slope
  | CONSTANT, [v] => v
  | ANTOINE_AB, [A; B] => ext_Antoine T A B 0
  | NOLIMIT, _ => F T
  | DIPPR101_ABC, [A; B; C] => ext_EQ101 T A B C
  | DIPPR106_AB, [A; B] => ext_EQ106 T (Tc O) A B 0
  | DIPPR106_ABC, [A; B; C] => ext_EQ106 T (Tc O) A B C
  | WATSON, [v0; n] => ext_Watson T v0 (lim low) (Tc O) n
  | EXP_POLY_LN_TAU2, cs => ext_exp_ln_tau T (Tc O) cs
  | EXP_POLY_LN_TAU3, cs => ext_exp_ln_tau T (Tc O) cs
  | _, _ => 0
  end.
Lemma extrapolated_eq k low T : usable O M F lo hi k low -> allowed O k T -> extrapolated M (Tc O) k low (coeffs k low) T = Some (ext_fun k low T).
Proof.
  intros HU [HT _]. destruct k; unfold ext_fun, extrapolated; cbn [coeffs ext_Arrhenius_parameters ext_Antoine_AB ext_DIPPR101 ext_EQ106_AB ext_EQ106_ABC]; rewrite ?limit_T_eq; try reflexivity.
  - destruct HU as [HU _]. now rewrite HU.
  - destruct HU.
Qed.
(* derivatives of the function *)
Definition ext_fun1 (k : ext) (low : bool) (T : R) : R :=
  match k, coeffs k low with
  | LINEAR, [v; d] => d
  | LOG_LINEAR, [v; d] => d * exp (v + d * (T - lim low))
  | ARRHENIUS, [T_ref; P_ref; slope] => ext_dArrhenius T T_ref P_ref slope
  | ANTOINE_AB, [A; B] => ext_dAntoine T A B 0
  | DIPPR101_ABC, [A; B; C] => ext_EQ101_1 T A B C
  | DIPPR106_AB, [A; B] => ext_EQ106_1 T (Tc O) A B 0
  | DIPPR106_ABC, [A; B; C] => ext_EQ106_1 T (Tc O) A B C
  | EXP_POLY_LN_TAU2, cs => ext_exp_ln_tau_1 T (Tc O) cs
  | EXP_POLY_LN_TAU3, cs => ext_exp_ln_tau_1 T (Tc O) cs
  | _, _ => 0
  end.
Definition ext_fun2 (k : ext) (low : bool) (T : R) : R :=
  match k, coeffs k low with
  | ARRHENIUS, [T_ref; P_ref; slope] => ext_d2Arrhenius T T_ref P_ref slope
  | ANTOINE_AB, [A; B] => ext_d2Antoine T A B 0
  | DIPPR101_ABC, [A; B; C] => ext_EQ101_2 T A B C
  | DIPPR106_AB, [A; B] => ext_EQ106_2 T (Tc O) A B 0
  | DIPPR106_ABC, [A; B; C] => ext_EQ106_2 T (Tc O) A B C
  | EXP_POLY_LN_TAU2, cs => ext_exp_ln_tau_2 T (Tc O) cs
  | EXP_POLY_LN_TAU3, cs => ext_exp_ln_tau_2 T (Tc O) cs
  | _, _ => 0
  end.
Definition ext_fun3 (k : ext) (low : bool) (T : R) : R :=
  match k, coeffs k low with
  | ARRHENIUS, [T_ref; P_ref; slope] => ext_d3Arrhenius T T_ref P_ref slope
  | DIPPR101_ABC, [A; B; C] => ext_EQ101_3 T A B C
  | DIPPR106_AB, [A; B] => ext_EQ106_3 T (Tc O) A B 0
  | DIPPR106_ABC, [A; B; C] => ext_EQ106_3 T (Tc O) A B C
  | _, _ => 0
  end.
Lemma tc_pos k low : uses_Tc k -> usable O M F lo hi k low -> 0 < Tc O.
Proof. pose proof (lim_pos low) as HL. pose proof (lim_in low). unfold lim in *. destruct k; cbn; try tauto; intros _ HU; lra. Qed.
Lemma ext_fun_derive k low T : matches_slope k -> usable O M F lo hi k low -> allowed O k T -> is_derive (ext_fun k low) T (ext_fun1 k low T).
Proof.
  intros HM HU [HT HA]. pose proof (tc_pos k low) as HTc. pose proof (lim_pos low) as HL.
  destruct k; cbn in HM; try tauto; unfold ext_fun, ext_fun1; cbn [coeffs ext_Arrhenius_parameters ext_Antoine_AB ext_DIPPR101 ext_EQ106_AB ext_EQ106_ABC ext_exp_poly2 ext_exp_poly3]; cbn in HA, HTc.
  - auto_derive; [auto|ring].
  - auto_derive; [auto|]. unfold Rminus. ring.
  - apply d_Arrhenius; lra.
  - now apply d_Antoine.
  - now apply d_EQ101.
  - apply d_exp_ln_tau; auto.
  - apply d_exp_ln_tau; auto.
  - apply d_EQ106; auto.
  - apply d_EQ106; auto.
Qed.
Lemma ext_fun_derive2 k low T : matches_slope k -> k <> LOG_LINEAR -> usable O M F lo hi k low -> allowed O k T -> is_derive (ext_fun1 k low) T (ext_fun2 k low T).
Proof.
  intros HM HN HU [HT HA]. pose proof (tc_pos k low) as HTc. pose proof (lim_pos low) as HL.
  destruct k; cbn in HM; try tauto; unfold ext_fun1, ext_fun2; cbn [coeffs ext_Arrhenius_parameters ext_Antoine_AB ext_DIPPR101 ext_EQ106_AB ext_EQ106_ABC ext_exp_poly2 ext_exp_poly3]; cbn in HA, HTc.
  - auto_derive; auto.
  - apply d_dArrhenius; lra.
  - now apply d_dAntoine.
  - now apply d_EQ101_1.
  - apply d_exp_ln_tau_1; auto.
  - apply d_exp_ln_tau_1; auto.
  - apply d_EQ106_1; auto.
  - apply d_EQ106_1; auto.
Qed.
Definition third (k : ext) : Prop := match k with LINEAR | ARRHENIUS | DIPPR101_ABC | DIPPR106_AB | DIPPR106_ABC => True | _ => False end.
Lemma ext_fun_derive3 k low T : third k -> usable O M F lo hi k low -> allowed O k T -> is_derive (ext_fun2 k low) T (ext_fun3 k low T).
Proof.
  intros HM HU [HT HA]. pose proof (tc_pos k low) as HTc. pose proof (lim_pos low) as HL.
  destruct k; cbn in HM; try tauto; unfold ext_fun2, ext_fun3; cbn [coeffs ext_Arrhenius_parameters ext_Antoine_AB ext_DIPPR101 ext_EQ106_AB ext_EQ106_ABC]; cbn in HA, HTc.
  - auto_derive; auto.
  - apply d_d2Arrhenius; lra.
  - now apply d_EQ101_2.
  - apply d_EQ106_2; auto.
  - apply d_EQ106_2; auto.
Qed.
Lemma ext_fun_continuous k low T : usable O M F lo hi k low -> allowed O k T -> continuous (ext_fun k low) T.
Proof.
  intros HU HA. assert (D : matches_slope k \/ ~ matches_slope k) by (destruct k; cbn; tauto). destruct D as [D|D].
  - apply (ex_derive_continuous (ext_fun k low)). eexists. now apply ext_fun_derive.
  - destruct k; cbn in D; try tauto.
    + unfold ext_fun; cbn [coeffs]. apply continuous_const.
    + unfold ext_fun. destruct HU as [_ HU]. apply (continuous_ext F); [reflexivity|]. apply HU, HA.
    + unfold ext_fun; cbn [coeffs]. destruct HU as (H1 & H2 & H3 & H4). destruct HA as [HT HA]. cbn in HA.
      match goal with |- continuous (fun T => ext_Watson T ?v ?l ?t ?n) _ => destruct (d_Watson T v l t n) as [d Hd] end; [auto| |lra|].
      { pose proof (lim_in low). lra. }
      eapply (ex_derive_continuous (fun T => ext_Watson T _ _ _ _)). eexists; eassumption.
Qed.
Lemma at_limit_pow t b v : 0 < t -> v * Rpower t (- b) * Rpower t b = v.
Proof. intros. rewrite Rmult_assoc, <- Rpower_plus. replace (- b + b) with 0 by ring. rewrite Rpower_O; lra. Qed.
Lemma ext_fun_value k low : usable O M F lo hi k low -> ext_fun k low (lim low) = F (lim low).
Proof.
  intros HU. pose proof (lim_pos low) as HL. pose proof (lim_in low) as HI.
  destruct k; unfold ext_fun; cbn [coeffs ext_Arrhenius_parameters ext_Antoine_AB ext_DIPPR101 ext_EQ106_AB ext_EQ106_ABC ext_exp_poly2 ext_exp_poly3]; cbn in HU; fold (lim low) in HU; cbv zeta; try reflexivity.
  - ring.
  - replace (ln (F (lim low)) + _) with (ln (F (lim low))) by ring. now apply exp_ln.
  - unfold ext_Arrhenius. replace (- lim low ^ 2 * _ / _ * _) with 0 by (field; lra). rewrite exp_0. ring.
  - unfold ext_Antoine. rewrite Rplus_0_r. replace (_ + _ - _) with (ln (F (lim low))) by (field; lra). now apply exp_ln.
  - unfold ext_EQ101. replace (_ + _ + _) with (ln (F (lim low))) by (field; lra). now apply exp_ln.
  - unfold ext_Watson. destruct HU as (H1 & H2 & H3 & _). replace (_ / (1 - lim low / Tc O)) with 1; [|field; lra].
    unfold Rpower. rewrite ln_1, Rmult_0_r, exp_0. ring.
  - unfold ext_exp_ln_tau, ext_horner, ext_exp_poly2, ext_exp_poly3; cbv zeta; cbn [horner_from]. match goal with |- exp ?a = _ => replace a with (ln (F (lim low))) by ring end. apply exp_ln, HU.
  - unfold ext_exp_ln_tau, ext_horner, ext_exp_poly2, ext_exp_poly3; cbv zeta; cbn [horner_from]. match goal with |- exp ?a = _ => replace a with (ln (F (lim low))) by ring end. apply exp_ln, HU.
  - unfold ext_EQ106. rewrite Rmult_0_l, Rplus_0_r. apply at_limit_pow. apply tau_pos; lra.
  - unfold ext_EQ106. match goal with |- context [Rpower _ (?a - ?b + ?c)] => replace (a - b + c) with a by ring end. apply at_limit_pow. apply tau_pos; lra.
  - destruct HU.
Qed.
Lemma ext_fun_slope k low : matches_slope k -> usable O M F lo hi k low -> ext_fun1 k low (lim low) = F1 (lim low).
Proof.
  intros HM HU. pose proof (lim_pos low) as HL. pose proof (lim_in low) as HI. pose proof (ext_fun_value k low HU) as HV.
  destruct k; cbn in HM; try tauto; unfold ext_fun, ext_fun1 in *; cbn [coeffs ext_Arrhenius_parameters ext_Antoine_AB ext_DIPPR101 ext_EQ106_AB ext_EQ106_ABC ext_exp_poly2 ext_exp_poly3] in *; cbn in HU; fold (lim low) in HU; cbv zeta in *; try reflexivity.
  - rewrite HV. field. lra.
  - unfold ext_dArrhenius. rewrite HV. field. lra.
  - unfold ext_dAntoine. change (exp (_ - _)) with (ext_Antoine (lim low) (ln (F (lim low)) + lim low ^ 2 * F1 (lim low) / F (lim low) / lim low) (lim low ^ 2 * F1 (lim low) / F (lim low)) 0). rewrite HV. field. lra.
  - unfold ext_EQ101_1. rewrite HV. field. lra.
  - unfold ext_exp_ln_tau_1. rewrite HV. unfold ext_horner, ext_exp_poly2, ext_exp_poly3; cbv zeta; cbn -[lim]. field. lra.
  - unfold ext_exp_ln_tau_1. rewrite HV. unfold ext_horner, ext_exp_poly2, ext_exp_poly3; cbv zeta; cbn -[lim]. field. lra.
  - unfold ext_EQ106_1. rewrite HV. unfold ext_EQ106_l1. field. lra.
  - unfold ext_EQ106_1. rewrite HV. unfold ext_EQ106_l1. field. destruct HU as (A & B & C). repeat split; try lra.
Qed.
Lemma ext_fun_curvature k low : matches_curvature k -> usable O M F lo hi k low -> ext_fun2 k low (lim low) = F2 (lim low).
Proof.
  intros HM HU. pose proof (lim_pos low) as HL. pose proof (lim_in low) as HI. pose proof (ext_fun_value k low HU) as HV.
  destruct k; cbn in HM; try tauto; unfold ext_fun, ext_fun2 in *; cbn [coeffs ext_Arrhenius_parameters ext_Antoine_AB ext_DIPPR101 ext_EQ106_AB ext_EQ106_ABC ext_exp_poly2 ext_exp_poly3] in *; cbn in HU; fold (lim low) in HU; cbv zeta in *; try reflexivity.
  - unfold ext_EQ101_2. rewrite HV. field. lra.
  - unfold ext_exp_ln_tau_2. rewrite HV. unfold ext_horner, ext_exp_poly2, ext_exp_poly3; cbv zeta; cbn -[lim]. field. lra.
  - unfold ext_EQ106_2. rewrite HV. unfold ext_EQ106_l1, ext_EQ106_l2. destruct HU as (A & B & C).
    set (x := ln (1 - lim low / Tc O)) in *. field. repeat split; try lra.
Qed.

(* the property on the three sides *)
Notation P := (T_dependent_property pmin pmax true O M).
Definition clamps_around (v : R) : Prop := (forall m, e_min O = Some m -> m <= v) /\ (forall m, e_max O = Some m -> v <= m).
Definition kind (low : bool) : ext := if low then e_low O else e_high O.
Definition outer (low : bool) (T : R) : R := clamp (e_min O) (e_max O) (ext_fun (kind low) low T).
Hypothesis HL : usable O M F lo hi (e_low O) true.
Hypothesis HH : usable O M F lo hi (e_high O) false.
Definition within (T : R) : Prop := 0 < T /\ (T <= lo -> allowed O (e_low O) T) /\ (hi <= T -> allowed O (e_high O) T).

Lemma inside_iff T : inside M T = true <-> lo <= T <= hi.
Proof.
  unfold inside. rewrite (r_lo _ _ _ _ _ _ HR), (r_hi _ _ _ _ _ _ HR). cbn. rewrite andb_true_iff. split.
  - intros [A B]. split; [destruct (Rle_dec lo T) | destruct (Rle_dec T hi)]; auto; [rewrite Rleb_false in A by lra|rewrite Rleb_false in B by lra]; discriminate.
  - intros [A B]. split; apply Rleb_true; auto.
Qed.
Lemma P_inside T : lo <= T <= hi -> P T = Some (F T).
Proof.
  intros H. unfold T_dependent_property. rewrite (proj2 (inside_iff T) H), (r_calc _ _ _ _ _ _ HR _ H). unfold valid.
  destruct (r_valid _ _ _ _ _ _ HR _ H). now rewrite !Rltb_false by lra.
Qed.
Lemma inside_not T : T < lo \/ hi < T -> inside M T = false.
Proof. intros H. destruct (inside M T) eqn:E; auto. apply inside_iff in E. lra. Qed.
Lemma side_low ir T : 0 < T -> T <= lo -> side M ir T = Some true.
Proof. intros. unfold side. rewrite (r_lo _ _ _ _ _ _ HR), (Rltb_false T 0), (Rleb_true T lo) by lra. reflexivity. Qed.
Lemma side_high ir T : hi <= T -> side M ir T = Some false.
Proof. intros. destruct HR. unfold side. rewrite r_lo0, r_hi0. cbn. rewrite (Rltb_false T 0), (Rleb_false T lo), (Rleb_true hi T) by lra. reflexivity. Qed.
Lemma ext_low ir T : T <= lo -> allowed O (e_low O) T -> extrapolate O M ir T = Some (outer true T).
Proof. intros H A. unfold extrapolate. rewrite side_low by (auto; apply A). cbv zeta iota. rewrite get_coeffs_eq, extrapolated_eq; auto. Qed.
Lemma ext_high ir T : hi <= T -> allowed O (e_high O) T -> extrapolate O M ir T = Some (outer false T).
Proof. intros H A. unfold extrapolate. rewrite side_high by auto. cbv zeta iota. rewrite get_coeffs_eq, extrapolated_eq; auto. Qed.
Lemma P_low T : T < lo -> allowed O (e_low O) T -> P T = Some (outer true T).
Proof. intros H A. unfold T_dependent_property. rewrite inside_not by auto. apply ext_low; auto; lra. Qed.
Lemma P_high T : hi < T -> allowed O (e_high O) T -> P T = Some (outer false T).
Proof. intros H A. unfold T_dependent_property. rewrite inside_not by auto. apply ext_high; auto; lra. Qed.
Lemma allowed_open k T : allowed O k T -> exists eps, 0 < eps /\ forall t, Rabs (t - T) < eps -> allowed O k t.
Proof.
  intros [A B]. assert (D : uses_Tc k \/ ~ uses_Tc k) by (destruct k; cbn; tauto). destruct D as [D|D].
  - specialize (B D). exists (Rmin T (Tc O - T)). split; [apply Rmin_glb_lt; lra|]. intros t Ht. apply Rabs_def2 in Ht. pose proof (Rmin_l T (Tc O - T)). pose proof (Rmin_r T (Tc O - T)). split; [lra|]. intros; lra.
  - exists T. split; auto. intros t Ht. apply Rabs_def2 in Ht. split; [lra|tauto].
Qed.
(* the value of the property as one function, following g between the limits *)
Definition whole (gl g gh : R -> R) (T : R) : R := if Rltb T lo then gl T else if Rltb hi T then gh T else g T.
Lemma P_whole T : within T -> P T = Some (whole (outer true) F (outer false) T).
Proof.
  intros (A & B & C). unfold whole. destruct (Rltb_spec T lo) as [L|L]; [apply P_low; auto; apply B; lra|].
  destruct (Rltb_spec hi T) as [H|H]; [apply P_high; auto; apply C; lra|]. apply P_inside; lra.
Qed.
Lemma within_open T : within T -> exists eps, 0 < eps /\ forall t, Rabs (t - T) < eps -> within t.
Proof.
  intros (A & B & C). destruct HR.
  assert (H1 : exists eps, 0 < eps /\ forall t, Rabs (t - T) < eps -> t <= lo -> allowed O (e_low O) t).
  { destruct (Rle_or_lt T lo) as [L|L]; [destruct (allowed_open _ _ (B L)) as [e [He H]]; exists e; auto|]. exists (T - lo). split; [lra|]. intros t Ht Ht'. apply Rabs_def2 in Ht. lra. }
  assert (H2 : exists eps, 0 < eps /\ forall t, Rabs (t - T) < eps -> hi <= t -> allowed O (e_high O) t).
  { destruct (Rle_or_lt hi T) as [L|L]; [destruct (allowed_open _ _ (C L)) as [e [He H]]; exists e; auto|]. exists (hi - T). split; [lra|]. intros t Ht Ht'. apply Rabs_def2 in Ht. lra. }
  destruct H1 as [a [Ha H1]], H2 as [b [Hb H2]]. exists (Rmin T (Rmin a b)). split; [repeat apply Rmin_glb_lt; auto|]. intros t Ht.
  assert (Rabs (t - T) < T) by (eapply Rlt_le_trans; [exact Ht|apply Rmin_l]).
  assert (Rabs (t - T) < a) by (eapply Rlt_le_trans; [exact Ht|eapply Rle_trans; [apply Rmin_r|apply Rmin_l]]).
  assert (Rabs (t - T) < b) by (eapply Rlt_le_trans; [exact Ht|eapply Rle_trans; [apply Rmin_r|apply Rmin_r]]).
  split; [apply Rabs_def2 in H; lra|]. split; auto.
Qed.
Lemma locally_whole (p : R -> option R) g T : (forall t, within t -> p t = Some (g t)) -> within T -> locally T (fun t => p t = Some (g t)).
Proof. intros Hp HT. destruct (within_open T HT) as [e [He H]]. exists (mkposreal e He). intros t Ht. apply Hp, H, Ht. Qed.
Ltac wcase := unfold whole; repeat match goal with |- context [Rltb ?a ?b] => destruct (Rltb_spec a b) end.
Lemma whole_continuous (gl g gh : R -> R) (T : R) : gl lo = g lo -> gh hi = g hi -> (T <= lo -> continuous gl T) -> (lo <= T <= hi -> continuous g T) -> (hi <= T -> continuous gh T) -> continuous (whole gl g gh) T.
Proof.
  intros E1 E2 C1 C2 C3. destruct HR.
  destruct (Rtotal_order T lo) as [L|[L|L]].
  - apply (continuous_ext_loc _ gl); [|apply C1; lra]. exists (mkposreal (lo - T) ltac:(lra)). intros t Ht. apply Rabs_def2 in Ht. unfold minus, plus, opp in Ht; cbn in Ht. wcase; auto; lra.
  - subst T. apply (glue_continuous gl g _ lo (hi - lo)); [lra| | |apply C1; lra|apply C2; lra].
    + intros y Hy Hle. apply Rabs_def2 in Hy. wcase; auto; try lra. replace y with lo by lra. auto.
    + intros y Hy Hle. apply Rabs_def2 in Hy. wcase; auto; lra.
  - destruct (Rtotal_order T hi) as [K|[K|K]].
    + apply (continuous_ext_loc _ g); [|apply C2; lra]. exists (mkposreal (Rmin (T - lo) (hi - T)) ltac:(apply Rmin_glb_lt; lra)). intros t Ht.
      pose proof (Rmin_l (T - lo) (hi - T)). pose proof (Rmin_r (T - lo) (hi - T)). apply Rabs_def2 in Ht. unfold minus, plus, opp in Ht; cbn in Ht. wcase; auto; lra.
    + subst T. apply (glue_continuous g gh _ hi (hi - lo)); [lra| | |apply C2; lra|apply C3; lra].
      * intros y Hy Hle. apply Rabs_def2 in Hy. wcase; auto; lra.
      * intros y Hy Hle. apply Rabs_def2 in Hy. wcase; auto; try lra. replace y with hi by lra. auto.
    + apply (continuous_ext_loc _ gh); [|apply C3; lra]. exists (mkposreal (T - hi) ltac:(lra)). intros t Ht. apply Rabs_def2 in Ht. unfold minus, plus, opp in Ht; cbn in Ht. wcase; auto; lra.
Qed.
Lemma whole_derive (gl g gh gl1 g1 gh1 : R -> R) (T : R) : gl lo = g lo -> gh hi = g hi -> gl1 lo = g1 lo -> gh1 hi = g1 hi -> (T <= lo -> is_derive gl T (gl1 T)) -> (lo <= T <= hi -> is_derive g T (g1 T)) -> (hi <= T -> is_derive gh T (gh1 T)) ->
  is_derive (whole gl g gh) T (whole gl1 g1 gh1 T).
Proof.
  intros E1 E2 E3 E4 C1 C2 C3. destruct HR.
  destruct (Rtotal_order T lo) as [L|[L|L]].
  - replace (whole gl1 g1 gh1 T) with (gl1 T) by (wcase; auto; lra).
    apply (is_derive_ext_loc gl); [|apply C1; lra]. exists (mkposreal (lo - T) ltac:(lra)). intros t Ht. apply Rabs_def2 in Ht. unfold minus, plus, opp in Ht; cbn in Ht. wcase; auto; lra.
  - subst T. replace (whole gl1 g1 gh1 lo) with (g1 lo) by (wcase; auto; lra). apply (glue_derive gl g _ lo _ (hi - lo)); [lra| | |rewrite <- E3; apply C1; lra|apply C2; lra].
    + intros y Hy Hle. apply Rabs_def2 in Hy. wcase; auto; try lra. replace y with lo by lra. auto.
    + intros y Hy Hle. apply Rabs_def2 in Hy. wcase; auto; lra.
  - destruct (Rtotal_order T hi) as [K|[K|K]].
    + replace (whole gl1 g1 gh1 T) with (g1 T) by (wcase; auto; lra).
      apply (is_derive_ext_loc g); [|apply C2; lra]. exists (mkposreal (Rmin (T - lo) (hi - T)) ltac:(apply Rmin_glb_lt; lra)). intros t Ht.
      pose proof (Rmin_l (T - lo) (hi - T)). pose proof (Rmin_r (T - lo) (hi - T)). apply Rabs_def2 in Ht. unfold minus, plus, opp in Ht; cbn in Ht. wcase; auto; lra.
    + subst T. replace (whole gl1 g1 gh1 hi) with (g1 hi) by (wcase; auto; lra). apply (glue_derive g gh _ hi _ (hi - lo)); [lra| | |apply C2; lra|rewrite <- E4; apply C3; lra].
      * intros y Hy Hle. apply Rabs_def2 in Hy. wcase; auto; lra.
      * intros y Hy Hle. apply Rabs_def2 in Hy. wcase; auto; try lra. replace y with hi by lra. auto.
    + replace (whole gl1 g1 gh1 T) with (gh1 T) by (wcase; auto; lra).
      apply (is_derive_ext_loc gh); [|apply C3; lra]. exists (mkposreal (T - hi) ltac:(lra)). intros t Ht. apply Rabs_def2 in Ht. unfold minus, plus, opp in Ht; cbn in Ht. wcase; auto; lra.
Qed.

(* The property is continuous everywhere, whatever the two extrapolations, when the values at the limits lie between the clamps *)
Theorem C36_continuous T : (forall T, lo <= T <= hi -> continuous F T) -> clamps_around (F lo) -> clamps_around (F hi) -> within T -> continuous_at P T.
Proof.
  intros HC K1 K2 HT. exists (whole (outer true) F (outer false)). split; [apply locally_whole; auto; apply P_whole|].
  apply whole_continuous.
  - unfold outer. pose proof (ext_fun_value (kind true) true HL) as V. unfold kind in *. cbn in V |- *. rewrite V. apply clamp_id; apply K1.
  - unfold outer. pose proof (ext_fun_value (kind false) false HH) as V. unfold kind in *. cbn in V |- *. rewrite V. apply clamp_id; apply K2.
  - intros H. apply (clamp_continuous _ _ (F lo)); try apply K1. apply ext_fun_continuous; auto. now apply HT.
  - auto.
  - intros H. apply (clamp_continuous _ _ (F hi)); try apply K2. apply ext_fun_continuous; auto. now apply HT.
Qed.
(* At the limits themselves the extrapolation gives the value of the method *)
Theorem C36_value_at_limits : clamps_around (F lo) -> clamps_around (F hi) -> allowed O (e_low O) lo -> allowed O (e_high O) hi ->
  extrapolate O M IR_error lo = Some (F lo) /\ extrapolate O M IR_error hi = Some (F hi).
Proof.
  intros K1 K2 A1 A2. rewrite ext_low, ext_high by (auto; lra). unfold outer.
  pose proof (ext_fun_value (kind true) true HL) as V. pose proof (ext_fun_value (kind false) false HH) as V'. unfold kind in *. cbn in V, V' |- *. rewrite V, V'. split; f_equal; apply clamp_id; (apply K1 || apply K2).
Qed.
(* Without clamps the property has a derivative everywhere, at the limits that of the method *)
Hypothesis NC : e_min O = None /\ e_max O = None.
Lemma outer_nc low T : outer low T = ext_fun (kind low) low T.
Proof. unfold outer. destruct NC as [-> ->]. reflexivity. Qed.
Notation W1 := (whole (ext_fun1 (kind true) true) F1 (ext_fun1 (kind false) false)).
Notation W2 := (whole (ext_fun2 (kind true) true) F2 (ext_fun2 (kind false) false)).
Lemma P_derive T : matches_slope (e_low O) -> matches_slope (e_high O) -> within T -> has_derivative P T (W1 T).
Proof.
  intros S1 S2 HT. exists (whole (ext_fun (kind true) true) F (ext_fun (kind false) false)). split.
  - apply locally_whole; auto. intros t Ht. rewrite P_whole by auto. f_equal. unfold whole. now rewrite !outer_nc.
  - apply whole_derive; try (now apply (ext_fun_value _ true)); try (now apply (ext_fun_value _ false)); try (now apply (ext_fun_slope _ true)); try (now apply (ext_fun_slope _ false)).
    + intros. apply ext_fun_derive; auto. now apply HT.
    + apply (s_1 _ _ _ _ _ _ HS).
    + intros. apply ext_fun_derive; auto. now apply HT.
Qed.
Theorem C36_slope_at_limits : matches_slope (e_low O) -> matches_slope (e_high O) -> (within lo -> has_derivative P lo (F1 lo)) /\ (within hi -> has_derivative P hi (F1 hi)).
Proof.
  intros S1 S2. destruct HR. split; intros W; eapply P_derive in W; auto; revert W; wcase; auto; lra.
Qed.
(* ... and where the object has the formula, the derivative it reports is that derivative, everywhere *)
Definition reports_slope (k : ext) : Prop := matches_slope k /\ k <> LOG_LINEAR.
Variable numder : (R -> option R) -> nat -> R -> option R.
Notation D := (T_dependent_property_derivative numder true O M).
Lemma D_low_1 T : reports_slope (e_low O) -> T < lo -> allowed O (e_low O) T -> D 1 T = Some (ext_fun1 (kind true) true T).
Proof.
  intros [S N] H A. unfold T_dependent_property_derivative. rewrite inside_not by auto. unfold extrapolate_derivative.
  rewrite (r_lo _ _ _ _ _ _ HR), (Rltb_false T 0), (Rltb_true T lo) by (destruct A; lra). cbv zeta iota. unfold kind. rewrite get_coeffs_eq by auto.
  unfold ext_fun1. destruct (e_low O); cbn in S; try tauto; try reflexivity.
Qed.
Lemma D_low_2 T : reports_slope (e_low O) -> T < lo -> allowed O (e_low O) T -> D 2 T = Some (ext_fun2 (kind true) true T).
Proof.
  intros [S N] H A. unfold T_dependent_property_derivative. rewrite inside_not by auto. unfold extrapolate_derivative.
  rewrite (r_lo _ _ _ _ _ _ HR), (Rltb_false T 0), (Rltb_true T lo) by (destruct A; lra). cbv zeta iota. unfold kind. rewrite get_coeffs_eq by auto.
  unfold ext_fun2. destruct (e_low O); cbn in S; try tauto; try reflexivity.
Qed.
Lemma D_low_3 T : third (e_low O) -> T < lo -> allowed O (e_low O) T -> D 3 T = Some (ext_fun3 (kind true) true T).
Proof.
  intros S H A. unfold T_dependent_property_derivative. rewrite inside_not by auto. unfold extrapolate_derivative.
  rewrite (r_lo _ _ _ _ _ _ HR), (Rltb_false T 0), (Rltb_true T lo) by (destruct A; lra). cbv zeta iota. unfold kind. rewrite get_coeffs_eq by auto.
  unfold ext_fun3. destruct (e_low O); cbn in S; try tauto; try reflexivity.
Qed.
Lemma D_high_1 T : reports_slope (e_high O) -> hi < T -> allowed O (e_high O) T -> D 1 T = Some (ext_fun1 (kind false) false T).
Proof.
  intros [S N] H A. destruct HR. unfold T_dependent_property_derivative. rewrite inside_not by auto. unfold extrapolate_derivative. unfold ge_hi.
  rewrite r_lo0, r_hi0, (Rltb_false T 0), (Rltb_false T lo), (Rleb_true hi T) by (destruct A; lra). cbv zeta iota. unfold kind. rewrite get_coeffs_eq by auto.
  unfold ext_fun1. destruct (e_high O); cbn in S; try tauto; try reflexivity.
Qed.
Lemma D_high_2 T : reports_slope (e_high O) -> hi < T -> allowed O (e_high O) T -> D 2 T = Some (ext_fun2 (kind false) false T).
Proof.
  intros [S N] H A. destruct HR. unfold T_dependent_property_derivative. rewrite inside_not by auto. unfold extrapolate_derivative. unfold ge_hi.
  rewrite r_lo0, r_hi0, (Rltb_false T 0), (Rltb_false T lo), (Rleb_true hi T) by (destruct A; lra). cbv zeta iota. unfold kind. rewrite get_coeffs_eq by auto.
  unfold ext_fun2. destruct (e_high O); cbn in S; try tauto; try reflexivity.
Qed.
Lemma D_high_3 T : third (e_high O) -> hi < T -> allowed O (e_high O) T -> D 3 T = Some (ext_fun3 (kind false) false T).
Proof.
  intros S H A. destruct HR. unfold T_dependent_property_derivative. rewrite inside_not by auto. unfold extrapolate_derivative. unfold ge_hi.
  rewrite r_lo0, r_hi0, (Rltb_false T 0), (Rltb_false T lo), (Rleb_true hi T) by (destruct A; lra). cbv zeta iota. unfold kind. rewrite get_coeffs_eq by auto.
  unfold ext_fun3. destruct (e_high O); cbn in S; try tauto; try reflexivity.
Qed.
Lemma D_1 T : reports_slope (e_low O) -> reports_slope (e_high O) -> within T -> D 1 T = Some (W1 T).
Proof.
  intros S1 S2 (A & B & C). wcase; [apply D_low_1; auto; apply B; lra|apply D_high_1; auto; apply C; lra|].
  unfold T_dependent_property_derivative. rewrite (proj2 (inside_iff T)) by lra. apply (s_c1 _ _ _ _ _ _ HS); lra.
Qed.
Lemma D_2 T : reports_slope (e_low O) -> reports_slope (e_high O) -> within T -> D 2 T = Some (W2 T).
Proof.
  intros S1 S2 (A & B & C). wcase; [apply D_low_2; auto; apply B; lra|apply D_high_2; auto; apply C; lra|].
  unfold T_dependent_property_derivative. rewrite (proj2 (inside_iff T)) by lra. apply (s_c2 _ _ _ _ _ _ HS); lra.
Qed.
Theorem C36_derivative T : reports_slope (e_low O) -> reports_slope (e_high O) -> within T -> exists d, D 1 T = Some d /\ has_derivative P T d.
Proof. intros S1 S2 HT. eexists. split; [now apply D_1|]. apply P_derive; auto; [apply S1|apply S2]. Qed.
(* Extrapolations made from the second derivative have a continuous second derivative, the one reported *)
Theorem C36_second_derivative T : matches_curvature (e_low O) -> matches_curvature (e_high O) -> within T -> exists d2, D 2 T = Some d2 /\ has_derivative (D 1) T d2.
Proof.
  intros S1 S2 HT.
  assert (R1 : reports_slope (e_low O)) by (destruct (e_low O); cbn in S1; try tauto; split; cbn; try exact I; discriminate).
  assert (R2 : reports_slope (e_high O)) by (destruct (e_high O); cbn in S2; try tauto; split; cbn; try exact I; discriminate).
  eexists. split; [now apply D_2|]. exists (fun t => W1 t). split.
  - apply locally_whole; auto. intros t Ht. now apply D_1.
  - apply whole_derive; try (apply (ext_fun_slope _ true); auto; now apply R1); try (apply (ext_fun_slope _ false); auto; now apply R2); try (now apply (ext_fun_curvature _ true)); try (now apply (ext_fun_curvature _ false)).
    + intros. apply ext_fun_derive2; auto; try apply R1. now apply HT.
    + apply (s_2 _ _ _ _ _ _ HS).
    + intros. apply ext_fun_derive2; auto; try apply R2. now apply HT.
Qed.
(* Beyond the limits the second and third derivatives reported are the derivatives of the ones before *)
Definition beyond (T : R) : Prop := (T < lo /\ allowed O (e_low O) T) \/ (hi < T /\ allowed O (e_high O) T).
Lemma local_beyond (p : R -> option R) g T (low : bool) : (if low then T < lo else hi < T) -> allowed O (kind low) T -> (forall t, (if low then t < lo else hi < t) -> allowed O (kind low) t -> p t = Some (g t)) -> locally T (fun t => p t = Some (g t)).
Proof.
  intros HT HA H. destruct (allowed_open _ _ HA) as [e [He K]]. destruct low.
  - exists (mkposreal (Rmin e (lo - T)) ltac:(apply Rmin_glb_lt; lra)). intros t Ht. assert (H1 : Rabs (t - T) < e) by (eapply Rlt_le_trans; [exact Ht|apply Rmin_l]). assert (H2 : Rabs (t - T) < lo - T) by (eapply Rlt_le_trans; [exact Ht|apply Rmin_r]).
    apply H; auto. apply Rabs_def2 in H2. lra.
  - exists (mkposreal (Rmin e (T - hi)) ltac:(apply Rmin_glb_lt; lra)). intros t Ht. assert (H1 : Rabs (t - T) < e) by (eapply Rlt_le_trans; [exact Ht|apply Rmin_l]). assert (H2 : Rabs (t - T) < T - hi) by (eapply Rlt_le_trans; [exact Ht|apply Rmin_r]).
    apply H; auto. apply Rabs_def2 in H2. lra.
Qed.
Theorem C36_higher_derivatives_beyond T : reports_slope (e_low O) -> reports_slope (e_high O) -> beyond T ->
  (exists d2, D 2 T = Some d2 /\ has_derivative (D 1) T d2) /\ (third (e_low O) -> third (e_high O) -> exists d3, D 3 T = Some d3 /\ has_derivative (D 2) T d3).
Proof.
  intros S1 S2 [[HT HA]|[HT HA]]; split.
  - eexists. split; [now apply D_low_2|]. exists (ext_fun1 (kind true) true). split; [apply (local_beyond _ _ _ true); auto; intros; now apply D_low_1|]. apply ext_fun_derive2; auto; apply S1.
  - intros T1 T2. eexists. split; [now apply D_low_3|]. exists (ext_fun2 (kind true) true). split; [apply (local_beyond _ _ _ true); auto; intros; now apply D_low_2|]. apply ext_fun_derive3; auto.
  - eexists. split; [now apply D_high_2|]. exists (ext_fun1 (kind false) false). split; [apply (local_beyond _ _ _ false); auto; intros; now apply D_high_1|]. apply ext_fun_derive2; auto; apply S2.
  - intros T1 T2. eexists. split; [now apply D_high_3|]. exists (ext_fun2 (kind false) false). split; [apply (local_beyond _ _ _ false); auto; intros; now apply D_high_2|]. apply ext_fun_derive3; auto.
Qed.
End Sides.

(* The Watson extrapolation follows the method at the limit and at a second temperature just inside it *)
Theorem C36_Watson_two_points O M pmin pmax lo hi F F1 F2 : on_range M pmin pmax lo hi F -> smooth_range M lo hi F F1 F2 -> e_low O = WATSON -> e_high O = WATSON -> e_min O = None -> e_max O = None ->
  hi < Tc O -> (forall T, lo <= T <= hi -> 0 < F T) ->
  let dT := (hi - lo) / 10000 in
  extrapolate O M IR_low (lo + dT) = Some (F (lo + dT)) /\ extrapolate O M IR_high (hi - dT) = Some (F (hi - dT)).
Proof.
  intros HR HS K1 K2 N1 N2 HT HF dT. pose proof HR as HR'. destruct HR' as [R1 R2 R3 R4 R5 R6].
  assert (G : forall v0 v1 a b t, 0 < v0 -> 0 < v1 -> 0 < a < t -> 0 < b < t -> a <> b -> ext_Watson b v0 a t (ext_Watson_n a b v0 v1 t) = v1).
  { clear. intros v0 v1 a b t H0 H1 H2 H3 H4. unfold ext_Watson, ext_Watson_n, Rpower.
    replace ((1 - b / t) / (1 - a / t)) with ((t - b) / (t - a)) by (field; lra).
    assert (L : ln ((t - b) / (t - a)) = - ln ((t - a) / (t - b))) by (rewrite <- ln_Rinv by (apply Rdiv_lt_0_compat; lra); f_equal; field; lra).
    assert (N : ln ((t - a) / (t - b)) <> 0).
    { intros E. rewrite <- ln_1 in E. apply ln_inv in E; [|apply Rdiv_lt_0_compat; lra|lra]. apply H4. apply (f_equal (fun x => x * (t - b))) in E. unfold Rdiv in E. rewrite Rmult_assoc, Rinv_l, Rmult_1_l in E by lra. lra. }
    rewrite L. replace (ln (v0 / v1) / ln ((t - a) / (t - b)) * - ln ((t - a) / (t - b))) with (- ln (v0 / v1)) by (field; auto).
    rewrite exp_Ropp, exp_ln by (apply Rdiv_lt_0_compat; lra). field. lra. }
  assert (HU : forall low, usable O M F lo hi WATSON low) by (intros low; cbn; auto).
  unfold dT. split; unfold extrapolate, side; rewrite R1, R2; cbn [ge_hi].
  - rewrite (Rltb_false _ 0), (Rleb_false _ lo), (Rleb_false hi _) by lra. cbv zeta iota. rewrite K1, (get_coeffs_eq O M pmin pmax lo hi F F1 F2 HR HS WATSON true (HU true)). cbn [coeffs extrapolated]. rewrite (limit_T_eq M pmin pmax lo hi F HR true).
    rewrite N1, N2. cbn [clamp]. unfold Rdiv at 1. rewrite G; try apply HF; try lra. reflexivity.
  - rewrite (Rltb_false _ 0), (Rleb_false _ lo), (Rleb_false hi _) by lra. cbv zeta iota. rewrite K2, (get_coeffs_eq O M pmin pmax lo hi F F1 F2 HR HS WATSON false (HU false)). cbn [coeffs extrapolated]. rewrite (limit_T_eq M pmin pmax lo hi F HR false).
    rewrite N1, N2. cbn [clamp]. unfold Rdiv, Rminus. rewrite G; try apply HF; try lra. reflexivity.
Qed.

(* The closed forms of extrapolate_transform: the logarithm of the extrapolated property, its derivatives, and the ratios of the derivatives to the property *)
Theorem C36_transforms M tc k low cs (y : R -> R) (T : R) : (k = ANTOINE_AB \/ k = DIPPR101_ABC) -> (forall T, 0 < T -> extrapolated M tc k low cs T = Some (y T)) -> 0 < T ->
  (exists l1 l2 r1 r2, transform_closed k T_LOG cs T = Some (ln (y T)) /\
   transform_closed k T_LOG_DERIVATIVE cs T = Some l1 /\ is_derive (fun T => ln (y T)) T l1 /\
   transform_closed k T_SECOND_LOG_DERIVATIVE cs T = Some l2 /\ has_derivative (transform_closed k T_LOG_DERIVATIVE cs) T l2 /\
   transform_closed k T_DERIVATIVE_RATIO cs T = Some r1 /\ is_derive y T (r1 * y T) /\
   transform_closed k T_SECOND_DERIVATIVE_RATIO cs T = Some r2 /\ exists y1, (forall T, 0 < T -> is_derive y T (y1 T)) /\ is_derive y1 T (r2 * y T)).
Proof.
  intros HK HE HT.
  assert (LOC : forall (P : R -> Prop), (forall t, 0 < t -> P t) -> locally T P).
  { intros P HP. exists (mkposreal T HT). intros t Ht. apply HP. apply Rabs_def2 in Ht. unfold minus, plus, opp in Ht; cbn in Ht. lra. }
  destruct HK as [-> | ->].
  - destruct cs as [|A [|B [|? ?]]]; try (specialize (HE T HT); discriminate).
    assert (Y : forall t, 0 < t -> ext_Antoine t A B 0 = y t) by (intros t Ht; specialize (HE t Ht); cbn in HE; congruence).
    assert (YD : forall t, 0 < t -> is_derive y t (ext_dAntoine t A B 0)).
    { intros t Ht. apply (is_derive_ext_loc (fun t => ext_Antoine t A B 0)); [|now apply d_Antoine]. exists (mkposreal t Ht). intros s Hs. apply Y. apply Rabs_def2 in Hs. unfold minus, plus, opp in Hs; cbn in Hs. lra. }
    exists (B / (T * T)), (- 2 * B / (T * T * T)), (B / (T * T)), (B * (B - 2 * T) / (T * T * (T * T))). splits; try reflexivity.
    + cbn. f_equal. rewrite <- Y by auto. unfold ext_Antoine. rewrite ln_exp, Rplus_0_r. reflexivity.
    + apply (is_derive_ext_loc (fun t => A - B / t)).
      * apply LOC. intros t Ht. rewrite <- Y by auto. unfold ext_Antoine. rewrite ln_exp, Rplus_0_r. reflexivity.
      * auto_derive; [lra|field; lra].
    + exists (fun t => B / (t * t)). split; [apply LOC; reflexivity|]. auto_derive; [nra|field; lra].
    + eapply is_derive_eq; [now apply YD|]. rewrite <- Y by auto. unfold ext_dAntoine, ext_Antoine. field. lra.
    + exists (fun t => ext_dAntoine t A B 0). split; auto. eapply is_derive_eq; [now apply d_dAntoine|]. rewrite <- Y by auto. unfold ext_d2Antoine, ext_Antoine. field. lra.
  - destruct cs as [|A [|B [|C [|? ?]]]]; try (specialize (HE T HT); discriminate).
    assert (Y : forall t, 0 < t -> ext_EQ101 t A B C = y t) by (intros t Ht; specialize (HE t Ht); cbn in HE; congruence).
    assert (YD : forall t, 0 < t -> is_derive y t (ext_EQ101_1 t A B C)).
    { intros t Ht. apply (is_derive_ext_loc (fun t => ext_EQ101 t A B C)); [|now apply d_EQ101]. exists (mkposreal t Ht). intros s Hs. apply Y. apply Rabs_def2 in Hs. unfold minus, plus, opp in Hs; cbn in Hs. lra. }
    exists ((- B / T + C) / T), ((2 * B * (1 / T) - C) * (1 / T) * (1 / T)), ((- B + C * T) / (T * T)), ((2 * B * T - C * (T * T) + (B - C * T) * (B - C * T)) / (T * T * (T * T))). splits; try reflexivity.
    + cbn. f_equal. rewrite <- Y by auto. unfold ext_EQ101. now rewrite ln_exp.
    + apply (is_derive_ext_loc (fun t => A + B / t + C * ln t)).
      * apply LOC. intros t Ht. rewrite <- Y by auto. unfold ext_EQ101. now rewrite ln_exp.
      * auto_derive; [repeat split; lra|field; lra].
    + exists (fun t => (- B / t + C) / t). split; [apply LOC; reflexivity|]. auto_derive; [repeat split; lra|field; lra].
    + eapply is_derive_eq; [now apply YD|]. rewrite <- Y by auto. unfold ext_EQ101_1. field. lra.
    + exists (fun t => ext_EQ101_1 t A B C). split; auto. eapply is_derive_eq; [now apply d_EQ101_1|]. rewrite <- Y by auto. unfold ext_EQ101_2. field. lra.
Qed.

(* A method with the function F(T) = a T + b, for the examples *)
Definition line (a b lo hi : R) : method :=
  {| calc := fun T => Some (a * T + b); cder := fun n T => Some (match n with 0%nat => a * T + b | 1%nat => a | _ => 0 end); clogder := fun T => Some (a / (a * T + b));
     cint := fun _ _ => None; cintT := fun _ _ => None; m_lo := lo; m_hi := Some hi |}.
Lemma line_on_range a b lo hi pmin pmax : 0 < lo < hi -> (forall T, lo <= T <= hi -> pmin <= a * T + b <= pmax) -> on_range (line a b lo hi) pmin pmax lo hi (fun T => a * T + b).
Proof. intros. constructor; cbn; auto; lra. Qed.
Lemma line_smooth a b lo hi : smooth_range (line a b lo hi) lo hi (fun T => a * T + b) (fun _ => a) (fun _ => 0).
Proof. constructor; cbn; auto; intros; auto_derive; auto; ring. Qed.
Example C36_hypotheses_met :
  let O := {| Tc := 500; e_low := DIPPR101_ABC; e_high := DIPPR106_ABC; e_min := None; e_max := None |} in let M := line 1 0 200 300 in
  on_range M 0 1000 200 300 (fun T => 1 * T + 0) /\ smooth_range M 200 300 (fun T => 1 * T + 0) (fun _ => 1) (fun _ => 0) /\
  usable O M (fun T => 1 * T + 0) 200 300 DIPPR101_ABC true /\ usable O M (fun T => 1 * T + 0) 200 300 DIPPR106_ABC false /\
  matches_curvature (e_low O) /\ matches_curvature (e_high O) /\ reports_slope (e_low O) /\ reports_slope (e_high O) /\ (forall T, 0 < T < 500 -> within O 200 300 T) /\ beyond O 200 300 450.
Proof.
  cbv zeta. splits; try exact I; try (split; [exact I|discriminate]).
  - apply line_on_range; intros; lra.
  - apply line_smooth.
  - cbn. lra.
  - cbn. splits; try lra. intros H. assert (L : ln (1 - 300 / 500) = - 2) by lra. assert (E : exp (ln (1 - 300 / 500)) = exp (Ropp 2)) by (rewrite L; f_equal; lra). rewrite exp_ln in E by lra.
    pose proof (exp_ineq1 2). pose proof (exp_pos 2). rewrite exp_Ropp in E. assert (E' : (1 - 300 / 500) * exp 2 = 1) by (rewrite E; field; lra). lra.
  - intros T HT. unfold within, allowed; cbn. repeat split; intros; try lra.
  - right. unfold allowed; cbn. repeat split; intros; lra.
Qed.

(* Clamps make the property jump at the limit when the value there is outside them *)
Theorem C36_continuous_with_clamp_refuted : exists O M, on_range M 0 1000 200 300 (fun T => 0 * T + 1) /\ e_low O = CONSTANT /\ e_high O = CONSTANT /\ e_min O = Some 2 /\
  ~ continuous_at (T_dependent_property 0 1000 true O M) 200.
Proof.
  exists {| Tc := 500; e_low := CONSTANT; e_high := CONSTANT; e_min := Some 2; e_max := None |}, (line 0 1 200 300). splits; try reflexivity.
  - apply line_on_range; intros; lra.
  - intros (g & [e L] & C). apply continuity_pt_filterlim in C. destruct (C (/ 2) ltac:(lra)) as [d [Hd K]].
    pose proof (cond_pos e) as He. set (h := Rmin (Rmin e d) 100 / 2).
    assert (Hh : 0 < Rmin (Rmin e d) 100) by (repeat apply Rmin_glb_lt; auto; lra).
    assert (H1 : Rmin (Rmin e d) 100 <= e) by (eapply Rle_trans; [apply Rmin_l|apply Rmin_l]). assert (H2 : Rmin (Rmin e d) 100 <= d) by (eapply Rle_trans; [apply Rmin_l|apply Rmin_r]). pose proof (Rmin_r (Rmin e d) 100) as H3.
    assert (G0 : g 200 = 1).
    { specialize (L 200 (ball_center (200 : R) e)). unfold T_dependent_property, inside in L. cbn in L. rewrite !Rleb_true in L by lra. cbn in L. unfold valid in L. rewrite !Rltb_false in L by lra. injection L. lra. }
    assert (G1 : g (200 - h) = 2).
    { assert (B : ball (200 : R) e (200 - h)) by (unfold ball; cbn; unfold AbsRing_ball, abs, minus, plus, opp; cbn; replace (200 - h + - (200)) with (- h) by ring; rewrite Rabs_Ropp, Rabs_pos_eq; unfold h; lra).
      specialize (L _ B). unfold T_dependent_property, inside in L. cbn in L. rewrite (Rleb_false 200) in L by (unfold h; lra). cbn in L. unfold extrapolate, side in L. cbn in L.
      rewrite (Rltb_false _ 0), (Rleb_true _ 200) in L by (unfold h; lra). cbn in L. rewrite (Rltb_true _ 2) in L by lra. injection L. lra. }
    specialize (K (200 - h)). cbn in K. unfold R_dist, D_x, no_cond in K. rewrite G0, G1 in K.
    assert (A : Rabs (2 - 1) < / 2). { apply K. split; [split; [exact I|unfold h; lra]|]. replace (200 - h - 200) with (- h) by ring. rewrite Rabs_Ropp, Rabs_pos_eq; unfold h; lra. }
    rewrite Rabs_pos_eq in A; lra.
Qed.
(* ... and the derivative reported beyond the limits does not know about them *)
Theorem C36_derivative_with_clamp_refuted : exists O M T d, on_range M 0 1000 200 300 (fun T => 1 * T + (-100)) /\ smooth_range M 200 300 (fun T => 1 * T + (-100)) (fun _ => 1) (fun _ => 0) /\ e_low O = LINEAR /\ e_high O = LINEAR /\ e_min O = Some 50 /\
  has_derivative (T_dependent_property 0 1000 true O M) T 0 /\ (forall numder, T_dependent_property_derivative numder true O M 1 T = Some d) /\ d <> 0.
Proof.
  exists {| Tc := 500; e_low := LINEAR; e_high := LINEAR; e_min := Some 50; e_max := None |}, (line 1 (-100) 200 300), 100, 1. splits; try reflexivity; try lra.
  - apply line_on_range; intros; lra.
  - apply line_smooth.
  - exists (fun _ => 50). split; [|apply (is_derive_const 50)]. exists (mkposreal 50 ltac:(lra)). intros t Ht. apply Rabs_def2 in Ht. unfold minus, plus, opp in Ht; cbn in Ht.
    unfold T_dependent_property, inside. cbn. rewrite (Rleb_false 200 t) by lra. cbn. unfold extrapolate, side; cbn. rewrite (Rltb_false t 0), (Rleb_true t 200) by lra. cbn. now rewrite (Rltb_true _ 50) by lra.
  - intros. unfold T_dependent_property_derivative, inside. cbn. rewrite (Rleb_false 200 100) by lra. cbn. unfold extrapolate_derivative; cbn. rewrite (Rltb_false 100 0), (Rltb_true 100 200) by lra. reflexivity.
Qed.
(* A constant extrapolation has no slope at the limit of a method that is not constant: the two sides differ *)
Theorem C36_constant_slope_refuted : exists O M, on_range M 0 1000 200 300 (fun T => 1 * T + 0) /\ smooth_range M 200 300 (fun T => 1 * T + 0) (fun _ => 1) (fun _ => 0) /\ e_low O = CONSTANT /\ e_min O = None /\ e_max O = None /\
  forall d, ~ has_derivative (T_dependent_property 0 1000 true O M) 200 d.
Proof.
  exists {| Tc := 500; e_low := CONSTANT; e_high := CONSTANT; e_min := None; e_max := None |}, (line 1 0 200 300). splits; try reflexivity.
  - apply line_on_range; intros; lra.
  - apply line_smooth.
  - intros d (g & [e L] & D). apply is_derive_Reals in D. destruct (D (/ 4) ltac:(lra)) as [dl K]. pose proof (cond_pos e) as He. pose proof (cond_pos dl) as Hd.
    set (m := Rmin (Rmin e dl) 100). assert (Hm : 0 < m) by (repeat apply Rmin_glb_lt; auto; lra).
    assert (H1 : m <= e) by (eapply Rle_trans; [apply Rmin_l|apply Rmin_l]). assert (H2 : m <= dl) by (eapply Rle_trans; [apply Rmin_l|apply Rmin_r]). assert (H3 : m <= 100) by apply Rmin_r.
    assert (G0 : forall t, 200 <= t <= 200 + m / 2 -> g t = t).
    { intros t Ht. assert (B : ball (200 : R) e t) by (unfold ball; cbn; unfold AbsRing_ball, abs, minus, plus, opp; cbn; apply Rabs_def1; lra).
      specialize (L t B). unfold T_dependent_property, inside in L. cbn in L. rewrite !Rleb_true in L by lra. cbn in L. unfold valid in L. rewrite !Rltb_false in L by lra. injection L. lra. }
    assert (G1 : g (200 + - (m / 2)) = 200).
    { assert (B : ball (200 : R) e (200 + - (m / 2))) by (unfold ball; cbn; unfold AbsRing_ball, abs, minus, plus, opp; cbn; apply Rabs_def1; lra).
      specialize (L _ B). unfold T_dependent_property, inside in L. cbn in L. rewrite (Rleb_false 200) in L by lra. cbn in L. unfold extrapolate, side in L. cbn in L.
      rewrite (Rltb_false _ 0), (Rleb_true _ 200) in L by lra. cbn in L. injection L. lra. }
    pose proof (K (m / 2) ltac:(lra)) as K1. pose proof (K (- (m / 2)) ltac:(lra)) as K2. rewrite !G0 in K1 by lra. rewrite G1, G0 in K2 by lra.
    rewrite Rabs_pos_eq in K1 by lra. specialize (K1 ltac:(lra)). rewrite Rabs_Ropp, Rabs_pos_eq in K2 by lra. specialize (K2 ltac:(lra)).
    replace ((200 + m / 2 - 200) / (m / 2) - d) with (1 - d) in K1 by (field; lra). replace ((200 - 200) / (- (m / 2)) - d) with (- d) in K2 by (field; lra).
    apply Rabs_def2 in K1. apply Rabs_def2 in K2. lra.
Qed.
(* Extrapolated values are not checked against the bounds of the property, which values inside the limits have to respect *)
Theorem C36_bounds_respected_refuted : exists O M T v, on_range M 0 1000 200 300 (fun T => 1 * T + (-100)) /\ 0 < T /\ T_dependent_property 0 1000 true O M T = Some v /\ v < 0.
Proof.
  exists {| Tc := 500; e_low := LINEAR; e_high := LINEAR; e_min := None; e_max := None |}, (line 1 (-100) 200 300), 50, (1 * 200 + (-100) + 1 * (50 - 200)). splits; try lra.
  - apply line_on_range; intros; lra.
  - unfold T_dependent_property, inside. cbn. rewrite (Rleb_false 200 50) by lra. cbn. unfold extrapolate, side; cbn. rewrite (Rltb_false 50 0), (Rleb_true 50 200) by lra. reflexivity.
Qed.
Theorem C36_bounds_inside pmin pmax O M T v : inside M T = true -> T_dependent_property pmin pmax true O M T = Some v -> pmin <= v <= pmax.
Proof.
  unfold T_dependent_property. intros ->. destruct (calc M T) as [w|]; [|discriminate]. unfold valid. destruct (Rltb_spec w pmin); [discriminate|]. destruct (Rltb_spec pmax w); [discriminate|]. intros E; injection E as <-. lra.
Qed.
(* With clamps in order, extrapolated values respect them *)
Theorem C36_clamped O M ir T v : (forall a b, e_min O = Some a -> e_max O = Some b -> a <= b) -> extrapolate O M ir T = Some v -> (forall m, e_min O = Some m -> m <= v) /\ (forall m, e_max O = Some m -> v <= m).
Proof.
  unfold extrapolate. intros HB. destruct side; [|discriminate]. cbv zeta. destruct get_coeffs; [|discriminate]. destruct extrapolated as [w|]; [|discriminate]. intros E; injection E as <-.
  unfold clamp. destruct (e_min O) as [a|], (e_max O) as [c|]; try specialize (HB _ _ eq_refl eq_refl); split; intros m Hm; try discriminate; injection Hm as <-; repeat match goal with |- context [Rltb ?a ?b] => destruct (Rltb_spec a b) end; lra.
Qed.
