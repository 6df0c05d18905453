(* C76: activity coefficients at infinite dilution and the functions that compute fugacity coefficients directly. *)
From Coq Require Import Reals Lra Lia Arith ZArith List Bool String FunctionalExtensionality.
From Coquelicot Require Import Coquelicot.
From Verif Require Import Base BaseFacts Model_direct Spec_direct.
Import ListNotations.
Open Scope R_scope.

Definition others (n i : nat) (x : nat -> R) : R := rsum n (fun k => if Nat.eqb k i then 0 else x k).

Lemma diluted_sum n x a i : (i < n)%nat -> rsum n (upd x i a) = a + others n i x.
Proof.
  intros Hi. rewrite (rsum_split n i _ Hi). unfold others. f_equal.
  - unfold upd. rewrite Nat.eqb_refl. reflexivity.
  - apply rsum_ext. intros j _. unfold upd. destruct (Nat.eqb_spec j i) as [->|N]; reflexivity.
Qed.

(* the mixture used has the trace content given, and the other components in proportion *)
Theorem C76_mixture n x x_inf i : (i < n)%nat -> 0 <= x_inf -> 0 < rsum n (fun k => if Nat.eqb k i then 0 else x k) ->
  exists y, diluted n x x_inf i = Some y /\ rsum n y = 1 /\
    y = dilution_path n i x (x_inf / (x_inf + rsum n (fun k => if Nat.eqb k i then 0 else x k))).
Proof.
  intros Hi Ha Ho. fold (others n i x) in *. unfold diluted. rewrite diluted_sum by auto. rewrite Reqb_false by lra.
  eexists. split; [reflexivity|]. split.
  - rewrite rsum_div_r, diluted_sum by auto. field. lra.
  - extensionality j. unfold dilution_path, upd. fold (others n i x). destruct (Nat.eqb_spec j i) as [->|N]; rewrite ?Nat.eqb_refl; [reflexivity|].
    try rewrite (proj2 (Nat.eqb_neq i j)) by auto. field. lra.
Qed.

(* with no trace content the value is the limit of the activity coefficient as the component vanishes from the mixture *)
Theorem C76_limit n gammas x i : (i < n)%nat -> 0 < rsum n (fun k => if Nat.eqb k i then 0 else x k) ->
  filterlim (fun t => gammas (dilution_path n i x t) i) (at_right 0) (locally (gammas (dilution_path n i x 0) i)) ->
  exists g, gamma_infinite_dilution n gammas x 0 i = Some g /\ filterlim (fun t => gammas (dilution_path n i x t) i) (at_right 0) (locally g).
Proof.
  intros Hi Ho H. unfold gamma_infinite_dilution. destruct (C76_mixture n x 0 i Hi (Rle_refl 0) Ho) as (y & -> & _ & E).
  exists (gammas y i). split; [reflexivity|]. replace y with (dilution_path n i x 0); [exact H|]. rewrite E. f_equal. field. lra.
Qed.

(* the content of the component in the mixture the model was made for does not matter, nor does the total amount of the others *)
Theorem C76_content_free n gammas x x' c i : (i < n)%nat -> 0 < c -> (forall j, (j < n)%nat -> j <> i -> x' j = c * x j) ->
  (forall u v, (forall j, (j < n)%nat -> u j = v j) -> gammas u i = gammas v i) ->
  gamma_infinite_dilution n gammas x' 0 i = gamma_infinite_dilution n gammas x 0 i.
Proof.
  intros Hi Hc E Hg. unfold gamma_infinite_dilution, diluted. rewrite !diluted_sum by auto. rewrite !Rplus_0_l.
  assert (O : others n i x' = c * others n i x).
  { unfold others. rewrite <- rsum_scal_l. apply rsum_ext. intros j Hj. destruct (Nat.eqb_spec j i); [ring|]. apply E; auto. }
  rewrite O. destruct (Req_dec (others n i x) 0) as [Z|Z].
  - rewrite Z, Rmult_0_r. rewrite !Reqb_true by reflexivity. reflexivity.
  - assert (c * others n i x <> 0) by (apply Rmult_integral_contrapositive_currified; lra).
    rewrite !Reqb_false by auto. f_equal. apply Hg. intros j Hj. unfold upd.
    destruct (Nat.eq_dec j i) as [->|N]; [rewrite !Nat.eqb_refl; field; split; lra|].
    first [rewrite (proj2 (Nat.eqb_neq j i) N) | rewrite (proj2 (Nat.eqb_neq i j)) by auto]. rewrite E by auto. field. split; lra.
Qed.

(* for a pure substance, or a model made for the pure component, there is no value *)
Theorem C76_pure_error n gammas x i : (i < n)%nat -> (forall j, (j < n)%nat -> j <> i -> x j = 0) -> gamma_infinite_dilution n gammas x 0 i = None.
Proof.
  intros Hi H. unfold gamma_infinite_dilution, diluted. rewrite diluted_sum by auto.
  assert (O : others n i x = 0) by (apply rsum_eq_0; intros j Hj; destruct (Nat.eqb_spec j i); auto).
  rewrite O, Rplus_0_l, Reqb_true by reflexivity. reflexivity.
Qed.

(* fugacities of a liquid with an activity model: x gamma Psat phi_sat Poynting, at every pressure *)
Theorem C76_activity_fugacity gammas Poy phis_sat Psat x P i : 0 < P -> 0 < gammas i -> 0 < Poy i -> 0 < phis_sat i -> 0 < Psat i ->
  exp (activity_lnphis gammas Poy phis_sat (fun k => ln (Psat k)) P i) = gammas i * Psat i * phis_sat i * Poy i / P /\
  fugacities_direct (activity_lnphis gammas Poy phis_sat (fun k => ln (Psat k)) P) x P i = x i * gammas i * Psat i * phis_sat i * Poy i.
Proof.
  intros H1 H2 H3 H4 H5.
  assert (E : exp (activity_lnphis gammas Poy phis_sat (fun k => ln (Psat k)) P i) = gammas i * Psat i * phis_sat i * Poy i / P).
  { unfold activity_lnphis. rewrite exp_plus, !exp_ln; auto.
    - field. lra.
    - assert (0 < 1 / P) by (apply Rdiv_lt_0_compat; lra). apply Rmult_lt_0_compat; [apply Rmult_lt_0_compat; [apply Rmult_lt_0_compat|]|]; auto. }
  split; [exact E|]. unfold fugacities_direct. rewrite E. field. lra.
Qed.

(* each cubic equation of state is computed by the function of its own family, and by no other *)
Definition kernel_of (f : family) : kernel :=
  match f with ideal => Zeros | van_der_Waals => VDW_fastest | Redlich_Kwong => RK_fastest | Soave => SRK_fastest | Peng_Robinson => PR_fastest
  | Soave_translated => SRK_translated_fastest | Peng_Robinson_translated => PR_translated_fastest end.
Theorem C76_cubic_choice m k : (m < 20000)%Z -> (direct_choice m = Some k <-> exists name f, In (name, m, f) cubic_models /\ k = kernel_of f).
Proof.
  intros Hm. split.
  - unfold direct_choice, one_of. simpl.
    repeat match goal with |- context [Z.eqb m ?c] => destruct (Z.eqb_spec m c) as [->|?]; simpl; [intros E; injection E; intros <-; eexists; eexists; split; [simpl; tauto|reflexivity]|] end.
    unfold within. rewrite (proj2 (Z.leb_gt 20000 m)) by lia. simpl. discriminate.
  - intros (name & f & H & ->). unfold cubic_models in H. simpl in H.
    repeat (destruct H as [H|H]; [injection H; intros <- <- _; reflexivity|]). contradiction.
Qed.

(* activity models: the hundreds of the number choose the function *)
Theorem C76_activity_choice m : (20000 <= m <= 29999)%Z ->
  direct_choice m = match ((m - 20000) / 100)%Z with
    | 0%Z => Some (Activity Ones) | 1%Z => Some (Activity nrtl) | 2%Z => Some (Activity wilson) | 3%Z => Some (Activity uniquac)
    | 4%Z => Some (Activity regular) | 5%Z => Some (Activity unifac) | _ => None end.
Proof.
  intros H. unfold direct_choice, one_of. simpl.
  repeat match goal with |- context [Z.eqb m ?c] => rewrite (proj2 (Z.eqb_neq m c)) by lia end. simpl.
  unfold within at 1. rewrite (proj2 (Z.leb_le 20000 m)), (proj2 (Z.leb_le m 29999)) by lia. cbn [andb].
  unfold activity_choice, within.
  assert (Q : (100 * ((m - 20000) / 100) <= m - 20000 < 100 * ((m - 20000) / 100) + 100)%Z).
  { pose proof (Z.div_mod (m - 20000) 100 ltac:(lia)). pose proof (Z.mod_pos_bound (m - 20000) 100 ltac:(lia)). lia. }
  set (q := ((m - 20000) / 100)%Z) in *. clearbody q.
  repeat match goal with |- context [Z.leb ?a ?b] => destruct (Z.leb_spec a b); cbn [andb] end; try lia;
  try (replace q with 0%Z by lia; reflexivity); try (replace q with 1%Z by lia; reflexivity); try (replace q with 2%Z by lia; reflexivity);
  try (replace q with 3%Z by lia; reflexivity); try (replace q with 4%Z by lia; reflexivity); try (replace q with 5%Z by lia; reflexivity).
  all: assert (5 < q)%Z by lia; destruct q as [|[[[?|?|]|[?|?|]|]|[[?|?|]|[?|?|]|]|]|?]; try lia; reflexivity.
Qed.

(* the numbers of FloryHuggins (410) and Hansen (420) choose the function of regular solutions; PSRK (10300) has none *)
Theorem C76_other_models_refuted : direct_choice (20000 + 410) = Some (Activity regular) /\ direct_choice (20000 + 420) = Some (Activity regular) /\ direct_choice 10300 = None.
Proof. repeat split. Qed.

Example C76_hypotheses_met : exists (n i : nat) (x : nat -> R) (gammas : (nat -> R) -> nat -> R), (i < n)%nat /\ 0 < rsum n (fun k => if Nat.eqb k i then 0 else x k) /\
  filterlim (fun t => gammas (dilution_path n i x t) i) (at_right 0) (locally (gammas (dilution_path n i x 0) i)) /\
  gamma_infinite_dilution n gammas x 0 i = Some (exp 1).
Proof.
  (* a two component mixture with ln gamma_1 = x_2^2 *)
  exists 2%nat, 0%nat, (fun _ => 1 / 2), (fun x _ => exp (x 1%nat * x 1%nat)). split; [lia|]. split; [simpl; lra|]. split.
  - eapply filterlim_filter_le_1; [apply filter_le_within|].
    apply (ex_derive_continuous (fun t : R => exp (dilution_path 2 0 (fun _ => 1 / 2) t 1%nat * dilution_path 2 0 (fun _ => 1 / 2) t 1%nat)) 0).
    unfold dilution_path. simpl. auto_derive. auto.
  - unfold gamma_infinite_dilution, diluted, upd. simpl. rewrite Reqb_false by lra. match goal with |- Some (exp ?a) = _ => replace a with 1; [reflexivity|] end.
    change (Nat.eqb 1 0) with false. cbv iota. field.
Qed.
