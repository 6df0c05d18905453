(* C16: the composition derivatives offered by the mixture equations of state are the derivatives of their parameters. *)
From Coq Require Import Reals Lra Lia Arith Bool FunctionalExtensionality.
From Coquelicot Require Import Coquelicot.
From Verif Require Import Base BaseFacts Spec_mix MixFacts Gen_mix Gen_eosmix MixDeriv MixParams.
Open Scope R_scope.

Lemma cd_zero n zs : composition_derivatives n (fun _ => 0) zs (fun _ => 0) (fun _ _ => 0) (fun _ => 0) (fun _ _ => 0) (fun _ _ _ => 0).
Proof.
  intros i j k _ _ _. splits; try (apply partial_const).
  - exists (fun _ => 0). split; intros; apply partial_const.
  - exists (fun _ => 0). split; try (intros ? ?); apply partial_const.
  - exists (fun _ => 0), (fun _ => 0). splits; try (intros ? ?); apply partial_const.
Qed.

(* reads an entry of a buffer filled by one, two or three nested loops *)
Ltac rd := match goal with
  | |- context [loop ?n (fun x_ o => loop ?n (fun y_ o' => loop ?n (fun z_ o'' => updt o'' x_ y_ z_ (@?f x_ y_ z_)) o') o) ?w ?a ?b ?c] =>
      rewrite (loop_updt_lt n f w a b c) by auto
  | |- context [loop ?n (fun x_ o => loop ?n (fun y_ o' => updm o' x_ y_ (@?f x_ y_)) o) ?w ?a ?b] =>
      rewrite (loop_updm_lt n f w a b) by auto
  | |- context [loop ?n (fun x_ o => upd o x_ (@?f x_)) ?w ?a] => rewrite (loop_upd_lt n f w a) by auto
  end; cbv beta.
Ltac entry := intros; splits; cbv zeta; try rd; try ring; try field.

Section S.
Variables (n : nat) (zs : nat -> R).
Hypothesis Hz : rsum n zs = 1.

Lemma cd_b bs : composition_derivatives n (fun z => lin_mix n z bs) zs (GCEOSMIX_db_dzs bs) (GCEOSMIX_d2b_dzizjs n)
  (GCEOSMIX_db_dns (lin_mix n zs bs) bs n) (GCEOSMIX_d2b_dninjs (lin_mix n zs bs) bs) (GCEOSMIX_d3b_dninjnks (lin_mix n zs bs) bs).
Proof.
  eapply cd_ext; [| |apply cd_lin; auto]; [reflexivity|].
  unfold GCEOSMIX_db_dzs, GCEOSMIX_d2b_dzizjs, GCEOSMIX_db_dns, GCEOSMIX_d2b_dninjs, GCEOSMIX_d3b_dninjnks. entry.
Qed.
Lemma cd_delta_RK bs : composition_derivatives n (fun z => lin_mix n z bs) zs (RKMIX_ddelta_dzs bs) (RKMIX_d2delta_dzizjs n)
  (RKMIX_ddelta_dns (lin_mix n zs bs) bs n) (RKMIX_d2delta_dninjs (GCEOSMIX_d2b_dninjs (lin_mix n zs bs) bs)) (RKMIX_d3delta_dninjnks n (lin_mix n zs bs) bs).
Proof.
  eapply cd_ext; [| |apply cd_lin; auto]; [reflexivity|].
  unfold RKMIX_ddelta_dzs, RKMIX_d2delta_dzizjs, RKMIX_ddelta_dns, RKMIX_d2delta_dninjs, RKMIX_d3delta_dninjnks, GCEOSMIX_d2b_dninjs, RK_d3delta_dninjnks. entry.
Qed.
Lemma cd_delta_PR bs : composition_derivatives n (fun z => 2 * lin_mix n z bs) zs (PRMIX_ddelta_dzs n bs) (PRMIX_d2delta_dzizjs n)
  (PRMIX_ddelta_dns n bs (lin_mix n zs bs)) (PRMIX_d2delta_dninjs n (lin_mix n zs bs) bs) (PRMIX_d3delta_dninjnks n (lin_mix n zs bs) bs).
Proof.
  eapply cd_ext; [| |apply (cd_scal n 2), cd_lin; auto]; [reflexivity|].
  unfold PRMIX_ddelta_dzs, PRMIX_d2delta_dzizjs, PRMIX_ddelta_dns, PRMIX_d2delta_dninjs, PRMIX_d3delta_dninjnks,
    PR_ddelta_dzs, PR_ddelta_dns, PR_d2delta_dninjs, PR_d3delta_dninjnks. entry.
Qed.
Lemma cd_epsilon_PR bs : composition_derivatives n (fun z => - lin_mix n z bs * lin_mix n z bs) zs (PRMIX_depsilon_dzs n (lin_mix n zs bs) bs) (PRMIX_d2epsilon_dzizjs n (lin_mix n zs bs) bs)
  (PRMIX_depsilon_dns n (lin_mix n zs bs) bs) (PRMIX_d2epsilon_dninjs n (lin_mix n zs bs) bs) (PRMIX_d3epsilon_dninjnks n (lin_mix n zs bs) bs).
Proof.
  eapply cd_ext; [| |apply (cd_scal n (- 1)), (cd_prod n bs bs); auto]; [intros; cbv beta; ring|].
  unfold PRMIX_depsilon_dzs, PRMIX_d2epsilon_dzizjs, PRMIX_depsilon_dns, PRMIX_d2epsilon_dninjs, PRMIX_d3epsilon_dninjnks,
    PR_depsilon_dzs, PR_depsilon_dns, PR_d2epsilon_dzizjs, PR_d2epsilon_dninjs, PR_d3epsilon_dninjnks. entry.
Qed.
Lemma cd_delta_PRT b0s cs : let b0 := lin_mix n zs b0s in let c := lin_mix n zs cs in
  composition_derivatives n (fun z => 2 * (lin_mix n z cs + lin_mix n z b0s)) zs (PRMIXTranslated_ddelta_dzs n b0s cs) (PRMIX_d2delta_dzizjs n)
  (PRMIXTranslated_ddelta_dns n b0s cs (2 * (c + b0))) (PRMIXTranslated_d2delta_dninjs n b0s cs (b0 - c) c (2 * (c + b0))) (PRMIXTranslated_d3delta_dninjnks n b0s cs (2 * (c + b0))).
Proof.
  intros b0 c. eapply cd_ext; [| |apply (cd_scal n 2), cd_plus; [apply (cd_lin n cs); auto|apply (cd_lin n b0s); auto]]; [intros; reflexivity|].
  unfold PRMIXTranslated_ddelta_dzs, PRMIX_d2delta_dzizjs, PRMIXTranslated_ddelta_dns, PRMIXTranslated_d2delta_dninjs, PRMIXTranslated_d3delta_dninjnks,
    PR_translated_ddelta_dzs, PR_translated_ddelta_dns, PR_translated_d2delta_dninjs, PR_translated_d3delta_dninjnks, b0, c. entry.
Qed.
Lemma cd_epsilon_PRT b0s cs : let b0 := lin_mix n zs b0s in let c := lin_mix n zs cs in let e := - b0 * b0 + c * (c + b0 + b0) in
  composition_derivatives n (fun z => let b0 := lin_mix n z b0s in let c := lin_mix n z cs in - b0 * b0 + c * (c + b0 + b0)) zs
  (PRMIXTranslated_depsilon_dzs n c (b0 - c) b0s cs) (PRMIXTranslated_d2epsilon_dzizjs n b0s cs)
  (PRMIXTranslated_depsilon_dns c (b0 - c) n b0s cs) (PRMIXTranslated_d2epsilon_dninjs n b0s cs (b0 - c) c) (PRMIXTranslated_d3epsilon_dninjnks n b0s cs (b0 - c) c e).
Proof.
  intros b0 c e. eapply cd_ext; [| |apply cd_plus; [apply (cd_scal n (- 1)), (cd_prod n b0s b0s); auto|apply cd_plus; [apply (cd_prod n cs cs); auto|apply (cd_scal n 2), (cd_prod n cs b0s); auto]]]; [intros; cbv beta zeta; ring|].
  unfold PRMIXTranslated_depsilon_dzs, PRMIXTranslated_d2epsilon_dzizjs, PRMIXTranslated_depsilon_dns, PRMIXTranslated_d2epsilon_dninjs, PRMIXTranslated_d3epsilon_dninjnks,
    PR_translated_depsilon_dzs, PR_translated_depsilon_dns, PR_translated_d2epsilon_dzizjs, PR_translated_d2epsilon_dninjs, PR_translated_d3epsilon_dninjnks, b0, c. entry.
Qed.
Lemma cd_delta_SRKT b0s cs : let b0 := lin_mix n zs b0s in let c := lin_mix n zs cs in
  composition_derivatives n (fun z => lin_mix n z cs + lin_mix n z cs + lin_mix n z b0s) zs (SRKMIXTranslated_ddelta_dzs b0s cs n) (PRMIX_d2delta_dzizjs n)
  (SRKMIXTranslated_ddelta_dns n b0s cs (c + c + b0)) (SRKMIXTranslated_d2delta_dninjs n b0s cs (b0 - c) c (c + c + b0)) (SRKMIXTranslated_d3delta_dninjnks n b0s cs (b0 - c) c (c + c + b0)).
Proof.
  intros b0 c. eapply cd_ext; [| |apply cd_plus; [apply cd_plus; apply (cd_lin n cs); auto|apply (cd_lin n b0s); auto]]; [intros; reflexivity|].
  unfold SRKMIXTranslated_ddelta_dzs, PRMIX_d2delta_dzizjs, SRKMIXTranslated_ddelta_dns, SRKMIXTranslated_d2delta_dninjs, SRKMIXTranslated_d3delta_dninjnks,
    SRK_translated_ddelta_dns, SRK_translated_d2delta_dninjs, SRK_translated_d3delta_dninjnks, b0, c. entry.
Qed.
Lemma cd_epsilon_SRKT b0s cs : let b0 := lin_mix n zs b0s in let c := lin_mix n zs cs in let e := c * (b0 + c) in
  composition_derivatives n (fun z => lin_mix n z cs * (lin_mix n z b0s + lin_mix n z cs)) zs
  (SRKMIXTranslated_depsilon_dzs n b0s cs (b0 - c) c) (SRKMIXTranslated_d2epsilon_dzizjs n b0s cs (b0 - c) c)
  (SRKMIXTranslated_depsilon_dns n (b0 - c) c b0s cs) (SRKMIXTranslated_d2epsilon_dninjs n b0s cs (b0 - c) c) (SRKMIXTranslated_d3epsilon_dninjnks n b0s cs (b0 - c) c e).
Proof.
  intros b0 c e. eapply cd_ext; [| |apply cd_plus; [apply (cd_prod n cs b0s); auto|apply (cd_prod n cs cs); auto]]; [intros; cbv beta zeta; ring|].
  unfold SRKMIXTranslated_depsilon_dzs, SRKMIXTranslated_d2epsilon_dzizjs, SRKMIXTranslated_depsilon_dns, SRKMIXTranslated_d2epsilon_dninjs, SRKMIXTranslated_d3epsilon_dninjnks,
    SRK_translated_depsilon_dzs, SRK_translated_depsilon_dns, SRK_translated_d2epsilon_dzizjs, SRK_translated_d2epsilon_dninjs, SRK_translated_d3epsilon_dninjnks, b0, c. entry.
Qed.
End S.

(* ---- a_alpha and its rows ---- *)
Lemma rows_eq n zs M i : sym n M -> (i < n)%nat -> GCEOSMIX_a_alpha_j_rows zs n M i = lin_mix n zs (M i).
Proof.
  intros HM Hi. unfold GCEOSMIX_a_alpha_j_rows. cbv zeta.
  rewrite (loop_ext n _ (fun m r => fun k => r k + (if (k <? m)%nat then zs m * M m k else if (k =? m)%nat then rsum m (fun j => zs j * M m j) + zs m * M m m else 0))).
  - assert (G : forall m k, loop m (fun m r k => r k + (if (k <? m)%nat then zs m * M m k else if (k =? m)%nat then rsum m (fun j => zs j * M m j) + zs m * M m m else 0)) (fun _ => 0) k
       = rsum m (fun i => if (k <? i)%nat then zs i * M i k else if (k =? i)%nat then rsum i (fun j => zs j * M i j) + zs i * M i i else 0)).
    { induction m; intros; cbn [loop rsum]; auto. rewrite IHm. auto. }
    rewrite G. unfold lin_mix.
    assert (E : forall m, (m <= n)%nat -> rsum m (fun i0 => if (i <? i0)%nat then zs i0 * M i0 i else if (i =? i0)%nat then rsum i0 (fun j => zs j * M i0 j) + zs i0 * M i0 i0 else 0)
              = if (i <? m)%nat then rsum m (fun i0 => zs i0 * M i i0) else 0).
    { induction m; intros Hm; auto. cbn [rsum]. rewrite IHm by lia.
      destruct (Nat.ltb_spec i m), (Nat.ltb_spec i (S m)); try lia.
      - rewrite (HM m i) by lia. ring.
      - assert (i = m) by lia. subst. rewrite Nat.eqb_refl. ring.
      - rewrite eqb_ne' by lia. ring. }
    rewrite E by auto. rewrite ltb_lt' by auto. reflexivity.
  - intros m r Hm. apply functional_extensionality. intros k.
    unfold upd at 1. rewrite !(tri_rows m (fun j => zs m * M m j) (fun j => zs j * M m j)) by auto.
    destruct (Nat.eqb_spec k m).
    + subst. rewrite Nat.ltb_irrefl, Nat.eqb_refl. ring.
    + ring.
Qed.

Section A.
Variables (n : nat) (zs : nat -> R) (M : nat -> nat -> R).
Hypothesis Hz : rsum n zs = 1.
Hypothesis HM : sym n M.
Let rows := GCEOSMIX_a_alpha_j_rows zs n M.
Let A := quad_mix n zs M.

Lemma cd_a : composition_derivatives n (fun z => quad_mix n z M) zs (GCEOSMIX_da_alpha_dzs rows n) (GCEOSMIX_d2a_alpha_dzizjs M n)
  (GCEOSMIX_da_alpha_dns rows A n) (GCEOSMIX_d2a_alpha_dninjs rows A M n zs) (GCEOSMIX_d3a_alpha_dninjnks A M n zs).
Proof.
  eapply cd_ext; [| |apply (cd_quad n M); auto]; [reflexivity|].
  unfold GCEOSMIX_da_alpha_dzs, GCEOSMIX_d2a_alpha_dzizjs, GCEOSMIX_da_alpha_dns, GCEOSMIX_d2a_alpha_dninjs, GCEOSMIX_d3a_alpha_dninjnks, A, rows.
  intros i j k Hi Hj Hk. cbv zeta. splits; try (rewrite !rows_eq by auto; ring); try ring.
  - match goal with |- _ = loop n ?st ?w i j => rewrite (loop_ext n st (fun i o => loop (i + 1) (fun j o => updm (updm o j i (2 * (3 * quad_mix n zs M + M i j - 2 * (lin_mix n zs (M i) + lin_mix n zs (M j))))) i j (2 * (3 * quad_mix n zs M + M i j - 2 * (lin_mix n zs (M i) + lin_mix n zs (M j))))) o) w) end.
    + rewrite (loop_updm_mirror n (fun i j => 2 * (3 * quad_mix n zs M + M i j - 2 * (lin_mix n zs (M i) + lin_mix n zs (M j))))) by auto.
      destruct (Nat.le_ge_cases i j).
      * rewrite Nat.max_r, Nat.min_l by auto. rewrite (HM i j) by auto. ring.
      * rewrite Nat.max_l, Nat.min_r by auto. ring.
    + intros i0 o Hi0. apply loop_ext. intros j0 o' Hj0.
      assert (E : (if (i0 =? j0)%nat then 2 * GCEOSMIX_a_alpha_j_rows zs n M i0 else loop n (fun k term => term + zs k * (M i0 k + M j0 k)) 0) = lin_mix n zs (M i0) + lin_mix n zs (M j0)).
      { destruct (Nat.eqb_spec i0 j0).
        - subst. rewrite rows_eq by auto. ring.
        - rewrite (loop_rsum n (fun k => zs k * (M i0 k + M j0 k))). unfold lin_mix. rewrite <- rsum_plus, Rplus_0_l. apply rsum_ext. intros; ring. }
      rewrite E. reflexivity.
  - match goal with |- _ = loop n ?st ?w i j k => rewrite (loop_updt_lt n (fun i j k => 4 * (-6 * quad_mix n zs M - (M i j + M i k + M j k) + 3 * rsum n (fun m => zs m * (M i m + M j m + M k m)))) w i j k) by auto end.
    replace (rsum n (fun m => zs m * (M i m + M j m + M k m))) with (lin_mix n zs (M i) + lin_mix n zs (M j) + lin_mix n zs (M k)); [ring|].
    unfold lin_mix. rewrite <- !rsum_plus. apply rsum_ext. intros; ring.
Qed.
End A.

Lemma partial_total n f zs i v : (i < n)%nat -> rsum n zs = 1 -> partial (fun ns => f (fractions n ns)) zs i v ->
  partial (fun ns => rsum n ns * f (fractions n ns)) zs i (v + f zs).
Proof.
  intros Hi E H. eapply partial_eq; [|apply (partial_mult (fun ns => rsum n ns) (fun ns => f (fractions n ns)) zs i 1 v); [apply (partial_S n); auto|auto]].
  cbv beta. rewrite (fractions_one n zs) by auto. rewrite E. ring.
Qed.

Definition c3 {A B C} (t : A * B * C) : C := snd t.
Definition c2 {A B C} (t : A * B * C) : B := snd (fst t).
Definition c1 {A B C} (t : A * B * C) : A := fst (fst t).

(* RKMIX (and SRKMIX, TWUSRKMIX, APISRKMIX, which reuse these properties): b, delta and epsilon = 0. *)
Theorem C16_RKMIX : forall n zs bs, rsum n zs = 1 ->
  let '(b, delta) := RKMIX_init_params zs n bs in
  composition_derivatives n (fun z => fst (RKMIX_init_params z n bs)) zs (GCEOSMIX_db_dzs bs) (GCEOSMIX_d2b_dzizjs n)
    (GCEOSMIX_db_dns b bs n) (GCEOSMIX_d2b_dninjs b bs) (GCEOSMIX_d3b_dninjnks b bs) /\
  composition_derivatives n (fun z => snd (RKMIX_init_params z n bs)) zs (RKMIX_ddelta_dzs bs) (RKMIX_d2delta_dzizjs n)
    (RKMIX_ddelta_dns b bs n) (RKMIX_d2delta_dninjs (GCEOSMIX_d2b_dninjs b bs)) (RKMIX_d3delta_dninjnks n b bs) /\
  composition_derivatives n (fun _ => 0) zs EpsilonZeroMixingRules_depsilon_dzs (EpsilonZeroMixingRules_d2epsilon_dzizjs n)
    EpsilonZeroMixingRules_depsilon_dns (EpsilonZeroMixingRules_d2epsilon_dninjs n) (EpsilonZeroMixingRules_d3epsilon_dninjnks n) /\
  (forall i, (i < n)%nat -> partial (fun ns => rsum n ns * fst (RKMIX_init_params (fractions n ns) n bs)) zs i (GCEOSMIX_dnb_dns bs i)).
Proof.
  intros n zs bs Hz. rewrite (proj1 (RKMIX_params n zs bs)). cbv iota beta.
  assert (F : composition_derivatives n (fun z => fst (RKMIX_init_params z n bs)) zs (GCEOSMIX_db_dzs bs) (GCEOSMIX_d2b_dzizjs n)
    (GCEOSMIX_db_dns (lin_mix n zs bs) bs n) (GCEOSMIX_d2b_dninjs (lin_mix n zs bs) bs) (GCEOSMIX_d3b_dninjnks (lin_mix n zs bs) bs)).
  { eapply cd_ext; [| |apply (cd_b n zs Hz bs)]; [intros z; rewrite (proj1 (RKMIX_params n z bs)); reflexivity|auto]. }
  splits.
  - exact F.
  - eapply cd_ext; [| |apply (cd_delta_RK n zs Hz bs)]; [intros z; rewrite (proj1 (RKMIX_params n z bs)); reflexivity|auto].
  - apply cd_zero.
  - intros i Hi. eapply partial_eq; [|apply (partial_total n (fun z => fst (RKMIX_init_params z n bs))); eauto; destruct (F i i i Hi Hi Hi) as (_ & _ & G & _); exact G].
    rewrite (proj1 (RKMIX_params n zs bs)). unfold GCEOSMIX_db_dns, GCEOSMIX_dnb_dns. simpl. ring.
Qed.

Theorem C16_SRKMIX : forall n zs bs, rsum n zs = 1 ->
  let '(b, delta) := SRKMIX_init_params zs bs n in
  composition_derivatives n (fun z => fst (SRKMIX_init_params z bs n)) zs (GCEOSMIX_db_dzs bs) (GCEOSMIX_d2b_dzizjs n)
    (GCEOSMIX_db_dns b bs n) (GCEOSMIX_d2b_dninjs b bs) (GCEOSMIX_d3b_dninjnks b bs) /\
  composition_derivatives n (fun z => snd (SRKMIX_init_params z bs n)) zs (RKMIX_ddelta_dzs bs) (RKMIX_d2delta_dzizjs n)
    (RKMIX_ddelta_dns b bs n) (RKMIX_d2delta_dninjs (GCEOSMIX_d2b_dninjs b bs)) (RKMIX_d3delta_dninjnks n b bs).
Proof.
  intros n zs bs Hz. rewrite (proj1 (SRKMIX_params n zs bs)). cbv iota beta. splits.
  - eapply cd_ext; [| |apply (cd_b n zs Hz bs)]; [intros z; rewrite (proj1 (SRKMIX_params n z bs)); reflexivity|auto].
  - eapply cd_ext; [| |apply (cd_delta_RK n zs Hz bs)]; [intros z; rewrite (proj1 (SRKMIX_params n z bs)); reflexivity|auto].
Qed.

Theorem C16_PRMIX : forall n zs bs, rsum n zs = 1 ->
  let '(b, delta, epsilon) := PRMIX_init_params zs n bs in
  composition_derivatives n (fun z => c1 (PRMIX_init_params z n bs)) zs (GCEOSMIX_db_dzs bs) (GCEOSMIX_d2b_dzizjs n)
    (GCEOSMIX_db_dns b bs n) (GCEOSMIX_d2b_dninjs b bs) (GCEOSMIX_d3b_dninjnks b bs) /\
  composition_derivatives n (fun z => c2 (PRMIX_init_params z n bs)) zs (PRMIX_ddelta_dzs n bs) (PRMIX_d2delta_dzizjs n)
    (PRMIX_ddelta_dns n bs b) (PRMIX_d2delta_dninjs n b bs) (PRMIX_d3delta_dninjnks n b bs) /\
  composition_derivatives n (fun z => c3 (PRMIX_init_params z n bs)) zs (PRMIX_depsilon_dzs n b bs) (PRMIX_d2epsilon_dzizjs n b bs)
    (PRMIX_depsilon_dns n b bs) (PRMIX_d2epsilon_dninjs n b bs) (PRMIX_d3epsilon_dninjnks n b bs).
Proof.
  intros n zs bs Hz. rewrite (proj1 (PRMIX_params n zs bs)). cbv iota beta. splits.
  - eapply cd_ext; [| |apply (cd_b n zs Hz bs)]; [intros z; rewrite (proj1 (PRMIX_params n z bs)); reflexivity|auto].
  - eapply cd_ext; [| |apply (cd_delta_PR n zs Hz bs)]; [intros z; rewrite (proj1 (PRMIX_params n z bs)); reflexivity|auto].
  - eapply cd_ext; [| |apply (cd_epsilon_PR n zs Hz bs)]; [intros z; rewrite (proj1 (PRMIX_params n z bs)); reflexivity|auto].
Qed.

(* Translated classes store the component covolumes bs = b0s - cs. *)
Theorem C16_PRMIXTranslated : forall n zs b0s cs, rsum n zs = 1 ->
  let bs := fun i => b0s i - cs i in
  let '(c, b, delta, epsilon) := PRMIXTranslated_init_params zs cs n b0s in
  composition_derivatives n (fun z => snd (c1 (PRMIXTranslated_init_params z cs n b0s))) zs (GCEOSMIX_db_dzs bs) (GCEOSMIX_d2b_dzizjs n)
    (GCEOSMIX_db_dns b bs n) (GCEOSMIX_d2b_dninjs b bs) (GCEOSMIX_d3b_dninjnks b bs) /\
  composition_derivatives n (fun z => c2 (PRMIXTranslated_init_params z cs n b0s)) zs (PRMIXTranslated_ddelta_dzs n b0s cs) (PRMIX_d2delta_dzizjs n)
    (PRMIXTranslated_ddelta_dns n b0s cs delta) (PRMIXTranslated_d2delta_dninjs n b0s cs b c delta) (PRMIXTranslated_d3delta_dninjnks n b0s cs delta) /\
  composition_derivatives n (fun z => c3 (PRMIXTranslated_init_params z cs n b0s)) zs (PRMIXTranslated_depsilon_dzs n c b b0s cs) (PRMIXTranslated_d2epsilon_dzizjs n b0s cs)
    (PRMIXTranslated_depsilon_dns c b n b0s cs) (PRMIXTranslated_d2epsilon_dninjs n b0s cs b c) (PRMIXTranslated_d3epsilon_dninjnks n b0s cs b c epsilon).
Proof.
  intros n zs b0s cs Hz bs. rewrite (proj1 (PRMIXTranslated_params n zs b0s cs)). cbv iota beta. splits.
  - rewrite <- lin_mix_minus. fold bs. eapply cd_ext; [| |apply (cd_b n zs Hz bs)]; [intros z; rewrite (proj1 (PRMIXTranslated_params n z b0s cs)); unfold bs; rewrite lin_mix_minus; reflexivity|auto].
  - eapply cd_ext; [| |apply (cd_delta_PRT n zs Hz b0s cs)]; [intros z; rewrite (proj1 (PRMIXTranslated_params n z b0s cs)); reflexivity|auto].
  - eapply cd_ext; [| |apply (cd_epsilon_PRT n zs Hz b0s cs)]; [intros z; rewrite (proj1 (PRMIXTranslated_params n z b0s cs)); reflexivity|auto].
Qed.

Theorem C16_SRKMIXTranslated : forall n zs b0s cs, rsum n zs = 1 ->
  let bs := fun i => b0s i - cs i in
  let '(c, b, delta, epsilon) := SRKMIXTranslated_init_params zs cs n b0s in
  composition_derivatives n (fun z => snd (c1 (SRKMIXTranslated_init_params z cs n b0s))) zs (GCEOSMIX_db_dzs bs) (GCEOSMIX_d2b_dzizjs n)
    (GCEOSMIX_db_dns b bs n) (GCEOSMIX_d2b_dninjs b bs) (GCEOSMIX_d3b_dninjnks b bs) /\
  composition_derivatives n (fun z => c2 (SRKMIXTranslated_init_params z cs n b0s)) zs (SRKMIXTranslated_ddelta_dzs b0s cs n) (PRMIX_d2delta_dzizjs n)
    (SRKMIXTranslated_ddelta_dns n b0s cs delta) (SRKMIXTranslated_d2delta_dninjs n b0s cs b c delta) (SRKMIXTranslated_d3delta_dninjnks n b0s cs b c delta) /\
  composition_derivatives n (fun z => c3 (SRKMIXTranslated_init_params z cs n b0s)) zs (SRKMIXTranslated_depsilon_dzs n b0s cs b c) (SRKMIXTranslated_d2epsilon_dzizjs n b0s cs b c)
    (SRKMIXTranslated_depsilon_dns n b c b0s cs) (SRKMIXTranslated_d2epsilon_dninjs n b0s cs b c) (SRKMIXTranslated_d3epsilon_dninjnks n b0s cs b c epsilon).
Proof.
  intros n zs b0s cs Hz bs. rewrite (proj1 (SRKMIXTranslated_params n zs b0s cs)). cbv iota beta. splits.
  - rewrite <- lin_mix_minus. fold bs. eapply cd_ext; [| |apply (cd_b n zs Hz bs)]; [intros z; rewrite (proj1 (SRKMIXTranslated_params n z b0s cs)); unfold bs; rewrite lin_mix_minus; reflexivity|auto].
  - eapply cd_ext; [| |apply (cd_delta_SRKT n zs Hz b0s cs)]; [intros z; rewrite (proj1 (SRKMIXTranslated_params n z b0s cs)); reflexivity|auto].
  - eapply cd_ext; [| |apply (cd_epsilon_SRKT n zs Hz b0s cs)]; [intros z; rewrite (proj1 (SRKMIXTranslated_params n z b0s cs)); reflexivity|auto].
Qed.

Theorem C16_VDWMIX : forall n zs bs, rsum n zs = 1 ->
  let b := VDWMIX_init_params zs bs n in
  composition_derivatives n (fun z => VDWMIX_init_params z bs n) zs (GCEOSMIX_db_dzs bs) (GCEOSMIX_d2b_dzizjs n)
    (GCEOSMIX_db_dns b bs n) (GCEOSMIX_d2b_dninjs b bs) (GCEOSMIX_d3b_dninjnks b bs) /\
  composition_derivatives n (fun _ => 0) zs VDWMIX_ddelta_dzs (VDWMIX_d2delta_dzizjs n)
    VDWMIX_ddelta_dns (VDWMIX_d2delta_dninjs n) (VDWMIX_d3delta_dninjnks n).
Proof.
  intros n zs bs Hz b. split; [|apply cd_zero]. unfold b. rewrite (proj1 (VDWMIX_params n zs bs)).
  eapply cd_ext; [| |apply (cd_b n zs Hz bs)]; [intros z; rewrite (proj1 (VDWMIX_params n z bs)); reflexivity|auto].
Qed.

(* a_alpha: M holds the symmetric pair terms; a_alpha is their quadratic form (C14). *)
Theorem C16_a_alpha : forall n zs M, rsum n zs = 1 -> sym n M ->
  let a_alpha := quad_mix n zs M in
  let rows := GCEOSMIX_a_alpha_j_rows zs n M in
  (forall i, (i < n)%nat -> rows i = rsum n (fun j => zs j * M i j)) /\
  composition_derivatives n (fun z => quad_mix n z M) zs (GCEOSMIX_da_alpha_dzs rows n) (GCEOSMIX_d2a_alpha_dzizjs M n)
    (GCEOSMIX_da_alpha_dns rows a_alpha n) (GCEOSMIX_d2a_alpha_dninjs rows a_alpha M n zs) (GCEOSMIX_d3a_alpha_dninjnks a_alpha M n zs) /\
  (forall i, (i < n)%nat -> partial (fun ns => rsum n ns * quad_mix n (fractions n ns) M) zs i (GCEOSMIX_dna_alpha_dns rows a_alpha n i)).
Proof.
  intros n zs M Hz HM A rows. assert (F := cd_a n zs M Hz HM). splits.
  - intros. apply rows_eq; auto.
  - exact F.
  - intros i Hi. eapply partial_eq; [|apply (partial_total n (fun z => quad_mix n z M)); eauto; destruct (F i i i Hi Hi Hi) as (_ & _ & G & _); exact G].
    unfold GCEOSMIX_da_alpha_dns, GCEOSMIX_dna_alpha_dns. fold A rows. cbv zeta. ring.
Qed.

(* Temperature derivatives of a_alpha: composition derivatives of da_alpha/dT and d2a_alpha/dT2, given the
   temperature-derivative matrices D and D2 of the pair terms. *)
Theorem C16_a_alpha_T : forall n zs (M : R -> nat -> nat -> R) T D D2 vec, rsum n zs = 1 -> sym n D -> sym n D2 ->
  (forall i j, (i < n)%nat -> (j < n)%nat -> is_derive (fun t => M t i j) T (D i j)) ->
  (forall i j, (i < n)%nat -> (j < n)%nat -> locally T (fun t => ex_derive (fun t => M t i j) t) /\ is_derive_n (fun t => M t i j) 2 T (D2 i j)) ->
  let F1 := fun z => Derive (fun t => quad_mix n z (M t)) T in
  let F2 := fun z => Derive_n (fun t => quad_mix n z (M t)) 2 T in
  let r1 := GCEOSMIX_da_alpha_dT_j_rows zs n vec D in
  let r2 := GCEOSMIX_d2a_alpha_dT2_j_rows D2 n vec zs in
  forall i, (i < n)%nat ->
  partial F1 zs i (GCEOSMIX_da_alpha_dT_dzs r1 n i) /\
  partial (fun ns => F1 (fractions n ns)) zs i (GCEOSMIX_da_alpha_dT_dns r1 (F1 zs) n i) /\
  partial (fun ns => rsum n ns * F1 (fractions n ns)) zs i (GCEOSMIX_dna_alpha_dT_dns r1 (F1 zs) n i) /\
  partial F2 zs i (GCEOSMIX_d2a_alpha_dT2_dzs r2 n i) /\
  partial (fun ns => F2 (fractions n ns)) zs i (GCEOSMIX_d2a_alpha_dT2_dns r2 (F2 zs) n i).
Proof.
  intros n zs M T D D2 vec Hz HD HD2 H1 H2 F1 F2 r1 r2 i Hi.
  assert (E1 : forall z, F1 z = quad_mix n z D).
  { intros z. unfold F1. apply is_derive_unique. apply (quad_mix_sum_derive n z (fun i j t => M t i j)). auto. }
  assert (E2 : forall z, F2 z = quad_mix n z D2).
  { intros z. unfold F2. apply is_derive_n_unique.
    assert (L : locally T (fun t => forall i, (i < n)%nat -> forall j, (j < n)%nat -> ex_derive (fun t => M t i j) t)).
    { apply locally_all. intros. apply locally_all. intros. apply H2; auto. }
    simpl. apply is_derive_ext_loc with (fun t => quad_mix n z (fun i j => Derive (fun t => M t i j) t)).
    - revert L. apply filter_imp. intros t Ht. symmetry. apply is_derive_unique.
      apply (quad_mix_sum_derive n z (fun i j t => M t i j)). intros. apply Derive_correct. auto.
    - apply (quad_mix_sum_derive n z (fun i j t => Derive (fun t => M t i j) t)). intros i0 j0 Hi0 Hj0. destruct (H2 i0 j0 Hi0 Hj0) as [_ G]. exact G. }
  assert (R1 : r1 i = GCEOSMIX_a_alpha_j_rows zs n D i) by reflexivity.
  assert (R2 : r2 i = GCEOSMIX_a_alpha_j_rows zs n D2 i) by reflexivity.
  destruct (cd_a n zs D Hz HD i i i Hi Hi Hi) as (A1 & _ & A2 & _).
  destruct (cd_a n zs D2 Hz HD2 i i i Hi Hi Hi) as (B1 & _ & B2 & _).
  assert (P1 : partial (fun ns => F1 (fractions n ns)) zs i (GCEOSMIX_da_alpha_dT_dns r1 (F1 zs) n i)).
  { eapply partial_eq; [|eapply partial_ext; [|exact A2]]; [|intros; cbv beta; rewrite E1; reflexivity].
    unfold GCEOSMIX_da_alpha_dT_dns, GCEOSMIX_da_alpha_dns. rewrite R1, E1. ring. }
  splits; auto.
  - eapply partial_eq; [|eapply partial_ext; [|exact A1]]; [unfold GCEOSMIX_da_alpha_dT_dzs, GCEOSMIX_da_alpha_dzs; rewrite R1; auto|intros; rewrite E1; reflexivity].
  - eapply partial_eq; [|apply partial_total; eauto]. unfold GCEOSMIX_da_alpha_dT_dns, GCEOSMIX_dna_alpha_dT_dns. cbv zeta. ring.
  - eapply partial_eq; [|eapply partial_ext; [|exact B1]]; [unfold GCEOSMIX_d2a_alpha_dT2_dzs, GCEOSMIX_da_alpha_dzs; rewrite R2; auto|intros; rewrite E2; reflexivity].
  - eapply partial_eq; [|eapply partial_ext; [|exact B2]]; [|intros; cbv beta; rewrite E2; reflexivity].
    unfold GCEOSMIX_d2a_alpha_dT2_dns, GCEOSMIX_da_alpha_dns. rewrite R2, E2. ring.
Qed.

(* A ternary mixture with unequal covolumes and pair terms meets the hypotheses. *)
Example C16_hypotheses_met : exists n zs (bs cs : nat -> R) M, n = 3%nat /\ rsum n zs = 1 /\ sym n M /\ bs 0%nat <> bs 1%nat /\ cs 0%nat <> cs 2%nat /\
  M 0%nat 1%nat <> M 0%nat 0%nat /\
  let '(b, delta, epsilon) := PRMIX_init_params zs n bs in 0 < b.
Proof.
  exists 3%nat, (fun i => match i with O => 1/2 | 1 => 1/4 | _ => 1/4 end), (fun i => 1 + INR i), (fun i => INR i / 10), (fun i j => 1 + INR i + INR j).
  rewrite (proj1 (PRMIX_params _ _ _)). unfold lin_mix, sym. splits; try reflexivity; try (apply Rlt_not_eq; simpl; lra); try (apply Rgt_not_eq; simpl; lra); try (intros; lra); simpl; lra.
Qed.
