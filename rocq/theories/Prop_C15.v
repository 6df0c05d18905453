(* C15: with one component present the mixture parameters are that component's; relabelling the components changes nothing. *)
From Coq Require Import Reals Lra Lia Arith Bool FunctionalExtensionality List Permutation.
From Coquelicot Require Import Coquelicot.
From Verif Require Import Base BaseFacts Spec_mix MixFacts Gen_mix Gen_eosmix MixParams Prop_C14 Prop_C16.
Open Scope R_scope.

(* s is a permutation of the component indices 0..n-1 *)
Definition perm (n : nat) (s : nat -> nat) : Prop :=
  (forall i, (i < n)%nat -> (s i < n)%nat) /\ forall i j, (i < n)%nat -> (j < n)%nat -> s i = s j -> i = j.
(* only component i is present *)
Definition only (n : nat) (zs : nat -> R) (i : nat) : Prop := forall j, (j < n)%nat -> zs j = if (j =? i)%nat then 1 else 0.

Definition lsum (l : list R) : R := fold_right Rplus 0 l.
Lemma lsum_app l m : lsum (l ++ m) = lsum l + lsum m.
Proof. induction l; simpl; [ring|rewrite IHl; ring]. Qed.
Lemma rsum_lsum n f : rsum n f = lsum (map f (seq 0 n)).
Proof. induction n; auto. rewrite seq_S, map_app, lsum_app, <- IHn. simpl. ring. Qed.
Lemma lsum_perm l m : Permutation l m -> lsum l = lsum m.
Proof. induction 1; simpl; auto; try lra. Qed.
Lemma rsum_perm n s f : perm n s -> rsum n (fun i => f (s i)) = rsum n f.
Proof.
  intros [H1 H2]. rewrite !rsum_lsum. rewrite <- (map_map s f). apply lsum_perm, Permutation_map.
  apply NoDup_Permutation_bis.
  - assert (G : forall l, NoDup l -> (forall i, In i l -> (i < n)%nat) -> NoDup (map s l)).
    { induction 1; intros HL; simpl; constructor.
      - intros Hin. apply in_map_iff in Hin. destruct Hin as (y & E & Hy). apply H2 in E; [subst; auto|apply HL; simpl; auto|apply HL; simpl; auto].
      - apply IHNoDup. intros; apply HL; simpl; auto. }
    apply G; [apply seq_NoDup|]. intros i Hi. apply in_seq in Hi. lia.
  - rewrite map_length. auto.
  - intros y Hy. apply in_map_iff in Hy. destruct Hy as (x & <- & Hx). apply in_seq in Hx. apply in_seq. specialize (H1 x). lia.
Qed.
Lemma lin_mix_perm n s zs b : perm n s -> lin_mix n (fun i => zs (s i)) (fun i => b (s i)) = lin_mix n zs b.
Proof. intros. unfold lin_mix. apply (rsum_perm n s (fun i => zs i * b i)); auto. Qed.
Lemma quad_mix_perm n s zs M : perm n s -> quad_mix n (fun i => zs (s i)) (fun i j => M (s i) (s j)) = quad_mix n zs M.
Proof.
  intros H. unfold quad_mix. rewrite (rsum_perm n s (fun i => rsum n (fun j => zs i * zs (s j) * M i (s j)))) by auto.
  apply rsum_ext. intros i Hi. apply (rsum_perm n s (fun j => zs i * zs j * M i j)); auto.
Qed.
Lemma lin_mix_only n zs b i : (i < n)%nat -> only n zs i -> lin_mix n zs b = b i.
Proof.
  intros Hi H. unfold lin_mix. rewrite (rsum_single n i) by (auto; intros j Hj Hn; rewrite H, eqb_ne' by auto; ring).
  rewrite H, Nat.eqb_refl by auto. ring.
Qed.
Lemma quad_mix_only n zs M i : (i < n)%nat -> only n zs i -> quad_mix n zs M = M i i.
Proof.
  intros Hi H. rewrite quad_mix_rows. rewrite (rsum_single n i) by (auto; intros j Hj Hn; rewrite H, eqb_ne' by auto; ring).
  rewrite H, Nat.eqb_refl by auto. change (rsum n (fun j => zs j * M i j)) with (lin_mix n zs (M i)). rewrite (lin_mix_only n zs _ i) by auto. ring.
Qed.
Lemma only_nonneg n zs i : only n zs i -> forall j, (j < n)%nat -> 0 <= zs j.
Proof. intros H j Hj. rewrite H by auto. destruct (j =? i)%nat; lra. Qed.

(* ---- covolume, delta, epsilon: pure limit and permutation, for every class ---- *)
Theorem C15_pure_params : forall n zs bs b0s cs i, (i < n)%nat -> only n zs i ->
  RKMIX_init_params zs n bs = (bs i, bs i) /\
  SRKMIX_init_params zs bs n = (bs i, bs i) /\
  TWUSRKMIX_init_params zs n bs = (bs i, bs i) /\
  APISRKMIX_init_params zs n bs = (bs i, bs i) /\
  VDWMIX_init_params zs bs n = bs i /\
  PRMIX_init_params zs n bs = (bs i, 2 * bs i, - bs i * bs i) /\
  PRSVMIX_init_params zs n bs = (bs i, 2 * bs i, - bs i * bs i) /\
  PRSV2MIX_init_params zs n bs = (bs i, 2 * bs i, - bs i * bs i) /\
  TWUPRMIX_init_params zs n bs = (bs i, 2 * bs i, - bs i * bs i) /\
  PRMIXTranslated_init_params zs cs n b0s = (cs i, b0s i - cs i, 2 * (cs i + b0s i), - b0s i * b0s i + cs i * (cs i + b0s i + b0s i)) /\
  PRMIXTranslatedConsistent_init_params zs cs n b0s = (cs i, b0s i - cs i, 2 * (cs i + b0s i), - b0s i * b0s i + cs i * (cs i + b0s i + b0s i)) /\
  SRKMIXTranslated_init_params zs cs n b0s = (cs i, b0s i - cs i, cs i + cs i + b0s i, cs i * (b0s i + cs i)) /\
  SRKMIXTranslatedConsistent_init_params zs cs n b0s = (cs i, b0s i - cs i, cs i + cs i + b0s i, cs i * (b0s i + cs i)).
Proof.
  intros n zs bs b0s cs i Hi H. splits.
  - rewrite (proj1 (RKMIX_params _ _ _)). cbv zeta. rewrite ?(lin_mix_only n zs _ i) by auto. reflexivity.
  - rewrite (proj1 (SRKMIX_params _ _ _)). cbv zeta. rewrite ?(lin_mix_only n zs _ i) by auto. reflexivity.
  - rewrite (proj1 (TWUSRKMIX_params _ _ _)). cbv zeta. rewrite ?(lin_mix_only n zs _ i) by auto. reflexivity.
  - rewrite (proj1 (APISRKMIX_params _ _ _)). cbv zeta. rewrite ?(lin_mix_only n zs _ i) by auto. reflexivity.
  - rewrite (proj1 (VDWMIX_params _ _ _)). cbv zeta. rewrite ?(lin_mix_only n zs _ i) by auto. reflexivity.
  - rewrite (proj1 (PRMIX_params _ _ _)). cbv zeta. rewrite ?(lin_mix_only n zs _ i) by auto. reflexivity.
  - rewrite (proj1 (PRSVMIX_params _ _ _)). cbv zeta. rewrite ?(lin_mix_only n zs _ i) by auto. reflexivity.
  - rewrite (proj1 (PRSV2MIX_params _ _ _)). cbv zeta. rewrite ?(lin_mix_only n zs _ i) by auto. reflexivity.
  - rewrite (proj1 (TWUPRMIX_params _ _ _)). cbv zeta. rewrite ?(lin_mix_only n zs _ i) by auto. reflexivity.
  - rewrite (proj1 (PRMIXTranslated_params _ _ _ _)). cbv zeta. rewrite ?(lin_mix_only n zs _ i) by auto. reflexivity.
  - rewrite (proj1 (PRMIXTranslatedConsistent_params _ _ _ _)). cbv zeta. rewrite ?(lin_mix_only n zs _ i) by auto. reflexivity.
  - rewrite (proj1 (SRKMIXTranslated_params _ _ _ _)). cbv zeta. rewrite ?(lin_mix_only n zs _ i) by auto. reflexivity.
  - rewrite (proj1 (SRKMIXTranslatedConsistent_params _ _ _ _)). cbv zeta. rewrite ?(lin_mix_only n zs _ i) by auto. reflexivity.
Qed.

Theorem C15_permuted_params : forall n s zs bs b0s cs, perm n s ->
  RKMIX_init_params (fun i => zs (s i)) n (fun i => bs (s i)) = RKMIX_init_params zs n bs /\
  SRKMIX_init_params (fun i => zs (s i)) (fun i => bs (s i)) n = SRKMIX_init_params zs bs n /\
  TWUSRKMIX_init_params (fun i => zs (s i)) n (fun i => bs (s i)) = TWUSRKMIX_init_params zs n bs /\
  APISRKMIX_init_params (fun i => zs (s i)) n (fun i => bs (s i)) = APISRKMIX_init_params zs n bs /\
  VDWMIX_init_params (fun i => zs (s i)) (fun i => bs (s i)) n = VDWMIX_init_params zs bs n /\
  PRMIX_init_params (fun i => zs (s i)) n (fun i => bs (s i)) = PRMIX_init_params zs n bs /\
  PRSVMIX_init_params (fun i => zs (s i)) n (fun i => bs (s i)) = PRSVMIX_init_params zs n bs /\
  PRSV2MIX_init_params (fun i => zs (s i)) n (fun i => bs (s i)) = PRSV2MIX_init_params zs n bs /\
  TWUPRMIX_init_params (fun i => zs (s i)) n (fun i => bs (s i)) = TWUPRMIX_init_params zs n bs /\
  PRMIXTranslated_init_params (fun i => zs (s i)) (fun i => cs (s i)) n (fun i => b0s (s i)) = PRMIXTranslated_init_params zs cs n b0s /\
  PRMIXTranslatedConsistent_init_params (fun i => zs (s i)) (fun i => cs (s i)) n (fun i => b0s (s i)) = PRMIXTranslatedConsistent_init_params zs cs n b0s /\
  SRKMIXTranslated_init_params (fun i => zs (s i)) (fun i => cs (s i)) n (fun i => b0s (s i)) = SRKMIXTranslated_init_params zs cs n b0s /\
  SRKMIXTranslatedConsistent_init_params (fun i => zs (s i)) (fun i => cs (s i)) n (fun i => b0s (s i)) = SRKMIXTranslatedConsistent_init_params zs cs n b0s.
Proof.
  intros n s zs bs b0s cs H. splits.
  - rewrite !(proj1 (RKMIX_params _ _ _)). cbv zeta. rewrite ?(lin_mix_perm n s) by auto. reflexivity.
  - rewrite !(proj1 (SRKMIX_params _ _ _)). cbv zeta. rewrite ?(lin_mix_perm n s) by auto. reflexivity.
  - rewrite !(proj1 (TWUSRKMIX_params _ _ _)). cbv zeta. rewrite ?(lin_mix_perm n s) by auto. reflexivity.
  - rewrite !(proj1 (APISRKMIX_params _ _ _)). cbv zeta. rewrite ?(lin_mix_perm n s) by auto. reflexivity.
  - rewrite !(proj1 (VDWMIX_params _ _ _)). cbv zeta. rewrite ?(lin_mix_perm n s) by auto. reflexivity.
  - rewrite !(proj1 (PRMIX_params _ _ _)). cbv zeta. rewrite ?(lin_mix_perm n s) by auto. reflexivity.
  - rewrite !(proj1 (PRSVMIX_params _ _ _)). cbv zeta. rewrite ?(lin_mix_perm n s) by auto. reflexivity.
  - rewrite !(proj1 (PRSV2MIX_params _ _ _)). cbv zeta. rewrite ?(lin_mix_perm n s) by auto. reflexivity.
  - rewrite !(proj1 (TWUPRMIX_params _ _ _)). cbv zeta. rewrite ?(lin_mix_perm n s) by auto. reflexivity.
  - rewrite !(proj1 (PRMIXTranslated_params _ _ _ _)). cbv zeta. rewrite ?(lin_mix_perm n s) by auto. reflexivity.
  - rewrite !(proj1 (PRMIXTranslatedConsistent_params _ _ _ _)). cbv zeta. rewrite ?(lin_mix_perm n s) by auto. reflexivity.
  - rewrite !(proj1 (SRKMIXTranslated_params _ _ _ _)). cbv zeta. rewrite ?(lin_mix_perm n s) by auto. reflexivity.
  - rewrite !(proj1 (SRKMIXTranslatedConsistent_params _ _ _ _)). cbv zeta. rewrite ?(lin_mix_perm n s) by auto. reflexivity.
Qed.

(* Re-initialising at another composition computes the same parameters as constructing there. *)
Theorem C15_fast_params : forall n zs bs b0s cs,
  RKMIX_fast_params n bs zs = RKMIX_init_params zs n bs /\
  SRKMIX_fast_params bs n zs = SRKMIX_init_params zs bs n /\
  TWUSRKMIX_fast_params n bs zs = TWUSRKMIX_init_params zs n bs /\
  APISRKMIX_fast_params bs n zs = APISRKMIX_init_params zs n bs /\
  VDWMIX_fast_params bs n zs = VDWMIX_init_params zs bs n /\
  PRMIX_fast_params n bs zs = PRMIX_init_params zs n bs /\
  PRSVMIX_fast_params n bs zs = PRSVMIX_init_params zs n bs /\
  PRSV2MIX_fast_params n bs zs = PRSV2MIX_init_params zs n bs /\
  TWUPRMIX_fast_params n bs zs = TWUPRMIX_init_params zs n bs /\
  PRMIXTranslated_fast_params n b0s zs cs = PRMIXTranslated_init_params zs cs n b0s /\
  PRMIXTranslatedConsistent_fast_params n b0s zs cs = PRMIXTranslatedConsistent_init_params zs cs n b0s /\
  SRKMIXTranslated_fast_params n b0s zs cs = SRKMIXTranslated_init_params zs cs n b0s /\
  SRKMIXTranslatedConsistent_fast_params n b0s zs cs = SRKMIXTranslatedConsistent_init_params zs cs n b0s.
Proof.
  intros n zs bs b0s cs. splits.
  - rewrite (proj1 (RKMIX_params _ _ _)), (proj2 (RKMIX_params _ _ _)). reflexivity.
  - rewrite (proj1 (SRKMIX_params _ _ _)), (proj2 (SRKMIX_params _ _ _)). reflexivity.
  - rewrite (proj1 (TWUSRKMIX_params _ _ _)), (proj2 (TWUSRKMIX_params _ _ _)). reflexivity.
  - rewrite (proj1 (APISRKMIX_params _ _ _)), (proj2 (APISRKMIX_params _ _ _)). reflexivity.
  - rewrite (proj1 (VDWMIX_params _ _ _)), (proj2 (VDWMIX_params _ _ _)). reflexivity.
  - rewrite (proj1 (PRMIX_params _ _ _)), (proj2 (PRMIX_params _ _ _)). reflexivity.
  - rewrite (proj1 (PRSVMIX_params _ _ _)), (proj2 (PRSVMIX_params _ _ _)). reflexivity.
  - rewrite (proj1 (PRSV2MIX_params _ _ _)), (proj2 (PRSV2MIX_params _ _ _)). reflexivity.
  - rewrite (proj1 (TWUPRMIX_params _ _ _)), (proj2 (TWUPRMIX_params _ _ _)). reflexivity.
  - rewrite (proj1 (PRMIXTranslated_params _ _ _ _)), (proj2 (PRMIXTranslated_params _ _ _ _)). reflexivity.
  - rewrite (proj1 (PRMIXTranslatedConsistent_params _ _ _ _)), (proj2 (PRMIXTranslatedConsistent_params _ _ _ _)). reflexivity.
  - rewrite (proj1 (SRKMIXTranslated_params _ _ _ _)), (proj2 (SRKMIXTranslated_params _ _ _ _)). reflexivity.
  - rewrite (proj1 (SRKMIXTranslatedConsistent_params _ _ _ _)), (proj2 (SRKMIXTranslatedConsistent_params _ _ _ _)). reflexivity.
Qed.

(* ---- a_alpha and its temperature derivatives ---- *)
Section Pure.
Variables (n : nat) (a da : nat -> R -> R) (T : R) (d2a zs : nat -> R) (omk : nat -> nat -> R) (i : nat).
Hypotheses (Hs : smooth2_at n a da T d2a) (Hp : forall j, (j < n)%nat -> 0 < a j T) (Hi : (i < n)%nat) (Ho : only n zs i) (Hk : omk i i = 1).
Lemma pure_mixture : locally T (fun t => quad_mix n zs (pair_a (fun k => a k t) omk) = a i t).
Proof.
  destruct (Hs i Hi) as [A1 A2]. generalize (ev_pos T _ _ A1 (Hp i Hi)). apply filter_imp. intros t Ht.
  rewrite (quad_mix_only n zs _ i) by auto. unfold pair_a. rewrite Hk, sqrt_square by lra. ring.
Qed.
Lemma pure_d1 v : is_derive (fun t => quad_mix n zs (pair_a (fun k => a k t) omk)) T v -> v = da i T.
Proof.
  intros H. destruct (Hs i Hi) as [A1 A2]. apply locally_singleton in A1. cbv beta in A1.
  rewrite <- (is_derive_unique _ _ _ A1). symmetry. apply is_derive_unique.
  apply is_derive_ext_loc with (2 := H). exact pure_mixture.
Qed.
Lemma pure_d2 v : is_derive_n (fun t => quad_mix n zs (pair_a (fun k => a k t) omk)) 2 T v -> v = d2a i.
Proof.
  intros H. destruct (Hs i Hi) as [A1 A2].
  assert (B : is_derive_n (a i) 2 T (d2a i)).
  { simpl. apply is_derive_ext_loc with (da i); auto. revert A1. apply filter_imp. intros t Ht. symmetry. apply is_derive_unique. exact Ht. }
  rewrite <- (is_derive_n_unique _ _ _ _ B). symmetry. apply is_derive_n_unique.
  apply is_derive_n_ext_loc with (2 := H). exact pure_mixture.
Qed.
End Pure.

(* With only component i present, a_alpha and its two temperature derivatives are those of component i,
   in each of the implementations of the mixing rule. *)
Theorem C15_pure_a_alpha : forall n (a da : nat -> R -> R) T d2a zs omk i M0 r0 J0 r' rows0 vec0 drows0,
  smooth2_at n a da T d2a -> (forall j, (j < n)%nat -> 0 < a j T) -> sym n omk -> (forall j, (j < n)%nat -> omk j j = 1) ->
  (i < n)%nat -> only n zs i ->
  let '(M, r, J) := a_alpha_aijs_composition_independent (fun i => a i T) omk M0 r0 J0 n in
  fst (a_alpha_and_derivatives (fun i => a i T) T zs omk M r J n) = a i T /\
  (let '(v, v1, v2, _, _, _) := a_alpha_and_derivatives_full (fun i => a i T) (fun i => da i T) d2a T zs omk M r' J n in
   v = a i T /\ v1 = da i T /\ v2 = d2a i) /\
  fst (a_alpha_quadratic_terms (fun i => a i T) (fun i => sqrt (a i T)) T zs omk rows0 vec0 n) = a i T /\
  (let '(v, v1, v2, _, _) := a_alpha_and_derivatives_quadratic_terms (fun i => a i T) (fun i => sqrt (a i T)) (fun i => da i T) d2a T zs omk rows0 drows0 n in
   v = a i T /\ v1 = da i T /\ v2 = d2a i).
Proof.
  intros n a da T d2a zs omk i M0 r0 J0 r' rows0 vec0 drows0 Hs Hp Hk Hd Hi Ho.
  pose proof (locally_singleton _ _ (pure_mixture n a da T d2a zs omk i Hs Hp Hi Ho (Hd i Hi))) as E. cbv beta in E.
  pose proof (C14_full n a da T d2a zs omk M0 r0 J0 r' Hs Hp (only_nonneg n zs i Ho) Hk) as F.
  pose proof (C14_composition_independent n (fun i => a i T) omk M0 r0 J0) as C. cbv beta in C.
  specialize (C ltac:(intros j Hj; specialize (Hp j Hj); lra) Hk).
  pose proof (C14_quadratic_terms n (fun i => a i T) T zs omk rows0 vec0 ltac:(intros j Hj; specialize (Hp j Hj); cbv beta; lra) Hk) as Q. cbv beta in Q.
  pose proof (C14_workspace n a da T d2a zs omk rows0 drows0 Hs Hp Hk Hd) as W.
  destruct (a_alpha_aijs_composition_independent _ _ _ _ _ _) as [[M r] J].
  splits.
  - rewrite C14_value; [| |apply only_nonneg with i; auto].
    + simpl. rewrite <- E. apply quad_mix_ext. intros j k Hj Hk'. apply C; auto.
    + intros j k Hj Hk'. destruct (C j Hj) as [_ C1]. destruct (C k Hk') as [_ C2]. destruct (C1 k Hk') as [-> _]. destruct (C2 j Hj) as [-> _].
      apply pair_a_sym with n; auto.
  - destruct (a_alpha_and_derivatives_full _ _ _ _ _ _ _ _ _ _) as [[[[[v v1] v2] M'] D1] D2]. destruct F as (F0 & F1 & F2 & _).
    splits; [congruence|eapply pure_d1; eauto|eapply pure_d2; eauto].
  - destruct (a_alpha_quadratic_terms _ _ _ _ _ _ _ _) as [v rows]. destruct Q as [Q _]. simpl. congruence.
  - destruct (a_alpha_and_derivatives_quadratic_terms _ _ _ _ _ _ _ _ _ _) as [[[[v v1] v2] rw] dr]. destruct W as (F0 & F1 & F2 & _).
    splits; [congruence|eapply pure_d1; eauto|eapply pure_d2; eauto].
Qed.

Lemma derive_same (f g : R -> R) T v w : (forall t, f t = g t) -> is_derive f T v -> is_derive g T w -> v = w.
Proof. intros E H1 H2. rewrite <- (is_derive_unique _ _ _ H1), <- (is_derive_unique _ _ _ H2). apply Derive_ext. auto. Qed.
Lemma derive2_same (f g : R -> R) T v w : (forall t, f t = g t) -> is_derive_n f 2 T v -> is_derive_n g 2 T w -> v = w.
Proof. intros E H1 H2. rewrite <- (is_derive_n_unique _ _ _ _ H1), <- (is_derive_n_unique _ _ _ _ H2). apply Derive_n_ext. auto. Qed.

(* Relabelling the components (with all their parameters) leaves a_alpha and its temperature derivatives unchanged. *)
Theorem C15_permuted_a_alpha : forall n s (a da : nat -> R -> R) T d2a zs omk M0 r0 J0 r' rows0 vec0 drows0,
  smooth2_at n a da T d2a -> (forall j, (j < n)%nat -> 0 < a j T) -> (forall j, (j < n)%nat -> 0 <= zs j) ->
  sym n omk -> (forall j, (j < n)%nat -> omk j j = 1) -> perm n s ->
  let run (a1 da1 d21 zs1 : nat -> R) (omk1 : nat -> nat -> R) :=
    let '(M, r, J) := a_alpha_aijs_composition_independent a1 omk1 M0 r0 J0 n in
    (fst (a_alpha_and_derivatives a1 T zs1 omk1 M r J n),
     (let '(v, v1, v2, _, _, _) := a_alpha_and_derivatives_full a1 da1 d21 T zs1 omk1 M r' J n in (v, v1, v2)),
     fst (a_alpha_quadratic_terms a1 (fun i => sqrt (a1 i)) T zs1 omk1 rows0 vec0 n),
     (let '(v, v1, v2, _, _) := a_alpha_and_derivatives_quadratic_terms a1 (fun i => sqrt (a1 i)) da1 d21 T zs1 omk1 rows0 drows0 n in (v, v1, v2))) in
  run (fun i => a (s i) T) (fun i => da (s i) T) (fun i => d2a (s i)) (fun i => zs (s i)) (fun i j => omk (s i) (s j))
  = run (fun i => a i T) (fun i => da i T) d2a zs omk.
Proof.
  assert (G : forall n (a da : nat -> R -> R) T d2a zs omk M0 r0 J0 r' rows0 vec0 drows0,
    smooth2_at n a da T d2a -> (forall j, (j < n)%nat -> 0 < a j T) -> (forall j, (j < n)%nat -> 0 <= zs j) -> sym n omk -> (forall j, (j < n)%nat -> omk j j = 1) ->
    (let '(M, r, J) := a_alpha_aijs_composition_independent (fun i => a i T) omk M0 r0 J0 n in
    (fst (a_alpha_and_derivatives (fun i => a i T) T zs omk M r J n),
     (let '(v, v1, v2, _, _, _) := a_alpha_and_derivatives_full (fun i => a i T) (fun i => da i T) d2a T zs omk M r' J n in (v, v1, v2)),
     fst (a_alpha_quadratic_terms (fun i => a i T) (fun i => sqrt (a i T)) T zs omk rows0 vec0 n),
     (let '(v, v1, v2, _, _) := a_alpha_and_derivatives_quadratic_terms (fun i => a i T) (fun i => sqrt (a i T)) (fun i => da i T) d2a T zs omk rows0 drows0 n in (v, v1, v2))))
    = let f t := quad_mix n zs (pair_a (fun i => a i t) omk) in (f T, (f T, Derive f T, Derive_n f 2 T), f T, (f T, Derive f T, Derive_n f 2 T))).
  { clear. intros n a da T d2a zs omk M0 r0 J0 r' rows0 vec0 drows0 Hs Hp Hz Hk Hd.
    pose proof (C14_full n a da T d2a zs omk M0 r0 J0 r' Hs Hp Hz Hk) as F.
    pose proof (C14_composition_independent n (fun i => a i T) omk M0 r0 J0) as C. cbv beta in C.
    specialize (C ltac:(intros j Hj; specialize (Hp j Hj); lra) Hk).
    pose proof (C14_quadratic_terms n (fun i => a i T) T zs omk rows0 vec0 ltac:(intros j Hj; specialize (Hp j Hj); cbv beta; lra) Hk) as Q. cbv beta in Q.
    pose proof (C14_workspace n a da T d2a zs omk rows0 drows0 Hs Hp Hk Hd) as W.
    destruct (a_alpha_aijs_composition_independent _ _ _ _ _ _) as [[M r] J].
    rewrite C14_value; [|intros j k Hj Hk'; destruct (C j Hj) as [_ C1]; destruct (C k Hk') as [_ C2]; destruct (C1 k Hk') as [-> _]; destruct (C2 j Hj) as [-> _]; apply pair_a_sym with n; auto|auto].
    destruct (a_alpha_and_derivatives_full _ _ _ _ _ _ _ _ _ _) as [[[[[v v1] v2] M'] D1] D2]. destruct F as (F0 & F1 & F2 & _).
    destruct (a_alpha_quadratic_terms _ _ _ _ _ _ _ _) as [q rows]. destruct Q as [Q _].
    destruct (a_alpha_and_derivatives_quadratic_terms _ _ _ _ _ _ _ _ _ _) as [[[[w w1] w2] rw] dr]. destruct W as (W0 & W1 & W2 & _).
    cbv zeta. cbn [fst]. rewrite (is_derive_unique _ _ _ F1), (is_derive_n_unique _ _ _ _ F2).
    assert (w1 = v1) by (eapply derive_same; [|exact W1|exact F1]; reflexivity).
    assert (w2 = v2) by (eapply derive2_same; [|exact W2|exact F2]; reflexivity).
    rewrite (quad_mix_ext n zs M (pair_a (fun i => a i T) omk)) by (intros j k Hj Hk'; apply C; auto).
    congruence. }
  intros n s a da T d2a zs omk M0 r0 J0 r' rows0 vec0 drows0 Hs Hp Hz Hk Hd H run.
  assert (Hs1 := proj1 H).
  unfold run.
  rewrite (G n (fun i => a (s i)) (fun i => da (s i)) T (fun i => d2a (s i)) (fun i => zs (s i)) (fun i j => omk (s i) (s j))); auto.
  - rewrite (G n a da T d2a zs omk) by auto. cbv zeta.
    assert (E : (fun t => quad_mix n (fun i => zs (s i)) (pair_a (fun i => a (s i) t) (fun i j => omk (s i) (s j)))) = (fun t => quad_mix n zs (pair_a (fun i => a i t) omk))).
    { apply functional_extensionality. intros t. apply (quad_mix_perm n s zs (pair_a (fun i => a i t) omk)); auto. }
    rewrite E. reflexivity.
  - intros i Hi. apply Hs. auto.
  - intros i j Hi Hj. apply Hk; auto.
Qed.

(* Relabelling permutes the per-component rows accordingly. *)
Theorem C15_permuted_rows : forall n s zs M i, perm n s -> sym n M -> (i < n)%nat ->
  GCEOSMIX_a_alpha_j_rows (fun i => zs (s i)) n (fun i j => M (s i) (s j)) i = GCEOSMIX_a_alpha_j_rows zs n M (s i).
Proof.
  intros n s zs M i Hp HM Hi. pose proof (proj1 Hp) as Hr. rewrite !rows_eq; auto.
  - apply (lin_mix_perm n s zs (M (s i))); auto.
  - intros j k Hj Hk. apply HM; auto.
Qed.

Example C15_hypotheses_met : exists n s (zs : nat -> R), n = 3%nat /\ perm n s /\ s 0%nat = 1%nat /\ only n zs 1 /\
  smooth2_at n (fun i t => (1 + INR i) * t) (fun i t => 1 + INR i) 300 (fun _ => 0) /\ (forall j, (j < n)%nat -> 0 < (1 + INR j) * 300).
Proof.
  exists 3%nat, (fun i => match i with 0 => 1 | 1 => 2 | _ => 0 end)%nat, (fun i => if (i =? 1)%nat then 1 else 0). splits; auto.
  - split; [intros [|[|]]; lia|]. intros [|[|[|]]] [|[|[|]]]; lia.
  - intros j Hj. reflexivity.
  - intros i Hi. split; [apply filter_forall; intros t; auto_derive; auto; ring|auto_derive; auto].
  - intros j _. pose proof (pos_INR j). nra.
Qed.
