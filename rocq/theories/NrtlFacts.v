(* Calculus of the NRTL sums, for arbitrary G and tau matrices. *)
From Coq Require Import Reals Lra Lia Arith FunctionalExtensionality.
From Coquelicot Require Import Coquelicot.
From Verif Require Import Base BaseFacts Spec_mix Spec_activity MixFacts MixDeriv LnphiFacts.
Open Scope R_scope.

Lemma near_lin n (x : nat -> R) (c : nat -> R) : rsum n (fun j => x j * c j) <> 0 -> near n x (fun y => rsum n (fun j => y j * c j) <> 0).
Proof.
  intros H. set (s := rsum n (fun j => x j * c j)) in *. set (K := rsum n (fun j => Rabs (c j)) + 1).
  assert (0 < K) as HK. { unfold K. assert (0 <= rsum n (fun j => Rabs (c j))); [|lra]. apply rsum_nonneg. intros; apply Rabs_pos. }
  assert (0 < Rabs s) as HS by now apply Rabs_pos_lt.
  exists (Rabs s / (2 * K)). split. { apply Rdiv_lt_0_compat; lra. }
  intros y Hy Z.
  assert (Rabs (rsum n (fun j => y j * c j) - s) <= rsum n (fun j => Rabs s / (2 * K) * Rabs (c j))) as B.
  { unfold s at 1. rewrite <- rsum_minus. revert Hy. generalize (Rabs s / (2 * K)). clear. intros e Hy. induction n; simpl. { rewrite Rabs_R0; lra. }
    eapply Rle_trans. apply Rabs_triang. apply Rplus_le_compat. apply IHn; intros; apply Hy; lia.
    replace (y n * c n - x n * c n) with ((y n - x n) * c n) by ring. rewrite Rabs_mult. apply Rmult_le_compat_r. apply Rabs_pos. left; apply Hy; lia. }
  rewrite Z in B. replace (0 - s) with (- s) in B by ring. rewrite Rabs_Ropp, rsum_scal_l in B.
  assert (Rabs s / (2 * K) * rsum n (fun j => Rabs (c j)) < Rabs s); [|lra].
  apply Rle_lt_trans with (Rabs s / (2 * K) * K). { apply Rmult_le_compat_l. left; apply Rdiv_lt_0_compat; lra. unfold K; lra. }
  replace (Rabs s / (2 * K) * K) with (Rabs s / 2) by (field; lra). lra.
Qed.
Lemma near_and n x P Q : near n x P -> near n x Q -> near n x (fun y => P y /\ Q y).
Proof. intros (e & He & HP) (f & Hf & HQ). exists (Rmin e f). split. now apply Rmin_pos. intros y Hy. split; [apply HP|apply HQ]; intros i Hi; eapply Rlt_le_trans; try apply Hy; auto. apply Rmin_l. apply Rmin_r. Qed.
Lemma near_all n x m P : (forall i, (i < m)%nat -> near n x (P i)) -> near n x (fun y => forall i, (i < m)%nat -> P i y).
Proof.
  induction m; intros H. { exists 1. split. lra. intros; lia. }
  destruct (near_and n x _ _ (IHm (fun i Hi => H i ltac:(lia))) (H m ltac:(lia))) as (e & He & K). exists e. split; auto. intros y Hy i Hi. destruct (K y Hy) as [K1 K2].
  destruct (Nat.eq_dec i m) as [->|]; auto. apply K1; lia.
Qed.
Lemma near_impl n x (P Q : (nat -> R) -> Prop) : (forall y, P y -> Q y) -> near n x P -> near n x Q.
Proof. intros H (e & He & K). exists e. auto. Qed.
Lemma near_self n x P : near n x P -> P x.
Proof. intros (e & He & K). apply K. intros. unfold Rminus. rewrite Rplus_opp_r, Rabs_R0. auto. Qed.

Lemma amounts_pos n x (c : nat -> R) : amounts n x -> (forall j, (j < n)%nat -> 0 < c j) -> 0 < rsum n (fun j => x j * c j).
Proof.
  intros [H0 H1] Hc. assert (exists m, 0 < m /\ forall j, (j < n)%nat -> m <= c j) as (m & Hm & Hmc).
  { clear -Hc. induction n. exists 1; split; [lra|intros; lia]. destruct IHn as (m & Hm & K). intros; apply Hc; lia. exists (Rmin m (c n)). split. apply Rmin_pos; auto. intros j Hj. destruct (Nat.eq_dec j n) as [->|]. apply Rmin_r. eapply Rle_trans. apply Rmin_l. apply K; lia. }
  apply Rlt_le_trans with (rsum n x * m). nra. rewrite <- rsum_scal_r. apply rsum_le. intros j Hj. apply Rmult_le_compat_l; auto.
Qed.

Definition dl (k i : nat) : R := if Nat.eqb i k then 1 else 0.
Lemma rsum_dl n k f : (k < n)%nat -> rsum n (fun i => dl k i * f i) = f k.
Proof. intros H. rewrite (rsum_single n k); auto. unfold dl. rewrite Nat.eqb_refl. ring. intros j Hj Hjk. unfold dl. rewrite eqb_ne' by auto. ring. Qed.
Lemma upd_derive (x : nat -> R) k i : is_derive (fun t : R => upd x k t i) (x k) (dl k i).
Proof. unfold upd, dl. destruct (Nat.eqb i k). apply (is_derive_id (x k)). apply (is_derive_const (x i)). Qed.

Section Sums.
Context (n : nat).
Definition SA (x : nat -> R) (G : nat -> nat -> R) (i : nat) : R := rsum n (fun j => x j * G j i).
Definition SB (x : nat -> R) (G tau : nat -> nat -> R) (i : nat) : R := rsum n (fun j => x j * G j i * tau j i).
Definition SE (x : nat -> R) (G tau : nat -> nat -> R) : R := rsum n (fun i => x i * (SB x G tau i / SA x G i)).
(* gradient in x_k *)
Definition Sg (x : nat -> R) (G tau : nat -> nat -> R) (k : nat) : R :=
  SB x G tau k / SA x G k + rsum n (fun i => x i / SA x G i * G k i * (tau k i - SB x G tau i / SA x G i)).

Section Curve.
Context (x : nat -> R -> R) (G tau : nat -> nat -> R -> R) (t : R) (dx : nat -> R) (dG dtau : nat -> nat -> R).
Context (Hx : forall i, (i < n)%nat -> is_derive (x i) t (dx i)).
Context (HG : forall i j, (i < n)%nat -> (j < n)%nat -> is_derive (G i j) t (dG i j)).
Context (Ht : forall i j, (i < n)%nat -> (j < n)%nat -> is_derive (tau i j) t (dtau i j)).
Definition dSA i := rsum n (fun j => dx j * G j i t + x j t * dG j i).
Definition dSB i := rsum n (fun j => dx j * G j i t * tau j i t + x j t * dG j i * tau j i t + x j t * G j i t * dtau j i).
Lemma SA_curve i : (i < n)%nat -> is_derive (fun s => SA (fun j => x j s) (fun j i => G j i s) i) t (dSA i).
Proof.
  intros Hi. unfold SA, dSA. apply (is_derive_rsum n (fun j s => x j s * G j i s)). intros j Hj. pose proof (Hx j Hj) as H1. pose proof (HG j i Hj Hi) as H2.
  auto_derive. splits; try (eexists; eassumption); trivial. dv H1. dv H2. chR. ring.
Qed.
Lemma SB_curve i : (i < n)%nat -> is_derive (fun s => SB (fun j => x j s) (fun j i => G j i s) (fun j i => tau j i s) i) t (dSB i).
Proof.
  intros Hi. unfold SB, dSB. apply (is_derive_rsum n (fun j s => x j s * G j i s * tau j i s)). intros j Hj. pose proof (Hx j Hj) as H1. pose proof (HG j i Hj Hi) as H2. pose proof (Ht j i Hj Hi) as H3.
  auto_derive. splits; try (eexists; eassumption); trivial. dv H1. dv H2. dv H3. chR. ring.
Qed.
Let xt := fun j0 => x j0 t. Let Gt := fun j0 i0 => G j0 i0 t. Let taut := fun j0 i0 => tau j0 i0 t.
Lemma SE_curve : (forall i, (i < n)%nat -> SA xt Gt i <> 0) ->
  is_derive (fun s => SE (fun j => x j s) (fun j i => G j i s) (fun j i => tau j i s)) t
    (rsum n (fun i => dx i * (SB xt Gt taut i / SA xt Gt i) + x i t * (dSB i - SB xt Gt taut i * dSA i / SA xt Gt i) / SA xt Gt i)).
Proof.
  intros HA. unfold SE. apply (is_derive_rsum n (fun i s => x i s * (SB (fun j => x j s) (fun j i => G j i s) (fun j i => tau j i s) i / SA (fun j => x j s) (fun j i => G j i s) i))).
  intros i Hi. pose proof (SA_curve i Hi) as H1. pose proof (SB_curve i Hi) as H2. pose proof (Hx i Hi) as H0. pose proof (HA i Hi) as Hn. unfold xt, Gt, taut in *.
  set (fa := fun s : R => SA (fun j => x j s) (fun j i => G j i s) i). set (fb := fun s : R => SB (fun j => x j s) (fun j i => G j i s) (fun j i => tau j i s) i).
  change (is_derive fa t (dSA i)) in H1. change (is_derive fb t (dSB i)) in H2.
  change (SA (fun j => x j t) (fun j i => G j i t) i) with (fa t) in *. change (SB (fun j => x j t) (fun j i => G j i t) (fun j i => tau j i t) i) with (fb t).
  change (is_derive (fun s => x i s * (fb s / fa s)) t (dx i * (fb t / fa t) + x i t * (dSB i - fb t * dSA i / fa t) / fa t)). clearbody fa fb.
  auto_derive. splits; try (eexists; eassumption); trivial.
  dv H0. dv H1. dv H2.
  chR. field. auto.
Qed.
Lemma Sg_curve k : (k < n)%nat -> (forall i, (i < n)%nat -> SA xt Gt i <> 0) ->
  is_derive (fun s => Sg (fun j => x j s) (fun j i => G j i s) (fun j i => tau j i s) k) t
    ((dSB k - SB xt Gt taut k * dSA k / SA xt Gt k) / SA xt Gt k +
     rsum n (fun i => (dx i - x i t * dSA i / SA xt Gt i) / SA xt Gt i * G k i t * (tau k i t - SB xt Gt taut i / SA xt Gt i)
                      + x i t / SA xt Gt i * dG k i * (tau k i t - SB xt Gt taut i / SA xt Gt i)
                      + x i t / SA xt Gt i * G k i t * (dtau k i - (dSB i - SB xt Gt taut i * dSA i / SA xt Gt i) / SA xt Gt i))).
Proof.
  intros Hk HA. unfold Sg.
  set (fa := fun i (s : R) => SA (fun j => x j s) (fun j i => G j i s) i). set (fb := fun i (s : R) => SB (fun j => x j s) (fun j i => G j i s) (fun j i => tau j i s) i).
  assert (forall i, (i < n)%nat -> is_derive (fa i) t (dSA i)) as Ha by (intros; now apply SA_curve).
  assert (forall i, (i < n)%nat -> is_derive (fb i) t (dSB i)) as Hb by (intros; now apply SB_curve).
  change (forall i, (i < n)%nat -> fa i t <> 0) in HA.
  change (is_derive (fun s => plus (fb k s / fa k s) (rsum n (fun i => x i s / fa i s * G k i s * (tau k i s - fb i s / fa i s)))) t
   (plus ((dSB k - fb k t * dSA k / fa k t) / fa k t) (rsum n (fun i => (dx i - x i t * dSA i / fa i t) / fa i t * G k i t * (tau k i t - fb i t / fa i t)
                      + x i t / fa i t * dG k i * (tau k i t - fb i t / fa i t)
                      + x i t / fa i t * G k i t * (dtau k i - (dSB i - fb i t * dSA i / fa i t) / fa i t))))). clearbody fa fb.
  apply @is_derive_plus.
  - pose proof (Ha k Hk) as H1. pose proof (Hb k Hk) as H2. pose proof (HA k Hk) as H3. auto_derive. splits; try (eexists; eassumption); trivial. dv H1. dv H2. chR. field. auto.
  - apply (is_derive_rsum n (fun i s => x i s / fa i s * G k i s * (tau k i s - fb i s / fa i s))). intros i Hi.
    pose proof (Ha i Hi) as H1. pose proof (Hb i Hi) as H2. pose proof (HA i Hi) as H3. pose proof (Hx i Hi) as H4. pose proof (HG k i Hk Hi) as H5. pose proof (Ht k i Hk Hi) as H6.
    auto_derive. splits; try (eexists; eassumption); trivial.
    dv H1. dv H2. dv H4. dv H5. dv H6. chR. field. auto.
Qed.
End Curve.

(* partial derivatives in the amounts *)
Lemma SE_partial x G tau k : (k < n)%nat -> (forall i, (i < n)%nat -> SA x G i <> 0) -> partial (fun y => SE y G tau) x k (Sg x G tau k).
Proof.
  intros Hk HA. unfold partial. eapply is_derive_eq.
  - apply (SE_curve (fun j t => upd x k t j) (fun j i _ => G j i) (fun j i _ => tau j i) (x k) (dl k) (fun _ _ => 0) (fun _ _ => 0)).
    + intros; apply upd_derive. + intros. apply (is_derive_const (G i j)). + intros. apply (is_derive_const (tau i j)).
    + intros i Hi. rewrite (functional_extensionality (fun j => upd x k (x k) j) x). now apply HA. intros j; now rewrite upd_id.
  - unfold dSA, dSB. assert ((fun j => upd x k (x k) j) = x) as E by (apply functional_extensionality; intros j; now rewrite upd_id). rewrite E, upd_id.
    assert (forall i, rsum n (fun j => dl k j * G j i + x j * 0) = G k i) as E1. { intros i. rewrite <- (rsum_dl n k (fun j => G j i) Hk). apply rsum_ext. intros; ring. }
    assert (forall i, rsum n (fun j => dl k j * G j i * tau j i + x j * 0 * tau j i + x j * G j i * 0) = G k i * tau k i) as E2. { intros i. rewrite <- (rsum_dl n k (fun j => G j i * tau j i) Hk). apply rsum_ext. intros; ring. }
    change (fun j i => G j i) with G. change (fun j i => tau j i) with tau.
    unfold Sg. rewrite <- (rsum_dl n k (fun i => SB x G tau i / SA x G i) Hk), <- rsum_plus. apply rsum_ext. intros i Hi. rewrite E1, E2. pose proof (HA i Hi). chR. field. auto.
Qed.
Definition Shess (x : nat -> R) (G tau : nat -> nat -> R) (i j : nat) : R :=
  (G j i * tau j i - SB x G tau i * G j i / SA x G i) / SA x G i + (G i j * (tau i j - SB x G tau j / SA x G j)) / SA x G j
  - rsum n (fun k => x k / SA x G k ^ 2 * G i k * G j k * (tau i k + tau j k - 2 * (SB x G tau k / SA x G k))).
Lemma Sg_partial x G tau i j : (i < n)%nat -> (j < n)%nat -> (forall i, (i < n)%nat -> SA x G i <> 0) -> partial (fun y => Sg y G tau i) x j (Shess x G tau i j).
Proof.
  intros Hi Hj HA. unfold partial. eapply is_derive_eq.
  - apply (Sg_curve (fun m t => upd x j t m) (fun j i _ => G j i) (fun j i _ => tau j i) (x j) (dl j) (fun _ _ => 0) (fun _ _ => 0)); auto.
    + intros; apply upd_derive. + intros. apply (is_derive_const (G i0 j0)). + intros. apply (is_derive_const (tau i0 j0)).
    + intros m Hm. rewrite (functional_extensionality (fun m => upd x j (x j) m) x). now apply HA. intros q; now rewrite upd_id.
  - unfold dSA, dSB. assert ((fun m => upd x j (x j) m) = x) as E by (apply functional_extensionality; intros q; now rewrite upd_id). rewrite E, upd_id.
    assert (forall i, rsum n (fun m => dl j m * G m i + x m * 0) = G j i) as E1. { intros q. rewrite <- (rsum_dl n j (fun m => G m q) Hj). apply rsum_ext. intros; ring. }
    assert (forall i, rsum n (fun m => dl j m * G m i * tau m i + x m * 0 * tau m i + x m * G m i * 0) = G j i * tau j i) as E2. { intros q. rewrite <- (rsum_dl n j (fun m => G m q * tau m q) Hj). apply rsum_ext. intros; ring. }
    change (fun j i => G j i) with G. change (fun j i => tau j i) with tau. rewrite E1, E2.
    unfold Shess. match goal with |- ?a + ?s1 = ?a + ?c - ?s2 => assert (s1 = c - s2) as ->; [|chR; ring] end.
    rewrite <- (rsum_dl n j (fun m => G i m * (tau i m - SB x G tau m / SA x G m) / SA x G m) Hj), <- rsum_minus. apply rsum_ext. intros m Hm. rewrite E1, E2. pose proof (HA m Hm). chR. field. auto.
Qed.
Lemma near_SA x G : (forall i, (i < n)%nat -> SA x G i <> 0) -> near n x (fun y => forall i, (i < n)%nat -> SA y G i <> 0).
Proof. intros H. apply near_all. intros i Hi. apply near_lin. now apply H. Qed.
(* homogeneity and the sum rule *)
Lemma SA_scal c x G i : SA (fun j => x j * c) G i = SA x G i * c.
Proof. unfold SA. rewrite <- rsum_scal_r. apply rsum_ext; intros; ring. Qed.
Lemma SB_scal c x G tau i : SB (fun j => x j * c) G tau i = SB x G tau i * c.
Proof. unfold SB. rewrite <- rsum_scal_r. apply rsum_ext; intros; ring. Qed.
Lemma SE_scal c x G tau : c <> 0 -> (forall i, (i < n)%nat -> SA x G i <> 0) -> SE (fun j => x j * c) G tau = SE x G tau * c.
Proof. intros Hc HA. unfold SE. rewrite <- rsum_scal_r. apply rsum_ext; intros. rewrite SA_scal, SB_scal. field. auto. Qed.
Lemma Sg_scal c x G tau k : c <> 0 -> (k < n)%nat -> (forall i, (i < n)%nat -> SA x G i <> 0) -> Sg (fun j => x j * c) G tau k = Sg x G tau k.
Proof. intros Hc Hk HA. unfold Sg. rewrite SA_scal, SB_scal. f_equal. { field. auto. } apply rsum_ext; intros. rewrite SA_scal, SB_scal. field. auto. Qed.
Lemma Sg_sum x G tau : (forall i, (i < n)%nat -> SA x G i <> 0) -> rsum n (fun k => x k * Sg x G tau k) = SE x G tau.
Proof.
  intros HA. unfold Sg. rewrite (rsum_ext n _ (fun k => x k * (SB x G tau k / SA x G k) + rsum n (fun i => x k * (x i / SA x G i * G k i * (tau k i - SB x G tau i / SA x G i))))). 2:{ intros. now rewrite rsum_scal_l, <- Rmult_plus_distr_l. }
  rewrite rsum_plus, rsum_swap. fold (SE x G tau). match goal with |- _ + ?s = _ => assert (s = 0) as ->; [|ring] end. apply rsum_eq_0. intros i Hi.
  rewrite (rsum_ext n _ (fun k => x i / SA x G i * (x k * G k i * tau k i) - x i / SA x G i * (SB x G tau i / SA x G i) * (x k * G k i))). 2:{ intros; ring. }
  rewrite rsum_minus, !rsum_scal_l. fold (SA x G i). fold (SB x G tau i). field. auto.
Qed.
End Sums.

(* m[i][j] = f(m[i][j]) for every entry *)
Lemma loop_updm_self {A} n (f : nat -> nat -> A -> A) o k l : (k < n)%nat -> (l < n)%nat ->
  loop n (fun i o => loop n (fun j o' => updm o' i j (f i j (o' i j))) o) o k l = f k l (o k l).
Proof.
  assert (In : forall m i o k l, loop m (fun j o => updm o i j (f i j (o i j))) o k l = if ((k =? i) && (l <? m))%nat%bool then f k l (o k l) else o k l).
  { clear. intros m i o k l. revert k l. induction m; intros; [simpl; rewrite Bool.andb_false_r; auto|].
    cbn [loop]. unfold updm at 1. rewrite !IHm.
    destruct (Nat.eqb_spec k i), (Nat.eqb_spec l m), (Nat.ltb_spec l m), (Nat.ltb_spec l (S m)), (Nat.ltb_spec m m), (Nat.eqb_spec i i); cbn [andb]; subst; try lia; auto. }
  assert (In2 : forall p m o k l, loop p (fun i o => loop m (fun j o' => updm o' i j (f i j (o' i j))) o) o k l = if ((k <? p) && (l <? m))%nat%bool then f k l (o k l) else o k l).
  { clear -In. intros p m o k l. induction p; [auto|]. cbn [loop]. rewrite In, IHp.
    destruct (Nat.eqb_spec k p), (Nat.ltb_spec k p), (Nat.ltb_spec k (S p)), (Nat.ltb_spec l m); cbn [andb]; subst; try lia; auto. }
  intros. rewrite In2, !ltb_lt' by auto. reflexivity.
Qed.

Lemma loop_fill {A} n (st : nat -> (nat -> A) -> nat -> A) (F : nat -> A) o k : (k < n)%nat -> (forall i o, (i < n)%nat -> st i o = upd o i (F i)) -> loop n st o k = F k.
Proof. intros Hk H. rewrite (loop_ext n st (fun i o => upd o i (F i)) o) by auto. now apply loop_upd_lt. Qed.

(* entries of lists and matrices filled by loops, and accumulators *)
Ltac entries :=
  cbv beta zeta;
  repeat match goal with
  | |- context [loop ?n (fun x_ o => loop ?n (fun y_ o' => updm o' x_ y_ (@?f x_ y_)) o) ?w ?a ?b] =>
      rewrite (loop_updm_lt n f w a b) by auto; cbv beta
  | |- context [loop ?n (fun x_ o => upd o x_ (@?f x_)) ?w ?a] => rewrite (loop_upd_lt n f w a) by auto; cbv beta
  | |- context [loop ?n (fun x_ o => o + @?f x_) ?w] => rewrite (loop_rsum n f w); cbv beta
  | |- context [loop ?n (fun x_ o => o - @?f x_) ?w] => rewrite (loop_rsub n f w); cbv beta
  end.
