(* Rules for partial derivatives, used by the activity coefficient models. *)
From Coq Require Import Reals Lra Lia Arith FunctionalExtensionality.
From Coquelicot Require Import Coquelicot.
From Verif Require Import Base BaseFacts Spec_mix Spec_activity MixFacts MixDeriv LnphiFacts NrtlFacts.
Open Scope R_scope.

Lemma upd_self (x : nat -> R) k : upd x k (x k) = x.
Proof. apply functional_extensionality. intros j. now rewrite upd_id. Qed.
Lemma partial_val f x k v w : partial f x k v -> v = w -> partial f x k w.
Proof. now intros H <-. Qed.
Lemma partial_coord (x : nat -> R) k i : partial (fun y => y i) x k (dl k i).
Proof. apply upd_derive. Qed.
Lemma partial_sum n (F : nat -> (nat -> R) -> R) x k v : (forall i, (i < n)%nat -> partial (F i) x k (v i)) -> partial (fun y => rsum n (fun i => F i y)) x k (rsum n v).
Proof. intros H. unfold partial. apply (is_derive_rsum n (fun i t => F i (upd x k t))). exact H. Qed.
Lemma partial_lin n x k c : (k < n)%nat -> partial (fun y => rsum n (fun j => y j * c j)) x k (c k).
Proof.
  intros Hk. apply (partial_val _ _ _ (rsum n (fun j => dl k j * c j + x j * 0))).
  - apply (partial_sum n (fun j y => y j * c j)). intros j Hj. apply (partial_mult (fun y => y j) (fun _ => c j)). apply partial_coord. apply partial_const.
  - rewrite <- (rsum_dl n k c Hk). apply rsum_ext; intros; ring.
Qed.
(* outer function *)
Lemma partial_comp (f : (nat -> R) -> R) (g : R -> R) x k u v : partial f x k u -> is_derive g (f x) v -> partial (fun y => g (f y)) x k (v * u).
Proof.
  unfold partial. intros Hf Hg. eapply is_derive_eq. apply (is_derive_comp g (fun t => f (upd x k t)) (x k)). 2: exact Hf. rewrite upd_self. exact Hg. chR. unfold scal; cbn; unfold mult; cbn. ring.
Qed.
Lemma partial_ln f x k u : 0 < f x -> partial f x k u -> partial (fun y => ln (f y)) x k (u / f x).
Proof. intros Hp Hf. eapply partial_val. apply partial_comp. exact Hf. apply (is_derive_Reals ln). apply derivable_pt_lim_ln. exact Hp. unfold Rdiv. ring. Qed.
Lemma partial_inv f x k u : f x <> 0 -> partial f x k u -> partial (fun y => / f y) x k (- u / f x ^ 2).
Proof. intros Hp Hf. eapply partial_val. apply (partial_comp f (fun t => / t)). exact Hf. apply is_derive_inv. apply (is_derive_id (f x)). exact Hp. cbn. field. auto. Qed.
Lemma partial_div f g x k u v : g x <> 0 -> partial f x k u -> partial g x k v -> partial (fun y => f y / g y) x k ((u * g x - f x * v) / g x ^ 2).
Proof. intros Hp Hf Hg. eapply partial_val. apply (partial_mult f (fun y => / g y)). exact Hf. apply partial_inv. exact Hp. exact Hg. field. auto. Qed.
Lemma partial_exp f x k u : partial f x k u -> partial (fun y => exp (f y)) x k (exp (f x) * u).
Proof. intros Hf. apply partial_comp. exact Hf. apply is_derive_exp. Qed.
Lemma partial_minus f g x k u v : partial f x k u -> partial g x k v -> partial (fun y => f y - g y) x k (u - v).
Proof. intros Hf Hg. unfold partial in *. apply (is_derive_minus (fun t => f (upd x k t)) (fun t => g (upd x k t))); auto. Qed.
Lemma partial_opp f x k u : partial f x k u -> partial (fun y => - f y) x k (- u).
Proof. intros Hf. unfold partial in *. apply (is_derive_opp (fun t => f (upd x k t))); auto. Qed.

Lemma near_pos n (x c : nat -> R) : 0 < rsum n (fun j => x j * c j) -> near n x (fun y => 0 < rsum n (fun j => y j * c j)).
Proof.
  intros H. set (s := rsum n (fun j => x j * c j)) in *. set (K := rsum n (fun j => Rabs (c j)) + 1).
  assert (0 < K) as HK. { unfold K. assert (0 <= rsum n (fun j => Rabs (c j))); [|lra]. apply rsum_nonneg. intros; apply Rabs_pos. }
  exists (s / (2 * K)). split. { apply Rdiv_lt_0_compat; lra. }
  intros y Hy.
  assert (Rabs (rsum n (fun j => y j * c j) - s) <= rsum n (fun j => s / (2 * K) * Rabs (c j))) as B.
  { unfold s at 1. rewrite <- rsum_minus. revert Hy. generalize (s / (2 * K)). clear. intros e Hy. induction n; simpl. { rewrite Rabs_R0; lra. }
    eapply Rle_trans. apply Rabs_triang. apply Rplus_le_compat. apply IHn; intros; apply Hy; lia.
    replace (y n * c n - x n * c n) with ((y n - x n) * c n) by ring. rewrite Rabs_mult. apply Rmult_le_compat_r. apply Rabs_pos. left; apply Hy; lia. }
  rewrite rsum_scal_l in B.
  assert (s / (2 * K) * rsum n (fun j => Rabs (c j)) < s).
  { apply Rle_lt_trans with (s / (2 * K) * K). { apply Rmult_le_compat_l. left; apply Rdiv_lt_0_compat; lra. unfold K; lra. }
    replace (s / (2 * K) * K) with (s / 2) by (field; lra). lra. }
  apply Rabs_le_between in B. lra.
Qed.
Lemma near_sum_pos n x : 0 < rsum n x -> near n x (fun y => 0 < rsum n y).
Proof. intros H. eapply near_impl. 2: apply (near_pos n x (fun _ => 1)). intros y Hy. cbv beta in Hy. rewrite (rsum_ext n (fun j => y j * 1) y) in Hy by (intros; ring). exact Hy. rewrite (rsum_ext n _ x) by (intros; ring). exact H. Qed.

(* a function given by a formula around x *)
Lemma partial_near n f g x k v : near n x (fun y => f y = g y) -> (k < n)%nat -> partial g x k v -> partial f x k v.
Proof.
  intros (eps & He & K) Hi P. unfold partial in *. eapply is_derive_ext_loc. 2: exact P.
  exists (mkposreal eps He). intros t Ht. symmetry. apply K. intros j Hj. unfold upd. destruct (Nat.eqb_spec j k) as [->|]. exact Ht. unfold Rminus. rewrite Rplus_opp_r, Rabs_R0. auto.
Qed.
(* near points of near points *)
Lemma near_near n x P : near n x P -> near n x (fun y => near n y P).
Proof.
  intros (e & He & K). exists (e / 2). split. lra. intros y Hy. exists (e / 2). split. lra. intros z Hz. apply K. intros i Hi. replace (z i - x i) with ((z i - y i) + (y i - x i)) by ring.
  eapply Rle_lt_trans. apply Rabs_triang. pose proof (Hy i Hi). pose proof (Hz i Hi). lra.
Qed.
(* the gradient of the total excess Gibbs energy of a model whose formula is homogeneous of degree one *)
Lemma total_near n F H x i v : amounts n x -> (i < n)%nat -> near n x (fun y => F (fractions n y) = H y / rsum n y) -> partial H x i v -> partial (total_GE n F) x i v.
Proof.
  intros [_ Hx] Hi HF HP. apply (partial_near n _ H); auto. eapply near_impl. 2: apply (near_and _ _ _ _ HF (near_sum_pos n x Hx)).
  intros y [H1 H2]. unfold total_GE. rewrite H1. field. lra.
Qed.

Lemma loop_upd_self {A} n (f : nat -> A -> A) o k : (k < n)%nat -> loop n (fun i o => upd o i (f i (o i))) o k = f k (o k).
Proof.
  intros Hk. assert (forall m k, loop m (fun i o => upd o i (f i (o i))) o k = if (k <? m)%nat then f k (o k) else o k) as H.
  { clear. induction m; intros q. reflexivity. cbn [loop]. unfold upd at 1. rewrite !IHm. destruct (Nat.eqb_spec q m), (Nat.ltb_spec q m), (Nat.ltb_spec q (S m)), (Nat.ltb_spec m m); subst; try lia; auto. }
  rewrite H. now rewrite ltb_lt'.
Qed.
Lemma loop_acc2 n (f1 f2 : nat -> R) u v : loop n (fun j (st : (R * R)%type) => let '(s1, s2) := st in (s1 + f1 j, s2 + f2 j)) (u, v) = (u + rsum n f1, v + rsum n f2).
Proof. induction n. cbn [loop rsum]. now rewrite !Rplus_0_r. cbn [loop rsum]. rewrite IHn. now rewrite !Rplus_assoc. Qed.
(* name the function differentiated in H *)
Ltac asf s H := match type of H with is_derive ?f ?T ?l => pose (s := (f : R -> R)); change (is_derive s T l) in H end.
(* results of the routines for binary mixtures: two entries, or two rows, per point *)
Definition pair2 (u v : R) : nat -> R := fun k => match k with O => u | _ => v end.
Lemma loop_pairs (f g : nat -> R) n o k : (k < n)%nat -> loop n (fun i o => upd (upd o (i * 2)%nat (f i)) (i * 2 + 1)%nat (g i)) o (k * 2)%nat = f k /\ loop n (fun i o => upd (upd o (i * 2)%nat (f i)) (i * 2 + 1)%nat (g i)) o (k * 2 + 1)%nat = g k.
Proof.
  induction n; intros H. lia. cbn [loop]. unfold upd at 1 2 5 6. destruct (Nat.eq_dec k n) as [->|Hn].
  - rewrite !Nat.eqb_refl. destruct (Nat.eqb_spec (n * 2) (n * 2 + 1)); try lia. auto.
  - destruct (Nat.eqb_spec (k * 2) (n * 2 + 1)), (Nat.eqb_spec (k * 2) (n * 2)), (Nat.eqb_spec (k * 2 + 1) (n * 2 + 1)), (Nat.eqb_spec (k * 2 + 1) (n * 2)); try lia. apply IHn. lia.
Qed.
Lemma open_loc m t (P : R -> Prop) : m < t -> (forall u, m < u -> P u) -> locally t P.
Proof. intros Hm H. apply (locally_interval P t (Finite m) p_infty). exact Hm. exact I. intros u Hu _. apply H. exact Hu. Qed.
Lemma jac2 (f0 f1 g0 g1 : nat -> R) n o k : (k < n)%nat ->
  let J := loop n (fun i o => updm (updm (updm (updm o (i * 2)%nat 0%nat (f0 i)) (i * 2)%nat 1%nat (f1 i)) (i * 2 + 1)%nat 0%nat (g0 i)) (i * 2 + 1)%nat 1%nat (g1 i)) o in
  J (k * 2)%nat 0%nat = f0 k /\ J (k * 2)%nat 1%nat = f1 k /\ J (k * 2 + 1)%nat 0%nat = g0 k /\ J (k * 2 + 1)%nat 1%nat = g1 k.
Proof.
  intros H. induction n. lia. cbn [loop]. destruct (Nat.eq_dec k n) as [->|Hn].
  - unfold updm. rewrite !Nat.eqb_refl. destruct (Nat.eqb_spec (n * 2) (n * 2 + 1)), (Nat.eqb_spec (n * 2 + 1) (n * 2)); try lia. cbn. auto.
  - destruct IHn as (E1 & E2 & E3 & E4); try lia. set (l := loop n _ o) in *. clearbody l. unfold updm.
    destruct (Nat.eqb_spec (k * 2) (n * 2 + 1)), (Nat.eqb_spec (k * 2) (n * 2)), (Nat.eqb_spec (k * 2 + 1) (n * 2 + 1)), (Nat.eqb_spec (k * 2 + 1) (n * 2)); try lia. cbn. auto.
Qed.
