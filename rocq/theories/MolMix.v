(* Mixing rules as functions of the amounts: they can be differentiated three times, and the lists of composition derivatives
   of C16 are their partial derivatives. *)
From Coq Require Import Reals Lra Lia Arith FunctionalExtensionality.
From Coquelicot Require Import Coquelicot.
From Verif Require Import Base BaseFacts Spec_mix Spec_eosvt MolDeriv.
Open Scope R_scope.

Lemma more_upd n i s : more n i s = upd n i (n i + s).
Proof. apply functional_extensionality; intro k. unfold more, upd. destruct (Nat.eqb_spec k i); subst; auto. Qed.
Lemma partial_has f x i v : partial f x i v -> has_Dn f i x v.
Proof.
  intros H. unfold has_Dn. apply is_derive_ext with (fun s => f (upd x i (x i + s))). { intros t. now rewrite more_upd. }
  apply is_derive_eq with (1 * v); [|ring]. apply (is_derive_comp (fun t => f (upd x i t)) (fun s => x i + s) 0).
  - rewrite Rplus_0_r. exact H.
  - auto_derive; auto.
Qed.
Lemma partial_fun_eqn N f i g : partial_fun N f i g -> eqn N (Dn f i) g.
Proof. intros H n P. apply has_Dn_eq, partial_has, H. lra. Qed.

Lemma cd_derivs3 N f zs dz d2z dn d2n d3n : rsum N zs = 1 -> composition_derivatives N f zs dz d2z dn d2n d3n ->
  diff3 N (fun ns => f (fractions N ns)) -> derivs3 N (fun ns => f (fractions N ns)) zs dn d2n d3n.
Proof.
  intros E H D. assert (P : 0 < rsum N zs) by lra. split; auto. splits.
  - intros i Hi. destruct (H i i i Hi Hi Hi) as (_ & _ & H1 & _). now apply has_Dn_eq, partial_has.
  - intros i j Hi Hj. destruct (H i j j Hi Hj Hj) as (_ & _ & _ & (g & H1 & H2) & _).
    apply has_Dn_eq. apply (has_Dn_cong N _ g); auto. now apply partial_fun_eqn. now apply partial_has.
  - intros i j k Hi Hj Hk. destruct (H i j k Hi Hj Hk) as (_ & _ & _ & _ & (g & h & H1 & H2 & H3)).
    apply has_Dn_eq. apply (has_Dn_cong N _ h); auto; [|now apply partial_has].
    intros m Pm. apply has_Dn_eq. apply (has_Dn_cong N _ g); auto. now apply partial_fun_eqn. apply partial_has, H2. lra.
Qed.
Lemma derivs32 N f zs d1 d2 d3 : derivs3 N f zs d1 d2 d3 -> derivs2 N f zs d1 d2.
Proof. intros (H & H1 & H2 & _). split; [now apply diff32|auto]. Qed.
Lemma derivs21 N f zs d1 d2 : derivs2 N f zs d1 d2 -> derivs1 N f zs d1.
Proof. intros (H & H1 & _). split; auto. now apply diff21. Qed.

Section Mixing.
Variable N : nat.
Lemma coord_d k i n : has_Dn (fun n => n k) i n (if Nat.eqb k i then 1 else 0).
Proof. unfold has_Dn, more. destruct (Nat.eqb k i). auto_derive; auto. apply (is_derive_const (K := R_AbsRing) (V := R_NormedModule) (n k)). Qed.
Lemma coord_diff3 k : diff3 N (fun n => n k).
Proof.
  assert (E : forall i, Dn (fun n => n k) i = fun _ => if Nat.eqb k i then 1 else 0) by (intros i; apply functional_extensionality; intro n; apply has_Dn_eq, coord_d).
  split. { intros n i P Hi. eexists. apply (coord_d k i n). } intros i Hi. rewrite E. apply diff2_const.
Qed.
Lemma fraction_diff3 k : diff3 N (fun n => fractions N n k).
Proof.
  apply diff3_cong with (fmul (fun n => n k) (fun n => 1 / rsum N n ^ 1)).
  - intros n P. unfold fmul, fractions. rewrite pow_1. field. lra.
  - apply diff3_mul. apply coord_diff3. apply diff3_vol.
Qed.
Lemma sum_diff3 m (f : nat -> (nat -> R) -> R) : (forall k, (k < m)%nat -> diff3 N (f k)) -> diff3 N (fun n => rsum m (fun k => f k n)).
Proof.
  induction m; intros H; simpl. apply diff3_const.
  apply (diff3_add N (fun n => rsum m (fun k => f k n)) (f m)). apply IHm. auto. auto.
Qed.
Lemma lin_diff3 bs : diff3 N (fun n => lin_mix N (fractions N n) bs).
Proof.
  apply sum_diff3. intros k Hk. apply (diff3_mul N (fun n => fractions N n k) (fun _ => bs k)). apply fraction_diff3. apply diff3_const.
Qed.
Lemma quad_diff3 M : diff3 N (fun n => quad_mix N (fractions N n) M).
Proof.
  unfold quad_mix. apply (sum_diff3 N (fun i n => rsum N (fun j => fractions N n i * fractions N n j * M i j))). intros i Hi.
  apply (sum_diff3 N (fun j n => fractions N n i * fractions N n j * M i j)). intros j Hj.
  apply (diff3_mul N (fun n => fractions N n i * fractions N n j) (fun _ => M i j)); [|apply diff3_const].
  apply (diff3_mul N (fun n => fractions N n i) (fun n => fractions N n j)); apply fraction_diff3.
Qed.
End Mixing.
