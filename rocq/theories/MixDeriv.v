(* Calculus of composition derivatives: linear mixing rules, products of them, quadratic mixing rules. *)
From Coq Require Import Reals Lra Lia Arith FunctionalExtensionality.
From Coquelicot Require Import Coquelicot.
From Verif Require Import Base BaseFacts Spec_mix MixFacts.
Open Scope R_scope.

(* ---- loops that fill matrices ---- *)
Lemma loop_updm {A} n m (f : nat -> nat -> A) o k l :
  loop n (fun i o => loop m (fun j o => updm o i j (f i j)) o) o k l = if ((k <? n) && (l <? m))%bool then f k l else o k l.
Proof.
  assert (In : forall i o k l, loop m (fun j o => updm o i j (f i j)) o k l = if ((k =? i) && (l <? m))%bool then f k l else o k l).
  { clear. intros i o k l. induction m; [simpl; rewrite Bool.andb_false_r; auto|].
    cbn [loop]. unfold updm at 1. rewrite IHm.
    destruct (Nat.eqb_spec k i), (Nat.eqb_spec l m), (Nat.ltb_spec l m), (Nat.ltb_spec l (S m)); cbn [andb]; subst; try lia; auto. }
  induction n; [auto|]. cbn [loop]. rewrite In, IHn.
  destruct (Nat.eqb_spec k n), (Nat.ltb_spec k n), (Nat.ltb_spec k (S n)), (Nat.ltb_spec l m); cbn [andb]; subst; try lia; auto.
Qed.
Lemma loop_updm_lt {A} n (f : nat -> nat -> A) o k l : (k < n)%nat -> (l < n)%nat ->
  loop n (fun i o => loop n (fun j o => updm o i j (f i j)) o) o k l = f k l.
Proof. intros. rewrite loop_updm, !ltb_lt' by auto. reflexivity. Qed.
Lemma loop_updt_lt {A} n (f : nat -> nat -> nat -> A) o i j k : (i < n)%nat -> (j < n)%nat -> (k < n)%nat ->
  loop n (fun i o => loop n (fun j o => loop n (fun k o => updt o i j k (f i j k)) o) o) o i j k = f i j k.
Proof.
  assert (In : forall m i j o a b c, loop m (fun k o => updt o i j k (f i j k)) o a b c = if ((a =? i) && ((b =? j) && (c <? m)))%bool then f a b c else o a b c).
  { clear. intros m i j o a b c. induction m; [simpl; rewrite !Bool.andb_false_r; auto|].
    cbn [loop]. unfold updt at 1. rewrite IHm.
    destruct (Nat.eqb_spec a i), (Nat.eqb_spec b j), (Nat.eqb_spec c m), (Nat.ltb_spec c m), (Nat.ltb_spec c (S m)); cbn [andb]; subst; try lia; auto. }
  assert (In2 : forall p m i o a b c, loop p (fun j o => loop m (fun k o => updt o i j k (f i j k)) o) o a b c = if ((a =? i) && ((b <? p) && (c <? m)))%bool then f a b c else o a b c).
  { intros p m i0 o0 a b c. induction p; [simpl; rewrite !Bool.andb_false_r; auto|].
    cbn [loop]. rewrite In, IHp.
    destruct (Nat.eqb_spec a i0), (Nat.eqb_spec b p), (Nat.ltb_spec b p), (Nat.ltb_spec b (S p)), (Nat.ltb_spec c m); cbn [andb]; subst; try lia; auto. }
  assert (In3 : forall q p m o a b c, loop q (fun i o => loop p (fun j o => loop m (fun k o => updt o i j k (f i j k)) o) o) o a b c = if ((a <? q) && ((b <? p) && (c <? m)))%bool then f a b c else o a b c).
  { intros q p m o0 a b c. induction q; [auto|].
    cbn [loop]. rewrite In2, IHq.
    destruct (Nat.eqb_spec a q), (Nat.ltb_spec a q), (Nat.ltb_spec a (S q)), (Nat.ltb_spec b p), (Nat.ltb_spec c m); cbn [andb]; subst; try lia; auto. }
  intros. rewrite In3, !ltb_lt' by auto. reflexivity.
Qed.
(* lower triangle computed, mirrored *)
Lemma loop_updm_mirror {A} n (f : nat -> nat -> A) o k l : (k < n)%nat -> (l < n)%nat ->
  loop n (fun i o => loop (i + 1) (fun j o => updm (updm o j i (f i j)) i j (f i j)) o) o k l = f (Nat.max k l) (Nat.min k l).
Proof.
  assert (In : forall m i o k l, (m <= i + 1)%nat -> loop m (fun j o => updm (updm o j i (f i j)) i j (f i j)) o k l =
     if ((k =? i) && (l <? m))%bool then f i l else if ((l =? i) && (k <? m))%bool then f i k else o k l).
  { clear. intros m i o k l. induction m; intros Hm; [simpl; rewrite !Bool.andb_false_r; auto|].
    cbn [loop]. unfold updm at 1 2. rewrite IHm by lia.
    destruct (Nat.eqb_spec k i), (Nat.eqb_spec l i), (Nat.eqb_spec l m), (Nat.eqb_spec k m), (Nat.ltb_spec l m), (Nat.ltb_spec l (S m)), (Nat.ltb_spec k m), (Nat.ltb_spec k (S m)); cbn [andb]; subst; try lia; auto. }
  assert (In2 : forall m, loop m (fun i o => loop (i + 1) (fun j o => updm (updm o j i (f i j)) i j (f i j)) o) o k l
     = if (Nat.max k l <? m)%nat then f (Nat.max k l) (Nat.min k l) else o k l).
  { induction m; auto. cbn [loop]. rewrite In, IHm by lia.
    destruct (Nat.eqb_spec k m), (Nat.eqb_spec l m), (Nat.ltb_spec (Nat.max k l) m), (Nat.ltb_spec (Nat.max k l) (S m)), (Nat.ltb_spec l (m + 1)), (Nat.ltb_spec k (m + 1)); cbn [andb]; subst; try lia; auto;
    try (rewrite Nat.max_l, Nat.min_r by lia; reflexivity); try (rewrite Nat.max_r, Nat.min_l by lia; reflexivity). }
  intros. rewrite In2, ltb_lt' by lia. reflexivity.
Qed.

(* ---- one component changed ---- *)
Lemma upd_id (x : nat -> R) i : upd x i (x i) = x.
Proof. apply functional_extensionality. intros k. unfold upd. destruct (Nat.eqb_spec k i); subst; auto. Qed.
Lemma rsum_upd n x i t (f : nat -> R) : (i < n)%nat -> rsum n (fun k => upd x i t k * f k) = rsum n (fun k => x k * f k) + (t - x i) * f i.
Proof.
  intros Hi. rewrite (rsum_ext n _ (fun k => x k * f k + (if (k =? i)%nat then (t - x i) * f i else 0))).
  - rewrite rsum_plus. f_equal. rewrite (rsum_single n i _ Hi); [rewrite Nat.eqb_refl; auto|intros k _ Hk; rewrite eqb_ne' by auto; auto].
  - intros k Hk. unfold upd. destruct (Nat.eqb_spec k i); subst; ring.
Qed.
Lemma rsum_upd1 n x i t : (i < n)%nat -> rsum n (upd x i t) = rsum n x + (t - x i).
Proof.
  intros Hi. rewrite (rsum_ext n _ (fun k => upd x i t k * 1)) by (intros; ring). rewrite rsum_upd by auto.
  rewrite (rsum_ext n (fun k => x k * 1) x) by (intros; ring). ring.
Qed.

(* ---- rules ---- *)
Lemma partial_ext f g x i v : (forall y, f y = g y) -> partial f x i v -> partial g x i v.
Proof. intros E H. unfold partial in *. eapply is_derive_ext; [|exact H]. intros; apply E. Qed.
Lemma partial_eq f x i v w : v = w -> partial f x i v -> partial f x i w.
Proof. intros ->; auto. Qed.
Lemma partial_plus f g x i u v : partial f x i u -> partial g x i v -> partial (fun y => f y + g y) x i (u + v).
Proof. intros. unfold partial in *. apply (is_derive_plus (K := R_AbsRing) (V := R_NormedModule)); auto. Qed.
Lemma partial_scal c f x i u : partial f x i u -> partial (fun y => c * f y) x i (c * u).
Proof. intros. unfold partial in *. apply (is_derive_scal (fun t => f (upd x i t)) (x i) c u); auto. Qed.
Lemma partial_const c x i : partial (fun _ => c) x i 0.
Proof. unfold partial. cbv beta. auto_derive; auto. Qed.
Lemma partial_mult f g x i u v : partial f x i u -> partial g x i v -> partial (fun y => f y * g y) x i (u * g x + f x * v).
Proof.
  intros F G. unfold partial in *.
  pose proof (is_derive_mult (fun t => f (upd x i t)) (fun t => g (upd x i t)) (x i) u v F G ltac:(intros; apply Rmult_comm)) as H.
  cbv beta in H. rewrite upd_id in H. exact H.
Qed.

(* ---- linear mixing rule in mole numbers ---- *)
Section Lin.
Variables (n : nat) (b : nat -> R).
Definition S_ (x : nat -> R) := rsum n x.
Definition L (x : nat -> R) := lin_mix n (fractions n x) b.
Lemma L_eq x : L x = rsum n (fun k => x k * b k) / rsum n x.
Proof. unfold L, lin_mix, fractions. rewrite <- rsum_div_r. apply rsum_ext. intros. unfold Rdiv. ring. Qed.
Lemma partial_S x i : (i < n)%nat -> partial S_ x i 1.
Proof.
  intros Hi. unfold partial, S_. apply (is_derive_ext (fun t => rsum n x + (t - x i))); [intros; rewrite rsum_upd1; auto|].
  auto_derive; auto; ring.
Qed.
Lemma partial_invS m x i : (i < n)%nat -> S_ x <> 0 -> partial (fun y => / S_ y ^ m) x i (- INR m * / S_ x ^ (S m)).
Proof.
  intros Hi Hs. unfold partial, S_ in *. apply (is_derive_ext (fun t => / (rsum n x + (t - x i)) ^ m)); [intros; rewrite rsum_upd1; auto|].
  auto_derive; [apply pow_nonzero; replace (rsum n x + (x i + - x i)) with (rsum n x) by ring; auto|].
  replace (rsum n x + (x i + - x i)) with (rsum n x) by ring.
  assert (rsum n x ^ m <> 0) by (apply pow_nonzero; auto).
  destruct m as [|m]; [simpl; field; auto|].
  replace (Init.Nat.pred (S m)) with m by reflexivity. cbn [pow]. cbn [pow] in H. assert (rsum n x ^ m <> 0) by (apply pow_nonzero; auto). field; auto.
Qed.
Lemma partial_L x i : (i < n)%nat -> S_ x <> 0 -> partial L x i ((b i - L x) * / S_ x).
Proof.
  intros Hi Hs. unfold partial. apply (is_derive_ext (fun t => (rsum n (fun k => x k * b k) + (t - x i) * b i) / (rsum n x + (t - x i)))).
  - intros t. rewrite L_eq, rsum_upd1, rsum_upd by auto. reflexivity.
  - rewrite L_eq. unfold S_ in *. set (A := rsum n (fun k => x k * b k)). set (s := rsum n x) in *.
    auto_derive; [replace (s + (x i + - x i)) with s by ring; auto|].
    replace (s + (x i + - x i)) with s by ring. field; auto.
Qed.
End Lin.

Section Quad.
Variables (n : nat) (a : nat -> nat -> R).
Hypothesis Ha : sym n a.
Definition Q (x : nat -> R) := quad_mix n (fractions n x) a.
Lemma Q_eq x : Q x = rsum n (fun i => x i * rsum n (fun j => x j * a i j)) / (rsum n x) ^ 2.
Proof.
  unfold Q, quad_mix, fractions. rewrite <- rsum_div_r. apply rsum_ext. intros i Hi.
  rewrite <- rsum_scal_l, <- rsum_div_r. apply rsum_ext. intros j Hj. unfold Rdiv. simpl. rewrite Rmult_1_r, Rinv_mult. ring.
Qed.
Lemma num_upd x i t : (i < n)%nat ->
  rsum n (fun k => upd x i t k * rsum n (fun j => upd x i t j * a k j))
  = rsum n (fun k => x k * rsum n (fun j => x j * a k j)) + 2 * (t - x i) * rsum n (fun j => x j * a i j) + (t - x i) ^ 2 * a i i.
Proof.
  intros Hi. rewrite (rsum_ext n _ (fun k => upd x i t k * (rsum n (fun j => x j * a k j) + (t - x i) * a k i))) by (intros; rewrite rsum_upd; auto).
  rewrite (rsum_upd n x i t (fun k => rsum n (fun j => x j * a k j) + (t - x i) * a k i)) by auto.
  rewrite (rsum_ext n _ (fun k => x k * rsum n (fun j => x j * a k j) + (t - x i) * (x k * a i k))) by (intros k Hk; rewrite (Ha k i) by auto; ring).
  rewrite rsum_plus, rsum_scal_l. ring.
Qed.
Lemma partial_Q x i : (i < n)%nat -> S_ n x <> 0 -> partial Q x i (2 * (L n (a i) x - Q x) * / S_ n x).
Proof.
  intros Hi Hs. unfold partial, S_ in *.
  apply (is_derive_ext (fun t => (rsum n (fun k => x k * rsum n (fun j => x j * a k j)) + 2 * (t - x i) * rsum n (fun j => x j * a i j) + (t - x i) ^ 2 * a i i) / (rsum n x + (t - x i)) ^ 2)).
  - intros t. rewrite Q_eq, rsum_upd1, num_upd by auto. reflexivity.
  - rewrite Q_eq, L_eq. set (A := rsum n (fun k => x k * rsum n _)). set (B := rsum n (fun j => x j * a i j)). set (s := rsum n x) in *.
    auto_derive; [replace (s + (x i + - x i)) with s by ring; intros E; apply Hs; nra|].
    replace (s + (x i + - x i)) with s by ring. field; auto.
Qed.
(* in mole fractions *)
Lemma partial_lin_z (b : nat -> R) x i : (i < n)%nat -> partial (fun z => lin_mix n z b) x i (b i).
Proof.
  intros Hi. unfold partial. apply (is_derive_ext (fun t => rsum n (fun k => x k * b k) + (t - x i) * b i)); [intros; unfold lin_mix; rewrite rsum_upd; auto|].
  auto_derive; auto; ring.
Qed.
Lemma quad_mix_row x : quad_mix n x a = rsum n (fun k => x k * rsum n (fun j => x j * a k j)).
Proof. unfold quad_mix. apply rsum_ext. intros i Hi. rewrite <- rsum_scal_l. apply rsum_ext. intros; ring. Qed.
Lemma partial_quad_z x i : (i < n)%nat -> partial (fun z => quad_mix n z a) x i (2 * lin_mix n x (a i)).
Proof.
  intros Hi. unfold partial. eapply is_derive_ext; [intros t; symmetry; rewrite quad_mix_row, num_upd by auto; reflexivity|].
  auto_derive; auto. unfold lin_mix. ring.
Qed.
End Quad.

Section Orders.
Variables (n : nat).
Lemma fractions_one x : rsum n x = 1 -> fractions n x = x.
Proof. intros E. apply functional_extensionality. intros k. unfold fractions. rewrite E. field. Qed.

(* linear *)
Lemma cd_lin b zs : rsum n zs = 1 ->
  composition_derivatives n (fun z => lin_mix n z b) zs b (fun _ _ => 0) (fun i => b i - lin_mix n zs b)
    (fun i j => 2 * lin_mix n zs b - b i - b j) (fun i j k => - 6 * lin_mix n zs b + 2 * (b i + b j + b k)).
Proof.
  intros E i j k Hi Hj Hk.
  assert (S1 : S_ n zs = 1) by exact E. assert (L1 : L n b zs = lin_mix n zs b) by (unfold L; rewrite fractions_one; auto).
  splits.
  - apply partial_lin_z; auto.
  - exists (fun _ => b i). split; [intros; apply partial_lin_z; auto|]. apply partial_const.
  - apply (partial_eq _ _ _ ((b i - L n b zs) * / S_ n zs)); [rewrite S1, L1; field|]. apply partial_L; auto. rewrite S1; lra.
  - exists (fun x => (b i - L n b x) * / S_ n x). split; [intros x Hx; apply partial_L; auto|].
    apply (partial_ext (fun x => (b i + (- 1) * L n b x) * / S_ n x ^ 1)); [intros; rewrite pow_1; ring|].
    eapply partial_eq; [|apply partial_mult; [apply partial_plus; [apply partial_const|apply partial_scal, partial_L; auto]|apply partial_invS; auto]]; rewrite ?S1; try lra.
    rewrite L1. simpl. field.
  - exists (fun x => (b i - L n b x) * / S_ n x), (fun x => (2 * L n b x - b i - b j) * / S_ n x ^ 2). splits.
    + intros x Hx; apply partial_L; auto.
    + intros x Hx. apply (partial_ext (fun x => (b i + (- 1) * L n b x) * / S_ n x ^ 1)); [intros; rewrite pow_1; ring|].
      eapply partial_eq; [|apply partial_mult; [apply partial_plus; [apply partial_const|apply partial_scal, partial_L; auto]|apply partial_invS; auto]]; auto.
      assert (S_ n x <> 0) by auto. simpl. field. auto.
    + apply (partial_ext (fun x => (2 * L n b x + (- b i - b j)) * / S_ n x ^ 2)); [intros; ring|].
      eapply partial_eq; [|apply partial_mult; [apply partial_plus; [apply partial_scal, partial_L; auto|apply partial_const]|apply partial_invS; auto]]; rewrite ?S1; try lra.
      rewrite L1. simpl. field.
Qed.

Lemma cd_ext f g zs dz d2z dn d2n d3n dz' d2z' dn' d2n' d3n' : (forall z, f z = g z) ->
  (forall i j k, (i < n)%nat -> (j < n)%nat -> (k < n)%nat -> dz i = dz' i /\ d2z i j = d2z' i j /\ dn i = dn' i /\ d2n i j = d2n' i j /\ d3n i j k = d3n' i j k) ->
  composition_derivatives n f zs dz d2z dn d2n d3n -> composition_derivatives n g zs dz' d2z' dn' d2n' d3n'.
Proof.
  intros E E2 H i j k Hi Hj Hk. destruct (H i j k Hi Hj Hk) as (A & (g1 & B1 & B2) & C & (h1 & D1 & D2) & (e1 & e2 & E3 & E4 & E5)).
  destruct (E2 i j k Hi Hj Hk) as (<- & <- & <- & <- & <-). splits.
  - eapply partial_ext; eauto.
  - exists g1. split; auto. intros y. eapply partial_ext; [|apply B1]; auto.
  - eapply partial_ext; [|apply C]. intros; cbv beta; auto.
  - exists h1. split; auto. intros x Hx. eapply partial_ext; [|apply D1; auto]. intros; cbv beta; auto.
  - exists e1, e2. splits; auto. intros x Hx. eapply partial_ext; [|apply E3; auto]. intros; cbv beta; auto.
Qed.
Lemma cd_plus f g zs dz d2z dn d2n d3n dz' d2z' dn' d2n' d3n' :
  composition_derivatives n f zs dz d2z dn d2n d3n -> composition_derivatives n g zs dz' d2z' dn' d2n' d3n' ->
  composition_derivatives n (fun z => f z + g z) zs (fun i => dz i + dz' i) (fun i j => d2z i j + d2z' i j)
    (fun i => dn i + dn' i) (fun i j => d2n i j + d2n' i j) (fun i j k => d3n i j k + d3n' i j k).
Proof.
  intros H H' i j k Hi Hj Hk. destruct (H i j k Hi Hj Hk) as (A & (g1 & B1 & B2) & C & (h1 & D1 & D2) & (e1 & e2 & E3 & E4 & E5)).
  destruct (H' i j k Hi Hj Hk) as (A' & (g1' & B1' & B2') & C' & (h1' & D1' & D2') & (e1' & e2' & E3' & E4' & E5')). splits.
  - apply partial_plus; auto.
  - exists (fun z => g1 z + g1' z). split; [intros y|]; apply partial_plus; auto.
  - apply (partial_plus (fun ns => f (fractions n ns)) (fun ns => g (fractions n ns))); auto.
  - exists (fun z => h1 z + h1' z). split; [intros y Hy; apply (partial_plus (fun ns => f (fractions n ns)) (fun ns => g (fractions n ns)))|apply partial_plus]; auto.
  - exists (fun z => e1 z + e1' z), (fun z => e2 z + e2' z). splits; [intros y Hy; apply (partial_plus (fun ns => f (fractions n ns)) (fun ns => g (fractions n ns)))|intros y Hy; apply partial_plus|apply partial_plus]; auto.
Qed.
Lemma cd_scal c f zs dz d2z dn d2n d3n :
  composition_derivatives n f zs dz d2z dn d2n d3n ->
  composition_derivatives n (fun z => c * f z) zs (fun i => c * dz i) (fun i j => c * d2z i j)
    (fun i => c * dn i) (fun i j => c * d2n i j) (fun i j k => c * d3n i j k).
Proof.
  intros H i j k Hi Hj Hk. destruct (H i j k Hi Hj Hk) as (A & (g1 & B1 & B2) & C & (h1 & D1 & D2) & (e1 & e2 & E3 & E4 & E5)). splits.
  - apply partial_scal; auto.
  - exists (fun z => c * g1 z). split; [intros y|]; apply partial_scal; auto.
  - apply (partial_scal c (fun ns => f (fractions n ns))); auto.
  - exists (fun z => c * h1 z). split; [intros y Hy; apply (partial_scal c (fun ns => f (fractions n ns)))|apply partial_scal]; auto.
  - exists (fun z => c * e1 z), (fun z => c * e2 z). splits; [intros y Hy; apply (partial_scal c (fun ns => f (fractions n ns)))|intros y Hy; apply partial_scal|apply partial_scal]; auto.
Qed.

(* derivatives at every mole-number vector *)
Definition l1 (b : nat -> R) i x := (b i + (- 1) * L n b x) * / S_ n x ^ 1.
Definition l2 (b : nat -> R) i j x := (2 * L n b x + (- b i - b j)) * / S_ n x ^ 2.
Definition l3 (b : nat -> R) i j k x := (- 6 * L n b x + 2 * (b i + b j + b k)) * / S_ n x ^ 3.
Lemma p1 b i x : (i < n)%nat -> S_ n x <> 0 -> partial (L n b) x i (l1 b i x).
Proof. intros. eapply partial_eq; [|apply partial_L; auto]. unfold l1. field. auto. Qed.
Lemma p2 b i j x : (j < n)%nat -> S_ n x <> 0 -> partial (l1 b i) x j (l2 b i j x).
Proof.
  intros. unfold l1. eapply partial_eq; [|apply partial_mult; [apply partial_plus; [apply partial_const|apply partial_scal, partial_L; auto]|apply partial_invS; auto]]; auto.
  unfold l2. simpl. field. auto.
Qed.
Lemma p3 b i j k x : (k < n)%nat -> S_ n x <> 0 -> partial (l2 b i j) x k (l3 b i j k x).
Proof.
  intros. unfold l2. eapply partial_eq; [|apply partial_mult; [apply partial_plus; [apply partial_scal, partial_L; auto|apply partial_const]|apply partial_invS; auto]]; auto.
  unfold l3. simpl. field. auto.
Qed.

Lemma cd_prod b c zs : rsum n zs = 1 ->
  let B := lin_mix n zs b in let C := lin_mix n zs c in
  let b1 i := b i - B in let c1 i := c i - C in
  let b2 i j := 2 * B - b i - b j in let c2 i j := 2 * C - c i - c j in
  let b3 i j k := - 6 * B + 2 * (b i + b j + b k) in let c3 i j k := - 6 * C + 2 * (c i + c j + c k) in
  composition_derivatives n (fun z => lin_mix n z b * lin_mix n z c) zs
    (fun i => b i * C + B * c i) (fun i j => b i * c j + b j * c i)
    (fun i => b1 i * C + B * c1 i) (fun i j => b2 i j * C + b1 i * c1 j + b1 j * c1 i + B * c2 i j)
    (fun i j k => b3 i j k * C + b2 i j * c1 k + b2 i k * c1 j + b1 i * c2 j k + b2 j k * c1 i + b1 j * c2 i k + b1 k * c2 i j + B * c3 i j k).
Proof.
  intros E. cbv zeta. intros i j k Hi Hj Hk.
  assert (S1 : S_ n zs = 1) by exact E.
  assert (L1 : forall b, L n b zs = lin_mix n zs b) by (intros; unfold L; rewrite fractions_one; auto).
  assert (Q1 : forall x, rsum n x <> 0 -> partial (fun ns => lin_mix n (fractions n ns) b * lin_mix n (fractions n ns) c) x i (l1 b i x * L n c x + L n b x * l1 c i x)).
  { intros x Hx. apply (partial_mult (L n b) (L n c)); apply p1; auto. }
  assert (Q2 : forall x, rsum n x <> 0 -> partial (fun x => l1 b i x * L n c x + L n b x * l1 c i x) x j (l2 b i j x * L n c x + l1 b i x * l1 c j x + (l1 b j x * l1 c i x + L n b x * l2 c i j x))).
  { intros x Hx. apply partial_plus; apply partial_mult; auto using p1, p2. }
  assert (N0 : rsum n zs <> 0) by (rewrite E; lra).
  splits.
  - apply (partial_mult (fun z => lin_mix n z b) (fun z => lin_mix n z c)); apply partial_lin_z; auto.
  - exists (fun z => b i * lin_mix n z c + lin_mix n z b * c i). split.
    + intros y. apply (partial_mult (fun z => lin_mix n z b) (fun z => lin_mix n z c)); apply partial_lin_z; auto.
    + eapply partial_eq; [|apply partial_plus; [apply partial_scal, partial_lin_z; auto|apply (partial_mult (fun z => lin_mix n z b) (fun _ => c i)); [apply partial_lin_z; auto|apply partial_const]]]. ring.
  - eapply partial_eq; [|apply Q1; auto]. unfold l1. rewrite S1, !L1. field.
  - exists (fun x => l1 b i x * L n c x + L n b x * l1 c i x). split; [intros x Hx; apply Q1; auto|].
    eapply partial_eq; [|apply Q2; auto]. unfold l1, l2. rewrite S1, !L1. field.
  - exists (fun x => l1 b i x * L n c x + L n b x * l1 c i x), (fun x => l2 b i j x * L n c x + l1 b i x * l1 c j x + (l1 b j x * l1 c i x + L n b x * l2 c i j x)). splits.
    + intros x Hx; apply Q1; auto.
    + intros x Hx; apply Q2; auto.
    + eapply partial_eq; [|apply partial_plus; [apply partial_plus; apply partial_mult; [apply p3|apply p1|apply p2|apply p2]; auto|apply partial_plus; apply partial_mult; [apply p2|apply p2|apply p1|apply p3]; auto]].
      unfold l1, l2, l3. rewrite S1, !L1. field.
Qed.

Lemma cd_quad a zs : sym n a -> rsum n zs = 1 ->
  let r i := lin_mix n zs (a i) in let A := quad_mix n zs a in
  composition_derivatives n (fun z => quad_mix n z a) zs
    (fun i => 2 * r i) (fun i j => 2 * a i j) (fun i => 2 * r i - 2 * A)
    (fun i j => 2 * (3 * A + a i j - 2 * (r i + r j)))
    (fun i j k => 4 * (- 6 * A - (a i j + a i k + a j k) + 3 * (r i + r j + r k))).
Proof.
  intros Ha E. cbv zeta. intros i j k Hi Hj Hk.
  assert (S1 : S_ n zs = 1) by exact E.
  assert (L1 : forall b, L n b zs = lin_mix n zs b) by (intros; unfold L; rewrite fractions_one; auto).
  assert (A1 : Q n a zs = quad_mix n zs a) by (unfold Q; rewrite fractions_one; auto).
  assert (N0 : rsum n zs <> 0) by (rewrite E; lra).
  assert (Q1 : forall i x, (i < n)%nat -> S_ n x <> 0 -> partial (Q n a) x i ((2 * L n (a i) x + - 2 * Q n a x) * / S_ n x ^ 1)).
  { intros i0 x Hi0 Hx. eapply partial_eq; [|apply partial_Q; auto]. field; auto. }
  assert (Q2 : forall x, rsum n x <> 0 -> partial (fun x => (2 * L n (a i) x + - 2 * Q n a x) * / S_ n x ^ 1) x j ((6 * Q n a x + (2 * a i j + (- 4 * L n (a i) x + - 4 * L n (a j) x))) * / S_ n x ^ 2)).
  { intros x Hx. eapply partial_eq; [|apply partial_mult; [apply partial_plus; apply partial_scal; [apply p1|apply Q1]; auto|apply partial_invS; auto]].
    unfold l1. simpl. field. auto. }
  splits.
  - apply partial_quad_z; auto.
  - exists (fun z => 2 * lin_mix n z (a i)). split; [intros; apply partial_quad_z; auto|apply partial_scal, partial_lin_z; auto].
  - apply (partial_ext (Q n a)); [reflexivity|]. eapply partial_eq; [|apply Q1; auto; rewrite S1; lra]. rewrite S1, L1, A1. field.
  - exists (fun x => (2 * L n (a i) x + - 2 * Q n a x) * / S_ n x ^ 1). split; [intros x Hx; apply Q1; auto|].
    eapply partial_eq; [|apply Q2; auto]. rewrite S1, !L1, A1. field.
  - exists (fun x => (2 * L n (a i) x + - 2 * Q n a x) * / S_ n x ^ 1), (fun x => (6 * Q n a x + (2 * a i j + (- 4 * L n (a i) x + - 4 * L n (a j) x))) * / S_ n x ^ 2). splits.
    + intros x Hx; apply Q1; auto.
    + intros x Hx; apply Q2; auto.
    + eapply partial_eq; [|apply partial_mult; [apply partial_plus; [apply partial_scal, Q1|apply partial_plus; [apply partial_const|apply partial_plus; apply partial_scal, p1]]|apply partial_invS]; auto].
      unfold l1. rewrite S1, !L1, A1. simpl. field.
Qed.
End Orders.
