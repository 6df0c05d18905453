(* C14: every implementation of the quadratic mixing rule computes the same double sum. *)
From Coq Require Import Reals Lra Lia Arith Bool FunctionalExtensionality.
From Coquelicot Require Import Coquelicot.
From Verif Require Import Base BaseFacts Spec_mix MixFacts Gen_mix.
Open Scope R_scope.

Lemma pair_a_sym n a omk : sym n omk -> forall i j, (i < n)%nat -> (j < n)%nat -> pair_a a omk i j = pair_a a omk j i.
Proof. intros H i j Hi Hj. unfold pair_a. rewrite (Rmult_comm (a i)), H; auto. Qed.

Ltac ndec :=
  repeat (match goal with
  | |- context [Nat.leb ?a ?b] => destruct (Nat.leb_spec a b)
  | |- context [Nat.ltb ?a ?b] => destruct (Nat.ltb_spec a b)
  | |- context [Nat.eqb ?a ?b] => destruct (Nat.eqb_spec a b)
  end; try lia; cbn [andb negb orb]); try lia; subst; try lia; auto.

(* ---- precomputation of the matrices ---- *)
Section Aijs.
Variables (a : nat -> R) (omk : nat -> nat -> R) (M0 I0 : nat -> nat -> R) (r0 : nat -> R) (n : nat).
Hypothesis Ha : forall i, (i < n)%nat -> 0 <= a i.
Hypothesis Hk : sym n omk.

Lemma aijs_inner (big : R) r i m (I M : nat -> nat -> R) : (i < n)%nat -> (i + m <= n)%nat ->
  let '(I', M') := loop m (fun k_j st_ =>
          let '(a_alpha_ij_roots_inv, a_alpha_ijs) := st_ in
          let j := (i + k_j)%nat in
          let term := (r i * (r j)) in
          let a_alpha_ij_roots_inv :=
            if (Reqb term 0) then updm a_alpha_ij_roots_inv i j big
            else updm (updm a_alpha_ij_roots_inv j i (1 / term)) i j (1 / term) in
          (a_alpha_ij_roots_inv, updm (updm a_alpha_ijs j i (omk i j * term)) i j (omk i j * term))) (I, M) in
  forall k l,
  M' k l = (if ((k =? i) && (i <=? l) && (l <? i + m))%nat then omk i l * (r i * r l)
            else if ((l =? i) && (i <=? k) && (k <? i + m))%nat then omk i k * (r i * r k) else M k l) /\
  I' k l = (if ((k =? i) && (i <=? l) && (l <? i + m))%nat then (if Reqb (r i * r l) 0 then big else 1 / (r i * r l))
            else if ((l =? i) && (i <=? k) && (k <? i + m))%nat then (if Reqb (r i * r k) 0 then I k l else 1 / (r i * r k)) else I k l).
Proof.
  intros Hi. induction m; intros Hm.
  - cbn [loop]. intros k l. rewrite Nat.add_0_r. split; ndec.
  - cbn [loop]. specialize (IHm ltac:(lia)). destruct (loop m _ (I, M)) as [I' M'].
    intros k l. destruct (IHm k l) as [E1 E2]. split.
    + unfold updm. rewrite E1. clear.
      ndec.
    + assert (E : (if Reqb (r i * r (i + m)%nat) 0 then updm I' i (i + m)%nat big
         else updm (updm I' (i + m)%nat i (1 / (r i * r (i + m)%nat))) i (i + m)%nat (1 / (r i * r (i + m)%nat))) k l
         = if ((k =? i) && (l =? i + m))%nat then (if Reqb (r i * r (i + m)%nat) 0 then big else 1 / (r i * r (i + m)%nat))
           else if ((k =? i + m) && (l =? i))%nat then (if Reqb (r i * r (i + m)%nat) 0 then I' k l else 1 / (r i * r (i + m)%nat)) else I' k l).
      { clear. destruct (Reqb (r i * r (i + m)%nat) 0); unfold updm; ndec. }
      cbv zeta. rewrite E. rewrite E2. clear.
      ndec.
Qed.

Ltac sync H := match type of H with context [loop ?m ?g ?s] => match goal with |- context [loop m ?f s] => change f with g end end.

Lemma sqrt_pair i j : (i < n)%nat -> (j < n)%nat -> sqrt (a i) * sqrt (a j) = sqrt (a i * a j).
Proof. intros. rewrite sqrt_mult; auto. Qed.

Definition tenE100 : R := 10000000000000000000000000000000000000000000000000000000000000000000000000000000000000000000000000000.

Lemma aijs_full :
  let '(M, r, Ji) := a_alpha_aijs_composition_independent a omk M0 r0 I0 n in
  forall k, (k < n)%nat -> r k = sqrt (a k) /\ forall l, (l < n)%nat ->
    M k l = pair_a a omk k l /\
    Ji k l = (if Reqb (sqrt (a k * a l)) 0 then (if (k <=? l)%nat then tenE100 else I0 k l) else 1 / sqrt (a k * a l)).
Proof.
  unfold a_alpha_aijs_composition_independent. cbv zeta.
  set (r := loop n (fun i r => upd r i (sqrt (a i))) r0).
  assert (Hr : forall k, (k < n)%nat -> r k = sqrt (a k)) by (intros; unfold r; apply loop_upd_lt with (f := fun i => sqrt (a i)); auto).
  match goal with |- context [loop n ?f (I0, M0)] => set (step := f) end.
  assert (HI : let '(Ji, M) := loop n step (I0, M0) in forall k l, (k < n)%nat -> (l < n)%nat ->
      M k l = (if (Nat.min k l <? n)%nat then pair_a a omk k l else M0 k l) /\
      Ji k l = (if (Nat.min k l <? n)%nat then (if Reqb (sqrt (a k * a l)) 0 then (if (k <=? l)%nat then tenE100 else I0 k l) else 1 / sqrt (a k * a l)) else I0 k l)).
  { apply (loop_inv (fun m st => let '(Ji, M) := st in forall k l, (k < n)%nat -> (l < n)%nat ->
      M k l = (if (Nat.min k l <? m)%nat then pair_a a omk k l else M0 k l) /\
      Ji k l = (if (Nat.min k l <? m)%nat then (if Reqb (sqrt (a k * a l)) 0 then (if (k <=? l)%nat then tenE100 else I0 k l) else 1 / sqrt (a k * a l)) else I0 k l))).
    - intros. simpl. auto.
    - intros i [Ji M] Hi IH. unfold step.
      pose proof (aijs_inner tenE100 r i (n - i) Ji M Hi ltac:(lia)) as H.
      sync H. destruct (loop (n - i) _ (Ji, M)) as [I' M']. intros k l Hkn Hln.
      destruct (IH k l Hkn Hln) as [E1 E2]. destruct (H k l) as [F1 F2]. clear H IH. rewrite F1, F2, E1, E2. clear F1 F2 E1 E2.
      rewrite (Hr i Hi), !(Hr l Hln), !(Hr k Hkn). rewrite !sqrt_pair by auto.
      replace (i + (n - i))%nat with n by lia.
      assert (Q1 : omk i l * sqrt (a i * a l) = pair_a a omk i l) by (unfold pair_a; ring).
      assert (Q2 : omk i k * sqrt (a i * a k) = pair_a a omk k i) by (unfold pair_a; rewrite (Rmult_comm (a k)), (Hk k i); auto; ring).

      split.
      + ndec; rewrite ?Q1, ?Q2; auto; exfalso; lia.
      + assert (Q3 : sqrt (a i * a k) = sqrt (a k * a i)) by (f_equal; ring).
        destruct (Nat.eqb_spec k i), (Nat.eqb_spec l i); subst; ndec; rewrite ?Q3; auto. }
  destruct (loop n step (I0, M0)) as [Ji M]. intros k Hkn. split; [apply Hr; auto|].
  intros l Hln. destruct (HI k l Hkn Hln) as [E1 E2]. rewrite (ltb_lt' (Nat.min k l) n) in * by lia. auto.
Qed.
End Aijs.

(* The precomputation returns sqrt(a_i a_j)(1-k_ij), sqrt(a_i) and 1/sqrt(a_i a_j), whatever the buffers held. *)
Theorem C14_composition_independent : forall n a omk M0 r0 I0,
  (forall i, (i < n)%nat -> 0 <= a i) -> sym n omk ->
  let '(M, r, J) := a_alpha_aijs_composition_independent a omk M0 r0 I0 n in
  forall i, (i < n)%nat -> r i = sqrt (a i) /\ forall j, (j < n)%nat ->
    M i j = pair_a a omk i j /\
    (0 < a i -> 0 < a j -> J i j = 1 / sqrt (a i * a j)) /\
    (a i = 0 \/ a j = 0 -> J i j = if (i <=? j)%nat then tenE100 else I0 i j).
Proof.
  intros n a omk M0 r0 I0 Ha Hk. pose proof (aijs_full a omk M0 I0 r0 n Ha Hk) as H.
  destruct (a_alpha_aijs_composition_independent a omk M0 r0 I0 n) as [[M r] J].
  intros i Hi. destruct (H i Hi) as [E1 E2]. split; auto. intros j Hj. destruct (E2 j Hj) as [F1 F2].
  splits; auto.
  - intros. rewrite F2, Reqb_false; auto. apply Rgt_not_eq, sqrt_lt_R0, Rmult_lt_0_compat; auto.
  - intros D. rewrite F2, Reqb_true; auto. assert (Z0 : a i * a j = 0) by (destruct D as [D|D]; rewrite D; ring).
    rewrite Z0. apply sqrt_0.
Qed.

(* ---- value only, with the precomputed matrix ---- *)
Theorem C14_value : forall n a T zs omk M r J, sym n M -> (forall i, (i < n)%nat -> 0 <= zs i) ->
  a_alpha_and_derivatives a T zs omk M r J n = (quad_mix n zs M, M).
Proof.
  intros n a T zs omk M r J HM Hz. unfold a_alpha_and_derivatives. cbv zeta. f_equal. unfold quad_mix.
  rewrite (quad_tri_up n (fun i j => zs i * zs j * M i j)) by (intros i j Hi Hj; rewrite (HM i j Hi Hj); ring).
  rewrite (loop_ext n _ (fun i s => s + (rsum (n - (i + 1)) (fun k => zs i * zs (i + 1 + k)%nat * M i (i + 1 + k)%nat) + rsum (n - (i + 1)) (fun k => zs i * zs (i + 1 + k)%nat * M i (i + 1 + k)%nat) + zs i * zs i * M i i))).
  - rewrite loop_rsum. ring.
  - intros i s Hi. destruct (Rltb_spec 0 (zs i)) as [E|E].
    + rewrite (loop_rsum (n - (i + 1)) (fun k => (M i (i + 1 + k)%nat * zs i * zs (i + 1 + k)%nat + M i (i + 1 + k)%nat * zs i * zs (i + 1 + k)%nat)) s).
      rewrite rsum_plus. rewrite (rsum_ext _ (fun k => M i (i + 1 + k)%nat * zs i * zs (i + 1 + k)%nat) (fun k => zs i * zs (i + 1 + k)%nat * M i (i + 1 + k)%nat)) by (intros; ring). ring.
    + assert (Z0 : zs i = 0) by (specialize (Hz i Hi); lra). rewrite Z0.
      rewrite (rsum_eq_0 (n - (i + 1))) by (intros; ring). ring.
Qed.

(* ---- value and temperature derivatives with the precomputed matrices ---- *)
Section Full.
Variables (n : nat) (u w c1 c2 : nat -> nat -> R).

Definition full_step (i j : nat) (st : (nat -> nat -> R) * R * (nat -> nat -> R) * R * R) :=
  let '(D1, x, D2, s1, s2) := st in
  if (j <? i)%nat then (D1, x, D2, s1, s2)
  else (updm (updm D1 j i (u i j)) i j (u i j), c2 i j, updm (updm D2 j i (w i j)) i j (w i j),
        (if negb (i =? j)%nat then s1 + (c1 i j + c1 i j) else s1 + c1 i j),
        (if negb (i =? j)%nat then s2 + (c2 i j + c2 i j) else s2 + c2 i j)).
Definition full_acc (c : nat -> nat -> R) (i j : nat) : R := if (j <? i)%nat then 0 else if (i =? j)%nat then c i j else c i j + c i j.

Lemma full_inner i m D1 x D2 s1 s2 : (i < n)%nat -> (m <= n)%nat ->
  let '(D1', x', D2', s1', s2') := loop m (full_step i) (D1, x, D2, s1, s2) in
  s1' = s1 + rsum m (full_acc c1 i) /\ s2' = s2 + rsum m (full_acc c2 i) /\
  forall k l, 
  D1' k l = (if ((k =? i) && (i <=? l) && (l <? m))%nat then u i l
            else if ((l =? i) && (i <=? k) && (k <? m))%nat then u i k else D1 k l) /\
  D2' k l = (if ((k =? i) && (i <=? l) && (l <? m))%nat then w i l
            else if ((l =? i) && (i <=? k) && (k <? m))%nat then w i k else D2 k l).
Proof.
  intros Hi. induction m; intros Hm.
  - cbn [loop rsum]. splits; try ring. intros. split; ndec.
  - cbn [loop]. specialize (IHm ltac:(lia)). destruct (loop m _ _) as [[[[D1' x'] D2'] s1'] s2'].
    destruct IHm as (E1 & E2 & E3). unfold full_step.
    destruct (Nat.ltb_spec m i).
    + splits.
      * rewrite rsum_S, E1. replace (full_acc c1 i m) with 0; [ring|]. unfold full_acc. rewrite (ltb_lt' m i) by auto. auto.
      * rewrite rsum_S, E2. replace (full_acc c2 i m) with 0; [ring|]. unfold full_acc. rewrite (ltb_lt' m i) by auto. auto.
      * intros k l. destruct (E3 k l) as [F1 F2]. rewrite F1, F2. clear - H. split; ndec.
    + splits.
      * rewrite rsum_S, E1. assert (Q : full_acc c1 i m = if (i =? m)%nat then c1 i m else c1 i m + c1 i m) by (unfold full_acc; rewrite (ltb_ge' m i) by auto; auto). rewrite Q. destruct (i =? m)%nat; simpl; ring.
      * rewrite rsum_S, E2. assert (Q : full_acc c2 i m = if (i =? m)%nat then c2 i m else c2 i m + c2 i m) by (unfold full_acc; rewrite (ltb_ge' m i) by auto; auto). rewrite Q. destruct (i =? m)%nat; simpl; ring.
      * intros k l. destruct (E3 k l) as [F1 F2]. unfold updm. rewrite F1, F2. clear - H. split; ndec.
Qed.

Lemma full_outer (zs : nat -> R) (step : nat -> (nat -> nat -> R) * R * (nat -> nat -> R) * R * R -> (nat -> nat -> R) * R * (nat -> nat -> R) * R * R) x :
  (forall i st, (i < n)%nat -> step i st = if Rltb 0 (zs i) then loop n (full_step i) st else st) ->
  let '(D1, _, D2, s1, s2) := loop n step ((fun _ _ => 0), x, (fun _ _ => 0), 0, 0) in
  s1 = rsum n (fun i => if Rltb 0 (zs i) then rsum n (full_acc c1 i) else 0) /\
  s2 = rsum n (fun i => if Rltb 0 (zs i) then rsum n (full_acc c2 i) else 0) /\
  forall k l, (k < n)%nat -> (l < n)%nat ->
  D1 k l = (if Rltb 0 (zs (Nat.min k l)) then u (Nat.min k l) (Nat.max k l) else 0) /\
  D2 k l = (if Rltb 0 (zs (Nat.min k l)) then w (Nat.min k l) (Nat.max k l) else 0).
Proof.
  intros Hs.
  enough (H : let '(D1, _, D2, s1, s2) := loop n step ((fun _ _ => 0), x, (fun _ _ => 0), 0, 0) in
  s1 = rsum n (fun i => if Rltb 0 (zs i) then rsum n (full_acc c1 i) else 0) /\
  s2 = rsum n (fun i => if Rltb 0 (zs i) then rsum n (full_acc c2 i) else 0) /\
  forall k l, (k < n)%nat -> (l < n)%nat ->
  D1 k l = (if (Nat.min k l <? n)%nat then if Rltb 0 (zs (Nat.min k l)) then u (Nat.min k l) (Nat.max k l) else 0 else 0) /\
  D2 k l = (if (Nat.min k l <? n)%nat then if Rltb 0 (zs (Nat.min k l)) then w (Nat.min k l) (Nat.max k l) else 0 else 0)).
  { destruct (loop n step _) as [[[[D1 x'] D2] s1] s2]. destruct H as (E1 & E2 & E3). splits; auto.
    intros k l Hk Hl. specialize (E3 k l Hk Hl). rewrite (ltb_lt' (Nat.min k l) n) in E3 by lia. auto. }
  apply (loop_inv (fun m st => let '(D1, _, D2, s1, s2) := st in
  s1 = rsum m (fun i => if Rltb 0 (zs i) then rsum n (full_acc c1 i) else 0) /\
  s2 = rsum m (fun i => if Rltb 0 (zs i) then rsum n (full_acc c2 i) else 0) /\
  forall k l, (k < n)%nat -> (l < n)%nat ->
  D1 k l = (if (Nat.min k l <? m)%nat then if Rltb 0 (zs (Nat.min k l)) then u (Nat.min k l) (Nat.max k l) else 0 else 0) /\
  D2 k l = (if (Nat.min k l <? m)%nat then if Rltb 0 (zs (Nat.min k l)) then w (Nat.min k l) (Nat.max k l) else 0 else 0))).
  - splits; auto.
  - intros i st Hi IH. rewrite Hs by auto. destruct st as [[[[D1 x'] D2] s1] s2]. destruct IH as (E1 & E2 & E3).
    destruct (Rltb 0 (zs i)) eqn:Zi.
    + pose proof (full_inner i n D1 x' D2 s1 s2 Hi (le_n n)) as H.
      destruct (loop n (full_step i) _) as [[[[D1' x''] D2'] s1'] s2']. destruct H as (F1 & F2 & F3).
      splits; [rewrite rsum_S, Zi, F1, E1; auto|rewrite rsum_S, Zi, F2, E2; auto|].
      intros k l Hk Hl. destruct (E3 k l Hk Hl) as [G1 G2]. destruct (F3 k l) as [K1 K2]. rewrite K1, K2, G1, G2. clear - Hk Hl Zi.
      destruct (Nat.min_spec k l) as [[Q ->]|[Q ->]]; destruct (Nat.max_spec k l) as [[Q' ->]|[Q' ->]]; try lia;
      split; ndec; rewrite ?Zi; auto; match goal with |- ?f ?i ?l = _ => replace l with i by lia; rewrite Zi; auto end.

    + splits; [rewrite rsum_S, Zi, E1; ring|rewrite rsum_S, Zi, E2; ring|].
      intros k l Hk Hl. destruct (E3 k l Hk Hl) as [G1 G2]. rewrite G1, G2. clear - Hk Hl Zi.
      destruct (Nat.ltb_spec (Nat.min k l) i), (Nat.ltb_spec (Nat.min k l) (S i)); try lia; auto.
      replace (Nat.min k l) with i by lia. rewrite Zi. auto.
Qed.
End Full.

Lemma full_acc_sum n (c : nat -> nat -> R) : (forall i j, (i < n)%nat -> (j < n)%nat -> c i j = c j i) ->
  rsum n (fun i => rsum n (full_acc c i)) = rsum n (fun i => rsum n (fun j => c i j)).
Proof.
  intros Hc. rewrite rsum_swap. rewrite (quad_tri n c Hc). apply rsum_ext. intros j Hj.
  assert (G : forall m, (j < m)%nat -> (m <= n)%nat -> rsum m (fun i => full_acc c i j) = rsum j (c j) + rsum j (c j) + c j j).
  { induction m; intros H1 H2; [lia|]. rewrite rsum_S. destruct (Nat.eq_dec m j).
    - subst m. unfold full_acc at 2. rewrite (ltb_ge' j j), Nat.eqb_refl by lia.
      rewrite (rsum_ext j (fun i => full_acc c i j) (fun i => c j i + c j i)).
      + rewrite rsum_plus. reflexivity.
      + intros i Hi. unfold full_acc. rewrite (ltb_ge' j i), (eqb_ne' i j) by lia. rewrite (Hc i j) by lia. reflexivity.
    - rewrite IHm by lia. unfold full_acc. rewrite (ltb_lt' j m) by lia. ring. }
  apply G; lia.
Qed.

(* the derivative matrices and sums of the "full" implementation; J is the precomputed 1/sqrt(a_i a_j) *)
Lemma full_values n a da d2a T zs omk M r J :
  (forall i, (i < n)%nat -> 0 < a i) -> (forall i, (i < n)%nat -> 0 <= zs i) -> sym n omk -> sym n M ->
  (forall i j, (i < n)%nat -> (j < n)%nat -> J i j = 1 / sqrt (a i * a j)) ->
  let '(v, v1, v2, M', D1, D2) := a_alpha_and_derivatives_full a da d2a T zs omk M r J n in
  v = quad_mix n zs M /\ v1 = quad_mix n zs (pd1 a da omk) /\ v2 = quad_mix n zs (pd2 a da d2a omk) /\ M' = M /\
  forall i j, (i < n)%nat -> (j < n)%nat ->
    D1 i j = (if Rltb 0 (zs (Nat.min i j)) then pd1 a da omk i j else 0) /\
    D2 i j = (if Rltb 0 (zs (Nat.min i j)) then pd2 a da d2a omk i j else 0).
Proof.
  intros Ha Hz Hk HM HJ. unfold a_alpha_and_derivatives_full. cbv zeta.
  match goal with |- context [loop n ?f 0] => set (va := loop n f 0) end.
  assert (Hva : va = quad_mix n zs M).
  { unfold va, quad_mix. rewrite (quad_tri n (fun i j => zs i * zs j * M i j)) by (intros i j Hi Hj; rewrite (HM i j Hi Hj); ring).
    rewrite (loop_ext n _ (fun i s => s + (rsum i (fun j => zs i * zs j * M i j) + rsum i (fun j => zs i * zs j * M i j) + zs i * zs i * M i i))).
    - rewrite loop_rsum. ring.
    - intros i s Hi. rewrite (loop_rsum i (fun j => M i j * (zs i * zs j) + M i j * (zs i * zs j)) s). rewrite rsum_plus.
      rewrite (rsum_ext i (fun j => M i j * (zs i * zs j)) (fun j => zs i * zs j * M i j)) by (intros; ring). ring. }
  set (u := fun i j => (- (1/2)) * (- omk i j) * (a i * da j + a j * da i) * J i j).
  set (w := fun i j => (- omk i j) * ((a i * a j * ((- (1/2)) * (a i * d2a j + a j * d2a i) - da i * da j) + 1/4 * (a i * da j + a j * da i) * (a i * da j + a j * da i)) / (J i j * (a i * a j) * (a i * a j)))).
  assert (Hu : forall i j, (i < n)%nat -> (j < n)%nat -> u i j = pd1 a da omk i j).
  { intros i j Hi Hj. unfold u, pd1. rewrite HJ by auto. field. apply Rgt_not_eq, sqrt_lt_R0, Rmult_lt_0_compat; auto. }
  assert (Hw : forall i j, (i < n)%nat -> (j < n)%nat -> w i j = pd2 a da d2a omk i j).
  { intros i j Hi Hj. unfold w, pd2. rewrite HJ by auto. pose proof (Ha i Hi) as Pi. pose proof (Ha j Hj) as Pj.
    assert (0 < a i * a j) by (apply Rmult_lt_0_compat; auto).
    assert (S0 : sqrt (a i * a j) <> 0) by (apply Rgt_not_eq, sqrt_lt_R0; auto).
    assert (S1 : sqrt (a i * a j) * sqrt (a i * a j) = a i * a j) by (apply sqrt_sqrt; lra).
    set (s := sqrt (a i * a j)) in *. replace (a j) with (s * s / a i) by (rewrite S1; field; nz). field. nz. }
  assert (Sp1 : forall i j, pd1 a da omk i j = pd1 a da omk j i \/ ~ ((i < n)%nat /\ (j < n)%nat)).
  { intros i j. destruct (lt_dec i n); [|right; lia]. destruct (lt_dec j n); [left|right; lia]. unfold pd1. rewrite (Hk i j), (Rmult_comm (a i) (a j)) by auto. f_equal. f_equal. ring. }
  assert (Sp2 : forall i j, pd2 a da d2a omk i j = pd2 a da d2a omk j i \/ ~ ((i < n)%nat /\ (j < n)%nat)).
  { intros i j. destruct (lt_dec i n); [|right; lia]. destruct (lt_dec j n); [left|right; lia]. unfold pd2. rewrite (Hk i j), (Rmult_comm (a i) (a j)) by auto. f_equal. f_equal; f_equal; ring. }
  pose proof (full_outer n u w (fun i j => u i j * (zs i * zs j)) (fun i j => w i j * (zs i * zs j)) zs) as H.
  match goal with |- context [loop n ?f ((fun _ _ => 0), 0, _, 0, 0)] => specialize (H f 0) end.
  lapply H; clear H.
  - intros H. destruct (loop n _ _) as [[[[D1 x'] D2] s1] s2]. destruct H as (E1 & E2 & E3).
    splits; auto.
    + rewrite E1. unfold quad_mix.
      rewrite (rsum_ext n _ (fun i => rsum n (full_acc (fun i j => u i j * (zs i * zs j)) i))).
      * rewrite full_acc_sum.
        -- apply rsum_ext; intros i Hi; apply rsum_ext; intros j Hj. rewrite Hu; auto. ring.
        -- intros i j Hi Hj. rewrite !Hu by auto. destruct (Sp1 i j) as [E|E]; [rewrite E; ring|tauto].
      * intros i Hi. destruct (Rltb_spec 0 (zs i)) as [E|E]; auto. symmetry. apply rsum_eq_0. intros j Hj.
        assert (zs i = 0) by (specialize (Hz i Hi); lra). unfold full_acc. rewrite H. bcase; ring.
    + rewrite E2. unfold quad_mix.
      rewrite (rsum_ext n _ (fun i => rsum n (full_acc (fun i j => w i j * (zs i * zs j)) i))).
      * rewrite full_acc_sum.
        -- apply rsum_ext; intros i Hi; apply rsum_ext; intros j Hj. rewrite Hw; auto. ring.
        -- intros i j Hi Hj. rewrite !Hw by auto. destruct (Sp2 i j) as [E|E]; [rewrite E; ring|tauto].
      * intros i Hi. destruct (Rltb_spec 0 (zs i)) as [E|E]; auto. symmetry. apply rsum_eq_0. intros j Hj.
        assert (zs i = 0) by (specialize (Hz i Hi); lra). unfold full_acc. rewrite H. bcase; ring.
    + intros i j Hi Hj. destruct (E3 i j Hi Hj) as [F1 F2]. rewrite F1, F2. rewrite Hu, Hw by lia.
      destruct (Nat.min_spec i j) as [[Q Q1]|[Q Q1]]; destruct (Nat.max_spec i j) as [[Q' Q2]|[Q' Q2]]; try lia; rewrite Q1, Q2; auto.
      destruct (Sp1 i j) as [G|G]; [|tauto]. destruct (Sp2 i j) as [G'|G']; [|tauto]. rewrite G, G'. auto.
  - intros i [[[[D1 x] D2] s1] s2] Hi. destruct (Rltb 0 (zs i)); auto.
    match goal with |- context [loop n (full_step ?p ?q ?c ?d i) ?s] => set (G := loop n (full_step p q c d i) s) end.
    match goal with |- context [loop n ?f (D1, x, D2, s1, s2)] => assert (E : loop n f (D1, x, D2, s1, s2) = G) end.
    { unfold G. apply loop_ext. intros j [[[[A1 y] A2] t1] t2] Hj. unfold full_step. destruct (j <? i)%nat; auto.
      destruct (i =? j)%nat; reflexivity. }
    rewrite E. destruct G as [[[[? ?] ?] ?] ?]. reflexivity.
Qed.

Theorem C14_full : forall n (a da : nat -> R -> R) T d2a zs omk M0 r0 J0 r',
  smooth2_at n a da T d2a -> (forall i, (i < n)%nat -> 0 < a i T) -> (forall i, (i < n)%nat -> 0 <= zs i) -> sym n omk ->
  let '(M, r, J) := a_alpha_aijs_composition_independent (fun i => a i T) omk M0 r0 J0 n in
  let '(v, v1, v2, M', D1, D2) := a_alpha_and_derivatives_full (fun i => a i T) (fun i => da i T) d2a T zs omk M r' J n in
  let mixture t := quad_mix n zs (pair_a (fun i => a i t) omk) in
  v = mixture T /\ is_derive mixture T v1 /\ is_derive_n mixture 2 T v2 /\
  forall i j, (i < n)%nat -> (j < n)%nat ->
    M' i j = pair_a (fun i => a i T) omk i j /\
    (0 < zs (Nat.min i j) ->
     is_derive (fun t => pair_a (fun i => a i t) omk i j) T (D1 i j) /\
     is_derive_n (fun t => pair_a (fun i => a i t) omk i j) 2 T (D2 i j)).
Proof.
  intros n a da T d2a zs omk M0 r0 J0 r' Hs Hp Hz Hk.
  pose proof (C14_composition_independent n (fun i => a i T) omk M0 r0 J0) as C. cbv beta in C.
  specialize (C ltac:(intros i Hi; specialize (Hp i Hi); lra) Hk).
  destruct (a_alpha_aijs_composition_independent _ _ _ _ _ _) as [[M r] J].
  assert (HM : forall i j, (i < n)%nat -> (j < n)%nat -> M i j = pair_a (fun i => a i T) omk i j) by (intros i j Hi Hj; apply C; auto).
  pose proof (full_values n (fun i => a i T) (fun i => da i T) d2a T zs omk M r' J Hp Hz Hk) as F. cbv beta in F.
  specialize (F ltac:(intros i j Hi Hj; rewrite !HM by auto; apply pair_a_sym with n; auto)).
  specialize (F ltac:(intros i j Hi Hj; apply C; auto)).
  destruct (a_alpha_and_derivatives_full _ _ _ _ _ _ _ _ _ _) as [[[[[v v1] v2] M'] D1] D2].
  destruct F as (F1 & F2 & F3 & F4 & F5). cbv zeta. splits.
  - rewrite F1. apply quad_mix_ext; auto.
  - rewrite F2. apply quad_mix_derive with d2a; auto.
  - rewrite F3. apply quad_mix_derive2; auto.
  - intros i j Hi Hj. split; [subst; auto|]. intros P. destruct (F5 i j Hi Hj) as [G1 G2].
    rewrite Rltb_true in G1, G2 by auto. rewrite G1, G2. split.
    + exact (locally_singleton _ _ (pair_a_derive n omk a da T d2a Hs Hp i j Hi Hj)).
    + simpl. apply is_derive_ext_loc with (fun t => pd1 (fun k => a k t) (fun k => da k t) omk i j).
      * generalize (pair_a_derive n omk a da T d2a Hs Hp i j Hi Hj). apply filter_imp. intros t D. symmetry. apply is_derive_unique. exact D.
      * apply pair_a_derive2 with n; auto.
Qed.

(* The derivative matrices are not filled in for a component of zero mole fraction that comes first: the entry stays 0
   although sqrt(a_0 a_1) varies with T. *)
Theorem C14_full_matrices_refuted : exists n (a da : nat -> R -> R) T d2a zs omk,
  smooth2_at n a da T d2a /\ (forall i, (i < n)%nat -> 0 < a i T) /\ (forall i, (i < n)%nat -> 0 <= zs i) /\ rsum n zs = 1 /\ sym n omk /\
  let '(M, r, J) := a_alpha_aijs_composition_independent (fun i => a i T) omk (fun _ _ => 0) (fun _ => 0) (fun _ _ => 0) n in
  let '(_, _, _, _, D1, _) := a_alpha_and_derivatives_full (fun i => a i T) (fun i => da i T) d2a T zs omk M r J n in
  ~ is_derive (fun t => pair_a (fun i => a i t) omk 0 1) T (D1 0%nat 1%nat).
Proof.
  set (a := fun (i : nat) (t : R) => t). set (da := fun (i : nat) (t : R) => 1).
  set (zs := fun i : nat => match i with O => 0 | _ => 1 end). set (omk := fun _ _ : nat => 1).
  exists 2%nat, a, da, 1, (fun _ => 0), zs, omk.
  assert (Hs : smooth2_at 2 a da 1 (fun _ => 0)).
  { intros i Hi. split; [apply filter_forall; intros t; apply (is_derive_id (K := R_AbsRing))|apply (is_derive_const (K := R_AbsRing) (V := R_NormedModule))]. }
  assert (Hp : forall i, (i < 2)%nat -> 0 < a i 1) by (intros; unfold a; lra).
  assert (Hz : forall i, (i < 2)%nat -> 0 <= zs i) by (intros i Hi; unfold zs; destruct i; lra).
  assert (Hk : sym 2 omk) by (intros i j _ _; reflexivity).
  splits; auto; [unfold zs; simpl; ring|].
  pose proof (C14_composition_independent 2 (fun i => a i 1) omk (fun _ _ => 0) (fun _ => 0) (fun _ _ => 0)) as C. cbv beta in C.
  specialize (C ltac:(intros; unfold a; lra) Hk).
  destruct (a_alpha_aijs_composition_independent _ _ _ _ _ _) as [[M r] J].
  assert (HM : forall i j, (i < 2)%nat -> (j < 2)%nat -> M i j = pair_a (fun i => a i 1) omk i j) by (intros i j Hi Hj; apply C; auto).
  pose proof (full_values 2 (fun i => a i 1) (fun i => da i 1) (fun _ => 0) 1 zs omk M r J Hp Hz Hk) as F. cbv beta in F.
  specialize (F ltac:(intros i j Hi Hj; rewrite !HM by auto; apply pair_a_sym with 2%nat; auto)).
  specialize (F ltac:(intros i j Hi Hj; apply C; auto)).
  destruct (a_alpha_and_derivatives_full _ _ _ _ _ _ _ _ _ _) as [[[[[v v1] v2] M'] D1] D2].
  destruct F as (_ & _ & _ & _ & F5). destruct (F5 0%nat 1%nat ltac:(lia) ltac:(lia)) as [G _].
  simpl Nat.min in G. unfold zs in G. rewrite Rltb_false in G by lra. rewrite G. intros D.
  pose proof (locally_singleton _ _ (pair_a_derive 2 omk a da 1 (fun _ => 0) Hs Hp 0 1 ltac:(lia) ltac:(lia))) as D'. cbv beta in D'.
  apply is_derive_unique in D. apply is_derive_unique in D'. rewrite D in D'. unfold pd1, a, da, omk in D'.
  rewrite !Rmult_1_r, sqrt_1 in D'. lra.
Qed.

(* ---- a_alpha and its rows only ---- *)
Lemma upd_upd_same (r : nat -> R) i x y : upd (upd r i x) i y = upd r i y.
Proof. apply functional_extensionality. intros k. unfold upd. destruct (k =? i)%nat; auto. Qed.
Lemma upd_eq (r : nat -> R) i x : upd r i x i = x.
Proof. unfold upd. rewrite Nat.eqb_refl. auto. Qed.
Lemma upd_neq (r : nat -> R) i k x : k <> i -> upd r i x k = r k.
Proof. intros. unfold upd. rewrite eqb_ne'; auto. Qed.

Theorem C14_quadratic_terms : forall n a T zs omk rows0 vec0,
  (forall i, (i < n)%nat -> 0 <= a i) -> sym n omk ->
  let '(v, rows) := a_alpha_quadratic_terms a (fun i => sqrt (a i)) T zs omk rows0 vec0 n in
  v = quad_mix n zs (pair_a a omk) /\
  forall i, (i < n)%nat -> rows i = rsum n (fun j => zs j * pair_a a omk i j).
Proof.
  intros n a T zs omk rows0 vec0 Ha Hk. unfold a_alpha_quadratic_terms. cbv zeta.
  set (ra := loop n (fun i r => upd r i 0) rows0).
  assert (Hra : forall k, (k < n)%nat -> ra k = 0) by (intros; unfold ra; apply (loop_upd_lt n (fun _ => 0)); auto).
  set (ve := loop n _ vec0).
  assert (Hve : forall k, (k < n)%nat -> ve k = sqrt (a k) * zs k) by (intros; unfold ve; apply (loop_upd_lt n (fun i => sqrt (a i) * zs i)); auto).
  set (rb := loop n _ ra).
  set (h := fun i j => zs i * sqrt (a i) * omk i j).
  assert (Hrb : forall k, (k < n)%nat -> rb k = rsum n (fun i => if (k <? i)%nat then omk i k * ve i else if (k =? i)%nat then rsum i (fun j => omk i j * ve j) else 0)).
  { intros k Hkn. replace (rsum n _) with (ra k + rsum n (fun i => if (k <? i)%nat then omk i k * ve i else if (k =? i)%nat then rsum i (fun j => omk i j * ve j) else 0)) by (rewrite Hra by auto; ring).
    unfold rb. apply (loop_inv (fun m r => r k = ra k + rsum m (fun i => if (k <? i)%nat then omk i k * ve i else if (k =? i)%nat then rsum i (fun j => omk i j * ve j) else 0))).
    - simpl. ring.
    - intros i r Hi E. rewrite (tri_rows i (fun j => omk i j * ve i) (fun j => omk i j * ve j) i r (le_n i) k).
      rewrite rsum_S, E. bcase; ring. }
  assert (G : forall i, (i < n)%nat -> rb i * sqrt (a i) + omk i i * a i * zs i = rsum n (fun j => zs j * pair_a a omk i j)).
  { intros i Hi. rewrite Hrb by auto.
    assert (Es : forall j, (j < n)%nat -> sqrt (a i * a j) = sqrt (a i) * sqrt (a j)) by (intros; apply sqrt_mult; auto).
    rewrite (rsum_split n i (fun j => zs j * pair_a a omk i j) Hi).
    rewrite (rsum_split n i _ Hi). rewrite (ltb_ge' i i), Nat.eqb_refl by lia.
    unfold pair_a at 1. rewrite (Es i Hi), (sqrt_sqrt (a i)) by auto.
    rewrite Rmult_plus_distr_r.
    (* remaining: lower part + upper part *)
    assert (Q : rsum i (fun j => omk i j * ve j) * sqrt (a i) + rsum n (fun j => if (j =? i)%nat then 0 else if (i <? j)%nat then omk j i * ve j else if (i =? j)%nat then rsum j (fun j0 => omk j j0 * ve j0) else 0) * sqrt (a i)
      = rsum n (fun j => if (j =? i)%nat then 0 else zs j * pair_a a omk i j)).
    { assert (Low : forall m, (m <= n)%nat -> rsum m (fun j => if (j <? i)%nat then zs j * pair_a a omk i j else 0) = rsum (Nat.min m i) (fun j => zs j * pair_a a omk i j)).
      { induction m; intros Hm; [reflexivity|]. rewrite rsum_S, IHm by lia. destruct (Nat.ltb_spec m i).
        - replace (Nat.min (S m) i) with (S m) by lia. replace (Nat.min m i) with m by lia. reflexivity.
        - replace (Nat.min (S m) i) with i by lia. replace (Nat.min m i) with i by lia. ring. }
      rewrite (rsum_ext n (fun j => if (j =? i)%nat then 0 else zs j * pair_a a omk i j)
        (fun j => (if (j <? i)%nat then zs j * pair_a a omk i j else 0) + (if (i <? j)%nat then zs j * pair_a a omk i j else 0))) by (intros; bcase; ring).
      rewrite rsum_plus, Low by lia. replace (Nat.min n i) with i by lia.
      rewrite <- rsum_scal_r. f_equal.
      - apply rsum_ext. intros j Hj. rewrite Hve by lia. unfold pair_a. rewrite Es by lia. ring.
      - rewrite <- rsum_scal_r. apply rsum_ext. intros j Hj. destruct (Nat.ltb_spec i j).
        + rewrite (eqb_ne' j i) by lia. rewrite Hve by lia. unfold pair_a. rewrite Es, (Hk j i) by lia. ring.
        + destruct (Nat.eqb_spec j i); [ring|]. rewrite (eqb_ne' i j) by lia. ring. }
    rewrite <- Q. ring. }
  match goal with |- context [loop n ?f (rb, 0)] => set (step := f) end.
  assert (HI : let '(r, v) := loop n step (rb, 0) in (forall k, (k < n)%nat -> r k = if (k <? n)%nat then rsum n (fun j => zs j * pair_a a omk k j) else rb k)
       /\ v = rsum n (fun i => zs i * rsum n (fun j => zs j * pair_a a omk i j))).
  { apply (loop_inv (fun m st => let '(r, v) := st in (forall k, (k < n)%nat -> r k = if (k <? m)%nat then rsum n (fun j => zs j * pair_a a omk k j) else rb k)
       /\ v = rsum m (fun i => zs i * rsum n (fun j => zs j * pair_a a omk i j)))).
    - split; auto.
    - intros i [r v] Hi [E1 E2]. unfold step. rewrite upd_eq, upd_upd_same. split.
      + intros k Hkn. destruct (Nat.eq_dec k i).
        * subst. rewrite upd_eq, (ltb_lt' i (S i)) by lia. rewrite E1, (ltb_ge' i i) by lia. apply G; auto.
        * rewrite upd_neq, E1 by auto. bcase; auto.
      + rewrite upd_eq, E2, rsum_S. rewrite E1, (ltb_ge' i i), G by (auto; lia). ring. }
  destruct (loop n step (rb, 0)) as [r v]. destruct HI as [E1 E2]. split.
  - rewrite E2, quad_mix_rows. reflexivity.
  - intros k Hkn. rewrite E1, (ltb_lt' k n) by auto. reflexivity.
Qed.

(* ---- workspace-reusing implementation with temperature derivatives ---- *)
Lemma loop_five {A B C D E} n (fa : nat -> A -> A) (fb : nat -> B -> B) (fc : nat -> C -> C) (fd : nat -> D -> D) (fe : nat -> E -> E) a b c d e :
  loop n (fun i st => let '(a, b, c, d, e) := st in (fa i a, fb i b, fc i c, fd i d, fe i e)) (a, b, c, d, e)
  = (loop n fa a, loop n fb b, loop n fc c, loop n fd d, loop n fe e).
Proof. induction n; simpl; auto. rewrite IHn. reflexivity. Qed.

Section Work.
Variables (n : nat) (a da d2a zs : nat -> R) (T : R) (omk : nat -> nat -> R).
Hypotheses (Ha : forall i, (i < n)%nat -> 0 < a i) (Hk : sym n omk) (Hd : forall i, (i < n)%nat -> omk i i = 1).

(* the contribution of pass i to row k *)
Definition row_term (h : nat -> nat -> R) (k i : nat) : R :=
  if Reqb (zs i) 0 then 0 else if (k <? i)%nat then zs i * h i k else if (k =? i)%nat then rsum i (fun j => zs j * h i j) + zs i * h i i else 0.

Lemma row_term_sum h k : (forall i j, (i < n)%nat -> (j < n)%nat -> h i j = h j i) -> (k < n)%nat ->
  rsum n (row_term h k) = rsum n (fun j => if (Reqb (zs k) 0 && (j <=? k)%nat)%bool then 0 else zs j * h k j).
Proof.
  intros Hs Hkn.
  rewrite (rsum_ext n (fun j => if (Reqb (zs k) 0 && (j <=? k)%nat)%bool then 0 else zs j * h k j)
     (fun j => (if (j <? k)%nat then (if Reqb (zs k) 0 then 0 else zs j * h k j) else 0) + (if (k <? j)%nat then zs j * h j k else if (k =? j)%nat then (if Reqb (zs k) 0 then 0 else zs k * h k k) else 0))).
  2: { intros j Hj. destruct (Reqb (zs k) 0); simpl; destruct (Nat.leb_spec j k); bcase; try ring; rewrite (Hs j k) by lia; ring. }
  rewrite rsum_plus.
  assert (Low : forall m, (m <= n)%nat -> rsum m (fun j => if (j <? k)%nat then (if Reqb (zs k) 0 then 0 else zs j * h k j) else 0) = rsum (Nat.min m k) (fun j => if Reqb (zs k) 0 then 0 else zs j * h k j)).
  { induction m; intros Hm; [reflexivity|]. rewrite rsum_S, IHm by lia. destruct (Nat.ltb_spec m k).
    - replace (Nat.min (S m) k) with (S m) by lia. replace (Nat.min m k) with m by lia. reflexivity.
    - replace (Nat.min (S m) k) with k by lia. replace (Nat.min m k) with k by lia. ring. }
  rewrite Low by lia. replace (Nat.min n k) with k by lia.
  rewrite (rsum_split n k (row_term h k) Hkn). rewrite (rsum_split n k (fun j => if (k <? j)%nat then _ else _) Hkn).
  rewrite (ltb_ge' k k), Nat.eqb_refl by lia.
  rewrite (rsum_ext n (fun j => if (j =? k)%nat then 0 else row_term h k j)
     (fun j => if (j =? k)%nat then 0 else if (k <? j)%nat then zs j * h j k else if (k =? j)%nat then if Reqb (zs k) 0 then 0 else zs k * h k k else 0)).
  - unfold row_term. rewrite (ltb_ge' k k), Nat.eqb_refl by lia. destruct (Reqb (zs k) 0).
    + rewrite (rsum_0 k). ring.
    + ring.
  - intros j Hj. unfold row_term. destruct (Reqb_spec (zs j) 0) as [E|E]; bcase; rewrite ?E; try ring.
Qed.

Definition s_ij i j := sqrt (a i * a j).
Definition t_ij i j := - omk i j * ((a i * da j + a j * da i) / s_ij i j).

Lemma s_pos i j : (i < n)%nat -> (j < n)%nat -> 0 < s_ij i j /\ s_ij i j * s_ij i j = a i * a j.
Proof.
  intros Hi Hj. pose proof (Rmult_lt_0_compat _ _ (Ha i Hi) (Ha j Hj)). unfold s_ij. split; [apply sqrt_lt_R0; auto|apply sqrt_sqrt; lra].
Qed.
Lemma t_pd1 i j : (i < n)%nat -> (j < n)%nat -> pd1 a da omk i j = - (1 / 2) * t_ij i j.
Proof. intros Hi Hj. destruct (s_pos i j Hi Hj). unfold pd1, t_ij, s_ij in *. field. lra. Qed.
Lemma pd1_sym i j : (i < n)%nat -> (j < n)%nat -> pd1 a da omk i j = pd1 a da omk j i.
Proof. intros. unfold pd1. rewrite (Hk i j), (Rmult_comm (a i) (a j)) by auto. f_equal. f_equal. ring. Qed.
Lemma pd2_sym i j : (i < n)%nat -> (j < n)%nat -> pd2 a da d2a omk i j = pd2 a da d2a omk j i.
Proof. intros. unfold pd2. rewrite (Hk i j), (Rmult_comm (a i) (a j)) by auto. f_equal. f_equal; f_equal; ring. Qed.
Lemma t_sym i j : (i < n)%nat -> (j < n)%nat -> t_ij i j = t_ij j i.
Proof. intros. unfold t_ij, s_ij. rewrite (Hk i j), (Rmult_comm (a i) (a j)) by auto. f_equal. f_equal. ring. Qed.
Lemma pd2_diag i : (i < n)%nat -> pd2 a da d2a omk i i = d2a i.
Proof.
  intros Hi. unfold pd2. rewrite Hd by auto. rewrite sqrt_square by (apply Rlt_le; auto). pose proof (Ha i Hi). field. lra.
Qed.
Lemma pair_diag i : (i < n)%nat -> pair_a a omk i i = a i.
Proof. intros Hi. unfold pair_a. rewrite Hd by auto. rewrite sqrt_square by (apply Rlt_le; auto). ring. Qed.
Lemma t_diag i : (i < n)%nat -> t_ij i i = - da i - da i.
Proof. intros Hi. unfold t_ij, s_ij. rewrite Hd by auto. rewrite sqrt_square by (apply Rlt_le; auto). pose proof (Ha i Hi). field. lra. Qed.

Lemma work_all rows0 drows0 :
  let '(v, v1, v2, rows, drows) := a_alpha_and_derivatives_quadratic_terms a (fun i => sqrt (a i)) da d2a T zs omk rows0 drows0 n in
  v = quad_mix n zs (pair_a a omk) /\ v1 = quad_mix n zs (pd1 a da omk) /\ v2 = quad_mix n zs (pd2 a da d2a omk) /\
  forall k, (k < n)%nat ->
    rows k = rows0 k + rsum n (row_term (pair_a a omk) k) /\
    drows k = - (1 / 2) * (drows0 k + rsum n (row_term t_ij k)).
Proof.
  unfold a_alpha_and_derivatives_quadratic_terms. cbv zeta.
  match goal with |- context [loop n ?f (rows0, 0, drows0, 0, 0)] => set (step := f) end.
  set (vt := fun i => if Reqb (zs i) 0 then 0 else rsum i (fun j => zs i * zs j * pair_a a omk i j) + rsum i (fun j => zs i * zs j * pair_a a omk i j) + zs i * zs i * pair_a a omk i i).
  set (v1t := fun i => if Reqb (zs i) 0 then 0 else rsum i (fun j => zs i * zs j * pd1 a da omk i j) + rsum i (fun j => zs i * zs j * pd1 a da omk i j) + zs i * zs i * pd1 a da omk i i).
  set (v2t := fun i => if Reqb (zs i) 0 then 0 else rsum i (fun j => zs i * zs j * pd2 a da d2a omk i j) + rsum i (fun j => zs i * zs j * pd2 a da d2a omk i j) + zs i * zs i * pd2 a da d2a omk i i).
  assert (HI : let '(r, v, d, v1, v2) := loop n step (rows0, 0, drows0, 0, 0) in
     v = rsum n vt /\ v1 = rsum n v1t /\ v2 = rsum n v2t /\ forall k, r k = rows0 k + rsum n (row_term (pair_a a omk) k) /\ d k = drows0 k + rsum n (row_term t_ij k)).
  { apply (loop_inv (fun m st => let '(r, v, d, v1, v2) := st in
     v = rsum m vt /\ v1 = rsum m v1t /\ v2 = rsum m v2t /\ forall k, r k = rows0 k + rsum m (row_term (pair_a a omk) k) /\ d k = drows0 k + rsum m (row_term t_ij k))).
    - simpl. splits; auto. intros. split; ring.
    - intros i [[[[r v] d] v1] v2] Hi (E1 & E2 & E3 & E4). unfold step.
      pose proof (Ha i Hi) as Pi. rewrite (Reqb_false (a i) 0) by lra. cbn [orb].
      destruct (Reqb (zs i) 0) eqn:Zi.
      + rewrite !rsum_S. unfold vt at 2, v1t at 2, v2t at 2. rewrite Zi. splits; try (rewrite ?E1, ?E2, ?E3; ring).
        intros k. destruct (E4 k) as [F1 F2]. rewrite !rsum_S, F1, F2.
        assert (Q : forall h, row_term h k i = 0) by (intros; unfold row_term; rewrite Zi; auto). rewrite !Q. split; ring.
      + match goal with |- context [loop i ?f (r, v, d, 0, 0)] => set (inn := f) end.
        assert (EI : loop i inn (r, v, d, 0, 0) =
          (loop i (fun j r => upd (upd r j (r j + zs i * pair_a a omk i j)) i (upd r j (r j + zs i * pair_a a omk i j) i + zs j * pair_a a omk i j)) r,
           loop i (fun j v => v + (zs i * zs j * pair_a a omk i j + zs i * zs j * pair_a a omk i j)) v,
           loop i (fun j r => upd (upd r j (r j + zs i * t_ij i j)) i (upd r j (r j + zs i * t_ij i j) i + zs j * t_ij i j)) d,
           loop i (fun j v => v + zs i * zs j * t_ij i j) 0,
           loop i (fun j v => v + zs i * zs j * pd2 a da d2a omk i j) 0)).
        { rewrite <- loop_five. apply loop_ext. intros j [[[[r' v'] d'] w1'] w2'] Hj. unfold inn.
          pose proof (Ha j ltac:(lia)) as Pj. rewrite (Reqb_false (a j) 0) by lra.
          assert (Es : sqrt (a i) * sqrt (a j) = s_ij i j) by (unfold s_ij; rewrite sqrt_mult; lra). rewrite Es.
          destruct (s_pos i j Hi ltac:(lia)) as [S0 S1].
          assert (EP : pair_a a omk i j = omk i j * s_ij i j) by (unfold pair_a, s_ij; ring).
          assert (ET : (a i * da j + a j * da i) * (- omk i j * (1 / s_ij i j)) = t_ij i j) by (unfold t_ij; field; lra).
          rewrite ET. rewrite EP.
          rewrite (Rmult_comm (omk i j * s_ij i j) (zs i)).
          match goal with |- (?x1, ?x2, ?x3, ?x4, ?x5) = (?y1, ?y2, ?y3, ?y4, ?y5) =>
            replace x2 with y2 by ring; replace x4 with y4 by ring; enough (E5 : x5 = y5) by (rewrite E5; reflexivity) end.
          f_equal. unfold pd2. change (sqrt (a i * a j)) with (s_ij i j). set (s := s_ij i j) in *. clearbody s.
          replace (a j) with (s * s / a i) by (rewrite S1; field; lra). field. lra. }
        rewrite EI. clear EI inn.
        assert (K1 : zs i * zs i * pd1 a da omk i i = - (1/2) * (zs i * zs i * (- da i - da i))) by (rewrite t_pd1, t_diag by auto; ring).
        assert (V0 := eq_refl (vt i)). unfold vt in V0 at 2. rewrite Zi in V0.
        assert (V1 := eq_refl (v1t i)). unfold v1t in V1 at 2. rewrite Zi in V1.
        assert (V2 := eq_refl (v2t i)). unfold v2t in V2 at 2. rewrite Zi in V2.
        splits.
        * rewrite rsum_S, loop_rsum, rsum_plus, E1, V0. rewrite pair_diag by auto. ring.
        * rewrite rsum_S, loop_rsum, E2, V1, K1.
          rewrite (rsum_ext i (fun j => zs i * zs j * pd1 a da omk i j) (fun j => - (1/2) * (zs i * zs j * t_ij i j))) by (intros; rewrite t_pd1 by lia; ring).
          rewrite rsum_scal_l. ring.
        * rewrite rsum_S, loop_rsum, E3, V2. rewrite pd2_diag by auto. ring.
        * intros k. destruct (E4 k) as [F1 F2]. rewrite !rsum_S.
          assert (RT : forall h, row_term h k i = if (k <? i)%nat then zs i * h i k else if (k =? i)%nat then rsum i (fun j => zs j * h i j) + zs i * h i i else 0) by (intros; unfold row_term; rewrite Zi; reflexivity).
          rewrite !RT.
          set (ra := loop i _ r). set (rd := loop i _ d).
          assert (Hra : ra k = r k + (if (k <? i)%nat then zs i * pair_a a omk i k else 0) + (if (k =? i)%nat then rsum i (fun j => zs j * pair_a a omk i j) else 0)) by (apply tri_rows; auto).
          assert (Hrd : rd k = d k + (if (k <? i)%nat then zs i * t_ij i k else 0) + (if (k =? i)%nat then rsum i (fun j => zs j * t_ij i j) else 0)) by (apply tri_rows; auto).
          unfold upd. destruct (Nat.eqb_spec k i).
          -- subst k.
             rewrite Hra, Hrd, F1, F2, (ltb_ge' i i), pair_diag, t_diag by (auto; lia). split; ring.
          -- rewrite Hra, Hrd, F1, F2. destruct (k <? i)%nat; split; ring. }
  destruct (loop n step _) as [[[[r v] d] v1] v2]. destruct HI as (E1 & E2 & E3 & E4).
  assert (Z0 : forall (h : nat -> nat -> R) i, (if Reqb (zs i) 0 then 0 else rsum i (fun j => zs i * zs j * h i j) + rsum i (fun j => zs i * zs j * h i j) + zs i * zs i * h i i)
     = rsum i (fun j => zs i * zs j * h i j) + rsum i (fun j => zs i * zs j * h i j) + zs i * zs i * h i i).
  { intros h i. destruct (Reqb_spec (zs i) 0) as [E|E]; auto. rewrite E. rewrite rsum_eq_0 by (intros; ring). ring. }
  splits.
  - rewrite E1. unfold quad_mix. rewrite (quad_tri n (fun i j => zs i * zs j * pair_a a omk i j)) by (intros i j Hi Hj; rewrite (pair_a_sym n a omk Hk i j Hi Hj); ring).
    apply rsum_ext. intros i Hi. unfold vt. apply Z0.
  - rewrite E2. unfold quad_mix. rewrite (quad_tri n (fun i j => zs i * zs j * pd1 a da omk i j)) by (intros i j Hi Hj; rewrite (pd1_sym i j Hi Hj); ring).
    apply rsum_ext. intros i Hi. unfold v1t. apply Z0.
  - rewrite E3. unfold quad_mix. rewrite (quad_tri n (fun i j => zs i * zs j * pd2 a da d2a omk i j)) by (intros i j Hi Hj; rewrite (pd2_sym i j Hi Hj); ring).
    apply rsum_ext. intros i Hi. unfold v2t. apply Z0.
  - intros k Hkn. destruct (E4 k) as [F1 F2]. split; auto.
    assert (Q : forall m (x : nat -> R) j, loop m (fun i x => upd x i (x i * - (1/2))) x j = if (j <? m)%nat then x j * - (1/2) else x j).
    { induction m; intros x j; [reflexivity|]. cbn [loop]. unfold upd. rewrite !IHm. bcase; auto. }
    rewrite Q, (ltb_lt' k n), F2 by auto. ring.
Qed.
End Work.

(* The value and both temperature derivatives are those of the double sum for every composition. *)
Theorem C14_workspace : forall n (a da : nat -> R -> R) T d2a zs omk rows0 drows0,
  smooth2_at n a da T d2a -> (forall i, (i < n)%nat -> 0 < a i T) -> sym n omk -> (forall i, (i < n)%nat -> omk i i = 1) ->
  let '(v, v1, v2, rows, drows) :=
    a_alpha_and_derivatives_quadratic_terms (fun i => a i T) (fun i => sqrt (a i T)) (fun i => da i T) d2a T zs omk rows0 drows0 n in
  let mixture t := quad_mix n zs (pair_a (fun i => a i t) omk) in
  v = mixture T /\ is_derive mixture T v1 /\ is_derive_n mixture 2 T v2 /\
  (* rows, for buffers that start at zero: right for components that are present *)
  forall i, (i < n)%nat -> rows0 i = 0 -> drows0 i = 0 -> zs i <> 0 ->
    rows i = rsum n (fun j => zs j * pair_a (fun i => a i T) omk i j) /\
    is_derive (fun t => rsum n (fun j => zs j * pair_a (fun i => a i t) omk i j)) T (drows i).
Proof.
  intros n a da T d2a zs omk rows0 drows0 Hs Hp Hk Hd.
  pose proof (work_all n (fun i => a i T) (fun i => da i T) d2a zs T omk Hp Hk Hd rows0 drows0) as W. cbv beta in W.
  destruct (a_alpha_and_derivatives_quadratic_terms _ _ _ _ _ _ _ _ _ _) as [[[[v v1] v2] rows] drows].
  destruct W as (W1 & W2 & W3 & W4). cbv zeta. splits; auto.
  - rewrite W2. apply quad_mix_derive with d2a; auto.
  - rewrite W3. apply quad_mix_derive2; auto.
  - intros i Hi R0 D0 Zi. destruct (W4 i Hi) as [F1 F2]. rewrite F1, F2, R0, D0.
    rewrite !row_term_sum; auto; [|intros; apply t_sym with n; auto|intros; apply pair_a_sym with n; auto].
    rewrite Reqb_false by auto. cbn [andb]. split; [ring|].
    apply (is_derive_eq _ _ (rsum n (fun j => zs j * pd1 (fun i => a i T) (fun i => da i T) omk i j))).
    + apply (is_derive_rsum n (fun j t => zs j * pair_a (fun i => a i t) omk i j)). intros j Hj. apply is_derive_scal.
      exact (locally_singleton _ _ (pair_a_derive n omk a da T d2a Hs Hp i j Hi Hj)).
    + rewrite Rplus_0_l, <- rsum_scal_l. apply rsum_ext. intros j Hj. rewrite (t_pd1 n (fun i => a i T)) by auto. ring.
Qed.

(* Exactly what the rows hold, whatever the buffers and mole fractions: the buffers are accumulated into, and a component
   of zero mole fraction only receives the contributions of the components listed after it. *)
Theorem C14_workspace_rows : forall n a da d2a zs T omk rows0 drows0,
  (forall i, (i < n)%nat -> 0 < a i) -> sym n omk -> (forall i, (i < n)%nat -> omk i i = 1) ->
  let '(_, _, _, rows, drows) := a_alpha_and_derivatives_quadratic_terms a (fun i => sqrt (a i)) da d2a T zs omk rows0 drows0 n in
  forall i, (i < n)%nat ->
    rows i = rows0 i + rsum n (fun j => if (Reqb (zs i) 0 && (j <=? i)%nat)%bool then 0 else zs j * pair_a a omk i j).
Proof.
  intros n a da d2a zs T omk rows0 drows0 Hp Hk Hd. pose proof (work_all n a da d2a zs T omk Hp Hk Hd rows0 drows0) as W.
  destruct (a_alpha_and_derivatives_quadratic_terms _ _ _ _ _ _ _ _ _ _) as [[[[v v1] v2] rows] drows].
  destruct W as (_ & _ & _ & W). intros i Hi. destruct (W i Hi) as [F _]. rewrite F. f_equal. apply row_term_sum; auto.
  intros; apply pair_a_sym with n; auto.
Qed.

(* Pure second component: the row of the first, absent, component should be its cross coefficient with the second; with the
   components in the other order it is left at zero. *)
Theorem C14_workspace_rows_refuted : exists n a da d2a zs T omk,
  (forall i, (i < n)%nat -> 0 < a i) /\ sym n omk /\ (forall i, (i < n)%nat -> omk i i = 1) /\ rsum n zs = 1 /\ (forall i, (i < n)%nat -> 0 <= zs i) /\
  let '(_, _, _, rows, _) := a_alpha_and_derivatives_quadratic_terms a (fun i => sqrt (a i)) da d2a T zs omk (fun _ => 0) (fun _ => 0) n in
  exists i, (i < n)%nat /\ rows i <> rsum n (fun j => zs j * pair_a a omk i j).
Proof.
  exists 2%nat, (fun _ => 1), (fun _ => 0), (fun _ => 0), (fun i => match i with O => 1 | _ => 0 end), 300, (fun _ _ => 1).
  assert (Hp : forall i : nat, (i < 2)%nat -> 0 < (fun _ : nat => 1) i) by (intros; lra).
  assert (Hk : sym 2 (fun _ _ => 1)) by (intros i j _ _; auto).
  splits; auto; [simpl; ring|intros i Hi; destruct i; lra|].
  pose proof (C14_workspace_rows 2 (fun _ => 1) (fun _ => 0) (fun _ => 0) (fun i => match i with O => 1 | _ => 0 end) 300 (fun _ _ => 1) (fun _ => 0) (fun _ => 0) Hp Hk ltac:(auto)) as W.
  destruct (a_alpha_and_derivatives_quadratic_terms _ _ _ _ _ _ _ _ _ _) as [[[[v v1] v2] rows] drows].
  exists 1%nat. split; [lia|]. rewrite (W 1%nat ltac:(lia)). simpl. rewrite Reqb_true by auto. simpl.
  unfold pair_a. replace (1 * 1) with 1 by ring. rewrite sqrt_1. lra.
Qed.

(* Reusing the row buffers without clearing them adds the old rows to the new ones. *)
Theorem C14_workspace_reuse_refuted : exists n a da d2a zs T omk,
  (forall i, (i < n)%nat -> 0 < a i) /\ sym n omk /\ (forall i, (i < n)%nat -> omk i i = 1) /\ rsum n zs = 1 /\ (forall i, (i < n)%nat -> 0 < zs i) /\
  let '(_, _, _, rows, drows) := a_alpha_and_derivatives_quadratic_terms a (fun i => sqrt (a i)) da d2a T zs omk (fun _ => 0) (fun _ => 0) n in
  let '(_, _, _, rows', _) := a_alpha_and_derivatives_quadratic_terms a (fun i => sqrt (a i)) da d2a T zs omk rows drows n in
  exists i, (i < n)%nat /\ rows' i = 2 * rows i /\ rows' i <> rsum n (fun j => zs j * pair_a a omk i j).
Proof.
  exists 1%nat, (fun _ => 1), (fun _ => 0), (fun _ => 0), (fun _ => 1), 300, (fun _ _ => 1).
  assert (Hp : forall i : nat, (i < 1)%nat -> 0 < (fun _ : nat => 1) i) by (intros; lra).
  assert (Hk : sym 1 (fun _ _ => 1)) by (intros i j _ _; auto).
  splits; auto; [simpl; ring|].
  pose proof (C14_workspace_rows 1 (fun _ => 1) (fun _ => 0) (fun _ => 0) (fun i => 1) 300 (fun _ _ => 1) (fun _ => 0) (fun _ => 0) Hp Hk ltac:(auto)) as W.
  destruct (a_alpha_and_derivatives_quadratic_terms _ _ _ _ _ _ _ _ _ _) as [[[[v v1] v2] rows] drows].
  pose proof (C14_workspace_rows 1 (fun _ => 1) (fun _ => 0) (fun _ => 0) (fun i => 1) 300 (fun _ _ => 1) rows drows Hp Hk ltac:(auto)) as W'.
  destruct (a_alpha_and_derivatives_quadratic_terms _ _ _ _ _ _ _ _ _ _) as [[[[v' v1'] v2'] rows'] drows'].
  exists 0%nat. split; [lia|]. rewrite (W' 0%nat ltac:(lia)), (W 0%nat ltac:(lia)). simpl. rewrite Reqb_false by lra. simpl.
  unfold pair_a. replace (1 * 1) with 1 by ring. rewrite sqrt_1. split; lra.
Qed.

Example C14_hypotheses_met : exists (a da : nat -> R -> R) d2a omk zs,
  smooth2_at 3 a da 300 d2a /\ (forall i, (i < 3)%nat -> 0 < a i 300) /\ sym 3 omk /\ (forall i, (i < 3)%nat -> omk i i = 1) /\
  (forall i, (i < 3)%nat -> 0 <= zs i) /\ rsum 3 zs = 1 /\ omk 0%nat 1%nat = 95 / 100 /\ a 1%nat 300 = 300 * 300 + 1.
Proof.
  exists (fun i t => t * t + INR i), (fun i t => 2 * t), (fun _ => 2), (fun i j => if (i =? j)%nat then 1 else 95 / 100), (fun i => match i with O => 1/2 | 1%nat => 0 | _ => 1/2 end).
  splits.
  - intros i Hi. split; [apply filter_forall; intros t; auto_derive; auto; ring|auto_derive; auto; ring].
  - intros i Hi. pose proof (pos_INR i). lra.
  - intros i j _ _. cbv beta. rewrite Nat.eqb_sym. reflexivity.
  - intros i Hi. rewrite Nat.eqb_refl. reflexivity.
  - intros i Hi. destruct i as [|[|i]]; lra.
  - simpl. field.
  - reflexivity.
  - simpl. ring.
Qed.
