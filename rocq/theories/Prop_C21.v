(* C21: the derivatives and activity coefficients reported by UNIQUAC. *)
From Coq Require Import Reals Lra Lia Arith Bool FunctionalExtensionality.
From Coquelicot Require Import Coquelicot.
From Verif Require Import Base BaseFacts Spec_mix Spec_activity MixFacts MixDeriv LnphiFacts NrtlFacts ActFacts WilsonFacts UniquacFacts Gen_wilson Gen_uniquac Prop_C20.
Open Scope R_scope.

(* loops that write one slot per pass *)
Lemma loop_slot {S A} n (get : S -> nat -> A) (B : nat -> S -> S) (P : nat -> A -> Prop) o :
  (forall k o, (k < n)%nat -> P k (get (B k o) k)) -> (forall k o q, (k < n)%nat -> q <> k -> get (B k o) q = get o q) -> forall k, (k < n)%nat -> P k (get (loop n B o) k).
Proof.
  intros H1 H2. assert (forall m, (m <= n)%nat -> forall k, (k < m)%nat -> P k (get (loop m B o) k)) as H.
  { induction m; intros Hm k Hk. lia. cbn [loop]. destruct (Nat.eq_dec k m) as [->|Hn]. apply H1; lia. rewrite H2 by lia. apply IHm; lia. }
  intros k Hk. now apply H.
Qed.
Lemma loop_keep {S A} n (g : S -> A) (B : nat -> S -> S) o : (forall k o, (k < n)%nat -> g (B k o) = g o) -> g (loop n B o) = g o.
Proof. induction n; intros H. reflexivity. cbn [loop]. rewrite H by lia. apply IHn. intros; apply H; lia. Qed.
Lemma dl_same k : dl k k = 1. Proof. unfold dl. now rewrite Nat.eqb_refl. Qed.
Lemma dl_diff k i : i <> k -> dl k i = 0. Proof. intros. unfold dl. now rewrite eqb_ne'. Qed.
Lemma dl_sym k i : dl k i = dl i k. Proof. unfold dl. rewrite Nat.eqb_sym. reflexivity. Qed.

Section Arrays.
Context (n : nat) (x c : nat -> R).
Let S := UL n c x.
Lemma phis_eq w : snd (uniquac_phis n x c w) = / S /\ forall i, (i < n)%nat -> fst (uniquac_phis n x c w) i = x i * c i / S.
Proof.
  unfold uniquac_phis.
  assert (forall m, loop m (fun i st_ => let '(phis, rsxs_sum_inv) := st_ in let phis := upd phis i (c i * x i) in let rsxs_sum_inv := rsxs_sum_inv + phis i in (phis, rsxs_sum_inv)) (w, 0)
     = (loop m (fun i o => upd o i (c i * x i)) w, rsum m (fun j => x j * c j))) as E.
  { cbv zeta. induction m. reflexivity. cbn [loop rsum]. rewrite IHm. cbv beta iota zeta. f_equal. f_equal. unfold upd. rewrite Nat.eqb_refl. ring. }
  cbv beta zeta in *. rewrite E. cbv beta iota. cbn [fst snd]. split. unfold S, UL, Rdiv. ring.
  intros i Hi. rewrite (loop_upd_self n (fun i v => v * (1 / rsum n (fun j => x j * c j)))) by auto. rewrite (loop_upd_lt n) by auto. unfold S, UL, Rdiv. ring.
Qed.
Lemma dphis_eq phis w v0 i j : (forall i, (i < n)%nat -> phis i = x i * c i / S) -> (i < n)%nat -> (j < n)%nat -> uniquac_dphis_dxs n c phis (/ S) w v0 i j = dl j i * c i / S - x i * c i * c j / S / S.
Proof.
  intros Hphi Hi Hj. unfold uniquac_dphis_dxs. cbv zeta.
  set (v := loop n (fun i vec0 => upd vec0 i (phis i * - / S)) v0). assert (forall i, (i < n)%nat -> v i = - (x i * c i) / S / S) as Hv. { intros k Hk. unfold v. rewrite (loop_upd_lt n) by auto. rewrite Hphi by auto. unfold Rdiv. ring. } clearbody v.
  revert j Hj i Hi. apply (loop_slot n (fun (o : nat -> nat -> R) j => fun i => o i j) _ (fun j col => forall i, (i < n)%nat -> col i = dl j i * c i / S - x i * c i * c j / S / S)).
  - intros j o Hj i Hi. cbv beta. unfold updm at 1. rewrite Nat.eqb_refl, andb_true_r.
    assert (forall i, (i < n)%nat -> loop n (fun i o => updm o i j (v i * c j)) o i j = v i * c j) as E.
    { intros k Hk. apply (loop_slot n (fun (o : nat -> nat -> R) i => o i j) (fun i o => updm o i j (v i * c j)) (fun i e => e = v i * c j)); auto. intros. unfold updm. now rewrite !Nat.eqb_refl. intros. unfold updm. rewrite eqb_ne' by auto. reflexivity. }
    destruct (Nat.eqb_spec i j) as [->|Hn]. rewrite E, dl_same, Hv by auto. unfold Rdiv. ring. rewrite E, dl_diff, Hv by auto. unfold Rdiv. ring.
  - intros j o k Hj Hk. apply functional_extensionality. intros i. unfold updm at 1. rewrite (eqb_ne' k j), ?andb_false_r, ?andb_false_r by auto.
    apply (loop_keep n (fun o : nat -> nat -> R => o i k) (fun i o => updm o i j (v i * c j))). intros. unfold updm. rewrite (eqb_ne' k j), ?andb_false_r, ?andb_false_r by auto. reflexivity.
Qed.
Definition ud2 (i j m : nat) : R := 2 * x m * c m * c i * c j / S / S / S - dl i m * c m * c j / S / S - dl j m * c i * c m / S / S.
Lemma d2phis_eq w v0 v1 i j m : (i < n)%nat -> (j < n)%nat -> (m < n)%nat -> uniquac_d2phis_dxixjs n x c (/ S) w v0 v1 i j m = ud2 i j m.
Proof.
  intros Hi Hj Hm. unfold uniquac_d2phis_dxixjs. cbv zeta.
  set (a := loop n _ v0). assert (forall i, (i < n)%nat -> a i = 2 * (x i * c i) / S / S / S - / S / S) as Ha. { intros k Hk. unfold a. rewrite (loop_upd_lt n) by auto. unfold Rdiv. ring. } clearbody a.
  set (b := loop n _ v1). assert (forall i, (i < n)%nat -> b i = 2 * (x i * c i) / S / S / S) as Hb. { intros k Hk. unfold b. rewrite (loop_upd_lt n) by auto. unfold Rdiv. ring. } clearbody b.
  revert i Hi j m Hj Hm.
  apply (loop_slot n (fun (o : nat -> nat -> nat -> R) i => o i) _ (fun i M => forall j m, (j < n)%nat -> (m < n)%nat -> M j m = ud2 i j m)).
  - intros k o Hk j m Hj Hm.
    set (o1 := loop n _ o).
    assert (forall j, (j < n)%nat -> forall m, (m < n)%nat -> o1 k j m = ud2 k j m + dl k j * (dl k m * 2 * c k * c j / S / S)) as H1.
    { unfold o1. apply (loop_slot n (fun (o : nat -> nat -> nat -> R) j => o k j) _ (fun j V => forall m, (m < n)%nat -> V m = ud2 k j m + dl k j * (dl k m * 2 * c k * c j / S / S))).
      - intros p o' Hp s Hs. cbv beta zeta. set (o2 := loop n _ o').
        assert (forall m, (m < n)%nat -> o2 k p m = c k * c p * b m) as H2.
        { intros t Ht. unfold o2. apply (loop_slot n (fun (o : nat -> nat -> nat -> R) i => o k p i) _ (fun i e => e = c k * c p * b i)); auto. intros. unfold updt. now rewrite !Nat.eqb_refl. intros. unfold updt. rewrite (eqb_ne' _ _ H0), ?andb_false_r, ?andb_false_r. reflexivity. }
        clearbody o2. destruct (Nat.eqb_spec p k) as [->|Hpk].
        + cbn [negb]. rewrite H2, Hb, dl_same by auto. unfold ud2. destruct (Nat.eq_dec s k) as [->|Hs']. rewrite dl_same. unfold Rdiv. ring. rewrite dl_diff by auto. unfold Rdiv. ring.
        + cbn [negb]. rewrite (dl_diff k p) by auto. rewrite Rmult_0_l, Rplus_0_r. unfold ud2, updt. rewrite !Nat.eqb_refl. cbn [andb].
          destruct (Nat.eqb_spec s p) as [->|Hsp]. rewrite Ha, dl_same, dl_diff by auto. unfold Rdiv. ring.
          destruct (Nat.eqb_spec s k) as [->|Hsk]. rewrite Ha, dl_same, dl_diff by auto. unfold Rdiv. ring.
          rewrite H2, Hb, !dl_diff by auto. unfold Rdiv. ring.
      - intros p o' s Hp Hs. cbv beta zeta. apply functional_extensionality. intros t. set (o2 := loop n _ o').
        assert (o2 k s t = o' k s t) as E. { unfold o2. apply (loop_keep n (fun o : nat -> nat -> nat -> R => o k s t)). intros. unfold updt. rewrite (eqb_ne' s p), ?andb_false_r, ?andb_false_r by auto. reflexivity. }
        destruct (negb _). unfold updt. rewrite (eqb_ne' s p), ?andb_false_r by auto. exact E. exact E. }
    clearbody o1. unfold updt. rewrite !Nat.eqb_refl. cbn [andb]. destruct (Nat.eqb_spec j k) as [->|Hjk]; cbn [andb].
    + destruct (Nat.eqb_spec m k) as [->|Hmk]. rewrite H1, dl_same by auto. unfold Rdiv. ring. rewrite H1, dl_same, (dl_diff k m) by auto. unfold Rdiv. ring.
    + rewrite H1, (dl_diff k j) by auto. unfold Rdiv. ring.
  - intros k o s Hk Hs. apply functional_extensionality; intros j; apply functional_extensionality; intros m. unfold updt at 1. rewrite (eqb_ne' s k) by auto. cbn [andb].
    apply (loop_keep n (fun o : nat -> nat -> nat -> R => o s j m)). intros p o' Hp. set (o2 := loop n _ o').
    assert (o2 s j m = o' s j m) as E. { unfold o2. apply (loop_keep n (fun o : nat -> nat -> nat -> R => o s j m)). intros. unfold updt. rewrite (eqb_ne' s k) by auto. reflexivity. }
    destruct (negb _). unfold updt. rewrite (eqb_ne' s k) by auto. exact E. exact E.
Qed.
End Arrays.

Lemma ln_quot a b : 0 < a -> 0 < b -> ln (a / b) = ln a - ln b.
Proof. intros. unfold Rdiv. rewrite ln_mult, ln_Rinv by auto using Rinv_0_lt_compat. reflexivity. Qed.
Lemma ln_ratio a b c d : 0 < a -> 0 < b -> 0 < c -> 0 < d -> ln (a * b / c / d) = ln a + ln b - ln c - ln d.
Proof. intros. assert (0 < a * b) by (now apply Rmult_lt_0_compat). assert (0 < a * b / c) by (now apply Rdiv_lt_0_compat). rewrite !ln_quot, ln_mult by auto. reflexivity. Qed.

Section Core.
Context (n : nat) (x r q : nat -> R) (tau : nat -> nat -> R) (Hx : pos n x) (Hr : pos n r) (Hq : pos n q) (Ht : forall i j, (i < n)%nat -> (j < n)%nat -> 0 < tau i j).
Notation Rx := (UL n r x). Notation Qx := (UL n q x). Notation V := (UV n q tau x).
Context (taus phd thd : nat -> nat -> R) (phis phinv thetas tt ttinv : nat -> R).
Context (Etau : forall i j, (i < n)%nat -> (j < n)%nat -> taus i j = tau i j)
  (Eph : forall i, (i < n)%nat -> phis i = x i * r i / Rx) (Epi : forall i, (i < n)%nat -> phinv i = Rx / (x i * r i)) (Eth : forall i, (i < n)%nat -> thetas i = x i * q i / Qx)
  (Ett : forall i, (i < n)%nat -> tt i = V i / Qx) (Eti : forall i, (i < n)%nat -> ttinv i = Qx / V i)
  (Edp : forall i j, (i < n)%nat -> (j < n)%nat -> phd i j = dl j i * r i / Rx - x i * r i * r j / Rx / Rx)
  (Edt : forall i j, (i < n)%nat -> (j < n)%nat -> thd i j = dl j i * q i / Qx - x i * q i * q j / Qx / Qx).
Ltac pp k Hk := pose proof (Hx k Hk); pose proof (Hr k Hk); pose proof (Hq k Hk); pose proof (pos_sum n r x k Hk Hr Hx); pose proof (pos_sum n q x k Hk Hq Hx); pose proof (pos_V n q tau Hq Ht x k Hk Hx).
Lemma core_GE T : uniquac_GE T n 10 x q phis thetas tt = Rgas * T * UE n r q tau x.
Proof.
  unfold uniquac_GE. cbv zeta. rewrite (loop_ext n _ (fun i g => g + (x i * ucst r q i + x i * (- ln Rx) + x i * q i * (5 * ln Rx - 4 * ln Qx) - x i * (q i * ln (V i))))).
  2:{ intros i g Hi. pp i Hi. rewrite Eph, Eth, Ett by auto. rewrite (ln_quot (V i)) by auto. 
    replace (x i * r i / Rx / x i) with (r i / Rx) by (field; lra). replace (x i * q i / Qx / (x i * r i / Rx)) with (q i * Rx / Qx / r i) by (field; lra). rewrite ln_ratio, ln_quot by auto. unfold ucst. field. }
  rewrite loop_rsum. rewrite rsum_minus, !rsum_plus, !rsum_scal_r. fold (UL n (ucst r q) x) Qx. unfold UE. ring.
Qed.
Lemma tdsum (M : nat -> nat -> R) i j : (i < n)%nat -> (j < n)%nat -> rsum n (fun k => M k j * thd k i) = q i * M i j / Qx - q i * UV n q M x j / Qx / Qx.
Proof.
  intros Hi Hj. rewrite (rsum_ext n _ (fun k => dl i k * (q k * M k j / Qx) - x k * (q k * M k j) * (q i / Qx / Qx))).
  2:{ intros k Hk. rewrite Edt by auto. unfold Rdiv. ring. }
  rewrite rsum_minus, rsum_scal_r. rewrite (rsum_dl n i (fun k => q k * M k j / Qx)) by auto. unfold UV, Rdiv. ring.
Qed.
Lemma core_dx T w k : (k < n)%nat -> uniquac_dGE_dxs n T x q taus phis phinv phd thetas thd tt ttinv w k = Rgas * T * Ug n r q tau x k.
Proof.
  intros Hk. unfold uniquac_dGE_dxs. cbv zeta. rewrite (loop_upd_lt n) by auto. f_equal. pp k Hk.
  rewrite (loop_ext n _ (fun j t => t + (x j * q j * (5 * (r k / Rx - q k / Qx) + q k / Qx) - x j * (q j * (q k * tau k j / V j)) - x j * (r k / Rx) + dl k j * (x j * r k / Rx)))).
  2:{ intros j t Hj. rewrite loop_rsum. rewrite (rsum_ext n _ (fun m => tau m j * thd m k)) by (intros; now rewrite Etau). rewrite tdsum by auto. fold (V j).
    rewrite Epi, Eti, Edt, Edp, Eph, Eth by auto. pp j Hj. destruct (Nat.eqb_spec k j) as [->|Hn]; cbn [negb]. rewrite dl_same. field. lra. rewrite dl_diff by auto. field. lra. }
  rewrite loop_rsum. rewrite rsum_plus, !rsum_minus, !rsum_scal_r, (rsum_dl n k (fun j => x j * r k / Rx)) by auto. fold Qx.
  rewrite Epi, Edp, Eph, Eth, Ett, dl_same by auto. rewrite (ln_quot (V k)) by auto.
  replace (x k * r k / Rx / x k) with (r k / Rx) by (field; lra). replace (x k * q k / Qx * (Rx / (x k * r k))) with (q k * Rx / Qx / r k) by (field; lra). rewrite ln_ratio, ln_quot by auto. unfold Ug, ucst. field. lra.
Qed.
(* the derivative of Ug in T, from the derivatives dtau of tau *)
Definition Ug_T (dtau : nat -> nat -> R) (k : nat) : R := - (q k * (UV n q dtau x k / V k) + rsum n (fun i => x i * (q i * (q k * (dtau k i / V i - tau k i * UV n q dtau x i / V i ^ 2))))).
Lemma core_dTdx T dtau dtaus dtt qsxs qsxst w1 w2 w3 w4 w5 k : (k < n)%nat ->
  (forall i j, (i < n)%nat -> (j < n)%nat -> dtaus i j = dtau i j) -> (forall i, (i < n)%nat -> dtt i = UV n q dtau x i / Qx) -> (forall i, (i < n)%nat -> qsxs i = q i * x i) -> (forall i, (i < n)%nat -> qsxst i = q i * x i * Qx / V i) ->
  uniquac_d2GE_dTdxs n T x q taus phis phinv phd thetas thd dtaus tt ttinv dtt qsxs qsxst w1 w2 w3 w4 w5 k = Rgas * (Ug n r q tau x k + T * Ug_T dtau k).
Proof.
  intros Hk Ed Edtt Eqx Eqt. unfold uniquac_d2GE_dTdxs. cbv zeta. pp k Hk.
  set (v1 := loop n _ w2). assert (forall i, (i < n)%nat -> v1 i = q i * x i * Qx / V i * (UV n q dtau x i / Qx) * (Qx / V i)) as E1. { intros. unfold v1. rewrite (loop_upd_lt n), Eqt, Edtt, Eti by auto. reflexivity. } clearbody v1.
  set (v2 := loop n _ w3). assert (forall i, (i < n)%nat -> v2 i = Qx) as E2. { intros i Hi. unfold v2. rewrite (loop_upd_lt n), Eqx, Eth by auto. pp i Hi. field. lra. } clearbody v2.
  set (v3 := loop n _ w4). assert (forall i, (i < n)%nat -> v3 i = - q i / r i * Rx) as E3. { intros i Hi. unfold v3. rewrite (loop_upd_lt n), E2, Eth, Epi by auto. pp i Hi. field. lra. } clearbody v3.
  set (v4 := loop n _ w5). assert (forall i, (i < n)%nat -> v4 i = Rx / r i) as E4. { intros i Hi. unfold v4. rewrite (loop_upd_lt n), Epi by auto. pp i Hi. field. lra. } clearbody v4.
  match goal with |- loop n ?st0 ?w k = _ => rewrite (loop_fill n st0 (fun k => Rgas * (Ug n r q tau x k + T * Ug_T dtau k)) w k Hk) end; auto.
  intros i o Hi. pp i Hi.
  match goal with |- context [loop n ?st0 (0, 0, 0, 0, 0)] => assert (forall m, (m <= n)%nat -> loop m st0 (0, 0, 0, 0, 0) =
    (rsum m (fun j => x j * (q j * (q i * (dtau i j / V j))) - x j * (q j * (q i * UV n q dtau x j / (Qx * V j)))),
     rsum m (fun j => x j * (q j * (q i * (tau i j * UV n q dtau x j / V j ^ 2))) - x j * (q j * (q i * UV n q dtau x j / (Qx * V j)))),
     rsum m (fun j => x j * (q j * (q i * tau i j / V j)) - x j * q j * (q i / Qx)),
     rsum m (fun j => x j * q j * (r i / Rx - q i / Qx)), rsum m (fun j => dl i j * 1 - x j * (r i / Rx)))) as EL end.
  { induction m; intros Hm. reflexivity. cbn [loop]. rewrite IHm by lia. cbv beta iota zeta. rewrite !loop_rsum. cbn [rsum]. assert (m < n)%nat as Hj by lia. pp m Hj.
    rewrite (rsum_ext n (fun k => dtaus k m * thd k i) (fun k => dtau k m * thd k i)) by (intros; now rewrite Ed). rewrite (rsum_ext n (fun k => taus k m * thd k i) (fun k => tau k m * thd k i)) by (intros; now rewrite Etau).
    rewrite !tdsum, E1, E2, E3, E4, Eqt, Edt, Edp by auto. fold (V m). (apply f_equal2; [apply f_equal2; [apply f_equal2; [apply f_equal2|]|]|]); field; lra. }
  rewrite EL by lia. cbv beta iota. clear EL. f_equal. f_equal.
  rewrite !rsum_minus, (rsum_dl n i (fun _ => 1)), !rsum_scal_r by auto. fold Qx.
  rewrite Epi, Edp, Eph, Eth, Ett, Eti, Edtt, dl_same by auto. rewrite (ln_quot (V i)) by auto.
  replace (x i * r i / Rx / x i) with (r i / Rx) by (field; lra). replace (x i * q i / Qx * (Rx / (x i * r i))) with (q i * Rx / Qx / r i) by (field; lra). rewrite ln_ratio, ln_quot by auto.
  unfold Ug_T, Ug, ucst. rewrite (rsum_ext n (fun i0 => x i0 * (q i0 * (q i * (dtau i i0 / V i0 - tau i i0 * UV n q dtau x i0 / V i0 ^ 2)))) (fun j => x j * (q j * (q i * (dtau i j / V j))) - x j * (q j * (q i * (tau i j * UV n q dtau x j / V j ^ 2))))) by (intros; ring).
  rewrite rsum_minus. field. lra.
Qed.

Lemma rsum_skip i (A : nat -> R) t : (i < n)%nat -> loop n (fun m t => if negb (m =? i)%nat then t + A m else t) t = t + (rsum n A - A i).
Proof.
  intros Hi. rewrite (loop_ext n _ (fun m t => t + (A m - dl i m * A m))). rewrite loop_rsum, rsum_minus, rsum_dl by auto. ring.
  intros m t0 Hm. destruct (Nat.eqb_spec m i) as [->|Hn]; cbn [negb]. rewrite dl_same. ring. rewrite dl_diff by auto. ring.
Qed.
Lemma rsum_skip_sub i (A : nat -> R) t : (i < n)%nat -> loop n (fun m t => if negb (m =? i)%nat then t - A m else t) t = t - (rsum n A - A i).
Proof.
  intros Hi. rewrite (loop_ext n _ (fun m t => t - (A m - dl i m * A m))). rewrite loop_rsub, rsum_minus, rsum_dl by auto. ring.
  intros m t0 Hm. destruct (Nat.eqb_spec m i) as [->|Hn]; cbn [negb]. rewrite dl_same. ring. rewrite dl_diff by auto. ring.
Qed.
Context (d2ph d2th : nat -> nat -> nat -> R).
Context (Ed2p : forall i j m, (i < n)%nat -> (j < n)%nat -> (m < n)%nat -> d2ph i j m = ud2 n x r i j m) (Ed2t : forall i j m, (i < n)%nat -> (j < n)%nat -> (m < n)%nat -> d2th i j m = ud2 n x q i j m).
Lemma sumA i j : (i < n)%nat -> (j < n)%nat -> rsum n (fun m => x m / phis m * d2ph i j m) = 2 * rsum n x * r i * r j / Rx ^ 2 - r j / Rx - r i / Rx.
Proof.
  intros Hi Hj. pp i Hi. rewrite (rsum_ext n _ (fun m => x m * (2 * r i * r j / Rx ^ 2) - dl i m * (r j / Rx) - dl j m * (r i / Rx))).
  2:{ intros m Hm. rewrite Ed2p, Eph by auto. unfold ud2. pp m Hm. field. lra. }
  rewrite !rsum_minus, (rsum_dl n i (fun _ => r j / Rx)), (rsum_dl n j (fun _ => r i / Rx)), rsum_scal_r by auto. field. lra.
Qed.
Lemma sumB i j : (i < n)%nat -> (j < n)%nat -> rsum n (fun m => x m / (phis m * phis m) * (phd m i * phd m j)) = dl i j / x i - r j / Rx - r i / Rx + rsum n x * r i * r j / Rx ^ 2.
Proof.
  intros Hi Hj. pp i Hi. rewrite (rsum_ext n _ (fun m => dl i m * (dl j m / x m) - dl i m * (r j / Rx) - dl j m * (r i / Rx) + x m * (r i * r j / Rx ^ 2))).
  2:{ intros m Hm. rewrite !Edp, Eph by auto. pp m Hm. field. lra. }
  rewrite rsum_plus, !rsum_minus, (rsum_dl n i (fun _ => r j / Rx)), (rsum_dl n j (fun _ => r i / Rx)), (rsum_dl n i (fun m => dl j m / x m)), rsum_scal_r by auto. rewrite (dl_sym j i). field. lra.
Qed.
Lemma tsum2 i j k : (i < n)%nat -> (j < n)%nat -> (k < n)%nat -> rsum n (fun m => taus m k * d2th i j m) = 2 * V k * q i * q j / Qx ^ 3 - q i * q j * (tau i k + tau j k) / Qx ^ 2.
Proof.
  intros Hi Hj Hk. pp i Hi. rewrite (rsum_ext n _ (fun m => x m * (q m * tau m k) * (2 * q i * q j / Qx ^ 3) - dl i m * (q m * q j * tau m k / Qx ^ 2) - dl j m * (q i * q m * tau m k / Qx ^ 2))).
  2:{ intros m Hm. rewrite Ed2t, Etau by auto. unfold ud2. field. lra. }
  rewrite !rsum_minus, (rsum_dl n i (fun m => q m * q j * tau m k / Qx ^ 2)), (rsum_dl n j (fun m => q i * q m * tau m k / Qx ^ 2)), rsum_scal_r by auto. fold (V k). field. lra.
Qed.
Lemma core_d2x T w i j : (i < n)%nat -> (j < n)%nat -> uniquac_d2GE_dxixjs n T x q taus phis thetas phd d2ph thd d2th tt w i j = Rgas * T * UH n r q tau x i j.
Proof.
  intros Hi Hj. unfold uniquac_d2GE_dxixjs. cbv zeta.
  set (Tm := loop n _ (fun _ _ => 0)).
  assert (forall i j, (i < n)%nat -> (j < n)%nat -> Tm i j = q i * tau i j / Qx - q i * V j / Qx / Qx) as ET.
  { intros a b Ha Hb. unfold Tm. entries. rewrite Rplus_0_l, <- tdsum by auto. apply rsum_ext. intros. now rewrite Etau. }
  clearbody Tm.
  match goal with |- loop n (fun k_ o => loop n (fun m_ o => updm o k_ m_ (@?F k_ m_)) o) ?w _ _ = _ => rewrite (loop_updm_lt n F w i j) by auto end. cbv beta. f_equal.
  assert (forall t, loop n (fun k tot =>
              let thing := 0 in
              let thing := loop n (fun m thing => let thing := thing + taus m k * d2th i j m in thing) thing in
              let tot := tot - q k * x k * thing / tt k in
              let tot := tot - q k * x k * Tm i k * -1 * Tm j k / (tt k * tt k) in
              let tot := tot + q k * x k * 10 / (2 * thetas k) * (thd k i / phis k - thetas k * phd k i / (phis k * phis k)) * phd k j in
              let tot := tot + q k * x k * 10 * phis k / (2 * thetas k) * (d2th i j k / phis k - 1 / (phis k * phis k) * (thetas k * d2ph i j k + phd k i * thd k j + phd k j * thd k i) + 2 * thetas k * phd k i * phd k j / (phis k * phis k * phis k)) in
              let tot := tot - q k * x k * 10 * phis k * thd k j / (2 * thetas k * thetas k) * (thd k i / phis k - thetas k * phd k i / (phis k * phis k)) in tot) t
     = t + (5 * Qx * (q i * q j / Qx ^ 2 - r i * r j / Rx ^ 2) + rsum n (fun k => x k * (q k * (q i * tau i k) * (q j * tau j k) / V k ^ 2)) - q i * q j / Qx)) as L3.
  { intros t. cbv zeta. pp i Hi. rewrite (loop_ext n _ (fun k t => t + (x k * q k * (5 * (q i * q j / Qx ^ 2 - r i * r j / Rx ^ 2)) + x k * (q k * (q i * tau i k) * (q j * tau j k) / V k ^ 2) - x k * q k * (q i * q j / Qx ^ 2)))).
    2:{ intros k t0 Hk. rewrite loop_rsum, Rplus_0_l, tsum2, !ET, !Edp, !Edt, Ed2p, Ed2t, Eph, Eth, Ett by auto. unfold ud2. pp k Hk. field. lra. }
    rewrite loop_rsum, rsum_minus, rsum_plus, !rsum_scal_r. fold Qx. field. lra. }
  cbv zeta in L3. rewrite L3. clear L3. pp i Hi. pp j Hj.
  destruct (lt_eq_lt_dec i j) as [[Hij| <-]|Hij].
  - rewrite !(eqb_ne' i j) by lia. cbn [negb]. rewrite (proj2 (Nat.ltb_lt i j) Hij). rewrite Nat.min_l, Nat.max_r by lia.
    rewrite (rsum_skip_sub i (fun m => x m / (phis m * phis m) * (phd m i * phd m j))) by auto. rewrite (rsum_skip i (fun m => x m / phis m * d2ph i j m)) by auto.
    rewrite sumA, sumB by auto. cbv beta. rewrite !ET, !Edp, !Edt, !Ed2p, !Eph, !Eth, !Ett by auto. unfold ud2. rewrite !dl_same, !(dl_diff i j), !(dl_diff j i) by lia. unfold UH. field. lra.
  - rewrite !Nat.eqb_refl. cbn [negb]. rewrite Nat.ltb_irrefl, Nat.min_id, Nat.max_id.
    rewrite (rsum_skip_sub i (fun m => x m / (phis m * phis m) * (phd m i * phd m i))) by auto. rewrite (rsum_skip i (fun m => x m / phis m * d2ph i i m)) by auto.
    rewrite sumA, sumB by auto. cbv beta. rewrite !ET, !Edp, !Edt, !Ed2p, !Eph, !Eth, !Ett by auto. unfold ud2. rewrite !dl_same. unfold UH. field. lra.
  - rewrite !(eqb_ne' i j) by lia. cbn [negb]. rewrite (proj2 (Nat.ltb_ge i j)) by lia. rewrite Nat.min_r, Nat.max_l by lia.
    rewrite (rsum_skip_sub j (fun m => x m / (phis m * phis m) * (phd m i * phd m j))) by auto. rewrite (rsum_skip j (fun m => x m / phis m * d2ph i j m)) by auto.
    rewrite sumA, sumB by auto. cbv beta. rewrite !ET, !Edp, !Edt, !Ed2p, !Eph, !Eth, !Ett by auto. unfold ud2. rewrite !dl_same, !(dl_diff i j), !(dl_diff j i) by lia. unfold UH. field. lra.
Qed.
End Core.

(* scalar derivatives along T *)
Lemma lnT (s : R -> R) T v : 0 < s T -> is_derive s T v -> is_derive (fun t => ln (s t)) T (v / s T).
Proof. intros H0 H. auto_derive. splits; trivial; try exd. dv H. chR. field. lra. Qed.
Lemma quT (s u : R -> R) T w : 0 < s T -> is_derive s T (u T) -> is_derive u T w -> is_derive (fun t => u t / s t) T (w / s T - u T ^ 2 / s T ^ 2).
Proof. intros H0 H H1. auto_derive. splits; trivial; try exd. lra. dv H. dv H1. chR. field. lra. Qed.
Lemma qu2T (s u v : R -> R) T w : 0 < s T -> is_derive s T (u T) -> is_derive u T (v T) -> is_derive v T w ->
  is_derive (fun t => v t / s t - u t ^ 2 / s t ^ 2) T (w / s T - 3 * v T * u T / s T ^ 2 + 2 * u T ^ 3 / s T ^ 3).
Proof. intros H0 H H1 H2. auto_derive. splits; trivial; try exd; nz. dv H. dv H1. dv H2. chR. field. lra. Qed.
Lemma quqT (s u p : R -> R) T v : 0 < s T -> is_derive s T (u T) -> is_derive p T v -> is_derive (fun t => p t / s t) T (v / s T - p T * u T / s T ^ 2).
Proof. intros H0 H H1. auto_derive. splits; trivial; try exd. lra. dv H. dv H1. chR. field. lra. Qed.

Section Class.
Context (N : nat) (r q : nat -> R) (Hr : pos N r) (Hq : pos N q) (a b c d e f : nat -> nat -> R).
Notation tau T := (lam a b c d e f T). Notation dtau T := (dlam a b c d e f T). Notation d2tau T := (d2lam a b c d e f T). Notation d3tau T := (d3lam a b c d e f T).
Section Entry.
Context (i j : nat) (Hi : (i < N)%nat) (Hj : (j < N)%nat) (T : R) (HT : 0 < T).
Lemma tau_eq : UNIQUAC_taus N T a b c d e f i j = tau T i j.
Proof. exact (lam_eq N a b c d e f i j Hi Hj T HT). Qed.
Lemma dtau_eq : UNIQUAC_dtaus_dT N T a b c d e f i j = dtau T i j.
Proof. exact (dlam_eq N a b c d e f i j Hi Hj T HT). Qed.
Lemma d2tau_eq : UNIQUAC_d2taus_dT2 N T a b c d e f i j = d2tau T i j.
Proof. exact (d2lam_eq N a b c d e f i j Hi Hj T HT). Qed.
Lemma d3tau_eq : UNIQUAC_d3taus_dT3 N T a b c d e f i j = d3tau T i j.
Proof. exact (d3lam_eq N a b c d e f i j Hi Hj T HT). Qed.
End Entry.
Lemma tau_pos T i j : (i < N)%nat -> (j < N)%nat -> 0 < tau T i j. Proof. intros _ _. apply lam_pos. Qed.
Section AtX.
Context (x : nat -> R) (Hx : pos N x).
Lemma ph_eq i : (i < N)%nat -> UNIQUAC_phis N x r i = x i * r i / UL N r x.
Proof. intros Hi. unfold UNIQUAC_phis. cbv zeta. pose proof (phis_eq N x r (fun _ => 0)) as [_ E]. destruct (uniquac_phis N x r (fun _ => 0)). apply E. exact Hi. Qed.
Lemma rs_eq : UNIQUAC_rsxs_sum_inv N x r = / UL N r x.
Proof. unfold UNIQUAC_rsxs_sum_inv. cbv zeta. pose proof (phis_eq N x r (fun _ => 0)) as [E _]. destruct (uniquac_phis N x r (fun _ => 0)). exact E. Qed.
Lemma th_eq i : (i < N)%nat -> UNIQUAC_thetas N x q i = x i * q i / UL N q x.
Proof. intros Hi. unfold UNIQUAC_thetas. cbv zeta. pose proof (phis_eq N x q (fun _ => 0)) as [_ E]. destruct (uniquac_phis N x q (fun _ => 0)). apply E. exact Hi. Qed.
Lemma qs_eq : UNIQUAC_qsxs_sum_inv N x q = / UL N q x.
Proof. unfold UNIQUAC_qsxs_sum_inv. cbv zeta. pose proof (phis_eq N x q (fun _ => 0)) as [E _]. destruct (uniquac_phis N x q (fun _ => 0)). exact E. Qed.
Ltac pp T k Hk := pose proof (Hx k Hk); pose proof (Hr k Hk); pose proof (Hq k Hk); pose proof (pos_sum N r x k Hk Hr Hx); pose proof (pos_sum N q x k Hk Hq Hx); pose proof (pos_V N q (tau T) Hq (tau_pos T) x k Hk Hx).
Lemma pi_eq i : (i < N)%nat -> UNIQUAC_phis_inv N x r i = UL N r x / (x i * r i).
Proof. intros Hi. unfold UNIQUAC_phis_inv. cbv zeta. rewrite ph_eq by auto. pp 1 i Hi. field. lra. Qed.
Lemma dph_eq i j : (i < N)%nat -> (j < N)%nat -> UNIQUAC_dphis_dxs N x r i j = dl j i * r i / UL N r x - x i * r i * r j / UL N r x / UL N r x.
Proof. intros Hi Hj. unfold UNIQUAC_dphis_dxs. cbv zeta. rewrite rs_eq. apply dphis_eq; auto. intros. now apply ph_eq. Qed.
Lemma dth_eq i j : (i < N)%nat -> (j < N)%nat -> UNIQUAC_dthetas_dxs N x q i j = dl j i * q i / UL N q x - x i * q i * q j / UL N q x / UL N q x.
Proof. intros Hi Hj. unfold UNIQUAC_dthetas_dxs. cbv zeta. rewrite qs_eq. apply dphis_eq; auto. intros. now apply th_eq. Qed.
Lemma d2ph_eq i j m : (i < N)%nat -> (j < N)%nat -> (m < N)%nat -> UNIQUAC_d2phis_dxixjs N x r i j m = ud2 N x r i j m.
Proof. intros. unfold UNIQUAC_d2phis_dxixjs. cbv zeta. rewrite rs_eq. now apply d2phis_eq. Qed.
Lemma d2th_eq i j m : (i < N)%nat -> (j < N)%nat -> (m < N)%nat -> UNIQUAC_d2thetas_dxixjs N x q i j m = ud2 N x q i j m.
Proof. intros. unfold UNIQUAC_d2thetas_dxixjs. cbv zeta. rewrite qs_eq. now apply d2phis_eq. Qed.
Lemma tt_gen (M M' : nat -> nat -> R) th w i : (i < N)%nat -> (forall i j, (i < N)%nat -> (j < N)%nat -> M i j = M' i j) -> (forall j, (j < N)%nat -> th j = x j * q j / UL N q x) -> uniquac_thetaj_taus_jis N M th w i = UV N q M' x i / UL N q x.
Proof.
  intros Hi HM Hth. unfold uniquac_thetaj_taus_jis. cbv zeta. rewrite (loop_upd_lt N) by auto. rewrite loop_rsum, Rplus_0_l. unfold UV, Rdiv. rewrite <- rsum_scal_r. apply rsum_ext. intros j Hj. rewrite Hth, HM by auto. unfold Rdiv. ring.
Qed.
Section AtT.
Context (T : R) (HT : 0 < T).
Lemma tt_eq i : (i < N)%nat -> UNIQUAC_thetaj_taus_jis N T x q a b c d e f i = UV N q (tau T) x i / UL N q x.
Proof. intros Hi. unfold UNIQUAC_thetaj_taus_jis. cbv zeta. apply tt_gen; auto. intros; now apply tau_eq. intros; now apply th_eq. Qed.
Lemma dtt_eq i : (i < N)%nat -> UNIQUAC_thetaj_dtaus_dT_jis N T x q a b c d e f i = UV N q (dtau T) x i / UL N q x.
Proof. intros Hi. unfold UNIQUAC_thetaj_dtaus_dT_jis. cbv zeta. apply tt_gen; auto. intros; now apply dtau_eq. intros; now apply th_eq. Qed.
Lemma d2tt_eq i : (i < N)%nat -> UNIQUAC_thetaj_d2taus_dT2_jis N T x q a b c d e f i = UV N q (d2tau T) x i / UL N q x.
Proof. intros Hi. unfold UNIQUAC_thetaj_d2taus_dT2_jis. cbv zeta. apply tt_gen; auto. intros; now apply d2tau_eq. intros; now apply th_eq. Qed.
Lemma d3tt_eq i : (i < N)%nat -> UNIQUAC_thetaj_d3taus_dT3_jis N T x q a b c d e f i = UV N q (d3tau T) x i / UL N q x.
Proof. intros Hi. unfold UNIQUAC_thetaj_d3taus_dT3_jis. cbv zeta. apply tt_gen; auto. intros; now apply d3tau_eq. intros; now apply th_eq. Qed.
Lemma ti_eq i : (i < N)%nat -> UNIQUAC_thetaj_taus_jis_inv N T x q a b c d e f i = UL N q x / UV N q (tau T) x i.
Proof. intros Hi. unfold UNIQUAC_thetaj_taus_jis_inv. cbv zeta. rewrite tt_eq by auto. pp T i Hi. field. lra. Qed.
Hint Resolve tau_eq dtau_eq ph_eq pi_eq th_eq tt_eq dtt_eq ti_eq dph_eq dth_eq d2ph_eq d2th_eq tau_pos : core.
Lemma uGE_eq : UNIQUAC_GE N T x r q a b c d e f = Rgas * T * UE N r q (tau T) x.
Proof. unfold UNIQUAC_GE. cbv zeta. apply core_GE; auto. Qed.
Lemma udx_eq k : (k < N)%nat -> UNIQUAC_dGE_dxs N T x r q a b c d e f k = Rgas * T * Ug N r q (tau T) x k.
Proof. intros Hk. unfold UNIQUAC_dGE_dxs. cbv zeta. apply core_dx; auto. Qed.
Lemma ud2x_eq k m : (k < N)%nat -> (m < N)%nat -> UNIQUAC_d2GE_dxixjs N T x r q a b c d e f k m = Rgas * T * UH N r q (tau T) x k m.
Proof. intros Hk Hm. unfold UNIQUAC_d2GE_dxixjs. cbv zeta. apply core_d2x; auto. Qed.
Lemma udTdx_eq k : (k < N)%nat -> UNIQUAC_d2GE_dTdxs N T x r q a b c d e f k = Rgas * (Ug N r q (tau T) x k + T * Ug_T N x q (tau T) (dtau T) k).
Proof.
  intros Hk. unfold UNIQUAC_d2GE_dTdxs. cbv zeta. apply core_dTdx; auto. intros i Hi. rewrite ti_eq by auto. unfold Rdiv. ring.
Qed.
Definition uS1 := rsum N (fun i => x i * (q i * (UV N q (dtau T) x i / UV N q (tau T) x i))).
Definition uS2 := rsum N (fun i => x i * (q i * (UV N q (d2tau T) x i / UV N q (tau T) x i - UV N q (dtau T) x i ^ 2 / UV N q (tau T) x i ^ 2))).
Definition uS3 := rsum N (fun i => x i * (q i * (UV N q (d3tau T) x i / UV N q (tau T) x i - 3 * UV N q (d2tau T) x i * UV N q (dtau T) x i / UV N q (tau T) x i ^ 2 + 2 * UV N q (dtau T) x i ^ 3 / UV N q (tau T) x i ^ 3))).
Lemma udT_eq : UNIQUAC_dGE_dT N T x r q a b c d e f = Rgas * (UE N r q (tau T) x - T * uS1).
Proof.
  unfold UNIQUAC_dGE_dT, uniquac_dGE_dT. cbv zeta. rewrite loop_rsub. rewrite uGE_eq. rewrite (rsum_ext N _ (fun i => x i * (q i * (UV N q (dtau T) x i / UV N q (tau T) x i)))). fold uS1. field. lra.
  intros i Hi. rewrite dtt_eq, tt_eq by auto. pp T i Hi. field. lra.
Qed.
Lemma ud2T_eq : UNIQUAC_d2GE_dT2 N T x r q a b c d e f = - Rgas * (2 * uS1 + T * uS2).
Proof.
  unfold UNIQUAC_d2GE_dT2, uniquac_d2GE_dT2. cbv zeta. rewrite udT_eq, uGE_eq. rewrite (loop_ext N _ (fun i t => t + x i * (q i * (UV N q (d2tau T) x i / UV N q (tau T) x i - UV N q (dtau T) x i ^ 2 / UV N q (tau T) x i ^ 2)))).
  rewrite loop_rsum. fold uS2. field. pose proof Rgas_pos. lra.
  intros i t Hi. rewrite dtt_eq, tt_eq, d2tt_eq by auto. pp T i Hi. field. lra.
Qed.
Lemma ud3T_eq : UNIQUAC_d3GE_dT3 N T x q a b c d e f = - Rgas * (3 * uS2 + T * uS3).
Proof.
  unfold UNIQUAC_d3GE_dT3, uniquac_d3GE_dT3. cbv zeta.
  match goal with |- context [loop N ?st0 (0, 0)] => assert (loop N st0 (0, 0) = (0 + uS3, 0 + 3 * uS2)) as -> end.
  { unfold uS2. rewrite <- rsum_scal_l. unfold uS3. rewrite <- loop_acc2. apply loop_ext. intros i [s0 s1] Hi. cbv beta iota zeta. rewrite dtt_eq, tt_eq, d2tt_eq, d3tt_eq by auto. pp T i Hi. apply f_equal2; field; lra. }
  ring.
Qed.
Lemma ugam_eq k : (k < N)%nat -> rsum N x = 1 -> UNIQUAC_gammas N T x r q a b c d e f k = exp (Ug N r q (tau T) x k + 1).
Proof.
  intros Hk Hs. unfold UNIQUAC_gammas, ext_dxs_to_dn_partials. cbv zeta. f_equal. rewrite uGE_eq, udx_eq by auto. rewrite (rsum_ext N _ (fun j => Rgas * T * (x j * Ug N r q (tau T) x j))) by (intros; rewrite udx_eq by auto; ring).
  rewrite rsum_scal_l, (Ug_sum N r q (tau T) Hr Hq (tau_pos T) x k) by auto. rewrite Hs. field. pose proof Rgas_pos. lra.
Qed.
End AtT.
Lemma UV_T (L dL : R -> nat -> nat -> R) T i : (forall i j, is_derive (fun t => L t i j) T (dL T i j)) -> is_derive (fun t => UV N q (L t) x i) T (UV N q (dL T) x i).
Proof. intros H. unfold UV. apply (is_derive_rsum N (fun j t => x j * (q j * L t j i))). intros j Hj. apply (is_derive_scal (fun t => q j * L t j i)). apply (is_derive_scal (fun t => L t j i)). apply H. Qed.
Lemma UE_T T : 0 < T -> is_derive (fun t => UE N r q (tau t) x) T (- uS1 T).
Proof.
  intros HT. unfold UE, uS1. eapply is_derive_eq. apply (is_derive_minus (fun _ => UL N (ucst r q) x - rsum N x * ln (UL N r x) + 5 * (UL N q x * ln (UL N r x)) - 4 * (UL N q x * ln (UL N q x))) (fun t => rsum N (fun i => x i * (q i * ln (UV N q (tau t) x i))))).
  apply is_derive_const. apply (is_derive_rsum N (fun i t => x i * (q i * ln (UV N q (tau t) x i)))). intros i Hi. apply (is_derive_scal (fun t => q i * ln (UV N q (tau t) x i))). apply (is_derive_scal (fun t => ln (UV N q (tau t) x i))).
  apply (lnT (fun t => UV N q (tau t) x i)). now apply pos_V; auto using tau_pos. apply (UV_T (fun t => tau t) (fun t => dtau t)). intros; now apply lam_d. chR. unfold minus, opp, plus, zero; cbn. ring.
Qed.
Lemma S1_T T : 0 < T -> is_derive uS1 T (uS2 T).
Proof.
  intros HT. unfold uS1, uS2. apply (is_derive_rsum N (fun i t => x i * (q i * (UV N q (dtau t) x i / UV N q (tau t) x i)))). intros i Hi. apply (is_derive_scal (fun t => q i * (UV N q (dtau t) x i / UV N q (tau t) x i))). apply (is_derive_scal (fun t => UV N q (dtau t) x i / UV N q (tau t) x i)).
  apply (quT (fun t => UV N q (tau t) x i) (fun t => UV N q (dtau t) x i)). now apply pos_V; auto using tau_pos. apply (UV_T (fun t => tau t) (fun t => dtau t)). intros; now apply lam_d. apply (UV_T (fun t => dtau t) (fun t => d2tau t)). intros; now apply dlam_d.
Qed.
Lemma S2_T T : 0 < T -> is_derive uS2 T (uS3 T).
Proof.
  intros HT. unfold uS2, uS3. apply (is_derive_rsum N (fun i t => x i * (q i * (UV N q (d2tau t) x i / UV N q (tau t) x i - UV N q (dtau t) x i ^ 2 / UV N q (tau t) x i ^ 2)))). intros i Hi.
  apply (is_derive_scal (fun t => q i * (UV N q (d2tau t) x i / UV N q (tau t) x i - UV N q (dtau t) x i ^ 2 / UV N q (tau t) x i ^ 2))). apply (is_derive_scal (fun t => UV N q (d2tau t) x i / UV N q (tau t) x i - UV N q (dtau t) x i ^ 2 / UV N q (tau t) x i ^ 2)).
  apply (qu2T (fun t => UV N q (tau t) x i) (fun t => UV N q (dtau t) x i) (fun t => UV N q (d2tau t) x i)). now apply pos_V; auto using tau_pos. apply (UV_T (fun t => tau t) (fun t => dtau t)). intros; now apply lam_d. apply (UV_T (fun t => dtau t) (fun t => d2tau t)). intros; now apply dlam_d. apply (UV_T (fun t => d2tau t) (fun t => d3tau t)). intros; now apply d2lam_d.
Qed.
Lemma Ug_dT T k : 0 < T -> (k < N)%nat -> is_derive (fun t => Ug N r q (tau t) x k) T (Ug_T N x q (tau T) (dtau T) k).
Proof.
  intros HT Hk. unfold Ug, Ug_T. eapply is_derive_eq. apply (is_derive_minus (fun _ => ucst r q k - (ln (UL N r x) + rsum N x * r k / UL N r x) + 5 * (q k * ln (UL N r x) + UL N q x * r k / UL N r x) - 4 * (q k * ln (UL N q x) + q k)) (fun t => q k * ln (UV N q (tau t) x k) + rsum N (fun i => x i * (q i * (q k * tau t k i / UV N q (tau t) x i))))).
  apply is_derive_const. apply (is_derive_plus (fun t => q k * ln (UV N q (tau t) x k)) (fun t => rsum N (fun i => x i * (q i * (q k * tau t k i / UV N q (tau t) x i))))).
  apply (is_derive_scal (fun t => ln (UV N q (tau t) x k))). apply (lnT (fun t => UV N q (tau t) x k)). now apply pos_V; auto using tau_pos. apply (UV_T (fun t => tau t) (fun t => dtau t)). intros; now apply lam_d.
  apply (is_derive_rsum N (fun i t => x i * (q i * (q k * tau t k i / UV N q (tau t) x i)))). intros i Hi. apply (is_derive_scal (fun t => q i * (q k * tau t k i / UV N q (tau t) x i))). apply (is_derive_scal (fun t => q k * tau t k i / UV N q (tau t) x i)).
  apply (quqT (fun t => UV N q (tau t) x i) (fun t => UV N q (dtau t) x i) (fun t => q k * tau t k i)). now apply pos_V; auto using tau_pos. apply (UV_T (fun t => tau t) (fun t => dtau t)). intros; now apply lam_d. apply (is_derive_scal (fun t => tau t k i)). now apply lam_d.
  unfold minus, opp, plus, zero; cbn. match goal with |- _ + - (?A + ?B) = - (?A' + ?B') => assert (B = B') as -> end. apply rsum_ext; intros i Hi; unfold Rdiv; ring. ring.
Qed.
End AtX.
End Class.

Section Statements.
Variables (N : nat) (rs qs : nat -> R) (tau_as tau_bs tau_cs tau_ds tau_es tau_fs : nat -> nat -> R).
Let GE T x := UNIQUAC_GE N T x rs qs tau_as tau_bs tau_cs tau_ds tau_es tau_fs.
Let dGE_dT T x := UNIQUAC_dGE_dT N T x rs qs tau_as tau_bs tau_cs tau_ds tau_es tau_fs.
Let d2GE_dT2 T x := UNIQUAC_d2GE_dT2 N T x rs qs tau_as tau_bs tau_cs tau_ds tau_es tau_fs.
Let d3GE_dT3 T x := UNIQUAC_d3GE_dT3 N T x qs tau_as tau_bs tau_cs tau_ds tau_es tau_fs.
Let dGE_dxs T x := UNIQUAC_dGE_dxs N T x rs qs tau_as tau_bs tau_cs tau_ds tau_es tau_fs.
Let d2GE_dxixjs T x := UNIQUAC_d2GE_dxixjs N T x rs qs tau_as tau_bs tau_cs tau_ds tau_es tau_fs.
Let d2GE_dTdxs T x := UNIQUAC_d2GE_dTdxs N T x rs qs tau_as tau_bs tau_cs tau_ds tau_es tau_fs.
Let gammas T x := UNIQUAC_gammas N T x rs qs tau_as tau_bs tau_cs tau_ds tau_es tau_fs.
Let taus T := UNIQUAC_taus N T tau_as tau_bs tau_cs tau_ds tau_es tau_fs.
Let Tau T i j := wilson_lambda_form (tau_as i j) (tau_bs i j) (tau_cs i j) (tau_ds i j) (tau_es i j) (tau_fs i j) T.

Theorem C21_UNIQUAC_taus T i j : 0 < T -> (i < N)%nat -> (j < N)%nat ->
  taus T i j = Tau T i j /\
  is_derive (fun t => taus t i j) T (UNIQUAC_dtaus_dT N T tau_as tau_bs tau_cs tau_ds tau_es tau_fs i j) /\
  is_derive (fun t => UNIQUAC_dtaus_dT N t tau_as tau_bs tau_cs tau_ds tau_es tau_fs i j) T (UNIQUAC_d2taus_dT2 N T tau_as tau_bs tau_cs tau_ds tau_es tau_fs i j) /\
  is_derive (fun t => UNIQUAC_d2taus_dT2 N t tau_as tau_bs tau_cs tau_ds tau_es tau_fs i j) T (UNIQUAC_d3taus_dT3 N T tau_as tau_bs tau_cs tau_ds tau_es tau_fs i j).
Proof.
  intros HT Hi Hj. unfold taus. rewrite dtau_eq, d2tau_eq, d3tau_eq by auto. splits. now apply tau_eq.
  - eapply is_derive_ext_loc. 2: now apply lam_d. apply pos_T; auto. intros t Ht. now rewrite tau_eq.
  - eapply is_derive_ext_loc. 2: now apply dlam_d. apply pos_T; auto. intros t Ht. now rewrite dtau_eq.
  - eapply is_derive_ext_loc. 2: now apply d2lam_d. apply pos_T; auto. intros t Ht. now rewrite d2tau_eq.
Qed.

Hypotheses (Hr : positive N rs) (Hq : positive N qs).
Notation L T := (lam tau_as tau_bs tau_cs tau_ds tau_es tau_fs T).
Notation S1 := (uS1 N qs tau_as tau_bs tau_cs tau_ds tau_es tau_fs). Notation S2 := (uS2 N qs tau_as tau_bs tau_cs tau_ds tau_es tau_fs). Notation S3 := (uS3 N qs tau_as tau_bs tau_cs tau_ds tau_es tau_fs).

(* the sums over the interaction parameters read in either direction *)
Theorem C21_UNIQUAC_theta_tau_sums x T i : positive N x -> 0 < T -> (i < N)%nat ->
  (forall j, (j < N)%nat -> UNIQUAC_thetas N x qs j = x j * qs j / rsum N (fun k => x k * qs k)) /\
  UNIQUAC_thetaj_taus_jis N T x qs tau_as tau_bs tau_cs tau_ds tau_es tau_fs i = rsum N (fun j => x j * qs j / rsum N (fun k => x k * qs k) * Tau T j i) /\
  UNIQUAC_thetaj_taus_ijs N T x qs tau_as tau_bs tau_cs tau_ds tau_es tau_fs i = rsum N (fun j => x j * qs j / rsum N (fun k => x k * qs k) * Tau T i j).
Proof.
  intros Hx HT Hi.
  assert (HU : UL N qs x = rsum N (fun k => x k * qs k)) by (unfold UL; apply rsum_ext; intros; ring).
  assert (Hth : forall j, (j < N)%nat -> UNIQUAC_thetas N x qs j = x j * qs j / rsum N (fun k => x k * qs k)) by (intros j Hj; rewrite th_eq by auto; now rewrite HU).
  splits; auto.
  - unfold UNIQUAC_thetaj_taus_jis, uniquac_thetaj_taus_jis. cbv zeta. rewrite (loop_upd_lt N) by auto. rewrite loop_rsum, Rplus_0_l. apply rsum_ext. intros j Hj. rewrite Hth, tau_eq by auto. reflexivity.
  - unfold UNIQUAC_thetaj_taus_ijs, uniquac_thetaj_taus_ijs. cbv zeta. rewrite (loop_upd_lt N) by auto. rewrite loop_rsum, Rplus_0_l. apply rsum_ext. intros j Hj. rewrite Hth, tau_eq by auto. reflexivity.
Qed.

Theorem C21_UNIQUAC_GE_form x T : positive N x -> 0 < T -> GE T x = uniquac_GE_form N x rs qs (Tau T) (Rgas * T).
Proof.
  intros Hx HT. unfold GE. unfold UNIQUAC_GE, uniquac_GE, uniquac_GE_form. cbv zeta.
  rewrite (loop_ext N _ (fun i g => g + (x i * ln (x i * rs i / UL N rs x / x i) + 10 / 2 * (qs i * x i * ln (x i * qs i / UL N qs x / (x i * rs i / UL N rs x))) - qs i * x i * ln (rsum N (fun j => x j * qs j / UL N qs x * Tau T j i))))).
  - rewrite loop_rsum, rsum_minus, rsum_plus, rsum_scal_l. unfold UL. ring.
  - intros i g Hi. rewrite ph_eq, th_eq, tt_eq by auto. pose proof (Hx i Hi).
    replace (rsum N (fun j => x j * qs j / UL N qs x * Tau T j i)) with (UV N qs (L T) x i / UL N qs x). 2:{ unfold UV, Rdiv. rewrite <- rsum_scal_r. apply rsum_ext. intros j Hj. change (Tau T j i) with (L T j i). ring. }
    match goal with |- context [ln (UV N ?q ?l ?x i / ?u)] => generalize (ln (UV N q l x i / u)) end; intros. field.
Qed.
Section AtX.
Variable (x : nat -> R). Hypothesis (Hx : positive N x).
Lemma dT1 T : 0 < T -> is_derive (fun t => GE t x) T (dGE_dT T x).
Proof.
  intros HT. unfold GE, dGE_dT. rewrite udT_eq by auto. eapply is_derive_ext_loc. { apply (pos_T T); auto. intros t Ht. symmetry. now apply uGE_eq. }
  pose proof (UE_T N rs qs Hq tau_as tau_bs tau_cs tau_ds tau_es tau_fs x Hx T HT) as H. asf s H. change (is_derive (fun t => Rgas * t * s t) T (Rgas * (s T - T * S1 x T))). clearbody s.
  auto_derive. exd. dv H. chR. ring.
Qed.
Lemma dT2 T : 0 < T -> is_derive (fun t => dGE_dT t x) T (d2GE_dT2 T x).
Proof.
  intros HT. unfold d2GE_dT2, dGE_dT. rewrite ud2T_eq by auto. eapply is_derive_ext_loc. { apply (pos_T T); auto. intros t Ht. symmetry. now apply udT_eq. }
  pose proof (UE_T N rs qs Hq tau_as tau_bs tau_cs tau_ds tau_es tau_fs x Hx T HT) as H. pose proof (S1_T N qs Hq tau_as tau_bs tau_cs tau_ds tau_es tau_fs x Hx T HT) as H1. asf s H. asf u H1.
  change (is_derive (fun t => Rgas * (s t - t * u t)) T (- Rgas * (2 * u T + T * S2 x T))). change (S1 x T) with (u T) in H. clearbody s u.
  auto_derive. splits; trivial; exd. dv H. dv H1. chR. ring.
Qed.
Lemma dT3 T : 0 < T -> is_derive (fun t => d2GE_dT2 t x) T (d3GE_dT3 T x).
Proof.
  intros HT. unfold d2GE_dT2, d3GE_dT3. rewrite (ud3T_eq N rs) by auto. eapply is_derive_ext_loc. { apply (pos_T T); auto. intros t Ht. symmetry. now apply ud2T_eq. }
  pose proof (S1_T N qs Hq tau_as tau_bs tau_cs tau_ds tau_es tau_fs x Hx T HT) as H. pose proof (S2_T N qs Hq tau_as tau_bs tau_cs tau_ds tau_es tau_fs x Hx T HT) as H1. asf s H. asf u H1.
  change (is_derive (fun t => - Rgas * (2 * s t + t * u t)) T (- Rgas * (3 * u T + T * S3 x T))). change (S2 x T) with (u T) in H. clearbody s u.
  auto_derive. splits; trivial; exd. dv H. dv H1. chR. ring.
Qed.
End AtX.
Theorem C21_UNIQUAC_dGE_dT x T : positive N x -> 0 < T -> is_derive (fun t => GE t x) T (dGE_dT T x).
Proof. intros; now apply dT1. Qed.
Theorem C21_UNIQUAC_d2GE_dT2 x T : positive N x -> 0 < T -> second_derive (fun t => GE t x) T (d2GE_dT2 T x).
Proof. intros Hx HT. exists (fun t => dGE_dT t x). split. apply pos_T; auto. intros; now apply dT1. now apply dT2. Qed.
Theorem C21_UNIQUAC_d3GE_dT3 x T : positive N x -> 0 < T -> third_derive (fun t => GE t x) T (d3GE_dT3 T x).
Proof. intros Hx HT. exists (fun t => dGE_dT t x), (fun t => d2GE_dT2 t x). splits. apply pos_T; auto. intros; now apply dT1. apply pos_T; auto. intros; now apply dT2. now apply dT3. Qed.
Theorem C21_UNIQUAC_dGE_dxs x T k : positive N x -> 0 < T -> (k < N)%nat -> partial (GE T) x k (dGE_dxs T x k).
Proof.
  intros Hx HT Hk. unfold dGE_dxs. rewrite udx_eq by auto. apply (partial_near N _ (fun y => Rgas * T * UE N rs qs (L T) y)); auto.
  eapply near_impl. 2: apply near_pos_x; exact Hx. intros y Hy. now apply uGE_eq. apply partial_scal. apply UE_partial; auto. apply tau_pos.
Qed.
Theorem C21_UNIQUAC_d2GE_dxixjs x T k m : positive N x -> 0 < T -> (k < N)%nat -> (m < N)%nat -> second_partial N (GE T) x k m (d2GE_dxixjs T x k m).
Proof.
  intros Hx HT Hk Hm. exists (fun y => dGE_dxs T y k). split.
  - eapply near_impl. 2: apply near_pos_x; exact Hx. intros y Hy. now apply C21_UNIQUAC_dGE_dxs.
  - unfold d2GE_dxixjs. rewrite ud2x_eq by auto. apply (partial_near N _ (fun y => Rgas * T * Ug N rs qs (L T) y k)); auto.
    eapply near_impl. 2: apply near_pos_x; exact Hx. intros y Hy. now apply udx_eq. apply partial_scal. apply (Ug_partial N rs qs (L T)); auto. apply tau_pos.
Qed.
Theorem C21_UNIQUAC_d2GE_dTdxs x T k : positive N x -> 0 < T -> (k < N)%nat -> mixed_partial GE T x k (d2GE_dTdxs T x k).
Proof.
  intros Hx HT Hk. exists (fun t => dGE_dxs t x k). split. apply pos_T; auto. intros. now apply C21_UNIQUAC_dGE_dxs.
  unfold d2GE_dTdxs, dGE_dxs. rewrite udTdx_eq by auto. eapply is_derive_ext_loc. { apply (pos_T T); auto. intros t Ht. symmetry. now apply udx_eq. }
  pose proof (Ug_dT N rs qs Hq tau_as tau_bs tau_cs tau_ds tau_es tau_fs x Hx T k HT Hk) as H. asf s H. match type of H with is_derive _ _ ?l => set (v := l) in * end. change (is_derive (fun t => Rgas * t * s t) T (Rgas * (s T + T * v))). clearbody s v.
  auto_derive. exd. dv H. chR. ring.
Qed.
(* activity coefficients *)
Theorem C21_UNIQUAC_ln_gamma ns T i : 0 < T -> positive N ns -> (i < N)%nat -> is_ln_gamma N (GE T) (Rgas * T) ns i (ln (gammas T (fractions N ns) i)).
Proof.
  intros HT Hx Hi. pose proof (pos_tot N ns i Hi Hx) as H1. unfold is_ln_gamma, gammas.
  assert (Hf : positive N (fractions N ns)). { intros j Hj. apply Rdiv_lt_0_compat; auto. }
  assert (Hs : rsum N (fractions N ns) = 1). { unfold fractions. rewrite rsum_div_r. field. lra. }
  rewrite ugam_eq, ln_exp by auto. rewrite (Ug_frac N rs qs (L T) Hr Hq (tau_pos N tau_as tau_bs tau_cs tau_ds tau_es tau_fs T) ns i) by auto.
  apply (total_near N (GE T) (fun y => Rgas * T * (UE N rs qs (L T) y + rsum N y * ln (rsum N y)))); auto.
  { split; auto. intros j Hj. pose proof (Hx j Hj). lra. }
  - eapply near_impl. 2: apply near_pos_x; exact Hx. intros y Hy. unfold GE. pose proof (pos_tot N y i Hi Hy).
    assert (positive N (fractions N y)). { intros j Hj. apply Rdiv_lt_0_compat; auto. }
    rewrite uGE_eq by auto. rewrite <- (UE_frac N rs qs (L T) Hr Hq (tau_pos N tau_as tau_bs tau_cs tau_ds tau_es tau_fs T) y i) by auto. field. lra.
  - eapply partial_val. { apply partial_scal. apply (partial_plus (UE N rs qs (L T)) (fun y => rsum N y * ln (rsum N y))). apply UE_partial; auto. apply tau_pos.
      apply (partial_mult (fun y => rsum N y) (fun y => ln (rsum N y))). now apply tot_partial. apply partial_ln. exact H1. now apply tot_partial. }
    cbv beta. field. lra.
Qed.
Theorem C21_UNIQUAC_GE_sum x T : 0 < T -> positive N x -> rsum N x = 1 -> GE T x = Rgas * T * rsum N (fun i => x i * ln (gammas T x i)).
Proof.
  intros HT Hx Hs. unfold GE. rewrite uGE_eq by auto. destruct N as [|n0] eqn:EN. cbn in Hs; lra. rewrite <- EN in *.
  rewrite (rsum_ext N _ (fun i => x i * Ug N rs qs (L T) x i + x i)). 2:{ intros. unfold gammas. rewrite <- EN. rewrite ugam_eq, ln_exp by auto. ring. }
  rewrite rsum_plus, (Ug_sum N rs qs (L T) Hr Hq (tau_pos N tau_as tau_bs tau_cs tau_ds tau_es tau_fs T) x 0) by (auto; lia). ring.
Qed.
(* gammas_from_args with the coordination number and the lists made by gammas_args, whatever the output list contains *)
Theorem C21_gammas_from_args x T buf i : 0 < T -> positive N x -> (i < N)%nat -> uniquac_gammas_from_args x N T 10 rs qs (taus T) buf i = gammas T x i.
Proof.
  intros HT Hx Hi. unfold uniquac_gammas_from_args.
  pose proof (phis_eq N x rs (fun _ => 0)) as [E1 E2]. pose proof (phis_eq N x qs (fun _ => 0)) as [E3 E4]. destruct (uniquac_phis N x rs (fun _ => 0)) as [ph ri]. destruct (uniquac_phis N x qs (fun _ => 0)) as [th qi]. cbn in E1, E2, E3, E4.
  cbv zeta. set (tt := uniquac_thetaj_taus_jis N (taus T) th (fun _ => 0)).
  assert (Ett : forall i, (i < N)%nat -> tt i = UV N qs (L T) x i / UL N qs x). { intros. unfold tt. apply tt_gen; auto. intros. now apply tau_eq. }
  unfold gibbs_excess_gammas. cbv zeta. rewrite (loop_upd_lt N) by auto. rewrite loop_rsub.
  rewrite (core_GE N x rs qs (L T)) by (auto; apply tau_pos).
  assert (ED : forall k, (k < N)%nat -> uniquac_dGE_dxs N T x qs (taus T) ph (loop N (fun i o => upd o i (1 / ph i)) (fun _ => 0)) (uniquac_dphis_dxs N rs ph ri (fun _ _ => 0) (fun _ => 0)) th (uniquac_dphis_dxs N qs th qi (fun _ _ => 0) (fun _ => 0)) tt (loop N (fun i o => upd o i (1 / tt i)) (fun _ => 0)) (fun _ => 0) k = Rgas * T * Ug N rs qs (L T) x k).
  { intros k Hk. rewrite E1, E3. apply core_dx; auto.
    - apply tau_pos.
    - intros; now apply tau_eq.
    - intros j Hj. rewrite (loop_upd_lt N) by auto. rewrite E2 by auto. pose proof (Hx j Hj). pose proof (Hr j Hj). pose proof (pos_sum N rs x j Hj Hr Hx). field. lra.
    - intros j Hj. rewrite (loop_upd_lt N) by auto. rewrite Ett by auto. pose proof (pos_sum N qs x j Hj Hq Hx). pose proof (pos_V N qs (L T) Hq (tau_pos N tau_as tau_bs tau_cs tau_ds tau_es tau_fs T) x j Hj Hx). field. lra.
    - intros; now apply dphis_eq.
    - intros; now apply dphis_eq. }
  rewrite ED by auto. unfold gammas, UNIQUAC_gammas, ext_dxs_to_dn_partials. cbv zeta. rewrite uGE_eq, udx_eq by auto. f_equal.
  rewrite (rsum_ext N _ (fun j => x j * UNIQUAC_dGE_dxs N T x rs qs tau_as tau_bs tau_cs tau_ds tau_es tau_fs j)). 2:{ intros j Hj. rewrite ED, udx_eq by auto. reflexivity. }
  field. pose proof Rgas_pos. lra.
Qed.
(* the stand-alone function *)
Lemma alone (M M' : nat -> nat -> R) x i : (forall i j, (i < N)%nat -> (j < N)%nat -> M i j = M' i j) -> (forall i j, (i < N)%nat -> (j < N)%nat -> 0 < M' i j) -> positive N x -> rsum N x = 1 -> (i < N)%nat -> UNIQUAC_gammas_function x rs qs M N i = exp (Ug N rs qs M' x i + 1).
Proof.
  intros HM HP Hx Hs Hi. unfold UNIQUAC_gammas_function. cbv zeta. rewrite (loop_upd_lt N) by auto. f_equal.
  assert (ER : rsum N (fun i => rs i * x i) = UL N rs x) by (apply rsum_ext; intros; ring). assert (EQ : rsum N (fun i => qs i * x i) = UL N qs x) by (apply rsum_ext; intros; ring). rewrite ER, EQ.
  pose proof (pos_sum N rs x i Hi Hr Hx) as PR. pose proof (pos_sum N qs x i Hi Hq Hx) as PQ. pose proof (Hx i Hi). pose proof (Hr i Hi). pose proof (Hq i Hi). pose proof (pos_V N qs M' Hq HP x i Hi Hx) as PV.
  assert (EV : forall j, (j < N)%nat -> rsum N (fun k => qs k * x k * (1 / UL N qs x) * M k j) = UV N qs M' x j / UL N qs x). { intros j Hj. unfold UV, Rdiv. rewrite <- rsum_scal_r. apply rsum_ext. intros. rewrite HM by auto. ring. }
  rewrite EV by auto. rewrite (rsum_ext N _ (fun j => x j * (qs j * (qs i * M' i j / UV N qs M' x j)) * / qs i)).
  2:{ intros j Hj. rewrite EV, HM by auto. pose proof (pos_V N qs M' Hq HP x j Hj Hx). field. lra. }
  rewrite rsum_scal_r. replace (rs i * x i * (1 / UL N rs x) / x i) with (rs i / UL N rs x) by (field; lra). replace (rs i * x i * (1 / UL N rs x) / (qs i * x i * (1 / UL N qs x))) with (rs i * UL N qs x / qs i / UL N rs x) by (field; lra).
  rewrite (ln_ratio (rs i)), (ln_quot (rs i)), (ln_quot (UV N qs M' x i)) by auto. unfold Ug, ucst. rewrite Hs. field. lra.
Qed.
Theorem C21_UNIQUAC_gammas_function x T i : 0 < T -> positive N x -> rsum N x = 1 -> (i < N)%nat -> UNIQUAC_gammas_function x rs qs (taus T) N i = gammas T x i.
Proof. intros HT Hx Hs Hi. unfold gammas. rewrite ugam_eq by auto. apply alone; auto. intros; now apply tau_eq. apply tau_pos. Qed.
End Statements.

(* ---- binary mixtures ---- *)
Lemma UNIQUAC_min_pos : 0 < MIN_TAU_UNIQUAC. Proof. apply Rdiv_lt_0_compat. lra. apply pow_lt. lra. Qed.
Lemma scale_exp r Z A : 0 < r -> 0 < Z -> r * (1 / Z) * exp A = exp (ln r - ln Z + A).
Proof. intros H1 H2. rewrite exp_plus, <- ln_quot, exp_ln by auto using Rdiv_lt_0_compat. unfold Rdiv. ring. Qed.
Theorem C21_UNIQUAC_gammas_binary x1 r1 r2 q1 q2 tau12 tau21 : 0 < x1 < 1 -> 0 < r1 -> 0 < r2 -> 0 < q1 -> 0 < q2 -> 0 < tau12 -> 0 < tau21 ->
  let g := UNIQUAC_gammas_function (pair2 x1 (1 - x1)) (pair2 r1 r2) (pair2 q1 q2) (lam2 tau12 tau21) 2 in
  UNIQUAC_gammas_binary x1 r1 r2 q1 q2 tau12 tau21 = (g 0%nat, g 1%nat).
Proof.
  intros Hx Hr1 Hr2 Hq1 Hq2 H12 H21. cbv zeta.
  assert (P : forall u v, 0 < u -> 0 < v -> positive 2 (pair2 u v)). { intros u v Hu Hv [|[|k]] Hk; cbn; auto; lia. }
  assert (PL : forall i j, (i < 2)%nat -> (j < 2)%nat -> 0 < lam2 tau12 tau21 i j). { intros [|[|k]] [|[|j]] Hk Hj; cbn; try lia; lra. }
  assert (Px : positive 2 (pair2 x1 (1 - x1))) by (apply P; lra). assert (Sx : rsum 2 (pair2 x1 (1 - x1)) = 1) by (cbn; ring).
  rewrite !(alone 2 (pair2 r1 r2) (pair2 q1 q2) (P _ _ Hr1 Hr2) (P _ _ Hq1 Hq2) (lam2 tau12 tau21) (lam2 tau12 tau21)) by (auto; lia).
  pose (y := 1 - x1). assert (Hy : 0 < y) by (unfold y; lra). pose (Rx := r1 * x1 + r2 * y). pose (Qx := q1 * x1 + q2 * y). pose (V1 := q1 * x1 + tau21 * (q2 * y)). pose (V2 := tau12 * (q1 * x1) + q2 * y).
  assert (PR : 0 < Rx) by (unfold Rx; nra). assert (PQ : 0 < Qx) by (unfold Qx; nra).
  assert (P1 : 0 < V1). { unfold V1. assert (0 < q1 * x1) by nra. assert (0 < q2 * y) by nra. nra. } assert (P2 : 0 < V2). { unfold V2. assert (0 < q1 * x1) by nra. assert (0 < q2 * y) by nra. nra. }
  assert (E2 : x1 - 1 = - y) by (unfold y; ring).
  unfold UNIQUAC_gammas_binary. cbv zeta. rewrite E2. fold y.
  replace (- (r2 * - y) + r1 * x1) with Rx by (unfold Rx; ring). replace (r2 * y + r1 * x1) with Rx by (unfold Rx; ring).
  replace (q1 * x1 + - (q2 * - y)) with Qx by (unfold Qx; ring). replace (q1 * x1 + q2 * y) with Qx by (unfold Qx; ring).
  replace (- tau21 * (q2 * - y) + q1 * x1) with V1 by (unfold V1; ring). replace (tau12 * (q1 * x1) + - (q2 * - y)) with V2 by (unfold V2; ring).
  replace (ln (V1 * (1 / Qx))) with (ln V1 - ln Qx) by (rewrite <- ln_quot by auto; f_equal; field; lra).
  replace (ln (V2 * (1 / Qx))) with (ln V2 - ln Qx) by (rewrite <- ln_quot by auto; f_equal; field; lra).
  replace (ln (q1 * (Rx * (1 / Qx)) / r1)) with (ln q1 + ln Rx - ln Qx - ln r1) by (rewrite <- ln_ratio by auto; f_equal; field; lra).
  replace (ln (q2 * (Rx * (1 / Qx)) / r2)) with (ln q2 + ln Rx - ln Qx - ln r2) by (rewrite <- ln_ratio by auto; f_equal; field; lra).
  replace (ln (r1 * (1 / Rx))) with (ln r1 - ln Rx) by (rewrite <- ln_quot by auto; f_equal; field; lra).
  replace (ln (r2 * (1 / Rx))) with (ln r2 - ln Rx) by (rewrite <- ln_quot by auto; f_equal; field; lra).
  unfold Ug, ucst, UL, UV, rsum, loop, pair2, lam2. fold y.
  replace (0 + x1 * r1 + y * r2) with Rx by (unfold Rx; ring). replace (0 + x1 * q1 + y * q2) with Qx by (unfold Qx; ring).
  replace (0 + x1 * (q1 * 1) + y * (q2 * tau21)) with V1 by (unfold V1; ring). replace (0 + x1 * (q1 * tau12) + y * (q2 * 1)) with V2 by (unfold V2; ring).
  replace (0 + x1 + y) with 1 by (unfold y; ring).
  rewrite !scale_exp by auto.
  generalize (ln r1) (ln r2) (ln q1) (ln q2) (ln Rx) (ln Qx) (ln V1) (ln V2). intros lr1 lr2 lq1 lq2 lR lQ l1 l2.
  assert (E21 : tau21 = (V1 - q1 * x1) / (q2 * y)) by (unfold V1; field; lra). assert (E12 : tau12 = (V2 - q2 * y) / (q1 * x1)) by (unfold V2; field; lra).
  assert (ER : r2 = (Rx - r1 * x1) / y) by (unfold Rx; field; lra). assert (EQ : q2 = (Qx - q1 * x1) / y) by (unfold Qx; field; lra). assert (Ey : y = 1 - x1) by reflexivity. assert (N1 : 0 < Qx - q1 * x1) by (unfold Qx; nra).
  clearbody V1 V2 Rx Qx y. clear - PR PQ P1 P2 Hx Hy Hr1 Hr2 Hq1 Hq2 E21 E12 ER EQ Ey N1. rewrite E21, E12. clear E21 E12. rewrite ER, EQ, Ey in *. clear ER EQ Ey y.
  f_equal; f_equal; field; lra.
Qed.
Theorem C21_UNIQUAC_gammas_binaries xs rs qs tau12 tau21 buf pts k : MIN_TAU_UNIQUAC <= tau12 -> MIN_TAU_UNIQUAC <= tau21 -> positive 2 rs -> positive 2 qs -> (k < pts)%nat -> 0 < xs (k * 2)%nat < 1 ->
  let x := pair2 (xs (k * 2)%nat) (1 - xs (k * 2)%nat) in
  let g := UNIQUAC_gammas_function x (pair2 (rs 0%nat) (rs 1%nat)) (pair2 (qs 0%nat) (qs 1%nat)) (lam2 tau12 tau21) 2 in
  UNIQUAC_gammas_binaries xs rs qs tau12 tau21 buf pts (k * 2)%nat = g 0%nat /\ UNIQUAC_gammas_binaries xs rs qs tau12 tau21 buf pts (k * 2 + 1)%nat = g 1%nat.
Proof.
  intros H1 H2 Hr Hq Hk Hx. cbv zeta. pose proof UNIQUAC_min_pos. unfold UNIQUAC_gammas_binaries. cbv zeta. rewrite !Rltb_false by auto.
  pose proof (C21_UNIQUAC_gammas_binary (xs (k * 2)%nat) (rs 0%nat) (rs 1%nat) (qs 0%nat) (qs 1%nat) tau12 tau21 Hx (Hr 0%nat ltac:(lia)) (Hr 1%nat ltac:(lia)) (Hq 0%nat ltac:(lia)) (Hq 1%nat ltac:(lia)) ltac:(lra) ltac:(lra)) as E. cbv zeta in E.
  pose (B i := UNIQUAC_gammas_binary (xs (i * 2)%nat) (rs 0%nat) (rs 1%nat) (qs 0%nat) (qs 1%nat) tau12 tau21).
  destruct (loop_pairs (fun i => fst (B i)) (fun i => snd (B i)) pts buf k Hk) as [A1 A2]. unfold B in A1, A2. rewrite E in A1, A2. cbn [fst snd] in A1, A2. rewrite <- A1, <- A2.
  split; f_equal; f_equal; apply functional_extensionality; intros i; apply functional_extensionality; intros o; destruct (UNIQUAC_gammas_binary _ _ _ _ _ _ _); reflexivity.
Qed.
(* a parameter below the clipping limit is replaced by it *)
Theorem C21_UNIQUAC_gammas_binaries_clip xs rs qs tau12 tau21 buf pts :
  UNIQUAC_gammas_binaries xs rs qs tau12 tau21 buf pts = UNIQUAC_gammas_binaries xs rs qs (Rmax tau12 MIN_TAU_UNIQUAC) (Rmax tau21 MIN_TAU_UNIQUAC) buf pts.
Proof.
  unfold UNIQUAC_gammas_binaries. cbv zeta.
  assert (E : forall t, (if Rltb t MIN_TAU_UNIQUAC then MIN_TAU_UNIQUAC else t) = Rmax t MIN_TAU_UNIQUAC).
  { intros t. destruct (Rlt_le_dec t MIN_TAU_UNIQUAC). rewrite Rltb_true, Rmax_right; auto; lra. rewrite Rltb_false, Rmax_left; auto; lra. }
  rewrite !E. rewrite !(Rmax_left (Rmax _ _)) by apply Rmax_r. reflexivity.
Qed.
(* ethanol and water: the hypotheses hold *)
Example C21_hypotheses_met : positive 2 (pair2 (1 / 4) (3 / 4)) /\ rsum 2 (pair2 (1 / 4) (3 / 4)) = 1 /\ positive 2 (pair2 (21055 / 10000) (92 / 100)) /\ positive 2 (pair2 (1972 / 1000) (14 / 10)) /\ 0 < 34315 / 100 /\ MIN_TAU_UNIQUAC <= 1 / 2.
Proof.
  splits; try (intros [|[|i]] H; cbn; try lra; lia). cbn; lra. lra. unfold MIN_TAU_UNIQUAC, Rdiv. apply Rmult_le_compat_l. lra. apply Rinv_le_contravar. lra. rewrite <- (pow_1 2). apply Rle_trans with (10 ^ 1). lra. apply Rle_pow. lra. lia.
Qed.
