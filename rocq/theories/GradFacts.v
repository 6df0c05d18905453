(* Facts on gradients along curves. *)
From Coq Require Import Reals Lra Lia Arith Bool FunctionalExtensionality.
From Coquelicot Require Import Coquelicot.
From Verif Require Import Base BaseFacts Spec_mix Spec_activity Spec_gradient MixFacts MixDeriv LnphiFacts NrtlFacts ActFacts.
Open Scope R_scope.

Definition diffable (n : nat) (f : (nat -> R) -> R) (x : nat -> R) : Prop := exists g, has_gradient n f x g.
Section G.
Context (n : nat) (x : nat -> R).
Lemma curve_upd k : (k < n)%nat -> curve_through n (fun i t => upd x k t i) (x k) x (dl k).
Proof. intros Hk i Hi. split. now rewrite upd_self. apply upd_derive. Qed.
Lemma grad_partial f g k : has_gradient n f x g -> (k < n)%nat -> partial f x k (g k).
Proof.
  intros H Hk. pose proof (H _ _ _ (curve_upd k Hk)) as D. rewrite (rsum_ext n _ (fun i => dl k i * g i)), rsum_dl in D by (auto; intros; ring). exact D.
Qed.
Lemma grad_uniq f v : diffable n f x -> (forall k, (k < n)%nat -> partial f x k (v k)) -> has_gradient n f x v.
Proof.
  intros [g H] Hv. assert (E : forall k, (k < n)%nat -> g k = v k). { intros k Hk. pose proof (grad_partial f g k H Hk) as D. apply is_derive_unique in D. specialize (Hv k Hk). apply is_derive_unique in Hv. congruence. }
  intros c t dc Hc. rewrite (rsum_ext n _ (fun i => g i * dc i)) by (intros; rewrite E; auto). now apply H.
Qed.
Lemma grad_ext f g v : (forall k, (k < n)%nat -> g k = v k) -> has_gradient n f x g -> has_gradient n f x v.
Proof. intros E H c t dc Hc. rewrite (rsum_ext n _ (fun i => g i * dc i)) by (intros; rewrite E; auto). now apply H. Qed.
(* the values of a curve stay near x *)
Lemma curve_near c t dc P : curve_through n c t x dc -> near n x P -> locally t (fun s => P (fun i => c i s)).
Proof.
  intros Hc (eps & He & HP). assert (L : locally t (fun s => forall i, (i < n)%nat -> Rabs (c i s - x i) < eps)).
  { clear HP P. induction n. apply filter_forall. intros; lia.
    assert (L1 : locally t (fun s => Rabs (c n0 s - x n0) < eps)).
    { destruct (Hc n0 ltac:(lia)) as [E D]. assert (Cn : continuous (c n0) t) by (apply (ex_derive_continuous (c n0) t); eexists; exact D). rewrite <- E. apply (Cn (fun z => Rabs (z - c n0 t) < eps)). exists (mkposreal eps He). intros y Hy. exact Hy. }
    assert (L2 : locally t (fun s => forall i, (i < n0)%nat -> Rabs (c i s - x i) < eps)) by (apply IHn0; intros i Hi; apply Hc; lia).
    eapply filter_imp. 2: apply (filter_and _ _ L1 L2). intros s [A B] i Hi. destruct (Nat.eq_dec i n0) as [->|Hn]; auto. apply B. lia. }
  eapply filter_imp. 2: exact L. intros s Hs. now apply HP.
Qed.
Lemma grad_near f h g : near n x (fun y => f y = h y) -> has_gradient n h x g -> has_gradient n f x g.
Proof.
  intros E H c t dc Hc. eapply is_derive_ext_loc. 2: apply (H c t dc Hc). pose proof (curve_near c t dc _ Hc E) as L. eapply filter_imp. 2: exact L. intros s Hs. symmetry. exact Hs.
Qed.
Lemma diff_near f h : near n x (fun y => f y = h y) -> diffable n h x -> diffable n f x.
Proof. intros E [g H]. exists g. eapply grad_near; eauto. Qed.
Lemma diff_at f : diffable n f x -> forall c t dc, curve_through n c t x dc -> f (fun i => c i t) = f x.
Proof.
  intros [g H] c t dc Hc. (* f cannot see entries beyond n: the constant curve *)
  set (d := fun i s => if Nat.ltb i n then x i else if Rle_dec s 0 then c i t else x i).
  assert (Hd : forall q, curve_through n d q x (fun _ => 0)). { intros q i Hi. unfold d. split. now rewrite ltb_lt' by auto. apply (is_derive_ext (fun _ => x i)). intros; now rewrite ltb_lt' by auto. apply @is_derive_const. }
  assert (D : forall q, is_derive (fun s => f (fun i => d i s)) q 0). { intros q. pose proof (H _ _ _ (Hd q)) as D. rewrite (rsum_ext n _ (fun _ => 0)), rsum_0 in D by (intros; ring). exact D. }
  assert (E : f (fun i => d i 0) = f (fun i => d i 1)). { destruct (MVT_gen (fun s => f (fun i => d i s)) 0 1 (fun _ => 0)) as (z & _ & Hz). intros; apply D. intros. apply continuity_pt_filterlim. apply (ex_derive_continuous (fun s => f (fun i => d i s))). eexists; apply D. lra. }
  replace (fun i => d i 0) with (fun i => c i t) in E. replace (fun i => d i 1) with x in E. exact E.
  apply functional_extensionality. intros i. unfold d. destruct (Nat.ltb i n); auto. destruct (Rle_dec 1 0); auto. lra.
  apply functional_extensionality. intros i. unfold d. destruct (Nat.ltb_spec i n). exact (proj1 (Hc i H0)). destruct (Rle_dec 0 0); auto. lra.
Qed.
Lemma d_coord i : (i < n)%nat -> diffable n (fun y => y i) x.
Proof. intros Hi. exists (dl i). intros c t dc Hc. rewrite rsum_dl by auto. apply (Hc i Hi). Qed.
Lemma d_const k : diffable n (fun _ => k) x.
Proof. exists (fun _ => 0). intros c t dc Hc. rewrite (rsum_ext n _ (fun _ => 0)), rsum_0 by (intros; ring). apply @is_derive_const. Qed.
Lemma d_plus f g : diffable n f x -> diffable n g x -> diffable n (fun y => f y + g y) x.
Proof. intros [u Hu] [v Hv]. exists (fun i => u i + v i). intros c t dc Hc. rewrite (rsum_ext n _ (fun i => u i * dc i + v i * dc i)) by (intros; ring). rewrite rsum_plus. apply @is_derive_plus; auto. Qed.
Lemma d_mult f g : diffable n f x -> diffable n g x -> diffable n (fun y => f y * g y) x.
Proof.
  intros Hf Hg. pose proof (diff_at f Hf) as Ef. pose proof (diff_at g Hg) as Eg. destruct Hf as [u Hu], Hg as [v Hv]. exists (fun i => u i * g x + f x * v i). intros c t dc Hc.
  rewrite (rsum_ext n _ (fun i => (u i * dc i) * g x + f x * (v i * dc i))) by (intros; ring). rewrite rsum_plus, rsum_scal_l, rsum_scal_r. rewrite <- (Ef c t dc Hc), <- (Eg c t dc Hc). apply @is_derive_mult; auto. intros; apply Rmult_comm.
Qed.
Lemma d_comp f (h : R -> R) : diffable n f x -> ex_derive h (f x) -> diffable n (fun y => h (f y)) x.
Proof.
  intros Hf [d Hd]. pose proof (diff_at f Hf) as Ef. destruct Hf as [u Hu]. exists (fun i => u i * d). intros c t dc Hc.
  rewrite (rsum_ext n _ (fun i => (u i * dc i) * d)) by (intros; ring). rewrite rsum_scal_r. apply (is_derive_comp h). now rewrite (Ef c t dc Hc). now apply Hu.
Qed.
Lemma d_opp f : diffable n f x -> diffable n (fun y => - f y) x.
Proof. intros. apply (d_comp f Ropp); auto. auto_derive; auto. Qed.
Lemma d_minus f g : diffable n f x -> diffable n g x -> diffable n (fun y => f y - g y) x.
Proof. intros. apply (d_plus f (fun y => - g y)); auto. now apply d_opp. Qed.
Lemma d_inv f : diffable n f x -> f x <> 0 -> diffable n (fun y => / f y) x.
Proof. intros. apply (d_comp f Rinv); auto. auto_derive; auto. Qed.
Lemma d_div f g : diffable n f x -> diffable n g x -> g x <> 0 -> diffable n (fun y => f y / g y) x.
Proof. intros. apply (d_mult f (fun y => / g y)); auto. now apply d_inv. Qed.
Lemma d_ln f : diffable n f x -> 0 < f x -> diffable n (fun y => ln (f y)) x.
Proof. intros. apply (d_comp f ln); auto. auto_derive; auto. Qed.
Lemma d_exp f : diffable n f x -> diffable n (fun y => exp (f y)) x.
Proof. intros. apply (d_comp f exp); auto. auto_derive; auto. Qed.
Lemma d_pow f k : diffable n f x -> diffable n (fun y => f y ^ k) x.
Proof. intros. apply (d_comp f (fun z => z ^ k)); auto. auto_derive; auto. Qed.
Lemma d_sum m (f : nat -> (nat -> R) -> R) : (forall i, (i < m)%nat -> diffable n (f i) x) -> diffable n (fun y => rsum m (fun i => f i y)) x.
Proof.
  induction m; intros H. apply (d_const 0). unfold rsum. cbn [loop]. apply (d_plus (fun y => rsum m (fun i => f i y)) (f m)). apply IHm. intros; apply H; lia. apply H; lia.
Qed.
Lemma d_tot : diffable n (rsum n) x. Proof. apply (d_sum n (fun i y => y i)). intros; now apply d_coord. Qed.
Lemma d_lin c : diffable n (fun y => rsum n (fun j => y j * c j)) x. Proof. apply (d_sum n (fun j y => y j * c j)). intros. apply d_mult. now apply d_coord. apply d_const. Qed.
End G.
Lemma curve_exists n x dc : curve_through n (fun i s => x i + s * dc i) 0 x dc.
Proof. intros i Hi. split. ring. auto_derive. trivial. ring. Qed.
(* mole fractions as functions of one mole number *)
Lemma frac_curve n x k : rsum n x = 1 -> (k < n)%nat -> curve_through n (fun i t => fractions n (upd x k t) i) (x k) x (fun i => dl k i - x i).
Proof.
  intros Hs Hk i Hi. split. rewrite upd_self. unfold fractions. rewrite Hs. field. unfold fractions.
  assert (D1 : is_derive (fun t : R => upd x k t i) (x k) (dl k i)) by apply upd_derive.
  assert (D2 : is_derive (fun t : R => rsum n (upd x k t)) (x k) 1). { pose proof (partial_lin n x k (fun _ => 1) Hk) as D. unfold partial in D. eapply is_derive_ext. 2: exact D. intros t. cbn. apply rsum_ext. intros; ring. }
  pose proof (is_derive_div _ _ (x k) _ _ D1 D2) as D. cbv beta in D. rewrite !upd_self, Hs in D. apply (is_derive_eq _ _ _ _ (D ltac:(lra))). field.
Qed.
Lemma fractions_of_fractions n x : mole_fractions n x -> fractions n x = x.
Proof. intros [_ H]. apply functional_extensionality. intros i. unfold fractions. rewrite H. field. Qed.
Lemma rsum_abs_near n (x y : nat -> R) d : (forall i, (i < n)%nat -> Rabs (y i - x i) < d) -> Rabs (rsum n y - rsum n x) <= INR n * d.
Proof.
  intros H. replace (rsum n y - rsum n x) with (rsum n (fun i => y i - x i)) by (rewrite rsum_minus; reflexivity). induction n. unfold rsum. cbn. rewrite Rabs_R0. lra.
  unfold rsum in *. cbn [loop]. eapply Rle_trans. apply Rabs_triang. rewrite S_INR. pose proof (H n ltac:(lia)). assert (forall i, (i < n)%nat -> Rabs (y i - x i) < d) by (intros; apply H; lia). specialize (IHn H1). lra.
Qed.
Lemma near_frac n x P : rsum n x = 1 -> near n x P -> near n x (fun y => 0 < rsum n y /\ P (fractions n y)).
Proof.
  intros Hs (eps & He & HP). set (M := rsum n (fun i => Rabs (x i))). assert (HM : 0 <= M) by (apply rsum_nonneg; intros; apply Rabs_pos). pose proof (pos_INR n) as Hn.
  set (d := Rmin (/ (2 * INR n + 2)) (eps / (2 * (1 + M * INR n) + 1))). assert (Hd1 : 0 < / (2 * INR n + 2)) by (apply Rinv_0_lt_compat; lra).
  assert (HMn : 0 <= M * INR n) by (apply Rmult_le_pos; lra). assert (Hd2 : 0 < eps / (2 * (1 + M * INR n) + 1)) by (apply Rdiv_lt_0_compat; lra).
  exists d. split. now apply Rmin_glb_lt. intros y Hy. pose proof (rsum_abs_near n x y d Hy) as HS. rewrite Hs in HS.
  assert (Hd : d <= / (2 * INR n + 2)) by apply Rmin_l. assert (Hd' : d <= eps / (2 * (1 + M * INR n) + 1)) by apply Rmin_r. assert (Pd : 0 < d) by now apply Rmin_glb_lt.
  assert (Hnd : INR n * d <= 1 / 2). { apply Rle_trans with (INR n * / (2 * INR n + 2)). now apply Rmult_le_compat_l. apply Rmult_le_reg_r with (2 * INR n + 2). lra. rewrite Rmult_assoc, Rinv_l by lra. lra. }
  assert (PS : 1 / 2 <= rsum n y). { apply Rabs_le_between in HS. lra. } split. lra. apply HP. intros i Hi. unfold fractions.
  replace (y i / rsum n y - x i) with (((y i - x i) - x i * (rsum n y - 1)) / rsum n y) by (field; lra). unfold Rdiv. rewrite Rabs_mult, (Rabs_pos_eq (/ _)) by (left; apply Rinv_0_lt_compat; lra).
  assert (HI : / rsum n y <= 2). { replace 2 with (/ (1 / 2)) by field. apply Rinv_le_contravar; lra. }
  assert (Hx : Rabs (x i) <= M). { unfold M. clear -Hi. induction n. lia. unfold rsum. cbn [loop]. pose proof (Rabs_pos (x n)). assert (0 <= rsum n (fun i => Rabs (x i))) by (apply rsum_nonneg; intros; apply Rabs_pos). unfold rsum in *. destruct (Nat.eq_dec i n) as [->|Hne]. lra. specialize (IHn ltac:(lia)). lra. }
  assert (HN : Rabs (y i - x i - x i * (rsum n y - 1)) < d + M * (INR n * d) + d / 2).
  { eapply Rle_lt_trans. apply Rabs_triang. rewrite Rabs_Ropp, Rabs_mult. pose proof (Hy i Hi). assert (Rabs (x i) * Rabs (rsum n y - 1) <= M * (INR n * d)) by (apply Rmult_le_compat; auto using Rabs_pos). lra. }
  apply Rle_lt_trans with (Rabs (y i - x i - x i * (rsum n y - 1)) * 2). apply Rmult_le_compat_l; auto using Rabs_pos.
  apply Rlt_le_trans with ((d + M * (INR n * d) + d / 2) * 2). lra. replace ((d + M * (INR n * d) + d / 2) * 2) with (d * (2 * (1 + M * INR n) + 1)) by field.
  apply Rle_trans with (eps / (2 * (1 + M * INR n) + 1) * (2 * (1 + M * INR n) + 1)). apply Rmult_le_compat_r; lra. right. field. lra.
Qed.
Ltac dstep := lazymatch goal with
  | |- diffable ?n (fun _ => ?k) _ => apply d_const
  | |- diffable ?n (fun y => y ?i) _ => apply d_coord
  | |- diffable ?n (fun y => rsum ?n y) _ => apply d_tot
  | |- diffable ?n (rsum ?n) _ => apply d_tot
  | |- diffable ?n (fun y => rsum _ _) _ => apply d_sum; intros
  | |- diffable ?n (fun y => _ + _) _ => apply d_plus
  | |- diffable ?n (fun y => _ - _) _ => apply d_minus
  | |- diffable ?n (fun y => - _) _ => apply d_opp
  | |- diffable ?n (fun y => _ * _) _ => apply d_mult
  | |- diffable ?n (fun y => _ / _) _ => apply d_div
  | |- diffable ?n (fun y => / _) _ => apply d_inv
  | |- diffable ?n (fun y => ln _) _ => apply d_ln
  | |- diffable ?n (fun y => exp _) _ => apply d_exp
  | |- diffable ?n (fun y => _ ^ _) _ => apply d_pow
  end.
Ltac dsm := repeat dstep.
