(* Auxiliary: derivatives of the UNIFAC activity coefficients and of the excess Gibbs energy. *)
From Coq Require Import Reals Lra Lia Arith Bool.
From Coquelicot Require Import Coquelicot.
From Verif Require Import Base BaseFacts Spec_mix Spec_activity Spec_gradient Spec_unifac MixDeriv NrtlFacts ActFacts GradFacts Gen_unifac UnifacForms UnifacFacts UnifacModel UnifacComb.
Open Scope R_scope.

Lemma partial_wsum n (L : (nat -> R) -> nat -> R) (Lx : nat -> R) y j : (j < n)%nat -> (forall i, (i < n)%nat -> partial (fun y => L y i) y j (Lx i)) ->
  partial (fun y => rsum n (fun i => y i * L y i)) y j (L y j + rsum n (fun i => y i * Lx i)).
Proof.
  intros Hj H. eapply partial_val. apply (partial_sum n (fun i y => y i * L y i) y j (fun i => dl j i * L y i + y i * Lx i)).
  - intros i Hi. pose proof (H i Hi) as D. pose proof (upd_derive y j i) as D1. unfold partial in *. pose proof (is_derive_mult _ _ _ _ _ D1 D Rmult_comm) as D2. cbv beta in D2. rewrite upd_self in D2. exact D2.
  - rewrite rsum_plus, rsum_dl by auto. reflexivity.
Qed.
Lemma partial_plus f g x k u v : partial f x k u -> partial g x k v -> partial (fun y => f y + g y) x k (u + v).
Proof. intros A B. exact (is_derive_plus _ _ _ _ _ A B). Qed.
Lemma partial_scal c f x k u : partial f x k u -> partial (fun y => c * f y) x k (c * u).
Proof. intros A. unfold partial in *. asf ff A. change (is_derive (fun t => c * ff t) (x k) (c * u)). clearbody ff. ad. ring. Qed.
Lemma is_derive_wsum n (x : nat -> R) (f : nat -> R -> R) t l : (forall i, (i < n)%nat -> is_derive (f i) t (l i)) -> is_derive (fun s => rsum n (fun i => x i * f i s)) t (rsum n (fun i => x i * l i)).
Proof. intros H. apply (is_derive_rsum n (fun i s => x i * f i s)). intros i Hi. pose proof (H i Hi) as D. asf ff D. change (is_derive (fun s => x i * ff s) t (x i * l i)). clearbody ff. ad. ring. Qed.

(* linearity of the directional derivative of the group activity coefficients *)
Section Lin.
Context (g : nat) (Q th : nat -> R) (psi : nat -> nat -> R).
Lemma Wx_sum n (d : nat -> nat -> R) (dc : nat -> R) k : Wx g psi (fun m => rsum n (fun j => d j m * dc j)) k = rsum n (fun j => Wx g psi (d j) k * dc j).
Proof.
  unfold Wx. rewrite (rsum_ext g _ (fun m => rsum n (fun j => psi m k * d j m * dc j))) by (intros; rewrite <- rsum_scal_l; apply rsum_ext; intros; ring).
  rewrite rsum_swap. apply rsum_ext. intros. now rewrite rsum_scal_r.
Qed.
Lemma Gx_sum n (d : nat -> nat -> R) (dc : nat -> R) k : Gx g Q th psi (fun m => rsum n (fun j => d j m * dc j)) k = rsum n (fun j => Gx g Q th psi (d j) k * dc j).
Proof.
  unfold Gx. rewrite Wx_sum.
  rewrite (rsum_ext g _ (fun m => rsum n (fun j => psi k m * (1 / Us g th psi m) * (d j m - Wx g psi (d j) m * (1 / Us g th psi m) * th m) * dc j))).
  2:{ intros m Hm. rewrite Wx_sum. symmetry. rewrite (rsum_ext n _ (fun j => psi k m * (1 / Us g th psi m) * (d j m * dc j - Wx g psi (d j) m * dc j * ((1 / Us g th psi m) * th m)))) by (intros; ring).
      rewrite rsum_scal_l, rsum_minus, rsum_scal_r. ring. }
  rewrite rsum_swap. rewrite (rsum_ext n (fun j => (- Wx g psi (d j) k * _ - _) * Q k * dc j) (fun j => (- (1 / Us g th psi k) * Q k) * (Wx g psi (d j) k * dc j) - rsum g (fun m => psi k m * (1 / Us g th psi m) * (d j m - Wx g psi (d j) m * (1 / Us g th psi m) * th m) * dc j) * Q k)).
  2:{ intros j Hj. rewrite rsum_scal_r. ring. }
  rewrite rsum_minus, rsum_scal_l, rsum_scal_r. ring.
Qed.
(* the weighted sum of the directional derivatives *)
Lemma Gx_gd (d A : nat -> R) S : (forall k, (k < g)%nat -> Q k * A k = S * th k) -> (forall k, (k < g)%nat -> Us g th psi k <> 0) -> rsum g (fun k => A k * Gx g Q th psi d k) = - S * rsum g d.
Proof.
  intros HA HU. unfold Gx. set (W := Wx g psi d). set (U := Us g th psi).
  rewrite (rsum_ext g _ (fun k => - S * (W k * th k / U k) - S * rsum g (fun m => th k * psi k m * ((d m - W m * (1 / U m) * th m) / U m)))).
  2:{ intros k Hk. replace (A k * ((- W k * (1 / U k) - rsum g (fun m => psi k m * (1 / U m) * (d m - W m * (1 / U m) * th m))) * Q k)) with (Q k * A k * (- W k * (1 / U k) - rsum g (fun m => psi k m * (1 / U m) * (d m - W m * (1 / U m) * th m)))) by ring.
      rewrite HA by auto. rewrite (rsum_ext g (fun m => th k * psi k m * ((d m - W m * (1 / U m) * th m) / U m)) (fun m => th k * (psi k m * (1 / U m) * (d m - W m * (1 / U m) * th m)))) by (intros; unfold Rdiv; ring). rewrite rsum_scal_l. unfold Rdiv. ring. }
  rewrite rsum_minus, !rsum_scal_l, rsum_swap.
  rewrite (rsum_ext g (fun j => rsum g (fun i => th i * psi i j * ((d j - W j * (1 / U j) * th j) / U j))) (fun j => d j - W j * th j / U j)).
  2:{ intros j Hj. rewrite rsum_scal_r. fold (Us g th psi j). fold U. pose proof (HU j Hj) as Hz. fold U in Hz. field. auto. }
  rewrite rsum_minus. ring.
Qed.
End Lin.

Section Deriv.
Context (n g version : nat) (r q Q : nat -> R) (v a b c : nat -> nat -> R).
Hypothesis Hg : groups_ok n g Q v.
Hypothesis Hs : sizes_ok n version r q.
Local Notation P t := (psiT version a b c t).
Local Notation P1 t := (psi1T version a b c t).
Local Notation P2 t := (psi2T version a b c t).
Local Notation P3 t := (psi3T version a b c t).
Local Notation Th y := (theta n g Q v y).
Local Notation lr := (LR n g version Q v a b c).
Local Notation lrT := (LRT n g version Q v a b c).
Local Notation lrTT := (LRTT n g version Q v a b c).
Local Notation lrTTT := (LRTTT n g version Q v a b c).
Local Notation lrx := (LRx n g version Q v a b c).
Local Notation lrTx := (LRTx n g version Q v a b c).
Local Notation lrxx := (LRxx n g version Q v a b c).
Local Notation lc := (LC n version r q).
Local Notation lcx := (LCx n version r q).
Local Notation lcxx := (LCxx n version r q).
Definition ok (T : R) (y : nat -> R) : Prop := pos n g Q v (P T) y /\ okc n version r q y.
Lemma ok_near T x : amounts n x -> near n x (ok T).
Proof. intros Hx. apply near_and. apply pos_amounts; auto. intros; apply psi_pos. now apply okc_near. Qed.
Lemma ok_at T x : amounts n x -> ok T x. Proof. intros Hx. exact (near_self n x _ (ok_near T x Hx)). Qed.
Lemma pos_U T y k : pos n g Q v (P T) y -> (k < g)%nat -> 0 < Us g (Th y) (P T) k. Proof. intros (_ & _ & H). auto. Qed.
(* temperature *)
Lemma D_psi T m k : 0 < T -> is_derive (fun t => P t m k) T (P1 T m k). Proof. apply psi_d1. Qed.
Lemma D_psi1 T m k : 0 < T -> is_derive (fun t => P1 t m k) T (P2 T m k). Proof. apply psi_d2. Qed.
Lemma D_psi2 T m k : 0 < T -> is_derive (fun t => P2 t m k) T (P3 T m k). Proof. apply psi_d3. Qed.
Lemma diff_curve (f h : R -> R) t l1 l2 : is_derive f t l1 -> is_derive h t l2 -> is_derive (fun s => f s - h s) t (l1 - l2).
Proof. intros A B. exact (is_derive_minus _ _ _ _ _ A B). Qed.
Section T.
Context (T : R) (y : nat -> R) (i : nat) (HT : 0 < T) (Hy : pos n g Q v (P T) y) (Hi : (i < n)%nat).
Lemma Hy' : pos n g Q v (P T) (only i). Proof. apply only_pos; auto. Qed.
Lemma lr_T : is_derive (fun t => lr t y i) T (lrT T y i).
Proof.
  unfold LR, LRT. apply (is_derive_wsum g (fun k => v k i) (fun k t => G0 g Q (Th y) (P t) k - G0 g Q (Th (only i)) (P t) k)). intros k Hk. apply diff_curve;
  apply (G0_T g Q _ (fun m k t => P t m k) (fun m k t => P1 t m k)); auto; intros; try (apply D_psi; auto); try (apply (pos_U T); auto); apply Hy'.
Qed.
Lemma lrT_T : is_derive (fun t => lrT t y i) T (lrTT T y i).
Proof.
  unfold LRT, LRTT. apply (is_derive_wsum g (fun k => v k i) (fun k t => G1 g Q (Th y) (P t) (P1 t) k - G1 g Q (Th (only i)) (P t) (P1 t) k)). intros k Hk. apply diff_curve;
  apply (G1_T g Q _ (fun m k t => P t m k) (fun m k t => P1 t m k) (fun m k t => P2 t m k)); auto; intros; try (apply D_psi; auto); try (apply D_psi1; auto); try (apply (pos_U T); auto); apply Hy'.
Qed.
Lemma lrTT_T : is_derive (fun t => lrTT t y i) T (lrTTT T y i).
Proof.
  unfold LRTT, LRTTT. apply (is_derive_wsum g (fun k => v k i) (fun k t => G2 g Q (Th y) (P t) (P1 t) (P2 t) k - G2 g Q (Th (only i)) (P t) (P1 t) (P2 t) k)). intros k Hk. apply diff_curve;
  apply (G2_T g Q _ (fun m k t => P t m k) (fun m k t => P1 t m k) (fun m k t => P2 t m k) T (P3 T)); auto; intros; try (apply D_psi; auto); try (apply D_psi1; auto); try (apply D_psi2; auto); try (apply (pos_U T); auto); apply Hy'.
Qed.
Lemma lrx_T j : (j < n)%nat -> is_derive (fun t => lrx t y i j) T (lrTx T y i j).
Proof.
  intros Hj. unfold LRx, LRTx. apply (is_derive_wsum g (fun k => v k i) (fun k t => Gx g Q (Th y) (P t) (dtheta n g Q v y j) k)). intros k Hk.
  apply (Gx_T g Q _ (fun m k t => P t m k) (fun m k t => P1 t m k)); auto; intros; try (apply D_psi; auto); apply (pos_U T); auto.
Qed.
End T.
(* composition *)
Lemma theta_curve y cv t dc m : Sm n g Q v y <> 0 -> curve_through n cv t y dc -> (m < g)%nat -> is_derive (fun s => Th (fun i => cv i s) m) t (rsum n (fun j => dtheta n g Q v y j m * dc j)).
Proof.
  intros HS Hc Hm.
  assert (D : diffable n (fun y => Th y m) y).
  { unfold theta, Sm, am. apply d_div; [| |exact HS].
    apply d_mult. apply d_const. apply (d_sum n y n (fun j y => v m j * y j)). intros j Hj. apply d_mult. apply d_const. now apply d_coord.
    apply (d_sum n y g (fun m y => Q m * rsum n (fun j => v m j * y j))). intros k Hk. apply d_mult. apply d_const. apply (d_sum n y n (fun j y => v k j * y j)). intros j Hj. apply d_mult. apply d_const. now apply d_coord. }
  exact (grad_uniq n y _ (fun j => dtheta n g Q v y j m) D (fun j Hj => theta_partial n g Q v y j m HS Hj) cv t dc Hc).
Qed.
Lemma theta_at y cv t dc : curve_through n cv t y dc -> Th (fun i => cv i t) = Th y.
Proof.
  intros Hc. assert (E : forall m, am n Q v m (fun i => cv i t) = am n Q v m y) by (intros; unfold am; f_equal; apply rsum_ext; intros j Hj; destruct (Hc j Hj) as [Ej _]; now rewrite Ej).
  apply FunctionalExtensionality.functional_extensionality. intros m. unfold theta, Sm. rewrite E. f_equal. apply rsum_ext. intros; apply E.
Qed.
Lemma pos_S T y : pos n g Q v (P T) y -> Sm n g Q v y <> 0. Proof. intros (_ & H & _). lra. Qed.
Lemma lr_curve T y cv t dc i : pos n g Q v (P T) y -> curve_through n cv t y dc -> (i < n)%nat -> is_derive (fun s => lr T (fun i => cv i s) i) t (rsum n (fun j => lrx T y i j * dc j)).
Proof.
  intros Hy Hc Hi. unfold LR, LRx.
  eapply is_derive_eq. apply (is_derive_wsum g (fun k => v k i) (fun k s => G0 g Q (Th (fun i => cv i s)) (P T) k - G0 g Q (Th (only i)) (P T) k) t (fun k => Gx g Q (Th y) (P T) (fun m => rsum n (fun j => dtheta n g Q v y j m * dc j)) k - 0)).
  - intros k Hk. apply diff_curve; [|exact (is_derive_const _ _)].
    pose proof (G0_x g Q (fun m s => Th (fun i => cv i s) m) (P T) t (fun m => rsum n (fun j => dtheta n g Q v y j m * dc j)) k (fun m Hm => theta_curve y cv t dc m (pos_S T y Hy) Hc Hm) Hk) as D.
    cbv beta in D. pose proof (theta_at y cv t dc Hc) as E.
    assert (E' : (fun m => Th (fun i => cv i t) m) = Th y) by (rewrite <- E; reflexivity). rewrite E' in D. apply D. intros; now apply (pos_U T).
  - rewrite (rsum_ext g _ (fun k => rsum n (fun j => v k i * Gx g Q (Th y) (P T) (dtheta n g Q v y j) k * dc j))).
    2:{ intros k Hk. rewrite Gx_sum, Rminus_0_r, <- rsum_scal_l. apply rsum_ext. intros; ring. }
    rewrite rsum_swap. apply rsum_ext. intros j Hj. now rewrite rsum_scal_r.
Qed.
Lemma dl_sum (f : nat -> R) j : (j < n)%nat -> rsum n (fun k => f k * dl j k) = f j.
Proof. intros. rewrite (rsum_ext n _ (fun k => dl j k * f k)) by (intros; ring). now rewrite rsum_dl. Qed.
Lemma lr_partial T y i j : pos n g Q v (P T) y -> (i < n)%nat -> (j < n)%nat -> partial (fun y => lr T y i) y j (lrx T y i j).
Proof. intros Hy Hi Hj. unfold partial. eapply is_derive_eq. exact (lr_curve T y _ _ _ i Hy (curve_upd n y j Hj) Hi). now rewrite dl_sum. Qed.
Lemma lrx_partial T y i j k : pos n g Q v (P T) y -> (i < n)%nat -> (j < n)%nat -> (k < n)%nat -> partial (fun y => lrx T y i j) y k (lrxx T y i j k).
Proof.
  intros Hy Hi Hj Hk. unfold LRx, LRxx, partial. apply (is_derive_wsum g (fun m => v m i) (fun m s => Gx g Q (Th (upd y k s)) (P T) (dtheta n g Q v (upd y k s) j) m)). intros m Hm.
  pose proof (Gx_x g Q (fun m s => Th (upd y k s) m) (P T) (y k) (dtheta n g Q v y k) m (fun m Hm => theta_partial n g Q v y k m (pos_S T y Hy) Hk) Hm) as D.
  cbv beta in D. rewrite upd_self in D.
  specialize (D (fun k Hk => pos_U T y k Hy Hk) (fun m s => dtheta n g Q v (upd y k s) j m) (d2theta n g Q v y j k) (fun m Hm => dtheta_partial n g Q v y j k m (pos_S T y Hy) Hj Hk)).
  cbv beta in D. rewrite upd_self in D. exact D.
Qed.
Lemma lr_gd T y (dc : nat -> R) : pos n g Q v (P T) y -> rsum n (fun i => y i * rsum n (fun j => lrx T y i j * dc j)) = 0.
Proof.
  intros Hy. pose proof (pos_S T y Hy) as HS.
  rewrite (rsum_ext n _ (fun i => rsum g (fun k => v k i * y i * Gx g Q (Th y) (P T) (fun m => rsum n (fun j => dtheta n g Q v y j m * dc j)) k))).
  2:{ intros i Hi. unfold LRx. rewrite (rsum_ext n _ (fun j => rsum g (fun k => v k i * Gx g Q (Th y) (P T) (dtheta n g Q v y j) k * dc j))) by (intros; now rewrite rsum_scal_r).
      rewrite rsum_swap, <- rsum_scal_l. apply rsum_ext. intros k Hk. rewrite Gx_sum.
      rewrite <- !rsum_scal_l. apply rsum_ext. intros; ring. }
  rewrite rsum_swap. rewrite (rsum_ext g _ (fun k => rsum n (fun i => v k i * y i) * Gx g Q (Th y) (P T) (fun m => rsum n (fun j => dtheta n g Q v y j m * dc j)) k)) by (intros; now rewrite rsum_scal_r).
  rewrite (Gx_gd g Q (Th y) (P T) _ _ (Sm n g Q v y)).
  - rewrite rsum_swap. rewrite (rsum_eq_0 n). ring. intros j Hj. rewrite rsum_scal_r. replace (rsum g (dtheta n g Q v y j)) with 0; [ring|].
    rewrite (rsum_ext g _ (fun m => Q m * v m j / Sm n g Q v y - am n Q v m y * (SA g Q v j / Sm n g Q v y ^ 2))) by (intros; unfold dtheta, theta; field; auto).
    rewrite rsum_minus, rsum_div_r, rsum_scal_r. fold (SA g Q v j). fold (Sm n g Q v y). field. auto.
  - intros k Hk. unfold theta, am. field. auto.
  - intros k Hk. pose proof (pos_U T y k Hy Hk). lra.
Qed.
(* the logarithm of the activity coefficients *)
Definition L (T : R) (y : nat -> R) (i : nat) : R := lr T y i + lc y i.
Definition Lx (T : R) (y : nat -> R) (i j : nat) : R := lrx T y i j + lcx y i j.
Definition Lxx (T : R) (y : nat -> R) (i j k : nat) : R := lrxx T y i j k + lcxx y i j k.
Definition GEc (T : R) (y : nat -> R) : R := Rgas * T * rsum n (fun i => y i * L T y i).
Lemma L_curve T y cv t dc i : ok T y -> curve_through n cv t y dc -> (i < n)%nat -> is_derive (fun s => L T (fun i => cv i s) i) t (rsum n (fun j => Lx T y i j * dc j)).
Proof.
  intros [Hy Hc] Hcv Hi. eapply is_derive_eq. exact (is_derive_plus _ _ _ _ _ (lr_curve T y cv t dc i Hy Hcv Hi) (LC_curve n version r q Hs y cv t dc i Hc Hcv Hi)).
  unfold plus. cbn. rewrite <- rsum_plus. apply rsum_ext. intros. unfold Lx. ring.
Qed.
Lemma L_partial T y i j : ok T y -> (i < n)%nat -> (j < n)%nat -> partial (fun y => L T y i) y j (Lx T y i j).
Proof. intros [Hy Hc] Hi Hj. apply partial_plus. now apply lr_partial. now apply LC_partial. Qed.
Lemma Lx_partial T y i j k : ok T y -> (i < n)%nat -> (j < n)%nat -> (k < n)%nat -> partial (fun y => Lx T y i j) y k (Lxx T y i j k).
Proof. intros [Hy Hc] Hi Hj Hk. apply partial_plus. now apply lrx_partial. now apply LCx_partial. Qed.
Lemma L_gd T y dc : ok T y -> rsum n y = 1 -> rsum n (fun i => y i * rsum n (fun j => Lx T y i j * dc j)) = 0.
Proof.
  intros [Hy Hc] H1. unfold Lx. rewrite (rsum_ext n _ (fun i => y i * rsum n (fun j => lrx T y i j * dc j) + y i * rsum n (fun j => lcx y i j * dc j))).
  rewrite rsum_plus, lr_gd, LC_gd by auto. ring. intros i Hi. rewrite <- Rmult_plus_distr_l, <- rsum_plus. f_equal. apply rsum_ext. intros; ring.
Qed.
Definition GEx (T : R) (y : nat -> R) (j : nat) : R := Rgas * T * (L T y j + rsum n (fun i => y i * Lx T y i j)).
Definition GExx (T : R) (y : nat -> R) (j k : nat) : R := Rgas * T * (Lx T y j k + (Lx T y k j + rsum n (fun i => y i * Lxx T y i j k))).
Lemma GE_partial T y j : ok T y -> (j < n)%nat -> partial (GEc T) y j (GEx T y j).
Proof. intros Ho Hj. apply (partial_scal (Rgas * T) (fun y => rsum n (fun i => y i * L T y i))). apply (partial_wsum n (L T) (fun i => Lx T y i j)); auto. intros; now apply L_partial. Qed.
Lemma GEx_partial T y j k : ok T y -> (j < n)%nat -> (k < n)%nat -> partial (fun y => GEx T y j) y k (GExx T y j k).
Proof.
  intros Ho Hj Hk. apply (partial_scal (Rgas * T) (fun y => L T y j + rsum n (fun i => y i * Lx T y i j))). apply partial_plus. now apply L_partial.
  apply (partial_wsum n (fun y i => Lx T y i j) (fun i => Lxx T y i j k)); auto. intros; now apply Lx_partial.
Qed.
Section GT.
Context (T : R) (y : nat -> R) (HT : 0 < T) (Hy : pos n g Q v (P T) y).
Lemma L_T i : (i < n)%nat -> is_derive (fun t => L t y i) T (lrT T y i).
Proof. intros Hi. eapply is_derive_eq. exact (is_derive_plus _ _ _ _ _ (lr_T T y i HT Hy Hi) (is_derive_const (lc y i) T)). unfold plus, zero. cbn. ring. Qed.
Lemma prod_T (f : R -> R) l : is_derive f T l -> is_derive (fun t => Rgas * t * f t) T (Rgas * T * l + Rgas * f T).
Proof. intros. ad. ring. Qed.
Lemma GE_T : is_derive (fun t => GEc t y) T (Rgas * T * rsum n (fun i => y i * lrT T y i) + Rgas * rsum n (fun i => y i * L T y i)).
Proof. apply prod_T. apply (is_derive_wsum n y (fun i t => L t y i)). intros; now apply L_T. Qed.
Lemma GET_T : is_derive (fun t => Rgas * t * rsum n (fun i => y i * lrT t y i) + Rgas * rsum n (fun i => y i * L t y i)) T (Rgas * T * rsum n (fun i => y i * lrTT T y i) + 2 * Rgas * rsum n (fun i => y i * lrT T y i)).
Proof.
  assert (A : is_derive (fun t => rsum n (fun i => y i * lrT t y i)) T (rsum n (fun i => y i * lrTT T y i))) by (apply (is_derive_wsum n y (fun i t => lrT t y i)); intros; now apply lrT_T).
  assert (B : is_derive (fun t => rsum n (fun i => y i * L t y i)) T (rsum n (fun i => y i * lrT T y i))) by (apply (is_derive_wsum n y (fun i t => L t y i)); intros; now apply L_T).
  asf ff A. asf hh B. change (rsum n (fun i => y i * lrT T y i)) with (ff T) in *. change (is_derive (fun t => Rgas * t * ff t + Rgas * hh t) T (Rgas * T * rsum n (fun i => y i * lrTT T y i) + 2 * Rgas * ff T)). clearbody ff hh. ad. ring.
Qed.
Lemma GETT_T : is_derive (fun t => Rgas * t * rsum n (fun i => y i * lrTT t y i) + 2 * Rgas * rsum n (fun i => y i * lrT t y i)) T (Rgas * T * rsum n (fun i => y i * lrTTT T y i) + 3 * Rgas * rsum n (fun i => y i * lrTT T y i)).
Proof.
  assert (A : is_derive (fun t => rsum n (fun i => y i * lrTT t y i)) T (rsum n (fun i => y i * lrTTT T y i))) by (apply (is_derive_wsum n y (fun i t => lrTT t y i)); intros; now apply lrTT_T).
  assert (B : is_derive (fun t => rsum n (fun i => y i * lrT t y i)) T (rsum n (fun i => y i * lrTT T y i))) by (apply (is_derive_wsum n y (fun i t => lrT t y i)); intros; now apply lrT_T).
  asf ff A. asf hh B. change (rsum n (fun i => y i * lrTT T y i)) with (ff T) in *. change (is_derive (fun t => Rgas * t * ff t + 2 * Rgas * hh t) T (Rgas * T * rsum n (fun i => y i * lrTTT T y i) + 3 * Rgas * ff T)). clearbody ff hh. ad. ring.
Qed.
Lemma GEx_T j : (j < n)%nat -> is_derive (fun t => GEx t y j) T (Rgas * T * (lrT T y j + rsum n (fun i => y i * lrTx T y i j)) + Rgas * (L T y j + rsum n (fun i => y i * Lx T y i j))).
Proof.
  intros Hj. apply prod_T. apply (is_derive_plus (fun t => L t y j) (fun t => rsum n (fun i => y i * Lx t y i j)) T (lrT T y j) (rsum n (fun i => y i * lrTx T y i j))). now apply L_T.
  apply (is_derive_wsum n y (fun i t => Lx t y i j)). intros i Hi. eapply is_derive_eq. exact (is_derive_plus _ _ _ _ _ (lrx_T T y i HT Hy j Hj) (is_derive_const (lcx y i j) T)). unfold plus, zero. cbn. ring.
Qed.
End GT.
End Deriv.
