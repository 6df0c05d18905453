(* Calculus of the group contributions of UNIFAC: the residual terms ln Gamma_k as functions of the surface fractions and interaction terms. *)
From Coq Require Import Reals Lra Lia Arith Bool FunctionalExtensionality.
From Coquelicot Require Import Coquelicot.
From Verif Require Import Base BaseFacts MixFacts MixDeriv Spec_mix Spec_activity NrtlFacts ActFacts LnphiFacts.
Open Scope R_scope.

Ltac ad := intros; cbn beta in *; auto_derive; [splits; try (eexists; eassumption); auto | repeat match goal with H : is_derive _ _ _ |- _ => progress dv H end; try chR].
Section Scalar.
Lemma sc_ln (U : R -> R) (t u1 : R) : is_derive U t u1 -> 0 < U t -> is_derive (fun s => ln (U s)) t (u1 * (1 / U t)).
Proof. ad. field. lra. Qed.
Lemma sc_d0 (psi th U : R -> R) (t p1 h1 u1 : R) : is_derive psi t p1 -> is_derive th t h1 -> is_derive U t u1 -> U t <> 0 ->
  is_derive (fun s => th s * (1 / U s) * psi s) t (psi t * (1 / U t) * (h1 - u1 * (1 / U t) * th t) + th t * (1 / U t) * p1).
Proof. ad. field. auto. Qed.
(* derivatives of the terms of the temperature derivatives *)
Lemma sc_t1 (psi psi1 U F : R -> R) (th t p1 p2 u1 u2 : R) : is_derive psi t p1 -> is_derive psi1 t p2 -> is_derive U t u1 -> is_derive F t u2 -> U t <> 0 -> psi1 t = p1 -> F t = u1 ->
  is_derive (fun s => (psi s * F s * (1 / U s) - psi1 s) * (1 / U s) * th) t
    (- (1 / U t * th * (p2 - (u2 * psi t + 2 * F t * psi1 t) * (1 / U t)) + 2 * F t * F t * th * (1 / U t) * (1 / U t) * (1 / U t) * psi t)).
Proof. ad. rewrite H4, H5. field. auto. Qed.
Lemma sc_t1' (U F : R -> R) (t u1 u2 : R) : is_derive U t u1 -> is_derive F t u2 -> U t <> 0 -> F t = u1 ->
  is_derive (fun s => F s * (1 / U s)) t (- (1 / U t * (F t * F t * (1 / U t) - u2))).
Proof. ad. rewrite H2. field. auto. Qed.
Lemma sc_t2 (psi psi1 psi2 U F G : R -> R) (th t p1 p2 p3 u1 u2 u3 : R) : is_derive psi t p1 -> is_derive psi1 t p2 -> is_derive psi2 t p3 -> is_derive U t u1 -> is_derive F t u2 -> is_derive G t u3 -> U t <> 0 ->
  psi1 t = p1 -> psi2 t = p2 -> F t = u1 -> G t = u2 ->
  is_derive (fun s => 1 / U s * th * (psi2 s - (G s * psi s + 2 * F s * psi1 s) * (1 / U s)) + 2 * F s * F s * th * (1 / U s) * (1 / U s) * (1 / U s) * psi s) t
   (- (th * (- (1 / U t) * p3 + u3 * (1 / U t) ^ 2 * psi t - 6 * F t ^ 2 * psi1 t * (1 / U t) ^ 3 + 3 * F t * psi2 t * (1 / U t) ^ 2 + 3 * G t * psi1 t * (1 / U t) ^ 2 + 6 * F t ^ 3 * psi t * (1 / U t) ^ 4 - 6 * F t * G t * psi t * (1 / U t) ^ 3))).
Proof. ad. rewrite H6, H7, H8, H9. field. auto. Qed.
Lemma sc_t2' (U F G : R -> R) (t u1 u2 u3 : R) : is_derive U t u1 -> is_derive F t u2 -> is_derive G t u3 -> U t <> 0 -> F t = u1 -> G t = u2 ->
  is_derive (fun s => 1 / U s * (F s * F s * (1 / U s) - G s)) t (- u3 * (1 / U t) - 2 * F t ^ 3 * (1 / U t) ^ 3 + 3 * F t * G t * (1 / U t) ^ 2).
Proof. ad. rewrite H3, H4. field. auto. Qed.
(* derivatives of the terms of the composition derivative: in psi, and in theta *)
Lemma sc_x (psi th U W D : R -> R) (t p1 h1 u1 w1 d1 : R) : is_derive psi t p1 -> is_derive th t h1 -> is_derive U t u1 -> is_derive W t w1 -> is_derive D t d1 -> U t <> 0 ->
  is_derive (fun s => psi s * (1 / U s) * (D s - W s * (1 / U s) * th s)) t
    ((p1 * (1 / U t) - psi t * u1 * (1 / U t) ^ 2) * (D t - W t * (1 / U t) * th t) + psi t * (1 / U t) * (d1 - w1 * (1 / U t) * th t + W t * u1 * (1 / U t) ^ 2 * th t - W t * (1 / U t) * h1)).
Proof. ad. field. auto. Qed.
Lemma sc_x' (U W : R -> R) (t u1 w1 : R) : is_derive U t u1 -> is_derive W t w1 -> U t <> 0 -> is_derive (fun s => - W s * (1 / U s)) t (- w1 * (1 / U t) + W t * u1 * (1 / U t) ^ 2).
Proof. ad. field. auto. Qed.
Lemma sc_lin (f h : R -> R) (t a b q : R) : is_derive f t a -> is_derive h t b -> is_derive (fun s => (h s - f s) * q) t ((b - a) * q).
Proof. ad. ring. Qed.
End Scalar.

Section Group.
Context (g : nat) (Q : nat -> R).
Definition Us (th : nat -> R) (psi : nat -> nat -> R) (k : nat) : R := rsum g (fun m => th m * psi m k).
Definition G0 (th : nat -> R) (psi : nat -> nat -> R) (k : nat) : R := Q k * (1 - rsum g (fun m => th m * (1 / Us th psi m) * psi k m) - ln (Us th psi k)).
Definition G1 (th : nat -> R) (psi psi1 : nat -> nat -> R) (k : nat) : R := Q k * (rsum g (fun j => (psi k j * Us th psi1 j * (1 / Us th psi j) - psi1 k j) * (1 / Us th psi j) * th j) - Us th psi1 k * (1 / Us th psi k)).
Definition G2 (th : nat -> R) (psi psi1 psi2 : nat -> nat -> R) (k : nat) : R := Q k * (1 / Us th psi k * (Us th psi1 k * Us th psi1 k * (1 / Us th psi k) - Us th psi2 k) -
  rsum g (fun j => 1 / Us th psi j * th j * (psi2 k j - (Us th psi2 j * psi k j + 2 * Us th psi1 j * psi1 k j) * (1 / Us th psi j)) + 2 * Us th psi1 j * Us th psi1 j * th j * (1 / Us th psi j) * (1 / Us th psi j) * (1 / Us th psi j) * psi k j)).
Definition G3 (th : nat -> R) (psi psi1 psi2 psi3 : nat -> nat -> R) (k : nat) : R := let Z k := 1 / Us th psi k in let F := Us th psi1 in let G := Us th psi2 in let H3 := Us th psi3 in
  Q k * (- H3 k * Z k - 2 * F k ^ 3 * Z k ^ 3 + 3 * F k * G k * Z k ^ 2 +
    rsum g (fun j => th j * (- Z j * psi3 k j + H3 j * Z j ^ 2 * psi k j - 6 * F j ^ 2 * psi1 k j * Z j ^ 3 + 3 * F j * psi2 k j * Z j ^ 2 + 3 * G j * psi1 k j * Z j ^ 2 + 6 * F j ^ 3 * psi k j * Z j ^ 4 - 6 * F j * G j * psi k j * Z j ^ 3))).
Definition Wx (psi : nat -> nat -> R) (d : nat -> R) (k : nat) : R := rsum g (fun m => psi m k * d m).
Definition Gx (th : nat -> R) (psi : nat -> nat -> R) (d : nat -> R) (k : nat) : R := (- Wx psi d k * (1 / Us th psi k) - rsum g (fun m => psi k m * (1 / Us th psi m) * (d m - Wx psi d m * (1 / Us th psi m) * th m))) * Q k.
Definition GTx (th : nat -> R) (psi psi1 : nat -> nat -> R) (d : nat -> R) (k : nat) : R := let Z k := 1 / Us th psi k in let F := Us th psi1 in let W := Wx psi d in
  let W1 k := rsum g (fun m => d m * psi1 m k) in
  - (Z k * (W1 k - F k * W k * Z k) + rsum g (fun m => d m * Z m * (psi1 k m - F m * Z m * psi k m) - Z m * Z m * th m * (W1 m * psi k m + W m * psi1 k m) + 2 * F m * (Z m * Z m) * Z m * th m * W m * psi k m)) * Q k.
Definition Gxx (th : nat -> R) (psi : nat -> nat -> R) (di dj dij : nat -> R) (k : nat) : R := let Z k := 1 / Us th psi k in let W2 k := rsum g (fun m => psi m k * dij m) in let Wi := Wx psi di in let Wj := Wx psi dj in
  - (rsum g (fun m => (dij m + Z m * ((2 * Wi m * Wj m * Z m - W2 m) * th m - (Wj m * di m + Wi m * dj m))) * psi k m * Z m) + Z k * (W2 k - Wi k * Wj k * Z k)) * Q k.

Lemma Us_curve (th : nat -> R -> R) psi t h1 k : (forall m, (m < g)%nat -> is_derive (th m) t (h1 m)) -> is_derive (fun s => Us (fun m => th m s) psi k) t (Wx psi h1 k).
Proof. intros H. apply (is_derive_rsum g (fun m s => th m s * psi m k)). intros m Hm. pose proof (H m Hm). set (f := th m) in *. clearbody f. ad. ring. Qed.
Lemma Us_curveT th (psi : nat -> nat -> R -> R) t psi1 k : (forall m, (m < g)%nat -> is_derive (psi m k) t (psi1 m k)) -> is_derive (fun s => Us th (fun m k => psi m k s) k) t (Us th psi1 k).
Proof. intros H. apply (is_derive_rsum g (fun m s => th m * psi m k s)). intros m Hm. pose proof (H m Hm). set (f := psi m k) in *. clearbody f. ad. ring. Qed.
Lemma Wx_curve psi (d : nat -> R -> R) t d1 k : (forall m, (m < g)%nat -> is_derive (d m) t (d1 m)) -> is_derive (fun s => Wx psi (fun m => d m s) k) t (Wx psi d1 k).
Proof. intros H. apply (is_derive_rsum g (fun m s => psi m k * d m s)). intros m Hm. pose proof (H m Hm). set (f := d m) in *. clearbody f. ad. ring. Qed.
Lemma Wx_curveT (psi : nat -> nat -> R -> R) d t psi1 k : (forall m, (m < g)%nat -> is_derive (psi m k) t (psi1 m k)) -> is_derive (fun s => Wx (fun m k => psi m k s) d k) t (Wx psi1 d k).
Proof. intros H. apply (is_derive_rsum g (fun m s => psi m k s * d m)). intros m Hm. pose proof (H m Hm). set (f := psi m k) in *. clearbody f. ad. ring. Qed.

(* the temperature derivatives: psi, psi1, psi2 are curves *)
Section Temp.
Context (th : nat -> R) (psi psi1 psi2 : nat -> nat -> R -> R) (t : R) (psi3 : nat -> nat -> R) (k : nat).
Let p0 s := fun m k => psi m k s.
Let p1 s := fun m k => psi1 m k s.
Let p2 s := fun m k => psi2 m k s.
Hypothesis D1 : forall m k, (m < g)%nat -> (k < g)%nat -> is_derive (psi m k) t (psi1 m k t).
Hypothesis D2 : forall m k, (m < g)%nat -> (k < g)%nat -> is_derive (psi1 m k) t (psi2 m k t).
Hypothesis D3 : forall m k, (m < g)%nat -> (k < g)%nat -> is_derive (psi2 m k) t (psi3 m k).
Hypothesis Hk : (k < g)%nat.
Hypothesis HU : forall k, (k < g)%nat -> 0 < Us th (p0 t) k.
Lemma G0_T : is_derive (fun s => G0 th (p0 s) k) t (G1 th (p0 t) (p1 t) k).
Proof.
  unfold G0, G1. apply (is_derive_eq _ _ (Q k * (- rsum g (fun m => psi k m t * (1 / Us th (p0 t) m) * (0 - Us th (p1 t) m * (1 / Us th (p0 t) m) * th m) + th m * (1 / Us th (p0 t) m) * psi1 k m t) - Us th (p1 t) k * (1 / Us th (p0 t) k)))).
  - assert (E1 : is_derive (fun s => rsum g (fun m => th m * (1 / Us th (p0 s) m) * psi k m s)) t (rsum g (fun m => psi k m t * (1 / Us th (p0 t) m) * (0 - Us th (p1 t) m * (1 / Us th (p0 t) m) * th m) + th m * (1 / Us th (p0 t) m) * psi1 k m t))).
    { apply (is_derive_rsum g (fun m s => th m * (1 / Us th (p0 s) m) * psi k m s)). intros m Hm.
      apply (sc_d0 (psi k m) (fun _ => th m) (fun s => Us th (p0 s) m) t (psi1 k m t) 0 (Us th (p1 t) m)); auto.
      exact (is_derive_const _ _). apply (Us_curveT th psi t (p1 t)). intros; apply D1; auto. pose proof (HU m Hm). lra. }
    assert (E2 := sc_ln (fun s => Us th (p0 s) k) t (Us th (p1 t) k) (Us_curveT th psi t (p1 t) k (fun m Hm => D1 m k Hm Hk)) (HU k Hk)).
    set (f := fun s => rsum g _) in E1. set (h := fun s => ln _) in E2. change (is_derive (fun s => Q k * (1 - f s - h s)) t (Q k * (- rsum g (fun m => psi k m t * (1 / Us th (p0 t) m) * (0 - Us th (p1 t) m * (1 / Us th (p0 t) m) * th m) + th m * (1 / Us th (p0 t) m) * psi1 k m t) - Us th (p1 t) k * (1 / Us th (p0 t) k)))).
    clearbody f h. ad. ring.
  - f_equal. f_equal. rewrite <- rsum_opp. apply rsum_ext. intros. unfold p0, p1. ring.
Qed.
Lemma G1_T : is_derive (fun s => G1 th (p0 s) (p1 s) k) t (G2 th (p0 t) (p1 t) (p2 t) k).
Proof.
  assert (E1 : is_derive (fun s => rsum g (fun j => (psi k j s * Us th (p1 s) j * (1 / Us th (p0 s) j) - psi1 k j s) * (1 / Us th (p0 s) j) * th j)) t
    (- rsum g (fun j => 1 / Us th (p0 t) j * th j * (p2 t k j - (Us th (p2 t) j * p0 t k j + 2 * Us th (p1 t) j * p1 t k j) * (1 / Us th (p0 t) j)) + 2 * Us th (p1 t) j * Us th (p1 t) j * th j * (1 / Us th (p0 t) j) * (1 / Us th (p0 t) j) * (1 / Us th (p0 t) j) * p0 t k j))).
  { rewrite <- rsum_opp. apply (is_derive_rsum g (fun j s => (psi k j s * Us th (p1 s) j * (1 / Us th (p0 s) j) - psi1 k j s) * (1 / Us th (p0 s) j) * th j)). intros j Hj.
    apply (sc_t1 (psi k j) (psi1 k j) (fun s => Us th (p0 s) j) (fun s => Us th (p1 s) j) (th j) t (psi1 k j t) (psi2 k j t) (Us th (p1 t) j) (Us th (p2 t) j)); auto.
    apply (Us_curveT th psi t (p1 t)); intros; apply D1; auto. apply (Us_curveT th psi1 t (p2 t)); intros; apply D2; auto. pose proof (HU j Hj). lra. }
  assert (E2 := sc_t1' (fun s => Us th (p0 s) k) (fun s => Us th (p1 s) k) t (Us th (p1 t) k) (Us th (p2 t) k) (Us_curveT th psi t (p1 t) k (fun m Hm => D1 m k Hm Hk)) (Us_curveT th psi1 t (p2 t) k (fun m Hm => D2 m k Hm Hk)) (Rgt_not_eq _ _ (HU k Hk)) eq_refl).
  unfold G1, G2. asf ff E1. asf hh E2.
  match goal with |- is_derive _ _ ?v => change (is_derive (fun s => Q k * (ff s - hh s)) t v) end. clearbody ff hh. ad. ring.
Qed.
Lemma G2_T : is_derive (fun s => G2 th (p0 s) (p1 s) (p2 s) k) t (G3 th (p0 t) (p1 t) (p2 t) psi3 k).
Proof.
  unfold G3. cbv zeta.
  assert (E1 : is_derive (fun s => rsum g (fun j => 1 / Us th (p0 s) j * th j * (psi2 k j s - (Us th (p2 s) j * psi k j s + 2 * Us th (p1 s) j * psi1 k j s) * (1 / Us th (p0 s) j)) + 2 * Us th (p1 s) j * Us th (p1 s) j * th j * (1 / Us th (p0 s) j) * (1 / Us th (p0 s) j) * (1 / Us th (p0 s) j) * psi k j s)) t
    (- rsum g (fun j => th j * (- (1 / Us th (p0 t) j) * psi3 k j + Us th psi3 j * (1 / Us th (p0 t) j) ^ 2 * p0 t k j - 6 * Us th (p1 t) j ^ 2 * p1 t k j * (1 / Us th (p0 t) j) ^ 3 + 3 * Us th (p1 t) j * p2 t k j * (1 / Us th (p0 t) j) ^ 2 + 3 * Us th (p2 t) j * p1 t k j * (1 / Us th (p0 t) j) ^ 2 + 6 * Us th (p1 t) j ^ 3 * p0 t k j * (1 / Us th (p0 t) j) ^ 4 - 6 * Us th (p1 t) j * Us th (p2 t) j * p0 t k j * (1 / Us th (p0 t) j) ^ 3)))).
  { rewrite <- rsum_opp. match goal with |- is_derive (fun s => rsum g (fun j => @?F s j)) _ _ => apply (is_derive_rsum g (fun j s => F s j)) end. intros j Hj.
    apply (sc_t2 (psi k j) (psi1 k j) (psi2 k j) (fun s => Us th (p0 s) j) (fun s => Us th (p1 s) j) (fun s => Us th (p2 s) j) (th j) t (psi1 k j t) (psi2 k j t) (psi3 k j) (Us th (p1 t) j) (Us th (p2 t) j) (Us th psi3 j)); auto.
    apply (Us_curveT th psi t (p1 t)); intros; apply D1; auto. apply (Us_curveT th psi1 t (p2 t)); intros; apply D2; auto. apply (Us_curveT th psi2 t psi3); intros; apply D3; auto. pose proof (HU j Hj). lra. }
  assert (E2 := sc_t2' (fun s => Us th (p0 s) k) (fun s => Us th (p1 s) k) (fun s => Us th (p2 s) k) t (Us th (p1 t) k) (Us th (p2 t) k) (Us th psi3 k) (Us_curveT th psi t (p1 t) k (fun m Hm => D1 m k Hm Hk)) (Us_curveT th psi1 t (p2 t) k (fun m Hm => D2 m k Hm Hk)) (Us_curveT th psi2 t psi3 k (fun m Hm => D3 m k Hm Hk)) (Rgt_not_eq _ _ (HU k Hk)) eq_refl eq_refl).
  unfold G2. asf ff E1. asf hh E2.
  match goal with |- is_derive _ _ ?v => change (is_derive (fun s => Q k * (hh s - ff s)) t v) end. clearbody ff hh. ad. ring.
Qed.
Lemma Gx_T d : is_derive (fun s => Gx th (p0 s) d k) t (GTx th (p0 t) (p1 t) d k).
Proof.
  assert (E1 : is_derive (fun s => rsum g (fun m => psi k m s * (1 / Us th (p0 s) m) * (d m - Wx (p0 s) d m * (1 / Us th (p0 s) m) * th m))) t
    (rsum g (fun m => (psi1 k m t * (1 / Us th (p0 t) m) - psi k m t * Us th (p1 t) m * (1 / Us th (p0 t) m) ^ 2) * (d m - Wx (p0 t) d m * (1 / Us th (p0 t) m) * th m) + psi k m t * (1 / Us th (p0 t) m) * (0 - Wx (p1 t) d m * (1 / Us th (p0 t) m) * th m + Wx (p0 t) d m * Us th (p1 t) m * (1 / Us th (p0 t) m) ^ 2 * th m - Wx (p0 t) d m * (1 / Us th (p0 t) m) * 0)))).
  { match goal with |- is_derive (fun s => rsum g (fun j => @?F s j)) _ _ => apply (is_derive_rsum g (fun j s => F s j)) end. intros m Hm.
    apply (sc_x (psi k m) (fun _ => th m) (fun s => Us th (p0 s) m) (fun s => Wx (p0 s) d m) (fun _ => d m) t (psi1 k m t) 0 (Us th (p1 t) m) (Wx (p1 t) d m) 0); auto.
    exact (is_derive_const _ _). apply (Us_curveT th psi t (p1 t)); intros; apply D1; auto. apply (Wx_curveT psi d t (p1 t)); intros; apply D1; auto. exact (is_derive_const _ _). pose proof (HU m Hm). lra. }
  assert (E2 := sc_x' (fun s => Us th (p0 s) k) (fun s => Wx (p0 s) d k) t (Us th (p1 t) k) (Wx (p1 t) d k) (Us_curveT th psi t (p1 t) k (fun m Hm => D1 m k Hm Hk)) (Wx_curveT psi d t (p1 t) k (fun m Hm => D1 m k Hm Hk)) (Rgt_not_eq _ _ (HU k Hk))).
  unfold Gx. apply (is_derive_eq _ _ _ _ (sc_lin _ _ _ _ _ (Q k) E1 E2)). unfold GTx. cbv zeta. f_equal.
  rewrite (rsum_ext g (fun m => d m * (1 / Us th (p0 t) m) * _ - _ + _) (fun m => ((psi1 k m t * (1 / Us th (p0 t) m) - psi k m t * Us th (p1 t) m * (1 / Us th (p0 t) m) ^ 2) * (d m - Wx (p0 t) d m * (1 / Us th (p0 t) m) * th m) + psi k m t * (1 / Us th (p0 t) m) * (0 - Wx (p1 t) d m * (1 / Us th (p0 t) m) * th m + Wx (p0 t) d m * Us th (p1 t) m * (1 / Us th (p0 t) m) ^ 2 * th m - Wx (p0 t) d m * (1 / Us th (p0 t) m) * 0)))).
  - replace (rsum g (fun m => d m * p1 t m k)) with (Wx (p1 t) d k) by (apply rsum_ext; intros; ring). ring.
  - intros m Hm. replace (rsum g (fun m0 => d m0 * p1 t m0 m)) with (Wx (p1 t) d m) by (apply rsum_ext; intros; ring). change (p0 t k m) with (psi k m t). change (p1 t k m) with (psi1 k m t). ring.
Qed.
End Temp.

(* the composition derivatives: theta and a directional derivative of theta are curves *)
Section Comp.
Context (th : nat -> R -> R) (psi : nat -> nat -> R) (t : R) (h1 : nat -> R) (k : nat).
Hypothesis D1 : forall m, (m < g)%nat -> is_derive (th m) t (h1 m).
Let h0 s := fun m => th m s.
Hypothesis Hk : (k < g)%nat.
Hypothesis HU : forall k, (k < g)%nat -> 0 < Us (h0 t) psi k.
Lemma G0_x : is_derive (fun s => G0 (h0 s) psi k) t (Gx (h0 t) psi h1 k).
Proof.
  assert (E1 : is_derive (fun s => rsum g (fun m => th m s * (1 / Us (h0 s) psi m) * psi k m)) t (rsum g (fun m => psi k m * (1 / Us (h0 t) psi m) * (h1 m - Wx psi h1 m * (1 / Us (h0 t) psi m) * th m t) + th m t * (1 / Us (h0 t) psi m) * 0))).
  { match goal with |- is_derive (fun s => rsum g (fun j => @?F s j)) _ _ => apply (is_derive_rsum g (fun j s => F s j)) end. intros m Hm.
    apply (sc_d0 (fun _ => psi k m) (th m) (fun s => Us (h0 s) psi m) t 0 (h1 m) (Wx psi h1 m)); auto.
    exact (is_derive_const _ _). apply Us_curve; auto. pose proof (HU m Hm). lra. }
  assert (E2 := sc_ln (fun s => Us (h0 s) psi k) t (Wx psi h1 k) (Us_curve th psi t h1 k D1) (HU k Hk)).
  unfold G0, Gx. asf ff E1. asf hh E2.
  match goal with |- is_derive _ _ ?v => change (is_derive (fun s => Q k * (1 - ff s - hh s)) t v) end.
  rewrite (rsum_ext g (fun m => psi k m * (1 / Us (h0 t) psi m) * _) (fun m => psi k m * (1 / Us (h0 t) psi m) * (h1 m - Wx psi h1 m * (1 / Us (h0 t) psi m) * th m t) + th m t * (1 / Us (h0 t) psi m) * 0)) by (intros; unfold h0; ring).
  clearbody ff hh. ad. ring.
Qed.
Lemma Gx_x (d : nat -> R -> R) (dij : nat -> R) : (forall m, (m < g)%nat -> is_derive (d m) t (dij m)) -> is_derive (fun s => Gx (h0 s) psi (fun m => d m s) k) t (Gxx (h0 t) psi (fun m => d m t) h1 dij k).
Proof.
  intros D2. set (dd := fun s m => d m s).
  assert (E1 : is_derive (fun s => rsum g (fun m => psi k m * (1 / Us (h0 s) psi m) * (d m s - Wx psi (dd s) m * (1 / Us (h0 s) psi m) * th m s))) t
    (rsum g (fun m => (0 * (1 / Us (h0 t) psi m) - psi k m * Wx psi h1 m * (1 / Us (h0 t) psi m) ^ 2) * (d m t - Wx psi (dd t) m * (1 / Us (h0 t) psi m) * th m t) + psi k m * (1 / Us (h0 t) psi m) * (dij m - Wx psi dij m * (1 / Us (h0 t) psi m) * th m t + Wx psi (dd t) m * Wx psi h1 m * (1 / Us (h0 t) psi m) ^ 2 * th m t - Wx psi (dd t) m * (1 / Us (h0 t) psi m) * h1 m)))).
  { match goal with |- is_derive (fun s => rsum g (fun j => @?F s j)) _ _ => apply (is_derive_rsum g (fun j s => F s j)) end. intros m Hm.
    apply (sc_x (fun _ => psi k m) (th m) (fun s => Us (h0 s) psi m) (fun s => Wx psi (dd s) m) (d m) t 0 (h1 m) (Wx psi h1 m) (Wx psi dij m) (dij m)); auto.
    exact (is_derive_const _ _). apply Us_curve; auto. apply (Wx_curve psi d); auto. pose proof (HU m Hm). lra. }
  assert (E2 := sc_x' (fun s => Us (h0 s) psi k) (fun s => Wx psi (dd s) k) t (Wx psi h1 k) (Wx psi dij k) (Us_curve th psi t h1 k D1) (Wx_curve psi d t dij k D2) (Rgt_not_eq _ _ (HU k Hk))).
  unfold Gx. apply (is_derive_eq _ _ _ _ (sc_lin _ _ _ _ _ (Q k) E1 E2)). unfold Gxx. cbv zeta. f_equal.
  rewrite (rsum_ext g (fun m => (dij m + _) * psi k m * _) (fun m => (0 * (1 / Us (h0 t) psi m) - psi k m * Wx psi h1 m * (1 / Us (h0 t) psi m) ^ 2) * (d m t - Wx psi (dd t) m * (1 / Us (h0 t) psi m) * th m t) + psi k m * (1 / Us (h0 t) psi m) * (dij m - Wx psi dij m * (1 / Us (h0 t) psi m) * th m t + Wx psi (dd t) m * Wx psi h1 m * (1 / Us (h0 t) psi m) ^ 2 * th m t - Wx psi (dd t) m * (1 / Us (h0 t) psi m) * h1 m))).
  - fold (Wx psi dij k). fold (dd t). ring.
  - intros m Hm. fold (Wx psi dij m). fold (dd t). change (h0 t m) with (th m t). change (dd t m) with (d m t). ring.
Qed.
End Comp.
End Group.
