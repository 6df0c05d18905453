(* Differentials of properties, and partial derivatives as quotients of Jacobians. *)
From Coq Require Import Reals Lra.
From Coquelicot Require Import Coquelicot.
From Verif Require Import Base BaseFacts Spec_phase.
Open Scope R_scope.

Ltac ring' := unfold plus, minus, opp, mult, scal, zero; simpl; unfold mult; simpl; match goal with |- @eq _ ?a ?b => change (@eq R a b) end; ring.

Section Differential.
Variables (T V : R).
Notation D X := (differential X T V).
Lemma D_eq X a b a' b' : D X a b -> a = a' -> b = b' -> D X a' b'.
Proof. intros H -> ->. exact H. Qed.
Lemma D_T : D (fun T V => T) 1 0.
Proof. intros t v s t' v' <- <- Ht Hv. eapply is_derive_eq; [exact Ht|ring']. Qed.
Lemma D_V : D (fun T V => V) 0 1.
Proof. intros t v s t' v' <- <- Ht Hv. eapply is_derive_eq; [exact Hv|ring']. Qed.
Lemma D_const c : D (fun T V => c) 0 0.
Proof. intros t v s t' v' <- <- Ht Hv. eapply is_derive_eq; [exact (is_derive_const c s)|ring']. Qed.
Lemma D_plus X Y a b c d : D X a b -> D Y c d -> D (fun T V => X T V + Y T V) (a + c) (b + d).
Proof. intros HX HY t v s t' v' E1 E2 Ht Hv. eapply is_derive_eq; [exact (is_derive_plus _ _ s _ _ (HX t v s t' v' E1 E2 Ht Hv) (HY t v s t' v' E1 E2 Ht Hv))|ring']. Qed.
Lemma D_opp X a b : D X a b -> D (fun T V => - X T V) (- a) (- b).
Proof. intros HX t v s t' v' E1 E2 Ht Hv. eapply is_derive_eq; [exact (is_derive_opp _ s _ (HX t v s t' v' E1 E2 Ht Hv))|ring']. Qed.
Lemma D_minus X Y a b c d : D X a b -> D Y c d -> D (fun T V => X T V - Y T V) (a - c) (b - d).
Proof. intros HX HY. exact (D_plus X (fun T V => - Y T V) a b (- c) (- d) HX (D_opp Y c d HY)). Qed.
Lemma D_mult X Y a b c d : D X a b -> D Y c d -> D (fun T V => X T V * Y T V) (a * Y T V + X T V * c) (b * Y T V + X T V * d).
Proof.
  intros HX HY t v s t' v' E1 E2 Ht Hv. pose proof (is_derive_mult _ _ s _ _ (HX t v s t' v' E1 E2 Ht Hv) (HY t v s t' v' E1 E2 Ht Hv) Rmult_comm) as H.
  eapply is_derive_eq; [exact H|]. cbv beta. rewrite E1, E2. ring'.
Qed.
(* a function of one property *)
Lemma D_comp (f : R -> R) f' X a b : is_derive f (X T V) f' -> D X a b -> D (fun T V => f (X T V)) (f' * a) (f' * b).
Proof.
  intros Hf HX t v s t' v' E1 E2 Ht Hv. eapply is_derive_eq; [apply (is_derive_comp f (fun u => X (t u) (v u)) s f' (a * t' + b * v')); [rewrite E1, E2; exact Hf|now apply HX]|ring'].
Qed.
Lemma D_inv X a b : X T V <> 0 -> D X a b -> D (fun T V => / X T V) (- a / (X T V * X T V)) (- b / (X T V * X T V)).
Proof.
  intros NZ HX. eapply D_eq; [apply (D_comp Rinv (- / (X T V * X T V)) X a b); [|exact HX]|field; auto|field; auto].
  eapply is_derive_eq; [apply (is_derive_inv (fun x => x) (X T V) 1 (is_derive_id _) NZ)|]. simpl. field. auto.
Qed.
Lemma D_div X Y a b c d : Y T V <> 0 -> D X a b -> D Y c d -> D (fun T V => X T V / Y T V) ((a * Y T V - X T V * c) / (Y T V * Y T V)) ((b * Y T V - X T V * d) / (Y T V * Y T V)).
Proof. intros NZ HX HY. unfold Rdiv at 1. eapply D_eq; [apply (D_mult X (fun T V => / Y T V)); [exact HX|apply D_inv; eauto]| |]; field; auto. Qed.
Lemma D_sqrt X a b : 0 < X T V -> D X a b -> D (fun T V => sqrt (X T V)) (a / (2 * sqrt (X T V))) (b / (2 * sqrt (X T V))).
Proof.
  intros P HX. assert (S : 0 < sqrt (X T V)) by now apply sqrt_lt_R0.
  eapply D_eq; [apply (D_comp sqrt (/ (2 * sqrt (X T V))) X a b); [|exact HX]|field; lra|field; lra].
  eapply is_derive_eq; [apply (is_derive_sqrt (fun x => x) (X T V) 1 (is_derive_id _) P)|]. field. lra.
Qed.
Lemma D_ln X a b : 0 < X T V -> D X a b -> D (fun T V => ln (X T V)) (a / X T V) (b / X T V).
Proof. intros P HX. eapply D_eq; [apply (D_comp ln (/ X T V) X a b); [now apply is_derive_ln|exact HX]|field; lra|field; lra]. Qed.
Lemma D_rsum n (X : nat -> property) a b : (forall i, (i < n)%nat -> D (X i) (a i) (b i)) -> D (fun T V => rsum n (fun i => X i T V)) (rsum n a) (rsum n b).
Proof.
  intros H. induction n as [|n IH]; [exact (D_const 0)|].
  assert (E : D (fun T V => rsum n (fun i => X i T V) + X n T V) (rsum n a + a n) (rsum n b + b n)) by (apply D_plus; auto). exact E.
Qed.
Lemma D_ext X Y a b : (forall T V, X T V = Y T V) -> D X a b -> D Y a b.
Proof. intros E H t v s t' v' E1 E2 Ht Hv. eapply is_derive_ext; [intros u; apply E|apply H; auto]. Qed.
(* equal near the state, along every curve through it *)
Lemma D_unique X a b a' b' : D X a b -> D X a' b' -> a = a' /\ b = b'.
Proof.
  intros H H'. pose proof (is_derive_id (K := R_AbsRing)) as I. pose proof (is_derive_const (K := R_AbsRing) (V := R_NormedModule)) as C. split.
  - pose proof (H (fun u => u) (fun _ => V) T 1 0 eq_refl eq_refl (I T) (C V T)) as K1. pose proof (H' (fun u => u) (fun _ => V) T 1 0 eq_refl eq_refl (I T) (C V T)) as K2.
    apply is_derive_unique in K1. apply is_derive_unique in K2. lra.
  - pose proof (H (fun _ => T) (fun u => u) V 0 1 eq_refl eq_refl (C T V) (I V)) as K1. pose proof (H' (fun _ => T) (fun u => u) V 0 1 eq_refl eq_refl (C T V) (I V)) as K2.
    apply is_derive_unique in K1. apply is_derive_unique in K2. lra.
Qed.

Lemma pd_iff X Y Z xT xV yT yV zT zV d : D X xT xV -> D Y yT yV -> D Z zT zV ->
  (partial_derivative X Y Z T V d <-> exists e, xT = d * yT + e * zT /\ xV = d * yV + e * zV).
Proof.
  intros HX HY HZ. pose proof (is_derive_id (K := R_AbsRing)) as I. pose proof (is_derive_const (K := R_AbsRing) (V := R_NormedModule)) as C. split.
  - intros (e & H). exists e. split.
    + specialize (H (fun u => u) (fun _ => V) T 1 0 (xT * 1 + xV * 0) (yT * 1 + yV * 0) (zT * 1 + zV * 0) eq_refl eq_refl (I T) (C V T)
        (HX _ _ T 1 0 eq_refl eq_refl (I T) (C V T)) (HY _ _ T 1 0 eq_refl eq_refl (I T) (C V T)) (HZ _ _ T 1 0 eq_refl eq_refl (I T) (C V T))). lra.
    + specialize (H (fun _ => T) (fun u => u) V 0 1 (xT * 0 + xV * 1) (yT * 0 + yV * 1) (zT * 0 + zV * 1) eq_refl eq_refl (C T V) (I V)
        (HX _ _ V 0 1 eq_refl eq_refl (C T V) (I V)) (HY _ _ V 0 1 eq_refl eq_refl (C T V) (I V)) (HZ _ _ V 0 1 eq_refl eq_refl (C T V) (I V))). lra.
  - intros (e & -> & ->). exists e. intros t v s t' v' x y z E1 E2 Ht Hv Hx Hy Hz.
    pose proof (HX t v s t' v' E1 E2 Ht Hv) as Kx. pose proof (HY t v s t' v' E1 E2 Ht Hv) as Ky. pose proof (HZ t v s t' v' E1 E2 Ht Hv) as Kz.
    apply is_derive_unique in Hx, Hy, Hz, Kx, Ky, Kz. rewrite <- Hx, <- Hy, <- Hz, Kx, Ky, Kz. ring.
Qed.
Lemma pd_det X Y Z xT xV yT yV zT zV d : D X xT xV -> D Y yT yV -> D Z zT zV -> yT * zV - yV * zT <> 0 ->
  (partial_derivative X Y Z T V d <-> d = (xT * zV - xV * zT) / (yT * zV - yV * zT)).
Proof.
  intros HX HY HZ J. rewrite (pd_iff X Y Z xT xV yT yV zT zV) by auto. split.
  - intros (e & -> & ->). field. auto.
  - intros ->. exists ((yT * xV - yV * xT) / (yT * zV - yV * zT)). split; field; auto.
Qed.
End Differential.
(* (dX/dY)_Z: on a curve of states on which Z is constant, dX = d dY *)
Lemma pd_constant X Y Z T V d (t v : R -> R) (s t' v' x y : R) : partial_derivative X Y Z T V d -> t s = T -> v s = V -> is_derive t s t' -> is_derive v s v' ->
  (forall u, Z (t u) (v u) = Z T V) -> is_derive (fun u => X (t u) (v u)) s x -> is_derive (fun u => Y (t u) (v u)) s y -> x = d * y.
Proof.
  intros (e & H) E1 E2 Ht Hv HZ Hx Hy. replace (d * y) with (d * y + e * 0) by ring. apply (H t v s t' v' x y 0); auto.
  apply (is_derive_ext (fun _ => Z T V)); [intros u; now rewrite HZ|apply (is_derive_const (K := R_AbsRing) (V := R_NormedModule))].
Qed.
Ltac dif := cbv beta; lazymatch goal with
  | |- differential (fun t v => t) _ _ _ _ => apply D_T
  | |- differential (fun t v => v) _ _ _ _ => apply D_V
  | |- differential (fun t v => @?a t v + @?b t v) _ _ _ _ => eapply (D_plus _ _ a b); dif
  | |- differential (fun t v => @?a t v - @?b t v) _ _ _ _ => eapply (D_minus _ _ a b); dif
  | |- differential (fun t v => @?a t v * @?b t v) _ _ _ _ => eapply (D_mult _ _ a b); dif
  | |- differential (fun t v => @?a t v / @?b t v) _ _ _ _ => eapply (D_div _ _ a b); [idtac|dif|dif]
  | |- differential (fun t v => / @?a t v) _ _ _ _ => eapply (D_inv _ _ a); [idtac|dif]
  | |- differential (fun t v => - @?a t v) _ _ _ _ => eapply (D_opp _ _ a); dif
  | |- differential (fun t v => sqrt (@?a t v)) _ _ _ _ => eapply (D_sqrt _ _ a); [idtac|dif]
  | |- differential (fun t v => ln (@?a t v)) _ _ _ _ => eapply (D_ln _ _ a); [idtac|dif]
  | |- differential _ _ _ _ _ => first [eassumption|apply D_const]
  | |- _ => idtac end.
Lemma pd_intro X Y Z T V xT xV yT yV zT zV d : differential X T V xT xV -> differential Y T V yT yV -> differential Z T V zT zV -> yT * zV - yV * zT <> 0 ->
  d = (xT * zV - xV * zT) / (yT * zV - yV * zT) -> partial_derivative X Y Z T V d.
Proof. intros HX HY HZ J E. apply (pd_det T V X Y Z xT xV yT yV zT zV d HX HY HZ J). exact E. Qed.
Lemma pd_elim X Y Z T V xT xV yT yV zT zV d : partial_derivative X Y Z T V d -> differential X T V xT xV -> differential Y T V yT yV -> differential Z T V zT zV ->
  yT * zV - yV * zT <> 0 -> d = (xT * zV - xV * zT) / (yT * zV - yV * zT).
Proof. intros H HX HY HZ J. apply (pd_det T V X Y Z xT xV yT yV zT zV d HX HY HZ J). exact H. Qed.
Lemma pd_comp (f : R -> R) f' X Y Z T V xT xV d : differential X T V xT xV -> is_derive f (X T V) f' -> partial_derivative X Y Z T V d -> partial_derivative (fun T V => f (X T V)) Y Z T V (f' * d).
Proof.
  intros HX Hf (e & H). exists (f' * e). intros t v s t' v' x y z E1 E2 Ht Hv Hx Hy Hz. pose proof (HX t v s t' v' E1 E2 Ht Hv) as K.
  pose proof (H t v s t' v' _ y z E1 E2 Ht Hv K Hy Hz) as E. pose proof (D_comp T V f f' X xT xV Hf HX t v s t' v' E1 E2 Ht Hv) as K2.
  apply is_derive_unique in K2, Hx. rewrite <- Hx, K2. replace (f' * xT * t' + f' * xV * v') with (f' * (xT * t' + xV * v')) by ring. rewrite E. ring.
Qed.
Lemma pd_mult X1 X2 Y Z T V aT aV bT bV d1 d2 : differential X1 T V aT aV -> differential X2 T V bT bV -> partial_derivative X1 Y Z T V d1 -> partial_derivative X2 Y Z T V d2 ->
  partial_derivative (fun T V => X1 T V * X2 T V) Y Z T V (d1 * X2 T V + X1 T V * d2).
Proof.
  intros H1 H2 (e1 & G1) (e2 & G2). exists (e1 * X2 T V + X1 T V * e2). intros t v s t' v' x y z E1 E2 Ht Hv Hx Hy Hz.
  pose proof (G1 t v s t' v' _ y z E1 E2 Ht Hv (H1 t v s t' v' E1 E2 Ht Hv) Hy Hz) as K1. pose proof (G2 t v s t' v' _ y z E1 E2 Ht Hv (H2 t v s t' v' E1 E2 Ht Hv) Hy Hz) as K2.
  pose proof (D_mult T V X1 X2 _ _ _ _ H1 H2 t v s t' v' E1 E2 Ht Hv) as K. apply is_derive_unique in K, Hx. rewrite <- Hx, K.
  transitivity ((aT * t' + aV * v') * X2 T V + X1 T V * (bT * t' + bV * v')); [ring|]. rewrite K1, K2. ring.
Qed.
