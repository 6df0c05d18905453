(* Calculus of partial derivatives with respect to amounts: logarithms and the departure term of cubic equations of state, to second order. *)
From Coq Require Import Reals Lra Lia Arith FunctionalExtensionality.
From Coquelicot Require Import Coquelicot.
From Verif Require Import Base BaseFacts Spec_eosvt MolDeriv.
Open Scope R_scope.

Section Log.
Variable N : nat.
Variable A : (nat -> R) -> R.
Definition Lg (n : nat -> R) : R := ln (A n).
Lemma Lg_d1 n i : diff1 N A -> 0 < rsum N n -> (i < N)%nat -> 0 < A n -> has_Dn Lg i n (Dn A i n / A n).
Proof.
  intros DA P Hi Z. unfold has_Dn. pose (f := fun s : R => A (more n i s)). change (is_derive (fun s => ln (f s)) 0 (Dn A i n / A n)).
  assert (Df : is_derive f 0 (Dn A i n)) by (apply Derive_correct, (DA n i P Hi)). assert (Ef : f 0 = A n) by (unfold f; now rewrite more_0). clearbody f.
  auto_derive. { split; try exd. split; auto. now rewrite Ef. } dv Df. rewrite Ef. field. lra.
Qed.
Lemma Lg_d2 n i j : diff2 N A -> 0 < rsum N n -> (i < N)%nat -> (j < N)%nat -> 0 < A n ->
  has_Dn (Dn Lg i) j n (Dn (Dn A i) j n / A n - Dn A i n * Dn A j n / (A n * A n)).
Proof.
  intros [DA DA2] P Hi Hj Z. apply has_Dn_ext_loc with (Q (Dn A i) A).
  { refine (filter_and _ _ _ _ (near_pos A n j (DA n j P Hj) Z) (near_total N n j P Hj)). intros s Z1 P1. apply has_Dn_eq. now apply Lg_d1. }
  assert (H : has_Dn (Q (Dn A i) A) j n (Q1 (Dn A i) A j n)). { apply (Q_d1 N); auto. lra. }
  exact H.
Qed.
End Log.

Section Atanh.
Variable N : nat.
Variables w D : (nat -> R) -> R.
(* 2 atanh (w / sqrt D) / sqrt D *)
Definition Hf (n : nat -> R) : R := 2 * re_catanh (w n / sqrt (D n)) / sqrt (D n).
Definition h1 (h w D wi Di : R) : R := 2 * wi / (D - w * w) - Di * (h / (2 * D) + w / (D * (D - w * w))).
Definition h2 (h w D wi Di wj Dj wij Dij : R) : R :=
  2 * wij / (D - w * w) - 2 * wi * (Dj - 2 * w * wj) / ((D - w * w) * (D - w * w))
  - Dij * (h / (2 * D) + w / (D * (D - w * w)))
  - Di * (h1 h w D wj Dj / (2 * D) - h * Dj / (2 * D * D) + wj / (D * (D - w * w)) - w * Dj / (D * D * (D - w * w)) - w * (Dj - 2 * w * wj) / (D * ((D - w * w) * (D - w * w)))).
Lemma catanh_arg x y : 0 < y -> y - x * x <> 0 -> x / sqrt y <> 1 /\ x / sqrt y <> -1.
Proof.
  intros Y Z. pose proof (sqrt_lt_R0 y Y) as S. assert (Q : sqrt y * sqrt y = y) by (apply sqrt_sqrt; lra).
  split; intro E; apply Z; assert (X : x = (x / sqrt y) * sqrt y) by (field; lra); rewrite X, E; lra.
Qed.
Lemma Hf_d1 n i : diff1 N w -> diff1 N D -> 0 < rsum N n -> (i < N)%nat -> 0 < D n -> D n - w n * w n <> 0 ->
  has_Dn Hf i n (h1 (Hf n) (w n) (D n) (Dn w i n) (Dn D i n)).
Proof.
  intros Dw DD P Hi Z U. unfold has_Dn. pose (f := fun s : R => w (more n i s)). pose (g := fun s : R => D (more n i s)).
  assert (Df : is_derive f 0 (Dn w i n)) by (apply Derive_correct, (Dw n i P Hi)). assert (Dg : is_derive g 0 (Dn D i n)) by (apply Derive_correct, (DD n i P Hi)).
  assert (Ef : f 0 = w n) by (unfold f; now rewrite more_0). assert (Eg : g 0 = D n) by (unfold g; now rewrite more_0).
  change (is_derive (fun s => 2 * re_catanh (f s / sqrt (g s)) / sqrt (g s)) 0 (h1 (Hf n) (w n) (D n) (Dn w i n) (Dn D i n))).
  assert (EH : Hf n = 2 * re_catanh (f 0 / sqrt (g 0)) / sqrt (g 0)) by (unfold Hf; now rewrite Ef, Eg).
  clearbody f g. destruct (catanh_arg (w n) (D n) Z U) as [U1 U2].
  pose proof (re_catanh_derive _ U1 U2) as DC. rewrite <- Ef, <- Eg in DC.
  pose (q := fun s => f s / sqrt (g s)).
  assert (Dq : is_derive q 0 (Dn w i n / sqrt (g 0) - f 0 * Dn D i n / (2 * g 0 * sqrt (g 0)))).
  { unfold q. pose proof (sqrt_lt_R0 (D n) Z) as S. auto_derive. { rewrite Eg. splits; try exd; auto. lra. }
    dv Df. dv Dg. assert (SS : sqrt (g 0) * sqrt (g 0) = g 0) by (apply sqrt_sqrt; lra). rewrite <- Eg in S. set (r := sqrt (g 0)) in *.
    rewrite <- SS. field. lra. }
  pose (c := fun s => re_catanh (q s)).
  assert (Dc : is_derive c 0 ((Dn w i n / sqrt (g 0) - f 0 * Dn D i n / (2 * g 0 * sqrt (g 0))) * / (1 - q 0 * q 0))).
  { apply (is_derive_comp re_catanh q); auto. }
  assert (Ec : c 0 = re_catanh (f 0 / sqrt (g 0))) by reflexivity.
  change (is_derive (fun s => 2 * c s / sqrt (g s)) 0 (h1 (Hf n) (w n) (D n) (Dn w i n) (Dn D i n))).
  assert (Eq : q 0 = f 0 / sqrt (g 0)) by reflexivity. rewrite EH, <- Ec. rewrite Eq in Dc. clearbody c q. clear EH DC Dq Ec Eq.
  pose proof (sqrt_lt_R0 (D n) Z) as S. auto_derive. { rewrite Eg. splits; try exd; auto. lra. }
  dv Dc. dv Dg. rewrite <- Ef, <- Eg. rewrite <- Eg, <- Ef in U. rewrite <- Eg in S, Z. assert (SS : sqrt (g 0) * sqrt (g 0) = g 0) by (apply sqrt_sqrt; lra).
  set (r := sqrt (g 0)) in *. set (F := f 0) in *. set (C := c 0) in *. unfold h1. rewrite <- SS in *. clearbody r F C. field.
  splits; try lra; try (intro E; apply U; rewrite <- E; ring).
Qed.
Lemma Hf_d2 n i j : diff2 N w -> diff2 N D -> 0 < rsum N n -> (i < N)%nat -> (j < N)%nat -> 0 < D n -> D n - w n * w n <> 0 ->
  has_Dn (Dn Hf i) j n (h2 (Hf n) (w n) (D n) (Dn w i n) (Dn D i n) (Dn w j n) (Dn D j n) (Dn (Dn w i) j n) (Dn (Dn D i) j n)).
Proof.
  intros [Dw Dw2] [DD DD2] P Hi Hj Z U. apply has_Dn_ext_loc with (fun n => h1 (Hf n) (w n) (D n) (Dn w i n) (Dn D i n)).
  { assert (EU : ex_derive (fun s => (fadd D (fmul (fun _ => -1) (fmul w w))) (more n j s)) 0).
    { apply diff1_add with (N := N); auto. apply diff1_mul. apply diff1_const. now apply diff1_mul. }
    assert (L1 : locally 0 (fun s => D (more n j s) - w (more n j s) * w (more n j s) <> 0)).
    { assert (ZZ : fadd D (fmul (fun _ => -1) (fmul w w)) n <> 0) by (unfold fadd, fmul; intro E; apply U; rewrite <- E; ring).
      destruct (near_nz _ n j EU ZZ) as [dd H]. exists dd. intros y By E. apply (H y By). unfold fadd, fmul. cbv beta in E. lra. }
    assert (L2 := filter_and _ _ _ (fun s a b => conj a b) (near_pos D n j (DD n j P Hj) Z) (near_total N n j P Hj)).
    refine (filter_and _ _ _ _ L1 L2). intros s U1 [Z1 P1]. apply has_Dn_eq. now apply Hf_d1. }
  unfold has_Dn.
  pose (f := fun s : R => w (more n j s)). pose (g := fun s : R => D (more n j s)). pose (fi := fun s : R => Dn w i (more n j s)). pose (gi := fun s : R => Dn D i (more n j s)).
  pose (h := fun s : R => Hf (more n j s)).
  change (is_derive (fun s => h1 (h s) (f s) (g s) (fi s) (gi s)) 0 (h2 (Hf n) (w n) (D n) (Dn w i n) (Dn D i n) (Dn w j n) (Dn D j n) (Dn (Dn w i) j n) (Dn (Dn D i) j n))).
  assert (Df : is_derive f 0 (Dn w j n)) by (apply Derive_correct, (Dw n j P Hj)). assert (Dg : is_derive g 0 (Dn D j n)) by (apply Derive_correct, (DD n j P Hj)).
  assert (Dfi : is_derive fi 0 (Dn (Dn w i) j n)) by (apply Derive_correct, (Dw2 i Hi n j P Hj)). assert (Dgi : is_derive gi 0 (Dn (Dn D i) j n)) by (apply Derive_correct, (DD2 i Hi n j P Hj)).
  assert (Dh : is_derive h 0 (h1 (Hf n) (w n) (D n) (Dn w j n) (Dn D j n))) by (apply Hf_d1; auto).
  assert (Ef : f 0 = w n) by (unfold f; now rewrite more_0). assert (Eg : g 0 = D n) by (unfold g; now rewrite more_0).
  assert (Efi : fi 0 = Dn w i n) by (unfold fi; now rewrite more_0). assert (Egi : gi 0 = Dn D i n) by (unfold gi; now rewrite more_0).
  assert (Eh : h 0 = Hf n) by (unfold h; now rewrite more_0).
  clearbody f g fi gi h. set (dh := h1 (Hf n) (w n) (D n) (Dn w j n) (Dn D j n)) in Dh.
  assert (U' : D n - w n * w n <> 0) by exact U. assert (Z' : D n <> 0) by lra.
  unfold h1. auto_derive. { rewrite Eg, Ef. splits; try exd; auto; nzm; try lra. }
  dv Df. dv Dg. dv Dfi. dv Dgi. dv Dh. rewrite Ef, Eg, Efi, Egi, Eh. unfold h2. change (h1 (Hf n) (w n) (D n) (Dn w j n) (Dn D j n)) with dh. clearbody dh.
  field. splits; auto.
Qed.
End Atanh.

(* D = delta^2 - 4 epsilon and w = 2 V + delta *)
Section Parts.
Variable N : nat.
Definition fD (d e : (nat -> R) -> R) : (nat -> R) -> R := fadd (fmul d d) (fmul (fun _ => -4) e).
Definition fw (V d : (nat -> R) -> R) : (nat -> R) -> R := fadd (fmul (fun _ => 2) V) d.
Variables V d e : (nat -> R) -> R.
Lemma fD_diff1 : diff1 N d -> diff1 N e -> diff1 N (fD d e).
Proof. intros. apply diff1_add; apply diff1_mul; auto. apply diff1_const. Qed.
Lemma fw_diff1 : diff1 N V -> diff1 N d -> diff1 N (fw V d).
Proof. intros. apply diff1_add; auto. apply diff1_mul; auto. apply diff1_const. Qed.
Lemma fD_diff2 : diff2 N d -> diff2 N e -> diff2 N (fD d e).
Proof. intros. apply diff2_add; apply diff2_mul; auto. apply diff2_const. Qed.
Lemma fw_diff2 : diff2 N V -> diff2 N d -> diff2 N (fw V d).
Proof. intros. apply diff2_add; auto. apply diff2_mul; auto. apply diff2_const. Qed.
Lemma fD_1 i n : diff1 N d -> diff1 N e -> 0 < rsum N n -> (i < N)%nat -> Dn (fD d e) i n = 2 * d n * Dn d i n - 4 * Dn e i n.
Proof.
  intros. pose proof (diff1_const N (-4)). unfold fD. rewrite (Dn_add N) by auto using diff1_mul. rewrite fadd_at.
  rewrite !(Dn_mul N) by auto. unfold fadd, fmul. rewrite Dn_const. ring.
Qed.
Lemma fw_1 i n : diff1 N V -> diff1 N d -> 0 < rsum N n -> (i < N)%nat -> Dn (fw V d) i n = 2 * Dn V i n + Dn d i n.
Proof.
  intros. pose proof (diff1_const N 2). unfold fw. rewrite (Dn_add N) by auto using diff1_mul. rewrite fadd_at.
  rewrite !(Dn_mul N) by auto. unfold fadd, fmul. rewrite Dn_const. ring.
Qed.
Lemma fD_2 i j n : diff2 N d -> diff2 N e -> 0 < rsum N n -> (i < N)%nat -> (j < N)%nat -> Dn (Dn (fD d e) i) j n = 2 * Dn d i n * Dn d j n + 2 * d n * Dn (Dn d i) j n - 4 * Dn (Dn e i) j n.
Proof.
  intros. pose proof (diff2_const N (-4)). unfold fD. rewrite (Dn_add2 N) by auto using diff2_mul. rewrite fadd_at.
  rewrite !(Dn_mul2 N) by auto. rewrite !fadd_at. unfold fmul. rewrite !Dn_const. ring.
Qed.
Lemma fw_2 i j n : diff2 N V -> diff2 N d -> 0 < rsum N n -> (i < N)%nat -> (j < N)%nat -> Dn (Dn (fw V d) i) j n = 2 * Dn (Dn V i) j n + Dn (Dn d i) j n.
Proof.
  intros. pose proof (diff2_const N 2). unfold fw. rewrite (Dn_add2 N) by auto using diff2_mul. rewrite fadd_at.
  rewrite !(Dn_mul2 N) by auto. rewrite !fadd_at. unfold fmul. rewrite !Dn_const. ring.
Qed.
End Parts.
