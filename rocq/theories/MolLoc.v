(* Calculus of partial derivatives with respect to amounts for functions that can only be differentiated near one composition. *)
From Coq Require Import Reals Lra Lia Arith FunctionalExtensionality.
From Coquelicot Require Import Coquelicot.
From Verif Require Import Base BaseFacts Spec_eosvt MolDeriv MolDep.
Open Scope R_scope.

Definition sm1 (f : (nat -> R) -> R) (i : nat) (n : nat -> R) : Prop := ex_derive (fun s => f (more n i s)) 0.
Definition sm2 (f : (nat -> R) -> R) (i j : nat) (n : nat -> R) : Prop :=
  sm1 f i n /\ sm1 f j n /\ locally 0 (fun s => sm1 f i (more n j s)) /\ sm1 (Dn f i) j n.
Lemma sm1_has f i n : sm1 f i n -> has_Dn f i n (Dn f i n).
Proof. intros H. now apply Derive_correct. Qed.
Lemma has_sm1 f i n v : has_Dn f i n v -> sm1 f i n /\ Dn f i n = v.
Proof. intros H. split. now exists v. now apply has_Dn_eq. Qed.
Lemma diff_sm1 N f i n : diff1 N f -> 0 < rsum N n -> (i < N)%nat -> sm1 f i n.
Proof. intros H P Hi. now apply (H n i). Qed.
Lemma diff_sm2 N f i j n : diff2 N f -> 0 < rsum N n -> (i < N)%nat -> (j < N)%nat -> sm2 f i j n.
Proof.
  intros [H H2] P Hi Hj. split; [exact (diff_sm1 N f i n H P Hi)|]. split; [exact (diff_sm1 N f j n H P Hj)|]. split; [|exact (diff_sm1 N (Dn f i) j n (H2 i Hi) P Hj)].
  destruct (near_total N n j P Hj) as [dd D]. exists dd. intros y By. apply (diff_sm1 N); auto.
Qed.

Lemma add_1 f g i n : sm1 f i n -> sm1 g i n -> has_Dn (fadd f g) i n (Dn f i n + Dn g i n).
Proof. intros F G. apply (is_derive_plus (K := R_AbsRing) (V := R_NormedModule)); now apply sm1_has. Qed.
Lemma mul_1 f g i n : sm1 f i n -> sm1 g i n -> has_Dn (fmul f g) i n (Dn f i n * g n + f n * Dn g i n).
Proof.
  intros F G. pose proof (is_derive_mult (fun s => f (more n i s)) (fun s => g (more n i s)) 0 (Dn f i n) (Dn g i n)) as H.
  cbv beta in H. rewrite !more_0 in H. apply H; try (apply Derive_correct; auto). intros x y. apply Rmult_comm.
Qed.
Lemma add_2 f g i j n : sm2 f i j n -> sm2 g i j n -> sm2 (fadd f g) i j n /\ Dn (Dn (fadd f g) i) j n = Dn (Dn f i) j n + Dn (Dn g i) j n.
Proof.
  intros (F1 & F2 & F3 & F4) (G1 & G2 & G3 & G4).
  assert (H : has_Dn (Dn (fadd f g) i) j n (Dn (Dn f i) j n + Dn (Dn g i) j n)).
  { apply has_Dn_ext_loc with (fadd (Dn f i) (Dn g i)); [|now apply add_1].
    refine (filter_and _ _ _ _ F3 G3). intros s x y. apply has_Dn_eq. now apply add_1. }
  split; [|now apply has_Dn_eq]. unfold sm2. splits.
  - eexists. now apply add_1. - eexists. now apply add_1.
  - refine (filter_and _ _ _ _ F3 G3). intros s x y. eexists. now apply add_1.
  - eexists. exact H.
Qed.
Lemma mul_2 f g i j n : sm2 f i j n -> sm2 g i j n -> sm2 (fmul f g) i j n /\
  Dn (Dn (fmul f g) i) j n = Dn (Dn f i) j n * g n + Dn f i n * Dn g j n + Dn f j n * Dn g i n + f n * Dn (Dn g i) j n.
Proof.
  intros (F1 & F2 & F3 & F4) (G1 & G2 & G3 & G4).
  assert (H : has_Dn (Dn (fmul f g) i) j n (Dn (Dn f i) j n * g n + Dn f i n * Dn g j n + Dn f j n * Dn g i n + f n * Dn (Dn g i) j n)).
  { apply has_Dn_ext_loc with (fadd (fmul (Dn f i) g) (fmul f (Dn g i))).
    - refine (filter_and _ _ _ _ F3 G3). intros s x y. apply has_Dn_eq. now apply mul_1.
    - destruct (has_sm1 _ _ _ _ (mul_1 (Dn f i) g j n F4 G2)) as [A1 A2]. destruct (has_sm1 _ _ _ _ (mul_1 f (Dn g i) j n F2 G4)) as [B1 B2].
      apply is_derive_eq with (1 := add_1 _ _ _ _ A1 B1). rewrite A2, B2. ring. }
  split; [|now apply has_Dn_eq]. unfold sm2. splits.
  - eexists. now apply mul_1. - eexists. now apply mul_1.
  - refine (filter_and _ _ _ _ F3 G3). intros s x y. eexists. now apply mul_1.
  - eexists. exact H.
Qed.
Lemma ln_1 f i n : sm1 f i n -> 0 < f n -> has_Dn (Lg f) i n (Dn f i n / f n).
Proof.
  intros DA Z. unfold has_Dn. pose (g := fun s : R => f (more n i s)). change (is_derive (fun s => ln (g s)) 0 (Dn f i n / f n)).
  assert (Df : is_derive g 0 (Dn f i n)) by (apply Derive_correct, DA). assert (Ef : g 0 = f n) by (unfold g; now rewrite more_0). clearbody g.
  auto_derive. { split; try exd. split; auto. now rewrite Ef. } dv Df. rewrite Ef. field. lra.
Qed.
Lemma quot_1 f g i n : sm1 f i n -> sm1 g i n -> g n <> 0 -> has_Dn (Q f g) i n (Dn f i n / g n - f n * Dn g i n / (g n * g n)).
Proof.
  intros F G Z. unfold has_Dn. pose (u := fun s : R => f (more n i s)). pose (v := fun s : R => g (more n i s)).
  change (is_derive (fun s => u s / v s) 0 (Dn f i n / g n - f n * Dn g i n / (g n * g n))).
  assert (Du : is_derive u 0 (Dn f i n)) by (apply Derive_correct, F). assert (Dv : is_derive v 0 (Dn g i n)) by (apply Derive_correct, G).
  assert (Eu : u 0 = f n) by (unfold u; now rewrite more_0). assert (Ev : v 0 = g n) by (unfold v; now rewrite more_0). clearbody u v.
  auto_derive. { splits; try exd; auto. congruence. } dv Du. dv Dv. rewrite Eu, Ev. field. auto.
Qed.
Lemma ln_2 f i j n : sm2 f i j n -> 0 < f n -> sm2 (Lg f) i j n /\ Dn (Dn (Lg f) i) j n = Dn (Dn f i) j n / f n - Dn f i n * Dn f j n / (f n * f n).
Proof.
  intros (F1 & F2 & F3 & F4) Z.
  assert (H : has_Dn (Dn (Lg f) i) j n (Dn (Dn f i) j n / f n - Dn f i n * Dn f j n / (f n * f n))).
  { apply has_Dn_ext_loc with (Q (Dn f i) f).
    - refine (filter_and _ _ _ _ F3 (near_pos f n j F2 Z)). intros s x y. apply has_Dn_eq. now apply ln_1.
    - apply quot_1; auto. lra. }
  split; [|now apply has_Dn_eq]. unfold sm2. splits.
  - eexists. now apply ln_1. - eexists. now apply ln_1.
  - refine (filter_and _ _ _ _ F3 (near_pos f n j F2 Z)). intros s x y. eexists. now apply ln_1.
  - eexists. exact H.
Qed.
Lemma const_2 c i j n : sm2 (fun _ => c) i j n /\ Dn (Dn (fun _ => c) i) j n = 0.
Proof.
  assert (H : forall c i n, sm1 (fun _ => c) i n) by (intros; exists 0; apply (const_d c0 i0 n0)).
  rewrite Dn_const. split; [|now rewrite Dn_const]. unfold sm2. rewrite Dn_const. splits; auto. apply filter_forall. auto.
Qed.
(* functions equal near n *)
Definition near_eq (i j : nat) (n : nat -> R) (f g : (nat -> R) -> R) : Prop :=
  locally 0 (fun t => locally 0 (fun s => f (more (more n j t) i s) = g (more (more n j t) i s))).
Lemma near_1 f g i n v : locally 0 (fun s => f (more n i s) = g (more n i s)) -> has_Dn g i n v -> has_Dn f i n v.
Proof. apply has_Dn_ext_loc. Qed.
Lemma near_2 f g i j n : near_eq i j n f g -> sm2 g i j n -> has_Dn (Dn f i) j n (Dn (Dn g i) j n).
Proof.
  intros H (G1 & G2 & G3 & G4). apply has_Dn_ext_loc with (Dn g i); [|now apply sm1_has].
  refine (filter_and _ _ _ _ H G3). intros s L S1. apply has_Dn_eq. apply near_1 with (1 := L). now apply sm1_has.
Qed.

Section Dep.
Variable N : nat.
Variables w D : (nat -> R) -> R.
Hypotheses (Hw : diff2 N w) (HD : diff2 N D).
Lemma Hf_2 i j n : 0 < rsum N n -> (i < N)%nat -> (j < N)%nat -> 0 < D n -> D n - w n * w n <> 0 -> sm2 (Hf w D) i j n /\
  Dn (Dn (Hf w D) i) j n = h2 (Hf w D n) (w n) (D n) (Dn w i n) (Dn D i n) (Dn w j n) (Dn D j n) (Dn (Dn w i) j n) (Dn (Dn D i) j n).
Proof.
  intros P Hi Hj Z U. pose proof (Hf_d2 N w D n i j Hw HD P Hi Hj Z U) as H. split; [|now apply has_Dn_eq].
  destruct Hw as [Hw1 _]. destruct HD as [HD1 _].
  split; [eexists; now apply (Hf_d1 N)|]. split; [eexists; now apply (Hf_d1 N)|]. split; [|eexists; exact H].
  assert (EU : ex_derive (fun s => (fadd D (fmul (fun _ => -1) (fmul w w))) (more n j s)) 0).
  { apply diff1_add with (N := N); auto. apply diff1_mul. apply diff1_const. now apply diff1_mul. }
  assert (L1 : locally 0 (fun s => D (more n j s) - w (more n j s) * w (more n j s) <> 0)).
  { assert (ZZ : fadd D (fmul (fun _ => -1) (fmul w w)) n <> 0) by (unfold fadd, fmul; intro E; apply U; rewrite <- E; ring).
    destruct (near_nz _ n j EU ZZ) as [dd HH]. exists dd. intros y By E. apply (HH y By). unfold fadd, fmul. cbv beta in E. lra. }
  assert (L2 := filter_and _ _ _ (fun s a b => conj a b) (near_pos D n j (HD1 n j P Hj) Z) (near_total N n j P Hj)).
  refine (filter_and _ _ _ _ L1 L2). intros s U1 [Z1 P1]. eexists. now apply (Hf_d1 N).
Qed.
End Dep.
