(* Calculus of partial derivatives with respect to amounts: quotients, logarithms and the departure term, to third order. *)
From Coq Require Import Reals Lra Lia Arith FunctionalExtensionality.
From Coquelicot Require Import Coquelicot.
From Verif Require Import Base BaseFacts Spec_eosvt.
Open Scope R_scope.

Lemma more_0 n i : more n i 0 = n.
Proof. apply functional_extensionality; intro k. unfold more. destruct (Nat.eqb k i); lra. Qed.
Lemma more_more n i s t : more (more n i s) i t = more n i (s + t).
Proof. apply functional_extensionality; intro k. unfold more. destruct (Nat.eqb k i); lra. Qed.
Lemma more_at n i s : more n i s i = n i + s.
Proof. unfold more. now rewrite Nat.eqb_refl. Qed.
Lemma rsum_more_out N n i s : (N <= i)%nat -> rsum N (more n i s) = rsum N n.
Proof.
  intros. apply rsum_ext. intros k K. unfold more. destruct (Nat.eqb_spec k i); auto. lia.
Qed.
Lemma rsum_more N n i s : (i < N)%nat -> rsum N (more n i s) = rsum N n + s.
Proof.
  induction N; intros L; [lia|]. simpl. destruct (Nat.eq_dec i N) as [->|E].
  - rewrite rsum_more_out by lia. rewrite more_at. lra.
  - rewrite IHN by lia. unfold more at 1. destruct (Nat.eqb_spec N i); [lia|]. lra.
Qed.

(* moving along the amount of component i away from 0 *)
Lemma Dn_along f i n s g : is_derive (fun s => f (more n i s)) s g -> Dn f i (more n i s) = g.
Proof.
  intros H. unfold Dn. apply is_derive_unique.
  apply is_derive_ext with (fun u => f (more n i (s + u))). { intros t. now rewrite more_more. }
  apply is_derive_eq with (1 * g); [|lra].
  apply (is_derive_comp (fun v => f (more n i v)) (fun u => s + u) 0).
  - rewrite Rplus_0_r. exact H.
  - auto_derive; auto.
Qed.
Lemma ex_Dn N f n i : diff1 N f -> 0 < rsum N n -> (i < N)%nat -> has_Dn f i n (Dn f i n).
Proof. intros H P L. unfold has_Dn. apply Derive_correct. apply (H n i); auto. Qed.
Lemma has_Dn_eq f i n g : has_Dn f i n g -> Dn f i n = g.
Proof. intros H. now apply is_derive_unique. Qed.

(* close to n, along component i, a property that is open stays true *)
Lemma near_total N n i : 0 < rsum N n -> (i < N)%nat -> locally 0 (fun s => 0 < rsum N (more n i s)).
Proof.
  intros H L. exists (mkposreal _ H). intros s B. rewrite rsum_more by auto. unfold ball in B; simpl in B. unfold AbsRing_ball, abs, minus, plus, opp in B; simpl in B.
  apply Rabs_def2 in B. lra.
Qed.
Lemma near_nz f n i : ex_derive (fun s => f (more n i s)) 0 -> f n <> 0 -> locally 0 (fun s => f (more n i s) <> 0).
Proof.
  intros E H. apply ex_derive_continuous in E.
  assert (O : open (fun y : R => y <> 0)).
  { apply open_neq. }
  apply (E (fun y => y <> 0)). apply (O (f (more n i 0))). now rewrite more_0.
Qed.
Lemma near_pos f n i : ex_derive (fun s => f (more n i s)) 0 -> 0 < f n -> locally 0 (fun s => 0 < f (more n i s)).
Proof.
  intros E H. apply ex_derive_continuous in E.
  apply (E (fun y => 0 < y)). apply (open_gt 0 (f (more n i 0))). now rewrite more_0.
Qed.

(* equality of functions near n gives equality of partial derivatives *)
Lemma has_Dn_ext_loc f g i n v : locally 0 (fun s => f (more n i s) = g (more n i s)) -> has_Dn g i n v -> has_Dn f i n v.
Proof.
  intros L H. unfold has_Dn. apply is_derive_ext_loc with (fun s => g (more n i s)); auto.
  destruct L as [d L]. exists d. intros y B. symmetry. now apply L.
Qed.


(* a function of the amounts seen as a function of one of them *)
Ltac along f n k g E D H :=
  pose (g := fun s : R => f (more n k s));
  assert (E : g 0 = f n) by (unfold g; now rewrite more_0);
  assert (D : is_derive g 0 (Dn f k n)) by (apply Derive_correct; exact H);
  clearbody g.
Lemma filter_and (P1 P2 P3 : R -> Prop) : (forall s, P1 s -> P2 s -> P3 s) -> locally 0 P1 -> locally 0 P2 -> locally 0 P3.
Proof. intros H [d1 H1] [d2 H2]. exists (mkposreal _ (Rmin_pos _ _ (cond_pos d1) (cond_pos d2))). intros y By. apply H; [apply H1|apply H2]; eapply ball_le; try exact By; [apply Rmin_l|apply Rmin_r]. Qed.
Ltac nzm := repeat apply Rmult_integral_contrapositive_currified; auto.

Section Quotient.
Variable N : nat.
Variables a B : (nat -> R) -> R.
Definition q1 (a B ai Bi : R) : R := ai / B - a * Bi / (B * B).
Definition q2 (a B ai Bi aj Bj aij Bij : R) : R :=
  aij / B - ai * Bj / (B * B) - aj * Bi / (B * B) - a * Bij / (B * B) + 2 * a * Bi * Bj / (B * B * B).
Definition q3 (a B ai Bi aj Bj ak Bk aij Bij aik Bik ajk Bjk aijk Bijk : R) : R :=
  aijk / B - (aij * Bk + aik * Bj + ajk * Bi) / (B * B) - (ai * Bjk + aj * Bik + ak * Bij) / (B * B)
  + 2 * (ai * Bj * Bk + aj * Bi * Bk + ak * Bi * Bj) / (B * B * B)
  - a * Bijk / (B * B) + 2 * a * (Bij * Bk + Bik * Bj + Bjk * Bi) / (B * B * B) - 6 * a * Bi * Bj * Bk / (B * B * B * B).
Definition Q (n : nat -> R) : R := a n / B n.
Definition Q1 i (n : nat -> R) : R := q1 (a n) (B n) (Dn a i n) (Dn B i n).
Definition Q2 i j (n : nat -> R) : R := q2 (a n) (B n) (Dn a i n) (Dn B i n) (Dn a j n) (Dn B j n) (Dn (Dn a i) j n) (Dn (Dn B i) j n).
Definition Q3 i j k (n : nat -> R) : R :=
  q3 (a n) (B n) (Dn a i n) (Dn B i n) (Dn a j n) (Dn B j n) (Dn a k n) (Dn B k n) (Dn (Dn a i) j n) (Dn (Dn B i) j n)
    (Dn (Dn a i) k n) (Dn (Dn B i) k n) (Dn (Dn a j) k n) (Dn (Dn B j) k n) (Dn (Dn (Dn a i) j) k n) (Dn (Dn (Dn B i) j) k n).

Lemma Q_d1 n i : diff1 N a -> diff1 N B -> 0 < rsum N n -> (i < N)%nat -> B n <> 0 -> has_Dn Q i n (Q1 i n).
Proof.
  intros Da DB P I Z. unfold has_Dn. apply is_derive_ext with (fun s => a (more n i s) / B (more n i s)). { reflexivity. }
  pose (f := fun s : R => a (more n i s)). pose (g := fun s : R => B (more n i s)).
  change (is_derive (fun s => f s / g s) 0 (Q1 i n)).
  assert (Df : is_derive f 0 (Dn a i n)) by (apply Derive_correct, (Da n i P I)). assert (Dg : is_derive g 0 (Dn B i n)) by (apply Derive_correct, (DB n i P I)).
  assert (Ef : f 0 = a n) by (unfold f; now rewrite more_0). assert (Eg : g 0 = B n) by (unfold g; now rewrite more_0). clearbody f g.
  auto_derive. { splits; try exd; auto. congruence. }
  dv Df. dv Dg. rewrite Ef, Eg. unfold Q1, q1. field. auto.
Qed.
Lemma Q_d2 n i j : diff2 N a -> diff2 N B -> 0 < rsum N n -> (i < N)%nat -> (j < N)%nat -> B n <> 0 -> has_Dn (Dn Q i) j n (Q2 i j n).
Proof.
  intros [Da Da2] [DB DB2] P I J Z.
  apply has_Dn_ext_loc with (Q1 i).
  { generalize (near_total N n j P J). generalize (near_nz B n j (DB n j P J) Z).
    intros L1 L2. refine (filter_and _ _ _ _ L1 L2). intros s Z1 P1. apply has_Dn_eq. now apply Q_d1. }
  unfold has_Dn.
  pose (f := fun s : R => a (more n j s)). pose (g := fun s : R => B (more n j s)). pose (fi := fun s : R => Dn a i (more n j s)). pose (gi := fun s : R => Dn B i (more n j s)).
  change (is_derive (fun s => q1 (f s) (g s) (fi s) (gi s)) 0 (Q2 i j n)).
  assert (Df : is_derive f 0 (Dn a j n)) by (apply Derive_correct, (Da n j P J)). assert (Dg : is_derive g 0 (Dn B j n)) by (apply Derive_correct, (DB n j P J)).
  assert (Dfi : is_derive fi 0 (Dn (Dn a i) j n)) by (apply Derive_correct, (Da2 i I n j P J)). assert (Dgi : is_derive gi 0 (Dn (Dn B i) j n)) by (apply Derive_correct, (DB2 i I n j P J)).
  assert (Ef : f 0 = a n) by (unfold f; now rewrite more_0). assert (Eg : g 0 = B n) by (unfold g; now rewrite more_0).
  assert (Efi : fi 0 = Dn a i n) by (unfold fi; now rewrite more_0). assert (Egi : gi 0 = Dn B i n) by (unfold gi; now rewrite more_0). clearbody f g fi gi.
  unfold q1. auto_derive. { rewrite Eg. splits; try exd; auto; nzm. }
  dv Df. dv Dg. dv Dfi. dv Dgi. rewrite Ef, Eg, Efi, Egi. unfold Q2, q2. field. auto.
Qed.
Lemma Q_d3 n i j k : diff3 N a -> diff3 N B -> 0 < rsum N n -> (i < N)%nat -> (j < N)%nat -> (k < N)%nat -> B n <> 0 -> has_Dn (Dn (Dn Q i) j) k n (Q3 i j k n).
Proof.
  intros [Da Da2] [DB DB2] P I J K Z.
  apply has_Dn_ext_loc with (Q2 i j).
  { generalize (near_total N n k P K). generalize (near_nz B n k (DB n k P K) Z).
    intros L1 L2. refine (filter_and _ _ _ _ L1 L2). intros s Z1 P1. apply has_Dn_eq. apply Q_d2; auto; split; auto; intros x X; [destruct (Da2 x X)|destruct (DB2 x X)]; auto. }
  destruct (Da2 i I) as [Dai Daij]. destruct (DB2 i I) as [DBi DBij]. destruct (Da2 j J) as [Daj _]. destruct (DB2 j J) as [DBj _].
  unfold has_Dn.
  pose (f := fun s : R => a (more n k s)). pose (g := fun s : R => B (more n k s)). pose (fi := fun s : R => Dn a i (more n k s)). pose (gi := fun s : R => Dn B i (more n k s)).
  pose (fj := fun s : R => Dn a j (more n k s)). pose (gj := fun s : R => Dn B j (more n k s)). pose (fij := fun s : R => Dn (Dn a i) j (more n k s)). pose (gij := fun s : R => Dn (Dn B i) j (more n k s)).
  change (is_derive (fun s => q2 (f s) (g s) (fi s) (gi s) (fj s) (gj s) (fij s) (gij s)) 0 (Q3 i j k n)).
  assert (Df : is_derive f 0 (Dn a k n)) by (apply Derive_correct, (Da n k P K)). assert (Dg : is_derive g 0 (Dn B k n)) by (apply Derive_correct, (DB n k P K)).
  assert (Dfi : is_derive fi 0 (Dn (Dn a i) k n)) by (apply Derive_correct, (Dai n k P K)). assert (Dgi : is_derive gi 0 (Dn (Dn B i) k n)) by (apply Derive_correct, (DBi n k P K)).
  assert (Dfj : is_derive fj 0 (Dn (Dn a j) k n)) by (apply Derive_correct, (Daj n k P K)). assert (Dgj : is_derive gj 0 (Dn (Dn B j) k n)) by (apply Derive_correct, (DBj n k P K)).
  assert (Dfij : is_derive fij 0 (Dn (Dn (Dn a i) j) k n)) by (apply Derive_correct, (Daij j J n k P K)). assert (Dgij : is_derive gij 0 (Dn (Dn (Dn B i) j) k n)) by (apply Derive_correct, (DBij j J n k P K)).
  assert (Ef : f 0 = a n) by (unfold f; now rewrite more_0). assert (Eg : g 0 = B n) by (unfold g; now rewrite more_0).
  assert (Efi : fi 0 = Dn a i n) by (unfold fi; now rewrite more_0). assert (Egi : gi 0 = Dn B i n) by (unfold gi; now rewrite more_0).
  assert (Efj : fj 0 = Dn a j n) by (unfold fj; now rewrite more_0). assert (Egj : gj 0 = Dn B j n) by (unfold gj; now rewrite more_0).
  assert (Efij : fij 0 = Dn (Dn a i) j n) by (unfold fij; now rewrite more_0). assert (Egij : gij 0 = Dn (Dn B i) j n) by (unfold gij; now rewrite more_0).
  clearbody f g fi gi fj gj fij gij.
  unfold q2. auto_derive. { rewrite Eg. splits; try exd; auto; nzm. }
  dv Df. dv Dg. dv Dfi. dv Dgi. dv Dfj. dv Dgj. dv Dfij. dv Dgij. rewrite Ef, Eg, Efi, Egi, Efj, Egj, Efij, Egij. unfold Q3, q3. field. auto.
Qed.
End Quotient.

(* ---- sums and products ---- *)
Section Algebra.
Variable N : nat.
Definition eqn (f g : (nat -> R) -> R) : Prop := forall n, 0 < rsum N n -> f n = g n.
Lemma has_Dn_cong f g i n v : eqn f g -> 0 < rsum N n -> (i < N)%nat -> has_Dn g i n v -> has_Dn f i n v.
Proof.
  intros E P Hi. apply has_Dn_ext_loc. destruct (near_total N n i P Hi) as [d H]. exists d. intros y By. apply E. now apply H.
Qed.
Lemma diff1_cong f g : eqn f g -> diff1 N g -> diff1 N f.
Proof. intros E D n i P Hi. exists (Dn g i n). apply (has_Dn_cong f g); auto. now apply (ex_Dn N). Qed.
Lemma Dn_cong f g i : eqn f g -> diff1 N g -> (i < N)%nat -> eqn (Dn f i) (Dn g i).
Proof. intros E D Hi n P. apply has_Dn_eq. apply (has_Dn_cong f g); auto. now apply (ex_Dn N). Qed.
Lemma diff2_cong f g : eqn f g -> diff2 N g -> diff2 N f.
Proof. intros E [D1 D2]. split. now apply diff1_cong with g. intros i Hi. apply diff1_cong with (Dn g i); auto. now apply Dn_cong. Qed.
Lemma diff3_cong f g : eqn f g -> diff3 N g -> diff3 N f.
Proof. intros E [D1 D2]. split. now apply diff1_cong with g. intros i Hi. apply diff2_cong with (Dn g i); auto. now apply Dn_cong. Qed.
Lemma diff21 f : diff2 N f -> diff1 N f. Proof. now intros [H _]. Qed.
Lemma diff31 f : diff3 N f -> diff1 N f. Proof. now intros [H _]. Qed.
Lemma diff32 f : diff3 N f -> diff2 N f. Proof. intros [H H1]. split; auto. intros i Hi. now apply diff21, H1. Qed.
Lemma diff21d f i : diff2 N f -> (i < N)%nat -> diff1 N (Dn f i). Proof. intros [_ H]; auto. Qed.
Lemma diff32d f i : diff3 N f -> (i < N)%nat -> diff2 N (Dn f i). Proof. intros [_ H]; auto. Qed.
Lemma diff31d f i : diff3 N f -> (i < N)%nat -> diff1 N (Dn f i). Proof. intros [_ H]; intros. now apply diff21, H. Qed.
Lemma diff31dd f i j : diff3 N f -> (i < N)%nat -> (j < N)%nat -> diff1 N (Dn (Dn f i) j). Proof. intros [_ H] Hi Hj. destruct (H i Hi); auto. Qed.

Definition fadd (f g : (nat -> R) -> R) := fun n => f n + g n.
Definition fmul (f g : (nat -> R) -> R) := fun n => f n * g n.
Definition fscal (c : R) (f : (nat -> R) -> R) := fun n => c * f n.
Lemma fadd_at f g n : fadd f g n = f n + g n. Proof. reflexivity. Qed.
Lemma add_d f g i n : diff1 N f -> diff1 N g -> 0 < rsum N n -> (i < N)%nat -> has_Dn (fadd f g) i n (Dn f i n + Dn g i n).
Proof. intros Df Dg P Hi. apply (is_derive_plus (K := R_AbsRing) (V := R_NormedModule)); apply Derive_correct; auto. Qed.
Lemma mul_d f g i n : diff1 N f -> diff1 N g -> 0 < rsum N n -> (i < N)%nat -> has_Dn (fmul f g) i n (Dn f i n * g n + f n * Dn g i n).
Proof.
  intros Df Dg P Hi.
  pose proof (is_derive_mult (fun s => f (more n i s)) (fun s => g (more n i s)) 0 (Dn f i n) (Dn g i n)) as H.
  cbv beta in H. rewrite !more_0 in H. apply H; try (apply Derive_correct; auto). intros x y. apply Rmult_comm.
Qed.
Lemma diff1_add f g : diff1 N f -> diff1 N g -> diff1 N (fadd f g).
Proof. intros Df Dg n i P Hi. eexists. now apply add_d. Qed.
Lemma diff1_mul f g : diff1 N f -> diff1 N g -> diff1 N (fmul f g).
Proof. intros Df Dg n i P Hi. eexists. now apply mul_d. Qed.
Lemma Dn_add f g i : diff1 N f -> diff1 N g -> (i < N)%nat -> eqn (Dn (fadd f g) i) (fadd (Dn f i) (Dn g i)).
Proof. intros Df Dg Hi n P. apply has_Dn_eq. now apply add_d. Qed.
Lemma Dn_mul f g i : diff1 N f -> diff1 N g -> (i < N)%nat -> eqn (Dn (fmul f g) i) (fadd (fmul (Dn f i) g) (fmul f (Dn g i))).
Proof. intros Df Dg Hi n P. apply has_Dn_eq. now apply mul_d. Qed.
Lemma diff2_add f g : diff2 N f -> diff2 N g -> diff2 N (fadd f g).
Proof. intros [] []. split. now apply diff1_add. intros i Hi. eapply diff1_cong. apply Dn_add; auto. apply diff1_add; auto. Qed.
Lemma diff3_add f g : diff3 N f -> diff3 N g -> diff3 N (fadd f g).
Proof. intros [] []. split. now apply diff1_add. intros i Hi. eapply diff2_cong. apply Dn_add; auto. apply diff2_add; auto. Qed.
Lemma diff2_mul f g : diff2 N f -> diff2 N g -> diff2 N (fmul f g).
Proof. intros [] []. split. now apply diff1_mul. intros i Hi. eapply diff1_cong. apply Dn_mul; auto. apply diff1_add; apply diff1_mul; auto. Qed.
Lemma diff3_mul f g : diff3 N f -> diff3 N g -> diff3 N (fmul f g).
Proof. intros F G. pose proof (diff32 _ F). pose proof (diff32 _ G). destruct F, G. split. now apply diff1_mul. intros i Hi. eapply diff2_cong. apply Dn_mul; auto. apply diff2_add; apply diff2_mul; auto. Qed.
Lemma Dn_add2 f g i j : diff2 N f -> diff2 N g -> (i < N)%nat -> (j < N)%nat -> eqn (Dn (Dn (fadd f g) i) j) (fadd (Dn (Dn f i) j) (Dn (Dn g i) j)).
Proof.
  intros F G Hi Hj n P. transitivity (Dn (fadd (Dn f i) (Dn g i)) j n).
  - apply Dn_cong; auto. apply Dn_add; auto using diff21. apply diff1_add; now apply diff21d.
  - apply Dn_add; auto using diff21d.
Qed.
Lemma Dn_add3 f g i j k : diff3 N f -> diff3 N g -> (i < N)%nat -> (j < N)%nat -> (k < N)%nat -> eqn (Dn (Dn (Dn (fadd f g) i) j) k) (fadd (Dn (Dn (Dn f i) j) k) (Dn (Dn (Dn g i) j) k)).
Proof.
  intros F G Hi Hj Hk n P. transitivity (Dn (fadd (Dn (Dn f i) j) (Dn (Dn g i) j)) k n).
  - apply Dn_cong; auto. apply Dn_add2; auto using diff32. apply diff1_add; now apply diff31dd.
  - apply Dn_add; auto using diff31dd.
Qed.
Lemma Dn_mul2 f g i j : diff2 N f -> diff2 N g -> (i < N)%nat -> (j < N)%nat ->
  eqn (Dn (Dn (fmul f g) i) j) (fadd (fadd (fmul (Dn (Dn f i) j) g) (fmul (Dn f i) (Dn g j))) (fadd (fmul (Dn f j) (Dn g i)) (fmul f (Dn (Dn g i) j)))).
Proof.
  intros F G Hi Hj n P. transitivity (Dn (fadd (fmul (Dn f i) g) (fmul f (Dn g i))) j n).
  - apply Dn_cong; auto. apply Dn_mul; auto using diff21. apply diff1_add; apply diff1_mul; auto using diff21d, diff21.
  - rewrite Dn_add by (auto using diff1_mul, diff21d, diff21). unfold fadd at 1. rewrite !Dn_mul by (auto using diff21d, diff21). reflexivity.
Qed.
Lemma Dn_mul3 f g i j k : diff3 N f -> diff3 N g -> (i < N)%nat -> (j < N)%nat -> (k < N)%nat ->
  eqn (Dn (Dn (Dn (fmul f g) i) j) k) (fun n => Dn (Dn (Dn f i) j) k n * g n + Dn (Dn f i) j n * Dn g k n + Dn (Dn f i) k n * Dn g j n + Dn f i n * Dn (Dn g j) k n
    + Dn (Dn f j) k n * Dn g i n + Dn f j n * Dn (Dn g i) k n + Dn f k n * Dn (Dn g i) j n + f n * Dn (Dn (Dn g i) j) k n).
Proof.
  intros F G Hi Hj Hk n P.
  assert (HH : forall f, diff3 N f -> diff1 N f /\ diff1 N (Dn f i) /\ diff1 N (Dn f j) /\ diff1 N (Dn (Dn f i) j)) by (intros h H; splits; auto using diff31, diff31d, diff31dd).
  destruct (HH f F) as (F1 & F2 & F3 & F4). destruct (HH g G) as (G1 & G2 & G3 & G4).
  transitivity (Dn (fadd (fadd (fmul (Dn (Dn f i) j) g) (fmul (Dn f i) (Dn g j))) (fadd (fmul (Dn f j) (Dn g i)) (fmul f (Dn (Dn g i) j)))) k n).
  - apply Dn_cong; auto. apply Dn_mul2; auto using diff32. apply diff1_add; apply diff1_add; apply diff1_mul; auto.
  - rewrite Dn_add by (auto 6 using diff1_add, diff1_mul). unfold fadd at 1. rewrite !Dn_add by (auto using diff1_mul). unfold fadd at 1 2. rewrite !Dn_mul by auto. unfold fadd, fmul. ring.
Qed.

(* constants *)
Lemma const_d c i n : has_Dn (fun _ => c) i n 0.
Proof. apply (is_derive_const (K := R_AbsRing) (V := R_NormedModule) c). Qed.
Lemma Dn_const c i : Dn (fun _ => c) i = fun _ => 0.
Proof. apply functional_extensionality; intro n. apply has_Dn_eq, const_d. Qed.
Lemma diff1_const c : diff1 N (fun _ => c).
Proof. intros n i P Hi. exists 0. apply (const_d c i n). Qed.
Lemma diff2_const c : diff2 N (fun _ => c).
Proof. split. apply diff1_const. intros. rewrite Dn_const. apply diff1_const. Qed.
Lemma diff3_const c : diff3 N (fun _ => c).
Proof. split. apply diff1_const. intros. rewrite Dn_const. apply diff2_const. Qed.

(* Vt divided by a power of the total amount *)
Lemma vol_d c m n i : 0 < rsum N n -> (i < N)%nat -> has_Dn (fun n => c / rsum N n ^ m) i n (- INR m * c / rsum N n ^ (S m)).
Proof.
  intros P Hi. unfold has_Dn. apply is_derive_ext with (fun s => c / (rsum N n + s) ^ m). { intros s. now rewrite rsum_more. }
  auto_derive. { rewrite Rplus_0_r. apply pow_nonzero. lra. }
  rewrite !Rplus_0_r. destruct m. { simpl. field. lra. }
  change (pred (S m)) with m. rewrite <- !tech_pow_Rmult. field. split; [apply pow_nonzero; lra|lra].
Qed.
Lemma Dn_vol c m i : (i < N)%nat -> eqn (Dn (fun n => c / rsum N n ^ m) i) (fun n => (- INR m * c) / rsum N n ^ (S m)).
Proof. intros Hi n P. apply has_Dn_eq. now apply vol_d. Qed.
Lemma diff1_vol c m : diff1 N (fun n => c / rsum N n ^ m).
Proof. intros n i P Hi. eexists. now apply vol_d. Qed.
Lemma diff2_vol c m : diff2 N (fun n => c / rsum N n ^ m).
Proof. split. apply diff1_vol. intros i Hi. eapply diff1_cong. now apply Dn_vol. apply diff1_vol. Qed.
Lemma diff3_vol c m : diff3 N (fun n => c / rsum N n ^ m).
Proof. split. apply diff1_vol. intros i Hi. eapply diff2_cong. now apply Dn_vol. apply diff2_vol. Qed.
Lemma Dn_vol2 c m i j : (i < N)%nat -> (j < N)%nat -> eqn (Dn (Dn (fun n => c / rsum N n ^ m) i) j) (fun n => (- INR (S m) * (- INR m * c)) / rsum N n ^ (S (S m))).
Proof. intros Hi Hj n P. rewrite (Dn_cong _ _ j (Dn_vol c m i Hi)); auto. now apply Dn_vol. apply diff1_vol. Qed.
Lemma Dn_vol3 c m i j k : (i < N)%nat -> (j < N)%nat -> (k < N)%nat -> eqn (Dn (Dn (Dn (fun n => c / rsum N n ^ m) i) j) k) (fun n => (- INR (S (S m)) * (- INR (S m) * (- INR m * c))) / rsum N n ^ (S (S (S m)))).
Proof. intros Hi Hj Hk n P. rewrite (Dn_cong _ _ k (Dn_vol2 c m i j Hi Hj)); auto. now apply Dn_vol. apply diff1_vol. Qed.

(* the two denominators of a cubic equation of state, V - b and V^2 + delta V + epsilon *)
Definition fA (V b : (nat -> R) -> R) : (nat -> R) -> R := fadd V (fmul (fun _ => -1) b).
Definition fB (V d e : (nat -> R) -> R) : (nat -> R) -> R := fadd (fadd (fmul V V) (fmul d V)) e.
Section Denominators.
Variables V b d e : (nat -> R) -> R.
Hypotheses (HV : diff3 N V) (Hb : diff3 N b) (Hd : diff3 N d) (He : diff3 N e).
Lemma fA_diff : diff3 N (fA V b). Proof. apply diff3_add; auto. apply diff3_mul; auto. apply diff3_const. Qed.
Lemma fB_diff : diff3 N (fB V d e). Proof. apply diff3_add; auto. apply diff3_add; apply diff3_mul; auto. Qed.
End Denominators.
Section Values2.
Variables V b d e : (nat -> R) -> R.
Hypotheses (HV : diff2 N V) (Hb : diff2 N b) (Hd : diff2 N d) (He : diff2 N e).
Lemma fA_diff2 : diff2 N (fA V b). Proof. apply diff2_add; auto. apply diff2_mul; auto. apply diff2_const. Qed.
Lemma fB_diff2 : diff2 N (fB V d e). Proof. apply diff2_add; auto. apply diff2_add; apply diff2_mul; auto. Qed.
Lemma fA_1 i n : 0 < rsum N n -> (i < N)%nat -> Dn (fA V b) i n = Dn V i n - Dn b i n.
Proof.
  intros P Hi. unfold fA. rewrite Dn_add by auto using diff21, diff1_mul, diff1_const. rewrite !fadd_at. rewrite Dn_mul by auto using diff21, diff1_const.
  rewrite Dn_const. unfold fadd, fmul. ring.
Qed.
Lemma fA_2 i j n : 0 < rsum N n -> (i < N)%nat -> (j < N)%nat -> Dn (Dn (fA V b) i) j n = Dn (Dn V i) j n - Dn (Dn b i) j n.
Proof.
  intros P Hi Hj. unfold fA. rewrite Dn_add2 by auto using diff2_mul, diff2_const. rewrite !fadd_at. rewrite Dn_mul2 by auto using diff2_const.
  rewrite !Dn_const. unfold fadd, fmul. ring.
Qed.
Lemma fB_1 i n : 0 < rsum N n -> (i < N)%nat -> Dn (fB V d e) i n = 2 * V n * Dn V i n + Dn d i n * V n + d n * Dn V i n + Dn e i n.
Proof.
  intros P Hi. pose proof (diff21 _ HV). pose proof (diff21 _ Hd). pose proof (diff21 _ He). unfold fB. rewrite !Dn_add by auto using diff1_mul, diff1_add.
  rewrite !fadd_at. rewrite !Dn_add by auto using diff1_mul. rewrite !fadd_at. rewrite !Dn_mul by auto. unfold fadd, fmul. ring.
Qed.
Lemma fB_2 i j n : 0 < rsum N n -> (i < N)%nat -> (j < N)%nat -> Dn (Dn (fB V d e) i) j n =
  2 * V n * Dn (Dn V i) j n + 2 * Dn V i n * Dn V j n + Dn (Dn d i) j n * V n + Dn d i n * Dn V j n + Dn d j n * Dn V i n + d n * Dn (Dn V i) j n + Dn (Dn e i) j n.
Proof.
  intros P Hi Hj. unfold fB. rewrite !Dn_add2 by auto using diff2_mul, diff2_add.
  rewrite !fadd_at. rewrite !Dn_add2 by auto using diff2_mul. rewrite !fadd_at. rewrite !Dn_mul2 by auto. unfold fadd, fmul. ring.
Qed.
End Values2.
Section Values3.
Variables V b d e : (nat -> R) -> R.
Hypotheses (HV : diff3 N V) (Hb : diff3 N b) (Hd : diff3 N d) (He : diff3 N e).
Lemma fA_3 i j k n : 0 < rsum N n -> (i < N)%nat -> (j < N)%nat -> (k < N)%nat -> Dn (Dn (Dn (fA V b) i) j) k n = Dn (Dn (Dn V i) j) k n - Dn (Dn (Dn b i) j) k n.
Proof.
  intros P Hi Hj Hk. unfold fA. rewrite Dn_add3 by auto using diff3_mul, diff3_const. rewrite !fadd_at. rewrite Dn_mul3 by auto using diff3_const.
  rewrite !Dn_const. ring.
Qed.
Lemma fB_3 i j k n : 0 < rsum N n -> (i < N)%nat -> (j < N)%nat -> (k < N)%nat -> Dn (Dn (Dn (fB V d e) i) j) k n =
  2 * V n * Dn (Dn (Dn V i) j) k n + 2 * (Dn (Dn V i) j n * Dn V k n + Dn (Dn V i) k n * Dn V j n + Dn (Dn V j) k n * Dn V i n)
  + Dn (Dn (Dn d i) j) k n * V n + Dn (Dn d i) j n * Dn V k n + Dn (Dn d i) k n * Dn V j n + Dn (Dn d j) k n * Dn V i n
  + Dn d i n * Dn (Dn V j) k n + Dn d j n * Dn (Dn V i) k n + Dn d k n * Dn (Dn V i) j n + d n * Dn (Dn (Dn V i) j) k n + Dn (Dn (Dn e i) j) k n.
Proof.
  intros P Hi Hj Hk. unfold fB. rewrite !Dn_add3 by auto using diff3_mul, diff3_add.
  rewrite !fadd_at. rewrite !Dn_add3 by auto using diff3_mul. rewrite !fadd_at. rewrite !Dn_mul3 by auto. ring.
Qed.
End Values3.
End Algebra.
