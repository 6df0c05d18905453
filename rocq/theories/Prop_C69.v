(* C69: derivatives of mixture equations of state with respect to the amounts of the components, at fixed total volume or along the
   volume root, are the derivatives of the pressure, the volume and the Helmholtz and enthalpy departures. *)
From Coq Require Import Reals Lra Lia Arith FunctionalExtensionality.
From Coquelicot Require Import Coquelicot.
From Verif Require Import Base BaseFacts MixDeriv Gen_eosvt Spec_eosvt MolDeriv MolDep MolLoc.
Open Scope R_scope.

Definition fV (N : nat) (Vt : R) : (nat -> R) -> R := fun n => Vt / rsum N n ^ 1.
Lemma fV_at N Vt n : fV N Vt n = Vt / rsum N n.
Proof. unfold fV. now rewrite pow_1. Qed.
Lemma fV_1 N Vt n i : rsum N n = 1 -> (i < N)%nat -> Dn (fV N Vt) i n = - Vt.
Proof. intros E Hi. unfold fV. rewrite (Dn_vol N) by (auto; lra). rewrite E. simpl. field. Qed.
Lemma fV_2 N Vt n i j : rsum N n = 1 -> (i < N)%nat -> (j < N)%nat -> Dn (Dn (fV N Vt) i) j n = 2 * Vt.
Proof. intros E Hi Hj. unfold fV. rewrite (Dn_vol2 N) by (auto; lra). rewrite E. simpl. field. Qed.
Lemma fV_3 N Vt n i j k : rsum N n = 1 -> (i < N)%nat -> (j < N)%nat -> (k < N)%nat -> Dn (Dn (Dn (fV N Vt) i) j) k n = - 6 * Vt.
Proof. intros E Hi Hj Hk. unfold fV. rewrite (Dn_vol3 N) by (auto; lra). rewrite E. simpl. field. Qed.
Lemma fV_at1 N Vt n : rsum N n = 1 -> fV N Vt n = Vt.
Proof. intros E. rewrite fV_at, E. field. Qed.

(* the pressure as a function of the amounts, for any molar volume function *)
Section Pressure.
Variables (N : nat) (T : R) (V b d e a : (nat -> R) -> R).
Definition fP : (nat -> R) -> R := fadd (Q (fun _ => Rgas * T) (fA V b)) (Q (fmul (fun _ => -1) a) (fB V d e)).
Lemma fP_cubic n : fP n = cubicP T (V n) (b n) (d n) (e n) (a n).
Proof. unfold fP, cubicP, Q, fA, fB, fadd, fmul. unfold Rdiv. replace (V n + -1 * b n) with (V n - b n) by ring. ring. Qed.
Variable n : nat -> R.
Hypotheses (Pn : 0 < rsum N n) (ZA : V n - b n <> 0) (ZB : V n * V n + d n * V n + e n <> 0).
Lemma ZA' : fA V b n <> 0. Proof. unfold fA, fadd, fmul. intro E. apply ZA. rewrite <- E. ring. Qed.
Lemma ZB' : fB V d e n <> 0. Proof. exact ZB. Qed.
(* values of the first, second and third derivatives *)
Definition p1 (RT a A B ai Ai Bi : R) : R := q1 RT A 0 Ai - q1 a B ai Bi.
Definition p2 (RT a A B ai Ai Bi aj Aj Bj aij Aij Bij : R) : R := q2 RT A 0 Ai 0 Aj 0 Aij - q2 a B ai Bi aj Bj aij Bij.
Definition p3 (RT a A B ai Ai Bi aj Aj Bj ak Ak Bk aij Aij Bij aik Aik Bik ajk Ajk Bjk aijk Aijk Bijk : R) : R :=
  q3 RT A 0 Ai 0 Aj 0 Ak 0 Aij 0 Aik 0 Ajk 0 Aijk - q3 a B ai Bi aj Bj ak Bk aij Bij aik Bik ajk Bjk aijk Bijk.
Notation A := (fA V b). Notation B := (fB V d e).
Lemma neg_1 i : diff1 N a -> (i < N)%nat -> eqn N (Dn (fmul (fun _ => -1) a) i) (fmul (fun _ => -1) (Dn a i)).
Proof. intros D Hi m Hm. rewrite (Dn_mul N); auto using diff1_const. unfold fadd, fmul. rewrite Dn_const. ring. Qed.
Lemma neg_diff1 : diff1 N a -> diff1 N (fmul (fun _ => -1) a). Proof. intros. apply diff1_mul; auto using diff1_const. Qed.
Lemma neg_diff2 : diff2 N a -> diff2 N (fmul (fun _ => -1) a). Proof. intros. apply diff2_mul; auto using diff2_const. Qed.
Lemma neg_diff3 : diff3 N a -> diff3 N (fmul (fun _ => -1) a). Proof. intros. apply diff3_mul; auto using diff3_const. Qed.
Lemma fP_1 i : diff1 N V -> diff1 N b -> diff1 N d -> diff1 N e -> diff1 N a -> (i < N)%nat ->
  has_Dn fP i n (p1 (Rgas * T) (a n) (A n) (B n) (Dn a i n) (Dn A i n) (Dn B i n)).
Proof.
  intros HV Hb Hd He Ha Hi.
  assert (DA : diff1 N A) by (apply diff1_add; auto; apply diff1_mul; auto; apply diff1_const).
  assert (DB : diff1 N B) by (apply diff1_add; auto; apply diff1_add; apply diff1_mul; auto).
  pose proof (Q_d1 N _ _ n i (diff1_const N (Rgas * T)) DA Pn Hi ZA') as H1.
  pose proof (Q_d1 N _ _ n i (neg_diff1 Ha) DB Pn Hi ZB') as H2.
  pose proof (is_derive_plus (K := R_AbsRing) (V := R_NormedModule) _ _ _ _ _ H1 H2) as H.
  apply is_derive_eq with (1 := H). unfold Q1, p1, q1. rewrite Dn_const, (neg_1 i) by auto. unfold fmul at 1 2.
  change (plus ?x ?y) with (x + y). unfold Rdiv. ring.
Qed.
Lemma neg_2 i j : diff2 N a -> (i < N)%nat -> (j < N)%nat -> eqn N (Dn (Dn (fmul (fun _ => -1) a) i) j) (fmul (fun _ => -1) (Dn (Dn a i) j)).
Proof. intros D Hi Hj m Hm. rewrite (Dn_mul2 N); auto using diff2_const. unfold fadd, fmul. rewrite !Dn_const. ring. Qed.
Lemma neg_3 i j k : diff3 N a -> (i < N)%nat -> (j < N)%nat -> (k < N)%nat -> eqn N (Dn (Dn (Dn (fmul (fun _ => -1) a) i) j) k) (fmul (fun _ => -1) (Dn (Dn (Dn a i) j) k)).
Proof. intros D Hi Hj Hk m Hm. rewrite (Dn_mul3 N); auto using diff3_const. unfold fmul. rewrite !Dn_const. ring. Qed.
End Pressure.

(* a sum of two functions that are only differentiable near n *)
Lemma near_B N f n i : diff1 N f -> 0 < rsum N n -> (i < N)%nat -> f n <> 0 -> locally 0 (fun s => f (more n i s) <> 0 /\ 0 < rsum N (more n i s)).
Proof. intros D P Hi Z. refine (filter_and _ _ _ (fun s x y => conj x y) (near_nz f n i (D n i P Hi) Z) (near_total N n i P Hi)). Qed.

Section Pressure2.
Variables (N : nat) (T : R) (V b d e a : (nat -> R) -> R).
Notation A := (fA V b). Notation B := (fB V d e).
Notation c := (fun _ : nat -> R => Rgas * T). Notation a' := (fmul (fun _ => -1) a).
Hypotheses (HV : diff2 N V) (Hb : diff2 N b) (Hd : diff2 N d) (He : diff2 N e) (Ha : diff2 N a).
Let DA : diff2 N A. Proof. now apply fA_diff2. Qed.
Let DB : diff2 N B. Proof. now apply fB_diff2. Qed.
Lemma fP_near1 n i j : 0 < rsum N n -> (i < N)%nat -> (j < N)%nat -> A n <> 0 -> B n <> 0 ->
  locally 0 (fun s => Dn (fP T V b d e a) i (more n j s) = fadd (Dn (Q c A) i) (Dn (Q a' B) i) (more n j s)).
Proof.
  intros P Hi Hj ZA ZB. refine (filter_and _ _ _ _ (near_B N A n j (diff21 N _ DA) P Hj ZA) (near_B N B n j (diff21 N _ DB) P Hj ZB)).
  intros s [Z1 P1] [Z2 _]. apply has_Dn_eq.
  pose proof (Q_d1 N c A (more n j s) i (diff1_const N _) (diff21 N _ DA) P1 Hi Z1) as H1.
  pose proof (Q_d1 N a' B (more n j s) i (neg_diff1 N a (diff21 N _ Ha)) (diff21 N _ DB) P1 Hi Z2) as H2.
  rewrite fadd_at, (has_Dn_eq _ _ _ _ H1), (has_Dn_eq _ _ _ _ H2).
  exact (is_derive_plus (K := R_AbsRing) (V := R_NormedModule) _ _ _ _ _ H1 H2).
Qed.
Lemma fP_2 n i j : 0 < rsum N n -> (i < N)%nat -> (j < N)%nat -> A n <> 0 -> B n <> 0 ->
  has_Dn (Dn (fP T V b d e a) i) j n (p2 (Rgas * T) (a n) (A n) (B n) (Dn a i n) (Dn A i n) (Dn B i n) (Dn a j n) (Dn A j n) (Dn B j n)
    (Dn (Dn a i) j n) (Dn (Dn A i) j n) (Dn (Dn B i) j n)).
Proof.
  intros P Hi Hj ZA ZB. apply has_Dn_ext_loc with (fadd (Dn (Q c A) i) (Dn (Q a' B) i)). { now apply fP_near1. }
  pose proof (Q_d2 N c A n i j (diff2_const N _) DA P Hi Hj ZA) as H1.
  pose proof (Q_d2 N a' B n i j (neg_diff2 N a Ha) DB P Hi Hj ZB) as H2.
  pose proof (is_derive_plus (K := R_AbsRing) (V := R_NormedModule) _ _ _ _ _ H1 H2) as H.
  apply is_derive_eq with (1 := H). unfold Q2, p2, q2. rewrite !Dn_const, !(neg_1 N a) by auto using diff21. rewrite (neg_2 N a) by auto.
  unfold fmul. change (plus ?x ?y) with (x + y). unfold Rdiv. ring.
Qed.
End Pressure2.
Section Pressure3.
Variables (N : nat) (T : R) (V b d e a : (nat -> R) -> R).
Notation A := (fA V b). Notation B := (fB V d e).
Notation c := (fun _ : nat -> R => Rgas * T). Notation a' := (fmul (fun _ => -1) a).
Hypotheses (HV : diff3 N V) (Hb : diff3 N b) (Hd : diff3 N d) (He : diff3 N e) (Ha : diff3 N a).
Let DA : diff3 N A. Proof. now apply fA_diff. Qed.
Let DB : diff3 N B. Proof. now apply fB_diff. Qed.
Lemma fP_3 n i j k : 0 < rsum N n -> (i < N)%nat -> (j < N)%nat -> (k < N)%nat -> A n <> 0 -> B n <> 0 ->
  has_Dn (Dn (Dn (fP T V b d e a) i) j) k n (p3 (Rgas * T) (a n) (A n) (B n) (Dn a i n) (Dn A i n) (Dn B i n) (Dn a j n) (Dn A j n) (Dn B j n) (Dn a k n) (Dn A k n) (Dn B k n)
    (Dn (Dn a i) j n) (Dn (Dn A i) j n) (Dn (Dn B i) j n) (Dn (Dn a i) k n) (Dn (Dn A i) k n) (Dn (Dn B i) k n) (Dn (Dn a j) k n) (Dn (Dn A j) k n) (Dn (Dn B j) k n)
    (Dn (Dn (Dn a i) j) k n) (Dn (Dn (Dn A i) j) k n) (Dn (Dn (Dn B i) j) k n)).
Proof.
  intros P Hi Hj Hk ZA ZB. apply has_Dn_ext_loc with (fadd (Dn (Dn (Q c A) i) j) (Dn (Dn (Q a' B) i) j)).
  { refine (filter_and _ _ _ _ (near_B N A n k (diff31 N _ DA) P Hk ZA) (near_B N B n k (diff31 N _ DB) P Hk ZB)).
    intros s [Z1 P1] [Z2 _]. apply has_Dn_eq. apply has_Dn_ext_loc with (fadd (Dn (Q c A) i) (Dn (Q a' B) i)). { apply (fP_near1 N); auto using diff32. }
    pose proof (Q_d2 N c A (more n k s) i j (diff2_const N _) (diff32 N _ DA) P1 Hi Hj Z1) as H1.
    pose proof (Q_d2 N a' B (more n k s) i j (neg_diff2 N a (diff32 N _ Ha)) (diff32 N _ DB) P1 Hi Hj Z2) as H2.
    rewrite fadd_at, (has_Dn_eq _ _ _ _ H1), (has_Dn_eq _ _ _ _ H2).
    exact (is_derive_plus (K := R_AbsRing) (V := R_NormedModule) _ _ _ _ _ H1 H2). }
  pose proof (Q_d3 N c A n i j k (diff3_const N _) DA P Hi Hj Hk ZA) as H1.
  pose proof (Q_d3 N a' B n i j k (neg_diff3 N a Ha) DB P Hi Hj Hk ZB) as H2.
  pose proof (is_derive_plus (K := R_AbsRing) (V := R_NormedModule) _ _ _ _ _ H1 H2) as H.
  apply is_derive_eq with (1 := H). unfold Q3, p3, q3. rewrite !Dn_const, !(neg_1 N a) by auto using diff31. rewrite !(neg_2 N a) by auto using diff32. rewrite (neg_3 N a) by auto.
  unfold fmul. change (plus ?x ?y) with (x + y). unfold Rdiv. ring.
Qed.
End Pressure3.

(* ---- pressure at fixed total volume ---- *)
Lemma Ptotal_fP N T Vt b d e a : Ptotal N T Vt b d e a = fP T (fV N Vt) b d e a.
Proof. apply functional_extensionality; intro n. rewrite fP_cubic, fV_at. reflexivity. Qed.
Lemma fA_at V b n : fA V b n = V n - b n. Proof. unfold fA, fadd, fmul. ring. Qed.
Lemma fB_at V d e n : fB V d e n = V n * V n + d n * V n + e n. Proof. reflexivity. Qed.

(* dP_dns_Vt: the derivative of the pressure with respect to the amount of a component, the total volume being held *)
Theorem C69_dP_dns : forall N T Vt b d e a zs db dd de da phase,
  rsum N zs = 1 -> derivs1 N b zs db -> derivs1 N d zs dd -> derivs1 N e zs de -> derivs1 N a zs da ->
  Vt - b zs <> 0 -> Vt * Vt + d zs * Vt + e zs <> 0 ->
  forall i, (i < N)%nat ->
  has_Dn (Ptotal N T Vt b d e a) i zs (GCEOSMIX_dP_dns_Vt phase Vt T (b zs) N (a zs) (e zs) (d zs) de dd db da i).
Proof.
  intros N T Vt b d e a zs db dd de da phase E [Hb Eb] [Hd Ed] [He Ee] [Ha Ea] ZA ZB i Hi.
  assert (P : 0 < rsum N zs) by lra. rewrite Ptotal_fP. pose proof (fV_at1 N Vt zs E) as EV.
  eapply is_derive_eq. { apply (fP_1 N); auto; rewrite ?EV; auto. apply diff1_vol. }
  assert (HV : diff2 N (fV N Vt)) by apply diff2_vol.
  assert (A1 : Dn (fA (fV N Vt) b) i zs = - Vt - db i).
  { pose proof (fV_1 N Vt zs i E Hi) as V1. unfold fA. rewrite (Dn_add N) by (auto using diff1_mul, diff1_const; apply diff1_vol). rewrite fadd_at, (Dn_mul N) by (auto using diff1_const).
    unfold fadd, fmul. rewrite Dn_const, V1, Eb by auto. ring. }
  assert (B1 : Dn (fB (fV N Vt) d e) i zs = - 2 * Vt * Vt + dd i * Vt - d zs * Vt + de i).
  { pose proof (fV_1 N Vt zs i E Hi) as V1. assert (D1 : diff1 N (fV N Vt)) by apply diff1_vol. unfold fB. rewrite (Dn_add N) by auto using diff1_mul, diff1_add. rewrite fadd_at.
    rewrite (Dn_add N) by auto using diff1_mul. rewrite fadd_at, !(Dn_mul N) by auto. unfold fadd, fmul. rewrite V1, EV, Ed, Ee by auto. ring. }
  unfold p1, q1. rewrite A1, B1, fA_at, fB_at, EV, Ea by auto.
  unfold GCEOSMIX_dP_dns_Vt. cbv zeta. rewrite loop_upd_lt by auto. field. splits; auto; intro HH; apply ZB; rewrite <- HH; ring.
Qed.

(* d2P_dninjs_Vt: the second derivatives; the answer is a symmetric matrix *)
Theorem C69_d2P_dns : forall N T Vt b d e a zs db dd de da d2b d2d d2e d2a phase,
  rsum N zs = 1 -> derivs2 N b zs db d2b -> derivs2 N d zs dd d2d -> derivs2 N e zs de d2e -> derivs2 N a zs da d2a ->
  (forall i j, (i < N)%nat -> (j < N)%nat -> d2b i j = d2b j i /\ d2d i j = d2d j i /\ d2e i j = d2e j i /\ d2a i j = d2a j i) ->
  Vt - b zs <> 0 -> Vt * Vt + d zs * Vt + e zs <> 0 ->
  forall i j, (i < N)%nat -> (j < N)%nat ->
  let answer := GCEOSMIX_d2P_dninjs_Vt phase Vt T N (b zs) (a zs) (e zs) de dd db da d2d d2e d2b d2a (d zs) in
  has_Dn (Dn (Ptotal N T Vt b d e a) i) j zs (answer i j) /\ answer i j = answer j i.
Proof.
  intros N T Vt b d e a zs db dd de da d2b d2d d2e d2a phase E (Hb & Eb & Eb2) (Hd & Ed & Ed2) (He & Ee & Ee2) (Ha & Ea & Ea2) SY ZA ZB.
  assert (P : 0 < rsum N zs) by lra. pose proof (fV_at1 N Vt zs E) as EV. assert (HV : diff2 N (fV N Vt)) by apply diff2_vol.
  set (F := fun i j => p2 (Rgas * T) (a zs) (Vt - b zs) (Vt * Vt + d zs * Vt + e zs) (da i) (- Vt - db i) (- 2 * Vt * Vt + dd i * Vt - d zs * Vt + de i)
    (da j) (- Vt - db j) (- 2 * Vt * Vt + dd j * Vt - d zs * Vt + de j) (d2a i j) (2 * Vt - d2b i j)
    (6 * Vt * Vt + d2d i j * Vt - dd i * Vt - dd j * Vt + 2 * d zs * Vt + d2e i j)).
  assert (C : forall i j, (i < N)%nat -> (j < N)%nat -> GCEOSMIX_d2P_dninjs_Vt phase Vt T N (b zs) (a zs) (e zs) de dd db da d2d d2e d2b d2a (d zs) i j = F (Nat.max i j) (Nat.min i j)).
  { intros i j Hi Hj. unfold GCEOSMIX_d2P_dninjs_Vt. cbv zeta.
    match goal with |- loop N (fun i o => loop (i + 1) (fun j o => updm (updm o j i (@?v i j)) i j _) o) ?w i j = _ => rewrite (loop_updm_mirror N v w i j) by auto end.
    cbv beta. generalize (Nat.max i j) (Nat.min i j). intros x y. unfold F, p2, q2. field. splits; auto; intro HH; apply ZB; rewrite <- HH; ring. }
  assert (SF : forall i j, (i < N)%nat -> (j < N)%nat -> F i j = F j i).
  { intros i j Hi Hj. destruct (SY i j Hi Hj) as (S1 & S2 & S3 & S4). unfold F, p2, q2. rewrite S1, S2, S3, S4. unfold Rdiv. ring. }
  assert (CF : forall i j, (i < N)%nat -> (j < N)%nat -> GCEOSMIX_d2P_dninjs_Vt phase Vt T N (b zs) (a zs) (e zs) de dd db da d2d d2e d2b d2a (d zs) i j = F i j).
  { intros i j Hi Hj. rewrite C by auto. destruct (Nat.le_ge_cases i j). { rewrite Nat.max_r, Nat.min_l by auto. now apply SF. } now rewrite Nat.max_l, Nat.min_r by auto. }
  intros i j Hi Hj answer. unfold answer. split; [|now rewrite !CF, SF by auto]. rewrite CF by auto. rewrite Ptotal_fP.
  eapply is_derive_eq. { apply (fP_2 N); auto. rewrite fA_at, EV; auto. rewrite fB_at, EV; auto. }
  rewrite !(fA_1 N), (fA_2 N), !(fB_1 N), (fB_2 N), !(fV_1 N), !(fV_2 N), fA_at, fB_at, EV, !Ea, !Ea2, !Eb, !Eb2, !Ed, !Ed2, !Ee, !Ee2 by auto.
  unfold F. f_equal; ring.
Qed.

(* d3P_dninjnks_Vt: what the third derivative is, and by how much the answer differs from it.  The code takes the derivative of
   epsilon with respect to the amount of the second component where that of the third is meant. *)
Theorem C69_d3P_dns : forall N T Vt b d e a zs db dd de da d2b d2d d2e d2a d3b d3d d3e d3a phase,
  rsum N zs = 1 -> derivs3 N b zs db d2b d3b -> derivs3 N d zs dd d2d d3d -> derivs3 N e zs de d2e d3e -> derivs3 N a zs da d2a d3a ->
  Vt - b zs <> 0 -> Vt * Vt + d zs * Vt + e zs <> 0 ->
  forall i j k, (i < N)%nat -> (j < N)%nat -> (k < N)%nat ->
  let B := Vt * Vt + d zs * Vt + e zs in
  let B1 i := - 2 * Vt * Vt + dd i * Vt - d zs * Vt + de i in
  let B2 := 6 * Vt * Vt + d2d i j * Vt - dd i * Vt - dd j * Vt + 2 * d zs * Vt + d2e i j in
  has_Dn (Dn (Dn (Ptotal N T Vt b d e a) i) j) k zs
    (GCEOSMIX_d3P_dninjnks_Vt phase Vt T N (b zs) (a zs) (e zs) de dd db da d2d d2e d2b d2a d3e d3d d3a d3b (d zs) i j k
     - (de k - de j) * (- d2a i j / B ^ 2 + 2 * (da i * B1 j + da j * B1 i + a zs * B2) / B ^ 3 - 6 * a zs * B1 i * B1 j / B ^ 4)).
Proof.
  intros N T Vt b d e a zs db dd de da d2b d2d d2e d2a d3b d3d d3e d3a phase E (Hb & Eb & Eb2 & Eb3) (Hd & Ed & Ed2 & Ed3) (He & Ee & Ee2 & Ee3) (Ha & Ea & Ea2 & Ea3) ZA ZB i j k Hi Hj Hk B B1 B2.
  assert (P : 0 < rsum N zs) by lra. pose proof (fV_at1 N Vt zs E) as EV. assert (HV : diff3 N (fV N Vt)) by apply diff3_vol.
  pose proof (diff32 N _ HV) as HV2. pose proof (diff32 N _ Hb) as Hb2. pose proof (diff32 N _ Hd) as Hd2. pose proof (diff32 N _ He) as He2.
  rewrite Ptotal_fP. eapply is_derive_eq. { apply (fP_3 N); auto. rewrite fA_at, EV; auto. rewrite fB_at, EV; auto. }
  rewrite !(fA_1 N), !(fA_2 N), (fA_3 N), !(fB_1 N), !(fB_2 N), (fB_3 N), !(fV_1 N), !(fV_2 N), (fV_3 N), fA_at, fB_at, EV, !Ea, !Ea2, !Ea3, !Eb, !Eb2, !Eb3, !Ed, !Ed2, !Ed3, !Ee, !Ee2, !Ee3 by auto.
  unfold GCEOSMIX_d3P_dninjnks_Vt. cbv zeta.
  match goal with |- context [loop N (fun i o => loop N (fun j o => loop N (fun k o => updt o i j k (@?v i j k)) o) o) ?w i j k] => rewrite (loop_updt_lt N v w i j k) by auto end.
  cbv beta. unfold B2, B1, B, p3, q3.
  replace (/ 1 ^ 2 * Vt ^ 2 + d zs * (Vt / 1) + e zs) with (Vt * Vt + d zs * Vt + e zs) by field.
  replace (- b zs + Vt / 1) with (Vt - b zs) by field.
  clear B B1 B2. set (B := Vt * Vt + d zs * Vt + e zs) in *. set (A := Vt - b zs) in *. clearbody A B. field. auto.
Qed.
(* the answer is the third derivative when the mixing rule has the same derivative of epsilon for the two components: for all of them when epsilon is 0 *)
Corollary C69_d3P_right : forall N T Vt b d e a zs db dd de da d2b d2d d2e d2a d3b d3d d3e d3a phase,
  rsum N zs = 1 -> derivs3 N b zs db d2b d3b -> derivs3 N d zs dd d2d d3d -> derivs3 N e zs de d2e d3e -> derivs3 N a zs da d2a d3a ->
  Vt - b zs <> 0 -> Vt * Vt + d zs * Vt + e zs <> 0 ->
  forall i j k, (i < N)%nat -> (j < N)%nat -> (k < N)%nat -> de j = de k ->
  has_Dn (Dn (Dn (Ptotal N T Vt b d e a) i) j) k zs
    (GCEOSMIX_d3P_dninjnks_Vt phase Vt T N (b zs) (a zs) (e zs) de dd db da d2d d2e d2b d2a d3e d3d d3a d3b (d zs) i j k).
Proof.
  intros N T Vt b d e a zs db dd de da d2b d2d d2e d2a d3b d3d d3e d3a phase E Hb Hd He Ha ZA ZB i j k Hi Hj Hk EE.
  eapply is_derive_eq. { eapply (C69_d3P_dns N T Vt b d e a zs db dd de da d2b d2d d2e d2a d3b d3d d3e d3a phase); eauto. }
  cbv zeta. rewrite EE. unfold Rminus at 1. replace (de k - de k) with 0 by ring. rewrite Rmult_0_l, Ropp_0, Rplus_0_r. reflexivity.
Qed.

(* ---- the departure function of the enthalpy: dH_dep_dzs ---- *)
Lemma fw_at V d n : fw V d n = 2 * V n + d n. Proof. reflexivity. Qed.
Lemma fD_at d e n : fD d e n = d n * d n - 4 * e n. Proof. unfold fD, fadd, fmul. ring. Qed.
Lemma sqrt_D x : 0 < x -> / sqrt x * / sqrt x = / x.
Proof. intros H. rewrite <- Rinv_mult, sqrt_sqrt by lra. reflexivity. Qed.

(* the enthalpy departure at constant T and P, the mole fractions varied without normalisation *)
Theorem C69_dH_dep : forall N T P Z V d e a at_ zs dV dd de da dat,
  0 < rsum N zs -> T <> 0 -> P <> 0 -> V zs = Z * Rgas * T / P ->
  derivs1 N V zs dV -> derivs1 N d zs dd -> derivs1 N e zs de -> derivs1 N a zs da -> derivs1 N at_ zs dat ->
  0 < d zs * d zs - 4 * e zs -> V zs * V zs + d zs * V zs + e zs <> 0 ->
  forall i, (i < N)%nat ->
  has_Dn (fun z => cubicHdep T P (V z) (d z) (e z) (a z) (at_ z)) i zs
    (GCEOSMIX_dH_dep_dzs Z P T N dd de da dat dV (d zs) (e zs) (a zs) (at_ zs) i).
Proof.
  intros N T P Z V d e a at_ zs dV dd de da dat PN ZT ZP EVZ [HV EV] [Hd Ed] [He Ee] [Ha Ea] [Hat Eat] ZD ZB i Hi.
  assert (U : fD d e zs - fw V d zs * fw V d zs <> 0) by (rewrite fD_at, fw_at; intro HH; apply ZB; lra).
  assert (DD : 0 < fD d e zs) by now rewrite fD_at.
  pose proof (fw_diff1 N V d HV Hd) as HW. pose proof (fD_diff1 N d e Hd He) as HD.
  destruct (has_sm1 _ _ _ _ (Hf_d1 N (fw V d) (fD d e) zs i HW HD PN Hi DD U)) as [S1 V1].
  pose (K := fadd (fmul (fun _ => T) at_) (fmul (fun _ => -1) a)).
  assert (HK : diff1 N K) by (apply diff1_add; apply diff1_mul; auto using diff1_const).
  assert (EK : Dn K i zs = T * dat i - da i).
  { unfold K. rewrite (Dn_add N) by auto using diff1_mul, diff1_const. rewrite fadd_at, !(Dn_mul N) by auto using diff1_const. unfold fadd, fmul. rewrite !Dn_const, Ea, Eat by auto. ring. }
  destruct (has_sm1 _ _ _ _ (mul_1 K (Hf (fw V d) (fD d e)) i zs (diff_sm1 N K i zs HK PN Hi) S1)) as [S2 V2].
  assert (HPV : diff1 N (fmul (fun _ => P) V)) by (apply diff1_mul; auto using diff1_const).
  assert (EPV : Dn (fmul (fun _ => P) V) i zs = P * dV i). { rewrite (Dn_mul N) by auto using diff1_const. unfold fadd, fmul. rewrite Dn_const, EV by auto. ring. }
  pose proof (add_1 _ _ i zs (diff_sm1 N _ i zs HPV PN Hi) S2) as H3.
  destruct (has_sm1 _ _ _ _ H3) as [S3 V3].
  pose proof (add_1 _ (fun _ => - (Rgas * T)) i zs S3 (diff_sm1 N _ i zs (diff1_const N _) PN Hi)) as H4.
  apply is_derive_ext with (g := fun s => (fun z => cubicHdep T P (V z) (d z) (e z) (a z) (at_ z)) (more zs i s)) in H4.
  2: { intros t. match goal with |- ?x = ?y => change (@eq R x y) end. unfold fadd at 1 2, fmul. unfold cubicHdep, Hf, K. rewrite fw_at, fD_at. unfold fadd, fmul, Rdiv. ring. }
  apply is_derive_eq with (1 := H4). rewrite V3, Dn_const, V2, EPV, V1, EK, (fw_1 N), (fD_1 N), EV, Ed, Ee by auto.
  unfold GCEOSMIX_dH_dep_dzs. cbv zeta. rewrite loop_upd_lt by auto. rewrite <- EVZ. unfold h1, Hf. rewrite fw_at, fD_at. unfold K, fadd, fmul.
  replace (V zs + V zs + d zs) with (2 * V zs + d zs) by ring.
  change ((2 * V zs + d zs) * / sqrt (d zs * d zs - 4 * e zs)) with ((2 * V zs + d zs) / sqrt (d zs * d zs - 4 * e zs)).
  set (C := re_catanh ((2 * V zs + d zs) / sqrt (d zs * d zs - 4 * e zs))). rewrite !sqrt_D by auto.
  rewrite fw_at, fD_at in U. set (D := d zs * d zs - 4 * e zs) in *. set (w := 2 * V zs + d zs) in *. pose proof (sqrt_lt_R0 D ZD) as SD. set (r := sqrt D) in *.
  replace (dd i * d zs - 2 * de i) with ((2 * d zs * dd i - 4 * de i) / 2) by field. set (Di := 2 * d zs * dd i - 4 * de i).
  replace (/ D * w * w - 1) with (- (D - w * w) / D) by (field; lra). clearbody D w C r Di. field. splits; auto; lra.
Qed.

(* ---- the departure function of the Helmholtz energy ---- *)
Lemma rp D x k : 0 < D -> x = INR k / 2 -> Rpower D x = sqrt D ^ k.
Proof.
  intros H ->. rewrite <- Rpower_pow by now apply sqrt_lt_R0. rewrite <- Rpower_sqrt by auto. rewrite Rpower_mult. f_equal. field.
Qed.
Section Helmholtz.
Variables (N : nat) (T : R) (V b d e a : (nat -> R) -> R).
Notation A := (fA V b). Notation H := (Hf (fw V d) (fD d e)).
Definition fAd : (nat -> R) -> R := fadd (fmul (fun _ => - (Rgas * T)) (Lg A)) (fmul (fmul (fun _ => -1) a) H).
Lemma fAd_at P n : 0 < Rgas * T -> 0 < P -> 0 < A n -> cubicAdep T P (V n) (b n) (d n) (e n) (a n) = fAd n + - (Rgas * T) * ln (P / (Rgas * T)).
Proof.
  intros RT HP HA. rewrite fA_at in HA. unfold cubicAdep, fAd, fadd, fmul, Lg, Hf. rewrite fA_at, fw_at, fD_at.
  replace (P * (V n - b n) / (Rgas * T)) with (P / (Rgas * T) * (V n - b n)) by (unfold Rdiv; ring). rewrite ln_mult; auto. { unfold Rdiv. ring. }
  now apply Rdiv_lt_0_compat.
Qed.
Variable n : nat -> R.
Hypotheses (PN : 0 < rsum N n) (PA : 0 < A n) (PD : 0 < fD d e n) (U : fD d e n - fw V d n * fw V d n <> 0).
Lemma fAd_1 i : diff1 N V -> diff1 N b -> diff1 N d -> diff1 N e -> diff1 N a -> (i < N)%nat ->
  has_Dn fAd i n (- (Rgas * T) * (Dn A i n / A n) - Dn a i n * H n - a n * h1 (H n) (fw V d n) (fD d e n) (Dn (fw V d) i n) (Dn (fD d e) i n)).
Proof.
  intros HV Hb Hd He Ha Hi. pose proof (fw_diff1 N V d HV Hd) as HW. pose proof (fD_diff1 N d e Hd He) as HD.
  assert (DA : diff1 N A) by (apply diff1_add; auto; apply diff1_mul; auto; apply diff1_const).
  destruct (has_sm1 _ _ _ _ (Hf_d1 N (fw V d) (fD d e) n i HW HD PN Hi PD U)) as [S1 V1].
  destruct (has_sm1 _ _ _ _ (ln_1 A i n (diff_sm1 N _ i n DA PN Hi) PA)) as [S2 V2].
  destruct (has_sm1 _ _ _ _ (mul_1 (fun _ => - (Rgas * T)) _ i n (diff_sm1 N _ i n (diff1_const N _) PN Hi) S2)) as [S3 V3].
  destruct (has_sm1 _ _ _ _ (mul_1 (fmul (fun _ => -1) a) _ i n (diff_sm1 N _ i n (neg_diff1 N a Ha) PN Hi) S1)) as [S4 V4].
  apply is_derive_eq with (1 := add_1 _ _ i n S3 S4). rewrite V3, V4, V2, V1, Dn_const, (neg_1 N a) by auto. unfold fmul. ring.
Qed.
Lemma fAd_2 i j : diff2 N V -> diff2 N b -> diff2 N d -> diff2 N e -> diff2 N a -> (i < N)%nat -> (j < N)%nat -> sm2 fAd i j n /\
  Dn (Dn fAd i) j n = - (Rgas * T) * (Dn (Dn A i) j n / A n - Dn A i n * Dn A j n / (A n * A n)) - Dn (Dn a i) j n * H n
    - Dn a i n * h1 (H n) (fw V d n) (fD d e n) (Dn (fw V d) j n) (Dn (fD d e) j n) - Dn a j n * h1 (H n) (fw V d n) (fD d e n) (Dn (fw V d) i n) (Dn (fD d e) i n)
    - a n * h2 (H n) (fw V d n) (fD d e n) (Dn (fw V d) i n) (Dn (fD d e) i n) (Dn (fw V d) j n) (Dn (fD d e) j n) (Dn (Dn (fw V d) i) j n) (Dn (Dn (fD d e) i) j n).
Proof.
  intros HV Hb Hd He Ha Hi Hj. pose proof (fw_diff2 N V d HV Hd) as HW. pose proof (fD_diff2 N d e Hd He) as HD. pose proof (fA_diff2 N V b HV Hb) as DA.
  destruct (Hf_2 N (fw V d) (fD d e) HW HD i j n PN Hi Hj PD U) as [S1 V1].
  pose proof (has_Dn_eq _ _ _ _ (Hf_d1 N (fw V d) (fD d e) n i (diff21 N _ HW) (diff21 N _ HD) PN Hi PD U)) as V1i.
  pose proof (has_Dn_eq _ _ _ _ (Hf_d1 N (fw V d) (fD d e) n j (diff21 N _ HW) (diff21 N _ HD) PN Hj PD U)) as V1j.
  destruct (ln_2 A i j n (diff_sm2 N _ i j n DA PN Hi Hj) PA) as [S2 V2].
  destruct (const_2 (- (Rgas * T)) i j n) as [SC VC].
  destruct (mul_2 _ _ i j n SC S2) as [S3 V3].
  destruct (mul_2 (fmul (fun _ => -1) a) _ i j n (diff_sm2 N _ i j n (neg_diff2 N a Ha) PN Hi Hj) S1) as [S4 V4].
  destruct (add_2 _ _ i j n S3 S4) as [S5 V5]. split. exact S5. unfold fAd. rewrite V5, V3, V4, V2, V1, VC, V1i, V1j, !Dn_const, !(neg_1 N a), (neg_2 N a) by auto using diff21.
  unfold fmul. ring.
Qed.
End Helmholtz.
(* positive near n along two directions *)
Lemma near_pos2 N f n i j : diff1 N f -> 0 < rsum N n -> (i < N)%nat -> (j < N)%nat -> 0 < f n -> locally 0 (fun t => locally 0 (fun s => 0 < f (more (more n j t) i s))).
Proof.
  intros D P Hi Hj Z. refine (filter_and _ _ _ _ (near_pos f n j (D n j P Hj) Z) (near_total N n j P Hj)).
  intros s Z1 P1. apply near_pos; auto.
Qed.

(* _d2_A_dep_d2_helper: second derivatives at constant temperature and pressure, along any volume that depends on the amounts *)
Theorem C69_d2A_dep : forall N T P V b d e a zs dV d2V db d2b dd d2d de d2e da d2a,
  0 < rsum N zs -> 0 < T -> 0 < P ->
  derivs2 N V zs dV d2V -> derivs2 N b zs db d2b -> derivs2 N d zs dd d2d -> derivs2 N e zs de d2e -> derivs2 N a zs da d2a ->
  0 < V zs - b zs -> 0 < d zs * d zs - 4 * e zs -> V zs * V zs + d zs * V zs + e zs <> 0 ->
  forall i j, (i < N)%nat -> (j < N)%nat ->
  has_Dn (Dn (fun n => cubicAdep T P (V n) (b n) (d n) (e n) (a n)) i) j zs
    (GCEOSMIX_d2_A_dep_d2_helper (V zs) dV d2V db d2b de d2e dd d2d da d2a T P (b zs) N (d zs) (e zs) (a zs) i j).
Proof.
  intros N T P V b d e a zs dV d2V db d2b dd d2d de d2e da d2a PN PT PP (HV & EV & EV2) (Hb & Eb & Eb2) (Hd & Ed & Ed2) (He & Ee & Ee2) (Ha & Ea & Ea2) ZA ZD ZB i j Hi Hj.
  assert (RT : 0 < Rgas * T) by (apply Rmult_lt_0_compat; auto; apply Rgas_pos).
  assert (U : fD d e zs - fw V d zs * fw V d zs <> 0) by (rewrite fD_at, fw_at; intro HH; apply ZB; lra).
  assert (DD : 0 < fD d e zs) by now rewrite fD_at. assert (PA : 0 < fA V b zs) by now rewrite fA_at.
  destruct (fAd_2 N T V b d e a zs PN PA DD U i j HV Hb Hd He Ha Hi Hj) as [S1 V1].
  destruct (const_2 (- (Rgas * T) * ln (P / (Rgas * T))) i j zs) as [SC VC]. destruct (add_2 _ _ i j zs S1 SC) as [S2 V2].
  eapply is_derive_eq.
  - apply near_2 with (2 := S2). pose proof (near_pos2 N _ zs i j (diff21 N _ (fA_diff2 N V b HV Hb)) PN Hi Hj PA) as L.
    apply filter_imp with (2 := L). intros t L1. apply filter_imp with (2 := L1). intros s Z. cbv beta. rewrite fAd_at by auto. reflexivity.
  - rewrite V2, VC, V1, (fA_2 N), !(fA_1 N), !(fw_1 N), (fw_2 N), !(fD_1 N), (fD_2 N), !EV, !EV2, !Eb, !Eb2, !Ed, !Ed2, !Ee, !Ee2, !Ea, !Ea2 by auto using diff21.
    unfold GCEOSMIX_d2_A_dep_d2_helper. cbv zeta.
    match goal with |- context [loop N (fun i o => loop N (fun j o => updm o i j (@?v i j)) o) ?w i j] => rewrite (loop_updm_lt N v w i j) by auto end. cbv beta.
    unfold h2, h1, Hf. rewrite fw_at, fD_at, fA_at.
    replace (-4 * e zs + d zs ^ 2) with (d zs * d zs - 4 * e zs) by ring.
    rewrite !(rp _ (3 / 2) 3), !(rp _ (5 / 2) 5) by (auto; simpl; lra).
    replace (1 / sqrt (d zs * d zs - 4 * e zs) * (2 * V zs + d zs)) with ((2 * V zs + d zs) / sqrt (d zs * d zs - 4 * e zs)) by (field; pose proof (sqrt_lt_R0 _ ZD); lra).
    set (C := re_catanh ((2 * V zs + d zs) / sqrt (d zs * d zs - 4 * e zs))).
    rewrite fw_at, fD_at in U. pose proof (sqrt_lt_R0 _ ZD) as SD. assert (SS : sqrt (d zs * d zs - 4 * e zs) * sqrt (d zs * d zs - 4 * e zs) = d zs * d zs - 4 * e zs) by (apply sqrt_sqrt; lra).
    set (r := sqrt (d zs * d zs - 4 * e zs)) in *. clearbody C.
    assert (EA : - (Rgas * T) * ((d2V i j - d2b i j) / (V zs - b zs) - (dV i - db i) * (dV j - db j) / ((V zs - b zs) * (V zs - b zs))) =
      - (Rgas * T * (d2V i j - d2b i j) / (V zs - b zs)) + Rgas * T * (dV i - db i) * (dV j - db j) / (V zs - b zs) ^ 2) by (field; lra).
    rewrite EA. clear EA.
    set (RA1 := Rgas * T * (d2V i j - d2b i j) / (V zs - b zs)). set (RA2 := Rgas * T * (dV i - db i) * (dV j - db j) / (V zs - b zs) ^ 2). clearbody RA1 RA2.
    rewrite <- !SS in *.
    assert (X1 : V zs = ((2 * V zs + d zs) - d zs) / 2) by field. set (w := 2 * V zs + d zs) in *. clearbody w.
    set (v := V zs) in *. clearbody v. subst v.
    assert (Y1 : de i = (dd i * d zs - (dd i * d zs - 2 * de i)) / 2) by field. assert (Y2 : de j = (dd j * d zs - (dd j * d zs - 2 * de j)) / 2) by field.
    assert (Y3 : d2e i j = (dd i * dd j + d2d i j * d zs - (dd i * dd j + d2d i j * d zs - 2 * d2e i j)) / 2) by field.
    assert (W1 : dV i = ((2 * dV i + dd i) - dd i) / 2) by field. assert (W2 : dV j = ((2 * dV j + dd j) - dd j) / 2) by field.
    assert (W3 : d2V i j = ((2 * d2V i j + d2d i j) - d2d i j) / 2) by field.
    set (gi := dd i * d zs - 2 * de i) in *. set (gj := dd j * d zs - 2 * de j) in *. set (gij := dd i * dd j + d2d i j * d zs - 2 * d2e i j) in *.
    set (wi := 2 * dV i + dd i) in *. set (wj := 2 * dV j + dd j) in *. set (wij := 2 * d2V i j + d2d i j) in *.
    clearbody gi gj gij wi wj wij. rewrite Y1, Y2, Y3, W1, W2, W3.
    clear - SD U. clearbody r. set (dz := d zs). set (ddi := dd i). set (ddj := dd j). set (dij := d2d i j). set (az := a zs). set (ai := da i). set (aj := da j). set (aij := d2a i j).
    clearbody dz ddi ddj dij az ai aj aij.
    field.
    repeat split; lra.
Qed.

(* the pressure near a composition *)
Lemma fP_sm2 N T V b d e a n i j : diff2 N V -> diff2 N b -> diff2 N d -> diff2 N e -> diff2 N a -> 0 < rsum N n -> (i < N)%nat -> (j < N)%nat ->
  fA V b n <> 0 -> fB V d e n <> 0 -> sm2 (fP T V b d e a) i j n.
Proof.
  intros HV Hb Hd He Ha P Hi Hj ZA ZB.
  assert (S1 : forall m i, (i < N)%nat -> 0 < rsum N m -> fA V b m <> 0 -> fB V d e m <> 0 -> sm1 (fP T V b d e a) i m).
  { intros m k Hk Hm A1 B1. eexists. apply (fP_1 N); auto using diff21. rewrite <- fA_at; auto. }
  split; [|split; [|split]]; auto.
  - refine (filter_and _ _ _ _ (near_B N _ n j (diff21 N _ (fA_diff2 N V b HV Hb)) P Hj ZA) (near_B N _ n j (diff21 N _ (fB_diff2 N V d e HV Hd He)) P Hj ZB)).
    intros s [Z1 P1] [Z2 _]. now apply S1.
  - eexists. apply (fP_2 N); auto.
Qed.
Section HelmholtzVt.
Variables (N : nat) (T Vt : R) (b d e a : (nat -> R) -> R) (zs db dd de da : nat -> R) (d2b d2d d2e d2a : nat -> nat -> R).
Hypotheses (E1 : rsum N zs = 1) (PT : 0 < T) (PV : 0 < Vt)
  (Hb : derivs2 N b zs db d2b) (Hd : derivs2 N d zs dd d2d) (He : derivs2 N e zs de d2e) (Ha : derivs2 N a zs da d2a)
  (ZA : 0 < Vt - b zs) (ZD : 0 < d zs * d zs - 4 * e zs) (ZB : Vt * Vt + d zs * Vt + e zs <> 0) (PP : 0 < Ptotal N T Vt b d e a zs).
Notation Pf := (fP T (fV N Vt) b d e a).
Definition fAT : (nat -> R) -> R := fadd (fAd T (fV N Vt) b d e a) (fmul (fun _ => - (Rgas * T)) (Lg Pf)).
Let c0 := Rgas * T * ln (Rgas * T).
Let RT : 0 < Rgas * T. Proof. apply Rmult_lt_0_compat; auto; apply Rgas_pos. Qed.
Let PN : 0 < rsum N zs. Proof. lra. Qed.
Let EV := fV_at1 N Vt zs E1.
Let DV : diff2 N (fV N Vt). Proof. apply diff2_vol. Qed.
Let PA : 0 < fA (fV N Vt) b zs. Proof. now rewrite fA_at, EV. Qed.
Let DD : 0 < fD d e zs. Proof. now rewrite fD_at. Qed.
Let U : fD d e zs - fw (fV N Vt) d zs * fw (fV N Vt) d zs <> 0. Proof. rewrite fD_at, fw_at, EV; intro HH; apply ZB; lra. Qed.
Let ZB' : fB (fV N Vt) d e zs <> 0. Proof. now rewrite fB_at, EV. Qed.
Let PPf : 0 < Pf zs. Proof. now rewrite <- Ptotal_fP. Qed.
Let SP i j : (i < N)%nat -> (j < N)%nat -> sm2 Pf i j zs.
Proof. intros Hi Hj. destruct Hb, Hd, He, Ha. apply (fP_sm2 N); auto. apply Rgt_not_eq. exact PA. Qed.
Lemma Adep_at n : 0 < fA (fV N Vt) b n -> 0 < Pf n -> Adep_total N T Vt b d e a n = fadd fAT (fun _ => c0) n.
Proof.
  intros A1 P1. unfold Adep_total. rewrite <- fV_at, (fAd_at T (fV N Vt) b d e a); auto; rewrite Ptotal_fP; auto.
  unfold fAT, fadd, fmul, Lg, c0. unfold Rdiv. rewrite ln_mult, ln_Rinv by (auto; now apply Rinv_0_lt_compat). ring.
Qed.
Lemma Adep_near i j : (i < N)%nat -> (j < N)%nat -> near_eq i j zs (Adep_total N T Vt b d e a) (fadd fAT (fun _ => c0)).
Proof.
  intros Hi Hj. destruct (SP i j Hi Hj) as (_ & S2 & S3 & _). destruct Hb as [Db _].
  pose proof (near_pos2 N _ zs i j (diff21 N _ (fA_diff2 N _ b DV Db)) PN Hi Hj PA) as L.
  pose proof (filter_and _ _ _ (fun s x y => conj x y) (near_pos Pf zs j S2 PPf) S3) as L2.
  refine (filter_and _ _ _ _ L L2). intros t L1 [P1 S1]. refine (filter_and _ _ _ _ L1 (near_pos Pf _ i S1 P1)). intros s. apply Adep_at.
Qed.
Lemma AT_1 i : (i < N)%nat -> has_Dn (Adep_total N T Vt b d e a) i zs
  (- (Rgas * T) * (Dn (fA (fV N Vt) b) i zs / fA (fV N Vt) b zs) - Dn a i zs * Hf (fw (fV N Vt) d) (fD d e) zs
   - a zs * h1 (Hf (fw (fV N Vt) d) (fD d e) zs) (fw (fV N Vt) d zs) (fD d e zs) (Dn (fw (fV N Vt) d) i zs) (Dn (fD d e) i zs) - Rgas * T * (Dn Pf i zs / Pf zs)).
Proof.
  intros Hi. destruct Hb as [Db _]. destruct Hd as [Dd _]. destruct He as [De _]. destruct Ha as [Da _]. destruct (SP i i Hi Hi) as (S1 & _).
  apply near_1 with (fadd fAT (fun _ => c0)).
  { pose proof (near_pos _ zs i (diff21 N _ (fA_diff2 N _ b DV Db) zs i PN Hi) PA) as L.
    refine (filter_and _ _ _ _ L (near_pos Pf zs i S1 PPf)). intros s. apply Adep_at. }
  destruct (has_sm1 _ _ _ _ (fAd_1 N T (fV N Vt) b d e a zs PN PA DD U i (diff21 N _ DV) (diff21 N _ Db) (diff21 N _ Dd) (diff21 N _ De) (diff21 N _ Da) Hi)) as [A1 V1].
  destruct (has_sm1 _ _ _ _ (ln_1 Pf i zs S1 PPf)) as [A2 V2].
  destruct (has_sm1 _ _ _ _ (mul_1 (fun _ => - (Rgas * T)) _ i zs (diff_sm1 N _ i zs (diff1_const N _) PN Hi) A2)) as [A3 V3].
  destruct (has_sm1 _ _ _ _ (add_1 _ _ i zs A1 A3)) as [A4 V4].
  apply is_derive_eq with (1 := add_1 _ _ i zs A4 (diff_sm1 N _ i zs (diff1_const N c0) PN Hi)). unfold fAT. rewrite V4, V3, V2, V1, !Dn_const. ring.
Qed.
Lemma dA_Vt phase i : (i < N)%nat -> has_Dn (Adep_total N T Vt b d e a) i zs
  (GCEOSMIX_dA_dep_dns_Vt phase Vt T N (b zs) (a zs) (e zs) de dd db da (GCEOSMIX_dP_dns_Vt phase Vt T (b zs) N (a zs) (e zs) (d zs) de dd db da) (Ptotal N T Vt b d e a zs) (d zs) i).
Proof.
  intros Hi. apply is_derive_eq with (1 := AT_1 i Hi).
  assert (EP : Dn Pf i zs = GCEOSMIX_dP_dns_Vt phase Vt T (b zs) N (a zs) (e zs) (d zs) de dd db da i).
  { rewrite <- Ptotal_fP. apply has_Dn_eq. destruct Hb as (b1 & b2 & _), Hd as (x1 & x2 & _), He as (e1 & e2 & _), Ha as (a1 & a2 & _).
    apply C69_dP_dns; auto; try (split; auto using diff21). lra. }
  destruct Hb as (Db & Eb & _), Hd as (Dd & Ed & _), He as (De & Ee & _), Ha as (Da & Ea & _).
  rewrite EP, (fA_1 N), (fw_1 N), (fD_1 N), !(fV_1 N), !Eb, !Ed, !Ee, !Ea by auto using diff21.
  rewrite <- Ptotal_fP. unfold GCEOSMIX_dA_dep_dns_Vt. cbv zeta.
  match goal with |- context [loop N (fun i o => upd o i (@?v i)) ?w i] => rewrite (loop_upd_lt N v w i) by auto end. cbv beta.
  set (dP := GCEOSMIX_dP_dns_Vt _ _ _ _ _ _ _ _ _ _ _ _ i). clearbody dP. set (Pz := Ptotal N T Vt b d e a zs) in *. clearbody Pz.
  unfold h1, Hf. rewrite fw_at, fD_at, fA_at, EV.
  replace (d zs ^ 2 - 4 * e zs) with (d zs * d zs - 4 * e zs) by ring.
  rewrite !(rp _ (7 / 2) 7), !(rp _ (5 / 2) 5) by (auto; simpl; lra).
  replace ((2 * Vt + d zs) * / sqrt (d zs * d zs - 4 * e zs)) with ((2 * Vt + d zs) / sqrt (d zs * d zs - 4 * e zs)) by reflexivity.
  set (C := re_catanh ((2 * Vt + d zs) / sqrt (d zs * d zs - 4 * e zs))).
  assert (Uz := U). rewrite fw_at, fD_at, EV in Uz. pose proof (sqrt_lt_R0 _ ZD) as SD.
  assert (SS : sqrt (d zs * d zs - 4 * e zs) * sqrt (d zs * d zs - 4 * e zs) = d zs * d zs - 4 * e zs) by (apply sqrt_sqrt; lra).
  set (r := sqrt (d zs * d zs - 4 * e zs)) in *. clearbody C.
  replace ((2 * Vt + d zs) ^ 2 - d zs ^ 2 + 4 * e zs) with ((2 * Vt + d zs) * (2 * Vt + d zs) - (d zs * d zs - 4 * e zs)) by ring.
  rewrite <- !SS in *. set (w := 2 * Vt + d zs) in *. set (ddi := dd i) in *.
  replace (2 * d zs * ddi - 4 * de i) with (2 * (ddi * d zs - 2 * de i)) by ring. set (g := ddi * d zs - 2 * de i) in *.
  clearbody r w g ddi. clear - SD Uz PP ZA PV RT. set (dbi := db i). set (bz := b zs) in *. set (az := a zs). set (ai := da i). set (rt := Rgas * T) in *. clearbody dbi bz az ai rt.
  field. repeat split; lra.
Qed.
(* value of the second derivative in terms of the lists *)
Definition a2 (i j : nat) (Pz : R) (dP : nat -> R) (d2P : nat -> nat -> R) : R :=
  let A := Vt - b zs in let w := 2 * Vt + d zs in let D := d zs * d zs - 4 * e zs in let h := 2 * re_catanh (w / sqrt D) / sqrt D in
  let w1 i := 2 * - Vt + dd i in let D1 i := 2 * d zs * dd i - 4 * de i in
  - (Rgas * T) * ((2 * Vt - d2b i j) / A - (- Vt - db i) * (- Vt - db j) / (A * A)) - d2a i j * h
  - da i * h1 h w D (w1 j) (D1 j) - da j * h1 h w D (w1 i) (D1 i)
  - a zs * h2 h w D (w1 i) (D1 i) (w1 j) (D1 j) (2 * (2 * Vt) + d2d i j) (2 * dd i * dd j + 2 * d zs * d2d i j - 4 * d2e i j)
  - Rgas * T * (d2P i j / Pz - dP i * dP j / (Pz * Pz)).
Lemma AT_2 i j : (i < N)%nat -> (j < N)%nat -> has_Dn (Dn (Adep_total N T Vt b d e a) i) j zs
  (a2 i j (Pf zs) (fun i => Dn Pf i zs) (fun i j => Dn (Dn Pf i) j zs)).
Proof.
  intros Hi Hj. destruct Hb as (Db & Eb & Eb2), Hd as (Dd & Ed & Ed2), He as (De & Ee & Ee2), Ha as (Da & Ea & Ea2).
  destruct (fAd_2 N T (fV N Vt) b d e a zs PN PA DD U i j DV Db Dd De Da Hi Hj) as [S1 V1].
  destruct (ln_2 Pf i j zs (SP i j Hi Hj) PPf) as [S2 V2]. destruct (const_2 (- (Rgas * T)) i j zs) as [SC VC].
  destruct (mul_2 _ _ i j zs SC S2) as [S3 V3]. destruct (add_2 _ _ i j zs S1 S3) as [S4 V4].
  destruct (const_2 c0 i j zs) as [SC' VC']. destruct (add_2 _ _ i j zs S4 SC') as [S5 V5].
  eapply is_derive_eq. { apply near_2 with (1 := Adep_near i j Hi Hj). exact S5. }
  unfold fAT. rewrite V5, VC', V4, V3, V2, VC, V1, (fA_2 N), !(fA_1 N), !(fw_1 N), (fw_2 N), !(fD_1 N), (fD_2 N), !(fV_1 N), !(fV_2 N), !Eb, !Eb2, !Ed, !Ed2, !Ee, !Ee2, !Ea, !Ea2, !Dn_const by auto using diff21.
  unfold a2, Hf. rewrite fw_at, fD_at, fA_at, EV. cbv zeta. ring.
Qed.
Lemma d2A_Vt phase : (forall i j, (i < N)%nat -> (j < N)%nat -> d2b i j = d2b j i /\ d2d i j = d2d j i /\ d2e i j = d2e j i /\ d2a i j = d2a j i) ->
  forall i j, (i < N)%nat -> (j < N)%nat ->
  let answer := GCEOSMIX_d2A_dep_dninjs_Vt phase Vt T N (b zs) (a zs) (e zs) de dd db da d2d d2e d2b d2a (GCEOSMIX_dP_dns_Vt phase Vt T (b zs) N (a zs) (e zs) (d zs) de dd db da)
     (GCEOSMIX_d2P_dninjs_Vt phase Vt T N (b zs) (a zs) (e zs) de dd db da d2d d2e d2b d2a (d zs)) (Ptotal N T Vt b d e a zs) (d zs) in
  has_Dn (Dn (Adep_total N T Vt b d e a) i) j zs (answer i j) /\ answer i j = answer j i.
Proof.
  intros SY. set (dP := GCEOSMIX_dP_dns_Vt _ _ _ _ _ _ _ _ _ _ _ _). set (d2P := GCEOSMIX_d2P_dninjs_Vt _ _ _ _ _ _ _ _ _ _ _ _ _ _ _ _).
  assert (EP : forall i, (i < N)%nat -> Dn Pf i zs = dP i).
  { intros i Hi. rewrite <- Ptotal_fP. apply has_Dn_eq. destruct Hb as (b1 & b2 & _), Hd as (x1 & x2 & _), He as (e1 & e2 & _), Ha as (a1 & a2 & _).
    apply C69_dP_dns; auto; try (split; auto using diff21). lra. }
  assert (EP2 : forall i j, (i < N)%nat -> (j < N)%nat -> Dn (Dn Pf i) j zs = d2P i j /\ d2P i j = d2P j i).
  { intros i j Hi Hj. rewrite <- Ptotal_fP. destruct (C69_d2P_dns N T Vt b d e a zs db dd de da d2b d2d d2e d2a phase E1 Hb Hd He Ha SY (Rgt_not_eq _ _ ZA) ZB i j Hi Hj) as [K1 K2].
    split; auto. now apply has_Dn_eq. }
  clearbody dP d2P. set (F := fun i j => a2 i j (Pf zs) dP d2P). set (Pz := Ptotal N T Vt b d e a zs) in *.
  assert (C : forall i j, (i < N)%nat -> (j < N)%nat -> GCEOSMIX_d2A_dep_dninjs_Vt phase Vt T N (b zs) (a zs) (e zs) de dd db da d2d d2e d2b d2a dP d2P Pz (d zs) i j = F (Nat.max i j) (Nat.min i j)).
  { intros i j Hi Hj. unfold GCEOSMIX_d2A_dep_dninjs_Vt. cbv zeta.
    match goal with |- loop N (fun i o => loop (i + 1) (fun j o => updm (updm o j i (@?v i j)) i j _) o) ?w i j = _ => rewrite (loop_updm_mirror N v w i j) by auto end.
    cbv beta. generalize (Nat.max i j) (Nat.min i j). intros x y. unfold F, a2. cbv zeta. rewrite <- Ptotal_fP. fold Pz. clearbody Pz.
    replace (- (4 * e zs) + d zs ^ 2) with (d zs * d zs - 4 * e zs) by ring.
    rewrite !(rp _ (25 / 2) 25), !(rp _ (23 / 2) 23), !(rp _ (21 / 2) 21) by (auto; simpl; lra).
    set (C := re_catanh ((2 * Vt + d zs) / sqrt (d zs * d zs - 4 * e zs))).
    assert (Uz := U). rewrite fw_at, fD_at, EV in Uz. pose proof (sqrt_lt_R0 _ ZD) as SD.
    assert (SS : sqrt (d zs * d zs - 4 * e zs) * sqrt (d zs * d zs - 4 * e zs) = d zs * d zs - 4 * e zs) by (apply sqrt_sqrt; lra).
    set (r := sqrt (d zs * d zs - 4 * e zs)) in *. clearbody C.
    replace (4 * e zs + (2 * Vt + d zs) ^ 2 - d zs ^ 2) with ((2 * Vt + d zs) * (2 * Vt + d zs) - (d zs * d zs - 4 * e zs)) by ring.
    rewrite <- !SS in *. assert (W : 2 * Vt = (2 * Vt + d zs) - d zs) by ring. set (w := 2 * Vt + d zs) in *.
    replace (2 * d zs * dd x - 4 * de x) with (2 * (dd x * d zs - 2 * de x)) by ring. replace (2 * d zs * dd y - 4 * de y) with (2 * (dd y * d zs - 2 * de y)) by ring.
    replace (2 * dd x * dd y + 2 * d zs * d2d x y - 4 * d2e x y) with (2 * (dd x * dd y + d2d x y * d zs - 2 * d2e x y)) by ring.
    set (gx := dd x * d zs - 2 * de x) in *. set (gy := dd y * d zs - 2 * de y) in *. set (gxy := dd x * dd y + d2d x y * d zs - 2 * d2e x y) in *.
    replace (r * r * (2 * Vt - dd x) + 2 * Vt * gx + gx * d zs) with (r * r * (2 * Vt - dd x) + w * gx) by (rewrite W; ring).
    replace (r * r * (2 * Vt - dd y) + 2 * Vt * gy + gy * d zs) with (r * r * (2 * Vt - dd y) + w * gy) by (rewrite W; ring).
    replace (2 * Vt * gxy - 2 * Vt * gx - 2 * Vt * gy + dd x * gy + gx * dd y + gxy * d zs) with (w * gxy - (2 * Vt - dd y) * gx - (2 * Vt - dd x) * gy) by (unfold w; ring).
    replace (2 * - Vt + dd x) with (- (2 * Vt - dd x)) by ring. replace (2 * - Vt + dd y) with (- (2 * Vt - dd y)) by ring. replace (2 * (2 * Vt) + d2d x y) with (4 * Vt + d2d x y) by ring.
    set (wx := 2 * Vt - dd x) in *. set (wy := 2 * Vt - dd y) in *. set (wxy := 4 * Vt + d2d x y) in *.
    clearbody r w gx gy gxy wx wy wxy. clear - SD Uz PP ZA PV RT. set (dbx := db x). set (dby := db y). set (bxy := d2b x y). set (bz := b zs) in *. set (az := a zs). set (ax := da x). set (ay := da y). set (axy := d2a x y). set (rt := Rgas * T) in *.
    set (px := dP x). set (py := dP y). set (pxy := d2P x y).
    clearbody dbx dby bxy bz az ax ay axy rt px py pxy. unfold h1, h2, h1.
    replace (r ^ 25) with (r ^ 20 * r ^ 5) by ring. replace (r ^ 23) with (r ^ 20 * r ^ 3) by ring. replace (r ^ 21) with (r ^ 20 * r) by ring.
    replace ((r * r) ^ 12) with (r ^ 20 * r ^ 4) by ring. replace ((r * r) ^ 11) with (r ^ 20 * r ^ 2) by ring. replace ((r * r) ^ 10) with (r ^ 20) by ring.
    assert (Z20 : r ^ 20 <> 0) by (apply pow_nonzero; lra). set (q := r ^ 20) in *. clearbody q.
    assert (Uy : w * w - r * r <> 0) by lra. clear Uz. replace (r * r - w * w) with (- (w * w - r * r)) by ring.
    assert (UU : r * r = w * w - (w * w - r * r)) by ring. set (u := w * w - r * r) in *. set (m := Vt - bz) in *. clearbody m u.
    field_simplify_eq; [|repeat split; lra]. replace u with (w * w - r * r) by lra. ring. }
  assert (SF : forall i j, (i < N)%nat -> (j < N)%nat -> F i j = F j i).
  { intros i j Hi Hj. destruct (SY i j Hi Hj) as (S1 & S2 & S3 & S4). destruct (EP2 i j Hi Hj) as [_ S5]. unfold F, a2, h2, h1. cbv zeta. rewrite S1, S2, S3, S4, S5. 
    assert (Uz := U). rewrite fw_at, fD_at, EV in Uz. clear - ZA Uz ZD PPf. set (Pq := Pf zs) in *. clearbody Pq. set (w := 2 * Vt + d zs) in *. set (D := d zs * d zs - 4 * e zs) in *.
    set (h := 2 * re_catanh (w / sqrt D) / sqrt D). set (m := Vt - b zs) in *. set (D1 := 2 * d zs * dd i - 4 * de i). set (D2 := 2 * d zs * dd j - 4 * de j). set (w1 := 2 * - Vt + dd i). set (w2 := 2 * - Vt + dd j).
    clearbody h m w D D1 D2 w1 w2. field. repeat split; lra. }
  assert (CF : forall i j, (i < N)%nat -> (j < N)%nat -> GCEOSMIX_d2A_dep_dninjs_Vt phase Vt T N (b zs) (a zs) (e zs) de dd db da d2d d2e d2b d2a dP d2P Pz (d zs) i j = F i j).
  { intros i j Hi Hj. rewrite C by auto. destruct (Nat.le_ge_cases i j). { rewrite Nat.max_r, Nat.min_l by auto. now apply SF. } now rewrite Nat.max_l, Nat.min_r by auto. }
  intros i j Hi Hj answer. unfold answer. split; [|now rewrite !CF, SF by auto]. rewrite CF by auto.
  apply is_derive_eq with (1 := AT_2 i j Hi Hj). unfold F, a2. destruct (EP2 i j Hi Hj) as [K1 K2]. rewrite K1, !EP by auto. reflexivity.
Qed.
End HelmholtzVt.

(* dA_dep_dns_Vt, d2A_dep_dninjs_Vt: derivatives of the Helmholtz departure when the total volume is fixed and the pressure follows.
   Both are given the pressure and its derivatives as the code computes them. *)
Theorem C69_dA_dep_Vt : forall N T Vt b d e a zs db dd de da d2b d2d d2e d2a phase,
  rsum N zs = 1 -> 0 < T -> 0 < Vt ->
  derivs2 N b zs db d2b -> derivs2 N d zs dd d2d -> derivs2 N e zs de d2e -> derivs2 N a zs da d2a ->
  0 < Vt - b zs -> 0 < d zs * d zs - 4 * e zs -> Vt * Vt + d zs * Vt + e zs <> 0 -> 0 < Ptotal N T Vt b d e a zs ->
  forall i, (i < N)%nat ->
  let dP := GCEOSMIX_dP_dns_Vt phase Vt T (b zs) N (a zs) (e zs) (d zs) de dd db da in
  has_Dn (Adep_total N T Vt b d e a) i zs (GCEOSMIX_dA_dep_dns_Vt phase Vt T N (b zs) (a zs) (e zs) de dd db da dP (Ptotal N T Vt b d e a zs) (d zs) i).
Proof. intros. now apply dA_Vt with d2b d2d d2e d2a. Qed.
Theorem C69_d2A_dep_Vt : forall N T Vt b d e a zs db dd de da d2b d2d d2e d2a phase,
  rsum N zs = 1 -> 0 < T -> 0 < Vt ->
  derivs2 N b zs db d2b -> derivs2 N d zs dd d2d -> derivs2 N e zs de d2e -> derivs2 N a zs da d2a ->
  (forall i j, (i < N)%nat -> (j < N)%nat -> d2b i j = d2b j i /\ d2d i j = d2d j i /\ d2e i j = d2e j i /\ d2a i j = d2a j i) ->
  0 < Vt - b zs -> 0 < d zs * d zs - 4 * e zs -> Vt * Vt + d zs * Vt + e zs <> 0 -> 0 < Ptotal N T Vt b d e a zs ->
  forall i j, (i < N)%nat -> (j < N)%nat ->
  let dP := GCEOSMIX_dP_dns_Vt phase Vt T (b zs) N (a zs) (e zs) (d zs) de dd db da in
  let d2P := GCEOSMIX_d2P_dninjs_Vt phase Vt T N (b zs) (a zs) (e zs) de dd db da d2d d2e d2b d2a (d zs) in
  let answer := GCEOSMIX_d2A_dep_dninjs_Vt phase Vt T N (b zs) (a zs) (e zs) de dd db da d2d d2e d2b d2a dP d2P (Ptotal N T Vt b d e a zs) (d zs) in
  has_Dn (Dn (Adep_total N T Vt b d e a) i) j zs (answer i j) /\ answer i j = answer j i.
Proof. intros. now apply d2A_Vt. Qed.

(* _d2V_dij_wrapper: along a volume that keeps the pressure at its value, the second derivatives of the volume *)
Theorem C69_d2V : forall N T P V b d e a zs dV db d2b dd d2d de d2e da d2a eps,
  0 < rsum N zs -> 0 < eps -> diff2 N V -> (forall i, (i < N)%nat -> Dn V i zs = dV i) ->
  derivs2 N b zs db d2b -> derivs2 N d zs dd d2d -> derivs2 N e zs de d2e -> derivs2 N a zs da d2a ->
  (forall n, (forall k, Rabs (n k - zs k) < eps) -> cubicP T (V n) (b n) (d n) (e n) (a n) = P) ->
  let A := V zs - b zs in let B := V zs * V zs + d zs * V zs + e zs in
  A <> 0 -> B <> 0 -> a zs * (2 * V zs + d zs) / B ^ 2 - Rgas * T / A ^ 2 <> 0 ->
  forall i j, (i < N)%nat -> (j < N)%nat ->
  has_Dn (Dn V i) j zs (GCEOSMIX_d2V_dij_wrapper (V zs) dV db d2b de d2e dd d2d da d2a T (b zs) (e zs) (d zs) (a zs) N i j).
Proof.
  intros N T P V b d e a zs dV db d2b dd d2d de d2e da d2a eps PN Pe HV EV (Hb & Eb & Eb2) (Hd & Ed & Ed2) (He & Ee & Ee2) (Ha & Ea & Ea2) CP A B ZA ZB ZP i j Hi Hj.
  assert (NZ : near_eq i j zs (fP T V b d e a) (fun _ => P)).
  { assert (E2 : 0 < eps / 2) by lra. exists (mkposreal _ E2). refine (fun (t : R) Bt => _). exists (mkposreal _ E2). refine (fun (s : R) Bs => _). rewrite fP_cubic. apply CP.
    unfold ball in Bt, Bs; simpl in Bt, Bs. unfold AbsRing_ball, abs, minus, plus, opp in Bt, Bs; simpl in Bt, Bs.
    rewrite Ropp_0, Rplus_0_r in Bt, Bs. intros k. unfold more. destruct (Nat.eqb k i), (Nat.eqb k j).
    - replace (zs k + t + s - zs k) with (t + s) by ring. eapply Rle_lt_trans; [apply Rabs_triang|]. lra.
    - replace (zs k + s - zs k) with s by ring. lra.
    - replace (zs k + t - zs k) with t by ring. lra.
    - replace (zs k - zs k) with 0 by ring. rewrite Rabs_R0. lra. }
  destruct (const_2 P i j zs) as [SC VC]. pose proof (has_Dn_eq _ _ _ _ (near_2 _ _ i j zs NZ SC)) as K. rewrite VC in K.
  assert (ZA2 : fA V b zs <> 0) by (rewrite fA_at; exact ZA). assert (ZB2 : fB V d e zs <> 0) by (rewrite fB_at; exact ZB).
  pose proof (has_Dn_eq _ _ _ _ (fP_2 N T V b d e a HV Hb Hd He Ha zs i j PN Hi Hj ZA2 ZB2)) as K2. rewrite K in K2. clear K NZ.
  rewrite !(fA_1 N), (fA_2 N), !(fB_1 N), (fB_2 N), fA_at, fB_at, !Ea, !Ea2, !Eb, !Eb2, !Ed, !Ed2, !Ee, !Ee2, !EV in K2 by auto.
  apply is_derive_eq with (Dn (Dn V i) j zs). { destruct HV as [HV1 HV2]. apply Derive_correct. now apply (HV2 i Hi zs j). }
  set (vij := Dn (Dn V i) j zs) in *. clearbody vij. unfold p2, q2 in K2. fold A B in K2.
  unfold GCEOSMIX_d2V_dij_wrapper. cbv zeta.
  match goal with |- context [loop N (fun i o => loop N (fun j o => updm o i j (@?v i j)) o) ?w i j] => rewrite (loop_updm_lt N v w i j) by auto end. cbv beta.
  replace (e zs + V zs * V zs + V zs * d zs) with B by (unfold B; ring). fold A.
  assert (ZQ : a zs * A * A * (V zs + V zs) + a zs * A * A * d zs - B * B * (Rgas * T) <> 0).
  { intro HH. apply ZP. replace (a zs * (2 * V zs + d zs) / B ^ 2 - Rgas * T / A ^ 2) with ((a zs * A * A * (V zs + V zs) + a zs * A * A * d zs - B * B * (Rgas * T)) / (A ^ 2 * B ^ 2)) by (field; auto).
    rewrite HH. unfold Rdiv. ring. }
  assert (DQ : forall x y z : R, z <> 0 -> x * z = y -> x = y / z) by (intros x y z Z0 <-; field; auto).
  apply DQ; [repeat apply Rmult_integral_contrapositive_currified; auto|].
  clearbody A B. apply Rminus_diag_uniq. match type of K2 with 0 = ?X => transitivity (X * (A ^ 3 * B ^ 3)) end; [field; auto|rewrite <- K2; ring].
Qed.

(* ---- the ideal mixing part ---- *)
Lemma loc_all m (S : nat -> R -> Prop) : (forall k, (k < m)%nat -> locally 0 (S k)) -> locally 0 (fun t => forall k, (k < m)%nat -> S k t).
Proof.
  induction m; intros H. { apply filter_forall. intros; lia. }
  refine (filter_and _ _ _ _ (IHm _) (H m _)); auto. intros s H1 H2 k Hk. destruct (Nat.eq_dec k m); [subst; auto|apply H1; lia].
Qed.
Section Mix.
Variable N : nat.
Notation iv := (fun n : nat -> R => 1 / rsum N n ^ 1).
Definition fW (n : nat -> R) : R := rsum N (fun k => n k * ln (n k)).
Definition fM : (nat -> R) -> R := fadd (fmul fW iv) (Lg iv).
Lemma coord_more n k i s : more n i s k = if Nat.eqb k i then n k + s else n k. Proof. reflexivity. Qed.
Lemma coord_d1 k i n : has_Dn (fun n => n k) i n (if Nat.eqb k i then 1 else 0).
Proof. unfold has_Dn, more. destruct (Nat.eqb k i). auto_derive; auto. apply (is_derive_const (K := R_AbsRing) (V := R_NormedModule) (n k)). Qed.
Lemma coord_diff1 k : diff1 N (fun n => n k).
Proof. intros n i _ _. eexists. apply coord_d1. Qed.
Lemma fW_1 i n : (i < N)%nat -> 0 < n i -> has_Dn fW i n (ln (n i) + 1).
Proof.
  intros Hi P. unfold has_Dn, fW. apply is_derive_eq with (rsum N (fun k => if Nat.eqb k i then ln (n i) + 1 else 0)).
  - apply (is_derive_rsum N (fun k s => more n i s k * ln (more n i s k))). intros k Hk. unfold more. destruct (Nat.eqb_spec k i) as [->|].
    + pose (x := n i). change (is_derive (fun t => (x + t) * ln (x + t)) 0 (ln x + 1)). assert (0 < x) by exact P. clearbody x. auto_derive. lra. rewrite Rplus_0_r. field. lra.
    + apply (is_derive_const (K := R_AbsRing) (V := R_NormedModule) (n k * ln (n k))).
  - rewrite (rsum_single N i); auto. { now rewrite Nat.eqb_refl. } intros j _ J. destruct (Nat.eqb_spec j i); tauto.
Qed.
Lemma fW_2 i j n : (i < N)%nat -> (j < N)%nat -> 0 < rsum N n -> 0 < n i -> 0 < n j -> sm2 fW i j n /\ Dn (Dn fW i) j n = (if Nat.eqb i j then / n i else 0).
Proof.
  intros Hi Hj PN Pi Pj. pose proof (near_pos (fun n => n i) n j (coord_diff1 i n j PN Hj) Pi) as L.
  assert (H : has_Dn (Dn fW i) j n (if Nat.eqb i j then / n i else 0)).
  { apply has_Dn_ext_loc with (fun n => ln (n i) + 1). { apply filter_imp with (2 := L). intros s Ps. now apply has_Dn_eq, fW_1. }
    unfold has_Dn, more. destruct (Nat.eqb_spec i j) as [<-|]; [|apply (is_derive_const (K := R_AbsRing) (V := R_NormedModule) (ln (n i) + 1))].
    pose (x := n i). change (is_derive (fun t => ln (x + t) + 1) 0 (/ x)). assert (0 < x) by exact Pi. clearbody x. auto_derive. lra. rewrite Rplus_0_r. field. lra. }
  split; [|now apply has_Dn_eq]. split; [|split; [|split]].
  - eexists. now apply fW_1.
  - eexists. now apply fW_1.
  - apply filter_imp with (2 := L). intros s Ps. eexists. now apply fW_1.
  - eexists. exact H.
Qed.
Lemma fM_at n : (forall k, (k < N)%nat -> 0 < n k) -> 0 < rsum N n -> rsum N (fun k => n k / rsum N n * ln (n k / rsum N n)) = fM n.
Proof.
  intros Pk PN. unfold fM, fadd, fmul, Lg, fW. rewrite pow_1.
  rewrite (rsum_ext N _ (fun k => n k * ln (n k) * (1 / rsum N n) + n k * (1 / rsum N n * ln (1 / rsum N n)))).
  - rewrite rsum_plus, !rsum_scal_r. replace (rsum N n * (1 / rsum N n * ln (1 / rsum N n))) with (ln (1 / rsum N n)) by (field; lra). reflexivity.
  - intros k Hk. specialize (Pk k Hk). replace (n k / rsum N n) with (n k * (1 / rsum N n)) by (field; lra). rewrite ln_mult; auto. ring. apply Rdiv_lt_0_compat; lra.
Qed.
Variable zs : nat -> R.
Hypotheses (E1 : rsum N zs = 1) (Pz : forall k, (k < N)%nat -> 0 < zs k).
Let PN : 0 < rsum N zs. Proof. lra. Qed.
Let ivz : iv zs = 1. Proof. cbv beta. rewrite E1. field. Qed.
Let DI : diff2 N iv. Proof. apply diff2_vol. Qed.
Let iv1 i : (i < N)%nat -> Dn iv i zs = - 1. Proof. intros. rewrite (Dn_vol N) by auto. rewrite E1. simpl. field. Qed.
Let iv2 i j : (i < N)%nat -> (j < N)%nat -> Dn (Dn iv i) j zs = 2. Proof. intros. rewrite (Dn_vol2 N) by auto. rewrite E1. simpl. field. Qed.
Lemma fM_1 i : (i < N)%nat -> has_Dn fM i zs (ln (zs i) - fW zs).
Proof.
  intros Hi. destruct (has_sm1 _ _ _ _ (fW_1 i zs Hi (Pz i Hi))) as [S1 V1].
  pose proof (diff_sm1 N _ i zs (diff21 N _ DI) PN Hi) as S2. assert (PI : 0 < iv zs) by (rewrite ivz; lra).
  destruct (has_sm1 _ _ _ _ (ln_1 iv i zs S2 PI)) as [S3 V3]. destruct (has_sm1 _ _ _ _ (mul_1 fW iv i zs S1 S2)) as [S4 V4].
  apply is_derive_eq with (1 := add_1 _ _ i zs S4 S3). rewrite V4, V3, V1, iv1 by auto. cbv beta. rewrite E1. field.
Qed.
Lemma fM_2 i j : (i < N)%nat -> (j < N)%nat -> sm2 fM i j zs /\ Dn (Dn fM i) j zs = (if Nat.eqb i j then / zs i else 0) + 2 * fW zs - ln (zs i) - ln (zs j) - 1.
Proof.
  intros Hi Hj. destruct (fW_2 i j zs Hi Hj PN (Pz i Hi) (Pz j Hj)) as [S1 V1].
  pose proof (has_Dn_eq _ _ _ _ (fW_1 i zs Hi (Pz i Hi))) as Wi. pose proof (has_Dn_eq _ _ _ _ (fW_1 j zs Hj (Pz j Hj))) as Wj.
  pose proof (diff_sm2 N _ i j zs DI PN Hi Hj) as S2. assert (PI : 0 < iv zs) by (rewrite ivz; lra).
  destruct (ln_2 iv i j zs S2 PI) as [S3 V3]. destruct (mul_2 fW iv i j zs S1 S2) as [S4 V4]. destruct (add_2 _ _ i j zs S4 S3) as [S5 V5]. split. exact S5.
  unfold fM. rewrite V5, V4, V3, V1, Wi, Wj, !iv1, !iv2 by auto. cbv beta. rewrite E1. destruct (Nat.eqb i j); field. specialize (Pz i Hi). lra.
Qed.
End Mix.
Section MixVt.
Variables (N : nat) (T : R) (Pf : (nat -> R) -> R) (zs : nat -> R).
Hypotheses (E1 : rsum N zs = 1) (Pz : forall k, (k < N)%nat -> 0 < zs k) (PP : 0 < Pf zs).
Let PN : 0 < rsum N zs. Proof. lra. Qed.
Definition fAM : (nat -> R) -> R := fadd (fmul (fun _ => Rgas * T) (fM N)) (fmul (fun _ => Rgas * T) (Lg Pf)).
Lemma Amixing_at n : (forall k, (k < N)%nat -> 0 < n k) -> 0 < rsum N n -> Amixing N T (Pf n) n = fAM n.
Proof. intros H H1. unfold Amixing, fAM, fadd, fmul, Lg. now rewrite fM_at. Qed.
Lemma Amix_1 i : (i < N)%nat -> sm1 Pf i zs -> has_Dn (fun n => Amixing N T (Pf n) n) i zs (Rgas * T * (ln (zs i) - fW N zs) + Rgas * T * (Dn Pf i zs / Pf zs)).
Proof.
  intros Hi S1. apply near_1 with fAM.
  { refine (filter_and _ _ _ _ (loc_all N (fun k s => 0 < more zs i s k) _) (near_total N zs i PN Hi)). { intros s. apply Amixing_at. }
    intros k Hk. apply (near_pos (fun n => n k)); auto. exact (coord_diff1 N k zs i PN Hi). }
  destruct (has_sm1 _ _ _ _ (fM_1 N zs E1 Pz i Hi)) as [A1 V1]. destruct (has_sm1 _ _ _ _ (ln_1 Pf i zs S1 PP)) as [A2 V2].
  pose proof (diff_sm1 N _ i zs (diff1_const N (Rgas * T)) PN Hi) as SC.
  destruct (has_sm1 _ _ _ _ (mul_1 _ _ i zs SC A1)) as [A3 V3]. destruct (has_sm1 _ _ _ _ (mul_1 _ _ i zs SC A2)) as [A4 V4].
  apply is_derive_eq with (1 := add_1 _ _ i zs A3 A4). rewrite V3, V4, V1, V2, Dn_const. ring.
Qed.
Lemma Amix_2 i j : (i < N)%nat -> (j < N)%nat -> sm2 Pf i j zs -> has_Dn (Dn (fun n => Amixing N T (Pf n) n) i) j zs
  (Rgas * T * ((if Nat.eqb i j then / zs i else 0) + 2 * fW N zs - ln (zs i) - ln (zs j) - 1) + Rgas * T * (Dn (Dn Pf i) j zs / Pf zs - Dn Pf i zs * Dn Pf j zs / (Pf zs * Pf zs))).
Proof.
  intros Hi Hj S1. destruct (fM_2 N zs E1 Pz i j Hi Hj) as [A1 V1]. destruct (ln_2 Pf i j zs S1 PP) as [A2 V2]. destruct (const_2 (Rgas * T) i j zs) as [SC VC].
  destruct (mul_2 _ _ i j zs SC A1) as [A3 V3]. destruct (mul_2 _ _ i j zs SC A2) as [A4 V4]. destruct (add_2 _ _ i j zs A3 A4) as [A5 V5].
  eapply is_derive_eq. { apply near_2 with (2 := A5).
    refine (filter_and _ _ _ _ (loc_all N (fun k t => locally 0 (fun s => 0 < more (more zs j t) i s k)) _) (near_total N zs j PN Hj)).
    { intros t L P1. refine (filter_and _ _ _ _ (loc_all N (fun k s => 0 < more (more zs j t) i s k) L) (near_total N _ i P1 Hi)). intros s. apply Amixing_at. }
    intros k Hk. apply (near_pos2 N (fun n => n k)); auto using coord_diff1. }
  unfold fAM. rewrite V5, V3, V4, V1, V2, VC, !Dn_const. ring.
Qed.
End MixVt.
(* dScomp_dns, d2Scomp_dninjs: derivatives of the Helmholtz energy of mixing, the pressure being that of the fixed total volume *)
Theorem C69_dScomp : forall N T Vt b d e a zs db dd de da phase,
  rsum N zs = 1 -> (forall k, (k < N)%nat -> 0 < zs k) ->
  derivs1 N b zs db -> derivs1 N d zs dd -> derivs1 N e zs de -> derivs1 N a zs da ->
  Vt - b zs <> 0 -> Vt * Vt + d zs * Vt + e zs <> 0 -> 0 < Ptotal N T Vt b d e a zs ->
  forall i, (i < N)%nat ->
  let dP := GCEOSMIX_dP_dns_Vt phase Vt T (b zs) N (a zs) (e zs) (d zs) de dd db da in
  has_Dn (fun n => Amixing N T (Ptotal N T Vt b d e a n) n) i zs (GCEOSMIX_dScomp_dns phase dP T zs N (Ptotal N T Vt b d e a zs) i).
Proof.
  intros N T Vt b d e a zs db dd de da phase E Pz Hb Hd He Ha ZA ZB PP i Hi dP.
  pose proof (C69_dP_dns N T Vt b d e a zs db dd de da phase E Hb Hd He Ha ZA ZB i Hi) as H. fold dP in H. destruct (has_sm1 _ _ _ _ H) as [S1 V1].
  apply is_derive_eq with (1 := Amix_1 N T (Ptotal N T Vt b d e a) zs E Pz PP i Hi S1). rewrite V1. unfold GCEOSMIX_dScomp_dns. cbv zeta.
  match goal with |- context [loop N (fun i o => upd o i (@?v i)) ?w i] => rewrite (loop_upd_lt N v w i) by auto end. cbv beta.
  unfold fW. rewrite loop_rsum, Rplus_0_l. field. lra.
Qed.
Theorem C69_d2Scomp : forall N T Vt b d e a zs db dd de da d2b d2d d2e d2a phase,
  rsum N zs = 1 -> (forall k, (k < N)%nat -> 0 < zs k) ->
  derivs2 N b zs db d2b -> derivs2 N d zs dd d2d -> derivs2 N e zs de d2e -> derivs2 N a zs da d2a ->
  (forall i j, (i < N)%nat -> (j < N)%nat -> d2b i j = d2b j i /\ d2d i j = d2d j i /\ d2e i j = d2e j i /\ d2a i j = d2a j i) ->
  Vt - b zs <> 0 -> Vt * Vt + d zs * Vt + e zs <> 0 -> 0 < Ptotal N T Vt b d e a zs ->
  forall i j, (i < N)%nat -> (j < N)%nat ->
  let dP := GCEOSMIX_dP_dns_Vt phase Vt T (b zs) N (a zs) (e zs) (d zs) de dd db da in
  let d2P := GCEOSMIX_d2P_dninjs_Vt phase Vt T N (b zs) (a zs) (e zs) de dd db da d2d d2e d2b d2a (d zs) in
  has_Dn (Dn (fun n => Amixing N T (Ptotal N T Vt b d e a n) n) i) j zs (GCEOSMIX_d2Scomp_dninjs phase dP d2P (Ptotal N T Vt b d e a zs) T zs N i j).
Proof.
  intros N T Vt b d e a zs db dd de da d2b d2d d2e d2a phase E Pz Hb Hd He Ha SY ZA ZB PP i j Hi Hj dP d2P.
  assert (D1 : forall k, (k < N)%nat -> Dn (Ptotal N T Vt b d e a) k zs = dP k).
  { intros k Hk. apply has_Dn_eq. destruct Hb as (b1 & b2 & _), Hd as (x1 & x2 & _), He as (e1 & e2 & _), Ha as (a1 & a2 & _). apply C69_dP_dns; auto; split; auto using diff21. }
  destruct (C69_d2P_dns N T Vt b d e a zs db dd de da d2b d2d d2e d2a phase E Hb Hd He Ha SY ZA ZB i j Hi Hj) as [H _]. fold d2P in H. apply has_Dn_eq in H.
  assert (S2 : sm2 (Ptotal N T Vt b d e a) i j zs).
  { rewrite Ptotal_fP. destruct Hb, Hd, He, Ha. pose proof (fV_at1 N Vt zs E) as EV. apply (fP_sm2 N); auto. apply diff2_vol. lra. now rewrite fA_at, EV. now rewrite fB_at, EV. }
  apply is_derive_eq with (1 := Amix_2 N T (Ptotal N T Vt b d e a) zs E Pz PP i j Hi Hj S2). rewrite H, !D1 by auto. unfold GCEOSMIX_d2Scomp_dninjs. cbv zeta.
  match goal with |- context [loop N (fun i o => loop N (fun j o => updm o i j (@?v i j)) o) ?w i j] => rewrite (loop_updm_lt N v w i j) by auto end. cbv beta.
  assert (Q0 : rsum N (fun i => 2 * zs i * ln (zs i) + 3 * zs i) = 2 * fW N zs + 3).
  { unfold fW. rewrite rsum_plus, (rsum_scal_l N 3), E, <- rsum_scal_l. f_equal; [|ring]. apply rsum_ext. intros; ring. }
  rewrite Q0. pose proof (Pz i Hi). destruct (Nat.eqb_spec i j) as [->|]; simpl; field; lra.
Qed.
