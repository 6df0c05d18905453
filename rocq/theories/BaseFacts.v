(* Lemmas about the shared vocabulary: comparisons, loops, sums, derivatives. *)
From Coq Require Import Reals Lra Lia Arith Bool FunctionalExtensionality.
From Coquelicot Require Import Coquelicot.
From Verif Require Import Base.
Open Scope R_scope.

Lemma Rgas_pos : 0 < Rgas.
Proof. unfold Rgas. lra. Qed.
Lemma Rgas_val : Rgas = 831446261815324 / 100000000000000.
Proof. reflexivity. Qed.
Lemma Rgas_neq : Rgas <> 0.
Proof. pose proof Rgas_pos. lra. Qed.
Global Opaque Rgas.

Lemma Rleb_true x y : x <= y -> Rleb x y = true.
Proof. unfold Rleb. destruct (Rle_dec x y); intros; auto; contradiction. Qed.
Lemma Rleb_false x y : y < x -> Rleb x y = false.
Proof. unfold Rleb. destruct (Rle_dec x y); intros; auto; lra. Qed.
Lemma Rltb_true x y : x < y -> Rltb x y = true.
Proof. unfold Rltb. destruct (Rlt_dec x y); intros; auto; contradiction. Qed.
Lemma Rltb_false x y : y <= x -> Rltb x y = false.
Proof. unfold Rltb. destruct (Rlt_dec x y); intros; auto; lra. Qed.
Lemma Reqb_true x y : x = y -> Reqb x y = true.
Proof. unfold Reqb. destruct (Req_EM_T x y); intros; auto; contradiction. Qed.
Lemma Reqb_false x y : x <> y -> Reqb x y = false.
Proof. unfold Reqb. destruct (Req_EM_T x y); intros; auto; contradiction. Qed.
Lemma Rleb_spec x y : reflect (x <= y) (Rleb x y).
Proof. unfold Rleb. destruct (Rle_dec x y); constructor; auto. Qed.
Lemma Rltb_spec x y : reflect (x < y) (Rltb x y).
Proof. unfold Rltb. destruct (Rlt_dec x y); constructor; auto. Qed.
Lemma Reqb_spec x y : reflect (x = y) (Reqb x y).
Proof. unfold Reqb. destruct (Req_EM_T x y); constructor; auto. Qed.

(* ---- sums ---- *)
Lemma rsum_ext n f g : (forall i, (i < n)%nat -> f i = g i) -> rsum n f = rsum n g.
Proof. induction n; intros; simpl; auto. rewrite IHn, H; auto. Qed.
Lemma rsum_plus n f g : rsum n (fun i => f i + g i) = rsum n f + rsum n g.
Proof. induction n; simpl; [ring|]. rewrite IHn. ring. Qed.
Lemma rsum_minus n f g : rsum n (fun i => f i - g i) = rsum n f - rsum n g.
Proof. induction n; simpl; [ring|]. rewrite IHn. ring. Qed.
Lemma rsum_opp n f : rsum n (fun i => - f i) = - rsum n f.
Proof. induction n; simpl; [ring|]. rewrite IHn. ring. Qed.
Lemma rsum_scal_l n c f : rsum n (fun i => c * f i) = c * rsum n f.
Proof. induction n; simpl; [ring|]. rewrite IHn. ring. Qed.
Lemma rsum_scal_r n c f : rsum n (fun i => f i * c) = rsum n f * c.
Proof. induction n; simpl; [ring|]. rewrite IHn. ring. Qed.
Lemma rsum_div_r n c f : rsum n (fun i => f i / c) = rsum n f / c.
Proof. unfold Rdiv. apply rsum_scal_r. Qed.
Lemma rsum_0 n : rsum n (fun _ => 0) = 0.
Proof. induction n; simpl; auto. rewrite IHn. ring. Qed.
Lemma rsum_eq_0 n f : (forall i, (i < n)%nat -> f i = 0) -> rsum n f = 0.
Proof. intros. rewrite (rsum_ext n f (fun _ => 0)); auto using rsum_0. Qed.
Lemma rsum_const n c : rsum n (fun _ => c) = INR n * c.
Proof. induction n; [simpl; ring|]. rewrite S_INR. simpl rsum. rewrite IHn. ring. Qed.
Lemma rsum_swap n m f : rsum n (fun i => rsum m (fun j => f i j)) = rsum m (fun j => rsum n (fun i => f i j)).
Proof.
  induction n; simpl.
  - rewrite rsum_0. reflexivity.
  - rewrite IHn. rewrite <- rsum_plus. reflexivity.
Qed.
Lemma rsum_pos n f : (0 < n)%nat -> (forall i, (i < n)%nat -> 0 < f i) -> 0 < rsum n f.
Proof.
  induction n; intros; [lia|]. simpl. destruct n.
  - simpl. specialize (H0 0%nat). assert (0 < f 0%nat) by (apply H0; lia). lra.
  - assert (0 < rsum (S n) f) by (apply IHn; auto; lia). assert (0 < f (S n)) by (apply H0; lia). lra.
Qed.
Lemma rsum_nonneg n f : (forall i, (i < n)%nat -> 0 <= f i) -> 0 <= rsum n f.
Proof.
  induction n; intros; simpl; [lra|]. assert (0 <= rsum n f) by (apply IHn; auto). assert (0 <= f n) by (apply H; lia). lra.
Qed.
Lemma rsum_le n f g : (forall i, (i < n)%nat -> f i <= g i) -> rsum n f <= rsum n g.
Proof.
  induction n; intros; simpl; [lra|]. assert (rsum n f <= rsum n g) by (apply IHn; auto). assert (f n <= g n) by (apply H; lia). lra.
Qed.
(* a sum with a single non-zero term *)
Lemma rsum_single n i f : (i < n)%nat -> (forall j, (j < n)%nat -> j <> i -> f j = 0) -> rsum n f = f i.
Proof.
  induction n; intros; [lia|]. simpl. destruct (Nat.eq_dec i n).
  - subst. rewrite rsum_eq_0; [ring|]. intros. apply H0; lia.
  - rewrite IHn; [|lia|intros; apply H0; lia]. rewrite (H0 n); [ring|lia|lia].
Qed.
Lemma rsum_split n i f : (i < n)%nat -> rsum n f = f i + rsum n (fun j => if Nat.eqb j i then 0 else f j).
Proof.
  induction n; intros; [lia|]. simpl. destruct (Nat.eq_dec i n).
  - subst. rewrite Nat.eqb_refl. rewrite (rsum_ext n f (fun j => if Nat.eqb j n then 0 else f j)); [ring|].
    intros. replace (Nat.eqb i n) with false; auto. symmetry. apply Nat.eqb_neq. lia.
  - rewrite IHn by lia. replace (Nat.eqb n i) with false; [ring|]. symmetry. apply Nat.eqb_neq. lia.
Qed.

(* ---- loops ---- *)
Lemma loop_ext {S} n (f g : nat -> S -> S) s : (forall i s, (i < n)%nat -> f i s = g i s) -> loop n f s = loop n g s.
Proof. induction n; intros; simpl; auto. rewrite IHn by auto. apply H. lia. Qed.
Lemma loop_inv {S} (P : nat -> S -> Prop) n f s :
  P O s -> (forall i s, (i < n)%nat -> P i s -> P (Datatypes.S i) (f i s)) -> P n (loop n f s).
Proof. induction n; intros; simpl; auto. apply H0; auto. Qed.
Lemma loop_rsum n f s : loop n (fun i s => s + f i) s = s + rsum n f.
Proof. induction n; simpl; [ring|]. rewrite IHn. ring. Qed.
Lemma loop_rsub n f s : loop n (fun i s => s - f i) s = s - rsum n f.
Proof. induction n; simpl; [ring|]. rewrite IHn. ring. Qed.
Lemma loop_pair {A B} n (f : nat -> A -> A) (g : nat -> B -> B) a b :
  loop n (fun i st => let '(a, b) := st in (f i a, g i b)) (a, b) = (loop n f a, loop n g b).
Proof. induction n; simpl; auto. rewrite IHn. reflexivity. Qed.
Lemma loop_triple {A B C} n (f : nat -> A -> A) (g : nat -> B -> B) (h : nat -> C -> C) a b c :
  loop n (fun i st => let '(a, b, c) := st in (f i a, g i b, h i c)) (a, b, c) = (loop n f a, loop n g b, loop n h c).
Proof. induction n; simpl; auto. rewrite IHn. reflexivity. Qed.
Lemma loop_upd {A} n (f : nat -> A) a : forall k, loop n (fun i a => upd a i (f i)) a k = if Nat.ltb k n then f k else a k.
Proof.
  induction n; intros; simpl; auto. unfold upd. destruct (Nat.eqb_spec k n).
  - subst. replace (Nat.ltb n (S n)) with true; auto. symmetry. apply Nat.ltb_lt. lia.
  - rewrite IHn. destruct (Nat.ltb_spec k n).
    + replace (Nat.ltb k (S n)) with true; auto. symmetry. apply Nat.ltb_lt. lia.
    + replace (Nat.ltb k (S n)) with false; auto. symmetry. apply Nat.ltb_ge. lia.
Qed.
Lemma loop_upd_lt {A} n (f : nat -> A) a k : (k < n)%nat -> loop n (fun i a => upd a i (f i)) a k = f k.
Proof. intros. rewrite loop_upd. apply Nat.ltb_lt in H. rewrite H. reflexivity. Qed.

(* ---- derivatives ---- *)
Lemma is_derive_rsum n (f : nat -> R -> R) (df : nat -> R) x :
  (forall i, (i < n)%nat -> is_derive (f i) x (df i)) -> is_derive (fun t => rsum n (fun i => f i t)) x (rsum n df).
Proof.
  induction n; intros; simpl.
  - apply (is_derive_const (K := R_AbsRing) (V := R_NormedModule) 0).
  - apply (is_derive_plus (K := R_AbsRing) (V := R_NormedModule)); auto.
Qed.
Lemma is_derive_eq (f : R -> R) (x l l' : R) : is_derive f x l -> @eq R l l' -> is_derive f x l'.
Proof. intros; subst; auto. Qed.
Lemma is_derive_fext (f g : R -> R) x l : (forall t, f t = g t) -> is_derive f x l -> is_derive g x l.
Proof. intros. apply is_derive_ext with f; auto. Qed.

Lemma ln_Rabs x : ln (Rabs x) = / 2 * ln (x * x).
Proof.
  destruct (Req_dec x 0) as [->|H].
  - rewrite Rabs_R0, Rmult_0_l. assert (L : ln 0 = 0) by (unfold ln; destruct (Rlt_dec 0 0); [exfalso; lra|reflexivity]). rewrite L. ring.
  - replace (x * x) with (Rabs x * Rabs x) by (rewrite <- Rabs_mult, Rabs_pos_eq; [ring|]; apply Rle_0_sqr).
    rewrite ln_mult by (apply Rabs_pos_lt; auto). field.
Qed.
Lemma ln_Rabs_derive x : x <> 0 -> is_derive (fun x => ln (Rabs x)) x (/ x).
Proof.
  intros. apply is_derive_ext with (fun x => / 2 * ln (x * x)).
  - intros; symmetry; apply ln_Rabs.
  - assert (0 < x * x) by (pose proof (Rsqr_pos_lt x H) as Q; unfold Rsqr in Q; exact Q). auto_derive; auto. field. auto.
Qed.
Lemma re_catanh_derive u : u <> 1 -> u <> -1 -> is_derive re_catanh u (/ (1 - u * u)).
Proof.
  intros H1 H2. unfold re_catanh.
  assert (Hq : (1 + u) / (1 - u) <> 0).
  { apply Rmult_integral_contrapositive_currified; [lra|]. apply Rinv_neq_0_compat. lra. }
  assert (1 - u * u <> 0).
  { intro H. assert ((1 - u) * (1 + u) = 0) by lra. apply Rmult_integral in H0. lra. }
  apply is_derive_eq with (/ 2 * ((2 / ((1 - u) * (1 - u))) * (/ ((1 + u) / (1 - u))))).
  - apply (is_derive_scal (fun u => ln (Rabs ((1 + u) / (1 - u)))) u (/2)).
    apply (is_derive_comp (fun x => ln (Rabs x)) (fun u => (1 + u) / (1 - u))).
    + apply ln_Rabs_derive; auto.
    + auto_derive. lra. field. lra.
  - change (/ 2 * (2 / ((1 - u) * (1 - u)) * / ((1 + u) / (1 - u))) = / (1 - u * u)). field. repeat split; lra.
Qed.

(* x <> 0 side conditions that are a known disequality up to linear/ring rearrangement *)
Ltac nz0 :=
  let HH := fresh "HH" in intro HH;
  match goal with
  | H : _ <> _ |- _ => apply H; (lra || (rewrite <- HH; ring) || (ring_simplify in HH; ring_simplify; lra))
  | _ => lra
  end.
Ltac nz1 :=
  first [ assumption | apply Rgas_neq | nz0
        | match goal with
          | |- _ * _ <> 0 => apply Rmult_integral_contrapositive_currified; nz1
          | |- / _ <> 0 => apply Rinv_neq_0_compat; nz1
          | |- _ / _ <> 0 => apply Rmult_integral_contrapositive_currified; [|apply Rinv_neq_0_compat]; nz1
          | |- _ ^ _ <> 0 => apply pow_nonzero; nz1
          | |- - _ <> 0 => apply Ropp_neq_0_compat; nz1
          | |- exp _ <> 0 => apply Rgt_not_eq, exp_pos
          end ].
Ltac nz := repeat match goal with |- _ /\ _ => split end; try exact I; try nz1.
(* replace [Derive (fun y => f y) x] by the value given by a derivative hypothesis *)
Ltac dv H :=
  match type of H with is_derive ?f ?x ?l =>
    repeat match goal with |- context [Derive ?g ?y] =>
      let HH := fresh in assert (HH : Derive g y = l) by (apply is_derive_unique; exact H); rewrite HH; clear HH end end.
Ltac exd := match goal with |- ex_derive _ _ => eexists; eassumption end.
Ltac splits := repeat match goal with |- _ /\ _ => split end.

(* ---- gluing two branches at a point ---- *)
Lemma glue_derive (f f1 f2 : R -> R) (x l : R) :
  (forall t, t < x -> f t = f1 t) -> (forall t, x <= t -> f t = f2 t) -> f1 x = f2 x ->
  is_derive f1 x l -> is_derive f2 x l -> is_derive f x l.
Proof.
  intros H1 H2 H3 D1 D2. apply is_derive_Reals in D1. apply is_derive_Reals in D2. apply is_derive_Reals.
  intros eps He. destruct (D1 eps He) as [d1 E1]. destruct (D2 eps He) as [d2 E2].
  assert (Hm : 0 < Rmin d1 d2) by (apply Rmin_pos; [apply (cond_pos d1)|apply (cond_pos d2)]).
  exists (mkposreal _ Hm). simpl. intros h Hh Hd.
  assert (f x = f2 x) by (apply H2; lra).
  destruct (Rlt_or_le h 0).
  - rewrite (H1 (x + h)) by lra. rewrite H, <- H3. apply E1; auto. apply Rlt_le_trans with (1 := Hd). apply Rmin_l.
  - rewrite (H2 (x + h)) by lra. rewrite H. apply E2; auto. apply Rlt_le_trans with (1 := Hd). apply Rmin_r.
Qed.
Lemma glue_continuous (f f1 f2 : R -> R) (x : R) :
  (forall t, t < x -> f t = f1 t) -> (forall t, x <= t -> f t = f2 t) -> f1 x = f2 x ->
  continuous f1 x -> continuous f2 x -> continuous f x.
Proof.
  intros H1 H2 H3 C1 C2. apply continuity_pt_filterlim in C1. apply continuity_pt_filterlim in C2. apply continuity_pt_filterlim.
  intros eps He. destruct (C1 eps He) as [d1 [P1 E1]]. destruct (C2 eps He) as [d2 [P2 E2]].
  exists (Rmin d1 d2). split; [apply Rmin_pos; auto|]. intros t [[_ Ht] Hd]. simpl in *. unfold R_dist in *.
  assert (f x = f2 x) by (apply H2; lra). rewrite H.
  destruct (Rlt_or_le t x).
  - rewrite (H1 t) by lra. rewrite <- H3. apply E1. split; [split; [exact I|auto]|]. apply Rlt_le_trans with (1 := Hd). apply Rmin_l.
  - rewrite (H2 t) by lra. apply E2. split; [split; [exact I|auto]|]. apply Rlt_le_trans with (1 := Hd). apply Rmin_r.
Qed.
