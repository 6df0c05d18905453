(* C23: the Redlich-Kister expansion. *)
From Coq Require Import Reals Lra Lia List Arith Bool.
From Verif Require Import Base BaseFacts ActFacts Spec_gradient Model_rk.
Import ListNotations.
Open Scope R_scope.

(* ---- specification ---- *)
(* sum over a list *)
Fixpoint lsum {A} (f : A -> R) (l : list A) : R := match l with [] => 0 | a :: l => f a + lsum f l end.
(* the binary expansion  x_i x_j sum_k a_k (x_i - x_j)^k  with coefficients a_0 .. a_(n-1) *)
Definition rk_binary (n : nat) (a : nat -> R) (xi xj : R) : R := xi * xj * rsum n (fun k => a k * (xi - xj) ^ k).
(* the k-th coefficient of a coefficient list *)
Definition coef (l : list R) (k : nat) : R := nth k l 0.
(* a list of index pairs that names every unordered pair of different components at most once *)
Definition proper_pairs (N : nat) (l : list (nat * nat)) : Prop :=
  NoDup l /\ forall i j, In (i, j) l -> i <> j /\ (i < N)%nat /\ (j < N)%nat /\ ~ In (j, i) l.
(* the temperature polynomial  a + b/T + c ln T + d T + e/T^2 + f T^2  truncated to n terms *)
Definition T_poly (n : nat) (c : nat -> R) (T : R) : R :=
  rsum n (fun t => c t * match t with O => 1 | 1%nat => / T | 2%nat => ln T | 3%nat => T | 4%nat => / T ^ 2 | 5%nat => T ^ 2 | _ => 0 end).

(* ---- facts ---- *)
Lemma loop_poly n (c : nat -> R) d s f : loop n (fun k st => let '(u, v) := st in (u + c k * v, v * d)) (s, f) = (s + f * rsum n (fun k => c k * d ^ k), f * d ^ n).
Proof. induction n; cbn [loop rsum]; [f_equal; cbn; ring|]. rewrite IHn. f_equal; cbn; ring. Qed.
Lemma excess_eq N n a x : redlich_kister_excess_inner N n a x = / 2 * rsum N (fun i => rsum N (fun j => rk_binary n (a i j) (x i) (x j))).
Proof.
  unfold redlich_kister_excess_inner. cbv zeta.
  rewrite (loop_ext N _ (fun i s => s + rsum N (fun j => rk_binary n (a i j) (x i) (x j)))).
  - rewrite loop_rsum. field.
  - intros i s Hi. f_equal. rewrite (loop_ext N _ (fun j s => s + rsum n (fun k => a i j k * (x i - x j) ^ k) * x j)).
    + rewrite loop_rsum, Rplus_0_l, <- rsum_scal_r. apply rsum_ext. intros j Hj. unfold rk_binary. ring.
    + intros j u Hj. rewrite loop_poly. ring.
Qed.
Theorem C23_excess_formula N N_terms a xs : redlich_kister_excess_inner N N_terms a xs = 1 / 2 * rsum N (fun i => rsum N (fun j => rsum N_terms (fun k => a i j k * xs i * xs j * (xs i - xs j) ^ k))).
Proof. rewrite excess_eq. replace (1 / 2) with (/ 2) by lra. f_equal. apply rsum_ext; intros i Hi. apply rsum_ext; intros j Hj. unfold rk_binary. rewrite <- rsum_scal_l. apply rsum_ext; intros. ring. Qed.
Theorem C23_binary_formula ais x0 x1 : redlich_kister_excess_inner_binary ais x0 x1 = rk_binary (length ais) (coef ais) x0 x1.
Proof.
  unfold redlich_kister_excess_inner_binary. cbv zeta. rewrite (loop_ext _ _ (fun k st => let '(u, v) := st in (u + (coef ais k * (x0 * x1)) * v, v * (x0 - x1)))).
  rewrite loop_poly. cbn [fst]. unfold rk_binary. rewrite Rplus_0_l, Rmult_1_l, <- rsum_scal_l. apply rsum_ext. intros; ring. intros k [u v] Hk. reflexivity.
Qed.
(* coefficients of a reversed list *)
Lemma rev_from_nth l : forall p k, nth k (rk_reverse_from p l) 0 = (if ((p + k) mod 2 =? 1)%nat then - nth k l 0 else nth k l 0).
Proof.
  induction l; intros p k; cbn [rk_reverse_from]. { destruct k; cbn; destruct (_ =? _)%nat; lra. }
  destruct k; cbn [nth]. now rewrite Nat.add_0_r. rewrite IHl. replace (S p + k)%nat with (p + S k)%nat by lia. reflexivity.
Qed.
Lemma rev_from_length l : forall p, length (rk_reverse_from p l) = length l.
Proof. induction l; intros; cbn; auto. Qed.
Lemma pow_m1 k : (-1) ^ k = if (k mod 2 =? 1)%nat then -1 else 1.
Proof.
  rewrite (Nat.div_mod_eq k 2) at 1. rewrite pow_add, pow_mult. replace ((-1) ^ 2) with 1 by ring. rewrite pow1, Rmult_1_l. pose proof (Nat.mod_upper_bound k 2 ltac:(lia)). destruct (k mod 2) as [|[|]]; cbn; try lra. lia.
Qed.
Lemma coef_reverse l k : coef (redlich_kister_reverse l) k = (-1) ^ k * coef l k.
Proof. unfold coef, redlich_kister_reverse. rewrite rev_from_nth, Nat.add_0_l, pow_m1. destruct (_ =? _)%nat; lra. Qed.
Theorem C23_reverse_coefficients l k : (k < length l)%nat -> nth k (redlich_kister_reverse l) 0 = (-1) ^ k * nth k l 0.
Proof. intros _. apply coef_reverse. Qed.
Theorem C23_reverse_length l : length (redlich_kister_reverse l) = length l.
Proof. apply rev_from_length. Qed.
Theorem C23_reverse_involutive l : redlich_kister_reverse (redlich_kister_reverse l) = l.
Proof.
  apply nth_ext with 0 0; [now rewrite !C23_reverse_length|]. intros k _. change (coef (redlich_kister_reverse (redlich_kister_reverse l)) k = coef l k). rewrite !coef_reverse, <- Rmult_assoc, <- Rpow_mult_distr. replace (-1 * -1) with 1 by ring. rewrite pow1. ring.
Qed.
Lemma rk_swap n a xi xj : rk_binary n (fun k => (-1) ^ k * a k) xj xi = rk_binary n a xi xj.
Proof. unfold rk_binary. rewrite (Rmult_comm xj). f_equal. apply rsum_ext. intros k Hk. replace (xj - xi) with (-1 * (xi - xj)) by ring. rewrite Rpow_mult_distr. replace ((-1) ^ k * a k * ((-1) ^ k * (xi - xj) ^ k)) with (((-1) ^ k * (-1) ^ k) * (a k * (xi - xj) ^ k)) by ring. rewrite <- Rpow_mult_distr. replace (-1 * -1) with 1 by ring. rewrite pow1. ring. Qed.
Lemma rk_ext n a b xi xj : (forall k, (k < n)%nat -> a k = b k) -> rk_binary n a xi xj = rk_binary n b xi xj.
Proof. intros H. unfold rk_binary. f_equal. apply rsum_ext. intros; now rewrite H. Qed.
(* exchanging the two components and reversing the coefficients changes nothing *)
Theorem C23_reverse_binary ais x0 x1 : redlich_kister_excess_inner_binary (redlich_kister_reverse ais) x1 x0 = redlich_kister_excess_inner_binary ais x0 x1.
Proof. rewrite !C23_binary_formula, C23_reverse_length. rewrite (rk_ext _ _ (fun k => (-1) ^ k * coef ais k)) by (intros; apply coef_reverse). apply rk_swap. Qed.

(* ---- the table of pairs ---- *)
Lemma same_pair_iff p q : same_pair p q = true <-> p = q.
Proof. destruct p, q. unfold same_pair. cbn. rewrite andb_true_iff, !Nat.eqb_eq. split; [intros [-> ->]|intros [= -> ->]]; auto. Qed.
Lemma dict_get_none {D} (l : list ((nat * nat) * D)) key : forall f, ~ In key (map fst l) -> dict_get l key f = f.
Proof.
  induction l as [|[k d] l IH]; intros f H; cbn; auto. rewrite IH by (intros C; apply H; right; exact C).
  destruct (same_pair k key) eqn:E; auto. apply same_pair_iff in E. subst. exfalso. apply H. left. reflexivity.
Qed.
Lemma dict_get_in {D} (l : list ((nat * nat) * D)) key d : forall f, NoDup (map fst l) -> In (key, d) l -> dict_get l key f = Some d.
Proof.
  induction l as [|[k e] l IH]; intros f ND H; cbn in *; [contradiction|]. inversion ND; subst. destruct H as [[= -> ->]|H].
  - rewrite (proj2 (same_pair_iff key key) eq_refl). now apply dict_get_none.
  - now apply IH.
Qed.
Lemma dict_get_some {D} (l : list ((nat * nat) * D)) key d : forall f, dict_get l key f = Some d -> f = Some d \/ In (key, d) l.
Proof.
  induction l as [|[k e] l IH]; intros f H; cbn in *; auto. apply IH in H. destruct H as [H|H]; auto. destruct (same_pair k key) eqn:E; auto. apply same_pair_iff in E. inversion H. subst. auto.
Qed.
Lemma lsum_none {D} (l : list ((nat * nat) * D)) key (g : (nat * nat) -> D -> R) : ~ In key (map fst l) -> lsum (fun e => if same_pair (fst e) key then g (fst e) (snd e) else 0) l = 0.
Proof. induction l as [|[k e] l IH]; intros H; cbn; auto. rewrite IH by (intros C; apply H; right; exact C). destruct (same_pair k key) eqn:E; [|lra]. apply same_pair_iff in E. subst. exfalso. apply H. left. reflexivity. Qed.
Lemma lsum_in {D} (l : list ((nat * nat) * D)) key d (g : (nat * nat) -> D -> R) : NoDup (map fst l) -> In (key, d) l -> lsum (fun e => if same_pair (fst e) key then g (fst e) (snd e) else 0) l = g key d.
Proof.
  induction l as [|[k e] l IH]; intros ND H; [contradiction|]. cbn in ND. inversion ND; subst. destruct H as [[= -> ->]|H]; cbn.
  - rewrite (proj2 (same_pair_iff key key) eq_refl), lsum_none by auto. lra.
  - rewrite IH by auto. destruct (same_pair k key) eqn:E; [|lra]. apply same_pair_iff in E. subst. exfalso. apply H2. apply in_map_iff. exists (key, d). auto.
Qed.
Lemma lsum_plus {A} (f g : A -> R) l : lsum (fun a => f a + g a) l = lsum f l + lsum g l.
Proof. induction l; cbn; lra. Qed.
Lemma lsum_ext {A} (f g : A -> R) l : (forall a, In a l -> f a = g a) -> lsum f l = lsum g l.
Proof. induction l; intros H; cbn; auto. rewrite H by (left; auto). rewrite IHl; auto. intros; apply H; right; auto. Qed.
Lemma rsum_lsum {A} n (f : nat -> A -> R) l : rsum n (fun i => lsum (f i) l) = lsum (fun a => rsum n (fun i => f i a)) l.
Proof. induction l; cbn; [apply rsum_0|]. rewrite rsum_plus, IHl. reflexivity. Qed.
Lemma rsum_pick n i (f : nat -> R) : (i < n)%nat -> rsum n (fun k => if (i =? k)%nat then f k else 0) = f i.
Proof. intros H. rewrite (rsum_single n i); [now rewrite Nat.eqb_refl|auto|]. intros j Hj Hne. destruct (i =? j)%nat eqn:E; [apply Nat.eqb_eq in E; lia|reflexivity]. Qed.
Section Pairs.
Variables (N n : nat) (D : Type) (dict : list ((nat * nat) * D)) (c : D -> nat -> R) (a : nat -> nat -> nat -> R) (xs : nat -> R).
Hypothesis HP : proper_pairs N (map fst dict).
Hypothesis Ha : forall i j k, (k < n)%nat -> a i j k = match dict_get dict (i, j) None with Some d => c d k | None => match dict_get dict (j, i) None with Some d => (-1) ^ k * c d k | None => 0 end end.
Let t (key : nat * nat) (d : D) := rk_binary n (c d) (xs (fst key)) (xs (snd key)).
Lemma pair_entry i j : rk_binary n (a i j) (xs i) (xs j) = lsum (fun e => if same_pair (fst e) (i, j) then t (fst e) (snd e) else 0) dict + lsum (fun e => if same_pair (fst e) (j, i) then t (fst e) (snd e) else 0) dict.
Proof.
  destruct HP as [ND Hr]. pose proof (Ha i j) as Hij. revert Hij.
  destruct (dict_get dict (i, j) None) as [d|] eqn:E; intros Hij.
  - apply dict_get_some in E. destruct E as [|E]; [discriminate|]. rewrite (lsum_in _ _ d) by auto. rewrite lsum_none.
    2: { apply (Hr i j). apply in_map_iff. exists (i, j, d). auto. } rewrite Rplus_0_r. unfold t. cbn. apply rk_ext. exact Hij.
  - assert (~ In (i, j) (map fst dict)) as K. { intros C. apply in_map_iff in C. destruct C as [[k d] [C1 C2]]. cbn in C1. subst k. rewrite (dict_get_in _ _ d) in E by auto. discriminate. }
    rewrite (lsum_none _ (i, j)), Rplus_0_l by auto. revert Hij. destruct (dict_get dict (j, i) None) as [d|] eqn:E2; intros Hij.
    + apply dict_get_some in E2. destruct E2 as [|E2]; [discriminate|]. rewrite (lsum_in _ _ d) by auto. unfold t. cbn. rewrite <- (rk_swap n (c d) (xs j) (xs i)). apply rk_ext. exact Hij.
    + rewrite lsum_none. unfold rk_binary. rewrite rsum_eq_0. ring. intros. rewrite Hij by auto. ring.
      intros C. apply in_map_iff in C. destruct C as [[k d] [C1 C2]]. cbn in C1. subst k. rewrite (dict_get_in _ _ d) in E2 by auto. discriminate.
Qed.
Lemma pairs_sum : redlich_kister_excess_inner N n a xs = lsum (fun e => t (fst e) (snd e)) dict.
Proof.
  rewrite excess_eq.
  assert (forall sw : bool, rsum N (fun i => rsum N (fun j => lsum (fun e => if same_pair (fst e) (if sw then (j, i) else (i, j)) then t (fst e) (snd e) else 0) dict)) = lsum (fun e => t (fst e) (snd e)) dict) as K.
  { intros sw. rewrite (rsum_ext N _ (fun i => lsum (fun e => rsum N (fun j => if same_pair (fst e) (if sw then (j, i) else (i, j)) then t (fst e) (snd e) else 0)) dict)) by (intros; apply rsum_lsum).
    rewrite rsum_lsum. apply lsum_ext. intros [[p q] d] Hin. cbn [fst snd]. destruct HP as [_ Hr]. destruct (Hr p q) as (_ & Hp & Hq & _). apply in_map_iff. exists (p, q, d). auto.
    unfold same_pair. cbn [fst snd]. destruct sw; cbn [fst snd].
    - rewrite (rsum_ext N _ (fun i => if (q =? i)%nat then rsum N (fun j => if (p =? j)%nat then t (p, q) d else 0) else 0)). rewrite (rsum_pick N q (fun _ => _)) by auto. now rewrite (rsum_pick N p (fun _ => _)) by auto.
      intros i Hi. destruct (q =? i)%nat. apply rsum_ext. intros. rewrite andb_true_r. reflexivity. apply rsum_eq_0. intros. rewrite andb_false_r. reflexivity.
    - rewrite (rsum_ext N _ (fun i => if (p =? i)%nat then rsum N (fun j => if (q =? j)%nat then t (p, q) d else 0) else 0)). rewrite (rsum_pick N p (fun _ => _)) by auto. now rewrite (rsum_pick N q (fun _ => _)) by auto.
      intros i Hi. destruct (p =? i)%nat. apply rsum_ext. intros. reflexivity. apply rsum_eq_0. intros. reflexivity. }
  rewrite (rsum_ext N _ (fun i => rsum N (fun j => lsum (fun e => if same_pair (fst e) (i, j) then t (fst e) (snd e) else 0) dict) + rsum N (fun j => lsum (fun e => if same_pair (fst e) (j, i) then t (fst e) (snd e) else 0) dict))).
  2: { intros. rewrite <- rsum_plus. apply rsum_ext. intros. apply pair_entry. }
  rewrite rsum_plus. pose proof (K true) as K1. pose proof (K false) as K2. cbv iota in K1, K2. rewrite K1, K2. field.
Qed.
End Pairs.

(* The coefficient of a built table *)
Definition table (s : nat -> nat -> option (list R)) (i j k : nat) : R := match s i j with Some l => coef l k | None => 0 end.
Lemma combine_keys {D} (idx : list (nat * nat)) (data : list D) : length idx = length data -> map fst (combine idx data) = idx.
Proof. revert data. induction idx; intros [|d data] H; cbn in *; try discriminate; auto. f_equal. apply IHidx. lia. Qed.
Lemma coef_repeat n k : coef (repeat 0 n) k = 0.
Proof. unfold coef. revert k. induction n; intros [|k]; cbn; auto. Qed.
(* The N-component excess of a table built from pairs is the sum of the binary expansions of those pairs, whatever the order of the
   pairs and whichever of the two orders each pair is given in. *)
Theorem C23_excess_of_pairs N N_terms data indexes s xs : redlich_kister_build_structure_1d [N_terms] data indexes = Some s -> proper_pairs N indexes ->
  redlich_kister_excess_inner N N_terms (table s) xs = lsum (fun e => let '((i, j), d) := e in rk_binary N_terms (coef d) (xs i) (xs j)) (combine indexes data).
Proof.
  intros H HP. cbn in H. destruct (length indexes =? length data)%nat eqn:E; [|discriminate]. apply Nat.eqb_eq in E. injection H as <-.
  rewrite (pairs_sum N N_terms (list R) (combine indexes data) coef).
  - apply lsum_ext. intros [[i j] d] _. reflexivity.
  - now rewrite combine_keys.
  - intros i j k _. unfold table, rk_entry. destruct (dict_get _ (i, j) None); auto. destruct (dict_get _ (j, i) None). apply coef_reverse. apply coef_repeat.
Qed.
(* for two components it is the binary function, in either order *)
Theorem C23_two_components ais s x0 x1 : redlich_kister_build_structure_1d [length ais] [ais] [(0%nat, 1%nat)] = Some s ->
  redlich_kister_excess_inner 2 (length ais) (table s) (pair2 x0 x1) = redlich_kister_excess_inner_binary ais x0 x1.
Proof.
  intros H. rewrite (C23_excess_of_pairs 2 _ _ _ s _ H). cbn [combine lsum]. rewrite C23_binary_formula. cbn. lra.
  split. repeat constructor; cbn; tauto. intros i j [[= <- <-]|[]]. splits; try lia. intros [[=]|[]].
Qed.
Theorem C23_two_components_swapped ais s x0 x1 : redlich_kister_build_structure_1d [length ais] [ais] [(1%nat, 0%nat)] = Some s ->
  redlich_kister_excess_inner 2 (length ais) (table s) (pair2 x0 x1) = redlich_kister_excess_inner_binary ais x1 x0.
Proof.
  intros H. rewrite (C23_excess_of_pairs 2 _ _ _ s _ H). cbn [combine lsum]. rewrite C23_binary_formula. cbn. lra.
  split. repeat constructor; cbn; tauto. intros i j [[= <- <-]|[]]. splits; try lia. intros [[=]|[]].
Qed.
(* it vanishes for a pure component *)
Theorem C23_pure N N_terms data indexes s p : redlich_kister_build_structure_1d [N_terms] data indexes = Some s -> proper_pairs N indexes ->
  redlich_kister_excess_inner N N_terms (table s) (pure p) = 0.
Proof.
  intros H HP. rewrite (C23_excess_of_pairs N _ _ _ s _ H HP). assert (forall e, In e (combine indexes data) -> fst (fst e) <> snd (fst e)) as K.
  { intros [[i j] d] Hin. apply in_combine_l in Hin. apply HP in Hin. tauto. }
  revert K. generalize (combine indexes data). intros l. induction l as [|[[i j] d] l IH]; intros K; cbn; auto. rewrite IH by (intros; apply K; right; auto).
  specialize (K (i, j, d) (or_introl eq_refl)). cbn in K. unfold rk_binary, pure. destruct (i =? p)%nat eqn:E1, (j =? p)%nat eqn:E2; try ring. apply Nat.eqb_eq in E1, E2. lia.
Qed.
(* without the condition on the pairs: a pair (i, i) gives a pure component an excess *)
Theorem C23_diagonal_refuted : exists data indexes s, redlich_kister_build_structure_1d [1%nat] data indexes = Some s /\ redlich_kister_excess_inner 2 1 (table s) (pure 0) <> 0.
Proof.
  exists [[1]], [(0%nat, 0%nat)]. eexists. split; [reflexivity|]. rewrite excess_eq. unfold table, rk_entry, rk_binary, pure, coef. cbn. lra.
Qed.
(* and a pair given in both orders counts the average of the two expansions *)
Theorem C23_both_orders_refuted : exists data indexes s xs, redlich_kister_build_structure_1d [1%nat] data indexes = Some s /\
  redlich_kister_excess_inner 2 1 (table s) xs <> lsum (fun e => let '((i, j), d) := e in rk_binary 1 (coef d) (xs i) (xs j)) (combine indexes data).
Proof.
  exists [[1]; [1]], [(0%nat, 1%nat); (1%nat, 0%nat)]. eexists. exists (pair2 1 1). split; [reflexivity|]. rewrite excess_eq. unfold table, rk_entry, rk_binary, pair2, coef. cbn. lra.
Qed.
(* errors *)
Theorem C23_length_error n data indexes : length indexes <> length data -> redlich_kister_build_structure_1d [n] data indexes = None.
Proof. intros H. cbn. now apply Nat.eqb_neq in H as ->. Qed.

(* ---- temperature dependence ---- *)
Theorem C23_T_dependence c T N_T a : T <> 0 -> redlich_kister_T_dependence c T N_T = Some a -> (forall i j k, a i j k = T_poly N_T (c i j k) T).
Proof.
  intros HT H i j k. unfold redlich_kister_T_dependence in H. unfold T_poly.
  do 7 (destruct N_T as [|N_T]; [cbn in H; try discriminate; injection H as <-; cbn; field; auto|]). cbn in H. discriminate.
Qed.
Theorem C23_T_dependence_terms c T N_T : redlich_kister_T_dependence c T N_T <> None <-> (N_T = 2 \/ N_T = 3 \/ N_T = 6)%nat.
Proof. unfold redlich_kister_T_dependence. do 7 (destruct N_T as [|N_T]; [cbn; split; [intros; try lia; contradiction|intros; try lia; discriminate]|]). cbn. split; [contradiction|lia]. Qed.
(* excess_binary evaluates the same polynomial for 1 to 6 temperature terms *)
Theorem C23_excess_binary c x0 T N_T N_terms : T <> 0 -> (1 <= N_T <= 6)%nat -> redlich_kister_excess_binary c x0 T N_T N_terms = rk_binary N_terms (fun k => T_poly N_T (fun t => c (k * N_T + t)%nat) T) x0 (1 - x0).
Proof.
  intros HT HN. unfold redlich_kister_excess_binary. cbv zeta. rewrite (loop_ext _ _ (fun k st => let '(u, v) := st in (u + (T_poly N_T (fun t => c (k * N_T + t)%nat) T * (x0 * (1 - x0))) * v, v * (x0 - (1 - x0))))).
  - rewrite loop_poly. cbn [fst]. unfold rk_binary. rewrite Rplus_0_l, Rmult_1_l, <- rsum_scal_l. apply rsum_ext. intros; ring.
  - intros k [u v] Hk. f_equal. f_equal. apply f_equal2; [|reflexivity]. apply f_equal2; [|reflexivity]. unfold T_poly.
    assert (N_T = 1 \/ N_T = 2 \/ N_T = 3 \/ N_T = 4 \/ N_T = 5 \/ N_T = 6)%nat as [-> | [-> | [-> | [-> | [-> | ->]]]]] by lia; cbn [Nat.leb rsum loop]; rewrite ?Nat.add_0_r; field; auto.
Qed.
(* redlich_kister_fitting_to_use turns the flat fitted coefficients into the rows used by the table *)
Theorem C23_fitting_to_use c N_terms N_T i j : (i < N_terms)%nat -> (j < N_T)%nat -> nth j (nth i (redlich_kister_fitting_to_use c N_terms N_T) []) 0 = c (i * N_T + j)%nat.
Proof.
  intros Hi Hj. unfold redlich_kister_fitting_to_use. rewrite (nth_indep _ [] (map (fun j => c (0 * N_T + j)%nat) (seq 0 N_T))) by (now rewrite map_length, seq_length).
  rewrite (map_nth (fun i => map (fun j => c (i * N_T + j)%nat) (seq 0 N_T))). rewrite seq_nth, Nat.add_0_l by auto.
  rewrite (nth_indep _ 0 (c (i * N_T + 0)%nat)) by (now rewrite map_length, seq_length). rewrite (map_nth (fun j => c (i * N_T + j)%nat)). now rewrite seq_nth, Nat.add_0_l by auto.
Qed.
(* 2-d data: reversal negates whole odd rows *)
Lemma negate_first_eq l : rk_negate_first (length l) l = Some (map Ropp l).
Proof. induction l; cbn; auto. now rewrite IHl. Qed.
Definition rectangular (n m : nat) (d : list (list R)) := length d = n /\ forall row, In row d -> length row = m.
Lemma reverse_2d_from m l : (forall row, In row l -> length row = m) -> forall k, exists r, rk_reverse_2d_from m k l = Some r /\ forall p t, coef (nth p r []) t = (if ((k + p) mod 2 =? 1)%nat then - coef (nth p l []) t else coef (nth p l []) t).
Proof.
  induction l as [|row l IH]; intros Hm k; cbn [rk_reverse_2d_from].
  - exists []. split; auto. intros p t. unfold coef. destruct p; cbn; destruct t; destruct (_ =? _)%nat; lra.
  - destruct (IH (fun r Hr => Hm r (or_intror Hr)) (S k)) as [r [-> Hr]]. pose proof (Hm row (or_introl eq_refl)) as <-. rewrite negate_first_eq. destruct (k mod 2 =? 1)%nat eqn:E; (eexists; split; [reflexivity|]); intros [|p] t; cbn [nth]; rewrite ?Nat.add_0_r, ?E; try (rewrite Hr; replace (S k + p)%nat with (k + S p)%nat by lia; reflexivity); auto.
    unfold coef. replace 0 with (- 0) at 1 by lra. rewrite map_nth. reflexivity.
Qed.
Lemma reverse_2d_eq n m d : (0 < n)%nat -> rectangular n m d -> exists r, redlich_kister_reverse_2d d = Some r /\ forall k t, coef (nth k r []) t = (-1) ^ k * coef (nth k d []) t.
Proof.
  intros Hn [Hl Hm]. unfold redlich_kister_reverse_2d. destruct d as [|r0 d]; [cbn in Hl; lia|]. rewrite (Hm r0 (or_introl eq_refl)).
  destruct (reverse_2d_from m (r0 :: d) Hm 0) as [r [E Hr]]. exists r. split; auto. intros k t. rewrite Hr, pow_m1, Nat.add_0_l. destruct (_ =? _)%nat; lra.
Qed.
Theorem C23_reverse_2d n m d : (0 < n)%nat -> rectangular n m d -> exists r, redlich_kister_reverse_2d d = Some r /\ forall k t, coef (nth k r []) t = (-1) ^ k * coef (nth k d []) t.
Proof. apply reverse_2d_eq. Qed.
Definition table2 (s : nat -> nat -> option (list (list R))) (i j k t : nat) : R := match s i j with Some d => coef (nth k d []) t | None => 0 end.
Lemma T_poly_scal n v c T : T_poly n (fun t => v * c t) T = v * T_poly n c T.
Proof. unfold T_poly. rewrite <- rsum_scal_l. apply rsum_ext. intros. ring. Qed.
(* The whole chain: a temperature dependent table built from pairs, evaluated at T, gives the sum of the binary expansions with the
   coefficients of each pair evaluated at T. *)
Theorem C23_excess_of_pairs_T N N_terms N_T data indexes s xs T a : (0 < N_terms)%nat -> T <> 0 -> (forall d, In d data -> rectangular N_terms N_T d) ->
  redlich_kister_build_structure_2d [N_terms; N_T] data indexes = Some s -> proper_pairs N indexes -> redlich_kister_T_dependence (table2 s) T N_T = Some a ->
  redlich_kister_excess_inner N N_terms a xs = lsum (fun e => let '((i, j), d) := e in rk_binary N_terms (fun k => T_poly N_T (coef (nth k d [])) T) (xs i) (xs j)) (combine indexes data).
Proof.
  intros Hn HT Hd H HP Ha. cbn in H. destruct (length indexes =? length data)%nat eqn:E; [|discriminate]. apply Nat.eqb_eq in E. injection H as <-.
  rewrite (pairs_sum N N_terms _ (combine indexes data) (fun d k => T_poly N_T (coef (nth k d [])) T)).
  - apply lsum_ext. intros [[i j] d] _. reflexivity.
  - now rewrite combine_keys.
  - intros i j k Hk. rewrite (C23_T_dependence _ _ _ _ HT Ha). unfold table2, rk_entry.
    destruct (dict_get _ (i, j) None). reflexivity. destruct (dict_get _ (j, i) None) as [d|] eqn:E2.
    + apply dict_get_some in E2. destruct E2 as [|E2]; [discriminate|]. apply in_combine_r in E2. destruct (reverse_2d_eq N_terms N_T d Hn (Hd d E2)) as [r [-> Hr]]. rewrite <- T_poly_scal. unfold T_poly. apply rsum_ext. intros t Ht. now rewrite Hr.
    + unfold T_poly. apply rsum_eq_0. intros t Ht. replace (coef (nth k (repeat (repeat 0 N_T) N_terms) []) t) with 0. ring. rewrite (nth_indep _ [] (repeat 0 N_T)) by (now rewrite repeat_length). now rewrite nth_repeat, coef_repeat.
Qed.
(* flat fitted coefficients used through the table or directly give the same value, for the numbers of terms the table supports *)
Theorem C23_fitted_binary c x0 T N_T N_terms s a : (0 < N_terms)%nat -> T <> 0 ->
  redlich_kister_build_structure_2d [N_terms; N_T] [redlich_kister_fitting_to_use c N_terms N_T] [(0%nat, 1%nat)] = Some s -> redlich_kister_T_dependence (table2 s) T N_T = Some a ->
  redlich_kister_excess_inner 2 N_terms a (pair2 x0 (1 - x0)) = redlich_kister_excess_binary c x0 T N_T N_terms.
Proof.
  intros Hn HT Hs Ha. assert (N_T = 2 \/ N_T = 3 \/ N_T = 6)%nat as HN by (apply (C23_T_dependence_terms (table2 s) T); rewrite Ha; discriminate).
  rewrite (C23_excess_of_pairs_T 2 _ _ _ _ s _ T a Hn HT) with (2 := Hs); auto.
  - rewrite C23_excess_binary by (auto; lia). cbn [combine lsum pair2]. rewrite Rplus_0_r. apply rk_ext. intros k Hk. unfold T_poly. apply rsum_ext. intros t Ht. f_equal. apply C23_fitting_to_use; auto.
  - intros d [<-|[]]. split. unfold redlich_kister_fitting_to_use. now rewrite map_length, seq_length. intros row Hr. unfold redlich_kister_fitting_to_use in Hr. apply in_map_iff in Hr. destruct Hr as [i [<- _]]. now rewrite map_length, seq_length.
  - split. repeat constructor; cbn; tauto. intros i j [[= <- <-]|[]]. splits; try lia. intros [[=]|[]].
Qed.
(* four or five temperature terms are accepted by the binary fit but refused by the table *)
Theorem C23_terms_4_5_refuted c T : redlich_kister_T_dependence c T 4 = None /\ redlich_kister_T_dependence c T 5 = None.
Proof. split; reflexivity. Qed.

Example C23_hypotheses_met : exists data indexes s xs, redlich_kister_build_structure_1d [2%nat] data indexes = Some s /\ proper_pairs 3 indexes /\ redlich_kister_excess_inner 3 2 (table s) xs = 9 / 32.
Proof.
  exists [[1; 1]; [2; 0]], [(0%nat, 1%nat); (2%nat, 1%nat)]. eexists. exists (fun i => match i with O => 1 / 2 | _ => 1 / 4 end).
  assert (HP : proper_pairs 3 [(0%nat, 1%nat); (2%nat, 1%nat)]). { split. repeat constructor; cbn; intuition congruence. intros i j [[= <- <-]|[[= <- <-]|[]]]; splits; try lia; cbn; intuition congruence. }
  split; [reflexivity|]. split; [exact HP|]. rewrite (C23_excess_of_pairs 3 2 [[1; 1]; [2; 0]] [(0%nat, 1%nat); (2%nat, 1%nat)] _ _ eq_refl HP). cbn. unfold rk_binary, coef. cbn. field.
Qed.
