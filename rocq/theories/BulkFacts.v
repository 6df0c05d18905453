From Coq Require Import Reals Arith List Bool String Lra Lia Permutation.
From Coquelicot Require Import Coquelicot.
From Verif Require Import Base BaseFacts Model_pyerr Gen_phase Spec_bulk Model_bulk.
From Coq Require Import List.
Import ListNotations.
Open Scope R_scope.

Lemma psum_acc l : forall a, fold_left Rplus l a = a + total l.
Proof. induction l as [|x l IH]; intros a; simpl. ring. rewrite IH. ring. Qed.
Lemma psum_total l : psum l = total l. Proof. unfold psum. rewrite psum_acc. ring. Qed.
Lemma pwsum_acc ws : forall xs a, fold_left (fun acc p => acc + fst p * snd p) (combine ws xs) a = a + weighted ws xs.
Proof. induction ws as [|w ws IH]; intros [|x xs] a; simpl; try ring. rewrite IH. simpl. ring. Qed.
Lemma pwsum_weighted ws xs : pwsum ws xs = weighted ws xs. Proof. unfold pwsum. rewrite pwsum_acc. ring. Qed.
Lemma weighted_comm ws : forall xs, weighted ws xs = weighted xs ws.
Proof. induction ws as [|w ws IH]; intros [|x xs]; simpl; auto. rewrite IH. ring. Qed.
Lemma csum_rsum n zs xs : csum n zs xs = rsum n (fun i => zs i * xs i).
Proof. unfold csum. rewrite loop_rsum. ring. Qed.
Lemma weight_fractions_shares bs xs : weight_fractions bs xs = shares bs xs.
Proof.
  unfold weight_fractions, shares. cbv zeta. rewrite pwsum_weighted, weighted_comm. generalize (weighted bs xs) as t. revert xs.
  induction bs as [|b bs IH]; intros [|x xs] t; simpl; auto. rewrite IH. f_equal. unfold Rdiv. ring.
Qed.
Lemma total_map_scal (c : R) l : total (map (fun p => p * c) l) = total l * c.
Proof. induction l; simpl. ring. rewrite IHl. ring. Qed.
Lemma total_products ws : forall xs, total (products ws xs) = weighted ws xs.
Proof. induction ws as [|w ws IH]; intros [|x xs]; simpl; auto. now rewrite IH. Qed.
Lemma shares_total ws xs : weighted ws xs <> 0 -> total (shares ws xs) = 1.
Proof. intros H. unfold shares. unfold Rdiv. rewrite total_map_scal, total_products. field. auto. Qed.
Lemma weighted_nonneg ws : forall xs, Forall (fun b => 0 <= b) ws -> Forall (fun x => 0 <= x) xs -> 0 <= weighted ws xs.
Proof. induction ws as [|w ws IH]; intros [|x xs] Hw Hx; simpl; try lra. inversion Hw; inversion Hx; subst. specialize (IH xs H2 H6). pose proof (Rmult_le_pos w x H1 H5). lra. Qed.
Lemma weighted_pos ws : forall xs, List.length xs = List.length ws -> is_fractions ws -> Forall (fun x => 0 < x) xs -> 0 < weighted ws xs.
Proof.
  unfold is_fractions. intros xs L [Hw Ht] Hx.
  assert (G : forall t, total ws = t -> 0 < t -> 0 < weighted ws xs).
  { clear Ht. revert xs L Hx. induction ws as [|w ws IH]; intros [|x xs] L Hx t Ht P; simpl in *; try lra; try discriminate.
    inversion Hw; inversion Hx; subst. 
    assert (0 <= weighted ws xs). { apply weighted_nonneg; auto. eapply Forall_impl; [|exact H6]. intros; simpl in *; lra. }
    destruct (Rle_lt_or_eq_dec 0 w H1) as [Hp|He].
    - pose proof (Rmult_lt_0_compat w x Hp H5). lra.
    - subst w. specialize (IH H2 xs ltac:(lia) H6 (total ws) eq_refl ltac:(lra)). lra. }
  apply (G 1); auto. lra.
Qed.
Lemma shares_nonneg ws xs : Forall (fun b => 0 <= b) ws -> Forall (fun x => 0 < x) xs -> 0 < weighted ws xs -> Forall (fun b => 0 <= b) (shares ws xs).
Proof.
  intros Hw Hx HP. unfold shares. revert HP. generalize (weighted ws xs). intros t Ht. revert xs Hx.
  induction ws as [|w ws IH]; intros [|x xs] Hx; simpl; auto. inversion Hw; inversion Hx; subst. constructor; auto.
  apply Rmult_le_pos. apply Rmult_le_pos; lra. left. now apply Rinv_0_lt_compat.
Qed.
Lemma shares_fractions ws xs : List.length xs = List.length ws -> is_fractions ws -> Forall (fun x => 0 < x) xs -> is_fractions (shares ws xs).
Proof. intros L Hw Hx. pose proof (weighted_pos ws xs L Hw Hx). destruct Hw as [Hw _]. split. now apply shares_nonneg. apply shares_total. lra. Qed.
Lemma products_length ws : forall xs, List.length xs = List.length ws -> List.length (products ws xs) = List.length ws.
Proof. induction ws as [|w ws IH]; intros [|x xs] L; simpl in *; try reflexivity; try discriminate. injection L as L. now rewrite (IH xs L). Qed.
Lemma shares_length ws xs : List.length xs = List.length ws -> List.length (shares ws xs) = List.length ws.
Proof. intros L. unfold shares. rewrite map_length. now apply products_length. Qed.
Lemma weighted_app a : forall b c d, List.length a = List.length c -> weighted (a ++ b) (c ++ d) = weighted a c + weighted b d.
Proof. induction a as [|x a IH]; intros b [|y c] d L; simpl in *; try discriminate. ring. rewrite IH by lia. ring. Qed.
Lemma weighted_lin ws : forall {A} (f g h : A -> R) (u v : R) ps, (forall p, h p = u * f p + v * g p) ->
  weighted ws (map h ps) = u * weighted ws (map f ps) + v * weighted ws (map g ps).
Proof. induction ws as [|w ws IH]; intros A f g h u v [|p ps] H; simpl; try ring. rewrite (IH A f g h u v ps H), H. ring. Qed.
Lemma weighted_scal ws c xs : weighted ws (map (fun x => c * x) xs) = c * weighted ws xs.
Proof. revert xs. induction ws as [|w ws IH]; intros [|x xs]; simpl; try ring. rewrite IH. ring. Qed.
Lemma weighted_wscal ws c : forall xs, weighted (map (fun x => x * c) ws) xs = c * weighted ws xs.
Proof. induction ws as [|w ws IH]; intros [|x xs]; simpl; try ring. rewrite IH. ring. Qed.
Lemma weighted_ext ws {A} (f g : A -> R) ps : (forall p, In p ps -> f p = g p) -> weighted ws (map f ps) = weighted ws (map g ps).
Proof. intros H. f_equal. now apply map_ext_in. Qed.
Lemma weighted_rsum n ws : forall {A} (f : A -> nat -> R) ps, weighted ws (map (fun p => rsum n (f p)) ps) = rsum n (fun i => weighted ws (map (fun p => f p i) ps)).
Proof.
  induction ws as [|w ws IH]; intros A f [|p ps]; simpl; try (symmetry; now apply rsum_0).
  rewrite IH, rsum_plus, rsum_scal_l. reflexivity.
Qed.
Lemma weighted_const ws c : forall xs, List.length xs = List.length ws -> (forall x, In x xs -> x = c) -> weighted ws xs = c * total ws.
Proof. induction ws as [|w ws IH]; intros [|x xs] L H; simpl in *; try discriminate. ring. rewrite IH by (auto; lia). rewrite (H x) by auto. ring. Qed.
Lemma weighted_between ws m M : forall xs, List.length xs = List.length ws -> Forall (fun b => 0 <= b) ws -> between m M xs -> m * total ws <= weighted ws xs <= M * total ws.
Proof.
  unfold between. induction ws as [|w ws IH]; intros [|x xs] L Hw Hx; simpl in *; try discriminate. lra.
  inversion Hw; inversion Hx; subst. specialize (IH xs ltac:(lia) H2 H6).
  assert (m * w <= w * x) by (rewrite (Rmult_comm m); apply Rmult_le_compat_l; lra). assert (w * x <= M * w) by (rewrite (Rmult_comm M); apply Rmult_le_compat_l; lra). lra.
Qed.
Lemma weighted_between1 ws m M xs : List.length xs = List.length ws -> is_fractions ws -> between m M xs -> m <= weighted ws xs <= M.
Proof. intros L [Hw Ht] Hx. pose proof (weighted_between ws m M xs L Hw Hx). rewrite Ht in H. lra. Qed.
Lemma shares_products ws : forall xs ys t, weighted (map (fun p => p / t) (products ws xs)) ys = weighted ws (products xs ys) / t.
Proof. induction ws as [|w ws IH]; intros [|x xs] [|y ys] t; simpl; unfold Rdiv in *; try ring. rewrite IH. ring. Qed.
Lemma products_map {A} (f g : A -> R) ps : products (map f ps) (map g ps) = map (fun p => f p * g p) ps.
Proof. induction ps; simpl; auto. now rewrite IHps. Qed.
Lemma weighted_shares {A} ws (f g : A -> R) ps : weighted (shares ws (map f ps)) (map g ps) = weighted ws (map (fun p => f p * g p) ps) / weighted ws (map f ps).
Proof. unfold shares. now rewrite shares_products, products_map. Qed.

(* folding in any order *)
Lemma fold_perm {A B} (op : B -> A -> B) (H : forall b x y, op (op b x) y = op (op b y) x) l l' : Permutation l l' -> forall b, fold_left op l b = fold_left op l' b.
Proof. induction 1; intros b; simpl; auto. now rewrite H. now rewrite IHPermutation1. Qed.
Lemma weighted_combine {A} (f : A -> R) ws : forall ps, weighted ws (map f ps) = total (map (fun q => fst q * f (snd q)) (combine ws ps)).
Proof. induction ws as [|w ws IH]; intros [|p ps]; simpl; auto. now rewrite IH. Qed.
Lemma total_perm l l' : Permutation l l' -> total l = total l'.
Proof. induction 1; simpl; lra. Qed.
Lemma weighted_perm {A} (f : A -> R) ws ps ws' ps' : Permutation (combine ws ps) (combine ws' ps') -> weighted ws (map f ps) = weighted ws' (map f ps').
Proof. intros H. rewrite !weighted_combine. apply total_perm. now apply Permutation_map. Qed.
Lemma combine_map_r {A B C} (f : B -> C) (l : list A) : forall l', combine l (map f l') = map (fun p => (fst p, f (snd p))) (combine l l').
Proof. induction l as [|x l IH]; intros [|y l']; simpl; auto. now rewrite IH. Qed.
Lemma combine_shares {A} ws (f : A -> R) t : forall ps, combine (map (fun p => p / t) (products ws (map f ps))) ps = map (fun q => (fst q * f (snd q) / t, snd q)) (combine ws ps).
Proof. induction ws as [|w ws IH]; intros [|p ps]; simpl; auto. now rewrite IH. Qed.
Lemma shares_perm {A} (f : A -> R) ws ps ws' ps' : Permutation (combine ws ps) (combine ws' ps') -> Permutation (combine (shares ws (map f ps)) ps) (combine (shares ws' (map f ps')) ps').
Proof. intros H. unfold shares. rewrite !combine_shares. rewrite (weighted_perm f ws ps ws' ps' H). now apply Permutation_map. Qed.

(* min and max *)
Lemma fmin_spec l : forall x, let m := fold_left (fun m y => if Rltb y m then y else m) l x in (m = x \/ In m l) /\ m <= x /\ Forall (fun y => m <= y) l.
Proof.
  induction l as [|y l IH]; intros x; simpl. splits; auto; lra. specialize (IH (if Rltb y x then y else x)). cbv zeta in IH. destruct IH as (A & B & C).
  unfold Rltb in *. destruct (Rlt_dec y x); splits; try tauto; try lra; try (constructor; auto; lra); destruct A as [A|A]; auto.
Qed.
Lemma fmax_spec l : forall x, let m := fold_left (fun m y => if Rltb m y then y else m) l x in (m = x \/ In m l) /\ x <= m /\ Forall (fun y => y <= m) l.
Proof.
  induction l as [|y l IH]; intros x; simpl. splits; auto; lra. specialize (IH (if Rltb x y then y else x)). cbv zeta in IH. destruct IH as (A & B & C).
  unfold Rltb in *. destruct (Rlt_dec x y); splits; try tauto; try lra; try (constructor; auto; lra); destruct A as [A|A]; auto.
Qed.
Lemma pmin_spec l m : pmin l = Some m -> In m l /\ Forall (fun y => m <= y) l.
Proof. destruct l as [|x l]; simpl. discriminate. intros E. injection E as <-. pose proof (fmin_spec l x) as H. cbv zeta in H. destruct H as (A & B & C). split. destruct A; auto. constructor; auto. Qed.
Lemma pmax_spec l m : pmax l = Some m -> In m l /\ Forall (fun y => y <= m) l.
Proof. destruct l as [|x l]; simpl. discriminate. intros E. injection E as <-. pose proof (fmax_spec l x) as H. cbv zeta in H. destruct H as (A & B & C). split. destruct A; auto. constructor; auto. Qed.
Lemma pmin_perm l l' : Permutation l l' -> pmin l = pmin l'.
Proof.
  intros H. destruct (pmin l) as [m|] eqn:E, (pmin l') as [m'|] eqn:E'; auto.
  - apply pmin_spec in E, E'. destruct E as [A B], E' as [A' B']. rewrite Forall_forall in B, B'. f_equal. apply Rle_antisym. apply B. eapply Permutation_in; [symmetry|]; eauto. apply B'. eapply Permutation_in; eauto.
  - destruct l'; try discriminate. apply Permutation_sym, Permutation_nil in H. now subst.
  - destruct l; try discriminate. apply Permutation_nil in H. now subst.
Qed.
Lemma pmax_perm l l' : Permutation l l' -> pmax l = pmax l'.
Proof.
  intros H. destruct (pmax l) as [m|] eqn:E, (pmax l') as [m'|] eqn:E'; auto.
  - apply pmax_spec in E, E'. destruct E as [A B], E' as [A' B']. rewrite Forall_forall in B, B'. f_equal. apply Rle_antisym. apply B'. eapply Permutation_in; eauto. apply B. eapply Permutation_in; [symmetry|]; eauto.
  - destruct l'; try discriminate. apply Permutation_sym, Permutation_nil in H. now subst.
  - destruct l; try discriminate. apply Permutation_nil in H. now subst.
Qed.

(* sums of terms that may raise *)
Lemma posum_acc (f : R -> option R) (g : R -> R) ws : forall xs a, (forall x, In x xs -> f x = Some (g x)) ->
  fold_left (fun acc p => bindo acc (fun a => bindo (f (snd p)) (fun y => Some (a + fst p * y)))) (combine ws xs) (Some a) = Some (a + weighted ws (map g xs)).
Proof.
  induction ws as [|w ws IH]; intros [|x xs] a H; simpl; try (f_equal; ring). rewrite (H x) by (simpl; auto). simpl. rewrite IH by (intros; apply H; simpl; auto). f_equal. ring.
Qed.
Lemma posum_some (f : R -> option R) (g : R -> R) ws xs : (forall x, In x xs -> f x = Some (g x)) -> posum f ws xs = Some (weighted ws (map g xs)).
Proof. intros H. unfold posum. rewrite (posum_acc f g ws xs 0 H). f_equal. ring. Qed.
Lemma posum_none_acc (f : R -> option R) (l : list (R * R)) : fold_left (fun acc p => bindo acc (fun a => bindo (f (snd p)) (fun y => Some (a + fst p * y)))) l (@None R) = @None R.
Proof. induction l as [|[w x] l IH]; simpl; auto. Qed.
Lemma posum_none (f : R -> option R) ws : forall xs, List.length xs = List.length ws -> (exists x, In x xs /\ f x = None) -> posum f ws xs = None.
Proof.
  unfold posum. generalize 0. induction ws as [|w ws IH]; intros a [|x xs] L (y & Hy & E); simpl in *; try discriminate; try tauto.
  destruct (f x) eqn:Ex; simpl. apply IH. lia. exists y. destruct Hy; try congruence. auto. apply posum_none_acc.
Qed.
Lemma posum_perm {A} (f : R -> option R) (g : A -> R) ws ps ws' ps' : Permutation (combine ws ps) (combine ws' ps') -> posum f ws (map g ps) = posum f ws' (map g ps').
Proof.
  intros H. unfold posum. rewrite !combine_map_r. apply fold_perm. 2: now apply Permutation_map.
  intros [b|] [w x] [w' x']; simpl; auto. destruct (f x), (f x'); simpl; auto. f_equal. ring.
Qed.

(* powers *)
Lemma Rpower_up m x e : 0 < m -> m <= x -> 0 < e -> Rpower m e <= Rpower x e.
Proof. intros. apply Rle_Rpower_l; lra. Qed.
Lemma Rpower_down m x e : 0 < m -> m <= x -> e < 0 -> Rpower x e <= Rpower m e.
Proof. intros Hm Hx He. replace e with (- - e) by ring. rewrite !(Rpower_Ropp _ (- e)). apply Rinv_le_contravar. apply exp_pos. apply Rle_Rpower_l; lra. Qed.
Lemma Rpower_inv x e : 0 < x -> e <> 0 -> Rpower (Rpower x e) (1 / e) = x.
Proof. intros Hx He. rewrite Rpower_mult. replace (e * (1 / e)) with 1 by (field; auto). now apply Rpower_1. Qed.
Lemma power_mean ws xs m M e : List.length xs = List.length ws -> is_fractions ws -> 0 < m -> between m M xs -> e <> 0 -> xs <> [] ->
  0 < weighted ws (map (fun x => Rpower x e) xs) /\ m <= Rpower (weighted ws (map (fun x => Rpower x e) xs)) (1 / e) <= M.
Proof.
  intros L Hw Hm Hb He Hne. assert (L' : List.length (map (fun x => Rpower x e) xs) = List.length ws) by now rewrite map_length.
  assert (HM : m <= M). { destruct xs; try congruence. inversion Hb; lra. }
  assert (Hlo : 0 < weighted ws (map (fun x => Rpower x e) xs)). { apply weighted_pos; auto. rewrite Forall_map. apply Forall_forall. intros. apply exp_pos. }
  split; auto. destruct (Rtotal_order e 0) as [Hn|[Hz|Hp]]; try lra.
  - assert (B : between (Rpower M e) (Rpower m e) (map (fun x => Rpower x e) xs)). { unfold between in *. rewrite Forall_map. eapply Forall_impl; [|exact Hb]. intros x Hx. simpl in Hx. split; apply Rpower_down; lra. }
    pose proof (weighted_between1 ws _ _ _ L' Hw B) as [B1 B2]. assert (1 / e < 0). { unfold Rdiv. rewrite Rmult_1_l. now apply Rinv_lt_0_compat. }
    split. rewrite <- (Rpower_inv m e) at 1 by lra. apply Rpower_down; auto. rewrite <- (Rpower_inv M e) by lra. apply Rpower_down; auto. apply exp_pos.
  - assert (B : between (Rpower m e) (Rpower M e) (map (fun x => Rpower x e) xs)). { unfold between in *. rewrite Forall_map. eapply Forall_impl; [|exact Hb]. intros x Hx. simpl in Hx. split; apply Rpower_up; lra. }
    pose proof (weighted_between1 ws _ _ _ L' Hw B) as [B1 B2]. assert (0 < 1 / e). { unfold Rdiv. rewrite Rmult_1_l. now apply Rinv_0_lt_compat. }
    split. rewrite <- (Rpower_inv m e) at 1 by lra. apply Rpower_up; auto. apply exp_pos. rewrite <- (Rpower_inv M e) by lra. apply Rpower_up; auto.
Qed.
Lemma log_mean ws xs m M : List.length xs = List.length ws -> is_fractions ws -> 0 < m -> between m M xs -> xs <> [] ->
  m <= exp (weighted ws (map ln xs)) <= M.
Proof.
  intros L Hw Hm Hb Hne. assert (HM : m <= M). { destruct xs; try congruence. inversion Hb; lra. }
  assert (B : between (ln m) (ln M) (map ln xs)). { unfold between in *. rewrite Forall_map. eapply Forall_impl; [|exact Hb]. intros x Hx. simpl in Hx. split; apply ln_le; lra. }
  pose proof (weighted_between1 ws _ _ (map ln xs) ltac:(now rewrite map_length) Hw B) as [B1 B2].
  assert (E : forall a b, a <= b -> exp a <= exp b) by (intros a b [H|H]; [left; now apply exp_increasing | right; now rewrite H]).
  apply E in B1, B2. rewrite exp_ln in B1, B2 by lra. lra.
Qed.
