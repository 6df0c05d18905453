(* C52, any number of phases: sequential_substitution_NP. *)
From Coq Require Import Reals Lra Lia List Bool Arith FunctionalExtensionality.
From Verif Require Import Base BaseFacts Model_ss Spec_split SsFacts Prop_C52.
Import ListNotations.
Open Scope R_scope.

(* a split of z into phases with the given fractions and compositions *)
Definition phases_balance (N : nat) (z : comp) (betas : list R) (comps : list comp) : Prop :=
  fold_right Rplus 0 betas = 1 /\
  forall i, (i < N)%nat -> z i = fold_right Rplus 0 (map (fun p => fst p * snd p i) (combine betas comps)).
(* the multiphase Rachford-Rice problem: Ks are the ratios to the reference phase, which comes last in the answer *)
Definition Rachford_Rice_N (N : nat) (z : comp) (Ks : list comp) (betas : list R) (comps : list comp) : Prop :=
  length betas = S (length Ks) /\ length comps = S (length Ks) /\ phases_balance N z betas comps /\
  (forall p i, (p < length Ks)%nat -> (i < N)%nat -> nth p comps (fun _ => 0) i = nth p Ks (fun _ => 0) i * last comps (fun _ => 0) i) /\
  (forall c, In c comps -> rsum N c = 1).
Definition solves_N (N : nat) (rr : comp -> list comp -> list R -> option (list R * list comp)) : Prop :=
  forall z Ks guess betas comps, rr z Ks guess = Some (betas, comps) -> Rachford_Rice_N N z Ks betas comps.

Lemma others_split n k : (k < n)%nat -> others n k = seq 0 k ++ seq (S k) (n - 1 - k).
Proof.
  intro H. unfold others. replace n with (k + (1 + (n - 1 - k)))%nat at 1 by lia. rewrite seq_app, filter_app. f_equal.
  - assert (A : forall l, (forall i, In i l -> i <> k) -> filter (fun i => negb (Nat.eqb i k)) l = l).
    { induction l; intros Q; [auto|]. cbn. destruct (Nat.eqb_spec a k); [exfalso; apply (Q a); [left; auto|auto]|]. cbn. f_equal. apply IHl. intros; apply Q; right; auto. }
    apply A. intros i I. apply in_seq in I. lia.
  - cbn [seq plus filter]. rewrite Nat.eqb_refl. cbn [negb].
    assert (A : forall l, (forall i, In i l -> i <> k) -> filter (fun i => negb (Nat.eqb i k)) l = l).
    { induction l; intros Q; [auto|]. cbn. destruct (Nat.eqb_spec a k); [exfalso; apply (Q a); [left; auto|auto]|]. cbn. f_equal. apply IHl. intros; apply Q; right; auto. }
    apply A. intros i I. apply in_seq in I. lia.
Qed.
Lemma others_length n k : (k < n)%nat -> length (others n k) = (n - 1)%nat.
Proof. intro. rewrite others_split by auto. rewrite app_length, !seq_length. lia. Qed.
Lemma others_in n k i : In i (others n k) <-> (i < n)%nat /\ i <> k.
Proof. unfold others. rewrite filter_In, in_seq. destruct (Nat.eqb_spec i k); cbn; split; intros; intuition; try lia; discriminate. Qed.

Lemma move_last_length {A} k (d : A) l : l <> [] -> length (move_last k d l) = length l.
Proof.
  intro H. unfold move_last. rewrite app_length. cbn [length]. rewrite Nat.add_succ_r, <- app_length, firstn_skipn.
  rewrite (app_removelast_last d H) at 2. rewrite app_length. cbn. lia.
Qed.
Lemma removelast_length {A} (l : list A) : l <> [] -> S (length (removelast l)) = length l.
Proof. destruct l as [|a l]; [contradiction|]. intro H. rewrite (app_removelast_last a H) at 2. rewrite app_length. cbn. lia. Qed.
Lemma move_last_ref {A} k (d : A) l : (k < length l)%nat -> nth k (move_last k d l) d = last l d.
Proof.
  intro H. assert (l <> []) by (destruct l; [cbn in H; lia|discriminate]). pose proof (removelast_length l H0).
  unfold move_last. rewrite app_nth2; rewrite firstn_length_le by lia; [|lia]. rewrite Nat.sub_diag. reflexivity.
Qed.
Lemma move_last_other {A} k (d : A) l i : (k < length l)%nat -> i <> k ->
  nth i (move_last k d l) d = nth (if Nat.ltb i k then i else i - 1)%nat (removelast l) d.
Proof.
  intros H D. assert (N0 : l <> []) by (destruct l; [cbn in H; lia|discriminate]). pose proof (removelast_length l N0).
  unfold move_last. destruct (Nat.ltb_spec i k).
  - rewrite app_nth1 by (rewrite firstn_length_le; lia). 
    transitivity (nth i (firstn k (removelast l) ++ skipn k (removelast l)) d); [|rewrite firstn_skipn; auto].
    symmetry. apply app_nth1. rewrite firstn_length_le; lia.
  - rewrite app_nth2 by (rewrite firstn_length_le; lia). rewrite firstn_length_le by lia.
    replace (i - k)%nat with (S (i - 1 - k)) by lia. cbn [nth].
    transitivity (nth (i - 1) (firstn k (removelast l) ++ skipn k (removelast l)) d); [|rewrite firstn_skipn; auto].
    rewrite app_nth2 by (rewrite firstn_length_le; lia). rewrite firstn_length_le by lia. reflexivity.
Qed.
Lemma map_nth_seq {A} (d : A) l : map (fun i => nth i l d) (seq 0 (length l)) = l.
Proof.
  induction l as [|a l IH]; [auto|]. cbn [length seq map nth]. f_equal. rewrite <- seq_shift, map_map. exact IH.
Qed.
Lemma move_last_others {A} k (d : A) l : (k < length l)%nat -> map (fun i => nth i (move_last k d l) d) (others (length l) k) = removelast l.
Proof.
  intro H. assert (N0 : l <> []) by (destruct l; [cbn in H; lia|discriminate]). pose proof (removelast_length l N0) as RL.
  rewrite others_split by auto. rewrite map_app.
  rewrite <- (map_nth_seq d (removelast l)) at 1. replace (length (removelast l)) with (k + (length l - 1 - k))%nat by lia. rewrite seq_app, map_app. f_equal.
  - apply map_ext_in. intros i I. apply in_seq in I. rewrite move_last_other by lia. destruct (Nat.ltb_spec i k); [auto|lia].
  - cbn [plus]. rewrite <- seq_shift, map_map. apply map_ext_in. intros i I. apply in_seq in I. rewrite move_last_other by lia.
    destruct (Nat.ltb_spec (S i) k); [lia|]. f_equal. lia.
Qed.
(* moving the last entry keeps every sum *)
Lemma sum_app l m : fold_right Rplus 0 (l ++ m) = fold_right Rplus 0 l + fold_right Rplus 0 m.
Proof. induction l; cbn; [ring|]. rewrite IHl. ring. Qed.
Lemma move_last_map {A B} (f : A -> B) k d l : l <> [] -> map f (move_last k d l) = move_last k (f d) (map f l).
Proof.
  intro H. unfold move_last. rewrite map_app. cbn [map].
  assert (R : removelast (map f l) = map f (removelast l)) by (clear; induction l as [|a [|b l] IH]; auto; cbn [map removelast] in *; f_equal; exact IH).
  assert (L : last (map f l) (f d) = f (last l d)) by (clear; induction l as [|a [|b l] IH]; auto).
  rewrite R, L, firstn_map, skipn_map. reflexivity.
Qed.
Lemma move_last_sum k l : l <> [] -> fold_right Rplus 0 (move_last k 0 l) = fold_right Rplus 0 l.
Proof.
  intro H. rewrite (app_removelast_last 0 H) at 2. unfold move_last. rewrite !sum_app. cbn [fold_right].
  rewrite <- (firstn_skipn k (removelast l)) at 3. rewrite sum_app. ring.
Qed.
Lemma combine_move_last {A B} k (da : A) (db : B) l m : length l = length m -> l <> [] ->
  combine (move_last k da l) (move_last k db m) = move_last k (da, db) (combine l m).
Proof.
  intros H N0. assert (N1 : m <> []) by (destruct m; [destruct l; [contradiction|discriminate]|discriminate]).
  unfold move_last.
  assert (R : removelast (combine l m) = combine (removelast l) (removelast m)).
  { clear N0 N1. revert m H. induction l as [|a l IH]; intros [|b m] H; try discriminate; auto. injection H; intro H'.
    destruct l as [|a' l]; destruct m as [|b' m]; try discriminate; auto. specialize (IH (b' :: m) H').
    change (removelast (combine (a :: a' :: l) (b :: b' :: m))) with ((a, b) :: removelast (combine (a' :: l) (b' :: m))).
    change (removelast (a :: a' :: l)) with (a :: removelast (a' :: l)). change (removelast (b :: b' :: m)) with (b :: removelast (b' :: m)). cbn [combine]. f_equal. exact IH. }
  assert (L : last (combine l m) (da, db) = (last l da, last m db)).
  { clear R N0 N1. revert m H. induction l as [|a l IH]; intros [|b m] H; try discriminate; auto. injection H; intro H'.
    destruct l as [|a' l]; destruct m as [|b' m]; try discriminate; auto. exact (IH (b' :: m) H'). }
  rewrite R, L.
  assert (LL : length (removelast l) = length (removelast m)) by (pose proof (removelast_length l N0); pose proof (removelast_length m N1); lia).
  revert LL. generalize (removelast l) (removelast m). intros a b. revert k b. clear.
  induction a as [|x a IH]; intros k [|y b] LL; try discriminate.
  - destruct k; reflexivity.
  - destruct k; [reflexivity|]. cbn [firstn skipn combine app]. f_equal. apply IH. injection LL; auto.
Qed.

(* the residual of the loop is the sum of the squared mismatches with the reference phase *)
Lemma np_err_acc N Ks comps cr e : np_err N Ks comps cr e = e + np_err N Ks comps cr 0.
Proof.
  revert comps e. induction Ks as [|K Ks IH]; intros [|c comps] e; cbn [np_err]; try ring.
  rewrite IH. rewrite (IH _ (loop N _ 0)).
  assert (A : forall e, loop N (fun i e => if Reqb (c i) 0 then e else let err_i := K i * cr i / c i - 1 in e + err_i * err_i) e =
    e + rsum N (fun i => if Req_EM_T (c i) 0 then 0 else (K i * cr i / c i - 1) * (K i * cr i / c i - 1))).
  { intro e'. rewrite <- loop_rsum. apply loop_ext. intros i s _. unfold Reqb. destruct (Req_EM_T (c i) 0); [ring|reflexivity]. }
  rewrite !A. ring.
Qed.
Lemma np_err_nonneg N Ks comps cr : 0 <= np_err N Ks comps cr 0.
Proof.
  revert comps. induction Ks as [|K Ks IH]; intros [|c comps]; cbn [np_err]; try lra. rewrite np_err_acc.
  assert (A : 0 <= loop N (fun i e => if Reqb (c i) 0 then e else let err_i := K i * cr i / c i - 1 in e + err_i * err_i) 0).
  { apply (loop_inv (fun _ s => 0 <= s)); [lra|]. intros i s _ Hs. destruct (Reqb (c i) 0); [auto|]. cbv zeta. pose proof (Rle_0_sqr (K i * cr i / c i - 1)) as Q. unfold Rsqr in Q. lra. }
  specialize (IH comps). lra.
Qed.
Lemma np_err_ge N Ks comps cr p : (p < length Ks)%nat -> (p < length comps)%nat -> ss_err N (nth p Ks no_comp) cr (nth p comps no_comp) <= np_err N Ks comps cr 0.
Proof.
  revert comps p. induction Ks as [|K Ks IH]; intros [|c comps] p H1 H2; cbn in H1, H2; try lia. cbn [np_err]. rewrite np_err_acc.
  fold (ss_err N K cr c). destruct p as [|p]; cbn [nth].
  - pose proof (np_err_nonneg N Ks comps cr). lra.
  - specialize (IH comps p ltac:(lia) ltac:(lia)).
    assert (0 <= ss_err N K cr c). { unfold ss_err. apply (loop_inv (fun _ s => 0 <= s)); [lra|]. intros i s _ Hs. destruct (Reqb (c i) 0); [auto|]. cbv zeta. pose proof (Rle_0_sqr (K i * cr i / c i - 1)) as Q. unfold Rsqr in Q. lra. }
    lra.
Qed.

Section Loop.
Variable N : nat.
Variable rr : vec -> list vec -> list R -> option (list R * list vec).
Variables (T P : R) (zs : vec) (phases : list sphase) (ref : nat) (tol : R).
Hypothesis Sol : solves_N N rr.
Hypothesis Ref : (ref < length phases)%nat.
Hypothesis At : forall p, In p phases -> s_T p = T /\ s_P p = P.
Let n := length phases.
Let lnphi (p : nat) := s_lnphis (nth p phases no_phase) T P.

Definition np_good (betas : list R) (comps : list vec) (ph : list sphase) (k : nat) (err : R) : Prop :=
  length betas = n /\ length comps = n /\ length ph = n /\ err < tol /\ phases_balance N zs betas comps /\ (forall c, In c comps -> rsum N c = 1) /\
  (forall p, (p < n)%nat -> s_T (nth p ph no_phase) = T /\ s_P (nth p ph no_phase) = P /\ s_lnphis (nth p ph no_phase) = s_lnphis (nth p phases no_phase)) /\
  (forall p i, (p < n)%nat -> p <> ref -> (i < N)%nat -> s_zs (nth p ph no_phase) i <> 0 ->
     Rabs (fugacity_mismatch (lnphi ref) (lnphi p) (s_zs (nth ref ph no_phase)) (s_zs (nth p ph no_phase)) i) < sqrt tol) /\
  ((1 <= k)%nat -> forall p, (p < n)%nat -> rsum N (s_zs (nth p ph no_phase)) = 1).

Lemma nth_at p : (p < n)%nat -> lnphis_at_zs (nth p phases no_phase) = lnphi p.
Proof. intro H. unfold lnphis_at_zs, lnphi. destruct (At (nth p phases no_phase)) as [-> ->]; [apply nth_In; auto|reflexivity]. Qed.

Lemma np_loop_good fuel : forall it betas comps bo co ph k err, length comps = n -> ((1 <= it)%nat -> forall c, In c comps -> rsum N c = 1) ->
  ss_NP_loop N rr fuel it T P zs phases ref tol betas comps (map (fun i => nth i comps no_comp) (others n ref)) (nth ref comps no_comp) = NReturns bo co ph k err ->
  (it <= k < it + fuel)%nat /\ np_good bo co ph k err.
Proof.
  induction fuel as [|fuel IH]; intros it betas comps bo co ph k err Lc Sc H; [discriminate|]. cbn [ss_NP_loop] in H. fold n in H.
  match type of H with context [rr zs ?K _] => set (Ks := K) in * end.
  assert (KE : Ks = map (fun p => K_values (lnphi ref) (lnphi p) (nth ref comps no_comp) (nth p comps no_comp)) (others n ref)).
  { unfold Ks. apply map_ext_in. intros p Ip. apply others_in in Ip. cbv zeta.
    assert (G : forall q, (q < n)%nat -> nth q (map (fun i0 => lnphis_at_zs (nth i0 phases no_phase) (nth i0 comps no_comp)) (seq 0 n)) no_comp = lnphi q (nth q comps no_comp)).
    { intros q Hq. rewrite (nth_indep _ no_comp (lnphis_at_zs (nth 0 phases no_phase) (nth 0 comps no_comp))) by (rewrite map_length, seq_length; auto).
      rewrite (map_nth (fun i0 => lnphis_at_zs (nth i0 phases no_phase) (nth i0 comps no_comp)) (seq 0 n) 0%nat q). rewrite seq_nth by auto. cbn [plus]. rewrite nth_at by auto. reflexivity. }
    rewrite !G by (auto; apply Ip). reflexivity. }
  clearbody Ks. subst Ks.
  destruct (rr zs _ _) as [[br cr]|] eqn:I; [|discriminate]. destruct (Sol _ _ _ _ _ I) as [L1 [L2 [Bal [RK RS]]]]. rewrite map_length, others_length in L1, L2 by auto.
  assert (Refn : (ref < n)%nat) by exact Ref. clearbody n.  assert (L1' : length br = n) by lia. assert (L2' : length cr = n) by (transitivity (S (n - 1)); [exact L2|lia]). assert (n <> 0%nat) by lia.
  assert (Nb : br <> []) by (destruct br; [cbn in L1'; lia|discriminate]). assert (Nc : cr <> []) by (destruct cr; [cbn in L2'; lia|discriminate]).
  assert (InM : forall c, In c (move_last ref no_comp cr) -> In c cr).
  { intros c Hc. unfold move_last in Hc. rewrite (app_removelast_last no_comp Nc). apply in_or_app. apply in_app_or in Hc. destruct Hc as [Hc|[Hc|Hc]].
    - left. rewrite <- (firstn_skipn ref (removelast cr)). apply in_or_app. auto.
    - right. left. auto.
    - left. rewrite <- (firstn_skipn ref (removelast cr)). apply in_or_app. auto. }
  match type of H with (if Rltb ?e tol then _ else _) = _ => set (er := e) in * end.
  destruct (Rltb_spec er tol) as [E|E].
  - injection H; intros; subst. clear H. split; [lia|]. unfold np_good. cbv zeta.
    assert (NTH : forall p, (p < n)%nat -> nth p (map (fun i => to_TP_zs (nth i phases no_phase) T P (nth i comps no_comp)) (seq 0 n)) no_phase = to_TP_zs (nth p phases no_phase) T P (nth p comps no_comp)).
    { intros q Hq. rewrite (nth_indep _ no_phase (to_TP_zs (nth 0 phases no_phase) T P (nth 0 comps no_comp))) by (rewrite map_length, seq_length; auto).
      rewrite (map_nth (fun i => to_TP_zs (nth i phases no_phase) T P (nth i comps no_comp)) (seq 0 n) 0%nat q). rewrite seq_nth by auto. reflexivity. }
    splits; auto.
    + rewrite move_last_length; auto.
    + rewrite move_last_length; auto.
    + rewrite map_length, seq_length. auto.
    + destruct Bal as [B1 B2]. split; [rewrite move_last_sum; auto|]. intros i Hi. rewrite (B2 i Hi).
      rewrite combine_move_last by (auto; lia). 
      assert (Ncm : combine br cr <> []) by (destruct br; [contradiction|]; destruct cr; [contradiction|]; discriminate).
      rewrite move_last_map by auto. cbn [fst snd]. rewrite Rmult_0_l. rewrite move_last_sum; [auto|]. intro Q. apply map_eq_nil in Q. contradiction.
    + intros p Hp. rewrite NTH by auto. cbn. auto.
    + intros p i Hp D Hi. rewrite !NTH by auto. cbn [to_TP_zs s_zs]. intro Z. apply (squared_mismatch_bound N); auto.
      apply Rle_lt_trans with er; [|auto]. rewrite <- ss_err_spec. unfold er.
      assert (Pi : In p (others n ref)) by (apply others_in; auto). apply (In_nth _ _ 0%nat) in Pi. destruct Pi as [q [Q1 Q2]].
      pose proof (np_err_ge N (map (fun p => K_values (lnphi ref) (lnphi p) (nth ref comps no_comp) (nth p comps no_comp)) (others n ref))
        (map (fun i => nth i comps no_comp) (others n ref)) (nth ref comps no_comp) q) as G. rewrite !map_length in G. specialize (G Q1 Q1).
      rewrite (nth_indep (map (fun p => K_values _ _ _ _) _) no_comp (K_values (lnphi ref) (lnphi 0%nat) (nth ref comps no_comp) (nth 0%nat comps no_comp))) in G by (rewrite map_length; auto).
      rewrite (map_nth (fun p => K_values (lnphi ref) (lnphi p) (nth ref comps no_comp) (nth p comps no_comp)) _ 0%nat q) in G.
      rewrite (nth_indep (map (fun i => nth i comps no_comp) _) no_comp (nth 0%nat comps no_comp)) in G by (rewrite map_length; auto).
      rewrite (map_nth (fun i => nth i comps no_comp) _ 0%nat q) in G. rewrite Q2 in G. exact G.
    + intros K1 p Hp. rewrite NTH by auto. cbn [to_TP_zs s_zs]. apply Sc; auto. apply nth_In. lia.
  - clear er E.
    rewrite <- (move_last_others ref no_comp cr) in H by lia. rewrite <- (move_last_ref ref no_comp cr) in H by lia. rewrite L2' in H.
    apply IH in H; [|rewrite move_last_length; auto|intros _ c Hc; apply RS, InM, Hc]. destruct H as [A B]. split; [lia|auto].
Qed.
End Loop.

(* ---- what is returned ---- *)
(* The fractions and the compositions solve the material balance; the phases have fugacities within the tolerance of each other, each
   at T and P with the model of the phase given. All three lists have one entry per phase. *)
Theorem C52_phases_returned : forall N rr T P z comps betas phases maxiter tol ref bo co ph k err cb cp, solves_N N rr ->
  (ref < length phases)%nat -> length comps = length phases ->
  sequential_substitution_NP N rr T P z comps betas phases maxiter tol ref = (NReturns bo co ph k err, cb, cp) ->
  let n := length phases in let model := fun p => s_lnphis (nth p phases no_phase) T P in let zs_of := fun p => s_zs (nth p ph no_phase) in
  (k < maxiter)%nat /\ err < tol /\ length bo = n /\ length co = n /\ length ph = n /\
  phases_balance N z bo co /\ (forall c, In c co -> rsum N c = 1) /\
  (forall p, (p < n)%nat -> s_T (nth p ph no_phase) = T /\ s_P (nth p ph no_phase) = P /\ s_lnphis (nth p ph no_phase) = s_lnphis (nth p phases no_phase)) /\
  (forall p i, (p < n)%nat -> p <> ref -> (i < N)%nat -> zs_of p i <> 0 -> Rabs (fugacity_mismatch (model ref) (model p) (zs_of ref) (zs_of p) i) < sqrt tol) /\
  ((1 <= k)%nat -> forall p, (p < n)%nat -> rsum N (zs_of p) = 1).
Proof.
  intros N rr T P z comps betas phases maxiter tol ref bo co ph k err cb cp Sol Ref Lc H. cbv zeta. unfold sequential_substitution_NP in H. injection H; intros _ _ H'. clear H.
  assert (ML : length (move_phases T P phases) = length phases) by (unfold move_phases; apply map_length).
  assert (MN : forall p, (p < length phases)%nat -> s_lnphis (nth p (move_phases T P phases) no_phase) = s_lnphis (nth p phases no_phase)).
  { intros p Hp. unfold move_phases. rewrite (nth_indep _ no_phase (at_TP no_phase T P (s_zs no_phase))) by (rewrite map_length; auto).
    rewrite (map_nth (fun p => at_TP p T P (s_zs p))). unfold at_TP. destruct (_ || _)%bool; reflexivity. }
  rewrite <- ML in H'. destruct (np_loop_good N rr T P z (move_phases T P phases) ref tol Sol) with (fuel := maxiter) (it := 0%nat) (betas := complete_betas betas phases) (comps := comps) (bo := bo) (co := co) (ph := ph) (k := k) (err := err) as [A B].
  - lia.
  - intros p Hp. unfold move_phases in Hp. apply in_map_iff in Hp. destruct Hp as [q [<- _]]. unfold at_TP, Reqb.
    destruct (Req_EM_T (s_T q) T) as [E1|]; [|cbn; auto]. destruct (Req_EM_T (s_P q) P) as [E2|]; cbn; auto.
  - rewrite ML. exact Lc.
  - intros; lia.
  - exact H'.
  - unfold np_good in B. rewrite ML in B. destruct B as [B1 [B2 [B3 [B4 [B5 [B6 [B7 [B8 B9]]]]]]]]. splits; auto; try lia.
    + intros p Hp. destruct (B7 p Hp) as [C1 [C2 C3]]. rewrite MN in C3 by auto. auto.
    + intros p i Hp D Hi Z. specialize (B8 p i Hp D Hi Z). rewrite !MN in B8 by auto. exact B8.
Qed.

(* the caller's own lists: every phase in it is replaced by one at T and P (same model and composition), whatever the outcome, and a
   list of fractions with one entry missing gets it *)
Theorem C52_callers_lists : forall N rr T P z comps betas phases maxiter tol ref,
  let '(_, cb, cp) := sequential_substitution_NP N rr T P z comps betas phases maxiter tol ref in
  length cp = length phases /\
  (forall p, (p < length phases)%nat -> s_T (nth p cp no_phase) = T /\ s_P (nth p cp no_phase) = P /\
     s_zs (nth p cp no_phase) = s_zs (nth p phases no_phase) /\ s_lnphis (nth p cp no_phase) = s_lnphis (nth p phases no_phase)) /\
  (length betas = length phases -> cb = betas) /\
  (S (length betas) = length phases -> length cb = length phases /\ fold_right Rplus 0 cb = 1).
Proof.
  intros. unfold sequential_substitution_NP. splits.
  - unfold move_phases. apply map_length.
  - intros p Hp. unfold move_phases. rewrite (nth_indep _ no_phase (at_TP no_phase T P (s_zs no_phase))) by (rewrite map_length; auto).
    rewrite (map_nth (fun p => at_TP p T P (s_zs p))). unfold at_TP, Reqb.
    destruct (Req_EM_T (s_T (nth p phases no_phase)) T) as [E1|]; [|cbn; auto]. destruct (Req_EM_T (s_P (nth p phases no_phase)) P) as [E2|]; cbn; auto.
  - intro H. unfold complete_betas. destruct (Nat.ltb_spec (length betas) (length phases)); [lia|auto].
  - intro H. unfold complete_betas. destruct (Nat.ltb_spec (length betas) (length phases)); [|lia]. split; [rewrite app_length; cbn; lia|].
    rewrite sum_app. cbn. assert (A : forall l a, fold_left Rplus l a = a + fold_right Rplus 0 l) by (induction l; intros; cbn; [ring|rewrite IHl; ring]). rewrite A. ring.
Qed.
(* so flashing with the phases of an earlier result as the start leaves that result with phases at the new temperature *)
Theorem C52_earlier_result_changed_refuted : exists N rr T P z comps betas phases maxiter tol ref p,
  (p < length phases)%nat /\ s_T (nth p phases no_phase) <> T /\
  let '(_, _, cp) := sequential_substitution_NP N rr T P z comps betas phases maxiter tol ref in s_T (nth p cp no_phase) <> s_T (nth p phases no_phase).
Proof.
  exists 2%nat, (fun _ _ _ => None), 350, 101325, half, [half; half; half], [/ 3; / 3; / 3], [ideal_liquid; ideal_liquid; ideal_gas], 1000%nat, 1, 2%nat, 0%nat.
  split; [cbn; lia|]. split; [cbn; lra|]. unfold sequential_substitution_NP. cbn. unfold at_TP, Reqb. cbn. destruct (Req_EM_T 300 350); [lra|]. cbn. lra.
Qed.

(* ---- the phases returned are those of the iteration before the fractions returned ---- *)
Definition q4 (a b c d : R) : comp := fun i => match i with 0%nat => a | 1%nat => b | 2%nat => c | _ => d end.
Definition const_phase (k : comp) : sphase := {| s_T := 300; s_P := 101325; s_zs := half; s_lnphis := fun _ _ _ i => - ln (k i) |}.
Definition KA := q4 (/ 2) (3 / 2) (3 / 2) (/ 2).
Definition KB := q4 (3 / 2) (3 / 2) (/ 2) (/ 2).
Definition feedN := q4 (3 / 8) (/ 6) (3 / 8) (/ 12).
Definition guessesN := [q4 (/ 8) (3 / 8) (3 / 8) (/ 8); q4 (3 / 8) (3 / 8) (/ 8) (/ 8); q4 (/ 4) (/ 4) (/ 4) (/ 4)].
Definition phasesN := [const_phase KA; const_phase KB; const_phase (fun _ => 1)].
Lemma const_K k x y : (forall i, 0 < k i) -> K_values (lnphis_at_zs (const_phase (fun _ => 1))) (lnphis_at_zs (const_phase k)) x y = k.
Proof.
  intro H. apply functional_extensionality. intro i. unfold K_values, lnphis_at_zs, const_phase. cbn. rewrite ln_1. replace (- 0 - - ln (k i)) with (ln (k i)) by ring. apply exp_ln. auto.
Qed.
Theorem C52_phases_not_those_of_the_fractions_refuted : forall rr betas maxiter tol, solves_N 4 rr -> length betas = 3%nat -> 0 < tol -> (1 <= maxiter)%nat ->
  rr feedN [KA; KB] [nth 0 betas 0; nth 1 betas 0] <> None ->
  exists bo co ph k err cb cp, sequential_substitution_NP 4 rr 300 101325 feedN guessesN betas phasesN maxiter tol 2 = (NReturns bo co ph k err, cb, cp) /\
    ~ phases_balance 4 feedN bo (map s_zs ph).
Proof.
  intros rr betas maxiter tol Sol Lb Tp M In. destruct maxiter as [|maxiter]; [lia|]. unfold sequential_substitution_NP.
  assert (CB : complete_betas betas phasesN = betas) by (unfold complete_betas; rewrite Lb; reflexivity). rewrite CB.
  assert (MP : move_phases 300 101325 phasesN = phasesN).
  { unfold move_phases, phasesN, at_TP, const_phase, Reqb. cbn. destruct (Req_EM_T 300 300); [|lra]. destruct (Req_EM_T 101325 101325); [|lra]. reflexivity. }
  rewrite MP. cbn [ss_NP_loop]. 
  assert (PA : forall i, 0 < KA i) by (intros [|[|[|i]]]; cbn; lra). assert (PB : forall i, 0 < KB i) by (intros [|[|[|i]]]; cbn; lra).
  match goal with |- context [rr feedN ?Ks ?b] => set (K := Ks); set (bg := b) end.
  assert (KE : K = [KA; KB]).
  { unfold K. change (others (length phasesN) 2) with [0%nat; 1%nat]. cbn [map length phasesN seq nth].
    f_equal; [|f_equal].
    - exact (const_K KA (nth 2 guessesN no_comp) (nth 0 guessesN no_comp) PA).
    - exact (const_K KB (nth 2 guessesN no_comp) (nth 1 guessesN no_comp) PB). }
  assert (BE : bg = [nth 0 betas 0; nth 1 betas 0]) by reflexivity. clearbody K bg. subst K bg.
  destruct (rr feedN _ _) as [[br cr]|] eqn:I; [|congruence]. destruct (Sol _ _ _ _ _ I) as [L1 [L2 [[B1 B2] _]]].
  change (others (length phasesN) 2) with [0%nat; 1%nat]. cbn [map].
  assert (ER : np_err 4 [KA; KB] [nth 0 guessesN no_comp; nth 1 guessesN no_comp] (nth 2 guessesN no_comp) 0 = 0).
  { cbn [np_err guessesN nth loop]. unfold Reqb. cbn [q4 KA KB]. destruct (Req_EM_T (/ 8) 0); [lra|]. destruct (Req_EM_T (3 / 8) 0); [lra|]. field. }
  match goal with |- context [np_err 4 ?a ?b ?c 0] => replace (np_err 4 a b c 0) with 0 by (symmetry; exact ER) end.
  destruct (Rltb_spec 0 tol); [|lra]. do 7 eexists. split; [reflexivity|]. 
  cbn [length phasesN seq map nth to_TP_zs s_zs guessesN]. intros [C1 C2].
  pose proof (C2 0%nat ltac:(lia)) as D0. pose proof (C2 2%nat ltac:(lia)) as D2.
  assert (Lm : length (move_last 2 0 br) = 3%nat) by (rewrite move_last_length; [exact L1|destruct br; [discriminate|discriminate]]).
  destruct (move_last 2 0 br) as [|b0 [|b1 [|b2 [|]]]]; try discriminate. cbn [combine map fold_right fst snd q4 feedN] in *. lra.
Qed.
(* a solver with an answer to it *)
Definition answerN : list R * list comp := ([/ 3; / 3; / 3], [q4 (3 / 16) (3 / 16) (9 / 16) (/ 16); q4 (9 / 16) (3 / 16) (3 / 16) (/ 16); q4 (3 / 8) (/ 8) (3 / 8) (/ 8)]).
Definition one_solver_N (N : nat) (z0 : comp) (Ks0 : list comp) (ans : list R * list comp) : comp -> list comp -> list R -> option (list R * list comp) :=
  fun z Ks _ => if (Nat.eqb (length Ks) (length Ks0) && forallb (fun i => Reqb (z i) (z0 i) && forallb (fun p => Reqb (nth p Ks no_comp i) (nth p Ks0 no_comp i)) (seq 0 (length Ks0))) (seq 0 N))%bool
    then Some ans else None.
Example C52_phases_hypotheses_met : solves_N 4 (one_solver_N 4 feedN [KA; KB] answerN) /\ one_solver_N 4 feedN [KA; KB] answerN feedN [KA; KB] [/ 3; / 3] <> None.
Proof.
  split.
  - intros z Ks gs betas comps H. unfold one_solver_N in H. destruct (_ && _)%bool eqn:F; [|discriminate]. injection H; intros; subst. apply andb_true_iff in F. destruct F as [F1 F2].
    apply Nat.eqb_eq in F1. rewrite forallb_forall in F2.
    assert (Q : forall i, (i < 4)%nat -> z i = feedN i /\ forall p, (p < 2)%nat -> nth p Ks no_comp i = nth p [KA; KB] no_comp i).
    { intros i I. specialize (F2 i). rewrite andb_true_iff, forallb_forall in F2. destruct F2 as [A B]; [apply in_seq; lia|]. split.
      - revert A. unfold Reqb. destruct (Req_EM_T (z i) (feedN i)); [auto|discriminate].
      - intros p Hp. specialize (B p). revert B. unfold Reqb. destruct (Req_EM_T (nth p Ks no_comp i) (nth p [KA; KB] no_comp i)); [auto|]. intro B. discriminate B. apply in_seq. cbn; lia. }
    unfold Rachford_Rice_N, phases_balance. rewrite F1. splits; auto.
    + cbn. field.
    + intros i I. destruct (Q i I) as [-> _]. destruct i as [|[|[|[|i]]]]; try lia; cbn; field.
    + intros p i Hp I. destruct (Q i I) as [_ Q2]. change (fun _ => 0) with no_comp. rewrite Q2 by (cbn in Hp; lia). cbn in Hp. destruct p as [|[|p]]; [| |lia]; destruct i as [|[|[|[|i]]]]; try lia; cbn; field.
    + intros c [<-|[<-|[<-|[]]]]; cbn; field.
  - unfold one_solver_N. replace (_ && _)%bool with true; [discriminate|]. symmetry. apply andb_true_iff. split; [reflexivity|]. apply forallb_forall. intros i _. apply andb_true_iff.
    split; [unfold Reqb; destruct (Req_EM_T (feedN i) (feedN i)); congruence|]. apply forallb_forall. intros p _. unfold Reqb. destruct (Req_EM_T (nth p [KA; KB] no_comp i) (nth p [KA; KB] no_comp i)); congruence.
Qed.
