(* C55: the guesses of the stability test. *)
From Coq Require Import String Reals Lra Lia List Bool Arith.
From Verif Require Import Base BaseFacts Model_stabtester.
Import ListNotations.
Open Scope R_scope.

(* ---- the specification ---- *)
(* N fractions that add to one *)
Definition fractions (N : nat) (g : list R) : Prop := length g = N /\ (forall i, (i < N)%nat -> 0 <= nth i g 0) /\ rsum N (fun i => nth i g 0) = 1.
Definition all_present (N : nat) (g : list R) : Prop := forall i, (i < N)%nat -> 0 < nth i g 0.
(* Wilson's equilibrium ratio of component i *)
Definition Wilson_ratio (s : tester) (T P : R) (i : nat) : R :=
  nth i (t_Pcs s) 0 / P * exp (537 / 100 * (1 + nth i (t_omegas s) 0) * (1 - nth i (t_Tcs s) 0 / T)).
(* a composition proportional to K^e z *)
Definition estimate (s : tester) (T P : R) (zs : list R) (e : R) (g : list R) : Prop :=
  fractions (t_N s) g /\ exists c, 0 < c /\ forall i, (i < t_N s)%nat -> nth i g 0 = c * (Rpower (Wilson_ratio s T P i) e * nth i zs 0).
(* component k, and a little of all the others *)
Definition mostly (N k : nat) (zf : R) (g : list R) : Prop :=
  length g = N /\ forall i, (i < N)%nat -> nth i g 0 = if Nat.eqb i k then 1 - zf else zf / (INR N - 1).
(* a mixture: data of every component, a feed, a trace fraction *)
Record mixture (s : tester) (T P : R) (zs : list R) (zf : R) : Prop := {
  mx_N : (2 <= t_N s)%nat; mx_T : 0 < T; mx_P : 0 < P; mx_Pc : forall i, (i < t_N s)%nat -> 0 < nth i (t_Pcs s) 0;
  mx_zs : fractions (t_N s) zs; mx_zf : 0 < zf < 1 }.
Definition count (s : tester) (random : rnd) : nat := match random with All_components => t_N s | Number n => n end.
(* what the guesses are, in order *)
Definition order (s : tester) (T P : R) (zs : list R) (zf : R) (water : option nat) (expect_liquid : bool) : list (list R -> Prop) :=
  (if expect_liquid then (match water with Some w => [mostly (t_N s) w zf] | None => [] end) ++ map (estimate s T P zs) [-1; - (1 / 3); 1 / 3; 1]
   else map (estimate s T P zs) [1; -1; 1 / 3; - (1 / 3)]) ++
  map (fun k => mostly (t_N s) k zf) (seq 0 (t_N s)).
Definition random_source (rv : list R) (u : nat -> R) : Prop := length rv = 1000%nat /\ (forall x, In x rv -> 0 < x) /\ forall n, 0 < u n.

(* ---- sums and normalisation ---- *)
Lemma lsum_app a b : lsum (a ++ b) = lsum a + lsum b.
Proof. unfold lsum. induction a as [|x a IH]; cbn; [ring|]. rewrite IH. ring. Qed.
Lemma lsum_nth l : lsum l = rsum (length l) (fun i => nth i l 0).
Proof.
  induction l as [|x l IH] using rev_ind; [reflexivity|]. rewrite lsum_app, IH, app_length, Nat.add_1_r. cbn [rsum].
  rewrite app_nth2, Nat.sub_diag by lia. cbn. rewrite Rplus_0_r. f_equal. apply rsum_ext. intros i Hi. rewrite app_nth1 by lia. auto.
Qed.
Lemma nth_map_seq (f : nat -> R) N i : (i < N)%nat -> nth i (map f (seq 0 N)) 0 = f i.
Proof. intro H. rewrite (nth_indep _ 0 (f 0%nat)) by (rewrite map_length, seq_length; lia). rewrite map_nth, seq_nth by lia. f_equal. Qed.
Lemma nth_map0 (f : R -> R) l i : (i < length l)%nat -> nth i (map f l) 0 = f (nth i l 0).
Proof. intro H. rewrite (nth_indep _ 0 (f 0)) by (rewrite map_length; lia). apply map_nth. Qed.
Lemma lsum_pos l : (forall i, (i < length l)%nat -> 0 <= nth i l 0) -> (exists i, (i < length l)%nat /\ 0 < nth i l 0) -> 0 < lsum l.
Proof.
  intros A [k [K1 K2]]. rewrite lsum_nth. apply Rlt_le_trans with (rsum (length l) (fun i => if Nat.eqb i k then nth k l 0 else 0)).
  - rewrite (rsum_single _ k); [rewrite Nat.eqb_refl; auto|auto|]. intros i _ D. destruct (Nat.eqb_spec i k); [lia|auto].
  - apply rsum_le. intros i Hi. destruct (Nat.eqb_spec i k); [subst; lra|auto].
Qed.
Lemma normalize_spec l : (forall i, (i < length l)%nat -> 0 <= nth i l 0) -> (exists i, (i < length l)%nat /\ 0 < nth i l 0) ->
  exists g, normalize l = Yield g /\ fractions (length l) g /\ forall i, (i < length l)%nat -> nth i g 0 = 1 / lsum l * nth i l 0.
Proof.
  intros A B. pose proof (lsum_pos l A B) as S. unfold normalize, Reqb. destruct (Req_EM_T (lsum l) 0); [lra|]. eexists. split; [reflexivity|].
  assert (I : 0 < 1 / lsum l) by (apply Rdiv_lt_0_compat; lra).
  assert (E : forall i, (i < length l)%nat -> nth i (map (fun x => x * (1 / lsum l)) l) 0 = 1 / lsum l * nth i l 0) by (intros i Hi; rewrite nth_map0 by auto; ring).
  split; [|auto]. unfold fractions. splits; [apply map_length| |].
  - intros i Hi. rewrite E by auto. apply Rmult_le_pos; [lra|auto].
  - rewrite (rsum_ext _ _ _ E), rsum_scal_l, <- lsum_nth. field. lra.
Qed.
Lemma set_nth_spec k v : forall l i, nth i (set_nth k v l) 0 = if Nat.eqb i k && Nat.ltb i (length l) then v else nth i l 0.
Proof.
  induction k as [|k IH]; intros [|x l] [|i]; cbn; auto.
  - destruct (Nat.eqb i k); auto.
  - rewrite IH. reflexivity.
Qed.
Lemma set_nth_length k v : forall l, length (set_nth k v l) = length l.
Proof. induction k as [|k IH]; intros [|x l]; cbn; auto. Qed.
Lemma almost_pure_spec N k zf : (2 <= N)%nat -> (k < N)%nat -> exists g, almost_pure N k zf = Yield g /\ mostly N k zf g.
Proof.
  intros HN K. assert (2 <= INR N) by (apply le_INR in HN; cbn in HN; lra). unfold almost_pure, Reqb. destruct (Req_EM_T (INR N - 1) 0); [lra|].
  destruct (Nat.ltb_spec k N); [|lia]. eexists. split; [reflexivity|]. split; [rewrite set_nth_length, repeat_length; auto|]. intros i Hi. rewrite set_nth_spec, repeat_length.
  destruct (Nat.ltb_spec i N); [|lia]. rewrite andb_true_r. destruct (Nat.eqb i k); [auto|]. rewrite (nth_indep _ 0 (zf / (INR N - 1))) by (rewrite repeat_length; auto). apply nth_repeat.
Qed.
Lemma mostly_fractions N k zf g : (2 <= N)%nat -> (k < N)%nat -> 0 < zf < 1 -> mostly N k zf g -> fractions N g /\ all_present N g.
Proof.
  intros HN K Z [L M]. assert (2 <= INR N) by (apply le_INR in HN; cbn in HN; lra).
  assert (P : 0 < zf / (INR N - 1)) by (apply Rdiv_lt_0_compat; lra).
  assert (A : all_present N g) by (intros i Hi; rewrite (M i Hi); destruct (Nat.eqb i k); lra).
  split; [|auto]. unfold fractions. splits; auto; [intros i Hi; apply Rlt_le, A, Hi|].
  rewrite (rsum_ext _ _ (fun i => zf / (INR N - 1) + (if Nat.eqb i k then 1 - zf - zf / (INR N - 1) else 0))).
  - rewrite rsum_plus, rsum_const, (rsum_single N k); auto; [rewrite Nat.eqb_refl; field; lra|]. intros i _ D. destruct (Nat.eqb_spec i k); [lia|auto].
  - intros i Hi. rewrite (M i Hi). destruct (Nat.eqb i k); lra.
Qed.

(* ---- the estimates ---- *)
Lemma ratio_pos s T P zs zf i : mixture s T P zs zf -> (i < t_N s)%nat -> 0 < Wilson_ratio s T P i.
Proof. intros [] H. unfold Wilson_ratio. apply Rmult_lt_0_compat; [apply Rdiv_lt_0_compat; auto|apply exp_pos]. Qed.
Lemma rsum_nonzero n f : rsum n f <> 0 -> exists i, (i < n)%nat /\ f i <> 0.
Proof.
  induction n as [|n IH]; cbn [rsum]; intro H; [lra|]. destruct (Req_EM_T (f n) 0) as [E|E]; [|exists n; auto].
  destruct IH as [i [I D]]; [rewrite E in H; lra|]. exists i. split; [lia|auto].
Qed.
Lemma present_one N zs : fractions N zs -> exists i, (i < N)%nat /\ 0 < nth i zs 0.
Proof. intros [L [A S]]. destruct (rsum_nonzero N (fun i => nth i zs 0)) as [i [I D]]; [lra|]. exists i. split; auto. destruct (A i I); [auto|congruence]. Qed.
Lemma est_spec s T P zs zf (f : R -> R -> R) e : mixture s T P zs zf -> (forall K z, 0 < K -> f K z = Rpower K e * z) ->
  forall Ks, (forall i, (i < t_N s)%nat -> nth i Ks 0 = Wilson_ratio s T P i) ->
  exists g, normalize (map (fun i => f (nth i Ks 0) (nth i zs 0)) (seq 0 (t_N s))) = Yield g /\ estimate s T P zs e g /\ (all_present (t_N s) zs -> all_present (t_N s) g).
Proof.
  intros MX F Ks HK. set (N := t_N s) in *. set (l := map _ _). assert (L : length l = N) by (unfold l; rewrite map_length, seq_length; auto).
  assert (E : forall i, (i < N)%nat -> nth i l 0 = Rpower (Wilson_ratio s T P i) e * nth i zs 0).
  { intros i I. unfold l. rewrite nth_map_seq by auto. rewrite (HK i I). apply F. apply (ratio_pos s T P zs zf i MX I). }
  assert (PW : forall i, 0 < Rpower (Wilson_ratio s T P i) e) by (intro; apply exp_pos).
  assert (NN : forall i, (i < length l)%nat -> 0 <= nth i l 0).
  { rewrite L. intros i I. rewrite (E i I). apply Rmult_le_pos; [apply Rlt_le, PW|]. apply MX. auto. }
  assert (EX : exists i, (i < length l)%nat /\ 0 < nth i l 0).
  { rewrite L. destruct (present_one N zs) as [i [I D]]; [apply MX|]. exists i. split; auto. rewrite (E i I). apply Rmult_lt_0_compat; auto. }
  destruct (normalize_spec l NN EX) as [g [G1 [G2 G3]]]. pose proof (lsum_pos l NN EX) as S. rewrite L in *.
  assert (C : 0 < 1 / lsum l) by (apply Rdiv_lt_0_compat; lra).
  exists g. split; [auto|]. split.
  - split; [auto|]. exists (1 / lsum l). split; auto. intros i I. rewrite (G3 i I), (E i I). auto.
  - intros A i I. rewrite (G3 i I), (E i I). apply Rmult_lt_0_compat; auto. apply Rmult_lt_0_compat; auto.
Qed.
Lemma run_yields l : run (map Yield l) = {| yielded := l; ended := None |}.
Proof. induction l as [|g l IH]; cbn; [auto|]. rewrite IH. auto. Qed.
Lemma Rpower_m1 K : 0 < K -> Rpower K (-1) = / K.
Proof. intro H. replace (-1) with (- (1)) by lra. rewrite Rpower_Ropp, Rpower_1 by auto. auto. Qed.
Lemma map_almost_pure N zf : (2 <= N)%nat -> forall l, (forall k, In k l -> (k < N)%nat) ->
  exists ps, map (fun k => almost_pure N k zf) l = map Yield ps /\ Forall2 (fun k g => mostly N k zf g) l ps.
Proof.
  intros HN. induction l as [|k l IH]; intro H; [exists []; auto|]. destruct (almost_pure_spec N k zf HN) as [g [G1 G2]]; [apply H; cbn; auto|].
  destruct IH as [ps [P1 P2]]; [intros; apply H; cbn; auto|]. exists (g :: ps). cbn. rewrite G1, P1. auto.
Qed.
(* a list of items each of which yields *)
Lemma all_yield (Q : list R -> Prop) l : (forall x, In x l -> exists g, x = Yield g /\ Q g) -> exists gs, l = map Yield gs /\ Forall Q gs.
Proof.
  induction l as [|x l IH]; intro H; [exists []; auto|]. destruct (H x (or_introl eq_refl)) as [g [G1 G2]]. destruct IH as [gs [A B]]; [intros; apply H; cbn; auto|].
  exists (g :: gs). cbn. subst. auto.
Qed.
Lemma normalize_positive l : l <> [] -> (forall x, In x l -> 0 < x) -> exists g, normalize l = Yield g /\ fractions (length l) g /\ all_present (length l) g.
Proof.
  intros NE A. assert (B : forall i, (i < length l)%nat -> 0 < nth i l 0) by (intros i I; apply A, nth_In; auto).
  assert (NN : forall i, (i < length l)%nat -> 0 <= nth i l 0) by (intros; apply Rlt_le, B; auto).
  assert (EX : exists i, (i < length l)%nat /\ 0 < nth i l 0) by (exists 0%nat; assert (0 < length l)%nat by (destruct l; [congruence|cbn; lia]); auto).
  destruct (normalize_spec l NN EX) as [g [G1 [G2 G3]]]. exists g. splits; auto.
  intros i I. rewrite (G3 i I). apply Rmult_lt_0_compat; auto. apply Rdiv_lt_0_compat; [lra|]. apply lsum_pos; auto.
Qed.
Definition likely (s : tester) (T P : R) : Prop := exists i, (i < t_N s)%nat /\ 1 / 10 ^ 100 < Wilson_ratio s T P i.
Lemma Ks_nth s T P zs zf i : mixture s T P zs zf -> (i < t_N s)%nat ->
  nth i (map (fun i => nth i (t_Pcs s) 0 * (1 / P) * exp (537 / 100 * (1 + nth i (t_omegas s) 0) * (1 - nth i (t_Tcs s) 0 * (1 / T)))) (seq 0 (t_N s))) 0 = Wilson_ratio s T P i.
Proof.
  intros [] H. rewrite nth_map_seq by auto. unfold Wilson_ratio. replace (nth i (t_Tcs s) 0 * (1 / T)) with (nth i (t_Tcs s) 0 / T) by (field; lra). f_equal. field. lra.
Qed.
Lemma existsb_none (f : R -> bool) l : (forall i, (i < length l)%nat -> f (nth i l 0) = false) -> existsb f l = false.
Proof.
  intro H. destruct (existsb f l) eqn:E; auto. apply existsb_exists in E. destruct E as [x [I F]]. apply (In_nth _ _ 0) in I. destruct I as [i [I <-]]. rewrite H in F by auto. discriminate.
Qed.
Lemma forallb_some (f : R -> bool) l i : (i < length l)%nat -> f (nth i l 0) = false -> forallb f l = false.
Proof. intros I F. destruct (forallb f l) eqn:E; auto. rewrite forallb_forall in E. rewrite E in F; [discriminate|]. apply nth_In; auto. Qed.
(* the random guesses *)
Lemma firstn_skipn_length (rv : list R) N i n : length rv = 1000%nat -> (n * N <= 1000)%nat -> (i < n)%nat -> length (firstn N (skipn (i * N) rv)) = N.
Proof. intros L A I. rewrite firstn_length, skipn_length, L. assert (i * N + N <= n * N)%nat by nia. lia. Qed.
Lemma in_skipn (rv : list R) : forall n x, In x (skipn n rv) -> In x rv.
Proof. induction rv as [|y rv IH]; intros [|n] x H; cbn in *; eauto. Qed.
Lemma in_firstn (rv : list R) : forall n x, In x (firstn n rv) -> In x rv.
Proof. induction rv as [|y rv IH]; intros [|n] x H; cbn in *; auto; [contradiction|]. destruct H; eauto. Qed.
Definition drawn (u : nat -> R) (N : nat) : list item := map (fun k => normalize (map (fun j => u (k * N + j)%nat) (seq 0 N))) (seq 0 N).
Lemma drawn_spec u N : (1 <= N)%nat -> (forall n, 0 < u n) -> exists gs, drawn u N = map Yield gs /\ length gs = N /\ Forall (fun g => fractions N g /\ all_present N g) gs.
Proof.
  intros HN U. destruct (all_yield (fun g => fractions N g /\ all_present N g) (drawn u N)) as [gs [A B]].
  - unfold drawn. intros x I. apply in_map_iff in I. destruct I as [k [<- _]]. destruct (normalize_positive (map (fun j => u (k * N + j)%nat) (seq 0 N))) as [g [G1 G2]].
    + destruct N; [lia|cbn; discriminate].
    + intros x I. apply in_map_iff in I. destruct I as [j [<- _]]. auto.
    + rewrite map_length, seq_length in G2. exists g. auto.
  - exists gs. splits; auto. assert (length (drawn u N) = N) by (unfold drawn; rewrite map_length, seq_length; auto). rewrite A, map_length in H. auto.
Qed.

(* ---- incipient_guesses ---- *)
Definition water_of (s : tester) (expect_aqueous : bool) : option nat := if expect_aqueous then t_water s else None.
Definition good (N : nat) (zs g : list R) : Prop := fractions N g /\ (all_present N zs -> all_present N g).
Lemma wilson_part s T P zs zf (el ea : bool) : mixture s T P zs zf -> likely s T P ->
  (el = true -> ea = true -> exists w, t_water s = Some w /\ (w < t_N s)%nat) ->
  forall u rv random, exists ws ps rs,
  incipient_guesses s u rv T P zs true true random zf el ea = run (map Yield (ws ++ ps) ++ rs) /\
  Forall2 (fun (Q : list R -> Prop) g => Q g) (order s T P zs zf (water_of s ea) el) (ws ++ ps) /\
  Forall (good (t_N s) zs) (ws ++ ps) /\
  rs = (if Nat.ltb 1000 (count s random * t_N s) then flat_map (fun _ => drawn u (t_N s)) (seq 0 (count s random))
        else map (fun i => normalize (firstn (t_N s) (skipn (i * t_N s) rv))) (seq 0 (count s random))) /\
  length ws = (match (if el then water_of s ea else None) with Some _ => 5 | None => 4 end)%nat /\
  Forall2 (fun k g => mostly (t_N s) k zf g) (seq 0 (t_N s)) ps.
Proof.
  intros MX LK HW u rv random. unfold incipient_guesses. cbv zeta. fold (count s random).
  set (Ks := map (fun i => nth i (t_Pcs s) 0 * (1 / P) * _) (seq 0 (t_N s))).
  assert (LKs : length Ks = t_N s) by (unfold Ks; rewrite map_length, seq_length; auto).
  assert (KN : forall i, (i < t_N s)%nat -> nth i Ks 0 = Wilson_ratio s T P i) by (intros; apply (Ks_nth s T P zs zf i MX); auto).
  destruct LK as [i0 [I0 LK]].
  assert (KP : forall i, (i < t_N s)%nat -> 0 < nth i Ks 0) by (intros i I; rewrite (KN i I); apply (ratio_pos s T P zs zf i MX I)).
  rewrite (forallb_some (fun K => Reqb K 0) Ks i0).
  2:{ rewrite LKs; auto. }
  2:{ unfold Reqb; destruct (Req_EM_T (nth i0 Ks 0) 0); auto; pose proof (KP i0 I0); lra. }
  rewrite (forallb_some (fun K => negb (Rltb (1 / 10 ^ 100) K)) Ks i0).
  2:{ rewrite LKs; auto. }
  2:{ rewrite (KN i0 I0). destruct (Rltb_spec (1 / 10 ^ 100) (Wilson_ratio s T P i0)); [auto|contradiction]. }
  rewrite (existsb_none _ Ks) by (rewrite LKs; intros i I; unfold Reqb; destruct (Req_EM_T (nth i Ks 0) 0); auto; pose proof (KP i I); lra).
  cbn [negb]. rewrite !andb_true_r.
  pose proof MX as [HN HT HP HPc HZ HZF].
  assert (N1 : Reqb (INR (t_N s) - 1) 0 = false). { unfold Reqb. destruct (Req_EM_T _ 0); auto. apply le_INR in HN. cbn in HN. lra. }
  rewrite N1.
  destruct (est_spec s T P zs zf (fun K z => K * z) 1 MX) with (Ks := Ks) as [g1 [E1 [S1 A1]]]; auto; [intros; rewrite Rpower_1; auto|].
  destruct (est_spec s T P zs zf (fun K z => z / K) (-1) MX) with (Ks := Ks) as [g2 [E2 [S2 A2]]]; auto; [intros; rewrite Rpower_m1 by auto; unfold Rdiv; ring|].
  destruct (est_spec s T P zs zf (fun K z => pw K (1 / 3) * z) (1 / 3) MX) with (Ks := Ks) as [g3 [E3 [S3 A3]]]; auto.
  { intros K z HK. unfold pw, Reqb. destruct (Req_EM_T K 0); [lra|auto]. }
  destruct (est_spec s T P zs zf (fun K z => pw K (- (1 / 3)) * z) (- (1 / 3)) MX) with (Ks := Ks) as [g4 [E4 [S4 A4]]]; auto.
  { intros K z HK. unfold pw, Reqb. destruct (Req_EM_T K 0); [lra|auto]. }
  cbv beta in E1, E2, E3, E4. rewrite E1, E2, E3, E4.
  destruct (map_almost_pure (t_N s) zf HN (seq 0 (t_N s))) as [ps [P1 P2]]; [intros k Hk; apply in_seq in Hk; lia|]. rewrite P1.
  assert (PG : Forall (good (t_N s) zs) ps).
  { clear P1. assert (Q : forall l ps, Forall2 (fun k g => mostly (t_N s) k zf g) l ps -> (forall k, In k l -> (k < t_N s)%nat) -> Forall (good (t_N s) zs) ps).
    { induction 1 as [|k g l ps' H1 H2 IH]; intro B; [constructor|]. constructor; [|apply IH; intros; apply B; cbn; auto].
      destruct (mostly_fractions (t_N s) k zf g HN (B k (or_introl eq_refl)) HZF H1). split; auto. }
    apply (Q _ _ P2). intros k Hk. apply in_seq in Hk. lia. }
  assert (PO : Forall2 (fun (Q : list R -> Prop) g => Q g) (map (fun k => mostly (t_N s) k zf) (seq 0 (t_N s))) ps).
  { clear - P2. induction P2; cbn; constructor; auto. }
  assert (GD : forall e g, estimate s T P zs e g -> (all_present (t_N s) zs -> all_present (t_N s) g) -> good (t_N s) zs g) by (intros e g [F _] A; split; auto).
  unfold order. destruct el.
  - destruct ea.
    + destruct (HW eq_refl eq_refl) as [w [W1 W2]]. cbn [water_of]. rewrite W1.
      destruct (almost_pure_spec (t_N s) w zf HN W2) as [g0 [E0 S0]]. rewrite E0.
      destruct (mostly_fractions (t_N s) w zf g0 HN W2 HZF S0) as [F0 A0].
      exists [g0; g2; g4; g3; g1], ps. eexists. split; [cbn [app map]; reflexivity|]. splits; auto.
      * cbn. repeat (constructor; [assumption|]). exact PO.
      * cbn. constructor; [split; auto|]. repeat (constructor; [eapply GD; eauto; fail|]). exact PG.
    + cbn [water_of]. exists [g2; g4; g3; g1], ps. eexists. split; [cbn [app map]; reflexivity|]. splits; auto.
      * cbn. repeat (constructor; [assumption|]). exact PO.
      * cbn. repeat (constructor; [eapply GD; eauto; fail|]). exact PG.
  - exists [g1; g2; g3; g4], ps. eexists. split; [cbn [app map]; reflexivity|]. splits; auto.
    + cbn. repeat (constructor; [assumption|]). exact PO.
    + cbn. repeat (constructor; [eapply GD; eauto; fail|]). exact PG.
Qed.
Lemma run_app l r : run (map Yield l ++ r) = {| yielded := l ++ yielded (run r); ended := ended (run r) |}.
Proof. induction l as [|g l IH]; cbn [map app run]; [destruct (run r); auto|]. rewrite IH. auto. Qed.
Lemma sampled_spec rv N n : length rv = 1000%nat -> (forall x, In x rv -> 0 < x) -> (1 <= N)%nat -> (n * N <= 1000)%nat ->
  exists rs, map (fun i => normalize (firstn N (skipn (i * N) rv))) (seq 0 n) = map Yield rs /\ length rs = n /\ Forall (fun g => fractions N g /\ all_present N g) rs.
Proof.
  intros L A HN HB. set (l := map _ _). destruct (all_yield (fun g => fractions N g /\ all_present N g) l) as [gs [B C]].
  - intros x I. apply in_map_iff in I. destruct I as [i [<- I]]. apply in_seq in I. pose proof (firstn_skipn_length rv N i n L HB ltac:(lia)) as LN.
    destruct (normalize_positive (firstn N (skipn (i * N) rv))) as [g [G1 G2]].
    + intro Q. rewrite Q in LN. cbn in LN. lia.
    + intros x Hx. apply A. eapply in_skipn, in_firstn, Hx.
    + rewrite LN in G2. exists g. auto.
  - exists gs. splits; auto. assert (Q : length l = n) by (unfold l; rewrite map_length, seq_length; auto). rewrite B, map_length in Q. auto.
Qed.
(* the guesses: the estimates and the almost pure compositions in the documented order, then the random ones; all are compositions, with
   every component in them if the feed has *)
Theorem C55_guesses : forall s u rv T P zs random zf el ea, mixture s T P zs zf -> likely s T P -> random_source rv u ->
  (el = true -> ea = true -> exists w, t_water s = Some w /\ (w < t_N s)%nat) -> (count s random * t_N s <= 1000)%nat ->
  exists first rs, incipient_guesses s u rv T P zs true true random zf el ea = {| yielded := first ++ rs; ended := None |} /\
    Forall2 (fun (Q : list R -> Prop) g => Q g) (order s T P zs zf (water_of s ea) el) first /\ length rs = count s random /\
    forall g, In g (first ++ rs) -> fractions (t_N s) g /\ (all_present (t_N s) zs -> all_present (t_N s) g).
Proof.
  intros s u rv T P zs random zf el ea MX LK [R1 [R2 R3]] HW HC.
  destruct (wilson_part s T P zs zf el ea MX LK HW u rv random) as [ws [ps [rs [E [O [G [RS _]]]]]]].
  rewrite RS in E. destruct (Nat.ltb_spec 1000 (count s random * t_N s)); [lia|].
  destruct (sampled_spec rv (t_N s) (count s random) R1 R2) as [gs [S1 [S2 S3]]]; auto; [pose proof (mx_N _ _ _ _ _ MX); lia|].
  exists (ws ++ ps), gs. rewrite E, run_app, S1, run_yields. splits; auto.
  intros g I. apply in_app_or in I. destruct I as [I|I]; [rewrite Forall_forall in G; apply G; auto|]. rewrite Forall_forall in S3. destruct (S3 g I). auto.
Qed.
(* with more than a thousand random fractions the same N guesses are repeated, count times *)
Theorem C55_random_repeated_refuted : forall s u rv T P zs random zf el ea, mixture s T P zs zf -> likely s T P -> random_source rv u ->
  (el = true -> ea = true -> exists w, t_water s = Some w /\ (w < t_N s)%nat) -> (1000 < count s random * t_N s)%nat ->
  exists first rs, length rs = t_N s /\ (forall g, In g rs -> fractions (t_N s) g) /\
    incipient_guesses s u rv T P zs true true random zf el ea = {| yielded := first ++ concat (repeat rs (count s random)); ended := None |} /\
    length first = length (order s T P zs zf (water_of s ea) el).
Proof.
  intros s u rv T P zs random zf el ea MX LK [R1 [R2 R3]] HW HC.
  destruct (wilson_part s T P zs zf el ea MX LK HW u rv random) as [ws [ps [rs [E [O [G [RS _]]]]]]].
  rewrite RS in E. destruct (Nat.ltb_spec 1000 (count s random * t_N s)); [|lia].
  destruct (drawn_spec u (t_N s)) as [gs [S1 [S2 S3]]]; auto; [pose proof (mx_N _ _ _ _ _ MX); lia|].
  exists (ws ++ ps), gs. splits; auto.
  - intros g I. rewrite Forall_forall in S3. apply S3. auto.
  - rewrite E, run_app, S1. replace (flat_map _ _) with (map Yield (concat (repeat gs (count s random)))); [rewrite run_yields; auto|].
    clear. generalize 0%nat. induction (count s random) as [|n IH]; intro k; cbn; [auto|]. rewrite map_app, (IH (S k)). auto.
  - clear - O. induction O; cbn; auto.
Qed.

(* ---- the names ---- *)
Lemma zip_seq (f : R -> R -> R) a b N : length a = N -> length b = N -> zip_with f a b = map (fun i => f (nth i a 0) (nth i b 0)) (seq 0 N).
Proof.
  intros A B. unfold zip_with. apply (nth_ext _ _ 0 0); [rewrite !map_length, combine_length, seq_length; lia|].
  intros i I. rewrite map_length, combine_length in I. rewrite nth_map_seq by lia.
  rewrite (nth_indep _ 0 (f (fst (0, 0)) (snd (0, 0)))) by (rewrite map_length, combine_length; lia).
  rewrite (map_nth (fun p => f (fst p) (snd p))), combine_nth by lia. auto.
Qed.
Lemma Ks_Wilson_eq s T P : 0 < T -> 0 < P -> Ks_Wilson s T P = map (fun i => nth i (t_Pcs s) 0 * (1 / P) * exp (537 / 100 * (1 + nth i (t_omegas s) 0) * (1 - nth i (t_Tcs s) 0 * (1 / T)))) (seq 0 (t_N s)).
Proof.
  intros HT HP. unfold Ks_Wilson, Wilson_K_value. apply map_ext. intro i. replace (nth i (t_Tcs s) 0 * (1 / T)) with (nth i (t_Tcs s) 0 / T) by (field; lra). f_equal. field. lra.
Qed.
(* the name of one of the first four guesses gives that guess again *)
Theorem C55_wilson_names : forall s u rv T P zs random zf el idx, mixture s T P zs zf -> likely s T P -> (idx < 4)%nat ->
  exists n g, incipient_guess_name s idx el false = Name n /\ incipient_guess_named s T P zs n zf = Some (Yield g) /\
    nth_error (yielded (incipient_guesses s u rv T P zs true true random zf el false)) idx = Some g.
Proof.
  intros s u rv T P zs random zf el idx MX LK HI.
  unfold incipient_guesses. cbv zeta. set (Ks := map (fun i => nth i (t_Pcs s) 0 * (1 / P) * _) (seq 0 (t_N s))).
  assert (LKs : length Ks = t_N s) by (unfold Ks; rewrite map_length, seq_length; auto).
  assert (KN : forall i, (i < t_N s)%nat -> nth i Ks 0 = Wilson_ratio s T P i) by (intros; apply (Ks_nth s T P zs zf i MX); auto).
  destruct LK as [i0 [I0 LK]].
  assert (KP : forall i, (i < t_N s)%nat -> 0 < nth i Ks 0) by (intros i I; rewrite (KN i I); apply (ratio_pos s T P zs zf i MX I)).
  rewrite (forallb_some (fun K => Reqb K 0) Ks i0).
  2:{ rewrite LKs; auto. }
  2:{ unfold Reqb; destruct (Req_EM_T (nth i0 Ks 0) 0); auto; pose proof (KP i0 I0); lra. }
  rewrite (forallb_some (fun K => negb (Rltb (1 / 10 ^ 100) K)) Ks i0).
  2:{ rewrite LKs; auto. }
  2:{ rewrite (KN i0 I0). destruct (Rltb_spec (1 / 10 ^ 100) (Wilson_ratio s T P i0)); [auto|contradiction]. }
  rewrite (existsb_none _ Ks) by (rewrite LKs; intros i I; unfold Reqb; destruct (Req_EM_T (nth i Ks 0) 0); auto; pose proof (KP i I); lra).
  cbn [negb]. rewrite !andb_true_r. pose proof MX as [HN HT HP HPc HZ HZF].
  destruct (est_spec s T P zs zf (fun K z => K * z) 1 MX) with (Ks := Ks) as [g1 [E1 _]]; auto; [intros; rewrite Rpower_1; auto|].
  destruct (est_spec s T P zs zf (fun K z => z / K) (-1) MX) with (Ks := Ks) as [g2 [E2 _]]; auto; [intros; rewrite Rpower_m1 by auto; unfold Rdiv; ring|].
  destruct (est_spec s T P zs zf (fun K z => pw K (1 / 3) * z) (1 / 3) MX) with (Ks := Ks) as [g3 [E3 _]]; auto.
  { intros K z HK. unfold pw, Reqb. destruct (Req_EM_T K 0); [lra|auto]. }
  destruct (est_spec s T P zs zf (fun K z => pw K (- (1 / 3)) * z) (- (1 / 3)) MX) with (Ks := Ks) as [g4 [E4 _]]; auto.
  { intros K z HK. unfold pw, Reqb. destruct (Req_EM_T K 0); [lra|auto]. }
  cbv beta in E1, E2, E3, E4. rewrite E1, E2, E3, E4.
  assert (NM : forall f, zip_with f (Ks_Wilson s T P) zs = map (fun i => f (nth i Ks 0) (nth i zs 0)) (seq 0 (t_N s))).
  { intro f. rewrite (Ks_Wilson_eq s T P HT HP). fold Ks. apply zip_seq; [auto|apply HZ]. }
  destruct el; destruct idx as [|[|[|[|idx]]]]; try lia; cbn [incipient_guess_name Nat.ltb Nat.leb negb nth_error Nat.sub].
  all: do 2 eexists; (split; [reflexivity|]); cbn [incipient_guess_named]; rewrite NM; (split; [rewrite ?E1, ?E2, ?E3, ?E4; reflexivity|]); reflexivity.
Qed.
Lemma nth_error_mid {A} (a b c : list A) k x : nth_error b k = Some x -> nth_error (a ++ b ++ c) (length a + k) = Some x.
Proof. intro H. rewrite nth_error_app2, Nat.add_comm, Nat.add_sub by lia. rewrite nth_error_app1; auto. apply nth_error_Some. congruence. Qed.
Lemma Forall2_seq_nth (Q : nat -> list R -> Prop) N ps k : Forall2 Q (seq 0 N) ps -> (k < N)%nat -> exists g, nth_error ps k = Some g /\ Q k g.
Proof.
  intro H. assert (G : forall l ps, Forall2 Q l ps -> forall k n, nth_error l k = Some n -> exists g, nth_error ps k = Some g /\ Q n g).
  { clear. induction 1; intros [|k] n E; cbn in *; try discriminate; eauto. injection E; intro; subst. eauto. }
  intro K. apply (G _ _ H k k). rewrite (nth_error_nth' _ 0%nat) by (rewrite seq_length; auto). rewrite seq_nth by auto. auto.
Qed.
(* guess number 4 + k is almost pure component k, and its name is that of component k + 1: the next guess, or none for the last *)
Theorem C55_pure_names_refuted : forall s u rv T P zs random zf el k, mixture s T P zs zf -> likely s T P -> (k < t_N s)%nat ->
  exists g, nth_error (yielded (incipient_guesses s u rv T P zs true true random zf el false)) (4 + k) = Some g /\ mostly (t_N s) k zf g /\
    incipient_guess_name s (4 + k) el false = Name (Pure (k + 1)) /\
    ((k + 1 < t_N s)%nat -> exists g', incipient_guess_named s T P zs (Pure (k + 1)) zf = Some (Yield g') /\ mostly (t_N s) (k + 1) zf g') /\
    ((k + 1 = t_N s)%nat -> incipient_guess_named s T P zs (Pure (k + 1)) zf = Some (Raise IndexErr)).
Proof.
  intros s u rv T P zs random zf el k MX LK K.
  destruct (wilson_part s T P zs zf el false MX LK ltac:(discriminate) u rv random) as [ws [ps [rs [E [_ [_ [_ [L O]]]]]]]].
  destruct (Forall2_seq_nth _ _ _ k O K) as [g [G1 G2]]. exists g.
  assert (L4 : length ws = 4%nat) by (destruct el; auto). pose proof (mx_N _ _ _ _ _ MX) as HN.
  assert (N1 : Reqb (INR (t_N s) - 1) 0 = false). { unfold Reqb. destruct (Req_EM_T _ 0); auto. apply le_INR in HN. cbn in HN. lra. }
  splits; auto.
  - rewrite E, run_app. cbn [yielded]. rewrite <- app_assoc. rewrite <- L4. apply nth_error_mid. auto.
  - unfold incipient_guess_name. destruct (Nat.ltb_spec (4 + k) 4); [lia|]. destruct (Nat.ltb_spec 3 (4 + k)); [|lia]. destruct (Nat.leb_spec (4 + k) (3 + t_N s)); [|lia]. cbn [andb]. do 2 f_equal. lia.
  - intro K1. destruct (almost_pure_spec (t_N s) (k + 1) zf HN K1) as [g' [A B]]. exists g'. cbn [incipient_guess_named]. rewrite A. auto.
  - intro K1. cbn [incipient_guess_named]. unfold almost_pure. rewrite N1. destruct (Nat.ltb_spec (k + 1) (t_N s)); [lia|auto].
Qed.
(* when water is tried first every Wilson estimate carries the name of the next one (the flash asks without expect_aqueous), and with it the
   fifth has none *)
Theorem C55_aqueous_names_refuted : forall s u rv T P zs random zf w, mixture s T P zs zf -> likely s T P -> t_water s = Some w -> (w < t_N s)%nat ->
  exists g0 g1 g2 g3 g4 rest, yielded (incipient_guesses s u rv T P zs true true random zf true true) = g0 :: g1 :: g2 :: g3 :: g4 :: rest /\
    mostly (t_N s) w zf g0 /\ estimate s T P zs (-1) g1 /\ estimate s T P zs (- (1 / 3)) g2 /\ estimate s T P zs (1 / 3) g3 /\ estimate s T P zs 1 g4 /\
    map (fun i => incipient_guess_name s i true false) [0; 1; 2; 3]%nat = [Name Wilson_liquid; Name Wilson_liquid_third; Name Wilson_gas_third; Name Wilson_gas] /\
    (forall i, (4 <= i)%nat -> incipient_guess_name s i true true = No_name).
Proof.
  intros s u rv T P zs random zf w MX LK W1 W2.
  destruct (wilson_part s T P zs zf true true MX LK ltac:(intros; exists w; auto) u rv random) as [ws [ps [rs [E [O _]]]]].
  unfold order, water_of in O. rewrite W1 in O. cbn [app map] in O.
  remember (ws ++ ps) as l. clear Heql.
  destruct l as [|g0 l]; inversion O as [|? ? ? ? Q0 O0]; subst. destruct l as [|g1 l]; inversion O0 as [|? ? ? ? Q1 O1]; subst. destruct l as [|g2 l]; inversion O1 as [|? ? ? ? Q2 O2]; subst.
  destruct l as [|g3 l]; inversion O2 as [|? ? ? ? Q3 O3]; subst. destruct l as [|g4 l]; inversion O3 as [|? ? ? ? Q4 O4]; subst.
  rewrite E, run_app. cbn [yielded].
  do 6 eexists. split; [cbn [app]; reflexivity|]. splits; auto.
  intros i Hi. unfold incipient_guess_name. destruct (Nat.ltb_spec i 4); [lia|auto].
Qed.
(* far below the critical temperatures there are no estimates: the guesses begin with the almost pure ones, and are named Wilson *)
Theorem C55_unlikely_names_refuted : forall s u rv T P zs random zf el ea, mixture s T P zs zf -> ~ likely s T P ->
  exists g, nth_error (yielded (incipient_guesses s u rv T P zs true true random zf el ea)) 0 = Some g /\ mostly (t_N s) 0 zf g /\
    incipient_guess_name s 0 el false = Name (if el then Wilson_liquid else Wilson_gas).
Proof.
  intros s u rv T P zs random zf el ea MX NL. unfold incipient_guesses. cbv zeta. set (Ks := map (fun i => nth i (t_Pcs s) 0 * (1 / P) * _) (seq 0 (t_N s))).
  assert (LKs : length Ks = t_N s) by (unfold Ks; rewrite map_length, seq_length; auto).
  replace (forallb (fun K => negb (Rltb (1 / 10 ^ 100) K)) Ks) with true.
  2:{ symmetry. apply forallb_forall. intros K I. apply (In_nth _ _ 0) in I. destruct I as [i [I <-]]. rewrite LKs in I.
      assert (E : nth i Ks 0 = Wilson_ratio s T P i) by (apply (Ks_nth s T P zs zf i MX); auto). rewrite E. destruct (Rltb_spec (1 / 10 ^ 100) (Wilson_ratio s T P i)); auto. exfalso. apply NL. exists i. auto. }
  cbn [negb]. rewrite !andb_false_r. cbn [app]. pose proof MX as [HN HT HP HPc HZ HZF].
  assert (N1 : Reqb (INR (t_N s) - 1) 0 = false). { unfold Reqb. destruct (Req_EM_T _ 0); auto. apply le_INR in HN. cbn in HN. lra. }
  rewrite N1. destruct (almost_pure_spec (t_N s) 0 zf HN ltac:(lia)) as [g [G1 G2]]. exists g.
  replace (seq 0 (t_N s)) with (0%nat :: seq 1 (t_N s - 1)) by (destruct (t_N s); [lia|]; cbn; rewrite Nat.sub_0_r; auto). cbn [map app]. rewrite G1. cbn [run yielded nth_error].
  splits; auto. destruct el; auto.
Qed.
(* one component: the division by N - 1 *)
Theorem C55_single_component_refuted : forall s u rv T P zs Wilson random zf ea, t_N s = 1%nat ->
  ended (incipient_guesses s u rv T P zs true Wilson random zf false ea) = Some ZeroDivision.
Proof.
  intros s u rv T P zs Wilson random zf ea HN. unfold incipient_guesses. cbv zeta. rewrite HN. replace (INR 1 - 1) with 0 by (cbn; ring).
  assert (R0 : Reqb 0 0 = true) by (unfold Reqb; destruct (Req_EM_T 0 0); auto; lra). rewrite R0.
  assert (G : forall l r, ended (run (l ++ [Raise ZeroDivision] ++ r)) = Some ZeroDivision \/ exists e, ended (run l) = Some e /\ ended (run (l ++ [Raise ZeroDivision] ++ r)) = Some e).
  { induction l as [|[g|e] l IH]; intro r; cbn; [auto|apply IH|eauto]. }
  match goal with |- ended (run (?l ++ _ ++ ?r)) = _ => destruct (G l r) as [Q|[e [Q1 Q2]]]; [exact Q|] end.
  rewrite Q2. f_equal. clear - Q1.
  assert (Z : forall l, (forall x, In x l -> exists a, x = normalize a) -> forall e, ended (run l) = Some e -> e = ZeroDivision).
  { induction l as [|x l IH]; intros H e0; cbn; [discriminate|]. destruct (H x (or_introl eq_refl)) as [a ->]. unfold normalize. destruct (Reqb (lsum a) 0); cbn; [congruence|]. apply IH. intros; apply H; cbn; auto. }
  eapply Z; [|exact Q1]. clear. intros x. destruct (negb Wilson); [intros []|]. cbn [andb].
  destruct (_ && _)%bool; [|intros []]. destruct (negb (existsb _ _)); cbn [app In]; intro H; repeat (destruct H as [<-|H]; [eexists; reflexivity|]); destruct H.
Qed.

(* ---- guesses and guess_generator ---- *)
(* fraction of the main component in pure_guesses *)
Definition diluted (N k : nat) (zf : R) (g : list R) : Prop :=
  length g = N /\ forall i, (i < N)%nat -> nth i g 0 = (if Nat.eqb i k then 1 else zf) / (1 + (INR N - 1) * zf).
Lemma pure_guesses_spec s zf : 0 <= zf -> exists ps, pure_guesses s zf = map Yield ps /\ Forall2 (fun k g => diluted (t_N s) k zf g /\ fractions (t_N s) g) (seq 0 (t_N s)) ps.
Proof.
  intros Z. unfold pure_guesses. set (N := t_N s).
  assert (G : forall l, (forall k, In k l -> (k < N)%nat) -> exists ps, map (fun k => normalize (map (fun j => if negb (Nat.eqb j k) then zf else 1) (seq 0 N))) l = map Yield ps /\ Forall2 (fun k g => diluted N k zf g /\ fractions N g) l ps).
  { induction l as [|k l IH]; intro B; [exists []; auto|]. destruct IH as [ps [P1 P2]]; [intros; apply B; cbn; auto|]. pose proof (B k (or_introl eq_refl)) as K.
    set (a := map (fun j => if negb (Nat.eqb j k) then zf else 1) (seq 0 N)). assert (L : length a = N) by (unfold a; rewrite map_length, seq_length; auto).
    assert (E : forall i, (i < N)%nat -> nth i a 0 = if Nat.eqb i k then 1 else zf) by (intros i I; unfold a; rewrite nth_map_seq by auto; destruct (Nat.eqb i k); auto).
    destruct (normalize_spec a) as [g [G1 [G2 G3]]].
    - rewrite L. intros i I. rewrite (E i I). destruct (Nat.eqb i k); lra.
    - exists k. rewrite L. split; [auto|]. rewrite (E k K), Nat.eqb_refl. lra.
    - assert (S : lsum a = 1 + (INR N - 1) * zf).
      { rewrite lsum_nth, L, (rsum_ext _ _ (fun i => zf + if Nat.eqb i k then 1 - zf else 0)) by (intros i I; rewrite (E i I); destruct (Nat.eqb i k); ring).
        rewrite rsum_plus, rsum_const, (rsum_single N k); auto; [rewrite Nat.eqb_refl; ring|]. intros i _ D. destruct (Nat.eqb_spec i k); [lia|auto]. }
      exists (g :: ps). cbn [map]. fold a. rewrite G1, P1. split; [auto|]. rewrite L in *. constructor; [|auto]. split; [|auto]. split; [apply G2|]. intros i I. rewrite (G3 i I), (E i I), S. unfold Rdiv. ring. }
  apply G. intros k I. apply in_seq in I. lia.
Qed.
Lemma Wilson_guesses_spec s T P zs zf : mixture s T P zs zf -> exists ws, Wilson_guesses s T P zs default_powers = map Yield ws /\ Forall2 (estimate s T P zs) [1; -1; 1 / 3; - (1 / 3)] ws.
Proof.
  intro MX. pose proof MX as [HN HT HP HPc HZ HZF].
  assert (KN : forall i, (i < t_N s)%nat -> nth i (Ks_Wilson s T P) 0 = Wilson_ratio s T P i) by (intros i I; unfold Ks_Wilson; rewrite nth_map_seq by auto; reflexivity).
  assert (G : forall e, exists g, normalize (zip_with (fun Ki zi => pw Ki e * zi) (Ks_Wilson s T P) zs) = Yield g /\ estimate s T P zs e g).
  { intro e. rewrite (zip_seq _ _ _ (t_N s)); [|unfold Ks_Wilson; rewrite map_length, seq_length; auto|apply HZ].
    destruct (est_spec s T P zs zf (fun K z => pw K e * z) e MX) with (Ks := Ks_Wilson s T P) as [g [E [S _]]]; auto; [|exists g; auto].
    intros K z HK. unfold pw, Reqb. destruct (Req_EM_T K 0); [lra|auto]. }
  unfold Wilson_guesses, default_powers. destruct (G 1) as [g1 [E1 S1]]. destruct (G (-1)) as [g2 [E2 S2]]. destruct (G (1 / 3)) as [g3 [E3 S3]]. destruct (G (- (1 / 3))) as [g4 [E4 S4]].
  cbn [map]. rewrite E1, E2, E3, E4. exists [g1; g2; g3; g4]. split; [reflexivity|]. repeat (constructor; [assumption|]). constructor.
Qed.
Lemma random_guesses_spec s u n : (1 <= match n with Some n => n | None => t_N s end)%nat -> (forall n, 0 < u n) -> let m := match n with Some n => n | None => t_N s end in
  exists gs, random_guesses s u n = map Yield gs /\ length gs = m /\ Forall (fun g => fractions m g /\ all_present m g) gs.
Proof. intros H U m. apply (drawn_spec u m); auto. Qed.
Lemma pops_all l : pops (length l) l = map Yield l.
Proof. induction l as [|g l IH]; cbn; [auto|]. rewrite IH. auto. Qed.
Lemma pops_more n l : pops (S n + length l) l = map Yield l ++ [Raise IndexErr].
Proof. induction l as [|g l IH]; cbn; [destruct n; auto|]. rewrite <- IH. replace (n + S (length l))%nat with (S n + length l)%nat by lia. auto. Qed.
Theorem C55_all_guesses : forall s u T P zs zf, mixture s T P zs zf -> (forall n, 0 < u n) ->
  exists ws ps rs, guesses s u T P zs true true All_components zf = {| yielded := ws ++ ps ++ rs; ended := None |} /\
    Forall2 (estimate s T P zs) [1; -1; 1 / 3; - (1 / 3)] ws /\ Forall2 (fun k g => diluted (t_N s) k zf g /\ fractions (t_N s) g) (seq 0 (t_N s)) ps /\
    length rs = t_N s /\ (forall g, In g rs -> fractions (t_N s) g) /\
    guess_generator s u T P zs true true All_components zf = {| yielded := ws ++ ps ++ rs; ended := None |}.
Proof.
  intros s u T P zs zf MX U. pose proof MX as [HN _ _ _ _ HZF].
  destruct (Wilson_guesses_spec s T P zs zf MX) as [ws [W1 W2]]. destruct (pure_guesses_spec s zf ltac:(lra)) as [ps [P1 P2]].
  destruct (random_guesses_spec s u None) as [rs [R1 [R2 R3]]]; auto; [lia|].
  assert (LW : length ws = 4%nat) by (clear - W2; inversion W2; subst; repeat match goal with H : Forall2 _ (_ :: _) _ |- _ => inversion H; clear H; subst | H : Forall2 _ [] _ |- _ => inversion H; clear H; subst end; auto).
  assert (LP : length ps = t_N s). { assert (Q : length (seq 0 (t_N s)) = length ps) by (clear - P2; induction P2; cbn; auto). rewrite seq_length in Q. auto. }
  assert (E : guesses s u T P zs true true All_components zf = {| yielded := ws ++ ps ++ rs; ended := None |}).
  { unfold guesses. rewrite W1, P1, R1, <- !map_app. apply run_yields. }
  exists ws, ps, rs. splits; auto.
  - intros g I. rewrite Forall_forall in R3. apply R3. auto.
  - unfold guess_generator. rewrite E. cbn [ended yielded]. replace (t_N s + (4 + t_N s))%nat with (length (ws ++ ps ++ rs)) by (rewrite !app_length; lia). rewrite pops_all. apply run_yields.
Qed.
(* without the Wilson guesses (or the pure ones) the generator yields the others and then raises IndexError *)
Theorem C55_generator_refuted : forall s u T P zs zf, mixture s T P zs zf -> (forall n, 0 < u n) ->
  exists l, guesses s u T P zs true false All_components zf = {| yielded := l; ended := None |} /\ length l = (2 * t_N s)%nat /\
    guess_generator s u T P zs true false All_components zf = {| yielded := l; ended := Some IndexErr |}.
Proof.
  intros s u T P zs zf MX U. pose proof MX as [HN _ _ _ _ HZF]. destruct (pure_guesses_spec s zf ltac:(lra)) as [ps [P1 P2]].
  destruct (random_guesses_spec s u None) as [rs [R1 [R2 R3]]]; auto; [lia|].
  assert (LP : length ps = t_N s). { assert (Q : length (seq 0 (t_N s)) = length ps) by (clear - P2; induction P2; cbn; auto). rewrite seq_length in Q. auto. }
  assert (E : guesses s u T P zs true false All_components zf = {| yielded := ps ++ rs; ended := None |}).
  { unfold guesses. rewrite P1, R1. cbn [app]. rewrite <- !map_app. apply run_yields. }
  exists (ps ++ rs). splits; auto; [rewrite app_length; lia|].
  unfold guess_generator. rewrite E. cbn [ended yielded]. replace (t_N s + (4 + t_N s))%nat with (S 3 + length (ps ++ rs))%nat by (rewrite !app_length; lia). rewrite pops_more, run_app. cbn [run yielded ended]. rewrite app_nil_r. auto.
Qed.
(* a number of random guesses is also taken as the number of components *)
Theorem C55_random_number_refuted : forall s u T P zs zf n, (1 <= n)%nat -> (forall n, 0 < u n) ->
  exists l, guesses s u T P zs false false (Number n) zf = {| yielded := l; ended := None |} /\ length l = n /\ forall g, In g l -> length g = n.
Proof.
  intros s u T P zs zf n Hn U. destruct (random_guesses_spec s u (Some n)) as [rs [R1 [R2 R3]]]; auto.
  exists rs. unfold guesses. destruct n as [|n]; [lia|]. cbn [app]. rewrite R1. splits; auto; [apply run_yields|]. intros g I. rewrite Forall_forall in R3. apply R3. auto.
Qed.
(* the index of water *)
Theorem C55_water : forall Tcs Pcs omegas CASs,
  match t_water (StabilityTester Tcs Pcs omegas (Some CASs)) with
  | Some k => nth_error CASs k = Some "7732-18-5"%string /\ forall j, (j < k)%nat -> nth_error CASs j <> Some "7732-18-5"%string
  | None => ~ In "7732-18-5"%string CASs end.
Proof.
  intros Tcs Pcs omegas CASs. cbn [StabilityTester t_water]. set (c := "7732-18-5"%string). clearbody c. induction CASs as [|x l IH]; cbn [index_of]; [intros []|].
  destruct (String.eqb_spec x c); [subst; split; [auto|intros; lia]|]. destruct (index_of c l) as [k|]; cbn.
  - destruct IH as [A B]. split; [auto|]. intros [|j] J; cbn; [congruence|apply B; lia].
  - intros [Q|Q]; [auto|contradiction].
Qed.
(* a mixture that meets the hypotheses *)
Example C55_hypotheses_met : let s := StabilityTester [190; 647] [4600000; 22000000] [1 / 100; 34 / 100] (Some ["74-82-8"; "7732-18-5"]%string) in
  mixture s 300 100000 [/ 2; / 2] (1 / 1000000) /\ likely s 300 100000 /\ t_water s = Some 1%nat /\ all_present 2 [/ 2; / 2] /\
  random_source (repeat (/ 2) 1000) (fun _ => / 2) /\ (count s All_components * t_N s <= 1000)%nat.
Proof.
  intro s. splits.
  - constructor; cbn; try lia; try lra.
    + intros [|[|i]] I; try lia; lra.
    + unfold fractions. cbn. splits; auto; [intros [|[|i]] I; try lia; lra|field].
  - exists 0%nat. split; [cbn; lia|]. unfold Wilson_ratio. cbn [s StabilityTester t_Pcs t_omegas t_Tcs nth].
    assert (E : 1 <= exp (537 / 100 * (1 + 1 / 100) * (1 - 190 / 300))) by (rewrite <- exp_0 at 1; apply Rlt_le, exp_increasing; lra).
    assert (1 / 10 ^ 100 <= 1). { apply Rmult_le_reg_r with (10 ^ 100); [apply pow_lt; lra|]. unfold Rdiv. rewrite Rmult_1_l, Rinv_l, Rmult_1_l by (apply pow_nonzero; lra). apply pow_R1_Rle. lra. }
    apply Rle_lt_trans with 1; [auto|]. lra.
  - reflexivity.
  - intros [|[|i]] I; try lia; cbn; lra.
  - split; [apply repeat_length|]. split; [|intro; lra]. intros x I. apply repeat_spec in I. lra.
  - cbn. lia.
Qed.
