(* C52: successive substitution for two and more phases at given T and P. *)
From Coq Require Import Reals Lra Lia List Bool Arith FunctionalExtensionality.
From Verif Require Import Base BaseFacts Model_ss Spec_split SsFacts.
Import ListNotations.
Open Scope R_scope.

(* the solver of the inner problem answers with a solution of the Rachford-Rice equations, or raises *)
Definition solves (N : nat) (inner : comp -> comp -> option R -> option (R * comp * comp)) : Prop :=
  forall z K guess V x y, inner z K guess = Some (V, x, y) -> Rachford_Rice N z K V x y.
(* the phase p evaluated at T, P and the composition x *)
Definition phase_at (p : sphase) (T P : R) (x : comp) : sphase := {| s_T := T; s_P := P; s_zs := x; s_lnphis := s_lnphis p |}.

(* ---- the iterations ---- *)
(* The call goes through the iterates X 0 = guess, X 1, ...: every one comes from the solver at the equilibrium ratios of the one
   before, and the first event decides. A converged call gives the iterate whose residual was found small, or X 1 when that is X 0. *)
Theorem C52_iterations : forall N inner T P z x0 y0 l g maxiter tol triv V0,
  let o := sequential_substitution_2P N inner T P z x0 y0 l g maxiter tol triv V0 in
  let fl := s_lnphis l T P in let fg := s_lnphis g T P in
  exists Vs X Y, Vs 0%nat = V0 /\ X 0%nat = x0 /\ Y 0%nat = y0 /\
  let E := fun j => squared_mismatch N fl fg (X j) (Y j) in
  let step := substitution_step N inner fl fg z Vs X Y in
  let goes_on := fun j => step j /\ calm E j /\ triv <= distance N (X (S j)) (Y (S j)) /\ tol <= E j in
  ((forall j, (j < maxiter)%nat -> goes_on j) /\ o = Fails Unconverged) \/
  exists k, (k < maxiter)%nat /\ (forall j, (j < k)%nat -> goes_on j) /\
    ((inner z (K_values fl fg (X k) (Y k)) (Vs k) = None /\ o = Fails Inner_failed) \/
     (step k /\ ~ calm E k /\ o = Fails Oscillation) \/
     (step k /\ calm E k /\ distance N (X (S k)) (Y (S k)) < triv /\ o = Fails Trivial) \/
     (step k /\ calm E k /\ triv <= distance N (X (S k)) (Y (S k)) /\ E k < tol /\
      o = let r := Nat.max k 1 in Returns (Vs r) (X r) (Y r) (phase_at l T P (X r)) (phase_at g T P (Y r)) k (E k))).
Proof.
  intros N inner T P z x0 y0 l g maxiter tol triv V0 o fl fg.
  set (tr := fun (_ _ xs ys : vec) => Rltb (comp_difference N xs ys) triv).
  exists (tV N inner z fl fg V0 x0 y0), (tX N inner z fl fg V0 x0 y0), (tY N inner z fl fg V0 x0 y0).
  split; [reflexivity|]. split; [reflexivity|]. split; [reflexivity|]. cbv zeta.
  assert (O : o = with_phases T P l g (gloop N inner z fl fg tr tol maxiter 0 V0 x0 y0 0 0 0 0)).
  { unfold o, sequential_substitution_2P. rewrite ss_2P_gloop, !at_TP_lnphis. fold fl fg tr.
    destruct (gloop _ _ _ _ _ _ _ _ _ _ _ _ _ _ _ _); cbn [with_phases]; rewrite ?at_TP_to; reflexivity. }
  clearbody o. subst o.
  assert (GO : forall j, proceeds N inner z fl fg tr tol V0 x0 y0 j ->
     substitution_step N inner fl fg z (tV N inner z fl fg V0 x0 y0) (tX N inner z fl fg V0 x0 y0) (tY N inner z fl fg V0 x0 y0) j /\
     calm (tE N inner z fl fg V0 x0 y0) j /\ triv <= distance N (tX N inner z fl fg V0 x0 y0 (S j)) (tY N inner z fl fg V0 x0 y0 (S j)) /\ tol <= tE N inner z fl fg V0 x0 y0 j).
  { intros j [A [B [C D]]]. splits; auto. unfold tr in C. rewrite comp_difference_spec in C.
    destruct (Rltb_spec (distance N (tX N inner z fl fg V0 x0 y0 (S j)) (tY N inner z fl fg V0 x0 y0 (S j))) triv); [discriminate|lra]. }
  destruct (gloop_outcome N inner z fl fg tr tol V0 x0 y0 maxiter) as [[k [A [B C]]]|[A B]].
  - right. exists k. split; [auto|]. split; [intros j J; apply GO, B, J|].
    destruct C as [[C1 C2]|[[C1 [C2 C3]]|[[C1 [C2 [C3 C4]]]|[C1 [C2 [C3 [C4 C5]]]]]]].
    + left. split; [auto|]. rewrite C2. reflexivity.
    + right; left. splits; auto. rewrite C3. reflexivity.
    + right; right; left. unfold tr in C3. rewrite comp_difference_spec in C3. splits; auto; [|rewrite C4; reflexivity].
      destruct (Rltb_spec (distance N (tX N inner z fl fg V0 x0 y0 (S k)) (tY N inner z fl fg V0 x0 y0 (S k))) triv); [auto|discriminate].
    + right; right; right. unfold tr in C3. rewrite comp_difference_spec in C3.
      destruct (Rltb_spec (distance N (tX N inner z fl fg V0 x0 y0 (S k)) (tY N inner z fl fg V0 x0 y0 (S k))) triv); [discriminate|].
      splits; auto; [lra|]. rewrite C5. destruct k; cbn [Nat.eqb with_phases]; [reflexivity|].
      replace (Nat.max (S k) 1) with (S k) by lia. reflexivity.
  - left. split; [intros j J; apply GO, A, J|]. rewrite B. reflexivity.
Qed.

(* a solution with 0 <= V <= 1 of a feed with nonnegative entries and positive ratios has nonnegative entries *)
Lemma RR_nonneg N z K V x y : Rachford_Rice N z K V x y -> (forall i, (i < N)%nat -> 0 <= z i) -> (forall i, (i < N)%nat -> 0 < K i) -> 0 <= V <= 1 ->
  forall i, (i < N)%nat -> 0 <= x i /\ 0 <= y i.
Proof.
  intros [B [E _]] Z Kp HV i I. specialize (B i I). specialize (E i I). specialize (Z i I). specialize (Kp i I). rewrite E in B.
  assert (C : z i = x i * (1 - V + V * K i)) by lra.
  assert (D : 0 < 1 - V + V * K i). { destruct (Req_dec V 0); [subst; lra|]. assert (0 < V * K i) by (apply Rmult_lt_0_compat; lra). lra. }
  assert (X : 0 <= x i). { apply Rmult_le_reg_r with (1 - V + V * K i); [auto|]. lra. }
  split; [auto|]. rewrite E. apply Rmult_le_pos; lra.
Qed.
Lemma normalised_same N raw v : normalised N raw v -> (forall i, (i < N)%nat -> 0 <= raw i) -> v = raw.
Proof. intros [[A B]|[[i [I A]] B]] H; [auto|]. specialize (H i I). lra. Qed.

(* ---- what is returned ---- *)
Theorem C52_returned : forall N inner T P z x0 y0 l g maxiter tol triv V0 V x y l' g' k err, solves N inner ->
  sequential_substitution_2P N inner T P z x0 y0 l g maxiter tol triv V0 = Returns V x y l' g' k err ->
  (k < maxiter)%nat /\ err < tol /\ triv <= distance N x y /\ composition N x /\ composition N y /\
  l' = phase_at l T P x /\ g' = phase_at g T P y /\
  (exists v, V = Some v /\ ((forall i, (i < N)%nat -> 0 <= z i) -> 0 <= v <= 1 -> split_balance N z v x y)) /\
  ((1 <= k)%nat -> forall i, (i < N)%nat -> y i <> 0 -> Rabs (fugacity_mismatch (s_lnphis l T P) (s_lnphis g T P) x y i) < sqrt tol).
Proof.
  intros N inner T P z x0 y0 l g maxiter tol triv V0 V x y l' g' k err Sol H.
  destruct (C52_iterations N inner T P z x0 y0 l g maxiter tol triv V0) as [Vs [X [Y [_ [_ [_ C]]]]]]. cbv zeta in C. rewrite H in C.
  destruct C as [[_ C]|[k' [Kk [B C]]]]; [discriminate|].
  destruct C as [[_ C]|[[_ [_ C]]|[[_ [_ [_ C]]]|[S1 [_ [Tr [El C]]]]]]]; try discriminate.
  injection C; intros; subst. clear C H.
  assert (ST : exists j, Nat.max k' 1 = S j /\ substitution_step N inner (s_lnphis l T P) (s_lnphis g T P) z Vs X Y j /\ triv <= distance N (X (S j)) (Y (S j))).
  { destruct k' as [|k']; [exists 0%nat; splits; auto|]. exists k'. split; [lia|]. destruct (B k') as [U [_ [W _]]]; [lia|]. split; auto. }
  destruct ST as [j [J [[v [xr [yr [I1 [I2 [I3 I4]]]]]] Dj]]]. rewrite J in *.
  pose proof (Sol _ _ _ _ _ _ I1) as RR. destruct RR as [RB [RK [RX RY]]].
  splits; auto.
  - split; [apply (normalised_nonneg N xr); auto|apply (normalised_sum N xr); auto].
  - split; [apply (normalised_nonneg N yr); auto|apply (normalised_sum N yr); auto].
  - exists v. split; [auto|]. intros Z Hv.
    pose proof (RR_nonneg N z _ v xr yr (conj RB (conj RK (conj RX RY))) Z (fun i _ => exp_pos _) Hv) as NN.
    rewrite (normalised_same N xr _ I3), (normalised_same N yr _ I4); auto; intros i I; apply NN; auto.
  - intros K1 i I D. destruct k' as [|k']; [lia|]. assert (j = k') by lia. subst j.
    apply (squared_mismatch_bound N); auto.
Qed.

(* the objects given only lend their models: their own T, P and composition do not matter *)
Theorem C52_start_irrelevant : forall N inner T P z x0 y0 l g l2 g2 maxiter tol triv V0, s_lnphis l2 = s_lnphis l -> s_lnphis g2 = s_lnphis g ->
  sequential_substitution_2P N inner T P z x0 y0 l2 g2 maxiter tol triv V0 = sequential_substitution_2P N inner T P z x0 y0 l g maxiter tol triv V0.
Proof.
  intros N inner T P z x0 y0 l g l2 g2 maxiter tol triv V0 A B. unfold sequential_substitution_2P. rewrite !ss_2P_gloop, !at_TP_lnphis, A, B.
  destruct (gloop _ _ _ _ _ _ _ _ _ _ _ _ _ _ _ _); cbn [with_phases]; rewrite ?at_TP_to; [|reflexivity].
  unfold to_TP_zs. rewrite A, B. reflexivity.
Qed.

(* ---- when the fugacity coefficients do not depend on composition, two iterations give the exact equilibrium ---- *)
Theorem C52_ideal_exact : forall N inner T P z x0 y0 l g maxiter tol triv V0 K, solves N inner -> (2 <= maxiter)%nat -> 0 < tol ->
  (forall i, (i < N)%nat -> 0 <= z i) ->
  (forall x y, K_values (s_lnphis l T P) (s_lnphis g T P) x y = K) ->
  (forall guess, exists v x y, inner z K guess = Some (v, x, y) /\ 0 <= v <= 1 /\ triv <= distance N x y) ->
  exists v x y k err, sequential_substitution_2P N inner T P z x0 y0 l g maxiter tol triv V0 =
      Returns (Some v) x y (phase_at l T P x) (phase_at g T P y) k err /\ (k <= 1)%nat /\
    Rachford_Rice N z K v x y /\ forall i, (i < N)%nat -> y i <> 0 -> fugacity_mismatch (s_lnphis l T P) (s_lnphis g T P) x y i = 0.
Proof.
  intros N inner T P z x0 y0 l g maxiter tol triv V0 K Sol M Tp Z KK Ok.
  assert (KP : forall i, 0 < K i). { intro i. rewrite <- (KK x0 y0). apply exp_pos. }
  destruct (C52_iterations N inner T P z x0 y0 l g maxiter tol triv V0) as [Vs [X [Y [X0 [X1 [X2 C]]]]]]. cbv zeta in C.
  set (o := sequential_substitution_2P N inner T P z x0 y0 l g maxiter tol triv V0) in *.
  set (fl := s_lnphis l T P) in *. set (fg := s_lnphis g T P) in *.
  set (E := fun j => squared_mismatch N fl fg (X j) (Y j)) in *.
  assert (ST : forall j, substitution_step N inner fl fg z Vs X Y j -> exists v, Vs (S j) = Some v /\ Rachford_Rice N z K v (X (S j)) (Y (S j)) /\ triv <= distance N (X (S j)) (Y (S j))).
  { intros j [v [xr [yr [I1 [I2 [I3 I4]]]]]]. rewrite KK in I1. destruct (Ok (Vs j)) as [v' [x' [y' [Q1 [Q2 Q3]]]]]. rewrite I1 in Q1. injection Q1; intros; subst v' x' y'.
    pose proof (Sol _ _ _ _ _ _ I1) as RR. pose proof (RR_nonneg _ _ _ _ _ _ RR Z (fun i _ => KP i) Q2) as NN.
    exists v. rewrite (normalised_same N xr _ I3), (normalised_same N yr _ I4); auto; intros i I; apply NN; auto. }
  assert (MM : forall x y, (forall i, (i < N)%nat -> y i = K i * x i) -> forall i, (i < N)%nat -> y i <> 0 -> fugacity_mismatch fl fg x y i = 0).
  { intros x y H i I D. unfold fugacity_mismatch. pose proof (f_equal (fun f => f i) (KK x y)) as Q. unfold K_values in Q. cbv beta in Q. fold fl fg in Q.
    assert (Q2 : exp (fl x i) = K i * exp (fg y i)). { rewrite <- Q. rewrite <- exp_plus. f_equal. ring. }
    rewrite Q2. specialize (H i I). pose proof (exp_pos (fg y i)) as Ep. apply Rminus_diag_eq. apply Rmult_eq_reg_r with (exp (fg y i) * y i); [|apply Rmult_integral_contrapositive_currified; [lra|auto]]. unfold Rdiv. rewrite Rmult_assoc, Rinv_l by (apply Rmult_integral_contrapositive_currified; [lra|auto]). rewrite H. ring. }
  assert (E0 : forall j, substitution_step N inner fl fg z Vs X Y j -> E (S j) = 0).
  { intros j Hj. destruct (ST j Hj) as [v [_ [[_ [RK _]] _]]]. unfold E, squared_mismatch. apply rsum_eq_0. intros i I.
    destruct (Req_EM_T (Y (S j) i) 0); [auto|]. rewrite (MM _ _ RK i I n). unfold Rsqr. ring. }
  assert (CALM : forall j, (j <= 1)%nat -> (j = 0%nat \/ substitution_step N inner fl fg z Vs X Y 0) -> calm E j).
  { intros j J Hj. unfold calm. destruct j as [|[|j]]; [split; [intros; lia|cbn; lia]| |lia]. split; [|cbn; lia].
    intros m _ _ Pos. destruct Hj as [Hj|Hj]; [discriminate|]. rewrite (E0 0%nat Hj) in Pos. lra. }
  assert (INN : forall j, inner z (K_values fl fg (X j) (Y j)) (Vs j) <> None).
  { intro j. rewrite KK. destruct (Ok (Vs j)) as [v [x [y [Q _]]]]. congruence. }
  assert (NOTR : forall j, substitution_step N inner fl fg z Vs X Y j -> ~ distance N (X (S j)) (Y (S j)) < triv).
  { intros j Hj. destruct (ST j Hj) as [v [_ [_ D]]]. lra. }
  assert (FIN : forall k j, substitution_step N inner fl fg z Vs X Y j -> (k <= 1)%nat -> Nat.max k 1 = S j ->
    o = (let r := Nat.max k 1 in Returns (Vs r) (X r) (Y r) (phase_at l T P (X r)) (phase_at g T P (Y r)) k (E k)) ->
    exists v x y k err, o = Returns (Some v) x y (phase_at l T P x) (phase_at g T P y) k err /\ (k <= 1)%nat /\
    Rachford_Rice N z K v x y /\ forall i, (i < N)%nat -> y i <> 0 -> fugacity_mismatch fl fg x y i = 0).
  { intros k j Hj K1 R O. cbv zeta in O. rewrite R in O. destruct (ST j Hj) as [v [V1 [RR _]]]. rewrite V1 in O.
    exists v, (X (S j)), (Y (S j)), k, (E k). splits; auto. apply MM. apply RR. }
  destruct C as [[C _]|[k [Kk [B C]]]].
  { exfalso. destruct (C 0%nat) as [S0 _]; [lia|]. destruct (C 1%nat) as [_ [_ [_ L]]]; [lia|]. pose proof (E0 0%nat S0) as Q. change (tol <= E 1%nat) in L. lra. }
  assert (K1 : (k <= 1)%nat).
  { destruct (Nat.le_gt_cases k 1); [auto|]. exfalso. destruct (B 0%nat) as [S0 _]; [lia|]. destruct (B 1%nat) as [_ [_ [_ L]]]; [lia|].
    pose proof (E0 0%nat S0) as Q. change (tol <= E 1%nat) in L. lra. }
  assert (S0 : (1 <= k)%nat -> substitution_step N inner fl fg z Vs X Y 0) by (intro; apply B; lia).
  assert (Ck : calm E k). { apply CALM; [auto|]. destruct k; [auto|right; apply S0; lia]. }
  destruct C as [[C _]|[[C1 [C _]]|[[C1 [_ [C _]]]|[C1 [_ [_ [_ C]]]]]]].
  - exfalso. exact (INN k C).
  - exfalso. apply C. exact Ck.
  - exfalso. exact (NOTR k C1 C).
  - destruct k as [|[|k]]; [|  |lia].
    + apply (FIN 0%nat 0%nat); auto.
    + apply (FIN 1%nat 0%nat); auto.
Qed.
(* a concrete case: K = (2, 1/2), an equimolar feed, half of it vapour *)
Definition half : comp := fun _ => / 2.
Definition K2 : comp := fun i => if Nat.eqb i 0 then 2 else / 2.
Definition x2 : comp := fun i => if Nat.eqb i 0 then / 3 else 2 / 3.
Definition y2 : comp := fun i => if Nat.eqb i 0 then 2 / 3 else / 3.
Definition ideal_liquid : sphase := {| s_T := 300; s_P := 101325; s_zs := half; s_lnphis := fun _ _ _ i => if Nat.eqb i 0 then ln 2 else - ln 2 |}.
Definition ideal_gas : sphase := {| s_T := 300; s_P := 101325; s_zs := half; s_lnphis := fun _ _ _ _ => 0 |}.
(* a solver that answers this one problem *)
Definition one_solver (N : nat) (z0 K0 : comp) (V0 : R) (xa ya : comp) : comp -> comp -> option R -> option (R * comp * comp) :=
  fun z K _ => if forallb (fun i => Reqb (z i) (z0 i) && Reqb (K i) (K0 i)) (seq 0 N) then Some (V0, xa, ya) else None.
Lemma one_solver_solves N z0 K0 V0 xa ya : Rachford_Rice N z0 K0 V0 xa ya -> solves N (one_solver N z0 K0 V0 xa ya).
Proof.
  intros RR z K gs V x y H. unfold one_solver in H. destruct (forallb _ _) eqn:F; [|discriminate]. injection H; intros; subst. rewrite forallb_forall in F.
  assert (Q : forall i, (i < N)%nat -> z i = z0 i /\ K i = K0 i).
  { intros i I. specialize (F i). rewrite andb_true_iff in F. destruct F as [A B]; [apply in_seq; lia|]. revert A B. unfold Reqb.
    destruct (Req_EM_T (z i) (z0 i)); destruct (Req_EM_T (K i) (K0 i)); intros; try discriminate. auto. }
  destruct RR as [A [B [C D]]]. split; [intros i I; destruct (Q i I) as [-> _]; auto|]. split; [intros i I; destruct (Q i I) as [_ ->]; auto|auto].
Qed.
Lemma one_solver_same N z0 K0 V0 xa ya gs : one_solver N z0 K0 V0 xa ya z0 K0 gs = Some (V0, xa, ya).
Proof.
  unfold one_solver. replace (forallb _ _) with true; [auto|]. symmetry. apply forallb_forall. intros i _. unfold Reqb.
  destruct (Req_EM_T (z0 i) (z0 i)); [|congruence]. destruct (Req_EM_T (K0 i) (K0 i)); [auto|congruence].
Qed.
Lemma RR2 : Rachford_Rice 2 half K2 (/ 2) x2 y2.
Proof. unfold Rachford_Rice, split_balance, half, K2, x2, y2. splits; try (intros [|[|i]] I; cbn [Nat.eqb]; [field|field|lia]); cbn; field. Qed.
Example C52_ideal_exact_hypotheses_met :
  solves 2 (one_solver 2 half K2 (/ 2) x2 y2) /\ (forall i, (i < 2)%nat -> 0 <= half i) /\
  (forall x y, K_values (s_lnphis ideal_liquid 350 200000) (s_lnphis ideal_gas 350 200000) x y = K2) /\
  (forall guess, exists v x y, one_solver 2 half K2 (/ 2) x2 y2 half K2 guess = Some (v, x, y) /\ 0 <= v <= 1 /\ / 100000 <= distance 2 x y).
Proof.
  splits.
  - apply one_solver_solves, RR2.
  - intros. unfold half. lra.
  - intros. apply functional_extensionality. intro i. unfold K_values, K2. cbn. destruct (Nat.eqb i 0).
    + rewrite Rminus_0_r. apply exp_ln. lra.
    + rewrite Rminus_0_r, exp_Ropp, exp_ln by lra. reflexivity.
  - intro gs. exists (/ 2), x2, y2. rewrite one_solver_same. splits; auto; try lra. unfold distance, x2, y2. cbn.
    rewrite Rabs_left by lra. rewrite Rabs_right by lra. lra.
Qed.
(* and so a call that returns, from guesses that are far off *)
Example C52_returned_hypotheses_met : exists V x y l' g' k err,
  sequential_substitution_2P 2 (one_solver 2 half K2 (/ 2) x2 y2) 350 200000 half (fun i => if Nat.eqb i 0 then / 10 else 9 / 10) half ideal_liquid ideal_gas 1000 (/ 10 ^ 13) (/ 100000) None
  = Returns V x y l' g' k err.
Proof.
  destruct C52_ideal_exact_hypotheses_met as [A [B [C D]]].
  destruct (C52_ideal_exact 2 _ 350 200000 half (fun i => if Nat.eqb i 0 then / 10 else 9 / 10) half ideal_liquid ideal_gas 1000 (/ 10 ^ 13) (/ 100000) None K2 A) as [v [x [y [k [e [H _]]]]]]; auto; [lia| |].
  - apply Rinv_0_lt_compat. apply pow_lt. lra.
  - exists (Some v), x, y, (phase_at ideal_liquid 350 200000 x), (phase_at ideal_gas 350 200000 y), k, e. exact H.
Qed.

(* ---- a call that stops at once returns compositions it has not checked ---- *)
(* The guesses below have equal fugacities, so the call returns at its first iteration; but it returns the split of the feed at the
   ratios of the guesses, and there the first component's fugacities differ by a factor of two. Any solver will do. *)
Definition third : comp := fun _ => / 3.
Definition xg3 : comp := fun i => if Nat.eqb i 0 then / 2 else / 4.
Definition yg3 : comp := fun i => if Nat.eqb i 1 then / 2 else / 4.
Definition liquid3 : sphase := {| s_T := 300; s_P := 101325; s_zs := xg3;
  s_lnphis := fun _ _ x i => match i with 0%nat => - ln 2 + 18 * ln 2 * (/ 2 - x 0%nat) | 1%nat => ln 2 | _ => 0 end |}.
Definition gas3 : sphase := {| s_T := 300; s_P := 101325; s_zs := yg3; s_lnphis := fun _ _ _ _ => 0 |}.
Definition K3 : comp := K_values (s_lnphis liquid3 300 101325) (s_lnphis gas3 300 101325) xg3 yg3.
Lemma K3_values : K3 0%nat = / 2 /\ K3 1%nat = 2 /\ K3 2%nat = 1.
Proof.
  unfold K3, K_values, liquid3, gas3, xg3. cbn. splits.
  - replace (- ln 2 + 18 * ln 2 * (/ 2 - / 2) - 0) with (- ln 2) by ring. rewrite exp_Ropp, exp_ln by lra. reflexivity.
  - rewrite Rminus_0_r. apply exp_ln. lra.
  - rewrite Rminus_0_r. apply exp_0.
Qed.
Lemma RR3_unique V x y : Rachford_Rice 3 third K3 V x y -> V = / 2 /\ x 0%nat = 4 / 9 /\ x 1%nat = 2 / 9 /\ x 2%nat = / 3 /\ y 0%nat = 2 / 9 /\ y 1%nat = 4 / 9 /\ y 2%nat = / 3.
Proof.
  intros [B [E [SX SY]]]. destruct K3_values as [A0 [A1 A2]].
  pose proof (B 0%nat ltac:(lia)) as B0. pose proof (B 1%nat ltac:(lia)) as B1. pose proof (B 2%nat ltac:(lia)) as B2.
  pose proof (E 0%nat ltac:(lia)) as E0. pose proof (E 1%nat ltac:(lia)) as E1. pose proof (E 2%nat ltac:(lia)) as E2.
  rewrite A0 in E0. rewrite A1 in E1. rewrite A2 in E2. cbn [rsum] in SX, SY. unfold third in *.
  set (a := x 0%nat) in *. set (b := x 1%nat) in *. set (c := x 2%nat) in *. rewrite E0 in *. rewrite E1 in *. rewrite E2 in *.
  (* sums: a + b + c = 1, a/2 + 2 b + c = 1 *)
  assert (Q : a = 2 * b) by lra. assert (C : c = / 3) by nra. assert (b = 2 / 9) by lra. assert (a = 4 / 9) by lra.
  assert (V = / 2) by (rewrite H in B1; lra). splits; lra.
Qed.
Theorem C52_first_iteration_refuted : forall inner V0 maxiter tol triv, solves 3 inner -> inner third K3 V0 <> None ->
  (1 <= maxiter)%nat -> 0 < tol -> triv <= 4 / 9 ->
  composition 3 third /\ composition 3 xg3 /\ composition 3 yg3 /\ squared_mismatch 3 (s_lnphis liquid3 300 101325) (s_lnphis gas3 300 101325) xg3 yg3 = 0 /\
  exists x y l' g' err, sequential_substitution_2P 3 inner 300 101325 third xg3 yg3 liquid3 gas3 maxiter tol triv V0 = Returns (Some (/ 2)) x y l' g' 0 err /\
    y 0%nat <> 0 /\ fugacity_mismatch (s_lnphis liquid3 300 101325) (s_lnphis gas3 300 101325) x y 0 = 1.
Proof.
  intros inner V0 maxiter tol triv Sol In M Tp Tr. destruct K3_values as [A0 [A1 A2]].
  assert (CT : composition 3 third). { split; [intros; unfold third; lra|]. cbn. unfold third. field. }
  assert (CX : composition 3 xg3). { split; [intros i _; unfold xg3; destruct (Nat.eqb i 0); lra|]. cbn. unfold xg3. cbn. field. }
  assert (CY : composition 3 yg3). { split; [intros i _; unfold yg3; destruct (Nat.eqb i 1); lra|]. cbn. unfold yg3. cbn. field. }
  assert (E0 : squared_mismatch 3 (s_lnphis liquid3 300 101325) (s_lnphis gas3 300 101325) xg3 yg3 = 0).
  { rewrite <- ss_err_spec. fold K3. unfold ss_err, yg3, xg3. cbn. unfold Reqb.
    destruct (Req_EM_T (/ 4) 0); [lra|]. destruct (Req_EM_T (/ 2) 0); [lra|]. rewrite A0, A1, A2. field. }
  splits; auto.
  destruct maxiter as [|maxiter]; [lia|]. unfold sequential_substitution_2P. rewrite ss_2P_gloop, !at_TP_lnphis. cbn [gloop].
  fold K3. destruct (inner third K3 V0) as [[[V x] y]|] eqn:I; [|congruence].
  destruct (RR3_unique V x y (Sol _ _ _ _ _ _ I)) as [HV [X0 [X1 [X2 [Y0 [Y1 Y2]]]]]].
  assert (MX : make_positive 3 x = x). { symmetry. apply make_positive_det. left. split; [|auto]. intros [|[|[|i]]] Hi; try lia; rewrite ?X0, ?X1, ?X2; lra. }
  assert (MY : make_positive 3 y = y). { symmetry. apply make_positive_det. left. split; [|auto]. intros [|[|[|i]]] Hi; try lia; rewrite ?Y0, ?Y1, ?Y2; lra. }
  cbv zeta. rewrite MX, MY. rewrite <- ss_err_spec in E0. fold K3 in E0. rewrite E0.
  replace (cycling 0 0 0 0 0) with false. 2:{ unfold cycling. destruct (Rltb_spec 0 0); [lra|reflexivity]. }
  rewrite comp_difference_spec. replace (distance 3 x y) with (4 / 9).
  2:{ unfold distance. cbn [rsum]. rewrite X0, X1, X2, Y0, Y1, Y2. rewrite (Rabs_right (4 / 9 - 2 / 9)) by lra. rewrite (Rabs_left (2 / 9 - 4 / 9)) by lra.
      replace (/ 3 - / 3) with 0 by ring. rewrite Rabs_R0. field. }
  destruct (Rltb_spec (4 / 9) triv); [lra|]. destruct (Rltb_spec 0 tol); [|lra]. cbn [Nat.eqb with_phases].
  rewrite HV. do 5 eexists. split; [reflexivity|]. split; [rewrite Y0; lra|]. unfold fugacity_mismatch. cbn [liquid3 gas3 s_lnphis].
  rewrite X0, Y0. replace (- ln 2 + 18 * ln 2 * (/ 2 - 4 / 9)) with 0 by field. rewrite exp_0. field.
Qed.
(* such a solver exists *)
Example C52_first_iteration_hypotheses_met : exists inner, solves 3 inner /\ inner third K3 None <> None.
Proof.
  set (xa := fun i => match i with 0%nat => 4 / 9 | 1%nat => 2 / 9 | _ => / 3 end). set (ya := fun i => match i with 0%nat => 2 / 9 | 1%nat => 4 / 9 | _ => / 3 end).
  exists (one_solver 3 third K3 (/ 2) xa ya). split; [|rewrite one_solver_same; discriminate]. apply one_solver_solves.
  destruct K3_values as [A0 [A1 A2]]. unfold Rachford_Rice, split_balance, third, xa, ya. splits.
  - intros [|[|[|i]]] I; try lia; field.
  - intros [|[|[|i]]] I; try lia; rewrite ?A0, ?A1, ?A2; field.
  - cbn. field.
  - cbn. field.
Qed.

(* ---- the version that works on arguments of the fugacity functions ---- *)
(* It behaves the same, except that the trivial solution test is on the iterate itself and not on the next one. *)
Theorem C52_functional_iterations : forall N inner z x0 y0 fl fg maxiter tol triv V0,
  let o := sequential_substitution_2P_functional N inner z x0 y0 fl fg maxiter tol triv V0 in
  exists Vs X Y, Vs 0%nat = V0 /\ X 0%nat = x0 /\ Y 0%nat = y0 /\
  let E := fun j => squared_mismatch N fl fg (X j) (Y j) in
  let step := substitution_step N inner fl fg z Vs X Y in
  let goes_on := fun j => step j /\ calm E j /\ triv <= distance N (X j) (Y j) /\ tol <= E j in
  ((forall j, (j < maxiter)%nat -> goes_on j) /\ o = FFails Unconverged) \/
  exists k, (k < maxiter)%nat /\ (forall j, (j < k)%nat -> goes_on j) /\
    ((inner z (K_values fl fg (X k) (Y k)) (Vs k) = None /\ o = FFails Inner_failed) \/
     (step k /\ ~ calm E k /\ o = FFails Oscillation) \/
     (step k /\ calm E k /\ distance N (X k) (Y k) < triv /\ o = FFails Trivial) \/
     (step k /\ calm E k /\ triv <= distance N (X k) (Y k) /\ E k < tol /\
      o = let r := Nat.max k 1 in FReturns (Vs r) (X r) (Y r) k (E k))).
Proof.
  intros N inner z x0 y0 fl fg maxiter tol triv V0 o.
  set (tr := fun (xs ys _ _ : vec) => Rltb (comp_difference N xs ys) triv).
  exists (tV N inner z fl fg V0 x0 y0), (tX N inner z fl fg V0 x0 y0), (tY N inner z fl fg V0 x0 y0).
  split; [reflexivity|]. split; [reflexivity|]. split; [reflexivity|]. cbv zeta.
  assert (O : o = gloop N inner z fl fg tr tol maxiter 0 V0 x0 y0 0 0 0 0).
  { unfold o, sequential_substitution_2P_functional. rewrite ss_functional_gloop. reflexivity. }
  clearbody o. subst o.
  assert (TT : forall j, tr (tX N inner z fl fg V0 x0 y0 j) (tY N inner z fl fg V0 x0 y0 j) (tX N inner z fl fg V0 x0 y0 (S j)) (tY N inner z fl fg V0 x0 y0 (S j)) =
                Rltb (distance N (tX N inner z fl fg V0 x0 y0 j) (tY N inner z fl fg V0 x0 y0 j)) triv).
  { intro j. unfold tr. rewrite comp_difference_spec. reflexivity. }
  assert (GO : forall j, proceeds N inner z fl fg tr tol V0 x0 y0 j ->
     substitution_step N inner fl fg z (tV N inner z fl fg V0 x0 y0) (tX N inner z fl fg V0 x0 y0) (tY N inner z fl fg V0 x0 y0) j /\
     calm (tE N inner z fl fg V0 x0 y0) j /\ triv <= distance N (tX N inner z fl fg V0 x0 y0 j) (tY N inner z fl fg V0 x0 y0 j) /\ tol <= tE N inner z fl fg V0 x0 y0 j).
  { intros j [A [B [C D]]]. splits; auto. rewrite TT in C.
    destruct (Rltb_spec (distance N (tX N inner z fl fg V0 x0 y0 j) (tY N inner z fl fg V0 x0 y0 j)) triv); [discriminate|lra]. }
  destruct (gloop_outcome N inner z fl fg tr tol V0 x0 y0 maxiter) as [[k [A [B C]]]|[A B]].
  - right. exists k. split; [auto|]. split; [intros j J; apply GO, B, J|].
    destruct C as [[C1 C2]|[[C1 [C2 C3]]|[[C1 [C2 [C3 C4]]]|[C1 [C2 [C3 [C4 C5]]]]]]].
    + left. split; [auto|]. exact C2.
    + right; left. splits; auto.
    + right; right; left. rewrite TT in C3. splits; auto.
      destruct (Rltb_spec (distance N (tX N inner z fl fg V0 x0 y0 k) (tY N inner z fl fg V0 x0 y0 k)) triv); [auto|discriminate].
    + right; right; right. rewrite TT in C3.
      destruct (Rltb_spec (distance N (tX N inner z fl fg V0 x0 y0 k) (tY N inner z fl fg V0 x0 y0 k)) triv); [discriminate|].
      splits; auto; [lra|]. rewrite C5. destruct k; cbn [Nat.eqb]; [reflexivity|].
      replace (Nat.max (S k) 1) with (S k) by lia. reflexivity.
  - left. split; [intros j J; apply GO, A, J|]. exact B.
Qed.

(* the flasher's method, by either version *)
Theorem C52_flasher_returned : forall N inner functional T P z x0 y0 l g V0 maxiter tol triv V x y l' g' k err, solves N inner ->
  flasher_ss_2P N inner functional T P z x0 y0 l g V0 maxiter tol triv = Returns V x y l' g' k err ->
  (k < maxiter)%nat /\ err < tol /\ ((1 <= k)%nat \/ functional = false -> triv <= distance N x y) /\ composition N x /\ composition N y /\
  l' = phase_at l T P x /\ g' = phase_at g T P y /\
  (exists v, V = Some v /\ ((forall i, (i < N)%nat -> 0 <= z i) -> 0 <= v <= 1 -> split_balance N z v x y)) /\
  ((1 <= k)%nat -> forall i, (i < N)%nat -> y i <> 0 -> Rabs (fugacity_mismatch (s_lnphis l T P) (s_lnphis g T P) x y i) < sqrt tol).
Proof.
  intros N inner functional T P z x0 y0 l g V0 maxiter tol triv V x y l' g' k err Sol H. destruct functional; cbn [flasher_ss_2P] in H.
  2:{ destruct (C52_returned _ _ _ _ _ _ _ _ _ _ _ _ _ _ _ _ _ _ _ _ Sol H) as [A1 [A2 [A3 [A4 [A5 [A6 [A7 [A8 A9]]]]]]]]. splits; auto. }
  rewrite !at_TP_lnphis in H.
  destruct (C52_functional_iterations N inner z x0 y0 (s_lnphis l T P) (s_lnphis g T P) maxiter tol triv V0) as [Vs [X [Y [_ [_ [_ C]]]]]]. cbv zeta in C.
  destruct (sequential_substitution_2P_functional _ _ _ _ _ _ _ _ _ _ _) as [V' x' y' k0 e'|]; [|discriminate].
  injection H; intros. subst V' x' y' k0 e'. clear H. rewrite at_TP_to in H2, H3.
  destruct C as [[_ C]|[k' [Kk [B C]]]]; [discriminate|].
  destruct C as [[_ C]|[[_ [_ C]]|[[_ [_ [_ C]]]|[S1 [_ [Tr [El C]]]]]]]; try discriminate.
  injection C; intros; subst. clear C.
  assert (ST : exists j, Nat.max k' 1 = S j /\ substitution_step N inner (s_lnphis l T P) (s_lnphis g T P) z Vs X Y j).
  { destruct k' as [|k']; [exists 0%nat; splits; auto|]. exists k'. split; [lia|]. destruct (B k') as [U _]; [lia|]. auto. }
  destruct ST as [j [J [v [xr [yr [I1 [I2 [I3 I4]]]]]]]]. rewrite J in *.
  pose proof (Sol _ _ _ _ _ _ I1) as RR. destruct RR as [RB [RK [RX RY]]].
  splits; auto.
  - intros [K1|K1]; [|discriminate]. replace (S j) with k' by lia. exact Tr.
  - split; [apply (normalised_nonneg N xr); auto|apply (normalised_sum N xr); auto].
  - split; [apply (normalised_nonneg N yr); auto|apply (normalised_sum N yr); auto].
  - exists v. split; [auto|]. intros Z Hv.
    pose proof (RR_nonneg N z _ v xr yr (conj RB (conj RK (conj RX RY))) Z (fun i _ => exp_pos _) Hv) as NN.
    rewrite (normalised_same N xr _ I3), (normalised_same N yr _ I4); auto; intros i I; apply NN; auto.
  - intros K1 i I D. destruct k' as [|k']; [lia|]. assert (j = k') by lia. subst j.
    apply (squared_mismatch_bound N); auto.
Qed.

(* at the first iteration the functional version can return two phases of (nearly) one composition, the trivial solution *)
Definition liquid4 : sphase := {| s_T := 300; s_P := 101325; s_zs := third; s_lnphis := fun _ _ _ i => match i with 0%nat => 0 | 1%nat => ln 2 | _ => - ln 2 end |}.
Definition xg4 : comp := fun i => if Nat.eqb i 2 then / 2 else / 4.
Definition yg4 : comp := fun i => if Nat.eqb i 1 then / 2 else / 4.
Definition K4 : comp := fun i => match i with 0%nat => 1 | 1%nat => 2 | _ => / 2 end.
Definition feed4 (e : R) : comp := fun i => if Nat.eqb i 0 then 1 - 2 * e else e.
Lemma K4_values x y : K_values (s_lnphis liquid4 300 101325) (s_lnphis gas3 300 101325) x y = K4.
Proof.
  apply functional_extensionality. intro i. unfold K_values, K4, liquid4, gas3. cbn. destruct i as [|[|i]]; rewrite Rminus_0_r; [apply exp_0|apply exp_ln; lra|].
  rewrite exp_Ropp, exp_ln by lra. reflexivity.
Qed.
Theorem C52_functional_trivial_refuted : forall triv V0 maxiter tol, 0 < triv <= 1 / 2 -> (1 <= maxiter)%nat -> 0 < tol ->
  exists e, 0 < e < / 2 /\ composition 3 (feed4 e) /\ forall inner, solves 3 inner -> inner (feed4 e) K4 V0 <> None ->
  exists V x y l' g' err, flasher_ss_2P 3 inner true 300 101325 (feed4 e) xg4 yg4 liquid4 gas3 V0 maxiter tol triv = Returns V x y l' g' 0 err /\
    distance 3 x y < triv.
Proof.
  intros triv V0 maxiter tol Tr M Tp. exists (triv / 4). assert (0 < triv / 4 < / 2) by lra. split; [auto|].
  split. { split; [intros i _; unfold feed4; destruct (Nat.eqb i 0); lra|]. cbn. unfold feed4. cbn. field. }
  intros inner Sol In. destruct maxiter as [|maxiter]; [lia|]. cbn [flasher_ss_2P]. rewrite !at_TP_lnphis.
  unfold sequential_substitution_2P_functional. rewrite ss_functional_gloop. cbn [gloop]. rewrite K4_values.
  destruct (inner (feed4 (triv / 4)) K4 V0) as [[[V x] y]|] eqn:I; [|congruence].
  destruct (Sol _ _ _ _ _ _ I) as [B [E [SX SY]]].
  set (e := triv / 4) in *.
  pose proof (B 0%nat ltac:(lia)) as B0. pose proof (B 1%nat ltac:(lia)) as B1. pose proof (B 2%nat ltac:(lia)) as B2.
  pose proof (E 0%nat ltac:(lia)) as E0. pose proof (E 1%nat ltac:(lia)) as E1. pose proof (E 2%nat ltac:(lia)) as E2.
  cbn [K4 feed4 Nat.eqb rsum] in *.
  set (a := x 0%nat) in *. set (b := x 1%nat) in *. set (c := x 2%nat) in *. rewrite E0, E1, E2 in *.
  assert (Q : b = c / 2) by lra. assert (HV : V = / 2).
  { assert (b <> 0). { intro Z. rewrite Z in B1. lra. } apply Rmult_eq_reg_l with b; [|auto]. lra. }
  rewrite HV in *. assert (b = 2 / 3 * e) by lra. assert (c = 4 / 3 * e) by lra. assert (a = 1 - 2 * e) by lra.
  assert (MX : make_positive 3 x = x). { symmetry. apply make_positive_det. left. split; [|auto]. intros [|[|[|i]]] Hi; try lia; fold a b c; lra. }
  assert (MY : make_positive 3 y = y). { symmetry. apply make_positive_det. left. split; [|auto]. intros [|[|[|i]]] Hi; try lia; rewrite ?E0, ?E1, ?E2; lra. }
  cbv zeta. rewrite MX, MY.
  assert (ER : ss_err 3 K4 xg4 yg4 = 0).
  { unfold ss_err, K4, xg4, yg4. cbn. unfold Reqb. destruct (Req_EM_T (/ 4) 0); [lra|]. destruct (Req_EM_T (/ 2) 0); [lra|]. field. }
  rewrite ER. replace (cycling 0 0 0 0 0) with false. 2:{ unfold cycling. destruct (Rltb_spec 0 0); [lra|reflexivity]. }
  rewrite comp_difference_spec. replace (distance 3 xg4 yg4) with (1 / 2).
  2:{ unfold distance, xg4, yg4. cbn. replace (/ 4 - / 4) with 0 by ring. rewrite Rabs_R0, (Rabs_left (/ 4 - / 2)), (Rabs_right (/ 2 - / 4)) by lra. field. }
  destruct (Rltb_spec (1 / 2) triv); [lra|]. destruct (Rltb_spec 0 tol); [|lra]. cbn [Nat.eqb].
  do 6 eexists. split; [reflexivity|]. unfold distance. cbn [rsum]. rewrite E0, E1, E2. fold a b c.
  replace (a - 1 * a) with 0 by ring. rewrite Rabs_R0, (Rabs_left (b - 2 * b)), (Rabs_right (c - / 2 * c)) by lra. unfold e in *. lra.
Qed.
Example C52_functional_trivial_hypotheses_met e : 0 < e < / 2 -> exists inner, solves 3 inner /\ inner (feed4 e) K4 None <> None.
Proof.
  intro He. set (xa := fun i => match i with 0%nat => 1 - 2 * e | 1%nat => 2 / 3 * e | _ => 4 / 3 * e end).
  set (ya := fun i => match i with 0%nat => 1 - 2 * e | 1%nat => 4 / 3 * e | _ => 2 / 3 * e end).
  exists (one_solver 3 (feed4 e) K4 (/ 2) xa ya). split; [|rewrite one_solver_same; discriminate]. apply one_solver_solves.
  unfold Rachford_Rice, split_balance, feed4, K4, xa, ya. splits.
  - intros [|[|[|i]]] I; try lia; cbn; field.
  - intros [|[|[|i]]] I; try lia; field.
  - cbn. field.
  - cbn. field.
Qed.
