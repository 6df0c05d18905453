(* C77: accelerated successive substitution. *)
From Coq Require Import Reals Lra Lia Arith List Bool.
From Verif Require Import Base BaseFacts Model_accss Spec_accss.
Import ListNotations.
Open Scope R_scope.

Section Substitution.
Variables (n : nat) (z : nat -> R) (lnphis_l lnphis_g : (nat -> R) -> nat -> R) (P : R)
  (inner : (nat -> R) -> (nat -> R) -> R -> option (R * (nat -> R) * (nat -> R)))
  (gdem : (nat -> R) -> (nat -> R) -> (nat -> R) -> (nat -> R) -> nat -> R).
Hypothesis P_pos : 0 < P.
(* what is assumed of flash_inner_loop: for positive K values, what it returns is a split of the feed with positive mole fractions *)
Hypothesis inner_ok : forall K g VF x y, (forall i, (i < n)%nat -> 0 < K i) -> inner z K g = Some (VF, x, y) -> positive_split n z K VF x y.

Lemma not_negative k x : (forall i, (i < k)%nat -> 0 < x i) -> any_negative k x = false.
Proof.
  induction k as [|k IH]; intros H; simpl; [reflexivity|]. rewrite IH by (intros; apply H; lia). rewrite Rltb_false by (specialize (H k ltac:(lia)); lra). reflexivity.
Qed.
Lemma repaired_id x : (forall i, (i < n)%nat -> 0 < x i) -> repaired n x = x.
Proof. intros H. unfold repaired. rewrite not_negative by auto. reflexivity. Qed.

(* what holds of the variables at the start of an iteration *)
Definition sound (it : nat) (v : vars) : Prop :=
  List.length (past v) = it /\ forall i, (i < n)%nat -> 0 < xs v i /\ 0 < ys v i /\ ys v i = Ks v i * xs v i.

Lemma iterate_sound newK tol triv (Q : nat -> vars -> Prop) :
  (forall it v, sound it v -> exists K p, newK it v = Some (K, p) /\ List.length p = S it /\ (forall i, (i < n)%nat -> 0 < K i) /\
     (Q it v -> rsum n (fun i => (K i * xs v i / ys v i - 1) * (K i * xs v i / ys v i - 1)) = fugacity_error n lnphis_l lnphis_g P (xs v) (ys v))) ->
  forall left it v, sound it v -> 
  match iterate n z inner newK tol triv left it v with
  | IndexErr => False
  | InnerErr => exists K g, (forall i, (i < n)%nat -> 0 < K i) /\ inner z K g = None
  | Returned V x y xl yg k err => (it <= k < it + left)%nat /\ err < tol /\ triv <= rsum n (fun i => Rabs (x i - y i)) /\
      (exists K, positive_split n z K V x y) /\ (forall i, (i < n)%nat -> 0 < xl i /\ 0 < yg i) /\
      ((forall u, Q k u) -> err = fugacity_error n lnphis_l lnphis_g P xl yg)
  | _ => True
  end.
Proof.
  intros HK. induction left as [|left IH]; intros it v Hs; simpl; [exact I|].
  destruct (HK it v Hs) as (K & p & E & Lp & PK & HQ). rewrite E.
  destruct (inner z K (VF v)) as [[[V x] y]|] eqn:EI; [|exists K, (VF v); auto]. pose proof (inner_ok _ _ _ _ _ PK EI) as S. destruct S as (Sx & Sy & S).
  rewrite !repaired_id by (intros i Hi; apply (S i Hi)).
  destruct (Rltb_spec (rsum n (fun i => Rabs (x i - y i))) triv) as [T|T]; [exact I|].
  match goal with |- context [Rltb ?e tol] => destruct (Rltb_spec e tol) as [C|C] end.
  - split; [lia|]. split; [exact C|]. split; [lra|]. split; [exists K; split; [exact Sx|split; [exact Sy|exact S]]|]. split.
    + intros i Hi. destruct Hs as [_ Hs]. destruct (Hs i Hi) as (A & B & _). split; auto.
    + intros Hq. apply HQ. apply Hq.
  - assert (Hs' : sound (Datatypes.S it) {| xs := x; ys := y; VF := V; Ks := K; past := p |}).
    { split; [exact Lp|]. simpl. intros i Hi. destruct (S i Hi) as (A & B & D & _). auto. }
    specialize (IH (Datatypes.S it) _ Hs'). destruct (iterate n z inner newK tol triv left _ _); auto.
    destruct IH as (A & B). split; [lia|exact B].
Qed.

Lemma sq_error (K x y : nat -> R) (v : R) : v = v -> (forall i, (i < n)%nat -> 0 < x i /\ 0 < y i) ->
  (forall i, (i < n)%nat -> K i = exp (lnphis_l x i) / exp (lnphis_g y i)) ->
  rsum n (fun i => (K i * x i / y i - 1) * (K i * x i / y i - 1)) = fugacity_error n lnphis_l lnphis_g P x y.
Proof.
  intros _ Hp HK. unfold fugacity_error. apply rsum_ext. intros i Hi. rewrite (HK i Hi). destruct (Hp i Hi).
  pose proof (exp_pos (lnphis_g y i)). 
  replace (P * x i * exp (lnphis_l x i) / (P * y i * exp (lnphis_g y i))) with (exp (lnphis_l x i) / exp (lnphis_g y i) * x i / y i) by (field; repeat split; lra).
  ring.
Qed.

Lemma start_sound xg yg Vg : (forall i, (i < n)%nat -> 0 < xg i /\ 0 < yg i) -> sound 0 (start xg yg Vg).
Proof. intros H. split; [reflexivity|]. simpl. intros i Hi. destruct (H i Hi). repeat split; auto. field. lra. Qed.

(* GDEM3: no IndexError; a returned result is a split of the feed that is not trivial; its error is below the tolerance, and is the error
   of the fugacities of the phases returned unless the last iteration was an accelerated one (5, 10, 15, ...) *)
Theorem C77_GDEM3 maxiter tol triv f d xg yg Vg : (forall i, (i < n)%nat -> 0 < xg i /\ 0 < yg i) ->
  match GDEM3_2P n z lnphis_l lnphis_g inner gdem maxiter tol triv f d xg yg Vg with
  | IndexErr => False
  | InnerErr => exists K g, (forall i, (i < n)%nat -> 0 < K i) /\ inner z K g = None
  | Returned V x y xl yg k err => (k < maxiter)%nat /\ err < tol /\ triv <= rsum n (fun i => Rabs (x i - y i)) /\
      (exists K, positive_split n z K V x y) /\
      (~ (exists m, (1 <= m)%nat /\ k = (5 * m)%nat) -> err = fugacity_error n lnphis_l lnphis_g P xl yg)
  | _ => True
  end.
Proof.
  intros H. unfold GDEM3_2P.
  assert (G := iterate_sound (GDEM3_K lnphis_l lnphis_g gdem f d) tol triv (fun it _ => ~ (exists m, (1 <= m)%nat /\ it = (5 * m)%nat))).
  match type of G with ?A -> _ => assert (X : A) end.
  { intros it v [Lp Hs]. unfold GDEM3_K.
    destruct (Nat.eqb (it mod 5) 0 && Nat.ltb 4 it) eqn:E.
    - apply andb_prop in E. destruct E as [E1 E2]. apply Nat.eqb_eq in E1. apply Nat.ltb_lt in E2.
      destruct (past v) as [|a [|b [|c r]]] eqn:EP; simpl in Lp; try lia.
      eexists; eexists. split; [reflexivity|]. split; [simpl; lia|]. split; [intros; apply exp_pos|]. intros Q. exfalso. apply Q. exists (it / 5)%nat.
      pose proof (Nat.div_mod it 5 ltac:(lia)). split; lia.
    - eexists; eexists. split; [reflexivity|]. split; [simpl; lia|]. split; [intros; apply exp_pos|]. intros _.
      apply (sq_error _ _ _ 0 eq_refl); [intros i Hi; destruct (Hs i Hi) as (A & B & _); auto|].
      intros i Hi. unfold Rminus. rewrite exp_plus, exp_Ropp. reflexivity. }
  specialize (G X maxiter 0%nat (start xg yg Vg) (start_sound xg yg Vg H)).
  destruct (iterate _ _ _ _ _ _ _ _ _); auto.
  destruct G as (A & B & C & D & _ & E). split; [lia|]. split; [exact B|]. split; [exact C|]. split; [exact D|]. intros Q. apply E. intros _. exact Q.
Qed.

(* the arguments that should set when to accelerate have no effect *)
Theorem C77_GDEM3_arguments_refuted maxiter tol triv f d f' d' xg yg Vg :
  GDEM3_2P n z lnphis_l lnphis_g inner gdem maxiter tol triv f d xg yg Vg = GDEM3_2P n z lnphis_l lnphis_g inner gdem maxiter tol triv f' d' xg yg Vg.
Proof. reflexivity. Qed.

(* Mehra: the same, accelerated at the multiples of acc_frequency after acc_delay *)
Theorem C77_Mehra maxiter tol triv f d lmax lmin xg yg Vg : (0 < f)%nat -> (forall i, (i < n)%nat -> 0 < xg i /\ 0 < yg i) ->
  match Mehra_2P n z lnphis_l lnphis_g P inner maxiter tol triv f d lmax lmin xg yg Vg with
  | IndexErr => False
  | InnerErr => exists K g, (forall i, (i < n)%nat -> 0 < K i) /\ inner z K g = None
  | Returned V x y xl yg k err => (k < maxiter)%nat /\ err < tol /\ triv <= rsum n (fun i => Rabs (x i - y i)) /\
      (exists K, positive_split n z K V x y) /\
      (~ ((d < k)%nat /\ exists m, k = (f * m)%nat) -> err = fugacity_error n lnphis_l lnphis_g P xl yg)
  | _ => True
  end.
Proof.
  intros Hf H. unfold Mehra_2P.
  assert (G := iterate_sound (Mehra_K lnphis_l lnphis_g P f d lmax lmin) tol triv (fun it _ => ~ ((d < it)%nat /\ exists m, it = (f * m)%nat))).
  match type of G with ?A -> _ => assert (X : A) end.
  { intros it v [Lp Hs]. unfold Mehra_K.
    assert (PK : forall i, (i < n)%nat -> 0 < Ks v i).
    { intros i Hi. destruct (Hs i Hi) as (A & B & D). replace (Ks v i) with (ys v i / xs v i) by (rewrite D; field; lra). apply Rdiv_lt_0_compat; auto. }
    destruct (Nat.eqb (it mod f) 0 && Nat.ltb d it) eqn:E.
    - apply andb_prop in E. destruct E as [E1 E2]. apply Nat.eqb_eq in E1. apply Nat.ltb_lt in E2.
      destruct (past v) as [|a r] eqn:EP; simpl in Lp; try lia.
      eexists; eexists. split; [reflexivity|]. split; [simpl; lia|]. split; [intros i Hi; apply Rmult_lt_0_compat; [apply PK; auto|unfold Rpower; apply exp_pos]|]. intros Q. exfalso. apply Q. split; [exact E2|]. exists (it / f)%nat.
      pose proof (Nat.div_mod it f ltac:(lia)). lia.
    - eexists; eexists. split; [reflexivity|]. split; [simpl; lia|]. split.
      { intros i Hi. destruct (Hs i Hi) as (A & B & _). pose proof (exp_pos (lnphis_g (ys v) i)). pose proof (exp_pos (lnphis_l (xs v) i)). pose proof (PK i Hi).
        apply Rdiv_lt_0_compat; repeat apply Rmult_lt_0_compat; auto. }
      intros _.
      apply (sq_error _ _ _ 0 eq_refl); [intros i Hi; destruct (Hs i Hi) as (A & B & _); auto|].
      intros i Hi. destruct (Hs i Hi) as (A & B & D). cbv beta.
      assert (EK : Ks v i = ys v i / xs v i) by (rewrite D; field; lra). rewrite EK. pose proof (exp_pos (lnphis_g (ys v) i)). field. repeat split; lra. }
  specialize (G X maxiter 0%nat (start xg yg Vg) (start_sound xg yg Vg H)).
  destruct (iterate _ _ _ _ _ _ _ _ _); auto.
  destruct G as (A & B & C & D & _ & E). split; [lia|]. split; [exact B|]. split; [exact C|]. split; [exact D|]. intros Q. apply E. intros _. exact Q.
Qed.

(* the accelerated step of Mehra: the ratio of the plain K value to the last one, to a power between lambda_min and lambda_max that is
   g^2 / (g_old (g - g_old)) in size, g being the logarithm of the ratio of fugacities *)
Theorem C77_Mehra_step f d lmax lmin it v g_old r : sound it v -> (d < it)%nat -> it mod f = 0%nat -> past v = g_old :: r -> lmin <= lmax ->
  exists K g p, Mehra_K lnphis_l lnphis_g P f d lmax lmin it v = Some (K, p) /\ p = g :: past v /\
  (forall i, (i < n)%nat -> g i = ln (ys v i * exp (lnphis_g (ys v) i) / (xs v i * exp (lnphis_l (xs v) i)))) /\
  (forall i, (i < n)%nat -> exists lambda, lmin <= lambda <= lmax /\
     (lmin <= Rabs (g i ^ 2 / (g_old i * (g i - g_old i))) <= lmax -> lambda = Rabs (g i ^ 2 / (g_old i * (g i - g_old i)))) /\
     K i = Ks v i * Rpower (exp (lnphis_l (xs v) i) / exp (lnphis_g (ys v) i) / Ks v i) lambda).
Proof.
  intros [Lp Hs] Hd Hm Hp Hl. unfold Mehra_K. rewrite Hm, (proj2 (Nat.ltb_lt d it) Hd), Hp. simpl.
  eexists; eexists; eexists. split; [reflexivity|]. split; [reflexivity|]. split.
  - intros i Hi. destruct (Hs i Hi) as (A & B & _). pose proof (exp_pos (lnphis_g (ys v) i)). pose proof (exp_pos (lnphis_l (xs v) i)).
    assert (LD : forall a b, 0 < a -> 0 < b -> ln (a / b) = ln a - ln b).
    { intros a b Ha Hb. unfold Rdiv. rewrite ln_mult, ln_Rinv by (auto; apply Rinv_0_lt_compat; auto). ring. }
    rewrite <- LD by (repeat apply Rmult_lt_0_compat; auto). f_equal. field. repeat split; lra.
  - intros i Hi. cbv beta. eexists. split; [|split; [|reflexivity]].
    + split; [apply Rmin_glb; [apply Rmax_r|exact Hl]|apply Rmin_r].
    + intros [H1 H2]. rewrite Rmult_1_r in *. rewrite Rmax_left by lra. rewrite Rmin_left by lra. reflexivity.
Qed.

(* without a guess of the vapour fraction the guess is one half *)
Theorem C77_default_guess maxiter tol triv f d lmax lmin xg yg :
  GDEM3_2P n z lnphis_l lnphis_g inner gdem maxiter tol triv f d xg yg None = GDEM3_2P n z lnphis_l lnphis_g inner gdem maxiter tol triv f d xg yg (Some (1 / 2)) /\
  Mehra_2P n z lnphis_l lnphis_g P inner maxiter tol triv f d lmax lmin xg yg None = Mehra_2P n z lnphis_l lnphis_g P inner maxiter tol triv f d lmax lmin xg yg (Some (1 / 2)).
Proof. split; reflexivity. Qed.

(* an accelerated step of Mehra with an exponent of one is a plain step *)
Theorem C77_Mehra_plain f d it v : sound it v -> (d < it)%nat -> it mod f = 0%nat -> forall K p, Mehra_K lnphis_l lnphis_g P f d 1 1 it v = Some (K, p) ->
  forall i, (i < n)%nat -> K i = exp (lnphis_l (xs v) i) / exp (lnphis_g (ys v) i).
Proof.
  intros [Lp Hs] Hd Hm K p E i Hi. unfold Mehra_K in E. rewrite Hm in E. rewrite (proj2 (Nat.ltb_lt d it) Hd) in E. simpl in E.
  destruct (past v) as [|a r]; [discriminate|]. injection E. intros _ <-. destruct (Hs i Hi) as (A & B & D).
  assert (PK : 0 < Ks v i) by (replace (Ks v i) with (ys v i / xs v i) by (rewrite D; field; lra); apply Rdiv_lt_0_compat; auto).
  pose proof (exp_pos (lnphis_g (ys v) i)). pose proof (exp_pos (lnphis_l (xs v) i)).
  rewrite (Rmin_right _ 1) by (apply Rmax_r). rewrite Rpower_1.
  - field. split; lra.
  - apply Rdiv_lt_0_compat; auto. apply Rdiv_lt_0_compat; auto.
Qed.
End Substitution.

(* two components with constant fugacity coefficients, K = 3 and 1/3, and a feed of equal parts: the second iteration returns the split *)
Example C77_hypotheses_met : exists (n : nat) (z K : nat -> R) VF x y, positive_split n z K VF x y /\ 1 / 100000 <= rsum n (fun i => Rabs (x i - y i)) /\
  fugacity_error n (fun _ i => ln (K i)) (fun _ _ => 0) 1 x y = 0.
Proof.
  exists 2%nat, (fun _ => 1 / 2), (fun i => match i with O => 3 | _ => 1 / 3 end), (1 / 2), (fun i => match i with O => 1 / 4 | _ => 3 / 4 end), (fun i => match i with O => 3 / 4 | _ => 1 / 4 end).
  assert (L : forall i : nat, (i < 2)%nat -> i = 0%nat \/ i = 1%nat) by (intros; lia).
  split; [|split].
  - split; [simpl; lra|split; [simpl; lra|]]. intros i Hi. destruct (L i Hi) as [-> | ->]; repeat split; lra.
  - simpl. rewrite Rabs_left by lra. rewrite Rabs_right by lra. lra.
  - unfold fugacity_error. simpl. rewrite !exp_ln by lra. rewrite exp_0. field.
Qed.
