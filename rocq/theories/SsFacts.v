(* The substitution loop follows the sequence of iterates until the first event. *)
From Coq Require Import Reals Lra Lia List Bool Arith FunctionalExtensionality.
From Verif Require Import Base BaseFacts Model_ss Spec_split.
Import ListNotations.
Open Scope R_scope.

Lemma make_positive_spec N v : normalised N v (make_positive N v).
Proof.
  unfold normalised, make_positive. destruct (existsb _ _) eqn:E.
  - right. split.
    + apply existsb_exists in E. destruct E as [i [I L]]. apply in_seq in I. exists i. split; [lia|]. destruct (Rltb_spec (v i) 0); [auto|discriminate].
    + apply functional_extensionality. intro i. cbv zeta. rewrite loop_rsum. unfold Rdiv. rewrite Rplus_0_l. ring.
  - left. split; [|auto]. intros i I. destruct (Rlt_le_dec (v i) 0) as [L|L]; [|auto].
    assert (F : existsb (fun i => Rltb (v i) 0) (seq 0 N) = true).
    { apply existsb_exists. exists i. split; [apply in_seq; lia|]. destruct (Rltb_spec (v i) 0); [auto|lra]. }
    congruence.
Qed.
Lemma normalised_det N raw v w : normalised N raw v -> normalised N raw w -> v = w.
Proof.
  intros [[A ->]|[[i [I B]] ->]] [[C ->]|[[j [J D]] ->]]; auto.
  - specialize (A j J). lra.
  - specialize (C i I). lra.
Qed.
Lemma make_positive_det N raw v : normalised N raw v -> v = make_positive N raw.
Proof. intro H. exact (normalised_det N raw v _ H (make_positive_spec N raw)). Qed.

Lemma normalised_nonneg N raw v : normalised N raw v -> forall i, (i < N)%nat -> 0 <= v i.
Proof.
  intros [[A ->]|[[j [J B]] ->]] i I; [auto|].
  assert (0 < rsum N (fun j => Rabs (raw j))).
  { apply Rlt_le_trans with (Rabs (raw j)); [apply Rabs_pos_lt; lra|].
    assert (E : Rabs (raw j) = rsum N (fun i => if Nat.eqb i j then Rabs (raw j) else 0)).
    { rewrite (rsum_single N j); [rewrite Nat.eqb_refl; auto|auto|]. intros k K D. destruct (Nat.eqb_spec k j); [lia|auto]. }
    rewrite E. apply rsum_le. intros k K. cbv beta. destruct (Nat.eqb_spec k j); [subst; lra|apply Rabs_pos]. }
  apply Rmult_le_pos; [apply Rabs_pos|]. apply Rlt_le, Rinv_0_lt_compat. auto.
Qed.
Lemma normalised_sum N raw v : normalised N raw v -> rsum N raw = 1 -> rsum N v = 1.
Proof.
  intros [[A ->]|[[j [J B]] ->]] S; [auto|].
  assert (0 < rsum N (fun j => Rabs (raw j))).
  { apply Rlt_le_trans with (Rabs (raw j)); [apply Rabs_pos_lt; lra|].
    assert (E : Rabs (raw j) = rsum N (fun i => if Nat.eqb i j then Rabs (raw j) else 0)).
    { rewrite (rsum_single N j); [rewrite Nat.eqb_refl; auto|auto|]. intros k K D. destruct (Nat.eqb_spec k j); [lia|auto]. }
    rewrite E. apply rsum_le. intros k K. cbv beta. destruct (Nat.eqb_spec k j); [subst; lra|apply Rabs_pos]. }
  rewrite rsum_div_r. field. lra.
Qed.

Lemma ss_err_spec N ll lg xs ys : ss_err N (K_values ll lg xs ys) xs ys = squared_mismatch N ll lg xs ys.
Proof.
  unfold ss_err, squared_mismatch. transitivity (0 + rsum N (fun i => if Req_EM_T (ys i) 0 then 0 else Rsqr (fugacity_mismatch ll lg xs ys i))); [|ring].
  rewrite <- loop_rsum. apply loop_ext. intros i s I. unfold Reqb. destruct (Req_EM_T (ys i) 0) as [E|E]; [ring|].
  cbv zeta. unfold fugacity_mismatch, K_values, Rsqr.
  replace (exp (ll xs i - lg ys i)) with (exp (ll xs i) / exp (lg ys i)) by (unfold Rminus; rewrite exp_plus, exp_Ropp; reflexivity).
  pose proof (exp_pos (lg ys i)). field. split; [auto|lra].
Qed.
Lemma comp_difference_spec N xs ys : comp_difference N xs ys = distance N xs ys.
Proof. unfold comp_difference, distance. rewrite loop_rsum. ring. Qed.
Lemma squared_mismatch_nonneg N ll lg xs ys : 0 <= squared_mismatch N ll lg xs ys.
Proof. apply rsum_nonneg. intros i I. destruct (Req_EM_T (ys i) 0); [lra|apply Rle_0_sqr]. Qed.
Lemma squared_mismatch_bound N ll lg xs ys t : squared_mismatch N ll lg xs ys < t ->
  forall i, (i < N)%nat -> ys i <> 0 -> Rabs (fugacity_mismatch ll lg xs ys i) < sqrt t.
Proof.
  intros H i I D. rewrite <- sqrt_Rsqr_abs. apply sqrt_lt_1; [apply Rle_0_sqr|pose proof (squared_mismatch_nonneg N ll lg xs ys); lra|].
  apply Rle_lt_trans with (squared_mismatch N ll lg xs ys); [|auto]. unfold squared_mismatch.
  set (f := fun j => if Req_EM_T (ys j) 0 then 0 else Rsqr (fugacity_mismatch ll lg xs ys j)).
  assert (E : Rsqr (fugacity_mismatch ll lg xs ys i) = rsum N (fun k => if Nat.eqb k i then f i else 0)).
  { rewrite (rsum_single N i); [rewrite Nat.eqb_refl; unfold f; destruct (Req_EM_T (ys i) 0); [contradiction|auto]|auto|].
    intros k K Dk. destruct (Nat.eqb_spec k i); [lia|auto]. }
  rewrite E. apply rsum_le. intros k K. cbv beta. destruct (Nat.eqb_spec k i); [subst; lra|]. unfold f.
  destruct (Req_EM_T (ys k) 0); [lra|apply Rle_0_sqr].
Qed.

(* the loop common to both versions: `triv` is the trivial solution test on the old and the new compositions *)
Section Generic.
Variable N : nat.
Variable inner : vec -> vec -> option R -> option (R * vec * vec).
Variable zs : vec.
Variables lnphi_l lnphi_g : vec -> vec.
Variable triv : vec -> vec -> vec -> vec -> bool.
Variable tol : R.
Let K (x y : vec) := K_values lnphi_l lnphi_g x y.

Fixpoint gloop (fuel iteration : nat) (V : option R) (xs ys : vec) (e1 e2 e3 : R) (inc : nat) : ssf_outcome :=
  match fuel with
  | O => FFails Unconverged
  | S fuel' =>
      match inner zs (K xs ys) V with
      | None => FFails Inner_failed
      | Some (V_new, xr, yr) =>
          let xs_new := make_positive N xr in
          let ys_new := make_positive N yr in
          let err := ss_err N (K xs ys) xs ys in
          if cycling err e1 e2 e3 inc then FFails Oscillation
          else if triv xs ys xs_new ys_new then FFails Trivial
          else if Rltb err tol then
            if Nat.eqb iteration 0 then FReturns (Some V_new) xs_new ys_new iteration err else FReturns V xs ys iteration err
          else gloop fuel' (S iteration) (Some V_new) xs_new ys_new err e1 e2 (count_increase err e1 inc)
      end
  end.

Variable V0 : option R.
Variables x0 y0 : vec.
(* the iterates; they stay where they are once the solver fails *)
Fixpoint traj (j : nat) : option R * vec * vec :=
  match j with
  | O => (V0, x0, y0)
  | S i => let '(V, x, y) := traj i in
      match inner zs (K x y) V with
      | None => (V, x, y)
      | Some (V', xr, yr) => (Some V', make_positive N xr, make_positive N yr)
      end
  end.
Definition tV j := fst (fst (traj j)).
Definition tX j := snd (fst (traj j)).
Definition tY j := snd (traj j).
Definition tE j := squared_mismatch N lnphi_l lnphi_g (tX j) (tY j).
Definition hist j m := if Nat.leb m j then tE (j - m) else 0.

Lemma jumps_S j : jumps tE (S j) = count_increase (tE j) (hist j 1) (jumps tE j).
Proof.
  cbn [jumps]. unfold count_increase, hist. destruct j as [|j].
  - cbn [Nat.eqb Nat.leb]. unfold Reqb. destruct (Req_EM_T 0 0); [cbn; lia|lra].
  - cbn [Nat.eqb]. replace (Nat.leb 1 (S j)) with true by (symmetry; apply Nat.leb_le; lia).
    replace (S j - 1)%nat with j by lia. set (a := tE j). set (b := tE (S j)).
    assert (A : 0 <= a) by apply squared_mismatch_nonneg. assert (B : 0 <= b) by apply squared_mismatch_nonneg.
    unfold Reqb. destruct (Req_EM_T a 0) as [Z|Z]; [cbn; lia|]. cbn [negb andb].
    assert (Q : Rabs (b / a) = b / a). { apply Rabs_right. apply Rle_ge. apply Rmult_le_pos; [auto|]. apply Rlt_le, Rinv_0_lt_compat. lra. }
    rewrite Q. destruct (Rltb_spec 20 (b / a)) as [L|L]; destruct (Rlt_dec (20 * a) b) as [M|M]; try lia; exfalso.
    + apply M. apply Rmult_lt_reg_r with (/ a); [apply Rinv_0_lt_compat; lra|]. replace (20 * a * / a) with 20 by (field; auto). exact L.
    + apply L. apply Rmult_lt_reg_r with a; [lra|]. replace (b / a * a) with b by (field; auto). exact M.
Qed.
Lemma cycling_calm j : cycling (tE j) (hist j 1) (hist j 2) (hist j 3) (jumps tE j) = false <-> calm tE j.
Proof.
  unfold cycling, calm. rewrite orb_false_iff, andb_false_iff, !orb_false_iff, Nat.ltb_ge.
  assert (H : forall m, (1 <= m)%nat -> 0 < tE j -> (Reqb (tE j) (hist j m) = false <-> ((m <= j)%nat -> tE j <> tE (j - m)))).
  { intros m M P. unfold hist. destruct (Nat.leb_spec m j).
    - unfold Reqb. destruct (Req_EM_T (tE j) (tE (j - m))); intuition congruence.
    - unfold Reqb. destruct (Req_EM_T (tE j) 0); [lra|]. split; [intros; lia|auto]. }
  split.
  - intros [A B]. split; [|auto]. intros m [M1 M3] Mj P. destruct A as [A|[[A1 A2] A3]].
    + destruct (Rltb_spec 0 (tE j)); [discriminate|lra].
    + assert (C : m = 1%nat \/ m = 2%nat \/ m = 3%nat) by lia.
      destruct C as [C|[C|C]]; subst m; apply (H _ M1 P); auto.
  - intros [A B]. split; [|auto]. destruct (Rltb_spec 0 (tE j)) as [P|P]; [|auto]. right.
    split; [split|]; (apply H; [lia|auto|intro; apply A; [lia|auto|auto]]).
Qed.

(* what happens at the iteration j *)
Definition proceeds j : Prop :=
  substitution_step N inner lnphi_l lnphi_g zs tV tX tY j /\ calm tE j /\ triv (tX j) (tY j) (tX (S j)) (tY (S j)) = false /\ tol <= tE j.
Definition event (j : nat) (o : ssf_outcome) : Prop :=
  (inner zs (K_values lnphi_l lnphi_g (tX j) (tY j)) (tV j) = None /\ o = FFails Inner_failed) \/
  (substitution_step N inner lnphi_l lnphi_g zs tV tX tY j /\ ~ calm tE j /\ o = FFails Oscillation) \/
  (substitution_step N inner lnphi_l lnphi_g zs tV tX tY j /\ calm tE j /\ triv (tX j) (tY j) (tX (S j)) (tY (S j)) = true /\ o = FFails Trivial) \/
  (substitution_step N inner lnphi_l lnphi_g zs tV tX tY j /\ calm tE j /\ triv (tX j) (tY j) (tX (S j)) (tY (S j)) = false /\ tE j < tol /\
   o = if Nat.eqb j 0 then FReturns (tV 1) (tX 1) (tY 1) 0 (tE 0) else FReturns (tV j) (tX j) (tY j) j (tE j)).

Lemma gloop_traj fuel : forall j,
  let o := gloop fuel j (tV j) (tX j) (tY j) (hist j 1) (hist j 2) (hist j 3) (jumps tE j) in
  (exists k, (j <= k < j + fuel)%nat /\ (forall i, (j <= i < k)%nat -> proceeds i) /\ event k o) \/
  ((forall i, (j <= i < j + fuel)%nat -> proceeds i) /\ o = FFails Unconverged).
Proof.
  induction fuel as [|fuel IH]; intro j; cbv zeta; match goal with |- (exists k, _ /\ _ /\ event k ?g) \/ _ => remember g as o eqn:Ho end; cbn [gloop] in Ho.
  { right. split; [intros; lia|exact Ho]. }
  assert (TS : traj (S j) = match inner zs (K (tX j) (tY j)) (tV j) with None => (tV j, tX j, tY j) | Some (V', xr, yr) => (Some V', make_positive N xr, make_positive N yr) end).
  { cbn [traj]. unfold tV, tX, tY. destruct (traj j) as [[V x] y]. reflexivity. }
  destruct (inner zs (K (tX j) (tY j)) (tV j)) as [[[V' xr] yr]|] eqn:I.
  2:{ left. exists j. split; [lia|]. split; [intros; lia|]. left. split; [exact I|exact Ho]. }
  assert (S1 : tV (S j) = Some V') by (unfold tV; rewrite TS; auto).
  assert (S2 : tX (S j) = make_positive N xr) by (unfold tX; rewrite TS; auto).
  assert (S3 : tY (S j) = make_positive N yr) by (unfold tY; rewrite TS; auto).
  assert (ST : substitution_step N inner lnphi_l lnphi_g zs tV tX tY j).
  { exists V', xr, yr. split; [exact I|]. split; [auto|]. rewrite S2, S3. split; apply make_positive_spec. }
  cbv zeta in Ho. unfold K in Ho. rewrite ss_err_spec in Ho. fold (tE j) in Ho. rewrite <- S2, <- S3, <- S1 in Ho.
  destruct (cycling (tE j) (hist j 1) (hist j 2) (hist j 3) (jumps tE j)) eqn:C.
  { left. exists j. split; [lia|]. split; [intros; lia|]. right; left. split; [auto|]. split; [|exact Ho].
    intro Q. apply cycling_calm in Q. congruence. }
  apply cycling_calm in C.
  destruct (triv (tX j) (tY j) (tX (S j)) (tY (S j))) eqn:TR.
  { left. exists j. split; [lia|]. split; [intros; lia|]. right; right; left. auto. }
  destruct (Rltb_spec (tE j) tol) as [L|L].
  { left. exists j. split; [lia|]. split; [intros; lia|]. right; right; right. splits; auto. rewrite Ho.
    destruct j; cbn [Nat.eqb]; reflexivity. }
  assert (PJ : proceeds j) by (unfold proceeds; splits; auto; lra).
  assert (HH : forall m, hist (S j) (S m) = if Nat.eqb m 0 then tE j else hist j m).
  { intro m. unfold hist. cbn [Nat.leb Nat.sub]. destruct m; cbn [Nat.eqb]; [rewrite Nat.sub_0_r; reflexivity|reflexivity]. }
  assert (OE : o = gloop fuel (S j) (tV (S j)) (tX (S j)) (tY (S j)) (hist (S j) 1) (hist (S j) 2) (hist (S j) 3) (jumps tE (S j))).
  { rewrite Ho, !HH, jumps_S. cbn [Nat.eqb]. reflexivity. }
  specialize (IH (S j)). cbv zeta in IH. rewrite <- OE in IH. destruct IH as [[k [Kk [A B]]]|[A B]].
  - left. exists k. split; [lia|]. split; [|exact B]. intros i Hi. destruct (Nat.eq_dec i j); [subst; auto|apply A; lia].
  - right. split; [|exact B]. intros i Hi. destruct (Nat.eq_dec i j); [subst; auto|apply A; lia].
Qed.

Lemma gloop_outcome fuel : let o := gloop fuel 0 V0 x0 y0 0 0 0 0 in
  (exists k, (k < fuel)%nat /\ (forall i, (i < k)%nat -> proceeds i) /\ event k o) \/
  ((forall i, (i < fuel)%nat -> proceeds i) /\ o = FFails Unconverged).
Proof.
  cbv zeta. destruct (gloop_traj fuel 0) as [[k [A [B C]]]|[A B]].
  - left. exists k. split; [lia|]. split; [intros; apply B; lia|exact C].
  - right. split; [intros; apply A; lia|exact B].
Qed.
End Generic.

(* both versions are this loop *)
Lemma ss_functional_gloop N inner zs ll lg tol tt fuel : forall it V xs ys e1 e2 e3 inc,
  ss_functional_loop N inner fuel it zs ll lg tol tt V xs ys e1 e2 e3 inc =
  gloop N inner zs ll lg (fun xs ys _ _ => Rltb (comp_difference N xs ys) tt) tol fuel it V xs ys e1 e2 e3 inc.
Proof.
  induction fuel as [|fuel IH]; intros; [reflexivity|]. cbn [ss_functional_loop gloop].
  change (fun i => exp (ll xs i - lg ys i)) with (K_values ll lg xs ys).
  destruct (inner zs (K_values ll lg xs ys) V) as [[[V' xr] yr]|]; [|reflexivity]. cbv zeta.
  destruct (cycling _ _ _ _ _); [reflexivity|]. destruct (Rltb (comp_difference N xs ys) tt); [reflexivity|].
  destruct (Rltb _ tol); [reflexivity|]. apply IH.
Qed.
Definition with_phases (T P : R) (l g : sphase) (o : ssf_outcome) : ss_outcome :=
  match o with FReturns V x y k e => Returns V x y (to_TP_zs l T P x) (to_TP_zs g T P y) k e | FFails e => Fails e end.
Lemma ss_2P_gloop N inner T P zs l g tol tt fuel : forall it V xs ys e1 e2 e3 inc,
  ss_2P_loop N inner fuel it T P zs l g tol tt V xs ys e1 e2 e3 inc =
  with_phases T P l g (gloop N inner zs (lnphis_at_zs l) (lnphis_at_zs g) (fun _ _ xs ys => Rltb (comp_difference N xs ys) tt) tol fuel it V xs ys e1 e2 e3 inc).
Proof.
  induction fuel as [|fuel IH]; intros; [reflexivity|]. cbn [ss_2P_loop gloop].
  change (fun i => exp (lnphis_at_zs l xs i - lnphis_at_zs g ys i)) with (K_values (lnphis_at_zs l) (lnphis_at_zs g) xs ys).
  destruct (inner zs (K_values _ _ xs ys) V) as [[[V' xr] yr]|]; [|reflexivity]. cbv zeta.
  destruct (cycling _ _ _ _ _); [reflexivity|]. destruct (Rltb (comp_difference N _ _) tt); [reflexivity|].
  destruct (Rltb _ tol); [destruct (Nat.eqb it 0); reflexivity|]. apply IH.
Qed.
Lemma at_TP_lnphis p T P z : lnphis_at_zs (at_TP p T P z) = s_lnphis p T P.
Proof.
  unfold at_TP. unfold Reqb. destruct (Req_EM_T (s_T p) T) as [<-|]; [|reflexivity]. destruct (Req_EM_T (s_P p) P) as [<-|]; [|reflexivity]. reflexivity.
Qed.
Lemma at_TP_to p T P z z' : to_TP_zs (at_TP p T P z) T P z' = to_TP_zs p T P z'.
Proof. unfold at_TP. destruct (_ || _)%bool; reflexivity. Qed.
